(** Scan: invariants along the pipeline. *)
From Coq Require Import String Ascii List Bool Arith ZArith Lia Permutation.
From Verif Require Import GoStr GoStrFacts Json JsonFacts Gabs Container Url Pointer Spec_Clone Spec_Merge CloneFacts MergeFacts MergeApi ConfigApi
  Spec_Loc LocFacts SetFacts Spec_Resolve ResolverFacts Path Resolver ScanFn Cmds Specs Spec_Specs SpecFacts Pkgs Types Root RootFacts Spec_Root SchemaJson Scan ScanFacts
  Spec_Types TypesFacts CollectFacts Spec_Schema SchemaFacts SchemaJsonFacts ScanTypes Spec_Scan.
Import ListNotations.
Local Open Scope string_scope.
Local Open Scope nat_scope.
Local Open Scope list_scope.

(** *** Visiting packages *)
Section Pkgs.
  Context {A : Type} (P : A -> Prop) (fn : nat -> A -> res (A * bool)) (std : string -> bool) (ord : nat -> list string -> list string) (srt : list string -> list string) (ps : pkgs).
  Hypothesis Hfn : forall i a a' b, i < length ps -> P a -> fn i a = Ok (a', b) -> P a'.
  Lemma visit_all_inv v l : (forall x s s', P (snd s) -> v x s = Ok s' -> P (snd s')) -> forall s s', P (snd s) -> @visit_all A v l s = Ok s' -> P (snd s').
  Proof. intro Hv. induction l as [|x l IH]; intros s s' Hs H; cbn [visit_all] in H; [now injection H as <-|]. apply bind_ok in H as (s1 & H1 & H). eapply IH; [|exact H]. eapply Hv; eassumption. Qed.
  Lemma visit_inv : forall fuel x s s', P (snd s) -> visit fn std ord srt ps fuel x s = Ok s' -> P (snd s').
  Proof.
    induction fuel as [|fuel IH]; intros x s s' Hs H; [discriminate|]. cbn [visit] in H. destruct x as [i|]; [|discriminate]. destruct s as [[seen errs] a]. destruct (existsb _ seen); [now injection H as <-|].
    destruct (nth_error ps i) as [pkg|] eqn:E; [|discriminate]. destruct (std (g_path pkg)); [now injection H as <-|]. apply bind_ok in H as ([[seen1 errs1] a1] & H1 & H). apply bind_ok in H as ([a2 b] & H2 & H). injection H as <-. cbn [snd fst] in *.
    eapply Hfn; [apply nth_error_Some; rewrite E; discriminate | | exact H2]. exact (visit_all_inv _ _ (fun x s s' => IH x s s') (i :: seen, errs ++ repeat (ELoad i) (g_errors pkg), a) _ Hs H1).
  Qed.
  Lemma scan_pkgs_inv fuel roots a r : P a -> scan_pkgs fn std ord srt ps fuel roots a = Ok r -> P (fst r).
  Proof. intros Ha H. unfold scan_pkgs in H. apply bind_ok in H as (s & H & E). injection E as <-. cbn [fst]. exact (visit_all_inv _ _ (fun x s0 s' => visit_inv fuel x s0 s') ([], [], a) _ Ha H). Qed.
End Pkgs.
Lemma scan_with_inv {A} (P : A -> Prop) a ch de n (fn : source -> nat -> A -> res (A * bool)) ss roots x r :
  (forall s i y y' b, In s ss -> P y -> fn s i y = Ok (y', b) -> P y') -> P x -> scan_with a ch de n fn ss roots x = Ok r -> P r.
Proof.
  intros Hfn Hx H. unfold scan_with in H. apply bind_ok in H as (q & Hq & H). destruct (snd q); [|discriminate]. injection H as <-.
  eapply scan_pkgs_inv; [|exact Hx | exact Hq]. intros i y y' b Hi Hy E. cbn beta in E. destruct (nth_error ss i) as [s|] eqn:Es; [|discriminate]. eapply Hfn; [eapply nth_error_In; exact Es | exact Hy | exact E].
Qed.

(** *** Types *)
Lemma scan_types_keys env fuel pkg scope ptrs : forall m m', scan_types env fuel pkg scope ptrs m = Ok m' ->
  forall T, In T (map fst m') -> In T (map fst m) \/ exists name o t, scope name = Some o /\ reachable env (o_type o) t /\ under env t = T.
Proof.
  induction ptrs as [|p ptrs IH]; intros m m' H T I; cbn [scan_types] in H; [injection H as <-; now left|]. apply bind_ok in H as (m1 & H1 & H).
  destruct (IH m1 m' H T I) as [I1|X]; [|now right]. destruct (negb (String.eqb (u_scheme (p_url p)) "go")); [injection H1 as <-; now left|]. destruct (negb (String.eqb pkg (pkg_path p))); [injection H1 as <-; now left|].
  destruct (frag_head (p_frag p)) as [h|]; [|injection H1 as <-; now left]. destruct (scope h) as [o|] eqn:Es; [|injection H1 as <-; now left]. unfold collect_types in H1. apply bind_ok in H1 as (r & _ & H1).
  destruct (walk_keys env _ _ _ _ _ _ H1 T I1) as [L|(t & Ht & Et)]; [now left | right; exists h, o, t; auto].
Qed.
Section GoTypes.
  Context {F : Type} (pf : string -> option F) (zero : F) (fnum : F -> num) (std : string -> option (schema F)) (a : around) (ch : choices) (de : depths).
  Lemma pts_found ss roots (pp : nat -> list ptr) pts :
    scan_with a ch de 2 (fun s i m => do m' <- scan_types (ar_env a) (de_walk de) (so_types s) (so_scope s) (pp i) m ; Ok (m', false)) ss roots [] = Ok pts ->
    forall T, In T (map fst pts) -> found_type (ar_env a) ss T.
  Proof.
    intro H. refine (scan_with_inv (fun m : pmap => forall T, In T (map fst m) -> found_type (ar_env a) ss T) _ _ _ _ _ _ _ _ _ _ _ H); [|intros T []].
    intros s i y y' b Is Hy E T I. apply bind_ok in E as (m' & E & E'). injection E' as <- <-. destruct (scan_types_keys _ _ _ _ _ _ _ E T I) as [I'|(name & o & t & X)]; [auto|]. exists s, name, o, t. tauto.
  Qed.
  Hypothesis Hstd : forall t s, std t = Some s -> sch_ok s /\ s_ref s = None.
  Lemma go_types_tidy ss pts : flat_env (ar_env a) -> (forall T, In T (map fst pts) -> found_type (ar_env a) ss T) -> (forall m, Permutation (ch_points ch m) m) ->
    (forall fs, found_type (ar_env a) ss (TStruct fs) -> handy pf (ar_env a) fs) ->
    tidy_fn (go_types pf zero fnum std a ch de pts).
  Proof.
    intros Hflat Hpts Hord Hh p x H. unfold go_types in H. apply bind_ok in H as (s & Hs & H). unfold scanner_resolve in Hs. destruct (pm_find (ch_points ch) pts p) as [t|] eqn:Ef; [|discriminate].
    assert (Ft : found_type (ar_env a) ss t).
    { unfold pm_find in Ef. destruct (find _ _) as [e|] eqn:Ee; [|discriminate]. injection Ef as <-. apply find_some in Ee as (I & _). apply Hpts. apply in_map. eapply Permutation_in; [apply Hord | exact I]. }
    assert (Ut : under (ar_env a) t = t) by (destruct Ft as (s0 & n0 & o0 & t0 & _ & _ & _ & <-); apply under_flat, Hflat).
    assert (So : sch_ok s). { eapply conv_sch; [exact Hstd | exact Hs|]. intros fs E. apply Hh. rewrite Ut in E. now rewrite <- E. }
    destruct (schema_json_canon fnum s So x H) as (W & K). split; [exact W|]. split; [exact K|]. intros text q (L & _).
    destruct (schema_json_noref fnum s x H (conv_noref pf zero (ar_env a) std _ _ _ _ _ _ _ Hs)) as (m & -> & Em). cbn in L. rewrite Em in L. discriminate.
  Qed.
End GoTypes.

(** *** Specification files *)
Lemma map_refs_keys_ok f j : keys_ok plain j -> keys_ok plain (map_refs f j).
Proof.
  induction j as [| | | |l H|m H] using json_induction; intro K; try exact K.
  - cbn [map_refs]. apply keys_ok_arr. apply keys_ok_arr in K as (L & K). rewrite map_length. split; [exact L|]. apply Forall_map. rewrite Forall_forall in *. auto.
  - rewrite map_refs_obj. apply keys_ok_obj. apply keys_ok_obj in K. apply Forall_map. rewrite Forall_forall in *. intros [k v] Hin. cbn [fst]. destruct (K _ Hin) as (Pk & Kv). split; [exact Pk|].
    unfold ref_val. cbn [fst snd]. specialize (H _ Hin Kv). cbn [snd] in *. destruct v; try exact H; destruct (String.eqb k "$ref"); exact I.
Qed.
(** A document that can be merged and resolved. *)
Lemma plain_doc_tidy j : plain_doc j -> tidy j.
Proof. intros (W & K & m & -> & E). split; [exact W|]. split; [exact K|]. intros t p (L & _). cbn in L. rewrite E in L. discriminate. Qed.
Lemma rewrite_refs_ok pkg refs : forall c pp c' pp', rewrite_refs pkg refs c pp = (Ok c', pp') -> forall k t, In (k, JStr t) refs -> ref_ok t.
Proof.
  induction refs as [|[k0 v] refs IH]; intros c pp c' pp' H k t I; [destruct I|]. cbn [rewrite_refs] in H. destruct v as [| | |x| |]; try (destruct I as [E|I]; [discriminate | eapply IH; eassumption]).
  destruct (ptr_parse x) as [p0| | |] eqn:Ep; try discriminate. destruct (c_setp _ _ c) as [c1| | |]; try discriminate. destruct I as [[= _ <-]|I]; [exists p0; exact Ep | eapply IH; eassumption].
Qed.
Lemma scan_files_docs ord pkg ff : (forall n l, Permutation (ord n l) l) -> (forall f, In f ff -> is_spec_doc (f_cont f) -> plain_doc (c_data (f_cont f))) ->
  forall n pp cc pp', scan_files ord n pkg ff pp = (Ok cc, pp') -> Forall (fun f => plain_doc (c_data (f_cont f))) cc.
Proof.
  intro Ho. induction ff as [|f ff IH]; intros G n pp cc pp' H; cbn [scan_files] in H; [injection H as <- _; constructor|].
  assert (G' : forall f', In f' ff -> is_spec_doc (f_cont f') -> plain_doc (c_data (f_cont f'))) by (intros f' I; apply G; now right).
  destruct (c_existsp "openapi" (f_cont f)) eqn:X; cbn [negb] in H; [|eapply IH; [exact G' | exact H]].
  apply existsp_openapi in X. pose proof (G f (or_introl eq_refl) X) as Pd. destruct X as (m & v & Ec & _). rewrite Ec in *. cbn [c_data] in *. destruct Pd as (W & K & m' & [= <-] & Nr).
  destruct (extract_key (ord n) "$ref" (Some (JObj m))) as [refs| | |] eqn:Er; try discriminate. destruct (rewrite_refs pkg refs (Some (JObj m)) pp) as [[c| | |] pp1] eqn:E1; try discriminate.
  destruct (scan_files ord (S n) pkg ff pp1) as [[cc'| | |] pp2] eqn:E2; try discriminate. injection H as <- <-.
  constructor; [|eapply IH; [exact G' | exact E2]]. cbn [f_cont].
  destruct (extracted (ord n) (JObj m) refs (Ho n) W K Er) as (_ & _ & _ & To).
  destruct (rewrite_doc (ord n) pkg (JObj m) refs pp (Ho n) W K Er) as (R1 & _). destruct R1 as (pp1' & R1 & _). { intros q t L. eapply rewrite_refs_ok; [exact E1|]. apply To. exact L. }
  assert (Eq : c = Some (map_refs (new_text pkg) (JObj m))) by congruence. subst c. unfold c_data. split; [exact (map_refs_wf _ _ W)|]. split; [now apply map_refs_keys_ok|]. rewrite map_refs_obj. eexists. split; [reflexivity|]. rewrite oget_map, Nr. reflexivity.
Qed.
Lemma read_each_in fs l ff : read_each fs l = Ok ff -> forall f, In f ff -> fs (f_path f) = Some (Ok (f_cont f)).
Proof.
  revert ff. induction l as [|p l IH]; intros ff H f I; cbn [read_each] in H; [injection H as <-; destruct I|]. destruct (fs p) as [x|] eqn:E; [|eapply IH; eassumption].
  apply bind_ok in H as (c & Hc & H). apply bind_ok in H as (cc & Hcc & H). injection H as <-. destruct I as [<-|I]; [cbn; now rewrite E, Hc | eapply IH; eassumption].
Qed.
Definition files_ok (fs : filesys) : Prop := forall path c, fs path = Some (Ok c) -> is_spec_doc c -> plain_doc (c_data c).
Lemma scan_specs_docs ord gopath missing fs s st st' b : (forall n l, Permutation (ord n l) l) -> files_ok fs -> Forall (fun f => plain_doc (c_data (f_cont f))) (sp_conts st) ->
  scan_specs ord gopath missing fs s st = Ok (st', b) -> Forall (fun f => plain_doc (c_data (f_cont f))) (sp_conts st').
Proof.
  intros Ho Hf Hs H. unfold scan_specs in H. destruct (get_pkg_path _ _ _ _) as [d| | |]; try (injection H as <- _; exact Hs). destruct (read_dir fs d) as [ff| | |] eqn:Er; try discriminate; [|injection H as <- _; exact Hs].
  destruct (scan_files ord 0 (ss_path s) ff (sp_ptrs st)) as [[cc| | |] pp] eqn:E; try discriminate; injection H as <- _; cbn [sp_conts]; [|exact Hs].
  apply Forall_app. split; [exact Hs|]. eapply scan_files_docs; [exact Ho | | exact E]. intros f I X. eapply Hf; [|exact X]. eapply read_each_in; eassumption.
Qed.

(** *** Merging *)
Lemma merged_keys_ok coll (Hp : picks coll) s : forall d r, keys_ok plain d -> keys_ok plain s -> merged coll d s r -> keys_ok plain r.
Proof.
  induction s as [| | | | |m IH] using json_induction; intros d r Hd Hs M; destruct (merged_objs _ _ _ _ M) as (aa & bb & cc & -> & E & ->); try discriminate.
  injection E as <-. destruct (merged_inv _ _ _ _ M) as (c' & [= <-] & Sc & K). apply keys_ok_obj. apply Forall_forall. intros [k v] I. cbn [fst snd].
  apply sorted_in_oget in I; [|exact Sc]. specialize (K k). rewrite I in K. inversion K as [|v' E1 E2 E3|v' E1 E2 E3|d1 s1 r1 Hd1 Hs1 M1 E1 E2 E3|d1 s1 r1 N1 C1 E1 E2 E3]; subst.
  - eapply keys_ok_oget; [exact Hd | symmetry; eassumption].
  - eapply keys_ok_oget; [exact Hs | symmetry; eassumption].
  - destruct (keys_ok_oget _ _ _ _ Hs (eq_sym E2)) as (Pk & Kv). split; [exact Pk|]. rewrite Forall_forall in IH. eapply (IH (k, s1)); [apply oget_in; now symmetry | | exact Kv | exact M1]. eapply keys_ok_oget; [exact Hd | symmetry; eassumption].
  - destruct (keys_ok_oget _ _ _ _ Hs (eq_sym E2)) as (Pk & Kv). split; [exact Pk|]. destruct (Hp _ _ _ C1) as [-> | ->]; [|exact Kv]. eapply keys_ok_oget; [exact Hd | symmetry; eassumption].
Qed.
Lemma c_merge_plain (ord : morder) coll c src c' : perm_oracle ord -> good_rule coll -> picks coll ->
  (forall x, clone (c_data src) = Ok x -> wf x /\ keys_ok plain x /\ forall m, x = JObj m -> oget "$ref" m = None) -> plain_doc (c_data c) ->
  c_merge ord coll c src = Ok c' -> plain_doc (c_data c').
Proof.
  intros Ho Hg Hp Hs (W & K & d & Ed & Nr) H. destruct c as [j|]; [|discriminate Ed]. cbn [c_data] in Ed. subst j. cbn [c_data] in *.
  destruct (clone (c_data src)) as [x| | |] eqn:Ec; try (unfold c_merge, c_clone in H; rewrite Ec in H; cbn [c_data] in H; injection H as <-; split; [exact W|]; split; [exact K|]; exists d; split; [reflexivity | exact Nr]).
  destruct (Hs x eq_refl) as (Wx & Kx & Nx).
  destruct x as [| | | | |m]; try (unfold c_merge, c_clone in H; rewrite Ec in H; cbn [c_data] in H; injection H as <-; split; [exact W|]; split; [exact K|]; exists d; split; [reflexivity | exact Nr]).
  assert (Ci : clone (JObj m) = Ok (JObj m)) by (eapply clone_idem; exact Ec).
  assert (E : c_merge ord coll (Some (JObj d)) src = c_merge ord coll (Some (JObj d)) (Some (JObj m))) by (unfold c_merge, c_clone; cbn [c_data]; now rewrite Ec, Ci).
  rewrite E in H. destruct (c_merge_obj ord coll d m (JObj m) Ho Hg W Wx Ci) as [(r & Hr & Wr & M)|(Hr & _)]; rewrite Hr in H; [|discriminate]. injection H as <-. cbn [c_data].
  split; [exact Wr|]. split; [eapply merged_keys_ok; [exact Hp | exact K | exact Kx | exact M]|].
  destruct (merged_objs _ _ _ _ M) as (a & b & e & _ & _ & ->). exists e. split; [reflexivity|]. destruct (merged_inv _ _ _ _ M) as (e' & [= <-] & _ & Kk). specialize (Kk "$ref"). rewrite Nr, (Nx m eq_refl) in Kk. inversion Kk; reflexivity.
Qed.
Lemma plain_clone j x : plain_doc j -> clone j = Ok x -> plain_doc x.
Proof.
  intros (W & K & m & -> & N) E. split; [eapply clone_wf; eassumption|]. split; [eapply clone_keys_ok; eassumption|].
  destruct (clone_obj_inv _ _ E) as (m' & -> & Hm). exists m'. split; [reflexivity|]. destruct (oget "$ref" m') as [v|] eqn:Ev; [|reflexivity]. exfalso.
  pose proof (clone_lookup [SKey "$ref"] _ _ E) as L. cbn [lookup] in L. rewrite N, Ev in L. exact L || (destruct v; easy).
Qed.
Lemma c_merge_canon (ord : morder) coll c src c' : perm_oracle ord -> good_rule coll -> picks coll ->
  (forall x, clone (c_data src) = Ok x -> wf x /\ keys_ok plain x) -> canon_obj (c_data c) ->
  c_merge ord coll c src = Ok c' -> canon_obj (c_data c').
Proof.
  intros Ho Hg Hp Hs (W & K & d & Ed) H. destruct c as [j|]; [|discriminate Ed]. cbn [c_data] in Ed. subst j. cbn [c_data] in *.
  destruct (clone (c_data src)) as [x| | |] eqn:Ec; try (unfold c_merge, c_clone in H; rewrite Ec in H; cbn [c_data] in H; injection H as <-; split; [exact W|]; split; [exact K|]; exists d; reflexivity).
  destruct (Hs x eq_refl) as (Wx & Kx).
  destruct x as [| | | | |m]; try (unfold c_merge, c_clone in H; rewrite Ec in H; cbn [c_data] in H; injection H as <-; split; [exact W|]; split; [exact K|]; exists d; reflexivity).
  assert (Ci : clone (JObj m) = Ok (JObj m)) by (eapply clone_idem; exact Ec).
  assert (E : c_merge ord coll (Some (JObj d)) src = c_merge ord coll (Some (JObj d)) (Some (JObj m))) by (unfold c_merge, c_clone; cbn [c_data]; now rewrite Ec, Ci).
  rewrite E in H. destruct (c_merge_obj ord coll d m (JObj m) Ho Hg W Wx Ci) as [(r & Hr & Wr & M)|(Hr & _)]; rewrite Hr in H; [|discriminate]. injection H as <-. cbn [c_data].
  split; [exact Wr|]. split; [eapply merged_keys_ok; [exact Hp | exact K | exact Kx | exact M]|]. destruct (merged_objs _ _ _ _ M) as (a & b & e & _ & _ & ->). eauto.
Qed.
Lemma containers_plain (ord : nat -> morder) l : (forall n, perm_oracle (ord n)) -> Forall (fun c => plain_doc (c_data c)) l -> forall n c c', plain_doc (c_data c) ->
  containers_merge_from ord merge_strict n c l = Ok c' -> plain_doc (c_data c').
Proof.
  intros Ho. induction l as [|x l IH]; intros Hl n c c' Hc H; cbn [containers_merge_from] in H; [now injection H as <-|]. apply bind_ok in H as (c1 & H1 & H).
  eapply IH; [exact (Forall_inv_tail Hl) | | exact H]. eapply c_merge_plain; [apply Ho | exact good_strict | exact picks_strict | | exact Hc | exact H1].
  intros y Hy. pose proof (plain_clone _ _ (Forall_inv Hl) Hy) as (W & K & m & -> & N). split; [exact W|]. split; [exact K|]. intros m' [= <-]. exact N.
Qed.
Lemma specs_merge_plain (ord : nat -> morder) srt st c : (forall n, perm_oracle (ord n)) -> (forall l, Permutation (srt l) l) -> Forall (fun f => plain_doc (c_data (f_cont f))) (sp_conts st) ->
  specs_merge ord srt st = Ok c -> plain_doc (c_data c).
Proof.
  intros Ho Hs Hd H. unfold specs_merge, containers_merge in H. eapply containers_plain; [exact Ho | | | exact H].
  - apply Forall_map. rewrite Forall_forall in *. intros f I. apply Hd. eapply Permutation_in; [apply Hs | exact I].
  - split; [split; exact I|]. split; [exact I|]. exists []. auto.
Qed.
Lemma section_canon k j : canon_obj j -> wf (section k j) /\ keys_ok plain (section k j).
Proof.
  intros (W & K & m & ->). unfold section. destruct (oget k m) as [v|] eqn:E; [|split; exact I]. split; [eapply wf_oget; eassumption | eapply keys_ok_oget; eassumption].
Qed.
Lemma merge_root_plain (ord : nat -> morder) root c c' : (forall n, perm_oracle (ord n)) -> canon_obj root -> plain_doc (c_data c) -> merge_with_root ord root c = Ok c' -> plain_doc (c_data c').
Proof.
  intros Ho Hr Hc H. unfold merge_with_root in H. apply bind_ok in H as (r & Er & H).
  assert (Cr : canon_obj (c_data r)).
  { unfold c_make in Er. apply bind_ok in Er as (x & Ex & Er). injection Er as <-. cbn [c_data]. destruct Hr as (W & K & m & ->). split; [eapply clone_wf; eassumption|]. split; [eapply clone_keys_ok; eassumption|]. destruct (clone_obj_inv _ _ Ex) as (m' & -> & _). eauto. }
  assert (Su : Forall (fun x => usable x /\ snd x <> "$ref" /\ plain (snd x)) sections).
  { pose proof sections_usable as U. rewrite Forall_forall in *. intros x I. split; [auto|]. repeat (destruct I as [<-|I]; [split; [discriminate | repeat split; discriminate]|]). destruct I. }
  revert H Su. generalize 0 as n. generalize sections as l. intro l. revert c Hc. induction l as [|[coll k] l IH]; intros c Hc n H Su; cbn [merge_sections] in H; [now injection H as <-|].
  apply bind_ok in H as (c1 & H1 & H). eapply IH; [|exact H | exact (Forall_inv_tail Su)]. destruct (Forall_inv Su) as ((Hg & Hp & Hk) & Nk & Pk). cbn [fst snd] in *. clear IH H Su.
  destruct Hc as (W & K & d & Ed & Nr). destruct c as [j|]; [|discriminate Ed]. cbn [c_data] in Ed. subst j. destruct Cr as (Wr & Kr & rm & Erm). destruct r as [j|]; [|discriminate Erm]. cbn [c_data] in Erm. subst j. cbn [c_data] in *.
  unfold merge_section in H1. cbn [fst snd] in H1. apply bind_ok in H1 as (zn & _ & H1). apply bind_ok in H1 as (yn & _ & H1). destruct (zn && yn); [injection H1 as <-; split; [exact W|]; split; [exact K|]; exists d; split; [reflexivity | exact Nr]|].
  apply bind_ok in H1 as (s1 & Hs1 & H1). apply bind_ok in H1 as (s2 & Hs2 & H1).
  assert (SC : forall m x, canon_obj (JObj m) -> clone (c_data (c_path k (Some (JObj m)))) = Ok x -> wf x /\ keys_ok plain x).
  { intros m x Hm Hx. rewrite (c_path_key k m Hk) in Hx. destruct (section_canon k _ Hm) as (A & B). split; [eapply clone_wf; eassumption | eapply clone_keys_ok; eassumption]. }
  assert (C1 : canon_obj (c_data s1)).
  { eapply c_merge_canon; [apply Ho | exact Hg | exact Hp | | | exact Hs1]; [intros x; apply SC; split; [exact W|]; split; [exact K | eauto] |]. split; [split; exact I|]. split; [exact I | exists []; reflexivity]. }
  assert (C2 : canon_obj (c_data s2)).
  { eapply c_merge_canon; [apply Ho | exact Hg | exact Hp | | exact C1 | exact Hs2]. intros x; apply SC. split; [exact Wr|]. split; [exact Kr | eauto]. }
  eapply c_merge_plain; [apply Ho | exact good_override | exact picks_override | | | exact H1]; [|split; [exact W|]; split; [exact K|]; exists d; split; [reflexivity | exact Nr]].
  intros x Hx. unfold c_make in Hx. destruct (clone (JObj [(k, c_data s2)])) as [y| | |] eqn:Ey; cbn [bind c_data] in Hx; try (cbn in Hx; injection Hx as <-; split; [exact I|]; split; [exact I | discriminate]).
  pose proof (clone_idem _ _ Ey) as Ei. rewrite Ei in Hx. injection Hx as <-. destruct C2 as (W2 & K2 & m2 & E2).
  assert (PD : plain_doc (JObj [(k, c_data s2)])).
  { split; [apply wf_obj; split; [cbn; auto | constructor; [exact W2 | constructor]]|]. split; [apply keys_ok_obj; constructor; [split; [exact Pk | exact K2] | constructor]|]. eexists. split; [reflexivity|]. cbn [oget]. destruct (String.eqb_spec "$ref" k) as [E|_]; [now symmetry in E | reflexivity]. }
  destruct (plain_clone _ _ PD Ey) as (A & B & m & -> & N). split; [exact A|]. split; [exact B|]. intros m' [= <-]. exact N.
Qed.
