(** Type declarations that are not referred to do not matter (proofs). *)
From Coq Require Import String Ascii List Bool Arith ZArith Lia Permutation.
From Verif Require Import GoStr Json JsonFacts Gabs Container Url Pointer Path Tag Pkgs Spec_Pkgs Cmds Specs Types ScanFn Root SchemaJson Scan ScanSame Spec_Unseen Spec_Unref.
Import ListNotations.
Local Open Scope string_scope.
Local Open Scope nat_scope.
Local Open Scope list_scope.

Lemma part_trans a b c : part a b -> part b c -> part a c.
Proof. induction 1; intro H'; try (constructor; auto; fail); try assumption. eapply part_field; eauto. Qed.
Lemma refers_part env t x k : part t x -> refers env x k -> refers env t k.
Proof. intros P R. induction R as [k P'|j d k R IH E P']; [left; exact (part_trans _ _ _ P P') | exact (refers_through env t j d k IH E P')]. Qed.
Lemma refers_basic env b k : ~ refers env (TBasic b) k.
Proof. intro R. induction R as [k P|j d k R IH E P]; [inversion P | exact IH]. Qed.

Section Unref.
  Context (env env' : genv).
  Definition same (t : gty) : Prop := forall k, refers env t k -> nth_error env' k = nth_error env k.
  Lemma same_part t x : part t x -> same t -> same x.
  Proof. intros P H k R. apply H. exact (refers_part env t x k P R). Qed.
  Lemma same_under t : same t -> under env' t = under env t /\ same (under env t).
  Proof.
    intro H. destruct t as [b|i|e|e|n e|kk e|d e|fs|o]; cbn [under]; try (split; [reflexivity | exact H]).
    rewrite (H i (refers_directly env (TNamed i) i (part_here _))). split; [reflexivity|]. destruct (nth_error env i) as [d|] eqn:E; [|intros k R; now apply refers_basic in R].
    intros k R. apply H. clear H. induction R as [k P|j d' k R IH E' P].
    - exact (refers_through env (TNamed i) i d k (refers_directly _ _ _ (part_here _)) E P).
    - exact (refers_through env (TNamed i) j d' k IH E' P).
  Qed.
  Definition all_same (m : pmap) : Prop := forall e, In e m -> same (fst e).
  Lemma pm_set_same m t l : all_same m -> same t -> all_same (pm_set m t l).
  Proof.
    intros H Ht e. induction m as [|x m IH]; cbn [pm_set]; [intros [<-|[]]; exact Ht|]. destruct (gty_eqb (fst x) t).
    - intros [<-|I]; [exact (H x (or_introl eq_refl)) | exact (H e (or_intror I))].
    - intros [<-|I]; [exact (H x (or_introl eq_refl)) | apply IH; [intros y Iy; exact (H y (or_intror Iy)) | exact I]].
  Qed.
  Lemma pm_append_same m t p : all_same m -> same t -> all_same (pm_append m t p).
  Proof. intros H Ht. unfold pm_append. destruct (pt_has _ p); [exact H | now apply pm_set_same]. Qed.

  Lemma next_steps_same r t l : same t -> next_steps r t = Ok l -> Forall (fun x => same (snd x)) l.
  Proof.
    intros H E. destruct t as [b|i|e|e|n e|kk e|d e|fs|o]; cbn [next_steps] in E; try (injection E as <-; constructor);
      try (destruct (with_desc r _) as [p| | |]; cbn [bind] in E; try discriminate E; injection E as <-; constructor; [|constructor]; cbn [snd]; apply (same_part _ e) in H; [exact H | repeat constructor]).
    revert l E. assert (K : forall i e, In (i, e) fs -> exported (f_name i) = true -> same e). { intros i e I X. apply (same_part (TStruct fs)); [|exact H]. exact (part_field fs i e e I X (part_here _)). }
    clear H. induction fs as [|(i, e) fs IH]; intros l E; cbn [field_steps] in E; [injection E as <-; constructor|]. destruct (exported (f_name i)) eqn:Ex; cbn [negb] in E.
    - destruct (with_desc r (f_name i)) as [p| | |]; cbn [bind] in E; try discriminate E.
      match type of E with bind ?g _ = _ => destruct g as [n| | |] eqn:Eg end; cbn [bind] in E; try discriminate E. injection E as <-.
      constructor; [exact (K i e (or_introl eq_refl) Ex)|]. apply IH; [|exact Eg]. intros i' e' I'. exact (K i' e' (or_intror I')).
    - apply IH; [|exact E]. intros i' e' I'. exact (K i' e' (or_intror I')).
  Qed.

  Lemma walk_same fuel : forall path r t m, same t -> all_same m -> walk env' fuel path r t m = walk env fuel path r t m /\ forall m', walk env fuel path r t m = Ok m' -> all_same m'.
  Proof.
    induction fuel as [|fuel IH]; intros path r t m Ht Hm; [split; [reflexivity | discriminate]|]. cbn [walk]. destruct (same_under t Ht) as (-> & Hu).
    assert (Ha := pm_append_same m _ r Hm Hu). destruct (existsb _ path); [split; [reflexivity | intros m' [= <-]; exact Ha]|].
    destruct (next_steps r (under env t)) as [next| | |] eqn:En; cbn [bind]; try (split; [reflexivity | discriminate]). apply (next_steps_same _ _ _ Hu) in En.
    revert Ha. generalize (pm_append m (under env t) r) as m0. clear m Hm. induction En as [|(p, x) next Hx En IHn]; intros m0 H0; cbn [walk_next]; [split; [reflexivity | intros m' [= <-]; exact H0]|].
    cbn [snd] in Hx. destruct (IH (path ++ [under env t]) p x m0 Hx H0) as (-> & G). destruct (walk env fuel (path ++ [under env t]) p x m0) as [m1| | |]; cbn [bind]; try (split; [reflexivity | discriminate]). specialize (G m1 eq_refl).
    destruct x as [b|i|e|e|n e|kk e|d e|fs|o]; cbn [bind]; try (apply IHn; exact G).
    rewrite (Hx i (refers_directly env (TNamed i) i (part_here _))). destruct (nth_error env i) as [d|]; cbn [bind]; [|apply IHn; exact G].
    destruct (new_point (d_pkg d) (d_name d)) as [np| | |]; cbn [bind]; try (split; [reflexivity | discriminate]).
    destruct (IH (path ++ [under env t]) np (TNamed i) m1 Hx G) as (-> & G2). destruct (walk env fuel (path ++ [under env t]) np (TNamed i) m1) as [m2| | |]; cbn [bind]; try (split; [reflexivity | discriminate]). apply IHn. now apply G2.
  Qed.
  Lemma scan_types_same fuel pkg scope : (forall name o, scope name = Some o -> same (o_type o)) -> forall ptrs m, all_same m ->
    scan_types env' fuel pkg scope ptrs m = scan_types env fuel pkg scope ptrs m /\ forall m', scan_types env fuel pkg scope ptrs m = Ok m' -> all_same m'.
  Proof.
    intro Hs. induction ptrs as [|p ptrs IH]; intros m Hm; cbn [scan_types]; [split; [reflexivity | intros m' [= <-]; exact Hm]|].
    destruct (negb (String.eqb (u_scheme (p_url p)) "go")); cbn [bind]; [now apply IH|]. destruct (negb (String.eqb pkg (pkg_path p))); cbn [bind]; [now apply IH|].
    destruct (frag_head (p_frag p)) as [head|]; cbn [bind]; [|now apply IH]. destruct (scope head) as [o|] eqn:Eo; cbn [bind]; [|now apply IH]. apply Hs in Eo.
    unfold collect_types. destruct (new_point (o_pkg o) (o_name o)) as [r| | |]; cbn [bind]; try (split; [reflexivity | discriminate]).
    destruct (walk_same fuel [] r (o_type o) m Eo Hm) as (-> & G). destruct (walk env fuel [] r (o_type o) m) as [m1| | |]; cbn [bind]; try (split; [reflexivity | discriminate]). apply IH. now apply G.
  Qed.

  Section Convert.
    Context {F : Type} (pf : string -> option F) (zero : F) (std : string -> option (schema F)) (pk : nat -> list ptr -> ptr).
    Lemma cast_inline_same i t (tg : tag F) : same t -> cast_inline env' i t tg = cast_inline env i t tg /\ forall fs, cast_inline env i t tg = Some fs -> same (TStruct fs).
    Proof.
      intro Ht. unfold cast_inline. destruct (same_under t Ht) as (-> & Hu).
      cbv zeta. generalize dependent (under env t). intros u Hu.
      assert (Fin : forall v fs, same v -> match v with TStruct fs => if match t_inline tg with Some b => b | None => f_emb i end then Some fs else None | _ => None end = Some fs -> same (TStruct fs)).
      { intros v fs Hv E. destruct v; try discriminate E. destruct (match t_inline tg with Some b => b | None => f_emb i end); [|discriminate]. injection E as <-. exact Hv. }
      destruct u as [b|k|e|e|n e|kk e|d e|fs|o]; try (split; [reflexivity | intros fs0 E; exact (Fin _ fs0 Hu E)]).
      destruct (same_under e) as (-> & He); [apply (same_part (TPtr e)); [repeat constructor | exact Hu]|]. split; [reflexivity|]. intros fs0 E. exact (Fin _ fs0 He E).
    Qed.
    Lemma collect_same fuel : forall path fs, same (TStruct fs) -> collect_fields pf env' fuel path fs = collect_fields pf env fuel path fs /\ forall l, collect_fields pf env fuel path fs = Ok l -> Forall (fun x => same (sf_type x)) l.
    Proof.
      induction fuel as [|fuel IH]; intros path fs H; [split; [reflexivity | discriminate]|]. cbn [collect_fields]. destruct (existsb _ path); [split; [reflexivity | intros l [= <-]; constructor]|].
      assert (K : forall i e, In (i, e) fs -> exported (f_name i) = true -> same e). { intros i e I X. apply (same_part (TStruct fs)); [|exact H]. exact (part_field fs i e e I X (part_here _)). }
      generalize (path ++ [TStruct fs]) as path'. clear path H. intro path'. induction fs as [|(i, e) fs IHf]; cbn [collect_each]; [split; [reflexivity | intros l [= <-]; constructor]|].
      destruct (tag_parse pf (f_tag i)) as [tx| | |]; cbn [bind]; try (split; [reflexivity | discriminate]).
      destruct IHf as (E1 & G1); [intros i' e' I'; exact (K i' e' (or_intror I'))|].
      destruct (t_ignore tx || negb (exported (f_name i))) eqn:Eg; [split; [exact E1 | exact G1]|]. apply orb_false_iff in Eg as (_ & Ex). apply negb_false_iff in Ex. assert (He := K i e (or_introl eq_refl) Ex).
      destruct (cast_inline_same i e tx He) as (-> & Gc). destruct (cast_inline env i e tx) as [fs2|].
      - destruct (IH path' fs2 (Gc fs2 eq_refl)) as (-> & G2). destruct (collect_fields pf env fuel path' fs2) as [l2| | |]; cbn [bind]; try (split; [reflexivity | discriminate]).
        rewrite E1. destruct (collect_each pf env _ fs) as [l1| | |]; cbn [bind]; try (split; [reflexivity | discriminate]). split; [reflexivity|]. intros l [= <-]. apply Forall_app. split; [now apply G2 | now apply G1].
      - cbn [bind]. rewrite E1. destruct (collect_each pf env _ fs) as [l1| | |]; cbn [bind]; try (split; [reflexivity | discriminate]). split; [reflexivity|]. intros l [= <-]. constructor; [exact He | now apply G1].
    Qed.
    Lemma type_same fuel fuel2 : forall n m tp t tg, same t -> type2schema pf zero env' std pk fuel fuel2 n m tp t tg = type2schema pf zero env std pk fuel fuel2 n m tp t tg.
    Proof.
      induction fuel as [|fuel IH]; intros n m tp t tg Ht; [reflexivity|]. cbn [type2schema]. destruct (same_under t Ht) as (-> & Hu). destruct (existsb _ tp); [reflexivity|].
      destruct (under env t) as [b|k|e|e|nn e|kk e|d e|fs|o]; try reflexivity; try (rewrite (IH n m (tp ++ _) e tg) by (apply (same_part _ e) in Hu; [exact Hu | repeat constructor]); reflexivity).
      destruct tp; [|reflexivity]. destruct (collect_same fuel2 [] fs Hu) as (-> & G). destruct (collect_fields pf env fuel2 [] fs) as [l| | |]; cbn [bind]; try reflexivity. specialize (G l eq_refl).
      match goal with |- struct_fields ?c' _ _ ?s0 = struct_fields ?c _ _ _ => assert (C : forall k x, same (sf_type x) -> c' k x = c k x) end.
      { intros k x Hx. cbn beta. destruct (negb _); [reflexivity|]. destruct (same_under _ Hx) as (-> & Hz). destruct (under env (sf_type x)); try reflexivity; apply IH; exact Hz. }
      match goal with |- struct_fields _ ?n0 _ ?s0 = _ => generalize n0 s0 end. clear -C G. induction G as [|x l Hx G IHl]; intros n0 s0; [reflexivity|]. cbn [struct_fields]. rewrite (C n0 x Hx). match goal with |- bind ?g _ = _ => destruct g as [ps| | |] end; cbn [bind]; try reflexivity. apply IHl.
    Qed.
    Lemma scanner_same fuel fuel2 ord m p : (forall x, Permutation (ord x) x) -> all_same m -> scanner_resolve pf zero env' std pk fuel fuel2 ord m p = scanner_resolve pf zero env std pk fuel fuel2 ord m p.
    Proof.
      intros Ho Hm. unfold scanner_resolve, pm_find. match goal with |- context [find ?f (ord m)] => destruct (find f (ord m)) as [e|] eqn:E end; [|reflexivity]. apply type_same. apply Hm. apply find_some in E as (I & _). exact (Permutation_in _ (Ho m) I).
    Qed.
  End Convert.
End Unref.

(** *** Visiting, with an invariant *)
Section Visit.
  Context {A : Type} (fn fn' : nat -> A -> res (A * bool)) (std : string -> bool) (ord : nat -> list string -> list string) (srt : list string -> list string) (ps : pkgs) (P : A -> Prop).
  Lemma visit_inv fuel : forall p s, (forall r i, p = Some r -> reach std ps r i -> forall x, P x -> fn' i x = fn i x /\ forall y b, fn i x = Ok (y, b) -> P y) -> P (snd s) ->
    visit fn' std ord srt ps fuel p s = visit fn std ord srt ps fuel p s /\ forall s', visit fn std ord srt ps fuel p s = Ok s' -> P (snd s').
  Proof.
    induction fuel as [|fuel IH]; intros p s H Hx; [split; [reflexivity | discriminate]|]. cbn [visit]. destruct p as [i|]; [|split; [reflexivity | discriminate]]. destruct s as ((sn & errs) & x). cbn [snd] in Hx.
    destruct (existsb (Nat.eqb i) sn); [split; [reflexivity | intros s' [= <-]; exact Hx]|].
    destruct (nth_error ps i) as [pkg|] eqn:En; [|split; [reflexivity | discriminate]]. destruct (std (g_path pkg)) eqn:Es; [split; [reflexivity | intros s' [= <-]; exact Hx]|].
    assert (Ni : nonstd std ps i) by (exists pkg; auto).
    assert (V : forall l s0, incl l (import_list ord srt i pkg) -> P (snd s0) -> visit_all (visit fn' std ord srt ps fuel) l s0 = visit_all (visit fn std ord srt ps fuel) l s0 /\ forall s', visit_all (visit fn std ord srt ps fuel) l s0 = Ok s' -> P (snd s')).
    { induction l as [|y l IHl]; intros s0 Il H0; [split; [reflexivity | intros s' [= <-]; exact H0]|]. cbn [visit_all]. destruct (IH y s0) as (-> & G); [|exact H0|].
      - intros r k -> R x0. refine (H i k eq_refl _ x0). apply (reach_step std ps i r k Ni); [|exact R]. assert (I : In (Some r) (import_list ord srt i pkg)) by (apply Il; now left).
        unfold import_list in I. apply in_map_iff in I as (path & E & _). destruct (oget path (g_imports pkg)) as [z|] eqn:Eo; [|discriminate]. subst z. apply oget_in in Eo. exists pkg, path. auto.
      - destruct (visit fn std ord srt ps fuel y s0) as [s1| | |]; cbn [bind]; try (split; [reflexivity | discriminate]). apply IHl; [intros z Iz; apply Il; now right | now apply G]. }
    match goal with |- context [visit_all (visit fn' std ord srt ps fuel) (import_list ord srt i pkg) ?s0] => destruct (V _ s0 (incl_refl _) Hx) as (-> & G) end.
    match goal with |- context [visit_all (visit fn std ord srt ps fuel) (import_list ord srt i pkg) ?s0] => destruct (visit_all (visit fn std ord srt ps fuel) (import_list ord srt i pkg) s0) as [((sn1 & errs1) & x1)| | |] end; cbn [bind]; try (split; [reflexivity | discriminate]).
    specialize (G _ eq_refl). cbn [snd] in G. destruct (H i i eq_refl (reach_here std ps i Ni) x1 G) as (-> & Gf). destruct (fn i x1) as [(y & b)| | |]; cbn [bind]; try (split; [reflexivity | discriminate]).
    split; [reflexivity|]. intros s' [= <-]. cbn [snd fst]. exact (Gf y b eq_refl).
  Qed.
  Lemma scan_pkgs_inv fuel roots x : (forall i, seen std ps roots i -> forall y, P y -> fn' i y = fn i y /\ forall z b, fn i y = Ok (z, b) -> P z) -> P x ->
    scan_pkgs fn' std ord srt ps fuel roots x = scan_pkgs fn std ord srt ps fuel roots x /\ forall r, scan_pkgs fn std ord srt ps fuel roots x = Ok r -> P (fst r).
  Proof.
    intros H Hx. unfold scan_pkgs.
    assert (V : forall l s0, incl l roots -> P (snd s0) -> visit_all (visit fn' std ord srt ps fuel) l s0 = visit_all (visit fn std ord srt ps fuel) l s0 /\ forall s', visit_all (visit fn std ord srt ps fuel) l s0 = Ok s' -> P (snd s')).
    { induction l as [|y l IHl]; intros s0 Il H0; [split; [reflexivity | intros s' [= <-]; exact H0]|]. cbn [visit_all]. destruct (visit_inv fuel y s0) as (-> & G); [|exact H0|].
      - intros r i -> R. apply H. exists r. split; [apply Il; now left | exact R].
      - destruct (visit fn std ord srt ps fuel y s0) as [s1| | |]; cbn [bind]; try (split; [reflexivity | discriminate]). apply IHl; [intros z Iz; apply Il; now right | now apply G]. }
    match goal with |- context [visit_all (visit fn' std ord srt ps fuel) roots ?s0] => destruct (V roots s0 (incl_refl _) Hx) as (-> & G); destruct (visit_all (visit fn std ord srt ps fuel) roots s0) as [((sn1 & errs1) & x1)| | |] end; cbn [bind]; try (split; [reflexivity | discriminate]).
    split; [reflexivity|]. intros r [= <-]. exact (G _ eq_refl).
  Qed.
End Visit.

(** *** Scan *)
Section Scan.
  Context {F : Type} (pf : string -> option F) (zero : F) (fnum : F -> num) (rs : string -> option (schema F)) (ch : choices) (de : depths).
  Lemma scan_doc_unref a a' o ss roots : (forall m, Permutation (ch_points ch m) m) -> ar_gopath a' = ar_gopath a -> ar_missing a' = ar_missing a -> ar_files a' = ar_files a -> ar_std a' = ar_std a ->
    (forall i s name ob k, seen (ar_std a) (map so_pkg ss) roots i -> nth_error ss i = Some s -> so_scope s name = Some ob -> refers (ar_env a) (o_type ob) k -> nth_error (ar_env a') k = nth_error (ar_env a) k) ->
    scan_doc pf zero fnum rs a' ch de o ss roots = scan_doc pf zero fnum rs a ch de o ss roots.
  Proof.
    intros Hch Hg Hm Hf Hs H. unfold scan_doc. unfold scan_with. rewrite Hg, Hm, Hf, Hs.
    match goal with |- bind ?g _ = _ => destruct g as [cm| | |] end; cbn [bind]; try reflexivity. destruct (exported_components (ch_cmds1 ch) cm) as [es| | |]; cbn [bind]; try reflexivity.
    match goal with |- bind ?g _ = _ => destruct g as [st| | |] end; cbn [bind]; try reflexivity. destruct (specs_merge (ch_merge ch) (ch_files ch) st) as [c1| | |]; cbn [bind]; try reflexivity. cbv zeta.
    match goal with |- context [scan_pkgs ?f' (ar_std a) (ch_imports ch 2) (ch_strings ch) (map so_pkg ss) (de_pkgs de) roots []] => match goal with |- _ = bind (bind (scan_pkgs ?f _ _ _ _ _ _ _) _) _ =>
      destruct (scan_pkgs_inv f f' (ar_std a) (ch_imports ch 2) (ch_strings ch) (map so_pkg ss) (all_same (ar_env a) (ar_env a')) (de_pkgs de) roots []) as (-> & G) end end.
    - intros i Si y Hy. cbn beta. destruct (nth_error ss i) as [s|] eqn:En; [|split; [reflexivity | discriminate]].
      match goal with |- context [scan_types (ar_env a') ?fu ?pk ?sc ?pt y] => destruct (scan_types_same (ar_env a) (ar_env a') fu pk sc) with (ptrs := pt) (m := y) as (-> & G2); [|exact Hy|] end.
      + intros name ob Eo k R. exact (H i s name ob k Si En Eo R).
      + match goal with |- context [scan_types (ar_env a) ?fu ?pk ?sc ?pt y] => destruct (scan_types (ar_env a) fu pk sc pt y) as [m1| | |] end; cbn [bind]; try (split; [reflexivity | discriminate]). split; [reflexivity|]. intros z b [= <- _]. now apply G2.
    - intros e [].
    - match goal with |- bind (bind ?g _) _ = _ => destruct g as [(pts & ee)| | |] end; cbn [bind fst snd]; try reflexivity. specialize (G _ eq_refl). cbn [fst] in G. destruct ee; cbn [bind]; try reflexivity.
      destruct (merge_with_root (ch_root ch) (op_root o) c1) as [c2| | |]; cbn [bind]; try reflexivity.
      assert (E : forall p, go_types pf zero fnum rs a' ch de pts p = go_types pf zero fnum rs a ch de pts p). { intro p. unfold go_types. now rewrite (scanner_same _ _ pf zero rs (ch_pick ch) _ _ (ch_points ch) pts p Hch G). }
      erewrite (resolve_ext (ch_resolve ch) es es); [reflexivity | reflexivity|]. intro p. unfold scan_fn. now rewrite E.
  Qed.
  Theorem scan_unref a a' l : (forall m, Permutation (ch_points ch m) m) -> same_but_types a a' ->
    (forall dir k, starts_in a l dir -> referred a dir k -> nth_error (ar_env a') k = nth_error (ar_env a) k) ->
    scan pf zero fnum rs a' ch de l = scan pf zero fnum rs a ch de l.
  Proof.
    intros Hch (Hl & Hc & Hg & Hm & Hf & Hs) H. unfold scan. destruct (apply_opts l no_options) as [o| | |] eqn:Eo; try reflexivity. cbn [on_err]. rewrite Hc, Hl.
    destruct (match op_dir o with Some d => Ok d | None => ar_cwd a end) as [dir| | |] eqn:Ed; try reflexivity. cbn [on_err]. destruct (ar_load a dir) as [(ss & roots)| | |] eqn:El; try reflexivity. cbn [on_err fst snd].
    rewrite (scan_doc_unref a a' o ss roots Hch Hg Hm Hf Hs); [reflexivity|]. intros i s name ob k Si En Eob R. apply (H dir).
    - exists o. split; [exact Eo|]. destruct (op_dir o) as [d|]; [left; now injection Ed as -> | right; auto].
    - exists ss, roots, i, s, name, ob. auto.
  Qed.
End Scan.
