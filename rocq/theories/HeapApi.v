(** Programs with containers: the memory version computes what the value
    version computes. *)
From Coq Require Import String Ascii List Bool Arith ZArith Lia Permutation.
From Verif Require Import GoStr GoStrFacts Json JsonFacts Gabs Container SetFacts MergeFacts HeapCont Spec_Heap HeapFacts HeapSet HeapSearch HeapMerge.
Import ListNotations.
Local Open Scope string_scope.
Local Open Scope nat_scope.
Local Open Scope list_scope.

Lemma search_wf p : forall j x, wf j -> search p j = Some x -> wf x.
Proof.
  induction p as [|s p IH]; intros j x W E; [cbn in E; congruence|]. destruct j as [| | | |l|m]; try discriminate; cbn [search] in E.
  - apply wf_arr in W. rewrite Forall_forall in W. destruct (String.eqb s "*").
    + match type of E with match ?X with _ => _ end = _ => assert (K : Forall wf X) end.
      { apply Forall_forall. intros y Hy. apply in_flat_map in Hy as (z & Hz & Hy). destruct (search p z) eqn:Ez; [|contradiction]. destruct Hy as [<-|[]]. eapply IH; [apply W; exact Hz | exact Ez]. }
      destruct (flat_map _ l); [discriminate|]. injection E as <-. now apply wf_arr.
    + destruct (arr_index s) as [i|]; [|discriminate]. destruct (nth_error l i) as [c|] eqn:Ei; [|discriminate]. eapply IH; [apply W; eapply nth_error_In, Ei | exact E].
  - destruct (oget s m) as [c|] eqn:Ec; [|discriminate]. eapply IH; [eapply wf_oget; eassumption | exact E].
Qed.

Lemma hclone_spec h v j : hmarshal h v = Some j -> wf j ->
  match clone j with
  | Ok j' => exists h1 w F, hclone h v = Ok (h1, w) /\ rep h1 w j' F /\ grows h h1 /\ fresh h F
  | _ => hclone h v = Err
  end.
Proof.
  intros E W. unfold hclone. rewrite E. destruct (clone_cases j) as [(j' & Ej)|Ej]; rewrite Ej; cbn [bind]; [|reflexivity].
  destruct (halloc_rep j' (clone_wf _ _ W Ej) h) as (F & R & G & N). destruct (halloc h j') as [h1 w]. exists h1, w, F. auto.
Qed.

(** The contents of a variable. *)
Definition repv (h : heap) (x : option hv) (c : cont) (F : list nat) : Prop :=
  match x, c with None, None => F = [] | Some v, Some j => rep h v j F | _, _ => False end.
Lemma repv_frame h h' x c F : repv h x c F -> agree h h' F -> repv h' x c F.
Proof. destruct x, c; cbn; try tauto. intros. now apply (rep_frame h). Qed.
Lemma repv_bound h x c F a : repv h x c F -> In a F -> a < length h.
Proof. destruct x, c; cbn; try tauto; [apply rep_bound | intros -> []]. Qed.
Lemma repv_payload h x c F : repv h x c F -> rep h (payload x) (c_data c) F.
Proof. destruct x, c; cbn; try tauto. intros ->. constructor. Qed.
Lemma repv_grows h h' x c F : grows h h' -> repv h x c F -> repv h' x c F.
Proof. intros G H. apply (repv_frame h); [exact H|]. intros a Ha. apply grows_nth; [exact G|]. eapply repv_bound; eassumption. Qed.

Definition invf (st : state) (e : env) (Fs : nat -> list nat) : Prop :=
  (forall i, repv (hp st) (var st i) (e i) (Fs i)) /\ (forall i k, i <> k -> apartl (Fs i) (Fs k)).
Definition inv (st : state) (e : env) : Prop := exists Fs, invf st e Fs.

Definition src_of (o : op) : option source := match o with OMake _ s | OSetP _ _ s | OMerge _ s _ _ => Some s | _ => None end.
Definition src_ready (h : heap) (s : source) : Prop := match s with FromMem v j => hmarshal h v = Some j /\ wf j | _ => True end.
Lemma fetch_spec st e Fs s : invf st e Fs -> src_ready (hp st) s ->
  let (h, v) := fetch st s in grows (hp st) h /\ hmarshal h v = Some (vfetch e s) /\ wf (vfetch e s).
Proof.
  intros (R & _) Q. destruct s as [k p|v j]; cbn [fetch vfetch]; [|split; [apply grows_refl | exact Q]].
  pose proof (repv_payload _ _ _ _ (R k)) as H. destruct (hsearch_reads (dot_path p) _ _ _ _ H) as (G & M).
  unfold c_path, c_search. destruct (hsearch (dot_path p) (hp st) (payload (var st k))) as [h r]. cbn [fst snd] in *.
  destruct (search (dot_path p) (c_data (e k))) as [x|] eqn:Ex, r as [w|]; try contradiction; cbn [payload c_data].
  - split; [exact G|]. split; [now apply reads_marshal|]. eapply search_wf; [eapply rep_wf, H | exact Ex].
  - split; [exact G|]. split; reflexivity.
Qed.

(** Assigning a variable whose new cells are its old ones or new. *)
Lemma inv_assign st e Fs i h x c F : invf st e Fs -> length (hp st) <= length h -> repv h x c F ->
  (forall a, In a F -> In a (Fs i) \/ length (hp st) <= a) ->
  (forall a, a < length (hp st) -> ~ In a (Fs i) -> nth_error h a = nth_error (hp st) a) ->
  invf {| hp := h; var := assign (var st) i x |} (assign e i c) (assign Fs i F).
Proof.
  intros (R & D) L Hx Nw K.
  assert (Ot : forall k, k <> i -> agree (hp st) h (Fs k)).
  { intros k Nk a Ha. apply K; [exact (repv_bound _ _ _ _ _ (R k) Ha)|]. intro Hb. exact (D k i Nk a Ha Hb). }
  split.
  - intro k. cbn [hp var]. unfold assign. destruct (k =? i) eqn:E; [exact Hx|]. apply Nat.eqb_neq in E. apply (repv_frame (hp st)); [apply R | now apply Ot].
  - assert (Q : forall k, k <> i -> apartl F (Fs k)).
    { intros k Nk a Ha Hb. destruct (Nw a Ha) as [Hc|Hc]; [exact (D i k (fun q => Nk (eq_sym q)) a Hc Hb)|]. pose proof (repv_bound _ _ _ _ _ (R k) Hb). lia. }
    intros k l Nkl. unfold assign. destruct (Nat.eqb_spec k i) as [E1|E1], (Nat.eqb_spec l i) as [E2|E2].
    + congruence.
    + now apply Q.
    + intros a Ha Hb. exact (Q k E1 a Hb Ha).
    + now apply D.
Qed.
Lemma inv_grow st e Fs h : invf st e Fs -> grows (hp st) h -> invf {| hp := h; var := var st |} e Fs.
Proof. intros (R & D) G. split; [|exact D]. intro i. apply (repv_grows (hp st)); [exact G | apply R]. Qed.

(** *** Merge *)
Lemma vloop_none rec coll path esj : vloop coll rec path esj None = (None, match esj with [] => Ok tt | _ => Err end).
Proof.
  destruct esj as [|[k v] es]; [reflexivity|]. rewrite vloop_cons. unfold ventry. cbv zeta.
  assert (E : c_search (path ++ [k]) None = None) by (unfold c_search; cbn [c_data]; destruct path; reflexivity). rewrite E. reflexivity.
Qed.
Lemma hmerge_spec ordk coll h o c F v j : (forall p ks, Permutation (ordk p ks) ks) -> repv h o c F -> hmarshal h v = Some j -> wf j ->
  let '(h', o', r) := hmerge ordk coll h o v in
  exists c' F', vmerge ordk (resolve coll) c (Some j) = (c', r) /\ repv h' o' c' F' /\
    (forall a, In a F' -> In a F \/ length h <= a) /\ length h <= length h' /\ (forall a, a < length h -> ~ In a F -> nth_error h' a = nth_error h a).
Proof.
  intros P Ho Em Wj. unfold hmerge, vmerge, c_clone. rewrite Em. cbn [c_data].
  assert (Stay : forall h', grows h h' -> exists c' F', (c, Ok tt) = (c', Ok tt) /\ repv h' o c' F' /\
    (forall a, In a F' -> In a F \/ length h <= a) /\ length h <= length h' /\ (forall a, a < length h -> ~ In a F -> nth_error h' a = nth_error h a)).
  { intros h' G. exists c, F. split; [reflexivity|]. split; [now apply (repv_grows h)|]. split; [tauto|]. split; [now apply grows_len | intros; now apply grows_nth]. }
  destruct (clone_cases j) as [(j' & Ej)|Ej]; rewrite Ej; [|cbn [c_data]; apply Stay, grows_refl].
  destruct (halloc_rep j' (clone_wf _ _ Wj Ej) h) as (G & R & Gr & N). destruct (halloc h j') as [h1 s]. cbn [fst snd c_data] in *.
  pose proof (hobj_rep _ _ _ _ R) as Ov. destruct (hobj h1 s) as [m|], j' as [| | | | |mj]; try contradiction; try (now apply Stay).
  destruct Ov as (Sm & Gt & Rt & It). destruct o as [w|], c as [jw|]; try contradiction.
  - pose proof (all_good ordk coll P (height (JObj mj)) [] m mj h1 w jw F Gt (grows_rep _ _ _ _ _ Gr Ho) Rt Sm) as K. unfold same in K.
    destruct (hmerge_rec ordk coll (height (JObj mj)) [] m h1 w) as [[h2 w2] r].
    destruct K as (j2 & F2 & E & R2 & (A1 & A2 & A3) & _).
    { intros a Ha Hb. pose proof (rep_bound _ _ _ _ _ Ho Ha). apply It, N in Hb. lia. } { now left. }
    exists (Some j2), F2. split; [exact E|]. split; [exact R2|]. pose proof (grows_len _ _ Gr). split; [|split; [lia|]].
    + intros a Ha. apply A1 in Ha as [Ha|[Ha|Ha]]; [now left | right; now apply N, It | right; lia].
    + intros a La Na. rewrite A3; [now apply grows_nth | lia | exact Na|]. intro Hb. apply It, N in Hb. lia.
  - exists None, F. split; [|split; [exact Ho | split; [tauto | split; [now apply grows_len | intros; now apply grows_nth]]]].
    change (height (JObj mj)) with (S ((fix go (m : list (string * json)) := match m with [] => 0 | (_, x) :: r => Nat.max (height x) (go r) end) mj)).
    rewrite vmerge_unfold, vloop_none. f_equal. assert (Ek : keys mj = keys m) by (unfold keys; exact (repm_keys _ _ _ _ Rt)). rewrite Ek.
    destruct (order_repm h1 (ordk [] (keys m)) m mj Gt) as (G2 & R2 & _); [|exact Sm | exact Rt|].
    { eapply Permutation_NoDup; [apply Permutation_sym, P|]. now apply sorted_nodup. }
    destruct R2; reflexivity.
Qed.

Definition cells (st : state) (i a : nat) : Prop := exists v, var st i = Some v /\ reach (hp st) v a.
Lemma inv_cells st e Fs i a : invf st e Fs -> cells st i a <-> In a (Fs i).
Proof.
  intros (R & _). specialize (R i). unfold cells. destruct (var st i) as [v|], (e i) as [j|]; cbn in R; try contradiction.
  - rewrite <- (rep_reach _ _ _ _ a R). split; [intros (w & Ew & H); injection Ew as ->; exact H | eauto].
  - rewrite R. split; [intros (w & Ew & _); discriminate | contradiction].
Qed.

Lemma step_spec st e o : inv st e -> ready (hp st) o ->
  let (st', r) := hstep st o in
  snd (vstep e o) = r /\ inv st' (fst (vstep e o)) /\
  length (hp st) <= length (hp st') /\ (forall a, a < length (hp st) -> ~ cells st (target o) a -> nth_error (hp st') a = nth_error (hp st) a) /\
  (forall a, cells st' (target o) a -> cells st (target o) a \/ length (hp st) <= a) /\
  (forall i, i <> target o -> var st' i = var st i).
Proof.
  intros (Fs & I) Rd.
  assert (Fin : forall h x c F, length (hp st) <= length h -> repv h x c F -> (forall a, In a F -> In a (Fs (target o)) \/ length (hp st) <= a) ->
    (forall a, a < length (hp st) -> ~ In a (Fs (target o)) -> nth_error h a = nth_error (hp st) a) ->
    let st' := {| hp := h; var := assign (var st) (target o) x |} in
    inv st' (assign e (target o) c) /\ length (hp st) <= length (hp st') /\ (forall a, a < length (hp st) -> ~ cells st (target o) a -> nth_error (hp st') a = nth_error (hp st) a) /\
    (forall a, cells st' (target o) a -> cells st (target o) a \/ length (hp st) <= a) /\ (forall i, i <> target o -> var st' i = var st i)).
  { intros h x c F L Hx Nw K st'. pose proof (inv_assign st e Fs (target o) h x c F I L Hx Nw K) as I'. split; [eexists; exact I'|]. split; [exact L|]. split; [|split].
    - intros a La Na. apply K; [exact La|]. intro Hb. apply Na. now apply (inv_cells st e Fs).
    - intros a Ha. apply (inv_cells _ _ _ _ _ I') in Ha. unfold assign in Ha. rewrite Nat.eqb_refl in Ha. apply Nw in Ha as [Ha|Ha]; [left; now apply (inv_cells st e Fs) | now right].
    - intros i Ni. unfold st'. cbn [var]. unfold assign. apply Nat.eqb_neq in Ni. now rewrite Ni. }
  assert (Gro : forall h, grows (hp st) h -> let st' := {| hp := h; var := var st |} in
    inv st' e /\ length (hp st) <= length (hp st') /\ (forall a, a < length (hp st) -> ~ cells st (target o) a -> nth_error (hp st') a = nth_error (hp st) a) /\
    (forall a, cells st' (target o) a -> cells st (target o) a \/ length (hp st) <= a) /\ (forall i, i <> target o -> var st' i = var st i)).
  { intros h G st'. pose proof (inv_grow _ _ _ _ I G) as I'. split; [exists Fs; exact I'|]. split; [now apply grows_len|]. split; [intros; now apply grows_nth|]. split; [|reflexivity].
    intros a Ha. left. apply (inv_cells _ _ _ _ _ I') in Ha. now apply (inv_cells st e Fs). }
  assert (Fr : forall h x c F, grows (hp st) h -> repv h x c F -> fresh (hp st) F ->
    let st' := {| hp := h; var := assign (var st) (target o) x |} in
    inv st' (assign e (target o) c) /\ length (hp st) <= length (hp st') /\ (forall a, a < length (hp st) -> ~ cells st (target o) a -> nth_error (hp st') a = nth_error (hp st) a) /\
    (forall a, cells st' (target o) a -> cells st (target o) a \/ length (hp st) <= a) /\ (forall i, i <> target o -> var st' i = var st i)).
  { intros h x c F G Hx N. apply (Fin h x c F); [now apply grows_len | exact Hx | intros a Ha; right; now apply N | intros; now apply grows_nth]. }
  destruct o as [i|i s|i k|i path s|i s coll ordk]; cbn [hstep vstep target] in *.
  - cbn [alloc_cell fst snd]. split; [reflexivity|]. apply (Fr _ _ _ [length (hp st)]); [apply grows_one | | intros a [<-|[]]; lia].
    cbn. apply (rep_obj _ _ []); [apply nth_new | exact Logic.I | constructor | intros []].
  - assert (Q : src_ready (hp st) s) by (destruct s; [exact Logic.I | exact Rd]). pose proof (fetch_spec st e Fs s I Q) as X. destruct (fetch st s) as [h v]. destruct X as (G & M & W).
    pose proof (hclone_spec h v _ M W) as C. unfold c_make. destruct (clone (vfetch e s)) as [j'| | |]; cbn [bind].
    + destruct C as (h1 & w & F & -> & R & G1 & N). cbn [fst snd]. split; [reflexivity|]. apply (Fr _ _ _ F); [now apply (grows_trans _ h) | exact R|]. intros a Ha. specialize (N a Ha). pose proof (grows_len _ _ G). lia.
    + rewrite C. split; [reflexivity|]. apply (Fr _ _ _ []); [exact G | reflexivity | intros a []].
    + rewrite C. split; [reflexivity|]. apply (Fr _ _ _ []); [exact G | reflexivity | intros a []].
    + rewrite C. split; [reflexivity|]. apply (Fr _ _ _ []); [exact G | reflexivity | intros a []].
  - pose proof (repv_payload _ _ _ _ (proj1 I k)) as H. pose proof (hclone_spec _ _ _ (rep_marshal _ _ _ _ H) (rep_wf _ _ _ _ H)) as C. unfold c_clone. destruct (clone (c_data (e k))) as [j'| | |].
    + destruct C as (h1 & w & F & -> & R & G1 & N). split; [reflexivity|]. cbn [fst]. apply (Fr _ _ _ F); [exact G1 | exact R | exact N].
    + rewrite C. split; [reflexivity|]. apply (Fr _ _ _ []); [apply grows_refl | constructor | intros a []].
    + rewrite C. split; [reflexivity|]. apply (Fr _ _ _ []); [apply grows_refl | constructor | intros a []].
    + rewrite C. split; [reflexivity|]. apply (Fr _ _ _ []); [apply grows_refl | constructor | intros a []].
  - assert (Q : src_ready (hp st) s) by (destruct s; [exact Logic.I | exact Rd]). pose proof (fetch_spec st e Fs s I Q) as X. destruct (fetch st s) as [h v]. destruct X as (G & M & W).
    pose proof (hclone_spec h v _ M W) as C. unfold c_setp. destruct (clone (vfetch e s)) as [j'| | |]; cbn [bind]; try (rewrite C; split; [reflexivity | now apply Gro]).
    destruct C as (h1 & w & F & -> & R & G1 & N). assert (G2 : grows (hp st) h1) by now apply (grows_trans _ h).
    pose proof (proj1 I i) as Hi. unfold c_set. destruct (var st i) as [ov|], (e i) as [jv|]; cbn in Hi; try contradiction; [|cbn [fst snd]; split; [reflexivity | now apply Gro]].
    assert (Dj : apartl (Fs i) F). { intros a Ha Hb. pose proof (rep_bound _ _ _ _ _ Hi Ha). specialize (N a Hb). pose proof (grows_len _ _ G). lia. }
    pose proof (root_set_spec (dot_path path) h1 ov jv (Fs i) w j' F (grows_rep _ _ _ _ _ G2 Hi) R Dj) as K.
    destruct (root_set j' (dot_path path) jv) as [j2| | |]; cbn [bind]; try contradiction; [|rewrite K; split; [reflexivity | now apply Gro]].
    destruct K as (h2 & o2 & F2 & -> & R2 & (U1 & U2 & U3)). cbn [fst snd]. split; [reflexivity|]. pose proof (grows_len _ _ G2). pose proof (grows_len _ _ G).
    apply (Fin _ _ _ F2); [lia | exact R2 | |].
    + intros a Ha. apply U1 in Ha as [Ha|[Ha|Ha]]; [now left | right; specialize (N a Ha); lia | right; lia].
    + intros a La Na. rewrite U3; [now apply grows_nth | lia | exact Na].
  - destruct Rd as (Rs & P). assert (Q : src_ready (hp st) s) by (destruct s; [exact Logic.I | exact Rs]). pose proof (fetch_spec st e Fs s I Q) as X. destruct (fetch st s) as [h v]. destruct X as (G & M & W).
    pose proof (hmerge_spec ordk coll h (var st i) (e i) (Fs i) v _ P (repv_grows _ _ _ _ _ G (proj1 I i)) M W) as K.
    destruct (hmerge ordk coll h (var st i) v) as [[h1 o1] r]. destruct K as (c' & F' & -> & R & U1 & U2 & U3). cbn [fst snd]. split; [reflexivity|]. pose proof (grows_len _ _ G).
    apply (Fin _ _ _ F'); [lia | exact R | |].
    + intros a Ha. apply U1 in Ha as [Ha|Ha]; [now left | right; lia].
    + intros a La Na. rewrite U3; [now apply grows_nth | lia | exact Na].
Qed.

Lemma run_spec st os st' rs : run st os st' rs -> forall e, inv st e -> snd (vrun e os) = rs /\ inv st' (fst (vrun e os)).
Proof.
  induction 1 as [st|st o st1 r os st2 rs Rd E Hr IH|st h os st2 rs L K Hr IH]; intros e I.
  - split; [reflexivity | exact I].
  - pose proof (step_spec st e o I Rd) as S. rewrite E in S. destruct S as (Er & I1 & _). cbn [vrun]. destruct (vstep e o) as [e1 x]. cbn [fst snd] in *. subst x.
    destruct (IH e1 I1) as (A & B). destruct (vrun e1 os) as [e2 xs]. cbn [fst snd] in *. subst. auto.
  - apply IH. destruct I as (Fs & I). exists Fs. pose proof I as (R & D). split; [|exact D]. intro i. cbn [hp var]. apply (repv_frame (hp st)); [apply R|].
    intros a Ha. apply (inv_cells _ _ _ _ _ I) in Ha as (v & Ev & Hv). exact (K i v a Ev Hv).
Qed.
Lemma inv_start h : inv {| hp := h; var := fun _ => None |} (fun _ => c_zero).
Proof. exists (fun _ => []). split; [intro i; reflexivity | intros i k _ a []]. Qed.
Lemma inv_reads st e i : inv st e -> match var st i with Some v => exists j, e i = Some j /\ hmarshal (hp st) v = Some j | None => e i = None end.
Proof. intros (Fs & R & _). specialize (R i). destruct (var st i), (e i); cbn in R; try contradiction; [|reflexivity]. eexists. split; [reflexivity | eapply rep_marshal, R]. Qed.
Lemma inv_disjoint st e i k a : inv st e -> i <> k -> cells st i a -> cells st k a -> False.
Proof. intros (Fs & I) N A B. apply (inv_cells _ _ _ _ _ I) in A, B. exact (proj2 I i k N a A B). Qed.

(** *** The value version of Merge is the one of Container.v *)
Lemma merge_rec_unfold ord coll f path m c : merge_rec ord coll (S f) path m c =
  (fix loop (es : list (string * json)) (c : cont) : res cont :=
     match es with
     | [] => Ok c
     | (key, value) :: es' =>
         let np := (path ++ [key])%list in
         do c' <- match c_search np c with
                  | None => c_set value np c
                  | Some existing =>
                      match value, existing with
                      | JObj t, JObj _ => merge_rec ord coll f np t c
                      | _, _ => match coll existing value with None => Err | Some x => c_set x np c end
                      end
                  end ;
         loop es' c'
     end) (ord path m) c.
Proof. reflexivity. Qed.
Lemma vmerge_rec_ok ordk coll : forall f path m c c',
  vmerge_rec ordk (resolve coll) f path m c = (c', Ok tt) <-> merge_rec (fun p m => order_by (ordk p (keys m)) m) (resolve coll) f path m c = Ok c'.
Proof.
  induction f as [|f IH]; intros path m c c'; [cbn; split; discriminate|].
  rewrite vmerge_unfold, merge_rec_unfold. generalize (order_by (ordk path (keys m)) m). intro es. revert c.
  induction es as [|[k v] es IHes]; intro c; [cbn; split; intro E; congruence|].
  rewrite vloop_cons. unfold ventry. cbv zeta.
  match goal with |- (let (c2, r) := ?V in _) = _ <-> bind ?C _ = _ => assert (K : forall x, V = (x, Ok tt) <-> C = Ok x) end.
  { assert (St : forall y x, (match c_set y (path ++ [k]) c with Ok c' => (c', Ok tt) | _ => (c, Err) end) = (x, Ok tt) <-> c_set y (path ++ [k]) c = Ok x).
    { intros y x. destruct (c_set y (path ++ [k]) c); split; intro E; congruence. }
    intro x. destruct (c_search (path ++ [k]) c) as [ex|]; [|apply St].
    assert (Cx : (match resolve coll ex v with None => (c, Err) | Some x => match c_set x (path ++ [k]) c with Ok c' => (c', Ok tt) | _ => (c, Err) end end) = (x, Ok tt) <->
                 (match resolve coll ex v with None => Err | Some x => c_set x (path ++ [k]) c end) = Ok x).
    { destruct (resolve coll ex v); [apply St | split; discriminate]. }
    destruct v, ex; try exact Cx. apply IH. }
  match goal with |- (let (c2, r) := ?V in _) = _ <-> bind ?C _ = _ => destruct V as [c2 r], C as [c3| | |] end; cbn [bind];
    try (destruct r as [[]| | |]; [pose proof (proj1 (K c2) eq_refl) as Q; discriminate | split; discriminate ..]).
  pose proof (proj2 (K c3) eq_refl) as Q. assert (c2 = c3 /\ r = Ok tt) as (-> & ->) by (split; congruence). apply IHes.
Qed.
Lemma vmerge_ok ordk coll c src c' :
  vmerge ordk (resolve coll) c src = (c', Ok tt) <-> c_merge (fun p m => order_by (ordk p (keys m)) m) (resolve coll) c src = Ok c'.
Proof.
  unfold vmerge, c_merge. destruct (c_data (c_clone src)); try (split; intro E; congruence). apply vmerge_rec_ok.
Qed.
Lemma order_in {A} ks (m : list (string * A)) k v : In (k, v) (order_by ks m) -> In (k, v) m.
Proof.
  unfold order_by. intro H. apply in_flat_map in H as (k1 & _ & H). destruct (oget k1 m) eqn:E; [|contradiction].
  destruct H as [H|[]]. injection H as <- <-. now apply oget_in.
Qed.
Lemma order_perm {A} ks (m : list (string * A)) : sorted m -> Permutation ks (keys m) -> Permutation (order_by ks m) m.
Proof.
  intros S P. assert (E : order_by (keys m) m = m); [|rewrite <- E at 2; unfold order_by; now apply Permutation_flat_map]. clear ks P.
  induction m as [|[k v] m IH]; [reflexivity|]. cbn [keys map fst order_by flat_map]. cbn [oget]. rewrite String.eqb_refl. cbn [app]. f_equal.
  etransitivity; [|apply IH; eapply sorted_tail, S]. unfold order_by. rewrite !flat_map_concat_map. f_equal. apply map_ext_in. intros k1 Hk.
  cbn [oget]. destruct (String.eqb k1 k) eqn:Q; [|reflexivity]. apply String.eqb_eq in Q as ->. exfalso.
  apply in_map_iff in Hk as ([k2 v2] & Ek & Hk). cbn in Ek. subst. pose proof (sorted_lt _ _ _ S _ _ Hk) as L. rewrite scmp_refl in L. discriminate.
Qed.
Lemma height_in m k x : In (k, x) m -> S (height x) <= height (JObj m).
Proof.
  cbn [height]. induction m as [|[k1 x1] m IH]; intro H; [contradiction|]. destruct H as [H|H]; [injection H as <- <-; lia | specialize (IH H); lia].
Qed.
Lemma vmerge_rec_total ordk coll : forall f path m c, height (JObj m) <= f ->
  snd (vmerge_rec ordk (resolve coll) f path m c) = Ok tt \/ snd (vmerge_rec ordk (resolve coll) f path m c) = Err.
Proof.
  induction f as [|f IH]; intros path m c L; [cbn in L; lia|]. rewrite vmerge_unfold.
  assert (I : forall k x, In (k, x) (order_by (ordk path (keys m)) m) -> height x <= f) by (intros k x H; apply order_in, height_in in H; lia).
  revert I. generalize (order_by (ordk path (keys m)) m). intro es. revert c.
  induction es as [|[k v] es IHes]; intros c I; [now left|]. rewrite vloop_cons.
  assert (T : snd (ventry coll (vmerge_rec ordk (resolve coll) f) path k v c) = Ok tt \/ snd (ventry coll (vmerge_rec ordk (resolve coll) f) path k v c) = Err).
  { assert (St : forall y, let V := (match c_set y (path ++ [k]) c with Ok c' => (c', Ok tt) | _ => (c, Err) end) in snd V = Ok tt \/ snd V = Err) by (intro y; destruct (c_set y (path ++ [k]) c); cbn; auto).
    unfold ventry. cbv zeta. destruct (c_search (path ++ [k]) c) as [ex|]; [|apply St].
    assert (Cx : let V := match resolve coll ex v with None => (c, Err) | Some x => match c_set x (path ++ [k]) c with Ok c' => (c', Ok tt) | _ => (c, Err) end end in snd V = Ok tt \/ snd V = Err).
    { destruct (resolve coll ex v); [apply St | now right]. }
    destruct v, ex; try exact Cx. apply IH. apply (I k). now left. }
  destruct (ventry coll _ path k v c) as [c2 r]. cbn [snd] in T. destruct T as [-> | ->]; [|now right]. apply IHes. intros k1 x1 H. apply (I k1). now right.
Qed.
Lemma vmerge_total ordk coll c src : snd (vmerge ordk (resolve coll) c src) = Ok tt \/ snd (vmerge ordk (resolve coll) c src) = Err.
Proof. unfold vmerge. destruct (c_data (c_clone src)); cbn [snd]; try (now left). now apply vmerge_rec_total. Qed.
