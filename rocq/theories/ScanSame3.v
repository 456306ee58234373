(** The last stages of two scans of the same input. *)
From Coq Require Import String Ascii List Bool Arith ZArith Lia Permutation.
From Verif Require Import Route GoStr GoStrFacts Json JsonFacts Gabs Container Url Pointer PtrFacts Spec_Ptr Spec_Clone Spec_Merge MergeFacts MergeApi MergeLaws HeapApi SetFacts
  Spec_Loc LocFacts Root Spec_Root RootFacts PathsFacts Spec_Resolve Resolver ResolverFacts ResolverFrame ScanRefs ScanKept ScanKept2 ScanFacts ScanOk.
Import ListNotations.
Local Open Scope string_scope.
Local Open Scope nat_scope.
Local Open Scope list_scope.

(** *** Default operations keep documents canonical *)
Lemma c_set_wf v np c c' : np <> [] -> wf v -> wf (c_data c) -> c_set v np c = Ok c' -> wf (c_data c').
Proof.
  intros N Wv Wc H. destruct c as [j|]; [|discriminate]. cbn [c_set] in H. apply bind_ok in H as (r & H & E). injection E as <-. cbn [c_data] in *. destruct np as [|s l]; [easy|]. cbn [root_set] in H.
  eapply gset_wf; [exact Wv | | exact H]. destruct j; try exact Wc. split; exact Logic.I.
Qed.
Section Merging.
  Context (ord : morder) (coll : merger) (Hch : forall d s x, coll d s = Some x -> x = d \/ x = s) (Ho : perm_oracle ord).
  Lemma merge_rec_wf : forall fuel path m c c', wf (JObj m) -> wf (c_data c) -> merge_rec ord coll fuel path m c = Ok c' -> wf (c_data c').
  Proof.
    induction fuel as [|fuel IH]; intros path m c c' Wm Hc H; [discriminate|]. cbn [merge_rec] in H.
    assert (Hes : forall k v, In (k, v) (ord path m) -> wf v).
    { intros k v I. apply (Permutation_in _ (Ho path m)) in I. apply wf_obj in Wm as (Sm & Fm). rewrite Forall_forall in Fm. apply (Fm _ I). }
    remember (ord path m) as es eqn:Ees. clear Ees Wm. revert c Hc H. induction es as [|[k v] es IHe]; intros c Hc H; [now injection H as <-|].
    apply bind_ok in H as (c1 & H1 & H). pose proof (Hes k v (or_introl eq_refl)) as Wv.
    assert (NP : path ++ [k] <> []) by (destruct path; discriminate).
    assert (Hc1 : wf (c_data c1)).
    { destruct (c_search (path ++ [k]) c) as [ex|] eqn:Es.
      - assert (Wx : wf ex) by (eapply search_wf; [|exact Es]; exact Hc).
        assert (CO : forall x, coll ex v = Some x -> c_set x (path ++ [k]) c = Ok c1 -> wf (c_data c1)).
        { intros x Ex Hx. eapply c_set_wf; [exact NP | | exact Hc | exact Hx]. destruct (Hch _ _ _ Ex) as [-> | ->]; assumption. }
        destruct v as [| | | | |t]; try (destruct (coll ex _) as [x|] eqn:Ex; [exact (CO x eq_refl H1) | discriminate]).
        destruct ex as [| | | | |t']; try (destruct (coll _ (JObj t)) as [x|] eqn:Ex; [exact (CO x eq_refl H1) | discriminate]).
        exact (IH _ t c c1 Wv Hc H1).
      - exact (c_set_wf _ _ _ _ NP Wv Hc H1). }
    eapply IHe; [|exact Hc1 | exact H]. intros k' v' I. apply (Hes k'). now right.
  Qed.
  Lemma c_merge_wf c src c' : (forall x, clone (c_data src) = Ok x -> wf x) -> wf (c_data c) -> c_merge ord coll c src = Ok c' -> wf (c_data c').
  Proof.
    intros Hs Hc H. unfold c_merge, c_clone in H. destruct (clone (c_data src)) as [j| | |] eqn:Ec; cbn [c_data] in H; try (injection H as <-; assumption). pose proof (Hs j eq_refl) as Wj.
    destruct j as [| | | | |m]; try (injection H as <-; assumption). exact (merge_rec_wf _ _ _ _ _ Wj Hc H).
  Qed.
End Merging.
Definition op_wf (f : fpath) : Prop := wf (c_data (fp_op f)).
Lemma apply_default_wf ord ov i st st' : perm_oracle ord -> (forall x, clone ov = Ok x -> wf x) -> wf (c_data (fst st)) -> Forall op_wf (snd st) -> apply_default ord ov i st = Ok st' ->
  wf (c_data (fst st')) /\ Forall op_wf (snd st').
Proof.
  intros Ho Hov Hc Hp H. unfold apply_default in H. destruct (nth_error (snd st) i) as [f|] eqn:Ei; [|injection H as <-; auto].
  apply bind_ok in H as (o & Eo & H). apply bind_ok in H as (nc & Hn & H). apply bind_ok in H as (c1 & H1 & H). apply bind_ok in H as (c2 & H2 & H). injection H as <-. cbn [fst snd].
  assert (Pf : op_wf f) by (rewrite Forall_forall in Hp; apply Hp; eapply nth_error_In; exact Ei).
  assert (Wn : wf (c_data nc)).
  { eapply c_merge_wf; [ | exact Ho | | exact Pf | exact Hn]; [intros d s x [= <-]; now left|]. intros x Hx. unfold c_make in Eo. apply bind_ok in Eo as (y & Ey & Eo). injection Eo as <-. cbn [c_data] in Hx. eapply clone_wf; [|exact Hx]. now apply Hov. }
  assert (T1 : wf (c_data c1)). { destruct (fp_in f); [|now injection H1 as <-]. eapply (c_set_wf _ (op_loc f)); [intros [=] | exact Wn | exact Hc | exact H1]. }
  split; [eapply c_setp_wf; [exact T1 | exact Wn | exact H2]|].
  rewrite Forall_forall. intros x I. apply in_map_iff in I as (y & <- & I).
  assert (Hy : op_wf y). { apply in_set_nth in I as [-> |I]; [|rewrite Forall_forall in Hp; now apply Hp]. exact Wn. }
  unfold detach. destruct (list_eq_dec string_dec (op_loc y) (key_loc f)); exact Hy.
Qed.
Lemma apply_defaults_wf (ord : nat -> morder) ov l : (forall i, perm_oracle (ord i)) -> (forall x, clone ov = Ok x -> wf x) -> forall st st', wf (c_data (fst st)) -> Forall op_wf (snd st) -> apply_defaults ord ov l st = Ok st' ->
  wf (c_data (fst st')) /\ Forall op_wf (snd st').
Proof.
  intros Ho Hov. induction l as [|i l IH]; intros st st' Hc Hp H; cbn [apply_defaults] in H; [injection H as <-; auto|]. apply bind_ok in H as (st1 & H1 & H).
  apply apply_default_wf in H1 as (A & B); auto. eapply IH; eassumption.
Qed.
Lemma defaults_loop_wf (ord : nat -> nat -> morder) defs : (forall n i, perm_oracle (ord n i)) -> Forall (fun kv => forall x, clone (snd kv) = Ok x -> wf x) defs ->
  forall n st st', wf (c_data (fst st)) -> Forall op_wf (snd st) -> defaults_loop ord n defs st = Ok st' -> wf (c_data (fst st')).
Proof.
  intro Ho. induction defs as [|[pat ov] defs IH]; intros Hd n st st' Hc Hp H; cbn [defaults_loop] in H; [injection H as <-; auto|]. apply bind_ok in H as (l & _ & H). apply bind_ok in H as (st1 & H1 & H).
  apply apply_defaults_wf in H1 as (A & B); auto; [|exact (Forall_inv Hd)]. eapply IH; [exact (Forall_inv_tail Hd) | exact A | exact B | exact H].
Qed.
Theorem defaults_wf ordp (ordm : morder) ordd (ord : nat -> nat -> morder) defops doc c' : (forall l, Permutation (ordp l) l) -> perm_oracle ordm -> (forall l, Permutation (ordd l) l) -> (forall n i, perm_oracle (ord n i)) ->
  wf doc -> Forall ok_default defops -> set_paths_defaults ordp ordm ordd ord defops (Some doc) = Ok c' -> wf (c_data c').
Proof.
  intros Hp Hm Hd Ho W Hdef H. unfold set_paths_defaults in H. apply bind_ok in H as (ff & Hff & H). apply bind_ok in H as (st & Hst & H). injection H as <-.
  eapply defaults_loop_wf; [exact Ho | | | | exact Hst]; cbn [fst snd]; [|exact W|].
  - rewrite Forall_forall in *. intros kv I x Hx. apply (Permutation_in _ (Hd defops)) in I. destruct (Hdef kv I) as (m & Em & Wm & _). rewrite Em in Hx. eapply clone_wf; eassumption.
  - destruct (paths_of_spec ordp ordm doc ff Hp Hm W Hff) as (A & B & _ & _). rewrite Forall_forall. intros f I. destruct (B f I) as (p & m & v & ->). apply A in I. unfold op_at in I. apply at_path_lookup in I. exact (lookup_wf _ _ _ W I).
Qed.

(** *** Default operations on documents that agree *)
Lemma with_default_fun o v v1 v2 : with_default o v v1 -> with_default o v v2 -> v1 = v2.
Proof.
  intros H1 H2. destruct H1 as [o a r M|o No|v N]; inversion H2 as [o0 a0 r0 M0|o0 No0|v0 N0]; subst; try reflexivity; try discriminate; try (now destruct No); try (now destruct No0). exact (merged_fun _ _ _ _ _ M M0).
Qed.
Lemma with_defaults_fun os : forall v v1 v2, with_defaults os v v1 -> with_defaults os v v2 -> v1 = v2.
Proof.
  induction os as [|o os IH]; intros v v1 v2 H1 H2; inversion H1 as [|? ? ? x1 ? D1 R1]; inversion H2 as [|? ? ? x2 ? D2 R2]; subst; [reflexivity|].
  rewrite (with_default_fun _ _ _ _ D1 D2) in R1. exact (IH _ _ _ R1 R2).
Qed.
Lemma filter_perm {A} (f : A -> bool) l l' : Permutation l l' -> Permutation (filter f l) (filter f l').
Proof. induction 1 as [|x l l' _ IH|x y l|l l' l'' _ IH1 _ IH2]; cbn [filter]; [constructor | destruct (f x); auto | destruct (f x), (f y); auto; constructor | exact (perm_trans IH1 IH2)]. Qed.
Lemma chosen_perm e l l' : Permutation l l' -> length (chosen e l') <= 1 -> chosen e l = chosen e l'.
Proof.
  intros P N. assert (Q : Permutation (chosen e l) (chosen e l')) by (apply Permutation_map, filter_perm, P). destruct (chosen e l') as [|x [|y r]] eqn:E; [now apply Permutation_sym, Permutation_nil in Q | | cbn in N; lia].
  now apply Permutation_sym, Permutation_length_1_inv in Q.
Qed.
Lemma at_path_app p q j : at_path (p ++ q) j = match at_path p j with Some v => at_path q v | None => None end.
Proof. revert j. induction p as [|k p IH]; intro j; [reflexivity|]. cbn [app at_path]. destruct j; try reflexivity. destruct (oget k m); [apply IH | reflexivity]. Qed.
Lemma at_path_nodes p j1 j2 : wf j1 -> wf j2 -> (forall s, node_at (p ++ s) j1 = node_at (p ++ s) j2) -> at_path p j1 = at_path p j2.
Proof.
  intros W1 W2 H. unfold node_at in H. destruct (at_path p j1) as [v1|] eqn:E1; destruct (at_path p j2) as [v2|] eqn:E2; [|specialize (H []); rewrite !at_path_app, E1, E2 in H; cbn in H; destruct v1; discriminate|specialize (H []); rewrite !at_path_app, E1, E2 in H; cbn in H; destruct v2; discriminate|reflexivity].
  f_equal. apply node_ext; [apply at_path_lookup in E1; exact (lookup_wf _ _ _ W1 E1) | apply at_path_lookup in E2; exact (lookup_wf _ _ _ W2 E2)|].
  intro s. specialize (H s). rewrite !at_path_app, E1, E2 in H. exact H.
Qed.
Lemma operation_dots doc : nicely doc -> forall p m v, operation p m doc v -> has_char "." p = false /\ has_char "." m = false.
Proof.
  intro Nd. unfold operation. intros p m v L. destruct doc as [| | | | |dm]; try discriminate. cbn [at_path] in L. destruct (oget "paths" dm) as [x|] eqn:E1; [|discriminate]. destruct x as [| | | | |pm]; try discriminate.
  destruct (oget p pm) as [y|] eqn:E2; [|discriminate]. destruct y as [| | | | |mm]; try discriminate. destruct (oget m mm) as [z|] eqn:E3; [|discriminate]. apply oget_in in E1, E2, E3.
  split; apply Nd.
  - eapply kin_obj; [exact E1|]. eapply kin_here; exact E2.
  - eapply kin_obj; [exact E1|]. eapply kin_obj; [exact E2|]. eapply kin_here; exact E3.
Qed.
Lemma prefix_dec (p q : list string) : {is_prefix p q} + {~ is_prefix p q}.
Proof.
  revert q. induction p as [|x p IH]; intro q; [left; now exists q|]. destruct q as [|y q]; [right; intros (r & E); discriminate|]. destruct (string_dec x y) as [->|N]; [|right; intros (r & [= E _]); now apply N].
  destruct (IH q) as [Y|Y]; [left; destruct Y as (r & ->); now exists r | right; intros (r & [= E]); apply Y; now exists r].
Qed.
Section Same.
  Context (ordp1 ordp2 : list (string * json) -> list (string * json)) (ordm1 ordm2 : morder) (ordd1 ordd2 : list (string * json) -> list (string * json)) (ord1 ord2 : nat -> nat -> morder) (defops : list (string * json)).
  Hypothesis Hp1 : forall l, Permutation (ordp1 l) l. Hypothesis Hp2 : forall l, Permutation (ordp2 l) l.
  Hypothesis Hm1 : perm_oracle ordm1. Hypothesis Hm2 : perm_oracle ordm2.
  Hypothesis Hd1 : forall l, Permutation (ordd1 l) l. Hypothesis Hd2 : forall l, Permutation (ordd2 l) l.
  Hypothesis Ho1 : forall n i, perm_oracle (ord1 n i). Hypothesis Ho2 : forall n i, perm_oracle (ord2 n i).
  Hypothesis Hdef : Forall ok_default defops.
  (** [ok]: where the documents agree. *)
  Context (ok : list string -> Prop).
  Hypothesis ok_below : forall p q, ok p -> ok (p ++ q).
  Hypothesis ok_paths : forall q, ok ("paths" :: q).
  Theorem defaults_same doc1 doc2 c1 c2 : wf doc1 -> wf doc2 -> pure doc1 -> pure doc2 ->
    (forall q, ok q -> at_path q doc1 = at_path q doc2) ->
    (forall p m v, operation p m doc1 v -> length (chosen (p, m) defops) <= 1) ->
    set_paths_defaults ordp1 ordm1 ordd1 ord1 defops (Some doc1) = Ok c1 -> set_paths_defaults ordp2 ordm2 ordd2 ord2 defops (Some doc2) = Ok c2 ->
    wf (c_data c1) /\ wf (c_data c2) /\ forall q, ok q -> at_path q (c_data c1) = at_path q (c_data c2).
  Proof.
    intros W1 W2 (N1 & F1) (N2 & F2) Hsame Hone H1 H2.
    pose proof (defaults_wf _ _ _ _ _ _ _ Hp1 Hm1 Hd1 Ho1 W1 Hdef H1) as X1. pose proof (defaults_wf _ _ _ _ _ _ _ Hp2 Hm2 Hd2 Ho2 W2 Hdef H2) as X2. split; [exact X1|]. split; [exact X2|].
    destruct (defaults_spec _ _ _ _ _ _ _ Hp1 Hm1 Hd1 Ho1 W1 F1 (operation_dots _ N1) Hdef H1) as (d1 & -> & A1 & B1). destruct (defaults_spec _ _ _ _ _ _ _ Hp2 Hm2 Hd2 Ho2 W2 F2 (operation_dots _ N2) Hdef H2) as (d2 & -> & A2 & B2). cbn [c_data] in *.
    intros q Hq. apply at_path_nodes; [exact X1 | exact X2|]. intro s. pose proof (ok_below q s Hq) as Hqs. remember (q ++ s) as k eqn:Ek. clear Ek q s Hq.
    assert (Hops : forall p m v, operation p m doc1 v <-> operation p m doc2 v) by (intros p m v; unfold operation; now rewrite Hsame by apply ok_paths).
    assert (D : (exists p m v, operation p m doc1 v /\ is_prefix ["paths"; p; m] k) \/ forall p m v, operation p m doc1 v -> ~ is_prefix ["paths"; p; m] k).
    { destruct k as [|a [|p [|m r]]]; try (right; intros p0 m0 v _ (r0 & E); discriminate). destruct (string_dec a "paths") as [->|Na]; [|right; intros p0 m0 v _ (r0 & [= E _ _]); now apply Na].
      destruct (at_path ["paths"; p; m] doc1) as [v|] eqn:E; [left; exists p, m, v; split; [exact E | now exists r]|]. right. intros p0 m0 v Op (r0 & E0). cbn in E0. injection E0 as <- <- _. unfold operation in Op. congruence. }
    destruct D as [(p & m & v & Op & (r & ->))|D].
    - destruct (A1 p m v Op) as (v1 & O1 & D1). apply Hops in Op as Op2. destruct (A2 p m v Op2) as (v2 & O2 & D2).
      rewrite (chosen_perm _ _ _ (Hd1 defops)) in D1 by exact (Hone p m v Op). rewrite (chosen_perm _ _ _ (Hd2 defops)) in D2 by exact (Hone p m v Op).
      rewrite (with_defaults_fun _ _ _ _ D1 D2) in O1. unfold node_at. rewrite !at_path_app. unfold operation in O1, O2. now rewrite O1, O2.
    - rewrite B1 by exact D. rewrite B2 by (intros p m v Op; apply (D p m v), Hops, Op). unfold node_at. now rewrite Hsame.
  Qed.
End Same.
