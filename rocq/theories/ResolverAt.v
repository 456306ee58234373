(** What Resolve leaves at one reference, and in one component (proofs). *)
From Coq Require Import String Ascii List Bool Arith ZArith Lia Permutation.
From Verif Require Import GoStr GoStrFacts Json JsonFacts Gabs GabsFacts Container MergeFacts
  Spec_Loc LocFacts SetFacts CloneFacts Url Pointer FragFacts PtrFacts Resolver Spec_Resolve ResolverFacts ResolverTerm ResolverFrame ResolverLocal ResolverExpand ResolverExpandX.
Import ListNotations.
Local Open Scope string_scope.
Local Open Scope nat_scope.
Local Open Scope list_scope.

(** ** Entities without external references *)
Definition leaf_entity (x : json) : Prop := wf x /\ keys_ok plain x /\ no_ext x.
Lemma leaf_clone x y : leaf_entity x -> clone x = Ok y -> leaf_entity y.
Proof. intros (A & B & C) H. split; [exact (clone_wf _ _ A H)|]. split; [exact (clone_keys_ok _ _ _ B H) | now apply (clone_no_ext _ _ H)]. Qed.
Lemma iter_leaf ord es fn fuel pos pp rt y s' : (forall pos l, Permutation (ord pos l) l) -> leaf_entity y ->
  iterator ord es fn fuel pos pp (rt, Some (Some y)) = Ok s' -> s' = (rt, Some (Some y)).
Proof.
  intros Ho (W & K & N) H. destruct fuel as [|f]; [discriminate|]. rewrite iterator_S in H. apply bind_ok in H as (refs & He & H). unfold st_cx in He. cbn [snd] in He.
  destruct (extract_refs (ord pos) y refs (Ho pos) W K He) as (_ & Hre & _). clear He.
  revert H. generalize 0 as i. induction Hre as [|[key v] refs (q & E1 & L1 & _) Hre IH]; intros i H; cbn [rloop] in H; [now injection H as <-|].
  apply bind_ok in H as (s1 & Hs & H). cbn [fst snd] in *. assert (s1 = (rt, Some (Some y))) as ->; [|exact (IH _ H)].
  unfold rstep in Hs. destruct v as [| | |t| |]; try (now injection Hs as <-). apply bind_ok in Hs as (p & Hp & Hs). destruct (is_external p) eqn:Hx; cbn [negb] in Hs; [|now injection Hs as <-].
  exfalso. apply (N q t p). split; auto.
Qed.

Lemma lookup_put q : forall v j x, lookup q j = Some x -> lookup q (put q v j) = Some v.
Proof.
  induction q as [|[k|i] q IH]; intros v j x L; [reflexivity| |]; cbn [lookup put] in *; destruct j as [| | | |l|m]; try discriminate.
  - destruct (oget k m) as [c|] eqn:E; [|discriminate]. cbn [lookup]. rewrite oget_oset, String.eqb_refl. now apply (IH _ _ x).
  - destruct (nth_error l i) as [c|] eqn:E; [|discriminate]. cbn [lookup]. erewrite set_nth_same by exact E. now apply (IH _ _ x).
Qed.

(** ** Values of an entity apart from its external references *)
Lemma iter_frame ord es fn fuel pos pp rt y s' : (forall pos l, Permutation (ord pos l) l) -> wf y -> keys_ok plain y ->
  iterator ord es fn fuel pos pp (rt, Some (Some y)) = Ok s' ->
  forall rr, (forall q t p, ext_ref y q t p -> apart q rr) -> lookup rr (c_data (st_cx s')) = lookup rr y.
Proof.
  intros Ho W K H. destruct fuel as [|f]; [discriminate|]. rewrite iterator_S in H. apply bind_ok in H as (refs & He & H). unfold st_cx in He. cbn [snd] in He.
  destruct (extract_refs (ord pos) y refs (Ho pos) W K He) as (_ & Hre & _). clear He.
  set (E := excluded y []). enough (G : exists rt' c', s' = (rt', Some c') /\ framed E y c').
  { destruct G as (rt' & c' & -> & _ & Fr). intros rr Ha. unfold st_cx. cbn [snd]. apply Fr. intros e He. unfold E, excluded in He. cbn [existsb] in He. rewrite orb_false_r in He. apply ext_at_spec in He as (t & p & X). exact (Ha e t p X). }
  assert (Hf : framed E y (Some y)) by apply framed_refl. revert H Hf. generalize (Some y) as c. revert rt. generalize 0 as i.
  induction Hre as [|[key v] refs (q0 & E1 & L1 & O1) Hre IH]; intros i rt c H Hf; cbn [rloop] in H; [injection H as <-; eauto|].
  apply bind_ok in H as (s1 & Hs & H). cbn [fst snd] in *. enough (G : exists rt1 c1, s1 = (rt1, Some c1) /\ framed E y c1) by (destruct G as (rt1 & c1 & -> & F1); exact (IH _ _ _ H F1)). clear IH H.
  unfold rstep in Hs. destruct v as [| | |t| |]; try (injection Hs as <-; eauto). apply bind_ok in Hs as (p & Hp & Hs). destruct (is_external p) eqn:Hx; cbn [negb] in Hs; [|injection Hs as <-; eauto].
  assert (Ex : ext_at y q0 = true) by (apply ext_at_spec; exists t, p; split; auto).
  assert (Cx : forall (fc : cont -> res cont) rt0 s0, on_cx fc (rt0, Some c) = Ok s0 -> exists c1, fc c = Ok c1 /\ s0 = (rt0, Some c1)) by (intros fc rt0 s0 X; unfold on_cx in X; cbn [snd fst] in X; apply bind_ok in X as (c1 & X & Y); injection Y as <-; eauto).
  assert (Rp : forall val c1, replace_ptr key val c = Ok c1 -> framed E y c1) by (intros val c1; exact (framed_replace y [] key _ q0 c c1 val K E1 L1 O1 Ex Hf)).
  assert (Up : forall fr c1, update_ptr_local key fr c = Ok c1 -> framed E y c1) by (intros fr c1; exact (framed_update y [] key _ q0 c c1 fr K E1 L1 O1 Ex Hf)).
  destruct (path_has pp p).
  - unfold r_set_recursive in Hs. destruct (exports_get es p) as [e|]; [destruct (is_scheme e)|]; apply Cx in Hs as (c1 & X & ->); eauto.
  - apply bind_ok in Hs as (x & _ & Hs). apply bind_ok in Hs as (nc & _ & Hs). apply bind_ok in Hs as (r & _ & Hs). unfold r_set in Hs. cbn [fst snd] in Hs. destruct (exports_get es p) as [e|].
    + apply bind_ok in Hs as (s2 & H1 & H2). unfold on_root in H1. cbn [fst snd] in H1. apply bind_ok in H1 as (c' & _ & X). injection X as <-. apply Cx in H2 as (c1 & X & ->); eauto.
    + apply Cx in Hs as (c1 & X & ->); eauto.
Qed.
Lemma clone_sub x y rr w : clone x = Ok y -> lookup rr y = Some w -> clone w = Ok w.
Proof.
  intros H L. pose proof (clone_lookup rr _ _ (clone_idem _ _ H)) as C. rewrite L in C. exact C.
Qed.

(** ** Sets of components, with the value that is set *)
(** What resolving y (the clone of x, the entity of p) along pp ++ [p] gives. *)
Definition outcome (doc : json) (es : list export) (fn : ptr -> res json) (pp : list ptr) (p : ptr) (x y v : json) : Prop :=
  (leaf_entity x -> v = y) /\
  (wf x -> keys_ok plain x -> forall rr, (forall q t p0, ext_ref x q t p0 -> apart q rr) -> lookup rr v = lookup rr y) /\
  (sane_fn fn -> sane doc -> chain doc fn (pp ++ [p]) x /\ exists n, expandx n (expo es) fn clone (pp ++ [p]) y = Ok v).
Definition made (doc : json) (es : list export) (fn : ptr -> res json) (e : export) (v : json) : Prop :=
  exists pp p x y, exports_get es p = Some e /\ fn p = Ok x /\ clone x = Ok y /\ outcome doc es fn pp p x y v.
Lemma path_has_in pp p : path_has pp p = false -> ~ In (ptr_string p) (map ptr_string pp).
Proof.
  intros H Hin. apply in_map_iff in Hin as (p' & E & Hin). enough (path_has pp p = true) by congruence. apply existsb_exists. exists p'. split; [exact Hin|]. now apply String.eqb_eq.
Qed.
Lemma outcome_clone doc es fn pp p x y v v' : clone x = Ok y -> outcome doc es fn pp p x y v -> clone v = Ok v' -> outcome doc es fn pp p x y v'.
Proof.
  intros Hy (A & A2 & B) Hv. split; [|split].
  - intro L. specialize (A L). subst v. pose proof (clone_idem _ _ Hy). congruence.
  - intros W K rr Ha. specialize (A2 W K rr Ha). pose proof (clone_lookup rr _ _ Hv) as C. rewrite A2 in C. destruct (lookup rr y) as [w|] eqn:Lw.
    + rewrite (clone_sub _ _ _ _ Hy Lw) in C. destruct (lookup rr v'); [congruence | destruct C].
    + destruct (lookup rr v'); [destruct C | reflexivity].
  - intros Hs Hd. destruct (B Hs Hd) as (C & n & Hn). split; [exact C|]. exists n. rewrite Hn. f_equal.
    pose proof (expandx_normal es fn n _ _ _ (normal_clone _ _ Hy) Hn) as N. unfold normal in N. congruence.
Qed.
Section Made.
  Context (ord : list nat -> list (string * json) -> list (string * json)) (Ho : forall pos l, Permutation (ord pos l) l).
  Context (doc : json) (es : list export) (Hes : Forall (fun e => good_name (e_name e)) es) (fn : ptr -> res json) (R : cont -> Prop).
  Hypothesis HR : forall e v c c', In e es -> made doc es fn e v -> R c -> set_entity (e_kind e) (e_name e) v c = Ok c' -> R c'.

  (** The state of one nested resolution: where it came from. *)
  Definition from (pp : list ptr) (y : json) : Prop := sane_fn fn -> sane doc -> exists x, chain doc fn pp x /\ sane x /\ clone x = Ok y.
  Lemma from_step pp y q t p x : from pp y -> ext_ref y q t p -> path_has pp p = false -> fn p = Ok x ->
    sane_fn fn -> sane doc -> chain doc fn (pp ++ [p]) x.
  Proof.
    intros Hf He Hp Hx Hs Hd. destruct (Hf Hs Hd) as (x0 & C & S & Hc). eapply chain_ref; [exact C | apply (clone_ext _ _ _ _ _ Hc), He | now apply path_has_in | exact Hx].
  Qed.
  Lemma iter_outcome fuel pos pp p x y rt s' : fn p = Ok x -> clone x = Ok y -> (sane_fn fn -> sane doc -> chain doc fn (pp ++ [p]) x) ->
    iterator ord es fn fuel pos (pp ++ [p]) (rt, Some (Some y)) = Ok s' -> outcome doc es fn pp p x y (c_data (st_cx s')).
  Proof.
    intros Hx Hy Hch H. split; [|split].
    - intro Lx. now rewrite (iter_leaf _ _ _ _ _ _ _ _ _ Ho (leaf_clone _ _ Lx Hy) H).
    - intros W K rr Ha. apply (iter_frame _ _ _ _ _ _ _ _ _ Ho (clone_wf _ _ W Hy) (clone_keys_ok _ _ _ K Hy) H). intros q t p0 X. apply (Ha q t p0). now apply (clone_ext _ _ _ _ _ Hy).
    - intros Hs Hd. split; [now apply Hch|]. destruct (clone_sane _ _ (Hs _ _ Hx) Hy) as [T1 T2].
      destruct (iterator_expandx ord es fn Ho Hes Hs _ _ _ _ _ T1 T2 (normal_clone _ _ Hy) _ H) as (v & Hv & E). exists fuel. unfold st_cx. rewrite E. exact Hv.
  Qed.
  (** The references met in a container. *)
  Definition entry_from (pp : list ptr) (y : json) (kv : string * json) : Prop := forall t p, snd kv = JStr t -> ptr_parse t = Ok p -> is_external p = true -> sane_fn fn -> sane doc -> exists q, ext_ref y q t p.
  Lemma entries_from pos pp y refs : from pp y -> extract_key (ord pos) "$ref" (Some y) = Ok refs -> Forall (entry_from pp y) refs.
  Proof.
    intros Hf He. apply Forall_forall. intros [key v] Hin t p Ev Hp Hx Hs Hd. cbn [snd] in Ev. subst v. destruct (Hf Hs Hd) as (x0 & C & S & Hc). destruct (clone_sane _ _ S Hc) as [T1 _].
    destruct (extract_refs (ord pos) y refs (Ho pos) (proj1 T1) (proj1 (proj2 T1)) He) as (_ & Hre & _). rewrite Forall_forall in Hre. destruct (Hre _ Hin) as (q & _ & L & _). exists q. split; auto.
  Qed.

  (** One resolution, at the top or nested: r.con keeps R until the value is set. *)
  Lemma nested fuel : forall pos pp rt y s', iterator ord es fn fuel pos pp (rt, Some (Some y)) = Ok s' -> from pp y -> R rt -> R (fst s') /\ snd s' <> None.
  Proof.
    induction fuel as [|f IH]; intros pos pp rt y s' H Hfr Hr; [discriminate|].
    rewrite iterator_S in H. apply bind_ok in H as (refs & He & H). unfold st_cx in He. cbn [snd] in He. pose proof (entries_from _ _ _ _ Hfr He) as Hen. clear He.
    assert (Hn : snd (rt, Some (Some y)) <> None) by discriminate. change rt with (fst (rt, Some (Some y))) in Hr.
    revert H Hn Hr. generalize (rt, Some (Some y)). generalize 0 as i. induction refs as [|[key v] refs IHl]; intros i s H Hn Hr; cbn [rloop] in H; [injection H as <-; auto|].
    apply bind_ok in H as (s1 & Hs & H). inversion Hen as [|? ? He0 Hen']; subst.
    assert (R (fst s1) /\ snd s1 <> None) as [Hr1 Hn1]; [|now apply (IHl Hen' (S i) s1)].
    clear H IHl. unfold rstep in Hs. destruct v as [| | |t| |]; try (injection Hs as <-; auto).
    apply bind_ok in Hs as (p & Hp & Hs). destruct (is_external p) eqn:Hx; cbn [negb] in Hs; [|injection Hs as <-; auto]. destruct (path_has pp p) eqn:Hh.
    - apply (r_set_rec_nested es) in Hs as [-> ?]; auto.
    - apply bind_ok in Hs as (x & Hfx & Hs). apply bind_ok in Hs as (nc & Hnc & Hs). apply bind_ok in Hs as (r & Hr' & Hs).
      unfold c_make in Hnc. apply bind_ok in Hnc as (y' & Hy & E). injection E as <-.
      assert (Hch : sane_fn fn -> sane doc -> chain doc fn (pp ++ [p]) x). { intros Hsf Hd. destruct (He0 t p eq_refl Hp Hx Hsf Hd) as (q & Hq). now apply (from_step pp y q t p x Hfr Hq Hh Hfx). }
      destruct (IH _ _ _ _ _ Hr') as [A1 _]; [|exact Hr|]. { intros Hsf Hd. exists x. split; [now apply Hch|]. split; [exact (Hsf _ _ Hfx) | exact Hy]. }
      pose proof (iter_outcome _ _ _ _ _ _ _ _ Hfx Hy Hch Hr') as Hout.
      unfold r_set in Hs. destruct (exports_get es p) as [e|] eqn:Ee.
      + pose proof (exports_get_in _ _ _ Ee) as [Ie _]. apply bind_ok in Hs as (s2 & H1 & H2). unfold on_root in H1. apply bind_ok in H1 as (c' & H1 & E1). injection E1 as <-. cbn [fst snd] in *.
        apply on_cx_nested in H2 as [H2 H3]; [|exact Hn]. rewrite H2. cbn [fst]. split; [|exact H3]. eapply HR; [exact Ie | | exact A1 | exact H1].
        exists pp, p, x, y'. split; [exact Ee|]. split; [exact Hfx|]. split; [exact Hy | exact Hout].
      + apply on_cx_nested in Hs as [H2 H3]; [|exact Hn]. rewrite H2. auto.
  Qed.

  (** The outermost loop over references at locations satisfying P. *)
  Lemma top_loop_at (P : loc -> Prop) f j0 : clone doc = Ok j0 ->
    (forall q0 t p val c c', P q0 -> ext_ref j0 q0 t p -> Forall seg_ok (q0 ++ [REF]) -> R c -> replace_ptr (render (q0 ++ [REF])) val c = Ok c' -> R c') ->
    (forall q0 t p fr c c', P q0 -> ext_ref j0 q0 t p -> Forall seg_ok (q0 ++ [REF]) -> R c -> update_ptr_local (render (q0 ++ [REF])) fr c = Ok c' -> R c') ->
    forall refs i rt s', Forall (fun kv => exists q, P q /\ fst kv = render (q ++ [REF]) /\ lookup (q ++ [REF]) j0 = Some (snd kv) /\ Forall seg_ok (q ++ [REF])) refs -> R rt ->
    rloop (rstep ord es fn f [] []) i refs (rt, None) = Ok s' -> R (fst s') /\ snd s' = None.
  Proof.
    intros Hcd H2 H3. induction refs as [|[key v] refs IHl]; intros i rt s' Hre Hr H; cbn [rloop] in H; [injection H as <-; auto|].
    apply bind_ok in H as (s1 & Hs & H). inversion Hre as [|? ? (q0 & Pq & E1 & L1 & O1) Hre']; subst. cbn [fst snd] in E1, L1. subst key.
    assert (exists c1, s1 = (c1, None) /\ R c1) as (c1 & -> & Hr1); [|now apply (IHl (S i) c1)].
    clear H IHl. unfold rstep in Hs. destruct v as [| | |t| |]; try (injection Hs as <-; eauto).
    apply bind_ok in Hs as (p & Hp & Hs). destruct (is_external p) eqn:Hx; cbn [negb] in Hs; [|injection Hs as <-; eauto].
    assert (Hext : ext_ref j0 q0 t p) by (split; auto). cbn [path_has existsb] in Hs.
    apply bind_ok in Hs as (x & Hfx & Hs). apply bind_ok in Hs as (nc & Hnc & Hs). apply bind_ok in Hs as (r & Hr' & Hs).
    unfold c_make in Hnc. apply bind_ok in Hnc as (y & Hy & E). injection E as <-.
    assert (Hch : sane_fn fn -> sane doc -> chain doc fn ([] ++ [p]) x). { intros Hsf Hd. eapply chain_ref; [apply chain_doc | apply (clone_ext _ _ _ _ _ Hcd), Hext | intros [] | exact Hfx]. }
    destruct (nested _ _ _ _ _ _ Hr') as [A1 _]; [|exact Hr|]. { intros Hsf Hd. exists x. split; [now apply Hch|]. split; [exact (Hsf _ _ Hfx) | exact Hy]. } cbn [snd] in Hs.
    pose proof (iter_outcome _ _ [] p _ _ _ _ Hfx Hy Hch Hr') as Hout.
    unfold r_set in Hs. destruct (exports_get es p) as [e|] eqn:Ee.
    + pose proof (exports_get_in _ _ _ Ee) as [Ie _]. apply bind_ok in Hs as (s2 & Hs1 & Hs2).
      unfold on_root in Hs1. cbn [fst snd] in Hs1. apply bind_ok in Hs1 as (c' & Hc & E). injection E as <-.
      apply on_cx_top in Hs2 as (c2 & Hc2 & ->). exists c2. split; [reflexivity|].
      eapply H3; [exact Pq | exact Hext | exact O1 | | exact Hc2]. eapply HR; [exact Ie | | exact A1 | exact Hc].
      exists [], p, x, y. split; [exact Ee|]. split; [exact Hfx|]. split; [exact Hy | exact Hout].
    + apply on_cx_top in Hs as (c2 & Hc2 & ->). exists c2. split; [reflexivity|]. eapply H2; [exact Pq | exact Hext | exact O1 | exact A1 | exact Hc2].
  Qed.
End Made.

Lemma rloop_app body refs1 : forall refs2 i s s', rloop body i (refs1 ++ refs2) s = Ok s' -> exists s1, rloop body i refs1 s = Ok s1 /\ rloop body (i + length refs1) refs2 s1 = Ok s'.
Proof.
  induction refs1 as [|[k v] refs1 IH]; intros refs2 i s s' H; cbn [app rloop length] in *; [exists s; rewrite Nat.add_0_r; auto|].
  apply bind_ok in H as (s1 & H1 & H). destruct (IH _ _ _ _ H) as (s2 & A & B). exists s2. rewrite H1. cbn [bind]. split; [exact A|]. now replace (i + S (length refs1)) with (S i + length refs1) by lia.
Qed.

(** ** One location *)
Lemma addresses_length top p j q : addresses top p j q -> length q = length p.
Proof. intro H. apply addresses_segs in H. induction H; cbn; congruence. Qed.
(** Where a set for the reference at q0 of j acts: at q0 (or its $ref member), or
    at or below some excluded location above q0. *)
Lemma ref_address E j c path q0 key v q1 : key = render (q0 ++ [REF]) -> lookup (q0 ++ [REF]) j = Some v -> Forall seg_ok (q0 ++ [REF]) -> q0 <> [] ->
  (path = key \/ isref key = Some path) -> shape E j (c_data c) -> addresses true (dot_path path) (denull (c_data c)) q1 ->
  (q1 = q0 ++ [REF] /\ path = key) \/ (q1 = q0 /\ isref key = Some path) \/ exists e, E e = true /\ above e (q0 ++ [REF]) /\ above e q1.
Proof.
  intros -> Hl Hs Hn Hp Hsh Ha. pose proof (isref_render q0 Hs) as Ir. rewrite Ir in *.
  assert (Hx : exists x, lookup q0 j = Some x) by (rewrite lookup_app in Hl; destruct (lookup q0 j); [eauto | discriminate]). destruct Hx as [x Hx].
  destruct Hp as [-> | [= <-]].
  - rewrite dot_path_render in Ha by (auto; destruct q0; discriminate).
    destruct (addr_align _ _ j _ _ _ _ (shape_denull _ _ _ Hsh) Hs Hl Ha) as [->|(e & E1 & E2 & E3)]; [left; auto | right; right; exists e; auto].
  - pose proof (proj1 (proj1 (Forall_app _ _ _) Hs)) as Hs'. rewrite dot_path_render in Ha by auto.
    destruct (addr_align _ _ j _ _ _ _ (shape_denull _ _ _ Hsh) Hs' Hx Ha) as [->|(e & E1 & E2 & E3)]; [right; left; auto | right; right; exists e; split; [exact E1|]; split; [|exact E3]].
    eapply above_trans; [exact E2 | now exists [REF]].
Qed.
Lemma above_snoc e q s : above e (q ++ [s]) -> above e q \/ e = q ++ [s].
Proof.
  intros [t Et]. destruct t as [|a t] using rev_ind; [rewrite app_nil_r in Et; auto|]. rewrite app_assoc in Et. apply app_inj_tail in Et as [-> _]. left. now exists t.
Qed.
(** Either kind of rewriting is a set at the reference or at its $ref member. *)
Lemma replace_set q0 val c c' : Forall seg_ok (q0 ++ [REF]) -> replace_ptr (render (q0 ++ [REF])) val c = Ok c' ->
  exists path, isref (render (q0 ++ [REF])) = Some path /\ c_setp path val c = Ok c'.
Proof. intros Hs H. unfold replace_ptr in H. rewrite (isref_render q0 Hs) in *. eauto. Qed.
Lemma update_set q0 fr c c' : Forall seg_ok (q0 ++ [REF]) -> update_ptr_local (render (q0 ++ [REF])) fr c = Ok c' ->
  c_setp (render (q0 ++ [REF])) (JStr (ptr_string {| p_url := p_url new_pointer; p_frag := fr |})) c = Ok c'.
Proof. intros Hs H. unfold update_ptr_local, update_ptr in H. now rewrite (isref_render q0 Hs) in H. Qed.

(** A set at an address apart from q keeps what is at q. *)
Lemma setp_apart path v c c' q q1 : c_setp path v c = Ok c' -> q <> [] -> (forall q1, addresses true (dot_path path) (denull (c_data c)) q1 -> apart q1 q) -> q1 = q ->
  lookup q (c_data c') = lookup q (c_data c).
Proof.
  intros H Hn Ha _. apply setp_inv in H as (j & v' & r & q2 & -> & -> & Hc & _ & A & Hr). cbn [c_data] in *. destruct (gset_spec _ _ _ _ v' A _ Hr) as [_ G2]. rewrite (G2 q (Ha _ A)).
  destruct (apart_denull q2 q j Hn) as [-> |E]; [reflexivity|]. specialize (Ha _ A). subst. exfalso. apply (proj1 Ha). exists []. now rewrite app_nil_r.
Qed.

Theorem resolve_at ord es fn fuel doc r q t p : (forall pos l, Permutation (ord pos l) l) -> wf doc -> keys_ok plain doc ->
  Forall (fun e => good_name (e_name e)) es -> resolve ord es fn fuel (Some doc) = Ok r ->
  ext_ref doc q t p -> q <> [] ->
  (forall q0 t0 p0, ext_ref doc q0 t0 p0 -> q0 = q \/ apart q0 q) -> (forall e, In e es -> apart (comp_loc (kind_key (e_kind e)) (e_name e)) q) ->
  exists doc' x y, clone doc = Ok doc' /\ fn p = Ok x /\ clone x = Ok y /\
  match exports_get es p with
  | Some e => exists m, lookup q doc' = Some (JObj m) /\ lookup q (c_data r) = Some (JObj (oset "$ref" (JStr (local_text (kind_key (e_kind e)) (e_name e))) m))
  | None => exists v, lookup q (c_data r) = Some v /\ outcome doc es fn [] p x y v
  end.
Proof.
  intros Ho Hw Hk Hg H Hext Hq Hoth Hcomp. apply resolve_inv in H as (doc' & f & refs & -> & Hc & He & s' & Hl & ->).
  pose proof (clone_keys_ok _ _ _ Hk Hc) as Hk'. pose proof (clone_wf _ _ Hw Hc) as Hw'.
  assert (Hext' : ext_ref doc' q t p) by (now apply (clone_ext _ _ _ _ _ Hc)).
  assert (Hoth' : forall q0 t0 p0, ext_ref doc' q0 t0 p0 -> q0 = q \/ apart q0 q) by (intros q0 t0 p0 X; apply (Hoth q0 t0 p0); now apply (clone_ext _ _ _ _ _ Hc)).
  destruct (extract_refs (ord []) doc' refs (Ho []) Hw' Hk' He) as (Nd & Hre & Hin). clear He.
  pose proof (Hin q _ (proj1 Hext') eq_refl) as Iq. apply in_split in Iq as (refs1 & refs2 & Er). subst refs.
  assert (So : Forall seg_ok (q ++ [REF])) by (exact (seg_ok_lookup _ _ _ Hk' (proj1 Hext'))).
  set (P := fun q0 : loc => q0 <> q).
  assert (Others : Forall (fun kv => exists q0, P q0 /\ fst kv = render (q0 ++ [REF]) /\ lookup (q0 ++ [REF]) doc' = Some (snd kv) /\ Forall seg_ok (q0 ++ [REF])) (refs1 ++ refs2)).
  { unfold keys in Nd. rewrite map_app in Nd. cbn [map fst] in Nd. apply NoDup_remove_2 in Nd. rewrite <- map_app in Nd. apply Forall_forall. intros kv Ikv. rewrite Forall_forall in Hre.
    destruct (Hre kv) as (q0 & A & B & C). { apply in_app_iff in Ikv as [I|I]; apply in_app_iff; [now left | right; now right]. }
    exists q0. split; [|auto]. intros ->. apply Nd. apply in_map_iff. exists kv. split; [exact A | exact Ikv]. }
  apply Forall_app in Others as [Oth1 Oth2].
  apply rloop_app in Hl as (s1 & Hl1 & Hl2). cbn [rloop] in Hl2. apply bind_ok in Hl2 as (s2 & Hs & Hl2).
  assert (Gn : forall e, In e es -> good_name (e_name e)) by (intros e Ie; rewrite Forall_forall in Hg; now apply Hg).
  (* before the reference is met *)
  set (E1 := fun e => excluded doc' es e && (if loc_dec e q then false else true)).
  assert (E1a : forall e, E1 e = true -> apart e q).
  { intros e Ee. unfold E1 in Ee. apply andb_true_iff in Ee as [Ee N]. destruct (loc_dec e q) as [|N']; [discriminate|]. unfold excluded in Ee. apply orb_true_iff in Ee as [Ee|Ee].
    - apply ext_at_spec in Ee as (t0 & p0 & Ee). destruct (Hoth' _ _ _ Ee) as [|A]; [contradiction | exact A].
    - apply existsb_exists in Ee as (x & Hx & E). destruct (loc_dec (comp_of x) e) as [<-|]; [|discriminate]. now apply Hcomp. }
  assert (E1c : forall e, In e es -> E1 (comp_of e) = true).
  { intros e Ie. unfold E1. rewrite (excluded_comp doc' es e Ie). destruct (loc_dec (comp_of e) q) as [X|]; [|reflexivity]. exfalso. apply (proj1 (Hcomp e Ie)). exists []. rewrite app_nil_r. symmetry. exact X. }
  assert (E1r : forall q0 t0 p0, q0 <> q -> ext_ref doc' q0 t0 p0 -> E1 q0 = true).
  { intros q0 t0 p0 N X. unfold E1, excluded. assert (ext_at doc' q0 = true) as -> by (apply ext_at_spec; eauto). destruct (loc_dec q0 q); [contradiction | reflexivity]. }
  assert (Ent1 : forall e v c c', In e es -> made doc es fn e v -> framed E1 doc' c -> set_entity (e_kind e) (e_name e) v c = Ok c' -> framed E1 doc' c').
  { intros e v c c' Ie _ Hf Hs1. eapply framed_set; [exact Hf | exact Hs1 | | exact (E1c e Ie)]. intros q1 Ha. rewrite entity_dot_path in Ha by apply (Gn e Ie). apply address_comp in Ha as ->; [|now apply Gn].
    exists (comp_of e). split; [now apply E1c | exists []; now rewrite app_nil_r]. }
  assert (Ref1 : forall q0 t0 p0 path val c c', P q0 -> ext_ref doc' q0 t0 p0 -> Forall seg_ok (q0 ++ [REF]) -> (path = render (q0 ++ [REF]) \/ isref (render (q0 ++ [REF])) = Some path) -> framed E1 doc' c -> c_setp path val c = Ok c' -> framed E1 doc' c').
  { intros q0 t0 p0 path val c c' Pq Hx Hs0 Hp Hf Hset. assert (N0 : q0 <> []). { intros ->. destruct (Hoth' _ _ _ Hx) as [X|(A & _)]; [now symmetry in X|]. apply A. now exists q. }
    eapply framed_set; [exact Hf | exact Hset | | exact (E1r q0 t0 p0 Pq Hx)]. intros q1 Ha.
    destruct (ref_address E1 doc' c path q0 _ _ q1 eq_refl (proj1 Hx) Hs0 N0 Hp (proj1 Hf) Ha) as [(-> & _)|[(-> & _)|(e & A & _ & B)]].
    - exists q0. split; [exact (E1r q0 t0 p0 Pq Hx) | now exists [REF]].
    - exists q0. split; [exact (E1r q0 t0 p0 Pq Hx) | exists []; now rewrite app_nil_r].
    - eauto. }
  destruct (top_loop_at ord Ho doc es Hg fn (framed E1 doc') Ent1 P f doc' Hc) with (3 := Oth1) (5 := Hl1) as [Hf1 Hn1].
  { intros q0 t0 p0 val c c' Pq Hx Hs0 Hf Hset. apply (replace_set q0 val c c' Hs0) in Hset as (path & Ip & Hset). eapply Ref1; [exact Pq | exact Hx | exact Hs0 | right; exact Ip | exact Hf | exact Hset]. }
  { intros q0 t0 p0 fr c c' Pq Hx Hs0 Hf Hset. apply (update_set q0 fr c c' Hs0) in Hset. eapply Ref1; [exact Pq | exact Hx | exact Hs0 | left; reflexivity | exact Hf | exact Hset]. }
  { apply framed_refl. }
  (* the reference itself *)
  destruct s1 as [c1 o1]. cbn [fst snd] in *. subst o1.
  unfold rstep in Hs. rewrite (proj1 (proj2 Hext)) in Hs. cbn [bind] in Hs. rewrite (proj2 (proj2 Hext)) in Hs. cbn [negb path_has existsb] in Hs.
  apply bind_ok in Hs as (x & Hfx & Hs). apply bind_ok in Hs as (nc & Hnc & Hs). apply bind_ok in Hs as (r & Hr' & Hs). unfold c_make in Hnc. apply bind_ok in Hnc as (y & Hy & E). injection E as <-.
  exists doc', x, y. split; [exact Hc|]. split; [exact Hfx|]. split; [exact Hy|].
  assert (Hch : sane_fn fn -> sane doc -> chain doc fn ([] ++ [p]) x). { intros Hsf Hd. eapply chain_ref; [apply chain_doc | exact Hext | intros [] | exact Hfx]. }
  destruct (nested ord Ho doc es Hg fn (framed E1 doc') Ent1 _ _ _ _ _ _ Hr') as [Hfr _]; [|exact Hf1|]. { intros Hsf Hd. exists x. split; [now apply Hch|]. split; [exact (Hsf _ _ Hfx) | exact Hy]. } cbn [snd] in Hs.
  pose proof (iter_outcome ord Ho doc es Hg fn _ _ [] p _ _ _ _ Hfx Hy Hch Hr') as Hout.
  (* afterwards *)
  set (E := excluded doc' es).
  assert (Ein : forall e, E1 e = true -> E e = true) by (intros e Ee; unfold E1 in Ee; apply andb_true_iff in Ee; apply Ee).
  assert (After : forall w c2 s3 qq, above q qq -> qq <> [] -> shape E doc' (c_data c2) -> lookup qq (c_data c2) = w -> rloop (rstep ord es fn f [] []) (S (0 + length refs1)) refs2 (c2, None) = Ok s3 -> lookup qq (c_data (st_cx s3)) = w).
  { intros w c2 s3 qq Hqq Nqq Hsh Hw2 Hloop.
    assert (Ap : forall q1, apart q1 q -> apart q1 qq). { intros q1 [A B]. destruct Hqq as [u ->]. split; intros [z Ez]; [|apply B; exists (u ++ z); now rewrite app_assoc]. destruct (loc_cases q1 q) as [X|[(s & v & X)|X]]; [now apply A | apply B; eexists; exact X|].
      assert (C : above q1 q \/ above q q1).
      { clear - Ez. revert q1 Ez. induction q as [|s q IH]; intros q1 Ez; [right; now exists q1|]. destruct q1 as [|s' q1]; [left; now exists (s :: q)|]. cbn in Ez. injection Ez as -> Ez. destruct (IH _ Ez) as [[k ->]|[k ->]]; [left; now exists k | right; now exists k]. }
      destruct C; [now apply A | now apply B]. }
    set (R := fun c => shape E doc' (c_data c) /\ lookup qq (c_data c) = w).
    assert (Set1 : forall path val c c', R c -> c_setp path val c = Ok c' -> (forall q1, addresses true (dot_path path) (denull (c_data c)) q1 -> exists e, E1 e = true /\ above e q1) -> R c').
    { intros path val c c' (S1 & L1) Hset Ha. split.
      - pose proof Hset as Hset'. apply setp_inv in Hset as (j & v' & r0 & q1 & -> & -> & _ & _ & A & Hr0). cbn [c_data] in *. destruct (Ha _ A) as (e & Ee & Ab). eapply gset_shape; [apply shape_denull, S1 | exact A | exact Hr0 | exact (Ein e Ee) | exact Ab].
      - rewrite (setp_apart _ _ _ _ qq qq Hset Nqq); [exact L1 | | reflexivity]. intros q1 A. destruct (Ha _ A) as (e & Ee & Ab). apply Ap. eapply apart_below; [exact (E1a e Ee) | exact Ab]. }
    destruct (top_loop_at ord Ho doc es Hg fn R) with (P := P) (f := f) (j0 := doc') (refs := refs2) (i := S (0 + length refs1)) (rt := c2) (s' := s3) as [(_ & Lf) Nf]; try exact Hc.
    - intros e v c c' Ie _ Hr Hset. eapply Set1; [exact Hr | exact Hset|]. intros q1 Ha. rewrite entity_dot_path in Ha by apply (Gn e Ie). apply address_comp in Ha as ->; [|now apply Gn]. exists (comp_of e). split; [now apply E1c | exists []; now rewrite app_nil_r].
    - intros q0 t0 p0 val c c' Pq Hx Hs0 Hr Hset. apply (replace_set q0 val c c' Hs0) in Hset as (path & Ip & Hset). eapply Set1; [exact Hr | exact Hset|]. intros q1 Ha.
      assert (N0 : q0 <> []). { intros ->. destruct (Hoth' _ _ _ Hx) as [X|(A & _)]; [now symmetry in X|]. apply A. now exists q. }
      pose proof (E1r q0 t0 p0 Pq Hx) as X1. destruct (ref_address E doc' c path q0 _ _ q1 eq_refl (proj1 Hx) Hs0 N0 (or_intror Ip) (proj1 Hr) Ha) as [(-> & _)|[(-> & _)|(e & A & B & C)]]; [exists q0; split; [exact X1 | now exists [REF]] | exists q0; split; [exact X1 | exists []; now rewrite app_nil_r]|].
      exists e. split; [|exact C]. unfold E1. fold E. rewrite A. destruct (loc_dec e q) as [-> |]; [|reflexivity]. exfalso. destruct (E1a q0 X1) as [A1 A2]. apply above_snoc in B as [B|B]; [now apply A2|]. apply A1. rewrite B. now exists [REF].
    - intros q0 t0 p0 fr c c' Pq Hx Hs0 Hr Hset. apply (update_set q0 fr c c' Hs0) in Hset. eapply Set1; [exact Hr | exact Hset|]. intros q1 Ha.
      assert (N0 : q0 <> []). { intros ->. destruct (Hoth' _ _ _ Hx) as [X|(A & _)]; [now symmetry in X|]. apply A. now exists q. }
      pose proof (E1r q0 t0 p0 Pq Hx) as X1. destruct (ref_address E doc' c _ q0 _ _ q1 eq_refl (proj1 Hx) Hs0 N0 (or_introl eq_refl) (proj1 Hr) Ha) as [(-> & _)|[(-> & _)|(e & A & B & C)]]; [exists q0; split; [exact X1 | now exists [REF]] | exists q0; split; [exact X1 | exists []; now rewrite app_nil_r]|].
      exists e. split; [|exact C]. unfold E1. fold E. rewrite A. destruct (loc_dec e q) as [-> |]; [|reflexivity]. exfalso. destruct (E1a q0 X1) as [A1 A2]. apply above_snoc in B as [B|B]; [now apply A2|]. apply A1. rewrite B. now exists [REF].
    - exact Oth2.
    - split; [exact Hsh | exact Hw2].
    - exact Hloop.
    - unfold st_cx. rewrite Nf. exact Lf. }
  assert (Eq : E q = true) by (unfold E, excluded; assert (ext_at doc' q = true) as -> by (apply ext_at_spec; eauto); reflexivity).
  assert (Own : forall path c q1, framed E1 doc' c -> (path = render (q ++ [REF]) \/ isref (render (q ++ [REF])) = Some path) -> addresses true (dot_path path) (denull (c_data c)) q1 -> (q1 = q ++ [REF] /\ path = render (q ++ [REF])) \/ (q1 = q /\ isref (render (q ++ [REF])) = Some path)).
  { intros path c q1 Hf Hp Ha. destruct (ref_address E1 doc' c path q _ _ q1 eq_refl (proj1 Hext') So Hq Hp (proj1 Hf) Ha) as [X|[X|(e & A & B & _)]]; [auto | auto|]. exfalso. destruct (E1a e A) as [A1 A2]. apply above_snoc in B as [B|B]; [now apply A1|]. apply A2. rewrite B. now exists [REF]. }
  assert (ShE : forall c, framed E1 doc' c -> shape E doc' (c_data c)). { intros c [Sh _] q0 Hq0. apply Sh. intros e Ee. apply Hq0. now apply Ein. }
  unfold r_set in Hs. destruct (exports_get es p) as [e|] eqn:Ee.
  - pose proof (exports_get_in _ _ _ Ee) as [Ie _]. apply bind_ok in Hs as (s3 & Hs1 & Hs2). unfold on_root in Hs1. cbn [fst snd] in Hs1. apply bind_ok in Hs1 as (c' & Hc' & X). injection X as <-.
    apply on_cx_top in Hs2 as (c2 & Hc2 & ->).
    assert (Hf' : framed E1 doc' c').
    { refine (Ent1 e _ _ _ Ie _ Hfr Hc'). exists [], p, x, y. split; [exact Ee|]. split; [exact Hfx|]. split; [exact Hy | exact Hout]. }
    apply (update_set q _ _ _ So) in Hc2. pose proof Hc2 as Hset. apply setp_inv in Hset as (j & v' & r0 & q1 & -> & -> & Cv & _ & A & Hr0). cbn [c_data] in *.
    assert (q1 = q ++ [REF]) as ->.
    { destruct (Own _ (Some j) q1 Hf' (or_introl eq_refl) A) as [(X & _)|(X & Y)]; [exact X|]. exfalso. rewrite (isref_render q So) in Y. injection Y as Y.
      rewrite (dot_path_render (q ++ [REF])) in A; [|destruct q; discriminate | exact So]. subst q1. clear - A. apply addresses_length in A. rewrite map_length, app_length in A. cbn in A. lia. }
    cbn in Cv. injection Cv as <-. destruct (gset_spec _ _ _ _ _ A _ Hr0) as [G1 G2].
    assert (Sh2 : shape E doc' r0). { eapply gset_shape; [apply shape_denull, (ShE _ Hf') | exact A | exact Hr0 | exact Eq | now exists [REF]]. }
    assert (Lj : lookup q j = lookup q doc') by (apply (proj2 Hf'); intros e0 Ee0; now apply E1a).
    assert (Om : exists m, lookup q doc' = Some (JObj m) /\ oget "$ref" m = Some (JStr t)).
    { pose proof (proj1 Hext') as L. rewrite lookup_app in L. destruct (lookup q doc') as [x0|]; [|discriminate]. cbn [lookup] in L. destruct x0 as [| | | | |m]; try discriminate. destruct (oget "$ref" m) eqn:Er; [|discriminate]. injection L as ->. eauto. }
    destruct Om as (m & Lm & Om). exists m. split; [exact Lm|].
    refine (After _ (Some r0) s' q _ Hq Sh2 _ Hl2); [exists []; now rewrite app_nil_r|]. cbn [c_data].
    rewrite Lm in Lj. assert (Lj' : lookup (q ++ [REF]) j = Some (JStr t)) by (rewrite lookup_app, Lj; cbn [lookup]; now rewrite Om).
    assert (Nq : q ++ [REF] <> []) by (destruct q; discriminate).
    rewrite (dot_path_render (q ++ [REF]) Nq So), (denull_lookup _ _ _ Nq Lj'), (gset_put _ _ _ _ _ So Lj') in Hr0. injection Hr0 as <-.
    rewrite (put_snoc q _ _ m _ _ Lj Om), (lookup_put q _ _ _ Lj). do 4 f_equal. exact (etext_local e (Gn e Ie)).
  - apply on_cx_top in Hs as (c2 & Hc2 & ->).
    apply (replace_set q _ _ _ So) in Hc2 as (path & Ip & Hset). apply setp_inv in Hset as (j & v' & r0 & q1 & Ej & -> & Cv & _ & A & Hr0). rewrite Ej in *. cbn [c_data] in *.
    exists v'. split; [|exact (outcome_clone _ _ _ _ _ _ _ _ _ Hy Hout Cv)]. rewrite (isref_render q So) in Ip. injection Ip as <-.
    assert (q1 = q) as ->. { destruct (Own _ (Some j) q1 Hfr (or_intror (isref_render q So)) A) as [(-> & Y)|(X & _)]; [exfalso|exact X]. assert (Sq : Forall seg_ok q) by (apply Forall_app in So; apply So). rewrite (dot_path_render q Hq Sq) in A. apply addresses_length in A. rewrite map_length, app_length in A. cbn in A. lia. }
    destruct (gset_spec _ _ _ _ _ A _ Hr0) as [G1 _].
    refine (After _ (Some r0) s' q _ Hq _ _ Hl2); [exists []; now rewrite app_nil_r | | exact G1]. eapply gset_shape; [apply shape_denull, (ShE _ Hfr) | exact A | exact Hr0 | exact Eq | exists []; now rewrite app_nil_r].
Qed.

(** ** One component *)
Theorem resolve_component ord es fn fuel doc r q t p e : (forall pos l, Permutation (ord pos l) l) -> wf doc -> keys_ok plain doc ->
  Forall (fun e => good_name (e_name e)) es -> resolve ord es fn fuel (Some doc) = Ok r ->
  ext_ref doc q t p -> exports_get es p = Some e ->
  (forall q0 t0 p0, ext_ref doc q0 t0 p0 -> apart q0 (comp_loc (kind_key (e_kind e)) (e_name e))) ->
  exists pp p' e' x' y' v, exports_get es p' = Some e' /\ comp_loc (kind_key (e_kind e')) (e_name e') = comp_loc (kind_key (e_kind e)) (e_name e) /\
    fn p' = Ok x' /\ clone x' = Ok y' /\ outcome doc es fn pp p' x' y' v /\ lookup (comp_loc (kind_key (e_kind e)) (e_name e)) (c_data r) = Some v.
Proof.
  intros Ho Hw Hk Hg H Hext Ee Hap. apply resolve_inv in H as (doc' & f & refs & -> & Hc & He & s' & Hl & ->).
  pose proof (clone_keys_ok _ _ _ Hk Hc) as Hk'. pose proof (clone_wf _ _ Hw Hc) as Hw'.
  assert (Hext' : ext_ref doc' q t p) by (now apply (clone_ext _ _ _ _ _ Hc)).
  assert (Hap' : forall q0 t0 p0, ext_ref doc' q0 t0 p0 -> apart q0 (comp_of e)) by (intros q0 t0 p0 X; apply (Hap q0 t0 p0); now apply (clone_ext _ _ _ _ _ Hc)).
  destruct (extract_refs (ord []) doc' refs (Ho []) Hw' Hk' He) as (_ & Hre & Hin). clear He.
  pose proof (Hin q _ (proj1 Hext') eq_refl) as Iq. apply in_split in Iq as (refs1 & refs2 & Er). subst refs.
  assert (So : Forall seg_ok (q ++ [REF])) by (exact (seg_ok_lookup _ _ _ Hk' (proj1 Hext'))).
  assert (Oths : Forall (fun kv => exists q0, True /\ fst kv = render (q0 ++ [REF]) /\ lookup (q0 ++ [REF]) doc' = Some (snd kv) /\ Forall seg_ok (q0 ++ [REF])) (refs1 ++ (render (q ++ [REF]), JStr t) :: refs2)).
  { rewrite Forall_forall in *. intros kv Ikv. destruct (Hre kv Ikv) as (q0 & A & B & C). exists q0. auto. }
  apply Forall_app in Oths as [Oth1 Oth2]. apply Forall_inv_tail in Oth2.
  apply rloop_app in Hl as (s1 & Hl1 & Hl2). cbn [rloop] in Hl2. apply bind_ok in Hl2 as (s2 & Hs & Hl2).
  assert (Gn : forall e, In e es -> good_name (e_name e)) by (intros e0 Ie; rewrite Forall_forall in Hg; now apply Hg).
  pose proof (exports_get_in _ _ _ Ee) as [Ie _].
  set (E := excluded doc' es).
  assert (Ec : forall e0, In e0 es -> E (comp_of e0) = true) by (intros e0 I0; now apply excluded_comp).
  assert (Eq : forall q0 t0 p0, ext_ref doc' q0 t0 p0 -> E q0 = true) by (intros q0 t0 p0 X; unfold E, excluded; assert (ext_at doc' q0 = true) as -> by (apply ext_at_spec; eauto); reflexivity).
  assert (Ea : forall e0, E e0 = true -> e0 = comp_of e \/ apart e0 (comp_of e)).
  { intros e0 X. unfold E, excluded in X. apply orb_true_iff in X as [X|X].
    - apply ext_at_spec in X as (t0 & p0 & X). right. now apply (Hap' _ t0 p0).
    - apply existsb_exists in X as (z & Iz & X). destruct (loc_dec (comp_of z) e0) as [<-|]; [|discriminate]. destruct (loc_dec (comp_of z) (comp_of e)) as [|N]; [now left|]. right.
      unfold comp_of, comp_loc in *. split; intros [u Eu]; cbn in Eu; injection Eu as A B; apply N; [|]; destruct u; try discriminate; congruence. }
  assert (Addr : forall q0 t0 p0 path c q1, ext_ref doc' q0 t0 p0 -> Forall seg_ok (q0 ++ [REF]) -> (path = render (q0 ++ [REF]) \/ isref (render (q0 ++ [REF])) = Some path) -> shape E doc' (c_data c) ->
     addresses true (dot_path path) (denull (c_data c)) q1 -> (exists e0, E e0 = true /\ above e0 q1) /\ apart q1 (comp_of e)).
  { intros q0 t0 p0 path c q1 X So0 Hp Sh A. pose proof (Hap' _ _ _ X) as Ap. assert (N0 : q0 <> []). { intros ->. apply (proj1 Ap). eexists. reflexivity. }
    destruct (ref_address E doc' c path q0 _ _ q1 eq_refl (proj1 X) So0 N0 Hp Sh A) as [(-> & _)|[(-> & _)|(e0 & B1 & B2 & B3)]].
    - split; [exists q0; split; [exact (Eq _ _ _ X) | now exists [REF]]|]. eapply apart_below; [exact Ap | now exists [REF]].
    - split; [exists q0; split; [exact (Eq _ _ _ X) | exists []; now rewrite app_nil_r] | exact Ap].
    - split; [eauto|]. destruct (Ea e0 B1) as [-> |A0]; [|eapply apart_below; [exact A0 | exact B3]]. exfalso. apply above_snoc in B2 as [B2|B2]; [now apply (proj2 Ap)|]. apply (proj1 Ap). rewrite B2. now exists [REF]. }
  assert (Shape : forall path val c c', c_setp path val c = Ok c' -> shape E doc' (c_data c) -> (forall q1, addresses true (dot_path path) (denull (c_data c)) q1 -> exists e0, E e0 = true /\ above e0 q1) -> shape E doc' (c_data c')).
  { intros path val c c' Hset Sh Ha. apply setp_inv in Hset as (j & v' & r0 & q1 & -> & -> & _ & _ & A & Hr0). cbn [c_data] in *. destruct (Ha _ A) as (e0 & X & Y). eapply gset_shape; [apply shape_denull, Sh | exact A | exact Hr0 | exact X | exact Y]. }
  assert (EntS : forall e0 v c c', In e0 es -> shape E doc' (c_data c) -> set_entity (e_kind e0) (e_name e0) v c = Ok c' -> shape E doc' (c_data c')).
  { intros e0 v c c' I0 Sh Hset. eapply Shape; [exact Hset | exact Sh|]. intros q1 Ha. rewrite entity_dot_path in Ha by apply (Gn e0 I0). apply address_comp in Ha as ->; [|now apply Gn]. exists (comp_of e0). split; [now apply Ec | exists []; now rewrite app_nil_r]. }
  assert (EntV : forall e0 v c c', In e0 es -> set_entity (e_kind e0) (e_name e0) v c = Ok c' -> exists v', clone v = Ok v' /\ lookup (comp_of e0) (c_data c') = Some v' /\ (comp_of e0 <> comp_of e -> lookup (comp_of e) (c_data c') = lookup (comp_of e) (c_data c))).
  { intros e0 v c c' I0 Hset. pose proof Hset as Hset'. unfold set_entity in Hset. apply setp_inv in Hset as (j & v' & r0 & q1 & -> & -> & Cv & _ & A & Hr0). rewrite entity_dot_path in A, Hr0 by apply (Gn e0 I0). pose proof (address_comp _ _ _ _ _ (Gn e0 I0) A) as ->.
    destruct (gset_spec _ _ _ _ v' A _ Hr0) as [G1 _]. exists v'. split; [exact Cv|]. split; [exact G1|]. intro N. apply (setp_apart _ _ _ _ (comp_of e) (comp_of e) Hset'); [discriminate | | reflexivity].
    intros q1 Ha. rewrite entity_dot_path in Ha by apply (Gn e0 I0). apply address_comp in Ha as ->; [|now apply Gn]. destruct (Ea (comp_of e0) (Ec e0 I0)) as [X|X]; [contradiction | exact X]. }
  set (R1 := fun c => shape E doc' (c_data c)). set (R2 := fun c => R1 c /\ exists pp p' e' x' y' v, exports_get es p' = Some e' /\ comp_of e' = comp_of e /\ fn p' = Ok x' /\ clone x' = Ok y' /\ outcome doc es fn pp p' x' y' v /\ lookup (comp_of e) (c_data c) = Some v).
  assert (H1R : forall e0 v c c', In e0 es -> made doc es fn e0 v -> R1 c -> set_entity (e_kind e0) (e_name e0) v c = Ok c' -> R1 c') by (intros e0 v c c' I0 _ Sh Hset; exact (EntS e0 v c c' I0 Sh Hset)).
  assert (H2R : forall e0 v c c', In e0 es -> made doc es fn e0 v -> R2 c -> set_entity (e_kind e0) (e_name e0) v c = Ok c' -> R2 c').
  { intros e0 v c c' I0 (pp & p' & x' & y' & A1 & A2 & A3 & A4) (Sh & pp0 & p0 & e1 & x0 & y0 & v0 & B1 & B2 & B3 & B4 & B5 & Lc) Hset. split; [exact (EntS e0 v c c' I0 Sh Hset)|]. destruct (EntV _ _ _ _ I0 Hset) as (v' & Cv & L' & Oth). destruct (loc_dec (comp_of e0) (comp_of e)) as [X|N]; [|exists pp0, p0, e1, x0, y0, v0; rewrite (Oth N); auto 10].
    exists pp, p', e0, x', y', v'. repeat (split; [first [exact A1 | exact X | exact A2 | exact A3 | exact (outcome_clone _ _ _ _ _ _ _ _ _ A3 A4 Cv)]|]). now rewrite <- X. }
  assert (Rep : forall (R : cont -> Prop), (R = R1 \/ R = R2) -> forall q0 t0 p0 val c c', True -> ext_ref doc' q0 t0 p0 -> Forall seg_ok (q0 ++ [REF]) -> R c -> replace_ptr (render (q0 ++ [REF])) val c = Ok c' -> R c').
  { intros R HR q0 t0 p0 val c c' _ X So0 Hr Hset. apply (replace_set q0 val c c' So0) in Hset as (path & Ip & Hset). assert (Sh : R1 c) by (destruct HR as [-> | ->]; [exact Hr | apply Hr]).
    assert (S' : R1 c') by (eapply Shape; [exact Hset | exact Sh|]; intros q1 A; now apply (Addr q0 t0 p0 path c q1 X So0 (or_intror Ip) Sh)).
    destruct HR as [-> | ->]; [exact S'|]. split; [exact S'|]. destruct Hr as [_ Hr]. rewrite (setp_apart _ _ _ _ (comp_of e) (comp_of e) Hset); [exact Hr | discriminate | | reflexivity]. intros q1 A. now apply (Addr q0 t0 p0 path c q1 X So0 (or_intror Ip) Sh). }
  assert (Upd : forall (R : cont -> Prop), (R = R1 \/ R = R2) -> forall q0 t0 p0 fr c c', True -> ext_ref doc' q0 t0 p0 -> Forall seg_ok (q0 ++ [REF]) -> R c -> update_ptr_local (render (q0 ++ [REF])) fr c = Ok c' -> R c').
  { intros R HR q0 t0 p0 fr c c' _ X So0 Hr Hset. apply (update_set q0 fr c c' So0) in Hset. assert (Sh : R1 c) by (destruct HR as [-> | ->]; [exact Hr | apply Hr]).
    assert (S' : R1 c') by (eapply Shape; [exact Hset | exact Sh|]; intros q1 A; now apply (Addr q0 t0 p0 _ c q1 X So0 (or_introl eq_refl) Sh)).
    destruct HR as [-> | ->]; [exact S'|]. split; [exact S'|]. destruct Hr as [_ Hr]. rewrite (setp_apart _ _ _ _ (comp_of e) (comp_of e) Hset); [exact Hr | discriminate | | reflexivity]. intros q1 A. now apply (Addr q0 t0 p0 _ c q1 X So0 (or_introl eq_refl) Sh). }
  destruct (top_loop_at ord Ho doc es Hg fn R1 H1R (fun _ => True) f doc' Hc (Rep R1 (or_introl eq_refl)) (Upd R1 (or_introl eq_refl)) _ _ (Some doc') _ Oth1 (shape_refl E doc') Hl1) as [Sh1 Hn1].
  destruct s1 as [c1 o1]. cbn [fst snd] in *. subst o1.
  unfold rstep in Hs. rewrite (proj1 (proj2 Hext)) in Hs. cbn [bind] in Hs. rewrite (proj2 (proj2 Hext)) in Hs. cbn [negb path_has existsb] in Hs.
  apply bind_ok in Hs as (x & Hfx & Hs). apply bind_ok in Hs as (nc & Hnc & Hs). apply bind_ok in Hs as (r & Hr' & Hs). unfold c_make in Hnc. apply bind_ok in Hnc as (y & Hy & X). injection X as <-.
  assert (Hch : sane_fn fn -> sane doc -> chain doc fn ([] ++ [p]) x). { intros Hsf Hd. eapply chain_ref; [apply chain_doc | exact Hext | intros [] | exact Hfx]. }
  destruct (nested ord Ho doc es Hg fn R1 H1R _ _ _ _ _ _ Hr') as [Sh1' _]; [|exact Sh1|]. { intros Hsf Hd. exists x. split; [now apply Hch|]. split; [exact (Hsf _ _ Hfx) | exact Hy]. } cbn [snd] in Hs.
  pose proof (iter_outcome ord Ho doc es Hg fn _ _ [] p _ _ _ _ Hfx Hy Hch Hr') as Hout.
  unfold r_set in Hs. rewrite Ee in Hs. apply bind_ok in Hs as (s3 & Hs1 & Hs2). unfold on_root in Hs1. cbn [fst snd] in Hs1. apply bind_ok in Hs1 as (c' & Hc' & X). injection X as <-. apply on_cx_top in Hs2 as (c2 & Hc2 & ->).
  assert (R2 c') as Rc'. { split; [exact (EntS _ _ _ _ Ie Sh1' Hc')|]. destruct (EntV _ _ _ _ Ie Hc') as (v' & Cv & L' & _). exists [], p, e, x, y, v'.
    repeat (split; [first [exact Ee | reflexivity | exact Hfx | exact Hy | exact (outcome_clone _ _ _ _ _ _ _ _ _ Hy Hout Cv)]|]). exact L'. }
  pose proof (Upd R2 (or_intror eq_refl) q t p _ c' c2 Logic.I Hext' So Rc' Hc2) as Rc2.
  destruct (top_loop_at ord Ho doc es Hg fn R2 H2R (fun _ => True) f doc' Hc (Rep R2 (or_intror eq_refl)) (Upd R2 (or_intror eq_refl)) _ _ _ _ Oth2 Rc2 Hl2) as [[_ L] N]. unfold st_cx. rewrite N. exact L.
Qed.
