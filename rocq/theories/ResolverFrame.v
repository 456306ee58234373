(** What the resolver leaves alone (C24) and that the local references it
    writes have their component (C25). *)
From Coq Require Import String Ascii List Bool Arith ZArith Lia Permutation.
From Verif Require Import GoStr GoStrFacts Json JsonFacts Gabs GabsFacts Container MergeFacts
  Spec_Loc LocFacts SetFacts CloneFacts Url Pointer FragFacts PtrFacts Resolver Spec_Resolve ResolverFacts.
Import ListNotations.
Local Open Scope string_scope.
Local Open Scope nat_scope.
Local Open Scope list_scope.

(** ** relating two locations *)
Lemma step_dec (a b : step) : {a = b} + {a <> b}.
Proof. decide equality; [apply string_dec | apply Nat.eq_dec]. Defined.
Definition loc_dec (a b : loc) : {a = b} + {a <> b} := list_eq_dec step_dec a b.

Lemma loc_cases (p q : loc) : above p q \/ (exists s t, p = q ++ s :: t) \/ apart p q.
Proof.
  revert q. induction p as [|s p IH]; intros q; [left; now exists q|]. destruct q as [|s' q].
  - right. left. exists s, p. reflexivity.
  - destruct (step_dec s s') as [->|N].
    + destruct (IH q) as [[t ->]|[(t & u & ->)|[A B]]].
      * left. now exists t.
      * right. left. exists t, u. reflexivity.
      * right. right. split; intros [t E]; cbn in E; injection E as E; [apply A | apply B]; now exists t.
    + right. right. split; intros [t' E]; cbn in E; congruence.
Qed.
Lemma above_trans a b c : above a b -> above b c -> above a c.
Proof. intros [x ->] [y ->]. exists (x ++ y). now rewrite app_assoc. Qed.
Lemma apart_below e p q : apart e q -> above e p -> apart p q.
Proof.
  intros [A B] [t ->]. split.
  - intros [u ->]. apply A. exists (t ++ u). now rewrite app_assoc.
  - intros [u E]. destruct (loc_cases e q) as [H|[(s & v & H)|[_ _]]]; [now apply A | apply B; eexists; exact H|].
    (* q and e are both prefixes of the same list *)
    assert (C : above e q \/ above q e).
    { clear - E. revert q u E. induction e as [|s e IH]; intros q u E; [left; now exists q|]. destruct q as [|s' q]; [right; now exists (s :: e)|].
      cbn in E. injection E as -> E. destruct (IH _ _ E) as [[x ->]|[x ->]]; [left; now exists x | right; now exists x]. }
    destruct C; [now apply A | now apply B].
Qed.

(** ** shape outside an excluded set of locations *)
Definition clear_of (E : loc -> bool) (q : loc) : Prop := forall e, E e = true -> ~ above e q.
Definition shape (E : loc -> bool) (j0 j : json) : Prop := forall q, clear_of E q ->
  (forall m, lookup q j0 = Some (JObj m) -> exists m', lookup q j = Some (JObj m')) /\
  (forall l, lookup q j0 = Some (JArr l) -> exists l', lookup q j = Some (JArr l')).

Lemma shape_refl E j : shape E j j.
Proof. intros q _. split; eauto. Qed.
Lemma shape_denull E j0 j : shape E j0 j -> shape E j0 (denull j).
Proof.
  intros H q Hq. destruct (H q Hq) as [H1 H2]. destruct j; auto.
  split; intros x Hx; [destruct (H1 x Hx) as [? H3] | destruct (H2 x Hx) as [? H3]]; destruct q as [|[|] q]; discriminate.
Qed.

Lemma clear_shift E s q : clear_of (fun q => E (s :: q)) q -> E [] = false -> clear_of E (s :: q).
Proof.
  intros H H0 e He [t Et]. destruct e as [|s' e]; [congruence|]. cbn in Et. injection Et as -> ->.
  apply (H e He). now exists t.
Qed.

Lemma addr_align q0 : forall E j0 j top q1 x, shape E j0 j -> Forall seg_ok q0 -> lookup q0 j0 = Some x ->
  addresses top (map seg q0) j q1 -> q1 = q0 \/ exists e, E e = true /\ above e q0 /\ above e q1.
Proof.
  induction q0 as [|s q0 IH]; intros E j0 j top q1 x Hs Ho Hl Ha.
  - inversion Ha. now left.
  - destruct (E []) eqn:E0; [right; exists []; repeat split; [exact E0 | now exists (s :: q0) | now exists q1]|].
    assert (Hn : clear_of E []).
    { intros e He [t Et]. destruct e; [congruence | discriminate]. }
    destruct (Hs [] Hn) as [K1 K2]. inversion Ho as [|? ? Os Oq]; subst.
    destruct s as [k|i]; cbn [lookup] in Hl; destruct j0 as [| | | |l0|m0]; try discriminate.
    + destruct (oget k m0) as [c0|] eqn:Ek; [|discriminate]. destruct (K1 m0 eq_refl) as [m Em]. cbn in Em. injection Em as ->.
      cbn [map seg] in Ha. inversion Ha as [|? ? ? ? q1' Ha'| |]; subst.
      match type of Ha' with addresses _ _ ?c _ => assert (Hsc : shape (fun q => E (SKey k :: q)) c0 c) end.
      { intros q Hq. destruct (Hs (SKey k :: q) (clear_shift _ _ _ Hq E0)) as [S1 S2]. cbn [lookup] in S1, S2. rewrite Ek in S1, S2.
        split; [intros y Hy; destruct (S1 y Hy) as [y' Hy'] | intros y Hy; destruct (S2 y Hy) as [y' Hy']]; exists y';
          (destruct (oget k m) as [c|]; [|discriminate]; destruct c; try exact Hy'; destruct q as [|[|] q]; discriminate). }
      destruct (IH _ _ _ _ q1' x Hsc Oq Hl Ha') as [->|(e & He & [t1 A1] & [t2 A2])].
      * now left.
      * right. exists (SKey k :: e). repeat split; [exact He | exists t1; cbn; congruence | exists t2; cbn; congruence].
    + destruct (nth_error l0 i) as [c0|] eqn:Ek; [|discriminate]. destruct (K2 l0 eq_refl) as [l El]. cbn in El. injection El as ->.
      cbn [map seg] in Ha. cbn in Os.
      inversion Ha as [| |? ? n i' ? ? c q1' Hd Hat Hn0 Hi Hc Hnn Ha'|? ? q1' Ha' Ed]; subst.
      * rewrite atoi_itoa in Hat by exact Os. injection Hat as <-. rewrite Nat2Z.id in *.
        assert (Hsc : shape (fun q => E (SIdx i :: q)) c0 c).
        { intros q Hq. destruct (Hs (SIdx i :: q) (clear_shift _ _ _ Hq E0)) as [S1 S2]. cbn [lookup] in S1, S2. rewrite Ek, Hc in S1, S2.
           split; assumption. }
        destruct (IH _ _ _ _ q1' x Hsc Oq Hl Ha') as [->|(e & He & [t1 A1] & [t2 A2])].
        -- now left.
        -- right. exists (SIdx i :: e). repeat split; [exact He | exists t1; cbn; congruence | exists t2; cbn; congruence].
      * exfalso. pose proof (itoa_not_dash i) as N. match goal with H : itoa i = "-" |- _ => rewrite H in N | H : "-" = itoa i |- _ => rewrite <- H in N end. discriminate.
Qed.

Lemma addresses_kind top p j q1 : addresses top p j q1 -> forall q s t, q1 = q ++ s :: t ->
  (forall m, lookup q j = Some (JObj m) -> exists k, s = SKey k) /\ (forall l, lookup q j = Some (JArr l) -> exists i, s = SIdx i).
Proof.
  induction 1 as [top j|top k p m q1 H IH|top s0 n i p l c q1 Hs Ha Hn Hi Hl Hc H IH|p l q1 H IH]; intros q s t E.
  - destruct q; discriminate.
  - destruct q as [|s' q]; cbn in E; injection E as <- E.
    + split; [eauto|]. cbn. discriminate.
    + cbn [lookup]. destruct (oget k m) as [c|]; [|split; discriminate].
      destruct c; try (now apply IH with (1 := E)). split; intros x Hx; destruct q as [|[|] q]; discriminate.
  - destruct q as [|s' q]; cbn in E; injection E as <- E.
    + split; [cbn; discriminate|]. eauto.
    + cbn [lookup]. rewrite Hl. now apply IH with (1 := E).
  - destruct q as [|s' q]; cbn in E; injection E as <- E.
    + split; [cbn; discriminate|]. eauto.
    + cbn [lookup]. assert (nth_error l (length l) = None) as -> by (apply nth_error_None; lia). split; discriminate.
Qed.

Lemma gset_shape E j0 j top p q1 v r e : shape E j0 j -> addresses top p j q1 -> gset top v p j = Ok r ->
  E e = true -> above e q1 -> shape E j0 r.
Proof.
  intros Hs Ha Hr He Hq1 q Hq. destruct (gset_spec _ _ _ _ v Ha _ Hr) as [G1 G2].
  destruct (Hs q Hq) as [S1 S2].
  destruct (loc_cases q1 q) as [A|[(s & t & Et)|A]].
  - exfalso. apply (Hq e He). eapply above_trans; eassumption.
  - destruct (addresses_kind _ _ _ _ Ha q s t Et) as [K1 K2]. rewrite Et, lookup_app in G1.
    destruct (lookup q r) as [y|]; [|discriminate].
    split; intros z Hz; [destruct (S1 z Hz) as [z' Hz']; destruct (K1 _ Hz') as [k ->] | destruct (S2 z Hz) as [z' Hz']; destruct (K2 _ Hz') as [k ->]];
      cbn in G1; destruct y; try discriminate; eauto.
  - rewrite (G2 q A). split; assumption.
Qed.

(** ** frame *)
Definition outside (E : loc -> bool) (q : loc) : Prop := forall e, E e = true -> apart e q.
Definition framed (E : loc -> bool) (j0 : json) (c : cont) : Prop :=
  shape E j0 (c_data c) /\ forall q, outside E q -> lookup q (c_data c) = lookup q j0.

Lemma framed_refl E j : framed E j (Some j).
Proof. split; [apply shape_refl | reflexivity]. Qed.

Lemma apart_denull q1 q j : q <> [] -> lookup q (denull j) = lookup q j \/ q1 = q.
Proof. intro H. left. destruct j; auto. destruct q as [|[|] q]; [congruence | reflexivity | reflexivity]. Qed.

Lemma framed_set E j0 c c' path v e : framed E j0 c -> c_setp path v c = Ok c' ->
  (forall q1, addresses true (dot_path path) (denull (c_data c)) q1 -> exists e, E e = true /\ above e q1) ->
  E e = true -> framed E j0 c'.
Proof.
  intros [Hs Hf] H Hq _. apply setp_inv in H as (j & v' & r & q1 & -> & -> & Hc & _ & Ha & Hr). cbn [c_data] in *.
  destruct (Hq _ Ha) as (e' & He' & Hab). split.
  - eapply gset_shape; [apply shape_denull, Hs | exact Ha | exact Hr | exact He' | exact Hab].
  - intros q Ho. cbn [c_data]. rewrite <- (Hf q Ho). destruct (gset_spec _ _ _ _ v' Ha _ Hr) as [_ G2].
    assert (apart q1 q) as A by (eapply apart_below; [apply Ho, He' | exact Hab]). rewrite (G2 q A).
    destruct (apart_denull q1 q j) as [?| ->]; auto; [intros ->; now apply apart_nil_r in A|].
    exfalso. apply (proj1 A). exists []. now rewrite app_nil_r.
Qed.

(** ** the component path *)
Lemma kind_key_plain k : plain (kind_key k) /\ atoi (kind_key k) = None /\ kind_key k <> "-".
Proof. destruct k; repeat split; discriminate. Qed.
Lemma entity_dot_path k n : plain n -> dot_path (entity_path k n) = ["components"; kind_key k; n].
Proof.
  intro Hn. assert (entity_path k n = render (comp_loc (kind_key k) n)) as ->.
  { unfold entity_path, kind_path, render, comp_loc. cbn [map seg join String.concat]. destruct k; reflexivity. }
  rewrite dot_path_render; [reflexivity | discriminate|].
  apply Forall_cons; [repeat split; discriminate|]. apply Forall_cons; [apply (kind_key_plain k)|]. apply Forall_cons; [exact Hn | constructor].
Qed.
Lemma entity_frag k n : plain n -> has_char "/" n = false -> entity_fragment k n = ["components"; kind_key k; n].
Proof.
  intros (_ & _ & Ht) Hs. unfold entity_fragment, descendant.
  assert (has_prefix "/" n = false) as ->.
  { destruct n as [|c n]; [reflexivity|]. cbn [has_char] in Hs. cbn [has_prefix]. apply orb_false_iff in Hs as [-> _]. reflexivity. }
  assert (parse_fragment ("/" +++ n) = Ok [n]) as ->.
  { cbn [String.append parse_fragment Ascii.eqb Bool.eqb]. rewrite split_char_none by exact Hs. cbn [map].
    f_equal. f_equal. unfold unescape_token. assert (replace_all "~1" "/" n = n) as -> by (apply (replace_all_absent "~1" "/" n "~"); [reflexivity | exact Ht]).
    apply (replace_all_absent "~0" "~" n "~"); [reflexivity | exact Ht]. }
  cbn [bind]. destruct k; reflexivity.
Qed.

Lemma address_key k p j q top : atoi k = None -> k <> "-" -> addresses top (k :: p) j q -> exists q', q = SKey k :: q'.
Proof. intros Ha Hd H. inversion H; subst; [eauto | congruence | congruence]. Qed.
Lemma address_comp k n j q top : good_name n -> addresses top ["components"; kind_key k; n] j q -> q = comp_loc (kind_key k) n.
Proof.
  intros (_ & _ & Hn & Hd) H. unfold comp_loc. destruct (kind_key_plain k) as (_ & Ka & Kd).
  inversion H; subst; try discriminate.
  match goal with H : addresses false _ _ _ |- _ => rename H into H1 end.
  destruct (address_key _ _ _ _ _ Ka Kd H1) as [q' ->]. f_equal. f_equal.
  inversion H1; subst; match goal with H : addresses false [n] _ _ |- _ => rename H into H2 end.
  destruct (address_key _ _ _ _ _ Hn Hd H2) as [q'' ->]. f_equal.
  inversion H2; subst; match goal with H : addresses false [] _ _ |- _ => now inversion H end.
Qed.

(** ** nested calls touch r.con only through the components *)
Lemma exports_get_in es p e : exports_get es p = Some e -> In e es /\ ptr_string (e_ptr e) = ptr_string p.
Proof. unfold exports_get. intro H. apply find_some in H as [H1 H2]. apply String.eqb_eq in H2. auto. Qed.

Section RootInv.
  Context (es : list export) (R : cont -> Prop).
  Hypothesis HR : forall e v c c', In e es -> R c -> set_entity (e_kind e) (e_name e) v c = Ok c' -> R c'.

  Lemma on_cx_nested f s s' : on_cx f s = Ok s' -> snd s <> None -> fst s' = fst s /\ snd s' <> None.
  Proof.
    intros H Hn. unfold on_cx in H. destruct (snd s); [|congruence].
    apply bind_ok in H as (? & _ & E). injection E as <-. split; [reflexivity | discriminate].
  Qed.
  Lemma r_set_nested p key v s s' : r_set es p key v s = Ok s' -> snd s <> None -> R (fst s) -> R (fst s') /\ snd s' <> None.
  Proof.
    intros H Hn Hr. unfold r_set in H. destruct (exports_get es p) as [e|] eqn:E.
    - apply exports_get_in in E as [E _]. apply bind_ok in H as (s1 & H1 & H2).
      unfold on_root in H1. apply bind_ok in H1 as (c' & H1 & E1). injection E1 as <-.
      apply on_cx_nested in H2 as [H2 H3]; [|exact Hn]. rewrite H2. cbn [fst]. eauto.
    - apply on_cx_nested in H as [H2 H3]; [|exact Hn]. rewrite H2. auto.
  Qed.
  Lemma r_set_rec_nested p key s s' : r_set_recursive es p key s = Ok s' -> snd s <> None -> fst s' = fst s /\ snd s' <> None.
  Proof.
    intros H Hn. unfold r_set_recursive in H. destruct (exports_get es p) as [e|]; [destruct (is_scheme e)|];
      now apply on_cx_nested in H.
  Qed.
  Lemma iterator_nested ord fn : forall fuel pos pp s s', iterator ord es fn fuel pos pp s = Ok s' -> snd s <> None ->
    R (fst s) -> R (fst s') /\ snd s' <> None.
  Proof.
    induction fuel as [|f IH]; intros pos pp s s' H Hn Hr; [discriminate|].
    rewrite iterator_S in H. apply bind_ok in H as (refs & _ & H).
    revert s H Hn Hr. generalize 0 as i. induction refs as [|[key v] refs IHl]; intros i s H Hn Hr; cbn [rloop] in H.
    - injection H as <-. auto.
    - apply bind_ok in H as (s1 & Hs & H).
      assert (R (fst s1) /\ snd s1 <> None) as [Hr1 Hn1]; [|now apply (IHl (S i) s1)].
      clear H IHl. unfold rstep in Hs. destruct v as [| | |t| |]; try (injection Hs as <-; auto).
      apply bind_ok in Hs as (p & _ & Hs). destruct (negb (is_external p)); [injection Hs as <-; auto|].
      destruct (path_has pp p).
      + apply r_set_rec_nested in Hs as [-> ?]; auto.
      + apply bind_ok in Hs as (x & _ & Hs). apply bind_ok in Hs as (nc & _ & Hs). apply bind_ok in Hs as (r & Hr' & Hs).
        destruct (IH _ _ _ _ Hr') as [A1 _]; [discriminate | exact Hr|].
        eapply r_set_nested; [exact Hs | exact Hn | exact A1].
  Qed.
End RootInv.

(** ** C24 *)
Definition ext_at (j : json) (q : loc) : bool :=
  match lookup (q ++ [REF]) j with
  | Some (JStr t) => match ptr_parse t with Ok p => is_external p | _ => false end
  | _ => false
  end.
Lemma ext_at_spec j q : ext_at j q = true <-> exists t p, ext_ref j q t p.
Proof.
  unfold ext_at, ext_ref. split.
  - destruct (lookup (q ++ [REF]) j) as [[| | |t| |]|]; try discriminate. destruct (ptr_parse t) as [p| | |] eqn:E; try discriminate.
    intro H. exists t, p. auto.
  - intros (t & p & -> & -> & H). exact H.
Qed.
Definition comp_of (e : export) : loc := comp_loc (kind_key (e_kind e)) (e_name e).
Definition excluded (j : json) (es : list export) (q : loc) : bool :=
  ext_at j q || existsb (fun e => if loc_dec (comp_of e) q then true else false) es.
Lemma excluded_comp j es e : In e es -> excluded j es (comp_of e) = true.
Proof.
  intro H. unfold excluded. apply orb_true_iff. right. apply existsb_exists. exists e. split; [exact H|].
  destruct (loc_dec (comp_of e) (comp_of e)); congruence.
Qed.

Lemma framed_entity j es e v c c' : In e es -> good_name (e_name e) -> framed (excluded j es) j c ->
  set_entity (e_kind e) (e_name e) v c = Ok c' -> framed (excluded j es) j c'.
Proof.
  intros Hin Hg Hf H. eapply framed_set; [exact Hf | exact H | | apply (excluded_comp j es e Hin)].
  intros q1 Ha. rewrite entity_dot_path in Ha by apply Hg. apply address_comp in Ha as ->; [|exact Hg].
  exists (comp_of e). split; [now apply excluded_comp|]. exists []. now rewrite app_nil_r.
Qed.

Lemma framed_ref j es key v q0 path c c' (val : json) :
  keys_ok plain j -> key = render (q0 ++ [REF]) -> lookup (q0 ++ [REF]) j = Some v -> Forall seg_ok (q0 ++ [REF]) ->
  ext_at j q0 = true -> (path = key \/ isref key = Some path) ->
  framed (excluded j es) j c -> c_setp path val c = Ok c' -> framed (excluded j es) j c'.
Proof.
  intros Hk -> Hl Hs He Hp Hf H.
  assert (HE : excluded j es q0 = true) by (unfold excluded; now rewrite He).
  eapply framed_set; [exact Hf | exact H | | exact HE].
  intros q1 Ha. rewrite isref_render in Hp by exact Hs.
  assert (Hx : exists x, lookup q0 j = Some x).
  { rewrite lookup_app in Hl. destruct (lookup q0 j); [eauto | discriminate]. }
  destruct Hx as [x Hx]. destruct q0 as [|s0 q0].
  - exists []. split; [exact HE | now exists q1].
  - destruct Hp as [->|[= <-]].
    + rewrite dot_path_render in Ha by (auto; discriminate).
      destruct (addr_align _ _ j _ _ _ _ (shape_denull _ _ _ (proj1 Hf)) Hs Hl Ha) as [->|(e & E1 & E2 & E3)].
      * exists (s0 :: q0). split; [exact HE|]. now exists [REF].
      * exists e. auto.
    + apply Forall_app in Hs as [Hs _]. rewrite dot_path_render in Ha by (auto; discriminate).
      destruct (addr_align _ _ j _ _ _ _ (shape_denull _ _ _ (proj1 Hf)) Hs Hx Ha) as [->|(e & E1 & E2 & E3)].
      * exists (s0 :: q0). split; [exact HE|]. exists []. now rewrite app_nil_r.
      * exists e. auto.
Qed.

Lemma framed_replace j es key v q0 c c' val :
  keys_ok plain j -> key = render (q0 ++ [REF]) -> lookup (q0 ++ [REF]) j = Some v -> Forall seg_ok (q0 ++ [REF]) ->
  ext_at j q0 = true -> framed (excluded j es) j c -> replace_ptr key val c = Ok c' -> framed (excluded j es) j c'.
Proof.
  intros Hk E Hl Hs He Hf H. unfold replace_ptr in H. destruct (isref key) as [path|] eqn:Ei; [|discriminate].
  eapply framed_ref; [exact Hk | exact E | exact Hl | exact Hs | exact He | right; exact Ei | exact Hf | exact H].
Qed.
Lemma framed_update j es key v q0 c c' f :
  keys_ok plain j -> key = render (q0 ++ [REF]) -> lookup (q0 ++ [REF]) j = Some v -> Forall seg_ok (q0 ++ [REF]) ->
  ext_at j q0 = true -> framed (excluded j es) j c -> update_ptr_local key f c = Ok c' -> framed (excluded j es) j c'.
Proof.
  intros Hk E Hl Hs He Hf H. unfold update_ptr_local, update_ptr in H. destruct (isref key) as [path|] eqn:Ei; [|discriminate].
  eapply framed_ref; [exact Hk | exact E | exact Hl | exact Hs | exact He | left; reflexivity | exact Hf | exact H].
Qed.

Lemma on_cx_top f rt s' : on_cx f (rt, None) = Ok s' -> exists c', f rt = Ok c' /\ s' = (c', None).
Proof. unfold on_cx. cbn. intro H. apply bind_ok in H as (c' & H & E). injection E as <-. eauto. Qed.

(** The outermost loop, for any property of r.con kept by component sets and by
    the two ways of rewriting an external reference of the document. *)
Lemma top_loop ord es fn f pos pp (R : cont -> Prop) j0 :
  (forall e v c c', In e es -> R c -> set_entity (e_kind e) (e_name e) v c = Ok c' -> R c') ->
  (forall q0 t p val c c', ext_ref j0 q0 t p -> Forall seg_ok (q0 ++ [REF]) -> R c -> replace_ptr (render (q0 ++ [REF])) val c = Ok c' -> R c') ->
  (forall q0 t p fr c c', ext_ref j0 q0 t p -> Forall seg_ok (q0 ++ [REF]) -> R c -> update_ptr_local (render (q0 ++ [REF])) fr c = Ok c' -> R c') ->
  forall refs i rt s', Forall (ref_entry j0) refs -> R rt -> rloop (rstep ord es fn f pos pp) i refs (rt, None) = Ok s' ->
  R (fst s') /\ snd s' = None.
Proof.
  intros H1 H2 H3. induction refs as [|[key v] refs IHl]; intros i rt s' Hre Hr H; cbn [rloop] in H; [injection H as <-; auto|].
  apply bind_ok in H as (s1 & Hs & H). inversion Hre as [|? ? (q0 & E1 & L1 & O1) Hre']; subst. cbn [fst snd] in E1, L1. subst key.
  assert (exists c1, s1 = (c1, None) /\ R c1) as (c1 & -> & Hr1); [|now apply (IHl (S i) c1)].
  clear H IHl. unfold rstep in Hs. destruct v as [| | |t| |]; try (injection Hs as <-; eauto).
  apply bind_ok in Hs as (p & Hp & Hs). destruct (is_external p) eqn:Hx; cbn [negb] in Hs; [|injection Hs as <-; eauto].
  assert (Hext : ext_ref j0 q0 t p) by (split; auto).
  destruct (path_has pp p).
  - unfold r_set_recursive in Hs. destruct (exports_get es p) as [e|]; [destruct (is_scheme e)|];
      apply on_cx_top in Hs as (c' & Hc & ->); exists c'; (split; [reflexivity|]).
    + eapply H3; [exact Hext | exact O1 | exact Hr | exact Hc].
    + eapply H2; [exact Hext | exact O1 | exact Hr | exact Hc].
    + eapply H2; [exact Hext | exact O1 | exact Hr | exact Hc].
  - apply bind_ok in Hs as (x & _ & Hs). apply bind_ok in Hs as (nc & _ & Hs). apply bind_ok in Hs as (r & Hr' & Hs).
    destruct (iterator_nested es R H1 _ _ _ _ _ _ _ Hr') as [A1 _]; [discriminate | exact Hr|]. cbn [snd] in Hs.
    unfold r_set in Hs. destruct (exports_get es p) as [e|] eqn:Ee.
    + apply exports_get_in in Ee as [Ee _]. apply bind_ok in Hs as (s2 & Hs1 & Hs2).
      unfold on_root in Hs1. cbn [fst snd] in Hs1. apply bind_ok in Hs1 as (c' & Hc & E). injection E as <-.
      apply on_cx_top in Hs2 as (c2 & Hc2 & ->). exists c2. split; [reflexivity|].
      eapply H3; [exact Hext | exact O1 | | exact Hc2]. eapply H1; [exact Ee | exact A1 | exact Hc].
    + apply on_cx_top in Hs as (c2 & Hc2 & ->). exists c2. split; [reflexivity|]. eapply H2; [exact Hext | exact O1 | exact A1 | exact Hc2].
Qed.

Lemma resolve_inv ord es fn fuel doc r : resolve ord es fn fuel (Some doc) = Ok r ->
  exists doc' f refs, fuel = S f /\ clone doc = Ok doc' /\ extract_key (ord []) "$ref" (Some doc') = Ok refs /\
    exists s', rloop (rstep ord es fn f [] []) 0 refs (Some doc', None) = Ok s' /\ r = st_cx s'.
Proof.
  unfold resolve. intro H. apply bind_ok in H as (s' & H & E). injection E as <-. destruct fuel as [|f]; [discriminate|].
  rewrite iterator_S in H. apply bind_ok in H as (refs & He & H). unfold st_cx in He. cbn [fst snd] in He. unfold c_clone, c_data in *.
  destruct (clone_cases doc) as [[x Ex]|Ex]; rewrite Ex in *; [|discriminate].
  exists x, f, refs. repeat split; auto. exists s'. split; auto.
Qed.

Theorem resolve_frame ord es fn fuel doc r : (forall pos l, Permutation (ord pos l) l) -> wf doc -> keys_ok plain doc ->
  Forall (fun e => good_name (e_name e)) es -> resolve ord es fn fuel (Some doc) = Ok r ->
  exists doc', clone doc = Ok doc' /\
  forall q, (forall q0 t p, ext_ref doc q0 t p -> apart q0 q) ->
    (forall e, In e es -> apart (comp_loc (kind_key (e_kind e)) (e_name e)) q) ->
    lookup q (c_data r) = lookup q doc'.
Proof.
  intros Ho Hw Hk Hg H. apply resolve_inv in H as (doc' & f & refs & -> & Hc & He & s' & Hl & ->).
  exists doc'. split; [exact Hc|].
  pose proof (clone_keys_ok _ _ _ Hk Hc) as Hk'. pose proof (clone_wf _ _ Hw Hc) as Hw'.
  destruct (extract_refs (ord []) doc' refs (Ho []) Hw' Hk' He) as (_ & Hre & _).
  destruct (top_loop ord es fn f [] [] (framed (excluded doc' es) doc') doc') with (4 := Hre) (6 := Hl) as [[_ Hf] Hn].
  - intros e v c c' Hin. apply framed_entity; [exact Hin|]. rewrite Forall_forall in Hg. now apply Hg.
  - intros q0 t p val c c' Hext Hs. eapply framed_replace; [exact Hk' | reflexivity | apply Hext | exact Hs | apply ext_at_spec; eauto].
  - intros q0 t p fr c c' Hext Hs. eapply framed_update; [exact Hk' | reflexivity | apply Hext | exact Hs | apply ext_at_spec; eauto].
  - apply framed_refl.
  - intros q H1 H2. unfold st_cx. rewrite Hn. apply Hf. intros e Hex. unfold excluded in Hex. apply orb_true_iff in Hex as [Hex|Hex].
    + apply ext_at_spec in Hex as (t & p & Hex). apply (clone_ext _ _ _ _ _ Hc) in Hex. eapply H1; exact Hex.
    + apply existsb_exists in Hex as (x & Hx & E). destruct (loc_dec (comp_of x) e) as [<-|]; [|discriminate]. now apply H2.
Qed.
