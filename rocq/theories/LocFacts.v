(** Locations, flattening, key extraction, set/get. *)
From Coq Require Import String Ascii List Bool Arith ZArith Lia Permutation.
From Verif Require Import GoStr GoStrFacts Json JsonFacts Gabs GabsFacts Container Spec_Loc Spec_Merge MergeFacts.
Import ListNotations.
Local Open Scope string_scope.
Local Open Scope nat_scope.
Local Open Scope list_scope.

Lemma keys_ok_arr P l : keys_ok P (JArr l) <-> (Z.of_nat (length l) < 2 ^ 63)%Z /\ Forall (keys_ok P) l.
Proof.
  cbn [keys_ok]. apply and_iff_compat_l. induction l as [|x l IH]; [split; auto|].
  rewrite IH. split; [intros [? ?]; constructor; auto | intro H; inversion H; auto].
Qed.
Lemma keys_ok_obj P m : keys_ok P (JObj m) <-> Forall (fun kv => P (fst kv) /\ keys_ok P (snd kv)) m.
Proof.
  cbn [keys_ok]. induction m as [|[k x] m IH]; [split; auto|].
  rewrite IH. split; [intros (? & ? & ?); constructor; auto | intro H; inversion H as [|? ? [? ?] ?]; auto].
Qed.

Lemma lookup_app p q j : lookup (p ++ q) j = match lookup p j with Some x => lookup q x | None => None end.
Proof.
  revert j; induction p as [|[k|i] p IH]; intro j; cbn; [reflexivity| |].
  - destruct j; try reflexivity. destruct (oget k m); [apply IH | reflexivity].
  - destruct j; try reflexivity. destruct (nth_error l i); [apply IH | reflexivity].
Qed.

Lemma lookup_wf q j v : wf j -> lookup q j = Some v -> wf v.
Proof.
  revert j; induction q as [|[k|i] q IH]; intros j Hw; cbn; [now intros [= <-]| |].
  - destruct j; try discriminate. destruct (oget k m) eqn:E; [|discriminate]. apply IH. exact (wf_oget _ _ _ Hw E).
  - destruct j; try discriminate. destruct (nth_error l i) eqn:E; [|discriminate]. apply IH. exact (wf_nth _ _ _ Hw E).
Qed.

Lemma keys_ok_oget P m k v : keys_ok P (JObj m) -> oget k m = Some v -> P k /\ keys_ok P v.
Proof.
  intros H E. apply keys_ok_obj in H. rewrite Forall_forall in H. apply oget_in in E. apply (H _ E).
Qed.
Lemma keys_ok_nth P l i v : keys_ok P (JArr l) -> nth_error l i = Some v -> keys_ok P v.
Proof.
  intros H E. apply keys_ok_arr in H as [_ H]. rewrite Forall_forall in H. eapply H, nth_error_In, E.
Qed.

Lemma keys_ok_lookup P q : forall j v, keys_ok P j -> lookup q j = Some v -> keys_ok P v /\ (forall k, In (SKey k) q -> P k).
Proof.
  induction q as [|[k|i] q IH]; intros j v Hk; cbn.
  - intros [= <-]. split; [exact Hk | intros k []].
  - destruct j; try discriminate. destruct (oget k m) as [x|] eqn:E; [|discriminate].
    destruct (keys_ok_oget _ _ _ _ Hk E) as [Pk Hx]. intro H. destruct (IH _ _ Hx H) as [H1 H2].
    split; [exact H1|]. intros k' [[= <-]|Hin]; auto.
  - destruct j; try discriminate. destruct (nth_error l i) as [x|] eqn:E; [|discriminate].
    intro H. destruct (IH _ _ (keys_ok_nth _ _ _ _ Hk E) H) as [H1 H2].
    split; [exact H1|]. intros k' [[=]|Hin]; auto.
Qed.

(** *** leaves *)
Fixpoint leaves (j : json) : list (loc * json) :=
  match j with
  | JObj m =>
      (fix go (m : list (string * json)) : list (loc * json) :=
         match m with
         | [] => []
         | (k, v) :: r => map (fun qv => (SKey k :: fst qv, snd qv)) (leaves v) ++ go r
         end) m
  | JArr l =>
      (fix go (i : nat) (l : list json) : list (loc * json) :=
         match l with
         | [] => []
         | v :: r => map (fun qv => (SIdx i :: fst qv, snd qv)) (leaves v) ++ go (S i) r
         end) 0 l
  | _ => [([], j)]
  end.
Fixpoint leaves_obj (m : list (string * json)) : list (loc * json) :=
  match m with
  | [] => []
  | (k, v) :: r => map (fun qv => (SKey k :: fst qv, snd qv)) (leaves v) ++ leaves_obj r
  end.
Fixpoint leaves_arr (i : nat) (l : list json) : list (loc * json) :=
  match l with
  | [] => []
  | v :: r => map (fun qv => (SIdx i :: fst qv, snd qv)) (leaves v) ++ leaves_arr (S i) r
  end.
Lemma leaves_obj_eq m : leaves (JObj m) = leaves_obj m. Proof. reflexivity. Qed.
Lemma leaves_arr_eq l : leaves (JArr l) = leaves_arr 0 l. Proof. reflexivity. Qed.

Lemma in_leaves_obj q v m : In (q, v) (leaves_obj m) <-> exists k x q', q = SKey k :: q' /\ In (k, x) m /\ In (q', v) (leaves x).
Proof.
  induction m as [|[k x] m IH]; cbn.
  - split; [tauto|]. intros (k & x & q' & _ & [] & _).
  - rewrite in_app_iff, in_map_iff, IH. split.
    + intros [([q' v'] & E & Hin)|(k' & x' & q' & -> & Hin & Hl)].
      * cbn in E. injection E as <- <-. exists k, x, q'. auto.
      * exists k', x', q'. auto.
    + intros (k' & x' & q' & -> & [E|Hin] & Hl).
      * injection E as <- <-. left. exists (q', v). auto.
      * right. exists k', x', q'. auto.
Qed.

Lemma in_leaves_arr q v l : forall n, In (q, v) (leaves_arr n l) <-> exists i x q', q = SIdx (n + i) :: q' /\ nth_error l i = Some x /\ In (q', v) (leaves x).
Proof.
  induction l as [|x l IH]; intro n; cbn.
  - split; [tauto|]. intros ([|i] & x & q' & _ & [=] & _).
  - rewrite in_app_iff, in_map_iff, IH. split.
    + intros [([q' v'] & E & Hin)|(i & x' & q' & -> & Hin & Hl)].
      * cbn in E. injection E as <- <-. exists 0, x, q'. rewrite Nat.add_0_r. auto.
      * exists (S i), x', q'. split; [do 2 f_equal; lia | auto].
    + intros ([|i] & x' & q' & -> & Hin & Hl).
      * cbn in Hin. injection Hin as <-. left. exists (q', v). rewrite Nat.add_0_r. auto.
      * right. exists i, x', q'. split; [do 2 f_equal; lia | auto].
Qed.

Lemma in_leaves_scalar j q v : is_scalar j = true ->
  In (q, v) (leaves j) <-> lookup q j = Some v /\ is_scalar v = true.
Proof.
  intro Hj. assert (leaves j = [([], j)]) as -> by (destruct j; try discriminate; reflexivity).
  split.
  - intros [E|[]]. injection E as <- <-. auto.
  - intros [H _]. destruct q as [|[k|i] q]; cbn in H.
    + injection H as <-. now left.
    + destruct j; discriminate.
    + destruct j; discriminate.
Qed.

(** The leaves are exactly the scalar locations. *)
Lemma in_leaves j : forall q v, wf j -> In (q, v) (leaves j) <-> lookup q j = Some v /\ is_scalar v = true.
Proof.
  induction j as [| | | |l IH|m IH] using json_induction; intros q v Hw;
    try (apply in_leaves_scalar; reflexivity).
  - rewrite leaves_arr_eq, in_leaves_arr. rewrite Forall_forall in IH. split.
    + intros (i & x & q' & -> & Hn & Hl). cbn. rewrite Hn. apply (IH x); auto; [eapply nth_error_In, Hn | exact (wf_nth _ _ _ Hw Hn)].
    + intros [H Hs]. destruct q as [|[k|i] q']; cbn in H; [injection H as <-; discriminate | discriminate|].
      destruct (nth_error l i) as [x|] eqn:Hn; [|discriminate]. exists i, x, q'. split; [reflexivity|]. split; [exact Hn|].
      apply IH; [eapply nth_error_In, Hn | exact (wf_nth _ _ _ Hw Hn) | auto].
  - rewrite leaves_obj_eq, in_leaves_obj. rewrite Forall_forall in IH. split.
    + intros (k & x & q' & -> & Hin & Hl). cbn. rewrite (sorted_in_oget k x m (wf_sorted _ Hw) Hin).
      apply (IH (k, x) Hin); auto. exact (wf_oget _ _ _ Hw (sorted_in_oget k x m (wf_sorted _ Hw) Hin)).
    + intros [H Hs]. destruct q as [|[k|i] q']; cbn in H; [injection H as <-; discriminate | | discriminate].
      destruct (oget k m) as [x|] eqn:E; [|discriminate]. pose proof (oget_in _ _ _ E) as Hin.
      exists k, x, q'. split; [reflexivity|]. split; [exact Hin|].
      apply (IH (k, x) Hin); [exact (wf_oget _ _ _ Hw E) | auto].
Qed.

Lemma nodup_map_cons {A} s (l : list (loc * A)) :
  NoDup (map fst l) -> NoDup (map fst (map (fun qv => (s :: fst qv, snd qv)) l)).
Proof.
  rewrite map_map. cbn. induction l as [|[q v] l IH]; cbn; intro H; constructor; inversion H as [|? ? Hn HN]; subst; auto.
  rewrite in_map_iff. intros ([q' v'] & E & Hin). cbn in E. injection E as ->. apply Hn, in_map_iff. exists (q, v'). auto.
Qed.

Lemma NoDup_app {A} (a b : list A) : NoDup a -> NoDup b -> (forall x, In x a -> In x b -> False) -> NoDup (a ++ b).
Proof.
  induction a as [|x a IH]; cbn; intros Ha Hb Hd; [exact Hb|].
  inversion Ha as [|? ? Hn HN]; subst. constructor.
  - rewrite in_app_iff. intros [H|H]; [tauto | eapply Hd; eauto].
  - apply IH; auto. intros y Hy H'. eapply Hd; eauto.
Qed.

Lemma nodup_leaves j : wf j -> NoDup (map fst (leaves j)).
Proof.
  induction j as [| | | |l IH|m IH] using json_induction; intro Hw; try (cbn; repeat constructor; intros []; fail).
  - rewrite leaves_arr_eq. apply wf_arr in Hw. generalize 0 as n. induction l as [|x l IHl]; intro n; cbn; [constructor|].
    inversion IH as [|? ? Hx Hl]; subst. inversion Hw as [|? ? Wx Wl]; subst. rewrite map_app.
    apply NoDup_app; [apply nodup_map_cons; auto | apply IHl; auto|].
    intros q H1 H2. apply in_map_iff in H1 as ([q1 v1] & E1 & H1). apply in_map_iff in H1 as ([q1' v1'] & E1' & _).
    apply in_map_iff in H2 as ([q2 v2] & E2 & H2). apply in_leaves_arr in H2 as (i & y & q' & E & _ & _).
    cbn in E1, E1', E2. assert (SIdx n :: q1' = SIdx (S n + i) :: q') as F by congruence. injection F as F _. lia.
  - rewrite leaves_obj_eq. apply wf_obj in Hw as [Hs Hw]. induction m as [|[k x] m IHm]; cbn; [constructor|].
    inversion IH as [|? ? Hx Hl]; subst. inversion Hw as [|? ? Wx Wl]; subst. rewrite map_app.
    apply NoDup_app; [apply nodup_map_cons; auto | apply IHm; auto; eapply sorted_tail, Hs|].
    intros q H1 H2. apply in_map_iff in H1 as ([q1 v1] & E1 & H1). apply in_map_iff in H1 as ([q1' v1'] & E1' & _).
    apply in_map_iff in H2 as ([q2 v2] & E2 & H2). apply in_leaves_obj in H2 as (k' & y & q' & E & Hin & _).
    cbn in E1, E1', E2. assert (SKey k :: q1' = SKey k' :: q') as F by congruence. injection F as F _. subst k'.
    pose proof (sorted_lt _ _ _ Hs _ _ Hin) as L. rewrite scmp_refl in L. discriminate.
Qed.

(** *** flatten lists the leaves *)
Fixpoint ext (path : string) (q : loc) : string :=
  match q with
  | [] => path
  | s :: q' => ext (sub_path path (seg s)) q'
  end.

Lemma flat_leaves j : forall path, flat path j = map (fun qv => (ext path (fst qv), snd qv)) (leaves j).
Proof.
  induction j as [| | | |l IH|m IH] using json_induction; intro path; try reflexivity.
  - rewrite leaves_arr_eq. cbn [flat]. generalize 0 as n.
    induction l as [|x l IHl]; intro n; [reflexivity|]. inversion IH as [|? ? Hx Hl]; subst.
    cbn [leaves_arr]. rewrite map_app, map_map. cbn [fst snd ext seg]. rewrite Hx. f_equal. now apply IHl.
  - rewrite leaves_obj_eq. cbn [flat].
    induction m as [|[k x] m IHm]; [reflexivity|]. inversion IH as [|? ? Hx Hl]; subst. cbn in Hx.
    cbn [leaves_obj]. rewrite map_app, map_map. cbn [fst snd ext seg]. rewrite Hx. f_equal. now apply IHm.
Qed.

Definition seg_ok (s : step) : Prop := match s with SKey k => plain k | SIdx i => (Z.of_nat i < 2 ^ 63)%Z end.

Lemma itoa_nonempty i : itoa i <> "".
Proof. apply itoa_fuel_nonempty. lia. Qed.

Lemma seg_plain s : seg_ok s -> plain (seg s).
Proof.
  destruct s as [k|i]; cbn; [auto|]. intros _. split; [apply itoa_nonempty|].
  split; apply itoa_no_char; reflexivity.
Qed.

Lemma ext_render_aux q : forall path, Forall seg_ok q -> path <> "" -> q <> [] -> ext path q = path +++ "." +++ render q.
Proof.
  induction q as [|s q IH]; intros path Hq Hp Hn; [congruence|]. cbn [ext].
  assert (sub_path path (seg s) = path +++ "." +++ seg s) as -> by (destruct path; [congruence | reflexivity]).
  inversion Hq as [|? ? Hs Hq']; subst. destruct q as [|s' q].
  - reflexivity.
  - rewrite IH; [| exact Hq' | destruct path; [congruence | discriminate] | discriminate].
    unfold render. cbn [map]. rewrite join_cons. rewrite !app_assoc_s. reflexivity.
Qed.

Lemma ext_render q : Forall seg_ok q -> ext "" q = render q.
Proof.
  destruct q as [|s q]; intro H; [reflexivity|]. cbn [ext sub_path].
  inversion H as [|? ? Hs Hq]; subst. destruct q as [|s' q]; [reflexivity|].
  rewrite ext_render_aux; [| exact Hq | apply seg_plain, Hs | discriminate].
  unfold render. cbn [map]. now rewrite join_cons.
Qed.

Lemma seg_ok_lookup q : forall j v, keys_ok plain j -> lookup q j = Some v -> Forall seg_ok q.
Proof.
  induction q as [|[k|i] q IH]; intros j v Hk; cbn; [constructor| |].
  - destruct j; try discriminate. destruct (oget k m) as [x|] eqn:E; [|discriminate].
    destruct (keys_ok_oget _ _ _ _ Hk E) as [Pk Hx]. intro H. constructor; [exact Pk | eapply IH; eassumption].
  - destruct j; try discriminate. destruct (nth_error l i) as [x|] eqn:E; [|discriminate].
    intro H. constructor; [|eapply IH; [eapply keys_ok_nth; eassumption | exact H]].
    apply keys_ok_arr in Hk as [Hl _]. cbn. assert (i < length l) by (apply nth_error_Some; congruence). lia.
Qed.

Lemma undot_plain k : has_char "~" k = false -> undot k = k.
Proof.
  intro H. unfold undot. assert (replace_all "~1" "." k = k) as ->.
  - apply (replace_all_absent "~1" "." k "~"); [reflexivity | exact H].
  - apply (replace_all_absent "~0" "~" k "~"); [reflexivity | exact H].
Qed.

Lemma split_join_dot l : Forall (fun t => has_char "." t = false) l -> l <> [] -> split_char "." (join "." l) = l.
Proof. intros H Hn. exact (split_join "." l Hn H). Qed.

(** Reading the rendered text gives the segments back. *)
Lemma dot_path_render q : q <> [] -> Forall seg_ok q -> dot_path (render q) = map seg q.
Proof.
  intros Hn H. unfold dot_path, render. 
  assert (Forall (fun t => has_char "." t = false) (map seg q)) as Hd.
  { apply Forall_map. eapply Forall_impl; [|exact H]. intros s Hs. apply (seg_plain s Hs). }
  rewrite (split_join_dot (map seg q)); [| exact Hd | destruct q; [congruence | discriminate]].
  clear Hn Hd. induction H as [|s q Hs _ IH]; [reflexivity|]. cbn. rewrite IH. f_equal.
  apply undot_plain, (seg_plain s Hs).
Qed.

Lemma itoa_not_star i : String.eqb (itoa i) "*" = false.
Proof.
  apply String.eqb_neq. intro H. assert (has_char "*" (itoa i) = false) as Hn by (apply itoa_no_char; reflexivity).
  rewrite H in Hn. discriminate.
Qed.
Lemma itoa_not_dash i : String.eqb (itoa i) "-" = false.
Proof.
  apply String.eqb_neq. intro H. assert (has_char "-" (itoa i) = false) as Hn by (apply itoa_no_char; reflexivity).
  rewrite H in Hn. discriminate.
Qed.
Lemma arr_index_itoa i : (Z.of_nat i < 2 ^ 63)%Z -> arr_index (itoa i) = Some i.
Proof.
  intro H. unfold arr_index. rewrite atoi_itoa by exact H.
  assert ((Z.of_nat i <? 0)%Z = false) as -> by (apply Z.ltb_ge; lia). now rewrite Nat2Z.id.
Qed.

Lemma search_lookup q : forall j, Forall seg_ok q -> forall v, lookup q j = Some v -> search (map seg q) j = Some v.
Proof.
  induction q as [|[k|i] q IH]; intros j Hq v; cbn [lookup map seg search]; [auto| |].
  - destruct j; try discriminate. destruct (oget k m); [|discriminate]. apply IH. now inversion Hq.
  - destruct j; try discriminate. rewrite itoa_not_star. inversion Hq as [|? ? Hi Hq']; subst.
    rewrite (arr_index_itoa i Hi). destruct (nth_error l i); [|discriminate]. now apply IH.
Qed.

Lemma itoa_inj i j : (Z.of_nat i < 2 ^ 63)%Z -> (Z.of_nat j < 2 ^ 63)%Z -> itoa i = itoa j -> i = j.
Proof. intros Hi Hj E. pose proof (arr_index_itoa i Hi) as H. rewrite E, (arr_index_itoa j Hj) in H. congruence. Qed.

Lemma seg_inj q1 : forall q2 j v1 v2, Forall seg_ok q1 -> Forall seg_ok q2 ->
  lookup q1 j = Some v1 -> lookup q2 j = Some v2 -> map seg q1 = map seg q2 -> q1 = q2.
Proof.
  induction q1 as [|s1 q1 IH]; intros [|s2 q2] j v1 v2 H1 H2 L1 L2 E; try discriminate; [reflexivity|].
  cbn in E. injection E as Es Eq. inversion H1 as [|? ? O1 H1']; subst. inversion H2 as [|? ? O2 H2']; subst.
  destruct s1 as [k1|i1], s2 as [k2|i2]; cbn in L1, L2, Es; destruct j; try discriminate.
  - subst k2. destruct (oget k1 m); [|discriminate]. f_equal. eapply IH; eassumption.
  - cbn in O1, O2. apply itoa_inj in Es; auto. subst i2.
    destruct (nth_error l i1); [|discriminate]. f_equal. eapply IH; eassumption.
Qed.

Lemma last_seg_render q s : Forall seg_ok (q ++ [s]) -> last_seg (render (q ++ [s])) = seg s.
Proof.
  intro H. unfold last_seg, render.
  assert (Forall (fun t => has_char "." t = false) (map seg (q ++ [s]))) as Hd.
  { apply Forall_map. eapply Forall_impl; [|exact H]. intros x Hx. apply (seg_plain x Hx). }
  rewrite (split_join_dot (map seg (q ++ [s]))); [| exact Hd | destruct q; discriminate].
  rewrite map_app. cbn. now rewrite last_last.
Qed.

Lemma dedup_nodup {A} (l : list (string * A)) : NoDup (keys l) -> dedup l = l.
Proof.
  induction l as [|[k v] l IH]; cbn; intro H; [reflexivity|]. inversion H as [|? ? Hn H']; subst.
  rewrite IH by exact H'. f_equal. clear IH H H'. induction l as [|[k' v'] l IH]; [reflexivity|]. cbn in *.
  destruct (String.eqb_spec k' k) as [->|N]; [tauto|]. cbn. now rewrite IH by tauto.
Qed.

(** Flattened entries of a document with plain keys. *)
Lemma flat_render j : wf j -> keys_ok plain j -> is_scalar j = false ->
  flat "" j = map (fun qv => (render (fst qv), snd qv)) (leaves j) /\ NoDup (keys (flat "" j)).
Proof.
  intros Hw Hk Hsc.
  assert (flat "" j = map (fun qv => (render (fst qv), snd qv)) (leaves j)) as E.
  { rewrite flat_leaves. apply map_ext_in. intros [q v] Hin. cbn. apply in_leaves in Hin as [Hl _]; [|exact Hw].
    rewrite ext_render; [reflexivity|]. eapply seg_ok_lookup; eassumption. }
  split; [exact E|]. rewrite E. unfold keys. rewrite map_map. cbn.
  pose proof (nodup_leaves j Hw) as HN.
  assert (forall q v, In (q, v) (leaves j) -> lookup q j = Some v /\ q <> []) as HL.
  { intros q v Hin. apply in_leaves in Hin as [Hl Hs]; auto. split; [exact Hl|].
    intros ->. cbn in Hl. congruence. }
  clear E. induction (leaves j) as [|[q v] l IH]; cbn; constructor.
  - rewrite in_map_iff. intros ([q' v'] & E & Hin). cbn in E. cbn in HN. inversion HN as [|? ? Hn _]; subst. apply Hn.
    assert (q' = q) as <-; [|apply in_map_iff; exists (q', v'); auto].
    destruct (HL q v (or_introl eq_refl)) as [L1 N1]. destruct (HL q' v' (or_intror Hin)) as [L2 N2].
    pose proof (seg_ok_lookup _ _ _ Hk L1) as O1. pose proof (seg_ok_lookup _ _ _ Hk L2) as O2.
    eapply (seg_inj q' q j); eauto.
    rewrite <- (dot_path_render q' N2 O2), <- (dot_path_render q N1 O1). now f_equal.
  - apply IH; [now inversion HN | intros q' v' Hin; apply HL; now right].
Qed.

Lemma extract_key_spec ord key j refs : (forall l, Permutation (ord l) l) -> wf j -> keys_ok plain j -> is_scalar j = false ->
  extract_key ord key (Some j) = Ok refs ->
  NoDup (keys refs) /\
  (forall p v, In (p, v) refs <->
     exists q s, p = render (q ++ [s]) /\ seg s = key /\ lookup (q ++ [s]) j = Some v /\ is_scalar v = true).
Proof.
  intros Hord Hw Hk Hsc H.
  destruct (flat_render j Hw Hk Hsc) as [E HN].
  assert (refs = filter (fun kv => String.eqb (last_seg (fst kv)) key) (ord (flat "" j))) as ->.
  { unfold extract_key, c_flatten, c_data in H.
    assert (NoDup (keys (ord (flat "" j)))) as HN'.
    { eapply Permutation_NoDup; [|exact HN]. apply Permutation_map. symmetry. apply Hord. }
    destruct j; try discriminate; cbn [bind] in H; rewrite (dedup_nodup _ HN') in H; now injection H as <-. }
  assert (HP : Permutation (ord (flat "" j)) (flat "" j)) by apply Hord.
  split.
  - assert (NoDup (keys (ord (flat "" j)))) as HN'.
    { eapply Permutation_NoDup; [|exact HN]. apply Permutation_map. symmetry. exact HP. }
    clear - HN'. unfold keys in *. induction (ord (flat "" j)) as [|x l IH]; cbn; [constructor|].
    inversion HN' as [|? ? Hn HN2]; subst. destruct (String.eqb _ _); cbn; [constructor|]; auto.
    intro Hin. apply Hn. apply in_map_iff in Hin as (y & Ey & Hy). apply filter_In in Hy as [Hy _].
    apply in_map_iff. eauto.
  - intros p v. rewrite filter_In. cbn [fst]. split.
    + intros [Hin Hl]. apply (Permutation_in _ HP) in Hin. rewrite E in Hin.
      apply in_map_iff in Hin as ([q v'] & Eq & Hin). cbn [fst snd] in Eq. injection Eq as <- <-.
      apply in_leaves in Hin as [Hlk Hs]; [|exact Hw].
      assert (q <> []) as Hne by (intros ->; cbn in Hlk; congruence).
      destruct (exists_last Hne) as (q0 & s0 & ->).
      exists q0, s0. split; [reflexivity|]. split; [|auto].
      apply String.eqb_eq in Hl. rewrite last_seg_render in Hl; [exact Hl|]. eapply seg_ok_lookup; eassumption.
    + intros (q & s & -> & Hs & Hlk & Hsv).
      assert (Forall seg_ok (q ++ [s])) as Ho by (eapply seg_ok_lookup; eassumption).
      split; [|rewrite last_seg_render by exact Ho; now apply String.eqb_eq].
      eapply Permutation_in; [symmetry; exact HP|]. rewrite E. apply in_map_iff. exists (q ++ [s], v).
      split; [reflexivity|]. apply in_leaves; auto.
Qed.

Lemma c_path_render q j v : q <> [] -> keys_ok plain j -> lookup q j = Some v -> c_path (render q) (Some j) = Some v.
Proof.
  intros Hn Hk Hl. pose proof (seg_ok_lookup _ _ _ Hk Hl) as Ho.
  unfold c_path, c_search, c_data. rewrite dot_path_render by assumption. now apply search_lookup.
Qed.
