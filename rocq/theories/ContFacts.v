(** Dot paths, sorted emission, cloning of numbers. *)
From Coq Require Import String Ascii List Bool Arith ZArith Lia Permutation Sorted.
From Verif Require Import GoStr GoStrFacts Json JsonFacts Gabs GabsFacts Container MergeFacts Spec_Sort.
Import ListNotations.
Local Open Scope string_scope.
Local Open Scope nat_scope.
Local Open Scope list_scope.

(** *** dot paths *)
Lemma no_tilde1 w : replace_all "~1" "." (subst_char "~" "~0" w) = subst_char "~" "~0" w.
Proof.
  induction w as [|c w IH]; [reflexivity|]. cbn [subst_char]. destruct (Ascii.eqb_spec c "~") as [->|N].
  - cbn [append]. rewrite (replace2_miss2 "~" "1" "." "0") by discriminate.
    rewrite (replace2_miss1 "~" "1" "." "0") by discriminate. unfold str1. now rewrite IH.
  - unfold str1. cbn [append]. rewrite (replace2_miss1 "~" "1" "." c) by exact N. unfold str1. now rewrite IH.
Qed.

Lemma tilde0_back w : replace_all "~0" "~" (subst_char "~" "~0" w) = w.
Proof.
  induction w as [|c w IH]; [reflexivity|]. cbn [subst_char]. destruct (Ascii.eqb_spec c "~") as [->|N].
  - cbn [append]. rewrite (replace2_hit "~" "0" "~"). cbn [append]. unfold str1. now rewrite IH.
  - unfold str1. cbn [append]. rewrite (replace2_miss1 "~" "0" "~" c) by exact N. unfold str1. now rewrite IH.
Qed.

Lemma undot_escape v : undot (dot_escape v) = replace_all "." "~1" v.
Proof.
  unfold undot, dot_escape. rewrite (replace1_subst "~" "~0").
  now rewrite no_tilde1, tilde0_back.
Qed.

Lemma subst_no_char x new s : has_char x new = false -> has_char x (subst_char x new s) = false.
Proof.
  intro H. induction s as [|c s IH]; [reflexivity|]. cbn [subst_char]. rewrite has_char_app, IH, orb_false_r.
  destruct (Ascii.eqb_spec c x) as [->|N]; [exact H|]. cbn. rewrite orb_false_r. apply Ascii.eqb_neq. congruence.
Qed.
Lemma subst_keeps_absent x y new s : has_char y new = false -> has_char y s = false -> has_char y (subst_char x new s) = false.
Proof.
  intros Hn. induction s as [|c s IH]; [reflexivity|]. cbn. intro H. apply orb_false_iff in H as [Hc Hs].
  rewrite has_char_app, (IH Hs), orb_false_r. destruct (Ascii.eqb c x); [exact Hn|]. cbn. now rewrite Hc.
Qed.

Lemma dot_escape_no_dot v : has_char "." (dot_escape v) = false.
Proof.
  unfold dot_escape. rewrite (replace1_subst "~" "~0"). apply subst_keeps_absent; [reflexivity|].
  rewrite (replace1_subst "." "~1"). apply subst_no_char. reflexivity.
Qed.

Lemma dot_path_slice ks : ks <> [] -> dot_path (slice_to_dot_path ks) = map (replace_all "." "~1") ks.
Proof.
  intro Hn. unfold dot_path, slice_to_dot_path.
  change (join "." (map dot_escape ks)) with (join (str1 ".") (map dot_escape ks)).
  rewrite split_join.
  - rewrite map_map. apply map_ext. apply undot_escape.
  - destruct ks; [congruence | discriminate].
  - apply Forall_map. apply Forall_forall. intros k _. apply dot_escape_no_dot.
Qed.

Lemma dot_path_slice_plain ks : ks <> [] -> Forall (fun k => has_char "." k = false) ks ->
  dot_path (slice_to_dot_path ks) = ks.
Proof.
  intros Hn H. rewrite dot_path_slice by exact Hn. clear Hn. induction H as [|k ks Hk _ IH]; [reflexivity|].
  cbn [map]. rewrite IH. f_equal. now apply (replace_all_absent "." "~1" k "."); [reflexivity|].
Qed.

Lemma subst_dot_length s : has_char "." s = true -> String.length (subst_char "." "~1" s) > String.length s.
Proof.
  assert (forall s, String.length (subst_char "." "~1" s) >= String.length s) as Hge.
  { clear. intro s. induction s as [|c s IH]; [cbn; lia|]. cbn [subst_char]. rewrite app_length_s.
    destruct (Ascii.eqb c "."); cbn [str1 String.length]; lia. }
  induction s as [|c s IH]; [discriminate|]. cbn [has_char subst_char]. rewrite app_length_s. intro H.
  destruct (Ascii.eqb_spec c ".") as [->|N].
  - pose proof (Hge s). cbn [String.length]. lia.
  - apply orb_true_iff in H as [H|H]; [apply Ascii.eqb_eq in H; congruence|]. specialize (IH H). cbn [str1 String.length]. lia.
Qed.

Lemma dot_key_lost k : has_char "." k = true -> dot_path (slice_to_dot_path [k]) <> [k].
Proof.
  intros H E. rewrite dot_path_slice in E by discriminate. cbn [map] in E. injection E as E.
  rewrite (replace1_subst "." "~1") in E. apply subst_dot_length in H. rewrite E in H. lia.
Qed.

(** *** sorted emission *)
Lemma index_of_from_spec e l : forall i,
  (~ In e l /\ index_of_from i e l = -1)%Z \/
  (exists n, nth_error l n = Some e /\ (forall m, m < n -> nth_error l m <> Some e) /\ index_of_from i e l = (i + Z.of_nat n)%Z).
Proof.
  induction l as [|x l IH]; intro i; cbn [index_of_from]; [left; cbn; tauto|].
  destruct (String.eqb_spec e x) as [->|N].
  - right. exists 0. split; [reflexivity|]. split; [intros m Hm; lia | cbn; lia].
  - destruct (IH (i + 1)%Z) as [[H1 H2]|(n & H1 & H2 & H3)].
    + left. split; [|exact H2]. cbn. intuition.
    + right. exists (S n). split; [exact H1|]. split.
      * intros [|m] Hm; cbn; [congruence | apply H2; lia].
      * rewrite H3. lia.
Qed.

Lemma index_of_absent e l : ~ In e l -> index_of e l = (-1)%Z.
Proof.
  intro H. destruct (index_of_from_spec e l 0) as [[_ E]|(n & Hn & _ & _)]; [exact E|].
  exfalso. apply H. eapply nth_error_In, Hn.
Qed.
Lemma index_of_present e l : In e l -> exists n, nth_error l n = Some e /\ index_of e l = Z.of_nat n.
Proof.
  intro H. destruct (index_of_from_spec e l 0) as [[Hn _]|(n & Hn & _ & E)]; [tauto|].
  exists n. split; [exact Hn|]. exact E.
Qed.
Lemma index_of_inj a b l : In a l -> In b l -> index_of a l = index_of b l -> a = b.
Proof.
  intros Ha Hb E. destruct (index_of_present a l Ha) as (n & Hn & En). destruct (index_of_present b l Hb) as (m & Hm & Em).
  assert (n = m) as <- by lia. congruence.
Qed.

Definition idx_le (order : list string) (a b : string * json) : Prop :=
  (index_of (fst a) order <= index_of (fst b) order)%Z.

Lemma sort_entries_spec ord srt1 srt2 order m :
  (forall l, Permutation (ord l) l) -> is_item_sort srt1 -> is_item_sort srt2 ->
  let es := sort_entries ord srt1 srt2 order m in
  Permutation es m /\ StronglySorted (idx_le order) es.
Proof.
  intros Hord H1 H2. unfold sort_entries. set (ms := map _ (ord m)).
  set (out := srt2 (srt1 ms)).
  assert (Permutation out ms) as HP.
  { unfold out. etransitivity; [apply H2 | apply H1]. }
  assert (Hms : Forall (fun i => mi_index i = index_of (mi_key i) order) ms).
  { apply Forall_map. apply Forall_forall. intros x _. reflexivity. }
  assert (Hout : Forall (fun i => mi_index i = index_of (mi_key i) order) out).
  { eapply Permutation_Forall; [symmetry; exact HP | exact Hms]. }
  split.
  - etransitivity; [apply Permutation_map, HP|]. unfold ms. rewrite map_map. cbn.
    assert (map (fun x : string * json => (fst x, snd x)) (ord m) = ord m) as ->.
    { rewrite <- (map_id (ord m)) at 2. apply map_ext. now intros []. }
    apply Hord.
  - assert (StronglySorted item_le out) as HS by apply H2. clearbody out. clear HP.
    induction HS as [|a l HS IH HF]; cbn; [constructor|]. inversion Hout as [|? ? Ha Hl]; subst.
    constructor; [now apply IH|]. apply Forall_map. rewrite Forall_forall in *. intros b Hb.
    unfold idx_le. cbn. specialize (HF b Hb). unfold item_le in HF. rewrite Ha, (Hl b Hb) in HF. exact HF.
Qed.

Lemma listed_in order e : listed order e = true <-> In (fst e) order.
Proof.
  unfold listed. rewrite existsb_exists. split.
  - intros (x & Hx & E). apply String.eqb_eq in E. now subst.
  - intro H. exists (fst e). split; [exact H | apply String.eqb_refl].
Qed.

Lemma sorted_partition order es : StronglySorted (idx_le order) es ->
  es = filter (fun e => negb (listed order e)) es ++ filter (listed order) es.
Proof.
  induction 1 as [|a l HS IH HF]; [reflexivity|]. cbn. destruct (listed order a) eqn:E; cbn.
  - assert (filter (fun e => negb (listed order e)) l = []) as ->.
    { clear IH HS. induction HF as [|b l Hb HF IH]; [reflexivity|]. cbn.
      assert (listed order b = true) as ->; [|exact IH].
      apply listed_in. destruct (in_dec string_dec (fst b) order) as [H|H]; [exact H|].
      exfalso. unfold idx_le in Hb. rewrite (index_of_absent _ _ H) in Hb.
      apply listed_in in E. destruct (index_of_present _ _ E) as (n & _ & En). lia. }
    cbn. f_equal. symmetry. clear IH HS. induction HF as [|b l Hb HF IH]; [reflexivity|]. cbn.
    assert (listed order b = true) as ->; [|now f_equal].
    apply listed_in. destruct (in_dec string_dec (fst b) order) as [H|H]; [exact H|].
    exfalso. unfold idx_le in Hb. rewrite (index_of_absent _ _ H) in Hb.
    apply listed_in in E. destruct (index_of_present _ _ E) as (n & _ & En). lia.
  - now f_equal.
Qed.

Lemma ss_filter {A} (R : A -> A -> Prop) f l : StronglySorted R l -> StronglySorted R (filter f l).
Proof.
  induction 1 as [|a l HS IH HF]; cbn; [constructor|]. destruct (f a); [|exact IH].
  constructor; [exact IH|]. rewrite Forall_forall in *. intros x Hx. apply filter_In in Hx as [Hx _]. auto.
Qed.

Lemma ss_unique {A} (R : A -> A -> Prop) l1 : forall l2,
  (forall a b, In a l1 -> In b l1 -> R a b -> R b a -> a = b) ->
  StronglySorted R l1 -> StronglySorted R l2 -> Permutation l1 l2 -> l1 = l2.
Proof.
  induction l1 as [|a l1 IH]; intros l2 Hanti H1 H2 HP.
  - apply Permutation_nil in HP. now subst.
  - destruct l2 as [|b l2]; [symmetry in HP; now apply Permutation_nil in HP|].
    inversion H1 as [|? ? H1' F1]; subst. inversion H2 as [|? ? H2' F2]; subst.
    assert (a = b) as <-.
    { assert (In b (a :: l1)) as Hb by (eapply Permutation_in; [symmetry; exact HP | now left]).
      assert (In a (b :: l2)) as Ha by (eapply Permutation_in; [exact HP | now left]).
      destruct Hb as [->|Hb]; [reflexivity|]. destruct Ha as [->|Ha]; [reflexivity|].
      rewrite Forall_forall in F1, F2. apply Hanti; [now left | now right | auto | auto]. }
    f_equal. apply IH; auto.
    + intros x y Hx Hy. apply Hanti; now right.
    + eapply Permutation_cons_inv, HP.
Qed.

Lemma nodup_filter_keys {A} (m : list (string * A)) f : NoDup (keys m) -> NoDup (keys (filter f m)).
Proof.
  unfold keys. induction m as [|x m IH]; cbn; intro H; [constructor|]. inversion H as [|? ? Hn HN]; subst.
  destruct (f x); cbn; [constructor|]; auto. intro Hin. apply Hn.
  apply in_map_iff in Hin as (y & E & Hy). apply filter_In in Hy as [Hy _]. apply in_map_iff. eauto.
Qed.


Lemma in_by_order order m k v : In (k, v) (by_order order m) <-> In k order /\ oget k m = Some v.
Proof.
  unfold by_order. rewrite in_flat_map. split.
  - intros (k' & Hk & Hin). destruct (oget k' m) eqn:E; [|destruct Hin]. destruct Hin as [[= <- <-]|[]]. auto.
  - intros [Hk E]. exists k. split; [exact Hk|]. rewrite E. now left.
Qed.

Lemma nodup_by_order order m : NoDup order -> NoDup (by_order order m).
Proof.
  induction 1 as [|k order Hn _ IH]; cbn; [constructor|]. destruct (oget k m) as [v|]; [|exact IH].
  cbn. constructor; [|exact IH]. intro Hin. apply in_by_order in Hin as [Hin _]. tauto.
Qed.

Lemma index_of_cons_neq e x l : e <> x -> In e l -> (index_of e (x :: l) = index_of e l + 1)%Z.
Proof.
  intros N Hin. unfold index_of. cbn. apply String.eqb_neq in N as ->.
  assert (forall l i, In e l -> index_of_from (i + 1) e l = index_of_from i e l + 1)%Z as H.
  { clear. induction l as [|y l IH]; intros i [].
    - subst y. cbn. now rewrite String.eqb_refl.
    - cbn. destruct (String.eqb e y); [reflexivity | now apply IH]. }
  exact (H l 0%Z Hin).
Qed.

Lemma ss_by_order order m : NoDup order -> StronglySorted (idx_le order) (by_order order m).
Proof.
  intro HN. 
  assert (forall pre, NoDup (pre ++ order) -> StronglySorted (idx_le (pre ++ order)) (by_order order m)) as H.
  { clear HN. induction order as [|k order IH]; intros pre HN; cbn; [constructor|].
    assert (Hrec : StronglySorted (idx_le (pre ++ k :: order)) (by_order order m)).
    { specialize (IH (pre ++ [k])). rewrite <- app_assoc in IH. apply IH. exact HN. }
    fold (by_order order m). destruct (oget k m) as [v|]; [|exact Hrec]. cbn. constructor; [exact Hrec|].
    apply Forall_forall. intros [k' v'] Hin. apply in_by_order in Hin as [Hin _]. unfold idx_le. cbn.
    destruct (index_of_present k (pre ++ k :: order)) as (n & Hn & ->); [apply in_or_app; right; now left|].
    destruct (index_of_present k' (pre ++ k :: order)) as (n' & Hn' & ->); [apply in_or_app; right; now right|].
    assert (nth_error (pre ++ k :: order) (length pre) = Some k) as Hk by (rewrite nth_error_app2, Nat.sub_diag by lia; reflexivity).
    assert (n = length pre).
    { eapply NoDup_nth_error; [exact HN | apply nth_error_Some; congruence | congruence]. }
    subst n. destruct (Nat.lt_ge_cases n' (length pre)) as [Hlt|Hge]; [|lia].
    exfalso. rewrite nth_error_app1 in Hn' by exact Hlt. apply nth_error_In in Hn'.
    eapply NoDup_remove_2; [exact HN|]. 
    assert (NoDup (pre ++ k :: order)) as HN' by exact HN.
    clear - HN' Hn' Hin. exfalso. induction pre as [|x pre IH]; [destruct Hn'|]. cbn in HN'. inversion HN' as [|? ? Hx HN2]; subst.
    destruct Hn' as [->|Hn']; [apply Hx, in_or_app; right; now right | now apply IH]. }
  exact (H [] HN).
Qed.

(** The emitted entries: the unlisted ones in some order, then the listed ones in the listed order. *)
Lemma sort_entries_shape ord srt1 srt2 order m :
  (forall l, Permutation (ord l) l) -> is_item_sort srt1 -> is_item_sort srt2 -> NoDup order -> sorted m ->
  exists u, sort_entries ord srt1 srt2 order m = u ++ by_order order m /\
            Permutation u (filter (fun e => negb (listed order e)) m).
Proof.
  intros Hord H1 H2 HN Hs. destruct (sort_entries_spec ord srt1 srt2 order m Hord H1 H2) as [HP HS].
  set (es := sort_entries ord srt1 srt2 order m) in *.
  exists (filter (fun e => negb (listed order e)) es). split.
  - rewrite (sorted_partition order es HS) at 1. f_equal.
    apply (ss_unique (idx_le order)).
    + intros [k1 v1] [k2 v2] Ha Hb L1 L2. apply filter_In in Ha as [Ha La]. apply filter_In in Hb as [Hb Lb].
      apply listed_in in La, Lb. cbn in La, Lb.
      assert (k1 = k2) as <- by (apply (index_of_inj k1 k2 order La Lb); unfold idx_le in *; cbn in *; lia).
      f_equal. apply (Permutation_in _ HP) in Ha. apply (Permutation_in _ HP) in Hb.
      apply (sorted_in_oget _ _ _ Hs) in Ha. apply (sorted_in_oget _ _ _ Hs) in Hb. congruence.
    + apply ss_filter, HS.
    + now apply ss_by_order.
    + apply NoDup_Permutation.
      * apply NoDup_filter. apply (Permutation_NoDup (Permutation_sym HP)).
        eapply NoDup_map_inv. apply sorted_nodup, Hs.
      * now apply nodup_by_order.
      * intros [k v]. rewrite filter_In, listed_in, in_by_order. cbn. split.
        -- intros [Hin Hl]. split; [exact Hl|]. apply sorted_in_oget; [exact Hs|]. exact (Permutation_in _ HP Hin).
        -- intros [Hl E]. split; [|exact Hl]. apply (Permutation_in _ (Permutation_sym HP)). now apply oget_in.
  - clear HS Hs. clearbody es. induction HP as [|x l l' HP IH|x y l|l l' l'' HP1 IH1 HP2 IH2]; cbn.
    + constructor.
    + destruct (negb (listed order x)); [apply perm_skip, IH | exact IH].
    + destruct (negb (listed order x)), (negb (listed order y)); try apply Permutation_refl. apply perm_swap.
    + etransitivity; eassumption.
Qed.

Lemma sort_entries_unique ord srt1 srt2 ord' srt1' srt2' order m :
  (forall l, Permutation (ord l) l) -> is_item_sort srt1 -> is_item_sort srt2 ->
  (forall l, Permutation (ord' l) l) -> is_item_sort srt1' -> is_item_sort srt2' -> NoDup order -> sorted m ->
  length (filter (fun e => negb (listed order e)) m) <= 1 ->
  sort_entries ord srt1 srt2 order m = sort_entries ord' srt1' srt2' order m.
Proof.
  intros. destruct (sort_entries_shape ord srt1 srt2 order m) as (u & -> & Hu); auto.
  destruct (sort_entries_shape ord' srt1' srt2' order m) as (u' & -> & Hu'); auto. f_equal.
  destruct (filter (fun e => negb (listed order e)) m) as [|x [|y l]]; cbn in *; [| |lia].
  - symmetry in Hu, Hu'. apply Permutation_nil in Hu, Hu'. congruence.
  - symmetry in Hu, Hu'. apply Permutation_length_1_inv in Hu, Hu'. congruence.
Qed.
