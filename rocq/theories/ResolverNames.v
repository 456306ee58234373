(** Component names: dot path against fragment. *)
From Coq Require Import String Ascii List Bool Arith ZArith Lia.
From Verif Require Import GoStr GoStrFacts Json JsonFacts Gabs Container Url Pointer Resolver
  Spec_Loc Spec_Resolve MergeFacts LocFacts SetFacts FragFacts ResolverFacts ResolverFrame.
Import ListNotations.
Local Open Scope string_scope.
Local Open Scope nat_scope.
Local Open Scope list_scope.

Lemma split_len c s : length (split_char c s) = 1 + length (filter (Ascii.eqb c) (list_ascii_of_string s)).
Proof.
  induction s as [|d s IH]; [reflexivity|]. cbn [split_char list_ascii_of_string filter].
  rewrite (Ascii.eqb_sym c d). rewrite (Ascii.eqb_sym d c). destruct (Ascii.eqb c d) eqn:E.
  - cbn [length]. now rewrite IH.
  - destruct (split_char c s) as [|y l] eqn:Es; [now destruct (split_char_nonempty c s)|]. cbn [length] in *. lia.
Qed.
Lemma filter_char c s : has_char c s = true -> 0 < length (filter (Ascii.eqb c) (list_ascii_of_string s)).
Proof.
  induction s as [|d s IH]; [discriminate|]. cbn [has_char list_ascii_of_string filter]. intro H. apply orb_true_iff in H as [H|H].
  - rewrite H || rewrite Ascii.eqb_sym, H. cbn. lia.
  - destruct (Ascii.eqb c d); cbn [length]; auto. lia.
Qed.

Lemma entity_path_segs k n : dot_path (entity_path k n) = "components" :: kind_key k :: map undot (split_char "." n).
Proof.
  unfold dot_path, entity_path, kind_path.
  assert (E : (("components." +++ kind_key k) +++ "." +++ n) = "components" +++ String "." (kind_key k +++ String "." n)) by (destruct k; reflexivity).
  rewrite E. rewrite split_char_app_sep by reflexivity. rewrite split_char_app_sep by (destruct k; reflexivity).
  cbn [map]. f_equal. f_equal. destruct k; reflexivity.
Qed.

Lemma kind_fragment_eq k : kind_fragment k = ["components"; kind_key k].
Proof. destruct k; reflexivity. Qed.

Lemma entity_fragment_toks k n :
  entity_fragment k n = "components" :: kind_key k :: map unescape_token (split_char "/" (if has_prefix "/" n then skipn_s 1 n else n)).
Proof.
  unfold entity_fragment. rewrite kind_fragment_eq. pose proof (descendant_spec ["components"; kind_key k] n) as [_ H].
  rewrite H by discriminate. reflexivity.
Qed.

Lemma dotted_name k n : has_char "." n = true -> has_char "/" n = false -> dot_path (entity_path k n) <> entity_fragment k n.
Proof.
  intros Hd Hs E. rewrite entity_path_segs, entity_fragment_toks in E. apply (f_equal (@length string)) in E.
  cbn [length] in E. rewrite !map_length in E. apply Nat.succ_inj, Nat.succ_inj in E.
  assert (has_prefix "/" n = false) as Hp.
  { destruct n as [|c n]; [reflexivity|]. cbn [has_char] in Hs. cbn [has_prefix]. apply orb_false_iff in Hs as [-> _]. reflexivity. }
  rewrite Hp in E. rewrite (split_char_none "/" n Hs), split_len in E. pose proof (filter_char _ _ Hd). cbn [length] in E. lia.
Qed.
Lemma slashed_name k c n : Ascii.eqb c "/" = false -> has_char "/" (String c n) = true -> has_char "." (String c n) = false ->
  dot_path (entity_path k (String c n)) <> entity_fragment k (String c n).
Proof.
  intros Hc Hs Hd E. rewrite entity_path_segs, entity_fragment_toks in E. apply (f_equal (@length string)) in E.
  cbn [length] in E. rewrite !map_length in E. apply Nat.succ_inj, Nat.succ_inj in E. assert (has_prefix "/" (String c n) = false) as Hp.
  { cbn [has_prefix]. rewrite Ascii.eqb_sym in Hc. now rewrite Hc. }
  rewrite Hp in E. rewrite (split_char_none "." _ Hd), split_len in E. pose proof (filter_char _ _ Hs). cbn [length] in E. lia.
Qed.

Lemma stored_where_referenced k n v v' doc r : good_name n -> clone v = Ok v' -> set_entity k n v (Some doc) = Ok r ->
  entity_fragment k n = ["components"; kind_key k; n] /\ lookup (comp_loc (kind_key k) n) (c_data r) = Some v' /\
  frag_string (entity_fragment k n) = "/components/" +++ kind_key k +++ "/" +++ n.
Proof.
  intros Hg Hc H. pose proof Hg as ((Hne & Hd & Ht) & Hs & Ha & Hm). split; [|split].
  - apply entity_frag; [split; auto | exact Hs].
  - unfold set_entity in H. apply setp_inv in H as (j & v1 & r1 & q & E & -> & Hc1 & _ & Had & Hr). injection E as ->.
    assert (v1 = v') by congruence. subst v1. rewrite entity_dot_path in * by apply Hg.
    pose proof (address_comp _ _ _ _ _ Hg Had) as ->. exact (proj1 (gset_spec _ _ _ _ _ Had _ Hr)).
  - rewrite entity_frag by (auto; split; auto). cbn [frag_string].
    assert (T : forall x, has_char "~" x = false -> has_char "/" x = false -> escape_token x = x).
    { intros x H1 H2. unfold escape_token. rewrite (replace_all_absent "~" "~0" x "~") by (reflexivity || assumption). now apply (replace_all_absent "/" "~1" x "/"). }
    rewrite (T n Ht Hs). rewrite (T (kind_key k)) by (destruct k; reflexivity). rewrite (T "components") by reflexivity.
    destruct k; cbn; now rewrite ?app_nil_r_s.
Qed.
