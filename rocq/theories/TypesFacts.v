(** Collection of pointers. *)
From Coq Require Import String Ascii List Bool Arith ZArith Lia.
From Verif Require Import GoStr GoStrFacts Json JsonFacts MergeFacts Url Pointer Spec_Ptr FragFacts PtrFacts Tag Types Spec_Types.
Import ListNotations.
Local Open Scope string_scope.
Local Open Scope nat_scope.
Local Open Scope list_scope.

(** ** Type identity *)
Lemma gty_induction (P : gty -> Prop) :
  (forall k, P (TBasic k)) -> (forall i, P (TNamed i)) -> (forall t, P t -> P (TPtr t)) -> (forall t, P t -> P (TSlice t)) ->
  (forall n t, P t -> P (TArray n t)) -> (forall k t, P k -> P t -> P (TMap k t)) -> (forall d t, P t -> P (TChan d t)) ->
  (forall fs, Forall (fun x => P (snd x)) fs -> P (TStruct fs)) -> (forall i, P (TOther i)) -> forall t, P t.
Proof.
  intros H1 H2 H3 H4 H5 H6 H7 H8 H9. fix IH 1. intros [k|i|t|t|n t|k t|d t|fs|i]; [apply H1|apply H2|apply H3, IH|apply H4, IH|apply H5, IH|apply H6; apply IH|apply H7, IH| |apply H9].
  apply H8. induction fs as [|[i t] fs IHf]; constructor; [apply IH | exact IHf].
Qed.
Lemma basic_eqb_spec a b : basic_eqb a b = true <-> a = b.
Proof. destruct a, b; cbn; split; intro H; try reflexivity; discriminate. Qed.
Lemma finfo_eqb_spec a b : finfo_eqb a b = true <-> a = b.
Proof.
  destruct a as [n t e], b as [n' t' e']. unfold finfo_eqb. cbn. rewrite !andb_true_iff, !String.eqb_eq, Bool.eqb_true_iff. split.
  - intros [[-> ->] ->]. reflexivity.
  - intros [= -> -> ->]. auto.
Qed.
Lemma gty_eqb_spec a : forall b, gty_eqb a b = true <-> a = b.
Proof.
  induction a as [k|i|t IH|t IH|n t IH|k t IHk IH|d t IH|fs IH|i] using gty_induction; intros [k'|i'|t'|t'|n' t'|k' t'|d' t'|fs'|i']; cbn; try (split; discriminate).
  - rewrite basic_eqb_spec. split; [now intros -> | now intros [= ->]].
  - rewrite Nat.eqb_eq. split; [now intros -> | now intros [= ->]].
  - rewrite IH. split; [now intros -> | now intros [= ->]].
  - rewrite IH. split; [now intros -> | now intros [= ->]].
  - rewrite andb_true_iff, Z.eqb_eq, IH. split; [now intros [-> ->] | now intros [= -> ->]].
  - rewrite andb_true_iff, IHk, IH. split; [now intros [-> ->] | now intros [= -> ->]].
  - rewrite andb_true_iff, Nat.eqb_eq, IH. split; [now intros [-> ->] | now intros [= -> ->]].
  - transitivity (fs = fs'); [|split; [now intros -> | now intros [= ->]]].
    revert fs'. induction IH as [|[i t] fs Ht Hfs IHf]; intros [|[i' t'] fs']; try (split; [discriminate | intro X; discriminate]); [tauto|].
    rewrite !andb_true_iff, finfo_eqb_spec. cbn in Ht. rewrite Ht, IHf. split; [now intros [[-> ->] ->] | now intros [= -> -> ->]].
  - rewrite Nat.eqb_eq. split; [now intros -> | now intros [= ->]].
Qed.
Lemma gty_eqb_refl a : gty_eqb a a = true.
Proof. now apply gty_eqb_spec. Qed.
Lemma gty_dec (a b : gty) : {a = b} + {a <> b}.
Proof. destruct (gty_eqb a b) eqn:E; [left; now apply gty_eqb_spec | right; intros ->; rewrite gty_eqb_refl in E; discriminate]. Qed.
Lemma has_in path u : existsb (fun x => gty_eqb x u) path = true <-> In u path.
Proof. rewrite existsb_exists. split; [intros (x & Hx & E); apply gty_eqb_spec in E; now subst | intro H; exists u; split; [exact H | apply gty_eqb_refl]]. Qed.
Lemma has_not_in path u : existsb (fun x => gty_eqb x u) path = false <-> ~ In u path.
Proof. rewrite <- has_in. destruct (existsb _ path); split; intro H; try reflexivity; try congruence; try tauto. Qed.

(** ** Point maps *)
Lemma pm_at_set m t l T : pm_at (pm_set m t l) T = if gty_eqb t T then l else pm_at m T.
Proof.
  unfold pm_at. induction m as [|[k v] m IH]; cbn [pm_set find fst snd].
  - destruct (gty_eqb t T); reflexivity.
  - destruct (gty_eqb k t) eqn:E.
    + apply gty_eqb_spec in E. subst k. cbn [find fst]. destruct (gty_eqb t T); reflexivity.
    + cbn [find fst]. destruct (gty_eqb k T) eqn:E'; [|exact IH]. apply gty_eqb_spec in E'. subst k.
      destruct (gty_eqb t T) eqn:E''; [|reflexivity]. apply gty_eqb_spec in E''. subst. rewrite gty_eqb_refl in E. discriminate.
Qed.
Lemma pt_has_spec l p : pt_has l p = true <-> exists q, In q l /\ ptr_string q = ptr_string p.
Proof. unfold pt_has. rewrite existsb_exists. split; intros (q & Hq & E); exists q; (split; [exact Hq|]); [apply String.eqb_eq in E; now symmetry | now apply String.eqb_eq]. Qed.
Lemma registered_append m u r T txt : registered (pm_append m u r) T txt <-> registered m T txt \/ (T = u /\ txt = ptr_string r).
Proof.
  unfold registered, pm_append. destruct (pt_has (pm_at m u) r) eqn:E.
  - split; [tauto|]. intros [H|[-> ->]]; [exact H|]. now apply pt_has_spec in E.
  - rewrite pm_at_set. destruct (gty_eqb u T) eqn:E'.
    + apply gty_eqb_spec in E'. subst T. split.
      * intros (p & Hp & Hs). apply in_app_iff in Hp as [Hp|[<- |[]]]; [left; eauto | right; auto].
      * intros [(p & Hp & Hs)|[_ ->]]; [exists p | exists r]; rewrite in_app_iff; cbn; auto.
    + split; [tauto|]. intros [H|[-> _]]; [exact H|]. rewrite gty_eqb_refl in E'. discriminate.
Qed.
(** Only well-placed pointers are stored, under distinct types. *)
Definition pm_keys (m : pmap) := map fst m.
Lemma pm_set_keys m t l : NoDup (pm_keys m) -> NoDup (pm_keys (pm_set m t l)) /\ (forall k, In k (pm_keys (pm_set m t l)) -> In k (pm_keys m) \/ k = t).
Proof.
  unfold pm_keys. induction m as [|[k v] m IH]; cbn [pm_set map fst]; intro H.
  - split; [constructor; [tauto | constructor]|]. cbn. intuition.
  - inversion H as [|? ? Hk Hm]; subst. destruct (gty_eqb k t) eqn:E; cbn [map fst].
    + split; [now constructor|]. cbn. tauto.
    + destruct (IH Hm) as [IH1 IH2]. split.
      * constructor; [|exact IH1]. intro X. apply IH2 in X as [X| ->]; [contradiction|]. rewrite gty_eqb_refl in E. discriminate.
      * intros k' [<- |X]; [cbn; tauto|]. apply IH2 in X as [X|X]; cbn; auto.
Qed.
Lemma pm_append_keys m t p : NoDup (pm_keys m) -> NoDup (pm_keys (pm_append m t p)).
Proof. unfold pm_append. destruct (pt_has _ _); [auto|]. intro H. now apply pm_set_keys. Qed.
Lemma pm_at_in m T l : NoDup (pm_keys m) -> In (T, l) m -> pm_at m T = l.
Proof.
  unfold pm_at, pm_keys. induction m as [|[k v] m IH]; [contradiction|]. cbn [map fst find]. intros H [E|Hin]; inversion H; subst.
  - injection E as -> ->. now rewrite gty_eqb_refl.
  - destruct (gty_eqb k T) eqn:E'; [|now apply IH]. apply gty_eqb_spec in E'. subst k. exfalso. apply H2. now apply (in_map fst) in Hin.
Qed.
Lemma pm_at_entry m T p : In p (pm_at m T) -> exists l, In (T, l) m /\ In p l.
Proof.
  unfold pm_at. destruct (find _ m) as [[k v]|] eqn:E; [|intros []]. apply find_some in E as [Hin Ek]. cbn in Ek. apply gty_eqb_spec in Ek. subst k. intro H. exists v. auto.
Qed.

(** ** Pointers as locations *)
Definition loc := (string * list string)%type.
Definition tok_ok (s : string) : bool := negb (String.eqb s "") && negb (has_char "/" s) && negb (has_char "~" s).
Definition at_loc (p : ptr) (l : loc) : Prop := import_path (fst l) /\ go_pointer (fst l) p /\ p_frag p = snd l /\ snd l <> [] /\ Forall (fun t => tok_ok t = true) (snd l).
Lemma ident_tok s : go_ident s = true -> tok_ok s = true /\ has_char "%" s = false.
Proof. unfold go_ident, tok_ok. rewrite !andb_true_iff, !negb_true_iff. tauto. Qed.
Lemma tok_plain s : tok_ok s = true -> s <> "" /\ has_char "/" s = false /\ has_char "~" s = false.
Proof. unfold tok_ok. rewrite !andb_true_iff, !negb_true_iff, String.eqb_neq. tauto. Qed.

Lemma unescape_plain s : has_char "/" s = false -> has_char "~" s = false -> unescape_token s = s.
Proof. intros H1 H2. unfold unescape_token. rewrite (replace_all_absent "~1" "/" s "~") by (reflexivity || assumption). now apply (replace_all_absent "~0" "~" s "~"). Qed.
Lemma escape_plain s : has_char "/" s = false -> has_char "~" s = false -> escape_token s = s.
Proof. intros H1 H2. unfold escape_token. rewrite (replace_all_absent "~" "~0" s "~") by (reflexivity || assumption). now apply (replace_all_absent "/" "~1" s "/"). Qed.
Lemma frag_string_plain l : Forall (fun t => tok_ok t = true) l -> frag_string l = fold_right (fun t r => "/" +++ t +++ r) "" l.
Proof. induction 1 as [|t l Ht _ IH]; [reflexivity|]. cbn [frag_string fold_right]. rewrite IH. apply tok_plain in Ht as (_ & A & B). now rewrite escape_plain. Qed.
Lemma at_loc_text p l : at_loc p l -> ptr_string p = loc_text (fst l) (snd l).
Proof. intros (Hi & Hg & <- & _ & Hf). rewrite (ptr_string_go (fst l)) by (auto using go_pointer_in). unfold loc_text. now rewrite frag_string_plain. Qed.
Lemma frag_string_slash f : Forall (fun t => tok_ok t = true) f -> String.eqb (frag_string f) "/" = false.
Proof.
  intro H. apply String.eqb_neq. destruct f as [|t f]; [discriminate|]. inversion H as [|? ? Ht _]; subst. apply tok_plain in Ht as (Nt & A & B).
  cbn [frag_string]. rewrite escape_plain by assumption. destruct t; [congruence | discriminate].
Qed.
Lemma has_prefix_slash s : has_char "/" s = false -> has_prefix "/" s = false.
Proof.
  destruct s as [|c s]; [reflexivity|]. intro H. cbn [has_char] in H. apply orb_false_iff in H as [H _]. cbn [has_prefix]. rewrite H. reflexivity.
Qed.
Lemma with_desc_loc p l name : at_loc p l -> tok_ok name = true -> exists q, with_desc p name = Ok q /\ at_loc q (fst l, snd l ++ [name]).
Proof.
  intros (Hi & Hg & Hf & Hn & Ht) Hname. pose proof (tok_plain _ Hname) as (Nn & A & B). unfold with_desc. rewrite (go_clone (fst l)) by assumption. cbn [bind].
  unfold descendant. rewrite has_prefix_slash by exact A. cbn [append]. change ("/" +++ name) with (String "/" name). cbn [parse_fragment]. change (Ascii.eqb "/" "/") with true. cbn iota.
  rewrite split_char_none by exact A. cbn [map bind]. rewrite unescape_plain by assumption. rewrite Hf, frag_string_slash by exact Ht.
  eexists. split; [reflexivity|]. unfold at_loc. cbn [fst snd p_frag p_url]. split; [exact Hi|]. split.
  - destruct Hg as (f & p0 & H0 & E0). exists f, p0. split; [exact H0 | exact E0].
  - split; [reflexivity|]. split; [destruct (snd l); discriminate|]. apply Forall_app. split; [exact Ht | now constructor].
Qed.
Lemma new_point_loc pk name : import_path pk -> go_ident name = true -> exists q, new_point (Some pk) name = Ok q /\ at_loc q (pk, [name]).
Proof.
  intros Hi Hn. apply ident_tok in Hn as [Ht Hp]. pose proof (tok_plain _ Ht) as (Nn & A & B). unfold new_point. destruct (go_new pk name Hi Hp) as (p & -> & Hg & _ & Hf).
  exists p. split; [reflexivity|]. rewrite split_char_none in Hf by exact A. cbn [map] in Hf. rewrite unescape_plain in Hf by assumption.
  unfold at_loc. cbn [fst snd]. split; [exact Hi|]. split; [exact Hg|]. split; [exact Hf|]. split; [discriminate | now constructor].
Qed.
