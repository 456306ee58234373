(** Property C59: the text of the error of a failed walk. *)
From Coq Require Import String Ascii List Bool Arith Lia.
From Verif Require Import GoStr GoStrFacts Cmds CmdFacts PkgErr.
Import ListNotations.
Local Open Scope string_scope.
Local Open Scope nat_scope.
Local Open Scope list_scope.

Lemma map_inj_in {A B} (f : A -> B) : (forall x y, f x = f y -> x = y) -> forall a b, map f a = map f b -> a = b.
Proof. intros H. induction a as [|x a IH]; intros [|y b] E; try discriminate; [reflexivity|]. cbn in E. injection E as E1 E2. rewrite (H _ _ E1), (IH _ E2). reflexivity. Qed.
Lemma item_nolines m : has_char (ascii_of_nat 10) m = false -> has_char (ascii_of_nat 10) (String (ascii_of_nat 9) ("- " +++ m)) = false.
Proof. intro H. cbn. exact H. Qed.
Lemma single_split a : a <> [] -> Forall (fun m => has_char (ascii_of_nat 10) m = false) a ->
  split_char (ascii_of_nat 10) (single_error a) = "failed to scan: " :: map (fun m => String (ascii_of_nat 9) ("- " +++ m)) a.
Proof.
  intros N F. unfold single_error. rewrite (split_char_app_sep (ascii_of_nat 10)) by reflexivity. f_equal. apply split_join.
  - destruct a; [contradiction | discriminate].
  - apply Forall_map. eapply Forall_impl; [|exact F]. intros m H. now apply item_nolines.
Qed.

(** The message is one line for the failure and one for each error, in the order
    the errors were collected, when the errors have one line each ... *)
Theorem C59_message : forall errs, errs <> [] -> Forall (fun m => has_char (ascii_of_nat 10) m = false) errs ->
  split_char (ascii_of_nat 10) (single_error errs) = "failed to scan: " :: map (fun m => String (ascii_of_nat 9) ("- " +++ m)) errs.
Proof. exact single_split. Qed.
Print Assumptions C59_message.
(** ... so that it tells which they were. *)
Theorem C59_message_tells : forall a b, a <> [] -> b <> [] ->
  Forall (fun m => has_char (ascii_of_nat 10) m = false) a -> Forall (fun m => has_char (ascii_of_nat 10) m = false) b ->
  single_error a = single_error b -> a = b.
Proof.
  intros a b Na Nb Fa Fb E. pose proof (single_split a Na Fa) as Sa. pose proof (single_split b Nb Fb) as Sb. rewrite E, Sb in Sa.
  injection Sa as Sa. symmetry. apply (map_inj_in (fun m => String (ascii_of_nat 9) ("- " +++ m))); [|exact Sa].
  intros x y Q. cbn in Q. now injection Q.
Qed.
Print Assumptions C59_message_tells.
(** Whatever the errors, each of them is in the message as it is. *)
Theorem C59_message_all : forall errs m, In m errs -> exists a b, single_error errs = a +++ m +++ b.
Proof.
  intros errs m H. unfold single_error.
  assert (G : exists a b, join (str1 (ascii_of_nat 10)) (map (fun m => String (ascii_of_nat 9) ("- " +++ m)) errs) = a +++ m +++ b).
  { induction errs as [|e errs IH]; [contradiction|]. cbn [map]. destruct errs as [|e' errs].
    - destruct H as [->|[]]. exists (String (ascii_of_nat 9) "- "), "". cbn. now rewrite app_nil_r_s.
    - set (R := join _ (map _ (e' :: errs))) in *.
      assert (J : join (str1 (ascii_of_nat 10)) (String (ascii_of_nat 9) ("- " +++ e) :: map (fun m => String (ascii_of_nat 9) ("- " +++ m)) (e' :: errs)) =
        String (ascii_of_nat 9) ("- " +++ e) +++ str1 (ascii_of_nat 10) +++ R) by reflexivity.
      rewrite J. destruct H as [->|H].
      + exists (String (ascii_of_nat 9) "- "), (str1 (ascii_of_nat 10) +++ R). reflexivity.
      + destruct (IH H) as (a & b & E). rewrite E. exists (String (ascii_of_nat 9) ("- " +++ e) +++ str1 (ascii_of_nat 10) +++ a), b. now rewrite !app_assoc_s. }
  destruct G as (a & b & ->). exists ("failed to scan: " +++ String (ascii_of_nat 10) a), b. reflexivity.
Qed.
Print Assumptions C59_message_all.
(** The condition of C59_message_tells is needed: an error of two lines. *)
Theorem C59_message_refuted : exists a b, a <> b /\ a <> [] /\ b <> [] /\ single_error a = single_error b.
Proof.
  exists ["x"; "y"], ["x" +++ String (ascii_of_nat 10) (String (ascii_of_nat 9) "- y")]. repeat split; discriminate.
Qed.
Print Assumptions C59_message_refuted.

Example C59_message_ex : single_error [load_text "a.go:1: expected 'package'"; "unknown command"] =
  "failed to scan: 
	- failed to parse pkg: a.go:1: expected 'package'
	- unknown command".
Proof. reflexivity. Qed.
