(** Lemmas about gabs search / set / flatten. *)
From Coq Require Import String Ascii List Bool Arith ZArith Lia Permutation.
From Verif Require Import GoStr GoStrFacts Json JsonFacts Gabs.
Import ListNotations.
Local Open Scope string_scope.
Local Open Scope nat_scope.
Local Open Scope list_scope.

(** Lookup through objects only. *)
Fixpoint kget (p : list string) (j : json) : option json :=
  match p with
  | [] => Some j
  | s :: p' => match j with
               | JObj m => match oget s m with Some v => kget p' v | None => None end
               | _ => None
               end
  end.

(** Update through objects only (defined where kget is). *)
Fixpoint kput (p : list string) (v : json) (j : json) : json :=
  match p with
  | [] => v
  | s :: p' => match j with
               | JObj m => match oget s m with
                           | Some c => JObj (oset s (kput p' v c) m)
                           | None => j
                           end
               | _ => j
               end
  end.

Lemma kget_app p q j : kget (p ++ q) j = match kget p j with Some x => kget q x | None => None end.
Proof.
  revert j; induction p as [|s p IH]; intro j; cbn; [reflexivity|].
  destruct j; try reflexivity. destruct (oget s m); [apply IH | reflexivity].
Qed.

Lemma kget_search p j x : kget p j = Some x -> search p j = Some x.
Proof.
  revert j; induction p as [|s p IH]; intro j; cbn; [auto|].
  destruct j; try discriminate. destruct (oget s m); [apply IH | discriminate].
Qed.

Lemma kget_wf p j x : wf j -> kget p j = Some x -> wf x.
Proof.
  revert j; induction p as [|s p IH]; intros j Hw; cbn; [now intros [= <-]|].
  destruct j; try discriminate. destruct (oget s m) eqn:E; [|discriminate].
  apply IH. eapply wf_oget; eassumption.
Qed.

Lemma kput_wf p v j : wf j -> wf v -> wf (kput p v j).
Proof.
  revert j; induction p as [|s p IH]; intros j Hw Hv; cbn; [auto|].
  destruct j; try assumption. destruct (oget s m) eqn:E; [|assumption].
  apply wf_oset; [exact Hw|]. apply IH; [eapply wf_oget; eassumption | exact Hv].
Qed.

Lemma kget_kput p v j x : kget p j = Some x -> kget p (kput p v j) = Some v.
Proof.
  revert j; induction p as [|s p IH]; intro j; cbn; [auto|].
  destruct j; try discriminate. destruct (oget s m) eqn:E; [|discriminate].
  intro H. cbn. rewrite oget_oset_same. eapply IH, H.
Qed.

Lemma kput_kput p v w j x : wf j -> kget p j = Some x -> kput p v (kput p w j) = kput p v j.
Proof.
  revert j; induction p as [|s p IH]; intros j Hw; cbn; [auto|].
  destruct j; try discriminate. destruct (oget s m) eqn:E; [|discriminate].
  intro H. cbn. rewrite oget_oset_same. f_equal.
  rewrite oset_oset by (eapply wf_sorted, Hw). rewrite IH; [reflexivity | eapply wf_oget; eassumption | exact H].
Qed.

Lemma kput_same p j x : wf j -> kget p j = Some x -> kput p x j = j.
Proof.
  revert j; induction p as [|s p IH]; intros j Hw; cbn; [now intros [= <-]|].
  destruct j; try discriminate. destruct (oget s m) eqn:E; [|discriminate].
  intro H. rewrite IH; [| eapply wf_oget; eassumption | exact H].
  now rewrite (oset_same s j m (wf_sorted _ Hw) E).
Qed.

Lemma kput_app p q v j x : kget p j = Some x -> kput (p ++ q) v j = kput p (kput q v x) j.
Proof.
  revert j; induction p as [|s p IH]; intros j; cbn; [now intros [= <-]|].
  destruct j; try discriminate. destruct (oget s m) eqn:E; [|discriminate].
  intro H. now rewrite IH.
Qed.

(** Search and Set one key below an object reached through objects. *)
Lemma search_snoc p k j d : kget p j = Some (JObj d) -> search (p ++ [k]) j = oget k d.
Proof.
  revert j; induction p as [|s p IH]; intro j; cbn.
  - intros [= ->]. now destruct (oget k d).
  - destruct j; try discriminate. destruct (oget s m); [apply IH | discriminate].
Qed.

Lemma gset_snoc top p k v j d : kget p j = Some (JObj d) ->
  gset top v (p ++ [k]) j = Ok (kput p (JObj (oset k v d)) j).
Proof.
  revert top j; induction p as [|s p IH]; intros top j; cbn.
  - intros [= ->]. reflexivity.
  - destruct j; try discriminate. destruct (oget s m) as [c|] eqn:E; [|discriminate].
    intro H. assert (c <> JNull) as Hc.
    { intros ->. destruct p; cbn in H; discriminate. }
    assert (match c with JNull => JObj [] | _ => c end = c) as -> by (destruct c; congruence).
    now rewrite (IH false c H).
Qed.
