(** C93: Resolve succeeds when nothing is wrong. *)
From Coq Require Import String Ascii List Bool Arith Lia Permutation.
From Verif Require Import Route GoStr Json JsonFacts Gabs Container Spec_Loc LocFacts Url Pointer Spec_Clone Spec_Resolve Resolver PathsFacts ResolverFrame ResolverTerm ScanEnds Spec_ResolveOk ResolverOk P_Resolver P_At P_Adds.
Import ListNotations.
Local Open Scope string_scope.
Local Open Scope nat_scope.
Local Open Scope list_scope.

(** If the document and every entity asked for is in order, no reference of the
    document is at, above or below the place of an exported entity, nothing is in
    the way of these places, and only finitely many entities are asked for, then
    Resolve returns a document, in whatever order references are met. *)
Theorem C93_resolve_succeeds : forall ord es fn doc U, (forall pos l, Permutation (ord pos l) l) ->
  Forall (fun e => good_name (e_name e)) es -> resolvable doc ->
  (forall p, asked doc fn p -> (exists x, fn p = Ok x /\ resolvable x) /\ In (ptr_string p) U) ->
  (forall e, In e es -> open_section (kind_key (e_kind e)) doc /\ forall q t p, ext_ref doc q t p -> Spec_Loc.apart (comp_loc (kind_key (e_kind e)) (e_name e)) q) ->
  forall fuel, length U < fuel -> exists r, resolve ord es fn fuel (Some doc) = Ok (Some r).
Proof.
  intros ord es fn doc U Ho Hg Hd Ha He fuel Hf.
  assert (T : ok_or_err (resolve ord es fn fuel (Some doc))).
  { apply (resolve_ends ord es fn U (asked doc fn) Ho); [intros p A; apply (Ha p A) | | | exact (proj1 (proj1 (proj2 (proj2 Hd)))) | | exact Hf].
    - intros p A. destruct (proj1 (Ha p A)) as (x & -> & _). exact Logic.I.
    - intros p x A Ex. destruct (proj1 (Ha p A)) as (x' & Ex' & Rx). assert (x' = x) by congruence. subst x'. split; [exact (proj1 (proj1 (proj2 (proj2 Rx))))|].
      intros p' M. destruct (plain_mentions x p' (proj1 (proj2 (proj1 (proj2 (proj2 Rx))))) M) as (q & t & X). exact (asked_by_entity doc fn p x q t p' A Ex X).
    - intros p M. destruct (plain_mentions doc p (proj1 (proj2 (proj1 (proj2 (proj2 Hd))))) M) as (q & t & X). exact (asked_by_doc doc fn q t p X). }
  assert (N : no_err (resolve ord es fn fuel (Some doc)) (fun c => c <> None)).
  { apply (resolve_no_err ord es fn fuel doc Ho Hg (asked doc fn)); [| exact Hd | | intros e Ie; exact (proj1 (He e Ie))].
    - intros p A. destruct (proj1 (Ha p A)) as (x & Ex & Rx). rewrite Ex. split; [exact Rx|]. intros q t p' X. exact (asked_by_entity doc fn p x q t p' A Ex X).
    - intros q t p X. split; [exact (asked_by_doc doc fn q t p X)|]. intros e Ie. exact (proj2 (He e Ie) q t p X). }
  destruct (resolve ord es fn fuel (Some doc)) as [[r|]| | |]; try destruct T; [eauto | cbn in N; congruence | destruct N].
Qed.
Print Assumptions C93_resolve_succeeds.

(** *** Example: A {b: B}, B {a: A}, A exported, a document that uses both. *)
Lemma parse_A : ptr_parse "go://p#/A" = Ok (ex_ptr "go://p#/A"). Proof. reflexivity. Qed.
Lemma ex_parse j : (forall q t, In (q, t) (refs_of j) -> t = "go://p#/A" \/ t = "go://p#/B" \/ t = "#/x") -> references_parse j.
Proof. intros H q t L. destruct (H q t (refs_of_all q j t L)) as [-> | [-> | ->]]; eexists; vm_compute; reflexivity. Qed.
Lemma ex_A_resolvable : resolvable ex_A.
Proof.
  refine (conj _ (conj _ (conj ex_A_tidy (conj lonely_A _)))); [left; eexists; reflexivity | intros [] | apply ex_parse].
  intros q t I. vm_compute in I. destruct I as [[= <- <-]|[]]. auto.
Qed.
Lemma ex_B_resolvable : resolvable ex_B.
Proof.
  refine (conj _ (conj _ (conj ex_B_tidy (conj lonely_B _)))); [left; eexists; reflexivity | intros [] | apply ex_parse].
  intros q t I. vm_compute in I. destruct I as [[= <- <-]|[]]. auto.
Qed.
Lemma ex_doc_resolvable : resolvable ex_doc.
Proof.
  refine (conj _ (conj _ (conj ex_doc_tidy (conj ex_doc_lonely _)))); [left; eexists; reflexivity | intros [] | apply ex_parse].
  intros q t I. vm_compute in I. destruct I as [[= <- <-]|[[= <- <-]|[[= <- <-]|[]]]]; auto.
Qed.
Lemma ex_refs j q t p : In j [ex_A; ex_B; ex_doc] -> ext_ref j q t p -> ptr_string p = "go://p#/A" \/ ptr_string p = "go://p#/B".
Proof.
  intros I (L & P & X). apply refs_of_all in L.
  destruct I as [<-|[<-|[<-|[]]]]; vm_compute in L; repeat (destruct L as [[= <- <-]|L]; [vm_compute in P; injection P as <-; try discriminate X; vm_compute; auto|]); destruct L.
Qed.
Lemma ex_asked p : asked ex_doc ex_fn p -> ptr_string p = "go://p#/A" \/ ptr_string p = "go://p#/B".
Proof.
  induction 1 as [q t p X|p x q t p' A IH E X]; [apply (ex_refs ex_doc q t p); [right; right; now left | exact X]|].
  apply (ex_refs x q t p'); [|exact X]. destruct (ex_fn_cases p x E) as [-> | ->]; [now left | right; now left].
Qed.
Example C93_ex : Forall (fun e => good_name (e_name e)) ex_es /\ resolvable ex_doc /\
  (forall p, asked ex_doc ex_fn p -> (exists x, ex_fn p = Ok x /\ resolvable x) /\ In (ptr_string p) ["go://p#/A"; "go://p#/B"]) /\
  (forall e, In e ex_es -> open_section (kind_key (e_kind e)) ex_doc /\ forall q t p, ext_ref ex_doc q t p -> Spec_Loc.apart (comp_loc (kind_key (e_kind e)) (e_name e)) q) /\
  (exists p, asked ex_doc ex_fn p /\ ptr_string p = "go://p#/B") /\
  (exists r, resolve rev_ord ex_es ex_fn 3 (Some ex_doc) = Ok (Some r)) /\ exists r, resolve id_ord ex_es ex_fn 3 (Some ex_doc) = Ok (Some r).
Proof.
  assert (G : Forall (fun e => good_name (e_name e)) ex_es) by (repeat constructor; discriminate).
  assert (A : forall p, asked ex_doc ex_fn p -> (exists x, ex_fn p = Ok x /\ resolvable x) /\ In (ptr_string p) ["go://p#/A"; "go://p#/B"]).
  { intros p H. unfold ex_fn. destruct (ex_asked p H) as [-> | ->]; (split; [|cbn; auto]); eexists; (split; [reflexivity|]); [exact ex_A_resolvable | exact ex_B_resolvable]. }
  assert (O : forall e, In e ex_es -> open_section (kind_key (e_kind e)) ex_doc /\ forall q t p, ext_ref ex_doc q t p -> Spec_Loc.apart (comp_loc (kind_key (e_kind e)) (e_name e)) q).
  { intros e [<-|[]]. split; [vm_compute; auto|]. intros q t p (L & _). apply refs_of_all in L. vm_compute in L.
    repeat (destruct L as [[= <- <-]|L]; [split; intros (r & E); discriminate E|]). destruct L. }
  refine (conj G (conj ex_doc_resolvable (conj A (conj O (conj _ (conj _ _)))))).
  - exists (ex_ptr "go://p#/B"). split; [|reflexivity]. apply (asked_by_doc _ _ [SKey "y"; SIdx 0] "go://p#/B"). repeat split.
  - apply (C93_resolve_succeeds rev_ord ex_es ex_fn ex_doc ["go://p#/A"; "go://p#/B"] rev_perm G ex_doc_resolvable A O). cbn. lia.
  - apply (C93_resolve_succeeds id_ord ex_es ex_fn ex_doc ["go://p#/A"; "go://p#/B"] id_perm G ex_doc_resolvable A O). cbn. lia.
Qed.
(** Each condition matters: a reference that is no pointer, an entity that is a
    string, an array where the components go, a number no JSON text stands for. *)
Example C93_conditions :
  resolve id_ord [] ex_fn 9 (Some (JObj [("x", rf "%zz")])) = Err /\
  resolve id_ord [] (fun _ => Err) 9 (Some ex_doc) = Err /\
  resolve id_ord ex_es ex_fn 9 (Some (JObj [("components", JArr []); ("x", rf "go://p#/A")])) = Err /\
  resolve id_ord ex_es ex_fn 9 (Some (JObj [("components", JObj [("schemas", JStr "")]); ("x", rf "go://p#/A")])) = Err /\
  resolve id_ord [] ex_fn 9 (Some (JObj [("n", JNum NBad)])) = Err.
Proof. repeat split; vm_compute; reflexivity. Qed.
