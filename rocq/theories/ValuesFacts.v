(** Struct values built by assignments, and what is written for them. *)
From Coq Require Import String List Bool Lia.
From Verif Require Import GoStr Json JsonFacts MergeFacts Shape Spec_Shape ShapeFacts ShapeApi SpecValues.
Import ListNotations.
Local Open Scope string_scope.
Local Open Scope list_scope.

Lemma given_ext t fs gs : (forall f, In f (fields t) -> fs (f_name f) = gs (f_name f)) -> given_by t fs = given_by t gs.
Proof. intro H. unfold given_by. f_equal. apply map_ext_in. intros f I. now rewrite (H f I). Qed.
Lemma set_given t fs k v : set_member k v (given_by t fs) = given_by t (fun n => if String.eqb n k then v else fs n).
Proof.
  unfold set_member, given_by. f_equal. rewrite map_map. apply map_ext. intro f. cbn [fst snd].
  destruct (String.eqb_spec (f_name f) k) as [->|]; reflexivity.
Qed.
Lemma zero_given t : exists fs, zero_struct t = given_by t fs /\ forall f, In f (fields t) -> fs (f_name f) = zero_of (f_shape f).
Proof.
  exists (fun n => match find (fun f => String.eqb (f_name f) n) (fields t) with Some f => zero_of (f_shape f) | None => GNil end).
  assert (H : forall f, In f (fields t) -> match find (fun g => String.eqb (f_name g) (f_name f)) (fields t) with Some g => zero_of (f_shape g) | None => GNil end = zero_of (f_shape f)).
  { intros f I. now rewrite find_name. }
  split; [|exact H]. unfold zero_struct, given_by. f_equal. apply map_ext_in. intros f I. now rewrite (H f I).
Qed.

Lemma given_nodup t fs : NoDup (map fst (map (fun f => (f_name f, fs (f_name f) : gval)) (fields t))).
Proof. rewrite map_map. exact (fields_nodup' t). Qed.
Lemma given_oget t fs k : oget k (map (fun f => (f_name f, fs (f_name f) : gval)) (fields t)) =
  match find (fun f => String.eqb (f_name f) k) (fields t) with Some f => Some (fs k) | None => None end.
Proof.
  induction (fields t) as [|f l IH]; [reflexivity|]. cbn [map oget find]. rewrite String.eqb_sym.
  destruct (String.eqb_spec (f_name f) k) as [->|]; [reflexivity | exact IH].
Qed.

(** Writing succeeds when every field can be written, and writes each. *)
Lemma given_writes t fs : (forall f, In f (fields t) -> exists j, encode (fs (f_name f)) = Ok j) ->
  exists m, encode (given_by t fs) = Ok (JObj m).
Proof.
  intro H. unfold given_by. rewrite enc_struct.
  destruct (emit_total t (map (fun f => (f_name f, fs (f_name f))) (fields t))) as (js & E); [|rewrite E; cbn; eauto].
  intros k v I. apply in_map_iff in I as (f & Ef & If). injection Ef as <- <-. exact (H f If).
Qed.
Lemma given_member t fs m : encode (given_by t fs) = Ok (JObj m) -> forall f, In f (fields t) ->
  if f_omit f && is_empty (fs (f_name f)) then oget (f_name f) m = None
  else exists j, encode (fs (f_name f)) = Ok j /\ oget (f_name f) m = Some j.
Proof.
  unfold given_by. rewrite enc_struct. intros H f I. apply bind_ok in H as (js & E & H). injection H as <-.
  pose proof (emit_get t _ js E (given_nodup t fs) (f_name f)) as G. rewrite given_oget, (find_name t f I), (omitted_spec t f _ I) in G.
  now rewrite !oget_obj_of.
Qed.
Lemma given_others t fs m k : encode (given_by t fs) = Ok (JObj m) -> ~ In k (map f_name (fields t)) -> oget k m = None.
Proof.
  unfold given_by. rewrite enc_struct. intros H N. apply bind_ok in H as (js & E & H). injection H as <-.
  pose proof (emit_get t _ js E (given_nodup t fs) k) as G. rewrite given_oget in G. rewrite oget_obj_of.
  destruct (find (fun f => String.eqb (f_name f) k) (fields t)) as [f|] eqn:F; [|exact G].
  apply find_some in F as [I Ef]. apply String.eqb_eq in Ef. exfalso. apply N. rewrite <- Ef. now apply in_map.
Qed.
Lemma given_obj t fs j : encode (given_by t fs) = Ok j -> exists m, j = JObj m.
Proof. unfold given_by. rewrite enc_struct. intro H. apply bind_ok in H as (js & _ & H). injection H as <-. eauto. Qed.
Lemma given_sorted t fs m : encode (given_by t fs) = Ok (JObj m) -> sorted m.
Proof. unfold given_by. rewrite enc_struct. intro H. apply bind_ok in H as (js & _ & H). injection H as <-. apply obj_of_sorted. Qed.
Lemma member_given t fs k : In k (map f_name (fields t)) -> member (given_by t fs) k = fs k.
Proof.
  intro I. unfold member, given_by. rewrite given_oget. apply in_map_iff in I as (f & <- & If). now rewrite (find_name t f If).
Qed.
