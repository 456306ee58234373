(** C106: reading what was written and writing it again changes nothing. *)
From Coq Require Import String Ascii List Bool Arith ZArith Lia.
From Verif Require Import GoStr Json JsonFacts Gabs Container Spec_Clone CloneFacts Url Pointer SchemaJson Spec_Loc LocFacts Spec_Format Shape Spec_Shape ShapeFacts ShapeApi Spec_Again ShapeAgain P_Shape.
Import ListNotations.
Local Open Scope string_scope.
Local Open Scope nat_scope.
Local Open Scope list_scope.

(** What was written can be read, and is then written again as it is, if its
    references, integers and links allow it. *)
Theorem C106_again : forall raw big, reads_back big -> forall s j v y, unambiguous s j -> decode raw big j s = Ok v -> encode v = Ok y ->
  settled big s y -> exists v', decode raw big y s = Ok v' /\ encode v' = Ok y.
Proof. intros raw big Hb s j v y U D E St. exact (again raw big Hb j s v y U D E St). Qed.

(** An integer that can be read at all is written as a number that is written the same again. *)
Theorem C106_integers : forall raw big, reads_back big -> forall n v y v', decode raw big (JNum n) SInt = Ok v -> encode v = Ok y ->
  decode raw big y SInt = Ok v' -> encode v' = Ok y.
Proof.
  intros raw big Hb n v y v' D E D'. cbn in D. destruct (int_of big n) as [z|]; [|discriminate]. injection D as <-. cbn in E. injection E as <-.
  cbn in D'. destruct (int_of big (to_float z)) as [z'|] eqn:Ez; [|discriminate]. injection D' as <-. cbn.
  destruct (float_again big z Hb) as (z2 & Ez2 & Ef); [apply whole_iff; eauto|]. assert (z2 = z') as <- by congruence. now rewrite Ef.
Qed.

(** ** Checking the hypotheses of examples *)
Section Everywhere.
Context (P : shape -> json -> bool) (Praw : forall j, P SAny j = true).
Fixpoint evb (j : json) (s : shape) : bool :=
  P s j &&
  match j with
  | JArr l => match s with SList s' => forallb (fun x => evb x s') l | _ => true end
  | JObj m =>
      match s with
      | SPtr t | SVal t => forallb (fun kv => forallb (fun ns => negb (String.eqb (to_lower (fst kv)) (to_lower (fst ns))) || evb (snd kv) (snd ns)) (known t)) m
      | SMap s' => forallb (fun kv => evb (snd kv) s') m
      | SCallback => forallb (fun kv => (negb (String.eqb (to_lower (fst kv)) "$ref") || evb (snd kv) SRef) && evb (snd kv) (SPtr TPathItem)) m
      | _ => true
      end
  | _ => true
  end.
Lemma evb_here j s : evb j s = true -> P s j = true.
Proof. destruct j; cbn [evb]; intro H; apply andb_true_iff in H; apply H. Qed.
Lemma evb_finds s j q s' x : finds s j q s' x -> evb j s = true -> P s' x = true.
Proof.
  induction 1 as [s j|t m k k0 s x q s' y Kn I Sn Fd IH|t m k k0 s x q s' y Kn I Sn Fd IH|s m k x q s' y I Fd IH|s l i x q s' y I Fd IH|j a q y L|j a q y L|m k0 x I Sn Nn|m k x q s' y R I Fd IH]; intro U.
  - now apply evb_here.
  - apply IH. cbn [evb] in U. apply andb_true_iff in U as [_ U]. rewrite forallb_forall in U. specialize (U _ I). rewrite forallb_forall in U. specialize (U _ Kn). cbn [fst snd] in U. rewrite Sn, String.eqb_refl in U. exact U.
  - apply IH. cbn [evb] in U. apply andb_true_iff in U as [_ U]. rewrite forallb_forall in U. specialize (U _ I). rewrite forallb_forall in U. specialize (U _ Kn). cbn [fst snd] in U. rewrite Sn, String.eqb_refl in U. exact U.
  - apply IH. cbn [evb] in U. apply andb_true_iff in U as [_ U]. rewrite forallb_forall in U. exact (U _ I).
  - apply IH. cbn [evb] in U. apply andb_true_iff in U as [_ U]. rewrite forallb_forall in U. exact (U _ (nth_error_In _ _ I)).
  - apply Praw.
  - apply Praw.
  - cbn [evb] in U. apply andb_true_iff in U as [_ U]. rewrite forallb_forall in U. specialize (U _ I). cbn [fst snd] in U. rewrite Sn in U. apply andb_true_iff in U as [U _]. exact (evb_here _ _ U).
  - apply IH. cbn [evb] in U. apply andb_true_iff in U as [_ U]. rewrite forallb_forall in U. specialize (U _ I). now apply andb_true_iff in U as [_ U].
Qed.
End Everywhere.
Definition is_null_body (kv : string * json) : bool := String.eqb (fst kv) "requestBody" && match snd kv with JNull => true | _ => false end.
Definition calm (big : Z -> option Z) (s : shape) (j : json) : bool :=
  match s, j with
  | SRef, JStr t => match ptr_parse t with Ok p => String.eqb (ptr_string p) t | _ => false end
  | SInt, JNum n => match int_of big n with Some _ => true | None => false end
  | SPtr TLink, JObj m | SVal TLink, JObj m => negb (existsb is_null_body m)
  | _, _ => true
  end.
Lemma settled_ok big s j : evb (calm big) j s = true -> settled big s j.
Proof.
  intro H. assert (G : forall q s' x, finds s j q s' x -> calm big s' x = true) by (intros q s' x F; exact (evb_finds (calm big) (fun j => match j with JNull => eq_refl | _ => eq_refl end) _ _ _ _ _ F H)).
  assert (B : forall m, negb (existsb is_null_body m) = true -> ~ In ("requestBody", JNull) m).
  { intros m Hm I. apply negb_true_iff in Hm. rewrite <- not_true_iff_false in Hm. apply Hm. apply existsb_exists. exists ("requestBody", JNull). auto. }
  split.
  - intros q t F. apply G in F. cbn in F. destruct (ptr_parse t) as [p| | |] eqn:E; try discriminate. apply String.eqb_eq in F. eauto.
  - intros q n F. apply G in F. cbn in F. destruct (int_of big n) as [z|] eqn:E; [|discriminate]. apply whole_iff. eauto.
  - intros q m [F|F]; apply G in F; exact (B m F).
Qed.

(** ** The configuration of C89, with a link, whose written form differs from it *)
Definition a_config : json := JObj
  [("Dir", JStr "api"); ("info", JObj [("title", JStr "T"); ("x-logo", JStr "l")]);
   ("components", JObj [("schemas", JObj [("Pet", s_schema); ("pet", JObj [("$ref", JStr "go://ex.org/a#/P")])]);
                        ("links", JObj [("l", JObj [("operationId", JStr "o"); ("requestBody", JStr "$request.body"); ("parameters", JObj [("id", JNull)])])]);
                        ("callbacks", JObj [("cb", JObj [("/p", JObj [("get", JObj [("deprecated", JBool true)])])]); ("cr", JObj [("$ref", JStr "#/components/callbacks/cb")])])]);
   ("overrides", JObj [("go://ex.org/a#/P", JObj [("type", JStr "string")]); ("go://ex.org/a#/Q", JNull)])].
Definition a_out : json := match decode raw0 exact_big a_config (SVal TConfig) with Ok v => match encode v with Ok j => j | _ => JNull end | _ => JNull end.
Example C106_example :
  unambiguous (SVal TConfig) a_config /\ settled exact_big (SVal TConfig) a_out /\
  (exists v, decode raw0 exact_big a_config (SVal TConfig) = Ok v /\ encode v = Ok a_out) /\
  a_out <> a_config /\ lookup [SKey "components"; SKey "links"; SKey "l"; SKey "parameters"; SKey "id"] a_out = Some JNull /\
  exists v', decode raw0 exact_big a_out (SVal TConfig) = Ok v' /\ encode v' = Ok a_out.
Proof.
  assert (U : unambiguous (SVal TConfig) a_config) by (apply unb_ok; vm_compute; reflexivity).
  assert (St : settled exact_big (SVal TConfig) a_out) by (apply settled_ok; vm_compute; reflexivity).
  assert (D : exists v, decode raw0 exact_big a_config (SVal TConfig) = Ok v /\ encode v = Ok a_out) by (eexists; split; [vm_compute; reflexivity | vm_compute; reflexivity]).
  refine (conj U (conj St (conj D (conj _ (conj _ _))))).
  - intro E. vm_compute in E. discriminate.
  - vm_compute. reflexivity.
  - destruct D as (v & D & E). exact (C106_again raw0 exact_big exact_big_ok _ _ v _ U D E St).
Qed.

(** ** Where it is not so *)
(** An empty expression is written as null, which is then dropped. *)
Theorem C106_empty_expression_refuted :
  let j := JObj [("operationId", JStr "o"); ("requestBody", JStr "")] in
  let y := JObj [("operationId", JStr "o"); ("requestBody", JNull)] in
  let z := JObj [("operationId", JStr "o")] in
  (exists v, decode raw0 exact_big j (SPtr TLink) = Ok v /\ encode v = Ok y) /\ (exists v, decode raw0 exact_big y (SPtr TLink) = Ok v /\ encode v = Ok z).
Proof. cbv zeta. split; eexists; (split; [vm_compute; reflexivity | vm_compute; reflexivity]). Qed.
(** The largest int64 is written as 2^63, which is none. *)
Theorem C106_largest_integer_refuted :
  exists v y, decode raw0 exact_big (JObj [("maxLength", JNum (NInt (2 ^ 63 - 1)))]) (SPtr TSchema) = Ok v /\ encode v = Ok y /\ decode raw0 exact_big y (SPtr TSchema) = Err.
Proof. eexists _, _. split; [vm_compute; reflexivity|]. split; [vm_compute; reflexivity|]. vm_compute. reflexivity. Qed.

Print Assumptions C106_again.
Print Assumptions C106_integers.
Print Assumptions C106_empty_expression_refuted.
Print Assumptions C106_largest_integer_refuted.
