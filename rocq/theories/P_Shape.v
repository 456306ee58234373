(** C89: what the configuration's structs accept, keep, drop and add. *)
From Coq Require Import String Ascii List Bool Arith ZArith Lia.
From Verif Require Import GoStr Json JsonFacts Gabs Container Spec_Clone CloneFacts Url Pointer SchemaJson Spec_Loc LocFacts Spec_Format P_Format Shape Spec_Shape ShapeFacts ShapeApi.
Import ListNotations.
Local Open Scope string_scope.
Local Open Scope nat_scope.
Local Open Scope list_scope.

Section Shape.
Context (raw : json -> string) (big : Z -> option Z).

(** A document is accepted exactly when each of its values is of its kind (or null). *)
Theorem C89_accepts : forall s j, unambiguous s j -> (exists v, decode raw big j s = Ok v) <-> fits raw (int64_number big) s j.
Proof. intros s j U. exact (accepts raw big j s U). Qed.

(** What was accepted can be written, if its references can. *)
Theorem C89_writes : forall s j v, unambiguous s j -> decode raw big j s = Ok v -> writable raw s j -> exists j', encode v = Ok j'.
Proof. intros s j v. exact (encodes raw big j s v). Qed.

(** Every value of a known member that omitempty does not drop is written, where it was. *)
Theorem C89_kept : reads_back big -> forall s j v j' q s' x, unambiguous s j -> decode raw big j s = Ok v -> encode v = Ok j' ->
  finds s j q s' x -> says s' x -> exists y, lookup q j' = Some y /\ shows s' x y.
Proof. intros Hb s j v j' q s' x U D E Fd Sy. exact (kept raw big Hb s j q s' x Fd v j' U D E Sy). Qed.

(** Nothing else is written, except the members that are always written. *)
Theorem C89_nothing_invented : reads_back big -> forall s j v j' q y, unambiguous s j -> decode raw big j s = Ok v -> encode v = Ok j' ->
  lookup q j' = Some y -> (exists s' x, finds s j q s' x /\ shows s' x y) \/ added s j q y.
Proof. intros Hb s j v j' q y. exact (written raw big Hb j s v j' q y). Qed.

(** A reference that is read is written, so it must be one that can be. *)
Theorem C89_references : reads_back big -> forall s j v j' q t, unambiguous s j -> decode raw big j s = Ok v -> encode v = Ok j' ->
  finds s j q SRef (JStr t) -> exists p, ptr_parse t = Ok p /\ plain_key (ptr_string p) /\ lookup q j' = Some (JStr (ptr_string p)).
Proof.
  intros Hb s j v j' q t U D E Fd. destruct (kept raw big Hb s j q SRef (JStr t) Fd v j' U D E) as (y & L & p & Ep & Pl & ->); [discriminate|]. eauto.
Qed.

(** Members of other names are dropped. *)
Theorem C89_unknown_dropped : reads_back big -> forall s j v j' t q m k, unambiguous s j -> decode raw big j s = Ok v -> encode v = Ok j' ->
  finds s j q (SPtr t) (JObj m) \/ finds s j q (SVal t) (JObj m) -> ~ In k (map fst (known t)) -> lookup (q ++ [SKey k]) j' = None.
Proof. intros Hb s j v j' t q m k. exact (dropped raw big Hb s j v j' t q m k). Qed.
End Shape.

(** ** Checking the hypotheses of examples *)
Fixpoint nodupl (l : list string) : bool := match l with [] => true | x :: r => negb (existsb (String.eqb x) r) && nodupl r end.
Lemma nodupl_ok l : nodupl l = true -> NoDup l.
Proof.
  induction l as [|x l IH]; intro H; [constructor|]. cbn in H. apply andb_true_iff in H as [A B]. constructor; [|exact (IH B)].
  intro I. apply negb_true_iff in A. rewrite <- not_true_iff_false in A. apply A. apply existsb_exists. exists x. split; [exact I | apply String.eqb_refl].
Qed.
Definition onceb (n : string) (l : list string) : bool := length (filter (fun k => String.eqb (to_lower k) (to_lower n)) l) <=? 1.
Fixpoint unb (j : json) (s : shape) : bool :=
  match j with
  | JArr l => match s with SList s' => forallb (fun x => unb x s') l | SAny | SUnion => forallb (fun x => unb x SAny) l | _ => true end
  | JObj m =>
      nodupl (map fst m) && forallb (fun n => onceb n (map fst m)) (names s) &&
      match s with
      | SPtr t | SVal t => forallb (fun kv => forallb (fun ns => negb (String.eqb (to_lower (fst kv)) (to_lower (fst ns))) || unb (snd kv) (snd ns)) (known t)) m
      | SMap s' => forallb (fun kv => unb (snd kv) s') m
      | SCallback => forallb (fun kv => unb (snd kv) SRef && unb (snd kv) (SPtr TPathItem)) m
      | SAny | SUnion => forallb (fun kv => unb (snd kv) SAny) m
      | _ => true
      end
  | _ => true
  end.
Lemma unb_raw q : forall j s a y, s = SAny \/ s = SUnion -> unb j s = true -> lookup (a :: q) j = Some y -> unb y SAny = true.
Proof.
  assert (C : forall j s a y, s = SAny \/ s = SUnion -> unb j s = true -> lookup [a] j = Some y -> unb y SAny = true).
  { intros j s a y Hs H L. destruct a as [k|i]; destruct j as [| | | |l|m]; try discriminate; cbn [lookup] in L.
    - destruct (oget k m) as [x|] eqn:E; [|discriminate]. injection L as <-. apply oget_in in E. cbn [unb] in H. apply andb_true_iff in H as [_ H].
      destruct Hs as [-> | ->]; rewrite forallb_forall in H; exact (H (k, x) E).
    - destruct (nth_error l i) as [x|] eqn:E; [|discriminate]. injection L as <-. apply nth_error_In in E. cbn [unb] in H. destruct Hs as [-> | ->]; rewrite forallb_forall in H; exact (H x E). }
  induction q as [|b q IH]; intros j s a y Hs H L; [exact (C j s a y Hs H L)|]. change (a :: b :: q) with ([a] ++ (b :: q)) in L. rewrite lookup_app in L.
  destruct (lookup [a] j) as [z|] eqn:E; [|discriminate]. exact (IH z SAny b y (or_introl eq_refl) (C j s a z Hs H E) L).
Qed.
Lemma unb_finds s j q s' x : finds s j q s' x -> unb j s = true -> unb x s' = true.
Proof.
  induction 1 as [s j|t m k k0 s x q s' y Kn I Sn Fd IH|t m k k0 s x q s' y Kn I Sn Fd IH|s m k x q s' y I Fd IH|s l i x q s' y I Fd IH|j a q y L|j a q y L|m k0 x I Sn Nn|m k x q s' y R I Fd IH]; intro U.
  - exact U.
  - apply IH. cbn [unb] in U. apply andb_true_iff in U as [_ U]. rewrite forallb_forall in U. specialize (U _ I). rewrite forallb_forall in U. specialize (U _ Kn). cbn [fst snd] in U. rewrite Sn, String.eqb_refl in U. exact U.
  - apply IH. cbn [unb] in U. apply andb_true_iff in U as [_ U]. rewrite forallb_forall in U. specialize (U _ I). rewrite forallb_forall in U. specialize (U _ Kn). cbn [fst snd] in U. rewrite Sn, String.eqb_refl in U. exact U.
  - apply IH. cbn [unb] in U. apply andb_true_iff in U as [_ U]. rewrite forallb_forall in U. exact (U _ I).
  - apply IH. cbn [unb] in U. rewrite forallb_forall in U. exact (U _ (nth_error_In _ _ I)).
  - exact (unb_raw q j SAny a y (or_introl eq_refl) U L).
  - exact (unb_raw q j SUnion a y (or_intror eq_refl) U L).
  - cbn [unb] in U. apply andb_true_iff in U as [_ U]. rewrite forallb_forall in U. specialize (U _ I). now apply andb_true_iff in U as [U _].
  - apply IH. cbn [unb] in U. apply andb_true_iff in U as [_ U]. rewrite forallb_forall in U. specialize (U _ I). now apply andb_true_iff in U as [_ U].
Qed.
Lemma unb_ok s j : unb j s = true -> unambiguous s j.
Proof.
  intros U q s' m F. apply (unb_finds _ _ _ _ _ F) in U. cbn [unb] in U. apply andb_true_iff in U as [U _]. apply andb_true_iff in U as [N S]. split; [now apply nodupl_ok|].
  intros n I k k' Ik Ik' E E'. rewrite forallb_forall in S. specialize (S n I). apply Nat.leb_le in S.
  assert (F1 : In k (filter (fun k => String.eqb (to_lower k) (to_lower n)) (map fst m))) by (apply filter_In; split; [exact Ik | now apply String.eqb_eq]).
  assert (F2 : In k' (filter (fun k => String.eqb (to_lower k) (to_lower n)) (map fst m))) by (apply filter_In; split; [exact Ik' | now apply String.eqb_eq]).
  destruct (filter _ (map fst m)) as [|a [|b r]]; [destruct F1 | | cbn in S; lia]. destruct F1 as [<-|[]]. destruct F2 as [<-|[]]. reflexivity.
Qed.
Definition no_big : Z -> option Z := fun _ => None.
Lemma no_big_ok : reads_back no_big. Proof. intros z z' H. discriminate. Qed.
(** A better one: every double that is an int64 and whose digits give it exactly. *)
Definition exact_big (z : Z) : option Z := if (- 2 ^ 63 <=? z)%Z && (z <? 2 ^ 63)%Z then match to_float z with NFlt m e => if (0 <=? e)%Z && (m * 2 ^ e =? z)%Z then Some z else None | _ => None end else None.
Lemma exact_big_ok : reads_back exact_big.
Proof.
  intros z z' H. unfold exact_big in H. destruct (_ && _); [|discriminate]. destruct (to_float z) as [|m e|] eqn:E; try discriminate.
  destruct ((0 <=? e)%Z && (m * 2 ^ e =? z)%Z) eqn:B; [|discriminate]. injection H as <-. apply andb_true_iff in B as [B1 B2]. apply Z.leb_le in B1. apply Z.eqb_eq in B2. eauto.
Qed.
Example exact_big_example : exact_big (2 ^ 60) = Some (2 ^ 60)%Z. Proof. vm_compute. reflexivity. Qed.

(** ** A configuration *)
Definition raw0 (j : json) : string := match j with JNull => "null" | JBool true => "true" | JBool false => "false" | _ => "{}" end.
Definition s_schema : json := JObj [("type", JStr "object"); ("maxLength", JNum (NInt 5)); ("example", JNull); ("title", JNull)].
Definition s_config : json := JObj
  [("Dir", JStr "api"); ("exclude", JArr [JStr "x"]);
   ("info", JObj [("title", JStr "T"); ("x-logo", JStr "l")]);
   ("components", JObj [("schemas", JObj [("Pet", s_schema); ("pet", JObj [("$ref", JStr "go://ex.org/a#/P")])]);
                        ("callbacks", JObj [("cb", JObj [("/p", JObj [("get", JObj [("deprecated", JBool true)])])])])]);
   ("overrides", JObj [("go://ex.org/a#/P", JObj [("type", JStr "string")])])].
Definition s_out : json := match decode raw0 exact_big s_config (SVal TConfig) with Ok v => match encode v with Ok j => j | _ => JNull end | _ => JNull end.
Example C89_example :
  unambiguous (SVal TConfig) s_config /\
  (exists v, decode raw0 exact_big s_config (SVal TConfig) = Ok v /\ encode v = Ok s_out) /\
  lookup [SKey "dir"] s_out = Some (JStr "api") /\ lookup [SKey "Dir"] s_out = None /\
  lookup [SKey "info"] s_out = Some (JObj [("title", JStr "T"); ("version", JStr "")]) /\
  lookup [SKey "components"; SKey "schemas"; SKey "Pet"] s_out = Some (JObj [("example", JNull); ("maxLength", JNum (to_float 5)); ("type", JStr "object")]) /\
  lookup [SKey "components"; SKey "schemas"; SKey "pet"] s_out = Some (JObj [("$ref", JStr "go://ex.org/a#/P")]) /\
  lookup [SKey "components"; SKey "callbacks"; SKey "cb"; SKey "/p"; SKey "get"; SKey "deprecated"] s_out = Some (JBool true) /\
  lookup [SKey "overrides"; SKey "go://ex.org/a#/P"; SKey "type"] s_out = Some (JStr "string").
Proof.
  split; [apply unb_ok; vm_compute; reflexivity|].
  split; [eexists; split; [vm_compute; reflexivity | vm_compute; reflexivity]|].
  refine (conj _ (conj _ (conj _ (conj _ (conj _ (conj _ _)))))); vm_compute; reflexivity.
Qed.

(** ** What a user would not expect *)
Definition kept_at (s : shape) (j : json) (q : loc) (y : option json) : Prop :=
  unambiguous s j /\ exists v j', decode raw0 exact_big j s = Ok v /\ encode v = Ok j' /\ lookup q j' = y.
Ltac at_ := split; [apply unb_ok; vm_compute; reflexivity | eexists _, _; split; [vm_compute; reflexivity | split; [vm_compute; reflexivity | vm_compute; reflexivity]]].
(** The scopes of an OAuth flow are dropped: the field is called acopes. *)
Definition s_flows (k : string) : json := JObj [("type", JStr "oauth2"); ("flows", JObj [("implicit", JObj [("authorizationUrl", JStr "u"); (k, JObj [("read", JStr "r")])])])].
Theorem C89_scopes_refuted : kept_at (SPtr TSecurityScheme) (s_flows "scopes") [SKey "flows"; SKey "implicit"] (Some (JObj [("authorizationUrl", JStr "u")])) /\
  kept_at (SPtr TSecurityScheme) (s_flows "acopes") [SKey "flows"; SKey "implicit"; SKey "acopes"; SKey "read"] (Some (JStr "r")).
Proof. split; at_. Qed.
(** A path item loses its reference and its extensions. *)
Theorem C89_path_item_ref_refuted : kept_at (SPtr TPathItem) (JObj [("$ref", JStr "#/paths/a"); ("x-a", JNum (NInt 1)); ("summary", JStr "s")]) [] (Some (JObj [("summary", JStr "s")])).
Proof. at_. Qed.
(** A boolean additionalProperties makes the whole configuration fail. *)
Theorem C89_additional_properties_bool_refuted :
  decode raw0 exact_big (JObj [("components", JObj [("schemas", JObj [("P", JObj [("type", JStr "object"); ("additionalProperties", JBool false)])])])]) (SVal TConfig) = Err.
Proof. vm_compute. reflexivity. Qed.
(** References among responses, request bodies, parameters, headers and examples
    gain members. *)
Theorem C89_references_gain_members_refuted :
  let r := JObj [("$ref", JStr "#/components/x/A")] in
  kept_at (SPtr TResponse) r [] (Some (JObj [("$ref", JStr "#/components/x/A"); ("content", JNull)])) /\
  kept_at (SPtr TRequestBody) r [] (Some (JObj [("$ref", JStr "#/components/x/A"); ("content", JNull)])) /\
  kept_at (SPtr TParameter) r [] (Some (JObj [("$ref", JStr "#/components/x/A"); ("explode", JBool false); ("in", JStr ""); ("name", JStr "")])) /\
  kept_at (SPtr THeader) r [] (Some (JObj [("$ref", JStr "#/components/x/A"); ("explode", JBool false)])) /\
  kept_at (SPtr TExample) r [] (Some (JObj [("$ref", JStr "#/components/x/A"); ("value", JNull)])).
Proof. cbv zeta. refine (conj _ (conj _ (conj _ (conj _ _)))); at_. Qed.
(** A null example is kept, a null title dropped; an empty expression becomes null. *)
Theorem C89_nulls : kept_at (SPtr TSchema) (JObj [("example", JNull); ("title", JNull)]) [] (Some (JObj [("example", JNull)])) /\
  kept_at (SPtr TLink) (JObj [("operationId", JStr "o"); ("requestBody", JStr "")]) [] (Some (JObj [("operationId", JStr "o"); ("requestBody", JNull)])) /\
  kept_at (SPtr TSchema) (JObj [("default", JBool false); ("nullable", JBool false); ("enum", JArr [])]) [] (Some (JObj [("default", JBool false)])).
Proof. refine (conj _ (conj _ _)); at_. Qed.

Print Assumptions C89_accepts.
Print Assumptions C89_writes.
Print Assumptions C89_kept.
Print Assumptions C89_nothing_invented.
Print Assumptions C89_references.
Print Assumptions C89_unknown_dropped.
Print Assumptions C89_scopes_refuted.
Print Assumptions C89_path_item_ref_refuted.
Print Assumptions C89_additional_properties_bool_refuted.
Print Assumptions C89_references_gain_members_refuted.
Print Assumptions C89_nulls.
