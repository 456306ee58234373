(** C92: the documents that the helpers of the spec package build. *)
From Coq Require Import String List Bool Lia.
From Verif Require Import GoStr Json JsonFacts MergeFacts Shape Spec_Shape ShapeFacts ShapeApi SpecValues ValuesFacts.
Import ListNotations.
Local Open Scope string_scope.
Local Open Scope list_scope.

(** What is written for a text or a flag that is left out when empty. *)
Definition some_text (s : string) : option json := if String.eqb s "" then None else Some (JStr s).
Definition some_flag (b : bool) : option json := if b then Some (JBool true) else None.

(** ** XML *)
Definition xml (name ns prefix : string) (attribute wrapped : bool) : gval :=
  GStruct TXML [("name", GText name); ("namespace", GText ns); ("prefix", GText prefix); ("attribute", GBool attribute); ("wrapped", GBool wrapped)].
Definition x_names cs := flat_map (fun c => match c with XName s => [s] | _ => [] end) cs.
Definition x_namespaces cs := flat_map (fun c => match c with XNamespace s => [s] | _ => [] end) cs.
Definition x_prefixes cs := flat_map (fun c => match c with XPrefix s => [s] | _ => [] end) cs.
Definition x_attributes cs := flat_map (fun c => match c with XAttribute => [true] | XElement => [false] | _ => [] end) cs.
Definition x_wrapped cs := flat_map (fun c => match c with XWrapped => [true] | XUnwrapped => [false] | _ => [] end) cs.

Lemma last_cons {A} (x : A) l d : last (x :: l) d = last l x.
Proof. revert x d. induction l as [|y l IH]; intros x d; [reflexivity|]. change (last (x :: y :: l) d) with (last (y :: l) d). now rewrite !IH. Qed.
Lemma xml_run cs : forall n s p a w, fold_left xstep cs (xml n s p a w) =
  xml (last (x_names cs) n) (last (x_namespaces cs) s) (last (x_prefixes cs) p) (last (x_attributes cs) a) (last (x_wrapped cs) w).
Proof.
  unfold x_names, x_namespaces, x_prefixes, x_attributes, x_wrapped.
  induction cs as [|c cs IH]; intros n s p a w; [reflexivity|]. cbn [fold_left flat_map].
  destruct c; unfold xstep; change (set_member ?k ?v (xml n s p a w)) with
    (GStruct TXML (map (fun e => if String.eqb (fst e) k then (k, v) else e) [("name", GText n); ("namespace", GText s); ("prefix", GText p); ("attribute", GBool a); ("wrapped", GBool w)]));
    cbn [map fst String.eqb Ascii.eqb Bool.eqb app]; rewrite ?last_cons; apply IH.
Qed.

(** An XML object is written with its name, and of the others those that are set:
    each as the last call that sets it says, or as it was. *)
Theorem C92_xml : forall cs n s p a w, exists m, encode (fold_left xstep cs (xml n s p a w)) = Ok (JObj m) /\
  oget "name" m = Some (JStr (last (x_names cs) n)) /\ oget "namespace" m = some_text (last (x_namespaces cs) s) /\
  oget "prefix" m = some_text (last (x_prefixes cs) p) /\ oget "attribute" m = some_flag (last (x_attributes cs) a) /\
  oget "wrapped" m = some_flag (last (x_wrapped cs) w) /\
  forall k, ~ In k ["name"; "namespace"; "prefix"; "attribute"; "wrapped"] -> oget k m = None.
Proof.
  intros cs n s p a w. rewrite xml_run. set (n' := last _ n). set (s' := last _ s). set (p' := last _ p). set (a' := last _ a). set (w' := last _ w).
  set (fs k := if String.eqb k "name" then GText n' else if String.eqb k "namespace" then GText s' else if String.eqb k "prefix" then GText p'
               else if String.eqb k "attribute" then GBool a' else GBool w').
  assert (E : xml n' s' p' a' w' = given_by TXML fs) by reflexivity. rewrite E.
  destruct (given_writes TXML fs) as (m & Em).
  { intros f I. cbn [fields In] in I. destruct I as [<-|[<-|[<-|[<-|[<-|[]]]]]]; eexists; reflexivity. }
  pose proof (given_member _ _ _ Em) as G. exists m. split; [exact Em|].
  refine (conj _ (conj _ (conj _ (conj _ (conj _ _))))).
  - destruct (G (fw "name" SText)) as (j & Ej & Oj); [cbn; auto|]. cbn in Ej. injection Ej as <-. exact Oj.
  - specialize (G (fo "namespace" SText)). cbn [fields In f_name f_omit fo fs andb] in G. specialize (G (or_intror (or_introl eq_refl))).
    change (fs "namespace") with (GText s') in G. unfold some_text. destruct s' as [|c r]; [exact G|]. destruct G as (j & [= <-] & O). exact O.
  - specialize (G (fo "prefix" SText)). cbn [fields In f_name f_omit fo fs andb] in G. specialize (G (or_intror (or_intror (or_introl eq_refl)))).
    change (fs "prefix") with (GText p') in G. unfold some_text. destruct p' as [|c r]; [exact G|]. destruct G as (j & [= <-] & O). exact O.
  - specialize (G (fo "attribute" SBool)). cbn [fields In f_name f_omit fo fs andb] in G. specialize (G (or_intror (or_intror (or_intror (or_introl eq_refl))))).
    change (fs "attribute") with (GBool a') in G. destruct a'; [|exact G]. destruct G as (j & [= <-] & O). exact O.
  - specialize (G (fo "wrapped" SBool)). cbn [fields In f_name f_omit fo fs andb] in G. specialize (G (or_intror (or_intror (or_intror (or_intror (or_introl eq_refl)))))).
    change (fs "wrapped") with (GBool w') in G. destruct w'; [|exact G]. destruct G as (j & [= <-] & O). exact O.
  - intros k N. exact (given_others TXML fs m k Em N).
Qed.
Print Assumptions C92_xml.
Example C92_xml_case : encode (fold_left xstep [XName "a"; XAttribute; XPrefix "p"; XElement; XName "b"; XWrapped; XPrefix ""] (xml "" "" "" false false)) =
  Ok (JObj [("name", JStr "b"); ("wrapped", JBool true)]).
Proof. reflexivity. Qed.

(** ** Headers *)
Definition h_texts cs := flat_map (fun c => match c with HDescription s => [s] | _ => [] end) cs.
Definition h_empty cs := flat_map (fun c => match c with HAllowsEmptyValues => [true] | HNoEmptyValues => [false] | _ => [] end) cs.
Lemma header_run cs : forall fs, exists gs, fold_left hstep cs (given_by THeader fs) = given_by THeader gs /\
  gs "description" = last (map GText (h_texts cs)) (fs "description") /\
  gs "allowEmptyValue" = last (map GBool (h_empty cs)) (fs "allowEmptyValue") /\
  (In HAsOptional cs -> gs "required" = GBool false) /\ (~ In HAsOptional cs -> gs "required" = fs "required") /\
  forall k, ~ In k ["description"; "allowEmptyValue"; "required"] -> gs k = fs k.
Proof.
  induction cs as [|c cs IH]; intro fs.
  { exists fs. split; [reflexivity|]. split; [reflexivity|]. split; [reflexivity|]. split; [intros []|]. split; reflexivity. }
  cbn [fold_left].
  assert (E : exists fs', hstep (given_by THeader fs) c = given_by THeader fs' /\ fs' = match c with
      | HDescription s => fun n => if String.eqb n "description" then GText s else fs n
      | HAllowsEmptyValues => fun n => if String.eqb n "allowEmptyValue" then GBool true else fs n
      | HNoEmptyValues => fun n => if String.eqb n "allowEmptyValue" then GBool false else fs n
      | HAsOptional => fun n => if String.eqb n "required" then GBool false else fs n end).
  { destruct c; eexists; (split; [apply set_given | reflexivity]). }
  destruct E as (fs' & -> & Ef). destruct (IH fs') as (gs & Eg & Gd & Ge & Gr & Gn & Go). exists gs. split; [exact Eg|].
  rewrite Gd, Ge. unfold h_texts, h_empty in *. cbn [flat_map].
  assert (R : forall P, (forall k, ~ In k ["description"; "allowEmptyValue"; "required"] -> fs' k = fs k) /\ P -> P /\ (forall k, ~ In k ["description"; "allowEmptyValue"; "required"] -> gs k = fs k)).
  { intros P [H HP]. split; [exact HP|]. intros k N. rewrite (Go k N). exact (H k N). }
  assert (O : forall k, ~ In k ["description"; "allowEmptyValue"; "required"] -> fs' k = fs k).
  { intros k N. subst fs'. destruct c; (match goal with |- (if String.eqb k ?x then _ else _) = _ => destruct (String.eqb_spec k x) as [Ek|]; [exfalso; apply N; subst k; cbn; tauto | reflexivity] end). }
  subst fs'. destruct c; rewrite ?map_app, ?last_cons; cbn [map app]; rewrite ?last_cons;
    (split; [reflexivity|]); (split; [reflexivity|]).
  all: try (split; [intros [H|H]; [discriminate | exact (Gr H)]|]; split; [intro N; rewrite (Gn (fun H => N (or_intror H))); reflexivity|]; intros k N; rewrite (Go k N); exact (O k N)).
  split; [|split].
  - intros _. destruct (in_dec (fun a b : hcall => ltac:(decide equality; apply string_dec)) HAsOptional cs) as [H|H]; [exact (Gr H)|]. now rewrite (Gn H).
  - intro N. exfalso. apply N. now left.
  - intros k N. rewrite (Go k N). exact (O k N).
Qed.

(** What a header's methods change in the document written for it: description
    and allowEmptyValue are as the last call says, required is dropped by
    AsOptional, everything else stays as it was. *)
Theorem C92_headers : forall fs m cs, encode (given_by THeader fs) = Ok (JObj m) -> exists m', encode (fold_left hstep cs (given_by THeader fs)) = Ok (JObj m') /\
  (forall s, last (map Some (h_texts cs)) None = Some s -> oget "description" m' = some_text s) /\ (h_texts cs = [] -> oget "description" m' = oget "description" m) /\
  (forall b, last (map Some (h_empty cs)) None = Some b -> oget "allowEmptyValue" m' = some_flag b) /\ (h_empty cs = [] -> oget "allowEmptyValue" m' = oget "allowEmptyValue" m) /\
  (In HAsOptional cs -> oget "required" m' = None) /\ (~ In HAsOptional cs -> oget "required" m' = oget "required" m) /\
  forall k, ~ In k ["description"; "allowEmptyValue"; "required"] -> oget k m' = oget k m.
Proof.
  intros fs m cs Em. destruct (header_run cs fs) as (gs & -> & Gd & Ge & Gr & Gn & Go).
  pose proof (given_member _ _ _ Em) as G.
  assert (lastS : forall (A B : Type) (g : A -> B) l d x, last (map Some l) None = Some x -> last (map g l) d = g x).
  { intros A B g l d x. destruct l as [|y l] using rev_ind; [discriminate|]. rewrite !map_app. cbn [map]. rewrite !last_last. congruence. }
  assert (W : forall f, In f (fields THeader) -> f_omit f && is_empty (fs (f_name f)) = true -> exists j, encode (fs (f_name f)) = Ok j).
  { intros f _ E. apply andb_true_iff in E as [_ E]. destruct (fs (f_name f)) as [|[|]|[|]| | | | | | | |[|]|[|]|]; try discriminate; cbn; eauto. }
  destruct (given_writes THeader gs) as (m' & Em').
  { intros f I. destruct (in_dec string_dec (f_name f) ["description"; "allowEmptyValue"; "required"]) as [H|H].
    - assert (Old : exists j, encode (fs (f_name f)) = Ok j).
      { pose proof (G f I) as Gf. destruct (f_omit f && is_empty (fs (f_name f))) eqn:E; [exact (W f I E)|]. destruct Gf as (j & Ej & _). eauto. }
      cbn [In] in H. destruct H as [H|[H|[H|[]]]]; rewrite <- H in *.
      + rewrite Gd. destruct (h_texts cs) as [|s l] using rev_ind; [exact Old|]. rewrite map_app. cbn [map]. rewrite last_last. cbn. eauto.
      + rewrite Ge. destruct (h_empty cs) as [|s l] using rev_ind; [exact Old|]. rewrite map_app. cbn [map]. rewrite last_last. cbn. eauto.
      + destruct (in_dec (fun a b : hcall => ltac:(decide equality; apply string_dec)) HAsOptional cs) as [Hc|Hc]; [rewrite (Gr Hc); cbn; eauto | rewrite (Gn Hc); exact Old].
    - rewrite (Go _ H). pose proof (G f I) as Gf. destruct (f_omit f && is_empty (fs (f_name f))) eqn:E; [exact (W f I E)|]. destruct Gf as (j & Ej & _). eauto. }
  pose proof (given_member _ _ _ Em') as G'.
  assert (Same : forall f, In f (fields THeader) -> gs (f_name f) = fs (f_name f) -> oget (f_name f) m' = oget (f_name f) m).
  { intros f I E. pose proof (G f I) as A. pose proof (G' f I) as B. rewrite E in B.
    destruct (f_omit f && is_empty (fs (f_name f))); [congruence|]. destruct A as (j & Ej & ->). destruct B as (j' & Ej' & ->). congruence. }
  assert (Id : In (fo "description" SText) (fields THeader)) by (cbn; tauto).
  assert (Ie : In (fo "allowEmptyValue" SBool) (fields THeader)) by (cbn; tauto).
  assert (Ir : In (fo "required" SBool) (fields THeader)) by (cbn; tauto).
  exists m'. split; [exact Em'|]. refine (conj _ (conj _ (conj _ (conj _ (conj _ (conj _ _)))))).
  - intros s H. pose proof (G' _ Id) as B. cbn [f_name f_omit fo andb] in B. rewrite Gd, (lastS _ _ GText _ _ s H) in B.
    unfold some_text. destruct s; [exact B|]. destruct B as (j & [= <-] & B). exact B.
  - intro H. apply (Same _ Id). cbn [f_name fo]. rewrite Gd, H. reflexivity.
  - intros b H. pose proof (G' _ Ie) as B. cbn [f_name f_omit fo andb] in B. rewrite Ge, (lastS _ _ GBool _ _ b H) in B.
    destruct b; [destruct B as (j & [= <-] & B); exact B | exact B].
  - intro H. apply (Same _ Ie). cbn [f_name fo]. rewrite Ge, H. reflexivity.
  - intro H. pose proof (G' _ Ir) as B. cbn [f_name f_omit fo andb] in B. rewrite (Gr H) in B. exact B.
  - intro H. apply (Same _ Ir). exact (Gn H).
  - intros k N. destruct (in_dec string_dec k (map f_name (fields THeader))) as [I|I].
    + apply in_map_iff in I as (f & <- & If). exact (Same f If (Go _ N)).
    + now rewrite (given_others _ _ _ k Em I), (given_others _ _ _ k Em' I).
Qed.
Print Assumptions C92_headers.
(** Nothing makes a header required. *)
Theorem C92_header_not_required : forall cs m, encode (fold_left hstep cs (zero_struct THeader)) = Ok (JObj m) -> oget "required" m = None.
Proof.
  intros cs m E. destruct (zero_given THeader) as (fs & Ez & Z). rewrite Ez in E.
  destruct (given_writes THeader fs) as (m0 & E0). { intros f I. rewrite (Z f I). apply zero_enc. }
  destruct (C92_headers fs m0 cs E0) as (m' & E' & _ & _ & _ & _ & Hr & Hn & _). rewrite E' in E. injection E as <-.
  destruct (in_dec (fun a b : hcall => ltac:(decide equality; apply string_dec)) HAsOptional cs) as [H|H]; [exact (Hr H)|]. rewrite (Hn H).
  assert (Ir : In (fo "required" SBool) (fields THeader)) by (cbn; tauto).
  pose proof (given_member _ _ _ E0 _ Ir) as B. rewrite (Z _ Ir) in B. exact B.
Qed.
Print Assumptions C92_header_not_required.
Example C92_headers_case : encode (fold_left hstep [HDescription "a"; HAllowsEmptyValues; HDescription "b"] (zero_struct THeader)) =
  Ok (JObj [("allowEmptyValue", JBool true); ("description", JStr "b"); ("explode", JBool false)]).
Proof. reflexivity. Qed.

(** ** Request bodies and responses *)
Definition media_types : list (media * string) :=
  [(MJSON, "application/json"); (MXML, "application/xml"); (MTextPlain, "text/plain"); (MOctetStream, "application/octet-stream");
   (MURLEncoded, "application/x-www-form-urlencoded"); (MFormData, "multipart/form-data")].
(** Each constructor's document has the schema under its media type, and nothing else. *)
Theorem C92_bodies : forall k typ l j, In (k, typ) media_types -> encode (GStruct TSchema l) = Ok j -> let schema := GStruct TSchema l in
  encode (request_body k schema) = Ok (JObj [("content", JObj [(typ, JObj [("schema", j)])])]) /\
  encode (response_value k schema) = Ok (JObj [("content", JObj [(typ, JObj [("schema", j)])])]).
Proof.
  intros k typ l j I E schema. fold schema in E. assert (Em : is_empty schema = false) by reflexivity. clearbody schema.
  assert (M : encode (media_type schema) = Ok (JObj [("schema", j)])).
  { change (media_type schema) with (GStruct TMediaType [("schema", schema); ("example", GNil); ("examples", GNil); ("encoding", GNil)]).
    rewrite enc_struct. unfold emit. assert (O : omitted TMediaType "schema" schema = false) by (change (omitted TMediaType "schema" schema) with (true && is_empty schema); now rewrite Em).
    rewrite O, E. reflexivity. }
  assert (C : encode (GMap [(typ, media_type schema)]) = Ok (JObj [(typ, JObj [("schema", j)])])).
  { rewrite enc_gmap. cbn [enc_map]. rewrite M. reflexivity. }
  assert (T : mime k = typ). { cbn in I. repeat (destruct I as [I|I]; [injection I as <- <-; reflexivity|]). destruct I. }
  unfold request_body, response_value. rewrite T. split.
  - change (new_request_body typ schema) with (GStruct TRequestBody [("$ref", GNil); ("description", GText ""); ("content", GMap [(typ, media_type schema)]); ("required", GBool false)]).
    rewrite enc_struct. unfold emit. change (omitted TRequestBody "content" _) with false. rewrite C. reflexivity.
  - change (new_response_value typ schema) with (GStruct TResponse [("$ref", GNil); ("description", GText ""); ("headers", GNil); ("content", GMap [(typ, media_type schema)]); ("links", GNil)]).
    rewrite enc_struct. unfold emit. change (omitted TResponse "content" _) with false. rewrite C. reflexivity.
Qed.
Print Assumptions C92_bodies.
(** Without a schema the media type is there, and empty. *)
Theorem C92_bodies_without_schema : forall k typ, In (k, typ) media_types ->
  encode (request_body k GNil) = Ok (JObj [("content", JObj [(typ, JObj [])])]) /\ encode (response_value k GNil) = Ok (JObj [("content", JObj [(typ, JObj [])])]).
Proof. intros k typ I. cbn in I. repeat (destruct I as [I|I]; [injection I as <- <-; split; reflexivity|]). destruct I. Qed.
Print Assumptions C92_bodies_without_schema.
Example C92_bodies_case : encode (request_body MXML (set_member "type" (GText "string") (zero_struct TSchema))) =
  Ok (JObj [("content", JObj [("application/xml", JObj [("schema", JObj [("type", JStr "string")])])])]).
Proof. reflexivity. Qed.

(** ** Components *)
Definition component_maps : list string := ["schemas"; "responses"; "parameters"; "examples"; "requestBodies"; "headers"; "securitySchemes"; "links"; "callbacks"].
(** Every map of NewComponents exists and is empty, so that a caller can store
    into it; in the zero value none exists.  Documents do not show the
    difference. *)
Theorem C92_new_components_maps : forall k, In k component_maps ->
  member new_components k = GMap [] /\ member (zero_struct TComponents) k = GNil.
Proof. intros k I. cbn in I. repeat (destruct I as [<-|I]; [split; reflexivity|]). destruct I. Qed.
Print Assumptions C92_new_components_maps.
(** NewComponents is written as the empty object, like the zero value. *)
Theorem C92_new_components : encode new_components = Ok (JObj []) /\ encode (zero_struct TComponents) = Ok (JObj []).
Proof. split; reflexivity. Qed.
Print Assumptions C92_new_components.

(** ** Path items *)
Definition methods : list string := ["get"; "put"; "post"; "delete"; "options"; "head"; "patch"; "trace"].
(** Operations lists the operations of the document written for a path item,
    in the order get, put, post, delete, options, head, patch, trace. *)
Theorem C92_operations : forall fs m, (forall k, In k methods -> fs k = GNil \/ exists l, fs k = GStruct TOperation l) ->
  encode (given_by TPathItem fs) = Ok (JObj m) ->
  exists js, Forall2 (fun o j => encode o = Ok j) (operations (given_by TPathItem fs)) js /\
    js = flat_map (fun k => match oget k m with Some j => [j] | None => [] end) methods.
Proof.
  intros fs m Hk Em. pose proof (given_member _ _ _ Em) as G.
  assert (E : operations (given_by TPathItem fs) = filter (fun o => match o with GNil => false | _ => true end) (map fs methods)).
  { unfold operations, methods. cbn [map]. rewrite !member_given by (cbn; tauto). reflexivity. }
  rewrite E. clear E.
  assert (Hf : forall k, In k methods -> In (fo k (SPtr TOperation)) (fields TPathItem)).
  { intros k I. cbn in I. repeat (destruct I as [<-|I]; [cbn; tauto|]). destruct I. }
  eexists. split; [|reflexivity]. induction methods as [|k l IH]; [constructor|]. cbn [map filter flat_map].
  specialize (IH (fun k I => Hk k (or_intror I)) (fun k I => Hf k (or_intror I))).
  pose proof (G _ (Hf k (or_introl eq_refl))) as Gk. cbn [f_name f_omit fo andb] in Gk.
  destruct (Hk k (or_introl eq_refl)) as [Ek|[x Ek]]; rewrite Ek in *.
  - cbn [is_empty] in Gk. rewrite Gk. exact IH.
  - cbn [is_empty] in Gk. destruct Gk as (j & Ej & ->). cbn [app]. constructor; [exact Ej | exact IH].
Qed.
Print Assumptions C92_operations.
Definition two_ops : string -> gval := fun k =>
  if String.eqb k "post" then set_member "operationId" (GText "p") (zero_struct TOperation)
  else if String.eqb k "get" then set_member "operationId" (GText "g") (zero_struct TOperation)
  else if String.eqb k "summary" then GText "s" else if String.eqb k "description" then GText "" else GNil.
Example C92_operations_case : (forall k, In k methods -> two_ops k = GNil \/ exists l, two_ops k = GStruct TOperation l) /\
  (exists m, encode (given_by TPathItem two_ops) = Ok (JObj m)) /\
  map (fun o => member o "operationId") (operations (given_by TPathItem two_ops)) = [GText "g"; GText "p"].
Proof.
  split; [|split; [eexists; reflexivity | reflexivity]].
  intros k I. cbn in I. repeat (destruct I as [<-|I]; [cbn; eauto|]). destruct I.
Qed.
