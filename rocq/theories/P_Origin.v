(** C100: nothing is invented: every part of the document that Scan builds has an
    origin. *)
From Coq Require Import String Ascii List Bool Arith ZArith Lia Permutation.
From Verif Require Import GoStr Json Gabs Container Url Pointer Spec_Ptr Spec_Clone Spec_Merge
  Spec_Loc Spec_Resolve Path Route Resolver ScanFn Cmds Spec_Cmds Specs Spec_Specs Pkgs Spec_Pkgs Types Root Spec_Root SchemaJson Tag
  Spec_Types Spec_Schema Scan Spec_Scan Spec_Kept P_ScanAll P_Kept ScanStages P_Adds Spec_Origin ScanOrigin.
Import ListNotations.
Local Open Scope string_scope.
Local Open Scope nat_scope.
Local Open Scope list_scope.

Section Origin.
Context {F : Type} (pf : string -> option F) (zero : F) (fnum : F -> num).
Local Notation scan := (scan pf zero fnum std_mapping).

(** Whatever is at whatever location of the document: it is there in a file of a
    visited package (as written there), or in the root configuration, or in a
    default operation that applies to an operation which is there anyway, or it
    replaces a reference to something outside the document, or it is an exported
    component. *)
Theorem C100_everything_has_an_origin : forall a ch de l o ss roots d e, usual_scan pf a ch de l o ss roots -> scan a ch de l = Ok (Some d, e) ->
  (forall s, visited a ss roots s -> import_path (so_path s)) ->
  forall q v, lookup q d = Some v -> origin a o ss roots q v.
Proof.
  intros a ch de l o ss roots d e Hu H Hi q v L. pose proof (usual_stages _ _ _ _ _ _ _ _ _ _ _ _ Hu H) as St. destruct Hu as (Ho & _ & _ & _ & _ & _ & Hd & _).
  exact (stages_origin pf zero fnum a ch de o ss roots Ho Hd Hi (Some d) St q v L ltac:(discriminate)).
Qed.
(** Operations and paths: a file or the root configuration has them; or the path,
    the paths section or the whole document is a reference. *)
Theorem C100_operations : forall a ch de l o ss roots d e, usual_scan pf a ch de l o ss roots -> scan a ch de l = Ok (Some d, e) ->
  (forall s, visited a ss roots s -> import_path (so_path s)) ->
  forall p m v, lookup [SKey "paths"; SKey p; SKey m] d = Some v ->
  (exists s doc x, visited a ss roots s /\ spec_doc_of a s doc /\ lookup [SKey "paths"; SKey p; SKey m] doc = Some x) \/
  (exists x, lookup [SKey "paths"; SKey p; SKey m] (op_root o) = Some x) \/
  (exists q0 r, refers_outside a o ss roots q0 /\ [SKey "paths"; SKey p; SKey m] = q0 ++ r).
Proof.
  intros a ch de l o ss roots d e Hu H Hi p m v L.
  assert (G : exists w, source_of a o ss roots [SKey "paths"; SKey p; SKey m] w).
  { destruct (C100_everything_has_an_origin a ch de l o ss roots d e Hu H Hi _ _ L) as [X|(pat & op & p' & m' & r & x & w & _ & _ & E & _ & _ & X)]; [now exists v|]. injection E as <- <- _. now exists w. }
  destruct G as (w & [s doc x Vs Hd Lx _|x Lx _|q0 r R E|s n _ _ C|E _]).
  - left. exists s, doc, x. auto.
  - right. left. now exists x.
  - right. right. exists q0, r. auto.
  - exfalso. destruct C as [(r & E)|[E|[E|[]]]]; discriminate E.
  - discriminate E.
Qed.
Theorem C100_paths : forall a ch de l o ss roots d e, usual_scan pf a ch de l o ss roots -> scan a ch de l = Ok (Some d, e) ->
  (forall s, visited a ss roots s -> import_path (so_path s)) ->
  forall p v, lookup [SKey "paths"; SKey p] d = Some v ->
  (exists s doc x, visited a ss roots s /\ spec_doc_of a s doc /\ lookup [SKey "paths"; SKey p] doc = Some x) \/
  (exists x, lookup [SKey "paths"; SKey p] (op_root o) = Some x) \/
  (exists q0 r, refers_outside a o ss roots q0 /\ [SKey "paths"; SKey p] = q0 ++ r).
Proof.
  intros a ch de l o ss roots d e Hu H Hi p v L.
  destruct (C100_everything_has_an_origin a ch de l o ss roots d e Hu H Hi _ _ L) as [X|(pat & op & p' & m' & r & x & w & _ & _ & E & _)]; [|discriminate E].
  destruct X as [s doc x Vs Hd Lx _|x Lx _|q0 r R E|s n _ _ C|E _].
  - left. exists s, doc, x. auto.
  - right. left. now exists x.
  - right. right. exists q0, r. auto.
  - exfalso. destruct C as [(r & E)|[E|[E|[]]]]; discriminate E.
  - discriminate E.
Qed.
(** Components: a file or the root configuration has them, a command exports
    them, or what holds them is a reference. *)
Theorem C100_components : forall a ch de l o ss roots d e, usual_scan pf a ch de l o ss roots -> scan a ch de l = Ok (Some d, e) ->
  (forall s, visited a ss roots s -> import_path (so_path s)) ->
  forall k n v, lookup [SKey "components"; SKey k; SKey n] d = Some v ->
  (exists s doc x, visited a ss roots s /\ spec_doc_of a s doc /\ lookup [SKey "components"; SKey k; SKey n] doc = Some x) \/
  (exists x, lookup [SKey "components"; SKey k; SKey n] (op_root o) = Some x) \/
  (k = "schemas" /\ exists s, visited a ss roots s /\ exports_name s n) \/
  (exists q0 r, refers_outside a o ss roots q0 /\ [SKey "components"; SKey k; SKey n] = q0 ++ r).
Proof.
  intros a ch de l o ss roots d e Hu H Hi k n v L.
  destruct (C100_everything_has_an_origin a ch de l o ss roots d e Hu H Hi _ _ L) as [X|(pat & op & p' & m' & r & x & w & _ & _ & E & _)]; [|discriminate E].
  destruct X as [s doc x Vs Hd Lx _|x Lx _|q0 r R E|s n0 Vs En C|E _].
  - left. exists s, doc, x. auto.
  - right. left. now exists x.
  - right. right. right. exists q0, r. auto.
  - right. right. left. destruct C as [(r & E)|[E|[E|[]]]]; try discriminate E. injection E as -> -> _. split; [reflexivity | now exists s].
  - discriminate E.
Qed.
(** Without references to the outside and without default operations, every text,
    number and truth value of the document is the one of a file or of the root
    configuration. *)
Theorem C100_plain_values : forall a ch de l o ss roots d e, usual_scan pf a ch de l o ss roots -> scan a ch de l = Ok (Some d, e) ->
  (forall s, visited a ss roots s -> import_path (so_path s)) -> op_defops o = [] -> (forall q, ~ refers_outside a o ss roots q) ->
  forall q v, lookup q d = Some v -> is_obj v = false -> (forall r, q <> SKey "components" :: r) ->
  (exists s doc x, visited a ss roots s /\ spec_doc_of a s doc /\ lookup q doc = Some x /\ written (Some (so_path s)) q x v) \/
  (exists x, lookup q (op_root o) = Some x /\ written None q x v).
Proof.
  intros a ch de l o ss roots d e Hu H Hi Nd Nr q v L B Nc.
  destruct (C100_everything_has_an_origin a ch de l o ss roots d e Hu H Hi _ _ L) as [X|(pat & op & p' & m' & r & x & w & I & _)]; [|rewrite Nd in I; destruct I].
  destruct X as [s doc x Vs Hd Lx W|x Lx W|q0 r R E|s n0 Vs En C|E B'].
  - left. exists s, doc, x. destruct W as [W|W]; [congruence | auto].
  - right. exists x. destruct W as [W|W]; [congruence | auto].
  - now elim (Nr q0).
  - exfalso. destruct C as [(r & E)|[E|[E|[]]]]; [exact (Nc _ E) | exact (Nc _ (eq_sym E)) | exact (Nc _ (eq_sym E))].
  - congruence.
Qed.
End Origin.
Print Assumptions C100_everything_has_an_origin.
Print Assumptions C100_operations.
Print Assumptions C100_paths.
Print Assumptions C100_components.
Print Assumptions C100_plain_values.

(** *** Examples *)
(** A scan whose document has a part of every origin: the version (file), the
    title (root), x-def (default operation), the local reference (instead of an
    outside one) and the component (exported); none is in two places. *)
Example C100_example : exists o d, usual_scan no_float (v_around v_cmd v_doc) k_choices w_depths v_options2 o [w_source v_cmd] [0] /\ v_scan v_cmd v_doc v_options2 = Ok (Some d, true) /\
  (forall s, visited (v_around v_cmd v_doc) [w_source v_cmd] [0] s -> import_path (so_path s)) /\
  lookup [SKey "openapi"] d = Some (JStr "3.0.2") /\ lookup [SKey "openapi"] k_root = None /\
  lookup [SKey "info"; SKey "title"] d = Some (JStr "T") /\ lookup [SKey "info"; SKey "title"] v_doc = None /\
  lookup [SKey "paths"; SKey "/pets"; SKey "get"; SKey "x-def"] d = Some (JStr "v") /\ lookup [SKey "paths"; SKey "/pets"; SKey "get"; SKey "x-def"] v_doc = None /\
  lookup [SKey "paths"; SKey "/pets"; SKey "get"; SKey "schema"; SKey "$ref"] d = Some (JStr "#/components/schemas/Pet") /\
  lookup [SKey "components"; SKey "schemas"; SKey "Pet"; SKey "type"] d = Some (JStr "object") /\ lookup [SKey "components"] v_doc = None /\ lookup [SKey "components"; SKey "schemas"] k_root = None.
Proof.
  eexists. eexists. split; [apply v_usual; [right; now left | now left | right; now left | reflexivity]|]. split; [vm_compute; reflexivity|].
  split; [intros s Vs; rewrite (v_visited _ _ _ Vs); split; [discriminate | reflexivity]|]. repeat (split; [reflexivity|]). reflexivity.
Qed.
(** Without the command and the reference, and without default operations. *)
Definition n_options : list opt := [WithRootSchema k_root].
Lemma n_usual o : apply_opts n_options no_options = Ok o -> usual_scan no_float (v_around v_cmd v_plain) k_choices w_depths n_options o [w_source v_cmd] [0].
Proof.
  intro Eo. destruct (apply_opts v_options2 no_options) as [o2| | |] eqn:E2; try discriminate E2.
  destruct (v_usual v_cmd v_plain v_options2 o2 (or_intror (or_introl eq_refl)) (or_intror (or_introl eq_refl)) (or_intror (or_introl eq_refl)) E2) as (A1 & A2 & A3 & _ & (B1 & B2 & B3 & B4 & B5 & B6) & C1 & C2 & C3 & C4).
  injection E2 as <-. injection Eo as <-. split; [exact A1|]. split; [exact A2|]. split; [exact A3|]. split; [reflexivity|]. split; [split; [exact B1|]; split; [exact B2|]; split; [exact B3|]; split; [exact B4|]; split; [constructor | constructor]|].
  split; [exact C1|]. split; [constructor|]. split; [exact C3 | exact C4].
Qed.
Example C100_example_plain : exists o d, usual_scan no_float (v_around v_cmd v_plain) k_choices w_depths n_options o [w_source v_cmd] [0] /\ v_scan v_cmd v_plain n_options = Ok (Some d, true) /\
  op_defops o = [] /\ (forall q, ~ refers_outside (v_around v_cmd v_plain) o [w_source v_cmd] [0] q) /\ lookup [SKey "paths"; SKey "/pets"; SKey "get"; SKey "operationId"] d = Some (JStr "list").
Proof.
  eexists. eexists. split; [apply n_usual; reflexivity|]. split; [vm_compute; reflexivity|]. split; [reflexivity|]. split; [|reflexivity].
  intros q (t & p & _ & _ & [L|(s & doc & t0 & Vs & Sd & L & _)]).
  - apply refs_of_all in L. exact L.
  - rewrite (v_docs v_cmd v_plain s doc (v_visited _ _ _ Vs) Sd) in L. apply refs_of_all in L. exact L.
Qed.
(** An operation that only a default operation has is no operation of the
    document: the pattern matches, the operation is not there. *)
Example C100_example_no_operation : exists d, v_scan v_cmd v_plain v_options2 = Ok (Some d, true) /\ route_match "/pets" "post" "/pets" = Ok true /\ lookup [SKey "paths"; SKey "/pets"; SKey "post"] d = None.
Proof. eexists. split; [vm_compute; reflexivity|]. split; reflexivity. Qed.
