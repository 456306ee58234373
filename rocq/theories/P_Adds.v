(** C85: what the root configuration, default operations, overrides and Go types
    add to the document that Scan builds. *)
From Coq Require Import String Ascii List Bool Arith ZArith Lia Permutation.
From Verif Require Import GoStr Json Gabs Container Url Pointer Spec_Ptr Spec_Clone Spec_Merge
  Spec_Loc Spec_Resolve Path Route Resolver ScanFn Cmds Spec_Cmds Specs Spec_Specs SpecFacts Pkgs Spec_Pkgs PkgFacts Types Root Spec_Root SchemaJson Tag
  Spec_Types Spec_Schema Spec_Format Scan ScanInv ScanFacts Spec_Scan Spec_Kept ScanKept3 P_ScanAll P_Kept ScanStages ScanAdds ScanStruct.
Import ListNotations.
Local Open Scope string_scope.
Local Open Scope nat_scope.
Local Open Scope list_scope.

(** A usual run of Scan with options l: packages ss, of which those numbered
    [roots] are asked for; maps in any order; usual files and options; exported
    names that are plain. *)
Definition usual_scan {F} (pf : string -> option F) (a : around) (ch : choices) (de : depths) (l : list opt) (o : options) (ss : list source) (roots : list nat) : Prop :=
  any_order ch /\ visiting_in_any_order ch /\ collecting_in_any_order ch /\
  apply_opts l no_options = Ok o /\ usual_input pf a o /\ usual_root (op_root o) /\ Forall ok_default (op_defops o) /\ loads a de o ss roots /\
  forall s name, visited a ss roots s -> exports_name s name -> good_name name.
(** No specification file and not the root configuration has a reference at,
    above or below q, unless into the document itself. *)
Definition undisturbed (a : around) (o : options) (ss : list source) (roots : list nat) (q : loc) : Prop :=
  (forall s doc, visited a ss roots s -> spec_doc_of a s doc -> only_local_refs doc q) /\ only_local_refs (op_root o) q.
(** The same, but for one at q itself. *)
Definition alone (a : around) (o : options) (ss : list source) (roots : list nat) (q : loc) : Prop :=
  (forall s doc, visited a ss roots s -> spec_doc_of a s doc -> only_ref_at doc q) /\ only_ref_at (op_root o) q.
(** No exported schema is placed at, above or below q. *)
Definition off_components (a : around) (ss : list source) (roots : list nat) (q : loc) : Prop :=
  forall s name, visited a ss roots s -> exports_name s name -> Spec_Loc.apart [SKey "components"; SKey "schemas"; SKey name] q.

Section Adds.
Context {F : Type} (pf : string -> option F) (zero : F) (fnum : F -> num).
Local Notation scan := (scan pf zero fnum std_mapping).

Lemma usual_stages a ch de l o ss roots d e : usual_scan pf a ch de l o ss roots -> scan a ch de l = Ok (Some d, e) -> stages pf zero fnum a ch de o ss roots (Some d).
Proof.
  intros (Ho & Hv & Hc & Eo & (H1 & H2 & H3 & H4 & H5 & H6) & Hur & Hdef & (dir & Hdir & Hld & L3 & L4 & L5) & Hn) H.
  unfold Scan.scan in H. rewrite Eo in H. cbn [on_err] in H.
  assert (Ed : match op_dir o with Some d0 => Ok d0 | None => ar_cwd a end = Ok dir) by (destruct Hdir as [-> |(-> & E)]; [reflexivity | exact E]). rewrite Ed in H. cbn [on_err] in H. rewrite Hld in H. cbn [on_err fst snd] in H.
  apply on_err_ok in H as [(_ & [=])|(c' & Hd & H)]. injection H as -> _.
  exact (scan_doc_stages pf zero fnum a ch de o ss roots _ Ho Hv Hc H1 (H2 _ _ _ Hld) H3 H4 Hur H5 L3 L4 L5 Hn Hd).
Qed.
Lemma file_ref_of a s k q txt p : import_path (so_path s) -> file_ref_at a s k q txt -> ptr_parse txt = Ok p -> is_external p = true -> ref_of_file a s k q p.
Proof.
  intros Hi (doc & t & Sd & Nb & L & M & N4 & N3) Pt Ex. exists doc, t. split; [exact Sd|]. split; [exact Nb|]. split; [exact L|]. split; [|auto].
  assert (R : ref_ok t) by (destruct M as (p0 & P0 & _); now exists p0). pose proof (new_text_absolute _ _ Hi R) as M'.
  replace (new_text (so_path s) t) with txt; [exact Pt|]. destruct M as (p1 & P1 & D1), M' as (p2 & P2 & D2). assert (p2 = p1) as -> by congruence. destruct D1 as [(A & B & ->)|(N & ->)], D2 as [(A' & B' & ->)|(N' & ->)]; try reflexivity; exfalso; auto.
Qed.

(** ** C85 *)
(** Every value of the root configuration is in the document: in "info" and
    "components" always, in the other sections where no file has something in
    its way. *)
Theorem C85_root_is_carried : forall a ch de l o ss roots d e, usual_scan pf a ch de l o ss roots -> scan a ch de l = Ok (Some d, e) ->
  forall k q v, lookup (SKey k :: q) (op_root o) = Some v -> v <> JNull ->
    In k ["info"; "components"; "paths"; "externalDocs"; "security"; "servers"; "tags"] -> (exists k' q', q = SKey k' :: q') ->
    (~ In k ["info"; "components"] -> forall s doc, visited a ss roots s -> spec_doc_of a s doc -> clear_way (SKey k :: q) doc) ->
    undisturbed a o ss roots (SKey k :: q) -> off_components a ss roots (SKey k :: q) ->
    carried_at (SKey k :: q) v d.
Proof.
  intros a ch de l o ss roots d e Hu H k q v L Nn Ik Hq Cl (U1 & U2) Oc. pose proof (usual_stages _ _ _ _ _ _ _ _ _ Hu H) as St. destruct Hu as (Ho & _ & _ & _ & _ & _ & Hd & _).
  exact (stages_root pf zero fnum a ch de o ss roots Ho Hd (Some d) St k q v L Nn Ik Hq Cl U1 U2 Oc).
Qed.
(** A member of a default operation that no file and not the root configuration
    gives to an operation it matches: when it is the only one to match with that
    member, the operation has the member with that value; when several do, and the
    values are no objects, with the value of one of them. *)
Theorem C85_default_operations_are_added : forall a ch de l o ss roots d e, usual_scan pf a ch de l o ss roots -> scan a ch de l = Ok (Some d, e) ->
  forall pat op p m k v x, In (pat, JObj op) (op_defops o) -> route_match pat m p = Ok true -> oget k op = Some v ->
    lookup [SKey "paths"; SKey p; SKey m] d = Some x ->
    (forall s doc, visited a ss roots s -> spec_doc_of a s doc -> lookup [SKey "paths"; SKey p; SKey m; SKey k] doc = None) -> lookup [SKey "paths"; SKey p; SKey m; SKey k] (op_root o) = None ->
    undisturbed a o ss roots [SKey "paths"; SKey p; SKey m; SKey k] ->
    (NoDup (map fst (op_defops o)) -> (forall pat' op', In (pat', JObj op') (op_defops o) -> route_match pat' m p = Ok true -> pat' <> pat -> oget k op' = None) ->
       lookup [SKey "paths"; SKey p; SKey m; SKey k] d = Some v) /\
    ((forall pat' op' v', In (pat', JObj op') (op_defops o) -> route_match pat' m p = Ok true -> oget k op' = Some v' -> is_obj v' = false) ->
       exists pat' op' v', In (pat', JObj op') (op_defops o) /\ route_match pat' m p = Ok true /\ oget k op' = Some v' /\ lookup [SKey "paths"; SKey p; SKey m; SKey k] d = Some v').
Proof.
  intros a ch de l o ss roots d e Hu H pat op p m k v x Ip Hm Ek Lx Nf Nr (U1 & U2). pose proof (usual_stages _ _ _ _ _ _ _ _ _ Hu H) as St. destruct Hu as (Ho & _ & _ & _ & _ & _ & Hd & _).
  exact (stages_defaults pf zero fnum a ch de o ss roots Ho Hd (Some d) St pat op p m k v x Ip Hm Ek Lx Nf Nr U1 U2).
Qed.
(** A reference to a pointer that is overridden, and not exported, is replaced by
    the override. *)
Theorem C85_overrides_are_put_in_place : forall a ch de l o ss roots d e, usual_scan pf a ch de l o ss roots -> scan a ch de l = Ok (Some d, e) ->
  forall s k q txt p j, visited a ss roots s -> import_path (so_path s) -> file_ref_at a s k q txt -> ptr_parse txt = Ok p -> is_external p = true ->
    oget (ptr_string p) (op_override o) = Some j -> tidy j -> no_ext j ->
    (forall s' n p', visited a ss roots s' -> exports_type s' n p' -> ptr_string p' <> ptr_string p) ->
    alone a o ss roots (SKey k :: q) -> off_components a ss roots (SKey k :: q) ->
    forall rr w, lookup rr j = Some w -> w <> JNull -> carried_at ((SKey k :: q) ++ rr) w d.
Proof.
  intros a ch de l o ss roots d e Hu H s k q txt p j Vs Hi Hr Pt Ex Hj Tj Nj Ne (U1 & U2) Oc. pose proof (usual_stages _ _ _ _ _ _ _ _ _ Hu H) as St. destruct Hu as (Ho & _ & _ & _ & _ & _ & Hd & _).
  exact (stages_override pf zero fnum a ch de o ss roots Ho Hd (Some d) St s k q p j Vs (file_ref_of _ _ _ _ _ _ Hi Hr Pt Ex) Hj Tj Nj Ne U1 U2 Oc).
Qed.
(** A reference to an exported pointer becomes one to the component of that name. *)
Theorem C85_exported_references_become_local : forall a ch de l o ss roots d e, usual_scan pf a ch de l o ss roots -> scan a ch de l = Ok (Some d, e) -> NoDup (map so_path ss) ->
  forall s k q txt p s' n p', visited a ss roots s -> import_path (so_path s) -> file_ref_at a s k q txt -> ptr_parse txt = Ok p -> is_external p = true ->
    visited a ss roots s' -> exports_type s' n p' -> ptr_string p' = ptr_string p ->
    alone a o ss roots (SKey k :: q) -> off_components a ss roots (SKey k :: q) ->
    lookup ((SKey k :: q) ++ [SKey "$ref"]) d = Some (JStr ("#/components/schemas/" +++ n)).
Proof.
  intros a ch de l o ss roots d e Hu H Nd s k q txt p s' n p' Vs Hi Hr Pt Ex Vs' Es Ep (U1 & U2) Oc. pose proof (usual_stages _ _ _ _ _ _ _ _ _ Hu H) as St. destruct Hu as (Ho & _ & _ & _ & _ & _ & Hd & _).
  exact (stages_exported pf zero fnum a ch de o ss roots Ho Hd (Some d) St Nd s k q p s' n p' Vs (file_ref_of _ _ _ _ _ _ Hi Hr Pt Ex) Vs' Es Ep U1 U2 Oc).
Qed.
(** ... and the component holds the override. *)
Theorem C85_exported_overrides_are_components : forall a ch de l o ss roots d e, usual_scan pf a ch de l o ss roots -> scan a ch de l = Ok (Some d, e) -> NoDup (map so_path ss) ->
  forall s k q txt p s' n p' j, visited a ss roots s -> import_path (so_path s) -> file_ref_at a s k q txt -> ptr_parse txt = Ok p -> is_external p = true ->
    visited a ss roots s' -> exports_type s' n p' -> ptr_string p' = ptr_string p -> (forall s0 p0, visited a ss roots s0 -> exports_type s0 n p0 -> ptr_string p0 = ptr_string p) ->
    oget (ptr_string p) (op_override o) = Some j -> tidy j -> no_ext j ->
    undisturbed a o ss roots [SKey "components"; SKey "schemas"; SKey n] ->
    forall rr w, lookup rr j = Some w -> w <> JNull -> carried_at ([SKey "components"; SKey "schemas"; SKey n] ++ rr) w d.
Proof.
  intros a ch de l o ss roots d e Hu H Nd s k q txt p s' n p' j Vs Hi Hr Pt Ex Vs' Es Ep Un Hj Tj Nj (U1 & U2). pose proof (usual_stages _ _ _ _ _ _ _ _ _ Hu H) as St. destruct Hu as (Ho & _ & _ & _ & _ & _ & Hd & _).
  exact (stages_exported_override pf zero fnum a ch de o ss roots Ho Hd (Some d) St Nd s k q p s' n p' j Vs (file_ref_of _ _ _ _ _ _ Hi Hr Pt Ex) Vs' Es Ep Un Hj Tj Nj U1 U2).
Qed.
(** A reference to a struct type, not overridden and not exported, is replaced by
    the schema of that struct. *)
Theorem C85_structs_are_put_in_place : forall a ch de l o ss roots d e, usual_scan pf a ch de l o ss roots -> scan a ch de l = Ok (Some d, e) -> sound_scopes (ar_env a) ss ->
  forall s k q txt p pk name t toks ts t' fs, visited a ss roots s -> import_path (so_path s) -> file_ref_at a s k q txt -> ptr_parse txt = Ok p -> is_external p = true ->
    declared (ar_env a) t pk name -> trail (ar_env a) t toks ts t' -> under (ar_env a) t' = TStruct fs -> ptr_string p = loc_text pk (name :: toks) ->
    oget (ptr_string p) (op_override o) = None -> (forall s' n p', visited a ss roots s' -> exports_type s' n p' -> ptr_string p' <> ptr_string p) ->
    alone a o ss roots (SKey k :: q) -> off_components a ss roots (SKey k :: q) ->
    shows_struct pf (ar_env a) fs (fun rr => lookup ((SKey k :: q) ++ rr) d) /\ (k <> "paths" -> shows_only pf (ar_env a) fs (fun rr => lookup ((SKey k :: q) ++ rr) d)).
Proof.
  intros a ch de l o ss roots d e Hu H Hs s k q txt p pk name t toks ts t' fs Vs Hi Hr Pt Ex Dc Tr Et Ep Nov Ne (U1 & U2) Oc. pose proof (usual_stages _ _ _ _ _ _ _ _ _ Hu H) as St. destruct Hu as (Ho & _ & _ & _ & _ & _ & Hd & _).
  exact (stages_struct pf zero fnum a ch de o ss roots Ho Hd (Some d) St Hs s k q p pk name t toks ts t' fs Vs (file_ref_of _ _ _ _ _ _ Hi Hr Pt Ex) Dc Tr Et Ep Nov Ne U1 U2 Oc).
Qed.
(** The component of an exported struct type is the schema of that struct. *)
Theorem C85_exported_structs_are_components : forall a ch de l o ss roots d e, usual_scan pf a ch de l o ss roots -> scan a ch de l = Ok (Some d, e) -> sound_scopes (ar_env a) ss -> NoDup (map so_path ss) ->
  forall s k q txt p s' n p' pk name t toks ts t' fs, visited a ss roots s -> import_path (so_path s) -> file_ref_at a s k q txt -> ptr_parse txt = Ok p -> is_external p = true ->
    visited a ss roots s' -> exports_type s' n p' -> ptr_string p' = ptr_string p -> (forall s0 p0, visited a ss roots s0 -> exports_type s0 n p0 -> ptr_string p0 = ptr_string p) ->
    declared (ar_env a) t pk name -> trail (ar_env a) t toks ts t' -> under (ar_env a) t' = TStruct fs -> ptr_string p = loc_text pk (name :: toks) ->
    oget (ptr_string p) (op_override o) = None -> undisturbed a o ss roots [SKey "components"; SKey "schemas"; SKey n] ->
    shows_struct pf (ar_env a) fs (fun rr => lookup ([SKey "components"; SKey "schemas"; SKey n] ++ rr) d) /\ shows_only pf (ar_env a) fs (fun rr => lookup ([SKey "components"; SKey "schemas"; SKey n] ++ rr) d).
Proof.
  intros a ch de l o ss roots d e Hu H Hs Nd s k q txt p s' n p' pk name t toks ts t' fs Vs Hi Hr Pt Ex Vs' Es Ep' Un Dc Tr Et Ep Nov (U1 & U2). pose proof (usual_stages _ _ _ _ _ _ _ _ _ Hu H) as St. destruct Hu as (Ho & _ & _ & _ & _ & _ & Hd & _).
  exact (stages_struct_exported pf zero fnum a ch de o ss roots Ho Hd (Some d) St Hs Nd s k q p s' n p' pk name t toks ts t' fs Vs (file_ref_of _ _ _ _ _ _ Hi Hr Pt Ex) Vs' Es Ep' Un Dc Tr Et Ep Nov U1 U2).
Qed.
(** A type that a schema command exports is walked even if no file refers to it:
    Scan builds no document when the walk reaches a type without a package (error). *)
Theorem C85_exported_types_are_walked : forall a ch de l o ss roots d e, usual_scan pf a ch de l o ss roots -> scan a ch de l = Ok (Some d, e) -> NoDup (map so_path ss) ->
  forall s n p s2 h rr ob L, visited a ss roots s -> exports_type s n p -> visited a ss roots s2 -> u_scheme (p_url p) = "go" -> pkg_path p = so_types s2 -> p_frag p = h :: rr -> so_scope s2 h = Some ob ->
    (forall s', visited a ss roots s' -> import_path (so_path s')) ->
    (forall s' doc q t, visited a ss roots s' -> spec_doc_of a s' doc -> lookup (q ++ [SKey "$ref"]) doc = Some (JStr t) -> ~ made_absolute (so_path s') t (ptr_string p)) ->
    (forall s' n' p', visited a ss roots s' -> exports_type s' n' p' -> ptr_string p' = ptr_string p -> p' = p) ->
    env_ok (ar_env a) -> obj_ok ob -> o_pkg ob <> None -> closed_types (ar_env a) (o_type ob) L -> length L < de_walk de ->
    ~ reaches_universe (ar_env a) (o_type ob).
Proof.
  intros a ch de l o ss roots d e Hu H Nd s n p s2 h rr ob L Vs Es Vs2 Sp Pp Fr Sc Hi Nf Un He Hob Hpk HL Hl. pose proof (usual_stages _ _ _ _ _ _ _ _ _ Hu H) as St. destruct Hu as (Ho & _ & _ & _ & _ & _ & Hd & _).
  assert (Nf' : forall s' doc q t, visited a ss roots s' -> spec_doc_of a s' doc -> lookup (q ++ [SKey "$ref"]) doc = Some (JStr t) -> new_text (so_path s') t <> ptr_string p).
  { intros s' doc q t V D Lt E. apply (Nf s' doc q t V D Lt). rewrite <- E. apply new_text_absolute; [exact (Hi s' V)|]. destruct St as [? ? ? ? ? ? ? ? Hrefs]. exact (Hrefs s' doc q t V D Lt). }
  exact (stages_followed pf zero fnum a ch de o ss roots (Some d) St Nd s n p s2 h rr ob Vs Es Vs2 Sp Pp Fr Sc Nf' Un L He Hob Hpk HL Hl).
Qed.
(** ... but a schema command alone puts nothing into the document: when no file
    and not the root configuration has an external reference, what is not in one
    of them is nowhere in the components. *)
Theorem C85_commands_alone_add_nothing : forall a ch de l o ss roots d e, usual_scan pf a ch de l o ss roots -> scan a ch de l = Ok (Some d, e) ->
  (forall s doc q t, visited a ss roots s -> spec_doc_of a s doc -> lookup (q ++ [SKey "$ref"]) doc = Some (JStr t) -> exists r, t = "#" +++ r) -> no_ext (op_root o) ->
  forall q, q <> [] -> (forall s doc, visited a ss roots s -> spec_doc_of a s doc -> lookup (SKey "components" :: q) doc = None) -> lookup (SKey "components" :: q) (op_root o) = None ->
  lookup (SKey "components" :: q) d = None.
Proof.
  intros a ch de l o ss roots d e Hu H Nf Nr q Nq Lf Lr. pose proof (usual_stages _ _ _ _ _ _ _ _ _ Hu H) as St. destruct Hu as (Ho & _ & _ & _ & _ & _ & Hd & _).
  exact (stages_no_refs pf zero fnum a ch de o ss roots Ho Hd (Some d) St Nf Nr q Nq Lf Lr).
Qed.
End Adds.
Print Assumptions C85_root_is_carried.
Print Assumptions C85_default_operations_are_added.
Print Assumptions C85_overrides_are_put_in_place.
Print Assumptions C85_exported_references_become_local.
Print Assumptions C85_exported_overrides_are_components.
Print Assumptions C85_structs_are_put_in_place.
Print Assumptions C85_exported_structs_are_components.
Print Assumptions C85_exported_types_are_walked.
Print Assumptions C85_commands_alone_add_nothing.

(** *** Examples *)
(** All references of a document. *)
Fixpoint refs_of (j : json) : list (loc * string) :=
  match j with
  | JArr l => (fix go i l := match l with [] => [] | x :: r => map (fun qt => (SIdx i :: fst qt, snd qt)) (refs_of x) ++ go (S i) r end) 0 l
  | JObj m => (match oget "$ref" m with Some (JStr t) => [([], t)] | _ => [] end) ++
      (fix go m := match m with [] => [] | kx :: r => map (fun qt => (SKey (fst kx) :: fst qt, snd qt)) (refs_of (snd kx)) ++ go r end) m
  | _ => []
  end.
Lemma refs_of_all q : forall j t, lookup (q ++ [SKey "$ref"]) j = Some (JStr t) -> In (q, t) (refs_of j).
Proof.
  induction q as [|[k|i] q IH]; intros j t L.
  - destruct j as [| | | | |m]; try discriminate. cbn [app lookup] in L. cbn [refs_of]. apply in_or_app. left. destruct (oget "$ref" m) as [v|]; [|discriminate]. injection L as ->. now left.
  - destruct j as [| | | | |m]; try discriminate. cbn [app lookup] in L. cbn [refs_of]. apply in_or_app. right. destruct (oget k m) as [v|] eqn:E; [|discriminate]. apply IH in L. clear IH.
    induction m as [|[k0 x] m IHm]; [discriminate|]. cbn [fst snd]. apply in_or_app. cbn [oget] in E. destruct (String.eqb_spec k k0) as [-> |_]; [left | right; auto]. injection E as ->. apply in_map_iff. exists (q, t). auto.
  - destruct j as [| | | |l|]; try discriminate. cbn [app lookup] in L. cbn [refs_of]. destruct (nth_error l i) as [v|] eqn:E; [|discriminate]. apply IH in L. clear IH.
    change i with (0 + i). revert i E. generalize 0 as b. induction l as [|x l IHl]; intros b i E; [destruct i; discriminate|]. apply in_or_app. destruct i as [|i]; cbn [nth_error] in E.
    + left. injection E as ->. apply in_map_iff. exists (q, t). rewrite Nat.add_0_r. auto.
    + right. replace (b + S i) with (S b + i) by lia. now apply IHl.
Qed.
Definition v_doc : json := JObj [("openapi", JStr "3.0.2");
  ("paths", JObj [("/pets", JObj [("get", JObj [("operationId", JStr "list"); ("schema", JObj [("$ref", JStr "go://#/Pet")])])])])].
Definition v_plain : json := JObj [("openapi", JStr "3.0.2"); ("paths", JObj [("/pets", JObj [("get", JObj [("operationId", JStr "list")])])])].
Definition v_around (groups : list (list string)) (doc : json) : around :=
  {| ar_load := ar_load (w_around groups); ar_cwd := Ok "/src/api"; ar_gopath := "/go"; ar_missing := fun _ => true; ar_files := k_files doc None; ar_std := fun _ => false; ar_env := w_env |}.
Definition v_cmd : list (list string) := [["//openapi:schema Pet"]].
Definition v_options : list opt := [WithRootSchema k_root; WithDefOps [("/pets", JObj [("x-def", JStr "v")])]; WithOverride [("go://ex.org/m/api#/Pet", JObj [("type", JStr "integer")])]].
Definition v_options2 : list opt := [WithRootSchema k_root; WithDefOps [("/pets", JObj [("x-def", JStr "v")])]].
Definition v_scan groups doc l := scan no_float 0%Z NInt std_mapping (v_around groups doc) k_choices w_depths l.
Lemma v_loads groups doc o : op_dir o = None -> loads (v_around groups doc) w_depths o [w_source groups] [0].
Proof.
  intro E. exists "/src/api". split; [right; split; [exact E | reflexivity]|]. split; [reflexivity|]. split; [repeat constructor|]. split; [intros i [<-|[]]; cbn; lia | cbn; lia].
Qed.
Lemma v_names groups s name p : In groups [[]; v_cmd] -> s = w_source groups -> exports_type s name p -> groups = v_cmd /\ name = "Pet" /\ ptr_string p = "go://ex.org/m/api#/Pet".
Proof.
  intros Ig -> (g & t & b & Hg & Ht & C & D). destruct Ig as [<-|[<-|[]]]; [destruct Hg|]. destruct Hg as [<-|[]]. destruct Ht as [<-|[]].
  assert (X : parse_comment_group ["//openapi:schema Pet"] = Ok [b]) by (apply CmdFacts.comment_group_spec; constructor 3; [exact C | constructor]). vm_compute in X. injection X as <-.
  apply CmdFacts.parse_cmd_spec in D. vm_compute in D. injection D as <- <-. split; [reflexivity|]. split; reflexivity.
Qed.
Lemma v_visited groups doc s : visited (v_around groups doc) [w_source groups] [0] s -> s = w_source groups.
Proof. intros (r & i & _ & _ & E). destruct i as [|i]; [now injection E as <-|]. destruct i; discriminate. Qed.
Lemma v_visits groups doc : visited (v_around groups doc) [w_source groups] [0] (w_source groups).
Proof. exists 0, 0. split; [now left|]. split; [constructor; eexists; split; reflexivity | reflexivity]. Qed.
Lemma v_docs groups doc s doc' : s = w_source groups -> spec_doc_of (v_around groups doc) s doc' -> doc' = doc.
Proof.
  intros -> (dir & name & E & I & F & _). vm_compute in E. injection E as <-. destruct I as [<-|[<-|[<-|[]]]]; vm_compute in F; try discriminate. now injection F as <-.
Qed.
Lemma v_usual groups doc l o : In groups [[]; v_cmd] -> In doc [v_doc; v_plain] -> In l [v_options; v_options2] -> apply_opts l no_options = Ok o -> usual_scan no_float (v_around groups doc) k_choices w_depths l o [w_source groups] [0].
Proof.
  intros Ig Id Il Eo. destruct k_orders as (K1 & K2). split; [exact K1|]. split; [exact K2|]. split; [repeat split; intros; apply Permutation_refl|]. split; [exact Eo|].
  assert (R : op_root o = k_root /\ op_defops o = [("/pets", JObj [("x-def", JStr "v")])] /\ op_dir o = None /\ (op_override o = [] \/ op_override o = [("go://ex.org/m/api#/Pet", JObj [("type", JStr "integer")])])) by (destruct Il as [<-|[<-|[]]]; injection Eo as <-; auto).
  destruct R as (R1 & R2 & R3 & R4). split.
  { destruct (w_input groups [] no_options eq_refl) as (A & B & _); [repeat split; now exists [] | constructor | constructor|]. split; [exact A|]. split; [exact B|]. split.
    - intros path c E _. cbn in E. unfold k_files in E. destruct (String.eqb path _); [injection E as <-|destruct (String.eqb path _); discriminate]. cbn [c_data].
      destruct Id as [<-|[<-|[]]]; (split; [vm_compute; tauto|]; split; [vm_compute; repeat split; try discriminate|]; eexists; split; reflexivity).
    - rewrite R1, R2. split; [split; [vm_compute; tauto|]; split; [vm_compute; repeat split; discriminate | eexists; reflexivity]|]. split; [|repeat constructor].
      destruct R4 as [-> | ->]; [constructor|]. constructor; [|constructor]. cbn [snd]. split; [vm_compute; tauto|]. split; [vm_compute; repeat split; discriminate|]. intros t p (L & _). discriminate L. }
  split; [rewrite R1; intros k I S; repeat (destruct I as [<-|I]; [exact S|]); destruct I|]. split; [rewrite R2; constructor; [|constructor]; eexists; split; [reflexivity|]; split; [vm_compute; tauto|]; split; [reflexivity | intros k x E; cbn in E; destruct (String.eqb_spec k "x-def") as [-> |_]; [reflexivity | discriminate]]|].
  split; [exact (v_loads groups doc o R3)|]. intros s name Vs (g & t & b & p & X). destruct (v_names groups s name p Ig (v_visited _ _ _ Vs) (ex_intro _ g (ex_intro _ t (ex_intro _ b X)))) as (_ & -> & _). repeat split; discriminate.
Qed.
Definition v_at : loc := [SKey "/pets"; SKey "get"; SKey "schema"].
Lemma v_refs q t : lookup (q ++ [SKey "$ref"]) v_doc = Some (JStr t) -> q = SKey "paths" :: v_at.
Proof. intro L. apply refs_of_all in L. vm_compute in L. destruct L as [[= <- <-]|[]]. reflexivity. Qed.
Lemma v_root_refs q t : lookup (q ++ [SKey "$ref"]) k_root = Some (JStr t) -> False.
Proof. intro L. apply refs_of_all in L. exact L. Qed.
Lemma v_sound groups : sound_scopes w_env [w_source groups].
Proof.
  split; [constructor; [|constructor]; split; [reflexivity|]; split; [reflexivity|]; intros pk [= <-]; split; [discriminate | reflexivity]|]. split; [repeat constructor; discriminate|].
  split; [constructor; [|constructor]; cbn; repeat split; repeat constructor; cbn; intuition discriminate|].
  assert (Sc : forall s h ob, In s [w_source groups] -> so_scope s h = Some ob -> ob = {| o_pkg := Some "ex.org/m/api"; o_name := "Pet"; o_type := TNamed 0 |}).
  { intros s h ob [<-|[]] E. cbn in E. destruct (String.eqb h "Pet"); [now injection E as <- | discriminate]. }
  split.
  - intros s h ob Is E. rewrite (Sc s h ob Is E). split; [|exact Logic.I]. split; [reflexivity|]. split; [reflexivity|]. intros pk [= <-]. split; [discriminate | reflexivity].
  - intros os Ho pk name t1 t2 R1 R2. assert (G : forall t, Spec_Types.root w_env os pk name t -> t = TNamed 0); [|now rewrite (G _ R1), (G _ R2)].
    intros t [(i & dd & -> & E & _)|(ob & I & _ & _ & <-)]; [destruct i as [|[|i]]; [reflexivity | discriminate | discriminate]|]. destruct (Ho ob I) as (s & h & Is & E). now rewrite (Sc s h ob Is E).
Qed.
Lemma v_file_ref groups : In groups [[]; v_cmd] -> file_ref_at (v_around groups v_doc) (w_source groups) "paths" v_at "go://ex.org/m/api#/Pet".
Proof.
  intros Ig. exists v_doc, "go://#/Pet". split; [exists "/src/api", "oapi.yaml"; repeat split; [now left | eexists; eexists; split; reflexivity]|].
  split; [vm_compute; tauto|]. split; [reflexivity|]. split; [eexists; split; [vm_compute; reflexivity|]; left; repeat split|]. split; [intros I; repeat (destruct I as [I|I]; [discriminate I|]); destruct I|]. intros _. eexists. eexists. reflexivity.
Qed.
Lemma v_alone groups o : op_root o = k_root -> alone (v_around groups v_doc) o [w_source groups] [0] (SKey "paths" :: v_at).
Proof.
  intros E. split; [|rewrite E; intros q0 t L; now elim (v_root_refs q0 t)]. intros s doc Vs Sd q0 t L. rewrite (v_docs groups v_doc s doc (v_visited _ _ _ Vs) Sd) in L. left. exact (v_refs q0 t L).
Qed.
Lemma v_components groups doc : In groups [[]; v_cmd] -> off_components (v_around groups doc) [w_source groups] [0] (SKey "paths" :: v_at).
Proof. intros _ s name _ _. split; intros (r & E); discriminate E. Qed.
Lemma v_undisturbed groups o : op_root o = k_root -> forall q, Spec_Loc.apart (SKey "paths" :: v_at) q -> undisturbed (v_around groups v_doc) o [w_source groups] [0] q.
Proof.
  intros E q A. split; [|rewrite E; intros q0 t L; now elim (v_root_refs q0 t)]. intros s doc Vs Sd q0 t L. rewrite (v_docs groups v_doc s doc (v_visited _ _ _ Vs) Sd) in L. left. rewrite (v_refs q0 t L). exact A.
Qed.
(** A struct in place, a default operation and the title of the root: a scan
    without commands. *)
Example C85_example_in_place : exists o d p fs, usual_scan no_float (v_around [] v_doc) k_choices w_depths v_options2 o [w_source []] [0] /\ v_scan [] v_doc v_options2 = Ok (Some d, true) /\
  sound_scopes w_env [w_source []] /\ visited (v_around [] v_doc) [w_source []] [0] (w_source []) /\ import_path (so_path (w_source [])) /\
  file_ref_at (v_around [] v_doc) (w_source []) "paths" v_at "go://ex.org/m/api#/Pet" /\ ptr_parse "go://ex.org/m/api#/Pet" = Ok p /\ is_external p = true /\
  declared w_env (TNamed 0) "ex.org/m/api" "Pet" /\ under w_env (TNamed 0) = TStruct fs /\ ptr_string p = loc_text "ex.org/m/api" ["Pet"] /\
  oget (ptr_string p) (op_override o) = None /\ (forall s' n p', visited (v_around [] v_doc) [w_source []] [0] s' -> exports_type s' n p' -> ptr_string p' <> ptr_string p) /\
  alone (v_around [] v_doc) o [w_source []] [0] (SKey "paths" :: v_at) /\ off_components (v_around [] v_doc) [w_source []] [0] (SKey "paths" :: v_at) /\
  lookup ((SKey "paths" :: v_at) ++ [SKey "properties"; SKey "ID"; SKey "type"]) d = Some (JStr "string") /\
  undisturbed (v_around [] v_doc) o [w_source []] [0] [SKey "paths"; SKey "/pets"; SKey "get"; SKey "x-def"] /\ route_match "/pets" "get" "/pets" = Ok true /\
  lookup [SKey "paths"; SKey "/pets"; SKey "get"; SKey "x-def"] v_doc = None /\ lookup [SKey "paths"; SKey "/pets"; SKey "get"; SKey "x-def"] d = Some (JStr "v") /\
  undisturbed (v_around [] v_doc) o [w_source []] [0] [SKey "info"; SKey "title"] /\ off_components (v_around [] v_doc) [w_source []] [0] [SKey "info"; SKey "title"] /\
  lookup [SKey "info"; SKey "title"] k_root = Some (JStr "T") /\ lookup [SKey "info"; SKey "title"] d = Some (JStr "T").
Proof.
  eexists. eexists. eexists. eexists. split; [apply v_usual; [now left | now left | right; now left | reflexivity]|]. split; [vm_compute; reflexivity|]. split; [apply v_sound|]. split; [apply v_visits|].
  split; [split; [discriminate | reflexivity]|]. split; [apply v_file_ref; now left|]. split; [vm_compute; reflexivity|]. split; [reflexivity|]. split; [exists 0; eexists; repeat split|]. split; [reflexivity|]. split; [reflexivity|]. split; [reflexivity|].
  split; [intros s' n p' Vs Es; destruct (v_names [] s' n p' (or_introl eq_refl) (v_visited _ _ _ Vs) Es) as (X & _); discriminate|].
  split; [apply v_alone; reflexivity|]. split; [apply v_components; now left|]. split; [reflexivity|]. split; [apply v_undisturbed; [reflexivity | split; intros (r & E); discriminate E]|]. split; [reflexivity|]. split; [reflexivity|]. split; [reflexivity|].
  split; [apply v_undisturbed; [reflexivity | split; intros (r & E); discriminate E]|]. split; [intros s name _ _; split; intros (r & E); discriminate E|]. split; reflexivity.
Qed.
(** The same with an override instead of the type. *)
Example C85_example_override : exists o d p, usual_scan no_float (v_around [] v_doc) k_choices w_depths v_options o [w_source []] [0] /\ v_scan [] v_doc v_options = Ok (Some d, true) /\
  ptr_parse "go://ex.org/m/api#/Pet" = Ok p /\ oget (ptr_string p) (op_override o) = Some (JObj [("type", JStr "integer")]) /\ tidy (JObj [("type", JStr "integer")]) /\ no_ext (JObj [("type", JStr "integer")]) /\
  lookup ((SKey "paths" :: v_at) ++ [SKey "type"]) d = Some (JStr "integer").
Proof.
  eexists. eexists. eexists. split; [apply v_usual; [now left | now left | now left | reflexivity]|]. split; [vm_compute; reflexivity|]. split; [vm_compute; reflexivity|]. split; [reflexivity|].
  assert (N : no_ext (JObj [("type", JStr "integer")])) by (intros q t p (L & _); apply refs_of_all in L; exact L). split; [split; [vm_compute; tauto|]; split; [vm_compute; repeat split; discriminate | intros t p; apply N]|]. split; [exact N | reflexivity].
Qed.
(** With the command, the same type and the same override as a component. *)
Example C85_example_exported : exists o d o2 d2 p, usual_scan no_float (v_around v_cmd v_doc) k_choices w_depths v_options2 o [w_source v_cmd] [0] /\ v_scan v_cmd v_doc v_options2 = Ok (Some d, true) /\
  usual_scan no_float (v_around v_cmd v_doc) k_choices w_depths v_options o2 [w_source v_cmd] [0] /\ v_scan v_cmd v_doc v_options = Ok (Some d2, true) /\ NoDup (map so_path [w_source v_cmd]) /\
  exports_type (w_source v_cmd) "Pet" p /\ ptr_string p = "go://ex.org/m/api#/Pet" /\ (forall s0 p0, visited (v_around v_cmd v_doc) [w_source v_cmd] [0] s0 -> exports_type s0 "Pet" p0 -> ptr_string p0 = ptr_string p) /\
  undisturbed (v_around v_cmd v_doc) o [w_source v_cmd] [0] [SKey "components"; SKey "schemas"; SKey "Pet"] /\
  lookup ((SKey "paths" :: v_at) ++ [SKey "$ref"]) d = Some (JStr "#/components/schemas/Pet") /\
  lookup [SKey "components"; SKey "schemas"; SKey "Pet"; SKey "properties"; SKey "ID"; SKey "type"] d = Some (JStr "string") /\
  lookup [SKey "components"; SKey "schemas"; SKey "Pet"; SKey "type"] d2 = Some (JStr "integer").
Proof.
  eexists. eexists. eexists. eexists. eexists. split; [apply v_usual; [right; now left | now left | right; now left | reflexivity]|]. split; [vm_compute; reflexivity|]. split; [apply v_usual; [right; now left | now left | now left | reflexivity]|]. split; [vm_compute; reflexivity|].
  split; [repeat constructor; intros []|]. split; [exists ["//openapi:schema Pet"], "//openapi:schema Pet", ":schema Pet"; split; [now left|]; split; [now left|]; split|].
  { exists "/"%char, "/"%char, ":schema Pet". split; [reflexivity|]. split; [exists ""; split; [reflexivity | discriminate]|]. split; intros s E; (do 13 (destruct s as [|? s]; [discriminate|]; injection E as _ E || discriminate E)). }
  { apply (den_schema1 "ex.org/m/api" "Pet" "go://ex.org/m/api#/Pet"); [split; [discriminate | reflexivity] | | left; vm_compute; reflexivity]. right. split; [|split; [|reflexivity]]; intros (u & w & E); (do 4 (destruct u as [|? u]; [discriminate|]; injection E as _ E || discriminate E)). }
  split; [reflexivity|]. split; [intros s0 p0 Vs Es; now destruct (v_names v_cmd s0 "Pet" p0 (or_intror (or_introl eq_refl)) (v_visited _ _ _ Vs) Es) as (_ & _ & ->)|].
  split; [apply v_undisturbed; [reflexivity | split; intros (r & E); discriminate E]|]. split; [reflexivity|]. split; reflexivity.
Qed.
(** A command, but nothing refers to the type: it is in no component. *)
Example C85_example_unused : exists o d, usual_scan no_float (v_around v_cmd v_plain) k_choices w_depths v_options2 o [w_source v_cmd] [0] /\ v_scan v_cmd v_plain v_options2 = Ok (Some d, true) /\
  (forall s doc q t, visited (v_around v_cmd v_plain) [w_source v_cmd] [0] s -> spec_doc_of (v_around v_cmd v_plain) s doc -> lookup (q ++ [SKey "$ref"]) doc = Some (JStr t) -> exists r, t = "#" +++ r) /\ no_ext (op_root o) /\
  lookup [SKey "components"; SKey "schemas"; SKey "Pet"] d = None.
Proof.
  eexists. eexists. split; [apply v_usual; [right; now left | right; now left | right; now left | reflexivity]|]. split; [vm_compute; reflexivity|].
  split; [intros s doc q t Vs Sd L; rewrite (v_docs v_cmd v_plain s doc (v_visited _ _ _ Vs) Sd) in L; apply refs_of_all in L; destruct L|]. split; [intros q t p (L & _); now apply v_root_refs in L | reflexivity].
Qed.
(** The exported type that no file refers to is walked: with a field of type
    error in it, Scan does not get as far as a document. *)
Definition x_env : genv := [{| d_pkg := Some "ex.org/m/api"; d_name := "Pet"; d_under := TStruct [({| f_name := "Err"; f_tag := ""; f_emb := false |}, TNamed 1)] |};
  {| d_pkg := None; d_name := "error"; d_under := TOther 0 |}].
Definition x_around (env : genv) : around :=
  {| ar_load := ar_load (w_around v_cmd); ar_cwd := Ok "/src/api"; ar_gopath := "/go"; ar_missing := fun _ => true; ar_files := k_files v_plain None; ar_std := fun _ => false; ar_env := env |}.
Example C85_example_walked : exists ob L, env_ok w_env /\ obj_ok ob /\ o_pkg ob <> None /\ so_scope (w_source v_cmd) "Pet" = Some ob /\ closed_types w_env (o_type ob) L /\ length L < de_walk w_depths /\
  (forall s' doc q t, visited (v_around v_cmd v_plain) [w_source v_cmd] [0] s' -> spec_doc_of (v_around v_cmd v_plain) s' doc -> lookup (q ++ [SKey "$ref"]) doc = Some (JStr t) -> ~ made_absolute (so_path s') t "go://ex.org/m/api#/Pet") /\
  v_scan v_cmd v_plain [] <> Panic /\
  reaches_universe x_env (TNamed 0) /\ scan no_float 0%Z NInt std_mapping (x_around x_env) k_choices w_depths [] = Panic.
Proof.
  exists {| o_pkg := Some "ex.org/m/api"; o_name := "Pet"; o_type := TNamed 0 |}, [under w_env (TNamed 0); TBasic KString; TPtr (TNamed 0)].
  split; [exact (proj1 (v_sound []))|]. split; [split; [reflexivity|]; split; [reflexivity|]; intros pk [= <-]; split; [discriminate | reflexivity]|]. split; [discriminate|]. split; [reflexivity|].
  assert (Cl : closed_types w_env (TNamed 0) [under w_env (TNamed 0); TBasic KString; TPtr (TNamed 0)]).
  { split; [now left|]. intros t1 tok t2 I S. set (u := under w_env t1) in *. inversion S as [t fs i e E Hin Hx|t e E|t e E|t n e E|t k e E|t dr e E]; subst; fold u in E; rewrite E in I; destruct I as [I|[I|[I|[]]]]; try discriminate I.
    - injection I as <-. destruct Hin as [[= <- <-]|[[= <- <-]|[]]]; [right; now left | right; right; now left].
    - injection I as <-. now left. }
  split; [exact Cl|]. split; [cbn; lia|]. split.
  - intros s' doc q t Vs Sd L. rewrite (v_docs v_cmd v_plain s' doc (v_visited _ _ _ Vs) Sd) in L. apply refs_of_all in L. destruct L.
  - split; [vm_compute; discriminate|]. split; [|vm_compute; reflexivity]. exists ["Err"], [under x_env (TNamed 0)], (TNamed 1). split; [discriminate|]. split; [|split; [repeat constructor; intros [] | exists 1; eexists; repeat split]].
    apply (trail_cons x_env (TNamed 0) "Err" (TNamed 1) [] [] (TNamed 1)); [|constructor]. apply (step_field x_env (TNamed 0) [({| f_name := "Err"; f_tag := ""; f_emb := false |}, TNamed 1)] {| f_name := "Err"; f_tag := ""; f_emb := false |}); [reflexivity | now left | reflexivity].
Qed.
