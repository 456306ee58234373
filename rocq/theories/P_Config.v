(** Properties C64-C66 (configuration), C74 (paths) and C75 (package directories). *)
From Coq Require Import String Ascii List Bool Arith Lia Permutation.
From Verif Require Import GoStr GoStrFacts Json JsonFacts Gabs Container Spec_Merge Spec_Clone MergeFacts MergeApi CloneFacts Specs
  Path Spec_Path PathFacts Config Spec_Config ConfigFacts ConfigApi.
Import ListNotations.
Local Open Scope string_scope.
Local Open Scope list_scope.

(** ** C64 *)
(** [f]: the settings of the configuration file, if one was named. *)
Theorem C64_directory_and_format : forall (other : string -> json -> dec) (fs : filesys) ord wd ff c, rooted wd ->
  full other fs ord wd ff = Ok (c, false) ->
  exists f, ((fl_config ff = "" /\ f = config_zero) \/ (fl_config ff <> "" /\ read_config other fs ord (to_abs (fl_config ff) wd) = Ok (f, false))) /\
    rooted (cf_dir c) /\
    (fl_dir ff <> "" -> forall loc, leads (walk_to [] wd) (fl_dir ff) loc <-> loc = walk_to [] (cf_dir c)) /\
    (fl_dir ff = "" -> cf_dir f <> "" -> forall loc, leads (walk_to [] (dir (to_abs (fl_config ff) wd))) (cf_dir f) loc <-> loc = walk_to [] (cf_dir c)) /\
    (fl_dir ff = "" -> cf_dir f = "" -> cf_dir c = wd) /\
    (fl_format ff <> "" -> cf_format c = fl_format ff) /\
    (fl_format ff = "" -> cf_format f <> "" -> cf_format c = cf_format f) /\
    (fl_format ff = "" -> cf_format f = "" -> cf_format c = "json:pretty").
Proof. intros other fs ord wd ff c Hwd. exact (full_dir other fs ord wd ff Hwd c). Qed.
Print Assumptions C64_directory_and_format.

(** The settings of a configuration file are the texts it gives under those names. *)
Theorem C64_file_settings : forall (other : string -> json -> dec) (fs : filesys) ord file m m' c,
  fs file = Some (Ok (Some (JObj m))) -> (forall p, oget "extends" m <> Some (JStr p)) -> wf (JObj m) -> clone (JObj m) = Ok (JObj m') ->
  read_config other fs ord file = Ok (c, false) ->
  cf_path c = file /\ (forall s, says m "dir" s -> cf_dir c = s) /\ (forall s, says m "format" s -> cf_format c = s) /\ (forall s, says m "output" s -> cf_output c = s).
Proof. intros other fs ord file m m' c Hf He. apply read_config_says. now apply config_doc_plain. Qed.
Print Assumptions C64_file_settings.

(** Without a configuration file nothing can fail. *)
Theorem C64_flags_only : forall (other : string -> json -> dec) (fs : filesys) ord wd ff, fl_config ff = "" ->
  exists c, full other fs ord wd ff = Ok (c, false).
Proof. intros other fs ord wd ff H. unfold full. rewrite H. cbn [nonempty bind]. eexists. reflexivity. Qed.
Print Assumptions C64_flags_only.

(** ** C65 *)
Theorem C65_output : forall (other : string -> json -> dec) (fs : filesys) ord wd ff c, rooted wd ->
  full other fs ord wd ff = Ok (c, false) ->
  exists f, ((fl_config ff = "" /\ f = config_zero) \/ (fl_config ff <> "" /\ read_config other fs ord (to_abs (fl_config ff) wd) = Ok (f, false))) /\
    (asks_file (fl_output ff) -> rooted (cf_output c) /\ forall loc, leads (walk_to [] wd) (fl_output ff) loc <-> loc = walk_to [] (cf_output c)) /\
    (~ asks_file (fl_output ff) -> asks_file (cf_output f) -> rooted (cf_output c) /\ forall loc, leads (walk_to [] (cf_dir c)) (cf_output f) loc <-> loc = walk_to [] (cf_output c)) /\
    (~ asks_file (fl_output ff) -> ~ asks_file (cf_output f) -> cf_output c = "stdout") /\
    cf_output c <> "stderr" /\ cf_output c <> "".
Proof. intros other fs ord wd ff c Hwd. exact (full_output other fs ord wd ff Hwd c). Qed.
Print Assumptions C65_output.

(** The choice of a stream by flag is the choice of no output at all. *)
Theorem C65_stream_flag_ignored : forall (other : string -> json -> dec) (fs : filesys) ord wd ff s, (s = "stdout" \/ s = "stderr") -> fl_output ff = s ->
  full other fs ord wd ff = full other fs ord wd {| fl_config := fl_config ff; fl_dir := fl_dir ff; fl_format := fl_format ff; fl_output := "" |}.
Proof.
  intros other fs ord wd ff s Hs E. unfold full. cbn [fl_config fl_dir fl_format fl_output]. rewrite E.
  assert (X : forall b cur, choose_output s b cur = choose_output "" b cur) by (intros b cur; destruct Hs as [-> | ->]; reflexivity).
  destruct (nonempty (fl_config ff)); [|cbn [bind]; now rewrite X].
  destruct (read_config other fs ord (to_abs (fl_config ff) wd)) as [[f bad]| | |]; cbn [bind]; try reflexivity. destruct bad; [reflexivity | now rewrite X].
Qed.
Print Assumptions C65_stream_flag_ignored.

(** Example file system: a configuration in /etc/oapi extending another. *)
Definition ex_child : list (string * json) :=
  [("dir", JStr "../src/./app"); ("extends", JStr "base.json"); ("info", JObj [("title", JStr "App")])].
Definition ex_parent : list (string * json) :=
  [("dir", JStr "/nowhere"); ("extends", JStr "third.json"); ("format", JStr "go"); ("info", JObj [("title", JStr "Base"); ("version", JStr "1")]); ("output", JStr "out/spec.json")].
Definition ex_fs : filesys := fun p =>
  if String.eqb p "/etc/oapi/oapi.json" then Some (Ok (Some (JObj ex_child)))
  else if String.eqb p "/etc/oapi/base.json" then Some (Ok (Some (JObj ex_parent))) else None.
Definition ex_other (k : string) (v : json) : dec := DOk.
Definition ex_ord (p : list string) (l : list (string * json)) := l.
Definition ex_flags (cfg d f o : string) : flags := {| fl_config := cfg; fl_dir := d; fl_format := f; fl_output := o |}.
Example C64_ex_file : exists c, full ex_other ex_fs ex_ord "/etc" (ex_flags "oapi/oapi.json" "" "" "stdout") = Ok (c, false) /\
  cf_dir c = "/etc/src/app" /\ cf_format c = "go" /\ cf_output c = "/etc/src/app/out/spec.json".
Proof. eexists. vm_compute. auto. Qed.
Example C64_ex_flags : exists c, full ex_other ex_fs ex_ord "/etc" (ex_flags "oapi/oapi.json" "x/../y" "yaml" "o.yaml") = Ok (c, false) /\
  cf_dir c = "/etc/y" /\ cf_format c = "yaml" /\ cf_output c = "/etc/o.yaml".
Proof. eexists. vm_compute. auto. Qed.

(** The command goes on when reading the configuration file failed (C68), with
    what had been decoded until then: so the claim for all runs is refuted.  Here
    the file is read in full, but one other field has the wrong type. *)
Theorem C65_never_stderr_refuted : exists (other : string -> json -> dec) (fs : filesys) ord wd ff c, rooted wd /\
  (forall k v, other k v <> DOk -> k = "tags" /\ v = JStr "x") /\
  full other fs ord wd ff = Ok (c, true) /\ cf_output c = "stderr".
Proof.
  exists (fun k v => match v with JStr s => if String.eqb k "tags" && String.eqb s "x" then DSave else DOk | _ => DOk end).
  exists (fun _ => Some (Ok (Some (JObj [("output", JStr "stderr"); ("tags", JStr "x")])))), ex_ord, "/w", (ex_flags "c.json" "" "" "out.json").
  eexists. split; [now exists "w"|]. split; [|vm_compute; auto].
  intros k v H. destruct v as [|b|n|x|l|m]; try (exfalso; apply H; reflexivity). cbn in H. destruct (String.eqb_spec k "tags") as [->|N]; cbn [andb] in H; [|now elim H]. revert H.
  destruct (String.eqb_spec x "x") as [->|N]; intro H; [auto | now elim H].
Qed.
Print Assumptions C65_never_stderr_refuted.

(** ** C66 *)
Theorem C66_fills_missing_leaves : forall (other : string -> json -> dec) (fs : filesys) ord file p d e,
  perm_oracle ord -> wf (JObj d) -> wf (JObj e) -> ~ In NBad (numbers (JObj d)) -> ~ In NBad (numbers (JObj e)) ->
  fs file = Some (Ok (Some (JObj d))) -> oget "extends" d = Some (JStr p) -> fs (to_abs p (dir file)) = Some (Ok (Some (JObj e))) ->
  exists c b, read_config other fs ord file = Ok (c, b) /\
    (forall q v, leaf_at q (JObj d) v \/ (leaf_at q (JObj e) v /\ free_at q (JObj d)) -> exists v', same_but_numbers as_double v v' /\ leaf_at q (cf_doc c) v') /\
    (forall q v', leaf_at q (cf_doc c) v' -> exists v, same_but_numbers as_double v v' /\ (leaf_at q (JObj d) v \/ (leaf_at q (JObj e) v /\ free_at q (JObj d)))).
Proof. intros other fs ord file p d e. exact (extends_leaves other fs ord file p d e). Qed.
Print Assumptions C66_fills_missing_leaves.

Theorem C66_settings : forall (other : string -> json -> dec) (fs : filesys) ord file p d e c k s,
  perm_oracle ord -> wf (JObj d) -> wf (JObj e) -> ~ In NBad (numbers (JObj d)) -> ~ In NBad (numbers (JObj e)) ->
  fs file = Some (Ok (Some (JObj d))) -> oget "extends" d = Some (JStr p) -> fs (to_abs p (dir file)) = Some (Ok (Some (JObj e))) ->
  read_config other fs ord file = Ok (c, false) -> In k ["dir"; "format"; "output"] ->
  (In (k, JStr s) d \/ ((forall k' v, In (k', v) d -> equal_fold k' k = false) /\ says e k s)) ->
  s = (if String.eqb k "dir" then cf_dir c else if String.eqb k "format" then cf_format c else cf_output c).
Proof. intros other fs ord file p d e c k s Ho Hd He Bd Be Fd Ex Fe. exact (extends_says other fs ord file p d e Ho Hd He Bd Be Fd Ex Fe c k s). Qed.
Print Assumptions C66_settings.

(** No other file matters: an extends entry of the extended file is not followed. *)
Theorem C66_one_level : forall (other : string -> json -> dec) (fs fs' : filesys) ord file d p,
  fs file = Some (Ok (Some (JObj d))) -> oget "extends" d = Some (JStr p) ->
  fs' file = fs file -> fs' (to_abs p (dir file)) = fs (to_abs p (dir file)) ->
  read_config other fs' ord file = read_config other fs ord file.
Proof. intros other fs fs' ord file d p. exact (config_doc_local other fs fs' ord file d p). Qed.
Print Assumptions C66_one_level.

(** An extended file that cannot be read is an error, and nothing is configured. *)
Theorem C66_missing_file : forall (other : string -> json -> dec) (fs : filesys) ord file d p,
  fs file = Some (Ok (Some (JObj d))) -> oget "extends" d = Some (JStr p) ->
  (fs (to_abs p (dir file)) = None \/ fs (to_abs p (dir file)) = Some Err) ->
  read_config other fs ord file = Ok (config_zero, true).
Proof.
  intros other fs ord file d p Fd Ex H. apply config_doc_err. rewrite (config_doc_extends fs ord file d p Fd Ex).
  unfold read_file, parent_of. change (if is_abs p then p else join2 (dir file) p) with (to_abs p (dir file)). destruct H as [-> | ->]; reflexivity.
Qed.
Print Assumptions C66_missing_file.

(** But a configuration with a number JSON cannot express (.nan or .inf in YAML)
    is silently read as an empty one: no error, no settings. *)
Theorem C66_nan_silently_empty : forall (other : string -> json -> dec) (fs : filesys) ord file d,
  fs file = Some (Ok (Some (JObj d))) -> (forall p, oget "extends" d <> Some (JStr p)) -> In NBad (numbers (JObj d)) ->
  exists c, read_config other fs ord file = Ok (c, false) /\ cf_dir c = "" /\ cf_format c = "" /\ cf_output c = "" /\ cf_doc c = JNull.
Proof.
  intros other fs ord file d Fd Ex B. exists (set_path file config_zero). split; [|repeat split].
  apply (read_config_nan other fs ord file (JObj d)); [now apply config_doc_plain | now apply clone_fails].
Qed.
Print Assumptions C66_nan_silently_empty.

Example C66_ex_hyp : wf (JObj ex_child) /\ wf (JObj ex_parent) /\ ex_fs "/etc/oapi/oapi.json" = Some (Ok (Some (JObj ex_child))) /\
  oget "extends" ex_child = Some (JStr "base.json") /\ ex_fs (to_abs "base.json" (dir "/etc/oapi/oapi.json")) = Some (Ok (Some (JObj ex_parent))) /\
  ~ In NBad (numbers (JObj ex_child)) /\ ~ In NBad (numbers (JObj ex_parent)) /\ perm_oracle ex_ord.
Proof.
  split; [vm_compute; repeat constructor|]. split; [vm_compute; repeat constructor|]. repeat (split; [reflexivity|]).
  split; [intros []|]. split; [intros []|]. intros q l. apply Permutation_refl.
Qed.
Example C66_ex : exists c, read_config ex_other ex_fs ex_ord "/etc/oapi/oapi.json" = Ok (c, false) /\
  cf_doc c = JObj [("dir", JStr "../src/./app"); ("extends", JStr "base.json"); ("format", JStr "go");
    ("info", JObj [("title", JStr "App"); ("version", JStr "1")]); ("output", JStr "out/spec.json")].
Proof. eexists. vm_compute. auto. Qed.
Example C66_ex_nan : In NBad (numbers (JObj [("dir", JStr "d"); ("info", JObj [("x", JNum NBad)])])).
Proof. now left. Qed.

(** ** C74 *)
Theorem C74_clean : forall p, shortest (clean p) /\ clean (clean p) = clean p /\ (forall wd loc, leads wd (clean p) loc <-> leads wd p loc).
Proof. intro p. split; [apply clean_shortest|]. split; [apply clean_idem|]. intros wd loc. apply leads_clean. Qed.
Print Assumptions C74_clean.
Theorem C74_clean_shortest_unchanged : forall p, shortest p -> clean p = p.
Proof. exact clean_id. Qed.
Print Assumptions C74_clean_shortest_unchanged.
Theorem C74_absolute : forall p base, rooted base ->
  rooted (to_abs p base) /\ (rooted p -> to_abs p base = p) /\ (~ rooted p -> shortest (to_abs p base)) /\
  (forall loc, leads (walk_to [] base) p loc <-> loc = walk_to [] (to_abs p base)).
Proof.
  intros p base R. destruct (to_abs_spec p base R) as (A & _ & C). split; [exact A|]. split; [|split; [|exact C]].
  - intro Rp. apply abs_rooted in Rp. unfold to_abs. now rewrite Rp.
  - intro Np. unfold to_abs. destruct (is_abs p) eqn:E; [elim Np; now apply abs_rooted|]. destruct R as (t & ->). unfold join2. cbn [String.eqb negb]. apply clean_shortest.
Qed.
Print Assumptions C74_absolute.
(** The directory of an absolute path. *)
Theorem C74_dir : forall a b, has_char "/" b = false ->
  walk_to [] (dir (String "/" (a +++ String "/" b))) = walk_to [] (String "/" a) /\ rooted (dir (String "/" (a +++ String "/" b))).
Proof. exact dir_spec. Qed.
Print Assumptions C74_dir.
Example C74_ex : clean "/../a//b/./c/.." = "/a/b" /\ clean "a/../../b/" = "../b" /\ to_abs "../x" "/a/b" = "/a/x" /\ dir "/a/b/c" = "/a/b".
Proof. repeat split. Qed.
Example C74_ex_shortest : shortest "../b" /\ rooted "/a" /\ ~ rooted "a".
Proof.
  split; [right; right; right; exists 1, ["b"]; split; [discriminate|]; split; [|reflexivity]; constructor; [|constructor]; repeat split; discriminate|].
  split; [now exists "a" | intros (r & H); discriminate].
Qed.

(** ** C75 *)
Lemma replace_prefix old s : old <> "" -> replace_first old "" (old +++ s) = s.
Proof.
  intro N. destruct old as [|c old]; [now elim N|]. cbn [append replace_first].
  change (String c (old +++ s)) with (String c old +++ s). rewrite has_prefix_app. cbn [append].
  clear N. induction old as [|x old IH] in c |- *; [reflexivity|]. cbn [String.length skipn_s append]. exact (IH x).
Qed.
Theorem C75_module_package : forall gopath missing m rest, rooted (m_dir m) -> m_path m <> "" ->
  exists d, get_pkg_path gopath missing (m_path m +++ rest) (Some m) = Ok d /\ shortest d /\ rooted d /\
    walk_to [] d = walk_to (walk_to [] (m_dir m)) rest.
Proof.
  intros gopath missing m rest R N. unfold get_pkg_path. assert (Nd : m_dir m <> "") by (destruct R as (t & ->); discriminate).
  rewrite (proj2 (String.eqb_neq _ _) Nd), (proj2 (String.eqb_neq _ _) N), (replace_prefix _ _ N).
  eexists. split; [reflexivity|]. split; [|split].
  - unfold join2. rewrite (proj2 (String.eqb_neq _ _) Nd). cbn [negb]. apply clean_shortest.
  - apply abs_rooted. rewrite join_abs by exact Nd. now apply abs_rooted.
  - apply walk_join; [exact Nd | auto].
Qed.
Print Assumptions C75_module_package.
(** A module whose files are not there (no directory) is an error. *)
Theorem C75_module_without_directory : forall gopath missing path m, m_dir m = "" -> get_pkg_path gopath missing path (Some m) = Err.
Proof. intros gopath missing path m H. unfold get_pkg_path. now rewrite H. Qed.
Print Assumptions C75_module_without_directory.
(** Without a module the package is looked for directly below GOPATH, not in its
    "src" directory. *)
Theorem C75_gopath_without_src : forall gopath missing path, rooted gopath ->
  (get_pkg_path gopath missing path None = Err <-> missing (join2 gopath path) = true) /\
  (forall d, get_pkg_path gopath missing path None = Ok d -> walk_to [] d = walk_to (walk_to [] gopath) path).
Proof.
  intros gopath missing path R. unfold get_pkg_path. split.
  - destruct (missing (join2 gopath path)); split; congruence.
  - intros d H. destruct (missing (join2 gopath path)); [discriminate|]. injection H as <-. apply walk_join; [destruct R as (t & ->); discriminate | auto].
Qed.
Print Assumptions C75_gopath_without_src.
Example C75_ex : get_pkg_path "/go" (fun _ => false) "ex.org/m/a/b" (Some {| m_path := "ex.org/m"; m_dir := "/home/u/m" |}) = Ok "/home/u/m/a/b" /\
  get_pkg_path "/go" (fun _ => false) "ex.org/m" None = Ok "/go/ex.org/m".
Proof. split; reflexivity. Qed.
