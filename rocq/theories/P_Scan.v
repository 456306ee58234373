(** Properties C58-C63: visiting packages, comment commands, exports, specification files. *)
From Coq Require Import String Ascii List Bool Arith ZArith Permutation Lia.
From Verif Require Import GoStr GoStrFacts Json JsonFacts Gabs Container Spec_Loc LocFacts Url Pointer Spec_Ptr PtrFacts Resolver
  Pkgs Spec_Pkgs PkgFacts Cmds Spec_Cmds CmdFacts Path Specs Spec_Specs SpecFacts.
Import ListNotations.
Local Open Scope string_scope.
Local Open Scope nat_scope.
Local Open Scope list_scope.

(** ** C58 *)
(** There is one order of the packages -- given by the import graph and the
    roots alone -- without repetitions, of exactly the packages reachable
    through packages outside the standard library, in which a package comes
    after each of its imports (unless the import leads back to it), such that
    scanning is: running the scanner over that order.  This holds for every
    scanner, every map iteration order and every implementation of sort.Strings. *)
Theorem C58_order : forall ps std roots, loaded ps -> (forall i, In i roots -> i < length ps) ->
  exists l, NoDup l /\
    (forall x, In x l <-> exists r, In r roots /\ reach std ps r x) /\
    (forall x y, In x l -> imports ps x y -> nonstd std ps y -> ~ reach std ps y x -> precedes y x l) /\
    (forall fuel ord srt A (fn : nat -> A -> res (A * bool)) a, length ps < fuel -> (forall i l, Permutation (ord i l) l) -> is_string_sort srt ->
       match run fn l a with
       | Ok (a', es) => exists errs, scan_pkgs fn std ord srt ps fuel (map Some roots) a = Ok (a', errs) /\
                          Permutation errs (flat_map (load_errors ps) l ++ map EScan es)
       | Err => scan_pkgs fn std ord srt ps fuel (map Some roots) a = Err
       | Panic => scan_pkgs fn std ord srt ps fuel (map Some roots) a = Panic
       | OutOfFuel => scan_pkgs fn std ord srt ps fuel (map Some roots) a = OutOfFuel
       end).
Proof. exact scan_spec. Qed.
(** No package of the standard library is scanned. *)
Lemma reach_nonstd std ps i j : reach std ps i j -> nonstd std ps j.
Proof. induction 1; assumption. Qed.
(** With acyclic imports: every import outside the standard library comes first. *)
Theorem C58_acyclic : forall ps std roots, loaded ps -> (forall i, In i roots -> i < length ps) ->
  (forall x y, imports ps x y -> ~ reach std ps y x) ->
  forall fuel ord srt, length ps < fuel -> (forall i l, Permutation (ord i l) l) -> is_string_sort srt ->
  exists l errs, scan_pkgs (fun i seen => Ok (seen ++ [i], false)) std ord srt ps fuel (map Some roots) [] = Ok (l, errs) /\
    NoDup l /\ Forall (nonstd std ps) l /\
    (forall r, In r roots -> nonstd std ps r -> In r l) /\
    (forall x y, In x l -> imports ps x y -> nonstd std ps y -> precedes y x l).
Proof.
  intros ps std roots Hl Hr Ac fuel ord srt Hf Ho Hs. destruct (scan_spec ps std roots Hl Hr) as (l & N & R & D & E).
  specialize (E fuel ord srt _ (fun i seen => Ok (seen ++ [i], false)) [] Hf Ho Hs).
  assert (Rn : forall l a, run (fun i seen => Ok (seen ++ [i], false)) l a = Ok (a ++ l, [])).
  { clear. induction l as [|i l IH]; intro a; cbn; [now rewrite app_nil_r|]. rewrite IH. cbn. now rewrite <- app_assoc. }
  rewrite Rn in E. destruct E as (errs & E & _). exists l, errs. split; [exact E|]. split; [exact N|]. split; [|split].
  - apply Forall_forall. intros x Hx. apply R in Hx as (r & _ & Hx). exact (reach_nonstd _ _ _ _ Hx).
  - intros r Hr' Hn. apply R. exists r. split; [exact Hr' | now constructor].
  - intros x y Hx Hi Hn. apply D; auto.
Qed.
(** A nil package among the given ones is not skipped: the visit never returns
    normally (the intended nil check comes after the first dereference). *)
Theorem C58_nil_refuted : forall ps std ord srt fuel A (fn : nat -> A -> res (A * bool)) roots a r,
  In None roots -> scan_pkgs fn std ord srt ps fuel roots a <> Ok r.
Proof.
  intros ps std ord srt fuel A fn roots a r Hin. unfold scan_pkgs. generalize (@nil nat, @nil serr, a) as s.
  induction roots as [|x l IH]; intro s; [destruct Hin|]. cbn [visit_all]. destruct Hin as [->|Hin].
  - destruct fuel; cbn; discriminate.
  - destruct (visit fn std ord srt ps fuel x s) as [s'| | |]; cbn [bind]; try discriminate. now apply IH.
Qed.

(** main imports b, a and fmt; a imports b. *)
Definition ex_pkgs : pkgs := [
  {| g_path := "ex/main"; g_errors := 0; g_imports := [("ex/a", Some 1); ("ex/b", Some 2); ("fmt", Some 3)] |};
  {| g_path := "ex/a"; g_errors := 1; g_imports := [("ex/b", Some 2)] |};
  {| g_path := "ex/b"; g_errors := 0; g_imports := [] |};
  {| g_path := "fmt"; g_errors := 0; g_imports := [("ex/b", Some 2)] |}].
Example C58_example : loaded ex_pkgs /\ is_string_sort sort_s /\
  (forall x y, imports ex_pkgs x y -> ~ reach (fun p => String.eqb p "fmt") ex_pkgs y x) /\
  scan_pkgs (fun i seen => Ok (seen ++ [i], Nat.eqb i 2)) (fun p => String.eqb p "fmt") (fun _ l => rev l) sort_s ex_pkgs 5 [Some 0; Some 0; Some 1] [] =
    Ok ([2; 1; 0], [ELoad 1; EScan 2]).
Proof.
  split; [|split; [exact sort_s_ok | split; [|reflexivity]]].
  - repeat constructor; cbn; try (intros [|[|[]]]; discriminate); try (intros [|[]]; discriminate); try (intros []);
      try (eexists; split; [reflexivity | lia]).
  - assert (K : forall x y, reach (fun p => String.eqb p "fmt") ex_pkgs x y -> x = 3 \/ x <= y).
    { induction 1 as [|i j k (p & Ei & Hs) (p' & path & Ei' & Hi) _ IH]; [now right|].
      destruct i as [|[|[|[|i]]]]; [right; lia | | | now left | destruct i; discriminate].
      - injection Ei' as <-. destruct Hi as [E|[]]. injection E as _ <-. destruct IH; [discriminate | right; lia].
      - injection Ei' as <-. destruct Hi. }
    intros x y (p & path & Ex & Hi) Hr.
    destruct x as [|[|[|[|x]]]]; [| | | |destruct x; discriminate]; injection Ex as <-; cbn in Hi.
    + pose proof (K _ _ Hr) as Kr. destruct Hi as [E|[E|[E|[]]]]; injection E as _ <-; [lia | lia|].
      inversion Hr as [i (p & Ep & Hs)|i j k (p & Ep & Hs) _ _]; subst; injection Ep as <-; discriminate Hs.
    + destruct Hi as [E|[]]. injection E as _ <-. destruct (K _ _ Hr); lia.
    + destruct Hi.
    + destruct Hi as [E|[]]. injection E as _ <-.
      inversion Hr as [i N|i j k N (p & pa & Ep & Hi) R]; subst. injection Ep as <-. destruct Hi.
Qed.

(** ** C59 *)
(** Whatever scanners fail, every package is scanned, and the collected errors
    are exactly the load errors of the visited packages and one error for each
    failing scanner. *)
Theorem C59_errors : forall ps std roots, loaded ps -> (forall i, In i roots -> i < length ps) ->
  exists l, (forall x, In x l <-> exists r, In r roots /\ reach std ps r x) /\
  forall bad fuel ord srt, length ps < fuel -> (forall i l, Permutation (ord i l) l) -> is_string_sort srt ->
  exists errs, scan_pkgs (fun i seen => Ok (seen ++ [i], bad i)) std ord srt ps fuel (map Some roots) [] = Ok (l, errs) /\
    (errs = [] <-> forall x p, In x l -> nth_error ps x = Some p -> g_errors p = 0 /\ bad x = false) /\
    (forall x, In (ELoad x) errs <-> In x l /\ exists p, nth_error ps x = Some p /\ 0 < g_errors p) /\
    (forall x, In (EScan x) errs <-> In x l /\ bad x = true).
Proof.
  intros ps std roots Hl Hr. destruct (scan_spec ps std roots Hl Hr) as (l & N & R & _ & E). exists l. split; [exact R|].
  intros bad fuel ord srt Hf Ho Hs. specialize (E fuel ord srt _ (fun i seen => Ok (seen ++ [i], bad i)) [] Hf Ho Hs).
  assert (Rn : forall l a, run (fun i seen => Ok (seen ++ [i], bad i)) l a = Ok (a ++ l, filter bad l)).
  { clear. induction l as [|i l IH]; intro a; cbn; [now rewrite app_nil_r|]. rewrite IH. cbn. rewrite <- app_assoc. cbn. now destruct (bad i). }
  rewrite Rn in E. destruct E as (errs & E & P). exists errs. split; [exact E|].
  assert (L : forall x, In (ELoad x) errs <-> In x l /\ exists p, nth_error ps x = Some p /\ 0 < g_errors p).
  { intro x. assert (In (ELoad x) errs <-> In (ELoad x) (flat_map (load_errors ps) l ++ map EScan (filter bad l))) as ->.
    { split; apply Permutation_in; [exact P | now apply Permutation_sym]. }
    rewrite in_app_iff, in_flat_map, in_map_iff. unfold load_errors. split.
    - intros [(y & Hy & H)|(y & H & _)]; [|discriminate]. destruct (nth_error ps y) as [p|] eqn:Ep; [|destruct H].
      pose proof (repeat_spec _ _ _ H) as Q. injection Q as ->. split; [exact Hy|]. exists p. split; [exact Ep|].
      destruct (g_errors p); [destruct H | lia].
    - intros (Hx & p & Ep & Hp). left. exists x. split; [exact Hx|]. rewrite Ep. destruct (g_errors p); [lia | now left]. }
  assert (S : forall x, In (EScan x) errs <-> In x l /\ bad x = true).
  { intro x. assert (In (EScan x) errs <-> In (EScan x) (flat_map (load_errors ps) l ++ map EScan (filter bad l))) as ->.
    { split; apply Permutation_in; [exact P | now apply Permutation_sym]. }
    rewrite in_app_iff, in_flat_map, in_map_iff. unfold load_errors. rewrite <- filter_In. split.
    - intros [(y & Hy & H)|(y & H & Hy)]; [|congruence]. destruct (nth_error ps y) as [p|]; [|destruct H]. now apply repeat_spec in H.
    - intro H. right. now exists x. }
  split; [|now split]. split.
  - intros -> x p Hx Ep. split.
    + destruct (g_errors p) eqn:G; [reflexivity|]. exfalso. apply (proj2 (L x)). split; [exact Hx|]. exists p. split; [exact Ep | lia].
    + destruct (bad x) eqn:B; [|reflexivity]. exfalso. apply (proj2 (S x)). now split.
  - intro H. destruct errs as [|[x|x] errs]; [reflexivity| |].
    + destruct (proj1 (L x) (or_introl eq_refl)) as (Hx & p & Ep & Hp). destruct (H x p Hx Ep). lia.
    + destruct (proj1 (S x) (or_introl eq_refl)) as (Hx & B). pose proof Hx as Hx'. apply R in Hx' as (r & _ & Hx').
      destruct (reach_nonstd _ _ _ _ Hx') as (p & Ep & _). destruct (H x p Hx Ep). congruence.
Qed.
(** One failing scanner, one package with a load error: everything is still scanned (C58_example),
    and both are reported. *)
Example C59_example : (forall i, In i [0] -> i < length ex_pkgs) /\
  scan_pkgs (fun i seen => Ok (seen ++ [i], Nat.eqb i 2)) (fun p => String.eqb p "fmt") (fun _ l => l) sort_s ex_pkgs 5 [Some 0] [] = Ok ([2; 1; 0], [ELoad 1; EScan 2]) /\
  scan_pkgs (fun i seen => Ok (seen ++ [i], false)) (fun p => String.eqb p "fmt") (fun _ l => l) sort_s ex_pkgs 5 [Some 2] [] = Ok ([2], []).
Proof. split; [|split; reflexivity]. intros i [<-|[]]. cbn. lia. Qed.

(** ** C60 *)
(** The comments of a group: exactly those that start, after the two bytes of
    the comment marker, with openapi. *)
Theorem C60_comments : forall g bs, parse_comment_group g = Ok bs <-> bodies g bs.
Proof. exact comment_group_spec. Qed.
(** Go comments are never shorter than their marker: no panic. *)
Theorem C60_comments_total : forall g, Forall (fun t => 2 <= String.length t) g -> exists bs, parse_comment_group g = Ok bs.
Proof. intros g H. now apply (proj2 (proj2 (comment_group_outcome g))). Qed.
(** What a command is; everything else is an error. *)
Theorem C60_command : forall pkg body, (forall c, parse_cmd pkg body = Ok c <-> denotes pkg body c) /\
  ((forall c, ~ denotes pkg body c) -> parse_cmd pkg body = Err).
Proof.
  intros pkg body. split; [intro c; apply parse_cmd_spec|]. intro H. destruct (parse_cmd_outcome pkg body) as [(c & E)|E]; [|exact E].
  elim (H c). now apply parse_cmd_spec.
Qed.
Theorem C60_local_schema : forall pkg name, import_path pkg -> name <> "" ->
  (forall c, In c [" "; "/"; "#"; "%"; "~"]%char -> has_char c name = false) ->
  exists p, parse_cmd pkg (":schema " +++ name) = Ok (CSchema name p) /\ ptr_string p = "go://" +++ pkg +++ "#/" +++ name /\ p_frag p = [name].
Proof.
  intros pkg name Hi Hn Hc. destruct (local_schema pkg name) as (p & E & S & _ & F); [exact Hi | split; [exact Hn | apply Hc; cbn; tauto] | | | | |exists p; auto];
  apply Hc; cbn; tauto.
Qed.
(** A package is recorded with all its commands in order, or, if one of them is
    malformed, reported and left out. *)
Theorem C60_package : forall s m, Forall (Forall (fun t => 2 <= String.length t)) (cs_groups s) ->
  exists bss, Forall2 bodies (cs_groups s) bss /\
    ((exists cc, Forall2 (denotes (cs_types s)) (concat bss) cc /\ scan_cmds s m = Ok (oset (cs_path s) cc m, false)) \/
     ((exists b, In b (concat bss) /\ forall c, ~ denotes (cs_types s) b c) /\ scan_cmds s m = Ok (m, true))).
Proof. exact scan_cmds_spec. Qed.
Example C60_example : import_path "ex.org/api" /\
  parse_comment_group ["// Pet"; "//openapi:schema Pet  "; "// openapi:schema Not"; "//openapi"] = Ok [":schema Pet"; ""] /\
  parse_cmd "ex.org/api" ":schema Pet go://ex.org/b#/P" = (do p <- ptr_parse "go://ex.org/b#/P" ; Ok (CSchema "Pet" p)) /\
  parse_cmd "ex.org/api" "" = Ok (CRoot []) /\ parse_cmd "ex.org/api" ":root" = Ok (CRoot []) /\
  parse_cmd "ex.org/api" ":path /x" = Err /\ parse_cmd "ex.org/api" ":schema" = Err /\ parse_cmd "ex.org/api" ":schema a b c" = Err /\
  parse_cmd "ex.org/api" "schema a" = Err /\ parse_cmd "ex.org/api" ":schema  a" = Err.
Proof. split; [split; [discriminate | reflexivity]|]. repeat split. Qed.

(** ** C61 *)
(** An argument that does not parse as a pointer is accepted all the same: the
    command gets the pointer with the URL and an empty fragment, or the zero
    pointer when even the URL is malformed. *)
Theorem C61_malformed_accepted : forall pkg name a, name <> "" -> has_char " " name = false -> a <> "" -> has_char " " a = false ->
  (occurs "://" a \/ occurs "#" a) -> ptr_parse a = Err ->
  exists p, parse_cmd pkg (":schema " +++ name +++ " " +++ a) = Ok (CSchema name p) /\ p_frag p = [] /\
    ((url_parse a = None /\ p = new_pointer) \/ url_parse a = Some (p_url p)).
Proof.
  intros pkg name a N1 N2 A1 A2 Ho He.
  destruct (url_parse a) as [u|] eqn:U.
  - exists {| p_url := u; p_frag := [] |}. split; [|split; [reflexivity | now right]]. apply parse_cmd_spec.
    apply (den_schema2 pkg name a a); [now split | now split | now left|]. right. split; [exact He|]. split; [reflexivity|]. right. exact U.
  - exists new_pointer. split; [|split; [reflexivity | now left]]. apply parse_cmd_spec.
    apply (den_schema2 pkg name a a); [now split | now split | now left|]. right. split; [exact He|]. split; [reflexivity|]. left. now split.
Qed.
(** Both cases occur; and a single URI argument becomes the name of the component. *)
Example C61_example : ptr_parse "go://ex#Pet" = Err /\ url_parse "go://ex#Pet" <> None /\ ptr_parse ":://x" = Err /\ url_parse ":://x" = None /\
  (exists p, parse_cmd "p" ":schema go://ex#/Pet" = Ok (CSchema "go://ex#/Pet" p) /\ ptr_string p = "go://ex#/Pet").
Proof. repeat split; try discriminate. eexists. split; reflexivity. Qed.

(** ** C62 *)
Theorem C62_exports : forall ord m, Permutation (ord m) m ->
  (exported_components ord m = Err <-> ~ NoDup (map (fun x => ptr_string (snd x)) (flat_map (fun kv => schemas_of (snd kv)) m))) /\
  (forall es, exported_components ord m = Ok es ->
     Permutation (map (fun e => (e_name e, e_ptr e)) es) (flat_map (fun kv => schemas_of (snd kv)) m) /\
     NoDup (map (fun e => ptr_string (e_ptr e)) es) /\ Forall (fun e => e_kind e = KSchema) es) /\
  (exported_components ord m = Err \/ exists es, exported_components ord m = Ok es).
Proof. exact exported_iff. Qed.
(** Within one iteration order the exports come in command order. *)
Theorem C62_in_order : forall ord m es, exported_components ord m = Ok es ->
  map (fun e => (e_name e, e_ptr e)) es = flat_map (fun kv => schemas_of (snd kv)) (ord m).
Proof.
  intros ord m es H. destruct (exported_spec ord m) as [(_ & E)|(_ & E)]; [|congruence]. rewrite E in H. injection H as <-.
  rewrite map_map. rewrite (map_ext _ (fun x => x)) by (now intros []). apply map_id.
Qed.
(** The pointers handed to the resolver are those of the schema commands. *)
Theorem C62_pointers : forall ord ord1 ord2 m, Permutation (ord m) m -> (forall l, Permutation (ord1 l) l) -> (forall l, Permutation (ord2 l) l) ->
  (forall k p, oget k (map_pointers ord ord1 ord2 m) = Some p -> ptr_string p = k /\ exists n, commands_schema m n p) /\
  (forall n p, commands_schema m n p -> exists p', oget (ptr_string p) (map_pointers ord ord1 ord2 m) = Some p').
Proof.
  intros ord ord1 ord2 m P P1 P2. destruct (map_pointers_spec ord ord1 ord2 m P P1 P2) as (_ & A & B). split; [exact A|].
  intros n p H. specialize (B n p H). destruct (oget _ _) as [p'|]; [now exists p' | now elim B].
Qed.
(** Two exports may share a name: nothing checks names. *)
Theorem C62_same_name_refuted : forall name p q, ptr_string p <> ptr_string q ->
  exported_components (fun m => m) [("a", [CSchema name p]); ("b", [CSchema name q])] =
    Ok [{| e_kind := KSchema; e_name := name; e_ptr := p |}; {| e_kind := KSchema; e_name := name; e_ptr := q |}].
Proof.
  intros name p q N. unfold exported_components. cbn [map concat snd app export_all].
  change (exports_get [] p) with (@None export). cbn [app export_all]. unfold exports_get. cbn [find e_ptr].
  destruct (String.eqb_spec (ptr_string p) (ptr_string q)); [contradiction | reflexivity].
Qed.
Example C62_example : exists p q, parse_cmd "ex/a" ":schema Pet" = Ok (CSchema "Pet" p) /\ parse_cmd "ex/b" ":schema Pet" = Ok (CSchema "Pet" q) /\
  ptr_string p <> ptr_string q /\ exported_components (@rev _) [("ex/a", [CSchema "Pet" p]); ("ex/b", [CSchema "Other" p])] = Err.
Proof. do 2 eexists. split; [reflexivity|]. split; [reflexivity|]. split; [discriminate | reflexivity]. Qed.

(** ** C63 *)
(** Every specification file of the package is kept with its reference texts
    made absolute and nothing else changed; files without an openapi member are
    left out; the pointers collected are those of the references.  A reference
    that does not parse makes the whole package fail, without a document. *)
Theorem C63_absolute : forall ord gopath missing fs s st d ff, (forall n l, Permutation (ord n l) l) -> import_path (ss_path s) ->
  get_pkg_path gopath missing (ss_path s) (ss_module s) = Ok d -> read_dir fs d = Ok ff -> Forall good_file ff -> sorted (sp_ptrs st) ->
  ((forall t, file_ref ff t -> exists p, ptr_parse t = Ok p) ->
   exists g pp', (forall t, file_ref ff t -> made_absolute (ss_path s) t (g t)) /\
     scan_specs ord gopath missing fs s st = Ok ({| sp_conts := sp_conts st ++ map (rewritten g) (filter (fun f => c_existsp "openapi" (f_cont f)) ff); sp_ptrs := pp' |}, false) /\
     sorted pp' /\ (forall k p, oget k pp' = Some p -> oget k (sp_ptrs st) = Some p \/ ptr_string p = k) /\
     forall k, oget k pp' <> None <-> oget k (sp_ptrs st) <> None \/ exists t, file_ref ff t /\ k = g t) /\
  ((exists t, file_ref ff t /\ ptr_parse t = Err) -> exists pp', scan_specs ord gopath missing fs s st = Ok ({| sp_conts := sp_conts st; sp_ptrs := pp' |}, true)).
Proof. exact scan_specs_spec. Qed.
(** The files read are the three fixed names in the package's directory. *)
Theorem C63_spec_file : forall c, c_existsp "openapi" c = true <-> is_spec_doc c.
Proof. exact existsp_openapi. Qed.
(** go://#/X in a file of package pkg becomes go://pkg#/X. *)
Theorem C63_local : forall pkg x t', import_path pkg -> Forall (fun t => has_char "%" t = false) x ->
  made_absolute pkg ("go://#" +++ frag_string x) t' -> t' = "go://" +++ pkg +++ "#" +++ frag_string x.
Proof.
  intros pkg x t' Hi Hx (p & Hp & D). pose proof (local_go_ref pkg x Hi Hx) as L. unfold new_text in L. rewrite Hp in L. unfold abs_ptr in L.
  destruct D as [(E1 & E2 & ->)|(N & ->)].
  - rewrite E1, E2 in L. change (String.eqb "go" "go" && String.eqb "" "") with true in L. cbn iota in L.
    destruct (go_new pkg "" Hi eq_refl) as (p1 & H1 & G & _). unfold new_go_pointer in H1.
    change ("go://" +++ pkg +++ "#/" +++ "") with ("go://" +++ pkg +++ "#/") in H1. unfold ptr_parse_value in L. rewrite H1 in L.
    assert (Gf : go_pointer pkg {| p_url := p_url p1; p_frag := p_frag p |}).
    { destruct G as (f & p0 & Hp0 & Eu). exists f, p0. split; [exact Hp0 | exact Eu]. }
    now rewrite (ptr_string_go pkg _ Hi (go_pointer_in pkg _ Hi Gf)) in L.
  - destruct (String.eqb (u_scheme (p_url p)) "go" && String.eqb (pkg_path p) "") eqn:E; [|exact L].
    apply andb_true_iff in E as (E1 & E2). apply String.eqb_eq in E1, E2. now elim N.
Qed.
(** A key with a dot: the reference under it keeps its text, and a phantom
    member with the new text appears elsewhere in the document. *)
Theorem C63_dotted_refuted : forall ord pkg v a b t pp, (forall l, Permutation (ord l) l) -> plain a -> plain b -> a <> "openapi" -> (exists p, ptr_parse t = Ok p) ->
  let doc := JObj (obj_of [("openapi", JStr v); (a +++ "." +++ b, JObj [("$ref", JStr t)])]) in
  exists refs r pp' t', extract_key ord "$ref" (Some doc) = Ok refs /\ rewrite_refs pkg refs (Some doc) pp = (Ok (Some r), pp') /\
    lookup [SKey (a +++ "." +++ b); SKey "$ref"] r = Some (JStr t) /\
    lookup [SKey a] doc = None /\ lookup [SKey a; SKey b; SKey "$ref"] r = Some (JStr t').
Proof.
  intros ord pkg v a b t pp Ho Ha Hb Na Ht doc. destruct (dotted_key ord pkg v a b t pp Ho Ha Hb Na Ht) as (refs & r & pp' & E).
  exists refs, r, pp', (new_text pkg t). exact E.
Qed.
Definition ex_fs : filesys := fun p => if String.eqb p "/src/api/oapi.yaml"
  then Some (Ok (Some (JObj [("openapi", JStr "3.0.2"); ("paths", JArr [JObj [("$ref", JStr "go://#/Pet"); ("$refs", JStr "go://#/Pet")]])])))
  else if String.eqb p "/src/api/oapi.json" then Some (Ok (Some (JObj [("swagger", JStr "2")]))) else None.
Example C63_example : import_path "ex.org/m/api" /\
  get_pkg_path "/go" (fun _ => true) "ex.org/m/api" (Some {| m_path := "ex.org/m"; m_dir := "/src" |}) = Ok "/src/api" /\
  (exists ff, read_dir ex_fs "/src/api" = Ok ff /\ length ff = 2 /\ Forall good_file ff /\ file_ref ff "go://#/Pet") /\
  exists pp, scan_specs (fun _ l => l) "/go" (fun _ => true) ex_fs {| ss_path := "ex.org/m/api"; ss_module := Some {| m_path := "ex.org/m"; m_dir := "/src" |} |} {| sp_conts := []; sp_ptrs := [] |} =
    Ok ({| sp_conts := [{| f_path := "/src/api/oapi.yaml";
             f_cont := Some (JObj [("openapi", JStr "3.0.2"); ("paths", JArr [JObj [("$ref", JStr "go://ex.org/m/api#/Pet"); ("$refs", JStr "go://#/Pet")]])]) |}]; sp_ptrs := pp |}, false).
Proof.
  split; [split; [discriminate | reflexivity]|]. split; [reflexivity|]. split.
  - eexists. split; [reflexivity|]. split; [reflexivity|]. split.
    + assert (K : forall s, plain s <-> s <> "" /\ has_char "." s = false /\ has_char "~" s = false) by reflexivity.
      constructor; [|constructor; [|constructor]]; intros _; cbn -[plain Z.lt Z.pow]; rewrite !K; cbn -[Z.lt Z.pow]; intuition (reflexivity || discriminate).
    + eexists. eexists. exists [SKey "paths"; SIdx 0]. split; [left; reflexivity|]. split; [|split; reflexivity]. eexists. eexists. split; reflexivity.
  - eexists. reflexivity.
Qed.

Print Assumptions C58_order.
Print Assumptions C58_acyclic.
Print Assumptions C58_nil_refuted.
Print Assumptions C59_errors.
Print Assumptions C60_comments.
Print Assumptions C60_command.
Print Assumptions C60_local_schema.
Print Assumptions C60_package.
Print Assumptions C61_malformed_accepted.
Print Assumptions C62_exports.
Print Assumptions C62_in_order.
Print Assumptions C62_pointers.
Print Assumptions C62_same_name_refuted.
Print Assumptions C63_absolute.
Print Assumptions C63_local.
Print Assumptions C63_dotted_refuted.
