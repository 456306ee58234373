(** Property C68: what a run of the command does to its output. *)
From Coq Require Import String Ascii List Bool Arith Lia Permutation.
From Verif Require Import GoStr GoStrFacts Json Gabs Container Specs Config Spec_Config Cli CliFacts ConfigApi JsonText Spec_Format FormatFacts.
Import ListNotations.
Local Open Scope string_scope.
Local Open Scope list_scope.

(** ** C68 *)
(** Whatever went wrong before (bad: the configuration could not be read;
    scan_bad: the scan returned an error), the file is replaced by the formatted
    document, or made empty if the document cannot be formatted; a file that
    cannot be removed keeps the tail beyond the new text.  Until then it is the
    old one, absent, or a prefix of the new text. *)
Theorem C68_output_replaced : forall o level cfg (bad : bool) scan fmt w c (scan_bad : bool), asks_file (cf_output cfg) ->
  scan cfg = Ok (c, scan_bad) -> (forall t, fmt (cf_format cfg) (c_data c) = t -> t <> Panic /\ t <> OutOfFuel) ->
  let p := cf_output cfg in
  let text := match fmt (cf_format cfg) (c_data c) with Ok t => t | _ => "" end in
  exists ws, run o level (cfg, bad) scan fmt w = Ok ws /\
    (os_open o p = true -> String.concat "" (os_pieces o text) = text ->
       (w_files w p = None \/ os_remove o p = true -> w_files (hd_world w ws) p = Some text) /\
       (forall old, w_files w p = Some old -> os_remove o p = false -> w_files (hd_world w ws) p = Some (overwrite old text))) /\
    (forall w', In w' ws -> (forall q, q <> p -> w_files w' q = w_files w q) /\
       (w_files w' p = w_files w p \/ w_files w' p = None \/
        (exists part, w_files w' p = Some part /\ has_prefix part (String.concat "" (os_pieces o text)) = true) \/
        (exists part old, w_files w p = Some old /\ os_remove o p = false /\ w_files w' p = Some (overwrite old part)))) /\
    (forall old, w_files w p = Some old -> os_remove o p = true -> exists w', In w' ws /\ w_files w' p = None).
Proof. intros o level cfg bad scan fmt w c scan_bad Hp. exact (run_file o level cfg bad scan fmt w Hp c scan_bad). Qed.
Print Assumptions C68_output_replaced.

(** A scan that failed early (nothing was scanned at all) destroys the previous
    output: the file then holds the text null. *)
Theorem C68_early_failure_writes_null : forall o level cfg (bad : bool) scan pn rd yaml ord srt1 srt2 w,
  asks_file (cf_output cfg) -> In (cf_format cfg) ["json"; "json:pretty"] -> scan cfg = Ok (None, true) ->
  os_open o (cf_output cfg) = true -> os_pieces o "null" = ["null"] -> (w_files w (cf_output cfg) = None \/ os_remove o (cf_output cfg) = true) ->
  exists ws, run o level (cfg, bad) scan (format pn rd yaml ord srt1 srt2) w = Ok ws /\ w_files (hd_world w ws) (cf_output cfg) = Some "null".
Proof.
  intros o level cfg bad scan pn rd yaml ord srt1 srt2 w Hp Hf Hs Ho Hc Hr.
  assert (E : format pn rd yaml ord srt1 srt2 (cf_format cfg) (c_data None) = Ok "null") by (destruct Hf as [<-|[<-|[]]]; vm_compute; reflexivity).
  destruct (run_file o level cfg bad scan (format pn rd yaml ord srt1 srt2) w Hp None true Hs) as (ws & R & A & _).
  - intros t <-. rewrite E. split; discriminate.
  - exists ws. split; [exact R|]. unfold output_data in A. rewrite E, Hc in A. exact (proj1 (A Ho eq_refl) Hr).
Qed.
Print Assumptions C68_early_failure_writes_null.

(** With the default log level no failure is reported, and no failure short of a
    panic changes the exit status (main returns). *)
Theorem C68_silent_by_default : forall o cfg scan fmt w ws, run o "nolog" cfg scan fmt w = Ok ws -> Forall (fun w' => w_logged w' = w_logged w) ws.
Proof. exact run_quiet. Qed.
Print Assumptions C68_silent_by_default.

(** A run to a standard stream appends the text there and changes no file. *)
Theorem C68_streams : forall o level cfg (bad : bool) scan fmt w c (scan_bad err : bool),
  (if err then cf_output cfg = "stderr" else cf_output cfg = "stdout" \/ cf_output cfg = "") ->
  scan cfg = Ok (c, scan_bad) -> (forall t, fmt (cf_format cfg) (c_data c) = t -> t <> Panic /\ t <> OutOfFuel) ->
  exists ws, run o level (cfg, bad) scan fmt w = Ok ws /\ Forall (fun w' => w_files w' = w_files w) ws /\
    let text := String.concat "" (os_pieces o (match fmt (cf_format cfg) (c_data c) with Ok t => t | _ => "" end)) in
    let w' := hd_world w ws in
    w_out w' = w_out w +++ (if err then "" else text) /\ w_err w' = w_err w +++ (if err then text else "").
Proof. exact run_stream. Qed.
Print Assumptions C68_streams.

Definition ex_cfg (o : string) : config := {| cf_path := ""; cf_dir := "/w"; cf_format := "json"; cf_output := o; cf_doc := JNull |}.
Definition ex_os : os := {| os_remove := fun _ => true; os_open := fun _ => true; os_pieces := fun s => [s]; os_fails := false |}.
Definition ex_world : world := {| w_files := fun p => if String.eqb p "/w/api.json" then Some "{""openapi"":""3.0.3""}" else None; w_out := ""; w_err := ""; w_logged := 0 |}.
Example C68_ex : asks_file "/w/api.json" /\ exists ws,
  run ex_os "nolog" (ex_cfg "/w/api.json", false) (fun _ => Ok (None, true)) (format (fun _ => None) (fun _ => None) (fun _ => Err) (fun l => l) (fun l => l) (fun l => l)) ex_world = Ok ws /\
  map (fun w => w_files w "/w/api.json") ws = [Some "null"; Some ""; None; Some "{""openapi"":""3.0.3""}"; Some "{""openapi"":""3.0.3""}"; Some "{""openapi"":""3.0.3""}"; Some "{""openapi"":""3.0.3""}"].
Proof. split; [repeat split; discriminate|]. eexists. split; [vm_compute; reflexivity | reflexivity]. Qed.
Example C68_ex_tail : exists ws,
  run {| os_remove := fun _ => false; os_open := fun _ => true; os_pieces := fun s => [s]; os_fails := false |} "error" (ex_cfg "/w/api.json", true) (fun _ => Ok (None, true))
    (format (fun _ => None) (fun _ => None) (fun _ => Err) (fun l => l) (fun l => l) (fun l => l)) ex_world = Ok ws /\
  w_files (hd_world ex_world ws) "/w/api.json" = Some "nullenapi"":""3.0.3""}" /\ w_logged (hd_world ex_world ws) = 3.
Proof. eexists. split; [vm_compute; reflexivity | split; reflexivity]. Qed.
