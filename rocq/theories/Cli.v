(** cmd/oapi/main.go: what a run of the command does to the world.
    No proofs in this file. *)
From Coq Require Import String Ascii List Bool Arith.
From Verif Require Import GoStr Json Container Specs Config.
Import ListNotations.
Local Open Scope string_scope.
Local Open Scope list_scope.

(** The outside world: file contents, the two standard streams, and how many
    messages have been logged. *)
Record world := { w_files : string -> option string; w_out : string; w_err : string; w_logged : nat }.
Definition put_file (p : string) (x : option string) (w : world) : world :=
  {| w_files := fun q => if String.eqb q p then x else w_files w q; w_out := w_out w; w_err := w_err w; w_logged := w_logged w |}.

(** internal/logging/logging.go:92-94 Fatal with the printer main.go:29-39
    builds: logrus' Logf(FatalLevel, ...) writes the message if the level is
    enabled and returns: only its Fatal methods exit.  Level "nolog" (the
    default, cmd/oapi/config.go:31) gives the void printer, and "panic" does not
    enable fatal messages.  (The text of messages, and that they go to standard
    error, is not modelled.) *)
Definition log_fatal (level : string) (w : world) : world :=
  if String.eqb level "nolog" || String.eqb level "panic" then w
  else {| w_files := w_files w; w_out := w_out w; w_err := w_err w; w_logged := S (w_logged w) |}.
Definition log_if (bad : bool) (level : string) (w : world) : world := if bad then log_fatal level w else w.

(** os.File.Write at the current offset of a file opened without truncation:
    the bytes there are overwritten, what lies beyond stays. *)
Definition overwrite (old data : string) : string := data +++ skipn_s (String.length data) old.

(** What the operating system answers: may the file be removed (it must exist
    as well), may it be opened for writing, and in which pieces the data reaches
    the destination; None: the write failed after these pieces. *)
Record os := { os_remove : string -> bool; os_open : string -> bool; os_pieces : string -> list string; os_fails : bool }.

(** The destination chosen by main.go:62-78. *)
Inductive dest := DOut | DErr | DFile (p : string) | DNone.

(** main.go:64-78: the worlds passed through, latest first. *)
Definition prepare (o : os) (level output : string) (w : world) : dest * list world :=
  if String.eqb output "stdout" || String.eqb output "" then (DOut, [w])
  else if String.eqb output "stderr" then (DErr, [w])
  else
    let removed := match w_files w output with Some _ => os_remove o output | None => false end in
    let w1 := if removed then put_file output None w else log_fatal level w in
    if os_open o output then
      let w2 := put_file output (Some (match w_files w1 output with Some x => x | None => "" end)) w1 in
      (DFile output, [w2; w1; w])
    else (DNone, [log_fatal level w1; w1; w]).

(** One piece written to the destination; [done] is what was written before. *)
Definition emit (d : dest) (old done piece : string) (w : world) : world :=
  match d with
  | DOut => {| w_files := w_files w; w_out := w_out w +++ piece; w_err := w_err w; w_logged := w_logged w |}
  | DErr => {| w_files := w_files w; w_out := w_out w; w_err := w_err w +++ piece; w_logged := w_logged w |}
  | DFile p => put_file p (Some (overwrite old (done +++ piece))) w
  | DNone => w
  end.
Fixpoint emit_all (d : dest) (old done : string) (pieces : list string) (w : world) : list world :=
  match pieces with
  | [] => []
  | p :: r => let w' := emit d old done p w in emit_all d old (done +++ p) r w' ++ [w']
  end.
Definition hd_world (w : world) (l : list world) : world := match l with x :: _ => x | [] => w end.

(** main.go:16-84 main after the flags are parsed (main.go:24-27 panics if they
    are not): [cfg] and [cfg_bad] come from full, [scan] is scan.go's scan
    (a document, and whether there was an error), [fmt] is oapi.Format.  All
    worlds passed through, latest first; it then returns (exit status 0). *)
Definition run (o : os) (level : string) (cfg : config * bool) (scan : config -> res (cont * bool))
    (fmt : string -> json -> res string) (w : world) : res (list world) :=
  let w0 := log_if (snd cfg) level w in
  do s <- scan (fst cfg) ;
  let w1 := log_if (snd s) level w0 in
  match fmt (cf_format (fst cfg)) (c_data (fst s)) with
  | Panic => Panic
  | OutOfFuel => OutOfFuel
  | r =>
      let '(data, bad) := match r with Ok t => (t, false) | _ => ("", true) end in
      let w2 := log_if bad level w1 in
      let '(d, ws) := prepare o level (cf_output (fst cfg)) w2 in
      let old := match d with DFile p => match w_files (hd_world w2 ws) p with Some x => x | None => "" end | _ => "" end in
      let ws' := match d with DNone => [] | _ => emit_all d old "" (os_pieces o data) (hd_world w2 ws) end in
      let failed := match d with DNone => negb (String.eqb data "") | _ => os_fails o end in
      let last := hd_world (hd_world w2 ws) ws' in
      Ok ((if failed then [log_fatal level last] else []) ++ ws' ++ ws ++ [w1; w0; w])
  end.
