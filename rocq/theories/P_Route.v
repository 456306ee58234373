(** Properties C37-C40: internal/route. *)
From Coq Require Import String Ascii List Bool Arith.
From Verif Require Import GoStr Json Regex Route Spec_Route RouteFacts RouteMethod RouteCache RouteCacheFacts.
Import ListNotations.
Local Open Scope string_scope.
Local Open Scope list_scope.

(** C37. Segment variables and wildcards. *)
Theorem C37_pattern_match : forall ps tail path method,
  ok_pieces ps -> no_special tail = true -> ~ names_method known_methods (pattern_text ps tail) ->
  exists b, route_match (pattern_text ps tail) method path = Ok b /\
    (b = true <-> fits (fun _ w => w = tail) "" ps path).
Proof. exact (fun ps tail path method H1 H2 H3 => match_pattern ps tail path method H1 H2 (method_prefix_none _ H3)). Qed.
(** Patterns beginning with '/' name no method. *)
Theorem C37_slash : forall s, ~ names_method known_methods ("/" +++ s).
Proof. exact slash_names_no_method. Qed.
(** Literals before a variable match only themselves, whatever characters they contain. *)
Example C37_example :
  pattern_text [("/a.b/", WVar "id"); ("/", WStar)] "/x" = "/a.b/{id}/*/x" /\
  ok_pieces [("/a.b/", WVar "id"); ("/", WStar)] /\
  route_match "/a.b/{id}/*/x" "" "/a.b/17/q/r/x" = Ok true /\
  route_match "/a.b/{id}/*/x" "" "/axb/17/q/r/x" = Ok false /\
  route_match "/a.b/{id}/*/x" "" "/a.b//q/x" = Ok false.
Proof.
  split; [reflexivity|]. split; [|split; [|split]; vm_compute; reflexivity].
  repeat constructor; cbn. exists "i"%char, "d"%char, "". repeat split.
Qed.

(** C38. Method prefixes. *)
Theorem C38_method : forall M m rest method path,
  In M known_methods -> to_lower m = to_lower M -> ~ names_method known_methods rest ->
  route_match (m +++ ":" +++ rest) method path =
    if String.eqb method "" || String.eqb (to_lower method) (to_lower M) then route_match rest "" path else Ok false.
Proof. exact with_method. Qed.
Theorem C38_no_method : forall pattern method method' path,
  ~ names_method known_methods pattern -> route_match pattern method path = route_match pattern method' path.
Proof. exact without_method. Qed.
Example C38_example :
  In "GET" known_methods /\ to_lower "gEt" = to_lower "GET" /\ ~ names_method known_methods "/a/{id}" /\
  route_match "gEt:/a/{id}" "Get" "/a/1" = Ok true /\ route_match "gEt:/a/{id}" "" "/a/1" = Ok true /\
  route_match "gEt:/a/{id}" "post" "/a/1" = Ok false /\ route_match "foo:/a" "post" "foo:/a" = Ok true.
Proof.
  split; [cbn; tauto|]. split; [reflexivity|]. split; [apply (slash_names_no_method "a/{id}")|].
  split; [|split; [|split]]; vm_compute; reflexivity.
Qed.

(** C39. The text after the last variable is a raw regular expression. *)
Theorem C39_raw_tail : forall ps tail r path method,
  ok_pieces ps -> literal tail -> has_char "|" tail = false -> re_compile tail = Ok r -> ~ names_method known_methods (pattern_text ps tail) ->
  exists b, route_match (pattern_text ps tail) method path = Ok b /\
    (b = true <-> fits (fun before w => mt r before w "") "" ps path).
Proof. exact (fun ps tail r path method H1 H2 H3 H4 H5 => match_raw_tail ps tail r path method H1 H2 H3 H4 (method_prefix_none _ H5)). Qed.
(** An alternative in the tail is anchored on one side only. *)
Theorem C39_alternatives : forall t1 t2 method path,
  no_special t1 = true -> no_special t2 = true -> ~ names_method known_methods (t1 +++ "|" +++ t2) ->
  exists b, route_match (t1 +++ "|" +++ t2) method path = Ok b /\
    (b = true <-> (exists r, path = t1 +++ r) \/ (exists r, path = r +++ t2)).
Proof. exact alternatives. Qed.
(** An unbalanced bracket in the tail is an error, for every path. *)
Theorem C39_unbalanced : forall ps a c b method path,
  ok_pieces ps -> no_special a = true -> no_special b = true -> c = "("%char \/ c = ")"%char \/ c = "["%char ->
  ~ names_method known_methods (pattern_text ps (a +++ str1 c +++ b)) ->
  route_match (pattern_text ps (a +++ str1 c +++ b)) method path = Err.
Proof. exact unbalanced. Qed.
(** A name of one letter is no variable: the braces match themselves. *)
Theorem C39_short_name : forall a c method path,
  no_special a = true -> is_lower c = true -> ~ names_method known_methods (a +++ "{" +++ str1 c +++ "}") ->
  route_match (a +++ "{" +++ str1 c +++ "}") method path = Ok (String.eqb path (a +++ "{" +++ str1 c +++ "}")).
Proof. exact short_name. Qed.
Example C39_example :
  re_compile "/a.b" = Ok (RCat (RChar "/") (RCat (RChar "a") (RCat RAny (RCat (RChar "b") REps)))) /\
  route_match "/a.b" "" "/axb" = Ok true /\ route_match "/{id}/a.b" "" "/1/axb" = Ok true /\
  route_match "/a|b" "" "/a/c" = Ok true /\ route_match "/{id}/(a" "" "/1/a" = Err /\ route_match "/{x}" "" "/1" = Ok false.
Proof. repeat split; vm_compute; reflexivity. Qed.

(** C40. The cache of compiled patterns, for any number of goroutines and every interleaving. *)
Theorem C40_transparent : forall (R : Type) (compile : string -> option R) c pats st,
  cache_ok compile c -> msteps compile (minit c pats) st ->
  forall i res s, nth_error (m_threads st) i = Some (s, PDone res) -> nth_error pats i = Some s /\ res = compile s.
Proof. exact @cache_transparent. Qed.
(** Whatever is in the cache is the compilation of its key: failures are never cached. *)
Theorem C40_cache_sound : forall (R : Type) (compile : string -> option R) c pats st,
  cache_ok compile c -> msteps compile (minit c pats) st -> cache_ok compile (m_cache st).
Proof. exact @cache_sound. Qed.
(** No two goroutines access the map at the same time. *)
Theorem C40_exclusive : forall (R : Type) (compile : string -> option R) c pats st,
  cache_ok compile c -> msteps compile (minit c pats) st ->
  forall i j s p t q, nth_error (m_threads st) i = Some (s, p) -> nth_error (m_threads st) j = Some (t, q) ->
    in_map p -> in_map q -> i = j.
Proof. exact @map_exclusive. Qed.
(** No deadlock: as long as some call has not returned, some goroutine can step... *)
Theorem C40_progress : forall (R : Type) (compile : string -> option R) c pats st,
  cache_ok compile c -> msteps compile (minit c pats) st ->
  (forall i s p, nth_error (m_threads st) i = Some (s, p) -> exists res, p = PDone res) \/ exists i st', mstep compile i st st'.
Proof. exact @progress. Qed.
(** ... and every execution ends. *)
Theorem C40_terminates : forall (R : Type) (compile : string -> option R), well_founded (fun st' st => exists i, mstep compile i st st').
Proof. exact @steps_wf. Qed.
Example C40_example : let comp := fun s => if String.eqb s "(" then None else Some s in
  cache_ok comp [("a", "a")] /\
  exists st, msteps comp (minit [("a", "a")] ["b"; "("]) st /\ m_threads st = [("b", PDone (Some "b")); ("(", PDone None)] /\
    m_cache st = [("a", "a"); ("b", "b")].
Proof.
  split.
  - intros s r. cbn. destruct (String.eqb_spec s "a") as [->|]; [|discriminate]. cbn. now intros [= ->].
  - eexists. split.
    + eapply (ms_step _ _ _ _ 0); [eapply st_lock; reflexivity|]. cbn.
      eapply (ms_step _ _ _ _ 0); [eapply st_lookup; reflexivity|]. cbn.
      eapply (ms_step _ _ _ _ 0); [eapply st_compile; reflexivity|]. cbn.
      eapply (ms_step _ _ _ _ 0); [eapply st_store; reflexivity|]. cbn.
      eapply (ms_step _ _ _ _ 0); [eapply st_unlock; reflexivity|]. cbn.
      eapply (ms_step _ _ _ _ 1); [eapply st_lock; reflexivity|]. cbn.
      eapply (ms_step _ _ _ _ 1); [eapply st_lookup; reflexivity|]. cbn.
      eapply (ms_step _ _ _ _ 1); [eapply st_compile; reflexivity|]. cbn.
      eapply (ms_step _ _ _ _ 1); [eapply st_unlock; reflexivity|]. cbn. apply ms_refl.
    + split; reflexivity.
Qed.

Print Assumptions C37_pattern_match.
Print Assumptions C38_method.
Print Assumptions C39_raw_tail.
Print Assumptions C39_alternatives.
Print Assumptions C39_unbalanced.
Print Assumptions C40_transparent.
Print Assumptions C40_progress.
