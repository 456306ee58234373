(** C107: the rest of a route pattern is a regular expression. *)
From Coq Require Import String Ascii List Bool Arith.
From Verif Require Import GoStr Json Regex Route RouteMethod Spec_Route Spec_Tail TailFacts.
Import ListNotations.
Local Open Scope string_scope.
Local Open Scope nat_scope.
Local Open Scope list_scope.

(** After the last variable a pattern may go on with any regular expression
    without alternatives outside of groups: it must match all of the rest. *)
Theorem C107_tail : forall ps r path method, ok_pieces ps -> rx_ok 2 r = true -> literal (rx_text r) -> ~ names_method known_methods (pattern_text ps (rx_text r)) ->
  exists b, route_match (pattern_text ps (rx_text r)) method path = Ok b /\ (b = true <-> fits (fun before w => means r before w "") "" ps path).
Proof. intros ps r path method H1 H2 H3 H4. exact (match_tail ps r path method H1 H2 H3 (method_prefix_none _ H4)). Qed.

(** With alternatives outside of groups the first, which includes the variables,
    must match a beginning of the path, the last an end of it, the others anything in it. *)
Theorem C107_alternatives : forall ps first mid last path method, ok_pieces ps -> rx_ok 2 first = true -> (forall r, In r mid -> rx_ok 2 r = true) -> rx_ok 2 last = true ->
  let tail := rx_text first +++ fold_right (fun r t => "|" +++ rx_text r +++ t) "" mid +++ "|" +++ rx_text last in
  literal tail -> ~ names_method known_methods (pattern_text ps tail) ->
  exists b, route_match (pattern_text ps tail) method path = Ok b /\
    (b = true <-> (exists u v, path = u +++ v /\ fits (fun before w => means first before w v) "" ps u) \/
                  (exists r p w a, In r mid /\ path = p +++ w +++ a /\ means r p w a) \/
                  (exists p w, path = p +++ w /\ means last p w "")).
Proof.
  intros ps first mid last path method H1 H2 H3 H4. assert (E : fold_right (fun r t => "|" +++ rx_text r +++ t) "" mid = bars mid) by (clear; induction mid as [|r mid IH]; [reflexivity|]; cbn; now rewrite <- IH).
  rewrite E. intros tail H5 H6. apply (match_bars ps first mid last path method H1 H2); [now apply Forall_forall | exact H4 | exact H5 | exact (method_prefix_none _ H6)].
Qed.

(** Every well-formed expression compiles, and the result matches what it means. *)
Theorem C107_compiles : forall r, rx_ok 3 r = true -> exists x, re_compile (rx_text r) = Ok x /\ forall s, match_string x s = true <-> exists p w a, s = p +++ w +++ a /\ means r p w a.
Proof.
  intros r H. destruct (levels r) as (_ & _ & A). destruct (A H) as (F & L & E & M). exists (close {| fr_alts := F None; fr_cat := L |}). split.
  - unfold re_compile. destruct (E None [] RepNone "") as (rp & E'). rewrite GoStrFacts.app_nil_r_s in E'. change pstart with (st None [] [] RepNone). rewrite E'. reflexivity.
  - intro s. rewrite RegexFacts.match_iff. split; intros (p & w & a & -> & K); exists p, w, a; (split; [reflexivity|]); [apply M in K as [[]|K]; exact K | apply M; auto].
Qed.

(** ** Examples *)
Definition t_chars (s : string) : rx := fold_right (fun c r => XCat (XChar c) r) XEps (list_ascii_of_string s).
(** /(json|xml)[a-f-]+?\.z? *)
Definition t_rx : rx :=
  XCat (XChar "/") (XCat (XGroup (XAlt (t_chars "json") (t_chars "xml")))
    (XCat (XRep (XClass {| k_neg := false; k_bracket := false; k_items := [CRange "a" "f"]; k_dash := true |}) OPlus true) (XCat (XEsc ".") (XRep (XChar "z") OOpt false)))).
Example C107_example :
  rx_text t_rx = "/(json|xml)[a-f-]+?\.z?" /\ rx_ok 2 t_rx = true /\ literal (rx_text t_rx) /\ ok_pieces [("/v.1/", WVar "id")] /\
  pattern_text [("/v.1/", WVar "id")] (rx_text t_rx) = "/v.1/{id}/(json|xml)[a-f-]+?\.z?" /\ ~ names_method known_methods "/v.1/{id}/(json|xml)[a-f-]+?\.z?" /\
  route_match "/v.1/{id}/(json|xml)[a-f-]+?\.z?" "" "/v.1/77/xmla-." = Ok true /\ route_match "/v.1/{id}/(json|xml)[a-f-]+?\.z?" "" "/v.1/77/xmlg." = Ok false /\
  route_match "/v.1/{id}/(json|xml)[a-f-]+?\.z?" "" "/v.1/77/jsonf.zz" = Ok false /\ means t_rx "" "/xmla-." "".
Proof.
  refine (conj eq_refl (conj eq_refl (conj (conj eq_refl eq_refl) (conj _ (conj eq_refl (conj (slash_names_no_method _) (conj eq_refl (conj eq_refl (conj eq_refl _))))))))).
  - constructor; [|constructor]. split; [split; reflexivity|]. exists "i"%char, "d"%char, "". repeat split; reflexivity.
  - destruct (C107_tail [] t_rx "/xmla-." "" ltac:(constructor) eq_refl (conj eq_refl eq_refl) (slash_names_no_method _)) as (b & E & H).
    assert (b = true) as -> by (vm_compute in E; congruence). destruct H as [H _]. specialize (H eq_refl). inversion H; subst. assumption.
Qed.
(** Negated classes, brackets and dashes inside brackets, anchors; three alternatives. *)
Definition t_cls : cls := {| k_neg := true; k_bracket := true; k_items := [COne "a"; CRange "0" "9"]; k_dash := true |}.
Example C107_class_example : rx_text (XClass t_cls) = "[^]a0-9-]" /\ rx_ok 2 (XClass t_cls) = true /\
  route_match "/[^]a0-9-]" "" "/b" = Ok true /\ route_match "/[^]a0-9-]" "" "/]" = Ok false /\ route_match "/[^]a0-9-]" "" "/-" = Ok false /\
  route_match "/[^]a0-9-]" "" "/5" = Ok false.
Proof. repeat split. Qed.
Example C107_alternatives_example :
  pattern_text [("/", WVar "id")] (rx_text (t_chars "/a") +++ fold_right (fun r t => "|" +++ rx_text r +++ t) "" [t_chars "mid"] +++ "|" +++ rx_text (t_chars "/b")) = "/{id}/a|mid|/b" /\
  route_match "/{id}/a|mid|/b" "" "/1/axx" = Ok true /\ route_match "/{id}/a|mid|/b" "" "x/mid/y" = Ok true /\
  route_match "/{id}/a|mid|/b" "" "yy/b" = Ok true /\ route_match "/{id}/a|mid|/b" "" "yy/bb" = Ok false.
Proof. repeat split. Qed.

Print Assumptions C107_tail.
Print Assumptions C107_alternatives.
Print Assumptions C107_compiles.
