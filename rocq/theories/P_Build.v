(** C86: schema builders; C87: decoding raw values in place; C88: what the other
    constructors promise. *)
From Coq Require Import String Ascii List Bool Arith ZArith Lia.
From Verif Require Import GoStr Json Slices SliceFacts JsonText AnyJson Builders Spec_Build BuildFacts BuildRun SpecCtors.
Import ListNotations.
Local Open Scope string_scope.
Local Open Scope nat_scope.
Local Open Scope list_scope.

Section Build.
Context {F : Type}.
Implicit Types (m : memory F) (c : bcall F).

(** ** C86 *)
(** A call does to its receiver what it says, its slices and map being read as
    they are at the call, and nothing to the schemas that share nothing with it. *)
Theorem C86_one_call : forall m p c, sound m -> p < length (m_objs m) -> sound_call m c ->
  sound (call p c m) /\
  (~ own_sharing m p c -> same (view (call p c m) p) (after (spelled m c) (view m p))) /\
  (forall q, q < length (m_objs m) -> q <> p -> ~ sharing m p c q -> same (view (call p c m) q) (view m q)).
Proof. intros m p c Hs Hp. exact (call_spec m p Hs Hp c). Qed.

(** A program whose lists and maps are written out in its calls: every schema
    shows what its own calls did, in order, whatever the others do. *)
Theorem C86_programs : forall ops : list (bop F), written 0 ops ->
  length (m_objs (brun mem_zero ops)) = length (vrun [] ops) /\
  forall p v, nth_error (vrun [] ops) p = Some v -> same (view (brun mem_zero ops) p) v.
Proof.
  intros ops W. destruct (run_follows ops mem_zero [] W follows_zero) as (_ & _ & L & V). split; [now symmetry | exact V].
Qed.

(** The last call that assigns an attribute decides it. *)
Theorem C86_last_call_wins : forall (pre : list (bop F)) p c rest a v, written 0 (pre ++ Call p c :: rest) -> In (a, v) (assigns c) ->
  (forall c', In (Call p c') rest -> ~ In a (map fst (assigns c'))) ->
  b_plain (view (brun mem_zero (pre ++ Call p c :: rest)) p) a = v.
Proof. exact last_wins. Qed.

(** Two schemas given the same map share it: a property added to one appears in
    the other (and in the caller's map). *)
Theorem C86_shared_map_is_seen : forall m p q i k x, sound m -> p < length (m_objs m) -> q < length (m_objs m) ->
  o_props (obj m p) = Some i -> o_props (obj m q) = Some i ->
  b_props (view (call p (WithProperty k x) m) q) = Some (oset k x (nth i (m_maps m) [])) /\
  nth i (m_maps (call p (WithProperty k x) m)) [] = oset k x (nth i (m_maps m) []).
Proof.
  intros m p q i k x Hs Hp Hq Ep Eq. cbn [call]. rewrite Ep.
  destruct (Hs p Hp) as (_ & _ & _ & _ & _ & B & _). pose proof (B i Ep) as Li.
  assert (E : nth i (m_maps (set_maps (update i (oset k x) (m_maps m)) m)) [] = oset k x (nth i (m_maps m) [])).
  { cbn [m_maps set_maps]. rewrite update_nth by exact Li. now rewrite Nat.eqb_refl. }
  split; [|exact E]. unfold view. change (obj (set_maps (update i (oset k x) (m_maps m)) m) q) with (obj m q). rewrite Eq. cbn [b_props option_map]. now rewrite E.
Qed.

(** A slice with spare room given to two schemas: AddRequired on one rewrites the
    requirements of the other. *)
Definition clobber : list (bop F) :=
  [MakeStrs ["a"] [""; ""]; New EmptySchema; New EmptySchema;
   Call 0 (WithRequired (Sl (Some (0, 1)))); Call 1 (WithRequired (Sl (Some (0, 1))));
   Call 0 (AddRequired [] (Lit ["b"])); Call 1 (AddRequired [] (Lit ["c"]))].
Theorem C86_spare_capacity_refuted :
  sound (brun mem_zero clobber) /\
  b_required (view (brun mem_zero (removelast clobber)) 0) = ["a"; "b"] /\
  b_required (view (brun mem_zero clobber) 0) = ["a"; "c"] /\ b_required (view (brun mem_zero clobber) 1) = ["a"; "c"].
Proof.
  split; [|repeat split].
  intros p Hp. cbn in Hp. destruct p as [|[|p]]; [| |lia]; repeat split; cbn in *; try discriminate; injection H as <- <-; cbn; lia.
Qed.
(** WithProperties keeps the caller's map, so a later WithProperty changes it. *)
Definition grabbed : list (bop F) :=
  [MakeMap [("a", None)]; New EmptySchema; Call 0 (WithProperties (Some 0)); Call 0 (WithProperty "b" None)].
Theorem C86_caller_map_changed_refuted :
  sound_call (brun mem_zero (firstn 2 grabbed)) (WithProperties (F := F) (Some 0)) /\
  nth 0 (m_maps (brun mem_zero grabbed)) [] = [("a", None); ("b", None)].
Proof. split; [|reflexivity]. intros k E. injection E as <-. cbn. lia. Qed.
(** AddToAllOf on a schema whose anyOf shares the array of its allOf. *)
Definition self_shared : list (bop F) :=
  [New EmptySchema; MakeRefs [Some 0; Some 0] []; New (AnySchema (Sl (Some (0, 2)))); Call 1 (WithAllOf (Sl (Some (0, 1))));
   Call 1 (AddToAllOf [] (Lit [Some 1]))].
Theorem C86_own_lists_refuted :
  b_anyof (view (brun mem_zero (removelast self_shared)) 1) = [Some 0; Some 0] /\
  b_anyof (view (brun mem_zero self_shared) 1) = [Some 0; Some 1] /\
  own_sharing (brun mem_zero (removelast self_shared)) 1 (AddToAllOf [] (Lit [Some 1])).
Proof. split; [reflexivity|]. split; [reflexivity|]. right. exists 0, 1, 2. repeat split. lia. Qed.

(** *** Cases the theorems speak of *)
Definition pet : list (bop F) :=
  [New Int64Property; New StringProperty; New EmptySchema;
   Call 2 (WithType "object" ""); Call 2 (WithProperty "id" (Some 0)); Call 2 (WithRequired (Lit ["id"]));
   Call 1 (WithMaxLength 10); Call 2 (WithProperty "name" (Some 1)); Call 2 (AddRequired [""; ""] (Lit ["name"]));
   Call 1 (WithMaxLength 20); Call 2 (WithXMLName "pet"); Call 2 AsXMLAttribute; Call 2 (AddRequired [] (Lit ["x"]))].
Example pet_written : written 0 pet. Proof. cbn. repeat split; lia. Qed.
Example pet_required : b_required (view (brun mem_zero pet) 2) = ["id"; "name"; "x"]. Proof. reflexivity. Qed.
Example pet_props : b_props (view (brun mem_zero pet) 2) = Some [("id", Some 0); ("name", Some 1)]. Proof. reflexivity. Qed.
Example pet_xml : b_xml (view (brun mem_zero pet) 2) = Some {| x_name := "pet"; x_namespace := ""; x_prefix := ""; x_attribute := true; x_wrapped := false |}. Proof. reflexivity. Qed.
Example pet_last : b_plain (view (brun mem_zero pet) 1) AMaxLength = VInt (Some 20%Z).
Proof.
  apply (C86_last_call_wins (firstn 9 pet) 1 (WithMaxLength 20) [Call 2 (WithXMLName "pet"); Call 2 AsXMLAttribute; Call 2 (AddRequired [] (Lit ["x"]))]);
    [exact pet_written | now left |]. intros c' [H|[H|[H|[]]]]; discriminate.
Qed.
Example clobber_shares : sharing (brun mem_zero (removelast clobber)) 1 (AddRequired [] (Lit ["c"])) 0.
Proof. exists 0, 1, 2. repeat split. lia. Qed.
End Build.

(** ** C87 *)
Lemma bytes_string s : string_of_list_ascii (list_ascii_of_string s) = s.
Proof. apply string_of_list_ascii_of_string. Qed.
Lemma cut_held {A} (h : list (list A)) s : held h s -> held h (cut s).
Proof. intros H a n E. destruct s as [[b k]|]; [|discriminate]. injection E as <- <-. destruct (H b k eq_refl). split; [assumption | lia]. Qed.

(** A raw value decodes to the text of the JSON value read, and only JSON text decodes. *)
Theorem C87_decoded : forall spare h s text, held h s ->
  (valid_json text = false <-> any_decode spare h s text = Err) /\
  forall h' s', any_decode spare h s text = Ok (h', s') -> held h' s' /\ any_bytes h' s' = value_text text.
Proof.
  intros sp h s text H. unfold any_decode. split; [destruct (valid_json text); split; congruence|].
  intros h' s' E. destruct (valid_json text); [|discriminate]. set (l := list_ascii_of_string (value_text text)) in *.
  destruct (gappend_spec sp h (cut s) l (cut_held h s H)) as (G & V & _).
  injection E as E1 . rewrite E1 in G, V. cbn [fst snd] in G, V. split; [exact V|].
  unfold any_bytes. rewrite G.
  assert (Z : gval h (cut s) = []) by (destruct s as [[a n]|]; reflexivity). rewrite Z. cbn [app]. unfold l. apply bytes_string.
Qed.
(** Raw values in other arrays keep their text. *)
Theorem C87_others_kept : forall spare h s text h' s' t, held h s -> held h t ->
  any_decode spare h s text = Ok (h', s') -> (forall a n k, s = Some (a, n) -> t = Some (a, k) -> False) -> any_bytes h' t = any_bytes h t.
Proof.
  intros sp h s text h' s' t H T E N. unfold any_decode in E. destruct (valid_json text); [|discriminate].
  set (l := list_ascii_of_string (value_text text)) in *.
  destruct (gappend_spec sp h (cut s) l (cut_held h s H)) as (_ & _ & _ & K). injection E as E1. rewrite E1 in K. cbn [fst] in K.
  unfold any_bytes. rewrite K; [reflexivity | exact T |]. intros (a & n & k & E2 & E3 & _). destruct s as [[b j]|]; [|discriminate]. injection E2 as <- <-. exact (N b j k eq_refl E3).
Qed.
(** In the same array they do not, whenever the new text fits: they are overwritten. *)
Theorem C87_same_array_overwritten : forall spare h a n k text, held h (Some (a, n)) -> held h (Some (a, k)) -> valid_json text = true ->
  String.length (value_text text) <= length (nth a h []) ->
  exists h', any_decode spare h (Some (a, n)) text = Ok (h', Some (a, String.length (value_text text))) /\
    gval h' (Some (a, k)) = firstn k (list_ascii_of_string (value_text text) ++ skipn (String.length (value_text text)) (nth a h [])).
Proof.
  intros sp h a n k text H K V L. unfold any_decode. rewrite V. set (l := list_ascii_of_string (value_text text)).
  assert (El : length l = String.length (value_text text)).
  { unfold l. generalize (value_text text). induction s as [|x s IH]; [reflexivity|]. cbn. now rewrite IH. }
  destruct (H a n eq_refl) as [La _]. unfold gappend. cbn [cut glen gcells]. rewrite Nat.add_0_l, <- El.
  destruct (Nat.leb_spec (length l) (length (nth a h []))) as [_|Gt]; [|lia].
  exists (update a (gwrite 0 l) h). split; [reflexivity|].
  unfold gval. cbn [glen gcells]. rewrite update_nth by exact La. rewrite Nat.eqb_refl. unfold gwrite. cbn [firstn app]. reflexivity.
Qed.

(** schema_util.go:19, 88-103: the example of every date and date-time property is
    the same slice, timeExample; reading an example into one of them changes all. *)
Definition time_array : list (list ascii) := [list_ascii_of_string (str1 DQ +++ "2006-01-02T15:04:05+08:00" +++ str1 DQ)].
Definition new_year : string := str1 DQ +++ "1999-01-01" +++ str1 DQ.
Theorem C87_shared_example_refuted :
  exists h' s', any_decode [] time_array (Some (0, 27)) new_year = Ok (h', s') /\
    any_bytes time_array (Some (0, 27)) = str1 DQ +++ "2006-01-02T15:04:05+08:00" +++ str1 DQ /\
    any_bytes h' s' = new_year /\
    any_bytes h' (Some (0, 27)) = new_year +++ "15:04:05+08:00" +++ str1 DQ /\
    valid_json (any_bytes h' (Some (0, 27))) = false.
Proof. eexists _, _. split; [vm_compute; reflexivity|]. split; [vm_compute; reflexivity|]. split; [vm_compute; reflexivity|]. split; vm_compute; reflexivity. Qed.
Example time_held : held time_array (Some (0, 27)) /\ valid_json new_year = true. Proof. split; [|reflexivity]. intros a n E. injection E as <- <-. cbn. lia. Qed.
Example any_fresh : any_decode [] time_array None " [1, 2] " = Ok (time_array ++ [list_ascii_of_string "[1, 2]"], Some (1, 6)). Proof. reflexivity. Qed.

(** ** C88 *)
Section Param.
Context {S : Type}.
Implicit Types (s : S) (k : pctor) (cs : list (pcall S)).
Definition chain k name s cs : param S := fold_left pstep cs (new_param k name s).
(** What the calls of a chain give. *)
Definition given {A} (f : pcall S -> option A) cs : list A := flat_map (fun c => match f c with Some x => [x] | None => [] end) cs.
Definition a_name (c : pcall S) := match c with PName n => Some n | _ => None end.
Definition a_desc (c : pcall S) := match c with PDescription n => Some n | _ => None end.
Definition a_loc (c : pcall S) := match c with PLocation n => Some n | _ => None end.
Definition a_schema (c : pcall S) := match c with PSchema n => Some n | _ => None end.
Definition a_empty (c : pcall S) := match c with PAllowsEmpty => Some true | PNoEmpty => Some false | _ => None end.
Definition location k : string := match k with QueryParam => "query" | HeaderParam => "header" | PathParam => "path" | CookieParam => "cookie" end.

Lemma last_cons {A} (x d : A) l : last (x :: l) d = last l x.
Proof. revert x d. induction l as [|y l IH]; intros x d; [reflexivity|]. change (last (x :: y :: l) d) with (last (y :: l) d). rewrite (IH y d). now rewrite (IH y x). Qed.
Lemma chain_fields cs : forall p, let q := fold_left pstep cs p in
  pa_name q = last (given a_name cs) (pa_name p) /\ pa_desc q = last (given a_desc cs) (pa_desc p) /\
  pa_in q = last (given a_loc cs) (pa_in p) /\ pa_schema q = last (given a_schema cs) (pa_schema p) /\
  pa_empty q = last (given a_empty cs) (pa_empty p) /\ (pa_required q = true <-> pa_required p = true /\ ~ In POptional cs).
Proof.
  induction cs as [|c cs IH]; intros p q; [cbn; tauto|]. subst q. cbn [fold_left].
  destruct (IH (pstep p c)) as (H1 & H2 & H3 & H4 & H5 & H6). rewrite H1, H2, H3, H4, H5, H6. unfold given. cbn [flat_map].
  destruct c; cbn [a_name a_desc a_loc a_schema a_empty app pstep pa_name pa_in pa_desc pa_required pa_empty pa_schema In]; rewrite ?last_cons; repeat (split; [reflexivity|]);
    try (split; intros [A B]; split; [exact A | intros [[=]|C]; contradiction | exact A | tauto]).
  split; [intros [[=] _]|]. intros [_ B]. exfalso. apply B. now left.
Qed.
(** A parameter is what its constructor and the last calls of each kind say; it is
    required exactly if it was made as a path parameter and never made optional. *)
Theorem C88_parameters : forall k name s cs,
  pa_name (chain k name s cs) = last (given a_name cs) name /\ pa_desc (chain k name s cs) = last (given a_desc cs) "" /\
  pa_in (chain k name s cs) = last (given a_loc cs) (location k) /\ pa_schema (chain k name s cs) = last (given a_schema cs) s /\
  pa_empty (chain k name s cs) = last (given a_empty cs) false /\
  (pa_required (chain k name s cs) = true <-> k = PathParam /\ ~ In POptional cs).
Proof.
  intros k name s cs. destruct (chain_fields cs (new_param k name s)) as (H1 & H2 & H3 & H4 & H5 & H6). unfold chain. rewrite H1, H2, H3, H4, H5, H6.
  destruct k; cbn; repeat (split; [reflexivity|]); split; intros [A B]; split; congruence || assumption || discriminate.
Qed.
(** The comments promise that header and cookie parameters are always required:
    they never are, and no chain of calls makes them so. *)
Theorem C88_header_cookie_required_refuted : forall name s cs,
  pa_required (chain HeaderParam name s cs) = false /\ pa_required (chain CookieParam name s cs) = false.
Proof.
  intros name s cs. split; [destruct (C88_parameters HeaderParam name s cs) as (_ & _ & _ & _ & _ & H) | destruct (C88_parameters CookieParam name s cs) as (_ & _ & _ & _ & _ & H)];
    apply not_true_is_false; rewrite H; intros [[=] _].
Qed.
End Param.
Example chain_case : chain PathParam "id" 0 [PDescription "a"; PLocation "query"; PDescription "b"; PAllowsEmpty] =
  {| pa_name := "id"; pa_in := "query"; pa_desc := "b"; pa_required := true; pa_empty := true; pa_schema := 0 |}.
Proof. reflexivity. Qed.

(** The security schemes without flows are as documented; every OAuth2
    constructor crashes, whatever its arguments. *)
Theorem C88_security_schemes : forall f field src,
  new_scheme BasicAuth = Ok {| ss_type := "http"; ss_scheme := "basic"; ss_bearer := ""; ss_name := ""; ss_in := ""; ss_flows := None |} /\
  new_scheme (BearerAuth f) = Ok {| ss_type := "http"; ss_scheme := "bearer"; ss_bearer := f; ss_name := ""; ss_in := ""; ss_flows := None |} /\
  new_scheme (APIKeyAuth field src) = Ok {| ss_type := "apiKey"; ss_scheme := ""; ss_bearer := ""; ss_name := field; ss_in := src; ss_flows := None |}.
Proof. repeat split. Qed.
Theorem C88_oauth2_refuted : forall u t,
  new_scheme (OAuth2Implicit u) = Panic /\ new_scheme (OAuth2Password t) = Panic /\
  new_scheme (OAuth2AuthorizationCode t) = Panic /\ new_scheme (OAuth2ClientCredentials u t) = Panic.
Proof. repeat split. Qed.

(** DateProperty and DateTimeProperty do not have the formats date and date-time. *)
Theorem C88_date_formats_refuted : forall (F : Type) (m : memory F),
  b_plain (view (construct DateProperty m) (length (m_objs m))) AFormat = VStr "data" /\
  b_plain (view (construct DateTimeProperty m) (length (m_objs m))) AFormat = VStr "data-time".
Proof. intros F m. unfold view, obj. cbn. rewrite !app_nth2, !Nat.sub_diag by lia. split; reflexivity. Qed.

Print Assumptions C86_one_call.
Print Assumptions C86_programs.
Print Assumptions C86_last_call_wins.
Print Assumptions C86_shared_map_is_seen.
Print Assumptions C86_spare_capacity_refuted.
Print Assumptions C86_caller_map_changed_refuted.
Print Assumptions C86_own_lists_refuted.
Print Assumptions C87_decoded.
Print Assumptions C87_others_kept.
Print Assumptions C87_same_array_overwritten.
Print Assumptions C87_shared_example_refuted.
Print Assumptions C88_parameters.
Print Assumptions C88_header_cookie_required_refuted.
Print Assumptions C88_security_schemes.
Print Assumptions C88_oauth2_refuted.
Print Assumptions C88_date_formats_refuted.
