(** Properties C69, C70, C72, C73, C81, C82: servers, responses, unions, log
    levels, references in JSON, the JSON grammar. *)
From Coq Require Import String Ascii List Bool Arith ZArith Lia Sorted Permutation.
From Verif Require Import GoStr GoStrFacts Json JsonFacts Url Pointer Slices JsonText JsonTextFacts JsonReadFacts JsonGrammar
  Spec_Ptr Spec_Pkgs PtrFacts PkgFacts SpecUtil Spec_SpecUtil SpecUtilFacts AnyJson AnyJsonFacts AnyJsonApi.
Import ListNotations.
Local Open Scope string_scope.
Local Open Scope nat_scope.
Local Open Scope list_scope.

(** ** C69 *)
Theorem C69_remove_duplicates : forall srt a, is_string_sort srt ->
  StronglySorted (fun x y => String.compare x y = Lt) (remove_duplicates srt a) /\
  forall x, In x (remove_duplicates srt a) <-> In x a.
Proof. exact remove_duplicates_spec. Qed.
Print Assumptions C69_remove_duplicates.

Theorem C69_servers : forall srt uris ss, is_string_sort srt -> new_servers srt uris = Ok ss ->
  exists us hosts ports paths host path, lists us (url_of uris) /\ lists hosts (host_of uris) /\ lists ports (port_choice uris) /\
    lists paths (path_of uris) /\ smallest host (host_of uris) /\ smallest path (path_of uris) /\
    ss = map (fun u => {| sv_url := u; sv_vars := [] |}) us ++
      [{| sv_url := "{scheme}{host}{port}{path}";
          sv_vars := [("scheme", {| v_enum := ["http://"; "https://"]; v_default := "http://" |});
                      ("host", {| v_enum := hosts; v_default := host |});
                      ("port", {| v_enum := ports; v_default := "" |});
                      ("path", {| v_enum := paths; v_default := path |})] |}].
Proof. exact (fun srt uris ss H => proj1 (new_servers_spec srt uris H) ss). Qed.
Print Assumptions C69_servers.

Theorem C69_error : forall srt uris, is_string_sort srt ->
  ((exists ss, new_servers srt uris = Ok ss) <-> Forall (fun v => url_parse v <> None) uris) /\
  ((exists ss, new_servers srt uris = Ok ss) \/ new_servers srt uris = Err).
Proof. exact (fun srt uris H => proj2 (new_servers_spec srt uris H)). Qed.
Print Assumptions C69_error.

(** NewServers(s...): the servers depend on the values only; a slice with no
    spare capacity, or on another array, is left alone.  With spare capacity the
    caller's elements become the first ones of the sorted list with "/". *)
Theorem C69_callers_slice : forall srt grow h s, is_string_sort srt -> s_valid h s ->
  let h' := fst (new_servers_at srt grow h s) in
  snd (new_servers_at srt grow h s) = new_servers srt (s_val h s) /\
  (s_len s < s_cap h s -> s_val h' s = firstn (s_len s) (srt (s_val h s ++ ["/"]))) /\
  (forall s', s_valid h s' -> s_arr s' <> s_arr s \/ s_len s = s_cap h s -> s_val h' s' = s_val h s').
Proof. exact new_servers_at_spec. Qed.
Print Assumptions C69_callers_slice.

(** "NewServers does not change its argument" is false: the caller's only URL is
    replaced by "/". *)
Theorem C69_argument_kept_refuted : exists h s,
  s_val h s = ["http://x"] /\ s_val (fst (new_servers_at sort_s 0 h s)) s = ["/"].
Proof. exists [["http://x"; ""]], {| s_arr := 0; s_len := 1 |}. split; reflexivity. Qed.
Print Assumptions C69_argument_kept_refuted.

Example C69_ex : new_servers sort_s ["https://b.io:8080/v1"; "http://a.io/v2"; "https://b.io:8080/v1"] =
  Ok [{| sv_url := "/"; sv_vars := [] |}; {| sv_url := "http://a.io/v2"; sv_vars := [] |};
      {| sv_url := "https://b.io:8080/v1"; sv_vars := [] |};
      {| sv_url := "{scheme}{host}{port}{path}";
         sv_vars := [("scheme", {| v_enum := ["http://"; "https://"]; v_default := "http://" |});
                     ("host", {| v_enum := ["a.io"; "b.io"; "localhost"]; v_default := "a.io" |});
                     ("port", {| v_enum := [""; ":8080"]; v_default := "" |});
                     ("path", {| v_enum := ["/"; "/v1"; "/v2"]; v_default := "/" |})] |}] /\
  is_string_sort sort_s.
Proof. split; [reflexivity | exact sort_s_ok]. Qed.

(** ** C70 *)
Theorem C70_one_call : forall H M L (r : response H M L) (c : rcall H M L), good_response r ->
  good_response (rstep r c) /\
  (forall n, map_get n (r_headers (rstep r c)) = header_after n c (map_get n (r_headers r))) /\
  (forall n, map_get n (r_content (rstep r c)) = content_after n c (map_get n (r_content r))) /\
  (forall n, map_get n (r_links (rstep r c)) = link_after n c (map_get n (r_links r))).
Proof. exact @rstep_spec. Qed.
Print Assumptions C70_one_call.

Theorem C70_chain : forall H M L (cs : list (rcall H M L)) (r : response H M L), good_response r ->
  good_response (rcalls r cs) /\
  (forall n, map_get n (r_headers (rcalls r cs)) = fold_left (fun w c => header_after n c w) cs (map_get n (r_headers r))) /\
  (forall n, map_get n (r_content (rcalls r cs)) = fold_left (fun w c => content_after n c w) cs (map_get n (r_content r))) /\
  (forall n, map_get n (r_links (rcalls r cs)) = fold_left (fun w c => link_after n c w) cs (map_get n (r_links r))).
Proof. exact @rcalls_spec. Qed.
Print Assumptions C70_chain.

Theorem C70_description : forall H M L (r : response H M L) c,
  r_desc (rstep r c) = match c with CDescription d => d | _ => r_desc r end.
Proof. intros H M L r [d|k [x|]|k|k [x|]|k|k [x|]|k]; reflexivity. Qed.
Print Assumptions C70_description.

(** "A nil content removes the content" is false: it stays, and the header of
    that name goes; the same for links. *)
Theorem C70_nil_removes_refuted : exists r : response nat nat nat, good_response r /\
  (let r' := rstep r (CAddContent "a" None) in map_get "a" (r_content r') = Some 2 /\ map_get "a" (r_headers r') = None) /\
  (let r' := rstep r (CAddLink "a" None) in map_get "a" (r_links r') = Some 3 /\ map_get "a" (r_headers r') = None) /\
  map_get "a" (r_headers r) = Some 1.
Proof.
  exists {| r_desc := ""; r_headers := Some [("a", 1)]; r_content := Some [("a", 2)]; r_links := Some [("a", 3)] |}.
  split; [repeat split; repeat constructor | repeat split; reflexivity].
Qed.
Print Assumptions C70_nil_removes_refuted.

(** A chain on NewResponse, where the maps start nil. *)
Example C70_ex : rcalls (new_response (H := nat) (L := nat) "application/json" 7)
    [CAddHeader "X" (Some 1); CAddHeader "Y" (Some 2); CAddHeader "X" (Some 3); CRemoveHeader "Y"; CAddLink "self" (Some 4); CDescription "ok"] =
  {| r_desc := "ok"; r_headers := Some [("X", 3)]; r_content := Some [("application/json", 7)]; r_links := Some [("self", 4)] |} /\
  good_response (new_response (H := nat) (L := nat) "application/json" 7).
Proof. split; [reflexivity | repeat split; repeat constructor]. Qed.

(** ** C72 *)
(** A raw value: json.Marshal writes a text without blanks of the same value
    (whatever way of reading numbers), which comes back unchanged; a JSON string
    comes back as an expression. *)
Theorem C72_any : forall rd s j, read_json rd s = Some j ->
  exists t, marshal_union {| u_expr := ""; u_any := Some s |} = Ok t /\ read_json rd t = Some j /\
    unmarshal_union union_zero t = (match j with JStr x => Ok {| u_expr := x; u_any := None |} | _ => Ok {| u_expr := ""; u_any := Some t |} end).
Proof.
  intros rd s j H. destruct (union_any rd s j H) as (t & E & L & U). exists t. split; [exact E|]. split; [now apply lay_nows_reads | exact U].
Qed.
Print Assumptions C72_any.

(** A document member decoded and encoded again has the same value, except the
    empty string, which becomes null. *)
Theorem C72_decode_encode : forall rd s j, read_json rd s = Some j ->
  exists m t, unmarshal_union union_zero s = Ok m /\ marshal_union m = Ok t /\
    read_json rd t = Some (match j with JStr "" => JNull | _ => j end).
Proof. exact union_decode_encode. Qed.
Print Assumptions C72_decode_encode.

(** Reading into a value that already holds something: a JSON string sets the
    expression and leaves the raw value; any other text, without the blanks around
    it, sets the raw value and leaves the expression; and a text that is not JSON
    is refused. *)
Theorem C72_into : forall rd s j m, read_json rd s = Some j ->
  exists w1 t w2, s = w1 +++ t +++ w2 /\
    Forall (fun c => In (nat_of_ascii c) [9; 10; 13; 32]) (list_ascii_of_string w1) /\ Forall (fun c => In (nat_of_ascii c) [9; 10; 13; 32]) (list_ascii_of_string w2) /\
    read_json rd t = Some j /\
    unmarshal_union m s = (match j with JStr x => Ok {| u_expr := x; u_any := u_any m |} | _ => Ok {| u_expr := u_expr m; u_any := Some t |} end).
Proof.
  intros rd s j m H. destruct (union_into rd s j m H) as (w1 & t & w2 & E & H1 & H2 & Rt & _ & U). exists w1, t, w2.
  assert (B : forall w, ws w -> Forall (fun c => In (nat_of_ascii c) [9; 10; 13; 32]) (list_ascii_of_string w)).
  { induction w as [|c w IH]; intro Hw; [constructor|]. unfold ws in Hw. cbn [all list_ascii_of_string] in *. apply andb_true_iff in Hw as (Hc & Hw).
    constructor; [|now apply IH]. unfold is_ws in Hc. apply orb_true_iff in Hc as [Hc|Hc]; [apply orb_true_iff in Hc as [Hc|Hc]; [apply orb_true_iff in Hc as [Hc|Hc]|]|];
      apply Ascii.eqb_eq in Hc as ->; cbn; tauto. }
  split; [exact E|]. split; [now apply B|]. split; [now apply B|]. now split.
Qed.
Print Assumptions C72_into.
Theorem C72_into_fails : forall s m, valid_json s = false <-> unmarshal_union m s = Err.
Proof.
  intros s m. split; [intro H; unfold unmarshal_union; now rewrite H|]. intro H. destruct (valid_json s) eqn:V; [|reflexivity]. exfalso.
  unfold valid_json in V. destruct (read_json (fun _ => Some (NInt 0%Z)) s) as [j|] eqn:E; [|discriminate V].
  destruct (union_into _ s j m E) as (_ & t & _ & _ & _ & _ & _ & _ & U). rewrite U in H. destruct j; discriminate H.
Qed.
Print Assumptions C72_into_fails.

(** An expression comes back whatever the raw value beside it. *)
Theorem C72_expression : forall e a, e <> "" ->
  exists t, marshal_union {| u_expr := e; u_any := a |} = Ok t /\ unmarshal_union union_zero t = Ok {| u_expr := e; u_any := None |}.
Proof. exact union_expr. Qed.
Print Assumptions C72_expression.

Theorem C72_nil : marshal_union union_zero = Ok "null" /\ unmarshal_union union_zero "null" = Ok {| u_expr := ""; u_any := Some "null" |}.
Proof. split; reflexivity. Qed.
Print Assumptions C72_nil.

(** Encoding fails exactly on a raw value that is not JSON text. *)
Theorem C72_fails_iff : forall e a, marshal_union {| u_expr := e; u_any := a |} = Err <-> e = "" /\ exists s, a = Some s /\ valid_json s = false.
Proof. exact union_fails. Qed.
Print Assumptions C72_fails_iff.

(** "Decoding gives back what was encoded" is false of the raw string value "x"
    (it comes back as an expression) and of the raw empty string (it is lost on
    the next encoding). *)
Theorem C72_string_any_refuted : exists s t m,
  marshal_union {| u_expr := ""; u_any := Some s |} = Ok t /\ unmarshal_union union_zero t = Ok m /\ u_any m = None /\ u_expr m = "x".
Proof. exists """x""", """x""", {| u_expr := "x"; u_any := None |}. repeat split. Qed.
Print Assumptions C72_string_any_refuted.
Theorem C72_empty_string_refuted : exists m, unmarshal_union union_zero (String DQ (str1 DQ)) = Ok m /\ marshal_union m = Ok "null".
Proof. exists {| u_expr := ""; u_any := None |}. split; reflexivity. Qed.
Print Assumptions C72_empty_string_refuted.

(** Callbacks.  [enc] and [dec] are the JSON of path items: [enc] yields compact
    text other than null that [dec] gives back. *)
Theorem C72_callback_map : forall (P : Type) (enc : P -> res string) (dec : string -> res P),
  (forall p, exists t, enc p = Ok t /\ compacted t = Ok t /\ t <> "null" /\ dec t = Ok p) ->
  forall l, sorted l -> Forall (fun kv => equal_fold (fst kv) "$ref" = false) l ->
  exists t, marshal_callback enc {| cb_ref := None; cb_map := Some l |} = Ok t /\ unmarshal_callback dec t = Ok {| cb_ref := None; cb_map := Some l |}.
Proof. exact @callback_map. Qed.
Print Assumptions C72_callback_map.

Theorem C72_callback_ref : forall (P : Type) (enc : P -> res string) (dec : string -> res P) p m t,
  marshal_callback enc {| cb_ref := Some p; cb_map := m |} = Ok t ->
  unmarshal_callback dec t = match ptr_parse (ptr_string p) with Ok p' => Ok {| cb_ref := Some p'; cb_map := None |} | Err => Err | Panic => Panic | OutOfFuel => OutOfFuel end.
Proof.
  intros P enc dec p m t H. rewrite (callback_ref enc dec p m t H). destruct (ptr_parse (ptr_string p)); reflexivity.
Qed.
Print Assumptions C72_callback_ref.

Theorem C72_callback_nil : forall (P : Type) (enc : P -> res string) (dec : string -> res P),
  marshal_callback enc {| cb_ref := None; cb_map := None |} = Ok "null" /\ unmarshal_callback dec "null" = Ok {| cb_ref := None; cb_map := None |}.
Proof. exact @callback_nil. Qed.
Print Assumptions C72_callback_nil.

(** "Every callback map comes back" is false: the expression "$ref". *)
Definition unit_enc (_ : unit) : res string := Ok "{}".
Definition unit_dec (s : string) : res unit := if String.eqb s "{}" then Ok tt else Err.
Theorem C72_callback_key_refuted : exists l t, sorted l /\ marshal_callback unit_enc {| cb_ref := None; cb_map := Some l |} = Ok t /\
  (exists p, unmarshal_callback unit_dec t = Ok {| cb_ref := Some p; cb_map := None |}).
Proof. exists [("$ref", Some tt)], "{""$ref"":{}}". split; [repeat constructor|]. split; [reflexivity|]. eexists. vm_compute. reflexivity. Qed.
Print Assumptions C72_callback_key_refuted.

(** Any object text, of compact members written in this order, whose members
    named "$ref" (in any case of letters) are null or strings that read as
    pointers: the last of these decides.  A string makes a reference; null, or no
    such member, a map in which the last member of a name counts. *)
Theorem C72_callback_members : forall (P : Type) (dec : string -> res P) (l : list (string * string)),
  Forall (fun kv => compacted (snd kv) = Ok (snd kv)) l ->
  Forall (fun kv => equal_fold (fst kv) "$ref" = true -> snd kv = "null" \/ exists p, ptr_unmarshal (snd kv) = Ok p) l ->
  exists t, compacted ("{" +++ join "," (map (fun kv => jquote (fst kv) +++ ":" +++ snd kv) l) +++ "}") = Ok t /\
    (forall a k x b p, l = a ++ (k, x) :: b -> equal_fold k "$ref" = true -> Forall (fun kv => equal_fold (fst kv) "$ref" = false) b ->
       x <> "null" -> ptr_unmarshal x = Ok p -> unmarshal_callback dec t = Ok {| cb_ref := Some p; cb_map := None |}) /\
    ((Forall (fun kv => equal_fold (fst kv) "$ref" = false) l \/
      exists a k b, l = a ++ (k, "null") :: b /\ equal_fold k "$ref" = true /\ Forall (fun kv => equal_fold (fst kv) "$ref" = false) b) ->
     Forall (fun kv => snd kv = "null" \/ exists p, dec (snd kv) = Ok p) l ->
     exists m, unmarshal_callback dec t = Ok {| cb_ref := None; cb_map := Some m |} /\ sorted m /\
       (forall k, ~ In k (map fst l) -> oget k m = None) /\
       (forall a k b, l = a ++ (k, "null") :: b -> ~ In k (map fst b) -> oget k m = Some None) /\
       (forall a k x b p, l = a ++ (k, x) :: b -> ~ In k (map fst b) -> x <> "null" -> dec x = Ok p -> oget k m = Some (Some p))).
Proof.
  intros P dec l F R. destruct (callback_members dec l F R) as (t & Et & U). exists t.
  split; [exact Et|].
  assert (Z : forall b, Forall (fun kv : string * string => equal_fold (fst kv) "$ref" = false) b -> refs_of b = []).
  { induction b as [|kv b IH]; intro H; [reflexivity|]. inversion H as [|? ? H1 H2]; subst. unfold refs_of. cbn [filter]. rewrite H1. now apply IH. }
  assert (L : forall a k x b, equal_fold k "$ref" = true -> Forall (fun kv : string * string => equal_fold (fst kv) "$ref" = false) b ->
    rev (refs_of (a ++ (k, x) :: b)) = x :: rev (refs_of a)).
  { intros a k x b Hk Hb. unfold refs_of. rewrite filter_app, map_app. cbn [filter fst]. rewrite Hk. cbn [map snd]. change (map snd (filter _ b)) with (refs_of b).
    rewrite (Z b Hb). now rewrite rev_app_distr. }
  assert (FA : forall k a b, find (fun kv : string * string => String.eqb (fst kv) k) (a ++ b) =
    match find (fun kv => String.eqb (fst kv) k) a with Some y => Some y | None => find (fun kv => String.eqb (fst kv) k) b end).
  { intros k a b. induction a as [|y a IHa]; [reflexivity|]. cbn [app find]. destruct (String.eqb (fst y) k); [reflexivity | apply IHa]. }
  assert (FN : forall k b, ~ In k (map fst b) -> find (fun kv : string * string => String.eqb (fst kv) k) (rev b) = None).
  { intros k b Hn. destruct (find _ (rev b)) as [kv|] eqn:E; [|reflexivity]. exfalso. apply find_some in E as (Hi & He). apply String.eqb_eq in He as <-.
    apply Hn, in_map, in_rev, Hi. }
  assert (FL : forall k a x b, ~ In k (map fst b) -> find (fun kv : string * string => String.eqb (fst kv) k) (rev (a ++ (k, x) :: b)) = Some (k, x)).
  { intros k a x b Hn. rewrite rev_app_distr. cbn [rev]. rewrite !FA, (FN k b Hn). cbn [find fst]. now rewrite String.eqb_refl. }
  split.
  - intros a k x b p -> Hk Hb Nx Hp. rewrite (L a k x b Hk Hb) in U. unfold ref_text in U. apply String.eqb_neq in Nx. rewrite Nx, Hp in U. exact U.
  - intros C G.
    assert (E : match rev (refs_of l) with [] => None | x :: _ => ref_text x end = None).
    { destruct C as [C|(a & k & b & -> & Hk & Hb)]; [now rewrite (Z l C) | now rewrite (L a k "null" b Hk Hb)]. }
    rewrite E in U. destruct (U G) as (m & Em & Sm & Gm). exists m. split; [exact Em|]. split; [exact Sm|]. split; [|split].
    + intros k Hn. now rewrite Gm, (FN k l Hn).
    + intros a k b -> Hn. now rewrite Gm, (FL k a "null" b Hn).
    + intros a k x b p -> Hn Nx Hp. rewrite Gm, (FL k a x b Hn). cbn [snd]. apply String.eqb_neq in Nx. now rewrite Nx, Hp.
Qed.
Print Assumptions C72_callback_members.

(** Null is the callback without anything; every other value that is not an
    object is refused. *)
Theorem C72_callback_kinds : forall (P : Type) (dec : string -> res P) rd s j, read_json rd s = Some j ->
  match j with
  | JNull => unmarshal_callback dec s = Ok {| cb_ref := None; cb_map := None |}
  | JObj _ => True
  | _ => unmarshal_callback dec s = Err
  end.
Proof.
  intros P dec rd s j H. destruct (union_into rd s j union_zero H) as (w1 & t & w2 & Es & H1 & H2 & Rt & V & _).
  pose proof (read_valid rd s j H) as Vs. apply read_json_iff in H as (v1 & t' & v2 & G1 & G2 & Et & Ht).
  pose proof (value_text_lay _ _ _ _ _ _ G1 G2 Ht) as V'. rewrite <- Et, V in V'. subst t'.
  assert (N : t = "null" -> j = JNull) by (intros ->; destruct (read_json rd "null") as [x|] eqn:E in Rt; [vm_compute in E; congruence | discriminate]).
  assert (B : (exists m, j = JObj m) \/ skip_ws t = t /\ exists c r, t = String c r /\ Ascii.eqb c "{" = false).
  { assert (G : forall c r, t = String c r -> is_ws c = false -> skip_ws t = t) by (intros c r -> W; now apply skip_ws_cons).
    destruct Ht; try (right; split; [now eapply G | eexists; eexists; split; reflexivity]); [|left; eauto | left; eauto].
    match goal with Hn : is_number _ = true |- _ => destruct (number_chars _ Hn) as (_ & c & r & E & S) end. right.
    assert (K : forall c, (if num_start c then negb (is_ws c) && negb (Ascii.eqb c "{") else true) = true) by bytes. specialize (K c). rewrite S in K.
    apply andb_prop in K as (K1 & K2). apply negb_true_iff in K1, K2. split; [exact (G c r E K1) | eauto]. }
  unfold unmarshal_callback. rewrite Vs. cbn [negb]. rewrite V.
  destruct (String.eqb t "null") eqn:E0; [apply String.eqb_eq in E0; rewrite (N E0); reflexivity|].
  destruct B as [(m & ->)|(Sk & c & r & E & Ec)]; [exact Logic.I|]. unfold raw_object. rewrite Sk, E, Ec. cbn [negb].
  destruct j; try reflexivity; try exact Logic.I.
  exfalso. apply String.eqb_neq in E0. apply E0. inversion Ht. reflexivity.
Qed.
Print Assumptions C72_callback_kinds.
Example C72_kinds_ex : read_json (fun _ => None) " ""}"" " = Some (JStr "}") /\ unmarshal_callback unit_dec " ""}"" " = Err /\ unmarshal_callback unit_dec " null" = Ok cb_zero.
Proof. repeat split. Qed.

(** The hypotheses at work: two references, then a null one, and a name twice. *)
Example C72_members_ex :
  let l := [("$ref", """a#/b"""); ("$REF", "null"); ("x", "null"); ("x", "{}"); ("$ref", "null")] in
  Forall (fun kv => compacted (snd kv) = Ok (snd kv)) l /\
  Forall (fun kv => equal_fold (fst kv) "$ref" = true -> snd kv = "null" \/ exists p, ptr_unmarshal (snd kv) = Ok p) l /\
  Forall (fun kv => snd kv = "null" \/ exists p, (fun _ => Ok tt) (snd kv) = Ok p) l /\
  (exists a k b, l = a ++ (k, "null") :: b /\ equal_fold k "$ref" = true /\ Forall (fun kv => equal_fold (fst kv) "$ref" = false) b).
Proof.
  split; [repeat constructor|]. split; [|split].
  - repeat (apply Forall_cons; [intro E; first [discriminate E | left; reflexivity | right; eexists; vm_compute; reflexivity]|]). constructor.
  - repeat (apply Forall_cons; [first [left; reflexivity | right; exists tt; reflexivity]|]). constructor.
  - exists [("$ref", """a#/b"""); ("$REF", "null"); ("x", "null"); ("x", "{}")], "$ref", []. now repeat split.
Qed.

Example C72_ex :
  marshal_union {| u_expr := ""; u_any := Some " { ""a"" : [1 , ""<x>""] } " |} = Ok "{""a"":[1,""\u003cx\u003e""]}" /\
  unmarshal_union union_zero "{""a"":[1,""\u003cx\u003e""]}" = Ok {| u_expr := ""; u_any := Some "{""a"":[1,""\u003cx\u003e""]}" |} /\
  marshal_union {| u_expr := "$request.body#/url"; u_any := Some "1" |} = Ok """$request.body#/url""" /\
  valid_json "{" = false /\
  marshal_callback unit_enc {| cb_ref := None; cb_map := Some [("$url", Some tt); ("x", None)] |} = Ok "{""$url"":{},""x"":null}" /\
  (forall p, exists t, unit_enc p = Ok t /\ compacted t = Ok t /\ t <> "null" /\ unit_dec t = Ok p).
Proof. repeat split. intros []. exists "{}". repeat split. discriminate. Qed.

(** ** C73 *)
Theorem C73_levels : forall s,
  let names := [("panic", 0); ("fatal", 1); ("error", 2); ("warn", 3); ("warning", 3); ("info", 4); ("debug", 5); ("trace", 6)] in
  (forall n, parse_level s = Ok n <-> exists w, In (w, n) names /\ spells s w) /\
  (parse_level s = Err <-> forall w n, In (w, n) names -> ~ spells s w) /\
  parse_level s <> Panic /\ parse_level s <> OutOfFuel.
Proof. exact parse_level_spec. Qed.
Print Assumptions C73_levels.

(** On ASCII texts: exactly the eight names in any letter case. *)
Theorem C73_ascii : forall s w, (forall c, has_char c s = true -> nat_of_ascii c < 128) ->
  In w ["panic"; "fatal"; "error"; "warn"; "warning"; "info"; "debug"; "trace"] -> (spells s w <-> to_lower s = w).
Proof.
  intros s w A H. apply ascii_spells; [exact A|]. cbn [In] in H.
  repeat (destruct H as [<-|H]; [reflexivity|]). contradiction.
Qed.
Print Assumptions C73_ascii.

(** Outside ASCII more is accepted: a capital dotted I. *)
Example C73_ex : parse_level "WaRnInG" = Ok 3 /\ parse_level "loud" = Err /\
  parse_level (String (ascii_of_nat 196) (String (ascii_of_nat 176) "NFO")) = Ok 4.
Proof. repeat split. Qed.

(** ** C81 *)
Theorem C81_marshalled_reference : forall p t, ptr_marshal p = Ok t ->
  read_json (fun _ => None) t = Some (JStr (ptr_string p)) /\ ptr_unmarshal t = ptr_parse (ptr_string p).
Proof. exact ptr_marshalled. Qed.
Print Assumptions C81_marshalled_reference.

(** References to Go types survive. *)
Theorem C81_go_reference : forall pkg p t, import_path pkg -> go_pointer pkg p -> Forall (fun x => has_char "%" x = false) (p_frag p) ->
  ptr_marshal p = Ok t -> exists p', ptr_unmarshal t = Ok p' /\ p_frag p' = p_frag p /\ pkg_path p' = pkg /\ ptr_string p' = ptr_string p.
Proof. exact go_marshalled. Qed.
Print Assumptions C81_go_reference.

(** Any string written by json.Marshal is read as that string. *)
Theorem C81_json_string : forall s, ptr_unmarshal (jquote s) = ptr_parse s.
Proof. intro s. unfold ptr_unmarshal. now rewrite unquote_jquote. Qed.
Print Assumptions C81_json_string.

(** A text in quotes is read as what it quotes only if nothing follows the
    closing quote; otherwise the whole text, quotes included, is parsed. *)
Theorem C81_quoted_text : forall s rest,
  all (fun c => negb (Ascii.eqb c DQ || Ascii.eqb c BS || Ascii.eqb c (chr 10)) && Nat.ltb (nat_of_ascii c) 128) s = true ->
  ptr_unmarshal (str1 DQ +++ s +++ str1 DQ +++ rest) =
  ptr_parse (if String.eqb rest "" then s else str1 DQ +++ s +++ str1 DQ +++ rest).
Proof.
  intros s rest H. unfold ptr_unmarshal.
  assert (U : unquote_body (s +++ str1 DQ +++ rest) = if String.eqb rest "" then Some s else None).
  { induction s as [|c s IH].
    - cbn. destruct (String.eqb rest ""); reflexivity.
    - cbn [all] in H. apply andb_prop in H as (H1 & H2). apply andb_prop in H1 as (H1 & H3).
      apply negb_true_iff in H1. apply orb_false_elim in H1 as (H1 & Hn). apply orb_false_elim in H1 as (Hq & Hb).
      change ((String c s) +++ str1 DQ +++ rest) with (String c (s +++ str1 DQ +++ rest)).
      cbn [unquote_body]. rewrite Hq, Hn, Hb, (IH H2). destruct (String.eqb rest ""); reflexivity. }
  change (unquote (str1 DQ +++ s +++ str1 DQ +++ rest)) with (unquote_body (s +++ str1 DQ +++ rest)).
  rewrite U. destruct (String.eqb rest ""); reflexivity.
Qed.
Print Assumptions C81_quoted_text.
Example C81_quoted_ex : (exists p, ptr_unmarshal """#/a""" = Ok p /\ p_frag p = ["a"]) /\ ptr_unmarshal """#/a""x" = ptr_parse """#/a""x".
Proof. split; [eexists; split; vm_compute; reflexivity | exact (C81_quoted_text "#/a" "x" eq_refl)]. Qed.

(** "A JSON string denotes the reference it spells" is false: \/ is JSON for a
    slash, but strconv.Unquote knows no such escape and the quotes stay in. *)
Theorem C81_escaped_slash_refuted :
  (read_json (fun _ => None) """#\/a""" = Some (JStr "#/a") /\ ptr_unmarshal """#\/a""" = Err /\ exists p, ptr_parse "#/a" = Ok p) /\
  exists p q, read_json (fun _ => None) """a\/b#/x""" = Some (JStr "a/b#/x") /\ ptr_unmarshal """a\/b#/x""" = Ok p /\ p_frag p = ["x"""] /\
    ptr_parse "a/b#/x" = Ok q /\ p_frag q = ["x"].
Proof.
  split; [split; [reflexivity|]; split; [vm_compute; reflexivity | eexists; vm_compute; reflexivity]|].
  eexists. eexists. split; [reflexivity|]. split; [vm_compute; reflexivity|]. split; [reflexivity|]. split; [vm_compute; reflexivity | reflexivity].
Qed.
Print Assumptions C81_escaped_slash_refuted.

(** "Only strings are references" is false. *)
Theorem C81_non_string_refuted : exists t p, read_json (fun _ => Some (NInt 12)) t = Some (JNum (NInt 12)) /\ ptr_unmarshal t = Ok p.
Proof. exists "12". eexists. split; vm_compute; reflexivity. Qed.
Print Assumptions C81_non_string_refuted.

(** ** C82 *)
(** The reader accepts exactly the JSON texts: optional blanks around a laid out
    value, and reads the value laid out. *)
Theorem C82_grammar : forall rd s j, read_json rd s = Some j <->
  exists w1 t w2, ws w1 /\ ws w2 /\ s = w1 +++ t +++ w2 /\ lay rd ws j t.
Proof. exact read_json_iff. Qed.
Print Assumptions C82_grammar.

(** Removing the blanks keeps the value, and doing it twice changes nothing. *)
Theorem C82_compact : forall rd s j, read_json rd s = Some j ->
  exists t, compacted s = Ok t /\ read_json rd t = Some j /\ compacted t = Ok t /\ lay rd (fun w => w = "") j t.
Proof. exact compacts. Qed.
Print Assumptions C82_compact.

(** A string literal after its opening quote, byte by byte: plain characters, the
    eight short escapes and \u escapes, those of surrogates included. *)
Theorem C82_strings : forall x t, (forall rest, read_str (t +++ rest) = Some (x, rest)) <-> strbytes (fun _ => True) x t.
Proof. intros x t. split; [exact (strlit_bytes x t) | exact (bytes_strlit (fun _ => True) x t)]. Qed.
Print Assumptions C82_strings.

(** Escapes of surrogates.  A high one followed by a low one is the UTF-8 of the
    code point 0x10000 + 1024*a + b; any other becomes U+FFFD. *)
Theorem C82_pair : forall h1 h2 h3 h4 g1 g2 g3 g4 a b rest x r,
  hex4 h1 h2 h3 h4 = Some (54 * 1024 + a) -> a < 1024 -> hex4 g1 g2 g3 g4 = Some (55 * 1024 + b) -> b < 1024 -> read_str rest = Some (x, r) ->
  let c := 64 * 1024 + 1024 * a + b in
  read_str (String BS (String "u" (String h1 (String h2 (String h3 (String h4
    (String BS (String "u" (String g1 (String g2 (String g3 (String g4 rest)))))))))))) =
  Some (String (chr (240 + c / 64 / 64 / 64)) (String (chr (128 + c / 64 / 64 mod 64)) (String (chr (128 + c / 64 mod 64)) (String (chr (128 + c mod 64)) x))), r).
Proof.
  intros h1 h2 h3 h4 g1 g2 g3 g4 a b rest x r Hh Ha Hg Hb R c.
  assert (N : forall n, n < 1024 -> forall q, (q * 1024 + n) / 64 / 16 = q).
  { intros n Hn q. rewrite Nat.div_div by discriminate. change (64 * 16) with 1024. rewrite Nat.div_add_l by discriminate. rewrite Nat.div_small by exact Hn. apply Nat.add_0_r. }
  rewrite (read_pair h1 h2 h3 h4 (54 * 1024 + a) g1 g2 g3 g4 (55 * 1024 + b) rest Hh).
  - rewrite R, (utf8_pair_code a b Ha Hb). reflexivity.
  - destruct (utf8 (54 * 1024 + a)) as [u|] eqn:U; [|reflexivity]. apply utf8_high in U as (U & _). unfold high_half in U. rewrite (N a Ha 54) in U. discriminate U.
  - unfold high_half. now rewrite (N a Ha 54).
  - exact Hg.
  - unfold low_half. now rewrite (N b Hb 55).
Qed.
Print Assumptions C82_pair.
Theorem C82_lone : forall h1 h2 h3 h4 n rest x r,
  hex4 h1 h2 h3 h4 = Some n -> n / 1024 = 54 \/ n / 1024 = 55 ->
  (n / 1024 = 54 -> forall g1 g2 g3 g4 k rest', rest = String BS (String "u" (String g1 (String g2 (String g3 (String g4 rest'))))) ->
     hex4 g1 g2 g3 g4 = Some k -> k / 1024 <> 55) ->
  read_str rest = Some (x, r) ->
  read_str (String BS (String "u" (String h1 (String h2 (String h3 (String h4 rest)))))) = Some (String (chr 239) (String (chr 191) (String (chr 189) x)), r).
Proof.
  intros h1 h2 h3 h4 n rest x r Hh Hn Hl R.
  assert (N : forall m, m / 64 / 16 = m / 1024) by (intro m; now rewrite Nat.div_div by discriminate).
  rewrite (read_lone h1 h2 h3 h4 n rest Hh).
  - rewrite R. reflexivity.
  - destruct (utf8 n) as [u|] eqn:U; [|reflexivity]. apply utf8_high in U as (U1 & U2). unfold high_half, low_half in U1, U2. rewrite N in U1, U2.
    apply Nat.eqb_neq in U1, U2. destruct Hn; contradiction.
  - intro H. unfold high_half in H. rewrite N in H. apply Nat.eqb_eq in H. destruct (low_next rest) as [k|] eqn:E; [|reflexivity]. exfalso.
    apply low_next_some in E as (g1 & g2 & g3 & g4 & rest' & -> & Eg & El). unfold low_half in El. rewrite N in El. apply Nat.eqb_eq in El.
    exact (Hl H g1 g2 g3 g4 k rest' eq_refl Eg El).
Qed.
Print Assumptions C82_lone.
Example C82_pair_ex : read_json (fun _ => Some (NInt 1)) """\ud83d\uDE00\udc00\ud83dx""" =
  Some (JStr (String (chr 240) (String (chr 159) (String (chr 152) (String (chr 128)
    (String (chr 239) (String (chr 191) (String (chr 189) (String (chr 239) (String (chr 191) (String (chr 189) "x"))))))))))).
Proof. vm_compute. reflexivity. Qed.

Example C82_ex : read_json (fun _ => Some (NInt 1)) " [ 1 ,{""a"" :""\u0041\n""}] " = Some (JArr [JNum (NInt 1); JObj [("a", JStr ("A" +++ str1 (chr 10)))]]) /\
  compacted " [ 1 ,{""a"" :""\u0041\n""}] " = Ok "[1,{""a"":""\u0041\n""}]" /\ read_json (fun _ => Some (NInt 1)) "[1,]" = None.
Proof. repeat split. Qed.

Example C81_ex : exists p t, new_go_pointer "github.com/a/b" "T<x>" = Ok p /\ ptr_marshal p = Ok t /\
  t = """go://github.com/a/b#/T\u003cx\u003e""" /\ import_path "github.com/a/b" /\ go_pointer "github.com/a/b" p.
Proof.
  eexists. eexists. split; [vm_compute; reflexivity|]. split; [vm_compute; reflexivity|]. split; [reflexivity|].
  split; [split; [discriminate | reflexivity]|].
  exists "/T<x>". eexists. split; vm_compute; reflexivity.
Qed.
