(** Properties C41-C46: struct tags. [pf] is the reading of floating point
    numbers (strconv.ParseFloat), kept abstract: any function. *)
From Coq Require Import String Ascii List Bool Arith ZArith.
From Verif Require Import GoStr GoStrFacts Json JsonFacts Tag Spec_Tag Spec_TagQuote TagFacts TagText TagQuote TagLit.
Import ListNotations.
Local Open Scope string_scope.
Local Open Scope nat_scope.
Local Open Scope list_scope.

(** A sample reading of numbers for the examples: decimal integers. *)
Definition pz : string -> option Z := atoi.
Definition q := str1 dquote.

(** ** C41 *)
Theorem C41_ignore : forall (F : Type) (pf : string -> option F) raw t, tag_parse pf raw = Ok t ->
  (t_ignore t = true <-> part_name "json" raw = Some "-" \/ part_name "oapi" raw = Some "-").
Proof. exact @ignore_spec. Qed.
Print Assumptions C41_ignore.
(** The parts of a plainly written tag KEY:"NAME,OPT,OPT:VALUE" ...: the first entry with the key. *)
Theorem C41_parts : forall l key, Forall plain_entry l -> l <> [] ->
  part key (tag_text l) = match find (fun e => String.eqb (e_key e) key) l with
                          | Some e => Some {| pt_name := e_name e; pt_options := opt_map (e_opts e) |}
                          | None => None
                          end.
Proof. exact part_text. Qed.
Print Assumptions C41_parts.
(** Values between single quotes: any text not ending in a backslash is read as
    written (without the white space around it), also one with commas, colons,
    brackets, quotes and backslashes. *)
Theorem C41_parts_quoted : forall l key, Forall wentry_ok l -> l <> [] ->
  part key (wtag_text l) = match find (fun e => String.eqb (we_key e) key) l with
                           | Some e => Some {| pt_name := we_name e; pt_options := woption_map (we_opts e) |}
                           | None => None
                           end.
Proof. exact part_wtext. Qed.
Print Assumptions C41_parts_quoted.
Definition quoted_entry : wentry :=
  {| we_key := "oapi"; we_name := "n"; we_opts := [{| w_key := "pattern"; w_value := "^(\d{1,2}|'a':b)$ "; w_quoted := true |}; {| w_key := "min"; w_value := "3"; w_quoted := false |}] |}.
Example C41_parts_quoted_example : Forall wentry_ok [quoted_entry] /\
  wtag_text [quoted_entry] = "oapi:""n,pattern:'^(\\d{1,2}|\\'a\\':b)$ ',min:3""" /\
  exists t, tag_parse pz (wtag_text [quoted_entry]) = Ok t /\ t_pattern t = "^(\d{1,2}|'a':b)$".
Proof.
  split; [|split; [vm_compute; reflexivity|eexists; split; vm_compute; reflexivity]].
  constructor; [|constructor]. repeat split; try discriminate. constructor; [|constructor; [|constructor]]; (split; [reflexivity|]; split; [discriminate|]); [|reflexivity].
  intros u E. do 18 (destruct u as [|? u]; [discriminate E|]; injection E as _ E). destruct u; discriminate E.
Qed.
(** The text between the double quotes is read as a Go string literal: exactly the
    literals are accepted, and they mean what they should (escapes of a letter, of
    two hexadecimal or three octal digits, and of a Unicode code point, which gives
    its UTF-8 form). *)
Theorem C41_literal : forall s u, unquote s = Ok u <-> literal s u.
Proof. exact unquote_literal. Qed.
Print Assumptions C41_literal.
(** Unicode escapes in the quoted value give UTF-8. *)
Example C41_unicode : unquote "\u00e9\U0001F600\x41" = Ok (String (ascii_of_nat 195) (String (ascii_of_nat 169)
    (String (ascii_of_nat 240) (String (ascii_of_nat 159) (String (ascii_of_nat 152) (String (ascii_of_nat 128) "A")))))) /\
  unquote "\ud800" = Err /\ unquote "\U00110000" = Err /\ unquote "\u12" = Err.
Proof. vm_compute. auto. Qed.
(** For plainly written tags, ignoring is decided by the names written. *)
Theorem C41_ignore_written : forall (F : Type) (pf : string -> option F) l t, Forall plain_entry l -> l <> [] -> tag_parse pf (tag_text l) = Ok t ->
  (t_ignore t = true <-> exists key e, In key ["json"; "oapi"] /\ find (fun e => String.eqb (e_key e) key) l = Some e /\ e_name e = "-").
Proof.
  intros F pf l t Hl Nl H. rewrite (ignore_spec pf _ _ H). unfold part_name. rewrite !part_text by assumption. split.
  - intros [X|X]; [exists "json"|exists "oapi"]; destruct (find _ l) as [e|]; try discriminate X; exists e; cbn in *; (split; [tauto|]); (split; [reflexivity|congruence]).
  - intros (key & e & [<- |[<- |[]]] & -> & E); cbn; rewrite E; auto.
Qed.
Print Assumptions C41_ignore_written.
Example C41_example :
  (exists t, tag_parse pz (tag_text [{| e_key := "json"; e_name := "-"; e_opts := [] |}; {| e_key := "oapi"; e_name := "id"; e_opts := [] |}]) = Ok t /\ t_ignore t = true /\ t_name t = "id") /\
  tag_text [{| e_key := "json"; e_name := "-"; e_opts := [] |}; {| e_key := "oapi"; e_name := "id"; e_opts := [] |}] = "json:" +++ q +++ "-" +++ q +++ " oapi:" +++ q +++ "id" +++ q.
Proof. split; [eexists; split; [vm_compute; reflexivity | vm_compute; auto] | reflexivity]. Qed.

(** ** C42 *)
Theorem C42_name : forall (F : Type) (pf : string -> option F) raw t, tag_parse pf raw = Ok t -> t_ignore t = false ->
  t_name t = match nonempty_name (part_name "oapi" raw) with
             | Some n => n
             | None => match part_name "json" raw with Some n => n | None => "" end
             end.
Proof. exact @name_spec. Qed.
Print Assumptions C42_name.
Example C42_example :
  exists t, tag_parse pz (tag_text [{| e_key := "json"; e_name := "a"; e_opts := [("omitempty", "")] |}; {| e_key := "oapi"; e_name := ""; e_opts := [("maxlen", "3")] |}]) = Ok t /\
    t_ignore t = false /\ t_name t = "a" /\ t_maxlen t = Some 3%Z /\ t_omitempty t = false.
Proof. eexists. split; [vm_compute; reflexivity | vm_compute; auto]. Qed.

(** ** C43 *)
(** Each option of the oapi part sets its attribute and nothing else does,
    except: inline falls back to the json part, and mulof is stored, if present,
    as the exclusive minimum; the multiple-of attribute is never set. *)
Theorem C43_options : forall (F : Type) (pf : string -> option F) raw t p,
  tag_parse pf raw = Ok t -> part "oapi" raw = Some p -> pt_name p <> "-" ->
  Forall (attr_set pf (pt_options p) tag_zero t)
    [("omitempty", AFlag t_omitempty); ("nullable", ABool t_nullable); ("readonly", AFlag t_readonly);
     ("writeonly", AFlag t_writeonly); ("deprecated", AFlag t_deprecated); ("unique", AFlag t_uniqitems); ("required", AFlag t_required);
     ("maxlen", AInt t_maxlen); ("minlen", AInt t_minlen); ("maxitems", AInt t_maxitems); ("minitems", AInt t_minitems);
     ("maxprops", AInt t_maxprops); ("minprops", AInt t_minprops); ("pattern", AText t_pattern); ("format", AText t_format);
     ("type", AText t_type); ("max", AFloat t_max); ("min", AFloat t_min); ("emax", AFloat t_emax)] /\
  (exists i, json_inline raw i /\ reads bool_of (pt_options p) "inline" i (t_inline t)) /\
  (exists e, reads pf (pt_options p) "emin" None e /\ reads pf (pt_options p) "mulof" e (t_emin t)) /\
  t_mulof t = None.
Proof. exact @oapi_options. Qed.
Print Assumptions C43_options.
(** Without an oapi part only name, ignore, inline and omitempty can be set. *)
Theorem C43_no_oapi : forall (F : Type) (pf : string -> option F) raw t, tag_parse pf raw = Ok t -> part "oapi" raw = None ->
  t_nullable t = None /\ t_readonly t = false /\ t_writeonly t = false /\ t_deprecated t = false /\ t_required t = false /\ t_uniqitems t = false /\
  t_pattern t = "" /\ t_format t = "" /\ t_type t = "" /\ t_min t = None /\ t_max t = None /\ t_emin t = None /\ t_emax t = None /\ t_mulof t = None /\
  t_minlen t = None /\ t_maxlen t = None /\ t_minitems t = None /\ t_maxitems t = None /\ t_minprops t = None /\ t_maxprops t = None.
Proof. exact @no_oapi_part. Qed.
Print Assumptions C43_no_oapi.
Theorem C43_mulof_never_set : forall (F : Type) (pf : string -> option F) raw t, tag_parse pf raw = Ok t -> t_mulof t = None.
Proof. exact @mulof_never_set. Qed.
Print Assumptions C43_mulof_never_set.
Example C43_example :
  exists t, tag_parse pz (tag_text [{| e_key := "oapi"; e_name := "n"; e_opts := [("mulof", "5"); ("emin", "2"); ("nullable", ""); ("readonly", "true")] |}]) = Ok t /\
    t_mulof t = None /\ t_emin t = Some 5%Z /\ t_nullable t = Some true /\ t_readonly t = true /\ t_emax t = None.
Proof. eexists. split; [vm_compute; reflexivity | vm_compute; auto 10]. Qed.

(** ** C44 *)
Theorem C44_errors : forall (F : Type) (pf : string -> option F) raw, tag_parse pf raw = Err <->
  stags_parse raw = Err \/
  (exists p v, part "json" raw = Some p /\ pt_name p <> "-" /\ oget "inline" (pt_options p) = Some v /\ bool_of v = None) \/
  (exists p, part "oapi" raw = Some p /\ pt_name p <> "-" /\
    ((exists k v, In k ["maxlen"; "minlen"; "maxitems"; "minitems"; "maxprops"; "minprops"] /\ oget k (pt_options p) = Some v /\ atoi v = None) \/
     (exists k v, In k ["max"; "min"; "emax"; "emin"; "mulof"] /\ oget k (pt_options p) = Some v /\ pf v = None) \/
     (exists k v, In k ["inline"; "nullable"] /\ oget k (pt_options p) = Some v /\ bool_of v = None))).
Proof. exact @parse_err. Qed.
Print Assumptions C44_errors.
(** Plainly written tags are never malformed as such. *)
Theorem C44_written : forall (F : Type) (pf : string -> option F) l, Forall plain_entry l -> l <> [] ->
  let opts_of key := match find (fun e => String.eqb (e_key e) key) l with Some e => if String.eqb (e_name e) "-" then [] else opt_map (e_opts e) | None => [] end in
  tag_parse pf (tag_text l) = Err <->
    (exists v, oget "inline" (opts_of "json") = Some v /\ bool_of v = None) \/ malformed pf (opts_of "oapi").
Proof.
  intros F pf l Hl Nl opts_of. rewrite parse_err. subst opts_of. cbn beta. rewrite !part_text by assumption. split.
  - intros [X|[(p & v & Hp & N & Hv & Hb)|(p & Hp & N & M)]].
    + exfalso. unfold stags_parse in X. rewrite stags_text in X by (exact Hl || now apply tag_text_length). destruct l; [congruence | discriminate].
    + left. exists v. destruct (find _ l) as [e|]; [|discriminate]. injection Hp as <-. cbn in N, Hv. destruct (String.eqb_spec (e_name e) "-"); [contradiction|]. auto.
    + right. destruct (find _ l) as [e|]; [|discriminate]. injection Hp as <-. cbn in N, M. destruct (String.eqb_spec (e_name e) "-"); [contradiction|]. exact M.
  - assert (Z : ~ malformed pf []). { intros [(k & v & _ & X & _)|[(k & v & _ & X & _)|(k & v & _ & X & _)]]; discriminate. }
    intros [(v & Hv & Hb)|M].
    + right. left. destruct (find _ l) as [e|]; [|discriminate Hv]. destruct (String.eqb_spec (e_name e) "-") as [E|E]; [discriminate Hv|]. exists {| pt_name := e_name e; pt_options := opt_map (e_opts e) |}, v. auto.
    + right. right. destruct (find _ l) as [e|]; [|now destruct (Z M)]. destruct (String.eqb_spec (e_name e) "-") as [E|E]; [now destruct (Z M)|].
      exists {| pt_name := e_name e; pt_options := opt_map (e_opts e) |}. auto.
Qed.
Print Assumptions C44_written.
(** A malformed value of another boolean option is read as false. *)
Theorem C44_flags_swallowed : forall (F : Type) (pf : string -> option F) raw t p k g v,
  tag_parse pf raw = Ok t -> part "oapi" raw = Some p -> pt_name p <> "-" ->
  In (k, g) [("omitempty", t_omitempty); ("readonly", t_readonly); ("writeonly", t_writeonly); ("deprecated", t_deprecated); ("unique", t_uniqitems); ("required", t_required)] ->
  oget k (pt_options p) = Some v -> bool_of v = None -> g t = false.
Proof.
  intros F pf raw t p k g v H Hp N Hin Hk Hv. destruct (oapi_options pf raw t p H Hp N) as (A & _). rewrite Forall_forall in A.
  cut (g t = flag (oget k (pt_options p))). { intros ->. unfold flag. now rewrite Hk, Hv. }
  assert (In (k, AFlag g) (tl (attributes F))) as Hin'. { cbn in Hin |- *. intuition (try (match goal with E : (_, _) = (_, _) |- _ => injection E as <- <- end); tauto). }
  exact (A _ Hin').
Qed.
Print Assumptions C44_flags_swallowed.
Example C44_example :
  tag_parse pz ("oapi:" +++ q +++ "n,maxlen:x" +++ q) = Err /\ tag_parse pz ("oapi:" +++ q +++ "n") = Err /\
  (exists t, tag_parse pz ("oapi:" +++ q +++ "n,required:yes" +++ q) = Ok t /\ t_required t = false) /\
  (exists t, tag_parse pz ("oapi:" +++ q +++ "n,required" +++ q) = Ok t /\ t_required t = true) /\
  tag_parse pz ("json:" +++ q +++ "n,inline:yes" +++ q) = Err.
Proof.
  split; [vm_compute; reflexivity|]. split; [vm_compute; reflexivity|].
  split; [eexists; split; [vm_compute; reflexivity | reflexivity]|]. split; [eexists; split; [vm_compute; reflexivity | reflexivity]|]. vm_compute; reflexivity.
Qed.

(** ** C45 *)
Theorem C45_omitempty : forall (F : Type) (pf : string -> option F) raw t p,
  tag_parse pf raw = Ok t -> part "oapi" raw = Some p -> pt_name p <> "-" ->
  t_omitempty t = match oget "omitempty" (pt_options p) with
                  | None => false
                  | Some v => match bool_of v with Some b => b | None => false end
                  end.
Proof. exact @omitempty_spec. Qed.
Print Assumptions C45_omitempty.
Theorem C45_json_only : forall (F : Type) (pf : string -> option F) raw t, tag_parse pf raw = Ok t -> part "oapi" raw = None ->
  t_omitempty t = match part "json" raw with
                  | Some p => if String.eqb (pt_name p) "-" then false
                              else match oget "omitempty" (pt_options p) with None => false | Some v => match bool_of v with Some b => b | None => false end end
                  | None => false
                  end.
Proof. exact @omitempty_json. Qed.
Print Assumptions C45_json_only.
Example C45_example :
  (exists t, tag_parse pz ("json:" +++ q +++ "n,omitempty" +++ q +++ " oapi:" +++ q +++ "n" +++ q) = Ok t /\ t_omitempty t = false) /\
  (exists t, tag_parse pz ("json:" +++ q +++ "n,omitempty" +++ q) = Ok t /\ t_omitempty t = true).
Proof. split; eexists; (split; [vm_compute; reflexivity | reflexivity]). Qed.

(** ** C46 *)
Theorem C46_blank_panics : forall (F : Type) (pf : string -> option F) raw, tag_parse pf raw = Panic <-> raw <> "" /\ blank raw = true.
Proof. exact @panics_iff. Qed.
Print Assumptions C46_blank_panics.
(** Parse returns a tag or an error for every tag that is not blank. *)
Theorem C46_total : forall (F : Type) (pf : string -> option F) raw, blank raw = false ->
  (exists t, tag_parse pf raw = Ok t) \/ tag_parse pf raw = Err.
Proof.
  intros F pf raw Hn. pose proof (parse_modelled pf raw). pose proof (proj1 (panics_iff pf raw)). destruct (tag_parse pf raw); eauto; [|congruence].
  destruct H0 as [_ X]; [reflexivity | congruence].
Qed.
Print Assumptions C46_total.
Example C46_example : tag_parse pz "  " = Panic /\ tag_parse pz "x" = Err /\ tag_parse pz "" = Ok tag_zero.
Proof. vm_compute. auto. Qed.
