(** The JSON form of pointers and schemas: when it exists (proofs). *)
From Coq Require Import String Ascii List Bool Arith ZArith Lia.
From Verif Require Import GoStr GoStrFacts Json JsonFacts MergeFacts Url Pointer Tag Types JsonText JsonTextFacts Spec_Format FormatFacts SchemaJson Spec_Loc LocFacts Spec_Schema SchemaJsonFacts.
Import ListNotations.
Local Open Scope string_scope.
Local Open Scope nat_scope.
Local Open Scope list_scope.

Lemma marshal_ptr_eq p : marshal_ptr p = if all quotable (ptr_string p) then Ok (JStr (ptr_string p)) else Err.
Proof. unfold marshal_ptr, str1. rewrite read_gquote. destruct (all quotable (ptr_string p)); reflexivity. Qed.
Lemma marshal_ptr_iff p j : marshal_ptr p = Ok j <-> plain_key (ptr_string p) /\ j = JStr (ptr_string p).
Proof.
  rewrite marshal_ptr_eq, <- plain_all. destruct (all quotable (ptr_string p)); split.
  - intros [= <-]. auto.
  - now intros (_ & ->).
  - discriminate.
  - intros ([=] & _).
Qed.
Lemma marshal_ptr_fails p : ~ plain_key (ptr_string p) -> marshal_ptr p = Err.
Proof. rewrite marshal_ptr_eq, <- plain_all. destruct (all quotable (ptr_string p)); [congruence | reflexivity]. Qed.

Section Schema.
  Context {F : Type} (fnum : F -> num).
  Section Ind.
    Context (P : schema F -> Prop).
    Context (H : forall s, (forall x, s_addl s = Some x -> P x) -> (forall x, s_items s = Some x -> P x) -> Forall P (s_oneof s) -> Forall (fun kv => P (snd kv)) (s_props s) -> P s).
    Fixpoint schema_induction (s : schema F) : P s.
    Proof.
      apply H.
      - destruct s. cbn. intros x E. destruct s_addl as [y|]; [|discriminate]. pose proof (schema_induction y) as Py. injection E as <-. exact Py.
      - destruct s. cbn. intros x E. destruct s_items as [y|]; [|discriminate]. pose proof (schema_induction y) as Py. injection E as <-. exact Py.
      - destruct s. cbn. induction s_oneof as [|x l IH]; constructor; [apply schema_induction | exact IH].
      - destruct s. cbn. induction s_props as [|[k x] l IH]; constructor; [apply schema_induction | exact IH].
    Defined.
  End Ind.
  Lemma schema_json_ok s : (exists j, schema_json fnum s = Ok j) <-> (forall p, has_ref p s -> plain_key (ptr_string p)).
  Proof.
    split.
    - intros (j & Hj) p R. revert j Hj. induction R as [s E|s k x I R IH|s x E R IH|s x E R IH|s x I R IH]; intros j Hj; destruct (schema_json_spec fnum s j Hj) as (r & addl & items & oneof & props & Hr & Ha & Hi & Ho & Hp & _).
      + rewrite E in Hr. destruct Hr as (y & Hy & _). now apply marshal_ptr_iff in Hy.
      + clear -Hp I IH. induction Hp as [|kx y l js (_ & Hy) Hp IHp]; [destruct I|]. destruct I as [-> |I]; [eapply IH; exact Hy | auto].
      + rewrite E in Hi. destruct Hi as (y & Hy & _). eauto.
      + rewrite E in Ha. destruct Ha as (y & Hy & _). eauto.
      + clear -Ho I IH. induction Ho as [|kx y l js Hy Hp IHp]; [destruct I|]. destruct I as [-> |I]; [eapply IH; exact Hy | auto].
    - induction s as [s IHa IHi IHo IHp] using schema_induction. intro Hr.
      assert (A : forall x, s_addl s = Some x -> exists j, schema_json fnum x = Ok j) by (intros x E; apply (IHa x E); intros p R; apply Hr; now apply (hr_addl p s x)).
      assert (B : forall x, s_items s = Some x -> exists j, schema_json fnum x = Ok j) by (intros x E; apply (IHi x E); intros p R; apply Hr; now apply (hr_items p s x)).
      assert (C : forall x, In x (s_oneof s) -> exists j, schema_json fnum x = Ok j) by (intros x E; rewrite Forall_forall in IHo; apply (IHo x E); intros p R; apply Hr; now apply (hr_oneof p s x)).
      assert (D : forall k x, In (k, x) (s_props s) -> exists j, schema_json fnum x = Ok j) by (intros k x E; rewrite Forall_forall in IHp; apply (IHp (k, x) E); intros p R; apply Hr; now apply (hr_prop p s k x)).
      assert (R : forall p, s_ref s = Some p -> exists j, marshal_ptr p = Ok j) by (intros p E; exists (JStr (ptr_string p)); apply marshal_ptr_iff; split; [apply Hr; now constructor | reflexivity]).
      clear IHa IHi IHo IHp Hr. destruct s as [s_ref s_type s_format s_nullable s_deprecated s_readonly s_writeonly s_min s_max s_emin s_emax s_mulof s_minlen s_maxlen s_pattern s_minitems s_maxitems s_unique s_minprops s_maxprops s_required s_props s_items s_addl s_oneof].
      cbn [schema_json]. cbn [Types.s_ref Types.s_addl Types.s_items Types.s_oneof Types.s_props] in *.
      assert (E1 : exists r, match s_ref with Some p => do j <- marshal_ptr p ; Ok [("$ref", j)] | None => Ok [] end = Ok r) by (destruct s_ref as [p|]; [destruct (R p eq_refl) as (j & ->); cbn; eauto | eauto]).
      assert (E2 : exists r, match s_addl with Some x => do j <- schema_json fnum x ; Ok [("additionalProperties", j)] | None => Ok [] end = Ok r) by (destruct s_addl as [p|]; [destruct (A p eq_refl) as (j & ->); cbn; eauto | eauto]).
      assert (E3 : exists r, match s_items with Some x => do j <- schema_json fnum x ; Ok [("items", j)] | None => Ok [] end = Ok r) by (destruct s_items as [p|]; [destruct (B p eq_refl) as (j & ->); cbn; eauto | eauto]).
      destruct E1 as (r1 & ->), E2 as (r2 & ->), E3 as (r3 & ->). cbn [bind].
      match goal with |- context [bind (?f s_oneof) _] => assert (E4 : exists r, f s_oneof = Ok r) end.
      { clear -C. induction s_oneof as [|x l IH]; [eauto|]. destruct (C x (or_introl eq_refl)) as (j & ->). cbn [bind]. destruct IH as (js & ->); [intros y I; apply C; now right | cbn; eauto]. }
      destruct E4 as (r4 & ->). cbn [bind].
      match goal with |- context [bind (?f s_props) _] => assert (E5 : exists r, f s_props = Ok r) end.
      { clear -D. induction s_props as [|[k x] l IH]; [eauto|]. destruct (D k x (or_introl eq_refl)) as (j & ->). cbn [bind]. destruct IH as (js & ->); [intros k' y I; apply (D k'); now right | cbn; eauto]. }
      destruct E5 as (r5 & ->). cbn [bind]. eauto.
  Qed.
  Lemma schema_json_res s : (exists j, schema_json fnum s = Ok j) \/ schema_json fnum s = Err.
  Proof.
    induction s as [s IHa IHi IHo IHp] using schema_induction.
    destruct s as [s_ref s_type s_format s_nullable s_deprecated s_readonly s_writeonly s_min s_max s_emin s_emax s_mulof s_minlen s_maxlen s_pattern s_minitems s_maxitems s_unique s_minprops s_maxprops s_required s_props s_items s_addl s_oneof].
    cbn [schema_json]. cbn [Types.s_ref Types.s_addl Types.s_items Types.s_oneof Types.s_props] in *.
    assert (BI : forall A B (x : res A) (f : A -> res B), ((exists j, x = Ok j) \/ x = Err) -> (forall v, (exists j, f v = Ok j) \/ f v = Err) -> (exists j, bind x f = Ok j) \/ bind x f = Err) by (intros A B x f [(v & ->)| ->] Hf; cbn; auto).
    apply BI; [|intro r1; apply BI; [|intro r2; apply BI; [|intro r3; apply BI; [|intro r4; apply BI; [|intro r5; left; eauto]]]]].
    - destruct s_ref as [p|]; [|left; eauto]. rewrite marshal_ptr_eq. destruct (all quotable _); cbn; eauto.
    - destruct s_addl as [x|]; [|left; eauto]. apply BI; [now apply IHa | intro; left; eauto].
    - destruct s_items as [x|]; [|left; eauto]. apply BI; [now apply IHi | intro; left; eauto].
    - clear -IHo BI. induction IHo as [|x l Hx Hl IH]; [left; eauto|]. apply BI; [exact Hx|]. intro j. apply BI; [exact IH | intro; left; eauto].
    - clear -IHp BI. induction IHp as [|[k x] l Hx Hl IH]; [left; eauto|]. apply BI; [exact Hx|]. intro j. apply BI; [exact IH | intro; left; eauto].
  Qed.
  (** Absent members, and no others. *)
  Lemma schema_json_members s m : schema_json fnum s = Ok (JObj m) ->
    (forall k, oget k m <> None -> In k ["$ref"; "additionalProperties"; "deprecated"; "exclusiveMaximum"; "exclusiveMinimum"; "format"; "items"; "maxItems"; "maxLength"; "maxProperties"; "maximum"; "minItems"; "minLength"; "minProperties"; "minimum"; "multipleOf"; "nullable"; "oneOf"; "pattern"; "properties"; "readOnly"; "required"; "type"; "uniqueItems"; "writeOnly"]) /\
    (oget "$ref" m = option_map (fun p => JStr (ptr_string p)) (s_ref s)) /\
    (oget "type" m = if String.eqb (s_type s) "" then None else Some (JStr (s_type s))) /\
    (oget "format" m = if String.eqb (s_format s) "" then None else Some (JStr (s_format s))) /\
    (oget "pattern" m = if String.eqb (s_pattern s) "" then None else Some (JStr (s_pattern s))) /\
    (oget "nullable" m = if s_nullable s then Some (JBool true) else None) /\ (oget "deprecated" m = if s_deprecated s then Some (JBool true) else None) /\
    (oget "readOnly" m = if s_readonly s then Some (JBool true) else None) /\ (oget "writeOnly" m = if s_writeonly s then Some (JBool true) else None) /\
    (oget "uniqueItems" m = if s_unique s then Some (JBool true) else None) /\
    (oget "exclusiveMinimum" m = if s_emin s then Some (JBool true) else None) /\ (oget "exclusiveMaximum" m = if s_emax s then Some (JBool true) else None) /\
    (oget "minimum" m = option_map (fun f => JNum (fnum f)) (s_min s)) /\ (oget "maximum" m = option_map (fun f => JNum (fnum f)) (s_max s)) /\
    (oget "multipleOf" m = option_map (fun f => JNum (fnum f)) (s_mulof s)) /\
    (oget "minLength" m = option_map (fun z => JNum (NInt z)) (s_minlen s)) /\ (oget "maxLength" m = option_map (fun z => JNum (NInt z)) (s_maxlen s)) /\
    (oget "minItems" m = option_map (fun z => JNum (NInt z)) (s_minitems s)) /\ (oget "maxItems" m = option_map (fun z => JNum (NInt z)) (s_maxitems s)) /\
    (oget "minProperties" m = option_map (fun z => JNum (NInt z)) (s_minprops s)) /\ (oget "maxProperties" m = option_map (fun z => JNum (NInt z)) (s_maxprops s)) /\
    (oget "required" m = match s_required s with [] => None | l => Some (JArr (map JStr l)) end) /\
    (match s_items s, oget "items" m with Some x, Some j => schema_json fnum x = Ok j | None, None => True | _, _ => False end) /\
    (match s_addl s, oget "additionalProperties" m with Some x, Some j => schema_json fnum x = Ok j | None, None => True | _, _ => False end) /\
    (match s_oneof s, oget "oneOf" m with [], None => True | l, Some (JArr js) => Forall2 (fun x j => schema_json fnum x = Ok j) l js | _, _ => False end) /\
    (match s_props s, oget "properties" m with [], None => True | l, Some (JObj js) => Forall2 (fun kx kj => fst kj = fst kx /\ schema_json fnum (snd kx) = Ok (snd kj)) l js | _, _ => False end).
  Proof.
    intro H. destruct (schema_json_spec fnum s _ H) as (r & addl & items & oneof & props & Hr & Ha & Hi & Ho & Hp & E). assert (E' : m = flat (members fnum s r addl items oneof props)) by congruence. clear E H. subst m.
    set (ms := members fnum s r addl items oneof props). pose proof (members_increasing fnum s r addl items oneof props : increasing (map fst ms) = true) as I.
    assert (G : forall k o, In (k, o) ms -> oget k (flat ms) = o).
    { intros k o Ik. destruct o as [v|]; [now apply flat_get|]. destruct (oget k (flat ms)) as [v|] eqn:Ev; [|reflexivity]. exfalso. apply flat_get in Ev; [|exact I].
      clear -I Ik Ev. induction ms as [|[a b] l IH]; [destruct Ik|]. assert (I' : increasing (map fst l) = true) by (cbn [map increasing fst] in I; now apply andb_prop in I).
      assert (L : forall c, In c (map fst l) -> String.compare a c = Lt) by (intros c Ic; exact (increasing_lt (map fst l) a I c Ic)).
      assert (N : forall o, In (a, o) l -> False) by (intros o Io; apply (in_map fst) in Io; apply L in Io; cbn in Io; rewrite scmp_refl in Io; discriminate).
      destruct Ik as [[= -> ->]|Ik], Ev as [[= -> ->]|Ev]; eauto. }
    split; [|].
    { intros k Nk. destruct (oget k (flat ms)) as [v|] eqn:Ev; [|now elim Nk]. apply flat_get in Ev; [|exact I]. apply (in_map fst) in Ev. exact Ev. }
    repeat match goal with |- _ /\ _ => split end.
    Ltac mem G ms := erewrite G; [|unfold ms, members; cbn [In]; repeat (try (left; reflexivity); right)].
    all: try (mem G ms; reflexivity).
    - mem G ms. destruct (s_ref s) as [p|]; [|exact Hr]. destruct Hr as (y & Hy & ->). apply marshal_ptr_iff in Hy as (_ & ->). reflexivity.
    - mem G ms. destruct (s_required s); reflexivity.
    - mem G ms. unfold opt_json in Hi. destruct (s_items s) as [x|]; [destruct Hi as (y & Hy & ->); exact Hy | now rewrite Hi].
    - mem G ms. unfold opt_json in Ha. destruct (s_addl s) as [x|]; [destruct Ha as (y & Hy & ->); exact Hy | now rewrite Ha].
    - mem G ms. destruct Ho as [|x y l js Hx Ho]; [exact Logic.I|]. cbn [o_list]. now constructor.
    - mem G ms. destruct Hp as [|x y l js Hx Hp]; [exact Logic.I|]. cbn [o_obj]. now constructor.
  Qed.
End Schema.
