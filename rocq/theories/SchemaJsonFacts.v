(** The JSON form of a schema: its members, and that it is canonical. *)
From Coq Require Import String Ascii List Bool Arith ZArith Lia.
From Verif Require Import GoStr GoStrFacts Json JsonFacts MergeFacts Url Pointer Tag Types JsonText SchemaJson Spec_Loc LocFacts Spec_Schema.
Import ListNotations.
Local Open Scope string_scope.
Local Open Scope nat_scope.
Local Open Scope list_scope.

(** *** Optional members under increasing keys *)
Definition flat (l : list (string * option json)) : list (string * json) :=
  flat_map (fun kv => match snd kv with Some v => [(fst kv, v)] | None => [] end) l.
Lemma flat_cons k o l : flat ((k, o) :: l) = match o with Some v => [(k, v)] | None => [] end ++ flat l.
Proof. reflexivity. Qed.
Lemma in_flat k v l : In (k, v) (flat l) <-> In (k, Some v) l.
Proof.
  induction l as [|[a o] l IH]; [reflexivity|]. rewrite flat_cons, in_app_iff, IH. destruct o as [x|]; cbn [In]; split; try tauto.
  - intros [[[= -> ->]|[]]|H]; auto.
  - intros [[= -> ->]|H]; auto.
  - intros [H|H]; [discriminate | auto].
Qed.
Fixpoint increasing (l : list string) : bool :=
  match l with [] => true | a :: r => match r with [] => true | b :: _ => match String.compare a b with Lt => true | _ => false end end && increasing r end.
Lemma increasing_lt l : forall a, increasing (a :: l) = true -> forall b, In b l -> String.compare a b = Lt.
Proof.
  induction l as [|c l IH]; intros a H b I; [destruct I|]. cbn [increasing] in H. apply andb_prop in H as [H1 H2]. destruct (String.compare a c) eqn:E; try discriminate.
  destruct I as [<-|I]; [exact E|]. eapply scmp_trans; [exact E|]. apply (IH c); assumption.
Qed.
Lemma flat_sorted l : increasing (map fst l) = true -> sorted (flat l).
Proof.
  induction l as [|[k o] l IH]; intro H; [exact I|]. cbn [map fst] in H.
  assert (H' : increasing (map fst l) = true) by (cbn [increasing] in H; now apply andb_prop in H).
  rewrite flat_cons. destruct o as [v|]; cbn [app]; [|auto]. apply sorted_cons; [auto|]. intros k' v' I.
  apply in_flat in I. apply (increasing_lt _ _ H). now apply (in_map fst) in I.
Qed.
Lemma flat_get l k v : increasing (map fst l) = true -> oget k (flat l) = Some v <-> In (k, Some v) l.
Proof.
  intro H. pose proof (flat_sorted l H) as S. rewrite <- in_flat. split; [apply oget_in | apply sorted_in_oget, S].
Qed.

Lemma forall2_length {A B} (R : A -> B -> Prop) l l' : Forall2 R l l' -> length l = length l'.
Proof. induction 1; cbn; congruence. Qed.

Section Schema.
  Context {F : Type} (fnum : F -> num).
  Implicit Types s : schema F.
  Definition o_bool (b : bool) : option json := if b then Some (JBool true) else None.
  Definition o_str (t : string) : option json := if String.eqb t "" then None else Some (JStr t).
  Definition o_int (o : option Z) : option json := option_map (fun z => JNum (NInt z)) o.
  Definition o_flt (o : option F) : option json := option_map (fun f => JNum (fnum f)) o.
  Definition o_list (l : list json) : option json := match l with [] => None | _ => Some (JArr l) end.
  Definition o_obj (m : list (string * json)) : option json := match m with [] => None | _ => Some (JObj m) end.
  Definition members s (r addl items : option json) (oneof : list json) (props : list (string * json)) : list (string * option json) :=
    [("$ref", r); ("additionalProperties", addl); ("deprecated", o_bool (s_deprecated s)); ("exclusiveMaximum", o_bool (s_emax s)); ("exclusiveMinimum", o_bool (s_emin s));
     ("format", o_str (s_format s)); ("items", items); ("maxItems", o_int (s_maxitems s)); ("maxLength", o_int (s_maxlen s)); ("maxProperties", o_int (s_maxprops s));
     ("maximum", o_flt (s_max s)); ("minItems", o_int (s_minitems s)); ("minLength", o_int (s_minlen s)); ("minProperties", o_int (s_minprops s));
     ("minimum", o_flt (s_min s)); ("multipleOf", o_flt (s_mulof s)); ("nullable", o_bool (s_nullable s));
     ("oneOf", o_list oneof); ("pattern", o_str (s_pattern s)); ("properties", o_obj props); ("readOnly", o_bool (s_readonly s));
     ("required", o_list (map JStr (s_required s))); ("type", o_str (s_type s)); ("uniqueItems", o_bool (s_unique s)); ("writeOnly", o_bool (s_writeonly s))].
  Lemma members_increasing s r addl items oneof props : increasing (map fst (members s r addl items oneof props)) = true.
  Proof. vm_compute. reflexivity. Qed.
  Lemma m_bool_flat k b l : m_bool k b ++ flat l = flat ((k, o_bool b) :: l). Proof. destruct b; reflexivity. Qed.
  Lemma m_str_flat k t l : m_str k t ++ flat l = flat ((k, o_str t) :: l). Proof. rewrite flat_cons. unfold m_str, o_str. destruct (String.eqb t ""); reflexivity. Qed.
  Lemma m_int_flat k o l : m_int k o ++ flat l = flat ((k, o_int o) :: l). Proof. destruct o; reflexivity. Qed.
  Lemma m_flt_flat k o l : m_flt fnum k o ++ flat l = flat ((k, o_flt o) :: l). Proof. destruct o; reflexivity. Qed.
  Definition opt_member (k : string) (o : option json) : list (string * json) := match o with Some v => [(k, v)] | None => [] end.
  Lemma opt_flat k o l : opt_member k o ++ flat l = flat ((k, o) :: l). Proof. destruct o; reflexivity. Qed.

  (** The JSON form, member by member; subschemas by their own JSON forms. *)
  Definition opt_json (f : schema F -> res json) (o : option (schema F)) (j : option json) : Prop :=
    match o with Some x => exists y, f x = Ok y /\ j = Some y | None => j = None end.
  Lemma schema_json_spec s j : schema_json fnum s = Ok j -> exists r addl items oneof props,
    (match s_ref s with Some p => exists y, marshal_ptr p = Ok y /\ r = Some y | None => r = None end) /\
    opt_json (schema_json fnum) (s_addl s) addl /\ opt_json (schema_json fnum) (s_items s) items /\
    Forall2 (fun x y => schema_json fnum x = Ok y) (s_oneof s) oneof /\
    Forall2 (fun x y => fst y = fst x /\ schema_json fnum (snd x) = Ok (snd y)) (s_props s) props /\
    j = JObj (flat (members s r addl items oneof props)).
  Proof.
    intro H. destruct s as [s_ref s_type s_format s_nullable s_deprecated s_readonly s_writeonly s_min s_max s_emin s_emax s_mulof s_minlen s_maxlen s_pattern s_minitems s_maxitems s_unique s_minprops s_maxprops s_required s_props s_items s_addl s_oneof]. cbn [schema_json] in H.
    apply bind_ok in H as (r & Hr & H). apply bind_ok in H as (addl & Ha & H). apply bind_ok in H as (items & Hi & H). apply bind_ok in H as (oneof & Ho & H). apply bind_ok in H as (props & Hp & H).
    injection H as <-.
    assert (R : exists r0, (match s_ref with Some p => exists y, marshal_ptr p = Ok y /\ r0 = Some y | None => r0 = None end) /\ r = opt_member "$ref" r0).
    { destruct s_ref as [p|]; [apply bind_ok in Hr as (y & Hy & Hr); injection Hr as <-; exists (Some y); split; [eauto | reflexivity] | injection Hr as <-; exists None; auto]. }
    assert (A : exists r0, opt_json (schema_json fnum) s_addl r0 /\ addl = opt_member "additionalProperties" r0).
    { destruct s_addl as [x|]; [apply bind_ok in Ha as (y & Hy & Ha); injection Ha as <-; exists (Some y); split; [exists y; auto | reflexivity] | injection Ha as <-; exists None; split; reflexivity]. }
    assert (I : exists r0, opt_json (schema_json fnum) s_items r0 /\ items = opt_member "items" r0).
    { destruct s_items as [x|]; [apply bind_ok in Hi as (y & Hy & Hi); injection Hi as <-; exists (Some y); split; [exists y; auto | reflexivity] | injection Hi as <-; exists None; split; reflexivity]. }
    clear Hr Ha Hi. destruct R as (r0 & R & ->), A as (a0 & A & ->), I as (i0 & I & ->). exists r0, a0, i0, oneof, props. split; [exact R|]. split; [exact A|]. split; [exact I|]. split; [|split].
    - clear - Ho. revert oneof Ho. induction s_oneof as [|x l IH]; intros js H; [injection H as <-; constructor|].
      apply bind_ok in H as (y & Hy & H). apply bind_ok in H as (ys & Hys & H). injection H as <-. constructor; auto.
    - clear - Hp. revert props Hp. induction s_props as [|[k x] l IH]; intros js H; [injection H as <-; constructor|].
      apply bind_ok in H as (y & Hy & H). apply bind_ok in H as (ys & Hys & H). injection H as <-. constructor; auto.
    - f_equal. unfold members. cbn [Types.s_ref Types.s_type Types.s_format Types.s_nullable Types.s_deprecated Types.s_readonly Types.s_writeonly Types.s_min Types.s_max Types.s_emin Types.s_emax Types.s_mulof Types.s_minlen Types.s_maxlen Types.s_pattern Types.s_minitems Types.s_maxitems Types.s_unique Types.s_minprops Types.s_maxprops Types.s_required].
      rewrite <- !opt_flat. change (opt_member "format" (o_str s_format)) with (opt_member "format" (o_str s_format)).
      assert (MB : forall k b, m_bool k b = opt_member k (o_bool b)) by (intros k []; reflexivity).
      assert (MS : forall k u, m_str k u = opt_member k (o_str u)) by (intros k u; unfold m_str, o_str; destruct (String.eqb u ""); reflexivity).
      assert (MI : forall k o, m_int k o = opt_member k (o_int o)) by (intros k []; reflexivity).
      assert (MF : forall k o, m_flt fnum k o = opt_member k (o_flt o)) by (intros k []; reflexivity).
      rewrite !MB, !MS, !MI, !MF. change (flat []) with (@nil (string * json)). rewrite app_nil_r.
      assert (ML : forall k (l : list json), match l with [] => [] | _ => [(k, JArr l)] end = opt_member k (o_list l)) by (intros k []; reflexivity).
      assert (MO : forall k (l : list (string * json)), match l with [] => [] | _ => [(k, JObj l)] end = opt_member k (o_obj l)) by (intros k []; reflexivity).
      rewrite <- ML, <- MO. destruct s_required; reflexivity.
  Qed.

  (** Every property name can be written in a dot path, properties are in key order. *)
  Inductive sch_ok : schema F -> Prop :=
  | sch_ok_intro s : sorted (s_props s) -> (forall k x, In (k, x) (s_props s) -> plain k) -> (forall k x, In (k, x) (s_props s) -> sch_ok x) ->
      (forall x, s_items s = Some x -> sch_ok x) -> (forall x, s_addl s = Some x -> sch_ok x) -> (forall x, In x (s_oneof s) -> sch_ok x) ->
      (Z.of_nat (length (s_oneof s)) < 2 ^ 63)%Z -> (Z.of_nat (length (s_required s)) < 2 ^ 63)%Z -> sch_ok s.
  Lemma marshal_str p j : marshal_ptr p = Ok j -> exists t, j = JStr t.
  Proof. unfold marshal_ptr. destruct (read_str _) as [[t [|c r]]|]; intro H; try discriminate. injection H as <-. eauto. Qed.
  Definition canon (j : json) : Prop := wf j /\ keys_ok plain j.
  Lemma member_names_plain s r addl items oneof props : Forall (fun kv => plain (fst kv)) (members s r addl items oneof props).
  Proof. repeat constructor; discriminate. Qed.
  Lemma props_sorted (l : list (string * schema F)) js : Forall2 (fun x y => fst y = fst x /\ schema_json fnum (snd x) = Ok (snd y)) l js -> sorted l -> sorted js.
  Proof.
    induction 1 as [|[k x] [k' y] l js (E & _) H IH]; intro S; [exact I|]. cbn [fst] in E. subst k'. apply sorted_cons; [apply IH; eapply sorted_tail, S|].
    intros a b Ib. clear IH. assert (Ia : exists z, In (a, z) l).
    { clear S. induction H as [|[k1 x1] [k2 y1] l js (E & _) H IH]; [destruct Ib|]. cbn [fst] in E. subst k2. destruct Ib as [[= -> ->]|Ib]; [exists x1; now left|]. destruct (IH Ib) as (z & I). exists z. now right. }
    destruct Ia as (z & I). eapply sorted_lt; eassumption.
  Qed.
  Theorem schema_json_canon s : sch_ok s -> forall j, schema_json fnum s = Ok j -> canon j.
  Proof.
    induction 1 as [s So Pk Ps IHp Pi IHi Pa IHa Po IHo Lo Lr]. intros j H.
    destruct (schema_json_spec s j H) as (r & addl & items & oneof & props & Hr & Ha & Hi & Ho & Hp & ->).
    assert (V : forall k v, In (k, Some v) (members s r addl items oneof props) -> canon v).
    { intros k v I. unfold members in I. unfold o_bool, o_str, o_int, o_flt in I.
      assert (SC : forall u, is_scalar u = true -> canon u) by (intros [] U; try discriminate; split; exact Logic.I).
      repeat (destruct I as [E|I]; [injection E as _ E|]); try (destruct I); try (destruct (_ : bool) in E; [injection E as <- | discriminate E]; apply SC; reflexivity);
        try (destruct (String.eqb _ _) in E; [discriminate E | injection E as <-]; apply SC; reflexivity);
        try (match type of E with option_map _ ?o = _ => destruct o; [injection E as <- | discriminate E] end; apply SC; reflexivity).
      - subst r. destruct (s_ref s) as [p|]; [|discriminate Hr]. destruct Hr as (y & Hy & [= ->]). apply marshal_str in Hy as (t & ->). now apply SC.
      - subst addl. unfold opt_json in Ha. destruct (s_addl s) as [x|] eqn:Ex; [|discriminate]. destruct Ha as (y & Hy & [= ->]). eapply IHa; [reflexivity | exact Hy].
      - subst items. unfold opt_json in Hi. destruct (s_items s) as [x|] eqn:Ex; [|discriminate]. destruct Hi as (y & Hy & [= ->]). eapply IHi; [reflexivity | exact Hy].
      - assert (E' : v = JArr oneof) by (destruct oneof; [discriminate | now injection E as <-]). subst v. clear E. split.
        + apply wf_arr. clear - Ho IHo. revert IHo. induction Ho as [|x y l js E H IH]; intro G; constructor; [apply (G x); [now left | exact E] | apply IH; intros z I; apply G; now right].
        + apply keys_ok_arr. split; [now rewrite <- (forall2_length _ _ _ Ho)|]. clear - Ho IHo. revert IHo. induction Ho as [|x y l js E H IH]; intro G; constructor; [apply (G x); [now left | exact E] | apply IH; intros z I; apply G; now right].
      - assert (E' : v = JObj props) by (destruct props; [discriminate | now injection E as <-]). subst v. clear E.
        assert (Q : forall a b, In (a, b) props -> exists x, In (a, x) (s_props s) /\ schema_json fnum x = Ok b).
        { clear - Hp. induction Hp as [|[a x] [a' y] l js (E & Ex) H IH]; intros c b I; [destruct I|]. cbn [fst snd] in *. subst a'. destruct I as [[= -> ->]|I]; [exists x; split; [now left | exact Ex]|].
          destruct (IH _ _ I) as (z & Iz & Ez). exists z. split; [now right | exact Ez]. }
        split.
        + apply wf_obj. split; [eapply props_sorted; eassumption|]. apply Forall_forall. intros [a b] I. destruct (Q a b I) as (x & Ix & Ex). cbn [snd]. eapply IHp; eassumption.
        + apply keys_ok_obj. apply Forall_forall. intros [a b] I. destruct (Q a b I) as (x & Ix & Ex). cbn [fst snd]. split; [eapply Pk; exact Ix | eapply IHp; eassumption].
      - assert (E' : v = JArr (map JStr (s_required s))) by (destruct (s_required s); [discriminate | now injection E as <-]). subst v. clear E. split.
        + apply wf_arr. apply Forall_forall. intros x Ix. apply in_map_iff in Ix as (t & <- & _). exact Logic.I.
        + apply keys_ok_arr. rewrite map_length. split; [exact Lr|]. apply Forall_forall. intros x Ix. apply in_map_iff in Ix as (t & <- & _). exact Logic.I. }
    split.
    - apply wf_obj. split; [apply flat_sorted, members_increasing|]. apply Forall_forall. intros [k v] I. apply in_flat in I. apply (V k v I).
    - apply keys_ok_obj. apply Forall_forall. intros [k v] I. apply in_flat in I. cbn [fst snd]. split; [|apply (V k v I)].
      pose proof (member_names_plain s r addl items oneof props) as P. rewrite Forall_forall in P. apply (P _ I).
  Qed.
  Lemma schema_json_noref s j : schema_json fnum s = Ok j -> s_ref s = None -> exists m, j = JObj m /\ oget "$ref" m = None.
  Proof.
    intros H N. destruct (schema_json_spec s j H) as (r & addl & items & oneof & props & Hr & Ha & Hi & Ho & Hp & ->). eexists. split; [reflexivity|].
    rewrite N in Hr. subst r. destruct (oget "$ref" _) as [v|] eqn:E; [|reflexivity]. apply flat_get in E; [|apply members_increasing]. exfalso.
    repeat (destruct E as [E|E]; [discriminate E|]). destruct E.
  Qed.
End Schema.
