(** Facts about struct tags. *)
From Coq Require Import String Ascii List Bool Arith ZArith Lia.
From Verif Require Import GoStr GoStrFacts Json JsonFacts MergeFacts Tag Spec_Tag.
Import ListNotations.
Local Open Scope string_scope.
Local Open Scope nat_scope.
Local Open Scope list_scope.

(** strconv.Unquote returns a text or an error. *)
Lemma unquote_total q : (exists v, unquote q = Ok v) \/ unquote q = Err.
Proof.
  assert (forall n q, String.length q <= n -> (exists v, unquote q = Ok v) \/ unquote q = Err) as H; [|exact (H _ q (le_n _))]. clear q.
  induction n as [|n IH]; intros [|c r] L; cbn [String.length] in L; try lia; [left; eexists; reflexivity..|]. cbn [unquote].
  assert (K : forall t (f : string -> string), String.length t <= n -> (exists v, (do u <- unquote t ; Ok (f u)) = Ok v) \/ (do u <- unquote t ; Ok (f u)) = Err).
  { intros t f Lt. destruct (IH t Lt) as [(v & ->)| ->]; cbn [bind]; eauto. }
  destruct (_ || _); [auto|]. destruct (Ascii.eqb c backslash); [|apply (K r (String c)); lia].
  destruct r as [|e t]; [auto|]. cbn [String.length] in L. destruct (simple_escape e) as [x|]; [apply (K t (String x)); lia|].
  destruct (Ascii.eqb e "x").
  { destruct t as [|h1 [|h2 t']]; auto. cbn [String.length] in L. destruct (hex2 h1 h2) as [x|]; [apply (K t' (String (ascii_of_nat x))); lia | auto]. }
  destruct (Ascii.eqb e "u").
  { destruct t as [|h1 [|h2 [|h3 [|h4 t']]]]; auto. cbn [String.length] in L. destruct (unicode_escape _) as [x|]; [apply (K t' (append x)); lia | auto]. }
  destruct (Ascii.eqb e "U").
  { destruct t as [|h1 [|h2 [|h3 [|h4 [|h5 [|h6 [|h7 [|h8 t']]]]]]]]; auto. cbn [String.length] in L. destruct (unicode_escape _) as [x|]; [apply (K t' (append x)); lia | auto]. }
  destruct t as [|o2 [|o3 t']]; auto. cbn [String.length] in L.
  destruct (oct_val e) as [a|]; auto. destruct (oct_val o2) as [b|]; auto. destruct (oct_val o3) as [d|]; auto.
  destruct (_ <? _); [apply (K t' (String (ascii_of_nat (64 * a + 8 * b + d)))); lia | auto].
Qed.
Section Facts.
  Context {F : Type} (pf : string -> option F).
  Local Notation tag := (tag F).

  (** Each reader assigns a value or fails. *)
  Definition put_or_err {A} (v : option A) (set : A -> tag -> tag) (t : tag) : res tag :=
    match v with Some x => Ok (set x t) | None => Err end.
  Definition val_opt {A} (parse : string -> option A) (o : opts) (k : string) (old : option A) : option (option A) :=
    match oget k o with None => Some old | Some v => match parse v with Some x => Some (Some x) | None => None end end.
  Definition val_text (o : opts) (k : string) (old : string) : string := match oget k o with Some v => v | None => old end.

  Lemma step_int o k set get t : set (get t) t = t -> read_int o k set t = put_or_err (val_opt atoi o k (get t)) set t.
  Proof. intro E. unfold read_int, val_opt, put_or_err. destruct (oget k o) as [v|]; [destruct (atoi v); reflexivity | now rewrite E]. Qed.
  Lemma step_float o k set get t : set (get t) t = t -> read_float pf o k set t = put_or_err (val_opt pf o k (get t)) set t.
  Proof. intro E. unfold read_float, val_opt, put_or_err. destruct (oget k o) as [v|]; [destruct (pf v); reflexivity | now rewrite E]. Qed.
  Lemma in_dec_eqb {A} (v : string) (l : list string) (x y : A) : (if in_dec string_dec v l then x else y) = if existsb (String.eqb v) l then x else y.
  Proof.
    destruct (in_dec string_dec v l) as [H|H]; destruct (existsb (String.eqb v) l) eqn:E; try reflexivity.
    - assert (N : existsb (String.eqb v) l = true) by (apply existsb_exists; exists v; split; [exact H | apply String.eqb_refl]). congruence.
    - apply existsb_exists in E. destruct E as (w & H2 & E). apply String.eqb_eq in E. subst w. contradiction.
  Qed.
  Lemma bool_of_parse v : bool_of v = if String.eqb v "" then Some true else parse_bool v.
  Proof. unfold bool_of, parse_bool. rewrite !in_dec_eqb. cbn [existsb]. now destruct (String.eqb v ""). Qed.
  Lemma step_boolptr o k set get (t : tag) : set (get t) t = t -> read_boolptr o k set t = put_or_err (val_opt bool_of o k (get t)) set t.
  Proof. intro E. unfold read_boolptr, val_opt, put_or_err. destruct (oget k o) as [v|]; [|now rewrite E]. rewrite bool_of_parse. destruct (String.eqb v ""); [reflexivity|]. now destruct (parse_bool v). Qed.
  Lemma step_string o k set get (t : tag) : set (get t) t = t -> read_string o k set t = Ok (set (val_text o k (get t)) t).
  Proof. intro E. unfold read_string, val_text. destruct (oget k o); [reflexivity | now rewrite E]. Qed.
  Lemma step_bool o k set (t : tag) : read_bool o k set t = Ok (set (flag (oget k o)) t).
  Proof. unfold read_bool, flag. destruct (oget k o) as [v|]; [|reflexivity]. rewrite bool_of_parse. now destruct (String.eqb v ""). Qed.

  Lemma val_opt_reads {A} (parse : string -> option A) o k old r : val_opt parse o k old = Some r <-> reads parse o k old r.
  Proof.
    unfold val_opt, reads. destruct (oget k o) as [v|]; [|split; congruence].
    destruct (parse v) as [x|]; split; [intros [= <-]; split; [discriminate | reflexivity] | intros [_ ->]; reflexivity | discriminate | intros [N _]; congruence].
  Qed.
  Lemma val_opt_none {A} (parse : string -> option A) o k old : val_opt parse o k old = None -> exists v, oget k o = Some v /\ parse v = None.
  Proof. unfold val_opt. destruct (oget k o) as [v|]; [|discriminate]. destruct (parse v) eqn:E; [discriminate|]. eauto. Qed.
  Lemma val_opt_some {A} (parse : string -> option A) o k old r v : val_opt parse o k old = Some r -> oget k o = Some v -> parse v <> None.
  Proof. unfold val_opt. intros H E. rewrite E in H. destruct (parse v); congruence. Qed.

  Lemma read_name_get (p : ptag) (t : tag) : t_name (read_name p t) = (if String.eqb (pt_name p) "" then t_name t else pt_name p).
  Proof. unfold read_name. now destruct (String.eqb _ _). Qed.

  Lemma set_get_inline (t : tag) : set_inline (t_inline t) t = t. Proof. now destruct t. Qed.
  Lemma set_get_nullable (t : tag) : set_nullable (t_nullable t) t = t. Proof. now destruct t. Qed.
  Lemma set_get_maxlen (t : tag) : set_maxlen (t_maxlen t) t = t. Proof. now destruct t. Qed.
  Lemma set_get_minlen (t : tag) : set_minlen (t_minlen t) t = t. Proof. now destruct t. Qed.
  Lemma set_get_maxitems (t : tag) : set_maxitems (t_maxitems t) t = t. Proof. now destruct t. Qed.
  Lemma set_get_minitems (t : tag) : set_minitems (t_minitems t) t = t. Proof. now destruct t. Qed.
  Lemma set_get_maxprops (t : tag) : set_maxprops (t_maxprops t) t = t. Proof. now destruct t. Qed.
  Lemma set_get_minprops (t : tag) : set_minprops (t_minprops t) t = t. Proof. now destruct t. Qed.
  Lemma set_get_pattern (t : tag) : set_pattern (t_pattern t) t = t. Proof. now destruct t. Qed.
  Lemma set_get_format (t : tag) : set_format (t_format t) t = t. Proof. now destruct t. Qed.
  Lemma set_get_type (t : tag) : set_type (t_type t) t = t. Proof. now destruct t. Qed.
  Lemma set_get_max (t : tag) : set_max (t_max t) t = t. Proof. now destruct t. Qed.
  Lemma set_get_min (t : tag) : set_min (t_min t) t = t. Proof. now destruct t. Qed.
  Lemma set_get_emax (t : tag) : set_emax (t_emax t) t = t. Proof. now destruct t. Qed.
  Lemma set_get_emin (t : tag) : set_emin (t_emin t) t = t. Proof. now destruct t. Qed.

  (** Splitting a chain of readers: either some reader fails, with its option, or all succeed. *)
  Inductive badopt (o : opts) : Prop :=
  | bad_int k v : In k int_options -> oget k o = Some v -> atoi v = None -> badopt o
  | bad_float k v : In k float_options -> oget k o = Some v -> pf v = None -> badopt o
  | bad_bool k v : In k ["inline"; "nullable"] -> oget k o = Some v -> bool_of v = None -> badopt o.
  Lemma badopt_malformed o : badopt o <-> malformed pf o.
  Proof.
    split.
    - intros [k v A B C|k v A B C|k v A B C]; [left | right; left | right; right]; exists k, v; auto.
    - intros [(k & v & A & B & C)|[(k & v & A & B & C)|(k & v & A & B & C)]]; [eapply bad_int | eapply bad_float | eapply bad_bool]; eauto.
  Qed.

  Lemma bind_Ok {A B} (x : A) (k : A -> res B) : bind (Ok x) k = k x. Proof. reflexivity. Qed.
  Lemma bind_Err {A B} (k : A -> res B) : bind Err k = Err. Proof. reflexivity. Qed.
  Lemma put_some {A} (v : A) (set : A -> tag -> tag) t : put_or_err (Some v) set t = Ok (set v t). Proof. reflexivity. Qed.
  Lemma put_none {A} (set : A -> tag -> tag) t : put_or_err None set t = Err. Proof. reflexivity. Qed.
  Ltac red_tag := rewrite ?put_some, ?put_none, ?bind_Ok, ?bind_Err; cbn [t_ignore set_ignore t_inline set_inline t_omitempty set_omitempty t_nullable set_nullable t_readonly set_readonly t_writeonly set_writeonly t_deprecated set_deprecated t_required set_required t_name set_name t_pattern set_pattern t_format set_format t_type set_type t_min set_min t_max set_max t_emin set_emin t_emax set_emax t_mulof t_minlen set_minlen t_maxlen set_maxlen t_minitems set_minitems t_maxitems set_maxitems t_uniqitems set_uniqitems t_minprops set_minprops t_maxprops set_maxprops].
  Lemma read_oapi_cases p t : pt_name p <> "-" ->
    (exists t', read_oapi pf p t = Ok t' /\ ~ badopt (pt_options p) /\
       Forall (attr_set pf (pt_options p) t t') (attributes F) /\
       t_ignore t' = t_ignore t /\ t_name t' = (if String.eqb (pt_name p) "" then t_name t else pt_name p) /\
       t_mulof t' = t_mulof t /\
       (exists e, reads pf (pt_options p) "emin" (t_emin t) e /\ reads pf (pt_options p) "mulof" e (t_emin t'))) \/
    (read_oapi pf p t = Err /\ badopt (pt_options p)).
  Proof.
    intro N. unfold read_oapi. destruct (String.eqb_spec (pt_name p) "-"); [contradiction|]. set (o := pt_options p). cbv zeta. clearbody o.
    assert (E0 : t_ignore (read_name p t) = t_ignore t /\ t_mulof (read_name p t) = t_mulof t /\ t_emin (read_name p t) = t_emin t /\ t_inline (read_name p t) = t_inline t /\
      t_nullable (read_name p t) = t_nullable t /\ t_maxlen (read_name p t) = t_maxlen t /\ t_minlen (read_name p t) = t_minlen t /\ t_maxitems (read_name p t) = t_maxitems t /\
      t_minitems (read_name p t) = t_minitems t /\ t_maxprops (read_name p t) = t_maxprops t /\ t_minprops (read_name p t) = t_minprops t /\ t_pattern (read_name p t) = t_pattern t /\
      t_format (read_name p t) = t_format t /\ t_type (read_name p t) = t_type t /\ t_max (read_name p t) = t_max t /\ t_min (read_name p t) = t_min t /\ t_emax (read_name p t) = t_emax t)
      by (unfold read_name; destruct (String.eqb (pt_name p) ""); repeat split).
    pose proof (read_name_get p t) as En. revert E0 En. generalize (read_name p t). intros t1 E0 En.
    destruct t1 as [x_ignore x_inline x_omitempty x_nullable x_readonly x_writeonly x_deprecated x_required x_name x_pattern x_format x_type x_min x_max x_emin x_emax x_mulof x_minlen x_maxlen x_minitems x_maxitems x_uniqitems x_minprops x_maxprops]. cbn [t_ignore t_inline t_omitempty t_nullable t_readonly t_writeonly t_deprecated t_required t_name t_pattern t_format t_type t_min t_max t_emin t_emax t_mulof t_minlen t_maxlen t_minitems t_maxitems t_uniqitems t_minprops t_maxprops] in E0, En.
    destruct E0 as (G1 & G2 & G3 & G4 & G5 & G6 & G7 & G8 & G9 & G10 & G11 & G12 & G13 & G14 & G15 & G16 & G17).
    rewrite (step_boolptr o "inline" set_inline t_inline) by apply set_get_inline. red_tag. destruct (val_opt bool_of o "inline" x_inline) as [v1|] eqn:V1; red_tag.
    2:{ right. split; [reflexivity|]. apply val_opt_none in V1 as (v & A & B). eapply bad_bool; [|exact A|exact B]; cbn; tauto. }
    rewrite step_bool; red_tag.
    rewrite (step_boolptr o "nullable" set_nullable t_nullable) by apply set_get_nullable. red_tag.
    destruct (val_opt bool_of o "nullable" x_nullable) as [v2|] eqn:V2; red_tag.
    2:{ right. split; [reflexivity|]. apply val_opt_none in V2 as (v & A & B). eapply bad_bool; [|exact A|exact B]; cbn; tauto. }
    do 5 (rewrite step_bool; red_tag).
    rewrite (step_int o "maxlen" set_maxlen t_maxlen) by apply set_get_maxlen. red_tag.
    destruct (val_opt atoi o "maxlen" x_maxlen) as [v3|] eqn:V3; red_tag.
    2:{ right. split; [reflexivity|]. apply val_opt_none in V3 as (v & A & B). eapply bad_int; [|exact A|exact B]; cbn; tauto. }
    rewrite (step_int o "minlen" set_minlen t_minlen) by apply set_get_minlen. red_tag.
    destruct (val_opt atoi o "minlen" x_minlen) as [v4|] eqn:V4; red_tag.
    2:{ right. split; [reflexivity|]. apply val_opt_none in V4 as (v & A & B). eapply bad_int; [|exact A|exact B]; cbn; tauto. }
    rewrite (step_int o "maxitems" set_maxitems t_maxitems) by apply set_get_maxitems. red_tag.
    destruct (val_opt atoi o "maxitems" x_maxitems) as [v5|] eqn:V5; red_tag.
    2:{ right. split; [reflexivity|]. apply val_opt_none in V5 as (v & A & B). eapply bad_int; [|exact A|exact B]; cbn; tauto. }
    rewrite (step_int o "minitems" set_minitems t_minitems) by apply set_get_minitems. red_tag.
    destruct (val_opt atoi o "minitems" x_minitems) as [v6|] eqn:V6; red_tag.
    2:{ right. split; [reflexivity|]. apply val_opt_none in V6 as (v & A & B). eapply bad_int; [|exact A|exact B]; cbn; tauto. }
    rewrite (step_int o "maxprops" set_maxprops t_maxprops) by apply set_get_maxprops. red_tag.
    destruct (val_opt atoi o "maxprops" x_maxprops) as [v7|] eqn:V7; red_tag.
    2:{ right. split; [reflexivity|]. apply val_opt_none in V7 as (v & A & B). eapply bad_int; [|exact A|exact B]; cbn; tauto. }
    rewrite (step_int o "minprops" set_minprops t_minprops) by apply set_get_minprops. red_tag.
    destruct (val_opt atoi o "minprops" x_minprops) as [v8|] eqn:V8; red_tag.
    2:{ right. split; [reflexivity|]. apply val_opt_none in V8 as (v & A & B). eapply bad_int; [|exact A|exact B]; cbn; tauto. }
    rewrite (step_string o "pattern" set_pattern t_pattern) by apply set_get_pattern. red_tag.
    rewrite (step_string o "format" set_format t_format) by apply set_get_format. red_tag.
    rewrite (step_string o "type" set_type t_type) by apply set_get_type. red_tag.
   
    rewrite (step_float o "max" set_max t_max) by apply set_get_max. red_tag.
    destruct (val_opt pf o "max" x_max) as [v9|] eqn:V9; red_tag.
    2:{ right. split; [reflexivity|]. apply val_opt_none in V9 as (v & A & B). eapply bad_float; [|exact A|exact B]; cbn; tauto. }
    rewrite (step_float o "min" set_min t_min) by apply set_get_min. red_tag.
    destruct (val_opt pf o "min" x_min) as [v10|] eqn:V10; red_tag.
    2:{ right. split; [reflexivity|]. apply val_opt_none in V10 as (v & A & B). eapply bad_float; [|exact A|exact B]; cbn; tauto. }
    rewrite (step_float o "emax" set_emax t_emax) by apply set_get_emax. red_tag.
    destruct (val_opt pf o "emax" x_emax) as [v11|] eqn:V11; red_tag.
    2:{ right. split; [reflexivity|]. apply val_opt_none in V11 as (v & A & B). eapply bad_float; [|exact A|exact B]; cbn; tauto. }
    rewrite (step_float o "emin" set_emin t_emin) by apply set_get_emin. red_tag.
    destruct (val_opt pf o "emin" x_emin) as [v12|] eqn:V12; red_tag.
    2:{ right. split; [reflexivity|]. apply val_opt_none in V12 as (v & A & B). eapply bad_float; [|exact A|exact B]; cbn; tauto. }
    rewrite (step_float o "mulof" set_emin t_emin) by apply set_get_emin. red_tag.
    destruct (val_opt pf o "mulof" v12) as [v13|] eqn:V13; red_tag.
    2:{ right. split; [reflexivity|]. apply val_opt_none in V13 as (v & A & B). eapply bad_float; [|exact A|exact B]; cbn; tauto. }
    left. eexists. split; [reflexivity|].
    split. { intros [k v A B C|k v A B C|k v A B C]; cbn in A.
     -
      destruct A as [<-|A]; [exact (val_opt_some _ _ _ _ _ _ V3 B C)|].
      destruct A as [<-|A]; [exact (val_opt_some _ _ _ _ _ _ V4 B C)|].
      destruct A as [<-|A]; [exact (val_opt_some _ _ _ _ _ _ V5 B C)|].
      destruct A as [<-|A]; [exact (val_opt_some _ _ _ _ _ _ V6 B C)|].
      destruct A as [<-|A]; [exact (val_opt_some _ _ _ _ _ _ V7 B C)|].
      destruct A as [<-|A]; [exact (val_opt_some _ _ _ _ _ _ V8 B C)|].
      exact A.
     -
      destruct A as [<-|A]; [exact (val_opt_some _ _ _ _ _ _ V9 B C)|].
      destruct A as [<-|A]; [exact (val_opt_some _ _ _ _ _ _ V10 B C)|].
      destruct A as [<-|A]; [exact (val_opt_some _ _ _ _ _ _ V11 B C)|].
      destruct A as [<-|A]; [exact (val_opt_some _ _ _ _ _ _ V12 B C)|].
      destruct A as [<-|A]; [exact (val_opt_some _ _ _ _ _ _ V13 B C)|].
      exact A.
     -
      destruct A as [<-|A]; [exact (val_opt_some _ _ _ _ _ _ V1 B C)|].
      destruct A as [<-|A]; [exact (val_opt_some _ _ _ _ _ _ V2 B C)|].
      exact A. }
    apply val_opt_reads in V1, V2, V3, V4, V5, V6, V7, V8, V9, V10, V11, V12, V13.
    rewrite ?G3, ?G4, ?G5, ?G6, ?G7, ?G8, ?G9, ?G10, ?G11, ?G15, ?G16, ?G17 in *.
    split. {
      apply Forall_cons; [unfold attr_set; cbn [fst snd]; exact V1|].
      apply Forall_cons; [unfold attr_set; cbn [fst snd]; reflexivity|].
      apply Forall_cons; [unfold attr_set; cbn [fst snd]; exact V2|].
      apply Forall_cons; [unfold attr_set; cbn [fst snd]; reflexivity|].
      apply Forall_cons; [unfold attr_set; cbn [fst snd]; reflexivity|].
      apply Forall_cons; [unfold attr_set; cbn [fst snd]; reflexivity|].
      apply Forall_cons; [unfold attr_set; cbn [fst snd]; reflexivity|].
      apply Forall_cons; [unfold attr_set; cbn [fst snd]; reflexivity|].
      apply Forall_cons; [unfold attr_set; cbn [fst snd]; exact V3|].
      apply Forall_cons; [unfold attr_set; cbn [fst snd]; exact V4|].
      apply Forall_cons; [unfold attr_set; cbn [fst snd]; exact V5|].
      apply Forall_cons; [unfold attr_set; cbn [fst snd]; exact V6|].
      apply Forall_cons; [unfold attr_set; cbn [fst snd]; exact V7|].
      apply Forall_cons; [unfold attr_set; cbn [fst snd]; exact V8|].
      apply Forall_cons; [unfold attr_set; cbn [fst snd]; unfold val_text; now rewrite <- G12|].
      apply Forall_cons; [unfold attr_set; cbn [fst snd]; unfold val_text; now rewrite <- G13|].
      apply Forall_cons; [unfold attr_set; cbn [fst snd]; unfold val_text; now rewrite <- G14|].
      apply Forall_cons; [unfold attr_set; cbn [fst snd]; exact V9|].
      apply Forall_cons; [unfold attr_set; cbn [fst snd]; exact V10|].
      apply Forall_cons; [unfold attr_set; cbn [fst snd]; exact V11|].
      apply Forall_nil. }
    split; [exact G1|]. split; [exact En|]. split; [exact G2|]. exists v12. split; [exact V12 | exact V13].
  Qed.

  Lemma read_oapi_ignored p t : pt_name p = "-" -> read_oapi pf p t = Ok (set_ignore true t).
  Proof. intro E. unfold read_oapi. now rewrite E. Qed.
  Lemma read_json_cases p (t : tag) :
    (pt_name p = "-" /\ read_json p t = Ok (set_ignore true t)) \/
    (pt_name p <> "-" /\ exists v, reads bool_of (pt_options p) "inline" (t_inline t) v /\
       read_json p t = Ok (set_omitempty (flag (oget "omitempty" (pt_options p))) (set_inline v (read_name p t)))) \/
    (pt_name p <> "-" /\ read_json p t = Err /\ exists v, oget "inline" (pt_options p) = Some v /\ bool_of v = None).
  Proof.
    unfold read_json. destruct (String.eqb_spec (pt_name p) "-") as [E|N]; [left; auto|]. right.
    rewrite (step_boolptr _ "inline" set_inline t_inline) by apply set_get_inline.
    assert (t_inline (read_name p t) = t_inline t) as -> by (unfold read_name; now destruct (String.eqb _ _)).
    destruct (val_opt bool_of (pt_options p) "inline" (t_inline t)) as [v|] eqn:V.
    - left. split; [exact N|]. exists v. split; [now apply val_opt_reads|]. rewrite put_some, bind_Ok. apply step_bool.
    - right. split; [exact N|]. rewrite put_none, bind_Err. split; [reflexivity|]. now apply val_opt_none in V.
  Qed.

  (** ** Parse as a whole *)
  Definition json_stage (raw : string) : res tag :=
    match part "json" raw with Some p => read_json p tag_zero | None => Ok tag_zero end.
  Definition oapi_stage (raw : string) (t : tag) : res tag :=
    match part "oapi" raw with Some p => read_oapi pf p t | None => Ok t end.
  Lemma tag_parse_stages raw : raw <> "" ->
    (stags_parse raw = Err /\ tag_parse pf raw = Err) \/ (stags_parse raw = OutOfFuel /\ tag_parse pf raw = OutOfFuel) \/
    (stags_parse raw = Ok None /\ tag_parse pf raw = Panic) \/
    (exists l, stags_parse raw = Ok (Some l) /\ tag_parse pf raw = bind (json_stage raw) (oapi_stage raw)).
  Proof.
    intro N. unfold tag_parse, json_stage, oapi_stage, part. destruct (String.eqb_spec raw ""); [contradiction|].
    destruct (stags_parse raw) as [[l|]| | |] eqn:E; cbn [bind]; auto.
    - right. right. right. exists l. split; [reflexivity|]. reflexivity.
    - exfalso. unfold stags_parse in E. assert (forall fuel s, stags_fuel fuel s <> Panic) as Q.
      { clear. induction fuel as [|fuel IH]; intro s; cbn [stags_fuel]; destruct (trim_left is_sp s); try discriminate.
        destruct (span key_char _) as [[|k ks] [|c [|d v]]]; try discriminate. destruct (negb _); [discriminate|]. destruct (negb _); [discriminate|].
        destruct (scan_quoted v) as [[q rest']|]; [|discriminate].
        assert (unquote q <> Panic) as U.
        { destruct (unquote_total q) as [(v' & ->)| ->]; discriminate. }
        destruct (unquote q); cbn [bind]; try discriminate; [|congruence]. specialize (IH rest'). destruct (stags_fuel fuel rest'); cbn [bind]; congruence. }
      destruct (stags_fuel _ _) eqn:E'; cbn [bind] in E; try discriminate; [destruct a; [destruct (String.eqb raw "")|]; discriminate | exact (Q _ _ E')].
  Qed.
  Lemma part_none_empty key : part key "" = None.
  Proof. reflexivity. Qed.
  Lemma tag_parse_ok raw t : tag_parse pf raw = Ok t -> exists t1, json_stage raw = Ok t1 /\ oapi_stage raw t1 = Ok t.
  Proof.
    destruct (String.eqb_spec raw "") as [-> |N].
    - intro H. exists tag_zero. split; [reflexivity | exact H].
    - destruct (tag_parse_stages raw N) as [[_ ->]|[[_ ->]|[[_ ->]|(l & _ & ->)]]]; try discriminate. apply bind_ok.
  Qed.

  Lemma json_stage_facts raw t : json_stage raw = Ok t ->
    (t_ignore t = true <-> part_name "json" raw = Some "-") /\
    (t_ignore t = false -> t_name t = match part_name "json" raw with Some n => n | None => "" end) /\
    (part_name "json" raw = Some "-" -> t_name t = "") /\
    t_omitempty t = match part "json" raw with Some p => if String.eqb (pt_name p) "-" then false else flag (oget "omitempty" (pt_options p)) | None => false end /\
    (part "json" raw = None \/ part_name "json" raw = Some "-" -> t_inline t = None) /\
    (forall p, part "json" raw = Some p -> pt_name p <> "-" -> reads bool_of (pt_options p) "inline" None (t_inline t)) /\
    t_nullable t = None /\ t_readonly t = false /\ t_writeonly t = false /\ t_deprecated t = false /\ t_required t = false /\ t_uniqitems t = false /\
    t_pattern t = "" /\ t_format t = "" /\ t_type t = "" /\ t_min t = None /\ t_max t = None /\ t_emin t = None /\ t_emax t = None /\ t_mulof t = None /\
    t_minlen t = None /\ t_maxlen t = None /\ t_minitems t = None /\ t_maxitems t = None /\ t_minprops t = None /\ t_maxprops t = None.
  Proof.
    unfold json_stage, part_name. destruct (part "json" raw) as [p|] eqn:E; cbn [option_map].
    - destruct (read_json_cases p tag_zero) as [(En & ->)|[(N & v & R & ->)|(N & -> & _)]]; [| |discriminate]; intros [= <-].
      + rewrite En. cbn. split; [tauto|]. split; [discriminate|]. split; [reflexivity|]. split; [reflexivity|]. split; [reflexivity|].
        split; [intros ? [= <-] N; congruence|]. repeat split.
      + assert (Eb : String.eqb (pt_name p) "-" = false) by now apply String.eqb_neq. rewrite Eb.
        unfold read_name. destruct (String.eqb_spec (pt_name p) "") as [E0|N0]; cbn; (split; [split; [discriminate | intros [= X]; congruence]|]);
          (split; [intros _; now rewrite ?E0|]); (split; [intros [= X]; congruence|]); (split; [reflexivity|]); (split; [intros [X|[= X]]; congruence|]);
          (split; [intros ? [= <-] _; exact R|]); repeat split.
    - intros [= <-]. cbn. split; [split; discriminate|]. split; [reflexivity|]. split; [discriminate|]. split; [reflexivity|]. split; [reflexivity|]. split; [discriminate|]. repeat split.
  Qed.

  (** C41, C42, C45 *)
  Theorem ignore_spec raw t : tag_parse pf raw = Ok t ->
    (t_ignore t = true <-> part_name "json" raw = Some "-" \/ part_name "oapi" raw = Some "-").
  Proof.
    intro H. apply tag_parse_ok in H as (t1 & H1 & H2). apply json_stage_facts in H1 as (A & _). unfold oapi_stage in H2. unfold part_name at 2.
    destruct (part "oapi" raw) as [p|]; cbn [option_map].
    - destruct (string_dec (pt_name p) "-") as [En|N].
      + rewrite read_oapi_ignored in H2 by exact En. injection H2 as <-. cbn. rewrite En. tauto.
      + destruct (read_oapi_cases p t1 N) as [(t' & E & _ & _ & I & _)|[E _]]; [|congruence]. assert (t' = t) by congruence. subst t'. rewrite I, A. split; [tauto|]. intros [X|[= X]]; [exact X | congruence].
    - injection H2 as <-. rewrite A. split; [tauto|]. intros [X|X]; [exact X | discriminate].
  Qed.
  Theorem name_spec raw t : tag_parse pf raw = Ok t -> t_ignore t = false ->
    t_name t = match nonempty_name (part_name "oapi" raw) with Some n => n | None => match part_name "json" raw with Some n => n | None => "" end end.
  Proof.
    intros H Hi. pose proof (proj2 (ignore_spec raw t H)) as Hn. apply tag_parse_ok in H as (t1 & H1 & H2). apply json_stage_facts in H1 as (A & B & _). unfold oapi_stage in H2. unfold part_name at 1.
    assert (Hj : t_ignore t1 = false). { destruct (t_ignore t1) eqn:E; [|reflexivity]. assert (t_ignore t = true) by (apply Hn; left; now apply A). congruence. }
    specialize (B Hj). destruct (part "oapi" raw) as [p|] eqn:Ep; cbn [option_map nonempty_name].
    - destruct (string_dec (pt_name p) "-") as [En|N].
      + exfalso. assert (t_ignore t = true) by (apply Hn; right; unfold part_name; rewrite Ep; cbn; congruence). congruence.
      + destruct (read_oapi_cases p t1 N) as [(t' & E & _ & _ & _ & I & _)|[E _]]; [|congruence]. assert (t' = t) by congruence. subst t'. rewrite I, B. now destruct (String.eqb (pt_name p) "").
    - injection H2 as <-. exact B.
  Qed.
  Theorem omitempty_spec raw t p : tag_parse pf raw = Ok t -> part "oapi" raw = Some p -> pt_name p <> "-" -> t_omitempty t = flag (oget "omitempty" (pt_options p)).
  Proof.
    intros H Hp N. apply tag_parse_ok in H as (t1 & H1 & H2). unfold oapi_stage in H2. rewrite Hp in H2.
    destruct (read_oapi_cases p t1 N) as [(t' & E & _ & A & _)|[E _]]; [|congruence]. assert (t' = t) by congruence. subst t'.
    rewrite Forall_forall in A. apply (A ("omitempty", AFlag t_omitempty)). cbn; tauto.
  Qed.
  Theorem omitempty_json raw t : tag_parse pf raw = Ok t -> part "oapi" raw = None ->
    t_omitempty t = match part "json" raw with Some p => if String.eqb (pt_name p) "-" then false else flag (oget "omitempty" (pt_options p)) | None => false end.
  Proof.
    intros H Hp. apply tag_parse_ok in H as (t1 & H1 & H2). unfold oapi_stage in H2. rewrite Hp in H2. injection H2 as <-. now apply json_stage_facts in H1.
  Qed.

  (** C43 *)
  Theorem oapi_attributes raw t p : tag_parse pf raw = Ok t -> part "oapi" raw = Some p -> pt_name p <> "-" ->
    exists t0, (forall k, k <> "inline" -> forall x, In (k, x) (attributes F) -> match x with ABool g => g t0 = None | AText g => g t0 = "" | AInt g => g t0 = None | AFloat g => g t0 = None | AFlag _ => True end) /\
      Forall (attr_set pf (pt_options p) t0 t) (attributes F) /\
      t_mulof t = None /\
      exists e, reads pf (pt_options p) "emin" None e /\ reads pf (pt_options p) "mulof" e (t_emin t).
  Proof.
    intros H Hp N. apply tag_parse_ok in H as (t1 & H1 & H2). unfold oapi_stage in H2. rewrite Hp in H2.
    destruct (read_oapi_cases p t1 N) as [(t' & E & _ & A & _ & _ & M & R)|[E _]]; [|congruence]. assert (t' = t) by congruence. subst t'.
    apply json_stage_facts in H1 as (_ & _ & _ & _ & _ & _ & Z1 & Z2 & Z3 & Z4 & Z5 & Z6 & Z7 & Z8 & Z9 & Z10 & Z11 & Z12 & Z13 & Z14 & Z15 & Z16 & Z17 & Z18 & Z19 & Z20).
    exists t1. split; [|split; [exact A|split; [congruence | now rewrite Z12 in R]]].
    intros k Nk x Hin. cbn in Hin. repeat (destruct Hin as [[= <- <-]|Hin]; [first [congruence | assumption | exact I]|]). destruct Hin.
  Qed.
  Theorem oapi_options raw t p : tag_parse pf raw = Ok t -> part "oapi" raw = Some p -> pt_name p <> "-" ->
    Forall (attr_set pf (pt_options p) tag_zero t) (tl (attributes F)) /\
    (exists i, json_inline raw i /\ reads bool_of (pt_options p) "inline" i (t_inline t)) /\
    (exists e, reads pf (pt_options p) "emin" None e /\ reads pf (pt_options p) "mulof" e (t_emin t)) /\
    t_mulof t = None.
  Proof.
    intros H Hp N. apply tag_parse_ok in H as (t1 & H1 & H2). unfold oapi_stage in H2. rewrite Hp in H2.
    destruct (read_oapi_cases p t1 N) as [(t' & E & _ & A & _ & _ & M & R)|[E _]]; [|congruence]. assert (t' = t) by congruence. subst t'.
    apply json_stage_facts in H1 as (_ & _ & _ & _ & J1 & J2 & Z1 & Z2 & Z3 & Z4 & Z5 & Z6 & Z7 & Z8 & Z9 & Z10 & Z11 & Z12 & Z13 & Z14 & Z15 & Z16 & Z17 & Z18 & Z19 & Z20).
    unfold attributes in A. apply Forall_cons_iff in A as [Ai A].
    split; [|split; [|split; [now rewrite Z12 in R | congruence]]].
    - unfold attributes. cbn [tl]. repeat apply Forall_cons_iff in A as [? A]. 
      repeat (apply Forall_cons; [match goal with X : attr_set _ _ _ _ ?x |- attr_set _ _ _ _ ?x => unfold attr_set in X |- *; cbn [snd fst] in X |- *; first [exact X | now rewrite ?Z1, ?Z7, ?Z8, ?Z9, ?Z10, ?Z11, ?Z13, ?Z15, ?Z16, ?Z17, ?Z18, ?Z19, ?Z20 in X] end|]). constructor.
    - exists (t_inline t1). split; [|exact Ai]. unfold json_inline. unfold part_name in J1. destruct (part "json" raw) as [q|]; [|now apply J1; left].
      destruct (String.eqb_spec (pt_name q) "-") as [En|Nn]; [apply J1; right; cbn; congruence | now apply J2].
  Qed.
  (** Without an oapi part only ignore, inline, omitempty and the name can be set. *)
  Theorem no_oapi_part raw t : tag_parse pf raw = Ok t -> part "oapi" raw = None ->
    t_nullable t = None /\ t_readonly t = false /\ t_writeonly t = false /\ t_deprecated t = false /\ t_required t = false /\ t_uniqitems t = false /\
    t_pattern t = "" /\ t_format t = "" /\ t_type t = "" /\ t_min t = None /\ t_max t = None /\ t_emin t = None /\ t_emax t = None /\ t_mulof t = None /\
    t_minlen t = None /\ t_maxlen t = None /\ t_minitems t = None /\ t_maxitems t = None /\ t_minprops t = None /\ t_maxprops t = None.
  Proof. intros H Hp. apply tag_parse_ok in H as (t1 & H1 & H2). unfold oapi_stage in H2. rewrite Hp in H2. injection H2 as <-. now apply json_stage_facts in H1. Qed.
  Theorem mulof_never_set raw t : tag_parse pf raw = Ok t -> t_mulof t = None.
  Proof.
    intro H. pose proof H as H0. apply tag_parse_ok in H as (t1 & H1 & H2). unfold oapi_stage in H2. destruct (part "oapi" raw) as [p|] eqn:Ep.
    - destruct (string_dec (pt_name p) "-") as [En|N].
      + rewrite read_oapi_ignored in H2 by exact En. injection H2 as <-. cbn. now apply json_stage_facts in H1.
      + now destruct (oapi_attributes raw t p H0 Ep N) as (_ & _ & _ & M & _).
    - now apply (no_oapi_part raw t).
  Qed.

  (** C44 *)
  Theorem parse_err raw : tag_parse pf raw = Err <->
    stags_parse raw = Err \/
    (exists p v, part "json" raw = Some p /\ pt_name p <> "-" /\ oget "inline" (pt_options p) = Some v /\ bool_of v = None) \/
    (exists p, part "oapi" raw = Some p /\ pt_name p <> "-" /\ malformed pf (pt_options p)).
  Proof.
    destruct (String.eqb_spec raw "") as [-> |Nr].
    { split; [discriminate|]. rewrite !part_none_empty. intros [X|[(p & v & X & _)|(p & X & _)]]; discriminate. }
    assert (Hpart : forall key, part key raw <> None -> exists l, stags_parse raw = Ok (Some l)).
    { intros key X. unfold part in X. destruct (stags_parse raw) as [[l|]| | |]; try congruence. eauto. }
    destruct (tag_parse_stages raw Nr) as [[E1 ->]|[[E1 ->]|[[E1 ->]|(l & E1 & ->)]]].
    - tauto.
    - split; [discriminate|]. intros [X|[(p & v & X & _)|(p & X & _)]]; [congruence| |]; destruct (Hpart _ ltac:(rewrite X; discriminate)) as [l Hl]; congruence.
    - split; [discriminate|]. intros [X|[(p & v & X & _)|(p & X & _)]]; [congruence| |]; destruct (Hpart _ ltac:(rewrite X; discriminate)) as [l Hl]; congruence.
    - rewrite E1. clear E1 Hpart. unfold json_stage, oapi_stage.
      assert (Oapi : forall t, (match part "oapi" raw with Some p => read_oapi pf p t | None => Ok t end) = Err <->
        exists p, part "oapi" raw = Some p /\ pt_name p <> "-" /\ malformed pf (pt_options p)).
      { intro t. destruct (part "oapi" raw) as [p|]; [|split; [discriminate | intros (p & X & _); discriminate]].
        destruct (string_dec (pt_name p) "-") as [En|N].
        - rewrite read_oapi_ignored by exact En. split; [discriminate|]. intros (q & [= <-] & N & _). congruence.
        - destruct (read_oapi_cases p t N) as [(t' & -> & B & _)|[-> B]].
          + split; [discriminate|]. intros (q & [= <-] & _ & M). apply badopt_malformed in M. contradiction.
          + split; [|reflexivity]. intros _. exists p. split; [reflexivity|]. split; [exact N | now apply badopt_malformed]. }
      destruct (part "json" raw) as [p|].
      + destruct (read_json_cases p tag_zero) as [(En & ->)|[(N & v & R & ->)|(N & -> & v & Hv & Hb)]]; cbn [bind].
        * rewrite Oapi. split; [intro X; right; right; exact X|]. intros [X|[(q & v & [= <-] & N & _)|X]]; [discriminate | congruence | exact X].
        * rewrite Oapi. split; [intro X; right; right; exact X|]. intros [X|[(q & w & [= <-] & _ & Hw & Hb)|X]]; [discriminate | | exact X].
          exfalso. unfold reads in R. rewrite Hw in R. now apply R.
        * split; [|reflexivity]. intros _. right. left. exists p, v. auto.
      + cbn [bind]. rewrite Oapi. split; [intro X; right; right; exact X|]. intros [X|[(q & v & X & _)|X]]; [discriminate | discriminate | exact X].
  Qed.
End Facts.

(** ** C46: blank tags *)
Lemma trim_left_blank s : trim_left is_sp s = "" <-> blank s = true.
Proof. induction s as [|c r IH]; cbn; [tauto|]. unfold is_sp at 1. destruct (Ascii.eqb c " "); cbn; [exact IH | split; discriminate]. Qed.
Lemma stags_nil fuel s : stags_fuel fuel s = Ok [] <-> blank s = true.
Proof.
  rewrite <- trim_left_blank. destruct fuel as [|fuel]; cbn [stags_fuel]; destruct (trim_left is_sp s) as [|c r] eqn:E; split; intro H; try reflexivity; try discriminate.
  destruct (span key_char (String c r)) as [[|k ks] [|x [|d v]]]; try discriminate. destruct (negb _); [discriminate|]. destruct (negb _); [discriminate|].
  destruct (scan_quoted v) as [[q rest']|]; [|discriminate]. apply bind_ok in H as (? & _ & H). apply bind_ok in H as (? & _ & H). discriminate.
Qed.
Theorem panics_iff {F} (pf : string -> option F) raw : tag_parse pf raw = Panic <-> raw <> "" /\ blank raw = true.
Proof.
  destruct (String.eqb_spec raw "") as [-> |N]; [split; [discriminate | tauto]|].
  assert (HN : stags_parse raw = Ok None <-> blank raw = true).
  { unfold stags_parse. rewrite <- (stags_nil (String.length raw) raw). destruct (stags_fuel (String.length raw) raw) as [[|e l]| | |]; cbn [bind]; try (split; discriminate).
    assert (String.eqb raw "" = false) as -> by now apply String.eqb_neq. tauto. }
  destruct (tag_parse_stages pf raw N) as [[E1 ->]|[[E1 ->]|[[E1 ->]|(l & E1 & ->)]]].
  - split; [discriminate|]. intros [_ B]. apply HN in B. congruence.
  - split; [discriminate|]. intros [_ B]. apply HN in B. congruence.
  - split; [|reflexivity]. intros _. split; [exact N | now apply HN].
  - split; [|intros [_ B]; apply HN in B; congruence]. unfold json_stage, oapi_stage.
    assert (O : forall t, (match part "oapi" raw with Some p => read_oapi pf p t | None => Ok t end) <> Panic).
    { intro t. destruct (part "oapi" raw) as [p|]; [|discriminate]. destruct (string_dec (pt_name p) "-") as [En|Np]; [rewrite read_oapi_ignored by exact En; discriminate|].
      destruct (read_oapi_cases pf p t Np) as [(t' & -> & _)|[-> _]]; discriminate. }
    destruct (part "json" raw) as [p|]; cbn [bind].
    + destruct (read_json_cases (F := F) p tag_zero) as [(En & ->)|[(Np & v & R & ->)|(Np & -> & _)]]; cbn [bind]; try (intro X; now apply O in X). discriminate.
    + intro X. now apply O in X.
Qed.

(** The scan never runs out of steps. *)
Lemma trim_left_length p s : String.length (trim_left p s) <= String.length s.
Proof. induction s as [|c r IH]; cbn [trim_left]; [lia|]. destruct (p c); cbn [String.length]; lia. Qed.
Lemma span_app p s a b : span p s = (a, b) -> s = a +++ b.
Proof.
  revert a b. induction s as [|c r IH]; cbn [span]; intros a b H; [now injection H as <- <-|].
  destruct (p c); [|now injection H as <- <-]. destruct (span p r) as [x y]. injection H as <- <-. cbn. f_equal. now apply IH.
Qed.
Lemma scan_quoted_app s : forall a b, scan_quoted s = Some (a, b) -> s = a +++ String dquote b.
Proof.
  assert (forall n s, String.length s <= n -> forall a b, scan_quoted s = Some (a, b) -> s = a +++ String dquote b) as H; [|exact (H _ s (le_n _))].
  induction n as [|n IH]; intros [|c r] L a b H; cbn [String.length] in L; try discriminate; try lia. cbn [scan_quoted] in H.
  destruct (Ascii.eqb_spec c dquote) as [-> |Nq]; [now injection H as <- <-|].
  destruct (Ascii.eqb c backslash).
  - destruct r as [|d t]; [discriminate|]. cbn [String.length] in L. destruct (scan_quoted t) as [[x y]|] eqn:E; [|discriminate]. injection H as <- <-. cbn. do 2 f_equal. apply IH; [lia | exact E].
  - destruct (scan_quoted r) as [[x y]|] eqn:E; [|discriminate]. injection H as <- <-. cbn. f_equal. apply IH; [lia | exact E].
Qed.
Lemma stags_enough fuel : forall s, String.length s <= fuel -> stags_fuel fuel s <> OutOfFuel.
Proof.
  induction fuel as [|fuel IH]; intros s L; cbn [stags_fuel]; pose proof (trim_left_length is_sp s) as Lt;
    destruct (trim_left is_sp s) as [|c r] eqn:E; try discriminate; [cbn in Lt; lia|].
  destruct (span key_char (String c r)) as [key rest] eqn:Es. apply span_app in Es. destruct key as [|k ks]; [discriminate|]. destruct rest as [|x [|d v]]; try discriminate.
  destruct (negb _); [discriminate|]. destruct (negb _); [discriminate|]. destruct (scan_quoted v) as [[q rest']|] eqn:Eq; [|discriminate]. apply scan_quoted_app in Eq.
  assert (String.length rest' <= fuel) as Lr.
  { assert (String.length (String c r) = String.length ((String k ks) +++ String x (String d v))) as Q by now rewrite Es. rewrite app_length_s, Eq in Q. cbn [String.length] in Q, Lt. rewrite app_length_s in Q. cbn [String.length] in Q. lia. }
  destruct (unquote_total q) as [(v' & ->)| ->]; cbn [bind]; try discriminate.
  specialize (IH rest' Lr). destruct (stags_fuel fuel rest'); cbn [bind]; congruence.
Qed.
Theorem parse_modelled {F} (pf : string -> option F) raw : tag_parse pf raw <> OutOfFuel.
Proof.
  destruct (String.eqb_spec raw "") as [-> |N]; [discriminate|].
  destruct (tag_parse_stages pf raw N) as [[E1 ->]|[[E1 _]|[[E1 ->]|(l & E1 & ->)]]]; try discriminate.
  - exfalso. unfold stags_parse in E1. pose proof (stags_enough _ raw (le_n _)). destruct (stags_fuel _ raw) as [[|]| | |]; cbn [bind] in E1; try congruence; destruct (String.eqb raw ""); discriminate.
  - unfold json_stage, oapi_stage.
    assert (O : forall t, (match part "oapi" raw with Some p => read_oapi pf p t | None => Ok t end) <> OutOfFuel).
    { intro t. destruct (part "oapi" raw) as [p|]; [|discriminate]. destruct (string_dec (pt_name p) "-") as [En|Np]; [rewrite read_oapi_ignored by exact En; discriminate|].
      destruct (read_oapi_cases pf p t Np) as [(t' & -> & _)|[-> _]]; discriminate. }
    destruct (part "json" raw) as [p|]; cbn [bind].
    + destruct (read_json_cases (F := F) p tag_zero) as [(En & ->)|[(Np & v & R & ->)|(Np & -> & _)]]; cbn [bind]; try (apply O). discriminate.
    + apply O.
Qed.
