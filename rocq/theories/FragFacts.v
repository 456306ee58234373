(** Facts about fragment texts. *)
From Coq Require Import String Ascii List Bool Arith ZArith Lia.
From Verif Require Import GoStr GoStrFacts Json JsonFacts Url Pointer Spec_Frag.
Import ListNotations.
Local Open Scope string_scope.
Local Open Scope nat_scope.
Local Open Scope list_scope.

(** Byte-wise reading of a token. *)
Fixpoint dec (s : string) : string :=
  match s with
  | String "~" (String "1" r) => String "/" (dec r)
  | String "~" (String "0" r) => String "~" (dec r)
  | String c r => String c (dec r)
  | EmptyString => EmptyString
  end.
Fixpoint enc (s : string) : string :=
  match s with
  | EmptyString => EmptyString
  | String c r =>
      if Ascii.eqb c "~" then String "~" (String "0" (enc r))
      else if Ascii.eqb c "/" then String "~" (String "1" (enc r))
      else String c (enc r)
  end.

Lemma dec_other c r : c <> "~"%char -> dec (String c r) = String c (dec r).
Proof. intro H. cbn. destruct c as [[] [] [] [] [] [] [] []]; try reflexivity; exfalso; now apply H. Qed.
Lemma dec_tilde d r : d <> "0"%char -> d <> "1"%char -> dec (String "~" (String d r)) = String "~" (dec (String d r)).
Proof. intros H0 H1. cbn. destruct d as [[] [] [] [] [] [] [] []]; try reflexivity; exfalso; (now apply H0) || (now apply H1). Qed.

Lemma escape_enc t : escape_token t = enc t.
Proof.
  unfold escape_token. change "~" with (str1 "~"). change "/" with (str1 "/"). rewrite !replace1_subst.
  induction t as [|c t IH]; [reflexivity|]. cbn [subst_char enc].
  destruct (Ascii.eqb c "~") eqn:E.
  - cbn. rewrite IH. reflexivity.
  - unfold str1. cbn [String.append subst_char]. rewrite IH. destruct (Ascii.eqb c "/"); reflexivity.
Qed.

Lemma repl_head d r : d <> "0"%char -> exists x y, replace_all "~1" "/" (String d r) = String x y /\ x <> "0"%char.
Proof.
  intro H. destruct (Ascii.eqb_spec d "~") as [->|N].
  - destruct r as [|e r]; [exists "~"%char, ""; split; [reflexivity|discriminate]|].
    destruct (Ascii.eqb_spec e "1") as [->|N].
    + exists "/"%char, (replace_all "~1" "/" r). split; [apply (replace2_hit "~" "1" "/" r) | discriminate].
    + exists "~"%char, (replace_all "~1" "/" (String e r)). split; [now apply (replace2_miss2 "~" "1" "/" e r) | discriminate].
  - exists d, (replace_all "~1" "/" r). split; [now apply (replace2_miss1 "~" "1" "/" d r) | exact H].
Qed.

Lemma r1_hit s : replace_all "~1" "/" (String "~" (String "1" s)) = String "/" (replace_all "~1" "/" s).
Proof. exact (replace2_hit "~" "1" "/" s). Qed.
Lemma r1_miss1 c s : c <> "~"%char -> replace_all "~1" "/" (String c s) = String c (replace_all "~1" "/" s).
Proof. exact (replace2_miss1 "~" "1" "/" c s). Qed.
Lemma r1_miss2 d s : d <> "1"%char -> replace_all "~1" "/" (String "~" (String d s)) = String "~" (replace_all "~1" "/" (String d s)).
Proof. exact (replace2_miss2 "~" "1" "/" d s). Qed.
Lemma r0_hit s : replace_all "~0" "~" (String "~" (String "0" s)) = String "~" (replace_all "~0" "~" s).
Proof. exact (replace2_hit "~" "0" "~" s). Qed.
Lemma r0_miss1 c s : c <> "~"%char -> replace_all "~0" "~" (String c s) = String c (replace_all "~0" "~" s).
Proof. exact (replace2_miss1 "~" "0" "~" c s). Qed.
Lemma r0_miss2 d s : d <> "0"%char -> replace_all "~0" "~" (String "~" (String d s)) = String "~" (replace_all "~0" "~" (String d s)).
Proof. exact (replace2_miss2 "~" "0" "~" d s). Qed.

Lemma unescape_dec_len n : forall t, String.length t <= n -> unescape_token t = dec t.
Proof.
  unfold unescape_token. induction n as [|n IH]; intros t Hl.
  - destruct t; [reflexivity | cbn in Hl; lia].
  - destruct t as [|c t]; [reflexivity|]. cbn in Hl.
    destruct (Ascii.eqb_spec c "~") as [->|N].
    + destruct t as [|d t]; [reflexivity|]. cbn in Hl.
      destruct (Ascii.eqb_spec d "1") as [->|N1].
      * rewrite r1_hit.
        rewrite r0_miss1 by discriminate.
        cbn [dec]. f_equal. apply IH. lia.
      * rewrite r1_miss2 by exact N1.
        destruct (Ascii.eqb_spec d "0") as [->|N0].
        -- rewrite r1_miss1 by discriminate.
           rewrite r0_hit. cbn [dec]. f_equal. apply IH. lia.
        -- rewrite dec_tilde by assumption. destruct (repl_head d t N0) as (x & y & E & Hx).
           rewrite E. rewrite r0_miss2 by exact Hx. rewrite <- E. f_equal. apply IH. cbn. lia.
    + rewrite r1_miss1 by exact N. rewrite r0_miss1 by exact N.
      rewrite dec_other by exact N. f_equal. apply IH. lia.
Qed.
Lemma unescape_dec t : unescape_token t = dec t.
Proof. apply (unescape_dec_len (String.length t)). lia. Qed.

Lemma dec_enc t : dec (enc t) = t.
Proof.
  induction t as [|c t IH]; [reflexivity|]. cbn [enc].
  destruct (Ascii.eqb_spec c "~") as [->|N]; [cbn [dec]; now rewrite IH|].
  destruct (Ascii.eqb_spec c "/") as [->|N2]; [cbn [dec]; now rewrite IH|].
  rewrite dec_other by exact N. now rewrite IH.
Qed.

Lemma enc_no_slash t : has_char "/" (enc t) = false.
Proof.
  induction t as [|c t IH]; [reflexivity|]. cbn [enc].
  destruct (Ascii.eqb_spec c "~") as [->|N]; [exact IH|].
  destruct (Ascii.eqb_spec c "/") as [->|N2]; [exact IH|].
  cbn [has_char]. rewrite IH, orb_false_r. apply Ascii.eqb_neq. congruence.
Qed.

Lemma enc_tilde_ok t : tilde_ok (enc t) = true.
Proof.
  induction t as [|c t IH]; [reflexivity|]. cbn [enc].
  destruct (Ascii.eqb c "~") eqn:E; [cbn; exact IH|].
  destruct (Ascii.eqb c "/"); [cbn; exact IH|]. cbn [tilde_ok]. rewrite E. exact IH.
Qed.

Lemma enc_dec n : forall t, String.length t <= n -> tilde_ok t = true -> has_char "/" t = false -> enc (dec t) = t.
Proof.
  induction n as [|n IH]; intros t Hl Ht Hs; destruct t as [|c t]; try reflexivity; cbn in Hl; [lia|].
  cbn [has_char] in Hs. apply orb_false_iff in Hs as [Hc Hs]. cbn [tilde_ok] in Ht. apply andb_true_iff in Ht as [Hd Ht].
  destruct (Ascii.eqb_spec c "~") as [->|N].
  - destruct t as [|d t]; [discriminate|]. cbn in Hl. apply orb_true_iff in Hd.
    cbn [has_char] in Hs. apply orb_false_iff in Hs as [_ Hs].
    assert (tilde_ok t = true) as Ht'.
    { cbn [tilde_ok] in Ht. now apply andb_true_iff in Ht. }
    destruct Hd as [Hd|Hd]; apply Ascii.eqb_eq in Hd; subst d; cbn [dec enc]; cbn; rewrite IH; auto; lia.
  - rewrite dec_other by exact N. cbn [enc]. apply Ascii.eqb_neq in N. rewrite N.
    rewrite Ascii.eqb_sym in Hc. rewrite Hc. f_equal. apply IH; auto. lia.
Qed.

Lemma frag_string_join f : f <> [] -> frag_string f = "/" +++ join "/" (map enc f).
Proof.
  induction f as [|t [|u f] IH]; intro H; [congruence| |].
  - cbn. now rewrite escape_enc, app_nil_r_s.
  - cbn [frag_string]. change (frag_string (u :: f)) with (frag_string (u :: f)) in *.
    cbn [frag_string] in IH. rewrite IH by discriminate. rewrite escape_enc. reflexivity.
Qed.

Theorem frag_roundtrip f : parse_fragment (frag_string f) = Ok f.
Proof.
  destruct f as [|t f]; [reflexivity|]. rewrite frag_string_join by discriminate.
  unfold parse_fragment. cbn [String.append]. cbn [Ascii.eqb]. cbn. f_equal.
  change "/" with (str1 "/") at 1. fold (join (str1 "/") (map enc (t :: f))).
  change (map unescape_token (split_char "/" (join (str1 "/") (map enc (t :: f)))) = t :: f).
  rewrite split_join.
  - rewrite map_map. rewrite <- (map_id (t :: f)) at 2. apply map_ext. intro x. rewrite unescape_dec. apply dec_enc.
  - discriminate.
  - apply Forall_map, Forall_forall. intros x _. apply enc_no_slash.
Qed.

Theorem frag_string_inj f g : frag_string f = frag_string g -> f = g.
Proof. intro H. pose proof (frag_roundtrip f) as A. rewrite H, frag_roundtrip in A. now injection A. Qed.

Theorem parse_accepts s : (exists f, parse_fragment s = Ok f) <-> (s = "" \/ exists r, s = String "/" r).
Proof.
  destruct s as [|c r]; cbn; [split; [auto | eauto]|]. destruct (Ascii.eqb_spec c "/") as [->|N].
  - split; [intros _; right; eauto | eauto].
  - split; [intros [f H]; discriminate | intros [H|[r' H]]; [discriminate|]; injection H as -> ->; congruence].
Qed.
Lemma parse_never_panics s : parse_fragment s <> Panic /\ parse_fragment s <> OutOfFuel.
Proof. destruct s as [|c r]; cbn; [split; discriminate|]. destruct (Ascii.eqb c "/"); split; discriminate. Qed.

Lemma tilde_ok_join l : tilde_ok (join "/" l) = forallb tilde_ok l.
Proof.
  induction l as [|x [|y l] IH]; [reflexivity | cbn; now rewrite andb_true_r|].
  rewrite join_cons. change (forallb tilde_ok (x :: y :: l)) with (tilde_ok x && forallb tilde_ok (y :: l)). rewrite <- IH. generalize (join "/" (y :: l)) as r. intro r. clear. change ("/" +++ r) with (String "/" r).
  induction x as [|c x IH]; [reflexivity|].
  cbn [String.append tilde_ok]. rewrite IH. rewrite andb_assoc. f_equal. 
  destruct (Ascii.eqb c "~"); [|reflexivity]. destruct x as [|d x]; reflexivity.
Qed.

(* end of texts *)
Theorem parse_print s f : parse_fragment s = Ok f -> (frag_string f = s <-> tilde_ok s = true).
Proof.
  destruct s as [|c r]; cbn [parse_fragment]; intro H.
  - injection H as <-. cbn. tauto.
  - destruct (Ascii.eqb_spec c "/") as [->|N]; [|discriminate]. injection H as <-.
    rewrite frag_string_join by (intro E; apply map_eq_nil in E; eapply split_char_nonempty, E).
    rewrite map_map. cbn [String.append tilde_ok]. change (Ascii.eqb "/" "~") with false. cbn [andb].
    split.
    + intro H. injection H as H. rewrite <- H. rewrite tilde_ok_join, forallb_forall. intros x Hx.
      apply in_map_iff in Hx as (y & <- & _). apply enc_tilde_ok.
    + intro H. f_equal. transitivity (join "/" (split_char "/" r)); [|apply (join_split "/" r)].
      f_equal. rewrite <- (join_split "/" r) in H. change (join (str1 "/")) with (join "/") in H.
      rewrite tilde_ok_join in H. pose proof (split_char_no_sep "/" r) as HN.
      induction HN as [|x l Hx _ IH]; [reflexivity|]. cbn [forallb map] in *. apply andb_true_iff in H as [H1 H2].
      rewrite IH by exact H2. f_equal. rewrite unescape_dec. now apply (enc_dec (String.length x)).
Qed.

(** Descendant. *)
Definition path_tokens (path : string) : list string :=
  map unescape_token (split_char "/" (if has_prefix "/" path then skipn_s 1 path else path)).

Lemma frag_string_slash f : frag_string f = "/" <-> f = [""].
Proof. split; [|intros ->; reflexivity]. intro H. apply frag_string_inj. exact H. Qed.

Theorem descendant_spec f path :
  (f = [""] -> descendant f path = Ok (path_tokens path)) /\
  (f <> [""] -> descendant f path = Ok (f ++ path_tokens path)).
Proof.
  assert (E : parse_fragment (if has_prefix "/" path then path else "/" +++ path) = Ok (path_tokens path)).
  { unfold path_tokens. destruct (has_prefix "/" path) eqn:E; [|reflexivity].
    apply has_prefix_inv in E as [t ->]. reflexivity. }
  unfold descendant. rewrite E. cbn [bind]. split.
  - intros ->. reflexivity.
  - intro H. destruct (String.eqb_spec (frag_string f) "/") as [E'|N]; [apply frag_string_slash in E'; congruence | reflexivity].
Qed.

(** Replace. *)
Lemma replace_at_nth n e : forall f, n < length f ->
  length (replace_at n e f) = length f /\ forall m, nth_error (replace_at n e f) m = if m =? n then Some e else nth_error f m.
Proof.
  induction n as [|n IH]; intros [|t f] H; cbn in H; try lia; cbn [replace_at].
  - split; [reflexivity|]. intros [|m]; reflexivity.
  - destruct (IH f ltac:(lia)) as [H1 H2]. split; [cbn; lia|]. intros [|m]; [reflexivity|]. cbn. apply H2.
Qed.

Theorem replace_spec n e f :
  ((0 <= n < Z.of_nat (length f))%Z -> exists g, frag_replace n e f = Ok g /\ length g = length f /\
     forall m, nth_error g m = if m =? Z.to_nat n then Some e else nth_error f m) /\
  ((n < 0 \/ Z.of_nat (length f) < n)%Z -> frag_replace n e f = Err) /\
  (n = Z.of_nat (length f) -> frag_replace n e f = Panic).
Proof.
  unfold frag_replace. split; [|split].
  - intro H. assert ((n >? Z.of_nat (length f))%Z || (n <? 0)%Z = false) as -> by lia.
    assert ((n <? Z.of_nat (length f))%Z = true) as -> by lia.
    destruct (replace_at_nth (Z.to_nat n) e f ltac:(lia)) as [H1 H2]. eauto.
  - intro H. assert ((n >? Z.of_nat (length f))%Z || (n <? 0)%Z = true) as -> by lia. reflexivity.
  - intros ->. rewrite Z.ltb_irrefl, Z.gtb_ltb, Z.ltb_irrefl.
    destruct (Z.ltb_spec (Z.of_nat (length f)) 0); [lia | reflexivity].
Qed.
