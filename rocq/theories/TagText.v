(** Plainly written tags are read as written. *)
From Coq Require Import String Ascii List Bool Arith ZArith Lia.
From Verif Require Import GoStr GoStrFacts Json JsonFacts MergeFacts Tag Spec_Tag TagFacts.
Import ListNotations.
Local Open Scope string_scope.
Local Open Scope nat_scope.
Local Open Scope list_scope.

Lemma plain_char_facts c : plain_char c = true ->
  Ascii.eqb c "," = false /\ Ascii.eqb c ":" = false /\ Ascii.eqb c quote1 = false /\ Ascii.eqb c backslash = false /\ Ascii.eqb c "(" = false /\
  Ascii.eqb c " " = false /\ is_space c = false /\ key_char c = true /\ Ascii.eqb c dquote = false /\ Ascii.eqb c (ascii_of_nat 10) = false.
Proof. destruct c as [[] [] [] [] [] [] [] []]; cbn; intro H; try discriminate H; repeat split. Qed.
Lemma plain_no s c : plain s = true -> plain_char c = false -> has_char c s = false.
Proof.
  induction s as [|d r IH]; cbn; [reflexivity|]. intros H Hc. apply andb_true_iff in H as [Hd Hr]. apply orb_false_iff. split; [|auto].
  destruct (Ascii.eqb_spec c d) as [-> |]; [congruence | reflexivity].
Qed.
Lemma trim_plain s : plain s = true -> trim_space s = s.
Proof.
  intro H. unfold trim_space, trim. assert (L : forall s, plain s = true -> trim_left is_space s = s).
  { intros [|c r] Hs; [reflexivity|]. cbn in *. apply andb_true_iff in Hs as [Hc _]. now destruct (plain_char_facts c Hc) as (_ & _ & _ & _ & _ & _ & -> & _). }
  rewrite L by exact H. clear L. induction s as [|c r IH]; [reflexivity|]. cbn in H. apply andb_true_iff in H as [Hc Hr]. cbn [trim_right]. rewrite (IH Hr).
  destruct (plain_char_facts c Hc) as (_ & _ & _ & _ & _ & _ & -> & _). now destruct r.
Qed.

(** ** tagparser *)
Lemma snoc_app b c s : snoc b c +++ s = b +++ String c s.
Proof. unfold snoc, str1. now rewrite app_assoc_s. Qed.
Lemma run_key s : forall b rest p, plain s = true -> prun (PKey b) (s +++ rest) p = prun (PKey (b +++ s)) rest p.
Proof.
  induction s as [|c r IH]; intros b rest p H; [now rewrite app_nil_r_s|]. cbn in H. apply andb_true_iff in H as [Hc Hr].
  destruct (plain_char_facts c Hc) as (A & B & C & _). cbn [append prun pstep]. unfold key_step. rewrite A, B, C. rewrite IH by exact Hr. now rewrite snoc_app.
Qed.
Lemma run_val k s : forall b rest p, plain s = true -> prun (PVal k b) (s +++ rest) p = prun (PVal k (b +++ s)) rest p.
Proof.
  induction s as [|c r IH]; intros b rest p H; [now rewrite app_nil_r_s|]. cbn in H. apply andb_true_iff in H as [Hc Hr].
  destruct (plain_char_facts c Hc) as (A & B & C & D & E & _). cbn [append prun pstep]. unfold val_step. rewrite D, E, A. rewrite IH by exact Hr. now rewrite snoc_app.
Qed.
Lemma run_skip s rest p : plain s = true -> s <> "" -> prun PSkip (s +++ rest) p = prun (PKey s) rest p.
Proof.
  intros H N. destruct s as [|c r]; [congruence|]. pose proof H as H0. cbn in H. apply andb_true_iff in H as [Hc Hr].
  destruct (plain_char_facts c Hc) as (A & B & C & D & E & G & _). cbn [append prun pstep]. rewrite G. unfold key_step. rewrite A, B, C. rewrite run_key by exact Hr. reflexivity.
Qed.
Lemma run_val0 k s rest p : plain s = true -> s <> "" -> prun (PVal0 k) (s +++ rest) p = prun (PVal k s) rest p.
Proof.
  intros H N. destruct s as [|c r]; [congruence|]. pose proof H as H0. cbn in H. apply andb_true_iff in H as [Hc Hr].
  destruct (plain_char_facts c Hc) as (A & B & C & D & E & G & _). cbn [append prun pstep]. rewrite C. unfold val_step. rewrite D, E, A. rewrite run_val by exact Hr. reflexivity.
Qed.
Definition ok_opt (kv : string * string) : Prop := plain (fst kv) = true /\ fst kv <> "" /\ plain (snd kv) = true.
Definition put_opt (kv : string * string) (p : pst) : pst :=
  {| ps_tag := {| pt_name := pt_name (ps_tag p); pt_options := oset (fst kv) (snd kv) (pt_options (ps_tag p)) |}; ps_named := true |}.
Lemma set_plain_opt k v p : ps_named p = true -> plain k = true -> k <> "" -> plain v = true -> set_option k v p = put_opt (k, v) p.
Proof. intros N Hk Nk Hv. unfold set_option. rewrite (trim_plain k Hk), (trim_plain v Hv), N. cbn [negb andb]. now destruct (String.eqb_spec k ""). Qed.
Lemma set_plain_flag v p : ps_named p = true -> plain v = true -> set_option "" v p = put_opt (v, "") p.
Proof. intros N Hv. unfold set_option. rewrite (trim_plain v Hv), N. reflexivity. Qed.
(** One option followed by a comma, or by the end. *)
Lemma run_opt kv p : ps_named p = true -> ok_opt kv ->
  prun PSkip (opt_text kv) p = put_opt kv p /\ forall rest, prun PSkip (opt_text kv +++ String "," rest) p = prun PSkip rest (put_opt kv p).
Proof.
  intros N (Hk & Nk & Hv). destruct kv as [k v]. cbn [fst snd] in *. unfold opt_text. cbn [fst snd]. destruct (String.eqb_spec v "") as [-> |Nv].
  - split.
    + rewrite <- (app_nil_r_s k) at 1. rewrite run_skip by assumption. cbn [prun pend]. destruct (String.eqb_spec k ""); [contradiction|]. now apply set_plain_flag.
    + intro rest. rewrite run_skip by assumption. cbn [prun pstep]. unfold key_step. cbn [Ascii.eqb]. change (Ascii.eqb "," ",") with true. cbn iota. now rewrite set_plain_flag.
  - split.
    + rewrite run_skip by assumption. cbn [append prun pstep]. unfold key_step. change (Ascii.eqb ":" ",") with false. change (Ascii.eqb ":" ":") with true. cbn iota.
      rewrite <- (app_nil_r_s v) at 1. rewrite run_val0 by assumption. cbn [prun pend]. now apply set_plain_opt.
    + intro rest. rewrite !app_assoc_s. rewrite run_skip by assumption. cbn [append prun pstep]. unfold key_step. change (Ascii.eqb ":" ",") with false. change (Ascii.eqb ":" ":") with true. cbn iota.
      rewrite run_val0 by assumption. cbn [prun pstep]. unfold val_step. change (Ascii.eqb "," backslash) with false. change (Ascii.eqb "," "(") with false. change (Ascii.eqb "," ",") with true. cbn iota. now rewrite set_plain_opt.
Qed.
Lemma run_opts o : forall p, ps_named p = true -> Forall ok_opt o -> o <> [] ->
  prun PSkip (join "," (map opt_text o)) p = fold_left (fun q kv => put_opt kv q) o p.
Proof.
  induction o as [|kv o IH]; intros p N H No; [congruence|]. inversion H as [|? ? Hkv Ho]; subst. cbn [map fold_left].
  destruct o as [|kv' o]; [exact (proj1 (run_opt kv p N Hkv))|]. cbn [map]. rewrite join_cons. change ("," +++ join "," (opt_text kv' :: map opt_text o)) with (String "," (join "," (map opt_text (kv' :: o)))).
  rewrite (proj2 (run_opt kv p N Hkv)). apply IH; [reflexivity | exact Ho | discriminate].
Qed.
Lemma fold_put o : forall p, ps_tag (fold_left (fun q kv => put_opt kv q) o p) =
  {| pt_name := pt_name (ps_tag p); pt_options := fold_left (fun m kv => oset (fst kv) (snd kv) m) o (pt_options (ps_tag p)) |}.
Proof. induction o as [|kv o IH]; intro p; cbn [fold_left]; [now destruct (ps_tag p)|]. rewrite IH. reflexivity. Qed.
Lemma tagparser_text name o : plain name = true -> Forall ok_opt o ->
  tagparser_parse (value_text name o) = {| pt_name := name; pt_options := opt_map o |}.
Proof.
  intros Hn Ho. unfold tagparser_parse, value_text. destruct o as [|kv o].
  - cbn [map join]. change (join "," [name]) with name. rewrite <- (app_nil_r_s name) at 1. rewrite run_key by exact Hn. cbn [prun pend append].
    destruct (String.eqb_spec name "") as [-> |N]; [reflexivity|]. unfold set_option. rewrite (trim_plain name Hn). reflexivity.
  - cbn [map]. rewrite join_cons. change ("," +++ join "," (opt_text kv :: map opt_text o)) with (String "," (join "," (map opt_text (kv :: o)))).
    rewrite run_key by exact Hn. cbn [append prun pstep]. unfold key_step. change (Ascii.eqb "," ",") with true. cbn iota.
    rewrite run_opts; [|reflexivity|exact Ho|discriminate]. rewrite fold_put. unfold set_option. rewrite (trim_plain name Hn). reflexivity.
Qed.

(** ** structtag *)
Definition value_char (c : ascii) : bool := plain_char c || Ascii.eqb c "," || Ascii.eqb c ":".
Fixpoint value_chars (s : string) : bool := match s with EmptyString => true | String c r => value_char c && value_chars r end.
Lemma value_chars_app a b : value_chars (a +++ b) = value_chars a && value_chars b.
Proof. induction a as [|c a IH]; [reflexivity|]. cbn. now rewrite IH, andb_assoc. Qed.
Lemma plain_value s : plain s = true -> value_chars s = true.
Proof. induction s as [|c r IH]; [reflexivity|]. cbn. intro H. apply andb_true_iff in H as [Hc Hr]. unfold value_char. now rewrite Hc, IH. Qed.
Lemma opt_value kv : ok_opt kv -> value_chars (opt_text kv) = true.
Proof.
  intros (Hk & _ & Hv). unfold opt_text. destruct (String.eqb (snd kv) ""); [now apply plain_value|]. rewrite value_chars_app, plain_value by exact Hk.
  cbn [append value_chars]. rewrite plain_value by exact Hv. reflexivity.
Qed.
Lemma value_text_chars name o : plain name = true -> Forall ok_opt o -> value_chars (value_text name o) = true.
Proof.
  intros Hn Ho. unfold value_text. assert (Forall (fun s => value_chars s = true) (name :: map opt_text o)) as H.
  { constructor; [now apply plain_value|]. apply Forall_map. eapply Forall_impl; [|exact Ho]. exact opt_value. }
  revert H. generalize (name :: map opt_text o). induction l as [|x [|y l] IH]; intro H; [reflexivity|inversion H; subst; assumption|]. inversion H; subst.
  rewrite join_cons, value_chars_app. cbn [append value_chars]. rewrite IH by assumption. match goal with E : value_chars x = true |- _ => rewrite E end. reflexivity.
Qed.
Lemma value_char_facts c : value_char c = true -> Ascii.eqb c dquote = false /\ Ascii.eqb c backslash = false /\ Ascii.eqb c (ascii_of_nat 10) = false.
Proof. destruct c as [[] [] [] [] [] [] [] []]; cbn; intro H; try discriminate H; repeat split. Qed.
Lemma scan_value v rest : value_chars v = true -> scan_quoted (v +++ String dquote rest) = Some (v, rest).
Proof.
  induction v as [|c r IH]; [reflexivity|]. cbn [value_chars]. intro H. apply andb_true_iff in H as [Hc Hr]. destruct (value_char_facts c Hc) as (A & B & _).
  cbn [append scan_quoted]. now rewrite A, B, (IH Hr).
Qed.
Lemma unquote_value v : value_chars v = true -> unquote v = Ok v.
Proof.
  induction v as [|c r IH]; [reflexivity|]. cbn [value_chars]. intro H. apply andb_true_iff in H as [Hc Hr]. destruct (value_char_facts c Hc) as (A & B & C).
  cbn [unquote]. rewrite A, B, C. cbn [orb]. now rewrite (IH Hr).
Qed.
Lemma span_key k rest : plain k = true -> span key_char (k +++ String ":" rest) = (k, String ":" rest).
Proof.
  induction k as [|c r IH]; [reflexivity|]. cbn. intro H. apply andb_true_iff in H as [Hc Hr]. destruct (plain_char_facts c Hc) as (_ & _ & _ & _ & _ & _ & _ & -> & _). now rewrite (IH Hr).
Qed.
Lemma entry_start e rest : plain_entry e -> trim_left is_sp (entry_text e +++ rest) = entry_text e +++ rest /\ entry_text e +++ rest <> "".
Proof.
  intros (Hk & Nk & _). unfold entry_text. destruct (e_key e) as [|c r]; [congruence|]. cbn in Hk. apply andb_true_iff in Hk as [Hc _].
  cbn [append trim_left]. unfold is_sp. destruct (plain_char_facts c Hc) as (_ & _ & _ & _ & _ & -> & _). split; [reflexivity | discriminate].
Qed.
Definition read_entry (e : entry) : stag := stag_of (e_key e) (value_text (e_name e) (e_opts e)).
Lemma stags_entry fuel e rest : plain_entry e -> stags_fuel (S fuel) (entry_text e +++ rest) = do l <- stags_fuel fuel rest ; Ok (read_entry e :: l).
Proof.
  intro He. destruct (entry_start e rest He) as [Et Ne]. destruct He as (Hk & Nk & Hn & Ho). cbn [stags_fuel]. rewrite Et.
  destruct (entry_text e +++ rest) as [|c0 r0] eqn:E0; [congruence|]. rewrite <- E0. clear Et Ne E0 c0 r0. unfold entry_text. rewrite !app_assoc_s. unfold str1.
  change (":" +++ String dquote "" +++ value_text (e_name e) (e_opts e) +++ String dquote "" +++ rest) with (String ":" (String dquote (value_text (e_name e) (e_opts e) +++ String dquote rest))).
  rewrite span_key by exact Hk. destruct (e_key e) as [|k ks] eqn:Ek; [congruence|]. cbn [Ascii.eqb negb]. change (Ascii.eqb ":" ":") with true. change (Ascii.eqb dquote dquote) with true. cbn [negb].
  pose proof (value_text_chars (e_name e) (e_opts e) Hn Ho) as Hv. rewrite scan_value by exact Hv. rewrite unquote_value by exact Hv. cbn [bind]. unfold read_entry. now rewrite Ek.
Qed.
Lemma stags_text l : forall fuel, Forall plain_entry l -> length l <= fuel -> stags_fuel fuel (tag_text l) = Ok (map read_entry l).
Proof.
  unfold tag_text. induction l as [|e l IH]; intros fuel H L; [now destruct fuel|]. inversion H as [|? ? He Hl]; subst. cbn [length] in L. destruct fuel as [|fuel]; [lia|].
  destruct l as [|e' l].
  - cbn [map]. change (join " " [entry_text e]) with (entry_text e). rewrite <- (app_nil_r_s (entry_text e)). rewrite stags_entry by exact He. now destruct fuel.
  - cbn [map]. rewrite join_cons, stags_entry by exact He. cbn [map] in IH.
    replace (stags_fuel fuel (" " +++ join " " (entry_text e' :: map entry_text l))) with (stags_fuel fuel (join " " (entry_text e' :: map entry_text l))); [|now destruct fuel].
    rewrite IH; [reflexivity | exact Hl | cbn [length] in *; lia].
Qed.
Lemma tag_text_length l : Forall plain_entry l -> length l <= String.length (tag_text l).
Proof.
  unfold tag_text. induction l as [|e l IH]; intro H; [cbn; lia|]. inversion H as [|? ? He Hl]; subst. specialize (IH Hl).
  assert (1 <= String.length (entry_text e)) as L. { unfold entry_text. rewrite app_length_s. cbn. lia. }
  destruct l as [|e' l]; [cbn; lia|]. cbn [map] in *. rewrite join_cons, !app_length_s. cbn [length String.length] in *. lia.
Qed.
Lemma stag_value_text key name o : plain name = true -> Forall ok_opt o -> stag_value (stag_of key (value_text name o)) = value_text name o.
Proof.
  intros Hn Ho. assert (Hc : has_char "," name = false) by (apply plain_no; [exact Hn | reflexivity]).
  assert (Hf : Forall (fun s => has_char "," s = false) (map opt_text o)).
  { apply Forall_map. eapply Forall_impl; [|exact Ho]. intros kv (Hk & _ & Hv). unfold opt_text. destruct (String.eqb (snd kv) ""); [now apply plain_no|].
    rewrite !has_char_app. rewrite (plain_no _ "," Hk eq_refl), (plain_no _ "," Hv eq_refl). reflexivity. }
  unfold stag_of, value_text. change (join "," (name :: map opt_text o)) with (join (str1 ",") (name :: map opt_text o)). rewrite (split_join "," (name :: map opt_text o)); [|discriminate | now constructor].
  unfold stag_value. cbn [st_name st_options]. destruct o as [|kv o]; [reflexivity|]. cbn [map].
  assert (join "," (opt_text kv :: map opt_text o) <> "") as N.
  { inversion Ho as [|? ? (Hk & Nk & Hv) _]; subst. assert (opt_text kv <> "") as X. { unfold opt_text. destruct (String.eqb (snd kv) ""); [exact Nk|]. destruct (fst kv); [congruence | discriminate]. }
    destruct (map opt_text o); [exact X|]. rewrite join_cons. destruct (opt_text kv); [congruence | discriminate]. }
  destruct (String.eqb_spec (join "," (opt_text kv :: map opt_text o)) ""); [contradiction|]. now rewrite join_cons.
Qed.
(** The part of a plainly written tag is the first entry with the key. *)
Theorem part_text l key : Forall plain_entry l -> l <> [] ->
  part key (tag_text l) = match find (fun e => String.eqb (e_key e) key) l with
                          | Some e => Some {| pt_name := e_name e; pt_options := opt_map (e_opts e) |}
                          | None => None
                          end.
Proof.
  intros H N. unfold part, stags_parse. rewrite stags_text by (exact H || now apply tag_text_length). cbn [bind].
  destruct l as [|e0 l0] eqn:El; [congruence|]. rewrite <- El in *. clear N. replace (match map read_entry l with [] => Ok (if String.eqb (tag_text l) "" then Some [] else None) | _ => Ok (Some (map read_entry l)) end) with (Ok (Some (map read_entry l))) by (rewrite El; reflexivity).
  clear El. unfold sub_tag, stags_get. induction H as [|e l He Hl IH]; [reflexivity|]. cbn [map find].
  assert (st_key (read_entry e) = e_key e) as -> by (unfold read_entry, stag_of; destruct (split_char _ _); reflexivity).
  destruct (String.eqb (e_key e) key); [|exact IH]. destruct He as (Hk & Nk & Hn & Ho). unfold read_entry. now rewrite stag_value_text, tagparser_text.
Qed.
