(** Tags with quoted values are read as written. *)
From Coq Require Import String Ascii List Bool Arith ZArith Lia.
From Verif Require Import GoStr GoStrFacts Json JsonFacts MergeFacts Tag Spec_Tag Spec_TagQuote TagFacts TagText.
Import ListNotations.
Local Open Scope string_scope.
Local Open Scope nat_scope.
Local Open Scope list_scope.

(** ** Go string literals *)
Lemma scan_escape v rest : scan_quoted (go_escape v +++ String dquote rest) = Some (go_escape v, rest).
Proof.
  induction v as [|c r IH]; [reflexivity|]. cbn [go_escape]. destruct (Ascii.eqb c dquote) eqn:D; cbn [orb].
  - cbn [append scan_quoted]. change (Ascii.eqb backslash dquote) with false. change (Ascii.eqb backslash backslash) with true. cbn iota. now rewrite IH.
  - destruct (Ascii.eqb c backslash) eqn:B.
    + cbn [append scan_quoted]. change (Ascii.eqb backslash dquote) with false. change (Ascii.eqb backslash backslash) with true. cbn iota. now rewrite IH.
    + destruct (Ascii.eqb c (ascii_of_nat 10)).
      * cbn [append scan_quoted]. change (Ascii.eqb backslash dquote) with false. change (Ascii.eqb backslash backslash) with true. cbn iota. now rewrite IH.
      * cbn [append scan_quoted]. now rewrite D, B, IH.
Qed.
Lemma unquote_escape v : unquote (go_escape v) = Ok v.
Proof.
  assert (X : forall r, unquote (String backslash r) = match r with EmptyString => Err | String e t => unquote (String backslash (String e t)) end) by now intros [|].
  induction v as [|c r IH]; [reflexivity|]. cbn [go_escape]. destruct (Ascii.eqb_spec c dquote) as [-> |D]; cbn [orb].
  - cbn [unquote]. change (Ascii.eqb backslash (ascii_of_nat 10) || Ascii.eqb backslash dquote) with false. change (Ascii.eqb backslash backslash) with true.
    change (simple_escape dquote) with (Some dquote). cbn iota. now rewrite IH.
  - destruct (Ascii.eqb_spec c backslash) as [-> |B].
    + cbn [unquote]. change (Ascii.eqb backslash (ascii_of_nat 10) || Ascii.eqb backslash dquote) with false. change (Ascii.eqb backslash backslash) with true.
      change (simple_escape backslash) with (Some backslash). cbn iota. now rewrite IH.
    + destruct (Ascii.eqb_spec c (ascii_of_nat 10)) as [-> |N].
      * cbn [unquote]. change (Ascii.eqb backslash (ascii_of_nat 10) || Ascii.eqb backslash dquote) with false. change (Ascii.eqb backslash backslash) with true.
        change (simple_escape "n") with (Some (ascii_of_nat 10)). cbn iota. now rewrite IH.
      * cbn [unquote]. apply Ascii.eqb_neq in D, B, N. rewrite D, B, N. cbn [orb]. now rewrite IH.
Qed.

(** ** Quoted option values *)
Lemma drop_snoc s : drop_backslash (snoc s backslash) = Some s.
Proof.
  unfold snoc. induction s as [|c r IH]; [reflexivity|]. cbn [append]. unfold drop_backslash; fold drop_backslash.
  rewrite IH. destruct (r +++ str1 backslash) eqn:E; [destruct r; discriminate|]. reflexivity.
Qed.
Lemma drop_none s : (forall u, s <> u +++ str1 backslash) -> drop_backslash s = None.
Proof.
  induction s as [|c r IH]; intro H; [reflexivity|]. destruct r as [|d r].
  - unfold drop_backslash. destruct (Ascii.eqb_spec c backslash) as [-> |]; [|reflexivity]. now destruct (H "").
  - change (drop_backslash (String c (String d r))) with (option_map (String c) (drop_backslash (String d r))). rewrite IH; [reflexivity|]. intros u E. apply (H (String c u)). cbn [append]. now rewrite E.
Qed.
Lemma run_quoted k rest p v : forall b seg, (forall u, seg +++ v <> u +++ str1 backslash) ->
  prun (PQuoted k b seg) (single_escape v +++ String quote1 rest) p = prun PAfter rest (set_option k (b +++ seg +++ v) p).
Proof.
  induction v as [|c r IH]; intros b seg H.
  - rewrite app_nil_r_s in *. cbn [single_escape append prun pstep]. change (Ascii.eqb quote1 quote1) with true. cbn iota. now rewrite (drop_none seg H).
  - cbn [single_escape]. destruct (Ascii.eqb_spec c quote1) as [-> |N].
    + cbn [append prun pstep]. change (Ascii.eqb backslash quote1) with false. cbn iota. cbn [prun pstep]. change (Ascii.eqb quote1 quote1) with true. cbn iota. rewrite drop_snoc. cbn iota.
      rewrite IH; [|intros u E; apply (H (seg +++ String quote1 u)); rewrite app_assoc_s; cbn [append]; cbn [append] in E; now rewrite E].
      cbn [append]. now rewrite snoc_app, app_assoc_s.
    + apply Ascii.eqb_neq in N. cbn [append prun pstep]. rewrite N. rewrite IH; [now rewrite snoc_app|]. intros u. rewrite snoc_app. apply H.
Qed.
Definition wput (o : woption) (p : pst) : pst := put_opt (w_key o, trim_space (w_value o)) p.
Lemma set_quoted k v p : ps_named p = true -> plain k = true -> k <> "" -> set_option k v p = put_opt (k, trim_space v) p.
Proof. intros N Hk Nk. unfold set_option. rewrite (trim_plain k Hk), N. cbn [negb andb]. now destruct (String.eqb_spec k ""). Qed.
(** One option followed by a comma, or by the end. *)
Lemma run_wopt o p : ps_named p = true -> woption_ok o ->
  prun PSkip (woption_text o) p = wput o p /\ forall rest, prun PSkip (woption_text o +++ String "," rest) p = prun PSkip rest (wput o p).
Proof.
  intros N (Hk & Nk & Hv). unfold woption_text, wput. destruct (w_quoted o).
  - assert (G : forall rest, prun PSkip ((w_key o +++ ":" +++ str1 quote1 +++ single_escape (w_value o) +++ str1 quote1) +++ rest) p = prun PAfter rest (put_opt (w_key o, trim_space (w_value o)) p)).
    { intro rest. rewrite !app_assoc_s. rewrite run_skip by assumption. unfold str1. cbn [append prun pstep]. unfold key_step. change (Ascii.eqb ":" ",") with false. change (Ascii.eqb ":" ":") with true. cbn iota.
      cbn [prun pstep]. change (Ascii.eqb quote1 quote1) with true. cbn iota. rewrite run_quoted by exact Hv. cbn [append]. now rewrite set_quoted. }
    split; [rewrite <- (app_nil_r_s (w_key o +++ _)), G; reflexivity|]. intro rest. rewrite G. cbn [prun pstep]. change (Ascii.eqb "," ",") with true. reflexivity.
  - rewrite (trim_plain _ Hv). apply run_opt; [exact N|]. now repeat split.
Qed.
Lemma run_wopts o : forall p, ps_named p = true -> Forall woption_ok o -> o <> [] ->
  prun PSkip (join "," (map woption_text o)) p = fold_left (fun q kv => wput kv q) o p.
Proof.
  induction o as [|kv o IH]; intros p N H No; [congruence|]. inversion H as [|? ? Hkv Ho]; subst. cbn [map fold_left].
  destruct o as [|kv' o]; [exact (proj1 (run_wopt kv p N Hkv))|]. cbn [map]. rewrite join_cons. change ("," +++ join "," (woption_text kv' :: map woption_text o)) with (String "," (join "," (map woption_text (kv' :: o)))).
  rewrite (proj2 (run_wopt kv p N Hkv)). apply IH; [reflexivity | exact Ho | discriminate].
Qed.
Lemma fold_wput o : forall p, fold_left (fun q kv => wput kv q) o p = fold_left (fun q kv => put_opt kv q) (map (fun o => (w_key o, trim_space (w_value o))) o) p.
Proof. induction o as [|kv o IH]; intro p; cbn [fold_left map]; [reflexivity | apply IH]. Qed.
Lemma tagparser_wtext name o : plain name = true -> Forall woption_ok o ->
  tagparser_parse (join "," (name :: map woption_text o)) = {| pt_name := name; pt_options := woption_map o |}.
Proof.
  intros Hn Ho. destruct o as [|kv o]; [exact (tagparser_text name [] Hn (Forall_nil _))|]. unfold tagparser_parse.
  cbn [map]. rewrite join_cons. change ("," +++ join "," (woption_text kv :: map woption_text o)) with (String "," (join "," (map woption_text (kv :: o)))).
  rewrite run_key by exact Hn. cbn [append prun pstep]. unfold key_step. change (Ascii.eqb "," ",") with true. cbn iota.
  rewrite run_wopts; [|reflexivity|exact Ho|discriminate]. rewrite fold_wput, fold_put. unfold set_option. rewrite (trim_plain name Hn). reflexivity.
Qed.

(** ** structtag *)
Lemma value_split key v : (forall n, v <> n +++ ",") -> stag_value (stag_of key v) = v.
Proof.
  intro H. pose proof (join_split "," v) as J. unfold stag_of, stag_value. destruct (split_char "," v) as [|n o] eqn:E; [now apply split_char_nonempty in E|]. cbn [st_name st_options].
  destruct o as [|x o]; [exact J|]. rewrite join_cons in J. change (str1 ",") with "," in J. destruct (String.eqb_spec (join "," (x :: o)) "") as [X|X]; [|exact J].
  rewrite X in J. destruct (H n). symmetry. exact J.
Qed.
Lemma wopt_nonempty o : woption_ok o -> woption_text o <> "".
Proof.
  intros (_ & N & _) E. unfold woption_text, opt_text in E. destruct (w_key o); [congruence|]. destruct (w_quoted o); [discriminate|]. destruct (String.eqb _ _); discriminate.
Qed.
(** The text never ends in a comma. *)
Lemma wopt_end o : woption_ok o -> forall n, woption_text o <> n +++ ",".
Proof.
  assert (P : forall s n, plain s = true -> s <> n +++ ",").
  { intros s n Hs E. assert (has_char "," s = true) as C by (rewrite E, has_char_app; cbn; now rewrite orb_true_r). now rewrite (plain_no s "," Hs eq_refl) in C. }
  assert (Q : forall a b n x y, a +++ String x "" = n +++ String y "" -> b = x -> b <> y -> False).
  { intros a b n x y E -> N. revert n E. induction a as [|c a IH]; intros [|d n] E; cbn in E; injection E; intros; try congruence; try (destruct n; discriminate); try (destruct a; discriminate); exact (IH n ltac:(assumption)). }
  intros (Hk & Nk & Hv) n E. unfold woption_text in E. destruct (w_quoted o).
  - rewrite <- !app_assoc_s in E. apply (Q _ quote1 n quote1 ","%char E eq_refl). discriminate.
  - unfold opt_text in E. cbn [fst snd] in E. destruct (String.eqb_spec (w_value o) "") as [_|N]; [exact (P _ _ Hk E)|].
    assert (X : exists m, w_value o = m +++ ","). { clear -E N. rewrite <- app_assoc_s in E. revert E. generalize (w_key o +++ ":"). intro a. revert n. induction a as [|c a IH]; intros n E; cbn [append] in E; [eauto|].
      destruct n as [|d n]; cbn [append] in E; [injection E as _ E; destruct a; [cbn in E; congruence | discriminate]|]. injection E as _ E. exact (IH n E). }
    destruct X as (m & Em). exact (P _ m Hv Em).
Qed.
Lemma join_end l x : forall n, join "," (l ++ [x]) = n +++ "," -> x <> "" -> exists m, x = m +++ ",".
Proof.
  assert (Q : forall a b n, a +++ b = n +++ "," -> b <> "" -> exists m, b = m +++ ",").
  { intros a b. induction a as [|c a IH]; intros n E N; cbn [append] in E; [eauto|]. destruct n as [|d n]; cbn [append] in E; [injection E as _ E; destruct a; [cbn in E; congruence | discriminate]|]. injection E as _ E. exact (IH n E N). }
  induction l as [|y l IH]; intros n E N; [exists n; exact E|]. cbn [app] in E. destruct (l ++ [x]) as [|z l'] eqn:El; [destruct l; discriminate|]. rewrite join_cons in E.
  rewrite <- app_assoc_s in E. apply Q in E as (m & E); [exact (IH m E N)|]. intro X. rewrite X in IH. clear -X El N. revert z l' El X. induction l as [|w l IH]; intros z l' El X; cbn in El.
  - injection El as -> <-. cbn in X. congruence.
  - injection El as -> <-. destruct (l ++ [x]) as [|z' l''] eqn:E2; [destruct l; discriminate|]. rewrite join_cons in X. destruct z; discriminate.
Qed.
Lemma wvalue_end name o : plain name = true -> Forall woption_ok o -> forall n, join "," (name :: map woption_text o) <> n +++ ",".
Proof.
  intros Hn Ho n E. destruct o as [|kv o] using rev_ind.
  - cbn [map] in E. change (join "," [name]) with name in E. assert (has_char "," name = true) as C by (rewrite E, has_char_app; cbn; now rewrite orb_true_r). now rewrite (plain_no name "," Hn eq_refl) in C.
  - clear IHo. apply Forall_app in Ho as [_ Ho]. inversion Ho as [|? ? Hk _]; subst. rewrite map_app in E. cbn [map] in E. change (name :: map woption_text o ++ [woption_text kv]) with ((name :: map woption_text o) ++ [woption_text kv]) in E.
    apply join_end in E as (m & E); [exact (wopt_end kv Hk m E) | exact (wopt_nonempty kv Hk)].
Qed.
(** An entry KEY:"..." whose value is any text, written as a Go string. *)
Lemma stags_any fuel k v rest : plain k = true -> k <> "" ->
  stags_fuel (S fuel) (k +++ ":" +++ str1 dquote +++ go_escape v +++ str1 dquote +++ rest) = do l <- stags_fuel fuel rest ; Ok (stag_of k v :: l).
Proof.
  intros Hk Nk. unfold str1. change (":" +++ String dquote "" +++ go_escape v +++ String dquote "" +++ rest) with (String ":" (String dquote (go_escape v +++ String dquote rest))).
  cbn [stags_fuel]. replace (trim_left is_sp (k +++ String ":" (String dquote (go_escape v +++ String dquote rest)))) with (k +++ String ":" (String dquote (go_escape v +++ String dquote rest))).
  2:{ destruct k as [|c r]; [congruence|]. cbn in Hk. apply andb_true_iff in Hk as [Hc _]. cbn [append trim_left]. unfold is_sp. now destruct (plain_char_facts c Hc) as (_ & _ & _ & _ & _ & -> & _). }
  destruct (k +++ String ":" (String dquote (go_escape v +++ String dquote rest))) as [|c0 r0] eqn:E0; [destruct k; discriminate|]. rewrite <- E0.
  rewrite span_key by exact Hk. destruct k as [|c r]; [congruence|]. cbn [Ascii.eqb negb]. change (Ascii.eqb ":" ":") with true. change (Ascii.eqb dquote dquote) with true. cbn [negb].
  rewrite scan_escape, unquote_escape. reflexivity.
Qed.
Definition read_wentry (e : wentry) : stag := stag_of (we_key e) (join "," (we_name e :: map woption_text (we_opts e))).
Lemma stags_wtext l : forall fuel, Forall wentry_ok l -> length l <= fuel -> stags_fuel fuel (wtag_text l) = Ok (map read_wentry l).
Proof.
  unfold wtag_text. induction l as [|e l IH]; intros fuel H L; [now destruct fuel|]. inversion H as [|? ? He Hl]; subst. cbn [length] in L. destruct fuel as [|fuel]; [lia|].
  destruct He as (Hk & Nk & _). destruct l as [|e' l].
  - cbn [map]. change (join " " [wentry_text e]) with (wentry_text e). rewrite <- (app_nil_r_s (wentry_text e)). unfold wentry_text. rewrite !app_assoc_s. rewrite stags_any by assumption. now destruct fuel.
  - cbn [map]. rewrite join_cons. unfold wentry_text at 1. rewrite !app_assoc_s. rewrite stags_any by assumption. cbn [map] in IH.
    replace (stags_fuel fuel (" " +++ join " " (wentry_text e' :: map wentry_text l))) with (stags_fuel fuel (join " " (wentry_text e' :: map wentry_text l))); [|now destruct fuel].
    rewrite IH; [reflexivity | exact Hl | cbn [length] in *; lia].
Qed.
Lemma wtag_text_length l : length l <= String.length (wtag_text l).
Proof.
  unfold wtag_text. induction l as [|e l IH]; [cbn; lia|].
  assert (1 <= String.length (wentry_text e)) as L. { unfold wentry_text. rewrite app_length_s. cbn. lia. }
  destruct l as [|e' l]; [cbn; lia|]. cbn [map] in *. rewrite join_cons, !app_length_s. cbn [length String.length] in *. lia.
Qed.
Theorem part_wtext l key : Forall wentry_ok l -> l <> [] ->
  part key (wtag_text l) = match find (fun e => String.eqb (we_key e) key) l with
                           | Some e => Some {| pt_name := we_name e; pt_options := woption_map (we_opts e) |}
                           | None => None
                           end.
Proof.
  intros H N. unfold part, stags_parse. rewrite stags_wtext by (exact H || apply wtag_text_length). cbn [bind].
  destruct l as [|e0 l0] eqn:El; [congruence|]. rewrite <- El in *. clear N. replace (match map read_wentry l with [] => Ok (if String.eqb (wtag_text l) "" then Some [] else None) | _ => Ok (Some (map read_wentry l)) end) with (Ok (Some (map read_wentry l))) by (rewrite El; reflexivity).
  clear El. unfold sub_tag, stags_get. induction H as [|e l He Hl IH]; [reflexivity|]. cbn [map find].
  assert (st_key (read_wentry e) = we_key e) as -> by (unfold read_wentry, stag_of; destruct (split_char _ _); reflexivity).
  destruct (String.eqb (we_key e) key); [|exact IH]. destruct He as (Hk & Nk & Hn & Ho). unfold read_wentry. rewrite value_split by now apply wvalue_end. now rewrite tagparser_wtext.
Qed.
