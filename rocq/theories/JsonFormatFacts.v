(** Formatting a document: compact, indented, and as a Go constant. *)
From Coq Require Import String Ascii List Bool Arith ZArith Permutation Sorted Lia.
From Verif Require Import GoStr GoStrFacts Json JsonFacts Gabs Container MergeFacts ContFacts Spec_Clone Spec_Go JsonText JsonTextFacts JsonReadFacts.
Import ListNotations.
Local Open Scope string_scope.
Local Open Scope nat_scope.
Local Open Scope list_scope.

Definition tight (w : string) : Prop := w = "".
Lemma tight_ws w : tight w -> ws w.
Proof. now intros ->. Qed.

(** ** Maps *)
Lemma map_of_acc l : forall acc, sorted acc -> sorted (fold_left (fun m kv => oset (fst kv) (snd kv) m) l acc : list (string * json)).
Proof. induction l as [|[k v] l IH]; intros acc S; cbn; [exact S|]. apply IH. now apply sorted_oset. Qed.
Lemma map_of_get (l : list (string * json)) : forall acc k, NoDup (keys l) ->
  oget k (fold_left (fun m kv => oset (fst kv) (snd kv) m) l acc) = match oget k l with Some v => Some v | None => oget k acc end.
Proof.
  induction l as [|[k' v] l IH]; intros acc k N; cbn; [reflexivity|]. inversion N as [|? ? Ni N']; subst. rewrite (IH _ _ N').
  destruct (String.eqb_spec k k') as [->|Ne].
  - destruct (oget k' l) eqn:E; [|now rewrite oget_oset_same]. elim Ni. apply oget_in in E. now apply (in_map fst) in E.
  - rewrite oget_oset_other by congruence. reflexivity.
Qed.
Lemma map_of_perm l m : sorted m -> Permutation l m -> map_of l = m.
Proof.
  intros S P. assert (N : NoDup (keys l)) by (apply (Permutation_NoDup (l := keys m)); [apply Permutation_sym; now apply Permutation_map | now apply sorted_nodup]).
  apply obj_ext; [now apply map_of_acc | exact S|]. intro k. unfold map_of. rewrite (map_of_get l [] k N). cbn.
  destruct (oget k l) as [v|] eqn:E.
  - symmetry. apply sorted_in_oget; [exact S|]. eapply Permutation_in; [exact P | now apply oget_in].
  - destruct (oget k m) as [v|] eqn:E'; [|reflexivity]. apply oget_in in E'. apply (Permutation_in _ (Permutation_sym P)) in E'.
    rewrite (in_oget _ _ _ N E') in E. discriminate.
Qed.

(** ** json.Marshal *)
Section Marshal.
  Context (pn : num -> option string) (rd : string -> option num).
  (** The number is written as a JSON number that reads back as itself. *)
  Definition num_ok (n : num) : Prop := exists t, pn n = Some t /\ is_number t = true /\ rd t = Some n.
  Local Notation clay := (lay rd tight).

  Lemma number_clean t : is_number t = true -> hclean t /\ asc_head t = true.
  Proof.
    intro H. destruct (number_chars t H) as (Ht & c & r & E & S). split.
    - apply calm_clean. clear -Ht. induction t as [|d t IH]; [reflexivity|]. cbn [all] in *. apply andb_true_iff in Ht as (Hd & Ht). rewrite (IH Ht), andb_true_r.
      assert (K : forall c, (if num_char c then calm c else true) = true) by bytes. specialize (K d). now rewrite Hd in K.
    - subst. cbn. assert (K : forall c, (if num_start c then asc c else true) = true) by bytes. specialize (K c). now rewrite S in K.
  Qed.
  Definition piece (j : json) (t : string) : Prop := clay j t /\ hclean t /\ asc_head t = true.

  Lemma join_cons t ts : join "," (t :: ts) = match ts with [] => t | _ => t +++ String "," (join "," ts) end.
  Proof. destruct ts; reflexivity. Qed.
  Lemma clean_char c : calm c = true -> hclean (str1 c).
  Proof. intro H. apply calm_clean. cbn. now rewrite H. Qed.
  Lemma clean_cons c t : calm c = true -> hclean t -> hclean (String c t).
  Proof.
    intros H Ht rest R. cbn [append]. rewrite esc_cons; [|intros; apply line_sep_asc; left; unfold calm in H; now apply andb_true_iff in H].
    rewrite (Ht rest R). unfold html1. unfold calm in H. apply andb_true_iff in H as (_ & H). apply negb_true_iff in H. now rewrite H.
  Qed.
  Lemma clean_mid a c b : hclean a -> calm c = true -> hclean b -> hclean (a +++ String c b).
  Proof.
    intros Ha Hc Hb. apply clean_app; [exact Ha | now apply clean_cons|]. right. unfold asc_head. unfold calm in Hc. now apply andb_true_iff in Hc.
  Qed.
  Lemma clean_nil : hclean "".
  Proof. intros rest _. reflexivity. Qed.
  Lemma clean_join ts : Forall hclean ts -> hclean (join "," ts).
  Proof.
    induction 1 as [|t ts Ht _ IH]; [exact clean_nil|]. rewrite join_cons. destruct ts as [|t' ts]; [exact Ht|]. now apply clean_mid.
  Qed.
  Lemma lays_join l ts : l <> [] -> Forall2 clay l ts -> lays rd tight l (join "," ts +++ "]").
  Proof.
    intros N F. induction F as [|x t l ts Hx F IH]; [now elim N|]. rewrite join_cons. destruct F as [|x' t' l ts Hx' F].
    - pose proof (lays_one rd tight "" "" x t eq_refl eq_refl Hx) as K. exact K.
    - rewrite app_assoc_s. cbn [append]. pose proof (lays_cons rd tight "" "" x t _ _ eq_refl eq_refl Hx (IH ltac:(discriminate))) as K. exact K.
  Qed.
  (** Members: a quoted key, a colon, a value. *)
  Definition member (kx : string * json) (t : string) : Prop :=
    exists q tx, t = String DQ (q +++ String ":" tx) /\ strlit (fst kx) q /\ clay (snd kx) tx.
  Lemma laym_join m ts : m <> [] -> Forall2 member m ts -> laym rd tight m (join "," ts +++ "}").
  Proof.
    intros N F. induction F as [|[k x] t m ts (q & tx & -> & Hq & Hx) F IH]; [now elim N|]. cbn [fst snd] in *. rewrite join_cons. destruct F as [|x' t' l ts Hx' F].
    - pose proof (laym_one rd tight "" "" "" "" k q x tx eq_refl eq_refl eq_refl eq_refl Hq Hx) as K. cbn [append] in K |- *. rewrite app_assoc_s. exact K.
    - cbn [append]. rewrite ?app_assoc_s. cbn [append]. rewrite ?app_assoc_s. cbn [append]. rewrite ?app_assoc_s. cbn [append].
      pose proof (laym_cons rd tight "" "" "" "" k q x tx _ _ eq_refl eq_refl eq_refl eq_refl Hq Hx (IH ltac:(discriminate))) as K. exact K.
  Qed.
  Lemma strlit_jquote s : strlit s (escape_by jesc1 s +++ str1 DQ).
  Proof. intro r. rewrite app_assoc_s. apply read_jquote. Qed.

  Lemma numbers_arr x l n : In n (numbers (JArr (x :: l))) <-> In n (numbers x) \/ In n (numbers (JArr l)).
  Proof. cbn. rewrite in_app_iff. reflexivity. Qed.
  Lemma numbers_obj k x l n : In n (numbers (JObj ((k, x) :: l))) <-> In n (numbers x) \/ In n (numbers (JObj l)).
  Proof. cbn. rewrite in_app_iff. reflexivity. Qed.

  Theorem marshal_piece j : wf j -> (forall n, In n (numbers j) -> num_ok n) -> exists t, marshal pn j = Ok t /\ piece j t.
  Proof.
    induction j as [|b|n|s|l IH|m IH] using json_induction; intros Hw Hn.
    - exists "null". split; [reflexivity|]. split; [constructor|]. split; [now apply calm_clean | reflexivity].
    - exists (if b then "true" else "false"). split; [now destruct b|]. destruct b; (split; [constructor|]; split; [now apply calm_clean | reflexivity]).
    - destruct (Hn n (or_introl eq_refl)) as (t & E & N & R). exists t. cbn [marshal]. rewrite E. split; [reflexivity|]. split; [now constructor | now apply number_clean].
    - exists (jquote s). split; [reflexivity|]. split; [constructor; apply strlit_jquote|]. split; [apply clean_jquote | reflexivity].
    - apply wf_arr in Hw.
      assert (K : exists ts, (fix go (l : list json) : res (list string) :=
                            match l with [] => Ok [] | x :: r => do t <- marshal pn x ; do ts <- go r ; Ok (t :: ts) end) l = Ok ts /\ Forall2 piece l ts).
      { induction IH as [|x l Hx F IHl]; [now exists []|]. inversion Hw as [|? ? Wx Wl]; subst.
        destruct (Hx Wx) as (t & -> & Pt); [intros n H; apply Hn; apply numbers_arr; now left|].
        destruct (IHl Wl) as (ts & E & Pts); [intros n H; apply Hn; apply numbers_arr; now right|]. exists (t :: ts). cbn [bind]. rewrite E. split; [reflexivity | now constructor]. }
      destruct K as (ts & E & F). exists (bracket "[" ts "]"). cbn [marshal]. rewrite E. split; [reflexivity|].
      assert (C : Forall hclean ts) by (clear -F; induction F as [|? ? ? ? (_ & H & _)]; constructor; auto).
      split; [|split; [|reflexivity]].
      + unfold bracket. destruct l as [|x l].
        * inversion F; subst. exact (lay_arr0 rd tight "" eq_refl).
        * apply lay_arr. apply lays_join; [discriminate|]. clear -F. induction F as [|? ? ? ? (H & _)]; constructor; auto.
      + unfold bracket. apply clean_cons; [reflexivity|]. apply clean_mid; [now apply clean_join | reflexivity | exact clean_nil].
    - apply wf_obj in Hw as (Hs & Hw).
      assert (K : exists ts, (fix go (m : list (string * json)) : res (list string) :=
                            match m with [] => Ok [] | (k, x) :: r => do t <- marshal pn x ; do ts <- go r ; Ok ((jquote k +++ ":" +++ t) :: ts) end) m = Ok ts /\
                Forall2 member m ts /\ Forall hclean ts).
      { clear Hs. induction IH as [|[k x] m Hx F IHm]; [exists []; repeat split; constructor|]. inversion Hw as [|? ? Wx Wm]; subst.
        destruct (Hx Wx) as (t & Et & (Lt & Ct & At)); [intros n H; apply Hn; apply numbers_obj; now left|]. cbn [snd] in Et, Lt. rewrite Et.
        destruct (IHm Wm) as (ts & E & Pts & Cts); [intros n H; apply Hn; apply numbers_obj; now right|]. exists ((jquote k +++ ":" +++ t) :: ts). cbn [bind]. rewrite E. split; [reflexivity|]. split.
        - constructor; [|exact Pts]. exists (escape_by jesc1 k +++ str1 DQ), t. split; [reflexivity|]. split; [apply strlit_jquote | exact Lt].
        - constructor; [|exact Cts]. apply clean_mid; [apply clean_jquote | reflexivity | exact Ct]. }
      destruct K as (ts & E & F & C). exists (bracket "{" ts "}"). cbn [marshal]. rewrite E. split; [reflexivity|].
      split; [|split; [|reflexivity]].
      + unfold bracket. destruct m as [|x m].
        * inversion F; subst. exact (lay_obj0 rd tight "" eq_refl).
        * rewrite <- (map_of_perm (x :: m) (x :: m) Hs (Permutation_refl _)) at 1. apply lay_obj. apply laym_join; [discriminate | exact F].
      + unfold bracket. apply clean_cons; [reflexivity|]. apply clean_mid; [now apply clean_join | reflexivity | exact clean_nil].
  Qed.

  (** ** The sorted object with keys quoted by strconv.Quote *)
  Lemma scons_app c a b : String c a +++ b = String c (a +++ b).
  Proof. reflexivity. Qed.
  Lemma gq_app k t r : (gquote k +++ ":" +++ t) +++ r = String DQ (gquote_body k +++ String DQ (String ":" (t +++ r))).
  Proof. unfold gquote. cbn [append]. rewrite ?app_assoc_s. cbn [append str1]. rewrite ?app_assoc_s. reflexivity. Qed.
  Lemma gquote_member k x tx rest c : all quotable k = true -> clay x tx -> hclean tx -> asc_head tx = true -> calm c = true ->
    exists t', escape_by html1 ((gquote k +++ ":" +++ tx) +++ String c rest) = t' +++ String c (escape_by html1 rest) /\ member (k, x) t'.
  Proof.
    intros Q L C A Hc. unfold gquote. cbn [append]. rewrite ?app_assoc_s. cbn [append]. rewrite ?app_assoc_s. cbn [append].
    rewrite esc_cons by (intros; apply line_sep_asc; now left). change (html1 DQ) with (str1 DQ). cbn [str1 append].
    destruct (html_gquote k (String ":" (tx +++ String c rest)) Q) as (b & Eb & Rb). rewrite Eb.
    rewrite esc_cons by (intros; apply line_sep_asc; now left). change (html1 ":") with (str1 ":"). cbn [str1 append].
    assert (Hc' : asc c = true) by (unfold calm in Hc; now apply andb_true_iff in Hc).
    rewrite (C (String c rest)) by (right; exact Hc'). rewrite (esc_cons _ c) by (intros; apply line_sep_asc; now left).
    assert (Hh : html1 c = str1 c) by (unfold html1; unfold calm in Hc; apply andb_true_iff in Hc as (_ & Hc); apply negb_true_iff in Hc; now rewrite Hc).
    rewrite Hh. exists (String DQ (b +++ String DQ (String ":" tx))). split.
    - cbn [append str1]. rewrite ?app_assoc_s. cbn [append]. reflexivity.
    - exists (b +++ str1 DQ), tx. split; [rewrite app_assoc_s; reflexivity|]. split; [|exact L]. cbn [fst]. intro r. rewrite app_assoc_s. apply Rb.
  Qed.
  Lemma marshal_items_ok l : Forall (fun kv => wf (snd kv)) l -> (forall n, In n (numbers (JObj l)) -> num_ok n) ->
    exists txs, marshal_items pn l = Ok (map (fun p => gquote (fst p) +++ ":" +++ snd p) (combine (keys l) txs)) /\ Forall2 (fun kv t => piece (snd kv) t) l txs.
  Proof.
    induction l as [|[k x] l IH]; intros Hw Hn; [exists []; split; [reflexivity | constructor]|]. inversion Hw as [|? ? Wx Wl]; subst. cbn [snd] in Wx.
    destruct (marshal_piece x Wx) as (t & Et & Pt); [intros n H; apply Hn; apply numbers_obj; now left|].
    destruct (IH Wl) as (ts & E & Pts); [intros n H; apply Hn; apply numbers_obj; now right|]. exists (t :: ts). cbn [marshal_items]. rewrite Et. cbn [bind]. rewrite E. cbn [bind]. split; [reflexivity | now constructor].
  Qed.
  Lemma html_items l txs : Forall2 (fun kv t => piece (snd kv) t) l txs -> Forall (fun kv => all quotable (fst kv) = true) l -> forall rest,
    exists ts', escape_by html1 (join "," (map (fun p => gquote (fst p) +++ ":" +++ snd p) (combine (keys l) txs)) +++ String "}" rest) =
      join "," ts' +++ String "}" (escape_by html1 rest) /\ Forall2 member l ts'.
  Proof.
    intros F. induction F as [|[k x] t l txs (L & C & A) F IH]; intros Q rest.
    - exists []. split; [|constructor]. cbn [keys map combine join String.concat append]. rewrite esc_cons by (intros; apply line_sep_asc; now left). reflexivity.
    - inversion Q as [|? ? Qk Ql]; subst. cbn [fst snd] in *. cbn [keys map combine fst snd]. fold (keys l). rewrite join_cons.
      destruct F as [|[k' x'] t1 l txs P1 F].
      + cbn [keys map combine]. destruct (gquote_member k x t rest "}"%char Qk L C A eq_refl) as (t' & E & M). exists [t']. split; [exact E|]. now repeat constructor.
      + destruct (IH Ql rest) as (ts' & E & M). cbn [keys map combine fst snd] in E |- *. fold (keys l) in *. rewrite app_assoc_s. rewrite (scons_app ","%char).
        destruct (gquote_member k x t (join "," ((gquote k' +++ ":" +++ t1) :: map (fun p => gquote (fst p) +++ ":" +++ snd p) (combine (keys l) txs)) +++ String "}" rest) ","%char Qk L C A eq_refl) as (t' & E' & M').
        cbn [fst snd map] in E'. rewrite E', E. exists (t' :: ts'). split; [|now constructor]. rewrite (join_cons t' ts'). destruct ts' as [|t2 ts']; [inversion M|]. now rewrite app_assoc_s.
  Qed.
  Lemma read_bad_key l txs : Forall2 (fun kv t => piece (snd kv) t) l txs -> ~ Forall (fun kv => all quotable (fst kv) = true) l ->
    forall n f rest, String.length (join "," (map (fun p => gquote (fst p) +++ ":" +++ snd p) (combine (keys l) txs))) < f ->
    read_members n (read_value rd f) (join "," (map (fun p => gquote (fst p) +++ ":" +++ snd p) (combine (keys l) txs)) +++ String "}" rest) = None.
  Proof.
    intros F. induction F as [|[k x] t l txs (L & C & A) F IH]; intros Q n f rest Lf; [elim Q; constructor|].
    destruct n as [|n]; [reflexivity|]. cbn [keys map combine fst snd] in *. fold (keys l) in *.
    assert (S : exists tl, join "," ((gquote k +++ ":" +++ t) :: map (fun p => gquote (fst p) +++ ":" +++ snd p) (combine (keys l) txs)) +++ String "}" rest
        = String DQ (gquote_body k +++ String DQ (String ":" (t +++ tl))) /\
        ((l = [] /\ tl = String "}" rest) \/ (l <> [] /\ tl = String "," (join "," (map (fun p => gquote (fst p) +++ ":" +++ snd p) (combine (keys l) txs)) +++ String "}" rest)))).
    { rewrite join_cons. inversion F as [|[k' x'] t1 l' txs' P1 F' El Et]; subst; cbn [keys map combine fst snd].
      - exists (String "}" rest). split; [apply gq_app | left; split; reflexivity].
      - eexists. split; [|right; split; [discriminate | reflexivity]]. rewrite app_assoc_s, (scons_app ","%char). apply gq_app. }
    destruct S as (tl & E & Htl). rewrite E. cbn [read_members]. rewrite skip_ws_cons by reflexivity. change (negb (Ascii.eqb DQ DQ)) with false. cbn iota.
    rewrite read_gquote. destruct (all quotable k) eqn:Qk; [|reflexivity]. rewrite skip_ws_cons by reflexivity. change (negb (Ascii.eqb ":" ":")) with false. cbn iota.
    assert (Lt : String.length t <= f).
    { assert (Lg : String.length t <= String.length (gquote k +++ ":" +++ t)) by (rewrite !len_app; cbn; lia).
      rewrite join_cons in Lf. destruct (map _ _); [lia|]. rewrite len_app in Lf. lia. }
    assert (Nt : nonnum tl) by (destruct Htl as [(_ & ->)|(_ & ->)]; reflexivity).
    rewrite (proj1 (read_layout rd tight tight_ws) x t L f tl Lt Nt).
    destruct Htl as [(-> & ->)|(Nl & ->)].
    - elim Q. constructor; [exact Qk | constructor].
    - rewrite skip_ws_cons by reflexivity. change (Ascii.eqb "," ",") with true. cbn iota. rewrite IH; [reflexivity| |].
      + intro H. apply Q. constructor; [exact Qk | exact H].
      + rewrite join_cons in Lf. destruct (map _ _) as [|u us] eqn:Eu; [cbn; cbn in Lf; lia|]. rewrite len_app in Lf. cbn [String.length] in Lf. lia.
  Qed.

  Context (ord : list (string * json) -> list (string * json)) (srt1 srt2 : list map_item -> list map_item).
  Hypothesis Hord : forall l, Permutation (ord l) l.
  Hypothesis Hs1 : is_item_sort srt1.
  Hypothesis Hs2 : is_item_sort srt2.

  Theorem marshal_sorted_ok order j : wf j -> (forall n, In n (numbers j) -> num_ok n) ->
    (forall m, j = JObj m -> Forall (fun kv => all quotable (fst kv) = true) m) ->
    exists t, marshal_sorted pn rd ord srt1 srt2 order j = Ok t /\ clay j t.
  Proof.
    intros Hw Hn Hq. destruct j as [|b|n|s|l|m]; cbn [marshal_sorted];
      try (destruct (marshal_piece _ Hw Hn) as (t & E & P & _); exists t; split; [exact E | exact P]).
    specialize (Hq m eq_refl). destruct (sort_entries_spec ord srt1 srt2 order m Hord Hs1 Hs2) as (P & _). set (es := sort_entries ord srt1 srt2 order m) in *.
    apply wf_obj in Hw as (Hs & Hw).
    assert (Hwe : Forall (fun kv => wf (snd kv)) es) by (apply Forall_forall; intros kv H; rewrite Forall_forall in Hw; apply Hw; now apply (Permutation_in _ P)).
    assert (Hqe : Forall (fun kv => all quotable (fst kv) = true) es) by (apply Forall_forall; intros kv H; rewrite Forall_forall in Hq; apply Hq; now apply (Permutation_in _ P)).
    assert (Hne : forall n, In n (numbers (JObj es)) -> num_ok n).
    { intros n H. apply Hn. clear -H P. induction P as [|[k x] l l' _ IH|[k x] [k' x'] l|]; auto.
      - apply numbers_obj. apply numbers_obj in H as [H|H]; auto.
      - apply numbers_obj in H as [H|H]; [|apply numbers_obj in H as [H|H]]; rewrite !numbers_obj; tauto. }
    destruct (marshal_items_ok es Hwe Hne) as (txs & E & F). unfold marshal_slice. rewrite E. cbn [bind]. unfold compact, bracket.
    destruct (html_items es txs F Hqe "") as (ts' & Eh & M').
    assert (Lraw : Forall2 member es (map (fun p => gquote (fst p) +++ ":" +++ snd p) (combine (keys es) txs))).
    { clear -F Hqe. induction F as [|[k x] t l txs (L & _) F IH]; cbn; constructor.
      - inversion Hqe; subst. cbn [fst snd] in *. exists (gquote_body k +++ str1 DQ), t. split; [reflexivity|]. split; [|exact L]. cbn [fst]. intro r. rewrite app_assoc_s. cbn [str1 append]. rewrite read_gquote. now rewrite H1.
      - apply IH. now inversion Hqe. }
    assert (Mk : forall ts, Forall2 member es ts -> clay (JObj m) (String "{" (join "," ts +++ "}"))).
    { intros ts H. rewrite <- (map_of_perm es m Hs P). destruct es as [|e es'].
      - inversion H; subst. exact (lay_obj0 rd tight "" eq_refl).
      - apply lay_obj. apply laym_join; [discriminate | exact H]. }
    change (str1 "}") with "}". rewrite (read_json_layout rd tight tight_ws _ _ (Mk _ Lraw)). eexists. split; [reflexivity|].
    rewrite esc_cons by (intros; apply line_sep_asc; now left). change (html1 "{" +++ ?X) with (String "{" X). rewrite Eh. now apply Mk.
  Qed.
  Theorem marshal_sorted_bad_key order m : wf (JObj m) -> (forall n, In n (numbers (JObj m)) -> num_ok n) ->
    ~ Forall (fun kv => all quotable (fst kv) = true) m -> marshal_sorted pn rd ord srt1 srt2 order (JObj m) = Err.
  Proof.
    intros Hw Hn Hq. cbn [marshal_sorted]. destruct (sort_entries_spec ord srt1 srt2 order m Hord Hs1 Hs2) as (P & _). set (es := sort_entries ord srt1 srt2 order m) in *.
    apply wf_obj in Hw as (Hs & Hw).
    assert (Hwe : Forall (fun kv => wf (snd kv)) es) by (apply Forall_forall; intros kv H; rewrite Forall_forall in Hw; apply Hw; now apply (Permutation_in _ P)).
    assert (Hqe : ~ Forall (fun kv => all quotable (fst kv) = true) es).
    { intro K. apply Hq. apply Forall_forall. intros kv H. rewrite Forall_forall in K. apply K. now apply (Permutation_in _ (Permutation_sym P)). }
    assert (Hne : forall n, In n (numbers (JObj es)) -> num_ok n).
    { intros n H. apply Hn. clear -H P. induction P as [|[k x] l l' _ IH|[k x] [k' x'] l|]; auto.
      - apply numbers_obj. apply numbers_obj in H as [H|H]; auto.
      - apply numbers_obj in H as [H|H]; [|apply numbers_obj in H as [H|H]]; rewrite !numbers_obj; tauto. }
    destruct (marshal_items_ok es Hwe Hne) as (txs & E & F). unfold marshal_slice. rewrite E. cbn [bind]. unfold compact, bracket.
    assert (N : read_json rd (String "{" (join "," (map (fun p => gquote (fst p) +++ ":" +++ snd p) (combine (keys es) txs)) +++ str1 "}")) = None); [|now rewrite N].
    unfold read_json. set (body := join "," _) in *. cbn [read_value]. rewrite skip_ws_cons by reflexivity.
    change (Ascii.eqb "{" DQ) with false. change (Ascii.eqb "{" "{") with true. cbn iota.
    assert (S : exists r, body +++ str1 "}" = String DQ r).
    { unfold body. inversion F as [E1 E2|[k x] t l ts P1 F1 E1 E2]; [elim Hqe; rewrite <- E1; constructor|]. cbn [keys map combine fst snd]. rewrite join_cons.
      clear. destruct (map _ (combine (map fst l) ts)); [|rewrite app_assoc_s]; eexists; apply gq_app. }
    destruct S as (r & Er). rewrite Er at 1. rewrite skip_ws_cons by reflexivity. change (Ascii.eqb DQ "}") with false. cbn iota.
    pose proof (read_bad_key es txs F Hqe) as RB. fold body in RB. change (str1 "}") with (String "}" ""). rewrite RB; [reflexivity|].
    cbn [String.length]. rewrite len_app. cbn. lia.
  Qed.
End Marshal.
