(** The configuration: decoding, extends, precedence. *)
From Coq Require Import String Ascii List Bool Arith NArith Lia.
From Verif Require Import GoStr GoStrFacts Json JsonFacts Gabs Container Spec_Merge MergeFacts MergeLaws MergeApi CloneFacts LocFacts Path Spec_Path PathFacts Specs Config Spec_Config JsonTextFacts.
Import ListNotations.
Local Open Scope string_scope.
Local Open Scope list_scope.

(** *** Spellings of a name sort before its lower-case form *)
Definition lt_s (a b : string) : Prop := String.compare a b = Lt.
Lemma lower_id s : to_lower s = s -> forall k, to_lower k = s -> k <> s -> lt_s k s.
Proof.
  assert (B : forall c, (if Ascii.eqb (lower_char c) c then true else match Ascii.compare c (lower_char c) with Lt => true | _ => false end) = true) by bytes.
  induction s as [|c s IH]; intros Hs k Hk Hne; destruct k as [|d k]; try discriminate; [now elim Hne|].
  cbn [to_lower] in *. injection Hk as Hd Hk. assert (Hs' : to_lower s = s) by (injection Hs; auto).
  unfold lt_s in *. cbn [String.compare]. specialize (B d). rewrite Hd in B. destruct (Ascii.eqb_spec c d) as [->|Ne].
  - replace (Ascii.compare d d) with Eq by (unfold Ascii.compare; symmetry; apply N.compare_refl). apply IH; auto. intro E. apply Hne. now rewrite E.
  - destruct (Ascii.compare d c); [discriminate | reflexivity | discriminate].
Qed.

(** *** Decoding *)
Section Decode.
  Context (other : string -> json -> dec).
  (** The value of a text field after one member. *)
  Definition upd (name k : string) (v : json) (cur : string) : string :=
    if equal_fold k name then match v with JStr s => s | _ => cur end else cur.
  Lemma fold_excl k a b : to_lower a = a -> to_lower b = b -> a <> b -> equal_fold k a = true -> equal_fold k b = false.
  Proof. unfold equal_fold. intros Ha Hb Ne E. apply String.eqb_eq in E. rewrite E, Ha, Hb. now apply String.eqb_neq. Qed.
  Lemma dec_dir k v c : cf_dir (fst (dec_member other k v c)) = upd "dir" k v (cf_dir c).
  Proof.
    unfold dec_member, upd. destruct (equal_fold k "dir") eqn:E; [now destruct v|].
    destruct (equal_fold k "format"); [now destruct v|]. destruct (equal_fold k "output"); [now destruct v|].
    destruct (equal_fold k "extends" || equal_fold k "version" || equal_fold k "openapi"); [now destruct v | reflexivity].
  Qed.
  Lemma dec_format k v c : cf_format (fst (dec_member other k v c)) = upd "format" k v (cf_format c).
  Proof.
    unfold dec_member, upd. destruct (equal_fold k "dir") eqn:E.
    { rewrite (fold_excl k "dir" "format") by (auto; discriminate). now destruct v. }
    destruct (equal_fold k "format"); [now destruct v|]. destruct (equal_fold k "output"); [now destruct v|].
    destruct (equal_fold k "extends" || equal_fold k "version" || equal_fold k "openapi"); [now destruct v | reflexivity].
  Qed.
  Lemma dec_output k v c : cf_output (fst (dec_member other k v c)) = upd "output" k v (cf_output c).
  Proof.
    unfold dec_member, upd. destruct (equal_fold k "dir") eqn:E.
    { rewrite (fold_excl k "dir" "output") by (auto; discriminate). now destruct v. }
    destruct (equal_fold k "format") eqn:E2.
    { rewrite (fold_excl k "format" "output") by (auto; discriminate). now destruct v. }
    destruct (equal_fold k "output"); [now destruct v|].
    destruct (equal_fold k "extends" || equal_fold k "version" || equal_fold k "openapi"); [now destruct v | reflexivity].
  Qed.
  Definition upds (name : string) (m : list (string * json)) (cur : string) : string := fold_left (fun cur kv => upd name (fst kv) (snd kv) cur) m cur.
  Lemma dec_fold (g : config -> string) name : (forall k v c, g (fst (dec_member other k v c)) = upd name k v (g c)) ->
    forall m c bad c', dec_members other m c bad = (c', false) -> g c' = upds name m (g c).
  Proof.
    intros Hg. assert (T : forall m c c', dec_members other m c true = (c', false) -> False).
    { induction m as [|[k v] m IH]; intros c c' H; cbn in H; [discriminate|]. destruct (dec_member other k v c) as [c1 []]; [eapply IH, H | eapply IH, H | discriminate]. }
    induction m as [|[k v] m IH]; intros c bad c' H; cbn [dec_members] in H; [now injection H as <- _|].
    unfold upds. cbn [fold_left fst snd]. pose proof (Hg k v c) as G. destruct (dec_member other k v c) as [c1 []]; cbn [fst] in G; [|exfalso; eapply T, H | discriminate].
    rewrite <- G. exact (IH c1 bad c' H).
  Qed.
  Lemma dec_path m : forall c bad, cf_path (fst (dec_members other m c bad)) = cf_path c.
  Proof.
    induction m as [|[k v] m IH]; intros c bad; [reflexivity|]. cbn [dec_members].
    assert (G : cf_path (fst (dec_member other k v c)) = cf_path c).
    { unfold dec_member. repeat match goal with |- context [if ?b then _ else _] => destruct b; [now destruct v|] end. reflexivity. }
    destruct (dec_member other k v c) as [c1 []]; cbn [fst] in *; rewrite <- G; auto.
  Qed.
  Lemma upds_none name m : forall cur, (forall k v, In (k, v) m -> equal_fold k name = true -> v = JNull) -> upds name m cur = cur.
  Proof.
    unfold upds. induction m as [|[k v] m IH]; intros cur H; [reflexivity|]. cbn [fold_left fst snd].
    assert (E : upd name k v cur = cur) by (unfold upd; destruct (equal_fold k name) eqn:E; [now rewrite (H k v (or_introl eq_refl) E) | reflexivity]).
    rewrite E. apply IH. intros k' v' I. apply H. now right.
  Qed.
  Lemma upds_says name m s : to_lower name = name -> sorted m -> says m name s -> upds name m "" = s.
  Proof.
    intros Hn Hm [I|(-> & H)]; [|now apply upds_none]. apply in_split in I as (m1 & m2 & ->). unfold upds. rewrite fold_left_app. cbn [fold_left fst snd].
    assert (E : forall cur, upd name name (JStr s) cur = s) by (intro cur; unfold upd, equal_fold; now rewrite String.eqb_refl). rewrite E. apply upds_none.
    intros k v I F. exfalso. assert (L : String.compare name k = Lt).
    { assert (Hm' : sorted ((name, JStr s) :: m2)) by (clear -Hm; induction m1 as [|[a b] m1 IH]; [exact Hm | apply IH; now apply sorted_tail in Hm]).
      exact (sorted_lt _ _ _ Hm' k v I). }
    unfold equal_fold in F. apply String.eqb_eq in F. rewrite Hn in F. destruct (String.eqb_spec k name) as [->|Ne]; [rewrite scmp_refl in L; discriminate|].
    pose proof (lower_id name Hn k F Ne) as L'. unfold lt_s in L'. pose proof (scmp_trans _ _ _ L L') as L2. rewrite scmp_refl in L2. discriminate.
  Qed.
End Decode.

Lemma clone_says m m' k s : clone (JObj m) = Ok (JObj m') -> says m k s -> says m' k s.
Proof.
  intros Hc Hs. pose proof (clone_same _ _ Hc) as R. inversion R as [| | | | |? ? F]; subst. destruct Hs as [I|(-> & H)].
  - left. clear Hc R. induction F as [|[a x] [b y] l l' (E & V) F IH]; [destruct I|]. cbn [fst snd] in *. subst b. destruct I as [E|I]; [|right; now apply IH].
    injection E as -> ->. inversion V; subst. now left.
  - right. split; [reflexivity|]. intros k' v I Ef. clear Hc R. induction F as [|[a x] [b y] l l' (E & V) F IH]; [destruct I|]. cbn [fst snd] in *. subst b. destruct I as [E|I].
    + injection E as -> ->. rewrite (H k' x (or_introl eq_refl) Ef) in V. now inversion V.
    + apply IH; [|exact I]. intros k2 v2 I2. apply H. now right.
Qed.
Lemma clone_sorted m m' : clone (JObj m) = Ok (JObj m') -> wf (JObj m) -> sorted m'.
Proof. intros Hc Hw. pose proof (clone_wf _ _ Hw Hc) as W. apply wf_obj in W. tauto. Qed.

(** The configuration document: the file, with the missing leaves of the one it extends. *)
Definition config_doc (fs : filesys) (ord : list string -> list (string * json) -> list (string * json)) (file : string) : res cont :=
  do cx <- read_file fs file ; extends fs ord cx (dir file).

Section Read.
  Context (other : string -> json -> dec) (fs : filesys) (ord : list string -> list (string * json) -> list (string * json)).

  Lemma read_config_says file m m' c : config_doc fs ord file = Ok (Some (JObj m)) -> wf (JObj m) -> clone (JObj m) = Ok (JObj m') ->
    read_config other fs ord file = Ok (c, false) ->
    cf_path c = file /\ (forall s, says m "dir" s -> cf_dir c = s) /\ (forall s, says m "format" s -> cf_format c = s) /\ (forall s, says m "output" s -> cf_output c = s).
  Proof.
    unfold config_doc, read_config. intros E Hw Hc R. rewrite E in R. unfold unmarshal_config in R. cbn [c_data] in R. rewrite Hc in R.
    destruct (dec_members other m' _ false) as [c1 bad] eqn:D in R. destruct bad; [discriminate|]. injection R as <-.
    pose proof (clone_sorted _ _ Hc Hw) as Hs.
    split; [reflexivity|]. repeat split; intros s Hs'; apply (clone_says m m') in Hs'; auto.
    - change (cf_dir (set_path file c1)) with (cf_dir c1). rewrite (dec_fold other cf_dir "dir" (dec_dir other) _ _ _ _ D). now apply upds_says.
    - change (cf_format (set_path file c1)) with (cf_format c1). rewrite (dec_fold other cf_format "format" (dec_format other) _ _ _ _ D). now apply upds_says.
    - change (cf_output (set_path file c1)) with (cf_output c1). rewrite (dec_fold other cf_output "output" (dec_output other) _ _ _ _ D). now apply upds_says.
  Qed.
  Lemma read_config_nan file j : config_doc fs ord file = Ok (Some j) -> clone j = Err ->
    read_config other fs ord file = Ok (set_path file config_zero, false).
  Proof. unfold config_doc, read_config. intros E Hc. rewrite E. unfold unmarshal_config. cbn [c_data]. now rewrite Hc. Qed.
  Lemma read_config_ok file c : read_config other fs ord file = Ok (c, false) -> cf_path c = file.
  Proof.
    unfold read_config. destruct (do cx <- read_file fs file; extends fs ord cx (dir file)) as [cx| | |]; try discriminate.
    destruct (unmarshal_config other cx) as [c1 []]; [discriminate|]. intro H. now injection H as <-.
  Qed.

  (** *** extends *)
  Lemma extends_path p d : c_data (c_path "extends" (Some (JObj d))) = match oget "extends" d with Some v => v | None => JNull end /\
    c_existsp "extends" (Some (JObj d)) = match oget "extends" d with Some _ => true | None => p && false end.
  Proof.
    unfold c_path, c_existsp, c_exists, c_search. change (dot_path "extends") with ["extends"]. cbn [search c_data]. rewrite andb_false_r.
    destruct (oget "extends" d) as [v|]; split; reflexivity.
  Qed.
  Lemma config_doc_plain file d : fs file = Some (Ok (Some (JObj d))) -> (forall p, oget "extends" d <> Some (JStr p)) ->
    config_doc fs ord file = Ok (Some (JObj d)).
  Proof.
    intros E H. unfold config_doc, read_file. rewrite E. cbn [bind]. unfold extends. destruct (extends_path true d) as (A & B). rewrite A, B.
    destruct (oget "extends" d) as [v|] eqn:X; [|reflexivity]. cbn [negb]. destruct v; try reflexivity. now elim (H s).
  Qed.
  Definition parent_of (file p : string) : string := if is_abs p then p else join2 (dir file) p.
  Lemma config_doc_extends file d p : fs file = Some (Ok (Some (JObj d))) -> oget "extends" d = Some (JStr p) ->
    config_doc fs ord file = do ny <- read_file fs (parent_of file p) ; c_merge ord merge_default (Some (JObj d)) ny.
  Proof.
    intros E H. unfold config_doc, read_file at 1. rewrite E. cbn [bind]. unfold extends. destruct (extends_path true d) as (A & B). rewrite A, B, H. reflexivity.
  Qed.
End Read.
Lemma config_doc_local other fs fs' ord file d p : fs file = Some (Ok (Some (JObj d))) -> oget "extends" d = Some (JStr p) ->
  fs' file = fs file -> fs' (parent_of file p) = fs (parent_of file p) -> read_config other fs' ord file = read_config other fs ord file.
Proof.
  intros E H E1 E2. unfold read_config. change (do cx <- read_file fs file; extends fs ord cx (dir file)) with (config_doc fs ord file).
  change (do cx <- read_file fs' file; extends fs' ord cx (dir file)) with (config_doc fs' ord file).
  rewrite (config_doc_extends fs ord file d p E H), (config_doc_extends fs' ord file d p (eq_trans E1 E) H). unfold read_file. now rewrite E2.
Qed.
Lemma config_doc_err other fs ord file : config_doc fs ord file = Err -> read_config other fs ord file = Ok (config_zero, true).
Proof. unfold config_doc, read_config. now intros ->. Qed.

(** *** Precedence *)
Lemma nonempty_iff s : nonempty s = true <-> s <> "".
Proof. unfold nonempty. rewrite negb_true_iff. apply String.eqb_neq. Qed.
Lemma nonempty_not s : nonempty s = false <-> s = "".
Proof. unfold nonempty. rewrite negb_false_iff. apply String.eqb_eq. Qed.
Lemma choose_cases o base cur : (asks_file o -> choose_output o base cur = to_abs o base) /\ (~ asks_file o -> choose_output o base cur = cur).
Proof.
  unfold choose_output, asks_file, nonempty.
  destruct (String.eqb_spec o "") as [->|N1]; cbn [negb]; [split; [intros (H & _); now elim H | reflexivity]|].
  destruct (String.eqb_spec o "stderr") as [->|N2]; cbn [orb]; [split; [intros (_ & _ & H); now elim H | reflexivity]|].
  destruct (String.eqb_spec o "stdout") as [->|N3]; [split; [intros (_ & H & _); now elim H | reflexivity]|].
  split; [reflexivity | intro H; elim H; auto].
Qed.
Section Full.
  Context (other : string -> json -> dec) (fs : filesys) (ord : list string -> list (string * json) -> list (string * json)) (wd : string) (ff : flags).
  Hypothesis Hwd : rooted wd.
  (** The settings of the configuration file, if one was named. *)
  Definition settings (f : config) : Prop :=
    (fl_config ff = "" /\ f = config_zero) \/ (fl_config ff <> "" /\ read_config other fs ord (to_abs (fl_config ff) wd) = Ok (f, false)).
  Lemma full_inv c : full other fs ord wd ff = Ok (c, false) -> exists f, settings f /\
    cf_dir c = (if nonempty (fl_dir ff) then to_abs (fl_dir ff) wd else if nonempty (cf_dir f) then to_abs (cf_dir f) (dir (cf_path f)) else wd) /\
    cf_format c = (if nonempty (fl_format ff) then fl_format ff else if nonempty (cf_format f) then cf_format f else "json:pretty") /\
    cf_output c = choose_output (fl_output ff) wd (choose_output (cf_output f) (cf_dir c) "stdout") /\ cf_path c = cf_path f /\ cf_doc c = cf_doc f.
  Proof.
    unfold full, settings. destruct (nonempty (fl_config ff)) eqn:N.
    - apply nonempty_iff in N. intro H. apply bind_ok in H as ([f bad] & R & H). destruct bad; [discriminate|]. injection H as <-. exists f. split; [right; auto|]. cbn. auto.
    - apply nonempty_not in N. cbn [bind]. intro H. injection H as <-. exists config_zero. split; [left; auto|]. cbn. auto.
  Qed.
  Lemma settings_path f : settings f -> cf_path f <> "" -> cf_path f = to_abs (fl_config ff) wd.
  Proof. intros [(_ & ->)|(_ & R)] N; [now elim N | exact (read_config_ok _ _ _ _ _ R)]. Qed.

  Theorem full_dir c : full other fs ord wd ff = Ok (c, false) -> exists f, settings f /\ rooted (cf_dir c) /\
    (fl_dir ff <> "" -> forall loc, leads (walk_to [] wd) (fl_dir ff) loc <-> loc = walk_to [] (cf_dir c)) /\
    (fl_dir ff = "" -> cf_dir f <> "" -> forall loc, leads (walk_to [] (dir (to_abs (fl_config ff) wd))) (cf_dir f) loc <-> loc = walk_to [] (cf_dir c)) /\
    (fl_dir ff = "" -> cf_dir f = "" -> cf_dir c = wd) /\
    (fl_format ff <> "" -> cf_format c = fl_format ff) /\ (fl_format ff = "" -> cf_format f <> "" -> cf_format c = cf_format f) /\
    (fl_format ff = "" -> cf_format f = "" -> cf_format c = "json:pretty").
  Proof.
    intro H. destruct (full_inv c H) as (f & Hf & Hd & Hfm & _). exists f. split; [exact Hf|].
    assert (Hp : fl_dir ff = "" -> cf_dir f <> "" -> cf_path f = to_abs (fl_config ff) wd).
    { intros _ Nd. destruct Hf as [(_ & ->)|(_ & R)]; [now elim Nd | exact (read_config_ok _ _ _ _ _ R)]. }
    assert (Rp : rooted (dir (to_abs (fl_config ff) wd))) by (apply dir_rooted; now apply to_abs_spec).
    repeat split.
    - rewrite Hd. destruct (nonempty (fl_dir ff)) eqn:N1; [now apply to_abs_spec|]. destruct (nonempty (cf_dir f)) eqn:N2; [|exact Hwd].
      apply nonempty_not in N1. apply nonempty_iff in N2. rewrite (Hp N1 N2). now apply to_abs_spec.
    - intro L. apply nonempty_iff in H0. rewrite H0 in Hd. rewrite Hd. now apply to_abs_spec.
    - intro L. apply nonempty_iff in H0. rewrite H0 in Hd. rewrite Hd in L. now apply to_abs_spec.
    - intro L. rewrite Hd, (proj2 (nonempty_not _) H0), (proj2 (nonempty_iff _) H1), (Hp H0 H1). now apply to_abs_spec.
    - intro L. rewrite Hd, (proj2 (nonempty_not _) H0), (proj2 (nonempty_iff _) H1), (Hp H0 H1) in L. now apply to_abs_spec.
    - intros N1 N2. now rewrite Hd, (proj2 (nonempty_not _) N1), (proj2 (nonempty_not _) N2).
    - intros N1. now rewrite Hfm, (proj2 (nonempty_iff _) N1).
    - intros N1 N2. now rewrite Hfm, (proj2 (nonempty_not _) N1), (proj2 (nonempty_iff _) N2).
    - intros N1 N2. now rewrite Hfm, (proj2 (nonempty_not _) N1), (proj2 (nonempty_not _) N2).
  Qed.
  Theorem full_output c : full other fs ord wd ff = Ok (c, false) -> exists f, settings f /\
    (asks_file (fl_output ff) -> rooted (cf_output c) /\ forall loc, leads (walk_to [] wd) (fl_output ff) loc <-> loc = walk_to [] (cf_output c)) /\
    (~ asks_file (fl_output ff) -> asks_file (cf_output f) -> rooted (cf_output c) /\ forall loc, leads (walk_to [] (cf_dir c)) (cf_output f) loc <-> loc = walk_to [] (cf_output c)) /\
    (~ asks_file (fl_output ff) -> ~ asks_file (cf_output f) -> cf_output c = "stdout") /\
    cf_output c <> "stderr" /\ cf_output c <> "".
  Proof.
    intro H. destruct (full_inv c H) as (f & Hf & _ & _ & Ho & _). destruct (full_dir c H) as (f' & _ & Rd & _). exists f. split; [exact Hf|].
    destruct (choose_cases (fl_output ff) wd (choose_output (cf_output f) (cf_dir c) "stdout")) as (A & B).
    destruct (choose_cases (cf_output f) (cf_dir c) "stdout") as (C & D).
    assert (X1 : asks_file (fl_output ff) -> cf_output c = to_abs (fl_output ff) wd) by (intro K; now rewrite Ho, (A K)).
    assert (X2 : ~ asks_file (fl_output ff) -> asks_file (cf_output f) -> cf_output c = to_abs (cf_output f) (cf_dir c)) by (intros K1 K2; now rewrite Ho, (B K1), (C K2)).
    assert (X3 : ~ asks_file (fl_output ff) -> ~ asks_file (cf_output f) -> cf_output c = "stdout") by (intros K1 K2; now rewrite Ho, (B K1), (D K2)).
    assert (dec : forall o, asks_file o \/ ~ asks_file o).
    { intro o. unfold asks_file. destruct (String.eqb_spec o ""); [right; tauto|]. destruct (String.eqb_spec o "stdout"); [right; tauto|]. destruct (String.eqb_spec o "stderr"); [right; tauto | left; auto]. }
    assert (R1 : asks_file (fl_output ff) -> rooted (cf_output c)) by (intro K; rewrite (X1 K); now apply to_abs_spec).
    assert (R2 : ~ asks_file (fl_output ff) -> asks_file (cf_output f) -> rooted (cf_output c)) by (intros K1 K2; rewrite (X2 K1 K2); now apply to_abs_spec).
    split; [|split; [|split; [exact X3|]]].
    - intro K. split; [auto|]. rewrite (X1 K). now apply to_abs_spec.
    - intros K1 K2. split; [auto|]. rewrite (X2 K1 K2). now apply to_abs_spec.
    - destruct (dec (fl_output ff)) as [K1|K1]; [destruct (R1 K1) as (t & ->); split; discriminate|].
      destruct (dec (cf_output f)) as [K2|K2]; [destruct (R2 K1 K2) as (t & ->); split; discriminate|]. rewrite (X3 K1 K2). split; discriminate.
  Qed.
End Full.
