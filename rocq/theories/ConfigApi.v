(** Configuration with an extended file, and runs to the standard streams. *)
From Coq Require Import String Ascii List Bool Arith Lia.
From Verif Require Import GoStr GoStrFacts Json JsonFacts Gabs Container Spec_Merge Spec_Clone MergeFacts MergeApi CloneFacts Specs
  Path Spec_Path PathFacts Config Spec_Config ConfigFacts Cli CliFacts.
Import ListNotations.
Local Open Scope string_scope.
Local Open Scope list_scope.

Lemma dec_member_doc other k v c c' d : dec_member other k v c = (c', d) -> cf_doc c' = cf_doc c.
Proof.
  unfold dec_member, dec_str. intro H.
  repeat match goal with H : context [if ?b then _ else _] |- _ => destruct b end; try (destruct v); injection H as <- _; reflexivity.
Qed.
Lemma dec_members_doc other m : forall c b c' b', dec_members other m c b = (c', b') -> cf_doc c' = cf_doc c.
Proof.
  induction m as [|[k v] r IH]; intros c b c' b' H; cbn [dec_members] in H; [now injection H as <- _|].
  destruct (dec_member other k v c) as [c1 d] eqn:E. apply dec_member_doc in E. destruct d; [| |injection H as <- _; exact E]; apply IH in H; congruence.
Qed.
Lemma read_config_doc other fs ord file m c b : config_doc fs ord file = Ok (Some (JObj m)) -> read_config other fs ord file = Ok (c, b) ->
  (exists n, In n (numbers (JObj m)) /\ n = NBad) \/ clone (JObj m) = Ok (cf_doc c).
Proof.
  unfold config_doc, read_config. intros E R. rewrite E in R. unfold unmarshal_config in R. cbn [c_data] in R.
  destruct (clone (JObj m)) as [j| | |] eqn:Hc.
  - right. pose proof (clone_obj_inv _ _ Hc) as (m' & -> & _). destruct (dec_members other m' _ false) as [c1 bad] eqn:D in R.
    apply dec_members_doc in D. cbn [cf_doc] in D. injection R as <- _. destruct bad; cbn [set_path cf_doc]; now rewrite D.
  - left. exists NBad. split; [|reflexivity]. now apply clone_fails.
  - exfalso. destruct (clone_cases (JObj m)) as [(j & K)|K]; rewrite K in Hc; discriminate.
  - exfalso. destruct (clone_cases (JObj m)) as [(j & K)|K]; rewrite K in Hc; discriminate.
Qed.

(** *** Leaves of a default merge *)
Lemma leaf_cons k p m v : leaf_at (k :: p) (JObj m) v <-> exists x, oget k m = Some x /\ leaf_at p x v.
Proof.
  unfold leaf_at. cbn [at_path]. destruct (oget k m) as [x|]; split.
  - intros (A & B). exists x. auto.
  - intros (x' & E & A). now injection E as <-.
  - intros (A & _). discriminate.
  - intros (x' & E & _). discriminate.
Qed.
Lemma leaf_obj_nil m v : ~ leaf_at [] (JObj m) v.
Proof. intros (A & B). cbn in A. injection A as <-. discriminate. Qed.
Lemma free_cons_none k p m : oget k m = None -> free_at (k :: p) (JObj m).
Proof.
  intro E. split; [cbn [at_path]; now rewrite E|]. intros q t Hq v L. destruct q as [|k' q]; [now apply leaf_obj_nil in L|].
  injection Hq as <- _. apply leaf_cons in L as (x & E' & _). congruence.
Qed.
Lemma free_cons_some k p m x : oget k m = Some x -> free_at (k :: p) (JObj m) <-> free_at p x.
Proof.
  intro E. unfold free_at. cbn [at_path]. rewrite E. split; intros (A & B); split; auto.
  - intros q t Hq v L. apply (B (k :: q) t) with (v := v); [cbn; now rewrite Hq|]. apply leaf_cons. eauto.
  - intros q t Hq v L. destruct q as [|k' q]; [now apply leaf_obj_nil in L|]. injection Hq as <- Hq. apply leaf_cons in L as (y & E' & L). rewrite E in E'. injection E' as <-. now apply (B q t Hq v).
Qed.
Lemma free_leaf p x : is_obj x = false -> ~ free_at p x.
Proof. intros N (_ & B). apply (B [] p eq_refl x). split; [reflexivity | exact N]. Qed.
Lemma free_obj_leaf p d s v : is_obj s = false -> leaf_at p s v -> free_at p d -> p = [] .
Proof. intros N (A & _) _. destruct p as [|k p]; [reflexivity|]. destruct s; try discriminate. Qed.
Theorem merged_default_leaves p : forall d s r, merged merge_default d s r -> forall v,
  leaf_at p r v <-> leaf_at p d v \/ (leaf_at p s v /\ free_at p d).
Proof.
  induction p as [|k p IH]; intros d s r M v; destruct (merged_objs _ _ _ _ M) as (dm & sm & rm & -> & -> & ->);
    destruct (merged_inv _ _ _ _ M) as (m & E & _ & K); injection E as <-.
  - split; [intro L; now apply leaf_obj_nil in L|]. intros [L|(L & _)]; now apply leaf_obj_nil in L.
  - specialize (K k). rewrite !leaf_cons. inversion K as [A B C|x A B C|x A B C|x y z Ox Oy Mz A B C|x y z Oxy Cz A B C].
    + split; [intros (x & E & _); discriminate|]. intros [(x & E & _)|((x & E & _) & _)]; discriminate.
    + split; [intro L; now left|]. intros [L|((y & E & _) & _)]; [exact L | discriminate].
    + split; [intro L; right; split; [exact L | apply free_cons_none; congruence]|]. intros [(y & E & _)|(L & _)]; [discriminate | exact L].
    + rewrite (free_cons_some k p dm x (eq_sym A)). split.
      * intros (z' & E & L). injection E as <-. apply (IH _ _ _ Mz) in L as [L|(L & F)]; [left | right]; eauto.
      * intros [(x' & E & L)|((y' & E & L) & F)]; injection E as <-; exists z; (split; [reflexivity|]); apply (IH _ _ _ Mz); auto.
    + unfold merge_default in Cz. injection Cz as ->. rewrite (free_cons_some k p dm z (eq_sym A)). split; [intro L; now left|]. intros [L|((y' & E & L) & F)]; [exact L|]. injection E as <-.
      exfalso. destruct (is_obj z) eqn:Oz; [|exact (free_leaf p z Oz F)]. cbn [andb] in Oxy. pose proof (free_obj_leaf p z y v Oxy L F) as Ep. rewrite Ep in F. destruct F as (F & _); cbn in F; discriminate F.
Qed.

(** *** Leaves and cloning *)
Lemma clone_at p : forall j j', clone j = Ok j' -> forall v', at_path p j' = Some v' <-> exists v, at_path p j = Some v /\ clone v = Ok v'.
Proof.
  induction p as [|k p IH]; intros j j' Hc v'; cbn [at_path].
  - split; [intro E; injection E as <-; eauto|]. intros (v & E & E2). injection E as <-. congruence.
  - destruct j as [|b|n|s|l|m].
    1-5: split; [|intros (v & E & _); discriminate].
    + injection Hc as <-. discriminate.
    + injection Hc as <-. discriminate.
    + pose proof (clone_same _ _ Hc) as S. inversion S; subst. discriminate.
    + injection Hc as <-. discriminate.
    + pose proof (clone_same _ _ Hc) as S. inversion S; subst. discriminate.
    + destruct (clone_obj_inv _ _ Hc) as (m' & -> & Hm). pose proof (clone_map_oget m m' k Hm) as G.
      destruct (oget k m) as [x|] eqn:E.
      * destruct G as (y & G & Hy). rewrite G. apply IH, Hy.
      * rewrite G. split; [discriminate | intros (v & E' & _); discriminate].
Qed.
Lemma clone_is_obj j j' : clone j = Ok j' -> is_obj j' = is_obj j.
Proof. intro H. pose proof (clone_same _ _ H) as S. inversion S; subst; reflexivity. Qed.
Lemma clone_leaf p j j' : clone j = Ok j' -> forall v', leaf_at p j' v' <-> exists v, leaf_at p j v /\ clone v = Ok v'.
Proof.
  intros Hc v'. unfold leaf_at. rewrite (clone_at p j j' Hc). split.
  - intros ((v & A & C) & O). exists v. rewrite (clone_is_obj _ _ C) in O. auto.
  - intros (v & (A & O) & C). split; [eauto|]. now rewrite (clone_is_obj _ _ C).
Qed.
Lemma clone_leaf_some p j j' v : clone j = Ok j' -> leaf_at p j v -> exists v', leaf_at p j' v' /\ clone v = Ok v'.
Proof.
  intros Hc (A & O). revert j j' Hc A. induction p as [|k p IH]; intros j j' Hc A.
  - cbn in A. injection A as ->. exists j'. split; [|exact Hc]. split; [reflexivity | now rewrite (clone_is_obj _ _ Hc)].
  - cbn [at_path] in A. destruct j as [| | | | |m]; try discriminate. destruct (oget k m) as [x|] eqn:E; [|discriminate].
    destruct (clone_obj_inv _ _ Hc) as (m' & -> & Hm). pose proof (clone_map_oget m m' k Hm) as G. rewrite E in G. destruct G as (y & G & Hy).
    destruct (IH x y Hy A) as (v' & L & C). exists v'. split; [|exact C]. apply leaf_cons. eauto.
Qed.

(** *** extends *)
Section Extends.
  Context (other : string -> json -> dec) (fs : filesys) (ord : list string -> list (string * json) -> list (string * json)).
  Context (file p : string) (d e : list (string * json)).
  Hypothesis Hord : perm_oracle ord.
  Hypothesis Hd : wf (JObj d).
  Hypothesis He : wf (JObj e).
  Hypothesis Bd : ~ In NBad (numbers (JObj d)).
  Hypothesis Be : ~ In NBad (numbers (JObj e)).
  Hypothesis Fd : fs file = Some (Ok (Some (JObj d))).
  Hypothesis Ex : oget "extends" d = Some (JStr p).
  Hypothesis Fe : fs (to_abs p (dir file)) = Some (Ok (Some (JObj e))).

  Lemma extends_merge : exists e' r, clone (JObj e) = Ok (JObj e') /\ config_doc fs ord file = Ok (Some (JObj r)) /\
    wf (JObj r) /\ merged merge_default (JObj d) (JObj e') (JObj r).
  Proof.
    destruct (clone_cases (JObj e)) as [(j & Hc)|Hc]; [|exfalso; apply Be; now apply clone_fails].
    destruct (clone_obj_inv _ _ Hc) as (e' & -> & _).
    destruct (c_merge_default ord d e e' Hord Hd He Hc) as (r & Er & Wr & M).
    destruct (merged_inv _ _ _ _ M) as (m & -> & _). exists e', m. split; [exact Hc|]. split; [|split; [exact Wr | exact M]].
    rewrite (config_doc_extends fs ord file d p Fd Ex). unfold read_file, parent_of. change (if is_abs p then p else join2 (dir file) p) with (to_abs p (dir file)).
    rewrite Fe. exact Er.
  Qed.
  Lemma numbers_obj m n : In n (numbers (JObj m)) <-> exists k v, In (k, v) m /\ In n (numbers v).
  Proof.
    cbn [numbers]. induction m as [|[k v] m IH]; [split; [intros [] | intros (? & ? & [] & _)]|]. rewrite in_app_iff, IH. split.
    - intros [H|(k' & v' & I & H)]; [exists k, v; split; [now left | exact H] | exists k', v'; split; [now right | exact H]].
    - intros (k' & v' & [I|I] & H); [injection I as -> ->; now left | right; eauto].
  Qed.
  Lemma merged_numbers s : forall d r, wf r -> merged merge_default d s r -> forall n, In n (numbers r) -> In n (numbers d) \/ In n (numbers s).
  Proof.
    induction s as [| | | | |m IH] using json_induction; intros d0 r Wr M nn Hn; try (inversion M; fail).
    destruct (merged_objs _ _ _ _ M) as (dm & sm & rm & -> & Es & ->). injection Es as <-. destruct (merged_inv _ _ _ _ M) as (rm' & E & S & K). injection E as <-.
    apply numbers_obj in Hn as (k & v & I & Hn). pose proof (sorted_in_oget k v rm S I) as G. specialize (K k). rewrite G in K. rewrite !numbers_obj.
    assert (Wv : wf v) by (apply wf_obj in Wr as (_ & W); rewrite Forall_forall in W; exact (W _ I)).
    inversion K as [A B C|x A B C|x A B C|x y z Ox Oy Mz A B C|x y z Oxy Cz A B C]; subst.
    - left. exists k, v. split; [now apply oget_in | exact Hn].
    - right. exists k, v. split; [now apply oget_in | exact Hn].
    - rewrite Forall_forall in IH. symmetry in B. apply oget_in in B. destruct (IH _ B x v Wv Mz nn Hn) as [L|R]; [left; exists k, x; split; [now apply oget_in | exact L] | right; exists k, y; auto].
    - injection Cz as ->. left. exists k, v. split; [now apply oget_in | exact Hn].
  Qed.
  Lemma clone_no_bad j j' : clone j = Ok j' -> ~ In NBad (numbers j').
  Proof. intros H B. apply clone_fails in B. rewrite (clone_idem _ _ H) in B. discriminate. Qed.

  Theorem extends_leaves : exists c b, read_config other fs ord file = Ok (c, b) /\
    (forall q v, leaf_at q (JObj d) v \/ (leaf_at q (JObj e) v /\ free_at q (JObj d)) -> exists v', same_but_numbers as_double v v' /\ leaf_at q (cf_doc c) v') /\
    (forall q v', leaf_at q (cf_doc c) v' -> exists v, same_but_numbers as_double v v' /\ (leaf_at q (JObj d) v \/ (leaf_at q (JObj e) v /\ free_at q (JObj d)))).
  Proof.
    destruct extends_merge as (e' & r & Hc & Hr & Wr & M).
    assert (R : exists c b, read_config other fs ord file = Ok (c, b)).
    { unfold read_config. change (do cx <- read_file fs file; extends fs ord cx (dir file)) with (config_doc fs ord file). rewrite Hr. destruct (unmarshal_config other (Some (JObj r))). eauto. }
    destruct R as (c & b & R). exists c, b. split; [exact R|].
    destruct (read_config_doc other fs ord file r c b Hr R) as [(n & I & ->)|Hcr].
    { exfalso. destruct (merged_numbers _ _ _ Wr M _ I) as [I'|I']; [now apply Bd | exact (clone_no_bad _ _ Hc I')]. }
    split.
    - intros q v H. assert (X : exists v1, same_but_numbers as_double v v1 /\ clone v = Ok v1 /\ exists v2, leaf_at q (JObj r) v2 /\ clone v2 = Ok v1).
      { destruct H as [L|(L & F)].
        - pose proof (proj2 (merged_default_leaves q _ _ _ M v) (or_introl L)) as Lr. destruct (clone_leaf_some q _ _ v Hcr Lr) as (v1 & _ & C). exists v1. split; [now apply clone_same|]. split; [exact C|]. eauto.
        - destruct (clone_leaf_some q _ _ v Hc L) as (v1 & L1 & C). pose proof (proj2 (merged_default_leaves q _ _ _ M v1) (or_intror (conj L1 F))) as Lr.
          exists v1. split; [now apply clone_same|]. split; [exact C|]. exists v1. split; [exact Lr | exact (clone_idem _ _ C)]. }
      destruct X as (v1 & S & _ & v2 & L2 & C2). exists v1. split; [exact S|]. apply (clone_leaf q _ _ Hcr). eauto.
    - intros q v' L. apply (clone_leaf q _ _ Hcr) in L as (v2 & L2 & C2). apply (merged_default_leaves q _ _ _ M) in L2 as [L2|(L2 & F)].
      + exists v2. split; [now apply clone_same | now left].
      + apply (clone_leaf q _ _ Hc) in L2 as (v & L & C). exists v. pose proof (clone_idem _ _ C) as C'. assert (v2 = v') by congruence. subst. split; [now apply clone_same | right; auto].
  Qed.

  Theorem extends_says c k s : read_config other fs ord file = Ok (c, false) -> In k ["dir"; "format"; "output"] ->
    (In (k, JStr s) d \/ ((forall k' v, In (k', v) d -> equal_fold k' k = false) /\ says e k s)) ->
    s = (if String.eqb k "dir" then cf_dir c else if String.eqb k "format" then cf_format c else cf_output c).
  Proof.
    intros R Hk H. destruct extends_merge as (e' & r & Hc & Hr & Wr & M).
    destruct (clone_cases (JObj r)) as [(j & Hcr)|Hcr].
    2: { exfalso. apply clone_fails in Hcr. destruct (merged_numbers _ _ _ Wr M _ Hcr) as [I'|I']; [now apply Bd | exact (clone_no_bad _ _ Hc I')]. }
    destruct (clone_obj_inv _ _ Hcr) as (r' & -> & _).
    destruct (read_config_says other fs ord file r r' c Hr Wr Hcr R) as (_ & A & B & C).
    assert (Sd : sorted d) by (now apply wf_obj in Hd). pose proof Wr as Wr'. apply wf_obj in Wr' as (Sr & _).
    assert (Se : sorted e') by (eapply clone_sorted; eassumption).
    destruct (merged_inv _ _ _ _ M) as (m & E & _ & K). injection E as <-.
    assert (S : says r k s).
    { destruct H as [I|(N & He')].
      - left. pose proof (sorted_in_oget k _ d Sd I) as G. specialize (K k). rewrite G in K. apply oget_in.
        inversion K as [|x|x|x y z Ox Oy Mz|x y z Oxy Cz]; subst; [reflexivity | discriminate Ox | injection Cz as <-; congruence].
      - apply (clone_says e e' k s Hc) in He'. assert (G0 : forall k', equal_fold k' k = true -> oget k' d = None).
        { intros k' Ef. destruct (oget k' d) as [v|] eqn:G; [|reflexivity]. apply oget_in in G. rewrite (N _ _ G) in Ef. discriminate. }
        assert (G : forall k', equal_fold k' k = true -> oget k' r = oget k' e').
        { intros k' Ef. specialize (K k'). rewrite (G0 k' Ef) in K. inversion K; congruence. }
        assert (Refl : equal_fold k k = true) by (unfold equal_fold; apply String.eqb_refl).
        destruct He' as [I|(-> & Hn)].
        + left. apply oget_in. rewrite (G k Refl). now apply sorted_in_oget.
        + right. split; [reflexivity|]. intros k' v I Ef. apply (Hn k' v); [|exact Ef]. apply oget_in. rewrite <- (G k' Ef). now apply sorted_in_oget. }
    destruct Hk as [<-|[<-|[<-|[]]]]; cbn [String.eqb Ascii.eqb Bool.eqb]; symmetry; auto.
  Qed.
End Extends.

(** *** Writing to the standard streams *)
Definition to_out (err : bool) : dest := if err then DErr else DOut.
Lemma concat_cons x l : String.concat "" (x :: l) = x +++ String.concat "" l.
Proof. destruct l as [|y l]; [cbn; now rewrite app_nil_r_s | reflexivity]. Qed.
Lemma emit_stream (err : bool) old pieces : forall done w,
  let w' := hd_world w (emit_all (to_out err) old done pieces w) in
  w_out w' = w_out w +++ (if err then "" else String.concat "" pieces) /\ w_err w' = w_err w +++ (if err then String.concat "" pieces else "").
Proof.
  induction pieces as [|x r IH]; intros done w; cbn [emit_all].
  - cbn [hd_world]. destruct err; cbn [String.concat]; split; now rewrite !app_nil_r_s.
  - set (w1 := emit (to_out err) old done x w). specialize (IH (done +++ x) w1). cbn zeta in IH |- *.
    assert (E : hd_world w (emit_all (to_out err) old (done +++ x) r w1 ++ [w1]) = hd_world w1 (emit_all (to_out err) old (done +++ x) r w1)) by (destruct (emit_all (to_out err) old (done +++ x) r w1); reflexivity).
    rewrite E. destruct IH as (A & B). rewrite A, B, concat_cons. unfold w1, to_out. destruct err; cbn [emit w_out w_err]; now rewrite ?app_nil_r_s, ?app_assoc_s.
Qed.
Lemma emit_stream_files (err : bool) old pieces : forall done w, Forall (fun w' => w_files w' = w_files w) (emit_all (to_out err) old done pieces w).
Proof. apply emit_std. destruct err; [now right | now left]. Qed.

Theorem run_stream o level cfg bad scan fmt w c scan_bad (err : bool) :
  (if err then cf_output cfg = "stderr" else cf_output cfg = "stdout" \/ cf_output cfg = "") ->
  scan cfg = Ok (c, scan_bad) -> (forall t, fmt (cf_format cfg) (c_data c) = t -> t <> Panic /\ t <> OutOfFuel) ->
  exists ws, run o level (cfg, bad) scan fmt w = Ok ws /\ Forall (fun w' => w_files w' = w_files w) ws /\
    let text := String.concat "" (os_pieces o (match fmt (cf_format cfg) (c_data c) with Ok t => t | _ => "" end)) in
    let w' := hd_world w ws in
    w_out w' = w_out w +++ (if err then "" else text) /\ w_err w' = w_err w +++ (if err then text else "").
Proof.
  intros Ho Hs Hf. unfold run. cbn [fst snd]. rewrite Hs. cbn [bind fst snd].
  assert (P : forall w2, prepare o level (cf_output cfg) w2 = (to_out err, [w2])).
  { intro w2. unfold prepare. destruct err; [rewrite Ho; reflexivity|]. destruct Ho as [-> | ->]; reflexivity. }
  assert (X : forall b data, exists ws,
    (let '(dd, ws) := prepare o level (cf_output cfg) (log_if b level (log_if scan_bad level (log_if bad level w))) in
     Ok ((if match dd with DNone => negb (String.eqb data "") | _ => os_fails o end then [log_fatal level (hd_world (hd_world (log_if b level (log_if scan_bad level (log_if bad level w))) ws) (match dd with DNone => [] | _ => emit_all dd (match dd with DFile p => match w_files (hd_world (log_if b level (log_if scan_bad level (log_if bad level w))) ws) p with Some x => x | None => "" end | _ => "" end) "" (os_pieces o data) (hd_world (log_if b level (log_if scan_bad level (log_if bad level w))) ws) end))] else []) ++
        (match dd with DNone => [] | _ => emit_all dd (match dd with DFile p => match w_files (hd_world (log_if b level (log_if scan_bad level (log_if bad level w))) ws) p with Some x => x | None => "" end | _ => "" end) "" (os_pieces o data) (hd_world (log_if b level (log_if scan_bad level (log_if bad level w))) ws) end) ++ ws ++ [log_if scan_bad level (log_if bad level w); log_if bad level w; w])) = Ok ws /\
    Forall (fun w' => w_files w' = w_files w) ws /\
    w_out (hd_world w ws) = w_out w +++ (if err then "" else String.concat "" (os_pieces o data)) /\ w_err (hd_world w ws) = w_err w +++ (if err then String.concat "" (os_pieces o data) else "")).
  { intros b data. rewrite P. set (w2 := log_if b level (log_if scan_bad level (log_if bad level w))). cbn [hd_world].
    assert (F2 : w_files w2 = w_files w) by (unfold w2; now rewrite !logif_files).
    assert (O2 : w_out w2 = w_out w /\ w_err w2 = w_err w).
    { unfold w2. destruct (logif_out b level (log_if scan_bad level (log_if bad level w))) as (-> & ->). destruct (logif_out scan_bad level (log_if bad level w)) as (-> & ->). apply logif_out. }
    pose proof (emit_stream err "" (os_pieces o data) "" w2) as (A & B). pose proof (emit_stream_files err "" (os_pieces o data) "" w2) as C.
    set (em := emit_all (to_out err) "" "" (os_pieces o data) w2) in *.
    assert (E1 : forall (T : Type) (a b : T), match to_out err with DNone => a | _ => b end = b) by (intros; now destruct err).
    assert (E2 : forall (f : string -> string), match to_out err with DFile p => f p | _ => "" end = "") by (intros; now destruct err).
    rewrite E2, !E1. fold em. eexists. split; [reflexivity|]. destruct O2 as (Oo & Oe). rewrite Oo in A. rewrite Oe in B.
    assert (Fh : w_files (hd_world w2 em) = w_files w) by (destruct em; [exact F2 | cbn [hd_world]; apply Forall_inv in C; congruence]).
    split.
    - apply Forall_app. split; [destruct (os_fails o); constructor; [now rewrite log_files | constructor]|]. apply Forall_app. split; [eapply Forall_impl; [|exact C]; cbn beta; intros; congruence|].
      repeat constructor; rewrite ?logif_files; auto.
    - assert (Hh : hd_world w (em ++ [w2] ++ [log_if scan_bad level (log_if bad level w); log_if bad level w; w]) = hd_world w2 em) by (destruct em; reflexivity).
      destruct (os_fails o).
      + cbn [app hd_world]. destruct (log_out level (hd_world w2 em)) as (-> & ->). auto.
      + cbn [app] in Hh |- *. rewrite Hh. auto. }
  destruct (fmt (cf_format cfg) (c_data c)) as [t| | |] eqn:E.
  - destruct (X false t) as (ws & R & Q). exists ws. split; [exact R | exact Q].
  - destruct (X true "") as (ws & R & Q). exists ws. split; [exact R | exact Q].
  - destruct (Hf _ eq_refl) as (H & _). now elim H.
  - destruct (Hf _ eq_refl) as (_ & H). now elim H.
Qed.
