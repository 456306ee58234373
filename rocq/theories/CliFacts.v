(** A run of the command: what becomes of the output file. *)
From Coq Require Import String Ascii List Bool Arith Lia.
From Verif Require Import GoStr GoStrFacts Json Container MergeFacts Specs Config Spec_Config Cli.
Import ListNotations.
Local Open Scope string_scope.
Local Open Scope list_scope.

Lemma put_same p x w : w_files (put_file p x w) p = x.
Proof. cbn. now rewrite String.eqb_refl. Qed.
Lemma put_other p x w q : q <> p -> w_files (put_file p x w) q = w_files w q.
Proof. intro H. cbn. now rewrite (proj2 (String.eqb_neq q p) H). Qed.
Lemma log_files level w : w_files (log_fatal level w) = w_files w.
Proof. unfold log_fatal. now destruct (_ || _). Qed.
Lemma log_out level w : w_out (log_fatal level w) = w_out w /\ w_err (log_fatal level w) = w_err w.
Proof. unfold log_fatal. now destruct (_ || _). Qed.
Lemma logif_files b level w : w_files (log_if b level w) = w_files w.
Proof. destruct b; [apply log_files | reflexivity]. Qed.
Lemma logif_out b level w : w_out (log_if b level w) = w_out w /\ w_err (log_if b level w) = w_err w.
Proof. destruct b; [apply log_out | split; reflexivity]. Qed.

(** *** Pieces *)
Lemma prefix_app a b c : has_prefix a b = true -> has_prefix a (b +++ c) = true.
Proof. intro H. apply has_prefix_iff in H as (t & ->). apply has_prefix_iff. exists (t +++ c). apply app_assoc_s. Qed.
Lemma emit_file p old pieces : forall done w, 
  (forall q, q <> p -> Forall (fun w' => w_files w' q = w_files w q) (emit_all (DFile p) old done pieces w)) /\
  Forall (fun w' => exists part, has_prefix part (done +++ String.concat "" pieces) = true /\ w_files w' p = Some (overwrite old part)) (emit_all (DFile p) old done pieces w) /\
  w_files (hd_world w (emit_all (DFile p) old done pieces w)) p = match pieces with [] => w_files w p | _ => Some (overwrite old (done +++ String.concat "" pieces)) end.
Proof.
  assert (Cc : forall x l, String.concat "" (x :: l) = x +++ String.concat "" l).
  { intros x [|y l]; [cbn; now rewrite app_nil_r_s | reflexivity]. }
  induction pieces as [|x r IH]; intros done w; [repeat split; constructor|]. cbn [emit_all emit].
  destruct (IH (done +++ x) (put_file p (Some (overwrite old (done +++ x))) w)) as (A & B & C). rewrite Cc. rewrite app_assoc_s in B, C. split; [|split].
  - intros q Nq. apply Forall_app. split; [|constructor; [now apply put_other | constructor]]. eapply Forall_impl; [|exact (A q Nq)]. cbn beta. intros w' E. rewrite E. now apply put_other.
  - apply Forall_app. split; [exact B|]. constructor; [|constructor]. exists (done +++ x). split; [|apply put_same].
    apply has_prefix_iff. exists (String.concat "" r). now rewrite app_assoc_s.
  - destruct (emit_all (DFile p) old (done +++ x) r (put_file p (Some (overwrite old (done +++ x))) w)) as [|z zs] eqn:E.
    + destruct r as [|y r]; [|cbn [emit_all] in E; apply app_eq_nil in E as (_ & E); discriminate].
      cbn [app hd_world]. rewrite put_same. cbn [String.concat]. now rewrite app_nil_r_s.
    + cbn [app hd_world]. cbn [hd_world] in C. rewrite C. destruct r as [|y r]; [discriminate | reflexivity].
Qed.
Lemma emit_std d old pieces : (d = DOut \/ d = DErr) -> forall done w, Forall (fun w' => w_files w' = w_files w) (emit_all d old done pieces w).
Proof.
  intro Hd. induction pieces as [|x r IH]; intros done w; [constructor|]. cbn [emit_all]. apply Forall_app. split.
  - eapply Forall_impl; [|apply IH]. cbn beta. intros w' E. rewrite E. destruct Hd as [-> | ->]; reflexivity.
  - constructor; [destruct Hd as [-> | ->]; reflexivity | constructor].
Qed.
Lemma overwrite_nil data : overwrite "" data = data.
Proof. unfold overwrite. destruct (String.length data); cbn [skipn_s]; apply app_nil_r_s. Qed.

Section Run.
  Context (o : os) (level : string) (cfg : config) (bad : bool) (scan : config -> res (cont * bool)) (fmt : string -> json -> res string) (w : world).
  Local Notation p := (cf_output cfg).
  Hypothesis Hp : asks_file p.

  (** What is to be written: the formatted document, or nothing if formatting failed. *)
  Definition output_data (c : cont) : string := match fmt (cf_format cfg) (c_data c) with Ok t => t | _ => "" end.

  Lemma prepare_file w2 : w_files w2 = w_files w -> forall d ws, prepare o level p w2 = (d, ws) ->
    let removed := match w_files w p with Some _ => os_remove o p | None => false end in
    let kept := if removed then "" else match w_files w p with Some x => x | None => "" end in
    (os_open o p = true -> d = DFile p /\ w_files (hd_world w2 ws) p = Some kept) /\
    (os_open o p = false -> d = DNone /\ w_files (hd_world w2 ws) p = if removed then None else w_files w p) /\
    ws <> [] /\
    (forall q, q <> p -> Forall (fun w' => w_files w' q = w_files w q) ws) /\
    Forall (fun w' => w_files w' p = w_files w p \/ (removed = true /\ w_files w' p = None) \/ w_files w' p = Some kept) ws /\
    (removed = true -> exists w', In w' ws /\ w_files w' p = None).
  Proof.
    intros Hw d ws E. destruct Hp as (N1 & N2 & N3). unfold prepare in E. rewrite (proj2 (String.eqb_neq _ _) N1), (proj2 (String.eqb_neq _ _) N2), (proj2 (String.eqb_neq _ _) N3) in E. cbn [orb] in E.
    rewrite Hw in E. cbn zeta. set (removed := match w_files w p with Some _ => os_remove o p | None => false end) in *.
    set (w1 := if removed then put_file p None w2 else log_fatal level w2) in *.
    assert (F1 : w_files w1 p = if removed then None else w_files w p) by (unfold w1; destruct removed; [apply put_same | now rewrite log_files, Hw]).
    assert (F2 : forall q, q <> p -> w_files w1 q = w_files w q) by (intros q Nq; unfold w1; destruct removed; [rewrite put_other by exact Nq; now rewrite Hw | now rewrite log_files, Hw]).
    assert (In1 : removed = true -> w_files w1 p = None) by (intro R; now rewrite F1, R).
    destruct (os_open o p) eqn:Op; injection E as <- <-.
    - set (x := match w_files w1 p with Some x => x | None => "" end).
      assert (Ex : x = if removed then "" else match w_files w p with Some y => y | None => "" end) by (unfold x; rewrite F1; now destruct removed).
      split; [intros _; split; [reflexivity|]; cbn [hd_world]; now rewrite put_same, Ex|].
      split; [discriminate|]. split; [discriminate|]. split; [|split].
      + intros q Nq. repeat constructor; [rewrite put_other by exact Nq; auto | auto | now rewrite Hw].
      + constructor; [right; right; now rewrite put_same, Ex|].
        constructor; [rewrite F1; destruct removed; [right; left; auto | now left]|].
        constructor; [left; now rewrite Hw | constructor].
      + intro R. exists w1. split; [right; now left | auto].
    - split; [discriminate|]. split; [intros _; split; [reflexivity|]; cbn [hd_world]; now rewrite log_files, F1|]. split; [discriminate|]. split; [|split].
      + intros q Nq. repeat constructor; [rewrite log_files; auto | auto | now rewrite Hw].
      + constructor; [rewrite log_files, F1; destruct removed; [right; left; auto | now left]|].
        constructor; [rewrite F1; destruct removed; [right; left; auto | now left]|].
        constructor; [left; now rewrite Hw | constructor].
      + intro R. exists w1. split; [right; now left | auto].
  Qed.

  Lemma run_shape c scan_bad : scan cfg = Ok (c, scan_bad) -> (forall t, fmt (cf_format cfg) (c_data c) = t -> t <> Panic /\ t <> OutOfFuel) ->
    exists w2 d ws ws' tail, w_files w2 = w_files w /\ prepare o level p w2 = (d, ws) /\
      run o level (cfg, bad) scan fmt w = Ok (tail ++ ws' ++ ws ++ [log_if scan_bad level (log_if bad level w); log_if bad level w; w]) /\
      (tail = [] \/ exists last, tail = [log_fatal level last] /\ last = hd_world (hd_world w2 ws) ws') /\
      ws' = match d with DNone => [] | _ => emit_all d (match d with DFile q => match w_files (hd_world w2 ws) q with Some x => x | None => "" end | _ => "" end) "" (os_pieces o (output_data c)) (hd_world w2 ws) end.
  Proof.
    intros Hs Hf. unfold run, output_data. cbn [fst snd]. rewrite Hs. cbn [bind fst snd].
    destruct (fmt (cf_format cfg) (c_data c)) as [t| | |] eqn:E.
    - destruct (prepare o level p (log_if false level (log_if scan_bad level (log_if bad level w)))) as [d ws] eqn:Ep.
      exists (log_if false level (log_if scan_bad level (log_if bad level w))), d, ws. eexists _, _. split; [cbn [log_if]; now rewrite !logif_files|]. split; [exact Ep|]. split; [reflexivity|].
      split; [|reflexivity]. destruct (match d with DNone => _ | _ => _ end); [right; eexists; split; reflexivity | now left].
    - destruct (prepare o level p (log_if true level (log_if scan_bad level (log_if bad level w)))) as [d ws] eqn:Ep.
      exists (log_if true level (log_if scan_bad level (log_if bad level w))), d, ws. eexists _, _. split; [now rewrite !logif_files|]. split; [exact Ep|]. split; [reflexivity|].
      split; [|reflexivity]. destruct (match d with DNone => _ | _ => _ end); [right; eexists; split; reflexivity | now left].
    - destruct (Hf _ eq_refl) as (H & _). now elim H.
    - destruct (Hf _ eq_refl) as (_ & H). now elim H.
  Qed.

  Theorem run_file c scan_bad : scan cfg = Ok (c, scan_bad) -> (forall t, fmt (cf_format cfg) (c_data c) = t -> t <> Panic /\ t <> OutOfFuel) ->
    exists ws, run o level (cfg, bad) scan fmt w = Ok ws /\
      (** the end: *)
      (os_open o p = true -> String.concat "" (os_pieces o (output_data c)) = output_data c ->
         (w_files w p = None \/ os_remove o p = true -> w_files (hd_world w ws) p = Some (output_data c)) /\
         (forall old, w_files w p = Some old -> os_remove o p = false -> w_files (hd_world w ws) p = Some (overwrite old (output_data c)))) /\
      (** every moment: *)
      (forall w', In w' ws -> (forall q, q <> p -> w_files w' q = w_files w q) /\
         (w_files w' p = w_files w p \/ w_files w' p = None \/
          (exists part, w_files w' p = Some part /\ has_prefix part (String.concat "" (os_pieces o (output_data c))) = true) \/
          (exists part old, w_files w p = Some old /\ os_remove o p = false /\ w_files w' p = Some (overwrite old part)))) /\
      (forall old, w_files w p = Some old -> os_remove o p = true -> exists w', In w' ws /\ w_files w' p = None).
  Proof.
    intros Hs Hf. destruct (run_shape c scan_bad Hs Hf) as (w2 & d & ws & ws' & tail & Hw2 & Ep & Er & Ht & Ews').
    eexists. split; [exact Er|]. pose proof (prepare_file w2 Hw2 d ws Ep) as (Po & Pn & Ne & Pq & Pp & Prm). cbn zeta in Po, Pn, Pp, Prm.
    set (removed := match w_files w p with Some _ => os_remove o p | None => false end) in *.
    set (kept := if removed then "" else match w_files w p with Some x => x | None => "" end) in *.
    set (data := output_data c) in *. set (head := hd_world w2 ws) in *.
    assert (HD : forall q, w_files (hd_world w (tail ++ ws' ++ ws ++ [log_if scan_bad level (log_if bad level w); log_if bad level w; w])) q = w_files (hd_world head ws') q).
    { intro q. destruct Ht as [-> | (l & -> & ->)]; [|cbn [app hd_world]; now rewrite log_files]. cbn [app]. destruct ws' as [|x y]; [|reflexivity]. cbn [app]. destruct ws as [|x y]; [now elim Ne | reflexivity]. }
    assert (TL : forall w', In w' (tail ++ ws' ++ ws ++ [log_if scan_bad level (log_if bad level w); log_if bad level w; w]) -> exists w'', w_files w' = w_files w'' /\ (In w'' ws' \/ In w'' ws \/ w_files w'' = w_files w)).
    { assert (Hh : forall x l, In (hd_world x l) (x :: l)) by (intros x [|y l]; [now left | right; now left]).
      intros w' I. apply in_app_or in I as [I|I]; [|apply in_app_or in I as [I|I]; [|apply in_app_or in I as [I|I]]].
      - destruct Ht as [-> | (l & -> & ->)]; [destruct I|]. destruct I as [<-|[]]. exists (hd_world head ws'). split; [now rewrite log_files|].
        destruct (Hh head ws') as [E|I]; [|now left]. rewrite <- E. right. left. unfold head. destruct ws as [|x y]; [now elim Ne | now left].
      - exists w'. auto.
      - exists w'. auto.
      - exists w'. split; [reflexivity|]. right. right. destruct I as [<-|[<-|[<-|[]]]]; now rewrite ?logif_files. }
    assert (OPEN : os_open o p = true -> d = DFile p /\ ws' = emit_all (DFile p) kept "" (os_pieces o data) head).
    { intro Op. destruct (Po Op) as (-> & Ek). split; [reflexivity|]. rewrite Ews'. fold head in Ek |- *. now rewrite Ek. }
    split; [|split].
    - intros Op Hd. destruct (OPEN Op) as (_ & Ew). destruct (emit_file p kept (os_pieces o data) "" head) as (_ & _ & C). rewrite <- Ew in C. destruct (Po Op) as (_ & Ek). fold head in Ek.
      assert (Fin : w_files (hd_world head ws') p = Some (overwrite kept data)).
      { rewrite C. cbn [append]. rewrite Hd. destruct (os_pieces o data) as [|x r]; [|reflexivity]. cbn [String.concat] in Hd. rewrite <- Hd, Ek. reflexivity. }
      split.
      + intro K. rewrite HD, Fin. assert (Ek' : kept = "") by (unfold kept, removed; destruct K as [K|K]; [now rewrite K|]; rewrite K; now destruct (w_files w p)). now rewrite Ek', overwrite_nil.
      + intros old Eo Er'. rewrite HD, Fin. unfold kept, removed. now rewrite Eo, Er'.
    - intros w' I. destruct (TL w' I) as (w'' & E & K). rewrite E. clear I E w'.
      assert (D : os_open o p = true \/ ws' = []).
      { destruct (os_open o p) eqn:Op; [now left|]. right. destruct (Pn eq_refl) as (-> & _). exact Ews'. }
      destruct K as [K|[K|K]].
      + destruct D as [Op|D]; [|rewrite D in K; destruct K]. destruct (OPEN Op) as (_ & Ew). destruct (emit_file p kept (os_pieces o data) "" head) as (A & B & _). rewrite <- Ew in A, B.
        split.
        * intros q Nq. specialize (A q Nq). rewrite Forall_forall in A. rewrite (A w'' K). specialize (Pq q Nq). rewrite Forall_forall in Pq. unfold head. destruct ws as [|x y]; [now elim Ne|]. apply Pq. now left.
        * rewrite Forall_forall in B. destruct (B w'' K) as (part & Hpre & Ew'). cbn [append] in Hpre. right. right.
          unfold kept, removed in Ew'. destruct (w_files w p) as [old|] eqn:Eo.
          -- destruct (os_remove o p) eqn:Er'; [left; exists part; rewrite overwrite_nil in Ew'; auto | right; exists part, old; auto].
          -- left. exists part. rewrite overwrite_nil in Ew'. auto.
      + split; [intros q Nq; specialize (Pq q Nq); rewrite Forall_forall in Pq; now apply Pq|]. rewrite Forall_forall in Pp. destruct (Pp w'' K) as [E|[(_ & E)|E]]; [now left | right; now left|].
        unfold kept, removed in E. destruct (w_files w p) as [old|] eqn:Eo.
        * destruct (os_remove o p) eqn:Er'; [right; right; left; exists ""; split; [exact E | reflexivity]|]. left. exact E.
        * right. right. left. exists "". split; [exact E | reflexivity].
      + split; [intros q _; now rewrite K | left; now rewrite K].
    - intros old Eo Er'. destruct Prm as (w' & I & E); [unfold removed; now rewrite Eo|]. exists w'. split; [|exact E]. apply in_or_app. right. apply in_or_app. right. apply in_or_app. now left.
  Qed.
End Run.

(** With the default log level nothing is reported; and no failure short of a
    panic changes the exit status. *)
Lemma run_quiet o cfg scan fmt w ws : run o "nolog" cfg scan fmt w = Ok ws -> Forall (fun w' => w_logged w' = w_logged w) ws.
Proof.
  unfold run. intro H. apply bind_ok in H as ([c b] & _ & H). cbn [fst snd] in H.
  assert (L : forall w, log_fatal "nolog" w = w) by reflexivity. assert (L2 : forall b w, log_if b "nolog" w = w) by (intros [] ?; reflexivity). rewrite !L2 in H.
  assert (E : forall d old done ps w0, Forall (fun w' => w_logged w' = w_logged w0) (emit_all d old done ps w0)).
  { intros d old done ps. revert done. induction ps as [|x r IH]; intros done w0; [constructor|]. cbn [emit_all]. apply Forall_app. split.
    - eapply Forall_impl; [|apply IH]. cbn beta. intros w' E. rewrite E. now destruct d.
    - constructor; [now destruct d | constructor]. }
  assert (P : forall out d l, prepare o "nolog" out w = (d, l) -> Forall (fun w' => w_logged w' = w_logged w) l).
  { intros out d l. unfold prepare. destruct (String.eqb out "stdout" || String.eqb out ""); [intro K; injection K as _ <-; repeat constructor|].
    destruct (String.eqb out "stderr"); [intro K; injection K as _ <-; repeat constructor|]. rewrite !L.
    destruct (match w_files w out with Some _ => os_remove o out | None => false end), (os_open o out); intro K; injection K as _ <-; repeat constructor. }
  assert (Q : forall (b1 : bool) (d : dest) l old data b2, prepare o "nolog" (cf_output (fst cfg)) w = (d, l) ->
    Forall (fun w' => w_logged w' = w_logged w) ((if b2 : bool then [log_fatal "nolog" (hd_world (hd_world w l) (match d with DNone => [] | _ => emit_all d old "" (os_pieces o data) (hd_world w l) end))] else []) ++
      (match d with DNone => [] | _ => emit_all d old "" (os_pieces o data) (hd_world w l) end) ++ l ++ [w; w; w])).
  { intros b1 d l old data b2 K. specialize (P _ _ _ K). assert (Hh : w_logged (hd_world w l) = w_logged w) by (destruct l; [reflexivity | now inversion P]).
    set (ws' := match d with DNone => [] | _ => emit_all d old "" (os_pieces o data) (hd_world w l) end).
    assert (Hw : Forall (fun w' => w_logged w' = w_logged w) ws') by (unfold ws'; destruct d; try constructor; rewrite <- Hh; apply E).
    apply Forall_app. split; [|apply Forall_app; split; [exact Hw | apply Forall_app; split; [exact P | repeat constructor]]].
    destruct b2; constructor; [|constructor]. rewrite L. destruct ws'; [exact Hh | now inversion Hw]. }
  destruct (fmt (cf_format (fst cfg)) (c_data c)) as [t| | |]; try discriminate; rewrite ?L2 in H; destruct (prepare o "nolog" (cf_output (fst cfg)) w) as [d l] eqn:K; injection H as <-; now apply Q.
Qed.
