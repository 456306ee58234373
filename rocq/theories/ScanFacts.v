(** Scan: what is true of every document on the way. *)
From Coq Require Import String Ascii List Bool Arith ZArith Lia Permutation.
From Verif Require Import GoStr GoStrFacts Json JsonFacts Gabs Container Url Pointer Spec_Clone Spec_Merge CloneFacts MergeFacts MergeApi ConfigApi
  Path Resolver ScanFn Cmds Specs Pkgs Types Root SchemaJson Scan Spec_Scan.
Import ListNotations.
Local Open Scope string_scope.
Local Open Scope list_scope.

(** *** Numbers *)
Lemma numbers_arr l n : In n (numbers (JArr l)) <-> exists x, In x l /\ In n (numbers x).
Proof.
  cbn [numbers]. induction l as [|x l IH]; [split; [intros [] | intros (? & [] & _)]|]. rewrite in_app_iff, IH. split.
  - intros [H|(y & I & H)]; [exists x; split; [now left | exact H] | exists y; split; [now right | exact H]].
  - intros (y & [<-|I] & H); [now left | right; eauto].
Qed.
Lemma oset_in_inv {A} k (x : A) m k' v : In (k', v) (oset k x m) -> (k' = k /\ v = x) \/ In (k', v) m.
Proof.
  induction m as [|[a y] m IH]; cbn [oset].
  - intros [E|[]]. injection E as <- <-. now left.
  - destruct (String.compare k a).
    + intros [E|I]; [injection E as <- <-; now left | right; now right].
    + intros [E|I]; [injection E as <- <-; now left | now right].
    + intros [E|I]; [right; now left|]. destruct (IH I) as [L|R]; [now left | right; now right].
Qed.
Lemma in_set_nth {A} i (x y : A) l : In y (set_nth i x l) -> y = x \/ In y l.
Proof.
  revert i. induction l as [|z l IH]; intros [|i]; cbn [set_nth]; try tauto.
  - intros [<-|I]; [now left | right; now right].
  - intros [<-|I]; [right; now left|]. destruct (IH _ I); [now left | right; now right].
Qed.
Lemma gset_numbers p : forall top v j r n, gset top v p j = Ok r -> In n (numbers r) -> In n (numbers v) \/ In n (numbers j).
Proof.
  induction p as [|s p IH]; intros top v j r n H Hn; cbn [gset] in H.
  - injection H as <-. now left.
  - destruct j as [| | | |l|m]; try discriminate.
    + destruct (String.eqb s "-").
      * destruct top; [discriminate|]. apply bind_ok in H as (c' & H & E). injection E as <-. apply numbers_arr in Hn as (x & I & Hn).
        apply in_app_or in I as [I|[<-|[]]]; [right; apply numbers_arr; eauto|]. destruct (IH _ _ _ _ _ H Hn) as [L|R]; [now left | destruct R].
      * destruct (arr_index s) as [i|]; [|discriminate]. destruct (nth_error l i) as [c|] eqn:Ec; [|discriminate].
        assert (X : exists c', gset false v p c = Ok c' /\ r = JArr (set_nth i c' l)).
        { destruct p as [|a p], c; try discriminate; apply bind_ok in H as (c' & H & E); injection E as <-; eauto. }
        destruct X as (c' & Hc & ->). apply numbers_arr in Hn as (x & I & Hn). apply in_set_nth in I as [->|I]; [|right; apply numbers_arr; eauto].
        destruct (IH _ _ _ _ _ Hc Hn) as [L|R]; [now left|]. right. apply numbers_arr. exists c. split; [eapply nth_error_In; exact Ec | exact R].
    + apply bind_ok in H as (c' & H & E). injection E as <-. apply numbers_obj in Hn as (k & x & I & Hn). apply oset_in_inv in I as [(-> & ->)|I]; [|right; apply numbers_obj; eauto].
      destruct (IH _ _ _ _ _ H Hn) as [L|R]; [now left|]. right.
      destruct (oget s m) as [c|] eqn:Eo; [|destruct R]. assert (R' : In n (numbers c)) by (destruct c; [destruct R | exact R..]).
      apply numbers_obj. exists s, c. split; [now apply oget_in | exact R'].
Qed.
Lemma search_numbers p : forall j v n, search p j = Some v -> In n (numbers v) -> In n (numbers j).
Proof.
  induction p as [|s p IH]; intros j v n H Hn; cbn [search] in H; [now injection H as <-|].
  destruct j as [| | | |l|m]; try discriminate.
  - destruct (String.eqb s "*").
    + destruct (flat_map _ l) as [|y ys] eqn:E; [discriminate|]. injection H as <-. rewrite <- E in Hn. apply numbers_arr in Hn as (x & I & Hn).
      apply in_flat_map in I as (z & I & Hz). destruct (search p z) as [w|] eqn:Ew; [|destruct Hz]. destruct Hz as [<-|[]].
      apply numbers_arr. exists z. split; [exact I | eapply IH; eassumption].
    + destruct (arr_index s) as [i|]; [|discriminate]. destruct (nth_error l i) as [c|] eqn:Ec; [|discriminate]. apply numbers_arr. exists c. split; [eapply nth_error_In; exact Ec | eapply IH; eassumption].
  - destruct (oget s m) as [c|] eqn:Ec; [|discriminate]. apply numbers_obj. exists s, c. split; [now apply oget_in | eapply IH; eassumption].
Qed.

(** *** The document stays an object without unwritable numbers *)
Definition fine (c : cont) : Prop := exists d, c = Some (JObj d) /\ ~ In NBad (numbers (JObj d)).
Lemma fine_clone c : fine c -> exists d, clone (c_data c) = Ok (JObj d).
Proof.
  intros (d & -> & B). destruct (clone_cases (JObj d)) as [(j & Hc)|Hc]; [|exfalso; apply B; now apply clone_fails].
  destruct (clone_obj_inv _ _ Hc) as (d' & -> & _). eauto.
Qed.
Lemma fine_new : fine c_new.
Proof. exists []. split; [reflexivity | intros []]. Qed.
Lemma c_set_fine v s p c c' : fine c -> ~ In NBad (numbers v) -> c_set v (s :: p) c = Ok c' -> fine c'.
Proof.
  intros (d & -> & B) Bv H. cbn [c_set root_set] in H. apply bind_ok in H as (j & H & E). injection E as <-.
  pose proof (gset_numbers (s :: p) true v (JObj d) j) as Hn. cbn [gset] in H. specialize (fun n => Hn n H). apply bind_ok in H as (c' & _ & E). injection E as <-.
  eexists. split; [reflexivity|]. intro I. destruct (Hn _ I); auto.
Qed.
Lemma dot_path_cons p : exists s l, dot_path p = s :: l.
Proof. unfold dot_path. pose proof (split_char_nonempty "." p) as N. destruct (split_char "." p) as [|s l]; [now elim N|]. cbn [map]. eauto. Qed.
Lemma c_setp_fine k v c c' : fine c -> c_setp k v c = Ok c' -> fine c'.
Proof.
  unfold c_setp. intros Hf H. apply bind_ok in H as (x & Hx & H). destruct (dot_path_cons k) as (s & l & E). rewrite E in H.
  eapply c_set_fine; [exact Hf | | exact H]. eapply clone_no_bad. exact Hx.
Qed.
Definition choosing (coll : merger) : Prop := forall x y z, coll x y = Some z -> z = x \/ z = y.
Lemma choosing_section x : In x sections -> choosing (fst x).
Proof. intros I a b z. repeat destruct I as [<-|I]; [..|destruct I]; cbn [fst]; unfold merge_override, merge_strict, merge_default; intro E; try discriminate; injection E as <-; auto. Qed.
Definition clean (c : cont) : Prop := ~ In NBad (numbers (c_data c)).
Lemma fine_clean c : fine c -> clean c.
Proof. now intros (d & -> & B). Qed.
Lemma c_set_clean v p c c' : clean c -> ~ In NBad (numbers v) -> c_set v p c = Ok c' -> clean c'.
Proof.
  intros B Bv H. destruct c as [j|]; [|discriminate]. cbn [c_set] in H. apply bind_ok in H as (j' & H & E). injection E as <-. unfold clean in *. cbn [c_data] in *.
  destruct p as [|s p]; cbn [root_set] in H; [now injection H as <-|]. intro I. destruct (gset_numbers _ _ _ _ _ _ H I) as [I'|I']; [auto|]. destruct j; auto.
Qed.
Lemma c_setp_clean k v c c' : clean c -> c_setp k v c = Ok c' -> clean c'.
Proof. unfold c_setp. intros B H. apply bind_ok in H as (x & Hx & H). eapply c_set_clean; [exact B | | exact H]. eapply clone_no_bad. exact Hx. Qed.
Section Merging.
  Context (P : cont -> Prop) (ord : list string -> list (string * json) -> list (string * json)) (coll : merger).
  Hypothesis Hclean : forall c, P c -> clean c.
  Hypothesis Hset : forall v s p c c', P c -> ~ In NBad (numbers v) -> c_set v (s :: p) c = Ok c' -> P c'.
  Hypothesis Hch : choosing coll.
  Hypothesis Ho : perm_oracle ord.
  Lemma merge_rec_inv : forall fuel path m c c', P c -> ~ In NBad (numbers (JObj m)) -> merge_rec ord coll fuel path m c = Ok c' -> P c'.
  Proof.
    induction fuel as [|fuel IH]; intros path m c c' Hf Hm H; [discriminate|]. cbn [merge_rec] in H.
    assert (Hes : forall k v, In (k, v) (ord path m) -> ~ In NBad (numbers v)).
    { intros k v I B. apply Hm. apply numbers_obj. exists k, v. split; [|exact B]. eapply Permutation_in; [apply Ho | exact I]. }
    remember (ord path m) as es eqn:Ees. clear Ees. revert c Hf H. induction es as [|[k v] es IHe]; intros c Hf H; [now injection H as <-|].
    apply bind_ok in H as (c1 & H1 & H). assert (Bv : ~ In NBad (numbers v)) by (apply (Hes k v); now left).
    assert (Hc1 : P c1).
    { assert (NP : exists s l, path ++ [k] = s :: l) by (destruct path; cbn; eauto). destruct NP as (s & l & NP).
      destruct (c_search (path ++ [k]) c) as [ex|] eqn:Es.
      - assert (Bx : ~ In NBad (numbers ex)) by (intro I; apply (Hclean c Hf); eapply search_numbers; [exact Es | exact I]).
        assert (CO : forall x, coll ex v = Some x -> c_set x (path ++ [k]) c = Ok c1 -> P c1).
        { intros x Ex Hx. rewrite NP in Hx. eapply Hset; [exact Hf | | exact Hx]. destruct (Hch _ _ _ Ex) as [-> | ->]; assumption. }
        destruct v as [| | | | |t]; try (destruct (coll ex _) as [x|] eqn:Ex; [exact (CO x eq_refl H1) | discriminate]).
        destruct ex as [| | | | |t']; try (destruct (coll _ (JObj t)) as [x|] eqn:Ex; [exact (CO x eq_refl H1) | discriminate]).
        exact (IH _ t c c1 Hf Bv H1).
      - rewrite NP in H1. eapply Hset; eassumption. }
    eapply IHe; [|exact Hc1 | exact H]. intros k' v' I. apply (Hes k' v'). now right.
  Qed.
  Lemma c_merge_inv c src c' : P c -> c_merge ord coll c src = Ok c' -> P c'.
  Proof.
    intros Hf H. unfold c_merge, c_clone in H. destruct (clone (c_data src)) as [j| | |] eqn:Ec; cbn [c_data] in H; try (injection H as <-; exact Hf).
    destruct j as [| | | | |m]; try (injection H as <-; exact Hf). eapply merge_rec_inv; try eassumption. eapply clone_no_bad. exact Ec.
  Qed.
End Merging.
Lemma c_merge_fine ord coll c src c' : choosing coll -> perm_oracle ord -> fine c -> c_merge ord coll c src = Ok c' -> fine c'.
Proof. intros Hch Ho. apply (c_merge_inv fine ord coll fine_clean c_set_fine Hch Ho). Qed.
Lemma c_merge_clean ord coll c src c' : choosing coll -> perm_oracle ord -> clean c -> c_merge ord coll c src = Ok c' -> clean c'.
Proof. intros Hch Ho. apply (c_merge_inv clean ord coll (fun c H => H) (fun v s p => c_set_clean v (s :: p)) Hch Ho). Qed.

Lemma containers_fine ord coll l : choosing coll -> (forall n, perm_oracle (ord n)) -> forall n c c', fine c -> containers_merge_from ord coll n c l = Ok c' -> fine c'.
Proof.
  intros Hch Ho. induction l as [|x l IH]; intros n c c' Hf H; cbn [containers_merge_from] in H; [now injection H as <-|].
  apply bind_ok in H as (c1 & H1 & H). eapply IH; [|exact H]. eapply c_merge_fine; eauto.
Qed.
Lemma choosing_strict : choosing merge_strict. Proof. discriminate. Qed.
Lemma choosing_override : choosing merge_override. Proof. intros x y z E. injection E as <-. now right. Qed.
Lemma choosing_default : choosing merge_default. Proof. intros x y z E. injection E as <-. now left. Qed.
Lemma specs_merge_fine ord srt st c : (forall n, perm_oracle (ord n)) -> specs_merge ord srt st = Ok c -> fine c.
Proof. intros Ho H. eapply containers_fine; [exact choosing_strict | exact Ho | exact fine_new | exact H]. Qed.

Lemma merge_root_fine ord root c c' : (forall n, perm_oracle (ord n)) -> fine c -> merge_with_root ord root c = Ok c' -> fine c'.
Proof.
  intros Ho Hf H. unfold merge_with_root in H. apply bind_ok in H as (r & _ & H). revert H. generalize 0 as n. revert c Hf. induction sections as [|x l IH]; intros c Hf n H; cbn [merge_sections] in H; [now injection H as <-|].
  apply bind_ok in H as (c1 & H1 & H). eapply IH; [|exact H]. unfold merge_section in H1. apply bind_ok in H1 as (zn & _ & H1). apply bind_ok in H1 as (yn & _ & H1).
  destruct (zn && yn); [now injection H1 as <-|]. apply bind_ok in H1 as (s1 & _ & H1). apply bind_ok in H1 as (s2 & _ & H1). eapply c_merge_fine; [exact choosing_override | apply Ho | exact Hf | exact H1].
Qed.

(** *** Resolution *)
Lemma on_cx_fine f (s s' : rstate) : (forall c c', fine c -> f c = Ok c' -> fine c') -> fine (fst s) -> on_cx f s = Ok s' -> fine (fst s') /\ (snd s = None <-> snd s' = None).
Proof.
  intros Hf Hs H. unfold on_cx in H. destruct (snd s) as [c|] eqn:E; apply bind_ok in H as (c' & H & E'); injection E' as <-; cbn [fst snd]; (split; [|split; congruence]).
  - exact Hs.
  - eapply Hf; eassumption.
Qed.
Lemma replace_fine k v c c' : fine c -> replace_ptr k v c = Ok c' -> fine c'.
Proof. unfold replace_ptr. intros Hf H. destruct (isref k); [|discriminate]. eapply c_setp_fine; eassumption. Qed.
Lemma update_fine k f c c' : fine c -> update_ptr_local k f c = Ok c' -> fine c'.
Proof. unfold update_ptr_local, update_ptr. intros Hf H. destruct (isref k); [|discriminate]. eapply c_setp_fine; eassumption. Qed.
Lemma r_set_fine es p key v (s s' : rstate) : fine (fst s) -> r_set es p key v s = Ok s' -> fine (fst s') /\ (snd s = None <-> snd s' = None).
Proof.
  intros Hs H. unfold r_set in H. destruct (exports_get es p) as [e|].
  - apply bind_ok in H as (s1 & H1 & H). unfold on_root in H1. apply bind_ok in H1 as (c1 & H1 & E). injection E as <-.
    apply (on_cx_fine _ _ _ (fun c c' => update_fine _ _ c c')) in H; [exact H|]. cbn [fst]. eapply c_setp_fine; [exact Hs | exact H1].
  - apply (on_cx_fine _ _ _ (fun c c' => replace_fine _ _ c c')) in H; [exact H | exact Hs].
Qed.
Lemma r_rec_fine es p key (s s' : rstate) : fine (fst s) -> r_set_recursive es p key s = Ok s' -> fine (fst s') /\ (snd s = None <-> snd s' = None).
Proof.
  intros Hs H. unfold r_set_recursive in H. destruct (exports_get es p) as [e|].
  - destruct (is_scheme e); [apply (on_cx_fine _ _ _ (fun c c' => update_fine _ _ c c')) in H | apply (on_cx_fine _ _ _ (fun c c' => replace_fine _ _ c c')) in H]; assumption.
  - apply (on_cx_fine _ _ _ (fun c c' => replace_fine _ _ c c')) in H; assumption.
Qed.
Lemma iterator_fine ord es fn : forall fuel pos pp s s', fine (fst s) -> iterator ord es fn fuel pos pp s = Ok s' -> fine (fst s') /\ (snd s = None <-> snd s' = None).
Proof.
  induction fuel as [|fuel IH]; intros pos pp s s' Hs H; [discriminate|]. cbn [iterator] in H. apply bind_ok in H as (refs & _ & H). revert H. generalize 0 as i. revert s Hs.
  induction refs as [|[key v] refs IHr]; intros s Hs i H; [injection H as <-; split; [exact Hs | reflexivity]|].
  apply bind_ok in H as (s1 & H1 & H).
  assert (X : fine (fst s1) /\ (snd s = None <-> snd s1 = None)).
  { destruct v; try (injection H1 as <-; split; [exact Hs | reflexivity]). apply bind_ok in H1 as (p & _ & H1). destruct (negb (is_external p)); [injection H1 as <-; split; [exact Hs | reflexivity]|].
    destruct (path_has pp p); [eapply r_rec_fine; eassumption|]. apply bind_ok in H1 as (x & _ & H1). apply bind_ok in H1 as (nc & _ & H1). apply bind_ok in H1 as (r & Hr & H1).
    apply IH in Hr; [|exact Hs]. destruct Hr as (Hr & _). apply r_set_fine in H1; [|exact Hr]. exact H1. }
  destruct X as (F1 & E1). destruct (IHr s1 F1 (S i) H) as (F2 & E2). split; [exact F2 | now rewrite E1].
Qed.
Lemma resolve_fine ord es fn fuel c c' : fine c -> resolve ord es fn fuel c = Ok c' -> fine c'.
Proof.
  intros Hf H. unfold resolve in H. apply bind_ok in H as (s & H & E). injection E as <-.
  assert (Hc : fine (c_clone c)).
  { destruct (fine_clone c Hf) as (d & Hd). unfold c_clone. rewrite Hd. exists d. split; [reflexivity|]. eapply clone_no_bad. exact Hd. }
  apply iterator_fine in H; [|exact Hc]. destruct H as (F & E). cbn [snd] in E. unfold st_cx. now rewrite (proj1 E eq_refl).
Qed.

(** *** Defaults *)
Lemma child_clean c d k v : c = Some (JObj d) -> clean c -> In (k, v) d -> ~ In NBad (numbers v).
Proof. intros -> B I N. apply B. apply numbers_obj. eauto. Qed.
Definition clean_paths (ff : list fpath) : Prop := Forall (fun f => clean (fp_op f)) ff.
Lemma apply_default_fine ord ov i st st' : perm_oracle ord -> fine (fst st) -> clean_paths (snd st) -> apply_default ord ov i st = Ok st' -> fine (fst st') /\ clean_paths (snd st').
Proof.
  intros Ho Hf Hp H. unfold apply_default in H. destruct (nth_error (snd st) i) as [f|] eqn:Ei; [|injection H as <-; auto].
  apply bind_ok in H as (o & _ & H). apply bind_ok in H as (nc & Hn & H). apply bind_ok in H as (c1 & H1 & H). apply bind_ok in H as (c2 & H2 & H). injection H as <-. cbn [fst snd].
  assert (Bf : clean (fp_op f)) by (unfold clean_paths in Hp; rewrite Forall_forall in Hp; apply Hp; eapply nth_error_In; exact Ei).
  assert (Bn : clean nc) by (eapply c_merge_clean; [exact choosing_default | exact Ho | exact Bf | exact Hn]).
  assert (F1 : fine c1) by (destruct (fp_in f); [eapply c_set_fine; [exact Hf | exact Bn | exact H1] | now injection H1 as <-]).
  split; [eapply c_setp_fine; [exact F1 | exact H2]|]. unfold clean_paths. rewrite Forall_forall. intros x I. apply in_map_iff in I as (y & <- & I).
  assert (Hy : clean (fp_op y)) by (apply in_set_nth in I as [->|I]; [exact Bn | unfold clean_paths in Hp; rewrite Forall_forall in Hp; now apply Hp]).
  unfold detach. destruct (list_eq_dec string_dec (op_loc y) (key_loc f)); exact Hy.
Qed.
Lemma apply_defaults_fine (ord : nat -> morder) ov l : (forall i, perm_oracle (ord i)) -> forall st st', fine (fst st) -> clean_paths (snd st) -> apply_defaults ord ov l st = Ok st' -> fine (fst st') /\ clean_paths (snd st').
Proof.
  intro Ho. induction l as [|i l IH]; intros st st' Hf Hp H; cbn [apply_defaults] in H; [injection H as <-; auto|]. apply bind_ok in H as (st1 & H1 & H).
  apply apply_default_fine in H1 as (F & P); auto. eapply IH; eassumption.
Qed.
Lemma defaults_loop_fine (ord : nat -> nat -> morder) defs : (forall n i, perm_oracle (ord n i)) -> forall n st st', fine (fst st) -> clean_paths (snd st) -> defaults_loop ord n defs st = Ok st' -> fine (fst st') /\ clean_paths (snd st').
Proof.
  intro Ho. induction defs as [|[pat ov] defs IH]; intros n st st' Hf Hp H; cbn [defaults_loop] in H; [injection H as <-; auto|]. apply bind_ok in H as (l & _ & H). apply bind_ok in H as (st1 & H1 & H).
  apply apply_defaults_fine in H1 as (F & P); auto. eapply IH; eassumption.
Qed.
Lemma paths_of_clean ordp (ordm : morder) c ff : (forall l, Permutation (ordp l) l) -> perm_oracle ordm -> clean c -> paths_of ordp ordm c = Ok ff -> clean_paths ff.
Proof.
  intros Hp Hm B H. unfold paths_of in H. apply bind_ok in H as (ps & Hc & H).
  assert (Bp : forall p x, In (p, x) ps -> ~ In NBad (numbers x)).
  { intros p x I N. unfold c_children in Hc. destruct (c_path "paths" c) as [j|] eqn:E; cbn [c_data] in Hc; [|injection Hc as <-; destruct I].
    destruct j; try discriminate; injection Hc as <-; [destruct I|]. apply B. eapply search_numbers; [exact E|]. apply numbers_obj. eauto. }
  assert (Bo : forall p x, In (p, x) (ordp ps) -> ~ In NBad (numbers x)) by (intros p x I; apply (Bp p); eapply Permutation_in; [apply Hp | exact I]).
  clear Hc Bp. revert Bo H. generalize (ordp ps). clear ps. intro ps. revert ff. induction ps as [|[p x] ps IH]; intros ff Bo H; cbn [items_of] in H; [injection H as <-; constructor|].
  apply bind_ok in H as (mx & Hx & H). apply bind_ok in H as (ff' & Hf & H). injection H as <-. unfold clean_paths. apply Forall_app. split; [|eapply IH; [intros p' x' I; apply (Bo p'); now right | exact Hf]].
  apply Forall_forall. intros f I. apply in_map_iff in I as ([m v] & <- & I). cbn [fst snd fpath_of fp_op]. unfold clean. cbn [c_data]. intro N.
  apply (Permutation_in _ (Hm [p] mx)) in I. apply (Bo p x); [now left|]. unfold c_children in Hx. cbn [c_data] in Hx. destruct x; try discriminate; injection Hx as <-; [destruct I|]. apply numbers_obj. eauto.
Qed.
Lemma set_paths_defaults_fine ordp (ordm : morder) ordd (ord : nat -> nat -> morder) defops c c' : (forall l, Permutation (ordp l) l) -> perm_oracle ordm -> (forall n i, perm_oracle (ord n i)) ->
  fine c -> set_paths_defaults ordp ordm ordd ord defops c = Ok c' -> fine c'.
Proof.
  intros Hp Hm Ho Hf H. unfold set_paths_defaults in H. apply bind_ok in H as (ff & Hff & H). apply bind_ok in H as (st & Hst & H). injection H as <-.
  apply defaults_loop_fine in Hst; [tauto | exact Ho | exact Hf |]. cbn [snd]. eapply paths_of_clean; try eassumption. now apply fine_clean.
Qed.

(** *** Scan *)
Section Scan.
  Context {F : Type} (pf : string -> option F) (zero : F) (fnum : F -> num) (std : string -> option (schema F)) (a : around) (ch : choices) (de : depths).
  Lemma scan_doc_fine o ss roots c : merging_in_any_order ch -> scan_doc pf zero fnum std a ch de o ss roots = Ok c -> fine c.
  Proof.
    intros (H1 & H2 & H3 & H4 & H5) H. unfold scan_doc in H. apply bind_ok in H as (cm & _ & H). apply bind_ok in H as (es & _ & H). apply bind_ok in H as (st & _ & H). apply bind_ok in H as (c1 & Hc1 & H).
    apply bind_ok in H as (pts & _ & H). apply bind_ok in H as (c2 & Hc2 & H). apply bind_ok in H as (c3 & Hc3 & H).
    eapply set_paths_defaults_fine; [exact H3 | exact H4 | exact H5 | | exact H]. eapply resolve_fine; [|exact Hc3]. eapply merge_root_fine; [exact H2 | | exact Hc2]. exact (specs_merge_fine _ _ _ _ H1 Hc1).
  Qed.
  Lemma on_err_ok {A B} (x : res A) (z : B) f r : on_err x z f = Ok r -> (x = Err /\ r = z) \/ exists v, x = Ok v /\ f v = Ok r.
  Proof. destruct x; cbn; intro H; try discriminate; [right; eauto | left; split; [reflexivity | congruence]]. Qed.
  Theorem scan_always_errs l c e : merging_in_any_order ch -> scan pf zero fnum std a ch de l = Ok (c, e) -> e = true /\ (c = None \/ exists d, c = Some (JObj d)).
  Proof.
    intros Hm H. unfold scan in H. apply on_err_ok in H as [(_ & [= -> ->])|(o & _ & H)]; [auto|].
    apply on_err_ok in H as [(_ & [= -> ->])|(dir & _ & H)]; [auto|]. apply on_err_ok in H as [(_ & [= -> ->])|(lr & _ & H)]; [auto|].
    apply on_err_ok in H as [(_ & [= -> ->])|(c' & Hd & H)]; [auto|]. injection H as <- <-. apply scan_doc_fine in Hd; [|exact Hm].
    destruct (fine_clone c' Hd) as (d & Hc). rewrite Hc. split; [reflexivity|]. right. destruct Hd as (d' & -> & _). eauto.
  Qed.
End Scan.
