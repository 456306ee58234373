(** Trees in memory: representation with footprints. *)
From Coq Require Import String Ascii List Bool Arith ZArith Lia Permutation.
From Verif Require Import GoStr GoStrFacts Json JsonFacts Gabs Container SetFacts HeapCont Spec_Heap.
Import ListNotations.
Local Open Scope string_scope.
Local Open Scope nat_scope.
Local Open Scope list_scope.

Definition apartl (F G : list nat) : Prop := forall a, In a F -> In a G -> False.
Section Rep.
  Context (h : heap).
  (** [v] is a tree of its own with value [j], made of the cells in the list. *)
  Inductive rep : hv -> json -> list nat -> Prop :=
  | rep_null : rep HNull JNull []
  | rep_bool b : rep (HBool b) (JBool b) []
  | rep_num n : rep (HNum n) (JNum n) []
  | rep_str s : rep (HStr s) (JStr s) []
  | rep_arr a l js F : nth_error h a = Some (CArr l) -> reps l js F -> ~ In a F -> rep (HRef a) (JArr js) (a :: F)
  | rep_obj a m js F : nth_error h a = Some (CObj m) -> sorted m -> repm m js F -> ~ In a F -> rep (HRef a) (JObj js) (a :: F)
  with reps : list hv -> list json -> list nat -> Prop :=
  | reps_nil : reps [] [] []
  | reps_cons v j F l js G : rep v j F -> reps l js G -> apartl F G -> reps (v :: l) (j :: js) (F ++ G)
  with repm : list (string * hv) -> list (string * json) -> list nat -> Prop :=
  | repm_nil : repm [] [] []
  | repm_cons k v j F l js G : rep v j F -> repm l js G -> apartl F G -> repm ((k, v) :: l) ((k, j) :: js) (F ++ G).
End Rep.
Scheme rep_i := Minimality for rep Sort Prop with reps_i := Minimality for reps Sort Prop with repm_i := Minimality for repm Sort Prop.
Combined Scheme rep_all from rep_i, reps_i, repm_i.

Definition agree (h h' : heap) (F : list nat) : Prop := forall a, In a F -> nth_error h' a = nth_error h a.

Lemma rep_frame_all h h' :
  (forall v j F, rep h v j F -> agree h h' F -> rep h' v j F) /\
  (forall v j F, reps h v j F -> agree h h' F -> reps h' v j F) /\
  (forall v j F, repm h v j F -> agree h h' F -> repm h' v j F).
Proof.
  apply rep_all; intros; try (now constructor).
  - econstructor; [rewrite H3; [eassumption | now left] | | assumption]. apply H1. intros b Hb. apply H3. now right.
  - econstructor; [rewrite H4; [eassumption | now left] | assumption | | assumption]. apply H2. intros b Hb. apply H4. now right.
  - constructor; [apply H0 | apply H2 | assumption]; intros b Hb; apply H4; apply in_app_iff; auto.
  - constructor; [apply H0 | apply H2 | assumption]; intros b Hb; apply H4; apply in_app_iff; auto.
Qed.
Lemma rep_frame h h' v j F : rep h v j F -> agree h h' F -> rep h' v j F.
Proof. apply rep_frame_all. Qed.
Lemma repm_frame h h' m js F : repm h m js F -> agree h h' F -> repm h' m js F.
Proof. apply rep_frame_all. Qed.
Lemma reps_frame h h' m js F : reps h m js F -> agree h h' F -> reps h' m js F.
Proof. apply rep_frame_all. Qed.

Lemma rep_bound_all h :
  (forall v j F, rep h v j F -> forall a, In a F -> a < length h) /\
  (forall v j F, reps h v j F -> forall a, In a F -> a < length h) /\
  (forall v j F, repm h v j F -> forall a, In a F -> a < length h).
Proof.
  apply rep_all; intros; try contradiction.
  - destruct H3 as [<-|H3]; [apply nth_error_Some; congruence | auto].
  - destruct H4 as [<-|H4]; [apply nth_error_Some; congruence | auto].
  - apply in_app_iff in H4 as [?|?]; auto.
  - apply in_app_iff in H4 as [?|?]; auto.
Qed.
Lemma rep_bound h v j F a : rep h v j F -> In a F -> a < length h.
Proof. intro H. apply (proj1 (rep_bound_all h) v j F H). Qed.
Lemma repm_bound h v j F a : repm h v j F -> In a F -> a < length h.
Proof. intro H. apply (proj2 (proj2 (rep_bound_all h)) v j F H). Qed.
Lemma reps_bound h v j F a : reps h v j F -> In a F -> a < length h.
Proof. intro H. apply (proj1 (proj2 (rep_bound_all h)) v j F H). Qed.

Lemma NoDup_app_ {A} (F G : list A) : NoDup F -> NoDup G -> (forall a, In a F -> In a G -> False) -> NoDup (F ++ G).
Proof.
  induction F as [|x F IH]; intros HF HG D; [exact HG|]. inversion HF as [|? ? N HF']; subst. cbn [app]. constructor.
  - intro K. apply in_app_iff in K as [K|K]; [contradiction | exact (D x (or_introl eq_refl) K)].
  - apply IH; [assumption | assumption|]. intros a Ha. apply D. now right.
Qed.
Lemma rep_size_all h :
  (forall v j F, rep h v j F -> NoDup F /\ height j <= length F) /\
  (forall v j F, reps h v j F -> NoDup F /\ Forall (fun x => height x <= length F) j) /\
  (forall v j F, repm h v j F -> NoDup F /\ Forall (fun kx => height (snd kx) <= length F) j).
Proof.
  assert (A : forall l N, Forall (fun x => height x <= N) l -> height (JArr l) <= S N).
  { intros l N H. cbn [height]. apply le_n_S. induction H as [|x r Hx Hr IH]; [lia|]. now apply Nat.max_lub. }
  assert (O : forall m N, Forall (fun kx : string * json => height (snd kx) <= N) m -> height (JObj m) <= S N).
  { intros l N H. cbn [height]. apply le_n_S. induction H as [|[k x] r Hx Hr IH]; [lia|]. now apply Nat.max_lub. }
  apply rep_all; intros; try (split; [constructor | cbn; lia]).
  - destruct H1. split; [now constructor | cbn [length]; now apply A].
  - destruct H2. split; [now constructor | cbn [length]; now apply O].
  - split; constructor.
  - destruct H0, H2. split; [now apply NoDup_app_|]. rewrite app_length. constructor; [lia|].
    eapply Forall_impl; [|eassumption]. cbn. intros; lia.
  - split; constructor.
  - destruct H0, H2. split; [now apply NoDup_app_|]. rewrite app_length. constructor; [cbn; lia|].
    eapply Forall_impl; [|eassumption]. cbn. intros; lia.
Qed.
Lemma rep_height h v j F : rep h v j F -> height j <= length h.
Proof.
  intro H. destruct (proj1 (rep_size_all h) v j F H) as (N & L). etransitivity; [exact L|].
  rewrite <- (seq_length (length h) 0). apply (NoDup_incl_length N). intros a Ha. apply in_seq. pose proof (rep_bound _ _ _ _ _ H Ha). lia.
Qed.

Lemma rep_read_all h :
  (forall v j F, rep h v j F -> forall n, height j <= n -> hread n h v = Some j) /\
  (forall v j F, reps h v j F -> forall n, Forall (fun x => height x <= n) j -> opt_all (map (hread n h) v) = Some j) /\
  (forall v j F, repm h v j F -> forall n, Forall (fun kx => height (snd kx) <= n) j -> opt_all (map (fun kv => option_map (pair (fst kv)) (hread n h (snd kv))) v) = Some j).
Proof.
  assert (A : forall l N, height (JArr l) <= S N -> Forall (fun x => height x <= N) l).
  { intros l N H. cbn [height] in H. apply le_S_n in H. induction l as [|x r IH]; constructor; [lia | apply IH; lia]. }
  assert (O : forall m N, height (JObj m) <= S N -> Forall (fun kx : string * json => height (snd kx) <= N) m).
  { intros l N H. cbn [height] in H. apply le_S_n in H. induction l as [|[k x] r IH]; constructor; [cbn [snd]; lia | apply IH; lia]. }
  apply rep_all; intros; try (destruct n0; reflexivity); try (destruct n; reflexivity).
  - destruct n as [|n]; [cbn in H3; lia|]. cbn [hread]. rewrite H. rewrite H1 by now apply A. reflexivity.
  - destruct n as [|n]; [cbn in H4; lia|]. cbn [hread]. rewrite H. rewrite H2 by now apply O. reflexivity.
  - inversion H4; subst. cbn [map opt_all]. rewrite H0, H2 by assumption. reflexivity.
  - inversion H4; subst. cbn [map opt_all fst snd]. rewrite H0, H2 by assumption. reflexivity.
Qed.
Lemma rep_marshal h v j F : rep h v j F -> hmarshal h v = Some j.
Proof. intro H. apply (proj1 (rep_read_all h) v j F H). pose proof (rep_height _ _ _ _ H). lia. Qed.

Lemma repm_keys h m js F : repm h m js F -> map fst js = map fst m.
Proof. induction 1; [reflexivity|]. cbn [map fst]. now rewrite IHrepm. Qed.
Lemma sorted_same_keys {A B} (m : list (string * A)) : forall (m' : list (string * B)), map fst m' = map fst m -> sorted m -> sorted m'.
Proof.
  induction m as [|[k v] m IH]; intros [|[k' v'] m'] E H; try discriminate; [exact I|]. cbn [map fst] in E. injection E as -> E.
  cbn [sorted] in *. destruct H as (H1 & H2). split; [|now apply IH]. destruct m as [|[k2 v2] m], m' as [|[k3 v3] m']; try discriminate; [exact I|]. cbn in E. injection E as -> _. exact H1.
Qed.
Lemma rep_wf_all h : (forall v j F, rep h v j F -> wf j) /\ (forall v j F, reps h v j F -> Forall wf j) /\ (forall v j F, repm h v j F -> Forall (fun kv => wf (snd kv)) j).
Proof.
  apply rep_all; intros; try exact I; try (now constructor).
  - now apply wf_arr.
  - apply wf_obj. split; [|assumption]. eapply sorted_same_keys; [eapply repm_keys; eassumption | assumption].
Qed.
Lemma rep_wf h v j F : rep h v j F -> wf j.
Proof. apply rep_wf_all. Qed.

(** Reachable cells are the footprint. *)
Lemma rep_reach_all h :
  (forall v j F, rep h v j F -> forall a, reach h v a <-> In a F) /\
  (forall l j F, reps h l j F -> forall a, (exists v, In v l /\ reach h v a) <-> In a F) /\
  (forall m j F, repm h m j F -> forall a, (exists k v, In (k, v) m /\ reach h v a) <-> In a F).
Proof.
  apply rep_all; intros.
  1-4: split; [inversion 1 | contradiction].
  - split.
    + inversion 1; subst; [now left | |]; rewrite H in *; [|discriminate]. right. apply H1. match goal with E : Some _ = Some _ |- _ => injection E as -> end. eauto.
    + intros [->|K]; [constructor|]. apply H1 in K as (v & K1 & K2). eapply reach_arr; eassumption.
  - split.
    + inversion 1; subst; [now left | |]; rewrite H in *; [discriminate|]. right. apply H2. match goal with E : Some _ = Some _ |- _ => injection E as -> end. eauto.
    + intros [->|K]; [constructor|]. apply H2 in K as (k & v & K1 & K2). eapply reach_obj; eassumption.
  - split; [intros (v & [] & _) | contradiction].
  - rewrite in_app_iff, <- H0, <- H2. split.
    + intros (w & [<-|K] & R); [now left | right; eauto].
    + intros [R|(w & K & R)]; [exists v; split; [now left | exact R] | exists w; split; [now right | exact R]].
  - split; [intros (k & v & [] & _) | contradiction].
  - rewrite in_app_iff, <- H0, <- H2. split.
    + intros (k' & w & [E|K] & R); [injection E as <- <-; now left | right; eauto].
    + intros [R|(k' & w & K & R)]; [exists k, v; split; [now left | exact R] | exists k', w; split; [now right | exact R]].
Qed.
Lemma rep_reach h v j F a : rep h v j F -> (reach h v a <-> In a F).
Proof. intro H. apply (proj1 (rep_reach_all h) v j F H). Qed.

(** ** Allocation *)
Lemma agree_app h t F : (forall a, In a F -> a < length h) -> agree h (h ++ t) F.
Proof. intros H a Ha. apply nth_error_app1. now apply H. Qed.
Definition fresh (h : heap) (F : list nat) : Prop := forall a, In a F -> length h <= a.
Definition grows (h h' : heap) : Prop := exists t, h' = h ++ t.
Lemma grows_refl h : grows h h. Proof. exists []. now rewrite app_nil_r. Qed.
Lemma grows_trans a b c : grows a b -> grows b c -> grows a c.
Proof. intros (t & ->) (u & ->). exists (t ++ u). now rewrite app_assoc. Qed.
Lemma grows_one h c : grows h (h ++ [c]). Proof. now exists [c]. Qed.
Lemma grows_len h h' : grows h h' -> length h <= length h'.
Proof. intros (t & ->). rewrite app_length. lia. Qed.
Lemma grows_nth h h' a : grows h h' -> a < length h -> nth_error h' a = nth_error h a.
Proof. intros (t & ->) H. now apply nth_error_app1. Qed.
Lemma grows_rep h h' v j F : grows h h' -> rep h v j F -> rep h' v j F.
Proof. intros G H. apply (rep_frame h); [exact H|]. intros a Ha. apply grows_nth; [exact G|]. now apply (rep_bound h v j F). Qed.
Lemma grows_repm h h' v j F : grows h h' -> repm h v j F -> repm h' v j F.
Proof. intros G H. apply (repm_frame h); [exact H|]. intros a Ha. apply grows_nth; [exact G|]. now apply (repm_bound h v j F). Qed.
Lemma grows_reps h h' v j F : grows h h' -> reps h v j F -> reps h' v j F.
Proof. intros G H. apply (reps_frame h); [exact H|]. intros a Ha. apply grows_nth; [exact G|]. now apply (reps_bound h v j F). Qed.
Lemma nth_new {A} (h : list A) c : nth_error (h ++ [c]) (length h) = Some c.
Proof. rewrite nth_error_app2, Nat.sub_diag by lia. reflexivity. Qed.

Fixpoint alloc_list (h : heap) (l : list json) : heap * list hv :=
  match l with
  | [] => (h, [])
  | x :: r => let (h1, v) := halloc h x in let (h2, vs) := alloc_list h1 r in (h2, v :: vs)
  end.
Fixpoint alloc_map (h : heap) (m : list (string * json)) : heap * list (string * hv) :=
  match m with
  | [] => (h, [])
  | (k, x) :: r => let (h1, v) := halloc h x in let (h2, vs) := alloc_map h1 r in (h2, (k, v) :: vs)
  end.
Lemma halloc_arr h l : halloc h (JArr l) = let (h1, vs) := alloc_list h l in alloc_cell h1 (CArr vs).
Proof. reflexivity. Qed.
Lemma halloc_obj h m : halloc h (JObj m) = let (h1, vs) := alloc_map h m in alloc_cell h1 (CObj vs).
Proof. reflexivity. Qed.

Lemma halloc_rep j : wf j -> forall h, exists F, rep (fst (halloc h j)) (snd (halloc h j)) j F /\ grows h (fst (halloc h j)) /\ fresh h F.
Proof.
  induction j as [|b|n|s|l IH|m IH] using json_induction; intros W h.
  1-4: exists []; (split; [constructor | split; [apply grows_refl | intros a []]]).
  - rewrite halloc_arr. apply wf_arr in W.
    assert (K : exists F, reps (fst (alloc_list h l)) (snd (alloc_list h l)) l F /\ grows h (fst (alloc_list h l)) /\ fresh h F).
    { clear - IH W. revert h. induction l as [|x r IHr]; intro h; [exists []; split; [constructor | split; [apply grows_refl | intros a []]]|].
      inversion IH as [|? ? Hx Hr]; inversion W as [|? ? Wx Wr]; subst. cbn [alloc_list].
      destruct (Hx Wx h) as (F & R1 & G1 & N1). destruct (halloc h x) as [h1 v]. cbn [fst snd] in *.
      destruct (IHr Hr Wr h1) as (G & R2 & G2 & N2). destruct (alloc_list h1 r) as [h2 vs]. cbn [fst snd] in *.
      exists (F ++ G). split; [|split].
      - constructor; [now apply (grows_rep h1) | exact R2|]. intros a Ha Hb. pose proof (rep_bound _ _ _ _ _ R1 Ha). specialize (N2 a Hb). lia.
      - now apply (grows_trans _ h1).
      - intros a Ha. apply in_app_iff in Ha as [Ha|Ha]; [now apply N1|]. specialize (N2 a Ha). pose proof (grows_len _ _ G1). lia. }
    destruct K as (F & R & G & N). destruct (alloc_list h l) as [h1 vs]. cbn [fst snd alloc_cell] in *. exists (length h1 :: F). split; [|split].
    + apply (rep_arr _ (length h1) vs); [apply nth_new | now apply (grows_reps h1); [apply grows_one|] |]. intro Ha. pose proof (reps_bound _ _ _ _ _ R Ha). lia.
    + apply (grows_trans _ h1); [exact G | apply grows_one].
    + intros a [<-|Ha]; [now apply grows_len | now apply N].
  - rewrite halloc_obj. apply wf_obj in W as (Ws & W).
    assert (K : exists F, repm (fst (alloc_map h m)) (snd (alloc_map h m)) m F /\ grows h (fst (alloc_map h m)) /\ fresh h F).
    { clear - IH W. revert h. induction m as [|[k x] r IHr]; intro h; [exists []; split; [constructor | split; [apply grows_refl | intros a []]]|].
      inversion IH as [|? ? Hx Hr]; inversion W as [|? ? Wx Wr]; subst. cbn [snd] in Hx, Wx. cbn [alloc_map].
      destruct (Hx Wx h) as (F & R1 & G1 & N1). destruct (halloc h x) as [h1 v]. cbn [fst snd] in *.
      destruct (IHr Hr Wr h1) as (G & R2 & G2 & N2). destruct (alloc_map h1 r) as [h2 vs]. cbn [fst snd] in *.
      exists (F ++ G). split; [|split].
      - constructor; [now apply (grows_rep h1) | exact R2|]. intros a Ha Hb. pose proof (rep_bound _ _ _ _ _ R1 Ha). specialize (N2 a Hb). lia.
      - now apply (grows_trans _ h1).
      - intros a Ha. apply in_app_iff in Ha as [Ha|Ha]; [now apply N1|]. specialize (N2 a Ha). pose proof (grows_len _ _ G1). lia. }
    destruct K as (F & R & G & N). destruct (alloc_map h m) as [h1 vs]. cbn [fst snd alloc_cell] in *. exists (length h1 :: F). split; [|split].
    + apply (rep_obj _ (length h1) vs); [apply nth_new | | now apply (grows_repm h1); [apply grows_one|] |].
      * eapply sorted_same_keys; [symmetry; eapply repm_keys; exact R | exact Ws].
      * intro Ha. pose proof (repm_bound _ _ _ _ _ R Ha). lia.
    + apply (grows_trans _ h1); [exact G | apply grows_one].
    + intros a [<-|Ha]; [now apply grows_len | now apply N].
Qed.

(** ** One entry of a map or slice, and the rest *)
Lemma repm_focus h k m : forall js F, sorted m -> repm h m js F ->
  exists G R, (forall a, In a F <-> In a G \/ In a R) /\ apartl G R /\
    (match oget k m, oget k js with Some c, Some j => rep h c j G | None, None => G = [] | _, _ => False end) /\
    repm h (odel k m) (odel k js) R /\
    (forall h' c' j' G', agree h h' R -> rep h' c' j' G' -> apartl G' R ->
      exists F', repm h' (oset k c' m) (oset k j' js) F' /\ forall a, In a F' <-> In a G' \/ In a R).
Proof.
  induction m as [|[k1 v1] m IH]; intros js F S H; inversion H as [|? ? j1 F1 ? js' F2 H1 H5 H6]; subst.
  - exists [], []. split; [cbn; tauto|]. split; [intros a []|]. split; [reflexivity|]. split; [constructor|].
    intros h' c' j' G' _ Hc _. cbn [oset]. exists (G' ++ []). split; [constructor; [exact Hc | constructor | intros a _ []]|]. intro a. rewrite in_app_iff. tauto.
  - rename js' into js. cbn [oget odel oset].
    pose proof (sorted_tail _ _ _ S) as S'. destruct (String.eqb k k1) eqn:E.
    + apply String.eqb_eq in E as ->. exists F1, F2. split; [intro a; now rewrite in_app_iff|]. split; [assumption|]. split; [assumption|]. split; [assumption|].
      intros h' c' j' G' Ag Hc D. rewrite scmp_refl. exists (G' ++ F2). split; [|intro a; now rewrite in_app_iff].
      constructor; [exact Hc | now apply (repm_frame h) | exact D].
    + destruct (IH js F2 S' H5) as (G & R & U & D & M & Dl & Rb).
      assert (DG : apartl G F1) by (intros a Ha Hb; apply (H6 a Hb); apply U; now left).
      assert (DR : apartl F1 R) by (intros a Ha Hb; apply (H6 a Ha); apply U; now right).
      exists G, (F1 ++ R). split; [intro a; rewrite !in_app_iff, U; tauto|].
      split; [intros a Ha Hb; apply in_app_iff in Hb as [Hb|Hb]; [exact (DG a Ha Hb) | exact (D a Ha Hb)]|].
      split; [exact M|]. split; [constructor; assumption|].
      intros h' c' j' G' Ag Hc D'.
      assert (A1 : agree h h' F1) by (intros a Ha; apply Ag; apply in_app_iff; now left).
      assert (A2 : agree h h' R) by (intros a Ha; apply Ag; apply in_app_iff; now right).
      assert (D2 : apartl G' R) by (intros a Ha Hb; apply (D' a Ha); apply in_app_iff; now right).
      assert (D1 : apartl G' F1) by (intros a Ha Hb; apply (D' a Ha); apply in_app_iff; now left).
      destruct (Rb h' c' j' G' A2 Hc D2) as (F' & Rm & U').
      destruct (String.compare k k1) eqn:C.
      * apply scmp_eq in C. subst. rewrite String.eqb_refl in E. discriminate.
      * (* inserted in front: k does not occur *)
        assert (N : odel k m = m /\ odel k js = js).
        { assert (Q : forall B (l : list (string * B)), sorted l -> (forall k', In k' (map fst l) -> String.compare k k' = Lt) -> odel k l = l).
          { intros B l. induction l as [|[k2 v2] l IHl]; intros Sl Hl; [reflexivity|]. cbn [odel]. destruct (String.eqb k k2) eqn:Q.
            - apply String.eqb_eq in Q as ->. specialize (Hl k2 (or_introl eq_refl)). rewrite scmp_refl in Hl. discriminate.
            - f_equal. apply IHl; [eapply sorted_tail, Sl|]. intros k' Hk. apply Hl. now right. }
          assert (L : forall k', In k' (map fst m) -> String.compare k k' = Lt).
          { intros k' Hk. apply in_map_iff in Hk as ([k2 v2] & <- & Hk). eapply scmp_trans; [exact C|]. exact (sorted_lt _ _ _ S _ _ Hk). }
          split; apply Q; [exact S' | exact L | |].
          - eapply sorted_same_keys; [exact (repm_keys _ _ _ _ H5) | exact S'].
          - rewrite (repm_keys _ _ _ _ H5). exact L. }
        destruct N as (N1 & N2). rewrite N1, N2 in Dl.
        exists (G' ++ (F1 ++ R)). split; [|intro a; rewrite !in_app_iff; tauto].
        constructor; [exact Hc | constructor; [now apply (rep_frame h) | now apply (repm_frame h) | exact DR] | exact D'].
      * exists (F1 ++ F'). split; [|intro a; rewrite !in_app_iff, U'; tauto].
        constructor; [now apply (rep_frame h) | exact Rm|]. intros a Ha Hb. apply U' in Hb as [Hb|Hb]; [exact (D1 a Hb Ha) | exact (DR a Ha Hb)].
Qed.

Lemma reps_focus h i : forall l js F c, reps h l js F -> nth_error l i = Some c ->
  exists j G R, nth_error js i = Some j /\ (forall a, In a F <-> In a G \/ In a R) /\ apartl G R /\ rep h c j G /\
    (forall h' c' j' G', agree h h' R -> rep h' c' j' G' -> apartl G' R ->
      exists F', reps h' (set_nth i c' l) (set_nth i j' js) F' /\ forall a, In a F' <-> In a G' \/ In a R).
Proof.
  induction i as [|i IH]; intros l js F c H E; destruct H as [|v j F1 l js F2 H1 H2 D12]; try discriminate; cbn [nth_error] in E.
  - injection E as <-. exists j, F1, F2. split; [reflexivity|]. split; [intro a; now rewrite in_app_iff|]. split; [exact D12|]. split; [exact H1|].
    intros h' c' j' G' Ag Hc D. cbn [set_nth]. exists (G' ++ F2). split; [constructor; [exact Hc | now apply (reps_frame h) | exact D]|]. intro a; now rewrite in_app_iff.
  - destruct (IH l js F2 c H2 E) as (j0 & G & R & Ej & U & D & Hc0 & Rb).
    assert (DG : apartl G F1) by (intros a Ha Hb; apply (D12 a Hb); apply U; now left).
    assert (DR : apartl F1 R) by (intros a Ha Hb; apply (D12 a Ha); apply U; now right).
    exists j0, G, (F1 ++ R). split; [exact Ej|]. split; [intro a; rewrite !in_app_iff, U; tauto|].
    split; [intros a Ha Hb; apply in_app_iff in Hb as [Hb|Hb]; [exact (DG a Ha Hb) | exact (D a Ha Hb)]|]. split; [exact Hc0|].
    intros h' c' j' G' Ag Hc D'.
    assert (A1 : agree h h' F1) by (intros a Ha; apply Ag; apply in_app_iff; now left).
    assert (A2 : agree h h' R) by (intros a Ha; apply Ag; apply in_app_iff; now right).
    assert (D2 : apartl G' R) by (intros a Ha Hb; apply (D' a Ha); apply in_app_iff; now right).
    assert (D1 : apartl G' F1) by (intros a Ha Hb; apply (D' a Ha); apply in_app_iff; now left).
    destruct (Rb h' c' j' G' A2 Hc D2) as (F' & Rm & U'). cbn [set_nth]. exists (F1 ++ F'). split; [|intro a; rewrite !in_app_iff, U'; tauto].
    constructor; [now apply (rep_frame h) | exact Rm|]. intros a Ha Hb. apply U' in Hb as [Hb|Hb]; [exact (D1 a Hb Ha) | exact (DR a Ha Hb)].
Qed.
Lemma reps_none h i : forall l js F, reps h l js F -> nth_error l i = None -> nth_error js i = None.
Proof. induction i as [|i IH]; intros l js F H E; destruct H; try discriminate; try reflexivity. cbn [nth_error] in *. eapply IH; eassumption. Qed.
Lemma reps_app h v j G : forall l js F, reps h l js F -> rep h v j G -> apartl F G ->
  exists F', reps h (l ++ [v]) (js ++ [j]) F' /\ forall a, In a F' <-> In a F \/ In a G.
Proof.
  intros l js F H Hv. induction H as [|w x F1 l js F2 H1 H2 IH D12]; intro D.
  - exists (G ++ []). split; [constructor; [exact Hv | constructor | intros a _ []]|]. intro a. rewrite in_app_iff. cbn; tauto.
  - destruct IH as (F' & R & U). { intros a Ha. apply D. apply in_app_iff. now right. }
    exists (F1 ++ F'). split; [|intro a; rewrite !in_app_iff, U; tauto]. cbn [app]. constructor; [exact H1 | exact R|].
    intros a Ha Hb. apply U in Hb as [Hb|Hb]; [exact (D12 a Ha Hb) | apply (D a); [apply in_app_iff; now left | exact Hb]].
Qed.
