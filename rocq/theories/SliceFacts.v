(** Facts about fragments as slices. *)
From Coq Require Import String Ascii List Bool Arith Lia.
From Verif Require Import GoStr GoStrFacts Pointer FragFacts Slices Spec_Slices.
Import ListNotations.
Local Open Scope string_scope.
Local Open Scope nat_scope.
Local Open Scope list_scope.

Definition valid (h : sheap) (s : slice) : Prop := s_arr s < length h /\ s_len s <= s_cap h s.

Lemma alloc_old h l n s : s_arr s < length h -> s_cells (fst (alloc h l n)) s = s_cells h s.
Proof. intro H. unfold s_cells. cbn. now rewrite app_nth1. Qed.
Lemma alloc_new h l n : s_val (fst (alloc h l n)) (snd (alloc h l n)) = l /\ valid (fst (alloc h l n)) (snd (alloc h l n)).
Proof.
  unfold s_val, valid, s_cap, s_cells. cbn. rewrite app_nth2 by lia. rewrite Nat.sub_diag. cbn.
  split.
  - rewrite firstn_app, Nat.sub_diag, firstn_O, app_nil_r. apply firstn_all.
  - rewrite !app_length, repeat_length. cbn. lia.
Qed.
Lemma alloc_valid h l n s : valid h s -> valid (fst (alloc h l n)) s.
Proof.
  intros [H1 H2]. unfold valid, s_cap. rewrite alloc_old by exact H1. split; [|exact H2]. cbn. rewrite app_length. lia.
Qed.
Lemma alloc_val h l n s : valid h s -> s_val (fst (alloc h l n)) s = s_val h s.
Proof. intros [H1 H2]. unfold s_val. now rewrite alloc_old. Qed.

Lemma update_length {A} n (f : A -> A) l : length (update n f l) = length l.
Proof. revert n; induction l as [|x l IH]; intros [|n]; cbn; auto. Qed.
Lemma update_nth {A} n (f : A -> A) l m d : n < length l -> nth m (update n f l) d = if m =? n then f (nth m l d) else nth m l d.
Proof.
  revert n m; induction l as [|x l IH]; intros n m H; cbn in H; [lia|].
  destruct n, m; cbn; try reflexivity. apply IH. lia.
Qed.
Lemma write_at_length i l c : i + length l <= length c -> length (write_at i l c) = length c.
Proof. intro H. unfold write_at. rewrite !app_length, firstn_length, skipn_length. lia. Qed.
Lemma write_at_firstn i l c : i + length l <= length c -> firstn (i + length l) (write_at i l c) = firstn i c ++ l.
Proof.
  intro H. unfold write_at. rewrite app_assoc. rewrite firstn_app.
  assert (length (firstn i c ++ l) = i + length l) as E by (rewrite app_length, firstn_length; lia).
  rewrite E, Nat.sub_diag, firstn_O, app_nil_r. rewrite <- E. apply firstn_all.
Qed.
Lemma write_at_below i l c k : k <= i -> i <= length c -> firstn k (write_at i l c) = firstn k c.
Proof.
  intros H Hc. unfold write_at. rewrite firstn_app. rewrite firstn_firstn, firstn_length.
  replace (Nat.min k i) with k by lia. replace (k - Nat.min i (length c)) with 0 by lia.
  rewrite firstn_O. apply app_nil_r.
Qed.

(** append: the result's value; old slices keep theirs when the runtime
    reallocates, or when they live in another array or are not longer than the
    slice appended to. *)
Lemma append_spec g h s l : valid h s ->
  let '(h', s') := s_append g h s l in
  s_val h' s' = s_val h s ++ l /\ valid h' s' /\
  forall t, valid h t -> valid h' t /\
    (s_cap h s < s_len s + length l \/ s_arr t <> s_arr s \/ s_len t <= s_len s -> s_val h' t = s_val h t).
Proof.
  intros [Ha Hl]. unfold s_append. destruct (Nat.leb_spec (s_len s + length l) (s_cap h s)) as [Hle|Hgt].
  - assert (Hc : forall t, s_cells (update (s_arr s) (write_at (s_len s) l) h) t =
      if s_arr t =? s_arr s then write_at (s_len s) l (s_cells h t) else s_cells h t).
    { intro t. unfold s_cells. now rewrite update_nth. }
    assert (Heq : forall t, s_arr t = s_arr s -> s_cells h t = s_cells h s) by (intros t E; unfold s_cells; now rewrite E).
    split; [|split].
    + unfold s_val at 1. rewrite Hc. cbn [s_arr s_len]. rewrite Nat.eqb_refl.
      unfold s_cells at 1. cbn [s_arr]. fold (s_cells h s). now rewrite write_at_firstn.
    + unfold valid, s_cap. rewrite Hc. cbn [s_arr s_len]. rewrite Nat.eqb_refl, update_length. split; [exact Ha|].
      unfold s_cells. cbn [s_arr]. fold (s_cells h s). rewrite write_at_length by exact Hle. exact Hle.
    + intros t [T1 T2]. split.
      * unfold valid, s_cap. rewrite Hc, update_length. split; [exact T1|].
        destruct (Nat.eqb_spec (s_arr t) (s_arr s)) as [E|N]; [|exact T2].
        rewrite write_at_length; [exact T2|]. rewrite (Heq _ E). exact Hle.
      * intro H. unfold s_val. rewrite Hc. destruct (Nat.eqb_spec (s_arr t) (s_arr s)) as [E|N]; [|reflexivity].
        apply write_at_below; [|rewrite (Heq _ E); exact Hl].
        destruct H as [H|[H|H]]; [lia | congruence | exact H].
  - pose proof (alloc_new h (s_val h s ++ l) g) as [N1 N2]. destruct (alloc h (s_val h s ++ l) g) as [h' s'] eqn:E. cbn [fst snd] in *.
    split; [exact N1|]. split; [exact N2|]. intros t Ht.
    pose proof (alloc_valid h (s_val h s ++ l) g t Ht) as V. pose proof (alloc_val h (s_val h s ++ l) g t Ht) as W.
    rewrite E in V, W. auto.
Qed.

Definition ok_state (st : sheap * list slice) (vs : list fragment) : Prop :=
  Forall2 (fun s v => valid (fst st) s /\ s_val (fst st) s = v) (snd st) vs.

Lemma ok_nth st vs i s : ok_state st vs -> nth_error (snd st) i = Some s ->
  exists v, nth_error vs i = Some v /\ valid (fst st) s /\ s_val (fst st) s = v.
Proof.
  unfold ok_state. intro H. revert i. induction H as [|a b l l' Hab _ IH]; intros [|i] Hi; cbn in *; try discriminate.
  - injection Hi as <-. exists b. tauto.
  - apply IH, Hi.
Qed.
Lemma ok_nth_none st vs i : ok_state st vs -> nth_error (snd st) i = None -> nth_error vs i = None.
Proof.
  unfold ok_state. intro H. revert i. induction H as [|a b l l' Hab _ IH]; intros [|i] Hi; cbn in *; try discriminate; auto.
Qed.

Lemma ok_extend h ss vs h' s' v : ok_state (h, ss) vs ->
  (forall t, valid h t -> valid h' t /\ s_val h' t = s_val h t) -> valid h' s' -> s_val h' s' = v ->
  ok_state (h', ss ++ [s']) (vs ++ [v]).
Proof.
  unfold ok_state. cbn. intros H Hp Hv Hs. apply Forall2_app; [|constructor; auto].
  induction H as [|s x l l' [V E] _ IH]; constructor; [|exact IH].
  destruct (Hp s V) as [V' E']. split; [exact V' | congruence].
Qed.

Lemma alloc_keep h l n : forall t, valid h t -> valid (fst (alloc h l n)) t /\ s_val (fst (alloc h l n)) t = s_val h t.
Proof. intros t Ht. split; [now apply alloc_valid | now apply alloc_val]. Qed.

Lemma append_keep g h s l : valid h s -> full h s -> forall t, valid h t ->
  valid (fst (s_append g h s l)) t /\ s_val (fst (s_append g h s l)) t = s_val h t.
Proof.
  intros Hs Hf t Ht. pose proof (append_spec g h s l Hs) as A. destruct (s_append g h s l) as [h' s'] eqn:E. cbn [fst].
  destruct A as (_ & _ & A). destruct (A t Ht) as [V W]. split; [exact V|].
  destruct l as [|x l].
  - (* nothing written *)
    unfold s_append in E. cbn [length] in E. rewrite Nat.add_0_r in E.
    destruct (Nat.leb_spec (s_len s) (s_cap h s)) as [_|G]; [|unfold full in Hf; lia].
    injection E as <- _. unfold s_val, s_cells. destruct Hs as [Ha Hl]. rewrite update_nth by exact Ha.
    destruct (Nat.eqb_spec (s_arr t) (s_arr s)); [|reflexivity]. unfold write_at. cbn. rewrite Nat.add_0_r, firstn_skipn. reflexivity.
  - apply W. left. cbn [length]. unfold full in Hf. lia.
Qed.

Lemma step_ok st vs o : ok_state st vs ->
  match o with
  | ODesc i _ _ | ORaw i _ _ => forall s, nth_error (snd st) i = Some s -> full (fst st) s
  | _ => True
  end ->
  match sstep st o, vstep vs o with
  | Some st', Some vs' => ok_state st' vs'
  | None, None => True
  | _, _ => False
  end.
Proof.
  intros Hok Hf. destruct st as [h ss]. destruct o as [s| |i|i g p|i g l]; cbn [sstep vstep].
  - unfold s_parse. pose proof (parse_never_panics s) as [N1 N2]. destruct (parse_fragment s) as [f| | |]; cbn [bind]; try congruence; auto.
    destruct (alloc_new h f 0) as [A1 A2]. eapply ok_extend; [exact Hok | apply alloc_keep | exact A2 | exact A1].
  - eapply ok_extend; [exact Hok | | |].
    + intros t [T1 T2]. unfold s_new_pointer, valid, s_val, s_cap, s_cells. cbn [fst]. rewrite app_nth1 by exact T1.
      split; [split; [rewrite app_length; lia | exact T2] | reflexivity].
    + unfold valid, s_cap, s_cells. cbn [fst snd s_new_pointer s_arr s_len]. rewrite app_length. split; [cbn; lia | lia].
    + reflexivity.
  - destruct (nth_error ss i) as [s|] eqn:E.
    + destruct (ok_nth (h, ss) vs i s Hok E) as (v & -> & Hv & Hs). cbn [option_map].
      unfold s_clone. destruct (alloc_new h (s_val h s) 0) as [A1 A2].
      eapply ok_extend; [exact Hok | apply alloc_keep | exact A2 |]. now rewrite A1.
    + now rewrite (ok_nth_none (h, ss) vs i Hok E).
  - destruct (nth_error ss i) as [s|] eqn:E.
    + destruct (ok_nth (h, ss) vs i s Hok E) as (v & -> & Hv & Hs). cbn [fst snd] in *. specialize (Hf s E).
      unfold s_descendant, descendant, s_parse.
      destruct (parse_fragment (if has_prefix "/" p then p else "/" +++ p)) as [d| | |] eqn:P; cbn [bind].
      * destruct (alloc_new h d 0) as [A1 A2]. pose proof (alloc_keep h d 0) as K.
        destruct (alloc h d 0) as [h1 sd] eqn:EA. cbn [fst snd] in *.
        destruct (K s Hv) as [Kv Ks]. rewrite Ks, Hs, A1.
        destruct (String.eqb (frag_string v) "/").
        -- eapply ok_extend; [exact Hok | exact K | exact A2 | exact A1].
        -- assert (full h1 s) as Hf1.
           { unfold full, s_cap. destruct Hv as [Hv1 _]. unfold alloc in EA. injection EA as <- _. unfold s_cells. rewrite app_nth1 by exact Hv1. exact Hf. }
           pose proof (append_spec g h1 s d Kv) as AS. pose proof (append_keep g h1 s d Kv Hf1) as AK.
           destruct (s_append g h1 s d) as [h2 s2]. cbn [fst snd] in *. destruct AS as (B1 & B2 & _).
           eapply ok_extend; [exact Hok | | exact B2 | congruence].
           intros t Ht. destruct (K t Ht) as [K1 K2]. destruct (AK t K1) as [L1 L2]. split; [exact L1 | congruence].
      * exact I.
      * exfalso. destruct (parse_never_panics (if has_prefix "/" p then p else "/" +++ p)) as [A B]; congruence.
      * exfalso. destruct (parse_never_panics (if has_prefix "/" p then p else "/" +++ p)) as [A B]; congruence.
    + now rewrite (ok_nth_none (h, ss) vs i Hok E).
  - destruct (nth_error ss i) as [s|] eqn:E.
    + destruct (ok_nth (h, ss) vs i s Hok E) as (v & -> & Hv & Hs). cbn [fst snd option_map] in *. specialize (Hf s E).
      unfold s_raw_descendant, raw_descendant. pose proof (append_spec g h s l Hv) as AS. pose proof (append_keep g h s l Hv Hf) as AK.
      destruct (s_append g h s l) as [h2 s2]. cbn [fst snd] in *. destruct AS as (B1 & B2 & _).
      eapply ok_extend; [exact Hok | exact AK | exact B2 | congruence].
    + now rewrite (ok_nth_none (h, ss) vs i Hok E).
Qed.

Theorem run_ok ops : forall st vs, ok_state st vs -> from_full st ops ->
  match srun st ops, vrun vs ops with
  | Some st', Some vs' => ok_state st' vs'
  | None, None => True
  | _, _ => False
  end.
Proof.
  induction ops as [|o ops IH]; intros st vs Hok Hf; cbn; [exact Hok|].
  destruct Hf as [Hf1 Hf2]. pose proof (step_ok st vs o Hok Hf1) as S.
  destruct (sstep st o) as [st'|], (vstep vs o) as [vs'|]; try tauto. now apply IH.
Qed.

Theorem history_ok ops h ss vs : from_full ([], []) ops -> srun ([], []) ops = Some (h, ss) -> vrun [] ops = Some vs ->
  map (s_val h) ss = vs.
Proof.
  intros Hf Hs Hv. pose proof (run_ok ops ([], []) [] (Forall2_nil _) Hf) as H. rewrite Hs, Hv in H.
  unfold ok_state in H. cbn in H. clear - H. induction H as [|s v l l' [_ E] _ IH]; cbn; [reflexivity | now rewrite E, IH].
Qed.

Theorem parse_full h s h' s' : s_parse h s = Ok (h', s') -> full h' s'.
Proof.
  unfold s_parse. destruct (parse_fragment s) as [f| | |]; cbn; try discriminate. intros [= <- <-].
  unfold full, s_cap, s_cells. cbn. rewrite app_nth2 by lia. rewrite Nat.sub_diag. cbn. rewrite app_length. cbn. lia.
Qed.
Theorem clone_full h s : let '(h', s') := s_clone h s in full h' s'.
Proof.
  unfold s_clone, alloc. unfold full, s_cap, s_cells. cbn. rewrite app_nth2 by lia. rewrite Nat.sub_diag. cbn. rewrite app_length. cbn. lia.
Qed.
