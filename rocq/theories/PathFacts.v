(** path/filepath: cleaning, joining and making paths absolute. *)
From Coq Require Import String Ascii List Bool Arith Lia.
From Verif Require Import GoStr GoStrFacts Path Spec_Path.
Import ListNotations.
Local Open Scope string_scope.
Local Open Scope list_scope.

Lemma abs_rooted p : is_abs p = true <-> rooted p.
Proof.
  unfold is_abs, rooted. rewrite has_prefix_iff. split; intros (t & E); exists t; exact E.
Qed.
Lemma abs_rooted_not p : is_abs p = false <-> ~ rooted p.
Proof. rewrite <- abs_rooted. destruct (is_abs p); split; congruence. Qed.

Lemma abs_cons c r : is_abs (String c r) = Ascii.eqb "/" c.
Proof. unfold is_abs. cbn [has_prefix]. apply andb_true_r. Qed.
Lemma abs_join c x l : Ascii.eqb "/" c = false -> is_abs (join "/" (String c x :: l)) = false.
Proof. intro H. destruct l as [|y l]; [change (join "/" [String c x]) with (String c x) | change (join "/" (String c x :: y :: l)) with (String c (x +++ "/" +++ join "/" (y :: l)))]; now rewrite abs_cons. Qed.
Lemma rev_repeat {A} (x : A) n : rev (repeat x n) = repeat x n.
Proof. induction n as [|n IH]; [reflexivity|]. cbn [repeat rev]. rewrite IH. symmetry. exact (repeat_cons n x). Qed.
(** The stack kept by Clean: names on top of leading dot-dots. *)
Definition stack_ok (r : bool) (out : list string) : Prop :=
  exists l n, out = l ++ repeat ".." n /\ Forall name_ok l /\ (r = true -> n = 0).
Lemma name_neq e : name_ok e -> String.eqb e "" = false /\ String.eqb e "." = false /\ String.eqb e ".." = false.
Proof. intros (A & B & C & _). rewrite !String.eqb_neq. auto. Qed.
Lemma step_ok r out e : has_char "/" e = false -> stack_ok r out -> stack_ok r (clean_step r out e).
Proof.
  intros He (l & n & -> & Hl & Hr). unfold clean_step.
  destruct (String.eqb_spec e "") as [->|N1]; [now exists l, n|]. destruct (String.eqb_spec e ".") as [->|N2]; [now exists l, n|]. cbn [orb].
  destruct (String.eqb_spec e "..") as [->|N3].
  - destruct l as [|x l]; cbn [app].
    + destruct n as [|n]; cbn [repeat].
      * destruct r; [exists [], 0; auto | exists [], 1; repeat split; [constructor | discriminate]].
      * cbn. exists [], (S (S n)). repeat split; [constructor|]. intro; specialize (Hr H); discriminate.
    + inversion Hl as [|? ? Hx Hl']; subst. destruct (name_neq x Hx) as (_ & _ & ->). now exists l, n.
  - exists (e :: l), n. split; [reflexivity|]. split; [|exact Hr]. constructor; [|exact Hl]. repeat split; auto.
Qed.
Lemma fold_ok r es : Forall (fun e => has_char "/" e = false) es -> forall out, stack_ok r out -> stack_ok r (fold_left (clean_step r) es out).
Proof. induction 1 as [|e es He _ IH]; intros out H; [exact H|]. cbn [fold_left]. apply IH. now apply step_ok. Qed.
Lemma elems_ok p : stack_ok (is_abs p) (fold_left (clean_step (is_abs p)) (split_char "/" p) []).
Proof. apply fold_ok; [apply split_char_no_sep | exists [], 0; repeat split; constructor]. Qed.
Lemma elems_shape p : exists n l, clean_elems p = repeat ".." n ++ l /\ Forall name_ok l /\ (is_abs p = true -> n = 0).
Proof.
  destruct (elems_ok p) as (l & n & E & Hl & Hr). exists n, (rev l). unfold clean_elems. rewrite E, rev_app_distr, rev_repeat.
  split; [reflexivity|]. split; [now apply Forall_rev | exact Hr].
Qed.
Lemma dots_ok n : Forall (fun e => has_char "/" e = false) (repeat ".." n).
Proof. induction n; constructor; auto. Qed.
Lemma elems_nosep p : Forall (fun e => has_char "/" e = false) (clean_elems p).
Proof.
  destruct (elems_shape p) as (n & l & -> & Hl & _). apply Forall_app. split; [apply dots_ok|]. eapply Forall_impl; [|exact Hl]. intros e (_ & _ & _ & H). exact H.
Qed.
Lemma clean_eq p : clean p = if is_abs p then String "/" (join "/" (clean_elems p)) else match clean_elems p with [] => "." | l => join "/" l end.
Proof.
  unfold clean. destruct (is_abs p) eqn:A; [reflexivity|]. destruct (clean_elems p) as [|e l] eqn:E; [reflexivity|].
  destruct (String.eqb_spec (join "/" (e :: l)) "") as [J|]; [|reflexivity]. exfalso.
  assert (N : e <> "").
  { destruct (elems_shape p) as (n & l' & E' & Hl & _). rewrite E in E'. destruct n as [|n]; cbn in E'; [|injection E' as -> _; discriminate].
    subst l'. inversion Hl as [|? ? (H & _)]; auto. }
  destruct e as [|c e]; [now elim N|]. destruct l; discriminate.
Qed.
Lemma clean_shortest p : shortest (clean p).
Proof.
  rewrite clean_eq. destruct (elems_shape p) as (n & l & E & Hl & Hr). unfold shortest. destruct (is_abs p) eqn:A.
  - rewrite (Hr eq_refl) in E. cbn [repeat app] in E. rewrite E. destruct l as [|x l]; [now left|]. right. right. left. exists (x :: l). split; [discriminate | auto].
  - rewrite E. destruct (repeat ".." n ++ l) as [|x r] eqn:R; [right; now left|]. right. right. right. exists n, l. split; [|rewrite R; auto].
    destruct n; cbn in R; [rewrite R; cbn; lia | lia].
Qed.
Lemma clean_abs p : is_abs (clean p) = is_abs p.
Proof.
  rewrite clean_eq. destruct (is_abs p) eqn:A; [reflexivity|].
  destruct (elems_shape p) as (n & l & E & Hl & _). rewrite E. destruct n as [|n].
  - cbn [repeat app]. destruct l as [|x l]; [reflexivity|]. inversion Hl as [|? ? (N & _ & _ & C) _]; subst. destruct x as [|c x]; [now elim N|].
    cbn [has_char] in C. apply orb_false_iff in C as (C & _). now apply abs_join.
  - cbn [repeat app]. destruct (repeat ".." n ++ l); reflexivity.
Qed.

Lemma split_join' l : l <> [] -> Forall (fun e => has_char "/" e = false) l -> split_char "/" (join "/" l) = l.
Proof. exact (split_join "/"%char l). Qed.
(** *** Locations *)
Lemma name_push loc e : name_ok e -> go_to loc e = e :: loc.
Proof. intro H. destruct (name_neq e H) as (A & B & C). unfold go_to. now rewrite A, B, C. Qed.
Lemma fold_walk r es : forall base out, (r = true -> base = []) -> Forall (fun e => has_char "/" e = false) es -> stack_ok r out ->
  fold_left go_to (rev (fold_left (clean_step r) es out)) base = fold_left go_to es (fold_left go_to (rev out) base).
Proof.
  induction es as [|e es IH]; intros base out Hb Hs Ho; [reflexivity|]. inversion Hs as [|? ? He Hs']; subst. cbn [fold_left].
  rewrite IH; [|exact Hb | exact Hs' | now apply step_ok]. f_equal. destruct Ho as (l & n & -> & Hl & Hr). unfold clean_step. unfold go_to at 2.
  destruct (String.eqb_spec e "") as [->|N1]; [reflexivity|]. destruct (String.eqb_spec e ".") as [->|N2]; [reflexivity|]. cbn [orb].
  destruct (String.eqb_spec e "..") as [->|N3].
  - destruct l as [|x l]; cbn [app].
    + destruct n as [|n]; cbn [repeat].
      * destruct r; [rewrite (Hb eq_refl); reflexivity | reflexivity].
      * change (String.eqb ".." "..") with true. cbn iota. cbn [rev]. rewrite !fold_left_app. reflexivity.
    + inversion Hl as [|? ? Hx Hl']; subst. destruct (name_neq x Hx) as (_ & _ & ->). cbn [rev]. rewrite fold_left_app. cbn [fold_left]. now rewrite (name_push _ x Hx).
  - cbn [rev]. rewrite fold_left_app. cbn [fold_left]. rewrite name_push; [reflexivity|]. repeat split; auto.
Qed.
Lemma walk_clean base p : (is_abs p = true -> base = []) -> walk_to base (clean p) = walk_to base p.
Proof.
  intro Hb. pose proof (fold_walk (is_abs p) (split_char "/" p) base [] Hb (split_char_no_sep _ _)) as W. cbn [rev fold_left] in W.
  unfold walk_to at 2. rewrite <- W by (exists [], 0; repeat split; constructor). fold (clean_elems p). rewrite clean_eq. unfold walk_to. destruct (is_abs p).
  - cbn [split_char]. change (Ascii.eqb "/" "/") with true. cbn iota. cbn [fold_left]. change (go_to base "") with base.
    destruct (clean_elems p) as [|x l] eqn:E; [reflexivity|]. rewrite (split_join' (x :: l)); [reflexivity | discriminate | rewrite <- E; apply elems_nosep].
  - destruct (clean_elems p) as [|x l] eqn:E; [reflexivity|]. rewrite (split_join' (x :: l)); [reflexivity | discriminate | rewrite <- E; apply elems_nosep].
Qed.
Lemma leads_fun wd p : exists loc, leads wd p loc /\ forall loc', leads wd p loc' -> loc' = loc.
Proof.
  destruct (is_abs p) eqn:A.
  - apply abs_rooted in A. exists (walk_to [] p). split; [left; auto|]. intros loc' [(_ & ->)|(N & _)]; [reflexivity | now elim N].
  - apply abs_rooted_not in A. exists (walk_to wd p). split; [right; auto|]. intros loc' [(N & _)|(_ & ->)]; [now elim A | reflexivity].
Qed.
Lemma leads_clean wd p loc : leads wd (clean p) loc <-> leads wd p loc.
Proof.
  unfold leads. rewrite <- !abs_rooted. rewrite clean_abs. destruct (is_abs p) eqn:A.
  - rewrite walk_clean by reflexivity. tauto.
  - rewrite (walk_clean wd p) by congruence. split; intros [(N & _)|(_ & ->)]; try discriminate; right; split; congruence.
Qed.
(** Cleaning a shortest path changes nothing. *)
Lemma clean_names r l : Forall name_ok l -> forall out, fold_left (clean_step r) l out = rev l ++ out.
Proof.
  induction 1 as [|e l He _ IH]; intro out; [reflexivity|]. cbn [fold_left rev]. rewrite IH. unfold clean_step. destruct (name_neq e He) as (-> & -> & ->). cbn [orb]. now rewrite <- app_assoc.
Qed.
Lemma clean_dots n : forall out, (exists k, out = repeat ".." k) -> fold_left (clean_step false) (repeat ".." n) out = repeat ".." n ++ out.
Proof.
  induction n as [|n IH]; intros out (k & ->); [reflexivity|]. cbn [repeat fold_left].
  assert (E : clean_step false (repeat ".." k) ".." = repeat ".." (S k)) by (destruct k; reflexivity). rewrite E, IH by (now exists (S k)).
  cbn [repeat]. change (".." :: repeat ".." k) with ([".."] ++ repeat ".." k). rewrite app_assoc, <- repeat_cons. reflexivity.
Qed.
Lemma clean_id p : shortest p -> clean p = p.
Proof.
  intros [->|[->|[(l & N & Hl & ->)|(n & l & N & Hl & ->)]]]; [reflexivity | reflexivity| |].
  - rewrite clean_eq. change (is_abs (String "/" (join "/" l))) with true. cbn iota. f_equal. unfold clean_elems. change (is_abs (String "/" (join "/" l))) with true.
    cbn [split_char]. change (Ascii.eqb "/" "/") with true. cbn iota. rewrite (split_join' l N).
    + cbn [fold_left]. change (clean_step true [] "") with (@nil string). rewrite (clean_names true l Hl), app_nil_r, rev_involutive. reflexivity.
    + eapply Forall_impl; [|exact Hl]. intros e (_ & _ & _ & H). exact H.
  - assert (Ne : repeat ".." n ++ l <> []) by (destruct n; cbn; [destruct l; [cbn in N; lia | discriminate] | discriminate]).
    assert (Hs : Forall (fun e => has_char "/" e = false) (repeat ".." n ++ l)).
    { apply Forall_app. split; [apply dots_ok|]. eapply Forall_impl; [|exact Hl]. intros e (_ & _ & _ & H). exact H. }
    assert (A : is_abs (join "/" (repeat ".." n ++ l)) = false).
    { destruct n as [|n].
      - cbn [repeat app] in *. destruct l as [|x l]; [reflexivity|]. inversion Hl as [|? ? (Nx & _ & _ & C) _]; subst. destruct x as [|c x]; [now elim Nx|].
        cbn [has_char] in C. apply orb_false_iff in C as (C & _). now apply abs_join.
      - cbn [repeat app]. destruct (repeat ".." n ++ l); reflexivity. }
    rewrite clean_eq, A. assert (E : clean_elems (join "/" (repeat ".." n ++ l)) = repeat ".." n ++ l).
    { unfold clean_elems. rewrite A, (split_join' _ Ne Hs), fold_left_app, clean_dots by (now exists 0). rewrite app_nil_r, (clean_names false l Hl), rev_app_distr, rev_repeat, rev_involutive. reflexivity. }
    rewrite E. destruct (repeat ".." n ++ l); [now elim Ne | reflexivity].
Qed.
Lemma clean_idem p : clean (clean p) = clean p.
Proof. apply clean_id, clean_shortest. Qed.

(** *** Joining *)
Lemma split_app c a b : split_char c (a +++ String c b) = split_char c a ++ split_char c b.
Proof.
  induction a as [|d a IH]; [cbn; now rewrite Ascii.eqb_refl|]. cbn [append split_char]. rewrite IH. destruct (Ascii.eqb c d); [reflexivity|].
  pose proof (split_char_nonempty c a) as N. destruct (split_char c a); [now elim N | reflexivity].
Qed.
Lemma walk_app base a b : walk_to base (a +++ String "/" b) = walk_to (walk_to base a) b.
Proof. unfold walk_to. now rewrite split_app, fold_left_app. Qed.
Lemma abs_app a b : a <> "" -> is_abs (a +++ b) = is_abs a.
Proof. destruct a as [|c a]; [congruence|]. intros _. reflexivity. Qed.
Lemma walk_join base a b : a <> "" -> (is_abs a = true -> base = []) -> walk_to base (join2 a b) = walk_to (walk_to base a) b.
Proof.
  intros Na H. unfold join2. rewrite (proj2 (String.eqb_neq a "") Na). cbn [negb]. change ("/" +++ b) with (String "/" b).
  rewrite walk_clean; [apply walk_app|]. rewrite abs_app by exact Na. exact H.
Qed.
Lemma join_abs a b : a <> "" -> is_abs (join2 a b) = is_abs a.
Proof. intro Na. unfold join2. rewrite (proj2 (String.eqb_neq a "") Na). cbn [negb]. rewrite clean_abs. now apply abs_app. Qed.
Lemma to_abs_spec p fb : rooted fb ->
  rooted (to_abs p fb) /\ (forall wd, leads wd (to_abs p fb) (walk_to [] (to_abs p fb))) /\
  (forall loc, leads (walk_to [] fb) p loc <-> loc = walk_to [] (to_abs p fb)).
Proof.
  intro R. assert (A : rooted (to_abs p fb)).
  { unfold to_abs. destruct (is_abs p) eqn:E; [now apply abs_rooted|]. apply abs_rooted. rewrite join_abs; [now apply abs_rooted|]. destruct R as (t & ->). discriminate. }
  split; [exact A|]. split; [intro wd; now left|]. intro loc. unfold leads, to_abs. rewrite <- !abs_rooted. destruct (is_abs p) eqn:E.
  - split; [intros [(_ & H)|(N & _)]; [exact H | now elim N] | intro H; left; auto].
  - rewrite walk_join; [|destruct R as (t & ->); discriminate | reflexivity]. split; [intros [(N & _)|(_ & H)]; [discriminate | exact H] | intro H; right; split; [discriminate | exact H]].
Qed.
(** filepath.Dir leads to where all but the last element leads. *)
Lemma upto_app a b : has_char "/" b = false -> upto_slash (a +++ String "/" b) = a +++ "/".
Proof.
  intro Hb. induction a as [|c a IH]; cbn [append upto_slash].
  - rewrite Hb. reflexivity.
  - assert (H : has_char "/" (a +++ String "/" b) = true) by (rewrite has_char_app; cbn [has_char]; rewrite Ascii.eqb_refl; apply orb_true_r). now rewrite H, IH.
Qed.
Lemma walk_slash base a : walk_to base (a +++ "/") = walk_to base a.
Proof. rewrite walk_app. reflexivity. Qed.
Lemma dir_spec a b : has_char "/" b = false ->
  walk_to [] (dir (String "/" (a +++ String "/" b))) = walk_to [] (String "/" a) /\ rooted (dir (String "/" (a +++ String "/" b))).
Proof.
  intro Hb. unfold dir. change (String "/" (a +++ String "/" b)) with (String "/" a +++ String "/" b). rewrite upto_app by exact Hb. split.
  - rewrite walk_clean by reflexivity. apply walk_slash.
  - apply abs_rooted. now rewrite clean_abs.
Qed.
Lemma dir_root b : has_char "/" b = false -> dir (String "/" b) = "/".
Proof. intro Hb. unfold dir. change (String "/" b) with ("" +++ String "/" b). rewrite upto_app by exact Hb. reflexivity. Qed.
Lemma has_slash_last p : has_char "/" p = true -> exists a b, p = a +++ String "/" b /\ has_char "/" b = false.
Proof.
  induction p as [|c p IH]; [discriminate|]. cbn [has_char]. destruct (has_char "/" p) eqn:E.
  - intros _. destruct (IH eq_refl) as (a & b & -> & H). now exists (String c a), b.
  - rewrite orb_false_r. intro H. apply Ascii.eqb_eq in H. subst c. now exists "", p.
Qed.
Lemma dir_rooted p : rooted p -> rooted (dir p).
Proof.
  intros (r & ->). destruct (has_char "/" r) eqn:E.
  - destruct (has_slash_last r E) as (a & b & -> & H). now apply dir_spec.
  - rewrite (dir_root r E). now exists "".
Qed.
