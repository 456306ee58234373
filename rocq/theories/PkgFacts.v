(** Depth-first visiting of the import graph. *)
From Coq Require Import String Ascii List Bool Arith Permutation Sorted Lia.
From Verif Require Import GoStr GoStrFacts Json JsonFacts MergeFacts LocFacts Pkgs Spec_Pkgs.
Import ListNotations.
Local Open Scope string_scope.
Local Open Scope nat_scope.
Local Open Scope list_scope.

Lemma mem_in i l : existsb (Nat.eqb i) l = true <-> In i l.
Proof.
  rewrite existsb_exists. split; [intros (x & H & E); apply Nat.eqb_eq in E; now subst | intro H; exists i; split; [exact H | apply Nat.eqb_refl]].
Qed.
Lemma mem_not_in i l : existsb (Nat.eqb i) l = false <-> ~ In i l.
Proof. rewrite <- mem_in. destruct (existsb _ l); split; intro H; try congruence; now elim H. Qed.

(** ** Sorting is a function of the set of keys *)
Lemma sort_unique (R : string -> string -> Prop) : (forall a b, R a b -> R b a -> a = b) ->
  forall l1 l2, StronglySorted R l1 -> StronglySorted R l2 -> Permutation l1 l2 -> l1 = l2.
Proof.
  intro Anti. induction l1 as [|x l1 IH]; intros l2 S1 S2 P.
  - now apply Permutation_nil in P.
  - destruct l2 as [|y l2]; [symmetry in P; now apply Permutation_nil in P|].
    apply StronglySorted_inv in S1 as (S1 & F1). apply StronglySorted_inv in S2 as (S2 & F2).
    rewrite Forall_forall in F1, F2.
    assert (x = y) as ->.
    { assert (Hx : In x (y :: l2)) by (eapply Permutation_in; [exact P | now left]).
      assert (Hy : In y (x :: l1)) by (eapply Permutation_in; [apply Permutation_sym; exact P | now left]).
      destruct Hx as [E|Hx]; [now symmetry|]. destruct Hy as [E|Hy]; [exact E|]. now apply Anti; [apply F1 | apply F2]. }
    f_equal. apply IH; try assumption. eapply Permutation_cons_inv. exact P.
Qed.
Lemma string_le_antisym a b : string_le a b -> string_le b a -> a = b.
Proof.
  unfold string_le. intros H1 H2. pose proof (String.compare_antisym a b) as E.
  destruct (String.compare a b) eqn:C; [now apply scmp_eq in C | now elim H2 |].
  cbn in E. destruct (String.compare b a); try discriminate; now elim H1.
Qed.
Lemma string_sort_perm srt l l' : is_string_sort srt -> Permutation l' l -> srt l' = srt l.
Proof.
  intros H P. destruct (H l) as (P1 & S1). destruct (H l') as (P2 & S2).
  apply (sort_unique string_le string_le_antisym); try assumption.
  eapply perm_trans; [exact P2|]. eapply perm_trans; [exact P|]. now apply Permutation_sym.
Qed.
Lemma string_sort_unique srt1 srt2 l : is_string_sort srt1 -> is_string_sort srt2 -> srt1 l = srt2 l.
Proof.
  intros H1 H2. destruct (H1 l) as (P1 & S1). destruct (H2 l) as (P2 & S2).
  apply (sort_unique string_le string_le_antisym); try assumption. eapply perm_trans; [exact P1|]. now apply Permutation_sym.
Qed.

(** ** The traversal, without the scanner *)
Section Dfs.
  Context (succ : nat -> list nat) (skip : nat -> bool).
  Fixpoint dfs_all (v : nat -> list nat * list nat -> option (list nat * list nat)) (l : list nat) (s : list nat * list nat) :=
    match l with
    | [] => Some s
    | x :: r => match v x s with Some s' => dfs_all v r s' | None => None end
    end.
  Fixpoint dfs (fuel i : nat) (s : list nat * list nat) : option (list nat * list nat) :=
    match fuel with
    | O => None
    | S fuel' =>
        if existsb (Nat.eqb i) (fst s) then Some s
        else if skip i then Some s
        else match dfs_all (dfs fuel') (succ i) (i :: fst s, snd s) with
             | Some (seen, done) => Some (seen, done ++ [i])
             | None => None
             end
    end.

  Inductive rch : nat -> nat -> Prop :=
  | rch_here i : skip i = false -> rch i i
  | rch_step i j k : skip i = false -> In j (succ i) -> rch j k -> rch i k.
  Lemma rch_skip i j : rch i j -> skip i = false /\ skip j = false.
  Proof. induction 1; firstorder. Qed.
  Lemma rch_trans i j k : rch i j -> rch j k -> rch i k.
  Proof. induction 1; intro Hk; [exact Hk|]. eapply rch_step; eauto. Qed.
  Lemma rch_last i j k : rch i j -> In k (succ j) -> skip k = false -> rch i k.
  Proof. intros H Hk Sk. apply (rch_trans i j k H). eapply rch_step; [apply (rch_skip _ _ H) | exact Hk | now apply rch_here]. Qed.

  (** What a call adds. *)
  Definition adds (starts : list nat) (s s' : list nat * list nat) (l : list nat) : Prop :=
    snd s' = snd s ++ l /\
    (forall x, In x (fst s') <-> In x (fst s) \/ In x l) /\
    NoDup l /\ (forall x, In x l -> ~ In x (fst s)) /\
    (forall x, In x l -> exists r, In r starts /\ rch r x) /\
    (forall r, In r starts -> skip r = false -> In r (fst s')) /\
    (forall x y, In x l -> In y (succ x) -> skip y = false -> In y (fst s')) /\
    (forall x y, In x l -> In y (succ x) -> skip y = false -> In y (fst s) \/ precedes y x l \/ rch y x).

  Lemma precedes_app_l {B} (x y : B) a l : precedes x y l -> precedes x y (a ++ l).
  Proof. intros (p & q & r & ->). exists (a ++ p), q, r. now rewrite <- app_assoc. Qed.
  Lemma precedes_app_r {B} (x y : B) a l : precedes x y l -> precedes x y (l ++ a).
  Proof. intros (p & q & r & ->). exists p, q, (r ++ a). rewrite <- !app_assoc. cbn. rewrite <- ?app_assoc. reflexivity. Qed.
  Lemma precedes_cross {B} (x y : B) a b : In x a -> In y b -> precedes x y (a ++ b).
  Proof.
    intros Hx Hy. apply in_split in Hx as (p & q & ->). apply in_split in Hy as (r & t & ->).
    exists p, (q ++ r), t. rewrite <- !app_assoc. cbn. rewrite <- ?app_assoc. reflexivity.
  Qed.

  Lemma adds_nil s : adds [] s s [].
  Proof.
    repeat split; cbn; try tauto; try (intros; tauto).
    - now rewrite app_nil_r.
    - constructor.
  Qed.

  Lemma adds_app r1 r2 s s1 s2 l1 l2 : adds r1 s s1 l1 -> adds r2 s1 s2 l2 -> adds (r1 ++ r2) s s2 (l1 ++ l2).
  Proof.
    intros (D1 & S1 & N1 & F1 & R1 & St1 & C1 & O1) (D2 & S2 & N2 & F2 & R2 & St2 & C2 & O2).
    split; [rewrite D2, D1; now rewrite app_assoc|].
    split; [intro x; rewrite S2, S1, in_app_iff; tauto|].
    split. { apply NoDup_app; try assumption. intros x H1 H2. apply (F2 x H2). apply S1. now right. }
    split. { intros x [H|H]%in_app_iff; [now apply F1|]. intro K. apply (F2 x H). apply S1. now left. }
    split. { intros x [H|H]%in_app_iff; [destruct (R1 x H) as (r & Hr & K) | destruct (R2 x H) as (r & Hr & K)]; exists r; (split; [apply in_app_iff; tauto | exact K]). }
    split. { intros r [H|H]%in_app_iff Hs; [apply S2; left; now apply St1 | now apply St2]. }
    split. { intros x y [H|H]%in_app_iff Hy Hs; [apply S2; left; now apply (C1 x y) | now apply (C2 x y)]. }
    intros x y [H|H]%in_app_iff Hy Hs.
    - destruct (O1 x y H Hy Hs) as [K|[K|K]]; [now left | right; left; now apply precedes_app_r | now right; right].
    - destruct (O2 x y H Hy Hs) as [K|[K|K]]; [|right; left; now apply precedes_app_l | now right; right].
      apply S1 in K as [K|K]; [now left|]. right; left. now apply precedes_cross.
  Qed.

  Lemma dfs_all_adds v : (forall i s s', v i s = Some s' -> exists l, adds [i] s s' l) ->
    forall starts s s', dfs_all v starts s = Some s' -> exists l, adds starts s s' l.
  Proof.
    intro Hv. induction starts as [|i r IH]; intros s s' H; cbn in H.
    - injection H as <-. exists []. apply adds_nil.
    - destruct (v i s) as [s1|] eqn:E; [|discriminate]. destruct (Hv i s s1 E) as (l1 & A1). destruct (IH s1 s' H) as (l2 & A2).
      exists (l1 ++ l2). exact (adds_app [i] r s s1 s' l1 l2 A1 A2).
  Qed.

  Lemma dfs_adds fuel : forall i s s', dfs fuel i s = Some s' -> exists l, adds [i] s s' l.
  Proof.
    induction fuel as [|fuel IH]; intros i s s' H; [discriminate|]. cbn in H.
    destruct (existsb (Nat.eqb i) (fst s)) eqn:E.
    { injection H as <-. apply mem_in in E. exists []. destruct (adds_nil s) as (D & S & N & F & _ & _ & C & O).
      split; [exact D|]. split; [exact S|]. split; [exact N|]. split; [exact F|]. split; [intros x []|].
      split; [intros r [<-|[]] _; exact E|]. split; [intros x y [] | intros x y []]. }
    apply mem_not_in in E. destruct (skip i) eqn:Si.
    { injection H as <-. exists []. destruct (adds_nil s) as (D & S & N & F & _ & _ & C & O).
      split; [exact D|]. split; [exact S|]. split; [exact N|]. split; [exact F|]. split; [intros x []|].
      split; [intros r [<-|[]] K; congruence|]. split; [intros x y [] | intros x y []]. }
    destruct (dfs_all (dfs fuel) (succ i) (i :: fst s, snd s)) as [[seen done]|] eqn:A; [|discriminate]. injection H as <-.
    destruct (dfs_all_adds _ IH _ _ _ A) as (l & D & S & N & F & R & St & C & O). cbn [fst snd] in *.
    exists (l ++ [i]).
    split; [cbn; rewrite D; now rewrite app_assoc|].
    split; [intro x; cbn; rewrite S, in_app_iff; cbn; tauto|].
    split. { apply NoDup_app; [exact N | constructor; [intros [] | constructor] |]. intros x Hx [<-|[]]. apply (F i Hx). now left. }
    split. { intros x [H|[<-|[]]]%in_app_iff; [|exact E]. intro K. apply (F x H). now right. }
    split. { intros x [H|[<-|[]]]%in_app_iff; exists i; (split; [now left|]); [|now apply rch_here].
      destruct (R x H) as (r & Hr & K). eapply rch_step; eauto. }
    split. { intros r [<-|[]] _. apply S. left. now left. }
    split. { intros x y [H|[<-|[]]]%in_app_iff Hy Hs; [now apply (C x y) | now apply St]. }
    intros x y [H|[<-|[]]]%in_app_iff Hy Hs.
    - destruct (O x y H Hy Hs) as [[<-|K]|[K|K]]; [|now left | right; left; now apply precedes_app_r | now right; right].
      right; right. destruct (R x H) as (r & Hr & K). eapply rch_step; eauto.
    - assert (K : In y seen) by now apply St. apply S in K as [[<-|K]|K].
      + right; right. now apply rch_here.
      + now left.
      + right; left. apply precedes_cross; [exact K | now left].
  Qed.

  (** Enough depth for a graph on 0..n-1. *)
  Definition unseen (n : nat) (seen : list nat) : nat := length (filter (fun x => negb (existsb (Nat.eqb x) seen)) (seq 0 n)).
  Lemma filter_le {B} (f g : B -> bool) l : (forall x, g x = true -> f x = true) -> length (filter g l) <= length (filter f l).
  Proof.
    intro H. induction l as [|x l IH]; cbn; [lia|]. destruct (g x) eqn:G; [rewrite (H x G); cbn; lia|]. destruct (f x); cbn; lia.
  Qed.
  Lemma filter_lt {B} (f g : B -> bool) l a : (forall x, g x = true -> f x = true) -> In a l -> f a = true -> g a = false ->
    length (filter g l) < length (filter f l).
  Proof.
    intros H Ha Fa Ga. induction l as [|x l IH]; [destruct Ha|]. cbn. destruct Ha as [->|Ha].
    - rewrite Fa, Ga. cbn. pose proof (filter_le f g l H). lia.
    - specialize (IH Ha). destruct (g x) eqn:G; [rewrite (H x G); cbn; lia|]. destruct (f x); cbn; lia.
  Qed.
  Lemma unseen_mono n s1 s2 : (forall x, In x s1 -> In x s2) -> unseen n s2 <= unseen n s1.
  Proof. intro H. apply filter_le. intros x. rewrite !negb_true_iff, !mem_not_in. auto. Qed.
  Lemma unseen_lt n s i : i < n -> ~ In i s -> unseen n (i :: s) < unseen n s.
  Proof.
    intros Hi Hs. apply (filter_lt _ _ _ i).
    - intros x. rewrite !negb_true_iff, !mem_not_in. cbn. tauto.
    - apply in_seq. lia.
    - now rewrite negb_true_iff, mem_not_in.
    - rewrite negb_false_iff, mem_in. now left.
  Qed.

  Lemma dfs_all_total v : (forall i s s', v i s = Some s' -> exists l, adds [i] s s' l) ->
    forall starts s,
    (forall i s', In i starts -> (forall x, In x (fst s) -> In x (fst s')) -> v i s' <> None) ->
    dfs_all v starts s <> None.
  Proof.
    intros Hv. induction starts as [|i r IH]; intros s Ht; cbn; [discriminate|].
    destruct (v i s) as [s1|] eqn:E; [|now elim (Ht i s (or_introl eq_refl) (fun x H => H) E)].
    destruct (Hv i s s1 E) as (l & _ & S & _). apply IH.
    intros j s' Hj Hs. apply Ht; [now right|]. intros x Hx. apply Hs. apply S. now left.
  Qed.
  Lemma dfs_total n fuel : (forall i j, i < n -> skip i = false -> In j (succ i) -> j < n) -> forall i s, i < n -> unseen n (fst s) < fuel -> dfs fuel i s <> None.
  Proof.
    intro Hn. induction fuel as [|fuel IH]; intros i s Hi Hf; [lia|]. cbn.
    destruct (existsb (Nat.eqb i) (fst s)) eqn:E; [discriminate|]. apply mem_not_in in E. destruct (skip i) eqn:Si; [discriminate|].
    assert (K : dfs_all (dfs fuel) (succ i) (i :: fst s, snd s) <> None).
    { apply (dfs_all_total _ (dfs_adds fuel)). intros j s' Hj Hs. apply IH; [now apply (Hn i)|].
      cbn in Hs. pose proof (unseen_mono n (i :: fst s) (fst s') Hs). pose proof (unseen_lt n (fst s) i Hi E). lia. }
    destruct (dfs_all _ _ _) as [[? ?]|]; [discriminate | now elim K].
  Qed.

  (** The traversal from a list of roots. *)
  Theorem dfs_spec n fuel roots : (forall i j, i < n -> skip i = false -> In j (succ i) -> j < n) -> (forall i, In i roots -> i < n) -> n < fuel ->
    exists seen l, dfs_all (dfs fuel) roots ([], []) = Some (seen, l) /\ NoDup l /\
      (forall x, In x l <-> exists r, In r roots /\ rch r x) /\
      (forall x y, In x l -> In y (succ x) -> skip y = false -> ~ rch y x -> precedes y x l).
  Proof.
    intros Hn Hr Hf.
    assert (K : dfs_all (dfs fuel) roots ([], []) <> None).
    { apply (dfs_all_total _ (dfs_adds fuel)). intros i s' Hi _. apply dfs_total with n; [exact Hn | now apply Hr|].
      assert (unseen n (fst s') <= n); [|lia]. unfold unseen. etransitivity; [apply (filter_le (fun _ => true)); auto|].
      rewrite <- (seq_length n 0) at 2. clear. induction (seq 0 n); cbn; lia. }
    destruct (dfs_all (dfs fuel) roots ([], [])) as [[seen l']|] eqn:E; [|now elim K].
    destruct (dfs_all_adds _ (dfs_adds fuel) _ _ _ E) as (l & D & S & N & F & R & St & C & O). cbn [fst snd app] in *. subst l'.
    exists seen, l. split; [reflexivity|]. split; [exact N|]. split.
    - intro x. split; [apply R|]. intros (r & Hr' & Hx).
      assert (Hin : forall a b, rch a b -> In a l -> In b l).
      { intros a b H. induction H as [|a b c Sa Hb H IH]; intro Ha; [exact Ha|]. apply IH.
        assert (In b seen) by (apply (C a b Ha Hb); apply (rch_skip _ _ H)). apply S in H0 as [[]|H0]. exact H0. }
      apply (Hin r x Hx). assert (In r seen) by (apply St; [exact Hr' | apply (rch_skip _ _ Hx)]). apply S in H as [[]|H]. exact H.
    - intros x y Hx Hy Sy Nr. destruct (O x y Hx Hy Sy) as [[]|[H|H]]; [exact H | contradiction].
  Qed.
End Dfs.

(** ** The visit runs the scanner along the traversal *)
Section Sim.
  Context (std : string -> bool) (ord : nat -> list string -> list string) (srt : list string -> list string) (ps : pkgs).
  Definition keep (o : option nat) : list nat := match o with Some i => [i] | None => [] end.
  (** Successors: the imports in the order of their paths. *)
  Definition succ_of (i : nat) : list nat :=
    match nth_error ps i with Some p => flat_map keep (import_list ord srt i p) | None => [] end.
  Definition skip_of (i : nat) : bool := match nth_error ps i with Some p => std (g_path p) | None => true end.

  Local Notation loads := (load_errors ps).

  Context {A : Type} (fn : nat -> A -> res (A * bool)).

  Lemma run_app l1 : forall l2 a, run fn (l1 ++ l2) a =
    do x <- run fn l1 a ; do y <- run fn l2 (fst x) ; Ok (fst y, snd x ++ snd y).
  Proof.
    induction l1 as [|i l1 IH]; intros l2 a; cbn [run app bind fst snd].
    - destruct (run fn l2 a) as [[? ?]| | |]; reflexivity.
    - destruct (fn i a) as [[a1 b]| | |]; cbn [bind fst snd]; try reflexivity. rewrite IH.
      destruct (run fn l1 a1) as [[a2 e1]| | |]; cbn [bind fst snd]; try reflexivity.
      destruct (run fn l2 a2) as [[a3 e2]| | |]; cbn [bind fst snd]; try reflexivity. now destruct b.
  Qed.

  (** Outcome of visiting: like running the scanner over l, errors accumulating. *)
  Definition sim (errs : list serr) (seen : list nat) (l : list nat) (a : A) (r : res (vstate (A := A))) : Prop :=
    match run fn l a with
    | Ok (a', es) => exists errs', r = Ok (seen, errs', a') /\ Permutation errs' (errs ++ flat_map loads l ++ map EScan es)
    | Err => r = Err
    | Panic => r = Panic
    | OutOfFuel => r = OutOfFuel
    end.

  Lemma perm_mid {B} (a b c d : list B) : Permutation (a ++ b ++ c ++ d) (a ++ (b ++ d) ++ c).
  Proof. apply Permutation_app_head. rewrite <- app_assoc. apply Permutation_app_head. apply Permutation_app_comm. Qed.

  Lemma sim_all v d : 
    (forall i seen done seen' done', d i (seen, done) = Some (seen', done') -> i < length ps ->
       exists l, done' = done ++ l /\ forall errs a, sim errs seen' l a (v (Some i) (seen, errs, a))) ->
    forall starts seen done seen' done', Forall (fun o => exists j, o = Some j /\ j < length ps) starts ->
      dfs_all d (flat_map keep starts) (seen, done) = Some (seen', done') ->
      exists l, done' = done ++ l /\ forall errs a, sim errs seen' l a (visit_all v starts (seen, errs, a)).
  Proof.
    intros Hv. induction starts as [|o r IH]; intros seen done seen' done' Hs H; cbn in H.
    - injection H as <- <-. exists []. split; [now rewrite app_nil_r|]. intros errs a. cbn. exists errs. split; [reflexivity|]. now rewrite app_nil_r.
    - inversion Hs as [|? ? (j & -> & Hj) Hs']; subst. cbn in H. destruct (d j (seen, done)) as [[seen1 done1]|] eqn:E; [|discriminate].
      destruct (Hv j seen done seen1 done1 E Hj) as (l1 & -> & S1). destruct (IH _ _ _ _ Hs' H) as (l2 & -> & S2).
      exists (l1 ++ l2). split; [now rewrite app_assoc|]. intros errs a. unfold sim. rewrite run_app. cbn [visit_all].
      specialize (S1 errs a). unfold sim in S1. destruct (run fn l1 a) as [[a1 e1]| | |]; cbn [bind fst snd]; try now rewrite S1.
      destruct S1 as (errs1 & -> & P1). cbn [bind]. specialize (S2 errs1 a1). unfold sim in S2.
      destruct (run fn l2 a1) as [[a2 e2]| | |]; cbn [bind fst snd]; try exact S2.
      destruct S2 as (errs2 & -> & P2). exists errs2. split; [reflexivity|]. rewrite P2, P1, flat_map_app, map_app, <- !app_assoc.
      apply Permutation_app_head. apply Permutation_app_head. rewrite !app_assoc. apply Permutation_app_tail. apply Permutation_app_comm.
  Qed.

  Hypothesis Hload : loaded ps.
  Hypothesis Hord : forall i l, Permutation (ord i l) l.
  Hypothesis Hsrt : is_string_sort srt.

  Lemma import_list_in i p o : nth_error ps i = Some p -> In o (import_list ord srt i p) <-> exists path, In (path, o) (g_imports p).
  Proof.
    intro E. apply nth_error_In in E. unfold loaded in Hload. rewrite Forall_forall in Hload. destruct (Hload p E) as (N & _).
    unfold import_list. rewrite in_map_iff. split.
    - intros (path & <- & H). exists path.
      assert (K : In path (keys (g_imports p))) by (eapply Permutation_in; [exact (Hord i _)|]; eapply Permutation_in; [exact (proj1 (Hsrt _)) | exact H]).
      destruct (oget path (g_imports p)) as [x|] eqn:G; [now apply oget_in|]. exfalso.
      unfold keys in K. apply in_map_iff in K as ([k v] & Ek & Hin). cbn in Ek. subst k.
      clear -G Hin. induction (g_imports p) as [|[k' v'] m IH]; [destruct Hin|]. cbn in G. destruct Hin as [E|Hin].
      + injection E as -> ->. now rewrite String.eqb_refl in G.
      + destruct (String.eqb path k'); [discriminate|]. now apply IH.
    - intros (path & H). exists path. split.
      + assert (G : oget path (g_imports p) = Some o); [|now rewrite G].
        clear -N H. unfold keys in N. induction (g_imports p) as [|[k' v'] m IH]; [destruct H|]. cbn in *. inversion N; subst.
        destruct H as [E|H]; [injection E as -> ->; now rewrite String.eqb_refl|].
        destruct (String.eqb path k') eqn:Ek; [|now apply IH]. apply String.eqb_eq in Ek. subst k'. elim H2. apply in_map_iff. now exists (path, o).
      + eapply Permutation_in; [apply Permutation_sym; exact (proj1 (Hsrt _))|]. eapply Permutation_in; [apply Permutation_sym; exact (Hord i _)|].
        unfold keys. apply in_map_iff. now exists (path, o).
  Qed.
  Lemma import_list_ok i p : nth_error ps i = Some p -> Forall (fun o => exists j, o = Some j /\ j < length ps) (import_list ord srt i p).
  Proof.
    intro E. apply Forall_forall. intros o H. apply (import_list_in i p o E) in H as (path & H).
    apply nth_error_In in E. unfold loaded in Hload. rewrite Forall_forall in Hload. destruct (Hload p E) as (_ & F).
    rewrite Forall_forall in F. exact (F _ H).
  Qed.

  Lemma visit_sim fuel : forall i seen done seen' done', dfs succ_of skip_of fuel i (seen, done) = Some (seen', done') -> i < length ps ->
    exists l, done' = done ++ l /\ forall errs a, sim errs seen' l a (visit fn std ord srt ps fuel (Some i) (seen, errs, a)).
  Proof.
    induction fuel as [|fuel IH]; intros i seen done seen' done' H Hi; [discriminate|]. cbn in H.
    destruct (existsb (Nat.eqb i) seen) eqn:E.
    { injection H as <- <-. exists []. split; [now rewrite app_nil_r|]. intros errs a. cbn. rewrite E. exists errs. now rewrite app_nil_r. }
    unfold skip_of in H at 1. destruct (nth_error ps i) as [p|] eqn:P; [|apply nth_error_None in P; lia].
    destruct (std (g_path p)) eqn:St.
    { injection H as <- <-. exists []. split; [now rewrite app_nil_r|]. intros errs a. cbn. rewrite E, P, St. exists errs. now rewrite app_nil_r. }
    destruct (dfs_all (dfs succ_of skip_of fuel) (succ_of i) (i :: seen, done)) as [[seen1 done1]|] eqn:D; [|discriminate]. injection H as <- <-.
    unfold succ_of in D at 2. rewrite P in D.
    destruct (sim_all (visit fn std ord srt ps fuel) _ IH _ _ _ _ _ (import_list_ok i p P) D) as (l & -> & S).
    exists (l ++ [i]). split; [now rewrite app_assoc|]. intros errs a. cbn [visit]. rewrite E, P, St.
    specialize (S (errs ++ repeat (ELoad i) (g_errors p)) a). unfold sim in *. rewrite run_app.
    destruct (run fn l a) as [[a1 e1]| | |]; cbn [bind fst snd]; try now rewrite S.
    destruct S as (errs1 & -> & P1). cbn [bind run fst snd]. destruct (fn i a1) as [[a2 b]| | |]; cbn [bind fst snd]; try reflexivity.
    eexists. split; [reflexivity|]. rewrite flat_map_app. cbn [flat_map]. unfold load_errors at 2. rewrite P, app_nil_r.
    transitivity (errs1 ++ (if b then [EScan i] else [])); [destruct b; [reflexivity | now rewrite app_nil_r]|].
    rewrite P1, map_app. assert (Hb : map EScan (if b then [i] else []) = if b then [EScan i] else []) by now destruct b. rewrite Hb, <- !app_assoc.
    apply Permutation_app_head. rewrite !app_assoc. apply Permutation_app_tail. apply Permutation_app_tail. apply Permutation_app_comm.
  Qed.

  Lemma rch_reach i j : rch succ_of skip_of i j <-> reach std ps i j.
  Proof.
    assert (Hs : forall i, skip_of i = false <-> nonstd std ps i).
    { intro k. unfold skip_of, nonstd. destruct (nth_error ps k) as [p|]; split; intro H; try discriminate.
      - now exists p. - now destruct H as (p' & E & H); injection E as ->. - now destruct H as (? & ? & ?). }
    assert (Hi : forall i j, In j (succ_of i) <-> imports ps i j).
    { intros a b. unfold succ_of, imports. destruct (nth_error ps a) as [p|] eqn:E.
      - rewrite in_flat_map. split.
        + intros (o & Ho & Hb). destruct o as [b'|]; [destruct Hb as [->|[]] | destruct Hb]. apply (import_list_in a p _ E) in Ho as (path & Ho). now exists p, path.
        + intros (p' & path & Ep & H). injection Ep as <-. exists (Some b). split; [|now left]. apply (import_list_in a p _ E). now exists path.
      - split; [intros [] | intros (? & ? & ? & ?); discriminate]. }
    split; induction 1.
    - apply reach_here. now apply Hs. - eapply reach_step; [apply Hs; eassumption | apply Hi; eassumption | assumption].
    - apply rch_here. now apply Hs. - eapply rch_step; [apply Hs; eassumption | apply Hi; eassumption | assumption].
  Qed.
End Sim.

(** The order depends neither on map iteration nor on the sorting algorithm. *)
Lemma succ_of_ord ps ord1 ord2 srt1 srt2 : (forall i l, Permutation (ord1 i l) l) -> (forall i l, Permutation (ord2 i l) l) ->
  is_string_sort srt1 -> is_string_sort srt2 -> forall i, succ_of ord1 srt1 ps i = succ_of ord2 srt2 ps i.
Proof.
  intros H1 H2 S1 S2 i. unfold succ_of, import_list. destruct (nth_error ps i) as [p|]; [|reflexivity].
  rewrite (string_sort_perm srt1 (keys (g_imports p)) _ S1 (H1 i _)), (string_sort_perm srt2 (keys (g_imports p)) _ S2 (H2 i _)).
  now rewrite (string_sort_unique srt1 srt2 _ S1 S2).
Qed.
Lemma dfs_all_ext v1 v2 : (forall i s, v1 i s = v2 i s) -> forall l s, dfs_all v1 l s = dfs_all v2 l s.
Proof. intro H. induction l as [|i l IH]; intro s; cbn; [reflexivity|]. rewrite H. destruct (v2 i s); auto. Qed.
Lemma dfs_ext s1 s2 skip fuel : (forall i, s1 i = s2 i) -> forall i s, dfs s1 skip fuel i s = dfs s2 skip fuel i s.
Proof.
  intro H. induction fuel as [|fuel IH]; intros i s; cbn; [reflexivity|]. rewrite H, (dfs_all_ext _ _ IH). reflexivity.
Qed.

Definition insert_s := fix ins (x : string) (l : list string) : list string :=
  match l with [] => [x] | y :: r => match String.compare y x with Lt => y :: ins x r | _ => x :: l end end.
Definition sort_s (l : list string) : list string := fold_right insert_s [] l.
Lemma insert_perm x l : Permutation (insert_s x l) (x :: l).
Proof.
  induction l as [|y r IH]; cbn; [reflexivity|]. destruct (String.compare y x); try reflexivity. rewrite IH. apply perm_swap.
Qed.
Lemma compare_refl s : String.compare s s = Eq.
Proof. apply scmp_refl. Qed.
Lemma string_le_trans a b c : string_le a b -> string_le b c -> string_le a c.
Proof.
  unfold string_le. intros H1 H2 H3.
  assert (K1 : a = b \/ String.compare a b = Lt).
  { destruct (String.compare a b) eqn:E; [left; now apply scmp_eq | now right |].
    rewrite String.compare_antisym, E in H1. now elim H1. }
  assert (K2 : b = c \/ String.compare b c = Lt).
  { destruct (String.compare b c) eqn:E; [left; now apply scmp_eq | now right |].
    rewrite String.compare_antisym, E in H2. now elim H2. }
  destruct K1 as [->|K1]; [contradiction|]. destruct K2 as [->|K2]; [contradiction|].
  assert (K := scmp_trans c a b H3 K1). now rewrite K in H2.
Qed.
Lemma insert_sorted x l : StronglySorted string_le l -> StronglySorted string_le (insert_s x l).
Proof.
  induction l as [|y r IH]; intro H; cbn; [repeat constructor|]. apply StronglySorted_inv in H as (Hr & F).
  destruct (String.compare y x) eqn:E.
  - apply scmp_eq in E. subst. constructor; [now constructor|]. constructor; [unfold string_le; rewrite compare_refl; discriminate | exact F].
  - constructor; [now apply IH|]. apply Forall_forall. intros z Hz. apply (Permutation_in z (insert_perm x r)) in Hz as [<-|Hz].
    + unfold string_le. rewrite String.compare_antisym, E. discriminate.
    + rewrite Forall_forall in F. now apply F.
  - constructor; [now constructor|]. assert (K : string_le x y) by (unfold string_le; rewrite E; discriminate).
    constructor; [exact K|]. apply Forall_forall. intros z Hz. rewrite Forall_forall in F. apply (string_le_trans x y z K). now apply F.
Qed.
Lemma sort_s_ok : is_string_sort sort_s.
Proof.
  intro l. split; induction l as [|x l IH]; cbn; try reflexivity; try constructor.
  - rewrite insert_perm. now constructor.
  - now apply insert_sorted.
Qed.

(** ** Scan *)
Theorem scan_spec ps std roots : loaded ps -> (forall i, In i roots -> i < length ps) ->
  exists l, NoDup l /\
    (forall x, In x l <-> exists r, In r roots /\ reach std ps r x) /\
    (forall x y, In x l -> imports ps x y -> nonstd std ps y -> ~ reach std ps y x -> precedes y x l) /\
    (forall fuel ord srt A (fn : nat -> A -> res (A * bool)) a, length ps < fuel -> (forall i l, Permutation (ord i l) l) -> is_string_sort srt ->
       match run fn l a with
       | Ok (a', es) => exists errs, scan_pkgs fn std ord srt ps fuel (map Some roots) a = Ok (a', errs) /\
                          Permutation errs (flat_map (load_errors ps) l ++ map EScan es)
       | Err => scan_pkgs fn std ord srt ps fuel (map Some roots) a = Err
       | Panic => scan_pkgs fn std ord srt ps fuel (map Some roots) a = Panic
       | OutOfFuel => scan_pkgs fn std ord srt ps fuel (map Some roots) a = OutOfFuel
       end).
Proof.
  intros Hl Hr.
  assert (Ho0 : forall (i : nat) (l : list string), Permutation ((fun _ l => l) i l) l) by reflexivity.
  set (o0 := fun (_ : nat) (l : list string) => l) in *.
  pose proof sort_s_ok as Hs0.
  assert (Hn : forall i j, i < length ps -> skip_of std ps i = false -> In j (succ_of o0 sort_s ps i) -> j < length ps).
  { intros i j _ _ Hj. unfold succ_of in Hj. destruct (nth_error ps i) as [p|] eqn:E; [|destruct Hj].
    apply in_flat_map in Hj as (o & Ho & Hj). pose proof (import_list_ok o0 sort_s ps Hl Ho0 Hs0 i p E) as F. rewrite Forall_forall in F.
    destruct (F o Ho) as (j' & -> & K). cbn in Hj. destruct Hj as [->|[]]. exact K. }
  destruct (dfs_spec (succ_of o0 sort_s ps) (skip_of std ps) (length ps) (S (length ps)) roots Hn Hr (Nat.lt_succ_diag_r _)) as (seen & l & E & N & R & O).
  exists l. split; [exact N|]. split.
  { intro x. rewrite R. split; intros (r & H1 & H2); exists r; (split; [exact H1|]); apply (rch_reach std o0 sort_s ps Hl Ho0 Hs0); exact H2. }
  split.
  { intros x y Hx Hi Hy Nr. apply O.
    - exact Hx.
    - destruct Hi as (p & path & Ep & Hi). unfold succ_of. rewrite Ep. apply in_flat_map. exists (Some y). split; [|now left].
      apply (import_list_in o0 sort_s ps Hl Ho0 Hs0 x p _ Ep). now exists path.
    - destruct Hy as (p & Ep & Hy). unfold skip_of. now rewrite Ep.
    - intro K. apply Nr. now apply (rch_reach std o0 sort_s ps Hl Ho0 Hs0). }
  intros fuel ord srt A fn a Hf Ho Hs.
  assert (Hn' : forall i j, i < length ps -> skip_of std ps i = false -> In j (succ_of ord srt ps i) -> j < length ps).
  { intros i j H1 H2 H3. rewrite (succ_of_ord ps ord o0 srt sort_s Ho Ho0 Hs Hs0) in H3. now apply (Hn i j). }
  assert (Hroots : roots = flat_map keep (map Some roots)) by (clear; induction roots; cbn; [reflexivity | now f_equal]).
  assert (Hd : dfs_all (dfs (succ_of ord srt ps) (skip_of std ps) fuel) roots ([], []) = Some (seen, l)).
  { (* same result with more fuel *)
    assert (Mono : forall f1 f2 i s r, f1 <= f2 -> dfs (succ_of ord srt ps) (skip_of std ps) f1 i s = Some r -> dfs (succ_of ord srt ps) (skip_of std ps) f2 i s = Some r).
    { clear. induction f1 as [|f1 IH]; intros [|f2] i s r Hle H; cbn in *; try discriminate; try lia.
      destruct (existsb _ _); [exact H|]. destruct (skip_of std ps i); [exact H|].
      assert (K : forall l s r, dfs_all (dfs (succ_of ord srt ps) (skip_of std ps) f1) l s = Some r -> dfs_all (dfs (succ_of ord srt ps) (skip_of std ps) f2) l s = Some r).
      { induction l as [|j l IHl]; intros s0 r0 H0; cbn in *; [exact H0|]. destruct (dfs _ _ f1 j s0) as [s1|] eqn:E1; [|discriminate].
        rewrite (IH f2 j s0 s1 ltac:(lia) E1). now apply IHl. }
      destruct (dfs_all (dfs _ _ f1) _ _) as [[? ?]|] eqn:E1; [|discriminate]. rewrite (K _ _ _ E1). exact H. }
    rewrite (dfs_all_ext _ (dfs (succ_of ord srt ps) (skip_of std ps) (S (length ps)))) in E
      by (intros; apply dfs_ext; intro; symmetry; now apply succ_of_ord).
    clear -E Mono Hf. revert E. generalize (@nil nat, @nil nat) as s. induction roots as [|j rs IH]; intros s E; cbn [dfs_all] in E |- *; [exact E|].
    destruct (dfs (succ_of ord srt ps) (skip_of std ps) (S (length ps)) j s) as [s1|] eqn:E1; [|discriminate]. rewrite (Mono _ fuel _ _ _ Hf E1). now apply IH. }
  rewrite Hroots in Hd.
  assert (Hok : Forall (fun o => exists j, o = Some j /\ j < length ps) (map Some roots)).
  { apply Forall_forall. intros o H. apply in_map_iff in H as (j & <- & H). exists j. split; [reflexivity | now apply Hr]. }
  destruct (sim_all ps fn (visit fn std ord srt ps fuel) _ (visit_sim std ord srt ps fn Hl Ho Hs fuel) _ _ _ _ _ Hok Hd) as (l' & El & S).
  cbn in El. subst l'. specialize (S [] a). unfold sim in S. unfold scan_pkgs.
  destruct (run fn l a) as [[a' es]| | |]; try now rewrite S.
  destruct S as (errs & -> & P). exists errs. split; [reflexivity | exact P].
Qed.
