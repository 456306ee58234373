(** Facts about the YAML map conversion. *)
From Coq Require Import String Ascii List Bool Arith ZArith Lia Permutation.
From Verif Require Import GoStr GoStrFacts Json JsonFacts Yaml Spec_Yaml.
Import ListNotations.
Local Open Scope list_scope.

Fixpoint yval_rect' (P : yval -> Prop)
  (Hn : P YNull) (Hb : forall b, P (YBool b)) (Hm : forall n, P (YNum n)) (Hs : forall s, P (YStr s))
  (Hq : forall l, Forall P l -> P (YSeq l))
  (HS : forall m, Forall (fun kv => P (snd kv)) m -> P (YMapS m))
  (HI : forall m, Forall (fun kv => P (snd kv)) m -> P (YMapI m)) (v : yval) : P v :=
  let rec := yval_rect' P Hn Hb Hm Hs Hq HS HI in
  match v with
  | YNull => Hn | YBool b => Hb b | YNum n => Hm n | YStr s => Hs s
  | YSeq l => Hq l ((fix go l : Forall P l := match l with [] => Forall_nil _ | x :: r => Forall_cons x (rec x) (go r) end) l)
  | YMapS m => HS m ((fix go m : Forall (fun kv => P (snd kv)) m :=
       match m with [] => Forall_nil _ | x :: r => Forall_cons x (rec (snd x)) (go r) end) m)
  | YMapI m => HI m ((fix go m : Forall (fun kv => P (snd kv)) m :=
       match m with [] => Forall_nil _ | x :: r => Forall_cons x (rec (snd x)) (go r) end) m)
  end.

Section M.
Variable ord : list nat -> list (string * yval) -> list (string * yval).
Hypothesis Hord : forall p l, Permutation (ord p l) l.

Definition mseq pos := fix go (i : nat) (l : list yval) : list yval :=
               match l with
               | [] => []
               | x :: r => mmap ord (pos ++ [i]) x :: go (S i) r
               end.
Definition mmaps pos := (fix go (i : nat) (m : list (string * yval)) : list (string * yval) :=
                match m with
                | [] => []
                | (k, x) :: r => (k, mmap ord (pos ++ [i]) x) :: go (S i) r
                end).
Definition mmapi pos := (fix go (i : nat) (m : list (ykey * yval)) : list (string * yval) :=
                   match m with
                   | [] => []
                   | (k, x) :: r => (key_text k, mmap ord (pos ++ [i]) x) :: go (S i) r
                   end).
Lemma mmap_seq pos l : mmap ord pos (YSeq l) = YSeq (mseq pos 0 l). Proof. reflexivity. Qed.
Lemma mmap_s pos l : mmap ord pos (YMapS l) = YMapS (mmaps pos 0 l). Proof. reflexivity. Qed.
Lemma mmap_i pos l : mmap ord pos (YMapI l) =
  YMapS (fold_left (fun acc kv => oset (fst kv) (snd kv) acc) (ord pos (mmapi pos 0 l)) []). Proof. reflexivity. Qed.

Definition assigned (es acc : list (string * yval)) := fold_left (fun acc kv => oset (fst kv) (snd kv) acc) es acc.

Lemma assigned_sorted es : forall acc, sorted acc -> sorted (assigned es acc).
Proof. induction es as [|[k v] es IH]; intros acc H; cbn; [exact H|]. apply IH. now apply sorted_oset. Qed.

Lemma assigned_some es : forall acc k, sorted acc -> (oget k acc <> None \/ In k (map fst es)) -> oget k (assigned es acc) <> None.
Proof.
  induction es as [|[k v] es IH]; intros acc k0 Hs H; cbn; [destruct H as [H|[]]; exact H|].
  apply IH; [now apply sorted_oset|]. cbn in H. destruct H as [H|[->|H]]; [|left|right; exact H].
  - left. rewrite oget_oset by exact Hs. destruct (String.eqb k0 k); [discriminate|exact H].
  - rewrite oget_oset by exact Hs. rewrite String.eqb_refl. discriminate.
Qed.

Lemma assigned_from es : forall acc k v, sorted acc -> oget k (assigned es acc) = Some v ->
  In (k, v) es \/ (oget k acc = Some v /\ ~ In k (map fst es)).
Proof.
  induction es as [|[k0 v0] es IH]; intros acc k v Hs H; cbn in *; [right; split; [exact H|tauto]|].
  apply IH in H; [|now apply sorted_oset]. destruct H as [H|[H Hn]]; [left; now right|].
  rewrite oget_oset in H by exact Hs. destruct (String.eqb k k0) eqn:E.
  - apply String.eqb_eq in E. subst. injection H as ->. left. now left.
  - right. split; [exact H|]. intros [->|]; [|tauto]. rewrite String.eqb_refl in E. discriminate.
Qed.

Lemma mmapi_keys pos m : forall i, map fst (mmapi pos i m) = map (fun kv => key_text (fst kv)) m.
Proof. induction m as [|[k x] m IH]; intro i; cbn; [reflexivity|]. f_equal. apply IH. Qed.

Lemma mmapi_in pos m : forall i k v, In (k, v) (mmapi pos i m) ->
  exists k0 x n, In (k0, x) m /\ key_text k0 = k /\ v = mmap ord (pos ++ [n]) x.
Proof.
  induction m as [|[k x] m IH]; intros i k1 v H; cbn in H; [tauto|].
  destruct H as [H|H].
  - injection H as <- <-. exists k, x, i. cbn. auto.
  - apply IH in H as (k0 & x0 & n & ? & ? & ?). exists k0, x0, n. cbn. auto.
Qed.

Theorem mmap_converted v : forall pos, converted v (mmap ord pos v).
Proof.
  induction v as [| | | |l IH|m IH|m IH] using yval_rect'; intro pos; [constructor | constructor | constructor | constructor | | |].
  - rewrite mmap_seq. constructor. generalize 0. induction IH as [|x l Hx _ IHl]; intro i; cbn; constructor; auto.
  - rewrite mmap_s. constructor. generalize 0.
    induction IH as [|[k x] l Hx _ IHl]; intro i; cbn; constructor; [split; [reflexivity | apply Hx] | apply IHl].
  - rewrite mmap_i. fold (assigned (ord pos (mmapi pos 0 m)) []). constructor.
    + now apply assigned_sorted.
    + apply Forall_forall. intros [k x] Hin. apply assigned_some; [exact I|]. right.
      eapply Permutation_in; [symmetry; apply Permutation_map, Hord|]. rewrite mmapi_keys.
      change (key_text (fst (k, x))) with ((fun kv => key_text (fst kv)) (k, x)). apply in_map. exact Hin.
    + apply Forall_forall. intros [k v] Hin. cbn [fst snd].
      apply sorted_in_oget in Hin; [|now apply assigned_sorted].
      apply assigned_from in Hin; [|exact I]. destruct Hin as [Hin|[Hin _]]; [|discriminate].
      apply (Permutation_in _ (Hord _ _)) in Hin. apply mmapi_in in Hin as (k0 & x & n & Hx & Hk & ->).
      exists k0, x. split; [exact Hx|]. split; [exact Hk|].
      rewrite Forall_forall in IH. apply (IH _ Hx).
Qed.

Lemma no_imap_mmap v : forall pos, no_imap v -> mmap ord pos v = v.
Proof.
  induction v as [| | | |l IH|m IH|m IH] using yval_rect'; intros pos H; try reflexivity; inversion H as [| | | |? HF|? HF]; subst.
  - rewrite mmap_seq. f_equal. generalize 0. induction IH as [|x l Hx _ IHl]; intro i; cbn; [reflexivity|].
    inversion HF; subst. f_equal; auto. apply IHl; auto. constructor; assumption.
  - rewrite mmap_s. f_equal. generalize 0. induction IH as [|[k x] l Hx _ IHl]; intro i; cbn; [reflexivity|].
    inversion HF; subst. cbn in *. f_equal; [f_equal; auto|]. apply IHl; auto. constructor; assumption.
Qed.
End M.

Lemma converted_no_imap v : forall v', converted v v' -> no_imap v'.
Proof.
  induction v as [| | | |l IH|m IH|m IH] using yval_rect'; intros v' H; inversion H as [| | | |? ? HF|? ? HF|? ? Hs H1 H2]; subst; constructor; clear H.
  - induction HF as [|x y l l' Hxy _ IHl]; constructor; inversion IH; subst; auto.
  - induction HF as [|x y l l' [Hk Hxy] _ IHl]; constructor; inversion IH; subst; auto.
  - apply Forall_forall. intros [k x] Hin. rewrite Forall_forall in H2. destruct (H2 _ Hin) as (k0 & v0 & Hk & _ & Hc).
    rewrite Forall_forall in IH. apply (IH _ Hk _ Hc).
Qed.

Lemma nodup_map_in {A B} (f : A -> B) (l : list A) x y : NoDup (map f l) -> In x l -> In y l -> f x = f y -> x = y.
Proof.
  induction l as [|a l IH]; cbn; intros Hn Hx Hy E; [tauto|]. inversion Hn as [|? ? Ha Hn']; subst.
  destruct Hx as [->|Hx], Hy as [->|Hy]; auto.
  - exfalso. apply Ha. rewrite E. now apply in_map.
  - exfalso. apply Ha. rewrite <- E. now apply in_map.
Qed.

(** With distinct printed keys the conversion is unique. *)
Theorem converted_unique v : distinct_keys v -> forall a b, converted v a -> converted v b -> a = b.
Proof.
  induction v as [| | | |l IH|m IH|m IH] using yval_rect'; intros Hd w1 w2 Ha Hb;
   inversion Ha as [| | | |? la HA|? ma HA|? ma HsA HA1 HA2]; subst;
   inversion Hb as [| | | |? lb HB|? mb HB|? mb HsB HB1 HB2]; subst; auto; f_equal.
  - inversion Hd as [| | | |? HD| |]; subst. clear Ha Hb Hd. revert lb HB. induction HA as [|x y l l' Hxy _ IHl]; intros lb HB; inversion HB; subst; [reflexivity|].
    inversion IH; inversion HD; subst. f_equal; auto.
  - inversion Hd as [| | | | |? HD|]; subst. clear Ha Hb Hd. revert mb HB. induction HA as [|[k x] [k' y] l l' [Hk Hxy] _ IHl]; intros lb HB; inversion HB as [|? [k'' z] ? ? [Hk2 Hxz] HB']; subst; [reflexivity|].
    inversion IH; inversion HD; subst. cbn in *. subst. f_equal; [f_equal|]; auto.
  - inversion Hd as [| | | | | |? HN HD]; subst. clear Ha Hb Hd.
    rewrite Forall_forall in *.
    assert (G : forall m1 m2, sorted m1 -> sorted m2 ->
      (forall x, In x m -> oget (key_text (fst x)) m2 <> None) ->
      (forall x : string * yval, In x m1 -> exists k v, In (k, v) m /\ key_text k = fst x /\ converted v (snd x)) ->
      (forall x : string * yval, In x m2 -> exists k v, In (k, v) m /\ key_text k = fst x /\ converted v (snd x)) ->
      forall k x, oget k m1 = Some x -> oget k m2 = Some x).
    { intros m1 m2 Hs1 Hs2 P2 Q1 Q2 k x Hk. apply oget_in in Hk. destruct (Q1 _ Hk) as (k1 & v1 & I1 & E1 & C1). cbn in E1, C1.
      destruct (oget k m2) as [y|] eqn:Hy.
      - apply oget_in in Hy. destruct (Q2 _ Hy) as (k2 & v2 & I2 & E2 & C2). cbn in E2, C2.
        assert ((k1, v1) = (k2, v2)) as [= -> ->].
        { eapply nodup_map_in; [exact HN | exact I1 | exact I2 | cbn; congruence]. }
        f_equal. symmetry. apply (IH _ I2 (HD _ I2)); assumption.
      - exfalso. apply (P2 _ I1). cbn. now rewrite E1. }
    apply obj_ext; auto. intro k.
    destruct (oget k ma) as [x|] eqn:Ex.
    + symmetry. apply (G ma mb); auto.
    + destruct (oget k mb) as [y|] eqn:Ey; [|reflexivity].
      rewrite <- Ex. apply (G mb ma); auto.
Qed.

Lemma to_json_iff v : (exists j, to_json v = Some j) <-> no_imap v.
Proof.
  induction v as [| | | |l IH|m IH|m IH] using yval_rect'; [split; [constructor | cbn; eauto] | split; [constructor | cbn; eauto] | split; [constructor | cbn; eauto] | split; [constructor | cbn; eauto] | | |].
  - split.
    + intros [j Hj]. constructor. cbn in Hj.
      match type of Hj with match ?x with _ => _ end = _ => destruct x as [l'|] eqn:E; [|discriminate] end. clear Hj. revert l' E.
      induction IH as [|x l Hx _ IHl]; intros l' E; constructor; cbn in E; destruct (to_json x) eqn:Ex; try discriminate.
      * apply Hx. eauto.
      * match type of E with match ?x with _ => _ end = _ => destruct x as [l''|] eqn:E'; [|discriminate] end. eauto.
    + intro H. inversion H as [| | | |? HF|]; subst. cbn. clear H.
      enough (exists l', (fix go (l : list yval) : option (list json) :=
               match l with
               | [] => Some []
               | x :: r => match to_json x, go r with Some a, Some b => Some (a :: b) | _, _ => None end
               end) l = Some l') as [l' ->] by eauto.
      induction IH as [|x l Hx _ IHl]; [eauto|]. inversion HF; subst. destruct (proj2 Hx) as [a ->]; auto. destruct IHl as [b ->]; auto. eauto.
  - split.
    + intros [j Hj]. constructor. cbn in Hj.
      match type of Hj with match ?x with _ => _ end = _ => destruct x as [l'|] eqn:E; [|discriminate] end. clear Hj. revert l' E.
      induction IH as [|[k x] l Hx _ IHl]; intros l' E; constructor; cbn in *; destruct (to_json x) eqn:Ex; try discriminate.
      * apply Hx. eauto.
      * match type of E with match ?x with _ => _ end = _ => destruct x as [l''|] eqn:E'; [|discriminate] end. eauto.
    + intro H. inversion H as [| | | | |? HF]; subst. cbn. clear H.
      enough (exists l', (fix go (m : list (string * yval)) : option (list (string * json)) :=
               match m with
               | [] => Some []
               | (k, x) :: r => match to_json x, go r with Some a, Some b => Some ((k, a) :: b) | _, _ => None end
               end) m = Some l') as [l' ->] by eauto.
      induction IH as [|[k x] l Hx _ IHl]; [eauto|]. inversion HF; subst. cbn [snd] in *. destruct (proj2 Hx) as [a ->]; auto. destruct IHl as [b ->]; auto. eauto.
  - split; [intros [j Hj]; discriminate | intro H; inversion H].
Qed.
