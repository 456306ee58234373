(** Without exports, resolution is substitution (C27). *)
From Coq Require Import String Ascii List Bool Arith ZArith Lia Permutation.
From Verif Require Import GoStr GoStrFacts Json JsonFacts Gabs GabsFacts Container MergeFacts
  Spec_Loc LocFacts SetFacts CloneFacts Url Pointer FragFacts PtrFacts Resolver Spec_Resolve ResolverFacts ResolverTerm ResolverFrame.
Import ListNotations.
Local Open Scope string_scope.
Local Open Scope nat_scope.
Local Open Scope list_scope.

(** ** writing at an existing location *)
Fixpoint put (q : loc) (v j : json) : json :=
  match q with
  | [] => v
  | SKey k :: q' => match j with
                    | JObj m => match oget k m with Some c => JObj (oset k (put q' v c) m) | None => j end
                    | _ => j
                    end
  | SIdx i :: q' => match j with
                    | JArr l => match nth_error l i with Some c => JArr (set_nth i (put q' v c) l) | None => j end
                    | _ => j
                    end
  end.

Lemma gset_put q v : forall top j x, Forall seg_ok q -> lookup q j = Some x -> gset top v (map seg q) j = Ok (put q v j).
Proof.
  induction q as [|[k|i] q IH]; intros top j x Ho Hl; [reflexivity| |]; inversion Ho as [|? ? Os Oq]; subst; cbn [map seg gset put]; cbn [lookup] in Hl.
  - destruct j as [| | | |l|m]; try discriminate. destruct (oget k m) as [c|] eqn:E; [|discriminate]. cbv zeta.
    assert (match c with JNull => JObj [] | _ => c end = c \/ (c = JNull /\ q = [])) as [Ec|[-> ->]].
    { destruct c; auto. destruct q as [|[|] q]; [auto | discriminate | discriminate]. }
    + rewrite Ec. rewrite (IH false c x Oq Hl). reflexivity.
    + reflexivity.
  - destruct j as [| | | |l|m]; try discriminate. destruct (nth_error l i) as [c|] eqn:E; [|discriminate].
    rewrite itoa_not_dash. cbn in Os. rewrite (arr_index_itoa i Os), E.
    rewrite (IH false c x Oq Hl). cbn [bind].
    destruct q as [|s q]; [reflexivity|]. destruct c; try reflexivity. destruct s; discriminate.
Qed.

(** ** substituting at locations *)
Fixpoint sub (g : loc -> option json) (j : json) : json :=
  match g [] with
  | Some v => v
  | None =>
      match j with
      | JArr l => JArr ((fix go (i : nat) (l : list json) : list json :=
                           match l with [] => [] | x :: r => sub (fun q => g (SIdx i :: q)) x :: go (S i) r end) 0 l)
      | JObj m => JObj ((fix go (m : list (string * json)) : list (string * json) :=
                           match m with [] => [] | (k, x) :: r => (k, sub (fun q => g (SKey k :: q)) x) :: go r end) m)
      | _ => j
      end
  end.
Definition sub_list (g : loc -> option json) := fix go (i : nat) (l : list json) : list json :=
  match l with [] => [] | x :: r => sub (fun q => g (SIdx i :: q)) x :: go (S i) r end.
Definition sub_map (g : loc -> option json) (m : list (string * json)) : list (string * json) :=
  map (fun kx => (fst kx, sub (fun q => g (SKey (fst kx) :: q)) (snd kx))) m.
Lemma sub_arr g l : sub g (JArr l) = match g [] with Some v => v | None => JArr (sub_list g 0 l) end.
Proof. reflexivity. Qed.
Lemma sub_obj g m : sub g (JObj m) = match g [] with Some v => v | None => JObj (sub_map g m) end.
Proof.
  cbn [sub]. destruct (g []); [reflexivity|]. f_equal. unfold sub_map. induction m as [|[k x] m IH]; [reflexivity|]. cbn [map fst snd]. now rewrite <- IH.
Qed.
Lemma sub_list_nth g l : forall n i, nth_error (sub_list g n l) i =
  match nth_error l i with Some x => Some (sub (fun q => g (SIdx (n + i) :: q)) x) | None => None end.
Proof.
  induction l as [|x l IH]; intros n [|i]; cbn [sub_list nth_error]; auto.
  - now rewrite Nat.add_0_r.
  - rewrite IH. now rewrite Nat.add_succ_comm.
Qed.
Lemma sub_list_length g l : forall n, length (sub_list g n l) = length l.
Proof. induction l; intro n; cbn; auto. Qed.
Lemma sub_map_oget g m k : oget k (sub_map g m) = match oget k m with Some x => Some (sub (fun q => g (SKey k :: q)) x) | None => None end.
Proof.
  unfold sub_map. induction m as [|[a x] m IH]; [reflexivity|]. cbn [map oget fst snd]. destruct (String.eqb_spec k a) as [->|]; auto.
Qed.
Lemma sub_map_sorted g m : sorted m -> sorted (sub_map g m).
Proof.
  unfold sub_map. induction m as [|[a x] m IH]; [auto|]. cbn [map sorted fst snd]. intros [H1 H2]. split; [|auto].
  destruct m as [|[b y] m]; exact H1.
Qed.

Lemma nth_ext_error {A} (l : list A) : forall l', (forall i, nth_error l i = nth_error l' i) -> l = l'.
Proof.
  induction l as [|x l IH]; intros [|y l'] H; [reflexivity | discriminate (H 0) | discriminate (H 0)|].
  pose proof (H 0) as H0. cbn in H0. injection H0 as ->. f_equal. apply IH. intro i. exact (H (S i)).
Qed.

Lemma sub_ext j : forall g g', (forall q x, lookup q j = Some x -> g q = g' q) -> wf j -> sub g j = sub g' j.
Proof.
  induction j as [| | | |l IH|m IH] using json_induction; intros g g' H Hw; pose proof (H [] _ eq_refl) as H0.
  1-4: cbn [sub]; now rewrite H0.
  - rewrite !sub_arr, H0. destruct (g' []); [reflexivity|]. f_equal. apply nth_ext_error. intro i. rewrite !sub_list_nth.
    destruct (nth_error l i) as [x|] eqn:E; [|reflexivity]. f_equal. rewrite Forall_forall in IH. apply IH; [eapply nth_error_In, E | | eapply wf_nth; eassumption].
    intros q y Hq. apply (H _ y). cbn. now rewrite E.
  - rewrite !sub_obj, H0. destruct (g' []); [reflexivity|]. f_equal. unfold sub_map. apply map_ext_in. intros [k x] Hin. cbn [fst snd]. f_equal.
    rewrite Forall_forall in IH. apply (IH (k, x) Hin).
    + intros q y Hq. apply (H _ y). cbn [lookup]. rewrite (sorted_in_oget _ _ _ (wf_sorted _ Hw) Hin). exact Hq.
    + eapply wf_oget; [exact Hw|]. apply (sorted_in_oget _ _ _ (wf_sorted _ Hw) Hin).
Qed.

Definition upd (g : loc -> option json) (q : loc) (v : json) (q' : loc) : option json := if loc_dec q q' then Some v else g q'.
Lemma upd_same g q v : upd g q v q = Some v.
Proof. unfold upd. destruct (loc_dec q q); congruence. Qed.
Lemma upd_other g q v q' : q <> q' -> upd g q v q' = g q'.
Proof. unfold upd. destruct (loc_dec q q'); congruence. Qed.
Lemma upd_cons g s q v q' : upd g (s :: q) v (s :: q') = upd (fun q => g (s :: q)) q v q'.
Proof. unfold upd. destruct (loc_dec (s :: q) (s :: q')), (loc_dec q q'); congruence. Qed.

Lemma lookup_sub q : forall g j x, (forall q', above q' q -> g q' = None) -> lookup q j = Some x -> wf j ->
  exists y, lookup q (sub g j) = Some y.
Proof.
  induction q as [|[k|i] q IH]; intros g j x Hg Hl Hw; [cbn; eauto| |]; assert (G0 : g [] = None) by (apply Hg; eexists; reflexivity);
    cbn [lookup] in Hl; destruct j as [| | | |l|m]; try discriminate.
  - destruct (oget k m) as [c|] eqn:E; [|discriminate]. rewrite sub_obj, G0. cbn [lookup]. rewrite sub_map_oget, E.
    apply (IH _ _ x); [|exact Hl | eapply wf_oget; eassumption]. intros q' [t ->]. apply Hg. now exists t.
  - destruct (nth_error l i) as [c|] eqn:E; [|discriminate]. rewrite sub_arr, G0. cbn [lookup]. rewrite sub_list_nth, E.
    apply (IH _ _ x); [|exact Hl | eapply wf_nth; eassumption]. intros q' [t ->]. apply Hg. now exists t.
Qed.

Lemma put_sub q v : forall g j x, (forall q', above q' q -> q' <> q -> g q' = None) -> lookup q j = Some x -> wf j ->
  put q v (sub g j) = sub (upd g q v) j.
Proof.
  induction q as [|s q IH]; intros g j x Hg Hl Hw.
  - cbn [put]. destruct j; cbn [sub]; now rewrite upd_same.
  - assert (G0 : g [] = None) by (apply Hg; [eexists; reflexivity | discriminate]).
    assert (U0 : upd g (s :: q) v [] = None) by (rewrite upd_other by discriminate; exact G0).
    destruct s as [k|i]; cbn [lookup] in Hl; destruct j as [| | | |l|m]; try discriminate.
    + destruct (oget k m) as [c|] eqn:E; [|discriminate]. rewrite !sub_obj, G0, U0. cbn [put]. rewrite sub_map_oget, E.
      assert (Wc : wf c) by (eapply wf_oget; eassumption).
      rewrite (IH (fun q => g (SKey k :: q)) c x); [|intros q' [t ->] Hn; apply Hg; [now exists t | congruence] | exact Hl | exact Wc].
      f_equal. apply obj_ext.
      * apply sorted_oset, sub_map_sorted. exact (wf_sorted _ Hw).
      * apply sub_map_sorted. exact (wf_sorted _ Hw).
      * intro k'. rewrite oget_oset, !sub_map_oget. destruct (String.eqb_spec k' k) as [->|N].
        -- rewrite E. f_equal. apply sub_ext; [|exact Wc]. intros q' y _. now rewrite upd_cons.
        -- destruct (oget k' m) as [c'|] eqn:E'; [|reflexivity]. f_equal. apply sub_ext; [|eapply wf_oget; eassumption].
           intros q' y _. rewrite upd_other; [reflexivity | congruence].
    + destruct (nth_error l i) as [c|] eqn:E; [|discriminate]. rewrite !sub_arr, G0, U0. cbn [put]. rewrite sub_list_nth, E.
      assert (Wc : wf c) by (eapply wf_nth; eassumption).
      rewrite (IH (fun q => g (SIdx (0 + i) :: q)) c x); [|intros q' [t ->] Hn; apply Hg; [now exists t | cbn; congruence] | exact Hl | exact Wc].
      f_equal. apply nth_ext_error. intro n. destruct (Nat.eq_dec i n) as [<-|N].
      * erewrite set_nth_same by (rewrite sub_list_nth, E; reflexivity). rewrite sub_list_nth, E. f_equal.
        apply sub_ext; [|exact Wc]. intros q' y _. cbn [Nat.add]. now rewrite upd_cons.
      * rewrite set_nth_other by exact N. rewrite !sub_list_nth. destruct (nth_error l n) as [c'|] eqn:E'; [|reflexivity].
        f_equal. apply sub_ext; [|eapply wf_nth; eassumption]. intros q' y _. cbn [Nat.add]. rewrite upd_other; [reflexivity | congruence].
Qed.

(** ** fill *)
Definition fill_list f := fix go (l : list json) : res (list json) :=
  match l with [] => Ok [] | x :: r => do x' <- fill f x ; do r' <- go r ; Ok (x' :: r') end.
Definition fill_map f := fix go (m : list (string * json)) : res (list (string * json)) :=
  match m with [] => Ok [] | (k, x) :: r => do x' <- fill f x ; do r' <- go r ; Ok ((k, x') :: r') end.
Lemma fill_arr f l : fill f (JArr l) = do l' <- fill_list f l ; Ok (JArr l').
Proof. reflexivity. Qed.
Lemma fill_obj f m : fill f (JObj m) = do o <- target m ; match o with Some p => f p | None => do m' <- fill_map f m ; Ok (JObj m') end.
Proof. reflexivity. Qed.
Lemma fill_list_ok f l l' : fill_list f l = Ok l' <-> Forall2 (fun x y => fill f x = Ok y) l l'.
Proof.
  revert l'. induction l as [|x l IH]; intro l'; cbn [fill_list].
  - split; [intros [= <-]; constructor | intro H; now inversion H].
  - split.
    + intro H. apply bind_ok in H as (x' & Hx & H). apply bind_ok in H as (r' & Hr & H). injection H as <-. constructor; [exact Hx | now apply IH].
    + intro H. inversion H as [|? y ? r' Hx Hr]; subst. rewrite Hx. cbn [bind]. apply IH in Hr. rewrite Hr. reflexivity.
Qed.
Lemma fill_map_ok f m m' : fill_map f m = Ok m' <-> Forall2 (fun x y => fst y = fst x /\ fill f (snd x) = Ok (snd y)) m m'.
Proof.
  revert m'. induction m as [|[k x] m IH]; intro m'; cbn [fill_map].
  - split; [intros [= <-]; constructor | intro H; now inversion H].
  - split.
    + intro H. apply bind_ok in H as (x' & Hx & H). apply bind_ok in H as (r' & Hr & H). injection H as <-. constructor; [auto | now apply IH].
    + intro H. inversion H as [|? [k' y] ? r' [Ek Hx] Hr]; subst. cbn in Ek, Hx. subst k'. rewrite Hx. cbn [bind]. apply IH in Hr. rewrite Hr. reflexivity.
Qed.

(** Every reference text parses, and every external pointer has a value. *)
Definition all_ok (f : ptr -> res json) (j : json) : Prop := forall q t, lookup (q ++ [REF]) j = Some (JStr t) ->
  exists p, ptr_parse t = Ok p /\ (is_external p = true -> exists w, f p = Ok w).

Lemma target_spec m o : target m = Ok o ->
  match o with
  | Some p => exists t, ext_ref (JObj m) [] t p
  | None => forall t p, ~ ext_ref (JObj m) [] t p
  end.
Proof.
  unfold target, ext_ref. cbn [app lookup]. intro H. destruct (oget "$ref" m) as [[| | |t| |]|]; try (injection H as <-; intros t' p [E _]; congruence).
  apply bind_ok in H as (p & Hp & H). injection H as <-. destruct (is_external p) eqn:Hx.
  - exists t. auto.
  - intros t' p' ([= <-] & Hp' & Hx'). congruence.
Qed.

Lemma lonely_key m k x : lonely (JObj m) -> oget k m = Some x -> lonely x.
Proof.
  intros H E q q' t p t' (H1 & H2) H3. apply (H (SKey k :: q) q' t p t'); [|cbn [app lookup]; now rewrite E].
  split; [cbn [app lookup]; now rewrite E | exact H2].
Qed.
Lemma lonely_idx l i x : lonely (JArr l) -> nth_error l i = Some x -> lonely x.
Proof.
  intros H E q q' t p t' (H1 & H2) H3. apply (H (SIdx i :: q) q' t p t'); [|cbn [app lookup]; now rewrite E].
  split; [cbn [app lookup]; now rewrite E | exact H2].
Qed.

Lemma fill_inv f j : forall r, wf j -> lonely j -> fill f j = Ok r -> all_ok f j.
Proof.
  induction j as [| | | |l IH|m IH] using json_induction; intros r Hw Hlo H q t L.
  1-4: destruct q as [|[|] q]; discriminate L.
  - rewrite fill_arr in H. apply bind_ok in H as (l' & H & _). apply fill_list_ok in H.
    destruct q as [|[k|i] q]; cbn in L; try discriminate. destruct (nth_error l i) as [x|] eqn:E; [|discriminate].
    assert (exists y, fill f x = Ok y) as [y Hy].
    { clear -H E. revert i E. induction H as [|a b l l' Hab _ IH]; intros [|i] E; cbn in E; try discriminate; [injection E as <-; eauto | eauto]. }
    rewrite Forall_forall in IH. eapply (IH x (nth_error_In _ _ E) y); [eapply wf_nth; eassumption | eapply lonely_idx; eassumption | exact Hy | exact L].
  - rewrite fill_obj in H. apply bind_ok in H as (o & Ho & H). pose proof (target_spec _ _ Ho) as Hs. destruct o as [p|].
    + destruct Hs as [t0 Hs]. pose proof (Hlo [] q t0 p t Hs L) as ->. destruct Hs as (L0 & P0 & X0). cbn [app] in *. rewrite L0 in L. injection L as <-.
      exists p. split; [exact P0 | eauto].
    + apply bind_ok in H as (m' & H & _). apply fill_map_ok in H. destruct q as [|[k|i] q].
      * unfold target in Ho. cbn in L. destruct (oget "$ref" m) as [x|] eqn:Eo; [|discriminate]. injection L as ->.
        apply bind_ok in Ho as (p & Hp & Ho). exists p. split; [exact Hp|]. intro Hx. rewrite Hx in Ho. discriminate.
      * cbn in L. destruct (oget k m) as [x|] eqn:E; [|discriminate].
        assert (exists y, fill f x = Ok y) as [y Hy].
        { clear -H E. induction H as [|[a u] [b v] m m' [_ Hab] _ IH]; cbn in E; [discriminate|]. destruct (String.eqb k a); [injection E as <-; eauto | eauto]. }
        rewrite Forall_forall in IH. eapply (IH (k, x) (oget_in _ _ _ E) y); [eapply wf_oget; eassumption | eapply lonely_key; eassumption | exact Hy | exact L].
      * discriminate.
Qed.

(** The substitution function for f. *)
Definition subst_of (f : ptr -> res json) (j : json) (q : loc) : option json :=
  match lookup (q ++ [REF]) j with
  | Some (JStr t) => match ptr_parse t with
                     | Ok p => if is_external p then match f p with Ok w => Some w | _ => None end else None
                     | _ => None
                     end
  | _ => None
  end.

Lemma fill_sub f j : wf j -> all_ok f j -> fill f j = Ok (sub (subst_of f j) j).
Proof.
  induction j as [| | | |l IH|m IH] using json_induction; intros Hw Ha; try reflexivity.
  - rewrite fill_arr, sub_arr. change (subst_of f (JArr l) []) with (@None json).
    assert (E : fill_list f l = Ok (sub_list (subst_of f (JArr l)) 0 l)); [|rewrite E; reflexivity].
    apply fill_list_ok. assert (G : forall n l0, (forall i x, nth_error l0 i = Some x -> nth_error l (n + i) = Some x) ->
      Forall2 (fun x y => fill f x = Ok y) l0 (sub_list (subst_of f (JArr l)) n l0)).
    2:{ apply (G 0 l). auto. }
    intros n l0. revert n. induction l0 as [|x l0 IHl]; intros n Hn; cbn [sub_list]; constructor.
    + pose proof (Hn 0 x eq_refl) as E. rewrite Nat.add_0_r in E. rewrite Forall_forall in IH.
      rewrite (IH x (nth_error_In _ _ E) (wf_nth _ _ _ Hw E)).
      * f_equal. apply sub_ext; [|exact (wf_nth _ _ _ Hw E)]. intros q y _. unfold subst_of. cbn [app lookup]. now rewrite E.
      * intros q t L. apply (Ha (SIdx n :: q) t). cbn [app lookup]. now rewrite E.
    + apply IHl. intros i y Hi. rewrite Nat.add_succ_comm. now apply Hn.
  - rewrite fill_obj, sub_obj.
    assert (E : fill_map f m = Ok (sub_map (subst_of f (JObj m)) m)).
    { apply fill_map_ok. unfold sub_map.
      assert (G : forall m0, incl m0 m -> Forall2 (fun x y => fst y = fst x /\ fill f (snd x) = Ok (snd y)) m0
                (map (fun kx => (fst kx, sub (fun q => subst_of f (JObj m) (SKey (fst kx) :: q)) (snd kx))) m0)); [|apply G, incl_refl].
      induction m0 as [|[k x] m0 IHm]; intro Hin; cbn [map]; constructor.
      - cbn [fst snd]. split; [reflexivity|]. assert (Hi : In (k, x) m) by (apply Hin; now left).
        pose proof (sorted_in_oget _ _ _ (wf_sorted _ Hw) Hi) as E. rewrite Forall_forall in IH.
        pose proof (IH (k, x) Hi (wf_oget _ _ _ Hw E)) as IH'. cbn [snd] in IH'. rewrite IH'.
        + f_equal. apply sub_ext; [|exact (wf_oget _ _ _ Hw E)]. intros q y _. unfold subst_of. cbn [app lookup]. now rewrite E.
        + intros q t L. apply (Ha (SKey k :: q) t). cbn [app lookup]. now rewrite E.
      - apply IHm. intros y Hy. apply Hin. now right. }
    assert (T : target m = Ok None /\ subst_of f (JObj m) [] = None \/ exists p w, target m = Ok (Some p) /\ f p = Ok w /\ subst_of f (JObj m) [] = Some w).
    { pose proof (Ha []) as H0. unfold subst_of, target. cbn [app lookup] in *. destruct (oget "$ref" m) as [x|]; [|auto].
      destruct x as [| | |t| |]; auto. destruct (H0 t eq_refl) as (p & Hp & Hw'). rewrite Hp. cbn [bind]. destruct (is_external p); [|auto].
      destruct (Hw' eq_refl) as [w Hw2]. right. exists p, w. rewrite Hw2. auto. }
    destruct T as [[T1 T2]|(p & w & T1 & T2 & T3)].
    + rewrite T1, T2. cbn [bind]. rewrite E. reflexivity.
    + rewrite T1, T3. exact T2.
Qed.

(** ** values that cloning leaves unchanged *)
Definition normal (j : json) : Prop := clone j = Ok j.
Lemma normal_clone j j' : clone j = Ok j' -> normal j'.
Proof. exact (clone_idem j j'). Qed.
Lemma Forall2_diag {A} (R : A -> A -> Prop) l : Forall2 R l l <-> Forall (fun x => R x x) l.
Proof.
  induction l as [|x l IH]; split; intro H; constructor; inversion H; subst; auto; now apply IH.
Qed.
Lemma normal_arr l : normal (JArr l) <-> Forall normal l.
Proof.
  unfold normal. rewrite clone_arr_eq. split.
  - intro H. apply bind_ok in H as (l' & H & E). injection E as ->. apply clone_list_ok in H. now apply Forall2_diag in H.
  - intro H. assert (clone_list l = Ok l) as ->; [|reflexivity]. induction H as [|x l Hx _ IH]; [reflexivity|]. cbn. rewrite Hx. cbn. now rewrite IH.
Qed.
Lemma normal_obj m : normal (JObj m) <-> Forall (fun kv => normal (snd kv)) m.
Proof.
  unfold normal. rewrite clone_obj_eq. split.
  - intro H. apply bind_ok in H as (m' & H & E). injection E as ->. apply clone_map_ok in H. apply Forall2_diag in H.
    eapply Forall_impl; [|exact H]. intros kv [_ Hkv]. exact Hkv.
  - intro H. assert (clone_map m = Ok m) as ->; [|reflexivity]. induction H as [|[k x] m Hx _ IH]; [reflexivity|]. cbn in *. rewrite Hx. cbn. now rewrite IH.
Qed.
Lemma fill_normal f j : (forall p w, f p = Ok w -> normal w) -> forall r, normal j -> fill f j = Ok r -> normal r.
Proof.
  intro Hf. induction j as [| | | |l IH|m IH] using json_induction; intros r Hn H; try (injection H as <-; exact Hn).
  - rewrite fill_arr in H. apply bind_ok in H as (l' & H & E). injection E as <-. apply fill_list_ok in H. apply normal_arr in Hn. apply normal_arr.
    clear -IH Hn H. induction H as [|x y l l' Hxy _ IHl]; constructor; inversion IH; inversion Hn; subst; auto.
  - rewrite fill_obj in H. apply bind_ok in H as (o & _ & H). destruct o as [p|]; [now apply (Hf p)|].
    apply bind_ok in H as (m' & H & E). injection E as <-. apply fill_map_ok in H. apply normal_obj in Hn. apply normal_obj.
    clear -IH Hn H. induction H as [|x y l l' [_ Hxy] _ IHl]; constructor; inversion IH; inversion Hn; subst; auto.
Qed.

(** ** the loop *)
Definition st_with (s : rstate) (c : cont) : rstate := match snd s with Some _ => (fst s, Some c) | None => (c, None) end.
Lemma st_cx_with s c : st_cx (st_with s c) = c.
Proof. unfold st_with, st_cx. destruct s as [rt [x|]]; reflexivity. Qed.
Lemma st_with_with s c c' : st_with (st_with s c) c' = st_with s c'.
Proof. unfold st_with. destruct s as [rt [x|]]; reflexivity. Qed.
Lemma st_with_cx s : st_with s (st_cx s) = s.
Proof. unfold st_with, st_cx. destruct s as [rt [x|]]; reflexivity. Qed.
Lemma on_cx_with f s s' : on_cx f s = Ok s' <-> exists c', f (st_cx s) = Ok c' /\ s' = st_with s c'.
Proof.
  unfold on_cx, st_cx, st_with. destruct s as [rt [x|]]; cbn [fst snd]; (split; [intro H; apply bind_ok in H as (c' & -> & [= <-]); eauto | intros (c' & -> & ->); reflexivity]).
Qed.
Lemma fst_with_nested s c : fst (st_with s c) = match snd s with Some _ => fst s | None => c end.
Proof. unfold st_with. destruct s as [rt [x|]]; reflexivity. Qed.

Section Expand.
  Context (ord : list nat -> list (string * json) -> list (string * json)) (fn : ptr -> res json).
  Hypothesis Hord : forall pos l, Permutation (ord pos l) l.
  Hypothesis Hfn : forall p x, fn p = Ok x -> tidy x /\ lonely x /\ is_scalar x = false.

  Definition valof (f : nat) (pp : list ptr) (p : ptr) : res json :=
    if path_has pp p then Ok (JObj []) else do x <- fn p ; do y <- clone x ; expand f fn clone (pp ++ [p]) y.
  Lemma expand_S f pp j : expand (S f) fn clone pp j = fill (valof f pp) j.
  Proof. reflexivity. Qed.

  Lemma clone_lonely x y : lonely x -> clone x = Ok y -> lonely y.
  Proof.
    intros H Hc q q' t p t' He Hl. apply (H q q' t p t'); [now apply (clone_ext _ _ _ _ _ Hc) | now apply (clone_lookup_str _ _ _ _ Hc)].
  Qed.

  Lemma expand_normal f : forall pp j r, normal j -> expand f fn clone pp j = Ok r -> normal r.
  Proof.
    induction f as [|f IH]; intros pp j r Hn H; [discriminate|]. rewrite expand_S in H. eapply fill_normal; [|exact Hn | exact H].
    intros p w Hw. unfold valof in Hw. destruct (path_has pp p); [injection Hw as <-; reflexivity|].
    apply bind_ok in Hw as (x & _ & Hw). apply bind_ok in Hw as (y & Hy & Hw). eapply IH; [exact (normal_clone _ _ Hy) | exact Hw].
  Qed.

  Section Loop.
    Context (f : nat) (pos : list nat) (pp : list ptr) (s : rstate) (j : json).
    Hypothesis Ht : tidy j.
    Hypothesis Hlo : lonely j.
    Hypothesis IHf : forall pos pp s j, st_cx s = Some j -> tidy j -> lonely j -> normal j -> is_scalar j = false ->
      forall s', iterator ord [] fn f pos pp s = Ok s' <-> exists r, expand f fn clone pp j = Ok r /\ s' = st_with s (Some r).

    (** One entry. *)
    Definition entry_ok (t : string) : Prop := exists p, ptr_parse t = Ok p /\ (is_external p = true -> exists w, valof f pp p = Ok w).
    Definition merge (g : loc -> option json) (qs : list (loc * json)) (q : loc) : option json :=
      if existsb (fun e => if loc_dec (fst e) q then true else false) qs then subst_of (valof f pp) j q else g q.
    Definition rk (e : loc * json) : string * json := (render (fst e ++ [REF]), snd e).

    Lemma step_ext i q0 t p g : lookup (q0 ++ [REF]) j = Some (JStr t) -> ptr_parse t = Ok p -> is_external p = true ->
      (forall q, above q q0 -> g q = None) ->
      forall s2, rstep ord [] fn f pos pp i (render (q0 ++ [REF])) (JStr t) (st_with s (Some (sub g j))) = Ok s2 <->
        exists w, valof f pp p = Ok w /\ s2 = st_with s (Some (sub (upd g q0 w) j)).
    Proof.
      intros Hl Hp Hx Hg s2. destruct Ht as (Hw & Hk & Hroot).
      assert (Hq0 : q0 <> []) by (intros ->; apply (Hroot t p); split; auto).
      pose proof (seg_ok_lookup _ _ _ Hk Hl) as Ho. assert (Ho' : Forall seg_ok q0) by (apply Forall_app in Ho; apply Ho).
      assert (Hl0 : exists x, lookup q0 j = Some x) by (rewrite lookup_app in Hl; destruct (lookup q0 j); [eauto | discriminate]).
      destruct Hl0 as [x0 Hl0].
      assert (Rep : forall w, normal w -> replace_ptr (render (q0 ++ [REF])) w (Some (sub g j)) = Ok (Some (sub (upd g q0 w) j))).
      { intros w Hn. unfold replace_ptr. rewrite isref_render by exact Ho.
        destruct (lookup_sub q0 g j x0 Hg Hl0 Hw) as [y Hy].
        rewrite (setp_ok _ _ _ _ Hn), dot_path_render by assumption. rewrite (denull_lookup q0 _ y Hq0 Hy).
        rewrite (gset_put q0 w true _ y Ho' Hy). cbn [bind]. rewrite (put_sub q0 w g j x0); [reflexivity | | exact Hl0 | exact Hw].
        intros q' Ha _. now apply Hg. }
      unfold rstep. rewrite Hp. cbn [bind]. rewrite Hx. cbn [negb]. unfold valof. destruct (path_has pp p) eqn:Hh.
      - unfold r_set_recursive. cbn [exports_get find]. rewrite on_cx_with, st_cx_with, (Rep (JObj []) eq_refl). split.
        + intros (c' & [= <-] & ->). exists (JObj []). split; [reflexivity|]. now rewrite st_with_with.
        + intros (w & [= <-] & ->). eexists. split; [reflexivity|]. now rewrite st_with_with.
      - split.
        + intro H. apply bind_ok in H as (x & Hx' & H). apply bind_ok in H as (nc & Hnc & H). apply bind_ok in H as (r & Hr & H).
          unfold c_make in Hnc. apply bind_ok in Hnc as (y & Hy & E). injection E as <-.
          destruct (Hfn _ _ Hx') as (T1 & T2 & T3).
          apply (IHf _ _ (fst (st_with s (Some (sub g j))), Some (Some y)) y eq_refl (clone_tidy _ _ T1 Hy) (clone_lonely _ _ T2 Hy) (normal_clone _ _ Hy)) in Hr;
            [|now rewrite (clone_is_scalar _ _ Hy)].
          destruct Hr as (w & Hw' & ->). exists w. rewrite Hx'. cbn [bind]. rewrite Hy. cbn [bind]. split; [exact Hw'|].
          unfold r_set in H. cbn [exports_get find] in H.
          change (st_with (fst (st_with s (Some (sub g j))), Some (Some y)) (Some w)) with (fst (st_with s (Some (sub g j))), Some (Some w)) in H.
          change (c_data (st_cx (fst (st_with s (Some (sub g j))), Some (Some w)))) with w in H.
          change (fst (fst (st_with s (Some (sub g j))), Some (Some w))) with (fst (st_with s (Some (sub g j)))) in H.
          rewrite <- surjective_pairing in H. apply on_cx_with in H as (c' & H & ->). rewrite st_cx_with in H. rewrite Rep in H by (eapply expand_normal; [exact (normal_clone _ _ Hy) | exact Hw']).
          injection H as <-. now rewrite st_with_with.
        + intros (w & Hw' & ->). apply bind_ok in Hw' as (x & Hx' & Hw'). apply bind_ok in Hw' as (y & Hy & Hw').
          rewrite Hx'. cbn [bind]. unfold c_make. rewrite Hy. cbn [bind]. destruct (Hfn _ _ Hx') as (T1 & T2 & T3).
          assert (Hr : iterator ord [] fn f (pos ++ [i]) (pp ++ [p]) (fst (st_with s (Some (sub g j))), Some (Some y)) = Ok (fst (st_with s (Some (sub g j))), Some (Some w))).
          { apply (IHf _ _ (fst (st_with s (Some (sub g j))), Some (Some y)) y eq_refl (clone_tidy _ _ T1 Hy) (clone_lonely _ _ T2 Hy) (normal_clone _ _ Hy)).
            - now rewrite (clone_is_scalar _ _ Hy).
            - exists w. split; [exact Hw' | reflexivity]. }
          match goal with |- bind ?a ?k = ?b => apply (eq_trans (f_equal (fun z => bind z k) Hr)) end.
          cbn [bind]. unfold r_set. cbn [exports_get find].
          change (c_data (st_cx (fst (st_with s (Some (sub g j))), Some (Some w)))) with w.
          change (fst (fst (st_with s (Some (sub g j))), Some (Some w))) with (fst (st_with s (Some (sub g j)))).
          rewrite <- surjective_pairing.
          apply on_cx_with. rewrite st_cx_with. rewrite Rep by (eapply expand_normal; [exact (normal_clone _ _ Hy) | exact Hw']).
          eexists. split; [reflexivity|]. now rewrite st_with_with.
    Qed.

    Lemma loop_expand : forall qs i g, NoDup (map fst qs) -> Forall (fun e => lookup (fst e ++ [REF]) j = Some (snd e)) qs ->
      (forall q w, g q = Some w -> (exists t p, ext_ref j q t p) /\ ~ In q (map fst qs)) ->
      forall s', rloop (rstep ord [] fn f pos pp) i (map rk qs) (st_with s (Some (sub g j))) = Ok s' <->
        (forall q t, In (q, JStr t) qs -> entry_ok t) /\ s' = st_with s (Some (sub (merge g qs) j)).
    Proof.
      induction qs as [|[q0 v] qs IHl]; intros i g Hnd Hfa Hg s'.
      - cbn [map rloop]. unfold merge. cbn [existsb]. split.
        + intros [= <-]. split; [intros q t []|]. reflexivity.
        + intros [_ ->]. reflexivity.
      - cbn [map rloop rk fst snd]. inversion Hnd as [|? ? Hn0 Hnd']; subst. inversion Hfa as [|? ? Hl Hfa']; subst. cbn [fst snd] in *.
        destruct Ht as (Hw & Hk & Hroot).
        (* the three kinds of entries *)
        assert (Skip : (forall t, v = JStr t -> entry_ok t) -> subst_of (valof f pp) j q0 = None ->
           rstep ord [] fn f pos pp i (render (q0 ++ [REF])) v (st_with s (Some (sub g j))) = Ok (st_with s (Some (sub g j))) ->
           (do s2 <- rstep ord [] fn f pos pp i (render (q0 ++ [REF])) v (st_with s (Some (sub g j))) ;
            rloop (rstep ord [] fn f pos pp) (S i) (map rk qs) s2) = Ok s' <->
           (forall q t, (q0, v) = (q, JStr t) \/ In (q, JStr t) qs -> entry_ok t) /\ s' = st_with s (Some (sub (merge g ((q0, v) :: qs)) j))).
        { intros Hv Hs0 Hst. rewrite Hst. cbn [bind]. rewrite IHl.
          - assert (Em : sub (merge g ((q0, v) :: qs)) j = sub (merge g qs) j).
            { apply sub_ext; [|exact Hw]. intros q y _. unfold merge. cbn [existsb fst]. destruct (loc_dec q0 q) as [<-|]; [|reflexivity].
              cbn [orb]. rewrite Hs0. match goal with |- _ = (if ?b then _ else _) => destruct b; [reflexivity|] end.
              destruct (g q0) eqn:Eg; [|reflexivity]. exfalso. apply (Hg _ _ Eg). now left. }
            rewrite Em. split; intros [A B]; (split; [|exact B]).
            + intros q t [E|Hin]; [injection E as _ ->; now apply Hv | eauto].
            + intros q t Hin. eauto.
          - exact Hnd'.
          - exact Hfa'.
          - intros q w Hq. destruct (Hg q w Hq) as [A B]. split; [exact A|]. intro Hin. apply B. now right. }
        destruct v as [| | |t| |].
        1-3,5-6: apply Skip; [discriminate | unfold subst_of; now rewrite Hl | reflexivity].
        destruct (ptr_parse t) as [p| | |] eqn:Hp.
        2-4: (split; [intro H; apply bind_ok in H as (s2 & H & _); cbn [rstep] in H; rewrite Hp in H; discriminate
                     | intros [H _]; destruct (H q0 t (or_introl eq_refl)) as (p & Hp' & _); congruence]).
        destruct (is_external p) eqn:Hx.
        2:{ apply Skip.
            - intros t' [= <-]. exists p. split; [exact Hp | congruence].
            - unfold subst_of. now rewrite Hl, Hp, Hx.
            - cbn [rstep]. rewrite Hp. cbn [bind]. now rewrite Hx. }
        clear Skip.
        assert (Hg0 : forall q, above q q0 -> g q = None).
        { intros q [u ->]. destruct (g q) as [w|] eqn:Eg; [|reflexivity]. exfalso. destruct (Hg _ _ Eg) as [(t1 & p1 & He1) Hn1].
          rewrite <- app_assoc in Hl. pose proof (Hlo q u t1 p1 t He1 Hl) as ->. apply Hn1. left. now rewrite app_nil_r. }
        assert (Sub : forall w, valof f pp p = Ok w -> subst_of (valof f pp) j q0 = Some w).
        { intros w Hw'. unfold subst_of. now rewrite Hl, Hp, Hx, Hw'. }
        assert (Rest : forall w s2, valof f pp p = Ok w -> s2 = st_with s (Some (sub (upd g q0 w) j)) ->
           rloop (rstep ord [] fn f pos pp) (S i) (map rk qs) s2 = Ok s' <->
           (forall q t0, In (q, JStr t0) qs -> entry_ok t0) /\ s' = st_with s (Some (sub (merge g ((q0, JStr t) :: qs)) j))).
        { intros w s2 Hw' ->. rewrite IHl.
          - assert (Em : sub (merge (upd g q0 w) qs) j = sub (merge g ((q0, JStr t) :: qs)) j); [|now rewrite Em].
            apply sub_ext; [|exact Hw]. intros q y _. unfold merge. cbn [existsb fst]. destruct (loc_dec q0 q) as [<-|Nq].
            + cbn [orb]. rewrite (Sub w Hw'). rewrite upd_same. match goal with |- (if ?b then _ else _) = _ => destruct b; reflexivity end.
            + cbn [orb]. now rewrite upd_other by exact Nq.
          - exact Hnd'.
          - exact Hfa'.
          - intros q w0 Hq. unfold upd in Hq. destruct (loc_dec q0 q) as [<-|Nq].
            + split; [|exact Hn0]. exists t, p. split; auto.
            + destruct (Hg q w0 Hq) as [A B]. split; [exact A|]. intro Hin. apply B. now right. }
        split.
        + intro H. apply bind_ok in H as (s2 & H & H2). apply (step_ext i q0 t p g Hl Hp Hx Hg0) in H as (w & Hw' & Es).
          apply (Rest w s2 Hw' Es) in H2 as [A B]. split; [|exact B]. intros q t0 [E|Hin]; [|eauto].
          injection E as _ <-. exists p. split; [exact Hp | eauto].
        + intros [A B]. destruct (A q0 t (or_introl eq_refl)) as (p' & Hp' & Hw'). assert (p' = p) by congruence. subst p'.
          destruct (Hw' Hx) as [w Hw2].
          rewrite (proj2 (step_ext i q0 t p g Hl Hp Hx Hg0 _) (ex_intro _ w (conj Hw2 eq_refl))). cbn [bind].
          apply (Rest w _ Hw2 eq_refl). split; [|exact B]. intros q t0 Hin. eapply A. right. exact Hin.
    Qed.
  End Loop.

  Lemma sub_none j : sub (fun _ => None) j = j.
  Proof.
    induction j as [| | | |l IH|m IH] using json_induction; try reflexivity.
    - rewrite sub_arr. f_equal. generalize 0 as n. induction IH as [|x l Hx _ IHl]; intro n; [reflexivity|]. cbn [sub_list]. now rewrite Hx, IHl.
    - rewrite sub_obj. f_equal. unfold sub_map. induction IH as [|[k x] m Hx _ IHm]; [reflexivity|]. cbn [map fst snd] in *. now rewrite Hx, IHm.
  Qed.

  Lemma entries_locs j refs : Forall (ref_entry j) refs -> exists qs, refs = map rk qs /\ Forall (fun e => lookup (fst e ++ [REF]) j = Some (snd e)) qs.
  Proof.
    induction 1 as [|[key v] refs (q & E & L & _) _ (qs & -> & IH)]; [exists []; auto|]. cbn [fst snd] in *. subst key.
    exists ((q, v) :: qs). split; [reflexivity | constructor; auto].
  Qed.

  Theorem iterator_expand : forall fuel pos pp s j, st_cx s = Some j -> tidy j -> lonely j -> normal j -> is_scalar j = false ->
    forall s', iterator ord [] fn fuel pos pp s = Ok s' <-> exists r, expand fuel fn clone pp j = Ok r /\ s' = st_with s (Some r).
  Proof.
    induction fuel as [|f IH]; intros pos pp s j Hs Ht Hlo Hn Hsc s'.
    - split; [discriminate | intros (r & H & _); discriminate].
    - rewrite iterator_S, Hs, expand_S.
      assert (exists refs, extract_key (ord pos) "$ref" (Some j) = Ok refs) as [refs He].
      { unfold extract_key, c_flatten, c_data. destruct j; try discriminate; cbn [bind]; eauto. }
      rewrite He. cbn [bind]. destruct (extract_refs (ord pos) j refs (Hord pos) (proj1 Ht) (proj1 (proj2 Ht)) He) as (Hnd & Hre & Hin).
      destruct (entries_locs j refs Hre) as (qs & -> & Hfa).
      assert (Hnd' : NoDup (map fst qs)).
      { clear -Hnd. unfold keys in Hnd. rewrite map_map in Hnd. cbn [rk fst] in Hnd. induction qs as [|[q v] qs IHq]; cbn [map] in *; constructor; inversion Hnd as [|? ? Hn0 Hnd0]; subst; auto.
        intro Hi. apply Hn0. cbn [fst] in *. apply in_map_iff in Hi as (e & <- & Hi). apply in_map_iff. exists e. auto. }
      rewrite <- (st_with_cx s), Hs. rewrite <- (sub_none j) at 1.
      rewrite (loop_expand f pos pp s j Ht Hlo IH qs 0 (fun _ => None) Hnd' Hfa); [|discriminate].
      assert (Em : sub (merge f pp j (fun _ => None) qs) j = sub (subst_of (valof f pp) j) j).
      { apply sub_ext; [|apply Ht]. intros q y _. unfold merge. match goal with |- (if ?b then _ else _) = _ => destruct b eqn:Eb; [reflexivity|] end.
        unfold subst_of. destruct (lookup (q ++ [REF]) j) as [[| | |t| |]|] eqn:L; try reflexivity.
        exfalso. specialize (Hin q _ L eq_refl). apply in_map_iff in Hin as ([q1 v1] & E1 & Hi). unfold rk in E1. cbn [fst snd] in E1. injection E1 as E1 ->.
        rewrite Forall_forall in Hfa. pose proof (Hfa _ Hi) as L1. cbn [fst snd] in L1.
        assert (q1 ++ [REF] = q ++ [REF]) as E2.
        { destruct Ht as (_ & Hk & _). eapply render_inj; [| | | |exact L1 | exact L | exact E1].
          - eapply seg_ok_lookup; eassumption.
          - eapply seg_ok_lookup; eassumption.
          - destruct q1; discriminate.
          - destruct q; discriminate. }
        apply app_inj_tail in E2 as [-> _].
        assert (existsb (fun e => if loc_dec (fst e) q then true else false) qs = true) as Eb'; [|congruence].
        apply existsb_exists. exists (q, JStr t). split; [exact Hi|]. cbn [fst]. destruct (loc_dec q q); congruence. }
      rewrite Em. split.
      + intros [A ->]. exists (sub (subst_of (valof f pp) j) j). split; [|now rewrite ?st_with_with]. apply fill_sub; [apply Ht|].
        intros q t L. specialize (Hin q _ L eq_refl). apply in_map_iff in Hin as ([q1 v1] & E1 & Hi). unfold rk in E1. cbn [fst snd] in E1. injection E1 as _ ->.
        exact (A q1 t Hi).
      + intros (r & Hr & ->). rewrite ?st_with_with. pose proof (fill_inv _ _ _ (proj1 Ht) Hlo Hr) as Ha. split.
        * intros q t Hi. rewrite Forall_forall in Hfa. pose proof (Hfa _ Hi) as L1. exact (Ha q t L1).
        * rewrite (fill_sub _ _ (proj1 Ht) Ha) in Hr. congruence.
  Qed.

  Theorem resolve_expand fuel doc r : tidy doc -> lonely doc -> is_scalar doc = false ->
    resolve ord [] fn fuel (Some doc) = Ok (Some r) <-> exists doc', clone doc = Ok doc' /\ expand fuel fn clone [] doc' = Ok r.
  Proof.
    intros Ht Hlo Hsc. unfold resolve, c_clone. cbn [c_data]. destruct (clone_cases doc) as [[doc' Hc]|Hc]; rewrite Hc.
    - pose proof (iterator_expand fuel [] [] (Some doc', None) doc' eq_refl (clone_tidy _ _ Ht Hc) (clone_lonely _ _ Hlo Hc) (normal_clone _ _ Hc)) as H.
      rewrite (clone_is_scalar _ _ Hc) in H. specialize (H Hsc). split.
      + intro H1. apply bind_ok in H1 as (s' & H1 & E). apply H in H1 as (r' & Hr & ->). rewrite st_cx_with in E. injection E as <-. eauto.
      + intros (d & [= <-] & Hr). assert (H1 : iterator ord [] fn fuel [] [] (Some doc', None) = Ok (st_with (Some doc', None) (Some r))) by (apply H; eauto).
        match goal with |- bind ?a ?k = ?b => exact (eq_trans (f_equal (fun z => bind z k) H1) eq_refl) end.
    - split; [|intros (d & E & _); discriminate]. intro H. exfalso. destruct fuel; [discriminate|]. rewrite iterator_S in H. discriminate.
  Qed.
End Expand.
