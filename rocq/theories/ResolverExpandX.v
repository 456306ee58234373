(** Nested resolution with exports is substitution (proofs, C84). *)
From Coq Require Import String Ascii List Bool Arith ZArith Lia Permutation.
From Verif Require Import GoStr GoStrFacts Json JsonFacts Gabs GabsFacts Container MergeFacts
  Spec_Loc LocFacts SetFacts CloneFacts Url Pointer FragFacts PtrFacts Resolver Spec_Resolve ResolverFacts ResolverTerm ResolverFrame ResolverLocal ResolverExpand.
Import ListNotations.
Local Open Scope string_scope.
Local Open Scope nat_scope.
Local Open Scope list_scope.

(** ** fillx *)
Section Fillx.
  Context (f : list (string * json) -> ptr -> res json).
  Definition fillx_list := fix go (l : list json) : res (list json) :=
    match l with [] => Ok [] | x :: r => do x' <- fillx f x ; do r' <- go r ; Ok (x' :: r') end.
  Definition fillx_map := fix go (m : list (string * json)) : res (list (string * json)) :=
    match m with [] => Ok [] | (k, x) :: r => do x' <- fillx f x ; do r' <- go r ; Ok ((k, x') :: r') end.
  Lemma fillx_arr l : fillx f (JArr l) = do l' <- fillx_list l ; Ok (JArr l').
  Proof. reflexivity. Qed.
  Lemma fillx_obj m : fillx f (JObj m) = do o <- target m ; match o with Some p => f m p | None => do m' <- fillx_map m ; Ok (JObj m') end.
  Proof. reflexivity. Qed.
  Lemma fillx_list_ok l l' : fillx_list l = Ok l' <-> Forall2 (fun x y => fillx f x = Ok y) l l'.
  Proof.
    revert l'. induction l as [|x l IH]; intro l'; cbn [fillx_list].
    - split; [intros [= <-]; constructor | intro H; now inversion H].
    - split.
      + intro H. apply bind_ok in H as (x' & Hx & H). apply bind_ok in H as (r' & Hr & H). injection H as <-. constructor; [exact Hx | now apply IH].
      + intro H. inversion H as [|? y ? r' Hx Hr]; subst. rewrite Hx. cbn [bind]. apply IH in Hr. rewrite Hr. reflexivity.
  Qed.
  Lemma fillx_map_ok m m' : fillx_map m = Ok m' <-> Forall2 (fun x y => fst y = fst x /\ fillx f (snd x) = Ok (snd y)) m m'.
  Proof.
    revert m'. induction m as [|[k x] m IH]; intro m'; cbn [fillx_map].
    - split; [intros [= <-]; constructor | intro H; now inversion H].
    - split.
      + intro H. apply bind_ok in H as (x' & Hx & H). apply bind_ok in H as (r' & Hr & H). injection H as <-. constructor; [auto | now apply IH].
      + intro H. inversion H as [|? [k' y] ? r' [Ek Hx] Hr]; subst. cbn in Ek, Hx. subst k'. rewrite Hx. cbn [bind]. apply IH in Hr. rewrite Hr. reflexivity.
  Qed.
  Definition all_okx (j : json) : Prop := forall q m t, lookup q j = Some (JObj m) -> oget "$ref" m = Some (JStr t) ->
    exists p, ptr_parse t = Ok p /\ (is_external p = true -> exists w, f m p = Ok w).
  Definition substx (j : json) (q : loc) : option json :=
    match lookup q j with
    | Some (JObj m) => match target m with Ok (Some p) => match f m p with Ok w => Some w | _ => None end | _ => None end
    | _ => None
    end.
  Lemma fillx_sub j : wf j -> all_okx j -> fillx f j = Ok (sub (substx j) j).
  Proof.
    induction j as [| | | |l IH|m IH] using json_induction; intros Hw Ha; try reflexivity.
    - rewrite fillx_arr, sub_arr. change (substx (JArr l) []) with (@None json).
      assert (E : fillx_list l = Ok (sub_list (substx (JArr l)) 0 l)); [|rewrite E; reflexivity].
      apply fillx_list_ok. assert (G : forall n l0, (forall i x, nth_error l0 i = Some x -> nth_error l (n + i) = Some x) ->
        Forall2 (fun x y => fillx f x = Ok y) l0 (sub_list (substx (JArr l)) n l0)).
      2:{ apply (G 0 l). auto. }
      intros n l0. revert n. induction l0 as [|x l0 IHl]; intros n Hn; cbn [sub_list]; constructor.
      + pose proof (Hn 0 x eq_refl) as E. rewrite Nat.add_0_r in E. rewrite Forall_forall in IH.
        rewrite (IH x (nth_error_In _ _ E) (wf_nth _ _ _ Hw E)).
        * f_equal. apply sub_ext; [|exact (wf_nth _ _ _ Hw E)]. intros q y _. unfold substx. cbn [lookup]. now rewrite E.
        * intros q m t L. apply (Ha (SIdx n :: q) m t). cbn [lookup]. now rewrite E.
      + apply IHl. intros i y Hi. rewrite Nat.add_succ_comm. now apply Hn.
    - rewrite fillx_obj, sub_obj.
      assert (E : fillx_map m = Ok (sub_map (substx (JObj m)) m)).
      { apply fillx_map_ok. unfold sub_map.
        assert (G : forall m0, incl m0 m -> Forall2 (fun x y => fst y = fst x /\ fillx f (snd x) = Ok (snd y)) m0
                  (map (fun kx => (fst kx, sub (fun q => substx (JObj m) (SKey (fst kx) :: q)) (snd kx))) m0)); [|apply G, incl_refl].
        induction m0 as [|[k x] m0 IHm]; intro Hin; cbn [map]; constructor.
        - cbn [fst snd]. split; [reflexivity|]. assert (Hi : In (k, x) m) by (apply Hin; now left).
          pose proof (sorted_in_oget _ _ _ (wf_sorted _ Hw) Hi) as E. rewrite Forall_forall in IH.
          pose proof (IH (k, x) Hi (wf_oget _ _ _ Hw E)) as IH'. cbn [snd] in IH'. rewrite IH'.
          + f_equal. apply sub_ext; [|exact (wf_oget _ _ _ Hw E)]. intros q y _. unfold substx. cbn [lookup]. now rewrite E.
          + intros q m1 t L. apply (Ha (SKey k :: q) m1 t). cbn [lookup]. now rewrite E.
        - apply IHm. intros y Hy. apply Hin. now right. }
      assert (T : target m = Ok None /\ substx (JObj m) [] = None \/ exists p w, target m = Ok (Some p) /\ f m p = Ok w /\ substx (JObj m) [] = Some w).
      { pose proof (Ha [] m) as H0. unfold substx. cbn [lookup] in *. unfold target in *. destruct (oget "$ref" m) as [x|]; [|auto].
        destruct x as [| | |t| |]; auto. destruct (H0 t eq_refl eq_refl) as (p & Hp & Hw'). rewrite Hp. cbn [bind]. destruct (is_external p); [|auto].
        destruct (Hw' eq_refl) as [w Hw2]. right. exists p, w. rewrite Hw2. auto. }
      destruct T as [[T1 T2]|(p & w & T1 & T2 & T3)].
      + rewrite T1, T2. cbn [bind]. rewrite E. reflexivity.
      + rewrite T1, T3. exact T2.
  Qed.
  Lemma fillx_normal j : (forall m p w, normal (JObj m) -> f m p = Ok w -> normal w) -> forall r, normal j -> fillx f j = Ok r -> normal r.
  Proof.
    intro Hf. induction j as [| | | |l IH|m IH] using json_induction; intros r Hn H; try (injection H as <-; exact Hn).
    - rewrite fillx_arr in H. apply bind_ok in H as (l' & H & E). injection E as <-. apply fillx_list_ok in H. apply normal_arr in Hn. apply normal_arr.
      clear -IH Hn H. induction H as [|x y l l' Hxy _ IHl]; constructor; inversion IH; inversion Hn; subst; auto.
    - rewrite fillx_obj in H. apply bind_ok in H as (o & _ & H). destruct o as [p|]; [now apply (Hf m p)|].
      apply bind_ok in H as (m' & H & E). injection E as <-. apply fillx_map_ok in H. apply normal_obj in Hn. apply normal_obj.
      clear -IH Hn H. induction H as [|x y l l' [_ Hxy] _ IHl]; constructor; inversion IH; inversion Hn; subst; auto.
  Qed.
End Fillx.

Lemma normal_set m v : normal (JObj m) -> normal v -> forall k, normal (JObj (oset k v m)).
Proof.
  intros Hm Hv k. apply normal_obj in Hm. apply normal_obj. induction m as [|[a b] m IH]; cbn [oset]; [repeat constructor; exact Hv|].
  apply Forall_cons_iff in Hm as [H1 H2]. destruct (String.compare k a); repeat constructor; auto.
Qed.

(** Where nothing above, at or below q is substituted, q keeps its value. *)
Lemma lookup_sub_same q : forall g j x, (forall q', above q' q \/ above q q' -> g q' = None) -> lookup q j = Some x -> wf j -> lookup q (sub g j) = Some x.
Proof.
  induction q as [|[k|i] q IH]; intros g j x Hg Hl Hw.
  - cbn in *. injection Hl as <-. f_equal. rewrite <- (sub_none j) at 2. apply sub_ext; [|exact Hw]. intros q y _. apply Hg. right. now exists q.
  - assert (G0 : g [] = None) by (apply Hg; left; eexists; reflexivity). cbn [lookup] in Hl; destruct j as [| | | |l|m]; try discriminate.
    destruct (oget k m) as [c|] eqn:E; [|discriminate]. rewrite sub_obj, G0. cbn [lookup]. rewrite sub_map_oget, E.
    apply IH; [|exact Hl | eapply wf_oget; eassumption]. intros q' [[t ->]|[t ->]]; apply Hg; [left | right]; now exists t.
  - assert (G0 : g [] = None) by (apply Hg; left; eexists; reflexivity). cbn [lookup] in Hl; destruct j as [| | | |l|m]; try discriminate.
    destruct (nth_error l i) as [c|] eqn:E; [|discriminate]. rewrite sub_arr, G0. cbn [lookup]. rewrite sub_list_nth, E.
    apply IH; [|exact Hl | eapply wf_nth; eassumption]. intros q' [[t ->]|[t ->]]; apply Hg; [left | right]; now exists t.
Qed.
Lemma put_snoc q : forall k v m j x, lookup q j = Some (JObj m) -> oget k m = Some x -> put (q ++ [SKey k]) v j = put q (JObj (oset k v m)) j.
Proof.
  induction q as [|[a|i] q IH]; intros k v m j x L E; cbn [lookup app put] in *.
  - injection L as ->. now rewrite E.
  - destruct j as [| | | |l|l]; try discriminate. destruct (oget a l) as [c|] eqn:Ea; [|discriminate]. now rewrite (IH _ _ _ _ _ L E).
  - destruct j as [| | | |l|l]; try discriminate. destruct (nth_error l i) as [c|] eqn:Ea; [|discriminate]. now rewrite (IH _ _ _ _ _ L E).
Qed.

(** ** The loop in a nested container *)
Definition expo (es : list export) (p : ptr) : option (string * string) :=
  match exports_get es p with Some e => Some (kind_key (e_kind e), e_name e) | None => None end.
Definition sane (x : json) : Prop := tidy x /\ lonely x.
Definition sane_fn (fn : ptr -> res json) : Prop := forall p x, fn p = Ok x -> sane x.
Lemma scheme_key e : is_scheme e = String.eqb (kind_key (e_kind e)) "schemas".
Proof. unfold is_scheme. destruct (e_kind e); reflexivity. Qed.
Lemma clone_lonely x y : lonely x -> clone x = Ok y -> lonely y.
Proof.
  intros H Hc q q' t p t' He Hl. apply (H q q' t p t'); [now apply (clone_ext _ _ _ _ _ Hc) | now apply (clone_lookup_str _ _ _ _ Hc)].
Qed.
Lemma clone_sane x y : sane x -> clone x = Ok y -> sane y.
Proof. intros [A B] H. split; [eapply clone_tidy; eassumption | eapply clone_lonely; eassumption]. Qed.

Section ExpandX.
  Context (ord : list nat -> list (string * json) -> list (string * json)) (es : list export) (fn : ptr -> res json).
  Hypothesis Hord : forall pos l, Permutation (ord pos l) l.
  Hypothesis Hes : Forall (fun e => good_name (e_name e)) es.
  Hypothesis Hfn : sane_fn fn.

  Definition valx (f : nat) (pp : list ptr) (m : list (string * json)) (p : ptr) : res json :=
    match expo es p with
    | Some (section, name) =>
        if path_has pp p
        then Ok (if String.eqb section "schemas" then JObj (oset "$ref" (JStr (local_text section name)) m) else JObj [])
        else do x <- fn p ; do y <- clone x ; do z <- expandx f (expo es) fn clone (pp ++ [p]) y ;
             Ok (JObj (oset "$ref" (JStr (local_text section name)) m))
    | None =>
        if path_has pp p then Ok (JObj [])
        else do x <- fn p ; do y <- clone x ; expandx f (expo es) fn clone (pp ++ [p]) y
    end.
  Lemma expandx_S f pp j : expandx (S f) (expo es) fn clone pp j = fillx (valx f pp) j.
  Proof. reflexivity. Qed.

  Lemma expandx_normal f : forall pp j r, normal j -> expandx f (expo es) fn clone pp j = Ok r -> normal r.
  Proof.
    induction f as [|f IH]; intros pp j r Hn H; [discriminate|]. rewrite expandx_S in H. eapply fillx_normal; [|exact Hn | exact H].
    intros m p w Hm Hw. unfold valx in Hw. destruct (expo es p) as [[sec name]|].
    - destruct (path_has pp p).
      + injection Hw as <-. destruct (String.eqb sec "schemas"); [apply normal_set; [exact Hm | reflexivity] | reflexivity].
      + apply bind_ok in Hw as (x & _ & Hw). apply bind_ok in Hw as (y & Hy & Hw). apply bind_ok in Hw as (z & _ & Hw). injection Hw as <-. apply normal_set; [exact Hm | reflexivity].
    - destruct (path_has pp p); [injection Hw as <-; reflexivity|].
      apply bind_ok in Hw as (x & _ & Hw). apply bind_ok in Hw as (y & Hy & Hw). eapply IH; [exact (normal_clone _ _ Hy) | exact Hw].
  Qed.

  Section Loop.
    Context (f : nat) (pos : list nat) (pp : list ptr) (j : json).
    Hypothesis Ht : tidy j.
    Hypothesis Hlo : lonely j.
    Hypothesis IHf : forall pos pp rt j, tidy j -> lonely j -> normal j ->
      forall s', iterator ord es fn f pos pp (rt, Some (Some j)) = Ok s' -> exists r, expandx f (expo es) fn clone pp j = Ok r /\ snd s' = Some (Some r).

    Definition mergex (g : loc -> option json) (qs : list (loc * json)) (q : loc) : option json :=
      if existsb (fun e => if loc_dec (fst e) q then true else false) qs then substx (valx f pp) j q else g q.

    Lemma step_extx i q0 m t p g : lookup q0 j = Some (JObj m) -> oget "$ref" m = Some (JStr t) -> ptr_parse t = Ok p -> is_external p = true ->
      (forall q, above q q0 \/ above q0 q -> g q = None) ->
      forall rt s2, rstep ord es fn f pos pp i (render (q0 ++ [REF])) (JStr t) (rt, Some (Some (sub g j))) = Ok s2 ->
        exists w, valx f pp m p = Ok w /\ snd s2 = Some (Some (sub (upd g q0 w) j)).
    Proof.
      intros Hl0 Hm Hp Hx Hg rt s2. destruct Ht as (Hw & Hk & Hroot).
      assert (Hl : lookup (q0 ++ [REF]) j = Some (JStr t)) by (rewrite lookup_app, Hl0; cbn [lookup]; now rewrite Hm).
      assert (Hq0 : q0 <> []) by (intros ->; apply (Hroot t p); split; auto).
      pose proof (seg_ok_lookup _ _ _ Hk Hl) as Ho. assert (Ho' : Forall seg_ok q0) by (apply Forall_app in Ho; apply Ho).
      pose proof (lookup_sub_same q0 g j (JObj m) Hg Hl0 Hw) as Hy.
      assert (PutS : forall w, put q0 w (sub g j) = sub (upd g q0 w) j).
      { intro w. eapply put_sub; [|exact Hl0 | exact Hw]. intros q' Ha _. apply Hg. now left. }
      assert (Rep : forall w, normal w -> replace_ptr (render (q0 ++ [REF])) w (Some (sub g j)) = Ok (Some (sub (upd g q0 w) j))).
      { intros w Hn. unfold replace_ptr. rewrite isref_render by exact Ho.
        rewrite (setp_ok _ _ _ _ Hn), dot_path_render by assumption. rewrite (denull_lookup q0 _ _ Hq0 Hy).
        rewrite (gset_put q0 w true _ _ Ho' Hy). cbn [bind]. now rewrite PutS. }
      assert (Upd : forall e, In e es -> update_ptr_local (render (q0 ++ [REF])) (entity_fragment (e_kind e) (e_name e)) (Some (sub g j)) =
                Ok (Some (sub (upd g q0 (JObj (oset "$ref" (JStr (local_text (kind_key (e_kind e)) (e_name e))) m))) j))).
      { intros e Ie. unfold update_ptr_local, update_ptr. rewrite isref_render by exact Ho.
        rewrite Forall_forall in Hes. fold (etext e). rewrite (etext_local e (Hes e Ie)).
        assert (Nq : q0 ++ [REF] <> []) by (destruct q0; discriminate).
        assert (Hy' : lookup (q0 ++ [REF]) (sub g j) = Some (JStr t)) by (rewrite lookup_app, Hy; cbn [lookup]; now rewrite Hm).
        rewrite (setp_ok _ _ _ _ (eq_refl : clone (JStr _) = Ok (JStr _))), dot_path_render by assumption. rewrite (denull_lookup _ _ _ Nq Hy').
        rewrite (gset_put (q0 ++ [REF]) _ true _ _ Ho Hy'). cbn [bind]. rewrite (put_snoc q0 _ _ m _ _ Hy Hm). now rewrite PutS. }
      intro H. unfold rstep in H. rewrite Hp in H. cbn [bind] in H. rewrite Hx in H. cbn [negb] in H. unfold valx. assert (Xp : expo es p = match exports_get es p with Some e => Some (kind_key (e_kind e), e_name e) | None => None end) by reflexivity. rewrite Xp. destruct (path_has pp p) eqn:Hh.
      - unfold r_set_recursive in H. destruct (exports_get es p) as [e|] eqn:Ee.
        + pose proof (exports_get_in _ _ _ Ee) as [Ie _]. rewrite scheme_key in H. destruct (String.eqb (kind_key (e_kind e)) "schemas").
          * unfold on_cx in H. cbn [snd fst] in H. rewrite (Upd e Ie) in H. cbn [bind] in H. injection H as <-. eexists. split; reflexivity.
          * unfold on_cx in H. cbn [snd fst] in H. rewrite (Rep (JObj []) eq_refl) in H. cbn [bind] in H. injection H as <-. eexists. split; reflexivity.
        + unfold on_cx in H. cbn [snd fst] in H. rewrite (Rep (JObj []) eq_refl) in H. cbn [bind] in H. injection H as <-. eexists. split; reflexivity.
      - apply bind_ok in H as (x & Hx' & H). apply bind_ok in H as (nc & Hnc & H). apply bind_ok in H as (r & Hr & H).
        unfold c_make in Hnc. apply bind_ok in Hnc as (y & Hy' & E). injection E as <-.
        destruct (clone_sane _ _ (Hfn _ _ Hx') Hy') as (T1 & T2).
        destruct (IHf _ _ _ _ T1 T2 (normal_clone _ _ Hy') _ Hr) as (w & Hw' & Es). destruct r as [rt' o]. cbn [snd fst] in Es, H. subst o.
        rewrite Hx'. cbn [bind]. rewrite Hy'. cbn [bind]. rewrite Hw'. cbn [bind]. unfold st_cx in H. cbn [snd c_data] in H. unfold r_set in H. destruct (exports_get es p) as [e|] eqn:Ee.
        + pose proof (exports_get_in _ _ _ Ee) as [Ie _]. apply bind_ok in H as (s3 & H1 & H). unfold on_root in H1. apply bind_ok in H1 as (c' & _ & X). injection X as <-. unfold on_cx in H. cbn [snd fst] in H.
          rewrite (Upd e Ie) in H. cbn [bind] in H. injection H as <-. eexists. split; reflexivity.
        + unfold on_cx in H. cbn [snd fst] in H. rewrite Rep in H by (eapply expandx_normal; [exact (normal_clone _ _ Hy') | exact Hw']). cbn [bind] in H. injection H as <-. eexists. split; reflexivity.
    Qed.

    Lemma ref_parent q v : lookup (q ++ [REF]) j = Some v -> exists m, lookup q j = Some (JObj m) /\ oget "$ref" m = Some v.
    Proof.
      rewrite lookup_app. destruct (lookup q j) as [x|]; [|discriminate]. cbn [lookup]. destruct x as [| | | | |m]; try discriminate. destruct (oget "$ref" m) as [w|] eqn:E; [|discriminate]. intros [= ->]. eauto.
    Qed.

    Definition entry_okx (q : loc) (t : string) : Prop := exists m p, lookup q j = Some (JObj m) /\ oget "$ref" m = Some (JStr t) /\ ptr_parse t = Ok p /\ (is_external p = true -> exists w, valx f pp m p = Ok w).

    Lemma loopx : forall qs i g, NoDup (map fst qs) -> Forall (fun e => lookup (fst e ++ [REF]) j = Some (snd e)) qs ->
      (forall q w, g q = Some w -> (exists t p, ext_ref j q t p) /\ ~ In q (map fst qs)) ->
      forall rt s', rloop (rstep ord es fn f pos pp) i (map (fun e => (render (fst e ++ [REF]), snd e)) qs) (rt, Some (Some (sub g j))) = Ok s' ->
        (forall q t, In (q, JStr t) qs -> entry_okx q t) /\ snd s' = Some (Some (sub (mergex g qs) j)).
    Proof.
      induction qs as [|[q0 v] qs IHl]; intros i g Hnd Hfa Hg rt s' H.
      - cbn [map rloop] in H. injection H as <-. split; [intros q t [] | reflexivity].
      - cbn [map rloop fst snd] in H. inversion Hnd as [|? ? Hn0 Hnd']; subst. inversion Hfa as [|? ? Hl Hfa']; subst. cbn [fst snd] in *.
        pose proof Ht as (Hw & Hk & Hroot). apply bind_ok in H as (s2 & Hs & H). destruct (ref_parent _ _ Hl) as (m & Lm & Om).
        assert (Skip : (forall t, v = JStr t -> entry_okx q0 t) -> substx (valx f pp) j q0 = None -> s2 = (rt, Some (Some (sub g j))) ->
           (forall q t, (q0, v) = (q, JStr t) \/ In (q, JStr t) qs -> entry_okx q t) /\ snd s' = Some (Some (sub (mergex g ((q0, v) :: qs)) j))).
        { intros Hv Hs0 ->. destruct (IHl (S i) g Hnd' Hfa') with (rt := rt) (s' := s') as [A B]; [|exact H|].
          { intros q w Hq. destruct (Hg q w Hq) as [A B]. split; [exact A|]. intro Hin. apply B. now right. }
          split; [intros q t [E|Hin]; [injection E as <- ->; now apply Hv | now apply A]|]. rewrite B. do 2 f_equal. apply sub_ext; [|exact Hw]. intros q y _. unfold mergex. cbn [existsb fst]. destruct (loc_dec q0 q) as [<-|]; [|reflexivity].
          cbn [orb]. rewrite Hs0. match goal with |- (if ?b then _ else _) = _ => destruct b; [reflexivity|] end.
          destruct (g q0) eqn:Eg; [|reflexivity]. exfalso. apply (Hg _ _ Eg). now left. }
        destruct v as [| | |t| |].
        1-3,5-6: apply Skip; [discriminate | unfold substx, target; now rewrite Lm, Om | now injection Hs as <-].
        unfold rstep in Hs. pose proof Hs as Hs0. apply bind_ok in Hs as (p & Hp & Hs).
        destruct (is_external p) eqn:Hx; cbn [negb] in Hs.
        2:{ apply Skip.
            - intros t' [= <-]. exists m, p. repeat split; auto. congruence.
            - unfold substx, target. rewrite Lm, Om, Hp. cbn [bind]. now rewrite Hx.
            - now injection Hs as <-. }
        clear Skip Hs.
        assert (Hg0 : forall q, above q q0 \/ above q0 q -> g q = None).
        { intros q Hq. destruct (g q) as [w|] eqn:Eg; [|reflexivity]. exfalso. destruct (Hg _ _ Eg) as [(t1 & p1 & He1) Hn1]. destruct Hq as [[u ->]|[u ->]].
          - rewrite <- app_assoc in Hl. pose proof (Hlo q u t1 p1 t He1 Hl) as ->. apply Hn1. left. now rewrite app_nil_r.
          - assert (He0 : ext_ref j q0 t p) by (split; auto). pose proof (proj1 He1) as L1. rewrite <- app_assoc in L1. pose proof (Hlo q0 u t p t1 He0 L1) as ->. apply Hn1. left. now rewrite app_nil_r. }
        destruct (step_extx i q0 m t p g Lm Om Hp Hx Hg0 rt s2 Hs0) as (w & Hw' & Es). destruct s2 as [rt2 o]. cbn [snd] in Es. subst o.
        destruct (IHl (S i) (upd g q0 w) Hnd' Hfa') with (rt := rt2) (s' := s') as [A B]; [|exact H|].
        { intros q w0 Hq. unfold upd in Hq. destruct (loc_dec q0 q) as [<-|Nq].
          + split; [|exact Hn0]. exists t, p. split; auto.
          + destruct (Hg q w0 Hq) as [A B]. split; [exact A|]. intro Hin. apply B. now right. }
        split.
        + intros q t0 [E|Hin]; [|now apply A]. injection E as <- <-. exists m, p. repeat split; auto. intros _. eauto.
        + rewrite B. do 2 f_equal. apply sub_ext; [|exact Hw]. intros q y _. unfold mergex. cbn [existsb fst]. destruct (loc_dec q0 q) as [<-|Nq].
          * cbn [orb]. rewrite upd_same. assert (substx (valx f pp) j q0 = Some w) as ->; [|match goal with |- (if ?b then _ else _) = _ => destruct b; reflexivity end].
            unfold substx, target. rewrite Lm, Om, Hp. cbn [bind]. now rewrite Hx, Hw'.
          * cbn [orb]. now rewrite upd_other by exact Nq.
    Qed.
  End Loop.

  Theorem iterator_expandx : forall fuel pos pp rt j, tidy j -> lonely j -> normal j ->
    forall s', iterator ord es fn fuel pos pp (rt, Some (Some j)) = Ok s' -> exists r, expandx fuel (expo es) fn clone pp j = Ok r /\ snd s' = Some (Some r).
  Proof.
    induction fuel as [|f IH]; intros pos pp rt j Ht Hlo Hn s' H; [discriminate|].
    rewrite iterator_S in H. unfold st_cx in H. cbn [snd] in H. rewrite expandx_S. apply bind_ok in H as (refs & He & H).
    destruct (extract_refs (ord pos) j refs (Hord pos) (proj1 Ht) (proj1 (proj2 Ht)) He) as (Hnd & Hre & Hin).
    destruct (entries_locs j refs Hre) as (qs & -> & Hfa).
    assert (Hnd' : NoDup (map fst qs)).
    { clear -Hnd. unfold keys in Hnd. rewrite map_map in Hnd. cbn [rk fst] in Hnd. induction qs as [|[q v] qs IHq]; cbn [map] in *; constructor; inversion Hnd as [|? ? Hn0 Hnd0]; subst; auto.
      intro Hi. apply Hn0. cbn [fst] in *. apply in_map_iff in Hi as (e & <- & Hi). apply in_map_iff. exists e. auto. }
    rewrite <- (sub_none j) in H at 1.
    destruct (loopx f pos pp j Ht Hlo IH qs 0 (fun _ => None) Hnd' Hfa) with (rt := rt) (s' := s') as [A B]; [discriminate | exact H|].
    exists (sub (substx (valx f pp) j) j). split.
    - apply fillx_sub; [apply Ht|]. intros q m t Lm Om.
      assert (L : lookup (q ++ [REF]) j = Some (JStr t)) by (rewrite lookup_app, Lm; cbn [lookup]; now rewrite Om).
      specialize (Hin q _ L eq_refl). apply in_map_iff in Hin as ([q1 v1] & E1 & Hi). unfold rk in E1. cbn [fst snd] in E1. injection E1 as E1 ->.
      destruct (A q1 t Hi) as (m1 & p & L1 & O1 & Hp & Hv). assert (q1 = q) as ->.
      { pose proof Hfa as Hfa'. rewrite Forall_forall in Hfa'. pose proof (Hfa' _ Hi) as L2. cbn [fst snd] in L2.
        assert (q1 ++ [REF] = q ++ [REF]) as E2; [|now apply app_inj_tail in E2 as [-> _]]. destruct Ht as (_ & Hk & _). eapply render_inj; [| | | |exact L2 | exact L | exact E1].
        - eapply seg_ok_lookup; eassumption.
        - eapply seg_ok_lookup; eassumption.
        - destruct q1; discriminate.
        - destruct q; discriminate. }
      exists p. split; [exact Hp|]. assert (m1 = m) as <- by congruence. exact Hv.
    - rewrite B. do 2 f_equal. apply sub_ext; [|apply Ht]. intros q y _. unfold mergex. match goal with |- (if ?b then _ else _) = _ => destruct b eqn:Eb; [reflexivity|] end.
      unfold substx. destruct (lookup q j) as [[| | | | |m]|] eqn:Lm; try reflexivity. unfold target. destruct (oget "$ref" m) as [[| | |t| |]|] eqn:Om; try reflexivity.
      exfalso. assert (L : lookup (q ++ [REF]) j = Some (JStr t)) by (rewrite lookup_app, Lm; cbn [lookup]; now rewrite Om).
      specialize (Hin q _ L eq_refl). apply in_map_iff in Hin as ([q1 v1] & E1 & Hi). unfold rk in E1. cbn [fst snd] in E1. injection E1 as E1 ->.
      rewrite Forall_forall in Hfa. pose proof (Hfa _ Hi) as L1. cbn [fst snd] in L1.
      assert (q1 ++ [REF] = q ++ [REF]) as E2.
      { destruct Ht as (_ & Hk & _). eapply render_inj; [| | | |exact L1 | exact L | exact E1].
        - eapply seg_ok_lookup; eassumption.
        - eapply seg_ok_lookup; eassumption.
        - destruct q1; discriminate.
        - destruct q; discriminate. }
      apply app_inj_tail in E2 as [-> _].
      assert (existsb (fun e => if loc_dec (fst e) q then true else false) qs = true) as Eb'; [|congruence].
      apply existsb_exists. exists (q, JStr t). split; [exact Hi|]. cbn [fst]. destruct (loc_dec q q); congruence.
  Qed.

  (** More depth changes nothing. *)
  Lemma fillx_mono (f g : list (string * json) -> ptr -> res json) : (forall m p w, f m p = Ok w -> g m p = Ok w) -> forall j r, fillx f j = Ok r -> fillx g j = Ok r.
  Proof.
    intro Hfg. induction j as [| | | |l IH|m IH] using json_induction; intros r H; try exact H.
    - rewrite fillx_arr in *. apply bind_ok in H as (l' & H & E). injection E as <-. apply fillx_list_ok in H.
      assert (fillx_list g l = Ok l') as ->; [|reflexivity]. apply fillx_list_ok. clear -IH H. induction H; inversion IH; subst; constructor; auto.
    - rewrite fillx_obj in *. apply bind_ok in H as (o & Ho & H). rewrite Ho. cbn [bind]. destruct o as [p|]; [auto|].
      apply bind_ok in H as (m' & H & E). injection E as <-. apply fillx_map_ok in H.
      assert (fillx_map g m = Ok m') as ->; [|reflexivity]. apply fillx_map_ok. clear -IH H. induction H as [|x y l l' [E1 E2] _ IHl]; inversion IH; subst; constructor; auto.
  Qed.
  Lemma expandx_mono n : forall pp j r, expandx n (expo es) fn clone pp j = Ok r -> forall n', n <= n' -> expandx n' (expo es) fn clone pp j = Ok r.
  Proof.
    induction n as [|n IH]; intros pp j r H n' L; [discriminate|]. destruct n' as [|n']; [lia|]. rewrite expandx_S in *.
    eapply fillx_mono; [|exact H]. intros m p w Hw. unfold valx in *. destruct (expo es p) as [[sec name]|]; destruct (path_has pp p); auto.
    - apply bind_ok in Hw as (x & Hx & Hw). apply bind_ok in Hw as (y & Hy & Hw). apply bind_ok in Hw as (z & Hz & Hw). rewrite Hx. cbn [bind]. rewrite Hy. cbn [bind]. rewrite (IH _ _ _ Hz n') by lia. exact Hw.
    - apply bind_ok in Hw as (x & Hx & Hw). apply bind_ok in Hw as (y & Hy & Hw). rewrite Hx. cbn [bind]. rewrite Hy. cbn [bind]. now rewrite (IH _ _ _ Hw n') by lia.
  Qed.
End ExpandX.
