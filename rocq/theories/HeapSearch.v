(** gabs Search in memory. *)
From Coq Require Import String Ascii List Bool Arith ZArith Lia Permutation.
From Verif Require Import GoStr GoStrFacts Json JsonFacts Gabs Container SetFacts MergeFacts HeapCont Spec_Heap HeapFacts HeapSet.
Import ListNotations.
Local Open Scope string_scope.
Local Open Scope nat_scope.
Local Open Scope list_scope.

Lemma opt_all_map {A B C} (f : A -> option B) (g : A -> option C) (k : B -> C) l : (forall a b, In a l -> f a = Some b -> g a = Some (k b)) ->
  forall bs, opt_all (map f l) = Some bs -> opt_all (map g l) = Some (map k bs).
Proof.
  induction l as [|a l IH]; intros H bs E; cbn [map opt_all] in *; [injection E as <-; reflexivity|].
  destruct (f a) as [b|] eqn:Ea; [|discriminate]. rewrite (H a b (or_introl eq_refl) Ea). destruct (opt_all (map f l)) as [bs'|]; [|discriminate].
  injection E as <-. rewrite (IH (fun a' b' Hin => H a' b' (or_intror Hin)) bs' eq_refl). reflexivity.
Qed.
Lemma read_mono n : forall n' h h' v j, n <= n' -> grows h h' -> hread n h v = Some j -> hread n' h' v = Some j.
Proof.
  induction n as [|n IH]; intros n' h h' v j L G E; destruct v; try (destruct n'; exact E); [discriminate|].
  destruct n' as [|n']; [lia|]. cbn [hread] in *. destruct (nth_error h a) as [c|] eqn:Ea; [|discriminate].
  rewrite (grows_nth h h' a G) by (apply nth_error_Some; congruence). rewrite Ea. destruct c as [l|m].
  - destruct (opt_all (map (hread n h) l)) as [js|] eqn:Q; [|discriminate]. injection E as <-.
    rewrite (opt_all_map _ (hread n' h') (fun x => x) l (fun a0 b0 _ Hb => IH n' h h' a0 b0 (le_S_n _ _ L) G Hb) js Q). now rewrite map_id.
  - match type of E with option_map _ ?X = _ => destruct X as [js|] eqn:Q; [|discriminate] end. injection E as <-.
    erewrite (opt_all_map _ _ (fun x => x)); [|intros [k0 v0] b _ Hb|exact Q]; [now rewrite map_id|]. cbn [fst snd] in *.
    destruct (hread n h v0) as [j0|] eqn:E0; [|discriminate]. rewrite (IH n' h h' v0 j0 ltac:(lia) G E0). exact Hb.
Qed.

Definition reads (h : heap) (v : hv) (j : json) : Prop := hread (length h) h v = Some j.
Lemma reads_marshal h v j : reads h v j -> hmarshal h v = Some j.
Proof. unfold reads, hmarshal. intro H. apply (read_mono (length h) _ h); [lia | apply grows_refl | exact H]. Qed.
Lemma rep_reads h v j F : rep h v j F -> reads h v j.
Proof. intro H. apply (proj1 (rep_read_all h) v j F H). exact (rep_height _ _ _ _ H). Qed.

Definition search_all (p : list string) : heap -> list hv -> heap * list hv :=
  fix go (h : heap) (l : list hv) : heap * list hv :=
  match l with
  | [] => (h, [])
  | x :: r => let (h1, o) := hsearch p h x in let (h2, vs) := go h1 r in (h2, match o with Some y => y :: vs | None => vs end)
  end.
Lemma search_all_cons p h x r : search_all p h (x :: r) = let (h1, o) := hsearch p h x in let (h2, vs) := search_all p h1 r in (h2, match o with Some y => y :: vs | None => vs end).
Proof. reflexivity. Qed.
Lemma hsearch_star p h a l : nth_error h a = Some (CArr l) -> hsearch ("*" :: p) h (HRef a) =
  let (h1, vs) := search_all p h l in match vs with [] => (h1, None) | _ => let (h2, w) := alloc_cell h1 (CArr vs) in (h2, Some w) end.
Proof. intro E. cbn [hsearch]. rewrite E. reflexivity. Qed.

Lemma hsearch_reads p : forall h v j F, rep h v j F ->
  grows h (fst (hsearch p h v)) /\
  match search p j, snd (hsearch p h v) with Some x, Some w => reads (fst (hsearch p h v)) w x | None, None => True | _, _ => False end.
Proof.
  induction p as [|s p IH]; intros h v j F H.
  - cbn. split; [apply grows_refl | now apply (rep_reads h v j F)].
  - destruct H as [|b|n|t|a l js F Ea Hl Na|a m js F Ea Sm Hm Na]; try (split; [apply grows_refl | exact I]).
    + destruct (String.eqb s "*") eqn:Es.
      * apply String.eqb_eq in Es as ->. rewrite (hsearch_star p h a l Ea). cbn [search]. change (String.eqb "*" "*") with true. cbn iota.
        set (f := fun v => match search p v with Some x => [x] | None => [] end).
        assert (K : grows h (fst (search_all p h l)) /\
          opt_all (map (hread (length (fst (search_all p h l))) (fst (search_all p h l))) (snd (search_all p h l))) = Some (flat_map f js)).
        { clear Ea Na. revert h Hl. induction l as [|x l IHl] in js, F |- *; intros h Hl; inversion Hl as [|? j F1 ? js' F2 H1 H2 D]; subst; [split; [apply grows_refl | reflexivity]|].
          rewrite search_all_cons. cbn [flat_map]. destruct (IH h x j F1 H1) as (G1 & R1). destruct (hsearch p h x) as [h1 o]. cbn [fst snd] in *.
          destruct (IHl js' F2 h1 (grows_reps _ _ _ _ _ G1 H2)) as (G2 & R2). destruct (search_all p h1 l) as [h2 vs]. cbn [fst snd] in *.
          split; [now apply (grows_trans _ h1)|]. unfold f at 1. destruct (search p j) as [y|], o as [w|]; try contradiction; [|exact R2].
          cbn [map opt_all app]. rewrite (read_mono _ (length h2) h1 h2 w y (grows_len _ _ G2) G2 R1), R2. reflexivity. }
        destruct K as (G & R). destruct (search_all p h l) as [h1 vs]. cbn [fst snd] in *. destruct vs as [|w vs].
        -- cbn in R. injection R as <-. split; [exact G | exact I].
        -- destruct (flat_map f js) as [|y ys] eqn:Ef; [cbn [map opt_all] in R; destruct (hread (length h1) h1 w); [|discriminate]; destruct (opt_all _); discriminate|].
           cbn [alloc_cell fst snd]. split; [apply (grows_trans _ h1); [exact G | apply grows_one]|].
           unfold reads. rewrite app_length, Nat.add_1_r. cbn [hread]. rewrite nth_new.
           rewrite (opt_all_map _ (hread (length h1) (h1 ++ [CArr (w :: vs)])) (fun x => x) (w :: vs) (fun a0 b0 _ Hb => read_mono (length h1) (length h1) h1 _ a0 b0 (Nat.le_refl _) (grows_one h1 _) Hb) _ R).
           now rewrite map_id.
      * cbn [hsearch search]. rewrite Ea, Es. destruct (arr_index s) as [i|]; [|split; [apply grows_refl | exact I]].
        destruct (nth_error l i) as [c|] eqn:El; [|rewrite (reps_none _ _ _ _ _ Hl El); split; [apply grows_refl | exact I]].
        destruct (reps_focus h i l js F c Hl El) as (j0 & G0 & R & Ej & _ & _ & Hc & _). rewrite Ej. exact (IH h c j0 G0 Hc).
    + cbn [hsearch search]. rewrite Ea. destruct (repm_focus h s m js F Sm Hm) as (G0 & R & _ & _ & Mc & _).
      destruct (oget s m) as [c|], (oget s js) as [j0|]; try contradiction; [exact (IH h c j0 G0 Mc) | split; [apply grows_refl | exact I]].
Qed.

(** *** Paths that Merge has walked *)
(** [path] leads without "*" to [d]. *)
Fixpoint walks (path : list string) (j d : json) : Prop :=
  match path with
  | [] => d = j
  | s :: p =>
      match j with
      | JObj m => exists c, oget s m = Some c /\ walks p c d
      | JArr l => exists i c, String.eqb s "*" = false /\ arr_index s = Some i /\ nth_error l i = Some c /\ walks p c d
      | _ => False
      end
  end.
Lemma walks_search p : forall j d q, walks p j d -> search (p ++ q) j = search q d.
Proof.
  induction p as [|s p IH]; intros j d q H; [cbn in *; now subst|]. destruct j; try contradiction; cbn [walks app search] in *.
  - destruct H as (i & c & E1 & E2 & E3 & W). rewrite E1, E2, E3. now apply IH.
  - destruct H as (c & E & W). rewrite E. now apply IH.
Qed.
Lemma walks_app p : forall q j d e, walks p j d -> walks q d e -> walks (p ++ q) j e.
Proof.
  induction p as [|s p IH]; intros q j d e H K; [cbn in *; now subst|]. destruct j; try contradiction; cbn [walks app] in *.
  - destruct H as (i & c & E1 & E2 & E3 & W). exists i, c. repeat split; try assumption. eapply IH; eassumption.
  - destruct H as (c & E & W). exists c. split; [assumption|]. eapply IH; eassumption.
Qed.
Lemma walks_split p : forall q j e, walks (p ++ q) j e -> exists d, walks p j d /\ walks q d e.
Proof.
  induction p as [|s p IH]; intros q j e H; [exists j; now split|]. destruct j; try contradiction; cbn [walks app] in *.
  - destruct H as (i & c & E1 & E2 & E3 & W). destruct (IH q c e W) as (d & W1 & W2). exists d. split; [|exact W2]. eauto 8.
  - destruct H as (c & E & W). destruct (IH q c e W) as (d & W1 & W2). exists d. split; [|exact W2]. eauto.
Qed.
Lemma hsearch_walks p : forall h v j F d q, rep h v j F -> walks p j d ->
  exists w G, rep h w d G /\ (forall a, In a G -> In a F) /\ hsearch (p ++ q) h v = hsearch q h w.
Proof.
  induction p as [|s p IH]; intros h v j F d q H W; [cbn in W; subst; exists v, F; cbn [app]; auto|].
  destruct H as [|b|n|t|a l js F Ea Hl Na|a m js F Ea Sm Hm Na]; try contradiction; cbn [walks app hsearch] in *; rewrite Ea.
  - destruct W as (i & c & E1 & E2 & E3 & W). rewrite E1, E2. destruct (nth_error l i) as [c'|] eqn:El; [|rewrite (reps_none _ _ _ _ _ Hl El) in E3; discriminate].
    destruct (reps_focus h i l js F c' Hl El) as (j0 & G0 & R & Ej & U & _ & Hc & _). assert (j0 = c) by congruence. subst j0.
    destruct (IH h c' c G0 d q Hc W) as (w & G & R1 & R2 & R3). exists w, G. split; [exact R1|]. split; [|exact R3]. intros b Hb. right. apply U. left. now apply R2.
  - destruct W as (c & E & W). destruct (repm_focus h s m js F Sm Hm) as (G0 & R & U & _ & Mc & _). rewrite E in Mc. destruct (oget s m) as [c'|]; [|contradiction].
    destruct (IH h c' c G0 d q Mc W) as (w & G & R1 & R2 & R3). exists w, G. split; [exact R1|]. split; [|exact R3]. intros b Hb. right. apply U. left. now apply R2.
Qed.

(** Storing what is already there changes nothing. *)
Lemma walks_dash s i : arr_index s = Some i -> String.eqb s "-" = false.
Proof. intro H. destruct (String.eqb s "-") eqn:E; [|reflexivity]. apply String.eqb_eq in E as ->. vm_compute in H. discriminate. Qed.
Lemma walks_notnull p j d : p <> [] -> walks p j d -> j <> JNull.
Proof. intros N W ->. destruct p; [contradiction | exact W]. Qed.
Lemma gset_same p : forall top j x, wf j -> walks p j x -> gset top x p j = Ok j.
Proof.
  induction p as [|s p IH]; intros top j x Wf W; [cbn in *; now subst|]. destruct j; try contradiction; cbn [walks gset] in *.
  - destruct W as (i & c & E1 & E2 & E3 & W). rewrite (walks_dash s i E2), E2, E3.
    assert (Wc : wf c) by (apply wf_arr in Wf; rewrite Forall_forall in Wf; apply Wf; eapply nth_error_In, E3).
    rewrite (IH false c x Wc W). cbn [bind]. rewrite (set_nth_id i c l E3). destruct p; [reflexivity|].
    pose proof (walks_notnull (s0 :: p) c x ltac:(discriminate) W). destruct c; [contradiction | reflexivity ..].
  - destruct W as (c & E & W). rewrite E. apply wf_obj in Wf as (Sm & Wm). assert (Wc : wf c) by (apply oget_in in E; rewrite Forall_forall in Wm; exact (Wm _ E)).
    assert (Q : gset false x p (match c with JNull => JObj [] | _ => c end) = Ok c \/ p = []).
    { destruct p; [now right|]. left. pose proof (walks_notnull (s0 :: p) c x ltac:(discriminate) W). destruct c; [contradiction | apply (IH false _ x Wc W) ..]. }
    destruct Q as [Q|Q]; [rewrite Q; cbn [bind]; now rewrite (oset_id s c m Sm E)|]. subst p. cbn [walks] in W. subst x. cbn [gset bind]. now rewrite (oset_id s c m Sm E).
Qed.
Lemma hset_same p : forall top h o j F x w, rep h o j F -> walks p j x -> hsearch p h o = (h, Some w) -> hset top w p h o = Ok (h, o).
Proof.
  induction p as [|s p IH]; intros top h o j F x w H W E; [cbn in *; congruence|].
  destruct H as [|b|n|t|a l js F Ea Hl Na|a m js F Ea Sm Hm Na]; try contradiction; cbn [walks hsearch hset] in *; rewrite Ea in *.
  - destruct W as (i & c & E1 & E2 & E3 & W). rewrite E1, E2 in E. rewrite (walks_dash s i E2), E2. destruct (nth_error l i) as [c'|] eqn:El; [|discriminate].
    destruct (reps_focus h i l js F c' Hl El) as (j0 & G0 & R & Ej & _ & _ & Hc & _). assert (j0 = c) by congruence. subst j0.
    rewrite (IH false h c' c G0 x w Hc W E). cbn [bind].
    assert (Q : put_index a i c' h = h) by (unfold put_index; rewrite Ea, (set_nth_id i c' l El); now apply set_nth_id). rewrite Q.
    destruct p; [reflexivity|]. pose proof (walks_notnull (s0 :: p) c x ltac:(discriminate) W) as N. pose proof (rep_null_iff _ _ _ _ Hc) as Z.
    destruct c'; [elim N; now apply Z | reflexivity ..].
  - destruct W as (c & Ec & W). destruct (repm_focus h s m js F Sm Hm) as (G0 & R & U & _ & Mc & _). rewrite Ec in Mc. destruct (oget s m) as [c'|] eqn:Em; [|contradiction].
    assert (Q : put_key a s c' h = h) by (unfold put_key; rewrite Ea, (oset_id s c' m Sm Em); now apply set_nth_id).
    destruct p as [|s0 p].
    + cbn [hsearch] in E. assert (c' = w) by congruence. subst c'. cbn [hset bind]. now rewrite Q.
    + pose proof (walks_notnull (s0 :: p) c x ltac:(discriminate) W) as N. pose proof (rep_null_iff _ _ _ _ Mc) as Z. assert (Nc : c' <> HNull) by (intro K; apply N; now apply Z).
      assert (Q' : (match c' with HNull => alloc_cell h (CObj []) | _ => (h, c') end) = (h, c')) by (destruct c'; [contradiction | reflexivity ..]).
      rewrite Q'. rewrite (IH false h c' c G0 x w Mc W E). cbn [bind]. now rewrite Q.
Qed.

(** Setting below a walked path keeps the path. *)
Lemma gset_keeps p : forall top j d x q j', walks p j d -> d <> JNull -> q <> [] -> gset top x (p ++ q) j = Ok j' ->
  exists d', walks p j' d' /\ gset (match p with [] => top | _ => false end) x q d = Ok d'.
Proof.
  induction p as [|s p IH]; intros top j d x q j' W Nd Nq E; [cbn in *; subst; eauto|]. destruct j; try contradiction; cbn [walks app gset] in *.
  - destruct W as (i & c & E1 & E2 & E3 & W). rewrite (walks_dash s i E2), E2, E3 in E.
    assert (exists c', gset false x (p ++ q) c = Ok c' /\ j' = JArr (set_nth i c' l)) as (c' & Ec & ->).
    { destruct (p ++ q) eqn:Epq; [apply app_eq_nil in Epq as (_ & ->); contradiction|]. destruct c; try discriminate; apply bind_ok in E as (c' & Ec & E); injection E as <-; eauto. }
    destruct (IH false c d x q c' W Nd Nq Ec) as (d' & W' & E'). exists d'. split; [|destruct p; exact E']. cbn [walks]. exists i, c'. split; [exact E1|]. split; [exact E2|]. split; [|exact W']. eapply set_nth_same, E3.
  - destruct W as (c & Ec & W). rewrite Ec in E. apply bind_ok in E as (c' & E & Ej). injection Ej as <-.
    assert (N : c <> JNull) by (destruct p; [cbn in W; now subst | refine (walks_notnull _ _ _ _ W); discriminate]).
    assert (E0 : gset false x (p ++ q) c = Ok c') by (destruct c; [contradiction | exact E ..]).
    destruct (IH false c d x q c' W Nd Nq E0) as (d' & W' & E'). exists d'. split; [|destruct p; exact E']. cbn [walks]. exists c'. split; [|exact W'].
    rewrite oget_oset, String.eqb_refl. reflexivity.
Qed.
Lemma gset_objects p : forall top j m x k, walks p j (JObj m) -> exists j', gset top x (p ++ [k]) j = Ok j'.
Proof.
  induction p as [|s p IH]; intros top j m x k W; [cbn in *; subst; cbn; eauto|]. destruct j; try contradiction; cbn [walks app gset] in *.
  - destruct W as (i & c & E1 & E2 & E3 & W). rewrite (walks_dash s i E2), E2, E3. destruct (IH false c m x k W) as (c' & Ec). rewrite Ec. cbn [bind].
    destruct (p ++ [k]) eqn:Epq; [destruct p; discriminate|]. assert (N : c <> JNull) by (destruct p; [cbn in W; now subst | refine (walks_notnull _ _ _ _ W); discriminate]).
    destruct c; [contradiction | eauto ..].
  - destruct W as (c & E & W). rewrite E. destruct (IH false c m x k W) as (c' & Ec).
    assert (N : c <> JNull) by (destruct p; [cbn in W; now subst | refine (walks_notnull _ _ _ _ W); discriminate]).
    destruct c; [contradiction | rewrite Ec; cbn [bind]; eauto ..].
Qed.
