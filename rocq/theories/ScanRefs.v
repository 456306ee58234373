(** Scan: where the references of the final document come from. *)
From Coq Require Import String Ascii List Bool Arith ZArith Lia Permutation.
From Verif Require Import GoStr GoStrFacts Json JsonFacts Gabs Container Url Pointer Spec_Clone Spec_Merge CloneFacts MergeFacts MergeApi ConfigApi
  Spec_Loc LocFacts SetFacts Spec_Resolve ResolverFacts Path Resolver ScanFn Cmds Specs Spec_Specs SpecFacts Pkgs Types Root RootFacts Spec_Root PathsFacts SchemaJson Scan ScanFacts
  Spec_Types TypesFacts CollectFacts Spec_Schema SchemaFacts SchemaJsonFacts ScanTypes ScanInv.
Import ListNotations.
Local Open Scope string_scope.
Local Open Scope nat_scope.
Local Open Scope list_scope.

(** *** Resolution keeps documents canonical *)
Lemma c_setp_wf k v c c' : wf (c_data c) -> wf v -> c_setp k v c = Ok c' -> wf (c_data c').
Proof.
  intros Wc Wv H. destruct (setp_inv _ _ _ _ H) as (j & v' & r & q & -> & -> & Hc & _ & _ & Hg). cbn [c_data] in *. eapply gset_wf; [eapply clone_wf; eassumption | | exact Hg]. destruct j; try exact Wc. split; exact I.
Qed.
Definition wf_state (s : rstate) : Prop := wf (c_data (fst s)) /\ (forall c, snd s = Some c -> wf (c_data c)).
Lemma wf_cx s : wf_state s -> wf (c_data (st_cx s)).
Proof. intros (A & B). unfold st_cx. destruct (snd s) as [c|] eqn:E; auto. Qed.
Lemma on_cx_wf f (s s' : rstate) : (forall c c', wf (c_data c) -> f c = Ok c' -> wf (c_data c')) -> wf_state s -> on_cx f s = Ok s' -> wf_state s'.
Proof.
  intros Hf (A & B) H. unfold on_cx in H. destruct (snd s) as [c|] eqn:E; apply bind_ok in H as (c' & H & E'); injection E' as <-; (split; cbn [fst snd]).
  - exact A.
  - intros x [= <-]. eapply Hf; [|exact H]. auto.
  - eapply Hf; eassumption.
  - intros x Hx. congruence.
Qed.
Lemma replace_wf k v c c' : wf v -> wf (c_data c) -> replace_ptr k v c = Ok c' -> wf (c_data c').
Proof. unfold replace_ptr. intros Wv Wc H. destruct (isref k) as [k'|]; [|discriminate]. exact (c_setp_wf _ _ _ _ Wc Wv H). Qed.
Lemma update_wf k f c c' : wf (c_data c) -> update_ptr_local k f c = Ok c' -> wf (c_data c').
Proof. unfold update_ptr_local, update_ptr. intros Wc H. destruct (isref k); [|discriminate]. eapply c_setp_wf; [exact Wc | | exact H]. exact I. Qed.
Lemma r_set_wf es p key v (s s' : rstate) : wf v -> wf_state s -> r_set es p key v s = Ok s' -> wf_state s'.
Proof.
  intros Wv Hs H. unfold r_set in H. destruct (exports_get es p) as [e|].
  - apply bind_ok in H as (s1 & H1 & H). unfold on_root in H1. apply bind_ok in H1 as (c1 & H1 & E). injection E as <-.
    eapply on_cx_wf; [|  |exact H]; [intros c c'; apply update_wf|]. destruct Hs as (A & B). split; cbn [fst snd]; [exact (c_setp_wf _ _ _ _ A Wv H1) | exact B].
  - eapply on_cx_wf; [| exact Hs |exact H]. intros c c'. now apply replace_wf.
Qed.
Lemma r_rec_wf es p key (s s' : rstate) : wf_state s -> r_set_recursive es p key s = Ok s' -> wf_state s'.
Proof.
  intros Hs H. assert (We : wf (JObj [])) by (split; exact I). unfold r_set_recursive in H. destruct (exports_get es p) as [e|]; [destruct (is_scheme e)|]; (eapply on_cx_wf; [| exact Hs |exact H]); intros c c'; try apply update_wf; now apply replace_wf.
Qed.
Lemma iterator_wf ord es fn : (forall p x, fn p = Ok x -> wf x) -> forall fuel pos pp s s', wf_state s -> iterator ord es fn fuel pos pp s = Ok s' -> wf_state s'.
Proof.
  intro Hfn. induction fuel as [|fuel IH]; intros pos pp s s' Hs H; [discriminate|]. cbn [iterator] in H. apply bind_ok in H as (refs & _ & H). revert H. generalize 0 as i. revert s Hs.
  induction refs as [|[key v] refs IHr]; intros s Hs i H; [now injection H as <-|]. apply bind_ok in H as (s1 & H1 & H). eapply IHr; [|exact H].
  destruct v; try (now injection H1 as <-). apply bind_ok in H1 as (p & _ & H1). destruct (negb (is_external p)); [now injection H1 as <-|].
  destruct (path_has pp p); [eapply r_rec_wf; eassumption|]. apply bind_ok in H1 as (x & Hx & H1). apply bind_ok in H1 as (nc & Hn & H1). apply bind_ok in H1 as (r & Hr & H1).
  assert (Wn : wf (c_data nc)) by (unfold c_make in Hn; apply bind_ok in Hn as (y & Hy & Hn); injection Hn as <-; eapply clone_wf; [eapply Hfn; exact Hx | exact Hy]).
  apply IH in Hr; [|destruct Hs as (A & B); split; cbn [fst snd]; [exact A | intros c [= <-]; exact Wn]].
  eapply r_set_wf; [exact (wf_cx _ Hr) | | exact H1]. destruct Hs as (A & B), Hr as (A' & B'). split; [exact A' | exact B].
Qed.
Lemma resolve_wf ord es fn fuel c r : (forall p x, fn p = Ok x -> wf x) -> wf (c_data c) -> resolve ord es fn fuel c = Ok r -> wf (c_data r).
Proof.
  intros Hfn W H. unfold resolve in H. apply bind_ok in H as (s & H & E). injection E as <-. apply wf_cx. eapply iterator_wf; [exact Hfn | | exact H]. split; cbn [fst snd]; [|discriminate].
  unfold c_clone. destruct (clone (c_data c)) as [x| | |] eqn:Ec; try exact I. cbn [c_data]. eapply clone_wf; eassumption.
Qed.

(** *** Reference texts *)
Section Texts.
  Context (S : string -> Prop).
  Definition texts (j : json) : Prop := forall t, Spec_Resolve.has_ref j t -> S t.
  Definition within (k : string) (v : json) : Prop := (k = "$ref" -> forall t, v = JStr t -> S t) /\ texts v.
  Lemma texts_obj m : texts (JObj m) <-> forall k v, oget k m = Some v -> within k v.
  Proof.
    split.
    - intros H k v E. split.
      + intros -> t ->. apply H. exists []. cbn. now rewrite E.
      + intros t (q & L). apply H. exists (SKey k :: q). cbn. now rewrite E.
    - intros H t ([|[k|i] q] & L); cbn in L; try discriminate.
      + destruct (oget "$ref" m) as [v|] eqn:E; [|discriminate]. injection L as ->. exact (proj1 (H "$ref" _ E) eq_refl _ eq_refl).
      + destruct (oget k m) as [v|] eqn:E; [|discriminate]. apply (H k v E). now exists q.
  Qed.
  Lemma texts_arr l : texts (JArr l) <-> forall v, In v l -> texts v.
  Proof.
    split.
    - intros H v I t (q & L). apply In_nth_error in I as (i & E). apply H. exists (SIdx i :: q). cbn. now rewrite E.
    - intros H t ([|[k|i] q] & L); cbn in L; try discriminate. destruct (nth_error l i) as [v|] eqn:E; [|discriminate]. apply (H v (nth_error_In _ _ E)). now exists q.
  Qed.
  Lemma texts_scalar j : is_scalar j = true -> texts j.
  Proof. intros H t ([|[k|i] q] & L); destruct j; discriminate. Qed.
  Lemma texts_empty : texts (JObj []). Proof. apply texts_obj. discriminate. Qed.
  Lemma gset_texts p : forall top v j r, p <> [] -> within (last p "") v -> texts j -> gset top v p j = Ok r -> texts r.
  Proof.
    induction p as [|s p IH]; intros top v j r Np Hv Hj H; [easy|]. clear Np.
    assert (CH : forall c c', texts c -> gset false v p c = Ok c' -> within s c').
    { intros c c' Hc Hg. destruct p as [|s' p]; [injection Hg as <-; exact Hv|]. split; [|eapply IH; [discriminate | exact Hv | exact Hc | exact Hg]].
      intros _ t ->. apply gset_not_scalar in Hg; [discriminate | discriminate]. }
    cbn [gset] in H. destruct j as [| | | |l|m]; try discriminate.
    - destruct (String.eqb s "-").
      + destruct top; [discriminate|]. apply bind_ok in H as (c' & H & E). injection E as <-. apply texts_arr. intros x I. apply in_app_or in I as [I|[<-|[]]]; [now apply (proj1 (texts_arr l)) | eapply CH; [exact texts_empty | exact H]].
      + destruct (arr_index s) as [i|]; [|discriminate]. destruct (nth_error l i) as [c|] eqn:Ec; [|discriminate].
        assert (X : exists c', gset false v p c = Ok c' /\ r = JArr (set_nth i c' l)).
        { destruct p as [|a p], c; try discriminate; apply bind_ok in H as (c' & H & E); injection E as <-; eauto. }
        destruct X as (c' & Hc & ->). apply texts_arr. intros x I. apply in_set_nth in I as [-> |I]; [|now apply (proj1 (texts_arr l))].
        eapply CH; [|exact Hc]. apply (proj1 (texts_arr l) Hj). eapply nth_error_In; exact Ec.
    - cbv zeta in H. apply bind_ok in H as (c' & H & E). injection E as <-. apply texts_obj. intros k x. rewrite oget_oset. destruct (String.eqb_spec k s) as [-> |N]; [|apply (proj1 (texts_obj m) Hj)].
      intros [= <-]. eapply CH; [|exact H]. destruct (oget s m) as [c|] eqn:Ec; [|exact texts_empty]. destruct c; try exact texts_empty; apply (proj1 (texts_obj m) Hj _ _ Ec).
  Qed.
  Lemma search_texts p : forall j v, texts j -> p <> [] -> search p j = Some v -> within (last p "") v.
  Proof.
    induction p as [|s p IH]; intros j v Hj Np H; [easy|]. clear Np.
    assert (CH : forall c, within s c -> search p c = Some v -> within (last (s :: p) "") v).
    { intros c Hc Hs. destruct p as [|s' p]; [injection Hs as <-; exact Hc|]. cbn [last]. eapply IH; [apply Hc | discriminate | exact Hs]. }
    cbn [search] in H. destruct j as [| | | |l|m]; try discriminate.
    - destruct (String.eqb_spec s "*") as [-> |Ns].
      + destruct (flat_map _ l) as [|y ys] eqn:E; [discriminate|]. injection H as <-. rewrite <- E. split; [discriminate|]. apply texts_arr. intros x I. apply in_flat_map in I as (z & Iz & Hz).
        destruct (search p z) as [w|] eqn:Ew; [|destruct Hz]. destruct Hz as [<-|[]]. assert (Tz : texts z) by now apply (proj1 (texts_arr l)). destruct p as [|s' p]; [now injection Ew as <-|]. eapply IH; [exact Tz | discriminate | exact Ew].
      + destruct (arr_index s) as [i|] eqn:Ei; [|discriminate]. destruct (nth_error l i) as [c|] eqn:Ec; [|discriminate]. eapply CH; [|exact H]. split; [|apply (proj1 (texts_arr l) Hj), (nth_error_In _ _ Ec)].
        intros ->. discriminate Ei.
    - destruct (oget s m) as [c|] eqn:Ec; [|discriminate]. eapply CH; [|exact H]. apply (proj1 (texts_obj m) Hj _ _ Ec).
  Qed.
  Lemma within_clone k v v' : within k v -> clone v = Ok v' -> within k v'.
  Proof.
    intros (A & B) E. split; [intros -> t ->; apply (A eq_refl), clone_scalar_str, E|]. intros t (q & L). apply B. exists q. now apply (clone_lookup_str _ _ _ _ E).
  Qed.
  Lemma c_set_texts v p c c' : texts (c_data c) -> p <> [] -> within (last p "") v -> c_set v p c = Ok c' -> texts (c_data c').
  Proof.
    intros Hc Np Hv H. destruct c as [j|]; [|discriminate]. cbn [c_set] in H. apply bind_ok in H as (r & H & E). injection E as <-. cbn [c_data] in *. destruct p as [|s p]; [easy|]. cbn [root_set] in H.
    eapply (gset_texts (s :: p)); [intros [=] | exact Hv | | exact H]. destruct j; try exact Hc. exact texts_empty.
  Qed.
  Lemma c_setp_texts k v c c' : texts (c_data c) -> within (last (dot_path k) "") v -> c_setp k v c = Ok c' -> texts (c_data c').
  Proof.
    unfold c_setp. intros Hc Hv H. apply bind_ok in H as (x & Hx & H). destruct (dot_path_cons k) as (s & l & E). eapply (c_set_texts x (dot_path k)); [exact Hc | rewrite E; discriminate | eapply within_clone; eassumption | exact H].
  Qed.
  Section Merging.
    Context (ord : morder) (coll : merger) (Hch : choosing coll) (Ho : perm_oracle ord).
    Lemma merge_rec_texts : forall fuel path m c c', wf (JObj m) -> texts (JObj m) -> texts (c_data c) -> merge_rec ord coll fuel path m c = Ok c' -> texts (c_data c').
    Proof.
      induction fuel as [|fuel IH]; intros path m c c' Wm Hm Hc H; [discriminate|]. cbn [merge_rec] in H.
      assert (Hes : forall k v, In (k, v) (ord path m) -> within k v /\ wf v).
      { intros k v I. apply (Permutation_in _ (Ho path m)) in I. apply wf_obj in Wm as (Sm & Fm). split; [apply (proj1 (texts_obj m) Hm), sorted_in_oget; assumption|]. rewrite Forall_forall in Fm. apply (Fm _ I). }
      remember (ord path m) as es eqn:Ees. clear Ees Hm Wm. revert c Hc H. induction es as [|[k v] es IHe]; intros c Hc H; [now injection H as <-|].
      apply bind_ok in H as (c1 & H1 & H). destruct (Hes k v (or_introl eq_refl)) as (Bv & Wv).
      assert (NP : path ++ [k] <> []) by (destruct path; discriminate). assert (LP : last (path ++ [k]) "" = k) by apply last_last.
      assert (Hc1 : texts (c_data c1)).
      { destruct (c_search (path ++ [k]) c) as [ex|] eqn:Es.
        - assert (Bx : within k ex) by (rewrite <- LP; eapply search_texts; [exact Hc | exact NP | exact Es]).
          assert (CO : forall x, coll ex v = Some x -> c_set x (path ++ [k]) c = Ok c1 -> texts (c_data c1)).
          { intros x Ex Hx. eapply c_set_texts; [exact Hc | exact NP | | exact Hx]. rewrite LP. destruct (Hch _ _ _ Ex) as [-> | ->]; assumption. }
          destruct v as [| | | | |t]; try (destruct (coll ex _) as [x|] eqn:Ex; [exact (CO x eq_refl H1) | discriminate]).
          destruct ex as [| | | | |t']; try (destruct (coll _ (JObj t)) as [x|] eqn:Ex; [exact (CO x eq_refl H1) | discriminate]).
          exact (IH _ t c c1 Wv (proj2 Bv) Hc H1).
        - eapply c_set_texts; [exact Hc | exact NP | | exact H1]. now rewrite LP. }
      eapply IHe; [|exact Hc1 | exact H]. intros k' v' I. apply Hes. now right.
    Qed.
    (** Merging into a value stored under key [k]. *)
    Lemma merge_rec_str : forall fuel path m t c', merge_rec ord coll fuel path m (Some (JStr t)) = Ok c' -> c' = Some (JStr t).
    Proof.
      destruct fuel as [|fuel]; intros path m t c' H; [discriminate|]. cbn [merge_rec] in H. destruct (ord path m) as [|[k v] es]; [now injection H as <-|]. exfalso.
      apply bind_ok in H as (c1 & H1 & _). assert (NP : exists s l, path ++ [k] = s :: l) by (destruct path; cbn; eauto). destruct NP as (s & l & E). rewrite E in H1. cbn in H1. discriminate.
    Qed.
    Lemma merge_rec_nostr : forall fuel path m c c', (forall t, c_data c <> JStr t) -> merge_rec ord coll fuel path m c = Ok c' -> forall t, c_data c' <> JStr t.
    Proof.
      induction fuel as [|fuel IH]; intros path m c c' Ns H; [discriminate|]. cbn [merge_rec] in H. revert c Ns H. generalize (ord path m) as es. induction es as [|[k v] es IHe]; intros c Ns H; [now injection H as <-|].
      apply bind_ok in H as (c1 & H1 & H). apply (IHe c1); [|exact H]. clear IHe H. assert (NP : path ++ [k] <> []) by (destruct path; discriminate).
      assert (ST : forall x, c_set x (path ++ [k]) c = Ok c1 -> forall t, c_data c1 <> JStr t).
      { intros x Hx t. destruct c as [j|]; [|discriminate]. cbn [c_set] in Hx. apply bind_ok in Hx as (r & Hx & E). injection E as <-. cbn [c_data]. destruct (path ++ [k]) as [|s l]; [easy|]. cbn [root_set] in Hx. apply gset_not_scalar in Hx; [|discriminate]. intros ->. discriminate. }
      destruct (c_search (path ++ [k]) c) as [ex|] eqn:Es; [|eapply ST; exact H1].
      assert (CO : forall x, coll ex v = Some x -> c_set x (path ++ [k]) c = Ok c1 -> forall t, c_data c1 <> JStr t) by (intros x _ Hx; eapply ST; exact Hx).
      destruct v as [| | | | |t]; try (destruct (coll ex _) as [x|] eqn:Ex; [exact (CO x eq_refl H1) | discriminate]).
      destruct ex as [| | | | |t']; try (destruct (coll _ (JObj t)) as [x|] eqn:Ex; [exact (CO x eq_refl H1) | discriminate]).
      exact (IH _ _ c c1 Ns H1).
    Qed.
    Lemma c_merge_within k c src c' : (forall x, clone (c_data src) = Ok x -> wf x /\ texts x) -> within k (c_data c) -> c_merge ord coll c src = Ok c' -> within k (c_data c').
    Proof.
      intros Hs (A & B) H. unfold c_merge, c_clone in H. destruct (clone (c_data src)) as [j| | |] eqn:Ec; cbn [c_data] in H; try (injection H as <-; split; assumption). destruct (Hs j eq_refl) as (Wj & Tj).
      destruct j as [| | | | |m]; try (injection H as <-; split; assumption). split; [|eapply merge_rec_texts; eassumption].
      intros -> t Et. destruct c as [[| | |t0| |]|]; try (exfalso; eapply merge_rec_nostr; [|exact H | exact Et]; intros u; discriminate). apply merge_rec_str in H. subst c'. apply (A eq_refl _ Et).
    Qed.
  End Merging.

  (** *** Defaults *)
  Lemma tl1_ref m : tl1 m = "$ref" -> m = "$ref".
  Proof.
    intro E. assert (N : has_char "." m = false).
    { destruct (has_char "." m) eqn:H; [|reflexivity]. exfalso. assert (X : has_char "~" (tl1 m) = true).
      { clear E. unfold tl1. rewrite (replace1_subst "." "~1"). induction m as [|c m IH]; [discriminate|]. cbn [subst_char]. rewrite has_char_app. cbn [has_char] in H. destruct (Ascii.eqb c ".") eqn:Ec; [reflexivity|].
        cbn [orb] in H. rewrite IH; [apply orb_true_r | ]. destruct (Ascii.eqb "." c) eqn:E2; [apply Ascii.eqb_eq in E2; subst c; discriminate Ec | exact H]. }
      rewrite E in X. discriminate. }
    now rewrite tl1_plain in E by exact N.
  Qed.
  Definition path_ok (f : fpath) : Prop := (exists p m v, fp_key f = fp_key (fpath_of p m v) /\ fp_method f = m /\ fp_path f = p) /\ within (fp_method f) (c_data (fp_op f)).
  Lemma key_last f : path_ok f -> within (last (dot_path (fp_key f)) "") (c_data (fp_op f)) /\ forall v, within (fp_method f) v -> within (last (dot_path (fp_key f)) "") v.
  Proof.
    intros ((p & m & v & Ek & Em & _) & Hw). pose proof (key_loc_eq p m v) as K. unfold key_loc in K. rewrite Ek, K. cbn [last].
    assert (G : forall x, within (fp_method f) x -> within (tl1 m) x) by (intros x (A & B); split; [intros E; apply A; rewrite Em; now apply tl1_ref | exact B]). split; [now apply G | exact G].
  Qed.
  Lemma apply_default_texts ord ov i st st' : perm_oracle ord -> (forall x, clone ov = Ok x -> wf x /\ texts x) -> texts (c_data (fst st)) -> Forall path_ok (snd st) -> apply_default ord ov i st = Ok st' ->
    texts (c_data (fst st')) /\ Forall path_ok (snd st').
  Proof.
    intros Ho Hov Hc Hp H. unfold apply_default in H. destruct (nth_error (snd st) i) as [f|] eqn:Ei; [|injection H as <-; auto].
    apply bind_ok in H as (o & Eo & H). apply bind_ok in H as (nc & Hn & H). apply bind_ok in H as (c1 & H1 & H). apply bind_ok in H as (c2 & H2 & H). injection H as <-. cbn [fst snd].
    assert (Pf : path_ok f) by (rewrite Forall_forall in Hp; apply Hp; eapply nth_error_In; exact Ei).
    assert (Wn : within (fp_method f) (c_data nc)).
    { eapply c_merge_within; [exact choosing_default | exact Ho | | exact (proj2 Pf) | exact Hn]. intros x Hx. unfold c_make in Eo. apply bind_ok in Eo as (y & Ey & Eo). injection Eo as <-. cbn [c_data] in Hx. rewrite (clone_idem _ _ Ey) in Hx. injection Hx as <-. now apply Hov. }
    assert (T1 : texts (c_data c1)). { destruct (fp_in f); [|now injection H1 as <-]. eapply (c_set_texts _ (op_loc f)); [exact Hc | intros [=] | | exact H1]. exact Wn. }
    split; [eapply c_setp_texts; [exact T1 | | exact H2]; now apply (proj2 (key_last f Pf))|].
    rewrite Forall_forall. intros x I. apply in_map_iff in I as (y & <- & I).
    assert (Hy : path_ok y). { apply in_set_nth in I as [-> |I]; [|rewrite Forall_forall in Hp; now apply Hp]. destruct Pf as (X & _). split; [exact X | exact Wn]. }
    unfold detach. destruct (list_eq_dec string_dec (op_loc y) (key_loc f)); exact Hy.
  Qed.
  Lemma apply_defaults_texts (ord : nat -> morder) ov l : (forall i, perm_oracle (ord i)) -> (forall x, clone ov = Ok x -> wf x /\ texts x) -> forall st st', texts (c_data (fst st)) -> Forall path_ok (snd st) -> apply_defaults ord ov l st = Ok st' ->
    texts (c_data (fst st')) /\ Forall path_ok (snd st').
  Proof.
    intros Ho Hov. induction l as [|i l IH]; intros st st' Hc Hp H; cbn [apply_defaults] in H; [injection H as <-; auto|]. apply bind_ok in H as (st1 & H1 & H).
    apply apply_default_texts in H1 as (A & B); auto. eapply IH; eassumption.
  Qed.
  Lemma defaults_loop_texts (ord : nat -> nat -> morder) defs : (forall n i, perm_oracle (ord n i)) -> Forall (fun kv => forall x, clone (snd kv) = Ok x -> wf x /\ texts x) defs ->
    forall n st st', texts (c_data (fst st)) -> Forall path_ok (snd st) -> defaults_loop ord n defs st = Ok st' -> texts (c_data (fst st')).
  Proof.
    intro Ho. induction defs as [|[pat ov] defs IH]; intros Hd n st st' Hc Hp H; cbn [defaults_loop] in H; [injection H as <-; auto|]. apply bind_ok in H as (l & _ & H). apply bind_ok in H as (st1 & H1 & H).
    apply apply_defaults_texts in H1 as (A & B); auto; [|exact (Forall_inv Hd)]. eapply IH; [exact (Forall_inv_tail Hd) | exact A | exact B | exact H].
  Qed.
  Lemma paths_of_texts ordp (ordm : morder) c ff : (forall l, Permutation (ordp l) l) -> perm_oracle ordm -> wf (c_data c) -> texts (c_data c) -> paths_of ordp ordm c = Ok ff -> Forall path_ok ff.
  Proof.
    intros Hp Hm W T H. destruct c as [doc|]; [|apply bind_ok in H as (x & Hx & H); assert (E : x = []) by (vm_compute in Hx; now injection Hx as <-); subst x;
      pose proof (Hp []) as X; apply Permutation_sym, Permutation_nil in X; rewrite X in H; injection H as <-; constructor].
    destruct (paths_of_spec ordp ordm doc ff Hp Hm W H) as (A & B & _ & _). rewrite Forall_forall. intros f I. destruct (B f I) as (p & m & v & ->). apply A in I. split; [exists p, m, v; auto|]. cbn [fpath_of fp_method fp_op c_data].
    unfold op_at in I. cbn [at_path] in I. destruct doc as [| | | | |d]; try discriminate. destruct (oget "paths" d) as [ps|] eqn:E1; [|discriminate]. destruct ps as [| | | | |ps]; try discriminate.
    destruct (oget p ps) as [it|] eqn:E2; [|discriminate]. destruct it as [| | | | |it]; try discriminate. destruct (oget m it) as [v'|] eqn:E3; [|discriminate]. injection I as ->.
    apply (proj1 (texts_obj d) T) in E1. apply (proj1 (texts_obj ps) (proj2 E1)) in E2. now apply (proj1 (texts_obj it) (proj2 E2)) in E3.
  Qed.
  Theorem defaults_texts ordp (ordm : morder) ordd (ord : nat -> nat -> morder) defops c c' : (forall l, Permutation (ordp l) l) -> perm_oracle ordm -> (forall l, Permutation (ordd l) l) -> (forall n i, perm_oracle (ord n i)) ->
    wf (c_data c) -> texts (c_data c) -> Forall (fun kv => wf (snd kv) /\ texts (snd kv)) defops -> set_paths_defaults ordp ordm ordd ord defops c = Ok c' -> texts (c_data c').
  Proof.
    intros Hp Hm Hd Ho W T Hdef H. unfold set_paths_defaults in H. apply bind_ok in H as (ff & Hff & H). apply bind_ok in H as (st & Hst & H). injection H as <-.
    eapply defaults_loop_texts; [exact Ho | | | | exact Hst]; cbn [fst snd]; [|exact T | exact (paths_of_texts _ _ _ _ Hp Hm W T Hff)].
    rewrite Forall_forall in *. intros kv I x Hx. apply (Permutation_in _ (Hd defops)) in I. destruct (Hdef kv I) as (Wk & Tk). split; [eapply clone_wf; eassumption|]. intros t (q & L). apply Tk. exists q. now apply (clone_lookup_str _ _ _ _ Hx).
  Qed.
End Texts.
