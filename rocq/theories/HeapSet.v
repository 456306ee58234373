(** gabs Set and Search in memory against their value versions. *)
From Coq Require Import String Ascii List Bool Arith ZArith Lia Permutation.
From Verif Require Import GoStr GoStrFacts Json JsonFacts Gabs Container SetFacts MergeFacts HeapCont Spec_Heap HeapFacts.
Import ListNotations.
Local Open Scope string_scope.
Local Open Scope nat_scope.
Local Open Scope list_scope.

Lemma set_nth_len {A} a (c : A) h : length (set_nth a c h) = length h.
Proof. apply set_nth_length. Qed.
Lemma set_nth_id {A} : forall a (c : A) h, nth_error h a = Some c -> set_nth a c h = h.
Proof. induction a as [|a IH]; intros c [|x h] E; try discriminate; cbn in *; [congruence | now rewrite IH]. Qed.
Lemma oset_id {A} k (v : A) m : sorted m -> oget k m = Some v -> oset k v m = m.
Proof.
  induction m as [|[k1 v1] m IH]; intros S E; [discriminate|]. cbn [oget oset] in *. destruct (String.eqb k k1) eqn:Q.
  - apply String.eqb_eq in Q as ->. rewrite scmp_refl. congruence.
  - destruct (String.compare k k1) eqn:C.
    + apply scmp_eq in C. subst. rewrite String.eqb_refl in Q. discriminate.
    + apply oget_in in E. pose proof (sorted_lt _ _ _ S _ _ E) as L. pose proof (scmp_trans _ _ _ C L) as X. rewrite scmp_refl in X. discriminate.
    + f_equal. apply IH; [eapply sorted_tail, S | exact E].
Qed.
Lemma rep_null_iff h v j F : rep h v j F -> (v = HNull <-> j = JNull).
Proof. destruct 1; split; intro E; try discriminate; reflexivity. Qed.

(** What an update of the tree [o] with [v] may do. *)
Definition updated (h : heap) (F G : list nat) (h' : heap) (F' : list nat) : Prop :=
  (forall a, In a F' -> In a F \/ In a G \/ length h <= a) /\ length h <= length h' /\
  (forall a, a < length h -> ~ In a F -> nth_error h' a = nth_error h a).

Lemma put_key_spec h a m k v : nth_error h a = Some (CObj m) ->
  nth_error (put_key a k v h) a = Some (CObj (oset k v m)) /\ length (put_key a k v h) = length h /\
  forall b, b <> a -> nth_error (put_key a k v h) b = nth_error h b.
Proof.
  intro E. unfold put_key. rewrite E. split; [eapply set_nth_same, E|]. split; [apply set_nth_len|]. intros b N. apply set_nth_other. congruence.
Qed.
Lemma put_index_spec h a l i v : nth_error h a = Some (CArr l) ->
  nth_error (put_index a i v h) a = Some (CArr (set_nth i v l)) /\ length (put_index a i v h) = length h /\
  forall b, b <> a -> nth_error (put_index a i v h) b = nth_error h b.
Proof.
  intro E. unfold put_index. rewrite E. split; [eapply set_nth_same, E|]. split; [apply set_nth_len|]. intros b N. apply set_nth_other. congruence.
Qed.

Lemma hset_spec p : forall top h o j F v x G, rep h o j F -> rep h v x G -> apartl F G ->
  match gset top x p j with
  | Ok j' => exists h' o' F', hset top v p h o = Ok (h', o') /\ rep h' o' j' F' /\ updated h F G h' F'
  | Err => hset top v p h o = Err
  | _ => False
  end.
Proof.
  induction p as [|s p IH]; intros top h o j F v x G Ho Hv D.
  - cbn [gset hset]. exists h, v, G. split; [reflexivity|]. split; [exact Hv|]. split; [tauto|]. split; [lia | reflexivity].
  - cbn [gset hset]. destruct Ho as [|b|n|t|a l js F Ea Hl Na|a m js F Ea Sm Hm Na]; try reflexivity.
    + (* slice *)
      rewrite Ea. assert (La : a < length h) by (apply nth_error_Some; congruence).
      assert (DF : apartl F G) by (intros b Hb; apply D; now right). assert (NG : ~ In a G) by (intro K; exact (D a (or_introl eq_refl) K)).
      destruct (String.eqb s "-").
      * destruct top; [reflexivity|].
        assert (C : exists h1 c F1, (match p with [] => (h, HNull) | _ => alloc_cell h (CObj []) end) = (h1, c) /\ grows h h1 /\
          (match p with [] => True | _ => rep h1 c (JObj []) F1 end) /\ fresh h F1).
        { destruct p as [|s' p']; [exists h, HNull, []; split; [reflexivity|]; split; [apply grows_refl|]; split; [exact I | intros b []]|].
          exists (h ++ [CObj []]), (HRef (length h)), [length h]. split; [reflexivity|]. split; [apply grows_one|]. split; [|intros b [<-|[]]; lia].
          apply (rep_obj _ _ [] [] []); [apply nth_new | exact I | constructor | auto]. }
        destruct C as (h1 & c & F1 & -> & Gr & Hc & Fr). pose proof (grows_len _ _ Gr) as Lh.
        assert (X : match gset false x p (JObj []) with
          | Ok j' => exists h' o' F', hset false v p h1 c = Ok (h', o') /\ rep h' o' j' F' /\ updated h1 F1 G h' F'
          | Err => hset false v p h1 c = Err | _ => False end).
        { destruct p as [|s' p']; [cbn [gset hset]; exists h1, v, G; split; [reflexivity|]; split; [exact (grows_rep _ _ _ _ _ Gr Hv)|]; split; [tauto|]; split; [lia | reflexivity]|].
          apply (IH false h1 c (JObj []) F1 v x G Hc (grows_rep _ _ _ _ _ Gr Hv)).
          intros b Hb Hb'. specialize (Fr b Hb). pose proof (rep_bound _ _ _ _ _ Hv Hb'). lia. }
        destruct (gset false x p (JObj [])) as [c0| | |]; cbn [bind]; [|now rewrite X | contradiction | contradiction].
        destruct X as (h2 & c' & F2 & -> & Hc' & (U1 & U2 & U3)). cbn [bind alloc_cell].
        assert (Ag : agree h h2 F).
        { intros b Hb. pose proof (reps_bound _ _ _ _ _ Hl Hb) as Lb. rewrite U3; [now apply grows_nth | lia|]. intro K. specialize (Fr b K). lia. }
        assert (Dc : apartl F F2).
        { intros b Hb K. pose proof (reps_bound _ _ _ _ _ Hl Hb) as Lb. apply U1 in K as [K|[K|K]]; [specialize (Fr b K); lia | exact (DF b Hb K) | lia]. }
        pose proof (reps_frame _ _ _ _ _ Hl Ag) as Hl2.
        destruct (reps_app h2 c' c0 F2 l js F Hl2 Hc' Dc) as (F3 & Hl3 & U).
        exists (h2 ++ [CArr (l ++ [c'])]), (HRef (length h2)), (length h2 :: F3). split; [reflexivity|]. split; [|split; [|split]].
        -- apply (rep_arr _ _ (l ++ [c'])); [apply nth_new | apply (grows_reps h2); [apply grows_one | exact Hl3]|]. intro K. pose proof (reps_bound _ _ _ _ _ Hl3 K). lia.
        -- intros b [<-|Hb]; [right; right; lia|]. apply U in Hb as [Hb|Hb]; [left; now right|]. apply U1 in Hb as [Hb|[Hb|Hb]]; [right; right; now apply Fr | right; now left | right; right; lia].
        -- rewrite app_length. lia.
        -- intros b Lb Nb. rewrite nth_error_app1 by lia. rewrite U3; [now apply grows_nth | lia|]. intro K. specialize (Fr b K). lia.
      * destruct (arr_index s) as [i|]; [|reflexivity]. destruct (nth_error l i) as [c|] eqn:El; [|rewrite (reps_none _ _ _ _ _ Hl El); reflexivity].
        destruct (reps_focus h i l js F c Hl El) as (j0 & G0 & R & Ej & U & DGR & Hc & Rb). rewrite Ej.
        assert (DG0 : apartl G0 G) by (intros b Hb; apply DF; apply U; now left).
        specialize (IH false h c j0 G0 v x G Hc Hv DG0).
        assert (B : match p, j0 with _ :: _, JNull => p <> [] /\ j0 = JNull /\ c = HNull | _, _ => p = [] \/ (j0 <> JNull /\ c <> HNull) end).
        { pose proof (rep_null_iff _ _ _ _ Hc) as Z. destruct p; [destruct j0; now left|]. destruct j0; try (right; split; [discriminate | intro K; apply Z in K; discriminate]).
          split; [discriminate|]. split; [reflexivity | now apply Z]. }
        assert (E1 : (match p, j0 with _ :: _, JNull => Err | _, _ => do c' <- gset false x p j0 ; Ok (JArr (set_nth i c' js)) end) =
          match p, j0 with _ :: _, JNull => Err | _, _ => do c' <- gset false x p j0 ; Ok (JArr (set_nth i c' js)) end) by reflexivity.
        destruct (p) as [|s' p'] eqn:Ep.
        -- cbn [gset hset bind]. destruct (put_index_spec h a l i v Ea) as (P1 & P2 & P3).
           assert (Ag : agree h (put_index a i v h) R) by (intros b Hb; apply P3; intros ->; apply Na; apply U; now right).
           assert (Hv' : rep (put_index a i v h) v x G) by (apply (rep_frame h); [exact Hv|]; intros b Hb; apply P3; intros ->; contradiction).
           destruct (Rb _ v x G Ag Hv') as (F' & Hl' & U'); [intros b Hb K; apply (DF b); [apply U; now right | exact Hb]|].
           exists (put_index a i v h), (HRef a), (a :: F'). split; [reflexivity|]. split; [|split; [|split]].
           ++ apply (rep_arr _ _ (set_nth i v l)); [exact P1 | exact Hl'|]. intro K. apply U' in K as [K|K]; [contradiction | apply Na; apply U; now right].
           ++ intros b [<-|Hb]; [left; now left|]. apply U' in Hb as [Hb|Hb]; [right; now left | left; right; apply U; now right].
           ++ lia.
           ++ intros b _ Nb. apply P3. intros ->. apply Nb. now left.
        -- destruct (match j0 with JNull => true | _ => false end) eqn:Ez.
           { destruct j0; try discriminate. destruct B as (_ & _ & ->). reflexivity. }
           assert (Z : j0 <> JNull /\ c <> HNull) by (destruct j0; try discriminate Ez; destruct B as [B|B]; try discriminate B; exact B).
           destruct Z as (Z1 & Z2).
           assert (Q1 : (match j0 with JNull => Err | _ => do c' <- gset false x (s' :: p') j0 ; Ok (JArr (set_nth i c' js)) end) = (do c' <- gset false x (s' :: p') j0 ; Ok (JArr (set_nth i c' js)))) by (destruct j0; [contradiction | reflexivity ..]).
           assert (Q2 : (match c with HNull => Err | _ => do (h2, c') <- hset false v (s' :: p') h c ; Ok (put_index a i c' h2, HRef a) end) = (do (h2, c') <- hset false v (s' :: p') h c ; Ok (put_index a i c' h2, HRef a))) by (destruct c; [contradiction | reflexivity ..]).
           rewrite Q1, Q2. clear Q1 Q2.
           destruct (gset false x (s' :: p') j0) as [c0| | |]; cbn [bind]; [|now rewrite IH | contradiction | contradiction].
           destruct IH as (h2 & c' & F2 & -> & Hc' & (U1 & U2 & U3)). cbn [bind].
           assert (NaG0 : ~ In a G0) by (intro K; apply Na; apply U; now left).
           assert (Ea2 : nth_error h2 a = Some (CArr l)) by (rewrite U3; assumption).
           assert (NF2 : ~ In a F2) by (intro K; apply U1 in K as [K|[K|K]]; [contradiction | contradiction | lia]).
           destruct (put_index_spec h2 a l i c' Ea2) as (P1 & P2 & P3).
           assert (Ag : agree h (put_index a i c' h2) R).
           { intros b Hb. rewrite P3; [apply U3|].
             - apply (reps_bound _ _ _ _ _ Hl). apply U. now right.
             - intro K. exact (DGR b K Hb).
             - intros ->. apply Na. apply U. now right. }
           assert (Hc2 : rep (put_index a i c' h2) c' c0 F2) by (apply (rep_frame h2); [exact Hc'|]; intros b Hb; apply P3; intros ->; contradiction).
           destruct (Rb _ c' c0 F2 Ag Hc2) as (F' & Hl' & U').
           { intros b Hb K. assert (In b F) by (apply U; now right). apply U1 in Hb as [Hb|[Hb|Hb]]; [exact (DGR b Hb K) | exact (DF b H Hb) |]. pose proof (reps_bound _ _ _ _ _ Hl H). lia. }
           exists (put_index a i c' h2), (HRef a), (a :: F'). split; [reflexivity|]. split; [|split; [|split]].
           ++ apply (rep_arr _ _ (set_nth i c' l)); [exact P1 | exact Hl'|]. intro K. apply U' in K as [K|K]; [contradiction | apply Na; apply U; now right].
           ++ intros b [<-|Hb]; [left; now left|]. apply U' in Hb as [Hb|Hb]; [|left; right; apply U; now right].
              apply U1 in Hb as [Hb|[Hb|Hb]]; [left; right; apply U; now left | right; now left | right; now right].
           ++ lia.
           ++ intros b Lb Nb. rewrite P3 by (intros ->; apply Nb; now left). apply U3; [exact Lb|]. intro K. apply Nb. right. apply U. now left.
    + (* map *)
      rewrite Ea. assert (La : a < length h) by (apply nth_error_Some; congruence).
      assert (DF : apartl F G) by (intros b Hb; apply D; now right). assert (NG : ~ In a G) by (intro K; exact (D a (or_introl eq_refl) K)).
      destruct (repm_focus h s m js F Sm Hm) as (G0 & R & U & DGR & Mc & _ & Rb).
      set (child := match oget s js with None | Some JNull => JObj [] | Some c => c end).
      assert (C : exists h1 c F1, (match p, oget s m with [], _ => (h, HNull) | _, None | _, Some HNull => alloc_cell h (CObj []) | _, Some c => (h, c) end) = (h1, c) /\ grows h h1 /\
          (p <> [] -> rep h1 c child F1) /\ (forall b, In b F1 -> In b G0 \/ length h <= b)).
      { destruct p as [|s' p']; [exists h, HNull, []; split; [reflexivity|]; split; [apply grows_refl|]; split; [congruence | intros b []]|].
        assert (New : rep (h ++ [CObj []]) (HRef (length h)) (JObj []) [length h]) by (apply (rep_obj _ _ [] [] []); [apply nth_new | exact I | constructor | auto]).
        unfold child. destruct (oget s m) as [c|], (oget s js) as [j0|]; try contradiction.
        - pose proof (rep_null_iff _ _ _ _ Mc) as Z. destruct (match j0 with JNull => true | _ => false end) eqn:Ez.
          + destruct j0; try discriminate. assert (c = HNull) as -> by now apply Z. exists (h ++ [CObj []]), (HRef (length h)), [length h].
            split; [reflexivity|]. split; [apply grows_one|]. split; [intros _; exact New | intros b [<-|[]]; right; lia].
          + exists h, c, G0. assert (c <> HNull) by (intro K; apply Z in K; subst; discriminate).
            split; [destruct c; [contradiction | reflexivity ..]|]. split; [apply grows_refl|].
            split; [intros _; destruct j0; [discriminate | exact Mc ..] | tauto].
        - exists (h ++ [CObj []]), (HRef (length h)), [length h]. split; [reflexivity|]. split; [apply grows_one|]. split; [intros _; exact New | intros b [<-|[]]; right; lia]. }
      destruct C as (h1 & c & F1 & -> & Gr & Hc & Fr). pose proof (grows_len _ _ Gr) as Lh.
      assert (X : match gset false x p child with
          | Ok j' => exists h' o' F', hset false v p h1 c = Ok (h', o') /\ rep h' o' j' F' /\ updated h1 F1 G h' F'
          | Err => hset false v p h1 c = Err | _ => False end).
      { destruct p as [|s' p']; [cbn [gset hset]; exists h1, v, G; split; [reflexivity|]; split; [exact (grows_rep _ _ _ _ _ Gr Hv)|]; split; [tauto|]; split; [lia | reflexivity]|].
        apply (IH false h1 c child F1 v x G (Hc ltac:(discriminate)) (grows_rep _ _ _ _ _ Gr Hv)).
        intros b Hb Hb'. apply Fr in Hb as [Hb|Hb]; [apply (DF b); [apply U; now left | exact Hb']|]. pose proof (rep_bound _ _ _ _ _ Hv Hb'). lia. }
      destruct (gset false x p child) as [c0| | |]; cbn [bind]; [|now rewrite X | contradiction | contradiction].
      destruct X as (h2 & c' & F2 & -> & Hc' & (U1 & U2 & U3)). cbn [bind].
      assert (NaF1 : ~ In a F1) by (intro K; apply Fr in K as [K|K]; [apply Na; apply U; now left | lia]).
      assert (Ea2 : nth_error h2 a = Some (CObj m)) by (rewrite U3; [rewrite (grows_nth h h1 a Gr La); exact Ea | lia | exact NaF1]).
      assert (NF2 : ~ In a F2) by (intro K; apply U1 in K as [K|[K|K]]; [contradiction | contradiction | lia]).
      destruct (put_key_spec h2 a m s c' Ea2) as (P1 & P2 & P3).
      assert (Ag : agree h (put_key a s c' h2) R).
      { intros b Hb. assert (Lb : b < length h) by (apply (repm_bound _ _ _ _ _ Hm); apply U; now right). rewrite P3; [rewrite U3; [now apply grows_nth | lia |]|].
        - intro K. apply Fr in K as [K|K]; [exact (DGR b K Hb) | lia].
        - intros ->. apply Na. apply U. now right. }
      assert (Hc2 : rep (put_key a s c' h2) c' c0 F2) by (apply (rep_frame h2); [exact Hc'|]; intros b Hb; apply P3; intros ->; contradiction).
      destruct (Rb _ c' c0 F2 Ag Hc2) as (F' & Hl' & U').
      { intros b Hb K. assert (In b F) by (apply U; now right). pose proof (repm_bound _ _ _ _ _ Hm H).
        apply U1 in Hb as [Hb|[Hb|Hb]]; [apply Fr in Hb as [Hb|Hb]; [exact (DGR b Hb K) | lia] | exact (DF b H Hb) | lia]. }
      exists (put_key a s c' h2), (HRef a), (a :: F'). split; [reflexivity|]. split; [|split; [|split]].
      * apply (rep_obj _ _ (oset s c' m)); [exact P1 | now apply sorted_oset | exact Hl'|]. intro K. apply U' in K as [K|K]; [contradiction | apply Na; apply U; now right].
      * intros b [<-|Hb]; [left; now left|]. apply U' in Hb as [Hb|Hb]; [|left; right; apply U; now right].
        apply U1 in Hb as [Hb|[Hb|Hb]]; [apply Fr in Hb as [Hb|Hb]; [left; right; apply U; now left | right; now right] | right; now left | right; right; lia].
      * lia.
      * intros b Lb Nb. rewrite P3 by (intros ->; apply Nb; now left). rewrite U3; [now apply grows_nth | lia|]. intro K. apply Fr in K as [K|K]; [|lia]. apply Nb. right. apply U. now left.
Qed.

Lemma root_set_spec p h o j F v x G : rep h o j F -> rep h v x G -> apartl F G ->
  match root_set x p j with
  | Ok j' => exists h' o' F', hroot_set v p h o = Ok (h', o') /\ rep h' o' j' F' /\ updated h F G h' F'
  | Err => hroot_set v p h o = Err
  | _ => False
  end.
Proof.
  intros Ho Hv D. destruct p as [|s p].
  - cbn [root_set hroot_set]. exists h, v, G. split; [reflexivity|]. split; [exact Hv|]. split; [tauto|]. split; [lia | reflexivity].
  - unfold root_set, hroot_set. pose proof (rep_null_iff _ _ _ _ Ho) as Z. destruct (match j with JNull => true | _ => false end) eqn:Ez.
    + destruct j; try discriminate. assert (o = HNull) as -> by now apply Z. cbn [alloc_cell].
      assert (New : rep (h ++ [CObj []]) (HRef (length h)) (JObj []) [length h]) by (apply (rep_obj _ _ [] [] []); [apply nth_new | exact I | constructor | auto]).
      pose proof (hset_spec (s :: p) true (h ++ [CObj []]) (HRef (length h)) (JObj []) [length h] v x G New (grows_rep _ _ _ _ _ (grows_one h _) Hv)) as X.
      specialize (X ltac:(intros b [<-|[]] K; pose proof (rep_bound _ _ _ _ _ Hv K); lia)).
      destruct (gset true x (s :: p) (JObj [])) as [c0| | |]; [|exact X | exact X | exact X].
      destruct X as (h2 & c' & F2 & E & Hc' & (U1 & U2 & U3)). rewrite app_length in *. cbn [length] in *. exists h2, c', F2. split; [exact E|]. split; [exact Hc'|]. split; [|split].
      * intros b Hb. apply U1 in Hb as [[<-|[]]|[Hb|Hb]]; [right; right; lia | right; now left | right; right; lia].
      * lia.
      * intros b Lb Nb. rewrite U3; [now apply nth_error_app1 | lia|]. intros [<-|[]]. lia.
    + assert (o <> HNull) by (intro K; apply Z in K; subst; discriminate).
      assert (Q1 : match j with JNull => JObj [] | _ => j end = j) by (destruct j; [discriminate | reflexivity ..]).
      assert (Q2 : match o with HNull => let (h1, c) := alloc_cell h (CObj []) in hset true v (s :: p) h1 c | _ => hset true v (s :: p) h o end = hset true v (s :: p) h o) by (destruct o; [contradiction | reflexivity ..]).
      rewrite Q1, Q2. now apply hset_spec.
Qed.
