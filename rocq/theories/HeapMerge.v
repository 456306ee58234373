(** Merge in memory against its value version. *)
From Coq Require Import String Ascii List Bool Arith ZArith Lia Permutation.
From Verif Require Import GoStr GoStrFacts Json JsonFacts Gabs Container SetFacts MergeFacts HeapCont Spec_Heap HeapFacts HeapSet HeapSearch.
Import ListNotations.
Local Open Scope string_scope.
Local Open Scope nat_scope.
Local Open Scope list_scope.

Lemma order_none {A} k (m : list (string * A)) : forall ks, ~ In k ks -> sorted m -> order_by ks (odel k m) = order_by ks m.
Proof.
  induction ks as [|k1 ks IH]; intros N S; [reflexivity|]. cbn [order_by flat_map]. rewrite (oget_odel k1 k m S).
  destruct (String.eqb k1 k) eqn:E; [apply String.eqb_eq in E; subst; elim N; now left|].
  unfold order_by in IH. rewrite IH; [reflexivity | intro K; apply N; now right | exact S].
Qed.
Lemma order_repm h ks : forall m js F, NoDup ks -> sorted m -> repm h m js F ->
  exists F', repm h (order_by ks m) (order_by ks js) F' /\ forall a, In a F' -> In a F.
Proof.
  induction ks as [|k ks IH]; intros m js F N S H; [exists []; split; [constructor | intros a []]|].
  inversion N as [|? ? N1 N2]; subst. destruct (repm_focus h k m js F S H) as (G & R & U & D & M & Dl & _).
  assert (Sj : sorted js) by (eapply sorted_same_keys; [eapply repm_keys; exact H | exact S]).
  destruct (IH _ _ _ N2 (sorted_odel k m S) Dl) as (F' & R' & I'). rewrite (order_none k m ks N1 S), (order_none k js ks N1 Sj) in R'.
  change (order_by (k :: ks) m) with ((match oget k m with Some v => [(k, v)] | None => [] end) ++ order_by ks m).
  change (order_by (k :: ks) js) with ((match oget k js with Some v => [(k, v)] | None => [] end) ++ order_by ks js).
  destruct (oget k m) as [c|], (oget k js) as [j|]; try contradiction.
  - exists (G ++ F'). split; [|intros a Ha; apply U; apply in_app_iff in Ha as [Ha|Ha]; [now left | right; now apply I']].
    cbn [app]. constructor; [exact M | exact R'|]. intros a Ha Hb. apply (D a Ha). now apply I'.
  - exists F'. split; [exact R'|]. intros a Ha. apply U. right. now apply I'.
Qed.

Section Loop.
  Context (ordk : list string -> list string -> list string) (coll : strategy).
  Definition hloop (rec : list string -> list (string * hv) -> heap -> hv -> heap * hv * res unit) (path : list string) : list (string * hv) -> heap -> hv -> heap * hv * res unit :=
    fix loop (es : list (string * hv)) (h : heap) (o : hv) : heap * hv * res unit :=
         match es with
         | [] => (h, o, Ok tt)
         | (key, value) :: es' =>
             let np := path ++ [key] in
             let (h1, found) := hsearch np h o in
             let set x := match hroot_set x np h1 o with Ok (h2, o2) => (h2, o2, Ok tt) | _ => (h1, o, Err) end in
             let '(h2, o2, r) :=
               match found with
               | None => set value
               | Some ex =>
                   match hobj h1 value, hobj h1 ex with
                   | Some t, Some _ => rec np t h1 o
                   | _, _ => match coll with Strict => (h1, o, Err) | Default => set ex | Override => set value end
                   end
               end in
             match r with Ok _ => loop es' h2 o2 | _ => (h2, o2, r) end
         end.
  Definition vloop (rec : list string -> list (string * json) -> cont -> cont * res unit) (path : list string) : list (string * json) -> cont -> cont * res unit :=
    fix loop (es : list (string * json)) (c : cont) : cont * res unit :=
         match es with
         | [] => (c, Ok tt)
         | (key, value) :: es' =>
             let np := path ++ [key] in
             let set x := match c_set x np c with Ok c' => (c', Ok tt) | _ => (c, Err) end in
             let (c', r) :=
               match c_search np c with
               | None => set value
               | Some ex =>
                   match value, ex with
                   | JObj t, JObj _ => rec np t c
                   | _, _ => match resolve coll ex value with None => (c, Err) | Some x => set x end
                   end
               end in
             match r with Ok _ => loop es' c' | _ => (c', r) end
         end.
  Definition hentry (rec : list string -> list (string * hv) -> heap -> hv -> heap * hv * res unit) (path : list string) (key : string) (value : hv) (h : heap) (o : hv) : heap * hv * res unit :=
    let np := path ++ [key] in
    let (h1, found) := hsearch np h o in
    let set x := match hroot_set x np h1 o with Ok (h2, o2) => (h2, o2, Ok tt) | _ => (h1, o, Err) end in
    match found with
    | None => set value
    | Some ex =>
        match hobj h1 value, hobj h1 ex with
        | Some t, Some _ => rec np t h1 o
        | _, _ => match coll with Strict => (h1, o, Err) | Default => set ex | Override => set value end
        end
    end.
  Definition ventry (rec : list string -> list (string * json) -> cont -> cont * res unit) (path : list string) (key : string) (value : json) (c : cont) : cont * res unit :=
    let np := path ++ [key] in
    let set x := match c_set x np c with Ok c' => (c', Ok tt) | _ => (c, Err) end in
    match c_search np c with
    | None => set value
    | Some ex =>
        match value, ex with
        | JObj t, JObj _ => rec np t c
        | _, _ => match resolve coll ex value with None => (c, Err) | Some x => set x end
        end
    end.
  Lemma hloop_cons rec path k v es h o : hloop rec path ((k, v) :: es) h o =
    let '(h2, o2, r) := hentry rec path k v h o in match r with Ok _ => hloop rec path es h2 o2 | _ => (h2, o2, r) end.
  Proof. cbn [hloop]. unfold hentry. cbv zeta. destruct (hsearch (path ++ [k]) h o). reflexivity. Qed.
  Lemma vloop_cons rec path k v es c : vloop rec path ((k, v) :: es) c =
    let (c2, r) := ventry rec path k v c in match r with Ok _ => vloop rec path es c2 | _ => (c2, r) end.
  Proof. reflexivity. Qed.
  Lemma hmerge_unfold f path src h o : hmerge_rec ordk coll (S f) path src h o = hloop (hmerge_rec ordk coll f) path (order_by (ordk path (keys src)) src) h o.
  Proof. reflexivity. Qed.
  Lemma vmerge_unfold f path src c : vmerge_rec ordk (resolve coll) (S f) path src c = vloop (vmerge_rec ordk (resolve coll) f) path (order_by (ordk path (keys src)) src) c.
  Proof. reflexivity. Qed.

  (** Objects on the way to [path] stay objects. *)
  Definition stays (path : list string) (j j' : json) : Prop :=
    forall p q, path = p ++ q -> forall d, walks p j d -> is_obj d = true -> exists d', walks p j' d' /\ is_obj d' = true.
  (** The cells of [o] and of what is merged in may change, no others. *)
  Definition moved (h : heap) (F G : list nat) (h' : heap) (F' : list nat) : Prop :=
    (forall a, In a F' -> In a F \/ In a G \/ length h <= a) /\ length h <= length h' /\
    (forall a, a < length h -> ~ In a F -> ~ In a G -> nth_error h' a = nth_error h a).
  (** The two versions agree, from the payload [o]/[j]. *)
  Definition same (path : list string) (h : heap) (j : json) (F G : list nat) (H : heap * hv * res unit) (V : cont * res unit) : Prop :=
    let '(h', o', r) := H in
    exists j' F', V = (Some j', r) /\ rep h' o' j' F' /\ moved h F G h' F' /\ stays path j j'.

  Lemma gset_obj top x s q m j' : gset top x (s :: q) (JObj m) = Ok j' -> is_obj j' = true.
  Proof. cbn [gset]. intro E. apply bind_ok in E as (c & _ & E). now injection E as <-. Qed.
  Lemma stays_set path key top x j j' : gset top x (path ++ [key]) j = Ok j' -> stays path j j'.
  Proof.
    intros E p q -> d W O. rewrite <- app_assoc in E. destruct d as [| | | | |m]; try discriminate.
    destruct (gset_keeps p top j (JObj m) x (q ++ [key]) j' W ltac:(discriminate) ltac:(destruct q; discriminate) E) as (d' & W' & E').
    exists d'. split; [exact W'|]. destruct q as [|s q]; eapply gset_obj; exact E'.
  Qed.
  Lemma stays_refl path j : stays path j j.
  Proof. intros p q _ d W O. eauto. Qed.
  Lemma stays_trans path a b c : stays path a b -> stays path b c -> stays path a c.
  Proof. intros H1 H2 p q E d W O. destruct (H1 p q E d W O) as (d1 & W1 & O1). exact (H2 p q E d1 W1 O1). Qed.

  Lemma set_case path key h h1 o j F v x G : grows h h1 -> rep h o j F -> rep h v x G -> apartl F G ->
    same path h j F G (match hroot_set v (path ++ [key]) h1 o with Ok (h2, o2) => (h2, o2, Ok tt) | _ => (h1, o, Err) end)
      (match c_set x (path ++ [key]) (Some j) with Ok c' => (c', Ok tt) | _ => (Some j, Err) end).
  Proof.
    intros Gr Ho Hv D. pose proof (root_set_spec (path ++ [key]) h1 o j F v x G (grows_rep _ _ _ _ _ Gr Ho) (grows_rep _ _ _ _ _ Gr Hv) D) as X. pose proof (grows_len _ _ Gr) as L.
    unfold c_set. destruct (root_set x (path ++ [key]) j) as [j'| | |] eqn:Er; cbn [bind]; try contradiction.
    - destruct X as (h' & o' & F' & -> & R & (U1 & U2 & U3)). unfold same. exists j', F'. split; [reflexivity|]. split; [exact R|]. split; [split; [|split]|].
      + intros a Ha. apply U1 in Ha as [Ha|[Ha|Ha]]; [now left | right; now left | right; right; lia].
      + lia.
      + intros a La Na _. rewrite U3; [now apply grows_nth | lia | exact Na].
      + unfold root_set in Er. destruct (path ++ [key]) as [|s0 q0] eqn:Ep; [destruct path; discriminate|]. rewrite <- Ep in Er.
        destruct (match j with JNull => true | _ => false end) eqn:Ez.
        * destruct j; try discriminate. intros p q Epath d W O. destruct p; [cbn in W; subst; discriminate | contradiction].
        * assert (gset true x (path ++ [key]) j = Ok j') by (destruct j; [discriminate | exact Er ..]). eapply stays_set; eassumption.
    - rewrite X. exists j, F. split; [reflexivity|]. split; [exact (grows_rep _ _ _ _ _ Gr Ho)|]. split; [split; [tauto | split; [exact L | intros a La _ _; now apply grows_nth]] | apply stays_refl].
  Qed.

  Lemma search1 h w d G key : rep h w d G -> (is_arr d = true -> String.eqb key "*" = false) ->
    exists r, hsearch [key] h w = (h, r) /\
      match search [key] d with
      | Some y => exists c Gc, r = Some c /\ rep h c y Gc /\ (forall a, In a Gc -> In a G) /\ walks [key] d y
      | None => r = None
      end.
  Proof.
    intros H Q. destruct H as [|b|n|t|a l js F Ea Hl Na|a m js F Ea Sm Hm Na]; try (exists None; split; reflexivity).
    - cbn [hsearch search]. rewrite Ea, (Q eq_refl). destruct (arr_index key) as [i|] eqn:Ei; [|exists None; split; reflexivity].
      destruct (nth_error l i) as [c|] eqn:El; [|rewrite (reps_none _ _ _ _ _ Hl El); exists None; split; reflexivity].
      destruct (reps_focus h i l js F c Hl El) as (j0 & G0 & R & Ej & U & _ & Hc & _). rewrite Ej. exists (Some c). split; [reflexivity|].
      exists c, G0. split; [reflexivity|]. split; [exact Hc|]. split; [intros b Hb; right; apply U; now left|]. cbn [walks]. exists i, j0. repeat split; auto.
    - cbn [hsearch search]. rewrite Ea. destruct (repm_focus h key m js F Sm Hm) as (G0 & R & U & _ & Mc & _).
      destruct (oget key m) as [c|], (oget key js) as [j0|] eqn:Ej; try contradiction; [|exists None; split; reflexivity].
      exists (Some c). split; [reflexivity|]. exists c, G0. split; [reflexivity|]. split; [exact Mc|]. split; [intros b Hb; right; apply U; now left|]. cbn [walks]. exists j0. repeat split; auto.
  Qed.
  Lemma hobj_rep h v x G : rep h v x G -> match hobj h v, x with Some t, JObj tj => sorted t /\ exists Gt, repm h t tj Gt /\ forall a, In a Gt -> In a G | None, JObj _ => False | Some _, _ => False | None, _ => True end.
  Proof.
    intro H. destruct H as [|b|n|t|a l js F Ea Hl Na|a m js F Ea Sm Hm Na]; cbn [hobj]; try rewrite Ea; try exact I.
    split; [exact Sm|]. exists F. split; [exact Hm|]. intros b Hb. now right.
  Qed.

  Definition ready_at (path : list string) (j : json) : Prop := path = [] \/ exists d, walks path j d /\ is_obj d = true.
  Definition good_rec (f : nat) : Prop := forall path t tj h o j F Gt, rep h o j F -> repm h t tj Gt -> sorted t -> apartl F Gt -> ready_at path j ->
    same path h j F Gt (hmerge_rec ordk coll f path t h o) (vmerge_rec ordk (resolve coll) f path tj (Some j)).

  Lemma grown path h h1 o j F G : grows h h1 -> rep h o j F -> same path h j F G (h1, o, Err) (Some j, Err).
  Proof.
    intros Gr Ho. exists j, F. split; [reflexivity|]. split; [exact (grows_rep _ _ _ _ _ Gr Ho)|].
    split; [|apply stays_refl]. split; [tauto|]. split; [now apply grows_len | intros a La _ _; now apply grows_nth].
  Qed.
  Lemma hobj_reads h v l : reads h v (JArr l) -> hobj h v = None.
  Proof.
    unfold reads. destruct v; try reflexivity. cbn [hobj]. destruct (length h); [discriminate|]. cbn [hread].
    destruct (nth_error h a) as [[c|m]|]; try reflexivity. destruct (opt_all _); discriminate.
  Qed.
  Lemma star_set h a l v : nth_error h a = Some (CArr l) -> hroot_set v ["*"] h (HRef a) = Err.
  Proof. intro E. cbn [hroot_set hset]. rewrite E. reflexivity. Qed.
  (** One entry. *)
  Lemma entry_case f path key h o j F value x G : good_rec f -> rep h o j F -> rep h value x G -> apartl F G -> ready_at path j ->
    same path h j F G (hentry (hmerge_rec ordk coll f) path key value h o) (ventry (vmerge_rec ordk (resolve coll) f) path key x (Some j)).
  Proof.
    intros IH Ho Hv D Rd. unfold hentry, ventry. cbv zeta.
    assert (W : exists d, walks path j d /\ (path = [] \/ is_obj d = true)).
    { destruct Rd as [->|(d & W & O)]; [exists j; split; [reflexivity | now left] | exists d; split; [exact W | now right]]. }
    destruct W as (d & W & Od). unfold c_search. cbn [c_data].
    destruct (is_arr d && String.eqb key "*") eqn:St.
    - (* "*" on a slice at the root *)
      apply andb_prop in St as (Ad & Ek). apply String.eqb_eq in Ek as ->. destruct Od as [-> | Od]; [|destruct d; discriminate].
      cbn [walks] in W. subst d. destruct j as [| | | |l|]; try discriminate. cbn [app].
      destruct (hsearch_reads ["*"] h o (JArr l) F Ho) as (Gr & Rr). assert (Oa : exists a la, o = HRef a /\ nth_error h a = Some (CArr la)) by (inversion Ho; eauto).
      destruct Oa as (a & la & -> & Ea). destruct (hsearch ["*"] h (HRef a)) as [h1 found]. cbn [fst snd] in *.
      assert (Ea1 : nth_error h1 a = Some (CArr la)) by (rewrite (grows_nth _ _ _ Gr); [exact Ea | apply nth_error_Some; congruence]).
      assert (Es : forall v, hroot_set v ["*"] h1 (HRef a) = Err) by (intro; eapply star_set, Ea1).
      assert (Ev : forall y, c_set y ["*"] (Some (JArr l)) = Err) by reflexivity.
      destruct (search ["*"] (JArr l)) as [y|] eqn:Ey, found as [w|]; try contradiction.
      + assert (exists l', y = JArr l') as (l' & ->). { cbn [search] in Ey. change (String.eqb "*" "*") with true in Ey. cbn iota in Ey. destruct (flat_map _ l); [discriminate|]. injection Ey as <-. eauto. }
        rewrite (hobj_reads _ _ _ Rr). rewrite !Es.
        match goal with |- same _ _ _ _ _ ?A ?B => assert (A = (h1, HRef a, Err)) as -> by (destruct (hobj h1 value), coll; reflexivity); assert (B = (Some (JArr l), Err)) as -> by (destruct x, coll; reflexivity) end.
        now apply grown.
      + rewrite Es, Ev. now apply grown.
    - destruct (hsearch_walks path h o j F d [key] Ho W) as (w & Gw & Hw & Iw & Es). rewrite Es, (walks_search path j d [key] W).
      destruct (search1 h w d Gw key Hw) as (r & Er & Mr). { intro A. rewrite A in St. exact St. }
      rewrite Er. destruct (search [key] d) as [y|] eqn:Ey; [|subst r; apply set_case; [apply grows_refl | assumption ..]].
      destruct Mr as (c & Gc & -> & Hc & Ic & Wy).
      assert (Wp : walks (path ++ [key]) j y) by (eapply walks_app; eassumption).
      assert (Sc : same path h j F G (match coll with Strict => (h, o, Err) | Default => match hroot_set c (path ++ [key]) h o with Ok (h2, o2) => (h2, o2, Ok tt) | _ => (h, o, Err) end | Override => match hroot_set value (path ++ [key]) h o with Ok (h2, o2) => (h2, o2, Ok tt) | _ => (h, o, Err) end end)
         (match resolve coll y x with None => (Some j, Err) | Some x => match c_set x (path ++ [key]) (Some j) with Ok c' => (c', Ok tt) | _ => (Some j, Err) end end)).
      { destruct coll; cbn [resolve merge_strict merge_default merge_override].
        - apply grown; [apply grows_refl | exact Ho].
        - assert (N : path ++ [key] <> []) by (destruct path; discriminate).
          assert (Nj : j <> JNull) by (eapply walks_notnull; eassumption).
          assert (No : o <> HNull) by (intro K; apply Nj; now apply (rep_null_iff _ _ _ _ Ho)).
          assert (E1 : hroot_set c (path ++ [key]) h o = Ok (h, o)).
          { unfold hroot_set. destruct (path ++ [key]) eqn:Ep; [contradiction|]. rewrite <- Ep in *. assert (E1 : hsearch (path ++ [key]) h o = (h, Some c)) by now rewrite Es.
            pose proof (hset_same _ true h o j F y c Ho Wp E1) as E2. destruct o; [contradiction | exact E2 ..]. }
          assert (E2 : root_set y (path ++ [key]) j = Ok j).
          { unfold root_set. destruct (path ++ [key]) eqn:Ep; [contradiction|]. rewrite <- Ep in *.
            pose proof (gset_same _ true j y (rep_wf _ _ _ _ Ho) Wp) as E2. destruct j; [contradiction | exact E2 ..]. }
          unfold c_set. rewrite E1, E2. cbn [bind]. exists j, F. split; [reflexivity|]. split; [exact Ho|]. split; [|apply stays_refl]. split; [tauto|]. split; [lia | reflexivity].
        - apply set_case; [apply grows_refl | assumption ..]. }
      pose proof (hobj_rep _ _ _ _ Hv) as Ov. pose proof (hobj_rep _ _ _ _ Hc) as Oc.
      destruct (hobj h value) as [t|], x as [| | | | |tj]; try contradiction; try exact Sc.
      destruct (hobj h c) as [t2|], y as [| | | | |tj2]; try contradiction; try exact Sc.
      destruct Ov as (St1 & Gt & Rt & It).
      pose proof (IH (path ++ [key]) t tj h o j F Gt Ho Rt St1) as K. unfold same in *.
      destruct (hmerge_rec ordk coll f (path ++ [key]) t h o) as [[h' o'] r'].
      destruct K as (j' & F' & E & R & (U1 & U2 & U3) & Sy). { intros a Ha Hb. apply (D a Ha). now apply It. } { right. eauto. }
      exists j', F'. split; [exact E|]. split; [exact R|]. split; [split; [|split; [exact U2 | intros a La Na Nb; apply U3; auto]]|].
      + intros a Ha. apply U1 in Ha as [Ha|[Ha|Ha]]; auto.
      + intros p q -> . apply (Sy p (q ++ [key])). now rewrite app_assoc.
  Qed.

  Lemma ready_stays path j j' : stays path j j' -> ready_at path j -> ready_at path j'.
  Proof. intros S [E|(d & W & O)]; [now left|]. right. apply (S path [] (eq_sym (app_nil_r _)) d W O). Qed.
  Lemma moved_trans h F G h1 F1 G1 h2 F2 : moved h F G h1 F1 -> moved h1 F1 G1 h2 F2 -> moved h F (G ++ G1) h2 F2.
  Proof.
    intros (A1 & A2 & A3) (B1 & B2 & B3). split; [|split; [lia|]].
    - intros a Ha. rewrite in_app_iff. apply B1 in Ha as [Ha|[Ha|Ha]]; [apply A1 in Ha; tauto | tauto | right; right; lia].
    - intros a La Na Nb. rewrite in_app_iff in Nb. rewrite B3; [apply A3; tauto | lia | | tauto]. intro K. apply A1 in K as [K|[K|K]]; [tauto | tauto | lia].
  Qed.
  Lemma loop_case f path : good_rec f -> forall es esj h o j F G, rep h o j F -> repm h es esj G -> apartl F G -> ready_at path j ->
    same path h j F G (hloop (hmerge_rec ordk coll f) path es h o) (vloop (vmerge_rec ordk (resolve coll) f) path esj (Some j)).
  Proof.
    intro IH. induction es as [|[k v] es IHm]; intros esj h o j F G Ho Hm D Rd; inversion Hm as [|? ? x G1 ? esj' G2 Hv Hr D12]; subst.
    - exists j, F. split; [reflexivity|]. split; [exact Ho|]. split; [|apply stays_refl]. split; [tauto|]. split; [lia | reflexivity].
    - pose proof (entry_case f path k h o j F v x G1 IH Ho Hv (fun a Ha Hb => D a Ha (in_or_app _ _ _ (or_introl Hb))) Rd) as E.
      rewrite hloop_cons, vloop_cons.
      destruct (hentry (hmerge_rec ordk coll f) path k v h o) as [[h1 o1] r1]. unfold same in E. destruct E as (j1 & F1 & -> & Ho1 & M1 & S1).
      assert (Last : forall r, same path h j F (G1 ++ G2) (h1, o1, r) (Some j1, r)).
      { intro r. exists j1, F1. split; [reflexivity|]. split; [exact Ho1|]. split; [|exact S1]. destruct M1 as (A1 & A2 & A3). split; [|split; [exact A2|]].
        - intros a Ha. rewrite in_app_iff. apply A1 in Ha. tauto.
        - intros a La Na Nb. rewrite in_app_iff in Nb. apply A3; tauto. }
      destruct r1 as [[]| | |]; try apply Last.
      assert (Hr1 : repm h1 es esj' G2).
      { apply (repm_frame h); [exact Hr|]. intros a Ha. destruct M1 as (A1 & A2 & A3). apply A3; [exact (repm_bound _ _ _ _ _ Hr Ha) | intro K; apply (D a K); apply in_or_app; now right | intro K; exact (D12 a K Ha)]. }
      assert (D1 : apartl F1 G2).
      { intros a Ha Hb. destruct M1 as (A1 & A2 & A3). apply A1 in Ha as [Ha|[Ha|Ha]]; [apply (D a Ha); apply in_or_app; now right | exact (D12 a Ha Hb) | pose proof (repm_bound _ _ _ _ _ Hr Hb); lia]. }
      pose proof (IHm esj' h1 o1 j1 F1 G2 Ho1 Hr1 D1 (ready_stays _ _ _ S1 Rd)) as K. unfold same in *.
      destruct (hloop (hmerge_rec ordk coll f) path es h1 o1) as [[h2 o2] r2]. destruct K as (j2 & F2 & E2 & Ho2 & M2 & S2).
      exists j2, F2. split; [exact E2|]. split; [exact Ho2|]. split; [exact (moved_trans _ _ _ _ _ _ _ _ M1 M2) | exact (stays_trans _ _ _ _ S1 S2)].
  Qed.
  Lemma all_good : (forall p ks, Permutation (ordk p ks) ks) -> forall f, good_rec f.
  Proof.
    intro P. induction f as [|f IH]; intros path t tj h o j F Gt Ho Ht St D Rd.
    - exists j, F. split; [reflexivity|]. split; [exact Ho|]. split; [|apply stays_refl]. split; [tauto|]. split; [lia | reflexivity].
    - rewrite hmerge_unfold, vmerge_unfold. assert (Ek : keys tj = keys t) by (unfold keys; exact (repm_keys _ _ _ _ Ht)). rewrite Ek.
      destruct (order_repm h (ordk path (keys t)) t tj Gt) as (G & R & I); [|exact St | exact Ht|].
      { eapply Permutation_NoDup; [apply Permutation_sym, P|]. now apply sorted_nodup. }
      pose proof (loop_case f path IH _ _ h o j F G Ho R (fun a Ha Hb => D a Ha (I a Hb)) Rd) as K. unfold same in *.
      destruct (hloop _ path _ h o) as [[h' o'] r']. destruct K as (j' & F' & E & R' & (A1 & A2 & A3) & S). exists j', F'. split; [exact E|]. split; [exact R'|]. split; [|exact S].
      split; [intros a Ha; apply A1 in Ha as [Ha|[Ha|Ha]]; auto|]. split; [exact A2|]. intros a La Na Nb. apply A3; auto.
  Qed.
End Loop.
