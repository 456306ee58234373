(** Resolve does not fail when nothing is wrong (proofs). *)
From Coq Require Import String Ascii List Bool Arith ZArith Lia Permutation.
From Verif Require Import Route GoStr GoStrFacts Json JsonFacts Gabs Container Spec_Loc LocFacts SetFacts Url Pointer Spec_Clone CloneFacts MergeFacts Spec_Resolve Resolver ScanFacts
  ResolverFacts ResolverFrame ResolverExpand ResolverExpandX ResolverAt Spec_ResolveOk.
Import ListNotations.
Local Open Scope string_scope.
Local Open Scope nat_scope.
Local Open Scope list_scope.

Definition no_err {A} (r : res A) (P : A -> Prop) : Prop := match r with Ok v => P v | Err => False | _ => True end.
Lemma no_err_bind {A B} (r : res A) (f : A -> res B) P Q : no_err r P -> (forall v, r = Ok v -> P v -> no_err (f v) Q) -> no_err (bind r f) Q.
Proof. destruct r; cbn; auto. Qed.
Lemma no_err_weak {A} (r : res A) (P Q : A -> Prop) : no_err r P -> (forall v, P v -> Q v) -> no_err r Q.
Proof. destruct r; cbn; auto. Qed.

Lemma lookup_snoc_some q s j v : lookup (q ++ [s]) j = Some v -> exists x, lookup q j = Some x.
Proof. rewrite lookup_app. destruct (lookup q j); [eauto | discriminate]. Qed.
Lemma apart_snoc e q s : apart e q -> apart e (q ++ [s]).
Proof. intros H. destruct H as [A B]. split.
  - intro X. apply above_snoc in X as [X|X]; [now apply A|]. apply B. exists [s]. exact X.
  - intros [r E]. apply B. exists (s :: r). rewrite E, <- app_assoc. reflexivity.
Qed.
Lemma apart_sym a b : apart a b -> apart b a. Proof. intros [A B]. now split. Qed.

(** Setting a location that is there. *)
Lemma set_there L v v' j x : L <> [] -> Forall seg_ok L -> lookup L j = Some x -> clone v = Ok v' ->
  exists r, c_setp (render L) v (Some j) = Ok (Some r) /\ lookup L r = Some v' /\ (forall q', apart L q' -> lookup q' r = lookup q' j) /\
    forall n, In n (numbers r) -> In n (numbers v') \/ In n (numbers j).
Proof.
  intros Hn Ho Hl Hc. pose proof (addresses_lookup L true j x Ho Hl) as Ha. rewrite <- (dot_path_render L Hn Ho) in Ha.
  rewrite <- (denull_lookup L j x Hn Hl) in Ha. destruct (setp_spec (render L) v v' j Hc) as [H _]. destruct (H L Ha) as (r & Hr & H1 & H2 & _).
  exists r. split; [exact Hr|]. split; [exact H1|]. split; [exact H2|]. intros n I. rewrite (setp_ok _ _ _ _ Hc) in Hr. apply bind_ok in Hr as (r' & Hr & E). injection E as <-.
  rewrite (denull_lookup L j x Hn Hl) in Hr. exact (gset_numbers _ _ _ _ _ _ Hr I).
Qed.

(** *** Room for the components *)
Definition room (es : list export) (c : cont) : Prop := c <> None /\ forall e, In e es -> open_section (kind_key (e_kind e)) (c_data c).

Lemma spot_keep q' q0 j r v' : lookup q' r = Some v' -> (exists x, lookup q' j = Some x) \/ Forall (fun s => exists k, s = SKey k) q' ->
  (forall q, apart q' q -> lookup q r = lookup q j) -> ~ above q' q0 -> not_in_the_way (lookup q0 j) -> not_in_the_way (lookup q0 r).
Proof.
  intros Hr Hj Hf Na Hs. destruct (loc_cases q' q0) as [H|[(s & t & E)|H]]; [contradiction | | now rewrite (Hf q0 H)].
  subst q'. rewrite lookup_app in Hr. destruct (lookup q0 r) as [y|]; [|discriminate].
  assert (Ks : exists k, s = SKey k).
  { destruct Hj as [(x & Hj)|Hj]; [|apply Forall_app in Hj as [_ Hj]; exact (Forall_inv Hj)].
    rewrite lookup_app in Hj. destruct (lookup q0 j) as [z|]; [|discriminate]. destruct s as [k|i]; [eauto|]. destruct z; try discriminate. destruct Hs. }
  destruct Ks as (k & ->). cbn [lookup] in Hr. destruct y; try discriminate. exact Logic.I.
Qed.

Definition sections_of (es : list export) (q : loc) : Prop := exists e, In e es /\ (q = [] \/ q = [SKey "components"] \/ q = [SKey "components"; SKey (kind_key (e_kind e))]).
Lemma room_iff es c : room es c <-> c <> None /\ forall q, sections_of es q -> not_in_the_way (lookup q (c_data c)).
Proof.
  unfold room, sections_of, open_section. split; intros [N H]; (split; [exact N|]).
  - intros q (e & I & [->|[->| ->]]); apply (H e I).
  - intros e I. split; [apply (H []); eauto | split; apply H; eauto].
Qed.
Lemma comp_keys e : Forall (fun s => exists k, s = SKey k) (comp_of e).
Proof. unfold comp_of, comp_loc. repeat constructor; eauto. Qed.

(** Setting an exported entity. *)
Lemma set_entity_ok es e v v' c : room es c -> In e es -> good_name (e_name e) -> clone v = Ok v' ->
  exists c', set_entity (e_kind e) (e_name e) v c = Ok c' /\ room es c' /\ (forall q, apart (comp_of e) q -> lookup q (c_data c') = lookup q (c_data c)).
Proof.
  intros Hr I Hg Hc. pose proof Hr as Hr'. destruct Hr as [N H]. destruct c as [j|]; [|congruence]. cbn [c_data] in *.
  destruct (H e I) as (S0 & S1 & S2). cbn [c_data] in *. destruct Hg as (Hp & Hs & Hat & Hd).
  assert (Hedp : dot_path (entity_path (e_kind e) (e_name e)) = ["components"; kind_key (e_kind e); e_name e]) by (apply entity_dot_path; exact Hp).
  assert (A : addresses true ["components"; kind_key (e_kind e); e_name e] (denull j) (comp_of e)).
  { unfold comp_of, comp_loc.
    assert (Ej : exists m, denull j = JObj m /\ forall k, lookup [SKey k] j = oget k m).
    { destruct j as [| | | | |m]; try destruct S0; [exists []; split; [reflexivity|]; reflexivity|]. exists m. split; [reflexivity|]. intro k. cbn. destruct (oget k m); reflexivity. }
    destruct Ej as (m & -> & Lm). constructor. rewrite Lm in S1.
    assert (E1 : exists m1, match oget "components" m with None | Some JNull => JObj [] | Some c => c end = JObj m1 /\ lookup [SKey "components"; SKey (kind_key (e_kind e))] j = oget (kind_key (e_kind e)) m1).
    { change [SKey "components"; SKey (kind_key (e_kind e))] with ([SKey "components"] ++ [SKey (kind_key (e_kind e))]). rewrite lookup_app, Lm.
      destruct (oget "components" m) as [[| | | | |m1]|]; try destruct S1; [exists []; split; reflexivity | | exists []; split; reflexivity].
      exists m1. split; [reflexivity|]. cbn. destruct (oget (kind_key (e_kind e)) m1); reflexivity. }
    destruct E1 as (m1 & -> & L1). constructor. rewrite L1 in S2.
    destruct (oget (kind_key (e_kind e)) m1) as [[| | | | |m2]|]; try destruct S2; constructor; constructor. }
  rewrite <- Hedp in A. unfold set_entity. destruct (setp_spec (entity_path (e_kind e) (e_name e)) v v' j Hc) as [X _]. destruct (X (comp_of e) A) as (r & Er & L1 & L2 & _).
  exists (Some r). split; [exact Er|]. split; [|exact L2]. apply room_iff. split; [discriminate|]. intros q Hq. cbn [c_data].
  apply (spot_keep (comp_of e) q j r v' L1 (or_intror (comp_keys e)) L2).
  - intros [t E]. destruct Hq as (e' & _ & [->|[->| ->]]); destruct t; discriminate.
  - apply room_iff in Hr' as [_ Hr']. exact (Hr' q Hq).
Qed.

(** *** The loop *)
Section Ok.
  Context (ord : list nat -> list (string * json) -> list (string * json)) (es : list export) (fn : ptr -> res json) (Q : ptr -> Prop).
  Hypothesis Hord : forall pos l, Permutation (ord pos l) l.
  Hypothesis Hgood : Forall (fun e => good_name (e_name e)) es.
  Hypothesis Hfn : forall p, Q p -> no_err (fn p) (fun x => resolvable x /\ forall q t p', ext_ref x q t p' -> Q p').

  Definition clear (q : loc) : Prop := forall e, In e es -> apart (comp_of e) q.
  Definition kept_clear (c c' : cont) : Prop := forall q, clear q -> lookup q (c_data c') = lookup q (c_data c).

  (** What the loop keeps: [todo] are the entries still to come. *)
  Definition going (top : bool) (c0 : cont) (j0 : json) (todo : list (string * json)) (s : rstate) : Prop :=
    (if top then snd s = None else snd s <> None /\ kept_clear c0 (fst s)) /\ room es (fst s) /\
    exists j, st_cx s = Some j /\ (top = false -> ~ In NBad (numbers j)) /\
      forall key t p, In (key, JStr t) todo -> ptr_parse t = Ok p -> is_external p = true ->
        exists q, q <> [] /\ key = render (q ++ [REF]) /\ Forall seg_ok (q ++ [REF]) /\ lookup (q ++ [REF]) j0 = Some (JStr t) /\ lookup (q ++ [REF]) j = Some (JStr t) /\
          (top = true -> clear q).

  Lemma clear_sections q L q0 : clear q -> L = q \/ L = q ++ [REF] -> sections_of es q0 -> ~ above L q0.
  Proof.
    intros Hc HL (e & I & Hq) Ha. assert (Hq' : above q q0) by (destruct HL as [->| ->]; [exact Ha | destruct Ha as [r E]; exists (REF :: r); rewrite E, <- app_assoc; reflexivity]).
    apply (proj2 (Hc e I)). unfold comp_of, comp_loc. eapply above_trans; [exact Hq'|].
    destruct Hq as [->|[->| ->]]; eexists; reflexivity.
  Qed.

  (** One of the two writes at an entry. *)
  Lemma write_ok top c0 j0 key t p todo s q L v v' : lonely j0 -> NoDup (map fst ((key, JStr t) :: todo)) ->
    going top c0 j0 ((key, JStr t) :: todo) s -> ptr_parse t = Ok p -> is_external p = true ->
    q <> [] -> key = render (q ++ [REF]) -> Forall seg_ok (q ++ [REF]) -> lookup (q ++ [REF]) j0 = Some (JStr t) ->
    (exists j, st_cx s = Some j /\ lookup (q ++ [REF]) j = Some (JStr t)) -> (top = true -> clear q) ->
    L = q \/ L = q ++ [REF] -> clone v = Ok v' -> exists s', on_cx (c_setp (render L) v) s = Ok s' /\ going top c0 j0 todo s'.
  Proof.
    intros Hlo Hnd (G1 & G2 & j & Ej & G3 & G4) Pt Ex Nq Ek Sq L0 (j' & Ej' & Lj) Cl HL Hcl. assert (j' = j) by congruence. subst j'. clear Ej'.
    assert (NL : L <> []) by (destruct HL as [->| ->]; [exact Nq | destruct q; discriminate]).
    assert (SL : Forall seg_ok L) by (destruct HL as [->| ->]; [exact (proj1 (proj1 (Forall_app _ _ _) Sq)) | exact Sq]).
    assert (EL : exists x, lookup L j = Some x) by (destruct HL as [->| ->]; [exact (lookup_snoc_some _ _ _ _ Lj) | eauto]). destruct EL as (x & EL).
    destruct (set_there L v v' j x NL SL EL Hcl) as (r & Er & R1 & R2 & R3).
    assert (Bad : top = false -> ~ In NBad (numbers r)). { intros E B. destruct (R3 _ B) as [B'|B']; [exact (ConfigApi.clone_no_bad _ _ Hcl B') | exact (G3 E B')]. }
    assert (Rest : forall key' t' p', In (key', JStr t') todo -> ptr_parse t' = Ok p' -> is_external p' = true ->
        exists q', q' <> [] /\ key' = render (q' ++ [REF]) /\ Forall seg_ok (q' ++ [REF]) /\ lookup (q' ++ [REF]) j0 = Some (JStr t') /\ lookup (q' ++ [REF]) r = Some (JStr t') /\ (top = true -> clear q')).
    { intros key' t' p' I' Pt' Ex'. destruct (G4 key' t' p' (or_intror I') Pt' Ex') as (q' & A1 & A2 & A3 & A4 & A5 & A6). exists q'. repeat (split; [assumption|]). split; [|exact A6].
      assert (Nq' : q' <> q). { intros ->. cbn in Hnd. inversion Hnd as [|? ? N1 _]; subst. apply N1. apply (in_map fst) in I'. exact I'. }
      assert (Ap : apart q q').
      { split; intros [z Ez].
        - subst q'. assert (z = []) by (apply (Hlo q z t p t'); [repeat split; assumption | rewrite app_assoc; exact A4]). subst z. now rewrite app_nil_r in Nq'.
        - assert (z = []) by (apply (Hlo q' z t' p' t); [repeat split; assumption | rewrite app_assoc, <- Ez; exact L0]). subst z. rewrite app_nil_r in Ez. congruence. }
      rewrite R2; [exact A5|]. destruct HL as [->| ->]; [now apply apart_snoc | apply apart_sym, apart_snoc, apart_sym, apart_snoc, Ap]. }
    unfold on_cx. unfold st_cx in Ej. destruct (snd s) as [c|] eqn:Es.
    - subst c. rewrite Er. cbn [bind]. eexists. split; [reflexivity|]. unfold going. cbn [fst snd]. split; [destruct top; [discriminate | split; [discriminate | exact (proj2 G1)]]|].
      split; [exact G2|]. exists r. split; [reflexivity|]. split; [exact Bad | exact Rest].
    - rewrite Ej in *. rewrite Er. cbn [bind]. eexists. split; [reflexivity|]. destruct top; [|destruct G1; congruence]. unfold going. cbn [fst snd]. split; [reflexivity|].
      split; [|exists r; split; [reflexivity|]; split; [exact Bad | exact Rest]]. apply room_iff. split; [discriminate|]. intros q0 Hq0. cbn [c_data].
      apply (spot_keep L q0 j r v' R1 (or_introl (ex_intro _ _ EL)) R2); [exact (clear_sections q L q0 (Cl eq_refl) HL Hq0)|]. apply room_iff in G2 as [_ G2]. exact (G2 q0 Hq0).
  Qed.

  Lemma update_is q f c : Forall seg_ok (q ++ [REF]) -> update_ptr_local (render (q ++ [REF])) f c = c_setp (render (q ++ [REF])) (JStr (ptr_string {| p_url := p_url new_pointer; p_frag := f |})) c.
  Proof. intro H. unfold update_ptr_local, update_ptr. now rewrite (isref_render q H). Qed.
  Lemma replace_is q v c : Forall seg_ok (q ++ [REF]) -> replace_ptr (render (q ++ [REF])) v c = c_setp (render q) v c.
  Proof. intro H. unfold replace_ptr. now rewrite (isref_render q H). Qed.
  Lemma on_cx_ext f g s : (forall c, f c = g c) -> on_cx f s = on_cx g s.
  Proof. intro H. unfold on_cx. destruct (snd s); now rewrite H. Qed.

  Definition fine (top : bool) (s : rstate) : Prop :=
    (if top then snd s = None else snd s <> None) /\ room es (fst s) /\
    exists j, st_cx s = Some j /\ resolvable j /\ (forall q t p, ext_ref j q t p -> Q p) /\ (top = true -> forall q t p, ext_ref j q t p -> clear q).
  Definition after (top : bool) (s s' : rstate) : Prop :=
    st_cx s' <> None /\ (top = false -> snd s' <> None /\ room es (fst s') /\ kept_clear (fst s) (fst s') /\ exists j, st_cx s' = Some j /\ ~ In NBad (numbers j)).

  Lemma clone_resolvable x y : resolvable x -> clone x = Ok y -> resolvable y.
  Proof.
    intros (Sh & Nb & Ti & Lo & Pa) Hc. split.
    { destruct Sh as [(m & ->)|(l & ->)]; [left|right].
      - rewrite clone_obj_eq in Hc. apply bind_ok in Hc as (m' & _ & E). injection E as <-. eauto.
      - rewrite clone_arr_eq in Hc. apply bind_ok in Hc as (l' & _ & E). injection E as <-. eauto. }
    split; [exact (ConfigApi.clone_no_bad _ _ Hc)|]. split; [exact (clone_tidy _ _ Ti Hc)|]. split; [exact (clone_lonely _ _ Lo Hc)|].
    intros q t L. apply (Pa q t). now apply (clone_lookup_str _ _ _ _ Hc).
  Qed.

  Theorem iter_no_err : forall fuel pos pp top s, fine top s -> no_err (iterator ord es fn fuel pos pp s) (after top s).
  Proof.
    induction fuel as [|f IH]; intros pos pp top s Hf; [exact Logic.I|].
    destruct Hf as (F1 & F2 & j0 & Ej0 & (Sh & Nb & Ti & Lo & Pa) & F3 & F4). rewrite iterator_S, Ej0.
    destruct (extract_key (ord pos) "$ref" (Some j0)) as [refs| | |] eqn:He; cbn [bind]; try exact Logic.I.
    2: { unfold extract_key, c_flatten in He. cbn [c_data] in He. destruct Sh as [(m & ->)|(l & ->)]; discriminate. }
    destruct (extract_refs (ord pos) j0 refs (Hord pos) (proj1 Ti) (proj1 (proj2 Ti)) He) as (Hnd & Hre & _).
    assert (G0 : going top (fst s) j0 refs s).
    { split; [destruct top; [exact F1 | split; [exact F1 | intros q _; reflexivity]]|]. split; [exact F2|]. exists j0. split; [exact Ej0|]. split; [intros _; exact Nb|].
      intros key t p I Pt Ex. rewrite Forall_forall in Hre. destruct (Hre _ I) as (q & Eq & Lq & Sq). cbn [fst snd] in *.
      assert (X : ext_ref j0 q t p) by (repeat split; assumption). exists q. split; [intros ->; exact (proj2 (proj2 Ti) _ _ X)|]. repeat (split; [assumption|]). intro Et. exact (F4 Et q t p X). }
    assert (Hpar : forall key t, In (key, JStr t) refs -> exists p, ptr_parse t = Ok p).
    { intros key t I. rewrite Forall_forall in Hre. destruct (Hre _ I) as (q & _ & Lq & _). exact (Pa q t Lq). }
    assert (HQ : forall key t p, In (key, JStr t) refs -> ptr_parse t = Ok p -> is_external p = true -> Q p).
    { intros key t p I Pt Ex. rewrite Forall_forall in Hre. destruct (Hre _ I) as (q & _ & Lq & _). apply (F3 q t p). repeat split; assumption. }
    assert (Loop : forall todo i s1, NoDup (map fst todo) -> incl todo refs -> going top (fst s) j0 todo s1 -> no_err (rloop (rstep ord es fn f pos pp) i todo s1) (after top s)).
    { clear G0 Hre Hnd He. induction todo as [|[key v] todo IHl]; intros i s1 Nd Inc G.
      - cbn. destruct G as (G1 & G2 & j & Ej & G3 & _). split; [congruence|]. intros ->. cbn in G1. split; [exact (proj1 G1)|]. split; [exact G2|]. split; [exact (proj2 G1)|]. exists j. auto.
      - cbn [rloop]. assert (Nd' : NoDup (map fst todo)) by (cbn in Nd; inversion Nd; assumption). assert (Inc' : incl todo refs) by (intros z Z; apply Inc; now right).
        assert (Weak : going top (fst s) j0 todo s1).
        { destruct G as (G1 & G2 & j & Ej & G3 & G4). split; [exact G1|]. split; [exact G2|]. exists j. split; [exact Ej|]. split; [exact G3|]. intros k t p I. apply G4. now right. }
        apply (no_err_bind _ _ (going top (fst s) j0 todo)); [|intros s2 _ G2; exact (IHl (S i) s2 Nd' Inc' G2)]. clear IHl Inc'.
        unfold rstep. destruct v as [| | |t| |]; try exact Weak.
        destruct (Hpar key t (Inc _ (or_introl eq_refl))) as (p & Pt). rewrite Pt. cbn [bind]. destruct (is_external p) eqn:Ex; cbn [negb]; [|exact Weak].
        pose proof (HQ key t p (Inc _ (or_introl eq_refl)) Pt Ex) as Qp. clear Weak.
        pose proof G as G'. destruct G' as (G1 & G2 & j & Ej & G3 & G4). destruct (G4 key t p (or_introl eq_refl) Pt Ex) as (q & Nq & -> & Sq & Lq0 & Lq & Cq).
        assert (W : forall s2 L v v', going top (fst s) j0 ((render (q ++ [REF]), JStr t) :: todo) s2 -> (exists j2, st_cx s2 = Some j2 /\ lookup (q ++ [REF]) j2 = Some (JStr t)) -> L = q \/ L = q ++ [REF] -> clone v = Ok v' ->
                    exists s', on_cx (c_setp (render L) v) s2 = Ok s' /\ going top (fst s) j0 todo s').
        { intros s2 L v v' Gs Lj HL Hcl. exact (write_ok top (fst s) j0 _ t p todo s2 q L v v' Lo Nd Gs Pt Ex Nq eq_refl Sq Lq0 Lj Cq HL Hcl). }
        assert (Up : forall s2 fr, going top (fst s) j0 ((render (q ++ [REF]), JStr t) :: todo) s2 -> (exists j2, st_cx s2 = Some j2 /\ lookup (q ++ [REF]) j2 = Some (JStr t)) ->
                    no_err (on_cx (update_ptr_local (render (q ++ [REF])) fr) s2) (going top (fst s) j0 todo)).
        { intros s2 fr Gs Lj. rewrite (on_cx_ext _ _ s2 (fun c => update_is q fr c Sq)). edestruct W as (s' & -> & X); [exact Gs | exact Lj | right; reflexivity | reflexivity | exact X]. }
        assert (Re : forall s2 v v', going top (fst s) j0 ((render (q ++ [REF]), JStr t) :: todo) s2 -> (exists j2, st_cx s2 = Some j2 /\ lookup (q ++ [REF]) j2 = Some (JStr t)) -> clone v = Ok v' ->
                    no_err (on_cx (replace_ptr (render (q ++ [REF])) v) s2) (going top (fst s) j0 todo)).
        { intros s2 v v' Gs Lj Hcl. rewrite (on_cx_ext _ _ s2 (fun c => replace_is q v c Sq)). edestruct W as (s' & -> & X); [exact Gs | exact Lj | left; reflexivity | exact Hcl | exact X]. }
        destruct (path_has pp p).
        + unfold r_set_recursive. destruct (exports_get es p) as [e|]; [destruct (is_scheme e)|].
          * apply Up; [exact G | eauto].
          * exact (Re s1 (JObj []) (JObj []) G (ex_intro _ j (conj Ej Lq)) eq_refl).
          * exact (Re s1 (JObj []) (JObj []) G (ex_intro _ j (conj Ej Lq)) eq_refl).
        + apply (no_err_bind _ _ _ _ (Hfn p Qp)). intros x Ex0 (Rx & Qx).
          destruct (clone_cases x) as [[y Ey]|Ey]; [|exfalso; apply (proj1 (proj2 Rx)); now apply clone_fails].
          unfold c_make. rewrite Ey. cbn [bind].
          assert (Fn : fine false (fst s1, Some (Some y))).
          { split; [discriminate|]. split; [exact G2|]. exists y. split; [reflexivity|]. split; [exact (clone_resolvable _ _ Rx Ey)|]. split; [|discriminate]. intros q' t' p' E'. apply (Qx q' t' p'). now apply (clone_ext _ _ _ _ _ Ey). }
          apply (no_err_bind _ _ _ _ (IH (pos ++ [i]) (pp ++ [p]) false _ Fn)). intros r _ [_ Ar]. destruct (Ar eq_refl) as (_ & R2 & R3 & jr & Ejr & Nbr). cbn [fst] in R3.
          rewrite Ejr. cbn [c_data].
          destruct (clone_cases jr) as [[vr Evr]|Evr]; [|exfalso; apply Nbr; now apply clone_fails].
          (* the state after the nested call *)
          assert (Move : forall c2, room es c2 -> kept_clear (fst s1) c2 -> going top (fst s) j0 ((render (q ++ [REF]), JStr t) :: todo) (c2, snd s1) /\ exists j2, st_cx (c2, snd s1) = Some j2 /\ lookup (q ++ [REF]) j2 = Some (JStr t)).
          { intros c2 Rc Kc. unfold going, st_cx in *. cbn [fst snd]. destruct (snd s1) as [cx|] eqn:Es1.
            - split; [|eauto]. split; [destruct top; [discriminate | split; [discriminate|]]; intros q1 H1; rewrite (Kc q1 H1); exact (proj2 G1 q1 H1)|]. split; [exact Rc|]. exists j. auto.
            - destruct top; [|destruct G1; congruence]. destruct c2 as [j2|]; [|destruct Rc; congruence].
              assert (Keep : forall q1 z, clear q1 -> lookup (q1 ++ [REF]) j = Some z -> lookup (q1 ++ [REF]) j2 = Some z).
              { intros q1 z H1 H2. change j2 with (c_data (Some j2)). rewrite (Kc (q1 ++ [REF])); [rewrite Ej; exact H2|]. intros e Ie. apply apart_snoc. exact (H1 e Ie). }
              split; [|exists j2; split; [reflexivity | exact (Keep q _ (Cq eq_refl) Lq)]]. split; [reflexivity|]. split; [exact Rc|]. exists j2. split; [reflexivity|]. split; [discriminate|].
              intros key t0 p0 I0 P0 X0. destruct (G4 key t0 p0 I0 P0 X0) as (q1 & B1 & B2 & B3 & B4 & B5 & B6). exists q1. repeat (split; [assumption|]). split; [exact (Keep q1 _ (B6 eq_refl) B5) | exact B6]. }
          unfold r_set. destruct (exports_get es p) as [e|] eqn:Ee.
          * assert (Ie : In e es) by exact (proj1 (exports_get_in _ _ _ Ee)).
            assert (Ge : good_name (e_name e)) by (rewrite Forall_forall in Hgood; exact (Hgood e Ie)).
            destruct (set_entity_ok es e jr vr (fst r) R2 Ie Ge Evr) as (c2 & Ec2 & Rc2 & Kc2). unfold on_root. cbn [fst snd]. rewrite Ec2. cbn [bind].
            destruct (Move c2 Rc2) as (M1 & M2). { intros q1 H1. rewrite (Kc2 q1 (H1 e Ie)). exact (R3 q1 H1). }
            apply Up; assumption.
          * destruct (Move (fst r) R2 R3) as (M1 & M2). exact (Re _ jr vr M1 M2 Evr). }
    exact (Loop refs 0 s Hnd (fun z Z => Z) G0).
  Qed.
End Ok.

(** Resolve never returns an error then. *)
Theorem resolve_no_err ord es fn fuel doc : (forall pos l, Permutation (ord pos l) l) -> Forall (fun e => good_name (e_name e)) es ->
  forall Q : ptr -> Prop, (forall p, Q p -> no_err (fn p) (fun x => resolvable x /\ forall q t p', ext_ref x q t p' -> Q p')) ->
  resolvable doc -> (forall q t p, ext_ref doc q t p -> Q p /\ forall e, In e es -> apart (comp_of e) q) ->
  (forall e, In e es -> open_section (kind_key (e_kind e)) doc) -> no_err (resolve ord es fn fuel (Some doc)) (fun c => c <> None).
Proof.
  intros Ho Hg Q Hfn Hd Hq Hop. unfold resolve. destruct (clone_cases doc) as [[y Ey]|Ey]; [|exfalso; apply (proj1 (proj2 Hd)); now apply clone_fails].
  assert (Ec : c_clone (Some doc) = Some y) by (unfold c_clone; cbn [c_data]; now rewrite Ey). rewrite Ec.
  apply (no_err_bind _ _ (after es true (Some y, None))); [|intros v _ [Nv _]; exact Nv]. apply (iter_no_err ord es fn Q Ho Hg Hfn).
  split; [reflexivity|]. split.
  - split; [discriminate|]. intros e Ie. cbn [fst c_data]. destruct (Hop e Ie) as (S0 & S1 & S2).
    assert (K : forall q, not_in_the_way (lookup q doc) -> not_in_the_way (lookup q y)).
    { intros q H. pose proof (clone_lookup q _ _ Ey) as X. destruct (lookup q y) as [z|]; [|exact Logic.I]. destruct (lookup q doc) as [w|]; [|destruct X].
      destruct w; try destruct H; [cbn in X; injection X as <-; exact Logic.I|]. rewrite clone_obj_eq in X. apply bind_ok in X as (m' & _ & X). injection X as <-. exact Logic.I. }
    split; [exact (K [] S0)|]. split; [exact (K _ S1) | exact (K _ S2)].
  - exists y. split; [reflexivity|]. split; [exact (clone_resolvable _ _ Hd Ey)|].
    split; [intros q t p E | intros _ q t p E]; apply (clone_ext _ _ _ _ _ Ey) in E; [exact (proj1 (Hq q t p E)) | exact (proj2 (Hq q t p E))].
Qed.
