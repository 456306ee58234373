(** The components do not depend on the order of maps when cycles through
    exported entities are all exported (proofs). *)
From Coq Require Import String Ascii List Bool Arith ZArith Lia Permutation.
From Verif Require Import GoStr GoStrFacts Json JsonFacts Gabs GabsFacts Container MergeFacts ScanRefs
  Spec_Loc LocFacts SetFacts CloneFacts Url Pointer FragFacts PtrFacts Resolver Spec_Resolve Spec_ResolveOk ResolverFacts ResolverTerm ResolverFrame ResolverLocal ResolverExpand ResolverExpandX ResolverAt P_At ScanSame ResolverReach Spec_Reach.
Import ListNotations.
Local Open Scope string_scope.
Local Open Scope nat_scope.
Local Open Scope list_scope.

Lemma fillx_two f g j : wf j -> (forall q m t p w1 w2, lookup q j = Some (JObj m) -> oget "$ref" m = Some (JStr t) -> ptr_parse t = Ok p -> is_external p = true -> f m p = Ok w1 -> g m p = Ok w2 -> w1 = w2) ->
  forall r1 r2, fillx f j = Ok r1 -> fillx g j = Ok r2 -> r1 = r2.
Proof.
  induction j as [| | | |l IH|m IH] using json_induction; intros Hw Hfg r1 r2 H1 H2; try (injection H1 as <-; injection H2 as <-; reflexivity).
  - rewrite fillx_arr in *. apply bind_ok in H1 as (l1 & H1 & E). injection E as <-. apply bind_ok in H2 as (l2 & H2 & E). injection E as <-. apply fillx_list_ok in H1, H2. f_equal.
    assert (G : forall x, In x l -> forall y1 y2, fillx f x = Ok y1 -> fillx g x = Ok y2 -> y1 = y2).
    { intros x Hx. apply In_nth_error in Hx as [i Hi]. rewrite Forall_forall in IH. apply IH; [eapply nth_error_In, Hi | eapply wf_nth; eassumption|].
      intros q m t p w1 w2 L. apply (Hfg (SIdx i :: q)). cbn [lookup]. now rewrite Hi. }
    clear -G H1 H2. revert l2 H2. induction H1 as [|x y l l1 E _ IHl]; intros l2 H2; inversion H2 as [|? y2 ? l2' E2 H2']; subst; [reflexivity|]. f_equal; [apply (G x); [now left | exact E | exact E2] | apply IHl; [intros z Hz; apply G; now right | exact H2']].
  - rewrite fillx_obj in *. apply bind_ok in H1 as (o & Ho & H1). rewrite Ho in H2. cbn [bind] in H2. destruct o as [p|].
    + pose proof (target_spec _ _ Ho) as (t & L & Hp & Hx). cbn [app lookup] in L. apply (Hfg [] m t p); auto. destruct (oget "$ref" m); [|discriminate]. congruence.
    + apply bind_ok in H1 as (m1 & H1 & E). injection E as <-. apply bind_ok in H2 as (m2 & H2 & E). injection E as <-. apply fillx_map_ok in H1, H2. f_equal.
      assert (G : forall kx, In kx m -> forall y1 y2, fillx f (snd kx) = Ok y1 -> fillx g (snd kx) = Ok y2 -> y1 = y2).
      { intros [k x] Hx. pose proof (sorted_in_oget _ _ _ (wf_sorted _ Hw) Hx) as E. rewrite Forall_forall in IH. apply (IH (k, x) Hx); [exact (wf_oget _ _ _ Hw E)|].
        intros q m0 t p w1 w2 L. apply (Hfg (SKey k :: q)). cbn [lookup]. now rewrite E. }
      clear -G H1 H2. revert m2 H2. induction H1 as [|x y l l1 [Ek E] _ IHl]; intros l2 H2; inversion H2 as [|? y2 ? l2' [Ek2 E2] H2']; subst; [reflexivity|]. f_equal; [|apply IHl; [intros z Hz; apply G; now right | exact H2']].
      destruct y as [k1 v1], y2 as [k2 v2]. cbn [fst snd] in *. f_equal; [congruence|]. apply (G x); [now left | exact E | exact E2].
Qed.
Lemma asked_trans x fn p y q : asked x fn p -> fn p = Ok y -> asked y fn q -> asked x fn q.
Proof. intros A F. induction 1 as [q0 t p0 E|p1 z q0 t p2 _ IH Hz E]; [eapply asked_by_entity; eassumption | eapply asked_by_entity; [exact IH | exact Hz | exact E]]. Qed.
Lemma asked_clone x y fn q : clone x = Ok y -> asked y fn q <-> asked x fn q.
Proof.
  intro H. split; (induction 1 as [q0 t p0 E|p1 z q0 t p2 _ IH Hz E]; [econstructor; apply (clone_ext _ _ _ _ _ H); exact E | eapply asked_by_entity; [exact IH | exact Hz | exact E]]).
Qed.
Lemma path_has_app pp p q : path_has (pp ++ [p]) q = path_has pp q || String.eqb (ptr_string p) (ptr_string q).
Proof. unfold path_has. rewrite existsb_app. cbn [existsb]. now rewrite orb_false_r. Qed.

Section Same.
  Context (es : list export) (fn : ptr -> res json) (Hf : sane_fn fn) (Hk : forall e, In e es -> e_kind e = KSchema).
  Lemma expandx_same n1 : forall n2 a b y v1 v2, wf y -> (forall q, asked y fn q -> expo es q = None -> path_has a q = path_has b q) ->
    expandx n1 (expo es) fn clone a y = Ok v1 -> expandx n2 (expo es) fn clone b y = Ok v2 -> v1 = v2.
  Proof.
    induction n1 as [|n1 IH]; intros n2 a b y v1 v2 W Hab H1 H2; [discriminate|]. destruct n2 as [|n2]; [discriminate|]. rewrite expandx_S in H1, H2.
    refine (fillx_two _ _ y W _ v1 v2 H1 H2). intros q m t p w1 w2 L Er Ep Ex V1 V2. unfold valx in V1, V2.
    assert (E : ext_ref y q t p). { split; [|auto]. rewrite lookup_app, L. cbn [lookup]. now rewrite Er. }
    destruct (expo es p) as [[sec name]|] eqn:Ee.
    - assert (sec = "schemas") as ->. { unfold expo in Ee. destruct (exports_get es p) as [e|] eqn:Eg; [|discriminate]. apply exports_get_in in Eg as (I & _). rewrite (Hk e I) in Ee. injection Ee as <- _. reflexivity. }
      assert (G : forall n pp w, (if path_has pp p then Ok (if String.eqb "schemas" "schemas" then JObj (oset "$ref" (JStr (local_text "schemas" name)) m) else JObj [])
        else do x <- fn p ; do y0 <- clone x ; do z <- expandx n (expo es) fn clone (pp ++ [p]) y0 ; Ok (JObj (oset "$ref" (JStr (local_text "schemas" name)) m))) = Ok w -> w = JObj (oset "$ref" (JStr (local_text "schemas" name)) m)).
      { intros n pp w X. destruct (path_has pp p); [rewrite String.eqb_refl in X; congruence|]. apply bind_ok in X as (? & _ & X). apply bind_ok in X as (? & _ & X). apply bind_ok in X as (? & _ & X). congruence. }
      rewrite (G _ _ _ V1), (G _ _ _ V2). reflexivity.
    - rewrite (Hab p) in V1; [|econstructor; exact E | exact Ee]. destruct (path_has b p); [congruence|].
      apply bind_ok in V1 as (x & F1 & V1). apply bind_ok in V1 as (y1 & C1 & V1). rewrite F1 in V2. cbn [bind] in V2. rewrite C1 in V2. cbn [bind] in V2.
      refine (IH n2 (a ++ [p]) (b ++ [p]) y1 w1 w2 _ _ V1 V2); [exact (clone_wf _ _ (proj1 (proj1 (Hf _ _ F1))) C1)|].
      intros q0 Aq Nq. rewrite !path_has_app. f_equal. apply Hab; [|exact Nq]. eapply asked_trans; [econstructor; exact E | exact F1 | now apply (asked_clone _ _ _ _ C1)].
  Qed.
  Context (doc : json).
  Lemma chain_leads_on l1 q l2 p z : chain doc fn (l1 ++ q :: l2 ++ [p]) z -> leads_on fn q p.
  Proof.
    intro C. revert p z C. induction l2 as [|p2 l2 IH] using rev_ind; intros p z C.
    - change (q :: [] ++ [p]) with ([q] ++ [p]) in C. rewrite app_assoc in C. apply chain_snoc in C as (x & q0 & t & C & E & _). apply chain_snoc in C as (_ & _ & _ & _ & _ & _ & F). exists x. split; [exact F | econstructor; exact E].
    - change (q :: (l2 ++ [p2]) ++ [p]) with ((q :: l2 ++ [p2]) ++ [p]) in C. rewrite app_assoc in C. apply chain_snoc in C as (x & q0 & t & C & E & _). destruct (IH p2 x C) as (y & F & A). exists y. split; [exact F|].
      change (q :: l2 ++ [p2]) with ((q :: l2) ++ [p2]) in C. rewrite app_assoc in C. apply chain_snoc in C as (_ & _ & _ & _ & _ & _ & F2). eapply asked_by_entity; [exact A | exact F2 | exact E].
  Qed.
  Hypothesis Hcy : cycles_exported doc fn (expo es).
  Hypothesis Hone : one_entity doc fn (expo es).
  (** The component of an exported entity, along two chains. *)
  Lemma component_same pp1 p1 x1 y1 n1 v1 pp2 p2 x2 y2 n2 v2 s : chain doc fn (pp1 ++ [p1]) x1 -> chain doc fn (pp2 ++ [p2]) x2 -> expo es p1 = Some s -> expo es p2 = Some s ->
    clone x1 = Ok y1 -> clone x2 = Ok y2 -> expandx n1 (expo es) fn clone (pp1 ++ [p1]) y1 = Ok v1 -> expandx n2 (expo es) fn clone (pp2 ++ [p2]) y2 = Ok v2 -> v1 = v2.
  Proof.
    intros C1 C2 E1 E2 Y1 Y2 V1 V2.
    assert (F1 : fn p1 = Ok x1) by (apply chain_snoc in C1; destruct C1 as (_ & _ & _ & _ & _ & _ & F); exact F). assert (F2 : fn p2 = Ok x2) by (apply chain_snoc in C2; destruct C2 as (_ & _ & _ & _ & _ & _ & F); exact F).
    assert (A1 : asked doc fn p1) by (apply (chain_asked _ _ _ _ C1); apply in_or_app; right; now left). assert (A2 : asked doc fn p2) by (apply (chain_asked _ _ _ _ C2); apply in_or_app; right; now left).
    assert (x1 = x2) as <- by (exact (Hone p1 p2 x1 x2 s A1 A2 E1 E2 F1 F2)). assert (y1 = y2) as <- by congruence.
    assert (G : forall pp p, chain doc fn (pp ++ [p]) x1 -> expo es p = Some s -> fn p = Ok x1 -> asked doc fn p -> forall q, asked y1 fn q -> expo es q = None -> path_has (pp ++ [p]) q = false).
    { intros pp p C E F A q Aq Nq. destruct (path_has (pp ++ [p]) q) eqn:Eh; [|reflexivity]. exfalso. apply existsb_exists in Eh as (q' & I & Et). apply String.eqb_eq in Et. apply in_app_iff in I as [I|[<-|[]]].
      - apply in_split in I as (l1 & l2 & ->). rewrite <- app_assoc in C. cbn [app] in C. pose proof (chain_leads_on _ _ _ _ _ C) as L. refine (Hcy p q q' p A _ _ Et L eq_refl Nq); [congruence|]. exists x1. split; [exact F|]. now apply (asked_clone _ _ _ _ Y1).
      - unfold expo, exports_get in E, Nq. rewrite Et in E. destruct (find _ es); [discriminate Nq | discriminate E]. }
    refine (expandx_same n1 n2 _ _ y1 v1 v2 (clone_wf _ _ (proj1 (proj1 (Hf _ _ F1))) Y1) _ V1 V2). intros q Aq Nq. now rewrite (G pp1 p1), (G pp2 p2).
  Qed.
End Same.

(** ** The whole document *)
(** Away from the references and from the exported entities which are reached,
    nothing is touched. *)
Theorem resolve_untouched ord es fn fuel doc r L : (forall pos l, Permutation (ord pos l) l) -> sane_fn fn -> sane doc ->
  Forall (fun e => good_name (e_name e)) es -> resolve ord es fn fuel (Some doc) = Ok r ->
  (forall e q0 t p, In e es -> ext_ref doc q0 t p -> Spec_Loc.apart (comp_of e) q0) -> L <> [] ->
  (forall q0 t0 p0, ext_ref doc q0 t0 p0 -> Spec_Loc.apart q0 L) ->
  (forall pp p e z, chain doc fn (pp ++ [p]) z -> exports_get es p = Some e -> Spec_Loc.apart (comp_of e) L) ->
  exists doc', clone doc = Ok doc' /\ lookup L (c_data r) = lookup L doc'.
Proof.
  intros Ho Hf Hd Hg H Hx NL HL Hno. apply resolve_inv in H as (doc' & f & refs & -> & Hc & He & s' & Hl & ->). exists doc'. split; [exact Hc|].
  destruct (clone_sane _ _ Hd Hc) as [T1 _]. destruct (extract_refs (ord []) doc' refs (Ho []) (proj1 T1) (proj1 (proj2 T1)) He) as (_ & Hre & _).
  set (E := excluded doc' es). set (R := fun c => shape E doc' (c_data c) /\ lookup L (c_data c) = lookup L doc').
  assert (Ref : forall q0 t0 p0, ext_ref doc' q0 t0 p0 -> Spec_Loc.apart q0 L /\ E q0 = true /\ forall e, In e es -> Spec_Loc.apart (comp_of e) q0).
  { intros q0 t0 p0 X. assert (X' : ext_ref doc q0 t0 p0) by (now apply (clone_ext _ _ _ _ _ Hc)). split; [exact (HL _ _ _ X')|]. split; [|intros e Ie; exact (Hx e q0 t0 p0 Ie X')]. unfold E, excluded. assert (ext_at doc' q0 = true) as -> by (apply ext_at_spec; eauto). reflexivity. }
  assert (Addr : forall q0 t0 p0 path c q1, ext_ref doc' q0 t0 p0 -> Forall seg_ok (q0 ++ [REF]) -> (path = render (q0 ++ [REF]) \/ isref (render (q0 ++ [REF])) = Some path) -> shape E doc' (c_data c) ->
    addresses true (dot_path path) (denull (c_data c)) q1 -> (exists e0, E e0 = true /\ above e0 q1) /\ Spec_Loc.apart q1 L).
  { intros q0 t0 p0 path c q1 X So0 Hp Sh A. destruct (Ref _ _ _ X) as (Ap & Eq & Cm). assert (N0 : q0 <> []) by (intros ->; exact (proj2 (proj2 T1) _ _ X)).
    destruct (ref_address E doc' c path q0 _ _ q1 eq_refl (proj1 X) So0 N0 Hp Sh A) as [(-> & _)|[(-> & _)|(e0 & B1 & B2 & B3)]].
    - split; [exists q0; split; [exact Eq | now exists [REF]]|]. eapply ResolverFrame.apart_below; [exact Ap | now exists [REF]].
    - split; [exists q0; split; [exact Eq | exists []; now rewrite app_nil_r] | exact Ap].
    - split; [eauto|]. pose proof B1 as B1'. unfold E, excluded in B1. apply orb_true_iff in B1 as [B1|B1].
      + apply ext_at_spec in B1 as (t1 & p1 & B1). eapply ResolverFrame.apart_below; [exact (proj1 (Ref _ _ _ B1)) | exact B3].
      + exfalso. apply existsb_exists in B1 as (e & Ie & B1). destruct (loc_dec (comp_of e) e0) as [<-|]; [|discriminate]. pose proof (Cm e Ie) as (C1 & C2). apply above_snoc in B2 as [B2|B2]; [exact (C1 B2)|]. apply C2. rewrite B2. now exists [REF]. }
  assert (Keep : forall path val c c', c_setp path val c = Ok c' -> (forall q1, addresses true (dot_path path) (denull (c_data c)) q1 -> (exists e0, E e0 = true /\ above e0 q1) /\ Spec_Loc.apart q1 L) -> R c -> R c').
  { intros path val c c' Hset A (Sh & Hk). split; [|rewrite (setp_apart _ _ _ _ L L Hset NL); [exact Hk | intros q1 X; now apply A | reflexivity]].
    apply setp_inv in Hset as (j & v' & r0 & q1 & -> & -> & _ & _ & Aq & Hr0). cbn [c_data] in *. destruct (A _ Aq) as ((e0 & X & Y) & _). eapply gset_shape; [apply shape_denull, Sh | exact Aq | exact Hr0 | exact X | exact Y]. }
  destruct (top_loop_at ord Ho doc es Hg fn R) with (P := fun _ : loc => True) (f := f) (j0 := doc') (refs := refs) (i := 0) (rt := Some doc') (s' := s') as ((_ & G) & N); auto.
  - intros e v c c' I (pp & p' & x' & y' & A1 & A2 & A3 & (_ & _ & A4)) Rc Hs. rewrite Forall_forall in Hg. pose proof (Hg e I) as Gn. destruct (A4 Hf Hd) as (C & _).
    apply (Keep _ _ _ _ Hs); [|exact Rc]. intros q1 Ha. rewrite entity_dot_path in Ha by apply Gn. apply address_comp in Ha as ->; [|exact Gn]. split; [|exact (Hno _ _ _ _ C A1)]. exists (comp_of e). split; [now apply excluded_comp | exists []; now rewrite app_nil_r].
  - intros q0 t p0 val c c' _ X So0 Rc Hset. apply (replace_set q0 val c c' So0) in Hset as (path & Ip & Hset). apply (Keep _ _ _ _ Hset); [|exact Rc]. intros q1 A. exact (Addr q0 t p0 path c q1 X So0 (or_intror Ip) (proj1 Rc) A).
  - intros q0 t p0 fr c c' _ X So0 Rc Hset. apply (update_set q0 fr c c' So0) in Hset. apply (Keep _ _ _ _ Hset); [|exact Rc]. intros q1 A. exact (Addr q0 t p0 _ c q1 X So0 (or_introl eq_refl) (proj1 Rc) A).
  - eapply Forall_impl; [|exact Hre]. intros kv (q0 & A & B & D). exists q0. auto.
  - split; [apply shape_refl | reflexivity].
  - unfold st_cx. rewrite N. exact G.
Qed.
Definition num_dec (x y : num) : {x = y} + {x <> y}.
Proof. decide equality; solve [apply Z.eq_dec | apply string_dec | apply Pos.eq_dec | apply Nat.eq_dec]. Defined.
Fixpoint json_dec (x y : json) : {x = y} + {x <> y}.
Proof.
  destruct x as [|b|n|s|l|m], y as [|b'|n'|s'|l'|m']; try (right; discriminate).
  - now left.
  - destruct (bool_dec b b') as [->|N]; [now left | right; congruence].
  - destruct (num_dec n n') as [->|N]; [now left | right; congruence].
  - destruct (string_dec s s') as [->|N]; [now left | right; congruence].
  - destruct (list_eq_dec json_dec l l') as [->|N]; [now left | right; congruence].
  - assert (D : forall a b : string * json, {a = b} + {a <> b}). { intros [k a] [k' b]. destruct (string_dec k k') as [->|N]; [|right; congruence]. destruct (json_dec a b) as [->|N]; [now left | right; congruence]. }
    destruct (list_eq_dec D m m') as [->|N]; [now left | right; congruence].
Defined.
Lemma lookup_eq_dec (x y : option json) : {x = y} + {x <> y}.
Proof. decide equality. apply json_dec. Qed.

(** A document without external references is kept. *)
Lemma resolve_none ord es fn fuel doc r : (forall pos l, Permutation (ord pos l) l) -> sane doc -> no_ext doc -> resolve ord es fn fuel (Some doc) = Ok r -> exists doc', clone doc = Ok doc' /\ r = Some doc'.
Proof.
  intros Ho Hd Nx H. apply resolve_inv in H as (doc' & f & refs & -> & Hc & He & s' & Hl & ->). exists doc'. split; [exact Hc|]. destruct (clone_sane _ _ Hd Hc) as [T1 _].
  destruct (extract_refs (ord []) doc' refs (Ho []) (proj1 T1) (proj1 (proj2 T1)) He) as (_ & Hre & _). enough (s' = (Some doc', None)) as -> by reflexivity. clear He.
  revert Hl. generalize 0 as i. induction Hre as [|[key v] refs' (q & E1 & L1 & _) Hre IH]; intros i H; cbn [rloop] in H; [now injection H as <-|]. apply bind_ok in H as (s1 & Hs & H). cbn [fst snd] in *.
  assert (s1 = (Some doc', None)) as ->; [|exact (IH _ H)]. unfold rstep in Hs. destruct v as [| | |t| |]; try (now injection Hs as <-). apply bind_ok in Hs as (p & Hp & Hs). destruct (is_external p) eqn:Hx; cbn [negb] in Hs; [|now injection Hs as <-].
  exfalso. apply (Nx q t p). apply (clone_ext _ _ _ _ _ Hc). split; auto.
Qed.
Lemma comps_cases es u : (forall e, In e es -> Spec_Loc.apart (comp_of e) u) \/ (exists e w, In e es /\ u = comp_of e ++ w) \/ exists e s t, In e es /\ comp_of e = u ++ s :: t.
Proof.
  induction es as [|e es IH]; [left; intros e []|]. destruct (loc_cases (comp_of e) u) as [(w & E)|[(s & t & E)|A]].
  - right. left. exists e, w. split; [now left | exact E].
  - right. right. exists e, s, t. split; [now left | exact E].
  - destruct IH as [IH|[(e0 & w & I & E)|(e0 & s & t & I & E)]]; [left; intros e0 [<-|I]; auto | right; left; exists e0, w; split; [now right | exact E] | right; right; exists e0, s, t; split; [now right | exact E]].
Qed.

Section Det.
  Context (es : list export) (fn : ptr -> res json) (doc : json) (Hf : sane_fn fn) (Hd : sane doc) (Hk : forall e, In e es -> e_kind e = KSchema) (Hg : Forall (fun e => good_name (e_name e)) es).
  Hypothesis Hx : forall e q0 t p, In e es -> ext_ref doc q0 t p -> Spec_Loc.apart (comp_of e) q0.
  Hypothesis Hcy : cycles_exported doc fn (expo es).
  Hypothesis Hone : one_entity doc fn (expo es).
  Lemma refs_apart e q0 t p : In e es -> ext_ref doc q0 t p -> Spec_Loc.apart q0 (comp_of e).
  Proof. intros I E. destruct (Hx e q0 t p I E) as (A & B). now split. Qed.
  Section Two.
    Context (ord1 ord2 : list nat -> list (string * json) -> list (string * json)) (O1 : forall pos l, Permutation (ord1 pos l) l) (O2 : forall pos l, Permutation (ord2 pos l) l) (fuel1 fuel2 : nat) (r1 r2 : json).
    Hypothesis H1 : resolve ord1 es fn fuel1 (Some doc) = Ok (Some r1).
    Hypothesis H2 : resolve ord2 es fn fuel2 (Some doc) = Ok (Some r2).
    Lemma component_equal e : In e es -> lookup (comp_of e) r1 = lookup (comp_of e) r2.
    Proof.
      intro Ie. destruct (lookup_eq_dec (lookup (comp_of e) r1) (lookup (comp_of e) r2)) as [E|N]; [exact E|]. exfalso.
      assert (Un : forall pp p z, chain doc fn (pp ++ [p]) z -> expo es p <> Some (kind_key (e_kind e), e_name e)).
      { intros pp p z C Ee. apply N. unfold expo in Ee. destruct (exports_get es p) as [e'|] eqn:Eg; [|discriminate]. assert (Ec : comp_of e' = comp_of e) by (unfold comp_of; congruence).
        assert (Ap : forall q0 t0 p0, ext_ref doc q0 t0 p0 -> Spec_Loc.apart q0 (comp_of e')) by (intros q0 t0 p0 X; rewrite Ec; exact (refs_apart e q0 t0 p0 Ie X)).
        destruct (resolve_reached ord1 es fn fuel1 doc _ pp p e' z O1 Hf Hd Hg H1 C Eg Ap) as (pp1 & p1 & e1 & x1 & y1 & v1 & A1 & A2 & A3 & A4 & (_ & _ & A5) & A6).
        destruct (resolve_reached ord2 es fn fuel2 doc _ pp p e' z O2 Hf Hd Hg H2 C Eg Ap) as (pp2 & p2 & e2 & x2 & y2 & v2 & B1 & B2 & B3 & B4 & (_ & _ & B5) & B6).
        destruct (A5 Hf Hd) as (C1 & n1 & V1). destruct (B5 Hf Hd) as (C2 & n2 & V2). rewrite <- Ec. cbn [c_data] in *. rewrite A6, B6. f_equal.
        refine (component_same es fn Hf Hk doc Hcy Hone pp1 p1 x1 y1 n1 v1 pp2 p2 x2 y2 n2 v2 (kind_key (e_kind e'), e_name e') C1 C2 _ _ A4 B4 V1 V2).
        - unfold expo. rewrite A1. unfold comp_of, comp_loc in A2. congruence.
        - unfold expo. rewrite B1. unfold comp_of, comp_loc in B2. congruence. }
      destruct (resolve_unreached ord1 es fn fuel1 doc _ (kind_key (e_kind e)) (e_name e) O1 Hf Hd Hg H1 (fun q0 t p X => refs_apart e q0 t p Ie X) Un) as (d1 & D1 & L1).
      destruct (resolve_unreached ord2 es fn fuel2 doc _ (kind_key (e_kind e)) (e_name e) O2 Hf Hd Hg H2 (fun q0 t p X => refs_apart e q0 t p Ie X) Un) as (d2 & D2 & L2).
      apply N. unfold comp_of. cbn [c_data] in *. rewrite L1, L2. congruence.
    Qed.
    Lemma leaf_same u v : lookup u r1 = Some v -> childless v -> lookup u r2 = Some v.
    Proof.
      intros L C. destruct Hd as (Ht & Hl).
      assert (Hx' : forall e q0 t p, In e es -> ext_ref doc q0 t p -> Spec_Loc.apart (comp_loc (kind_key (e_kind e)) (e_name e)) q0) by exact Hx.
      destruct (comps_cases es u) as [A|[(e & w & Ie & ->)|(e & s & t & Ie & Ec)]].
      - exact (resolve_leaf ord1 ord2 es fn fuel1 fuel2 doc r1 r2 O1 O2 Hf Ht Hl Hg Hx' H1 H2 u v A L C).
      - rewrite lookup_app in *. rewrite <- (component_equal e Ie). exact L.
      - assert (Ref : forall q0 t0 p0, ext_ref doc q0 t0 p0 -> Spec_Loc.apart q0 u).
        { intros q0 t0 p0 He. assert (Hq0 : q0 <> []) by (intros ->; exact (proj2 (proj2 Ht) t0 p0 He)). assert (Hc : forall e, In e es -> Spec_Loc.apart (comp_loc (kind_key (e_kind e)) (e_name e)) q0) by (intros e0 I0; exact (Hx e0 q0 t0 p0 I0 He)).
          destruct (loc_cases q0 u) as [(w & E)|[(s0 & w & E)|A]]; [| |exact A]; exfalso.
          - destruct (Hx e q0 t0 p0 Ie He) as (_ & B). apply B. exists (w ++ s :: t). now rewrite Ec, E, app_assoc.
          - destruct (resolve_at ord1 es fn fuel1 doc (Some r1) q0 t0 p0 O1 (proj1 Ht) (proj1 (proj2 Ht)) Hg H1 He Hq0 (lonely_apart doc q0 t0 p0 Hl He) Hc) as (d1 & x1 & y1 & D1 & X1 & Y1 & M1). cbn [c_data] in M1.
            assert (X : exists z, lookup q0 r1 = Some z) by (destruct (exports_get es p0); [destruct M1 as (m & _ & M1); eauto | destruct M1 as (z & M1 & _); eauto]). destruct X as (z & X). rewrite E, lookup_app, L in X. rewrite C in X. discriminate X. }
        destruct u as [|s0 u].
        + assert (Nx : no_ext doc) by (intros q0 t0 p0 He; destruct (Ref _ _ _ He) as (_ & B); apply B; now exists q0).
          destruct (resolve_none ord1 es fn fuel1 doc _ O1 (conj Ht Hl) Nx H1) as (d1 & D1 & [= ->]). destruct (resolve_none ord2 es fn fuel2 doc _ O2 (conj Ht Hl) Nx H2) as (d2 & D2 & [= ->]). congruence.
        + assert (Un : forall pp p e z, chain doc fn (pp ++ [p]) z -> exports_get es p = Some e -> Spec_Loc.apart (comp_of e) (s0 :: u)).
          { intros pp p e0 z Cz Eg. pose proof (exports_get_in _ _ _ Eg) as (I0 & _). destruct (loc_cases (comp_of e0) (s0 :: u)) as [(w & E)|[(s1 & w & E)|A]]; [| |exact A]; exfalso.
            - apply (f_equal (@length _)) in E. apply (f_equal (@length _)) in Ec. unfold comp_of, comp_loc in *. cbn in E, Ec. rewrite app_length in Ec. cbn in Ec. lia.
            - destruct (resolve_reached ord1 es fn fuel1 doc _ pp p e0 z O1 Hf (conj Ht Hl) Hg H1 Cz Eg (fun q0 t0 p0 X => refs_apart e0 q0 t0 p0 I0 X)) as (_ & _ & _ & _ & _ & v1 & _ & _ & _ & _ & _ & Lv). cbn [c_data] in Lv. rewrite E, lookup_app, L, C in Lv. discriminate Lv. }
          destruct (resolve_untouched ord1 es fn fuel1 doc _ (s0 :: u) O1 Hf (conj Ht Hl) Hg H1 Hx ltac:(discriminate) Ref Un) as (d1 & D1 & L1).
          destruct (resolve_untouched ord2 es fn fuel2 doc _ (s0 :: u) O2 Hf (conj Ht Hl) Hg H2 Hx ltac:(discriminate) Ref Un) as (d2 & D2 & L2). cbn [c_data] in *. congruence.
    Qed.
  End Two.
  Theorem resolve_deterministic ord1 ord2 fuel1 fuel2 r1 r2 : (forall pos l, Permutation (ord1 pos l) l) -> (forall pos l, Permutation (ord2 pos l) l) ->
    resolve ord1 es fn fuel1 (Some doc) = Ok (Some r1) -> resolve ord2 es fn fuel2 (Some doc) = Ok (Some r2) -> r1 = r2.
  Proof.
    intros O1 O2 H1 H2. assert (W : forall ord fuel r, resolve ord es fn fuel (Some doc) = Ok r -> wf (c_data r)).
    { intros ord fuel r H. apply (ScanRefs.resolve_wf ord es fn fuel (Some doc) r); [intros p x F; apply (Hf p x F) | exact (proj1 (proj1 Hd)) | exact H]. }
    pose proof (W _ _ _ H1) as W1. pose proof (W _ _ _ H2) as W2. cbn [c_data] in *. apply tree_ext; [exact W1 | exact W2 | |]; intros u v; [exact (leaf_same ord1 ord2 O1 O2 fuel1 fuel2 r1 r2 H1 H2 u v) | exact (leaf_same ord2 ord1 O2 O1 fuel2 fuel1 r2 r1 H2 H1 u v)].
  Qed.
End Det.
