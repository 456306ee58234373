(** Which components resolution writes: those exported entities which are
    reached by references (proofs). *)
From Coq Require Import String Ascii List Bool Arith ZArith Lia Permutation.
From Verif Require Import GoStr GoStrFacts Json JsonFacts Gabs GabsFacts Container MergeFacts
  Spec_Loc LocFacts SetFacts CloneFacts Url Pointer FragFacts PtrFacts Resolver Spec_Resolve Spec_ResolveOk ResolverFacts ResolverTerm ResolverFrame ResolverLocal ResolverExpand ResolverExpandX ResolverAt.
Import ListNotations.
Local Open Scope string_scope.
Local Open Scope nat_scope.
Local Open Scope list_scope.

(** ** Chains *)
Lemma chain_snoc doc fn pp p z : chain doc fn (pp ++ [p]) z -> exists x q t, chain doc fn pp x /\ ext_ref x q t p /\ ~ In (ptr_string p) (map ptr_string pp) /\ fn p = Ok z.
Proof.
  intro H. inversion H as [E|pp' j q t p' x C E N Hx E1 E2]; subst; [now apply app_cons_not_nil in E|].
  apply app_inj_tail in E1 as (-> & ->). exists j, q, t. auto.
Qed.
Lemma chain_prefix doc fn rest : forall pp z, chain doc fn (pp ++ rest) z -> exists x, chain doc fn pp x.
Proof.
  induction rest as [|p rest IH] using rev_ind; intros pp z H; [rewrite app_nil_r in H; eauto|]. rewrite app_assoc in H. apply chain_snoc in H as (x & _ & _ & H & _). exact (IH _ _ H).
Qed.
Lemma chain_fun doc fn pp x y : chain doc fn pp x -> chain doc fn pp y -> x = y.
Proof.
  destruct pp as [|p pp _] using rev_ind.
  - intros H1 H2. inversion H1 as [|? ? ? ? ? ? ? ? ? ? E]; [|now symmetry in E; apply app_cons_not_nil in E]. inversion H2 as [|? ? ? ? ? ? ? ? ? ? E]; [congruence | now symmetry in E; apply app_cons_not_nil in E].
  - intros H1 H2. apply chain_snoc in H1 as (_ & _ & _ & _ & _ & _ & H1). apply chain_snoc in H2 as (_ & _ & _ & _ & _ & _ & H2). congruence.
Qed.
Lemma chain_next doc fn pp p rest z x : chain doc fn (pp ++ p :: rest) z -> chain doc fn pp x -> exists q t x1, ext_ref x q t p /\ ~ In (ptr_string p) (map ptr_string pp) /\ fn p = Ok x1 /\ chain doc fn (pp ++ [p]) x1.
Proof.
  intros H Hx. change (p :: rest) with ([p] ++ rest) in H. rewrite app_assoc in H. apply chain_prefix in H as (x1 & H). pose proof (chain_snoc _ _ _ _ _ H) as (x' & q & t & C & E & N & F).
  rewrite <- (chain_fun _ _ _ _ _ C Hx). exists q, t, x1. auto.
Qed.
Lemma not_path_has pp p : ~ In (ptr_string p) (map ptr_string pp) -> path_has pp p = false.
Proof.
  intro N. destruct (path_has pp p) eqn:E; [|reflexivity]. elim N. apply existsb_exists in E as (x & I & E). apply String.eqb_eq in E. rewrite <- E. exact (in_map ptr_string _ _ I).
Qed.
(** What is asked for, and found, is at the end of a chain. *)
Lemma asked_chain doc fn p : (forall p p' x x', ptr_string p = ptr_string p' -> fn p = Ok x -> fn p' = Ok x' -> x = x') -> asked doc fn p ->
  forall x, fn p = Ok x -> exists pp p0, chain doc fn (pp ++ [p0]) x /\ ptr_string p0 = ptr_string p.
Proof.
  intros Ht. induction 1 as [q t p E|p x0 q t p' _ IH H0 E]; intros x Hx.
  - exists [], p. split; [|reflexivity]. eapply chain_ref; [constructor | exact E | intros [] | exact Hx].
  - destruct (IH _ H0) as (pp & p0 & C & E0). destruct (path_has (pp ++ [p0]) p') eqn:Hh.
    + apply existsb_exists in Hh as (p1 & I & E1). apply String.eqb_eq in E1. apply in_split in I as (l1 & l2 & Es). rewrite Es in C.
      change (p1 :: l2) with ([p1] ++ l2) in C. rewrite app_assoc in C. apply chain_prefix in C as (x1 & C). exists l1, p1. split; [|exact E1].
      pose proof (chain_snoc _ _ _ _ _ C) as (_ & _ & _ & _ & _ & _ & F). rewrite <- (Ht _ _ _ _ E1 F Hx). exact C.
    + exists (pp ++ [p0]), p'. split; [|reflexivity]. eapply chain_ref; [exact C | exact E | now apply path_has_in | exact Hx].
Qed.
Lemma chain_asked doc fn pp z : chain doc fn pp z -> forall p, In p pp -> asked doc fn p.
Proof.
  assert (L : forall pp p z, chain doc fn (pp ++ [p]) z -> asked doc fn p).
  { clear. intros pp. induction pp as [|p0 pp IH] using rev_ind; intros p z H; apply chain_snoc in H as (x & q & t & C & E & _ & _).
    - rewrite (chain_fun _ _ _ _ _ C (chain_doc doc fn)) in E. econstructor; exact E.
    - pose proof (chain_snoc _ _ _ _ _ C) as (_ & _ & _ & _ & _ & _ & F). eapply asked_by_entity; [exact (IH _ _ C) | exact F | exact E]. }
  intros H p I. apply in_split in I as (l1 & l2 & ->). change (p :: l2) with ([p] ++ l2) in H. rewrite app_assoc in H. apply chain_prefix in H as (x & H). exact (L _ _ _ H).
Qed.

(** ** Reaching an export *)
Section Hit.
  Context (ord : list nat -> list (string * json) -> list (string * json)) (Ho : forall pos l, Permutation (ord pos l) l).
  Context (doc : json) (es : list export) (Hes : Forall (fun e => good_name (e_name e)) es) (fn : ptr -> res json) (Hf : sane_fn fn) (Hd : sane doc).
  Section Loop.
    Context (R : cont -> Prop).
    Hypothesis HR : forall e v c c', In e es -> made doc es fn e v -> R c -> set_entity (e_kind e) (e_name e) v c = Ok c' -> R c'.
    (** Part of the loop of a nested resolution. *)
    Lemma nested_loop f pos pp y refs : from doc fn pp y -> Forall (entry_from doc fn pp y) refs -> forall i s s',
      rloop (rstep ord es fn f pos pp) i refs s = Ok s' -> snd s <> None -> R (fst s) -> R (fst s') /\ snd s' <> None.
    Proof.
      intros Hfr Hen. induction refs as [|[key v] refs IHl]; intros i s s' H Hn Hr; cbn [rloop] in H; [injection H as <-; auto|].
      apply bind_ok in H as (s1 & Hs & H). inversion Hen as [|? ? He0 Hen']; subst.
      assert (R (fst s1) /\ snd s1 <> None) as [Hr1 Hn1]; [|now apply (IHl Hen' (S i) s1)].
      clear H IHl. unfold rstep in Hs. destruct v as [| | |t| |]; try (injection Hs as <-; auto).
      apply bind_ok in Hs as (p & Hp & Hs). destruct (is_external p) eqn:Hx; cbn [negb] in Hs; [|injection Hs as <-; auto]. destruct (path_has pp p) eqn:Hh.
      - apply (r_set_rec_nested es) in Hs as [-> ?]; auto.
      - apply bind_ok in Hs as (x & Hfx & Hs). apply bind_ok in Hs as (nc & Hnc & Hs). apply bind_ok in Hs as (r & Hr' & Hs).
        unfold c_make in Hnc. apply bind_ok in Hnc as (y' & Hy & E). injection E as <-.
        assert (Hch : sane_fn fn -> sane doc -> chain doc fn (pp ++ [p]) x). { intros Hsf Hd'. destruct (He0 t p eq_refl Hp Hx Hsf Hd') as (q & Hq). now apply (from_step doc fn pp y q t p x Hfr Hq Hh Hfx). }
        destruct (nested ord Ho doc es Hes fn R HR _ _ _ _ _ _ Hr') as [A1 _]; [|exact Hr|]. { intros Hsf Hd'. exists x. split; [now apply Hch|]. split; [exact (Hsf _ _ Hfx) | exact Hy]. }
        pose proof (iter_outcome ord Ho doc es Hes fn _ _ _ _ _ _ _ _ Hfx Hy Hch Hr') as Hout.
        unfold r_set in Hs. destruct (exports_get es p) as [e|] eqn:Ee.
        + pose proof (exports_get_in _ _ _ Ee) as [Ie _]. apply bind_ok in Hs as (s2 & H1 & H2). unfold on_root in H1. apply bind_ok in H1 as (c' & H1 & E1). injection E1 as <-. cbn [fst snd] in *.
          apply on_cx_nested in H2 as [H2 H3]; [|exact Hn]. rewrite H2. cbn [fst]. split; [|exact H3]. eapply HR; [exact Ie | | exact A1 | exact H1].
          exists pp, p, x, y'. split; [exact Ee|]. split; [exact Hfx|]. split; [exact Hy | exact Hout].
        + apply on_cx_nested in Hs as [H2 H3]; [|exact Hn]. rewrite H2. auto.
    Qed.
  End Loop.
  Context (R1 R2 : cont -> Prop) (e : export).
  Hypothesis HR1 : forall e v c c', In e es -> made doc es fn e v -> R1 c -> set_entity (e_kind e) (e_name e) v c = Ok c' -> R1 c'.
  Hypothesis HR2 : forall e v c c', In e es -> made doc es fn e v -> R2 c -> set_entity (e_kind e) (e_name e) v c = Ok c' -> R2 c'.
  Hypothesis H12 : forall v c c', made doc es fn e v -> R1 c -> set_entity (e_kind e) (e_name e) v c = Ok c' -> R2 c'.

  Lemma nested_hit rest : forall p fuel pos pp rt x y z s', exports_get es p = Some e -> chain doc fn pp x -> sane x -> clone x = Ok y -> chain doc fn (pp ++ rest ++ [p]) z ->
    iterator ord es fn fuel pos pp (rt, Some (Some y)) = Ok s' -> R1 rt -> R2 (fst s').
  Proof.
    induction rest as [|p1 rest IH]; intros p fuel pos pp rt x y z s' Ee C Sx Hy Cz H Hr; (destruct fuel as [|f]; [discriminate|]);
      rewrite iterator_S in H; apply bind_ok in H as (refs & He & H); unfold st_cx in He; cbn [snd] in He;
      (assert (Hfr : from doc fn pp y) by (intros _ _; exists x; auto)); pose proof (entries_from ord Ho doc fn _ _ _ _ Hfr He) as Hen;
      cbn [app] in Cz; destruct (chain_next _ _ _ _ _ _ _ Cz C) as (q & t & x1 & E1 & N1 & F1 & C1);
      (assert (E1' : ext_ref y q t _) by (apply (clone_ext _ _ _ _ _ Hy); exact E1)); destruct (clone_sane _ _ Sx Hy) as [T1 _];
      destruct (extract_refs (ord pos) y refs (Ho pos) (proj1 T1) (proj1 (proj2 T1)) He) as (_ & _ & Hin); pose proof (Hin q _ (proj1 E1') eq_refl) as Iq; clear He Hin;
      apply in_split in Iq as (l1 & l2 & ->); apply Forall_app in Hen as [Hen1 Hen2]; apply Forall_inv_tail in Hen2;
      apply rloop_app in H as (s1 & H1 & H2); destruct (nested_loop R1 HR1 _ _ _ _ _ Hfr Hen1 _ _ _ H1) as [A1 An]; [discriminate | exact Hr | | discriminate | exact Hr | ];
      cbn [rloop] in H2; apply bind_ok in H2 as (s2 & Hs & H2); unfold rstep in Hs; rewrite (proj1 (proj2 E1)) in Hs; cbn [bind] in Hs; rewrite (proj2 (proj2 E1)) in Hs; cbn [negb] in Hs; rewrite (not_path_has _ _ N1), F1 in Hs; cbn [bind] in Hs;
      apply bind_ok in Hs as (nc & Hnc & Hs); apply bind_ok in Hs as (r & Hr' & Hs); unfold c_make in Hnc; apply bind_ok in Hnc as (y1 & Hy1 & X); injection X as <-;
      (assert (Hfr1 : forall a b, fn a = Ok b -> sane b) by exact Hf); pose proof (iter_outcome ord Ho doc es Hes fn _ _ _ _ _ _ _ _ F1 Hy1 (fun _ _ => C1) Hr') as Hout;
      (enough (G : R2 (fst s2) /\ snd s2 <> None) by (destruct (nested_loop R2 HR2 _ _ _ _ _ Hfr Hen2 _ _ _ H2 (proj2 G) (proj1 G)) as [G1 _]; exact G1)); clear H2.
    - destruct (nested ord Ho doc es Hes fn R1 HR1 _ _ _ _ _ _ Hr') as [A2 _]; [|exact A1|]. { intros _ _. exists x1. split; [exact C1|]. split; [exact (Hf _ _ F1) | exact Hy1]. }
      unfold r_set in Hs. rewrite Ee in Hs. apply bind_ok in Hs as (s3 & H3 & H4). unfold on_root in H3. apply bind_ok in H3 as (c' & H3 & X). injection X as <-. cbn [fst snd] in *.
      apply on_cx_nested in H4 as [H4 H5]; [|exact An]. rewrite H4. cbn [fst]. split; [|exact H5]. eapply H12; [|exact A2 | exact H3]. exists pp, p, x1, y1. split; [exact Ee|]. split; [exact F1|]. split; [exact Hy1 | exact Hout].
    - assert (A2 : R2 (fst r)). { refine (IH p _ _ (pp ++ [p1]) _ x1 y1 z _ Ee C1 (Hf _ _ F1) Hy1 _ Hr' A1). rewrite <- app_assoc. exact Cz. }
      unfold r_set in Hs. destruct (exports_get es p1) as [e1|] eqn:Ee1.
      + pose proof (exports_get_in _ _ _ Ee1) as [Ie _]. apply bind_ok in Hs as (s3 & H3 & H4). unfold on_root in H3. apply bind_ok in H3 as (c' & H3 & X). injection X as <-. cbn [fst snd] in *.
        apply on_cx_nested in H4 as [H4 H5]; [|exact An]. rewrite H4. cbn [fst]. split; [|exact H5]. eapply HR2; [exact Ie | | exact A2 | exact H3]. exists pp, p1, x1, y1. split; [exact Ee1|]. split; [exact F1|]. split; [exact Hy1 | exact Hout].
      + apply on_cx_nested in Hs as [H4 H5]; [|exact An]. rewrite H4. auto.
  Qed.

  (** The outermost loop. *)
  Lemma top_hit f j0 refs rest p z s' : clone doc = Ok j0 -> exports_get es p = Some e -> chain doc fn (rest ++ [p]) z -> 
    (forall R : cont -> Prop, R = R1 \/ R = R2 -> forall q0 t p val c c', ext_ref j0 q0 t p -> Forall seg_ok (q0 ++ [REF]) -> R c -> replace_ptr (render (q0 ++ [REF])) val c = Ok c' -> R c') ->
    (forall R : cont -> Prop, R = R1 \/ R = R2 -> forall q0 t p fr c c', ext_ref j0 q0 t p -> Forall seg_ok (q0 ++ [REF]) -> R c -> update_ptr_local (render (q0 ++ [REF])) fr c = Ok c' -> R c') ->
    extract_key (ord []) "$ref" (Some j0) = Ok refs -> R1 (Some j0) -> rloop (rstep ord es fn f [] []) 0 refs (Some j0, None) = Ok s' -> R2 (fst s') /\ snd s' = None.
  Proof.
    intros Hc Ee Cz Rep Upd He Hr H. destruct (clone_sane _ _ Hd Hc) as [T1 _].
    destruct (extract_refs (ord []) j0 refs (Ho []) (proj1 T1) (proj1 (proj2 T1)) He) as (_ & Hre & Hin). clear He.
    assert (Top : forall (R : cont -> Prop) (HR : forall e v c c', In e es -> made doc es fn e v -> R c -> set_entity (e_kind e) (e_name e) v c = Ok c' -> R c'), R = R1 \/ R = R2 -> forall l i rt s0, incl l refs -> R rt ->
        rloop (rstep ord es fn f [] []) i l (rt, None) = Ok s0 -> R (fst s0) /\ snd s0 = None).
    { intros R HR E l i rt s0 Il Hrt Hl. refine (top_loop_at ord Ho doc es Hes fn R HR (fun _ => True) f j0 Hc _ _ l i rt s0 _ Hrt Hl).
      - intros q0 t p0 val c c' _. exact (Rep R E q0 t p0 val c c').
      - intros q0 t p0 fr c c' _. exact (Upd R E q0 t p0 fr c c').
      - apply Forall_forall. intros kv I. rewrite Forall_forall in Hre. destruct (Hre kv (Il _ I)) as (q0 & A & B & D). exists q0. auto. }
    destruct (rest ++ [p]) as [|p1 l0] eqn:El; [now symmetry in El; apply app_cons_not_nil in El|].
    destruct (chain_next doc fn [] p1 l0 z doc Cz (chain_doc doc fn)) as (q & t & x1 & E1 & N1 & F1 & C1). assert (E1' : ext_ref j0 q t p1) by (apply (clone_ext _ _ _ _ _ Hc); exact E1).
    pose proof (Hin q _ (proj1 E1') eq_refl) as Iq. apply in_split in Iq as (l1 & l2 & Es). rewrite Es in H. pose proof (seg_ok_lookup _ _ _ (proj1 (proj2 T1)) (proj1 E1')) as So.
    apply rloop_app in H as (s1 & H1 & H2). destruct (Top R1 HR1 (or_introl eq_refl) l1 _ _ _ (fun kv I => eq_ind_r (fun l => In kv l) (in_or_app _ _ _ (or_introl I)) Es) Hr H1) as [A1 An].
    destruct s1 as [c1 o1]. cbn [fst snd] in A1, An. subst o1.
    cbn [rloop] in H2. apply bind_ok in H2 as (s2 & Hs & H2). unfold rstep in Hs. rewrite (proj1 (proj2 E1)) in Hs. cbn [bind] in Hs. rewrite (proj2 (proj2 E1)) in Hs. cbn [negb path_has existsb] in Hs. rewrite F1 in Hs. cbn [bind] in Hs.
    apply bind_ok in Hs as (nc & Hnc & Hs). apply bind_ok in Hs as (r & Hr' & Hs). unfold c_make in Hnc. apply bind_ok in Hnc as (y1 & Hy1 & X). injection X as <-. cbn [fst snd] in *.
    pose proof (iter_outcome ord Ho doc es Hes fn _ _ [] p1 _ _ _ _ F1 Hy1 (fun _ _ => C1) Hr') as Hout.
    assert (Own : forall (R : cont -> Prop) fr c c', R = R1 \/ R = R2 -> R c -> update_ptr_local (render (q ++ [REF])) fr c = Ok c' -> R c') by (intros R fr c c' E; exact (Upd R E q t p1 fr c c' E1' So)).
    enough (G : R2 (fst s2) /\ snd s2 = None).
    { destruct s2 as [c2 o2]. cbn [fst snd] in G. destruct G as (G & ->). refine (Top R2 HR2 (or_intror eq_refl) l2 _ _ _ _ G H2). intros kv I. rewrite Es. apply in_or_app. right. now right. }
    destruct rest as [|p2 rest]; cbn [app] in El; injection El as <- <-.
    - destruct (nested ord Ho doc es Hes fn R1 HR1 _ _ _ _ _ _ Hr') as [A2 _]; [|exact A1|]. { intros _ _. exists x1. split; [exact C1|]. split; [exact (Hf _ _ F1) | exact Hy1]. }
      unfold r_set in Hs. rewrite Ee in Hs. apply bind_ok in Hs as (s3 & H3 & H4). unfold on_root in H3. apply bind_ok in H3 as (c' & H3 & X). injection X as <-. cbn [fst snd] in *.
      apply on_cx_top in H4 as (c2 & H4 & ->). cbn [fst snd]. split; [|reflexivity]. eapply Own; [now right | | exact H4]. eapply H12; [|exact A2 | exact H3]. exists [], p, x1, y1. split; [exact Ee|]. split; [exact F1|]. split; [exact Hy1 | exact Hout].
    - assert (A2 : R2 (fst r)). { refine (nested_hit rest p _ _ [p2] _ x1 y1 z _ Ee C1 (Hf _ _ F1) Hy1 Cz Hr' A1). }
      unfold r_set in Hs. destruct (exports_get es p2) as [e1|] eqn:Ee1.
      + pose proof (exports_get_in _ _ _ Ee1) as [Ie _]. apply bind_ok in Hs as (s3 & H3 & H4). unfold on_root in H3. apply bind_ok in H3 as (c' & H3 & X). injection X as <-. cbn [fst snd] in *.
        apply on_cx_top in H4 as (c2 & H4 & ->). cbn [fst snd]. split; [|reflexivity]. eapply Own; [now right | | exact H4]. eapply HR2; [exact Ie | | exact A2 | exact H3]. exists [], p2, x1, y1. split; [exact Ee1|]. split; [exact F1|]. split; [exact Hy1 | exact Hout].
      + apply on_cx_top in Hs as (c2 & H4 & ->). cbn [fst snd]. split; [|reflexivity]. exact (Rep R2 (or_intror eq_refl) q t p2 _ _ _ E1' So A2 H4).
  Qed.
End Hit.

(** ** One component *)
Section Comp.
  Context (ord : list nat -> list (string * json) -> list (string * json)) (Ho : forall pos l, Permutation (ord pos l) l).
  Context (doc : json) (es : list export) (Hg : Forall (fun e => good_name (e_name e)) es) (fn : ptr -> res json) (Hf : sane_fn fn) (Hd : sane doc).
  Context (section name : string).
  Local Notation L := (comp_loc section name).
  Hypothesis Hap : forall q0 t0 p0, ext_ref doc q0 t0 p0 -> apart q0 L.
  Context (doc' : json) (Hc : clone doc = Ok doc').
  Let E := excluded doc' es.

  Lemma comp_refs q0 t0 p0 : ext_ref doc' q0 t0 p0 -> apart q0 L /\ E q0 = true.
  Proof.
    intro X. split; [apply (Hap q0 t0 p0); now apply (clone_ext _ _ _ _ _ Hc)|]. unfold E, excluded. assert (ext_at doc' q0 = true) as -> by (apply ext_at_spec; eauto). reflexivity.
  Qed.
  Lemma comp_excluded e0 : E e0 = true -> e0 = L \/ apart e0 L.
  Proof.
    intro X. unfold E, excluded in X. apply orb_true_iff in X as [X|X].
    - apply ext_at_spec in X as (t0 & p0 & X). right. now apply (comp_refs _ t0 p0).
    - apply existsb_exists in X as (z & Iz & X). destruct (loc_dec (comp_of z) e0) as [<-|]; [|discriminate]. destruct (loc_dec (comp_of z) L) as [|N]; [now left|]. right.
      unfold comp_of, comp_loc in *. split; intros [u Eu]; cbn in Eu; injection Eu as A B; apply N; destruct u; try discriminate; congruence.
  Qed.
  Lemma comp_addr q0 t0 p0 path c q1 : ext_ref doc' q0 t0 p0 -> Forall seg_ok (q0 ++ [REF]) -> (path = render (q0 ++ [REF]) \/ isref (render (q0 ++ [REF])) = Some path) -> shape E doc' (c_data c) ->
    addresses true (dot_path path) (denull (c_data c)) q1 -> (exists e0, E e0 = true /\ above e0 q1) /\ apart q1 L.
  Proof.
    intros X So0 Hp Sh A. destruct (comp_refs _ _ _ X) as [Ap Eq]. assert (N0 : q0 <> []). { intros ->. apply (proj1 Ap). eexists. reflexivity. }
    destruct (ref_address E doc' c path q0 _ _ q1 eq_refl (proj1 X) So0 N0 Hp Sh A) as [(-> & _)|[(-> & _)|(e0 & B1 & B2 & B3)]].
    - split; [exists q0; split; [exact Eq | now exists [REF]]|]. eapply apart_below; [exact Ap | now exists [REF]].
    - split; [exists q0; split; [exact Eq | exists []; now rewrite app_nil_r] | exact Ap].
    - split; [eauto|]. destruct (comp_excluded e0 B1) as [-> |A0]; [|eapply apart_below; [exact A0 | exact B3]]. exfalso. apply above_snoc in B2 as [B2|B2]; [now apply (proj2 Ap)|]. apply (proj1 Ap). rewrite B2. now exists [REF].
  Qed.
  Lemma comp_shape path val c c' : c_setp path val c = Ok c' -> shape E doc' (c_data c) -> (forall q1, addresses true (dot_path path) (denull (c_data c)) q1 -> exists e0, E e0 = true /\ above e0 q1) -> shape E doc' (c_data c').
  Proof.
    intros Hset Sh Ha. apply setp_inv in Hset as (j & v' & r0 & q1 & -> & -> & _ & _ & A & Hr0). cbn [c_data] in *. destruct (Ha _ A) as (e0 & X & Y). eapply gset_shape; [apply shape_denull, Sh | exact A | exact Hr0 | exact X | exact Y].
  Qed.
  Lemma comp_set e0 v c c' : In e0 es -> shape E doc' (c_data c) -> set_entity (e_kind e0) (e_name e0) v c = Ok c' ->
    shape E doc' (c_data c') /\ exists v', clone v = Ok v' /\ lookup (comp_of e0) (c_data c') = Some v' /\ (comp_of e0 <> L -> lookup L (c_data c') = lookup L (c_data c)).
  Proof.
    intros I0 Sh Hset. rewrite Forall_forall in Hg. pose proof (Hg e0 I0) as Gn. pose proof (excluded_comp doc' es e0 I0) as Ec. split.
    - eapply comp_shape; [exact Hset | exact Sh|]. intros q1 Ha. rewrite entity_dot_path in Ha by apply Gn. apply address_comp in Ha as ->; [|exact Gn]. exists (comp_of e0). split; [exact Ec | exists []; now rewrite app_nil_r].
    - pose proof Hset as Hset'. unfold set_entity in Hset. apply setp_inv in Hset as (j & v' & r0 & q1 & -> & -> & Cv & _ & A & Hr0). rewrite entity_dot_path in A, Hr0 by apply Gn. pose proof (address_comp _ _ _ _ _ Gn A) as ->.
      destruct (gset_spec _ _ _ _ v' A _ Hr0) as [G1 _]. exists v'. split; [exact Cv|]. split; [exact G1|]. intro N. apply (setp_apart _ _ _ _ L L Hset'); [discriminate | | reflexivity].
      intros q1 Ha. rewrite entity_dot_path in Ha by apply Gn. apply address_comp in Ha as ->; [|exact Gn]. destruct (comp_excluded (comp_of e0) Ec) as [X|X]; [contradiction | exact X].
  Qed.
  (** A property of the document's shape and of the value at the component. *)
  Section Keep.
    Context (K : option json -> Prop).
    Definition keeps (c : cont) : Prop := shape E doc' (c_data c) /\ K (lookup L (c_data c)).
    Lemma keep_setp path val c c' : c_setp path val c = Ok c' -> (forall q1, addresses true (dot_path path) (denull (c_data c)) q1 -> (exists e0, E e0 = true /\ above e0 q1) /\ apart q1 L) -> keeps c -> keeps c'.
    Proof.
      intros Hset A (Sh & Hk). split; [eapply comp_shape; [exact Hset | exact Sh|]; intros q1 X; now apply A|].
      rewrite (setp_apart _ _ _ _ L L Hset); [exact Hk | discriminate | intros q1 X; now apply A | reflexivity].
    Qed.
    Lemma keep_replace q0 t p val c c' : ext_ref doc' q0 t p -> Forall seg_ok (q0 ++ [REF]) -> keeps c -> replace_ptr (render (q0 ++ [REF])) val c = Ok c' -> keeps c'.
    Proof.
      intros X So0 Hk Hset. apply (replace_set q0 val c c' So0) in Hset as (path & Ip & Hset). apply (keep_setp _ _ _ _ Hset); [|exact Hk]. intros q1 A. exact (comp_addr q0 t p path c q1 X So0 (or_intror Ip) (proj1 Hk) A).
    Qed.
    Lemma keep_update q0 t p fr c c' : ext_ref doc' q0 t p -> Forall seg_ok (q0 ++ [REF]) -> keeps c -> update_ptr_local (render (q0 ++ [REF])) fr c = Ok c' -> keeps c'.
    Proof.
      intros X So0 Hk Hset. apply (update_set q0 fr c c' So0) in Hset. apply (keep_setp _ _ _ _ Hset); [|exact Hk]. intros q1 A. exact (comp_addr q0 t p _ c q1 X So0 (or_introl eq_refl) (proj1 Hk) A).
    Qed.
  End Keep.
  (** What a component holds once written. *)
  Definition holds (o : option json) : Prop := exists pp p' e' x' y' v, exports_get es p' = Some e' /\ comp_of e' = L /\ fn p' = Ok x' /\ clone x' = Ok y' /\ outcome doc es fn pp p' x' y' v /\ o = Some v.
  Lemma keep_any e v c c' : In e es -> made doc es fn e v -> keeps (fun _ => True) c -> set_entity (e_kind e) (e_name e) v c = Ok c' -> keeps (fun _ => True) c'.
  Proof. intros I _ (Sh & _) H. split; [|exact Logic.I]. exact (proj1 (comp_set e v c c' I Sh H)). Qed.
  Lemma keep_holds e v c c' : In e es -> made doc es fn e v -> keeps holds c -> set_entity (e_kind e) (e_name e) v c = Ok c' -> keeps holds c'.
  Proof.
    intros I (pp & p' & x' & y' & A1 & A2 & A3 & A4) (Sh & Hh) H. destruct (comp_set e v c c' I Sh H) as (Sh' & v' & Cv & Lv & Oth). split; [exact Sh'|].
    destruct (loc_dec (comp_of e) L) as [X|N]; [|rewrite (Oth N); exact Hh]. exists pp, p', e, x', y', v'. rewrite <- X. refine (conj A1 (conj eq_refl (conj A2 (conj A3 (conj _ Lv))))). exact (outcome_clone _ _ _ _ _ _ _ _ _ A3 A4 Cv).
  Qed.
  Lemma make_holds e v c c' : comp_of e = L -> made doc es fn e v -> keeps (fun _ => True) c -> set_entity (e_kind e) (e_name e) v c = Ok c' -> keeps holds c'.
  Proof.
    intros X (pp & p' & x' & y' & A1 & A2 & A3 & A4) (Sh & _) H. pose proof (exports_get_in _ _ _ A1) as (I & _). destruct (comp_set e v c c' I Sh H) as (Sh' & v' & Cv & Lv & _). split; [exact Sh'|].
    exists pp, p', e, x', y', v'. rewrite <- X. refine (conj A1 (conj eq_refl (conj A2 (conj A3 (conj _ Lv))))). exact (outcome_clone _ _ _ _ _ _ _ _ _ A3 A4 Cv).
  Qed.
End Comp.

(** An exported entity at the end of a chain is written. *)
Theorem resolve_reached ord es fn fuel doc r pp p e z : (forall pos l, Permutation (ord pos l) l) -> sane_fn fn -> sane doc ->
  Forall (fun e => good_name (e_name e)) es -> resolve ord es fn fuel (Some doc) = Ok r ->
  chain doc fn (pp ++ [p]) z -> exports_get es p = Some e ->
  (forall q0 t0 p0, ext_ref doc q0 t0 p0 -> apart q0 (comp_of e)) ->
  holds doc es fn (kind_key (e_kind e)) (e_name e) (lookup (comp_of e) (c_data r)).
Proof.
  intros Ho Hf Hd Hg H Cz Ee Hap. apply resolve_inv in H as (doc' & f & refs & -> & Hc & He & s' & Hl & ->).
  set (K := keeps es (kind_key (e_kind e)) (e_name e) doc'). set (W := holds doc es fn (kind_key (e_kind e)) (e_name e)).
  destruct (top_hit ord Ho doc es Hg fn Hf Hd (K (fun _ => True)) (K W) e) with (f := f) (j0 := doc') (refs := refs) (rest := pp) (p := p) (z := z) (s' := s') as (G & N); auto.
  - intros e0 v c c'. exact (keep_any doc es Hg fn _ _ Hap doc' Hc e0 v c c').
  - intros e0 v c c'. exact (keep_holds doc es Hg fn _ _ Hap doc' Hc e0 v c c').
  - intros v c c'. exact (make_holds doc es Hg fn _ _ Hap doc' Hc e v c c' eq_refl).
  - intros R [-> | ->] q0 t p0 val c c'; [exact (keep_replace doc es _ _ Hap doc' Hc _ q0 t p0 val c c') | exact (keep_replace doc es _ _ Hap doc' Hc _ q0 t p0 val c c')].
  - intros R [-> | ->] q0 t p0 fr c c'; [exact (keep_update doc es _ _ Hap doc' Hc _ q0 t p0 fr c c') | exact (keep_update doc es _ _ Hap doc' Hc _ q0 t p0 fr c c')].
  - split; [apply shape_refl | exact Logic.I].
  - unfold st_cx. rewrite N. exact (proj2 G).
Qed.

(** A component of which no exported entity is reached is as it was. *)
Theorem resolve_unreached ord es fn fuel doc r section name : (forall pos l, Permutation (ord pos l) l) -> sane_fn fn -> sane doc ->
  Forall (fun e => good_name (e_name e)) es -> resolve ord es fn fuel (Some doc) = Ok r ->
  (forall q0 t0 p0, ext_ref doc q0 t0 p0 -> apart q0 (comp_loc section name)) ->
  (forall pp p z, chain doc fn (pp ++ [p]) z -> expo es p <> Some (section, name)) ->
  exists doc', clone doc = Ok doc' /\ lookup (comp_loc section name) (c_data r) = lookup (comp_loc section name) doc'.
Proof.
  intros Ho Hf Hd Hg H Hap Hno. apply resolve_inv in H as (doc' & f & refs & -> & Hc & He & s' & Hl & ->). exists doc'. split; [exact Hc|].
  destruct (clone_sane _ _ Hd Hc) as [T1 _]. destruct (extract_refs (ord []) doc' refs (Ho []) (proj1 T1) (proj1 (proj2 T1)) He) as (_ & Hre & _).
  set (L := comp_loc section name). set (R := keeps es section name doc' (fun o => o = lookup L doc')).
  destruct (top_loop_at ord Ho doc es Hg fn R) with (P := fun _ : loc => True) (f := f) (j0 := doc') (refs := refs) (i := 0) (rt := Some doc') (s' := s') as ((_ & G) & N); auto.
  - intros e v c c' I (pp & p' & x' & y' & A1 & A2 & A3 & (_ & _ & A4)) (Sh & Hk) Hs. destruct (comp_set doc es Hg section name Hap doc' Hc e v c c' I Sh Hs) as (Sh' & v' & _ & _ & Oth). split; [exact Sh'|].
    rewrite Oth; [exact Hk|]. intro X. destruct (A4 Hf Hd) as (C & _). apply (Hno _ _ _ C). unfold expo. rewrite A1. unfold comp_of, comp_loc in X. congruence.
  - intros q0 t p0 val c c' _. exact (keep_replace doc es _ _ Hap doc' Hc _ q0 t p0 val c c').
  - intros q0 t p0 fr c c' _. exact (keep_update doc es _ _ Hap doc' Hc _ q0 t p0 fr c c').
  - eapply Forall_impl; [|exact Hre]. intros kv (q0 & A & B & D). exists q0. auto.
  - split; [apply shape_refl | reflexivity].
  - unfold st_cx. rewrite N. exact G.
Qed.

(** ** What is asked for is found *)
Section Found.
  Context (ord : list nat -> list (string * json) -> list (string * json)) (Ho : forall pos l, Permutation (ord pos l) l).
  Context (doc : json) (es : list export) (fn : ptr -> res json) (Hf : sane_fn fn) (Hd : sane doc).
  Lemma chain_call rest : forall fuel pos pp s x y z q t p s', chain doc fn pp x -> sane x -> clone x = Ok y -> chain doc fn (pp ++ rest) z -> ext_ref z q t p -> ~ In (ptr_string p) (map ptr_string (pp ++ rest)) ->
    st_cx s = Some y -> iterator ord es fn fuel pos pp s = Ok s' -> exists x1, fn p = Ok x1.
  Proof.
    assert (Step : forall f pos pp s s' x y q t p1, sane x -> clone x = Ok y -> ext_ref x q t p1 -> ~ In (ptr_string p1) (map ptr_string pp) -> st_cx s = Some y -> iterator ord es fn (S f) pos pp s = Ok s' ->
      exists x1 y1 (s1 : rstate) i s2, fn p1 = Ok x1 /\ clone x1 = Ok y1 /\ iterator ord es fn f (pos ++ [i]) (pp ++ [p1]) (fst s1, Some (Some y1)) = Ok s2).
    { intros f pos pp s s' x y q t p1 Sx Hy E N Es H. rewrite iterator_S in H. apply bind_ok in H as (refs & He & H). rewrite Es in He. destruct (clone_sane _ _ Sx Hy) as [T1 _].
      assert (E' : ext_ref y q t p1) by (apply (clone_ext _ _ _ _ _ Hy); exact E).
      destruct (extract_refs (ord pos) y refs (Ho pos) (proj1 T1) (proj1 (proj2 T1)) He) as (_ & _ & Hin). pose proof (Hin q _ (proj1 E') eq_refl) as Iq. apply in_split in Iq as (l1 & l2 & ->).
      apply rloop_app in H as (s1 & _ & H). cbn [rloop] in H. apply bind_ok in H as (s2 & Hs & _). unfold rstep in Hs. rewrite (proj1 (proj2 E)) in Hs. cbn [bind] in Hs. rewrite (proj2 (proj2 E)) in Hs. cbn [negb] in Hs. rewrite (not_path_has _ _ N) in Hs.
      apply bind_ok in Hs as (x1 & F1 & Hs). apply bind_ok in Hs as (nc & Hnc & Hs). apply bind_ok in Hs as (r & Hr & _). unfold c_make in Hnc. apply bind_ok in Hnc as (y1 & Hy1 & X). injection X as <-. exists x1, y1, s1. eauto 8. }
    induction rest as [|p1 rest IH]; intros fuel pos pp s x y z q t p s' C Sx Hy Cz E N Es H; (destruct fuel as [|f]; [discriminate|]).
    - rewrite app_nil_r in *. rewrite (chain_fun _ _ _ _ _ Cz C) in E. destruct (Step f pos pp s s' x y q t p Sx Hy E N Es H) as (x1 & _ & _ & _ & _ & F1 & _). eauto.
    - destruct (chain_next _ _ _ _ _ _ _ Cz C) as (q1 & t1 & x1 & E1 & N1 & F1 & C1). destruct (Step f pos pp s s' x y q1 t1 p1 Sx Hy E1 N1 Es H) as (x1' & y1 & s1 & i & s2 & F1' & Hy1 & H1).
      rewrite F1 in F1'. injection F1' as <-. refine (IH f _ (pp ++ [p1]) _ x1 y1 z q t p s2 C1 (Hf _ _ F1) Hy1 _ E _ _ H1); [rewrite <- app_assoc; exact Cz | rewrite <- app_assoc; exact N | reflexivity].
  Qed.
End Found.
Theorem resolve_found ord es fn fuel doc r p : (forall pos l, Permutation (ord pos l) l) -> sane_fn fn -> sane doc -> (forall p p' x x', ptr_string p = ptr_string p' -> fn p = Ok x -> fn p' = Ok x' -> x = x') ->
  resolve ord es fn fuel (Some doc) = Ok r -> asked doc fn p -> exists p' x, ptr_string p' = ptr_string p /\ fn p' = Ok x.
Proof.
  intros Ho Hf Hd Ht H A. unfold resolve in H. apply bind_ok in H as (s' & H & _).
  assert (Hc : exists doc', c_clone (Some doc) = Some doc' /\ clone doc = Ok doc').
  { destruct (clone_cases doc) as [[x Ex]|Ex]; [exists x; unfold c_clone, c_data; rewrite Ex; auto|]. exfalso. destruct fuel as [|f]; [discriminate|].
    rewrite iterator_S in H. unfold st_cx, c_clone, c_data in H. cbn [fst snd] in H. rewrite Ex in H. discriminate. }
  destruct Hc as (doc' & Ec & Hc). rewrite Ec in H.
  destruct A as [q t p E|p0 x0 q t p E0 F0 E].
  - destruct (chain_call ord Ho doc es fn Hf [] fuel [] [] (Some doc', None) doc doc' doc q t p s' (chain_doc _ _) Hd Hc (chain_doc _ _) E) as (x1 & F); [intros [] | reflexivity | exact H |]. exists p, x1. auto.
  - destruct (asked_chain doc fn p0 Ht E0 _ F0) as (pp & p1 & C & _). destruct (in_dec string_dec (ptr_string p) (map ptr_string (pp ++ [p1]))) as [I|N].
    + apply in_map_iff in I as (p2 & E2 & I). apply in_split in I as (l1 & l2 & Es). rewrite Es in C. change (p2 :: l2) with ([p2] ++ l2) in C. rewrite app_assoc in C. apply chain_prefix in C as (x2 & C). apply chain_snoc in C as (_ & _ & _ & _ & _ & _ & F). eauto.
    + destruct (chain_call ord Ho doc es fn Hf (pp ++ [p1]) fuel [] [] (Some doc', None) doc doc' x0 q t p s' (chain_doc _ _) Hd Hc C E N) as (x1 & F); [reflexivity | exact H |]. exists p, x1. auto.
Qed.
(** The references of what is at the end of a chain are looked up. *)
Theorem resolve_chain ord es fn fuel doc r : (forall pos l, Permutation (ord pos l) l) -> sane_fn fn -> sane doc -> resolve ord es fn fuel (Some doc) = Ok r ->
  forall pp x q t p, chain doc fn pp x -> ext_ref x q t p -> ~ In (ptr_string p) (map ptr_string pp) -> exists x1, fn p = Ok x1.
Proof.
  intros Ho Hf Hd H pp x q t p C E N. unfold resolve in H. apply bind_ok in H as (s' & H & _).
  assert (Hc : exists doc', c_clone (Some doc) = Some doc' /\ clone doc = Ok doc').
  { destruct (clone_cases doc) as [[y Ex]|Ex]; [exists y; unfold c_clone, c_data; rewrite Ex; auto|]. exfalso. destruct fuel as [|f]; [discriminate|].
    rewrite iterator_S in H. unfold st_cx, c_clone, c_data in H. cbn [fst snd] in H. rewrite Ex in H. discriminate. }
  destruct Hc as (doc' & Ec & Hc). rewrite Ec in H. exact (chain_call ord Ho doc es fn Hf pp fuel [] [] (Some doc', None) doc doc' x q t p s' (chain_doc _ _) Hd Hc C E N eq_refl H).
Qed.
