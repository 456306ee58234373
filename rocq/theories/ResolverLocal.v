(** Local references written by the resolver have their component (C25). *)
From Coq Require Import String Ascii List Bool Arith ZArith Lia Permutation.
From Verif Require Import GoStr GoStrFacts Json JsonFacts Gabs GabsFacts Container MergeFacts
  Spec_Loc LocFacts SetFacts CloneFacts Url Pointer FragFacts PtrFacts Resolver Spec_Resolve ResolverFacts ResolverTerm ResolverFrame.
Import ListNotations.
Local Open Scope string_scope.
Local Open Scope nat_scope.
Local Open Scope list_scope.

Definition etext (e : export) : string := ptr_string {| p_url := p_url new_pointer; p_frag := entity_fragment (e_kind e) (e_name e) |}.

Lemma etext_local e : good_name (e_name e) -> etext e = local_text (kind_key (e_kind e)) (e_name e).
Proof.
  intros (Hp & Hs & _). unfold etext. rewrite entity_frag by assumption.
  destruct Hp as (_ & _ & Ht). unfold local_text, ptr_string. cbn [p_url p_frag frag_string].
  assert (En : escape_token (e_name e) = e_name e).
  { unfold escape_token. rewrite (replace_all_absent "~" "~0" (e_name e) "~") by (auto; reflexivity).
    apply (replace_all_absent "/" "~1" (e_name e) "/"); [reflexivity | exact Hs]. }
  rewrite En. rewrite app_nil_r_s. destruct (e_kind e); reflexivity.
Qed.
Lemma etext_comp e e' : good_name (e_name e) -> good_name (e_name e') -> etext e = etext e' -> comp_of e = comp_of e'.
Proof.
  intros G G' E. unfold etext in E. rewrite !entity_frag in E by (apply G || apply G').
  change (ptr_string {| p_url := p_url new_pointer; p_frag := ["components"; kind_key (e_kind e); e_name e] |})
    with (String "#" (frag_string ["components"; kind_key (e_kind e); e_name e])) in E.
  change (ptr_string {| p_url := p_url new_pointer; p_frag := ["components"; kind_key (e_kind e'); e_name e'] |})
    with (String "#" (frag_string ["components"; kind_key (e_kind e'); e_name e'])) in E.
  apply (f_equal (fun s => match s with String _ r => r | _ => "" end)) in E. cbn beta iota in E.
  apply frag_string_inj in E. injection E as E1 E2. unfold comp_of, comp_loc. congruence.
Qed.

(** ** has_ref through a set *)
Lemma setp_has_ref path v c c' t : c_setp path v c = Ok c' -> has_ref (c_data c') t ->
  has_ref (c_data c) t \/ has_ref v t \/ v = JStr t.
Proof.
  intros H [q Hq]. apply setp_inv in H as (j & v' & r & q1 & -> & -> & Hc & _ & Ha & Hr). cbn [c_data] in *.
  destruct (gset_scalar _ _ _ _ _ Ha _ Hr _ _ Hq eq_refl) as [(q'' & E & L)|[A L]].
  - right. destruct q'' as [|s q''] using rev_ind.
    + right. cbn in L. injection L as ->. now apply clone_scalar_str in Hc.
    + left. rewrite app_assoc in E. apply app_inj_tail in E as [_ <-]. exists q''. now apply (clone_lookup_str _ _ _ t Hc).
  - left. exists q. now apply lookup_denull_str.
Qed.

Section Local.
  Context (ord : list nat -> list (string * json) -> list (string * json)) (es : list export) (fn : ptr -> res json).
  Hypothesis Hnames : Forall (fun e => good_name (e_name e)) es.
  Hypothesis Hfn : forall p x e, fn p = Ok x -> In e es -> ~ has_ref x (etext e).

  Definition done (c : cont) (e : export) : Prop := exists v, lookup (comp_of e) (c_data c) = Some v.
  (** The pointer of an export with the same reference text is being resolved. *)
  Definition pend (pp : list ptr) (e : export) : Prop :=
    exists p e', In p pp /\ exports_get es p = Some e' /\ etext e' = etext e.

  Lemma good e : In e es -> good_name (e_name e).
  Proof. rewrite Forall_forall in Hnames. apply Hnames. Qed.

  Lemma done_same c e e' : In e es -> In e' es -> etext e = etext e' -> done c e -> done c e'.
  Proof. intros H H' E [v Hv]. exists v. now rewrite <- (etext_comp _ _ (good _ H) (good _ H') E). Qed.

  (** A set keeps every location that is not strictly below it. *)
  Lemma setp_done path v c c' e : c_setp path v c = Ok c' ->
    (forall q1, addresses true (dot_path path) (denull (c_data c)) q1 -> ~ exists s t, comp_of e = q1 ++ s :: t) ->
    done c e -> done c' e.
  Proof.
    intros H Hq [x Hx]. apply setp_inv in H as (j & v' & r & q1 & -> & -> & Hc & _ & Ha & Hr). cbn [c_data] in *.
    unfold done. cbn [c_data]. destruct (gset_spec _ _ _ _ v' Ha _ Hr) as [G1 G2].
    destruct (loc_cases q1 (comp_of e)) as [[t Et]|[(s & t & Et)|A]].
    - destruct t as [|s t]; [rewrite app_nil_r in Et; rewrite Et; eauto|]. exfalso. apply (Hq _ Ha). eauto.
    - rewrite Et, lookup_app in G1. destruct (lookup (comp_of e) r); [eauto | discriminate].
    - rewrite (G2 _ A). destruct (apart_denull q1 (comp_of e) j) as [->| ->]; [discriminate | eauto|].
      exfalso. apply (proj1 A). exists []. now rewrite app_nil_r.
  Qed.

  Lemma entity_done e e' v c c' : In e es -> In e' es -> set_entity (e_kind e) (e_name e) v c = Ok c' ->
    (done c e' -> done c' e') /\ done c' e.
  Proof.
    intros He He' H. split.
    - eapply setp_done; [exact H|]. intros q1 Ha. rewrite entity_dot_path in Ha by apply (good e He).
      apply address_comp in Ha as ->; [|now apply good]. intros (s & t & E). discriminate E.
    - apply setp_inv in H as (j & v' & r & q1 & -> & -> & Hc & _ & Ha & Hr). rewrite entity_dot_path in Ha by apply (good e He).
      apply address_comp in Ha as E; [|now apply good]. destruct (gset_spec _ _ _ _ v' Ha r) as [G1 _].
      { rewrite entity_dot_path in Hr by apply (good e He). exact Hr. }
      exists v'. cbn [c_data]. unfold comp_of. now rewrite <- E.
  Qed.

  Definition inv (pp : list ptr) (s : rstate) : Prop := forall e, In e es ->
    (has_ref (c_data (fst s)) (etext e) -> done (fst s) e \/ pend pp e) /\
    (has_ref (c_data (st_cx s)) (etext e) -> done (fst s) e \/ pend pp e).

  Lemma pend_mono pp p e : pend pp e -> pend (pp ++ [p]) e.
  Proof. intros (x & e' & H1 & H2). exists x, e'. split; [apply in_or_app; now left | exact H2]. Qed.
  Lemma pend_split pp p e : pend (pp ++ [p]) e -> pend pp e \/ exists e', exports_get es p = Some e' /\ etext e' = etext e.
  Proof.
    intros (x & e' & H1 & H2 & H3). apply in_app_or in H1 as [H1|[<-|[]]]; [left; exists x, e'; auto | right; eauto].
  Qed.
  Lemma exports_get_text p p' : ptr_string p = ptr_string p' -> exports_get es p = exports_get es p'.
  Proof. unfold exports_get. now intros ->. Qed.

  (** The sets of the current container: how they treat components.  [keep s]:
      they never remove a component (trivially so when cx is not r.con). *)
  Definition safe_path (s : rstate) (path : string) : Prop := snd s = None ->
    forall c q1, addresses true (dot_path path) c q1 -> forall e, In e es -> ~ exists x t, comp_of e = q1 ++ x :: t.

  Lemma cx_set pp s s' f path v : (forall c c', f c = Ok c' -> c_setp path v c = Ok c') -> safe_path s path -> on_cx f s = Ok s' -> inv pp s ->
    is_scalar v = false \/ (exists t, v = JStr t) ->
    (forall e, In e es -> has_ref v (etext e) \/ v = JStr (etext e) -> done (fst s) e \/ pend pp e) ->
    inv pp s' /\ (snd s = None <-> snd s' = None) /\ (forall e, In e es -> done (fst s) e -> done (fst s') e) /\
      is_scalar (c_data (st_cx s')) = false.
  Proof.
    intros Hf Hsafe H Hi Hv0 Hv. unfold on_cx in H. destruct s as [rt [cx|]]; cbn [fst snd] in *;
      apply bind_ok in H as (c' & Hc & E); injection E as <-; apply Hf in Hc.
    - split; [|split; [split; discriminate | split; [auto|]]].
      + intros e He. destruct (Hi e He) as [I1 I2]. unfold st_cx in *. cbn [fst snd] in *. split; [exact I1|].
        intro Hh. destruct (setp_has_ref _ _ _ _ _ Hc Hh) as [Hr|Hr]; [now apply I2 | now apply Hv].
      + unfold st_cx. cbn [snd]. now apply setp_inv in Hc as (? & ? & ? & ? & _ & -> & _ & Hsc & _).
    - assert (Hd : forall e, In e es -> done rt e -> done c' e).
      { intros e He. eapply setp_done; [exact Hc|]. intros q1 Ha. exact (Hsafe eq_refl _ _ Ha e He). }
      split; [|split; [split; reflexivity | split; [exact Hd|]]].
      + intros e He. destruct (Hi e He) as [I1 I2]. unfold st_cx in *. cbn [fst snd] in *.
        assert (G : has_ref (c_data c') (etext e) -> done c' e \/ pend pp e).
        { intro Hh. destruct (setp_has_ref _ _ _ _ _ Hc Hh) as [Hr|Hr].
          - destruct (I1 Hr); auto.
          - destruct (Hv e He Hr); auto. }
        split; exact G.
      + unfold st_cx. cbn [fst snd]. now apply setp_inv in Hc as (? & ? & ? & ? & _ & -> & _ & Hsc & _).
  Qed.

  (** The paths written for one extracted key. *)
  Definition key_safe (s : rstate) (key : string) : Prop :=
    safe_path s key /\ forall path, isref key = Some path -> safe_path s path.

  Lemma replace_step pp s s' key v : key_safe s key -> on_cx (replace_ptr key v) s = Ok s' -> inv pp s -> is_scalar v = false ->
    (forall e, In e es -> has_ref v (etext e) -> done (fst s) e \/ pend pp e) ->
    inv pp s' /\ (snd s = None <-> snd s' = None) /\ (forall e, In e es -> done (fst s) e -> done (fst s') e) /\ is_scalar (c_data (st_cx s')) = false.
  Proof.
    intros [_ Hk] H Hi Hs Hv. destruct (isref key) as [path|] eqn:E.
    - apply (cx_set pp s s' (replace_ptr key v) path v); auto.
      + intros c c'. unfold replace_ptr. now rewrite E.
      + intros e He [Hr| ->]; [now apply Hv | discriminate].
    - exfalso. unfold on_cx, replace_ptr in H. rewrite E in H. destruct (snd s); discriminate.
  Qed.
  Lemma update_step pp s s' key e0 : key_safe s key -> In e0 es ->
    on_cx (update_ptr_local key (entity_fragment (e_kind e0) (e_name e0))) s = Ok s' -> inv pp s ->
    (done (fst s) e0 \/ pend pp e0) ->
    inv pp s' /\ (snd s = None <-> snd s' = None) /\ (forall e, In e es -> done (fst s) e -> done (fst s') e) /\ is_scalar (c_data (st_cx s')) = false.
  Proof.
    intros [Hk _] He0 H Hi Hd. apply (cx_set pp s s' (update_ptr_local key (entity_fragment (e_kind e0) (e_name e0))) key (JStr (etext e0))); auto.
    - intros c c'. unfold update_ptr_local, update_ptr. destruct (isref key); [auto | discriminate].
    - right. eauto.
    - intros e He [[q Hq]|E].
      + destruct q as [|[|] q]; discriminate.
      + assert (E' : etext e0 = etext e) by congruence. clear E. destruct Hd as [Hd|(x & e' & H1 & H2 & H3)].
        * left. eapply done_same; [exact He0 | exact He | exact E' | exact Hd].
        * right. exists x, e'. split; [exact H1|]. split; [exact H2 | congruence].
  Qed.

  Lemma iterator_inv : forall fuel pos pp s s', iterator ord es fn fuel pos pp s = Ok s' -> inv pp s ->
    (forall refs, extract_key (ord pos) "$ref" (st_cx s) = Ok refs -> snd s = None ->
       forall key t p, In (key, JStr t) refs -> ptr_parse t = Ok p -> is_external p = true -> forall s1, key_safe s1 key) ->
    inv pp s' /\ (snd s = None <-> snd s' = None) /\ is_scalar (c_data (st_cx s')) = false /\
    (forall e, In e es -> done (fst s) e -> done (fst s') e).
  Proof.
    induction fuel as [|f IH]; intros pos pp s s' H Hi Hkey; [discriminate|].
    rewrite iterator_S in H. apply bind_ok in H as (refs & He & H).
    assert (Hsc : is_scalar (c_data (st_cx s)) = false).
    { destruct (st_cx s) as [j|]; [eapply extract_scalar; exact He | discriminate]. }
    assert (Hk : forall key t p, In (key, JStr t) refs -> ptr_parse t = Ok p -> is_external p = true -> forall s1, (snd s = None <-> snd s1 = None) -> key_safe s1 key).
    { intros key t p Hin Hp Hx s1 Hm. destruct (snd s) eqn:E.
      - split; [|intros path _]; intros Hn; exfalso; apply Hm in Hn; discriminate.
      - eapply Hkey; eauto. }
    clear Hkey He.
    assert (Loop : forall refs0 i s1, incl refs0 refs -> inv pp s1 -> (snd s = None <-> snd s1 = None) -> is_scalar (c_data (st_cx s1)) = false ->
       (forall e, In e es -> done (fst s) e -> done (fst s1) e) ->
       rloop (rstep ord es fn f pos pp) i refs0 s1 = Ok s' ->
       inv pp s' /\ (snd s = None <-> snd s' = None) /\ is_scalar (c_data (st_cx s')) = false /\
       (forall e, In e es -> done (fst s) e -> done (fst s') e)).
    2:{ apply (Loop refs 0 s); auto using incl_refl. tauto. }
    clear H. induction refs0 as [|[key v] refs0 IHl]; intros i s1 Hinc Hi1 Hm Hs1 Hd H; cbn [rloop] in H; [injection H as <-; auto|].
    apply bind_ok in H as (s2 & Hs & H).
    assert (Hinc' : incl refs0 refs) by (intros y Hy; apply Hinc; now right).
    assert (Hin : In (key, v) refs) by (apply Hinc; now left).
    assert (inv pp s2 /\ (snd s1 = None <-> snd s2 = None) /\ (forall e, In e es -> done (fst s1) e -> done (fst s2) e) /\ is_scalar (c_data (st_cx s2)) = false)
      as (J1 & J2 & J3 & J4); [|apply (IHl (S i) s2); auto; tauto].
    clear H IHl.
    assert (Same : s1 = s2 -> inv pp s2 /\ (snd s1 = None <-> snd s2 = None) /\ (forall e, In e es -> done (fst s1) e -> done (fst s2) e) /\ is_scalar (c_data (st_cx s2)) = false).
    { intros <-. split; [exact Hi1|]. split; [tauto|]. split; [auto | exact Hs1]. }
    unfold rstep in Hs. destruct v as [| | |t| |]; try (apply Same; congruence).
    apply bind_ok in Hs as (p & Hp & Hs). destruct (is_external p) eqn:Hx; cbn [negb] in Hs; [|apply Same; congruence].
    clear Same.
    destruct (path_has pp p) eqn:Hh.
    - assert (Hks : key_safe s1 key) by (eapply Hk; eauto).
      unfold r_set_recursive in Hs. destruct (exports_get es p) as [e0|] eqn:Ee; [destruct (is_scheme e0)|].
      + apply (update_step pp s1 s2 key e0 Hks (proj1 (exports_get_in _ _ _ Ee)) Hs Hi1). right.
        apply path_has_spec, in_map_iff in Hh as (p' & Ep & Hp'). exists p', e0. split; [exact Hp'|]. split; [|reflexivity].
        now rewrite (exports_get_text p' p Ep).
      + apply (replace_step pp s1 s2 key (JObj []) Hks Hs Hi1); [reflexivity|]. intros e _ [[|[|] q] Hq]; discriminate.
      + apply (replace_step pp s1 s2 key (JObj []) Hks Hs Hi1); [reflexivity|]. intros e _ [[|[|] q] Hq]; discriminate.
    - apply bind_ok in Hs as (x & Hfx & Hs). apply bind_ok in Hs as (nc & Hnc & Hs). apply bind_ok in Hs as (r & Hr & Hs).
      unfold c_make in Hnc. apply bind_ok in Hnc as (x' & Hcl & Enc). injection Enc as <-.
      destruct (IH _ _ (fst s1, Some (Some x')) _ Hr) as (K1 & K2 & K3 & K4).
      { intros e Hee. split.
        - cbn [fst]. intro Hr1. destruct (proj1 (Hi1 e Hee) Hr1); [now left | right; now apply pend_mono].
        - unfold st_cx. cbn [snd c_data]. intros [q Hq]. exfalso. apply (Hfn _ _ e Hfx Hee). exists q. now apply (clone_lookup_str _ _ _ _ Hcl). }
      { intros refs' _ Hn. discriminate. }
      cbn [fst snd] in K2, K4.
      assert (Hn2 : snd r <> None) by (intro Hn; apply K2 in Hn; discriminate).
      unfold r_set in Hs. destruct (exports_get es p) as [e0|] eqn:Ee.
      + pose proof (proj1 (exports_get_in _ _ _ Ee)) as He0. apply bind_ok in Hs as (s3 & Hs3 & Hs).
        unfold on_root in Hs3. cbn [fst snd] in Hs3. apply bind_ok in Hs3 as (c' & Hc & E3). injection E3 as <-.
        assert (D0 : done c' e0) by (eapply (entity_done e0 e0); eauto).
        assert (D1 : forall e, In e es -> done (fst r) e -> done c' e) by (intros e Hee; eapply (entity_done e0 e); eauto).
        assert (Pd : forall e, In e es -> done (fst r) e \/ pend (pp ++ [p]) e -> done c' e \/ pend pp e).
        { intros e Hee [X|X]; [left; now apply D1|]. apply pend_split in X as [X|(e' & X1 & X2)]; [now right|].
          left. rewrite Ee in X1. injection X1 as <-. eapply done_same; [exact He0 | exact Hee | exact X2 | exact D0]. }
        assert (Rt : forall e, In e es -> has_ref (c_data c') (etext e) -> done c' e \/ pend pp e).
        { intros e Hee Hh'. apply Pd; [exact Hee|]. destruct (setp_has_ref _ _ _ _ _ Hc Hh') as [X|[X|X]].
          - exact (proj1 (K1 e Hee) X).
          - exact (proj2 (K1 e Hee) X).
          - rewrite X in K3. discriminate. }
        destruct (update_step pp (c', snd s1) s2 key e0) as (U1 & U2 & U3 & U4); auto.
        * eapply Hk; eauto.
        * intros e Hee. split; [now apply Rt|]. unfold st_cx. cbn [fst snd]. destruct (snd s1) as [cx|] eqn:E1; [|now apply Rt].
          intro X. destruct (Hi1 e Hee) as [_ I2]. unfold st_cx in I2. rewrite E1 in I2. destruct (I2 X) as [Y|Y]; [left; apply D1, K4; auto | now right].
        * split; [exact U1|]. split; [exact U2|]. split; [|exact U4]. cbn [fst] in U3. auto.
      + assert (Pd : forall e, In e es -> done (fst r) e \/ pend (pp ++ [p]) e -> done (fst r) e \/ pend pp e).
        { intros e Hee [X|X]; [now left|]. apply pend_split in X as [X|(e' & X1 & X2)]; [now right|]. congruence. }
        destruct (replace_step pp (fst r, snd s1) s2 key (c_data (st_cx r))) as (U1 & U2 & U3 & U4); auto.
        * eapply Hk; eauto.
        * intros e Hee. cbn [fst]. split; [intro X; apply Pd; [exact Hee|]; exact (proj1 (K1 e Hee) X)|].
          unfold st_cx. cbn [fst snd]. destruct (snd s1) as [cx|] eqn:E1; [|intro X; apply Pd; [exact Hee|]; exact (proj1 (K1 e Hee) X)].
          intro X. destruct (Hi1 e Hee) as [_ I2]. unfold st_cx in I2. rewrite E1 in I2. destruct (I2 X) as [Y|Y]; [left; apply K4; auto | now right].
        * intros e Hee X. apply Pd; [exact Hee|]. exact (proj2 (K1 e Hee) X).
        * split; [exact U1|]. split; [exact U2|]. split; [|exact U4]. cbn [fst] in U3. auto.
  Qed.
End Local.

Lemma addresses_segs top p j q : addresses top p j q -> Forall2 (fun s x => forall k, x = SKey k -> s = k) p q.
Proof. induction 1; constructor; auto; intros k' E; congruence. Qed.

Lemma seg_key s k : atoi k = None -> seg_ok s -> seg s = k -> s = SKey k.
Proof.
  destruct s as [k'|i]; cbn [seg]; [congruence|]. intros Ha Ho <-. cbn in Ho. rewrite atoi_itoa in Ha by exact Ho. discriminate.
Qed.

Lemma comp_prefix e q1 x t : comp_of e = q1 ++ x :: t ->
  q1 = [] \/ q1 = [SKey "components"] \/ q1 = [SKey "components"; SKey (kind_key (e_kind e))].
Proof.
  unfold comp_of, comp_loc. destruct q1 as [|a [|b [|c q1]]]; cbn; intro E; [auto| | |].
  - injection E as <- <- _. auto.
  - injection E as <- <- _ _. auto.
  - injection E as <- <- <- E. destruct q1; discriminate.
Qed.

Lemma key_safe_top es j0 q0 t p s : Forall seg_ok (q0 ++ [REF]) -> ext_ref j0 q0 t p ->
  (forall t p, ~ ext_ref j0 [] t p) -> (forall t p, ~ ext_ref j0 [SKey "components"] t p) ->
  (forall e, In e es -> forall t p, ~ ext_ref j0 [SKey "components"; SKey (kind_key (e_kind e))] t p) ->
  key_safe es s (render (q0 ++ [REF])).
Proof.
  intros Ho He N0 N1 N2. assert (q0 <> []) as Hq by (intros ->; exact (N0 _ _ He)).
  assert (Ho' : Forall seg_ok q0) by (apply Forall_app in Ho; apply Ho).
  split; [|intros path E; rewrite isref_render in E by exact Ho; injection E as <-]; intros _ c q1 Ha e Hin (x & u & E);
    apply comp_prefix in E; (rewrite dot_path_render in Ha; [|first [exact Hq | destruct q0; discriminate] | assumption]);
    apply addresses_segs in Ha.
  - rewrite map_app in Ha. cbn [map seg] in Ha. destruct E as [->|[->| ->]].
    + inversion Ha as [E|]. destruct q0; discriminate.
    + destruct q0 as [|s0 q0]; [congruence|]. cbn in Ha. inversion Ha as [|? ? ? ? _ H2]; subst. inversion H2 as [E|]. destruct q0; discriminate.
    + destruct q0 as [|s0 q0]; [congruence|]. cbn in Ha. inversion Ha as [|? ? ? ? _ H2]; subst. destruct q0 as [|s1 q0].
      * cbn in H2. inversion H2 as [|? ? ? ? H3 _]; subst. specialize (H3 _ eq_refl). destruct (e_kind e); discriminate.
      * cbn in H2. inversion H2 as [|? ? ? ? _ H4]; subst. inversion H4 as [E|]. destruct q0; discriminate.
  - destruct E as [->|[->| ->]].
    + inversion Ha as [E|]. destruct q0; [congruence | discriminate].
    + destruct q0 as [|s0 [|]]; [congruence| |inversion Ha as [|? ? ? ? _ H2]; subst; inversion H2].
      cbn in Ha. inversion Ha as [|? ? ? ? H1 _]; subst. specialize (H1 _ eq_refl).
      inversion Ho'; subst. apply seg_key in H1; [|reflexivity | assumption]. subst s0. exact (N1 _ _ He).
    + destruct q0 as [|s0 [|s1 [|]]]; [congruence|inversion Ha as [|? ? ? ? _ H2]; inversion H2| |
        inversion Ha as [|? ? ? ? _ H2]; subst; inversion H2 as [|? ? ? ? _ H4]; subst; inversion H4].
      cbn in Ha. inversion Ha as [|? ? ? ? H1 H2]; subst. inversion H2 as [|? ? ? ? H3 _]; subst.
      specialize (H1 _ eq_refl). specialize (H3 _ eq_refl).
      inversion Ho' as [|? ? O1 O2]; subst. inversion O2 as [|? ? O3 _]; subst.
      apply seg_key in H1; [|reflexivity | assumption]. apply seg_key in H3; [|apply kind_key_plain | assumption]. subst s0 s1.
      exact (N2 e Hin _ _ He).
Qed.

Theorem resolve_local ord es fn fuel doc r : (forall pos l, Permutation (ord pos l) l) -> wf doc -> keys_ok plain doc ->
  Forall (fun e => good_name (e_name e)) es ->
  (forall e, In e es -> ~ has_ref doc (local_text (kind_key (e_kind e)) (e_name e))) ->
  (forall p x e, fn p = Ok x -> In e es -> ~ has_ref x (local_text (kind_key (e_kind e)) (e_name e))) ->
  (forall t p, ~ ext_ref doc [] t p) -> (forall t p, ~ ext_ref doc [SKey "components"] t p) ->
  (forall e, In e es -> forall t p, ~ ext_ref doc [SKey "components"; SKey (kind_key (e_kind e))] t p) ->
  resolve ord es fn fuel (Some doc) = Ok r ->
  forall e, In e es -> has_ref (c_data r) (local_text (kind_key (e_kind e)) (e_name e)) ->
  exists v, lookup (comp_loc (kind_key (e_kind e)) (e_name e)) (c_data r) = Some v.
Proof.
  intros Ho Hw Hk Hg Hd Hf N0 N1 N2 H e He Hr.
  assert (Hg' : forall e, In e es -> good_name (e_name e)) by (now rewrite Forall_forall in Hg).
  unfold resolve in H. apply bind_ok in H as (s' & H & E). injection E as <-.
  assert (exists doc', clone doc = Ok doc') as [doc' Hc].
  { destruct (clone_cases doc) as [[x Ex]|Ex]; [eauto|]. exfalso. destruct fuel; [discriminate|]. rewrite iterator_S in H.
    unfold st_cx, c_clone in H. cbn [fst snd c_data] in H. rewrite Ex in H. discriminate. }
  assert (Ec : c_clone (Some doc) = Some doc') by (unfold c_clone; cbn [c_data]; now rewrite Hc). rewrite Ec in H.
  destruct (iterator_inv ord es fn Hg) with (2 := H) as (I1 & I2 & _ & _).
  - intros p x e0 Hx He0. rewrite etext_local by now apply Hg'. now apply (Hf p x e0).
  - intros e0 He0. split; intro X; exfalso; rewrite etext_local in X by (now apply Hg'); unfold st_cx in X; cbn [fst snd c_data] in X;
      apply (Hd e0 He0); destruct X as [q X]; exists q; now apply (clone_lookup_str _ _ _ _ Hc).
  - intros refs Hx _ key t p Hin Hp Hx' s1. unfold st_cx in Hx. cbn [fst snd] in Hx.
    pose proof (clone_keys_ok _ _ _ Hk Hc) as Hk'. pose proof (clone_wf _ _ Hw Hc) as Hw'.
    destruct (extract_refs (ord []) doc' refs (Ho []) Hw' Hk' Hx) as (_ & Hre & _). rewrite Forall_forall in Hre.
    destruct (Hre _ Hin) as (q0 & E1 & L1 & O1). cbn [fst snd] in E1, L1. subst key.
    apply (key_safe_top es doc q0 t p); auto. split; [now apply (clone_lookup_str _ _ _ _ Hc) | auto].
  - destruct (I1 e He) as [_ I3]. rewrite etext_local in I3 by now apply Hg'.
    assert (En : fst s' = st_cx s') by (unfold st_cx; rewrite (proj1 I2 eq_refl); reflexivity).
    destruct (I3 Hr) as [[v Hv]|(p & e' & [] & _)]. exists v. rewrite <- En. exact Hv.
Qed.
