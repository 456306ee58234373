(** From the configuration document to the options of the run. *)
From Coq Require Import String Ascii List Bool Arith ZArith Lia Permutation.
From Verif Require Import GoStr Json JsonFacts Gabs Container MergeFacts Spec_Clone CloneFacts Url Pointer SchemaJson SchemaJsonFacts SchemaJsonApi
  Spec_Loc LocFacts Spec_Format Root Spec_Root RootFacts Spec_Resolve Shape Spec_Shape ShapeFacts ShapeApi Types Spec_Scan Scan ScanKept3 Spec_Kept Config ConfigScan Spec_ConfigScan ConfigScanFacts.
Import ListNotations.
Local Open Scope string_scope.
Local Open Scope nat_scope.
Local Open Scope list_scope.

Lemma raw_app z r s2 x2 : finds SAny z r s2 x2 -> s2 = SAny /\ lookup r z = Some x2.
Proof. intro H. inversion H; subst; auto. Qed.
Lemma finds_app s j q s1 x1 : finds s j q s1 x1 -> forall r s2 x2, finds s1 x1 r s2 x2 -> finds s j (q ++ r) s2 x2.
Proof.
  induction 1; intros r s2 x2 Fr; cbn [app]; try (now econstructor; eauto).
  - exact Fr.
  - destruct (raw_app _ _ _ _ Fr) as (-> & L). apply f_raw. change (a :: q ++ r) with ((a :: q) ++ r). now rewrite lookup_app, H.
  - destruct (raw_app _ _ _ _ Fr) as (-> & L). apply f_union. change (a :: q ++ r) with ((a :: q) ++ r). now rewrite lookup_app, H.
  - inversion Fr; subst. econstructor; eassumption.
Qed.

Section Config.
Context (raw : json -> string) (big : Z -> option Z).
Hypothesis Hb : reads_back big.
Local Notation decode := (decode raw big).
Local Notation each := (each raw big).

(** A member of the decoded configuration. *)
Lemma member_spec m v k s : decode (JObj m) (SVal TConfig) = Ok v -> In (k, s) (known TConfig) ->
  (exists k0 x, In (k0, x) m /\ same_name k0 k /\ decode x s = Ok (member v k)) \/ (member v k = zero_of s /\ forall k0 x, In (k0, x) m -> ~ same_name k0 k).
Proof.
  intros D Ik. rewrite dec_val in D. apply bind_ok in D as (vs & Hvs & D). injection D as <-. apply known_field in Ik as (f & If & <- & <-).
  unfold member, assemble. rewrite assemble_get, (find_name _ _ If).
  destruct (each_in _ _ _ _ _ Hvs) as (A & B & _). destruct (last_for_spec TConfig (Shape.f_name f) vs (zero_of (f_shape f))) as [(k0 & g & I & Eg & En)|[Eq Nx]].
  - left. destruct (B _ _ I) as (x & s & Ix & Es & Hx). rewrite Eg in Es. injection Es as <-. apply field_of_spec in Eg as [Ig Sg].
    assert (g = f) as -> by exact (nodup_map_inj _ _ _ _ (fields_nodup' TConfig) Ig If En). eauto.
  - right. split; [exact Eq|]. intros k0 x Ix Sn. assert (Ef : field_of TConfig k0 = Some f) by (apply field_of_spec; auto).
    destruct (A k0 x (f_shape f) Ix) as (v & Iv & _); [now rewrite Ef|]. exact (Nx _ _ _ Iv Ef eq_refl).
Qed.
Lemma member_null k s : In (k, s) (known TConfig) -> member (zero_struct TConfig) k = zero_of s.
Proof. intro H. cbn in H. repeat (destruct H as [H|H]; [injection H as <- <-; reflexivity|]). destruct H. Qed.
(** What is configured below a member is found below its value. *)
Lemma configured_inv m k q s' y : configured (JObj m) (SKey k :: q) s' y -> exists s k0 x, In (k, s) (known TConfig) /\ In (k0, x) m /\ same_name k0 k /\ finds s x q s' y.
Proof. intro H. inversion H; subst. eauto 8. Qed.
Lemma configured_mk m k q s k0 x s' y : In (k, s) (known TConfig) -> In (k0, x) m -> same_name k0 k -> finds s x q s' y -> configured (JObj m) (SKey k :: q) s' y.
Proof. intros. eapply f_val; eassumption. Qed.

(** The decoded member of a section that says something. *)
Lemma member_of j v k q s' y : unambiguous (SVal TConfig) j -> decode j (SVal TConfig) = Ok v -> configured j (SKey k :: q) s' y ->
  exists s x, In (k, s) (known TConfig) /\ configured j [SKey k] s x /\ unambiguous s x /\ decode x s = Ok (member v k) /\ finds s x q s' y.
Proof.
  intros U D C. destruct j as [| | | | |m]; try (inversion C; fail). destruct (configured_inv _ _ _ _ _ C) as (s & k0 & x & Ik & I & Sn & Fd).
  exists s, x. split; [exact Ik|]. split; [exact (configured_mk _ _ _ _ _ _ _ _ Ik I Sn (f_here _ _))|]. split; [exact (un_val _ _ _ _ _ _ U Ik I Sn)|]. split; [|exact Fd].
  destruct (member_spec m v k s D Ik) as [(k1 & x1 & I1 & Sn1 & D1)|(_ & Nn)]; [|destruct (Nn k0 x I Sn)].
  pose proof (one_name m k0 x k1 x1 k (val_good _ _ _ _ U Ik) I I1 Sn Sn1) as E. injection E as <- <-. exact D1.
Qed.
Lemma member_cases j v k s : unambiguous (SVal TConfig) j -> decode j (SVal TConfig) = Ok v -> In (k, s) (known TConfig) ->
  member v k = zero_of s \/ exists x, configured j [SKey k] s x /\ unambiguous s x /\ decode x s = Ok (member v k) /\ (exists m k0, j = JObj m /\ In (k0, x) m).
Proof.
  intros U D Ik. destruct j as [| | | | |m]; try discriminate D.
  - injection D as <-. left. exact (member_null k s Ik).
  - destruct (member_spec m v k s D Ik) as [(k0 & x & I & Sn & Dx)|(E & _)]; [|now left]. right. exists x. split; [exact (configured_mk _ _ _ _ _ _ _ _ Ik I Sn (f_here _ _))|].
    split; [exact (un_val _ _ _ _ _ _ U Ik I Sn)|]. split; [exact Dx|]. eauto.
Qed.

(** ** The root document *)
Definition common_shape (k : string) (s : shape) : Prop := In k common /\ In (k, s) (known TConfig).
Lemma root_members v root : encode (root_of v) = Ok root ->
  exists r, root = JObj r /\ sorted r /\
    (forall k, In k common -> if is_empty (member v k) then oget k r = None else exists y, encode (member v k) = Ok y /\ oget k r = Some y) /\
    (forall k, ~ In k common -> oget k r = None).
Proof.
  unfold root_of. rewrite enc_struct. intro H. apply bind_ok in H as (js & Hjs & H). injection H as <-. exists (obj_of js). split; [reflexivity|]. split; [apply obj_of_sorted|].
  match type of Hjs with emit _ ?l = _ => assert (N : NoDup (map fst l)) by (cbn; repeat (constructor; [cbn; intuition discriminate|]); constructor) end. pose proof (emit_get _ _ _ Hjs N) as G.
  split.
  - intros k Ik. specialize (G k). rewrite oget_obj_of. cbn in Ik. repeat (destruct Ik as [<-|Ik]; [exact G|]). destruct Ik.
  - intros k Nk. rewrite oget_obj_of. specialize (G k). cbn [oget] in G. unfold common in Nk.
    destruct (String.eqb_spec k "openapi") as [Ee|]; [subst k; exact G|]. destruct (String.eqb_spec k "info") as [Ee|]; [exfalso; subst k; apply Nk; cbn; auto 10|]. destruct (String.eqb_spec k "servers") as [Ee|]; [exfalso; subst k; apply Nk; cbn; auto 10|].
    destruct (String.eqb_spec k "paths") as [Ee|]; [subst k; exact G|]. destruct (String.eqb_spec k "components") as [Ee|]; [exfalso; subst k; apply Nk; cbn; auto 10|]. destruct (String.eqb_spec k "security") as [Ee|]; [exfalso; subst k; apply Nk; cbn; auto 10|].
    destruct (String.eqb_spec k "tags") as [Ee|]; [exfalso; subst k; apply Nk; cbn; auto 10|]. destruct (String.eqb_spec k "externalDocs") as [Ee|]; [exfalso; subst k; apply Nk; cbn; auto 10|]. exact G.
Qed.
Lemma common_known k : In k common -> exists s, In (k, s) (known TConfig) /\ (forall x y, shows s x y -> ~ scalar y).
Proof.
  intro H. cbn in H. repeat (destruct H as [<-|H]; [eexists; split; [cbn; intuition reflexivity|]; intros [] y; cbn; try (intros ->; cbn; tauto); try tauto; intros (? & -> & ?) || intros (? & ->); cbn; tauto|]). destruct H.
Qed.
Lemma plain_known t k : In k (map fst (known t)) -> plain k.
Proof.
  assert (G : forallb (fun k => negb (String.eqb k "") && negb (has_char "." k) && negb (has_char "~" k)) (map fst (known t)) = true) by (destruct t; vm_compute; reflexivity).
  rewrite forallb_forall in G. intro I. specialize (G k I). apply andb_true_iff in G as [G C]. apply andb_true_iff in G as [A B]. apply negb_true_iff in A, B, C. apply String.eqb_neq in A. unfold plain. auto.
Qed.

Section Doc.
Context (j : json) (v : gval).
Hypothesis U : usual_config j.
Hypothesis Fx : fixed j.
Hypothesis D : decode j (SVal TConfig) = Ok v.
Lemma sub_nice P m k0 x : j = JObj m -> In (k0, x) m -> keys_ok P x -> nice P x.
Proof.
  intros -> I K. destruct U as (W & _). pose proof W as W'. apply wf_obj in W' as [S _]. pose proof (sorted_in_oget _ _ _ S I) as E. split; [exact (wf_oget _ _ _ W E)|]. split; [exact K|]. exact (fixed_oget m k0 x S Fx E).
Qed.
Lemma root_section root k y : encode (root_of v) = Ok root -> lookup [SKey k] root = Some y ->
  In k common /\ exists s x, In (k, s) (known TConfig) /\ configured j [SKey k] s x /\ unambiguous s x /\ decode x s = Ok (member v k) /\ encode (member v k) = Ok y /\ nice plain y.
Proof.
  intros E L. destruct (root_members v root E) as (r & -> & S & Ga & Gn). cbn in L. destruct (oget k r) as [y'|] eqn:Ek; [|discriminate]. injection L as ->.
  destruct (in_dec string_dec k common) as [Ik|Nk]; [|rewrite (Gn k Nk) in Ek; discriminate]. split; [exact Ik|]. specialize (Ga k Ik).
  destruct (common_known k Ik) as (s & Is & _). destruct (member_cases j v k s (proj1 (proj2 U)) D Is) as [Ez|(x & Cx & Ux & Dx & m & k0 & Ej & I)].
  { rewrite Ez, zero_empty in Ga. congruence. }
  destruct (is_empty (member v k)); [congruence|]. destruct Ga as (y' & Ey & Eo). assert (y' = y) as -> by congruence. exists s, x. repeat (split; [assumption|]).
  destruct U as (_ & _ & K1 & _). refine (nice_out raw big plain plain_known x s _ y (sub_nice plain m k0 x Ej I (K1 k s x Ik Cx)) Dx Ey).
Qed.
Lemma root_canon root : encode (root_of v) = Ok root -> canon_obj root /\ usual_root root /\ forall q, lookup (SKey "paths" :: q) root = None.
Proof.
  intro E. destruct (root_members v root E) as (r & -> & S & Ga & Gn). 
  assert (N : nice plain (JObj r)).
  { apply nice_obj; [exact S|]. intros k y Ek. destruct (root_section (JObj r) k y E) as (Ik & s & x & Is & _ & _ & _ & _ & N); [cbn; now rewrite Ek|]. split; [apply (plain_known TConfig); exact (in_map fst _ _ Is) | exact N]. }
  split; [|split].
  - destruct N as (W & K & _). split; [exact W|]. split; [exact K|]. eauto.
  - intros k _. unfold section. destruct (oget k r) as [y|] eqn:Ek; [|cbn; tauto]. destruct (root_section (JObj r) k y E) as (Ik & s & x & Is & _ & _ & Dx & Ex & _); [cbn; now rewrite Ek|].
    destruct (common_known k Ik) as (s' & Is' & Hs). rewrite (known_fun _ _ _ _ Is Is') in *. exact (Hs x y (head raw big Hb _ _ _ _ Dx Ex)).
  - intro q. cbn. rewrite Gn; [reflexivity|]. cbn. intuition discriminate.
Qed.
(** What the configuration says in a common section is in the root document. *)
Lemma root_says root k q s x : encode (root_of v) = Ok root -> In k common -> configured j (SKey k :: q) s x -> says s x -> exists y, lookup (SKey k :: q) root = Some y /\ shows s x y.
Proof.
  intros E Ik C Sy. destruct (member_of j v k q s x (proj1 (proj2 U)) D C) as (s0 & x0 & Is & Cx & Ux & Dx & Fd). destruct (root_members v root E) as (r & -> & S & Ga & _). specialize (Ga k Ik).
  rewrite (ShapeApi.nonempty raw big _ _ _ _ _ _ Fd Sy Dx) in Ga. destruct Ga as (y0 & Ey & Eo). destruct (kept raw big Hb s0 x0 q s x Fd _ y0 Ux Dx Ey Sy) as (y & L & Sh). exists y. split; [|exact Sh]. cbn. now rewrite Eo.
Qed.
(** ... and no other reference. *)
Lemma no_ref_always t y : ~ In ("$ref", y) (always t).
Proof. destruct t; cbn; intuition discriminate. Qed.
Lemma written_ref s x w y q u : unambiguous s x -> decode x s = Ok w -> encode w = Ok y -> lookup (q ++ [SKey "$ref"]) y = Some (JStr u) -> exists s' z, finds s x (q ++ [SKey "$ref"]) s' z /\ shows s' z (JStr u).
Proof.
  intros Ux Dx Ex L. destruct (written raw big Hb x s w y _ _ Ux Dx Ex L) as [H|(q0 & t & k & z & Eq & A & _)]; [exact H|]. apply app_inj_tail in Eq as [_ [= <-]]. destruct (no_ref_always _ _ A).
Qed.
Lemma root_refs root k q u : encode (root_of v) = Ok root -> lookup (SKey k :: q ++ [SKey "$ref"]) root = Some (JStr u) -> In k common /\ exists s x, configured j (SKey k :: q ++ [SKey "$ref"]) s x /\ shows s x (JStr u).
Proof.
  intros E L. change (SKey k :: q ++ [SKey "$ref"]) with ([SKey k] ++ (q ++ [SKey "$ref"])) in L. rewrite lookup_app in L. destruct (lookup [SKey k] root) as [y|] eqn:Ly; [|discriminate].
  destruct (root_section root k y E Ly) as (Ik & s & x & Is & C & Ux & Dx & Ex & _). split; [exact Ik|]. destruct (written_ref s x _ y q u Ux Dx Ex L) as (s' & z & Fd & Sh). exists s', z. split; [|exact Sh].
  destruct j as [| | | | |m]; try (inversion C; fail). destruct (configured_inv _ _ _ _ _ C) as (s1 & k0 & x1 & Is1 & I & Sn & F1). inversion F1; subst. exact (configured_mk _ _ _ _ _ _ _ _ Is1 I Sn Fd).
Qed.
Lemma root_quiet root q : encode (root_of v) = Ok root -> quiet j q -> only_local_refs root q.
Proof.
  intros E Q q0 u L. destruct q0 as [|[k|i] q0].
  - cbn in L. destruct (root_members v root E) as (r & -> & _ & _ & Gn). rewrite (Gn "$ref") in L; [discriminate|]. cbn. intuition discriminate.
  - cbn [app] in L. destruct (root_refs root k q0 u E L) as (Ik & s & x & C & Sh). exact (Q k q0 s x u Ik C Sh).
  - destruct (root_members v root E) as (r & -> & _). discriminate L.
Qed.
Lemma root_quiet_but root q : encode (root_of v) = Ok root -> quiet j q -> only_ref_at root q.
Proof. intros E Q q0 u L. right. exact (root_quiet root q E Q q0 u L). Qed.

(** ** Overrides and default operations *)
Lemma entries_in k t es : entries (member v k) = Ok es -> In (k, SMap (SVal t)) (known TConfig) ->
  (forall n y, In (n, y) es -> exists x w, configured j [SKey k; SKey n] (SVal t) x /\ unambiguous (SVal t) x /\ decode x (SVal t) = Ok w /\ encode w = Ok y /\ (forall P, keys_ok P x -> nice P x)) /\
  (forall n s x, configured j [SKey k; SKey n] s x -> s = SVal t /\ exists w y, unambiguous (SVal t) x /\ decode x (SVal t) = Ok w /\ encode w = Ok y /\ In (n, y) es) /\
  NoDup (map fst es).
Proof.
  intros He Ik. destruct (member_cases j v k _ (proj1 (proj2 U)) D Ik) as [Ez|(x & Cx & Ux & Dx & m & k0 & Ej & I)].
  - rewrite Ez in He. cbn in He. injection He as <-. split; [intros ? ? []|]. split; [|constructor]. intros n s x C. destruct (member_of j v k _ _ _ (proj1 (proj2 U)) D C) as (s0 & x0 & Is & _ & _ & Dx & Fd).
    rewrite (known_fun _ _ _ _ Is Ik) in *. rewrite Ez in Dx. inversion Fd; subst. rewrite dec_map in Dx. apply bind_ok in Dx as (? & _ & Dx). discriminate.
  - assert (Cs : forall n s' z, configured j [SKey k; SKey n] s' z -> exists mx, x = JObj mx /\ s' = SVal t /\ In (n, z) mx).
    { intros n s' z C. destruct (member_of j v k _ _ _ (proj1 (proj2 U)) D C) as (s0 & x0 & Is & Cx0 & _ & _ & Fd). rewrite (known_fun _ _ _ _ Is Ik) in *.
      pose proof (finds_fun _ _ [SKey k] _ _ Cx0 (proj1 (proj2 U)) [] _ _ Cx) as Fx0. inversion Fx0; subst. inversion Fd; subst. match goal with F : finds (SVal t) _ [] _ _ |- _ => inversion F; subst end. eauto. }
    assert (Nx : forall P, keys_ok P x -> nice P x) by (intro P; exact (sub_nice P m k0 x Ej I)).
    destruct x as [| | | | |mx]; try discriminate Dx.
    + cbn in Dx. injection Dx as Dx. rewrite <- Dx in He. cbn in He. injection He as <-. split; [intros ? ? []|]. split; [|constructor]. intros n s x C. destruct (Cs n s x C) as (? & [=] & _).
    + rewrite dec_map in Dx. apply bind_ok in Dx as (vs & Hvs & Dx). injection Dx as Dx. rewrite <- Dx, entries_map in He. apply enc_map_ok in He.
      destruct (each_in _ _ _ _ _ Hvs) as (A & B & C). pose proof (un_nodup _ _ Ux) as Nm.
      assert (Ek : map fst es = map fst vs) by (clear - He; induction He as [|[? ?] [? ?] ? ? [E _]]; cbn in *; congruence).
      assert (Nv : NoDup (map fst vs)) by (rewrite C; apply NoDup_filter; exact Nm).
      assert (Wx : wf (JObj mx)) by (destruct U as (W & _); subst j; apply wf_obj in W as [S _]; pose proof (sorted_in_oget _ _ _ S I) as E; destruct U as (W & _); exact (wf_oget _ _ _ W E)).
      assert (Fxx : fixed (JObj mx)) by (destruct U as (W & _); subst j; apply wf_obj in W as [S _]; pose proof (sorted_in_oget _ _ _ S I) as E; exact (fixed_oget m k0 _ S Fx E)).
      split; [|split].
      * intros n y Iy. apply In_nth_error in Iy as (i & Ei). destruct (Forall2_at_r _ _ _ He i _ Ei) as ([n' w] & Iw & En & Ew). cbn in En, Ew. subst n'. apply nth_error_In in Iw. destruct (B n w Iw) as (z & s & Iz & [= <-] & Dz).
        exists z, w. split; [subst j; destruct (configured_inv _ _ _ _ _ Cx) as (s1 & k1 & x1 & Is1 & I1 & Sn & F1); inversion F1; subst; refine (configured_mk _ _ _ _ _ _ _ _ Is1 I1 Sn _); eapply f_entry; [exact Iz | apply f_here]|].
        split; [exact (un_map _ _ _ _ Ux Iz)|]. split; [exact Dz|]. split; [exact Ew|]. intros P Kz. pose proof Wx as Wx'. apply wf_obj in Wx' as [Sx _]. pose proof (sorted_in_oget _ _ _ Sx Iz) as Ez. split; [exact (wf_oget _ _ _ Wx Ez)|]. split; [exact Kz|]. exact (fixed_oget _ _ _ Sx Fxx Ez).
      * intros n s' z Cz. destruct (Cs n s' z Cz) as (? & [= <-] & -> & Iz). split; [reflexivity|]. destruct (A n z _ Iz eq_refl) as (w & Iw & Dz). apply In_nth_error in Iw as (i & Ei). destruct (Forall2_at _ _ _ He i _ Ei) as ([n' y] & Iy & En & Ew). cbn in En, Ew. subst n'.
        exists w, y. split; [exact (un_map _ _ _ _ Ux Iz)|]. split; [exact Dz|]. split; [exact Ew|]. exact (nth_error_In _ _ Iy).
      * now rewrite Ek.
Qed.
Lemma overrides_tidy es : entries (member v "overrides") = Ok es -> Forall (fun kv => tidy (snd kv)) es.
Proof.
  intro He. destruct (entries_in "overrides" TSchema es He) as (A & _); [cbn; tauto|]. apply Forall_forall. intros [n y] Iy. destruct (A n y Iy) as (x & w & Cx & Ux & Dx & Ey & Nx). cbn [snd]. destruct U as (_ & _ & _ & K2 & R2 & _).
  destruct (nice_out raw big plain plain_known x _ w y (Nx plain (K2 n _ x Cx)) Dx Ey) as (W & K & _). split; [exact W|]. split; [exact K|]. intros text p (L & Pt & Ex).
  destruct (written_ref _ x w y [] text Ux Dx Ey L) as (s' & z & Fd & Sh). destruct (R2 n s' z text) as (r & ->); [|exact Sh | rewrite (hash_local _ _ Pt) in Ex; discriminate].
  exact (finds_app _ _ _ _ _ Cx _ _ _ Fd).
Qed.
Lemma operations_ok es : entries (member v "operations") = Ok es -> Forall ok_default es /\ Forall (fun kv => wf (snd kv)) es.
Proof.
  intro He. destruct (entries_in "operations" TOperation es He) as (A & _); [cbn; tauto|]. pose proof (proj2 (proj2 (proj2 (proj2 (proj2 U))))) as Ka.
  assert (G : forall kv, In kv es -> ok_default kv).
  { intros [n y] Iy. destruct (A n y Iy) as (x & w & Cx & Ux & Dx & Ey & Nx).
    destruct (nice_out raw big (fun _ => True) (fun _ _ _ => Logic.I) x _ w y (Nx _ (Ka n _ x Cx)) Dx Ey) as (W & K & Fy).
    pose proof (head raw big Hb _ _ _ _ Dx Ey) as Sh. assert (Ho : exists o, y = JObj o) by (destruct x; cbn in Sh; try destruct Sh; eauto; contradiction).
    destruct Ho as (o & ->). exists o. split; [reflexivity|]. split; [exact W|]. split; [exact Fy|]. intros k z Ez.
    assert (Ik : In k (map fst (known TOperation))).
    { destruct x as [| | | | |m]; try discriminate Dx.
      - injection Dx as <-. cbn in Ey. injection Ey as <-. discriminate.
      - rewrite dec_val in Dx. apply bind_ok in Dx as (vs & Hvs & Dx). injection Dx as <-. destruct (struct_get raw big TOperation m vs _ Hvs Ey) as (m' & [= <-] & _ & Kn & _). destruct (Kn k z Ez) as (f & If & <-). rewrite <- fields_known, map_map. exact (in_map Shape.f_name _ _ If). }
    cbn in Ik. repeat (destruct Ik as [<-|Ik]; [reflexivity|]). destruct Ik. }
  split; apply Forall_forall; [exact G|]. intros kv I. destruct (G kv I) as (o & -> & W & _). exact W.
Qed.
End Doc.
End Config.
