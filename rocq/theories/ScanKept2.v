(** Scan: what each step keeps of a document (proofs). *)
From Coq Require Import String Ascii List Bool Arith ZArith Lia Permutation.
From Verif Require Import GoStr GoStrFacts Json JsonFacts Gabs Container Url Pointer Spec_Clone Spec_Merge CloneFacts MergeFacts MergeLaws MergeApi
  Spec_Loc LocFacts Spec_Resolve ResolverFacts ResolverFrame Path Resolver Specs Spec_Specs SpecFacts Root RootFacts Spec_Root PathsFacts Spec_Scan ScanFacts ScanInv ScanKept.
Import ListNotations.
Local Open Scope string_scope.
Local Open Scope nat_scope.
Local Open Scope list_scope.

(** *** Merging, location by location *)
Lemma merged_keeps_dest coll (Hk : forall x y z, coll x y = Some z -> z = x) q : forall d s r v,
  merged coll d s r -> lookup q d = Some v -> is_obj v = false -> lookup q r = Some v.
Proof.
  induction q as [|[k|i] q IH]; intros d s r v M L N; destruct (merged_objs _ _ _ _ M) as (a & b & c & -> & -> & ->); cbn [lookup] in *; [injection L as <-; discriminate| |discriminate].
  destruct (merged_inv _ _ _ _ M) as (c' & [= <-] & Sc & K). specialize (K k). destruct (oget k a) as [x|]; [|discriminate].
  inversion K as [|v1 E1 E2 E3|v1 E1 E2 E3|d1 s1 r1 H1 H2 M1 E1 E2 E3|d1 s1 r1 H1 M1 E1 E2 E3]; subst; [exact L | eapply IH; eassumption|]. rewrite (Hk _ _ _ M1). exact L.
Qed.
Lemma merged_keeps_src coll (Hk : forall x y z, coll x y = Some z -> z = y) q : forall d s r v,
  merged coll d s r -> lookup q s = Some v -> is_obj v = false -> lookup q r = Some v.
Proof.
  induction q as [|[k|i] q IH]; intros d s r v M L N; destruct (merged_objs _ _ _ _ M) as (a & b & c & -> & -> & ->); cbn [lookup] in *; [injection L as <-; discriminate| |discriminate].
  destruct (merged_inv _ _ _ _ M) as (c' & [= <-] & Sc & K). specialize (K k). destruct (oget k b) as [x|]; [|discriminate].
  inversion K as [|v1 E1 E2 E3|v1 E1 E2 E3|d1 s1 r1 H1 H2 M1 E1 E2 E3|d1 s1 r1 H1 M1 E1 E2 E3]; subst; [exact L | eapply IH; eassumption|]. rewrite (Hk _ _ _ M1). exact L.
Qed.
Lemma merged_str_from coll (Hp : picks coll) q t : forall d s r, merged coll d s r -> lookup q r = Some (JStr t) -> lookup q d = Some (JStr t) \/ lookup q s = Some (JStr t).
Proof.
  induction q as [|[k|i] q IH]; intros d s r M L; destruct (merged_objs _ _ _ _ M) as (a & b & c & -> & -> & ->); cbn [lookup] in *; [discriminate | |discriminate].
  destruct (merged_inv _ _ _ _ M) as (c' & [= <-] & Sc & K). specialize (K k). destruct (oget k c) as [x|]; [|discriminate].
  inversion K as [|v1 E1 E2 E3|v1 E1 E2 E3|d1 s1 r1 H1 H2 M1 E1 E2 E3|d1 s1 r1 H1 M1 E1 E2 E3]; subst; [now left | now right | eapply IH; eassumption|].
  destruct (Hp _ _ _ M1) as [-> | ->]; auto.
Qed.
Lemma strict_first x y z : merge_strict x y = Some z -> z = x. Proof. discriminate. Qed.
Lemma strict_second x y z : merge_strict x y = Some z -> z = y. Proof. discriminate. Qed.
Lemma default_first x y z : merge_default x y = Some z -> z = x. Proof. now intros [= <-]. Qed.

(** *** Merging the specification files *)
Lemma c_merge_step (ord : morder) coll d src c' : perm_oracle ord -> good_rule coll -> wf (JObj d) -> plain_doc (c_data src) -> c_merge ord coll (Some (JObj d)) src = Ok c' ->
  (exists m r, clone (c_data src) = Ok (JObj m) /\ wf (JObj m) /\ merged coll (JObj d) (JObj m) r /\ c' = Some r /\ wf r) \/ ((forall x, clone (c_data src) <> Ok x) /\ c' = Some (JObj d)).
Proof.
  intros Ho Hg Wd Ps H. destruct (clone (c_data src)) as [x| | |] eqn:Ec.
  - destruct (plain_clone _ _ Ps Ec) as (Wx & _ & m & -> & _). left. exists m. assert (Ci : clone (JObj m) = Ok (JObj m)) by (eapply clone_idem; exact Ec).
    assert (E : c_merge ord coll (Some (JObj d)) src = c_merge ord coll (Some (JObj d)) (Some (JObj m))) by (unfold c_merge, c_clone; cbn [c_data]; now rewrite Ec, Ci).
    rewrite E in H. destruct (c_merge_obj ord coll d m (JObj m) Ho Hg Wd Wx Ci) as [(r & Hr & Wr & M)|(Hr & _)]; rewrite Hr in H; [|discriminate]. injection H as <-. exists r. auto.
  - right. unfold c_merge, c_clone in H. rewrite Ec in H. cbn [c_data] in H. injection H as <-. split; [discriminate | reflexivity].
  - right. unfold c_merge, c_clone in H. rewrite Ec in H. cbn [c_data] in H. injection H as <-. split; [discriminate | reflexivity].
  - right. unfold c_merge, c_clone in H. rewrite Ec in H. cbn [c_data] in H. injection H as <-. split; [discriminate | reflexivity].
Qed.
Lemma containers_keep (ord : nat -> morder) l : (forall n, perm_oracle (ord n)) -> Forall (fun c => plain_doc (c_data c)) l -> forall n d c', wf (JObj d) -> fixed (JObj d) ->
  containers_merge_from ord merge_strict n (Some (JObj d)) l = Ok c' ->
  exists d', c' = Some (JObj d') /\ wf (JObj d') /\ fixed (JObj d') /\
  (forall q v, lookup q (JObj d) = Some v -> is_obj v = false -> lookup q (JObj d') = Some v) /\
  (forall x y q v, In x l -> clone (c_data x) = Ok y -> lookup q y = Some v -> is_obj v = false -> lookup q (JObj d') = Some v) /\
  (forall q t, lookup q (JObj d') = Some (JStr t) -> lookup q (JObj d) = Some (JStr t) \/ exists x, In x l /\ lookup q (c_data x) = Some (JStr t)).
Proof.
  intro Ho. induction l as [|x l IH]; intros Hl n d c' Wd Fd H; cbn [containers_merge_from] in H.
  - injection H as <-. exists d. split; [reflexivity|]. split; [exact Wd|]. split; [exact Fd|]. split; [auto|]. split; [intros ? ? ? ? []|auto].
  - apply bind_ok in H as (c1 & H1 & H). destruct (c_merge_step _ _ _ _ _ (Ho n) good_strict Wd (Forall_inv Hl) H1) as [(m & r & Ec & Wm & M & -> & Wr)|(Nc & ->)].
    + destruct (merged_objs _ _ _ _ M) as (a & b & d1 & [= <-] & [= <-] & ->). pose proof (merged_fixed _ picks_strict _ _ _ Wd Wm Fd (clone_idem _ _ Ec) M) as F1.
      destruct (IH (Forall_inv_tail Hl) _ _ _ Wr F1 H) as (d' & -> & W' & F' & A & B & C). exists d'. split; [reflexivity|]. split; [exact W'|]. split; [exact F'|]. split; [|split].
      * intros q v L N. apply A; [|exact N]. exact (merged_keeps_dest _ strict_first _ _ _ _ _ M L N).
      * intros y z q v [<-|I] Ez L N; [|eapply B; eassumption]. rewrite Ec in Ez. injection Ez as <-. apply A; [|exact N]. exact (merged_keeps_src _ strict_second _ _ _ _ _ M L N).
      * intros q t L. destruct (C q t L) as [L1|(y & I & Ly)]; [|right; exists y; split; [now right | exact Ly]]. destruct (merged_str_from _ picks_strict _ _ _ _ _ M L1) as [L2|L2]; [now left|].
        right. exists x. split; [now left|]. now apply (clone_lookup_str q _ _ t Ec).
    + destruct (IH (Forall_inv_tail Hl) _ _ _ Wd Fd H) as (d' & -> & W' & F' & A & B & C). exists d'. split; [reflexivity|]. split; [exact W'|]. split; [exact F'|]. split; [exact A|]. split.
      * intros y z q v [<-|I] Ez L N; [now elim (Nc z) | eapply B; eassumption].
      * intros q t L. destruct (C q t L) as [L1|(y & I & Ly)]; [now left | right; exists y; split; [now right | exact Ly]].
Qed.

(** *** The root configuration *)
Lemma merge_sections_inv (ord : nat -> morder) r l : (forall i, perm_oracle (ord i)) -> Forall usable l -> NoDup (map snd l) -> wf (JObj r) ->
  (forall k, fixed (section k (JObj r))) -> Forall (fun x => ~ scalar (section (snd x) (JObj r))) l ->
  forall n d c', wf (JObj d) -> (forall k, fixed (section k (JObj d))) -> merge_sections ord n (Some (JObj r)) (Some (JObj d)) l = Ok c' ->
  exists d', c' = Some (JObj d') /\ wf (JObj d') /\ (forall k, fixed (section k (JObj d'))) /\ (forall k, ~ In k (map snd l) -> oget k d' = oget k d) /\
     Forall (fun x => section_result (fst x) (snd x) (JObj d) (JObj r) (JObj d')) l.
Proof.
  intros Ho. induction l as [|[coll k] l IH]; intros Hu Hn Wr Fr Hr n d c' Wd Fd H; cbn [merge_sections] in H.
  - injection H as <-. exists d. auto.
  - apply bind_ok in H as (c1 & H1 & H). inversion Hn as [|? ? Nk Hn']; subst. cbn [map snd] in Nk.
    destruct (Forall_inv Hu) as (Hg & Hp & Hk). pose proof (Forall_inv Hr) as Sr. cbn [fst snd] in *.
    assert (Sd : ~ scalar (section k (JObj d))). { intro S. rewrite (merge_section_panic ord n d r coll k Hk (or_introl S)) in H1. discriminate. }
    destruct (merge_section_spec ord n d r coll k Ho Hg Hp Hk Wd Wr (Fd k) (Fr k) Sd Sr) as [(d1 & E & W1 & O1 & R1)|(E & _)]; rewrite E in H1; [|discriminate]. injection H1 as <-.
    assert (F1 : forall k0, fixed (section k0 (JObj d1))).
    { intro k0. destruct (string_dec k0 k) as [-> |N]; [|rewrite (section_eq _ _ _ (O1 k0 N)); auto]. destruct R1 as [(_ & _ & E1)|(_ & M)]; [rewrite (at_path_section _ _ _ E1); auto|].
      refine (merged_fixed coll Hp _ _ _ _ _ _ _ M).
      - apply obj_part_wf. exact (section_wf k _ Wd).
      - apply obj_part_wf. exact (section_wf k _ Wr).
      - apply obj_part_fixed. apply Fd.
      - apply obj_part_fixed. apply Fr. }
    destruct (IH (Forall_inv_tail Hu) Hn' Wr Fr (Forall_inv_tail Hr) _ _ _ W1 F1 H) as (d' & -> & W' & F' & O' & R'). exists d'. split; [reflexivity|]. split; [exact W'|]. split; [exact F'|]. split.
    + intros k0 N. cbn [map snd In] in N. rewrite O' by tauto. apply O1. intros ->. tauto.
    + constructor; cbn [fst snd].
      * eapply section_result_other; [|exact R1]. apply at_path_eq. now apply O'.
      * rewrite Forall_forall in R' |- *. intros x Ix. eapply section_result_from; [|apply R'; exact Ix]. apply at_path_eq. apply O1. intros E'. apply Nk. rewrite <- E'. now apply in_map.
Qed.
Lemma lookup_section k q m t : lookup (SKey k :: q) (JObj m) = Some (JStr t) <-> lookup q (section k (JObj m)) = Some (JStr t).
Proof. unfold section. cbn [lookup]. destruct (oget k m); [reflexivity|]. split; [discriminate|]. destruct q as [|[]]; discriminate. Qed.
Lemma root_keep (ord : nat -> morder) root d c' : (forall n, perm_oracle (ord n)) -> canon_obj root -> (forall k, In k section_names -> ~ scalar (section k root)) ->
  wf (JObj d) -> fixed (JObj d) -> merge_with_root ord root (Some (JObj d)) = Ok c' ->
  exists d', c' = Some (JObj d') /\ wf (JObj d') /\ fixed (JObj d') /\
  (forall k q v, lookup (SKey k :: q) (JObj d) = Some v -> is_obj v = false -> ~ In k ["info"; "security"; "servers"; "tags"] ->
     (In k ["components"; "paths"; "externalDocs"] -> is_obj (section k (JObj d)) = true) -> lookup (SKey k :: q) (JObj d') = Some v) /\
  (forall q t, lookup q (JObj d') = Some (JStr t) -> lookup q (JObj d) = Some (JStr t) \/ lookup q root = Some (JStr t)).
Proof.
  intros Ho (Wr & Kr & rm & ->) Hs Wd Fd H. unfold merge_with_root in H. apply bind_ok in H as (r & Er & H). unfold c_make in Er. apply bind_ok in Er as (x & Ex & Er). injection Er as <-.
  destruct (clone_obj_inv _ _ Ex) as (r & -> & _). pose proof (clone_wf _ _ Wr Ex) as Wr'. pose proof (clone_idem _ _ Ex) as Fr.
  assert (Hs' : Forall (fun x => ~ scalar (section (snd x) (JObj r))) sections).
  { apply Forall_forall. intros x Ix. specialize (Hs (snd x) (in_map snd _ _ Ix)). intro S. apply Hs. clear Hs.
    pose proof (clone_lookup [SKey (snd x)] _ _ Ex) as L. unfold section in *. cbn [lookup] in L. destruct (oget (snd x) r) as [y|]; [|destruct S]. destruct (oget (snd x) rm) as [z|]; [|destruct L].
    destruct z as [|b|n|s|l|m]; cbn; auto.
    - cbn in L. injection L as <-. destruct S.
    - rewrite clone_arr_eq in L. apply bind_ok in L as (l' & _ & L). injection L as <-. destruct S.
    - rewrite clone_obj_eq in L. apply bind_ok in L as (l' & _ & L). injection L as <-. destruct S. }
  destruct (merge_sections_inv ord r sections Ho sections_usable sections_nodup Wr' (fun k => section_fixed k _ Wr' Fr) Hs' 0 d c' Wd (fun k => section_fixed k _ Wd Fd) H) as (d' & -> & W' & F' & O' & R').
  rewrite Forall_forall in R'.
  exists d'. split; [reflexivity|]. split; [exact W'|]. split; [|split].
  - apply wf_obj in W' as (S' & _). apply fixed_obj; [exact S'|]. intros k v E. specialize (F' k). unfold section in F'. now rewrite E in F'.
  - intros k q v L N N4 N3. destruct (in_dec string_dec k section_names) as [I|I].
    + assert (K3 : In k ["components"; "paths"; "externalDocs"]) by (cbn in I, N4 |- *; intuition congruence).
      specialize (N3 K3). assert (X : exists coll, In (coll, k) sections /\ forall x y z, coll x y = Some z -> z = x).
      { destruct K3 as [<-|[<-|[<-|[]]]]; [exists merge_strict | exists merge_default | exists merge_default]; (split; [cbn; tauto | first [exact strict_first | exact default_first]]). }
      destruct X as (coll & Ic & Hc). specialize (R' _ Ic). cbn [fst snd] in R'. destruct R' as [(E & _)|(_ & M)]; [rewrite E in N3; discriminate|].
      assert (E : obj_part (section k (JObj d)) = section k (JObj d)) by (destruct (section k (JObj d)); try discriminate; reflexivity). rewrite E in M.
      assert (L' : lookup q (section k (JObj d)) = Some v) by (unfold section; cbn [lookup] in L; destruct (oget k d); [exact L | discriminate]).
      pose proof (merged_keeps_dest _ Hc _ _ _ _ _ M L' N) as L2. destruct (merged_objs _ _ _ _ M) as (_ & _ & e & _ & _ & Ee). unfold section in L2, Ee. cbn [lookup]. destruct (oget k d'); [exact L2 | discriminate Ee].
    + cbn [lookup] in *. now rewrite (O' k I).
  - intros q t L. destruct q as [|[k|i] q]; [discriminate | |discriminate]. destruct (in_dec string_dec k section_names) as [I|I].
    + apply in_map_iff in I as ([coll k'] & E & Ic). cbn in E. subst k'. specialize (R' _ Ic). cbn [fst snd] in R'. apply lookup_section in L. destruct R' as [(E1 & _ & E)|(_ & M)].
      * rewrite (at_path_section _ _ _ E), E1 in L. destruct q as [|[]]; discriminate.
      * assert (Hp : picks coll) by (pose proof sections_usable as U; rewrite Forall_forall in U; apply (U _ Ic)).
        assert (P : forall j, lookup q (obj_part j) = Some (JStr t) -> lookup q j = Some (JStr t)) by (intros [] P; cbn in P; try exact P; destruct q as [|[]]; discriminate).
        destruct (merged_str_from _ Hp _ _ _ _ _ M L) as [X|X]; apply P, lookup_section in X; [now left|]. right. now apply (clone_lookup_str _ _ _ _ Ex).
    + left. cbn [lookup] in *. now rewrite (O' k I) in L.
Qed.

(** *** Default operations *)
Lemma lookup_split q : forall j v, lookup q j = Some v -> is_obj v = false -> exists ks rest v0, q = map SKey ks ++ rest /\ leaf_at ks j v0 /\ lookup rest v0 = Some v.
Proof.
  induction q as [|[k|i] q IH]; intros j v L N.
  - injection L as <-. exists [], [], j. split; [reflexivity|]. split; [split; [reflexivity | exact N] | reflexivity].
  - destruct j as [| | | | |m]; try discriminate. cbn [lookup] in L. destruct (oget k m) as [x|] eqn:E; [|discriminate]. destruct (IH x v L N) as (ks & rest & v0 & -> & (A & B) & C).
    exists (k :: ks), rest, v0. split; [reflexivity|]. split; [split; [cbn; now rewrite E | exact B] | exact C].
  - destruct j as [| | | |l|]; try discriminate. exists [], (SIdx i :: q), (JArr l). split; [reflexivity|]. split; [split; reflexivity | exact L].
Qed.
Lemma lookup_keys ks : forall j r, lookup (map SKey ks ++ r) j = match at_path ks j with Some v => lookup r v | None => None end.
Proof.
  induction ks as [|k ks IH]; intros j r; [reflexivity|]. cbn [map app lookup at_path]. destruct j; try reflexivity. destruct (oget k m); [apply IH | reflexivity].
Qed.
Lemma with_defaults_keep os : forall v v', with_defaults os v v' -> v <> JNull -> forall q x, lookup q v = Some x -> is_obj x = false -> x <> JNull -> lookup q v' = Some x.
Proof.
  induction 1 as [v|o os v v1 v' D _ IH]; intros Nv q x L N Nx; [exact L|]. inversion D as [o0 a r M|o0 No|v0 N0]; subst.
  - apply IH; [|exact (merged_keeps_dest _ default_first _ _ _ _ _ M L N) | exact N | exact Nx]. destruct (merged_objs _ _ _ _ M) as (? & ? & ? & _ & _ & ->). discriminate.
  - now elim Nv.
  - exact (IH Nv q x L N Nx).
Qed.
Lemma defaults_keep_at ordp (ordm : morder) ordd ord defops doc c' :
  (forall l, Permutation (ordp l) l) -> perm_oracle ordm -> (forall l, Permutation (ordd l) l) -> (forall n i, perm_oracle (ord n i)) ->
  wf doc -> pure doc -> Forall ok_default defops -> set_paths_defaults ordp ordm ordd ord defops (Some doc) = Ok c' ->
  exists doc', c' = Some doc' /\ forall q v, lookup q doc = Some v -> is_obj v = false -> v <> JNull -> lookup q doc' = Some v.
Proof.
  intros Hp Hm Hd Ho W (Nd & Fd) Hdef H.
  assert (Hdot : forall p m v, operation p m doc v -> has_char "." p = false /\ has_char "." m = false).
  { unfold operation. intros p m v L. destruct doc as [| | | | |dm]; try discriminate. cbn [at_path] in L. destruct (oget "paths" dm) as [x|] eqn:E1; [|discriminate]. destruct x as [| | | | |pm]; try discriminate.
    destruct (oget p pm) as [y|] eqn:E2; [|discriminate]. destruct y as [| | | | |mm]; try discriminate. destruct (oget m mm) as [z|] eqn:E3; [|discriminate]. apply oget_in in E1, E2, E3.
    split; apply Nd.
    - eapply kin_obj; [exact E1|]. eapply kin_here; exact E2.
    - eapply kin_obj; [exact E1|]. eapply kin_obj; [exact E2|]. eapply kin_here; exact E3. }
  destruct (defaults_spec ordp ordm ordd ord defops doc c' Hp Hm Hd Ho W Fd Hdot Hdef H) as (doc' & -> & A & B). exists doc'. split; [reflexivity|]. intros q v L N Nn.
  destruct (lookup_split _ _ _ L N) as (ks & rest & v0 & -> & (P & Pl) & R).
  assert (Dec : (exists p m x, operation p m doc x /\ is_prefix ["paths"; p; m] ks) \/ forall p m x, operation p m doc x -> ~ is_prefix ["paths"; p; m] ks).
  { destruct ks as [|k [|p [|m ks]]]; try (right; intros p0 m0 x _ (r & E); discriminate). destruct (string_dec k "paths") as [-> |Nk]; [|right; intros p0 m0 x _ (r & E); now injection E as ->].
    left. change ("paths" :: p :: m :: ks) with (["paths"; p; m] ++ ks) in P. unfold operation. destruct (at_path ["paths"; p; m] doc) as [x|] eqn:E.
    - exists p, m, x. split; [exact E | now exists ks].
    - exfalso. revert P E. clear. destruct doc; try discriminate. cbn [app at_path]. destruct (oget "paths" m0) as [j|]; [|discriminate]. destruct j; try discriminate. destruct (oget p m1) as [j|]; [|discriminate]. destruct j; try discriminate. destruct (oget m m2); discriminate. }
  destruct Dec as [(p & m & x & Op & (ks' & ->))|Out].
  - destruct (A p m x Op) as (x' & Op' & D). unfold operation in *. rewrite map_app, <- app_assoc, lookup_keys in L |- *. rewrite Op in L. rewrite Op'.
    assert (Nx : x <> JNull). { intros ->. destruct ks' as [|? ?]; cbn [map app] in L; [|discriminate]. destruct rest as [|[] ?]; cbn in L; try discriminate. now injection L as <-. }
    exact (with_defaults_keep _ _ _ D Nx _ _ L N Nn).
  - specialize (B ks Out). unfold node_at in B. rewrite P in B. rewrite lookup_keys in L |- *. rewrite P in L.
    destruct (at_path ks doc') as [y|]; [|destruct v0; discriminate]. destruct v0, y; try discriminate; congruence.
Qed.
