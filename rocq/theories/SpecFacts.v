(** Making the references of a specification file absolute. *)
From Coq Require Import String Ascii List Bool Arith ZArith Permutation Lia.
From Verif Require Import GoStr GoStrFacts Json JsonFacts Gabs Container MergeFacts Spec_Loc LocFacts SetFacts CloneFacts ResolverFacts
  Url Pointer PtrFacts Spec_Ptr FragFacts Path Specs Spec_Specs.
Import ListNotations.
Local Open Scope string_scope.
Local Open Scope nat_scope.
Local Open Scope list_scope.

(** ** Documents are determined by what is found at each location *)
Definition shape (j : json) : json := match j with JArr _ => JArr [] | JObj _ => JObj [] | _ => j end.
Definition found (q : loc) (j : json) : option json := option_map shape (lookup q j).

Lemma found_cons_key k q m : found (SKey k :: q) (JObj m) = match oget k m with Some v => found q v | None => None end.
Proof. unfold found. cbn. now destruct (oget k m). Qed.
Lemma found_cons_idx i q l : found (SIdx i :: q) (JArr l) = match nth_error l i with Some v => found q v | None => None end.
Proof. unfold found. cbn. now destruct (nth_error l i). Qed.
Lemma nth_ext_some {A} (l1 l2 : list A) : (forall i, nth_error l1 i = nth_error l2 i) -> l1 = l2.
Proof.
  revert l2. induction l1 as [|x l1 IH]; intros [|y l2] H.
  - reflexivity.
  - specialize (H 0). discriminate.
  - specialize (H 0). discriminate.
  - pose proof (H 0) as H0. cbn in H0. injection H0 as ->. f_equal. apply IH. intro i. exact (H (S i)).
Qed.

Lemma found_ext j1 : forall j2, wf j1 -> wf j2 -> (forall q, found q j1 = found q j2) -> j1 = j2.
Proof.
  induction j1 using json_induction; intros j2 W1 W2 E; pose proof (E []) as E0; unfold found in E0; cbn in E0;
    try (destruct j2; cbn in E0; try discriminate; congruence).
  - destruct j2 as [| | | |l2|m2]; cbn in E0; try discriminate. f_equal. apply nth_ext_some. intro i.
    assert (Ei : forall q, match nth_error l i with Some v => found q v | None => None end = match nth_error l2 i with Some v => found q v | None => None end)
      by (intro q; rewrite <- !found_cons_idx; apply E).
    destruct (nth_error l i) as [x|] eqn:N1, (nth_error l2 i) as [y|] eqn:N2; try (specialize (Ei []); discriminate); [|reflexivity].
    f_equal. rewrite Forall_forall in H. apply (H x (nth_error_In _ _ N1)); [exact (wf_nth _ _ _ W1 N1) | exact (wf_nth _ _ _ W2 N2) | exact Ei].
  - destruct j2 as [| | | |l2|m2]; cbn in E0; try discriminate. f_equal. apply obj_ext; [now apply wf_sorted | now apply wf_sorted|]. intro k.
    assert (Ek : forall q, match oget k m with Some v => found q v | None => None end = match oget k m2 with Some v => found q v | None => None end)
      by (intro q; rewrite <- !found_cons_key; apply E).
    destruct (oget k m) as [x|] eqn:N1, (oget k m2) as [y|] eqn:N2; try (specialize (Ek []); discriminate); [|reflexivity].
    f_equal. rewrite Forall_forall in H. apply (H (k, x) (oget_in _ _ _ N1)); [exact (wf_oget _ _ _ W1 N1) | exact (wf_oget _ _ _ W2 N2) | exact Ek].
Qed.

(** ** Changing one scalar *)
Lemma step_dec (a b : step) : {a = b} + {a <> b}.
Proof. decide equality; [apply string_dec | apply Nat.eq_dec]. Qed.
Lemma above_cases q : forall q', above q q' \/ above q' q \/ apart q q'.
Proof.
  induction q as [|s q IH]; intros [|s' q']; try (left; exists (s' :: q'); reflexivity); try (right; left; exists (s :: q); reflexivity).
  - left. now exists [].
  - destruct (step_dec s s') as [->|N].
    + destruct (IH q') as [(r & ->)|[(r & ->)|(A1 & A2)]]; [left; now exists r | right; left; now exists r|].
      right; right. split; intros (r & E); injection E as E; [apply A1 | apply A2]; now exists r.
    + right; right. split; intros (r & E); injection E as E _; congruence.
Qed.
Lemma lookup_scalar_below v s q : is_scalar v = true -> shape v = v -> (forall m, v <> JObj m) -> (forall l, v <> JArr l) -> lookup (s :: q) v = None.
Proof. intros _ _ Ho Ha. destruct s as [k|i]; destruct v; try reflexivity; [now elim (Ho m) | now elim (Ha l)]. Qed.

Lemma setp_at q t j x : wf j -> q <> [] -> Forall seg_ok q -> lookup q j = Some (JStr x) ->
  exists r, c_setp (render q) (JStr t) (Some j) = Ok (Some r) /\ wf r /\ lookup q r = Some (JStr t) /\
    (forall q', q' <> q -> found q' r = found q' j).
Proof.
  intros Hw Hn Ho Hl.
  assert (Hc : clone (JStr t) = Ok (JStr t)) by reflexivity.
  pose proof (addresses_lookup q true j _ Ho Hl) as Ha. rewrite <- (dot_path_render q Hn Ho) in Ha.
  rewrite <- (denull_lookup q j _ Hn Hl) in Ha.
  destruct (setp_spec (render q) (JStr t) (JStr t) j Hc) as [H _]. destruct (H q Ha) as (r & Hr & H1 & H2 & _).
  exists r. split; [exact Hr|]. split; [|split; [exact H1|]].
  - rewrite (setp_ok _ _ _ _ Hc) in Hr. apply bind_ok in Hr as (r' & Hr & E). injection E as <-.
    eapply (gset_wf (JStr t)); [exact I | | exact Hr]. rewrite (denull_lookup q j _ Hn Hl). exact Hw.
  - intros q' Nq. destruct (above_cases q q') as [(s & ->)|[(s & Es)|A]].
    + destruct s as [|s q2]; [now rewrite app_nil_r in Nq|]. unfold found. rewrite !lookup_app, H1, Hl. now destruct s.
    + destruct s as [|s q2]; [rewrite app_nil_r in Es; congruence|]. subst q. rewrite lookup_app in H1, Hl. unfold found.
      destruct (lookup q' r) as [a|]; [|discriminate]. destruct (lookup q' j) as [b|]; [|discriminate].
      destruct s; destruct a; try discriminate; destruct b; try discriminate; reflexivity.
    + unfold found. now rewrite (H2 q' A).
Qed.

(** ** The rewritten document *)
Definition ref_val (f : string -> string) (kv : string * json) : json :=
  match snd kv with
  | JStr t => if String.eqb (fst kv) "$ref" then JStr (f t) else JStr t
  | v => map_refs f v
  end.
Lemma map_refs_obj f m : map_refs f (JObj m) = JObj (map (fun kv => (fst kv, ref_val f kv)) m).
Proof.
  cbn [map_refs]. f_equal. induction m as [|[k v] m IH]; cbn; [reflexivity|]. f_equal; [|exact IH]. f_equal. unfold ref_val. cbn. destruct v; reflexivity.
Qed.
Lemma oget_map (g : string * json -> json) m k : oget k (map (fun kv => (fst kv, g kv)) m) = match oget k m with Some v => Some (g (k, v)) | None => None end.
Proof.
  induction m as [|[k' v] m IH]; cbn; [reflexivity|]. destruct (String.eqb k k') eqn:E; [|exact IH]. apply String.eqb_eq in E. now subst.
Qed.
Lemma sorted_map (g : string * json -> json) m : sorted m -> sorted (map (fun kv => (fst kv, g kv)) m).
Proof.
  induction m as [|[k v] m IH]; [auto|]. intro H. cbn in *. destruct H as (H1 & H2). split; [|now apply IH]. destruct m as [|[k2 v2] m]; [exact I | exact H1].
Qed.
Definition ends_ref (q : loc) : bool := match last q (SIdx 0) with SKey k => String.eqb k "$ref" | _ => false end.
Lemma ends_ref_snoc q s : ends_ref (q ++ [s]) = match s with SKey k => String.eqb k "$ref" | _ => false end.
Proof. unfold ends_ref. now rewrite last_last. Qed.
Lemma ends_ref_iff q : ends_ref q = true <-> exists q', q = q' ++ [SKey "$ref"].
Proof.
  split.
  - destruct q as [|s q] using rev_ind; [discriminate|]. rewrite ends_ref_snoc. destruct s as [k|]; [|discriminate]. intro E. apply String.eqb_eq in E. subst. now exists q.
  - intros (q' & ->). rewrite ends_ref_snoc. reflexivity.
Qed.
Definition at_loc (f : string -> string) (q : loc) (v : json) : json :=
  match v with JStr t => if ends_ref q then JStr (f t) else v | _ => map_refs f v end.
Lemma map_refs_lookup f q : forall j, lookup q (map_refs f j) = match lookup q j with Some v => Some (at_loc f q v) | None => None end.
Proof.
  induction q as [|s q IH]; intro j; [cbn; unfold at_loc; cbn; now destruct j|].
  destruct s as [k|i].
  - destruct j as [| | | | |m]; try reflexivity. rewrite map_refs_obj. cbn [lookup]. rewrite oget_map. destruct (oget k m) as [v|] eqn:G; [|reflexivity].
    destruct q as [|s q].
    + cbn. unfold ref_val, at_loc. cbn. destruct v; try reflexivity.
    + assert (El : forall u, at_loc f (SKey k :: s :: q) u = at_loc f (s :: q) u) by reflexivity.
      unfold ref_val. cbn [fst snd]. destruct v; try (now rewrite IH).
      destruct (String.eqb k "$ref"); now destruct s.
  - destruct j as [| | | |l|]; try reflexivity. cbn [map_refs lookup]. rewrite nth_error_map. destruct (nth_error l i) as [v|]; [|reflexivity].
    cbn [option_map]. rewrite IH. destruct q as [|s q]; [|reflexivity]. cbn. now destruct v.
Qed.
Lemma map_refs_wf f j : wf j -> wf (map_refs f j).
Proof.
  induction j using json_induction; intro W; try exact W.
  - cbn. apply wf_arr. apply wf_arr in W. apply Forall_map. rewrite Forall_forall in *. auto.
  - rewrite map_refs_obj. apply wf_obj in W as (S & F). apply wf_obj. split; [now apply sorted_map|].
    apply Forall_map. rewrite Forall_forall in *. intros [k v] Hin. cbn. unfold ref_val. cbn.
    specialize (H _ Hin (F _ Hin)). cbn in H. destruct v; try exact H; destruct (String.eqb k "$ref"); exact I.
Qed.
Lemma map_refs_found f q j : found q (map_refs f j) = match lookup q j with Some v => Some (shape (at_loc f q v)) | None => None end.
Proof. unfold found. rewrite map_refs_lookup. now destruct (lookup q j). Qed.
Lemma shape_map_refs f v : shape (map_refs f v) = shape v.
Proof. now destruct v. Qed.

(** ** The loop *)
Definition new_text (pkg t : string) : string :=
  match ptr_parse t with Ok p => ptr_string (abs_ptr pkg p) | _ => t end.
Definition ref_ok (t : string) : Prop := exists p, ptr_parse t = Ok p.

Definition str_refs (c : json) (refs : list (string * json)) : Prop :=
  Forall (fun kv => forall t, snd kv = JStr t -> exists q, fst kv = render q /\ q <> [] /\ Forall seg_ok q /\ lookup q c = Some (JStr t)) refs.
Lemma rewrite_refs_spec pkg refs : forall c pp, wf c -> str_refs c refs -> NoDup (keys refs) ->
  (forall k t, In (k, JStr t) refs -> ref_ok t) ->
  exists r pp', rewrite_refs pkg refs (Some c) pp = (Ok (Some r), pp') /\ wf r /\
    (forall q, (forall t, ~ (In (render q, JStr t) refs /\ lookup q c = Some (JStr t))) -> found q r = found q c) /\
    (forall q t, In (render q, JStr t) refs -> Forall seg_ok q -> q <> [] -> lookup q c = Some (JStr t) -> lookup q r = Some (JStr (new_text pkg t))) /\
    (sorted pp -> sorted pp' /\
      (forall k p, oget k pp' = Some p -> oget k pp = Some p \/ ptr_string p = k) /\
      forall k, oget k pp' <> None <-> oget k pp <> None \/ exists k0 t, In (k0, JStr t) refs /\ k = new_text pkg t).
Proof.
  induction refs as [|[k v] refs IH]; intros c pp W F N P.
  - exists c, pp. split; [reflexivity|]. split; [exact W|]. split; [auto|]. split; [intros q t []|]. intro S. split; [exact S|]. split; [auto|].
    intro k. split; [auto|]. intros [H|(? & ? & [] & _)]. exact H.
  - unfold str_refs in F. inversion F as [|? ? Fv F']; subst. cbn [fst snd] in Fv. inversion N as [|? ? Nin N']; subst.
    assert (Pr : forall k t, In (k, JStr t) refs -> ref_ok t) by (intros k0 t0 H; apply (P k0); now right).
    destruct v as [| | |x| |] eqn:Ev.
    4: { destruct (Fv x eq_refl) as (q & -> & Nq & Oq & Lq). clear Fv.
      destruct (P (render q) x (or_introl eq_refl)) as (p0 & Hp).
      assert (Nt : new_text pkg x = ptr_string (abs_ptr pkg p0)) by (unfold new_text; now rewrite Hp).
      destruct (setp_at q (ptr_string (abs_ptr pkg p0)) c x W Nq Oq Lq) as (c1 & E1 & W1 & L1 & O1).
      assert (Keep : forall q0, q0 <> q -> forall y, lookup q0 c = Some (JStr y) <-> lookup q0 c1 = Some (JStr y)).
      { intros q0 Ne y. specialize (O1 q0 Ne). unfold found in O1.
        destruct (lookup q0 c) as [a|], (lookup q0 c1) as [b|]; cbn in O1; try discriminate; [|split; discriminate].
        split; intro H; injection H as ->; cbn in O1; [destruct b | destruct a]; cbn in O1; congruence. }
      assert (F1 : str_refs c1 refs).
      { unfold str_refs in *. rewrite Forall_forall in F' |- *. intros [k' v'] Hin t Et. destruct (F' _ Hin t Et) as (q' & Ek & Nq' & Oq' & L').
        exists q'. split; [exact Ek|]. split; [exact Nq'|]. split; [exact Oq'|]. apply Keep; [|exact L'].
        intros ->. apply Nin. apply in_map_iff. exists (k', v'). now split. }
      destruct (IH c1 (oset (ptr_string (abs_ptr pkg p0)) (abs_ptr pkg p0) pp) W1 F1 N' Pr) as (r & pp' & E & Wr & R1 & R2 & R3).
      exists r, pp'. split; [cbn [rewrite_refs]; now rewrite Hp, E1|]. split; [exact Wr|].
      assert (Rq : lookup q r = Some (JStr (new_text pkg x))).
      { assert (K : found q r = found q c1).
        { apply R1. intros t (H & _). apply Nin. apply in_map_iff. now exists (render q, JStr t). }
        unfold found in K. rewrite L1 in K. destruct (lookup q r) as [b|]; [|discriminate]. cbn in K. rewrite Nt. destruct b; cbn in K; congruence. }
      split; [|split].
      - intros q0 H. destruct (list_eq_dec step_dec q0 q) as [->|Ne]; [elim (H x); split; [now left | exact Lq]|].
        rewrite <- (O1 q0 Ne). apply R1. intros t (H1 & H2). apply (H t). split; [now right | now apply Keep].
      - intros q0 t [H|H] Oq0 Nq0 L0.
        + injection H as Eq Et. assert (q0 = q) as ->; [|congruence].
          apply (render_inj q0 q c (JStr t) (JStr x) Oq0 Oq Nq0 Nq L0 Lq). now symmetry.
        + assert (q0 <> q). { intros ->. apply Nin. apply in_map_iff. now exists (render q, JStr t). }
          apply R2; try assumption. now apply Keep.
      - intro S. destruct (R3 (sorted_oset _ _ _ S)) as (S1 & S2 & S3). split; [exact S1|]. split.
        + intros k p H. destruct (S2 k p H) as [K|K]; [|now right]. destruct (string_dec k (ptr_string (abs_ptr pkg p0))) as [->|Ne].
          * rewrite oget_oset_same in K. injection K as <-. now right.
          * rewrite oget_oset_other in K by congruence. now left.
        + intro k. rewrite S3. split.
          * intros [K|(k0 & t & K & ->)]; [|right; exists k0, t; split; [now right | reflexivity]].
            destruct (string_dec k (ptr_string (abs_ptr pkg p0))) as [->|Ne].
            -- right. exists (render q), x. split; [now left | now symmetry].
            -- rewrite oget_oset_other in K by congruence. now left.
          * intros [K|(k0 & t & [K|K] & ->)].
            -- left. destruct (string_dec k (ptr_string (abs_ptr pkg p0))) as [->|Ne]; [rewrite oget_oset_same; discriminate|].
               now rewrite oget_oset_other by congruence.
            -- left. injection K as <- <-. rewrite Nt, oget_oset_same. discriminate.
            -- right. now exists k0, t. }
    all: assert (Nv : forall t, v <> JStr t) by (subst v; discriminate);
      assert (E0 : rewrite_refs pkg ((k, v) :: refs) (Some c) pp = rewrite_refs pkg refs (Some c) pp) by (subst v; reflexivity);
      rewrite <- Ev in *;
      destruct (IH c pp W F' N' Pr) as (r & pp' & E & Wr & R1 & R2 & R3); exists r, pp';
      (assert (In' : forall k0 t, In (k0, JStr t) ((k, v) :: refs) <-> In (k0, JStr t) refs) by
        (intros k0 t; split; [intros [H|H]; [congruence | exact H] | now right]));
      (split; [now rewrite E0|]); (split; [exact Wr|]); (split; [|split]);
      [ intros q0 H; apply R1; intros t (H1 & H2); apply (H t); split; [now right | exact H2]
      | intros q0 t H; apply R2; now apply In'
      | intro S; destruct (R3 S) as (S1 & S2 & S3); (split; [exact S1|]); (split; [exact S2|]); intro k1; rewrite S3;
        split; (intros [H|(k0 & t & H & ->)]; [now left | right; exists k0, t; split; [now apply In' | reflexivity]]) ].
Qed.

Lemma ptr_parse_ok_err t : (exists p, ptr_parse t = Ok p) \/ ptr_parse t = Err.
Proof.
  unfold ptr_parse. destruct (String.eqb t "" || String.eqb t "#"); [left; eauto|]. destruct (url_parse t) as [u|]; [|now right].
  unfold new_fragment. pose proof (parse_never_panics (u_fragment u)) as (P1 & P2). destruct (parse_fragment (u_fragment u)); cbn; try (now elim P1); try (now elim P2); [left; eauto | now right].
Qed.
Lemma rewrite_refs_err pkg refs : forall c pp, wf c -> str_refs c refs -> NoDup (keys refs) ->
  (exists k t, In (k, JStr t) refs /\ ~ ref_ok t) -> fst (rewrite_refs pkg refs (Some c) pp) = Err.
Proof.
  induction refs as [|[k v] refs IH]; intros c pp W F N (k0 & t & Hin & Nt); [destruct Hin|].
  unfold str_refs in F. inversion F as [|? ? Fv F']; subst. cbn [fst snd] in Fv. inversion N as [|? ? Nin N']; subst.
  assert (Rest : forall x, v = JStr x -> (exists p, ptr_parse x = Ok p) -> exists k0 t, In (k0, JStr t) refs /\ ~ ref_ok t).
  { intros x -> (p & Hp). destruct Hin as [E|Hin]; [|eauto]. injection E as _ <-. elim Nt. now exists p. }
  destruct v as [| | |x| |] eqn:Ev; try (apply (IH c pp W F' N'); destruct Hin as [E|Hin]; [discriminate | now exists k0, t]).
  destruct (Fv x eq_refl) as (q & -> & Nq & Oq & Lq). cbn [rewrite_refs].
  destruct (ptr_parse_ok_err x) as [(p0 & Hp)|Hp]; rewrite Hp; [|reflexivity].
  destruct (setp_at q (ptr_string (abs_ptr pkg p0)) c x W Nq Oq Lq) as (c1 & E1 & W1 & L1 & O1). rewrite E1.
  apply IH; try assumption; [|apply (Rest x eq_refl); eauto].
  unfold str_refs in *. rewrite Forall_forall in F' |- *. intros [k' v'] Hin' t' Et. destruct (F' _ Hin' t' Et) as (q' & Ek & Nq' & Oq' & L').
  exists q'. split; [exact Ek|]. split; [exact Nq'|]. split; [exact Oq'|].
  assert (Ne : q' <> q). { intros ->. apply Nin. apply in_map_iff. exists (k', v'). now split. }
  specialize (O1 q' Ne). unfold found in O1. rewrite L' in O1. destruct (lookup q' c1) as [b|]; [|discriminate]. destruct b; cbn in O1; congruence.
Qed.

(** ** One document *)
Definition doc_refs_ok (doc : json) : Prop := forall q t, lookup (q ++ [REF]) doc = Some (JStr t) -> ref_ok t.
Lemma extract_ok ord doc : is_scalar doc = false -> exists refs, extract_key ord "$ref" (Some doc) = Ok refs.
Proof. unfold extract_key, c_flatten. cbn [c_data]. intro H. destruct doc; try discriminate; cbn; eauto. Qed.

Lemma extracted ord doc refs : (forall l, Permutation (ord l) l) -> wf doc -> keys_ok plain doc -> extract_key ord "$ref" (Some doc) = Ok refs ->
  NoDup (keys refs) /\ str_refs doc refs /\ (forall k t, In (k, JStr t) refs -> exists q, k = render (q ++ [REF]) /\ lookup (q ++ [REF]) doc = Some (JStr t)) /\
  (forall q t, lookup (q ++ [REF]) doc = Some (JStr t) -> In (render (q ++ [REF]), JStr t) refs).
Proof.
  intros Ho W K E. destruct (extract_refs ord doc refs Ho W K E) as (N & F & In'). rewrite Forall_forall in F. split; [exact N|]. split; [|split].
  - unfold str_refs. apply Forall_forall. intros [k v] Hin t Et. cbn in *. subst v. destruct (F _ Hin) as (q & Ek & L & O). exists (q ++ [REF]). cbn in *. split; [exact Ek|]. split; [now destruct q|]. split; assumption.
  - intros k t Hin. destruct (F _ Hin) as (q & Ek & L & _). exists q. now split.
  - intros q t L. apply In'; [exact L | reflexivity].
Qed.

Theorem rewrite_doc ord pkg doc refs pp : (forall l, Permutation (ord l) l) -> wf doc -> keys_ok plain doc -> extract_key ord "$ref" (Some doc) = Ok refs ->
  (doc_refs_ok doc -> exists pp', rewrite_refs pkg refs (Some doc) pp = (Ok (Some (map_refs (new_text pkg) doc)), pp') /\
     (sorted pp -> sorted pp' /\ (forall k p, oget k pp' = Some p -> oget k pp = Some p \/ ptr_string p = k) /\
        forall k, oget k pp' <> None <-> oget k pp <> None \/ exists q t, lookup (q ++ [REF]) doc = Some (JStr t) /\ k = new_text pkg t)) /\
  (~ doc_refs_ok doc -> (exists q t, lookup (q ++ [REF]) doc = Some (JStr t) /\ ~ ref_ok t) -> fst (rewrite_refs pkg refs (Some doc) pp) = Err).
Proof.
  intros Ho W K E. destruct (extracted ord doc refs Ho W K E) as (N & F & From & To). split.
  - intro Hok. assert (P : forall k t, In (k, JStr t) refs -> ref_ok t) by (intros k t Hin; destruct (From k t Hin) as (q & _ & L); exact (Hok q t L)).
    destruct (rewrite_refs_spec pkg refs doc pp W F N P) as (r & pp' & R & Wr & R1 & R2 & R3). exists pp'. split.
    + rewrite R. do 3 f_equal. apply found_ext; [exact Wr | now apply map_refs_wf|]. intro q. rewrite map_refs_found.
      destruct (ends_ref q) eqn:Eq.
      * destruct (lookup q doc) as [v|] eqn:L.
        -- destruct v as [| | |t| |] eqn:Ev.
           4: { pose proof (proj1 (ends_ref_iff q) Eq) as (q' & ->). assert (Oq : Forall seg_ok (q' ++ [REF])) by exact (seg_ok_lookup _ _ _ K L).
                unfold found. rewrite (R2 (q' ++ [REF]) t (To q' t L) Oq ltac:(now destruct q') L). unfold at_loc. now rewrite Eq. }
           all: rewrite R1 by (intros t (_ & L'); congruence); unfold found; rewrite L; reflexivity.
        -- rewrite R1 by (intros t (_ & L'); congruence). unfold found. now rewrite L.
      * rewrite R1.
        -- unfold found. destruct (lookup q doc) as [v|]; [|reflexivity]. cbn. unfold at_loc. rewrite Eq. destruct v; try reflexivity.
        -- intros t (Hin & L). destruct (From _ _ Hin) as (q' & Er & L').
           assert (q <> []). { intros ->. cbn in L. injection L as ->. destruct q' as [|[|] ?]; discriminate. }
           assert (q = q' ++ [REF]).
           { apply (render_inj q (q' ++ [REF]) doc (JStr t) (JStr t)); try assumption; try exact (seg_ok_lookup _ _ _ K L); try exact (seg_ok_lookup _ _ _ K L'). now destruct q'. }
           assert (ends_ref q = true) by (apply ends_ref_iff; now exists q'). congruence.
    + intro S. destruct (R3 S) as (S1 & S2 & S3). split; [exact S1|]. split; [exact S2|]. intro k. rewrite S3. split; (intros [H|H]; [now left|]).
      * destruct H as (k0 & t & Hin & ->). destruct (From k0 t Hin) as (q & _ & L). right. now exists q, t.
      * destruct H as (q & t & L & ->). right. exists (render (q ++ [REF])), t. split; [now apply To | reflexivity].
  - intros _ (q & t & L & Nt). apply rewrite_refs_err; try assumption. exists (render (q ++ [REF])), t. split; [now apply To | exact Nt].
Qed.

(** ** Files *)
Lemma existsp_openapi c : c_existsp "openapi" c = true <-> is_spec_doc c.
Proof.
  unfold c_existsp, c_exists, c_search, is_spec_doc. change (dot_path "openapi") with ["openapi"]. destruct c as [j|]; cbn [c_data].
  - destruct j as [| | | |l|m]; cbn; try (split; [discriminate | intros (m' & v & E & _); discriminate]).
    destruct (oget "openapi" m) as [v|] eqn:G; split; try discriminate; eauto. intros (m' & v & E & H). injection E as <-. congruence.
  - cbn. split; [discriminate | intros (m' & v & E & _); discriminate].
Qed.
Definition spec_file (f : file) : bool := c_existsp "openapi" (f_cont f).
Lemma file_ref_cons f ff t : file_ref (f :: ff) t <-> (exists doc q, is_spec_doc (f_cont f) /\ f_cont f = Some doc /\ lookup (q ++ [SKey "$ref"]) doc = Some (JStr t)) \/ file_ref ff t.
Proof.
  unfold file_ref. split.
  - intros (f' & doc & q & [->|H] & R); [left; now exists doc, q | right; now exists f', doc, q].
  - intros [(doc & q & R)|(f' & doc & q & H & R)]; [exists f, doc, q; split; [now left | exact R] | exists f', doc, q; split; [now right | exact R]].
Qed.

Lemma scan_files_spec ord pkg ff : (forall n l, Permutation (ord n l) l) -> Forall good_file ff -> forall n pp, sorted pp ->
  ((forall t, file_ref ff t -> ref_ok t) -> exists pp', scan_files ord n pkg ff pp = (Ok (map (rewritten (new_text pkg)) (filter spec_file ff)), pp') /\
     sorted pp' /\ (forall k p, oget k pp' = Some p -> oget k pp = Some p \/ ptr_string p = k) /\
     forall k, oget k pp' <> None <-> oget k pp <> None \/ exists t, file_ref ff t /\ k = new_text pkg t) /\
  ((exists t, file_ref ff t /\ ~ ref_ok t) -> exists pp', scan_files ord n pkg ff pp = (Err, pp')).
Proof.
  intros Ho. induction ff as [|f ff IH]; intros G n pp S.
  - split.
    + intros _. exists pp. split; [reflexivity|]. split; [exact S|]. split; [auto|]. intro k. split; [auto|]. intros [H|(t & (f & doc & q & [] & _) & _)]. exact H.
    + intros (t & (f & doc & q & [] & _) & _).
  - inversion G as [|? ? Gf Gr]; subst. cbn [scan_files filter]. unfold spec_file at 1. destruct (c_existsp "openapi" (f_cont f)) eqn:X; cbn [negb].
    + apply existsp_openapi in X. destruct (Gf X) as (W & K). destruct X as (m & v & Ec & Hm).
      destruct f as [path c]. cbn [f_cont f_path] in *. subst c. cbn [c_data] in *.
      destruct (extract_ok (ord n) (JObj m) eq_refl) as (refs & Er). rewrite Er.
      destruct (rewrite_doc (ord n) pkg (JObj m) refs pp (Ho n) W K Er) as (R1 & R2).
      assert (Sp : is_spec_doc (Some (JObj m))) by now exists m, v.
      split.
      * intro Hok. destruct R1 as (pp1 & E1 & Q1).
        { intros q t L. apply Hok. apply file_ref_cons. left. exists (JObj m), q. now split. }
        destruct (Q1 S) as (S1 & P1 & K1). rewrite E1. destruct (IH Gr (Datatypes.S n) pp1 S1) as (I1 & _).
        destruct I1 as (pp2 & E2 & S2 & P2 & K2); [intros t Ht; apply Hok; apply file_ref_cons; now right|].
        rewrite E2. exists pp2. split; [reflexivity|]. split; [exact S2|]. split.
        -- intros k p H. destruct (P2 k p H) as [H'|H']; [apply (P1 k p H') | now right].
        -- intro k. rewrite K2, K1. split.
           ++ intros [[H|(q & t & L & ->)]|(t & H & ->)]; [now left | |right; exists t; split; [apply file_ref_cons; now right | reflexivity]].
              right. exists t. split; [|reflexivity]. apply file_ref_cons. left. now exists (JObj m), q.
           ++ intros [H|(t & H & ->)]; [now left; left|]. apply file_ref_cons in H as [(doc & q & _ & Ed & L)|H]; [|right; now exists t].
              cbn in Ed. injection Ed as <-. left; right. now exists q, t.
      * intros (t & Ht & Nt). apply file_ref_cons in Ht as [(doc & q & _ & Ed & L)|Ht].
        -- cbn in Ed. injection Ed as <-. assert (Nd : ~ doc_refs_ok (JObj m)) by (intro D; exact (Nt (D q t L))).
           specialize (R2 Nd (ex_intro _ q (ex_intro _ t (conj L Nt)))). destruct (rewrite_refs pkg refs (Some (JObj m)) pp) as [r pp']. cbn in R2. subst r. now exists pp'.
        -- destruct (rewrite_refs pkg refs (Some (JObj m)) pp) as [r pp1] eqn:E1.
           destruct (extracted (ord n) (JObj m) refs (Ho n) W K Er) as (N & F & From & To).
           assert (D : (forall k t, In (k, JStr t) refs -> ref_ok t) \/ exists k t, In (k, JStr t) refs /\ ~ ref_ok t).
           { clear. induction refs as [|[k v] refs [IH|IH]]; [left; intros k t [] | |destruct IH as (k0 & t & H & Nt); right; exists k0, t; split; [now right | exact Nt]].
             destruct v as [| | |x| |]; try (left; intros k0 t [H|H]; [discriminate | now apply (IH k0)]).
             destruct (ptr_parse_ok_err x) as [P|P].
             - left. intros k0 t [H|H]; [injection H as _ <-; exact P | now apply (IH k0)].
             - right. exists k, x. split; [now left|]. intros (p & Hp). congruence. }
           destruct D as [D|D].
           ++ destruct R1 as (pp1' & E1' & Q1). { intros q t0 L. exact (D _ _ (To q t0 L)). }
              try rewrite E1 in E1'. injection E1' as -> ->. destruct (Q1 S) as (S1 & _). destruct (IH Gr (Datatypes.S n) pp1' S1) as (_ & I2).
              destruct I2 as (pp2 & E2); [now exists t|]. rewrite E2. now exists pp2.
           ++ pose proof (rewrite_refs_err pkg refs (JObj m) pp W F N D) as E. rewrite E1 in E. cbn in E. subst r. now exists pp1.
    + assert (Ns : ~ is_spec_doc (f_cont f)) by (rewrite <- existsp_openapi, X; discriminate).
      assert (R : forall t, file_ref (f :: ff) t <-> file_ref ff t).
      { intro t. rewrite file_ref_cons. split; [intros [(? & ? & H & _)|H]; [contradiction | exact H] | now right]. }
      destruct (IH Gr n pp S) as (I1 & I2). split.
      * intro Hok. destruct I1 as (pp' & E & S' & P' & K'); [intros t Ht; apply Hok; now apply R|]. exists pp'. split; [exact E|]. split; [exact S'|]. split; [exact P'|].
        intro k. rewrite K'. split; (intros [H|(t & H & ->)]; [now left | right; exists t; split; [now apply R | reflexivity]]).
      * intros (t & Ht & Nt). apply I2. exists t. split; [now apply R | exact Nt].
Qed.

Lemma new_text_absolute pkg t : import_path pkg -> ref_ok t -> made_absolute pkg t (new_text pkg t).
Proof.
  intros Hi (p & Hp). exists p. split; [exact Hp|]. unfold new_text. rewrite Hp. unfold abs_ptr.
  destruct (String.eqb (u_scheme (p_url p)) "go" && String.eqb (pkg_path p) "") eqn:E.
  - apply andb_true_iff in E as (E1 & E2). apply String.eqb_eq in E1, E2. left. split; [exact E1|]. split; [exact E2|].
    destruct (go_new pkg "" Hi eq_refl) as (p1 & H1 & G & _). unfold new_go_pointer in H1.
    change ("go://" +++ pkg +++ "#/" +++ "") with ("go://" +++ pkg +++ "#/") in H1.
    unfold ptr_parse_value. rewrite H1.
    set (pf := {| p_url := p_url p1; p_frag := p_frag p |}).
    assert (Gf : go_pointer pkg pf).
    { destruct G as (f & p0 & Hp0 & Eu). exists f, p0. split; [exact Hp0 | exact Eu]. }
    now rewrite (ptr_string_go pkg pf Hi (go_pointer_in pkg pf Hi Gf)).
  - right. split; [|reflexivity]. intros (E1 & E2). rewrite E1, E2 in E. discriminate.
Qed.

(** ** A package *)
Theorem scan_specs_spec ord gopath missing fs s st d ff : (forall n l, Permutation (ord n l) l) -> import_path (ss_path s) ->
  get_pkg_path gopath missing (ss_path s) (ss_module s) = Ok d -> read_dir fs d = Ok ff -> Forall good_file ff -> sorted (sp_ptrs st) ->
  ((forall t, file_ref ff t -> exists p, ptr_parse t = Ok p) ->
   exists g pp', (forall t, file_ref ff t -> made_absolute (ss_path s) t (g t)) /\
     scan_specs ord gopath missing fs s st = Ok ({| sp_conts := sp_conts st ++ map (rewritten g) (filter (fun f => c_existsp "openapi" (f_cont f)) ff); sp_ptrs := pp' |}, false) /\
     sorted pp' /\ (forall k p, oget k pp' = Some p -> oget k (sp_ptrs st) = Some p \/ ptr_string p = k) /\
     forall k, oget k pp' <> None <-> oget k (sp_ptrs st) <> None \/ exists t, file_ref ff t /\ k = g t) /\
  ((exists t, file_ref ff t /\ ptr_parse t = Err) -> exists pp', scan_specs ord gopath missing fs s st = Ok ({| sp_conts := sp_conts st; sp_ptrs := pp' |}, true)).
Proof.
  intros Ho Hi Hd Hr G S. unfold scan_specs. rewrite Hd, Hr. destruct (scan_files_spec ord (ss_path s) ff Ho G 0 (sp_ptrs st) S) as (H1 & H2). split.
  - intro Hok. destruct (H1 Hok) as (pp' & E & S' & P' & K'). rewrite E. exists (new_text (ss_path s)), pp'.
    split; [intros t Ht; apply new_text_absolute; [exact Hi | now apply Hok]|]. split; [reflexivity|]. split; [exact S'|]. split; [exact P' | exact K'].
  - intros (t & Ht & Nt). destruct H2 as (pp' & E). { exists t. split; [exact Ht|]. intros (p & Hp). congruence. } rewrite E. now exists pp'.
Qed.

(** Go references to the package itself. *)
Theorem local_go_ref pkg x : import_path pkg -> Forall (fun t => has_char "%" t = false) x ->
  new_text pkg ("go://#" +++ frag_string x) = "go://" +++ pkg +++ "#" +++ frag_string x.
Proof.
  intros Hi Hx.
  assert (P : ptr_parse ("go://#" +++ frag_string x) = Ok {| p_url := with_fragment (frag_string x) (go_url "" ""); p_frag := x |}).
  { unfold ptr_parse. change (String.eqb ("go://#" +++ frag_string x) "" || String.eqb ("go://#" +++ frag_string x) "#") with false. cbn iota.
    unfold url_parse. change ("go://#" +++ frag_string x) with ("go://" +++ String "#" (frag_string x)).
    rewrite (cut_char_app "#" "go://" (frag_string x) eq_refl). change (parse_nofrag "go://") with (Some (go_url "" "")).
    rewrite (unescape_noperc _ (frag_string_no_perc x Hx)). cbn [u_fragment with_fragment]. unfold new_fragment. rewrite frag_roundtrip. reflexivity. }
  destruct (new_text_absolute pkg _ Hi (ex_intro _ _ P)) as (p & Hp & D). rewrite P in Hp. injection Hp as <-.
  destruct D as [(_ & _ & D)|(N & _)]; [exact D | now elim N].
Qed.

(** ** A key with a dot *)
Definition dotted_doc (v a b t : string) : json :=
  JObj (obj_of [("openapi", JStr v); (a +++ "." +++ b, JObj [("$ref", JStr t)])]).
Lemma dotted_doc_cases v a b t : has_char "." a = false -> a <> "openapi" ->
  dotted_doc v a b t = JObj [("openapi", JStr v); (a +++ "." +++ b, JObj [("$ref", JStr t)])] \/
  dotted_doc v a b t = JObj [(a +++ "." +++ b, JObj [("$ref", JStr t)]); ("openapi", JStr v)].
Proof.
  intros Ha Na. unfold dotted_doc. change (obj_of [("openapi", JStr v); (a +++ "." +++ b, JObj [("$ref", JStr t)])])
    with (oset "openapi" (JStr v) [(a +++ "." +++ b, JObj [("$ref", JStr t)])]).
  assert (N : "openapi" <> a +++ "." +++ b).
  { intro C. assert (K : has_char "." (a +++ "." +++ b) = true) by (rewrite !has_char_app; cbn; now rewrite orb_true_r). rewrite <- C in K. discriminate. }
  remember (a +++ "." +++ b) as k. unfold oset.
  destruct (String.compare "openapi" k) eqn:C; [|now left | now right].
  apply scmp_eq in C. contradiction.
Qed.
Lemma split3 a b : has_char "." a = false -> has_char "." b = false -> split_char "." ((a +++ "." +++ b) +++ ".$ref") = [a; b; "$ref"].
Proof.
  intros Ha Hb. replace ((a +++ "." +++ b) +++ ".$ref") with (a +++ String "." (b +++ String "." "$ref")) by (now rewrite !app_assoc_s).
  rewrite (split_char_app_sep "." a _ Ha), (split_char_app_sep "." b _ Hb). reflexivity.
Qed.
Theorem dotted_key ord pkg v a b t pp : (forall l, Permutation (ord l) l) -> plain a -> plain b -> a <> "openapi" -> ref_ok t ->
  exists refs r pp', extract_key ord "$ref" (Some (dotted_doc v a b t)) = Ok refs /\
    rewrite_refs pkg refs (Some (dotted_doc v a b t)) pp = (Ok (Some r), pp') /\
    lookup [SKey (a +++ "." +++ b); SKey "$ref"] r = Some (JStr t) /\
    lookup [SKey a] (dotted_doc v a b t) = None /\
    lookup [SKey a; SKey b; SKey "$ref"] r = Some (JStr (new_text pkg t)).
Proof.
  intros Ho (Na & Ha & Ta) (Nb & Hb & Tb) Nop (p & Hp).
  set (k := a +++ "." +++ b). set (x := JObj [("$ref", JStr t)]).
  assert (Nk : k <> "openapi").
  { intro E. assert (K : has_char "." k = true) by (unfold k; rewrite !has_char_app; cbn; now rewrite orb_true_r). rewrite E in K. discriminate. }
  assert (Nak : a <> k).
  { intro E. assert (K : has_char "." k = true) by (unfold k; rewrite !has_char_app; cbn; now rewrite orb_true_r). congruence. }
  assert (Kn : k <> ""). { unfold k. destruct a; [now elim Na | discriminate]. }
  assert (Fl : flat "" x = [("$ref", JStr t)]) by reflexivity.
  assert (Sp : sub_path "" k = k) by reflexivity.
  assert (Fk : flat (sub_path "" k) x = [(k +++ ".$ref", JStr t)]).
  { rewrite Sp. cbn. unfold sub_path. now destruct k. }
  assert (G : forall m, (m = [("openapi", JStr v); (k, x)] \/ m = [(k, x); ("openapi", JStr v)]) ->
     exists refs r pp', extract_key ord "$ref" (Some (JObj m)) = Ok refs /\ rewrite_refs pkg refs (Some (JObj m)) pp = (Ok (Some r), pp') /\
       lookup [SKey k; SKey "$ref"] r = Some (JStr t) /\ lookup [SKey a] (JObj m) = None /\ lookup [SKey a; SKey b; SKey "$ref"] r = Some (JStr (new_text pkg t))).
  { intros m Hm.
    assert (Ex : extract_key ord "$ref" (Some (JObj m)) = Ok [(k +++ ".$ref", JStr t)]).
    { unfold extract_key, c_flatten. cbn [c_data].
      assert (Ff : Permutation (ord (flat "" (JObj m))) [("openapi", JStr v); (k +++ ".$ref", JStr t)]).
      { rewrite Ho. destruct Hm as [-> | ->]; cbn [flat]; rewrite Fk; cbn; [reflexivity | apply perm_swap]. }
      cbn [bind]. f_equal.
      assert (Ls : last_seg (k +++ ".$ref") = "$ref") by (unfold last_seg, k; now rewrite (split3 a b Ha Hb)).
      assert (Ne : k +++ ".$ref" <> "openapi").
      { intro E. assert (K : has_char "." (k +++ ".$ref") = true) by (rewrite has_char_app; cbn; now rewrite orb_true_r). rewrite E in K. discriminate. }
      apply Permutation_sym, Permutation_length_2_inv in Ff as [-> | ->]; cbn [dedup filter fst].
      - rewrite (proj2 (String.eqb_neq _ _) Ne). cbn [negb filter]. change (String.eqb (last_seg "openapi") "$ref") with false. cbn [filter fst]. now rewrite Ls.
      - destruct (String.eqb "openapi" (k +++ ".$ref")) eqn:Eo; [apply String.eqb_eq in Eo; congruence|]. cbn [negb filter fst]. rewrite Ls.
        change (String.eqb (last_seg "openapi") "$ref") with false. reflexivity. }
    assert (Og : oget a m = None /\ oget k m = Some x).
    { destruct Hm as [-> | ->]; cbn [oget]; rewrite (proj2 (String.eqb_neq a k) Nak), (proj2 (String.eqb_neq a "openapi") Nop), (String.eqb_refl k); [|now split].
      rewrite (proj2 (String.eqb_neq k "openapi") Nk). now split. }
    destruct Og as (Oa & Ok').
    exists [(k +++ ".$ref", JStr t)]. cbn [rewrite_refs]. rewrite Hp. 
    assert (Dp : dot_path (k +++ ".$ref") = [a; b; "$ref"]).
    { unfold dot_path, k. rewrite (split3 a b Ha Hb). cbn [map]. now rewrite (undot_plain a Ta), (undot_plain b Tb). }
    rewrite (setp_ok (k +++ ".$ref") (JStr (ptr_string (abs_ptr pkg p))) (JObj m) _ eq_refl), Dp. cbn [denull gset]. rewrite Oa. cbn [gset oget bind oset].
    eexists. eexists. split; [exact Ex|]. split; [reflexivity|]. split; [|split].
    - cbn [lookup]. rewrite oget_oset_other by congruence. now rewrite Ok'.
    - cbn [lookup]. now rewrite Oa.
    - cbn [lookup]. rewrite oget_oset_same. cbn [oget]. rewrite String.eqb_refl. cbn. unfold new_text. now rewrite Hp. }
  destruct (dotted_doc_cases v a b t Ha Nop) as [E|E]; rewrite E; apply G; [now left | now right].
Qed.
