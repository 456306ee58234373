(** Lemmas about the resolver: no external reference survives (C23). *)
From Coq Require Import String Ascii List Bool Arith ZArith Lia Permutation.
From Verif Require Import GoStr GoStrFacts Json JsonFacts Gabs GabsFacts Container MergeFacts
  Spec_Loc LocFacts SetFacts CloneFacts Url Pointer FragFacts PtrFacts Resolver Spec_Resolve.
Import ListNotations.
Local Open Scope string_scope.
Local Open Scope nat_scope.
Local Open Scope list_scope.

(** ** clone and locations *)
Lemma clone_scalar_str j s : clone j = Ok (JStr s) -> j = JStr s.
Proof.
  destruct j as [|b|[z|m e|]|t|l|m]; intro H; try discriminate H; try (cbn [clone] in H; congruence).
  - rewrite clone_arr_eq in H. apply bind_ok in H as (? & _ & H). discriminate.
  - rewrite clone_obj_eq in H. apply bind_ok in H as (? & _ & H). discriminate.
Qed.

Lemma clone_is_scalar j j' : clone j = Ok j' -> is_scalar j' = is_scalar j.
Proof.
  destruct j as [|b|[z|m e|]|t|l|m]; intro H; try discriminate H; try (cbn [clone] in H; injection H as <-; reflexivity).
  - rewrite clone_arr_eq in H. apply bind_ok in H as (? & _ & H). now injection H as <-.
  - rewrite clone_obj_eq in H. apply bind_ok in H as (? & _ & H). now injection H as <-.
Qed.

Lemma clone_list_nth l l' i : clone_list l = Ok l' ->
  match nth_error l i, nth_error l' i with
  | Some x, Some y => clone x = Ok y | None, None => True | _, _ => False end.
Proof.
  intro H. apply clone_list_ok in H. revert i. induction H as [|x y l l' Hxy _ IH]; intros [|i]; cbn; auto. apply IH.
Qed.

Lemma clone_lookup q : forall j j', clone j = Ok j' ->
  match lookup q j, lookup q j' with
  | Some x, Some y => clone x = Ok y | None, None => True | _, _ => False end.
Proof.
  induction q as [|[k|i] q IH]; intros j j' H; cbn [lookup]; [exact H| |];
    (destruct j as [|b|[z|m e|]|t|l|m]; try discriminate H; try (cbn [clone] in H; injection H as <-; exact I)).
  - rewrite clone_arr_eq in H. apply bind_ok in H as (l' & _ & H). injection H as <-. exact I.
  - apply clone_obj_inv in H as (m' & -> & H). pose proof (clone_map_oget _ _ k H) as E.
    destruct (oget k m) as [x|].
    * destruct E as (y & E1 & E2). rewrite E1. apply IH. exact E2.
    * now rewrite E.
  - rewrite clone_arr_eq in H. apply bind_ok in H as (l' & H & E). injection E as <-.
    pose proof (clone_list_nth _ _ i H) as E. destruct (nth_error l i), (nth_error l' i); try contradiction; [now apply IH | exact I].
  - apply clone_obj_inv in H as (m' & -> & H). exact I.
Qed.

Lemma clone_lookup_str q j j' s : clone j = Ok j' -> lookup q j' = Some (JStr s) <-> lookup q j = Some (JStr s).
Proof.
  intro H. pose proof (clone_lookup q _ _ H) as E. split; intro L; rewrite L in E.
  - destruct (lookup q j); [|contradiction]. apply clone_scalar_str in E. now subst.
  - destruct (lookup q j'); [|contradiction]. cbn in E. now injection E as <-.
Qed.

Lemma clone_ext j j' q t p : clone j = Ok j' -> ext_ref j' q t p <-> ext_ref j q t p.
Proof. intro H. unfold ext_ref. now rewrite (clone_lookup_str _ _ _ t H). Qed.

Lemma clone_no_ext j j' : clone j = Ok j' -> no_ext j' <-> no_ext j.
Proof. intro H. unfold no_ext. split; intros N q t p E; apply (N q t p); now apply (clone_ext _ _ _ _ _ H). Qed.

Lemma clone_keys_ok P j : forall j', keys_ok P j -> clone j = Ok j' -> keys_ok P j'.
Proof.
  induction j as [|b|[z|m e|]|t|l IH|m IH] using json_induction; intros j' Hk H; try discriminate H;
    try (cbn [clone] in H; injection H as <-; exact I).
  - rewrite clone_arr_eq in H. apply bind_ok in H as (l' & H & E). injection E as <-.
    apply clone_list_ok in H. apply keys_ok_arr in Hk as [Hn Hk]. apply keys_ok_arr. split.
    + replace (length l') with (length l); [exact Hn|]. clear -H. induction H; cbn; congruence.
    + clear Hn. induction H as [|x y l l' Hxy _ IHl]; constructor; inversion IH; inversion Hk; subst; auto.
  - apply clone_obj_inv in H as (m' & -> & H). apply clone_map_ok in H. apply keys_ok_obj in Hk. apply keys_ok_obj.
    induction H as [|[a x] [b y] m m' [E Hxy] _ IHl]; constructor; inversion IH; inversion Hk; subst; cbn in *; subst; auto.
    intuition auto.
Qed.

Lemma clone_tidy j j' : tidy j -> clone j = Ok j' -> tidy j'.
Proof.
  intros (Hw & Hk & Hr) H. split; [eapply clone_wf; eassumption|]. split; [eapply clone_keys_ok; eassumption|].
  intros t p E. apply (clone_ext _ _ _ _ _ H) in E. exact (Hr _ _ E).
Qed.

(** ** what a set can add *)
Lemma addresses_fun top p j q1 : addresses top p j q1 -> forall q2, addresses top p j q2 -> q1 = q2.
Proof.
  induction 1 as [top j|top k p m q1 H IH|top s n i p l c q1 Hs Ha Hn Hi Hl Hc H IH|p l q1 H IH]; intros q2 H2;
    inversion H2; subst; try congruence.
  - f_equal. now apply IH.
  - assert (n0 = n) by congruence. subst n0. assert (c0 = c) by congruence. subst c0. f_equal. now apply IH.
  - f_equal. now apply IH.
Qed.

(** A scalar found after a set is inside the new value, or was there before,
    apart from the location written. *)
Lemma gset_scalar top p j q v : addresses top p j q -> forall r, gset top v p j = Ok r ->
  forall q' x, lookup q' r = Some x -> is_scalar x = true ->
  (exists q'', q' = q ++ q'' /\ lookup q'' v = Some x) \/ (apart q q' /\ lookup q' j = Some x).
Proof.
  intros Ha r Hr q' x Hl Hx. destruct (gset_spec _ _ _ _ v Ha _ Hr) as [H1 H2].
  assert (D : above q q' \/ (exists s q'', q = q' ++ s :: q'') \/ apart q q').
  { clear. revert q'. induction q as [|s q IH]; intros q'; [left; now exists q'|]. destruct q' as [|s' q'].
    - right. left. exists s, q. reflexivity.
    - destruct (IH q') as [[t ->]|[(t & u & ->)|[A B]]].
      + assert (s = s' \/ s <> s') as [->|N] by (destruct s as [a|a], s' as [b|b]; try (right; discriminate);
          [destruct (String.eqb_spec a b)|destruct (Nat.eqb_spec a b)]; subst; auto; right; congruence).
        * left. now exists t.
        * right. right. split; intros [t' E]; cbn in E; congruence.
      + assert (s = s' \/ s <> s') as [->|N] by (destruct s as [a|a], s' as [b|b]; try (right; discriminate);
          [destruct (String.eqb_spec a b)|destruct (Nat.eqb_spec a b)]; subst; auto; right; congruence).
        * right. left. exists t, u. reflexivity.
        * right. right. split; intros [t' E]; cbn in E; congruence.
      + right. right. split; intros [t E]; cbn in E; injection E as E1 E2; [apply A | apply B]; exists t; congruence. }
  destruct D as [[t ->]|[(s & t & E)|A]].
  - left. exists t. split; [reflexivity|]. rewrite lookup_app, H1 in Hl. exact Hl.
  - exfalso. rewrite E, lookup_app, Hl in H1. destruct x; try discriminate Hx; destruct s; discriminate H1.
  - right. split; [exact A|]. now rewrite <- (H2 q' A).
Qed.

Lemma gset_not_scalar top v p j r : p <> [] -> gset top v p j = Ok r -> is_scalar r = false.
Proof.
  destruct p as [|s p]; [congruence|]. intros _ H. cbn [gset] in H. destruct j as [| | | |l|m]; try discriminate.
  - destruct (String.eqb s "-").
    + destruct top; [discriminate|]. apply bind_ok in H as (c & _ & H). now injection H as <-.
    + destruct (arr_index s); [|discriminate]. destruct (nth_error l n) as [c|]; [|discriminate].
      destruct p; [|destruct c; try discriminate]; apply bind_ok in H as (c' & _ & H); now injection H as <-.
  - cbv zeta in H. apply bind_ok in H as (c & _ & H). now injection H as <-.
Qed.

(** A successful SetP on any container. *)
Lemma setp_inv path v c c' : c_setp path v c = Ok c' ->
  exists j v' r q, c = Some j /\ c' = Some r /\ clone v = Ok v' /\ is_scalar r = false /\ addresses true (dot_path path) (denull j) q /\ gset true v' (dot_path path) (denull j) = Ok r.
Proof.
  unfold c_setp. intro H. apply bind_ok in H as (v' & Hv & H). unfold c_set in H. destruct c as [j|]; [|discriminate].
  apply bind_ok in H as (r & Hr & H). injection H as <-.
  rewrite root_set_nonempty in Hr by apply dot_path_nonempty.
  destruct (gset_ok_addresses _ _ _ _ _ Hr) as [q Hq].
  exists j, v', r, q. repeat split; auto. eapply gset_not_scalar; [apply dot_path_nonempty | exact Hr].
Qed.

Lemma lookup_denull_str q j s : lookup q (denull j) = Some (JStr s) -> lookup q j = Some (JStr s).
Proof. destruct j; auto. destruct q as [|[k|i] q]; cbn; discriminate. Qed.

(** ** the local reference text is never external *)
Lemma local_not_external f p : ptr_parse (ptr_string {| p_url := p_url new_pointer; p_frag := f |}) = Ok p -> is_external p = false.
Proof.
  change (ptr_string {| p_url := p_url new_pointer; p_frag := f |}) with (String "#" (frag_string f)).
  unfold ptr_parse. destruct (String.eqb (String "#" (frag_string f)) "" || String.eqb (String "#" (frag_string f)) "#"); [now intros [= <-]|].
  unfold url_parse. cbn [cut_char Ascii.eqb Bool.eqb]. 
  set (x := frag_string f). cbn. destruct (unescape EFragment x) as [y|]; cbn; [|discriminate].
  destruct (new_fragment y); cbn; try discriminate. now intros [= <-].
Qed.

(** ** unfolding the iterator *)
Definition rstep ord es fn fuel pos pp (i : nat) (key : string) (v : json) (s : rstate) : res rstate :=
  match v with
  | JStr str =>
      do p <- ptr_parse str ;
      if negb (is_external p) then Ok s
      else if path_has pp p then r_set_recursive es p key s
      else
        do x <- fn p ;
        do nc <- c_make x ;
        do r <- iterator ord es fn fuel (pos ++ [i]) (pp ++ [p]) (fst s, Some nc) ;
        r_set es p key (c_data (st_cx r)) (fst r, snd s)
  | _ => Ok s
  end.
Fixpoint rloop (body : nat -> string -> json -> rstate -> res rstate) (i : nat) (refs : list (string * json)) (s : rstate) : res rstate :=
  match refs with
  | [] => Ok s
  | (key, v) :: refs' => do s' <- body i key v s ; rloop body (S i) refs' s'
  end.
Lemma iterator_S ord es fn f pos pp s : iterator ord es fn (S f) pos pp s =
  do refs <- extract_key (ord pos) "$ref" (st_cx s) ; rloop (rstep ord es fn f pos pp) 0 refs s.
Proof.
  cbn [iterator]. destruct (extract_key (ord pos) "$ref" (st_cx s)) as [refs| | |]; try reflexivity. cbn [bind].
  generalize 0 as i. revert s. induction refs as [|[key v] refs IH]; intros s i; [reflexivity|]. cbn [rloop].
  change (rstep ord es fn f pos pp i key v s) with
     (match v with
      | JStr str =>
          do p <- ptr_parse str ;
          if negb (is_external p) then Ok s
          else if path_has pp p then r_set_recursive es p key s
          else
            do x <- fn p ;
            do nc <- c_make x ;
            do r <- iterator ord es fn f (pos ++ [i]) (pp ++ [p]) (fst s, Some nc) ;
            r_set es p key (c_data (st_cx r)) (fst r, snd s)
      | _ => Ok s
      end).
  match goal with |- bind ?a _ = bind ?b _ => change a with b; destruct b; try reflexivity end. cbn [bind]. apply IH.
Qed.

(** ** references extracted from a tidy document *)
Notation REF := (SKey "$ref").
Lemma seg_is_ref s : seg s = "$ref" -> s = REF.
Proof.
  destruct s as [k|i]; cbn [seg]; [congruence|]. intro H. exfalso.
  assert (has_char "$" (itoa i) = false) as Hn by (apply itoa_no_char; reflexivity). rewrite H in Hn. discriminate.
Qed.
Lemma render_snoc q s : q <> [] -> render (q ++ [s]) = render q +++ "." +++ seg s.
Proof.
  intro H. unfold render. rewrite map_app. cbn [map]. destruct q as [|a q]; [congruence|]. clear H. cbn [map app].
  revert a. induction q as [|b q IH]; intro a; [reflexivity|]. cbn [map app].
  rewrite !join_cons. rewrite IH. now rewrite !app_assoc_s.
Qed.
Lemma isref_render q : Forall seg_ok (q ++ [REF]) -> isref (render (q ++ [REF])) = Some (render q).
Proof.
  intro H. unfold isref. cbv zeta.
  assert (E : split_char "." (render (q ++ [REF])) = map seg (q ++ [REF])).
  { unfold render. apply split_join_dot; [|destruct q; discriminate]. apply Forall_map. eapply Forall_impl; [|exact H].
    intros s Hs. apply seg_plain in Hs. apply Hs. }
  rewrite E, map_app. cbn [map]. rewrite last_last. rewrite removelast_last. reflexivity.
Qed.
Lemma render_inj q1 q2 j v1 v2 : Forall seg_ok q1 -> Forall seg_ok q2 -> q1 <> [] -> q2 <> [] ->
  lookup q1 j = Some v1 -> lookup q2 j = Some v2 -> render q1 = render q2 -> q1 = q2.
Proof.
  intros H1 H2 N1 N2 L1 L2 E. eapply seg_inj; [exact H1 | exact H2 | exact L1 | exact L2|].
  rewrite <- (dot_path_render q1), <- (dot_path_render q2) by assumption. now rewrite E.
Qed.

Lemma extract_scalar ord key j refs : extract_key ord key (Some j) = Ok refs -> is_scalar j = false.
Proof. unfold extract_key, c_flatten. cbn [c_data]. destruct j; cbn; try discriminate; reflexivity. Qed.

Definition ref_entry (j0 : json) (kv : string * json) : Prop :=
  exists q, fst kv = render (q ++ [REF]) /\ lookup (q ++ [REF]) j0 = Some (snd kv) /\ Forall seg_ok (q ++ [REF]).

Lemma extract_refs ord j refs : (forall l, Permutation (ord l) l) -> wf j -> keys_ok plain j ->
  extract_key ord "$ref" (Some j) = Ok refs ->
  NoDup (keys refs) /\ Forall (ref_entry j) refs /\
  (forall q v, lookup (q ++ [REF]) j = Some v -> is_scalar v = true -> In (render (q ++ [REF]), v) refs).
Proof.
  intros Ho Hw Hk He. pose proof (extract_scalar _ _ _ _ He) as Hs.
  destruct (extract_key_spec ord "$ref" j refs Ho Hw Hk Hs He) as [Hn Hin]. split; [exact Hn|]. split.
  - apply Forall_forall. intros [p v] Hp. apply Hin in Hp as (q & s & -> & Es & Hl & Hv). apply seg_is_ref in Es as ->.
    exists q. split; [reflexivity|]. split; [exact Hl|]. exact (seg_ok_lookup _ _ _ Hk Hl).
  - intros q v Hl Hv. apply Hin. exists q, REF. repeat split; auto.
Qed.

(** ** sets never add external references *)
Definition ext_le (c c' : cont) : Prop := forall q t p, ext_ref (c_data c') q t p -> ext_ref (c_data c) q t p.

Lemma ext_le_refl c : ext_le c c.
Proof. intros q t p H; exact H. Qed.
Lemma ext_le_trans a b c : ext_le a b -> ext_le b c -> ext_le a c.
Proof. intros H1 H2 q t p H. apply H1, H2, H. Qed.

(** Values whose insertion cannot create an external reference. *)
Definition inert (v : json) : Prop :=
  no_ext v /\ (forall t p, v = JStr t -> ptr_parse t = Ok p -> is_external p = false).

Lemma inert_clone v v' : inert v -> clone v = Ok v' -> inert v'.
Proof.
  intros [H1 H2] Hc. split; [now apply (clone_no_ext _ _ Hc)|]. intros t p ->. apply clone_scalar_str in Hc. now apply H2.
Qed.
Lemma inert_empty : inert (JObj []).
Proof. split; [|discriminate]. intros [|[k|i] q] t p [H _]; discriminate. Qed.
Lemma inert_local f : inert (JStr (ptr_string {| p_url := p_url new_pointer; p_frag := f |})).
Proof.
  split; [intros [|[k|i] q] t p [H _]; discriminate|]. intros t p [= <-]. apply local_not_external.
Qed.
Lemma inert_not_scalar v : no_ext v -> is_scalar v = false -> inert v.
Proof. intros H Hs. split; [exact H|]. intros t p ->. discriminate. Qed.

Lemma setp_ext path v c c' q1 : inert v -> c_setp path v c = Ok c' ->
  addresses true (dot_path path) (denull (c_data c)) q1 ->
  is_scalar (c_data c') = false /\
  forall q t p, ext_ref (c_data c') q t p -> ext_ref (c_data c) q t p /\ apart q1 (q ++ [REF]).
Proof.
  intros Hv H Ha. apply setp_inv in H as (j & v' & r & q0 & -> & -> & Hc & Hs & Ha' & Hr). cbn [c_data] in *. split; [exact Hs|].
  clear Ha' q0. pose proof (inert_clone _ _ Hv Hc) as [N1 N2].
  intros q t p (Hl & Hp & He). destruct (gset_scalar _ _ _ _ _ Ha _ Hr _ _ Hl eq_refl) as [(q'' & E & L)|[A L]].
  - exfalso. destruct (List.exists_last (l := q ++ [REF])) as (_ & _ & _); [destruct q; discriminate|].
    destruct q'' as [|s q''] using rev_ind.
    + cbn in L. injection L as ->. rewrite (N2 t p eq_refl Hp) in He. discriminate.
    + rewrite app_assoc in E. apply app_inj_tail in E as [_ <-]. apply (N1 q'' t p). split; auto.
  - split; [|exact A]. split; [now apply lookup_denull_str|]. auto.
Qed.
Lemma setp_le path v c c' : inert v -> c_setp path v c = Ok c' -> ext_le c c' /\ is_scalar (c_data c') = false.
Proof.
  intros Hv H. pose proof H as H0. apply setp_inv in H as (j & v' & r & q0 & -> & E & Hc & Hs & Ha' & Hr).
  destruct (setp_ext path v _ _ q0 Hv H0) as [H1 H2]; [exact Ha'|]. split; [|exact H1].
  intros q t p He. now apply H2.
Qed.

Lemma clears_gen path v c c' q0 qs x : inert v -> c_setp path v c = Ok c' ->
  qs <> [] -> Forall seg_ok qs -> path = render qs -> above qs (q0 ++ [REF]) ->
  lookup (q0 ++ [REF]) (c_data c) = Some x -> forall t p, ~ ext_ref (c_data c') q0 t p.
Proof.
  intros Hv H Hn Hs -> [u Hu] Hl t p He. pose proof H as H0.
  apply setp_inv in H as (j & v' & r & q1 & -> & E & Hc & _ & Ha & Hr). cbn [c_data] in Hl.
  destruct (setp_ext _ v _ _ q1 Hv H0) as [_ H2]; [exact Ha|].
  destruct (H2 _ _ _ He) as [_ A].
  rewrite Hu, lookup_app in Hl. destruct (lookup qs j) as [y|] eqn:Ey; [|discriminate].
  rewrite dot_path_render in Ha by assumption. rewrite (denull_lookup qs j y Hn Ey) in Ha.
  assert (q1 = qs) as -> by (eapply addresses_fun; [exact Ha | eapply addresses_lookup; eassumption]).
  apply (proj1 A). now exists u.
Qed.

(** Processing one entry removes it and adds nothing. *)
Definition removes (q0 : loc) (c c' : cont) : Prop :=
  is_scalar (c_data c') = false /\
  forall q t p, ext_ref (c_data c') q t p -> ext_ref (c_data c) q t p /\ q <> q0.

Lemma setp_removes path v c c' q0 qs : inert v -> c_setp path v c = Ok c' ->
  qs <> [] -> Forall seg_ok qs -> path = render qs -> above qs (q0 ++ [REF]) -> removes q0 c c'.
Proof.
  intros Hv H Hn Hs Hp Hq. destruct (setp_le _ _ _ _ Hv H) as [L S]. split; [exact S|].
  intros q t p He. split; [now apply L|]. intros ->. pose proof (L _ _ _ He) as (Hl & _).
  exact (clears_gen path v c c' q0 qs _ Hv H Hn Hs Hp Hq Hl t p He).
Qed.

Lemma replace_removes q0 v c c' : q0 <> [] -> Forall seg_ok (q0 ++ [REF]) -> inert v ->
  replace_ptr (render (q0 ++ [REF])) v c = Ok c' -> removes q0 c c'.
Proof.
  intros Hn Hs Hv H. unfold replace_ptr in H. rewrite isref_render in H by exact Hs.
  eapply (setp_removes _ _ _ _ q0 q0); [exact Hv | exact H | exact Hn | apply Forall_app in Hs; apply Hs | reflexivity | now exists [REF]].
Qed.
Lemma update_removes q0 f c c' : Forall seg_ok (q0 ++ [REF]) ->
  update_ptr_local (render (q0 ++ [REF])) f c = Ok c' -> removes q0 c c'.
Proof.
  intros Hs H. unfold update_ptr_local, update_ptr in H. rewrite isref_render in H by exact Hs.
  eapply (setp_removes _ _ _ _ q0 (q0 ++ [REF])); [apply inert_local | exact H | destruct q0; discriminate | exact Hs | reflexivity|].
  exists []. now rewrite app_nil_r.
Qed.

(** Effect on r.con. *)
Definition root_le (c c' : cont) : Prop :=
  ext_le c c' /\ (is_scalar (c_data c) = false -> is_scalar (c_data c') = false).
Lemma root_le_refl c : root_le c c.
Proof. split; [apply ext_le_refl | auto]. Qed.
Lemma root_le_trans a b c : root_le a b -> root_le b c -> root_le a c.
Proof. intros [A1 A2] [B1 B2]. split; [eapply ext_le_trans; eassumption | auto]. Qed.
Lemma removes_le q0 c c' : removes q0 c c' -> root_le c c'.
Proof. intros [H1 H2]. split; [|auto]. intros q t p H. now apply H2. Qed.
Lemma setp_root_le path v c c' : inert v -> c_setp path v c = Ok c' -> root_le c c'.
Proof. intros Hv H. destruct (setp_le _ _ _ _ Hv H). split; auto. Qed.

(** States keep their mode. *)
Definition same_mode (s s' : rstate) : Prop := snd s = None <-> snd s' = None.

Definition advances (q0 : loc) (s s' : rstate) : Prop :=
  root_le (fst s) (fst s') /\ same_mode s s' /\ removes q0 (st_cx s) (st_cx s').

Lemma on_cx_advances q0 f s s' : (forall c c', f c = Ok c' -> removes q0 c c') -> on_cx f s = Ok s' -> advances q0 s s'.
Proof.
  intros Hf H. unfold on_cx in H. destruct s as [rt [c|]]; cbn [snd fst] in H; apply bind_ok in H as (c' & H & E); injection E as <-.
  - split; [apply root_le_refl|]. split; [unfold same_mode; cbn; split; intro; discriminate|]. now apply Hf.
  - split; [eapply removes_le, Hf, H|]. split; [unfold same_mode; cbn; split; reflexivity|]. now apply Hf.
Qed.

Lemma on_root_le f s s' : (forall c c', f c = Ok c' -> root_le c c') -> on_root f s = Ok s' ->
  root_le (fst s) (fst s') /\ same_mode s s' /\ root_le (st_cx s) (st_cx s').
Proof.
  intros Hf H. unfold on_root in H. destruct s as [rt [c|]]; cbn [snd fst] in H; apply bind_ok in H as (c' & H & E); injection E as <-.
  - split; [now apply Hf|]. split; [unfold same_mode; cbn; split; intro; discriminate|]. apply root_le_refl.
  - split; [now apply Hf|]. split; [unfold same_mode; cbn; split; reflexivity|]. now apply Hf.
Qed.

Lemma advances_after q0 s s1 s2 : root_le (fst s) (fst s1) -> same_mode s s1 -> root_le (st_cx s) (st_cx s1) ->
  advances q0 s1 s2 -> advances q0 s s2.
Proof.
  intros H1 H2 H3 (A1 & A2 & A3 & A4). split; [eapply root_le_trans; eassumption|]. split; [unfold same_mode in *; tauto|].
  split; [exact A3|]. intros q t p He. destruct (A4 _ _ _ He) as [E N]. split; [now apply H3 | exact N].
Qed.

Lemma r_set_advances es p q0 v s s' : q0 <> [] -> Forall seg_ok (q0 ++ [REF]) -> inert v ->
  r_set es p (render (q0 ++ [REF])) v s = Ok s' -> advances q0 s s'.
Proof.
  intros Hn Hs Hv H. unfold r_set in H. destruct (exports_get es p) as [ep|].
  - apply bind_ok in H as (s1 & H1 & H2). apply on_root_le in H1 as (A & B & C);
      [|intros c c' Hc; eapply setp_root_le; [exact Hv | exact Hc]].
    eapply advances_after; [exact A | exact B | exact C|].
    eapply on_cx_advances; [|exact H2]. intros c c' Hc. eapply update_removes; eassumption.
  - eapply on_cx_advances; [|exact H]. intros c c' Hc. eapply replace_removes; eassumption.
Qed.
Lemma r_set_rec_advances es p q0 s s' : q0 <> [] -> Forall seg_ok (q0 ++ [REF]) ->
  r_set_recursive es p (render (q0 ++ [REF])) s = Ok s' -> advances q0 s s'.
Proof.
  intros Hn Hs H. unfold r_set_recursive in H.
  assert (R : on_cx (replace_ptr (render (q0 ++ [REF])) (JObj [])) s = Ok s' -> advances q0 s s').
  { intro H'. eapply on_cx_advances; [|exact H']. intros c c' Hc. eapply replace_removes; try eassumption. apply inert_empty. }
  destruct (exports_get es p) as [ep|]; [|now apply R]. destruct (is_scheme ep); [|now apply R].
  eapply on_cx_advances; [|exact H]. intros c c' Hc. eapply update_removes; eassumption.
Qed.

(** ** the invariant *)
Definition pending (j0 : json) (rest : list (string * json)) (c : cont) : Prop :=
  forall q t p, ext_ref (c_data c) q t p -> ext_ref j0 q t p /\ In (render (q ++ [REF]), JStr t) rest.

Lemma pending_step j0 key v rest c c' q0 : Forall (ref_entry j0) ((key, v) :: rest) ->
  key = render (q0 ++ [REF]) -> lookup (q0 ++ [REF]) j0 = Some v -> Forall seg_ok (q0 ++ [REF]) -> keys_ok plain j0 ->
  pending j0 ((key, v) :: rest) c -> removes q0 c c' -> pending j0 rest c'.
Proof.
  intros Hf -> Hl Hs Hk HP [_ HR] q t p He. destruct (HR _ _ _ He) as [He' N]. destruct (HP _ _ _ He') as [H1 [H2|H2]]; [|auto].
  exfalso. injection H2 as E Ev. destruct H1 as (L & _).
  assert (q0 ++ [REF] = q ++ [REF]) as E2.
  { eapply render_inj; [exact Hs | eapply seg_ok_lookup; [exact Hk | exact L] | destruct q0; discriminate | destruct q; discriminate | exact Hl | exact L | exact E]. }
  apply app_inj_tail in E2 as [E2 _]. congruence.
Qed.

Lemma iterator_noext ord es fn : (forall pos l, Permutation (ord pos l) l) -> tidy_fn fn ->
  forall fuel pos pp s s', tidy (c_data (st_cx s)) -> iterator ord es fn fuel pos pp s = Ok s' ->
  root_le (fst s) (fst s') /\ same_mode s s' /\ no_ext (c_data (st_cx s')) /\ is_scalar (c_data (st_cx s')) = false.
Proof.
  intros Ho Hfn. induction fuel as [|f IH]; intros pos pp s s' Ht H; [discriminate|].
  rewrite iterator_S in H. apply bind_ok in H as (refs & He & H).
  destruct Ht as (Hw & Hk & Hroot). set (j0 := c_data (st_cx s)) in *.
  assert (Hsc : is_scalar j0 = false).
  { unfold j0 in *. destruct (st_cx s) as [j|]; [eapply extract_scalar; exact He | discriminate]. }
  assert (Hr : Forall (ref_entry j0) refs /\ (forall q v, lookup (q ++ [REF]) j0 = Some v -> is_scalar v = true -> In (render (q ++ [REF]), v) refs)).
  { unfold j0 in *. destruct (st_cx s) as [j|]; [|discriminate]. apply (extract_refs (ord pos) j refs); auto. }
  destruct Hr as [Hre Hin].
  assert (HP : pending j0 refs (st_cx s)).
  { intros q t p E. split; [exact E|]. apply Hin; [apply E | reflexivity]. }
  assert (Loop : forall refs i s1, Forall (ref_entry j0) refs -> root_le (fst s) (fst s1) -> same_mode s s1 -> is_scalar (c_data (st_cx s1)) = false ->
            pending j0 refs (st_cx s1) -> rloop (rstep ord es fn f pos pp) i refs s1 = Ok s' ->
            root_le (fst s) (fst s') /\ same_mode s s' /\ no_ext (c_data (st_cx s')) /\ is_scalar (c_data (st_cx s')) = false).
  { clear HP Hre Hin H He refs. induction refs as [|[key v] refs IHl]; intros i s1 Hre R1 R2 R3 HP H; cbn [rloop] in H.
    - injection H as <-. split; [exact R1|]. split; [exact R2|]. split; [|exact R3]. intros q t p E. now apply HP in E as [_ []].
    - apply bind_ok in H as (s2 & Hs & H). inversion Hre as [|? ? (q0 & E1 & L1 & O1) Hre']; subst. cbn [fst snd] in E1, L1.
      assert (Skip : s2 = s1 -> (forall t p, v = JStr t -> ptr_parse t = Ok p -> is_external p = false) ->
                     root_le (fst s) (fst s') /\ same_mode s s' /\ no_ext (c_data (st_cx s')) /\ is_scalar (c_data (st_cx s')) = false).
      { intros -> Hv. apply (IHl (S i) s1); auto. intros q t p E. destruct (HP _ _ _ E) as [HE [HI|HI]]; [|auto].
        exfalso. injection HI as _ ->. destruct HE as (_ & HE1 & HE2). rewrite (Hv t p eq_refl HE1) in HE2. discriminate. }
      assert (Adv : q0 <> [] -> advances q0 s1 s2 ->
                     root_le (fst s) (fst s') /\ same_mode s s' /\ no_ext (c_data (st_cx s')) /\ is_scalar (c_data (st_cx s')) = false).
      { intros Hq (A1 & A2 & A3). apply (IHl (S i) s2); auto.
        - eapply root_le_trans; eassumption.
        - unfold same_mode in *; tauto.
        - apply A3.
        - eapply pending_step; [exact Hre | exact E1 | exact L1 | exact O1 | exact Hk | exact HP | exact A3]. }
      unfold rstep in Hs.
      destruct v as [| | |str| |]; try (apply Skip; [congruence | discriminate]).
      apply bind_ok in Hs as (p & Hp & Hs). destruct (is_external p) eqn:Ex; cbn [negb] in Hs.
      2:{ apply Skip; [congruence|]. intros t p' [= <-] Hp'. congruence. }
      assert (Hq : q0 <> []).
      { intros ->. apply (Hroot str p). split; [exact L1 | auto]. }
      subst key. destruct (path_has pp p).
      + apply Adv; [exact Hq|]. eapply r_set_rec_advances; eassumption.
      + apply bind_ok in Hs as (x & Hx & Hs). apply bind_ok in Hs as (nc & Hnc & Hs). apply bind_ok in Hs as (r & Hr & Hs).
        unfold c_make in Hnc. apply bind_ok in Hnc as (x' & Hcl & Hnc). injection Hnc as <-.
        destruct (IH _ _ (fst s1, Some (Some x')) _ (clone_tidy _ _ (Hfn _ _ Hx) Hcl) Hr) as (B1 & B2 & B3 & B4). cbn [fst snd] in B1, B2.
        apply Adv; [exact Hq|].
        eapply (advances_after q0 s1 (fst r, snd s1)); cbn [fst snd].
        * exact B1.
        * split; auto.
        * unfold st_cx. cbn [fst snd]. destruct (snd s1); [apply root_le_refl | exact B1].
        * eapply r_set_advances; [exact Hq | exact O1 | | exact Hs]. now apply inert_not_scalar. }
  apply (Loop refs 0 s); auto; [apply root_le_refl | split; auto].
Qed.

Theorem resolve_no_ext ord es fn fuel c r : (forall pos l, Permutation (ord pos l) l) -> tidy_fn fn -> tidy (c_data c) ->
  resolve ord es fn fuel c = Ok r -> no_ext (c_data r).
Proof.
  intros Ho Hfn Ht H. unfold resolve in H. apply bind_ok in H as (s & H & E). injection E as <-.
  eapply (iterator_noext ord es fn Ho Hfn); [|exact H]. cbn [st_cx snd fst]. unfold c_clone.
  destruct (clone_cases (c_data c)) as [[x E]|E]; rewrite E; cbn [c_data].
  - eapply clone_tidy; eassumption.
  - split; [exact I|]. split; [exact I|]. intros t p [L _]. discriminate.
Qed.
