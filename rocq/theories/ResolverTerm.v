(** Termination of the resolver (C26) and independence of the recursion bound. *)
From Coq Require Import String Ascii List Bool Arith ZArith Lia Permutation.
From Verif Require Import GoStr GoStrFacts Json JsonFacts Gabs GabsFacts Container MergeFacts
  Spec_Loc LocFacts SetFacts CloneFacts Url Pointer FragFacts PtrFacts Resolver Spec_Resolve ResolverFacts.
Import ListNotations.
Local Open Scope string_scope.
Local Open Scope nat_scope.
Local Open Scope list_scope.

Lemma split_char_app c a b : split_char c (a +++ String c b) = split_char c a ++ split_char c b.
Proof.
  induction a as [|d a IH]; cbn [String.append split_char].
  - rewrite Ascii.eqb_refl. reflexivity.
  - destruct (Ascii.eqb c d); [cbn; now rewrite IH|]. rewrite IH.
    destruct (split_char c a) as [|x l] eqn:E; [now destruct (split_char_nonempty c a)|]. reflexivity.
Qed.
Lemma last_app_ne {A} (a b : list A) d : b <> [] -> last (a ++ b) d = last b d.
Proof.
  intro H. induction a as [|x a IH]; [reflexivity|]. cbn [app]. destruct (a ++ b) eqn:E; [destruct a; [cbn in E; congruence | discriminate]|].
  rewrite <- E in *. cbn. rewrite E. rewrite <- E. exact IH.
Qed.
Lemma last_seg_sub p k : last_seg (sub_path p k) = last_seg k.
Proof.
  unfold last_seg. destruct p as [|c p]; [reflexivity|]. cbn [sub_path].
  change (String c p +++ "." +++ k) with (String c p +++ String "." k). rewrite split_char_app.
  apply last_app_ne, split_char_nonempty.
Qed.
Lemma ext_snoc q s : forall p, ext p (q ++ [s]) = sub_path (ext p q) (seg s).
Proof. induction q as [|a q IH]; intro p; [reflexivity|]. cbn [app ext]. apply IH. Qed.

Lemma last_seg_ref k : last_seg k = "$ref" -> k = "$ref" \/ exists k', k = k' +++ ".$ref".
Proof.
  unfold last_seg. intro H. rewrite <- (join_split "." k). set (l := split_char "." k) in *.
  assert (l <> []) as Hn by apply split_char_nonempty. destruct l as [|x l] using rev_ind; [congruence|]. clear IHl.
  rewrite last_last in H. subst x. destruct l as [|y l]; [now left|]. right. exists (join (str1 ".") (y :: l)).
  clear Hn. revert y. induction l as [|z l IH]; intro y; [reflexivity|].
  specialize (IH z). cbn [app] in *. rewrite !join_cons. rewrite IH. now rewrite !app_assoc_s.
Qed.

Lemma dedup_in {A} (l : list (string * A)) x : In x (dedup l) -> In x l.
Proof.
  revert x. induction l as [|[k v] l IH]; intros x; [auto|]. cbn [dedup]. intros [H|H]; [now left|].
  right. apply IH. apply filter_In in H. apply H.
Qed.

Lemma extract_mentions ord j refs key t p : (forall l, Permutation (ord l) l) -> wf j -> extract_key ord "$ref" (Some j) = Ok refs ->
  In (key, JStr t) refs -> ptr_parse t = Ok p -> is_external p = true -> mentions j p.
Proof.
  intros Ho Hw He Hin Hp Hx. pose proof (extract_scalar _ _ _ _ He) as Hs.
  unfold extract_key in He. apply bind_ok in He as (ff & Hff & E). injection E as <-.
  assert (ff = flat "" j) as -> by (unfold c_flatten, c_data in Hff; destruct j; try discriminate; congruence).
  apply filter_In in Hin as [Hin Hl]. apply String.eqb_eq in Hl. cbn [fst] in Hl.
  apply dedup_in in Hin. apply (Permutation_in _ (Ho _)) in Hin. rewrite flat_leaves in Hin.
  apply in_map_iff in Hin as ([q v] & E & Hin). injection E as E1 E2. cbn [fst snd] in *. subst v.
  apply (in_leaves j q _ Hw) in Hin as [L _].
  destruct q as [|s q] using rev_ind; [cbn in L; injection L as ->; discriminate|]. clear IHq.
  rewrite ext_snoc in E1. subst key. rewrite last_seg_sub in Hl.
  destruct s as [k|i].
  - cbn [seg] in Hl. exists q, k, t. split; [exact L|]. split; [now apply last_seg_ref | auto].
  - exfalso. cbn [seg] in Hl. unfold last_seg in Hl.
    rewrite split_char_none in Hl by (apply itoa_no_char; reflexivity). cbn [last] in Hl.
    assert (has_char "$" (itoa i) = false) as Hn by (apply itoa_no_char; reflexivity). rewrite Hl in Hn. discriminate.
Qed.

Lemma clone_mentions j j' p : clone j = Ok j' -> mentions j' p -> mentions j p.
Proof. intros Hc (q & k & t & L & H). exists q, k, t. split; [now apply (clone_lookup_str _ _ _ t Hc) | exact H]. Qed.

Lemma path_has_spec pp p : path_has pp p = true <-> In (ptr_string p) (map ptr_string pp).
Proof.
  unfold path_has. rewrite existsb_exists, in_map_iff. split.
  - intros (x & H & E). apply String.eqb_eq in E. eauto.
  - intros (x & E & H). exists x. split; [exact H | now apply String.eqb_eq].
Qed.

Lemma setp_no_fuel path v c : c_setp path v c <> OutOfFuel.
Proof.
  unfold c_setp. destruct (clone_cases v) as [[x ->]| ->]; cbn [bind]; [|discriminate]. unfold c_set.
  destruct c as [j|]; [|discriminate]. rewrite root_set_nonempty by apply dot_path_nonempty.
  destruct (gset_err_or_ok x (dot_path path) true (denull j)) as [[r ->]| ->]; discriminate.
Qed.
Lemma bind_no_fuel {A B} (r : res A) (f : A -> res B) : r <> OutOfFuel -> (forall a, r = Ok a -> f a <> OutOfFuel) -> bind r f <> OutOfFuel.
Proof. destruct r; cbn; intros H1 H2; auto; discriminate. Qed.
Lemma on_cx_no_fuel f s : (forall c, f c <> OutOfFuel) -> on_cx f s <> OutOfFuel.
Proof.
  intros Hf. unfold on_cx. destruct (snd s); apply bind_no_fuel; auto; intros; discriminate.
Qed.
Lemma replace_no_fuel k v c : replace_ptr k v c <> OutOfFuel.
Proof. unfold replace_ptr. destruct (isref k); [apply setp_no_fuel | discriminate]. Qed.
Lemma update_no_fuel k f c : update_ptr_local k f c <> OutOfFuel.
Proof. unfold update_ptr_local, update_ptr. destruct (isref k); [apply setp_no_fuel | discriminate]. Qed.
Lemma r_set_no_fuel es p k v s : r_set es p k v s <> OutOfFuel.
Proof.
  unfold r_set. destruct (exports_get es p).
  - apply bind_no_fuel; [|intros; apply on_cx_no_fuel, update_no_fuel].
    unfold on_root. apply bind_no_fuel; [apply setp_no_fuel | intros; discriminate].
  - apply on_cx_no_fuel, replace_no_fuel.
Qed.
Lemma r_set_rec_no_fuel es p k s : r_set_recursive es p k s <> OutOfFuel.
Proof.
  unfold r_set_recursive. destruct (exports_get es p) as [e|]; [destruct (is_scheme e)|];
    apply on_cx_no_fuel; intro; first [apply update_no_fuel | apply replace_no_fuel].
Qed.
Lemma parse_no_fuel s : ptr_parse s <> OutOfFuel.
Proof.
  unfold ptr_parse. destruct (String.eqb s "" || String.eqb s "#"); [discriminate|]. destruct (url_parse s); [|discriminate].
  apply bind_no_fuel; [apply parse_never_panics | intros; discriminate].
Qed.

Section Term.
  Context (ord : list nat -> list (string * json) -> list (string * json)) (es : list export) (fn : ptr -> res json).
  Context (U : list string).
  Hypothesis Hord : forall pos l, Permutation (ord pos l) l.
  Hypothesis Hfn : forall p, fn p <> OutOfFuel.
  Hypothesis HfnU : forall p x, fn p = Ok x -> wf x /\ forall p', mentions x p' -> In (ptr_string p') U.

  Lemma iterator_terminates : forall fuel pos pp s,
    wf (c_data (st_cx s)) -> (forall p, mentions (c_data (st_cx s)) p -> In (ptr_string p) U) ->
    NoDup (map ptr_string pp) -> incl (map ptr_string pp) U -> length U < fuel + length pp ->
    iterator ord es fn fuel pos pp s <> OutOfFuel.
  Proof.
    induction fuel as [|f IH]; intros pos pp s Hw Hm Hnd Hinc Hlen.
    - exfalso. pose proof (NoDup_incl_length Hnd Hinc) as L. rewrite map_length in L. lia.
    - rewrite iterator_S. destruct (extract_key (ord pos) "$ref" (st_cx s)) as [refs| | |] eqn:He; try discriminate.
      2:{ exfalso. unfold extract_key, c_flatten in He. destruct (c_data (st_cx s)); discriminate. }
      cbn [bind].
      assert (Hrefs : forall key t p, In (key, JStr t) refs -> ptr_parse t = Ok p -> is_external p = true -> In (ptr_string p) U).
      { intros key t p Hin Hp Hx. apply Hm. destruct (st_cx s) as [j|]; [|discriminate].
        exact (extract_mentions (ord pos) j refs key t p (Hord pos) Hw He Hin Hp Hx). }
      clear He Hm Hw. generalize 0 as i. revert s. induction refs as [|[key v] refs IHl]; intros s i; [discriminate|].
      cbn [rloop]. apply bind_no_fuel.
      + unfold rstep. destruct v as [| | |t| |]; try discriminate.
        apply bind_no_fuel; [apply parse_no_fuel|]. intros p Hp. destruct (is_external p) eqn:Hx; cbn [negb]; [|discriminate].
        destruct (path_has pp p) eqn:Hh; [apply r_set_rec_no_fuel|].
        apply bind_no_fuel; [apply Hfn|]. intros x Hx'. apply bind_no_fuel.
        { unfold c_make. destruct (clone_cases x) as [[y ->]| ->]; discriminate. }
        intros nc Hnc. unfold c_make in Hnc. apply bind_ok in Hnc as (x' & Hcl & E). injection E as <-.
        apply bind_no_fuel; [|intros; apply r_set_no_fuel].
        destruct (HfnU _ _ Hx') as [Wx Mx].
        apply IH; cbn [st_cx snd c_data].
        * eapply clone_wf; eassumption.
        * intros p' Hp'. apply Mx. eapply clone_mentions; eassumption.
        * rewrite map_app. apply NoDup_app; [exact Hnd | cbn; constructor; [intros [] | constructor] |].
          intros y H1 [<-|[]]. apply path_has_spec in H1. congruence.
        * rewrite map_app. apply incl_app; [exact Hinc|]. intros y [<-|[]]. eapply Hrefs; [now left | exact Hp | exact Hx].
        * rewrite app_length. cbn [length]. lia.
      + intros s' _. apply IHl. intros key' t p Hin. apply (Hrefs key' t p). now right.
  Qed.

  Theorem resolve_terminates c : wf (c_data c) -> (forall p, mentions (c_data c) p -> In (ptr_string p) U) ->
    forall fuel, length U < fuel -> resolve ord es fn fuel c <> OutOfFuel.
  Proof.
    intros Hw Hm fuel Hf. unfold resolve. apply bind_no_fuel; [|intros; discriminate].
    apply iterator_terminates; cbn [st_cx snd fst].
    - unfold c_clone. destruct (clone_cases (c_data c)) as [[x E]|E]; rewrite E; cbn [c_data]; [eapply clone_wf; eassumption | exact I].
    - intros p Hp. apply Hm. unfold c_clone in Hp. destruct (clone_cases (c_data c)) as [[x E]|E]; rewrite E in Hp; cbn [c_data] in Hp.
      + eapply clone_mentions; eassumption.
      + exfalso. destruct Hp as (q & k & t & L & _). destruct q as [|[|] q]; discriminate.
    - constructor.
    - intros x [].
    - cbn. lia.
  Qed.
End Term.

(** More fuel changes nothing once the result is there. *)
Lemma iterator_mono ord es fn fuel : forall pos pp s, iterator ord es fn fuel pos pp s <> OutOfFuel ->
  forall fuel', fuel <= fuel' -> iterator ord es fn fuel' pos pp s = iterator ord es fn fuel pos pp s.
Proof.
  induction fuel as [|f IH]; intros pos pp s H fuel' Hle; [now destruct H|].
  destruct fuel' as [|f']; [lia|]. rewrite iterator_S in H. rewrite !iterator_S.
  destruct (extract_key (ord pos) "$ref" (st_cx s)) as [refs| | |]; try reflexivity. cbn [bind] in *.
  generalize dependent s. generalize 0 as i. induction refs as [|[key v] refs IHl]; intros i s H; [reflexivity|].
  cbn [rloop] in *.
  assert (E : rstep ord es fn f' pos pp i key v s = rstep ord es fn f pos pp i key v s).
  { destruct (rstep ord es fn f pos pp i key v s) eqn:E0; try (now destruct H); rewrite <- E0 in *; clear H IHl;
      unfold rstep in *; destruct v as [| | |t| |]; try reflexivity;
      destruct (ptr_parse t) as [p| | |]; try reflexivity; cbn [bind] in *; destruct (negb (is_external p)); try reflexivity;
      destruct (path_has pp p); try reflexivity; destruct (fn p) as [x| | |]; try reflexivity; cbn [bind] in *;
      destruct (c_make x) as [nc| | |]; try reflexivity; cbn [bind] in *;
      (rewrite IH; [reflexivity| | lia]; intro EE; rewrite EE in E0; discriminate E0). }
  rewrite E. destruct (rstep ord es fn f pos pp i key v s) as [s'| | |]; try reflexivity. cbn [bind] in *. now apply IHl.
Qed.

Theorem resolve_mono ord es fn fuel fuel' c : resolve ord es fn fuel c <> OutOfFuel -> fuel <= fuel' ->
  resolve ord es fn fuel' c = resolve ord es fn fuel c.
Proof.
  unfold resolve. intros H Hle. rewrite iterator_mono with (fuel := fuel); [reflexivity| | exact Hle].
  intro E. rewrite E in H. now apply H.
Qed.
