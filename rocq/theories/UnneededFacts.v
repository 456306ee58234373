(** What Resolve looks up, and what does not matter to it (proofs). *)
From Coq Require Import String Ascii List Bool Arith ZArith Lia Permutation.
From Verif Require Import GoStr GoStrFacts Json JsonFacts Gabs Container MergeFacts Url Pointer Spec_Loc Spec_Resolve Spec_ResolveOk Path Resolver ResolverFacts ResolverExpandX ScanFn Pkgs Cmds Specs Types Root SchemaJson Scan.
Import ListNotations.
Local Open Scope string_scope.
Local Open Scope nat_scope.
Local Open Scope list_scope.

(** *** Answers that were errors *)
Lemma iterator_more ord es (fn fn' : ptr -> res json) : (forall p x, fn p = Ok x -> fn' p = Ok x) ->
  forall fuel pos pp s r, iterator ord es fn fuel pos pp s = Ok r -> iterator ord es fn' fuel pos pp s = Ok r.
Proof.
  intro Hf. induction fuel as [|fuel IH]; intros pos pp s r; [discriminate|]. cbn [iterator]. destruct (extract_key (ord pos) "$ref" (st_cx s)) as [refs| | |]; try discriminate. cbn [bind].
  generalize 0 as i. revert s. induction refs as [|[key v] refs IHr]; intros s i; [auto|].
  match goal with |- bind ?x _ = _ -> bind ?y _ = _ => assert (X : forall z, x = Ok z -> y = Ok z) end.
  { intro z. destruct v; auto. destruct (ptr_parse s0) as [p| | |]; auto. cbn [bind]. destruct (negb (is_external p)); auto. destruct (path_has pp p); auto.
    destruct (fn p) as [x| | |] eqn:Ef; try discriminate. rewrite (Hf p x Ef). cbn [bind]. destruct (c_make x) as [nc| | |]; try discriminate. cbn [bind].
    destruct (iterator ord es fn fuel (pos ++ [i]) (pp ++ [p]) (fst s, Some nc)) as [r1| | |] eqn:Ei; try discriminate. now rewrite (IH _ _ _ _ Ei). }
  match goal with |- bind ?x _ = _ -> _ => destruct x as [s'| | |]; try discriminate end. rewrite (X s' eq_refl). cbn [bind]. apply IHr.
Qed.
Lemma resolve_more ord es (fn fn' : ptr -> res json) fuel c r : (forall p x, fn p = Ok x -> fn' p = Ok x) -> resolve ord es fn fuel c = Ok r -> resolve ord es fn' fuel c = Ok r.
Proof.
  intros Hf. unfold resolve. destruct (iterator ord es fn fuel [] [] _) as [s| | |] eqn:E; try discriminate. now rewrite (iterator_more ord es fn fn' Hf _ _ _ _ _ E).
Qed.

(** *** What is asked for *)
Section Asked.
  Context (ord : list nat -> list (string * json) -> list (string * json)) (Ho : forall pos l, Permutation (ord pos l) l).
  Context (doc : json) (es es' : list export) (fn fn' : ptr -> res json).
  Hypothesis Ht : forall p x, asked doc fn p -> fn p = Ok x -> wf x /\ keys_ok plain x.
  Hypothesis Ha : forall p, asked doc fn p -> fn' p = fn p /\ exports_get es' p = exports_get es p.
  Lemma iterator_asked : forall fuel pos pp (s : rstate) j, st_cx s = Some j -> wf j -> keys_ok plain j -> (forall q t p, ext_ref j q t p -> asked doc fn p) ->
    iterator ord es' fn' fuel pos pp s = iterator ord es fn fuel pos pp s.
  Proof.
    induction fuel as [|fuel IH]; intros pos pp s j Es Hw Hk Hj; [reflexivity|]. cbn [iterator]. rewrite Es. destruct (extract_key (ord pos) "$ref" (Some j)) as [refs| | |] eqn:Ee; try reflexivity. cbn [bind].
    destruct (extract_refs (ord pos) j refs (Ho pos) Hw Hk Ee) as (_ & Hre & _). clear Ee Es. generalize 0 as i. revert s. induction Hre as [|[key v] refs (q & _ & L & _) Hre IHr]; intros s i; [reflexivity|]. cbn [snd] in L.
    match goal with |- bind ?x _ = bind ?y _ => assert (X : x = y) end.
    { destruct v as [ | | |t| |]; try reflexivity. destruct (ptr_parse t) as [p| | |] eqn:Ep; try reflexivity. cbn [bind]. destruct (is_external p) eqn:Ex; cbn [negb]; [|reflexivity].
      assert (A : asked doc fn p) by (apply (Hj q t p); split; [exact L | split; assumption]). destruct (Ha p A) as (Ef & Eg).
      destruct (path_has pp p); [unfold r_set_recursive; now rewrite Eg|]. rewrite Ef. destruct (fn p) as [x| | |] eqn:Fx; try reflexivity. cbn [bind]. destruct (c_make x) as [nc| | |] eqn:Ec; cbn [bind]; try reflexivity.
      assert (I : exists y, nc = Some y /\ clone x = Ok y). { unfold c_make in Ec. destruct (clone x) as [y| | |]; cbn [bind] in Ec; try discriminate Ec. injection Ec as <-. eauto. } destruct I as (y & -> & Ey).
      destruct (Ht p x A Fx) as (Wx & Kx). rewrite (IH _ _ (fst s, Some (Some y)) y); [|reflexivity | | |].
      - match goal with |- bind ?A _ = bind ?B _ => change B with A; destruct A as [r| | |] end; try reflexivity. cbn [bind]. unfold r_set. now rewrite Eg.
      - exact (clone_wf _ _ Wx Ey).
      - exact (clone_keys_ok _ _ _ Kx Ey).
      - intros q' t' p' E'. apply (clone_ext _ _ _ _ _ Ey) in E'. exact (asked_by_entity doc fn p x q' t' p' A Fx E'). }
    rewrite X. match goal with |- bind ?x _ = bind ?x _ => destruct x as [s'| | |] end; try reflexivity. cbn [bind]. apply IHr.
  Qed.
End Asked.
Lemma resolve_asked ord doc es es' (fn fn' : ptr -> res json) fuel : (forall pos l, Permutation (ord pos l) l) -> wf doc -> keys_ok plain doc ->
  (forall p x, asked doc fn p -> fn p = Ok x -> wf x /\ keys_ok plain x) -> (forall p, asked doc fn p -> fn' p = fn p /\ exports_get es' p = exports_get es p) ->
  resolve ord es' fn' fuel (Some doc) = resolve ord es fn fuel (Some doc).
Proof.
  intros Ho Hw Hk Ht Ha. unfold resolve, c_clone. cbn [c_data]. destruct (clone doc) as [y| | |] eqn:E.
  - rewrite (iterator_asked ord Ho doc es es' fn fn' Ht Ha fuel [] [] _ y); [reflexivity | reflexivity | exact (clone_wf _ _ Hw E) | exact (clone_keys_ok _ _ _ Hk E)|].
    intros q t p X. apply (clone_ext _ _ _ _ _ E) in X. exact (asked_by_doc doc fn q t p X).
  - destruct fuel; reflexivity.
  - destruct fuel; reflexivity.
  - destruct fuel; reflexivity.
Qed.

(** *** Scan *)
Lemma go_text p : u_scheme (p_url p) = "go" -> has_prefix "go:" (ptr_string p) = true.
Proof. intro E. unfold ptr_string, url_string. cbn [with_fragment u_scheme]. rewrite E. cbn. reflexivity. Qed.
Section Scan.
  Context {F : Type} (pf : string -> option F) (zero : F) (fnum : F -> num) (rs : string -> option (schema F)) (a : around) (ch : choices) (de : depths).
  Lemma scan_unneeded l l' o o' d e : apply_opts l no_options = Ok o -> apply_opts l' no_options = Ok o' ->
    op_dir o' = op_dir o -> op_root o' = op_root o -> op_defops o' = op_defops o ->
    (forall k, oget k (op_override o') = oget k (op_override o) \/ oget k (op_override o) = None /\ has_prefix "go:" k = false) ->
    scan pf zero fnum rs a ch de l = Ok (Some d, e) -> scan pf zero fnum rs a ch de l' = Ok (Some d, e).
  Proof.
    intros E E' Ed Er Edo Ho H. unfold scan in *. rewrite E in H. rewrite E'. cbn [on_err] in *. rewrite Ed.
    destruct (match op_dir o with Some d => Ok d | None => ar_cwd a end) as [dir| | |]; try discriminate H. cbn [on_err] in *. destruct (ar_load a dir) as [(ss & roots)| | |]; try discriminate H. cbn [on_err fst snd] in *.
    destruct (scan_doc pf zero fnum rs a ch de o ss roots) as [c| | |] eqn:Es; try discriminate H. cbn [on_err] in H.
    enough (G : scan_doc pf zero fnum rs a ch de o' ss roots = Ok c) by (rewrite G; exact H). revert Es. unfold scan_doc. rewrite Er, Edo. clear H.
    match goal with |- bind ?g _ = _ -> _ => destruct g as [cm| | |]; try discriminate end. cbn [bind]. destruct (exported_components (ch_cmds1 ch) cm) as [es| | |]; try discriminate. cbn [bind].
    match goal with |- bind ?g _ = _ -> _ => destruct g as [st| | |]; try discriminate end. cbn [bind]. destruct (specs_merge (ch_merge ch) (ch_files ch) st) as [c1| | |]; try discriminate. cbn [bind]. cbv zeta.
    match goal with |- bind ?g _ = _ -> _ => destruct g as [pts| | |]; try discriminate end. cbn [bind]. destruct (merge_with_root (ch_root ch) (op_root o) c1) as [c2| | |]; try discriminate. cbn [bind].
    destruct (resolve (ch_resolve ch) es (scan_fn (op_override o) _) (de_resolve de) c2) as [c3| | |] eqn:R; try discriminate. cbn [bind]. intro G.
    erewrite resolve_more; [exact G | | exact R]. intros p x. unfold scan_fn. destruct (Ho (ptr_string p)) as [-> |(-> & N)]; [auto|].
    destruct (String.eqb_spec (u_scheme (p_url p)) "go") as [Eg|_]; [|discriminate]. apply go_text in Eg. congruence.
  Qed.
End Scan.
