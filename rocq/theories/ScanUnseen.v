(** Which changes of the surroundings a run of Scan cannot notice (proofs). *)
From Coq Require Import String Ascii List Bool Arith ZArith Lia.
From Verif Require Import GoStr GoStrFacts Json JsonFacts Gabs Container Url Pointer Path Resolver ScanFn Cmds Specs Spec_Specs SpecFacts Pkgs Spec_Pkgs Types Root SchemaJson Scan Spec_Unseen.
Import ListNotations.
Local Open Scope string_scope.
Local Open Scope nat_scope.
Local Open Scope list_scope.

(** *** Visiting *)
Section Visit.
  Context {A : Type} (fn fn' : nat -> A -> res (A * bool)) (std std' : string -> bool) (ord : nat -> list string -> list string) (srt : list string -> list string) (ps : pkgs).
  Hypothesis Hstd : forall p, std' p = std p.
  Lemma visit_cong fuel : forall p s, (forall r i, p = Some r -> reach std ps r i -> forall x, fn' i x = fn i x) -> visit fn' std' ord srt ps fuel p s = visit fn std ord srt ps fuel p s.
  Proof.
    induction fuel as [|fuel IH]; intros p s H; [reflexivity|]. cbn [visit]. destruct p as [i|]; [|reflexivity]. destruct s as ((sn & errs) & x). destruct (existsb (Nat.eqb i) sn); [reflexivity|].
    destruct (nth_error ps i) as [pkg|] eqn:En; [|reflexivity]. rewrite Hstd. destruct (std (g_path pkg)) eqn:Es; [reflexivity|].
    assert (Ni : nonstd std ps i) by (exists pkg; auto).
    assert (V : forall l s0, incl l (import_list ord srt i pkg) -> visit_all (visit fn' std' ord srt ps fuel) l s0 = visit_all (visit fn std ord srt ps fuel) l s0).
    { induction l as [|y l IHl]; intros s0 Il; [reflexivity|]. cbn [visit_all]. rewrite IH.
      - destruct (visit fn std ord srt ps fuel y s0); cbn [bind]; try reflexivity. apply IHl. intros z Iz. apply Il. now right.
      - intros r k -> R x0. refine (H i k eq_refl _ x0). apply (reach_step std ps i r k Ni); [|exact R]. assert (I : In (Some r) (import_list ord srt i pkg)) by (apply Il; now left).
        unfold import_list in I. apply in_map_iff in I as (path & E & _). destruct (oget path (g_imports pkg)) as [z|] eqn:Eo; [|discriminate]. subst z. apply oget_in in Eo. exists pkg, path. auto. }
    rewrite (V _ _ (incl_refl _)). destruct (visit_all _ (import_list ord srt i pkg) _) as [((sn1 & errs1) & x1)| | |]; cbn [bind]; try reflexivity.
    now rewrite (H i i eq_refl (reach_here std ps i Ni) x1).
  Qed.
  Lemma scan_pkgs_cong fuel roots x : (forall i, seen std ps roots i -> forall y, fn' i y = fn i y) -> scan_pkgs fn' std' ord srt ps fuel roots x = scan_pkgs fn std ord srt ps fuel roots x.
  Proof.
    intro H. unfold scan_pkgs. enough (V : forall l s0, incl l roots -> visit_all (visit fn' std' ord srt ps fuel) l s0 = visit_all (visit fn std ord srt ps fuel) l s0) by now rewrite (V _ _ (incl_refl _)).
    induction l as [|y l IHl]; intros s0 Il; [reflexivity|]. cbn [visit_all]. rewrite visit_cong.
    - destruct (visit fn std ord srt ps fuel y s0); cbn [bind]; try reflexivity. apply IHl. intros z Iz. apply Il. now right.
    - intros r i -> R. apply H. exists r. split; [apply Il; now left | exact R].
  Qed.
End Visit.

(** *** Specification files *)
Definition spec_file (f : file) : bool := c_existsp "openapi" (f_cont f).
Lemma scan_files_filter ord pkg ff : forall n pp, scan_files ord n pkg ff pp = scan_files ord n pkg (filter spec_file ff) pp.
Proof.
  induction ff as [|f ff IH]; intros n pp; [reflexivity|]. cbn [filter]. unfold spec_file at 1. cbn [scan_files]. destruct (c_existsp "openapi" (f_cont f)) eqn:E; cbn [negb]; [|apply IH]. cbn [scan_files]. rewrite E. cbn [negb].
  destruct (extract_key (ord n) "$ref" (f_cont f)); try reflexivity. destruct (rewrite_refs pkg _ (f_cont f) pp) as [[c| | |] pp1]; try reflexivity. now rewrite IH.
Qed.
Lemma no_spec_file p c : no_spec (Some (Ok c)) -> spec_file {| f_path := p; f_cont := c |} = false.
Proof.
  intros [E|(c' & [= <-] & N)]; [discriminate|]. unfold spec_file. cbn [f_cont]. destruct (c_existsp "openapi" c) eqn:E; [|reflexivity]. apply existsp_openapi in E as (m & v & -> & E). now elim (N m v eq_refl).
Qed.
Definition read_alike (x y : res (list file)) : Prop :=
  match x, y with Ok ff, Ok ff' => filter spec_file ff' = filter spec_file ff | _, _ => y = x end.
Lemma read_each_alike fs fs' l : (forall p, In p l -> same_spec (fs p) (fs' p)) -> read_alike (read_each fs l) (read_each fs' l).
Proof.
  induction l as [|p l IH]; intro H; [reflexivity|]. cbn [read_each]. assert (G := IH (fun q I => H q (or_intror I))). clear IH.
  assert (Skip : forall f, no_spec f -> exists g, match f with None => read_each fs l | Some x => do c <- x ; do cc <- read_each fs l ; Ok ({| f_path := p; f_cont := c |} :: cc) end = match read_each fs l with Ok cc => Ok (g ++ cc) | z => z end /\ filter spec_file g = []).
  { intros f [-> |(c & -> & N)]; [exists []; split; [now destruct (read_each fs l) | reflexivity]|]. exists [{| f_path := p; f_cont := c |}]. split; [cbn [bind]; now destruct (read_each fs l)|].
    cbn [filter]. rewrite (no_spec_file p c); [reflexivity | right; now exists c]. }
  assert (Skip' : forall f, no_spec f -> exists g, match f with None => read_each fs' l | Some x => do c <- x ; do cc <- read_each fs' l ; Ok ({| f_path := p; f_cont := c |} :: cc) end = match read_each fs' l with Ok cc => Ok (g ++ cc) | z => z end /\ filter spec_file g = []).
  { intros f [-> |(c & -> & N)]; [exists []; split; [now destruct (read_each fs' l) | reflexivity]|]. exists [{| f_path := p; f_cont := c |}]. split; [cbn [bind]; now destruct (read_each fs' l)|].
    cbn [filter]. rewrite (no_spec_file p c); [reflexivity | right; now exists c]. }
  destruct (H p (or_introl eq_refl)) as [-> |(N & N')].
  - destruct (fs p) as [[c| | |]|]; cbn [bind]; try reflexivity; [|exact G]. destruct (read_each fs l) as [ff| | |], (read_each fs' l) as [ff'| | |]; cbn [bind read_alike] in *; try congruence. cbn [filter]. now rewrite G.
  - destruct (Skip _ N) as (g & -> & Eg). destruct (Skip' _ N') as (g' & -> & Eg'). destruct (read_each fs l) as [ff| | |], (read_each fs' l) as [ff'| | |]; cbn [read_alike] in *; try congruence. now rewrite !filter_app, Eg, Eg'.
Qed.
Lemma scan_specs_alike ord gp gp' ms ms' fs fs' s st :
  get_pkg_path gp' ms' (ss_path s) (ss_module s) = get_pkg_path gp ms (ss_path s) (ss_module s) ->
  (forall dir name, get_pkg_path gp ms (ss_path s) (ss_module s) = Ok dir -> In name ["oapi.yaml"; "oapi.yml"; "oapi.json"] -> same_spec (fs (join2 dir name)) (fs' (join2 dir name))) ->
  scan_specs ord gp' ms' fs' s st = scan_specs ord gp ms fs s st.
Proof.
  intros E H. unfold scan_specs. rewrite E. destruct (get_pkg_path gp ms (ss_path s) (ss_module s)) as [d| | |]; try reflexivity.
  assert (G : read_alike (read_dir fs d) (read_dir fs' d)). { apply read_each_alike. intros p I. apply in_map_iff in I as (name & <- & I). exact (H d name eq_refl I). }
  destruct (read_dir fs d) as [ff| | |], (read_dir fs' d) as [ff'| | |]; cbn [read_alike] in G; try congruence. rewrite (scan_files_filter ord _ ff'), (scan_files_filter ord _ ff), G. reflexivity.
Qed.

(** *** Scan *)
Section Unseen.
  Context {F : Type} (pf : string -> option F) (zero : F) (fnum : F -> num) (rs : string -> option (schema F)) (ch : choices) (de : depths).
  Lemma scan_with_cong {A} a a' n (fn fn' : source -> nat -> A -> res (A * bool)) ss ss' roots x : (forall p, ar_std a' p = ar_std a p) -> map so_pkg ss' = map so_pkg ss ->
    (forall i s, seen (ar_std a) (map so_pkg ss) roots i -> nth_error ss i = Some s -> nth_error ss' i = Some s /\ forall y, fn' s i y = fn s i y) ->
    scan_with a' ch de n fn' ss' roots x = scan_with a ch de n fn ss roots x.
  Proof.
    intros Hs Hp H. unfold scan_with. rewrite Hp. erewrite (scan_pkgs_cong (fun i y => match nth_error ss i with Some s => fn s i y | None => Panic end)); [reflexivity | exact Hs|].
    intros i Si y. cbn beta. destruct (nth_error ss i) as [s|] eqn:E.
    - destruct (H i s Si E) as (-> & G). apply G.
    - apply nth_error_None in E. assert (L : length ss' = length ss) by (rewrite <- (map_length so_pkg ss'), Hp; apply map_length). rewrite (proj2 (nth_error_None ss' i)) by lia. reflexivity.
  Qed.
  Lemma scan_doc_unseen a a' o ss ss' roots : (forall p, ar_std a' p = ar_std a p) -> ar_env a' = ar_env a -> same_seen a a' ss ss' roots ->
    scan_doc pf zero fnum rs a' ch de o ss' roots = scan_doc pf zero fnum rs a ch de o ss roots.
  Proof.
    intros Hs He (Hp & H). unfold scan_doc.
    erewrite (scan_with_cong a a'); [|exact Hs | exact Hp | intros i s Si En; split; [exact (proj1 (H i s Si En)) | reflexivity]].
    match goal with |- context [scan_with a ch de 0 ?f ss roots ?x] => destruct (scan_with a ch de 0 f ss roots x) as [cm| | |] end; cbn [bind]; try reflexivity. destruct (exported_components (ch_cmds1 ch) cm) as [es| | |]; cbn [bind]; try reflexivity.
    erewrite (scan_with_cong a a'); [|exact Hs | exact Hp | intros i s Si En; destruct (H i s Si En) as (E1 & E2 & E3); split; [exact E1 | intro y; exact (scan_specs_alike _ _ _ _ _ _ _ {| ss_path := so_path s; ss_module := so_module s |} y E2 E3)]].
    match goal with |- context [scan_with a ch de 1 ?f ss roots ?x] => destruct (scan_with a ch de 1 f ss roots x) as [st| | |] end; cbn [bind]; try reflexivity. destruct (specs_merge (ch_merge ch) (ch_files ch) st) as [c1| | |]; cbn [bind]; try reflexivity. cbv zeta.
    erewrite (scan_with_cong a a'); [|exact Hs | exact Hp | intros i s Si En; split; [exact (proj1 (H i s Si En)) | intro y; rewrite He; reflexivity]].
    match goal with |- context [scan_with a ch de 2 ?f ss roots ?x] => destruct (scan_with a ch de 2 f ss roots x) as [pts| | |] end; cbn [bind]; try reflexivity. unfold go_types. rewrite He. reflexivity.
  Qed.
  Theorem scan_unseen a a' l : (forall o, apply_opts l no_options = Ok o -> op_dir o = None -> ar_cwd a' = ar_cwd a) ->
    (forall o dir, apply_opts l no_options = Ok o -> (op_dir o = Some dir \/ op_dir o = None /\ ar_cwd a = Ok dir) -> same_around a a' dir) ->
    scan pf zero fnum rs a' ch de l = scan pf zero fnum rs a ch de l.
  Proof.
    intros Hc Ha. unfold scan. destruct (apply_opts l no_options) as [o| | |]; try reflexivity. cbn [on_err]. specialize (Hc o eq_refl). specialize (fun dir => Ha o dir eq_refl).
    assert (G : forall dir, same_around a a' dir -> on_err (ar_load a' dir) (None, true) (fun lr => on_err (scan_doc pf zero fnum rs a' ch de o (fst lr) (snd lr)) (None, true) (fun c => Ok (new_oapi c))) =
                                      on_err (ar_load a dir) (None, true) (fun lr => on_err (scan_doc pf zero fnum rs a ch de o (fst lr) (snd lr)) (None, true) (fun c => Ok (new_oapi c)))).
    { intros dir (Hs & He & [(E & N)|(ss & ss' & roots & E & E' & Sm)]).
      - rewrite E. destruct (ar_load a dir) as [x| | |]; try reflexivity. now elim (N x).
      - rewrite E, E'. cbn [on_err fst snd]. now rewrite (scan_doc_unseen a a' o ss ss' roots Hs He Sm). }
    destruct (op_dir o) as [dir|]; cbn [on_err]; [apply G, Ha; now left|]. rewrite (Hc eq_refl). destruct (ar_cwd a) as [dir| | |] eqn:Ec; try reflexivity. cbn [on_err]. apply G, Ha. right. auto.
  Qed.
End Unseen.
