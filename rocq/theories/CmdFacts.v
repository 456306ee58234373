(** Comment commands. *)
From Coq Require Import String Ascii List Bool Arith Permutation Lia.
From Verif Require Import GoStr GoStrFacts Json JsonFacts MergeFacts LocFacts Url Pointer PtrFacts Spec_Ptr FragFacts Resolver Cmds Spec_Cmds.
Import ListNotations.
Local Open Scope string_scope.
Local Open Scope nat_scope.
Local Open Scope list_scope.

(** ** Texts *)
Lemma trim_right_all p s : (forall c, has_char c s = true -> p c = true) -> trim_right p s = "".
Proof.
  induction s as [|c s IH]; intro H; cbn; [reflexivity|]. rewrite IH; [|intros d Hd; apply H; cbn; now rewrite Hd, orb_true_r].
  rewrite H; [reflexivity | cbn; now rewrite Ascii.eqb_refl].
Qed.
Lemma trim_right_split p s : exists tail, s = trim_right p s +++ tail /\ forall c, has_char c tail = true -> p c = true.
Proof.
  induction s as [|c s (tail & E & H)]; [exists ""; split; [reflexivity | discriminate]|]. cbn. destruct (trim_right p s) as [|d t] eqn:T.
  - destruct (p c) eqn:P.
    + exists (String c s). split; [reflexivity|]. intros x Hx. cbn in Hx. apply orb_true_iff in Hx as [Hx|Hx]; [apply Ascii.eqb_eq in Hx; now subst|].
      apply H. cbn in E. now rewrite <- E.
    + exists tail. split; [cbn in *; now rewrite E at 1 | exact H].
  - exists tail. split; [cbn; f_equal; exact E | exact H].
Qed.
Lemma trim_right_end p s t c : p c = true -> trim_right p s <> t +++ String c "".
Proof.
  intro P. revert t. induction s as [|d s IH]; intros t E; cbn in E; [destruct t; discriminate|].
  destruct (trim_right p s) as [|e u] eqn:T.
  - destruct (p d) eqn:Pd; [destruct t; discriminate|]. destruct t as [|x t]; cbn in E; injection E; [intros ->; congruence|].
    intro K. destruct t; discriminate.
  - destruct t as [|x t]; [discriminate|]. cbn in E. injection E as _ E. exact (IH t E).
Qed.
Lemma trim_right_app p a tail : (forall c, has_char c tail = true -> p c = true) -> trim_right p (a +++ tail) = trim_right p a.
Proof.
  intro H. induction a as [|c a IH]; cbn; [now apply trim_right_all | now rewrite IH].
Qed.
Lemma trim_right_id p a : (forall t c, p c = true -> a <> t +++ String c "") -> trim_right p a = a.
Proof.
  induction a as [|c a IH]; intro H; cbn; [reflexivity|]. rewrite IH.
  - destruct a as [|d a]; [|reflexivity]. destruct (p c) eqn:P; [|reflexivity]. now elim (H "" c P).
  - intros t d Pd E. apply (H (String c t) d Pd). cbn. now rewrite E.
Qed.

Lemma right_stripped_iff raw body : right_stripped raw body <-> body = trim_right is_space_nl raw.
Proof.
  assert (Hc : forall c, is_space_nl c = true <-> c = " "%char \/ c = "010"%char).
  { intro c. unfold is_space_nl. rewrite orb_true_iff, !Ascii.eqb_eq. reflexivity. }
  split.
  - intros ((tail & -> & Ht) & H1 & H2). rewrite trim_right_app by (intros c H; apply Hc; now apply Ht).
    symmetry. apply trim_right_id. intros t c Pc. apply Hc in Pc as [-> | ->]; [apply H1 | apply H2].
  - intros ->. split; [|split].
    + destruct (trim_right_split is_space_nl raw) as (tail & E & H). exists tail. split; [exact E|]. intros c K. apply Hc. now apply H.
    + intro s. now apply trim_right_end.
    + intro s. now apply trim_right_end.
Qed.

Lemma skipn_app_s a b : skipn_s (String.length a) (a +++ b) = b.
Proof. induction a as [|c a IH]; [now destruct b | exact IH]. Qed.

Lemma length2 (t : string) : 2 <= String.length t -> exists a b r, t = String a (String b r).
Proof. destruct t as [|a [|b r]]; cbn; try lia. now exists a, b, r. Qed.

Theorem comment_group_spec g bs : parse_comment_group g = Ok bs <-> bodies g bs.
Proof.
  revert bs. induction g as [|t g IH]; intro bs; cbn [parse_comment_group].
  - split; [injection 1 as <-; constructor | now inversion 1].
  - destruct (String.length t <? 2) eqn:L.
    { apply Nat.ltb_lt in L. split; [discriminate|]. inversion 1 as [|? ? ? (K & _)|? ? ? ? (a & b & raw & -> & _)]; subst; [lia|]. cbn in L. lia. }
    apply Nat.ltb_ge in L. destruct (length2 t L) as (a & b & r & ->). cbn [skipn_s].
    destruct (has_prefix cmd_prefix r) eqn:P.
    + apply has_prefix_iff in P as (raw & ->). rewrite skipn_app_s. split.
      * intro H. apply bind_ok in H as (cc & Hc & H). injection H as <-. apply bodies_cmd; [|now apply IH].
        exists a, b, raw. split; [reflexivity|]. now apply right_stripped_iff.
      * inversion 1 as [|? ? ? (_ & K)|? b0 ? ? (a' & b' & raw' & E & S) Hb]; subst; [now elim (K a b raw)|].
        apply IH in Hb. rewrite Hb. cbn [bind]. apply right_stripped_iff in S. subst b0.
        assert (raw = raw') as ->; [|reflexivity].
        apply scons_inj in E as (_ & E). apply scons_inj in E as (_ & E).
        apply (f_equal (skipn_s 7)) in E. exact E.
    + split.
      * intro H. apply bind_ok in H as (cc & Hc & H). injection H as <-. apply bodies_skip; [|now apply IH].
        split; [cbn; lia|]. intros a' b' raw E. apply scons_inj in E as (_ & E). apply scons_inj in E as (_ & ->).
        change "openapi" with cmd_prefix in P. now rewrite has_prefix_app in P.
      * inversion 1 as [|? ? ? K Hb|? b0 ? ? (a' & b' & raw' & E & S) Hb]; subst.
        { apply IH in Hb. now rewrite Hb. }
        exfalso. apply scons_inj in E as (_ & E). apply scons_inj in E as (_ & ->). change "openapi" with cmd_prefix in P. now rewrite has_prefix_app in P.
Qed.
Lemma comment_group_outcome g : parse_comment_group g <> Err /\ parse_comment_group g <> OutOfFuel /\
  (Forall (fun t => 2 <= String.length t) g -> exists bs, parse_comment_group g = Ok bs).
Proof.
  induction g as [|t g (H1 & H2 & H3)]; cbn [parse_comment_group]; [split; [discriminate|]; split; [discriminate|]; now exists []|].
  destruct (String.length t <? 2) eqn:L.
  - split; [discriminate|]. split; [discriminate|]. intro F. inversion F; subst. apply Nat.ltb_lt in L. lia.
  - destruct (parse_comment_group g) as [cc| | |]; cbn [bind]; try (now elim H1); try (now elim H2).
    + split; [destruct (has_prefix _ _); discriminate|]. split; [destruct (has_prefix _ _); discriminate|]. intros _.
      destruct (has_prefix _ _); eauto.
    + split; [discriminate|]. split; [discriminate|]. intro F. inversion F; subst. destruct (H3 H5) as (bs & K). discriminate.
Qed.

(** ** Words *)
Lemma trim_no_space s : has_char " " s = false -> trim is_space s = s.
Proof.
  intro H. unfold trim. assert (L : trim_left is_space s = s).
  { destruct s as [|c s]; [reflexivity|]. cbn [trim_left has_char] in *. apply orb_false_iff in H as (H & _). unfold is_space. now rewrite Ascii.eqb_sym, H. }
  rewrite L. apply trim_right_id. intros t c Pc ->. unfold is_space in Pc. apply Ascii.eqb_eq in Pc. subst.
  rewrite has_char_app in H. cbn in H. rewrite orb_true_r in H. discriminate.
Qed.
Lemma args_id l : Forall (fun a => has_char " " a = false) l -> new_arguments l = l.
Proof. unfold new_arguments. induction 1; cbn [map]; [reflexivity|]. now rewrite trim_no_space, IHForall. Qed.

Lemma contains_iff sub s : contains sub s = true <-> occurs sub s.
Proof.
  unfold occurs. induction s as [|c s IH]; cbn [contains].
  - rewrite orb_false_r, has_prefix_iff. split; [intros (t & E); exists "", t; exact E|]. intros (a & b & E). destruct a; [now exists b | discriminate].
  - rewrite orb_true_iff, has_prefix_iff, IH. split.
    + intros [(t & E)|(a & b & ->)]; [exists "", t; exact E | now exists (String c a), b].
    + intros (a & b & E). destruct a as [|d a]; [left; exists b; exact E|]. right. cbn in E. apply scons_inj in E as (_ & E). exists a, b. exact E.
Qed.

Lemma parse_value_lenient text p : p = ptr_parse_value text <-> lenient text p.
Proof.
  unfold ptr_parse_value, lenient. split.
  - intros ->. destruct (ptr_parse text) as [q| | |] eqn:E; [now left| | |];
      unfold ptr_parse in E; destruct (String.eqb text "" || String.eqb text "#"); try discriminate;
      destruct (url_parse text) as [u|] eqn:U; try discriminate; unfold new_fragment in E.
    + right. split; [reflexivity|]. split; [reflexivity|]. now right.
    + right. split; [reflexivity|]. split; [reflexivity|]. now left.
    + destruct (parse_fragment (u_fragment u)) eqn:F; try discriminate. now elim (proj1 (parse_never_panics _) F).
    + destruct (parse_fragment (u_fragment u)) eqn:F; try discriminate. now elim (proj2 (parse_never_panics _) F).
  - intros [E|(E & F & [(U & ->)|U])]; rewrite E; [reflexivity | now rewrite U |]. rewrite U. destruct p as [u f]. cbn in *. now subst.
Qed.
Lemma make_ptr_spec pkg a p : p = make_ptr pkg a <-> exists text, arg_text pkg a text /\ lenient text p.
Proof.
  unfold make_ptr, arg_text. destruct (contains "://" a || contains "#" a) eqn:C.
  - apply orb_true_iff in C. rewrite !contains_iff in C. rewrite parse_value_lenient. split.
    + intro H. exists a. split; [now left | exact H].
    + intros (text & [(_ & ->)|(N1 & N2 & _)] & H); [exact H | tauto].
  - apply orb_false_iff in C as (C1 & C2).
    assert (N1 : ~ occurs "://" a) by (rewrite <- contains_iff, C1; discriminate).
    assert (N2 : ~ occurs "#" a) by (rewrite <- contains_iff, C2; discriminate).
    rewrite parse_value_lenient. split.
    + intro H. eexists. split; [now right | exact H].
    + intros (text & [([K|K] & _)|(_ & _ & ->)] & H); [contradiction | contradiction | exact H].
Qed.

Lemma eqb_not a b : a <> b -> String.eqb a b = false.
Proof. apply String.eqb_neq. Qed.

Theorem parse_cmd_spec pkg body c : parse_cmd pkg body = Ok c <-> denotes pkg body c.
Proof.
  unfold parse_cmd. split.
  - intro H. pose proof (split_char_no_sep " " body) as F. pose proof (join_split " " body) as J.
    destruct (split_char " " body) as [|w rest] eqn:E; [discriminate|]. inversion F as [|? ? Fw Fr]; subst.
    rewrite (trim_no_space w Fw), (args_id rest Fr) in H.
    destruct (String.eqb w "") eqn:W.
    { apply String.eqb_eq in W. subst w. cbn in H. injection H as <-. apply (den_root pkg "" rest); [now left | exact Fr]. }
    destruct (String.eqb w ":schema") eqn:W1.
    { apply String.eqb_eq in W1. subst w. destruct rest as [|n [|a [|? ?]]]; cbn [new_cmd_schema] in H; try discriminate.
      - destruct (String.eqb n "") eqn:N; [discriminate|]. injection H as <-. apply String.eqb_neq in N. inversion Fr; subst.
        cbn [join str1 String.concat] in *.
        destruct (proj1 (make_ptr_spec pkg n _) eq_refl) as (text & A & L). apply (den_schema1 pkg n text); [now split | exact A | exact L].
      - destruct (String.eqb n "") eqn:N; [discriminate|]. destruct (String.eqb a "") eqn:Na; [discriminate|]. injection H as <-.
        apply String.eqb_neq in N, Na. inversion Fr as [|? ? Fn Fr']; subst. inversion Fr'; subst.
        destruct (proj1 (make_ptr_spec pkg a _) eq_refl) as (text & A & L). apply (den_schema2 pkg n a text); [now split | now split | exact A | exact L]. }
    destruct (String.eqb w ":root") eqn:W2; [|discriminate]. apply String.eqb_eq in W2. subst w. injection H as <-.
    apply (den_root pkg ":root" rest); [now right | exact Fr].
  - intros [name text p (N & Fn) A L|name a text p (N & Fn) (Na & Fa) A L|w args Hw Fr].
    + change (":schema " +++ name) with (":schema" +++ String " " name). rewrite split_char_app_sep by reflexivity. rewrite (split_char_none " " name Fn).
      rewrite (trim_no_space ":schema") by reflexivity. rewrite args_id by (constructor; [exact Fn | constructor]). cbn [String.eqb Ascii.eqb Bool.eqb new_cmd_schema].
      change (String.eqb ":schema" "") with false. cbn iota. change (String.eqb ":schema" ":schema") with true. cbn iota.
      rewrite (eqb_not name "" N). do 2 f_equal. symmetry. apply make_ptr_spec. now exists text.
    + change (":schema " +++ name +++ " " +++ a) with (":schema" +++ String " " (name +++ String " " a)). rewrite split_char_app_sep by reflexivity.
      rewrite split_char_app_sep by exact Fn. rewrite (split_char_none " " a Fa).
      rewrite (trim_no_space ":schema") by reflexivity. rewrite args_id by (constructor; [exact Fn | constructor; [exact Fa | constructor]]). cbn [new_cmd_schema].
      change (String.eqb ":schema" "") with false. cbn iota. change (String.eqb ":schema" ":schema") with true. cbn iota.
      rewrite (eqb_not name "" N), (eqb_not a "" Na). do 2 f_equal. symmetry. apply make_ptr_spec. now exists text.
    + assert (Fw : has_char " " w = false) by now destruct Hw as [-> | ->].
      change (String.concat " " (w :: args)) with (join (str1 " ") (w :: args)). rewrite split_join; [|discriminate | now constructor].
      rewrite (trim_no_space w Fw), (args_id args Fr). destruct Hw as [-> | ->]; reflexivity.
Qed.
Lemma parse_cmd_outcome pkg body : (exists c, parse_cmd pkg body = Ok c) \/ parse_cmd pkg body = Err.
Proof.
  unfold parse_cmd. destruct (split_char " " body) as [|w rest]; [now right|].
  assert (S : forall args, (exists c, new_cmd_schema pkg args = Ok c) \/ new_cmd_schema pkg args = Err).
  { intros [|n [|a [|? ?]]]; cbn; try (now right); destruct (String.eqb n ""); try (now right); [left; eauto|]. destruct (String.eqb a ""); [now right | left; eauto]. }
  destruct (String.eqb (if String.eqb (trim is_space w) "" then ":root" else trim is_space w) ":schema"); [apply S|].
  destruct (String.eqb _ ":root"); [left; eauto | now right].
Qed.

(** A type of the package, by name. *)
Theorem local_schema pkg name : import_path pkg -> word name -> has_char "/" name = false -> has_char "#" name = false -> has_char "%" name = false -> has_char "~" name = false ->
  exists p, parse_cmd pkg (":schema " +++ name) = Ok (CSchema name p) /\ ptr_string p = "go://" +++ pkg +++ "#/" +++ name /\ go_pointer pkg p /\ p_frag p = [name].
Proof.
  intros Hi (N & Fn) Hsl Hsh Hp Ht. destruct (go_new pkg name Hi Hp) as (p & E & G & _ & F).
  rewrite (split_char_none "/" name Hsl) in F. cbn in F.
  assert (U : unescape_token name = name).
  { unfold unescape_token. rewrite (replace_all_absent "~1" "/" name "~") by (reflexivity || exact Ht).
    now rewrite (replace_all_absent "~0" "~" name "~") by (reflexivity || exact Ht). }
  rewrite U in F. exists p. split; [|split; [|split; [exact G | exact F]]].
  - apply parse_cmd_spec. apply (den_schema1 pkg name ("go://" +++ pkg +++ "#/" +++ name)); [now split | |left; exact E].
    right. assert (K : forall x c, has_char c x = true -> has_char c name = false -> ~ occurs x name).
    { intros x c Hx Hc (a & b & ->). rewrite !has_char_app, Hx in Hc. rewrite orb_true_r in Hc. discriminate. }
    split; [now apply (K _ "/"%char)|]. split; [now apply (K _ "#"%char) | reflexivity].
  - rewrite (ptr_string_go pkg p Hi (go_pointer_in pkg p Hi G)), F. cbn [frag_string].
    assert (Es : escape_token name = name).
    { unfold escape_token. rewrite (replace_all_absent "~" "~0" name "~") by (reflexivity || exact Ht).
      now rewrite (replace_all_absent "/" "~1" name "/") by (reflexivity || exact Hsl). }
    rewrite Es. rewrite app_nil_r_s. reflexivity.
Qed.

(** ** Exports *)
Definition mk_export (x : string * ptr) : export := {| e_kind := KSchema; e_name := fst x; e_ptr := snd x |}.
Lemma exports_get_none es p : exports_get es p = None <-> ~ In (ptr_string p) (map (fun e => ptr_string (e_ptr e)) es).
Proof.
  unfold exports_get. induction es as [|e es IH]; cbn; [tauto|]. destruct (String.eqb (ptr_string (e_ptr e)) (ptr_string p)) eqn:E.
  - apply String.eqb_eq in E. split; [discriminate | intro H; elim H; now left].
  - apply String.eqb_neq in E. rewrite IH. tauto.
Qed.
Lemma export_all_spec cc : forall es, NoDup (map (fun e => ptr_string (e_ptr e)) es) ->
  (NoDup (map (fun e => ptr_string (e_ptr e)) es ++ map (fun x => ptr_string (snd x)) (schemas_of cc)) /\
     export_all cc es = Ok (es ++ map mk_export (schemas_of cc))) \/
  (~ NoDup (map (fun e => ptr_string (e_ptr e)) es ++ map (fun x => ptr_string (snd x)) (schemas_of cc)) /\ export_all cc es = Err).
Proof.
  induction cc as [|[args|n p] cc IH]; intros es N; cbn [export_all schemas_of flat_map app map].
  - left. rewrite !app_nil_r. now split.
  - exact (IH es N).
  - destruct (exports_get es p) as [e|] eqn:G.
    + right. split; [|reflexivity]. intro K. assert (exports_get es p <> None) by congruence. apply H. apply exports_get_none. intro Hin.
      apply NoDup_remove_2 in K. apply K. apply in_app_iff. now left.
    + apply exports_get_none in G.
      assert (N' : NoDup (map (fun e => ptr_string (e_ptr e)) (es ++ [mk_export (n, p)]))).
      { rewrite map_app. apply NoDup_app; [exact N | cbn; constructor; [intros [] | constructor] |]. intros x Hx [<-|[]]. exact (G Hx). }
      change ({| e_kind := KSchema; e_name := n; e_ptr := p |}) with (mk_export (n, p)). fold (schemas_of cc).
      specialize (IH _ N'). rewrite map_app, <- !app_assoc in IH. exact IH.
Qed.
Lemma schemas_concat l : schemas_of (concat l) = flat_map schemas_of l.
Proof. unfold schemas_of. induction l; cbn; [reflexivity|]. now rewrite flat_map_app, IHl. Qed.
Theorem exported_spec ord m :
  (NoDup (map (fun x => ptr_string (snd x)) (flat_map (fun kv => schemas_of (snd kv)) (ord m))) /\
     exported_components ord m = Ok (map mk_export (flat_map (fun kv => schemas_of (snd kv)) (ord m)))) \/
  (~ NoDup (map (fun x => ptr_string (snd x)) (flat_map (fun kv => schemas_of (snd kv)) (ord m))) /\ exported_components ord m = Err).
Proof.
  unfold exported_components.
  assert (E : flat_map (fun kv : string * list command => schemas_of (snd kv)) (ord m) = schemas_of (concat (map snd (ord m)))).
  { rewrite schemas_concat. rewrite flat_map_concat_map, flat_map_concat_map, map_map. reflexivity. }
  rewrite E. exact (export_all_spec (concat (map snd (ord m))) [] (NoDup_nil _)).
Qed.
Lemma exported_perm ord m : Permutation (ord m) m ->
  Permutation (flat_map (fun kv : string * list command => schemas_of (snd kv)) (ord m)) (flat_map (fun kv => schemas_of (snd kv)) m).
Proof. intro P. now apply Permutation_flat_map. Qed.
Theorem exported_iff ord m : Permutation (ord m) m ->
  (exported_components ord m = Err <-> ~ NoDup (map (fun x => ptr_string (snd x)) (flat_map (fun kv => schemas_of (snd kv)) m))) /\
  (forall es, exported_components ord m = Ok es ->
     Permutation (map (fun e => (e_name e, e_ptr e)) es) (flat_map (fun kv => schemas_of (snd kv)) m) /\
     NoDup (map (fun e => ptr_string (e_ptr e)) es) /\ Forall (fun e => e_kind e = KSchema) es) /\
  (exported_components ord m = Err \/ exists es, exported_components ord m = Ok es).
Proof.
  intro P. pose proof (exported_perm ord m P) as Q. pose proof (Permutation_map (fun x : string * ptr => ptr_string (snd x)) Q) as Q'.
  destruct (exported_spec ord m) as [(N & E)|(N & E)]; rewrite E; (split; [|split]).
  - split; [discriminate|]. intro K. elim K. eapply Permutation_NoDup; [exact Q' | exact N].
  - intros es H. injection H as <-. rewrite !map_map. split; [|split].
    + rewrite (map_ext _ (fun x => x)) by (now intros []). now rewrite map_id.
    + exact N.
    + apply Forall_forall. intros e He. apply in_map_iff in He as (x & <- & _). reflexivity.
  - right. eauto.
  - split; [intros _ | reflexivity]. intro K. apply N. eapply Permutation_NoDup; [apply Permutation_sym; exact Q' | exact K].
  - discriminate.
  - now left.
Qed.

(** ** Pointers of commands *)
Lemma list_pointers_get cc : sorted (list_pointers cc) /\
  (forall k p, oget k (list_pointers cc) = Some p -> ptr_string p = k /\ exists n, In (CSchema n p) cc) /\
  (forall n p, In (CSchema n p) cc -> oget (ptr_string p) (list_pointers cc) <> None).
Proof.
  unfold list_pointers.
  assert (K : forall l (acc : pointers), sorted acc -> 
    let r := fold_left (fun x c => match c with CSchema _ p => oset (ptr_string p) p x | CRoot _ => x end) l acc in
    sorted r /\ (forall k p, oget k r = Some p -> (ptr_string p = k /\ exists n, In (CSchema n p) l) \/ oget k acc = Some p) /\
    (forall k, oget k acc <> None -> oget k r <> None) /\ (forall n p, In (CSchema n p) l -> oget (ptr_string p) r <> None)).
  { induction l as [|[args|n q] l IH]; intros acc S; cbn [fold_left].
    - split; [exact S|]. split; [auto|]. split; [auto|]. intros n p [].
    - destruct (IH acc S) as (R1 & R2 & R3 & R4). split; [exact R1|]. split; [|split; [exact R3|]].
      + intros k p H. destruct (R2 k p H) as [(E & n & Hn)|H']; [left; split; [exact E|]; exists n; now right | now right].
      + intros n p [E|H]; [discriminate | now apply (R4 n)].
    - destruct (IH (oset (ptr_string q) q acc) (sorted_oset _ _ _ S)) as (R1 & R2 & R3 & R4). split; [exact R1|]. split; [|split].
      + intros k p H. destruct (R2 k p H) as [(E & n' & Hn)|H']; [left; split; [exact E|]; exists n'; now right|].
        destruct (string_dec k (ptr_string q)) as [->|Ne].
        * rewrite oget_oset_same in H'. injection H' as <-. left. split; [reflexivity|]. exists n. now left.
        * rewrite oget_oset_other in H' by congruence. now right.
      + intros k H. apply R3. destruct (string_dec k (ptr_string q)) as [->|Ne]; [rewrite oget_oset_same; discriminate|].
        now rewrite oget_oset_other by congruence.
      + intros n' p [E|H]; [|now apply (R4 n')]. injection E as _ <-. apply R3. rewrite oget_oset_same. discriminate. }
  destruct (K cc [] I) as (R1 & R2 & _ & R4). split; [exact R1|]. split; [|exact R4].
  intros k p H. destruct (R2 k p H) as [H'|H']; [exact H' | discriminate].
Qed.
Theorem map_pointers_spec ord ord1 ord2 m : Permutation (ord m) m -> (forall l, Permutation (ord1 l) l) -> (forall l, Permutation (ord2 l) l) ->
  sorted (map_pointers ord ord1 ord2 m) /\
  (forall k p, oget k (map_pointers ord ord1 ord2 m) = Some p -> ptr_string p = k /\ exists n, commands_schema m n p) /\
  (forall n p, commands_schema m n p -> oget (ptr_string p) (map_pointers ord ord1 ord2 m) <> None).
Proof.
  intros P P1 P2. unfold map_pointers.
  assert (K : forall l acc, sorted acc -> let r := fold_left (fun pp kv => pointers_merge ord1 ord2 pp (list_pointers (snd kv))) l acc in
    sorted r /\
    (forall k p, oget k r = Some p -> (ptr_string p = k /\ exists n, commands_schema l n p) \/ oget k acc = Some p) /\
    (forall k, oget k acc <> None -> oget k r <> None) /\ (forall n p, commands_schema l n p -> oget (ptr_string p) r <> None)).
  { induction l as [|[pk cc] l IH]; intros acc S; cbn [fold_left snd].
    - split; [exact S|]. split; [auto|]. split; [auto|]. intros n p (? & ? & [] & _).
    - destruct (list_pointers_get cc) as (LS & L1 & L2).
      assert (S' : sorted (pointers_merge ord1 ord2 acc (list_pointers cc))) by (unfold pointers_merge; apply assign_sorted, assign_sorted; exact I).
      assert (M : forall k, oget k (pointers_merge ord1 ord2 acc (list_pointers cc)) = match oget k (list_pointers cc) with Some p => Some p | None => oget k acc end)
        by (intro k; exact (pointers_merge_get ord1 ord2 acc (list_pointers cc) k P1 P2 S LS)).
      destruct (IH _ S') as (R1 & R2 & R3 & R4). split; [exact R1|]. split; [|split].
      + intros k p H. destruct (R2 k p H) as [(E & n & pk' & cc' & H1 & H2)|H'].
        * left. split; [exact E|]. exists n, pk', cc'. split; [now right | exact H2].
        * rewrite M in H'. destruct (oget k (list_pointers cc)) as [q|] eqn:G; [|now right]. injection H' as ->.
          destruct (L1 k p G) as (E & n & Hn). left. split; [exact E|]. exists n, pk, cc. split; [now left | exact Hn].
      + intros k H. apply R3. rewrite M. destruct (oget k (list_pointers cc)); [discriminate | exact H].
      + intros n p (pk' & cc' & [E|H1] & H2); [|apply (R4 n); now exists pk', cc'].
        injection E as <- <-. apply R3. rewrite M. specialize (L2 n p H2). destruct (oget (ptr_string p) (list_pointers cc)); [discriminate | now elim L2]. }
  destruct (K (ord m) [] I) as (R1 & R2 & _ & R4). split; [exact R1|].
  assert (C : forall n p, commands_schema (ord m) n p <-> commands_schema m n p).
  { intros n p. split; intros (pk & cc & H1 & H2); exists pk, cc; (split; [|exact H2]); eapply Permutation_in; try exact H1; [exact P | now apply Permutation_sym]. }
  split.
  - intros k p H. destruct (R2 k p H) as [(E & n & Hn)|H']; [|discriminate]. split; [exact E|]. exists n. now apply C.
  - intros n p H. apply (R4 n). now apply C.
Qed.

(** ** Scanning one package *)
Lemma all_comments_spec gs cs : all_comments gs = Ok cs <-> exists bss, Forall2 bodies gs bss /\ cs = concat bss.
Proof.
  revert cs. induction gs as [|g gs IH]; intro cs; cbn [all_comments].
  - split; [injection 1 as <-; exists []; split; [constructor | reflexivity]|]. intros (bss & F & ->). inversion F. reflexivity.
  - split.
    + intro H. apply bind_ok in H as (a & Ha & H). apply bind_ok in H as (b & Hb & H). injection H as <-.
      apply IH in Hb as (bss & F & ->). exists (a :: bss). split; [constructor; [now apply comment_group_spec | exact F] | reflexivity].
    + intros (bss & F & ->). inversion F as [|? b ? bs Hb F']; subst. apply comment_group_spec in Hb. rewrite Hb. cbn [bind].
      assert (E : all_comments gs = Ok (concat bs)) by (apply IH; now exists bs). rewrite E. reflexivity.
Qed.
Lemma parse_all_spec pkg l : (exists cc, parse_all pkg l = Ok cc /\ Forall2 (denotes pkg) l cc) \/ (parse_all pkg l = Err /\ exists b, In b l /\ forall c, ~ denotes pkg b c).
Proof.
  induction l as [|b l IH]; cbn [parse_all]; [left; exists []; split; [reflexivity | constructor]|].
  destruct (parse_cmd_outcome pkg b) as [(c & E)|E]; rewrite E; cbn [bind].
  - destruct IH as [(cc & -> & F)|(-> & b' & Hb & N)].
    + left. exists (c :: cc). split; [reflexivity|]. constructor; [now apply parse_cmd_spec | exact F].
    + right. split; [reflexivity|]. exists b'. split; [now right | exact N].
  - right. split; [reflexivity|]. exists b. split; [now left|]. intros c H. apply parse_cmd_spec in H. congruence.
Qed.
Lemma Forall2_bodies_total gs : Forall (Forall (fun t => 2 <= String.length t)) gs -> exists bss, Forall2 bodies gs bss.
Proof.
  induction 1 as [|g gs Hg F (bss & IH)]; [exists []; constructor|]. destruct (comment_group_outcome g) as (_ & _ & T). destruct (T Hg) as (bs & E).
  exists (bs :: bss). constructor; [now apply comment_group_spec | exact IH].
Qed.
Theorem scan_cmds_spec s m : Forall (Forall (fun t => 2 <= String.length t)) (cs_groups s) ->
  exists bss, Forall2 bodies (cs_groups s) bss /\
    ((exists cc, Forall2 (denotes (cs_types s)) (concat bss) cc /\ scan_cmds s m = Ok (oset (cs_path s) cc m, false)) \/
     ((exists b, In b (concat bss) /\ forall c, ~ denotes (cs_types s) b c) /\ scan_cmds s m = Ok (m, true))).
Proof.
  intro H. destruct (Forall2_bodies_total _ H) as (bss & F). exists bss. split; [exact F|]. unfold scan_cmds.
  assert (E : all_comments (cs_groups s) = Ok (concat bss)) by (apply all_comments_spec; now exists bss). rewrite E. cbn [bind].
  destruct (parse_all_spec (cs_types s) (concat bss)) as [(cc & -> & D)|(-> & B)]; [left; eauto | right; split; [exact B | reflexivity]].
Qed.
