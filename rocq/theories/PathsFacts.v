(** Facts about Paths and SetPathsDefaults. *)
From Coq Require Import String Ascii List Bool Arith Lia Permutation.
From Verif Require Import GoStr GoStrFacts Json JsonFacts Gabs Container Regex Route Root Spec_Merge Spec_Root Spec_Loc LocFacts MergeFacts MergeLaws MergeApi SetFacts ContFacts RootFacts.
Import ListNotations.
Local Open Scope string_scope.
Local Open Scope nat_scope.
Local Open Scope list_scope.

Definition op_at (p m : string) (doc : json) : option json := at_path ["paths"; p; m] doc.

Definition item (p : string) (pm : list (string * json)) : list (string * json) :=
  match oget p pm with Some (JObj mm) => mm | _ => [] end.
Definition put (p m : string) (v doc : json) : json :=
  match doc with
  | JObj d => match oget "paths" d with
              | Some (JObj pm) => JObj (oset "paths" (JObj (oset p (JObj (oset m v (item p pm))) pm)) d)
              | _ => doc
              end
  | _ => doc
  end.

Lemma set_put p m v doc : shaped doc -> c_set v ["paths"; p; m] (Some doc) = Ok (Some (put p m v doc)).
Proof.
  intros (d & pm & -> & Hp & Hi). unfold c_set, root_set, put. rewrite Hp. cbn [gset]. rewrite Hp.
  unfold item. destruct (oget p pm) as [x|] eqn:E; [|reflexivity].
  destruct (Hi p x E) as [Hx| ->]; [|reflexivity]. destruct x; try discriminate Hx. reflexivity.
Qed.
Lemma put_shaped p m v doc : shaped doc -> shaped (put p m v doc).
Proof.
  intros (d & pm & -> & Hp & Hi). unfold put. rewrite Hp. eexists _, _. split; [reflexivity|]. split; [apply oget_oset_same|].
  intros p' x. rewrite oget_oset. destruct (String.eqb p' p); [intros [= <-]; auto | apply Hi].
Qed.
Lemma put_at p m v doc p' m' : shaped doc -> op_at p' m' (put p m v doc) = if String.eqb p' p && String.eqb m' m then Some v else op_at p' m' doc.
Proof.
  intros (d & pm & -> & Hp & Hi). unfold put, op_at. rewrite Hp. cbn [at_path]. rewrite oget_oset_same, Hp. cbn [at_path]. rewrite oget_oset.
  destruct (String.eqb_spec p' p) as [->|N]; cbn [andb].
  - rewrite oget_oset. destruct (String.eqb_spec m' m) as [->|N]; [reflexivity|]. unfold item.
    destruct (oget p pm) as [x|] eqn:E; [|reflexivity]. destruct (Hi p x E) as [Hx| ->]; [|reflexivity]. destruct x; try discriminate Hx. reflexivity.
  - reflexivity.
Qed.
Lemma put_wf p m v doc : wf doc -> wf v -> wf (put p m v doc).
Proof.
  intros W Wv. unfold put. destruct doc as [| | | | |d]; auto. destruct (oget "paths" d) as [[| | | | |pm]|] eqn:E; auto.
  apply wf_oset; [exact W|]. pose proof (wf_oget _ _ _ W E) as Wp. apply wf_oset; [exact Wp|]. apply wf_oset; [|exact Wv].
  unfold item. destruct (oget p pm) as [[| | | | |mm]|] eqn:E'; try (repeat constructor; fail). exact (wf_oget _ _ _ Wp E').
Qed.
Lemma fixed_oset k v m : sorted m -> fixed (JObj m) -> fixed v -> fixed (JObj (oset k v m)).
Proof.
  intros S F Fv. apply fixed_obj; [now apply sorted_oset|]. intros k' v'. rewrite oget_oset. destruct (String.eqb k' k); [now intros [= <-]|].
  intro E. eapply fixed_oget; eassumption.
Qed.
Lemma put_fixed p m v doc : wf doc -> fixed doc -> wf v -> fixed v -> fixed (put p m v doc).
Proof.
  intros W F Wv Fv. unfold put. destruct doc as [| | | | |d]; auto. destruct (oget "paths" d) as [[| | | | |pm]|] eqn:E; auto.
  pose proof (wf_oget _ _ _ W E) as Wp. pose proof (fixed_oget _ _ _ (wf_sorted _ W) F E) as Fp.
  apply fixed_oset; [exact (wf_sorted _ W) | exact F |]. apply fixed_oset; [exact (wf_sorted _ Wp) | exact Fp |].
  unfold item. destruct (oget p pm) as [[| | | | |mm]|] eqn:E'; try (apply fixed_oset; [exact I | reflexivity | exact Fv]).
  apply fixed_oset; [exact (wf_sorted _ (wf_oget _ _ _ Wp E')) | exact (fixed_oget _ _ _ (wf_sorted _ Wp) Fp E') | exact Fv].
Qed.
(** Locations elsewhere keep what they hold. *)
Lemma put_node p m v doc q : shaped doc -> op_at p m doc <> None -> ~ is_prefix ["paths"; p; m] q -> node_at q (put p m v doc) = node_at q doc.
Proof.
  intros (d & pm & -> & Hp & Hi) Ho Nq. unfold put. rewrite Hp. unfold op_at in Ho. cbn [at_path] in Ho. rewrite Hp in Ho. cbn [at_path] in Ho.
  destruct (oget p pm) as [x|] eqn:Ep; [|congruence]. destruct x as [| | | | |mm]; try congruence. unfold item. rewrite Ep.
  destruct q as [|k1 q]; [reflexivity|]. rewrite !node_cons, oget_oset. destruct (String.eqb_spec k1 "paths") as [->|N]; [|reflexivity]. rewrite Hp.
  destruct q as [|k2 q]; [reflexivity|]. rewrite !node_cons, oget_oset. destruct (String.eqb_spec k2 p) as [->|N]; [|reflexivity]. rewrite Ep.
  destruct q as [|k3 q]; [reflexivity|]. rewrite !node_cons, oget_oset. destruct (String.eqb_spec k3 m) as [->|N]; [|reflexivity].
  exfalso. apply Nq. now exists q.
Qed.

(** ** merging a default into an operation *)

Lemma c_merge_mloop (ord : morder) coll c o : fixed (JObj o) -> exists h, c_merge ord coll c (Some (JObj o)) = mloop ord coll h [] (ord [] o) c.
Proof.
  intro F. unfold c_merge, c_clone, c_data. rewrite F. cbn [height]. rewrite merge_rec_S. eexists. reflexivity.
Qed.
Lemma ord_first (ord : morder) o : perm_oracle ord -> o <> [] -> exists k x es, ord [] o = (k, x) :: es /\ In (k, x) o.
Proof.
  intros Ho Hn. specialize (Ho [] o). destruct (ord [] o) as [|[k x] es] eqn:E.
  - apply Permutation_nil in Ho. contradiction.
  - exists k, x, es. split; [reflexivity|]. eapply Permutation_in; [exact Ho | now left].
Qed.
Lemma ord_none (ord : morder) : perm_oracle ord -> ord [] [] = [].
Proof. intro Ho. specialize (Ho [] []). symmetry in Ho. now apply Permutation_nil in Ho. Qed.

Lemma merge_null (ord : morder) coll o : perm_oracle ord -> fixed (JObj o) -> o <> [] ->
  c_merge ord coll (Some JNull) (Some (JObj o)) = c_merge ord coll (Some (JObj [])) (Some (JObj o)).
Proof.
  intros Ho F Hn. unfold c_merge, c_clone, c_data. rewrite F. cbn [height]. rewrite !merge_rec_S.
  destruct (ord_first ord o Ho Hn) as (k & x & es & -> & _). reflexivity.
Qed.
Lemma merge_empty (ord : morder) coll c : perm_oracle ord -> c_merge ord coll c (Some (JObj [])) = Ok c.
Proof. intro Ho. destruct (c_merge_mloop ord coll c [] eq_refl) as [h ->]. now rewrite ord_none. Qed.
Lemma merge_scalar (ord : morder) o v : perm_oracle ord -> sorted o -> fixed (JObj o) -> o <> [] -> op_keys o -> is_obj v = false -> v <> JNull ->
  c_merge ord merge_default (Some v) (Some (JObj o)) = Err.
Proof.
  intros Ho So F Hn Hk Hv Nv. destruct (c_merge_mloop ord merge_default (Some v) o F) as [h ->].
  destruct (ord_first ord o Ho Hn) as (k & x & es & -> & Hin). apply (sorted_in_oget _ _ _ So) in Hin. specialize (Hk k x Hin).
  assert (Hset : forall y, c_set y [k] (Some v) = Err).
  { intro y. unfold c_set, root_set. destruct v as [| | | |l|]; try reflexivity; try congruence; try discriminate Hv. cbn [gset].
    rewrite Hk. destruct (String.eqb k "-"); reflexivity. }
  cbn [mloop app]. destruct (c_search [k] (Some v)) as [e|] eqn:Es.
  - assert (E : forall y, (match x, y with JObj t, JObj _ => merge_rec ord merge_default h [k] t (Some v) | _, _ => match merge_default y x with None => Err | Some z => c_set z [k] (Some v) end end) = Err \/ is_obj y = true).
    { intros [| | | | |]; auto; left; cbn [merge_default]; rewrite Hset; destruct x; reflexivity. }
    destruct (E e) as [->|He]; [reflexivity|]. exfalso. destruct v as [| | | |l|]; try discriminate Es; try discriminate Hv; try congruence.
    unfold c_search in Es. cbn [search c_data] in Es. rewrite Hk in Es. destruct (String.eqb k "*"); [|discriminate Es].
    destruct (flat_map _ l); [discriminate Es|]. injection Es as <-. discriminate He.
  - rewrite Hset. reflexivity.
Qed.

Lemma merge_op (ord : morder) o v nc : perm_oracle ord -> wf (JObj o) -> fixed (JObj o) -> op_keys o -> wf v -> fixed v ->
  c_merge ord merge_default (Some v) (Some (JObj o)) = Ok nc ->
  exists r, nc = Some r /\ with_default (JObj o) v r /\ wf r /\ fixed r.
Proof.
  intros Ho Wo Fo Hk Wv Fv H. destruct o as [|e o].
  - rewrite merge_empty in H by exact Ho. injection H as <-. exists v. split; [reflexivity|]. split; [|auto].
    destruct v as [| | | | |a]; try (apply wd_none; reflexivity). apply wd_obj. now apply merged_nothing.
  - set (o' := e :: o) in *. assert (Hn : o' <> []) by discriminate.
    assert (Hobj : forall a, wf (JObj a) -> fixed (JObj a) -> c_merge ord merge_default (Some (JObj a)) (Some (JObj o')) = Ok nc ->
       exists r, nc = Some r /\ merged merge_default (JObj a) (JObj o') r /\ wf r /\ fixed r).
    { intros a Wa Fa Ha. destruct (c_merge_default ord a o' o' Ho Wa Wo Fo) as (r & E & W & M). exists r. split; [congruence|]. split; [exact M|]. split; [exact W|].
      eapply merged_fixed; [exact picks_default | exact Wa | exact Wo | exact Fa | exact Fo | exact M]. }
    assert (Hnull : v = JNull -> exists r, nc = Some r /\ with_default (JObj o') v r /\ wf r /\ fixed r).
    { intros ->. rewrite merge_null in H by assumption. destruct (Hobj [] ltac:(repeat constructor) eq_refl H) as (r & -> & M & W & F).
      exists r. split; [reflexivity|]. split; [|auto]. assert (r = JObj o') by (eapply merged_fun; [exact M | now apply merged_into_empty]). subst. now apply wd_null. }
    destruct v as [| | | | |a]; try (now apply Hnull); try (rewrite merge_scalar in H; auto; try discriminate; exact (wf_sorted _ Wo)).
    destruct (Hobj a Wv Fv H) as (r & -> & M & W & F). exists r. split; [reflexivity|]. split; [now apply wd_obj | auto].
Qed.
Lemma merge_op_total (ord : morder) o v : perm_oracle ord -> wf (JObj o) -> fixed (JObj o) -> wf v -> fixed v ->
  (is_obj v = true \/ v = JNull \/ o = []) -> exists nc, c_merge ord merge_default (Some v) (Some (JObj o)) = Ok nc.
Proof.
  intros Ho Wo Fo Wv Fv H. assert (Hobj : forall a, wf (JObj a) -> exists nc, c_merge ord merge_default (Some (JObj a)) (Some (JObj o)) = Ok nc).
  { intros a Wa. destruct (c_merge_default ord a o o Ho Wa Wo Fo) as (r & E & _). eauto. }
  destruct H as [H|[-> | ->]].
  - destruct v; try discriminate H. now apply Hobj.
  - destruct o as [|e o]; [rewrite merge_empty by exact Ho; eauto|]. rewrite merge_null by (assumption || discriminate). apply Hobj. repeat constructor.
  - rewrite merge_empty by exact Ho. eauto.
Qed.

(** ** one matched entry *)
(** What the dot path of an entry denotes: '.' becomes "~1". *)
Definition tl1 (s : string) : string := replace_all "." "~1" s.
Lemma key_loc_eq p m v : key_loc (fpath_of p m v) = ["paths"; tl1 p; tl1 m].
Proof. unfold key_loc, fpath_of. cbn [fp_key]. rewrite dot_path_slice by discriminate. reflexivity. Qed.
Definition entry_ok (f : fpath) : Prop :=
  fp_key f = slice_to_dot_path ["paths"; fp_path f; fp_method f] /\ exists v, fp_op f = Some v /\ wf v /\ fixed v.
Definition value (f : fpath) : json := c_data (fp_op f).
Definition meta (f : fpath) : string * string := (fp_path f, fp_method f).
Lemma detach_meta l f : meta (detach l f) = meta f /\ fp_key (detach l f) = fp_key f /\ fp_op (detach l f) = fp_op f.
Proof. unfold detach. destruct (list_eq_dec _ _ _); auto. Qed.

Definition good_doc (doc : json) : Prop := shaped doc /\ wf doc /\ fixed doc.
Lemma put_good p m v doc : good_doc doc -> wf v -> fixed v -> good_doc (put p m v doc).
Proof. intros (A & B & C) Wv Fv. split; [now apply put_shaped|]. split; [now apply put_wf | now apply put_fixed]. Qed.

Definition updated (f : fpath) (r : json) : fpath :=
  {| fp_method := fp_method f; fp_path := fp_path f; fp_key := fp_key f; fp_op := Some r; fp_in := fp_in f |}.
Lemma apply_default_spec ord o i doc fs f : perm_oracle ord -> wf (JObj o) -> fixed (JObj o) -> op_keys o -> good_doc doc -> entry_ok f ->
  nth_error fs i = Some f -> forall st', apply_default ord (JObj o) i (Some doc, fs) = Ok st' ->
  exists r, with_default (JObj o) (value f) r /\ wf r /\ fixed r /\
    st' = (Some (put (tl1 (fp_path f)) (tl1 (fp_method f)) r (if fp_in f then put (fp_path f) (fp_method f) r doc else doc)),
           map (detach ["paths"; tl1 (fp_path f); tl1 (fp_method f)]) (set_nth i (updated f r) fs)).
Proof.
  intros Ho Wo Fo Hk Hg (Key & v & Ev & Wv & Fv) Hi st' H. unfold apply_default in H. cbn [snd fst] in H. rewrite Hi in H.
  unfold c_make in H. rewrite Fo in H. cbn [bind] in H. apply bind_ok in H as (nc & Hm & H). rewrite Ev in Hm.
  destruct (merge_op ord o v nc Ho Wo Fo Hk Wv Fv Hm) as (r & -> & Hw & Wr & Fr). exists r. unfold value. rewrite Ev. cbn [c_data] in *.
  split; [exact Hw|]. split; [exact Wr|]. split; [exact Fr|].
  apply bind_ok in H as (c1 & H1 & H). apply bind_ok in H as (c2 & H2 & H). injection H as <-.
  set (doc1 := if fp_in f then put (fp_path f) (fp_method f) r doc else doc).
  assert (E1 : c1 = Some doc1 /\ good_doc doc1).
  { unfold doc1. destruct (fp_in f).
    - unfold op_loc in H1. rewrite set_put in H1 by apply Hg. injection H1 as <-. split; [reflexivity | now apply put_good].
    - injection H1 as <-. auto. }
  destruct E1 as [-> Hg1]. unfold c_setp in H2. rewrite Fr in H2. cbn [bind] in H2.
  assert (Kl : key_loc f = ["paths"; tl1 (fp_path f); tl1 (fp_method f)]).
  { unfold key_loc. rewrite Key. rewrite dot_path_slice by discriminate. reflexivity. }
  fold (key_loc f) in H2. rewrite Kl in H2. rewrite set_put in H2 by apply Hg1. injection H2 as <-. rewrite Kl. reflexivity.
Qed.
Lemma apply_default_total ord o i doc fs f : perm_oracle ord -> wf (JObj o) -> fixed (JObj o) -> op_keys o -> good_doc doc -> entry_ok f ->
  nth_error fs i = Some f -> (is_obj (value f) = true \/ value f = JNull \/ o = []) -> exists st', apply_default ord (JObj o) i (Some doc, fs) = Ok st'.
Proof.
  intros Ho Wo Fo Hk Hg (Key & v & Ev & Wv & Fv) Hi Hv. unfold apply_default. cbn [snd fst]. rewrite Hi.
  unfold c_make. rewrite Fo. cbn [bind]. rewrite Ev. unfold value in Hv. rewrite Ev in Hv. cbn [c_data] in Hv.
  destruct (merge_op_total ord o v Ho Wo Fo Wv Fv Hv) as [nc Hm]. rewrite Hm. cbn [bind].
  destruct (merge_op ord o v nc Ho Wo Fo Hk Wv Fv Hm) as (r & -> & Hw & Wr & Fr). cbn [c_data].
  unfold op_loc. destruct (fp_in f).
  - rewrite set_put by apply Hg. cbn [bind]. unfold c_setp. rewrite Fr. cbn [bind]. rewrite Key, dot_path_slice by discriminate. cbn [map].
    change (replace_all "." "~1" "paths") with "paths". rewrite set_put by now apply put_shaped, Hg. cbn [bind]. eauto.
  - cbn [bind]. unfold c_setp. rewrite Fr. cbn [bind]. rewrite Key, dot_path_slice by discriminate. cbn [map].
    change (replace_all "." "~1" "paths") with "paths". rewrite set_put by apply Hg. cbn [bind]. eauto.
Qed.
Lemma apply_default_err ord o i c fs f : perm_oracle ord -> wf (JObj o) -> fixed (JObj o) -> op_keys o -> o <> [] -> entry_ok f ->
  nth_error fs i = Some f -> is_obj (value f) = false -> value f <> JNull -> apply_default ord (JObj o) i (c, fs) = Err.
Proof.
  intros Ho Wo Fo Hk Hn (Key & v & Ev & Wv & Fv) Hi Hv Nv. unfold apply_default. cbn [snd fst]. rewrite Hi.
  unfold c_make. rewrite Fo. cbn [bind]. unfold value in *. rewrite Ev in *. cbn [c_data] in *. rewrite merge_scalar; auto. exact (wf_sorted _ Wo).
Qed.

(** ** loops *)
Definition view (fs : list fpath) : list (string * string * json) := map (fun f => (meta f, value f)) fs.
Lemma map_set_nth {A B} (g : A -> B) i x l : map g (set_nth i x l) = set_nth i (g x) (map g l).
Proof. revert i; induction l as [|y l IH]; intros [|i]; cbn; congruence. Qed.
Lemma view_step i f r loc fs : nth_error fs i = Some f ->
  view (map (detach loc) (set_nth i (updated f r) fs)) = set_nth i (meta f, r) (view fs).
Proof.
  intro H. unfold view. rewrite map_map.
  rewrite (map_ext _ (fun f => (meta f, value f))); [now rewrite map_set_nth|].
  intro g. destruct (detach_meta loc g) as (-> & _ & E). unfold value. now rewrite E.
Qed.
Lemma entry_ok_step i f r loc fs : Forall entry_ok fs -> nth_error fs i = Some f -> wf r -> fixed r ->
  Forall entry_ok (map (detach loc) (set_nth i (updated f r) fs)).
Proof.
  intros H Hi Wr Fr. apply Forall_map, Forall_forall. intros g Hg. apply in_set_nth in Hg.
  assert (entry_ok g) as (K & v & Ev & Wv & Fv).
  { rewrite Forall_forall in H. destruct Hg as [-> | Hg]; [|auto]. apply nth_error_In in Hi. destruct (H f Hi) as (K & _). split; [exact K|]. exists r. auto. }
  destruct (detach_meta loc g) as (M & K' & E). unfold meta in M. injection M as M1 M2. split; [congruence|]. exists v. rewrite E. auto.
Qed.
Lemma nth_view fs i e : nth_error (view fs) i = Some e <-> exists f, nth_error fs i = Some f /\ e = (meta f, value f).
Proof.
  unfold view. rewrite nth_error_map. destruct (nth_error fs i) as [f|]; cbn; split.
  - intros [= <-]. eauto.
  - intros (f' & [= <-] & ->). reflexivity.
  - discriminate.
  - intros (f & [=] & _).
Qed.

Lemma match_idx_spec pattern fp : forall i l, match_idx pattern i fp = Ok l ->
  NoDup l /\ (forall j, In j l -> i <= j) /\
  (forall j f, nth_error fp j = Some f -> (In (i + j) l <-> selects pattern (meta f) = true)) /\
  (forall j, In j l -> j < i + length fp).
Proof.
  induction fp as [|x fp IH]; intros i l H; cbn [match_idx] in H.
  - injection H as <-. split; [constructor|]. split; [easy|]. split; [|easy]. intros [|j] f; discriminate.
  - apply bind_ok in H as (b & Hb & H). apply bind_ok in H as (l' & Hl & H). injection H as <-.
    destruct (IH (S i) l' Hl) as (A & B & C & D).
    assert (Sx : selects pattern (meta x) = b) by (unfold selects, meta; cbn [fst snd]; now rewrite Hb).
    assert (Ni : ~ In i l') by (intro Hin; apply B in Hin; lia).
    split; [destruct b; [now constructor | exact A]|]. split.
    { intros j Hj. assert (j = i \/ In j l') as [->|Hj'] by (destruct b; [destruct Hj; auto | auto]); [lia|]. apply B in Hj'. lia. }
    split.
    + intros [|j] f Hf; cbn in Hf.
      * injection Hf as <-. rewrite Nat.add_0_r, Sx. destruct b; split; auto; try (now left); try discriminate; try contradiction.
      * rewrite <- (C j f Hf). replace (i + S j) with (S i + j) by lia. destruct b; [|tauto]. split; [intros [E|]; [lia|auto] | now right].
    + intros j Hj. cbn [length]. assert (j = i \/ In j l') as [->|Hj'] by (destruct b; [destruct Hj; auto | auto]); [lia|]. apply D in Hj'. lia.
Qed.

(** Applying one pattern's default to the selected entries, abstractly: [P] is
    any relation between document and entries kept by single applications. *)
Definition entry_default (o : json) (sel : bool) (v v' : json) : Prop := if sel then with_default o v v' else v' = v.
Lemma apply_defaults_spec (ord : nat -> morder) o (P : json -> list fpath -> Prop) : (forall i, perm_oracle (ord i)) -> wf (JObj o) -> fixed (JObj o) -> op_keys o ->
  (forall i f r doc fs, good_doc doc -> Forall entry_ok fs -> P doc fs -> nth_error fs i = Some f -> with_default (JObj o) (value f) r -> wf r -> fixed r ->
     P (put (tl1 (fp_path f)) (tl1 (fp_method f)) r (if fp_in f then put (fp_path f) (fp_method f) r doc else doc))
       (map (detach ["paths"; tl1 (fp_path f); tl1 (fp_method f)]) (set_nth i (updated f r) fs))) ->
  forall l doc fs st', NoDup l -> (forall i, In i l -> i < length fs) -> good_doc doc -> Forall entry_ok fs -> P doc fs ->
  apply_defaults ord (JObj o) l (Some doc, fs) = Ok st' ->
  exists doc' fs', st' = (Some doc', fs') /\ good_doc doc' /\ Forall entry_ok fs' /\ P doc' fs' /\ length fs' = length fs /\
    forall i k v, nth_error (view fs) i = Some (k, v) -> exists v', nth_error (view fs') i = Some (k, v') /\ entry_default (JObj o) (existsb (Nat.eqb i) l) v v'.
Proof.
  intros Ho Wo Fo Hk HP l. induction l as [|i l IH]; intros doc fs st' Hnd Hlen Hg He HPd H; cbn [apply_defaults] in H.
  - injection H as <-. exists doc, fs. repeat split; auto; try apply Hg. intros i k v Hn. exists v. split; [exact Hn | reflexivity].
  - apply bind_ok in H as (st1 & H1 & H). inversion Hnd as [|? ? Ni Hnd']; subst.
    destruct (nth_error fs i) as [f|] eqn:Hi; [|exfalso; apply nth_error_None in Hi; specialize (Hlen i (or_introl eq_refl)); lia].
    pose proof (proj1 (Forall_forall _ _) He f (nth_error_In _ _ Hi)) as Hf.
    destruct (apply_default_spec (ord i) o i doc fs f (Ho i) Wo Fo Hk Hg Hf Hi _ H1) as (r & Hw & Wr & Fr & ->).
    set (doc1 := put _ _ r _) in *. set (fs1 := map _ _) in *.
    assert (Hg1 : good_doc doc1) by (unfold doc1; apply put_good; auto; destruct (fp_in f); [now apply put_good | exact Hg]).
    assert (He1 : Forall entry_ok fs1) by now apply entry_ok_step.
    assert (L1 : length fs1 = length fs) by (unfold fs1; now rewrite map_length, set_nth_length).
    destruct (IH doc1 fs1 st' Hnd') as (doc' & fs' & -> & A & B & C & D & E); auto.
    { intros j Hj. rewrite L1. apply Hlen. now right. }
    { apply HP; auto. }
    exists doc', fs'. repeat split; auto; try apply A; try congruence. intros j k v Hn.
    assert (V1 : view fs1 = set_nth i (meta f, r) (view fs)) by now apply view_step.
    assert (Hfi : nth_error (view fs) i = Some (meta f, value f)) by (apply nth_view; eauto).
    destruct (Nat.eq_dec j i) as [->|N].
    + assert ((k, v) = (meta f, value f)) as [= -> ->] by congruence.
      destruct (E i (meta f) r) as (v' & E1 & E2). { rewrite V1. eapply set_nth_same. exact Hfi. }
      exists v'. split; [exact E1|]. cbn [existsb]. rewrite Nat.eqb_refl. cbn [orb entry_default].
      assert (existsb (Nat.eqb i) l = false) as X. { apply not_true_iff_false. intro X. apply existsb_exists in X as (j & Hj & Ej). apply Nat.eqb_eq in Ej as <-. contradiction. }
      rewrite X in E2. cbn in E2. now subst.
    + destruct (E j k v) as (v' & E1 & E2). { rewrite V1, set_nth_other by congruence. exact Hn. }
      exists v'. split; [exact E1|]. cbn [existsb]. assert ((j =? i) = false) as -> by now apply Nat.eqb_neq. exact E2.
Qed.


Lemma defaults_loop_spec (ord : nat -> nat -> morder) (P : json -> list fpath -> Prop) : (forall n i, perm_oracle (ord n i)) ->
  (forall o i f r doc fs, good_doc doc -> Forall entry_ok fs -> P doc fs -> nth_error fs i = Some f -> with_default (JObj o) (value f) r -> wf r -> fixed r ->
     P (put (tl1 (fp_path f)) (tl1 (fp_method f)) r (if fp_in f then put (fp_path f) (fp_method f) r doc else doc))
       (map (detach ["paths"; tl1 (fp_path f); tl1 (fp_method f)]) (set_nth i (updated f r) fs))) ->
  forall defs n doc fs st', Forall ok_default defs -> good_doc doc -> Forall entry_ok fs -> P doc fs ->
  defaults_loop ord n defs (Some doc, fs) = Ok st' ->
  exists doc' fs', st' = (Some doc', fs') /\ good_doc doc' /\ Forall entry_ok fs' /\ P doc' fs' /\
    forall i k v, nth_error (view fs) i = Some (k, v) -> exists v', nth_error (view fs') i = Some (k, v') /\ with_defaults (chosen k defs) v v'.
Proof.
  intros Ho HP defs. induction defs as [|[pat ov] defs IH]; intros n doc fs st' Hd Hg He HPd H; cbn [defaults_loop] in H.
  - injection H as <-. exists doc, fs. repeat split; auto; try apply Hg. intros i k v Hn. exists v. split; [exact Hn | constructor].
  - inversion Hd as [|? ? (o & Eo & Wo & Fo & Ko) Hd']; subst. cbn [snd] in Eo. subst ov. cbn [snd] in H.
    apply bind_ok in H as (l & Hl & H). apply bind_ok in H as (st1 & H1 & H).
    destruct (match_idx_spec pat fs 0 l Hl) as (Nd & _ & Sel & Len). cbn [Nat.add] in *.
    destruct (apply_defaults_spec (ord n) o P (Ho n) Wo Fo Ko (HP o) l doc fs st1 Nd Len Hg He HPd H1) as (doc1 & fs1 & -> & A & B & C & D & E).
    destruct (IH (S n) doc1 fs1 st' Hd' A B C H) as (doc' & fs' & -> & A' & B' & C' & E').
    exists doc', fs'. repeat split; auto; try apply A'. intros i k v Hn. destruct (E i k v Hn) as (v1 & Hn1 & Hv1). destruct (E' i k v1 Hn1) as (v' & Hn' & Hv').
    exists v'. split; [exact Hn'|]. apply nth_view in Hn as (f & Hf & [= -> ->]).
    assert (X : existsb (Nat.eqb i) l = selects pat (meta f)).
    { apply Bool.eq_iff_eq_true. rewrite <- (Sel i f Hf). rewrite existsb_exists. split; [intros (j & Hj & Ej); apply Nat.eqb_eq in Ej as <-; exact Hj | intro; exists i; rewrite Nat.eqb_refl; auto]. }
    rewrite X in Hv1. unfold chosen. cbn [filter fst]. destruct (selects pat (meta f)); cbn [entry_default] in Hv1.
    + cbn [map snd]. econstructor; [exact Hv1 | exact Hv'].
    + subst. exact Hv'.
Qed.

(** ** Paths *)
Lemma c_children_some j ms : c_children (Some j) = Ok ms -> (j = JObj ms) \/ (j = JNull /\ ms = []).
Proof. unfold c_children. cbn. destruct j; intro H; try discriminate; injection H as <-; auto. Qed.
Lemma items_spec (ordm : morder) ps : forall ff, perm_oracle ordm -> items_of ordm ps = Ok ff ->
  (forall f, In f ff <-> exists p m v mm, In (p, JObj mm) ps /\ In (m, v) mm /\ f = fpath_of p m v) /\
  (forall p x, In (p, x) ps -> is_obj x = true \/ x = JNull).
Proof.
  induction ps as [|[p x] ps IH]; intros ff Ho H; cbn [items_of] in H.
  - injection H as <-. split; [|easy]. intro f. split; [easy|]. intros (p & m & v & mm & [] & _).
  - apply bind_ok in H as (mx & Hm & H). apply bind_ok in H as (ff' & Hf & H). injection H as <-.
    destruct (IH ff' Ho Hf) as [A B]. split.
    + intro f. rewrite in_app_iff, A, in_map_iff. split.
      * intros [([m v] & <- & Hin)|(p' & m & v & mm & H1 & H2 & ->)].
        -- apply (Permutation_in _ (Ho [p] mx)) in Hin. destruct (c_children_some _ _ Hm) as [-> |[-> ->]]; [|destruct Hin].
           exists p, m, v, mx. split; [now left|]. auto.
        -- exists p', m, v, mm. split; [now right|]. auto.
      * intros (p' & m & v & mm & [E|H1] & H2 & ->).
        -- injection E as -> ->. cbn in Hm. injection Hm as <-. left. exists (m, v). split; [reflexivity|]. apply (Permutation_in _ (Permutation_sym (Ho [p'] mm)) H2).
        -- right. exists p', m, v, mm. auto.
    + intros p' x' [E|Hin]; [|eauto]. injection E as -> ->. destruct (c_children_some _ _ Hm) as [-> |[-> _]]; auto.
Qed.
Lemma items_nodup (ordm : morder) ps : forall ff, perm_oracle ordm -> NoDup (map fst ps) -> (forall p x, In (p, x) ps -> wf x) ->
  items_of ordm ps = Ok ff -> NoDup (map meta ff).
Proof.
  induction ps as [|[p x] ps IH]; intros ff Ho Hn Hw H; cbn [items_of] in H.
  - injection H as <-. constructor.
  - apply bind_ok in H as (mx & Hm & H). apply bind_ok in H as (ff' & Hf & H). injection H as <-. inversion Hn as [|? ? N Hn']; subst.
    rewrite map_app, map_map. apply NoDup_app.
    + assert (NoDup (map fst mx)).
      { destruct (c_children_some _ _ Hm) as [-> |[_ ->]]; [|constructor]. apply sorted_nodup. eapply wf_sorted, Hw. now left. }
      apply (Permutation_NoDup (Permutation_map fst (Permutation_sym (Ho [p] mx)))) in H.
      revert H. generalize (ordm [p] mx). induction l as [|[m v] l IHl]; intro H; [constructor|]. cbn in *. inversion H as [|? ? N1 H1]; subst. constructor; [|auto].
      intro Hin. apply in_map_iff in Hin as ([m' v'] & E & Hin). unfold meta in E. cbn in E. injection E as ->. apply N1. apply in_map_iff. exists (m, v'). auto.
    + apply IH; auto. intros p' x' Hin. apply (Hw p' x'). now right.
    + intros e H1 H2. apply in_map_iff in H1 as ([m v] & <- & _). apply in_map_iff in H2 as (f & E & Hin).
      apply (proj1 (items_spec ordm ps ff' Ho Hf)) in Hin as (p' & m' & v' & mm & H1 & _ & ->). unfold meta in E. cbn in E. injection E as -> _.
      apply N. apply in_map_iff. exists (p, JObj mm). auto.
Qed.

Lemma paths_of_spec ordp (ordm : morder) doc ff : (forall l, Permutation (ordp l) l) -> perm_oracle ordm -> wf doc -> paths_of ordp ordm (Some doc) = Ok ff ->
  (forall p m v, op_at p m doc = Some v <-> In (fpath_of p m v) ff) /\
  (forall f, In f ff -> exists p m v, f = fpath_of p m v) /\ NoDup (map meta ff) /\ (ff = [] \/ shaped doc).
Proof.
  intros Hp Ho W H. unfold paths_of in H. apply bind_ok in H as (ps & Hps & H).
  destruct (items_spec ordm (ordp ps) ff Ho H) as [A B].
  assert (Hc : (exists d, doc = JObj d /\ oget "paths" d = Some (JObj ps)) \/ (ps = [] /\ forall p m, op_at p m doc = None)).
  { unfold c_children, c_path, c_search in Hps. change (dot_path "paths") with ["paths"] in Hps. cbn [c_data search] in Hps. unfold op_at.
    destruct doc as [| | | |l|d]; cbn in Hps; try (injection Hps as <-; right; split; reflexivity).
    destruct (oget "paths" d) as [j|] eqn:E; cbn in Hps.
    - destruct j; try discriminate; injection Hps as <-; [right | left]; [split; [reflexivity|]; intros; cbn; now rewrite E | eauto].
    - right. injection Hps as <-. split; [reflexivity|]. intros. cbn. now rewrite E. }
  assert (Form : forall f, In f ff -> exists p m v, f = fpath_of p m v) by (intros f Hf; apply A in Hf as (p & m & v & mm & _ & _ & ->); eauto).
  destruct Hc as [(d & -> & Hd)|[-> Hn]].
  - pose proof (wf_oget _ _ _ W Hd) as Wp.
    assert (Inp : forall p x, In (p, x) (ordp ps) <-> oget p ps = Some x).
    { intros p x. split.
      - intro Hin. apply (Permutation_in _ (Hp ps)) in Hin. apply sorted_in_oget; [exact (wf_sorted _ Wp) | exact Hin].
      - intro E. apply oget_in in E. exact (Permutation_in _ (Permutation_sym (Hp ps)) E). }
    split; [|split; [exact Form|split]].
    + intros p m v. rewrite A. unfold op_at. cbn [at_path]. rewrite Hd. cbn [at_path]. split.
      * destruct (oget p ps) as [[| | | | |mm]|] eqn:E; try discriminate. destruct (oget m mm) as [w|] eqn:E'; try discriminate. intros [= ->].
        exists p, m, v, mm. split; [now apply Inp|]. split; [now apply oget_in | reflexivity].
      * intros (p' & m' & v' & mm & H1 & H2 & E). unfold fpath_of in E. injection E as -> -> _ -> _. apply Inp in H1. rewrite H1.
        apply sorted_in_oget in H2; [now rewrite H2 | exact (wf_sorted _ (wf_oget _ _ _ Wp H1))].
    + eapply items_nodup; [exact Ho | | | exact H].
      * eapply Permutation_NoDup; [apply Permutation_map, Permutation_sym, Hp|]. apply sorted_nodup. exact (wf_sorted _ Wp).
      * intros p x Hin. apply Inp in Hin. eapply wf_oget; eassumption.
    + right. exists d, ps. split; [reflexivity|]. split; [exact Hd|]. intros p x E. apply (B p x). now apply Inp.
  - assert (ordp [] = []) as E by (specialize (Hp []); symmetry in Hp; now apply Permutation_nil in Hp). rewrite E in H. injection H as <-.
    split; [|split; [easy|split; [constructor | now left]]]. intros p m v. rewrite Hn. split; [discriminate | easy].
Qed.
Lemma entries_ok doc ff : wf doc -> fixed doc -> (forall p m v, op_at p m doc = Some v <-> In (fpath_of p m v) ff) ->
  (forall f, In f ff -> exists p m v, f = fpath_of p m v) -> Forall entry_ok ff.
Proof.
  intros W F A B. apply Forall_forall. intros f Hf. destruct (B f Hf) as (p & m & v & ->). apply A in Hf.
  split; [reflexivity|]. exists v. split; [reflexivity|]. unfold op_at in Hf. cbn [at_path] in Hf.
  destruct doc as [| | | | |d]; try discriminate. destruct (oget "paths" d) as [j|] eqn:E1; [|discriminate].
  pose proof (wf_oget _ _ _ W E1) as W1. pose proof (fixed_oget _ _ _ (wf_sorted _ W) F E1) as F1. cbn [at_path] in Hf.
  destruct j as [| | | | |pm]; try discriminate. destruct (oget p pm) as [j|] eqn:E2; [|discriminate].
  pose proof (wf_oget _ _ _ W1 E2) as W2. pose proof (fixed_oget _ _ _ (wf_sorted _ W1) F1 E2) as F2. cbn [at_path] in Hf.
  destruct j as [| | | | |mm]; try discriminate. destruct (oget m mm) as [j|] eqn:E3; [|discriminate]. injection Hf as ->.
  split; [exact (wf_oget _ _ _ W2 E3) | exact (fixed_oget _ _ _ (wf_sorted _ W2) F2 E3)].
Qed.
Lemma loop_nothing ord defs : forall n c, defaults_loop ord n defs (c, []) = Ok (c, []).
Proof. induction defs as [|[p o] defs IH]; intros n c; [reflexivity|]. cbn. apply IH. Qed.

(** ** C34 *)
Definition dotless (e : string * string) : Prop := has_char "." (fst e) = false /\ has_char "." (snd e) = false.
Lemma tl1_plain s : has_char "." s = false -> tl1 s = s.
Proof. intro H. unfold tl1. now apply (replace_all_absent "." "~1" s "."). Qed.
Definition inv34 (doc0 : json) (metas : list (string * string)) (doc : json) (fs : list fpath) : Prop :=
  map meta fs = metas /\ (forall f, In f fs -> op_at (fp_path f) (fp_method f) doc = Some (value f)) /\
  (forall q, (forall e, In e metas -> ~ is_prefix ["paths"; fst e; snd e] q) -> node_at q doc = node_at q doc0).
Lemma meta_step i f r loc fs : nth_error fs i = Some f -> map meta (map (detach loc) (set_nth i (updated f r) fs)) = map meta fs.
Proof.
  intro H. rewrite map_map. rewrite (map_ext _ meta) by (intro g; apply detach_meta). rewrite map_set_nth. change (meta (updated f r)) with (meta f).
  revert i H. induction fs as [|x fs IH]; intros [|i] H; cbn in *; try discriminate; [now injection H as -> | now rewrite IH].
Qed.
Lemma in_step i f r loc fs g : NoDup (map meta fs) -> nth_error fs i = Some f -> In g (map (detach loc) (set_nth i (updated f r) fs)) ->
  (meta g = meta f /\ value g = r) \/ (meta g <> meta f /\ exists g0, In g0 fs /\ meta g0 = meta g /\ value g0 = value g).
Proof.
  intros Hn Hi Hg. apply in_map_iff in Hg as (g1 & <- & Hg). destruct (detach_meta loc g1) as (M & _ & V). rewrite M. unfold value. rewrite V. fold (value g1).
  apply In_nth_error in Hg as [j Hj]. destruct (Nat.eq_dec i j) as [<-|N].
  - rewrite (set_nth_same _ _ _ _ Hi) in Hj. injection Hj as <-. left. split; reflexivity.
  - rewrite set_nth_other in Hj by exact N. right. split.
    + intro E. apply N. apply (proj1 (NoDup_nth_error (map meta fs)) Hn i j).
      * rewrite map_length. apply nth_error_Some. congruence.
      * rewrite !nth_error_map, Hi, Hj. cbn. now rewrite E.
    + exists g1. split; [eapply nth_error_In; exact Hj | auto].
Qed.
Lemma inv34_step doc0 metas i f r doc fs : NoDup metas -> Forall dotless metas -> good_doc doc -> inv34 doc0 metas doc fs -> nth_error fs i = Some f -> wf r -> fixed r ->
  inv34 doc0 metas (put (tl1 (fp_path f)) (tl1 (fp_method f)) r (if fp_in f then put (fp_path f) (fp_method f) r doc else doc))
       (map (detach ["paths"; tl1 (fp_path f); tl1 (fp_method f)]) (set_nth i (updated f r) fs)).
Proof.
  intros Hn Hd Hg (Hm & Ha & Hq) Hi Wr Fr. assert (Hin : In (meta f) metas) by (rewrite <- Hm; apply in_map; eapply nth_error_In; exact Hi).
  pose proof (proj1 (Forall_forall _ _) Hd _ Hin) as [D1 D2]. cbn in D1, D2. rewrite (tl1_plain _ D1), (tl1_plain _ D2).
  set (doc1 := if fp_in f then _ else doc). assert (Hg1 : good_doc doc1) by (unfold doc1; destruct (fp_in f); [now apply put_good | exact Hg]).
  assert (At : op_at (fp_path f) (fp_method f) doc = Some (value f)) by (apply Ha; eapply nth_error_In; exact Hi).
  split; [rewrite meta_step; auto|]. split.
  - intros g Hgin. rewrite put_at by apply Hg1. destruct (in_step i f r _ fs g ltac:(now rewrite Hm) Hi Hgin) as [[M V]|(M & g0 & G1 & G2 & G3)].
    + unfold meta in M. injection M as -> ->. now rewrite !String.eqb_refl, V.
    + assert (E : forall d, shaped d -> op_at (fp_path g) (fp_method g) (put (fp_path f) (fp_method f) r d) = op_at (fp_path g) (fp_method g) d).
      { intros d Sd. rewrite put_at by exact Sd. destruct (String.eqb_spec (fp_path g) (fp_path f)); [|reflexivity].
        destruct (String.eqb_spec (fp_method g) (fp_method f)); [|reflexivity]. exfalso. apply M. unfold meta. congruence. }
      pose proof (E doc1 ltac:(apply Hg1)) as E1. rewrite put_at in E1 by apply Hg1. rewrite E1.
      assert (op_at (fp_path g) (fp_method g) doc1 = op_at (fp_path g) (fp_method g) doc) as ->. { unfold doc1. destruct (fp_in f); [apply E, Hg | reflexivity]. }
      unfold meta in G2. injection G2 as <- <-. rewrite <- G3. now apply Ha.
  - intros q Nq. rewrite <- (Hq q Nq). specialize (Nq _ Hin). cbn [fst snd meta] in Nq.
    rewrite put_node; [|apply Hg1| |exact Nq].
    + unfold doc1. destruct (fp_in f); [|reflexivity]. apply put_node; [apply Hg | congruence | exact Nq].
    + unfold doc1. destruct (fp_in f); [|congruence]. rewrite put_at by apply Hg. rewrite !String.eqb_refl. discriminate.
Qed.

Theorem defaults_spec ordp (ordm : morder) ordd ord defops doc c' :
  (forall l, Permutation (ordp l) l) -> perm_oracle ordm -> (forall l, Permutation (ordd l) l) -> (forall n i, perm_oracle (ord n i)) ->
  wf doc -> fixed doc -> (forall p m v, operation p m doc v -> has_char "." p = false /\ has_char "." m = false) ->
  Forall ok_default defops -> set_paths_defaults ordp ordm ordd ord defops (Some doc) = Ok c' ->
  exists doc', c' = Some doc' /\
    (forall p m v, operation p m doc v -> exists v', operation p m doc' v' /\ with_defaults (chosen (p, m) (ordd defops)) v v') /\
    (forall q, (forall p m v, operation p m doc v -> ~ is_prefix ["paths"; p; m] q) -> node_at q doc' = node_at q doc).
Proof.
  intros Hp Hm Hd Ho W F Hdot Hdef H. unfold set_paths_defaults in H. apply bind_ok in H as (ff & Hff & H). apply bind_ok in H as (st & Hst & H). injection H as <-.
  destruct (paths_of_spec ordp ordm doc ff Hp Hm W Hff) as (A & B & C & D).
  destruct D as [-> | S].
  - rewrite loop_nothing in Hst. injection Hst as <-. exists doc. split; [reflexivity|]. split; [|reflexivity]. intros p m v Hop. apply A in Hop. destruct Hop.
  - pose proof (entries_ok doc ff W F A B) as He. set (metas := map meta ff) in *.
    assert (Hmd : Forall dotless metas). { apply Forall_forall. intros e Hin. apply in_map_iff in Hin as (f & <- & Hf). destruct (B f Hf) as (p & m & v & ->). apply A in Hf. exact (Hdot p m v Hf). }
    assert (Hdd : Forall ok_default (ordd defops)). { rewrite Forall_forall in Hdef |- *. intros x Hx. apply Hdef. eapply Permutation_in; [apply Hd | exact Hx]. }
    destruct (defaults_loop_spec ord (inv34 doc metas) Ho (fun o i f r d fs Hg _ HP Hi _ Wr Fr => inv34_step doc metas i f r d fs C Hmd Hg HP Hi Wr Fr)
      (ordd defops) 0 doc ff st Hdd (conj S (conj W F)) He) as (doc' & fs' & -> & Hg' & He' & (M' & A' & Q') & E); [|exact Hst|].
    { split; [reflexivity|]. split; [|reflexivity]. intros f Hf. destruct (B f Hf) as (p & m & v & ->). now apply A. }
    exists doc'. split; [reflexivity|]. split.
    + intros p m v Hop. apply A in Hop. apply In_nth_error in Hop as [i Hi].
      destruct (E i (p, m) v) as (v' & Hv' & Hw). { apply nth_view. exists (fpath_of p m v). split; [exact Hi | reflexivity]. }
      exists v'. split; [|exact Hw]. apply nth_view in Hv' as (f & Hf & [= E1 E2 ->]). unfold operation. rewrite E1, E2. apply A'. eapply nth_error_In; exact Hf.
    + intros q Nq. apply Q'. intros e Hin. apply in_map_iff in Hin as (f & <- & Hf). destruct (B f Hf) as (p & m & v & ->). apply A in Hf. exact (Nq p m v Hf).
Qed.

(** Defaults keep every leaf of an operation. *)
Lemma with_default_leaf o v r p x : with_default o v r -> is_obj v = true -> leaf_at p v x -> leaf_at p r x.
Proof. intros H Hv Hl. inversion H as [o' a r' M| |w Hw]; subst; try discriminate; [|congruence]. eapply merged_default_leaf; [exact M | exact Hl]. Qed.
Lemma with_default_obj o v r : with_default o v r -> is_obj v = true -> is_obj r = true.
Proof. intros H Hv. inversion H as [o' a r' M| |w Hw]; subst; try discriminate; [|congruence]. destruct (merged_objs _ _ _ _ M) as (_ & _ & c & _ & _ & ->). reflexivity. Qed.
Lemma with_defaults_leaf os v r p x : with_defaults os v r -> is_obj v = true -> leaf_at p v x -> leaf_at p r x.
Proof. induction 1 as [|o os v v1 v' H _ IH]; intros Hv Hl; [exact Hl|]. apply IH; [eapply with_default_obj; eassumption | eapply with_default_leaf; eassumption]. Qed.

(** ** when SetPathsDefaults succeeds *)
Definition applies (o : json) (v : json) : Prop := is_obj v = true \/ v = JNull \/ o = JObj [].
Lemma applies_step o v r o' : with_default o v r -> applies o' v -> applies o' r.
Proof.
  intros H [A|[A|A]]; [| |now (right; right)].
  - left. eapply with_default_obj; eassumption.
  - subst. inversion H; subst; unfold applies; auto.
Qed.
Lemma apply_defaults_total (ord : nat -> morder) o : (forall i, perm_oracle (ord i)) -> wf (JObj o) -> fixed (JObj o) -> op_keys o ->
  forall l doc fs, (forall i, In i l -> i < length fs) -> good_doc doc -> Forall entry_ok fs ->
  (forall i f, In i l -> nth_error fs i = Some f -> applies (JObj o) (value f)) ->
  exists st', apply_defaults ord (JObj o) l (Some doc, fs) = Ok st'.
Proof.
  intros Ho Wo Fo Hk l. induction l as [|i l IH]; intros doc fs Hlen Hg He Ha; [eexists; reflexivity|]. cbn [apply_defaults].
  destruct (nth_error fs i) as [f|] eqn:Hi; [|exfalso; apply nth_error_None in Hi; specialize (Hlen i (or_introl eq_refl)); lia].
  pose proof (proj1 (Forall_forall _ _) He f (nth_error_In _ _ Hi)) as Hf.
  destruct (apply_default_total (ord i) o i doc fs f (Ho i) Wo Fo Hk Hg Hf Hi) as [st1 E1].
  { destruct (Ha i f (or_introl eq_refl) Hi) as [X|[X|X]]; auto. right; right. congruence. }
  rewrite E1. cbn [bind]. destruct (apply_default_spec (ord i) o i doc fs f (Ho i) Wo Fo Hk Hg Hf Hi _ E1) as (r & Hw & Wr & Fr & ->).
  apply IH.
  - intros j Hj. rewrite map_length, set_nth_length. apply Hlen. now right.
  - apply put_good; auto. destruct (fp_in f); [now apply put_good | exact Hg].
  - now apply entry_ok_step.
  - intros j g Hj Hn. rewrite nth_error_map in Hn. destruct (Nat.eq_dec i j) as [<-|N].
    + rewrite (set_nth_same _ _ _ _ Hi) in Hn. injection Hn as <-. unfold value. rewrite (proj2 (proj2 (detach_meta _ _))). cbn [updated fp_op c_data].
      eapply applies_step; [exact Hw | apply (Ha i f); [now left | exact Hi]].
    + rewrite set_nth_other in Hn by exact N. destruct (nth_error fs j) as [g0|] eqn:Hj0; [|discriminate]. injection Hn as <-.
      unfold value. rewrite (proj2 (proj2 (detach_meta _ _))). apply (Ha j g0); [now right | exact Hj0].
Qed.
Lemma match_idx_total pattern fp : (forall f, In f fp -> exists b, route_match pattern (fp_method f) (fp_path f) = Ok b) -> forall i, exists l, match_idx pattern i fp = Ok l.
Proof.
  induction fp as [|x fp IH]; intros H i; [eexists; reflexivity|]. cbn [match_idx]. destruct (H x (or_introl eq_refl)) as [b ->]. cbn [bind].
  destruct (IH (fun f Hf => H f (or_intror Hf)) (S i)) as [l ->]. eexists. reflexivity.
Qed.
Lemma defaults_loop_total (ord : nat -> nat -> morder) : (forall n i, perm_oracle (ord n i)) ->
  forall defs n doc fs, Forall ok_default defs -> good_doc doc -> Forall entry_ok fs ->
  (forall kv f, In kv defs -> In f fs -> exists b, route_match (fst kv) (fp_method f) (fp_path f) = Ok b) ->
  (forall f o, In f fs -> In o (chosen (meta f) defs) -> applies o (value f)) ->
  exists st', defaults_loop ord n defs (Some doc, fs) = Ok st'.
Proof.
  intros Ho defs. induction defs as [|[pat ov] defs IH]; intros n doc fs Hd Hg He Hr Ha; [eexists; reflexivity|]. cbn [defaults_loop snd].
  inversion Hd as [|? ? (o & Eo & Wo & Fo & Ko) Hd']; subst. cbn [snd] in Eo. subst ov.
  destruct (match_idx_total pat fs (fun f Hf => Hr (pat, JObj o) f (or_introl eq_refl) Hf) 0) as [l Hl]. rewrite Hl. cbn [bind].
  destruct (match_idx_spec pat fs 0 l Hl) as (Nd & _ & Sel & Len). cbn [Nat.add] in *.
  assert (Ap : forall i f, In i l -> nth_error fs i = Some f -> applies (JObj o) (value f)).
  { intros i f Hin Hn. apply (Ha f (JObj o)); [eapply nth_error_In; exact Hn|]. apply (Sel i f Hn) in Hin. unfold chosen. cbn [filter fst]. rewrite Hin. now left. }
  destruct (apply_defaults_total (ord n) o (Ho n) Wo Fo Ko l doc fs Len Hg He Ap) as [st1 E1]. rewrite E1. cbn [bind].
  destruct (apply_defaults_spec (ord n) o (fun _ fs' => map meta fs' = map meta fs) (Ho n) Wo Fo Ko) with (l := l) (doc := doc) (fs := fs) (st' := st1)
    as (doc1 & fs1 & -> & A & B & C & D & E); auto.
  { intros i f r d fs0 _ _ HP Hi _ _ _. rewrite meta_step; auto. }
  apply IH; auto.
  - intros kv f Hkv Hf. apply (in_map meta) in Hf. rewrite C in Hf. apply in_map_iff in Hf as (f0 & M & Hf0).
    destruct (Hr kv f0 (or_intror Hkv) Hf0) as [b Hb]. exists b. unfold meta in M. injection M as <- <-. exact Hb.
  - intros f o' Hf Ho'. apply In_nth_error in Hf as [i Hi]. assert (Hv : nth_error (view fs1) i = Some (meta f, value f)) by (apply nth_view; eauto).
    assert (exists f0, nth_error fs i = Some f0) as [f0 Hf0]. { destruct (nth_error fs i) eqn:X; [eauto|]. apply nth_error_None in X. assert (i < length fs1) by (apply nth_error_Some; congruence). lia. }
    assert (Hv0 : nth_error (view fs) i = Some (meta f0, value f0)) by (apply nth_view; eauto).
    destruct (E i _ _ Hv0) as (v' & Hv' & Hd0). rewrite Hv in Hv'. assert (EM : meta f = meta f0) by congruence. assert (EV : value f = v') by congruence. pose proof (nth_error_In _ _ Hf0) as Hin0.
    assert (Ho0 : In o' (chosen (meta f0) ((pat, JObj o) :: defs))). { rewrite EM in Ho'. unfold chosen in *. cbn [filter fst]. destruct (selects pat (meta f0)); [now right | exact Ho']. }
    specialize (Ha f0 o' Hin0 Ho0). rewrite EV. destruct (existsb (Nat.eqb i) l); cbn in Hd0; [eapply applies_step; eassumption | now subst].
Qed.

Theorem defaults_total ordp (ordm : morder) ordd ord defops doc :
  (forall l, Permutation (ordp l) l) -> perm_oracle ordm -> (forall l, Permutation (ordd l) l) -> (forall n i, perm_oracle (ord n i)) ->
  shaped doc -> wf doc -> fixed doc -> Forall ok_default defops ->
  (forall pat o p m v, In (pat, o) defops -> operation p m doc v -> exists b, route_match pat m p = Ok b /\ (b = true -> is_obj v = true \/ v = JNull \/ o = JObj [])) ->
  exists c', set_paths_defaults ordp ordm ordd ord defops (Some doc) = Ok c'.
Proof.
  intros Hp Hm Hd Ho S W F Hdef Hr. unfold set_paths_defaults.
  assert (exists ff, paths_of ordp ordm (Some doc) = Ok ff) as [ff Hff].
  { destruct S as (d & pm & -> & E & Hi). unfold paths_of, c_path, c_search. change (dot_path "paths") with ["paths"]. cbn [search c_data]. rewrite E. cbn [c_children c_data bind].
    assert (Hall : forall p x, In (p, x) (ordp pm) -> is_obj x = true \/ x = JNull).
    { intros p x Hin. apply (Permutation_in _ (Hp pm)) in Hin. pose proof (wf_oget _ _ _ W E) as Wp. apply (sorted_in_oget _ _ _ (wf_sorted _ Wp)) in Hin. eapply Hi; exact Hin. }
    revert Hall. generalize (ordp pm). induction l as [|[p x] l IH]; intro Hall; [eexists; reflexivity|]. cbn [items_of].
    destruct IH as [ff Hff]; [intros; eapply Hall; right; eassumption|].
    destruct (Hall p x (or_introl eq_refl)) as [Hx| ->]; [destruct x; try discriminate Hx|]; cbn [c_children c_data bind]; rewrite Hff; eexists; reflexivity. }
  rewrite Hff. cbn [bind]. destruct (paths_of_spec ordp ordm doc ff Hp Hm W Hff) as (A & B & C & _).
  pose proof (entries_ok doc ff W F A B) as He.
  destruct (defaults_loop_total ord Ho (ordd defops) 0 doc ff) as [st' E]; auto.
  - rewrite Forall_forall in Hdef |- *. intros x Hx. apply Hdef. eapply Permutation_in; [apply Hd | exact Hx].
  - split; auto.
  - intros [pat o] f Hkv Hf. apply (Permutation_in _ (Hd _)) in Hkv. destruct (B f Hf) as (p & m & v & ->). apply A in Hf. destruct (Hr pat o p m v Hkv Hf) as (b & Hb & _). exists b. exact Hb.
  - intros f o Hf Hch. unfold chosen in Hch. apply in_map_iff in Hch as ([pat o'] & <- & Hin). apply filter_In in Hin as [Hin Hs]. cbn [fst snd] in *.
    apply (Permutation_in _ (Hd _)) in Hin. destruct (B f Hf) as (p & m & v & ->). apply A in Hf. destruct (Hr pat o' p m v Hin Hf) as (b & Hb & Hv).
    unfold selects, meta in Hs. cbn in Hs. rewrite Hb in Hs. exact (Hv Hs).
  - exists (fst st'). exact (f_equal (fun z => bind z (fun st => Ok (fst st))) E).
Qed.

(** ** C36 *)
Lemma with_defaults_scalar os v r : with_defaults os v r -> is_obj v = false -> v <> JNull -> Forall (fun o => o = JObj []) os.
Proof.
  induction 1 as [|o os v v1 v' H _ IH]; intros Hv Nv; [constructor|]. inversion H as [| |w Hw]; subst; try discriminate; try congruence.
  constructor; auto.
Qed.
Theorem defaults_scalar_fails ordp (ordm : morder) ordd ord defops doc pat o p m v c' :
  (forall l, Permutation (ordp l) l) -> perm_oracle ordm -> (forall l, Permutation (ordd l) l) -> (forall n i, perm_oracle (ord n i)) ->
  wf doc -> fixed doc -> Forall ok_default defops ->
  In (pat, o) defops -> o <> JObj [] -> route_match pat m p = Ok true -> operation p m doc v -> is_obj v = false -> v <> JNull ->
  set_paths_defaults ordp ordm ordd ord defops (Some doc) <> Ok c'.
Proof.
  intros Hp Hm Hd Ho W F Hdef Hin No Hr Hop Hv Nv H. unfold set_paths_defaults in H. apply bind_ok in H as (ff & Hff & H). apply bind_ok in H as (st & Hst & H). injection H as <-.
  destruct (paths_of_spec ordp ordm doc ff Hp Hm W Hff) as (A & B & C & D). apply A in Hop.
  destruct D as [-> | S]; [destruct Hop|]. pose proof (entries_ok doc ff W F A B) as He.
  assert (Hdd : Forall ok_default (ordd defops)). { rewrite Forall_forall in Hdef |- *. intros x Hx. apply Hdef. eapply Permutation_in; [apply Hd | exact Hx]. }
  destruct (defaults_loop_spec ord (fun _ _ => True) Ho ltac:(auto) (ordd defops) 0 doc ff st Hdd (conj S (conj W F)) He I Hst) as (doc' & fs' & _ & _ & _ & _ & E).
  apply In_nth_error in Hop as [i Hi]. destruct (E i (p, m) v) as (v' & _ & Hw). { apply nth_view. exists (fpath_of p m v). split; [exact Hi | reflexivity]. }
  apply with_defaults_scalar in Hw; auto. rewrite Forall_forall in Hw. apply No. apply Hw. unfold chosen. apply in_map_iff. exists (pat, o). split; [reflexivity|].
  apply filter_In. split; [exact (Permutation_in _ (Permutation_sym (Hd _)) Hin)|]. unfold selects. cbn [fst snd]. now rewrite Hr.
Qed.
(** The only outcomes are success and an error, provided routes can be matched in the model. *)
Definition ok_or_err {A} (r : res A) : Prop := match r with Ok _ | Err => True | _ => False end.
Lemma ok_or_err_bind {A B} (r : res A) (k : A -> res B) : ok_or_err r -> (forall a, r = Ok a -> ok_or_err (k a)) -> ok_or_err (bind r k).
Proof. destruct r; cbn; auto. Qed.
Lemma apply_default_outcome ord o i doc fs : perm_oracle ord -> wf (JObj o) -> fixed (JObj o) -> op_keys o -> good_doc doc -> Forall entry_ok fs ->
  ok_or_err (apply_default ord (JObj o) i (Some doc, fs)).
Proof.
  intros Ho Wo Fo Ko Hg He. destruct (nth_error fs i) as [f|] eqn:Hi; [|unfold apply_default; cbn [snd]; rewrite Hi; exact I].
  pose proof (proj1 (Forall_forall _ _) He f (nth_error_In _ _ Hi)) as Hf.
  assert (Dec : (is_obj (value f) = true \/ value f = JNull \/ o = []) \/ (is_obj (value f) = false /\ value f <> JNull /\ o <> [])).
  { destruct o; [auto|]. destruct (value f); cbn; auto; right; repeat split; discriminate. }
  destruct Dec as [X|(X & Y & Z)].
  - destruct (apply_default_total ord o i doc fs f Ho Wo Fo Ko Hg Hf Hi X) as [st' E]. refine (eq_ind_r ok_or_err _ E). exact I.
  - refine (eq_ind_r ok_or_err _ (apply_default_err ord o i (Some doc) fs f Ho Wo Fo Ko Z Hf Hi X Y)). exact I.
Qed.
Lemma apply_defaults_outcome (ord : nat -> morder) o : (forall i, perm_oracle (ord i)) -> wf (JObj o) -> fixed (JObj o) -> op_keys o ->
  forall l doc fs, (forall i, In i l -> i < length fs) -> good_doc doc -> Forall entry_ok fs -> ok_or_err (apply_defaults ord (JObj o) l (Some doc, fs)).
Proof.
  intros Ho Wo Fo Ko l. induction l as [|i l IH]; intros doc fs Hlen Hg He; [exact I|]. cbn [apply_defaults].
  apply ok_or_err_bind; [now apply apply_default_outcome|]. intros st1 E1.
  destruct (nth_error fs i) as [f|] eqn:Hi; [|exfalso; apply nth_error_None in Hi; specialize (Hlen i (or_introl eq_refl)); lia].
  pose proof (proj1 (Forall_forall _ _) He f (nth_error_In _ _ Hi)) as Hf.
  destruct (apply_default_spec (ord i) o i doc fs f (Ho i) Wo Fo Ko Hg Hf Hi _ E1) as (r & Hw & Wr & Fr & ->). apply IH.
  - intros j Hj. rewrite map_length, set_nth_length. apply Hlen. now right.
  - apply put_good; auto. destruct (fp_in f); [now apply put_good | exact Hg].
  - now apply entry_ok_step.
Qed.
Lemma match_idx_outcome pattern fp : (forall f, In f fp -> ok_or_err (route_match pattern (fp_method f) (fp_path f))) -> forall i, ok_or_err (match_idx pattern i fp).
Proof.
  induction fp as [|x fp IH]; intros H i; [exact I|]. cbn [match_idx]. apply ok_or_err_bind; [apply H; now left|]. intros b _.
  apply ok_or_err_bind; [apply IH; intros; apply H; now right|]. intros; exact I.
Qed.
Lemma defaults_loop_outcome (ord : nat -> nat -> morder) : (forall n i, perm_oracle (ord n i)) ->
  forall defs n doc fs, Forall ok_default defs -> good_doc doc -> Forall entry_ok fs ->
  (forall kv e, In kv defs -> In e (map meta fs) -> ok_or_err (route_match (fst kv) (snd e) (fst e))) ->
  ok_or_err (defaults_loop ord n defs (Some doc, fs)).
Proof.
  intros Ho defs. induction defs as [|[pat ov] defs IH]; intros n doc fs Hd Hg He Hr; [exact I|]. cbn [defaults_loop snd].
  inversion Hd as [|? ? (o & Eo & Wo & Fo & Ko) Hd']; subst. cbn [snd] in Eo. subst ov.
  apply ok_or_err_bind. { apply match_idx_outcome. intros f Hf. apply (Hr (pat, JObj o) (meta f)); [now left | now apply in_map]. }
  intros l Hl. destruct (match_idx_spec pat fs 0 l Hl) as (Nd & _ & Sel & Len). cbn [Nat.add] in *.
  apply ok_or_err_bind; [now apply apply_defaults_outcome|]. intros st1 E1.
  destruct (apply_defaults_spec (ord n) o (fun _ fs' => map meta fs' = map meta fs) (Ho n) Wo Fo Ko) with (l := l) (doc := doc) (fs := fs) (st' := st1)
    as (doc1 & fs1 & -> & A & B & C & D & E); auto.
  { intros i f r d fs0 _ _ HP Hi _ _ _. rewrite meta_step; auto. }
  apply IH; auto. intros kv e Hkv Hin. rewrite C in Hin. apply Hr; [now right | exact Hin].
Qed.
Theorem defaults_outcome ordp (ordm : morder) ordd ord defops doc :
  (forall l, Permutation (ordp l) l) -> perm_oracle ordm -> (forall l, Permutation (ordd l) l) -> (forall n i, perm_oracle (ord n i)) ->
  wf doc -> fixed doc -> Forall ok_default defops -> (forall pat o p m v, In (pat, o) defops -> operation p m doc v -> ok_or_err (route_match pat m p)) ->
  ok_or_err (set_paths_defaults ordp ordm ordd ord defops (Some doc)).
Proof.
  intros Hp Hm Hd Ho W F Hdef Hr. unfold set_paths_defaults. apply ok_or_err_bind.
  - unfold paths_of. apply ok_or_err_bind.
    + unfold c_children. destruct (c_data _); exact I.
    + intros ps _. generalize (ordp ps). induction l as [|[p x] l IH]; [exact I|]. cbn [items_of]. apply ok_or_err_bind; [unfold c_children; destruct (c_data _); exact I|].
      intros mx _. apply ok_or_err_bind; [exact IH|]. intros; exact I.
  - intros ff Hff. destruct (paths_of_spec ordp ordm doc ff Hp Hm W Hff) as (A & B & C & D). apply ok_or_err_bind; [|intros; exact I].
    destruct D as [-> | S]; [rewrite loop_nothing; exact I|]. apply defaults_loop_outcome; auto.
    + rewrite Forall_forall in Hdef |- *. intros x Hx. apply Hdef. eapply Permutation_in; [apply Hd | exact Hx].
    + split; auto.
    + eapply entries_ok; eassumption.
    + intros [pat o] e Hkv Hin. apply (Permutation_in _ (Hd _)) in Hkv. apply in_map_iff in Hin as (f & <- & Hf). destruct (B f Hf) as (p & m & v & ->). apply A in Hf. cbn. eapply Hr; eassumption.
Qed.

(** ** C35: a matched operation under a path containing a dot *)
Lemma tl1_no_dot s : has_char "." (tl1 s) = false.
Proof. unfold tl1. rewrite (replace1_subst "." "~1"). apply subst_no_char. reflexivity. Qed.
Definition target (e : string * string) : string * string := (tl1 (fst e), tl1 (snd e)).
Definition inv35 (p m : string) (i0 : nat) (touched : bool) (doc : json) (fs : list fpath) : Prop :=
  (exists f, nth_error fs i0 = Some f /\ meta f = (p, m) /\ fp_in f = true /\ op_at p m doc = Some (value f) /\
             (touched = true -> op_at (tl1 p) (tl1 m) doc = Some (value f))) /\
  (forall j g, j <> i0 -> nth_error fs j = Some g -> meta g <> (p, m) /\ target (meta g) <> target (p, m)).

Lemma detach_in loc f : op_loc f <> loc -> detach loc f = f.
Proof. intro N. unfold detach. destruct (list_eq_dec string_dec (op_loc f) loc); [contradiction | reflexivity]. Qed.
Lemma inv35_step p m i0 touched i f r doc fs : has_char "." p = true -> good_doc doc -> inv35 p m i0 touched doc fs -> nth_error fs i = Some f -> wf r -> fixed r ->
  inv35 p m i0 (touched || Nat.eqb i i0) (put (tl1 (fp_path f)) (tl1 (fp_method f)) r (if fp_in f then put (fp_path f) (fp_method f) r doc else doc))
       (map (detach ["paths"; tl1 (fp_path f); tl1 (fp_method f)]) (set_nth i (updated f r) fs)).
Proof.
  intros Hp Hg ((f0 & Hf0 & M0 & I0 & A0 & T0) & Oth) Hi Wr Fr.
  assert (Ntl : forall s, tl1 s <> p). { intros s E. pose proof (tl1_no_dot s). congruence. }
  set (doc1 := if fp_in f then _ else doc). assert (Hg1 : good_doc doc1) by (unfold doc1; destruct (fp_in f); [now apply put_good | exact Hg]).
  assert (Hnot : forall f', fp_path f' = p -> op_loc f' <> ["paths"; tl1 (fp_path f); tl1 (fp_method f)]).
  { intros f' E X. unfold op_loc in X. injection X as X _. apply (Ntl (fp_path f)). congruence. }
  split.
  - destruct (Nat.eq_dec i i0) as [-> | N].
    + assert (f = f0) by congruence. subst f0. exists (updated f r). unfold meta in M0. injection M0 as Mp Mm.
      assert (fp_path f = p) by exact Mp. assert (fp_method f = m) by exact Mm.
      split. { rewrite nth_error_map, (set_nth_same _ _ _ _ Hi). cbn [option_map]. rewrite detach_in; [reflexivity|]. apply Hnot. exact Mp. }
      split; [unfold meta; cbn; congruence|]. split; [exact I0|]. rewrite H, H0. split.
      * rewrite put_at by apply Hg1. destruct (String.eqb_spec p (tl1 p)) as [E|_]; [exfalso; now apply (Ntl p)|]. cbn [andb].
        unfold doc1. rewrite I0, H, H0. rewrite put_at by apply Hg. now rewrite !String.eqb_refl.
      * intros _. rewrite put_at by apply Hg1. now rewrite !String.eqb_refl.
    + exists f0. assert (N' : i0 <> i) by congruence. destruct (Oth i f N Hi) as [O1 O2]. unfold meta in M0. injection M0 as Mp Mm.
      split. { rewrite nth_error_map, set_nth_other by exact N. rewrite Hf0. cbn [option_map]. rewrite detach_in; [reflexivity | now apply Hnot]. }
      split; [unfold meta; congruence|]. split; [exact I0|].
      assert (Keep : forall a b, (a, b) <> meta f -> op_at a b doc1 = op_at a b doc).
      { intros a b Nab. unfold doc1. destruct (fp_in f); [|reflexivity]. rewrite put_at by apply Hg.
        destruct (String.eqb_spec a (fp_path f)); [|reflexivity]. destruct (String.eqb_spec b (fp_method f)); [|reflexivity]. exfalso. apply Nab. unfold meta. congruence. }
      split.
      * rewrite put_at by apply Hg1. destruct (String.eqb_spec p (tl1 (fp_path f))) as [E|_]; [exfalso; now apply (Ntl (fp_path f))|]. cbn [andb].
        rewrite Keep; [exact A0 | congruence].
      * intro Ht. assert (touched = true) as Ht'. { apply Nat.eqb_neq in N. rewrite N, orb_false_r in Ht. exact Ht. }
        rewrite put_at by apply Hg1.
        destruct (String.eqb (tl1 p) (tl1 (fp_path f)) && String.eqb (tl1 m) (tl1 (fp_method f))) eqn:E.
        { apply andb_true_iff in E as [E1 E2]. apply String.eqb_eq in E1, E2. exfalso. apply O2. unfold target, meta. cbn [fst snd]. now rewrite E1, E2. }
        rewrite Keep; [exact (T0 Ht')|]. intro E'. apply O2. rewrite <- E'. unfold target. cbn [fst snd]. f_equal; apply tl1_plain, tl1_no_dot.
  - intros j g Nj Hj. rewrite nth_error_map in Hj. destruct (nth_error (set_nth i (updated f r) fs) j) as [g1|] eqn:E; [|discriminate]. injection Hj as <-.
    rewrite (proj1 (detach_meta _ _)). destruct (Nat.eq_dec i j) as [<-|N].
    + rewrite (set_nth_same _ _ _ _ Hi) in E. injection E as <-. exact (Oth i f Nj Hi).
    + rewrite set_nth_other in E by exact N. exact (Oth j g1 Nj E).
Qed.
Lemma inv35_weaken p m i0 t doc fs : inv35 p m i0 true doc fs -> inv35 p m i0 t doc fs.
Proof. intros ((f & A & B & C & D & E) & O). split; [|exact O]. exists f. repeat split; auto. Qed.

(** The history of the target: touched once some selected index is i0. *)
Lemma apply_defaults_touch (ord : nat -> morder) o p m i0 : has_char "." p = true -> (forall i, perm_oracle (ord i)) -> wf (JObj o) -> fixed (JObj o) -> op_keys o ->
  forall l t doc fs st', (forall i, In i l -> i < length fs) -> good_doc doc -> Forall entry_ok fs -> inv35 p m i0 t doc fs ->
  apply_defaults ord (JObj o) l (Some doc, fs) = Ok st' ->
  exists doc' fs', st' = (Some doc', fs') /\ good_doc doc' /\ Forall entry_ok fs' /\ map meta fs' = map meta fs /\ inv35 p m i0 (t || existsb (Nat.eqb i0) l) doc' fs'.
Proof.
  intros Hp Ho Wo Fo Hk l. induction l as [|i l IH]; intros t doc fs st' Hlen Hg He HI H; cbn [apply_defaults] in H.
  - injection H as <-. exists doc, fs. cbn [existsb]. rewrite orb_false_r. split; [reflexivity|]. split; [exact Hg|]. split; [exact He|]. split; [reflexivity | exact HI].
  - apply bind_ok in H as (st1 & H1 & H).
    destruct (nth_error fs i) as [f|] eqn:Hi; [|exfalso; apply nth_error_None in Hi; specialize (Hlen i (or_introl eq_refl)); lia].
    pose proof (proj1 (Forall_forall _ _) He f (nth_error_In _ _ Hi)) as Hf.
    destruct (apply_default_spec (ord i) o i doc fs f (Ho i) Wo Fo Hk Hg Hf Hi _ H1) as (r & Hw & Wr & Fr & ->).
    set (doc1 := put _ _ r _) in H. set (fs1 := map _ _) in H.
    assert (L1 : forall j, In j l -> j < length fs1) by (intros j Hj; unfold fs1; rewrite map_length, set_nth_length; apply Hlen; now right).
    assert (G1 : good_doc doc1) by (unfold doc1; apply put_good; auto; destruct (fp_in f); [now apply put_good | exact Hg]).
    destruct (IH _ doc1 fs1 st' L1 G1 (entry_ok_step i f r _ fs He Hi Wr Fr) (inv35_step p m i0 t i f r doc fs Hp Hg HI Hi Wr Fr) H)
      as (doc' & fs' & -> & A & B & M & C).
    exists doc', fs'. split; [reflexivity|]. split; [exact A|]. split; [exact B|]. split; [rewrite M; now apply meta_step|]. cbn [existsb]. rewrite (Nat.eqb_sym i0 i), orb_assoc. exact C.
Qed.
Lemma defaults_loop_touch (ord : nat -> nat -> morder) p m i0 : has_char "." p = true -> (forall n i, perm_oracle (ord n i)) ->
  forall defs n t doc fs st', Forall ok_default defs -> good_doc doc -> Forall entry_ok fs -> inv35 p m i0 t doc fs ->
  defaults_loop ord n defs (Some doc, fs) = Ok st' ->
  exists doc' fs', st' = (Some doc', fs') /\ inv35 p m i0 (t || existsb (fun kv => selects (fst kv) (p, m)) defs) doc' fs'.
Proof.
  intros Hp Ho defs. induction defs as [|[pat ov] defs IH]; intros n t doc fs st' Hd Hg He HI H; cbn [defaults_loop] in H.
  - injection H as <-. exists doc, fs. cbn [existsb]. rewrite orb_false_r. auto.
  - inversion Hd as [|? ? (o & Eo & Wo & Fo & Ko) Hd']; subst. cbn [snd] in Eo. subst ov. cbn [snd] in H.
    apply bind_ok in H as (l & Hl & H). apply bind_ok in H as (st1 & H1 & H).
    destruct (match_idx_spec pat fs 0 l Hl) as (Nd & _ & Sel & Len). cbn [Nat.add] in *.
    destruct (apply_defaults_touch (ord n) o p m i0 Hp (Ho n) Wo Fo Ko l t doc fs st1 Len Hg He HI H1) as (doc1 & fs1 & -> & A & B & M & C).
    destruct (IH (S n) _ doc1 fs1 st' Hd' A B C H) as (doc' & fs' & -> & D). exists doc', fs'. split; [reflexivity|]. cbn [existsb fst].
    destruct HI as ((f & Hf & Mf & _) & _).
    assert (X : existsb (Nat.eqb i0) l = selects pat (p, m)).
    { apply Bool.eq_iff_eq_true. rewrite <- Mf, <- (Sel i0 f Hf). rewrite existsb_exists. split; [intros (j & Hj & Ej); apply Nat.eqb_eq in Ej as <-; exact Hj | intro; exists i0; rewrite Nat.eqb_refl; auto]. }
    rewrite <- X, orb_assoc. exact D.
Qed.
Theorem dotted_path_duplicated ordp (ordm : morder) ordd ord defops doc c' pat o p m a :
  (forall l, Permutation (ordp l) l) -> perm_oracle ordm -> (forall l, Permutation (ordd l) l) -> (forall n i, perm_oracle (ord n i)) ->
  wf doc -> fixed doc -> Forall ok_default defops ->
  In (pat, o) defops -> route_match pat m p = Ok true -> operation p m doc (JObj a) -> has_char "." p = true ->
  (forall p' m' v, operation p' m' doc v -> target (p', m') = target (p, m) -> (p', m') = (p, m)) ->
  set_paths_defaults ordp ordm ordd ord defops (Some doc) = Ok c' ->
  exists doc' v', c' = Some doc' /\ operation p m doc' v' /\ operation (replace_all "." "~1" p) (replace_all "." "~1" m) doc' v'.
Proof.
  intros Hp Hm Hd Ho W F Hdef Hin Hr Hop Hdot Huniq H. unfold set_paths_defaults in H. apply bind_ok in H as (ff & Hff & H). apply bind_ok in H as (st & Hst & H). injection H as <-.
  destruct (paths_of_spec ordp ordm doc ff Hp Hm W Hff) as (A & B & C & D). pose proof Hop as Hop0. apply A in Hop.
  destruct D as [-> | S]; [destruct Hop|]. pose proof (entries_ok doc ff W F A B) as He.
  assert (Hdd : Forall ok_default (ordd defops)). { rewrite Forall_forall in Hdef |- *. intros x Hx. apply Hdef. eapply Permutation_in; [apply Hd | exact Hx]. }
  apply In_nth_error in Hop as [i0 Hi].
  destruct (defaults_loop_touch ord p m i0 Hdot Ho (ordd defops) 0 false doc ff st Hdd (conj S (conj W F)) He) as (doc' & fs' & -> & ((f & _ & _ & _ & P1 & P2) & _)); [|exact Hst|].
  - split.
    + exists (fpath_of p m (JObj a)). split; [exact Hi|]. split; [reflexivity|]. split; [reflexivity|]. split; [exact Hop0 | discriminate].
    + intros j g Nj Hj. assert (Ng : meta g <> (p, m)).
      { intro E. apply Nj. apply (proj1 (NoDup_nth_error (map meta ff)) C j i0).
        - rewrite map_length. apply nth_error_Some. congruence.
        - rewrite !nth_error_map, Hi, Hj. cbn. now rewrite E. }
      split; [exact Ng|]. intro E. apply Ng. pose proof (nth_error_In _ _ Hj) as Hg. destruct (B g Hg) as (p' & m' & v & ->). apply A in Hg.
      change (meta (fpath_of p' m' v)) with (p', m') in *. eapply Huniq; eassumption.
  - exists doc', (value f). split; [reflexivity|]. split; [exact P1|]. apply P2. cbn [orb]. apply existsb_exists. exists (pat, o). split; [exact (Permutation_in _ (Permutation_sym (Hd _)) Hin)|].
    unfold selects. cbn [fst snd]. now rewrite Hr.
Qed.
