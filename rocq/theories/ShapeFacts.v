(** Reading into the spec structs and writing from them. *)
From Coq Require Import String Ascii List Bool Arith ZArith Lia.
From Verif Require Import GoStr Json JsonFacts Gabs Container MergeFacts CloneFacts Url Pointer SchemaJson SchemaJsonFacts Spec_Loc Shape Spec_Shape.
Import ListNotations.
Local Open Scope string_scope.
Local Open Scope nat_scope.
Local Open Scope list_scope.

(** ** Fields *)
Lemma fields_known t : map (fun f => (f_name f, f_shape f)) (fields t) = known t.
Proof. destruct t; reflexivity. Qed.
Lemma fields_always t : map (fun f => (f_name f, match f_shape f with SText => JStr "" | SBool => JBool false | _ => JNull end)) (filter (fun f => negb (f_omit f)) (fields t)) = always t.
Proof. destruct t; reflexivity. Qed.
Fixpoint nodupb (l : list string) : bool := match l with [] => true | x :: r => negb (existsb (String.eqb x) r) && nodupb r end.
Lemma nodupb_ok l : nodupb l = true -> NoDup l.
Proof.
  induction l as [|x l IH]; intro H; [constructor|]. cbn in H. apply andb_true_iff in H as [H1 H2]. constructor; [|auto].
  intro I. apply negb_true_iff in H1. 
  assert (existsb (String.eqb x) l = true) by (apply existsb_exists; exists x; split; [exact I | apply String.eqb_refl]). congruence.
Qed.
Lemma fields_nodup t : NoDup (map to_lower (map f_name (fields t))).
Proof. apply nodupb_ok. destruct t; reflexivity. Qed.
Lemma fields_nodup' t : NoDup (map f_name (fields t)).
Proof. apply (NoDup_map_inv to_lower). apply fields_nodup. Qed.
Lemma nodup_map_inj {A B} (f : A -> B) l x y : NoDup (map f l) -> In x l -> In y l -> f x = f y -> x = y.
Proof.
  induction l as [|z l IH]; intros N Ix Iy E; [destruct Ix|]. cbn in N. inversion N as [|? ? N1 N2]; subst.
  destruct Ix as [->|Ix], Iy as [->|Iy]; auto.
  - exfalso. apply N1. rewrite E. now apply in_map.
  - exfalso. apply N1. rewrite <- E. now apply in_map.
Qed.
Lemma known_field t k s : In (k, s) (known t) <-> exists f, In f (fields t) /\ f_name f = k /\ f_shape f = s.
Proof.
  rewrite <- fields_known, in_map_iff. split.
  - intros (f & E & I). injection E as <- <-. eauto.
  - intros (f & I & <- & <-). eauto.
Qed.
Lemma known_fun t k s s' : In (k, s) (known t) -> In (k, s') (known t) -> s = s'.
Proof.
  rewrite !known_field. intros (f & I & E & <-) (g & I' & E' & <-). f_equal. apply (nodup_map_inj f_name (fields t)); [apply fields_nodup' | exact I | exact I' | congruence].
Qed.
Lemma field_of_spec t k f : field_of t k = Some f <-> In f (fields t) /\ same_name k (f_name f).
Proof.
  unfold field_of, same_name. assert (U : forall g, In f (fields t) -> In g (fields t) -> to_lower (f_name f) = to_lower (f_name g) -> f = g).
  { intros g If Ig E. pose proof (fields_nodup t) as N. rewrite map_map in N. exact (nodup_map_inj _ _ _ _ N If Ig E). }
  destruct (find (fun f0 => String.eqb (f_name f0) k) (fields t)) as [g|] eqn:E.
  - apply find_some in E as [Ig Eg]. apply String.eqb_eq in Eg. split.
    + intros [= <-]. split; [exact Ig | now subst].
    + intros [If Ef]. f_equal. symmetry. apply U; [exact If | exact Ig |]. now rewrite <- Ef, Eg.
  - destruct (find (fun f0 => equal_fold (f_name f0) k) (fields t)) as [g|] eqn:E2.
    + apply find_some in E2 as [Ig Eg]. unfold equal_fold in Eg. apply String.eqb_eq in Eg. split.
      * intros [= <-]. split; [exact Ig | now symmetry].
      * intros [If Ef]. f_equal. symmetry. apply U; [exact If | exact Ig |]. now rewrite <- Ef, Eg.
    + split; [discriminate|]. intros [If Ef]. pose proof (find_none _ _ E2 f If) as H. cbn in H. unfold equal_fold in H. rewrite Ef, String.eqb_refl in H. discriminate.
Qed.
Lemma find_name t f : In f (fields t) -> find (fun g => String.eqb (f_name g) (f_name f)) (fields t) = Some f.
Proof.
  intro I. destruct (find (fun g => String.eqb (f_name g) (f_name f)) (fields t)) as [g|] eqn:E.
  - apply find_some in E as [Ig Eg]. apply String.eqb_eq in Eg. f_equal. exact (nodup_map_inj _ _ _ _ (fields_nodup' t) Ig I Eg).
  - pose proof (find_none _ _ E f I) as H. cbn in H. rewrite String.eqb_refl in H. discriminate.
Qed.
Lemma omitted_spec t f v : In f (fields t) -> omitted t (f_name f) v = f_omit f && is_empty v.
Proof. intro I. unfold omitted. now rewrite find_name. Qed.

(** ** Lists of entries *)
Lemma oget_obj_of {A} k (l : list (string * A)) : oget k (obj_of l) = oget k l.
Proof.
  induction l as [|[k' v] l IH]; [reflexivity|]. unfold obj_of in *. cbn [fold_right fst snd oget].
  destruct (String.eqb_spec k k') as [->|N]; [apply oget_oset_same|]. rewrite oget_oset_other by congruence. exact IH.
Qed.
Lemma obj_of_sorted {A} (l : list (string * A)) : sorted (obj_of l).
Proof. induction l as [|[k v] l IH]; [exact Logic.I|]. unfold obj_of in *. cbn [fold_right]. now apply sorted_oset. Qed.
Lemma nodup_in_oget {A} k (v : A) l : NoDup (map fst l) -> In (k, v) l -> oget k l = Some v.
Proof.
  induction l as [|[k' v'] l IH]; intros N I; [destruct I|]. cbn in N. inversion N as [|? ? N1 N2]; subst. cbn [oget].
  destruct I as [[= -> ->]|I]; [now rewrite String.eqb_refl|]. destruct (String.eqb_spec k k') as [->|]; [|now apply IH].
  exfalso. apply N1. apply (in_map fst) in I. exact I.
Qed.
Lemma oget_some_in {A} k (v : A) l : oget k l = Some v -> In (k, v) l.
Proof. apply oget_in. Qed.

Section Codec.
Context (raw : json -> string) (big : Z -> option Z).
Local Notation decode := (decode raw big).

Definition each (of : string -> option shape) : list (string * json) -> res (list (string * gval)) :=
  fix go m := match m with
              | [] => Ok []
              | (k, x) :: r => match of k with Some s => do v <- decode x s ; do vs <- go r ; Ok ((k, v) :: vs) | None => go r end
              end.
Definition elems (s : shape) : list json -> res (list gval) :=
  fix go l := match l with [] => Ok [] | x :: r => do v <- decode x s ; do vs <- go r ; Ok (v :: vs) end.
Lemma dec_list l s : decode (JArr l) (SList s) = do vs <- elems s l ; Ok (GList vs). Proof. reflexivity. Qed.
Lemma dec_map m s : decode (JObj m) (SMap s) = do vs <- each (fun _ => Some s) m ; Ok (GMap vs). Proof. reflexivity. Qed.
Lemma dec_ptr m t : decode (JObj m) (SPtr t) = do vs <- each (fun k => option_map f_shape (field_of t k)) m ; Ok (assemble t vs). Proof. reflexivity. Qed.
Lemma dec_val m t : decode (JObj m) (SVal t) = do vs <- each (fun k => option_map f_shape (field_of t k)) m ; Ok (assemble t vs). Proof. reflexivity. Qed.
Lemma dec_call m : decode (JObj m) SCallback =
  do rs <- each (fun k => if is_ref_key k then Some SRef else None) m ;
  match last (map snd rs) GNil with
  | GRef p => Ok (GCallRef p)
  | _ => do vs <- each (fun _ => Some (SPtr TPathItem)) m ; Ok (GCallMap vs)
  end.
Proof. reflexivity. Qed.

Lemma each_in of m : forall vs, each of m = Ok vs ->
  (forall k x s, In (k, x) m -> of k = Some s -> exists v, In (k, v) vs /\ decode x s = Ok v) /\
  (forall k v, In (k, v) vs -> exists x s, In (k, x) m /\ of k = Some s /\ decode x s = Ok v) /\
  map fst vs = filter (fun k => match of k with Some _ => true | None => false end) (map fst m).
Proof.
  induction m as [|[k x] m IH]; intros vs H; cbn [each] in H.
  - injection H as <-. repeat split; intros; try contradiction.
  - cbn [map filter fst]. destruct (of k) as [s|] eqn:E.
    + apply bind_ok in H as (v & Hv & H). apply bind_ok in H as (vs' & Hvs & H). injection H as <-.
      destruct (IH _ Hvs) as (A & B & C). split; [|split].
      * intros k' x' s' [[= <- <-]|I] Es; [rewrite E in Es; injection Es as <-; exists v; split; [now left | exact Hv]|].
        destruct (A _ _ _ I Es) as (w & Iw & Hw). exists w. split; [now right | exact Hw].
      * intros k' w [[= <- <-]|I]; [exists x, s; split; [now left | auto]|]. destruct (B _ _ I) as (x' & s' & Ix & R). exists x', s'. split; [now right | exact R].
      * cbn. now rewrite C.
    + destruct (IH _ H) as (A & B & C). split; [|split; [|exact C]].
      * intros k' x' s' [[= <- <-]|I] Es; [congruence|]. eauto.
      * intros k' w I. destruct (B _ _ I) as (x' & s' & Ix & R). exists x', s'. split; [now right | exact R].
Qed.
Lemma each_total of m : (forall k x s, In (k, x) m -> of k = Some s -> exists v, decode x s = Ok v) -> exists vs, each of m = Ok vs.
Proof.
  induction m as [|[k x] m IH]; intro H; [now exists []|]. destruct IH as (vs & Hvs); [intros k' x' s' I; apply H; now right|].
  cbn [each]. destruct (of k) as [s|] eqn:E; [|eauto]. destruct (H k x s (or_introl eq_refl) E) as (v & ->). cbn [bind]. rewrite Hvs. cbn [bind]. eauto.
Qed.
Lemma elems_ok s l : forall vs, elems s l = Ok vs -> Forall2 (fun x v => decode x s = Ok v) l vs.
Proof.
  induction l as [|x l IH]; intros vs H; cbn [elems] in H; [injection H as <-; constructor|].
  apply bind_ok in H as (v & Hv & H). apply bind_ok in H as (vs' & Hvs & H). injection H as <-. constructor; auto.
Qed.
Lemma elems_total s l : (forall x, In x l -> exists v, decode x s = Ok v) -> exists vs, elems s l = Ok vs.
Proof.
  induction l as [|x l IH]; intro H; [now exists []|]. destruct IH as (vs & Hvs); [intros; apply H; now right|].
  destruct (H x (or_introl eq_refl)) as (v & Hv). cbn [elems]. rewrite Hv. cbn [bind]. rewrite Hvs. cbn [bind]. eauto.
Qed.

(** ** Writing *)
Definition enc_list : list gval -> res (list json) :=
  fix go l := match l with [] => Ok [] | x :: r => do j <- encode x ; do js <- go r ; Ok (j :: js) end.
Definition enc_map : list (string * gval) -> res (list (string * json)) :=
  fix go l := match l with [] => Ok [] | (k, x) :: r => do j <- encode x ; do js <- go r ; Ok ((k, j) :: js) end.
Definition emit (t : ty) : list (string * gval) -> res (list (string * json)) :=
  fix go l := match l with
              | [] => Ok []
              | (k, x) :: r => if omitted t k x then go r else do j <- encode x ; do js <- go r ; Ok ((k, j) :: js)
              end.
Lemma enc_glist l : encode (GList l) = do js <- enc_list l ; Ok (JArr js). Proof. reflexivity. Qed.
Lemma enc_gmap m : encode (GMap m) = do js <- enc_map m ; Ok (JObj (obj_of js)). Proof. reflexivity. Qed.
Lemma enc_gcall m : encode (GCallMap m) = do js <- enc_map m ; Ok (JObj (obj_of js)). Proof. reflexivity. Qed.
Lemma enc_struct t l : encode (GStruct t l) = do js <- emit t l ; Ok (JObj (obj_of js)). Proof. reflexivity. Qed.
Lemma entries_map m : entries (GMap m) = enc_map m. Proof. reflexivity. Qed.

Lemma enc_list_ok l : forall js, enc_list l = Ok js -> Forall2 (fun v j => encode v = Ok j) l js.
Proof.
  induction l as [|x l IH]; intros js H; cbn [enc_list] in H; [injection H as <-; constructor|].
  apply bind_ok in H as (j & Hj & H). apply bind_ok in H as (js' & Hjs & H). injection H as <-. constructor; auto.
Qed.
Lemma enc_map_ok l : forall js, enc_map l = Ok js -> Forall2 (fun v j => fst v = fst j /\ encode (snd v) = Ok (snd j)) l js.
Proof.
  induction l as [|[k x] l IH]; intros js H; cbn [enc_map] in H; [injection H as <-; constructor|].
  apply bind_ok in H as (j & Hj & H). apply bind_ok in H as (js' & Hjs & H). injection H as <-. constructor; auto.
Qed.
Lemma enc_map_get l js k : enc_map l = Ok js ->
  match oget k l with Some v => exists j, encode v = Ok j /\ oget k js = Some j | None => oget k js = None end.
Proof.
  intro H. apply enc_map_ok in H. induction H as [|[k' v] [k2 j] l js [E1 E2] _ IH]; [reflexivity|]. cbn [fst snd] in *. subst k2. cbn [oget].
  destruct (String.eqb k k'); [eauto | exact IH].
Qed.
Lemma emit_get t l : forall js, emit t l = Ok js -> NoDup (map fst l) -> forall k,
  match oget k l with
  | Some v => if omitted t k v then oget k js = None else exists j, encode v = Ok j /\ oget k js = Some j
  | None => oget k js = None
  end.
Proof.
  induction l as [|[k' v] l IH]; intros js H N k; cbn [emit] in H; [injection H as <-; reflexivity|].
  cbn in N. inversion N as [|? ? N1 N2]; subst. cbn [oget].
  assert (Nk' : oget k' l = None). { destruct (oget k' l) as [w|] eqn:E; [|reflexivity]. apply oget_in in E. exfalso. apply N1. apply (in_map fst) in E. exact E. }
  destruct (omitted t k' v) eqn:O.
  - specialize (IH _ H N2 k). destruct (String.eqb_spec k k') as [->|]; [rewrite O; rewrite Nk' in IH; exact IH | exact IH].
  - apply bind_ok in H as (j & Hj & H). apply bind_ok in H as (js' & Hjs & H). injection H as <-. specialize (IH _ Hjs N2 k). cbn [oget].
    destruct (String.eqb_spec k k') as [->|]; [rewrite O; eauto | exact IH].
Qed.
Lemma assemble_get t vs k : oget k (map (fun f => (f_name f, last_for t (f_name f) vs (zero_of (f_shape f)))) (fields t)) =
  match find (fun f => String.eqb (f_name f) k) (fields t) with Some f => Some (last_for t k vs (zero_of (f_shape f))) | None => None end.
Proof.
  induction (fields t) as [|f l IH]; [reflexivity|]. cbn [map oget find]. rewrite String.eqb_sym.
  destruct (String.eqb_spec (f_name f) k) as [->|]; [reflexivity | exact IH].
Qed.
Lemma last_for_spec t k vs : forall d,
  (exists k0 f, In (k0, last_for t k vs d) vs /\ field_of t k0 = Some f /\ f_name f = k) \/
  (last_for t k vs d = d /\ forall k0 v f, In (k0, v) vs -> field_of t k0 = Some f -> f_name f <> k).
Proof.
  induction vs as [|[k0 v] vs IH]; intro d; [right; split; [reflexivity | intros ? ? ? []]|]. cbn [last_for].
  destruct (field_of t k0) as [f|] eqn:E.
  - destruct (String.eqb_spec (f_name f) k) as [En|Nn].
    + left. destruct (IH v) as [(k1 & g & I & R)|[Eq _]]; [exists k1, g; split; [now right | exact R]|].
      exists k0, f. split; [left; now rewrite Eq | auto].
    + destruct (IH d) as [(k1 & g & I & R)|[Eq Nx]]; [left; exists k1, g; split; [now right | exact R]|].
      right. split; [exact Eq|]. intros k1 w g [[= <- <-]|I] Eg; [rewrite E in Eg; injection Eg as <-; exact Nn | exact (Nx _ _ _ I Eg)].
  - destruct (IH d) as [(k1 & g & I & R)|[Eq Nx]]; [left; exists k1, g; split; [now right | exact R]|].
    right. split; [exact Eq|]. intros k1 w g [[= <- <-]|I] Eg; [congruence | exact (Nx _ _ _ I Eg)].
Qed.

(** What a struct reads and writes, member by member. *)
Lemma struct_get t m vs j' : each (fun k => option_map f_shape (field_of t k)) m = Ok vs -> encode (assemble t vs) = Ok j' ->
  exists m', j' = JObj m' /\ sorted m' /\
    (forall k w, oget k m' = Some w -> exists f, In f (fields t) /\ f_name f = k) /\
    forall f, In f (fields t) ->
      exists w, ((exists k0 x, In (k0, x) m /\ same_name k0 (f_name f) /\ decode x (f_shape f) = Ok w) \/
                 (w = zero_of (f_shape f) /\ forall k0 x, In (k0, x) m -> ~ same_name k0 (f_name f))) /\
      if f_omit f && is_empty w then oget (f_name f) m' = None else exists j, encode w = Ok j /\ oget (f_name f) m' = Some j.
Proof.
  intros Hv He. unfold assemble in He. rewrite enc_struct in He. apply bind_ok in He as (js & Hjs & He). injection He as <-.
  exists (obj_of js). split; [reflexivity|]. split; [apply obj_of_sorted|].
  assert (N : NoDup (map fst (map (fun f => (f_name f, last_for t (f_name f) vs (zero_of (f_shape f)))) (fields t)))) by (rewrite map_map; exact (fields_nodup' t)).
  split.
  - intros k w. rewrite oget_obj_of. intro E. pose proof (emit_get _ _ _ Hjs N k) as G. rewrite assemble_get in G.
    destruct (find (fun f => String.eqb (f_name f) k) (fields t)) as [f|] eqn:Ef; [|congruence]. apply find_some in Ef as [If Ef]. apply String.eqb_eq in Ef. eauto.
  - intros f If. pose proof (emit_get _ _ _ Hjs N (f_name f)) as G. rewrite assemble_get, (find_name _ _ If) in G. rewrite oget_obj_of.
    rewrite omitted_spec in G by exact If. exists (last_for t (f_name f) vs (zero_of (f_shape f))). split; [|exact G].
    destruct (each_in _ _ _ Hv) as (A & B & _). destruct (last_for_spec t (f_name f) vs (zero_of (f_shape f))) as [(k0 & g & I & Eg & En)|[Eq Nx]].
    + left. destruct (B _ _ I) as (x & s & Ix & Es & Hx). rewrite Eg in Es. injection Es as <-. apply field_of_spec in Eg as [Ig Sg].
      assert (g = f) as -> by exact (nodup_map_inj _ _ _ _ (fields_nodup' t) Ig If En). eauto.
    + right. split; [exact Eq|]. intros k0 x Ix Sn. assert (Ef : field_of t k0 = Some f) by (apply field_of_spec; auto).
      destruct (A k0 x (f_shape f) Ix) as (v & Iv & _); [now rewrite Ef|]. exact (Nx _ _ _ Iv Ef eq_refl).
Qed.
End Codec.
