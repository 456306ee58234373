(** Facts about pointer texts. *)
From Coq Require Import String Ascii List Bool Arith ZArith Lia Permutation.
From Verif Require Import GoStr GoStrFacts Json JsonFacts Url Pointer Spec_Frag Spec_Ptr FragFacts.
Import ListNotations.
Local Open Scope string_scope.
Local Open Scope nat_scope.
Local Open Scope list_scope.

Lemma import_char_good c : import_char c = true ->
  should_escape EPath c = false /\ (Ascii.eqb "/" c = false -> should_escape EHost c = false) /\
  c <> "%"%char /\ (nat_of_ascii c <? 32) = false /\ (nat_of_ascii c =? 127) = false /\
  Ascii.eqb "?" c = false /\ Ascii.eqb "#" c = false /\ Ascii.eqb c ":" = false /\ Ascii.eqb "@" c = false /\
  Ascii.eqb "[" c = false /\ Ascii.eqb ":" c = false.
Proof.
  destruct c as [[] [] [] [] [] [] [] []]; intro H; try discriminate H; repeat split; intros; try reflexivity; discriminate.
Qed.

Lemma str_all_app p a b : str_all p (a +++ b) = str_all p a && str_all p b.
Proof. induction a as [|c a IH]; cbn; [reflexivity|]. now rewrite IH, andb_assoc. Qed.

Lemma unescape_char mode c r : c <> "%"%char ->
  unescape mode (String c r) =
  if (match mode with EHost | EZone => (nat_of_ascii c <? 128) && should_escape mode c | _ => false end) then None
  else option_map (String c) (unescape mode r).
Proof. intro H. destruct c as [[] [] [] [] [] [] [] []]; try reflexivity. exfalso. now apply H. Qed.

Lemma unescape_import mode s : mode <> EZone -> (mode = EHost -> has_char "/" s = false) -> str_all import_char s = true -> unescape mode s = Some s.
Proof.
  intro Nz. induction s as [|c s IH]; [reflexivity|]. cbn [str_all has_char]. intros Hm H. apply andb_true_iff in H as [Hc Hs].
  destruct (import_char_good c Hc) as (_ & HH & Hp & _). rewrite unescape_char by exact Hp.
  rewrite IH; [| intro E; specialize (Hm E); now apply orb_false_iff in Hm | exact Hs].
  destruct mode; try reflexivity; [|congruence]. rewrite HH by (specialize (Hm eq_refl); now apply orb_false_iff in Hm).
  now rewrite andb_false_r.
Qed.

Lemma escape_import mode s : mode = EPath \/ mode = EHost -> (mode = EHost -> has_char "/" s = false) -> str_all import_char s = true -> escape mode s = s.
Proof.
  intro Hm. induction s as [|c s IH]; [reflexivity|]. cbn [str_all escape has_char]. intros Hsl H. apply andb_true_iff in H as [Hc Hs].
  destruct (import_char_good c Hc) as (H1 & H2 & _).
  rewrite IH; [| intro E; specialize (Hsl E); now apply orb_false_iff in Hsl | exact Hs].
  destruct Hm as [->| ->]; [now rewrite H1|]. rewrite H2; [reflexivity|]. specialize (Hsl eq_refl). now apply orb_false_iff in Hsl.
Qed.

Lemma unescape_noperc s : has_char "%" s = false -> unescape EFragment s = Some s.
Proof.
  induction s as [|c s IH]; [reflexivity|]. cbn [has_char]. intro H. apply orb_false_iff in H as [Hc Hs].
  apply Ascii.eqb_neq in Hc. rewrite unescape_char by congruence. now rewrite (IH Hs).
Qed.

Lemma hex_roundtrip c : 
  hex_val (upper_hex (nat_of_ascii c / 16)) = Some (nat_of_ascii c / 16) /\
  hex_val (upper_hex (nat_of_ascii c mod 16)) = Some (nat_of_ascii c mod 16) /\
  ascii_of_nat (16 * (nat_of_ascii c / 16) + nat_of_ascii c mod 16) = c.
Proof. destruct c as [[] [] [] [] [] [] [] []]; repeat split. Qed.

Lemma unescape_escape_frag s : unescape EFragment (escape EFragment s) = Some s.
Proof.
  induction s as [|c s IH]; [reflexivity|]. cbn [escape]. destruct (should_escape EFragment c) eqn:E.
  - cbn [unescape]. destruct (hex_roundtrip c) as (-> & -> & H). cbv zeta. rewrite H, IH. reflexivity.
  - rewrite unescape_char.
    + now rewrite IH.
    + intros ->. discriminate E.
Qed.

Lemma import_no c s : import_char c = false -> str_all import_char s = true -> has_char c s = false.
Proof.
  intros Hc. induction s as [|d s IH]; [reflexivity|]. cbn. intro H. apply andb_true_iff in H as [Hd Hs].
  rewrite (IH Hs), orb_false_r. apply Ascii.eqb_neq. intros ->. congruence.
Qed.
Lemma import_no_ctl s : str_all import_char s = true -> has_ctl s = false.
Proof.
  induction s as [|d s IH]; [reflexivity|]. cbn [str_all has_ctl]. intro H. apply andb_true_iff in H as [Hd Hs].
  destruct (import_char_good d Hd) as (_ & _ & _ & -> & -> & _). now rewrite (IH Hs).
Qed.
Lemma import_no_colon s : str_all import_char s = true -> after_last_colon s = None.
Proof.
  induction s as [|d s IH]; [reflexivity|]. cbn [str_all after_last_colon]. intro H. apply andb_true_iff in H as [Hd Hs].
  rewrite (IH Hs). destruct (import_char_good d Hd) as (_ & _ & _ & _ & _ & _ & _ & -> & _). reflexivity.
Qed.

Lemma cut_slash_app s a b : cut_slash s = (a, b) -> s = a +++ b /\ (b = "" \/ has_prefix "/" b = true) /\ has_char "/" a = false.
Proof.
  revert a b; induction s as [|c s IH]; intros a b H; cbn in H; [injection H as <- <-; auto|].
  destruct (Ascii.eqb c "/") eqn:E.
  - injection H as <- <-. apply Ascii.eqb_eq in E as ->. split; [reflexivity|]. split; [now right | reflexivity].
  - destruct (cut_slash s) as [a' b'] eqn:E2. injection H as <- <-. destruct (IH _ _ eq_refl) as (H1 & H2 & H3).
    split; [cbn; congruence|]. split; [exact H2|]. cbn [has_char]. rewrite Ascii.eqb_sym, E. exact H3.
Qed.

Lemma cut_last_none c s : cut_last c s = None <-> has_char c s = false.
Proof.
  induction s as [|d s IH]; [split; reflexivity|]. cbn [cut_last has_char]. destruct (cut_last c s) as [[a b]|].
  - split; [discriminate|]. intro H. apply orb_false_iff in H as [_ H]. now apply IH in H.
  - rewrite (proj1 IH eq_refl), orb_false_r. destruct (Ascii.eqb c d); split; congruence.
Qed.
Definition go_url (h r : string) : url :=
  {| u_scheme := "go"; u_opaque := ""; u_user := None; u_host := h; u_path := r; u_rawpath := "";
     u_forcequery := false; u_query := ""; u_fragment := "" |}.

Lemma parse_go pkg h r : str_all import_char pkg = true -> cut_slash pkg = (h, r) ->
  parse_nofrag ("go://" +++ pkg) = Some (go_url h r).
Proof.
  intros Hi Hc. destruct (cut_slash_app _ _ _ Hc) as (E & _ & Hsl).
  assert (Hh : str_all import_char h = true /\ str_all import_char r = true).
  { rewrite E, str_all_app in Hi. now apply andb_true_iff in Hi. } destruct Hh as [Hh Hr].
  unfold parse_nofrag.
  assert (has_ctl ("go://" +++ pkg) = false) as -> by (cbn; now apply import_no_ctl).
  cbn [String.append String.eqb Ascii.eqb Bool.eqb].
  assert (getscheme (String "g" (String "o" (String ":" (String "/" (String "/" pkg))))) = Some ("go", String "/" (String "/" pkg))) as -> by reflexivity.
  assert (cut_char "?" (String "/" (String "/" pkg)) = None) as ->.
  { apply cut_char_none. cbn. now apply import_no. }
  cbn [has_prefix]. cbn [to_lower lower_char String.eqb Ascii.eqb Bool.eqb negb andb orb skipn_s is_upper in_range].
  change (Ascii.eqb "/" "/") with true. cbn [negb andb orb].
  rewrite Hc. unfold parse_authority. rewrite (proj2 (cut_last_none "@" h) (import_no "@"%char h eq_refl Hh)). unfold parse_host.
  assert (has_prefix "[" h = false) as ->.
  { destruct h as [|c h']; [reflexivity|]. cbn in Hh. apply andb_true_iff in Hh as [Hc' _].
    destruct (import_char_good c Hc') as (_ & _ & _ & _ & _ & _ & _ & _ & _ & Hb & _). cbn [has_prefix]. now rewrite Hb. }
  rewrite (import_no_colon h Hh), (unescape_import EHost h ltac:(discriminate) (fun _ => Hsl) Hh).
  unfold set_path. rewrite (unescape_import EPath r ltac:(discriminate) ltac:(discriminate) Hr), (escape_import EPath r (or_introl eq_refl) ltac:(discriminate) Hr), String.eqb_refl.
  reflexivity.
Qed.

Lemma string_go h r : has_char "/" h = false -> str_all import_char h = true -> str_all import_char r = true -> h +++ r <> "" ->
  (r = "" \/ has_prefix "/" r = true) -> url_string (go_url h r) = "go://" +++ h +++ r.
Proof.
  intros Hsl Hh Hr Hn Hp. unfold url_string, go_url, escaped_path. cbn [u_scheme u_opaque u_user u_host u_path u_rawpath u_forcequery u_query u_fragment].
  cbn [nonempty String.eqb negb andb orb has_user user_text]. cbn [String.append].
  rewrite (escape_import EHost h (or_intror eq_refl) (fun _ => Hsl) Hh), (escape_import EPath r (or_introl eq_refl) ltac:(discriminate) Hr).
  assert (Hs : (if String.eqb r "*" then "*" else r) = r).
  { destruct (String.eqb_spec r "*") as [->|]; [discriminate Hr | reflexivity]. }
  rewrite Hs. change (nonempty "go") with true. change (nonempty "") with false. cbn [orb].
  assert (nonempty h || nonempty r || false = true) as ->.
  { destruct h; [|reflexivity]. destruct r; [exfalso; now apply Hn | reflexivity]. }
  assert (nonempty r && negb (has_prefix "/" r) = false) as ->.
  { destruct Hp as [->| ->]; [reflexivity | apply andb_false_r]. }
  cbn [andb]. rewrite !app_nil_r_s. reflexivity.
Qed.

Lemma app_hash a f : str_all import_char a = true ->
  cut_char "#" ("go://" +++ a +++ "#" +++ f) = Some ("go://" +++ a, f).
Proof.
  intro H. change ("go://" +++ a +++ "#" +++ f) with ("go://" +++ (a +++ String "#" f)).
  rewrite <- (app_assoc_s "go://" a (String "#" f)). apply cut_char_app. cbn. now apply import_no.
Qed.

(** A pointer whose URL names package [pkg]. *)
Definition in_package (pkg : string) (p : ptr) : Prop :=
  exists h r f, cut_slash pkg = (h, r) /\ p_url p = with_fragment f (go_url h r).

Lemma in_package_split pkg h r : import_path pkg -> cut_slash pkg = (h, r) ->
  pkg = h +++ r /\ str_all import_char h = true /\ str_all import_char r = true /\ (r = "" \/ has_prefix "/" r = true) /\ h +++ r <> "" /\ has_char "/" h = false.
Proof.
  intros [Hn Hi] Hc. destruct (cut_slash_app _ _ _ Hc) as (E & Hp & Hsl).
  rewrite E, str_all_app in Hi. apply andb_true_iff in Hi as [H1 H2]. rewrite E in Hn. repeat split; auto.
Qed.

Lemma ptr_string_go pkg p : import_path pkg -> in_package pkg p ->
  ptr_string p = "go://" +++ pkg +++ "#" +++ frag_string (p_frag p).
Proof.
  intros Hi (h & r & f & Hc & Hu). destruct (in_package_split _ _ _ Hi Hc) as (E & Hh & Hr & Hp & Hn & Hsl).
  unfold ptr_string. rewrite Hu. change (with_fragment "" (with_fragment f (go_url h r))) with (go_url h r).
  rewrite string_go by assumption. now rewrite E, !app_assoc_s.
Qed.

Lemma hostname_import h : str_all import_char h = true -> hostname h = h.
Proof.
  intro H. unfold hostname. rewrite (import_no_colon h H). cbv zeta. destruct h as [|c h]; [reflexivity|]. cbn [str_all] in H. apply andb_true_iff in H as [H _].
  destruct c as [[] [] [] [] [] [] [] []]; try discriminate H; reflexivity.
Qed.

Lemma pkg_path_go pkg p : import_path pkg -> in_package pkg p -> pkg_path p = pkg /\ u_scheme (p_url p) = "go" /\ is_external p = true.
Proof.
  intros Hi (h & r & f & Hc & Hu). destruct (in_package_split _ _ _ Hi Hc) as (E & Hh & Hr & _).
  unfold pkg_path, is_external. rewrite Hu. cbn [with_fragment u_host u_path u_scheme go_url]. rewrite hostname_import by exact Hh.
  repeat split. congruence.
Qed.

Lemma parse_go_frag pkg f f' fr : import_path pkg -> unescape EFragment f = Some f' -> parse_fragment f' = Ok fr ->
  exists p, ptr_parse ("go://" +++ pkg +++ "#" +++ f) = Ok p /\ in_package pkg p /\ p_frag p = fr /\ u_fragment (p_url p) = f'.
Proof.
  intros Hi Hf Hp. destruct (cut_slash pkg) as [h r] eqn:Hc. 
  unfold ptr_parse. cbn [String.append String.eqb Ascii.eqb Bool.eqb orb].
  change (String "g" (String "o" (String ":" (String "/" (String "/" (pkg +++ String "#" f)))))) with ("go://" +++ pkg +++ "#" +++ f).
  unfold url_parse. rewrite app_hash by apply Hi. rewrite (parse_go pkg h r) by (assumption || apply Hi).
  rewrite Hf. cbn [u_fragment with_fragment]. unfold new_fragment. rewrite Hp. cbn [bind].
  eexists. split; [reflexivity|]. split; [exists h, r, f'; auto|]. split; reflexivity.
Qed.

Lemma frag_string_no_perc f : Forall (fun t => has_char "%" t = false) f -> has_char "%" (frag_string f) = false.
Proof.
  induction 1 as [|t f Ht _ IH]; [reflexivity|]. cbn [frag_string]. rewrite escape_enc.
  cbn [String.append has_char]. cbn. rewrite has_char_app, IH, orb_false_r. clear - Ht.
  induction t as [|c t IH]; [reflexivity|]. cbn [has_char] in Ht. apply orb_false_iff in Ht as [Hc Ht].
  cbn [enc]. destruct (Ascii.eqb c "~"); [exact (IH Ht)|]. destruct (Ascii.eqb c "/"); [exact (IH Ht)|].
  cbn [has_char]. now rewrite Hc, IH.
Qed.

Theorem ptr_roundtrip pkg p : import_path pkg -> in_package pkg p -> Forall (fun t => has_char "%" t = false) (p_frag p) ->
  exists p', ptr_parse (ptr_string p) = Ok p' /\ in_package pkg p' /\ p_frag p' = p_frag p.
Proof.
  intros Hi Hin Hf. rewrite (ptr_string_go pkg p Hi Hin).
  destruct (parse_go_frag pkg (frag_string (p_frag p)) (frag_string (p_frag p)) (p_frag p) Hi) as (p' & H1 & H2 & H3 & _).
  - apply unescape_noperc, frag_string_no_perc, Hf.
  - apply frag_roundtrip.
  - eauto.
Qed.

Lemma app_hash_inj a b f g : has_char "#" a = false -> has_char "#" b = false -> a +++ String "#" f = b +++ String "#" g -> a = b /\ f = g.
Proof.
  intros Ha Hb H. pose proof (cut_char_app "#" a f Ha) as A. rewrite H, (cut_char_app "#" b g Hb) in A.
  injection A as -> ->. auto.
Qed.

Theorem ptr_string_inj pkg1 pkg2 p1 p2 : import_path pkg1 -> import_path pkg2 -> in_package pkg1 p1 -> in_package pkg2 p2 ->
  ptr_string p1 = ptr_string p2 -> pkg1 = pkg2 /\ p_frag p1 = p_frag p2.
Proof.
  intros I1 I2 H1 H2 E. rewrite (ptr_string_go pkg1 p1 I1 H1), (ptr_string_go pkg2 p2 I2 H2) in E.
  apply app_inj_l in E. apply app_hash_inj in E as [-> E].
  - split; [reflexivity|]. now apply frag_string_inj.
  - apply import_no; [reflexivity | apply I1].
  - apply import_no; [reflexivity | apply I2].
Qed.

Theorem ptr_clone_go pkg p : import_path pkg -> in_package pkg p -> exists p', ptr_clone p = Ok p' /\ p' = p.
Proof.
  intros Hi (h & r & f & Hc & Hu). destruct (in_package_split _ _ _ Hi Hc) as (E & Hh & Hr & Hp & Hn & Hsl).
  unfold ptr_clone. rewrite Hu.
  assert (url_string (with_fragment f (go_url h r)) = if nonempty f then "go://" +++ pkg +++ "#" +++ escape EFragment f else "go://" +++ pkg) as ->.
  { transitivity (url_string (go_url h r) +++ (if nonempty f then "#" +++ escape EFragment f else "")).
    - unfold url_string, with_fragment. cbn [u_scheme u_opaque u_user u_host u_path u_rawpath u_forcequery u_query u_fragment go_url].
      change (nonempty "") with false. cbn [orb negb andb]. 
      unfold escaped_path. cbn [u_rawpath u_path]. rewrite !app_assoc_s. cbn [String.append]. reflexivity.
    - rewrite string_go by assumption. rewrite <- E. destruct (nonempty f); [now rewrite app_assoc_s | apply app_nil_r_s]. }
  exists p. split; [|reflexivity]. destruct p as [u fr]. cbn [p_url p_frag] in *. subst u.
  unfold url_parse. destruct (nonempty f) eqn:Ef.
  - rewrite app_hash by apply Hi. rewrite (parse_go pkg h r) by (assumption || apply Hi). rewrite unescape_escape_frag. reflexivity.
  - destruct f; [|discriminate].
    assert (cut_char "#" ("go://" +++ pkg) = None) as ->.
    { apply cut_char_none. cbn. apply import_no; [reflexivity | apply Hi]. }
    rewrite (parse_go pkg h r) by (assumption || apply Hi). reflexivity.
Qed.

Theorem new_go_pointer_spec pkg path : import_path pkg -> has_char "%" path = false ->
  exists p, new_go_pointer pkg path = Ok p /\ in_package pkg p /\ p_frag p = map unescape_token (split_char "/" path).
Proof.
  intros Hi Hp. unfold new_go_pointer.
  change ("go://" +++ pkg +++ "#/" +++ path) with ("go://" +++ pkg +++ "#" +++ (String "/" path)).
  destruct (parse_go_frag pkg (String "/" path) (String "/" path) (map unescape_token (split_char "/" path)) Hi) as (p & H1 & H2 & H3 & _).
  - apply unescape_noperc. cbn. exact Hp.
  - reflexivity.
  - eauto.
Qed.

(** ** Sets of pointers *)
Definition assign (l acc : pointers) : pointers := fold_left (fun m kv => oset (fst kv) (snd kv) m) l acc.
Lemma assign_sorted l : forall acc, sorted acc -> sorted (assign l acc).
Proof. induction l as [|[k v] l IH]; intros acc H; cbn; [exact H|]. apply IH. now apply sorted_oset. Qed.
Lemma assign_get l : forall acc k, sorted acc -> NoDup (keys l) ->
  oget k (assign l acc) = match oget k l with Some v => Some v | None => oget k acc end.
Proof.
  induction l as [|[k0 v0] l IH]; intros acc k Hs Hn; cbn; [reflexivity|]. cbn in Hn. inversion Hn as [|? ? Hnin Hn']; subst.
  rewrite IH; [|now apply sorted_oset | exact Hn']. rewrite oget_oset by exact Hs.
  destruct (String.eqb_spec k k0) as [->|N]; [|reflexivity].
  assert (oget k0 l = None) as -> by (now apply oget_none). reflexivity.
Qed.

Theorem pointers_merge_get ord1 ord2 a b k : (forall l, Permutation (ord1 l) l) -> (forall l, Permutation (ord2 l) l) ->
  sorted a -> sorted b ->
  oget k (pointers_merge ord1 ord2 a b) = match oget k b with Some v => Some v | None => oget k a end.
Proof.
  intros H1 H2 Ha Hb. unfold pointers_merge. fold (assign (ord1 a) []).
  fold (assign (ord2 b) (assign (ord1 a) [])).
  assert (forall ord l, (forall l, Permutation (ord l) l) -> sorted l -> NoDup (keys (ord l)) /\ forall k, @oget ptr k (ord l) = oget k l) as G.
  { intros ord l Ho Hl. assert (NoDup (keys (ord l))) as HN.
    { apply (Permutation_NoDup (l := keys l)); [apply Permutation_map, Permutation_sym, Ho | now apply sorted_nodup]. }
    split; [exact HN|]. intro k'. symmetry. apply oget_perm; [apply Permutation_sym, Ho | now apply sorted_nodup]. }
  destruct (G ord2 b H2 Hb) as [N2 E2]. destruct (G ord1 a H1 Ha) as [N1 E1].
  rewrite assign_get; [|apply assign_sorted; exact I | exact N2].
  rewrite E2. rewrite assign_get; [|exact I | exact N1]. rewrite E1. cbn. now destruct (oget k b), (oget k a).
Qed.

Theorem new_pointers_get l : sorted (new_pointers l) /\
  (forall p, In p l -> exists q, oget (ptr_string p) (new_pointers l) = Some q /\ In q l /\ ptr_string q = ptr_string p) /\
  (forall k q, oget k (new_pointers l) = Some q -> In q l /\ ptr_string q = k).
Proof.
  unfold new_pointers.
  assert (G : forall l acc, sorted acc ->
    sorted (fold_left (fun m p => oset (ptr_string p) p m) l acc) /\
    (forall k, oget k acc <> None \/ (exists p, In p l /\ ptr_string p = k) -> oget k (fold_left (fun m p => oset (ptr_string p) p m) l acc) <> None) /\
    (forall k q, oget k (fold_left (fun m p => oset (ptr_string p) p m) l acc) = Some q ->
       (In q l /\ ptr_string q = k) \/ oget k acc = Some q)).
  { clear l. induction l as [|p l IH]; intros acc Hs; cbn; [split; [exact Hs|]; split; [intros k [H|[p [[] _]]]; exact H | auto]|].
    destruct (IH (oset (ptr_string p) p acc) (sorted_oset _ _ _ Hs)) as (I1 & I2 & I3). split; [exact I1|]. split.
    - intros k [H|(q & [->|Hq] & E)]; apply I2.
      + left. rewrite oget_oset by exact Hs. destruct (String.eqb k (ptr_string p)); [discriminate | exact H].
      + left. rewrite oget_oset by exact Hs. subst k. now rewrite String.eqb_refl.
      + right. eauto.
    - intros k q H. apply I3 in H as [[H E]|H]; [left; auto|].
      rewrite oget_oset in H by exact Hs. destruct (String.eqb_spec k (ptr_string p)) as [->|]; [|now right].
      injection H as ->. left. auto. }
  destruct (G l [] I) as (G1 & G2 & G3). split; [exact G1|]. split.
  - intros p Hp. destruct (oget (ptr_string p) (fold_left (fun m p => oset (ptr_string p) p m) l [])) as [q|] eqn:E.
    + exists q. split; [reflexivity|]. apply G3 in E as [E|E]; [exact E | discriminate].
    + exfalso. eapply (G2 (ptr_string p)); [right; eauto | exact E].
  - intros k q H. apply G3 in H as [H|H]; [exact H | discriminate].
Qed.


Lemma go_pointer_in pkg p : import_path pkg -> go_pointer pkg p -> in_package pkg p.
Proof.
  intros Hi (f & p0 & Hp & Hu). destruct (cut_slash pkg) as [h r] eqn:Hc.
  unfold ptr_parse in Hp. cbn [String.append String.eqb Ascii.eqb Bool.eqb orb] in Hp.
  change (String "g" (String "o" (String ":" (String "/" (String "/" (pkg +++ String "#" f)))))) with ("go://" +++ pkg +++ "#" +++ f) in Hp.
  unfold url_parse in Hp. rewrite app_hash in Hp by apply Hi. rewrite (parse_go pkg h r) in Hp by (assumption || apply Hi).
  destruct (unescape EFragment f) as [f'|]; [|discriminate].
  cbn [u_fragment with_fragment] in Hp. destruct (new_fragment f') as [fr| | |]; try discriminate. cbn [bind] in Hp.
  injection Hp as <-. exists h, r, f'. auto.
Qed.

Lemma in_package_go pkg p : import_path pkg -> in_package pkg p -> Forall (fun t => has_char "%" t = false) (p_frag p) ->
  forall p', ptr_parse (ptr_string p) = Ok p' -> go_pointer pkg p'.
Proof. intros Hi Hin _ p' Hp. exists (frag_string (p_frag p)), p'. rewrite <- (ptr_string_go pkg p Hi Hin). auto. Qed.

Theorem go_roundtrip pkg p : import_path pkg -> go_pointer pkg p -> Forall (fun t => has_char "%" t = false) (p_frag p) ->
  ptr_string p = "go://" +++ pkg +++ "#" +++ frag_string (p_frag p) /\
  u_scheme (p_url p) = "go" /\ is_external p = true /\ pkg_path p = pkg /\
  exists p', ptr_parse (ptr_string p) = Ok p' /\ p_frag p' = p_frag p /\
    u_scheme (p_url p') = "go" /\ pkg_path p' = pkg /\ go_pointer pkg p'.
Proof.
  intros Hi Hg Hf. pose proof (go_pointer_in pkg p Hi Hg) as Hin.
  split; [now apply ptr_string_go|]. destruct (pkg_path_go pkg p Hi Hin) as (H1 & H2 & H3).
  split; [exact H2|]. split; [exact H3|]. split; [exact H1|].
  destruct (ptr_roundtrip pkg p Hi Hin Hf) as (p' & P1 & P2 & P3). exists p'.
  destruct (pkg_path_go pkg p' Hi P2) as (Q1 & Q2 & Q3). repeat split; auto.
  exact (in_package_go pkg p Hi Hin Hf p' P1).
Qed.

Theorem go_string_inj pkg1 pkg2 p1 p2 : import_path pkg1 -> import_path pkg2 -> go_pointer pkg1 p1 -> go_pointer pkg2 p2 ->
  ptr_string p1 = ptr_string p2 -> pkg1 = pkg2 /\ p_frag p1 = p_frag p2.
Proof. intros I1 I2 G1 G2. apply ptr_string_inj; auto using go_pointer_in. Qed.

Theorem go_clone pkg p : import_path pkg -> go_pointer pkg p -> ptr_clone p = Ok p.
Proof. intros Hi Hg. destruct (ptr_clone_go pkg p Hi (go_pointer_in pkg p Hi Hg)) as (p' & H & ->). exact H. Qed.

Theorem go_new pkg path : import_path pkg -> has_char "%" path = false ->
  exists p, new_go_pointer pkg path = Ok p /\ go_pointer pkg p /\ pkg_path p = pkg /\
    p_frag p = map unescape_token (split_char "/" path).
Proof.
  intros Hi Hp. destruct (new_go_pointer_spec pkg path Hi Hp) as (p & H1 & H2 & H3). exists p.
  split; [exact H1|]. split; [|split; [apply (pkg_path_go pkg p Hi H2) | exact H3]].
  exists (String "/" path), p. split; [exact H1 | reflexivity].
Qed.
