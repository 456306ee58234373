(** Proofs about servers, responses and log levels. *)
From Coq Require Import String Ascii List Bool Arith Lia Permutation Sorted.
From Verif Require Import GoStr GoStrFacts Json JsonFacts Url Slices SpecUtil Spec_SpecUtil Pkgs Spec_Pkgs PkgFacts.
Import ListNotations.
Local Open Scope string_scope.
Local Open Scope nat_scope.
Local Open Scope list_scope.

Lemma le_lt_eq a b : string_le a b -> a = b \/ String.compare a b = Lt.
Proof.
  unfold string_le. intro H. destruct (String.compare a b) eqn:E; [left; now apply scmp_eq | now right |].
  rewrite String.compare_antisym, E in H. now elim H.
Qed.

Lemma drop_repeats_spec l : forall p, StronglySorted string_le (p :: l) ->
  StronglySorted (fun a b => String.compare a b = Lt) (p :: drop_repeats p l) /\ (forall x, In x (p :: drop_repeats p l) <-> In x (p :: l)).
Proof.
  induction l as [|x r IH]; intros p H; cbn [drop_repeats].
  - split; [repeat constructor | tauto].
  - inversion H as [|? ? Hs Hf]; subst. inversion Hf as [|? ? Hpx Hpr]; subst.
    destruct (IH x Hs) as (S1 & I1). destruct (String.eqb p x) eqn:E.
    + apply String.eqb_eq in E as ->. split; [exact S1|]. intro y. rewrite I1. cbn [In]. tauto.
    + apply String.eqb_neq in E. split.
      * constructor; [exact S1|]. apply Forall_forall. intros y Hy. apply I1 in Hy.
        assert (K : String.compare p x = Lt) by (destruct (le_lt_eq _ _ Hpx) as [->|K]; [now elim E | exact K]).
        cbn [In] in Hy. destruct Hy as [->|Hy]; [exact K|].
        inversion Hs as [|? ? Hs2 Hf2]; subst. rewrite Forall_forall in Hf2. destruct (le_lt_eq _ _ (Hf2 y Hy)) as [->|K2]; [exact K|].
        exact (scmp_trans p x y K K2).
      * intro y. specialize (I1 y). cbn [In] in *. tauto.
Qed.

Lemma remove_duplicates_spec srt a : is_string_sort srt -> lists (remove_duplicates srt a) (fun x => In x a).
Proof.
  intro H. unfold remove_duplicates. destruct (length a <=? 1) eqn:E.
  - apply Nat.leb_le in E. split; [|tauto]. destruct a as [|x [|y r]]; cbn in E; [constructor | repeat constructor | lia].
  - destruct (H a) as (P & S). destruct (srt a) as [|x r] eqn:Es.
    + apply Permutation_nil in P. subst a. discriminate.
    + destruct (drop_repeats_spec r x S) as (S1 & I1). split; [exact S1|]. intro y. rewrite I1.
      split; apply Permutation_in; [exact P | now apply Permutation_sym].
Qed.

Lemma lists_ext l P Q : (forall x, P x <-> Q x) -> lists l P -> lists l Q.
Proof. intros H (S & I). split; [exact S|]. intro x. now rewrite I. Qed.
Lemma lists_head l P x0 : lists l P -> P x0 -> smallest (nth 0 l "") P.
Proof.
  intros (S & I) H. destruct l as [|y r]; [now apply I in H|]. cbn [nth]. split; [apply I; now left|].
  intros z Hz. apply I in Hz as [->|Hz]; [now left | right]. inversion S as [|? ? _ F]; subst. rewrite Forall_forall in F. now apply F.
Qed.

Lemma gather_spec uris : forall hosts ports paths,
  match gather uris hosts ports paths with
  | Ok (h, p, q) =>
      Forall (fun v => url_parse v <> None) uris /\
      (forall x, In x h <-> In x hosts \/ exists v u, In v uris /\ url_parse v = Some u /\ hostname (u_host u) = x /\ x <> "") /\
      (forall x, In x p <-> In x ports \/ exists v u, In v uris /\ url_parse v = Some u /\ port_of (u_host u) <> "" /\ x = ":" +++ port_of (u_host u)) /\
      (forall x, In x q <-> In x paths \/ exists v u, In v uris /\ url_parse v = Some u /\ u_path u = x /\ x <> "")
  | Err => exists v, In v uris /\ url_parse v = None
  | _ => False
  end.
Proof.
  induction uris as [|v r IH]; intros hosts ports paths; cbn [gather].
  - split; [constructor|]. split; [|split]; intro x; (split; [now left | intros [H|(? & ? & [] & _)]; exact H]).
  - destruct (url_parse v) as [u|] eqn:E; [|exists v; split; [now left | exact E]].
    match goal with |- context [gather r ?a ?b ?c] => specialize (IH a b c); destruct (gather r a b c) as [((h, p), q)| | |] end; [|destruct IH as (w & Hw & Ew); exists w; split; [now right | exact Ew] | exact IH | exact IH].
    destruct IH as (F & Ih & Ip & Iq). split; [constructor; [rewrite E; discriminate | exact F]|].
    split; [|split]; intro x.
    + rewrite Ih. split.
      * intros [H|(w & u' & Hw & R)]; [|right; exists w, u'; split; [now right | exact R]].
        destruct (String.eqb (hostname (u_host u)) "") eqn:En; [now left|]. apply in_app_iff in H as [H|[<-|[]]]; [now left|].
        right. exists v, u. split; [now left|]. split; [exact E|]. split; [reflexivity|]. now apply String.eqb_neq.
      * intros [H|(w & u' & [<-|Hw] & R)]; [| |right; now exists w, u'].
        -- left. match goal with |- context [if ?b then _ else _] => destruct b end; [exact H | apply in_app_iff; now left].
        -- destruct R as (E' & Hx & Nx). rewrite E in E'. injection E' as <-. left. rewrite Hx. apply String.eqb_neq in Nx. rewrite Nx. apply in_app_iff. right. now left.
    + rewrite Ip. split.
      * intros [H|(w & u' & Hw & R)]; [|right; exists w, u'; split; [now right | exact R]].
        destruct (String.eqb (port_of (u_host u)) "") eqn:En; [now left|]. apply in_app_iff in H as [H|[<-|[]]]; [now left|].
        right. exists v, u. split; [now left|]. split; [exact E|]. split; [now apply String.eqb_neq | reflexivity].
      * intros [H|(w & u' & [<-|Hw] & R)]; [| |right; now exists w, u'].
        -- left. match goal with |- context [if ?b then _ else _] => destruct b end; [exact H | apply in_app_iff; now left].
        -- destruct R as (E' & Nx & Hx). rewrite E in E'. injection E' as <-. left. apply String.eqb_neq in Nx. rewrite Nx. apply in_app_iff. right. now left.
    + rewrite Iq. split.
      * intros [H|(w & u' & Hw & R)]; [|right; exists w, u'; split; [now right | exact R]].
        destruct (String.eqb (u_path u) "") eqn:En; [now left|]. apply in_app_iff in H as [H|[<-|[]]]; [now left|].
        right. exists v, u. split; [now left|]. split; [exact E|]. split; [reflexivity|]. now apply String.eqb_neq.
      * intros [H|(w & u' & [<-|Hw] & R)]; [| |right; now exists w, u'].
        -- left. match goal with |- context [if ?b then _ else _] => destruct b end; [exact H | apply in_app_iff; now left].
        -- destruct R as (E' & Hx & Nx). rewrite E in E'. injection E' as <-. left. rewrite Hx. apply String.eqb_neq in Nx. rewrite Nx. apply in_app_iff. right. now left.
Qed.

Lemma url_of_in srt uris : is_string_sort srt -> lists (remove_duplicates srt (uris ++ ["/"])) (url_of uris).
Proof.
  intro H. refine (lists_ext _ _ _ _ (remove_duplicates_spec srt _ H)). intro x. unfold url_of. rewrite in_app_iff. cbn [In].
  split; [intros [K|[<-|[]]]; [now right | now left] | intros [->|K]; [right; now left | now left]].
Qed.
Lemma slash_parses : exists u, url_parse "/" = Some u /\ u_path u = "/".
Proof. eexists. split; vm_compute; reflexivity. Qed.
Lemma port_default P x : lists x P -> P "" -> nth 0 x "" = "".
Proof.
  intros L H. destruct (lists_head x P "" L H) as (_ & S). destruct (S "" H) as [E|E]; [now symmetry|].
  destruct (nth 0 x ""); [reflexivity | discriminate].
Qed.

Theorem new_servers_spec srt uris : is_string_sort srt ->
  (forall ss, new_servers srt uris = Ok ss ->
    exists us hosts ports paths host path, lists us (url_of uris) /\ lists hosts (host_of uris) /\ lists ports (port_choice uris) /\
      lists paths (path_of uris) /\ smallest host (host_of uris) /\ smallest path (path_of uris) /\
      ss = map (fun u => {| sv_url := u; sv_vars := [] |}) us ++
        [{| sv_url := "{scheme}{host}{port}{path}";
            sv_vars := [("scheme", {| v_enum := ["http://"; "https://"]; v_default := "http://" |});
                        ("host", {| v_enum := hosts; v_default := host |});
                        ("port", {| v_enum := ports; v_default := "" |});
                        ("path", {| v_enum := paths; v_default := path |})] |}]) /\
  ((exists ss, new_servers srt uris = Ok ss) <-> Forall (fun v => url_parse v <> None) uris) /\
  ((exists ss, new_servers srt uris = Ok ss) \/ new_servers srt uris = Err).
Proof.
  intro Hs. pose proof (url_of_in srt uris Hs) as Lu. unfold new_servers, servers_of.
  set (us := remove_duplicates srt (uris ++ ["/"])) in *. destruct Lu as (Su & Iu).
  pose proof (gather_spec us ["localhost"] [""] ["/"]) as G. destruct slash_parses as (us0 & Eu & Pu).
  destruct (gather us ["localhost"] [""] ["/"]) as [((h, p), q)| | |]; try contradiction.
  - destruct G as (F & Ih & Ip & Iq). cbn [bind fst snd]. split; [|split; [|left; eauto]].
    + intros ss E. injection E as <-.
      assert (Lh : lists (remove_duplicates srt h) (host_of uris)).
      { refine (lists_ext _ _ _ _ (remove_duplicates_spec srt h Hs)). intro x. rewrite Ih. unfold host_of. cbn [In].
        split.
        - intros [[<-|[]]|(v & u & Hv & R)]; [now left | right]. exists v, u. split; [now apply Iu | exact R].
        - intros [->|(v & u & Hv & R)]; [left; now left | right]. exists v, u. split; [now apply Iu | exact R]. }
      assert (Lp : lists (remove_duplicates srt p) (port_choice uris)).
      { refine (lists_ext _ _ _ _ (remove_duplicates_spec srt p Hs)). intro x. rewrite Ip. unfold port_choice. cbn [In].
        split.
        - intros [[<-|[]]|(v & u & Hv & R)]; [now left | right]. exists v, u. split; [now apply Iu | exact R].
        - intros [->|(v & u & Hv & R)]; [left; now left | right]. exists v, u. split; [now apply Iu | exact R]. }
      assert (Lq : lists (remove_duplicates srt q) (path_of uris)).
      { refine (lists_ext _ _ _ _ (remove_duplicates_spec srt q Hs)). intro x. rewrite Iq. unfold path_of. cbn [In].
        split.
        - intros [[<-|[]]|(v & u & Hv & R)].
          + exists "/", us0. split; [now left|]. split; [exact Eu|]. split; [exact Pu | discriminate].
          + exists v, u. split; [now apply Iu | exact R].
        - intros (v & u & Hv & R). right. exists v, u. split; [now apply Iu | exact R]. }
      exists us, (remove_duplicates srt h), (remove_duplicates srt p), (remove_duplicates srt q),
        (nth 0 (remove_duplicates srt h) ""), (nth 0 (remove_duplicates srt q) "").
      split; [now split|]. split; [exact Lh|]. split; [exact Lp|]. split; [exact Lq|].
      split; [apply (lists_head _ _ "localhost" Lh); now left|].
      split; [apply (lists_head _ _ "/" Lq); exists "/", us0; split; [now left|]; split; [exact Eu|]; split; [exact Pu | discriminate]|].
      rewrite (port_default _ _ Lp) by now left. reflexivity.
    + split; [intros _ | eauto]. apply Forall_forall. intros v Hv. rewrite Forall_forall in F. apply F. apply Iu. now right.
  - destruct G as (v & Hv & Ev). cbn [bind]. split; [discriminate|]. split; [|now right].
    split; [intros (ss & E); discriminate|]. intro F. rewrite Forall_forall in F. exfalso. apply Iu in Hv as [->|Hv]; [congruence|]. now apply (F v Hv).
Qed.

(** *** The caller's slice *)
Lemma update_len {A} n (f : A -> A) l : length (update n f l) = length l.
Proof. revert n; induction l as [|x r IH]; intros [|n]; cbn; auto. Qed.
Lemma nth_update {A} n (f : A -> A) l d : n < length l -> nth n (update n f l) d = f (nth n l d).
Proof. revert n; induction l as [|x r IH]; intros [|n] H; cbn in *; try lia; auto. apply IH. lia. Qed.
Lemma nth_update_other {A} n m (f : A -> A) l d : n <> m -> nth m (update n f l) d = nth m l d.
Proof. revert n m; induction l as [|x r IH]; intros [|n] [|m] H; cbn; auto; try lia. Qed.
Lemma sort_len srt l : is_string_sort srt -> length (srt l) = length l.
Proof. intro H. apply Permutation_length. apply H. Qed.

Definition s_valid (h : sheap) (s : slice) : Prop := s_arr s < length h /\ s_len s <= s_cap h s.

Lemma append_room grow h s x : s_valid h s -> s_len s < s_cap h s ->
  exists h1, s_append grow h s [x] = (h1, {| s_arr := s_arr s; s_len := S (s_len s) |}) /\
    length h1 = length h /\ nth (s_arr s) h1 [] = s_val h s ++ x :: skipn (S (s_len s)) (s_cells h s) /\
    (forall i, i <> s_arr s -> nth i h1 [] = nth i h []).
Proof.
  intros (V1 & V2) H. unfold s_append. cbn [length]. destruct (s_len s + 1 <=? s_cap h s) eqn:E; [|apply Nat.leb_gt in E; lia].
  eexists. rewrite Nat.add_1_r. split; [reflexivity|]. split; [apply update_len|]. split.
  - rewrite nth_update by exact V1. unfold write_at, s_val, s_cells. cbn [length app]. now rewrite Nat.add_1_r.
  - intros i Hi. apply nth_update_other. now intro; subst.
Qed.
Lemma append_full grow h s x : s_valid h s -> s_len s = s_cap h s ->
  exists h1 cells, s_append grow h s [x] = (h1, {| s_arr := length h; s_len := S (s_len s) |}) /\
    h1 = h ++ [cells] /\ firstn (S (s_len s)) cells = s_val h s ++ [x].
Proof.
  intros (V1 & V2) H. unfold s_append, alloc. cbn [length]. destruct (s_len s + 1 <=? s_cap h s) eqn:E; [apply Nat.leb_le in E; lia|].
  assert (L : length (s_val h s) = s_len s) by (unfold s_val; rewrite firstn_length; fold (s_cap h s); lia).
  exists (h ++ [(s_val h s ++ [x]) ++ repeat "" grow]), ((s_val h s ++ [x]) ++ repeat "" grow).
  split; [rewrite app_length, L; cbn [length]; now rewrite Nat.add_1_r|]. split; [reflexivity|].
  rewrite firstn_app. rewrite app_length, L. cbn [length]. replace (S (s_len s) - (s_len s + 1)) with 0 by lia. rewrite firstn_O, app_nil_r.
  rewrite firstn_all2; [reflexivity|]. rewrite app_length, L. cbn. lia.
Qed.

Theorem new_servers_at_spec srt grow h s : is_string_sort srt -> s_valid h s ->
  let h' := fst (new_servers_at srt grow h s) in
  snd (new_servers_at srt grow h s) = new_servers srt (s_val h s) /\
  (s_len s < s_cap h s -> s_val h' s = firstn (s_len s) (srt (s_val h s ++ ["/"]))) /\
  (forall s', s_valid h s' -> s_arr s' <> s_arr s \/ s_len s = s_cap h s -> s_val h' s' = s_val h s').
Proof.
  intros Hs V. assert (L : length (s_val h s) = s_len s) by (destruct V; unfold s_val; rewrite firstn_length; fold (s_cap h s); lia).
  unfold new_servers_at. destruct V as (V1 & V2). destruct (Nat.eq_dec (s_len s) (s_cap h s)) as [C|C].
  - destruct (append_full grow h s "/" (conj V1 V2) C) as (h1 & cells & E & -> & Ec). rewrite E. cbn [s_len s_arr fst snd].
    assert (Ev : s_val (h ++ [cells]) {| s_arr := length h; s_len := S (s_len s) |} = s_val h s ++ ["/"]).
    { unfold s_val at 1. unfold s_cells. cbn [s_arr s_len]. rewrite nth_middle. exact Ec. }
    rewrite Ev. split; [reflexivity|]. split; [intro; lia|]. intros s' (W1 & W2) _. unfold s_val, s_cells. f_equal.
    destruct (S (s_len s) <=? 1).
    + now rewrite app_nth1.
    + rewrite nth_update_other by lia. now rewrite app_nth1.
  - destruct (append_room grow h s "/" (conj V1 V2) ltac:(lia)) as (h1 & E & L1 & Ec & Eo). rewrite E. cbn [s_len s_arr fst snd].
    assert (Ev : s_val h1 {| s_arr := s_arr s; s_len := S (s_len s) |} = s_val h s ++ ["/"]).
    { unfold s_val at 1. unfold s_cells. cbn [s_arr s_len]. rewrite Ec. rewrite firstn_app, L. replace (S (s_len s) - s_len s) with 1 by lia.
      rewrite (firstn_all2 (s_val h s)) by lia. reflexivity. }
    rewrite Ev. split; [reflexivity|]. split.
    + intros _. destruct (S (s_len s) <=? 1) eqn:E1.
      * apply Nat.leb_le in E1. assert (Z : s_len s = 0) by lia. unfold s_val. now rewrite Z.
      * unfold s_val at 1. unfold s_cells. rewrite nth_update by (rewrite L1; exact V1). unfold write_at. cbn [firstn app].
        rewrite firstn_app. rewrite (sort_len srt _ Hs), app_length, L. cbn [length]. replace (s_len s - (s_len s + 1)) with 0 by lia.
        now rewrite firstn_O, app_nil_r.
    + intros s' (W1 & W2) [D|D]; [|lia]. unfold s_val, s_cells. f_equal. destruct (S (s_len s) <=? 1).
      * now apply Eo.
      * rewrite nth_update_other by (intro Q; now apply D). now apply Eo.
Qed.

(** ** Responses *)
Section Response.
  Context {H M L : Type}.
  Lemma map_get_put {A} n k (v : A) m : goodmap m -> map_get n (map_put k v m) = if String.eqb n k then Some v else map_get n m.
  Proof. intro G. destruct m as [l|]; cbn [map_put map_get]; [apply oget_oset|]. now rewrite oget_oset. Qed.
  Lemma map_get_del {A} n k (m : option (list (string * A))) : goodmap m -> map_get n (map_del k m) = if String.eqb n k then None else map_get n m.
  Proof. intro G. destruct m as [l|]; cbn [map_del option_map map_get]; [now apply oget_odel|]. now destruct (String.eqb n k). Qed.
  Lemma good_put {A} k (v : A) m : goodmap m -> goodmap (map_put k v m).
  Proof. intro G. destruct m; cbn [map_put goodmap]; apply sorted_oset; [exact G | exact I]. Qed.
  Lemma good_del {A} k (m : option (list (string * A))) : goodmap m -> goodmap (map_del k m).
  Proof. intro G. destruct m; [now apply sorted_odel | exact I]. Qed.

  Lemma rstep_spec (r : response H M L) c : good_response r ->
    good_response (rstep r c) /\
    (forall n, map_get n (r_headers (rstep r c)) = header_after n c (map_get n (r_headers r))) /\
    (forall n, map_get n (r_content (rstep r c)) = content_after n c (map_get n (r_content r))) /\
    (forall n, map_get n (r_links (rstep r c)) = link_after n c (map_get n (r_links r))).
  Proof.
    intros (G1 & G2 & G3). unfold good_response.
    destruct c as [d|k [x|]|k|k [x|]|k|k [x|]|k];
      cbn [rstep r_with_description add_header add_content add_link remove_header remove_content remove_link set_headers set_content set_links
           r_headers r_content r_links header_after content_after link_after];
      repeat split; intros; try assumption; try (now apply good_put); try (now apply good_del); try (now apply map_get_put); try (now apply map_get_del).
  Qed.
  Theorem rcalls_spec cs : forall r : response H M L, good_response r ->
    good_response (rcalls r cs) /\
    (forall n, map_get n (r_headers (rcalls r cs)) = fold_left (fun w c => header_after n c w) cs (map_get n (r_headers r))) /\
    (forall n, map_get n (r_content (rcalls r cs)) = fold_left (fun w c => content_after n c w) cs (map_get n (r_content r))) /\
    (forall n, map_get n (r_links (rcalls r cs)) = fold_left (fun w c => link_after n c w) cs (map_get n (r_links r))).
  Proof.
    induction cs as [|c cs IH]; intros r G; [cbn; tauto|].
    change (rcalls r (c :: cs)) with (rcalls (rstep r c) cs). destruct (rstep_spec r c G) as (G' & E1 & E2 & E3).
    destruct (IH _ G') as (G'' & F1 & F2 & F3). split; [exact G''|].
    split; [|split]; intro n; cbn [fold_left]; [rewrite F1, E1 | rewrite F2, E2 | rewrite F3, E3]; reflexivity.
  Qed.
End Response.

(** ** Log levels *)
Definition plainw (c : ascii) : bool := (nat_of_ascii c <? 128) && Ascii.eqb (lower_char c) c.
Fixpoint plain_word (w : string) : bool := match w with EmptyString => true | String c r => plainw c && plain_word r end.

Lemma lower_plain a b : plainw b = true -> lower_char a = b -> Ascii.eqb a C4 = false /\ Ascii.eqb a E2 = false.
Proof.
  intros H E. destruct (Ascii.eqb a C4) eqn:E1; [apply Ascii.eqb_eq in E1; subst; cbn in H; discriminate|].
  split; [reflexivity|]. destruct (Ascii.eqb a E2) eqn:E2'; [apply Ascii.eqb_eq in E2'; subst; cbn in H; discriminate | reflexivity].
Qed.
Lemma lower_text_cons a s : Ascii.eqb a C4 = false -> Ascii.eqb a E2 = false -> lower_text (String a s) = String (lower_char a) (lower_text s).
Proof. intros H1 H2. cbn [lower_text]. rewrite H1, H2. cbn [andb]. destruct s as [|b [|c r]]; reflexivity. Qed.

Lemma spells_lower s w : plain_word w = true -> spells s w -> lower_text s = w.
Proof.
  intros P S. revert P. induction S as [|a b s w E S IH|s w S IH|s w S IH]; intro P; cbn [plain_word] in P.
  - reflexivity.
  - apply andb_prop in P as (P1 & P2). assert (Eb : lower_char b = b) by (apply andb_prop in P1 as (_ & P1); now apply Ascii.eqb_eq in P1).
    rewrite Eb in E. destruct (lower_plain a b P1 E) as (N1 & N2). rewrite (lower_text_cons a s N1 N2), E, IH by assumption. reflexivity.
  - apply andb_prop in P as (_ & P2). change (lower_text (String (ascii_of_nat 196) (String (ascii_of_nat 176) s))) with (String "i" (lower_text s)).
    now rewrite IH.
  - apply andb_prop in P as (_ & P2). change (lower_text (String (ascii_of_nat 226) (String (ascii_of_nat 132) (String (ascii_of_nat 170) s)))) with (String "k" (lower_text s)).
    now rewrite IH.
Qed.
Lemma lower_spells n : forall s w, String.length s <= n -> plain_word w = true -> lower_text s = w -> spells s w.
Proof.
  induction n as [|n IH]; intros s w L P E.
  - destruct s; [|cbn in L; lia]. cbn in E. subst. constructor.
  - destruct s as [|a s]; [cbn in E; subst; constructor|]. cbn [String.length] in L.
    destruct (Ascii.eqb a C4) eqn:E1; [|destruct (Ascii.eqb a E2) eqn:E2'].
    + apply Ascii.eqb_eq in E1. subst a. destruct s as [|b r1]; [subst w; vm_compute in P; discriminate|].
      destruct (Ascii.eqb b B0) eqn:Eb.
      * apply Ascii.eqb_eq in Eb. subst b. change (lower_text (String C4 (String B0 r1))) with (String "i" (lower_text r1)) in E. subst w.
        apply sp_dot_i. apply IH; [cbn [String.length] in L; lia | cbn [plain_word] in P; now apply andb_prop in P as (_ & P) | reflexivity].
      * assert (X : exists t, lower_text (String C4 (String b r1)) = String C4 t).
        { cbn [lower_text]. rewrite Eb, andb_false_r. change (Ascii.eqb C4 E2) with false. cbn [andb]. destruct r1; eexists; reflexivity. }
        destruct X as (t & X). rewrite X in E. subst w. cbn [plain_word] in P. apply andb_prop in P as (P & _). vm_compute in P. discriminate.
    + apply Ascii.eqb_eq in E2'. subst a. destruct s as [|b [|c r2]]; [subst w; vm_compute in P; discriminate | subst w; cbn [lower_text] in P; change (Ascii.eqb E2 C4) with false in P; cbn [andb plain_word] in P; apply andb_prop in P as (P & _); vm_compute in P; discriminate|].
      destruct (Ascii.eqb b x84 && Ascii.eqb c AA) eqn:Eb.
      * apply andb_prop in Eb as (Eb & Ec). apply Ascii.eqb_eq in Eb, Ec. subst b c.
        change (lower_text (String E2 (String x84 (String AA r2)))) with (String "k" (lower_text r2)) in E. subst w.
        apply sp_kelvin. apply IH; [cbn [String.length] in L; lia | cbn [plain_word] in P; now apply andb_prop in P as (_ & P) | reflexivity].
      * assert (X : exists t, lower_text (String E2 (String b (String c r2))) = String E2 t).
        { cbn [lower_text]. change (Ascii.eqb E2 C4) with false. change (Ascii.eqb E2 E2) with true. cbn [andb]. rewrite Eb. eexists; reflexivity. }
        destruct X as (t & X). rewrite X in E. subst w. cbn [plain_word] in P. apply andb_prop in P as (P & _). vm_compute in P. discriminate.
    + rewrite (lower_text_cons a s E1 E2') in E. subst w. cbn [plain_word] in P. apply andb_prop in P as (P1 & P2).
      apply sp_char; [apply andb_prop in P1 as (_ & P1); apply Ascii.eqb_eq in P1; now symmetry|]. apply IH; [lia | exact P2 | reflexivity].
Qed.
Lemma spells_iff s w : plain_word w = true -> (String.eqb (lower_text s) w = true <-> spells s w).
Proof.
  intro P. rewrite String.eqb_eq. split; [apply (lower_spells (String.length s)); [lia | exact P] | now apply spells_lower].
Qed.

Definition level_names : list (string * nat) :=
  [("panic", 0); ("fatal", 1); ("error", 2); ("warn", 3); ("warning", 3); ("info", 4); ("debug", 5); ("trace", 6)].
Theorem parse_level_spec s : (forall n, parse_level s = Ok n <-> exists w, In (w, n) level_names /\ spells s w) /\
  (parse_level s = Err <-> forall w n, In (w, n) level_names -> ~ spells s w) /\
  parse_level s <> Panic /\ parse_level s <> OutOfFuel.
Proof.
  assert (T : forall w n, In (w, n) level_names -> spells s w -> parse_level s = Ok n).
  { intros w n Hw S. assert (E : lower_text s = w).
    { apply spells_lower; [|exact S]. unfold level_names in Hw. cbn [In] in Hw.
      repeat (destruct Hw as [Hw|Hw]; [injection Hw as <- <-; reflexivity|]). contradiction. }
    unfold parse_level. rewrite E. unfold level_names in Hw. cbn [In] in Hw.
    repeat (destruct Hw as [Hw|Hw]; [injection Hw as <- <-; reflexivity|]). contradiction. }
  assert (K : (exists w n, In (w, n) level_names /\ spells s w) \/ parse_level s = Err).
  { unfold parse_level.
    repeat match goal with |- context [String.eqb (lower_text s) ?w] =>
      let E := fresh "E" in destruct (String.eqb (lower_text s) w) eqn:E;
        [left; exists w; apply (spells_iff s w eq_refl) in E; cbn [In level_names]; eexists; split; [|exact E]; tauto|] end.
    cbn [orb]. now right. }
  split; [|split].
  - intro n. split; [|intros (w & Hw & S); now apply (T w)]. intro E. destruct K as [(w & m & Hw & S)|K]; [|congruence].
    rewrite (T w m Hw S) in E. injection E as <-. now exists w.
  - split; [intros E w n Hw S; rewrite (T w n Hw S) in E; discriminate|]. intro N. destruct K as [(w & m & Hw & S)|K]; [|exact K]. now elim (N w m Hw).
  - destruct K as [(w & m & Hw & S)|K]; [rewrite (T w m Hw S) | rewrite K]; split; discriminate.
Qed.

Lemma ascii_spells s w : (forall c, has_char c s = true -> nat_of_ascii c < 128) -> plain_word w = true -> (spells s w <-> to_lower s = w).
Proof.
  intros A P. rewrite <- (spells_iff s w P), String.eqb_eq. enough (lower_text s = to_lower s) as -> by tauto.
  clear P. induction s as [|a s IH]; [reflexivity|].
  assert (Ha : nat_of_ascii a < 128). { apply A. cbn [has_char]. rewrite (proj2 (Ascii.eqb_eq a a) eq_refl). reflexivity. }
  rewrite lower_text_cons.
  - cbn [to_lower]. f_equal. apply IH. intros c Hc. apply A. cbn [has_char]. rewrite Hc. now rewrite orb_true_r.
  - apply Ascii.eqb_neq. intros ->. vm_compute in Ha. lia.
  - apply Ascii.eqb_neq. intros ->. vm_compute in Ha. lia.
Qed.
