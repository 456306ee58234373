(** Which texts url_parse accepts, and what it makes of them. *)
From Coq Require Import String Ascii List Bool Arith ZArith Lia.
From Verif Require Import GoStr GoStrFacts Json JsonFacts Url Pointer Spec_Frag Spec_Ptr Spec_Url FragFacts PtrFacts UrlText.
Import ListNotations.
Local Open Scope string_scope.
Local Open Scope nat_scope.
Local Open Scope list_scope.

Lemma get_small n s c : String.get n s = Some c -> n < String.length s.
Proof. revert n. induction s as [|d s IH]; intros n H; [discriminate H|]. destruct n; cbn in *; [lia | apply IH in H; lia]. Qed.
Lemma hex_iff c n : hex_val c = Some n <-> hex_digit c n.
Proof.
  split.
  - unfold hex_digit. destruct c as [[] [] [] [] [] [] [] []]; intro H; try discriminate H; injection H as <-; cbn; auto.
  - intros [H|H]; pose proof (get_small _ _ _ H) as L; cbn in L; do 16 (destruct n as [|n]; [injection H as <-; reflexivity|]); lia.
Qed.
Lemma host_ascii_iff c : should_escape EHost c = false <-> host_ascii c.
Proof.
  unfold host_ascii. split; intro H; destruct c as [[] [] [] [] [] [] [] []]; try discriminate H; cbn in H |- *; auto; destruct H; discriminate.
Qed.
Lemma host_plain_iff c : (nat_of_ascii c <? 128) && should_escape EHost c = false <-> host_plain c.
Proof.
  unfold host_plain. rewrite <- host_ascii_iff, andb_false_iff, Nat.ltb_ge. reflexivity.
Qed.
Definition part_of (m : emode) : part := match m with EHost => Host | EZone => Zone | _ => Other end.
Lemma escapable_iff mode a b x y : hex_val a = Some x -> hex_val b = Some y -> esc_ok mode x (16 * x + y) <-> escapable (part_of mode) (16 * x + y).
Proof.
  intros X Y. apply hex_small in X, Y. destruct mode; cbn [esc_ok part_of escapable]; try reflexivity.
  - rewrite Nat.ltb_ge. lia.
  - rewrite host_ascii_iff. reflexivity.
Qed.
Lemma char_ok_iff mode c : char_ok mode c <-> (part_of mode <> Other -> host_plain c).
Proof.
  destruct mode; cbn [char_ok part_of]; try (rewrite host_plain_iff; split; [auto | intro H; apply H; discriminate]); split; auto; intros _ H; now elim H.
Qed.
Lemma unesc_iff mode s t : unesc mode s t <-> decodes (part_of mode) s t.
Proof.
  split.
  - induction 1 as [|a b x y r r' X Y M _ IH|c r r' N M _ IH]; constructor; auto; try (now apply hex_iff); [now apply (escapable_iff mode a b) | now apply char_ok_iff].
  - induction 1 as [|a b x y r r' X Y M _ IH|c r r' N M _ IH]; [constructor | |].
    + apply hex_iff in X, Y. constructor; auto. now apply (escapable_iff mode a b).
    + constructor; auto. now apply char_ok_iff.
Qed.
Lemma unescape_iff mode s t : unescape mode s = Some t <-> decodes (part_of mode) s t.
Proof. rewrite <- unesc_iff. split; [apply unescape_of | apply unesc_unescape]. Qed.
Lemma colon_none a : after_last_colon a = None <-> has_char ":" a = false.
Proof.
  induction a as [|c a IH]; [split; reflexivity|]. cbn [after_last_colon has_char]. rewrite (Ascii.eqb_sym ":" c). destruct (after_last_colon a) as [p|].
  - split; [discriminate|]. intro H. apply orb_false_iff in H as [_ H]. now apply IH in H.
  - destruct (Ascii.eqb c ":"); [split; discriminate|]. rewrite (proj1 IH eq_refl). split; reflexivity.
Qed.
Lemma colon_some a y : after_last_colon a = Some y <-> exists x, a = x +++ String ":" y /\ has_char ":" y = false.
Proof.
  revert y. induction a as [|c a IH]; intro y; cbn [after_last_colon].
  - split; [discriminate | intros ([|? ?] & E & _); discriminate E].
  - destruct (after_last_colon a) as [p|] eqn:A.
    + split.
      * intros [= ->]. destruct (proj1 (IH y) eq_refl) as (x & -> & N). exists (String c x). auto.
      * intros (x & E & N). destruct x as [|d x].
        -- injection E as -> ->. apply colon_none in N. congruence.
        -- injection E as -> E. apply (proj2 (IH y)). exists x. split; [exact E | exact N].
    + destruct (Ascii.eqb_spec c ":") as [->|Nc].
      * split.
        -- intros [= <-]. exists "". split; [reflexivity | now apply colon_none].
        -- intros (x & E & N). destruct x as [|d x]; [now injection E as ->|]. injection E as _ E. assert (X : None = Some y) by (apply (proj2 (IH y)); exists x; split; [exact E | exact N]). discriminate X.
      * split; [discriminate|]. intros (x & E & N). destruct x as [|d x]; [injection E as -> _; congruence|]. injection E as -> E. apply (proj2 (IH y)). exists x. split; [exact E | exact N].
Qed.
Lemma digits_all y : all_digits y = str_all is_digit y.
Proof. induction y as [|c y IH]; [reflexivity|]. cbn. now rewrite IH. Qed.
Lemma prefix_none c a : has_prefix (str1 c) a = false <-> forall r, a <> str1 c +++ r.
Proof.
  split.
  - intros H r ->. rewrite has_prefix_app in H. discriminate H.
  - intro H. destruct (has_prefix (str1 c) a) eqn:E; [|reflexivity]. apply has_prefix_inv in E as (r & ->). now elim (H r).
Qed.
Lemma port_iff p : valid_port p = true <-> p = "" \/ exists d, p = ":" +++ d /\ str_all is_digit d = true.
Proof.
  split.
  - destruct p as [|c p]; [auto|]. cbn [valid_port]. intro H. apply andb_true_iff in H as [Hc H]. apply Ascii.eqb_eq in Hc. subst c. right. exists p. now rewrite <- digits_all.
  - intros [->|(d & -> & D)]; [reflexivity|]. cbn [String.append valid_port]. now rewrite digits_all, D.
Qed.
Lemma zone_none s : cut_zone s = None <-> forall x y, s <> x +++ "%25" +++ y.
Proof.
  split.
  - intros H x y ->. revert H. induction x as [|c x IH]; intro H.
    + rewrite zone_eq in H. change ("" +++ "%25" +++ y) with ("%25" +++ y) in H. rewrite has_prefix_app in H. discriminate H.
    + change (String c x +++ "%25" +++ y) with (String c (x +++ "%25" +++ y)) in H. rewrite zone_eq in H. destruct (has_prefix "%25" (String c (x +++ "%25" +++ y))); [discriminate H|]. destruct (cut_zone (x +++ "%25" +++ y)) as [[? ?]|]; [discriminate H|]. now apply IH.
  - intro H. destruct (cut_zone s) as [[x z]|] eqn:E; [|reflexivity]. apply zone_some in E as (-> & P & _). apply zone_split in P as (y & ->). now elim (H x y).
Qed.
Lemma zone_cut x z : cut_zone x = None -> cut_zone (x +++ "%25" +++ z) = Some (x, "%25" +++ z).
Proof.
  intro N. destruct (cut_zone (x +++ "%25" +++ z)) as [[a b]|] eqn:E.
  - apply zone_some in E as (E & P & Na). apply zone_split in P as (r & ->). assert (a = x) as ->; [|now apply app_inj_l in E; rewrite E].
    revert x N E Na. induction a as [|c a IH]; intros x N E Na.
    + destruct x as [|d x]; [reflexivity|]. exfalso. cbn [String.append] in E. injection E as -> E. destruct x as [|e x]; [discriminate E|]. cbn [String.append] in E. injection E as -> E.
      destruct x as [|f x]; [discriminate E|]. cbn [String.append] in E. injection E as -> E. rewrite zone_eq in N. discriminate N.
    + destruct x as [|d x].
      * exfalso. cbn [String.append] in E. injection E as <- E. destruct a as [|e a]; [discriminate E|]. cbn [String.append] in E. injection E as <- E. destruct a as [|f a]; [discriminate E|]. cbn [String.append] in E. injection E as <- E.
        rewrite zone_eq in Na. discriminate Na.
      * cbn [String.append] in E. injection E as -> E. rewrite zone_eq in N, Na. destruct (has_prefix "%25" (String c x)); [discriminate N|]. destruct (cut_zone x) as [[? ?]|] eqn:Nx; [discriminate N|].
        destruct (has_prefix "%25" (String c a)); [discriminate Na|]. destruct (cut_zone a) as [[? ?]|] eqn:Nx'; [discriminate Na|]. now rewrite (IH x Nx E eq_refl).
  - exfalso. exact (proj1 (zone_none _) E x z eq_refl).
Qed.
Lemma app_unesc mode a b c d : unesc mode a b -> unesc mode c d -> unesc mode (a +++ c) (b +++ d).
Proof. induction 1; intro U; cbn [String.append]; [exact U | constructor; auto | constructor; auto]. Qed.
Lemma port_self p : valid_port p = true -> unescape EHost (String "]" p) = Some (String "]" p).
Proof.
  intro V. rewrite <- (host_back (String "]" p)); [rewrite escape_cons; change (should_escape EHost "]") with false; cbv iota; now rewrite (escape_port p V)|]. cbn [str_all]. rewrite (port_host p V). reflexivity.
Qed.
Lemma host_iff a h : parse_host a = Some h <-> host_text a h.
Proof.
  unfold parse_host, host_text. split.
  - destruct (has_prefix "[" a) eqn:B.
    + destruct (cut_last "]" a) as [[x port]|] eqn:C; [|discriminate]. apply cut_last_some in C as [-> Np]. destruct (valid_port port) eqn:V; [|discriminate]. intro H. right.
      assert (Bx : has_prefix "[" x = true) by (destruct x as [|c x]; [discriminate B | exact B]). apply bracket_split in Bx as (addr & ->). exists addr, port. split; [reflexivity|]. split; [now apply port_iff|].
      rewrite (zone_plain "[" addr) in H by discriminate. destruct (cut_zone addr) as [[h0 z0]|] eqn:Z.
      * apply zone_some in Z as (-> & Pz & Nz). apply zone_split in Pz as (z & ->). destruct (unescape EHost (String "[" h0)) as [h1|] eqn:U1; [|discriminate H]. destruct (unescape EZone ("%25" +++ z)) as [h2|] eqn:U2; [|discriminate H].
        rewrite (port_self port V) in H. injection H as <-. right. apply unescape_of in U1, U2. inversion U1 as [| |c r hx N M Ux]; subst. inversion U2 as [|a' b' u v r hz X Y M2 Uz|c r hz N2 M2 Uz]; subst; [|now elim N2]. injection X as <-. injection Y as <-.
        exists h0, z, hx, hz. split; [reflexivity|]. split; [exact (proj1 (zone_none h0) Nz)|]. split; [exact (proj1 (unesc_iff EHost _ _) Ux)|]. split; [exact (proj1 (unesc_iff EZone _ _) Uz)|]. reflexivity.
      * left. split; [now apply zone_none | now apply (unescape_iff EHost)].
    + intro H. left. split; [exact (proj1 (prefix_none "[" a) B)|].
      destruct (after_last_colon a) as [y|] eqn:C.
      * destruct (all_digits y) eqn:D; [|discriminate H]. split; [now apply (unescape_iff EHost)|]. intros x z E N. rewrite <- digits_all. assert (X : after_last_colon a = Some z) by (apply colon_some; eauto). congruence.
      * split; [now apply (unescape_iff EHost)|]. intros x z E N. assert (X : after_last_colon a = Some z) by (apply colon_some; eauto). congruence.
  - intros [(B & C & D)|(addr & port & -> & V & Cases)].
    + assert (P : has_prefix "[" a = false) by exact (proj2 (prefix_none "[" a) B). rewrite P. apply (unescape_iff EHost) in C. destruct (after_last_colon a) as [y|] eqn:E; [|exact C].
      apply colon_some in E as (x & E & N). rewrite digits_all, (D x y E N). exact C.
    + apply port_iff in V. rewrite has_prefix_app. change ("[" +++ addr +++ "]" +++ port) with (("[" +++ addr) +++ String "]" port) in *.
      rewrite (cut_last_app "]" _ port (port_no_bracket port V)), V. change ("[" +++ addr) with (String "[" addr) in *. rewrite (zone_plain "[" addr) by discriminate. destruct Cases as [[Nz Dh]|(x & z & hx & hz & -> & Nx & Dx & Dz & ->)].
      * rewrite (proj2 (zone_none addr) Nz). now apply (unescape_iff EHost).
      * rewrite (zone_cut x z (proj2 (zone_none x) Nx)), (port_self port V). apply (unesc_iff EHost) in Dx. apply (unesc_iff EZone) in Dz.
        assert (U1 : unesc EHost (String "[" x) (String "[" hx)) by (constructor; [discriminate | reflexivity | exact Dx]). rewrite (unesc_unescape _ _ _ U1).
        assert (U2 : unesc EZone ("%25" +++ z) (String "%" hz)) by (apply (un_hex EZone "2" "5" 2 5); [reflexivity | reflexivity | now left | exact Dz]). rewrite (unesc_unescape _ _ _ U2). reflexivity.
Qed.
Lemma user_iff ui : valid_userinfo ui = str_all user_char ui.
Proof. induction ui as [|c ui IH]; [reflexivity|]. cbn [valid_userinfo str_all]. rewrite IH. f_equal. destruct c as [[] [] [] [] [] [] [] []]; reflexivity. Qed.
Lemma authority_iff a us h : parse_authority a = Some (us, h) <-> authority_text a us h.
Proof.
  unfold parse_authority, authority_text. split.
  - destruct (cut_last "@" a) as [[ui b]|] eqn:C.
    + apply cut_last_some in C as [-> Nb]. destruct (parse_host b) as [h0|] eqn:P; [|discriminate]. destruct (valid_userinfo ui) eqn:V; [|discriminate]. intro H. right. exists ui, b. split; [reflexivity|]. split; [exact Nb|].
      rewrite user_iff in V. destruct (cut_char ":" ui) as [[x y]|] eqn:K.
      * apply cut_char_some in K as [-> Nx]. destruct (unescape EUser x) as [n|] eqn:Ux; [|discriminate H]. destruct (unescape EUser y) as [p|] eqn:Uy; [|discriminate H]. injection H as <- <-.
        split; [now apply host_iff|]. split; [exact V|]. right. exists x, y, n, p. split; [reflexivity|]. split; [reflexivity|]. split; [exact Nx|]. split; [exact (proj1 (unescape_iff EUser _ _) Ux) | exact (proj1 (unescape_iff EUser _ _) Uy)].
      * apply cut_char_none in K. destruct (unescape EUser ui) as [n|] eqn:Ux; [|discriminate H]. injection H as <- <-. split; [now apply host_iff|]. split; [exact V|]. left. exists n. split; [reflexivity|]. split; [exact K | exact (proj1 (unescape_iff EUser _ _) Ux)].
    + apply cut_last_none in C. destruct (parse_host a) as [h0|] eqn:P; [|discriminate]. intros [= <- <-]. left. split; [exact C|]. split; [reflexivity | now apply host_iff].
  - intros [(N & -> & H)|(ui & b & -> & Nb & H & V & Cases)].
    + rewrite (proj2 (cut_last_none "@" a) N). apply host_iff in H. now rewrite H.
    + change (ui +++ "@" +++ b) with (ui +++ String "@" b). rewrite (cut_last_app "@" ui b Nb). apply host_iff in H. rewrite H, user_iff, V. destruct Cases as [(n & -> & Nc & D)|(x & y & n & p & -> & -> & Nc & Dx & Dy)].
      * rewrite (proj2 (cut_char_none ":" ui) Nc). apply (unescape_iff EUser) in D. now rewrite D.
      * change (x +++ ":" +++ y) with (x +++ String ":" y). rewrite (cut_char_app ":" x y Nc). apply (unescape_iff EUser) in Dx, Dy. now rewrite Dx, Dy.
Qed.
Lemma query_iff t fq q : query t fq q <-> t = qtext fq q /\ (fq = true -> q = "").
Proof.
  unfold query, qtext. split.
  - intros [(-> & -> & ->)|[(-> & -> & ->)|(-> & -> & N)]]; split; auto; try discriminate. destruct q; [congruence | reflexivity].
  - intros [-> Q]. destruct fq; [rewrite (Q eq_refl); right; left; auto|]. destruct q as [|c q]; [left; auto|]. right. right. repeat split. discriminate.
Qed.
Lemma scheme_iff s : scheme_text s = true <-> scheme s.
Proof.
  assert (G : forall r, str_all scheme_char r = str_all (fun d => is_alnum d || has_char d "+-.") r) by (induction r as [|c r IH]; [reflexivity | cbn [str_all]; rewrite IH; reflexivity]).
  unfold scheme. split.
  - destruct s as [|c r]; [discriminate|]. cbn [scheme_text]. intro H. apply andb_true_iff in H as [A B]. exists c, r. now rewrite <- G.
  - intros (c & r & -> & A & B). cbn [scheme_text]. now rewrite A, G, B.
Qed.
Lemma ctl_iff s : has_ctl s = false <-> forall c, has_char c s = true -> 32 <= nat_of_ascii c /\ nat_of_ascii c <> 127.
Proof.
  induction s as [|d s IH]; [split; [discriminate | reflexivity]|]. cbn [has_ctl has_char]. split.
  - intro H. apply orb_false_iff in H as [H H3]. apply orb_false_iff in H as [H1 H2]. intros c E. apply orb_true_iff in E as [E|E]; [|now apply IH]. apply Ascii.eqb_eq in E. subst c. apply Nat.ltb_ge in H1. apply Nat.eqb_neq in H2. auto.
  - intro H. apply orb_false_iff. split; [|apply IH; intros c E; apply H; now rewrite E, orb_true_r]. destruct (H d) as [A B]; [now rewrite Ascii.eqb_refl|]. apply Nat.ltb_ge in A. apply Nat.eqb_neq in B. now rewrite A, B.
Qed.
Lemma slash_iff s : has_prefix "/" s = true <-> starts_slash s.
Proof. apply has_prefix_iff. Qed.
Lemma colon_seg s : has_char ":" (fst (cut_slash s)) = false <-> forall a b, s = a +++ ":" +++ b -> has_char "/" a = true.
Proof.
  split.
  - induction s as [|c s IH]; intros H a b E; [destruct a; discriminate E|]. cbn [cut_slash] in H. destruct a as [|d a].
    + injection E as -> _. change (Ascii.eqb ":" "/") with false in H. cbv iota in H. destruct (cut_slash s) as [x y]. discriminate H.
    + injection E as Ed E. cbn [has_char]. destruct (Ascii.eqb_spec c "/") as [->|Nc]; [rewrite <- Ed; reflexivity|]. destruct (cut_slash s) as [x y]. cbn [fst has_char] in H. apply orb_false_iff in H as [_ H].
      rewrite (IH H a b E). apply orb_true_r.
  - intro B. destruct (has_char ":" (fst (cut_slash s))) eqn:E; [|reflexivity]. destruct (cut_slash s) as [x y] eqn:C. cbn [fst] in E. destruct (cut_slash_app _ _ _ C) as (-> & _ & N).
    destruct (cut_char ":" x) as [[a b]|] eqn:X; [|apply cut_char_none in X; congruence]. apply cut_char_some in X as [-> _].
    specialize (B a (b +++ y)). rewrite has_char_app in N. apply orb_false_iff in N as [N _]. rewrite B in N; [discriminate N|]. rewrite app_assoc_s. reflexivity.
Qed.
Lemma set_path_decodes r p rp : set_path r = Some (p, rp) -> decodes Other r p.
Proof. unfold set_path. destruct (unescape EPath r) as [x|] eqn:U; [|discriminate]. intros [= -> _]. exact (proj1 (unescape_iff EPath r p) U). Qed.
Lemma decodes_set_path r p : decodes Other r p -> exists rp, set_path r = Some (p, rp).
Proof. intro D. unfold set_path. rewrite (proj2 (unescape_iff EPath r p) D). eauto. Qed.
Lemma slash_false s : has_prefix "/" s = false <-> ~ starts_slash s.
Proof.
  rewrite <- slash_iff. destruct (has_prefix "/" s); split; intro H; [discriminate H | now elim H | discriminate | reflexivity].
Qed.
Lemma two_false s : has_prefix "//" s = false <-> forall r, s <> "//" +++ r.
Proof.
  split.
  - intros H r ->. rewrite has_prefix_app in H. discriminate H.
  - intro H. destruct (has_prefix "//" s) eqn:E; [|reflexivity]. apply has_prefix_inv in E as (r & ->). now elim (H r).
Qed.
Theorem nofrag_says s u u' : parse_nofrag s = Some u' -> same_url u u' -> url_says s u.
Proof.
  intros P Sm. rewrite parse_nofrag_eq in P. destruct (has_ctl s) eqn:Ctl; [discriminate P|]. split; [exact (proj1 (ctl_iff s) Ctl)|]. clear Ctl.
  destruct (String.eqb_spec s "*") as [->|Ns].
  { injection P as <-. destruct Sm as (A & B & C & D & E & F & G0). cbn [star u_scheme u_opaque u_user u_host u_path u_forcequery u_query] in *. exists None, "*", "". rewrite <- A, <- B, <- C, <- D, <- E, <- F, <- G0.
    refine (conj eq_refl (conj eq_refl (conj _ (conj _ (conj eq_refl _))))); [left; auto | discriminate|]. right. right.
    refine (conj _ (conj _ (conj _ (conj eq_refl (conj eq_refl (conj eq_refl _)))))); [discriminate | congruence | right; intros [|? a] b X; [discriminate X | injection X as _ X; destruct a; discriminate X] |].
    exact (proj1 (unescape_iff EPath "*" "*") eq_refl). }
  destruct (getscheme s) as [[sch0 rest0]|] eqn:G; [|discriminate P]. destruct (cutq rest0) as [[rest fq] q] eqn:Q. destruct (cutq_spec _ _ _ _ Q) as (Er & Nq & Qf).
  assert (X : exists sch, s = (match sch with Some x => x +++ ":" | None => "" end) +++ rest +++ qtext fq q /\ (forall x, sch = Some x -> scheme x) /\ to_lower sch0 = (match sch with Some x => to_lower x | None => "" end) /\ (sch = None <-> to_lower sch0 = "")).
  { destruct (getscheme_spec _ _ _ G) as [[-> ->]|[A B]].
    - exists None. split; [exact Er|]. split; [discriminate|]. split; [reflexivity|]. split; reflexivity.
    - exists (Some sch0). split; [rewrite B, Er, app_assoc_s; reflexivity|]. split; [intros x [= <-]; now apply scheme_iff|]. split; [reflexivity|]. split; [discriminate|]. intro L. destruct sch0; [discriminate A | discriminate L]. }
  destruct X as (sch & Es & Hsch & Hl & Hn). exists sch, rest, (qtext fq q). split; [exact Es|]. split; [exact Nq|].
  destruct (negb (has_prefix "/" rest) && negb (String.eqb (to_lower sch0) "")) eqn:O.
  - injection P as <-. destruct Sm as (A & B & C & D & E & F & G0). cbn [opaque u_scheme u_opaque u_user u_host u_path u_forcequery u_query] in *. rewrite <- A, <- B, <- C, <- D, <- E, <- F, <- G0.
    split; [apply query_iff; auto|]. split; [exact Hsch|]. split; [exact Hl|]. left. apply andb_true_iff in O as [O1 O2]. apply negb_true_iff in O1, O2. apply String.eqb_neq in O2.
    split; [intro Z; apply O2; now apply Hn|]. split; [now apply slash_false|]. auto.
  - destruct (negb (has_prefix "/" rest) && has_char ":" (fst (cut_slash rest))) eqn:K; [discriminate P|]. unfold hier in P.
    destruct ((negb (String.eqb (to_lower sch0) "") || negb (has_prefix "///" rest)) && has_prefix "//" rest) eqn:Au.
    + destruct (cut_slash (skipn_s 2 rest)) as [a r] eqn:C. destruct (parse_authority a) as [[us h]|] eqn:Hh; [|discriminate P]. destruct (set_path r) as [[p rp]|] eqn:Hp; [|discriminate P]. injection P as <-.
      destruct Sm as (A & B & C' & D & E & F & G0). cbn [u_scheme u_opaque u_user u_host u_path u_forcequery u_query] in *. rewrite <- A, <- B, <- C', <- D, <- E, <- F, <- G0.
      split; [apply query_iff; auto|]. split; [exact Hsch|]. split; [exact Hl|]. right. left. apply andb_true_iff in Au as [Au Pre]. apply has_prefix_inv in Pre as (t & ->). change (skipn_s 2 ("//" +++ t)) with t in C. destruct (cut_slash_app _ _ _ C) as (-> & Hr & Na).
      exists a, r. split; [reflexivity|]. split; [exact Na|]. split; [destruct Hr as [Hr|Hr]; [now left | right; now apply slash_iff]|]. split; [|split; [reflexivity|]; split; [now apply authority_iff | now apply set_path_decodes in Hp]].
      intros Z ->. apply Hn in Z. rewrite Z in Au. destruct Hr as [Hr|Hr]; [exact Hr|]. apply has_prefix_inv in Hr as (t & ->). discriminate Au.
    + destruct (set_path rest) as [[p rp]|] eqn:Hp; [|discriminate P]. injection P as <-. destruct Sm as (A & B & C' & D & E & F & G0). cbn [u_scheme u_opaque u_user u_host u_path u_forcequery u_query] in *. rewrite <- A, <- B, <- C', <- D, <- E, <- F, <- G0.
      split; [apply query_iff; auto|]. split; [exact Hsch|]. split; [exact Hl|]. right. right. split.
      { intros r ->. rewrite has_prefix_app, andb_true_r in Au. apply orb_false_iff in Au as [A1 A2]. apply negb_false_iff in A1, A2. apply String.eqb_eq in A1. split; [now apply Hn|]. apply slash_iff. destruct r as [|c r]; [discriminate A2|]. exact A2. }
      split. { intro Z. apply slash_iff. destruct (has_prefix "/" rest); [reflexivity|]. cbn [negb andb] in O. apply negb_false_iff, String.eqb_eq in O. apply Hn in O. contradiction. }
      split; [|split; [reflexivity | split; [reflexivity | split; [reflexivity | now apply set_path_decodes in Hp]]]]. apply andb_false_iff in K as [K|K]; [left; apply slash_iff; now apply negb_false_iff in K | right; now apply colon_seg].
Qed.
Lemma no_scheme_says body qt fq q : starts_slash body \/ (forall a b, body = a +++ ":" +++ b -> has_char "/" a = true) -> qt = qtext fq q -> no_scheme (body +++ qt).
Proof.
  intros [[r ->]|H] ->; [exact (no_scheme_slash (r +++ qtext fq q))|]. apply cut_no_scheme. now apply colon_seg.
Qed.
Theorem says_nofrag s u : url_says s u -> exists u', parse_nofrag s = Some u' /\ same_url u u'.
Proof.
  intros (Ctl & sch & body & qt & Es & Nb & Hq & Hsch & Hl & Cases). apply (proj2 (ctl_iff s)) in Ctl. apply query_iff in Hq as [Hq Qf]. rewrite parse_nofrag_eq, Ctl.
  destruct (String.eqb_spec s "*") as [->|Ns].
  { assert (sch = None /\ body = "*" /\ qt = "") as (-> & -> & ->).
    { destruct sch as [x|].
      - exfalso. destruct (Hsch x eq_refl) as (c & r & -> & A & _). rewrite !app_assoc_s in Es. cbn [String.append] in Es. injection Es as <- Es. discriminate A.
      - cbn [String.append] in Es. destruct body as [|c body]; [|cbn [String.append] in Es; injection Es as <- Es; destruct body; [|discriminate Es]; destruct qt; [auto | discriminate Es]].
        cbn [String.append] in Es. subst qt. unfold qtext in Hq. destruct (u_forcequery u || nonempty (u_query u)); discriminate Hq. }
    exists star. split; [reflexivity|]. unfold same_url, star. cbn [u_scheme u_opaque u_user u_host u_path u_forcequery u_query]. unfold qtext in Hq.
    assert (u_forcequery u = false /\ u_query u = "") as [-> ->] by (destruct (u_forcequery u); [discriminate Hq|]; destruct (u_query u); [auto | discriminate Hq]).
    destruct Cases as [(N & _)|[(a & r & X & _)|(_ & _ & _ & E1 & E0 & E2 & E3)]]; [congruence | discriminate X|]. rewrite Hl, E1, E0, E2. apply (unescape_iff EPath) in E3. injection E3 as <-. auto 10. }
  assert (G : getscheme s = Some ((match sch with Some x => x | None => "" end), body +++ qt) /\ to_lower (match sch with Some x => x | None => "" end) = u_scheme u /\ (u_scheme u = "" <-> sch = None)).
  { destruct sch as [x|].
    - pose proof (Hsch x eq_refl) as Hx. apply scheme_iff in Hx. rewrite Es, app_assoc_s. change (":" +++ body +++ qt) with (String ":" (body +++ qt)). rewrite (getscheme_back x _ Hx), Hl. split; [reflexivity|]. split; [reflexivity|].
      split; [|discriminate]. intro Z. destruct x; [discriminate Hx | discriminate Z].
    - cbn [String.append] in Es. rewrite Hl. split; [|split; [reflexivity | split; reflexivity]]. rewrite Es. apply getscheme_from_none, (no_scheme_says body qt (u_forcequery u) (u_query u)); [|exact Hq].
      destruct Cases as [(N & _)|[(a & r & X & _)|(_ & _ & X & _)]]; [congruence | left; exists (String "/" (a +++ r)); exact X | exact X]. }
  destruct G as (-> & G2 & G3). rewrite Hq, (cutq_back body _ _ Nb Qf), G2. destruct Cases as [(N & Sb & E1 & E0 & E2 & E3)|[(a & r & Eb & Na & Hr & H3 & E1 & E2 & E3)|(H1 & H2 & H3 & E1 & E0 & E2 & E3)]].
  - rewrite (proj2 (slash_false body) Sb). cbn [negb andb]. destruct (String.eqb_spec (u_scheme u) "") as [Z|Z]; [apply G3 in Z; contradiction|]. cbn [negb]. eexists. split; [reflexivity|]. unfold same_url, opaque. cbn [u_scheme u_opaque u_user u_host u_path u_forcequery u_query]. rewrite E1, E2, E3. auto 10.
  - assert (has_prefix "/" body = true) as -> by (rewrite Eb; reflexivity). cbn [negb andb]. unfold hier.
    assert ((negb (String.eqb (u_scheme u) "") || negb (has_prefix "///" body)) && has_prefix "//" body = true) as ->.
    { rewrite Eb, has_prefix_app, andb_true_r. destruct (String.eqb_spec (u_scheme u) "") as [Z|Z]; [|reflexivity]. cbn [negb orb]. apply negb_true_iff. apply G3 in Z. destruct a as [|c a].
      - rewrite (H3 Z eq_refl). reflexivity.
      - cbn [has_char] in Na. apply orb_false_iff in Na as [Na _]. cbn [String.append has_prefix]. rewrite Na. reflexivity. }
    assert (cut_slash (skipn_s 2 body) = (a, r)) as ->.
    { rewrite Eb. change (skipn_s 2 ("//" +++ a +++ r)) with (a +++ r). clear -Na Hr. induction a as [|c a IH].
      - cbn [String.append]. destruct Hr as [->|[t ->]]; reflexivity.
      - cbn [has_char] in Na. apply orb_false_iff in Na as [N1 N2]. cbn [String.append cut_slash]. rewrite Ascii.eqb_sym, N1. now rewrite (IH N2). }
    apply authority_iff in E2. rewrite E2. destruct (decodes_set_path _ _ E3) as (rp & ->). eexists. split; [reflexivity|]. unfold same_url. cbn [u_scheme u_opaque u_user u_host u_path u_forcequery u_query]. rewrite E1. auto 10.
  - assert (negb (has_prefix "/" body) && negb (String.eqb (u_scheme u) "") = false) as ->.
    { destruct (String.eqb_spec (u_scheme u) "") as [Z|Z]; [apply andb_false_r|]. rewrite (proj2 (slash_iff body)); [reflexivity|]. apply H2. intro Z2. apply Z. now apply G3. }
    assert (negb (has_prefix "/" body) && has_char ":" (fst (cut_slash body)) = false) as ->.
    { destruct H3 as [H3|H3]; [now rewrite (proj2 (slash_iff body) H3) | rewrite (proj2 (colon_seg body) H3); apply andb_false_r]. }
    unfold hier. assert ((negb (String.eqb (u_scheme u) "") || negb (has_prefix "///" body)) && has_prefix "//" body = false) as ->.
    { destruct (has_prefix "//" body) eqn:T; [|apply andb_false_r]. rewrite andb_true_r. apply has_prefix_inv in T as (r & Er). destruct (H1 r Er) as [Z [t ->]]. rewrite (proj2 G3 Z), Er. reflexivity. }
    destruct (decodes_set_path _ _ E3) as (rp & ->). eexists. split; [reflexivity|]. unfold same_url. cbn [u_scheme u_opaque u_user u_host u_path u_forcequery u_query]. rewrite E1, E2. auto 10.
Qed.
Theorem url_parse_iff s u : (exists u', url_parse s = Some u' /\ same_url u u' /\ u_fragment u' = u_fragment u) <-> url_reads s u.
Proof.
  split.
  - intros (u' & P & Sm & Fr). unfold url_parse in P. destruct (cut_char "#" s) as [[t f]|] eqn:C.
    + apply cut_char_some in C as [-> N]. destruct (parse_nofrag t) as [v|] eqn:V; [|discriminate P]. destruct (unescape EFragment f) as [f'|] eqn:Uf; [|discriminate P]. injection P as <-.
      exists t. split; [exact N|]. split; [exact (nofrag_says t u v V Sm)|]. right. exists f. split; [reflexivity|]. rewrite <- Fr. exact (proj1 (unescape_iff EFragment f f') Uf).
    + apply cut_char_none in C. exists s. split; [exact C|]. split; [exact (nofrag_says s u u' P Sm)|]. left. split; [reflexivity|]. rewrite <- Fr. exact (parse_no_fragment s u' P).
  - intros (t & N & Sy & Fr). destruct (says_nofrag t u Sy) as (v & V & Sm). unfold url_parse. destruct Fr as [[-> F0]|(f & -> & D)].
    + rewrite (proj2 (cut_char_none "#" t) N). exists v. rewrite (parse_no_fragment t v V). auto.
    + change (t +++ "#" +++ f) with (t +++ String "#" f). rewrite (cut_char_app "#" t f N), V, (proj2 (unescape_iff EFragment f _) D). eexists. split; [reflexivity|]. split; [exact Sm | reflexivity].
Qed.
