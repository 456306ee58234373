(** C102, C103: pointers in general: copies, texts, and which texts are accepted. *)
From Coq Require Import String Ascii List Bool Arith ZArith Lia.
From Verif Require Import GoStr GoStrFacts Json Url Pointer Spec_Ptr PtrFacts Spec_Url UrlText UrlGrammar.
Import ListNotations.
Local Open Scope string_scope.
Local Open Scope nat_scope.
Local Open Scope list_scope.

(** ** C102 *)
(** Clone never panics, and the copy is the same pointer with the same text. *)
Theorem C102_clone : forall p, usual_pointer p ->
  exists p', ptr_clone p = Ok p' /\ same_pointer p p' /\ u_fragment (p_url p') = u_fragment (p_url p) /\ ptr_string p' = ptr_string p.
Proof. exact clone_usual. Qed.
Print Assumptions C102_clone.
(** The text of a pointer is the text of the same pointer. *)
Theorem C102_text_roundtrip : forall p, usual_pointer p -> Forall (fun t => has_char "%" t = false) (p_frag p) ->
  exists p', ptr_parse (ptr_string p) = Ok p' /\ same_pointer p p' /\ ptr_string p' = ptr_string p.
Proof. exact text_usual. Qed.
Print Assumptions C102_text_roundtrip.
(** Pointers with one text are the same (so the text can be a key). *)
Theorem C102_text_identifies : forall p q, usual_pointer p -> usual_pointer q -> ptr_string p = ptr_string q -> same_pointer p q.
Proof. exact identify_usual. Qed.
Print Assumptions C102_text_identifies.
(** Without the condition Clone can panic: the path of this URL reads "//a{". *)
Theorem C102_clone_panics_refuted : exists p, ptr_parse "%2F/a{#/x" = Ok p /\ ptr_clone p = Panic.
Proof. eexists. split; [vm_compute; reflexivity | vm_compute; reflexivity]. Qed.
Print Assumptions C102_clone_panics_refuted.
(** And a copy can have another path: "a:b{" becomes "./a:b{". *)
Theorem C102_clone_changes_refuted : exists p p', ptr_parse "a%3Ab{" = Ok p /\ ptr_clone p = Ok p' /\ u_path (p_url p) = "a:b{" /\ u_path (p_url p') = "./a:b{".
Proof. eexists. eexists. split; [vm_compute; reflexivity|]. split; [vm_compute; reflexivity|]. split; reflexivity. Qed.
Print Assumptions C102_clone_changes_refuted.
(** Nor does it work for an address whose zone is not ASCII: "[::1%é]" (the text is
    printed with "%C3%A9", which net/url does not accept in a zone). *)
Theorem C102_clone_zone_refuted : exists p, ptr_parse "//[::1%25é]/a#/x" = Ok p /\ ptr_clone p = Panic.
Proof. eexists. split; [vm_compute; reflexivity | vm_compute; reflexivity]. Qed.
Print Assumptions C102_clone_zone_refuted.
Example C102_user_example : exists p, ptr_parse "ftp://a%40b:c%3ad@[fe80::1%25eth%200]:21/x#/y" = Ok p /\ usual_pointer p /\ u_user (p_url p) = Some ("a@b", Some "c:d") /\ u_host (p_url p) = "[fe80::1%eth 0]:21" /\
  ptr_string p = "ftp://a%40b:c%3Ad@[fe80::1%25eth%200]:21/x#/y" /\ pkg_path p = "fe80::1%eth 0/x".
Proof.
  eexists. split; [vm_compute; reflexivity|]. split; [|repeat (split; [vm_compute; reflexivity|]); vm_compute; reflexivity].
  exists "ftp://a%40b:c%3ad@[fe80::1%25eth%200]:21/x", "#/y". eexists. split; [vm_compute; reflexivity|]. split; [reflexivity|]. split; [reflexivity|]. split; [right; eexists; reflexivity|]. split; [left; reflexivity|].
  cbn [p_url u_host with_fragment]. intros a z E. cbn [String.append] in E. injection E as E. repeat (destruct a as [|? a]; [first [discriminate E | injection E as <-; reflexivity]|]; cbn [String.append] in E; injection E as _ E). destruct a; discriminate E.
Qed.
Example C102_example : exists p, ptr_parse "HTTP://api.ex%C3%A9.org:80/a%2fb%3F{?x=%zz&y#/components/schemas/Pet~1Dog" = Ok p /\ usual_pointer p /\
  u_path (p_url p) = "/a/b?{" /\ u_query (p_url p) = "x=%zz&y" /\ p_frag p = ["components"; "schemas"; "Pet/Dog"] /\
  ptr_string p = "http://api.ex%C3%A9.org:80/a/b%3F%7B?x=%zz&y#/components/schemas/Pet~1Dog" /\
  exists q, ptr_parse "../x.yaml?#/a" = Ok q /\ usual_pointer q /\ ptr_string q = "../x.yaml?#/a" /\ u_forcequery (p_url q) = true.
Proof.
  eexists. split; [vm_compute; reflexivity|]. split.
  { exists "HTTP://api.ex%C3%A9.org:80/a%2fb%3F{?x=%zz&y", "#/components/schemas/Pet~1Dog". eexists. split; [vm_compute; reflexivity|]. split; [reflexivity|]. split; [reflexivity|]. split; [right; eexists; reflexivity|]. split; [right; left; discriminate | intros a z E; discriminate E]. }
  repeat (split; [vm_compute; reflexivity|]). eexists. split; [vm_compute; reflexivity|]. split; [|split; reflexivity].
  exists "../x.yaml?", "#/a". eexists. split; [vm_compute; reflexivity|]. split; [reflexivity|]. split; [reflexivity|]. split; [right; eexists; reflexivity|]. split; [left; reflexivity | intros a z E; discriminate E].
Qed.

(** ** C103 *)
(** A text is accepted, as the pointer with URL u and fragment f, exactly if it is
    a URL text that says u, and the text of u's fragment is one of f. *)
Theorem C103_pointer_texts : forall s u f,
  (exists p, ptr_parse s = Ok p /\ same_pointer {| p_url := u; p_frag := f |} p /\ u_fragment (p_url p) = u_fragment u) <->
  url_reads s u /\ new_fragment (u_fragment u) = Ok f.
Proof.
  intros s u f. assert (Sp : ptr_parse s = match url_parse s with None => Err | Some u => do f <- new_fragment (u_fragment u) ; Ok {| p_url := u; p_frag := f |} end).
  { unfold ptr_parse. destruct (String.eqb_spec s "") as [->|]; [reflexivity|]. destruct (String.eqb_spec s "#") as [->|]; reflexivity. }
  rewrite Sp. split.
  - intros (p & P & [Sm Fr] & Ff). destruct (url_parse s) as [u'|] eqn:U; [|discriminate P]. destruct (new_fragment (u_fragment u')) as [g| | |] eqn:G; try discriminate P. injection P as <-. cbn [p_url p_frag] in *. subst g. rewrite <- Ff.
    split; [|exact G]. apply url_parse_iff. eauto.
  - intros [R F]. apply url_parse_iff in R as (u' & -> & Sm & Ff). rewrite <- Ff in F. rewrite F. cbn [bind]. eexists. split; [reflexivity|]. split; [split; [exact Sm | reflexivity] | exact Ff].
Qed.
Print Assumptions C103_pointer_texts.
(** No text makes Parse panic. *)
Theorem C103_never_panics : forall s, ptr_parse s <> Panic /\ ptr_parse s <> OutOfFuel.
Proof.
  intro s. unfold ptr_parse. destruct (String.eqb s "" || String.eqb s "#"); [split; discriminate|]. destruct (url_parse s) as [u|]; [|split; discriminate].
  unfold new_fragment, parse_fragment. destruct (u_fragment u) as [|c r]; [split; discriminate|]. destruct (Ascii.eqb c "/"); split; discriminate.
Qed.
Print Assumptions C103_never_panics.
(** PkgPath of a pointer whose host has a port is without it. *)
Lemma digits_no_colon port : str_all is_digit port = true -> has_char ":" port = false.
Proof.
  induction port as [|c port IH]; intro D; [reflexivity|]. cbn [str_all has_char] in *. apply andb_true_iff in D as [Dc D]. rewrite (IH D), orb_false_r. apply Ascii.eqb_neq. intros <-. discriminate Dc.
Qed.
Lemma colon_port host port : str_all is_digit port = true -> after_last_colon (host +++ ":" +++ port) = Some port.
Proof. intro D. apply colon_some. exists host. split; [reflexivity | now apply digits_no_colon]. Qed.
Lemma cut_port host port : firstn_s (String.length (host +++ ":" +++ port) - String.length port - 1) (host +++ ":" +++ port) = host.
Proof. replace (String.length (host +++ ":" +++ port) - String.length port - 1) with (String.length host) by (rewrite !app_length_s; cbn; lia). apply firstn_s_app. Qed.
Lemma not_bracket h : (forall r, h <> "[" +++ r) -> match h with String "[" r => match cut_last "]" r with Some (x, "") => x | _ => h end | _ => h end = h.
Proof.
  intro N. destruct h as [|c h]; [reflexivity|]. destruct (ascii_dec c "[") as [->|Nc]; [now elim (N h)|]. destruct c as [[] [] [] [] [] [] [] []]; try reflexivity. now elim Nc.
Qed.
Theorem C103_pkg_path : forall p host port, u_host (p_url p) = host +++ ":" +++ port -> (forall r, host <> "[" +++ r) -> str_all is_digit port = true ->
  pkg_path p = host +++ u_path (p_url p).
Proof.
  intros p host port E N D. unfold pkg_path. f_equal. rewrite E. unfold hostname. rewrite (colon_port host port D), digits_all, D, cut_port. cbv zeta. exact (not_bracket host N).
Qed.
Print Assumptions C103_pkg_path.
(** No port, no colon: PkgPath is host and path. *)
Theorem C103_pkg_path_plain : forall p, has_char ":" (u_host (p_url p)) = false -> (forall r, u_host (p_url p) <> "[" +++ r) -> pkg_path p = u_host (p_url p) +++ u_path (p_url p).
Proof. intros p N B. unfold pkg_path, hostname. rewrite (proj2 (colon_none _) N). cbv zeta. now rewrite (not_bracket _ B). Qed.
Print Assumptions C103_pkg_path_plain.
(** PkgPath of a pointer whose host is an address in brackets is without brackets and port. *)
Theorem C103_pkg_path_brackets : forall p addr port, u_host (p_url p) = "[" +++ addr +++ "]" +++ port -> (port = "" \/ exists d, port = ":" +++ d /\ str_all is_digit d = true) ->
  pkg_path p = addr +++ u_path (p_url p).
Proof.
  intros p addr port E V. unfold pkg_path. f_equal. rewrite E. clear E. unfold hostname.
  assert (X : match after_last_colon ("[" +++ addr +++ "]" +++ port) with Some q => if all_digits q then firstn_s (String.length ("[" +++ addr +++ "]" +++ port) - String.length q - 1) ("[" +++ addr +++ "]" +++ port) else "[" +++ addr +++ "]" +++ port
    | None => "[" +++ addr +++ "]" +++ port end = String "[" (addr +++ String "]" "")).
  { destruct V as [->|(d & -> & D)].
    - change ("[" +++ addr +++ "]" +++ "") with (String "[" (addr +++ "]")). destruct (after_last_colon (String "[" (addr +++ "]"))) as [q|] eqn:A; [|reflexivity]. apply colon_some in A as (x & A & Nq). destruct (all_digits q) eqn:D; [|reflexivity].
      exfalso. rewrite digits_all in D. assert (H : str_all (fun c => is_digit c || Ascii.eqb ":" c) "]" = true); [|discriminate H].
      assert (G : forall a b q0, a +++ "]" = b +++ String ":" q0 -> str_all is_digit q0 = true -> False).
      { induction a as [|c a IHa]; intros b0 q0 Eq Dq.
        - destruct b0 as [|e b0]; [discriminate Eq|]. injection Eq as _ Eq. destruct b0; discriminate Eq.
        - destruct b0 as [|e b0]; cbn [String.append] in Eq; injection Eq as Ec Eq; [|now apply (IHa b0 q0)]. rewrite <- Eq in Dq. rewrite str_all_app in Dq. apply andb_true_iff in Dq as [_ Dq]. discriminate Dq. }
      exfalso. exact (G (String "[" addr) x q A D).
    - assert (Eq : "[" +++ addr +++ "]" +++ ":" +++ d = (String "[" (addr +++ "]")) +++ ":" +++ d) by (cbn [String.append]; now rewrite app_assoc_s). rewrite Eq, (colon_port _ d D), digits_all, D, cut_port. reflexivity. }
  rewrite X. cbv zeta iota beta. now rewrite (cut_last_app "]" addr "" eq_refl).
Qed.
Print Assumptions C103_pkg_path_brackets.
Example C103_example : ptr_parse "://a" = Err /\ ptr_parse "http://a:b/" = Err /\ ptr_parse "a:b#x" = Err /\ ptr_parse "1:b" = Err /\ ptr_parse "x%4" = Err /\ ptr_parse "//h%41" = Err /\ ptr_parse "//[::1/a" = Err /\ ptr_parse "//[::1]x/a" = Err /\ ptr_parse "//[::1%25%41]/a" <> Err /\ ptr_parse "//[%41]/a" = Err /\ ptr_parse "//[::1%25%0a]/a" = Err /\ ptr_parse "//u{@h" = Err /\
  (exists p, ptr_parse "go:x?y#/z" = Ok p /\ u_opaque (p_url p) = "x" /\ u_query (p_url p) = "y") /\
  exists p, ptr_parse "go://ex.org:8080/a#/b" = Ok p /\ pkg_path p = "ex.org/a".
Proof. repeat (split; [vm_compute; reflexivity || discriminate|]). split; eexists; (split; [vm_compute; reflexivity|]); try split; reflexivity. Qed.
