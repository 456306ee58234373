(** Properties C01-C07: pointers and fragments. *)
From Coq Require Import String Ascii List Bool Arith ZArith Lia Permutation.
From Verif Require Import GoStr GoStrFacts Json JsonFacts Url Pointer Slices
  Spec_Frag Spec_Ptr Spec_Slices FragFacts PtrFacts SliceFacts.
Import ListNotations.
Local Open Scope string_scope.
Local Open Scope nat_scope.
Local Open Scope list_scope.

(** ** C01 *)
Theorem C01_fragment_text_roundtrip : forall f, new_fragment (frag_string f) = Ok f.
Proof. exact frag_roundtrip. Qed.
Print Assumptions C01_fragment_text_roundtrip.

Theorem C01_fragment_text_injective : forall f g, frag_string f = frag_string g -> f = g.
Proof. exact frag_string_inj. Qed.
Print Assumptions C01_fragment_text_injective.

Example C01_ex : frag_string ["a/b"; ""; "~1~0~"; "m~n"] = "/a~1b//~01~00~0/m~0n" /\
  new_fragment "/a~1b//~01~00~0/m~0n" = Ok ["a/b"; ""; "~1~0~"; "m~n"].
Proof. split; reflexivity. Qed.

(** ** C02 *)
Theorem C02_accepted_texts : forall s, (exists f, new_fragment s = Ok f) <-> (s = "" \/ exists r, s = String "/" r).
Proof. exact parse_accepts. Qed.
Print Assumptions C02_accepted_texts.

Theorem C02_prints_back_iff_canonical : forall s f, new_fragment s = Ok f -> (frag_string f = s <-> tilde_ok s = true).
Proof. exact parse_print. Qed.
Print Assumptions C02_prints_back_iff_canonical.

Theorem C02_reparse_stable : forall s f, new_fragment s = Ok f -> new_fragment (frag_string f) = Ok f.
Proof. exact (fun s f _ => frag_roundtrip f). Qed.
Print Assumptions C02_reparse_stable.

Theorem C02_never_panics : forall s, new_fragment s <> Panic /\ new_fragment s <> OutOfFuel.
Proof. exact parse_never_panics. Qed.
Print Assumptions C02_never_panics.

Example C02_ex : new_fragment "/a~2" = Ok ["a~2"] /\ frag_string ["a~2"] = "/a~02" /\ tilde_ok "/a~2" = false /\
  new_fragment "a" = Err /\ tilde_ok "/a~0~1" = true.
Proof. repeat split. Qed.

(** ** C03 *)
Theorem C03_descendant : forall f path,
  let toks := map unescape_token (split_char "/" (if has_prefix "/" path then skipn_s 1 path else path)) in
  (f = [""] -> descendant f path = Ok toks) /\
  (f <> [""] -> descendant f path = Ok (f ++ toks)).
Proof. exact descendant_spec. Qed.
Print Assumptions C03_descendant.

(** The tokens of a path that is the text of a fragment are that fragment. *)
Theorem C03_descendant_of_text : forall f g, f <> [""] -> g <> [] -> descendant f (frag_string g) = Ok (f ++ g).
Proof.
  intros f g Hf Hg. unfold descendant. destruct g as [|t g]; [congruence|].
  cbn [frag_string String.append has_prefix]. cbn [Ascii.eqb Bool.eqb andb].
  change (String "/" (escape_token t +++ frag_string g)) with (frag_string (t :: g)).
  rewrite frag_roundtrip. cbn [bind]. destruct (String.eqb_spec (frag_string f) "/") as [E|]; [|reflexivity].
  apply frag_string_slash in E. congruence.
Qed.
Print Assumptions C03_descendant_of_text.

(** Head is the first token, Last (and Tail, which returns one token although
    its comment promises the rest) the last one appended; the empty fragment has
    neither. *)
Theorem C03_ends : forall t f, frag_head (t :: f) = Some t /\ frag_last (f ++ [t]) = Some t /\ frag_tail (f ++ [t]) = Some t /\
  frag_head [] = None /\ frag_last [] = None /\ frag_tail [] = None /\ (frag_is_empty f = true <-> f = []).
Proof.
  intros t f. assert (L : forall f, frag_last (f ++ [t]) = Some t). { induction f0 as [|u f0 IH]; [reflexivity|]. cbn [app frag_last]. destruct (f0 ++ [t]) eqn:E; [now destruct f0|]. exact IH. }
  refine (conj eq_refl (conj (L f) (conj (L f) (conj eq_refl (conj eq_refl (conj eq_refl _)))))). destruct f; cbn; split; congruence.
Qed.
Print Assumptions C03_ends.

Example C03_ex : descendant ["components"; "schemas"] "a/b~1c" = Ok ["components"; "schemas"; "a"; "b/c"] /\
  descendant [""] "x" = Ok ["x"] /\ descendant [] "" = Ok [""].
Proof. repeat split. Qed.

(** ** C04 *)
Theorem C04_full_sources_never_alias : forall ops h ss vs,
  from_full ([], []) ops -> srun ([], []) ops = Some (h, ss) -> vrun [] ops = Some vs -> map (s_val h) ss = vs.
Proof. exact history_ok. Qed.
Print Assumptions C04_full_sources_never_alias.

Theorem C04_parsed_is_full : forall h s h' s', s_parse h s = Ok (h', s') -> full h' s'.
Proof. exact parse_full. Qed.
Print Assumptions C04_parsed_is_full.

Theorem C04_clone_is_full : forall h s, let '(h', s') := s_clone h s in full h' s'.
Proof. exact clone_full. Qed.
Print Assumptions C04_clone_is_full.

(** Deriving two descendants of NewPointer().Fragment: the second one overwrites
    the first. *)
Theorem C04_spare_capacity_refuted : exists ops h ss vs,
  srun ([], []) ops = Some (h, ss) /\ vrun [] ops = Some vs /\
  vs = [[]; ["a"]; ["b"]] /\ map (s_val h) ss = [[]; ["b"]; ["b"]].
Proof.
  exists [ONew; ODesc 0 0 "a"; ODesc 0 0 "b"]. do 3 eexists.
  split; [reflexivity|]. split; [reflexivity|]. split; reflexivity.
Qed.
Print Assumptions C04_spare_capacity_refuted.

Example C04_ex : let ops := [OParse "/T"; ODesc 0 3 "a"; OClone 1; ODesc 2 1 "x"; ODesc 0 0 "b"; ODesc 2 0 "y"] in
  from_full ([], []) ops /\ vrun [] ops = Some [["T"]; ["T"; "a"]; ["T"; "a"]; ["T"; "a"; "x"]; ["T"; "b"]; ["T"; "a"; "y"]].
Proof. split; [|reflexivity]. cbn. repeat split; intros s [= <-]; reflexivity. Qed.

(** ** C05 *)
Theorem C05_replace : forall n e f,
  ((0 <= n < Z.of_nat (length f))%Z -> exists g, frag_replace n e f = Ok g /\ length g = length f /\
     forall m, nth_error g m = if m =? Z.to_nat n then Some e else nth_error f m) /\
  ((n < 0 \/ Z.of_nat (length f) < n)%Z -> frag_replace n e f = Err) /\
  (n = Z.of_nat (length f) -> frag_replace n e f = Panic).
Proof. exact replace_spec. Qed.
Print Assumptions C05_replace.
Example C05_ex : frag_replace 1 "x" ["a"; "b"; "c"] = Ok ["a"; "x"; "c"] /\ frag_replace 3 "x" ["a"; "b"; "c"] = Panic.
Proof. split; reflexivity. Qed.

(** ** C06 *)
Theorem C06_go_pointer_roundtrip : forall pkg p,
  import_path pkg -> go_pointer pkg p -> Forall (fun t => has_char "%" t = false) (p_frag p) ->
  ptr_string p = "go://" +++ pkg +++ "#" +++ frag_string (p_frag p) /\
  u_scheme (p_url p) = "go" /\ is_external p = true /\ pkg_path p = pkg /\
  exists p', ptr_parse (ptr_string p) = Ok p' /\ p_frag p' = p_frag p /\
    u_scheme (p_url p') = "go" /\ pkg_path p' = pkg /\ go_pointer pkg p'.
Proof. exact go_roundtrip. Qed.
Print Assumptions C06_go_pointer_roundtrip.

Theorem C06_text_identifies : forall pkg1 pkg2 p1 p2,
  import_path pkg1 -> import_path pkg2 -> go_pointer pkg1 p1 -> go_pointer pkg2 p2 ->
  ptr_string p1 = ptr_string p2 -> pkg1 = pkg2 /\ p_frag p1 = p_frag p2.
Proof. exact go_string_inj. Qed.
Print Assumptions C06_text_identifies.

Theorem C06_new_go_pointer : forall pkg path, import_path pkg -> has_char "%" path = false ->
  exists p, new_go_pointer pkg path = Ok p /\ go_pointer pkg p /\ pkg_path p = pkg /\
    p_frag p = map unescape_token (split_char "/" path).
Proof. exact go_new. Qed.
Print Assumptions C06_new_go_pointer.

Theorem C06_clone : forall pkg p, import_path pkg -> go_pointer pkg p -> ptr_clone p = Ok p.
Proof. exact go_clone. Qed.
Print Assumptions C06_clone.

(** A token containing '%' does not survive: "100%41" comes back as "100A",
    and "100%" is not even parsed. *)
Theorem C06_percent_refuted : exists p q, go_pointer "p" p /\ p_frag p = ["100%41"] /\
  ptr_parse (ptr_string p) = Ok q /\ p_frag q = ["100A"].
Proof.
  exists {| p_url := go_url "p" ""; p_frag := ["100%41"] |}. eexists.
  split; [exists "", {| p_url := go_url "p" ""; p_frag := [] |}; split; reflexivity|].
  split; [reflexivity|]. split; reflexivity.
Qed.
Print Assumptions C06_percent_refuted.
Theorem C06_percent_parse_refuted : exists p, go_pointer "p" p /\ p_frag p = ["100%"] /\ ptr_parse (ptr_string p) = Err.
Proof.
  exists {| p_url := go_url "p" ""; p_frag := ["100%"] |}.
  split; [exists "", {| p_url := go_url "p" ""; p_frag := [] |}; split; reflexivity|]. split; reflexivity.
Qed.
Print Assumptions C06_percent_parse_refuted.

Example C06_ex : import_path "github.com/buypal/oapi-go/pkg_1" /\
  exists p, new_go_pointer "github.com/buypal/oapi-go/pkg_1" "Pet/tag" = Ok p /\ p_frag p = ["Pet"; "tag"] /\
    ptr_string p = "go://github.com/buypal/oapi-go/pkg_1#/Pet/tag".
Proof. split; [split; [discriminate | reflexivity]|]. eexists. split; [reflexivity|]. split; reflexivity. Qed.

(** ** C07 *)
Theorem C07_merge_right_biased : forall ord1 ord2 a b k,
  (forall l, Permutation (ord1 l) l) -> (forall l, Permutation (ord2 l) l) -> sorted a -> sorted b ->
  oget k (pointers_merge ord1 ord2 a b) = match oget k b with Some v => Some v | None => oget k a end.
Proof. exact pointers_merge_get. Qed.
Print Assumptions C07_merge_right_biased.

Theorem C07_new_pointers : forall l, sorted (new_pointers l) /\
  (forall p, In p l -> exists q, oget (ptr_string p) (new_pointers l) = Some q /\ In q l /\ ptr_string q = ptr_string p) /\
  (forall k q, oget k (new_pointers l) = Some q -> In q l /\ ptr_string q = k).
Proof. exact new_pointers_get. Qed.
Print Assumptions C07_new_pointers.

Example C07_ex : let p s := {| p_url := url_zero; p_frag := [s] |} in
  pointers_merge (fun l => l) (fun l => rev l) (new_pointers [p "a"; p "b"]) [("#/a", p "z")] = [("#/a", p "z"); ("#/b", p "b")].
Proof. reflexivity. Qed.
