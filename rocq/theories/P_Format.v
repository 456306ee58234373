(** Properties C20 and C21: the formats json, json:pretty and go. *)
From Coq Require Import String Ascii List Bool Arith ZArith Lia Permutation.
From Verif Require Import GoStr GoStrFacts Json JsonFacts Gabs Container Spec_Clone Spec_Go Spec_Format JsonText FormatFacts.
Import ListNotations.
Local Open Scope string_scope.
Local Open Scope nat_scope.
Local Open Scope list_scope.

(** ** C20 *)
Theorem C20_json_reads_back : forall (pn : num -> option string) (rd : string -> option num) (yaml : json -> res string) ord srt1 srt2,
  (forall l, Permutation (ord l) l) -> is_item_sort srt1 -> is_item_sort srt2 ->
  forall j, wf j -> (forall n, In n (numbers j) -> exists t, pn n = Some t /\ is_number t = true /\ rd t = Some n) -> plain_root j ->
  exists t p, format pn rd yaml ord srt1 srt2 "json" j = Ok t /\ read_json rd t = Some j /\
              format pn rd yaml ord srt1 srt2 "json:pretty" j = Ok p /\ read_json rd p = Some j.
Proof. exact format_reads. Qed.
Print Assumptions C20_json_reads_back.

(** Exactly when the JSON-based formats fail: an unprintable number anywhere (NaN,
    infinity), or a control character in a member name of the root object. *)
Theorem C20_fails_iff : forall (pn : num -> option string) (rd : string -> option num) (yaml : json -> res string) ord srt1 srt2,
  (forall l, Permutation (ord l) l) -> is_item_sort srt1 -> is_item_sort srt2 ->
  forall j, wf j -> (forall n t, In n (numbers j) -> pn n = Some t -> is_number t = true /\ rd t = Some n) ->
  (format pn rd yaml ord srt1 srt2 "json" j = Err <-> (exists n, In n (numbers j) /\ pn n = None) \/ ~ plain_root j) /\
  (format pn rd yaml ord srt1 srt2 "json" j = Err <-> format pn rd yaml ord srt1 srt2 "json:pretty" j = Err) /\
  (format pn rd yaml ord srt1 srt2 "json" j = Err <-> format pn rd yaml ord srt1 srt2 "go" j = Err).
Proof. exact format_fails. Qed.
Print Assumptions C20_fails_iff.

(** Any other format name is an error, whatever the document. *)
Theorem C20_unknown_format : forall (pn : num -> option string) (rd : string -> option num) (yaml : json -> res string) ord srt1 srt2 f j,
  ~ In f ["yaml"; "yml"; "json"; "json:pretty"; "go"] -> format pn rd yaml ord srt1 srt2 f j = Err.
Proof.
  intros pn rd yaml ord srt1 srt2 f j H. unfold format, parse_fmt.
  repeat (match goal with |- context [String.eqb f ?s] => destruct (String.eqb_spec f s) as [->|_]; [elim H; cbn; tauto|] end). reflexivity.
Qed.
Print Assumptions C20_unknown_format.

(** A document with every kind of difficulty: HTML characters, quotes, escapes,
    U+2028 in keys and values, nested empty containers, numbers. *)
Definition ex_sep : string := String (chr 226) (String (chr 128) (str1 (chr 168))).
Definition ex_doc : json :=
  JObj [("a<b", JArr [JNum (NFlt 7 0); JNull; JArr []; JObj []]);
        ("info", JObj [(String (chr 1) (String DQ "<x>"), JStr (String BS (String (chr 10) ex_sep))); ("n", JBool true)]);
        ("openapi", JStr "3.0.3"); (String "x" ex_sep, JNum (NFlt 5 1))].
Definition ex_pn (n : num) : option string :=
  match n with NFlt 7 0 => Some "7" | NFlt 5 1 => Some "1e+1" | _ => None end.
Definition ex_rd (s : string) : option num :=
  if String.eqb s "7" then Some (NFlt 7 0) else if String.eqb s "1e+1" then Some (NFlt 5 1) else None.
Definition plain_keyb (k : string) : bool :=
  forallb (fun n => negb (has_char (chr n) k) || ((32 <=? n) && negb (n =? 127)) || existsb (Nat.eqb n) [8; 9; 10; 12; 13]) (seq 0 256).
Lemma plain_keyb_ok k : plain_keyb k = true -> plain_key k.
Proof.
  intros H c Hc. unfold plain_keyb in H. rewrite forallb_forall in H.
  assert (B : nat_of_ascii c < 256) by (destruct c as [[] [] [] [] [] [] [] []]; apply Nat.ltb_lt; vm_compute; reflexivity).
  specialize (H (nat_of_ascii c)). rewrite in_seq in H. specialize (H ltac:(lia)). unfold chr in H. rewrite ascii_nat_embedding, Hc in H. cbn [negb orb] in H.
  unfold plain_byte. apply orb_true_iff in H as [H|H].
  - left. apply andb_true_iff in H as (A & N). apply Nat.leb_le in A. apply negb_true_iff, Nat.eqb_neq in N. auto.
  - right. apply existsb_exists in H as (x & I & E). apply Nat.eqb_eq in E. congruence.
Qed.
Example C20_ex_hyp : wf ex_doc /\ plain_root ex_doc /\
  (forall n, In n (numbers ex_doc) -> exists t, ex_pn n = Some t /\ is_number t = true /\ ex_rd t = Some n).
Proof.
  split; [cbn; tauto|]. split.
  - intros m k v E I. injection E as <-. cbn [In] in I.
    destruct I as [E|[E|[E|[E|[]]]]]; injection E as <- _; apply plain_keyb_ok; vm_compute; reflexivity.
  - cbn. intros n [<-|[<-|[]]]; eexists; repeat split.
Qed.
Definition ex_sort (l : list map_item) : list map_item :=
  fold_right (fix ins x l := match l with [] => [x] | y :: r => if (mi_index x <=? mi_index y)%Z then x :: l else y :: ins x r end) [] l.
(** What is written (the control character and the brackets as escapes). *)
Example C20_ex_text : exists t, format ex_pn ex_rd (fun _ => Err) (fun l => rev l) ex_sort ex_sort "json" ex_doc = Ok t /\
  t = "{""x\u2028"":1e+1,""a\u003cb"":[7,null,[],{}],""openapi"":""3.0.3"",""info"":{""\u0001\""\u003cx\u003e"":""\\\n\u2028"",""n"":true}}".
Proof. eexists. split; [vm_compute; reflexivity | reflexivity]. Qed.
Example C20_ex_pretty : format ex_pn ex_rd (fun _ => Err) (fun l => rev l) ex_sort ex_sort "json:pretty" (JObj [("a", JArr [JNull; JObj []]); ("b", JObj [])]) =
  Ok ("{" +++ NL +++ "  ""b"": {}," +++ NL +++ "  ""a"": [" +++ NL +++ "    null," +++ NL +++ "    {}" +++ NL +++ "  ]" +++ NL +++ "}").
Proof. vm_compute. reflexivity. Qed.
(** The same control character as a member name of the root makes Format fail. *)
Example C20_ex_control : format ex_pn ex_rd (fun _ => Err) (fun l => l) ex_sort ex_sort "json" (JObj [(str1 (chr 1), JNull)]) = Err.
Proof. vm_compute. reflexivity. Qed.

(** ** C21 *)
Theorem C21_go_constant : forall (pn : num -> option string) (rd : string -> option num) (yaml : json -> res string) ord srt1 srt2,
  (forall l, Permutation (ord l) l) -> is_item_sort srt1 -> is_item_sort srt2 ->
  (forall n t, pn n = Some t -> is_number t = true) ->
  forall j t, format pn rd yaml ord srt1 srt2 "json" j = Ok t ->
  exists file lit, format pn rd yaml ord srt1 srt2 "go" j = Ok file /\ declares file lit /\
    ((forall s, In s (strings j) -> has_char "`" s = false) -> raw_literal lit = Some (t, NL)) /\
    ((exists s, In s (strings j) /\ has_char "`" s = true) ->
      exists a b, t = a +++ String "`" b /\ raw_literal lit = Some (a, b +++ String "`" NL)).
Proof. exact go_constant. Qed.
Print Assumptions C21_go_constant.

(** So the constant parses to the document exactly when no string of it has a backtick. *)
Theorem C21_constant_parses : forall (pn : num -> option string) (rd : string -> option num) (yaml : json -> res string) ord srt1 srt2,
  (forall l, Permutation (ord l) l) -> is_item_sort srt1 -> is_item_sort srt2 ->
  (forall n t, pn n = Some t -> is_number t = true /\ rd t = Some n) ->
  forall j, wf j -> (forall n, In n (numbers j) -> pn n <> None) -> plain_root j ->
  (forall s, In s (strings j) -> has_char "`" s = false) ->
  exists file lit v, format pn rd yaml ord srt1 srt2 "go" j = Ok file /\ declares file lit /\
    raw_literal lit = Some (v, NL) /\ read_json rd v = Some j.
Proof.
  intros pn rd yaml ord srt1 srt2 Ho H1 H2 Hp j Hw Hn Hk Hb.
  destruct (C20_json_reads_back pn rd yaml ord srt1 srt2 Ho H1 H2 j Hw) as (t & p & E & R & _); [|exact Hk|].
  - intros n I. destruct (pn n) as [t|] eqn:Et; [|now elim (Hn n I)]. exists t. split; [reflexivity | now apply Hp].
  - destruct (C21_go_constant pn rd yaml ord srt1 srt2 Ho H1 H2 (fun n t H => proj1 (Hp n t H)) j t E) as (file & lit & Ef & D & L & _).
    exists file, lit, t. auto.
Qed.
Print Assumptions C21_constant_parses.

Example C21_ex_hyp : (forall n t, ex_pn n = Some t -> is_number t = true /\ ex_rd t = Some n) /\
  (forall n, In n (numbers ex_doc) -> ex_pn n <> None) /\ (forall s, In s (strings ex_doc) -> has_char "`" s = false).
Proof.
  split; [|split].
  - intros n t H. destruct n as [z|m e|]; try discriminate. destruct m as [|m|m]; try discriminate.
    do 3 (destruct m as [m|m|]; try discriminate); destruct e as [|e|e]; try discriminate; try destruct e; try discriminate; injection H as <-; repeat split.
  - cbn. intros n [<-|[<-|[]]]; discriminate.
  - intros s I. vm_compute in I. repeat (destruct I as [<-|I]; [vm_compute; reflexivity|]). destruct I.
Qed.
(** A description with an inline-code plus sign: the file still compiles (two raw
    literals joined by +), but the constant lost the plus sign and the backticks. *)
Example C21_ex_backtick : exists file lit, format ex_pn ex_rd (fun _ => Err) (fun l => l) ex_sort ex_sort "go" (JObj [("d", JStr "a `+` b")]) = Ok file /\
  declares file lit /\ lit = "{""d"":""a `+` b""}`" +++ NL /\ raw_literal lit = Some ("{""d"":""a ", "+` b""}`" +++ NL).
Proof.
  exists (go_file "main" "{""d"":""a `+` b""}"), ("{""d"":""a `+` b""}`" +++ NL). split; [vm_compute; reflexivity|].
  split; [apply (declared "main"); reflexivity | split; reflexivity].
Qed.
