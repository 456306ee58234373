(** unquote means what Go string literals mean. *)
From Coq Require Import String Ascii List Bool Arith NArith ZArith Lia.
From Verif Require Import GoStr GoStrFacts Json MergeFacts Url Tag Spec_Tag Spec_TagQuote.
Import ListNotations.
Local Open Scope string_scope.
Local Open Scope nat_scope.
Local Open Scope list_scope.
Local Ltac Zify.zify_post_hook ::= Z.to_euclidean_division_equations.

Lemma hex_val_digit c d : hex_val c = Some d -> digit 16 c (N.of_nat d).
Proof.
  destruct c as [[] [] [] [] [] [] [] []]; intro H; vm_compute in H; try discriminate H; injection H as <-;
    (split; [vm_compute; reflexivity|]); first [left; split; [vm_compute; reflexivity | vm_compute; reflexivity] | right; split; [vm_compute; discriminate | first [left; vm_compute; reflexivity | right; vm_compute; reflexivity]]].
Qed.
Lemma oct_val_digit c d : oct_val c = Some d -> digit 8 c (N.of_nat d).
Proof.
  destruct c as [[] [] [] [] [] [] [] []]; intro H; vm_compute in H; try discriminate H; injection H as <-;
    (split; [vm_compute; reflexivity|]); left; split; vm_compute; reflexivity.
Qed.
Lemma below16 (P : N -> Prop) : Forall P [0;1;2;3;4;5;6;7;8;9;10;11;12;13;14;15]%N -> forall d, (d < 16)%N -> P d.
Proof. rewrite Forall_forall. intros H d L. apply H. assert (E : exists k, k < 16 /\ d = N.of_nat k) by (exists (N.to_nat d); split; lia). destruct E as (k & Lk & ->). do 16 (destruct k as [|k]; [cbn; tauto|]). lia. Qed.
Lemma digit_hex_val c d : digit 16 c d -> hex_val c = Some (N.to_nat d).
Proof.
  intros (L & H). revert c H. refine (below16 (fun d => forall c, _ -> hex_val c = Some (N.to_nat d)) _ d L).
  repeat (constructor; [intros c [(X & ->)|(X & [-> | ->])]; try (exfalso; lia); vm_compute; reflexivity|]). constructor.
Qed.
Lemma digit_oct_val c d : digit 8 c d -> oct_val c = Some (N.to_nat d) /\ simple_escape c = None /\ c <> "x"%char /\ c <> "u"%char /\ c <> "U"%char.
Proof.
  intros (L & H). assert (L' : (d < 16)%N -> forall c, (d < 10 /\ c = ascii_of_N (48 + d) \/ 10 <= d /\ (c = ascii_of_N (87 + d) \/ c = ascii_of_N (55 + d)))%N -> (d < 8)%N -> oct_val c = Some (N.to_nat d) /\ simple_escape c = None /\ c <> "x"%char /\ c <> "u"%char /\ c <> "U"%char).
  { intro L16. pattern d. apply below16; [|exact L16]. repeat (constructor; [intros c0 [(X & ->)|(X & [-> | ->])] Y; try (exfalso; lia); (split; [vm_compute; reflexivity|]; split; [vm_compute; reflexivity|]; repeat split; vm_compute; discriminate)|]). constructor. }
  apply L'; [lia | exact H | exact L].
Qed.

(** ** numbers *)
Fixpoint number (base : N) (val : ascii -> option nat) (acc : N) (s : string) : option N :=
  match s with EmptyString => Some acc | String c r => match val c with Some d => number base val (base * acc + N.of_nat d)%N r | None => None end end.
Lemma number_snoc base val s c : forall acc, number base val acc (s +++ str1 c) = match number base val acc s with Some n => match val c with Some d => Some (base * n + N.of_nat d)%N | None => None end | None => None end.
Proof. induction s as [|x s IH]; intro acc; cbn [String.append number str1]; [cbn; destruct (val c); reflexivity|]. destruct (val x); [apply IH | reflexivity]. Qed.
Lemma str_snoc s : s = "" \/ exists s' c, s = s' +++ str1 c.
Proof. induction s as [|x s [-> |(s' & c & ->)]]; [now left | right; exists "", x; reflexivity | right; exists (String x s'), c; reflexivity]. Qed.
Lemma length_snoc s c : String.length (s +++ str1 c) = S (String.length s).
Proof. induction s; cbn; congruence. Qed.
Lemma number_digits base val (V1 : forall c d, val c = Some d -> digit base c (N.of_nat d)) (V2 : forall c d, digit base c d -> val c = Some (N.to_nat d)) s n :
  number base val 0 s = Some n <-> digits base s n.
Proof.
  split.
  - revert n. remember (String.length s) as l eqn:El. revert s El. induction l as [|l IH]; intros s El n H; (destruct (str_snoc s) as [-> |(s' & c & ->)]; [cbn in H; injection H as <-; constructor|]); rewrite length_snoc in El; [discriminate|].
    rewrite number_snoc in H. destruct (number base val 0 s') as [m|] eqn:Em; [|discriminate]. destruct (val c) as [d|] eqn:Ed; [|discriminate]. injection H as <-.
    constructor; [apply IH; [congruence | exact Em] | now apply V1].
  - induction 1 as [|s n c d D IH Dc]; [reflexivity|]. rewrite number_snoc, IH, (V2 _ _ Dc). f_equal. lia.
Qed.
Definition hex_digits := number_digits 16 hex_val hex_val_digit digit_hex_val.
Definition oct_digits := number_digits 8 oct_val oct_val_digit (fun c d H => proj1 (digit_oct_val c d H)).
Lemma hex_number_number s : forall acc, hex_number acc (list_ascii_of_string s) = number 16 hex_val acc s.
Proof. induction s as [|c s IH]; intro acc; cbn [hex_number number list_ascii_of_string]; [reflexivity|]. destruct (hex_val c); [apply IH | reflexivity]. Qed.

(** ** UTF-8 *)
Lemma encode_utf8 n u : encode_rune n = Some u <-> utf8 n u.
Proof.
  unfold encode_rune, nbyte. split.
  - destruct (N.ltb_spec n 128) as [A|A]; [intros [= <-]; now constructor|].
    destruct (N.ltb_spec n 2048) as [B|B]; [intros [= <-]; apply (utf8_2 n (n / 64) (n mod 64)); [lia | split; [lia | reflexivity] | lia]|].
    destruct (N.leb_spec 55296 n) as [C|C], (N.leb_spec n 57343) as [D|D]; cbn [andb]; try (intro X; discriminate X);
    (destruct (N.ltb_spec n 65536) as [E|E];
      [intros [= <-]; apply (utf8_3 n (n / 4096) ((n / 64) mod 64) (n mod 64)); [lia | lia | split; [lia | reflexivity] | split; [lia | reflexivity] | lia]|]);
    (destruct (N.leb_spec n 1114111) as [G|G]; [|intro X; discriminate X]);
    (intros [= <-]; apply (utf8_4 n (n / 262144) ((n / 4096) mod 64) ((n / 64) mod 64) (n mod 64)); [lia | split; [lia | reflexivity] | split; [lia | reflexivity] | split; [lia | reflexivity] | lia]).
  - intros [A|a x c A (X & ->) E|a x y c d A B (X & ->) (Y & ->) E|a x y z c d e A (X & ->) (Y & ->) (Z & ->) E].
    + destruct (N.ltb_spec n 128); [reflexivity | lia].
    + destruct (N.ltb_spec n 128); [lia|]. destruct (N.ltb_spec n 2048); [|lia]. assert (n / 64 = a)%N as -> by lia. assert (n mod 64 = x)%N as -> by lia. reflexivity.
    + destruct (N.ltb_spec n 128); [lia|]. destruct (N.ltb_spec n 2048); [lia|]. assert (Q : ((55296 <=? n) && (n <=? 57343))%N = false) by (destruct (N.leb_spec 55296 n), (N.leb_spec n 57343); try reflexivity; lia). rewrite Q.
      destruct (N.ltb_spec n 65536); [|lia]. assert (n / 4096 = a)%N as -> by lia. assert ((n / 64) mod 64 = x)%N as -> by lia. assert (n mod 64 = y)%N as -> by lia. reflexivity.
    + destruct (N.ltb_spec n 128); [lia|]. destruct (N.ltb_spec n 2048); [lia|]. assert (Q : ((55296 <=? n) && (n <=? 57343))%N = false) by (destruct (N.leb_spec 55296 n), (N.leb_spec n 57343); try reflexivity; lia). rewrite Q.
      destruct (N.ltb_spec n 65536); [lia|]. destruct (N.leb_spec n 1114111); [|lia]. assert (n / 262144 = a)%N as -> by lia. assert ((n / 4096) mod 64 = x)%N as -> by lia. assert ((n / 64) mod 64 = y)%N as -> by lia. assert (n mod 64 = z)%N as -> by lia. reflexivity.
Qed.
Lemma unicode_escape_utf8 s u : unicode_escape (list_ascii_of_string s) = Some u <-> exists n, digits 16 s n /\ utf8 n u.
Proof.
  unfold unicode_escape. rewrite hex_number_number. split.
  - destruct (number 16 hex_val 0 s) as [n|] eqn:E; [|discriminate]. intro H. exists n. split; [now apply hex_digits | now apply encode_utf8].
  - intros (n & D & U). apply hex_digits in D. rewrite D. now apply encode_utf8.
Qed.

(** ** the whole literal *)
Lemma append_assoc a b c : (a +++ b) +++ c = a +++ (b +++ c). Proof. induction a; cbn; congruence. Qed.
Lemma unquote_step c r : unquote (String c r) =
  if Ascii.eqb c (ascii_of_nat 10) || Ascii.eqb c dquote then Err
  else if Ascii.eqb c backslash then
    match r with
    | EmptyString => Err
    | String e t =>
        match simple_escape e with
        | Some x => do u <- unquote t ; Ok (String x u)
        | None =>
            if Ascii.eqb e "x" then
              match t with
              | String h1 (String h2 t') => match hex2 h1 h2 with Some n => do u <- unquote t' ; Ok (String (ascii_of_nat n) u) | None => Err end
              | _ => Err
              end
            else if Ascii.eqb e "u" then
              match t with
              | String a (String b (String d (String f t'))) => match unicode_escape [a; b; d; f] with Some x => do u <- unquote t' ; Ok (x +++ u) | None => Err end
              | _ => Err
              end
            else if Ascii.eqb e "U" then
              match t with
              | String a (String b (String d (String f (String g (String h (String i (String j t'))))))) =>
                  match unicode_escape [a; b; d; f; g; h; i; j] with Some x => do u <- unquote t' ; Ok (x +++ u) | None => Err end
              | _ => Err
              end
            else match t with
                 | String o2 (String o3 t') =>
                     match oct_val e, oct_val o2, oct_val o3 with
                     | Some a, Some b, Some d => if 64 * a + 8 * b + d <? 256 then do u <- unquote t' ; Ok (String (ascii_of_nat (64 * a + 8 * b + d)) u) else Err
                     | _, _, _ => Err
                     end
                 | _ => Err
                 end
        end
    end
  else do u <- unquote r ; Ok (String c u).
Proof. reflexivity. Qed.
Lemma simple_escape_in c x : simple_escape c = Some x <-> exists n, In (c, n) letter_escapes /\ x = ascii_of_nat n.
Proof.
  unfold simple_escape. split.
  - intro H. repeat (match type of H with context [Ascii.eqb c ?k] => destruct (Ascii.eqb_spec c k) as [Ee|_]; [subst c; injection H as <-; eexists; split; [cbn; tauto | vm_compute; reflexivity]|] end). discriminate.
  - intros (n & I & ->). repeat (destruct I as [I|I]; [injection I as <- <-; vm_compute; reflexivity|]). destruct I.
Qed.
Lemma hex2_digits a b n : hex2 a b = Some n <-> digits 16 (String a (str1 b)) (N.of_nat n).
Proof.
  unfold hex2. rewrite <- hex_digits. cbn [number str1]. destruct (hex_val a) as [x|]; [|split; discriminate]. destruct (hex_val b) as [y|]; [|split; discriminate].
  split; [intros [= <-]; f_equal; lia | intro H; f_equal; assert (E : forall p q : N, Some p = Some q -> p = q) by (intros p q E; congruence); apply E in H; lia].
Qed.
Lemma ascii_nat_N n : ascii_of_nat n = ascii_of_N (N.of_nat n). Proof. reflexivity. Qed.

Lemma literal_unquote s u : literal s u -> unquote s = Ok u.
Proof.
  induction 1 as [|e x s u E L IH]; [reflexivity|]. destruct E as [c N1 N2 N3|c n I|s0 n Ln D|s0 n Ln D B|s0 n v Ln D U|s0 n v Ln D U].
  - cbn [String.append str1]. rewrite unquote_step. destruct (Ascii.eqb_spec c (ascii_of_nat 10)); [congruence|]. destruct (Ascii.eqb_spec c dquote); [congruence|]. destruct (Ascii.eqb_spec c backslash); [congruence|]. cbn [orb]. now rewrite IH.
  - cbn [String.append str1]. rewrite unquote_step. change (Ascii.eqb backslash (ascii_of_nat 10) || Ascii.eqb backslash dquote) with false. change (Ascii.eqb backslash backslash) with true. cbn iota.
    rewrite (proj2 (simple_escape_in c (ascii_of_nat n))) by eauto. now rewrite IH.
  - destruct s0 as [|a [|b [|]]]; try discriminate Ln. cbn [String.append str1]. rewrite unquote_step. change (Ascii.eqb backslash (ascii_of_nat 10) || Ascii.eqb backslash dquote) with false. change (Ascii.eqb backslash backslash) with true. cbn iota.
    change (simple_escape "x") with (@None ascii). change (Ascii.eqb "x" "x") with true. cbn iota. rewrite <- (N2Nat.id n) in D. apply hex2_digits in D. rewrite D, IH. cbn [bind]. now rewrite ascii_nat_N, N2Nat.id.
  - destruct s0 as [|a [|b [|d [|]]]]; try discriminate Ln. apply oct_digits in D. cbn [number] in D. destruct (oct_val a) as [x|] eqn:Ea; [|discriminate]. destruct (oct_val b) as [y|] eqn:Eb; [|discriminate]. destruct (oct_val d) as [z|] eqn:Ed; [|discriminate].
    assert (En : n = N.of_nat (64 * x + 8 * y + z)) by (assert (E : forall p q : N, Some p = Some q -> p = q) by (intros p q E; congruence); apply E in D; lia). subst n. clear D.
    destruct (digit_oct_val a _ (oct_val_digit a x Ea)) as (_ & Es & X1 & X2 & X3).
    cbn [String.append str1]. rewrite unquote_step. change (Ascii.eqb backslash (ascii_of_nat 10) || Ascii.eqb backslash dquote) with false. change (Ascii.eqb backslash backslash) with true. cbn iota. rewrite Es.
    destruct (Ascii.eqb_spec a "x"); [congruence|]. destruct (Ascii.eqb_spec a "u"); [congruence|]. destruct (Ascii.eqb_spec a "U"); [congruence|]. rewrite Ea, Eb, Ed, IH.
    destruct (Nat.ltb_spec (64 * x + 8 * y + z) 256); [|lia]. cbn [bind]. now rewrite ascii_nat_N.
  - destruct s0 as [|a [|b [|d [|f [|]]]]]; try discriminate Ln. assert (X : unicode_escape [a; b; d; f] = Some v) by (apply (unicode_escape_utf8 (String a (String b (String d (String f ""))))); eauto).
    cbn [String.append str1]. rewrite unquote_step. change (Ascii.eqb backslash (ascii_of_nat 10) || Ascii.eqb backslash dquote) with false. change (Ascii.eqb backslash backslash) with true. cbn iota.
    change (simple_escape "u") with (@None ascii). change (Ascii.eqb "u" "x") with false. change (Ascii.eqb "u" "u") with true. cbn iota. rewrite X, IH. reflexivity.
  - destruct s0 as [|a [|b [|d [|f [|g [|h [|i [|j [|]]]]]]]]]; try discriminate Ln. assert (X : unicode_escape [a; b; d; f; g; h; i; j] = Some v) by (apply (unicode_escape_utf8 (String a (String b (String d (String f (String g (String h (String i (String j ""))))))))); eauto).
    cbn [String.append str1]. rewrite unquote_step. change (Ascii.eqb backslash (ascii_of_nat 10) || Ascii.eqb backslash dquote) with false. change (Ascii.eqb backslash backslash) with true. cbn iota.
    change (simple_escape "U") with (@None ascii). change (Ascii.eqb "U" "x") with false. change (Ascii.eqb "U" "u") with false. change (Ascii.eqb "U" "U") with true. cbn iota. rewrite X, IH. reflexivity.
Qed.
Lemma unquote_literal_len n : forall s u, String.length s <= n -> unquote s = Ok u -> literal s u.
Proof.
  induction n as [|n IH]; intros [|c r] u Hl H; try (cbn in H; injection H as <-; constructor); [cbn in Hl; lia|]. rewrite unquote_step in H. cbn [String.length] in Hl.
  destruct (Ascii.eqb_spec c (ascii_of_nat 10)) as [|N1]; [discriminate|]. destruct (Ascii.eqb_spec c dquote) as [|N2]; [discriminate|]. cbn [orb] in H.
  destruct (Ascii.eqb_spec c backslash) as [Ec|N3]; [subst c|].
  2:{ apply bind_ok in H as (v & Hv & H). injection H as <-. apply (lit_cons (str1 c) (str1 c) r v); [now constructor | apply IH; [lia | exact Hv]]. }
  destruct r as [|e t]; [discriminate|]. cbn [String.length] in Hl. destruct (simple_escape e) as [x|] eqn:Es.
  { apply bind_ok in H as (v & Hv & H). injection H as <-. apply simple_escape_in in Es as (k & Ik & ->). apply (lit_cons (String backslash (str1 e)) (str1 (ascii_of_nat k)) t v); [now constructor | apply IH; [lia | exact Hv]]. }
  destruct (Ascii.eqb_spec e "x") as [Ee|_]; [subst e|].
  { destruct t as [|a [|b t]]; try discriminate. destruct (hex2 a b) as [k|] eqn:Ek; [|discriminate]. apply bind_ok in H as (v & Hv & H). injection H as <-. rewrite ascii_nat_N. cbn [String.length] in Hl.
    apply (lit_cons (String backslash (String "x" (String a (str1 b)))) (str1 (ascii_of_N (N.of_nat k))) t v); [apply el_hex; [reflexivity | now apply hex2_digits] | apply IH; [lia | exact Hv]]. }
  destruct (Ascii.eqb_spec e "u") as [Ee|_]; [subst e|].
  { destruct t as [|a [|b [|d [|f t]]]]; try discriminate. destruct (unicode_escape [a; b; d; f]) as [x|] eqn:Ex; [|discriminate]. apply bind_ok in H as (v & Hv & H). assert (u = x +++ v) as -> by congruence. cbn [String.length] in Hl.
    apply (unicode_escape_utf8 (String a (String b (String d (String f ""))))) in Ex as (k & D & U).
    apply (lit_cons (String backslash (String "u" (String a (String b (String d (str1 f)))))) x t v); [now apply (el_u4 _ k) | apply IH; [lia | exact Hv]]. }
  destruct (Ascii.eqb_spec e "U") as [Ee|_]; [subst e|].
  { destruct t as [|a [|b [|d [|f [|g [|h [|i [|j t]]]]]]]]; try discriminate. destruct (unicode_escape [a; b; d; f; g; h; i; j]) as [x|] eqn:Ex; [|discriminate]. apply bind_ok in H as (v & Hv & H). assert (u = x +++ v) as -> by congruence. cbn [String.length] in Hl.
    apply (unicode_escape_utf8 (String a (String b (String d (String f (String g (String h (String i (String j ""))))))))) in Ex as (k & D & U).
    apply (lit_cons (String backslash (String "U" (String a (String b (String d (String f (String g (String h (String i (str1 j)))))))))) x t v); [now apply (el_u8 _ k) | apply IH; [lia | exact Hv]]. }
  destruct t as [|b [|d t]]; try discriminate. destruct (oct_val e) as [x|] eqn:Ea; [|discriminate]. destruct (oct_val b) as [y|] eqn:Eb; [|discriminate]. destruct (oct_val d) as [z|] eqn:Ed; [|discriminate].
  destruct (Nat.ltb_spec (64 * x + 8 * y + z) 256) as [B|]; [|discriminate]. apply bind_ok in H as (v & Hv & H). assert (u = String (ascii_of_nat (64 * x + 8 * y + z)) v) as -> by congruence. rewrite ascii_nat_N. cbn [String.length] in Hl.
  apply (lit_cons (String backslash (String e (String b (str1 d)))) (str1 (ascii_of_N (N.of_nat (64 * x + 8 * y + z)))) t v); [apply el_oct; [reflexivity | | lia] | apply IH; [lia | exact Hv]].
  apply oct_digits. cbn [number]. rewrite Ea, Eb. cbn [str1 number]. rewrite Ed. f_equal. lia.
Qed.
Theorem unquote_literal s u : unquote s = Ok u <-> literal s u.
Proof. split; [apply (unquote_literal_len (String.length s)), le_n | apply literal_unquote]. Qed.
