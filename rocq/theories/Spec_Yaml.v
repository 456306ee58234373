(** What converting YAML maps must do. *)
From Coq Require Import String List Bool ZArith.
From Verif Require Import Json Yaml.
Import ListNotations.

(** No map with interface keys at any depth. *)
Inductive no_imap : yval -> Prop :=
| ni_null : no_imap YNull
| ni_bool b : no_imap (YBool b)
| ni_num n : no_imap (YNum n)
| ni_str s : no_imap (YStr s)
| ni_seq l : Forall no_imap l -> no_imap (YSeq l)
| ni_map m : Forall (fun kv => no_imap (snd kv)) m -> no_imap (YMapS m).

(** [converted v v']: same shape, with interface-keyed maps turned into
    string-keyed ones: every entry's printed key is present, every key present
    comes from an entry with that printed key and holds its converted value. *)
Inductive converted : yval -> yval -> Prop :=
| cv_null : converted YNull YNull
| cv_bool b : converted (YBool b) (YBool b)
| cv_num n : converted (YNum n) (YNum n)
| cv_str s : converted (YStr s) (YStr s)
| cv_seq l l' : Forall2 converted l l' -> converted (YSeq l) (YSeq l')
| cv_maps m m' :
    Forall2 (fun kv kv' => fst kv = fst kv' /\ converted (snd kv) (snd kv')) m m' ->
    converted (YMapS m) (YMapS m')
| cv_mapi m m' :
    sorted m' ->
    Forall (fun kv => oget (key_text (fst kv)) m' <> None) m ->
    Forall (fun kv' => exists k v, In (k, v) m /\ key_text k = fst kv' /\ converted v (snd kv')) m' ->
    converted (YMapI m) (YMapS m').

(** No two entries of an interface-keyed map print the same key. *)
Inductive distinct_keys : yval -> Prop :=
| dk_null : distinct_keys YNull
| dk_bool b : distinct_keys (YBool b)
| dk_num n : distinct_keys (YNum n)
| dk_str s : distinct_keys (YStr s)
| dk_seq l : Forall distinct_keys l -> distinct_keys (YSeq l)
| dk_maps m : Forall (fun kv => distinct_keys (snd kv)) m -> distinct_keys (YMapS m)
| dk_mapi m : NoDup (map (fun kv => key_text (fst kv)) m) ->
    Forall (fun kv => distinct_keys (snd kv)) m -> distinct_keys (YMapI m).
