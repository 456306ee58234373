(** Theorems about containers in memory (C22). *)
From Coq Require Import String Ascii List Bool Arith ZArith Lia Permutation.
From Verif Require Import GoStr GoStrFacts Json JsonFacts Gabs Container HeapCont HeapMmap Spec_Heap HeapFacts HeapSet HeapSearch HeapMerge HeapApi HeapMmapFacts.
Import ListNotations.
Local Open Scope string_scope.
Local Open Scope nat_scope.
Local Open Scope list_scope.

Definition no_containers (h : heap) : state := {| hp := h; var := fun _ => None |}.

(** A program that makes, clones, sets and merges containers (from parts of each
    other and from its own memory), and between the calls changes any memory that
    is not inside a container, gets the outcomes and ends with the contents it
    would get if every container were a value of its own. *)
Theorem C22_history : forall h os st rs, run (no_containers h) os st rs ->
  let (e, outcomes) := vrun (fun _ => c_zero) os in
  rs = outcomes /\
  forall i, match var st i with
            | None => e i = None
            | Some v => exists j, e i = Some j /\ hmarshal (hp st) v = Some j
            end.
Proof.
  intros h os st rs H. destruct (run_spec _ _ _ _ H _ (inv_start h)) as (A & B). destruct (vrun (fun _ => c_zero) os) as [e xs]. cbn [fst snd] in *.
  split; [now symmetry|]. intro i. exact (inv_reads _ _ i B).
Qed.
(** No two containers ever share a map or a slice. *)
Theorem C22_nothing_shared : forall h os st rs, run (no_containers h) os st rs ->
  forall i k v w a, i <> k -> var st i = Some v -> var st k = Some w -> reach (hp st) v a -> reach (hp st) w a -> False.
Proof.
  intros h os st rs H i k v w a N Ev Ew Rv Rw. destruct (run_spec _ _ _ _ H _ (inv_start h)) as (_ & B).
  exact (inv_disjoint _ _ i k a B N (ex_intro _ v (conj Ev Rv)) (ex_intro _ w (conj Ew Rw))).
Qed.
(** A call writes to no existing memory except the inside of the container it is
    called on, and that container does not take over any existing memory: neither
    the source container nor the value passed changes, now or later. *)
Theorem C22_sources_untouched : forall h os st rs, run (no_containers h) os st rs -> forall o st' r, ready (hp st) o -> hstep st o = (st', r) ->
  (forall a, a < length (hp st) -> ~ (exists v, var st (target o) = Some v /\ reach (hp st) v a) -> nth_error (hp st') a = nth_error (hp st) a) /\
  (forall v a, var st' (target o) = Some v -> reach (hp st') v a -> a < length (hp st) -> exists w, var st (target o) = Some w /\ reach (hp st) w a) /\
  (forall i, i <> target o -> var st' i = var st i).
Proof.
  intros h os st rs H o st' r Rd E. destruct (run_spec _ _ _ _ H _ (inv_start h)) as (_ & B).
  pose proof (step_spec st _ o B Rd) as S. rewrite E in S. destruct S as (_ & _ & _ & A1 & A2 & A3).
  split; [exact A1|]. split; [|exact A3]. intros v a Ev Rv La. destruct (A2 a (ex_intro _ v (conj Ev Rv))) as [K|K]; [exact K | lia].
Qed.
(** The value version of Merge is Container.v's, for an iteration order that
    visits each entry of each map once; and it ends. *)
Theorem C22_merge_by_value : forall ordk, (forall p ks, Permutation (ordk p ks) ks) -> forall coll c src,
  (forall c', vmerge ordk (resolve coll) c src = (c', Ok tt) <-> c_merge (fun p m => order_by (ordk p (keys m)) m) (resolve coll) c src = Ok c') /\
  (snd (vmerge ordk (resolve coll) c src) = Ok tt \/ snd (vmerge ordk (resolve coll) c src) = Err) /\
  (forall p (m : list (string * json)), sorted m -> Permutation (order_by (ordk p (keys m)) m) m).
Proof.
  intros ordk P coll c src. split; [intro; apply vmerge_ok|]. split; [apply vmerge_total|]. intros p m S. apply order_perm; [exact S | apply P].
Qed.

(** The conversion of keys that precedes every copy writes nothing when the value
    holds no map with interface keys ... *)
Theorem C22_conversion_writes_nothing : forall n h v h' w, plain_below h v -> ymmap n h v = Some (h', w) -> h' = h /\ w = v.
Proof. exact ymmap_plain. Qed.
(** ... and rewrites the caller's own slice when it holds one: Make and SetP do
    change the value passed. *)
Theorem C22_argument_changed_refuted :
  ~ (forall n h v h' w a, ymmap n h v = Some (h', w) -> a < length h -> nth_error h' a = nth_error h a).
Proof.
  intro H. specialize (H 3 [YAny [("k", YLit (JBool true))]; YArr [YRef 0]] (YRef 1) _ _ 1 eq_refl ltac:(cbn; lia)). discriminate H.
Qed.

Print Assumptions C22_history.
Print Assumptions C22_nothing_shared.
Print Assumptions C22_sources_untouched.
Print Assumptions C22_merge_by_value.
Print Assumptions C22_conversion_writes_nothing.
Print Assumptions C22_argument_changed_refuted.

(** A program: the caller owns an object {"a":{"b":[1]}} in cells 0-2; a container
    is made from it, another from part of the first, merged and set; then the
    caller overwrites its own memory and the first container is changed. *)
Definition ex_heap : heap := [CArr [HNum (NInt 1)]; CObj [("b", HRef 0)]; CObj [("a", HRef 1)]].
Definition ex_json : json := JObj [("a", JObj [("b", JArr [JNum (NInt 1)])])].
Definition ex_calls : list op :=
  [OMake 0 (FromMem (HRef 2) ex_json); OMake 1 (FromVar 0 "a"); OMerge 0 (FromMem (HRef 1) (JObj [("b", JArr [JNum (NInt 1)])])) Strict (fun _ ks => rev ks);
   OSetP 0 "a.b.0" (FromVar 1 "b"); OMerge 1 (FromVar 0 "a") Override (fun _ ks => ks); OClone 2 0].
Definition ex_final : state := fst (fold_left (fun s o => hstep (fst s) o) ex_calls (no_containers ex_heap, Ok tt)).
Example heap_run : exists rs, run (no_containers ex_heap) ex_calls ex_final rs /\ rs = [Ok tt; Ok tt; Ok tt; Ok tt; Ok tt; Ok tt].
Proof.
  eexists. split.
  - unfold ex_calls. repeat (eapply run_call; [cbn; repeat split; try reflexivity; intros; first [apply Permutation_sym, Permutation_rev | apply Permutation_refl] | vm_compute; reflexivity |]). apply run_nil.
  - reflexivity.
Qed.
Example heap_run_values : map (fun i => option_map (fun v => hmarshal (hp ex_final) v) (var ex_final i)) [0; 1] =
  [Some (Some (JObj [("a", JObj [("b", JArr [JArr [JNum (NFlt 1 0)]])]); ("b", JArr [JNum (NFlt 1 0)])])); Some (Some (JObj [("b", JArr [JArr [JNum (NFlt 1 0)]])]))].
Proof. vm_compute. reflexivity. Qed.
Example plain_value : plain_below [YArr [YLit (JBool true)]; YObj [("k", YRef 0)]] (YRef 1) /\
  ymmap 5 [YArr [YLit (JBool true)]; YObj [("k", YRef 0)]] (YRef 1) = Some ([YArr [YLit (JBool true)]; YObj [("k", YRef 0)]], YRef 1).
Proof.
  split; [|reflexivity]. intros a c R E. destruct a as [|[|a]]; cbn in E; [injection E as <-; exact Logic.I | injection E as <-; cbn; auto | destruct a; discriminate].
Qed.
