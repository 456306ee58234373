(** The recursion depths of the model do not matter: a run that is not cut off
    gives the same result with any greater depth (proofs). *)
From Coq Require Import String Ascii List Bool Arith ZArith Lia.
From Verif Require Import GoStr Json Gabs Container Url Pointer Path Resolver ResolverFacts ScanFn Cmds Specs Pkgs Tag Types Root SchemaJson Scan.
Import ListNotations.
Local Open Scope string_scope.
Local Open Scope nat_scope.
Local Open Scope list_scope.

(** [y] is the result [x], unless [x] was cut off. *)
Definition deeper {A} (x y : res A) : Prop := x = OutOfFuel \/ y = x.
Lemma deeper_refl {A} (x : res A) : deeper x x. Proof. now right. Qed.
Lemma deeper_bind {A B} (x y : res A) (f g : A -> res B) : deeper x y -> (forall v, deeper (f v) (g v)) -> deeper (bind x f) (bind y g).
Proof. intros [-> | ->] H; [now left|]. destruct x; cbn [bind]; [apply H | now right | now right | now left]. Qed.
Lemma deeper_eq {A} (x y : res A) : deeper x y -> x <> OutOfFuel -> y = x. Proof. intros [H|H] N; congruence. Qed.
Local Hint Resolve deeper_refl deeper_bind : deep.

(** *** Packages *)
Lemma visit_all_deeper {A} (v w : option nat -> @vstate A -> res (@vstate A)) l : (forall x s, deeper (v x s) (w x s)) -> forall s, deeper (visit_all v l s) (visit_all w l s).
Proof. intro H. induction l as [|x l IH]; intro s; cbn [visit_all]; [apply deeper_refl|]. apply deeper_bind; auto. Qed.
Lemma visit_deeper {A} (f g : nat -> A -> res (A * bool)) std ord srt ps : (forall i y, deeper (f i y) (g i y)) -> forall n n' p s, n <= n' ->
  deeper (visit f std ord srt ps n p s) (visit g std ord srt ps n' p s).
Proof.
  intro H. induction n as [|n IH]; intros n' p s Hn; [now left|]. destruct n' as [|n']; [lia|]. cbn [visit].
  destruct p as [i|]; [|apply deeper_refl]. destruct s as ((seen & errs) & x). destruct (existsb (Nat.eqb i) seen); [apply deeper_refl|].
  destruct (nth_error ps i) as [pkg|]; [|apply deeper_refl]. destruct (std (g_path pkg)); [apply deeper_refl|].
  apply deeper_bind; [apply visit_all_deeper; intros; apply IH; lia|]. intros ((seen1 & errs1) & x1). apply deeper_bind; [apply H | intro; apply deeper_refl].
Qed.
Lemma scan_pkgs_deeper {A} (f g : nat -> A -> res (A * bool)) std ord srt ps n n' roots x : (forall i y, deeper (f i y) (g i y)) -> n <= n' ->
  deeper (scan_pkgs f std ord srt ps n roots x) (scan_pkgs g std ord srt ps n' roots x).
Proof. intros H Hn. unfold scan_pkgs. apply deeper_bind; [|intro; apply deeper_refl]. apply visit_all_deeper. intros. now apply visit_deeper. Qed.

(** *** Types *)
Lemma walk_next_deeper env (v w : ptr -> gty -> pmap -> res pmap) l : (forall p t m, deeper (v p t m) (w p t m)) -> forall m, deeper (walk_next env v l m) (walk_next env w l m).
Proof.
  intro H. induction l as [|(p & t) l IH]; intro m; cbn [walk_next]; [apply deeper_refl|]. apply deeper_bind; [apply H|]. intro m1. apply deeper_bind; [|intro; apply IH].
  destruct t; try apply deeper_refl. destruct (nth_error env _) as [d|]; [|apply deeper_refl]. apply deeper_bind; [apply deeper_refl | intro; apply H].
Qed.
Lemma walk_deeper env n : forall n' path r t m, n <= n' -> deeper (walk env n path r t m) (walk env n' path r t m).
Proof.
  induction n as [|n IH]; intros n' path r t m Hn; [now left|]. destruct n' as [|n']; [lia|]. cbn [walk]. destruct (existsb _ path); [apply deeper_refl|].
  apply deeper_bind; [apply deeper_refl|]. intro next. apply walk_next_deeper. intros. apply IH. lia.
Qed.
Lemma scan_types_deeper env n n' pkg scope ptrs : n <= n' -> forall m, deeper (scan_types env n pkg scope ptrs m) (scan_types env n' pkg scope ptrs m).
Proof.
  intro Hn. induction ptrs as [|p l IH]; intro m; cbn [scan_types]; [apply deeper_refl|]. apply deeper_bind; [|intro; apply IH].
  destruct (negb _); [apply deeper_refl|]. destruct (negb _); [apply deeper_refl|]. destruct (frag_head _) as [h|]; [|apply deeper_refl]. destruct (scope h) as [o|]; [|apply deeper_refl].
  unfold collect_types. apply deeper_bind; [apply deeper_refl|]. intro. now apply walk_deeper.
Qed.
Section Types.
  Context {F : Type} (pf : string -> option F) (zero : F) (env : genv) (std : string -> option (schema F)) (pk : nat -> list ptr -> ptr).
  Lemma collect_each_deeper (c d : list (finfo * gty) -> res (list (sfield F))) l : (forall fs, deeper (c fs) (d fs)) -> deeper (collect_each pf env c l) (collect_each pf env d l).
  Proof.
    intro H. induction l as [|(i & t) l IH]; cbn [collect_each]; [apply deeper_refl|]. apply deeper_bind; [apply deeper_refl|]. intro tx. destruct (_ || _); [exact IH|].
    apply deeper_bind; [|intro; apply deeper_bind; [exact IH | intro; apply deeper_refl]]. destruct (cast_inline env i t tx); [apply H | apply deeper_refl].
  Qed.
  Lemma collect_fields_deeper n : forall n' path fs, n <= n' -> deeper (collect_fields pf env n path fs) (collect_fields pf env n' path fs).
  Proof.
    induction n as [|n IH]; intros n' path fs Hn; [now left|]. destruct n' as [|n']; [lia|]. cbn [collect_fields]. destruct (existsb _ path); [apply deeper_refl|].
    apply collect_each_deeper. intro. apply IH. lia.
  Qed.
  Lemma struct_fields_deeper (c d : nat -> sfield F -> res (schema F)) l : (forall k x, deeper (c k x) (d k x)) -> forall n s, deeper (struct_fields c n l s) (struct_fields d n l s).
  Proof. intro H. induction l as [|x l IH]; intros n s; cbn [struct_fields]; [apply deeper_refl|]. apply deeper_bind; [apply H | intro; apply IH]. Qed.
  Lemma type2schema_deeper n : forall n' g g' k m tp t tg, n <= n' -> g <= g' -> deeper (type2schema pf zero env std pk n g k m tp t tg) (type2schema pf zero env std pk n' g' k m tp t tg).
  Proof.
    induction n as [|n IH]; intros n' g g' k m tp t tg Hn Hg; [now left|]. destruct n' as [|n']; [lia|]. cbn [type2schema]. destruct (existsb _ tp); [apply deeper_refl|].
    assert (E : forall e, deeper (if gty_eqb (under env t) e then Err else type2schema pf zero env std pk n g k m (tp ++ [under env t]) e tg)
                                 (if gty_eqb (under env t) e then Err else type2schema pf zero env std pk n' g' k m (tp ++ [under env t]) e tg)).
    { intro e. destruct (gty_eqb _ e); [apply deeper_refl | apply IH; lia]. }
    destruct (under env t) as [i|b|e|e|z e|ke e|dir e|fs|i] eqn:Eu; try apply deeper_refl; try (apply deeper_bind; [apply E | intro; apply deeper_refl]).
    destruct tp as [|u tp]; [|apply deeper_refl]. apply deeper_bind; [now apply collect_fields_deeper|]. intro l. apply struct_fields_deeper. intros k0 x. destruct (negb _); [apply deeper_refl|].
    destruct (under env (sf_type x)); try apply deeper_refl; apply IH; lia.
  Qed.
  Lemma scanner_resolve_deeper n n' g g' ord m p : n <= n' -> g <= g' -> deeper (scanner_resolve pf zero env std pk n g ord m p) (scanner_resolve pf zero env std pk n' g' ord m p).
  Proof. intros. unfold scanner_resolve. destruct (pm_find ord m p); [now apply type2schema_deeper | apply deeper_refl]. Qed.
End Types.

(** *** References *)
Lemma rloop_deeper (b c : nat -> string -> json -> rstate -> res rstate) refs : (forall i k v s, deeper (b i k v s) (c i k v s)) -> forall i s, deeper (rloop b i refs s) (rloop c i refs s).
Proof. intro H. induction refs as [|(k & v) refs IH]; intros i s; cbn [rloop]; [apply deeper_refl|]. apply deeper_bind; [apply H | intro; apply IH]. Qed.
Lemma iterator_deeper ord es f g : (forall p, deeper (f p) (g p)) -> forall n n' pos pp s, n <= n' -> deeper (iterator ord es f n pos pp s) (iterator ord es g n' pos pp s).
Proof.
  intro H. induction n as [|n IH]; intros n' pos pp s Hn; [now left|]. destruct n' as [|n']; [lia|]. rewrite !iterator_S. apply deeper_bind; [apply deeper_refl|]. intro refs.
  apply rloop_deeper. intros i k v s0. unfold rstep. destruct v; try apply deeper_refl. apply deeper_bind; [apply deeper_refl|]. intro p. destruct (negb _); [apply deeper_refl|]. destruct (path_has pp p); [apply deeper_refl|].
  apply deeper_bind; [apply H|]. intro x. apply deeper_bind; [apply deeper_refl|]. intro nc. apply deeper_bind; [apply IH; lia | intro; apply deeper_refl].
Qed.
Lemma resolve_deeper ord es f g n n' c : (forall p, deeper (f p) (g p)) -> n <= n' -> deeper (resolve ord es f n c) (resolve ord es g n' c).
Proof. intros H Hn. unfold resolve. apply deeper_bind; [now apply iterator_deeper | intro; apply deeper_refl]. Qed.

(** *** Scan *)
Definition no_shallower (d d' : depths) : Prop :=
  de_pkgs d <= de_pkgs d' /\ de_walk d <= de_walk d' /\ de_type d <= de_type d' /\ de_fields d <= de_fields d' /\ de_resolve d <= de_resolve d'.
Section Scan.
  Context {F : Type} (pf : string -> option F) (zero : F) (fnum : F -> num) (std : string -> option (schema F)) (a : around) (ch : choices).
  Lemma scan_with_deeper d d' {A} n (f g : source -> nat -> A -> res (A * bool)) ss roots x : no_shallower d d' -> (forall s i y, deeper (f s i y) (g s i y)) ->
    deeper (scan_with a ch d n f ss roots x) (scan_with a ch d' n g ss roots x).
  Proof.
    intros (H1 & _) H. unfold scan_with. apply deeper_bind; [|intro; apply deeper_refl]. apply scan_pkgs_deeper; [|exact H1]. intros i y. destruct (nth_error ss i); [apply H | apply deeper_refl].
  Qed.
  Lemma go_types_deeper d d' pts p : no_shallower d d' -> deeper (go_types pf zero fnum std a ch d pts p) (go_types pf zero fnum std a ch d' pts p).
  Proof. intros (_ & _ & H3 & H4 & _). unfold go_types. apply deeper_bind; [now apply scanner_resolve_deeper | intro; apply deeper_refl]. Qed.
  Lemma scan_doc_deeper d d' o ss roots : no_shallower d d' -> deeper (scan_doc pf zero fnum std a ch d o ss roots) (scan_doc pf zero fnum std a ch d' o ss roots).
  Proof.
    intro H. pose proof H as (H1 & H2 & H3 & H4 & H5). unfold scan_doc.
    apply deeper_bind; [now apply scan_with_deeper; [|intros; apply deeper_refl]|]. intro cm. apply deeper_bind; [apply deeper_refl|]. intro es.
    apply deeper_bind; [now apply scan_with_deeper; [|intros; apply deeper_refl]|]. intro st. apply deeper_bind; [apply deeper_refl|]. intro c. cbv zeta.
    apply deeper_bind; [apply scan_with_deeper; [exact H|]; intros s i y; apply deeper_bind; [now apply scan_types_deeper | intro; apply deeper_refl]|]. intro pts.
    apply deeper_bind; [apply deeper_refl|]. intro c2. apply deeper_bind; [|intro; apply deeper_refl]. apply resolve_deeper; [|exact H5].
    intro p. unfold scan_fn. destruct (oget _ _); [apply deeper_refl|]. destruct (String.eqb _ _); [now apply go_types_deeper | apply deeper_refl].
  Qed.
  Theorem scan_deeper d d' l : no_shallower d d' -> deeper (scan pf zero fnum std a ch d l) (scan pf zero fnum std a ch d' l).
  Proof.
    intro H. unfold scan. destruct (apply_opts l no_options) as [o| | |]; cbn [on_err]; try apply deeper_refl.
    destruct (match op_dir o with Some d0 => Ok d0 | None => ar_cwd a end) as [dir| | |]; cbn [on_err]; try apply deeper_refl.
    destruct (ar_load a dir) as [lr| | |]; cbn [on_err]; try apply deeper_refl.
    destruct (scan_doc_deeper d d' o (fst lr) (snd lr) H) as [E|E]; rewrite E; [now left | apply deeper_refl].
  Qed.
End Scan.
