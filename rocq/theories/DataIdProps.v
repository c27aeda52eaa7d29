(** References: uniqueness and names (C12), identity and death (C13).

    [drun n ops]: [n] processes; any history of creating, receiving and dropping references
    and of handling clean-up requests. [created] lists the references created in it. *)
From Verif Require Import Lib ShmModel DataIdModel DataIdProofs DataIdCases.

(* C12: all references created by all processes are different, and so are their names. *)
Theorem C12_references_are_unique :
  forall n ops,
    NoDup (created (repeat proc_init n) ops) /\
    NoDup (map id_name (created (repeat proc_init n) ops)).
Proof. exact names_nodup. Qed.
Print Assumptions C12_references_are_unique.

(* C12: the printed form of a reference is parsed back into its owner rank and number. *)
Theorem C12_names_parse_back :
  forall owner number, parse_data_id (id_repr (owner, number)) = Some (owner, number).
Proof. intros owner number. exact (parse_repr (owner, number)). Qed.
Print Assumptions C12_names_parse_back.

(* C12: equal names mean equal references (DataID.__eq__ compares names). *)
Theorem C12_equal_names_equal_references :
  forall d d', id_name d = id_name d' <-> d = d'.
Proof. intros d d'. split; [exact (name_inj d d')|intros ->; reflexivity]. Qed.
Print Assumptions C12_equal_names_equal_references.

(* C13: two live references of one process to the same data are the same object, and every
   live reference denotes some data. *)
Theorem C13_copies_are_one_object :
  forall n ops p x a b d,
    nth_error (drun n ops) p = Some x ->
    In a (handles x) -> In b (handles x) ->
    key_at x a = Some d -> key_at x b = Some d -> a = b.
Proof. exact same_object. Qed.
Print Assumptions C13_copies_are_one_object.

Theorem C13_live_references_denote :
  forall n ops p x a,
    nth_error (drun n ops) p = Some x -> In a (handles x) -> exists d, key_at x a = Some d.
Proof. exact handle_key. Qed.
Print Assumptions C13_live_references_denote.

(* C13: a process records each reference at most once and only references it owns. *)
Theorem C13_recorded_once_by_owner :
  forall n ops p x,
    nth_error (drun n ops) p = Some x ->
    NoDup (collected x) /\ forall d, In d (collected x) -> fst d = p.
Proof. exact collected_once. Qed.
Print Assumptions C13_recorded_once_by_owner.

(* C13: it is recorded in the very step that drops the last copy in its owner process. *)
Theorem C13_recorded_when_last_copy_dies :
  forall n ops o p x x' d,
    nth_error (drun n ops) p = Some x -> nth_error (drun n (ops ++ [o])) p = Some x' ->
    ~ In d (collected x) -> In d (collected x') ->
    live x d /\ ~ live x' d /\ exists k, o = DDrop p k.
Proof. exact collected_when_last. Qed.
Print Assumptions C13_recorded_when_last_copy_dies.

(* C13: a created reference without a live copy in its owner process is recorded. *)
Theorem C13_dead_references_are_recorded :
  forall n ops p x k,
    nth_error (drun n ops) p = Some x ->
    In (p, k) (created (repeat proc_init n) ops) -> ~ live x (p, k) -> In (p, k) (collected x).
Proof. exact dead_is_collected. Qed.
Print Assumptions C13_dead_references_are_recorded.

Example C12_C13_case :
  created (repeat proc_init 2) id_ops = [(0, 0); (0, 1); (1, 0)] /\
  exists x y, drun 2 id_ops = [x; y] /\
    collected x = [(0, 0); (0, 1)] /\ collected y = [] /\
    live y (0, 0) /\ live y (1, 0) /\ length (handles y) = 4.
Proof. exact id_case. Qed.

(* C13: being recorded does not mean that the reference is gone for good: it can come back in a
   message from another process while its data is already due for clean-up. *)
Theorem C13_recorded_reference_comes_back :
  exists n ops p x d,
    nth_error (drun n ops) p = Some x /\ fst d = p /\ In d (collected x) /\ live x d.
Proof.
  exists 2, revive_ops, 0. destruct revive_case as [x [H1 [H2 H3]]].
  exists x, (0, 0). exact (conj H1 (conj eq_refl (conj H2 H3))).
Qed.
Print Assumptions C13_recorded_reference_comes_back.
