(** C24 and C25. [prun ops] is a process after any history of submissions, replies to data
    requests, arrivals of values and of owner notes, and deaths of references; [p_out] is
    everything it has sent, in order, with the destination. *)
From Verif Require Import Lib ValModel PushModel PushProofs.

(** C24. Unless the process itself has forgotten the reference in between, it sends the value
    of a reference to a rank at most once. *)
Theorem C24_sent_at_most_once : forall ops d r,
  (forall x, In (PForget x) ops -> x <> d) -> sends d r (p_out (prun ops)) <= 1.
Proof.
  exact (fun ops d r H => Nat.le_trans _ _ _ (at_most_once ops d r)
    (Nat.eq_le_incl _ _ (f_equal S (no_forgets d ops H)))).
Qed.
Print Assumptions C24_sent_at_most_once.

(** C24. In general: at most once more than the number of times it has forgotten it. *)
Theorem C24_once_per_residence : forall ops d r,
  sends d r (p_out (prun ops)) <= 1 + forgets d ops.
Proof. exact at_most_once. Qed.
Print Assumptions C24_once_per_residence.

(** C25. When a submission succeeds, the task's message is preceded, among the messages to the
    same rank, by the value or the owner of every reference in the task, the arguments and the
    keyword arguments, at any depth. *)
Theorem C25_references_known_before_task : forall ops dest n outputs task args kwargs p',
  submit (prun ops) dest n outputs task args kwargs = Some p' ->
  exists before, p_out p' = before ++ [(dest, MTask n)] /\
    forall d, In d (refs task) \/ In d (refs args) \/ In d (refs kwargs) ->
      In (dest, MValue d) before \/ exists o, In (dest, MOwner d o) before.
Proof. exact submit_known. Qed.
Print Assumptions C25_references_known_before_task.

(** C25. A submission fails exactly when a reference in it is unknown to the submitter: it holds
    neither its value nor its owner, and it is not an output of the task itself. *)
Theorem C25_unknown_reference_fails : forall ops dest n outputs task args kwargs,
  submit (prun ops) dest n outputs task args kwargs = None <->
  exists d, (In d (refs task) \/ In d (refs args) \/ In d (refs kwargs)) /\
            ~ In d (p_store (prun ops)) /\ p_owner (prun ops) d = None /\ ~ In d outputs.
Proof. exact submit_fails. Qed.
Print Assumptions C25_unknown_reference_fails.

(** A function, a value put by the root and the output of a first task, nested two levels deep in
    the arguments of a second one; then the same again. *)
Example C24_C25_case :
  let f := (0, 0) in let x := (0, 1) in let y := (0, 2) in let z := (0, 3) in
  p_out (prun [PHave f; PHave x; PSubmit 2 1 [y] (VRef f) (VList [VRef x]) (VDict []);
    PSubmit 3 2 [z] (VRef f) (VList [VLeaf 7; VTuple [VRef x; VList [VRef y]]]) (VDict [(5, VRef y)]);
    PSubmit 2 3 [] (VRef f) (VList [VRef z]) (VDict [])]) =
  [(2, MValue f); (2, MValue x); (2, MTask 1);
   (3, MValue f); (3, MValue x); (3, MOwner y 2); (3, MOwner y 2); (3, MTask 2);
   (2, MOwner z 3); (2, MTask 3)] /\
  submit (prun [PHave f]) 2 1 [] (VRef f) (VList [VRef x]) (VDict []) = None.
Proof. split; reflexivity. Qed.
