(** C37: the garbage collector; [grun self workers monitors ops] is its state after any history of
    submissions, deaths of references and cleanup attempts, with any readings of the clock and any
    answers of the monitor. *)
From Verif Require Import Lib GcModel GcSpec GcProofs.

(** If no reference dies just between the serialisation of the list and its clearing: the cleanup
    requests and the list, one after the other, are exactly the dead references in order of death. *)
Theorem C37_cleaned_once_partial : forall self workers monitors ops, none_late ops ->
  concat (map fst (g_out (grun self workers monitors ops))) ++ g_list (grun self workers monitors ops) = deaths ops.
Proof. exact once. Qed.
Print Assumptions C37_cleaned_once_partial.

(** So a reference that died once is in exactly one request, once, or still in the list. *)
Theorem C37_exactly_once_partial : forall self workers monitors ops d,
  none_late ops -> NoDup (deaths ops) -> In d (deaths ops) ->
  count_occ did_dec (concat (map fst (g_out (grun self workers monitors ops)))) d +
  count_occ did_dec (g_list (grun self workers monitors ops)) d = 1.
Proof. exact exactly_once. Qed.
Print Assumptions C37_exactly_once_partial.

(** Every request goes to every worker and monitor but the sender, once. *)
Theorem C37_to_everybody : forall self workers monitors ops l dst,
  NoDup (workers ++ monitors) -> In (l, dst) (g_out (grun self workers monitors ops)) ->
  NoDup dst /\ forall r, In r dst <-> In r (workers ++ monitors) /\ r <> self.
Proof. exact to_all. Qed.
Print Assumptions C37_to_everybody.

(** A reference that dies in between is never cleaned. *)
Theorem C37_late_death_refuted : exists ops d, In d (deaths ops) /\ NoDup (deaths ops) /\
  let g := grun 0 [2; 3] [1] ops in
  (forall l dst, In (l, dst) (g_out g) -> ~ In d l) /\ ~ In d (g_list g).
Proof. exact late_lost. Qed.
Print Assumptions C37_late_death_refuted.

(** C36, the collector's part: a request is only sent if the monitor has counted as many finished
    tasks as were submitted. *)
Theorem C36_sent_when_equal : forall self workers monitors ops now executed later early late,
  length (g_out (grun self workers monitors (ops ++ [GCleanup now executed later early late]))) <>
  length (g_out (grun self workers monitors ops)) ->
  executed = submitted ops.
Proof. exact sent_when_equal. Qed.
Print Assumptions C36_sent_when_equal.

Example C36_C37_case : none_late xgc /\ NoDup (deaths xgc) /\
  let g := grun 0 [2; 3; 5] [1; 4] xgc in
  g_out g = [(map (fun k => (0, k)) (seq 0 11) ++ [(7, 7)], [2; 3; 5; 1; 4])] /\ g_list g = [(8, 8)].
Proof. exact xgc_run. Qed.
