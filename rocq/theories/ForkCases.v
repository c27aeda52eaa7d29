(** Concrete histories for C89. *)
From Verif Require Import Lib ForkModel ForkSpec ForkProofs.

(** init with two workers (processes 1 and 2), an actor (process 3, with worker 1), a call of a method. *)
Definition f_start : list event := [ECall 0 CInit; ECall 0 CActor; ECall 0 (CMethod 0 1)].

(** The same on the way to other results: a put and a task of the main program, which has ended. *)
Definition f_more : list event := f_start ++ [ECall 0 (CPut 7); ECall 0 (CRemote 2); EEnd 2 9].

Lemma c89_case : let w := goes_on Fork 2 world0 f_more in
  runs_tasks w 1 /\ runs_tasks w 2 /\ runs_methods w 3 1 /\ w_procs w = 4 /\
  (forall p, p < 4 -> answer Fork 2 w p (CGet 1) = Value 7 /\ answer Fork 2 w p (CGet 3) = Value 9 /\ answer Fork 2 w p (CGet 0) = Waits) /\
  answer Fork 2 w 3 (CPut 5) = Refs [4] /\ answer Fork 2 w 3 (CRemote 2) = Refs [4; 5] /\ answer Fork 2 w 3 CActor = Handle 1.
Proof.
  cbv zeta. split; [exists 0; eexists; split; [|split]; [vm_compute; lia|vm_compute; reflexivity|vm_compute; auto]|].
  split; [exists 0; eexists; split; [|split]; [vm_compute; lia|vm_compute; reflexivity|vm_compute; auto]|].
  split; [vm_compute; auto|]. split; [vm_compute; reflexivity|].
  split; [intros [|[|[|[|p]]]] L; try lia; vm_compute; auto|].
  vm_compute. auto.
Qed.

(** The method of the first actor calls a remote function and gets the result. *)
Lemma c89_own : let w := goes_on Fork 2 world0 f_start in
  runs_methods w 3 1 /\ queued w 1 [0] /\ answer Fork 2 w 3 (CRemote 1) = Refs [1] /\
  forall h', q_busy 1 h' -> answer Fork 2 (goes_on Fork 2 w (ECall 3 (CRemote 1) :: h')) 3 (CGet 1) = Waits.
Proof.
  cbv zeta. split; [vm_compute; auto|]. split; [exists 0; vm_compute; auto|]. split; [vm_compute; reflexivity|].
  intros h' B.
  assert (F : FI 2 (goes_on Fork 2 world0 (f_start ++ [ECall 3 (CRemote 1)]))) by (apply history_ok; lia).
  assert (P : pending (goes_on Fork 2 world0 (f_start ++ [ECall 3 (CRemote 1)])) 1 1).
  { split; [vm_compute; reflexivity|]. intros q k ds I J.
    destruct (f_queue 2 _ F q k ds I) as (_ & R & _). destruct (tasks_daemon 2 _ q F R) as (L & _). vm_compute in L.
    destruct q as [|[|[|[|q]]]]; try lia; vm_compute in I; intuition; try congruence. }
  rewrite (proj2 (goes_on_snoc Fork 2 world0 f_start (ECall 3 (CRemote 1)) h')).
  destruct (pending_run 2 ltac:(lia) h' _ 1 1 F P B) as (Pw & _).
  rewrite (get_out 2 ltac:(lia)); [now rewrite Pw|exact (proj1 (run_ok 2 ltac:(lia) h' _ F))|].
  destruct (proj2 (run_ok 2 ltac:(lia) h' _ F)) as (X & _).
  assert (E4 : w_procs (goes_on Fork 2 world0 (f_start ++ [ECall 3 (CRemote 1)])) = 4) by (vm_compute; reflexivity).
  rewrite E4 in X. lia.
Qed.

(** Where processes are spawned. *)
Lemma c89_spawned : let w := goes_on Spawn 2 world0 [ECall 0 CInit; ECall 0 (CPut 7); ECall 0 CActor] in
  runs_tasks w 1 /\ runs_methods w 3 1 /\
  answer Spawn 2 w 0 (CGet 0) = Value 7 /\ answer Spawn 2 w 1 (CGet 0) = Assertion /\ answer Spawn 2 w 3 (CGet 0) = KeyErr /\
  answer Spawn 2 (goes_on Spawn 2 w [ECall 3 (CPut 5)]) 0 (CGet 1) = KeyErr /\ answer Spawn 2 w 3 (CPut 5) = Refs [1].
Proof.
  cbv zeta. split; [exists 0; eexists; split; [|split]; [vm_compute; lia|vm_compute; reflexivity|vm_compute; auto]|].
  vm_compute. tauto.
Qed.
