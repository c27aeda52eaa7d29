(** C87, C88 *)
From Verif Require Import Lib TopoModel SizingModel StartModel StartSpec StartProofs StartThms StartCases.
From Coq Require Import ZArith.

(** C87: when init returns in the driver, every process has got to its loop. *)
Theorem C87_ready : forall place addr long sees l,
  let s := fst (run place addr long sees start l) in
  returned place addr long sees s -> place <> [] -> forall p, p < length place -> in_place place addr long sees s p.
Proof. exact t_ready. Qed.
Print Assumptions C87_ready.

(** When all processes have done what they can, init has returned if and only if nothing is wrong with any process and the
    processes of each machine agree on whether there is shared memory. *)
Theorem C87_returns_partial : forall place addr long sees l,
  let s := fst (run place addr long sees start l) in
  place <> [] -> distinct place addr -> halted place addr long sees s ->
  (returned place addr long sees s <-> (forall p, p < length place -> sound place long sees p) /\ agreed place sees).
Proof. exact t_returns. Qed.
Print Assumptions C87_returns_partial.

(** It has raised if and only if something is wrong with the driver's own process or a machine has one process. *)
Theorem C87_raises_partial : forall place addr long sees l,
  let s := fst (run place addr long sees start l) in
  place <> [] -> distinct place addr -> halted place addr long sees s ->
  (raised place addr long sees s 0 <-> ~ sound place long sees 0).
Proof. exact t_raises. Qed.
Print Assumptions C87_raises_partial.

(** A state where nobody can go on is always reached, after a bounded number of operations. *)
Theorem C87_halts : forall place addr long sees l,
  snd (run place addr long sees start l) <= 9 * length place /\
  exists l', halted place addr long sees (fst (run place addr long sees start (l ++ l'))).
Proof. exact t_halts. Qed.
Print Assumptions C87_halts.

(** Refuted: too little memory on another machine. Its processes raise, the driver waits for ever. *)
Theorem C87_remote_memory_refuted : exists place addr long sees l,
  distinct place addr /\ (forall k, In k place -> 2 <= size place k) /\ (forall p, v_shm (sees p) = true) /\
  (forall p q, v_obj (sees p) = v_obj (sees q) /\ v_svc (sees p) = v_svc (sees q) /\ v_threshold (sees p) = v_threshold (sees q)) /\
  sound place long sees 0 /\
  let s := fst (run place addr long sees start l) in
  halted place addr long sees s /\ ~ returned place addr long sees s /\ ~ raised place addr long sees s 0 /\
  exists p, raised place addr long sees s p.
Proof. exact remote_memory. Qed.
Print Assumptions C87_remote_memory_refuted.

(** Refuted: processes of one machine that disagree on shared memory. Nobody raises, init never returns. *)
Theorem C87_disagree_refuted : exists place addr long sees l,
  distinct place addr /\ (forall k, In k place -> 2 <= size place k) /\ (forall p, p < length place -> sound place long sees p) /\
  let s := fst (run place addr long sees start l) in
  halted place addr long sees s /\ ~ returned place addr long sees s /\
  forall p, p < length place -> ~ raised place addr long sees s p.
Proof. exact disagree. Qed.
Print Assumptions C87_disagree_refuted.

(** Six processes on two machines; init returns. A machine with one process: init raises. *)
Example C87_case :
  (halted cplace caddr 8 good up_end /\ returned cplace caddr 8 good up_end) /\
  (halted lonely caddr 8 good lonely_end /\ raised lonely caddr 8 good lonely_end 0) /\
  (map (now cplace caddr 8 small small_end) (seq 0 6) = [AtBarrier; AtBarrier; AtBarrier; Raised; Raised; Raised] /\
   map (now cplace caddr 8 odd odd_end) (seq 0 6) = [AtBarrier; AtBarrier; AtBarrier; AtAlloc; AtAlloc; AtBarrier]) /\
  distinct cplace caddr /\ distinct lonely caddr.
Proof.
  split; [split; [exact up_halted|exact up_returned]|]. split; [split; [exact lonely_halted|exact lonely_raised]|].
  split; [split; [exact small_points|exact odd_points]|]. split; apply cdistinct.
Qed.

(** C88: the memory of a machine is not released (both windows) before the loops of all its processes have ended. *)
Theorem C88_memory_kept : forall place addr long sees l,
  let s := fst (run place addr long sees start l) in
  forall p q, p < length place -> q < length place -> nth q place 0 = nth p place 0 ->
  entered place addr long sees s p AtFreeService = true -> loop_ended place addr long sees s q.
Proof. exact t_memory. Qed.
Print Assumptions C88_memory_kept.

(** Nobody is gone before the loops of all processes have ended. *)
Theorem C88_together : forall place addr long sees l,
  let s := fst (run place addr long sees start l) in
  forall p q, p < length place -> q < length place -> gone place addr long sees s p -> loop_ended place addr long sees s q.
Proof. exact t_together. Qed.
Print Assumptions C88_together.

(** Once they have ended, everybody leaves. *)
Theorem C88_everybody_leaves : forall place addr long sees l,
  let s := fst (run place addr long sees start l) in
  place <> [] -> distinct place addr -> halted place addr long sees s ->
  (forall p, p < length place -> loop_ended place addr long sees s p) ->
  forall p, p < length place -> gone place addr long sees s p.
Proof. exact t_leaves. Qed.
Print Assumptions C88_everybody_leaves.

(** Six processes on two machines that all leave; and a cluster where the loop of rank 4 does not end: the processes of its
    machine do not get their memory released, the others wait for them. *)
Example C88_case :
  (halted cplace caddr 8 good down_end /\ (forall p, p < 6 -> loop_ended cplace caddr 8 good down_end p) /\
   map (now cplace caddr 8 good down_end) (seq 0 6) = repeat Gone 6) /\
  map (now cplace caddr 8 good part_end) (seq 0 6) = [AtFinalize; AtFinalize; AtFinalize; AtFree; InLoop; AtFree].
Proof.
  split; [split; [exact down_halted|split; [exact down_ended|exact down_points]]|exact part_points].
Qed.
