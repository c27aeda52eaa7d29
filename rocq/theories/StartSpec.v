(** What C87 and C88 speak about. *)
From Verif Require Import Lib TopoModel SizingModel StartModel.
From Coq Require Import ZArith.

Section Spec.
Variable place : list nat.
Variable addr : nat -> nat.
Variable long : Z.
Variable sees : nat -> view.

(** init has returned in the driver: the main program goes on. *)
Definition returned (s : st) : Prop := entered place addr long sees s 0 InLoop = true.
(** The process is in its loop or has ended it. *)
Definition in_place (s : st) (p : nat) : Prop := entered place addr long sees s p AtBarrier = true.
Definition raised (s : st) (p : nat) : Prop := now place addr long sees s p = Raised.
Definition gone (s : st) (p : nat) : Prop := now place addr long sees s p = Gone.
(** The loop of the process (for the driver: the program and the messages of shutdown) has ended. *)
Definition loop_ended (s : st) (p : nat) : Prop :=
  entered place addr long sees s p InLoop = true /\ now place addr long sees s p <> InLoop.

(** No process can go on, other than by the end of its loop. *)
Definition halted (s : st) : Prop := forall p, step place addr long sees s (Go p) = None.

(** The sizes that are configured or computed fit into 95% of the memory. *)
Definition memory_suffices (p : nat) : Prop :=
  let v := sees p in
  let allowed := mul_0_95 (v_total v) in
  let (o, s) := requested long allowed (v_obj v) (v_svc v) (v_threshold v) in
  (o <= allowed /\ s <= allowed /\ o + s <= allowed)%Z.

(** Number of processes of a machine. *)
Definition size (k : nat) : nat := count_occ Nat.eq_dec place k.

(** Nothing is wrong with process [p]: if it uses shared memory, it has enough memory and a second process on its machine; the
    driver wants that of all machines. *)
Definition sound (p : nat) : Prop :=
  v_shm (sees p) = true ->
  memory_suffices p /\ 2 <= size (nth p place 0) /\ (p = 0 -> forall k, In k place -> 2 <= size k).

(** Processes of one machine agree on whether there is shared memory. *)
Definition agreed : Prop :=
  forall p q, p < length place -> q < length place -> nth p place 0 = nth q place 0 -> v_shm (sees p) = v_shm (sees q).

(** Machines have different addresses. *)
Definition distinct : Prop := forall a b, In a place -> In b place -> addr a = addr b -> a = b.
End Spec.
