(** Specification vocabulary for the shared object store. *)
From Verif Require Import Lib ShmModel ShmStoreModel.
Local Open Scope Z_scope.

(** The payload written for an ID in a history. *)
Fixpoint written (ops : list sop) (d : dataid) : option payload :=
  match ops with
  | [] => None
  | SPut _ d' pl :: r => if did_eqb d' d then Some pl else written r d
  | _ :: r => written r d
  end.

(** Every ID is put at most once (C12) and only values above the (non-negative) sharing
    threshold are put. *)
Fixpoint puts (ops : list sop) : list dataid :=
  match ops with
  | [] => []
  | SPut _ d _ :: r => d :: puts r
  | _ :: r => puts r
  end.

Definition big_enough (o : sop) : Prop :=
  match o with SPut _ _ pl => (0 < data_size pl)%nat | _ => True end.

Definition history_ok (ops : list sop) : Prop := NoDup (puts ops) /\ Forall big_enough ops.

(** Segment sizes as allocated (C10): non-empty, whole number of slots. *)
Definition sizes_ok (sizes : list (Z * Z)) : Prop :=
  Forall (fun sz => 0 < fst sz /\ 0 < snd sz /\ (4 | snd sz)) sizes.

(** Cleanups are handled only while no package of a cleaned or queued ID is in flight
    (this is what the task counting of C36 is for). *)
Definition quiet_cleanup (st : store) (o : sop) : Prop :=
  match o with
  | SCleanup ids =>
      forall q d i h, In (q, d, i) (inflight st) -> In h (hosts st) ->
        ~ In d (pending_cleanup (mgr h) ++ ids)
  | _ => True
  end.

Fixpoint quiet_run (host_of : nat -> nat) (st : store) (ops : list sop) : Prop :=
  match ops with
  | [] => True
  | o :: r =>
      quiet_cleanup st o /\
      match sstep host_of st o with None => True | Some (st', _) => quiet_run host_of st' r end
  end.

(** Number of live holders of [d] on host [h]: finalizers of live DataID objects. *)
Definition holders (host_of : nat -> nat) (st : store) (h : nat) (d : dataid) : nat :=
  length (filter (fun f => Nat.eqb (host_of (fst (fst f))) h && did_eqb (snd (fst f)) d) (fins st)).

(** The reference count stored in shared memory for [d] on host [h]. *)
Definition stored_count (st : store) (h : nat) (d : dataid) : option Z :=
  match nth_error (hosts st) h with
  | None => None
  | Some x => match resv (mgr x) d with
              | None => None
              | Some r => Some (smem x (service_index r + 3))
              end
  end.

(** The monitor of the host of [p] refuses to reserve [n] bytes for [d], which is not stored there. *)
Definition refused (host_of : nat -> nat) (st : store) (p : nat) (d : dataid) (n : nat) : Prop :=
  exists x, nth_error (hosts st) (host_of p) = Some x /\ resv (mgr x) d = None /\
    snd (mgr_reserve (mgr x) d (Z.of_nat n)) = None.

(** An operation asks for memory for its object, as much as the object takes, and does not get it. *)
Definition lacks_room (host_of : nat -> nat) (st : store) (o : sop) : Prop :=
  match o with
  | SPut p d pl => refused host_of st p d (data_size pl)
  | SRecv p k => exists q d i, nth_error (inflight st) k = Some (q, d, i) /\
      refused host_of st p d (s_data_len i + list_sum (raw_buffers_len i))
  | _ => False
  end.
