(** What a process keeps of a value it has read from shared memory: read-only views of the bytes of its buffers, not copies. *)
From Verif Require Import Lib ShmModel ShmStoreModel.
Local Open Scope Z_scope.

(** The raw buffers of a value that was read: slices of the shared buffer of one host, one after the other
    (shared_object_store.py:452-459, memoryview slices and casts do not copy). They become the out-of-band buffers of the
    value (serialization.py:248-255, pickle does not copy them). The serialized part [s_data] is decoded into new
    objects (serialization.py:275-280) and is not viewed. *)
Record view := { v_at : nat; v_first : Z; v_lens : list nat }.

(** shared_object_store.py:440-459: the views process [p] gets when it reads object [d]. *)
Definition view_of (host_of : nat -> nat) (st : store) (p : nat) (d : dataid) : option view :=
  match infos st p d, nth_error (hosts st) (host_of p) with
  | Some i, Some h =>
      Some {| v_at := host_of p;
              v_first := smem h (info_service_index i + 2) + Z.of_nat (s_data_len i);
              v_lens := raw_buffers_len i |}
  | _, _ => None
  end.

(** The bytes that the value shows in state [st]: its buffers are looked at through the views
    (shared_object_store.py:452-459). *)
Definition look (st : store) (v : view) : option (list (list Z)) :=
  match nth_error (hosts st) (v_at v) with
  | None => None
  | Some h => Some (read_raw (dmem h) (v_first v) (v_lens v))
  end.
