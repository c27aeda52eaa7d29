(** C15 and C16. *)
From Verif Require Import Lib SerialModel SerialSpec SerialProofs SerialCases.
Require Import String.
Open Scope list_scope.

Section Props.
Variable obj : Type.
Variable bytes : Type.
Variable is_pickle5 is_cpkl : obj -> bool.
Variable cpkl_dumps : obj -> bytes.
Variable cpkl_loads : bytes -> option obj.
Variable pkl_dumps : obj -> bytes.
Variable pkl_loads : bytes -> option obj.
Variable p5_buffers : obj -> list (list Z).
Variable p5_dumps : obj -> list bool -> bytes.
Variable p5_loads : bytes -> list (list Z) -> option obj.
Variable threshold : nat.

Notation contract := (pickle_contract obj bytes cpkl_dumps cpkl_loads pkl_dumps pkl_loads
                        p5_buffers p5_dumps p5_loads).
Notation serialize := (serialize obj bytes is_pickle5 is_cpkl cpkl_dumps pkl_dumps p5_buffers
                         p5_dumps threshold).
Notation deserialize := (deserialize obj bytes cpkl_loads pkl_loads p5_loads).
Notation holding := (holding obj bytes is_pickle5 is_cpkl cpkl_dumps pkl_dumps p5_buffers p5_dumps
                       threshold).
Notation hrun := (hrun obj bytes cpkl_loads pkl_loads p5_loads).

(** C15. For all pickling libraries that keep their contract, all thresholds and all values
    without reserved keys: serialising and deserialising gives the value back. *)
Theorem C15_round_trip_partial : contract -> forall v, no_reserved_key v ->
  exists z, deserialize (serialize v) = Some (v, z).
Proof.
  exact (fun H => round_trip_value obj bytes is_pickle5 is_cpkl cpkl_dumps cpkl_loads pkl_dumps
           pkl_loads p5_buffers p5_dumps p5_loads threshold H).
Qed.

(** C16. Whatever the history of local gets and sends, a get gives the value. *)
Theorem C16_gets_are_right : contract -> forall v, no_reserved_key v -> forall ops e,
  In e (hrun (holding v) ops) -> good_get v e.
Proof.
  exact (fun H => gets_good obj bytes is_pickle5 is_cpkl cpkl_dumps cpkl_loads pkl_dumps
           pkl_loads p5_buffers p5_dumps p5_loads threshold H).
Qed.

(** C16. A value without out-of-band buffers is sent unchanged in every history. *)
Theorem C16_in_band_data_unchanged_partial : contract -> forall v, no_reserved_key v ->
  z_raw _ (serialize v) = [] -> forall ops e,
  In e (hrun (holding v) ops) -> good_event v (serialize v) e.
Proof.
  exact (fun H => no_oob_good obj bytes is_pickle5 is_cpkl cpkl_dumps cpkl_loads pkl_dumps
           pkl_loads p5_buffers p5_dumps p5_loads threshold H).
Qed.

(** C16. Any value is sent unchanged before the first local get. *)
Theorem C16_unchanged_before_get_partial : forall v ops, Forall (fun op => op = HSend) ops ->
  forall e, In e (hrun (holding v) ops) -> good_event v (serialize v) e.
Proof.
  exact (sends_before_get obj bytes is_pickle5 is_cpkl cpkl_dumps cpkl_loads pkl_dumps
           pkl_loads p5_buffers p5_dumps p5_loads threshold).
Qed.

(** C16. A process that holds the value besides its serialised form (the outputs of its own
    tasks) sends it unchanged in every history. *)
Theorem C16_task_outputs_unchanged_partial : forall v z ops e,
  In e (hrun {| h_value := Some v; h_cache := z |} ops) -> good_event v z e.
Proof. exact (both_good obj bytes cpkl_loads pkl_loads p5_loads). Qed.
End Props.
Print Assumptions C15_round_trip_partial.
Print Assumptions C16_gets_are_right.
Print Assumptions C16_in_band_data_unchanged_partial.
Print Assumptions C16_unchanged_before_get_partial.
Print Assumptions C16_task_outputs_unchanged_partial.

(** C15. A dictionary with a reserved key does not come back. *)
Theorem C15_reserved_key_refuted :
  pickle_contract cobj cbytes c_dumps c_loads c_dumps c_loads c_bufs c_dumps5 c_loads5 /\
  exists v, c_deserialize (c_serialize 2 v) = None.
Proof. exact (conj c_contract (ex_intro _ clash clash_fails)). Qed.
Print Assumptions C15_reserved_key_refuted.

(** C16. After a local get, what is sent has lost its out-of-band buffers and the receiver
    cannot deserialise it. *)
Theorem C16_sent_after_get_refuted :
  pickle_contract cobj cbytes c_dumps c_loads c_dumps c_loads c_bufs c_dumps5 c_loads5 /\
  exists v z, no_reserved_key v /\
    c_hrun (c_holding 2 v) [HGet; HSend] = [HGot _ _ v; HSent _ _ z] /\
    z <> c_serialize 2 v /\ c_deserialize z = None.
Proof.
  exact (conj c_contract drained_ex).
Qed.
Print Assumptions C16_sent_after_get_refuted.

Example C15_C16_case :
  pickle_contract cobj cbytes c_dumps c_loads c_dumps c_loads c_bufs c_dumps5 c_loads5 /\
  no_reserved_key value0 /\
  z_raw _ (c_serialize 2 value0) = [[1; 2; 3]; [5; 6]; [7; 8]]%Z /\
  z_count _ (c_serialize 2 value0) = [2; 1].
Proof. exact (conj c_contract (conj value0_ok value0_serialized)). Qed.
