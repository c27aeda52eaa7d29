(** C10: sizes of the shared segments.  [total] is the shared memory of the host in bytes
    (below 2^53, eight petabytes), [long] the size of a C long. *)
From Verif Require Import Lib SizingModel SizingProofs.
Local Open Scope Z_scope.

(* Whatever is configured, successful initialisation takes at most 95% of the host's memory
   (up to 281 terabytes exactly; above that less than one byte more, from float rounding). *)
Theorem C10_at_most_95_percent :
  forall long total obj svc thr z,
    0 <= total < 2 ^ 48 -> allocate_shared_memory long total obj svc thr = inr z ->
    20 * (object_bytes z + service_bytes z) <= 19 * total.
Proof. exact fits_95_exact. Qed.
Print Assumptions C10_at_most_95_percent.

Theorem C10_at_most_95_percent_and_a_byte :
  forall long total obj svc thr z,
    0 <= total < 2 ^ 53 -> allocate_shared_memory long total obj svc thr = inr z ->
    20 * (object_bytes z + service_bytes z) < 19 * total + 20.
Proof. exact fits_95. Qed.
Print Assumptions C10_at_most_95_percent_and_a_byte.

(* Configured sizes are used as given. *)
Theorem C10_configured_sizes_respected :
  forall long total obj svc thr z,
    allocate_shared_memory long total obj svc thr = inr z ->
    (forall o, obj = Some o -> object_bytes z = o) /\ (forall s, svc = Some s -> service_bytes z = s).
Proof. exact configured_sizes. Qed.
Print Assumptions C10_configured_sizes_respected.

(* The service buffer is a whole number of slots, fits the service memory, and no further slot
   would fit. *)
Theorem C10_slots_fill_service_memory :
  forall long total obj svc thr z,
    0 < long -> allocate_shared_memory long total obj svc thr = inr z ->
    (4 | service_cells z) /\ service_cells z * long <= service_bytes z < (service_cells z + 4) * long.
Proof. exact cells_fit. Qed.
Print Assumptions C10_slots_fill_service_memory.

Theorem C10_sizes_not_negative :
  forall long total obj svc thr z,
    0 < long -> 0 <= total < 2 ^ 53 ->
    (forall o, obj = Some o -> 0 <= o) -> (forall s, svc = Some s -> 0 <= s) ->
    allocate_shared_memory long total obj svc thr = inr z ->
    0 <= object_bytes z /\ 0 <= service_bytes z /\ 0 <= service_cells z.
Proof. exact nonneg_sizes. Qed.
Print Assumptions C10_sizes_not_negative.

(* With nothing configured initialisation never fails. *)
Theorem C10_defaults_succeed :
  forall long total thr,
    0 < long -> 0 <= total < 2 ^ 53 ->
    exists z, allocate_shared_memory long total None None thr = inr z.
Proof. exact defaults_succeed. Qed.
Print Assumptions C10_defaults_succeed.

(* With configured sizes it fails exactly when they do not fit. *)
Theorem C10_error_iff_too_large :
  forall long total o s thr,
    0 <= o -> 0 <= s ->
    ((exists e, allocate_shared_memory long total (Some o) (Some s) thr = inl e)
     <-> mul_0_95 total < o + s).
Proof. exact configured_error_iff. Qed.
Print Assumptions C10_error_iff_too_large.

Theorem C10_error_iff_one_too_large :
  forall long total o thr,
    0 < long -> 0 <= total < 2 ^ 53 -> 0 <= o ->
    ((exists e, allocate_shared_memory long total (Some o) None thr = inl e) <-> mul_0_95 total < o) /\
    ((exists e, allocate_shared_memory long total None (Some o) thr = inl e) <-> mul_0_95 total < o).
Proof. exact one_configured_error_iff. Qed.
Print Assumptions C10_error_iff_one_too_large.

(* With nothing configured and a minimum object size above 99 slots, there are exactly as many
   slots as objects of that size that fit. *)
Theorem C10_default_slots_suffice :
  forall long total thr z,
    0 < long -> 0 <= total < 2 ^ 53 -> 99 * (4 * long) < thr ->
    allocate_shared_memory long total None None thr = inr z ->
    service_cells z = 4 * (object_bytes z / thr).
Proof. exact default_slots_suffice. Qed.
Print Assumptions C10_default_slots_suffice.

Example C10_case :
  allocate_shared_memory 8 33651662848 None None 100000 =
    inr {| object_bytes := 31958852872; service_bytes := 10226832; service_cells := 1278352 |} /\
  allocate_shared_memory 8 33651662848 (Some 32000000000) None 100000 = inl ObjectTooLarge /\
  allocate_shared_memory 8 33651662848 None None 100 =
    inr {| object_bytes := 31649388907; service_bytes := 319690797; service_cells := 39961348 |}.
Proof. repeat split; vm_compute; reflexivity. Qed.
