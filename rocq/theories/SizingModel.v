(** Model of core/backends/mpi/core/shared_object_store.py:149-263, _allocate_shared_memory
    (the sizes; the MPI windows are created with exactly these sizes). *)
From Verif Require Import Lib.
Local Open Scope Z_scope.

(** Rounding of a non-negative number (an integer count of some power of two) to 53 significant bits, ties to even: what
    IEEE double arithmetic does away from underflow and overflow. The arithmetic of * in shared_object_store.py:160,
    208-209. *)
Definition round53 (n : Z) : Z :=
  let e := Z.max 0 (Z.log2 n + 1 - 53) in
  let q := n / 2 ^ e in
  let r := n mod 2 ^ e in
  let up := (2 ^ e <? 2 * r) || ((2 ^ e =? 2 * r) && Z.odd q) in
  (if up then q + 1 else q) * 2 ^ e.

(** Python's [int(a * c)] for an integer [a >= 0] and the double [c = m / 2^k]. shared_object_store.py:160, 208-209. *)
Definition int_mul_float (a m k : Z) : Z := round53 (round53 a * m) / 2 ^ k.

(** The doubles 0.95, 0.99 and 0.01 (float.as_integer_ratio). shared_object_store.py:160. *)
Definition mul_0_95 (a : Z) : Z := int_mul_float a 8556839292003942 53.
(** int(0.99 * A), shared_object_store.py:208. *)
Definition mul_0_99 (a : Z) : Z := int_mul_float a 8917127262193582 53.
(** int(0.01 * A), shared_object_store.py:209. *)
Definition mul_0_01 (a : Z) : Z := int_mul_float a 5764607523034235 59.

(** The three ValueErrors of shared_object_store.py:211-227. *)
Inductive sizing_error := ObjectTooLarge | ServiceTooLarge | SumTooLarge.

(** What _allocate_shared_memory settles on: shared_object_store.py:162-209, 244-248. *)
Record sizing := {
  object_bytes : Z;        (* self.shared_memory_size *)
  service_bytes : Z;       (* self.service_memory_size *)
  service_cells : Z        (* self.service_info_max_count *)
}.

(** SharedObjectStore.INFO_SIZE (shared_object_store.py:79). *)
Definition INFO_SIZE : Z := 4.

(** shared_object_store.py:163-209  the requested sizes; [long] is MPI.LONG.size. *)
Definition requested (long allowed : Z) (obj svc : option Z) (threshold : Z) : Z * Z :=
  match obj, svc with
  | Some o, Some s => (o, s)
  | Some o, None =>
      (o, if 0 <? threshold
          then Z.min (allowed - o) ((o / threshold) * (INFO_SIZE * long))
          else allowed - o)
  | None, Some s => (allowed - s, s)
  | None, None =>
      let A := allowed in
      let B := threshold in
      let C := INFO_SIZE * long in
      if 99 * C <? B then ((A * B) / (B + C), (A * C) / (B + C))
      else (mul_0_99 A, mul_0_01 A)
  end.

(** shared_object_store.py:160, 211-250. [total] is _get_allowed_memory_size(). *)
Definition allocate_shared_memory (long total : Z) (obj svc : option Z) (threshold : Z)
  : sizing_error + sizing :=
  let allowed := mul_0_95 total in
  let (o, s) := requested long allowed obj svc threshold in
  if allowed <? o then inl ObjectTooLarge
  else if allowed <? s then inl ServiceTooLarge
  else if allowed <? o + s then inl SumTooLarge
  else inr {| object_bytes := o; service_bytes := s;
              service_cells := s / (INFO_SIZE * long) * INFO_SIZE |}.
