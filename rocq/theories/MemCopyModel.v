(** Model of core/backends/mpi/core/memory/memory.cpp:24-61, parallel_memcopy.
    Addresses are integers below 2^64; source and destination do not overlap (a user buffer and
    the shared window), so they are two memories.  The threads run concurrently: the model
    collects the single byte copies of all threads and of the calling thread and leaves their
    order open. *)
From Verif Require Import Lib.
From Coq Require Import Permutation.
Local Open Scope Z_scope.

(** pointer_logical_and(address, ~(block_size - 1)) (core/memory/memory.cpp:15-18), called through core/memory/_memory.pyx.
    *)
Definition align_down (block_size a : Z) : Z := Z.land a (Z.lnot (block_size - 1)).

(** One memcpy: destination, source, count; its single byte copies (destination, source). std::memcpy as used in
    core/memory/memory.cpp:24-61 (called from shared_object_store.py:485-524 through _memory.pyx). *)
Definition memcpy_bytes (d s n : Z) : list (Z * Z) :=
  map (fun k => (d + Z.of_nat k, s + Z.of_nat k)) (seq 0 (Z.to_nat n)).

(** core/memory/memory.cpp:24-61 (called from shared_object_store.py:485-524 through _memory.pyx). [None]: some memcpy gets
    a negative count, which converted to size_t is an access far outside of the buffers. *)
Definition parallel_memcopy (dst src nbytes block_size num_threads : Z) : option (list (Z * Z)) :=
  let left := align_down block_size (src + block_size - 1) in
  let right := align_down block_size (src + nbytes) in
  (* int64_t / uintptr_t: the dividend is converted to unsigned *)
  let num_blocks := ((right - left) mod 2 ^ 64) / block_size in
  let right' := right - Z.rem num_blocks num_threads * block_size in
  let chunk_size := Z.quot (right' - left) num_threads in
  let prefix := left - src in
  let suffix := src + nbytes - right' in
  if (chunk_size <? 0) || (prefix <? 0) || (suffix <? 0) then None
  else
    Some (concat (map (fun i => memcpy_bytes (dst + prefix + Z.of_nat i * chunk_size)
                                             (left + Z.of_nat i * chunk_size) chunk_size)
                      (seq 0 (Z.to_nat num_threads)))
          ++ memcpy_bytes dst src prefix
          ++ memcpy_bytes (dst + prefix + num_threads * chunk_size) right' suffix).

(** Byte copies executed in the given order. The effect of memcpy in core/memory/memory.cpp:24-61, any order of the threads
    (called from shared_object_store.py:485-524). *)
Fixpoint run_copies (src_mem m : Z -> Z) (l : list (Z * Z)) : Z -> Z :=
  match l with
  | [] => m
  | (d, s) :: r => run_copies src_mem (fun x => if x =? d then src_mem s else m x) r
  end.
