(** Mutable objects and their copies: what put, get, results and arguments copy, and what they share
    (core/backends/mpi/core: controller/api.py:371-433, 508-581; controller/common.py:113-171, 368-415; object_store.py:58-90;
    local_object_store.py:73-85, 269-285; worker/task_store.py:208-404; communication.py:714-813).

    Simplifications. An object is its in-band part (what the pickle stream holds; a number) and its out-of-band buffers (the memory of
    arrays and frames above MpiPickleThreshold; a number each). All processes are on one host. Cleanups and requests for data are not here:
    a process may send any data it has to any process at any time, more often than the code does. Whether data goes to shared
    memory (sizes and thresholds) is a parameter of the operation. *)
From Verif Require Import Lib.

(** The content of an object (serialization.py:128-161): in-band part and buffers. *)
Record cont := { c_in : nat; c_bufs : list nat }.

(** An object in some process's memory: content, whose memory, and whether its buffers are read-only (deserialised from
    bytes, local_object_store.py:280-283, or from shared memory, shared_object_store.py:446-461). *)
Record ob := { o_c : cont; o_mem : nat; o_ro : bool }.

(** A serialised value in the cache (local_object_store.py:269-285): its content, and buffer_count. Deserialising takes the buffers out of
    the cached list (serialization.py:248-255). *)
Record pk := { k_c : cont; k_count : nat }.

(** What is under way: PUT_DATA (communication.py:923-960, copies, see local_object_store.py:280-283), PUT_SHARED_DATA (controller/common.py:297-338), and a task
    with an argument given directly: the n-th, with the in-band part [a] pickled when it was submitted, and the memory of object [l]'s
    buffers, from which MPI reads whenever it likes until the send completes (communication.py:745-754, 797-811). *)
Inductive flight :=
| FData (d : dataid) (w : nat) (k : pk)
| FInfo (d : dataid) (w : nat)
| FArg (n : nat) (w : nat) (a : nat) (l : nat).

(** What a program can observe: the content of what get returned, or of a reference's value as a task's argument; the content of a
    task's argument given directly; deserialisation failed (object_store.py:58-90, worker/task_store.py:339). *)
Inductive aev :=
| AGot (p : nat) (d : dataid) (c : cont)
| AArg (n : nat) (c : cont)
| ABad (p : nat) (d : dataid).

(** All processes: objects by location; [local]: _data_map, [cached]: _serialization_cache (local_object_store.py:24-42); [shared]: the shared
    memory, [info]: _shared_info (shared_object_store.py:90-120); IDs in use; messages under way; submissions so far; what was
    observed, oldest first. *)
Record ast := {
  heap : nat -> ob;
  next : nat;
  local : nat -> dmap nat;
  cached : nat -> dmap pk;
  shared : dmap cont;
  info : nat -> dmap unit;
  used : list dataid;
  air : list flight;
  nsub : nat;
  alog : list aev
}.

(** After init (controller/api.py:117-288). *)
Definition ainit : ast :=
  {| heap := fun _ => {| o_c := {| c_in := 0; c_bufs := [] |}; o_mem := 0; o_ro := false |}; next := 0;
     local := fun _ => dempty; cached := fun _ => dempty; shared := dempty; info := fun _ => dempty;
     used := []; air := []; nsub := 0; alog := [] |}.

(** What happens. *)
Inductive aop :=
| ANew (p a : nat) (bs : list nat)          (* p's program makes an object *)
| ASetIn (p l a : nat)                      (* p's program changes the in-band part of an object in its memory *)
| ASetBufs (p l : nat) (bs : list nat)      (* the same for the buffers, e.g. x[0] = 1 *)
| APut (p l : nat) (d : dataid) (sh : bool) (* p calls put (controller/api.py:371-397) *)
| AReturn (p l : nat) (d : dataid) (sh : bool)  (* a task on p returns the object (worker/task_store.py:358-391) *)
| ASubmit (p l w : nat)                     (* p submits a task or call to w with the object as argument (controller/api.py:508-581) *)
| AGet (p : nat) (d : dataid)               (* p's program, or a task's argument, gets d from p's own stores (object_store.py:58-90) *)
| APush (p : nat) (d : dataid) (w : nat) (sh : bool)  (* p sends d's value to w (controller/common.py:368-415) *)
| ADeliver (i : nat).                       (* the i-th message under way is received *)

(** Setting one entry of a table by process or location. Not in the code: each process has its own tables (local_object_store.py:24-39). *)
Definition aset {A} (f : nat -> A) (x : nat) (a : A) : nat -> A := fun y => if Nat.eqb y x then a else f y.

(** Tables changed one at a time (LocalObjectStore.put, cache_serialized_data, SharedObjectStore._put_shared_info;
    local_object_store.py:73-85, 275-290; shared_object_store.py:410-423), and the allocation of an object. *)
Definition with_local (s : ast) p d l : ast :=
  {| heap := heap s; next := next s; local := aset (local s) p (dput (local s p) d l); cached := cached s; shared := shared s;
     info := info s; used := used s; air := air s; nsub := nsub s; alog := alog s |}.
(** local_object_store.py:269-285. *)
Definition with_cached (s : ast) p d k : ast :=
  {| heap := heap s; next := next s; local := local s; cached := aset (cached s) p (dput (cached s p) d k); shared := shared s;
     info := info s; used := used s; air := air s; nsub := nsub s; alog := alog s |}.
(** SharedObjectStore.put (shared_object_store.py:725-756): the bytes are copied. *)
Definition with_shared (s : ast) p d c : ast :=
  {| heap := heap s; next := next s; local := local s; cached := cached s; shared := dput (shared s) d c;
     info := aset (info s) p (dput (info s p) d tt); used := used s; air := air s; nsub := nsub s; alog := alog s |}.
(** shared_object_store.py:410-423. *)
Definition with_info (s : ast) p d : ast :=
  {| heap := heap s; next := next s; local := local s; cached := cached s; shared := shared s;
     info := aset (info s) p (dput (info s p) d tt); used := used s; air := air s; nsub := nsub s; alog := alog s |}.
(** A change of the object at l; Python's assignment (nothing in /repo; user code, run at worker/task_store.py:339). *)
Definition with_ob (s : ast) l o : ast :=
  {| heap := aset (heap s) l o; next := next s; local := local s; cached := cached s; shared := shared s;
     info := info s; used := used s; air := air s; nsub := nsub s; alog := alog s |}.
(** A new object; it is at [next s]. *)
Definition alloc (s : ast) o : ast :=
  {| heap := aset (heap s) (next s) o; next := S (next s); local := local s; cached := cached s; shared := shared s;
     info := info s; used := used s; air := air s; nsub := nsub s; alog := alog s |}.
(** generate_data_id: a new ID (local_object_store.py:182-200). *)
Definition with_used (s : ast) d : ast :=
  {| heap := heap s; next := next s; local := local s; cached := cached s; shared := shared s;
     info := info s; used := d :: used s; air := air s; nsub := nsub s; alog := alog s |}.
(** isend (communication.py:923-980). *)
Definition with_air (s : ast) fs : ast :=
  {| heap := heap s; next := next s; local := local s; cached := cached s; shared := shared s;
     info := info s; used := used s; air := fs; nsub := nsub s; alog := alog s |}.
(** One more submission (controller/garbage_collector.py:71-79). *)
Definition with_sub (s : ast) : ast :=
  {| heap := heap s; next := next s; local := local s; cached := cached s; shared := shared s;
     info := info s; used := used s; air := air s; nsub := S (nsub s); alog := alog s |}.
(** What the program sees: not in the code (controller/api.py:433, worker/task_store.py:339 give the values to the user). *)
Definition saw (s : ast) e : ast :=
  {| heap := heap s; next := next s; local := local s; cached := cached s; shared := shared s;
     info := info s; used := used s; air := air s; nsub := nsub s; alog := alog s ++ [e] |}.

(** serialize_complex_data with the buffers copied (serialization.py:128-161; local_object_store.py:280-283). *)
Definition pack (c : cont) : pk := {| k_c := c; k_count := length (c_bufs c) |}.

(** The value serialised is stored for sending: to shared memory or to the cache (controller/api.py:389-393, worker/task_store.py:380-390). *)
Definition keep (s : ast) (p : nat) (d : dataid) (c : cont) (sh : bool) : ast :=
  if sh then with_shared s p d c else with_cached s p d (pack c).

(** deserialize_complex_data succeeds if no buffer is missing (serialization.py:248-255). *)
Definition whole (k : pk) : bool := Nat.eqb (length (c_bufs (k_c k))) (k_count k).

(** One operation; see the lines at [aop]. *)
Definition astep (s : ast) (o : aop) : ast :=
  match o with
  | ANew p a bs => alloc s {| o_c := {| c_in := a; c_bufs := bs |}; o_mem := p; o_ro := false |}
  | ASetIn p l a =>
      let x := heap s l in
      if (l <? next s) && Nat.eqb (o_mem x) p
      then with_ob s l {| o_c := {| c_in := a; c_bufs := c_bufs (o_c x) |}; o_mem := o_mem x; o_ro := o_ro x |}
      else s
  | ASetBufs p l bs =>
      let x := heap s l in
      if (l <? next s) && Nat.eqb (o_mem x) p && negb (o_ro x) && Nat.eqb (length bs) (length (c_bufs (o_c x)))
      then with_ob s l {| o_c := {| c_in := c_in (o_c x); c_bufs := bs |}; o_mem := o_mem x; o_ro := o_ro x |}
      else s
  | APut p l d sh =>
      let x := heap s l in
      if (l <? next s) && Nat.eqb (o_mem x) p && negb (did_in d (used s))
      then keep (with_used s d) p d (o_c x) sh
      else s
  | AReturn p l d sh =>
      let x := heap s l in
      if (l <? next s) && Nat.eqb (o_mem x) p && negb (did_in d (used s))
      then keep (with_local (with_used s d) p d l) p d (o_c x) sh
      else s
  | ASubmit p l w =>
      let x := heap s l in
      if (l <? next s) && Nat.eqb (o_mem x) p
      then with_sub (with_air s (air s ++ [FArg (nsub s) w (c_in (o_c x)) l]))
      else s
  | AGet p d =>
      match local s p d with
      | Some l => saw s (AGot p d (o_c (heap s l)))                       (* object_store.py:75-76 *)
      | None =>
          match cached s p d with
          | Some k =>                                                      (* object_store.py:78-84 *)
              if whole k
              then saw (with_local (alloc (with_cached s p d {| k_c := {| c_in := c_in (k_c k); c_bufs := [] |}; k_count := k_count k |})
                                          {| o_c := k_c k; o_mem := p; o_ro := true |}) p d (next s))
                       (AGot p d (k_c k))
              else saw s (ABad p d)
          | None =>
              match info s p d, shared s d with
              | Some _, Some c =>                                          (* object_store.py:85-86 *)
                  saw (with_local (alloc s {| o_c := c; o_mem := p; o_ro := true |}) p d (next s)) (AGot p d c)
              | _, _ => s
              end
          end
      end
  | APush p d w sh =>
      match info s p d with
      | Some _ => with_air s (air s ++ [FInfo d w])                        (* controller/common.py:397-398 *)
      | None =>
          match cached s p d with
          | Some k => with_air s (air s ++ [FData d w k])                  (* controller/common.py:399-400 *)
          | None =>
              match local s p d with
              | Some l =>                                                  (* controller/common.py:401-411 *)
                  let c := o_c (heap s l) in
                  with_air (keep s p d c sh) (air s ++ [if sh then FInfo d w else FData d w (pack c)])
              | None => s
              end
          end
      end
  | ADeliver i =>
      let s1 := with_air s (firstn i (air s) ++ skipn (S i) (air s)) in
      match nth_error (air s) i with
      | Some (FData d w k) =>                                              (* controller/common.py:155-165 *)
          if whole k then with_local (alloc s1 {| o_c := k_c k; o_mem := w; o_ro := false |}) w d (next s) else saw s1 (ABad w d)
      | Some (FInfo d w) =>                                                (* controller/common.py:138-154 *)
          match local s w d with
          | Some _ => s1
          | None => match shared s d with
                    | Some c => with_local (with_info (alloc s1 {| o_c := c; o_mem := w; o_ro := true |}) w d) w d (next s)
                    | None => s1 end
          end
      | Some (FArg n w a l) =>                                             (* controller/common.py:166-169 *)
          let c := {| c_in := a; c_bufs := c_bufs (o_c (heap s l)) |} in
          saw (alloc s1 {| o_c := c; o_mem := w; o_ro := false |}) (AArg n c)
      | None => s
      end
  end.

(** Any operations of any processes, in any order (worker/loop.py:103-222, controller/api.py:371-581). *)
Definition arun (ops : list aop) : ast := fold_left astep ops ainit.
