(** Model of core/backends/mpi/core/shared_object_store.py: the bytes of shared memory, the
    service cells, and the puts, gets, drops and cleanups of all processes.
    Every API call is one atomic step here; the interleaving of their parts is modelled in
    ShmRaceModel.v. *)
From Verif Require Import Lib ShmModel.
Local Open Scope Z_scope.

(** serialization.py:359-384  serialize_complex_data's result
    ({"s_data": bytes, "raw_buffers": list, "buffer_count": list}). *)
Record payload := { s_data : list Z; raw_buffers : list (list Z); buffer_count : list nat }.

(** shared_object_store.py:594-609, 736-738  data_size *)
Definition data_size (p : payload) : nat :=
  (length (s_data p) + list_sum (map (@length Z) (raw_buffers p)))%nat.

(** common.py:115-229  MetadataPackage.get_shared_info (without the package type and ID). *)
Record shinfo := {
  s_data_len : nat;
  raw_buffers_len : list nat;
  info_buffer_count : list nat;
  info_service_index : Z
}.

(** Shared memory: bytes and service cells are total functions; the code only touches reserved indices.
    shared_object_store.py:149-263. *)
Definition mem := Z -> Z.
(** An assignment to one cell (shared_object_store.py:367-383, 485-524). *)
Definition zupd (m : mem) (a v : Z) : mem := fun x => if x =? a then v else m x.

(** [shared_buffer[a : a + len] = bs] (slice assignment, and [parallel_memcopy] by its specification proved in
    MemCopyProps.v). shared_object_store.py:485-524. *)
Fixpoint write_bytes (m : mem) (a : Z) (bs : list Z) : mem :=
  match bs with [] => m | b :: r => write_bytes (zupd m a b) (a + 1) r end.

(** [shared_buffer[a : a + n]]. shared_object_store.py:440-466. *)
Fixpoint read_bytes (m : mem) (a : Z) (n : nat) : list Z :=
  match n with O => [] | S n' => m a :: read_bytes m (a + 1) n' end.

(** One host: its monitor's manager, the two shared windows and the length of the service buffer (service_info_max_count).
    monitor/shared_memory_manager.py:111-128, shared_object_store.py:149-263. *)
Record host := { mgr : manager; dmem : mem; smem : mem; slen : Z }.

(** Only the manager changes (monitor/loop.py:221-259). *)
Definition set_mgr (h : host) (m : manager) : host :=
  {| mgr := m; dmem := dmem h; smem := smem h; slen := slen h |}.
(** Only the data window changes (shared_object_store.py:485-524). *)
Definition set_dmem (h : host) (m : mem) : host :=
  {| mgr := mgr h; dmem := m; smem := smem h; slen := slen h |}.
(** Only the service window changes (shared_object_store.py:282-383, 692-723). *)
Definition set_smem (h : host) (m : mem) : host :=
  {| mgr := mgr h; dmem := dmem h; smem := m; slen := slen h |}.

(** shared_object_store.py:229-263  windows allocated, service cells filled with -1. *)
Definition host_init (sz : Z * Z) : host :=
  {| mgr := manager_init (fst sz) (snd sz); dmem := fun _ => 0; smem := fun _ => -1; slen := snd sz |}.

(** shared_object_store.py:265-280  _parse_data_id: see DataIdProps.v for the string part. *)
Definition worker_id (d : dataid) : Z := Z.of_nat (fst d).
(** The second component of _parse_data_id (shared_object_store.py:265-280). *)
Definition data_number (d : dataid) : Z := Z.of_nat (snd d).

(** shared_object_store.py:385-408  _check_service_info *)
Definition check_service_info (sm : mem) (d : dataid) (s : Z) : bool :=
  (sm s =? worker_id d) && (sm (s + 1) =? data_number d).

(** shared_object_store.py:350-383  _put_service_info (cells only; the finalizer is added by
    the caller). *)
Definition put_service_info (sm : mem) (s : Z) (d : dataid) (first : Z) : mem :=
  zupd (zupd (zupd (zupd sm (s + 2) first) (s + 3) 1) (s + 1) (data_number d)) s (worker_id d).

(** shared_object_store.py:282-316  _increment_ref_number (cells only). *)
Definition increment_ref (sm : mem) (s : Z) : mem := zupd sm (s + 3) (sm (s + 3) + 1).

(** shared_object_store.py:318-348  _decrement_ref_number *)
Definition decrement_ref (sm : mem) (d : dataid) (s : Z) : mem :=
  if check_service_info sm d s then zupd sm (s + 3) (sm (s + 3) - 1) else sm.

(** shared_object_store.py:641-659  get_ref_number *)
Definition get_ref_number (sm : mem) (d : dataid) (s : Z) : Z :=
  if check_service_info sm d s then sm (s + 3) else 0.

(** shared_object_store.py:678-723  delete_service_info; [None] is the RuntimeError. *)
Definition delete_service_info (sm : mem) (d : dataid) (s : Z) : option mem :=
  if check_service_info sm d s
  then Some (zupd (zupd (zupd (zupd sm s (-1)) (s + 1) (-1)) (s + 2) (-1)) (s + 3) (-1))
  else None.

(** shared_object_store.py:492-513  the loop over raw buffers: writes each one after the
    previous, [None] is the ValueError "Not enough shared space". *)
Fixpoint write_raw (m : mem) (prev last : Z) (bufs : list (list Z)) : option mem :=
  match bufs with
  | [] => Some m
  | b :: r =>
      let nxt := prev + Z.of_nat (length b) in
      if nxt >? last then None else write_raw (write_bytes m prev b) nxt last r
  end.

(** shared_object_store.py:468-524  _write_to_shared_buffer *)
Definition write_to_shared_buffer (m : mem) (r : resinfo) (p : payload) : option (mem * shinfo) :=
  let e := first_index r + Z.of_nat (length (s_data p)) in
  if e >? last_index r then None
  else
    match write_raw (write_bytes m (first_index r) (s_data p)) e (last_index r) (raw_buffers p) with
    | None => None
    | Some m' =>
        Some (m', {| s_data_len := length (s_data p);
                     raw_buffers_len := map (@length Z) (raw_buffers p);
                     info_buffer_count := buffer_count p;
                     info_service_index := service_index r |})
    end.

(** shared_object_store.py:445-459  reading the raw buffers one after the other. *)
Fixpoint read_raw (m : mem) (prev : Z) (lens : list nat) : list (list Z) :=
  match lens with
  | [] => []
  | n :: r => read_bytes m prev n :: read_raw m (prev + Z.of_nat n) r
  end.

(** shared_object_store.py:425-466  _read_from_shared_buffer up to deserialisation. *)
Definition read_from_shared_buffer (h : host) (i : shinfo) : payload :=
  let first := smem h (info_service_index i + 2) in
  {| s_data := read_bytes (dmem h) first (s_data_len i);
     raw_buffers := read_raw (dmem h) (first + Z.of_nat (s_data_len i)) (raw_buffers_len i);
     buffer_count := info_buffer_count i |}.

(** The whole cluster's shared storage. [infos p] is process [p]'s _shared_info (WeakKeyDictionary keyed by its DataID
    objects), [fins] all live weakref finalizers (process, ID, service index), [inflight] the PUT_SHARED_DATA packages sent
    and not yet received (sender, ID, package). shared_object_store.py:90-120, 410-423, controller/common.py:297-338. *)
Record store := {
  hosts : list host;
  infos : nat -> dmap shinfo;
  fins : list (nat * dataid * Z);
  inflight : list (nat * dataid * shinfo)
}.

(** shared_object_store.py:90-120, 149-263. *)
Definition store_init (sizes : list (Z * Z)) : store :=
  {| hosts := map host_init sizes; infos := fun _ => dempty; fins := []; inflight := [] |}.

(** shared_object_store.py:410-423  _put_shared_info *)
Definition put_shared_info (inf : nat -> dmap shinfo) (p : nat) (d : dataid) (i : shinfo)
  : nat -> dmap shinfo :=
  match inf p d with
  | Some _ => inf
  | None => fun q => if Nat.eqb q p then dput (inf p) d i else inf q
  end.

(** An entry of a WeakKeyDictionary goes with its key (shared_object_store.py:90-120). *)
Definition del_shared_info (inf : nat -> dmap shinfo) (p : nat) (d : dataid) : nat -> dmap shinfo :=
  fun q => if Nat.eqb q p then ddel (inf p) d else inf q.

(** weakref.finalize(data_id, ...) of one process (shared_object_store.py:774-828, 725-756). *)
Definition fin_is (p : nat) (d : dataid) (f : nat * dataid * Z) : bool :=
  Nat.eqb (fst (fst f)) p && did_eqb (snd (fst f)) d.

(** A package is received (controller/common.py:131-154). *)
Fixpoint remove_nth {A} (n : nat) (l : list A) : list A :=
  match l, n with
  | [], _ => []
  | _ :: r, O => r
  | x :: r, S n' => x :: remove_nth n' r
  end.

Inductive sop :=
| SPut (p : nat) (d : dataid) (pl : payload)     (* push_data of a large value: store.put *)
| SSend (p : nat) (d : dataid)                   (* _push_shared_data, controller/common.py:297-338 *)
| SRecv (p : nat) (k : nat)                      (* pull_data of the k-th package in flight *)
| SRead (p : nat) (d : dataid)                   (* store.get(data_id), package already known *)
| SDrop (p : nat) (d : dataid)                   (* process p's DataID object dies *)
| SCleanup (ids : list dataid)                   (* CLEANUP handled by all monitors *)
| SSkip (k : nat).                               (* pull_data of the k-th package by a process whose local
                                                    store has the object, controller/common.py:136-141 *)

(** shared_object_store.py:626-639, 758-828. *)
Inductive sout := OValue (pl : payload) | ODone | OKeyError.

Section Step.
Variable host_of : nat -> nat.     (* host of each process *)

(** The storage of one host changes (shared_object_store.py:149-263). *)
Definition set_host (st : store) (h : nat) (x : host) : store :=
  {| hosts := upd_nth h (fun _ => x) (hosts st); infos := infos st; fins := fins st;
     inflight := inflight st |}.

(** shared_object_store.py:725-756  put.  [None]: an exception escapes (MemoryError in the
    monitor, ValueError here). *)
Definition store_put (st : store) (p : nat) (d : dataid) (pl : payload) : option store :=
  match nth_error (hosts st) (host_of p) with
  | None => None
  | Some h =>
      match mgr_reserve (mgr h) d (Z.of_nat (data_size pl)) with
      | (_, None) => None
      | (m', Some (r, _)) =>
          match write_to_shared_buffer (dmem h) r pl with
          | None => None
          | Some (dm, i) =>
              let h' := {| mgr := m'; dmem := dm;
                           smem := put_service_info (smem h) (service_index r) d (first_index r);
                           slen := slen h |} in
              Some {| hosts := upd_nth (host_of p) (fun _ => h') (hosts st);
                      infos := put_shared_info (infos st) p d i;
                      fins := fins st ++ [(p, d, service_index r)];
                      inflight := inflight st |}
          end
      end
  end.

(** shared_object_store.py:818-828  the end of get: record the package with this host's
    service index, increment, read. *)
Definition finish_get (st : store) (p : nat) (h : host) (d : dataid) (i : shinfo) (s : Z)
  : store * sout :=
  let i' := {| s_data_len := s_data_len i; raw_buffers_len := raw_buffers_len i;
               info_buffer_count := info_buffer_count i; info_service_index := s |} in
  let h' := set_smem h (increment_ref (smem h) s) in
  ({| hosts := upd_nth (host_of p) (fun _ => h') (hosts st);
      infos := put_shared_info (infos st) p d i';
      fins := fins st ++ [(p, d, s)];
      inflight := inflight st |},
   OValue (read_from_shared_buffer h' i')).

(** shared_object_store.py:526-565 with monitor/loop.py:235-253: the bytes of the owner's
    host, [None] is the RuntimeError of a monitor that does not know the ID. *)
Definition sync_bytes (st : store) (q : nat) (d : dataid) : option (list Z) :=
  match nth_error (hosts st) (host_of q) with
  | None => None
  | Some ho =>
      match resv (mgr ho) d with
      | None => None
      | Some ro => Some (read_bytes (dmem ho) (first_index ro)
                                    (Z.to_nat (last_index ro - first_index ro)))
      end
  end.

(** shared_object_store.py:758-828  get with a package received from process [q]. *)
Definition store_get (st : store) (p q : nat) (d : dataid) (i : shinfo) : option (store * sout) :=
  match nth_error (hosts st) (host_of p) with
  | None => None
  | Some h =>
      let s := info_service_index i in
      (* indexing the service buffer outside its bounds is an IndexError *)
      if negb ((0 <=? s) && (s + 4 <=? slen h)) then None
      else if check_service_info (smem h) d s then Some (finish_get st p h d i s)
      else
        let len := (s_data_len i + list_sum (raw_buffers_len i))%nat in
        match mgr_reserve (mgr h) d (Z.of_nat len) with
        | (_, None) => None
        | (m', Some (r, true)) =>
            let h1 := set_mgr h m' in
            let st1 := set_host st (host_of p) h1 in
            match sync_bytes st1 q d with
            | None => None
            | Some bs =>
                if Z.of_nat (length bs) >? last_index r - first_index r then None
                else
                  let h2 := {| mgr := m'; dmem := write_bytes (dmem h) (first_index r) bs;
                               smem := put_service_info (smem h) (service_index r) d (first_index r);
                               slen := slen h |} in
                  let st2 := set_host st (host_of p) h2 in
                  Some (finish_get
                          {| hosts := hosts st2; infos := infos st2;
                             fins := fins st2 ++ [(p, d, service_index r)];
                             inflight := inflight st2 |} p h2 d i (service_index r))
            end
        | (m', Some (r, false)) =>
            (* the polling loop ends only if the service info is there *)
            let h1 := set_mgr h m' in
            let st1 := set_host st (host_of p) h1 in
            if check_service_info (smem h) d (service_index r)
            then Some (finish_get st1 p h1 d i (service_index r))
            else None
        end
  end.

(** Finalizers of a dead DataID object run one after the other. shared_object_store.py:318-348. *)
Definition run_finalizers (sm : mem) (d : dataid) (ss : list Z) : mem :=
  fold_left (fun m s => decrement_ref m d s) ss sm.

(** shared_object_store.py:318-348; the DataID object of one process dies. *)
Definition store_drop (st : store) (p : nat) (d : dataid) : option store :=
  match nth_error (hosts st) (host_of p) with
  | None => None
  | Some h =>
      let mine := map snd (filter (fin_is p d) (fins st)) in
      Some {| hosts := upd_nth (host_of p) (fun _ => set_smem h (run_finalizers (smem h) d mine))
                               (hosts st);
              infos := del_shared_info (infos st) p d;
              fins := filter (fun f => negb (fin_is p d f)) (fins st);
              inflight := inflight st |}
  end.

(** shared_memory_manager.py:230-246 with the service cells. *)
Fixpoint host_clear_loop (h : host) (l : list (dataid * bool)) : option host :=
  match l with
  | [] => Some h
  | (d, referenced) :: rest =>
      if referenced then
        host_clear_loop (set_mgr h {| resv := resv (mgr h); free_memory := free_memory (mgr h);
                                      free_service := free_service (mgr h);
                                      pending_cleanup := pending_cleanup (mgr h) ++ [d] |}) rest
      else
        match resv (mgr h) d with
        | None => host_clear_loop h rest
        | Some r =>
            match delete_service_info (smem h) d (service_index r) with
            | None => None
            | Some sm => host_clear_loop (set_smem (set_mgr h (mgr_free_one (mgr h) d)) sm) rest
            end
        end
  end.

(** shared_memory_manager.py:208-222  reference counts as the monitor reads them. *)
Definition host_refs (h : host) (d : dataid) : Z :=
  match resv (mgr h) d with
  | None => 0
  | Some r => get_ref_number (smem h) d (service_index r)
  end.

(** shared_memory_manager.py:194-246  clear, all monitors together. *)
Definition hosts_clear (hs : list host) (ids : list dataid) : option (list host) :=
  let all_refs :=
    allreduce_max (map (fun h => has_refs (host_refs h) (mgr h) (cleanup_list (mgr h) ids)) hs) in
  fold_right (fun h acc =>
      match acc, host_clear_loop (set_mgr h {| resv := resv (mgr h); free_memory := free_memory (mgr h);
                                               free_service := free_service (mgr h);
                                               pending_cleanup := [] |})
                                 (combine (cleanup_list (mgr h) ids) all_refs) with
      | Some l, Some h' => Some (h' :: l)
      | _, _ => None
      end) (Some []) hs.

(** controller/api.py:385-397, controller/common.py:131-154, 297-338, shared_object_store.py:725-828,
    monitor/loop.py:221-259. *)
Definition sstep (st : store) (o : sop) : option (store * sout) :=
  match o with
  | SPut p d pl =>
      match store_put st p d pl with None => None | Some st' => Some (st', ODone) end
  | SSend p d =>
      match infos st p d with
      | None => Some (st, OKeyError)
      | Some i => Some ({| hosts := hosts st; infos := infos st; fins := fins st;
                           inflight := inflight st ++ [(p, d, i)] |}, ODone)
      end
  | SRecv p k =>
      match nth_error (inflight st) k with
      | None => Some (st, ODone)
      | Some (q, d, i) =>
          store_get {| hosts := hosts st; infos := infos st; fins := fins st;
                       inflight := remove_nth k (inflight st) |} p q d i
      end
  | SRead p d =>
      match infos st p d, nth_error (hosts st) (host_of p) with
      | Some i, Some h => Some (st, OValue (read_from_shared_buffer h i))
      | _, _ => Some (st, OKeyError)
      end
  | SDrop p d => match store_drop st p d with None => None | Some st' => Some (st', ODone) end
  | SCleanup ids =>
      match hosts_clear (hosts st) ids with
      | None => None
      | Some hs => Some ({| hosts := hs; infos := infos st; fins := fins st;
                            inflight := inflight st |}, ODone)
      end
  | SSkip k => Some ({| hosts := hosts st; infos := infos st; fins := fins st;
                        inflight := remove_nth k (inflight st) |}, ODone)
  end.

(** A history; [None] as soon as an exception escapes into a service process. Any history of all processes
    (shared_object_store.py:66-845). *)
Fixpoint srun (st : store) (ops : list sop) : option store :=
  match ops with
  | [] => Some st
  | o :: r => match sstep st o with None => None | Some (st', _) => srun st' r end
  end.
End Step.
