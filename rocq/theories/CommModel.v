(** Model of the message layer: core/backends/mpi/core/communication.py and the receiving side
    in controller/common.py:113-171 (pull_data), worker/loop.py:103-208, monitor/loop.py:188-259.

    MPI matches a receive (source, tag) with the earliest message sent by that source with that
    tag (non-overtaking rule), so a connection is one FIFO queue per sender and tag; nothing is
    assumed about the order of arrival of different senders or tags. *)
From Verif Require Import Lib.

(** ** Block-wise transfer *)

(** pkl5 sends blocks of [block] bytes: list(range(0, size, block)) + [size]
    (communication.py:493-495, 534-536, 583-585). *)
Fixpoint range_from (start size block fuel : nat) : list nat :=
  match fuel with
  | O => []
  | S f => if start <? size then start :: range_from (start + block) size block f else []
  end.

(** communication.py:495-496, 538-539, 584-585. *)
Definition partitions (size block : nat) : list nat := range_from 0 size block size ++ [size].

(** The pairs (partitions[i], partitions[i+1]). communication.py:499-502, 542-545, 588-590. *)
Fixpoint intervals (l : list nat) : list (nat * nat) :=
  match l with
  | a :: ((b :: _) as r) => (a, b) :: intervals r
  | _ => []
  end.

(** Python slicing buffer[a:b]. communication.py:502, 545. *)
Definition slice {A} (l : list A) (a b : nat) : list A := firstn (b - a) (skipn a l).

(** The blocks of one buffer (communication.py:498-505, 541-549). *)
Definition blocks {A} (buffer : list A) (size block : nat) : list (list A) :=
  map (fun ab => slice buffer (fst ab) (snd ab)) (intervals (partitions size block)).

(** result_buffer[a:b] = tmp. communication.py:594. *)
Definition assign {A} (l : list A) (a b : nat) (tmp : list A) : list A :=
  firstn a l ++ tmp ++ skipn b l.

(** comm.Recv into a buffer of [n] bytes: a longer message is an error (MPI_ERR_TRUNCATE), a shorter one fills the front;
    the fresh bytearray is zero. communication.py:590-593, 841-847. *)
Definition recv_into (n : nat) (msg : list Z) : option (list Z) :=
  if n <? length msg then None else Some (msg ++ repeat 0%Z (n - length msg)).

(** ** Messages and their parts *)
(** MPITag OPERATION, OBJECT, BUFFER and OBJECT_BLOCKING (common.py:92-112). *)
Inductive tag := TagOp | TagObj | TagBuf | TagBlk.

(** Tags are numbers, compared by MPI (common.py:92-112). *)
Definition tag_eqb (a b : tag) : bool :=
  match a, b with
  | TagOp, TagOp | TagObj, TagObj | TagBuf, TagBuf | TagBlk, TagBlk => true
  | _, _ => false
  end.

(** common.py:115-229  a metadata package: kind and sender's ID are one opaque number here,
    then the sizes needed to receive the buffers. [shared] packages have no buffers to follow. *)
Record package := { pk_id : nat; pk_shared : bool; pk_len : nat; pk_lens : list nat; pk_count : list nat }.

(** One MPI send (communication.py:297, 322, 347, 372, 490, 501-505, 534, 544-548, 657-661, 745-752). *)
Inductive part :=
| POp (o : nat)            (* operation code *)
| PObj (x : nat)           (* a pickled object *)
| PSize (n : nat)          (* a pickled buffer size *)
| PMeta (p : package)      (* metadata, non-blocking send *)
| PBlk (p : package)       (* metadata, blocking send *)
| PBuf (b : list Z).       (* raw bytes *)

(** The tag argument of that send (same lines of communication.py). *)
Definition tag_of (p : part) : tag :=
  match p with
  | POp _ => TagOp
  | PObj _ | PSize _ | PMeta _ => TagObj
  | PBlk _ => TagBlk
  | PBuf _ => TagBuf
  end.

(** s_data, raw_buffers and buffer_count of a serialised object (communication.py:690-702, 790-803), and its ID. *)
Record body := { b_id : nat; b_data : list Z; b_raws : list (list Z); b_count : list nat }.

(** What a process sends to another one. The functions are in communication.py, the last one in
    controller/common.py:297-338. *)
Inductive message :=
| MPlain (o : nat)                        (* mpi_send_operation only: CANCEL, SHUTDOWN, ... *)
| MSimple (o : nat) (x : nat)             (* isend_simple_operation, 884-918 *)
| MComplex (o : nat) (b : body)           (* isend_complex_operation, 921-990 *)
| MSerial (o : nat) (bytes : list Z)      (* isend_serialized_operation, 993-1025 *)
| MReply (b : body)                       (* send_complex_data, 634-711 *)
| MReplyShared (p : nat).                 (* _push_shared_data with is_blocking_op, 324-329 *)

(** MetadataPackage.get_local_info and get_task_info (common.py:134-163, 203-229). *)
Definition meta (b : body) : package :=
  {| pk_id := b_id b; pk_shared := false; pk_len := length (b_data b);
     pk_lens := map (@length Z) (b_raws b); pk_count := b_count b |}.

(** MetadataPackage.get_shared_info (common.py:166-200). *)
Definition shared_pack (p : nat) : package :=
  {| pk_id := p; pk_shared := true; pk_len := 0; pk_lens := []; pk_count := [] |}.

(** How an operation is received is fixed by its code (the branches of the loops). worker/loop.py:113-229,
    monitor/loop.py:197-269. *)
Inductive kind := KPlain | KSimple | KComplex | KSerial.

Section Comm.
Variable block : nat.           (* pkl5._bigmpi.blocksize *)
Variable kind_of : nat -> kind. (* operation codes as dispatched in the loops *)

(** The MPI sends of a message, in program order. communication.py:297, 656-661, 743-752, 913-920, 960-990, 1018-1025;
    controller/common.py:312-338. *)
Definition encode (m : message) : list part :=
  match m with
  | MPlain o => [POp o]
  | MSimple o x => [POp o; PObj x]
  | MComplex o b => POp o :: PMeta (meta b) :: PBuf (b_data b) :: map PBuf (b_raws b)
  | MSerial o bytes =>
      POp o :: PSize (length bytes) :: map PBuf (blocks bytes (length bytes) block)
  | MReply b => PBlk (meta b) :: PBuf (b_data b) :: map PBuf (b_raws b)
  | MReplyShared p => [PBlk (shared_pack p)]
  end.

(** A sender respects the dispatch. Operation codes (common.py:30-89) are used with one kind of send each; the receiving
    side is worker/loop.py:113-229, monitor/loop.py:197-269. *)
Definition well_kinded (m : message) : Prop :=
  match m with
  | MPlain o => kind_of o = KPlain
  | MSimple o _ => kind_of o = KSimple
  | MComplex o _ => kind_of o = KComplex
  | MSerial o _ => kind_of o = KSerial
  | _ => True
  end.

(** The receiver, between two MPI calls. [from] is the source it is reading from. Where the receiver is in
    mpi_recv_operation, mpi_recv_object, recv_complex_data and mpi_recv_buffer (communication.py:375-461, 554-596, 816-849).
    *)
Inductive rx :=
| RIdle
| RObj (from o : nat)                                       (* waits for the object of o *)
| RMeta (from o : nat)                                      (* waits for the metadata of o *)
| RSize (from o : nat)
| RBufs (from : nat) (o : option nat) (p : package)         (* waits for the next buffer *)
        (want : list nat) (got : list (list Z))
| RBlocks (from o : nat) (want : list (nat * nat)) (result : list Z)
| RFail.                                                    (* an exception *)

(** One MPI call of a sender or of the receiver (communication.py:277-596). *)
Inductive act := ASend (i : nat)      (* process i issues its next send *)
               | APick (i : nat)      (* the idle receiver takes an operation of i *)
               | APull (i : nat)      (* the idle receiver takes blocking metadata of i *)
               | ARecv.               (* the receiver makes its next receive *)

(** Not a structure of the code: what is sent and received through comm (communication.py:277-596). *)
Record cstate := {
  unsent : nat -> list part;        (* per sender, in program order *)
  queue : nat -> tag -> list part;  (* sent, not received *)
  recv : rx;
  delivered : list (nat * message)
}.

(** The end of recv_complex_data (communication.py:849). *)
Definition finish_bufs (from : nat) (o : option nat) (p : package) (got : list (list Z)) : message :=
  let b := {| b_id := pk_id p; b_data := hd [] got; b_raws := tl got; b_count := pk_count p |} in
  match o with Some o => MComplex o b | None => MReply b end.

(** recv_complex_data (communication.py:816-849): after each buffer. *)
Definition bufs_next (from : nat) (o : option nat) (p : package) (want : list nat)
  (got : list (list Z)) : rx * list (nat * message) :=
  match want with
  | [] => (RIdle, [(from, finish_bufs from o p got)])
  | _ => (RBufs from o p want got, [])
  end.

(** mpi_recv_buffer (communication.py:554-596): after each block. *)
Definition blocks_next (from o : nat) (want : list (nat * nat)) (result : list Z)
  : rx * list (nat * message) :=
  match want with
  | [] => (RIdle, [(from, MSerial o result)])
  | _ => (RBlocks from o want result, [])
  end.

(** After the operation code (worker/loop.py:103-208, monitor/loop.py:188-259). *)
Definition after_op (from o : nat) : rx * list (nat * message) :=
  match kind_of o with
  | KPlain => (RIdle, [(from, MPlain o)])
  | KSimple => (RObj from o, [])
  | KComplex => (RMeta from o, [])
  | KSerial => (RSize from o, [])
  end.

(** What the receiver waits for: source and tag. source and tag of comm.recv and comm.Recv (communication.py:461, 578, 592,
    845-847). *)
Definition waiting (r : rx) : option (nat * tag) :=
  match r with
  | RIdle | RFail => None
  | RObj i _ | RMeta i _ | RSize i _ => Some (i, TagObj)
  | RBufs i _ _ _ _ | RBlocks i _ _ _ => Some (i, TagBuf)
  end.

(** The receiver gets the part it was waiting for; parts of another shape are decoding errors. communication.py:461,
    577-594, 841-849. *)
Definition got_part (r : rx) (p : part) : rx * list (nat * message) :=
  match r, p with
  | RObj i o, PObj x => (RIdle, [(i, MSimple o x)])
  | RMeta i o, PMeta m => bufs_next i (Some o) m (pk_len m :: pk_lens m) []
  | RSize i o, PSize n => blocks_next i o (intervals (partitions n block)) (repeat 0%Z n)
  | RBufs i o m (n :: want) got, PBuf b =>
      match recv_into n b with
      | None => (RFail, [])
      | Some x => bufs_next i o m want (got ++ [x])
      end
  | RBlocks i o ((a, e) :: want) result, PBuf b =>
      match recv_into (e - a) b with
      | None => (RFail, [])
      | Some x => blocks_next i o want (assign result a e x)
      end
  | _, _ => (RFail, [])
  end.

(** MPI's matching of a receive with the earliest message (communication.py:397-407, 430-437, 461). *)
Definition pop (q : nat -> tag -> list part) (i : nat) (t : tag) : nat -> tag -> list part :=
  fun j u => if Nat.eqb j i && tag_eqb u t then tl (q j u) else q j u.

(** MPI's queue of a sender's messages with one tag (communication.py:297-372). *)
Definition push (q : nat -> tag -> list part) (i : nat) (p : part) : nat -> tag -> list part :=
  fun j u => if Nat.eqb j i && tag_eqb u (tag_of p) then q j u ++ [p] else q j u.

(** One MPI call (communication.py:277-596); controller/common.py:131-171 for APull. *)
Definition cstep (st : cstate) (a : act) : cstate :=
  match a with
  | ASend i =>
      match unsent st i with
      | [] => st
      | p :: r =>
          {| unsent := fun j => if Nat.eqb j i then r else unsent st j;
             queue := push (queue st) i p; recv := recv st; delivered := delivered st |}
      end
  | APick i =>
      match recv st, queue st i TagOp with
      | RIdle, POp o :: _ =>
          let (r, evs) := after_op i o in
          {| unsent := unsent st; queue := pop (queue st) i TagOp; recv := r;
             delivered := delivered st ++ evs |}
      | _, _ => st
      end
  | APull i =>
      (* mpi_iprobe_recv_object (410-437) with tag OBJECT_BLOCKING *)
      match recv st, queue st i TagBlk with
      | RIdle, PBlk m :: _ =>
          let (r, evs) :=
            if pk_shared m then (RIdle, [(i, MReplyShared (pk_id m))])
            else bufs_next i None m (pk_len m :: pk_lens m) [] in
          {| unsent := unsent st; queue := pop (queue st) i TagBlk; recv := r;
             delivered := delivered st ++ evs |}
      | _, _ => st
      end
  | ARecv =>
      match waiting (recv st) with
      | None => st
      | Some (i, t) =>
          match queue st i t with
          | [] => st
          | p :: _ =>
              let (r, evs) := got_part (recv st) p in
              {| unsent := unsent st; queue := pop (queue st) i t; recv := r;
                 delivered := delivered st ++ evs |}
          end
      end
  end.

(** Before the first message; the senders' programs are given as lists of messages (communication.py:857-1025). *)
Definition cinit (msgs : nat -> list message) : cstate :=
  {| unsent := fun i => flat_map encode (msgs i); queue := fun _ _ => []; recv := RIdle;
     delivered := [] |}.

(** Any interleaving of the senders with the receiver (worker/loop.py:103-107, monitor/loop.py:188-192). *)
Definition crun (msgs : nat -> list message) (acts : list act) : cstate :=
  fold_left cstep acts (cinit msgs).

End Comm.

(** ** mpi_send_buffer / mpi_recv_buffer (464-505, 554-596) as sequences of parts *)

(** [announce]: the [buffer_size] argument. mpi_send_buffer (communication.py:464-505). *)
Definition send_buffer (block : nat) (buffer : list Z) (announce : option nat) : list part :=
  match announce with
  | Some (S n) => PSize (S n) :: map PBuf (blocks buffer (S n) block)
  | _ => map PBuf (blocks buffer (length buffer) block)   (* `if buffer_size:` is false for 0 *)
  end.

(** mpi_isend_buffer (communication.py:508-551): the size is always announced. *)
Definition isend_buffer (block : nat) (buffer : list Z) : list part :=
  PSize (length buffer) :: map PBuf (blocks buffer (length buffer) block).

(** The loop of mpi_recv_buffer (communication.py:587-594). *)
Fixpoint recv_blocks (want : list (nat * nat)) (result : list Z) (parts : list part)
  : option (list Z * list part) :=
  match want, parts with
  | [], _ => Some (result, parts)
  | (a, e) :: w, PBuf b :: r =>
      match recv_into (e - a) b with
      | None => None
      | Some x => recv_blocks w (assign result a e x) r
      end
  | _, _ => None       (* waits for ever *)
  end.

(** [result]: the caller's buffer, if given. mpi_recv_buffer (communication.py:554-596). *)
Definition recv_buffer (block : nat) (result : option (list Z)) (parts : list part)
  : option (list Z * list part) :=
  match result with
  | Some rb => recv_blocks (intervals (partitions (length rb) block)) rb parts
  | None =>
      match parts with
      | PSize n :: r => recv_blocks (intervals (partitions n block)) (repeat 0%Z n) r
      | _ => None
      end
  end.
