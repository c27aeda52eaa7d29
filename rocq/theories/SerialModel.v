(** Model of core/backends/mpi/core/serialization.py and of the local cache of serialised data
    (local_object_store.py:269-315, object_store.py:58-90, communication.py:664-711, 757-813).

    The libraries are parameters with the contracts of [pickle_contract]; msgpack's byte encoding
    of native trees is not modelled: [pack] produces the tree that is encoded and [unpack]
    consumes the tree that was decoded, calling the two hooks at the points where msgpack calls
    them (packing and unpacking both go through the tree from left to right, keys before
    values, and the object hook is called on a map after its entries). *)
From Verif Require Import Lib.
Require Import String.
Open Scope list_scope.

(** Which encoder takes an object msgpack cannot pack (50-94): pandas/numpy objects go to pickle with protocol 5, then
    functions, classes and non-builtins to cloudpickle, the rest to pickle. The lines are in serialization.py. *)
Inductive category := ByPickle5 | ByCloud | ByPickle.

Notation buffer := (list Z) (only parsing).

Section Serial.
Variable obj : Type.                 (* objects msgpack cannot pack (strict_types) *)
Variable bytes : Type.
Variable is_pickle5 is_cpkl : obj -> bool.

Variable cpkl_dumps : obj -> bytes.
Variable cpkl_loads : bytes -> option obj.
Variable pkl_dumps : obj -> bytes.
Variable pkl_loads : bytes -> option obj.
(** pickle protocol 5: the buffers of an object are offered one by one to the callback; what is
    answered for each ([true]: keep in band) and the object determine the bytes. *)
Variable p5_buffers : obj -> list buffer.
Variable p5_dumps : obj -> list bool -> bytes.
Variable p5_loads : bytes -> list buffer -> option obj.

(** The buffers taken out of band. pickle hands a buffer out of band when buffer_callback returns a false value
    (serialization.py:128-142, 158-161). *)
Definition out_of_band (bufs : list buffer) (in_band : list bool) : list buffer :=
  map fst (filter (fun p => negb (snd p)) (combine bufs in_band)).

(** The contract of the pickling libraries. pickle.loads takes the out-of-band buffers it needs from the front of the
    iterable it is given. The library functions called in serialization.py:158-193, 244-257; not part of /repo. *)
Definition pickle_contract : Prop :=
  (forall o, cpkl_loads (cpkl_dumps o) = Some o) /\
  (forall o, pkl_loads (pkl_dumps o) = Some o) /\
  (forall o ds rest, List.length ds = List.length (p5_buffers o) ->
     p5_loads (p5_dumps o ds) (out_of_band (p5_buffers o) ds ++ rest) = Some o).

(** What msgpack packs by itself (exact types only; integers within 64 bits). serialization.py:231. *)
Inductive atom := ANone | ABool (b : bool) | AInt (z : Z) | AFloat (f : nat) | AStr (s : string)
                | ABytes (b : bytes).

(** A user's value (serialization.py:213-231): what msgpack packs by itself, and objects for the hook. *)
Inductive value :=
| VAtom (a : atom)
| VList (l : list value)
| VDict (l : list (value * value))
| VObj (o : obj).

(** Native trees, as msgpack encodes them. The result of msgpack.packb (serialization.py:231) before it is turned into
    bytes. *)
Inductive ntree :=
| NAtom (a : atom)
| NList (l : list ntree)
| NMap (l : list (ntree * ntree)).

Variable threshold : nat.   (* PICKLE_THRESHOLD *)

(** The attributes of ComplexDataSerializer (serialization.py:123-126). *)
Record ser := { s_buffers : list buffer; s_count : list nat; s_callback : nat }.

(** _buffer_callback (serialization.py:128-142). *)
Definition buffer_callback (st : ser) (b : buffer) : bool * ser :=
  if threshold <=? List.length b
  then (false, {| s_buffers := s_buffers st ++ [b]; s_count := s_count st;
                  s_callback := S (s_callback st) |})
  else (true, st).

(** pickle.dumps calls buffer_callback for every buffer, in order (serialization.py:158-161). *)
Fixpoint offer (st : ser) (bufs : list buffer) : list bool * ser :=
  match bufs with
  | [] => ([], st)
  | b :: r =>
      let (d, st1) := buffer_callback st b in
      let (ds, st2) := offer st1 r in (d :: ds, st2)
  end.

(** serialization.py:158-161, 244-257. *)
Definition marker5 : string := "__pickle5_custom__".
(** serialization.py:177, 244-257. *)
Definition marker_c : string := "__cloud_custom__".
(** serialization.py:193, 244-257. *)
Definition marker_p : string := "__pickle_custom__".
(** serialization.py:158-193. *)
Definition as_bytes : string := "as_bytes".

(** The dictionaries of serialization.py:158-193. *)
Definition tagged (m : string) (b : bytes) : ntree :=
  NMap [(NAtom (AStr m), NAtom (ABool true)); (NAtom (AStr as_bytes), NAtom (ABytes b))].

(** _dataframe_encode (serialization.py:144-161), _cpkl_encode, _pkl_encode (163-193), _encode_custom (195-211). *)
Definition encode_custom (st : ser) (o : obj) : ntree * ser :=
  if is_pickle5 o then
    let (ds, st1) := offer st (p5_buffers o) in
    (tagged marker5 (p5_dumps o ds),
     {| s_buffers := s_buffers st1; s_count := s_count st1 ++ [s_callback st1]; s_callback := 0 |})
  else if is_cpkl o then (tagged marker_c (cpkl_dumps o), st)
  else (tagged marker_p (pkl_dumps o), st).

(** msgpack.packb with the hook (serialization.py:213-231). *)
Fixpoint pack (st : ser) (v : value) : ntree * ser :=
  match v with
  | VAtom a => (NAtom a, st)
  | VObj o => encode_custom st o
  | VList l =>
      let (l', st') :=
        (fix go (st : ser) (l : list value) : list ntree * ser :=
           match l with
           | [] => ([], st)
           | v :: r => let (n, st1) := pack st v in
                       let (ns, st2) := go st1 r in (n :: ns, st2)
           end) st l in
      (NList l', st')
  | VDict l =>
      let (l', st') :=
        (fix go (st : ser) (l : list (value * value)) : list (ntree * ntree) * ser :=
           match l with
           | [] => ([], st)
           | (k, v) :: r => let (k', st1) := pack st k in
                            let (v', st2) := pack st1 v in
                            let (ns, st3) := go st2 r in ((k', v') :: ns, st3)
           end) st l in
      (NMap l', st')
  end.

(** The deserialiser's state: [self.buffers] and [self.buffer_count]. serialization.py:123-126. *)
Record des := { d_buffers : list buffer; d_count : list nat }.

(** "name" in obj and obj["name"], for a decoded map. serialization.py:244-257. *)
Fixpoint lookup (name : string) (l : list (value * value)) : option value :=
  match l with
  | [] => None
  | (VAtom (AStr s), v) :: r => if String.eqb s name then Some v else lookup name r
  | _ :: r => lookup name r
  end.

(** serialization.py:244-257. *)
Definition bytes_at (name : string) (l : list (value * value)) : option bytes :=
  match lookup name l with Some (VAtom (ABytes b)) => Some b | _ => None end.

(** _decode_custom (serialization.py:233-257); [None] is an exception. *)
Definition decode_custom (st : des) (l : list (value * value)) : option (value * des) :=
  match lookup marker_c l with
  | Some _ =>
      match bytes_at as_bytes l with
      | Some b => match cpkl_loads b with Some o => Some (VObj o, st) | None => None end
      | None => None
      end
  | None =>
      match lookup marker_p l with
      | Some _ =>
          match bytes_at as_bytes l with
          | Some b => match pkl_loads b with Some o => Some (VObj o, st) | None => None end
          | None => None
          end
      | None =>
          match lookup marker5 l with
          | Some _ =>
              match bytes_at as_bytes l with
              | Some b =>
                  match p5_loads b (d_buffers st) with
                  | Some o =>
                      Some (VObj o,
                        match d_count st with
                        | n :: c => {| d_buffers := skipn n (d_buffers st); d_count := c |}
                        | [] => st
                        end)
                  | None => None
                  end
              | None => None
              end
          | None => Some (VDict l, st)
          end
      end
  end.

(** msgpack.unpackb with the hook (serialization.py:259-282). *)
Fixpoint unpack (st : des) (n : ntree) : option (value * des) :=
  match n with
  | NAtom a => Some (VAtom a, st)
  | NList l =>
      match
        (fix go (st : des) (l : list ntree) : option (list value * des) :=
           match l with
           | [] => Some ([], st)
           | n :: r =>
               match unpack st n with
               | Some (v, st1) =>
                   match go st1 r with Some (vs, st2) => Some (v :: vs, st2) | None => None end
               | None => None
               end
           end) st l
      with Some (vs, st') => Some (VList vs, st') | None => None end
  | NMap l =>
      match
        (fix go (st : des) (l : list (ntree * ntree)) : option (list (value * value) * des) :=
           match l with
           | [] => Some ([], st)
           | (k, n) :: r =>
               match unpack st k with
               | Some (k', st1) =>
                   match unpack st1 n with
                   | Some (v, st2) =>
                       match go st2 r with
                       | Some (vs, st3) => Some ((k', v) :: vs, st3) | None => None end
                   | None => None
                   end
               | None => None
               end
           end) st l
      with Some (vs, st') => decode_custom st' vs | None => None end
  end.

(** The result of serialize_complex_data (serialization.py:359-384). *)
Record serialized := { z_data : ntree; z_raw : list buffer; z_count : list nat }.

(** serialization.py:359-384. *)
Definition serialize (v : value) : serialized :=
  let (n, st) := pack {| s_buffers := []; s_count := []; s_callback := 0 |} v in
  {| z_data := n; z_raw := s_buffers st; z_count := s_count st |}.

(** deserialize_complex_data (serialization.py:387-410): the value, and the caller's dictionary afterwards. The count is
    copied (125), the list of buffers is not (124): what the deserialiser deletes from it is deleted from the caller's list.
    *)
Definition deserialize (z : serialized) : option (value * serialized) :=
  match unpack {| d_buffers := z_raw z; d_count := z_count z |} (z_data z) with
  | Some (v, st) =>
      Some (v, {| z_data := z_data z; z_raw := d_buffers st; z_count := z_count z |})
  | None => None
  end.

(** ** A data ID held in serialised form: gets in this process and sends to others *)
(** local_object_store.py:24-38, 73-85, 269-285. *)
Record holder := { h_value : option value;      (* local_store: the value itself *)
                   h_cache : serialized }.      (* local_store: the serialised value *)

(** ObjectStore.get (object_store.py:58-90) and a push of the data (controller/common.py:236-294). *)
Inductive hop := HGet | HSend.

(** What these give. object_store.py:58-90, communication.py:664-711, 757-813. *)
Inductive hevent := HGot (v : value) | HSent (z : serialized) | HError.

(** object_store.py:58-90 (get), communication.py:664-711 and 757-813 (send what is cached). *)
Definition hstep (h : holder) (op : hop) : holder * hevent :=
  match op with
  | HGet =>
      match h_value h with
      | Some v => (h, HGot v)
      | None =>
          match deserialize (h_cache h) with
          | Some (v, z) => ({| h_value := Some v; h_cache := z |}, HGot v)
          | None => (h, HError)
          end
      end
  | HSend => (h, HSent (h_cache h))
  end.

(** Any history of one data ID in one process (object_store.py:58-90, controller/common.py:236-294). *)
Fixpoint hrun (h : holder) (ops : list hop) : list hevent :=
  match ops with
  | [] => []
  | op :: r => let (h', e) := hstep h op in e :: hrun h' r
  end.

(** A process holding only the serialised form of [v] (after put or at the end of a task). controller/api.py:388-393,
    worker/task_store.py:388-390. *)
Definition holding (v : value) : holder := {| h_value := None; h_cache := serialize v |}.

End Serial.
