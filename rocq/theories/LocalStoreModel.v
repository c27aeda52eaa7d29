(** The local object store of a process, with Python's objects and weak references (MPI).

    Models /repo/unidist/core/backends/mpi/core: local_object_store.py:13-182, 233-317 (LocalObjectStore: WeakKeyDictionary-s for values,
    owners, ranks sent to and serialised data; a dict of strong references to the data IDs of other processes), common.py:285-296
    (MpiDataID.__new__, _instances) and object_store.py:36-86 (ObjectStore without the shared store).

    Simplifications: everything else that refers to a data ID object (variables of the program, messages being handled, requests and
    tasks kept, values in the store) is one list of references; a reference goes at any moment. An object dies when nothing refers to it
    (reference counting), and its entries in weak dictionaries die with it. Serialised data is a token. *)
From Verif Require Import Lib ShmModel ValModel.

(** A WeakKeyDictionary: the address of the key object and the item (local_object_store.py:24-38). *)
Definition wmap (A : Type) := list (nat * A).

(** l_objs: the live MpiDataID objects, address and key (_instances holds exactly these, common.py:285). l_vars: references to them from
    elsewhere. l_ids: _data_id_map. The others: _data_map, _data_owner_map, _sent_data_map, _serialization_cache.
    local_object_store.py:24-38. *)
Record lst := {
  l_objs : list (nat * dataid);
  l_next : nat;
  l_vars : list nat;
  l_ids : list nat;
  l_data : wmap val;
  l_owner : wmap rank;
  l_sent : wmap (list rank);
  l_ser : wmap nat
}.

(** A new process (local_object_store.py:24-38). *)
Definition linit : lst :=
  {| l_objs := []; l_next := 0; l_vars := []; l_ids := []; l_data := []; l_owner := []; l_sent := []; l_ser := [] |}.

(** The key of the object at an address: owner_rank and data_number, to which _id is equivalent (common.py:298-302). *)
Definition key_of (objs : list (nat * dataid)) (a : nat) : option dataid :=
  match find (fun x => Nat.eqb (fst x) a) objs with Some x => Some (snd x) | None => None end.

(** The object at address a is equal to the data ID d: DataID.__eq__ compares _id (common/data_id.py:25-26). *)
Definition is_key (objs : list (nat * dataid)) (d : dataid) (a : nat) : bool :=
  match key_of objs a with Some d' => did_eqb d' d | None => false end.

(** m[d]; None: KeyError (local_object_store.py:101-131). Lookup is by hash and equality (common/data_id.py:25-29). *)
Definition wget {A} (objs : list (nat * dataid)) (m : wmap A) (d : dataid) : option A :=
  match find (fun x => is_key objs d (fst x)) m with Some x => Some (snd x) | None => None end.

(** m[key object at a] = x. If there is an equal key the old key object stays (local_object_store.py:84, 98, 246-248, 284). *)
Definition wput {A} (objs : list (nat * dataid)) (m : wmap A) (a : nat) (x : A) : wmap A :=
  match key_of objs a with
  | None => m
  | Some d =>
      if existsb (fun y => is_key objs d (fst y)) m
      then map (fun y => if is_key objs d (fst y) then (fst y, x) else y) m
      else m ++ [(a, x)]
  end.

(** Entries whose key object is dead are removed; what WeakKeyDictionary does (local_object_store.py:26-38). *)
Definition wsweep {A} (alive : nat -> bool) (m : wmap A) : wmap A := filter (fun y => alive (fst y)) m.

(** Objects that nothing refers to any more die, and weak entries with them. Reference counting; the weak dictionaries of
    local_object_store.py:26-38 and common.py:285. *)
Definition sweep (s : lst) : lst :=
  let alive a := existsb (Nat.eqb a) (l_vars s ++ l_ids s) in
  {| l_objs := filter (fun o => alive (fst o)) (l_objs s); l_next := l_next s; l_vars := l_vars s; l_ids := l_ids s;
     l_data := wsweep alive (l_data s); l_owner := wsweep alive (l_owner s); l_sent := wsweep alive (l_sent s);
     l_ser := wsweep alive (l_ser s) |}.

(** MpiDataID.__new__ (common.py:287-296), called when a data ID is generated or unpickled; a variable refers to the result. *)
Definition new_id (s : lst) (d : dataid) : lst :=
  match find (fun o => did_eqb (snd o) d) (l_objs s) with
  | Some o =>
      {| l_objs := l_objs s; l_next := l_next s; l_vars := l_vars s ++ [fst o]; l_ids := l_ids s;
         l_data := l_data s; l_owner := l_owner s; l_sent := l_sent s; l_ser := l_ser s |}
  | None =>
      {| l_objs := l_objs s ++ [(l_next s, d)]; l_next := S (l_next s); l_vars := l_vars s ++ [l_next s]; l_ids := l_ids s;
         l_data := l_data s; l_owner := l_owner s; l_sent := l_sent s; l_ser := l_ser s |}
  end.

(** The k-th reference goes away; not code of /repo (the end of a variable's life leads to the effects of sweep,
    local_object_store.py:26-38). *)
Definition drop_var (s : lst) (k : nat) : lst :=
  sweep {| l_objs := l_objs s; l_next := l_next s; l_vars := firstn k (l_vars s) ++ skipn (S k) (l_vars s); l_ids := l_ids s;
           l_data := l_data s; l_owner := l_owner s; l_sent := l_sent s; l_ser := l_ser s |}.

(** maybe_update_data_id_map (local_object_store.py:53-71); self is the rank of the process. *)
Definition keep_id (self : rank) (s : lst) (a : nat) : list nat :=
  match key_of (l_objs s) a with
  | None => l_ids s
  | Some d => if negb (Nat.eqb (fst d) self) && negb (existsb (is_key (l_objs s) d) (l_ids s)) then l_ids s ++ [a] else l_ids s
  end.

(** put (local_object_store.py:73-85). *)
Definition put_data (self : rank) (s : lst) (a : nat) (v : val) : lst :=
  {| l_objs := l_objs s; l_next := l_next s; l_vars := l_vars s; l_ids := keep_id self s a;
     l_data := wput (l_objs s) (l_data s) a v; l_owner := l_owner s; l_sent := l_sent s; l_ser := l_ser s |}.

(** put_data_owner (local_object_store.py:87-99). *)
Definition put_owner (self : rank) (s : lst) (a : nat) (r : rank) : lst :=
  {| l_objs := l_objs s; l_next := l_next s; l_vars := l_vars s; l_ids := keep_id self s a;
     l_data := l_data s; l_owner := wput (l_objs s) (l_owner s) a r; l_sent := l_sent s; l_ser := l_ser s |}.

(** cache_serialized_data (local_object_store.py:268-285). *)
Definition put_serial (self : rank) (s : lst) (a : nat) (b : nat) : lst :=
  {| l_objs := l_objs s; l_next := l_next s; l_vars := l_vars s; l_ids := keep_id self s a;
     l_data := l_data s; l_owner := l_owner s; l_sent := l_sent s; l_ser := wput (l_objs s) (l_ser s) a b |}.

(** cache_send_info (local_object_store.py:233-248): a set of ranks; _data_id_map is not touched. *)
Definition put_sent (s : lst) (a : nat) (r : rank) : lst :=
  {| l_objs := l_objs s; l_next := l_next s; l_vars := l_vars s; l_ids := l_ids s;
     l_data := l_data s; l_owner := l_owner s;
     l_sent := match key_of (l_objs s) a with
               | None => l_sent s
               | Some d => match wget (l_objs s) (l_sent s) d with
                           | Some l => wput (l_objs s) (l_sent s) a (if existsb (Nat.eqb r) l then l else l ++ [r])
                           | None => wput (l_objs s) (l_sent s) a [r]
                           end
               end;
     l_ser := l_ser s |}.

Section Store.
(** The rank of the process (communication.py:186-200). *)
Variable self : rank.
(** deserialize_complex_data (object_store.py:76-80). *)
Variable loads : nat -> val.

(** ObjectStore.get with its effect on the local store (object_store.py:58-86); the shared store is not used. *)
Definition fetch (s : lst) (a : nat) : lst :=
  match key_of (l_objs s) a with
  | None => s
  | Some d =>
      match wget (l_objs s) (l_data s) d, wget (l_objs s) (l_ser s) d with
      | None, Some b => put_data self s a (loads b)
      | _, _ => s
      end
  end.

(** clear (local_object_store.py:163-180), and what dies by it. *)
Definition clear_ids (s : lst) (ds : list dataid) : lst :=
  sweep {| l_objs := l_objs s; l_next := l_next s; l_vars := l_vars s;
           l_ids := filter (fun a => negb (existsb (fun d => is_key (l_objs s) d a) ds)) (l_ids s);
           l_data := l_data s; l_owner := l_owner s; l_sent := l_sent s; l_ser := l_ser s |}.

(** LNew: a data ID is made or arrives; LDrop: a reference to one goes; the others act on the data ID that the k-th reference refers to.
    local_object_store.py:53-317, common.py:287-334, object_store.py:58-86. *)
Inductive lop :=
| LNew (d : dataid)
| LDrop (k : nat)
| LPut (k : nat) (v : val)
| LOwner (k : nat) (r : rank)
| LSerial (k : nat) (b : nat)
| LSent (k : nat) (r : rank)
| LFetch (k : nat)
| LClear (ds : list dataid).

(** An operation through the k-th reference; without it there is nothing to act on (local_object_store.py:73-317). *)
Definition at_var (s : lst) (k : nat) (f : nat -> lst) : lst :=
  match nth_error (l_vars s) k with Some a => f a | None => s end.

(** As cited at the single functions (local_object_store.py:53-317). *)
Definition lstep (s : lst) (o : lop) : lst :=
  match o with
  | LNew d => new_id s d
  | LDrop k => drop_var s k
  | LPut k v => at_var s k (fun a => put_data self s a v)
  | LOwner k r => at_var s k (fun a => put_owner self s a r)
  | LSerial k b => at_var s k (fun a => put_serial self s a b)
  | LSent k r => at_var s k (fun a => put_sent s a r)
  | LFetch k => at_var s k (fun a => fetch s a)
  | LClear ds => clear_ids s ds
  end.

(** Any history of the process (local_object_store.py:53-317). *)
Definition lrun (ops : list lop) : lst := fold_left lstep ops linit.

End Store.

(** ** What can be asked, through any copy of d (local_object_store.py:101-161, 250-317, object_store.py:36-56) *)

(** get and contains; None: KeyError (local_object_store.py:101-115, 133-147). *)
Definition data_of (s : lst) (d : dataid) : option val := wget (l_objs s) (l_data s) d.
(** get_data_owner, contains_data_owner (local_object_store.py:117-131, 149-161). *)
Definition owner_of (s : lst) (d : dataid) : option rank := wget (l_objs s) (l_owner s) d.
(** get_serialized_data, is_already_serialized (local_object_store.py:287-317). *)
Definition serial_of (s : lst) (d : dataid) : option nat := wget (l_objs s) (l_ser s) d.
(** is_already_sent (local_object_store.py:250-266). *)
Definition sent_to (s : lst) (d : dataid) (r : rank) : bool :=
  match wget (l_objs s) (l_sent s) d with Some l => existsb (Nat.eqb r) l | None => false end.
(** The data ID that the k-th reference refers to (common.py:298-302). *)
Definition var_key (s : lst) (k : nat) : option dataid :=
  match nth_error (l_vars s) k with Some a => key_of (l_objs s) a | None => None end.
