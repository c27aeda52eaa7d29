(** Which values can be sent between processes (MPI), and what arrives.

    Models unidist/core/backends/mpi/core/serialization.py:50-94, 195-231 (is_cpkl_serializable, is_pickle5_serializable, _encode_custom, serialize)
    and the request that submit sends (controller/api.py:556-564). What goes into bytes and out-of-band buffers is in SerialModel; here: which of
    the three picklers gets which part of a value, and whether it can encode it.

    The libraries are described by [plain] and [cloud] below. msgpack.packb with strict_types packs None, bool, int, float, str, bytes, bytearray,
    memoryview, list and dict of exactly these types by itself, and calls the hook for everything else. Not modelled: dictionaries with the keys that mark encoded values (C15); msgpack's limit on the depth
    of lists and dictionaries; strings that cannot be encoded in UTF-8. *)
From Verif Require Import Lib.

(** Values of Python, as far as the choice of the pickler and its success depend on them.
    XAtom: None, booleans, numbers and strings msgpack packs. XBytes, XByteArray: with their contents; a memoryview counts as bytearray.
    XBuiltin: objects of other builtin types with what they contain: tuple, set, frozenset, complex, range, builtin functions.
    XFun, XClass: functions and classes; [byval]: they can only be pickled by value: a lambda, defined in a function, or in
    a __main__ that the other process does not have.
    XInst: an instance of a class outside builtins, with [byval] for its class, and what it contains; also named tuples, OrderedDict, bound methods.
    XArray: a DataFrame, Series or ndarray with the objects in it. XView: d.keys() ([keys] true), d.values() or d.items().
    XNever: a lock, a generator, a socket. The cases of serialization.py:64-70, 87-94. *)
Inductive pval :=
| XAtom (n : nat)
| XBytes (n : nat)
| XByteArray (n : nat)
| XList (l : list pval)
| XDict (l : list (pval * pval))
| XBuiltin (l : list pval)
| XFun (byval : bool)
| XClass (byval : bool)
| XInst (byval : bool) (l : list pval)
| XArray (l : list pval)
| XView (keys : bool) (l : list pval)
| XNever.

(** Whether pickle (any protocol) can dump the value and another process can load it. Of the library, not of /repo: pkl.dumps and pkl.loads as called in
    serialization.py:158-161, 193, 246-249. Functions and classes are pickled as a name. *)
Fixpoint plain (v : pval) : bool :=
  match v with
  | XAtom _ | XBytes _ | XByteArray _ => true
  | XList l | XBuiltin l | XArray l => forallb plain l
  | XDict l => forallb (fun kv => plain (fst kv) && plain (snd kv)) l
  | XFun byval | XClass byval => negb byval
  | XInst byval l => negb byval && forallb plain l
  | XView _ _ | XNever => false
  end.

(** The same for cloudpickle: cpkl.dumps and cpkl.loads as called in serialization.py:177, 245. *)
Fixpoint cloud (v : pval) : bool :=
  match v with
  | XAtom _ | XBytes _ | XByteArray _ | XFun _ | XClass _ => true
  | XList l | XBuiltin l | XArray l | XInst _ l | XView _ l => forallb cloud l
  | XDict l => forallb (fun kv => cloud (fst kv) && cloud (snd kv)) l
  | XNever => false
  end.

(** is_pickle5_serializable (serialization.py:87-94), with pandas and numpy installed. *)
Definition is_pickle5 (v : pval) : bool := match v with XArray _ => true | _ => false end.

(** is_cpkl_serializable (serialization.py:64-70). The class of an array is not in builtins either. *)
Definition is_cpkl (v : pval) : bool :=
  match v with
  | XFun _ | XClass _ | XInst _ _ | XArray _ => true
  | XView keys _ => keys
  | _ => false
  end.

(** _encode_custom (serialization.py:206-211): whether the hook succeeds. *)
Definition encode_custom (v : pval) : bool :=
  if is_pickle5 v then plain v else if is_cpkl v then cloud v else plain v.

(** serialize (serialization.py:231): msgpack goes into lists and dictionaries; the hook is called for the rest. *)
Fixpoint sendable (v : pval) : bool :=
  match v with
  | XAtom _ | XBytes _ | XByteArray _ => true
  | XList l => forallb sendable l
  | XDict l => forallb (fun kv => sendable (fst kv) && sendable (snd kv)) l
  | _ => encode_custom v
  end.

(** What deserialize (serialization.py:277-282) gives for what serialize (serialization.py:231) has packed: msgpack has one type for bytes, what a
    pickler has encoded comes back as it was. *)
Fixpoint received (v : pval) : pval :=
  match v with
  | XByteArray n => XBytes n
  | XList l => XList (map received l)
  | XDict l => XDict (map (fun kv => (received (fst kv), received (snd kv))) l)
  | _ => v
  end.

(** operation_data of submit (controller/api.py:556-564): the reference of the task (an MpiDataID: an instance), the arguments as a list, the keyword
    arguments, the references of the outputs. *)
Definition operation_data (args : list pval) (kwargs : list (pval * pval)) (outputs : list pval) : pval :=
  XDict [(XAtom 0, XInst false []); (XAtom 1, XList args); (XAtom 2, XDict kwargs); (XAtom 3, XList outputs)].
