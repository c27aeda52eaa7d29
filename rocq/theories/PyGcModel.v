(** Python's cyclic garbage collector around the receiving of a value (MPI).

    Models unidist/core/backends/mpi/core/serialization.py:225-282 (ComplexDataSerializer.deserialize and the hook it hands to msgpack), as
    far as gc.disable and gc.enable go. What msgpack and pickle build is in SerialModel; here unpacking is a sequence of items, and loading a
    pickled item may run code of the user (__setstate__, a function named by __reduce__). *)
From Verif Require Import Lib.

(** What is met while a message is unpacked, in order. Plain: an item whose loading runs no code of the user. SetGc: code of the user calls
    gc.enable or gc.disable. Inner: code of the user receives another value (unidist.get), whose items these are; [caught]: if that raises, the
    user's code catches it. Bad: loading raises (serialization.py:244-248, msgpack.unpackb in 278-280). *)
Inductive item := Plain | SetGc (b : bool) | Inner (l : list item) (caught : bool) | Bad.

(** Loading an item: the collector afterwards, whether it went well, and the state of the collector whenever a plain item was loaded. For
    Inner: deserialize (serialization.py:277-282): gc.disable, unpackb, and only if that did not raise gc.enable. *)
Fixpoint load (gc : bool) (i : item) : bool * bool * list bool :=
  match i with
  | Plain => (gc, true, [gc])
  | SetGc b => (b, true, [])
  | Bad => (gc, false, [])
  | Inner l caught =>
      let '(g, ok, t) :=
        (fix loads (gc : bool) (l : list item) : bool * bool * list bool :=
           match l with
           | [] => (gc, true, [])
           | i :: r => let '(g, ok, t) := load gc i in
                       if ok then let '(g2, ok2, t2) := loads g r in (g2, ok2, t ++ t2) else (g, false, t)
           end) false l in
      (if ok then true else g, ok || caught, t)
  end.

(** The items of one message, in order; the first exception ends the loading (msgpack.unpackb, serialization.py:278-280). *)
Fixpoint loads (gc : bool) (l : list item) : bool * bool * list bool :=
  match l with
  | [] => (gc, true, [])
  | i :: r => let '(g, ok, t) := load gc i in
              if ok then let '(g2, ok2, t2) := loads g r in (g2, ok2, t ++ t2) else (g, false, t)
  end.

(** deserialize (serialization.py:277-282), with the collector as it is. *)
Definition deserialize (gc : bool) (l : list item) : bool * bool * list bool :=
  let '(g, ok, t) := loads false l in (if ok then true else g, ok, t).

(** What a process does: it receives a value (communication.py:849, object_store.py:80, shared_object_store.py:462 call deserialize of
    serialization.py:277-282), or the application calls gc.enable or gc.disable. *)
Inductive gop := GReceive (l : list item) | GSet (b : bool).

(** The state: the collector, and whether the receives so far went well (serialization.py:277-282). The collector is on when Python starts. *)
Record gst := { g_on : bool; g_well : list bool }.

(** A new process, before the first message (serialization.py:277). *)
Definition ginit : gst := {| g_on := true; g_well := [] |}.

(** One step (serialization.py:277-282). *)
Definition gstep (st : gst) (o : gop) : gst :=
  match o with
  | GReceive l => let '(g, ok, _) := deserialize (g_on st) l in {| g_on := g; g_well := g_well st ++ [ok] |}
  | GSet b => {| g_on := b; g_well := g_well st |}
  end.

(** Any sequence of such steps (serialization.py:277-282). *)
Definition grun (ops : list gop) : gst := fold_left gstep ops ginit.
