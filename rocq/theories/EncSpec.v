(** Vocabulary for C103. *)
From Verif Require Import Lib EncModel.

(** [u] is [v] or is reached from it through lists and dictionaries (keys or values) only. *)
Inductive inside (u : pval) : pval -> Prop :=
| I_here : inside u u
| I_list l x : In x l -> inside u x -> inside u (XList l)
| I_key l k x : In (k, x) l -> inside u k -> inside u (XDict l)
| I_value l k x : In (k, x) l -> inside u x -> inside u (XDict l).

(** Tuples, sets and other objects of builtin types, arrays and data frames, and views of the values or items of a dictionary: those handed to pickle. *)
Definition to_pickle (v : pval) : Prop :=
  match v with XBuiltin _ | XArray _ | XView false _ | XNever => True | _ => False end.

Definition can_be_sent (v : pval) : Prop := sendable v = true.
Definition pickle_can (v : pval) : Prop := plain v = true.
Definition cloudpickle_can (v : pval) : Prop := cloud v = true.
