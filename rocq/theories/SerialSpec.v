(** What C15 and C16 talk about. *)
From Verif Require Import Lib SerialModel.
Require Import String.
Open Scope list_scope.

Section Spec.
Context {obj bytes : Type}.

(** The three strings the serialiser uses as dictionary keys of its own. *)
Definition reserved (s : string) : Prop :=
  s = "__pickle5_custom__"%string \/ s = "__cloud_custom__"%string \/ s = "__pickle_custom__"%string.

(** No dictionary inside the value has a reserved key. *)
Inductive no_reserved_key : value obj bytes -> Prop :=
| nr_atom a : no_reserved_key (VAtom _ _ a)
| nr_obj o : no_reserved_key (VObj _ _ o)
| nr_list l : (forall v, In v l -> no_reserved_key v) -> no_reserved_key (VList _ _ l)
| nr_dict l :
    (forall k v, In (k, v) l -> no_reserved_key k /\ no_reserved_key v) ->
    (forall k v s, In (k, v) l -> k = VAtom _ _ (AStr _ s) -> ~ reserved s) ->
    no_reserved_key (VDict _ _ l).

(** The events of a history that are correct for a value [v] serialised as [z]. *)
Definition good_event (v : value obj bytes) (z : serialized bytes) (e : hevent obj bytes) : Prop :=
  match e with HGot _ _ w => w = v | HSent _ _ y => y = z | HError _ _ => False end.

Definition good_get (v : value obj bytes) (e : hevent obj bytes) : Prop :=
  match e with HGot _ _ w => w = v | HSent _ _ _ => True | HError _ _ => False end.

End Spec.
