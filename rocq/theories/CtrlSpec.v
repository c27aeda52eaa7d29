(** Words used in the statements about get and wait. *)
From Verif Require Import Lib ValModel.

(** The store holds a value for d. *)
Definition here (st : dmap val) (d : dataid) : bool := match st d with Some _ => true | None => false end.

(** The positions of a list whose reference the store does not hold. *)
Definition missing (st : dmap val) (ds : list dataid) : list dataid := filter (fun d => negb (here st d)) ds.

(** Nothing but its value is stored for a reference. *)
Definition truth (value : dataid -> val) (st : dmap val) : Prop := forall d v, st d = Some v -> v = value d.
