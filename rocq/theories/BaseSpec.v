(** What C46, C47 and C56 speak about. *)
From Verif Require Import Lib BaseModel.

(** A place in a value: item i of a list or tuple, entry k of a dict. *)
Inductive place := Item (i : nat) | Entry (k : nat).

Fixpoint entry (l : list (nat * pobj)) (k : nat) : option pobj :=
  match l with [] => None | (k', v) :: r => if Nat.eqb k k' then Some v else entry r k end.

Definition child (o : pobj) (s : place) : option pobj :=
  match o, s with
  | PList l, Item i | PTuple l, Item i | PSub _ l, Item i => nth_error l i
  | PDict l, Entry k => entry l k
  | _, _ => None
  end.

Fixpoint value_at (p : list place) (o : pobj) : option pobj :=
  match p with
  | [] => Some o
  | s :: r => match child o s with None => None | Some x => value_at r x end
  end.

(** What is there, without what is inside it. *)
Inductive node :=
| NAtom (o : pobj)
| NList (len : nat)
| NTuple (len : nat)
| NDict (keys : list nat)
| NSub (cls len : nat).

Definition look (o : pobj) : node :=
  match o with
  | PList l => NList (length l)
  | PTuple l => NTuple (length l)
  | PDict l => NDict (map fst l)
  | PSub c l => NSub c (length l)
  | o => NAtom o
  end.

Definition sees (p : list place) (o : pobj) : option node := option_map look (value_at p o).

(** A reference becomes the backend's own, nothing else changes. *)
Definition unref (n : node) : node := match n with NAtom (PRef r) => NAtom (PId r) | n => n end.

(** The keys of a dict are distinct. *)
Definition proper (o : pobj) : Prop := forall p keys, sees p o = Some (NDict keys) -> NoDup keys.

(** Nothing on the way to place p is an instance of a subclass of list, tuple or dict. *)
Definition in_plain (p : list place) (o : pobj) : Prop :=
  forall q r c n, p = q ++ r -> sees q o <> Some (NSub c n).

(** The backend that the calls of a run went to. *)
Definition called_on (l : list answer) : list backend :=
  flat_map (fun a => match a with CalledOn b => [b] | _ => [] end) l.

(** No name with a meaning to unidist. *)
Definition ordinary (kw : kwargs) : Prop := forall k v, In (k, v) kw -> exists n, k = Other n.
