(** Values as far as the MPI controller and worker look into them. *)
From Verif Require Import Lib.

(** A leaf is any object the code does not look into (including wrapped references inside stored values); exceptions are
    told apart by isinstance(_, Exception); keys of dictionaries are not looked into either. The types that
    materialize_data_ids tells apart (mpi/core/common.py:395-440) and the isinstance tests of worker/task_store.py:239-244,
    329-334. *)
Inductive val :=
| VLeaf (n : nat)
| VExc (e : nat)
| VRef (d : dataid)
| VList (l : list val)
| VTuple (l : list val)
| VDict (l : list (nat * val)).

Section ValInd.
Variable P : val -> Prop.
Hypothesis Hleaf : forall n, P (VLeaf n).
Hypothesis Hexc : forall e, P (VExc e).
Hypothesis Href : forall d, P (VRef d).
Hypothesis Hlist : forall l, Forall P l -> P (VList l).
Hypothesis Htuple : forall l, Forall P l -> P (VTuple l).
Hypothesis Hdict : forall l, Forall (fun kv => P (snd kv)) l -> P (VDict l).
(** Not code: the induction principle for the values that materialize_data_ids (mpi/core/common.py:395-440) walks through.
    *)
Fixpoint val_ind' (v : val) : P v :=
  match v with
  | VLeaf n => Hleaf n
  | VExc e => Hexc e
  | VRef d => Href d
  | VList l => Hlist l ((fix go l := match l as l0 return Forall P l0 with
                          | [] => Forall_nil _ | x :: r => Forall_cons _ (val_ind' x) (go r) end) l)
  | VTuple l => Htuple l ((fix go l := match l as l0 return Forall P l0 with
                          | [] => Forall_nil _ | x :: r => Forall_cons _ (val_ind' x) (go r) end) l)
  | VDict l => Hdict l ((fix go l := match l as l0 return Forall (fun kv => P (snd kv)) l0 with
                          | [] => Forall_nil _ | x :: r => Forall_cons _ (val_ind' (snd x)) (go r) end) l)
  end.
End ValInd.

(** The references occurring in a value, from left to right. The traversal of materialize_data_ids
    (mpi/core/common.py:423-440). *)
Fixpoint refs (v : val) : list dataid :=
  match v with
  | VRef d => [d]
  | VList l | VTuple l => flat_map refs l
  | VDict l => flat_map (fun kv => refs (snd kv)) l
  | _ => []
  end.

(** The value with every reference replaced. What materialize_data_ids gives when every reference has its value
    (mpi/core/common.py:423-440). *)
Fixpoint subst (s : dataid -> val) (v : val) : val :=
  match v with
  | VRef d => s d
  | VList l => VList (map (subst s) l)
  | VTuple l => VTuple (map (subst s) l)
  | VDict l => VDict (map (fun kv => (fst kv, subst s (snd kv))) l)
  | _ => v
  end.
