(** Vocabulary for C99 on Dask when the program waits for each method call before the next one on the same actor. *)
From Verif Require Import Lib ValModel PyseqModel PortSpec ObjSpec.
From Verif Require Import DaskRunModel.
From Verif Require DaskRunSpec PortShows.

Section Spec.
Variable body : nat -> list val -> kwargs -> res.
Variable cbody : nat -> list val -> kwargs -> res.
Variable mbody : nat -> val -> list val -> kwargs -> res * val.
Variable item : val -> nat -> res.
Notation run := (drun (fun _ => body) (fun _ => cbody) (fun _ => mbody) item).

(** At some time during the run, get of [d] would have returned. *)
Definition ever (ops : list dop) (d : dataid) : Prop := exists pre post, ops = pre ++ post /\ dget (run pre) d <> None.

(** Whenever a method of an actor is called, every earlier method call on this actor has at some time had a finished reference. *)
Definition awaited (ops : list dop) : Prop :=
  forall pre a m args kw n post, ops = pre ++ DCall a m args kw n :: post ->
  forall m' args' kw' n' out, In (DCall a m' args' kw' n', out) (d_hist (run pre)) ->
  exists d, In d (DaskRunSpec.refs_out out) /\ ever pre d.
End Spec.

(** As oshows_dask, in a run in which the program waits. *)
Definition oshows_dask_waiting (body cbody : nat -> list val -> kwargs -> res) (mbody : nat -> val -> list val -> kwargs -> res * val)
  (prog : list ocall) (c i : nat) (r : res) : Prop := exists item ops rs hs d,
  let st := drun (fun _ => body) (fun _ => cbody) (fun _ => mbody) item ops in
  PortShows.indexing item /\ DaskRunSpec.legal (fun _ => body) (fun _ => cbody) (fun _ => mbody) item ops /\ awaited body cbody mbody item ops /\
  odplays prog rs hs (d_hist st) /\ ref_at rs c i = Some d /\ dget st d = Some r.
