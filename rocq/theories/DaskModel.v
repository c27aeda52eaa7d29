(** Model of wait on the Dask backend: core/backends/dask/backend.py:100-131.

    distributed.client.wait(fs, return_when="FIRST_COMPLETED") is outside the code base: it returns when one of
    [fs] is no longer pending and gives back two sets, the futures that are not pending and the others. Here
    [finished k d] says whether [d] is finished when the [k]-th of these calls returns; [order k] is the order in which
    Python lists the set. A call that can never return (no future of [fs] ever finishes, or [fs] is empty) is the
    outcome DForever. num_returns is a natural number. [DWait calls ready not_ready] also tells how many of these calls
    have been made. *)
From Verif Require Import Lib.

(** How wait ends (dask/backend.py:121-131). *)
Inductive dwaited := DWait (calls : nat) (ready not_ready : list dataid) | DForever.

Section Dask.
Variable finished : nat -> dataid -> bool.

(** The two sets of one call; None: it does not return. distributed.wait(..., return_when="FIRST_COMPLETED") as called in
    dask/backend.py:121, 123. *)
Definition dask_wait (k : nat) (fs : list dataid) : option (list dataid * list dataid) :=
  let s := nodup did_dec fs in
  match filter (finished k) s with
  | [] => None
  | done => Some (done, filter (fun d => negb (finished k d)) s)
  end.

(** done.update (line 124). dask/backend.py:124. *)
Definition update (done extra : list dataid) : list dataid :=
  done ++ filter (fun d => negb (did_in d done)) extra.

(** Lines 121-124. Every call that returns finds at least one future more, so that as many rounds as there are futures are
    enough; a round more would have to wait for an empty set. dask/backend.py:121-124. *)
Fixpoint rounds (fuel k : nat) (done not_done : list dataid) (n : nat) :
    option (nat * list dataid * list dataid) :=
  if Nat.ltb (length done) n then
    match fuel with
    | 0 => None
    | S fuel => match dask_wait k not_done with
                | None => None
                | Some (extra, rest) => rounds fuel (S k) (update done extra) rest n
                end
    end
  else Some (k, done, not_done).

(** Lines 127-129: the last ones are taken out of done and appended to not_done. dask/backend.py:127-129. *)
Fixpoint give_back (extra : nat) (done not_done : list dataid) : list dataid * list dataid :=
  match extra with
  | 0 => (done, not_done)
  | S extra => match rev done with
               | [] => (done, not_done)
               | last :: r => give_back extra (rev r) (not_done ++ [last])
               end
  end.

Variable order : list dataid -> list dataid.       (* list(set) *)

(** DaskBackend.wait (dask/backend.py:101-131). *)
Definition wait (fs : list dataid) (n : nat) : dwaited :=
  match dask_wait 0 fs with
  | None => DForever
  | Some (done, not_done) =>
      match rounds (length fs) 1 done not_done n with
      | None => DForever
      | Some (k, done, not_done) =>
          let (r, nr) := give_back (length (order done) - n) (order done) (order not_done) in DWait k r nr
      end
  end.
End Dask.
