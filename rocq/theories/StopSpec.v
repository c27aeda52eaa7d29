(** Workers that stop: what is observed. *)
From Verif Require Import Lib ValModel WorkerModel NestModel NestSpec ReapSpec StopModel.

(** A call is affected by the workers bad: it was sent to one of them, or uses a result of a call that is affected. *)
Inductive affected (bad : rank -> Prop) (H : list (nat * hev)) : request -> Prop :=
  | aff_sent t o q : In (t, HSubmit o q) H -> bad o -> affected bad H q
  | aff_uses t o q t' o' q' d : In (t, HSubmit o q) H -> In d (uses q) -> In (t', HSubmit o' q') H -> In d (out_ids (q_out q')) ->
      affected bad H q' -> affected bad H q.

(** Nobody that is left can go on (idle of NestSpec for the others). *)
Definition halted (x : xst) : Prop := forall p, x_gone x p = false ->
  match p_cur (n_proc (x_n x) p) with
  | None => p <> 0 -> forall src, n_chan (x_n x) src p = []
  | Some fr => (f_rest fr = LMain /\ f_get fr = None /\ exists r, f_act fr = ARet r) \/ (f_get fr <> None /\ forall src, n_rep (x_n x) src p = [])
  end.

(** The workers that are gone, or in the middle of get. *)
Definition blocked (x : xst) (w : rank) : Prop := x_gone x w = true \/ (w <> 0 /\ in_get (x_n x) w).

(** The main program has returned. *)
Definition main_over (x : xst) : Prop := exists fr r, p_cur (n_proc (x_n x) 0) = Some fr /\ f_get fr = None /\ f_act fr = ARet r.

(** The main program is in get, and one of the references it is to get is that of a call affected by bad. *)
Definition main_waits (bad : rank -> Prop) (x : xst) : Prop := exists fr g t o q d, p_cur (n_proc (x_n x) 0) = Some fr /\ f_get fr = Some g /\
  In d (t_want g) /\ In (t, HSubmit o q) (n_hist (x_n x)) /\ In d (out_ids (q_out q)) /\ affected bad (n_hist (x_n x)) q.

