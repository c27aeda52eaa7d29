(** What a user of nested calls relies on. *)
From Verif Require Import Lib ValModel WorkerModel WorkerSpec NestModel.

(** What execution t did. Execution 0 is the main program. *)
Definition trace (H : list (nat * hev)) (t : nat) : list hev :=
  flat_map (fun e => if Nat.eqb (fst e) t then [snd e] else []) H.

(** A program a does what the list says and becomes a'. *)
Inductive follows : act -> list hev -> act -> Prop :=
| fo_nil a : follows a [] a
| fo_put v k d l a : follows (k d) l a -> follows (APut v k) (HPut d v :: l) a
| fo_submit f args kwargs n k dest q l a :
    q_fn q = FRef f -> q_args q = args -> q_kwargs q = kwargs -> length (out_ids (q_out q)) = n ->
    follows (k (Some (out_ids (q_out q)))) l a -> follows (ASubmit f args kwargs n k) (HSubmit dest q :: l) a
| fo_refused f args kwargs n k l a :
    follows (k None) l a -> follows (ASubmit f args kwargs n k) (HRefused f args kwargs n :: l) a
| fo_get ds k r l a : follows (k r) l a -> follows (AGet ds k) (HGet ds r :: l) a.

(** What a result means for the references of a task: an exception for each, or the value, or one value each. *)
Definition gives (o : outputs) (r : result) (d : dataid) (v : val) : Prop :=
  match r with
  | RExc e => In d (out_ids o) /\ v = VExc e
  | RVal x =>
      match o with
      | ONone => False
      | OOne d' => d = d' /\ v = x
      | OMany ds => exists vs, iterate x = Some vs /\ In (d, v) (combine ds vs)
      end
  end.

(** A get gave what its references mean: all the values, or an exception that one of them is. *)
Definition good_get (S : dataid -> val -> Prop) (e : hev) : Prop :=
  match e with
  | HGet ds (GVals vs) => Forall2 S ds vs
  | HGet ds (GRaise x) => exists d, In d ds /\ S d (VExc x)
  | _ => True
  end.

Section Meaning.
Variable body : val -> val -> val -> act.
Variable H : list (nat * hev).

(** r is what task n computes, called with these arguments: the exception among its arguments, or the result of the
    body, which was executed and got from every get what the references mean. *)
Definition computes (S : dataid -> val -> Prop) (n : nat) (f args kwargs : val) (r : result) : Prop :=
  match failed_arg args kwargs with
  | Some e => r = RExc e
  | None => exists t l rest, trace H t = HStart n :: l ++ rest /\ follows (body f args kwargs) l (ARet r) /\ Forall (good_get S) l
  end.

(** The value a reference stands for: the one put, or the result of the task, called with what its arguments stand for.
    The number bounds the depth of the calls. *)
Fixpoint means_in (k : nat) (d : dataid) (v : val) : Prop :=
  match k with
  | 0 => False
  | S k =>
      (exists t, In (t, HPut d v) H) \/
      exists t dest q fd f args kwargs r, In (t, HSubmit dest q) H /\ q_fn q = FRef fd /\ means_in k fd f /\
        fill (means_in k) (q_args q) args /\ fill (means_in k) (q_kwargs q) kwargs /\ refs args = [] /\ refs kwargs = [] /\
        computes (means_in k) (q_id q) f args kwargs r /\ gives (q_out q) r d v
  end.

Definition means (d : dataid) (v : val) : Prop := exists k, means_in k d v.

End Meaning.

(** A program that puts and returns values without references in them. *)
Fixpoint refless (a : act) : Prop :=
  match a with
  | ARet r => no_refs_returned r
  | APut v k => refs v = [] /\ forall d, refless (k d)
  | ASubmit _ _ _ _ k => forall r, refless (k r)
  | AGet _ k => forall r, refless (k r)
  end.

(** A program that uses only references it has made itself, calls only functions it has put, and asks for a reference at
    most once in a get. (Arguments of tasks arrive as values.) *)
Fixpoint closed (puts outs : list dataid) (a : act) : Prop :=
  match a with
  | ARet _ => True
  | APut v k => forall d, closed (d :: puts) outs (k d)
  | ASubmit f args kwargs n k =>
      In f puts /\ incl (refs args ++ refs kwargs) (puts ++ outs) /\ forall ds, length ds = n -> closed puts (ds ++ outs) (k (Some ds))
  | AGet ds k => incl ds (puts ++ outs) /\ NoDup ds /\ forall r, r <> GError -> closed puts outs (k r)
  end.

(** A result has a value for each reference; an exception needs at least one. *)
Definition fits (o : outputs) (r : result) : Prop :=
  match r, o with
  | RExc _, ONone => False
  | RVal v, OMany ds => exists vs, iterate v = Some vs /\ length ds <= length vs
  | _, _ => True
  end.

Definition results_fit (H : list (nat * hev)) : Prop :=
  forall t dest q t' r, In (t, HSubmit dest q) H -> In (t', HStart (q_id q)) H -> In (t', HEnd r) H -> fits (q_out q) r.

(** The program on p is in the middle of get. *)
Definition in_get (n : nst) (p : rank) : Prop := exists fr, p_cur (n_proc n p) = Some fr /\ f_get fr <> None.

(** Nobody can go on: the workers that execute no task have no message to take, and the programs have returned (the main
    one) or are in get without an answer to take. *)
Definition idle (n : nst) : Prop := forall p,
  match p_cur (n_proc n p) with
  | None => p <> 0 -> forall src, n_chan n src p = []
  | Some fr => (f_rest fr = LMain /\ f_get fr = None /\ exists r, f_act fr = ARet r) \/ (f_get fr <> None /\ forall src, n_rep n src p = [])
  end.

(** The main program has returned and every task submitted has ended. *)
Definition all_done (n : nst) : Prop :=
  (exists fr r, p_cur (n_proc n 0) = Some fr /\ f_get fr = None /\ f_act fr = ARet r) /\
  forall t dest q, In (t, HSubmit dest q) (n_hist n) -> exists t' r, In (t', HStart (q_id q)) (n_hist n) /\ In (t', HEnd r) (n_hist n).

(** A program that calls get nowhere. *)
Fixpoint getless (a : act) : Prop :=
  match a with
  | ARet _ => True
  | APut _ k => forall d, getless (k d)
  | ASubmit _ _ _ _ k => forall r, getless (k r)
  | AGet _ _ => False
  end.
