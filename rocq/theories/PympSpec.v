(** Vocabulary for C42-C44 and C55. *)
From Verif Require Import Lib ValModel PyseqModel PyseqSpec PympModel.

(** The tasks that were given to a worker, in order. *)
Definition placed_on (w : nat) (log : list (nat * task)) : list task :=
  map snd (filter (fun x => Nat.eqb (fst x) w) log).

Definition is_plain (t : task) : bool := match k_callee t with Fun _ => true | Meth _ _ => false end.

(** Where round robin continues: after the worker of the latest plain task. *)
Definition cursor (nw : nat) (log : list (nat * task)) : nat :=
  fold_left (fun c x => if is_plain (snd x) then (fst x + 1) mod nw else c) log 0.

(** [w] is the first worker from [c] on, cyclically, that is not grabbed. *)
Definition first_free (nw : nat) (grab : nat -> bool) (c w : nat) : Prop :=
  grab w = false /\ exists j, j < nw /\ w = (c + j) mod nw /\ forall i, i < j -> grab ((c + i) mod nw) = true.

(** A live actor has this worker. *)
Definition has_actor (st : pst) (a w : nat) : Prop :=
  exists x, nth_error (p_actors st) a = Some x /\ t_live x = true /\ t_worker x = w.

(** Tasks given to workers and not finished. *)
Definition pending (st : pst) (t : task) : Prop := exists w, In t (p_queue st w).
Definition unfinished (nw : nat) (st : pst) : nat := length (flat_map (p_queue st) (seq 0 nw)).

Section Behaved.
Variable body : nat -> list val -> kwargs -> res.
Variable mbody : nat -> val -> list val -> kwargs -> res * val.
Variable item : val -> nat -> option val.
Variable iterable storable : val -> bool.

(** A result that suits [n] references: it can be pickled and for several references it has enough elements. *)
Definition suits (n : nat) (r : res) : Prop :=
  match r with
  | Exn e => storable (VExc e) = true
  | Ret v =>
      match n with
      | 0 => True
      | 1 => storable v = true
      | _ => match v with
             | VList l | VTuple l => n <= length l /\ forall x, In x (firstn n l) -> storable x = true
             | VExc _ => False
             | _ => iterable v = true /\ forall i, i < n -> exists x, item v i = Some x /\ storable x = true
             end
      end
  end.

Definition behaved (ops : list pop) : Prop :=
  (forall e, storable (VExc e) = true) /\
  (forall f args kw n vs ks, In (PSubmit f args kw n) ops -> suits n (body f vs ks)) /\
  (forall a m args kw n s vs ks, In (PCall a m args kw n) ops -> suits n (fst (mbody m s vs ks))).
End Behaved.

(** No handle of an actor dies while one of its calls is unfinished; [run] gives the state after a history. *)
Definition handles_kept (run : list pop -> pst) (ops : list pop) : Prop :=
  forall pre a post t m, ops = pre ++ PDel a :: post -> pending (run pre) t -> k_callee t <> Meth a m.

(** C44 *)
Definition really_ready (final : dataid -> fin) (d : dataid) : Prop := final d = FDone.

(** C55. Values that the store gives back as they are: neither exception objects nor byte strings. *)
Definition plain_value (bytes : val -> bool) (v : val) : Prop := is_exc v = false /\ bytes v = false.

Definition plain_result (bytes : val -> bool) (item : val -> nat -> option val) (v : val) : Prop :=
  plain_value bytes v /\ forall i x, index item v i = Some x -> plain_value bytes x.

Definition plain_results (body : nat -> list val -> kwargs -> res)
  (mbody : nat -> val -> list val -> kwargs -> res * val) (bytes : val -> bool) (item : val -> nat -> option val) : Prop :=
  (forall f a k v, body f a k = Ret v -> plain_result bytes item v) /\
  (forall m s a k v s', mbody m s a k = (Ret v, s') -> plain_result bytes item v).

Definition plain_puts (bytes : val -> bool) (h : hist) : Prop :=
  forall v out, In (QPut v, out) h -> plain_value bytes v.

(** Pickling of callables: bytes, that unpickle to the same value. *)
Definition pickle_ok (callable bytes : val -> bool) (dumps : val -> val) (loads : val -> res) : Prop :=
  forall v, callable v = true -> is_exc (dumps v) = false /\ bytes (dumps v) = true /\ loads (dumps v) = Ret v.

(** C42: the tasks the program has submitted, in order: callable, arguments and the references returned. *)
Definition out_list (out : qout) : list dataid := match out with ORef d => [d] | ORefs l => l | _ => [] end.

Definition submission (e : qop * qout) : list (callee * list val * kwargs * list dataid) :=
  match e with
  | (QSubmit f args kw _ _, OError) => []
  | (QSubmit f args kw _ _, out) => [(Fun f, args, kw, out_list out)]
  | (QCall a m args kw _, out) => [(Meth a m, args, kw, out_list out)]
  | _ => []
  end.

Definition submissions (h : hist) : list (callee * list val * kwargs * list dataid) := flat_map submission (rev h).

Definition task_desc (t : task) : callee * list val * kwargs * list dataid := (k_callee t, k_args t, k_kw t, k_out t).
