(** What a program of puts and plain submissions means when it is evaluated sequentially, and which
    programs the API lets one write. *)
From Verif Require Import Lib ValModel WorkerModel WorkerSpec ClusterModel.

(** The first argument that is an exception. *)
Fixpoint first_failure (l : list val) : option nat :=
  match l with [] => None | VExc e :: _ => Some e | _ :: r => first_failure r end.

(** A call: an exception among the arguments is the result, otherwise what the body gives. *)
Definition call_value (body : val -> val -> val -> result) (f args kwargs : val) : result :=
  match first_failure (arguments args kwargs) with Some e => RExc e | None => body f args kwargs end.

(** What iterating over a value gives. *)
Definition items (v : val) : list val :=
  match v with VList l | VTuple l => l | VDict l => map (fun kv => VLeaf (fst kv)) l | _ => [] end.

Fixpoint bind_each (env : dmap val) (ds : list dataid) (vs : list val) : dmap val :=
  match ds, vs with d :: ds, v :: vs => dput (bind_each env ds vs) d v | _, _ => env end.

(** The outputs of a call are bound: one output to the result, several to its items, all to the
    exception if there is one. *)
Definition bind (env : dmap val) (o : outputs) (r : result) : dmap val :=
  match o, r with
  | ONone, _ => env
  | OOne d, RVal v => dput env d v
  | OOne d, RExc e => dput env d (VExc e)
  | OMany ds, RVal v => bind_each env ds (items v)
  | OMany ds, RExc e => fun d => if did_in d ds then Some (VExc e) else env d
  end.

(** References replaced by their values. *)
Definition value_of (env : dmap val) (v : val) : val :=
  subst (fun d => match env d with Some x => x | None => VRef d end) v.

Definition bound (env : dmap val) (d : dataid) : bool := match env d with Some _ => true | None => false end.

(** One operation of the program, executed on the spot. A call with an argument that has no
    value cannot be executed and binds nothing. *)
Definition seq_step (body : val -> val -> val -> result) (env : dmap val) (o : rop) : dmap val :=
  match o with
  | RPut d v => dput env d v
  | RSubmit _ q =>
      match q_fn q with
      | FRef fd =>
          match env fd with
          | Some f => if forallb (bound env) (qrefs q)
                      then bind env (q_out q) (call_value body f (value_of env (q_args q)) (value_of env (q_kwargs q)))
                      else env
          | None => env
          end
      | FMethod _ => env
      end
  | _ => env
  end.

Definition sequential (body : val -> val -> val -> result) (prog : list rop) : dmap val :=
  fold_left (seq_step body) prog dempty.

(** The references a program has created. *)
Definition created (o : rop) : list dataid :=
  match o with RPut d _ => [d] | RSubmit _ q => out_ids (q_out q) | _ => [] end.
Definition introduced (prog : list rop) : list dataid := flat_map created prog.
Definition puts (prog : list rop) : list dataid :=
  flat_map (fun o => match o with RPut d _ => [d] | _ => [] end) prog.
Definition submitted (prog : list rop) : list (rank * request) :=
  flat_map (fun o => match o with RSubmit dest q => [(dest, q)] | _ => [] end) prog.

(** References are created once, tasks are numbered differently, a task is submitted to a worker, its
    function was put before, its arguments mention references created before, and stored values
    contain references only wrapped. *)
Record valid (workers : list rank) (prog : list rop) : Prop := {
  v_fresh : NoDup (introduced prog);
  v_ids : NoDup (map (fun p => q_id (snd p)) (submitted prog));
  v_put : forall d v, In (RPut d v) prog -> refs v = [];
  v_sub : forall a dest q b, prog = a ++ RSubmit dest q :: b ->
    In dest workers /\ (exists fd, q_fn q = FRef fd /\ In fd (puts a)) /\
    forall d, In d (qrefs q) -> In d (introduced a)
}.

(** The references an operation mentions. *)
Definition mentions (o : rop) : list dataid :=
  match o with
  | RSubmit _ q => match q_fn q with FRef fd => [fd] | FMethod _ => [] end ++ qrefs q
  | RGet ds => ds
  | _ => []
  end.

(** get is called with different references, created before; a reference that has died is not used
    again; a cleanup is requested for references that were created and have died. *)
Record tidy (prog : list rop) : Prop := {
  t_get : forall a ds b, prog = a ++ RGet ds :: b -> NoDup ds /\ incl ds (introduced a);
  t_drop : forall a d b o, prog = a ++ RDrop d :: b -> In o b -> ~ In d (mentions o);
  t_clean : forall a ds b d, prog = a ++ RClean ds :: b -> In d ds -> In d (introduced a) /\ In (RDrop d) a
}.

(** Every task has outputs, and whatever it is called with, its result can be delivered to all of
    them. *)
Definition returns_enough (body : val -> val -> val -> result) (prog : list rop) : Prop :=
  forall dest q fd f a k, In (RSubmit dest q) prog -> q_fn q = FRef fd -> In (RPut fd f) prog ->
  q_out q <> ONone /\ enough (q_out q) (body f a k).

(** No message is under way. *)
Definition idle (c : cst) : Prop := forall s d, c_chan c s d = [].

(** A message that is under way is taken: by the worker it is for, or by the root waiting in get. *)
Definition delivery (workers : list rank) (body : val -> val -> val -> result) (c c' : cst) : Prop :=
  exists s d m l, c_chan c s d = m :: l /\
    c' = cstep workers body c (if Nat.eqb d 0 then CReply s else CTake s d).

(** The calls of get of a program, and those that have returned or raised. *)
Definition gets_of (prog : list rop) : list (list dataid) :=
  flat_map (fun o => match o with RGet ds => [ds] | _ => [] end) prog.
Definition gets_over (l : list sight) : list (list dataid) :=
  flat_map (fun x => match x with RGot ds _ => [ds] | RRaised ds _ => [ds] | _ => [] end) l.

(** No worker is handed the output of a task of another worker first by reference and, after the program has fetched it
    with get, by value. *)
Definition one_source (prog : list rop) : Prop :=
  forall a w q1 b ds e q2 f s q d,
    prog = a ++ RSubmit w q1 :: b ++ RGet ds :: e ++ RSubmit w q2 :: f ->
    In (RSubmit s q) prog -> In d (out_ids (q_out q)) -> s <> w ->
    In d (qrefs q1) -> In d ds -> ~ In d (qrefs q2).
