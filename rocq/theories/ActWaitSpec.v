(** Direct execution of programs with actors, and programs that wait for each call of a method. *)
From Verif Require Import Lib ValModel WorkerModel WorkerSpec ClusterModel ClusterSpec ActModel ActSpec.

(** The values of the references, and the calls carried out on each worker. *)
Record dstate := { dvals : dmap val; dcalls : rank -> history }.

(** One operation of the program, executed on the spot. A method is called with the calls on its worker so far; an
    exception among the arguments is the result and the method is not called. *)
Definition direct_step (body : val -> val -> val -> result) (mbody : list call -> call -> result) (s : dstate) (p : gprog) : dstate :=
  match p with
  | GP o => {| dvals := seq_step body (dvals s) o; dcalls := dcalls s |}
  | GC w _ q =>
      match q_fn q with
      | FMethod m =>
          if forallb (bound (dvals s)) (qrefs q) then
            let c := {| c_method := m; c_args := value_of (dvals s) (q_args q); c_kwargs := value_of (dvals s) (q_kwargs q) |} in
            match first_failure (arguments (c_args c) (c_kwargs c)) with
            | Some e => {| dvals := bind (dvals s) (q_out q) (RExc e); dcalls := dcalls s |}
            | None => {| dvals := bind (dvals s) (q_out q) (mbody (map snd (dcalls s w)) c);
                         dcalls := fun r => if Nat.eqb r w then dcalls s r ++ [(q_id q, c)] else dcalls s r |}
            end
          else s
      | FRef _ => s
      end
  end.

Definition direct (body : val -> val -> val -> result) (mbody : list call -> call -> result) (prog : list gprog) : dstate :=
  fold_left (direct_step body mbody) prog {| dvals := dempty; dcalls := fun _ => [] |}.

(** References are used after they were made. *)
Definition gneeds (p : gprog) : list dataid :=
  match p with
  | GP (RSubmit _ q) => match q_fn q with FRef fd => fd :: qrefs q | FMethod _ => qrefs q end
  | GC _ _ q => qrefs q
  | _ => []
  end.
Definition scoped (prog : list gprog) : Prop :=
  forall a p b, prog = a ++ p :: b -> forall d, In d (gneeds p) -> In d (gintroduced a).

(** Between two calls on one worker the program gets a result of the first: the get returned, or asked for this
    result only. *)
Definition waits_for_calls (prog : list gprog) (seen : list sight) : Prop :=
  forall a w nd1 q1 b nd2 q2 d, prog = a ++ GC w nd1 q1 :: b ++ GC w nd2 q2 :: d ->
  exists x ds, In x (out_ids (q_out q1)) /\ In x ds /\ In (GP (RGet ds)) b /\
    forall e, In (RRaised ds e) seen -> ds = [x].

(** Of two calls on one worker, the program gets a result of the first in between, or has the values of all references
    in the first one's arguments when it makes the call. *)
Definition waits_or_holds (prog : list gprog) (seen : list sight) : Prop :=
  forall a w nd1 q1 b nd2 q2 d, prog = a ++ GC w nd1 q1 :: b ++ GC w nd2 q2 :: d ->
  (exists x ds, In x (out_ids (q_out q1)) /\ In x ds /\ In (GP (RGet ds)) b /\
    forall e, In (RRaised ds e) seen -> ds = [x]) \/
  forall x, In x (qrefs q1) -> held a seen x.
