(** Vocabulary for C98: one program, several backends. A program here is a sequence of puts and calls of remote functions. Results are
    named by the number of the call and their place among its results, so that a program does not depend on what a backend's references
    look like. *)
From Verif Require Import Lib ValModel PyseqModel PyseqSpec.

(** An argument: a value, or the reference number i that call number c returned. *)
Inductive parg := AVal (v : val) | AOut (c i : nat).

(** A call: put(v), or f.options(num_returns=n).remote(args, kw). *)
Inductive pcall := CPut (v : val) | CFun (f : nat) (args : list parg) (kw : list (nat * parg)) (n : nat).

(** What the n references of a call stand for. *)
Definition each (n : nat) (r : res) : list res :=
  match r with
  | Exn e => repeat (Exn e) n
  | Ret v => if Nat.eqb n 1 then [Ret v] else match v with VList l | VTuple l => map Ret l | _ => [] end
  end.

Section Direct.
Variable body : nat -> list val -> kwargs -> res.

(** The results of the calls so far. *)
Definition result_of (env : list (list res)) (c i : nat) : option res :=
  match nth_error env c with Some l => nth_error l i | None => None end.

Definition arg_result (env : list (list res)) (a : parg) : option res :=
  match a with AVal v => Some (Ret v) | AOut c i => result_of env c i end.

(** A call without any backend: the function is called with the values of its arguments; if one of them is an exception, that is
    the result. *)
Definition perform (env : list (list res)) (p : pcall) : list res :=
  match p with
  | CPut v => [Ret v]
  | CFun f args kw n =>
      match all_ok (map (arg_result env) args), all_ok (map (arg_result env) (map snd kw)) with
      | Some (inl vs), Some (inl ks) => each n (body f vs (combine (map fst kw) ks))
      | Some (inl _), Some (inr e) | Some (inr e), _ => repeat (Exn e) n
      | _, _ => []
      end
  end.

Definition direct (prog : list pcall) : list (list res) := fold_left (fun env p => env ++ [perform env p]) prog [].

(** A value without references and exception objects in it, on the first two levels. *)
Definition plain (v : val) : Prop :=
  refs v = [] /\ is_exc v = false /\ forall l x, v = VList l \/ v = VTuple l -> In x l -> is_exc x = false.

Definition plain_functions : Prop := forall f vs ks v, body f vs ks = Ret v -> plain v.

(** A program every backend can run: plain values, and functions return as many items as are asked for. *)
Definition portable (prog : list pcall) : Prop :=
  (forall v, In (CPut v) prog -> plain v) /\
  (forall f args kw n v, In (CFun f args kw n) prog -> In (AVal v) (args ++ map snd kw) -> plain v) /\
  (forall f args kw n vs ks v, In (CFun f args kw n) prog -> body f vs ks = Ret v ->
     n <= 1 \/ exists l, (v = VList l \/ v = VTuple l) /\ length l = n).
End Direct.

(** What get shows agrees with what direct execution gives: the same value; an exception, if that gives one. *)
Definition agrees (o : option res) (r : res) : Prop :=
  match o with Some (Ret v) => r = Ret v | Some (Exn _) => exists e, r = Exn e | None => False end.

(** The references that the calls returned, in order. *)
Definition ref_at (rs : list (list dataid)) (c i : nat) : option dataid :=
  match nth_error rs c with Some l => nth_error l i | None => None end.

(** What is handed to a backend for an argument. *)
Definition stands (rs : list (list dataid)) (a : parg) (v : val) : Prop :=
  match a with AVal x => v = x | AOut c i => exists d, ref_at rs c i = Some d /\ v = VRef d end.
Definition stands_kw (rs : list (list dataid)) (x : nat * parg) (y : nat * val) : Prop := fst x = fst y /\ stands rs (snd x) (snd y).

Definition refs_of (o : qout) : list dataid := match o with ORef d => [d] | ORefs l => l | _ => [] end.

(** The calls in a history (latest first) are those of the program, apart from get and wait, and the references returned are [rs]. *)
Inductive plays : list pcall -> list (list dataid) -> hist -> Prop :=
| P_start : plays [] [] []
| P_put p rs h v d : plays p rs h -> plays (p ++ [CPut v]) (rs ++ [[d]]) ((QPut v, ORef d) :: h)
| P_fun p rs h f args kw n b vs ks out :
    plays p rs h -> Forall2 (stands rs) args vs -> Forall2 (stands_kw rs) kw ks -> length (refs_of out) = n ->
    plays (p ++ [CFun f args kw n]) (rs ++ [refs_of out]) ((QSubmit f vs ks n b, out) :: h)
| P_look p rs h o out :
    plays p rs h -> match o with QGet _ | QGetMany _ | QWait _ _ => True | _ => False end -> refs_of out = [] ->
    plays p rs ((o, out) :: h).
