(** Vocabulary for C57-C59. [h] is the list of API calls of the main process, each with what it returned; [log] is the
    list of the functions and methods that were run, in the order in which they ran, each with the number of the API call
    behind it. *)
From Verif Require Import Lib ValModel PyseqModel DaskRunModel.

(** The calls of the main process among the steps of a run. *)
Definition is_call (o : dop) : bool :=
  match o with DPut _ | DSubmit _ _ _ _ _ | DActor _ _ _ _ | DCall _ _ _ _ _ => true | _ => false end.

(** The references a call returned. *)
Definition refs_out (o : dout) : list dataid := match o with DRef d => [d] | DRefs l => l | _ => [] end.

(** The references a call was given. *)
Definition refs_in (o : dop) : list dataid :=
  match o with DSubmit _ args kw _ _ | DCall _ _ args kw _ => arg_refs args kw | _ => [] end.

(** num_returns of a call; 0 for one that is rejected because it asks for resources. *)
Definition returns (o : dop) : nat :=
  match o with DPut _ => 1 | DSubmit _ _ _ n reserve => if reserve then 0 else n | DCall _ _ _ _ n => n | _ => 0 end.

Section Spec.
Variable body : nat -> nat -> list val -> kwargs -> res.
Variable cbody : nat -> nat -> list val -> kwargs -> res.
Variable mbody : nat -> nat -> val -> list val -> kwargs -> res * val.
Variable item : val -> nat -> res.

(** The objects created by the calls [h], the first of which is the [c]-th. *)
Fixpoint made (c : nat) (h : list (dop * dout)) : list val :=
  match h with
  | [] => []
  | (DActor k args kw false, _) :: h =>
      match cbody c k args kw with Ret x => x :: made (S c) h | Exn _ => made (S c) h end
  | _ :: h => made (S c) h
  end.

(** Direct execution of the functions and methods in [log], one after the other: what each of them returns or raises,
    and the objects afterwards. *)
Fixpoint direct (objs : list val) (log : list (nat * ran)) : list (nat * res) * list val :=
  match log with
  | [] => ([], objs)
  | (c, RFun f vs kvs) :: log => let (l, o) := direct objs log in ((c, body c f vs kvs) :: l, o)
  | (c, RMeth a m vs kvs) :: log =>
      match nth_error objs a with
      | Some x => let (r, x') := mbody c m x vs kvs in
                  let (l, o) := direct (replace objs a x') log in ((c, r) :: l, o)
      | None => direct objs log
      end
  end.

(** What the [i]-th of [n] references gets of an outcome. *)
Definition share (n i : nat) (r : res) : res :=
  match r with
  | Exn e => Exn e
  | Ret v => if Nat.eqb n 1 then Ret v else item v i
  end.

(** A run of the call [o] with arguments [vs], [kvs]. *)
Definition entry (o : dop) (s : dataid -> val) : option ran :=
  match o with
  | DSubmit f args kw _ _ => Some (RFun f (fill s args) (fill_kw s kw))
  | DCall a m args kw _ => Some (RMeth a m (fill s args) (fill_kw s kw))
  | _ => None
  end.

(** [gives h log d r]: the reference [d] stands for the outcome [r]. *)
Inductive gives (h : list (dop * dout)) (log : list (nat * ran)) : dataid -> res -> Prop :=
| G_put c v d :
    nth_error h c = Some (DPut v, DRef d) -> gives h log d (Ret v)
| G_failed c o out d x e :
    nth_error h c = Some (o, out) -> In d (refs_out out) -> In x (refs_in o) -> gives h log x (Exn e) ->
    gives h log d (Exn e)
| G_call c o out d i s e r :
    nth_error h c = Some (o, out) -> nth_error (refs_out out) i = Some d ->
    (forall x, In x (refs_in o) -> gives h log x (Ret (s x))) ->
    entry o s = Some e -> In (c, e) log ->
    In (c, r) (fst (direct (made 0 h) log)) ->
    gives h log d (share (returns o) i r).

(** The main process uses references it holds and actors it has created; the rest of a run is the scheduler's
    choice. *)
Inductive legal : list dop -> Prop :=
| L_nil : legal []
| L_call ops o :
    legal ops -> incl (refs_in o) (d_held (drun body cbody mbody item ops)) ->
    (forall a m args kw n, o = DCall a m args kw n -> a < length (d_actors (drun body cbody mbody item ops))) ->
    legal (ops ++ [o]).

(** Nothing more can happen by itself. *)
Definition at_rest (st : dst) : Prop :=
  forall o, match o with DRun _ | DFail _ _ => dstep body cbody mbody item st o = st | _ => True end.

(** A step of the scheduler that runs or fails a task. *)
Definition progress (st st' : dst) : Prop :=
  st' <> st /\ exists o, match o with DRun _ | DFail _ _ => st' = dstep body cbody mbody item st o | _ => False end.
End Spec.

(** Call [c] was run before call [c']. *)
Definition run_before (log : list (nat * ran)) (c c' : nat) : Prop :=
  exists l1 l2, log = l1 ++ l2 /\ In c (map fst l1) /\ ~ In c' (map fst l1).
