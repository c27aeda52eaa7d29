(** Vocabulary for C97: calls on the Ray backend. Histories are those of C41: the calls of the main process with their results, latest
    first; outcome and state (PyseqSpec) say what direct calls would give. *)
From Verif Require Import Lib ValModel PyseqModel PyseqSpec RayRunModel.

(** v[i] of an object that can be iterated over. *)
Definition item_of (iter : val -> option (list val)) (v : val) (i : nat) : option val :=
  match iter v with Some l => nth_error l i | None => None end.

(** Methods are called of actors that were made before. *)
Fixpoint actors_known (h : hist) : Prop :=
  match h with
  | [] => True
  | (o, _) :: h' => (forall a m args kw n, o = QCall a m args kw n -> exists o', In (o', OActor a) h') /\ actors_known h'
  end.

(** num_returns of a call. *)
Definition wanted (o : qop) : nat := match o with QPut _ => 1 | QSubmit _ _ _ n _ | QCall _ _ _ _ n => n | _ => 0 end.

Section Spec.
Variable body : nat -> list val -> kwargs -> res.
Variable cbody : nat -> list val -> kwargs -> res.
Variable mbody : nat -> val -> list val -> kwargs -> res * val.
Variable iter : val -> option (list val).

(** A result that has n items, if n is neither 0 nor 1. *)
Definition fits (n : nat) (r : res) : Prop :=
  match r with Exn _ => True | Ret v => n <= 1 \/ exists l, items_of iter v = Some l /\ length l = n end.

(** The results of all functions and methods called have as many items as was asked for. *)
Definition right_numbers (h : hist) : Prop :=
  (forall f args kw n b out vs ks, In (QSubmit f args kw n b, out) h -> fits n (body f vs ks)) /\
  (forall a m args kw n out s vs ks, In (QCall a m args kw n, out) h -> fits n (fst (mbody m s vs ks))).

(** No constructor raises, and none is given a reference. *)
Definition all_built (h : hist) : Prop := forall c args kw b out, In (QActor c args kw b, out) h ->
  (exists s, cbody c args kw = Ret s) /\ forall d, ~ In (VRef d) (args ++ map snd kw).
End Spec.

(** The calls of the main process among the steps of a run. *)
Definition api_call (o : yop) : list qop :=
  match o with
  | YPut v => [QPut v]
  | YSubmit f args kw n b => [QSubmit f args kw n b]
  | YActor c args kw b => [QActor c args kw b]
  | YCall a m args kw n => [QCall a m args kw n]
  | YRun _ => []
  end.
