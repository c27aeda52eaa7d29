(** Vocabulary for C41: what direct calls would give. A history is the list of API calls made so far, the
    latest first, with what each of them returned. *)
From Verif Require Import Lib ValModel PyseqModel.

(** Which of the references returned by a call is [d]? *)
Fixpoint find_ref (d : dataid) (l : list dataid) : option nat :=
  match l with
  | [] => None
  | x :: r => if did_eqb x d then Some 0 else option_map S (find_ref d r)
  end.

Definition place (d : dataid) (o : qout) : option nat :=
  match o with
  | ORef x => find_ref d [x]
  | ORefs l => find_ref d l
  | _ => None
  end.

(** All references returned so far. *)
Definition returned (h : hist) : list dataid :=
  flat_map (fun e => match snd e with ORef d => [d] | ORefs l => l | _ => [] end) h.

(** Several outcomes, in order: the first exception wins. *)
Fixpoint all_ok (l : list (option res)) : option (list val + nat) :=
  match l with
  | [] => Some (inl [])
  | Some (Ret v) :: r => match all_ok r with
                         | Some (inl vs) => Some (inl (v :: vs))
                         | o => o
                         end
  | Some (Exn e) :: _ => Some (inr e)
  | None :: _ => None
  end.

Section Direct.
Variable body cbody : nat -> list val -> kwargs -> res.
Variable mbody : nat -> val -> list val -> kwargs -> res * val.
Variable item : val -> nat -> option val.

(** The [i]-th of [n] results of a call. *)
Definition part (r : res) (n i : nat) : option res :=
  match r with
  | Exn e => Some (Exn e)
  | Ret v => if Nat.eqb n 1 then Some (Ret v) else option_map Ret (index item v i)
  end.

(** [outcome h d]: what the direct call behind the reference [d] returns or raises;
    [state h a]: the state of the object [a] after the direct calls of its methods, in order. *)
Fixpoint outcome (h : hist) (d : dataid) : option res :=
  match h with
  | [] => None
  | (o, out) :: h' =>
      let arg v := match v with VRef x => outcome h' x | _ => Some (Ret v) end in
      match place d out with
      | None => outcome h' d
      | Some i =>
          match o with
          | QPut v => Some (Ret v)
          | QSubmit f args kw n _ =>
              match all_ok (map arg args), all_ok (map arg (map snd kw)) with
              | Some (inl vs), Some (inl ks) => part (body f vs (combine (map fst kw) ks)) n i
              | Some (inl _), Some (inr e) | Some (inr e), _ => Some (Exn e)
              | _, _ => None
              end
          | QCall a m args kw n =>
              match state h' a, all_ok (map arg args), all_ok (map arg (map snd kw)) with
              | Some s, Some (inl vs), Some (inl ks) => part (fst (mbody m s vs (combine (map fst kw) ks))) n i
              | Some _, Some (inl _), Some (inr e) | Some _, Some (inr e), _ => Some (Exn e)
              | _, _, _ => None
              end
          | _ => None
          end
      end
  end
with state (h : hist) (a : nat) : option val :=
  match h with
  | [] => None
  | (o, out) :: h' =>
      let arg v := match v with VRef x => outcome h' x | _ => Some (Ret v) end in
      match o, out with
      | QActor c args kw _, OActor x =>
          if Nat.eqb x a then match cbody c args kw with Ret s => Some s | Exn _ => None end else state h' a
      | QCall x m args kw _, _ =>
          if Nat.eqb x a
          then match state h' a, all_ok (map arg args), all_ok (map arg (map snd kw)) with
               | Some s, Some (inl vs), Some (inl ks) => Some (snd (mbody m s vs (combine (map fst kw) ks)))
               | s, _, _ => s                      (* an argument's exception: the method is not called *)
               end
          else state h' a
      | _, _ => state h' a
      end
  end.

Definition argument (h : hist) (v : val) : option res :=
  match v with VRef x => outcome h x | _ => Some (Ret v) end.

(** No exception object is passed around as a value: none is put, and none is returned by a function or a
    method, alone or as one of several results. *)
Definition is_exc (v : val) : bool := match v with VExc _ => true | _ => false end.

Definition clean (v : val) : Prop := is_exc v = false /\ forall i x, index item v i = Some x -> is_exc x = false.

Definition no_exception_values : Prop :=
  (forall f a k v, body f a k = Ret v -> clean v) /\
  (forall m s a k v s', mbody m s a k = (Ret v, s') -> clean v).

Definition puts_clean (h : hist) : Prop := forall v out, In (QPut v, out) h -> is_exc v = false.

(** The references a call uses were all returned before. *)
Definition uses (o : qop) : list dataid :=
  let top l := flat_map (fun v => match v with VRef d => [d] | _ => [] end) l in
  match o with
  | QSubmit _ args kw _ _ | QCall _ _ args kw _ => top args ++ top (map snd kw)
  | QGet v => top [v]
  | QGetMany l => top l
  | QWait l _ => l
  | _ => []
  end.

Definition known (h : hist) (o : qop) : Prop := incl (uses o) (returned h).

Fixpoint legal (h : hist) : Prop :=
  match h with
  | [] => True
  | (o, _) :: h' => known h' o /\ legal h'
  end.
End Direct.

(** C54: the value a method gets for the argument [v]: for a reference, what get returns for it. *)
Definition arg_value (body cbody : nat -> list val -> kwargs -> res) (mbody : nat -> val -> list val -> kwargs -> res * val)
  (item : val -> nat -> option val) (st : qst) (v x : val) : Prop :=
  match v with
  | VRef _ => snd (qstep body cbody mbody item st (QGet v)) = OVal x
  | _ => x = v
  end.
