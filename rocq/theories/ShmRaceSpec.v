(** Vocabulary for the properties of concurrent puts, gets and drops on one host. *)
From Verif Require Import Lib ShmModel ShmStoreModel ShmRaceModel.
Local Open Scope Z_scope.

Definition put_of (o : rop) : list (dataid * place * list Z) :=
  match o with RPut d r bs => [(d, r, bs)] | _ => [] end.

Definition all_puts (progs : list (list rop)) : list (dataid * place * list Z) :=
  flat_map put_of (concat progs).

Definition slots_apart (x y : dataid * place * list Z) : Prop :=
  p_slot (snd (fst x)) <> p_slot (snd (fst y)).

Definition bytes_apart (x y : dataid * place * list Z) : Prop :=
  let fx := p_first (snd (fst x)) in let fy := p_first (snd (fst y)) in
  fx + Z.of_nat (length (snd x)) <= fy \/ fy + Z.of_nat (length (snd y)) <= fx.

(** What C01 guarantees for reservations: distinct IDs, slots and regions that do not overlap,
    slots aligned to four cells. *)
Definition places_ok (progs : list (list rop)) : Prop :=
  NoDup (map (fun x => fst (fst x)) (all_puts progs)) /\
  (forall x y, In x (all_puts progs) -> In y (all_puts progs) ->
     fst (fst x) <> fst (fst y) -> slots_apart x y /\ bytes_apart x y) /\
  (forall x, In x (all_puts progs) -> (4 | p_slot (snd (fst x)))).

(** Gets and finalizers name aligned slots; packages carry the length of the object. *)
Definition gets_ok (progs : list (list rop)) : Prop :=
  forall o, In o (concat progs) ->
    match o with
    | RPut _ _ _ => True
    | RGet d s n => (4 | s) /\ forall r bs, In (d, r, bs) (all_puts progs) -> n = length bs
    | RDrop d s => (4 | s)
    | RDelete _ _ => True
    end.

Definition no_delete (progs : list (list rop)) : Prop :=
  forall d s, ~ In (RDelete d s) (concat progs).

Definition is_inc (d : dataid) (s : Z) (e : event) : bool :=
  match e with Inc d' s' => did_eqb d' d && (s' =? s) | _ => false end.
Definition is_dec (d : dataid) (s : Z) (e : event) : bool :=
  match e with Dec d' s' => did_eqb d' d && (s' =? s) | _ => false end.

Definition incs (l : list event) (d : dataid) (s : Z) : Z := Z.of_nat (length (filter (is_inc d s) l)).
Definition decs (l : list event) (d : dataid) (s : Z) : Z := Z.of_nat (length (filter (is_dec d s) l)).
