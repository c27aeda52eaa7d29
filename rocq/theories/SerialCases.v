(** A concrete instance of the pickling libraries, and concrete values. *)
From Verif Require Import Lib SerialModel SerialSpec SerialProofs.
Require Import String.
Open Scope list_scope.

Inductive cobj := CFrame (id : nat) (bufs : list (list Z)) | CFunc (id : nat) | CTuple (id : nat).
Inductive cbytes := BFrame (id : nat) (bufs : list (option (list Z))) | BFunc (id : nat) | BTuple (id : nat).

Definition c_is5 (o : cobj) : bool := match o with CFrame _ _ => true | _ => false end.
Definition c_isc (o : cobj) : bool := match o with CFunc _ => true | _ => false end.
Definition c_bufs (o : cobj) : list (list Z) := match o with CFrame _ b => b | _ => [] end.

Definition c_dumps (o : cobj) : cbytes :=
  match o with CFrame i b => BFrame i (map Some b) | CFunc i => BFunc i | CTuple i => BTuple i end.

Definition c_dumps5 (o : cobj) (ds : list bool) : cbytes :=
  match o with
  | CFrame i b => BFrame i (map (fun p => if snd p : bool then Some (fst p) else None) (combine b ds))
  | _ => c_dumps o
  end.

(** Out-of-band buffers are taken from the front of the list. *)
Fixpoint fill (l : list (option (list Z))) (bufs : list (list Z)) : option (list (list Z)) :=
  match l, bufs with
  | [], _ => Some []
  | Some b :: r, _ => match fill r bufs with Some x => Some (b :: x) | None => None end
  | None :: r, b :: bufs => match fill r bufs with Some x => Some (b :: x) | None => None end
  | None :: _, [] => None
  end.

Definition c_loads5 (b : cbytes) (bufs : list (list Z)) : option cobj :=
  match b with
  | BFrame i l => match fill l bufs with Some x => Some (CFrame i x) | None => None end
  | BFunc i => Some (CFunc i)
  | BTuple i => Some (CTuple i)
  end.

Definition c_loads (b : cbytes) : option cobj := c_loads5 b [].

Lemma fill_some l : fill (map Some l) [] = Some l.
Proof. induction l as [|x l IH]; simpl; [reflexivity|]. now rewrite IH. Qed.

Lemma fill_combine : forall b ds rest, List.length ds = List.length b ->
  fill (map (fun p => if snd p : bool then Some (fst p) else None) (combine b ds))
       (out_of_band b ds ++ rest) = Some b.
Proof.
  induction b as [|x b IH]; intros [|d ds] rest H; simpl in *; try lia; [reflexivity|].
  unfold out_of_band in *. simpl. destruct d; simpl; rewrite IH by lia; reflexivity.
Qed.

Lemma c_contract : pickle_contract cobj cbytes c_dumps c_loads c_dumps c_loads c_bufs c_dumps5 c_loads5.
Proof.
  split; [|split].
  - intros [i b|i|i]; simpl; auto. unfold c_loads. simpl. now rewrite fill_some.
  - intros [i b|i|i]; simpl; auto. unfold c_loads. simpl. now rewrite fill_some.
  - intros [i b|i|i] ds rest H; simpl in *; auto. now rewrite fill_combine.
Qed.

Notation c_serialize t v := (serialize cobj cbytes c_is5 c_isc c_dumps c_dumps c_bufs c_dumps5 t v).
Notation c_deserialize z := (deserialize cobj cbytes c_loads c_loads c_loads5 z).
Notation c_holding t v := (holding cobj cbytes c_is5 c_isc c_dumps c_dumps c_bufs c_dumps5 t v).
Notation c_hrun h ops := (hrun cobj cbytes c_loads c_loads c_loads5 h ops).

Definition A (a : atom cbytes) : value cobj cbytes := VAtom _ _ a.
Definition O (o : cobj) : value cobj cbytes := VObj _ _ o.

(** A list of two frames in a dictionary, with buffers on both sides of the threshold. *)
Definition value0 : value cobj cbytes :=
  VDict _ _
    [(A (AStr _ "x"), VList _ _ [O (CFrame 1 [[1; 2; 3]; [4]; [5; 6]]%Z); A (AInt _ 7); O (CFunc 3)]);
     (O (CTuple 2), O (CFrame 4 [[]; [7; 8]]%Z))].

Lemma value0_ok : no_reserved_key value0.
Proof.
  constructor.
  - intros k v [E|[E|[]]]; injection E as <- <-; split; try constructor.
    intros v [<-|[<-|[<-|[]]]]; constructor.
  - intros k v s [E|[E|[]]] Ek; injection E as <- <-; try discriminate.
    injection Ek as <-. unfold reserved. intros [H|[H|H]]; discriminate.
Qed.

Lemma value0_serialized :
  z_raw _ (c_serialize 2 value0) = [[1; 2; 3]; [5; 6]; [7; 8]]%Z /\
  z_count _ (c_serialize 2 value0) = [2; 1].
Proof. split; reflexivity. Qed.

(** A dictionary of the user with a reserved key is decoded as something else. *)
Definition clash : value cobj cbytes :=
  VDict _ _ [(A (AStr _ "__cloud_custom__"), A (AInt _ 1))].

Lemma clash_fails : c_deserialize (c_serialize 2 clash) = None.
Proof. reflexivity. Qed.

Definition frame0 : value cobj cbytes := O (CFrame 1 [[1; 2; 3]]%Z).

Lemma frame0_ok : no_reserved_key frame0.
Proof. constructor. Qed.

(** put, get, then a send: the buffer does not go out any more. *)
Lemma drained :
  c_hrun (c_holding 2 frame0) [HGet; HSend] =
  [HGot _ _ frame0;
   HSent _ _ {| z_data := z_data _ (c_serialize 2 frame0); z_raw := []; z_count := [1] |}].
Proof. reflexivity. Qed.

Lemma drained_undecodable :
  c_deserialize {| z_data := z_data _ (c_serialize 2 frame0); z_raw := []; z_count := [1] |} = None.
Proof. reflexivity. Qed.

Lemma drained_ex : exists v z, no_reserved_key v /\
    c_hrun (c_holding 2 v) [HGet; HSend] = [HGot _ _ v; HSent _ _ z] /\
    z <> c_serialize 2 v /\ c_deserialize z = None.
Proof.
  exists frame0. eexists. split; [exact frame0_ok|]. split; [exact drained|]. split.
  - discriminate.
  - exact drained_undecodable.
Qed.
