(** Concrete runs of the message layer. *)
From Verif Require Import Lib CommModel CommSpec CommProofs.

Definition kinds (o : nat) : kind :=
  match o with 1 => KComplex | 2 => KSimple | 9 => KSerial | _ => KPlain end.

Definition b1 : body := {| b_id := 7; b_data := [1]%Z; b_raws := []; b_count := [] |}.
Definition b2 : body := {| b_id := 8; b_data := [2]%Z; b_raws := []; b_count := [] |}.
Definition b3 : body :=
  {| b_id := 9; b_data := [3; 4]%Z; b_raws := [[5; 6; 7]%Z; []]; b_count := [2] |}.

Definition msgs0 (i : nat) : list message :=
  match i with
  | 0 => [MComplex 1 b3; MSerial 9 [1; 2; 3; 4; 5]%Z; MSimple 2 4]
  | 1 => [MReply b3; MReplyShared 3]
  | 2 => [MPlain 16]
  | _ => []
  end.

Definition acts0 : list act :=
  [ASend 1; ASend 0; ASend 0; APull 1; ASend 0; ASend 0; ASend 0; ASend 0; ASend 0; ARecv;
   ASend 1; ARecv; ASend 1; ASend 1; ARecv; ARecv; ASend 1; APick 0; ARecv; ARecv; ARecv; ARecv;
   ASend 0; ASend 0; ASend 0; ASend 0; ASend 0; APick 0; ASend 2; APick 2;
   ARecv; ARecv; ARecv; ARecv; APick 2; APick 0; ARecv; APull 1].

Lemma comm_case_delivered : delivered (crun 2 kinds msgs0 acts0) =
  [(1, MReply b3); (0, MComplex 1 b3); (0, MSerial 9 [1; 2; 3; 4; 5]%Z); (2, MPlain 16);
   (0, MSimple 2 4); (1, MReplyShared 3)].
Proof. reflexivity. Qed.

Lemma comm_case_hyps : one_kind msgs0 /\ (forall i, Forall (well_kinded kinds) (msgs0 i)).
Proof.
  split; intros i; destruct i as [|[|[|i]]]; simpl.
  - left; repeat constructor.
  - right; repeat constructor; intros [].
  - left; repeat constructor.
  - left; constructor.
  - repeat constructor.
  - repeat constructor.
  - repeat constructor.
  - constructor.
Qed.

(** A worker that gets a value inside a task: the reply's metadata is read before the earlier,
    unread operation of the same sender, whose bytes are then taken for the reply's. *)
Lemma mixed_up :
  let msgs := fun i => match i with 0 => [MComplex 1 b1; MReply b2] | _ => [] end in
  let st := crun 2 kinds msgs [ASend 0; ASend 0; ASend 0; ASend 0; ASend 0; APull 0; ARecv] in
  In (0, MReply {| b_id := 8; b_data := [1]%Z; b_raws := []; b_count := [] |}) (delivered st).
Proof. simpl. auto. Qed.

Lemma empty_not_announced :
  recv_buffer 4 None (send_buffer 4 [] (Some 0)) = None.
Proof. reflexivity. Qed.

Lemma is_reply_spec m : reply m -> is_reply m.
Proof. unfold reply. destruct m; simpl; tauto. Qed.

Lemma one_kind_homog msgs : one_kind msgs -> forall i, Forall is_op (msgs i) \/ Forall is_reply (msgs i).
Proof.
  intros H i. destruct (H i) as [F|F]; [left; exact F|right].
  eapply Forall_impl; [|exact F]. exact is_reply_spec.
Qed.

Lemma mixed_up_ex : exists block kind_of msgs acts i m,
  0 < block /\ (forall j, Forall (well_kinded kind_of) (msgs j)) /\
  In (i, m) (delivered (crun block kind_of msgs acts)) /\ ~ In m (msgs i).
Proof.
  exists 2, kinds, (fun i => match i with 0 => [MComplex 1 b1; MReply b2] | _ => [] end),
    [ASend 0; ASend 0; ASend 0; ASend 0; ASend 0; APull 0; ARecv], 0,
    (MReply {| b_id := 8; b_data := [1]%Z; b_raws := []; b_count := [] |}).
  split; [lia|]. split.
  - intros [|j]; repeat constructor.
  - split; [exact mixed_up|]. simpl. intros [H|[H|[]]]; discriminate.
Qed.
