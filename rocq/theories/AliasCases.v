(** Cases for C70. *)
From Verif Require Import Lib AliasModel AliasSpec AliasProofs.

(** The root puts an object with a buffer, changes it, gets it, sends it to worker 2 from the shared memory; a task with another object as argument; the
    result of worker 2 is got by the root. *)
Definition aops1 : list aop :=
  [ANew 0 5 [1]; APut 0 0 (0, 0) true; ASetIn 0 0 6; ASetBufs 0 0 [2]; APush 0 (0, 0) 2 true; ADeliver 0; AGet 2 (0, 0); AGet 0 (0, 0);
   ANew 0 7 [3]; ASubmit 0 3 2; ASetIn 0 3 8; ADeliver 0; ASetBufs 0 3 [4];
   ANew 2 9 []; AReturn 2 5 (0, 1) false; APush 2 (0, 1) 0 false; ADeliver 0; AGet 0 (0, 1)].

(** A check that can be run: the locations that ever become the value of a reference. *)
Definition stores (s : ast) (o : aop) : list nat :=
  match o with AReturn _ l _ _ => [l] | AGet _ _ | ADeliver _ => [next s] | _ => [] end.
Fixpoint okv (s : ast) (st : list nat) (ops : list aop) : bool :=
  match ops with
  | [] => true
  | o :: r => match o with ASetIn _ l _ | ASetBufs _ l _ => negb (existsb (Nat.eqb l) st) | _ => true end
              && okv (astep s o) (stores s o ++ st) r
  end.

Lemma stores_step s o st : (forall q d l, local s q d = Some l -> In l st) ->
  forall q d l, local (astep s o) q d = Some l -> In l (stores s o ++ st).
Proof.
  intros H q d l. destruct o as [p a bs|p k a|p k bs|p k e sh|p k e sh|p k w|p e|p e w sh|i]; simpl; unfold keep;
    repeat match goal with
    | |- context [match ?x with _ => _ end] => destruct x
    | |- context [if ?x then _ else _] => destruct x
    end; simpl; intros X; facts; eauto.
Qed.

Lemma okv_ok ops : forall s st, okv s st ops = true -> (forall q d l, local s q d = Some l -> In l st) ->
  forall a o b l, ops = a ++ o :: b -> (exists p x, o = ASetIn p l x) \/ (exists p bs, o = ASetBufs p l bs) ->
  forall q d, local (fold_left astep a s) q d <> Some l.
Proof.
  induction ops as [|o ops IH]; intros s st H L a o' b l E K q d; [destruct a; discriminate|].
  cbn [okv] in H. apply andb_true_iff in H as [H1 H2]. destruct a as [|x a]; simpl in E; injection E as -> E.
  - intros X. apply L in X. assert (Y : negb (existsb (Nat.eqb l) st) = true) by (destruct K as [(? & ? & ->)|(? & ? & ->)]; auto).
    apply negb_true_iff in Y. apply Bool.not_true_iff_false in Y. apply Y. apply existsb_exists. exists l. split; auto. apply Nat.eqb_refl.
  - cbn [fold_left]. apply (IH (astep s x) (stores s x ++ st) H2 (stores_step s x st L) a o' b l E K).
Qed.

Lemma aops1_values : values_left_alone aops1.
Proof.
  intros a o b l E K q d. apply (okv_ok aops1 ainit [] ltac:(vm_compute; reflexivity) ltac:(simpl; unfold dempty; discriminate) a o b l E K).
Qed.

(** The same for the messages under way. *)
Fixpoint okb (s : ast) (ops : list aop) : bool :=
  match ops with
  | [] => true
  | o :: r => match o with
              | ASetBufs _ l _ => forallb (fun f => match f with FArg _ _ _ k => negb (Nat.eqb k l) | _ => true end) (air s)
              | _ => true end && okb (astep s o) r
  end.

Lemma okb_ok ops : forall s, okb s ops = true -> forall a p l bs b, ops = a ++ ASetBufs p l bs :: b ->
  forall n w x, ~ In (FArg n w x l) (air (fold_left astep a s)).
Proof.
  induction ops as [|o ops IH]; intros s H a p l bs b E n w x; [destruct a; discriminate|].
  cbn [okb] in H. apply andb_true_iff in H as [H1 H2]. destruct a as [|y a]; simpl in E; injection E as -> E.
  - intros X. rewrite forallb_forall in H1. apply H1 in X. rewrite Nat.eqb_refl in X. discriminate.
  - cbn [fold_left]. apply (IH (astep s y) H2 a p l bs b E).
Qed.

Lemma aops1_buffers : buffers_left_alone aops1.
Proof. intros a p l bs b E. apply (okb_ok aops1 ainit ltac:(vm_compute; reflexivity) a p l bs b E). Qed.

Lemma c70_case : values_left_alone aops1 /\ buffers_left_alone aops1 /\
  alog (arun aops1) = [AGot 2 (0, 0) {| c_in := 5; c_bufs := [1] |}; AGot 0 (0, 0) {| c_in := 5; c_bufs := [1] |};
                       AArg 0 {| c_in := 7; c_bufs := [3] |}; AGot 0 (0, 1) {| c_in := 9; c_bufs := [] |}].
Proof. split; [apply aops1_values|split; [apply aops1_buffers|reflexivity]]. Qed.

(** A method of an actor on worker 2 returns part of the actor's state, which changes afterwards. *)
Definition aops2 : list aop :=
  [ANew 2 5 []; AReturn 2 0 (0, 0) false; ASetIn 2 0 6; AGet 2 (0, 0); APush 2 (0, 0) 0 false; ADeliver 0; AGet 0 (0, 0)].

Lemma c70_elsewhere_case : values_left_alone_but 2 aops2 /\
  alog (arun aops2) = [AGot 2 (0, 0) {| c_in := 6; c_bufs := [] |}; AGot 0 (0, 0) {| c_in := 5; c_bufs := [] |}].
Proof.
  split; [|reflexivity]. intros a o b l E K q d N. unfold aops2 in E.
  destruct K as [(r & x & ->)|(r & x & ->)].
  - do 3 (destruct a as [|? a]; [try discriminate E|injection E as <- E]); [|exfalso].
    + injection E as <- <- <- _. simpl. unfold aset. destruct (Nat.eqb_spec q 2); [congruence|]. unfold dempty. discriminate.
    + do 4 (destruct a as [|? a]; [discriminate E|injection E as <- E]). destruct a; discriminate.
  - exfalso. do 7 (destruct a as [|? a]; [discriminate E|injection E as <- E]). destruct a; discriminate.
Qed.

Lemma c70_argument : exists ops a p l w b c c', ops = a ++ ASubmit p l w :: b /\ holds (arun a) p l c /\
  In (AArg (nsub (arun a)) c') (alog (arun ops)) /\ c' <> c.
Proof.
  exists [ANew 0 5 [1]; ASubmit 0 0 2; ASetBufs 0 0 [9]; ADeliver 0], [ANew 0 5 [1]], 0, 0, 2, [ASetBufs 0 0 [9]; ADeliver 0],
    {| c_in := 5; c_bufs := [1] |}, {| c_in := 5; c_bufs := [9] |}.
  split; [reflexivity|]. split; [unfold holds; simpl; auto|]. split; [simpl; auto|discriminate].
Qed.

Lemma c70_got_again : exists ops a p l d sh b c c', ops = a ++ APut p l d sh :: b /\ holds (arun a) p l c /\ ~ In d (used (arun a)) /\
  In (AGot p d c') (alog (arun ops)) /\ c' <> c.
Proof.
  exists [ANew 0 5 []; APut 0 0 (0, 0) false; AGet 0 (0, 0); ASetIn 0 1 6; AGet 0 (0, 0)], [ANew 0 5 []], 0, 0, (0, 0), false,
    [AGet 0 (0, 0); ASetIn 0 1 6; AGet 0 (0, 0)], {| c_in := 5; c_bufs := [] |}, {| c_in := 6; c_bufs := [] |}.
  split; [reflexivity|]. split; [unfold holds; simpl; auto|]. split; [simpl; auto|]. split; [simpl; auto|discriminate].
Qed.

Lemma c70_worker : exists ops a p l d sh b c q c', ops = a ++ APut p l d sh :: b /\ holds (arun a) p l c /\ ~ In d (used (arun a)) /\
  q <> p /\ In (AGot q d c') (alog (arun ops)) /\ c' <> c.
Proof.
  exists [ANew 0 5 []; APut 0 0 (0, 0) false; APush 0 (0, 0) 2 false; ADeliver 0; AGet 2 (0, 0); ASetIn 2 1 6; AGet 2 (0, 0)],
    [ANew 0 5 []], 0, 0, (0, 0), false, [APush 0 (0, 0) 2 false; ADeliver 0; AGet 2 (0, 0); ASetIn 2 1 6; AGet 2 (0, 0)],
    {| c_in := 5; c_bufs := [] |}, 2, {| c_in := 6; c_bufs := [] |}.
  split; [reflexivity|]. split; [unfold holds; simpl; auto|]. split; [simpl; auto|]. split; [discriminate|].
  split; [simpl; auto|discriminate].
Qed.

Lemma c70_result : exists ops a p l d sh b c c', ops = a ++ AReturn p l d sh :: b /\ holds (arun a) p l c /\ ~ In d (used (arun a)) /\
  In (AGot 0 d c) (alog (arun ops)) /\ In (AGot p d c') (alog (arun ops)) /\ c' <> c.
Proof.
  exists [ANew 2 5 []; AReturn 2 0 (0, 0) false; ASetIn 2 0 6; AGet 2 (0, 0); APush 2 (0, 0) 0 false; ADeliver 0; AGet 0 (0, 0)],
    [ANew 2 5 []], 2, 0, (0, 0), false, [ASetIn 2 0 6; AGet 2 (0, 0); APush 2 (0, 0) 0 false; ADeliver 0; AGet 0 (0, 0)],
    {| c_in := 5; c_bufs := [] |}, {| c_in := 6; c_bufs := [] |}.
  split; [reflexivity|]. split; [unfold holds; simpl; auto|]. split; [simpl; auto|].
  split; [simpl; auto|]. split; [simpl; auto|discriminate].
Qed.
