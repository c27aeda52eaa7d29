(** Concrete executions of several monitors. *)
From Verif Require Import Lib ShmModel ShmSpec CollModel CollSpec.
Local Open Scope Z_scope.

Definition none : dataid -> Z := fun _ => 0.
Definition two_hosts : list (Z * Z) := [(100, 40); (100, 40)].
Definition da : dataid := (0, 1)%nat.
Definition db : dataid := (2, 1)%nat.
Definition dc : dataid := (2, 2)%nat.

(** [da] is stored on both hosts. *)
Definition stored : list kop :=
  [KAsk 0%nat 0%nat da 10; KAsk 3%nat 1%nat da 10; KTake 0 0%nat none; KTake 1 3%nat none].

(** Process 0 asks for the cleanup of [da] and then of [db]; the second host is slow and looks while it has references. *)
Definition slow : list kop :=
  stored ++ [KTell 0%nat [da]; KTell 0%nat [db]; KTake 0 0%nat none;
             KAsk 3%nat 1%nat dc 20; KTake 1 3%nat none; KTake 1 0%nat (fun _ => 1); KReduce;
             KTake 0 0%nat none; KTake 1 0%nat none].

(** The case of one sender: after a first cleanup that frees nothing both hosts are in the second one, which frees [da] on both. *)
Lemma slow_case :
  one_sender 0%nat slow /\ freed_in (krun (kinit two_hosts) slow) KReduce 0 da /\
  freed_in (krun (kinit two_hosts) slow) KReduce 1 da /\
  map (fun x => pending_cleanup (k_mgr x)) (k_hosts (krun (kinit two_hosts) slow)) = [[da]; [da]].
Proof.
  split; [|split; [|split]].
  - intros src ids H. simpl in H. intuition congruence.
  - eexists. eexists. split; [vm_compute; reflexivity|]. split; [vm_compute; reflexivity|].
    split; [vm_compute; discriminate | vm_compute; reflexivity].
  - eexists. eexists. split; [vm_compute; reflexivity|]. split; [vm_compute; reflexivity|].
    split; [vm_compute; discriminate | vm_compute; reflexivity].
  - vm_compute. reflexivity.
Qed.

(** Processes 0 and 2 ask for cleanups; the hosts take them in different orders. *)
Definition crossed : list kop :=
  stored ++ [KTell 0%nat [da]; KTell 2%nat [db]; KTake 0 0%nat none; KTake 1 2%nat (fun _ => 1)].

Lemma two_senders :
  exists sizes ops h h' d,
    k_err (kstep (krun (kinit sizes) ops) KReduce) = false /\
    freed_in (krun (kinit sizes) ops) KReduce h d /\
    saw_references (krun (kinit sizes) ops) h' d.
Proof.
  exists two_hosts, crossed, 0%nat, 1%nat, da. split; [vm_compute; reflexivity|]. split.
  - eexists. eexists. split; [vm_compute; reflexivity|]. split; [vm_compute; reflexivity|].
    split; [vm_compute; discriminate | vm_compute; reflexivity].
  - eexists. exists (fun _ => 1). eexists. eexists. split; [reflexivity|]. split; [reflexivity|].
    split; [vm_compute; discriminate | reflexivity].
Qed.

(** The same with lists of different lengths. *)
Lemma lengths_differ :
  exists sizes ops, k_err (krun (kinit sizes) ops) = true.
Proof.
  exists two_hosts, [KTell 0%nat [da]; KTell 2%nat [db; dc]; KTake 0 0%nat none; KTake 1 2%nat none; KReduce].
  vm_compute. reflexivity.
Qed.

(** A monitor without room for a reservation dies; the others wait for it in their next cleanup. *)
Definition deadly : list kop :=
  [KAsk 0%nat 0%nat da 1000; KTake 0 0%nat none; KTell 0%nat [db]; KTake 1 0%nat none].

Lemma deadly_stays ops : 
  exists x y refs ids fl, k_hosts (krun (krun (kinit two_hosts) deadly) ops) = [x; y] /\
    k_mode x = Dead /\ k_mode y = InReduce refs ids fl.
Proof.
  induction ops as [|o ops IH] using rev_ind.
  - do 5 eexists. split; [reflexivity|]. split; reflexivity.
  - destruct IH as (x & y & refs & ids & fl & E & Mx & My).
    unfold krun in *. rewrite fold_left_app. simpl. set (s := fold_left kstep ops _) in *. clearbody s.
    unfold kstep. destruct (k_err s); [exists x, y, refs, ids, fl; auto|].
    destruct o as [src [|[|h]] d size|src i|[|[|h]] src r|]; rewrite E; simpl;
      try (exists x, y, refs, ids, fl; auto; fail).
    + do 5 eexists. split; [reflexivity|]. split; [exact Mx | exact My].
    + do 5 eexists. split; [reflexivity|]. split; [exact Mx | exact My].
    + destruct h; do 5 eexists; (split; [reflexivity|]; split; [exact Mx | exact My]).
    + do 5 eexists. split; [reflexivity|]. split; [exact Mx | exact My].
    + do 5 eexists. split; [reflexivity|]. split; [unfold ktake; rewrite Mx; exact Mx | exact My].
    + do 5 eexists. split; [reflexivity|]. split; [exact Mx | unfold ktake; rewrite My; exact My].
    + destruct h; do 5 eexists; (split; [reflexivity|]; split; [exact Mx | exact My]).
    + unfold given. rewrite Mx. exists x, y, refs, ids, fl. auto.
Qed.

Lemma dead_monitor :
  exists sizes ops src h, one_sender src ops /\
    forall ops2, exists y refs ids fl,
      nth_error (k_hosts (krun (krun (kinit sizes) ops) ops2)) h = Some y /\ k_mode y = InReduce refs ids fl.
Proof.
  exists two_hosts, deadly, 0%nat, 1%nat. split.
  - intros src ids H. simpl in H. intuition congruence.
  - intros ops2. destruct (deadly_stays ops2) as (x & y & refs & ids & fl & E & _ & M).
    exists y, refs, ids, fl. rewrite E. auto.
Qed.

(** In the middle of the slow execution: no monitor has died, one is in the collective call, the other can take a message. *)
Lemma waiting_case :
  let s := krun (kinit two_hosts) (stored ++ [KTell 0%nat [da]; KTake 0 0%nat none]) in
  (forall x, In x (k_hosts s) -> k_mode x <> Dead) /\ ~ drained s /\
  exists y, nth_error (k_hosts s) 1 = Some y /\ k_mode y = Running /\ k_in y 0%nat = [KClean [da]].
Proof.
  split; [|split].
  - intros x H. vm_compute in H. destruct H as [<-|[<-|[]]]; discriminate.
  - intros D. specialize (D _ (or_introl eq_refl)). destruct D as (D & _). vm_compute in D. discriminate.
  - eexists. split; [reflexivity|]. split; reflexivity.
Qed.
