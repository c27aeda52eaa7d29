(** Concrete histories of a monitor that keeps running, and of monitors that do not. *)
From Verif Require Import Lib ShmModel ShmSpec MonModel MonSpec SurviveSpec SurviveProofs.
Local Open Scope Z_scope.

Definition vc : mcfg := {| c_self := 1; c_workers := [2%nat; 3%nat]; c_monitors := [1%nat] |}.
Definition a1 : dataid := (0%nat, 1%nat).
Definition a2 : dataid := (0%nat, 2%nat).
Definition a3 : dataid := (2%nat, 1%nat).

(** 100 bytes and two slots; in all 140 bytes and three slots are asked for. *)
Definition vms : list mmsg :=
  [MReserve 0 a1 60; MReserve 2 a2 30; MShared 3 a2; MDone 2 [a3]; MClean [a1] [false]; MReserve 3 a3 50;
   MReserve 2 a3 50; MShared 2 a3; MWait [a3] 1].

Ltac msgs H := simpl in H; repeat (destruct H as [H|H]; [try discriminate; try (injection H; intros; lia)|]); try contradiction.

Lemma vms_sizes : sizes_ok vms.
Proof. intros src d n H. msgs H. Qed.

Lemma vms_known : known_when_asked vms.
Proof.
  intros a src d b H.
  repeat (destruct a as [|? a]; [injection H; intros; subst; try discriminate|injection H; intros; subst; clear H; rename H0 into H]);
    try (destruct a; discriminate); try (simpl in *; discriminate).
  - split; [exists 2%nat, 30; simpl; auto|]. intros ds fl X. msgs X.
  - split; [exists 3%nat, 50; simpl; auto 10|]. intros ds fl X. msgs X.
    injection X as <- <-. simpl. intros [E|[]]. discriminate.
Qed.

Lemma vroom : room vc (minit (manager_init 100 8)) 100 2 vms.
Proof.
  intros a src d n b s H R0 St0 N0.
  repeat (destruct a as [|? a]; [injection H; intros; subst; try discriminate|injection H; intros; subst; clear H; rename H0 into H]);
    try (destruct a; discriminate).
  all: cbv in R0; injection R0 as <-; cbn [mmgr].
  - split.
    + exists 0. split; [lia|]. split; [lia|]. intros x _ (d & r & R & _). discriminate.
    + exists []. split; [simpl; lia|]. intros d X. exfalso. apply X. reflexivity.
  - split.
    + exists 60. split; [lia|]. split; [lia|]. intros x X (d & r & R & U). cbn in R. unfold in_region in *.
      destruct d as [[|d1] [|[|d2]]]; try discriminate. injection R as <-. simpl in U. lia.
    + exists [a1]. split; [simpl; lia|]. intros [[|d1] [|[|d2]]] X; try (exfalso; apply X; reflexivity). left. reflexivity.
  - split.
    + exists 0. split; [lia|]. split; [lia|]. intros x X (d & r & R & U). cbn in R. unfold in_region in *.
      destruct d as [[|d1] [|[|[|d2]]]]; try discriminate. injection R as <-. simpl in U. lia.
    + exists [a2]. split; [simpl; lia|]. intros [[|d1] [|[|[|d2]]]] X; try (exfalso; apply X; reflexivity). left. reflexivity.
  - discriminate N0.
Qed.

Lemma c71_case : sizes_ok vms /\ known_when_asked vms /\ room vc (minit (manager_init 100 8)) 100 2 vms /\
  asked vms = 190 /\ asked (firstn 6 vms) = 140.
Proof. split; [exact vms_sizes|]. split; [exact vms_known|]. split; [exact vroom|]. split; reflexivity. Qed.

Lemma c71_total_case : sizes_ok vms /\ known_when_asked vms /\ asked vms <= 200 /\ INFO_SIZE * requests vms <= 16 /\
  option_map (fun s => answers (mlog s)) (mon_run vc (minit (manager_init 200 16)) vms) = Some [([a3], [])].
Proof. split; [exact vms_sizes|]. split; [exact vms_known|]. split; [|split]; [vm_compute; discriminate|vm_compute; discriminate|reflexivity]. Qed.

Lemma run_dead c s ms more : mon_run c s ms = None -> mon_run c s (ms ++ more) = None.
Proof.
  revert s. induction ms as [|m ms IH]; intros s H; cbn [mon_run app] in *; [discriminate|].
  destruct (mon_step c s m); [auto|reflexivity].
Qed.

(** 20 of 100 bytes are reserved; 50 are asked for. *)
Lemma c71_fragmented : exists ms s d, sizes_ok ms /\ known_when_asked ms /\
  mon_run vc (minit (manager_init 100 40)) ms = Some s /\
  (forall x, mem_used (mmgr s) x -> 40 <= x < 60) /\ holds_at_most (mmgr s) 1 /\
  forall more, mon_run vc (minit (manager_init 100 40)) (ms ++ MReserve 2 d 50 :: more) = None.
Proof.
  exists [MReserve 0 a1 40; MReserve 0 a2 20; MReserve 2 a3 40; MClean [a1; a3] [false; false]].
  eexists. exists (2%nat, 2%nat). split; [|split; [|split; [cbv; reflexivity|]]].
  - intros src d n H. msgs H.
  - intros a src d b H.
    repeat (destruct a as [|? a]; [discriminate|injection H; intros; subst; clear H; rename H0 into H]); try (destruct a; discriminate).
  - split; [|split].
    + intros x (d & r & R & U). cbn in R. unfold in_region in U.
      destruct d as [[|[|[|d1]]] [|[|[|d2]]]]; try discriminate. injection R as <-. simpl in U. lia.
    + exists [a2]. split; [simpl; lia|]. intros [[|[|[|d1]]] [|[|[|d2]]]] X; try (exfalso; apply X; reflexivity). left. reflexivity.
    + intros more.
      change ([MReserve 0 a1 40; MReserve 0 a2 20; MReserve 2 a3 40; MClean [a1; a3] [false; false]] ++ MReserve 2 (2%nat, 2%nat) 50 :: more)
        with ([MReserve 0 a1 40; MReserve 0 a2 20; MReserve 2 a3 40; MClean [a1; a3] [false; false]; MReserve 2 (2%nat, 2%nat) 50] ++ more).
      apply run_dead. vm_compute. reflexivity.
Qed.

(** Data that a cleanup has freed is asked for. *)
Lemma c71_unknown : exists ms d, sizes_ok ms /\ asked ms <= 100 /\ In (MReserve 2 d 40) ms /\
  mon_run vc (minit (manager_init 100 40)) ms <> None /\
  forall more, mon_run vc (minit (manager_init 100 40)) (ms ++ MShared 5 d :: more) = None.
Proof.
  exists [MReserve 2 a3 40; MClean [a3] [false]], a3. split; [|split; [vm_compute; discriminate|split; [now left|split; [vm_compute; discriminate|]]]].
  - intros src d n H. msgs H.
  - intros more. change ([MReserve 2 a3 40; MClean [a3] [false]] ++ MShared 5 a3 :: more)
      with ([MReserve 2 a3 40; MClean [a3] [false]; MShared 5 a3] ++ more). apply run_dead. vm_compute. reflexivity.
Qed.
