(** Concrete histories used by ShmStoreProps.v. *)
From Verif Require Import Lib ShmModel ShmStoreModel ShmStoreSpec.
Local Open Scope Z_scope.

Definition case_host (p : nat) : nat := match p with 2%nat => 1%nat | _ => 0%nat end.
Definition case_sizes : list (Z * Z) := [(20, 8); (30, 8)].
Definition case_pl1 : payload := {| s_data := [7; 8]; raw_buffers := [[1; 2; 3]; [4]]; buffer_count := [2%nat] |}.
Definition case_pl2 : payload := {| s_data := [9]; raw_buffers := [[5; 5]]; buffer_count := [1%nat] |}.
Definition case_ops : list sop :=
  [SPut 0 (0, 0)%nat case_pl1; SSend 0 (0, 0)%nat; SSend 0 (0, 0)%nat; SPut 0 (0, 1)%nat case_pl2;
   SRecv 2 0; SRecv 1 0; SSend 0 (0, 1)%nat].
Definition case_more : list sop :=
  [SDrop 0 (0, 0)%nat; SRecv 1 0; SDrop 1 (0, 0)%nat; SCleanup [(0, 0)%nat]].
Definition case_drop : list sop :=
  [SPut 0 (0, 0)%nat case_pl1; SSend 0 (0, 0)%nat; SPut 0 (0, 1)%nat case_pl2;
   SRecv 2 0; SDrop 0 (0, 0)%nat; SDrop 2 (0, 0)%nat].

Ltac nodup := repeat (constructor; [simpl; intuition congruence|]); constructor.
Ltac quiet := cbn; repeat split; auto; intros; simpl in *;
  repeat match goal with
  | H : _ \/ _ |- _ => destruct H
  | H : False |- _ => destruct H
  | H : _ = _ |- _ => progress (inversion H; subst; clear H)
  | H : _ = _ |- _ => progress (try discriminate H)
  end; simpl in *; intuition congruence.

Lemma sizes_case : sizes_ok case_sizes.
Proof. repeat constructor; simpl; try lia; now exists 2. Qed.

Lemma hist_case : history_ok case_ops.
Proof. split; [simpl; nodup|]. repeat constructor; simpl; lia. Qed.

Lemma case_holds :
  sizes_ok case_sizes /\ history_ok case_ops /\ quiet_run case_host (store_init case_sizes) case_ops /\
  exists st, srun case_host (store_init case_sizes) case_ops = Some st /\
    sstep case_host st (SRead 2 (0, 0)%nat) = Some (st, OValue case_pl1) /\
    (exists st', sstep case_host st (SRecv 1 0) = Some (st', OValue case_pl2)) /\
    stored_count st 0 (0, 0)%nat = Some 2 /\ stored_count st 1 (0, 0)%nat = Some 2.
Proof.
  split; [exact sizes_case|]. split; [exact hist_case|].
  split; [vm_compute; repeat split|].
  eexists. split; [vm_compute; reflexivity|]. split; [vm_compute; reflexivity|].
  split; [eexists; vm_compute; reflexivity|]. split; vm_compute; reflexivity.
Qed.

Ltac quiet_empty := vm_compute; repeat split; intros; contradiction.

Lemma case_more_holds :
  exists st st2, srun case_host (store_init case_sizes) case_ops = Some st /\
    srun case_host st case_more = Some st2 /\
    history_ok (case_ops ++ case_more) /\
    quiet_run case_host (store_init case_sizes) (case_ops ++ case_more) /\
    infos st 2%nat (0, 0)%nat <> None /\ ~ In (SDrop 2 (0, 0)%nat) case_more /\
    stored_count st2 0 (0, 0)%nat = Some 0.
Proof.
  eexists. eexists. split; [vm_compute; reflexivity|]. split; [vm_compute; reflexivity|].
  split. { split; [simpl; nodup|]. repeat constructor; simpl; lia. }
  split; [quiet_empty|]. split; [vm_compute; discriminate|].
  split; [simpl; intuition congruence|]. vm_compute; reflexivity.
Qed.

Lemma case_drop_holds :
  exists st st', srun case_host (store_init case_sizes) case_drop = Some st /\
    history_ok case_drop /\
    quiet_run case_host (store_init case_sizes) (case_drop ++ [SCleanup [(0, 0)%nat]]) /\
    sstep case_host st (SCleanup [(0, 0)%nat]) = Some (st', ODone) /\
    stored_count st 0 (0, 0)%nat = Some 0 /\ stored_count st 1 (0, 0)%nat = Some 0 /\
    stored_count st' 0 (0, 0)%nat = None /\ stored_count st' 0 (0, 1)%nat <> None.
Proof.
  eexists. eexists. split; [vm_compute; reflexivity|].
  split. { split; [simpl; nodup|]. repeat constructor; simpl; lia. }
  split; [quiet_empty|]. split; [vm_compute; reflexivity|].
  split; [vm_compute; reflexivity|]. split; [vm_compute; reflexivity|].
  split; [vm_compute; reflexivity|]. vm_compute; discriminate.
Qed.

(** An object is cleaned up while process 2 holds it; the next cleanup does not name it. *)
Definition case_held : list sop :=
  [SPut 0 (0, 0)%nat case_pl1; SSend 0 (0, 0)%nat; SPut 0 (0, 1)%nat case_pl2;
   SRecv 2 0; SDrop 0 (0, 0)%nat; SCleanup [(0, 0)%nat]; SDrop 0 (0, 1)%nat].

Lemma case_held_holds :
  exists st st' st2, srun case_host (store_init case_sizes) case_held = Some st /\
    history_ok case_held /\
    quiet_run case_host (store_init case_sizes) (case_held ++ [SCleanup [(0, 1)%nat]]) /\
    stored_count st 0 (0, 0)%nat = Some 0 /\ stored_count st 1 (0, 0)%nat = Some 2 /\
    sstep case_host st (SCleanup [(0, 1)%nat]) = Some (st', ODone) /\
    stored_count st' 0 (0, 0)%nat = Some 0 /\ stored_count st' 1 (0, 0)%nat = Some 2 /\
    srun case_host st' [SDrop 2 (0, 0)%nat; SCleanup []] = Some st2 /\
    stored_count st2 0 (0, 0)%nat = None /\ stored_count st2 1 (0, 0)%nat = None.
Proof.
  eexists. eexists. eexists. split; [vm_compute; reflexivity|].
  split. { split; [simpl; nodup|]. repeat constructor; simpl; lia. }
  split; [quiet_empty|]. split; [vm_compute; reflexivity|].
  split; [vm_compute; reflexivity|]. split; [vm_compute; reflexivity|].
  split; [vm_compute; reflexivity|]. split; [vm_compute; reflexivity|].
  split; [vm_compute; reflexivity|]. split; vm_compute; reflexivity.
Qed.

(** The package of an object is on its way when the object is dropped and cleaned. *)
Definition stale_ops : list sop :=
  [SPut 0 (0, 0)%nat case_pl1; SSend 0 (0, 0)%nat; SDrop 0 (0, 0)%nat; SCleanup [(0, 0)%nat];
   SPut 0 (0, 1)%nat case_pl2].

Lemma stale_package :
  exists host_of sizes ops st k q d i st' pl pl',
    sizes_ok sizes /\ history_ok ops /\
    srun host_of (store_init sizes) ops = Some st /\
    nth_error (inflight st) k = Some (q, d, i) /\
    sstep host_of st (SRecv 1 k) = Some (st', OValue pl') /\
    written ops d = Some pl /\ pl' <> pl.
Proof.
  exists (fun _ => 0%nat), [(20, 8)], stale_ops.
  eexists. exists 0%nat. do 5 eexists. eexists.
  split. { repeat constructor; simpl; try lia; now exists 2. }
  split. { split; [simpl; nodup|]. repeat constructor; simpl; lia. }
  split; [vm_compute; reflexivity|]. split; [vm_compute; reflexivity|].
  split; [vm_compute; reflexivity|]. split; [vm_compute; reflexivity|].
  vm_compute. discriminate.
Qed.

(** Two hosts; the second one's service buffer has a single slot. *)
Definition unequal_ops : list sop :=
  [SPut 0 (0, 0)%nat case_pl1; SPut 0 (0, 1)%nat case_pl2; SSend 0 (0, 1)%nat].

Lemma unequal_service :
  exists host_of sizes ops st q d i x,
    sizes_ok sizes /\ history_ok ops /\ quiet_run host_of (store_init sizes) ops /\
    srun host_of (store_init sizes) ops = Some st /\
    nth_error (inflight st) 0 = Some (q, d, i) /\
    nth_error (hosts st) (host_of 1%nat) = Some x /\
    snd (mgr_reserve (mgr x) d (Z.of_nat (s_data_len i + list_sum (raw_buffers_len i)))) <> None /\
    sstep host_of st (SRecv 1 0) = None.
Proof.
  exists (fun p => p), [(20, 8); (20, 4)], unequal_ops.
  do 5 eexists.
  split. { repeat constructor; simpl; try lia; [now exists 2 | now exists 1]. }
  split. { split; [simpl; nodup|]. repeat constructor; simpl; lia. }
  split; [vm_compute; repeat split|].
  split; [vm_compute; reflexivity|]. split; [vm_compute; reflexivity|].
  split; [vm_compute; reflexivity|]. split; [vm_compute; discriminate|].
  vm_compute. reflexivity.
Qed.
