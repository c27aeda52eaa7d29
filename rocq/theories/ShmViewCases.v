(** Concrete histories used by ShmViewProps.v. *)
From Verif Require Import Lib ShmModel ShmStoreModel ShmStoreSpec ShmStoreCases ShmViewModel ShmViewSpec.
Local Open Scope Z_scope.

Definition result1 : payload := {| s_data := [7]; raw_buffers := [[1; 2; 3]; [4]]; buffer_count := [2%nat] |}.
Definition result2 : payload := {| s_data := [7]; raw_buffers := [[9; 9; 9]; [9]]; buffer_count := [2%nat] |}.

(* The task on process 1 returns a large value; process 0 asks for it with get. *)
Definition got : list sop := [SPut 1 (1, 0)%nat result1; SSend 1 (1, 0)%nat; SRecv 0 0].
(* The user deletes the reference, keeping the value; a second task returns a value of the same size. *)
Definition reference_deleted : list sop :=
  [SDrop 0 (1, 0)%nat; SDrop 1 (1, 0)%nat; SCleanup [(1, 0)%nat]; SPut 1 (1, 1)%nat result2].

Lemma hist_got more : (forall d, In d (puts more) -> d <> (1, 0)%nat) -> history_ok more -> history_ok (got ++ more).
Proof.
  intros Hd [H1 H2]. split.
  - simpl. constructor; [intros H; exact (Hd _ H eq_refl) | exact H1].
  - unfold got. apply Forall_app. split; [|exact H2]. repeat constructor; simpl; lia.
Qed.

Lemma deleted_changes :
  exists st st2 v,
    sizes_ok case_sizes /\ history_ok (got ++ reference_deleted) /\
    quiet_run case_host (store_init case_sizes) (got ++ reference_deleted) /\
    srun case_host (store_init case_sizes) got = Some st /\
    srun case_host st reference_deleted = Some st2 /\
    view_of case_host st 0 (1, 0)%nat = Some v /\
    look st v = Some [[1; 2; 3]; [4]] /\ look st2 v = Some [[9; 9; 9]; [9]].
Proof.
  eexists. eexists. eexists. split; [exact sizes_case|].
  split. { apply hist_got; [simpl; intuition congruence|]. split; [simpl; nodup|]. repeat constructor; simpl; lia. }
  split; [quiet_empty|]. split; [vm_compute; reflexivity|]. split; [vm_compute; reflexivity|].
  split; [vm_compute; reflexivity|]. split; vm_compute; reflexivity.
Qed.

(* An actor on process 2 (another host) keeps the array it was given; the driver puts, passes and lets go another one. *)
Definition kept_by_actor : list sop := [SPut 0 (0, 0)%nat result1; SSend 0 (0, 0)%nat; SRecv 2 0].
Definition driver_goes_on : list sop :=
  [SDrop 0 (0, 0)%nat; SDrop 2 (0, 0)%nat; SCleanup [(0, 0)%nat];
   SPut 0 (0, 1)%nat result2; SSend 0 (0, 1)%nat; SRecv 2 0].

Lemma actor_changes :
  exists st st2 v,
    sizes_ok case_sizes /\ history_ok (kept_by_actor ++ driver_goes_on) /\
    quiet_run case_host (store_init case_sizes) (kept_by_actor ++ driver_goes_on) /\
    srun case_host (store_init case_sizes) kept_by_actor = Some st /\
    srun case_host st driver_goes_on = Some st2 /\
    view_of case_host st 2 (0, 0)%nat = Some v /\ v_at v = 1%nat /\
    look st v = Some [[1; 2; 3]; [4]] /\ look st2 v = Some [[9; 9; 9]; [9]].
Proof.
  eexists. eexists. eexists. split; [exact sizes_case|].
  split. { split; [simpl; nodup|]. repeat constructor; simpl; lia. }
  split; [quiet_empty|]. split; [vm_compute; reflexivity|]. split; [vm_compute; reflexivity|].
  split; [vm_compute; reflexivity|]. split; [reflexivity|]. split; vm_compute; reflexivity.
Qed.

(* The reference is kept: the object is cleaned up by the worker, and another value is stored. *)
Definition reference_kept : list sop :=
  [SDrop 1 (1, 0)%nat; SCleanup [(1, 0)%nat]; SPut 1 (1, 1)%nat result2].

Lemma kept_stays :
  exists st st2 v,
    sizes_ok case_sizes /\ history_ok (got ++ reference_kept) /\
    quiet_run case_host (store_init case_sizes) (got ++ reference_kept) /\
    srun case_host (store_init case_sizes) got = Some st /\
    srun case_host st reference_kept = Some st2 /\
    view_of case_host st 0 (1, 0)%nat = Some v /\ ~ In (SDrop 0 (1, 0)%nat) reference_kept /\
    look st v = Some [[1; 2; 3]; [4]] /\ look st2 v = Some [[1; 2; 3]; [4]].
Proof.
  eexists. eexists. eexists. split; [exact sizes_case|].
  split. { apply hist_got; [simpl; intuition congruence|]. split; [simpl; nodup|]. repeat constructor; simpl; lia. }
  split; [quiet_empty|]. split; [vm_compute; reflexivity|]. split; [vm_compute; reflexivity|].
  split; [vm_compute; reflexivity|]. split; [simpl; intuition congruence|]. split; vm_compute; reflexivity.
Qed.

(* The reference is deleted but not cleaned up yet: another value is stored, another object is cleaned up. *)
Definition deleted_not_cleaned : list sop :=
  [SDrop 0 (1, 0)%nat; SDrop 1 (1, 0)%nat; SPut 1 (1, 1)%nat result2; SDrop 1 (1, 1)%nat; SCleanup [(1, 1)%nat]].

Lemma not_cleaned_stays :
  exists st st2 v,
    sizes_ok case_sizes /\ history_ok (got ++ deleted_not_cleaned) /\
    quiet_run case_host (store_init case_sizes) (got ++ deleted_not_cleaned) /\
    srun case_host (store_init case_sizes) got = Some st /\
    srun case_host st deleted_not_cleaned = Some st2 /\
    view_of case_host st 0 (1, 0)%nat = Some v /\
    not_queued st (1, 0)%nat /\ never_cleaned (1, 0)%nat deleted_not_cleaned /\
    look st v = Some [[1; 2; 3]; [4]] /\ look st2 v = Some [[1; 2; 3]; [4]].
Proof.
  eexists. eexists. eexists. split; [exact sizes_case|].
  split. { apply hist_got; [simpl; intuition congruence|]. split; [simpl; nodup|]. repeat constructor; simpl; lia. }
  split; [quiet_empty|]. split; [vm_compute; reflexivity|]. split; [vm_compute; reflexivity|].
  split; [vm_compute; reflexivity|].
  split. { intros h. vm_compute. intuition (subst; contradiction). }
  split. { intros ids H. simpl in H. repeat (destruct H as [H|H]; [try discriminate H|]); [|contradiction].
           injection H as <-. simpl. intuition congruence. }
  split; vm_compute; reflexivity.
Qed.
