(** Concrete clusters. *)
From Verif Require Import Lib Dict TopoModel.

Lemma nine : let place := [0; 1; 2; 0; 1; 2; 0; 1; 2] in
  (forall k, In k place -> 2 <= count_occ Nat.eq_dec place k) /\
  monitor_processes place (fun k => k + 5) true = Some [3; 4; 5] /\
  workers place (fun k => k + 5) [3; 4; 5] = [6; 1; 7; 2; 8] /\
  get_monitor place (fun k => k + 5) true 8 = Some 5 /\
  cluster_resources place (fun k => k + 5) [3; 4; 5] = [(5, 1); (6, 2); (7, 2)].
Proof.
  split; [|repeat split; reflexivity].
  intros k H. simpl in H. repeat destruct H as [<-|H]; try contradiction; vm_compute; auto.
Qed.

Lemma same_address : exists place addr monitors r,
  (forall k, In k place -> 2 <= count_occ Nat.eq_dec place k) /\
  monitor_processes place addr true = Some monitors /\ r < length place /\
  r <> 0 /\ ~ In r monitors /\ ~ In r (workers place addr monitors).
Proof.
  exists [0; 0; 0; 1; 1; 1], (fun _ => 7), [4], 1. split.
  { intros k H. simpl in H. repeat destruct H as [<-|H]; try contradiction; vm_compute; auto. }
  split; [reflexivity|]. split; [simpl; lia|]. split; [lia|]. split; vm_compute; intuition lia.
Qed.

Lemma dask_loses : exists ip workers, ip <> LOCALHOST /\
  list_sum (map snd (dask_resources ip workers)) < list_sum (map snd workers).
Proof. exists 9, [(0, 4); (9, 2)]. split; [discriminate | vm_compute; lia]. Qed.

Lemma ray_loses : exists nodes h c1 c2, nodes = [(h, Some c1); (h, Some c2)] /\
  list_sum (map snd (ray_resources nodes)) < c1 + c2.
Proof. exists [(3, Some 4); (3, Some 2)], 3, 4, 2. split; [reflexivity | vm_compute; lia]. Qed.
