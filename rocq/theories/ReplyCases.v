(** Requests of workers: wait never returns there; concrete histories. *)
From Verif Require Import Lib ShmModel MonModel MonSpec MonProofs ReplyModel ReplySpec ReplyProofs.
From Coq Require Import Permutation.

Definition small (a : reply) : Prop := match a with PCount _ | PReserve _ _ => True | _ => False end.

Lemma worker_kinds c mgr ops : let s := qrun c mgr ops in
  forall p, p <> 0 -> (forall a, In a (q_out s p) -> small a) /\ (forall r a, In (p, r, a) (q_seen s) -> small a).
Proof.
  induction ops as [|o ops IH] using rev_ind; intros s p N; [split; cbn; tauto|].
  unfold s, qrun. rewrite fold_left_app. cbn [fold_left]. fold (qrun c mgr ops). destruct (IH p N) as [A B]. clear IH s.
  set (s := qrun c mgr ops) in *. clearbody s. destruct o as [q r|q m|q|q]; cbn [qstep].
  - destruct (q_busy s q); auto.
  - destruct (q_busy s q); auto. destruct (may_tell s m); auto.
  - destruct (q_mon s) as [m|]; auto. destruct (q_in s q) as [|x rest]; auto. destruct (mstopped m); auto.
    destruct (mon_step c m x) as [m'|]; auto. cbn [q_out q_seen]. split; [|exact B].
    intros a Ha. unfold deliver in Ha. apply in_app_or in Ha as [Ha|Ha]; [exact (A a Ha)|].
    apply in_map_iff in Ha as ([z a'] & E & Ha). cbn in E. subst a'. apply filter_In in Ha as [Ha E]. cbn in E. apply Nat.eqb_eq in E as ->.
    apply in_flat_map in Ha as (e & _ & Ha). destruct e; cbn in Ha; try contradiction; destruct Ha as [Ha|[]]; injection Ha; intros; subst; cbn; auto; congruence.
  - destruct (q_busy s q) as [r|]; auto. destruct (q_out s q) as [|a rest] eqn:O; auto. cbn [q_out q_seen]. split.
    + intros a' Ha. unfold qset in Ha. destruct (Nat.eqb p q) eqn:E; [|exact (A a' Ha)]. apply Nat.eqb_eq in E as ->.
      apply A. rewrite O. right. exact Ha.
    + intros r' a' Hs. apply in_app_or in Hs as [Hs|[Hs|[]]]; [exact (B r' a' Hs)|]. injection Hs as <- <- <-. apply A. rewrite O. left. reflexivity.
Qed.

Lemma worker_wait c mgr ops p ds n a : p <> 0 -> ~ In (p, RWait ds n, a) (q_seen (qrun c mgr ops)).
Proof.
  intros N H. destruct (worker_kinds c mgr ops p N) as [_ B]. specialize (B _ _ H).
  destruct (worker_answers c mgr ops) as (l & _ & A). specialize (A _ _ _ N H). destruct a; cbn in A, B; contradiction.
Qed.

Definition rc : mcfg := {| c_self := 1; c_workers := [2; 3]; c_monitors := [1] |}.
Definition rg : manager := manager_init 100 40.
Definition d1 : dataid := (0, 1).
Definition d2 : dataid := (0, 2).

(** The root waits, a worker shares a value and asks for the number of finished tasks; then the session ends. *)
Definition rops : list qop :=
  [QAsk 0 (RWait [d1; d2] 1); QAsk 2 (RReserve d2 30); QMon 2; QMon 0; QTake 2; QTell 2 (MDone 2 [d2]); QAsk 2 RCount; QMon 2;
   QMon 2; QTake 0; QAsk 0 (RWait [d1] 1); QTake 2; QTell 3 (MDone 3 [d1]); QMon 3; QMon 0; QTake 0; QAsk 0 ROver;
   QTell 3 (MAck 3); QTell 2 (MAck 2); QMon 2; QMon 3; QTake 0].

Lemma rops_ok : Forall root_only rops.
Proof. repeat constructor; cbn; auto; lia. Qed.

Lemma c72_case : Forall root_only rops /\
  q_seen (qrun rc rg rops) =
  [(2, RReserve d2 30, PReserve {| first_index := 0; last_index := 30; service_index := 0 |} true);
   (0, RWait [d1; d2] 1, PWait [d2] [d1]); (2, RCount, PCount 1); (0, RWait [d1] 1, PWait [d1] []); (0, ROver, POver)].
Proof. split; [exact rops_ok|vm_compute; reflexivity]. Qed.

Lemma c72_hand_case : Forall root_only (firstn 4 rops) /\
  (exists m, serving (qrun rc rg (firstn 4 rops)) m) /\ q_busy (qrun rc rg (firstn 4 rops)) 0 = Some (RWait [d1; d2] 1) /\
  q_busy (qrun rc rg (firstn 4 rops)) 2 = Some (RReserve d2 30).
Proof.
  split; [repeat constructor; cbn; auto; lia|].
  split; [eexists; split; [vm_compute; reflexivity|reflexivity]|]. split; vm_compute; reflexivity.
Qed.

(** A worker waits for a reference that is complete; the root asks for the number of finished tasks. *)
Lemma c72_mixed : exists ops, In (QAsk 2 (RWait [d1] 1)) ops /\
  q_seen (qrun rc rg ops) = [(0, RCount, PWait [d1] [])] /\
  q_busy (qrun rc rg ops) 2 = Some (RWait [d1] 1) /\ q_in (qrun rc rg ops) 2 = [] /\ q_out (qrun rc rg ops) 2 = [].
Proof.
  exists [QTell 3 (MDone 3 [d1]); QMon 3; QAsk 2 (RWait [d1] 1); QMon 2; QAsk 0 RCount; QTake 0].
  split; [cbn; auto|]. repeat split; vm_compute; reflexivity.
Qed.

(** The same at the end of the session: shutdown raises ValueError. *)
Lemma c72_shutdown : exists ops, In (0, ROver, PWait [d1] []) (q_seen (qrun rc rg ops)).
Proof.
  exists [QTell 3 (MDone 3 [d1]); QMon 3; QAsk 2 (RWait [d1] 1); QMon 2; QAsk 0 ROver; QTake 0]. vm_compute. auto.
Qed.

(** A worker's wait replaces the root's: the root's reference is complete and its wait is nowhere. *)
Lemma c72_replaced : exists ops m, let s := qrun rc rg ops in
  serving s m /\ q_busy s 0 = Some (RWait [d1] 1) /\ did_in d1 (mcompleted m) = true /\ ~ in_hand s m 0 (RWait [d1] 1).
Proof.
  exists [QAsk 0 (RWait [d1] 1); QMon 0; QAsk 2 (RWait [d2] 1); QMon 2; QTell 3 (MDone 3 [d1]); QMon 3].
  eexists. cbn zeta. split; [split; [vm_compute; reflexivity|reflexivity]|]. split; [vm_compute; reflexivity|]. split; [reflexivity|].
  intros [(b & H)|[(a & H)|(ds & n & H & L)]].
  - vm_compute in H. destruct b; discriminate.
  - vm_compute in H. discriminate.
  - injection H as <- <-. vm_compute in L. discriminate.
Qed.
