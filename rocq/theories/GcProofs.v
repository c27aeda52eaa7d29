(** Proofs about the garbage collector. *)
From Verif Require Import Lib GcModel GcSpec.

Section Gc.
Variable self : rank.
Variables workers monitors : list rank.
Notation run := (grun self workers monitors).
Notation step := (gstep self workers monitors).

Lemma run_snoc ops o : run (ops ++ [o]) = step (run ops) o.
Proof. unfold grun. rewrite fold_left_app. reflexivity. Qed.

Lemma deaths_app a b : deaths (a ++ b) = deaths a ++ deaths b.
Proof. apply flat_map_app. Qed.

Lemma none_late_app a o : none_late (a ++ [o]) -> none_late a.
Proof. intros H n e l x y I. eapply H. apply in_or_app. left. eauto. Qed.

Lemma once ops : none_late ops -> concat (map fst (g_out (run ops))) ++ g_list (run ops) = deaths ops.
Proof.
  induction ops as [|o ops IH] using rev_ind; intros N; auto.
  rewrite run_snoc, deaths_app, <- IH by (eapply none_late_app; eauto).
  destruct o as [|d|now ex later early late].
  - simpl. rewrite app_nil_r. auto.
  - simpl. rewrite !app_assoc. auto.
  - assert (late = []) as -> by (eapply N; apply in_or_app; right; left; eauto).
    simpl. unfold regular_cleanup.
    destruct (Nat.ltb _ _); [|simpl; rewrite !app_nil_r, app_assoc; auto].
    destruct (Nat.eqb (_ mod _) 0); [|simpl; rewrite !app_nil_r, app_assoc; auto].
    destruct (_ <? _)%Z; [|simpl; rewrite !app_nil_r, app_assoc; auto].
    destruct (Nat.eqb ex _); simpl.
    + rewrite map_app, concat_app. simpl. rewrite !app_nil_r, !app_assoc. auto.
    + rewrite !app_nil_r, app_assoc. auto.
Qed.

Lemma targets ops l dst : In (l, dst) (g_out (run ops)) -> dst = cleanup_targets self workers monitors.
Proof.
  induction ops as [|o ops IH] using rev_ind; [intros []|]. rewrite run_snoc.
  destruct o as [|d|now ex later early late]; auto. simpl. unfold regular_cleanup.
  destruct (Nat.ltb _ _); auto. destruct (Nat.eqb (_ mod _) 0); auto. destruct (_ <? _)%Z; auto.
  destruct (Nat.eqb ex _); auto. simpl. intros I. apply in_app_or in I as [I|[I|[]]]; auto.
  apply pair_inj in I as [_ <-]. auto.
Qed.

Lemma to_all ops l dst : NoDup (workers ++ monitors) -> In (l, dst) (g_out (run ops)) ->
  NoDup dst /\ forall r, In r dst <-> In r (workers ++ monitors) /\ r <> self.
Proof.
  intros N I. apply targets in I as ->. unfold cleanup_targets. split; [apply NoDup_filter; auto|].
  intros r. rewrite filter_In. destruct (Nat.eqb_spec r self); simpl; intuition congruence.
Qed.

Lemma tasks_counted ops : g_tasks (run ops) = submitted ops.
Proof.
  induction ops as [|o ops IH] using rev_ind; auto. rewrite run_snoc. unfold submitted in *.
  rewrite filter_app, app_length, <- IH. destruct o; simpl; try lia.
  unfold regular_cleanup. destruct (Nat.ltb _ _); [|simpl; lia]. destruct (Nat.eqb (_ mod _) 0); [|simpl; lia].
  destruct (_ <? _)%Z; [|simpl; lia]. destruct (Nat.eqb executed _); simpl; lia.
Qed.

Lemma sent_when_equal ops now executed later early late :
  length (g_out (run (ops ++ [GCleanup now executed later early late]))) <> length (g_out (run ops)) ->
  executed = submitted ops.
Proof.
  rewrite run_snoc. simpl. unfold regular_cleanup.
  destruct (Nat.ltb _ _); [|simpl; congruence]. destruct (Nat.eqb (_ mod _) 0); [|simpl; congruence].
  destruct (_ <? _)%Z; [|simpl; congruence]. rewrite <- tasks_counted.
  destruct (Nat.eqb_spec executed (g_tasks (run ops))); simpl; congruence.
Qed.

Lemma exactly_once ops d : none_late ops -> NoDup (deaths ops) -> In d (deaths ops) ->
  count_occ did_dec (concat (map fst (g_out (run ops)))) d + count_occ did_dec (g_list (run ops)) d = 1.
Proof.
  intros L N I. rewrite <- count_occ_app, once; auto. apply NoDup_count_occ'; auto.
Qed.
End Gc.

(** Eleven references die, a task is submitted and finished, five calls; the last one sends. *)
Definition xdead (n : nat) : list gop := map (fun k => GDead (0, k)) (seq 0 n).
Definition xcalls : list gop := repeat (GCleanup 2000000 0 2000001 [] []) 4.
Definition xgc : list gop := xdead 11 ++ xcalls ++ [GTask; GCleanup 2000000 1 2000001 [(7, 7)] []; GDead (8, 8)].

Lemma xgc_run : none_late xgc /\ NoDup (deaths xgc) /\
  let g := grun 0 [2; 3; 5] [1; 4] xgc in
  g_out g = [(map (fun k => (0, k)) (seq 0 11) ++ [(7, 7)], [2; 3; 5; 1; 4])] /\ g_list g = [(8, 8)].
Proof.
  split; [|split].
  - intros n e l x y I. unfold xgc in I. repeat (apply in_app_or in I as [I|I]).
    + unfold xdead in I. apply in_map_iff in I as (k & I & _). discriminate.
    + apply repeat_spec in I. injection I as _ _ _ _ ->. auto.
    + destruct I as [I|[I|[I|[]]]]; try discriminate. injection I as _ _ _ _ ->. auto.
  - vm_compute. repeat constructor; simpl; intuition discriminate.
  - vm_compute. auto.
Qed.

(** (7,7) dies while the list is being sent: it is in no request and no longer in the list. *)
Definition xlate : list gop := xdead 11 ++ xcalls ++ [GCleanup 2000000 0 2000001 [] [(7, 7)]].

Lemma late_lost : exists ops d, In d (deaths ops) /\ NoDup (deaths ops) /\
  let g := grun 0 [2; 3] [1] ops in
  (forall l dst, In (l, dst) (g_out g) -> ~ In d l) /\ ~ In d (g_list g).
Proof.
  exists xlate, (7, 7). split; [vm_compute; tauto|]. split; [vm_compute; repeat constructor; simpl; intuition discriminate|].
  cbv zeta. split; [|vm_compute; tauto]. intros l dst I D. vm_compute in I. destruct I as [I|[]].
  injection I as <- _. simpl in D. intuition discriminate.
Qed.
