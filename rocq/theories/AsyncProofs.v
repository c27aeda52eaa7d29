From Verif Require Import Lib CommModel AsyncModel AsyncSpec.

Lemma flying_In : forall st h, flying st h = true <-> exists m, In (h, m) (a_fly st).
Proof.
  intros. unfold flying. rewrite existsb_exists. split.
  - intros [[h' m] [I E]]. apply Nat.eqb_eq in E. simpl in E. subst. eauto.
  - intros [m I]. exists (h, m). split; auto. apply Nat.eqb_refl.
Qed.

(** Every send in flight has its request kept, with data satisfying [R]. *)
Definition Inv (R : option nat -> memory -> Prop) (st : ast) : Prop :=
  forall h m, In (h, m) (a_fly st) -> exists o, In (h, o) (a_kept st) /\ R o m.

Lemma start_inv : forall R l st, Inv R st -> Forall (fun s => R (snd s) (fst s)) l -> Inv R (start st l).
Proof.
  intros R l. induction l as [|[m o] r IH]; intros st I F; simpl; auto.
  inversion F as [|? ? Hr F']. subst. apply IH; auto.
  intros h m' J. simpl in *. apply in_app_or in J. destruct J as [J|J].
  - destruct (I _ _ J) as (o' & K & HR). exists o'. split; auto. apply in_or_app. auto.
  - destruct J as [E|[]]. apply pair_inj in E as [<- <-]. exists o. split; auto. apply in_or_app. simpl. auto.
Qed.

Lemma complete_sub : forall st h x, In x (a_fly (complete st h)) -> In x (a_fly st).
Proof. intros st h x J. simpl in J. apply filter_In in J. tauto. Qed.

Lemma waits_kept : forall l st, a_kept (fold_left complete l st) = a_kept st.
Proof. induction l; intros; simpl; auto. rewrite IHl. auto. Qed.

Lemma waits_fly : forall l st h m, In (h, m) (a_fly (fold_left complete l st)) ->
  In (h, m) (a_fly st) /\ ~ In h l.
Proof.
  induction l as [|x l IH]; intros st h m J; simpl in *; auto.
  apply IH in J. destruct J as [J N]. simpl in J. apply filter_In in J. destruct J as [J E].
  split; auto. intros [->|K]; auto. simpl in E. rewrite Nat.eqb_refl in E. discriminate.
Qed.

Lemma finish_empty : forall R st, Inv R st -> a_kept (finish st) = [] /\ a_fly (finish st) = [].
Proof.
  intros R st I. split; auto. unfold finish. cbn [a_fly].
  destruct (a_fly (fold_left complete (map fst (a_kept st)) st)) as [|[h m] r] eqn:E; auto.
  assert (J : In (h, m) (a_fly (fold_left complete (map fst (a_kept st)) st))) by (rewrite E; simpl; auto).
  apply waits_fly in J. destruct J as [J N]. destruct (I _ _ J) as (o & K & _).
  destruct N. apply in_map_iff. exists (h, o). auto.
Qed.

Definition sends (block : nat) (o : aop) : list send :=
  match o with
  | SendSimple op o => isend_simple_operation op o
  | SendComplex s raw => isend_complex_operation s raw
  | SendSerialized op o n => isend_serialized_operation block op o n
  | _ => []
  end.

Lemma step_inv : forall R block st o, Inv R st -> Forall (fun s => R (snd s) (fst s)) (sends block o) ->
  Inv R (astep block st o).
Proof.
  intros R block st o I F.
  destruct o; simpl in F; cbn [astep]; try (apply start_inv; auto).
  - intros h' m J. apply complete_sub in J. apply I. auto.
  - intros h m J. destruct (I _ _ J) as (o & K & HR). exists o. split; auto. simpl.
    apply filter_In. split; auto. simpl. rewrite negb_involutive. apply flying_In. eauto.
  - intros h m J. rewrite (proj2 (finish_empty _ _ I)) in J. destruct J.
Qed.

Lemma run_inv : forall R block ops,
  (forall o, In o ops -> Forall (fun s => R (snd s) (fst s)) (sends block o)) -> Inv R (arun block ops).
Proof.
  intros R block ops. unfold arun.
  assert (G : forall st, Inv R st -> (forall o, In o ops -> Forall (fun s => R (snd s) (fst s)) (sends block o)) ->
    Inv R (fold_left (astep block) ops st)).
  { induction ops as [|o r IH]; intros st I F; simpl; auto.
    apply IH; auto. - apply step_inv; auto. apply F. simpl; auto. - intros. apply F. simpl; auto. }
  intros F. apply G; auto. intros h m [].
Qed.

Lemma request_kept : forall block ops h m, In (h, m) (a_fly (arun block ops)) ->
  exists o, In (h, o) (a_kept (arun block ops)).
Proof.
  intros block ops h m J.
  assert (I : Inv (fun _ _ => True) (arun block ops)).
  { apply run_inv. intros. apply Forall_forall. auto. }
  destruct (I _ _ J) as (o & K & _). eauto.
Qed.

Lemma one_interval : forall n block, n <= block -> 0 < n -> intervals (partitions n block) = [(0, n)].
Proof.
  intros n block L P. unfold partitions. destruct n as [|n]; [lia|]. cbn [range_from].
  change (0 <? S n) with true. cbn match. destruct n; simpl; auto.
  replace (block <? S (S n)) with false; auto. symmetry. apply Nat.ltb_ge. lia.
Qed.

Lemma sends_hold : forall block o, (forall op b n, o = SendSerialized op b n -> n <= block) ->
  Forall (fun s => holds (snd s) (fst s)) (sends block o).
Proof.
  intros block o L. destruct o; simpl; try (repeat constructor; fail).
  - repeat constructor. apply Forall_forall. intros x I. apply in_map_iff in I. destruct I as (b & <- & _).
    reflexivity.
  - repeat constructor. specialize (L _ _ _ eq_refl).
    destruct n as [|n]; [constructor|]. rewrite one_interval; [|auto|lia]. simpl.
    repeat constructor. unfold slice_of. simpl. rewrite Nat.eqb_refl. reflexivity.
Qed.

Lemma buffer_kept : forall block ops h m, one_block block ops -> In (h, m) (a_fly (arun block ops)) ->
  exists o, In (h, o) (a_kept (arun block ops)) /\ holds o m.
Proof.
  intros block ops h m O J. revert h m J. change (Inv holds (arun block ops)). apply run_inv.
  intros o I. apply sends_hold. intros. subst. eapply O; eauto.
Qed.

Lemma check_releases : forall block ops h o, In (h, o) (a_kept (arun block (ops ++ [Check]))) ->
  exists m, In (h, m) (a_fly (arun block ops)).
Proof.
  intros block ops h o J. unfold arun in J. rewrite fold_left_app in J. simpl in J.
  apply filter_In in J. destruct J as [_ E]. simpl in E. rewrite negb_involutive in E.
  apply flying_In in E. auto.
Qed.

Lemma check_keeps : forall block ops h o, In (h, o) (a_kept (arun block ops)) ->
  (exists m, In (h, m) (a_fly (arun block ops))) -> In (h, o) (a_kept (arun block (ops ++ [Check]))).
Proof.
  intros block ops h o J K. unfold arun. rewrite fold_left_app. simpl. apply filter_In. split; auto.
  simpl. rewrite negb_involutive. apply flying_In. auto.
Qed.

Lemma finish_releases : forall block ops,
  a_kept (arun block (ops ++ [Finish])) = [] /\ a_fly (arun block (ops ++ [Finish])) = [].
Proof.
  intros block ops. unfold arun. rewrite fold_left_app. simpl.
  apply finish_empty with (R := fun _ _ => True). apply run_inv. intros. apply Forall_forall. auto.
Qed.

Lemma start_fly : forall l st, map snd (a_fly (start st l)) = map snd (a_fly st) ++ map fst l.
Proof.
  induction l as [|[m o] r IH]; intros; simpl.
  - rewrite app_nil_r. auto.
  - rewrite IH. simpl. rewrite map_app. simpl. rewrite <- app_assoc. auto.
Qed.

Lemma buffers_sent : forall block ops o b, one_block block (ops ++ [o]) -> In b (buffers o) ->
  exists h, In (h, Whole b) (a_fly (arun block (ops ++ [o]))).
Proof.
  intros block ops o b O I.
  assert (S : In (Whole b) (map snd (a_fly (arun block (ops ++ [o]))))).
  { unfold arun. rewrite fold_left_app. destruct o; simpl in I; try (destruct I; fail); cbn [fold_left astep].
    - rewrite start_fly. apply in_or_app. right. simpl. destruct I as [->|I]; auto.
      right. right. right. rewrite map_map. simpl. apply in_map_iff. eauto.
    - destruct (n =? 0) eqn:E; [destruct I|]. apply Nat.eqb_neq in E. destruct I as [->|[]].
      rewrite start_fly. apply in_or_app. right. simpl. right. right.
      rewrite one_interval; [|eapply O; apply in_or_app; simpl; eauto|lia]. simpl. left.
      unfold slice_of. simpl. rewrite Nat.eqb_refl. auto. }
  apply in_map_iff in S. destruct S as ([h m] & E & J). simpl in E. subst. eauto.
Qed.

(** Two blocks: the copies that are sent are not the object that is kept. *)
Lemma blocks_not_kept : exists block ops h m,
  In (h, m) (a_fly (arun block ops)) /\ m <> Pickled /\
  forall o, In (h, o) (a_kept (arun block ops)) -> ~ holds o m.
Proof.
  exists 4, [SendSerialized 1 7 6], 2, (Copy 7 0 4). split; [|split].
  - vm_compute. auto.
  - discriminate.
  - intros o _ [].
Qed.

Definition xas : list aop :=
  [SendSimple 1 10; SendComplex 20 [21; 22]; Completed 3; SendSerialized 2 30 4; Check; Completed 5; Completed 0].

Lemma xas_run : one_block 4 xas /\
  a_fly (arun 4 xas) = [(1, Pickled); (2, Pickled); (4, Whole 20); (6, Whole 22); (7, Pickled); (8, Pickled); (9, Whole 30)] /\
  a_kept (arun 4 xas) = [(0, Some 1); (1, Some 10); (2, None); (4, Some 20); (5, Some 21); (6, Some 22); (7, Some 2);
                         (8, None); (9, Some 30)].
Proof.
  split; [|split; vm_compute; reflexivity].
  intros op o n H. simpl in H. repeat destruct H as [H|H]; try discriminate; try contradiction.
  inversion H. lia.
Qed.
