(** Proofs about the scheduler. *)
From Verif Require Import Lib SchedModel.
Require Import Permutation.

Lemma mem_In r l : mem r l = true <-> In r l.
Proof.
  unfold mem. rewrite existsb_exists. split.
  - intros (x & H & E). apply Nat.eqb_eq in E. now subst.
  - intros H. exists r. split; [assumption|apply Nat.eqb_refl].
Qed.

Lemma mem_not r l : mem r l = false <-> ~ In r l.
Proof. rewrite <- mem_In. destruct (mem r l); split; intuition congruence. Qed.

(** The ranks that may be chosen, in the order of the cycle. *)
Definition free (res : list rank) (c : list rank) : list rank :=
  filter (fun r => negb (mem r res)) c.

Lemma free_app res a b : free res (a ++ b) = free res a ++ free res b.
Proof. apply filter_app. Qed.

Lemma free_In res c r : In r (free res c) <-> In r c /\ ~ In r res.
Proof. unfold free. rewrite filter_In, negb_true_iff, mem_not. tauto. Qed.

Lemma schedule_loop_spec res : forall a b n, length a <= n ->
  free res a = [] \/ exists r r', free res a = r :: r' /\
  exists a', schedule_loop n (a ++ b) res = (Some r, a') /\ Permutation (a ++ b) a' /\
             free res a' = r' ++ free res b ++ [r].
Proof.
  induction a as [|x a IH]; intros b n Hn; [left; reflexivity|].
  simpl in Hn. destruct n as [|n]; [lia|]. simpl.
  destruct (mem x res) eqn:E; simpl.
  - destruct (IH (b ++ [x]) n ltac:(lia)) as [H|(r & r' & H & a' & Hs & Hp & Hf)].
    + left; assumption.
    + right. exists r, r'. split; [assumption|]. exists a'. split.
      * rewrite <- Hs. f_equal. now rewrite app_assoc.
      * split.
        -- rewrite <- Hp. rewrite app_assoc. apply Permutation_cons_append.
        -- rewrite Hf. rewrite free_app. simpl. rewrite E. simpl. now rewrite app_nil_r.
  - right. exists x, (free res a). split; [reflexivity|]. eexists. split; [reflexivity|]. split.
    + apply Permutation_cons_append.
    + rewrite !free_app. simpl. rewrite E. simpl. now rewrite <- app_assoc.
Qed.

Lemma schedule_loop_none res : forall n c, free res c = [] ->
  exists c', schedule_loop n c res = (None, c') /\ Permutation c c' /\ free res c' = [].
Proof.
  induction n as [|n IH]; intros c H; [exists c; simpl; auto|].
  destruct c as [|x c]; simpl; [exists []; auto|].
  simpl in H. destruct (mem x res) eqn:E; simpl in H; [|discriminate].
  destruct (IH (c ++ [x])) as (c' & H1 & H2 & H3).
  - rewrite free_app. rewrite H. simpl. rewrite E. reflexivity.
  - exists c'. split; [assumption|]. split; [|assumption].
    rewrite <- H2. apply Permutation_cons_append.
Qed.

(** One scheduling, in terms of the free ranks. *)
Lemma schedule_spec workers s : length (cyc s) <= length workers ->
  match free (reserved s) (cyc s) with
  | [] => exists c, schedule_rank workers s = (None, {| cyc := c; reserved := reserved s |}) /\
                    Permutation (cyc s) c /\ free (reserved s) c = []
  | r :: f => exists c, schedule_rank workers s = (Some r, {| cyc := c; reserved := reserved s |}) /\
                        Permutation (cyc s) c /\ free (reserved s) c = f ++ [r]
  end.
Proof.
  intros H. unfold schedule_rank.
  destruct (free (reserved s) (cyc s)) as [|r f] eqn:E.
  - destruct (schedule_loop_none (reserved s) (length workers) (cyc s) E) as (c & H1 & H2 & H3).
    rewrite H1. eauto.
  - destruct (schedule_loop_spec (reserved s) (cyc s) [] (length workers) H)
      as [H0|(r0 & r' & H0 & c & Hs & Hp & Hf)]; [congruence|].
    rewrite E in H0. injection H0 as <- <-. rewrite app_nil_r in *. rewrite Hs.
    exists c. auto.
Qed.

(** ** Invariant of a process *)
Definition SInv (workers : list rank) (self : rank) (p : proc) : Prop :=
  Permutation (cyc (sched p)) (eligible workers self) /\
  Permutation (reserved (sched p)) (handles p).

Lemma remove_first_perm r l : In r l -> Permutation l (r :: remove_first r l).
Proof.
  induction l as [|x l IH]; [intros []|]. intros H. simpl.
  destruct (Nat.eqb_spec x r) as [->|Hn]; [reflexivity|].
  destruct H as [H|H]; [congruence|]. rewrite (IH H) at 1. apply perm_swap.
Qed.

Lemma eligible_length workers self : length (eligible workers self) <= length workers.
Proof. unfold eligible. induction workers; simpl; [lia|]. destruct (negb _); simpl; lia. Qed.

Lemma sinv_len workers self p : SInv workers self p -> length (cyc (sched p)) <= length workers.
Proof. intros (H & _). rewrite (Permutation_length H). apply eligible_length. Qed.

Lemma nth_split_rm {A} (l : list A) i x : nth_error l i = Some x ->
  Permutation l (x :: firstn i l ++ skipn (S i) l).
Proof.
  revert i; induction l as [|y l IH]; intros [|i] H; simpl in *; try discriminate.
  - injection H as ->. reflexivity.
  - rewrite (IH i H) at 1. apply perm_swap.
Qed.

Lemma sinv_step workers self p o : SInv workers self p -> SInv workers self (fst (sstep workers p o)).
Proof.
  intros HI. pose proof (sinv_len _ _ _ HI) as HL. destruct HI as (Hc & Hr).
  pose proof (schedule_spec workers (sched p) HL) as HS.
  destruct o as [| |r|i]; simpl.
  - destruct (free (reserved (sched p)) (cyc (sched p))) as [|r f];
      destruct HS as (c & -> & Hp & _); simpl; split; simpl; auto; rewrite <- Hc; symmetry; exact Hp.
  - destruct (free (reserved (sched p)) (cyc (sched p))) as [|r f];
      destruct HS as (c & -> & Hp & _); simpl; split; simpl; auto; try (rewrite <- Hc; symmetry; exact Hp).
    now rewrite Hr.
  - split; simpl; auto. now rewrite Hr.
  - destruct (nth_error (handles p) i) as [r|] eqn:E; simpl; split; simpl; auto.
    pose proof (nth_split_rm _ _ _ E) as Hs.
    assert (Hin : In r (reserved (sched p))).
    { eapply Permutation_in; [symmetry; exact Hr|]. eapply nth_error_In; eauto. }
    apply (Permutation_cons_inv (a := r)). rewrite <- (remove_first_perm r _ Hin).
    rewrite Hr. exact Hs.
Qed.

Lemma sinv_run workers self : forall ops p, SInv workers self p ->
  SInv workers self (fst (srun workers p ops)).
Proof.
  induction ops as [|o ops IH]; intros p H; simpl; [exact H|].
  pose proof (sinv_step workers self p o H) as H1.
  destruct (sstep workers p o) as [p1 e]. simpl in H1.
  specialize (IH p1 H1). destruct (srun workers p1 ops) as [p2 es]. exact IH.
Qed.

Lemma sinv_init workers self : SInv workers self (proc_init workers self).
Proof. split; reflexivity. Qed.

Definition after (workers : list rank) (self : rank) (ops : list sop) : proc :=
  fst (srun workers (proc_init workers self) ops).

Lemma after_inv workers self ops : SInv workers self (after workers self ops).
Proof. apply sinv_run, sinv_init. Qed.

Lemma eligible_In workers self r : In r (eligible workers self) <-> In r workers /\ r <> self.
Proof.
  unfold eligible. rewrite filter_In, negb_true_iff, Nat.eqb_neq. tauto.
Qed.

Lemma sched_event workers self p o r : SInv workers self p -> (o = OSubmit \/ o = OActor) ->
  snd (sstep workers p o) = EScheduled r -> In r workers /\ r <> self /\ ~ In r (handles p).
Proof.
  intros HI Ho He. pose proof (schedule_spec workers (sched p) (sinv_len _ _ _ HI)) as HS.
  destruct HI as (Hc & Hr).
  destruct (free (reserved (sched p)) (cyc (sched p))) as [|x f] eqn:E.
  - destruct HS as (c & HS & _). exfalso. destruct Ho as [->| ->]; simpl in He; rewrite HS in He; discriminate.
  - assert (Hx : x = r).
    { destruct HS as (c & HS & _).
      destruct Ho as [->| ->]; simpl in He; rewrite HS in He; simpl in He; congruence. }
    subst x.
    assert (Hin : In r (free (reserved (sched p)) (cyc (sched p)))) by (rewrite E; left; auto).
    apply free_In in Hin. destruct Hin as (H1 & H2).
    apply (Permutation_in _ Hc), eligible_In in H1. destruct H1 as (H1 & H3).
    repeat split; auto. intros H. apply H2. eapply Permutation_in; [symmetry; exact Hr|exact H].
Qed.

Lemma sched_fails workers self p o : SInv workers self p -> (o = OSubmit \/ o = OActor) ->
  (snd (sstep workers p o) = EFailed <-> forall r, In r workers -> r <> self -> In r (handles p)).
Proof.
  intros HI Ho. pose proof (schedule_spec workers (sched p) (sinv_len _ _ _ HI)) as HS.
  destruct HI as (Hc & Hr).
  destruct (free (reserved (sched p)) (cyc (sched p))) as [|x f] eqn:E.
  - destruct HS as (c & HS & _). split.
    + intros _ r H1 H2. destruct (in_dec Nat.eq_dec r (handles p)) as [H|H]; [exact H|exfalso].
      assert (Hin : In r (free (reserved (sched p)) (cyc (sched p)))).
      { apply free_In. split.
        - eapply Permutation_in; [symmetry; exact Hc|]. apply eligible_In; auto.
        - intros Hx. apply H. eapply Permutation_in; [exact Hr|exact Hx]. }
      rewrite E in Hin. destruct Hin.
    + intros _. destruct Ho as [->| ->]; simpl; rewrite HS; reflexivity.
  - destruct HS as (c & HS & _). split.
    + intros He. exfalso. destruct Ho as [->| ->]; simpl in He; rewrite HS in He; discriminate.
    + intros Hall. exfalso.
      assert (Hin : In x (free (reserved (sched p)) (cyc (sched p)))) by (rewrite E; left; auto).
      apply free_In in Hin. destruct Hin as (H1 & H2). apply H2.
      apply (Permutation_in _ Hc), eligible_In in H1. destruct H1 as (H1 & H3).
      eapply Permutation_in; [symmetry; exact Hr|]. apply Hall; auto.
Qed.

(** ** Fairness *)
Fixpoint take (k : nat) (c : list rank) : list rank :=
  match k, c with
  | S k', x :: r => x :: take k' (r ++ [x])
  | _, _ => []
  end.

Lemma submits_take workers self : forall k p, SInv workers self p ->
  let f := free (reserved (sched p)) (cyc (sched p)) in
  f <> [] ->
  snd (srun workers p (repeat OSubmit k)) = map EScheduled (take k f).
Proof.
  induction k as [|k IH]; intros p HI f Hf; [reflexivity|].
  pose proof (schedule_spec workers (sched p) (sinv_len _ _ _ HI)) as HS. fold f in HS.
  pose proof (sinv_step workers self p OSubmit HI) as HI1.
  destruct f as [|r f'] eqn:E; [congruence|].
  destruct HS as (c & HS & Hp & Hfr).
  simpl repeat. simpl. simpl in HI1. rewrite HS in *. simpl in HI1.
  specialize (IH _ HI1). simpl in IH. rewrite Hfr in IH.
  destruct (srun workers _ (repeat OSubmit k)) as [p2 es]. simpl in *.
  f_equal. apply IH. destruct f'; discriminate.
Qed.

Lemma take_length : forall k c, c <> [] -> length (take k c) = k.
Proof.
  induction k as [|k IH]; intros c H; [destruct c; reflexivity|].
  destruct c as [|x c]; [congruence|]. simpl. rewrite IH; [reflexivity|]. destruct c; discriminate.
Qed.

Lemma take_prefix : forall a b k, take (length a + k) (a ++ b) = a ++ take k (b ++ a).
Proof.
  induction a as [|x a IH]; intros b k; simpl; [now rewrite app_nil_r|].
  f_equal. rewrite <- app_assoc, IH, <- app_assoc. reflexivity.
Qed.

Lemma take_round c k : take (length c + k) c = c ++ take k c.
Proof. pose proof (take_prefix c [] k) as H. rewrite app_nil_r in H. simpl in H. exact H. Qed.

Lemma take_short k c : k <= length c -> take k c = firstn k c.
Proof.
  intros H. rewrite <- (firstn_skipn k c) at 1.
  replace k with (length (firstn k c) + 0) at 1 by (rewrite firstn_length; lia).
  rewrite take_prefix. destruct (skipn k c ++ firstn k c); simpl; now rewrite app_nil_r.
Qed.

Definition occ (x : rank) (l : list rank) : nat := count_occ Nat.eq_dec l x.

Lemma occ_app x a b : occ x (a ++ b) = occ x a + occ x b.
Proof. apply count_occ_app. Qed.

Lemma occ_nodup x l : NoDup l -> In x l -> occ x l = 1.
Proof. intros. now apply NoDup_count_occ'. Qed.

Lemma take_occ x c : NoDup c -> In x c -> forall q k, k < length c ->
  q <= occ x (take (q * length c + k) c) <= q + 1.
Proof.
  intros Hn Hx. induction q as [|q IH]; intros k Hk.
  - simpl. rewrite take_short by lia. split; [lia|].
    assert (Hs : occ x c = 1) by (apply occ_nodup; auto).
    rewrite <- (firstn_skipn k c), occ_app in Hs. lia.
  - replace (S q * length c + k) with (length c + (q * length c + k)) by lia.
    rewrite take_round, occ_app, (occ_nodup x c Hn Hx). specialize (IH k Hk). lia.
Qed.

Lemma take_fair x y c k : NoDup c -> In x c -> In y c ->
  occ x (take k c) <= occ y (take k c) + 1.
Proof.
  intros Hn Hx Hy.
  assert (Hl : length c <> 0) by (destruct c; [destruct Hx|discriminate]).
  pose proof (Nat.div_mod k (length c) Hl) as E.
  pose proof (Nat.mod_upper_bound k (length c) Hl) as Hb.
  rewrite E. replace (length c * (k / length c)) with (k / length c * length c) by lia.
  pose proof (take_occ x c Hn Hx (k / length c) (k mod length c) Hb).
  pose proof (take_occ y c Hn Hy (k / length c) (k mod length c) Hb). lia.
Qed.

Lemma free_nodup workers self p : NoDup workers -> SInv workers self p ->
  NoDup (free (reserved (sched p)) (cyc (sched p))).
Proof.
  intros Hn (Hc & _). apply NoDup_filter. apply (Permutation_NoDup (Permutation_sym Hc)).
  apply NoDup_filter. exact Hn.
Qed.

Lemma free_perm workers self p : NoDup workers -> SInv workers self p ->
  forall r, In r (free (reserved (sched p)) (cyc (sched p))) <->
            In r workers /\ r <> self /\ ~ In r (handles p).
Proof.
  intros Hn (Hc & Hr) r. rewrite free_In. split.
  - intros (H1 & H2). apply (Permutation_in _ Hc), eligible_In in H1.
    repeat split; try tauto. intros H. apply H2. eapply Permutation_in; [symmetry; exact Hr|exact H].
  - intros (H1 & H2 & H3). split.
    + eapply Permutation_in; [symmetry; exact Hc|]. apply eligible_In; auto.
    + intros H. apply H3. eapply Permutation_in; [exact Hr|exact H].
Qed.

Lemma round_uses_all workers self ops l : NoDup workers ->
  NoDup l -> (forall r, In r l <-> In r workers /\ r <> self /\ ~ In r (handles (after workers self ops))) ->
  l <> [] ->
  exists l', snd (srun workers (after workers self ops) (repeat OSubmit (length l)))
             = map EScheduled l' /\ Permutation l' l.
Proof.
  intros Hn Hl Hall Hne. pose proof (after_inv workers self ops) as HI.
  set (p := after workers self ops) in *.
  set (f := free (reserved (sched p)) (cyc (sched p))).
  assert (Hp : Permutation f l).
  { apply NoDup_Permutation; auto.
    - exact (free_nodup workers self p Hn HI).
    - intros r. unfold f. rewrite (free_perm workers self p Hn HI). symmetry. apply Hall. }
  assert (Hf : f <> []).
  { intros E. rewrite E in Hp. apply Permutation_nil in Hp. congruence. }
  exists (take (length l) f). split.
  - apply (submits_take workers self (length l) p HI Hf).
  - rewrite <- (Permutation_length Hp), take_short by lia. rewrite firstn_all. exact Hp.
Qed.

Definition events_of (r : rank) (es : list sevent) : nat :=
  length (filter (fun e => match e with EScheduled x => Nat.eqb x r | _ => false end) es).

Lemma events_occ r l : events_of r (map EScheduled l) = occ r l.
Proof.
  unfold events_of, occ. induction l as [|x l IH]; [reflexivity|]. simpl.
  destruct (Nat.eqb_spec x r), (Nat.eq_dec x r); simpl; congruence.
Qed.

Lemma stretch_fair workers self ops k x y : NoDup workers ->
  In x workers -> x <> self -> ~ In x (handles (after workers self ops)) ->
  In y workers -> y <> self -> ~ In y (handles (after workers self ops)) ->
  let es := snd (srun workers (after workers self ops) (repeat OSubmit k)) in
  events_of x es <= events_of y es + 1.
Proof.
  intros Hn X1 X2 X3 Y1 Y2 Y3 es. pose proof (after_inv workers self ops) as HI.
  set (p := after workers self ops) in *.
  set (f := free (reserved (sched p)) (cyc (sched p))).
  assert (Hx : In x f) by (apply (free_perm workers self p Hn HI); auto).
  assert (Hy : In y f) by (apply (free_perm workers self p Hn HI); auto).
  assert (Hf : f <> []) by (intros E; rewrite E in Hx; destruct Hx).
  unfold es. rewrite (submits_take workers self k p HI Hf), !events_occ.
  apply take_fair; auto. exact (free_nodup workers self p Hn HI).
Qed.
