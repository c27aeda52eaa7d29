(** Proofs about the monitor. *)
From Verif Require Import Lib ShmModel MonModel MonSpec.
From Coq Require Import Permutation.

Lemma rm1_perm d l : In d l -> Permutation (d :: rm1 d l) l.
Proof.
  induction l as [|x l IH]; simpl; [tauto|]. intros H.
  destruct (did_eqb x d) eqn:E; [apply did_eqb_eq in E as <-; auto|].
  destruct H as [<-|H]; [rewrite did_eqb_refl in E; discriminate|].
  rewrite perm_swap. constructor. auto.
Qed.

Lemma rm1_prefix d l i : nth_error l i = Some d -> ~ In d (firstn i l) ->
  firstn i (rm1 d l) = firstn i l /\ S (length (rm1 d l)) = length l.
Proof.
  revert i. induction l as [|x l IH]; intros [|i] H N; simpl in *; try discriminate.
  - injection H as ->. rewrite did_eqb_refl. auto.
  - destruct (did_eqb x d) eqn:E; [apply did_eqb_eq in E; tauto|]. simpl.
    destruct (IH i H) as [A B]; [tauto|]. rewrite A, B. auto.
Qed.

(** Same state but for the wait request and the log. *)
Record Rest (s s' : mst) : Prop := {
  rs_num : mnum s' = mnum s;
  rs_completed : mcompleted s' = mcompleted s;
  rs_count : mcount s' = mcount s;
  rs_mgr : mmgr s' = mmgr s;
  rs_acks : macks s' = macks s;
  rs_stopped : mstopped s' = mstopped s
}.

Definition undone (s : mst) (l : list dataid) : Prop := Forall (fun d => did_in d (mcompleted s) = false) l.
Definition alldone (s : mst) (l : list dataid) : Prop := Forall (fun d => did_in d (mcompleted s) = true) l.

Inductive Scanned (s s' : mst) : Prop :=
| ScWait : mlog s' = mlog s -> Permutation (mready s' ++ mawaited s') (mready s ++ mawaited s) ->
    undone s (mawaited s') -> alldone s (mready s') -> (Z.of_nat (length (mready s')) < mnum s)%Z ->
    Scanned s s'
| ScAnswer r nr : mlog s' = mlog s ++ [MvAnswer r nr] -> mawaited s' = [] -> mready s' = [] ->
    Permutation (r ++ nr) (mready s ++ mawaited s) -> Z.of_nat (length r) = mnum s -> alldone s r ->
    Scanned s s'.

Lemma scan_empty fuel i s : mawaited s = [] -> scan fuel i s = s.
Proof. destruct fuel; simpl; auto. intros ->. destruct i; auto. Qed.

Lemma scan_spec fuel : forall i s, length (mawaited s) - i <= fuel ->
  undone s (firstn i (mawaited s)) -> alldone s (mready s) ->
  (Z.of_nat (length (mready s)) < mnum s)%Z ->
  Rest s (scan fuel i s) /\ Scanned s (scan fuel i s).
Proof.
  induction fuel as [|fuel IH]; intros i s L U D N; simpl.
  - split; [split; auto|]. apply ScWait; auto. rewrite firstn_all2 in U; auto. lia.
  - destruct (nth_error (mawaited s) i) as [d|] eqn:E.
    2:{ apply nth_error_None in E. split; [split; auto|]. apply ScWait; auto. rewrite firstn_all2 in U; auto. }
    assert (Li : i < length (mawaited s)) by (apply nth_error_Some; congruence).
    assert (Id : In d (mawaited s)) by (apply nth_error_In in E; auto).
    destruct (did_in d (mcompleted s)) eqn:C.
    + assert (Nd : ~ In d (firstn i (mawaited s))).
      { intros X. unfold undone in U. rewrite Forall_forall in U. apply U in X. congruence. }
      destruct (rm1_prefix _ _ _ E Nd) as [P1 P2].
      assert (D' : alldone s (mready s ++ [d])) by (apply Forall_app; auto).
      assert (Pm : Permutation ((mready s ++ [d]) ++ rm1 d (mawaited s)) (mready s ++ mawaited s)).
      { rewrite <- app_assoc. apply Permutation_app_head. simpl. apply rm1_perm; auto. }
      destruct (Z.of_nat (length (mready s ++ [d])) =? mnum s)%Z eqn:Q.
      * rewrite scan_empty by reflexivity. split; [split; auto|].
        apply Z.eqb_eq in Q. eapply ScAnswer; simpl; eauto.
      * apply Z.eqb_neq in Q. rewrite app_length in Q. simpl in Q.
        destruct (IH i (set_wait s (rm1 d (mawaited s)) (mready s ++ [d]) (mnum s))) as [R S]; simpl; auto; try lia.
        { unfold undone in *. simpl. rewrite P1. auto. }
        { rewrite app_length. simpl. lia. }
        destruct R as [R1 R2 R3 R4 R5 R6]. split; [split; auto|].
        destruct S as [S1 S2 S3 S4 S5 | r nr S1 S2 S3 S4 S5 S6]; simpl in *.
        { apply ScWait; auto. rewrite S2. exact Pm. }
        { eapply ScAnswer; eauto. rewrite S4. exact Pm. }
    + apply IH; auto; [lia|]. unfold undone in *.
      assert (F : firstn (S i) (mawaited s) = firstn i (mawaited s) ++ [d]).
      { revert E. generalize (mawaited s). clear. induction i; intros [|x l] E; simpl in *; try discriminate.
        - injection E as ->. auto.
        - rewrite IHi; auto. }
      rewrite F. apply Forall_app. auto.
Qed.

Lemma process_waits_spec s : alldone s (mready s) -> (Z.of_nat (length (mready s)) < mnum s)%Z ->
  Rest s (process_waits s) /\ Scanned s (process_waits s).
Proof. intros A B. apply scan_spec; auto; [lia|]. constructor. Qed.

Lemma process_waits_idle s : mawaited s = [] -> process_waits s = s.
Proof. unfold process_waits. intros H. apply scan_empty; auto. Qed.

Section Mon.
Variable c : mcfg.

Lemma mon_run_app s a b : mon_run c s (a ++ b) =
  match mon_run c s a with Some s' => mon_run c s' b | None => None end.
Proof. revert s. induction a as [|m a IH]; intros s; simpl; auto. destruct (mon_step c s m); auto. Qed.

Lemma stop_all_stopped s : mstopped (stop_all c s) = true.
Proof. reflexivity. Qed.

Lemma answers_app a b : answers (a ++ b) = answers a ++ answers b.
Proof. apply flat_map_app. Qed.

Lemma waits_app a b : waits (a ++ b) = waits a + waits b.
Proof. unfold waits. rewrite filter_app, app_length. auto. Qed.

Lemma complete_app a b d : complete (a ++ b) d = complete a d || complete b d.
Proof. apply existsb_app. Qed.

(** No wait request is open. *)
Definition Idle (s : mst) : Prop := mawaited s = [] /\ mready s = [].

(** A wait on ds for n references is open. *)
Definition Open (ds : list dataid) (n : Z) (s : mst) : Prop :=
  mnum s = n /\ Permutation (mready s ++ mawaited s) ds /\ undone s (mawaited s) /\ alldone s (mready s) /\
  (Z.of_nat (length (mready s)) < n)%Z.

Definition Completed (ms : list mmsg) (s : mst) : Prop := forall d, did_in d (mcompleted s) = complete ms d.

Definition is_wait (m : mmsg) : Prop := match m with MWait _ _ => True | _ => False end.

(** A message that is not a wait, on an idle monitor. *)
Lemma step_idle s m s' ms : Completed ms s -> Idle s -> ~ is_wait m -> mstopped s = false ->
  mon_step c s m = Some s' -> mstopped s' = false ->
  Completed (ms ++ [m]) s' /\ Idle s' /\ answers (mlog s') = answers (mlog s).
Proof.
  intros Co [I1 I2] W St H St'. unfold mon_step in H. rewrite St in H.
  assert (E : forall e, answers (mlog s ++ [MvIn e]) = answers (mlog s)).
  { intros e. rewrite answers_app. apply app_nil_r. }
  assert (Co' : forall e, (forall a b, e <> MDone a b) -> forall d, did_in d (mcompleted s) = complete (ms ++ [e]) d).
  { intros e X d. rewrite complete_app, Co. simpl. destruct e; rewrite ?orb_false_r; auto. exfalso; eapply X; eauto. }
  destruct m; simpl in W; try tauto.
  - rewrite process_waits_idle in H by (simpl; auto). apply Some_inj in H as <-. simpl. split; [|split; [split; auto|auto]].
    intros d. rewrite complete_app. simpl. rewrite orb_false_r, <- Co.
    unfold did_in. rewrite existsb_app, orb_comm. auto.
  - apply Some_inj in H as <-. split; [intros d; simpl; apply Co'; discriminate|]. split; [split; auto|].
    simpl. rewrite answers_app, E. apply app_nil_r.
  - destruct (mgr_reserve _ _ _) as [g [[i first]|]]; [|discriminate]. apply Some_inj in H as <-.
    split; [intros x; simpl; apply Co'; discriminate|]. split; [split; auto|].
    simpl. rewrite answers_app, E. apply app_nil_r.
  - destruct (mgr_get _ _) as [i|]; [|discriminate]. apply Some_inj in H as <-.
    split; [intros x; simpl; apply Co'; discriminate|]. split; [split; auto|].
    simpl. rewrite answers_app, E. apply app_nil_r.
  - apply Some_inj in H as <-. split; [intros x; simpl; apply Co'; discriminate|]. split; [split; auto|]. simpl. auto.
  - destruct (Nat.eqb _ _); apply Some_inj in H as <-.
    + rewrite stop_all_stopped in St'. discriminate.
    + split; [intros x; simpl; apply Co'; discriminate|]. split; [split; auto|]. simpl. auto.
  - apply Some_inj in H as <-. discriminate.
Qed.

(** What a scan makes of an open request. *)
Definition After (ms : list mmsg) (ds : list dataid) (n : Z) (s s' : mst) : Prop :=
  (answers (mlog s') = answers (mlog s) /\ Open ds n s') \/
  (exists r nr, answers (mlog s') = answers (mlog s) ++ [(r, nr)] /\ Idle s' /\ Permutation (r ++ nr) ds /\
     Z.of_nat (length r) = n /\ Forall (fun d => complete ms d = true) r).

Lemma scanned_after ms ds n s0 s : Completed ms s -> mnum s = n -> Permutation (mready s ++ mawaited s) ds ->
  alldone s (mready s) -> (Z.of_nat (length (mready s)) < n)%Z -> answers (mlog s) = answers (mlog s0) ->
  Completed ms (process_waits s) /\ After ms ds n s0 (process_waits s).
Proof.
  intros Co N P D L A. subst n.
  destruct (process_waits_spec s D L) as [[R1 R2 R3 R4 R5 R6] S].
  split; [intros d; rewrite R2; apply Co|].
  destruct S as [S1 S2 S3 S4 S5 | r nr S1 S2 S3 S4 S5 S6].
  - left. split; [rewrite S1; auto|]. repeat split; auto.
    + rewrite S2; auto.
    + unfold undone. rewrite R2. auto.
    + unfold alldone. rewrite R2. auto.
  - right. exists r, nr. split; [rewrite S1, answers_app, A; auto|]. split; [split; auto|].
    split; [rewrite S4; auto|]. split; auto. eapply Forall_impl; [|exact S6].
    intros d X. rewrite <- Co. exact X.
Qed.

Lemma step_open s m s' ms ds n : Completed ms s -> Open ds n s -> ~ is_wait m -> mstopped s = false ->
  mon_step c s m = Some s' -> mstopped s' = false ->
  Completed (ms ++ [m]) s' /\ After (ms ++ [m]) ds n s s'.
Proof.
  intros Co (O1 & O2 & O3 & O4 & O5) W St H St'. unfold mon_step in H. rewrite St in H.
  assert (E : forall e, answers (mlog s ++ [MvIn e]) = answers (mlog s)).
  { intros e. rewrite answers_app. apply app_nil_r. }
  assert (Co' : forall e, (forall a b, e <> MDone a b) -> forall d, did_in d (mcompleted s) = complete (ms ++ [e]) d).
  { intros e X d. rewrite complete_app, Co. simpl. destruct e; rewrite ?orb_false_r; auto. exfalso; eapply X; eauto. }
  destruct m; simpl in W; try tauto.
  - apply Some_inj in H as <-. set (s1 := set_done _ _ _).
    assert (Co1 : Completed (ms ++ [MDone src ds0]) s1).
    { intros d. rewrite complete_app. simpl. rewrite orb_false_r, <- Co. unfold did_in. rewrite existsb_app, orb_comm. auto. }
    apply scanned_after; auto.
    + unfold alldone in *. simpl. eapply Forall_impl; [|exact O4]. intros d X. simpl.
      unfold did_in in *. rewrite existsb_app, X, orb_true_r. auto.
    + simpl. auto.
  - apply Some_inj in H as <-. split; [intros d; simpl; apply Co'; discriminate|]. left.
    split; [simpl; rewrite answers_app, E; apply app_nil_r|]. repeat split; auto.
  - destruct (mgr_reserve _ _ _) as [g [[i first]|]]; [|discriminate]. apply Some_inj in H as <-.
    split; [intros x; simpl; apply Co'; discriminate|]. left.
    split; [simpl; rewrite answers_app, E; apply app_nil_r|]. repeat split; auto.
  - destruct (mgr_get _ _) as [i|]; [|discriminate]. apply Some_inj in H as <-.
    split; [intros x; simpl; apply Co'; discriminate|]. left.
    split; [simpl; rewrite answers_app, E; apply app_nil_r|]. repeat split; auto.
  - apply Some_inj in H as <-. split; [intros x; simpl; apply Co'; discriminate|]. left. split; [simpl; auto|]. repeat split; auto.
  - destruct (Nat.eqb _ _); apply Some_inj in H as <-.
    + rewrite stop_all_stopped in St'. discriminate.
    + split; [intros x; simpl; apply Co'; discriminate|]. left. split; [simpl; auto|]. repeat split; auto.
  - apply Some_inj in H as <-. discriminate.
Qed.

Lemma step_wait s ds n s' ms : Completed ms s -> Idle s -> (1 <= n)%Z -> mstopped s = false ->
  mon_step c s (MWait ds n) = Some s' ->
  Completed (ms ++ [MWait ds n]) s' /\ After (ms ++ [MWait ds n]) ds n s s'.
Proof.
  intros Co [I1 I2] N St H. unfold mon_step in H. rewrite St in H. apply Some_inj in H as <-.
  apply scanned_after; simpl; auto; try rewrite I2; auto.
  - intros d. rewrite complete_app. simpl. rewrite orb_false_r. apply Co.
  - constructor.
  - simpl. lia.
  - rewrite answers_app. apply app_nil_r.
Qed.

Lemma stopped_step s m s' : mon_step c s m = Some s' -> mstopped s' = false -> mstopped s = false.
Proof.
  unfold mon_step. destruct (mstopped s) eqn:E; auto. intros H X. apply Some_inj in H as <-. congruence.
Qed.

Variable g : manager.

Lemma run_snoc ms m s : mon_run c (minit g) (ms ++ [m]) = Some s ->
  exists s1, mon_run c (minit g) ms = Some s1 /\ mon_step c s1 m = Some s.
Proof.
  rewrite mon_run_app. destruct (mon_run c (minit g) ms) as [s1|]; [|discriminate]. simpl. intros H.
  exists s1. split; auto. destruct (mon_step c s1 m); auto.
Qed.

Lemma orderly_prefix a b : orderly c (minit g) (a ++ b) -> orderly c (minit g) a.
Proof. intros O x ds n y E. apply (O x ds n (y ++ b)). rewrite E, <- app_assoc. auto. Qed.

Lemma run_inv ms : forall s, orderly c (minit g) ms -> mon_run c (minit g) ms = Some s -> mstopped s = false ->
  Completed ms s /\
  ((length (answers (mlog s)) = waits ms /\ Idle s) \/
   (S (length (answers (mlog s))) = waits ms /\ exists ds n, Open ds n s)).
Proof.
  induction ms as [|m ms IH] using rev_ind; intros s O H St.
  - simpl in H. apply Some_inj in H as <-. split; [intros d; auto|]. left. split; auto. split; auto.
  - destruct (run_snoc _ _ _ H) as (s1 & H1 & H2). assert (St1 := stopped_step _ _ _ H2 St).
    destruct (IH s1 (orderly_prefix _ _ O) H1 St1) as [Co C].
    rewrite waits_app.
    assert (W : is_wait m \/ ~ is_wait m) by (destruct m; simpl; tauto). destruct W as [W|W].
    + destruct m as [|ds n| | | | | |]; simpl in W; try tauto.
      destruct (O ms ds n [] eq_refl) as (N & s1' & H1' & A). rewrite H1 in H1'. apply Some_inj in H1' as <-.
      destruct C as [[_ I]|[B _]]; [|lia].
      destruct (step_wait _ _ _ _ _ Co I N St1 H2) as [Co' [[E Op]|(r & nr & E & I' & _)]]; split; auto.
      * right. split; [rewrite E, A; change (waits [MWait ds n]) with 1; lia | eauto].
      * left. split; [rewrite E, app_length, A; change (waits [MWait ds n]) with 1; reflexivity | auto].
    + assert (Z0 : waits [m] = 0) by (destruct m; simpl in *; tauto). rewrite Z0, Nat.add_0_r.
      destruct C as [[A I]|[A (ds & n & Op)]].
      * destruct (step_idle _ _ _ _ Co I W St1 H2 St) as (Co' & I' & E). split; auto. left. rewrite E. auto.
      * destruct (step_open _ _ _ _ _ _ Co Op W St1 H2 St) as [Co' [[E Op']|(r & nr & E & I' & _)]]; split; auto.
        { right. rewrite E. eauto. }
        { left. rewrite E, app_length. simpl. split; auto. lia. }
Qed.

Lemma filter_perm {A} (f : A -> bool) l l' : Permutation l l' -> Permutation (filter f l) (filter f l').
Proof.
  induction 1; simpl; auto.
  - destruct (f x); auto.
  - destruct (f x), (f y); auto. apply perm_swap.
  - eapply perm_trans; eauto.
Qed.

Lemma filter_true {A} (f : A -> bool) l : Forall (fun x => f x = true) l -> filter f l = l.
Proof. induction 1; simpl; auto. rewrite H, IHForall. auto. Qed.

Lemma filter_false {A} (f : A -> bool) l : Forall (fun x => f x = false) l -> filter f l = [].
Proof. induction 1; simpl; auto. rewrite H, IHForall. auto. Qed.

(** From the wait request on. *)
Lemma wait_inv ms1 ds n s1 : orderly c (minit g) (ms1 ++ [MWait ds n]) -> mon_run c (minit g) ms1 = Some s1 ->
  forall ms2 s, waits ms2 = 0 -> mon_run c (minit g) (ms1 ++ MWait ds n :: ms2) = Some s -> mstopped s = false ->
  Completed (ms1 ++ MWait ds n :: ms2) s /\ After (ms1 ++ MWait ds n :: ms2) ds n s1 s.
Proof.
  intros O H1. destruct (O ms1 ds n [] eq_refl) as (N & s1' & H1' & A). rewrite H1 in H1'. apply Some_inj in H1' as <-.
  induction ms2 as [|m ms2 IH] using rev_ind; intros s W H St.
  - destruct (run_snoc _ _ _ H) as (s1' & H1' & H2). rewrite H1 in H1'. apply Some_inj in H1' as <-.
    assert (St1 := stopped_step _ _ _ H2 St).
    destruct (run_inv _ _ (orderly_prefix _ _ O) H1 St1) as [Co [[_ I]|[B _]]]; [|lia].
    apply step_wait; auto.
  - assert (X : ms1 ++ MWait ds n :: ms2 ++ [m] = (ms1 ++ MWait ds n :: ms2) ++ [m])
      by (rewrite <- app_assoc; reflexivity).
    rewrite X in H |- *. rewrite waits_app in W.
    destruct (run_snoc _ _ _ H) as (s2 & H2 & H3). assert (St2 := stopped_step _ _ _ H3 St).
    destruct (IH s2) as [Co Af]; [lia | exact H2 | exact St2 |].
    assert (Wm : ~ is_wait m).
    { intros Y. destruct m; simpl in Y; try tauto. change (waits ms2 + 1 = 0) in W. lia. }
    destruct Af as [[E Op]|(r & nr & E & I & P & L & F)].
    + destruct (step_open _ _ _ _ _ _ Co Op Wm St2 H3 St) as [Co' [[E' Op']|(r & nr & E' & I' & R)]]; split; auto.
      * left. rewrite E'. auto.
      * right. exists r, nr. rewrite E', E. auto.
    + destruct (step_idle _ _ _ _ Co I Wm St2 H3 St) as (Co' & I' & E'). split; auto.
      right. exists r, nr. rewrite E'. split; [exact E|]. split; [exact I'|]. split; [exact P|]. split; [exact L|].
      eapply Forall_impl; [|exact F]. intros d Y. rewrite complete_app. simpl in Y |- *. rewrite Y. auto.
Qed.

Lemma answered_once ms1 ds n ms2 s1 s :
  orderly c (minit g) (ms1 ++ [MWait ds n]) -> waits ms2 = 0 ->
  mon_run c (minit g) ms1 = Some s1 ->
  mon_run c (minit g) (ms1 ++ MWait ds n :: ms2) = Some s -> mstopped s = false ->
  exists new, answers (mlog s) = answers (mlog s1) ++ new /\ answer_for (ms1 ++ ms2) ds n new.
Proof.
  intros O W H1 H St. destruct (wait_inv _ _ _ _ O H1 _ _ W H St) as [Co Af].
  assert (Cm : forall d, complete (ms1 ++ MWait ds n :: ms2) d = complete (ms1 ++ ms2) d).
  { intros d. rewrite !complete_app. reflexivity. }
  destruct Af as [[E Op]|(r & nr & E & I & P & L & F)].
  - exists []. rewrite app_nil_r. split; auto. unfold answer_for.
    destruct Op as (_ & Pm & U & D & Lt).
    assert (Fl : Permutation (filter (complete (ms1 ++ ms2)) ds) (mready s)).
    { rewrite <- (filter_perm _ _ _ Pm), filter_app, filter_true, filter_false, app_nil_r; auto.
      - eapply Forall_impl; [|exact U]. intros d X. rewrite <- Cm, <- Co. auto.
      - eapply Forall_impl; [|exact D]. intros d X. rewrite <- Cm, <- Co. auto. }
    rewrite (Permutation_length Fl). apply Z.ltb_lt in Lt. rewrite Lt. auto.
  - exists [(r, nr)]. split; auto. unfold answer_for.
    assert (F' : Forall (fun d => complete (ms1 ++ ms2) d = true) r).
    { eapply Forall_impl; [|exact F]. intros d X. rewrite <- Cm. auto. }
    assert (Ge : (Z.of_nat (length (filter (complete (ms1 ++ ms2)) ds)) <? n)%Z = false).
    { apply Z.ltb_ge. rewrite <- (Permutation_length (filter_perm _ _ _ P)), filter_app, (filter_true _ r), app_length by auto. lia. }
    rewrite Ge. exists r, nr. auto.
Qed.

(** The task counter. *)
Lemma mcount_dones ms : forall s, mon_run c (minit g) ms = Some s -> mstopped s = false -> mcount s = dones ms.
Proof.
  assert (Sc : forall fuel i s, mcount (scan fuel i s) = mcount s).
  { clear. induction fuel; intros i s; simpl; auto. destruct (nth_error _ _); auto.
    destruct (did_in _ _); [destruct (Z.eqb _ _)|]; rewrite IHfuel; auto. }
  induction ms as [|m ms IH] using rev_ind; intros s H St.
  - simpl in H. apply Some_inj in H as <-. auto.
  - destruct (run_snoc _ _ _ H) as (s1 & H1 & H2). assert (St1 := stopped_step _ _ _ H2 St).
    assert (E := IH s1 H1 St1). unfold dones in *. rewrite filter_app, app_length.
    unfold mon_step in H2. rewrite St1 in H2. destruct m; simpl in *.
    + apply Some_inj in H2 as <-. unfold process_waits. rewrite Sc. simpl. lia.
    + apply Some_inj in H2 as <-. unfold process_waits. rewrite Sc. simpl. lia.
    + apply Some_inj in H2 as <-. simpl. lia.
    + destruct (mgr_reserve _ _ _) as [g' [[i first]|]]; [|discriminate]. apply Some_inj in H2 as <-. simpl. lia.
    + destruct (mgr_get _ _); [|discriminate]. apply Some_inj in H2 as <-. simpl. lia.
    + apply Some_inj in H2 as <-. simpl. lia.
    + destruct (Nat.eqb _ _); apply Some_inj in H2 as <-; [discriminate|]. simpl. lia.
    + apply Some_inj in H2 as <-. discriminate.
Qed.

End Mon.
