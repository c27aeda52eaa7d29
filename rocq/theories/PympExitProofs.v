(** Proofs about worker processes that end (C93). *)
From Verif Require Import Lib ValModel PyseqModel PyseqSpec PympModel PympSpec PympProofs PympDirect PympExitModel PympExitSpec.

Section Exit.
Variable nw : nat.
Hypothesis pos : 0 < nw.
Variable body cbody : nat -> list val -> kwargs -> res.
Variable mbody : nat -> val -> list val -> kwargs -> res * val.
Variable item : val -> nat -> option val.
Variable iterable callable bytes : val -> bool.
Variable dumps : val -> val.
Variable loads : val -> res.
Variable storable : val -> bool.
Variable exits : nat -> list val -> kwargs -> bool.

Notation pstep := (pstep nw body cbody mbody item iterable callable bytes dumps loads storable).
Notation prun := (prun nw body cbody mbody item iterable callable bytes dumps loads storable).
Notation work := (work body mbody item iterable bytes loads storable).
Notation ystep := (ystep nw body cbody mbody item iterable callable bytes dumps loads storable exits).
Notation yrun := (yrun nw body cbody mbody item iterable callable bytes dumps loads storable exits).

(** ** Runs with exits are runs without the turns of those that are gone *)

Definition add {A} (e : option A) (h : list A) : list A := match e with Some x => x :: h | None => h end.

Lemma prun_snoc ops o st h : prun st h (ops ++ [o]) =
  let (st1, h1) := prun st h ops in let (st2, e) := pstep st1 o in (st2, add e h1).
Proof.
  revert st h. induction ops as [|x r IH]; intros st h; cbn [app PympModel.prun].
  - destruct (pstep st o) as [st' [e|]]; reflexivity.
  - destruct (pstep st x) as [st' [e|]]; apply IH.
Qed.

Lemma yrun_snoc ops o y h : yrun y h (ops ++ [o]) =
  let (y1, h1) := yrun y h ops in let (y2, e) := ystep y1 o in (y2, add e h1).
Proof.
  revert y h. induction ops as [|x r IH]; intros y h; cbn [app PympExitModel.yrun].
  - destruct (ystep y o) as [y' [e|]]; reflexivity.
  - destruct (ystep y x) as [y' [e|]]; apply IH.
Qed.

Lemma yrun_app a : forall b y h, yrun y h (a ++ b) = let (y1, h1) := yrun y h a in yrun y1 h1 b.
Proof.
  induction a as [|o a IH]; intros b y h; cbn [app PympExitModel.yrun]; auto.
  destruct (ystep y o) as [y' [e|]]; apply IH.
Qed.

Lemma step_cases y o : (y_p (fst (ystep y o)) = y_p y /\ snd (ystep y o) = None /\ forall a, o <> PDel a) \/
  (exists st e, pstep (y_p y) o = (st, e) /\ ystep y o = ({| y_p := st; y_gone := y_gone y |}, e)).
Proof.
  unfold PympExitModel.ystep. destruct o; try (right; destruct (pstep (y_p y) _) as [st e]; exists st, e; split; reflexivity).
  - destruct (y_gone y w); [left; split; auto; split; auto; intros; discriminate|]. right. destruct (pstep (y_p y) _) as [st e]. exists st, e. auto.
  - destruct (y_gone y w); [left; split; auto; split; auto; intros; discriminate|].
    destruct (leaves _ _ _ (y_p y) w); [left; split; auto; split; auto; intros; discriminate|].
    right. destruct (pstep (y_p y) _) as [st e]. exists st, e. auto.
Qed.

Definition ykept ops := handles_kept (fun l => y_p (fst (yrun yinit [] l))) ops.

Lemma kept_prefix run l o : handles_kept run (l ++ [o]) -> handles_kept run l.
Proof. intros K pre a post t m E. apply (K pre a (post ++ [o]) t m). rewrite E, <- app_assoc. reflexivity. Qed.

Lemma kept_snoc run l o : handles_kept run l -> (forall a, o = PDel a -> forall t m, pending (run l) t -> k_callee t <> Meth a m) -> handles_kept run (l ++ [o]).
Proof.
  intros K N pre a post t m E P. destruct (@exists_last _ (PDel a :: post)) as (q & z & Z); [discriminate|].
  rewrite Z, app_assoc in E. apply app_inj_tail in E as [E1 E2]. subst z. destruct q as [|y q].
  - simpl in Z. injection Z as Z1 Z2. subst. rewrite app_nil_r in N. apply (N a); auto.
  - simpl in Z. injection Z as <- Z. eapply K; eauto.
Qed.

Lemma run_part ops : exists l, prun pinit [] l = (y_p (fst (yrun yinit [] ops)), snd (yrun yinit [] ops)) /\ incl l ops /\
  (ykept ops -> handles_kept (fun l => fst (prun pinit [] l)) l).
Proof.
  induction ops as [|o ops IH] using rev_ind.
  - exists []. split; [reflexivity|]. split; [intros x []|]. intros _ pre a post t m E. destruct pre; discriminate.
  - destruct IH as (l & R & I & K). rewrite yrun_snoc. destruct (yrun yinit [] ops) as [y1 h1] eqn:Y. cbn [fst snd] in R.
    destruct (step_cases y1 o) as [(A & B & D)|(st & e & A & B)].
    + exists l. destruct (ystep y1 o) as [y2 e2]. cbn [fst snd] in *. rewrite A, B. split; auto. split; [intros x J; apply in_or_app; auto|].
      intros H. apply K. eapply kept_prefix; eauto.
    + exists (l ++ [o]). rewrite prun_snoc, R, A, B. cbn [fst snd y_p]. split; auto. split.
      { intros x J. apply in_app_or in J. apply in_or_app. destruct J; auto. }
      intros H. apply kept_snoc; [apply K; eapply kept_prefix; eauto|]. intros a -> t m P. rewrite R in P. cbn [fst] in P.
      apply (H ops a [] t m); auto. rewrite Y. auto.
Qed.

Lemma behaved_incl l ops : incl l ops -> behaved body mbody item iterable storable ops -> behaved body mbody item iterable storable l.
Proof. intros I (A & B & C). split; auto. split; intros; [eapply B|eapply C]; eauto. Qed.

(** ** Who is not affected *)

Lemma tops_waits t d : In d (task_tops t) -> waits_for t d.
Proof.
  unfold task_tops, waits_for, tops. intros J. apply in_or_app. apply in_app_or in J.
  destruct J as [J|J]; [left|right]; apply in_flat_map in J; destruct J as (v & A & B); destruct v; simpl in B; try tauto;
    destruct B as [<-|[]]; auto.
Qed.

Lemma ready_work st w t q : p_queue st w = t :: q -> p_dead st w = false -> gone (p_actors st) t = false ->
  (forall d, In d (task_tops t) -> p_store st d <> Some Delayed) -> work st w <> None.
Proof.
  intros Q D G R. unfold PympModel.work. rewrite Q, D, G, Bool.andb_false_r.
  assert (R1 : pmat bytes loads st (k_args t) <> MatLater)
    by (apply pmat_ready; intros d J; apply R; unfold task_tops; apply in_or_app; auto).
  assert (R2 : pmat bytes loads st (map snd (k_kw t)) <> MatLater)
    by (apply pmat_ready; intros d J; apply R; unfold task_tops; apply in_or_app; auto).
  destruct (pmat bytes loads st (k_args t)) as [vs|e|]; [| |contradiction].
  - destruct (pmat bytes loads st (map snd (k_kw t))) as [ks|e|]; [| |contradiction].
    + destruct (call body mbody (p_actors st) t vs (combine (map fst (k_kw t)) ks)) as [r acts].
      destruct (store_outcome item iterable storable (p_store st) (k_out t) r). discriminate.
    + destruct (store_outcome item iterable storable (p_store st) (k_out t) (Exn e)). discriminate.
  - destruct (store_outcome item iterable storable (p_store st) (k_out t) (Exn e)). discriminate.
Qed.

Lemma delayed_dec st (l : list dataid) : (exists d, In d l /\ p_store st d = Some Delayed) \/ forall d, In d l -> p_store st d <> Some Delayed.
Proof.
  induction l as [|d l [(x & A & B)|IH]].
  - right. intros d [].
  - left. exists x. simpl. auto.
  - destruct (p_store st d) as [[|v]|] eqn:E; [left; exists d; simpl; auto| |]; right; intros x [<-|J]; auto; rewrite E; discriminate.
Qed.

Theorem isolated ops y h : yrun yinit [] ops = (y, h) -> legal h -> behaved body mbody item iterable storable ops -> ykept ops ->
  halted body mbody item iterable bytes loads storable y ->
  let bad w := y_gone y w = true in
  (forall w t, In (w, t) (p_log (y_p y)) -> In t (p_done (y_p y) w) \/ affected bad (p_log (y_p y)) w t) /\
  forall d, In d (returned h) -> (exists r, pget bytes loads (y_p y) d = Look r) \/
    exists w t, In (w, t) (p_log (y_p y)) /\ In d (k_out t) /\ affected bad (p_log (y_p y)) w t.
Proof.
  intros Y L B K H bad. destruct (run_part ops) as (l & R & I & KK). rewrite Y in R. cbn [fst snd] in R. apply KK in K. apply (behaved_incl _ _ I) in B.
  assert (Q : QI nw (y_p y)) by (eapply qi_run; eauto).
  assert (Ki : KI (y_p y)) by exact (ki_run_gen nw pos _ _ _ _ _ _ _ _ _ _ l pinit [] _ _ (qi_init nw pos) ki_init R K).
  assert (P : PI body mbody item iterable storable (y_p y) h) by exact (pi_run_gen nw pos _ _ _ _ _ _ _ _ _ _ (proj1 B) l pinit [] _ _ (qi_init nw pos) ki_init (pi_init _ _ _ _ _) R L B K).
  assert (A : forall n w t, k_id t < n -> In t (p_queue (y_p y) w) -> affected bad (p_log (y_p y)) w t).
  { induction n as [|n IH]; intros w t Lt J; [lia|]. assert (Lg := pending_log _ _ _ _ Q J).
    destruct (y_gone y w) eqn:G; [apply aff_there; auto|]. destruct (p_queue (y_p y) w) as [|t1 q] eqn:Q1; [destruct J|].
    assert (J1 : In t1 (p_queue (y_p y) w)) by (rewrite Q1; simpl; auto). assert (Lg1 := pending_log _ _ _ _ Q J1).
    assert (X : affected bad (p_log (y_p y)) w t1 /\ k_id t1 <= k_id t).
    { assert (Le : k_id t1 <= k_id t) by (eapply (head_first nw pos); eauto; rewrite Q1; auto). split; auto.
      destruct (delayed_dec (y_p y) (task_tops t1)) as [(d & D1 & D2)|N].
      - destruct (pi_tops _ _ _ _ _ _ _ P _ _ _ Lg1 D1) as [E1 E2]. destruct (pi_delayed _ _ _ _ _ _ _ P _ E1 D2) as (t2 & (w2 & Q2) & O).
        specialize (E2 _ _ (pending_log _ _ _ _ Q Q2) O). apply (aff_waits bad _ w t1 w2 t2 d); auto; [apply tops_waits; auto|apply IH; auto; lia].
      - exfalso. apply (ready_work (y_p y) w t1 q); auto; [apply (pi_alive _ _ _ _ _ _ _ P)|apply Ki; exists w; auto]. }
    destruct X as [X Le]. destruct J as [<-|J]; auto. apply aff_behind with t1; auto.
    pose proof (qi_queues _ _ Q w) as E. rewrite Q1 in E. eapply (sorted_filter nw pos); [apply (qi_ids _ _ Q)| |exact J]. symmetry. exact E. }
  split.
  - intros w t J. apply placed_In in J. rewrite <- (qi_queues _ _ Q) in J. apply in_app_or in J. destruct J as [J|J]; auto. right. eapply A; eauto.
  - intros d J. destruct (pi_known _ _ _ _ _ _ _ P _ J) as (_ & _ & S0). unfold pget. destruct (p_store (y_p y) d) as [[|v]|] eqn:E; [| |contradiction].
    + right. destruct (pi_delayed _ _ _ _ _ _ _ P _ J E) as (t & (w & T) & O). exists w, t. split; [eapply pending_log; eauto|]. split; auto. eapply A; eauto.
    + left. eauto.
Qed.

Theorem reads ops y h d r : plain_results body mbody bytes item -> pickle_ok callable bytes dumps loads -> yrun yinit [] ops = (y, h) -> legal h -> plain_puts bytes h ->
  ykept ops -> In d (returned h) -> pget bytes loads (y_p y) d = Look r -> outcome body cbody mbody item h d = Some r.
Proof.
  intros PR PK Y L PP K J G. destruct (run_part ops) as (l & R & _ & KK). rewrite Y in R. cbn [fst snd] in R.
  exact (read_direct nw pos body cbody mbody item iterable callable bytes dumps loads storable PR PK l (y_p y) h d r R L PP (KK K) J G).
Qed.

(** ** What is lost *)

(** Nobody but the task itself writes its results. *)
Record LI (st : pst) : Prop := {
  li_out : forall w t d, In (w, t) (p_log st) -> In d (k_out t) -> fst d = 0 /\ snd d < p_next st;
  li_own : forall w t w' t' d, In (w, t) (p_log st) -> In (w', t') (p_log st) -> In d (k_out t) -> In d (k_out t') -> k_id t = k_id t';
  li_wait : forall w t d, In t (p_queue st w) -> In d (k_out t) -> p_store st d = Some Delayed
}.

Lemma li_init : LI pinit.
Proof. split; simpl; tauto. Qed.

Lemma same_entry st w t w' t' : QI nw st -> In (w, t) (p_log st) -> In (w', t') (p_log st) -> k_id t = k_id t' -> w = w' /\ t = t'.
Proof.
  intros Q A B E. apply In_nth_error in A as [i A]. apply In_nth_error in B as [j B].
  assert (X : forall k u x, nth_error (p_log st) k = Some (u, x) -> k_id x = k).
  { intros k u x N. assert (M : nth_error (map (fun x => k_id (snd x)) (p_log st)) k = Some (k_id x)) by (rewrite nth_error_map, N; auto).
    rewrite (qi_ids _ _ Q) in M. assert (Lt : k < length (p_log st)) by (apply nth_error_Some; congruence).
    assert (M2 : nth_error (seq 0 (length (p_log st))) k = Some (0 + k)).
    { rewrite (nth_error_nth' _ 0) by (rewrite seq_length; auto). rewrite seq_nth; auto. }
    rewrite M2 in M. injection M as M. simpl in M. auto. }
  assert (i = j) by (rewrite <- (X _ _ _ A), <- (X _ _ _ B); auto). subst j. rewrite A in B. injection B as -> ->. auto.
Qed.

Lemma placed_nodup st w : QI nw st -> NoDup (map k_id (placed_on w (p_log st))).
Proof.
  intros Q. assert (N : NoDup (map (fun x => k_id (snd x)) (p_log st))) by (rewrite (qi_ids _ _ Q); apply seq_NoDup).
  unfold placed_on. revert N. generalize (p_log st). clear. intros l. induction l as [|[u x] l IH]; simpl; intros N; [constructor|].
  inversion N; subst. destruct (Nat.eqb u w); simpl; auto. constructor; auto. intros J. apply H1. apply in_map_iff in J as (z & A & B).
  apply in_map_iff in B as ([u' x'] & B1 & B2). apply filter_In in B2 as [B2 _]. simpl in B1. subst. apply in_map_iff. exists (u', z). auto.
Qed.

Lemma li_quiet st st' : LI st -> p_next st <= p_next st' -> (forall d, fst d = 0 -> snd d < p_next st -> p_store st' d = p_store st d) ->
  p_queue st' = p_queue st -> p_log st' = p_log st -> QI nw st -> LI st'.
Proof.
  intros [A B C] N S0 Q L Qi. split; rewrite ?L, ?Q; auto.
  - intros w t d I J. destruct (A _ _ _ I J). split; auto. lia.
  - intros w t d I J. rewrite S0; eauto; eapply A; eauto; eapply pending_log; eauto.
Qed.

Lemma li_place st t w wid : QI nw st -> LI st -> k_id t = length (p_log st) -> k_out t = new_ids st (length (k_out t)) -> LI (place_task st t w wid).
Proof.
  intros Qi [A B C] K O. assert (N : forall d, In d (k_out t) -> fst d = 0 /\ p_next st <= snd d < p_next st + length (k_out t)).
  { intros d J. rewrite O in J. apply new_ids_In in J. auto. }
  split; cbn [place_task p_log p_next p_queue p_store].
  - intros w' t' d I J. apply in_app_or in I. destruct I as [I|[I|[]]].
    + destruct (A _ _ _ I J). split; auto. lia.
    + injection I as <- <-. destruct (N _ J). split; auto. lia.
  - intros w1 t1 w2 t2 d I1 I2 J1 J2. apply in_app_or in I1. apply in_app_or in I2.
    destruct I1 as [I1|[I1|[]]]; destruct I2 as [I2|[I2|[]]]; eauto.
    + injection I2 as <- <-. destruct (A _ _ _ I1 J1). destruct (N _ J2). lia.
    + injection I1 as <- <-. destruct (A _ _ _ I2 J2). destruct (N _ J1). lia.
    + injection I1 as <- <-. injection I2 as <- <-. auto.
  - intros w' t' d I J. rewrite delay_spec. destruct (did_in d (k_out t)) eqn:D; auto.
    assert (In t' (p_queue st w') \/ t' = t).
    { unfold upd in I. destruct (Nat.eqb w' w) eqn:E; auto. apply Nat.eqb_eq in E as ->. apply in_app_or in I. simpl in I. intuition. }
    destruct H as [H| ->]; eauto. apply did_in_In in J. congruence.
Qed.

Lemma li_work st w st' : QI nw st -> LI st -> work st w = Some st' -> LI st'.
Proof.
  intros Qi Li W. assert (Q' := W). apply (qi_work nw) in Q'; auto. apply work_spec in W. destruct W as (t & q & r & m & ok & acts & Q & D & S0 & SA & -> & R).
  destruct Li as [A B C]. split; cbn [p_log p_next p_queue p_store]; auto.
  intros w' t' d I J. assert (It : In (w, t) (p_log st)) by (eapply pending_log; eauto; rewrite Q; simpl; auto).
  assert (I0 : In t' (p_queue st w')).
  { unfold upd in I. destruct (Nat.eqb w' w) eqn:E; auto. apply Nat.eqb_eq in E as ->. rewrite Q. simpl. auto. }
  assert (I' := pending_log _ _ _ _ Qi I0).
  destruct (store_outcome_gen nw pos item iterable storable _ _ _ _ _ S0 d) as [E|(k & x & E & _)]; [rewrite E; eauto|].
  apply nth_error_In in E. assert (Id := B _ _ _ _ _ It I' E J). destruct (same_entry _ _ _ _ _ Qi It I' Id) as [<- <-].
  exfalso. rewrite upd_same in I. pose proof (qi_queues _ _ Qi w) as X. rewrite Q in X.
  assert (Lt : k_id t < k_id t) by (eapply (sorted_filter nw pos); [apply (qi_ids _ _ Qi)| |exact I]; symmetry; exact X). lia.
Qed.

Lemma li_step st o st' e : QI nw st -> LI st -> pstep st o = (st', e) -> LI st'.
Proof.
  intros Q I H. destruct o as [v|f args kw n|c args kw|a m args kw n|a|w|w]; cbn [PympModel.pstep] in H.
  - injection H as <- _. eapply li_quiet; eauto; simpl; auto. intros d _ Lt. apply dput_other. intros E. subst d. simpl in Lt. lia.
  - destruct (pick nw (p_grab st) (p_wid st) nw) as [[w|] wid]; injection H as <- _.
    + apply li_place; auto. cbn [k_out]. f_equal. unfold new_ids. rewrite map_length, seq_length. reflexivity.
    + eapply li_quiet; eauto; simpl; [lia|]. intros d F Lt. rewrite delay_spec. destruct (did_in d (new_ids st n)) eqn:E; auto.
      apply did_in_In, new_ids_In in E. lia.
  - destruct (cbody c args kw); [|injection H as <- _; auto]. destruct (grab_worker nw (p_grab st)); injection H as <- _; auto.
    eapply li_quiet; eauto.
  - destruct (nth_error (p_actors st) a) as [x|]; [|injection H as <- _; auto]. destruct (t_live x); injection H as <- _; auto.
    apply li_place; auto. cbn [k_out]. f_equal. unfold new_ids. rewrite map_length, seq_length. reflexivity.
  - destruct (nth_error (p_actors st) a) as [x|]; [|injection H as <- _; auto]. destruct (t_live x); injection H as <- _; auto.
    eapply li_quiet; eauto.
  - injection H as <- _. unfold take. destruct (p_queue st w) as [|t q]; auto. destruct (_ || _); auto. destruct (gone _ _); eapply li_quiet; eauto.
  - destruct (work st w) as [st1|] eqn:W; injection H as <- _; auto. eapply li_work; eauto.
Qed.

Lemma li_run ops st h : prun pinit [] ops = (st, h) -> LI st.
Proof.
  revert st h. induction ops as [|o ops IH] using rev_ind; intros st h R.
  - injection R as <- _. apply li_init.
  - rewrite prun_snoc in R. destruct (prun pinit [] ops) as [s1 h1] eqn:E. destruct (pstep s1 o) as [s2 e] eqn:St. injection R as <- _.
    eapply li_step; eauto. eapply qi_run; eauto.
Qed.

Lemma yqi ops : QI nw (y_p (fst (yrun yinit [] ops))).
Proof. destruct (run_part ops) as (l & R & _). eapply qi_run; eauto. Qed.

Lemma queue_stays st o st' e w t : pstep st o = (st', e) -> o <> PWork w -> In t (p_queue st w) -> In t (p_queue st' w).
Proof.
  intros H N I. destruct o as [v|f args kw n|c args kw|a m args kw n|a|w'|w']; cbn [PympModel.pstep] in H.
  - injection H as <- _. auto.
  - destruct (pick nw (p_grab st) (p_wid st) nw) as [[w1|] wid]; injection H as <- _; auto. simpl. unfold upd.
    destruct (Nat.eqb w w1) eqn:E; auto. apply Nat.eqb_eq in E as ->. apply in_or_app. auto.
  - destruct (cbody c args kw); [|injection H as <- _; auto]. destruct (grab_worker nw (p_grab st)); injection H as <- _; auto.
  - destruct (nth_error (p_actors st) a) as [x|]; [|injection H as <- _; auto]. destruct (t_live x); injection H as <- _; auto. simpl. unfold upd.
    destruct (Nat.eqb w (t_worker x)) eqn:E; auto. apply Nat.eqb_eq in E as ->. apply in_or_app. auto.
  - destruct (nth_error (p_actors st) a) as [x|]; [|injection H as <- _; auto]. destruct (t_live x); injection H as <- _; auto.
  - injection H as <- _. unfold take. destruct (p_queue st w') as [|t' q]; auto. destruct (_ || _); auto. destruct (gone _ _); auto.
  - destruct (work st w') as [st1|] eqn:W; injection H as <- _; auto. apply work_spec in W. destruct W as (t' & q & r & m & ok & acts & Q & D & S0 & SA & -> & R).
    simpl. rewrite upd_other; [auto|congruence].
Qed.

Lemma ystep_gone y o w : y_gone y w = true -> y_gone (fst (ystep y o)) w = true.
Proof.
  intros G. unfold PympExitModel.ystep. destruct o; try (destruct (pstep (y_p y) _); exact G).
  - destruct (y_gone y w0); [exact G|]. destruct (pstep (y_p y) _); exact G.
  - destruct (y_gone y w0); [exact G|]. destruct (leaves _ _ _ _ _); [|destruct (pstep (y_p y) _); exact G]. simpl. unfold upd. destruct (Nat.eqb w w0); auto.
Qed.

Lemma ystep_queue y o w t : y_gone y w = true -> In t (p_queue (y_p y) w) -> In t (p_queue (y_p (fst (ystep y o))) w).
Proof.
  intros G I. destruct (step_cases y o) as [(A & _)|(st & e & A & B)]; [rewrite A; auto|].
  assert (O : o = PWork w \/ o <> PWork w) by (destruct o; try (right; discriminate); destruct (Nat.eq_dec w0 w) as [->|]; [left; auto|right; congruence]).
  destruct O as [->|O].
  - unfold PympExitModel.ystep. rewrite G. auto.
  - rewrite B. simpl. eapply queue_stays; eauto.
Qed.

Lemma yrun_queue more : forall y h w t, y_gone y w = true -> In t (p_queue (y_p y) w) -> In t (p_queue (y_p (fst (yrun y h more))) w).
Proof.
  induction more as [|o more IH]; intros y h w t G I; auto. cbn [PympExitModel.yrun].
  assert (G' := ystep_gone y o w G). assert (I' := ystep_queue y o w t G I). destruct (ystep y o) as [y' [e|]]; apply IH; auto.
Qed.

Theorem lost ops more y h y' h' w t : yrun yinit [] ops = (y, h) -> yrun yinit [] (ops ++ more) = (y', h') ->
  y_gone y w = true -> In (w, t) (p_log (y_p y)) -> ~ In t (p_done (y_p y) w) ->
  ~ In t (p_done (y_p y') w) /\ forall d, In d (k_out t) -> pget bytes loads (y_p y') d = Later.
Proof.
  intros R R' G I N. assert (Q := yqi ops). rewrite R in Q. cbn [fst] in Q.
  apply placed_In in I. rewrite <- (qi_queues _ _ Q) in I. apply in_app_or in I. destruct I as [I|I]; [contradiction|].
  assert (X := yrun_queue more y h w t G I). assert (Q' := yqi (ops ++ more)). destruct (run_part (ops ++ more)) as (l & Rl & _).
  rewrite R' in Rl, Q'. cbn [fst snd] in Rl, Q'. apply li_run in Rl. rewrite yrun_app, R in R'. rewrite R' in X. cbn [fst] in X. split.
  - intros J. apply in_split in J as (l1 & l2 & J). pose proof (qi_queues _ _ Q' w) as E. rewrite J, <- app_assoc in E. simpl in E.
    assert (Lt : k_id t < k_id t); [|lia]. apply in_split in X as (m1 & m2 & X). rewrite X in E.
    assert (Nd : NoDup (map k_id (placed_on w (p_log (y_p y'))))) by (apply placed_nodup; exact Q').
    rewrite <- E, map_app in Nd. apply NoDup_remove_2 in Nd. exfalso. apply Nd. apply in_or_app. right. apply in_map. apply in_or_app. right. apply in_or_app. right. simpl. auto.
  - intros d D. unfold pget. rewrite (li_wait _ Rl _ _ _ X D). reflexivity.
Qed.

Lemma queue_grows st o st' e w : pstep st o = (st', e) -> work st w = None -> exists q, p_queue st' w = p_queue st w ++ q.
Proof.
  intros H N. destruct o as [v|f args kw n|c args kw|a m args kw n|a|w'|w']; cbn [PympModel.pstep] in H.
  - injection H as <- _. exists []. rewrite app_nil_r. auto.
  - destruct (pick nw (p_grab st) (p_wid st) nw) as [[w1|] wid]; injection H as <- _; simpl; [|exists []; rewrite app_nil_r; auto]. unfold upd.
    destruct (Nat.eqb w w1) eqn:E; [apply Nat.eqb_eq in E as ->; eauto|exists []; rewrite app_nil_r; auto].
  - exists []. rewrite app_nil_r. destruct (cbody c args kw); [|injection H as <- _; auto]. destruct (grab_worker nw (p_grab st)); injection H as <- _; auto.
  - destruct (nth_error (p_actors st) a) as [x|]; [|injection H as <- _; exists []; rewrite app_nil_r; auto].
    destruct (t_live x); injection H as <- _; [|exists []; rewrite app_nil_r; auto]. simpl. unfold upd.
    destruct (Nat.eqb w (t_worker x)) eqn:E; [apply Nat.eqb_eq in E as ->; eauto|exists []; rewrite app_nil_r; auto].
  - exists []. rewrite app_nil_r. destruct (nth_error (p_actors st) a) as [x|]; [|injection H as <- _; auto]. destruct (t_live x); injection H as <- _; auto.
  - exists []. rewrite app_nil_r. injection H as <- _. unfold take. destruct (p_queue st w') as [|t' q] eqn:E; auto. destruct (_ || _); auto. destruct (gone _ _); auto.
  - exists []. rewrite app_nil_r. destruct (Nat.eq_dec w' w) as [->|D]; [rewrite N in H; injection H as <- _; auto|].
    destruct (work st w') as [st1|] eqn:W; injection H as <- _; auto. apply work_spec in W. destruct W as (t' & q & r & m & ok & acts & Q & _ & S0 & SA & -> & R).
    simpl. rewrite upd_other; [auto|congruence].
Qed.

Lemma queue_grows_other st o st' e w : pstep st o = (st', e) -> o <> PWork w -> exists q, p_queue st' w = p_queue st w ++ q.
Proof.
  intros H N. destruct o as [v|f args kw n|c args kw|a m args kw n|a|w'|w']; cbn [PympModel.pstep] in H.
  - injection H as <- _. exists []. rewrite app_nil_r. auto.
  - destruct (pick nw (p_grab st) (p_wid st) nw) as [[w1|] wid]; injection H as <- _; simpl; [|exists []; rewrite app_nil_r; auto]. unfold upd.
    destruct (Nat.eqb w w1) eqn:E; [apply Nat.eqb_eq in E as ->; eauto|exists []; rewrite app_nil_r; auto].
  - exists []. rewrite app_nil_r. destruct (cbody c args kw); [|injection H as <- _; auto]. destruct (grab_worker nw (p_grab st)); injection H as <- _; auto.
  - destruct (nth_error (p_actors st) a) as [x|]; [|injection H as <- _; exists []; rewrite app_nil_r; auto].
    destruct (t_live x); injection H as <- _; [|exists []; rewrite app_nil_r; auto]. simpl. unfold upd.
    destruct (Nat.eqb w (t_worker x)) eqn:E; [apply Nat.eqb_eq in E as ->; eauto|exists []; rewrite app_nil_r; auto].
  - exists []. rewrite app_nil_r. destruct (nth_error (p_actors st) a) as [x|]; [|injection H as <- _; auto]. destruct (t_live x); injection H as <- _; auto.
  - exists []. rewrite app_nil_r. injection H as <- _. unfold take. destruct (p_queue st w') as [|t' q] eqn:E; auto. destruct (_ || _); auto. destruct (gone _ _); auto.
  - exists []. rewrite app_nil_r.     destruct (work st w') as [st1|] eqn:W; injection H as <- _; auto. apply work_spec in W. destruct W as (t' & q & r & m & ok & acts & Q & _ & S0 & SA & -> & R).
    simpl. rewrite upd_other; [auto|congruence].
Qed.

Lemma done_stays st o st' e w : pstep st o = (st', e) -> work st w = None -> p_done st' w = p_done st w.
Proof.
  intros H N. destruct o as [v|f args kw n|c args kw|a m args kw n|a|w'|w']; cbn [PympModel.pstep] in H.
  - injection H as <- _. auto.
  - destruct (pick nw (p_grab st) (p_wid st) nw) as [[w1|] wid]; injection H as <- _; auto.
  - destruct (cbody c args kw); [|injection H as <- _; auto]. destruct (grab_worker nw (p_grab st)); injection H as <- _; auto.
  - destruct (nth_error (p_actors st) a) as [x|]; [|injection H as <- _; auto]. destruct (t_live x); injection H as <- _; auto.
  - destruct (nth_error (p_actors st) a) as [x|]; [|injection H as <- _; auto]. destruct (t_live x); injection H as <- _; auto.
  - injection H as <- _. unfold take. destruct (p_queue st w') as [|t' q] eqn:E; auto. destruct (_ || _); auto. destruct (gone _ _); auto.
  - destruct (Nat.eq_dec w' w) as [->|D]; [rewrite N in H; injection H as <- _; auto|].
    destruct (work st w') as [st1|] eqn:W; injection H as <- _; auto. apply work_spec in W. destruct W as (t' & q & r & m & ok & acts & Q & _ & S0 & SA & -> & R).
    simpl. rewrite upd_other; [auto|congruence].
Qed.

Lemma waiting st w t q d r : p_queue st w = t :: q -> k_args t = VRef d :: r -> pget bytes loads st d = Later -> work st w = None.
Proof.
  intros Q A L. unfold PympModel.work. rewrite Q. destruct (p_dead st w); auto. destruct (_ && _); auto.
  rewrite A. cbn [pmat]. rewrite L. reflexivity.
Qed.

(** A worker whose task waits, in its first argument, for a result that is lost. *)
Theorem stopped ops more y h y' h' w t w1 t1 d r q : yrun yinit [] ops = (y, h) -> yrun yinit [] (ops ++ more) = (y', h') ->
  y_gone y w1 = true -> In (w1, t1) (p_log (y_p y)) -> ~ In t1 (p_done (y_p y) w1) -> In d (k_out t1) ->
  p_queue (y_p y) w = t :: q -> k_args t = VRef d :: r ->
  p_done (y_p y') w = p_done (y_p y) w /\ forall x d', In x (t :: q) -> In d' (k_out x) -> pget bytes loads (y_p y') d' = Later.
Proof.
  intros R R' G I N D Q A.
  assert (X : forall more, exists q', p_queue (y_p (fst (yrun yinit [] (ops ++ more)))) w = t :: q ++ q').
  { intros m. induction m as [|o m IH] using rev_ind.
    - exists []. rewrite app_nil_r, R, app_nil_r. exact Q.
    - destruct IH as [q' IH]. rewrite app_assoc, yrun_snoc. destruct (yrun yinit [] (ops ++ m)) as [y1 h1] eqn:E. cbn [fst] in IH.
      destruct (lost _ _ _ _ _ _ _ _ R E G I N) as [_ L]. specialize (L d D). assert (W := waiting _ _ _ _ _ _ IH A L).
      destruct (step_cases y1 o) as [(B & _)|(st & e & B1 & B2)].
      + destruct (ystep y1 o) as [y2 e2]. cbn [fst] in *. rewrite B. eauto.
      + rewrite B2. cbn [fst y_p]. destruct (queue_grows _ _ _ _ w B1 W) as [x Z]. exists (q' ++ x). rewrite Z, IH. simpl. rewrite app_assoc. auto. }
  assert (Dn : forall more, p_done (y_p (fst (yrun yinit [] (ops ++ more)))) w = p_done (y_p y) w).
  { intros m. induction m as [|o m IH] using rev_ind.
    - rewrite app_nil_r, R. auto.
    - destruct (X m) as [q' Xm]. rewrite app_assoc, yrun_snoc. destruct (yrun yinit [] (ops ++ m)) as [y1 h1] eqn:E. cbn [fst] in *.
      destruct (lost _ _ _ _ _ _ _ _ R E G I N) as [_ L]. specialize (L d D). assert (W := waiting _ _ _ _ _ _ Xm A L).
      destruct (step_cases y1 o) as [(B & _)|(st & e & B1 & B2)].
      + destruct (ystep y1 o) as [y2 e2]. cbn [fst] in *. rewrite B. auto.
      + rewrite B2. cbn [fst y_p]. rewrite <- IH. eapply done_stays; eauto. }
  specialize (Dn more). rewrite R' in Dn. split; [exact Dn|]. intros x d' J O. destruct (X more) as [q' Z]. rewrite R' in Z. cbn [fst] in Z.
  destruct (run_part (ops ++ more)) as (l & Rl & _). rewrite R' in Rl. cbn [fst snd] in Rl. apply li_run in Rl. unfold pget.
  rewrite (li_wait _ Rl w x d'); auto. rewrite Z, app_comm_cons. apply in_or_app. auto.
Qed.

(** A worker that has exited is at a call of a function that exits for some arguments. *)
Theorem gone_why ops y h w : yrun yinit [] ops = (y, h) -> y_gone y w = true ->
  exists t q f vs ks, p_queue (y_p y) w = t :: q /\ k_callee t = Fun f /\ exits f vs ks = true.
Proof.
  revert y h. induction ops as [|o ops IH] using rev_ind; intros y h R G.
  - injection R as <- _. discriminate.
  - rewrite yrun_snoc in R. destruct (yrun yinit [] ops) as [y1 h1] eqn:E. destruct (ystep y1 o) as [y2 e] eqn:St. injection R as <- _.
    destruct (y_gone y1 w) eqn:G1.
    + destruct (IH _ _ eq_refl G1) as (t & q & f & vs & ks & Q & A & B).
      destruct (step_cases y1 o) as [(C & _)|(st & e' & C1 & C2)].
      * rewrite St in C. cbn [fst] in C. rewrite C. exists t, q, f, vs, ks. auto.
      * assert (X : exists x, p_queue st w = p_queue (y_p y1) w ++ x).
        { destruct (work (y_p y1) w) as [s|] eqn:W; [|eapply queue_grows; eauto].
          assert (N : o <> PWork w) by (intros ->; unfold PympExitModel.ystep in C2; rewrite G1 in C2; injection C2 as C2 C3;
            assert (Y : y_p y1 = st) by (rewrite C2; reflexivity); cbn [PympModel.pstep] in C1; rewrite W in C1; injection C1 as C1 _;
            apply work_spec in W; destruct W as (t' & q' & r & m & ok & acts & Q' & _ & S0 & SA & -> & R0);
            assert (Z : p_queue (y_p y1) w = q') by (rewrite Y, <- C1; simpl; apply upd_same); rewrite Z in Q';
            assert (L : length q' = length (t' :: q')) by congruence; simpl in L; lia).
          eapply queue_grows_other; eauto. }
        destruct X as [x X]. rewrite St in C2. injection C2 as -> _. simpl. rewrite X, Q. simpl. exists t, (q ++ x), f, vs, ks. auto.
    + unfold PympExitModel.ystep in St. assert (Same : forall st, (let (st, e) := pstep (y_p y1) o in ({| y_p := st; y_gone := y_gone y1 |}, e)) = (y2, st) -> False).
      { intros x Hx. destruct (pstep (y_p y1) o). injection Hx as <- _. simpl in G. congruence. }
      destruct o; try (exact (False_ind _ (Same _ St))).
      * destruct (y_gone y1 w0); [injection St as <- _; congruence|exact (False_ind _ (Same _ St))].
      * destruct (y_gone y1 w0) eqn:G0; [injection St as <- _; congruence|]. destruct (leaves bytes loads exits (y_p y1) w0) eqn:Lv; [|exact (False_ind _ (Same _ St))].
        injection St as <- _. simpl in G. simpl y_p. unfold upd in G. destruct (Nat.eqb w w0) eqn:Ew; [|congruence]. apply Nat.eqb_eq in Ew as ->.
        unfold leaves in Lv. destruct (p_queue (y_p y1) w0) as [|t q]; [discriminate|]. apply andb_prop in Lv as [_ Lv].
        destruct (k_callee t) as [f|] eqn:Kt; [|discriminate]. destruct (pmat bytes loads (y_p y1) (k_args t)) as [vs| |]; try discriminate.
        destruct (pmat bytes loads (y_p y1) (map snd (k_kw t))) as [ks| |]; try discriminate. exists t, q, f, vs, (combine (map fst (k_kw t)) ks). auto.
Qed.
End Exit.
