(** What becomes of the tasks submitted before shutdown. *)
From Verif Require Import Lib ShmModel DataIdModel TopoModel MonModel ValModel WorkerModel WorkerSpec ClusterModel NestModel NestSpec NestProofs NestOnce NestThms
  NestNet NestLoop NestLive NestRun ShutModel ShutSpec ShutProofs EndModel EndSpec EndSim EndRoot EndProofs.

Section Nest.
Variable workers : list rank.
Variable body : val -> val -> val -> NestModel.act.
Variable main : NestModel.act.
Hypothesis body_ok : forall f a k, refs a = [] -> refs k = [] -> refless (body f a k).
Hypothesis main_ok : refless main.
Notation nstep := (nstep workers body).
Notation run := (nrun workers body main).

Lemma api_submits p s fr dest task s' out sub es : call_api workers p s fr dest task = Some (s', out, sub, es) ->
  forall b q, In (b, WExec q) out -> In (HSubmit b q) es.
Proof.
  intros E b q I. unfold call_api in E. destruct (f_act fr) as [r|v k|f a kw n k|ds k]; [discriminate| | |].
  - apply Some_inj in E. apply pair_inj in E as [E _]. apply pair_inj in E as [E _]. apply pair_inj in E as [_ <-]. destruct I.
  - destruct (negb _ || _); [discriminate|]. set (w0 := set_owner _ _) in E. destruct (push_all w0 dest _) as [[w1 l] ok] eqn:P.
    assert (X : forall w ds w' l' ok', push_all w dest ds = (w', l', ok') -> forall q, ~ In (WExec q) l').
    { clear. intros w ds. revert w. induction ds as [|d r IH]; intros w w' l' ok' P q; simpl in P.
      - apply pair_inj in P as [P _]. apply pair_inj in P as [_ <-]. simpl. tauto.
      - destruct (push_one w dest d) as [[w1 l1]|] eqn:Q; [|apply pair_inj in P as [P _]; apply pair_inj in P as [_ <-]; simpl; tauto].
        destruct (push_all w1 dest r) as [[w2 l2] ok2] eqn:R. apply pair_inj in P as [P _]. apply pair_inj in P as [_ <-]. intros I. apply in_app_or in I as [I|I].
        + unfold push_one in Q. destruct (store w d); [destruct (pair_in _ _)|destruct (owner w d); [|discriminate]]; apply Some_inj in Q; apply pair_inj in Q as [_ <-];
            simpl in I; try tauto; (destruct I as [I|[]]; discriminate).
        + eapply IH; eauto. }
    destruct ok; apply Some_inj in E; apply pair_inj in E as [E <-]; apply pair_inj in E as [E _]; apply pair_inj in E as [_ <-];
      apply in_map_iff in I as (y & Y & I); apply pair_inj in Y as [<- ->].
    + apply in_app_or in I as [I|[I|[]]]; [exfalso; eapply X; eauto|]. injection I as <-. simpl; auto.
    + exfalso; eapply X; eauto.
  - destruct (filter _ ds) as [|y r].
    + apply Some_inj in E. apply pair_inj in E as [E _]. apply pair_inj in E as [E _]. apply pair_inj in E as [_ <-]. destruct I.
    + destruct (ask_owners _ _) as [l [|]]; apply Some_inj in E; apply pair_inj in E as [E _]; apply pair_inj in E as [E _]; apply pair_inj in E as [_ <-];
        apply in_map_iff in I as (z & Z & _); discriminate.
Qed.

Lemma looped_exec n p x ch h a b q : In (WExec q) (n_chan (looped n p x ch h) a b) -> In (WExec q) (ch a b).
Proof.
  assert (N : forall w, ~ In (WExec q) (ops_out p w b)).
  { intros w I. apply in_execq in I. rewrite execq_ops in I. destruct I. }
  destruct x as [[s [i|]]|]; simpl; destruct (Nat.eqb a p); auto; intros I; apply in_app_or in I as [I|I]; auto; exfalso; try (eapply N; exact I); destruct I.
Qed.

(** Where EXECUTE messages come from. *)
Lemma exec_step n o a b q : In (WExec q) (n_chan (nstep n o) a b) ->
  In (WExec q) (n_chan n a b) \/ exists fr, p_cur (n_proc n a) = Some fr /\ In (f_run fr, HSubmit b q) (n_hist (nstep n o)).
Proof.
  assert (Dp : forall src p, In (WExec q) (drop_head (n_chan n) src p a b) -> In (WExec q) (n_chan n a b)).
  { intros src p. unfold drop_head. destruct (_ && _); auto. destruct (n_chan n a b); simpl; auto. }
  destruct o as [p dest|src p|src p]; simpl.
  - destruct (p_cur (n_proc n p)) as [fr|] eqn:C; auto. destruct (n_dead n p); auto. destruct (f_get fr); auto.
    assert (A : forall t r, In (WExec q) (n_chan match call_api workers p (n_proc n p) fr dest (n_tasks n) with
        | Some (s, out, sub, h) => put_proc n p s (n_chan n) (n_rep n) out (if sub then t else n_tasks n) r (map (fun e => (f_run fr, e)) h)
        | None => n end a b) -> In (WExec q) (n_chan n a b) \/ exists fr', p_cur (n_proc n a) = Some fr' /\ In (f_run fr', HSubmit b q) (n_hist match call_api workers p (n_proc n p) fr dest (n_tasks n) with
        | Some (s, out, sub, h) => put_proc n p s (n_chan n) (n_rep n) out (if sub then t else n_tasks n) r (map (fun e => (f_run fr, e)) h)
        | None => n end)).
    { intros t r. rename fr into fr0. destruct (call_api _ _ _ _ _ _) as [[[[s out] sub] h]|] eqn:E; auto. simpl. destruct (Nat.eqb a p) eqn:Ap; auto. apply Nat.eqb_eq in Ap. subst a.
      intros I. apply in_app_or in I as [I|I]; auto. apply in_app_or in I as [I|I].
      - apply in_sends in I. right. exists fr0. rewrite C. split; auto. apply in_or_app. right. apply in_map_iff. exists (HSubmit b q). split; auto. eapply api_submits; eauto.
      - exfalso. apply in_execq in I. rewrite execq_ops in I. destruct I. }
    destruct (f_act fr); try apply A. destruct (f_rest fr); auto; intros I; apply looped_exec in I; auto.
  - destruct (n_chan n src p) as [|m ms]; auto. destruct (p_cur (n_proc n p)); auto. destruct (_ || _); auto. intros I. apply looped_exec in I. left. eapply Dp; eauto.
  - destruct (n_rep n src p) as [|[d v] l]; auto. destruct (p_cur (n_proc n p)) as [fr|]; auto. destruct (f_get fr); auto. destruct (f_act fr); auto.
    destruct (receive _ _ _ _ _ _) as [s h] eqn:E. simpl. destruct (Nat.eqb a p); auto. intros I. apply in_app_or in I as [I|I]; auto. exfalso.
    apply in_execq in I. rewrite execq_ops in I. destruct I.
Qed.

Lemma main_frame n p fr : NI body main n -> p_cur (n_proc n p) = Some fr -> f_run fr = 0 -> p = 0.
Proof.
  intros N C R. destruct (ni_proc _ _ _ N p) as (_ & _ & F). rewrite C in F. destruct F as (_ & _ & _ & F & _).
  destruct (f_rest fr) eqn:E; [eapply (ni_first _ _ _ N); eauto| |]; destruct F as [F _]; tauto.
Qed.

Lemma exec_from ops a b q : In (WExec q) (n_chan (run ops) a b) -> exists t, In (t, HSubmit b q) (n_hist (run ops)) /\ (t = 0 -> a = 0).
Proof.
  induction ops as [|o ops IH] using rev_ind; [intros []|].
  assert (E : run (ops ++ [o]) = nstep (run ops) o) by (unfold nrun; rewrite fold_left_app; reflexivity). rewrite E. intros I.
  apply exec_step in I as [I|(fr & C & I)].
  - destruct (IH I) as (t & J & K). destruct (hist_step workers body (run ops) o) as [h Eh]. rewrite Eh. exists t. split; auto. apply in_or_app; auto.
  - exists (f_run fr). split; auto. intros Z. eapply main_frame; eauto. apply run_ni; auto.
Qed.

(** Who submits. *)
Lemma submit_step n o t b q : In (t, HSubmit b q) (n_hist (nstep n o)) ->
  In (t, HSubmit b q) (n_hist n) \/ exists p dest fr, o = NRun p dest /\ p_cur (n_proc n p) = Some fr /\ f_run fr = t.
Proof.
  assert (Lp : forall p x ch h, In (t, HSubmit b q) (n_hist (looped n p x ch h)) -> In (t, HSubmit b q) (n_hist n) \/ In (t, HSubmit b q) h).
  { intros p x ch h. destruct x as [[s [i|]]|]; simpl; intros I; apply in_app_or in I as [I|I]; auto. apply in_app_or in I as [I|[I|[]]]; auto. discriminate. }
  destruct o as [p dest|src p|src p]; simpl.
  - destruct (p_cur (n_proc n p)) as [fr|] eqn:C; auto. destruct (n_dead n p); auto. destruct (f_get fr); auto.
    assert (A : forall t0 r, In (t, HSubmit b q) (n_hist match call_api workers p (n_proc n p) fr dest (n_tasks n) with
        | Some (s, out, sub, h) => put_proc n p s (n_chan n) (n_rep n) out (if sub then t0 else n_tasks n) r (map (fun e => (f_run fr, e)) h)
        | None => n end) -> In (t, HSubmit b q) (n_hist n) \/ exists p0 dest0 fr0, NRun p dest = NRun p0 dest0 /\ p_cur (n_proc n p0) = Some fr0 /\ f_run fr0 = t).
    { intros t0 r. destruct (call_api _ _ _ _ _ _) as [[[[s out] sub] h]|]; auto. simpl. intros I. apply in_app_or in I as [I|I]; auto.
      apply in_map_iff in I as (e & E & _). apply pair_inj in E as [E _]. right. exists p, dest, fr. auto. }
    destruct (f_act fr); try apply A. destruct (f_rest fr); auto; intros I; apply Lp in I as [I|[I|[]]]; auto; discriminate.
  - destruct (n_chan n src p) as [|m ms]; auto. destruct (p_cur (n_proc n p)); auto. destruct (_ || _); auto. intros I. apply Lp in I as [I|[]]; auto.
  - destruct (n_rep n src p) as [|[d v] l]; auto. destruct (p_cur (n_proc n p)) as [fr|]; auto. destruct (f_get fr) as [g|]; auto. destruct (f_act fr); auto.
    unfold receive. destruct (did_in d (t_ids g)); [destruct (t_left g) as [|[|j]]|]; simpl; intros I; apply in_app_or in I as [I|I]; auto;
      repeat (destruct I as [I|I]; [discriminate|]); destruct I.
Qed.

Lemma follows_noend a l b r : follows a l b -> ~ In (HEnd r) l.
Proof. induction 1; simpl; auto; intros [X|X]; try discriminate; auto. Qed.

(** A task that is being executed has not ended. *)
Lemma busy_unended ops p fr : p_cur (n_proc (run ops) p) = Some fr -> p <> 0 ->
  exists t o q, In (t, HSubmit o q) (n_hist (run ops)) /\ ~ ended (n_hist (run ops)) (q_id q).
Proof.
  intros C Np. assert (N := run_ni workers body main body_ok main_ok ops). assert (P := ni_proc _ _ _ N p). destruct P as (_ & _ & F). rewrite C in F.
  destruct F as (_ & _ & _ & F & _).
  assert (X : exists f, rok body (n_hist (run ops)) p (f_q fr) f /\ exists l, trace (n_hist (run ops)) (f_run fr) = HStart (q_id (f_q fr)) :: l /\ follows (entered body f (f_q fr)) l (f_act fr)).
  { destruct (f_rest fr) eqn:R; [exfalso; apply Np; eapply (ni_first _ _ _ N); eauto| |]; destruct F as (_ & f & F1 & l & F2 & F3 & _); exists f; split; auto; exists l; auto. }
  destruct X as (f & R & l & T & Fo). destruct R as (t & q0 & fd & I & Q & _). exists t, p, q0. split; auto. rewrite <- Q in *.
  intros (t' & r & S & E). assert (St : In (f_run fr, HStart (q_id (f_q fr))) (n_hist (run ops))).
  { assert (J : In (HStart (q_id (f_q fr))) (trace (n_hist (run ops)) (f_run fr))) by (rewrite T; simpl; auto).
    unfold trace in J. apply in_flat_map in J as ([t0 e0] & J1 & J2). simpl in J2. destruct (Nat.eqb t0 (f_run fr)) eqn:Z; [|destruct J2]. apply Nat.eqb_eq in Z. subst t0. destruct J2 as [<-|[]]. auto. }
  assert (t' = f_run fr) by (eapply started_once; eauto). subst t'.
  assert (J : In (HEnd r) (trace (n_hist (run ops)) (f_run fr))).
  { unfold trace. apply in_flat_map. exists (f_run fr, HEnd r). split; auto. simpl. rewrite Nat.eqb_refl. simpl; auto. }
  rewrite T in J. destruct J as [J|J]; [discriminate|]. eapply follows_noend; eauto.
Qed.

End Nest.

Section End.
Variable c : scfg.
Hypothesis ok : cluster_ok c.
Variable body : val -> val -> val -> NestModel.act.
Variable big : wmsg -> bool.
Variable main : NestModel.act.
Variable g : rank -> manager.
Hypothesis body_ok : forall f a k, refs a = [] -> refs k = [] -> refless (body f a k).
Hypothesis main_ok : refless main.
Notation W := (s_workers c).
Notation erun := (erun c body big main g).
Notation hist ops := (n_hist (e_n (erun ops))).

Lemma quit_idle ops p : e_cancelled (erun ops) p = true -> p_cur (n_proc (e_n (erun ops)) p) = None.
Proof. intros Q. apply (i_quit _ _ (ei_run c ok body big main g ops) p Q). Qed.

Lemma hist_ignore n src p : n_hist (ignore n src p) = n_hist n. Proof. reflexivity. Qed.

Lemma done_grows H h q : done H q -> done (H ++ h) q.
Proof. intros (t & r & A & B). exists t, r. split; apply in_or_app; auto. Qed.

Lemma in_get_dec n (l : list rank) : (exists w, In w l /\ in_get n w) \/ forall w, In w l -> ~ in_get n w.
Proof.
  induction l as [|x l IH]; [right; intros w []|]. destruct (p_cur (n_proc n x)) as [fr|] eqn:E.
  - destruct (f_get fr) eqn:G.
    + left. exists x. split; [simpl; auto|]. exists fr. split; auto. congruence.
    + destruct IH as [(w & A & B)|N]; [left; exists w; simpl; auto|]. right. intros w [<-|I]; auto. intros (fr' & A & B). congruence.
  - destruct IH as [(w & A & B)|N]; [left; exists w; simpl; auto|]. right. intros w [<-|I]; auto. intros (fr' & A & B). congruence.
Qed.

(** A program on a worker that runs: the task it executes was submitted and has not ended. *)
Lemma busy_worker ops w fr : In w W -> p_cur (n_proc (e_n (erun ops)) w) = Some fr ->
  exists t o q, In (t, HSubmit o q) (hist ops) /\ ~ done (hist ops) q.
Proof.
  intros Hw C. destruct (simulated c body big main g ops) as (ops' & _ & S & _).
  assert (Q : e_cancelled (erun ops) w = false) by (destruct (e_cancelled (erun ops) w) eqn:Q; auto; rewrite (quit_idle ops w Q) in C; discriminate).
  rewrite <- (m_proc _ _ _ _ S w Q) in C. rewrite <- (m_hist _ _ _ _ S).
  eapply (busy_unended W body main body_ok main_ok ops' w fr); eauto. intros ->. apply (no_root c ok). auto.
Qed.

(** ** When all tasks have ended before shutdown is called *)

Lemma done_step ops o : e_called (erun ops) = true -> (forall t d q, In (t, HSubmit d q) (hist ops) -> done (hist ops) q) ->
  e_called (erun (ops ++ [o])) = true /\ forall t d q, In (t, HSubmit d q) (hist (ops ++ [o])) -> done (hist (ops ++ [o])) q.
Proof.
  intros Ca D. rewrite erun_snoc. assert (I := ei_run c ok body big main g ops). assert (B := busy_worker ops). set (e := erun ops) in *.
  destruct (step_cases c body big e o) as [E|o' E X1 X2 X3|src p E X1 X2|fr E X1 X2|i src p E X1 X2 X3 X4 X5 X6|a s E X1 X2]; try rewrite E; auto.
  - intros p Q. apply (i_quit _ _ I p Q).
  - simpl. split; auto. intros t d q J. destruct (hist_step W body (e_n e) o') as [h Eh]. apply submit_step in J as [J|(p & dest & fr & -> & C & R)].
    + rewrite Eh. apply done_grows. eauto.
    + exfalso. simpl in *. assert (Np : p <> 0) by (intros ->; eapply X2; eauto).
      destruct (i_proc _ _ I p) as [Z|Hp]; [congruence|congruence|]. destruct (B p fr Hp C) as (t1 & o1 & q1 & J1 & J2). apply J2. eauto.
Qed.

Lemma done_after before after : e_called (erun (before ++ [ECall])) = true -> (forall t d q, In (t, HSubmit d q) (hist before) -> done (hist before) q) ->
  e_called (erun (before ++ ECall :: after)) = true /\ forall t d q, In (t, HSubmit d q) (hist (before ++ ECall :: after)) -> done (hist (before ++ ECall :: after)) q.
Proof.
  intros Ca D. induction after as [|o after IH] using rev_ind.
  - split; auto. rewrite erun_snoc. simpl. unfold call_shutdown. destruct (p_cur (n_proc (e_n (erun before)) ROOT)) as [fr|]; auto. destruct (f_get fr); auto.
  - replace (before ++ ECall :: after ++ [o]) with ((before ++ ECall :: after) ++ [o]) by (rewrite <- app_assoc; reflexivity). apply done_step; tauto.
Qed.

Lemma done_nobody ops : (forall t d q, In (t, HSubmit d q) (hist ops) -> done (hist ops) q) -> forall w, In w W -> ~ in_get (e_n (erun ops)) w.
Proof. intros D w Hw (fr & C & _). destruct (busy_worker ops w fr Hw C) as (t & o & q & A & B). apply B. eauto. Qed.

(** ** Without get in tasks *)

Lemma getless_nobody ops : (forall f a k, refs a = [] -> refs k = [] -> getless (body f a k)) -> forall w, In w W -> ~ in_get (e_n (erun ops)) w.
Proof.
  intros G w Hw X. destruct (simulated c body big main g ops) as (ops' & _ & S & _).
  assert (Nw : w <> 0) by (intros ->; apply (no_root c ok); auto).
  apply (getless_workers W body main body_ok main_ok ops' w G Nw). destruct X as (fr & C & Y). exists fr. split; auto.
  rewrite (m_proc _ _ _ _ S); auto. destruct (e_cancelled (erun ops) w) eqn:Q; auto. rewrite (quit_idle ops w Q) in C. discriminate.
Qed.

(** ** What gets give *)

Lemma end_gets ops t ds r : In (t, HGet ds r) (hist ops) ->
  match r with
  | GVals vs => Forall2 (means body (hist ops)) ds vs
  | GRaise e => exists d, In d ds /\ means body (hist ops) d (VExc e)
  | GError => True
  end.
Proof.
  destruct (simulated c body big main g ops) as (ops' & _ & S & _). rewrite <- (m_hist _ _ _ _ S). apply gets_mean; auto.
Qed.

Lemma end_once ops t t' i : In (t, HStart i) (hist ops) -> In (t', HStart i) (hist ops) -> t = t'.
Proof. destruct (simulated c body big main g ops) as (ops' & _ & S & _). rewrite <- (m_hist _ _ _ _ S). apply started_once. Qed.

(** ** Calls of the main program on values *)

Section Calls.
Hypothesis body_closed : forall f a k, refs a = [] -> refs k = [] -> closed [] [] (body f a k).
Hypothesis main_closed : closed [] [] main.

Lemma put_not_produced ops d o : put_in (hist ops) d -> produced (hist ops) d o -> False.
Proof.
  destruct (simulated c body big main g ops) as (ops' & _ & S & _). rewrite <- (m_hist _ _ _ _ S). intros (t & v & A) (t' & q & B & C).
  assert (F := fr_made _ (run_fresh W body main ops')). unfold made in F.
  assert (X := nodup_flat _ _ (t, HPut d v) (t', HSubmit o q) d F A B (or_introl eq_refl) C). discriminate.
Qed.

Lemma called_once_cancelled ops w : e_cancelled (erun ops) w = true -> e_called (erun ops) = true.
Proof.
  intros Q. assert (I := ei_run c ok body big main g ops). apply (i_start _ _ I). intros R. apply (i_todo _ _ I w Q). unfold todo. rewrite R. apply (i_quit _ _ I w Q).
Qed.

Lemma fit_less H h : results_fit (H ++ h) -> results_fit H.
Proof. intros F t d q t' r A B C. eapply F; apply in_or_app; eauto. Qed.

Lemma erun_hist ops o : exists h, hist (ops ++ [o]) = hist ops ++ h.
Proof.
  rewrite erun_snoc. assert (I := ei_run c ok body big main g ops). set (e := erun ops) in *.
  destruct (step_cases c body big e o) as [E|o' E X1 X2 X3|src p E X1 X2|fr E X1 X2|i src p E X1 X2 X3 X4 X5 X6|a s E X1 X2]; try rewrite E; simpl;
    try (exists []; rewrite app_nil_r; reflexivity).
  - intros p Q. apply (i_quit _ _ I p Q).
  - apply hist_step.
Qed.

(** At CANCEL: what the main program sent before has been executed, if it needs no result of another task. *)
Lemma cancel_done ops p t q : results_fit (hist ops) -> e_cancelled (erun ops) p = false -> p_cur (n_proc (e_n (erun ops)) p) = None ->
  n_chan (e_n (erun ops)) 0 p = [] -> t = 0 -> In (t, HSubmit p q) (hist ops) -> put_args (hist ops) q -> done (hist ops) q.
Proof.
  intros Fit Q C Ch -> I P. destruct (simulated c body big main g ops) as (ops' & _ & S & _).
  assert (L : Live W (nrun W body main ops')).
  { apply (run_live W body main (no_root c ok) body_ok main_ok body_closed main_closed). rewrite (m_hist _ _ _ _ S). exact Fit. }
  assert (Fr := run_fresh W body main ops'). assert (Xf := exec_from W body main body_ok main_ok ops').
  assert (Np := put_not_produced ops). unfold put_args in P.
  rewrite <- (m_proc _ _ _ _ S p Q) in C. destruct (m_chan _ _ _ _ S 0 p) as (l0 & E0 & Z0). rewrite Q in Z0. rewrite Ch in E0.
  rewrite <- (m_hist _ _ _ _ S) in *. set (n := nrun W body main ops') in *.
  assert (Same : forall t1 o1 q1, In (t1, HSubmit o1 q1) (n_hist n) -> q_id q1 = q_id q -> (t1, HSubmit o1 q1) = (0, HSubmit p q)).
  { intros t1 o1 q1 J E. apply (nodup_flat _ _ _ _ (q_id q) (fr_tasks _ Fr) J I); simpl; auto. }
  destruct (v_task _ _ L 0 p q I) as [(a & J)|[(q' & J & E)|[J _]]].
  - exfalso. destruct (Xf a p q J) as (t1 & K & Z). assert (X := Same t1 p q K eq_refl). injection X as ->. specialize (Z eq_refl). subst a.
    rewrite E0 in J. rewrite Z0 in J by auto. destruct J.
  - exfalso. unfold line in J. rewrite C, app_nil_r in J. assert (M : In q' (resting (n_proc n p))) by (unfold resting; rewrite C, app_nil_r; exact J).
    assert (T : In q' (line (n_proc n p))) by (unfold line; rewrite C, app_nil_r; exact J).
    destruct (v_rest _ _ L p q' M) as (d & D1 & D2). destruct (v_line _ _ L p q' T) as ((t1 & q0 & K1 & K2 & _ & _ & K3) & _ & Cov).
    assert (X := Same t1 p q0 K1 ltac:(congruence)). injection X as -> ->. assert (Pd := P d (K3 _ D1)).
    assert (Ow : owner (p_w (n_proc n p)) d <> None).
    { destruct (Cov d D1) as [Y|[Y|Y]]; try congruence. destruct (a_reqs _ _ _ _ _ _ (v_net _ _ L) p d Y) as (_ & _ & o & Y1 & _). congruence. }
    destruct (owner (p_w (n_proc n p)) d) as [o|] eqn:Eo; [|congruence]. apply (a_owner _ _ _ _ _ _ (v_net _ _ L)) in Eo. eapply Np; eauto.
  - exact J.
Qed.

Lemma put_back ops o q t d : results_fit (hist (ops ++ [o])) -> In (t, HSubmit d q) (hist ops) -> put_args (hist (ops ++ [o])) q -> put_args (hist ops) q.
Proof.
  intros Fit I P x X. destruct (erun_hist ops o) as [h Eh]. assert (Fit' : results_fit (hist ops)) by (rewrite Eh in Fit; eapply fit_less; eauto).
  destruct (simulated c body big main g ops) as (ops' & _ & S & _).
  assert (L : Live W (nrun W body main ops')).
  { apply (run_live W body main (no_root c ok) body_ok main_ok body_closed main_closed). rewrite (m_hist _ _ _ _ S). exact Fit'. }
  assert (V := v_sub _ _ L). rewrite (m_hist _ _ _ _ S) in V. destruct (V t d q I) as (_ & _ & V3). destruct (V3 x X) as [Y|(t1 & o1 & q1 & Y1 & Y2 & _)]; auto.
  exfalso. apply (put_not_produced (ops ++ [o]) x o1); [apply P; auto|]. exists t1, q1. split; auto. rewrite Eh. apply in_or_app. auto.
Qed.

Lemma cancelled_done ops : results_fit (hist ops) -> forall w q, e_cancelled (erun ops) w = true -> In (0, HSubmit w q) (hist ops) -> put_args (hist ops) q -> done (hist ops) q.
Proof.
  induction ops as [|o ops IH] using rev_ind; intros Fit w q Q I P; [discriminate|].
  destruct (erun_hist ops o) as [h Eh]. assert (Fit' : results_fit (hist ops)) by (rewrite Eh in Fit; eapply fit_less; eauto). specialize (IH Fit' w q).
  assert (Back := fun t d => put_back ops o q t d Fit). assert (Cd := fun p => cancel_done ops p 0 q Fit'). assert (Cc := called_once_cancelled ops w).
  rewrite erun_snoc in *. assert (EIv := ei_run c ok body big main g ops).
  destruct (simulated c body big main g ops) as (ops' & _ & S & _). assert (Mf := main_frame body main (nrun W body main ops')). assert (Ni := run_ni W body main body_ok main_ok ops'). assert (Si := es_si c ok body big main g ops). set (e := erun ops) in *.
  destruct (step_cases c body big e o) as [E|o' E X1 X2 X3|src p E X1 X2|fr E X1 X2|i src p E X1 X2 X3 X4 X5 X6|a s E X1 X2]; try rewrite E in *; auto.
  - intros p Qp. apply (i_quit _ _ EIv p Qp).
  - simpl in *. destruct (submit_step W body (e_n e) o' 0 w q I) as [J|(p & dest & fr & -> & C & R)].
    + rewrite Eh. apply done_grows. apply IH; auto. eapply Back; eauto.
    + exfalso. simpl in *. assert (p = 0). { apply (Mf p fr Ni); auto. rewrite (m_proc _ _ _ _ S p X1). exact C. } subst p. eapply X2; eauto.
  - simpl in *. destruct (Nat.eq_dec w p) as [->|Np].
    + apply (Cd p); auto. assert (F := si_wf _ _ Si). rewrite Forall_forall in F. specialize (F _ (nth_error_In _ _ X1)).
      assert (Z : src = ROOT) by (destruct F as [(w & ? & F)|[(w & ? & F)|[(w & ? & F)|F]]]; inversion F; subst; auto). subst src. exact X5.
    + rewrite fupd_other in Q by auto. auto.
Qed.

End Calls.
End End.
