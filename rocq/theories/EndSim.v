(** A program that is being shut down does what some execution without shutdown does. *)
From Verif Require Import Lib ShmModel DataIdModel TopoModel MonModel ValModel WorkerModel WorkerSpec ClusterModel NestModel NestSpec NestProofs NestRun
  ShutModel ShutSpec ShutProofs EndModel EndSpec.

Section Sim.
Variable c : scfg.
Variable body : val -> val -> val -> NestModel.act.
Variable big : wmsg -> bool.
Notation workers := (s_workers c).
Notation nstep := (nstep workers body).

Definition tailof {A} (q : bool) (l l' : list A) : Prop := exists l0, l = l0 ++ l' /\ (q = false -> l0 = []).

Record Sim (q : rank -> bool) (n x : nst) : Prop := {
  m_dead : forall p, n_dead n p = n_dead x p;
  m_rep : forall a b, n_rep n a b = n_rep x a b;
  m_tasks : n_tasks n = n_tasks x;
  m_runs : n_runs n = n_runs x;
  m_hist : n_hist n = n_hist x;
  m_proc : forall p, q p = false -> n_proc n p = n_proc x p;
  m_quit : forall p, q p = true -> p_cur (n_proc n p) = None /\ p_cur (n_proc x p) = None /\ In p workers;
  m_chan : forall a b, tailof (q b) (n_chan n a b) (n_chan x a b)
}.

Lemma tailof_app {A} q (l l' r : list A) : tailof q l l' -> tailof q (l ++ r) (l' ++ r).
Proof. intros (l0 & -> & Z). exists l0. rewrite app_assoc. auto. Qed.

Lemma sim_put q n x p s ch ch' re re' out t r h : Sim q n x -> q p = false ->
  (forall a b, tailof (q b) (ch a b) (ch' a b)) -> (forall a b, re a b = re' a b) ->
  Sim q (put_proc n p s ch re out t r h) (put_proc x p s ch' re' out t r h).
Proof.
  intros S Q C R. split; simpl; try (apply S); auto.
  - intros a b. rewrite !R. auto.
  - rewrite (m_hist _ _ _ S). auto.
  - intros z Z. unfold upd. destruct (Nat.eqb z p); auto. apply S; auto.
  - intros z Z. unfold upd. destruct (Nat.eqb z p) eqn:E; [apply Nat.eqb_eq in E; congruence|]. apply S; auto.
  - intros a b. destruct (Nat.eqb a p); auto. apply tailof_app; auto.
Qed.

Lemma sim_looped q n x p y ch ch' h : Sim q n x -> q p = false ->
  (forall a b, tailof (q b) (ch a b) (ch' a b)) -> Sim q (looped n p y ch h) (looped x p y ch' h).
Proof.
  intros S Q C. destruct y as [[s [i|]]|]; simpl.
  - rewrite (m_tasks _ _ _ S), (m_runs _ _ _ S). apply sim_put; auto. apply S.
  - rewrite (m_tasks _ _ _ S), (m_runs _ _ _ S). apply sim_put; auto. apply S.
  - unfold kill. rewrite (m_tasks _ _ _ S), (m_runs _ _ _ S), (m_proc _ _ _ S p Q).
    assert (S' := sim_put q n x p {| p_w := no_log (p_w (n_proc x p)); p_next := p_next (n_proc x p); p_cur := None |} ch ch' (n_rep n) (n_rep x) []
      (n_tasks x) (n_runs x) h S Q C (m_rep _ _ _ S)).
    split; try (apply S').
    intros z. cbn [n_dead]. unfold upd. destruct (Nat.eqb z p); auto. apply S.
Qed.

Definition who (o : nop) : rank := match o with NRun p _ => p | NTake _ p => p | NReply _ p => p end.

Lemma sim_step q n x o : Sim q n x -> q (who o) = false -> Sim q (nstep n o) (nstep x o).
Proof.
  intros S Q. destruct o as [p dest|src p|src p]; simpl in *; rewrite (m_proc _ _ _ S p Q).
  - rewrite (m_dead _ _ _ S). destruct (p_cur (n_proc x p)) as [fr|]; auto. destruct (n_dead x p); auto. destruct (f_get fr); auto.
    assert (Api : Sim q match call_api workers p (n_proc x p) fr dest (n_tasks n) with
        | Some (s, out, sub, h) => put_proc n p s (n_chan n) (n_rep n) out (if sub then Datatypes.S (n_tasks n) else n_tasks n) (n_runs n) (map (fun e => (f_run fr, e)) h)
        | None => n end
      match call_api workers p (n_proc x p) fr dest (n_tasks x) with
        | Some (s, out, sub, h) => put_proc x p s (n_chan x) (n_rep x) out (if sub then Datatypes.S (n_tasks x) else n_tasks x) (n_runs x) (map (fun e => (f_run fr, e)) h)
        | None => x end).
    { rewrite (m_tasks _ _ _ S), (m_runs _ _ _ S). destruct (call_api _ _ _ _ _ _) as [[[[s out] sub] h]|]; auto. apply sim_put; auto; apply S. }
    destruct (f_act fr); auto. destruct (f_rest fr); auto; rewrite (m_runs _ _ _ S); apply sim_looped; auto; apply S.
  - assert (Ce : n_chan n src p = n_chan x src p) by (destruct (m_chan _ _ _ S src p) as (l & -> & Z); rewrite (Z Q); auto). rewrite Ce.
    destruct (n_chan x src p) as [|m ms] eqn:E; auto. destruct (p_cur (n_proc x p)); auto. rewrite (m_dead _ _ _ S).
    destruct (Nat.eqb p 0 || n_dead x p); auto. rewrite (m_runs _ _ _ S). apply sim_looped; auto.
    intros a b. unfold drop_head. destruct (Nat.eqb a src && Nat.eqb b p) eqn:Z; [|apply S].
    apply andb_true_iff in Z as [Z1 Z2]. apply Nat.eqb_eq in Z1, Z2. subst a b. rewrite Ce, E. exists []. auto.
  - rewrite (m_rep _ _ _ S). destruct (n_rep x src p) as [|[d v] l]; auto. destruct (p_cur (n_proc x p)) as [fr|]; auto.
    destruct (f_get fr) as [g|]; auto. destruct (f_act fr); auto. destruct (receive _ _ _ _ _ _) as [s h]. rewrite (m_tasks _ _ _ S), (m_runs _ _ _ S).
    apply sim_put; auto; [apply S|]. intros a b. rewrite (m_rep _ _ _ S). auto.
Qed.

Lemma quit_still n p o : p_cur (n_proc n p) = None -> who o = p -> (forall src, o <> NTake src p) -> nstep n o = n.
Proof.
  intros E W N. destruct o as [p' dest|src p'|src p']; simpl in W; subst p'; simpl; rewrite E; auto.
  - exfalso. apply (N src). auto.
  - destruct (n_rep n src p) as [|[d v] l]; auto.
Qed.

(** What one step of the whole does. *)
Inductive estepped (e e' : est) : Prop :=
| es_same : e' = e -> estepped e e'
| es_prog o : e' = set_n e (nstep (e_n e) o) -> e_cancelled e (who o) = false -> (who o = 0 -> e_called e = true -> forall d, o <> NRun 0 d) ->
    (In (who o) workers \/ forall src, o <> NTake src (who o)) -> estepped e e'
| es_ignore src p : e' = set_n e (ignore (e_n e) src p) -> e_cancelled e p = true -> In p workers -> estepped e e'
| es_call fr : e' = {| e_n := e_n e; e_s := e_s e; e_called := true; e_cancelled := e_cancelled e |} -> p_cur (n_proc (e_n e) 0) = Some fr -> f_get fr = None -> estepped e e'
| es_cancel i src p : e' = {| e_n := forget (e_n e) p; e_s := e_s e; e_called := e_called e; e_cancelled := fupd (e_cancelled e) p true |} ->
    nth_error (snet (e_s e)) i = Some (src, p, SCancel) -> In p workers -> e_cancelled e p = false -> p_cur (n_proc (e_n e) p) = None ->
    n_chan (e_n e) src p = [] -> n_dead (e_n e) p = false -> estepped e e'
| es_shut a s : e' = {| e_n := e_n e; e_s := s; e_called := e_called e; e_cancelled := e_cancelled e |} -> sstep c (e_s e) a = Some s ->
    may c big e a = true -> estepped e e'.

Lemma set_same e : set_n e (e_n e) = e.
Proof. destruct e; reflexivity. Qed.

Lemma step_cases e o : (forall p, e_cancelled e p = true -> p_cur (n_proc (e_n e) p) = None) -> estepped e (estep c body big e o).
Proof.
  intros Q. destruct o as [o| |i|a]; simpl.
  - destruct o as [p dest|src p|src p].
    + unfold prog. destruct (Nat.eqb p ROOT && e_called e) eqn:E; [apply es_same; auto|]. destruct (e_cancelled e p) eqn:X.
      * apply es_same. rewrite (quit_still _ p); auto; [apply set_same|]. discriminate.
      * apply (es_prog e _ (NRun p dest)); auto; simpl; [|right; discriminate]. intros -> Z d. rewrite Z in E. discriminate.
    + unfold prog. destruct (mem_rank p workers) eqn:M; [|apply es_same; auto]. apply mem_rank_In in M. destruct (e_cancelled e p) eqn:X.
      * destruct (sworker (e_s e) p); try (apply es_same; auto; fail). destruct (n_chan (e_n e) src p); [apply es_same; auto|eapply es_ignore; eauto].
      * apply (es_prog e _ (NTake src p)); auto. discriminate.
    + unfold prog. destruct (e_cancelled e p) eqn:X.
      * apply es_same. rewrite (quit_still _ p); auto; [apply set_same|]. discriminate.
      * apply (es_prog e _ (NReply src p)); auto; [discriminate|]. right. discriminate.
  - unfold call_shutdown. destruct (p_cur (n_proc (e_n e) ROOT)) as [fr|] eqn:E; [|apply es_same; auto].
    destruct (f_get fr) eqn:G; [apply es_same; auto|]. eapply es_call; eauto.
  - unfold take_cancel. destruct (nth_error (snet (e_s e)) i) as [[[src p] m]|] eqn:E; [|apply es_same; auto].
    destruct m; try (apply es_same; auto; fail). destruct (_ && _) eqn:B; [|apply es_same; auto].
    apply andb_true_iff in B as [B B3]. apply andb_true_iff in B as [B1 B2]. apply mem_rank_In in B1. apply negb_true_iff in B3.
    unfold listens in B2. destruct (p_cur (n_proc (e_n e) p)) eqn:C1; [discriminate|]. destruct (n_chan (e_n e) src p) eqn:C2; [|discriminate].
    apply negb_true_iff in B2. eapply es_cancel; eauto.
  - destruct (may c big e a) eqn:M; [|apply es_same; auto]. destruct (sstep c (e_s e) a) eqn:E; [|apply es_same; auto].
    eapply es_shut; eauto.
Qed.

Variable main : NestModel.act.
Variable g : rank -> manager.
Hypothesis no_root : ~ In 0 workers.
Notation erun := (erun c body big main g).

Lemma erun_snoc ops o : erun (ops ++ [o]) = estep c body big (erun ops) o.
Proof. unfold EndModel.erun. rewrite fold_left_app. reflexivity. Qed.

Lemma nrun_snoc ops o : nrun workers body main (ops ++ [o]) = nstep (nrun workers body main ops) o.
Proof. unfold nrun. rewrite fold_left_app. reflexivity. Qed.

Lemma drop_tail {A} (l : list A) : exists l0, l = l0 ++ tl l.
Proof. destruct l as [|x l]; [exists []|exists [x]]; auto. Qed.

Lemma srun_app c' a : forall s b, ShutModel.srun c' s (a ++ b) = ShutModel.srun c' (ShutModel.srun c' s a) b.
Proof. induction a as [|x a IH]; intros s b; simpl; auto. Qed.

Theorem simulated ops : exists ops' acts, Sim (e_cancelled (erun ops)) (nrun workers body main ops') (e_n (erun ops)) /\
  e_s (erun ops) = srun c (sinit g) acts.
Proof.
  induction ops as [|o ops (ops' & acts & S & E)] using rev_ind.
  - exists [], []. split; [|reflexivity]. split; simpl; auto; try discriminate. intros a b. exists []. auto.
  - rewrite erun_snoc. set (e := erun ops) in *. destruct (step_cases e o) as [->|o' -> X1 X2 X3|src p -> X1 X2|fr -> X1 X2|i src p -> X1 X2 X3 X4 X5 X6|a s -> X1 X2].
    + intros p X. apply (m_quit _ _ _ S p X).
    + eauto.
    + exists (ops' ++ [o']), acts. split; auto. rewrite nrun_snoc. simpl. apply sim_step; auto.
    + exists ops', acts. split; auto. simpl. destruct S as [A1 A2 A3 A4 A5 A6 A7 A8]. split; auto. intros a b. simpl. unfold drop_head.
      destruct (Nat.eqb a src && Nat.eqb b p) eqn:Z; auto. apply andb_true_iff in Z as [Z1 Z2]. apply Nat.eqb_eq in Z1, Z2. subst a b.
      destruct (A8 src p) as (l & L & _). destruct (drop_tail (n_chan (e_n e) src p)) as (l0 & L0). exists (l ++ l0). rewrite <- app_assoc, <- L0. split; auto. congruence.
    + exists ops', acts. auto.
    + exists ops', acts. split; auto. simpl. destruct S as [A1 A2 A3 A4 A5 A6 A7 A8]. split; auto; simpl.
      * intros z Z. unfold fupd in Z. unfold upd. destruct (Nat.eqb z p); [discriminate|]. auto.
      * intros z Z. unfold fupd in Z. unfold upd. destruct (Nat.eqb z p) eqn:Y; [|auto]. apply Nat.eqb_eq in Y. subst z. rewrite (A6 p X3). auto.
      * intros a b. destruct (A8 a b) as (l & L & Z). exists l. split; auto. unfold fupd. destruct (Nat.eqb b p); auto. discriminate.
    + exists ops', (acts ++ [a]). split; auto. simpl. rewrite srun_app, <- E. simpl. rewrite X1. auto.
Qed.

End Sim.
