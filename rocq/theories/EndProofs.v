(** Shutdown of programs with nested calls: invariants, and the states in which nothing can happen. *)
From Verif Require Import Lib ShmModel DataIdModel TopoModel MonModel ValModel WorkerModel WorkerSpec ClusterModel NestModel NestSpec NestProofs NestOnce NestThms
  NestNet NestLoop NestLive NestRun ShutModel ShutSpec ShutProofs EndModel EndSpec EndSim EndRoot.

Lemma proc_other workers body n o z : z <> who o -> n_proc (nstep workers body n o) z = n_proc n z.
Proof.
  intros N. apply Nat.eqb_neq in N. assert (L : forall p x ch h, Nat.eqb z p = false -> n_proc (looped n p x ch h) z = n_proc n z).
  { intros p x ch h E. destruct x as [[s [i|]]|]; simpl; unfold upd; rewrite E; auto. }
  destruct o as [p dest|src p|src p]; simpl in *.
  - destruct (p_cur (n_proc n p)) as [fr|]; auto. destruct (n_dead n p); auto. destruct (f_get fr); auto.
    destruct (f_act fr); [destruct (f_rest fr); auto| | |]; (destruct (call_api _ _ _ _ _ _) as [[[[s out] sub] h]|]; auto; simpl; unfold upd; rewrite N; auto).
  - destruct (n_chan n src p); auto. destruct (p_cur (n_proc n p)); auto. destruct (_ || _); auto.
  - destruct (n_rep n src p) as [|[d v] l]; auto. destruct (p_cur (n_proc n p)) as [fr|]; auto. destruct (f_get fr); auto. destruct (f_act fr); auto.
    destruct (receive _ _ _ _ _ _) as [s h]. simpl. unfold upd. rewrite N. auto.
Qed.

(** ** The protocol *)

Lemma turn_keeps c s r m s' : mon_turn c s r m = Some s' -> sworker s' = sworker s /\ sroot s' = sroot s.
Proof.
  unfold mon_turn. destruct (mstopped _); [discriminate|]. destruct (mon_step _ _ _); [|discriminate]. intros E. apply Some_inj in E as <-.
  match goal with |- context [fold_left _ ?l ?x] => change (fold_left (fun s p => send s r (fst p) (snd p)) l x) with (send_all x r l) end.
  rewrite send_all_eq. auto.
Qed.

Lemma step_workers c s a s' w : sstep c s a = Some s' -> sworker s' w <> WkRun ->
  sworker s w <> WkRun \/ sworker s' w = WkDead \/ exists i src, a = ADeliver i /\ nth_error (snet s) i = Some (src, w, SCancel).
Proof.
  intros H N. destruct a as [| |i|r m]; simpl in H.
  - destruct (sroot s); try discriminate. apply Some_inj in H as <-. auto.
  - destruct (sroot s) as [|[|x l]| |]; try discriminate; apply Some_inj in H as <-; auto.
  - destruct (nth_error (snet s) i) as [[[src dst] m]|] eqn:E; [|discriminate]. destruct (Nat.eqb dst ROOT).
    + unfold root_recv in H. simpl in H. destruct (sroot s); try discriminate. destruct m; try discriminate. destruct (Nat.eqb src MONITOR); [|discriminate].
      apply Some_inj in H as <-. auto.
    + destruct (mem_rank dst (s_workers c)).
      * unfold worker_recv in H. simpl in H. destruct (Nat.eq_dec w dst) as [->|Nd].
        -- destruct (sworker s dst) eqn:S; try discriminate; try (left; congruence; fail). destruct m; [right; right; eauto| | |];
             apply Some_inj in H as <-; right; left; simpl; apply fupd_same.
        -- left. destruct (sworker s dst); try discriminate; destruct m; apply Some_inj in H as <-; simpl in N; rewrite fupd_other in N by auto; auto.
      * destruct (mem_rank dst (s_monitors c)); [|discriminate]. unfold monitor_recv in H. left. destruct m; try discriminate; apply turn_keeps in H as [H _]; rewrite H in N; auto.
  - destruct (_ && _); [|discriminate]. apply turn_keeps in H as [H _]. rewrite H in N. auto.
Qed.

Lemma step_root c s a s' : sstep c s a = Some s' ->
  match sroot s with
  | RRun => (a = AStart /\ sroot s' = RCancel (s_workers c)) \/ (a <> AStart /\ sroot s' = RRun)
  | RCancel l => incl (match sroot s' with RRun => s_workers c | RCancel l' => l' | _ => [] end) l /\ sroot s' <> RRun /\ sroot s' <> RGone
  | RWait => sroot s' = RWait \/ sroot s' = RGone
  | RGone => sroot s' = RGone
  end.
Proof.
  intros H. assert (K : forall r m, mon_turn c s r m = Some s' -> sroot s' = sroot s) by (intros r m X; apply turn_keeps in X; apply X).
  assert (Same : sroot s' = sroot s -> a <> AStart -> match sroot s with
    | RRun => (a = AStart /\ sroot s' = RCancel (s_workers c)) \/ (a <> AStart /\ sroot s' = RRun)
    | RCancel l => incl (match sroot s' with RRun => s_workers c | RCancel l' => l' | _ => [] end) l /\ sroot s' <> RRun /\ sroot s' <> RGone
    | RWait => sroot s' = RWait \/ sroot s' = RGone | RGone => sroot s' = RGone end).
  { intros X N. rewrite X. destruct (sroot s); auto. split; [apply incl_refl|]. split; discriminate. }
  destruct a as [| |i|r m]; simpl in H.
  - destruct (sroot s); try discriminate. apply Some_inj in H as <-. simpl. auto.
  - destruct (sroot s) as [|[|x l]| |]; try discriminate; apply Some_inj in H as <-; simpl; (split; [|split; discriminate]); [apply incl_refl|intros y Y; simpl; auto].
  - destruct (nth_error (snet s) i) as [[[src dst] m]|]; [|discriminate]. destruct (Nat.eqb dst ROOT).
    + unfold root_recv in H. simpl in H. destruct (sroot s); try discriminate. destruct m; try discriminate. destruct (Nat.eqb src MONITOR); [|discriminate].
      apply Some_inj in H as <-. simpl. auto.
    + destruct (mem_rank dst (s_workers c)).
      * apply Same; [|discriminate]. unfold worker_recv in H. simpl in H. destruct (sworker s dst); try discriminate; destruct m; apply Some_inj in H as <-; auto.
      * destruct (mem_rank dst (s_monitors c)); [|discriminate]. apply Same; [|discriminate]. unfold monitor_recv in H.
        destruct m; try discriminate; apply turn_keeps in H as [_ H]; exact H.
  - destruct (_ && _); [|discriminate]. apply Same; [|discriminate]. eapply K; eauto.
Qed.

Section End.
Variable c : scfg.
Hypothesis ok : cluster_ok c.
Variable body : val -> val -> val -> NestModel.act.
Variable big : wmsg -> bool.
Variable main : NestModel.act.
Variable g : rank -> manager.
Notation W := (s_workers c).
Notation erun := (erun c body big main g).
Notation SI := (SI c).

Lemma no_root : ~ In 0 W.
Proof. intros I. apply (not_root c ok 0); auto. Qed.

Lemma es_si ops : SI (e_s (erun ops)).
Proof. destruct (simulated c body big main g ops) as (_ & acts & _ & ->). apply (inv_s c ok g acts). Qed.

(** ** Invariants *)

Record EI (e : est) : Prop := {
  i_start : sroot (e_s e) <> RRun -> e_called e = true;
  i_ready : forall w, In w W -> sworker (e_s e) w <> WkRun -> e_cancelled e w = true;
  i_todo : forall w, e_cancelled e w = true -> ~ In w (todo c (e_s e));
  i_main : e_called e = true -> forall fr, p_cur (n_proc (e_n e) 0) = Some fr -> f_get fr = None;
  i_proc : forall p, p_cur (n_proc (e_n e) p) <> None -> p = 0 \/ In p W;
  i_quit : forall p, e_cancelled e p = true -> In p W /\ p_cur (n_proc (e_n e) p) = None
}.

Lemma ei_run ops : EI (erun ops).
Proof.
  induction ops as [|o ops IH] using rev_ind.
  - split; simpl; try discriminate; try congruence. intros p. destruct (Nat.eqb p 0) eqn:E; [apply Nat.eqb_eq in E; auto|congruence].
  - rewrite erun_snoc. assert (S := es_si ops). assert (S' := es_si (ops ++ [o])). rewrite erun_snoc in S'.
    set (e := erun ops) in *. destruct IH as [A1 A2 A3 A4 A5 A6].
    destruct (step_cases c body big e o) as [E|o' E X1 X2 X3|src p E X1 X2|fr E X1 X2|i src p E X1 X2 X3 X4 X5 X6|a s E X1 X2]; try rewrite E in *.
    + intros p X. apply (A6 p X).
    + split; auto.
    + split; simpl; auto.
      * intros Z fr. destruct (Nat.eq_dec 0 (who o')) as [Eq|Ne]; [|rewrite proc_other by auto; apply A4; auto].
        destruct o' as [p dest|src p|src p]; simpl in Eq; subst p; simpl in *.
        -- exfalso. apply (X2 eq_refl Z dest). reflexivity.
        -- exfalso. destruct X3 as [X3|X3]; [apply no_root; auto|eapply X3; eauto].
        -- destruct (n_rep (e_n e) src 0) as [|[d v] l]; auto. destruct (p_cur (n_proc (e_n e) 0)) as [f0|] eqn:F; [|rewrite F; discriminate].
           rewrite (A4 Z f0 eq_refl). intros Y. rewrite F in Y. apply Some_inj in Y as <-. auto.
      * intros p Np. destruct (Nat.eq_dec p (who o')) as [->|Ne]; [|rewrite proc_other in Np by auto; auto].
        destruct X3 as [X3|X3]; auto. destruct (p_cur (n_proc (e_n e) (who o'))) eqn:F; [apply A5; congruence|].
        rewrite (quit_still c body _ (who o')) in Np; auto.
      * intros p Z. destruct (A6 p Z) as [Z1 Z2]. split; auto. rewrite proc_other; auto. intros ->. congruence.
    + split; simpl; auto.
    + split; simpl; auto. intros _ f0 F. rewrite X1 in F. apply Some_inj in F as <-. auto.
    + assert (Ca : cn (e_s e) (src, p, SCancel) >= 1) by (apply (count_occ_In mdec); eapply nth_error_In; eauto).
      assert (Es : src = ROOT).
      { apply nth_error_In in X1. assert (F := si_wf _ _ S). rewrite Forall_forall in F. specialize (F _ X1).
        destruct F as [(w & _ & F)|[(w & _ & F)|[(w & _ & F)|F]]]; inversion F; auto. }
      subst src. split; simpl; auto.
      * intros w Iw Z. unfold fupd. destruct (Nat.eqb w p); auto.
      * intros w. unfold fupd. destruct (Nat.eqb w p) eqn:Z; auto. apply Nat.eqb_eq in Z. subst w. intros _ I.
        assert (B := si_cancel _ _ S p X2). apply (count_occ_In rdec) in I. lia.
      * unfold upd. intros Z fr. destruct (Nat.eqb 0 p) eqn:Y; [apply Nat.eqb_eq in Y; subst p; exfalso; apply no_root; auto|]. apply A4; auto.
      * unfold upd. intros w Z. destruct (Nat.eqb w p) eqn:Y; [apply Nat.eqb_eq in Y; subst w; auto|auto].
      * unfold upd, fupd. intros w. destruct (Nat.eqb w p) eqn:Y; auto. apply Nat.eqb_eq in Y. subst w. simpl. auto.
    + simpl in S'. split; simpl; auto.
      * intros Z. destruct (e_called e) eqn:K; auto. exfalso. assert (R : sroot (e_s e) = RRun).
        { destruct (sroot (e_s e)) eqn:R; auto; (assert (D : false = true) by (apply A1; discriminate); discriminate D). }
        assert (Q := step_root _ _ _ _ X1). rewrite R in Q. destruct Q as [[-> _]|[_ Q]]; [|congruence]. simpl in X2. rewrite K in X2. discriminate.
      * intros w Iw Z. destruct (step_workers _ _ _ _ w X1 Z) as [Y|[Y|(i & src & -> & Y)]]; auto.
        -- exfalso. exact (si_dead _ _ S' w Iw Y).
        -- simpl in X2. rewrite Y in X2. apply andb_true_iff in X2 as [X2 _]. auto.
      * intros w Z I. apply (A3 w Z). assert (Q := step_root _ _ _ _ X1). unfold todo in *. destruct (sroot (e_s e)); auto.
        -- destruct Q as [[_ Q]|[_ Q]]; rewrite Q in I; auto.
        -- destruct Q as (Q & _). apply Q. exact I.
        -- destruct Q as [Q|Q]; rewrite Q in I; destruct I.
        -- rewrite Q in I. destruct I.
Qed.

(** ** After the return of shutdown *)

Lemma stopped_ran s : SI s -> mstopped (smon s (s_rmon c)) = true -> forall w, In w W -> ran s w = 1.
Proof.
  intros I St w Hw. destruct (si_stopped _ _ I St) as (L & _). assert (A := all_acked c s I L w Hw). assert (B := si_ack _ _ I w Hw).
  assert (R : ran s w <= 1) by (unfold ran; destruct (sworker s w); auto). lia.
Qed.

Lemma gone_ran s : SI s -> sroot s = RGone -> forall w, In w W -> sworker s w <> WkRun.
Proof.
  intros I R w Hw E. destruct (mstopped (smon s (s_rmon c))) eqn:St.
  - assert (X := stopped_ran s I St w Hw). unfold ran in X. rewrite E in X. discriminate.
  - destruct (si_going _ _ I St) as (_ & _ & _ & X). unfold rleft in X. rewrite R in X. discriminate.
Qed.

Lemma returned_cancelled ops : returned (erun ops) -> forall w, In w W -> e_cancelled (erun ops) w = true.
Proof. intros R w Hw. apply (i_ready _ (ei_run ops)); auto. apply gone_ran; auto. apply es_si. Qed.

Lemma returned_idle ops : returned (erun ops) -> forall w, In w W -> ~ busy (erun ops) w.
Proof. intros R w Hw B. apply B. apply (i_quit _ (ei_run ops)). apply returned_cancelled; auto. Qed.

Lemma returned_step ops o : returned (erun ops) -> returned (erun (ops ++ [o])) /\ n_hist (e_n (erun (ops ++ [o]))) = n_hist (e_n (erun ops)).
Proof.
  intros R. rewrite erun_snoc. assert (Ca := returned_cancelled ops R). destruct (ei_run ops) as [A1 A2 A3 A4 A5 A6]. set (e := erun ops) in *.
  destruct (step_cases c body big e o) as [E|o' E X1 X2 X3|src p E X1 X2|fr E X1 X2|i src p E X1 X2 X3 X4 X5 X6|a s E X1 X2]; try rewrite E in *; auto.
  - intros p X. apply (A6 p X).
  - split; auto. simpl. assert (N : ~ In (who o') W) by (intros I; rewrite (Ca _ I) in X1; discriminate).
    destruct X3 as [X3|X3]; [tauto|]. assert (Cd : e_called e = true) by (apply A1; rewrite R; discriminate).
    destruct (p_cur (n_proc (e_n e) (who o'))) as [fr|] eqn:F; [|rewrite (quit_still c body _ (who o')); auto].
    destruct (A5 (who o')) as [Z|Z]; [congruence| |tauto]. destruct o' as [p dest|src p|src p]; simpl in Z; subst p; simpl in *.
    + exfalso. apply (X2 eq_refl Cd dest). auto.
    + exfalso. apply (X3 src). auto.
    + destruct (n_rep (e_n e) src 0) as [|[d v] l]; auto. rewrite F. rewrite (A4 Cd _ F). auto.
  - split; auto. unfold returned in *. simpl. assert (Q := step_root _ _ _ _ X1). rewrite R in Q. auto.
Qed.

Theorem returned_quiet ops : returned (erun ops) -> (forall w, In w W -> ~ busy (erun ops) w) /\
  forall more, n_hist (e_n (erun (ops ++ more))) = n_hist (e_n (erun ops)).
Proof.
  intros R. split; [apply returned_idle; auto|]. intros more.
  assert (X : returned (erun (ops ++ more)) /\ n_hist (e_n (erun (ops ++ more))) = n_hist (e_n (erun ops))); [|apply X].
  induction more as [|o more [IH1 IH2]] using rev_ind; [rewrite app_nil_r; auto|].
  rewrite app_assoc. destruct (returned_step _ o IH1) as [Y1 Y2]. split; auto. congruence.
Qed.

(** ** Nothing can happen any more *)

Section Stuck.
Hypothesis body_ok : forall f a k, refs a = [] -> refs k = [] -> refless (body f a k).
Hypothesis main_ok : refless main.
Hypothesis body_closed : forall f a k, refs a = [] -> refs k = [] -> closed [] [] (body f a k).
Hypothesis main_closed : closed [] [] main.
Variable ops : list eop.
Notation e := (erun ops).
Hypothesis fit : results_fit (n_hist (e_n e)).
Hypothesis St : stuck c body big e.
Variables w1 w2 : rank.
Hypothesis I1 : In w1 W.
Hypothesis I2 : In w2 W.
Hypothesis I12 : w1 <> w2.

Lemma live_e : exists n, Live W n /\ Mail n /\ Sim c (e_cancelled e) n (e_n e) /\ Fresh n.
Proof.
  destruct (simulated c body big main g ops) as (ops' & _ & S & _). exists (nrun W body main ops'). split; [|split; [|split; [exact S|apply run_fresh]]].
  - apply (run_live W body main no_root body_ok main_ok body_closed main_closed). rewrite (m_hist _ _ _ _ S). exact fit.
  - apply run_mail. apply no_root.
Qed.

Lemma run_moves x p fr : p_cur (n_proc x p) = Some fr -> f_get fr = None -> n_dead x p = false -> f_rest fr <> LMain ->
  (forall dest, nstep W body x (NRun p dest) = x) -> False.
Proof.
  intros Ec Eg D Nr S.
  assert (Nh : forall dest, n_hist (nstep W body x (NRun p dest)) = n_hist x) by (intros dest; rewrite S; auto).
  assert (Ng : forall dest fr', p_cur (n_proc (nstep W body x (NRun p dest)) p) = Some fr' -> f_get fr' = None) by (intros dest fr'; rewrite S, Ec; intros E; apply Some_inj in E as <-; auto).
  simpl in Nh, Ng. rewrite Ec, D, Eg in Nh, Ng. destruct (f_act fr) as [r|v k|f a kw m k|ds k] eqn:Ea.
  - destruct (f_rest fr) eqn:Er; [congruence| |]; specialize (Nh 0);
      destruct (looped_hist x p (leave body p (n_proc x p) fr r (n_runs x)) (n_chan x) [(f_run fr, HEnd r)]) as [h' E]; rewrite E in Nh; (eapply longer; [|exact Nh]; discriminate).
  - specialize (Nh 0). unfold call_api in Nh. rewrite Ea in Nh. simpl in Nh. eapply longer; [|exact Nh]; discriminate.
  - assert (X : exists dest, In dest W /\ dest <> p) by (destruct (Nat.eq_dec w1 p) as [->|]; [exists w2; auto|exists w1; auto]).
    destruct X as (dest & Id & Nd). specialize (Nh dest). unfold call_api in Nh. rewrite Ea in Nh.
    assert (Ex : existsb (Nat.eqb dest) W = true) by (apply existsb_exists; exists dest; split; auto; apply Nat.eqb_refl).
    apply Nat.eqb_neq in Nd. rewrite Ex, Nd in Nh. cbn [negb orb] in Nh. destruct (push_all _ _ _) as [[w l] [|]]; simpl in Nh; (eapply longer; [|exact Nh]; discriminate).
  - specialize (Nh 0). specialize (Ng 0). unfold call_api in Nh, Ng. rewrite Ea in Nh, Ng. destruct (filter _ ds) as [|y r] eqn:Ms.
    + simpl in Nh. eapply longer; [|exact Nh]; discriminate.
    + destruct (ask_owners _ _) as [l [|]]; simpl in Nh, Ng; [|eapply longer; [|exact Nh]; discriminate].
      rewrite upd_p in Ng. specialize (Ng _ eq_refl). discriminate Ng.
Qed.

Lemma take_moves x src p m ms : n_chan x src p = m :: ms -> p_cur (n_proc x p) = None -> n_dead x p = false -> p <> 0 -> src <> p -> nstep W body x (NTake src p) <> x.
Proof.
  intros Hc Ec D Np Ns S. simpl in S. rewrite Hc, Ec, D in S. apply Nat.eqb_neq in Np. rewrite Np in S. simpl in S.
  apply (f_equal (fun n => n_chan n src p)) in S. rewrite looped_chan in S by auto. unfold drop_head in S. rewrite !Nat.eqb_refl, Hc in S. simpl in S.
  apply (f_equal (@length _)) in S. simpl in S. lia.
Qed.

Hypothesis nobody : forall w, In w W -> ~ in_get (e_n e) w.

Lemma prog_still o : prog c body e o = e.
Proof. apply (St (EProg o)). discriminate. Qed.

Lemma workers_idle w : In w W -> p_cur (n_proc (e_n e) w) = None /\ n_dead (e_n e) w = false.
Proof.
  intros Hw. destruct live_e as (n & L & _ & S & _). assert (D : n_dead (e_n e) w = false) by (rewrite <- (m_dead _ _ _ _ S); apply (v_dead _ _ L)). split; auto.
  destruct (p_cur (n_proc (e_n e) w)) as [fr|] eqn:F; auto. exfalso.
  destruct (e_cancelled e w) eqn:Ca; [destruct (i_quit _ (ei_run ops) w Ca); congruence|].
  assert (Nw : w <> 0) by (intros ->; apply no_root; auto).
  apply (run_moves (e_n e) w fr); auto.
  - destruct (f_get fr) eqn:G; auto. exfalso. apply (nobody w Hw). exists fr. split; auto. congruence.
  - intros R. assert (M := v_main _ _ L w). rewrite (m_proc _ _ _ _ S w Ca), F in M. apply M in R. auto.
  - intros dest. assert (P := prog_still (NRun w dest)). unfold prog in P. apply Nat.eqb_neq in Nw. unfold ROOT in P. rewrite Nw in P. simpl in P.
    apply (f_equal e_n) in P. exact P.
Qed.

Lemma chan_free w src : In w W -> ~ finishing e w -> sworker (e_s e) w <> WkGone -> n_chan (e_n e) src w = [].
Proof.
  intros Hw Nf Ng. destruct (workers_idle w Hw) as [F D]. destruct live_e as (n & L & _ & S & _).
  destruct (n_chan (e_n e) src w) as [|m ms] eqn:C; auto. exfalso. assert (P := prog_still (NTake src w)). unfold prog in P.
  rewrite (proj2 (mem_rank_In w W) Hw) in P. destruct (e_cancelled e w) eqn:Ca.
  - destruct (sworker (e_s e) w) eqn:Sw; try congruence.
    + apply Nf. split; auto.
    + rewrite C in P. apply (f_equal (fun e => n_chan (e_n e) src w)) in P. simpl in P. unfold drop_head in P. rewrite !Nat.eqb_refl, C in P. simpl in P.
      apply (f_equal (@length _)) in P. simpl in P. lia.
    + apply (si_dead _ _ (es_si ops) w Hw Sw).
  - apply (f_equal e_n) in P. simpl in P. eapply take_moves; [exact C|exact F|exact D| | |exact P].
    + intros ->. apply no_root; auto.
    + apply (a_self _ _ _ _ _ _ (v_net _ _ L) src w m). destruct (m_chan _ _ _ _ S src w) as (l & -> & _). apply in_or_app. right. rewrite C. simpl; auto.
Qed.

Lemma not_all_sent p : all_sent c big (e_n e) p = false -> exists b m, In b W /\ In m (n_chan (e_n e) p b) /\ big m = true.
Proof.
  intros E. unfold all_sent in E. apply not_true_iff_false in E. destruct live_e as (n & L & M & S & _).
  assert (X : exists b, In b (ROOT :: W) /\ forallb (fun m => negb (big m)) (n_chan (e_n e) p b) = false).
  { clear -E. revert E. generalize (ROOT :: W) as l. induction l as [|x l IH]; intros E; [exfalso; apply E; reflexivity|]. simpl in E.
    destruct (forallb (fun m => negb (big m)) (n_chan (e_n e) p x)) eqn:F; [|exists x; simpl; auto]. destruct IH as (b & B1 & B2); [exact E|]. exists b. simpl; auto. }
  destruct X as (b & B1 & B2).
  assert (Y : exists m, In m (n_chan (e_n e) p b) /\ big m = true).
  { clear -B2. revert B2. generalize (n_chan (e_n e) p b) as l. induction l as [|x l IH]; simpl; [discriminate|]. destruct (big x) eqn:B; simpl; intros E; [exists x; auto|].
    destruct (IH E) as (m & M1 & M2). exists m. auto. }
  destruct Y as (m & M1 & M2). exists b, m. split; auto. destruct B1 as [<-|B1]; auto. exfalso.
  destruct (m_chan _ _ _ _ S p ROOT) as (l & Ec & _). assert (Z := z_root _ M p). unfold ROOT in *. rewrite Z in Ec.
  destruct (n_chan (e_n e) p 0); [destruct M1|]. destruct l; discriminate.
Qed.

Lemma app_len {A} (l : list A) x r : l ++ x :: r <> l.
Proof. intros E. apply (f_equal (@length A)) in E. rewrite app_length in E. simpl in E. lia. Qed.

Lemma shut_still a : (forall r m, a <> AOther r m) -> may c big e a = true -> sstep c (e_s e) a = None.
Proof.
  intros N M. assert (P := St (EShut a) ltac:(intros r m X; inversion X; eapply N; eauto)). simpl in P. rewrite M in P.
  destruct (sstep c (e_s e) a) as [s|] eqn:E; auto. exfalso. apply (f_equal e_s) in P. simpl in P. subst s. destruct a as [| |i|r m]; simpl in E.
  - destruct (sroot (e_s e)) eqn:R; try discriminate. apply Some_inj in E. apply (f_equal sroot) in E. simpl in E. congruence.
  - destruct (sroot (e_s e)) as [|[|w l]| |] eqn:R; try discriminate; apply Some_inj in E; apply (f_equal sroot) in E; simpl in E; rewrite R in E; [discriminate|].
    injection E as E. apply (f_equal (@length _)) in E. simpl in E. lia.
  - assert (Q := step_log c (e_s e) (ADeliver i) (e_s e) E). destruct Q as (l & F & [[Q Na]|(j & src & dst & m & Ej & Nn & Q)]).
    + eapply Na; eauto.
    + symmetry in Q. revert Q. apply app_len.
  - eapply N; eauto.
Qed.

Hypothesis called : e_called e = true.

Lemma started_already : sroot (e_s e) <> RRun.
Proof.
  intros R. destruct (all_sent c big (e_n e) ROOT) eqn:A.
  - assert (X := shut_still AStart ltac:(discriminate)). simpl in X. rewrite called, A, R in X. specialize (X eq_refl). discriminate.
  - apply not_all_sent in A as (b & m & Hb & M & _). assert (N : e_cancelled e b = false).
    { destruct (e_cancelled e b) eqn:Ca; auto. exfalso. apply (i_todo _ (ei_run ops) b Ca). unfold todo. rewrite R. auto. }
    assert (Nw : sworker (e_s e) b = WkRun).
    { destruct (sworker (e_s e) b) eqn:Sw; auto; exfalso; assert (Z : e_cancelled e b = true) by (apply (i_ready _ (ei_run ops)); auto; congruence); congruence. }
    rewrite (chan_free b ROOT) in M; [destruct M|auto|intros [Z _]; congruence|congruence].
Qed.

(** A worker in the middle of CANCEL waits for another one. *)
Lemma waits_other i src p : nth_error (snet (e_s e)) i = Some (src, p, SCancel) ->
  finishing e p /\ exists w m, In p W /\ In w W /\ finishing e w /\ In m (n_chan (e_n e) p w) /\ big m = true.
Proof.
  intros E. assert (S := es_si ops). assert (F := si_wf _ _ S). rewrite Forall_forall in F. assert (E' := nth_error_In _ _ E). specialize (F _ E').
  assert (X : src = ROOT /\ In p W) by (destruct F as [(w & ? & F)|[(w & ? & F)|[(w & ? & F)|F]]]; inversion F; subst; auto). destruct X as [-> Hp]. clear F.
  assert (R : ran (e_s e) p = 0).
  { assert (B := si_cancel _ _ S p Hp). apply (count_occ_In mdec) in E'. unfold cn in B. lia. }
  assert (Run : sworker (e_s e) p = WkRun) by (unfold ran in R; destruct (sworker (e_s e) p); auto; discriminate).
  destruct (workers_idle p Hp) as [Ic Dc].
  assert (Ca : e_cancelled e p = true).
  { destruct (e_cancelled e p) eqn:Ca; auto. exfalso. assert (P := St (ECancel i) ltac:(discriminate)). simpl in P. unfold take_cancel in P.
    rewrite E, (proj2 (mem_rank_In p W) Hp), Ca in P. unfold listens in P.
    rewrite Ic, Dc, (chan_free p ROOT) in P; auto; [|intros [Z _]; congruence|congruence]. simpl in P.
    apply (f_equal (fun x => e_cancelled x p)) in P. simpl in P. rewrite fupd_same in P. congruence. }
  assert (Fp : finishing e p) by (split; auto). split; auto.
  destruct (all_sent c big (e_n e) p) eqn:A.
  - exfalso. assert (X := shut_still (ADeliver i) ltac:(discriminate)). simpl in X. rewrite E, Ca, A in X. specialize (X eq_refl).
    destruct (Nat.eqb_spec p ROOT) as [Z|_]; [subst p; apply no_root; auto|]. rewrite (proj2 (mem_rank_In p W) Hp) in X. unfold worker_recv in X. simpl in X.
    rewrite Run in X. discriminate.
  - apply not_all_sent in A as (b & m & Hb & M & Bm). exists b, m. split; auto. split; auto. split; auto.
    destruct (e_cancelled e b) eqn:Cb.
    + destruct (sworker (e_s e) b) eqn:Sb; [split; auto| | |]; exfalso.
      * rewrite (chan_free b p) in M; [destruct M|auto|intros [_ Z]; congruence|congruence].
      * destruct (mstopped (smon (e_s e) (s_rmon c))) eqn:Ms.
        -- assert (Z := stopped_ran _ S Ms p Hp). congruence.
        -- destruct (si_going _ _ S Ms) as (_ & Z & _). destruct (Z b) as [_ Z2].
           ++ apply T_In. split; auto. intros ->. eapply rm_W; eauto.
           ++ unfold left in Z2. destruct (in_dec rdec b W); [|tauto]. rewrite Sb in Z2. discriminate.
      * apply (si_dead _ _ S b Hb Sb).
    + exfalso. rewrite (chan_free b p) in M; [destruct M|auto|intros [Z _]; congruence|].
      intros Z. assert (Y : e_cancelled e b = true) by (apply (i_ready _ (ei_run ops)); auto; congruence). congruence.
Qed.

Lemma deliver_still i : (forall src p, nth_error (snet (e_s e)) i <> Some (src, p, SCancel)) -> sstep c (e_s e) (ADeliver i) = None.
Proof.
  intros N. apply shut_still; [discriminate|]. simpl. destruct (nth_error (snet (e_s e)) i) as [[[src p] m]|] eqn:E; auto.
  destruct m; auto; [exfalso; eapply N; eauto|]. destruct (mem_rank p W) eqn:Mp; auto. simpl. apply mem_rank_In in Mp.
  destruct (workers_idle p Mp) as [Ic Dc]. unfold listens. rewrite Ic, Dc.
  assert (S := es_si ops). assert (F := si_wf _ _ S). rewrite Forall_forall in F. assert (E' := nth_error_In _ _ E). specialize (F _ E').
  assert (X : src = s_rmon c) by (destruct F as [(w & ? & F)|[(w & ? & F)|[(w & ? & F)|F]]]; inversion F; auto). subst src.
  assert (Tp : In p (stop_targets (mcfg_of c (s_rmon c)))) by (apply T_In; split; auto; intros ->; eapply rm_W; eauto).
  apply (count_occ_In mdec) in E'. destruct (mstopped (smon (e_s e) (s_rmon c))) eqn:Ms.
  - assert (R := stopped_ran _ S Ms p Mp). destruct (si_stopped _ _ S Ms) as (_ & Z & _). specialize (Z p Tp). unfold cn in Z.
    assert (L0 : left c (e_s e) p = 0) by lia. unfold left in L0. destruct (in_dec rdec p W); [|tauto].
    rewrite (chan_free p); [reflexivity|auto| |].
    + intros [_ Y]. unfold ran in R. rewrite Y in R. discriminate.
    + intros Y. rewrite Y in L0. discriminate.
  - exfalso. destruct (si_going _ _ S Ms) as (_ & Z & _). destruct (Z p Tp) as [Z1 _]. unfold cn in Z1. lia.
Qed.

Lemma cancel_search (l : list (rank * rank * smsg)) : (exists i src p, nth_error l i = Some (src, p, SCancel)) \/ (forall i src p, nth_error l i <> Some (src, p, SCancel)).
Proof.
  induction l as [|[[a b] m] l IH]; [right; intros [|i]; discriminate|]. destruct m.
  - left. exists 0, a, b. reflexivity.
  - destruct IH as [(i & src & p & IH)|IH]; [left; exists (S i); eauto|]. right. intros [|i] src p; simpl; [discriminate|auto].
  - destruct IH as [(i & src & p & IH)|IH]; [left; exists (S i); eauto|]. right. intros [|i] src p; simpl; [discriminate|auto].
  - destruct IH as [(i & src & p & IH)|IH]; [left; exists (S i); eauto|]. right. intros [|i] src p; simpl; [discriminate|auto].
Qed.

Lemma stuck_end : s_rmon c = MONITOR ->
  (returned e /\ forall r, In r (W ++ s_monitors c) -> gone c (e_s e) r) \/
  exists w w' m, In w W /\ In w' W /\ finishing e w /\ finishing e w' /\ In m (n_chan (e_n e) w w') /\ big m = true.
Proof.
  intros Em. destruct (cancel_search (snet (e_s e))) as [(i & src & p & E)|N].
  - right. destruct (waits_other i src p E) as (Fp & w & m & A & B & C & D & G). exists p, w, m. tauto.
  - left. destruct (simulated c body big main g ops) as (_ & acts & _ & Es).
    assert (Q : quiet c (e_s e)).
    { split; [|split].
      - simpl. assert (R := started_already). destruct (sroot (e_s e)); auto. congruence.
      - apply shut_still; [discriminate|reflexivity].
      - intros i. apply deliver_still. intros; apply N. }
    assert (R := started_already). assert (D := quiet_done c ok g acts). rewrite <- Es in D.
    destruct D as [D1 D2]; auto; [intros Z; rewrite Z in I1; destruct I1|]. split; auto. intros r Hr. apply D2; auto.
Qed.
End Stuck.

End End.
