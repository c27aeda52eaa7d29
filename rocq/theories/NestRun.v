(** The invariant of NestLive along every execution. *)
From Verif Require Import Lib ShmModel ShmRaceProofs ValModel WorkerModel WorkerSpec WorkerProofs WorkerWant WorkerAnswer ClusterModel ClusterNet
  NestModel NestSpec NestProofs NestOnce NestThms NestNet NestLoop NestLive NestStep NestCall NestTurn.

Lemma fit_prefix H h : results_fit (H ++ h) -> results_fit H.
Proof. intros R t o q t' r I J K. eapply R; apply in_or_app; left; eauto. Qed.

Section Run.
Variable workers : list rank.
Variable body : val -> val -> val -> act.
Variable main : act.
Hypothesis no_root : ~ In 0 workers.
Hypothesis body_ok : forall f a k, refs a = [] -> refs k = [] -> refless (body f a k).
Hypothesis main_ok : refless main.
Hypothesis body_closed : forall f a k, refs a = [] -> refs k = [] -> closed [] [] (body f a k).
Hypothesis main_closed : closed [] [] main.

Notation Live := (Live workers).
Notation nstep := (nstep workers body).

Lemma looped_hist n p x ch h : exists h', n_hist (looped n p x ch h) = n_hist n ++ h ++ h'.
Proof.
  destruct x as [[s [i|]]|]; simpl.
  - exists [(n_runs n, HStart i)]. auto.
  - exists []. rewrite app_nil_r. auto.
  - exists []. rewrite app_nil_r. auto.
Qed.

Lemma hist_step n o : exists h, n_hist (nstep n o) = n_hist n ++ h.
Proof.
  destruct o as [p dest|src p|src p]; simpl.
  - destruct (p_cur (n_proc n p)) as [fr|]; [|exists []; rewrite app_nil_r; auto]. destruct (n_dead n p); [exists []; rewrite app_nil_r; auto|].
    destruct (f_get fr); [exists []; rewrite app_nil_r; auto|].
    destruct (f_act fr) as [r|v k|f a kw m k|ds k] eqn:A.
    + destruct (f_rest fr); [exists []; rewrite app_nil_r; auto| |]; destruct (looped_hist n p (leave body p (n_proc n p) fr r (n_runs n)) (n_chan n) [(f_run fr, HEnd r)]) as [h' E]; rewrite E; eauto.
    + destruct (call_api _ _ _ _ _ _) as [[[[s out] sub] h]|]; simpl; eauto. exists []. rewrite app_nil_r; auto.
    + destruct (call_api _ _ _ _ _ _) as [[[[s out] sub] h]|]; simpl; eauto. exists []. rewrite app_nil_r; auto.
    + destruct (call_api _ _ _ _ _ _) as [[[[s out] sub] h]|]; simpl; eauto. exists []. rewrite app_nil_r; auto.
  - destruct (n_chan n src p) as [|m ms]; [exists []; rewrite app_nil_r; auto|]. destruct (p_cur (n_proc n p)); [exists []; rewrite app_nil_r; auto|].
    destruct (Nat.eqb p 0 || n_dead n p); [exists []; rewrite app_nil_r; auto|].
    destruct (looped_hist n p (serve body p (n_proc n p) m (n_runs n)) (drop_head (n_chan n) src p) []) as [h' E]; rewrite E; eauto.
  - destruct (n_rep n src p) as [|[d v] l]; [exists []; rewrite app_nil_r; auto|]. destruct (p_cur (n_proc n p)) as [fr|]; [|exists []; rewrite app_nil_r; auto].
    destruct (f_get fr) as [g|]; [|exists []; rewrite app_nil_r; auto]. destruct (f_act fr) as [r|u k|f a kw m k|ds k]; try (exists []; rewrite app_nil_r; auto; fail).
    destruct (receive _ _ _ _ _ _) as [s h]. simpl. eauto.
Qed.

Lemma live_step n o : Live n -> NI body main n -> Fresh n -> results_fit (n_hist (nstep n o)) -> Live (nstep n o).
Proof using no_root body_ok body_closed.
  intros L Ni F Rf. destruct o as [p dest|src p|src p]; simpl in *.
  - destruct (p_cur (n_proc n p)) as [fr|] eqn:Ec; auto. rewrite (v_dead _ _ L) in *. destruct (f_get fr) eqn:Eg; auto.
    destruct (f_act fr) as [r|v k|f a kw m k|ds k] eqn:Ea.
    + destruct (f_rest fr) eqn:Er; auto; (apply (live_leave workers body main body_closed); auto; [congruence|]; revert Rf;
        match goal with |- results_fit (n_hist ?x) -> _ => destruct (looped_hist n p (leave body p (n_proc n p) fr r (n_runs n)) (n_chan n) [(f_run fr, HEnd r)]) as [h' E] end;
        rewrite E, app_assoc; apply fit_prefix).
    + unfold call_api. rewrite Ea. apply live_put; auto.
    + destruct (call_api workers p (n_proc n p) fr dest (n_tasks n)) as [[[[s out] sub] h]|] eqn:E; auto. eapply (live_submit workers body main); eauto.
    + destruct (call_api workers p (n_proc n p) fr dest (n_tasks n)) as [[[[s out] sub] h]|] eqn:E; auto. eapply live_get_call; eauto.
  - destruct (n_chan n src p) as [|m ms] eqn:Hc; auto. destruct (p_cur (n_proc n p)) as [fr|] eqn:Ec; auto.
    destruct (Nat.eqb p 0) eqn:Z; simpl; auto. rewrite (v_dead _ _ L). apply Nat.eqb_neq in Z. eapply live_take; eauto.
  - destruct (n_rep n src p) as [|[d v] l] eqn:Hr; auto. destruct (p_cur (n_proc n p)) as [fr|] eqn:Ec; auto.
    destruct (f_get fr) as [g|] eqn:Eg; auto. destruct (f_act fr) as [r|u k|f a kw m k|ds k] eqn:Ea; auto.
    destruct (receive (n_proc n p) fr g k d v) as [s h] eqn:E. eapply live_receive; eauto.
Qed.

Lemma live_init : Live (ninit main).
Proof using main_closed.
  assert (Wn : forall p, wantof (n_proc (ninit main) p) = []) by (intros p; unfold wantof; simpl; destruct (Nat.eqb p 0); auto).
  assert (Ln : forall p, line (n_proc (ninit main) p) = []) by (intros p; unfold line; simpl; destruct (Nat.eqb p 0); auto).
  assert (Rn : forall p, resting (n_proc (ninit main) p) = []) by (intros p; unfold resting; simpl; destruct (Nat.eqb p 0); auto).
  split.
  - reflexivity.
  - intros t e [].
  - intros t o q [].
  - intros p q. rewrite Ln. intros [].
  - intros a b l1 q l2 E. simpl in E. destruct l1; discriminate.
  - intros a b. rewrite Ln. constructor.
  - intros p q. rewrite Rn. intros [].
  - reflexivity.
  - intros p. simpl. destruct (Nat.eqb p 0) eqn:Z; [apply Nat.eqb_eq in Z; simpl; tauto|apply Nat.eqb_neq; auto].
  - intros p fr E. simpl in E. destruct (Nat.eqb p 0); [|discriminate]. apply Some_inj in E as <-. exists [], []. simpl. split; auto. split; [intros ? []|]. split; [intros ? []|auto].
  - intros t o q [].
  - discriminate.
  - intros a b d v [].
  - intros a b d v [].
  - split; try (simpl; intros; exfalso; assumption).
    + discriminate.
    + intros p d. rewrite Wn. intros [].
    + split.
      * intros [a b|p|a b] i; simpl; auto.
      * intros [a b|p|a b] l' i [].
      * intros [a b|p|a b] i [].
      * intros [p d] [I _]. unfold fst in I. rewrite Wn in I. destruct I.
Qed.

Theorem run_live ops : results_fit (n_hist (nrun workers body main ops)) -> Live (nrun workers body main ops).
Proof using no_root body_ok main_ok body_closed main_closed.
  induction ops as [|o ops IH] using rev_ind; intros R; [exact live_init|].
  assert (E : nrun workers body main (ops ++ [o]) = nstep (nrun workers body main ops) o) by (unfold nrun; rewrite fold_left_app; reflexivity).
  rewrite E in *. destruct (hist_step (nrun workers body main ops) o) as [h Eh]. apply live_step; auto.
  - apply IH. rewrite Eh in R. eapply fit_prefix; eauto.
  - apply run_ni; auto.
  - apply run_fresh.
Qed.

(** ** States in which nobody can go on *)

Section Stuck.
Variable n : nst.
Hypothesis L : Live n.
Hypothesis F : Fresh n.
Hypothesis Id : idle n.
Notation H := (n_hist n).

Lemma produced_worker d o : produced H d o -> In o workers /\ o <> 0.
Proof using no_root L.
  intros (t & q & I & _). apply (v_sub _ _ L) in I as (I & _). split; auto. intros ->. auto.
Qed.

(** Messages wait only for a worker whose task is in get. *)
Lemma waits o src m : o <> 0 -> In m (n_chan n src o) -> in_get n o.
Proof using Id L.
  intros No I. specialize (Id o). assert (M := v_main _ _ L o). destruct (p_cur (n_proc n o)) as [fr|] eqn:E.
  - destruct Id as [[A _]|[A _]]; [apply M in A; congruence|]. exists fr. auto.
  - rewrite (Id No src) in I. destruct I.
Qed.

Lemma chase k : forall t o q c, q_id q < k -> In (t, HSubmit o q) H -> c <> o -> (forall d, In d (qrefs q ++ outs q) -> fst d = c) ->
  (ended H (q_id q) /\ forall d, In d (outs q) -> store (p_w (n_proc n o)) d <> None) \/ exists w, w <> 0 /\ w <> c /\ in_get n w.
Proof using no_root L F Id.
  induction k as [|k IH]; intros t o q c Lt I Nc Hc; [lia|].
  destruct (v_sub _ _ L _ _ _ I) as (Iw & _ & Or). assert (No : o <> 0) by (intros ->; auto).
  destruct (v_task _ _ L _ _ _ I) as [(a & J)|[(q' & J1 & J2)|J]]; [| |left; exact J].
  - right. exists o. split; auto. split; auto. eapply waits; eauto.
  - right. destruct (p_cur (n_proc n o)) as [fr|] eqn:Ec.
    { exists o. split; auto. split; auto. specialize (Id o). assert (M := v_main _ _ L o). rewrite Ec in Id, M.
      destruct Id as [[A _]|[A _]]; [apply M in A; congruence|]. exists fr. auto. }
    assert (Q : In q' (resting (n_proc n o))) by (unfold resting, line in *; rewrite Ec in *; auto).
    destruct (v_line _ _ L _ _ J1) as ((t0 & q0 & I0 & (Q1 & _ & _ & Q2)) & _ & Cv).
    destruct (submit_same n t0 t o o q0 q F I0 I ltac:(congruence)) as [_ ->].
    destruct (v_rest _ _ L _ _ Q) as (d & D1 & D2). assert (Dc : fst d = c) by (apply Hc; apply in_or_app; auto).
    assert (K : forall o', produced H d o' -> store (p_w (n_proc n o')) d = None -> exists w, w <> 0 /\ w <> c /\ in_get n w).
    { intros o' Po Sn. destruct (Or d (Q2 _ D1)) as [Z|(t2 & o2 & q2 & I2 & O2 & L2)].
      - exfalso. destruct Z as (tz & vz & Z). destruct Po as (tp & qp & Ip & Op). assert (E := nodup_flat _ _ _ _ d (fr_made n F) Z Ip ltac:(simpl; auto) Op). discriminate E.
      - assert (o2 = o') by (eapply (produced_one n F); [exists t2, q2; eauto|exact Po]). subst o2.
        destruct (v_sub _ _ L _ _ _ I2) as (_ & (c2 & Nc2 & Hc2) & _). assert (c2 = c) by (rewrite <- Dc; symmetry; apply Hc2; apply in_or_app; auto). subst c2.
        destruct (IH t2 o' q2 c ltac:(lia) I2 Nc2 Hc2) as [[_ X]|X]; auto. exfalso. apply (X d O2). exact Sn. }
    destruct (Cv d D1) as [X|[X|X]]; [congruence| |].
    + apply (K o); auto. apply (a_owner _ _ _ _ _ _ (v_net _ _ L) o). exact X.
    + destruct (a_reqs _ _ _ _ _ _ (v_net _ _ L) o d X) as (_ & _ & o' & X1 & X2 & [X3|[X3|(v & X3)]]).
      * apply (a_owner _ _ _ _ _ _ (v_net _ _ L)) in X1. exists o'. destruct (produced_worker _ _ X1) as [_ N0]. split; auto. split; [|eapply waits; eauto].
        intros ->. apply (produced_fst _ n L _ _ X1). auto.
      * apply (a_gets _ _ _ _ _ _ (v_net _ _ L)) in X3 as (_ & _ & _ & X4 & [X5|[]]). eapply K; eauto.
      * exfalso. specialize (Id o). rewrite Ec in Id. rewrite (Id No) in X3. destruct X3.
Qed.

(** One that waits in get waits because of another. *)
Lemma another p : in_get n p -> exists w, w <> 0 /\ w <> p /\ in_get n w.
Proof using no_root L F Id.
  intros (fr & Ec & Eg). destruct (f_get fr) as [g|] eqn:G; [|congruence].
  destruct (v_frame _ _ L _ _ Ec) as (pu & ou & _ & _ & _ & Fg). rewrite G in Fg. destruct Fg as (_ & _ & _ & Fl & Fp).
  destruct (missing (p_w (n_proc n p)) (t_ids g)) as [|d ms] eqn:Ms; [simpl in Fl; lia|].
  assert (Im : In d (missing (p_w (n_proc n p)) (t_ids g))) by (rewrite Ms; simpl; auto). apply in_missing in Im as [Im Sn].
  assert (Wp : wantof (n_proc n p) = t_ids g) by (unfold wantof; rewrite Ec, G; auto). assert (N := v_net _ _ L).
  assert (Fd : fst d = p) by (apply (a_want _ _ _ _ _ _ N p d); rewrite Wp; auto).
  destruct (t_have _ _ (a_tok _ _ _ _ _ _ N) (p, d)) as [[a b|r|a b] J]; [split; simpl; rewrite ?Wp; auto| | |]; simpl in J.
  - apply in_asks in J. destruct (a_get _ _ _ _ _ _ N _ _ _ _ _ J) as (-> & Nb & Pb & _). exists b. destruct (produced_worker _ _ Pb) as [_ Nz].
    split; auto. split; auto. eapply waits; eauto.
  - apply in_unanswered in J as [J _]. destruct (a_bgets _ _ _ _ _ _ N _ _ _ J) as (_ & _ & (t & q & I & O) & [S|[]]).
    destruct (v_sub _ _ L _ _ _ I) as (_ & (c & Nc & Hc) & _). assert (c = p) by (rewrite <- Fd; symmetry; apply Hc; apply in_or_app; auto). subst c.
    destruct (chase (Datatypes.S (q_id q)) t r q p ltac:(lia) I Nc Hc) as [[_ X]|X]; auto. exfalso. exact (X d O S).
  - apply in_map_iff in J as ([d' v] & E & J). apply pair_inj in E as [-> _]. exfalso. specialize (Id p). rewrite Ec in Id. destruct Id as [(_ & Z & _)|[_ Z]]; [congruence|].
    rewrite Z in J. destruct J.
Qed.

Lemma idle_done : (forall p p', p <> 0 -> p' <> 0 -> in_get n p -> in_get n p' -> p = p') -> all_done n.
Proof using no_root L F Id.
  intros One. assert (No : forall p, p <> 0 -> ~ in_get n p).
  { intros p Np G. destruct (another p G) as (w & Nw & Nwp & Gw). apply Nwp. apply One; auto. }
  split.
  - assert (M := v_main _ _ L 0). assert (I0 := Id 0). destruct (p_cur (n_proc n 0)) as [fr|] eqn:Ec; [|congruence].
    destruct I0 as [(_ & G & r & A)|[G _]]; [exists fr, r; auto|]. destruct (another 0) as (w & Nw & _ & Gw); [exists fr; auto|]. exfalso. eapply No; eauto.
  - intros t o q I. destruct (v_sub _ _ L _ _ _ I) as (_ & (c & Nc & Hc) & _).
    destruct (chase (Datatypes.S (q_id q)) t o q c ltac:(lia) I Nc Hc) as [[(t' & r & X) _]|(w & Nw & _ & Gw)]; [exists t', r; auto|exfalso; eapply No; eauto].
Qed.

End Stuck.

(** ** Nobody can go on: no operation does anything *)

Lemma idle_still n o : idle n -> nstep n o = n.
Proof.
  intros I. destruct o as [p dest|src p|src p]; simpl; specialize (I p).
  - destruct (p_cur (n_proc n p)) as [fr|]; auto. destruct (n_dead n p); auto. destruct I as [(-> & -> & r & ->)|[G _]]; auto. destruct (f_get fr); congruence.
  - destruct (n_chan n src p) as [|m ms] eqn:E; auto. destruct (p_cur (n_proc n p)); auto. destruct (Nat.eqb p 0) eqn:Z; auto. apply Nat.eqb_neq in Z. rewrite (I Z) in E. discriminate.
  - destruct (n_rep n src p) as [|[d v] l] eqn:E; auto. destruct (p_cur (n_proc n p)) as [fr|]; auto. destruct I as [(_ & -> & _)|[_ I]]; auto. rewrite I in E. discriminate.
Qed.

Lemma looped_chan n p x ch h src : src <> p -> n_chan (looped n p x ch h) src p = ch src p.
Proof. intros N. apply Nat.eqb_neq in N. destruct x as [[s [i|]]|]; simpl; rewrite N; reflexivity. Qed.

Lemma longer {A} (l : list A) h : h <> [] -> l ++ h <> l.
Proof. intros N E. apply N. apply (f_equal (@length A)) in E. rewrite app_length in E. destruct h; auto. simpl in E. lia. Qed.

Lemma still_idle n w1 w2 : Live n -> In w1 workers -> In w2 workers -> w1 <> w2 -> (forall o, nstep n o = n) -> idle n.
Proof using.
  intros L I1 I2 Nw St p. destruct (p_cur (n_proc n p)) as [fr|] eqn:Ec.
  - destruct (f_get fr) as [g|] eqn:Eg.
    + right. split; [discriminate|]. intros src. destruct (n_rep n src p) as [|[d v] l] eqn:Hr; auto. exfalso.
      destruct (v_frame _ _ L _ _ Ec) as (pu & ou & _ & _ & _ & Fg). rewrite Eg in Fg. destruct Fg as ((k & Ea) & _).
      specialize (St (NReply src p)). simpl in St. rewrite Hr, Ec, Eg, Ea in St. destruct (receive (n_proc n p) fr g k d v) as [s h] eqn:Er.
      assert (Lg : log (p_w s) = []).
      { unfold receive in Er. destruct (did_in d (t_ids g)); [destruct (t_left g) as [|[|j]]|]; apply pair_inj in Er as [<- _]; reflexivity. }
      apply (f_equal (fun n => n_rep n src p)) in St. simpl in St. rewrite Lg, !Nat.eqb_refl in St. simpl in St. rewrite app_nil_r, Hr in St. simpl in St.
      assert (X : l = (d, v) :: l) by (destruct (Nat.eqb src p); exact St). apply (f_equal (@length _)) in X. simpl in X. lia.
    + left. assert (Y : f_rest fr = LMain /\ exists r, f_act fr = ARet r); [|destruct Y; auto].
      assert (Nh : forall dest, n_hist (nstep n (NRun p dest)) = n_hist n) by (intros dest; rewrite St; auto).
      assert (Ng : forall dest fr', p_cur (n_proc (nstep n (NRun p dest)) p) = Some fr' -> f_get fr' = None) by (intros dest fr'; rewrite St, Ec; intros E; apply Some_inj in E as <-; auto).
      simpl in Nh, Ng. rewrite Ec, (v_dead _ _ L), Eg in Nh, Ng. destruct (f_act fr) as [r|v k|f a kw m k|ds k] eqn:Ea.
      * destruct (f_rest fr) eqn:Er; [eauto| |]; exfalso; specialize (Nh 0);
          destruct (looped_hist n p (leave body p (n_proc n p) fr r (n_runs n)) (n_chan n) [(f_run fr, HEnd r)]) as [h' E]; rewrite E in Nh; (eapply longer; [|exact Nh]; discriminate).
      * exfalso. specialize (Nh 0). unfold call_api in Nh. rewrite Ea in Nh. simpl in Nh. eapply longer; [|exact Nh]; discriminate.
      * exfalso. assert (X : exists dest, In dest workers /\ dest <> p) by (destruct (Nat.eq_dec w1 p) as [->|]; [exists w2; auto|exists w1; auto]).
        destruct X as (dest & Id & Nd). specialize (Nh dest). unfold call_api in Nh. rewrite Ea in Nh.
        assert (Ex : existsb (Nat.eqb dest) workers = true) by (apply existsb_exists; exists dest; split; auto; apply Nat.eqb_refl).
        apply Nat.eqb_neq in Nd. rewrite Ex, Nd in Nh. cbn [negb orb] in Nh. destruct (push_all _ _ _) as [[w l] [|]]; simpl in Nh; (eapply longer; [|exact Nh]; discriminate).
      * exfalso. specialize (Nh 0). specialize (Ng 0). unfold call_api in Nh, Ng. rewrite Ea in Nh, Ng. destruct (filter _ ds) as [|x r] eqn:Ms.
        -- simpl in Nh. eapply longer; [|exact Nh]; discriminate.
        -- destruct (ask_owners _ _) as [l [|]]; simpl in Nh, Ng; [|eapply longer; [|exact Nh]; discriminate].
           rewrite upd_p in Ng. specialize (Ng _ eq_refl). discriminate Ng.
  - intros Np src. destruct (n_chan n src p) as [|m ms] eqn:Hc; auto. exfalso.
    assert (Ns : src <> p) by (apply (a_self _ _ _ _ _ _ (v_net _ _ L) src p m); rewrite Hc; simpl; auto).
    specialize (St (NTake src p)). simpl in St. rewrite Hc, Ec, (v_dead _ _ L) in St. apply Nat.eqb_neq in Np. rewrite Np in St. simpl in St.
    apply (f_equal (fun n => n_chan n src p)) in St. rewrite looped_chan in St by auto. unfold drop_head in St. rewrite !Nat.eqb_refl, Hc in St. simpl in St.
    apply (f_equal (@length _)) in St. simpl in St. lia.
Qed.

Theorem idle_means ops w1 w2 : let n := nrun workers body main ops in results_fit (n_hist n) -> In w1 workers -> In w2 workers -> w1 <> w2 ->
  (idle n <-> forall o, nstep n o = n).
Proof using no_root body_ok main_ok body_closed main_closed.
  intros n R I1 I2 N. split; [intros I o; apply idle_still; auto|]. intros S. apply (still_idle n w1 w2); auto. apply run_live; auto.
Qed.

Theorem stuck_done ops : let n := nrun workers body main ops in results_fit (n_hist n) -> idle n ->
  (forall p p', p <> 0 -> p' <> 0 -> in_get n p -> in_get n p' -> p = p') -> all_done n.
Proof using no_root body_ok main_ok body_closed main_closed.
  intros n R I. apply idle_done; auto; [apply run_live; auto|apply run_fresh].
Qed.

(** A worker is in get only if some task calls get. *)
Lemma follows_getless a l b : follows a l b -> getless a -> getless b.
Proof. induction 1; simpl; auto; try contradiction. Qed.

Lemma getless_workers ops p : (forall f a k, refs a = [] -> refs k = [] -> getless (body f a k)) -> p <> 0 -> ~ in_get (nrun workers body main ops) p.
Proof using body_ok main_ok.
  intros Gl Np (fr & Ec & Eg). assert (Ni := run_ni workers body main body_ok main_ok ops). destruct (ni_proc _ _ _ Ni p) as (_ & _ & Fk). rewrite Ec in Fk.
  destruct Fk as (_ & _ & A & B & _). destruct (f_get fr) as [g|]; [|congruence]. destruct A as ((k & A) & _).
  assert (X : exists f, rok body (n_hist (nrun workers body main ops)) p (f_q fr) f /\ exists l, follows (entered body f (f_q fr)) l (f_act fr)).
  { destruct (f_rest fr) eqn:R; [exfalso; apply Np; eapply (ni_first _ _ _ Ni); eauto| |]; destruct B as (_ & f & B1 & l & _ & B2 & _); eauto. }
  destruct X as (f & (? & ? & ? & _ & _ & _ & _ & _ & _ & _ & R1 & R2) & l & Fo). apply follows_getless in Fo; [rewrite A in Fo; exact Fo|].
  unfold entered. destruct (failed_arg _ _); simpl; auto.
Qed.

Theorem stuck_getless ops : let n := nrun workers body main ops in (forall f a k, refs a = [] -> refs k = [] -> getless (body f a k)) ->
  results_fit (n_hist n) -> idle n -> all_done n.
Proof using no_root body_ok main_ok body_closed main_closed.
  intros n G R I. apply stuck_done; auto. intros p p' Np _ X. exfalso. eapply getless_workers; eauto.
Qed.

Theorem no_errors ops : let n := nrun workers body main ops in results_fit (n_hist n) ->
  (forall p, n_dead n p = false) /\ forall t e, In (t, e) (n_hist n) -> fine_ev e.
Proof using no_root body_ok main_ok body_closed main_closed.
  intros n R. assert (L := run_live ops R). split; [apply (v_dead _ _ L)|apply (v_hist _ _ L)].
Qed.

End Run.
