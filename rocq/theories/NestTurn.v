(** Turns of the worker's loop keep the invariant of NestLive. *)
From Verif Require Import Lib ShmModel ShmRaceProofs ValModel WorkerModel WorkerSpec WorkerProofs WorkerWant WorkerAnswer ClusterModel ClusterNet
  NestModel NestSpec NestProofs NestOnce NestThms NestNet NestLoop NestLive NestStep.

Lemma prepare_asks p w q w1 q1 f : prepare p w q = Some (w1, q1, f) -> Asks p w w1.
Proof.
  unfold prepare. destruct (q_fn q) as [fd|m]; [|discriminate]. destruct (store w fd); [|discriminate].
  destruct (materialize p w (q_args q) false) as [[[w2 args] p1]|] eqn:E1; [|discriminate].
  destruct (materialize p w2 (q_kwargs q) false) as [[[w3 kwargs] p2]|] eqn:E2; [|discriminate].
  intros E. apply Some_inj in E. apply pair_inj in E as [E _]. apply pair_inj in E as [<- _].
  eapply asks_trans; eapply mat_asks; eauto.
Qed.

Lemma pass_asks p todo : forall w kept w1 x, pass p w kept todo = Some (w1, x) -> Asks p w w1.
Proof.
  induction todo as [|q todo IH]; intros w kept w1 x E; simpl in E.
  - apply Some_inj in E. apply pair_inj in E as [<- _]. constructor.
  - destruct (prepare p w q) as [[[w2 q2] [f|]]|] eqn:R; [| |discriminate]; apply prepare_asks in R.
    + apply Some_inj in E. apply pair_inj in E as [<- _]. auto.
    + apply IH in E. eapply asks_trans; eauto.
Qed.

Lemma ordered_del l q r : ordered (l ++ q :: r) -> ordered (l ++ r).
Proof.
  intros O. apply ordered_app in O as (A & B & D). inversion B; subst. apply ordered_app. split; auto. split; auto.
  intros x y I J. apply D; simpl; auto.
Qed.

Lemma less_refl l : Forall2 lessq l l.
Proof. induction l; constructor; auto. apply lessq_refl. Qed.

Lemma less_app l1 l2 l1' l2' : Forall2 lessq l1 l1' -> Forall2 lessq l2 l2' -> Forall2 lessq (l1 ++ l2) (l1' ++ l2').
Proof. intros A B. induction A; simpl; auto. Qed.

(** A worker that has the store, the owners and the requests of another. *)
Definition kin (w w' : wst) : Prop := store w' = store w /\ owner w' = owner w /\ reqs w' = reqs w.

Lemma tfine_kin H p w w' q : kin w w' -> tfine H p w q -> tfine H p w' q.
Proof. intros (A & B & D). unfold tfine, lfine, lcov. rewrite A, B, D. auto. Qed.

Lemma tfine_grown H p w w' q q' : grown w w' -> lessq q q' -> tfine H p w q -> lcov p w' q' -> tfine H p w' q'.
Proof.
  intros G Lq (A & B & D) Cv. destruct A as (t & q0 & I & J). split; [exists t, q0; split; auto; eapply lessq_trans; eauto|]. split; auto.
  destruct G as (G1 & G2 & _). destruct Lq as (_ & Lf & _ & Li). destruct B as ((f & F1 & F2) & K). unfold lfine. rewrite G1, G2, Lf. split; [exists f; auto|]. intros d X. apply K. auto.
Qed.

Lemma cfine_drop H a b w w' m l1 q : cfine H a b w (m :: l1) q -> wider w w' -> (forall d v, m = WPut d v -> store w' d <> None) ->
  (forall d o, m = WOwner d o -> owner w' d <> None) -> cfine H a b w' l1 q.
Proof.
  intros (A & B & D & (f & F1 & F2) & K) [Ws Wo] Mp Mo. split; auto. split; auto. split; auto. split.
  - exists f. split; auto. destruct F2 as [F2|(v & [F2|F2])]; auto; [left; eauto|right; eauto].
  - intros d I. destruct (K d I) as [X|[X|[(v & [X|X])|(o & [X|X])]]]; auto; [left; eauto|right; right; left; eauto|right; left; eauto|right; right; right; eauto].
Qed.

Section Turn.
Variable workers : list rank.
Variable body : val -> val -> val -> act.
Variable main : act.
Hypothesis no_root : ~ In 0 workers.
Hypothesis body_ok : forall f a k, refs a = [] -> refs k = [] -> refless (body f a k).
Hypothesis body_closed : forall f a k, refs a = [] -> refs k = [] -> closed [] [] (body f a k).

Notation W n := (fun r => p_w (n_proc n r)).
Notation Live := (Live workers).

Definition new_frame (s : proc) : Prop := match p_cur s with
  | Some fr => f_rest fr <> LMain /\ f_get fr = None /\ closed [] [] (f_act fr) /\ forall k t, f_rest fr = LPass k t -> pend (p_w s) = []
  | None => True
  end.

Lemma new_want s : new_frame s -> wantof s = [].
Proof. unfold new_frame, wantof. destruct (p_cur s) as [fr|]; auto. intros (_ & -> & _). auto. Qed.

(** The state after a turn of the loop of p. *)
Lemma live_loop n p s' ch h tk rn : Live n -> p <> 0 -> wantof (n_proc n p) = [] -> new_frame s' ->
  wider (p_w (n_proc n p)) (p_w s') -> (forall q, In q (line s') -> tfine (n_hist n) p (p_w s') q) -> (forall q, In q (resting s') -> lmiss (p_w s') q) ->
  (forall a b, b <> p -> ch a b = n_chan n a b) -> (forall a b m, In m (ch a b) -> In m (n_chan n a b)) ->
  (forall a l1 q l2, ch a p = l1 ++ WExec q :: l2 -> cfine (n_hist n) a p (p_w s') l1 q) ->
  (forall a, ordered (line s' ++ execq (ch a p))) ->
  (forall t e, In (t, e) h -> match e with HEnd _ | HStart _ => True | _ => False end) ->
  (forall t q, In (t, HSubmit p q) (n_hist n) -> (exists a, In (WExec q) (ch a p)) \/ (exists q', In q' (line s') /\ q_id q' = q_id q) \/
     (ended (n_hist n ++ h) (q_id q) /\ forall d, In d (outs q) -> store (p_w s') d <> None)) ->
  Wok (fun d _ => there (n_hist n) (upd (W n) p (p_w s')) d) (p_w s') ->
  Net (produced (n_hist n)) (fun r => wantof (n_proc n r)) (upd (W n) p (p_w s')) (also p ch (p_w s')) (alsor p (n_rep n) (p_w s')) nobody ->
  Live (put_proc n p s' ch (n_rep n) [] tk rn h).
Proof.
  intros L Np Wn Nf Wd Hl Hr Hb Hi Hc Ho Hh Ht Hk N.
  assert (Q : forall t o q, ~ In (t, HSubmit o q) h) by (intros t o q I; apply Hh in I; auto).
  assert (SG : forall r d, store (p_w (n_proc n r)) d <> None -> store (upd (W n) p (p_w s') r) d <> None).
  { intros r d. unfold upd. destruct (Nat.eqb r p) eqn:E; auto. apply Nat.eqb_eq in E as ->. apply Wd. }
  assert (Th : forall d, there (n_hist n) (upd (W n) p (p_w s')) d -> there (n_hist n ++ h) (fun r => p_w (upd (n_proc n) p s' r)) d).
  { intros d. apply there_more; auto. intros r x. rewrite w_upd. auto. }
  assert (Th0 : forall d, there (n_hist n) (W n) d -> there (n_hist n ++ h) (fun r => p_w (upd (n_proc n) p s' r)) d).
  { intros d T. apply Th. intros o P. apply SG. apply T. auto. }
  assert (Cx : forall a b, (if Nat.eqb a p then ch a b ++ sends_to b [] ++ ops_out p (log (p_w s')) b else ch a b) = also p ch (p_w s') a b) by reflexivity.
  unfold put_proc. split; simpl.
  - apply (v_dead _ _ L).
  - intros t e I. apply in_app_or in I as [I|I]; [eapply (v_hist _ _ L); eauto|]. apply Hh in I. destruct e; simpl; auto; destruct I.
  - intros t o q I. apply in_app_or in I as [I|I]; [|exfalso; eapply Q; eauto].
    destruct (v_sub _ _ L _ _ _ I) as (A & B & D). split; auto. split; auto. intros d J. apply origin_more. auto.
  - intros b q. destruct (Nat.eq_dec b p) as [->|Nb]; [rewrite upd_p|rewrite upd_o by auto]; intros I; apply tfine_more; auto. apply (v_line _ _ L); auto.
  - intros a b l1 q l2 E.
    assert (E' : exists l3, ch a b = l1 ++ WExec q :: l3).
    { destruct (Nat.eqb a p); [|exists l2; auto]. apply app_split in E as [(m & E & _)|(m & _ & E)]; [exists m; auto|].
      exfalso. eapply no_exec; [|exact E]. apply execq_ops. }
    destruct E' as [l3 E']. apply cfine_more. destruct (Nat.eq_dec b p) as [->|Nb]; [rewrite upd_p; eauto|rewrite upd_o by auto].
    rewrite Hb in E' by auto. eapply (v_chan _ _ L); eauto.
  - intros a b. assert (Z : execq (if Nat.eqb a p then ch a b ++ ops_out p (log (p_w s')) b else ch a b) = execq (ch a b)).
    { destruct (Nat.eqb a p); auto. rewrite execq_app, execq_ops, app_nil_r. auto. }
    rewrite Z. destruct (Nat.eq_dec b p) as [->|Nb]; [rewrite upd_p; auto|rewrite upd_o by auto]. rewrite Hb by auto. apply (v_order _ _ L).
  - intros b q. destruct (Nat.eq_dec b p) as [->|Nb]; [rewrite upd_p; auto|rewrite upd_o by auto; apply (v_rest _ _ L)].
  - intros b g k t. destruct (Nat.eq_dec b p) as [->|Nb]; [rewrite upd_p|rewrite upd_o by auto; apply (v_pend _ _ L)].
    intros E1 E2. unfold new_frame in Nf. rewrite E1 in Nf. destruct Nf as (_ & _ & _ & Nf). eauto.
  - intros b. destruct (Nat.eq_dec b p) as [->|Nb]; [rewrite upd_p|rewrite upd_o by auto; apply (v_main _ _ L)].
    unfold new_frame in Nf. destruct (p_cur s') as [g|]; auto. destruct Nf as (A & _). tauto.
  - intros b g. destruct (Nat.eq_dec b p) as [->|Nb]; [rewrite upd_p|rewrite upd_o by auto; intros E; apply ffine_more; apply (v_frame _ _ L); auto].
    intros E. unfold new_frame in Nf. rewrite E in Nf. destruct Nf as (_ & A & B & _). exists [], []. split; auto. rewrite A. split; [intros d []|]. split; [intros d []|auto].
  - intros t o q I. apply in_app_or in I as [I|I]; [|exfalso; eapply Q; eauto].
    assert (X : forall a, In (WExec q) (ch a o) -> In (WExec q) (if Nat.eqb a p then ch a o ++ ops_out p (log (p_w s')) o else ch a o)).
    { intros a J. destruct (Nat.eqb a p); auto. apply in_or_app; auto. }
    destruct (Nat.eq_dec o p) as [->|No]; [rewrite upd_p|rewrite upd_o by auto].
    + destruct (Ht _ _ I) as [(a & J)|J]; auto. left. exists a. auto.
    + destruct (v_task _ _ L _ _ _ I) as [(a & J)|[J|[J1 J2]]]; auto.
      * left. exists a. apply X. rewrite Hb; auto.
      * right. right. split; auto. apply ended_more; auto.
  - intros b d v. destruct (Nat.eq_dec b p) as [->|Nb]; [rewrite upd_p|rewrite upd_o by auto].
    + intros S. apply Th. destruct Hk as [Hk _]. apply (Hk d v). auto.
    + intros S. apply Th0. exact (v_have _ _ L b d v S).
  - intros a b d v I. assert (X : In (WPut d v) (ch a b) \/ In (WPut d v) (ops_out p (log (p_w s')) b)) by (destruct (Nat.eqb a p); auto; apply in_app_or in I; auto).
    destruct X as [X|X]; [apply Th0; apply Hi in X; exact (v_carry _ _ L _ _ _ _ X)|]. apply Th. destruct Hk as [_ Hk].
    unfold ops_out in X. apply in_flat_map in X as (e & X1 & X2). destruct e; try destruct X2.
    + destruct blocking; [destruct X2|]. destruct (Nat.eqb dest b); [|destruct X2]. destruct X2 as [X2|[]]. assert (d0 = d) by congruence. subst d0. apply (Hk _ _ _ _ X1).
    + destruct (Nat.eqb dest b); [|destruct X2]. destruct X2 as [X2|[]]; discriminate.
  - intros a b d v I. assert (X : In (d, v) (n_rep n a b) \/ In (d, v) (reps_out (log (p_w s')) b)) by (destruct (Nat.eqb a p); auto; apply in_app_or in I; auto).
    destruct X as [X|X]; [apply Th0; exact (v_back _ _ L _ _ _ _ X)|]. apply Th. destruct Hk as [_ Hk].
    unfold reps_out in X. apply in_flat_map in X as (e & X1 & X2). destruct e; try destruct X2.
    destruct blocking; [|destruct X2]. destruct (Nat.eqb dest b); [|destruct X2]. destruct X2 as [X2|[]]. apply pair_inj in X2 as [<- _]. apply (Hk _ _ _ _ X1).
  - apply net_quiet; auto. eapply net_wants; [apply want_upd; rewrite Wn; apply new_want; auto|].
    eapply net_ext; [| | |exact N]; [intros r; apply w_upd| |]; intros; reflexivity.
Qed.

Lemma nv_set pr want W0 C0 R0 p X w w' : NV pr want W0 C0 R0 p X w -> store w' = store w -> owner w' = owner w -> reqs w' = reqs w -> sent w' = sent w ->
  gets w' = gets w -> bgets w' = bgets w -> log w' = log w -> NV pr want W0 C0 R0 p X w'.
Proof.
  intros N E1 E2 E3 E4 E5 E6 E7. unfold NV in *. eapply net_ext with (W := upd (upd W0 p w) p w') (C := also p C0 w) (R := alsor p R0 w).
  - intros r. symmetry. apply upd_upd.
  - intros a b. unfold also. rewrite E7. auto.
  - intros a b. unfold alsor. rewrite E7. auto.
  - apply net_clear; try rewrite upd_p; auto.
    + intros y. rewrite E5. auto.
    + intros y. rewrite E5. auto.
    + intros i. unfold unanswered. rewrite E4, E6. auto.
    + intros y. rewrite E6. auto.
Qed.

Lemma wok_set P w w' : Wok P w -> store w' = store w -> log w' = log w -> Wok P w'.
Proof. intros [A B] E1 E2. split; [rewrite E1|rewrite E2]; auto. Qed.

Lemma entered_closed f q : qrefs q = [] -> closed [] [] (entered body f q).
Proof. unfold entered, qrefs. intros E. apply app_eq_nil in E as [? ?]. destruct (failed_arg _ _); simpl; auto. Qed.

(** A pass, or the rest of one. *)
Lemma go_on_fine n p ch P s w kept todo run : p <> 0 -> clean w ->
  NV (produced (n_hist n)) (fun r => wantof (n_proc n r)) (W n) ch (n_rep n) p nobody w ->
  (forall q, In q (kept ++ todo) -> tfine (n_hist n) p w q) -> (forall q, In q kept -> lmiss w q) -> pend w = [] -> Wok P w ->
  exists s' x, go_on body p s w kept todo run = Some (s', x) /\ NV (produced (n_hist n)) (fun r => wantof (n_proc n r)) (W n) ch (n_rep n) p nobody (p_w s') /\
    grown w (p_w s') /\ (exists todo', line s' = kept ++ todo' /\ Forall2 lessq todo todo') /\ (forall q, In q (line s') -> tfine (n_hist n) p (p_w s') q) /\
    (forall q, In q (resting s') -> lmiss (p_w s') q) /\ new_frame s' /\ Wok P (p_w s').
Proof.
  intros Np Cl N Tf Km Pe Wk.
  destruct (pass_fine _ _ _ _ _ p Np nobody todo w kept Cl N) as (w1 & x & E & N1 & G & Pw & todo' & Ex & Fx & Lx & new & En & Mn & Z).
  { apply Forall_forall. intros q I. apply Tf. apply in_or_app; auto. }
  { apply Forall_forall. intros q I. apply Tf. apply in_or_app; auto. }
  assert (Wk1 : Wok P w1) by (eapply ok_asks; [eapply pass_asks; eauto|auto]).
  assert (Tl : forall q, In q (ln x) -> tfine (n_hist n) p w1 q).
  { intros q I. rewrite Ex in I. apply in_app_or in I as [I|I].
    - assert (T := Tf q ltac:(apply in_or_app; auto)). eapply tfine_grown; [exact G|apply lessq_refl|exact T|]. eapply lcov_grown; [exact G|]. apply T.
    - assert (I' := I). eapply less_in in I' as (q0 & I1 & I2); [|exact Fx]. eapply tfine_grown; [exact G|exact I2|apply Tf; apply in_or_app; auto|].
      rewrite Forall_forall in Lx. auto. }
  assert (Rl : forall q, In q (rs x) -> lmiss w1 q).
  { intros q I. rewrite En in I. apply in_app_or in I as [I|I]; [eapply lmiss_grown; eauto|]. rewrite Forall_forall in Mn. auto. }
  unfold go_on. rewrite E. destruct x as [l|[[[q f] l] r]].
  - eexists _, _. split; [reflexivity|]. simpl in *. split; [eapply nv_set; [exact N1|reflexivity..]|]. split; [exact G|]. unfold line, resting. simpl. rewrite !app_nil_r.
    split; [exists todo'; auto|]. split; [|split; [|split]].
    + intros q I. eapply tfine_kin; [|apply Tl; exact I]. repeat split.
    + intros q I. apply Rl. exact I.
    + exact Logic.I.
    + eapply wok_set; [exact Wk1|reflexivity|reflexivity].
  - eexists _, _. split; [reflexivity|]. simpl in *. split; [exact N1|]. split; [exact G|]. unfold line, resting. simpl. rewrite Pw, Pe. simpl.
    split; [exists todo'; auto|]. split; [exact Tl|]. split; [exact Rl|]. split; [|exact Wk1].
    unfold new_frame. simpl. split; [discriminate|]. split; auto. split; [apply entered_closed; auto|]. intros ? ? _. congruence.
Qed.

Lemma live_looped n p x ch h : (forall s y, x = Some (s, y) -> forall rn h', (forall t e, In (t, e) h' -> exists i, e = HStart i) -> Live (put_proc n p s ch (n_rep n) [] (n_tasks n) rn (h ++ h'))) ->
  x <> None -> Live (looped n p x ch h).
Proof.
  intros A B. destruct x as [[s [i|]]|]; [| |congruence]; simpl.
  - apply (A s (Some i) eq_refl). intros t e [I|[]]. apply pair_inj in I as [_ <-]. eauto.
  - specialize (A s None eq_refl (n_runs n) []). rewrite app_nil_r in A. apply A. intros t e [].
Qed.

Lemma trace_in H t e l : trace H t = e :: l -> In (t, e) H.
Proof.
  intros E. assert (I : In e (trace H t)) by (rewrite E; simpl; auto). unfold trace in I. apply in_flat_map in I as ([t' e'] & I & J). simpl in J.
  destruct (Nat.eqb t' t) eqn:Q; [|destruct J]. apply Nat.eqb_eq in Q as ->. destruct J as [<-|[]]. auto.
Qed.

(** The task of a worker is over. *)
Lemma live_leave n p fr r : Live n -> NI body main n -> Fresh n -> p_cur (n_proc n p) = Some fr -> f_get fr = None -> f_act fr = ARet r -> f_rest fr <> LMain ->
  results_fit (n_hist n ++ [(f_run fr, HEnd r)]) ->
  Live (looped n p (leave body p (n_proc n p) fr r (n_runs n)) (n_chan n) [(f_run fr, HEnd r)]).
Proof.
  intros L Ni F Ec Eg Ea Er Rf. set (H := n_hist n) in *. set (w := no_log (p_w (n_proc n p))).
  assert (Np : p <> 0) by (intros ->; assert (X := v_main _ _ L 0); rewrite Ec in X; destruct X as [_ X]; auto).
  assert (Wn := want_none _ _ _ Ec Eg).
  destruct (ni_proc _ _ _ Ni p) as (Wk & _ & Fk). rewrite Ec in Fk. destruct Fk as (_ & _ & _ & Fk & _).
  assert (St : In (f_run fr, HStart (q_id (f_q fr))) H).
  { destruct (f_rest fr); [congruence| |]; destruct Fk as (_ & f & _ & l & T & _); eapply trace_in; eauto. }
  assert (Lq : In (f_q fr) (line (n_proc n p))).
  { unfold line. rewrite Ec. apply in_or_app. right. destruct (f_rest fr); [congruence|simpl; auto|apply in_or_app; simpl; auto]. }
  assert (Tq := v_line _ _ L _ _ Lq). destruct Tq as ((t0 & q0 & Iq & (Qi & _ & Qo & _)) & _).
  assert (Fit : fits (q_out (f_q fr)) r).
  { rewrite Qo. apply (Rf t0 p q0 (f_run fr) r); [apply in_or_app; auto| |apply in_or_app; simpl; auto]. rewrite <- Qi. apply in_or_app; auto. }
  assert (N0 : NV (produced H) (fun x => wantof (n_proc n x)) (W n) (n_chan n) (n_rep n) p nobody w).
  { unfold NV. eapply net_ext; [| | |apply (net_quietlog _ _ _ _ _ _ p (v_net _ _ L))]; auto.
    - intros a b. unfold also. simpl. rewrite app_nil_r. destruct (Nat.eqb a p); auto.
    - intros a b. unfold alsor. simpl. rewrite app_nil_r. destruct (Nat.eqb a p); auto. }
  assert (P1 := produced_one n F). assert (Pp : forall d, In d (outs (f_q fr)) -> produced H d p).
  { intros d I. exists t0, q0. split; auto. unfold outs in *. rewrite <- Qo. auto. }
  destruct (finish_fine _ P1 _ _ _ _ p w (f_q fr) r N0 Fit) as (w1 & E1 & N1 & O1 & R1 & Q1 & S1 & S2 & S3).
  { intros d I. split; [|rewrite Wn; intros []]. intros J. apply (a_reqs _ _ _ _ _ _ (v_net _ _ L) p) in J as (_ & _ & o & J1 & J2 & _).
    apply (a_owner _ _ _ _ _ _ (v_net _ _ L)) in J1. apply J2. eapply P1; eauto. }
  destruct (ni_proc _ _ _ Ni p) as (_ & _ & Fk'). rewrite Ec in Fk'. destruct Fk' as (_ & Rl & _). rewrite Ea in Rl. simpl in Rl.
  set (P := fun (d : dataid) (v : val) => refs v = [] /\ forall o, produced H d o -> store (p_w (n_proc n o)) d <> None \/ (o = p /\ In d (outs (f_q fr)))).
  assert (W0 : Wok P w).
  { split; [|intros ? ? ? ? []]. intros d v S. split; [destruct Wk as [Wk _]; apply Wk in S; apply S|]. intros o Pr. left. apply (v_have _ _ L p d v S). auto. }
  destruct (ok_finish P w (f_q fr) r w1 W0) as [W1 _]; auto.
  { intros d v G. split; [eapply gives_norefs; eauto|]. intros o Pr. right. split; [|eapply gives_in; eauto]. eapply P1; eauto. apply Pp. eapply gives_in; eauto. }
  assert (Cl : clean w1) by (intros d v S; destruct W1 as [W1 _]; apply W1 in S; apply S).
  assert (Gw : grown w w1 \/ True) by auto. clear Gw.
  assert (Tw : forall q, tfine H p (p_w (n_proc n p)) q -> tfine H p w1 q).
  { intros q (A & ((f & B1 & B2) & B3) & D). split; auto. split; [split|].
    - exists f. split; auto.
    - intros d I. destruct (B3 d I) as [B4 B5]. split; auto. rewrite O1. destruct B5; auto.
    - intros d I. rewrite O1, R1. destruct (D d I) as [D1|D1]; auto. }
  (* the rest of the loop *)
  assert (X : exists s0 kept todo, leave body p (n_proc n p) fr r (n_runs n) = go_on body p s0 (set_pend w1 [] (apend w1)) kept todo (n_runs n) /\
     (forall l, ordered (line (n_proc n p) ++ l) -> ordered ((kept ++ todo) ++ l)) /\
     (forall q, In q (kept ++ todo) -> In q (line (n_proc n p))) /\ (forall q, In q (line (n_proc n p)) -> In q (kept ++ todo) \/ q = f_q fr) /\
     (forall q, In q kept -> lmiss w1 q)).
  { exists (n_proc n p). unfold leave. fold w. rewrite E1. unfold line. rewrite Ec. destruct (f_rest fr) as [| |kept todo] eqn:R; [congruence| |].
    - exists [], (pend w1). split; auto. rewrite Q1. simpl. change (pend (p_w (n_proc n p))) with (pend w). split; [|split; [|split]].
      + intros l O. rewrite <- app_assoc in O. simpl in O. eapply ordered_del; eauto.
      + intros q I. apply in_or_app; auto.
      + intros q I. apply in_app_or in I as [I|[I|[]]]; auto.
      + intros q [].
    - assert (Pe := v_pend _ _ L _ _ _ _ Ec R). exists kept, todo. rewrite Pe. simpl.
      assert (Sp : set_pend w1 [] (apend w1) = w1) by (assert (Z : pend w1 = []) by (rewrite Q1; exact Pe); clear -Z; destruct w1; simpl in *; subst; reflexivity).
      rewrite Sp. split; auto. split; [|split; [|split]].
      + intros l O. rewrite <- app_assoc in O. simpl in O. apply ordered_del in O. rewrite <- app_assoc. auto.
      + intros q I. apply in_app_or in I as [I|I]; apply in_or_app; simpl; auto.
      + intros q I. apply in_app_or in I as [I|[I|I]]; auto; left; apply in_or_app; auto.
      + intros q I. destruct (v_rest _ _ L p q) as (d & D1 & D2); [unfold resting; rewrite Ec, R, Pe; exact I|].
        exists d. split; auto. rewrite S3; auto. intros J. assert (O := v_order _ _ L 0 p). unfold line in O. rewrite Ec, R, Pe in O. simpl in O.
        apply ordered_app in O as (O & _). apply ordered_app in O as (_ & _ & O). apply (O q (f_q fr) I ltac:(simpl; auto) d); auto. }
  destruct X as (s0 & kept & todo & El & Ho & Hs & Hs' & Hk). rewrite El.
  destruct (go_on_fine n p (n_chan n) P s0 (set_pend w1 [] (apend w1)) kept todo (n_runs n) Np Cl) as (s' & y & E2 & N2 & G2 & (todo' & L2 & F2) & T2 & M2 & Nf & W2).
  { eapply nv_set; [exact N1|reflexivity..]. }
  { intros q I. eapply tfine_kin; [|apply Tw; apply (v_line _ _ L); auto]. repeat split. }
  { exact Hk. }
  { reflexivity. }
  { eapply wok_set; [exact W1|reflexivity..]. }
  rewrite E2. apply live_looped; [|discriminate]. intros s1 y1 E3 rn h' Hh'. apply Some_inj in E3. apply pair_inj in E3 as [<- _].
  destruct G2 as (G2s & G2o & _). simpl in G2s, G2o.
  assert (Wd : wider (p_w (n_proc n p)) (p_w s')).
  { split; intros d; [rewrite G2s; apply S1|rewrite G2o, O1; auto]. }
  assert (F2' : Forall2 lessq (kept ++ todo) (line s')) by (rewrite L2; apply less_app; auto; apply less_refl).
  apply live_loop; auto.
  - intros a l1 q l2 E. eapply cfine_wider; [exact Wd|]. eapply (v_chan _ _ L); eauto.
  - intros a. eapply ordered_less; [exact F2'|]. apply Ho. apply (v_order _ _ L).
  - intros t e I. apply in_app_or in I as [[I|[]]|I]; [apply pair_inj in I as [_ <-]; exact Logic.I|]. apply Hh' in I as [i ->]. exact Logic.I.
  - intros t q I. destruct (v_task _ _ L _ _ _ I) as [J|[(q' & J1 & J2)|[J1 J2]]]; auto.
    + apply Hs' in J1 as [J1| ->].
      * right. left. eapply less_in' in J1 as (q2 & K1 & (K2 & _)); [|exact F2']. exists q2. split; auto. congruence.
      * right. right. destruct (submit_same n t t0 p p q q0 F I Iq ltac:(congruence)) as [_ ->]. split.
        -- exists (f_run fr), r. rewrite <- Qi. split; apply in_or_app; auto. right. simpl. auto.
        -- intros d J. rewrite G2s. apply S2. unfold outs in *. rewrite Qo. auto.
    + right. right. split; [apply ended_more; auto|]. intros d J. apply Wd. auto.
  - destruct W2 as [Wa Wb]. assert (Y : forall d v, P d v -> there (n_hist n) (upd (W n) p (p_w s')) d).
    { intros d v [_ Z] o Po. destruct (Z o Po) as [Z1|[-> Z1]].
      - unfold upd. destruct (Nat.eqb o p) eqn:Q; auto. apply Nat.eqb_eq in Q as ->. apply Wd. auto.
      - rewrite upd_p, G2s. apply S2. auto. }
    split; intros; eapply Y; eauto.
Qed.

(** A worker takes a message. *)
Lemma live_take n src p m ms : Live n -> NI body main n -> Fresh n -> n_chan n src p = m :: ms -> p_cur (n_proc n p) = None -> p <> 0 ->
  Live (looped n p (serve body p (n_proc n p) m (n_runs n)) (drop_head (n_chan n) src p) []).
Proof.
  intros L Ni F Hc Ec Np. set (w := no_log (p_w (n_proc n p))). set (ch := drop_head (n_chan n) src p). set (H := n_hist n).
  assert (Wn : wantof (n_proc n p) = []) by (unfold wantof; rewrite Ec; auto).
  assert (Lp : line (n_proc n p) = pend w /\ resting (n_proc n p) = pend w) by (unfold line, resting; rewrite Ec, !app_nil_r; auto). destruct Lp as [Lp Rp].
  destruct (ni_proc _ _ _ Ni p) as (Wk & _ & _).
  assert (Cl : clean w) by (intros d v S; destruct Wk as [Wk _]; apply Wk in S; apply S).
  assert (P1 := produced_one n F).
  assert (Ech : forall a b, ch a b = if Nat.eqb a src && Nat.eqb b p then ms else n_chan n a b).
  { intros a b. unfold ch, drop_head. destruct (Nat.eqb a src) eqn:Q1, (Nat.eqb b p) eqn:Q2; simpl; auto. apply Nat.eqb_eq in Q1 as ->. apply Nat.eqb_eq in Q2 as ->. rewrite Hc. auto. }
  assert (Hb : forall a b, b <> p -> ch a b = n_chan n a b).
  { intros a b Nb. rewrite Ech. apply Nat.eqb_neq in Nb. rewrite Nb, andb_false_r. auto. }
  assert (Hi : forall a b x, In x (ch a b) -> In x (n_chan n a b)).
  { intros a b x. rewrite Ech. destruct (Nat.eqb a src) eqn:Q1, (Nat.eqb b p) eqn:Q2; simpl; auto. apply Nat.eqb_eq in Q1 as ->. apply Nat.eqb_eq in Q2 as ->. rewrite Hc. simpl; auto. }
  assert (Hs : ch src p = ms) by (rewrite Ech, !Nat.eqb_refl; auto).
  assert (Hn : forall a, a <> src -> ch a p = n_chan n a p) by (intros a Na; rewrite Ech; apply Nat.eqb_neq in Na; rewrite Na; auto).
  assert (N0 : NV (produced H) (fun x => wantof (n_proc n x)) (W n) (n_chan n) (n_rep n) p nobody w).
  { unfold NV. eapply net_ext; [| | |apply (net_quietlog _ _ _ _ _ _ p (v_net _ _ L))]; auto.
    - intros a b. unfold also. simpl. rewrite app_nil_r. destruct (Nat.eqb a p); auto.
    - intros a b. unfold alsor. simpl. rewrite app_nil_r. destruct (Nat.eqb a p); auto. }
  assert (Nd : forall w', log w' = [] -> NV (produced H) (fun x => wantof (n_proc n x)) (W n) (n_chan n) (n_rep n) p nobody w' -> spent w' src m ->
    NV (produced H) (fun x => wantof (n_proc n x)) (W n) ch (n_rep n) p nobody w').
  { intros w' Lg N Sp. unfold NV in *. eapply net_drop; [exact P1|exact N| | |].
    - unfold also. rewrite Lg. simpl. rewrite app_nil_r, Hc. destruct (Nat.eqb src p); reflexivity.
    - rewrite upd_p. exact Sp.
    - intros a b. unfold also. rewrite Lg. simpl. rewrite !app_nil_r, Ech. destruct (Nat.eqb a p); reflexivity. }
  set (P := fun (d : dataid) (_ : val) => there H (W n) d).
  assert (W0 : Wok P w).
  { split; [|intros ? ? ? ? []]. intros d v S. exact (v_have _ _ L p d v S). }
  assert (Fin : forall s' y line0, (serve body p (n_proc n p) m (n_runs n) = Some (s', y)) -> new_frame s' -> wider w (p_w s') ->
    (forall d v, m = WPut d v -> store (p_w s') d <> None) -> (forall d o, m = WOwner d o -> owner (p_w s') d <> None) ->
    (forall q, In q (line s') -> tfine H p (p_w s') q) -> (forall q, In q (resting s') -> lmiss (p_w s') q) ->
    Forall2 lessq line0 (line s') -> line0 = pend w ++ match m with WExec q => [q] | _ => [] end ->
    Wok P (p_w s') -> NV (produced H) (fun x => wantof (n_proc n x)) (W n) ch (n_rep n) p nobody (p_w s') ->
    Live (looped n p (serve body p (n_proc n p) m (n_runs n)) ch [])).
  { intros s' y line0 Es Nf Wd Mp Mo Tl Rl Fl El Wo Nn. rewrite Es. apply live_looped; [|discriminate]. intros s1 y1 E3 rn h' Hh'. apply Some_inj in E3. apply pair_inj in E3 as [<- _].
    apply live_loop; auto.
    - intros a l1 q l2 E. destruct (Nat.eq_dec a src) as [->|Na].
      + rewrite Hs in E. eapply cfine_drop; [apply (v_chan _ _ L src p (m :: l1) q l2); rewrite Hc, E; reflexivity|exact Wd|exact Mp|exact Mo].
      + rewrite Hn in E by auto. eapply (cfine_wider _ _ _ (p_w (n_proc n p))); [exact Wd|]. eapply (v_chan _ _ L); eauto.
    - intros a. eapply ordered_less; [exact Fl|]. subst line0. assert (O := v_order _ _ L src p). rewrite Lp, Hc in O.
      destruct (Nat.eq_dec a src) as [->|Na].
      + rewrite Hs, <- app_assoc. destruct m; simpl in *; auto.
      + rewrite Hn by auto. assert (O' := v_order _ _ L a p). rewrite Lp in O'. destruct m as [q|q|s d bl|d v|d o|ds|i|]; simpl; rewrite ?app_nil_r; auto.
        rewrite <- app_assoc. simpl. apply ordered_app in O as (O1 & _ & O2). apply ordered_app in O' as (_ & O4 & O5). apply ordered_app. split; auto. split.
        * constructor; auto. apply Forall_forall. intros q2 I d J K. apply in_execq in I. apply in_split in I as (l1 & l2 & I).
          assert (A := v_chan _ _ L _ _ _ _ _ I). assert (B := v_chan _ _ L src p [] q ms Hc). destruct A as (_ & _ & A & _). destruct B as (_ & _ & B & _).
          apply Na. rewrite <- (A d), <- (B d); auto; apply in_or_app; auto.
        * intros x z I [<-|J]; [apply O2; simpl; auto|auto].
    - intros t e I. apply Hh' in I as [i ->]. exact Logic.I.
    - intros t q I. destruct (v_task _ _ L _ _ _ I) as [(a & J)|[(q' & J1 & J2)|[J1 J2]]].
      + assert (K : In (WExec q) (ch a p) \/ m = WExec q).
        { rewrite Ech. destruct (Nat.eqb a src) eqn:Q1; simpl; auto. apply Nat.eqb_eq in Q1 as ->. rewrite Nat.eqb_refl. rewrite Hc in J. destruct J; auto. }
        destruct K as [K| ->]; [left; eauto|]. right. left. destruct (less_in' line0 (line s') q Fl) as (q2 & K1 & (K2 & _)); [subst line0; apply in_or_app; simpl; auto|]. exists q2. auto.
      + right. left. rewrite Lp in J1. destruct (less_in' line0 (line s') q' Fl) as (q2 & K1 & (K2 & _)); [subst line0; apply in_or_app; simpl; auto|]. exists q2. split; auto. congruence.
      + right. right. split; [apply ended_more; auto|]. intros d J. apply Wd. exact (J2 d J).
    - destruct Wo as [Wa Wb]. assert (Y : forall d v, P d v -> there (n_hist n) (upd (W n) p (p_w s')) d).
      { intros d v Z o Po. unfold upd. destruct (Nat.eqb o p) eqn:Q; auto. apply Nat.eqb_eq in Q as ->. apply Wd. exact (Z p Po). }
      split; intros; eapply Y; eauto. }
  clear Hb Hn Hs.
  assert (Tw : forall q, In q (pend w) -> tfine H p w q) by (intros q I; apply (v_line _ _ L); rewrite Lp; exact I).
  assert (Rw : forall q, In q (pend w) -> lmiss w q) by (intros q I; apply (v_rest _ _ L); rewrite Rp; exact I).
  assert (Idle : forall w', let s' := {| p_w := w'; p_next := p_next (n_proc n p); p_cur := None |} in line s' = pend w' /\ resting s' = pend w' /\ new_frame s').
  { intros w' s'. unfold line, resting, new_frame. simpl. rewrite !app_nil_r. auto. }
  destruct m as [q|q|s d bl|d v|d o|ds|i|].
  - assert (Cf := v_chan _ _ L src p [] q ms Hc). destruct Cf as ((t & It) & Nsp & Kf & (f & Ef & [Sf|(v & [])]) & Kr).
    assert (Lf : lfine p w q).
    { split; [exists f; auto|]. intros d I. split; [rewrite (Kf d); [auto|apply in_or_app; auto]|]. destruct (Kr d I) as [X|[X|[(v & [])|(o & [])]]]; auto. }
    destruct (prepare_fine _ _ _ _ _ p Np nobody w q Cl (Nd w eq_refl N0 Logic.I) Lf) as (w1 & q1 & fo & E & N1 & G & Pw & Lq & Cv & Fo).
    assert (Wk1 : Wok P w1) by (eapply ok_asks; [eapply prepare_asks; eauto|auto]).
    assert (Wd : wider w w1) by (destruct G as (G1 & G2 & _); split; intros d; rewrite ?G1, ?G2; auto).
    assert (T1 : tfine H p w1 q1).
    { split; [exists t, q; auto|]. split; auto. apply (lfine_grown _ _ _ _ G) in Lf. destruct Lq as (_ & Lfn & _ & Li). destruct Lf as ((f' & X1 & X2) & X3).
      split; [exists f'; rewrite Lfn; auto|]. intros d I. apply X3. auto. }
    assert (Tw1 : forall q0, In q0 (pend w1) -> tfine H p w1 q0).
    { intros q0 I. rewrite Pw in I. assert (T := Tw q0 I). eapply tfine_grown; [exact G|apply lessq_refl|exact T|]. eapply lcov_grown; [exact G|]. apply T. }
    assert (Rw1 : forall q0, In q0 (pend w1) -> lmiss w1 q0) by (intros q0 I; rewrite Pw in I; eapply lmiss_grown; eauto).
    destruct fo as [fv|].
    + eapply Fin; [simpl; fold w; rewrite E; reflexivity| |exact Wd|discriminate|discriminate| | | |reflexivity|exact Wk1|exact N1].
      * unfold new_frame. simpl. split; [discriminate|]. split; auto. split; [apply entered_closed; auto|]. discriminate.
      * unfold line. simpl. intros q0 I. apply in_app_or in I as [I|[<-|[]]]; auto.
      * unfold resting. simpl. rewrite app_nil_r. exact Rw1.
      * unfold line. simpl. rewrite Pw. apply less_app; [apply less_refl|]. constructor; auto.
    + destruct (Idle (set_pend w1 (pend w1 ++ [q1]) (apend w1))) as (I1 & I2 & I3).
      cbv zeta in I1, I2, I3. eapply (Fin {| p_w := set_pend w1 (pend w1 ++ [q1]) (apend w1); p_next := p_next (n_proc n p); p_cur := None |}); [simpl; fold w; rewrite E; reflexivity|exact I3|exact Wd|discriminate|discriminate| | | |reflexivity| |].
      * rewrite I1. simpl. intros q0 I. eapply tfine_kin; [|apply in_app_or in I as [I|[<-|[]]]; [apply Tw1; auto|exact T1]]. repeat split.
      * rewrite I2. simpl. intros q0 I. apply in_app_or in I as [I|[<-|[]]]; [exact (Rw1 _ I)|exact Fo].
      * rewrite I1. simpl. rewrite Pw. apply less_app; [apply less_refl|]. constructor; auto.
      * eapply wok_set; [exact Wk1|reflexivity..].
      * eapply nv_set; [exact N1|reflexivity..].
  - destruct (Idle w) as (I1 & I2 & I3). cbv zeta in I1, I2, I3. eapply (Fin {| p_w := w; p_next := p_next (n_proc n p); p_cur := None |}); [reflexivity|exact I3|split; auto|discriminate|discriminate| | | |rewrite app_nil_r; reflexivity|exact W0|].
    + rewrite I1. exact Tw.
    + rewrite I2. exact Rw.
    + rewrite I1. apply less_refl.
    + apply (Nd w eq_refl N0 Logic.I).
  - destruct (a_get _ _ _ _ _ _ (v_net _ _ L) src p s d bl) as (-> & _); [rewrite Hc; simpl; auto|].
    destruct (Idle (process_get w src d bl)) as (I1 & I2 & I3).
    assert (Sa : kin w (process_get w src d bl) /\ pend (process_get w src d bl) = pend w).
    { unfold process_get, kin. destruct (store w d); [destruct (pair_in (d, src) (sent w))|destruct bl]; repeat split. }
    destruct Sa as [Ka Pa].
    cbv zeta in I1, I2, I3. eapply (Fin {| p_w := process_get w src d bl; p_next := p_next (n_proc n p); p_cur := None |}); [reflexivity|exact I3| |discriminate|discriminate| | | |rewrite app_nil_r; reflexivity|apply ok_get; exact W0|].
    + destruct Ka as (K1 & K2 & _). split; intros x; simpl; fold w; rewrite ?K1, ?K2; auto.
    + simpl. fold w. rewrite I1, Pa. intros q I. eapply tfine_kin; [exact Ka|auto].
    + simpl. fold w. rewrite I2, Pa. intros q I. destruct (Rw q I) as (x & X1 & X2). exists x. split; auto. destruct Ka as (-> & _). auto.
    + simpl. fold w. rewrite I1, Pa. apply less_refl.
    + simpl. fold w. unfold NV. eapply net_ext; [| | |apply (net_get _ P1 _ (upd (W n) p w) (n_chan n) (n_rep n) nobody p src d bl ms ch)].
      * intros r. rewrite upd_p, upd_upd. reflexivity.
      * intros a b. rewrite upd_p. reflexivity.
      * intros a b. rewrite upd_p. reflexivity.
      * apply (net_quietlog _ _ _ _ _ _ p (v_net _ _ L)).
      * exact Hc.
      * rewrite upd_p. reflexivity.
      * exact Ech.
  - set (w2 := set_reqs (set_store w (dput (store w) d v)) (filter (fun x => negb (did_eqb x d)) (reqs w))).
    assert (Nr : forall x, In x (reqs w2) <-> In x (reqs w) /\ x <> d).
    { intros x. unfold w2. simpl. rewrite filter_In, negb_true_iff. split; intros [A B]; split; auto.
      - intros ->. rewrite did_eqb_refl in B. discriminate.
      - destruct (did_eqb x d) eqn:Q; auto. apply did_eqb_eq in Q. congruence. }
    assert (S2 : store w2 d <> None) by (unfold w2; simpl; rewrite dput_same; discriminate).
    assert (Wd2 : forall x, store w x <> None -> store w2 x <> None) by (intros x; unfold w2; simpl; unfold dput; destruct (did_eqb d x); congruence).
    assert (Pp : P d v) by (eapply (v_carry _ _ L src p); rewrite Hc; simpl; auto).
    assert (N2 : NV (produced H) (fun x => wantof (n_proc n x)) (W n) ch (n_rep n) p nobody w2).
    { apply Nd; [reflexivity| |split; [exact S2|rewrite Nr; tauto]]. unfold NV. eapply net_ext; [| | |eapply (net_store _ _ (upd (W n) p w) (n_chan n) (n_rep n) nobody nobody p w2 d v)].
      - intros r. symmetry. apply upd_upd.
      - intros a b. unfold also. simpl. rewrite app_nil_r. destruct (Nat.eqb a p); auto.
      - intros a b. unfold alsor. simpl. rewrite app_nil_r. destruct (Nat.eqb a p); auto.
      - apply (net_quietlog _ _ _ _ _ _ p (v_net _ _ L)).
      - rewrite upd_p. reflexivity.
      - rewrite upd_p. reflexivity.
      - rewrite upd_p. intros x I. apply Nr in I. tauto.
      - rewrite Nr. tauto.
      - rewrite upd_p. reflexivity.
      - rewrite upd_p. reflexivity.
      - rewrite upd_p. reflexivity.
      - cbv beta. rewrite Wn. intros [].
      - auto.
      - rewrite upd_p. intros Sn Pr. exfalso. apply (a_put _ _ _ _ _ _ (v_net _ _ L) src p d v); [rewrite Hc; simpl; auto|exact Pr|exact Sn]. }
    destruct (go_on_fine n p ch P (n_proc n p) (set_pend w2 [] (apend w2)) [] (pend w2) (n_runs n) Np) as (s' & y & E2 & Nx & (G2s & G2o & _) & (todo' & L2 & F2) & T2 & M2 & Nf & W2).
    + intros x u S. unfold w2 in S. simpl in S. unfold dput in S. destruct (did_eqb d x) eqn:Q; [|apply (Cl x u S)]. apply Some_inj in S as <-.
      assert (X := ni_chan _ _ _ Ni src p (WPut d v)). rewrite Hc in X. apply X. simpl; auto.
    + eapply nv_set; [exact N2|reflexivity..].
    + intros q I. simpl in I. destruct (Tw q I) as (A & ((f & B1 & B2) & B3) & D). eapply (tfine_kin _ _ w2); [repeat split|]. split; auto. split; [split|].
      * exists f. auto.
      * intros x J. destruct (B3 x J) as [B4 B5]. split; auto. destruct B5; auto.
      * intros x J. destruct (D x J) as [D1|[D1|D1]]; auto. destruct (did_dec x d) as [->|Nx]; auto. right. right. apply Nr. auto.
    + intros q [].
    + reflexivity.
    + eapply wok_set; [|reflexivity..]. destruct W0 as [Wa Wb]. split; [|exact Wb]. intros x u S. unfold w2 in S. simpl in S. unfold dput in S.
      destruct (did_eqb d x) eqn:Q; [|exact (Wa x u S)]. apply did_eqb_eq in Q as <-. exact Pp.
    + simpl in L2, F2, G2s, G2o. eapply Fin; [exact E2|exact Nf| | |discriminate|exact T2|exact M2| |rewrite app_nil_r; reflexivity|exact W2|exact Nx].
      * split; intros x; rewrite ?G2s, ?G2o; auto. apply (Wd2 x).
      * intros d' v' Em. assert (d' = d) by congruence. subst d'. rewrite G2s. exact S2.
      * rewrite L2. exact F2.
  - set (w2 := set_owner w (dput (owner w) d o)). destruct (Idle w2) as (I1 & I2 & I3).
    assert (Po : produced H d o) by (apply (a_own _ _ _ _ _ _ (v_net _ _ L) src p d o); rewrite Hc; simpl; auto).
    assert (Go : forall x, owner w x <> None -> owner w2 x <> None) by (intros x; unfold w2; simpl; unfold dput; destruct (did_eqb d x); congruence).
    cbv zeta in I1, I2, I3. eapply (Fin {| p_w := w2; p_next := p_next (n_proc n p); p_cur := None |}); [reflexivity|exact I3|split; [auto|exact Go]|discriminate| | | | |rewrite app_nil_r; reflexivity|eapply wok_set; [exact W0|reflexivity..]|].
    + intros d' o' Em. assert (d' = d) by congruence. subst d'. simpl. rewrite dput_same. discriminate.
    + rewrite I1. intros q I. destruct (Tw q I) as (A & ((f & B1 & B2) & B3) & D). split; auto. split; [split|].
      * exists f. auto.
      * intros x J. destruct (B3 x J) as [B4 B5]. split; auto. destruct B5; auto.
      * intros x J. destruct (D x J) as [D1|[D1|D1]]; auto. right. left. unfold w2. simpl. unfold dput. destruct (did_eqb d x) eqn:Q; auto. apply did_eqb_eq in Q as <-.
        f_equal. eapply P1; [exact Po|]. apply (a_owner _ _ _ _ _ _ (v_net _ _ L) p). exact D1.
    + rewrite I2. exact Rw.
    + rewrite I1. apply less_refl.
    + apply Nd; [reflexivity| |exact Logic.I]. unfold NV. eapply net_ext; [| | |eapply (net_own _ P1 _ (upd (W n) p w) (n_chan n) (n_rep n) nobody p w2)].
      * intros r. symmetry. apply upd_upd.
      * intros a b. unfold also. simpl. rewrite app_nil_r. destruct (Nat.eqb a p); auto.
      * intros a b. unfold alsor. simpl. rewrite app_nil_r. destruct (Nat.eqb a p); auto.
      * apply (net_quietlog _ _ _ _ _ _ p (v_net _ _ L)).
      * rewrite upd_p. reflexivity.
      * rewrite upd_p. reflexivity.
      * rewrite upd_p. reflexivity.
      * rewrite upd_p. reflexivity.
      * rewrite upd_p. reflexivity.
      * intros x o' X. unfold w2 in X. simpl in X. unfold dput in X. destruct (did_eqb d x) eqn:Q; [apply did_eqb_eq in Q as <-; apply Some_inj in X as <-; exact Po|].
        apply (a_owner _ _ _ _ _ _ (v_net _ _ L) p). exact X.
      * rewrite upd_p. intros x o' X. apply Go. congruence.
  - destruct (Idle w) as (I1 & I2 & I3). cbv zeta in I1, I2, I3. eapply (Fin {| p_w := w; p_next := p_next (n_proc n p); p_cur := None |}); [reflexivity|exact I3|split; auto|discriminate|discriminate| | | |rewrite app_nil_r; reflexivity|exact W0|].
    + rewrite I1. exact Tw.
    + rewrite I2. exact Rw.
    + rewrite I1. apply less_refl.
    + apply (Nd w eq_refl N0 Logic.I).
  - destruct (Idle w) as (I1 & I2 & I3). cbv zeta in I1, I2, I3. eapply (Fin {| p_w := w; p_next := p_next (n_proc n p); p_cur := None |}); [reflexivity|exact I3|split; auto|discriminate|discriminate| | | |rewrite app_nil_r; reflexivity|exact W0|].
    + rewrite I1. exact Tw.
    + rewrite I2. exact Rw.
    + rewrite I1. apply less_refl.
    + apply (Nd w eq_refl N0 Logic.I).
  - destruct (Idle w) as (I1 & I2 & I3). cbv zeta in I1, I2, I3. eapply (Fin {| p_w := w; p_next := p_next (n_proc n p); p_cur := None |}); [reflexivity|exact I3|split; auto|discriminate|discriminate| | | |rewrite app_nil_r; reflexivity|exact W0|].
    + rewrite I1. exact Tw.
    + rewrite I2. exact Rw.
    + rewrite I1. apply less_refl.
    + apply (Nd w eq_refl N0 Logic.I).
Qed.

End Turn.
