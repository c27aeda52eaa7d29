(** Workers that stop: proofs. *)
From Verif Require Import Lib ShmModel ShmRaceProofs ValModel WorkerModel WorkerSpec WorkerProofs WorkerWant WorkerAnswer ClusterModel ClusterNet
  NestModel NestSpec NestProofs NestOnce NestThms NestNet NestLoop NestLive NestStep NestCall NestTurn NestRun ReapSpec ReapProofs StopModel StopSpec.

Section Stop.
Variable workers : list rank.
Variable body : val -> val -> val -> act.
Variable exits : nat -> bool.
Variable main : act.

(** What the processes hold is what they hold in some run in which nobody exits. *)
Lemma step_part x o : exists ops, x_n (xstep workers body exits x o) = fold_left (nstep workers body) ops (x_n x).
Proof.
  unfold xstep. destruct (x_gone x (actor_of o)); [exists []; auto|]. destruct o as [p dest|src p|src p]; [destruct (exiting exits (x_n x) p); [exists []; auto|]| |];
    [exists [NRun p dest]|exists [NTake src p]|exists [NReply src p]]; reflexivity.
Qed.

Lemma run_part ops : exists ops', x_n (xrun workers body exits main ops) = nrun workers body main ops'.
Proof.
  unfold xrun, nrun. induction ops as [|o ops IH] using rev_ind; [exists []; auto|]. destruct IH as [l IH]. rewrite fold_left_app. cbn [fold_left].
  destruct (step_part (fold_left (xstep workers body exits) ops {| x_n := ninit main; x_gone := fun _ => false |}) o) as [l' E].
  exists (l ++ l'). rewrite fold_left_app, <- IH. exact E.
Qed.

Hypothesis no_root : ~ In 0 workers.
Hypothesis body_ok : forall f a k, refs a = [] -> refs k = [] -> refless (body f a k).
Hypothesis main_ok : refless main.
Hypothesis body_closed : forall f a k, refs a = [] -> refs k = [] -> closed [] [] (body f a k).
Hypothesis main_closed : closed [] [] main.

Section Halted.
Variable x : xst.
Notation n := (x_n x).
Notation H := (n_hist (x_n x)).
Hypothesis L : Live workers n.
Hypothesis F : Fresh n.
Hypothesis Id : halted x.
Hypothesis Ni : NI body main n.

Lemma mail o src m : o <> 0 -> In m (n_chan n src o) -> blocked x o.
Proof using Id L.
  intros No I. destruct (x_gone x o) eqn:G; [left; auto|]. right. split; auto. specialize (Id o G). assert (M := v_main _ _ L o). destruct (p_cur (n_proc n o)) as [fr|] eqn:E.
  - destruct Id as [[A _]|[A _]]; [apply M in A; congruence|]. exists fr. auto.
  - rewrite (Id No src) in I. destruct I.
Qed.

Lemma uses_refs q d : In d (qrefs q) -> In d (uses q).
Proof. intros I. unfold uses. apply in_or_app. right. exact I. Qed.

Lemma prod_worker d o : produced H d o -> In o workers /\ o <> 0.
Proof using no_root L.
  intros (t & q & I & _). apply (v_sub _ _ L) in I as (I & _). split; auto. intros ->. auto.
Qed.

Lemma follow k : forall t o q, q_id q < k -> In (t, HSubmit o q) H ->
  (ended H (q_id q) /\ forall d, In d (outs q) -> store (p_w (n_proc n o)) d <> None) \/ affected (blocked x) H q.
Proof using no_root L F Id.
  induction k as [|k IH]; intros t o q Lt I; [lia|].
  destruct (v_sub _ _ L _ _ _ I) as (Iw & _ & Or). assert (No : o <> 0) by (intros ->; auto).
  assert (Here : blocked x o -> affected (blocked x) H q) by (intros B; eapply aff_sent; eauto).
  destruct (v_task _ _ L _ _ _ I) as [(a & J)|[(q' & J1 & J2)|J]]; [| |left; exact J].
  - right. apply Here. eapply mail; eauto.
  - right. destruct (x_gone x o) eqn:Go; [apply Here; left; auto|]. destruct (p_cur (n_proc n o)) as [fr|] eqn:Ec.
    { apply Here. right. split; auto. specialize (Id o Go). assert (M := v_main _ _ L o). rewrite Ec in Id, M.
      destruct Id as [[A _]|[A _]]; [apply M in A; congruence|]. exists fr. auto. }
    assert (Q : In q' (resting (n_proc n o))) by (unfold resting, line in *; rewrite Ec in *; auto).
    destruct (v_line _ _ L _ _ J1) as ((t0 & q0 & I0 & (Q1 & _ & _ & Q2)) & _ & Cv).
    destruct (submit_same n t0 t o o q0 q F I0 I ltac:(congruence)) as [_ ->].
    destruct (v_rest _ _ L _ _ Q) as (d & D1 & D2).
    assert (U : In d (uses q)) by (apply uses_refs; auto).
    assert (P : forall o', produced H d o' -> exists t2 q2, In (t2, HSubmit o' q2) H /\ In d (outs q2) /\ q_id q2 < q_id q).
    { intros o' Po. destruct (Or d (Q2 _ D1)) as [Z|(t2 & o2 & q2 & I2 & O2 & L2)].
      - exfalso. destruct Z as (tz & vz & Z). destruct Po as (tp & qp & Ip & Op). assert (E := nodup_flat _ _ _ _ d (fr_made n F) Z Ip ltac:(simpl; auto) Op). discriminate E.
      - assert (o2 = o') by (eapply (produced_one n F); [exists t2, q2; eauto|exact Po]). subst o2. eauto. }
    assert (K : forall o', produced H d o' -> store (p_w (n_proc n o')) d = None -> affected (blocked x) H q).
    { intros o' Po Sn. destruct (P o' Po) as (t2 & q2 & I2 & O2 & L2). destruct (IH t2 o' q2 ltac:(lia) I2) as [[_ X]|X]; [exfalso; exact (X d O2 Sn)|].
      eapply aff_uses; eauto. }
    destruct (Cv d D1) as [X|[X|X]]; [congruence| |].
    + apply (K o); auto. apply (a_owner _ _ _ _ _ _ (v_net _ _ L) o). exact X.
    + destruct (a_reqs _ _ _ _ _ _ (v_net _ _ L) o d X) as (_ & _ & o' & X1 & X2 & [X3|[X3|(v & X3)]]).
      * apply (a_owner _ _ _ _ _ _ (v_net _ _ L)) in X1. destruct (prod_worker _ _ X1) as [_ N0].
        destruct (P o' X1) as (t2 & q2 & I2 & O2 & _). eapply aff_uses; eauto. eapply aff_sent; eauto. eapply mail; eauto.
      * apply (a_gets _ _ _ _ _ _ (v_net _ _ L)) in X3 as (_ & _ & _ & X4 & [X5|[]]). eapply K; eauto.
      * exfalso. specialize (Id o Go). rewrite Ec in Id. rewrite (Id No) in X3. destruct X3.
Qed.

Lemma root_stays : x_gone x 0 = false -> main_over x \/ main_waits (blocked x) x.
Proof using no_root L F Id Ni.
  intros G0. assert (M := v_main _ _ L 0). assert (I0 := Id 0 G0). destruct (p_cur (n_proc n 0)) as [fr|] eqn:Ec; [|congruence].
  destruct I0 as [(_ & G & r & A)|[G R]]; [left; exists fr, r; auto|right].
  destruct (f_get fr) as [g|] eqn:Gf; [|congruence].
  destruct (v_frame _ _ L _ _ Ec) as (pu & ou & _ & _ & _ & Fg). rewrite Gf in Fg. destruct Fg as (_ & _ & _ & Fl & Fp).
  destruct (missing (p_w (n_proc n 0)) (t_ids g)) as [|d ms] eqn:Ms; [simpl in Fl; lia|].
  assert (Im : In d (missing (p_w (n_proc n 0)) (t_ids g))) by (rewrite Ms; simpl; auto). apply in_missing in Im as [Im Sn].
  assert (Wa : In d (t_want g)).
  { destruct (ni_proc _ _ _ Ni 0) as (_ & _ & Fk). rewrite Ec in Fk. destruct Fk as (_ & _ & Fk & _). rewrite Gf in Fk. apply Fk. exact Im. }
  assert (Wp : wantof (n_proc n 0) = t_ids g) by (unfold wantof; rewrite Ec, Gf; auto). assert (N := v_net _ _ L).
  destruct (t_have _ _ (a_tok _ _ _ _ _ _ N) (0, d)) as [[a b|r|a b] J]; [split; simpl; rewrite ?Wp; auto| | |]; simpl in J.
  - apply in_asks in J. destruct (a_get _ _ _ _ _ _ N _ _ _ _ _ J) as (_ & Nb & Pb & _). destruct (prod_worker _ _ Pb) as [_ Nz].
    destruct Pb as (t & q & I & O). exists fr, g, t, b, q, d. do 5 (split; auto). eapply aff_sent; eauto. eapply mail; eauto.
  - apply in_unanswered in J as [J _]. destruct (a_bgets _ _ _ _ _ _ N _ _ _ J) as (_ & _ & (t & q & I & O) & [S|[]]).
    exists fr, g, t, r, q, d. do 5 (split; auto). destruct (follow (Datatypes.S (q_id q)) t r q ltac:(lia) I) as [[_ X]|X]; auto. exfalso. exact (X d O S).
  - apply in_map_iff in J as ([d' v] & E & J). assert (b = 0) by congruence. subst b. exfalso. rewrite R in J. destruct J.
Qed.

End Halted.

(** A worker that is gone stays as it was when it went. *)
Lemma others_stay n o p : actor_of o <> p -> n_proc (nstep workers body n o) p = n_proc n p.
Proof using.
  intros N. assert (U : forall s, upd (n_proc n) (actor_of o) s p = n_proc n p) by (intros s; unfold upd; destruct (Nat.eqb p (actor_of o)) eqn:E; auto; apply Nat.eqb_eq in E; congruence).
  assert (Lp : forall y ch h, n_proc (looped n (actor_of o) y ch h) p = n_proc n p) by (intros [[s [i|]]|] ch h; simpl; apply U).
  destruct o as [r dest|src r|src r]; simpl in *.
  - destruct (p_cur (n_proc n r)) as [fr|]; auto. destruct (n_dead n r); auto. destruct (f_get fr); auto.
    destruct (f_act fr) as [res|v k|f a kw m k|ds k]; [destruct (f_rest fr); auto| | |]; destruct (call_api _ _ _ _ _ _) as [[[[s out] sub] h]|]; auto; apply U.
  - destruct (n_chan n src r); auto. destruct (p_cur (n_proc n r)); auto. destruct (_ || _); auto.
  - destruct (n_rep n src r) as [|[d v] l]; auto. destruct (p_cur (n_proc n r)) as [fr|]; auto. destruct (f_get fr); auto. destruct (f_act fr); auto.
    destruct (receive _ _ _ _ _ _) as [s h]. simpl. apply U.
Qed.

Lemma gone_exiting ops p : x_gone (xrun workers body exits main ops) p = true -> exiting exits (x_n (xrun workers body exits main ops)) p = true.
Proof using.
  induction ops as [|o ops IH] using rev_ind; [discriminate|]. unfold xrun in *. rewrite fold_left_app. cbn [fold_left].
  set (y := fold_left (xstep workers body exits) ops {| x_n := ninit main; x_gone := fun _ => false |}) in *.
  assert (K : x_gone y (actor_of o) = false -> x_gone y p = true -> exiting exits (nstep workers body (x_n y) o) p = true).
  { intros G X. unfold exiting. rewrite others_stay by congruence. apply IH. auto. }
  unfold xstep. destruct (x_gone y (actor_of o)) eqn:G; auto. destruct o as [q dest|src q|src q]; try (apply K; auto; fail).
  destruct (exiting exits (x_n y) q) eqn:X; [|apply K; auto]. cbn [x_gone x_n]. unfold upd. destruct (Nat.eqb p q) eqn:Z; auto. apply Nat.eqb_eq in Z as ->. auto.
Qed.

Theorem gone_why ops p : let x := xrun workers body exits main ops in x_gone x p = true ->
  exists fr e, p_cur (n_proc (x_n x) p) = Some fr /\ f_act fr = ARet (RExc e) /\ exits e = true /\ f_rest fr <> LMain.
Proof using.
  intros x G. apply gone_exiting in G. fold x in G. unfold exiting in G. destruct (p_cur (n_proc (x_n x) p)) as [fr|]; [|discriminate].
  destruct (f_get fr); [discriminate|]. destruct (f_act fr) as [[v|e]| | |] eqn:A; try discriminate. exists fr, e.
  destruct (f_rest fr); try discriminate; repeat split; auto; discriminate.
Qed.

Theorem isolated ops : let x := xrun workers body exits main ops in results_fit (n_hist (x_n x)) -> halted x ->
  (forall t o q, In (t, HSubmit o q) (n_hist (x_n x)) -> finished (n_hist (x_n x)) q \/ affected (blocked x) (n_hist (x_n x)) q) /\
  (main_over x \/ main_waits (blocked x) x).
Proof using no_root body_ok main_ok body_closed main_closed.
  intros x Rf Hl. destruct (run_part ops) as [l E]. fold x in E.
  assert (L : Live workers (x_n x)) by (rewrite E in *; apply run_live; auto). assert (F : Fresh (x_n x)) by (rewrite E; apply run_fresh).
  assert (G0 : x_gone x 0 = false).
  { destruct (x_gone x 0) eqn:G; auto. apply gone_exiting in G. fold x in G. assert (M := v_main _ _ L 0). unfold exiting in G.
    destruct (p_cur (n_proc (x_n x) 0)) as [fr|]; [|discriminate]. destruct (f_get fr); [discriminate|]. destruct (f_act fr) as [[]| | |]; try discriminate.
    rewrite (proj2 M eq_refl) in G. discriminate. }
  assert (Ni : NI body main (x_n x)) by (rewrite E; apply run_ni; auto). split; [|apply root_stays; auto]. intros t o q I. destruct (follow x L F Hl (S (q_id q)) t o q ltac:(lia) I) as [[X _]|X]; auto.
Qed.

Lemma held_getless ops w : (forall f a k, refs a = [] -> refs k = [] -> getless (body f a k)) ->
  let x := xrun workers body exits main ops in blocked x w -> x_gone x w = true.
Proof using body_ok main_ok.
  intros G x [X|[N X]]; auto. exfalso. destruct (run_part ops) as [l E]. fold x in E. rewrite E in X. eapply getless_workers; eauto.
Qed.

Lemma affected_mono (b b' : rank -> Prop) Hs q : (forall w, b w -> b' w) -> affected b Hs q -> affected b' Hs q.
Proof. intros I A. induction A; [eapply aff_sent|eapply aff_uses]; eauto. Qed.

(** If no task calls get, only workers that have gone matter. *)
Theorem isolated_getless ops : (forall f a k, refs a = [] -> refs k = [] -> getless (body f a k)) ->
  let x := xrun workers body exits main ops in let gone w := x_gone x w = true in results_fit (n_hist (x_n x)) -> halted x ->
  (forall t o q, In (t, HSubmit o q) (n_hist (x_n x)) -> finished (n_hist (x_n x)) q \/ affected gone (n_hist (x_n x)) q) /\
  (main_over x \/ main_waits gone x).
Proof using no_root body_ok main_ok body_closed main_closed.
  intros G x gone Rf Hl. destruct (isolated ops Rf Hl) as [A B]. fold x in A, B. assert (M : forall w, blocked x w -> gone w) by (intros w; apply held_getless; auto). split.
  - intros t o q I. destruct (A t o q I) as [X|X]; auto. right. eapply affected_mono; eauto.
  - destruct B as [B|(fr & g & t & o & q & d & B1 & B2 & B3 & B4 & B5 & B6)]; auto. right. exists fr, g, t, o, q, d. do 5 (split; auto). eapply affected_mono; eauto.
Qed.

Theorem x_gets ops t ds r : let H := n_hist (x_n (xrun workers body exits main ops)) in In (t, HGet ds r) H ->
  match r with
  | GVals vs => Forall2 (means body H) ds vs
  | GRaise e => exists d, In d ds /\ means body H d (VExc e)
  | GError => True
  end.
Proof using body_ok main_ok. cbn zeta. destruct (run_part ops) as [l E]. rewrite E. apply gets_mean; auto. Qed.

Theorem x_one ops d v v' : let H := n_hist (x_n (xrun workers body exits main ops)) in means body H d v -> means body H d v' -> v = v'.
Proof using. cbn zeta. destruct (run_part ops) as [l E]. rewrite E. apply means_one. Qed.

Theorem x_no_errors ops : let n := x_n (xrun workers body exits main ops) in results_fit (n_hist n) ->
  (forall p, n_dead n p = false) /\ forall t e, In (t, e) (n_hist n) -> match e with HRefused _ _ _ _ => False | HGet _ GError => False | _ => True end.
Proof using no_root body_ok main_ok body_closed main_closed. cbn zeta. destruct (run_part ops) as [l E]. rewrite E. apply no_errors; auto. Qed.

(** ** What is lost *)

Lemma drop_other ch src r a p : r <> p -> drop_head ch src r a p = ch a p.
Proof using. intros N. unfold drop_head. destruct (Nat.eqb a src); auto. simpl. destruct (Nat.eqb p r) eqn:E; auto. apply Nat.eqb_eq in E. congruence. Qed.

Lemma mail_stays n o p a m : actor_of o <> p -> In m (n_chan n a p) -> In m (n_chan (nstep workers body n o) a p).
Proof using.
  intros N I. assert (Pp : forall s ch re out t r h, In m (ch a p) -> In m (n_chan (put_proc n (actor_of o) s ch re out t r h) a p)).
  { intros s ch re out t r h J. simpl. destruct (Nat.eqb a (actor_of o)); auto. apply in_or_app. auto. }
  assert (Lp : forall y ch h, In m (ch a p) -> In m (n_chan (looped n (actor_of o) y ch h) a p)) by (intros [[s [i|]]|] ch h J; apply Pp; exact J).
  destruct o as [r dest|src r|src r]; simpl actor_of in *; cbn [nstep].
  - destruct (p_cur (n_proc n r)) as [fr|]; auto. destruct (n_dead n r); auto. destruct (f_get fr); auto.
    destruct (f_act fr) as [res|v k|f a' kw m' k|ds k]; [destruct (f_rest fr); auto| | |]; destruct (call_api _ _ _ _ _ _) as [[[[s out] sub] h]|]; auto.
  - destruct (n_chan n src r) eqn:E; auto. destruct (p_cur (n_proc n r)); auto. destruct (_ || _); auto. apply Lp. rewrite drop_other; auto.
  - destruct (n_rep n src r) as [|[d v] l]; auto. destruct (p_cur (n_proc n r)) as [fr|]; auto. destruct (f_get fr); auto. destruct (f_act fr); auto.
    destruct (receive _ _ _ _ _ _) as [s h]. apply Pp. exact I.
Qed.

Lemma later ops more p : x_gone (xrun workers body exits main ops) p = true ->
  let x := xrun workers body exits main ops in let x' := xrun workers body exits main (ops ++ more) in
  x_gone x' p = true /\ n_proc (x_n x') p = n_proc (x_n x) p /\ (forall a m, In m (n_chan (x_n x) a p) -> In m (n_chan (x_n x') a p)) /\
  exists h, n_hist (x_n x') = n_hist (x_n x) ++ h.
Proof using.
  intros G x x'. subst x x'. unfold xrun in *. rewrite fold_left_app.
  set (y := fold_left (xstep workers body exits) ops {| x_n := ninit main; x_gone := fun _ => false |}) in *. clearbody y. revert y G.
  induction more as [|o more IH]; intros y G; cbn [fold_left]; [split; auto; split; auto; split; auto; exists []; rewrite app_nil_r; auto|].
  assert (Q : x_gone (xstep workers body exits y o) p = true /\ n_proc (x_n (xstep workers body exits y o)) p = n_proc (x_n y) p /\
    (forall a m, In m (n_chan (x_n y) a p) -> In m (n_chan (x_n (xstep workers body exits y o)) a p)) /\ exists h, n_hist (x_n (xstep workers body exits y o)) = n_hist (x_n y) ++ h).
  { assert (Z : exists h, n_hist (x_n y) = n_hist (x_n y) ++ h) by (exists []; rewrite app_nil_r; auto).
    unfold xstep. destruct (x_gone y (actor_of o)) eqn:A; auto. assert (N : actor_of o <> p) by congruence.
    assert (K : n_proc (nstep workers body (x_n y) o) p = n_proc (x_n y) p /\
      (forall a m, In m (n_chan (x_n y) a p) -> In m (n_chan (nstep workers body (x_n y) o) a p)) /\ exists h, n_hist (nstep workers body (x_n y) o) = n_hist (x_n y) ++ h).
    { split; [apply others_stay; auto|]. split; [intros a m; apply mail_stays; auto|apply hist_step]. }
    destruct o as [r dest|src r|src r]; try (split; [exact G|exact K]).
    destruct (exiting exits (x_n y) r); [|split; [exact G|exact K]]. cbn [x_n x_gone]. split; auto. unfold upd. destruct (Nat.eqb p r); auto. }
  destruct Q as (Q1 & Q2 & Q3 & h & Q4). destruct (IH _ Q1) as (R1 & R2 & R3 & h' & R4). split; auto. split; [congruence|]. split; [intros a m I; apply R3; apply Q3; auto|].
  exists (h ++ h'). rewrite R4, Q4, app_assoc. auto.
Qed.

Lemma started_in n i t : In (t, HStart i) (n_hist n) -> 0 < count_occ Nat.eq_dec (content n LS) i.
Proof using. intros I. apply count_occ_In. simpl. unfold starts. apply in_flat_map. exists (t, HStart i). simpl. auto. Qed.

(** What is at a worker that does nothing more and is not finished is never finished. *)
Lemma lost_core n n' p t q : Live workers n -> Once n' -> NI body main n' -> n_proc n' p = n_proc n p ->
  (forall a m, In m (n_chan n a p) -> In m (n_chan n' a p)) -> In (t, HSubmit p q) (n_hist n) -> ~ finished (n_hist n) q -> ~ finished (n_hist n') q.
Proof using.
  intros L O Ni P C I Nf (t' & r & J1 & J2). assert (S := started_in n' _ _ J1).
  destruct (v_task _ _ L _ _ _ I) as [(a & K)|[(q' & K1 & K2)|[K _]]]; [| |exact (Nf K)].
  - apply C in K. assert (Y : 0 < count_occ Nat.eq_dec (content n' (LC a p)) (q_id q)).
    { apply count_occ_In. simpl. unfold execs. apply in_flat_map. exists (WExec q). simpl. auto. }
    assert (Z := on_loc _ O _ _ _ S Y). discriminate Z.
  - rewrite <- P in K1. rewrite <- K2 in *. unfold line in K1. apply in_app_or in K1.
    assert (W : In q' (waiting (n_proc n' p)) -> False).
    { intros W. assert (Y : 0 < count_occ Nat.eq_dec (content n' (LH p)) (q_id q')) by (apply count_occ_In; simpl; apply in_map; auto).
      assert (Z := on_loc _ O _ _ _ S Y). discriminate Z. }
    unfold waiting in W. destruct K1 as [K1|K1]; [apply W; apply in_or_app; auto|].
    destruct (p_cur (n_proc n' p)) as [fr|] eqn:Ec; [|destruct K1].
    assert (Fr : f_rest fr <> LMain -> q' = f_q fr -> False).
    { intros Nm ->. destruct (ni_proc _ _ _ Ni p) as (_ & _ & Fk). rewrite Ec in Fk. destruct Fk as (_ & _ & _ & B & _).
      assert (X : exists b l, trace (n_hist n') (f_run fr) = HStart (q_id (f_q fr)) :: l /\ follows b l (f_act fr)).
      { destruct (f_rest fr); [congruence| |]; destruct B as (_ & f & _ & l0 & B1 & B2 & _); eauto. }
      destruct X as (b & l0 & X1 & X2). assert (T : In (f_run fr, HStart (q_id (f_q fr))) (n_hist n')) by (apply in_trace; rewrite X1; simpl; auto).
      assert (t' = f_run fr).
      { assert (N : NoDup (starts (n_hist n'))) by (apply (NoDup_count_occ Nat.eq_dec); intros z; apply (on_one _ O LS z)).
        assert (Z := nodup_flat _ _ _ _ (q_id (f_q fr)) N J1 T ltac:(simpl; auto) ltac:(simpl; auto)). congruence. }
      subst t'. apply in_trace in J2. rewrite X1 in J2. destruct J2 as [J2|J2]; [discriminate|]. apply follows_no_end in X2. unfold hends in X2.
      clear - J2 X2. induction l0 as [|e l0 IH]; [destruct J2|]. destruct J2 as [->|J2]; [discriminate X2|]. apply IH; auto. destruct e; simpl in X2; auto; discriminate. }
    destruct (f_rest fr) eqn:Er; [destruct K1| |].
    + destruct K1 as [<-|[]]. apply Fr; auto. discriminate.
    + apply in_app_or in K1 as [K1|[K1|K1]]; [apply W; apply in_or_app; right; apply in_or_app; auto|apply Fr; [discriminate|auto]|apply W; apply in_or_app; right; apply in_or_app; auto].
Qed.

(** A call sent to a worker that has gone and not finished then is never finished. *)
Theorem lost ops more p t q : let x := xrun workers body exits main ops in let x' := xrun workers body exits main (ops ++ more) in
  results_fit (n_hist (x_n x)) -> x_gone x p = true -> In (t, HSubmit p q) (n_hist (x_n x)) -> ~ finished (n_hist (x_n x)) q -> ~ finished (n_hist (x_n x')) q.
Proof using no_root body_ok main_ok body_closed main_closed.
  intros x x' Rf G I Nf. destruct (later ops more p G) as (_ & P & C & _). fold x x' in P, C.
  destruct (run_part ops) as [l E]. fold x in E. destruct (run_part (ops ++ more)) as [l' E']. fold x' in E'.
  assert (L : Live workers (x_n x)) by (rewrite E in *; apply run_live; auto). assert (O : Once (x_n x')) by (rewrite E'; apply run_once).
  assert (Ni : NI body main (x_n x')) by (rewrite E'; apply run_ni; auto). exact (lost_core (x_n x) (x_n x') p t q L O Ni P C I Nf).
Qed.

(** When nobody that is left can go on, nothing changes any more. *)
Lemma halted_still x o : halted x -> (forall p, x_gone x p = false -> p_cur (n_proc (x_n x) p) <> None -> exiting exits (x_n x) p = false) -> xstep workers body exits x o = x.
Proof using.
  intros Hl Nx. unfold xstep. destruct (x_gone x (actor_of o)) eqn:G; auto. specialize (Hl _ G). specialize (Nx _ G).
  assert (E : nstep workers body (x_n x) o = x_n x).
  { destruct o as [p dest|src p|src p]; simpl in *.
    - destruct (p_cur (n_proc (x_n x) p)) as [fr|]; auto. destruct (n_dead (x_n x) p); auto. destruct Hl as [(-> & -> & r & ->)|[Q _]]; auto. destruct (f_get fr); congruence.
    - destruct (n_chan (x_n x) src p) as [|m ms] eqn:E; auto. destruct (p_cur (n_proc (x_n x) p)); auto. destruct (Nat.eqb p 0) eqn:Z; auto.
      apply Nat.eqb_neq in Z. rewrite (Hl Z) in E. discriminate.
    - destruct (n_rep (x_n x) src p) as [|[d v] l] eqn:E; auto. destruct (p_cur (n_proc (x_n x) p)) as [fr|]; auto. destruct Hl as [(_ & -> & _)|[_ I]]; auto. rewrite I in E. discriminate. }
  rewrite E. assert (Z : {| x_n := x_n x; x_gone := x_gone x |} = x) by (destruct x; reflexivity). destruct o as [p dest|src p|src p]; auto.
  destruct (exiting exits (x_n x) p) eqn:X; auto. exfalso. simpl in Nx. destruct (p_cur (n_proc (x_n x) p)) as [fr|] eqn:C.
  - assert (true = false) by (rewrite <- X; apply Nx; discriminate). discriminate.
  - unfold exiting in X. rewrite C in X. discriminate.
Qed.

End Stop.
