(** Programs that go on after a failed get: what still holds. *)
From Verif Require Import Lib ShmModel ShmRaceProofs ValModel WorkerModel WorkerSpec WorkerProofs ClusterModel NestModel NestSpec NestProofs NestOnce NestThms
  GetFailModel GetFailSpec.

Section Fail.
Variable workers : list rank.
Variable body : val -> val -> val -> act.
Variable loads : val -> bool.
Variable main : act.

Definition less (re re' : rank -> rank -> list (dataid * val)) : Prop := forall a b x, In x (re a b) -> In x (re' a b).

Lemma drop_less re src p : less (drop_answer re src p) re.
Proof. intros a b x. unfold drop_answer. destruct (Nat.eqb a src && Nat.eqb b p); auto. destruct (re a b); simpl; auto. Qed.

Lemma give_fresh n p re : Fresh n -> Fresh (give_up n p re).
Proof.
  intros F. unfold give_up. destruct (p_cur (n_proc n p)) as [fr|]; auto. destruct (f_get fr) as [g|]; auto. destruct (f_act fr); auto.
  eapply (fresh_same n _ [(f_run fr, HGet (t_want g) GError)]); auto. simpl. unfold upd. intros r.
  destruct (Nat.eqb r p) eqn:E; [apply Nat.eqb_eq in E as ->; simpl; lia|lia].
Qed.

Lemma give_once n p re : Once n -> Once (give_up n p re).
Proof.
  intros O. unfold give_up. destruct (p_cur (n_proc n p)) as [fr|] eqn:C; auto. destruct (f_get fr) as [g|]; auto. destruct (f_act fr); auto.
  apply (once_less n); auto. intros l i. rewrite put_quiet. destruct l as [a b|r|]; simpl; auto.
  - destruct (Nat.eqb r p) eqn:E; [apply Nat.eqb_eq in E as ->|lia]. unfold held, waiting. cbn [p_cur p_w no_log pend set_act f_rest]. rewrite C. lia.
  - lia.
Qed.

Lemma zstep_fresh n z : Fresh n -> Fresh (zstep workers body loads n z).
Proof.
  intros F. destruct z as [[p dest|src p|src p]|]; unfold zstep.
  - apply fresh_step; auto.
  - destruct (n_chan n src p) as [|m ms]; auto. destruct (p_cur (n_proc n p)); auto. destruct (_ && _); [|apply fresh_step; auto].
    apply (looped_fresh n p None); auto. discriminate.
  - destruct (n_rep n src p) as [|[d v] ms]; auto. destruct (loads v); [apply fresh_step; auto|apply give_fresh; auto].
  - apply give_fresh; auto.
Qed.

Lemma zstep_once n z : Once n -> Once (zstep workers body loads n z).
Proof.
  intros F. destruct z as [[p dest|src p|src p]|]; unfold zstep.
  - apply once_step; auto.
  - destruct (n_chan n src p) as [|m ms] eqn:Ch; auto. destruct (p_cur (n_proc n p)); auto. destruct (_ && _); [|apply once_step; auto].
    apply kill_once; auto. intros; eapply chan_less; eauto.
  - destruct (n_rep n src p) as [|[d v] ms]; auto. destruct (loads v); [apply once_step; auto|apply give_once; auto].
  - apply give_once; auto.
Qed.

Lemma zrun_fresh ops : Fresh (zrun workers body loads main ops).
Proof.
  unfold zrun. assert (F := run_fresh workers body main []). unfold nrun in F. simpl in F. revert F. generalize (ninit main).
  induction ops as [|z ops IH]; intros n F; simpl; auto. apply IH, zstep_fresh, F.
Qed.

Lemma zrun_once ops : Once (zrun workers body loads main ops).
Proof.
  unfold zrun. assert (F := run_once workers body main []). unfold nrun in F. simpl in F. revert F. generalize (ninit main).
  induction ops as [|z ops IH]; intros n F; simpl; auto. apply IH, zstep_once, F.
Qed.

Lemma starts_in H x i y : trace H x = HStart i :: y -> In (x, HStart i) H.
Proof.
  intros E. assert (J : In (HStart i) (trace H x)) by (rewrite E; simpl; auto). unfold trace in J. apply in_flat_map in J as ([a b] & J1 & J2). simpl in J2.
  destruct (Nat.eqb a x) eqn:Z; [|destruct J2]. destruct J2 as [<-|[]]. apply Nat.eqb_eq in Z as <-. auto.
Qed.

Theorem z_once ops t t' i : In (t, HStart i) (n_hist (zrun workers body loads main ops)) -> In (t', HStart i) (n_hist (zrun workers body loads main ops)) -> t = t'.
Proof.
  intros X Y. set (H := n_hist _) in *. assert (N : NoDup (starts H)).
  { apply (NoDup_count_occ Nat.eq_dec). intros z. apply (on_one _ (zrun_once ops) LS z). }
  assert (E := nodup_flat _ H _ _ i N X Y ltac:(simpl; auto) ltac:(simpl; auto)). congruence.
Qed.

Theorem z_one ops d v v' : means body (n_hist (zrun workers body loads main ops)) d v -> means body (n_hist (zrun workers body loads main ops)) d v' -> v = v'.
Proof.
  intros [k A] [k' B]. eapply means_unique; eauto; [apply (fr_made _ (zrun_fresh ops))|].
  intros t t' i l l' X Y. apply starts_in in X, Y. eapply z_once; eauto.
Qed.

(** ** What is got *)

Hypothesis body_ok : forall f a k, refs a = [] -> refs k = [] -> refless (body f a k).
Hypothesis main_ok : refless main.

Lemma give_ni n p re : less re (n_rep n) -> NI body main n -> NI body main (give_up n p re).
Proof.
  intros L N. unfold give_up. destruct (p_cur (n_proc n p)) as [fr|] eqn:C; auto. destruct (f_get fr) as [g|] eqn:G; auto.
  destruct (f_act fr) as [r|v' k|f args kwargs j k|ds k] eqn:A; auto.
  assert (Pk := ni_proc _ _ _ N p). assert (Pk' := Pk). destruct Pk' as (W & Pn & Fk). rewrite C in Fk.
  assert (X := Fk). destruct X as (X0 & X1 & X2 & _). rewrite G in X2. destruct X2 as ((k' & X2) & _). rewrite A in X1, X2. assert (ds = t_want g) by congruence. subst ds.
  apply (put_proc_ok body main n p); auto.
  - intros e [<-|[]]. exact X0.
  - intros e [<-|[]]. right. exists fr. auto.
  - right. exists fr. auto.
  - split; [apply wok_grows, no_log_ok, W|]. split; [apply forall_grows; exact Pn|]. cbn [p_cur set_act f_run]. rewrite trace_app.
    change (trace [(f_run fr, HGet (t_want g) GError)] (f_run fr)) with (trace (map (fun e => (f_run fr, e)) [HGet (t_want g) GError]) (f_run fr)).
    rewrite trace_tag. apply (fok_ext body main (n_hist n) (n_runs n) p fr _ (k GError) [HGet (t_want g) GError]); auto.
    + rewrite A. apply fo_get. constructor.
    + repeat constructor.
  - intros t e [Y|[]]. apply pair_inj in Y as [<- <-]. exact Logic.I.
  - intros b m [].
  - intros fr2 Y Z. apply Some_inj in Y as <-. eapply (ni_first _ _ _ N); eauto.
Qed.

Lemma zstep_ni n z : NI body main n -> NI body main (zstep workers body loads n z).
Proof using body_ok.
  intros F. destruct z as [[p dest|src p|src p]|]; unfold zstep.
  - apply ni_step; auto.
  - destruct (n_chan n src p) as [|m ms] eqn:Ch; auto. destruct (p_cur (n_proc n p)); auto. destruct (_ && _); [|apply ni_step; auto].
    apply kill_ok; auto; [intros e []|intros t e []|intros; eapply drop_in; eauto].
  - destruct (n_rep n src p) as [|[d v] ms] eqn:R; auto. destruct (loads v); [apply ni_step; auto|apply give_ni; auto; apply drop_less].
  - apply give_ni; auto. intros a b x; auto.
Qed.

Lemma zrun_ni ops : NI body main (zrun workers body loads main ops).
Proof using body_ok main_ok.
  unfold zrun. generalize (ni_init body main main_ok). generalize (ninit main). induction ops as [|o ops IH]; intros n N; simpl; auto. apply IH, zstep_ni, N.
Qed.

Theorem z_gets ops t ds r : In (t, HGet ds r) (n_hist (zrun workers body loads main ops)) ->
  match r with
  | GVals vs => Forall2 (means body (n_hist (zrun workers body loads main ops))) ds vs
  | GRaise e => exists d, In d ds /\ means body (n_hist (zrun workers body loads main ops)) d (VExc e)
  | GError => True
  end.
Proof using body_ok main_ok. intros I. apply (ni_good _ _ _ (zrun_ni ops)) in I. destruct r; exact I. Qed.

(** ** What executions do *)

Lemma give_ti n p re : NI body main n -> NI body main (give_up n p re) -> TI body main n -> TI body main (give_up n p re).
Proof.
  intros N N' T. revert N'. unfold give_up. destruct (p_cur (n_proc n p)) as [fr|] eqn:C; auto. destruct (f_get fr) as [g|] eqn:G; auto.
  destruct (f_act fr) as [r|v' k|f args kwargs j k|ds k] eqn:A; auto. intros N'.
  apply (ti_step' body main n _ [(f_run fr, HGet (t_want g) GError)] N N' T eq_refl). cbn [put_proc n_runs n_proc]. intros t Lt. rewrite trace_single.
  destruct (Nat.eqb (f_run fr) t) eqn:E; [|auto]. apply Nat.eqb_eq in E. right; left. exists p. rewrite upd_same. eexists. split; [reflexivity|exact E].
Qed.

Lemma zstep_ti n z : NI body main n -> TI body main n -> TI body main (zstep workers body loads n z).
Proof using body_ok.
  intros N T. assert (N' := zstep_ni n z N). revert N'. destruct z as [[p dest|src p|src p]|]; unfold zstep.
  - intros _. apply ti_step; auto.
  - destruct (n_chan n src p) as [|m ms] eqn:Ch; auto. destruct (p_cur (n_proc n p)); auto. destruct (_ && _); [|intros _; apply ti_step; auto].
    intros N'. apply (ti_step' body main n _ [] N N' T eq_refl). auto.
  - destruct (n_rep n src p) as [|[d v] ms] eqn:R; auto. destruct (loads v); [intros _; apply ti_step; auto|intros N'; apply give_ti; auto].
  - intros N'; apply give_ti; auto.
Qed.

Lemma zrun_ti ops : TI body main (zrun workers body loads main ops).
Proof using body_ok main_ok.
  unfold zrun. assert (T := run_ti workers body main body_ok main_ok []). unfold nrun in T. simpl in T.
  assert (N := ni_init body main main_ok). revert N T. generalize (ninit main). induction ops as [|o ops IH]; intros n N T; simpl; auto.
  apply IH; [apply zstep_ni; auto|apply zstep_ti; auto].
Qed.

Theorem z_main ops : exists a, follows main (trace (n_hist (zrun workers body loads main ops)) 0) a.
Proof using body_ok main_ok.
  destruct (zrun_ti ops 0) as [[_ X]|[X _]]; [|exact X|congruence]. apply (ni_zero _ _ _ (zrun_ni ops)).
Qed.

(** ** What the main program holds *)

(** It was put by the main program, or it was unpickled. *)
Definition from (H : list (nat * hev)) (d : dataid) (v : val) : Prop := In (0, HPut d v) H \/ loads v = true.

Lemma from_grows H h d v : from H d v -> from (H ++ h) d v.
Proof. intros [I|I]; [left; apply in_or_app; auto|right; auto]. Qed.

Record RI (n : nst) : Prop := {
  ri_cur : exists fr, p_cur (n_proc n 0) = Some fr /\ f_rest fr = LMain /\ f_run fr = 0 /\
    match f_get fr with Some g => forall e, t_exc g = Some e -> exists d, In d (t_want g) /\ from (n_hist n) d (VExc e) | None => True end;
  ri_store : forall d v, store (p_w (n_proc n 0)) d = Some v -> from (n_hist n) d v;
  ri_gets : forall e, In (0, e) (n_hist n) -> good_get (from (n_hist n)) e
}.

Lemma goods n h : (forall e, In (0, e) (n_hist n) -> good_get (from (n_hist n)) e) -> (forall e, In (0, e) h -> good_get (from (n_hist n ++ h)) e) ->
  forall e, In (0, e) (n_hist n ++ h) -> good_get (from (n_hist n ++ h)) e.
Proof. intros A B e I. apply in_app_or in I as [I|I]; auto. eapply good_mono; [|apply A; exact I]. intros; apply from_grows; auto. Qed.

(** A step of another process. *)
Lemma ri_other n n' h : RI n -> n_hist n' = n_hist n ++ h -> n_proc n' 0 = n_proc n 0 -> (forall e, In e h -> fst e <> 0) -> RI n'.
Proof.
  intros [(fr & C & R & Z & G) S Gs] E P F. split; rewrite E, ?P.
  - exists fr. split; auto. split; auto. split; auto. destruct (f_get fr); auto. intros e X. destruct (G e X) as (d & I & Y). exists d. split; auto. apply from_grows; auto.
  - intros d v X. apply from_grows; auto.
  - apply goods; auto. intros e I. apply F in I. simpl in I. congruence.
Qed.

Lemma other_run n p fr : NI body main n -> p <> 0 -> p_cur (n_proc n p) = Some fr -> f_run fr <> 0.
Proof.
  intros N Z C. assert (K := ni_proc _ _ _ N p). destruct K as (_ & _ & K). rewrite C in K. destruct K as (_ & _ & _ & K & _).
  destruct (f_rest fr) eqn:R; try tauto. intros _. apply Z. eapply (ni_first _ _ _ N); eauto.
Qed.

Lemma looped_hist n p x ch h : exists h', n_hist (looped n p x ch h) = n_hist n ++ h ++ h' /\ (forall e, In e h' -> fst e = n_runs n) /\
  (p <> 0 -> n_proc (looped n p x ch h) 0 = n_proc n 0).
Proof.
  assert (U : forall s, p <> 0 -> upd (n_proc n) p s 0 = n_proc n 0). { intros s Z. unfold upd. destruct (Nat.eqb 0 p) eqn:E; auto. apply Nat.eqb_eq in E. congruence. }
  destruct x as [[s [i|]]|]; simpl.
  - exists [(n_runs n, HStart i)]. split; auto. split; [intros e [<-|[]]; auto|apply U].
  - exists []. rewrite app_nil_r. split; auto. split; [intros e []|apply U].
  - exists []. rewrite app_nil_r. split; auto. split; [intros e []|apply U].
Qed.

Lemma ri_looped n p x ch h : NI body main n -> RI n -> p <> 0 -> (forall e, In e h -> fst e <> 0) -> RI (looped n p x ch h).
Proof.
  intros N R Z F. destruct (looped_hist n p x ch h) as (h' & E & H1 & H2). eapply (ri_other n _ (h ++ h')); auto.
  intros e I. apply in_app_or in I as [I|I]; auto. rewrite (H1 e I). assert (Y := ni_zero _ _ _ N). lia.
Qed.

Lemma upd_other {A} (f : rank -> A) p x : p <> 0 -> upd f p x 0 = f 0.
Proof. intros Z. unfold upd. destruct (Nat.eqb 0 p) eqn:E; auto. apply Nat.eqb_eq in E. congruence. Qed.

Lemma ri_give n p re : NI body main n -> RI n -> RI (give_up n p re).
Proof.
  intros N R. unfold give_up. destruct (p_cur (n_proc n p)) as [fr|] eqn:C; auto. destruct (f_get fr) as [g|] eqn:G; auto.
  destruct (f_act fr) as [r|v' k|f args kwargs j k|ds k] eqn:A; auto.
  destruct (Nat.eq_dec p 0) as [->|Z].
  - destruct R as [(fr0 & C0 & R0 & Z0 & G0) S Gs]. assert (fr0 = fr) by congruence. subst fr0. split; cbn [put_proc n_proc n_hist]; rewrite ?upd_same.
    + eexists. split; [reflexivity|]. simpl. auto.
    + simpl. intros d v X. apply from_grows. auto.
    + apply goods; auto. intros e [X|[]]. apply pair_inj in X as [_ <-]. exact Logic.I.
  - eapply (ri_other n _ [(f_run fr, HGet (t_want g) GError)]); auto; [apply upd_other; auto|].
    intros e [<-|[]]. simpl. eapply other_run; eauto.
Qed.

Lemma read_from (w : wst) H ds : (forall d v, store w d = Some v -> from H d v) -> forall vs, read_vals (store w) ds = Some vs -> Forall2 (from H) ds vs.
Proof.
  intros S. induction ds as [|d ds IH]; intros vs E; simpl in E; [apply Some_inj in E as <-; constructor|].
  destruct (store w d) as [v|] eqn:X; [|discriminate]. destruct (read_vals (store w) ds) as [l|]; [|discriminate]. apply Some_inj in E as <-. constructor; auto.
Qed.

Lemma ri_run n p dest : NI body main n -> RI n -> RI (nstep workers body n (NRun p dest)).
Proof.
  intros N R. unfold nstep. destruct (p_cur (n_proc n p)) as [fr|] eqn:C; auto. destruct (n_dead n p); auto. destruct (f_get fr) eqn:G; auto.
  destruct (Nat.eq_dec p 0) as [->|Z].
  - destruct R as [(fr0 & C0 & R0 & Z0 & G0) S Gs]. assert (fr0 = fr) by congruence. subst fr0. clear C0 G0.
    destruct (f_act fr) as [r|v k|f args kwargs j k|ds k] eqn:A; [rewrite R0; split; auto; exists fr; rewrite G; auto| | |]; unfold call_api; rewrite A.
    + split; cbn [put_proc n_proc n_hist]; rewrite ?upd_same.
      * eexists. split; [reflexivity|]. simpl. auto.
      * cbn [p_w set_store store no_log map]. intros d v' X. unfold dput in X. destruct (did_eqb (0, p_next (n_proc n 0)) d) eqn:D.
        -- apply did_eqb_eq in D as <-. apply Some_inj in X as <-. left. apply in_or_app. right. simpl. rewrite Z0. auto.
        -- apply from_grows. auto.
      * apply goods; auto. intros e [X|[]]. apply pair_inj in X as [_ <-]. exact Logic.I.
    + destruct (negb _ || _); [split; auto; exists fr; rewrite G; auto|]. destruct (push_all _ dest _) as [[w1 l] ok] eqn:Pa.
      assert (Ps : forall ds w w' l ok, push_all w dest ds = (w', l, ok) -> store w' = store w).
      { clear. induction ds as [|d ds IH]; intros w w' l ok E; simpl in E; [apply pair_inj in E as [E _]; apply pair_inj in E as [<- _]; auto|].
        destruct (push_one w dest d) as [[w1 l1]|] eqn:P1; [|apply pair_inj in E as [E _]; apply pair_inj in E as [<- _]; auto].
        destruct (push_all w1 dest ds) as [[w2 l2] ok2] eqn:P2. apply IH in P2. apply pair_inj in E as [E _]; apply pair_inj in E as [<- _]. rewrite P2.
        unfold push_one in P1. destruct (store w d); [destruct (pair_in _ _)|destruct (owner w d); [|discriminate]]; apply Some_inj in P1; apply pair_inj in P1 as [<- _]; auto. }
      apply Ps in Pa. destruct ok; (split; cbn [put_proc n_proc n_hist]; rewrite ?upd_same; [eexists; split; [reflexivity|]; simpl; auto|cbn [p_w]; rewrite Pa; intros d v X; apply from_grows; auto|
        apply goods; auto; intros e [X|[]]; apply pair_inj in X as [_ <-]; exact Logic.I]).
    + destruct (filter _ ds) as [|x l0] eqn:Fl.
      * split; cbn [put_proc n_proc n_hist]; rewrite ?upd_same.
        -- eexists. split; [reflexivity|]. simpl. auto.
        -- cbn [p_w no_log store]. intros d v X. apply from_grows. auto.
        -- apply goods; auto. intros e [X|[]]. apply pair_inj in X as [_ <-]. cbn [no_log store]. destruct (read_vals _ ds) as [vs|] eqn:Rd; [|exact Logic.I].
           simpl. eapply (read_from (p_w (n_proc n 0))); [|exact Rd]. intros d v X. apply from_grows. auto.
      * destruct (ask_owners _ (x :: l0)) as [l ok]. destruct ok; (split; cbn [put_proc n_proc n_hist]; rewrite ?upd_same; [eexists; split; [reflexivity|]; simpl|cbn [p_w no_log store]; intros d v X; apply from_grows; auto|]).
        -- split; auto. split; auto. discriminate.
        -- apply goods; auto. intros e [].
        -- auto.
        -- apply goods; auto. intros e [X|[]]. apply pair_inj in X as [_ <-]. exact Logic.I.
  - assert (Fz := other_run n p fr N Z C). destruct (f_act fr) as [r|v k|f args kwargs j k|ds k] eqn:A.
    { destruct (f_rest fr); auto; (apply ri_looped; auto; intros e [<-|[]]; exact Fz). }
    all: destruct (call_api workers p (n_proc n p) fr dest (n_tasks n)) as [[[[s out] sub] h]|] eqn:E; auto;
      eapply (ri_other n _ (map (fun e => (f_run fr, e)) h)); auto; [apply upd_other; auto|intros e I; apply in_map_iff in I as (y & <- & _); exact Fz].
Qed.

Lemma ri_reply n src p d v ms : NI body main n -> RI n -> n_rep n src p = (d, v) :: ms -> loads v = true -> RI (nstep workers body n (NReply src p)).
Proof.
  intros N R Ch L. unfold nstep. rewrite Ch. destruct (p_cur (n_proc n p)) as [fr|] eqn:C; auto. destruct (f_get fr) as [g|] eqn:G; auto.
  destruct (f_act fr) as [r|v' k|f args kwargs j k|ds k] eqn:A; auto. destruct (receive (n_proc n p) fr g k d v) as [s h] eqn:E.
  destruct (Nat.eq_dec p 0) as [->|Z].
  - destruct R as [(fr0 & C0 & R0 & Z0 & G0) S Gs]. assert (fr0 = fr) by congruence. subst fr0. clear C0. rewrite G in G0.
    assert (Inc : incl (t_ids g) (t_want g)). { assert (K := ni_proc _ _ _ N 0). destruct K as (_ & _ & K). rewrite C in K. destruct K as (_ & _ & K & _). rewrite G in K. apply K. }
    set (w := set_store (no_log (p_w (n_proc n 0))) (dput (store (p_w (n_proc n 0))) d v)).
    assert (Sw : forall h d' v', store w d' = Some v' -> from (n_hist n ++ h) d' v').
    { intros h' d' v' X. unfold w in X. cbn [set_store store] in X. unfold dput in X. destruct (did_eqb d d'); [apply Some_inj in X as <-; right; exact L|apply from_grows; auto]. }
    set (exc := match t_exc g, v with None, VExc e => Some e | x, _ => x end) in *.
    assert (Ex : did_in d (t_ids g) = true -> forall h e, exc = Some e -> exists d', In d' (t_want g) /\ from (n_hist n ++ h) d' (VExc e)).
    { intros D h' e. unfold exc. destruct (t_exc g) as [e'|] eqn:Te.
      - intros Y. assert (e' = e) by (destruct v; congruence). subst e'. destruct (G0 e eq_refl) as (d' & I & Y'). exists d'. split; auto. apply from_grows; auto.
      - destruct v; try discriminate. intros Y. apply Some_inj in Y as <-. exists d. split; [apply Inc, did_in_In, D|right; exact L]. }
    assert (Over : forall r, (forall h, good_get (from (n_hist n ++ h)) (HGet (t_want g) r)) ->
      s = {| p_w := w; p_next := p_next (n_proc n 0); p_cur := Some (set_act fr (k r) None) |} -> h = [HGet (t_want g) r] ->
      forall re, RI (put_proc n 0 s (n_chan n) re [] (n_tasks n) (n_runs n) (map (fun e => (f_run fr, e)) h))).
    { intros r Gr -> -> re. split; cbn [put_proc n_proc n_hist]; rewrite ?upd_same; [eexists; split; [reflexivity|]; simpl; auto|cbn [p_w]; apply Sw|].
      apply goods; auto. intros e [X|[]]. apply pair_inj in X as [_ <-]. apply Gr. }
    unfold receive in E. destruct (did_in d (t_ids g)) eqn:D.
    + assert (Fin : forall h, good_get (from (n_hist n ++ h)) (HGet (t_want g) (match exc with
                 | Some e => GRaise e
                 | None => match read_vals (store w) (t_want g) with Some vs => GVals vs | None => GError end
                 end))).
      { intros h'. destruct exc as [e|] eqn:Ee; [simpl; apply Ex; auto|]. destruct (read_vals _ (t_want g)) as [vs|] eqn:Rd; [|exact Logic.I].
        simpl. eapply (read_from w); [|exact Rd]. apply Sw. }
      destruct (t_left g) as [|[|j]]; [apply pair_inj in E as [E1 E2]; eapply Over; eauto|apply pair_inj in E as [E1 E2]; eapply Over; eauto|].
      apply pair_inj in E as [<- <-]. split; cbn [put_proc n_proc n_hist map]; rewrite ?upd_same.
      * eexists. split; [reflexivity|]. simpl. split; auto.
      * cbn [p_w]. apply Sw.
      * apply goods; auto. intros e [].
    + apply pair_inj in E as [E1 E2]. eapply (Over GError); eauto. intros h'. exact Logic.I.
  - assert (Fz := other_run n p fr N Z C). eapply (ri_other n _ (map (fun e => (f_run fr, e)) h)); auto; [apply upd_other; auto|intros e I; apply in_map_iff in I as (y & <- & _); exact Fz].
Qed.

Lemma zstep_ri n z : NI body main n -> RI n -> RI (zstep workers body loads n z).
Proof.
  intros N R. destruct z as [[p dest|src p|src p]|]; unfold zstep.
  - apply ri_run; auto.
  - destruct (n_chan n src p) as [|m ms] eqn:Ch; auto. destruct (p_cur (n_proc n p)) eqn:C; auto. destruct (negb (Nat.eqb p 0 || n_dead n p) && bad_message loads m) eqn:B.
    + apply andb_prop in B as [B _]. apply negb_true_iff, orb_false_iff in B as [B _]. apply Nat.eqb_neq in B. apply (ri_looped n p None); auto.
    + unfold nstep. rewrite Ch, C. destruct (Nat.eqb p 0 || n_dead n p) eqn:D; auto. apply orb_false_iff in D as [D _]. apply Nat.eqb_neq in D.
      apply ri_looped; auto.
  - destruct (n_rep n src p) as [|[d v] ms] eqn:Ch; auto. destruct (loads v) eqn:L; [eapply ri_reply; eauto|apply ri_give; auto].
  - apply ri_give; auto.
Qed.

Lemma zrun_ri ops : RI (zrun workers body loads main ops).
Proof using body_ok main_ok.
  unfold zrun. assert (R : RI (ninit main)).
  { split; simpl; [eexists; split; [reflexivity|]; simpl; auto|discriminate|tauto]. }
  assert (N := ni_init body main main_ok). revert N R. generalize (ninit main). induction ops as [|o ops IH]; intros n N T; simpl; auto.
  apply IH; [apply zstep_ni; auto|apply zstep_ri; auto].
Qed.

Theorem z_never ops ds vs : In (0, HGet ds (GVals vs)) (n_hist (zrun workers body loads main ops)) ->
  Forall2 (fun d v => In (0, HPut d v) (n_hist (zrun workers body loads main ops)) \/ loads v = true) ds vs.
Proof using body_ok main_ok. intros I. exact (ri_gets _ (zrun_ri ops) _ I). Qed.

End Fail.

Lemma z_plain workers body loads main ops : undisturbed loads ops -> zrun workers body loads main ops = nrun workers body main (plain ops).
Proof.
  intros [L S]. unfold zrun, nrun. generalize (ninit main). induction ops as [|z ops IH]; intros n; simpl; auto.
  assert (S' : ~ In ZSignal ops) by (intros I; apply S; simpl; auto). destruct z as [o|]; [|exfalso; apply S; simpl; auto].
  assert (E : zstep workers body loads n (ZStep o) = nstep workers body n o).
  { destruct o as [p dest|src p|src p]; unfold zstep; auto.
    - destruct (n_chan n src p) as [|m ms] eqn:Ch; [unfold nstep; rewrite Ch; auto|]. destruct (p_cur (n_proc n p)) eqn:C; [unfold nstep; rewrite Ch, C; auto|].
      assert (B : bad_message loads m = false) by (destruct m; simpl; auto; rewrite ?L; auto). rewrite B, andb_false_r. reflexivity.
    - destruct (n_rep n src p) as [|[d v] ms] eqn:Ch; [unfold nstep; rewrite Ch; auto|]. rewrite L. reflexivity. }
  rewrite E. apply IH; auto.
Qed.
