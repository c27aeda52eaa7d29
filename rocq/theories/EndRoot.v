(** Nobody sends an operation to the root. *)
From Verif Require Import Lib ShmModel ShmRaceProofs ValModel WorkerModel WorkerSpec WorkerProofs WorkerWant ClusterModel NestModel NestSpec NestProofs NestOnce.

Definition evout (e : wev) : Prop := match e with EvGet o _ => o <> 0 | EvPut 0 _ _ false => False | _ => True end.
Definition Zw (w : wst) : Prop := (forall d o, owner w d = Some o -> o <> 0) /\ Forall evout (log w).
Definition zmsg (m : wmsg) : Prop := match m with WOwner _ o => o <> 0 | _ => True end.

Lemma zw_get w src d b : Zw w -> Zw (process_get w src d b).
Proof.
  intros [A B]. unfold process_get. destruct (store w d) as [v|].
  - destruct (pair_in _ _); [split; auto|]. split; auto. simpl. apply Forall_app. split; auto. constructor; auto. destruct src; simpl; auto.
  - destruct b; split; auto.
Qed.

Lemma zw_fold {A} (f : wst -> A -> wst) l : (forall w a, Zw w -> Zw (f w a)) -> forall w, Zw w -> Zw (fold_left f l w).
Proof. intros F. induction l as [|a l IH]; intros w W; simpl; auto. Qed.

Lemma zw_check w d : Zw w -> Zw (check_request w d).
Proof.
  intros W. unfold check_request. set (w1 := fold_left _ _ w).
  assert (W1 : Zw w1) by (apply zw_fold; auto; intros; apply zw_get; auto). set (w2 := set_gets w1 _ _).
  assert (W2 : Zw w2) by (destruct W1; split; auto). set (w3 := fold_left _ _ w2).
  assert (W3 : Zw w3) by (apply zw_fold; auto; intros; apply zw_get; auto). destruct W3; split; auto.
Qed.

Lemma zw_checks w ds : Zw w -> Zw (check_gets w ds).
Proof. apply zw_fold. intros; apply zw_check; auto. Qed.

Lemma zw_asks self w w' : Asks self w w' -> Zw w -> Zw w'.
Proof.
  induction 1 as [|w o d w' S O R N A IH]; auto. intros [X Y]. apply IH. split; auto. simpl. apply Forall_app. split; auto. constructor; auto.
  simpl. eauto.
Qed.

Lemma zw_put w d v : Zw w -> Zw (put w d v).
Proof. intros [A B]. split; simpl; auto. apply Forall_app. split; auto. constructor; simpl; auto. Qed.

Lemma zw_result w o r w' l : Zw w -> store_result w o r = Some (w', l) -> Zw w'.
Proof.
  intros W E. unfold store_result in E. destruct r as [v|e], o as [|d|ds]; try discriminate.
  - apply Some_inj in E. apply pair_inj in E as [<- _]. auto.
  - apply Some_inj in E. apply pair_inj in E as [<- _]. apply zw_put; auto.
  - destruct (iterate v); [|discriminate]. apply Some_inj in E. apply pair_inj in E as [<- _]. apply zw_fold; auto. intros; apply zw_put; auto.
  - apply Some_inj in E. apply pair_inj in E as [<- _]. apply zw_put; auto.
  - apply Some_inj in E. apply pair_inj in E as [<- _]. apply zw_fold; auto. intros; apply zw_put; auto.
Qed.

Lemma zw_nolog w : Zw w -> Zw (no_log w).
Proof. intros [A B]. split; simpl; auto. Qed.

Lemma zw_prepare self w q w' q' r : Zw w -> prepare self w q = Some (w', q', r) -> Zw w'.
Proof.
  intros W E. unfold prepare in E. destruct (q_fn q) as [d|]; [|discriminate]. destruct (store w d); [|discriminate].
  destruct (materialize self w (q_args q) false) as [[[w1 a1] p1]|] eqn:E1; [|discriminate].
  destruct (materialize self w1 (q_kwargs q) false) as [[[w2 a2] p2]|] eqn:E2; [|discriminate].
  apply Some_inj in E. apply pair_inj in E as [E _]. apply pair_inj in E as [<- _].
  apply mat_asks in E1. apply mat_asks in E2. eapply zw_asks; eauto. eapply zw_asks; eauto.
Qed.

Section Root.
Variable workers : list rank.
Variable body : val -> val -> val -> act.
Hypothesis no_root : ~ In 0 workers.

Lemma zw_pass self : forall todo w kept w' x, Zw w -> pass self w kept todo = Some (w', x) -> Zw w'.
Proof.
  induction todo as [|q r IH]; intros w kept w' x W E; simpl in E.
  - apply Some_inj in E. apply pair_inj in E as [<- _]. auto.
  - destruct (prepare self w q) as [[[w1 q1] [f|]]|] eqn:P; [| |discriminate]; assert (W1 := zw_prepare _ _ _ _ _ _ W P).
    + apply Some_inj in E. apply pair_inj in E as [<- _]. auto.
    + eapply IH; eauto.
Qed.

Lemma zw_go self p w kept todo run s x : Zw w -> go_on body self p w kept todo run = Some (s, x) -> Zw (p_w s).
Proof.
  intros W E. unfold go_on in E. destruct (pass self w kept todo) as [[w1 [l|[[[q f] l] r]]]|] eqn:P; [| |discriminate]; assert (W1 := zw_pass _ _ _ _ _ _ W P);
    apply Some_inj in E; apply pair_inj in E as [<- _]; auto.
Qed.

Lemma zw_serve self p m run s x : Zw (p_w p) -> zmsg m -> serve body self p m run = Some (s, x) -> Zw (p_w s).
Proof.
  intros W M E. apply zw_nolog in W. unfold serve in E. set (w := no_log (p_w p)) in *. destruct m; try (apply Some_inj in E; apply pair_inj in E as [<- _]; exact W).
  - destruct (prepare self w q) as [[[w1 q1] [f|]]|] eqn:P; [| |discriminate]; assert (W1 := zw_prepare _ _ _ _ _ _ W P);
      apply Some_inj in E; apply pair_inj in E as [<- _]; auto.
  - apply Some_inj in E; apply pair_inj in E as [<- _]. apply zw_get; auto.
  - eapply zw_go; [|exact E]. destruct W; split; auto.
  - apply Some_inj in E; apply pair_inj in E as [<- _]. destruct W as [A B]. split; auto. intros d' o. simpl. unfold dput.
    destruct (did_eqb d d'); [intros X; apply Some_inj in X as <-; exact M|apply A].
Qed.

Lemma zw_leave self p fr r run s x : Zw (p_w p) -> leave body self p fr r run = Some (s, x) -> Zw (p_w s).
Proof.
  intros W E. unfold leave in E. destruct (finish_task _ _ _) as [w|] eqn:F; [|discriminate].
  assert (Zw w). { unfold finish_task in F. destruct (store_result _ _ _) as [[w1 l]|] eqn:R; [|discriminate]. apply Some_inj in F as <-. apply zw_checks, zw_checks.
    eapply zw_result; [|exact R]. apply zw_nolog; auto. }
  destruct (f_rest fr).
  - apply Some_inj in E. apply pair_inj in E as [<- _]. auto.
  - eapply zw_go; [|exact E]. destruct H; split; auto.
  - eapply zw_go; eauto.
Qed.

Lemma zw_push w dest ds : forall w' l ok, Zw w -> log w = [] -> push_all w dest ds = (w', l, ok) -> Zw w' /\ Forall zmsg l /\ log w' = [].
Proof.
  revert w. induction ds as [|d r IH]; intros w w' l ok W L E; simpl in E.
  - apply pair_inj in E as [E _]. apply pair_inj in E as [<- <-]. auto.
  - destruct (push_one w dest d) as [[w1 l1]|] eqn:P; [|apply pair_inj in E as [E _]; apply pair_inj in E as [<- <-]; auto].
    destruct (push_all w1 dest r) as [[w2 l2] ok2] eqn:Q. apply pair_inj in E as [E _]. apply pair_inj in E as [<- <-].
    assert (X : Zw w1 /\ Forall zmsg l1 /\ log w1 = []).
    { unfold push_one in P. destruct (store w d) as [v|].
      - destruct (pair_in _ _); apply Some_inj in P; apply pair_inj in P as [<- <-]; auto. split; [destruct W; split; auto|]. split; auto. constructor; simpl; auto.
      - destruct (owner w d) as [o|] eqn:O; [|discriminate]. apply Some_inj in P; apply pair_inj in P as [<- <-]. split; auto. split; auto. constructor; auto. simpl. apply W in O. auto. }
    destruct X as (X1 & X2 & X3). destruct (IH w1 _ _ _ X1 X3 Q) as (Y1 & Y2 & Y3). split; auto. split; auto. apply Forall_app; auto.
Qed.

Lemma ask_in o ds : forall l ok, ask_owners o ds = (l, ok) -> forall x d, In (x, d) l -> o d = Some x.
Proof.
  induction ds as [|d r IH]; intros l ok E x y I; simpl in E.
  - apply pair_inj in E as [<- _]. destruct I.
  - destruct (o d) as [z|] eqn:O; [|apply pair_inj in E as [<- _]; destruct I]. destruct (ask_owners o r) as [l1 ok1] eqn:A.
    apply pair_inj in E as [<- _]. destruct I as [I|I]; [|eapply IH; eauto]. apply pair_inj in I as [<- <-]. auto.
Qed.

Lemma zw_owners w o dest : dest <> 0 -> Zw w -> Zw (set_owner w (fold_left (fun m d => dput m d dest) o (owner w))).
Proof.
  intros N [A B]. split; auto. simpl. clear B. revert A. generalize (owner w) as m. induction o as [|d o IH]; intros m A; simpl; auto.
  apply IH. intros d' x. unfold dput. destruct (did_eqb d d'); [intros X; apply Some_inj in X as <-; auto|apply A].
Qed.

Lemma zw_api p s fr dest task s' out sub h : Zw (p_w s) -> call_api workers p s fr dest task = Some (s', out, sub, h) ->
  Zw (p_w s') /\ log (p_w s') = [] /\ forall b m, In (b, m) out -> b <> 0 /\ zmsg m.
Proof using no_root.
  intros W E. apply zw_nolog in W. unfold call_api in E. set (w := no_log (p_w s)) in *. destruct (f_act fr) as [r|v k|f a kw n k|ds k].
  - discriminate.
  - apply Some_inj in E. apply pair_inj in E as [E _]. apply pair_inj in E as [E _]. apply pair_inj in E as [<- <-]. simpl. split; [destruct W; split; auto|]. split; auto. intros b m [].
  - destruct (negb _ || _) eqn:D; [discriminate|]. apply orb_false_iff in D as [D _]. apply negb_false_iff in D. apply existsb_exists in D as (x & Ix & Ex).
    apply Nat.eqb_eq in Ex. subst x. assert (Nz : dest <> 0) by (intros ->; auto).
    set (w0 := set_owner w _) in E. assert (W0 : Zw w0) by (apply zw_owners; auto).
    destruct (push_all w0 dest _) as [[w1 l] ok] eqn:P. destruct (zw_push w0 _ _ _ _ _ W0 eq_refl P) as (A & B & C).
    destruct ok; apply Some_inj in E; apply pair_inj in E as [E _]; apply pair_inj in E as [E _]; apply pair_inj in E as [<- <-]; cbn [p_w]; (split; [exact A|]; split; [exact C|]);
      intros b m I; apply in_map_iff in I as (y & Y & I); apply pair_inj in Y as [<- <-]; (split; [exact Nz|]).
    + apply in_app_or in I as [I|[<-|[]]]; [|exact Logic.I]. rewrite Forall_forall in B. auto.
    + rewrite Forall_forall in B. auto.
  - destruct (filter _ ds) as [|y r].
    + apply Some_inj in E. apply pair_inj in E as [E _]. apply pair_inj in E as [E _]. apply pair_inj in E as [<- <-]. split; auto. split; auto. intros b m [].
    + destruct (ask_owners (owner w) (y :: r)) as [l ok] eqn:A. destruct W as [W1 W2].
      destruct ok; apply Some_inj in E; apply pair_inj in E as [E _]; apply pair_inj in E as [E _]; apply pair_inj in E as [<- <-]; (split; [split; auto|]; split; auto);
        intros b m I; apply in_map_iff in I as ([z1 z2] & Z & I); apply pair_inj in Z as [<- <-]; (split; [|exact Logic.I]); eapply W1, ask_in; eauto.
Qed.

Record Mail (n : nst) : Prop := {
  z_root : forall a, n_chan n a 0 = [];
  z_chan : forall a b m, In m (n_chan n a b) -> zmsg m;
  z_proc : forall p, Zw (p_w (n_proc n p))
}.

Lemma ops_none p l : Forall evout l -> ops_out p l 0 = [].
Proof.
  unfold ops_out. induction 1 as [|e l E F IH]; auto. simpl. rewrite IH. destruct e as [| | | |x ? ? []|x ?|]; auto; destruct x; simpl in *; tauto.
Qed.

Lemma ops_z p l b m : In m (ops_out p l b) -> zmsg m.
Proof.
  unfold ops_out. intros I. apply in_flat_map in I as (e & _ & I). destruct e as [| | | |x ? ? []|x ?|]; simpl in I; try contradiction;
    (destruct (Nat.eqb x b); simpl in I; [destruct I as [<-|[]]|contradiction]; simpl; auto).
Qed.

Lemma mail_put n p s ch re out t r h : Mail n -> Zw (p_w s) -> (forall a, ch a 0 = []) -> (forall a b m, In m (ch a b) -> zmsg m) ->
  (forall b m, In (b, m) out -> b <> 0 /\ zmsg m) -> Mail (put_proc n p s ch re out t r h).
Proof.
  intros Z W C1 C2 O. assert (X : forall b m, In m (sends_to b out) -> b <> 0 /\ zmsg m) by (intros b m I; apply in_sends in I; auto). split; simpl.
  - intros a. rewrite C1. destruct (Nat.eqb a p); auto. destruct (sends_to 0 out) as [|m l] eqn:E.
    + simpl. apply ops_none, W.
    + exfalso. destruct (X 0 m) as [N _]; [rewrite E; simpl; auto|auto].
  - intros a b m. destruct (Nat.eqb a p); eauto. intros I. apply in_app_or in I as [I|I]; eauto. apply in_app_or in I as [I|I]; [apply (X b m I)|eapply ops_z; eauto].
  - intros z. unfold upd. destruct (Nat.eqb z p); auto. apply Z.
Qed.

Lemma mail_looped n p x ch h : Mail n -> (forall s y, x = Some (s, y) -> Zw (p_w s)) -> (forall a, ch a 0 = []) -> (forall a b m, In m (ch a b) -> zmsg m) ->
  Mail (looped n p x ch h).
Proof.
  intros Z W C1 C2. destruct x as [[s [i|]]|]; simpl.
  - apply mail_put; auto; [eapply W; eauto|]. intros b m [].
  - apply mail_put; auto; [eapply W; eauto|]. intros b m [].
  - assert (M := mail_put n p {| p_w := no_log (p_w (n_proc n p)); p_next := p_next (n_proc n p); p_cur := None |} ch (n_rep n) [] (n_tasks n) (n_runs n) h Z).
    destruct M as [M1 M2 M3]; auto; [apply zw_nolog, Z|intros b m []|]. split; auto.
Qed.

Lemma mail_step n o : Mail n -> Mail (nstep workers body n o).
Proof using no_root.
  intros Z. destruct o as [p dest|src p|src p]; simpl.
  - destruct (p_cur (n_proc n p)) as [fr|]; auto. destruct (n_dead n p); auto. destruct (f_get fr); auto.
    assert (A : forall t r, Mail match call_api workers p (n_proc n p) fr dest (n_tasks n) with
        | Some (s, out, sub, h) => put_proc n p s (n_chan n) (n_rep n) out (if sub then t else n_tasks n) r (map (fun e => (f_run fr, e)) h)
        | None => n end).
    { intros t r. destruct (call_api _ _ _ _ _ _) as [[[[s out] sub] h]|] eqn:E; auto. apply zw_api in E as (E1 & _ & E2); [|apply Z]. apply mail_put; auto; apply Z. }
    destruct (f_act fr); try apply A. destruct (f_rest fr); auto; apply mail_looped; auto; try apply Z; intros s y E; (eapply zw_leave; [|exact E]); apply Z.
  - destruct (n_chan n src p) as [|m ms] eqn:C; auto. destruct (p_cur (n_proc n p)); auto. destruct (_ || _); auto. apply mail_looped; auto.
    + intros s y E. eapply zw_serve; [|eapply (z_chan _ Z)|exact E]; [apply Z|rewrite C; simpl; auto].
    + intros a. unfold drop_head. destruct (_ && _); rewrite (z_root _ Z); auto.
    + intros a b m'. unfold drop_head. destruct (_ && _); [|apply Z]. intros I. eapply (z_chan _ Z a b). destruct (n_chan n a b); simpl in *; auto.
  - destruct (n_rep n src p) as [|[d v] l]; auto. destruct (p_cur (n_proc n p)) as [fr|]; auto. destruct (f_get fr) as [g|]; auto. destruct (f_act fr); auto.
    destruct (receive _ _ _ _ _ _) as [s h] eqn:E. apply mail_put; auto; try apply Z; [|intros b m []].
    assert (W := z_proc _ Z p). unfold receive in E. destruct (did_in d (t_ids g)); [destruct (t_left g) as [|[|j]]|]; apply pair_inj in E as [<- _]; destruct W; split; simpl; auto.
Qed.

Theorem run_mail main ops : Mail (nrun workers body main ops).
Proof using no_root.
  unfold nrun. induction ops as [|o ops IH] using rev_ind.
  - split; simpl; auto; [intros a b m []|]. intros p. split; simpl; auto. discriminate.
  - rewrite fold_left_app. apply mail_step; auto.
Qed.
End Root.
