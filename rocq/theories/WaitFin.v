(** A value anywhere in the system is that of a put, or of a task or call that has ended. *)
From Verif Require Import Lib ValModel ShmModel ShmRaceProofs PushModel PushProofs WorkerModel WorkerSpec WorkerLog WorkerAnswer
  WorkerTrace WorkerOrder WorkerThms WorkerSends WorkerDone WorkerFew MonModel ClusterModel ClusterSpec ClusterSeq ClusterProofs
  ClusterCount ActModel ActSpec ActGives ActProofs ActCount WaitModel WaitSpec.

Lemma stored_origin body mbody l : Good body mbody l -> forall d v, stored l d v ->
  In (EvIn (WPut d v)) l \/ exists q, In q (received l) /\ In d (out_ids (q_out q)) /\ In (q_id q) (ended l).
Proof.
  induction 1 as [|l e Oe G IH|l q c args kwargs st G IH Q C F1 F2 R1 R2 Rs]; intros d v S.
  - destruct S as [[]|[]].
  - apply stored_app in S as [S|S].
    + destruct (IH d v S) as [I|(q & Q & D & N)]; [left; apply in_or_app; auto|].
      right. exists q. rewrite received_app, ended_app. split; [apply in_or_app; auto|]. split; auto. apply in_or_app; auto.
    + destruct S as [[S|[]]|[S|[]]]; subst e; [|simpl in Oe; tauto]. left. apply in_or_app. simpl; auto.
  - apply stored_app in S as [S|S].
    { destruct (IH d v S) as [I|(q0 & Q0 & D & N)]; [left; apply in_or_app; auto|].
      right. exists q0. rewrite received_app, ended_app. split; [apply in_or_app; auto|]. split; auto. apply in_or_app; auto. }
    apply stored_app in S as [S|S]; [exfalso; eapply stored_run; eauto|].
    change (EvEnd (q_id q) ?r :: ev_stores st) with ([EvEnd (q_id q) r] ++ ev_stores st) in S.
    apply stored_app in S as [S|S]; [destruct S as [[S|[]]|[S|[]]]; discriminate|].
    apply stored_stores in S. right. exists q. rewrite received_app, !ended_app, ended_run.
    split; [apply in_or_app; auto|]. split; [|apply in_or_app; simpl; auto].
    destruct Rs as [[dn Rs]|[_ ->]]; [|destruct S].
    clear - Rs S. unfold results in Rs. destruct (result_of body mbody l c args kwargs) as [x|e], (q_out q) as [|d1|ds]; simpl in *.
    + apply Some_inj in Rs; apply pair_inj in Rs as [<- _]. destruct S.
    + apply Some_inj in Rs; apply pair_inj in Rs as [<- _]. destruct S as [S|[]]. apply pair_inj in S as [-> _]. auto.
    + destruct (iterate x); [|discriminate]. apply Some_inj in Rs; apply pair_inj in Rs as [<- _]. eapply in_combine_l; eauto.
    + discriminate.
    + apply Some_inj in Rs; apply pair_inj in Rs as [<- _]. destruct S as [S|[]]. apply pair_inj in S as [-> _]. auto.
    + apply Some_inj in Rs; apply pair_inj in Rs as [<- _]. apply in_map_iff in S as (y & S & Y). apply pair_inj in S as [-> _]. auto.
Qed.

Section Fin.
Variable workers : list rank.
Variable body : val -> val -> val -> result.
Variable mbody : list call -> call -> result.
Variable is_async : callee -> bool.
Hypothesis body_ok : forall f a k, no_refs_returned (body f a k).
Hypothesis mbody_ok : forall h c, no_refs_returned (mbody h c).
Notation grun := (grun workers body mbody is_async).
Notation gstep := (gstep workers body mbody is_async).
Notation AB := (AB body mbody is_async).

Definition fin (prog : list gprog) (c : cst) (d : dataid) : Prop := finished {| g_c := c; g_prog := prog |} d.

Record FN (prog : list gprog) (c : cst) : Prop := {
  fn_vals : forall d v, c_vals c d = Some v -> fin prog c d;
  fn_chan : forall s r d v, In (WPut d v) (c_chan c s r) -> fin prog c d;
  fn_in : forall s r d v, In (s, WPut d v) (c_in c r) -> fin prog c d
}.

Lemma fin_mono prog more c c' : (forall w, exists l, log (c_work c' w) = log (c_work c w) ++ l) ->
  forall d, fin prog c d -> fin (prog ++ more) c' d.
Proof.
  intros L d [(v & I)|(dest & q & I & O & N)]; [left; exists v; simpl; apply in_or_app; auto|].
  right. exists dest, q. simpl in *. rewrite gsub_app. split; [apply in_or_app; auto|]. split; auto.
  destruct (L dest) as [l ->]. rewrite ended_app. apply in_or_app; auto.
Qed.

Lemma fin_same prog more c c' : c_work c' = c_work c -> forall d, fin prog c d -> fin (prog ++ more) c' d.
Proof. intros W. apply fin_mono. intros w. exists []. rewrite W, app_nil_r. auto. Qed.

Lemma root_fn prog c p c' out : FN prog c -> c_work c' = c_work c -> c_in c' = c_in c ->
  (forall s d, c_chan c' s d = if s =? 0 then c_chan c s d ++ sends_to d out else c_chan c s d) ->
  (forall d v, c_vals c' d = Some v -> c_vals c d = Some v \/ p = GP (RPut d v)) ->
  (forall r d v, In (r, WPut d v) out -> c_vals c d = Some v) ->
  FN (prog ++ [p]) c'.
Proof.
  intros [F1 F2 F3] W In' Ch Vs Out.
  assert (M := fin_same prog [p] c c' W). split.
  - intros d v X. apply Vs in X as [X|X]; eauto. left. exists v. simpl. apply in_or_app. simpl; auto.
  - intros s r d v X. rewrite Ch in X. destruct (s =? 0); [apply in_app_or in X as [X|X]|]; eauto.
    apply in_sends in X. eauto.
  - rewrite In'. eauto.
Qed.

Lemma root_step_fn prog c o : AB prog c -> FN prog c -> FN (prog ++ [GP o]) (root_step workers c o).
Proof.
  intros B F.
  assert (Nil : forall s d, c_chan c s d = if s =? 0 then c_chan c s d ++ sends_to d [] else c_chan c s d).
  { intros s d. simpl. rewrite app_nil_r. destruct (s =? 0); auto. }
  destruct o; cbn [root_step]; cbv zeta.
  - apply (root_fn prog c _ _ []); auto; try (simpl; tauto). simpl.
    intros x y. destruct (did_dec d x) as [<-|Nd]; [rewrite dput_same | rewrite dput_other; auto].
    intros X. apply Some_inj in X as <-. auto.
  - destruct (sent_requests (c_vals c) WExec q (c_push c) dest (q_id q) (out_ids (q_out q)) (fn_val (q_fn q))
      (q_args q) (q_kwargs q) (ab_push _ _ _ _ _ B) ltac:(auto)) as [_ S2].
    match goal with |- FN _ (root_to _ _ _ _ _ _ ?o) => apply (root_fn prog c _ _ o) end; auto; try reflexivity.
    intros r d v X. apply S2 in X as [(d' & v' & E & X)|[(d' & o & E)|[_ E]]]; inversion E; subst; auto.
  - destruct (filter _ ds) as [|x r] eqn:Fl; [apply (root_fn prog c _ _ []); auto; simpl; tauto|].
    destruct (owners _ _) as [l|]; [|apply (root_fn prog c _ _ []); auto; simpl; tauto].
    apply (root_fn prog c _ _ (map (fun p => (fst p, WGet 0 (snd p) true)) l)); auto; try (simpl; tauto).
    intros r' d v X. apply in_map_iff in X as (y & Y & _). discriminate.
  - apply (root_fn prog c _ _ []); auto; try (simpl; tauto). simpl.
    intros x y. destruct (did_dec d x) as [<-|Nd]; [rewrite ddel_same; discriminate | rewrite ddel_other; auto].
  - destruct (Nat.eqb _ _); [|apply (root_fn prog c _ _ []); auto; simpl; tauto].
    apply (root_fn prog c _ _ (map (fun w => (w, WClean ds)) workers)); auto; try (simpl; tauto).
    intros r' d v X. apply in_map_iff in X as (y & Y & _). discriminate.
Qed.

Lemma root_call_fn prog c dest nd q : AB prog c -> FN prog c -> FN (prog ++ [GC dest nd q]) (root_call c dest nd q).
Proof.
  intros B F.
  destruct (sent_requests (c_vals c) WActor q (c_push c) dest (q_id q) (out_ids (q_out q)) (VRef nd)
      (q_args q) (q_kwargs q) (ab_push _ _ _ _ _ B) ltac:(auto)) as [_ S2].
  eapply (root_fn prog c); auto; try reflexivity. simpl.
  intros r d v X. apply S2 in X as [(d' & v' & E & X)|[(d' & o & E)|[_ E]]]; inversion E; subst; auto.
Qed.

(** What a worker of a reachable state has stored. *)
Lemma worker_origin prog c w d v : gvalid prog -> AB prog c -> stored (log (c_work c w)) d v ->
  (exists s, In (s, WPut d v) (c_in c w)) \/
  exists q, In (w, q) (gsubmitted prog) /\ In d (out_ids (q_out q)) /\ In (q_id q) (ended (log (c_work c w))).
Proof.
  intros V B S. destruct (Nat.eq_dec w 0) as [->|Nw].
  { rewrite (ab_zero _ _ _ _ _ B) in S. destruct S as [[]|[]]. }
  assert (O : forall m, In m (map snd (c_in c w)) -> aokm body mbody is_async prog (hist c) w m).
  { intros m M. apply in_map_iff in M as ([s x] & <- & M). eapply ab_in; eauto. }
  destruct (worker_gives body mbody is_async body_ok mbody_ok prog (hist c) w _ (c_work c w) V
    (hist_once body mbody is_async body_ok mbody_ok prog c V B) O (ab_run _ _ _ _ _ B w Nw)) as (W & _ & Inp & _).
  { exists []. rewrite app_nil_r. auto. }
  destruct (stored_origin body mbody (log (c_work c w)) (wi_good _ _ _ W) d v S) as [I|(q & Q & D & N)].
  - left. apply in_inputs in I. rewrite Inp in I. apply in_map_iff in I as ([s x] & E & I). simpl in E. subst x. eauto.
  - right. exists q. split; auto. rewrite received_inputs, Inp in Q.
    apply in_gsub. apply requests_in in Q as [Q|Q]; apply O in Q; simpl in Q; auto.
Qed.

Lemma worker_finished prog c w d v : gvalid prog -> AB prog c -> FN prog c -> stored (log (c_work c w)) d v -> fin prog c d.
Proof.
  intros V B F S. destruct (worker_origin prog c w d v V B S) as [(s & I)|(q & Q & D & N)]; [eapply fn_in; eauto|].
  right. exists w, q. auto.
Qed.

Lemma log_grows prog c src dst m ch : gvalid prog -> AB prog c -> dst <> 0 -> aokm body mbody is_async prog (hist c) dst m ->
  forall w, exists l, log (c_work (deal body mbody is_async c src dst m ch) w) = log (c_work c w) ++ l.
Proof.
  intros V B D0 Om w. unfold deal. destruct (wstep dst body mbody is_async (c_work c dst) m) as [w'|] eqn:St; simpl.
  - destruct (Nat.eqb_spec w dst) as [->|]; [|exists []; rewrite app_nil_r; auto].
    assert (Oi : forall x, In x (map snd (c_in c dst)) -> aokm body mbody is_async prog (hist c) dst x).
    { intros x X. apply in_map_iff in X as ([s y] & <- & X). eapply ab_in; eauto. }
    destruct (ainbox body mbody is_async body_ok mbody_ok prog (hist c) dst (map snd (c_in c dst)) V Oi) as (N & NC).
    assert (W : WI body mbody (c_work c dst)).
    { apply (wrun_wi dst body mbody is_async body_ok mbody_ok (map snd (c_in c dst)) winit); auto; [apply wi_init | apply B; auto]. }
    assert (Rd := run_inputs dst body mbody is_async body_ok mbody_ok _ winit _ (wi_init _ _) N NC eq_refl (ab_run _ _ _ _ _ B dst D0)).
    destruct (step_own dst body mbody is_async body_ok mbody_ok (c_work c dst) m w' W) as (t & L & _); auto; [|apply Rd|eauto].
    intros d v ->. eapply gives_clean; eauto.
  - exists []. rewrite app_nil_r. auto.
Qed.

Lemma deal_fn prog c src dst m ch : gvalid prog -> AB prog c -> AB prog (deal body mbody is_async c src dst m ch) ->
  FN prog c -> dst <> 0 -> aokm body mbody is_async prog (hist c) dst m ->
  (forall d v, m = WPut d v -> fin prog c d) ->
  (forall s d x, In x (ch s d) -> In x (c_chan c s d)) ->
  FN prog (deal body mbody is_async c src dst m ch).
Proof.
  intros V B B' F D0 Om Fm Hc. assert (Lg := log_grows prog c src dst m ch V B D0 Om).
  assert (M : forall d, fin prog c d -> fin prog (deal body mbody is_async c src dst m ch) d).
  { intros d X. rewrite <- (app_nil_r prog). eapply fin_mono; eauto. }
  assert (Fi : forall s r d v, In (s, WPut d v) (c_in (deal body mbody is_async c src dst m ch) r) ->
    fin prog (deal body mbody is_async c src dst m ch) d).
  { intros s r d v X. apply M. revert X. unfold deal. destruct (wstep dst body mbody is_async (c_work c dst) m) as [w'|]; simpl.
    - destruct (Nat.eqb_spec r dst) as [->|]; [|eapply fn_in; eauto]. intros X. apply in_app_or in X as [X|[X|[]]]; [eapply fn_in; eauto|].
      apply pair_inj in X as [_ X]. eauto.
    - eapply fn_in; eauto. }
  split; auto.
  - intros d v X. apply M. apply (fn_vals _ _ F d v). revert X. unfold deal.
    destruct (wstep dst body mbody is_async (c_work c dst) m); auto.
  - intros s r d v X.
    assert (Y : In (WPut d v) (c_chan c s r) \/ exists w' b, c_work (deal body mbody is_async c src dst m ch) dst = w' /\ In (EvPut r d v b) (log w')).
    { revert X. unfold deal. destruct (wstep dst body mbody is_async (c_work c dst) m) as [w'|]; simpl; [|eauto].
      destruct (Nat.eqb_spec s dst) as [->|]; [|eauto]. intros X. apply in_app_or in X as [X|X]; [eauto|].
      apply in_outgoing in X as [(d' & v' & b & E & X)|(d' & E & X)]; inversion E; subst.
      right. rewrite Nat.eqb_refl. exists w', b. split; auto. eapply in_skipn; eauto. }
    destruct Y as [Y|(w' & b & E & Y)]; [apply M; eapply fn_chan; eauto|]. subst w'.
    assert (O : forall x, In x (map snd (c_in (deal body mbody is_async c src dst m ch) dst)) ->
      aokm body mbody is_async prog (hist (deal body mbody is_async c src dst m ch)) dst x).
    { intros x Z. apply in_map_iff in Z as ([s' y] & <- & Z). eapply ab_in; eauto. }
    destruct (worker_gives body mbody is_async body_ok mbody_ok prog (hist (deal body mbody is_async c src dst m ch)) dst _ _ V
      (hist_once body mbody is_async body_ok mbody_ok prog _ V B') O (ab_run _ _ _ _ _ B' dst D0)) as (W & Sv & _).
    { exists []. rewrite app_nil_r. auto. }
    apply (sv_put _ Sv) in Y as [Y _].
    destruct (worker_origin prog _ dst d v V B' Y) as [(s' & I)|(q & Q & D & N)]; eauto.
    right. exists dst, q. auto.
Qed.

Lemma step_fn g o : gvalid (g_prog (gstep g o)) -> AB (g_prog g) (g_c g) -> AB (g_prog (gstep g o)) (g_c (gstep g o)) ->
  FN (g_prog g) (g_c g) -> FN (g_prog (gstep g o)) (g_c (gstep g o)).
Proof.
  intros V B B' F. destruct o as [p|s d|s|s|d i]; cbn [ActModel.gstep] in *.
  - destruct (c_left (g_c g)) as [|k]; auto. destruct p; cbn [g_c g_prog] in *; [apply root_step_fn | apply root_call_fn]; auto.
  - cbn [g_c g_prog] in *. revert B'. unfold gtake. destruct (c_chan (g_c g) s d) as [|m l] eqn:Ch; auto.
    destruct (d =? 0) eqn:D0; simpl; auto. apply Nat.eqb_neq in D0. destruct (c_dead (g_c g) d); auto. intros B'.
    assert (Im : In m (c_chan (g_c g) s d)) by (rewrite Ch; simpl; auto).
    apply deal_fn; auto.
    + eapply ab_chan; eauto.
    + intros x v ->. eapply fn_chan; eauto.
    + intros a b x. apply in_drop.
  - cbn [g_c g_prog] in *. unfold reply. destruct (c_left (g_c g)) as [|k] eqn:L; auto.
    destruct (c_chan (g_c g) s 0) as [|m l] eqn:Ch; auto. destruct m; auto.
    assert (Im : fin (g_prog g) (g_c g) d) by (apply (fn_chan _ _ F s 0 d v); rewrite Ch; simpl; auto).
    destruct F as [F1 F2 F3]. split; simpl.
    + intros x y. destruct (did_dec d x) as [<-|Nd]; [rewrite dput_same | rewrite dput_other; auto]; intros X; [exact Im | apply (F1 _ _ X)].
    + intros a b x y X. apply in_drop in X. apply (F2 _ _ _ _ X).
    + intros a b x y. destruct (b =? 0); [|apply F3]. intros X. apply in_app_or in X as [X|[X|[]]]; [apply (F3 _ _ _ _ X)|].
      inversion X; subst. exact Im.
  - cbn [g_c g_prog] in *. unfold done. destruct (c_done (g_c g) s); auto. destruct F as [F1 F2 F3]. split; simpl.
    + intros x y X. apply (F1 _ _ X).
    + intros a b x y X. apply (F2 _ _ _ _ X).
    + intros a b x y X. apply (F3 _ _ _ _ X).
  - cbn [g_c g_prog] in *. revert B'. unfold finish. destruct (nth_error _ _) eqn:Nt; auto.
    destruct (d =? 0) eqn:D0; simpl; auto. apply Nat.eqb_neq in D0. destruct (c_dead (g_c g) d); auto. intros B'.
    apply deal_fn; auto.
    + simpl. intros Sy. destruct (ainbox body mbody is_async body_ok mbody_ok (g_prog g) (hist (g_c g)) d (map snd (c_in (g_c g) d)) V) as (N & _).
      { intros x X. apply in_map_iff in X as ([s y] & <- & X). eapply ab_in; eauto. }
      destruct (run_blocks d body mbody is_async body_ok mbody_ok Sy _ _ N (ab_run _ _ _ _ _ B d D0)) as [_ Rn].
      rewrite Rn in Nt. destruct i; discriminate.
    + intros x v E. discriminate.
Qed.

Lemma run_fn mgr ops : gvalid (g_prog (grun mgr ops)) -> FN (g_prog (grun mgr ops)) (g_c (grun mgr ops)).
Proof.
  induction ops as [|o ops IH] using rev_ind; intros V.
  - split; simpl; try discriminate; intros ? ? ? ? [].
  - rewrite grun_snoc in *. assert (Vp : gvalid (g_prog (grun mgr ops))).
    { destruct (gprog_grows workers body mbody is_async (grun mgr ops) o) as [l E]. rewrite E in V. eapply gvalid_prefix; eauto. }
    apply step_fn; auto.
    + apply run_ab; auto.
    + rewrite <- grun_snoc in *. apply run_ab; auto.
Qed.

End Fin.
