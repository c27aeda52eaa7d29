(** C90: proofs. *)
From Verif Require Import Lib ShmModel DataIdModel TopoModel TopoProofs MonModel ShutModel ShutSpec ShutProofs ShutCases LateModel LateSpec.

Lemma pin_in r d l : pin r d l = true <-> In (r, d) l.
Proof.
  unfold pin. rewrite existsb_exists. split.
  - intros ([x e] & I & H). apply andb_true_iff in H as [A B]. apply Nat.eqb_eq in A. apply did_eqb_eq in B. cbn in *. subst. auto.
  - intros I. exists (r, d). split; auto. cbn. rewrite Nat.eqb_refl. apply did_eqb_eq. auto.
Qed.

Lemma in_remove_at {A} (x y : A) : forall l i, nth_error l i = Some y -> In x l -> x <> y -> In x (remove_at i l).
Proof.
  induction l as [|z l IH]; intros i N I D; [destruct I|].
  destruct i as [|i]; cbn in *.
  - injection N as ->. destruct I as [->|I]; auto. congruence.
  - destruct I as [->|I]; auto.
Qed.

(** A step of the protocol changes the state of one worker at most, the one that takes a message. *)
Lemma mon_turn_workers c s r m s' : mon_turn c s r m = Some s' -> sworker s' = sworker s.
Proof.
  unfold mon_turn. destruct (mstopped (smon s r)); [discriminate|]. destruct (mon_step _ _ _) as [t|]; [|discriminate].
  intros H. injection H as <-. 
  assert (G : forall l s0, sworker (fold_left (fun s p => send s r (fst p) (snd p)) l s0) = sworker s0).
  { induction l as [|p l IH]; intros s0; cbn; auto. rewrite IH. auto. }
  rewrite G. auto.
Qed.

Lemma sstep_worker c s a s' w : sstep c s a = Some s' ->
  (forall i src m, a = ADeliver i -> nth_error (snet s) i <> Some (src, w, m)) -> sworker s' w = sworker s w.
Proof.
  intros H N. destruct a as [| |i|r m]; cbn [sstep] in H.
  - destruct (sroot s); try discriminate. injection H as <-. auto.
  - destruct (sroot s) as [|[|x l]| |]; try discriminate; injection H as <-; auto.
  - destruct (nth_error (snet s) i) as [[[src dst] m]|] eqn:E; [|discriminate].
    destruct (Nat.eqb dst ROOT).
    { unfold root_recv in H. cbn in H. destruct (sroot s), m; try discriminate. destruct (Nat.eqb src MONITOR); [|discriminate].
      injection H as <-. auto. }
    destruct (mem_rank dst (s_workers c)).
    { assert (D : dst <> w) by (intros ->; exact (N i src m eq_refl E)).
      unfold worker_recv in H. cbn in H.
      destruct (sworker s dst), m; try discriminate; injection H as <-; cbn; apply fupd_other; auto. }
    destruct (mem_rank dst (s_monitors c)); [|discriminate].
    unfold monitor_recv in H. destruct m; try discriminate; apply mon_turn_workers in H; rewrite H; auto.
  - destruct (_ && _); [|discriminate]. apply mon_turn_workers in H. rewrite H. auto.
Qed.

Section L.
Variable c : scfg.
Variable mon : rank -> rank.
Variable g : rank -> manager.
Hypothesis ok : cluster_ok c.

Notation lrun := (lrun c mon g).
Notation lstep := (lstep c mon).

Lemma lrun_snoc ops op : lrun (ops ++ [op]) = lgo c mon (lrun ops) op.
Proof. unfold LateModel.lrun. rewrite fold_left_app. auto. Qed.

Lemma got_it_s st w d : l_s (got_it st w d) = l_s st. Proof. auto. Qed.
Lemma receive_s st i o w d : l_s (receive mon st i o w d) = l_s st.
Proof. unfold receive. destruct (pin w d _); auto. destruct (pin (mon w) d _); auto. Qed.
Lemma answered_s st i w m : l_s (answered mon st i w m) = l_s st.
Proof. unfold answered. destruct (l_wait st w) as [[[o d] []]|]; auto. destruct (pin m d _); auto. Qed.

(** The shutdown part of a run is a run of ShutModel. *)
Lemma shut_run ops : exists acts, l_s (lrun ops) = srun c (sinit g) acts.
Proof.
  induction ops as [|op ops IH] using rev_ind; [exists []; auto|].
  destruct IH as (acts & IH). rewrite lrun_snoc. unfold lgo.
  destruct op as [o d|o w d|i|i|w|a]; cbn [LateModel.lstep].
  - destruct (_ && _); exists acts; exact IH.
  - destruct (_ && _); exists acts; exact IH.
  - destruct (nth_error _ i) as [[[o w] d]|]; [|exists acts; exact IH].
    destruct (in_loop c (lrun ops) w); exists acts; [rewrite receive_s|]; exact IH.
  - destruct (nth_error _ i) as [[w m]|]; [|exists acts; exact IH].
    destruct (mstopped _); exists acts; [|rewrite answered_s]; exact IH.
  - destruct (l_wait _ w) as [[[o d] []]|]; try (exists acts; exact IH). destruct (pin _ _ _); exists acts; exact IH.
  - destruct (free_for (lrun ops) a); [|exists acts; exact IH].
    destruct (sstep c (l_s (lrun ops)) a) as [s|] eqn:E; [|exists acts; exact IH].
    exists (acts ++ [a]). cbn. 
    assert (G : forall l s0, srun c s0 (l ++ [a]) = match sstep c (srun c s0 l) a with Some s' => s' | None => srun c s0 l end).
    { induction l as [|b l IHl]; intros s0; cbn [app srun]; auto. }
    rewrite G, <- IH, E. auto.
Qed.

(** A monitor that has stopped: all workers have taken CANCEL. *)
Lemma stopped_all s acts m : s = srun c (sinit g) acts -> In m (s_monitors c) -> mstopped (smon s m) = true ->
  forall w, In w (s_workers c) -> sworker s w <> WkRun.
Proof.
  intros -> Im St w Iw R. pose proof (inv_si _ _ (inv_s c ok g acts)) as I. destruct I as [_ _ _ I4 I5 _ I7 I8 _ _ _].
  assert (Stp : mstopped (smon (srun c (sinit g) acts) (s_rmon c)) = true).
  { destruct (Nat.eq_dec m (s_rmon c)) as [->|N]; auto.
    destruct (mstopped (smon (srun c (sinit g) acts) (s_rmon c))) eqn:E; auto. exfalso.
    destruct (I8 eq_refl) as (_ & B & _). destruct (B m) as [_ L].
    - apply T_In; auto.
    - unfold left in L. destruct (in_dec _ m _) as [X|X]; [|rewrite St in L; discriminate].
      eapply WM; eauto. }
  destruct (I7 Stp) as (A & _).
  assert (K := all_acked c _ (inv_si _ _ (inv_s c ok g acts)) A w Iw). specialize (I4 w Iw). unfold ran in I4. rewrite R in I4. lia.
Qed.

Hypothesis mon_ok : forall w, In w (s_workers c) -> In (mon w) (s_monitors c).

Record LI (st : lst) : Prop := {
  li_w : forall w x, l_wait st w = Some x -> In w (s_workers c) /\ In (fst (fst x)) (s_workers c);
  li_pkg : forall o w d, In (o, w, d) (l_pkgs st) -> In o (s_workers c);
  li_ask : forall w o d k, l_wait st w = Some (o, d, k) ->
    match k with WaitReserve => In (w, mon w) (l_req st) | WaitData => In (w, mon o) (l_req st) | WaitOthers => In (mon w, d) (l_res st) end;
  li_req : forall w m, In (w, m) (l_req st) -> exists o d k, l_wait st w = Some (o, d, k) /\
    match k with WaitReserve => m = mon w | WaitData => m = mon o | WaitOthers => False end;
  li_one : NoDup (map fst (l_req st));
  li_res : forall m d, In (m, d) (l_res st) -> In (m, d) (l_mem st) \/ exists w o, l_wait st w = Some (o, d, WaitData) /\ mon w = m
}.

Lemma in_of_remove_at {A} (x : A) : forall l i, In x (remove_at i l) -> In x l.
Proof. induction l as [|z l IH]; intros [|i]; cbn; auto. intros [->|H]; eauto. Qed.

Lemma req_removed (l : list (rank * rank)) : forall i w m m', NoDup (map fst l) -> nth_error l i = Some (w, m) -> ~ In (w, m') (remove_at i l).
Proof.
  induction l as [|[x y] l IH]; intros [|i] w m m' N E; cbn in *; try discriminate.
  - injection E as -> ->. inversion N as [|? ? X Y]; subst. intros H. apply X. apply (in_map fst) in H. exact H.
  - inversion N as [|? ? X Y]; subst. intros [H|H].
    + injection H as -> ->. apply X. apply nth_error_In in E. apply (in_map fst) in E. exact E.
    + eapply IH; eauto.
Qed.

Lemma nodup_remove (l : list (rank * rank)) : forall i, NoDup (map fst l) -> NoDup (map fst (remove_at i l)).
Proof.
  induction l as [|x l IH]; intros [|i] N; cbn in *; auto; inversion N as [|? ? X Y]; subst; auto.
  constructor; auto. intros H. apply X. apply in_map_iff in H as (y & E & H). apply in_of_remove_at in H. rewrite <- E. now apply in_map.
Qed.

Lemma nodup_snoc (l : list (rank * rank)) w m : NoDup (map fst l) -> (forall m', ~ In (w, m') l) -> NoDup (map fst (l ++ [(w, m)])).
Proof.
  intros N H. rewrite map_app. apply NoDup_rev in N. rewrite <- (rev_involutive (map fst l)). cbn.
  change [w] with (rev [w]). rewrite <- rev_app_distr. apply NoDup_rev. cbn. constructor; auto.
  rewrite <- in_rev. intros I. apply in_map_iff in I as ([x y] & E & I). cbn in E. subst. eapply H; eauto.
Qed.

Lemma li_init : LI (linit g).
Proof. split; cbn; try discriminate; try contradiction. constructor. Qed.

Lemma in_loop_w st w : in_loop c st w = true -> In w (s_workers c) /\ l_wait st w = None /\ (sworker (l_s st) w = WkRun \/ sworker (l_s st) w = WkReady).
Proof.
  unfold in_loop. rewrite andb_true_iff, mem_rank_In. intros [A B]. destruct (l_wait st w); [discriminate|].
  destruct (sworker (l_s st) w); try discriminate; auto.
Qed.

Lemma li_step st op st' : LI st -> lstep st op = Some st' -> LI st'.
Proof.
  intros [A B C D E F] H. destruct op as [o d|o w d|i|i|w|a]; cbn [LateModel.lstep] in H.
  - destruct (working c st o && negb (pin (mon o) d (l_res st))); [|discriminate]. injection H as <-. split; cbn; auto.
    + intros w o' e k W. specialize (C w o' e k W). destruct k; auto. apply in_or_app. auto.
    + intros m e I. apply in_app_or in I as [I|[I|[]]].
      * destruct (F m e I) as [J|J]; auto. left. apply in_or_app. auto.
      * injection I as <- <-. left. apply in_or_app. right. left. auto.
  - destruct (working c st o && _ && _ && _) eqn:K; [|discriminate]. injection H as <-. split; cbn; auto.
    intros o' w' e I. apply in_app_or in I as [I|[I|[]]]; eauto. injection I as <- <- <-.
    rewrite !andb_true_iff in K. destruct K as (((K & _) & _) & _). unfold working in K. apply andb_true_iff in K as [K _].
    now apply in_loop_w in K.
  - destruct (nth_error (l_pkgs st) i) as [[[o w] d]|] eqn:N; [|discriminate].
    destruct (in_loop c st w) eqn:L; [|discriminate]. injection H as <-. apply in_loop_w in L as (Lw & Ln & _).
    assert (Np : forall o' w' e, In (o', w', e) (remove_at i (l_pkgs st)) -> In o' (s_workers c)).
    { intros o' w' e I. apply in_of_remove_at in I. eauto. }
    unfold receive. destruct (pin w d (l_have st)); [split; cbn; auto|].
    destruct (pin (mon w) d (l_mem st)).
    + split; cbn; auto.
      * intros v x. unfold fupd. destruct (Nat.eqb v w); [discriminate|]. apply A.
      * intros v o' e k. unfold fupd. destruct (Nat.eqb v w); [discriminate|]. apply C.
      * intros v m I. destruct (D v m I) as (o' & e & k & W & X). exists o', e, k. split; auto.
        rewrite fupd_other; auto. intros ->. congruence.
      * intros m e I. destruct (F m e I) as [J|(v & o' & W & X)]; auto. right. exists v, o'. split; auto.
        rewrite fupd_other; auto. intros ->. congruence.
    + split; cbn; auto.
      * intros v x. unfold fupd. destruct (Nat.eqb_spec v w) as [->|_]; [|apply A].
        intros X. injection X as <-. cbn. split; auto. eapply B, nth_error_In; eauto.
      * intros v o' e k. unfold fupd. destruct (Nat.eqb_spec v w) as [->|_].
        -- intros X. injection X as <- <- <-. apply in_or_app. right. left. auto.
        -- intros W. specialize (C v o' e k W). destruct k; auto; apply in_or_app; auto.
      * intros v m I. apply in_app_or in I as [I|[I|[]]].
        -- destruct (D v m I) as (o' & e & k & W & X). exists o', e, k. split; auto. rewrite fupd_other; auto. intros ->. congruence.
        -- injection I as <- <-. exists o, d, WaitReserve. rewrite fupd_same. auto.
      * apply nodup_snoc; auto. intros m' I. destruct (D w m' I) as (o' & e & k & W & _). congruence.
      * intros m e I. destruct (F m e I) as [J|(v & o' & W & X)]; auto. right. exists v, o'. split; auto.
        rewrite fupd_other; auto. intros ->. congruence.
  - destruct (nth_error (l_req st) i) as [[w m]|] eqn:N; [|discriminate].
    destruct (mstopped (smon (l_s st) m)); [discriminate|]. injection H as <-.
    destruct (D w m (nth_error_In _ _ N)) as (o & d & k & W & X). unfold answered. rewrite W.
    assert (Keep : forall v m', v <> w -> In (v, m') (l_req st) -> In (v, m') (remove_at i (l_req st))).
    { intros v m' V I. eapply in_remove_at; eauto. congruence. }
    assert (None_w : forall m', ~ In (w, m') (remove_at i (l_req st))).
    { intros m'. eapply req_removed; eauto. }
    destruct (A w _ W) as [Aw Ao]. cbn in Ao.
    destruct k; [| |contradiction]; subst m.
    + destruct (pin (mon w) d (l_res st)) eqn:P.
      * apply pin_in in P. split; cbn; auto.
        -- intros v x. unfold fupd. destruct (Nat.eqb_spec v w) as [->|_]; [|apply A]. intros Y. injection Y as <-. auto.
        -- intros v o' e k. unfold fupd. destruct (Nat.eqb_spec v w) as [->|V]; [intros Y; injection Y as <- <- <-; auto|].
           intros Y. specialize (C v o' e k Y). destruct k; auto.
        -- intros v m' I. destruct (Nat.eq_dec v w) as [->|V]; [exfalso; eapply None_w; eauto|].
           apply in_of_remove_at in I. rewrite fupd_other by auto. eauto.
        -- apply nodup_remove; auto.
        -- intros m' e I. destruct (F m' e I) as [J|(v & o' & Y & Z)]; auto. right. exists v, o'. split; auto.
           rewrite fupd_other; auto. intros ->. congruence.
      * split; cbn; auto.
        -- intros v x. unfold fupd. destruct (Nat.eqb_spec v w) as [->|_]; [|apply A]. intros Y. injection Y as <-. auto.
        -- intros v o' e k. unfold fupd. destruct (Nat.eqb_spec v w) as [->|V].
           { intros Y; injection Y as <- <- <-. apply in_or_app. right. left. auto. }
           intros Y. specialize (C v o' e k Y). destruct k; apply in_or_app; auto.
        -- intros v m' I. apply in_app_or in I as [I|[I|[]]].
           ++ destruct (Nat.eq_dec v w) as [->|V]; [exfalso; eapply None_w; eauto|].
              apply in_of_remove_at in I. rewrite fupd_other by auto. eauto.
           ++ injection I as <- <-. exists o, d, WaitData. rewrite fupd_same. auto.
        -- apply nodup_snoc; [apply nodup_remove; auto|apply None_w].
        -- intros m' e I. apply in_app_or in I as [I|[I|[]]].
           ++ destruct (F m' e I) as [J|(v & o' & Y & Z)]; auto. right. exists v, o'. split; auto.
              rewrite fupd_other; auto. intros ->. congruence.
           ++ injection I as <- <-. right. exists w, o. rewrite fupd_same. auto.
    + split; cbn; auto.
      * intros v x. unfold fupd. destruct (Nat.eqb v w); [discriminate|]. apply A.
      * intros v o' e k. unfold fupd. destruct (Nat.eqb_spec v w) as [->|V]; [discriminate|].
        intros Y. specialize (C v o' e k Y). destruct k; auto.
      * intros v m' I. destruct (Nat.eq_dec v w) as [->|V]; [exfalso; eapply None_w; eauto|].
        apply in_of_remove_at in I. rewrite fupd_other by auto. eauto.
      * apply nodup_remove; auto.
      * intros m' e I. destruct (F m' e I) as [J|(v & o' & Y & Z)]; [left; apply in_or_app; auto|].
        destruct (Nat.eq_dec v w) as [->|V].
        -- left. apply in_or_app. right. left. congruence.
        -- right. exists v, o'. rewrite fupd_other by auto. auto.
  - destruct (l_wait st w) as [[[o d] k]|] eqn:W; [|discriminate]. destruct k; try discriminate.
    destruct (pin (mon w) d (l_mem st)) eqn:P; [|discriminate]. injection H as <-. split; cbn; auto.
    + intros v x. unfold fupd. destruct (Nat.eqb v w); [discriminate|]. apply A.
    + intros v o' e k. unfold fupd. destruct (Nat.eqb v w); [discriminate|]. apply C.
    + intros v m I. destruct (D v m I) as (o' & e & k & V & X). exists o', e, k. split; auto.
      rewrite fupd_other; auto. intros ->. rewrite W in V. injection V as <- <- <-. destruct X.
    + intros m e I. destruct (F m e I) as [J|(v & o' & V & X)]; auto. right. exists v, o'. split; auto.
      rewrite fupd_other; auto. intros ->. congruence.
  - destruct (free_for st a); [|discriminate]. destruct (sstep c (l_s st) a); [|discriminate]. injection H as <-.
    split; cbn; auto.
Qed.

Lemma li_run ops : LI (lrun ops).
Proof.
  induction ops as [|op ops IH] using rev_ind; [apply li_init|]. rewrite lrun_snoc. unfold lgo.
  destruct (lstep (lrun ops) op) as [st'|] eqn:E; auto. eapply li_step; eauto.
Qed.

(** Who waits has taken a package, and nothing since. *)
Lemma waits_since ops w x : l_wait (lrun ops) w = Some x ->
  exists ops1 i ops2 o d, ops = ops1 ++ LTake i :: ops2 /\
    nth_error (l_pkgs (lrun ops1)) i = Some (o, w, d) /\ ~ In (mon w, d) (l_mem (lrun ops1)) /\
    in_loop c (lrun ops1) w = true /\ sworker (l_s (lrun ops)) w = sworker (l_s (lrun ops1)) w.
Proof.
  revert x. induction ops as [|op ops IH] using rev_ind; intros x H; [discriminate H|].
  rewrite lrun_snoc in *. unfold lgo in *.
  assert (Old : forall y, l_wait (lrun ops) w = Some y -> forall s, sworker s w = sworker (l_s (lrun ops)) w ->
    exists ops1 i ops2 o d, ops ++ [op] = ops1 ++ LTake i :: ops2 /\
    nth_error (l_pkgs (lrun ops1)) i = Some (o, w, d) /\ ~ In (mon w, d) (l_mem (lrun ops1)) /\
    in_loop c (lrun ops1) w = true /\ sworker s w = sworker (l_s (lrun ops1)) w).
  { intros y Hy s Es. destruct (IH y Hy) as (ops1 & i & ops2 & o & d & -> & A1 & A2 & A3 & A4).
    exists ops1, i, (ops2 ++ [op]), o, d. rewrite <- app_assoc. cbn. do 4 (split; auto). congruence. }
  destruct op as [o d|o v d|i|i|v|a]; cbn [LateModel.lstep] in *.
  - destruct (_ && _); eapply Old; eauto.
  - destruct (_ && _); eapply Old; eauto.
  - destruct (nth_error (l_pkgs (lrun ops)) i) as [[[o v] d]|] eqn:N; [|eapply Old; eauto].
    destruct (in_loop c (lrun ops) v) eqn:L; [|eapply Old; eauto].
    rewrite receive_s. unfold receive in H.
    destruct (pin v d (l_have (lrun ops))); [eapply Old; eauto|].
    destruct (pin (mon v) d (l_mem (lrun ops))) eqn:P; cbn in H; unfold fupd in H.
    + destruct (Nat.eqb w v); [discriminate|]. eapply Old; eauto.
    + destruct (Nat.eqb_spec w v) as [->|V]; [|eapply Old; eauto].
      exists ops, i, [], o, d. do 2 (split; auto). split; auto. rewrite <- pin_in. congruence.
  - destruct (nth_error (l_req (lrun ops)) i) as [[v m]|] eqn:N; [|eapply Old; eauto].
    destruct (mstopped (smon (l_s (lrun ops)) m)); [eapply Old; eauto|].
    rewrite answered_s. unfold answered in H.
    destruct (l_wait (lrun ops) v) as [[[o d] k]|] eqn:W; [|eapply Old; eauto].
    destruct (Nat.eq_dec w v) as [->|V]; [eapply Old; eauto|].
    destruct k; [destruct (pin m d (l_res (lrun ops)))| |]; cbn in H; try rewrite fupd_other in H by auto; eapply Old; eauto.
  - destruct (l_wait (lrun ops) v) as [[[o d] k]|] eqn:W; [|eapply Old; eauto].
    destruct k; [eapply Old; eauto|eapply Old; eauto|]. destruct (pin (mon v) d (l_mem (lrun ops))); [|eapply Old; eauto].
    cbn in H. unfold fupd in H. destruct (Nat.eqb w v); [discriminate|]. eapply Old; eauto.
  - destruct (free_for (lrun ops) a) eqn:Fr; [|eapply Old; eauto].
    destruct (sstep c (l_s (lrun ops)) a) as [s|] eqn:St; [|eapply Old; eauto].
    cbn in *. eapply Old; eauto. eapply sstep_worker; eauto. intros i src m -> N. cbn in Fr. rewrite N, H in Fr. discriminate.
Qed.

(** A monitor that has stopped answers nothing any more. *)
Lemma mon_turn_stopped s r m s' x : mon_turn c s r m = Some s' -> mstopped (smon s x) = true -> mstopped (smon s' x) = true.
Proof.
  unfold mon_turn. destruct (mstopped (smon s r)) eqn:R; [discriminate|]. destruct (mon_step _ _ _) as [t|]; [|discriminate].
  intros H X. injection H as <-.
  assert (G : forall l s0, smon (fold_left (fun s p => send s r (fst p) (snd p)) l s0) = smon s0).
  { induction l as [|p l IH]; intros s0; cbn; auto. rewrite IH. auto. }
  rewrite G. cbn. rewrite fupd_other; auto. intros ->. congruence.
Qed.

Lemma sstep_stopped s a s' x : sstep c s a = Some s' -> mstopped (smon s x) = true -> mstopped (smon s' x) = true.
Proof.
  intros H X. destruct a as [| |i|r m]; cbn [sstep] in H.
  - destruct (sroot s); try discriminate. injection H as <-. auto.
  - destruct (sroot s) as [|[|y l]| |]; try discriminate; injection H as <-; auto.
  - destruct (nth_error (snet s) i) as [[[src dst] m]|]; [|discriminate].
    destruct (Nat.eqb dst ROOT).
    { unfold root_recv in H. cbn in H. destruct (sroot s), m; try discriminate. destruct (Nat.eqb src MONITOR); [|discriminate].
      injection H as <-. auto. }
    destruct (mem_rank dst (s_workers c)).
    { unfold worker_recv in H. cbn in H. destruct (sworker s dst), m; try discriminate; injection H as <-; auto. }
    destruct (mem_rank dst (s_monitors c)); [|discriminate].
    unfold monitor_recv in H. destruct m; try discriminate; eapply mon_turn_stopped; eauto.
  - destruct (_ && _); [|discriminate]. eapply mon_turn_stopped; eauto.
Qed.

Lemma hangs ops w m : In (w, m) (l_req (lrun ops)) -> mstopped (smon (l_s (lrun ops)) m) = true ->
  forall ops', In (w, m) (l_req (lrun (ops ++ ops'))) /\ mstopped (smon (l_s (lrun (ops ++ ops'))) m) = true /\
    sworker (l_s (lrun (ops ++ ops'))) w = sworker (l_s (lrun ops)) w.
Proof.
  intros R St ops'. induction ops' as [|op ops' IH] using rev_ind; [rewrite app_nil_r; auto|].
  rewrite app_assoc, lrun_snoc. set (o2 := ops ++ ops') in *. destruct IH as (R2 & S2 & W2).
  assert (I := li_run o2). destruct (li_req _ I w m R2) as (ow & dw & kw & Ww & _).
  unfold lgo. destruct op as [o d|o v d|i|i|v|a]; cbn [LateModel.lstep].
  - destruct (_ && _); auto.
  - destruct (_ && _); auto.
  - destruct (nth_error (l_pkgs (lrun o2)) i) as [[[o v] d]|] eqn:N; auto.
    destruct (in_loop c (lrun o2) v); auto. rewrite receive_s. split; [|auto].
    unfold receive. destruct (pin v d _); auto. destruct (pin (mon v) d _); cbn; auto. apply in_or_app. auto.
  - destruct (nth_error (l_req (lrun o2)) i) as [[v m']|] eqn:N; auto.
    destruct (mstopped (smon (l_s (lrun o2)) m')) eqn:S'; auto. rewrite answered_s. split; [|auto].
    assert (Dif : (w, m) <> (v, m')) by (intros X; injection X as -> ->; congruence).
    assert (Kp : In (w, m) (remove_at i (l_req (lrun o2)))) by (eapply in_remove_at; eauto).
    unfold answered. destruct (l_wait (lrun o2) v) as [[[o d] []]|]; cbn; auto. destruct (pin m' d _); cbn; auto. apply in_or_app. auto.
  - destruct (l_wait (lrun o2) v) as [[[o d] []]|]; auto. destruct (pin _ _ _); auto.
  - destruct (free_for (lrun o2) a) eqn:Fr; auto. destruct (sstep c (l_s (lrun o2)) a) as [s|] eqn:E; auto. cbn.
    split; auto. split; [eapply sstep_stopped; eauto|]. rewrite <- W2. eapply sstep_worker; eauto.
    intros i src x -> N. cbn in Fr. rewrite N, Ww in Fr. discriminate.
Qed.

Lemma rest_cases ops : s_workers c <> [] -> s_rmon c = MONITOR -> sroot (l_s (lrun ops)) <> RRun -> at_rest c mon (lrun ops) ->
  all_left c (lrun ops) \/
  exists w m, In w (s_workers c) /\ took_late c mon g ops w /\ In (w, m) (l_req (lrun ops)) /\
    In m (s_monitors c) /\ mstopped (smon (l_s (lrun ops)) m) = true /\
    forall ops', sworker (l_s (lrun (ops ++ ops'))) w = WkReady.
Proof.
  intros Ne Em Rr Q. assert (I := li_run ops). destruct (shut_run ops) as (acts & Es).
  destruct (existsb (fun w => match l_wait (lrun ops) w with Some _ => true | None => false end) (s_workers c)) eqn:X.
  - right. apply existsb_exists in X as (w0 & Iw0 & X). destruct (l_wait (lrun ops) w0) as [[[o0 d0] k0]|] eqn:W0; [|discriminate].
    assert (R : exists w m, In (w, m) (l_req (lrun ops))).
    { assert (K := li_ask _ I _ _ _ _ W0). destruct k0; eauto.
      destruct (li_res _ I _ _ K) as [J|(v & o & V & _)].
      - exfalso. specialize (Q (LLook w0)). cbn in Q. rewrite W0 in Q. apply pin_in in J. rewrite J in Q. discriminate.
      - assert (K' := li_ask _ I _ _ _ _ V). cbn in K'. eauto. }
    destruct R as (w & m & R). exists w, m. destruct (li_req _ I w m R) as (o & d & k & W & M).
    destruct (li_w _ I w _ W) as [Iw Io]. cbn in Io.
    assert (Im : In m (s_monitors c)) by (destruct k; [subst; auto|subst; auto|destruct M]).
    assert (St : mstopped (smon (l_s (lrun ops)) m) = true).
    { apply In_nth_error in R as [i R]. specialize (Q (LServe i)). cbn in Q. rewrite R in Q.
      destruct (mstopped _); auto. discriminate. }
    destruct (waits_since ops w _ W) as (ops1 & i & ops2 & o1 & d1 & E & N & Nm & L & Sw).
    assert (Rd : sworker (l_s (lrun ops)) w = WkReady).
    { apply in_loop_w in L as (_ & _ & [L|L]); [|congruence]. exfalso.
      apply (stopped_all _ acts m Es Im St w Iw). congruence. }
    split; [exact Iw|]. split; [|split; [exact R|split; [exact Im|split; [exact St|]]]].
    2: { intros ops'. destruct (hangs ops w m R St ops') as (_ & _ & H). congruence. }
    exists ops1, i, ops2, o1, d1. split; [exact E|]. split; [exact N|]. split; [congruence|exact Nm].
  - left. assert (No : forall w, l_wait (lrun ops) w = None).
    { intros w. destruct (l_wait (lrun ops) w) eqn:W; auto. destruct (li_w _ I w _ W) as [Iw _].
      assert (Y : existsb (fun w => match l_wait (lrun ops) w with Some _ => true | None => false end) (s_workers c) = true).
      { apply existsb_exists. exists w. rewrite W. auto. } congruence. }
    assert (Fr : forall a, free_for (lrun ops) a = true).
    { intros [| |i|r m]; cbn; auto. destruct (nth_error _ i) as [[[src dst] m]|]; auto. rewrite No. auto. }
    assert (Qs : forall a, match a with AOther _ _ => True | _ => sstep c (l_s (lrun ops)) a = None end).
    { intros a. specialize (Q (LShut a)). destruct a; auto; cbn [LateModel.lstep] in Q; rewrite Fr in Q;
        match goal with |- sstep c ?s ?b = None => destruct (sstep c s b); auto; discriminate end. }
    assert (Qu : quiet c (l_s (lrun ops))).
    { split; [apply (Qs AStart)|]. split; [apply (Qs ACancel)|]. intros i. apply (Qs (ADeliver i)). }
    unfold all_left. rewrite Es in *. destruct (quiet_done c ok g acts Ne Em Rr Qu) as [G1 G2]. split; auto.
    intros r Ir. apply G2. exact Ir.
Qed.
End L.

(** For the clusters that can be started. *)
Section Started.
Variables (place : list nat) (addr : nat -> nat) (c : scfg).
Hypothesis dist : forall a b, In a place -> In b place -> addr a = addr b -> a = b.
Hypothesis two : forall k, In k place -> 2 <= count_occ Nat.eq_dec place k.
Hypothesis len : 2 <= length place.
Hypothesis cl : cluster place addr true = Some c.

Lemma mon_started w : In w (s_workers c) -> In (monitor_of place addr w) (s_monitors c).
Proof.
  intros Iw. destruct (roles_any place addr dist true len (fun _ => two)) as (ms & M & P & _ & G).
  unfold cluster in cl. rewrite M in cl. destruct (get_monitor place addr true ROOT); [|discriminate].
  injection cl as <-. cbn [s_workers s_monitors] in *. unfold monitor_of.
  destruct (G eq_refl w) as (m & E & Im & _).
  - assert (J : In w (0 :: ms ++ workers place addr ms)) by (right; apply in_or_app; auto).
    apply (Permutation_in _ P) in J. apply in_seq in J. lia.
  - rewrite E. auto.
Qed.

Lemma late_cases g ops : s_workers c <> [] -> nth 1 place 0 = nth 0 place 0 ->
  let st := lrun c (monitor_of place addr) g ops in
  sroot (l_s st) <> RRun -> at_rest c (monitor_of place addr) st ->
  all_left c st \/
  exists w m, In w (s_workers c) /\ took_late c (monitor_of place addr) g ops w /\ In (w, m) (l_req st) /\
    In m (s_monitors c) /\ mstopped (smon (l_s st) m) = true /\
    forall ops', sworker (l_s (lrun c (monitor_of place addr) g (ops ++ ops'))) w = WkReady.
Proof.
  intros Ne One st Rr Q. apply rest_cases; auto.
  - eapply started; eauto.
  - apply mon_started.
  - eapply started_one; eauto.
Qed.

Lemma late_none g ops : s_workers c <> [] -> nth 1 place 0 = nth 0 place 0 ->
  let st := lrun c (monitor_of place addr) g ops in
  (forall w, ~ took_late c (monitor_of place addr) g ops w) ->
  sroot (l_s st) <> RRun -> at_rest c (monitor_of place addr) st -> all_left c st.
Proof.
  intros Ne One st T Rr Q. destruct (late_cases g ops Ne One Rr Q) as [H|(w & m & _ & H & _)]; auto. exfalso. eapply T; eauto.
Qed.
End Started.

(** A package that is taken brings its object. *)
Definition arrives (o w : rank) (d : dataid) (st : lst) : Prop :=
  In (w, d) (l_have st) \/ exists g, l_wait st w = Some (o, d, g).

Lemma arrives_step c mon st op o w d : arrives o w d st -> arrives o w d (lgo c mon st op).
Proof.
  intros A. unfold lgo. destruct (lstep c mon st op) as [st'|] eqn:E; auto. unfold lstep in E.
  assert (W : forall r x, l_wait st r = None -> arrives o w d st ->
    In (w, d) (l_have st) \/ exists g, fupd (l_wait st) r x w = Some (o, d, g)).
  { intros r x N [X|(g & X)]; auto. right. exists g. unfold fupd. destruct (Nat.eqb_spec w r); auto. subst. congruence. }
  destruct op as [o1 d1|o1 w1 d1|i|i|w1|a].
  - destruct (working c st o1 && _); [|discriminate]. apply Some_inj in E as <-. destruct A as [A|A]; [left|right]; simpl; auto.
    apply in_or_app; auto.
  - destruct (working c st o1 && _ && _ && _); [|discriminate]. apply Some_inj in E as <-. exact A.
  - destruct (nth_error (l_pkgs st) i) as [[[o1 w1] d1]|]; [|discriminate]. destruct (in_loop c st w1) eqn:L; [|discriminate].
    apply Some_inj in E as <-. unfold in_loop in L. destruct (l_wait st w1) eqn:N; [rewrite Bool.andb_false_r in L; discriminate|].
    unfold receive. destruct (pin w1 d1 (l_have st)); [exact A|]. destruct (pin (mon w1) d1 (l_mem st)).
    + destruct (W w1 None N A) as [X|X]; [left|right]; simpl; auto. apply in_or_app; auto.
    + destruct (W w1 (Some (o1, d1, WaitReserve)) N A) as [X|X]; [left|right]; simpl; auto.
  - destruct (nth_error (l_req st) i) as [[w1 m]|]; [|discriminate]. destruct (mstopped _); [discriminate|]. apply Some_inj in E as <-.
    unfold answered. destruct (l_wait st w1) as [[[o1 d1] g1]|] eqn:N; auto.
    assert (V : forall x, (forall g, Some (o1, d1, g1) = Some (o, d, g) -> exists g', x = Some (o, d, g')) ->
      In (w, d) (l_have st) \/ exists g, fupd (l_wait st) w1 x w = Some (o, d, g)).
    { intros x X. destruct A as [A|(g & A)]; auto. right. unfold fupd. destruct (Nat.eqb_spec w w1); eauto. subst. rewrite N in A. eauto. }
    destruct g1; auto.
    + destruct (pin m d1 (l_res st)); (destruct (V (Some (o1, d1, WaitOthers))) as [X|X] || idtac);
        try (intros g Y; injection Y as -> -> _; eauto); [left; auto|right; exact X| |].
      * left; auto.
      * destruct (V (Some (o1, d1, WaitData))) as [Y|Y]; [intros g Y; injection Y as -> -> _; eauto|left; auto|right; exact Y].
    + destruct A as [A|(g & A)]; [left; simpl; apply in_or_app; auto|]. unfold arrives. simpl. unfold fupd.
      destruct (Nat.eqb_spec w w1) as [->|]; [|right; eauto]. rewrite N in A. injection A as -> -> _. left. apply in_or_app. simpl; auto.
  - destruct (l_wait st w1) as [[[o1 d1] g1]|] eqn:N; [|discriminate]. destruct g1; try discriminate.
    destruct (pin (mon w1) d1 (l_mem st)); [|discriminate]. apply Some_inj in E as <-. unfold arrives. simpl.
    destruct A as [A|(g & A)]; [left; apply in_or_app; auto|]. unfold fupd.
    destruct (Nat.eqb_spec w w1) as [->|]; [|right; eauto]. rewrite N in A. injection A as -> -> _. left. apply in_or_app. simpl; auto.
  - destruct (free_for st a); [|discriminate]. destruct (sstep c (l_s st) a); [|discriminate]. apply Some_inj in E as <-. exact A.
Qed.

Lemma arrives_go c mon ops : forall st o w d, arrives o w d st -> arrives o w d (fold_left (lgo c mon) ops st).
Proof. induction ops as [|op ops IH]; simpl; auto. intros. apply IH. apply arrives_step. auto. Qed.

Lemma taken_arrives c mon g ops1 i ops2 o w d :
  nth_error (l_pkgs (lrun c mon g ops1)) i = Some (o, w, d) -> lstep c mon (lrun c mon g ops1) (LTake i) <> None ->
  let st := lrun c mon g (ops1 ++ LTake i :: ops2) in In (w, d) (l_have st) \/ exists h, l_wait st w = Some (o, d, h).
Proof.
  intros N L. cbn [lstep] in L. rewrite N in L. destruct (in_loop c (lrun c mon g ops1) w) eqn:L1; [clear L|tauto]. rename L1 into L.
  cbv zeta. fold (arrives o w d (lrun c mon g (ops1 ++ LTake i :: ops2))). unfold lrun in *. rewrite fold_left_app. set (st := fold_left (lgo c mon) ops1 (linit g)) in *. clearbody st. simpl.
  apply arrives_go. unfold lgo, lstep. rewrite N, L. unfold receive.
  destruct (pin w d (l_have st)) eqn:P; [left; apply pin_in; auto|].
  destruct (pin (mon w) d (l_mem st)); [left; simpl; apply in_or_app; simpl; auto|].
  right. exists WaitReserve. simpl. unfold fupd. rewrite Nat.eqb_refl. auto.
Qed.
