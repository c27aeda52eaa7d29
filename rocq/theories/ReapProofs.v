(** Counting calls and ends in programs with cleanups. *)
From Verif Require Import Lib ShmModel ValModel WorkerModel WorkerSpec ClusterModel MonModel NestModel NestSpec NestProofs NestOnce NestThms NestRun
  ReapModel ReapSpec.

Definition ends (H : list (nat * hev)) : list nat := flat_map (fun e => match snd e with HEnd _ => [fst e] | _ => [] end) H.
Definition submits (H : list (nat * hev)) : list request := flat_map (fun e => match snd e with HSubmit _ q => [q] | _ => [] end) H.

Lemma ends_app h h' : ends (h ++ h') = ends h ++ ends h'.
Proof. apply flat_map_app. Qed.
Lemma submits_app h h' : submits (h ++ h') = submits h ++ submits h'.
Proof. apply flat_map_app. Qed.

Lemma in_submits H q : In q (submits H) <-> exists t dest, In (t, HSubmit dest q) H.
Proof.
  unfold submits. rewrite in_flat_map. split.
  - intros ([t e] & I & J). simpl in J. destruct e; simpl in J; try contradiction. destruct J as [<-|[]]. eauto.
  - intros (t & dest & I). exists (t, HSubmit dest q). simpl. auto.
Qed.

Lemma in_ends H t : In t (ends H) <-> exists r, In (t, HEnd r) H.
Proof.
  unfold ends. rewrite in_flat_map. split.
  - intros ([t' e] & I & J). simpl in J. destruct e; simpl in J; try contradiction. destruct J as [<-|[]]. eauto.
  - intros (r & I). exists (t, HEnd r). simpl. auto.
Qed.

Lemma tasks_submits H : tasks_of H = map q_id (submits H).
Proof.
  unfold tasks_of, submits. induction H as [|[t e] H IH]; auto. simpl. rewrite map_app, IH. destruct e; reflexivity.
Qed.

Lemma ends_trace H t : In t (ends H) <-> exists r, In (HEnd r) (trace H t).
Proof.
  rewrite in_ends. unfold trace. split; intros (r & I); exists r.
  - apply in_flat_map. exists (t, HEnd r). simpl. rewrite Nat.eqb_refl. simpl. auto.
  - apply in_flat_map in I as ([t' e] & I & J). simpl in J. destruct (Nat.eqb t' t) eqn:E; [|destruct J]. destruct J as [J|[]]. subst e.
    apply Nat.eqb_eq in E as <-. auto.
Qed.

Lemma in_trace H t e : In e (trace H t) <-> In (t, e) H.
Proof.
  unfold trace. rewrite in_flat_map. split.
  - intros ([t' e'] & I & J). simpl in J. destruct (Nat.eqb t' t) eqn:E; [|destruct J]. destruct J as [J|[]]. subst e'. apply Nat.eqb_eq in E as <-. auto.
  - intros I. exists (t, e). simpl. rewrite Nat.eqb_refl. simpl. auto.
Qed.

Definition hends (l : list hev) : nat := length (flat_map (fun e => match e with HEnd _ => [0] | _ => [] end) l).

Lemma count_ends H t : count_occ Nat.eq_dec (ends H) t = hends (trace H t).
Proof.
  unfold hends, trace, ends. induction H as [|[t' e] H IH]; auto. cbn [flat_map fst snd]. rewrite count_occ_app, IH.
  destruct (Nat.eqb t' t) eqn:E.
  - apply Nat.eqb_eq in E as ->. rewrite flat_map_app, app_length. f_equal. destruct e; cbn; auto. destruct (Nat.eq_dec t t); auto; congruence.
  - cbn. destruct e; auto. cbn. apply Nat.eqb_neq in E. destruct (Nat.eq_dec t' t); [congruence|reflexivity].
Qed.

(** ** One step *)

Lemma follows_no_end a l a' : follows a l a' -> hends l = 0.
Proof. induction 1; auto. Qed.

Section Step.
Variable workers : list rank.
Variable body : val -> val -> val -> act.

Lemma store_some w w' o r : (exists x, store_result w o r = Some x) -> exists x, store_result w' o r = Some x.
Proof.
  intros [x E]. destruct r as [v|e], o as [|d|ds]; simpl in *; try discriminate; eauto. destruct (iterate v); [eauto|discriminate].
Qed.

Lemma leave_store p s fr r run : store_result (p_w s) (q_out (f_q fr)) r = None -> leave body p s fr r run = None.
Proof.
  intros E. unfold leave, finish_task. destruct (store_result (no_log (p_w s)) (q_out (f_q fr)) r) as [[w ds]|] eqn:F; auto.
  destruct (store_some (no_log (p_w s)) (p_w s) (q_out (f_q fr)) r) as [x X]; eauto. congruence.
Qed.

Lemma looped_events n p x ch h : exists h', n_hist (looped n p x ch h) = n_hist n ++ h ++ h' /\ ends h' = [] /\ submits h' = [].
Proof.
  destruct x as [[s [i|]]|]; simpl.
  - exists [(n_runs n, HStart i)]. auto.
  - exists []. rewrite app_nil_r. auto.
  - exists []. rewrite app_nil_r. auto.
Qed.

Lemma api_events p s fr dest task s' out sub es : call_api workers p s fr dest task = Some (s', out, sub, es) -> ends (map (fun e => (f_run fr, e)) es) = [].
Proof.
  unfold call_api. destruct (f_act fr) as [r|v k|f args kwargs m k|ds k]; intros E.
  - discriminate.
  - apply Some_inj in E. apply pair_inj in E as [_ <-]. reflexivity.
  - destruct (negb (existsb (Nat.eqb dest) workers) || Nat.eqb dest p); [discriminate|].
    destruct (push_all _ dest _) as [[w1 l] ok]. destruct ok; apply Some_inj in E; apply pair_inj in E as [_ <-]; reflexivity.
  - destruct (filter _ ds); [|destruct (ask_owners _ _) as [l0 ok]; destruct ok]; apply Some_inj in E; apply pair_inj in E as [_ <-]; reflexivity.
Qed.

Lemma receive_events s fr g k d v s' es : receive s fr g k d v = (s', es) ->
  ends (map (fun e => (f_run fr, e)) es) = [] /\ submits (map (fun e => (f_run fr, e)) es) = [].
Proof.
  unfold receive. destruct (did_in d (t_ids g)); [destruct (t_left g) as [|[|j]]|]; intros E; apply pair_inj in E as [_ <-]; auto.
Qed.

Lemma in_tagged t es x q dest : In (x, HSubmit dest q) (map (fun e : hev => (t : nat, e)) es) -> x = t.
Proof. intros I. apply in_map_iff in I as (e & E & _). congruence. Qed.

Definition nobody_dead (n : nst) : Prop := forall p, n_dead n p = false.

Lemma nest_events n o : let n' := nest workers body n o in exists h, n_hist n' = n_hist n ++ h /\
  length (report n o) <= length (ends h) /\ (nobody_dead n' -> length (ends h) = length (report n o)) /\
  (forall t dest q, In (t, HSubmit dest q) h -> exists p d fr, o = NRun p d /\ p_cur (n_proc n p) = Some fr /\ t = f_run fr).
Proof.
  assert (Z : forall x : nst, n_hist x = n_hist n -> report n o = [] -> exists h, n_hist x = n_hist n ++ h /\
    length (report n o) <= length (ends h) /\ (nobody_dead x -> length (ends h) = length (report n o)) /\
    (forall t dest q, In (t, HSubmit dest q) h -> exists p d fr, o = NRun p d /\ p_cur (n_proc n p) = Some fr /\ t = f_run fr)).
  { intros x E R. exists []. rewrite app_nil_r, R. repeat split; auto. intros ? ? ? []. }
  assert (L : forall p x ch, report n o = [] -> exists h, n_hist (looped n p x ch []) = n_hist n ++ h /\
    length (report n o) <= length (ends h) /\ (nobody_dead (looped n p x ch []) -> length (ends h) = length (report n o)) /\
    (forall t dest q, In (t, HSubmit dest q) h -> exists p d fr, o = NRun p d /\ p_cur (n_proc n p) = Some fr /\ t = f_run fr)).
  { intros p x ch R. destruct (looped_events n p x ch []) as (h & E & A & B). exists h. rewrite R, A. simpl in E. repeat split; auto.
    intros t dest q I. exfalso. assert (J : In q (submits h)) by (apply in_submits; eauto). rewrite B in J. exact J. }
  destruct o as [p dest|src p|src p]; cbn [nest].
  - cbn [nstep]. destruct (p_cur (n_proc n p)) as [fr|] eqn:C; [|apply Z; cbn [report]; rewrite ?C; auto].
    destruct (n_dead n p) eqn:D; [apply Z; cbn [report]; rewrite ?C, ?D; auto|].
    destruct (f_get fr) as [g|] eqn:G; [apply Z; cbn [report]; rewrite ?C, ?D, ?G; auto|].
    destruct (f_act fr) as [r|v k|f args kwargs m k|ds k] eqn:A.
    + assert (Y : f_rest fr <> LMain -> exists h, n_hist (looped n p (leave body p (n_proc n p) fr r (n_runs n)) (n_chan n) [(f_run fr, HEnd r)]) = n_hist n ++ h /\
        length (report n (NRun p dest)) <= length (ends h) /\
        (nobody_dead (looped n p (leave body p (n_proc n p) fr r (n_runs n)) (n_chan n) [(f_run fr, HEnd r)]) -> length (ends h) = length (report n (NRun p dest))) /\
        (forall t dest0 q, In (t, HSubmit dest0 q) h -> exists p0 d fr0, NRun p dest = NRun p0 d /\ p_cur (n_proc n p0) = Some fr0 /\ t = f_run fr0)).
      { intros Nm. destruct (looped_events n p (leave body p (n_proc n p) fr r (n_runs n)) (n_chan n) [(f_run fr, HEnd r)]) as (h' & E & E1 & E2).
        exists ([(f_run fr, HEnd r)] ++ h'). split; [exact E|]. rewrite ends_app, E1. cbn [ends flat_map snd fst app length].
        cbn [report]. rewrite C, D, G, A. assert (S : forall (X : list (rank * list dataid)), match f_rest fr with LMain => [] | _ => X end = X) by (intros; destruct (f_rest fr); congruence).
        rewrite S. split; [destruct (store_result _ _ _) as [[w ds]|]; simpl; lia|]. split.
        - intros Nd. destruct (store_result (p_w (n_proc n p)) (q_out (f_q fr)) r) as [[w ds]|] eqn:F; auto.
          rewrite (leave_store p _ _ _ (n_runs n) F) in Nd. specialize (Nd p). cbn [looped kill n_dead] in Nd. rewrite upd_same in Nd. discriminate.
        - intros t d q I. simpl in I. destruct I as [I|I]; [discriminate|]. exfalso. assert (J : In q (submits h')) by (apply in_submits; eauto). rewrite E2 in J. exact J. }
      destruct (f_rest fr) eqn:R; [apply Z; cbn [report]; rewrite ?C, ?D, ?G, ?A, ?R; auto| |]; apply Y; discriminate.
    + destruct (call_api workers p (n_proc n p) fr dest (n_tasks n)) as [[[[s out] sub] es]|] eqn:E; [|apply Z; cbn [report]; rewrite ?C, ?D, ?G, ?A; auto].
      exists (map (fun e => (f_run fr, e)) es). cbn [put_proc n_hist report]. rewrite C, D, G, A, (api_events _ _ _ _ _ _ _ _ _ E). repeat split; auto.
      intros t d q I. exists p, dest, fr. repeat split; auto. eapply in_tagged; eauto.
    + destruct (call_api workers p (n_proc n p) fr dest (n_tasks n)) as [[[[s out] sub] es]|] eqn:E; [|apply Z; cbn [report]; rewrite ?C, ?D, ?G, ?A; auto].
      exists (map (fun e => (f_run fr, e)) es). cbn [put_proc n_hist report]. rewrite C, D, G, A, (api_events _ _ _ _ _ _ _ _ _ E). repeat split; auto.
      intros t d q I. exists p, dest, fr. repeat split; auto. eapply in_tagged; eauto.
    + destruct (call_api workers p (n_proc n p) fr dest (n_tasks n)) as [[[[s out] sub] es]|] eqn:E; [|apply Z; cbn [report]; rewrite ?C, ?D, ?G, ?A; auto].
      exists (map (fun e => (f_run fr, e)) es). cbn [put_proc n_hist report]. rewrite C, D, G, A, (api_events _ _ _ _ _ _ _ _ _ E). repeat split; auto.
      intros t d q I. exists p, dest, fr. repeat split; auto. eapply in_tagged; eauto.
  - assert (Y : exists h, n_hist (nstep workers body n (NTake src p)) = n_hist n ++ h /\ length (report n (NTake src p)) <= length (ends h) /\
      (nobody_dead (nstep workers body n (NTake src p)) -> length (ends h) = length (report n (NTake src p))) /\
      (forall t dest q, In (t, HSubmit dest q) h -> exists p0 d fr, NTake src p = NRun p0 d /\ p_cur (n_proc n p0) = Some fr /\ t = f_run fr)).
    { cbn [nstep]. destruct (n_chan n src p) as [|m ms]; [apply Z; auto|]. destruct (p_cur (n_proc n p)); [apply Z; auto|].
      destruct (Nat.eqb p 0 || n_dead n p); [apply Z; auto|]. apply L; auto. }
    destruct (n_chan n src p) as [|[] ms] eqn:C; auto; destruct (p_cur (n_proc n p)); auto. destruct (Nat.eqb p 0 || n_dead n p); apply Z; auto.
  - cbn [nstep]. destruct (n_rep n src p) as [|[d v] rs]; [apply Z; auto|]. destruct (p_cur (n_proc n p)) as [fr|]; [|apply Z; auto].
    destruct (f_get fr) as [g|]; [|apply Z; auto]. destruct (f_act fr) as [r|v' k|f args kwargs m k|ds k]; try (apply Z; auto; fail).
    destruct (receive (n_proc n p) fr g k d v) as [s es] eqn:E. apply receive_events in E as [E1 E2].
    exists (map (fun e => (f_run fr, e)) es). cbn [put_proc n_hist report]. rewrite E1. repeat split; auto.
    intros t dest q I. exfalso. assert (J : In q (submits (map (fun e => (f_run fr, e)) es))) by (apply in_submits; eauto). rewrite E2 in J. exact J.
Qed.

End Step.
