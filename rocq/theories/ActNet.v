(** With actors: messages are neither lost nor duplicated, and requests are answered (C63). *)
From Verif Require Import Lib ValModel ShmModel PushModel PushProofs WorkerModel WorkerSpec WorkerLog WorkerTrace
  WorkerAnswer WorkerOrder WorkerThms WorkerSends WorkerWant WorkerDone MonModel ClusterModel ClusterSpec ClusterSeq ClusterProofs
  ClusterCount ClusterRoot ClusterNet ActModel ActSpec ActGives ActProofs ActCount ActRoot.
From Coq Require Import Permutation.

Notation tasks_of := (map as_task).

Lemma put_as prog d v : In (RPut d v) (tasks_of prog) <-> In (GP (RPut d v)) prog.
Proof.
  rewrite in_map_iff. split.
  - intros (p & E & I). destruct p as [o|]; simpl in E; [subst; auto | discriminate].
  - intros I. eexists; split; eauto. auto.
Qed.

Lemma intro_as prog : introduced (tasks_of prog) = gintroduced prog.
Proof. induction prog as [|[o|dest nd q] prog IH]; auto; simpl; unfold introduced, gintroduced in *; simpl; rewrite IH; auto. Qed.

Lemma made_as prog s d : made (tasks_of prog) s d <-> exists q, In (s, q) (gsubmitted prog) /\ In d (out_ids (q_out q)).
Proof.
  split.
  - intros (q & I & D). apply in_map_iff in I as (p & E & I). destruct p as [o|dest nd q0]; simpl in E.
    + subst o. exists q. split; auto. apply in_gsub; auto.
    + injection E as -> <-. exists q0. split; auto. apply in_gsub; eauto.
  - intros (q & I & D). apply in_flat_map in I as (p & I & X).
    destruct p as [[]|dest nd q0]; simpl in X; try tauto; destruct X as [X|[]]; apply pair_inj in X as [-> ->].
    + exists q. split; auto. apply in_map_iff. eexists; split; eauto. auto.
    + exists (as_req nd q). split; auto. apply in_map_iff. eexists; split; eauto. auto.
Qed.

(** What a valid program says about one request. *)
Lemma request_ok workers prog a p b dest q : valid workers (tasks_of prog) -> prog = a ++ p :: b -> gsubmitted [p] = [(dest, q)] ->
  In dest workers /\ (forall d, In d (qrefs q) -> In d (introduced (tasks_of a))).
Proof.
  intros V E S.
  assert (G : exists q', as_task p = RSubmit dest q' /\ qrefs q' = qrefs q).
  { destruct p as [[]|]; simpl in S; try discriminate; apply (f_equal (hd (0, q))) in S; simpl in S; apply pair_inj in S as [-> ->]; eexists; split; reflexivity. }
  destruct G as (q' & Eq & Rq).
  destruct (v_sub _ _ V (tasks_of a) dest q' (tasks_of b)) as (X & _ & Y).
  - rewrite E, (map_app as_task). simpl. rewrite Eq. auto.
  - rewrite Rq in Y. auto.
Qed.

Lemma task_fun workers prog w q : valid workers (tasks_of prog) -> In (GP (RSubmit w q)) prog ->
  exists fd f, q_fn q = FRef fd /\ In (GP (RPut fd f)) prog.
Proof.
  intros V I. apply in_split in I as (a & b & E).
  destruct (v_sub _ _ V (tasks_of a) w q (tasks_of b)) as (_ & (fd & Fd & P) & _).
  - rewrite E, (map_app as_task). auto.
  - apply in_puts in P as (f & P). exists fd, f. split; auto. apply put_as in P. rewrite E. apply in_or_app; auto.
Qed.

Lemma gsub_split prog dest q : In (dest, q) (gsubmitted prog) -> exists a p b, prog = a ++ p :: b /\ gsubmitted [p] = [(dest, q)].
Proof.
  intros I. apply in_flat_map in I as (p & I & X). apply in_split in I as (a & b & E). exists a, p, b. split; auto.
  destruct p as [[]|]; simpl in *; try tauto; destruct X as [X|[]]; congruence.
Qed.

Lemma fop_inv {A} (P : A -> A -> Prop) x l : ForallOrdPairs P (x :: l) -> Forall (P x) l /\ ForallOrdPairs P l.
Proof. intros H. inversion H; auto. Qed.

Lemma ford_requests (P : request -> request -> Prop) ms : ForallOrdPairs P (requests ms) ->
  ForallOrdPairs P (execs ms) /\ ForallOrdPairs P (actors ms).
Proof.
  assert (Se : forall ms, incl (execs ms) (requests ms)).
  { intros l x X. apply in_flat_map in X as (m & M & X). apply in_flat_map. exists m. split; auto. destruct m; simpl in *; tauto. }
  assert (Sa : forall ms, incl (actors ms) (requests ms)).
  { intros l x X. apply in_flat_map in X as (m & M & X). apply in_flat_map. exists m. split; auto. destruct m; simpl in *; tauto. }
  induction ms as [|m ms IH]; intros H; [split; constructor|].
  destruct m; simpl in *; auto; apply fop_inv in H as [F O]; destruct (IH O) as [A B];
    split; auto; apply FOP_cons; auto; apply Forall_forall; intros y Y; rewrite Forall_forall in F; apply F; first [apply Se; exact Y | apply Sa; exact Y].
Qed.

(** Announcements, seen from the messages with tasks in the place of calls. *)
Lemma announced_conv ndf ms : (forall q, In (WActor q) ms -> exists m, q_fn q = FMethod m) ->
  announced (map (conv ndf) ms) -> announced ms.
Proof.
  intros M A a m b q E Hm.
  assert (E2 : map (conv ndf) ms = map (conv ndf) a ++ conv ndf m :: map (conv ndf) b) by (rewrite E, map_app; auto).
  assert (P : forall d v, In (WPut d v) (map (conv ndf) a) -> In (WPut d v) a).
  { intros d v I. apply in_map_iff in I as (x & X & I). destruct x; simpl in X; try discriminate. congruence. }
  assert (O : forall d r, In (WOwner d r) (map (conv ndf) a) -> In (WOwner d r) a).
  { intros d r I. apply in_map_iff in I as (x & X & I). destruct x; simpl in X; try discriminate. congruence. }
  destruct Hm as [->| ->].
  - destruct (A _ _ _ q E2) as [A1 A2]; simpl; auto. split.
    + intros d D. destruct (A1 d D) as [(v & X)|(r & X)]; eauto.
    + intros d D. destruct (A2 d D) as (f & X); eauto.
  - destruct (A _ _ _ (as_req (ndf (q_id q)) q) E2) as [A1 _]; simpl; auto. split.
    + intros d D. destruct (A1 d D) as [(v & X)|(r & X)]; eauto.
    + intros d D. destruct (M q) as (m & X); [|congruence]. rewrite E. apply in_or_app; simpl; auto.
Qed.

Section Net.
Variable workers : list rank.
Variable body : val -> val -> val -> result.
Variable mbody : list call -> call -> result.
Variable is_async : callee -> bool.
Hypothesis body_ok : forall f a k, no_refs_returned (body f a k).
Hypothesis mbody_ok : forall h c, no_refs_returned (mbody h c).
Hypothesis all_sync : forall c, is_async c = false.
Hypothesis no_root : ~ In 0 workers.
Variable ndf : nat -> dataid.
Notation AB := (AB body mbody is_async).
Notation AK := (AK workers).
Notation aokm := (aokm body mbody is_async).
Notation img := (img ndf).
Notation wrun w := (wrun w body mbody is_async).

(** What was sent has been taken or is under way. *)
Definition aflow (c : cst) : Prop := forall s d, sends_to s (c_in c d) ++ c_chan c s d = stream c s d.

Record AN (prog : list gprog) (c : cst) : Prop := {
  an_alive : forall w, c_dead c w = false;
  an_stream : aflow c;
  an_back : forall w a s d v b w1, w <> 0 -> c_in c w = a ++ (s, WPut d v) :: b -> made (tasks_of prog) w d ->
    wrun w winit (map snd a) = Some w1 -> store w1 d <> None
}.

Section Snap.
Variable prog : list gprog.
Variable c : cst.
Hypothesis V : valid workers (tasks_of prog).
Hypothesis GV : gvalid prog.
Hypothesis R : greturns_enough body mbody prog.
Hypothesis B : AB prog c.
Hypothesis K : AK prog c.
Hypothesis L : LR workers (img prog c).
Hypothesis streams : aflow c.
Notation E := (gives body mbody prog (hist c)).
Notation tp := (tasks_of prog).

Lemma a_msgs w m : In (w, m) (c_out c) -> sound_msg (img prog c) w (conv ndf m).
Proof using L. intros I. apply (lr_msgs _ _ L). apply in_conv; auto. Qed.

Lemma a_dest w m : In (w, m) (c_out c) -> In w workers.
Proof using L. intros I. apply (lr_dest _ _ L w (conv ndf m)). apply in_conv; auto. Qed.

Lemma a_reqs w : requests (sends_to w (c_out c)) = for_rank w (gsubmitted prog).
Proof using K L. destruct (ak_prog _ _ _ K) as [X|X]; auto. exfalso. apply (lr_noerr _ _ L). exact X. Qed.

Lemma in_astream s w m : In (s, m) (c_in c w) \/ In m (c_chan c s w) -> In m (stream c s w).
Proof using streams. intros H. rewrite <- streams, in_app_iff, in_sends. auto. Qed.

Lemma box_ok w x : In x (map snd (c_in c w)) -> aokm prog (hist c) w x.
Proof using B. intros X. apply in_map_iff in X as ([s y] & <- & X). eapply ab_in; eauto. Qed.

Lemma facts w : w <> 0 ->
  WI body mbody (c_work c w) /\ SV (c_work c w) /\ inputs (log (c_work c w)) = map snd (c_in c w) /\
  AI w (c_work c w) /\ (forall d v, stored (log (c_work c w)) d v -> E d v).
Proof using B GV body_ok mbody_ok.
  intros N.
  destruct (worker_gives body mbody is_async body_ok mbody_ok prog (hist c) w _ _ GV (hist_once _ _ _ body_ok mbody_ok _ _ GV B) (box_ok w) (ab_run _ _ _ _ _ B w N))
    as (W & S & I & _ & A).
  { exists []. rewrite app_nil_r. auto. }
  destruct (ainbox body mbody is_async body_ok mbody_ok prog (hist c) w _ GV (box_ok w)) as (Nr & _).
  split; auto. split; auto. split; auto. split; auto.
  apply (run_ai w body mbody is_async body_ok mbody_ok (map snd (c_in c w))); auto. apply B; auto.
Qed.

Lemma taken w m : w <> 0 -> In (EvIn m) (log (c_work c w)) <-> exists s, In (s, m) (c_in c w).
Proof using B GV body_ok mbody_ok.
  intros N. destruct (facts w N) as (_ & _ & I & _). rewrite <- in_inputs, I, in_map_iff. split.
  - intros ([s y] & <- & Y). eauto.
  - intros (s & Y). exists (s, m). auto.
Qed.

Lemma plain_stream s w m : In m (stream c s w) -> plain m.
Proof using L.
  intros I. apply stream_cases in I as [[-> I]|[_ [(d & v & b & -> & _)|(d & -> & _)]]]; simpl; auto.
  apply a_msgs in I. destruct m; simpl in *; auto.
Qed.

Lemma no_clean w ds : w <> 0 -> ~ In (EvIn (WClean ds)) (log (c_work c w)).
Proof using B L GV body_ok mbody_ok streams.
  intros N I. apply taken in I as (s & I); auto. apply (plain_stream s w (WClean ds)). apply in_astream; auto.
Qed.

Lemma stored_store w d v : w <> 0 -> stored (log (c_work c w)) d v -> store (c_work c w) d <> None.
Proof using B L GV body_ok mbody_ok streams.
  intros N S. destruct (facts w N) as (_ & _ & _ & A & _). apply A. eapply stored_available; eauto.
  intros ds. apply no_clean; auto.
Qed.

Lemma told_made w d o : w <> 0 -> In (EvIn (WOwner d o)) (log (c_work c w)) -> made tp o d.
Proof using B L GV body_ok mbody_ok streams.
  intros N I. apply taken in I as (s & I); auto.
  assert (X : In (WOwner d o) (stream c s w)) by (apply in_astream; auto).
  apply stream_cases in X as [[-> X]|[_ [(? & ? & ? & X & _)|(? & X & _)]]]; try discriminate.
  apply a_msgs in X. exact X.
Qed.

Lemma get_made w d o : w <> 0 -> In (EvGet o d) (log (c_work c w)) -> made tp o d /\ o <> w.
Proof using B L GV body_ok mbody_ok streams.
  intros N I. destruct (facts w N) as (_ & _ & _ & A & _). apply in_split in I as (l1 & l2 & I).
  destruct (ai_gets _ _ A _ _ _ _ I) as (_ & T & Ne & _). split; auto. apply (told_made w); auto.
  apply told_in in T. rewrite I. apply in_or_app; auto.
Qed.

Lemma asked_made s w r d b : In (WGet r d b) (stream c s w) -> made tp w d /\ r = s.
Proof using B L GV body_ok mbody_ok streams.
  intros I. apply stream_cases in I as [[-> I]|[N [(? & ? & ? & X & _)|(d' & X & I)]]]; try discriminate.
  - apply a_msgs in I as [-> M]. auto.
  - injection X as -> -> ->. apply get_made in I as [M _]; auto.
Qed.

(** A value sent by a worker was asked for; the worker computed it. *)
Lemma answer_made s w d v b : s <> 0 -> In (EvPut w d v b) (log (c_work c s)) ->
  made tp s d /\ stored (log (c_work c s)) d v /\ exists b', In (w, WGet w d b') (c_in c s).
Proof using B L GV body_ok mbody_ok streams.
  intros N I. destruct (facts s N) as (_ & S & _). apply (sv_put _ S) in I as [St A].
  apply asked_in in A as (b' & A). apply taken in A as (x & A); auto.
  destruct (asked_made x s w d b') as [M <-]; [apply in_astream; auto|]. eauto.
Qed.

Lemma back s w d v : w <> 0 -> In (WPut d v) (stream c s w) -> made tp w d -> store (c_work c w) d <> None.
Proof using B L V GV body_ok mbody_ok streams.
  intros N I M. assert (Nf := v_fresh _ _ V). apply stream_cases in I as [[-> I]|[Ns [(d' & v' & b & X & I)|(? & X & _)]]]; try discriminate.
  - apply a_msgs in I as [P|(s' & v' & M' & I)].
    + exfalso. eapply made_not_put; eauto.
    + assert (s' = w) by (eapply made_unique; eauto). subst s'.
      assert (X : In (WPut d v') (stream c w 0)) by (apply in_astream; auto).
      apply stream_cases in X as [[-> _]|[_ [(d' & v'' & b & X & J)|(? & X & _)]]]; try discriminate; [tauto|].
      injection X as <- <-. apply answer_made in J as (_ & S & _); auto. eapply stored_store; eauto.
  - injection X as <- <-. apply answer_made in I as (M' & S & _); auto.
    assert (s = w) by (eapply made_unique; eauto). subst s. eapply stored_store; eauto.
Qed.

Lemma put_given d f f' : In (GP (RPut d f)) prog -> E d f' -> f' = f.
Proof using B GV body_ok mbody_ok.
  intros P G. apply (gives_fun body mbody prog (hist c) GV (hist_once _ _ _ body_ok mbody_ok _ _ GV B) d); auto.
  apply gives_put; auto.
Qed.

(** An inbox that is part of what was sent is harmless. *)
Lemma box_safe w X : w <> 0 -> (forall s m, In (s, m) X -> In m (stream c s w) /\ aokm prog (hist c) w m) ->
  (exists rest, sends_to 0 X ++ rest = sends_to w (c_out c)) ->
  wrun w winit (map snd X) <> None.
Proof using B L R V GV body_ok mbody_ok.
  intros N H (rest & Pf).
  assert (Ok : forall m, In m (map snd X) -> aokm prog (hist c) w m).
  { intros m M. apply in_map_iff in M as ([s y] & <- & Y). apply (H s); auto. }
  destruct (ainbox body mbody is_async body_ok mbody_ok prog (hist c) w _ GV Ok) as (Nr & _).
  assert (Nq : forall s m, In (s, m) X -> s <> 0 -> requests [m] = []).
  { intros s m I Ns. apply H in I as [I _]. eapply not_request; eauto. }
  assert (Rq : forall q, In q (requests (map snd X)) -> In (GP (RSubmit w q)) prog \/ exists nd, In (GC w nd q) prog).
  { intros q Q. apply requests_in in Q as [Q|Q]; apply Ok in Q; simpl in Q; auto. }
  assert (Fn : forall q d, In q (requests (map snd X)) -> q_fn q = FRef d ->
    exists f, In (GP (RSubmit w q)) prog /\ In (GP (RPut d f)) prog).
  { intros q d Q Fd. apply Rq in Q as [Q|(nd & Q)].
    - destruct (task_fun workers prog w q V Q) as (fd & f & Fd' & P). assert (fd = d) by congruence. subst fd. eauto.
    - destruct (gv_call _ GV _ _ _ Q) as (m & Fm). congruence. }
  apply survives; auto.
  - intros ds I. apply in_map_iff in I as ([s y] & Ey & Y). simpl in Ey. subst y. apply H in Y as [Y _].
    apply (plain_stream s w (WClean ds)); auto.
  - apply announced_from; auto. apply (announced_conv ndf).
    + intros q Q. assert (Q2 : In (0, WActor q) X) by (apply in_sends; auto).
      apply H in Q2 as [_ (nd & Q2)]. eapply gv_call; eauto.
    + apply (announced_prefix _ (map (conv ndf) rest)). rewrite <- map_app, Pf, <- conv_sends. apply (lr_ann _ _ L).
  - split.
    + intros q Q. destruct (Rq q Q) as [Q'|(nd & Q')].
      * destruct (task_fun workers prog w q V Q') as (fd & f & Fd & P). apply (proj1 R w q fd f (VLeaf 0) (VLeaf 0)); auto.
      * destruct (gv_call _ GV _ _ _ Q') as (m & Fm). apply (proj2 R w nd q m [] (VLeaf 0) (VLeaf 0)); auto.
    + intros q d f a k Q Fd P. destruct (Fn q d Q Fd) as (f' & Sb & P').
      assert (f = f') by (apply Ok in P; simpl in P; eapply put_given; eauto). subst f'.
      destruct (proj1 R w q d f a k Sb Fd P') as [No En].
      destruct (q_out q), (body f a k); simpl in *; auto; try congruence.
      destruct En as (vs & -> & _). discriminate.
    + intros q m h a k Q Fd. destruct (Rq q Q) as [Q'|(nd & Q')].
      * destruct (task_fun workers prog w q V Q') as (fd & f & Fd' & P). congruence.
      * destruct (proj2 R w nd q m h a k Q' Fd) as [No En].
        destruct (q_out q), (mbody h {| c_method := m; c_args := a; c_kwargs := k |}); simpl in *; auto; try congruence.
        destruct En as (vs & -> & _). discriminate.
    + intros q q' d Q Q' Fd. destruct (Fn q d Q Fd) as (f & _ & P). intros I.
      apply (made_not_put tp w d); [apply V | | apply in_puts; exists f; apply put_as; auto].
      apply made_as. exists q'. split; auto. apply in_gsub, Rq; auto.
Qed.

Lemma box_prefix w : exists rest, sends_to 0 (c_in c w) ++ rest = sends_to w (c_out c).
Proof using streams. exists (c_chan c 0 w). apply (streams 0 w). Qed.

Lemma box_requests w : exists rest, requests (map snd (c_in c w)) ++ rest = for_rank w (gsubmitted prog).
Proof using K L streams.
  exists (requests (c_chan c 0 w)). rewrite requests_from.
  - rewrite <- requests_app, streams. apply a_reqs.
  - intros s m I. apply (not_request c s w). apply in_astream; auto.
Qed.

Lemma box_submitted w q : w <> 0 -> In q (received (log (c_work c w))) -> In (w, q) (gsubmitted prog).
Proof using B K L GV body_ok mbody_ok streams.
  intros N Q. destruct (facts w N) as (_ & _ & I & _). rewrite received_inputs, I in Q.
  destruct (box_requests w) as (rest & X). apply in_for_rank. rewrite <- X. apply in_or_app; auto.
Qed.

Lemma box_ids w : w <> 0 -> NoDup (map q_id (received (log (c_work c w)))).
Proof using B GV body_ok mbody_ok.
  intros N. destruct (facts w N) as (_ & _ & I & _). rewrite received_inputs, I.
  assert (X := ab_once _ _ _ _ _ B w). rewrite map_app in X. eapply ShmRaceProofs.nodup_app_l; eauto.
Qed.

Lemma same_id w q q' : w <> 0 -> In q (received (log (c_work c w))) -> In q' (received (log (c_work c w))) ->
  q_id q = q_id q' -> q = q'.
Proof using B GV body_ok mbody_ok.
  intros N Q Q' X. apply (map_nodup_inj q_id (received (log (c_work c w)))); auto. apply box_ids; auto.
Qed.

Lemma box_enough w : w <> 0 -> all_enough (log (c_work c w)).
Proof using B K L R V GV body_ok mbody_ok streams.
  intros N n r q En Q Id. destruct (facts w N) as (W & _ & _ & _ & Ag).
  apply in_split in En as (l1 & l2 & El).
  destruct (good_end body mbody _ (wi_good _ _ _ W) _ _ _ _ El)
    as (l0 & q' & cl & a & k & st & Ei & (X1 & X2 & _) & _ & Re & -> & _).
  assert (Q' : In q' (received (log (c_work c w)))).
  { rewrite El, <- app_assoc, received_app. apply in_or_app; auto. }
  assert (q' = q) by (apply (same_id w); auto; congruence). subst q'.
  assert (Sb := box_submitted w q N Q). apply gsub_split in Sb as (x & p & y & Ep & Sp).
  assert (Ip : In p prog) by (rewrite Ep; apply in_or_app; simpl; auto).
  rewrite Re. unfold result_of. destruct (failed_arg a k); [destruct (q_out q); simpl; auto|].
  destruct p as [o|dest nd q0].
  - destruct o; simpl in Sp; try discriminate. apply (f_equal (hd (0, q))) in Sp. simpl in Sp. apply pair_inj in Sp as [-> ->].
    destruct (task_fun workers prog w q V Ip) as (fd & f & Fd & P).
    unfold callee_of in X2. rewrite Fd in X2. destruct X2 as (f' & Sf & ->).
    assert (Ef : E fd f').
    { apply Ag. rewrite El, <- app_assoc, stored_app. auto. }
    rewrite (put_given fd f f' P Ef). apply (proj1 R w q fd f a k); auto.
  - simpl in Sp. apply (f_equal (hd (0, q))) in Sp. simpl in Sp. apply pair_inj in Sp as [-> ->].
    destruct (gv_call _ GV _ _ _ Ip) as (m & Fm). unfold callee_of in X2. rewrite Fm in X2. subst cl.
    apply (proj2 R w nd q m _ a k); auto.
Qed.

(** The outputs of a task that has ended are stored where it was executed. *)
Lemma ended_stored w q d : w <> 0 -> In q (received (log (c_work c w))) -> In (q_id q) (ended (log (c_work c w))) ->
  In d (out_ids (q_out q)) -> store (c_work c w) d <> None.
Proof using B K L R V GV body_ok mbody_ok streams.
  intros N Q En D. destruct (facts w N) as (W & _). assert (Be := box_enough w N).
  unfold ended in En. apply in_flat_map in En as (e & I & X). destruct e; simpl in X; try tauto.
  destruct X as [->|[]]. assert (Eq := Be _ _ _ I Q eq_refl).
  apply in_split in I as (l1 & l2 & El).
  destruct (good_end body mbody _ (wi_good _ _ _ W) _ _ _ _ El)
    as (l0 & q' & cl & a & k & st & Ei & (X1 & X2 & _) & _ & Re & -> & Rs & l3 & -> & _).
  assert (Q' : In q' (received (log (c_work c w)))).
  { rewrite El, <- app_assoc, received_app. apply in_or_app; auto. }
  assert (q' = q) by (apply (same_id w); auto; congruence). subst q'.
  assert (In d (map fst st)).
  { clear - Rs D Eq. destruct (q_out q) as [|d'|ds], r as [v|x]; simpl in *; try tauto.
    - destruct Rs as [[done Rs]|[Rs _]]; [|discriminate]. apply Some_inj in Rs. apply pair_inj in Rs as [<- _]. auto.
    - destruct Rs as [[done Rs]|[Rs _]]; [|discriminate]. apply Some_inj in Rs. apply pair_inj in Rs as [<- _]. auto.
    - destruct Eq as (vs & It & Le). rewrite It in Rs. destruct Rs as [[done Rs]|[Rs _]]; [|discriminate].
      apply Some_inj in Rs. apply pair_inj in Rs as [<- _]. revert vs Le It. induction ds as [|y ds IH]; intros vs Le It; [destruct D|].
      destruct vs as [|z vs]; simpl in Le; [lia|]. simpl. destruct D as [<-|D]; auto. right.
      clear It. revert vs Le. clear IH. revert D. induction ds as [|u ds IH]; intros D vs Le; [destruct D|].
      destruct vs as [|t vs]; simpl in Le; [lia|]. simpl. destruct D as [<-|D]; auto. right. apply IH; auto. lia.
    - destruct Rs as [[done Rs]|[Rs _]]; [|discriminate]. apply Some_inj in Rs. apply pair_inj in Rs as [<- _].
      rewrite map_map, map_id. auto. }
  apply in_map_iff in H as ([d' v] & E1 & Sv). simpl in E1. subst d'.
  apply (stored_store w d v); auto. right. rewrite El. apply in_or_app. right. right.
  apply in_or_app. left. apply in_map_iff. exists (d, v). auto.
Qed.

Hypothesis backs : forall w a s d v b w1, w <> 0 -> c_in c w = a ++ (s, WPut d v) :: b -> made tp w d ->
  wrun w winit (map snd a) = Some w1 -> store w1 d <> None.

Lemma box_gi w : w <> 0 -> GI (fun d => made tp w d) (fun _ => False) (c_work c w).
Proof using B K L R V GV backs body_ok mbody_ok all_sync streams.
  intros N. destruct (ainbox body mbody is_async body_ok mbody_ok prog (hist c) w _ GV (box_ok w)) as (Nr & _).
  apply (gi_run (fun d => made tp w d) w body mbody is_async body_ok mbody_ok all_sync (map snd (c_in c w)) winit); auto.
  - apply wi_init.
  - apply Forall_forall. intros m M. apply in_map_iff in M as ([s y] & <- & Y).
    apply (plain_stream s w). apply in_astream; auto.
  - intros s d b M. apply in_map_iff in M as ([x y] & Ey & Y). simpl in Ey. subst y.
    destruct (asked_made x w s d b) as [M _]; auto. apply in_astream; auto.
  - intros a d v b w1 Ea M Ru. apply map_eq_app in Ea as (La & Lb & El & <- & Eb).
    destruct Lb as [|[s x] Lb]; [discriminate|]. simpl in Eb. injection Eb as -> _. eapply backs; eauto.
  - apply gi_init.
  - apply B; auto.
  - apply box_enough; auto.
Qed.

(** A request for something stored has been answered. *)
Lemma answers_all w d s : w <> 0 -> In (d, s) (asked (log (c_work c w))) -> store (c_work c w) d <> None ->
  exists v b, In (EvPut s d v b) (log (c_work c w)).
Proof using B K L R V GV backs body_ok mbody_ok all_sync streams.
  intros N I S. assert (G := box_gi w N). apply answered_in. rewrite (gi_sent _ _ _ G).
  destruct (gi_none_lost _ _ _ G _ I) as [X|X]; auto. exfalso.
  apply (gi_pending _ _ _ G) in X as (_ & _ & [X|X]); auto.
Qed.

Definition own (d : dataid) : rank :=
  match find (fun p => did_in d (out_ids (q_out (snd p)))) (gsubmitted prog) with Some p => fst p | None => 0 end.

Lemma own_made s d : made tp s d -> own d = s.
Proof using V.
  intros M. unfold own. destruct (find _ (gsubmitted prog)) as [[s' q']|] eqn:F.
  - apply find_some in F as [I F]. simpl in *. apply did_in_In in F.
    apply (made_unique tp _ _ d); auto; [apply V|]. apply made_as. exists q'; auto.
  - exfalso. apply made_as in M as (q & I & D).
    assert (X := find_none _ _ F _ I). simpl in X. apply did_in_false in X. auto.
Qed.

Lemma box_wt w : w <> 0 -> WT w own (c_work c w).
Proof using B L V GV body_ok mbody_ok streams.
  intros N. destruct (ainbox body mbody is_async body_ok mbody_ok prog (hist c) w _ GV (box_ok w)) as (Nr & _).
  apply (wt_run w body mbody is_async body_ok mbody_ok own (map snd (c_in c w)) winit); auto.
  - apply wi_init.
  - apply Forall_forall. intros m M. apply in_map_iff in M as ([s y] & <- & Y). simpl.
    assert (Ys : In y (stream c s w)) by (apply in_astream; auto). assert (P := plain_stream s w y Ys).
    destruct y; simpl in *; auto. symmetry. apply own_made. apply (told_made w); auto. apply taken; eauto.
  - apply wt_init.
  - apply B; auto.
Qed.

Lemma ordered_all w : ForallOrdPairs independent (for_rank w (gsubmitted prog)).
Proof using V.
  assert (G : forall suf pre, prog = pre ++ suf -> ForallOrdPairs independent (for_rank w (gsubmitted suf))).
  { induction suf as [|o suf IH]; intros pre Ep; [constructor|].
    assert (IH' := IH (pre ++ [o]) ltac:(rewrite <- app_assoc; auto)).
    assert (Go : gsubmitted [o] = [] \/ exists dest q, gsubmitted [o] = [(dest, q)]).
    { destruct o as [[]|]; simpl; eauto. }
    change (o :: suf) with ([o] ++ suf). rewrite gsub_app, for_rank_app. destruct Go as [Go|(dest & q & Go)]; [rewrite Go; auto|].
    destruct (request_ok workers prog pre o suf dest q V Ep Go) as (_ & Rf). rewrite Go.
    unfold for_rank at 1. cbn [filter fst]. destruct (dest =? w); auto. simpl. constructor; auto.
    apply Forall_forall. intros q' Q' d D D'. apply in_for_rank in Q'. apply Rf in D.
    assert (Nf := v_fresh _ _ V). rewrite Ep, (map_app as_task), introduced_app in Nf. apply (nodup_sep _ _ d Nf D).
    apply (made_intro _ w). change (tasks_of (o :: suf)) with (tasks_of ([o] ++ suf)). rewrite (map_app as_task).
    destruct (proj2 (made_as suf w d)) as (q2 & I2 & D2); [exists q'; auto|]. exists q2. split; auto. apply in_or_app; auto. }
  apply (G prog []). auto.
Qed.

(** Nothing is under way. *)
Hypothesis sep : separate prog.
Hypothesis quiet : idle c.

Lemma delivered s d m : In m (stream c s d) -> In (s, m) (c_in c d).
Proof using quiet streams. intros I. rewrite <- streams, quiet, app_nil_r in I. apply in_sends; auto. Qed.

Lemma got_request dest q : In (dest, q) (gsubmitted prog) -> In q (received (log (c_work c dest))).
Proof using B K L V GV body_ok mbody_ok no_root quiet streams.
  intros I. assert (N : dest <> 0).
  { intros ->. apply gsub_split in I as (a & p & b & Ep & Sp). destruct (request_ok workers prog a p b 0 q V Ep Sp) as [X _]. auto. }
  destruct (facts dest N) as (_ & _ & Ei & _). rewrite received_inputs, Ei.
  assert (X : In q (requests (sends_to dest (c_out c)))) by (rewrite a_reqs; apply in_for_rank; auto).
  change (sends_to dest (c_out c)) with (stream c 0 dest) in X. rewrite <- streams, quiet, app_nil_r in X.
  rewrite requests_from; auto. intros s m Im. apply (not_request c s dest). apply in_astream; auto.
Qed.

Lemma all_ended n : forall a p b dest q, length a < n -> prog = a ++ p :: b -> gsubmitted [p] = [(dest, q)] ->
  In (q_id q) (ended (log (c_work c dest))).
Proof using B K L R V GV backs body_ok mbody_ok all_sync no_root quiet sep streams.
  induction n as [|n IH]; intros a p b dest q Len Ep Sp; [lia|].
  assert (Nf := v_fresh _ _ V).
  destruct (request_ok workers prog a p b dest q V Ep Sp) as (Dw & Rf).
  assert (N : dest <> 0) by (intros ->; auto).
  assert (Sub : In (dest, q) (gsubmitted prog)).
  { rewrite Ep, gsub_app. apply in_or_app. right. change (p :: b) with ([p] ++ b). rewrite gsub_app, Sp. simpl; auto. }
  assert (Rec := got_request dest q Sub).
  destruct (facts dest N) as (W & _ & Ei & Ai & _).
  destruct (worker_holds body mbody is_async body_ok mbody_ok prog c dest GV B N) as (_ & Pm).
  destruct (ainbox body mbody is_async body_ok mbody_ok prog (hist c) dest _ GV (box_ok dest)) as (Nr & _).
  assert (Ru := ab_run _ _ _ _ _ B dest N).
  destruct (run_blocks dest body mbody is_async body_ok mbody_ok all_sync _ _ Nr Ru) as [_ Rn].
  rewrite Rn in Pm. simpl in Pm. rewrite app_nil_r in Pm.
  assert (Iq : In (q_id q) (map q_id (requests (map snd (c_in c dest))))).
  { apply in_map. rewrite <- Ei, <- received_inputs. auto. }
  apply (Permutation_in _ Pm) in Iq. apply in_app_or in Iq as [Iq|Iq]; auto. exfalso.
  apply in_map_iff in Iq as (q' & Id & Q'). apply in_app_or in Q'.
  destruct (pending_kept dest body mbody is_async body_ok mbody_ok _ _ Nr Ru q' Q') as (q0 & Q0 & E0 & _ & _ & F1 & F2).
  assert (q0 = q) by (apply (same_id dest); auto; congruence). subst q0.
  assert (Kind : forall x, (In x (execs (map snd (c_in c dest))) -> In (GP (RSubmit dest x)) prog) /\
    (In x (actors (map snd (c_in c dest))) -> exists nd, In (GC dest nd x) prog)).
  { intros x. split; intros X; apply in_flat_map in X as (m & M & X); apply box_ok in M; destruct m; simpl in X, M; try tauto;
      destruct X as [<-|[]]; auto. }
  assert (Nready : exists d, In d (qrefs q') /\ available (log (c_work c dest)) d = false).
  { destruct (box_requests dest) as (rest & Er).
    assert (O := ordered_all dest). rewrite <- Er in O. apply ord_prefix in O. apply ford_requests in O as [O1 O2].
    apply (no_ready dest body mbody is_async body_ok mbody_ok _ _ Nr Ru); auto.
    - intros i I. apply in_map_iff in I as ([s y] & Ey & Y). simpl in Ey. subst y.
      apply (plain_stream s dest (WFinish i)). apply in_astream; auto.
    - intros x y X Y. apply Kind in X. apply Kind in Y as (nd & Y). apply (sep dest x nd y X Y).
    - intros x y X Y. apply Kind in Y. apply Kind in X as (nd & X). apply (sep dest y nd x Y X). }
  destruct Nready as (d & Dq & Un).
  assert (Clean : forall x v, stored (log (c_work c dest)) x v -> refs v = []).
  { intros x v Sx. destruct (facts dest N) as (_ & _ & _ & _ & Ag). apply Ag in Sx. eapply gives_clean; eauto. }
  assert (Dq0 : In d (qrefs q)).
  { unfold qrefs in *. apply in_app_or in Dq as [D|D]; apply in_or_app; [left|right].
    - eapply (fill_refs _ _ Clean); eauto.
    - eapply (fill_refs _ _ Clean); eauto. }
  assert (Snone : store (c_work c dest) d = None).
  { destruct (store (c_work c dest) d) eqn:Sd; auto. exfalso.
    assert (X : store (c_work c dest) d <> None) by congruence. apply Ai in X. congruence. }
  assert (Wt := box_wt dest N).
  assert (Cov : covered dest (c_work c dest) d).
  { destruct Q' as [Q'|Q']; [apply (wt_pend _ _ _ Wt q') | apply (wt_apend _ _ _ Wt q')]; auto. }
  assert (Here : forall o, made tp o d -> exists q2, In q2 (received (log (c_work c o))) /\
     In (q_id q2) (ended (log (c_work c o))) /\ In d (out_ids (q_out q2)) /\ o <> 0).
  { intros o M. assert (M' : made (tasks_of a) o d).
    { rewrite Ep, (map_app as_task) in M, Nf. apply (made_prefix _ (tasks_of (p :: b))); auto. }
    apply made_as in M' as (q2 & I2 & D2). exists q2.
    assert (I2' : In (o, q2) (gsubmitted prog)) by (rewrite Ep, gsub_app; apply in_or_app; auto).
    split; [apply got_request; auto|].
    apply gsub_split in I2 as (a1 & p1 & a2 & Ea & Sa). split.
    - apply (IH a1 p1 (a2 ++ p :: b) o q2); auto.
      + rewrite Ea, app_length in Len. simpl in Len. lia.
      + rewrite Ep, Ea, <- app_assoc. auto.
    - split; auto. intros ->. apply no_root. apply (made_worker workers tp 0 d); auto. }
  destruct Cov as [Ow|Rq].
  - rewrite (ai_owner _ _ Ai) in Ow. apply told_in in Ow. apply told_made in Ow; auto.
    destruct (Here _ Ow) as (q2 & R2 & E2 & D2 & _). apply (ended_stored dest q2 d) in D2; auto.
  - apply (ai_reqs _ _ Ai) in Rq. apply outstanding_in in Rq as (o & G). assert (G' := G).
    apply get_made in G' as [M _]; auto.
    destruct (Here _ M) as (q2 & R2 & E2 & D2 & No). apply (ended_stored o q2 d) in D2; auto.
    assert (A : In (d, dest) (asked (log (c_work c o)))).
    { apply asked_in. exists false. apply taken; auto. exists dest. apply delivered.
      unfold stream. destruct (Nat.eqb_spec dest 0); [tauto|]. apply get_outgoing; auto. }
    destruct (answers_all o d dest No A D2) as (v & b' & P).
    assert (X : available (log (c_work c dest)) d = true).
    { apply (stored_available _ _ v); [intros ds; apply no_clean; auto|]. left. apply taken; auto. exists o.
      apply delivered. unfold stream. destruct (Nat.eqb_spec o 0); [tauto|]. eapply put_outgoing; eauto. }
    congruence.
Qed.

Lemma get_ended : c_left c = 0.
Proof using B K L R V GV backs body_ok mbody_ok all_sync no_root quiet sep streams.
  destruct (Nat.eq_dec (c_left c) 0) as [|N]; auto. exfalso.
  assert (Lf := lr_left _ _ L N). change (c_left (img prog c)) with (c_left c) in Lf.
  destruct (missing (img prog c)) as [|d l] eqn:Mi; [simpl in Lf; lia|].
  assert (I : In d (missing (img prog c))) by (rewrite Mi; simpl; auto). unfold missing in I. apply filter_In in I as [I Ns].
  apply negb_true_iff, did_in_false in Ns.
  destruct (lr_ids _ _ L N) as [_ Ids]. destruct (Ids d I) as (Nd & s & G0).
  assert (G : In (s, WGet 0 d true) (c_out c)).
  { apply conv_back in G0 as (m & G & X). destruct m; simpl in X; try discriminate. congruence. }
  assert (M := lr_msgs _ _ L _ _ G0). simpl in M. destruct M as [_ M].
  assert (Sw := made_worker workers tp s d V M). assert (N0 : s <> 0) by (intros ->; auto).
  apply made_as in M as (q & Iq & Dq).
  assert (Rq := got_request s q Iq). apply gsub_split in Iq as (a & p & b & Ep & Sp).
  assert (En := all_ended (S (length a)) a p b s q ltac:(lia) Ep Sp).
  assert (St := ended_stored s q d N0 Rq En Dq).
  assert (A : In (d, 0) (asked (log (c_work c s)))).
  { apply asked_in. exists true. apply taken; auto. exists 0. apply delivered.
    unfold stream. simpl. apply in_sends; auto. }
  destruct (answers_all s d 0 N0 A St) as (v & b' & P).
  assert (X : In (s, WPut d v) (c_in c 0)).
  { apply delivered. unfold stream. destruct (Nat.eqb_spec s 0); [tauto|]. eapply put_outgoing; eauto. }
  apply (lr_recv _ _ L) in X as [X|X]; auto.
Qed.
End Snap.

(** One reply comes at most once, and is expected. *)
Lemma areply_expected prog c src d v ch : valid workers (tasks_of prog) -> gvalid prog -> greturns_enough body mbody prog -> AB prog c ->
  AK prog c -> LR workers (img prog c) -> AN prog c -> c_chan c src 0 = WPut d v :: ch ->
  made (tasks_of prog) src d /\ c_left c <> 0 /\ In d (c_ids c) /\ ~ In d (p_store (c_push c)).
Proof using body_ok mbody_ok all_sync no_root.
  intros V GV R B K L [N1 N2 N3] Ch.
  assert (I : In (WPut d v) (stream c src 0)) by (apply in_astream; auto; rewrite Ch; simpl; auto).
  assert (Ns : src <> 0).
  { intros ->. unfold stream in I. simpl in I. apply in_sends, (a_dest prog c L) in I. auto. }
  apply stream_cases in I as [[-> _]|[_ [(d' & v' & b & X & I)|(? & X & _)]]]; try discriminate; [tauto|].
  injection X as <- <-.
  destruct (answer_made prog c GV B L N2 src 0 d v b Ns I) as (M & _ & b' & A).
  split; auto.
  assert (A' : In (WGet 0 d b') (stream c 0 src)) by (apply in_astream; auto).
  unfold stream in A'. simpl in A'. apply in_sends in A'. apply (in_conv ndf) in A'. simpl in A'.
  destruct (lr_asked _ _ L _ _ _ _ A') as [(s' & v' & M' & C)|X]; auto. exfalso.
  assert (s' = src) by (eapply made_unique; eauto; apply V). subst s'.
  assert (G := box_gi prog c V GV R B K L N2 N3 src Ns).
  assert (Nd : NoDup (vals_in (sends_to src (c_in c 0) ++ c_chan c src 0))).
  { rewrite (N2 src 0). unfold stream. destruct (Nat.eqb_spec src 0); [tauto|]. apply vals_nodup. rewrite (gi_sent _ _ _ G). apply G. }
  rewrite Ch in Nd. unfold vals_in in Nd. rewrite flat_map_app in Nd. simpl in Nd.
  apply (nodup_sep _ _ d Nd); [|simpl; auto].
  apply in_flat_map. exists (WPut d v'). split; simpl; auto. apply in_sends; auto.
Qed.

Lemma reply_img prog c src : img prog (reply c src) = reply (img prog c) src.
Proof using.
  unfold reply. simpl. destruct (c_left c); auto. destruct (c_chan c src 0) as [|m l]; auto. destruct m; auto.
Qed.

Lemma areply_lr prog c src : valid workers (tasks_of prog) -> gvalid prog -> greturns_enough body mbody prog -> AB prog c ->
  AK prog c -> LR workers (img prog c) -> AN prog c -> LR workers (img prog (reply c src)).
Proof using body_ok mbody_ok all_sync no_root.
  intros V GV R B K L N. rewrite reply_img. apply expected_lr; auto. intros d v ch Ch. exact (areply_expected prog c src d v ch V GV R B K L N Ch).
Qed.

Lemma areply_an prog c src : AN prog c -> AN prog (reply c src).
Proof.
  intros N. unfold reply. destruct (c_left c) as [|k] eqn:Lf; auto.
  destruct (c_chan c src 0) as [|m ch] eqn:Ch; auto. destruct m; auto.
  destruct N as [N1 N2 N3]. split; auto.
  - match goal with |- aflow ?c1 => set (c' := c1) end. intros s x.
    change (stream c' s x) with (stream c s x). rewrite <- N2.
    simpl c_in. simpl c_chan. destruct (Nat.eqb_spec x 0) as [->|Nx].
    + rewrite sends_app. destruct (Nat.eq_dec s src) as [->|Nsr].
      * rewrite (drop_hit _ _ _ (WPut d v) ch); auto. rewrite Ch. simpl. rewrite Nat.eqb_refl, <- app_assoc. auto.
      * rewrite drop_keep by congruence. simpl. destruct (Nat.eqb_spec src s); [congruence|]. rewrite app_nil_r. auto.
    + rewrite drop_keep by congruence. auto.
  - intros w a s x y b w1 Nw E. simpl in E. destruct (Nat.eqb_spec w 0); [tauto|]. revert E. apply N3; auto.
Qed.

Lemma deal_lr prog c src dst m ch : dst <> 0 -> LR workers (img prog c) -> LR workers (img prog (deal body mbody is_async c src dst m ch)).
Proof.
  intros N. unfold deal. destruct (wstep dst body mbody is_async (c_work c dst) m) as [w'|]; apply lr_same; auto; simpl.
  destruct dst; auto. tauto.
Qed.

Lemma gtake_lr prog c src dst : LR workers (img prog c) -> LR workers (img prog (gtake body mbody is_async c src dst)).
Proof.
  intros L. unfold gtake. destruct (c_chan c src dst) as [|m ch]; auto.
  destruct (Nat.eqb_spec dst 0) as [|D0]; simpl orb; auto. destruct (c_dead c dst); auto. apply deal_lr; auto.
Qed.

Lemma gtake_an prog c src dst : valid workers (tasks_of prog) -> gvalid prog -> greturns_enough body mbody prog -> AB prog c ->
  AK prog c -> LR workers (img prog c) -> AN prog c -> AN prog (gtake body mbody is_async c src dst).
Proof using body_ok mbody_ok no_root.
  intros V GV R B K L N. assert (N' := N). destruct N' as [N1 N2 N3]. unfold gtake.
  destruct (c_chan c src dst) as [|m ch] eqn:Ch; auto.
  destruct (Nat.eqb_spec dst 0) as [|D0]; simpl orb; auto. rewrite N1.
  assert (Om : aokm prog (hist c) dst m) by (apply (ab_chan _ _ _ _ _ B src dst); rewrite Ch; simpl; auto).
  assert (Is : In m (stream c src dst)) by (apply in_astream; auto; rewrite Ch; simpl; auto).
  assert (Ru := ab_run _ _ _ _ _ B dst D0).
  assert (Sf : wrun dst winit (map snd (c_in c dst ++ [(src, m)])) <> None).
  { apply (box_safe prog c V GV R B L dst); auto.
    - intros s x X. apply in_app_or in X as [X|[X|[]]].
      + split; [apply in_astream; auto | eapply ab_in; eauto].
      + apply pair_inj in X as [<- <-]. auto.
    - rewrite sends_app. simpl. destruct (Nat.eqb_spec src 0) as [->|Ns].
      + exists ch. rewrite <- app_assoc. simpl. rewrite <- Ch. apply (N2 0 dst).
      + rewrite app_nil_r. apply (box_prefix c N2). }
  rewrite map_app, wrun_app, Ru in Sf. simpl in Sf. unfold deal.
  destruct (wstep dst body mbody is_async (c_work c dst) m) as [w'|] eqn:St; [|tauto]. clear Sf.
  destruct (ainbox body mbody is_async body_ok mbody_ok prog (hist c) dst _ GV (box_ok prog c B dst)) as (Nr & NC).
  destruct (facts prog c GV B dst D0) as (W & _).
  assert (Rd := run_inputs dst body mbody is_async body_ok mbody_ok _ winit _ (wi_init _ _) Nr NC eq_refl Ru).
  assert (Lg : log w' = log (c_work c dst) ++ skipn (length (log (c_work c dst))) (log w')).
  { destruct (step_own dst body mbody is_async body_ok mbody_ok (c_work c dst) m w' W) as (t & T & _); auto; [|apply Rd|].
    - intros d v ->. simpl in Om. eapply gives_clean; eauto.
    - rewrite T at 2. rewrite skipn_exact. auto. }
  split; auto.
  - match goal with |- aflow ?c1 => set (c' := c1) end.
    assert (Y : forall s x, sends_to s (c_in c' x) ++ drop_head (c_chan c) src dst s x = sends_to s (c_in c x) ++ c_chan c s x).
    { intros s x. simpl c_in. destruct (Nat.eqb_spec x dst) as [->|Nx].
      - rewrite sends_app. destruct (Nat.eq_dec s src) as [->|Nsr].
        + rewrite (drop_hit _ _ _ m ch); auto. rewrite Ch. simpl. rewrite Nat.eqb_refl, <- app_assoc. auto.
        + rewrite drop_keep by congruence. simpl. destruct (Nat.eqb_spec src s); [congruence|]. rewrite app_nil_r. auto.
      - rewrite drop_keep by congruence. auto. }
    intros s x. assert (X := N2 s x). unfold stream in *. simpl c_out. simpl c_work. simpl c_chan.
    destruct (Nat.eqb_spec s dst) as [->|Nsd]; [|rewrite Y; auto].
    rewrite app_assoc, Y, X. destruct (Nat.eqb_spec dst 0); [tauto|]. rewrite Lg at 2. rewrite outgoing_app. auto.
  - intros w a s x y b w1 Nw E Mx Rn. simpl in E. destruct (Nat.eqb_spec w dst) as [->|Nd]; [|eapply N3; eauto].
    symmetry in E. apply WorkerTrace.split_last in E as [[E ->]|(t & E)].
    + apply pair_inj in E as [-> <-]. rewrite Ru in Rn. apply Some_inj in Rn as <-. eapply (back prog c V GV B L N2); eauto.
    + eapply N3; eauto.
Qed.

(** The root acts. *)
Lemma root_an prog c p c' out : gvalid (prog ++ [p]) -> AB prog c -> AN prog c ->
  c_dead c' = c_dead c -> c_work c' = c_work c -> c_in c' = c_in c -> c_out c' = c_out c ++ out ->
  (forall s d, c_chan c' s d = if s =? 0 then c_chan c s d ++ sends_to d out else c_chan c s d) -> AN (prog ++ [p]) c'.
Proof.
  intros V B [N1 N2 N3] E1 E2 E3 E4 E5. split.
  - rewrite E1. auto.
  - intros s x. assert (X := N2 s x). unfold stream in *. rewrite E2, E3, E4, E5. destruct (s =? 0); auto.
    rewrite app_assoc, X, sends_app. auto.
  - intros w a s d v b w1 Nw E M. rewrite E3 in E. apply (N3 w a s d v b); auto.
    rewrite (map_app as_task) in M. eapply made_prefix; [| |eauto].
    + rewrite <- (map_app as_task), intro_as. apply V.
    + assert (O : aokm prog (hist c) w (WPut d v)).
      { apply (ab_in _ _ _ _ _ B w s). rewrite E. apply in_or_app; simpl; auto. }
      simpl in O. apply gives_created in O as (o & Io & D). rewrite intro_as. apply in_flat_map. eauto.
Qed.

Lemma root_step_an prog c o : gvalid (prog ++ [GP o]) -> AB prog c -> AN prog c -> AN (prog ++ [GP o]) (root_step workers c o).
Proof.
  intros V B N. destruct (root_shape workers c o) as (p & vals & tasks & seen & out & want & ids & k & exc & ->).
  apply (root_an prog c _ _ out); auto.
Qed.

Lemma root_call_an prog c dest nd q : gvalid (prog ++ [GC dest nd q]) -> AB prog c -> AN prog c -> AN (prog ++ [GC dest nd q]) (root_call c dest nd q).
Proof. intros V B N. eapply (root_an prog c); auto; reflexivity. Qed.

Lemma done_an prog c src : AN prog c -> AN prog (done workers c src).
Proof. intros [N1 N2 N3]. unfold done. destruct (c_done c src); split; auto. Qed.

Lemma adone_lr prog c src : LR workers (img prog c) -> LR workers (img prog (done workers c src)).
Proof. unfold done. destruct (c_done c src); auto. apply lr_same; auto. Qed.

Lemma init_an mgr : AN [] (cinit mgr).
Proof.
  split; simpl; auto.
  - intros s d. unfold stream. simpl. destruct (s =? 0); auto.
  - intros w a s d v b w1 _ H. destruct a; discriminate.
Qed.
End Net.
