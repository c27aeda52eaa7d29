(** With shared memory between them the processes do the same as when values travel in the messages. *)
From Coq Require Import ZArith.
From Verif Require Import Lib ValModel ShmModel PushModel PushProofs WorkerModel WorkerSpec WorkerLog MonModel ClusterModel
  ClusterSpec ClusterSeq ClusterProofs ClusterRoot ClusterClean ClusterQuiet ShmStoreModel ShmStoreSpec ShmStoreProofs SharedRunModel
  SharedRunSpec SharedRunStore SharedRunFit.
Local Open Scope nat_scope.
Notation puts := ClusterSpec.puts.
Notation sputs := ShmStoreSpec.puts.

(** ** Counting packages and messages *)
Definition is_pkg (q r : rank) (d : dataid) (p : (nat * dataid * shinfo) * rank) : bool :=
  match p with ((q', d', _), r') => Nat.eqb q' q && did_eqb d' d && Nat.eqb r' r end.
Definition npk (m : shmem) (q r : rank) (d : dataid) : nat :=
  length (filter (is_pkg q r d) (combine (inflight (m_s m)) (m_to m))).
Definition is_put (d : dataid) (m : wmsg) : bool := match m with WPut e _ => did_eqb e d | _ => false end.
Definition nput (l : list wmsg) (d : dataid) : nat := length (filter (is_put d) l).

Lemma nput_app a b d : nput (a ++ b) d = nput a d + nput b d.
Proof. unfold nput. rewrite filter_app, app_length. auto. Qed.

Lemma nput_pos l d : nput l d <> 0 -> exists v, In (WPut d v) l.
Proof.
  unfold nput. induction l as [|m l IH]; simpl; [tauto|]. destruct m; simpl; try (intros H; destruct (IH H) as (x & X); eauto; fail).
  destruct (did_eqb d0 d) eqn:E; [apply did_eqb_eq in E; subst; eauto|]. intros H; destruct (IH H) as (x & X); eauto.
Qed.

Lemma nput_none l d : (forall v, ~ In (WPut d v) l) -> nput l d = 0.
Proof. intros H. destruct (nput l d) eqn:E; auto. destruct (nput_pos l d) as (v & I); [lia|]. destruct (H v I). Qed.

Lemma find_some fl : forall to q r d k, find_pkg fl to q r d = Some k ->
  (exists i, nth_error fl k = Some (q, d, i)) /\ nth_error to k = Some r /\
  forall q' r' d', length (filter (is_pkg q' r' d') (combine fl to)) =
    length (filter (is_pkg q' r' d') (combine (remove_nth k fl) (remove_nth k to))) +
    (if Nat.eqb q q' && did_eqb d d' && Nat.eqb r r' then 1 else 0).
Proof.
  induction fl as [|[[q0 d0] i0] fl IH]; intros [|r0 to] q r d k H; simpl in H; try discriminate.
  destruct (Nat.eqb q0 q && did_eqb d0 d && Nat.eqb r0 r) eqn:E0.
  - injection H as <-. apply andb_true_iff in E0 as [E0 E3]. apply andb_true_iff in E0 as [E1 E2].
    apply Nat.eqb_eq in E1, E3. apply did_eqb_eq in E2. subst. simpl. split; eauto. split; auto.
    intros q' r' d'. destruct (Nat.eqb q q' && did_eqb d d' && Nat.eqb r r'); simpl; lia.
  - destruct (find_pkg fl to q r d) as [k'|] eqn:F; [|discriminate]. injection H as <-.
    destruct (IH _ _ _ _ _ F) as (I1 & I2 & I3). simpl. split; auto. split; auto.
    intros q' r' d'. specialize (I3 q' r' d'). destruct (Nat.eqb q0 q' && did_eqb d0 d' && Nat.eqb r0 r'); simpl; lia.
Qed.

Lemma find_none fl : forall to q r d, find_pkg fl to q r d = None -> length (filter (is_pkg q r d) (combine fl to)) = 0.
Proof.
  induction fl as [|[[q0 d0] i0] fl IH]; intros [|r0 to] q r d H; simpl in *; try discriminate; auto.
  destruct (Nat.eqb q0 q && did_eqb d0 d && Nat.eqb r0 r); [discriminate|].
  destruct (find_pkg fl to q r d) eqn:F; [discriminate|]. auto.
Qed.

Lemma npk_in m q d i r k : nth_error (inflight (m_s m)) k = Some (q, d, i) -> nth_error (m_to m) k = Some r -> npk m q r d <> 0.
Proof.
  unfold npk. generalize (m_to m) as to, (inflight (m_s m)) as fl. intros to fl. revert to k.
  induction fl as [|x fl IH]; intros [|y to] [|k] H1 H2; simpl in *; try discriminate.
  - injection H1 as ->. injection H2 as ->. rewrite !Nat.eqb_refl, did_eqb_refl. simpl. lia.
  - specialize (IH to k H1 H2). destruct x as [[? ?] ?]. destruct (_ && _ && _); simpl; lia.
Qed.

(** How often a value is in a list of values to send. *)
Definition ncnt (l : list (rank * dataid * val)) (r : rank) (d : dataid) : nat :=
  length (filter (fun p => match p with (r', d', _) => Nat.eqb r' r && did_eqb d' d end) l).

Section SR.
Variable workers : list rank.
Variable body : val -> val -> val -> result.
Hypothesis body_ok : forall f a k, no_refs_returned (body f a k).
Hypothesis no_root : ~ In 0 workers.
Hypothesis no_dup : NoDup workers.
Variable host_of : rank -> nat.
Variable sizes : list (Z * Z).
Variable enc : val -> payload.
Variable dec : payload -> option val.
Variable threshold : nat.
Hypothesis sizes_fine : sizes_ok sizes.
Hypothesis same_service : forall sz sz', In sz sizes -> In sz' sizes -> snd sz = snd sz'.
Hypothesis hosts_known : forall p, host_of p < length sizes.
Notation E := (sequential body).
Notation big := (big enc threshold).
Notation mdo := (mdo host_of).
Notation pushes := (pushes host_of enc threshold).
Notation push1 := (push1 host_of enc threshold).
Notation Fit := (Fit body).

Notation codec := (round_trips body enc dec).
Notation no_room := (for_lack_of_memory host_of).

(** Whether an object goes through shared memory. *)
Definition shared (prog : list rop) (d : dataid) : bool :=
  did_in d (puts prog) || match E prog d with Some v => big v | None => false end.

Record MI (prog : list rop) (D : list dataid) (m : shmem) : Prop := {
  mi_run : srun host_of (store_init sizes) (m_ops m) = Some (m_s m);
  mi_quiet : quiet_run host_of (store_init sizes) (m_ops m);
  mi_hist : history_ok (m_ops m);
  mi_len : length (m_to m) = length (inflight (m_s m));
  mi_writ : forall d pl, written (m_ops m) d = Some pl -> shared prog d = true /\ exists v, E prog d = Some v /\ pl = enc v;
  mi_pend : forall h, In h (hosts (m_s m)) -> incl (pending_cleanup (mgr h)) D
}.

(** What an operation may be. *)
Definition fair (prog : list rop) (D : list dataid) (m : shmem) (o : sop) : Prop :=
  match o with
  | SPut p d pl => ~ In d (sputs (m_ops m)) /\ shared prog d = true /\ exists v, E prog d = Some v /\ pl = enc v
  | SCleanup ids => incl ids D /\ forall q d i, In (q, d, i) (inflight (m_s m)) -> ~ In d D
  | _ => True
  end.

Lemma mdo_ok prog D m o to : codec prog -> MI prog D m -> fair prog D m o -> length to = length (fly (m_s m) o) ->
  match mdo m o to with
  | Fine (m', out) => MI prog D m' /\ sstep host_of (m_s m) o = Some (m_s m', out) /\ m_to m' = to /\ m_ops m' = m_ops m ++ [o]
  | Stop f => no_room f
  end.
Proof using same_service hosts_known sizes_fine.
  intros Cd [I1 I2 I3 I4 I5 I6] F L. unfold SharedRunModel.mdo.
  assert (Bg : big_enough o).
  { destruct o; simpl; auto. destruct F as (_ & _ & v & Ev & ->). apply (Cd d v Ev). }
  assert (Fr : ~ exists d, In d (sputs [o]) /\ In d (sputs (m_ops m))).
  { intros (d & P & Q). destruct o; simpl in P; try tauto. destruct P as [<-|[]]. apply F; auto. }
  destruct (sstep host_of (m_s m) o) as [[s' out]|] eqn:Es.
  - split; [|auto]. split; simpl.
    + rewrite srun_app, I1. simpl. rewrite Es. reflexivity.
    + eapply quiet_snoc; eauto. destruct o; simpl; auto. destruct F as [F1 F2]. intros q d i h J K X.
      apply in_app_or in X as [X|X]; [|apply F1 in X]; eapply F2; eauto. eapply I6; eauto.
    + destruct I3 as [H1 H2]. split; [|apply Forall_app; auto].
      rewrite puts_app. clear - H1 Fr. induction (sputs (m_ops m)) as [|x l IH]; simpl.
      * destruct o; simpl; repeat constructor; simpl; tauto.
      * inversion H1; subst. constructor.
        -- intros J. apply in_app_or in J as [J|J]; auto. apply Fr. exists x. simpl; auto.
        -- apply IH; auto. intros (d & P & Q). apply Fr. exists d. simpl; auto.
    + rewrite L. symmetry. f_equal. eapply fly_step; eauto.
    + intros d pl. rewrite written_snoc. destruct (written (m_ops m) d) eqn:Ew; [intros X; apply I5; congruence|].
      destruct o; simpl; try discriminate. destruct (did_eqb d0 d) eqn:E2; [|discriminate].
      apply did_eqb_eq in E2. subst d0. intros X. injection X as <-. apply F.
    + eapply pend_step; eauto. intros ids ->. apply F.
  - exists (m_s m), o. split; auto.
    apply (fails_only_without_memory host_of sizes (m_ops m) (m_s m) o); auto.
Qed.

Lemma infos_shared prog D m p d : MI prog D m -> infos (m_s m) p d <> None ->
  shared prog d = true /\ In d (sputs (m_ops m)).
Proof using sizes_fine.
  intros [I1 I2 I3 I4 I5 I6] H. destruct (infos (m_s m) p d) as [i|] eqn:Ei; [|tauto].
  destruct (read_returns_written host_of sizes (m_ops m) (m_s m) p d i sizes_fine I3 I2 I1 Ei) as (pl & W & _).
  split; [apply (I5 _ _ W)|]. apply puts_written. congruence.
Qed.

(** What sending values leaves as it was, and what it adds. *)
Record Sent (prog : list rop) (src : rank) (l : list (rank * dataid * val)) (m m' : shmem) : Prop := {
  sn_puts : forall d, In d (sputs (m_ops m')) -> In d (sputs (m_ops m)) \/ infos (m_s m') src d <> None;
  sn_keep : forall p d, infos (m_s m) p d <> None -> infos (m_s m') p d <> None;
  sn_new : forall p d, infos (m_s m') p d <> None -> infos (m_s m) p d <> None \/ (p = src /\ exists r v, In (r, d, v) l);
  sn_npk : forall q r d, npk m' q r d = npk m q r d + (if Nat.eqb q src && shared prog d then ncnt l r d else 0)
}.

Lemma push1_ok prog D m src dst d v : codec prog -> MI prog D m -> E prog d = Some v ->
  (shared prog d = true -> infos (m_s m) src d = None -> big v = true /\ ~ In d (sputs (m_ops m))) ->
  match push1 m src dst d v with
  | Fine m' => MI prog D m' /\ Sent prog src [(dst, d, v)] m m'
  | Stop f => no_room f
  end.
Proof using same_service hosts_known sizes_fine.
  intros Cd M Ev H.
  assert (Snd : forall m0, MI prog D m0 -> infos (m_s m0) src d <> None ->
    match send_pkg host_of m0 src dst d with
    | Fine m' => MI prog D m' /\ Sent prog src [(dst, d, v)] m0 m'
    | Stop f => no_room f
    end).
  { intros m0 M0 H0. unfold send_pkg. destruct (infos (m_s m0) src d) as [i|] eqn:Ei; [|tauto]. clear H0.
    destruct (infos_shared prog D m0 src d M0) as [Sh _]; [congruence|].
    assert (X := mdo_ok prog D m0 (SSend src d) (m_to m0 ++ [dst]) Cd M0 Logic.I).
    simpl fly in X. rewrite Ei, !app_length, (mi_len _ _ _ M0) in X. specialize (X eq_refl).
    unfold andthen. destruct (mdo m0 (SSend src d) (m_to m0 ++ [dst])) as [[m' out]|f]; auto.
    destruct X as (M' & St & To & Op). split; auto. simpl in St. rewrite Ei in St. injection St as St _.
    split; simpl.
    - intros e. rewrite Op, puts_app. simpl. rewrite app_nil_r. auto.
    - intros p e. rewrite <- St. auto.
    - intros p e. rewrite <- St. auto.
    - intros q r e. unfold npk. rewrite To, <- St. cbn [inflight].
      assert (Cb : combine (inflight (m_s m0) ++ [(src, d, i)]) (m_to m0 ++ [dst]) =
                   combine (inflight (m_s m0)) (m_to m0) ++ [((src, d, i), dst)]).
      { assert (Ln := mi_len _ _ _ M0). revert Ln. generalize (m_to m0) as to, (inflight (m_s m0)) as fl. clear.
        intros to fl. revert to. induction fl as [|x fl IH]; intros [|y to] Ln; simpl in *; try discriminate; auto.
        f_equal. apply IH. lia. }
      rewrite Cb, filter_app, app_length. f_equal. unfold ncnt. simpl.
      rewrite (Nat.eqb_sym src q). destruct (Nat.eqb_spec q src) as [->|]; simpl; auto.
      destruct (did_eqb d e) eqn:Ede; simpl.
      + apply did_eqb_eq in Ede. subst e. rewrite Sh. destruct (Nat.eqb dst r); reflexivity.
      + rewrite andb_false_r. destruct (shared prog e); reflexivity. }
  unfold SharedRunModel.push1. destruct (infos (m_s m) src d) as [i|] eqn:Ei.
  - apply Snd; auto. congruence.
  - destruct (shared prog d) eqn:Sh.
    + destruct (H eq_refl eq_refl) as [Bv Np]. rewrite Bv.
      assert (X := mdo_ok prog D m (SPut src d (enc v)) (m_to m) Cd M).
      assert (Fr : fair prog D m (SPut src d (enc v))) by (simpl; eauto). specialize (X Fr (mi_len _ _ _ M)). unfold andthen.
      destruct (mdo m (SPut src d (enc v)) (m_to m)) as [[m1 out]|f]; auto.
      destruct X as (M1 & St & To & Op). simpl fst.
      assert (Is := infos_put host_of (m_s m) src d (enc v) (m_s m1) out St).
      specialize (Snd m1 M1 Is). destruct (send_pkg host_of m1 src dst d) as [m'|f]; auto.
      destruct Snd as (M' & [S1 S2 S3 S4]). split; auto. split.
      * intros e P. apply S1 in P as [P|P]; auto. rewrite Op, puts_app in P. apply in_app_or in P as [P|P]; auto.
        simpl in P. destruct P as [<-|[]]. auto.
      * intros p e P. apply S2. eapply info_keep; eauto. discriminate.
      * intros p e P. apply S3 in P as [P|P]; auto.
        apply (infos_new host_of _ _ _ _ _ _ St) in P as [P|[(pl & P)|(k & q & j & P & _)]]; auto; [|discriminate].
        injection P as <- <- _. right. simpl; eauto.
      * intros q r e. rewrite S4. f_equal. unfold npk. rewrite To, (fly_step host_of _ _ _ _ St). reflexivity.
    + destruct (big v) eqn:Bv.
      { unfold shared in Sh. rewrite Ev, Bv in Sh. rewrite orb_true_r in Sh. discriminate. }
      split; auto. split; auto. intros q r e. unfold ncnt. simpl.
      destruct (Nat.eqb_spec q src) as [->|]; simpl; auto.
      destruct (shared prog e) eqn:She; auto. destruct (did_eqb d e) eqn:Ede; [apply did_eqb_eq in Ede; congruence|].
      rewrite andb_false_r. simpl. auto.
Qed.

Lemma pushes_ok prog D src l : codec prog -> forall m, MI prog D m ->
  (forall r d v, In (r, d, v) l -> E prog d = Some v /\
     (shared prog d = true -> infos (m_s m) src d = None -> big v = true /\ ~ In d (sputs (m_ops m)))) ->
  match pushes m src l with
  | Fine m' => MI prog D m' /\ Sent prog src l m m'
  | Stop f => no_room f
  end.
Proof using same_service hosts_known sizes_fine.
  intros Cd. induction l as [|[[r d] v] l IH]; intros m M H; cbn [SharedRunModel.pushes].
  - split; auto. split; auto. intros q r d. unfold ncnt. simpl. destruct (_ && _); auto.
  - destruct (H r d v (or_introl eq_refl)) as [Ev Hv].
    assert (X := push1_ok prog D m src r d v Cd M Ev Hv). unfold andthen.
    destruct (push1 m src r d v) as [m1|f]; auto. destruct X as (M1 & [S1 S2 S3 S4]).
    assert (H1 : forall r' d' v', In (r', d', v') l -> E prog d' = Some v' /\
     (shared prog d' = true -> infos (m_s m1) src d' = None -> big v' = true /\ ~ In d' (sputs (m_ops m1)))).
    { intros r' d' v' I. destruct (H r' d' v' (or_intror I)) as [Ev' Hv']. split; auto. intros Sh Nn.
      destruct (infos (m_s m) src d') eqn:E0.
      - exfalso. apply (S2 src d'); congruence.
      - destruct (Hv' Sh eq_refl) as [B N]. split; auto. intros P. apply S1 in P as [P|P]; auto. }
    specialize (IH m1 M1 H1). destruct (pushes m1 src l) as [m'|f]; auto. destruct IH as (M' & [T1 T2 T3 T4]). split; auto. split.
    + intros e P. apply T1 in P as [P|P]; auto. apply S1 in P as [P|P]; auto.
    + auto.
    + intros p e P. apply T3 in P as [P|(-> & r' & v' & P)].
      * apply S3 in P as [P|(-> & r' & v' & [P|[]])]; auto. right. split; auto. exists r', v'. simpl. auto.
      * right. split; auto. exists r', v'. simpl. auto.
    + intros q r' e. rewrite T4, S4. unfold ncnt. simpl. destruct (Nat.eqb q src && shared prog e); [|lia].
      destruct (Nat.eqb r r' && did_eqb d e); simpl; lia.
Qed.

Lemma drops_ok prog D p ds : codec prog -> forall m, MI prog D m ->
  match drops host_of m p ds with
  | Fine m' => MI prog D m' /\ (forall d, In d (sputs (m_ops m')) <-> In d (sputs (m_ops m))) /\
      (forall q d, infos (m_s m) q d <> None -> infos (m_s m') q d <> None \/ (q = p /\ In d ds)) /\
      (forall q d, infos (m_s m') q d <> None -> infos (m_s m) q d <> None) /\
      (forall q r d, npk m' q r d = npk m q r d)
  | Stop f => no_room f
  end.
Proof using same_service hosts_known sizes_fine.
  intros Cd. induction ds as [|d ds IH]; intros m M; cbn [drops].
  - split; [exact M|]. split; [tauto|]. auto.
  - assert (X := mdo_ok prog D m (SDrop p d) (m_to m) Cd M Logic.I (mi_len _ _ _ M)). unfold andthen.
    destruct (mdo m (SDrop p d) (m_to m)) as [[m1 out]|f]; auto. destruct X as (M1 & St & To & Op). simpl fst.
    specialize (IH m1 M1). destruct (drops host_of m1 p ds) as [m'|f]; auto.
    destruct IH as (M' & P & K & N & C). split; auto. split; [|split; [|split]].
    + intros e. rewrite P, Op, puts_app. simpl. rewrite app_nil_r. tauto.
    + intros q e H. destruct (Nat.eq_dec q p) as [->|Nq].
      * destruct (did_eqb d e) eqn:Ede; [apply did_eqb_eq in Ede; subst; simpl; auto|].
        assert (H1 : infos (m_s m1) p e <> None).
        { eapply info_keep; eauto. intros Z. injection Z as ->. rewrite did_eqb_refl in Ede. discriminate. }
        apply K in H1 as [H1|[_ H1]]; simpl; auto.
      * assert (H1 : infos (m_s m1) q e <> None) by (eapply info_keep; eauto; congruence).
        apply K in H1 as [H1|[H1 _]]; auto.
    + intros q e H. apply N in H. apply (infos_new host_of _ _ _ _ _ _ St) in H as [H|[(pl & H)|(k & x & j & H & _)]]; auto; discriminate.
    + intros q r e. rewrite C. unfold npk. rewrite To, (fly_step host_of _ _ _ _ St). reflexivity.
Qed.

(** Receiving a value. *)
Lemma receive_ok prog D m src dst local d v : codec prog -> MI prog D m -> E prog d = Some v ->
  (forall u, local = Some u -> u = v) ->
  match receive host_of dec m src dst local d v with
  | Fine (m', u) => u = v /\ MI prog D m' /\ (forall e, In e (sputs (m_ops m')) <-> In e (sputs (m_ops m))) /\
      (forall q e, infos (m_s m) q e <> None -> infos (m_s m') q e <> None) /\
      (forall q e, infos (m_s m') q e <> None -> infos (m_s m) q e <> None \/ (q = dst /\ e = d)) /\
      (npk m src dst d <> 0 -> local = None -> infos (m_s m') dst d <> None) /\
      (forall q r e, npk m q r e = npk m' q r e +
         (if Nat.eqb src q && did_eqb d e && Nat.eqb dst r && negb (Nat.eqb (npk m src dst d) 0) then 1 else 0))
  | Stop f => no_room f
  end.
Proof using same_service hosts_known sizes_fine.
  intros Cd M Ev Hl. unfold receive. destruct (find_pkg (inflight (m_s m)) (m_to m) src dst d) as [k|] eqn:F.
  2:{ apply find_none in F. fold (npk m src dst d) in F. split; auto. split; auto. split; [tauto|]. split; auto. split; auto.
      split; [lia|]. intros q r e. rewrite F. simpl. rewrite andb_false_r. lia. }
  destruct (find_some _ _ _ _ _ _ F) as ((i & Fk) & Ft & Fn).
  assert (Np := npk_in m src d i dst k Fk Ft). apply Nat.eqb_neq in Np.
  assert (Ln : length (remove_nth k (m_to m)) = length (remove_nth k (inflight (m_s m)))).
  { assert (A := remove_nth_length _ _ _ Fk). assert (B := remove_nth_length _ _ _ Ft). assert (C := mi_len _ _ _ M). lia. }
  destruct local as [u|].
  - assert (X := mdo_ok prog D m (SSkip k) (remove_nth k (m_to m)) Cd M Logic.I Ln). unfold andthen.
    destruct (mdo m (SSkip k) (remove_nth k (m_to m))) as [[m1 out]|f]; auto. destruct X as (M1 & St & To & Op). simpl fst.
    split; auto. split; auto. split.
    { intros e. rewrite Op, puts_app. simpl. rewrite app_nil_r. tauto. }
    split; [intros q e H; eapply info_keep; eauto; discriminate|].
    split. { intros q e H. apply (infos_new host_of _ _ _ _ _ _ St) in H as [H|[(pl & H)|(k' & x & j & H & _)]]; auto; discriminate. }
    split; [discriminate|].
    intros q r e. rewrite Np. simpl. rewrite andb_true_r. unfold npk. rewrite (Fn q r e), To, (fly_step host_of _ _ _ _ St). reflexivity.
  - assert (X := mdo_ok prog D m (SRecv dst k) (remove_nth k (m_to m)) Cd M Logic.I Ln). unfold andthen.
    destruct (mdo m (SRecv dst k) (remove_nth k (m_to m))) as [[m1 out]|f]; auto. destruct X as (M1 & St & To & Op). simpl fst. simpl snd.
    destruct (recv_returns_written host_of sizes (m_ops m) (m_s m) dst k src d i (m_s m1) out sizes_fine
                (mi_hist _ _ _ M) (mi_quiet _ _ _ M) (mi_run _ _ _ M) Fk St) as (pl & W & -> & Is).
    destruct (mi_writ _ _ _ M d pl W) as (_ & v' & Ev' & ->). assert (v' = v) by congruence. subst v'.
    unfold decoded. rewrite (proj1 (Cd d v Ev)).
    split; auto. split; auto. split.
    { intros e. rewrite Op, puts_app. simpl. rewrite app_nil_r. tauto. }
    split; [intros q e H; eapply info_keep; eauto; discriminate|].
    split. { intros q e H. apply (infos_new host_of _ _ _ _ _ _ St) in H as [H|[(pl & H)|(k' & x & j & H & J)]]; auto; [discriminate|].
             injection H as <- <-. right. split; auto. congruence. }
    split; auto.
    intros q r e. rewrite Np. simpl. rewrite andb_true_r. unfold npk. rewrite (Fn q r e), To, (fly_step host_of _ _ _ _ St). reflexivity.
Qed.

(** ** The whole system *)
Record XI (x : xst) : Prop := {
  xi_mi : MI (c_prog (x_c x)) (dead (x_c x)) (x_m x);
  xi_mon : forall ds, In ds (x_mon x) -> incl ds (dead (x_c x));
  xi_cnt : forall q r d, npk (x_m x) q r d =
    if shared (c_prog (x_c x)) d then nput (c_chan (x_c x) q r) d else 0;
  xi_own : forall s d, In d (sputs (m_ops (x_m x))) -> made (c_prog (x_c x)) s d -> ~ In d (dead (x_c x)) ->
    infos (m_s (x_m x)) s d <> None;
  xi_root : forall d, c_vals (x_c x) d <> None -> shared (c_prog (x_c x)) d = true -> infos (m_s (x_m x)) 0 d <> None;
  xi_vals : forall d, infos (m_s (x_m x)) 0 d <> None -> c_vals (x_c x) d <> None
}.

Lemma shared_same a b d v : NoDup (introduced (a ++ b)) -> E a d = Some v -> shared (a ++ b) d = shared a d.
Proof using.
  intros N Ev. unfold shared. rewrite (seq_mono body a b d v N Ev), Ev. f_equal.
  assert (Ia : In d (introduced a)) by (apply (seq_dom body); congruence).
  destruct (did_in d (puts a)) eqn:P.
  - apply did_in_In in P. apply did_in_In. rewrite ClusterRoot.puts_app. apply in_or_app; auto.
  - destruct (did_in d (puts (a ++ b))) eqn:P2; auto. apply did_in_In in P2. rewrite ClusterRoot.puts_app in P2.
    apply in_app_or in P2 as [P2|P2]; [apply did_in_In in P2; congruence|]. exfalso.
    apply (ClusterRoot.puts_intro b) in P2. unfold introduced in N. rewrite flat_map_app in N. eapply nodup_sep; eauto.
Qed.

Lemma mi_mono a b D D' m : NoDup (introduced (a ++ b)) -> incl D D' -> MI a D m -> MI (a ++ b) D' m.
Proof using.
  intros N J [I1 I2 I3 I4 I5 I6]. split; auto.
  - intros d pl W. destruct (I5 d pl W) as (Sh & v & Ev & ->). split.
    + rewrite (shared_same a b d v); auto.
    + exists v. split; auto. apply seq_mono; auto.
  - intros h H. eapply incl_tran; eauto.
Qed.

Lemma made_old a b s d : NoDup (introduced (a ++ b)) -> In d (introduced a) -> made (a ++ b) s d -> made a s d.
Proof using.
  intros N Ia (q & Iq & O). apply in_app_or in Iq as [Iq|Iq]; [exists q; auto|]. exfalso.
  unfold introduced in *. rewrite flat_map_app in N. eapply nodup_sep; [exact N|exact Ia|]. apply in_flat_map. exists (RSubmit s q). auto.
Qed.

Lemma reads_ok prog D m here vals ds : codec prog -> MI prog D m ->
  (forall d, infos (m_s m) 0 d <> None -> vals d <> None) -> (forall d v, vals d = Some v -> E prog d = Some v) ->
  reads host_of dec m here vals ds = Fine (read_vals vals ds).
Proof using sizes_fine.
  intros Cd M Iv Vv. induction ds as [|d ds IH]; cbn [reads read_vals]; auto.
  assert (R : read1 host_of dec m here vals d = Fine (vals d)).
  { unfold read1. destruct (did_in d here); auto. destruct (infos (m_s m) 0 d) as [i|] eqn:Ei; auto.
    destruct (read_returns_written host_of sizes (m_ops m) (m_s m) 0 d i sizes_fine (mi_hist _ _ _ M) (mi_quiet _ _ _ M)
                (mi_run _ _ _ M) Ei) as (pl & W & ->).
    destruct (mi_writ _ _ _ M d pl W) as (_ & v & Ev & ->). unfold decoded. rewrite (proj1 (Cd d v Ev)). simpl.
    destruct (vals d) as [u|] eqn:Ed; [|exfalso; apply (Iv d); congruence]. apply Vv in Ed. congruence. }
  rewrite R. simpl. rewrite IH. simpl. destruct (vals d), (read_vals vals ds); auto.
Qed.

Lemma ncnt_sends out r d : ncnt (values_out out) r d = nput (sends_to r out) d.
Proof using.
  unfold ncnt, nput, values_out, sends_to. induction out as [|[x m] out IH]; simpl; auto.
  rewrite !filter_app, !app_length, IH. f_equal. destruct m; simpl; destruct (Nat.eqb x r); simpl; auto. destruct (did_eqb _ _); auto.
Qed.

Lemma ncnt_answers self l r d : ncnt (answers l) r d = nput (outgoing self l r) d.
Proof using.
  unfold ncnt, nput, answers, outgoing. induction l as [|e l IH]; simpl; auto.
  rewrite !filter_app, !app_length, IH. f_equal. destruct e; simpl; auto;
  match goal with |- context [Nat.eqb ?x r] => destruct (Nat.eqb x r); simpl; auto end;
  destruct (did_eqb _ _); auto.
Qed.

Lemma take_as_take c src dst m l : c_chan c src dst = m :: l -> dst <> 0 -> c_dead c dst = false ->
  take body c src dst = take_as body c src dst m.
Proof using.
  intros H N D. unfold take, take_as. rewrite H, D. destruct (Nat.eqb_spec dst 0); [tauto|]. reflexivity.
Qed.

Lemma in_answers l r d v : In (r, d, v) (answers l) -> forall self, In (WPut d v) (outgoing self l r).
Proof using.
  unfold answers, outgoing. intros I self. apply in_flat_map in I as (e & I & J). apply in_flat_map. exists e. split; auto.
  destruct e; simpl in J; try contradiction. destruct J as [J|[]]. injection J as -> -> ->. rewrite Nat.eqb_refl. simpl; auto.
Qed.

Lemma in_values out r d v : In (r, d, v) (values_out out) -> In (r, WPut d v) out.
Proof using.
  unfold values_out. intros I. apply in_flat_map in I as ([x m] & I & J). simpl in J. destruct m; simpl in J; try contradiction.
  destruct J as [J|[]]. injection J as -> -> ->. auto.
Qed.

Lemma fly_dead x q d i : XI x -> Fit (x_c x) -> In (q, d, i) (inflight (m_s (x_m x))) -> ~ In d (dead (x_c x)).
Proof using.
  intros X F I Dd. apply In_nth_error in I as (k & K).
  destruct (nth_error (m_to (x_m x)) k) as [r|] eqn:T.
  - assert (N := npk_in _ _ _ _ _ _ K T). rewrite (xi_cnt _ X) in N. destruct (shared _ _); [|tauto].
    apply nput_pos in N as (v & N). eapply f_quiet; eauto.
  - apply nth_error_None in T. rewrite (mi_len _ _ _ (xi_mi _ X)) in T. apply nth_error_None in T. congruence.
Qed.

Lemma step_take x s d : XI x -> Fit (x_c x) -> codec (c_prog (x_c x)) -> Fit (take body (x_c x) s d) -> x_fault x = None ->
  match xtake body host_of enc dec threshold x s d with
  | Fine x' => x_c x' = take body (x_c x) s d /\ x_fault x' = None /\ XI x'
  | Stop f => no_room f
  end.
Proof using same_service hosts_known sizes_fine.
  intros X F Cd F' Ff. unfold xtake.
  destruct (c_chan (x_c x) s d) as [|msg rest] eqn:Ch.
  { split; [unfold take; rewrite Ch; auto|auto]. }
  destruct (Nat.eqb_spec d 0) as [->|N0]; simpl.
  { split; [unfold take; rewrite Ch; auto|auto]. }
  rewrite (f_alive _ _ F d).
  assert (Tk := take_as_take (x_c x) s d msg rest Ch N0 (f_alive _ _ F d)).
  set (c := x_c x) in *. rewrite Tk in F'.
  destruct X as [X1 X2 X3 X4 X5 X6]. fold c in X1, X2, X3, X4, X5, X6.
  (* receiving *)
  assert (Rv : match (match msg with
                 | WPut e v => andthen (receive host_of dec (x_m x) s d (WorkerModel.store (c_work c d) e) e v)
                                 (fun r => Fine (fst r, WPut e (snd r)))
                 | _ => Fine (x_m x, msg)
                 end) with
    | Fine (m', g) => g = msg /\ MI (c_prog c) (dead c) m' /\ (forall e, In e (sputs (m_ops m')) <-> In e (sputs (m_ops (x_m x)))) /\
      (forall q e, infos (m_s (x_m x)) q e <> None -> infos (m_s m') q e <> None) /\
      (forall q e, infos (m_s m') q e <> None -> infos (m_s (x_m x)) q e <> None \/ q = d) /\
      (forall q r e, npk m' q r e = if shared (c_prog c) e then nput (drop_head (c_chan c) s d q r) e else 0)
    | Stop f => no_room f
    end).
  { assert (Plain : (forall e v, msg <> WPut e v) -> forall q r e, nput (drop_head (c_chan c) s d q r) e = nput (c_chan c q r) e).
    { intros H q r e. unfold drop_head. destruct (Nat.eqb_spec q s) as [->|]; destruct (Nat.eqb_spec r d) as [->|]; simpl; auto.
      rewrite Ch. unfold nput. simpl. destruct msg; auto. destruct (H d0 v); auto. }
    destruct msg; try (split; [reflexivity|]; split; [exact X1|]; split; [tauto|]; split; [auto|]; split; [auto|];
                       intros; rewrite X3, Plain by discriminate; auto; fail).
    assert (Ev : E (c_prog c) d0 = Some v) by (eapply (f_val _ _ F s d); fold c; rewrite Ch; simpl; auto).
    assert (Rc := receive_ok (c_prog c) (dead c) (x_m x) s d (WorkerModel.store (c_work c d) d0) d0 v Cd X1 Ev).
    assert (Lc : forall u, WorkerModel.store (c_work c d) d0 = Some u -> u = v).
    { intros u Su. apply (f_store _ _ F) in Su; auto. fold c in Su. congruence. }
    specialize (Rc Lc). unfold andthen. destruct (receive host_of dec (x_m x) s d (WorkerModel.store (c_work c d) d0) d0 v) as [[m' u]|f]; auto.
    destruct Rc as (-> & M' & P & K & Nw & _ & Cn). simpl. split; auto. split; auto. split; auto. split; auto.
    split. { intros q e H. apply Nw in H as [H|[H _]]; auto. }
    intros q r e. specialize (Cn q r e). rewrite !X3 in Cn.
    assert (Hd : nput (c_chan c s d) d0 = S (nput rest d0)) by (rewrite Ch; unfold nput; simpl; rewrite did_eqb_refl; auto).
    unfold drop_head. rewrite (Nat.eqb_sym q s), (Nat.eqb_sym r d).
    destruct (Nat.eqb_spec s q) as [<-|]; destruct (Nat.eqb_spec d r) as [<-|]; simpl in *; rewrite ?andb_false_r in Cn; simpl in Cn;
      rewrite ?Nat.add_0_r in Cn; auto.
    rewrite andb_true_r in Cn. rewrite Ch in *. unfold nput in *. simpl in *. destruct (did_eqb d0 e) eqn:Ee; simpl in *.
    + apply did_eqb_eq in Ee. subst e. rewrite did_eqb_refl in Cn. destruct (shared (c_prog c) d0); simpl in *; lia.
    + rewrite Nat.add_0_r in Cn. auto. }
  destruct (match msg with WPut e v => _ | _ => _ end) as [[m1 g]|f]; cbn [andthen fst snd]; [|exact Rv].
  destruct Rv as (-> & M1 & P1 & K1 & N1 & C1).
  (* forgetting *)
  assert (Inc : incl (match msg with WClean ds => ds | _ => [] end) (dead c)).
  { destruct msg; try (intros y []; fail). eapply (f_clean _ _ F s d). fold c. rewrite Ch. simpl; auto. }
  assert (Dr := drops_ok (c_prog c) (dead c) d (match msg with WClean ds => ds | _ => [] end) Cd m1 M1).
  destruct (drops host_of m1 d (match msg with WClean ds => ds | _ => [] end)) as [m2|f]; cbn [andthen]; [|exact Dr].
  destruct Dr as (M2 & P2 & K2 & N2 & C2).
  (* answering *)
  set (new := skipn (length (log (c_work c d))) (log (c_work (take_as body c s d msg) d))) in *.
  assert (Alive := f_alive _ _ F' d).
  destruct (wstep d body no_method plain_fn (c_work c d) msg) as [w'|] eqn:Ew.
  2:{ exfalso. unfold take_as in Alive. rewrite Ew in Alive. simpl in Alive. rewrite Nat.eqb_refl in Alive. discriminate. }
  assert (Chn : forall q r, c_chan (take_as body c s d msg) q r =
            if Nat.eqb q d then drop_head (c_chan c) s d q r ++ outgoing d new r else drop_head (c_chan c) s d q r).
  { intros q r. unfold new, take_as. rewrite Ew. cbn [c_chan c_work]. rewrite Nat.eqb_refl. reflexivity. }
  assert (Prg : c_prog (take_as body c s d msg) = c_prog c) by (unfold take_as; rewrite Ew; auto).
  assert (Ded : dead (take_as body c s d msg) = dead c) by (unfold dead, take_as; rewrite Ew; auto).
  assert (Vls : c_vals (take_as body c s d msg) = c_vals c) by (unfold take_as; rewrite Ew; auto).
  assert (Own2 : forall s0 e, In e (sputs (m_ops m2)) -> made (c_prog c) s0 e -> ~ In e (dead c) -> infos (m_s m2) s0 e <> None).
  { intros s0 e P Md Dd. apply P2, P1 in P. specialize (X4 s0 e P Md Dd). apply K1, K2 in X4 as [X4|[_ X4]]; auto. }
  assert (An : forall r e v, In (r, e, v) (answers new) -> E (c_prog c) e = Some v /\ made (c_prog c) d e /\ ~ In e (dead c)).
  { intros r e v I. assert (J : In (WPut e v) (c_chan (take_as body c s d msg) d r)).
    { rewrite Chn, Nat.eqb_refl. apply in_or_app. right. apply in_answers; auto. }
    split; [rewrite <- Prg; eapply (f_val _ _ F'); eauto|]. split; [rewrite <- Prg; eapply (f_made _ _ F'); eauto|].
    intros Dd. rewrite <- Ded in Dd. eapply (f_quiet _ _ F'); eauto. }
  assert (Pu := pushes_ok (c_prog c) (dead c) d (answers new) Cd m2 M2).
  assert (Pre : forall r e v, In (r, e, v) (answers new) -> E (c_prog c) e = Some v /\
     (shared (c_prog c) e = true -> infos (m_s m2) d e = None -> big v = true /\ ~ In e (sputs (m_ops m2)))).
  { intros r e v I. destruct (An r e v I) as (Ev & Md & Dd). split; auto. intros Sh Nn. split.
    - unfold shared in Sh. rewrite Ev in Sh. apply orb_true_iff in Sh as [Sh|Sh]; auto. apply did_in_In in Sh.
      exfalso. eapply made_not_put; eauto. apply (f_fresh _ _ F).
    - intros P. apply (Own2 d e P Md Dd); auto. }
  specialize (Pu Pre). destruct (pushes m2 d (answers new)) as [m3|f]; cbn [andthen]; [|exact Pu].
  destruct Pu as (M3 & [S1 S2 S3 S4]). cbn [x_c x_fault]. split; [rewrite Tk; auto|]. split; auto.
  split; cbn [x_c x_m x_mon]; rewrite ?Prg, ?Ded, ?Vls; auto.
  - intros q r e. rewrite S4, C2, C1, Chn. destruct (Nat.eqb q d); simpl; [|destruct (shared _ _); lia].
    rewrite nput_app, (ncnt_answers d). destruct (shared _ _); lia.
  - intros s0 e P Md Dd. apply S1 in P as [P|P].
    + apply S2. auto.
    + assert (P' := P). apply S3 in P' as [P'|(_ & r & v & P')].
      * apply S2. apply Own2; auto. apply (infos_shared (c_prog c) (dead c) m2 d e M2); auto.
      * destruct (An r e v P') as (_ & Md' & _). assert (s0 = d) by (eapply made_unique; eauto; apply (f_fresh _ _ F)). subst s0. auto.
  - intros e V Sh. apply S2. destruct (K2 0 e) as [Z|[Z _]]; auto; try lia.
  - intros e I. apply X6. apply S3 in I as [I|[I _]]; [|lia]. apply N2 in I. apply N1 in I as [I|I]; auto; try lia.
Qed.

Lemma reply_as_reply c src d v l k : c_left c = S k -> c_chan c src 0 = WPut d v :: l ->
  reply c src = reply_as c src d v k (got (dput (c_vals c) d v) (c_want c)).
Proof using. intros L H. unfold reply, reply_as. rewrite L, H. reflexivity. Qed.

Lemma step_reply x s : XI x -> Fit (x_c x) -> codec (c_prog (x_c x)) -> x_fault x = None ->
  match xreply host_of dec x s with
  | Fine x' => x_c x' = reply (x_c x) s /\ x_fault x' = None /\ XI x'
  | Stop f => no_room f
  end.
Proof using same_service hosts_known sizes_fine.
  intros X F Cd Ff. unfold xreply.
  assert (Skip : forall c, reply c s = c -> c = x_c x -> x_c x = reply (x_c x) s /\ x_fault x = None /\ XI x).
  { intros c H ->. auto. }
  destruct (c_left (x_c x)) as [|k] eqn:Lf.
  { eapply Skip; [|reflexivity]. unfold reply. rewrite Lf. auto. }
  destruct (c_chan (x_c x) s 0) as [|[] rest] eqn:Ch; try (eapply Skip; [|reflexivity]; unfold reply; rewrite Lf, Ch; auto; fail).
  clear Skip. assert (Rp := reply_as_reply _ _ _ _ _ _ Lf Ch).
  set (c := x_c x) in *. destruct X as [X1 X2 X3 X4 X5 X6]. fold c in X1, X2, X3, X4, X5, X6.
  assert (Ev : E (c_prog c) d = Some v) by (eapply (f_val _ _ F s 0); fold c; rewrite Ch; simpl; auto).
  set (local := if did_in d (x_here x) then c_vals c d else None).
  assert (Lc : forall u, local = Some u -> u = v).
  { intros u. unfold local. destruct (did_in d (x_here x)); [|discriminate]. intros H. apply (f_vals _ _ F) in H. fold c in H. congruence. }
  assert (Rc := receive_ok (c_prog c) (dead c) (x_m x) s 0 local d v Cd X1 Ev Lc).
  destruct (receive host_of dec (x_m x) s 0 local d v) as [[m1 u]|f]; cbn [andthen fst snd]; [|exact Rc].
  destruct Rc as (-> & M1 & P1 & K1 & N1 & G1 & C1).
  assert (Hd : nput (c_chan c s 0) d = S (nput rest d)) by (rewrite Ch; unfold nput; simpl; rewrite did_eqb_refl; auto).
  assert (Cnt : forall q r e, npk m1 q r e = if shared (c_prog c) e then nput (drop_head (c_chan c) s 0 q r) e else 0).
  { intros q r e. specialize (C1 q r e). rewrite !X3 in C1.
    unfold drop_head. rewrite (Nat.eqb_sym q s), (Nat.eqb_sym r 0).
    destruct (Nat.eqb_spec s q) as [<-|]; destruct (Nat.eqb_spec 0 r) as [<-|]; cbn [andb] in *; rewrite ?andb_false_r in C1; cbn [andb] in C1;
      rewrite ?Nat.add_0_r in C1; auto.
    rewrite andb_true_r in C1. rewrite Ch in *. unfold nput in *. simpl in *. destruct (did_eqb d e) eqn:Ee; simpl in *.
    + apply did_eqb_eq in Ee. subst e. rewrite did_eqb_refl in C1. destruct (shared (c_prog c) d); simpl in *; lia.
    + rewrite Nat.add_0_r in C1. auto. }
  assert (Nv : forall e, infos (m_s m1) 0 e <> None -> dput (c_vals c) d v e <> None).
  { intros e H. unfold dput. destruct (did_eqb _ _) eqn:Ee; [discriminate|]. apply N1 in H as [H|[_ ->]]; auto.
    rewrite did_eqb_refl in Ee. discriminate. }
  assert (Done : forall here last, dead (reply_as c s d v k last) = dead c ->
     reply c s = reply_as c s d v k last ->
     reply_as c s d v k last = reply c s /\ @None fault = None /\
     XI {| x_c := reply_as c s d v k last; x_m := m1; x_here := here; x_mon := x_mon x; x_fault := None |}).
  { intros here last Dl Rl. split; auto. split; auto. clear Rl Rp.
    split; cbn [x_c x_m x_mon]; rewrite ?Dl; change (c_prog (reply_as c s d v k last)) with (c_prog c);
      change (c_chan (reply_as c s d v k last)) with (drop_head (c_chan c) s 0);
      change (c_vals (reply_as c s d v k last)) with (dput (c_vals c) d v); auto.
    - intros s0 e P Md Dd. apply P1 in P. auto.
    - intros e V Sh. unfold dput in V. destruct (did_eqb _ _) eqn:Ee; [|auto].
      assert (e = d) by (apply did_eqb_eq in Ee; auto). subst e.
      destruct local as [u|] eqn:El; [|].
      + apply K1. unfold local in El. destruct (did_in d (x_here x)); [|discriminate]. apply X5; auto. congruence.
      + apply G1; auto. rewrite X3, Sh, Hd. discriminate. }
  assert (Dl : forall last, flat_map (fun x => match x with RCleaned ds => ds | _ => [] end) last = [] ->
                 dead (reply_as c s d v k last) = dead c).
  { intros last H. unfold dead. cbn [c_seen reply_as]. rewrite flat_map_app.
    etransitivity; [|apply app_nil_r]. f_equal. destruct (did_in d (c_ids c)); auto. destruct k; auto.
    destruct (match c_exc c with Some _ => _ | None => _ end); auto. }
  assert (Nil : (k = 0 -> c_exc (reply_as c s d v k []) <> None) -> reply c s = reply_as c s d v k []).
  { intros H. rewrite Rp. unfold reply_as in *. cbn [c_exc] in H. destruct k; auto. specialize (H eq_refl).
    destruct (match c_exc c with Some _ => _ | None => _ end); [reflexivity|tauto]. }
  assert (Rest : reply c s = reply_as c s d v k [] ->
     reply_as c s d v k [] = reply c s /\ @None fault = None /\
     XI {| x_c := reply_as c s d v k []; x_m := m1; x_here := d :: x_here x; x_mon := x_mon x; x_fault := None |}) by (intros; apply Done; auto).
  destruct k as [|k]; [|cbn [x_c x_fault]; apply Rest, Nil; discriminate].
  destruct (c_exc (reply_as c s d v 0 [])) eqn:Ex; [cbn [x_c x_fault]; apply Rest, Nil; intros; congruence|].
  clear Rest Nil.
  assert (Rd := reads_ok (c_prog c) (dead c) m1 (d :: x_here x) (dput (c_vals c) d v) (c_want c) Cd M1 Nv).
  rewrite Rd.
  - cbn [andthen x_c x_fault]. apply Done; auto. apply Dl. unfold got_as. destruct (read_vals _ _); auto.
  - intros e u. unfold dput. destruct (did_eqb _ _) eqn:Ee; [|apply (f_vals _ _ F)].
    apply did_eqb_eq in Ee. intros H. injection H as <-. congruence.
Qed.

(** *** The calls of the root *)
Lemma cnt_mono a b c (ch : rank -> rank -> list wmsg) m : NoDup (introduced (a ++ b)) -> a = c_prog c -> Fit c -> ch = c_chan c ->
  (forall q r d, npk m q r d = if shared a d then nput (ch q r) d else 0) ->
  forall q r d, npk m q r d = if shared (a ++ b) d then nput (ch q r) d else 0.
Proof using.
  intros N -> F -> H q r d. rewrite H. destruct (Nat.eq_dec (nput (c_chan c q r) d) 0) as [Z|Z].
  - rewrite Z. destruct (shared _ _), (shared _ _); auto.
  - apply nput_pos in Z as (v & Z). rewrite (shared_same (c_prog c) b d v); auto. eapply (f_val _ _ F); eauto.
Qed.

(** The invariant when only the program, the messages without values and what was cleaned up grow. *)
Lemma xi_grow x c' m' mon here : XI x -> Fit (x_c x) -> m' = x_m x -> forall b,
  c_prog c' = c_prog (x_c x) ++ b -> NoDup (introduced (c_prog c')) ->
  incl (dead (x_c x)) (dead c') -> c_vals c' = c_vals (x_c x) ->
  (forall q r d, nput (c_chan c' q r) d = nput (c_chan (x_c x) q r) d) ->
  (forall ds, In ds mon -> incl ds (dead c')) ->
  XI {| x_c := c'; x_m := m'; x_here := here; x_mon := mon; x_fault := None |}.
Proof using sizes_fine.
  intros [X1 X2 X3 X4 X5 X6] F -> b Pr N De Vl Ch Mo. rewrite Pr in N.
  split; cbn [x_c x_m x_mon]; rewrite ?Pr, ?Vl; auto.
  - eapply mi_mono; eauto.
  - intros q r d. rewrite Ch. eapply (cnt_mono (c_prog (x_c x)) b (x_c x)); eauto.
  - intros s d P Md Dd. apply X4; auto. eapply made_old; eauto.
    apply puts_written in P. destruct (written (m_ops (x_m x)) d) as [pl|] eqn:W; [|tauto].
    destruct (mi_writ _ _ _ X1 d pl W) as (_ & v & Ev & _). apply (seq_dom body). congruence.
  - intros d V Sh. apply X5; auto. destruct (c_vals (x_c x) d) as [v|] eqn:Ed; [|tauto].
    apply (f_vals _ _ F) in Ed. rewrite <- (shared_same (c_prog (x_c x)) b d v); auto.
Qed.

Lemma in_pushed vals q l r d v : In (r, WPut d v) (pushed vals q l) -> vals d = Some v.
Proof using.
  unfold pushed. intros I. apply in_flat_map in I as ([x g] & _ & J). simpl in J. apply in_map_iff in J as (w & X & J).
  injection X as _ ->. destruct g; simpl in J.
  - destruct (vals d0) eqn:Ed; simpl in J; [|contradiction]. destruct J as [J|[]]. injection J as <- <-. auto.
  - destruct J as [J|[]]. discriminate.
  - destruct J as [J|[]]. discriminate.
Qed.

Lemma step_root x r : XI x -> Fit (x_c x) -> Fit (root_step workers (x_c x) r) ->
  codec (c_prog (x_c x)) -> codec (c_prog (root_step workers (x_c x) r)) -> x_fault x = None ->
  match xroot workers host_of enc dec threshold x r with
  | Fine x' => x_c x' = root_step workers (x_c x) r /\ x_fault x' = None /\ XI x'
  | Stop f => no_room f
  end.
Proof using same_service hosts_known sizes_fine.
  intros X F F' Cd Cd' Ff. assert (Pr := root_prog workers (x_c x) r). assert (Nf := f_fresh _ _ F').
  assert (Prv : forall d v, E (c_prog (x_c x)) d = Some v -> E (c_prog (root_step workers (x_c x) r)) d = Some v).
  { intros d v H. rewrite Pr. apply seq_mono; auto. rewrite <- Pr; auto. }
  assert (Wr : forall d, In d (sputs (m_ops (x_m x))) -> In d (introduced (c_prog (x_c x)))).
  { intros d P. apply puts_written in P. destruct (written (m_ops (x_m x)) d) as [pl|] eqn:W; [|tauto].
    destruct (mi_writ _ _ _ (xi_mi _ X) d pl W) as (_ & v & Ev & _). apply (seq_dom body). congruence. }
  destruct r as [d v|dest q|ds|d|ds]; unfold xroot.
  - (* put *)
    set (c' := root_step workers (x_c x) (RPut d v)) in *.
    assert (M : MI (c_prog c') (dead c') (x_m x)).
    { rewrite Pr. eapply mi_mono; [rewrite <- Pr; auto| |apply (xi_mi _ X)]. unfold dead, c'. simpl. rewrite app_nil_r. apply incl_refl. }
    assert (Ev : E (c_prog c') d = Some v).
    { rewrite Pr. apply seq_put; [rewrite <- Pr; auto|]. apply in_or_app. simpl; auto. }
    assert (Nd : ~ In d (introduced (c_prog (x_c x)))).
    { intros I. rewrite Pr in Nf. unfold introduced in Nf, I. rewrite flat_map_app in Nf. eapply nodup_sep; eauto. simpl; auto. }
    assert (Sh : shared (c_prog c') d = true).
    { unfold shared. rewrite Pr, ClusterRoot.puts_app. apply orb_true_iff. left. apply did_in_In. apply in_or_app. simpl; auto. }
    assert (Fr : fair (c_prog c') (dead c') (x_m x) (SPut 0 d (enc v))).
    { split; [intros I; apply Nd, Wr; auto|]. split; auto. eauto. }
    assert (Y := mdo_ok (c_prog c') (dead c') (x_m x) (SPut 0 d (enc v)) (m_to (x_m x)) Cd' M Fr (mi_len _ _ _ M)).
    destruct (mdo (x_m x) (SPut 0 d (enc v)) (m_to (x_m x))) as [[m1 out]|f]; cbn [andthen fst x_c x_fault]; [|exact Y].
    destruct Y as (M1 & St & To & Op). split; auto. split; auto.
    assert (G := xi_grow x c' (x_m x) (x_mon x) (x_here x) X F eq_refl [RPut d v] Pr Nf).
    assert (Dc : dead c' = dead (x_c x)) by (unfold dead, c'; simpl; rewrite app_nil_r; auto).
    assert (Npk : forall q r e, npk m1 q r e = npk (x_m x) q r e).
    { intros q r e. unfold npk. rewrite To, (fly_step host_of _ _ _ _ St). reflexivity. }
    assert (Kp : forall p e, infos (m_s (x_m x)) p e <> None -> infos (m_s m1) p e <> None).
    { intros p e H. eapply info_keep; eauto. discriminate. }
    assert (Nw : forall p e, infos (m_s m1) p e <> None -> infos (m_s (x_m x)) p e <> None \/ (p = 0 /\ e = d)).
    { intros p e H. apply (infos_new host_of _ _ _ _ _ _ St) in H as [H|[(pl & H)|(k & y & j & H & _)]]; auto; [|discriminate].
      injection H as <- <- _. auto. }
    assert (Ch : forall q r, c_chan c' q r = c_chan (x_c x) q r).
    { intros q r. unfold c'. simpl. destruct (Nat.eqb q 0); auto. apply app_nil_r. }
    rewrite Pr in *. destruct X as [X1 X2 X3 X4 X5 X6].
    split; cbn [x_c x_m x_mon]; rewrite ?Dc, ?Pr; auto.
    + rewrite <- Dc; auto.
    + intros q r e. rewrite Npk, Ch. eapply (cnt_mono (c_prog (x_c x)) [RPut d v] (x_c x)); eauto.
    + intros s e P Md Dd. rewrite Op, puts_app in P. apply in_app_or in P as [P|[<-|[]]].
      * apply Kp, X4; auto. eapply made_old; eauto.
      * exfalso. eapply made_not_put; eauto. rewrite ClusterRoot.puts_app. apply in_or_app. simpl; auto.
    + intros e V She. destruct (did_eqb d e) eqn:Ede.
      * apply did_eqb_eq in Ede. subst e. eapply infos_put; eauto.
      * apply Kp. change (dput (c_vals (x_c x)) d v e <> None) in V. unfold dput in V.
        assert (Eed : did_eqb e d = false) by (apply did_eqb_neq; intros ->; rewrite did_eqb_refl in Ede; discriminate).
        rewrite ?Ede, ?Eed in V. apply X5; auto. destruct (c_vals (x_c x) e) as [u|] eqn:Eu; [|tauto].
        apply (f_vals _ _ F) in Eu. rewrite (shared_same _ _ e u) in She; auto.
    + intros e I. change (dput (c_vals (x_c x)) d v e <> None). unfold dput.
      destruct (did_eqb _ _) eqn:Ede; [discriminate|]. apply Nw in I as [I|[_ ->]]; auto. rewrite did_eqb_refl in Ede. discriminate.
  - (* submit *)
    set (c' := root_step workers (x_c x) (RSubmit dest q)) in *.
    set (out := pushed (c_vals (x_c x)) q (skipn (length (p_out (c_push (x_c x)))) (p_out (c_push c')))).
    assert (Eo : skipn (length (c_out (x_c x))) (c_out c') = out).
    { change (c_out c') with (c_out (x_c x) ++ out). rewrite skipn_app, skipn_all, Nat.sub_diag. reflexivity. }
    rewrite Eo. assert (Ch : forall q r, c_chan c' q r = if Nat.eqb q 0 then c_chan (x_c x) q r ++ sends_to r out else c_chan (x_c x) q r) by reflexivity.
    assert (Dc : dead c' = dead (x_c x)).
    { unfold dead, c'. cbn [root_step root_to c_seen]. rewrite flat_map_app. etransitivity; [|apply app_nil_r]. f_equal.
      destruct (submit _ _ _ _ _ _ _); auto. }
    assert (M : MI (c_prog c') (dead c') (x_m x)).
    { rewrite Pr. eapply mi_mono; [rewrite <- Pr; auto| |apply (xi_mi _ X)]. rewrite Dc. apply incl_refl. }
    assert (Rt : forall d, c_vals (x_c x) d <> None -> shared (c_prog c') d = true -> infos (m_s (x_m x)) 0 d <> None).
    { intros d V Sh. apply (xi_root _ X); auto. destruct (c_vals (x_c x) d) as [u|] eqn:Eu; [|tauto].
      apply (f_vals _ _ F) in Eu. rewrite Pr in Sh. rewrite (shared_same _ _ d u) in Sh; auto; rewrite <- Pr; auto. }
    assert (Iv : forall r d v, In (r, d, v) (values_out out) -> c_vals (x_c x) d = Some v).
    { intros r d v I. apply in_values in I. eapply in_pushed; eauto. }
    assert (Pu := pushes_ok (c_prog c') (dead c') 0 (values_out out) Cd' (x_m x) M).
    assert (Pre : forall r d v, In (r, d, v) (values_out out) -> E (c_prog c') d = Some v /\
      (shared (c_prog c') d = true -> infos (m_s (x_m x)) 0 d = None -> big v = true /\ ~ In d (sputs (m_ops (x_m x))))).
    { intros r d v I. apply Iv in I. split; [apply Prv, (f_vals _ _ F); auto|]. intros Sh Nn. exfalso. apply (Rt d); congruence. }
    specialize (Pu Pre). destruct (pushes (x_m x) 0 (values_out out)) as [m1|f]; cbn [andthen x_c x_fault]; [|exact Pu].
    destruct Pu as (M1 & [S1 S2 S3 S4]). split; auto. split; auto.
    assert (S3' : forall p d, infos (m_s m1) p d <> None -> infos (m_s (x_m x)) p d <> None).
    { intros p d I. assert (I' := I). apply S3 in I' as [I'|(-> & r & v & I')]; auto. apply Rt; [apply Iv in I'; congruence|].
      apply (infos_shared _ _ _ _ _ M1 I). }
    rewrite Pr in *. destruct X as [X1 X2 X3 X4 X5 X6].
    split; cbn [x_c x_m x_mon]; rewrite ?Dc, ?Pr; auto.
    + rewrite <- Dc; auto.
    + intros p r e. rewrite S4, Ch. rewrite (cnt_mono (c_prog (x_c x)) [RSubmit dest q] (x_c x) (c_chan (x_c x)) (x_m x) Nf eq_refl F eq_refl X3).
      destruct (Nat.eqb p 0); cbn [andb]; [|lia].
      rewrite nput_app, ncnt_sends. destruct (shared _ _); lia.
    + intros s e P Md Dd. apply S2. assert (Po : In e (sputs (m_ops (x_m x)))).
      { apply S1 in P as [P|P]; auto. apply S3' in P. apply (infos_shared _ _ _ _ _ X1 P). }
      apply X4; auto. eapply made_old; eauto.
    + intros e I. apply X6, S3'; auto.
  - (* get *)
    assert (Nps : forall b out, (forall r d v, ~ In (WPut d v) (sends_to r out)) -> forall q r d,
       nput (if Nat.eqb q 0 then c_chan (x_c x) q r ++ sends_to r out else b) d =
       nput (if Nat.eqb q 0 then c_chan (x_c x) q r else b) d).
    { intros b out H q r d. destruct (Nat.eqb q 0); auto. rewrite nput_app, (nput_none (sends_to r out)); auto. }
    assert (Nps' : forall out, (forall r d v, ~ In (WPut d v) (sends_to r out)) -> forall q r d,
       nput (if Nat.eqb q 0 then c_chan (x_c x) q r ++ sends_to r out else c_chan (x_c x) q r) d = nput (c_chan (x_c x) q r) d).
    { intros out H q r d. rewrite Nps; auto. destruct (Nat.eqb q 0); auto. }
    cbn [root_step] in *. destruct (filter (fun d => negb (did_in d (p_store (c_push (x_c x))))) ds) as [|y l].
    + assert (Rd := reads_ok (c_prog (x_c x)) (dead (x_c x)) (x_m x) (x_here x) (c_vals (x_c x)) ds Cd (xi_mi _ X) (xi_vals _ X) (f_vals _ _ F)).
      rewrite Rd. cbn [andthen x_c x_fault]. split; [reflexivity|]. split; auto.
      eapply (xi_grow x _ _ _ _ X F eq_refl [RGet ds]); auto.
      * unfold dead. cbn [root_to c_seen]. rewrite flat_map_app. apply incl_appl, incl_refl.
      * intros q r d. cbn [root_to c_chan]. apply Nps'. intros r' d' v' [].
      * intros es I. eapply incl_tran; [apply (xi_mon _ X); auto|].
        unfold dead. cbn [root_to c_seen]. rewrite flat_map_app. apply incl_appl, incl_refl.
    + cbn [x_c x_fault]. split; [reflexivity|]. split; auto.
      destruct (owners (p_owner (c_push (x_c x))) (y :: l)) as [ol|];
      (eapply (xi_grow x _ _ _ _ X F eq_refl [RGet ds]); auto;
       [ unfold dead; cbn [root_to set_get c_seen]; rewrite flat_map_app; apply incl_appl, incl_refl
       | intros q r d; cbn [root_to set_get c_chan]; apply Nps'; intros r' d' v' I; apply in_sends in I; try (apply in_map_iff in I as (? & I & _); discriminate); try (destruct I; fail)
       | intros es I; eapply incl_tran; [apply (xi_mon _ X); auto|];
         unfold dead; cbn [root_to set_get c_seen]; rewrite flat_map_app; apply incl_appl, incl_refl ]).
  - (* the last reference dies *)
    set (c' := root_step workers (x_c x) (RDrop d)) in *.
    assert (Dc : dead c' = dead (x_c x)) by (unfold dead, c'; simpl; rewrite app_nil_r; auto).
    assert (M : MI (c_prog c') (dead c') (x_m x)).
    { rewrite Pr. eapply mi_mono; [rewrite <- Pr; auto| |apply (xi_mi _ X)]. rewrite Dc. apply incl_refl. }
    assert (Y := mdo_ok (c_prog c') (dead c') (x_m x) (SDrop 0 d) (m_to (x_m x)) Cd' M Logic.I (mi_len _ _ _ M)).
    destruct (mdo (x_m x) (SDrop 0 d) (m_to (x_m x))) as [[m1 o]|f]; cbn [andthen fst x_c x_fault]; [|exact Y].
    destruct Y as (M1 & St & To & Op). split; auto. split; auto.
    assert (Npk : forall q r e, npk m1 q r e = npk (x_m x) q r e).
    { intros q r e. unfold npk. rewrite To, (fly_step host_of _ _ _ _ St). reflexivity. }
    assert (Kp : forall p e, infos (m_s (x_m x)) p e <> None -> (p <> 0 \/ e <> d) -> infos (m_s m1) p e <> None).
    { intros p e H Q. eapply info_keep; eauto. intros Z. injection Z as Z1 Z2. destruct Q; congruence. }
    assert (Nw : forall p e, infos (m_s m1) p e <> None -> infos (m_s (x_m x)) p e <> None).
    { intros p e H. apply (infos_new host_of _ _ _ _ _ _ St) in H as [H|[(pl & H)|(k & y & j & H & _)]]; auto; discriminate. }
    assert (Ch : forall q r, c_chan c' q r = c_chan (x_c x) q r).
    { intros q r. unfold c'. simpl. destruct (Nat.eqb q 0); auto. apply app_nil_r. }
    assert (Vd : forall e, c_vals c' e = ddel (c_vals (x_c x)) d e) by reflexivity.
    rewrite Pr in *. destruct X as [X1 X2 X3 X4 X5 X6].
    split; cbn [x_c x_m x_mon]; rewrite ?Dc, ?Pr; auto.
    + rewrite <- Dc; auto.
    + intros q r e. rewrite Npk, Ch. eapply (cnt_mono (c_prog (x_c x)) [RDrop d] (x_c x)); eauto.
    + intros s e P Md Dd. rewrite Op, puts_app in P. simpl in P. rewrite app_nil_r in P. assert (Mo : made (c_prog (x_c x)) s e) by (eapply made_old; eauto).
      apply Kp; [apply X4; auto|]. left. eapply (f_worker _ _ F); eauto.
    + intros e V She. rewrite Vd in V. unfold ddel in V. destruct (did_eqb _ _) eqn:Ede; [tauto|]. apply Kp.
      * apply X5; auto. destruct (c_vals (x_c x) e) as [u|] eqn:Eu; [|tauto].
        apply (f_vals _ _ F) in Eu. rewrite (shared_same _ _ e u) in She; auto.
      * right. intros ->. rewrite did_eqb_refl in Ede. discriminate.
    + intros e I. rewrite Vd. unfold ddel. destruct (did_eqb _ _) eqn:Ede.
      * exfalso. assert (e = d) by (apply did_eqb_eq in Ede; auto). subst e. apply I. eapply infos_drop; eauto.
      * apply X6, Nw; auto.
  - (* a cleanup *)
    cbn [root_step] in *. cbn [x_c x_fault]. split; [reflexivity|]. split; auto.
    destruct (Nat.eqb (mcount (c_mon (x_c x))) (c_tasks (x_c x)));
    (eapply (xi_grow x _ _ _ _ X F eq_refl [RClean ds]); auto;
     [ unfold dead; cbn [root_to c_seen]; rewrite flat_map_app; apply incl_appl, incl_refl
     | intros q r d; cbn [root_to c_chan]; destruct (Nat.eqb q 0); auto; rewrite nput_app, (nput_none (sends_to r _)); auto;
       intros v I; apply in_sends in I; try (apply in_map_iff in I as (? & I & _); discriminate); try (destruct I; fail)
     | ]).
    + intros es I. apply in_app_or in I as [I|[<-|[]]].
      * eapply incl_tran; [apply (xi_mon _ X); auto|]. unfold dead. cbn [root_to c_seen]. rewrite flat_map_app. apply incl_appl, incl_refl.
      * unfold dead. cbn [root_to c_seen]. rewrite flat_map_app. apply incl_appr. simpl. rewrite app_nil_r. apply incl_refl.
    + intros es I. eapply incl_tran; [apply (xi_mon _ X); auto|]. unfold dead. cbn [root_to c_seen]. rewrite flat_map_app. apply incl_appl, incl_refl.
Qed.

Lemma step_mon x : XI x -> Fit (x_c x) -> codec (c_prog (x_c x)) -> x_fault x = None ->
  match xtry workers body host_of enc dec threshold x XMon with
  | Fine x' => x_c x' = x_c x /\ x_fault x' = None /\ XI x'
  | Stop f => no_room f
  end.
Proof using same_service hosts_known sizes_fine.
  intros X F Cd Ff. cbn [xtry]. destruct (x_mon x) as [|ds l] eqn:Em; [auto|].
  assert (Fr : fair (c_prog (x_c x)) (dead (x_c x)) (x_m x) (SCleanup ds)).
  { split; [apply (xi_mon _ X); rewrite Em; simpl; auto|]. intros q d i I. eapply fly_dead; eauto. }
  assert (Y := mdo_ok _ _ _ (SCleanup ds) (m_to (x_m x)) Cd (xi_mi _ X) Fr (mi_len _ _ _ (xi_mi _ X))).
  destruct (mdo (x_m x) (SCleanup ds) (m_to (x_m x))) as [[m1 out]|f]; cbn [andthen fst x_c x_fault]; [|exact Y].
  destruct Y as (M1 & St & To & Op). split; auto. split; auto.
  assert (Npk : forall q r e, npk m1 q r e = npk (x_m x) q r e).
  { intros q r e. unfold npk. rewrite To, (fly_step host_of _ _ _ _ St). reflexivity. }
  assert (Kp : forall p e, infos (m_s (x_m x)) p e <> None -> infos (m_s m1) p e <> None).
  { intros p e H. eapply info_keep; eauto. discriminate. }
  destruct X as [X1 X2 X3 X4 X5 X6]. split; cbn [x_c x_m x_mon]; auto.
  - intros es I. apply X2. rewrite Em. simpl; auto.
  - intros q r e. rewrite Npk. auto.
  - intros s e P Md Dd. apply Kp, X4; auto. rewrite Op, puts_app in P. simpl in P. rewrite app_nil_r in P. auto.
  - intros e I. apply X6. apply (infos_new host_of _ _ _ _ _ _ St) in I as [I|[(pl & I)|(k & y & j & I & _)]]; auto; discriminate.
Qed.

Lemma done_same c s : c_prog (done workers c s) = c_prog c /\ c_chan (done workers c s) = c_chan c /\
  c_vals (done workers c s) = c_vals c /\ dead (done workers c s) = dead c.
Proof using. unfold done, dead. destruct (c_done c s); auto. Qed.

Lemma step_ok x o : XI x -> Fit (x_c x) -> Fit (cstep workers body (x_c x) o) ->
  codec (c_prog (x_c x)) -> codec (c_prog (cstep workers body (x_c x) o)) -> x_fault x = None ->
  match xtry workers body host_of enc dec threshold x (XStep o) with
  | Fine x' => x_c x' = cstep workers body (x_c x) o /\ x_fault x' = None /\ XI x'
  | Stop f => no_room f
  end.
Proof using same_service hosts_known sizes_fine.
  intros X F F' Cd Cd' Ff. destruct o as [r|s d|s|s]; cbn [xtry cstep] in *.
  - destruct (c_left (x_c x)); [|auto]. apply step_root; auto.
  - apply step_take; auto.
  - apply step_reply; auto.
  - cbn [x_c x_fault]. split; auto. split; auto. destruct (done_same (x_c x) s) as (D1 & D2 & D3 & D4).
    eapply (xi_grow x _ _ _ _ X F eq_refl []); auto.
    + rewrite D1, app_nil_r. auto.
    + rewrite D1. apply (f_fresh _ _ F).
    + rewrite D4. apply incl_refl.
    + intros. rewrite D2. auto.
    + intros ds I. rewrite D4. apply (xi_mon _ X); auto.
Qed.

Notation crun := (crun workers body).
Notation xrun := (xrun workers body host_of enc dec threshold).

Lemma codec_prefix a b : NoDup (introduced (a ++ b)) -> codec (a ++ b) -> codec a.
Proof using. intros N H d v Ev. apply (H d v). apply seq_mono; auto. Qed.

Lemma xi_init mgr : XI (xinit mgr sizes).
Proof using.
  split; cbn [x_c x_m x_mon xinit].
  - split; cbn [m_s m_to m_ops]; auto.
    + exact Logic.I.
    + split; constructor.
    + intros d pl H. discriminate.
    + intros h I. cbn [store_init hosts] in I. apply in_map_iff in I as (sz & <- & _). intros y [].
  - intros ds [].
  - intros q r d. unfold npk, nput. cbn [m_s m_to store_init inflight combine filter length cinit c_chan c_prog].
    match goal with |- context [if ?b then _ else _] => destruct b end; reflexivity.
  - intros s d [].
  - intros d H. destruct H. reflexivity.
  - intros d H. destruct H. reflexivity.
Qed.

Lemma plain_snoc ops o : plain (ops ++ [o]) = plain ops ++ match o with XStep c => [c] | XMon => [] end.
Proof using. unfold plain. rewrite flat_map_app. simpl. rewrite app_nil_r. reflexivity. Qed.

Lemma crun_snoc mgr ops o : crun mgr (ops ++ [o]) = cstep workers body (crun mgr ops) o.
Proof using. unfold ClusterModel.crun. rewrite fold_left_app. reflexivity. Qed.

Lemma run_shared mgr ops : good workers body (c_prog (crun mgr (plain ops))) -> codec (c_prog (crun mgr (plain ops))) ->
  (x_fault (xrun mgr sizes ops) = None -> x_c (xrun mgr sizes ops) = crun mgr (plain ops) /\ XI (xrun mgr sizes ops)) /\
  (forall f, x_fault (xrun mgr sizes ops) = Some f -> no_room f /\
     exists pre post, ops = pre ++ post /\ x_c (xrun mgr sizes ops) = crun mgr (plain pre)).
Proof using body_ok no_root no_dup same_service hosts_known sizes_fine.
  induction ops as [|o ops IH] using rev_ind; intros G Cd.
  { split; [|discriminate]. intros _. split; [reflexivity|]. apply xi_init. }
  assert (Pre : good workers body (c_prog (crun mgr (plain ops))) /\ codec (c_prog (crun mgr (plain ops)))).
  { rewrite plain_snoc in G, Cd. destruct o as [o|]; [|rewrite app_nil_r in G, Cd; auto]. rewrite crun_snoc in G, Cd.
    destruct (prog_grows workers body (crun mgr (plain ops)) o) as (l & El). rewrite El in G, Cd.
    split; [eapply good_prefix; eauto|]. eapply codec_prefix; eauto. apply G. }
  destruct Pre as [G0 Cd0]. destruct (IH G0 Cd0) as [A B]. clear IH.
  assert (Es : xrun mgr sizes (ops ++ [o]) = xstep workers body host_of enc dec threshold (xrun mgr sizes ops) o).
  { unfold SharedRunModel.xrun. rewrite fold_left_app. reflexivity. }
  rewrite Es. set (x := xrun mgr sizes ops) in *. clearbody x. unfold xstep.
  destruct (x_fault x) as [f|] eqn:Ef.
  { split; [rewrite Ef; discriminate|]. rewrite Ef. intros f0 Hf. destruct (B f0 Hf) as (Nr & pre & post & -> & Ep). split; auto.
    exists pre, (post ++ [o]). rewrite app_assoc. auto. }
  destruct (A eq_refl) as [Ec X]. clear A B.
  assert (F := run_fit workers body body_ok no_root no_dup mgr (plain ops) G0). rewrite <- Ec in F, Cd0.
  destruct o as [o|].
  - rewrite plain_snoc in *. rewrite crun_snoc in *. rewrite <- Ec in *.
    assert (F' : Fit (cstep workers body (x_c x) o)).
    { rewrite Ec, <- crun_snoc. apply (run_fit workers body body_ok no_root no_dup). rewrite crun_snoc, <- Ec. auto. }
    assert (S := step_ok x o X F F' Cd0 Cd Ef).
    destruct (xtry workers body host_of enc dec threshold x (XStep o)) as [x'|f]; cbn [x_fault].
    + destruct S as (S1 & S2 & S3). split; auto. rewrite S2. discriminate.
    + split; [discriminate|]. intros f0 H. injection H as <-. split; [auto|]. exists ops. eexists. split; [reflexivity|auto].
  - rewrite plain_snoc, app_nil_r in *.
    assert (S := step_mon x X F Cd0 Ef).
    destruct (xtry workers body host_of enc dec threshold x XMon) as [x'|f]; cbn [x_fault].
    + destruct S as (S1 & S2 & S3). split; [intros; split; congruence|]. rewrite S2. discriminate.
    + split; [discriminate|]. intros f0 H. injection H as <-. split; [auto|]. exists ops. eexists. split; [reflexivity|auto].
Qed.

(** What get returned or raised, also before the system stopped. *)
Lemma gets_right mgr ops : good workers body (c_prog (crun mgr (plain ops))) -> codec (c_prog (crun mgr (plain ops))) ->
  (forall ds vs, In (RGot ds vs) (c_seen (x_c (xrun mgr sizes ops))) ->
     Forall2 (fun d v => E (c_prog (crun mgr (plain ops))) d = Some v) ds vs) /\
  (forall ds e, In (RRaised ds e) (c_seen (x_c (xrun mgr sizes ops))) ->
     exists d, In d ds /\ E (c_prog (crun mgr (plain ops))) d = Some (VExc e)).
Proof using body_ok no_root no_dup same_service hosts_known sizes_fine.
  intros G Cd. destruct (run_shared mgr ops G Cd) as [A B].
  assert (P : exists pre post, ops = pre ++ post /\ x_c (xrun mgr sizes ops) = crun mgr (plain pre)).
  { destruct (x_fault (xrun mgr sizes ops)) as [f|]; [apply (B f eq_refl)|]. exists ops, []. rewrite app_nil_r. split; auto. apply A; auto. }
  destruct P as (pre & post & -> & ->).
  assert (Gr : exists l, c_prog (crun mgr (plain (pre ++ post))) = c_prog (crun mgr (plain pre)) ++ l).
  { clear. induction post as [|o post IH] using rev_ind.
    - exists []. rewrite !app_nil_r. auto.
    - destruct IH as (l & IH). rewrite app_assoc, plain_snoc. destruct o as [o|]; [|rewrite app_nil_r; eauto].
      rewrite crun_snoc. destruct (prog_grows workers body (crun mgr (plain (pre ++ post))) o) as (l' & ->).
      rewrite IH. exists (l ++ l'). rewrite app_assoc. auto. }
  destruct Gr as (l & Gr). rewrite Gr in *. assert (Nd : NoDup (introduced (c_prog (crun mgr (plain pre)) ++ l))) by apply G.
  apply good_prefix in G. assert (Cb := run_cb workers body body_ok mgr (plain pre) (proj1 G)). split.
  - intros ds vs H. apply (cb_seen _ _ Cb) in H. simpl in H. clear - H Nd. induction H; constructor; auto. apply seq_mono; auto.
  - intros ds e H. apply (cb_seen _ _ Cb) in H. destruct H as (d & I & H). exists d. split; auto. apply seq_mono; auto.
Qed.
End SR.

Section Final.
Variable workers : list rank.
Variable body : val -> val -> val -> result.
Variable host_of : rank -> nat.
Variable sizes : list (Z * Z).
Variable enc : val -> payload.
Variable dec : payload -> option val.
Variable threshold : nat.
Variable mgr : manager.
Variable ops : list xop.
Hypothesis body_ok : forall f a k, no_refs_returned (body f a k).
Hypothesis no_root : ~ In 0 workers.
Hypothesis no_dup : NoDup workers.
Hypothesis mem_ok : memory_fine host_of sizes.
Notation prog := (c_prog (crun workers body mgr (plain ops))).
Hypothesis V : valid workers prog.
Hypothesis T : tidy prog.
Hypothesis R : returns_enough body prog.
Hypothesis O : one_source prog.
Hypothesis Rt : round_trips body enc dec prog.
Notation x := (xrun workers body host_of enc dec threshold mgr sizes ops).

Lemma final : (x_fault x = None -> x_c x = crun workers body mgr (plain ops)) /\
  (forall f, x_fault x = Some f -> for_lack_of_memory host_of f).
Proof.
  destruct mem_ok as (M1 & M2 & M3).
  destruct (run_shared workers body body_ok no_root no_dup host_of sizes enc dec threshold M1 M2 M3 mgr ops
              (conj V (conj T (conj R O))) Rt) as [A B]. split.
  - intros H. apply A; auto.
  - intros f H. apply (B f H).
Qed.

Lemma final_gets : (forall ds vs, In (RGot ds vs) (c_seen (x_c x)) -> Forall2 (fun d v => sequential body prog d = Some v) ds vs) /\
  (forall ds e, In (RRaised ds e) (c_seen (x_c x)) -> exists d, In d ds /\ sequential body prog d = Some (VExc e)).
Proof.
  destruct mem_ok as (M1 & M2 & M3).
  exact (gets_right workers body body_ok no_root no_dup host_of sizes enc dec threshold M1 M2 M3 mgr ops
              (conj V (conj T (conj R O))) Rt).
Qed.

(** No package about cleaned data is under way, in particular when the monitors free its memory. *)
Lemma final_quiet : x_fault x = None -> forall ds p d i, In (RCleaned ds) (c_seen (x_c x)) -> In d ds ->
  ~ In (p, d, i) (inflight (m_s (x_m x))).
Proof.
  intros Nf ds p d i Sn D I. destruct mem_ok as (M1 & M2 & M3).
  destruct (run_shared workers body body_ok no_root no_dup host_of sizes enc dec threshold M1 M2 M3 mgr ops
              (conj V (conj T (conj R O))) Rt) as [A _]. destruct (A Nf) as [Ec X].
  eapply fly_dead; [exact X| |exact I|].
  - rewrite Ec. apply (run_fit workers body body_ok no_root no_dup). exact (conj V (conj T (conj R O))).
  - unfold dead. apply in_flat_map. exists (RCleaned ds). auto.
Qed.
End Final.
