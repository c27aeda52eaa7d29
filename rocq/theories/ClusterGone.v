(** No worker that has taken a cleanup keeps or gets again what was cleaned up, if no worker has two sources for a value. *)
From Verif Require Import Lib ValModel ShmModel PushModel PushProofs WorkerModel WorkerSpec WorkerLog WorkerTrace
  WorkerAnswer WorkerOrder WorkerThms WorkerSends WorkerWant WorkerNeed WorkerKept MonModel ShutProofs ClusterModel ClusterSpec ClusterSeq
  ClusterProofs ClusterCount ClusterRoot ClusterNet ClusterGhost ClusterEnd ClusterClean ClusterQuiet.

Section Gone.
Variable workers : list rank.
Variable body : val -> val -> val -> result.
Hypothesis body_ok : forall f a k, no_refs_returned (body f a k).
Hypothesis no_root : ~ In 0 workers.
Hypothesis no_dup : NoDup workers.
Notation crun := (crun workers body).
Notation Sim := (Sim workers body).

Lemma one_prefix a b : one_source (a ++ b) -> one_source a.
Proof using.
  intros O x w q1 y ds e q2 f s q d -> I. eapply (O x w q1 y ds e q2 (f ++ b)).
  - rewrite <- !app_assoc. simpl. rewrite <- !app_assoc. simpl. rewrite <- !app_assoc. reflexivity.
  - apply in_or_app; auto.
Qed.

Definition NG (c : cst) : Prop := forall w d, w <> 0 -> In d (forgot c w) -> store (c_work c w) d = None.

Lemma ng_same c c' : NG c -> (forall w, w <> 0 -> c_work c' w = c_work c w) -> (forall w, w <> 0 -> c_in c' w = c_in c w) -> NG c'.
Proof using. intros H W I w d N D. rewrite W by auto. apply H; auto. unfold forgot in *. rewrite <- I; auto. Qed.

Lemma real_made c g w d v : Sim c g -> CB body c -> w <> 0 -> In (EvStore d v) (log (c_work c w)) -> made (c_prog c) w d.
Proof using body_ok.
  intros S Bc N I.
  destruct (facts workers body body_ok c (s_valid _ _ _ _ S) Bc w N) as (Wc & _ & Ic & _).
  destruct (good_store body no_method _ (wi_good _ _ _ Wc) d v I) as (q & Q & D).
  apply (made_keep workers body c g w d S). destruct (s_proper _ _ _ _ S) as [V R B L Ln Rk].
  assert (St := ln_stream _ _ Ln). exists q. split; auto.
  apply (box_submitted workers body body_ok g V B L St w q N).
  destruct (facts workers body body_ok g V B w N) as (_ & _ & Ig & _).
  rewrite received_inputs, Ic in Q. rewrite received_inputs, Ig, (s_in _ _ _ _ S).
  unfold requests in *. apply in_flat_map in Q as (m & M & Q). apply in_flat_map. exists m. split; auto.
  apply in_map_iff in M as ([s y] & <- & M). apply in_map_iff. exists (s, y). split; auto. apply filter_In. split; auto.
  unfold keep_in. simpl in *. destruct y; simpl in *; tauto.
Qed.

Lemma ng_take c g c' g' s w : c' = take body c s w -> Sim c g -> RT c -> one_source (c_prog c) -> CB body c ->
  Sim c' g' -> CB body c' -> NG c -> NG c'.
Proof using body_ok no_root no_dup.
  intros Ec S Rt One Bc S' Bc' H. unfold take in Ec. destruct (c_chan c s w) as [|m l] eqn:Ch in Ec; [subst; auto|].
  destruct (Nat.eq_dec w 0) as [->|Nw]; [subst; auto|]. rewrite (proj2 (Nat.eqb_neq w 0) Nw), (s_alive _ _ _ _ S) in Ec.
  cbn [orb] in Ec.
  destruct (wstep w body no_method plain_fn (c_work c w) m) as [w'|] eqn:Ws in Ec.
  2:{ subst c'. apply (ng_same c); auto. }
  intros x d Nx D. destruct (Nat.eq_dec x w) as [->|Nxw].
  2:{ rewrite Ec. cbn [c_work]. destruct (Nat.eqb_spec x w); [tauto|]. apply H; auto.
      revert D. rewrite Ec. unfold forgot. cbn [c_in]. destruct (Nat.eqb_spec x w); tauto. }
  assert (Ew : c_work c' w = w') by (rewrite Ec; cbn [c_work]; rewrite Nat.eqb_refl; auto).
  assert (Ei : c_in c' w = c_in c w ++ [(s, m)]) by (rewrite Ec; cbn [c_in]; rewrite Nat.eqb_refl; auto).
  assert (Ep : c_prog c' = c_prog c) by (rewrite Ec; auto). clear Ec.
  destruct (facts workers body body_ok c (s_valid _ _ _ _ S) Bc w Nw) as (Wc & _ & Ic & _).
  destruct (facts workers body body_ok c' (s_valid _ _ _ _ S') Bc' w Nw) as (Wc' & _ & Ic' & _).
  assert (Nr : forall d v, m = WPut d v -> refs v = []).
  { intros a v ->. apply (seq_clean workers body body_ok (c_prog c) a v (s_valid _ _ _ _ S)).
    apply (cb_chan _ _ Bc s w (WPut a v)). rewrite Ch. simpl; auto. }
  destruct (grow_step w body no_method plain_fn body_ok no_method_ok _ _ _ Wc Nr Ws) as ((t & El & Gr) & Cl).
  rewrite Ew in *. destruct (store w' d) as [v|] eqn:Sv; auto. exfalso.
  unfold forgot in D. rewrite Ei, map_app, cleans_app in D. apply in_app_or in D as [D|D].
  2:{ simpl in D. destruct m; try destruct D. simpl in D. rewrite app_nil_r in D.
      assert (Rd : ready (c_work c w) = false).
      { rewrite (rw_ready _ _ _ _ _ (s_rw _ _ _ _ S w Nw)). eapply sim_ready; eauto. }
      rewrite (Cl ds d eq_refl Rd D) in Sv. discriminate. }
  destruct (Gr d v Sv) as [X|[X|X]].
  - rewrite (H w d Nw D) in X. discriminate.
  - assert (Em : m = WPut d v).
    { apply in_inputs in X. rewrite El, inputs_app, Ic, Ei, map_app in Ic'. apply app_inv_head in Ic'. simpl in Ic'.
      rewrite Ic' in X. destruct X as [X|[]]; auto. }
    subst m. apply (quiet workers body body_ok no_root no_dup c g s w d v S Rt One); [|rewrite Ch; simpl; auto].
    apply (s_known _ _ _ _ S w). exact D.
  - assert (M : made (c_prog c') w d).
    { apply (real_made c' g' w d v); auto. rewrite Ew, El. apply in_or_app; auto. }
    assert (Z : store w' d = None); [|congruence]. rewrite <- Ew.
    apply (rw_gone _ _ _ _ _ (s_rw _ _ _ _ S' w Nw)).
    + unfold forgot. rewrite Ei, map_app, cleans_app. apply in_or_app. auto.
    + left. apply (made_keep workers body c' g' w d S'); auto.
Qed.

Lemma run_ng mgr ops : valid workers (c_prog (crun mgr ops)) -> tidy (c_prog (crun mgr ops)) ->
  returns_enough body (c_prog (crun mgr ops)) -> one_source (c_prog (crun mgr ops)) -> NG (crun mgr ops).
Proof using body_ok no_root no_dup.
  induction ops as [|o ops IH] using rev_ind; intros V T R One.
  - intros w d _ [].
  - assert (V0 := valid_before workers body mgr ops o V).
    destruct (run_sim workers body body_ok no_root no_dup mgr _ V T R) as (g' & S').
    assert (B' := run_cb workers body body_ok mgr _ V). rewrite crun_snoc in *.
    destruct (prog_grows workers body (crun mgr ops) o) as (l & G).
    assert (T0 : tidy (c_prog (crun mgr ops))) by (rewrite G in T; eapply tidy_prefix; eauto).
    assert (R0 : returns_enough body (c_prog (crun mgr ops))) by (rewrite G in R; eapply enough_prefix; eauto).
    assert (O0 : one_source (c_prog (crun mgr ops))) by (rewrite G in One; eapply one_prefix; eauto).
    assert (B := run_cb workers body body_ok mgr ops V0).
    destruct (run_sim workers body body_ok no_root no_dup mgr _ V0 T0 R0) as (g & S).
    assert (Rt := run_rt workers body body_ok no_root no_dup mgr ops V0 T0 R0).
    specialize (IH V0 T0 R0 O0). clear G l. set (c := crun mgr ops) in *. clearbody c.
    destruct o as [r|s w|s|s]; cbn [ClusterModel.cstep] in *.
    + destruct (c_left c) eqn:Lf; auto. apply (ng_same c); auto; intros w _; destruct r; cbn [root_step]; cbv zeta; auto.
      * destruct (filter _ _); auto. destruct (owners _ _); auto.
      * destruct (_ =? _); auto.
      * destruct (filter _ _); auto. destruct (owners _ _); auto.
      * destruct (_ =? _); auto.
    + eapply ng_take; eauto.
    + apply (ng_same c); auto; intros w N; unfold reply; destruct (c_left c); auto; destruct (c_chan c s 0) as [|[]]; auto;
        cbn [c_work c_in]; auto. destruct (Nat.eqb_spec w 0); tauto.
    + apply (ng_same c); auto; intros w N; unfold done; destruct (c_done c s); auto.
Qed.

(** C60. *)
Lemma one_source_gone mgr ops : let c := crun mgr ops in valid workers (c_prog c) -> tidy (c_prog c) ->
  returns_enough body (c_prog c) -> one_source (c_prog c) ->
  (forall src ds d w, In (src, WClean ds) (c_in c w) -> In d ds -> w <> 0 -> store (c_work c w) d = None) /\
  forall ds d, In (RCleaned ds) (c_seen c) -> In d ds ->
    (forall s w v, ~ In (WPut d v) (c_chan c s w)) /\
    (idle c -> forall w, In w workers -> store (c_work c w) d = None).
Proof using body_ok no_root no_dup.
  cbv zeta. intros V T R One. assert (H := run_ng mgr ops V T R One).
  destruct (run_sim workers body body_ok no_root no_dup mgr ops V T R) as (g & S).
  assert (A : forall src ds d w, In (src, WClean ds) (c_in (crun mgr ops) w) -> In d ds -> w <> 0 ->
    store (c_work (crun mgr ops) w) d = None).
  { intros src ds d w I D N. apply H; auto. unfold forgot, cleans. apply in_flat_map. exists (WClean ds). split; auto.
    apply in_map_iff. exists (src, WClean ds). auto. }
  split; auto. intros ds d Sn D. split.
  - intros s w v. eapply cleaned_quiet; eauto. unfold dead. apply in_flat_map. exists (RCleaned ds). auto.
  - intros I w W. destruct (s_sent _ _ _ _ S ds w Sn W) as [X|X]; [|rewrite I in X; destruct X].
    eapply A; eauto. intros ->. auto.
Qed.
End Gone.
