(** The theorems about wait in the whole system. *)
From Verif Require Import Lib ValModel ShmModel ShmRaceProofs PushModel PushProofs WorkerModel WorkerSpec WorkerLog WorkerAnswer
  WorkerTrace WorkerOrder WorkerThms WorkerSends WorkerDone WorkerFew MonModel MonSpec MonProofs CtrlModel CtrlProofs ClusterModel
  ClusterSpec ClusterSeq ClusterProofs ClusterCount ClusterRoot ClusterNet ActModel ActSpec ActGives ActProofs ActCount ActRoot ActNet ActEnd
  WaitModel WaitSpec WaitFin WaitProofs.
From Coq Require Import Permutation.

Section Thms.
Variable workers : list rank.
Variable body : val -> val -> val -> result.
Variable mbody : list call -> call -> result.
Variable is_async : callee -> bool.
Hypothesis body_ok : forall f a k, no_refs_returned (body f a k).
Hypothesis mbody_ok : forall h c, no_refs_returned (mbody h c).
Notation grun := (grun workers body mbody is_async).
Notation gstep := (gstep workers body mbody is_async).
Notation vrun := (vrun workers body mbody is_async).
Notation vstep := (vstep workers body mbody is_async).

Lemma wait_sound mgr ops : let v := vrun mgr ops in gvalid (g_prog (v_g v)) ->
  forall ds n r nr, In (WGave ds n r nr) (v_seen v) ->
  (1 <= n <= Z.of_nat (length ds))%Z /\ Permutation (r ++ nr) ds /\ Z.of_nat (length r) = n /\ Forall (finished (v_g v)) r.
Proof using body_ok mbody_ok.
  cbv zeta. intros V ds n r nr I.
  destruct (vi_seen _ (run_vi workers body mbody is_async body_ok mbody_ok mgr ops V) _ I) as (N & P & L & F).
  split; auto. apply Permutation_length in P. rewrite app_length in P. lia.
Qed.

Lemma waits_in_order mgr ops : let v := vrun mgr ops in gvalid (g_prog (v_g v)) ->
  map call_of (v_seen v) ++ waiting v = v_calls v /\ forall ds n, ~ In (WFailed ds n) (v_seen v).
Proof using body_ok mbody_ok.
  cbv zeta. intros V. assert (X := run_vi workers body mbody is_async body_ok mbody_ok mgr ops V).
  split; [symmetry; apply (vi_calls _ X)|]. intros ds n I. exact (vi_seen _ X _ I).
Qed.

Lemma waits_transparent mgr ops : exists ops', let g := grun mgr ops' in let c := g_c g in
  let c' := g_c (v_g (vrun mgr ops)) in
  g_prog g = g_prog (v_g (vrun mgr ops)) /\ c_seen c = c_seen c' /\ c_vals c = c_vals c' /\ c_work c = c_work c' /\
  c_chan c = c_chan c' /\ c_left c = c_left c'.
Proof using.
  destruct (erased workers body mbody is_async mgr ops) as (gops & m & E & _). exists gops. cbv zeta. rewrite E. repeat split.
Qed.

Lemma wait_returns mgr ops : let v := vrun mgr ops in gvalid (g_prog (v_g v)) -> settled v ->
  forall ds n l l', In (ds, n) (v_calls v) -> Permutation (l ++ l') ds -> Forall (ended_well (v_g v)) l ->
  (1 <= n <= Z.of_nat (length l))%Z -> exists r nr, In (WGave ds n r nr) (v_seen v).
Proof using body_ok mbody_ok.
  cbv zeta. intros V S ds n l l' W P F L.
  destruct (waits_in_order mgr ops V) as [C Nf]. rewrite <- C in W. apply in_app_or in W as [W|W].
  - apply in_map_iff in W as (x & X & W). destruct x as [ds' n' r nr|ds' n']; [|exfalso; eapply Nf; eauto].
    simpl in X. apply pair_inj in X as [-> ->]. eauto.
  - exfalso. assert (Y := wait_over workers body mbody is_async body_ok mbody_ok mgr ops V S ds n W ltac:(lia) l l' P F). lia.
Qed.

Lemma put_held mgr ops d v : let g := grun mgr ops in In (GP (RPut d v)) (g_prog g) -> ~ In (GP (RDrop d)) (g_prog g) ->
  c_vals (g_c g) d <> None.
Proof using.
  cbv zeta. induction ops as [|o ops IH] using rev_ind; [intros []|]. rewrite grun_snoc. set (g := grun mgr ops) in *.
  destruct o as [p|s x|s|s|x i]; cbn [ActModel.gstep g_c g_prog].
  - destruct (c_left (g_c g)); auto. cbn [g_c g_prog]. intros I N. apply in_app_or in I.
    assert (N0 : ~ In (GP (RDrop d)) (g_prog g)) by (intros X; apply N, in_or_app; auto).
    assert (Keep : In (GP (RPut d v)) (g_prog g) -> c_vals (g_c g) d <> None) by auto.
    destruct p as [o|dest nd q]; [|destruct I as [I|[I|[]]]; [apply Keep; auto|discriminate]].
    destruct o as [d' v'|dest q|ds|d'|ds]; cbn [root_step].
    + cbn [c_vals root_to]. destruct (did_dec d' d) as [->|Nd]; [rewrite dput_same; discriminate|]. rewrite dput_other by auto.
      destruct I as [I|[I|[]]]; auto. inversion I; subst; tauto.
    + destruct I as [I|[I|[]]]; [apply Keep; auto|discriminate].
    + destruct I as [I|[I|[]]]; [|discriminate]. cbv zeta. destruct (filter _ ds); [apply Keep; auto|]. destruct (owners _ _); apply Keep; auto.
    + destruct I as [I|[I|[]]]; [|discriminate]. cbn [c_vals root_to].
      assert (Nd : d' <> d) by (intros ->; apply N, in_or_app; simpl; auto). rewrite ddel_other by auto. apply Keep; auto.
    + destruct I as [I|[I|[]]]; [|discriminate]. destruct (_ =? _); apply Keep; auto.
  - unfold gtake. destruct (c_chan (g_c g) s x); auto. destruct (_ || _); auto. unfold deal. destruct (wstep _ _ _ _ _ _); auto.
  - unfold reply. destruct (c_left (g_c g)); auto. destruct (c_chan (g_c g) s 0) as [|m l]; auto. destruct m; auto. cbn [c_vals].
    intros I N. destruct (did_dec d0 d) as [->|Nd]; [rewrite dput_same; discriminate|]. rewrite dput_other by auto. auto.
  - unfold done. destruct (c_done (g_c g) s); auto.
  - unfold finish. destruct (nth_error _ _); auto. destruct (_ || _); auto. unfold deal. destruct (wstep _ _ _ _ _ _); auto.
Qed.

Hypothesis all_sync : forall c, is_async c = false.
Hypothesis no_root : ~ In 0 workers.
Hypothesis no_dup : NoDup workers.

Lemma waits_not_stuck mgr ops : let v := vrun mgr ops in let prog := g_prog (v_g v) in
  gvalid prog -> valid workers (map as_task prog) -> tidy (map as_task prog) ->
  (forall ds, ~ In (GP (RClean ds)) prog) -> greturns_enough body mbody prog -> separate prog ->
  (forall w, c_dead (g_c (v_g v)) w = false) /\ ~ In RError (c_seen (g_c (v_g v))) /\
  (settled v -> c_left (g_c (v_g v)) = 0 /\ over v /\
    (none_failed (v_g v) -> forall ds n, In (ds, n) (v_calls v) -> Forall (usable prog) ds -> (1 <= n <= Z.of_nat (length ds))%Z ->
      exists r nr, In (WGave ds n r nr) (v_seen v))).
Proof using body_ok mbody_ok all_sync no_root no_dup.
  cbv zeta. intros GV V T Nc R Sp.
  destruct (erased workers body mbody is_async mgr ops) as (gops & m & E & _).
  assert (X := act_not_stuck workers body mbody is_async body_ok mbody_ok all_sync no_root no_dup mgr gops).
  assert (Pu := put_held mgr gops).
  assert (Be : forall w, w <> 0 -> all_enough (log (c_work (g_c (v_g (vrun mgr ops))) w))).
  { destruct (act_run workers body mbody is_async body_ok mbody_ok all_sync no_root no_dup mgr gops) as (ndf & P & _); rewrite ?E; auto.
    destruct P as [P1 P2 P3 P4 P5 P6 [N1 N2 N3] P8].
    assert (Y := box_enough workers body mbody is_async body_ok mbody_ok ndf _ _ P1 P2 P3 P4 P5 P6 N2). rewrite E in Y. exact Y. }
  cbv zeta in X, Pu. rewrite E in X, Pu. cbn [with_mon g_prog g_c set_mon c_dead c_seen c_left c_work c_chan c_vals] in X, Pu.
  destruct (X GV V T Nc R Sp) as (X1 & X2 & X3). split; auto. split; auto. intros S.
  destruct S as (S1 & S2). destruct (X3 S1) as [Y1 Y2]. split; auto. split; auto.
  intros NF ds n W U Ln.
  assert (Z0 := wait_returns mgr ops GV (conj S1 S2) ds n ds [] W). rewrite app_nil_r in Z0.
  apply Z0; auto. eapply Forall_impl; [|exact U].
  intros d [(x & I & N)|(dest & q & I & D)]; [left; eapply Pu; eauto|].
  destruct (run_known workers body mbody is_async body_ok mbody_ok mgr ops GV) as [B _].
  assert (En := Y2 dest q I). right. unfold ended in En. apply in_flat_map in En as (e & Ie & Xe).
  destruct e; simpl in Xe; try tauto. destruct Xe as [->|[]].
  destruct r as [u|e]; [|exfalso; eapply NF; eauto]. exists dest, q, u. split; auto. split; auto. split; auto.
  assert (Nw : dest <> 0). { intros ->. rewrite (ab_zero _ _ _ _ _ B) in Ie. destruct Ie. }
  assert (Oi : forall y, In y (map snd (c_in (g_c (v_g (vrun mgr ops))) dest)) ->
    aokm body mbody is_async (g_prog (v_g (vrun mgr ops))) (hist (g_c (v_g (vrun mgr ops)))) dest y).
  { intros y Xy. apply in_map_iff in Xy as ([s z] & <- & Xy). eapply ab_in; eauto. }
  destruct (ainbox body mbody is_async body_ok mbody_ok _ _ _ _ GV Oi) as (Nr & _).
  destruct (success_told dest body mbody is_async body_ok mbody_ok _ _ Nr (ab_run _ _ _ _ _ B dest Nw) _ _ Ie) as (q' & Q' & Id & _).
  assert (q' = q) by (eapply (same_request body mbody is_async); eauto). subst q'.
  apply (Be dest Nw _ _ _ Ie Q' eq_refl).
Qed.
End Thms.
