(** A program that waits for a result of a call before it makes the next call on the same worker. *)
From Verif Require Import Lib ValModel ShmModel PushModel WorkerModel WorkerSpec WorkerProofs WorkerLog WorkerTrace MonModel
  ClusterModel ClusterSpec ClusterSeq ActModel ActSpec ActGives ActProofs ActCount ActThms ActOrder.

Section Waits.
Variable workers : list rank.
Variable body : val -> val -> val -> result.
Variable mbody : list call -> call -> result.
Variable is_async : callee -> bool.
Hypothesis body_ok : forall f a k, no_refs_returned (body f a k).
Hypothesis mbody_ok : forall h c, no_refs_returned (mbody h c).
Notation grun := (grun workers body mbody is_async).
Notation gstep := (gstep workers body mbody is_async).

(** What calls have returned stays. *)
Lemma step_seen g o : exists l, c_seen (g_c (gstep g o)) = c_seen (g_c g) ++ l.
Proof.
  assert (Z : forall c, exists l, c_seen c = c_seen c ++ l) by (intros c; exists []; rewrite app_nil_r; auto).
  assert (Dl : forall c s d m ch, exists l, c_seen (deal body mbody is_async c s d m ch) = c_seen c ++ l).
  { intros c s d m ch. unfold deal. destruct (wstep _ _ _ _ _ _); cbn [c_seen]; auto. }
  destruct o; cbn [ActModel.gstep].
  - destruct (c_left (g_c g)); cbn [g_c]; auto. destruct p as [o|dest nd q].
    + destruct o; cbn [root_step]; cbv zeta; try (eexists; cbn [root_to c_seen]; reflexivity).
      * destruct (filter _ _); [eexists; cbn [root_to c_seen]; reflexivity|].
        destruct (owners _ _); eexists; cbn [set_get root_to c_seen]; reflexivity.
      * destruct (Nat.eqb _ _); eexists; cbn [root_to c_seen]; reflexivity.
    + unfold root_call. cbv zeta. eexists. cbn [c_seen]. reflexivity.
  - cbn [g_c]. unfold gtake. destruct (c_chan _ _ _); auto. destruct (_ || _); auto.
  - cbn [g_c]. unfold reply. destruct (c_left _); [auto|]. destruct (c_chan _ _ _) as [|[] ?]; auto. cbv zeta.
    eexists. cbn [c_seen]. reflexivity.
  - cbn [g_c]. unfold done. destruct (c_done _ _); cbn [c_seen]; auto.
  - cbn [g_c]. unfold finish. destruct (nth_error _ _); auto. destruct (_ || _); auto.
Qed.

Lemma run_seen mgr ops more : incl (c_seen (g_c (grun mgr ops))) (c_seen (g_c (grun mgr (ops ++ more)))).
Proof.
  induction more as [|o more IH] using rev_ind; [rewrite app_nil_r; apply incl_refl|].
  rewrite app_assoc, grun_snoc. destruct (step_seen (grun mgr (ops ++ more)) o) as (l & ->).
  apply incl_appl. exact IH.
Qed.

(** The moment at which the program made a call. *)
Lemma moment mgr p x d : forall ops, g_prog (grun mgr ops) = p ++ x :: d ->
  exists pre post, ops = pre ++ post /\ g_prog (grun mgr pre) = p /\ c_left (g_c (grun mgr pre)) = 0.
Proof.
  intros ops. revert d. induction ops as [|o ops IH] using rev_ind; intros d E.
  - destruct p; discriminate.
  - assert (Old : g_prog (grun mgr ops) = p ++ x :: d \/
      exists y, c_left (g_c (grun mgr ops)) = 0 /\ g_prog (grun mgr ops) ++ [y] = p ++ x :: d).
    { rewrite grun_snoc in E. destruct o; cbn [ActModel.gstep g_prog] in E; auto.
      destruct (c_left (g_c (grun mgr ops))) eqn:L; auto. right. exists p0. auto. }
    destruct Old as [Old|(y & L & Old)].
    + destruct (IH d Old) as (pre & post & -> & P & L). exists pre, (post ++ [o]). rewrite app_assoc. auto.
    + destruct d as [|z d] using rev_ind.
      * apply app_inj_tail in Old as [Old _]. exists ops, [o]. auto.
      * rewrite app_comm_cons, app_assoc in Old. apply app_inj_tail in Old as [Old _].
        destruct (IH d Old) as (pre & post & -> & P & L'). exists pre, (post ++ [o]). rewrite app_assoc. auto.
Qed.

Lemma waited mgr ops : let g := grun mgr ops in gvalid (g_prog g) -> ~ In RError (c_seen (g_c g)) ->
  forall a w nd1 q1 b ds b' nd2 q2 d x,
  g_prog g = a ++ GC w nd1 q1 :: b ++ GP (RGet ds) :: b' ++ GC w nd2 q2 :: d ->
  In x (out_ids (q_out q1)) -> In x ds -> (forall e, In (RRaised ds e) (c_seen (g_c g)) -> ds = [x]) ->
  In (q_id q2) (map fst (history_of g w)) -> precedes (q_id q1) (q_id q2) (map fst (history_of g w)) \/
  exists env, (forall x, In x (qrefs q1) -> gives body mbody (g_prog g) (history_of g) x (env x)) /\
     first_failure (arguments (subst env (q_args q1)) (subst env (q_kwargs q1))) <> None.
Proof.
  cbv zeta. intros V NE a w nd1 q1 b ds b' nd2 q2 d x E X1 Xd Rs I2.
  assert (E' : g_prog (grun mgr ops) = (a ++ GC w nd1 q1 :: b ++ GP (RGet ds) :: b') ++ GC w nd2 q2 :: d).
  { rewrite E, <- app_assoc. cbn [app]. rewrite <- app_assoc. reflexivity. }
  destruct (moment mgr _ _ _ ops E') as (pre & post & Eo & P & L). subst ops.
  assert (Sn := run_seen mgr pre post).
  destruct (run_grows workers body mbody is_async body_ok mbody_ok mgr pre post V) as (Gr & lp & Lp).
  assert (V0 : gvalid (g_prog (grun mgr pre))) by (rewrite Lp in V; eapply gvalid_prefix; eauto).
  assert (St := values_stay workers body mbody is_async body_ok mbody_ok mgr pre post V).
  assert (O := run_ao workers body mbody is_async mgr pre).
  assert (Hr := history_real workers body mbody is_async body_ok mbody_ok mgr pre V0).
  assert (GX : exists v, gives body mbody (g_prog (grun mgr pre)) (history_of (grun mgr pre)) x v).
  { destruct (ao_get _ _ O ds) as [X|[[X _]|[(e & X)|(vs & X)]]].
    - rewrite P. apply in_or_app. right. right. apply in_or_app. simpl; auto.
    - destruct NE. apply Sn. exact X.
    - congruence.
    - assert (Y := Rs e (Sn _ X)). subst ds.
      destruct (raised_values workers body mbody is_async body_ok mbody_ok mgr pre V0 _ _ X) as (y & [<-|[]] & Y). eauto.
    - assert (F := got_values workers body mbody is_async body_ok mbody_ok mgr pre V0 _ _ X).
      clear - F Xd. induction F as [|d v ds vs G F IH]; [destruct Xd|]. destruct Xd as [<-|Xd]; eauto. }
  destruct GX as (v & GX).
  assert (Iq : In (GC w nd1 q1) (g_prog (grun mgr pre))) by (rewrite P; apply in_or_app; simpl; auto).
  assert (I1 : In (q_id q1) (map fst (history_of (grun mgr pre) w)) \/
    exists env, (forall x, In x (qrefs q1) -> gives body mbody (g_prog (grun mgr (pre ++ post))) (history_of (grun mgr (pre ++ post))) x (env x)) /\
      first_failure (arguments (subst env (q_args q1)) (subst env (q_kwargs q1))) <> None).
  { assert (SC := fun y => same_creator _ V0 (GC w nd1 q1) y x Iq).
    inversion GX as [d0 v0 I'|dest' q' fd' f' env' d0 v0 I' F' Gf' Ge' O'
      |dest' nd' q' m' env' bf' af' d0 v0 I' F' Ge' NF' E0 O'|dest' nd' q' m' env' e' d0 v0 I' F' Ge' Fl' O']; subst d0 v0.
    - assert (Y := SC _ I' X1 (or_introl eq_refl)). discriminate.
    - assert (Y := SC _ I' X1 (proj1 O')). discriminate.
    - assert (Y := SC _ I' X1 (proj1 O')). injection Y as <- <- <-. left. rewrite E0, map_app. apply in_or_app. simpl; auto.
    - assert (Y := SC _ I' X1 (proj1 O')). injection Y as <- <- <-.
      right. exists env'. split; [intros y Y; apply St; auto|congruence]. }
  destruct I1 as [I1|I1]; [left|right; exact I1].
  assert (N2 : ~ In (q_id q2) (map fst (history_of (grun mgr pre) w))).
  { intros X. apply in_map_iff in X as ([n c] & En & X). cbn [fst] in En. subst n.
    destruct (Hr _ _ _ X) as (nd & q & m & env & Iq' & Eq & _).
    assert (N := gv_ids _ V). rewrite E', <- P in N. unfold gsubmitted in N. rewrite flat_map_app, map_app in N.
    cbn [flat_map app map snd] in N. apply NoDup_remove_2 in N. apply N. apply in_or_app. left.
    apply in_map_iff. exists (w, q). split; [exact Eq|]. apply in_flat_map. exists (GC w nd q). simpl; auto. }
  destruct (Gr w) as (l & Lw). rewrite Lw, map_app in I2 |- *. apply in_app_or in I2 as [I2|I2]; [destruct (N2 I2)|].
  apply in_split in I1 as (u1 & u2 & ->). apply in_split in I2 as (u3 & u4 & ->).
  exists u1, (u2 ++ u3), u4. rewrite <- !app_assoc. auto.
Qed.
Lemma waits_in_order mgr ops : let g := grun mgr ops in gvalid (g_prog g) -> ~ In RError (c_seen (g_c g)) ->
  forall a w nd1 q1 b ds b' nd2 q2 d x,
  g_prog g = a ++ GC w nd1 q1 :: b ++ GP (RGet ds) :: b' ++ GC w nd2 q2 :: d ->
  In x (out_ids (q_out q1)) -> In x ds -> (forall e, In (RRaised ds e) (c_seen (g_c g)) -> ds = [x]) ->
  (forall env, (forall x, In x (qrefs q1) -> gives body mbody (g_prog g) (history_of g) x (env x)) ->
     first_failure (arguments (subst env (q_args q1)) (subst env (q_kwargs q1))) = None) ->
  In (q_id q2) (map fst (history_of g w)) -> precedes (q_id q1) (q_id q2) (map fst (history_of g w)).
Proof.
  cbv zeta. intros V NE a w nd1 q1 b ds b' nd2 q2 d x E X1 Xd Rs Ff I2.
  destruct (waited mgr ops V NE _ _ _ _ _ _ _ _ _ _ _ E X1 Xd Rs I2) as [X|(env & X & Y)]; auto. destruct Y. auto.
Qed.

(** The arguments of a call that was carried out are not exceptions. *)
Lemma carried_fine mgr ops : let g := grun mgr ops in gvalid (g_prog g) -> forall w n c, In (n, c) (history_of g w) ->
  first_failure (arguments (c_args c) (c_kwargs c)) = None.
Proof.
  cbv zeta. intros V w n x I. assert (B := run_ab workers body mbody is_async body_ok mbody_ok mgr ops V).
  set (g := grun mgr ops) in *. clearbody g. set (H := history_of g) in *.
  assert (W0 : w <> 0).
  { intros ->. unfold H, history_of in I. rewrite (ab_zero _ _ _ _ _ B) in I. destruct I. }
  assert (Oi : forall m, In m (map snd (c_in (g_c g) w)) -> aokm body mbody is_async (g_prog g) H w m).
  { intros m M. apply in_map_iff in M as ([s y] & <- & M). eapply ab_in; eauto. }
  assert (R := ab_run _ _ _ _ _ B w W0).
  destruct (ainbox body mbody is_async body_ok mbody_ok _ H w _ V Oi) as (N & NC).
  assert (W : WI body mbody (c_work (g_c g) w)).
  { apply (wrun_wi w body mbody is_async body_ok mbody_ok (map snd (c_in (g_c g) w)) winit); auto. apply wi_init. }
  unfold H, history_of, carried in I. apply in_flat_map in I as (e & I & E).
  destruct e; try (simpl in E; tauto). destruct c; [simpl in E; tauto|]. destruct E as [E|[]].
  apply pair_inj in E as [-> <-]. apply in_split in I as (l1 & l2 & L).
  destruct (good_run body mbody _ (wi_good _ _ _ W) _ _ _ _ _ _ L) as (q & _ & _ & F & _).
  cbn [c_args c_kwargs]. rewrite failure_same. exact F.
Qed.
End Waits.
