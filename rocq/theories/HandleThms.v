(** Created actors: whose methods act on what. *)
From Verif Require Import Lib ValModel WorkerModel WorkerSpec WorkerProofs WorkerLog WorkerTrace WorkerOrder WorkerThms
  WorkerSends HandleModel HandleSpec HandleExt HandleProofs.
From Coq Require Import Permutation.

Lemma hrun_app C self body fco a : forall s b, hrun C self body fco s (a ++ b) =
  match hrun C self body fco s a with Lives s' => hrun C self body fco s' b | Dies why => Dies why end.
Proof. induction a as [|m a IH]; intros s b; simpl; auto. destruct (hstep C self body fco s m); auto. Qed.

Lemma hcalls_app a b : hcalls (a ++ b) = hcalls a ++ hcalls b.
Proof. apply flat_map_app. Qed.
Lemma hcreates_app a b : hcreates (a ++ b) = hcreates a ++ hcreates b.
Proof. apply flat_map_app. Qed.

Lemma nodup_left {A} (l l' : list A) : NoDup (l ++ l') -> NoDup l.
Proof.
  induction l as [|x l IH]; intros H; [constructor|]. inversion H; subst. constructor; auto.
  intros X. apply H2. apply in_or_app; auto.
Qed.

Section Inputs.
Variable self : rank.
Variable body : val -> val -> val -> result.
Variable mb : list call -> call -> result.
Variable as0 : callee -> bool.
Hypothesis body_ok : forall f a k, no_refs_returned (body f a k).
Hypothesis mb_ok : forall h c, no_refs_returned (mb h c).
Lemma inputs_from ms : forall w w', WI body mb w -> no_refs_received ms -> wrun self body mb as0 w ms = Some w' ->
  forall m, In (EvIn m) (log w') -> In (EvIn m) (log w) \/ In m ms.
Proof.
  induction ms as [|m ms IH]; intros w w' I N H x Hx; simpl in H.
  - apply Some_inj in H as <-. auto.
  - destruct (wstep self body mb as0 w m) as [w1|] eqn:E; [|discriminate].
    assert (Nm : forall d v, m = WPut d v -> refs v = []) by (intros d v ->; apply (N d); simpl; auto).
    assert (I1 : WI body mb w1) by (apply wstep_wi in E as (I1 & _); auto).
    assert (N1 : no_refs_received ms) by (intros d v X; apply (N d); simpl; auto).
    destruct (IH w1 w' I1 N1 H x Hx) as [Hy|Hy]; [|simpl; auto]. clear H. rename Hy into H.
    destruct (ready w) eqn:R.
    + unfold wstep in E. rewrite R in E. apply Some_inj in E as <-. auto.
    + destruct (step_own self body mb as0 body_ok mb_ok w m w1 I Nm R E) as (t & L & F).
      rewrite L in H. apply in_app_or in H as [H|[H|H]]; auto.
      * injection H as <-. simpl. auto.
      * rewrite Forall_forall in F. apply F in H. destruct H.
Qed.

Lemma ready_back w m w' : wstep self body mb as0 w m = Some w' -> ready w' = false -> ready w = false.
Proof using Type. unfold wstep. destruct (ready w) eqn:R; auto. intros H. apply Some_inj in H as <-. congruence. Qed.

Lemma ready_back_run ms : forall w w', wrun self body mb as0 w ms = Some w' -> ready w' = false -> ready w = false.
Proof using Type.
  induction ms as [|m ms IH]; intros w w' H R; simpl in H; [apply Some_inj in H as <-; auto|].
  destruct (wstep self body mb as0 w m) as [w1|] eqn:E; [|discriminate]. eapply ready_back; eauto.
Qed.

Lemma inputs_all ms : forall w w', WI body mb w -> no_refs_received ms -> wrun self body mb as0 w ms = Some w' ->
  ready w' = false -> inputs (log w') = inputs (log w) ++ ms.
Proof.
  induction ms as [|m ms IH]; intros w w' I N H R; simpl in H.
  - apply Some_inj in H as <-. rewrite app_nil_r. auto.
  - destruct (wstep self body mb as0 w m) as [w1|] eqn:E; [|discriminate].
    assert (Nm : forall d v, m = WPut d v -> refs v = []) by (intros d v ->; apply (N d); simpl; auto).
    assert (I1 : WI body mb w1) by (apply wstep_wi in E as (I1 & _); auto).
    assert (N1 : no_refs_received ms) by (intros d v X; apply (N d); simpl; auto).
    rewrite (IH w1 w' I1 N1 H R). assert (R1 := ready_back_run _ _ _ H R). assert (R0 := ready_back _ _ _ E R1).
    destruct (step_own self body mb as0 body_ok mb_ok w m w1 I Nm R0 E) as (t & L & F).
    rewrite L, inputs_app. simpl. rewrite (inputs_own t F), <- app_assoc. auto.
Qed.

Lemma ready_run ms : forall w w', WI body mb w -> no_refs_received ms -> wrun self body mb as0 w ms = Some w' ->
  ~ In WCancel ms -> ready w = false -> ready w' = false.
Proof.
  induction ms as [|m ms IH]; intros w w' I N H NC R; simpl in H.
  - apply Some_inj in H as <-. auto.
  - destruct (wstep self body mb as0 w m) as [w1|] eqn:E; [|discriminate].
    assert (Nm : forall d v, m = WPut d v -> refs v = []) by (intros d v ->; apply (N d); simpl; auto).
    assert (I1 : WI body mb w1) by (apply wstep_wi in E as (I1 & _); auto).
    apply (IH w1); auto.
    + intros d v X; apply (N d); simpl; auto.
    + simpl in NC. tauto.
    + apply (step_ready self body mb as0 body_ok mb_ok w m w1); auto. intros ->. apply NC. simpl; auto.
Qed.
End Inputs.

Lemma numbers_plainly ms : forall k, map q_id (requests (plainly k ms)) = numbers ms.
Proof.
  induction ms as [|x ms IH]; intros k; simpl; auto. destruct x as [m|h c a kw|h nd q]; simpl; auto.
  - destruct m; simpl; auto. destruct (q_fn q) eqn:E; simpl; rewrite ?IH; auto.
  - rewrite IH. auto.
Qed.
Lemma plainly_cancel ms : forall k, In WCancel (plainly k ms) -> In (HM WCancel) ms.
Proof.
  induction ms as [|x ms IH]; intros k H; simpl in H; [destruct H|]. destruct x as [m|h c a kw|h nd q].
  - destruct (direct m); [right; eauto|]. destruct H as [->|H]; [left; auto|right; eauto].
  - right; eauto.
  - destruct H as [H|H]; [discriminate|right; eauto].
Qed.

(** What a plain message among the translated ones was. *)
Lemma plainly_actor ms : forall k q', In (WActor q') (plainly k ms) ->
  exists m h nd q, k <= m /\ nth_error (hcalls ms) (m - k) = Some (h, nd, q) /\ q' = with_method q m.
Proof.
  induction ms as [|x ms IH]; intros k q' H; simpl in H; [destruct H|].
  destruct x as [m|h c a kw|h nd q].
  - destruct (direct m) eqn:Dm; [apply IH; auto|]. destruct H as [->|H]; [discriminate|apply IH; auto].
  - apply IH; auto.
  - destruct H as [H|H].
    + injection H as <-. exists k, h, nd, q. rewrite Nat.sub_diag. simpl. auto.
    + apply IH in H as (m & h' & nd' & q0 & L & E & ->). exists m, h', nd', q0. split; [lia|]. split; auto.
      replace (m - k) with (S (m - S k)) by lia. auto.
Qed.
Lemma plainly_exec ms : forall k q', In (WExec q') (plainly k ms) -> exists d, q_fn q' = FRef d.
Proof.
  induction ms as [|x ms IH]; intros k q' H; simpl in H; [destruct H|].
  destruct x as [m|h c a kw|h nd q].
  - destruct (direct m) eqn:Dm; [eapply IH; eauto|]. destruct H as [->|H]; [|eapply IH; eauto].
    simpl in Dm. destruct (q_fn q'); [eauto|discriminate].
  - eapply IH; eauto.
  - destruct H as [H|H]; [discriminate|eapply IH; eauto].
Qed.
Lemma plainly_put ms : forall k d v, In (WPut d v) (plainly k ms) -> In (HM (WPut d v)) ms.
Proof.
  induction ms as [|x ms IH]; intros k d v H; simpl in H; [destruct H|].
  destruct x as [m|h c a kw|h nd q].
  - destruct (direct m) eqn:Dm; [right; eapply IH; eauto|]. destruct H as [->|H]; [left; auto|right; eapply IH; eauto].
  - right; eapply IH; eauto.
  - destruct H as [H|H]; [discriminate|right; eapply IH; eauto].
Qed.

Definition desc {C} (x : made C) : dataid * nat * val * val := (a_handle x, a_class x, a_args x, a_kwargs x).

Section Thms.
Variable C : classes.
Variable self : rank.
Variable body : val -> val -> val -> result.
Variable fco : val -> bool.

Record BK (ms : list hmsg) (s : hst C) : Prop := {
  bk_bound : forall m i n, nth_error (hbound s) m = Some (i, n) ->
    exists a h nd q b s0 x, ms = a ++ HCall h nd q :: b /\ length (hcalls a) = m /\ hrun C self body fco hinit a = Lives s0 /\
      store (hw s0) nd = Some (VLeaf n) /\ nth_error (hmade s) i = Some x /\ a_handle x = h /\ In (desc x) (hcreates a);
  bk_len : ready (hw s) = false -> length (hbound s) = length (hcalls ms);
  bk_obj : forall x, In x (hmade s) -> construct C (a_class x) (a_args x) (a_kwargs x) = Some (a_obj x);
  bk_made : exists rest, hcreates ms = map desc (hmade s) ++ rest /\ (ready (hw s) = false -> rest = [])
}.

Lemma bk_same ms m s s' : hbound s' = hbound s -> hmade s' = hmade s -> BK ms s ->
  (ready (hw s') = false -> ready (hw s) = false) ->
  (ready (hw s) = false -> hcalls [m] = [] /\ hcreates [m] = []) ->
  BK (ms ++ [m]) s'.
Proof using Type.
  intros Eb Em [A B D (rest & E & F)] R X. split; rewrite ?Eb, ?Em; auto.
  - intros j i n H. destruct (A j i n H) as (a & h & nd & q & b & s0 & x & -> & Y).
    exists a, h, nd, q, (b ++ [m]), s0, x. rewrite <- app_assoc. simpl. split; auto.
  - intros H. apply R in H. rewrite hcalls_app, (proj1 (X H)), app_nil_r. auto.
  - exists (rest ++ hcreates [m]). rewrite hcreates_app, E, app_assoc. split; auto.
    intros H. apply R in H. rewrite (proj2 (X H)), app_nil_r. auto.
Qed.

Lemma booked ms : forall s, hrun C self body fco hinit ms = Lives s -> BK ms s.
Proof using Type.
  induction ms as [|m ms IH] using rev_ind; intros s H.
  - injection H as <-. split; simpl; auto.
    + intros m i n H. destruct m; discriminate.
    + intros x [].
    + exists []. auto.
  - rewrite hrun_app in H. destruct (hrun C self body fco hinit ms) as [s0|] eqn:E0; [|discriminate].
    simpl in H. destruct (hstep C self body fco s0 m) as [s1|] eqn:E; [|discriminate]. injection H as <-.
    specialize (IH s0 eq_refl). assert (RK := ready_keeps _ _ _ _ _ _ _ E).
    destruct m as [m|h c a k|h nd q].
    + assert (E' := E). simpl in E. destruct (direct m).
      * injection E as <-. apply bk_same with s0; auto.
      * unfold inner in E. destruct (wstep _ _ _ _ _ _) as [w|]; [|discriminate]. injection E as <-.
        apply bk_same with s0; auto.
    + assert (E' := E). simpl in E. destruct (ready (hw s0)) eqn:R.
      * injection E as <-. apply bk_same with s0; auto. congruence.
      * destruct (construct C c a k) as [o|] eqn:Eo; [|discriminate]. injection E as <-.
        destruct IH as [A B D (rest & F & G)]. specialize (G R). subst rest. rewrite app_nil_r in F.
        split; simpl; auto.
        -- intros m i n H. destruct (A m i n H) as (a0 & h0 & nd & q & b & s2 & x & -> & Y1 & Y2 & Y3 & Y4 & Y5).
           exists a0, h0, nd, q, (b ++ [HCreate h c a k]), s2, x. rewrite <- app_assoc. simpl.
           repeat split; auto; try apply Y5. rewrite nth_error_app1; auto. apply nth_error_Some. congruence.
        -- intros _. rewrite hcalls_app. simpl. rewrite app_nil_r. auto.
        -- intros x H. apply in_app_or in H as [H|[<-|[]]]; auto.
        -- exists []. rewrite hcreates_app, F, map_app. simpl. rewrite app_nil_r. auto.
    + destruct (ready (hw s0)) eqn:R.
      * simpl in E. rewrite R in E. injection E as <-. apply bk_same with s0; auto. congruence.
      * apply call_lives in E as (n & i & x & Sn & Lk & Nx & Hx & Li & E); auto.
        unfold inner in E. destruct (wstep _ _ _ _ _ _) as [w|]; [|discriminate]. injection E as <-.
        destruct IH as [A B D (rest & F & G)]. specialize (G R). subst rest. rewrite app_nil_r in F.
        split; simpl; auto.
        -- intros m i0 n0 H. destruct (Nat.lt_ge_cases m (length (hbound s0))) as [L|L].
           ++ rewrite nth_error_app1 in H; auto.
              destruct (A m i0 n0 H) as (a0 & h0 & nd0 & q0 & b & s2 & x0 & -> & Y).
              exists a0, h0, nd0, q0, (b ++ [HCall h nd q]), s2, x0. rewrite <- app_assoc. simpl. auto.
           ++ rewrite nth_error_app2 in H; auto. destruct (m - length (hbound s0)) as [|j] eqn:Ej; simpl in H; [|destruct j; discriminate].
              apply Some_inj in H. apply pair_inj in H as [<- <-].
              exists ms, h, nd, q, [], s0, x. repeat split; auto.
              ** rewrite <- B; auto. lia.
              ** rewrite F. apply in_map. eapply nth_error_In; eauto.
        -- intros _. rewrite hcalls_app, !app_length. simpl. rewrite B; auto.
        -- exists []. rewrite hcreates_app, F. simpl. rewrite !app_nil_r. auto.
Qed.

Hypothesis body_ok : forall f a k, no_refs_returned (body f a k).
Hypothesis meth_ok : no_refs_methods C.

Lemma hbody_ok made bound h c : no_refs_returned (hbody C made bound h c).
Proof using meth_ok.
  unfold hbody. destruct (nth_error bound (c_method c)) as [[i n]|]; [|exact Logic.I].
  destruct (nth_error made i); [apply meth_ok|exact Logic.I].
Qed.

Variable ms : list hmsg.
Variable s : hst C.
Hypothesis clean_ms : no_refs_put ms.
Hypothesis run : hrun C self body fco hinit ms = Lives s.

Lemma clean_plain : no_refs_received (plainly 0 ms).
Proof using clean_ms. intros d v H. apply (clean_ms d v). eapply plainly_put; eauto. Qed.

Let mb := hbody C (hmade s) (hbound s).
Let as0 := hasync C fco (hmade s) (hbound s).

Lemma plain_run : wrun self body mb as0 winit (plainly 0 ms) = Some (hw s).
Proof using run. apply hrun_wrun; auto. Qed.

Lemma plain_wi : WI body mb (hw s).
Proof using run body_ok meth_ok clean_ms.
  apply (run_wi self body mb as0 body_ok (hbody_ok _ _) (plainly 0 ms)); [apply clean_plain|apply plain_run].
Qed.

Lemma not_ready : ~ In (HM WCancel) ms -> ready (hw s) = false.
Proof using run body_ok meth_ok clean_ms.
  intros NC. apply (ready_run self body mb as0 body_ok (hbody_ok _ _) (plainly 0 ms) winit (hw s)); auto using wi_init, clean_plain, plain_run.
  intros H. apply NC. eapply plainly_cancel; eauto.
Qed.

Lemma bounded l1 n m a k l2 : log (hw s) = l1 ++ EvRun n (CMethod m) a k :: l2 ->
  few (length (hbound s)) (calls_of l1) /\ m < length (hbound s).
Proof using run body_ok meth_ok clean_ms.
  intros L. destruct (hrun_refines C self body fco ms hinit s (ok_init C)) as ((_ & O) & _); auto.
  assert (F := ok_calls _ _ O). rewrite (wi_calls _ _ _ plain_wi), L in F.
  unfold calls_of in F. rewrite flat_map_app in F. simpl in F. apply Forall_app in F as [F1 F2]. split; auto.
  inversion F2; subst. auto.
Qed.

Lemma same_actor i j x y : NoDup (created_handles ms) -> nth_error (hmade s) i = Some x -> nth_error (hmade s) j = Some y ->
  a_handle x = a_handle y -> i = j.
Proof using run.
  intros N X Y E. destruct (bk_made _ _ (booked ms s run)) as (rest & F & _).
  assert (N' : NoDup (map a_handle (hmade s))).
  { unfold created_handles in N. rewrite F, map_app, map_map in N. apply nodup_left in N.
    erewrite map_ext; [exact N|]. auto. }
  rewrite NoDup_nth_error in N'. apply N'.
  - rewrite map_length. apply nth_error_Some. congruence.
  - rewrite !nth_error_map, X, Y. simpl. congruence.
Qed.

Definition name_of (m : nat) : nat := match nth_error (hbound s) m with Some (_, n) => n | None => 0 end.

Lemma bound_call m i n : nth_error (hbound s) m = Some (i, n) ->
  exists h nd q x, nth_error (hcalls ms) m = Some (h, nd, q) /\ nth_error (hmade s) i = Some x /\ a_handle x = h /\
    In (desc x) (hcreates ms).
Proof using run.
  intros H. destruct (bk_bound _ _ (booked ms s run) m i n H) as (a & h & nd & q & b & s0 & x & Em & L & _ & _ & X & Y & Z).
  exists h, nd, q, x. rewrite Em, hcalls_app, nth_error_app2 by lia. rewrite L, Nat.sub_diag. simpl.
  repeat split; auto. rewrite hcreates_app. apply in_or_app. auto.
Qed.

Lemma object_turns i x l o : NoDup (created_handles ms) -> nth_error (hmade s) i = Some x ->
  few (length (hbound s)) (calls_of l) ->
  object_now C (hbound s) i (calls_of l) o = after C o (turns_of (hcalls ms) name_of (a_handle x) l).
Proof using run.
  intros N X. revert o. induction l as [|e l IH]; intros o F; simpl; auto.
  unfold calls_of in F. simpl in F. apply Forall_app in F as [F1 F2].
  destruct e as [| n c a k| | | | |]; simpl; auto. destruct c as [f|m]; simpl; auto.
  inversion F1 as [|? ? Lm _]; subst. simpl in Lm.
  destruct (nth_error (hbound s) m) as [[j nm]|] eqn:E; [|apply nth_error_None in E; lia].
  assert (Nm : name_of m = nm) by (unfold name_of; rewrite E; auto).
  destruct (bound_call m j nm E) as (h & nd & q & y & Hc & Hy & Ey & _). rewrite Hc.
  destruct (Nat.eqb j i) eqn:Q.
  - apply Nat.eqb_eq in Q. subst j. assert (y = x) by congruence. subst y. rewrite <- Ey, did_eqb_refl. simpl.
    rewrite Nm. apply IH; auto.
  - destruct (did_eqb h (a_handle x)) eqn:D; [|simpl; apply IH; auto].
    apply did_eqb_eq in D. apply Nat.eqb_neq in Q. exfalso. apply Q. eapply same_actor; eauto. congruence.
Qed.

(** Each body of a method entered is that of a call received, on the object its handle stands for. *)
Lemma methods_act : NoDup (created_handles ms) ->
  exists name : nat -> nat,
  (forall a h nd q b, ms = a ++ HCall h nd q :: b -> ~ In (HM WCancel) ms ->
     exists s0, hrun C self body fco hinit a = Lives s0 /\ store (hw s0) nd = Some (VLeaf (name (length (hcalls a))))) /\
  forall l1 n m args kwargs l2, log (hw s) = l1 ++ EvRun n (CMethod m) args kwargs :: l2 ->
  exists h nd q c ca ck o l3, nth_error (hcalls ms) m = Some (h, nd, q) /\ q_id q = n /\
    In (h, c, ca, ck) (hcreates ms) /\ construct C c ca ck = Some o /\
    fill (stored l1) (q_args q) args /\ fill (stored l1) (q_kwargs q) kwargs /\ refs args = [] /\ refs kwargs = [] /\
    l2 = EvEnd n (snd (meth C (after C o (turns_of (hcalls ms) name h l1)) (name m) args kwargs)) :: l3.
Proof using run body_ok meth_ok clean_ms.
  intros N. exists name_of. split.
  - intros a h nd q b Em NC. assert (R := not_ready NC). assert (B := bk_len _ _ (booked ms s run) R).
    assert (L : length (hcalls a) < length (hbound s)).
    { rewrite B, Em, hcalls_app, app_length. simpl. lia. }
    destruct (nth_error (hbound s) (length (hcalls a))) as [[i nm]|] eqn:E; [|apply nth_error_None in E; lia].
    destruct (bk_bound _ _ (booked ms s run) _ i nm E) as (a' & h' & nd' & q' & b' & s0 & x & Em' & L' & R0 & S0 & _).
    assert (a = a' /\ HCall h nd q = HCall h' nd' q') as [-> Hc].
    { clear -Em Em' L'. rewrite Em in Em'. clear Em. revert a' Em' L'. induction a as [|y a IH]; intros [|y' a'] E L; simpl in *.
      - injection E as -> -> -> ->. auto.
      - injection E as <- _. simpl in L. discriminate.
      - injection E as -> _. simpl in L. discriminate.
      - injection E as <- E. assert (L2 : length (hcalls a') = length (hcalls a)).
        { destruct y; simpl in L; lia. }
        destruct (IH a' E L2) as [-> ?]. auto. }
    injection Hc as -> -> ->. exists s0. split; auto. unfold name_of. rewrite E. auto.
  - intros l1 n m args kwargs l2 L. destruct (bounded _ _ _ _ _ _ L) as [F Lm].
    destruct (nth_error (hbound s) m) as [[i nm]|] eqn:E; [|apply nth_error_None in E; lia].
    destruct (bound_call m i nm E) as (h & nd & q & x & Hc & Hx & Ex & Dx).
    destruct (good_run body mb _ (wi_good _ _ _ plain_wi) _ _ _ _ _ _ L) as (q' & Id & (X1 & X2 & X3 & X4 & X5 & X6) & Fa & l3 & L2).
    assert (q' = with_method q m).
    { assert (In (EvIn (WExec q')) (log (hw s)) \/ In (EvIn (WActor q')) (log (hw s))) as H.
      { rewrite L. unfold received in X1. apply in_flat_map in X1 as (e & He & Hq).
        destruct e as [[]| | | | | |]; simpl in Hq; try destruct Hq as [<-|[]]; try destruct Hq;
          [left|right]; apply in_or_app; auto. }
      unfold callee_of in X2.
      assert (FQ : q_fn q' = FMethod m).
      { destruct (q_fn q'); [destruct X2 as (f & _ & X2); discriminate|]. injection X2 as ->. auto. }
      assert (In (WExec q') (plainly 0 ms) \/ In (WActor q') (plainly 0 ms)) as [P|P].
      { destruct H as [H|H]; apply (inputs_from self body mb as0 body_ok (hbody_ok _ _) (plainly 0 ms) winit (hw s)) in H;
          auto using wi_init, clean_plain, plain_run; destruct H as [[]|H]; auto. }
      - apply plainly_exec in P as (d & P). congruence.
      - apply plainly_actor in P as (m' & h' & nd' & q0 & _ & Hn & ->). simpl in FQ. injection FQ as ->.
        rewrite Nat.sub_0_r in Hn. congruence. }
    subst q'. exists h, nd, q, (a_class x), (a_args x), (a_kwargs x), (a_obj x), l3.
    repeat split; auto.
    + unfold desc in Dx. rewrite Ex in Dx. auto.
    + apply (bk_obj _ _ (booked ms s run)). eapply nth_error_In; eauto.
    + rewrite L2. unfold result_of. rewrite Fa. unfold mb, hbody. simpl. rewrite E, Hx.
      rewrite (object_turns i x l1) by auto. rewrite Ex. unfold name_of at 3. rewrite E. auto.
Qed.

(** No call is lost or carried out twice. *)
Lemma none_lost_calls : ~ In (HM WCancel) ms ->
  Permutation (numbers ms)
    (ended (log (hw s)) ++ map q_id (pend (hw s) ++ apend (hw s)) ++ map (fun p => q_id (fst p)) (running (hw s))).
Proof using run body_ok meth_ok clean_ms.
  intros NC. assert (R := not_ready NC). assert (P := none_lost self body mb as0 body_ok (hbody_ok _ _) (plainly 0 ms) (hw s) clean_plain plain_run).
  rewrite <- (numbers_plainly ms 0).
  assert (X : inputs (log (hw s)) = plainly 0 ms).
  { rewrite (inputs_all self body mb as0 body_ok (hbody_ok _ _) (plainly 0 ms) winit (hw s)); auto using wi_init, clean_plain, plain_run. }
  rewrite <- X, <- received_inputs. apply P. intros H. apply NC. eapply plainly_cancel; eauto.
Qed.

(** Constructors are run as often as creations arrive, with the arguments of the message. *)
Lemma built_once : ~ In (HM WCancel) ms -> map desc (hmade s) = hcreates ms /\
  forall x, In x (hmade s) -> construct C (a_class x) (a_args x) (a_kwargs x) = Some (a_obj x).
Proof using run body_ok meth_ok clean_ms.
  intros NC. assert (R := not_ready NC). destruct (booked ms s run) as [_ _ D (rest & F & G)]. rewrite (G R), app_nil_r in F. auto.
Qed.

Lemma built_before a h nd q b : ms = a ++ HCall h nd q :: b -> ~ In (HM WCancel) ms -> In h (created_handles a).
Proof using run body_ok meth_ok clean_ms.
  intros Em NC. assert (R := not_ready NC). clear body_ok meth_ok clean_ms mb as0 NC.
  rewrite Em in run. rewrite hrun_app in run.
  destruct (hrun C self body fco hinit a) as [s0|] eqn:E0; [|discriminate]. cbn [hrun] in run.
  destruct (hstep C self body fco s0 (HCall h nd q)) as [s1|] eqn:E1; [|discriminate].
  assert (R0 : ready (hw s0) = false).
  { apply (ready_keeps C self body fco s0 _ s1 E1). clear -run R. revert s1 run.
    induction b as [|m b IH]; intros s1 H; simpl in H; [injection H as <-; auto|].
    destruct (hstep C self body fco s1 m) as [s2|] eqn:E; [|discriminate].
    eapply ready_keeps; eauto. }
  apply call_lives in E1 as (n & i & x & _ & _ & Nx & Hx & _); auto.
  destruct (bk_made _ _ (booked a s0 E0)) as (rest & F & _). unfold created_handles. rewrite F, map_app, map_map.
  apply in_or_app. left. apply in_map_iff. exists x. split; auto. eapply nth_error_In; eauto.
Qed.
End Thms.
