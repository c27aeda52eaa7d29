(** wait in the whole system: the monitor's state, the answers, and what wait leaves alone. *)
From Verif Require Import Lib ValModel ShmModel ShmRaceProofs PushModel PushProofs WorkerModel WorkerSpec WorkerLog WorkerAnswer
  WorkerTrace WorkerOrder WorkerThms WorkerSends WorkerDone WorkerFew MonModel MonSpec MonProofs CtrlModel CtrlProofs ClusterModel
  ClusterSpec ClusterSeq ClusterProofs ClusterCount ActModel ActSpec ActGives ActProofs ActCount WaitModel WaitSpec WaitFin.
From Coq Require Import Permutation.

(** ** The monitor *)

Lemma scan_keeps fuel : forall i s, (exists t, mlog (scan fuel i s) = mlog s ++ t) /\ mcount (scan fuel i s) = mcount s /\
  mstopped (scan fuel i s) = mstopped s /\ mcompleted (scan fuel i s) = mcompleted s /\ mnum (scan fuel i s) = mnum s.
Proof.
  induction fuel as [|fuel IH]; intros i s; cbn [scan].
  { split; [exists []; rewrite app_nil_r; auto | auto]. }
  destruct (nth_error (mawaited s) i) as [d|]; [|split; [exists []; rewrite app_nil_r; auto | auto]].
  destruct (did_in d (mcompleted s)); [|apply IH].
  destruct (Z.eqb _ _).
  - destruct (IH i (set_wait (memit s (MvAnswer (mready s ++ [d]) (rm1 d (mawaited s)))) [] [] (mnum s))) as [[t T] X].
    split; auto. rewrite T. simpl. rewrite <- app_assoc. eauto.
  - destruct (IH i (set_wait s (rm1 d (mawaited s)) (mready s ++ [d]) (mnum s))) as [[t T] X]. split; auto. rewrite T. simpl. eauto.
Qed.

Lemma scan_silent fuel : forall i s, (mnum s <= 0)%Z -> answers (mlog (scan fuel i s)) = answers (mlog s).
Proof.
  induction fuel as [|fuel IH]; intros i s N; cbn [scan]; auto.
  destruct (nth_error (mawaited s) i) as [d|]; auto. destruct (did_in d (mcompleted s)); [|auto].
  destruct (Z.eqb_spec (Z.of_nat (length (mready s ++ [d]))) (mnum s)) as [E|E]; [rewrite app_length in E; simpl in E; lia|].
  rewrite IH; auto.
Qed.

(** The two messages the monitor gets here. *)
Definition dealt (m : mmsg) : Prop := match m with MDone _ _ | MWait _ _ => True | _ => False end.

Lemma mon_takes c s m : mstopped s = false -> dealt m -> exists s', mon_step c s m = Some s' /\ mstopped s' = false /\
  mcount s' = mcount s + (match m with MDone _ _ => 1 | _ => 0 end) /\ exists t, mlog s' = mlog s ++ t.
Proof.
  intros St D. unfold mon_step. rewrite St. destruct m; try destruct D; eexists; (split; [reflexivity|]); unfold process_waits;
    match goal with |- context [scan ?f 0 ?x] => destruct (scan_keeps f 0 x) as ((t & T) & C & S0 & _) end;
    rewrite S0, C, T; simpl; split; auto; split; try lia; rewrite <- app_assoc; eauto.
Qed.

Lemma new_answers_of m m' t l : mlog m' = mlog m ++ t -> answers (mlog m') = answers (mlog m) ++ l -> new_answers m m' = l.
Proof. intros T A. unfold new_answers. rewrite T, skipn_exact. rewrite T, answers_app in A. apply app_inv_head in A. exact A. Qed.

Lemma new_answers_none m : new_answers m m = [].
Proof. apply (new_answers_of m m []); rewrite app_nil_r; auto. Qed.

Lemma complete_more ms m d : complete ms d = true -> complete (ms ++ [m]) d = true.
Proof. intros C. rewrite complete_app, C. auto. Qed.

(** A wait for no or fewer references is never answered. *)
Lemma hung_step c s m s' ms : Completed ms s -> mstopped s = false -> dealt m ->
  (match m with MWait _ n => n | _ => mnum s end <= 0)%Z -> mon_step c s m = Some s' ->
  Completed (ms ++ [m]) s' /\ (mnum s' <= 0)%Z /\ answers (mlog s') = answers (mlog s).
Proof.
  intros Co St D N H. unfold mon_step in H. rewrite St in H.
  destruct m; try destruct D; apply Some_inj in H as <-; unfold process_waits;
    match goal with |- context [scan ?f 0 ?x] =>
      assert (A := scan_silent f 0 x N); destruct (scan_keeps f 0 x) as (_ & _ & _ & C & M) end.
  - split; [|split].
    + intros d. rewrite C, complete_app. simpl. rewrite orb_false_r, <- Co. unfold did_in. rewrite existsb_app, orb_comm. auto.
    + rewrite M. simpl. auto.
    + rewrite A. simpl. rewrite answers_app. apply app_nil_r.
  - split; [|split].
    + intros d. rewrite C, complete_app. simpl. rewrite orb_false_r. apply Co.
    + rewrite M. simpl. auto.
    + rewrite A. simpl. rewrite answers_app. apply app_nil_r.
Qed.

(** ** The root *)

Lemma wait_loop_late st n : (n <= 0)%Z -> forall copy ready nr pending, (pending <= 0)%Z ->
  exists r l p, wait_loop st n copy ready nr pending = WAsk r l p /\ (p <= 0)%Z.
Proof.
  intros N. induction copy as [|d copy IH]; intros ready nr pending P; cbn [wait_loop]; [eauto|].
  destruct (st d); [|auto]. cbv zeta.
  destruct (Z.eqb_spec (Z.of_nat (length (ready ++ [d]))) n) as [E|E]; [rewrite app_length in E; simpl in E; lia|].
  apply IH. lia.
Qed.

(** The root has found r0 and asks for p of nr. *)
Definition begun (st : dmap val) (ds : list dataid) (n : Z) (r0 nr : list dataid) (p : Z) : Prop :=
  (1 <= n)%Z /\ (1 <= p)%Z /\ Permutation (r0 ++ nr) ds /\ (Z.of_nat (length r0) + p = n)%Z /\
  Forall (fun d => st d <> None) r0 /\ Forall (fun d => st d = None) nr.

Inductive phase (ms : list mmsg) (st : dmap val) (m : mst) :
  list (list dataid * Z) -> list (list dataid * list dataid) -> option (list dataid * Z * list dataid) -> Prop :=
| ph_none : Idle m -> phase ms st m [] [] None
| ph_ask ds n r0 nr p : begun st ds n r0 nr p -> Idle m -> phase ms st m [(nr, p)] [] (Some (ds, n, r0))
| ph_open ds n r0 nr p : begun st ds n r0 nr p -> Open nr p m -> phase ms st m [] [] (Some (ds, n, r0))
| ph_ans ds n r0 nr p r l : begun st ds n r0 nr p -> Idle m -> Permutation (r ++ l) nr -> Z.of_nat (length r) = p ->
    Forall (fun d => complete ms d = true) r -> phase ms st m [] [(r, l)] (Some (ds, n, r0))
| ph_late ds n r0 nr p : (n <= 0)%Z -> (p <= 0)%Z -> Idle m -> phase ms st m [(nr, p)] [] (Some (ds, n, r0))
| ph_hung ds n r0 : (n <= 0)%Z -> (mnum m <= 0)%Z -> phase ms st m [] [] (Some (ds, n, r0)).

(** A completion report comes. *)
Lemma phase_done c ms st m m' s ds ask ans w : Completed ms m -> mstopped m = false -> phase ms st m ask ans w ->
  mon_step c m (MDone s ds) = Some m' ->
  Completed (ms ++ [MDone s ds]) m' /\ phase (ms ++ [MDone s ds]) st m' ask (ans ++ new_answers m m') w.
Proof.
  intros Co St P H.
  destruct (mon_takes c m (MDone s ds) St I) as (m1 & H1 & St' & _ & t & T). rewrite H in H1. apply Some_inj in H1 as <-.
  assert (Si : Idle m -> Completed (ms ++ [MDone s ds]) m' /\ Idle m' /\ new_answers m m' = []).
  { intros Id. destruct (step_idle c m (MDone s ds) m' ms Co Id ltac:(simpl; tauto) St H St') as (C' & I' & A').
    split; auto. split; auto. apply (new_answers_of m m' t); auto. rewrite app_nil_r. auto. }
  destruct P as [Id|ds0 n r0 nr p B Id|ds0 n r0 nr p B Op|ds0 n r0 nr p r l B Id Pm L F|ds0 n r0 nr p N Np Id|ds0 n r0 N Nm].
  - destruct (Si Id) as (C' & I' & ->). split; auto. constructor; auto.
  - destruct (Si Id) as (C' & I' & ->). split; auto. econstructor; eauto.
  - destruct (step_open c m (MDone s ds) m' ms nr p Co Op ltac:(simpl; tauto) St H St') as (C' & [[A' Op']|(r & l & A' & I' & Pm & L & F)]).
    + rewrite (new_answers_of m m' t []); auto; [|rewrite app_nil_r; auto]. split; auto. simpl. econstructor; eauto.
    + rewrite (new_answers_of m m' t [(r, l)]); auto. split; auto. simpl. eapply ph_ans; eauto.
  - destruct (Si Id) as (C' & I' & ->). split; auto. simpl. eapply ph_ans; eauto.
    eapply Forall_impl; [|exact F]. intros d. apply complete_more.
  - destruct (Si Id) as (C' & I' & ->). split; auto. eapply ph_late; eauto.
  - destruct (hung_step c m (MDone s ds) m' ms Co St I Nm H) as (C' & N' & A').
    rewrite (new_answers_of m m' t []); auto; [|rewrite app_nil_r; auto]. split; auto. apply ph_hung; auto.
Qed.

(** The monitor takes a WAIT. *)
Lemma phase_ask c ms st m m' ds n ask ans w : Completed ms m -> mstopped m = false -> phase ms st m ((ds, n) :: ask) ans w ->
  mon_step c m (MWait ds n) = Some m' ->
  Completed (ms ++ [MWait ds n]) m' /\ phase (ms ++ [MWait ds n]) st m' ask (ans ++ new_answers m m') w.
Proof.
  intros Co St P H.
  destruct (mon_takes c m (MWait ds n) St I) as (m1 & H1 & St' & _ & t & T). rewrite H in H1. apply Some_inj in H1 as <-.
  inversion P as [|ds0 n0 r0 nr p B Id|  | |ds0 n0 r0 nr p N Np Id|]; subst.
  - assert (B' := B). destruct B' as (_ & Lp & _).
    destruct (step_wait c m ds n m' ms Co Id Lp St H) as (C' & [[A' Op']|(r & l & A' & I' & Pm & L & F)]).
    + rewrite (new_answers_of m m' t []); auto; [|rewrite app_nil_r; auto]. split; auto. simpl. econstructor; eauto.
    + rewrite (new_answers_of m m' t [(r, l)]); auto. split; auto. simpl. eapply ph_ans; eauto.
  - destruct (hung_step c m (MWait ds n) m' ms Co St I Np H) as (C' & N' & A').
    rewrite (new_answers_of m m' t []); auto; [|rewrite app_nil_r; auto]. split; auto. apply ph_hung; auto.
Qed.

(** ** What wait leaves alone *)

Definition mon_like (m m' : mst) : Prop := mcount m' = mcount m /\ mstopped m = false /\ mstopped m' = false.

Definition with_mon (g : gst) (m : mst) : gst := {| g_c := set_mon (g_c g) m; g_prog := g_prog g |}.

Section Whole.
Variable workers : list rank.
Variable body : val -> val -> val -> result.
Variable mbody : list call -> call -> result.
Variable is_async : callee -> bool.
Notation grun := (grun workers body mbody is_async).
Notation gstep := (gstep workers body mbody is_async).
Notation vrun := (vrun workers body mbody is_async).
Notation vstep := (vstep workers body mbody is_async).

Lemma like_refl m : mstopped m = false -> mon_like m m.
Proof. repeat split; auto. Qed.

Lemma like_step g m o : mon_like (c_mon (g_c g)) m ->
  exists m', gstep (with_mon g m) o = with_mon (gstep g o) m' /\ mon_like (c_mon (g_c (gstep g o))) m'.
Proof.
  intros (C & S1 & S2). destruct o as [p|s d|s|s|d i]; unfold with_mon; cbn [ActModel.gstep g_c g_prog].
  - cbn [c_left set_mon]. destruct (c_left (g_c g)) eqn:L; [|exists m; repeat split; auto].
    exists m. destruct p as [o|dest nd q]; cbn [g_c g_prog].
    + destruct o; cbn [root_step].
      * repeat split; auto.
      * repeat split; auto.
      * cbv zeta. cbn [c_push set_mon]. destruct (filter _ ds) as [|x r]; [repeat split; auto|].
        destruct (owners _ _); repeat split; auto.
      * repeat split; auto.
      * cbn [c_mon set_mon c_tasks c_push c_vals]. rewrite C. destruct (mcount (c_mon (g_c g)) =? c_tasks (g_c g)); repeat split; auto.
    + repeat split; auto.
  - exists m. unfold gtake. cbn [c_chan set_mon c_dead]. destruct (c_chan (g_c g) s d) as [|x l]; [repeat split; auto|].
    destruct ((d =? 0) || c_dead (g_c g) d); [repeat split; auto|].
    unfold deal. cbn [c_work set_mon]. destruct (wstep d body mbody is_async (c_work (g_c g) d) x); repeat split; auto.
  - exists m. unfold reply. cbn [c_left c_chan set_mon]. destruct (c_left (g_c g)); [repeat split; auto|].
    destruct (c_chan (g_c g) s 0) as [|x l]; [repeat split; auto|]. destruct x; repeat split; auto.
  - unfold done. cbn [c_done set_mon c_mon]. destruct (c_done (g_c g) s) as [|ds l]; [exists m; repeat split; auto|].
    destruct (mon_takes (mon_cfg workers) (c_mon (g_c g)) (MDone s ds) S1 I) as (m1 & H1 & A1 & B1 & _).
    destruct (mon_takes (mon_cfg workers) m (MDone s ds) S2 I) as (m2 & H2 & A2 & B2 & _).
    rewrite H1, H2. exists m2. simpl. repeat split; auto. rewrite B1, B2, C. auto.
  - exists m. unfold finish. cbn [c_work set_mon c_dead c_chan]. destruct (nth_error (running (c_work (g_c g) d)) i); [|repeat split; auto].
    destruct ((d =? 0) || c_dead (g_c g) d); [repeat split; auto|].
    unfold deal. cbn [c_work set_mon]. destruct (wstep d body mbody is_async (c_work (g_c g) d) (WFinish i)); repeat split; auto.
Qed.

Lemma with_own g : with_mon g (c_mon (g_c g)) = g.
Proof. destruct g as [[] prog]. reflexivity. Qed.

Lemma with_twice g m m' : with_mon (with_mon g m) m' = with_mon g m'.
Proof. reflexivity. Qed.

Lemma vrun_snoc mgr ops o : vrun mgr (ops ++ [o]) = vstep (vrun mgr ops) o.
Proof. unfold WaitModel.vrun. rewrite fold_left_app. auto. Qed.

(** The same without the waits. *)
Lemma erased mgr ops : exists gops m, grun mgr gops = with_mon (v_g (vrun mgr ops)) m /\
  mon_like (c_mon (g_c (v_g (vrun mgr ops)))) m.
Proof.
  induction ops as [|o ops (gops & m & E & L)] using rev_ind.
  { exists [], (minit mgr). split; [reflexivity|]. repeat split; auto. }
  rewrite vrun_snoc. set (v := vrun mgr ops) in *.
  destruct o as [o|ds n| |]; cbn [WaitModel.vstep].
  - destruct (like_step (v_g v) m o L) as (m' & E' & L').
    destruct (v_wait v); [destruct (is_root o)|]; cbn [v_g].
    + exists gops, m. auto.
    + exists (gops ++ [o]), m'. rewrite grun_snoc, E. auto.
    + exists (gops ++ [o]), m'. rewrite grun_snoc, E. auto.
  - exists gops, m. destruct (v_wait v); auto. destruct (c_left (g_c (v_g v))); auto.
    unfold start_wait. destruct (wait_local _ _ _); auto.
  - destruct (v_ask v) as [|[ds n] rest]; [exists gops, m; auto|]. cbn [v_g].
    destruct L as (C & S1 & S2).
    destruct (mon_takes (mon_cfg workers) (c_mon (g_c (v_g v))) (MWait ds n) S1 I) as (m1 & H1 & A1 & B1 & _).
    rewrite H1. exists gops, m. rewrite E. split; [reflexivity|]. simpl. repeat split; auto. rewrite B1, C. auto.
  - exists gops, m. destruct (v_ans v); auto. destruct (v_wait v) as [[[ds n] r0]|]; auto.
Qed.

Hypothesis body_ok : forall f a k, no_refs_returned (body f a k).
Hypothesis mbody_ok : forall h c, no_refs_returned (mbody h c).
Notation AB := (AB body mbody is_async).

Lemma run_known mgr ops : let v := vrun mgr ops in gvalid (g_prog (v_g v)) ->
  AB (g_prog (v_g v)) (g_c (v_g v)) /\ FN (g_prog (v_g v)) (g_c (v_g v)).
Proof.
  intros v V. destruct (erased mgr ops) as (gops & m & E & _). fold v in E.
  assert (B := run_ab workers body mbody is_async body_ok mbody_ok mgr gops).
  assert (F := run_fn workers body mbody is_async body_ok mbody_ok mgr gops).
  rewrite E in B, F. cbn [with_mon g_prog g_c] in B, F. split.
  - destruct (B V) as [B0 B1 B2 B3 B4 B5 B6 B7 B8 B9 B10]. split; auto.
  - destruct (F V) as [F1 F2 F3]. split; auto.
Qed.

Lemma vprog_grows v o : exists l, g_prog (v_g (vstep v o)) = g_prog (v_g v) ++ l.
Proof.
  destruct o as [o|ds n| |]; cbn [WaitModel.vstep].
  - destruct (gprog_grows workers body mbody is_async (v_g v) o) as [l L].
    destruct (v_wait v); [destruct (is_root o)|]; cbn [v_g]; eauto. exists []. rewrite app_nil_r. auto.
  - exists []. rewrite app_nil_r. destruct (v_wait v); auto. destruct (c_left _); auto. unfold start_wait. destruct (wait_local _ _ _); auto.
  - exists []. rewrite app_nil_r. destruct (v_ask v) as [|[ds n] rest]; auto.
  - exists []. rewrite app_nil_r. destruct (v_ans v); auto. destruct (v_wait v) as [[[ds n] r0]|]; auto.
Qed.

(** What the monitor knows. *)
Record MI (ms : list mmsg) (c : cst) : Prop := {
  mi_comp : Completed ms (c_mon c);
  mi_stop : mstopped (c_mon c) = false;
  mi_true : forall d, complete ms d = true -> exists w ds, In ds (reports (log (c_work c w))) /\ In d ds;
  mi_all : forall w ds, In ds (reports (log (c_work c w))) -> In ds (c_done c w) \/ forall d, In d ds -> complete ms d = true;
  mi_done : forall w ds, In ds (c_done c w) -> In ds (reports (log (c_work c w)))
}.

Definition fair (g : gst) (x : wsight) : Prop :=
  match x with
  | WGave ds n r nr => (1 <= n)%Z /\ Permutation (r ++ nr) ds /\ Z.of_nat (length r) = n /\ Forall (finished g) r
  | WFailed _ _ => False
  end.

Record VI (v : vst) : Prop := {
  vi_mon : exists ms, MI ms (g_c (v_g v)) /\ phase ms (c_vals (g_c (v_g v))) (c_mon (g_c (v_g v))) (v_ask v) (v_ans v) (v_wait v);
  vi_left : v_wait v <> None -> c_left (g_c (v_g v)) = 0;
  vi_calls : v_calls v = map call_of (v_seen v) ++ waiting v;
  vi_seen : forall x, In x (v_seen v) -> fair (v_g v) x
}.

Lemma fair_mono g g' x : (forall d, finished g d -> finished g' d) -> fair g x -> fair g' x.
Proof.
  intros M. destruct x; simpl; auto. intros (N & P & L & F). repeat split; auto. eapply Forall_impl; [|exact F]. auto.
Qed.

(** A step of ActModel: logs and program grow, and the monitor is left alone or takes a report. *)
Lemma step_logs g o : gvalid (g_prog g) -> AB (g_prog g) (g_c g) ->
  forall w, exists l, log (c_work (g_c (gstep g o)) w) = log (c_work (g_c g) w) ++ l.
Proof.
  intros V B w.
  assert (Nil : exists l, log (c_work (g_c g) w) = log (c_work (g_c g) w) ++ l) by (exists []; rewrite app_nil_r; auto).
  destruct o as [p|s d|s|s|d i]; cbn [ActModel.gstep g_c].
  - destruct (c_left (g_c g)); auto. destruct p as [o|dest nd q]; auto. cbn [g_c]. destruct o; cbn [root_step]; auto.
    + destruct (filter _ ds); auto. destruct (owners _ _); auto.
    + destruct (_ =? _); auto.
  - unfold gtake. destruct (c_chan (g_c g) s d) as [|m l] eqn:Ch; auto.
    destruct (d =? 0) eqn:D0; simpl; auto. apply Nat.eqb_neq in D0. destruct (c_dead (g_c g) d); auto.
    eapply (log_grows body mbody is_async); eauto. eapply ab_chan; eauto. rewrite Ch. simpl. left. reflexivity.
  - unfold reply. destruct (c_left (g_c g)); auto. destruct (c_chan (g_c g) s 0) as [|m l]; auto. destruct m; auto.
  - unfold done. destruct (c_done (g_c g) s); auto.
  - unfold finish. destruct (nth_error _ _) eqn:Nt; auto.
    destruct (d =? 0) eqn:D0; simpl; auto. apply Nat.eqb_neq in D0. destruct (c_dead (g_c g) d); auto.
    eapply (log_grows body mbody is_async); eauto.
    simpl. intros Sy. destruct (ainbox body mbody is_async body_ok mbody_ok (g_prog g) (hist (g_c g)) d (map snd (c_in (g_c g) d)) V) as (N & _).
    { intros x X. apply in_map_iff in X as ([s y] & <- & X). eapply ab_in; eauto. }
    destruct (run_blocks d body mbody is_async body_ok mbody_ok Sy _ _ N (ab_run _ _ _ _ _ B d D0)) as [_ Rn].
    rewrite Rn in Nt. destruct i; discriminate.
Qed.

Lemma step_finished g o d : gvalid (g_prog g) -> AB (g_prog g) (g_c g) -> finished g d -> finished (gstep g o) d.
Proof.
  intros V B F. destruct (gprog_grows workers body mbody is_async g o) as [l L].
  assert (X := fin_mono (g_prog g) l (g_c g) (g_c (gstep g o)) (step_logs g o V B) d).
  unfold fin in X. rewrite <- L in X. destruct (gstep g o) as [c' p']. apply X. destruct g. exact F.
Qed.

(** Every step but a report taken leaves the monitor alone; new reports go to c_done. *)
Lemma deal_mi g ms src dst m ch : (forall w, exists l, log (c_work (deal body mbody is_async (g_c g) src dst m ch) w) = log (c_work (g_c g) w) ++ l) ->
  MI ms (g_c g) -> MI ms (deal body mbody is_async (g_c g) src dst m ch) /\
  c_mon (deal body mbody is_async (g_c g) src dst m ch) = c_mon (g_c g).
Proof.
  intros Lg [M1 M2 M3 M4 M5]. unfold deal in *. destruct (wstep dst body mbody is_async (c_work (g_c g) dst) m) as [w'|]; [|split; auto; split; auto].
  split; auto. specialize (Lg dst). cbn [c_work] in Lg. rewrite Nat.eqb_refl in Lg. destruct Lg as [l Lg].
  split; cbn [c_mon c_work c_done]; auto.
  - intros d C. destruct (M3 d C) as (w & ds & I & D). exists w, ds. split; auto. destruct (Nat.eqb_spec w dst) as [->|]; auto.
    rewrite Lg, reports_app. apply in_or_app; auto.
  - intros w ds. destruct (Nat.eqb_spec w dst) as [->|]; auto. rewrite Lg, reports_app, skipn_exact. intros I.
    apply in_app_or in I as [I|I]; [|left; apply in_or_app; auto]. destruct (M4 _ _ I); auto. left. apply in_or_app; auto.
  - intros w ds. destruct (Nat.eqb_spec w dst) as [->|]; auto. rewrite Lg, reports_app, skipn_exact. intros I.
    apply in_or_app. apply in_app_or in I as [I|I]; auto.
Qed.

Lemma step_quiet g o ms : gvalid (g_prog g) -> AB (g_prog g) (g_c g) -> MI ms (g_c g) -> (forall s, o <> GDone s) ->
  MI ms (g_c (gstep g o)) /\ c_mon (g_c (gstep g o)) = c_mon (g_c g).
Proof.
  intros V B M ND. assert (Lg := step_logs g o V B).
  assert (Sm : forall c', c_mon c' = c_mon (g_c g) -> c_work c' = c_work (g_c g) -> c_done c' = c_done (g_c g) ->
    MI ms c' /\ c_mon c' = c_mon (g_c g)).
  { intros c' E1 E2 E3. destruct M as [M1 M2 M3 M4 M5]. split; auto. split; rewrite ?E1, ?E2, ?E3; auto. }
  destruct o as [p|s d|s|s|d i]; cbn [ActModel.gstep g_c] in *.
  - destruct (c_left (g_c g)); [|apply Sm; auto]. destruct p as [o|dest nd q]; [|apply Sm; auto]. cbn [g_c].
    destruct o; cbn [root_step]; try (apply Sm; auto; fail).
    + cbv zeta. destruct (filter _ ds); [apply Sm; auto|]. destruct (owners _ _); apply Sm; auto.
    + destruct (_ =? _); apply Sm; auto.
  - unfold gtake in *. destruct (c_chan (g_c g) s d) as [|m l]; [apply Sm; auto|].
    destruct ((d =? 0) || c_dead (g_c g) d); [apply Sm; auto|]. apply deal_mi; auto.
  - unfold reply. destruct (c_left (g_c g)); [apply Sm; auto|]. destruct (c_chan (g_c g) s 0) as [|m l]; [apply Sm; auto|]. destruct m; apply Sm; auto.
  - exfalso; apply (ND s); auto.
  - unfold finish in *. destruct (nth_error _ _); [|apply Sm; auto].
    destruct ((d =? 0) || c_dead (g_c g) d); [apply Sm; auto|]. apply deal_mi; auto.
Qed.

Lemma mi_told ms g s ds l m' : MI ms (g_c g) -> c_done (g_c g) s = ds :: l ->
  mon_step (mon_cfg workers) (c_mon (g_c g)) (MDone s ds) = Some m' -> Completed (ms ++ [MDone s ds]) m' -> mstopped m' = false ->
  MI (ms ++ [MDone s ds]) (done workers (g_c g) s).
Proof.
  intros [M1 M2 M3 M4 M5] Dn H Co St. unfold done. rewrite Dn, H. split; cbn [c_mon c_work c_done]; auto.
  - intros d C. rewrite complete_app in C. apply orb_true_iff in C as [C|C]; [auto|]. simpl in C. rewrite orb_false_r in C.
    apply did_in_In in C. exists s, ds. split; auto. apply M5. rewrite Dn. simpl; auto.
  - intros w x I. destruct (M4 _ _ I) as [X|X]; [|right; intros d D; apply complete_more; auto].
    destruct (Nat.eqb_spec w s) as [->|]; auto. rewrite Dn in X |- *. destruct X as [<-|X]; [|auto].
    right. intros d D. rewrite complete_app. simpl. apply did_in_In in D. rewrite D. simpl. apply orb_true_r.
  - intros w x I. apply M5. destruct (Nat.eqb_spec w s) as [->|]; auto. rewrite Dn in *. simpl in *; auto.
Qed.

Lemma quiet_vals g o : is_root o = false -> c_left (g_c g) = 0 ->
  c_vals (g_c (gstep g o)) = c_vals (g_c g) /\ c_left (g_c (gstep g o)) = 0.
Proof.
  intros R L. destruct o as [p|s d|s|s|d i]; try discriminate; cbn [ActModel.gstep g_c].
  - unfold gtake. destruct (c_chan (g_c g) s d); auto. destruct (_ || _); auto. unfold deal. destruct (wstep _ _ _ _ _ _); auto.
  - unfold reply. rewrite L. auto.
  - unfold done. destruct (c_done _ _); auto.
  - unfold finish. destruct (nth_error _ _); auto. destruct (_ || _); auto. unfold deal. destruct (wstep _ _ _ _ _ _); auto.
Qed.

(** A report is of something that has ended. *)
Lemma complete_finished g ms d : gvalid (g_prog g) -> AB (g_prog g) (g_c g) -> FN (g_prog g) (g_c g) -> MI ms (g_c g) ->
  complete ms d = true -> finished g d.
Proof.
  intros V B F M C. destruct (mi_true _ _ M d C) as (w & ds & I & D).
  assert (Nw : w <> 0). { intros ->. rewrite (ab_zero _ _ _ _ _ B) in I. destruct I. }
  assert (Oi : forall x, In x (map snd (c_in (g_c g) w)) -> aokm body mbody is_async (g_prog g) (hist (g_c g)) w x).
  { intros x X. apply in_map_iff in X as ([s y] & <- & X). eapply ab_in; eauto. }
  destruct (ainbox body mbody is_async body_ok mbody_ok _ _ _ _ V Oi) as (N & _).
  destruct (told_stored w body mbody is_async body_ok mbody_ok _ _ N (ab_run _ _ _ _ _ B w Nw) _ _ I D) as (x & X).
  destruct g as [c prog]. apply (worker_finished body mbody is_async body_ok mbody_ok prog c w d x V B F). right. auto.
Qed.

Lemma begun_vals g st ds n r0 nr p : begun st ds n r0 nr p -> st = c_vals (g_c g) -> FN (g_prog g) (g_c g) -> Forall (finished g) r0.
Proof.
  intros (_ & _ & _ & _ & F & _) -> N. eapply Forall_impl; [|exact F]. intros d X. simpl in X.
  destruct (c_vals (g_c g) d) as [v|] eqn:E; [|congruence]. destruct g as [c prog]. exact (fn_vals _ _ N d v E).
Qed.

Lemma phase_same ms st m ask ans w : phase ms st m ask ans w -> forall st', st' = st -> phase ms st' m ask ans w.
Proof. intros P st' ->. auto. Qed.

Lemma vi_step v o : gvalid (g_prog (v_g (vstep v o))) -> AB (g_prog (v_g v)) (g_c (v_g v)) -> FN (g_prog (v_g v)) (g_c (v_g v)) ->
  VI v -> VI (vstep v o).
Proof.
  intros V B F I0. assert (V0 : gvalid (g_prog (v_g v))).
  { destruct (vprog_grows v o) as [l L]. rewrite L in V. eapply gvalid_prefix; eauto. }
  clear V. destruct I0 as [(ms & M & P) L C S].
  destruct o as [o|ds n| |]; cbn [WaitModel.vstep].
  - destruct (v_wait v) as [[[ds0 n0] r0]|] eqn:W.
    + destruct (is_root o) eqn:R; [split; rewrite ?W; eauto; exists ms; rewrite W; auto|].
      destruct (quiet_vals (v_g v) o R (L ltac:(discriminate))) as [Ev El].
      split; cbn [v_g v_ask v_ans v_wait v_calls v_seen].
      * rewrite Ev. assert (X : (exists s, o = GDone s) \/ (forall s, o <> GDone s)) by (destruct o; eauto; right; discriminate).
        destruct X as [(s & ->)|X].
        -- cbn [ActModel.gstep g_c]. destruct (c_done (g_c (v_g v)) s) as [|x l] eqn:Dn.
           ++ unfold done. rewrite Dn, new_answers_none, app_nil_r. eauto.
           ++ destruct (mon_takes (mon_cfg workers) (c_mon (g_c (v_g v))) (MDone s x) (mi_stop _ _ M) I) as (m' & H & St & _).
              destruct (phase_done _ _ _ _ _ _ _ _ _ _ (mi_comp _ _ M) (mi_stop _ _ M) P H) as [Co P'].
              exists (ms ++ [MDone s x]). split; [eapply mi_told; eauto|].
              unfold done. rewrite Dn, H. cbn [c_mon]. exact P'.
        -- destruct (step_quiet (v_g v) o ms V0 B M X) as [M' ->]. rewrite new_answers_none, app_nil_r. eauto.
      * auto.
      * unfold waiting in *. rewrite W in C. exact C.
      * intros x X. eapply fair_mono; [|apply S; auto]. intros d. apply step_finished; auto.
    + assert (P0 : Idle (c_mon (g_c (v_g v))) /\ v_ask v = [] /\ v_ans v = []) by (inversion P; auto).
      destruct P0 as (Id & Ea & Es).
      split; cbn [v_g v_ask v_ans v_wait v_calls v_seen].
      * assert (X : (exists s, o = GDone s) \/ (forall s, o <> GDone s)) by (destruct o; eauto; right; discriminate).
        destruct X as [(s & ->)|X].
        -- cbn [ActModel.gstep g_c]. destruct (c_done (g_c (v_g v)) s) as [|x l] eqn:Dn.
           ++ unfold done. rewrite Dn, new_answers_none, app_nil_r. eauto.
           ++ destruct (mon_takes (mon_cfg workers) (c_mon (g_c (v_g v))) (MDone s x) (mi_stop _ _ M) I) as (m' & H & St & _).
              destruct (phase_done _ _ _ _ _ _ _ _ _ _ (mi_comp _ _ M) (mi_stop _ _ M) P H) as [Co P'].
              exists (ms ++ [MDone s x]). split; [eapply mi_told; eauto|].
              unfold done. rewrite Dn, H. cbn [c_mon c_vals]. exact P'.
        -- destruct (step_quiet (v_g v) o ms V0 B M X) as [M' ->]. rewrite new_answers_none, app_nil_r, Ea, Es.
           exists ms. split; auto. constructor. auto.
      * congruence.
      * unfold waiting in *. rewrite W in C. exact C.
      * intros x X. eapply fair_mono; [|apply S; auto]. intros d. apply step_finished; auto.
  - destruct (v_wait v) as [[[ds0 n0] r0]|] eqn:W; [split; rewrite ?W; eauto; exists ms; rewrite W; auto|].
    destruct (c_left (g_c (v_g v))) eqn:Lf; [|split; rewrite ?W; eauto; try congruence; exists ms; rewrite W; auto].
    assert (P0 : Idle (c_mon (g_c (v_g v))) /\ v_ask v = [] /\ v_ans v = []) by (inversion P; auto).
    destruct P0 as (Id & Ea & Es). unfold waiting in C. rewrite W, app_nil_r in C.
    unfold start_wait. destruct (Z_lt_le_dec 0 n) as [Ln|Ln].
    + assert (Sp := wait_local_spec (c_vals (g_c (v_g v))) ds n ltac:(lia)).
      destruct (wait_local (c_vals (g_c (v_g v))) ds n) as [r nr|r nr p].
      * destruct Sp as (Pm & Len & Fr). split; cbn [v_g v_ask v_ans v_wait v_calls v_seen].
        -- exists ms. auto.
        -- congruence.
        -- unfold waiting. simpl. rewrite map_app, C, app_nil_r. auto.
        -- intros x X. apply in_app_or in X as [X|[<-|[]]]; auto. simpl. split; [lia|]. split; auto. split; auto.
           eapply Forall_impl; [|exact Fr]. intros d Y. simpl in Y.
           destruct (c_vals (g_c (v_g v)) d) as [u|] eqn:E; [|congruence]. assert (Q := fn_vals _ _ F d u E). destruct (v_g v). exact Q.
      * destruct Sp as (Pm & Len & Lp & Fr & Fn). split; cbn [v_g v_ask v_ans v_wait v_calls v_seen]; auto.
        -- exists ms. split; auto. rewrite Ea, Es. simpl. apply ph_ask; auto. repeat split; auto. lia.
        -- unfold waiting. simpl. rewrite C. auto.
    + destruct (wait_loop_late (c_vals (g_c (v_g v))) n Ln ds [] ds n Ln) as (r & l & p & E & Lp).
      unfold wait_local. rewrite E. split; cbn [v_g v_ask v_ans v_wait v_calls v_seen]; auto.
      * exists ms. split; auto. rewrite Ea, Es. simpl. apply ph_late; auto.
      * unfold waiting. simpl. rewrite C. auto.
  - destruct (v_ask v) as [|[ds n] rest] eqn:Ea; [split; eauto; exists ms; rewrite Ea; auto|].
    destruct (mon_takes (mon_cfg workers) (c_mon (g_c (v_g v))) (MWait ds n) (mi_stop _ _ M) I) as (m' & H & St & _).
    destruct (phase_ask _ _ _ _ _ _ _ _ _ _ (mi_comp _ _ M) (mi_stop _ _ M) P H) as [Co P'].
    rewrite H. split; cbn [v_g v_ask v_ans v_wait v_calls v_seen g_c set_mon c_left]; auto.
    + exists (ms ++ [MWait ds n]). split; [|exact P']. destruct M as [M1 M2 M3 M4 M5].
      assert (Cm : forall d, complete (ms ++ [MWait ds n]) d = complete ms d).
      { intros d. rewrite complete_app. simpl. apply orb_false_r. }
      split; cbn [set_mon c_mon c_work c_done]; auto.
      * intros d. rewrite Cm. auto.
      * intros w x X. destruct (M4 _ _ X) as [Y|Y]; auto. right. intros d D. rewrite Cm. auto.
  - destruct (v_ans v) as [|a rest] eqn:Es; [split; eauto; exists ms; rewrite Es; auto|].
    destruct (v_wait v) as [[[ds n] r0]|] eqn:W; [|inversion P].
    inversion P as [| | |ds0 n0 r1 nr p r l Bg Id Pm Len Fc| |]; subst.
    assert (Fr0 := begun_vals (v_g v) _ _ _ _ _ _ Bg eq_refl F). destruct Bg as (Ln & Lp & Pn & Ls & _).
    assert (Q : Permutation ((r0 ++ r) ++ l) ds) by (rewrite <- app_assoc, Pm; auto).
    assert (En : wait_end ds r0 (r, l) = Some (r0 ++ r, l)).
    { unfold wait_end. simpl. rewrite !map_back_some; auto; intros d D; apply (Permutation_in d Q); apply in_or_app; auto. }
    rewrite En. split; cbn [v_g v_ask v_ans v_wait v_calls v_seen].
    + exists ms. split; auto. constructor; auto.
    + congruence.
    + unfold waiting in *. simpl. rewrite W in C. rewrite C, map_app, app_nil_r. auto.
    + intros x X. apply in_app_or in X as [X|[<-|[]]]; auto. simpl. split; [lia|]. split; auto.
      split; [rewrite app_length; lia|]. apply Forall_app. split; auto. eapply Forall_impl; [|exact Fc].
      intros d. eapply complete_finished; eauto.
Qed.

Lemma run_vi mgr ops : gvalid (g_prog (v_g (vrun mgr ops))) -> VI (vrun mgr ops).
Proof.
  induction ops as [|o ops IH] using rev_ind; intros V.
  - split; simpl; auto; try tauto. exists []. split; [|constructor; split; auto].
    split; simpl; auto; try tauto; try discriminate. intros d. auto.
  - rewrite vrun_snoc in *. assert (V0 : gvalid (g_prog (v_g (vrun mgr ops)))).
    { destruct (vprog_grows (vrun mgr ops) o) as [l L]. rewrite L in V. eapply gvalid_prefix; eauto. }
    destruct (run_known mgr ops V0) as [B F]. apply vi_step; auto.
Qed.

(** A request a worker has received is the one of its number in the program. *)
Lemma same_request g dest q q' : gvalid (g_prog g) -> AB (g_prog g) (g_c g) -> dest <> 0 ->
  In (dest, q) (gsubmitted (g_prog g)) -> In q' (received (log (c_work (g_c g) dest))) -> q_id q' = q_id q -> q' = q.
Proof.
  intros V B Nw Q Q' Id.
  assert (Oi : forall x, In x (map snd (c_in (g_c g) dest)) -> aokm body mbody is_async (g_prog g) (hist (g_c g)) dest x).
  { intros x X. apply in_map_iff in X as ([s y] & <- & X). eapply ab_in; eauto. }
  destruct (worker_gives body mbody is_async body_ok mbody_ok (g_prog g) (hist (g_c g)) dest _ _ V
    (hist_once body mbody is_async body_ok mbody_ok _ _ V B) Oi (ab_run _ _ _ _ _ B dest Nw)) as (_ & _ & Inp & _).
  { exists []. rewrite app_nil_r. auto. }
  rewrite received_inputs, Inp in Q'.
  assert (Q2 : In (dest, q') (gsubmitted (g_prog g))).
  { apply in_gsub. apply requests_in in Q' as [Q'|Q']; apply Oi in Q'; simpl in Q'; auto. }
  assert (U := gv_ids _ V). clear - U Q Q2 Id. revert Q Q2. generalize dependent (gsubmitted (g_prog g)).
  induction l as [|x l IH]; simpl; intros U A C; [tauto|]. inversion U as [|? ? Ni U']; subst.
  assert (H : forall z, In z l -> In (q_id (snd z)) (map (fun p => q_id (snd p)) l)) by (intros z Z; apply in_map_iff; eauto).
  destruct A as [->|A], C as [C|C]; auto.
  - congruence.
  - exfalso. apply Ni. simpl. rewrite <- Id. apply (H (dest, q') C).
  - exfalso. apply Ni. subst x. simpl. rewrite Id. apply (H (dest, q) A).
Qed.

(** What has ended well is reported. *)
Lemma ended_complete g ms d : gvalid (g_prog g) -> AB (g_prog g) (g_c g) -> MI ms (g_c g) ->
  (forall w, c_done (g_c g) w = []) -> c_vals (g_c g) d = None -> ended_well g d -> complete ms d = true.
Proof.
  intros V B M Dn Nv [X|(dest & q & v & Q & D & N & En)]; [congruence|].
  assert (Nw : dest <> 0). { intros ->. rewrite (ab_zero _ _ _ _ _ B) in N. destruct N. }
  assert (Oi : forall x, In x (map snd (c_in (g_c g) dest)) -> aokm body mbody is_async (g_prog g) (hist (g_c g)) dest x).
  { intros x X. apply in_map_iff in X as ([s y] & <- & X). eapply ab_in; eauto. }
  destruct (ainbox body mbody is_async body_ok mbody_ok _ _ _ _ V Oi) as (Nr & NC).
  destruct (success_told dest body mbody is_async body_ok mbody_ok _ _ Nr (ab_run _ _ _ _ _ B dest Nw) _ _ N) as (q' & Q' & Id & R).
  assert (q' = q) by (eapply same_request; eauto).
  subst q'. destruct (R En d D) as (ds & I & Dd). destruct (mi_all _ _ M dest ds I) as [X|X]; auto.
  rewrite Dn in X. destruct X.
Qed.

Lemma filter_len {A} (f : A -> bool) l : length (filter f l) <= length l.
Proof. induction l as [|x l IH]; simpl; auto. destruct (f x); simpl; lia. Qed.

(** When nothing is under way and enough references are ready, no wait is pending. *)
Lemma wait_over mgr ops : let v := vrun mgr ops in gvalid (g_prog (v_g v)) -> settled v ->
  forall ds n, In (ds, n) (waiting v) -> (1 <= n)%Z ->
  forall l l', Permutation (l ++ l') ds -> Forall (ended_well (v_g v)) l -> (Z.of_nat (length l) < n)%Z.
Proof.
  intros v V (_ & Dn & Ea & Es) ds n W N l l' Pm Fl.
  destruct (run_known mgr ops V) as [B _]. fold v in B.
  destruct (run_vi mgr ops V) as [(ms & M & P) _ _ _]. fold v in M, P. rewrite Ea, Es in P.
  unfold waiting in W. destruct (v_wait v) as [[[ds0 n0] r0]|]; [|destruct W]. destruct W as [W|[]].
  apply pair_inj in W as [-> ->].
  inversion P as [| |ds1 n1 r1 nr p Bg Op| | |ds1 n1 r1 Nn]; subst; [|lia].
  destruct Bg as (_ & Lp & Pn & Ls & Fr & Fn). destruct Op as (_ & Pa & Un & Al & Lt).
  set (f := fun d => match c_vals (g_c (v_g v)) d with Some _ => true | None => complete ms d end).
  assert (Fa : filter f (mawaited (c_mon (g_c (v_g v)))) = []).
  { apply filter_false. apply Forall_forall. intros d D. unfold f.
    assert (Nv : c_vals (g_c (v_g v)) d = None).
    { rewrite Forall_forall in Fn. apply Fn. apply (Permutation_in d Pa). apply in_or_app; auto. }
    rewrite Nv. rewrite <- (mi_comp _ _ M). unfold undone in Un. rewrite Forall_forall in Un. auto. }
  assert (Fg : filter f l = l).
  { apply filter_true. eapply Forall_impl; [|exact Fl]. intros d E. unfold f.
    destruct (c_vals (g_c (v_g v)) d) eqn:Cv; auto. eapply ended_complete; eauto. }
  assert (Le : length l <= length (filter f ds)).
  { rewrite <- (Permutation_length (filter_perm f _ _ Pm)), filter_app, app_length, Fg. lia. }
  assert (Le2 : length (filter f ds) <= length r0 + length (mready (c_mon (g_c (v_g v))))).
  { rewrite <- (Permutation_length (filter_perm f _ _ Pn)), filter_app, app_length.
    rewrite <- (Permutation_length (filter_perm f _ _ Pa)), filter_app, app_length, Fa. simpl.
    assert (X := filter_len f r0). assert (Y := filter_len f (mready (c_mon (g_c (v_g v))))). lia. }
  lia.
Qed.
End Whole.
