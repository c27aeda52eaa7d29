(** Answers of the monitor reach those who asked. *)
From Verif Require Import Lib ShmModel MonModel MonSpec MonProofs ReplyModel ReplySpec.
From Coq Require Import Permutation.

Definition isdone (e : mev) : bool := match e with MvIn (MDone _ _) => true | _ => false end.
Definition dcount (l : list mev) : nat := length (filter isdone l).

Lemma dcount_app a b : dcount (a ++ b) = dcount a + dcount b.
Proof. unfold dcount. rewrite filter_app, app_length. reflexivity. Qed.

Lemma qset_same {A} (f : rank -> A) p a : qset f p a p = a.
Proof. unfold qset. rewrite Nat.eqb_refl. reflexivity. Qed.

Lemma qset_other {A} (f : rank -> A) p q a : q <> p -> qset f p a q = f q.
Proof. unfold qset. intros H. apply Nat.eqb_neq in H. rewrite H. reflexivity. Qed.

(** What a turn of the monitor appends to its log. *)
Lemma scan_log fuel : forall i s, exists evs, mlog (scan fuel i s) = mlog s ++ evs /\
  (evs = [] \/ exists r nr, evs = [MvAnswer r nr]).
Proof.
  induction fuel as [|fuel IH]; intros i s; cbn [scan]; [exists []; rewrite app_nil_r; auto|].
  destruct (nth_error (mawaited s) i) as [d|]; [|exists []; rewrite app_nil_r; auto].
  destruct (did_in d (mcompleted s)); [|apply IH].
  destruct (_ =? _)%Z.
  - rewrite scan_empty by reflexivity. cbn [set_wait memit mlog]. eexists. split; [reflexivity|]. right. eauto.
  - apply (IH i (set_wait s (rm1 d (mawaited s)) (mready s ++ [d]) (mnum s))).
Qed.

Lemma scan_keeps fuel : forall i s, mcount (scan fuel i s) = mcount s /\ mcompleted (scan fuel i s) = mcompleted s /\
  mstopped (scan fuel i s) = mstopped s.
Proof.
  induction fuel as [|fuel IH]; intros i s; cbn [scan]; [auto|].
  destruct (nth_error (mawaited s) i) as [d|]; [|auto]. destruct (did_in d (mcompleted s)); [|apply IH].
  destruct (_ =? _)%Z.
  - destruct (IH i (set_wait (memit s (MvAnswer (mready s ++ [d]) (rm1 d (mawaited s)))) [] [] (mnum s))) as (A & B & C).
    rewrite A, B, C. auto.
  - destruct (IH i (set_wait s (rm1 d (mawaited s)) (mready s ++ [d]) (mnum s))) as (A & B & C). rewrite A, B, C. auto.
Qed.

Lemma stops_log l : forall s, let s' := fold_left (fun s r => memit s (MvStop r)) l s in mlog s' = mlog s ++ map MvStop l.
Proof. induction l as [|r l IH]; intros s; simpl; [rewrite app_nil_r; auto|]. rewrite IH. simpl. rewrite <- app_assoc. reflexivity. Qed.

Definition turn (x : mmsg) (m m' : mst) (evs : list mev) : Prop :=
  match x with
  | MDone _ _ | MWait _ _ => (evs = [] \/ exists r nr, evs = [MvAnswer r nr]) /\ mstopped m' = false
  | MCount src => evs = [MvCount src (mcount m)] /\ mstopped m' = false
  | MReserve src _ _ => (exists i f, evs = [MvReserve src i f]) /\ mstopped m' = false
  | MShared src _ => (exists lo hi, evs = [MvShared src lo hi]) /\ mstopped m' = false
  | MClean _ _ => evs = [] /\ mstopped m' = false
  | MAck _ => (evs = [] /\ mstopped m' = false) \/ (flat_map sent evs = [(0, POver)] /\ mstopped m' = true)
  | MStop => evs = [] /\ mstopped m' = true
  end.

Lemma step_turn c m x m' : mon_step c m x = Some m' -> mstopped m = false ->
  exists evs, mlog m' = mlog m ++ MvIn x :: evs /\ turn x m m' evs /\
    (mstopped m' = false -> mcount m' = mcount m + (if isdone (MvIn x) then 1 else 0) /\
     mcompleted m' = match x with MDone _ ds => ds ++ mcompleted m | _ => mcompleted m end).
Proof.
  intros H St. unfold mon_step in H. rewrite St in H. destruct x as [src ds|ds n|src|src d n|src d|ds fl|src|]; cbn [turn isdone].
  - apply Some_inj in H as <-. unfold process_waits.
    match goal with |- context [scan ?a ?b ?z] => destruct (scan_log a b z) as (evs & E & T); destruct (scan_keeps a b z) as (A & B & C) end.
    exists evs. rewrite E, A, B, C. cbn [set_done memit mlog mcount mcompleted mstopped]. rewrite <- app_assoc.
    split; [reflexivity|]. split; [split; assumption|]. intros _. split; [lia|reflexivity].
  - apply Some_inj in H as <-. unfold process_waits.
    match goal with |- context [scan ?a ?b ?z] => destruct (scan_log a b z) as (evs & E & T); destruct (scan_keeps a b z) as (A & B & C) end.
    exists evs. rewrite E, A, B, C. cbn [set_wait memit mlog mcount mcompleted mstopped]. rewrite <- app_assoc.
    split; [reflexivity|]. split; [split; assumption|]. intros _. split; [lia|reflexivity].
  - apply Some_inj in H as <-. eexists. cbn [memit mlog mcount mcompleted mstopped]. rewrite <- app_assoc. split; [reflexivity|].
    split; [split; [reflexivity|exact St]|]. intros _. split; [lia|reflexivity].
  - destruct (mgr_reserve _ _ _) as [g [[i f]|]]; [|discriminate]. apply Some_inj in H as <-.
    eexists. cbn [memit set_mgr mlog mcount mcompleted mstopped]. rewrite <- app_assoc. split; [reflexivity|].
    split; [split; [eauto|exact St]|]. intros _. split; [lia|reflexivity].
  - destruct (mgr_get _ _) as [i|]; [|discriminate]. apply Some_inj in H as <-.
    eexists. cbn [memit mlog mcount mcompleted mstopped]. rewrite <- app_assoc. split; [reflexivity|].
    split; [split; [eauto|exact St]|]. intros _. split; [lia|reflexivity].
  - apply Some_inj in H as <-. exists []. cbn [memit set_mgr mlog mcount mcompleted mstopped]. split; [reflexivity|].
    split; [split; [reflexivity|exact St]|]. intros _. split; [lia|reflexivity].
  - destruct (Nat.eqb _ _); apply Some_inj in H as <-.
    + eexists. unfold stop_all. cbn [set_stopped memit mlog mcount mcompleted mstopped]. rewrite stops_log.
      cbn [set_acks memit mlog]. rewrite <- !app_assoc. cbn [app]. split; [reflexivity|]. split; [right; split; [|reflexivity]|discriminate].
      rewrite flat_map_app. cbn [flat_map sent app]. generalize (stop_targets c). induction l as [|r l IH]; simpl; auto.
    + exists []. cbn [set_acks memit mlog mcount mcompleted mstopped]. split; [reflexivity|]. split; [left; auto|].
      intros _. split; [lia|reflexivity].
  - apply Some_inj in H as <-. exists []. split; [reflexivity|]. split; [split; reflexivity|]. discriminate.
Qed.

Lemma skip_log (a b : list mev) : skipn (length a) (a ++ b) = b.
Proof. rewrite skipn_app, skipn_all, Nat.sub_diag. reflexivity. Qed.

(** Answers stay answers as the log grows. *)
Lemma answers_more l l' p r a : answers_to l p r a -> answers_to (l ++ l') p r a.
Proof.
  unfold answers_to. destruct r as [ds n| |d n|], a as [rd nr|k|i f|]; auto.
  - intros (A & B & C). split; [exact A|]. split; [exact B|]. intros d D. destruct (C d D) as (src & out & E & F).
    exists src, out. split; [apply in_or_app; auto|exact F].
  - intros (b & af & -> & E). exists b, (af ++ l'). split; [rewrite <- app_assoc; reflexivity|exact E].
  - intros (b & af & ->). exists b, (af ++ l'). rewrite <- app_assoc. reflexivity.
Qed.

Definition halted (s : qst) : Prop := match q_mon s with None => True | Some m => mstopped m = true end.
Definition alltell (l : list mmsg) : Prop := Forall (fun m => tells m = true) l.

Inductive Phase (l : list mev) (s : qst) (p : rank) : Prop :=
| PhIdle : q_busy s p = None -> alltell (q_in s p) -> q_out s p = [] -> Phase l s p
| PhSent r t : q_busy s p = Some r -> r <> ROver -> q_in s p = t ++ req_msg p r -> alltell t -> q_out s p = [] -> Phase l s p
| PhKept r : q_busy s p = Some r -> match r with RWait ds n => p = 0 -> halted s \/ exists m, q_mon s = Some m /\ Open ds n m | ROver => True | _ => False end ->
    alltell (q_in s p) -> q_out s p = [] -> Phase l s p
| PhLost r : q_busy s p = Some r -> alltell (q_in s p) -> q_out s p = [] -> halted s -> Phase l s p
| PhAns r a : q_busy s p = Some r -> alltell (q_in s p) -> q_out s p = [a] -> answers_to l p r a -> Phase l s p.

Section Inv.
Variable c : mcfg.
Variable RO : Prop.

Record Inv (l : list mev) (s : qst) : Prop := {
  iv_log : forall m, q_mon s = Some m -> mlog m = l;
  iv_seen : forall p r a, In (p, r, a) (q_seen s) -> p <> 0 \/ RO -> answers_to l p r a;
  iv_ph : forall p, p <> 0 \/ RO -> Phase l s p;
  iv_msg : forall p x, In x (q_in s p) -> tells x = true \/ exists r, req_msg p r = [x];
  iv_cnt : forall m, q_mon s = Some m -> mstopped m = false -> mcount m = dcount l;
  iv_done : forall m d, q_mon s = Some m -> mstopped m = false -> did_in d (mcompleted m) = true ->
            exists src out, In (MvIn (MDone src out)) l /\ In d out;
  iv_wait : RO -> forall m, q_mon s = Some m -> mstopped m = false ->
            Idle m \/ exists ds n, q_busy s 0 = Some (RWait ds n) /\ Open ds n m /\ q_out s 0 = [] /\ alltell (q_in s 0);
  iv_pos : RO -> forall p ds n, q_busy s p = Some (RWait ds n) -> p = 0 /\ (1 <= n)%Z;
  iv_ack : RO -> forall p src, In (MAck src) (q_in s p) -> halted s \/ q_busy s 0 = Some ROver;
  iv_over : RO -> In POver (q_out s 0) -> halted s
}.

Lemma inv_init mgr : Inv [] (qinit mgr).
Proof using.
  constructor; cbn.
  - intros m H. injection H as <-. reflexivity.
  - tauto.
  - intros p _. apply PhIdle; cbn; auto; constructor.
  - tauto.
  - intros m H. injection H as <-. reflexivity.
  - intros m d H. injection H as <-. discriminate.
  - intros _ m H. injection H as <-. left. split; reflexivity.
  - discriminate.
  - tauto.
  - tauto.
Qed.

(** Changes elsewhere leave the phase of p alone. *)
Lemma phase_frame l s s' p : Phase l s p -> q_busy s' p = q_busy s p -> q_in s' p = q_in s p -> q_out s' p = q_out s p ->
  q_mon s' = q_mon s -> Phase l s' p.
Proof using.
  intros P A B C D. destruct P.
  - apply PhIdle; congruence.
  - eapply PhSent; try congruence; eauto; congruence.
  - eapply PhKept; try rewrite B; try rewrite C; try rewrite A; eauto. unfold halted in *. rewrite D. assumption.
  - eapply PhLost; try rewrite B; try rewrite C; try rewrite A; eauto. unfold halted in *. rewrite D. assumption.
  - eapply PhAns; try rewrite B; try rewrite C; try rewrite A; eauto.
Qed.

Lemma req_msg_not_tell p r x : req_msg p r = [x] -> tells x = false.
Proof using. destruct r; simpl; intros H; try discriminate; injection H as <-; reflexivity. Qed.

(** A turn of the monitor, for a process it does not answer a wait of. *)
Lemma phase_mon l s p q m x rest m' evs : Inv l s -> q <> 0 \/ RO -> q_mon s = Some m -> mstopped m = false ->
  (q = 0 -> (forall rd nr, ~ In (MvAnswer rd nr) evs) /\ mstopped m' = false /\ (forall ds n, x <> MWait ds n)) ->
  (q = 0 -> forall ds n, Open ds n m -> Open ds n m') ->
  q_in s p = x :: rest -> turn x m m' evs ->
  Phase (l ++ MvIn x :: evs)
    {| q_mon := Some m'; q_in := qset (q_in s) p rest; q_out := deliver (q_out s) (flat_map sent evs);
       q_busy := q_busy s; q_seen := q_seen s |} q /\
  (deliver (q_out s) (flat_map sent evs) q = q_out s q \/
   q_out s q = [] /\ exists r, req_msg q r = [x] /\ q_busy s q = Some r /\ forall ds n, r <> RWait ds n).
Proof using.
  intros I Q Em St Quiet Keep Ei Tu.
  assert (Lm := iv_log _ _ I m Em).
  assert (X : tells x = true \/ exists r, req_msg p r = [x]) by (apply (iv_msg _ _ I p); rewrite Ei; left; reflexivity).
  assert (Nh : ~ halted s) by (unfold halted; rewrite Em, St; discriminate).
  assert (To : (forall r, req_msg q r = [x] -> exists ds n, r = RWait ds n) -> map snd (filter (fun y => Nat.eqb (fst y) q) (flat_map sent evs)) = []).
  { intros Zr. destruct x; cbn [turn] in Tu; try discriminate.
    - destruct Tu as [[-> | (rd & nr & ->)] _]; cbn; [auto|]. destruct q; [|reflexivity].
      destruct (Quiet eq_refl) as (A & _). exfalso. apply (A rd nr). left. reflexivity.
    - destruct Tu as [[-> | (rd & nr & ->)] _]; cbn; [auto|]. destruct q; [|reflexivity].
      destruct (Quiet eq_refl) as (A & _). exfalso. apply (A rd nr). left. reflexivity.
    - destruct Tu as [-> _]. cbn. destruct (Nat.eqb src q) eqn:E; [|reflexivity]. apply Nat.eqb_eq in E as ->.
      destruct (Zr RCount eq_refl) as (? & ? & ?). discriminate.
    - destruct Tu as [(i & f & ->) _]. cbn. destruct (Nat.eqb src q) eqn:E; [|reflexivity]. apply Nat.eqb_eq in E as ->.
      destruct (Zr (RReserve d size) eq_refl) as (? & ? & ?). discriminate.
    - destruct Tu as [(lo & hi & ->) _]. reflexivity.
    - destruct Tu as [-> _]. reflexivity.
    - destruct Tu as [[-> _]|[-> S]]; cbn; [auto|]. destruct q; [|reflexivity].
      destruct (Quiet eq_refl) as (_ & A & _). congruence.
    - destruct Tu as [-> _]. reflexivity. }
  destruct (Nat.eq_dec q p) as [Eqp|Np].
  - subst p. destruct (iv_ph _ _ I q Q) as [B A O|r t B Ro E A O|r B K A O|r B A O H|r a B A O An].
    + assert (D : deliver (q_out s) (flat_map sent evs) q = q_out s q).
      { unfold deliver. rewrite To; [apply app_nil_r|]. intros r R. apply req_msg_not_tell in R. rewrite Ei in A. inversion A; subst. congruence. }
      split; [|left; exact D]. apply PhIdle; cbn [q_busy q_in q_out]; auto; [|congruence].
      rewrite qset_same. rewrite Ei in A. inversion A; auto.
    + rewrite Ei in E. destruct t as [|y t].
      * cbn [app] in E. assert (rest = []) as -> by (destruct r; simpl in E; congruence).
        destruct r as [ds n| |d n|]; simpl in E; [| | |discriminate]; injection E as ->; cbn [turn] in Tu.
        -- assert (q <> 0) by (intros Z; destruct (Quiet Z) as (_ & _ & W); apply (W ds n); reflexivity).
           assert (D : deliver (q_out s) (flat_map sent evs) q = q_out s q).
           { unfold deliver. rewrite To; [apply app_nil_r|]. intros r R. destruct r; simpl in R; try discriminate. eauto. }
           split; [|left; exact D].
           eapply PhKept; cbn [q_busy q_in q_out]; eauto; [cbn; congruence|rewrite qset_same; constructor|congruence].
        -- destruct Tu as [-> Ns]. split; [|right; split; [exact O|exists RCount; repeat split; auto; discriminate]].
           eapply PhAns; cbn [q_busy q_in q_out]; [exact B|rewrite qset_same; constructor| |].
           ++ unfold deliver. rewrite O. cbn. rewrite Nat.eqb_refl. reflexivity.
           ++ cbn [answers_to]. exists l, []. split; [reflexivity|]. rewrite (iv_cnt _ _ I m Em St). reflexivity.
        -- destruct Tu as [(i & f & ->) Ns]. split; [|right; split; [exact O|exists (RReserve d n); repeat split; auto; discriminate]].
           eapply PhAns; cbn [q_busy q_in q_out]; [exact B|rewrite qset_same; constructor| |].
           ++ unfold deliver. rewrite O. cbn. rewrite Nat.eqb_refl. reflexivity.
           ++ cbn [answers_to]. exists l, []. reflexivity.
      * cbn [app] in E. injection E as <- ->. inversion A; subst.
        assert (D : deliver (q_out s) (flat_map sent evs) q = q_out s q).
        { unfold deliver. rewrite To; [apply app_nil_r|]. intros r' R. apply req_msg_not_tell in R. rewrite R in *. discriminate. }
        split; [|left; exact D].
        apply (PhSent _ _ _ r t); cbn [q_busy q_in q_out]; [exact B|exact Ro|rewrite qset_same; reflexivity|assumption|congruence].
    + assert (D : deliver (q_out s) (flat_map sent evs) q = q_out s q).
      { unfold deliver. rewrite To; [apply app_nil_r|]. intros r' R. apply req_msg_not_tell in R. rewrite Ei in A. inversion A; subst. congruence. }
      split; [|left; exact D]. eapply PhKept; cbn [q_busy q_in q_out]; eauto; [| |congruence].
      * destruct r; auto. intros Z. destruct (K Z) as [Hh|(m0 & E0 & Op)]; [contradiction|].
        right. exists m'. split; [reflexivity|]. rewrite Em in E0. injection E0 as <-. auto.
      * rewrite qset_same. rewrite Ei in A. inversion A; auto.
    + contradiction.
    + assert (D : deliver (q_out s) (flat_map sent evs) q = q_out s q).
      { unfold deliver. rewrite To; [apply app_nil_r|]. intros r' R. apply req_msg_not_tell in R. rewrite Ei in A. inversion A; subst. congruence. }
      split; [|left; exact D]. eapply PhAns; cbn [q_busy q_in q_out]; [exact B| |rewrite D; exact O|].
      * rewrite qset_same. rewrite Ei in A. inversion A; auto.
      * apply answers_more. exact An.
  - assert (Rt : forall r', req_msg q r' = [x] -> exists ds n, r' = RWait ds n).
    { intros r' R. destruct X as [X|(r0 & X)]; [apply req_msg_not_tell in R; congruence|].
      destruct r', r0; simpl in *; try discriminate; eauto; congruence. }
    assert (D : deliver (q_out s) (flat_map sent evs) q = q_out s q).
    { unfold deliver. rewrite To; [apply app_nil_r|exact Rt]. }
    split; [|left; exact D].
    destruct (iv_ph _ _ I q Q) as [B A O|r t B Ro E A O|r B K A O|r B A O H|r a B A O An].
    + apply PhIdle; cbn [q_busy q_in q_out]; rewrite ?D, ?(qset_other _ _ _ _ Np); auto.
    + eapply PhSent; cbn [q_busy q_in q_out]; rewrite ?D, ?(qset_other _ _ _ _ Np); eauto.
    + eapply PhKept; cbn [q_busy q_in q_out]; rewrite ?D, ?(qset_other _ _ _ _ Np); eauto.
      destruct r; auto. intros Z. destruct (K Z) as [Hh|(m0 & E0 & Op)]; [contradiction|].
      right. exists m'. split; [reflexivity|]. rewrite Em in E0. injection E0 as <-. auto.
    + contradiction.
    + eapply PhAns; cbn [q_busy q_in q_out]; rewrite ?D, ?(qset_other _ _ _ _ Np); eauto. apply answers_more. exact An.
Qed.

(** What a turn makes of the wait at the monitor. *)
Definition reported (l : list mev) (ds : list dataid) : Prop :=
  forall d, In d ds -> exists src out, In (MvIn (MDone src out)) l /\ In d out.

Lemma answers_evs m m' x evs : mlog m' = mlog m ++ MvIn x :: evs -> answers (mlog m') = answers (mlog m) ++ answers evs.
Proof using. intros ->. rewrite answers_app. reflexivity. Qed.

Lemma completed0 m : Completed [MDone 0 (mcompleted m)] m.
Proof using. intros d. cbn. rewrite orb_false_r. reflexivity. Qed.

Lemma wait_effect l m x m' evs : (forall d, did_in d (mcompleted m) = true -> exists src out, In (MvIn (MDone src out)) l /\ In d out) ->
  mon_step c m x = Some m' -> mstopped m = false -> mstopped m' = false -> mlog m' = mlog m ++ MvIn x :: evs -> turn x m m' evs ->
  forall ds n, (Open ds n m /\ ~ is_wait x \/ Idle m /\ x = MWait ds n /\ (1 <= n)%Z) ->
  ((forall rd nr, ~ In (MvAnswer rd nr) evs) /\ Open ds n m') \/
  (exists rd nr, evs = [MvAnswer rd nr] /\ Idle m' /\ Permutation (rd ++ nr) ds /\ Z.of_nat (length rd) = n /\
     reported (l ++ MvIn x :: evs) rd).
Proof using.
  intros Dn T St St' El Tu ds n H.
  assert (A : After ([MDone 0 (mcompleted m)] ++ [x]) ds n m m').
  { destruct H as [[Op W]|(Id & -> & N)].
    - destruct (step_open c _ _ _ _ _ _ (completed0 m) Op W St T St') as [_ A]. exact A.
    - destruct (step_wait c _ _ _ _ _ (completed0 m) Id N St T) as [_ A]. exact A. }
  destruct A as [[E Op]|(rd & nr & E & Id & P & L & F)].
  - left. split; [|exact Op]. intros rd nr Hi. rewrite (answers_evs _ _ _ _ El) in E.
    assert (answers evs <> []); [|rewrite <- (app_nil_r (answers (mlog m))) in E at 2; apply app_inv_head in E; contradiction].
    intros Z. assert (In (rd, nr) (answers evs)) by (apply in_flat_map; exists (MvAnswer rd nr); split; [exact Hi|left; reflexivity]).
    rewrite Z in H0. destruct H0.
  - right. exists rd, nr. rewrite (answers_evs _ _ _ _ El) in E. apply app_inv_head in E.
    assert (evs = [MvAnswer rd nr]) as ->.
    { destruct x; cbn [turn] in Tu;
        repeat match goal with H : _ /\ _ |- _ => destruct H | H : _ \/ _ |- _ => destruct H | H : exists _, _ |- _ => destruct H end;
        subst; try (cbn in E; congruence); try (cbn in E; injection E as -> ->; reflexivity); try congruence; try discriminate. }
    split; [reflexivity|]. split; [exact Id|]. split; [exact P|]. split; [exact L|].
    intros d D. rewrite Forall_forall in F. specialize (F d D). rewrite complete_app in F. apply orb_true_iff in F as [F|F].
    + cbn in F. rewrite orb_false_r in F. destruct (Dn d F) as (src & out & A & B). exists src, out. split; [apply in_or_app; auto|exact B].
    + cbn in F. rewrite orb_false_r in F. destruct x as [src out| | | | | | |]; try discriminate.
      exists src, out. split; [apply in_or_app; right; left; reflexivity|].
      unfold did_in in F. apply existsb_exists in F as (y & Y & E2). apply did_eqb_eq in E2 as ->. exact Y.
Qed.

Lemma idle_effect m x m' evs : mon_step c m x = Some m' -> mstopped m = false -> mstopped m' = false ->
  mlog m' = mlog m ++ MvIn x :: evs -> Idle m -> ~ is_wait x -> Idle m' /\ forall rd nr, ~ In (MvAnswer rd nr) evs.
Proof using.
  intros T St St' El Id W. destruct (step_idle c _ _ _ _ (completed0 m) Id W St T St') as (_ & I' & E). split; [exact I'|].
  intros rd nr Hi. rewrite (answers_evs _ _ _ _ El) in E.
  rewrite <- (app_nil_r (answers (mlog m))) in E at 2; apply app_inv_head in E.
  assert (In (rd, nr) (answers evs)) by (apply in_flat_map; exists (MvAnswer rd nr); split; [exact Hi|left; reflexivity]).
  rewrite E in H. destruct H.
Qed.

Lemma inv_ask l s p r : (RO -> root_only (QAsk p r)) -> Inv l s -> Inv l (qstep c s (QAsk p r)).
Proof using.
  intros Ok I. cbn [qstep]. destruct (q_busy s p) as [r0|] eqn:B; [exact I|].
  destruct I as [I1 I2 I3 I4 I5 I6 I7 I8 I9 I10]. constructor; cbn [q_mon q_in q_out q_busy q_seen]; auto.
  - intros q Q. destruct (Nat.eq_dec q p) as [->|N].
    + destruct (I3 p Q) as [_ A O|? ? C|? C|? C|? ? C]; try congruence.
      destruct r as [ds n| |d n|].
      * apply (PhSent _ _ _ (RWait ds n) (q_in s p)); cbn [q_busy q_in q_out]; rewrite ?qset_same; auto. discriminate.
      * apply (PhSent _ _ _ RCount (q_in s p)); cbn [q_busy q_in q_out]; rewrite ?qset_same; auto. discriminate.
      * apply (PhSent _ _ _ (RReserve d n) (q_in s p)); cbn [q_busy q_in q_out]; rewrite ?qset_same; auto. discriminate.
      * apply (PhKept _ _ _ ROver); cbn [q_busy q_in q_out]; rewrite ?qset_same; auto. cbn [req_msg]. rewrite app_nil_r. exact A.
    + eapply phase_frame; [exact (I3 q Q)|..]; cbn [q_busy q_in q_out q_mon]; rewrite ?(qset_other _ _ _ _ N); reflexivity.
  - intros q x. unfold qset. destruct (Nat.eqb q p) eqn:E; [|apply I4]. apply Nat.eqb_eq in E as ->.
    intros Hx. apply in_app_or in Hx as [Hx|Hx]; [exact (I4 p x Hx)|]. right. exists r. destruct r; simpl in *; try contradiction; destruct Hx as [<-|[]]; reflexivity.
  - intros R m Em St. destruct (I7 R m Em St) as [Id|(ds & n & A1 & A2 & A3 & A4)]; [left; exact Id|right].
    assert (N : 0 <> p) by (intros <-; congruence). exists ds, n. rewrite !(qset_other _ _ _ _ N). auto.
  - intros R q ds n. unfold qset. destruct (Nat.eqb q p) eqn:E; [|apply (I8 R)]. apply Nat.eqb_eq in E as ->.
    intros X. injection X as ->. exact (Ok R).
  - intros R q src Hx. assert (X : In (MAck src) (q_in s q)).
    { unfold qset in Hx. destruct (Nat.eqb q p) eqn:E; [|exact Hx]. apply Nat.eqb_eq in E as ->.
      apply in_app_or in Hx as [Hx|Hx]; [exact Hx|]. destruct r; simpl in Hx; try contradiction; destruct Hx as [Hx|[]]; discriminate. }
    destruct (I9 R q src X) as [Hh|Hb]; [left; exact Hh|]. right. rewrite qset_other; [exact Hb|]. intros <-. congruence.
Qed.

Lemma inv_tell l s p m : Inv l s -> Inv l (qstep c s (QTell p m)).
Proof using.
  intros I. cbn [qstep]. destruct (q_busy s p) as [r0|] eqn:B; [exact I|].
  destruct (may_tell s m) eqn:T; [|exact I]. unfold may_tell in T. apply andb_true_iff in T as [T T2].
  destruct I as [I1 I2 I3 I4 I5 I6 I7 I8 I9 I10]. constructor; cbn [q_mon q_in q_out q_busy q_seen]; auto.
  - intros q Q. destruct (Nat.eq_dec q p) as [->|N].
    + destruct (I3 p Q) as [_ A O|? ? C|? C|? C|? ? C]; try congruence.
      apply PhIdle; cbn [q_busy q_in q_out]; rewrite ?qset_same; auto. apply Forall_app. auto.
    + eapply phase_frame; [exact (I3 q Q)|..]; cbn [q_busy q_in q_out q_mon]; rewrite ?(qset_other _ _ _ _ N); reflexivity.
  - intros q x. unfold qset. destruct (Nat.eqb q p) eqn:E; [|apply I4]. apply Nat.eqb_eq in E as ->.
    intros Hx. apply in_app_or in Hx as [Hx|[<-|[]]]; [exact (I4 p x Hx)|left; exact T].
  - intros R m0 Em St. destruct (I7 R m0 Em St) as [Id|(ds & n & A1 & A2 & A3 & A4)]; [left; exact Id|right].
    assert (N : 0 <> p) by (intros <-; congruence). exists ds, n. rewrite !(qset_other _ _ _ _ N). auto.
  - intros R q src Hx. unfold qset in Hx. destruct (Nat.eqb q p) eqn:E; [|exact (I9 R q src Hx)].
    apply Nat.eqb_eq in E as ->. apply in_app_or in Hx as [Hx|[Hx|[]]]; [exact (I9 R p src Hx)|]. subst m.
    right. destruct (q_busy s 0) as [[]|]; try discriminate. reflexivity.
Qed.

Lemma inv_take l s p : Inv l s -> Inv l (qstep c s (QTake p)).
Proof using.
  intros I. cbn [qstep]. destruct (q_busy s p) as [r|] eqn:B; [|exact I].
  destruct (q_out s p) as [|a rest] eqn:O; [exact I|].
  assert (Ph : p <> 0 \/ RO -> rest = [] /\ answers_to l p r a /\ alltell (q_in s p)).
  { intros Q. destruct (iv_ph _ _ I p Q) as [C ? ?|? ? C ? ? ? ?|? C ? ? ?|? C ? ? ?|r' a' C A O' An]; try congruence.
    rewrite O in O'. injection O' as -> ->. rewrite B in C. injection C as <-. auto. }
  destruct I as [I1 I2 I3 I4 I5 I6 I7 I8 I9 I10]. constructor; cbn [q_mon q_in q_out q_busy q_seen]; auto.
  - intros q r' a' Hs Q. apply in_app_or in Hs as [Hs|[Hs|[]]]; [exact (I2 _ _ _ Hs Q)|]. injection Hs as <- <- <-. apply (Ph Q).
  - intros q Q. destruct (Nat.eq_dec q p) as [->|N].
    + destruct (Ph Q) as (-> & _ & A). apply PhIdle; cbn [q_busy q_in q_out]; rewrite ?qset_same; auto.
    + eapply phase_frame; [exact (I3 q Q)|..]; cbn [q_busy q_in q_out q_mon]; rewrite ?(qset_other _ _ _ _ N); reflexivity.
  - intros R m0 Em St. destruct (I7 R m0 Em St) as [Id|(ds & n & A1 & A2 & A3 & A4)]; [left; exact Id|right].
    assert (N : 0 <> p) by (intros <-; congruence). exists ds, n. rewrite !(qset_other _ _ _ _ N). auto.
  - intros R q ds n. unfold qset. destruct (Nat.eqb q p); [discriminate|apply (I8 R)].
  - intros R q src Hx. destruct (I9 R q src Hx) as [Hh|Hb]; [left; exact Hh|].
    destruct (Nat.eq_dec p 0) as [->|N]; [|right; rewrite qset_other; auto].
    rewrite B in Hb. injection Hb as ->. destruct (Ph (or_intror R)) as (-> & An & _).
    left. destruct a; cbn [answers_to] in An; try contradiction. apply (I10 R). rewrite O. left. reflexivity.
  - intros R X. apply (I10 R). unfold qset in X. destruct (Nat.eqb 0 p) eqn:E; [|exact X].
    apply Nat.eqb_eq in E as <-. rewrite O. right. exact X.
Qed.

Lemma inv_dead l s p x rest m : Inv l s -> q_mon s = Some m -> q_in s p = x :: rest ->
  Inv l {| q_mon := None; q_in := qset (q_in s) p rest; q_out := q_out s; q_busy := q_busy s; q_seen := q_seen s |}.
Proof using.
  intros [I1 I2 I3 I4 I5 I6 I7 I8 I9 I10] Em Ei.
  constructor; cbn [q_mon q_in q_out q_busy q_seen]; auto; try discriminate; try (unfold halted; cbn; tauto).
  - intros q Q. assert (At : alltell (q_in s q) -> alltell (qset (q_in s) p rest q)).
    { unfold qset. destruct (Nat.eqb q p) eqn:E; [|auto]. apply Nat.eqb_eq in E as ->. rewrite Ei. intros A. inversion A; auto. }
    destruct (I3 q Q) as [B A O|r t B Ro E A O|r B K A O|r B A O H|r a B A O An].
    + apply PhIdle; cbn [q_busy q_in q_out]; auto.
    + destruct (Nat.eq_dec q p) as [->|N].
      * rewrite Ei in E. destruct t as [|y t].
        -- apply (PhLost _ _ _ r); cbn [q_busy q_in q_out]; auto; [|exact Logic.I]. rewrite qset_same.
           assert (rest = []) as -> by (destruct r; simpl in E; congruence). constructor.
        -- cbn [app] in E. injection E as <- ->. apply (PhSent _ _ _ r t); cbn [q_busy q_in q_out]; rewrite ?qset_same; auto. inversion A; auto.
      * apply (PhSent _ _ _ r t); cbn [q_busy q_in q_out]; rewrite ?(qset_other _ _ _ _ N); auto.
    + apply (PhKept _ _ _ r); cbn [q_busy q_in q_out]; auto. destruct r; auto. intros _. left. exact Logic.I.
    + apply (PhLost _ _ _ r); cbn [q_busy q_in q_out]; auto. exact Logic.I.
    + apply (PhAns _ _ _ r a); cbn [q_busy q_in q_out]; auto.
  - intros q y. unfold qset. destruct (Nat.eqb q p) eqn:E; [|apply I4]. apply Nat.eqb_eq in E as ->.
    intros Hy. apply (I4 p). rewrite Ei. right. exact Hy.
Qed.

Lemma inv_mon l s p x rest m m' evs : Inv l s -> q_mon s = Some m -> mstopped m = false -> q_in s p = x :: rest ->
  mon_step c m x = Some m' -> mlog m' = mlog m ++ MvIn x :: evs -> turn x m m' evs ->
  (mstopped m' = false -> mcount m' = mcount m + (if isdone (MvIn x) then 1 else 0) /\
     mcompleted m' = match x with MDone _ ds => ds ++ mcompleted m | _ => mcompleted m end) ->
  Inv (l ++ MvIn x :: evs)
    {| q_mon := Some m'; q_in := qset (q_in s) p rest; q_out := deliver (q_out s) (flat_map sent evs);
       q_busy := q_busy s; q_seen := q_seen s |}.
Proof using.
  intros I Em St Ei T El Tu Cn.
  assert (X : tells x = true \/ exists r, req_msg p r = [x]) by (apply (iv_msg _ _ I p); rewrite Ei; left; reflexivity).
  assert (Lm := iv_log _ _ I m Em).
  assert (Nh : ~ halted s) by (unfold halted; rewrite Em, St; discriminate).
  assert (In_old : forall q y, In y (qset (q_in s) p rest q) -> In y (q_in s q)).
  { intros q y. unfold qset. destruct (Nat.eqb q p) eqn:E; [|auto]. apply Nat.eqb_eq in E as ->. rewrite Ei. right. exact H. }
  assert (At : forall q, alltell (q_in s q) -> alltell (qset (q_in s) p rest q)).
  { intros q. unfold qset. destruct (Nat.eqb q p) eqn:E; [|auto]. apply Nat.eqb_eq in E as ->. rewrite Ei. intros A. inversion A; auto. }
  (* the root *)
  assert (Root : RO ->
    Phase (l ++ MvIn x :: evs)
      {| q_mon := Some m'; q_in := qset (q_in s) p rest; q_out := deliver (q_out s) (flat_map sent evs);
         q_busy := q_busy s; q_seen := q_seen s |} 0 /\
    (mstopped m' = false -> Idle m' \/ exists ds n, q_busy s 0 = Some (RWait ds n) /\ Open ds n m' /\
       deliver (q_out s) (flat_map sent evs) 0 = [] /\ alltell (qset (q_in s) p rest 0)) /\
    (In POver (deliver (q_out s) (flat_map sent evs) 0) -> mstopped m' = true)).
  { intros R.
    destruct (mstopped m') eqn:St'.
    - (* every worker is ready to shut down *)
      assert (exists src, x = MAck src) as (src & ->).
      { destruct x; cbn [turn] in Tu; try (destruct Tu; congruence).
        - eauto.
        - exfalso. destruct X as [X|(r & X)]; [discriminate|destruct r; discriminate]. }
      cbn [turn] in Tu. destruct Tu as [[_ Tu]|[Tu _]]; [congruence|].
      destruct (iv_ack _ _ I R p src) as [Hh|B0]; [rewrite Ei; left; reflexivity|contradiction|].
      split; [|split; [discriminate|reflexivity]].
      assert (O0 : q_out s 0 = [] /\ alltell (q_in s 0)).
      { destruct (iv_ph _ _ I 0 (or_intror R)) as [C ? ?|r' ? C Z ? ? ?|? C ? ? ?|? C ? ? Hh|r' a' C A O' An]; try congruence; auto; try contradiction.
        rewrite B0 in C. injection C as <-. destruct a'; cbn [answers_to] in An; try contradiction.
        exfalso. apply Nh. apply (iv_over _ _ I R). rewrite O'. left. reflexivity. }
      destruct O0 as [O0 A0]. apply (PhAns _ _ _ ROver POver); cbn [q_busy q_in q_out]; auto.
      + unfold deliver. rewrite Tu, O0. reflexivity.
      + exact Logic.I.
    - assert (Wq : ~ is_wait x \/ exists ds n, x = MWait ds n /\ p = 0 /\ q_busy s 0 = Some (RWait ds n) /\ (1 <= n)%Z /\ q_out s 0 = [] /\ rest = []).
      { destruct x as [| ds n | | | | | |]; try (left; cbn; tauto). right. exists ds, n. split; [reflexivity|].
        assert (Hp : q_busy s p = Some (RWait ds n) /\ q_out s p = [] /\ rest = []).
        { destruct (iv_ph _ _ I p (or_intror R)) as [C A ?|r' t C Z E A O|? C ? A ?|? C A ? Hh|r' a' C A O' An];
            try (rewrite Ei in A; inversion A; discriminate).
          rewrite Ei in E. destruct t as [|y t]; [|cbn [app] in E; injection E as <- ->; inversion A; discriminate].
          cbn [app] in E. destruct r'; simpl in E; try discriminate. injection E as <- <- ->. auto. }
        destruct Hp as (Hp & Ho & Hr). destruct (iv_pos _ _ I R _ _ _ Hp) as [-> Hn]. auto. }
      destruct Wq as [Wq|(ds & n & -> & -> & B0 & N1 & O0 & ->)].
      + (* not a wait *)
        assert (Quiet : (forall rd nr, ~ In (MvAnswer rd nr) evs) -> (forall ds n, Open ds n m -> Open ds n m') ->
          Phase (l ++ MvIn x :: evs)
            {| q_mon := Some m'; q_in := qset (q_in s) p rest; q_out := deliver (q_out s) (flat_map sent evs);
               q_busy := q_busy s; q_seen := q_seen s |} 0 /\
          (deliver (q_out s) (flat_map sent evs) 0 = q_out s 0 \/
           q_out s 0 = [] /\ exists r, req_msg 0 r = [x] /\ q_busy s 0 = Some r /\ forall ds n, r <> RWait ds n) /\
          (In POver (deliver (q_out s) (flat_map sent evs) 0) -> False)).
        { intros Qu Kp. destruct (phase_mon l s p 0 m x rest m' evs I (or_intror R) Em St) as [P D]; auto.
          - intros _. split; [exact Qu|]. split; [exact St'|]. intros ds n ->. apply Wq. exact Logic.I.
          - split; [exact P|]. split; [exact D|]. intros Ho. destruct D as [D|(O & r & Rm & _ & _)].
            + rewrite D in Ho. exact (Nh (iv_over _ _ I R Ho)).
            + unfold deliver in Ho. rewrite O in Ho. cbn [app] in Ho. apply in_map_iff in Ho as ([z a] & Ea & Ha). cbn in Ea. subst a.
              apply filter_In in Ha as [Ha _].
              destruct r; simpl in Rm; try discriminate; injection Rm as <-; cbn [turn] in Tu.
              * exfalso. apply Wq. exact Logic.I.
              * destruct Tu as [-> _]. cbn in Ha. destruct Ha as [Ha|[]]. discriminate.
              * destruct Tu as [(i & f & ->) _]. cbn in Ha. destruct Ha as [Ha|[]]. discriminate. }
        destruct (iv_wait _ _ I R m Em St) as [Id|(ds & n & B0 & Op & O0 & A0)].
        * destruct (idle_effect m x m' evs T St St' El Id Wq) as [Id' Qu].
          destruct (Quiet Qu) as (P & D & NO).
          { intros ds n Op. destruct (wait_effect l m x m' evs (fun d => iv_done _ _ I m d Em St) T St St' El Tu ds n) as [[_ Op']|(rd & nr & -> & _)];
              [left; auto|exact Op'|exfalso; apply (Qu rd nr); left; reflexivity]. }
          split; [exact P|]. split; [intros _; left; exact Id'|]. intros Ho. destruct (NO Ho).
        * destruct (wait_effect l m x m' evs (fun d => iv_done _ _ I m d Em St) T St St' El Tu ds n (or_introl (conj Op Wq)))
            as [[Qu Op']|(rd & nr & -> & Id' & Pm & Ln & Rp)].
          -- destruct (Quiet Qu) as (P & D & NO).
             { intros ds' n' Op2. destruct (wait_effect l m x m' evs (fun d => iv_done _ _ I m d Em St) T St St' El Tu ds' n') as [[_ Op3]|(rd & nr & -> & _)];
                 [left; auto|exact Op3|exfalso; apply (Qu rd nr); left; reflexivity]. }
             split; [exact P|]. split; [|intros Ho; destruct (NO Ho)].
             intros _. right. exists ds, n. split; [exact B0|]. split; [exact Op'|]. split; [|apply At; exact A0].
             destruct D as [D|(_ & r & _ & B1 & Nw)]; [rewrite D; exact O0|]. rewrite B0 in B1. injection B1 as <-. exfalso. eapply Nw. reflexivity.
          -- assert (D : deliver (q_out s) (flat_map sent [MvAnswer rd nr]) 0 = [PWait rd nr]) by (unfold deliver; rewrite O0; reflexivity).
             split; [|split; [intros _; left; exact Id'|]].
             ++ apply (PhAns _ _ _ (RWait ds n) (PWait rd nr)); cbn [q_busy q_in q_out]; auto.
                cbn [answers_to]. split; [exact Pm|]. split; [exact Ln|]. exact Rp.
             ++ rewrite D. intros [H|[]]. discriminate.
      + (* the wait *)
        destruct (iv_wait _ _ I R m Em St) as [Id|(ds' & n' & B1 & Op & _ & A0)].
        2:{ rewrite Ei in A0. inversion A0. discriminate. }
        destruct (wait_effect l m (MWait ds n) m' evs (fun d => iv_done _ _ I m d Em St) T St St' El Tu ds n (or_intror (conj Id (conj eq_refl N1))))
          as [[Qu Op']|(rd & nr & -> & Id' & Pm & Ln & Rp)].
        * cbn [turn] in Tu. destruct Tu as [[-> | (rd & nr & ->)] _]; [|exfalso; apply (Qu rd nr); left; reflexivity].
          assert (D : deliver (q_out s) (flat_map sent []) 0 = []) by (unfold deliver; rewrite O0; reflexivity).
          split; [|split].
          -- apply (PhKept _ _ _ (RWait ds n)); cbn [q_busy q_in q_out]; auto; [|rewrite qset_same; constructor]. intros _. right. exists m'. auto.
          -- intros _. right. exists ds, n. rewrite qset_same. repeat split; auto; try apply Op'. constructor.
          -- rewrite D. intros [].
        * assert (D : deliver (q_out s) (flat_map sent [MvAnswer rd nr]) 0 = [PWait rd nr]) by (unfold deliver; rewrite O0; reflexivity).
          split; [|split; [intros _; left; exact Id'|]].
          -- apply (PhAns _ _ _ (RWait ds n) (PWait rd nr)); cbn [q_busy q_in q_out]; auto; [rewrite qset_same; constructor|].
             cbn [answers_to]. split; [exact Pm|]. split; [exact Ln|]. exact Rp.
          -- rewrite D. intros [H|[]]. discriminate. }
  constructor; cbn [q_mon q_in q_out q_busy q_seen].
  - intros m0 H. injection H as <-. rewrite El, Lm. reflexivity.
  - intros q r a Hs Q. apply answers_more. exact (iv_seen _ _ I q r a Hs Q).
  - intros q Q. destruct (Nat.eq_dec q 0) as [->|N].
    + destruct Q as [Q|R]; [congruence|]. apply (Root R).
    + apply (phase_mon l s p q m x rest m' evs I (or_introl N) Em St); auto; congruence.
  - intros q y Hy. exact (iv_msg _ _ I q y (In_old q y Hy)).
  - intros m0 H St'. injection H as <-. destruct (Cn St') as [C _]. rewrite C, (iv_cnt _ _ I m Em St), dcount_app.
    assert (dcount (MvIn x :: evs) = (if isdone (MvIn x) then 1 else 0)); [|lia].
    unfold dcount. cbn [filter]. assert (Z : filter isdone evs = []).
    { assert (G : forall e, In e evs -> isdone e = false).
      { intros e He. destruct e as [y| | | | | |]; try reflexivity. exfalso.
        destruct x; cbn [turn] in Tu;
          repeat match goal with H : _ /\ _ |- _ => destruct H | H : _ \/ _ |- _ => destruct H | H : exists _, _ |- _ => destruct H end;
          subst; simpl in He; try (destruct He as [He|[]]; discriminate); try contradiction; try congruence. }
      revert G. clear. induction evs as [|e evs IH]; simpl; auto. intros G. rewrite (G e (or_introl eq_refl)). auto. }
    rewrite Z. destruct (isdone (MvIn x)); reflexivity.
  - intros m0 d H St' Hd. injection H as <-. destruct (Cn St') as [_ C]. rewrite C in Hd.
    assert (Old : did_in d (mcompleted m) = true -> exists src out, In (MvIn (MDone src out)) (l ++ MvIn x :: evs) /\ In d out).
    { intros H. destruct (iv_done _ _ I m d Em St H) as (src & out & A & B). exists src, out. split; [apply in_or_app; auto|exact B]. }
    destruct x as [src ds| | | | | | |]; auto.
    unfold did_in in Hd. rewrite existsb_app in Hd. apply orb_true_iff in Hd as [Hd|Hd]; [|exact (Old Hd)].
    apply existsb_exists in Hd as (y & Y & E). apply did_eqb_eq in E as ->. exists src, ds. split; [apply in_or_app; right; left; reflexivity|exact Y].
  - intros R m0 H St'. injection H as <-. apply (Root R). exact St'.
  - intros R q ds n H. exact (iv_pos _ _ I R q ds n H).
  - intros R q src Hx. destruct (iv_ack _ _ I R q src (In_old q _ Hx)) as [Hh|Hb]; [contradiction|right; exact Hb].
  - intros R Ho. unfold halted. cbn [q_mon]. apply (Root R). exact Ho.
Qed.

Lemma inv_step l s o : (RO -> root_only o) -> Inv l s -> exists l', Inv l' (qstep c s o) /\
  (l' = l \/ exists m, q_mon (qstep c s o) = Some m /\ mlog m = l').
Proof using.
  intros Ok I. destruct o as [p r|p m|p|p].
  - exists l. split; [now apply inv_ask|now left].
  - exists l. split; [now apply inv_tell|now left].
  - cbn [qstep]. destruct (q_mon s) as [m|] eqn:Em; [|exists l; auto].
    destruct (q_in s p) as [|x rest] eqn:Ei; [exists l; auto|]. destruct (mstopped m) eqn:St; [exists l; auto|].
    destruct (mon_step c m x) as [m'|] eqn:T; [|exists l; split; [eapply inv_dead; eauto|now left]].
    destruct (step_turn _ _ _ _ T St) as (evs & El & Tu & Cn). rewrite El, skip_log. cbn [flat_map sent app].
    exists (l ++ MvIn x :: evs). split; [eapply inv_mon; eauto|]. right. exists m'. split; [reflexivity|].
    rewrite El, (iv_log _ _ I m Em). reflexivity.
  - exists l. split; [now apply inv_take|now left].
Qed.

Lemma inv_run mgr ops : (RO -> Forall root_only ops) -> exists l, history c mgr ops l /\ Inv l (qrun c mgr ops).
Proof using.
  induction ops as [|o ops IH] using rev_ind; intros Ok.
  - exists []. split; [|apply inv_init]. exists [], [], (minit mgr). auto.
  - destruct IH as (l & (ops1 & ops2 & m & E & Em & El) & I).
    { intros R. specialize (Ok R). apply Forall_app in Ok as [A _]. exact A. }
    unfold qrun. rewrite fold_left_app. cbn [fold_left]. fold (qrun c mgr ops).
    destruct (inv_step l (qrun c mgr ops) o) as (l' & I' & D); [|exact I|].
    { intros R. specialize (Ok R). apply Forall_app in Ok as [_ A]. inversion A; auto. }
    exists l'. split; [|exact I']. destruct D as [-> | (m' & Em' & El')].
    + exists ops1, (ops2 ++ [o]), m. rewrite E, <- app_assoc. auto.
    + exists (ops ++ [o]), [], m'. split; [rewrite app_nil_r; reflexivity|]. split; [|auto].
      unfold qrun. rewrite fold_left_app. exact Em'.
Qed.
End Inv.

(** ** The properties *)

Theorem own_answers c mgr ops : Forall root_only ops -> exists l, history c mgr ops l /\
  forall p r a, In (p, r, a) (q_seen (qrun c mgr ops)) -> answers_to l p r a.
Proof.
  intros Ok. destruct (inv_run c True mgr ops (fun _ => Ok)) as (l & H & I). exists l. split; [exact H|].
  intros p r a Hs. apply (iv_seen _ _ _ I p r a Hs). auto.
Qed.

Theorem worker_answers c mgr ops : exists l, history c mgr ops l /\
  forall p r a, p <> 0 -> In (p, r, a) (q_seen (qrun c mgr ops)) -> answers_to l p r a.
Proof.
  destruct (inv_run c False mgr ops (fun F => match F with end)) as (l & H & I). exists l. split; [exact H|].
  intros p r a N Hs. apply (iv_seen _ _ _ I p r a Hs). auto.
Qed.

Theorem none_lost c mgr ops m p r : Forall root_only ops -> let s := qrun c mgr ops in
  serving s m -> q_busy s p = Some r -> r <> ROver -> in_hand s m p r.
Proof.
  intros Ok s [Em St] B Ro. destruct (inv_run c True mgr ops (fun _ => Ok)) as (l & H & I). clear H. fold s in I. clearbody s.
  assert (Nh : ~ halted s) by (unfold halted; rewrite Em, St; discriminate).
  destruct (iv_ph _ _ _ I p (or_intror Logic.I)) as [C ? ?|r' t C Z E A O|r' C K ? ?|? C ? ? Hh|r' a' C A O' An]; try congruence; try contradiction.
  - left. exists t. congruence.
  - right. right. rewrite B in C. injection C as <-. destruct r as [ds n| | |]; try contradiction; try congruence.
    destruct (iv_pos _ _ _ I Logic.I p ds n B) as [-> _]. destruct (K eq_refl) as [Hh|(m0 & E0 & Op)]; [contradiction|].
    rewrite Em in E0. injection E0 as <-. exists ds, n. split; [reflexivity|].
    destruct Op as (_ & Pm & U & D & Lt).
    rewrite <- (Permutation_length (filter_perm _ _ _ Pm)), filter_app, filter_true, filter_false, app_nil_r; auto.
  - right. left. eauto.
Qed.
