(** The theorems about a worker, from the invariants. *)
From Verif Require Import Lib ShmModel ShmRaceProofs ValModel WorkerModel WorkerSpec WorkerProofs
  WorkerLog WorkerTrace WorkerReady WorkerAnswer WorkerOrder.
From Coq Require Import Permutation.

Lemma first_some_none {A B} (f : A -> option B) l : first_some f l = None ->
  forall x, In x l -> f x = None.
Proof.
  induction l as [|y l IH]; simpl; intros H x X; [tauto|].
  destruct (f y) eqn:E; [discriminate|]. destruct X as [<-|X]; auto.
Qed.

Lemma first_some_some {A B} (f : A -> option B) l b : first_some f l = Some b ->
  exists x, In x l /\ f x = Some b.
Proof.
  induction l as [|y l IH]; simpl; intros H; [discriminate|].
  destruct (f y) eqn:E; [exists y; rewrite <- H; auto|]. destruct (IH H) as (x & X & Y). eauto.
Qed.

Lemma failed_none a k : failed_arg a k = None -> forall e, ~ In (VExc e) (arguments a k).
Proof. intros H e I. apply (first_some_none _ _ H) in I. discriminate. Qed.

Lemma failed_some a k e : failed_arg a k = Some e -> In (VExc e) (arguments a k).
Proof.
  intros H. apply first_some_some in H as (x & X & E). destruct x; try discriminate.
  simpl in E. apply Some_inj in E as ->. auto.
Qed.

Section Thms.
Variable self : rank.
Variable body : val -> val -> val -> result.
Variable mbody : list call -> call -> result.
Variable is_async : callee -> bool.
Hypothesis body_ok : forall f a k, no_refs_returned (body f a k).
Hypothesis mbody_ok : forall h c, no_refs_returned (mbody h c).
Variable ms : list wmsg.
Variable w : wst.
Hypothesis clean_ms : no_refs_received ms.
Hypothesis run : wrun self body mbody is_async winit ms = Some w.

Lemma run_wi : WI body mbody w.
Proof. apply (wrun_wi self body mbody is_async body_ok mbody_ok ms winit w); auto. apply wi_init. Qed.

Lemma run_cons : ~ In WCancel ms -> Cons w.
Proof.
  intros NC. destruct (wrun_wi self body mbody is_async body_ok mbody_ok ms winit w) as [_ C]; auto.
  - apply wi_init.
  - apply C; auto. intros n. reflexivity.
Qed.

Lemma run_ai : AI self w.
Proof. apply (ai_run self body mbody is_async body_ok mbody_ok ms winit w); auto. apply wi_init. apply ai_init. Qed.

Lemma runs_filled l1 n c a k l2 : log w = l1 ++ EvRun n c a k :: l2 ->
  exists q, In q (received l1) /\ q_id q = n /\ callee_of l1 q c /\
    fill (stored l1) (q_args q) a /\ fill (stored l1) (q_kwargs q) k /\ refs a = [] /\ refs k = [].
Proof.
  intros H. destruct (good_run body mbody _ (wi_good _ _ _ run_wi) _ _ _ _ _ _ H) as (q & E & (X1 & X2 & X3 & X4 & X5 & X6) & _).
  exists q. auto 8.
Qed.

Lemma pending_kept q' : In q' (pend w) \/ In q' (apend w) ->
  exists q, In q (received (log w)) /\ q_id q' = q_id q /\ q_fn q' = q_fn q /\ q_out q' = q_out q /\
    fill (stored (log w)) (q_args q) (q_args q') /\ fill (stored (log w)) (q_kwargs q) (q_kwargs q').
Proof. apply run_wi. Qed.

Lemma none_lost : ~ In WCancel ms ->
  Permutation (map q_id (received (log w)))
    (ended (log w) ++ map q_id (pend w ++ apend w) ++ map (fun p => q_id (fst p)) (running w)).
Proof.
  intros NC. apply (Permutation_count_occ Nat.eq_dec). intros n.
  assert (C := run_cons NC n). unfold busy, n_running, cnt in C.
  rewrite !count_occ_app, map_app, count_occ_app. lia.
Qed.

Lemma no_ready : (forall c, is_async c = false) -> (forall i, ~ In (WFinish i) ms) ->
  ForallOrdPairs independent (execs ms) -> ForallOrdPairs independent (actors ms) ->
  apart (execs ms) (actors ms) -> apart (actors ms) (execs ms) ->
  forall q, In q (pend w) \/ In q (apend w) -> exists d, In d (qrefs q) /\ available (log w) d = false.
Proof.
  intros Sy NF O1 O2 A1 A2 q Q.
  assert (R : RI w []).
  { apply (ri_run self body mbody is_async body_ok mbody_ok Sy ms winit w); auto; [apply wi_init|].
    split; simpl; auto. tauto. }
  destruct (ri_ready _ _ R q Q) as (d & D & S). exists d. split; auto.
  destruct (available (log w) d) eqn:E; auto. exfalso. apply (ai_store _ _ run_ai) in E. congruence.
Qed.

Lemma fails_everywhere l1 n e l2 : log w = l1 ++ EvEnd n (RExc e) :: l2 ->
  exists q, In q (received l1) /\ q_id q = n /\
  exists l3, l2 = map (fun d => EvStore d (VExc e)) (out_ids (q_out q)) ++ l3.
Proof.
  intros H. destruct (good_end body mbody _ (wi_good _ _ _ run_wi) _ _ _ _ H)
    as (l0 & q & c & a & k & st & E & (X & _) & G0 & R & -> & S & l3 & -> & _).
  exists q. split; [rewrite received_app; apply in_or_app; auto|]. split; auto. exists l3. f_equal.
  destruct S as [[done S]|[S ->]]; destruct (q_out q); simpl in S; try discriminate; auto.
  - apply Some_inj in S; apply pair_inj in S as [<- _]. reflexivity.
  - apply Some_inj in S; apply pair_inj in S as [<- _]. unfold ev_stores. rewrite map_map. reflexivity.
Qed.

Lemma nodup_ended : ~ In WCancel ms -> NoDup (map q_id (received (log w))) -> NoDup (ended (log w)).
Proof.
  intros NC N. eapply nodup_app_l. eapply Permutation_NoDup; [|exact N]. apply none_lost; auto.
Qed.

Lemma ended_split_unique l1 r l2 l1' r' l2' n : NoDup (ended (l1 ++ EvEnd n r :: l2)) ->
  l1 ++ EvEnd n r :: l2 = l1' ++ EvEnd n r' :: l2' -> l1 = l1' /\ l2 = l2'.
Proof.
  clear. revert l1'. induction l1 as [|x l1 IH]; intros l1' N E.
  - destruct l1' as [|y l1']; simpl in *; [injection E as _ ->; auto|].
    exfalso. injection E as <- ->. inversion N; subst. apply H1. rewrite ended_app. apply in_or_app. right. simpl; auto.
  - destruct l1' as [|y l1']; simpl in *.
    + exfalso. injection E as -> <-. simpl in N. inversion N; subst. apply H1. rewrite ended_app. apply in_or_app. right. simpl; auto.
    + injection E as <- E. destruct (IH l1') as [-> ->]; auto.
      destruct x; simpl in N; auto. inversion N; auto.
Qed.

Lemma how_it_ended l1 n r l2 : ~ In WCancel ms -> NoDup (map q_id (received (log w))) ->
  log w = l1 ++ EvEnd n r :: l2 ->
  exists q a k, In q (received l1) /\ q_id q = n /\
    fill (stored l1) (q_args q) a /\ fill (stored l1) (q_kwargs q) k /\ refs a = [] /\ refs k = [] /\
    ((~ In n (started (log w)) /\ exists e, In (VExc e) (arguments a k) /\ r = RExc e) \/
     ((forall e, ~ In (VExc e) (arguments a k)) /\
      exists l0 c, l1 = l0 ++ [EvRun n c a k] /\ callee_of l0 q c /\ r = body_result body mbody l0 c a k)).
Proof.
  intros NC N H. assert (NE := nodup_ended NC N).
  destruct (good_end body mbody _ (wi_good _ _ _ run_wi) _ _ _ _ H)
    as (l0 & q & c & a & k & st & E & (X1 & X2 & X3 & X4 & X5 & X6) & G0 & R & L & _).
  exists q, a, k. subst l1. assert (M : forall v v', fill (stored l0) v v' -> fill (stored (l0 ++ ev_run n c a k)) v v').
  { intros v v'. apply fill_mono. intros d x. rewrite stored_app. auto. }
  split; [rewrite received_app; apply in_or_app; auto|]. do 5 (split; auto).
  unfold result_of in R. unfold ev_run in *. destruct (failed_arg a k) as [e|] eqn:Fa.
  - left. split; [|exists e; split; auto; apply failed_some; auto]. rewrite app_nil_r in *.
    intros Sn. apply in_flat_map in Sn as (ev & Ev & Sn).
    destruct ev as [|n' c' a' k'| | | | |]; simpl in Sn; try tauto. destruct Sn as [->|[]].
    apply in_split in Ev as (u & v & Ev).
    destruct (good_run body mbody _ (wi_good _ _ _ run_wi) _ _ _ _ _ _ Ev) as (q' & _ & _ & _ & l3 & ->).
    assert (Es : l0 ++ EvEnd n r :: l2 = (u ++ [EvRun n c' a' k']) ++ EvEnd n (result_of body mbody u c' a' k') :: l3).
    { rewrite <- H, Ev, <- app_assoc. reflexivity. }
    apply ended_split_unique in Es as [Es _]; [|rewrite <- H; auto].
    destruct (good_run body mbody _ G0 _ _ _ _ _ _ Es) as (_ & _ & _ & _ & l4 & F). discriminate.
  - right. split; [apply failed_none; auto|]. exists l0, c. auto.
Qed.

Lemma returns l1 n v l2 : log w = l1 ++ EvEnd n (RVal v) :: l2 ->
  exists q, In q (received l1) /\ q_id q = n /\
  match q_out q with
  | ONone => forall d x l3, l2 <> EvStore d x :: l3
  | OOne d => exists l3, l2 = EvStore d v :: l3
  | OMany ds => forall vs, v = VList vs \/ v = VTuple vs -> length vs = length ds ->
      exists l3, l2 = map (fun p => EvStore (fst p) (snd p)) (combine ds vs) ++ l3
  end.
Proof.
  intros H. destruct (good_end body mbody _ (wi_good _ _ _ run_wi) _ _ _ _ H)
    as (l0 & q & c & a & k & st & E & (X & _) & G0 & R & -> & S & l3 & -> & Z).
  exists q. split; [rewrite received_app; apply in_or_app; auto|]. split; auto.
  destruct (q_out q) as [|d|ds]; simpl in S.
  - destruct S as [[done S]|[S _]]; [|discriminate].
    apply Some_inj in S; apply pair_inj in S as [<- _]. simpl. auto.
  - destruct S as [[done S]|[S _]]; [|discriminate].
    apply Some_inj in S; apply pair_inj in S as [<- _]. exists l3. reflexivity.
  - intros vs V L. assert (Iv : iterate v = Some vs) by (destruct V; subst v; reflexivity).
    rewrite Iv in S. destruct S as [[done S]|[S _]]; [|discriminate].
    apply Some_inj in S; apply pair_inj in S as [<- _]. exists l3. reflexivity.
Qed.

Lemma answers : (forall c, is_async c = false) -> Forall plain ms -> all_enough (log w) ->
  (forall s d b v, In (WGet s d b) ms -> ~ In (WPut d v) ms) ->
  forall d s,
  count_occ did_rank_dec (answered (log w)) (d, s) =
  (if pair_in (d, s) (asked (log w)) then if available (log w) d then 1 else 0 else 0) /\
  (forall v b, In (EvPut s d v b) (log w) -> stored (log w) d v).
Proof.
  intros Sy P En Dj d s.
  assert (G : GI (fun d => forall v, ~ In (WPut d v) ms) (fun _ => False) w).
  { apply (gi_run _ self body mbody is_async body_ok mbody_ok Sy ms winit w); auto.
    - apply wi_init.
    - intros s' d' b I v. eapply Dj; eauto.
    - intros a d' v b w1 E X. exfalso. apply (X v). rewrite E. apply in_or_app. simpl; auto.
    - apply gi_init. }
  split; [|intros v b; apply G].
  rewrite (gi_sent _ _ _ G). assert (Nd := gi_nodup _ _ _ G).
  destruct (in_dec did_rank_dec (d, s) (sent w)) as [I|NI].
  - assert (C : count_occ did_rank_dec (sent w) (d, s) = 1).
    { apply (NoDup_count_occ' did_rank_dec); auto. }
    rewrite C. destruct (gi_asked _ _ _ G _ I) as [A S]. simpl in S.
    apply pair_in_In in A. rewrite A. apply (ai_store _ _ run_ai) in S. rewrite S. reflexivity.
  - assert (C : count_occ did_rank_dec (sent w) (d, s) = 0) by (apply count_occ_not_In; auto).
    rewrite C. destruct (pair_in (d, s) (asked (log w))) eqn:A; auto. apply pair_in_In in A.
    destruct (gi_none_lost _ _ _ G _ A) as [X|X]; [tauto|].
    destruct (gi_pending _ _ _ G _ X) as (_ & _ & [S|[]]). simpl in S.
    destruct (available (log w) d) eqn:E; auto. apply (ai_store _ _ run_ai) in E. congruence.
Qed.

Lemma asks_right l1 o d l2 : log w = l1 ++ EvGet o d :: l2 ->
  outstanding l1 d = false /\ told_owner l1 d = Some o /\ o <> self /\ available l1 d = false.
Proof. apply (ai_gets _ _ run_ai). Qed.

Lemma in_order l1 q1 l2 q2 l3 : (forall c, is_async c = false) -> (forall i, ~ In (WFinish i) ms) ->
  NoDup (map q_id (received (log w))) ->
  log w = l1 ++ EvIn (WActor q1) :: l2 ++ EvIn (WActor q2) :: l3 ->
  (forall d, In d (qrefs q1) -> available l1 d = true) ->
  In (q_id q1) (ended l2) /\ ~ In (q_id q2) (ended (l1 ++ EvIn (WActor q1) :: l2)).
Proof.
  intros Sy NF N H AV.
  assert (A : at_once (log w)).
  { apply (at_once_run self body mbody is_async body_ok mbody_ok Sy ms winit w); auto; [apply wi_init | apply ai_init|].
    intros x q y E. destruct x; discriminate. }
  destruct (A l1 q1 _ H AV) as (t & r & t' & E & F). split.
  - symmetry in E. apply app_split in E as [(u & -> & _) | (u & -> & E)].
    + rewrite ended_app. apply in_or_app. right. simpl; auto.
    + destruct u as [|x u]; [discriminate|]. simpl in E. injection E as <- E.
      apply Forall_app in F as [_ F]. inversion F as [|? ? X _]. destruct X.
  - intros I. apply in_flat_map in I as (ev & Ev & I). destruct ev as [| |n r'| | | |]; simpl in I; try tauto.
    destruct I as [->|[]]. apply in_split in Ev as (u & v & Ev).
    assert (H' : log w = u ++ EvEnd (q_id q2) r' :: (v ++ EvIn (WActor q2) :: l3)).
    { rewrite H. change (u ++ EvEnd (q_id q2) r' :: v ++ EvIn (WActor q2) :: l3)
        with (u ++ (EvEnd (q_id q2) r' :: v) ++ EvIn (WActor q2) :: l3).
      rewrite app_assoc, <- Ev, <- app_assoc. reflexivity. }
    destruct (good_end body mbody _ (wi_good _ _ _ run_wi) _ _ _ _ H')
      as (l0 & q & c & a & k & st & Eq & (X & _) & G0 & R & L & _).
    rewrite H', received_app in N. cbn [received flat_map] in N. fold (received (v ++ EvIn (WActor q2) :: l3)) in N.
    simpl in N. rewrite received_app in N. simpl in N. rewrite L, received_app, !map_app in N.
    assert (I2 : In (q_id q2) (map q_id (received v) ++ q_id q2 :: map q_id (received l3))) by (apply in_or_app; simpl; auto).
    assert (I1 : In (q_id q2) (map q_id (received l0))) by (rewrite <- Eq; apply in_map; auto).
    assert (D : forall (x : nat) p s, NoDup (p ++ s) -> In x p -> In x s -> False).
    { clear. intros x p. induction p as [|y p IH]; simpl; intros s N P S; [tauto|].
      inversion N; subst. destruct P as [->|P]; [|eauto]. apply H1. apply in_or_app; auto. }
    eapply D; [exact N | apply in_or_app; left; exact I1 | exact I2].
Qed.

End Thms.

Lemma survives self body mbody is_async ms :
  (forall f a k, no_refs_returned (body f a k)) -> (forall h c, no_refs_returned (mbody h c)) ->
  no_refs_received ms -> (forall ds, ~ In (WClean ds) ms) -> announced ms -> safe body mbody ms ->
  wrun self body mbody is_async winit ms <> None.
Proof.
  intros B M N C A S.
  apply (run_survives self body mbody is_async B M ms S A N C ms [] winit); auto; [apply wi_init | apply si_init].
Qed.
