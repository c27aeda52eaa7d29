(** Proofs for C89. *)
From Verif Require Import Lib ForkModel ForkSpec.

Ltac cb := cbn [set_proc new_proc new_dict put_all add_task add_actor w_proc w_procs w_dict w_dicts w_next w_queue w_actors].

Section P.
Variable cpus : nat.
Hypothesis CPU : 1 <= cpus.

Record FI (w : world) : Prop := {
  f_procs : 1 <= w_procs w;
  f_main : c_daemon (w_proc w 0) = false;
  f_store : forall p, p < w_procs w -> c_store (w_proc w p) = Some 0 \/ (p = 0 /\ c_store (w_proc w 0) = None /\ w_dicts w = 0);
  f_pool : forall p o, p < w_procs w -> c_manager (w_proc w p) = Some o ->
             c_store (w_proc w p) = Some 0 /\ c_daemon (w_proc w p) = false /\
             length (o_workers o) = cpus /\ length (o_grabbed o) = cpus /\ o_turn o < cpus /\
             (forall q, In q (o_workers o) -> q < w_procs w /\ c_daemon (w_proc w q) = true);
  f_daemon : forall p, p < w_procs w -> c_daemon (w_proc w p) = true -> c_manager (w_proc w p) = None;
  f_flag : forall p, p < w_procs w -> c_flag (w_proc w p) = true -> c_manager (w_proc w p) <> None;
  f_next : forall k d e, w_dict w k d = Some e -> k = 0 /\ d < w_next w;
  f_queue : forall q k ds, In (k, ds) (w_queue w q) ->
             k = 0 /\ runs_tasks w q /\ (forall d, In d ds -> d < w_next w);
  f_actor : forall s q, In (s, q) (w_actors w) -> s < w_procs w /\ c_daemon (w_proc w s) = false /\ runs_tasks w q
}.

Notation store_instance := (store_instance).
Notation manager_instance := (manager_instance Fork cpus).

Lemma fi0 : FI world0.
Proof.
  constructor; simpl; intros; auto; try discriminate; try contradiction.
  - right. split; [lia|auto].
Qed.

Lemma tasks_daemon w p : FI w -> runs_tasks w p -> p < w_procs w /\ c_daemon (w_proc w p) = true.
Proof. intros F (q & o & L & M & I). exact (proj2 (proj2 (proj2 (proj2 (proj2 (f_pool w F q o L M))))) p I). Qed.

(** What every operation keeps: old processes stay what they are, except for the one that calls. *)
Definition keeps (w w' : world) : Prop :=
  w_procs w <= w_procs w' /\ w_next w <= w_next w' /\
  (forall p, p < w_procs w -> c_daemon (w_proc w' p) = c_daemon (w_proc w p)) /\
  (forall p o, p < w_procs w -> c_manager (w_proc w p) = Some o -> exists o', c_manager (w_proc w' p) = Some o' /\ o_workers o' = o_workers o).

Lemma keeps_refl w : keeps w w.
Proof. repeat split; eauto. Qed.
Lemma keeps_trans a b c : keeps a b -> keeps b c -> keeps a c.
Proof.
  intros (A1 & A2 & A3 & A4) (B1 & B2 & B3 & B4). split; [lia|]. split; [lia|]. split.
  - intros p L. rewrite B3 by lia. auto.
  - intros p o L M. destruct (A4 p o L M) as (o1 & M1 & E1). destruct (B4 p o1 ltac:(lia) M1) as (o2 & M2 & E2). exists o2. split; congruence.
Qed.
Lemma keeps_tasks w w' p : keeps w w' -> runs_tasks w p -> runs_tasks w' p.
Proof.
  intros (A1 & A2 & A3 & A4) (q & o & L & M & I). destruct (A4 q o L M) as (o' & M' & E). exists q, o'.
  split; [lia|]. split; auto. rewrite E; auto.
Qed.

(** A change of the singletons of one process. *)
Lemma fi_set w p c : FI w -> p < w_procs w ->
  c_daemon c = c_daemon (w_proc w p) ->
  c_store c = c_store (w_proc w p) ->
  (forall o, c_manager (w_proc w p) = Some o -> exists o', c_manager c = Some o' /\ o_workers o' = o_workers o) ->
  (forall o, c_manager c = Some o -> c_store c = Some 0 /\ c_daemon c = false /\ length (o_workers o) = cpus /\ length (o_grabbed o) = cpus /\
     o_turn o < cpus /\ (forall q, In q (o_workers o) -> q < w_procs w /\ c_daemon (w_proc w q) = true)) ->
  (c_flag c = true -> c_manager c <> None) ->
  FI (set_proc w p c) /\ keeps w (set_proc w p c).
Proof.
  intros F L D S M P G.
  assert (K : keeps w (set_proc w p c)).
  { split; [cb; lia|]. split; [cb; lia|]. split; cb.
    - intros q Lq. destruct (Nat.eqb_spec q p); subst; auto.
    - intros q o Lq Mq. destruct (Nat.eqb_spec q p); subst; eauto. }
  split; [|exact K].
  constructor; cb.
  - apply F.
  - destruct (Nat.eqb_spec 0 p); subst; [rewrite D|]; apply F.
  - intros q Lq. pose proof (f_store w F q Lq) as Q. destruct (Nat.eqb_spec q p) as [->|N].
    + rewrite S. destruct Q as [Q|(-> & Q)]; auto. right. split; auto. cbn [Nat.eqb]. rewrite S. exact Q.
    + destruct Q as [Q|(-> & Q)]; auto. right. split; auto. destruct (Nat.eqb_spec 0 p); [congruence|exact Q].
  - intros q o Lq. destruct (Nat.eqb_spec q p) as [->|N]; intros Mq.
    + destruct (P o Mq) as (A1 & A2 & A3 & A4 & A5 & A6). do 5 (split; [assumption|]). intros r Ir. destruct (A6 r Ir). split; auto.
      destruct (Nat.eqb_spec r p) as [->|]; [rewrite D|]; auto.
    + destruct (f_pool w F q o Lq Mq) as (A1 & A2 & A3 & A4 & A5 & A6). do 5 (split; [assumption|]). intros r Ir. destruct (A6 r Ir). split; auto.
      destruct (Nat.eqb_spec r p) as [->|]; [rewrite D|]; auto.
  - intros q Lq. destruct (Nat.eqb_spec q p) as [->|N].
    + intros Dq. destruct (c_manager c) as [o|] eqn:E; auto. destruct (P o eq_refl) as (_ & X & _). congruence.
    + apply F; auto.
  - intros q Lq. destruct (Nat.eqb_spec q p) as [->|N]; auto. apply F; auto.
  - intros k d e X. exact (f_next w F k d e X).
  - intros q k ds I. destruct (f_queue w F q k ds I) as (A1 & A2 & A3). repeat split; auto. eapply keeps_tasks; eauto.
  - intros s q I. destruct (f_actor w F s q I) as (A1 & A2 & A3). repeat split; auto.
    + destruct (Nat.eqb_spec s p) as [->|]; auto. now rewrite D.
    + eapply keeps_tasks; eauto.
Qed.

Lemma store_ok w p : FI w -> p < w_procs w ->
  exists w', store_instance w p = (w', Some 0) /\ FI w' /\ keeps w w' /\
    c_store (w_proc w' p) = Some 0 /\
    w_procs w' = w_procs w /\ w_dict w' = w_dict w /\ w_next w' = w_next w /\ w_queue w' = w_queue w /\ w_actors w' = w_actors w /\
    c_manager (w_proc w' p) = c_manager (w_proc w p) /\ c_flag (w_proc w' p) = c_flag (w_proc w p) /\
    c_daemon (w_proc w' p) = c_daemon (w_proc w p).
Proof.
  intros F L. unfold ForkModel.store_instance. destruct (f_store w F p L) as [S|(-> & S & D)].
  - rewrite S. exists w. repeat (split; auto using keeps_refl).
  - rewrite S, (f_main w F), D.
    eexists. split; [reflexivity|].
    assert (MN : c_manager (w_proc w 0) = None).
    { destruct (c_manager (w_proc w 0)) as [o|] eqn:E; auto. destruct (f_pool w F 0 o L E) as (X & _). congruence. }
    assert (K : keeps w (set_proc (new_dict w) 0 (mkProc (Some 0) (c_manager (w_proc w 0)) (c_flag (w_proc w 0)) false))).
    { split; [cb; lia|]. split; [cb; lia|]. split; cb.
      - intros q Lq. destruct (Nat.eqb_spec q 0); subst; auto. symmetry; apply F.
      - intros q o Lq Mq. destruct (Nat.eqb_spec q 0); subst; eauto. }
    cb. cbn [Nat.eqb]. split; [|repeat split; auto; try apply K; try (symmetry; apply F)].
    constructor; cb.
    + apply F.
    + auto.
    + intros q Lq. destruct (Nat.eqb_spec q 0); subst; auto. left. destruct (f_store w F q Lq) as [|(X & _)]; auto. contradiction.
    + intros q o Lq. destruct (Nat.eqb_spec q 0) as [->|N]; simpl; intros Mq; [congruence|].
      destruct (f_pool w F q o Lq Mq) as (A1 & A2 & A3 & A4 & A5 & A6). do 5 (split; [assumption|]). intros r Ir. split; [apply A6; auto|].
      destruct (Nat.eqb_spec r 0) as [->|]; [|apply A6; auto]. destruct (A6 0 Ir) as (_ & X). rewrite (f_main w F) in X. discriminate.
    + intros q Lq. destruct (Nat.eqb_spec q 0) as [->|N]; simpl; [discriminate|]. apply F; auto.
    + intros q Lq. destruct (Nat.eqb_spec q 0) as [->|N]; simpl; [|apply F; auto]. apply F; auto.
    + intros k d e X. exact (f_next w F k d e X).
    + intros q k ds I. destruct (f_queue w F q k ds I) as (A1 & A2 & A3). repeat split; auto. eapply keeps_tasks; eauto.
    + intros s q I. destruct (f_actor w F s q I) as (A1 & A2 & A3). repeat split; auto.
      * destruct (Nat.eqb_spec s 0) as [->|]; auto.
      * eapply keeps_tasks; eauto.
Qed.

(** A new process that knows the store. *)
Lemma fi_new w c : FI w -> c_store c = Some 0 ->
  (forall o, c_manager c = Some o -> c_daemon c = false /\ length (o_workers o) = cpus /\ length (o_grabbed o) = cpus /\
     o_turn o < cpus /\ (forall q, In q (o_workers o) -> q < w_procs w /\ c_daemon (w_proc w q) = true)) ->
  (c_flag c = true -> c_manager c <> None) ->
  FI (new_proc w c) /\ keeps w (new_proc w c).
Proof.
  intros F S P G.
  assert (K : keeps w (new_proc w c)).
  { split; [cb; lia|]. split; [cb; lia|]. split; cb.
    - intros q Lq. destruct (Nat.eqb_spec q (w_procs w)); [lia|auto].
    - intros q o Lq Mq. destruct (Nat.eqb_spec q (w_procs w)); [lia|eauto]. }
  split; [|exact K]. pose proof (f_procs w F) as F1.
  constructor; cb.
  - lia.
  - destruct (Nat.eqb_spec 0 (w_procs w)); [lia|]. apply F.
  - intros q Lq. destruct (Nat.eqb_spec q (w_procs w)) as [->|N]; auto.
    destruct (f_store w F q ltac:(lia)) as [Q|(-> & Q)]; auto. right. split; auto. destruct (Nat.eqb_spec 0 (w_procs w)); [lia|auto].
  - intros q o Lq. destruct (Nat.eqb_spec q (w_procs w)) as [->|N]; intros Mq.
    + destruct (P o Mq) as (A2 & A3 & A4 & A5 & A6). do 5 (split; [assumption|]). intros r Ir. destruct (A6 r Ir). split; [lia|].
      destruct (Nat.eqb_spec r (w_procs w)); [lia|auto].
    + destruct (f_pool w F q o ltac:(lia) Mq) as (A1 & A2 & A3 & A4 & A5 & A6). do 5 (split; [assumption|]). intros r Ir. destruct (A6 r Ir). split; [lia|].
      destruct (Nat.eqb_spec r (w_procs w)); [lia|auto].
  - intros q Lq. destruct (Nat.eqb_spec q (w_procs w)) as [->|N].
    + intros Dq. destruct (c_manager c) as [o|] eqn:E; auto. destruct (P o eq_refl) as (X & _). congruence.
    + apply F; lia.
  - intros q Lq. destruct (Nat.eqb_spec q (w_procs w)) as [->|N]; auto. apply F; lia.
  - intros k d e X. exact (f_next w F k d e X).
  - intros q k ds I. destruct (f_queue w F q k ds I) as (A1 & A2 & A3). repeat split; auto. eapply keeps_tasks; eauto.
  - intros s q I. destruct (f_actor w F s q I) as (A1 & A2 & A3). repeat split; auto.
    + destruct (Nat.eqb_spec s (w_procs w)); [lia|auto].
    + eapply keeps_tasks; eauto.
Qed.

Lemma start_ok : forall n w p, FI w -> p < w_procs w -> c_daemon (w_proc w p) = false -> c_store (w_proc w p) = Some 0 ->
  c_manager (w_proc w p) = None -> c_flag (w_proc w p) = false ->
  exists w' qs, start_workers Fork n w p = (w', Some qs) /\ FI w' /\ keeps w w' /\ length qs = n /\
    (forall q, In q qs -> q < w_procs w' /\ c_daemon (w_proc w' q) = true) /\
    w_proc w' p = w_proc w p /\ w_dict w' = w_dict w /\ w_next w' = w_next w /\ w_queue w' = w_queue w /\ w_actors w' = w_actors w.
Proof.
  induction n as [|n IH]; intros w p F L D S M G.
  - exists w, []. simpl. repeat (split; auto using keeps_refl); intros; contradiction.
  - cbn [start_workers]. rewrite D.
    assert (X : FI (new_proc w (child Fork (w_proc w p) true)) /\ keeps w (new_proc w (child Fork (w_proc w p) true))).
    { apply fi_new; auto; simpl; intros; congruence. }
    destruct X as (F1 & K1).
    set (w1 := new_proc w (child Fork (w_proc w p) true)) in *.
    assert (E : w_proc w1 p = w_proc w p).
    { unfold w1. simpl. destruct (Nat.eqb_spec p (w_procs w)); [lia|auto]. }
    destruct (IH w1 p F1) as (w' & qs & H1 & F2 & K2 & H2 & H3 & H4 & H5 & H6 & H7 & H8); try rewrite E; auto.
    { simpl; lia. }
    rewrite H1. exists w', (w_procs w :: qs). split; auto. split; auto. split; [eapply keeps_trans; eauto|]. split; [simpl; lia|]. split.
    + intros q [<-|I]; auto. destruct K2 as (A1 & A2 & A3 & A4). split; [simpl in A1; lia|].
      rewrite A3 by (simpl; lia). simpl. now rewrite Nat.eqb_refl.
    + rewrite H4, E, H5, H6, H7, H8. auto.
Qed.

Lemma manager_ok w p : FI w -> p < w_procs w -> c_daemon (w_proc w p) = false -> c_store (w_proc w p) = Some 0 ->
  exists w' o, manager_instance w p = (w', Some o) /\ FI w' /\ keeps w w' /\
    c_manager (w_proc w' p) = Some o /\ c_store (w_proc w' p) = Some 0 /\ c_daemon (w_proc w' p) = false /\
    w_dict w' = w_dict w /\ w_next w' = w_next w /\ w_queue w' = w_queue w /\ w_actors w' = w_actors w.
Proof.
  intros F L D S. unfold ForkModel.manager_instance. destruct (c_manager (w_proc w p)) as [o|] eqn:M.
  - exists w, o. repeat (split; auto using keeps_refl).
  - unfold ForkModel.store_instance. rewrite S.
    assert (G : c_flag (w_proc w p) = false).
    { destruct (c_flag (w_proc w p)) eqn:E; auto. exfalso. exact (f_flag w F p L E M). }
    destruct (start_ok cpus w p F L D S M G) as (w' & qs & H1 & F1 & K1 & H2 & H3 & H4 & H5 & H6 & H7 & H8).
    rewrite H1. rewrite H4, S, G, D.
    set (o := mkPool qs (map (fun _ => false) qs) 0).
    assert (Lp : p < w_procs w') by (destruct K1; lia).
    destruct (fi_set w' p (mkProc (Some 0) (Some o) false false) F1 Lp) as (F2 & K2); simpl.
    + now rewrite H4.
    + now rewrite H4.
    + rewrite H4, M. discriminate.
    + intros o' Eo. injection Eo as <-. simpl. rewrite map_length. do 5 (split; [auto; lia|]). exact H3.
    + intros; discriminate.
    + eexists _, o. split; [reflexivity|]. split; [exact F2|]. split; [eapply keeps_trans; eauto|].
      simpl. rewrite Nat.eqb_refl. simpl. rewrite H5, H6, H7, H8. repeat split; auto.
Qed.

Lemma manager_daemon w p : FI w -> p < w_procs w -> c_daemon (w_proc w p) = true -> manager_instance w p = (w, None).
Proof.
  intros F L D. unfold ForkModel.manager_instance. rewrite (f_daemon w F p L D).
  unfold ForkModel.store_instance. destruct (f_store w F p L) as [->|(-> & _)]; [|rewrite (f_main w F) in D; discriminate].
  destruct cpus as [|n] eqn:E; [lia|]. simpl. now rewrite D.
Qed.

Lemma store_daemon w p : FI w -> p < w_procs w -> c_daemon (w_proc w p) = true -> store_instance w p = (w, Some 0).
Proof.
  intros F L D. unfold ForkModel.store_instance.
  destruct (f_store w F p L) as [->|(-> & _)]; [auto|rewrite (f_main w F) in D; discriminate].
Qed.

Lemma fi_put w n e : FI w -> FI (put_all w 0 n e) /\ keeps w (put_all w 0 n e).
Proof.
  intros F. assert (K : keeps w (put_all w 0 n e)) by (repeat split; simpl; eauto; lia).
  split; [|exact K]. constructor; simpl; try apply F.
  - intros k d e0 X. destruct (Nat.eqb_spec k 0) as [->|N]; simpl in X.
    + destruct (Nat.leb_spec (w_next w) d); simpl in X; [|destruct (f_next w F 0 d e0 X); split; lia].
      destruct (Nat.ltb_spec d (w_next w + n)); [split; lia|]. destruct (f_next w F 0 d e0 X); split; lia.
    + destruct (f_next w F k d e0 X); split; lia.
  - intros q k ds I. destruct (f_queue w F q k ds I) as (A1 & A2 & A3). split; auto. split; [eapply keeps_tasks; eauto|].
    intros d X. specialize (A3 d X). lia.
Qed.

Lemma fi_task w q ds : FI w -> runs_tasks w q -> (forall d, In d ds -> d < w_next w) ->
  FI (add_task w q (0, ds)) /\ keeps w (add_task w q (0, ds)).
Proof.
  intros F R N. assert (K : keeps w (add_task w q (0, ds))) by (repeat split; simpl; eauto; lia).
  split; [|exact K]. constructor; simpl; try apply F.
  intros r k es I. destruct (Nat.eqb_spec r q) as [->|].
  - apply in_app_or in I as [I|[I|[]]].
    + exact (f_queue w F q k es I).
    + injection I as <- <-. auto.
  - exact (f_queue w F r k es I).
Qed.

Lemma fi_finish w q v : FI w -> FI (finish w q v) /\ keeps w (finish w q v).
Proof.
  intros F. unfold finish. destruct (w_queue w q) as [|[k ds] r] eqn:E; [split; [exact F|apply keeps_refl]|].
  destruct (f_queue w F q k ds) as (-> & R & N); [rewrite E; left; auto|].
  split; [|repeat split; simpl; eauto]. constructor; simpl; try apply F.
  - intros k d e X. destruct (Nat.eqb_spec k 0) as [->|]; simpl in X.
    + destruct (existsb (Nat.eqb d) ds) eqn:Ex.
      * apply existsb_exists in Ex as (x & Ix & Ex). apply Nat.eqb_eq in Ex. subst. split; auto.
      * exact (f_next w F 0 d e X).
    + exact (f_next w F k d e X).
  - intros r' k es I. destruct (Nat.eqb_spec r' q) as [->|].
    + apply (f_queue w F q k es). rewrite E. right; auto.
    + exact (f_queue w F r' k es I).
Qed.

Lemma turn_ok o : 1 <= length (o_workers o) -> o_turn o < length (o_workers o) ->
  o_workers (turn o) = o_workers o /\ o_grabbed (turn o) = o_grabbed o /\ o_turn (turn o) < length (o_workers o).
Proof. intros A B. unfold turn. cbn [o_workers o_grabbed o_turn]. split; auto. split; auto. destruct (Nat.eqb_spec (S (o_turn o)) (length (o_workers o))); lia. Qed.

Lemma choose_ok : forall f o, 1 <= length (o_workers o) -> o_turn o < length (o_workers o) ->
  forall o' r, choose f o = (o', r) ->
    o_workers o' = o_workers o /\ o_grabbed o' = o_grabbed o /\ o_turn o' < length (o_workers o) /\
    (forall q, r = Some q -> In q (o_workers o)).
Proof.
  induction f as [|f IH]; simpl; intros o A B o' r H.
  - injection H as <- <-. repeat split; auto. discriminate.
  - destruct (turn_ok o A B) as (T1 & T2 & T3). destruct (nth (o_turn o) (o_grabbed o) false).
    + rewrite <- T1 in A, T3. destruct (IH (turn o) A T3 o' r H) as (H1 & H2 & H3 & H4).
      rewrite T1 in H1, H3, H4. rewrite T2 in H2. auto.
    + injection H as <- <-. repeat split; auto. intros q Q. eapply nth_error_In; eauto.
Qed.

Lemma grab_ok : forall ws gs gs' q, grab ws gs = Some (gs', q) -> length gs' = length gs /\ In q ws.
Proof.
  induction ws as [|x ws IH]; intros [|g gs] gs' q H; simpl in H; try discriminate.
  destruct g.
  - destruct (grab ws gs) as [[g' r]|] eqn:E; [|discriminate]. injection H as <- <-. destruct (IH _ _ _ E). simpl. split; auto.
  - injection H as <- <-. simpl; auto.
Qed.

Lemma fi_pool w p o o' : FI w -> p < w_procs w -> c_manager (w_proc w p) = Some o ->
  o_workers o' = o_workers o -> length (o_grabbed o') = length (o_grabbed o) -> o_turn o' < cpus ->
  FI (set_pool w p o') /\ keeps w (set_pool w p o').
Proof.
  intros F L M A B C. destruct (f_pool w F p o L M) as (A1 & A2 & A3 & A4 & A5 & A6).
  apply fi_set; simpl; auto.
  - intros x Mx. exists o'. rewrite M in Mx. injection Mx as <-. auto.
  - intros x Mx. injection Mx as <-. rewrite A, B. do 5 (split; [auto|]). exact A6.
  - intros; discriminate.
Qed.

(** Every call keeps the invariant. *)
Definition good (w : world) (r : world * out) : Prop := FI (fst r) /\ keeps w (fst r).

Lemma good_refl w o : FI w -> good w (w, o).
Proof. intros; split; auto using keeps_refl. Qed.

Lemma init_ok w p : FI w -> p < w_procs w -> c_daemon (w_proc w p) = false ->
  exists w', do_init Fork cpus w p = (w', Done) /\ FI w' /\ keeps w w' /\ w_dict w' = w_dict w /\ w_next w' = w_next w /\ w_queue w' = w_queue w /\
    w_actors w' = w_actors w.
Proof.
  intros F L D. unfold do_init.
  destruct (store_ok w p F L) as (w1 & E1 & F1 & K1 & S1 & P1 & D1 & N1 & Q1 & T1 & M1 & G1 & X1). rewrite E1.
  assert (L1 : p < w_procs w1) by lia. rewrite D in X1.
  destruct (manager_ok w1 p F1 L1 X1 S1) as (w2 & o & E2 & F2 & K2 & M2 & S2 & X2 & D2 & N2 & Q2 & T2). rewrite E2.
  assert (L2 : p < w_procs w2) by (destruct K2; lia).
  destruct (fi_set w2 p (mkProc (c_store (w_proc w2 p)) (c_manager (w_proc w2 p)) true (c_daemon (w_proc w2 p))) F2 L2) as (F3 & K3); simpl; auto.
  - intros o' Mo. exists o'. auto.
  - intros o' Mo. exact (f_pool w2 F2 p o' L2 Mo).
  - intros _. congruence.
  - eexists. split; [reflexivity|]. split; [exact F3|]. split; [exact (keeps_trans _ _ _ K1 (keeps_trans _ _ _ K2 K3))|].
    simpl. repeat split; congruence.
Qed.

Lemma put_ok w p v : FI w -> p < w_procs w -> c_daemon (w_proc w p) = false ->
  exists w1, FI w1 /\ keeps w w1 /\ w_dict w1 = w_dict w /\ w_next w1 = w_next w /\ w_queue w1 = w_queue w /\ w_actors w1 = w_actors w /\
    do_put Fork cpus w p v = (put_all w1 0 1 (Val v), Refs [w_next w]).
Proof.
  intros F L D. unfold do_put.
  assert (X : exists w1, (if c_flag (w_proc w p) then (w, Done) else do_init Fork cpus w p) = (w1, Done) /\ FI w1 /\ keeps w w1 /\
     w_dict w1 = w_dict w /\ w_next w1 = w_next w /\ w_queue w1 = w_queue w /\ w_actors w1 = w_actors w).
  { destruct (c_flag (w_proc w p)).
    - exists w. repeat (split; auto using keeps_refl).
    - exact (init_ok w p F L D). }
  destruct X as (w1 & E1 & F1 & K1 & D1 & N1 & Q1 & T1). rewrite E1.
  assert (L1 : p < w_procs w1) by (destruct K1; lia).
  destruct (store_ok w1 p F1 L1) as (w2 & E2 & F2 & K2 & S2 & P2 & D2 & N2 & Q2 & T2 & _). rewrite E2.
  exists w2. split; auto. split; [exact (keeps_trans _ _ _ K1 K2)|]. repeat split; try congruence.
Qed.

Lemma remote_ok w p n : FI w -> p < w_procs w -> c_daemon (w_proc w p) = false ->
  exists w1, FI w1 /\ keeps w w1 /\ w_dict w1 = w_dict (put_all w 0 n Waiting) /\ w_next w1 = w_next w + n /\
    w_queue w1 = w_queue w /\ w_actors w1 = w_actors w /\
    (do_remote Fork cpus w p n = (w1, NoWorker) \/
     exists q, runs_tasks w1 q /\ do_remote Fork cpus w p n = (add_task w1 q (0, seq (w_next w) n), Refs (seq (w_next w) n))).
Proof.
  intros F L D. unfold do_remote.
  destruct (store_ok w p F L) as (w1 & E1 & F1 & K1 & S1 & P1 & D1 & N1 & Q1 & T1 & M1 & G1 & X1). rewrite E1.
  destruct (fi_put w1 n Waiting F1) as (F2 & K2).
  assert (L2 : p < w_procs (put_all w1 0 n Waiting)) by (simpl; lia).
  destruct (manager_ok (put_all w1 0 n Waiting) p F2 L2) as (w3 & o & E3 & F3 & K3 & M3 & S3 & X3 & D3 & N3 & Q3 & T3); simpl; try congruence; auto.
  rewrite E3.
  assert (L3 : p < w_procs w3) by (destruct K3; simpl in *; lia).
  destruct (f_pool w3 F3 p o L3 M3) as (A1 & A2 & A3 & A4 & A5 & A6).
  destruct (choose (length (o_workers o)) o) as [o' r] eqn:C.
  destruct (choose_ok _ o ltac:(lia) ltac:(lia) o' r C) as (C1 & C2 & C3 & C4).
  destruct (fi_pool w3 p o o' F3 L3 M3 C1 ltac:(congruence) ltac:(congruence)) as (F4 & K4).
  exists (set_pool w3 p o'). split; [exact F4|].
  split; [exact (keeps_trans _ _ _ K1 (keeps_trans _ _ _ K2 (keeps_trans _ _ _ K3 K4)))|].
  simpl in *. rewrite D3, N3, Q3, T3, D1, N1, Q1, T1.
  repeat (split; [reflexivity|]).
  destruct r as [q|]; [right|left; auto].
  exists q. split; [|auto].
  eapply keeps_tasks; [exact K4|]. exists p, o. repeat split; auto.
Qed.

Lemma actor_ok w p : FI w -> p < w_procs w -> good w (do_actor Fork cpus w p).
Proof.
  intros F L. unfold do_actor.
  destruct (store_ok w p F L) as (w1 & E1 & F1 & K1 & S1 & P1 & D1 & N1 & Q1 & T1 & M1 & G1 & X1). rewrite E1.
  assert (L1 : p < w_procs w1) by lia.
  destruct (c_daemon (w_proc w1 p)) eqn:Dm; [split; auto|].
  assert (X : FI (new_proc w1 (child Fork (w_proc w1 p) false)) /\ keeps w1 (new_proc w1 (child Fork (w_proc w1 p) false))).
  { apply fi_new; auto; simpl.
    - intros o Mo. destruct (f_pool w1 F1 p o L1 Mo) as (A1 & A2 & A3). auto.
    - intros Gf. exact (f_flag w1 F1 p L1 Gf). }
  destruct X as (F2 & K2). set (w2 := new_proc w1 (child Fork (w_proc w1 p) false)) in *.
  assert (E : w_proc w2 p = w_proc w1 p).
  { unfold w2. simpl. destruct (Nat.eqb_spec p (w_procs w1)); [lia|auto]. }
  assert (L2 : p < w_procs w2) by (simpl; lia).
  destruct (manager_ok w2 p F2 L2) as (w3 & o & E3 & F3 & K3 & M3 & S3 & X3 & D3 & N3 & Q3 & T3); try rewrite E; auto.
  rewrite E3.
  assert (L3 : p < w_procs w3) by (destruct K3; lia).
  destruct (f_pool w3 F3 p o L3 M3) as (A1 & A2 & A3 & A4 & A5 & A6).
  assert (K03 : keeps w w3) by exact (keeps_trans _ _ _ K1 (keeps_trans _ _ _ K2 K3)).
  destruct (grab (o_workers o) (o_grabbed o)) as [[gs q]|] eqn:Gr; [|split; auto].
  destruct (grab_ok _ _ _ _ Gr) as (G1' & G2').
  destruct (fi_pool w3 p o (mkPool (o_workers o) gs (o_turn o)) F3 L3 M3 eq_refl G1' A5) as (F4 & K4).
  set (w4 := set_pool w3 p (mkPool (o_workers o) gs (o_turn o))) in *.
  assert (K5 : keeps w4 (add_actor w4 (w_procs w1) q)) by (repeat split; simpl; eauto).
  split; [|exact (keeps_trans _ _ _ K03 (keeps_trans _ _ _ K4 K5))].
  cbn [fst]. constructor; cbn [add_actor w_proc w_procs w_dict w_dicts w_next w_queue w_actors]; try apply F4.
  intros s r I. apply in_app_or in I as [I|[I|[]]].
  - exact (f_actor w4 F4 s r I).
  - injection I as <- <-.
    assert (Ls : w_procs w1 < w_procs w2) by (simpl; lia).
    assert (Ds : c_daemon (w_proc w2 (w_procs w1)) = false) by (simpl; now rewrite Nat.eqb_refl).
    destruct (keeps_trans _ _ _ K3 K4) as (B1 & B2 & B3 & B4).
    split; [lia|]. split; [rewrite B3; auto|].
    eapply keeps_tasks; [exact K4|]. exists p, o. auto.
Qed.

Lemma method_ok w p a n : FI w -> p < w_procs w -> good w (do_method w p a n).
Proof.
  intros F L. unfold do_method. destruct (nth_error (w_actors w) a) as [[s q]|] eqn:E; [|apply good_refl; auto].
  destruct (store_ok w p F L) as (w1 & E1 & F1 & K1 & S1 & P1 & D1 & N1 & Q1 & T1 & M1 & G1 & X1). rewrite E1.
  destruct (fi_put w1 n Waiting F1) as (F2 & K2).
  destruct (fi_task (put_all w1 0 n Waiting) q (seq (w_next w1) n) F2) as (F3 & K3).
  - apply nth_error_In in E. destruct (f_actor w F s q E) as (_ & _ & R). exact (keeps_tasks _ _ _ (keeps_trans _ _ _ K1 K2) R).
  - intros d I. apply in_seq in I. simpl. lia.
  - split; [exact F3|exact (keeps_trans _ _ _ K1 (keeps_trans _ _ _ K2 K3))].
Qed.

Lemma call_ok w p c : FI w -> good w (do_call Fork cpus w p c).
Proof.
  intros F. unfold do_call. destruct (Nat.ltb_spec p (w_procs w)) as [L|]; [|apply good_refl; auto].
  destruct (c_daemon (w_proc w p)) eqn:D.
  - destruct c as [| |v|d|n| |a n].
    + unfold do_init. rewrite store_daemon, manager_daemon; auto. apply good_refl; auto.
    + apply good_refl; auto.
    + unfold do_put. assert (G : c_flag (w_proc w p) = false).
      { destruct (c_flag (w_proc w p)) eqn:E; auto. exfalso. exact (f_flag w F p L E (f_daemon w F p L D)). }
      rewrite G. unfold do_init. rewrite store_daemon, manager_daemon; auto. apply good_refl; auto.
    + unfold do_get. rewrite store_daemon; auto. apply good_refl; auto.
    + unfold do_remote. rewrite store_daemon; auto. destruct (fi_put w n Waiting F) as (F2 & K2).
      rewrite manager_daemon; auto. split; auto.
    + apply actor_ok; auto.
    + apply method_ok; auto.
  - destruct c as [| |v|d|n| |a n].
    + destruct (init_ok w p F L D) as (w' & E & F' & K & _). rewrite E. split; auto.
    + apply good_refl; auto.
    + destruct (put_ok w p v F L D) as (w1 & F1 & K1 & _ & _ & _ & _ & E). rewrite E.
      destruct (fi_put w1 1 (Val v) F1) as (F2 & K2). split; auto. exact (keeps_trans _ _ _ K1 K2).
    + unfold do_get. destruct (store_ok w p F L) as (w1 & E1 & F1 & K1 & _). rewrite E1. split; auto.
    + destruct (remote_ok w p n F L D) as (w1 & F1 & K1 & _ & N1 & _ & _ & [E|(q & R & E)]); rewrite E; [split; auto|].
      destruct (fi_task w1 q (seq (w_next w) n) F1 R) as (F2 & K2).
      { intros d I. apply in_seq in I. lia. }
      split; [exact F2|exact (keeps_trans _ _ _ K1 K2)].
    + apply actor_ok; auto.
    + apply method_ok; auto.
Qed.

Lemma step_ok w e : FI w -> FI (event_step Fork cpus w e) /\ keeps w (event_step Fork cpus w e).
Proof. intros F. destruct e; [apply call_ok|apply fi_finish]; auto. Qed.

Lemma goes_on_snoc m c w h e h' : goes_on m c w (h ++ [e]) = goes_on m c (goes_on m c w h) [e] /\
  goes_on m c (goes_on m c w h) (e :: h') = goes_on m c (goes_on m c w (h ++ [e])) h'.
Proof. unfold goes_on. rewrite fold_left_app. split; reflexivity. Qed.

Lemma run_ok : forall h w, FI w -> FI (goes_on Fork cpus w h) /\ keeps w (goes_on Fork cpus w h).
Proof.
  induction h as [|e h IH]; intros w F; simpl; [split; auto using keeps_refl|].
  destruct (step_ok w e F) as (F1 & K1). destruct (IH _ F1) as (F2 & K2). split; auto. exact (keeps_trans _ _ _ K1 K2).
Qed.

(** The invariant holds after every history. *)
Lemma history_ok h : FI (goes_on Fork cpus world0 h).
Proof. exact (proj1 (run_ok h world0 fi0)). Qed.

Lemma not_tasks w p : FI w -> p < w_procs w -> p = 0 \/ (exists q, runs_methods w p q) -> c_daemon (w_proc w p) = false.
Proof. intros F L [-> |(q & R)]; [apply F|]. destruct (f_actor w F p q R) as (_ & D & _). exact D. Qed.

(** get in any process is get in the main program. *)
Lemma get_out w p d : FI w -> p < w_procs w -> answer Fork cpus w p (CGet d) =
  match w_dict w 0 d with None => KeyErr | Some Waiting => Waits | Some (Val v) => Value v end.
Proof.
  intros F L. unfold answer, do_call. destruct (Nat.ltb_spec p (w_procs w)); [|lia]. unfold do_get.
  destruct (store_ok w p F L) as (w1 & E1 & F1 & K1 & S1 & P1 & D1 & _). rewrite E1. simpl. now rewrite D1.
Qed.

Lemma c89_get h p d : let w := goes_on Fork cpus world0 h in p < w_procs w ->
  answer Fork cpus w p (CGet d) = answer Fork cpus w 0 (CGet d).
Proof. intros w L. pose proof (history_ok h) as F. fold w in F. rewrite !get_out; auto. apply F. Qed.

Lemma c89_tasks h p : let w := goes_on Fork cpus world0 h in runs_tasks w p ->
  answer Fork cpus w p CIsInitialized = Says false /\ answer Fork cpus w p CInit = Assertion /\
  (forall v, answer Fork cpus w p (CPut v) = Assertion) /\ (forall n, answer Fork cpus w p (CRemote n) = Assertion) /\
  answer Fork cpus w p CActor = Assertion.
Proof.
  intros w R. pose proof (history_ok h) as F. fold w in F. destruct (tasks_daemon w p F R) as (L & D).
  unfold answer, do_call. destruct (Nat.ltb_spec p (w_procs w)); [|lia].
  assert (G : c_flag (w_proc w p) = false).
  { destruct (c_flag (w_proc w p)) eqn:E; auto. exfalso. exact (f_flag w F p L E (f_daemon w F p L D)). }
  split; [simpl; now rewrite G|].
  split; [unfold do_init; rewrite store_daemon, manager_daemon; auto|].
  split; [intros v; unfold do_put; rewrite G; unfold do_init; rewrite store_daemon, manager_daemon; auto|].
  split; [intros n; unfold do_remote; rewrite store_daemon; auto; destruct (fi_put w n Waiting F); rewrite manager_daemon; auto|].
  unfold do_actor. rewrite store_daemon, D; auto.
Qed.

(** A value that is there and for which no task is queued stays. *)
Definition settled (w : world) (d v : nat) : Prop :=
  w_dict w 0 d = Some (Val v) /\ forall q k ds, In (k, ds) (w_queue w q) -> ~ In d ds.

(** The effect of a call on the dictionary and the queues. *)
Lemma call_effect w p c : FI w ->
  let w' := fst (do_call Fork cpus w p c) in
  (forall d, d < w_next w -> w_dict w' 0 d = w_dict w 0 d) /\
  (forall q t, In t (w_queue w' q) -> In t (w_queue w q) \/ forall d, In d (snd t) -> w_next w <= d) /\
  (forall q t, In t (w_queue w q) -> In t (w_queue w' q)).
Proof.
  intros F w'.
  assert (Z : forall w', w_dict w' = w_dict w -> w_queue w' = w_queue w ->
     (forall d, d < w_next w -> w_dict w' 0 d = w_dict w 0 d) /\
     (forall q t, In t (w_queue w' q) -> In t (w_queue w q) \/ forall d, In d (snd t) -> w_next w <= d) /\
     (forall q t, In t (w_queue w q) -> In t (w_queue w' q))).
  { intros x Ed Eq. rewrite Ed, Eq. auto. }
  assert (PA : forall x n e d, w_next x = w_next w -> w_dict x = w_dict w -> d < w_next w -> w_dict (put_all x 0 n e) 0 d = w_dict w 0 d).
  { intros x n e d Ex Dx Ld. cbn [put_all w_dict]. rewrite Ex, Dx. destruct (Nat.leb_spec (w_next w) d); [lia|]. now rewrite andb_false_r. }
  assert (TA : forall x q0 n, w_queue x = w_queue w ->
     (forall q t, In t (w_queue (add_task x q0 (0, seq (w_next w) n)) q) -> In t (w_queue w q) \/ forall d, In d (snd t) -> w_next w <= d) /\
     (forall q t, In t (w_queue w q) -> In t (w_queue (add_task x q0 (0, seq (w_next w) n)) q))).
  { intros x q0 n Qx. cbn [add_task w_queue]. rewrite Qx. split; intros q t I.
    - destruct (Nat.eqb q q0); auto. apply in_app_or in I as [I|[<-|[]]]; auto. right. intros d Id. apply in_seq in Id. lia.
    - destruct (Nat.eqb q q0); auto. apply in_or_app; auto. }
  subst w'. unfold do_call. destruct (Nat.ltb_spec p (w_procs w)) as [L|]; [|apply Z; auto].
  destruct (c_daemon (w_proc w p)) eqn:D; destruct c as [| |v|d|n| |a n].
  - unfold do_init. rewrite store_daemon, manager_daemon; auto; apply Z; auto.
  - apply Z; auto.
  - unfold do_put. assert (G : c_flag (w_proc w p) = false).
    { destruct (c_flag (w_proc w p)) eqn:E; auto. exfalso. exact (f_flag w F p L E (f_daemon w F p L D)). }
    rewrite G. unfold do_init. rewrite store_daemon, manager_daemon; auto; apply Z; auto.
  - unfold do_get. rewrite store_daemon; auto; apply Z; auto.
  - unfold do_remote. rewrite store_daemon; auto. destruct (fi_put w n Waiting F) as (F2 & K2). rewrite manager_daemon; auto. cbn [fst].
    split; [intros; apply PA; auto|]. cbn [put_all w_queue]. auto.
  - unfold do_actor. rewrite store_daemon, D; auto; apply Z; auto.
  - unfold do_method. destruct (nth_error (w_actors w) a) as [[s q]|]; [|apply Z; auto]. rewrite store_daemon; auto. cbn [fst].
    split; [intros; cbn [add_task w_dict]; apply PA; auto|]. apply TA; auto.
  - destruct (init_ok w p F L D) as (w1 & E & _ & _ & D1 & _ & Q1 & _). rewrite E. apply Z; auto.
  - apply Z; auto.
  - destruct (put_ok w p v F L D) as (w1 & F1 & K1 & D1 & N1 & Q1 & T1 & E). rewrite E. cbn [fst].
    split; [intros; apply PA; auto|]. cbn [put_all w_queue]. rewrite Q1. auto.
  - unfold do_get. destruct (store_ok w p F L) as (w1 & E1 & F1 & K1 & S1 & P1 & D1 & N1 & Q1 & _). rewrite E1. apply Z; auto.
  - destruct (remote_ok w p n F L D) as (w1 & F1 & K1 & D1 & N1 & Q1 & _ & [E|(q & R & E)]); rewrite E; cbn [fst].
    + split; [intros; rewrite D1; apply PA; auto|]. rewrite Q1. auto.
    + split; [intros; cbn [add_task w_dict]; rewrite D1; apply PA; auto|]. apply TA; auto.
  - unfold do_actor.
    destruct (store_ok w p F L) as (w1 & E1 & F1 & K1 & S1 & P1 & D1 & N1 & Q1 & T1 & M1 & G1 & X1). rewrite E1.
    assert (L1 : p < w_procs w1) by lia.
    rewrite X1, D.
    assert (X : FI (new_proc w1 (child Fork (w_proc w1 p) false))).
    { apply fi_new; auto; simpl.
      - intros o Mo. destruct (f_pool w1 F1 p o L1 Mo) as (A1 & A2 & A3). auto.
      - intros Gf. exact (f_flag w1 F1 p L1 Gf). }
    set (w2 := new_proc w1 (child Fork (w_proc w1 p) false)) in *.
    assert (E : w_proc w2 p = w_proc w1 p).
    { unfold w2. simpl. destruct (Nat.eqb_spec p (w_procs w1)); [lia|auto]. }
    assert (L2 : p < w_procs w2) by (simpl; lia).
    destruct (manager_ok w2 p X L2) as (w3 & o & E3 & F3 & K3 & M3 & S3 & X3 & D3 & N3 & Q3 & T3); try rewrite E; auto.
    { congruence. }
    rewrite E3. destruct (grab (o_workers o) (o_grabbed o)) as [[gs q]|]; cbn [fst]; apply Z; simpl; rewrite ?D3, ?Q3; simpl; auto.
  - unfold do_method. destruct (nth_error (w_actors w) a) as [[s q]|]; [|apply Z; auto].
    destruct (store_ok w p F L) as (w1 & E1 & F1 & K1 & S1 & P1 & D1 & N1 & Q1 & T1 & M1 & G1 & X1). rewrite E1. cbn [fst].
    split; [intros; cbn [add_task w_dict]; apply PA; auto|]. rewrite N1. apply TA; auto.
Qed.

Lemma settled_step w e d v : FI w -> settled w d v -> settled (event_step Fork cpus w e) d v.
Proof.
  intros F (S1 & S2). pose proof (proj2 (f_next w F 0 d _ S1)) as Ld. destruct e as [p c|q x]; cbn [event_step].
  - destruct (call_effect w p c F) as (A1 & A2 & A3). split.
    + rewrite A1; auto.
    + intros q k ds I J. destruct (A2 q _ I) as [I'|N]; [exact (S2 q k ds I' J)|]. specialize (N d J). lia.
  - unfold finish. destruct (w_queue w q) as [|[k ds] r] eqn:E; [split; auto|]. split; cbn [w_dict w_queue].
    + destruct (Nat.eqb 0 k && existsb (Nat.eqb d) ds)%bool eqn:X; auto.
      apply andb_true_iff in X as (_ & X). apply existsb_exists in X as (y & Iy & Ey). apply Nat.eqb_eq in Ey. subst y.
      exfalso. apply (S2 q k ds); [rewrite E; left|]; auto.
    + intros q' k' ds' I. destruct (Nat.eqb_spec q' q) as [->|]; [apply (S2 q k'); rewrite E; right; auto|exact (S2 q' k' ds' I)].
Qed.

Lemma settled_run : forall h w d v, FI w -> settled w d v -> settled (goes_on Fork cpus w h) d v.
Proof.
  induction h as [|e h IH]; intros w d v F S; simpl; auto.
  apply IH; [exact (proj1 (step_ok w e F))|apply settled_step; auto].
Qed.

Lemma c89_put h p v : let w := goes_on Fork cpus world0 h in p < w_procs w -> p = 0 \/ (exists q, runs_methods w p q) ->
  exists d, answer Fork cpus w p (CPut v) = Refs [d] /\ answer Fork cpus w 0 (CGet d) = KeyErr /\
    forall h' r, let w' := goes_on Fork cpus w (ECall p (CPut v) :: h') in r < w_procs w' -> answer Fork cpus w' r (CGet d) = Value v.
Proof.
  intros w L R. pose proof (history_ok h) as F. fold w in F. pose proof (not_tasks w p F L R) as D.
  destruct (put_ok w p v F L D) as (w1 & F1 & K1 & D1 & N1 & Q1 & T1 & E).
  assert (EC : do_call Fork cpus w p (CPut v) = (put_all w1 0 1 (Val v), Refs [w_next w])).
  { unfold do_call. destruct (Nat.ltb_spec p (w_procs w)); [|lia]. exact E. }
  exists (w_next w). split; [unfold answer; rewrite EC; auto|]. split.
  - rewrite get_out; auto; [|apply F]. destruct (w_dict w 0 (w_next w)) as [e|] eqn:X; auto. destruct (f_next w F 0 _ e X). lia.
  - intros h' r w' Lr.
    assert (Ew : w' = goes_on Fork cpus (put_all w1 0 1 (Val v)) h').
    { unfold w', goes_on. cbn [fold_left event_step]. now rewrite EC. }
    clearbody w'. subst w'.
    destruct (fi_put w1 1 (Val v) F1) as (F2 & K2).
    assert (S : settled (put_all w1 0 1 (Val v)) (w_next w) v).
    { split.
      - cbn [put_all w_dict]. rewrite N1. rewrite Nat.leb_refl. destruct (Nat.ltb_spec (w_next w) (w_next w + 1)); [reflexivity|lia].
      - intros q k ds I J. cbn [put_all w_queue] in I. rewrite Q1 in I. destruct (f_queue w F q k ds I) as (_ & _ & N). specialize (N _ J). lia. }
    destruct (settled_run h' _ _ _ F2 S) as (Sv & _).
    rewrite get_out; auto; [now rewrite Sv|]. exact (proj1 (run_ok h' _ F2)).
Qed.

(** A reference whose only task is in the queue of q waits as long as q ends no task. *)
Definition pending (w : world) (q d : nat) : Prop :=
  w_dict w 0 d = Some Waiting /\ forall q' k ds, In (k, ds) (w_queue w q') -> In d ds -> q' = q.

Lemma pending_step w e q d : FI w -> pending w q d -> (forall v, e <> EEnd q v) -> pending (event_step Fork cpus w e) q d.
Proof.
  intros F (S1 & S2) B. pose proof (proj2 (f_next w F 0 d _ S1)) as Ld. destruct e as [p c|q0 x]; cbn [event_step].
  - destruct (call_effect w p c F) as (A1 & A2 & A3). split.
    + rewrite A1; auto.
    + intros q' k ds I J. destruct (A2 q' _ I) as [I'|N]; [exact (S2 q' k ds I' J)|]. specialize (N d J). lia.
  - assert (N : q0 <> q) by (intros ->; exact (B x eq_refl)).
    unfold finish. destruct (w_queue w q0) as [|[k ds] r] eqn:E; [split; auto|]. split; cbn [w_dict w_queue].
    + destruct (Nat.eqb 0 k && existsb (Nat.eqb d) ds)%bool eqn:X; auto.
      apply andb_true_iff in X as (_ & X). apply existsb_exists in X as (y & Iy & Ey). apply Nat.eqb_eq in Ey. subst y.
      exfalso. apply N. apply (S2 q0 k ds); [rewrite E; left|]; auto.
    + intros q' k' ds' I. destruct (Nat.eqb_spec q' q0) as [->|]; [apply (S2 q0 k'); rewrite E; right; auto|exact (S2 q' k' ds' I)].
Qed.

Lemma pending_run : forall h w q d, FI w -> pending w q d -> q_busy q h -> pending (goes_on Fork cpus w h) q d.
Proof.
  induction h as [|e h IH]; intros w q d F S B; simpl; auto.
  apply IH; [exact (proj1 (step_ok w e F))|apply pending_step; auto|].
  - intros v ->. exact (B v (or_introl eq_refl)).
  - intros v I. exact (B v (or_intror I)).
Qed.

Lemma c89_remote h p n : let w := goes_on Fork cpus world0 h in p < w_procs w -> p = 0 \/ (exists q, runs_methods w p q) ->
  answer Fork cpus w p (CRemote n) = NoWorker \/
  exists ds q, answer Fork cpus w p (CRemote n) = Refs ds /\ length ds = n /\ NoDup ds /\
    (forall d, In d ds -> answer Fork cpus w 0 (CGet d) = KeyErr) /\
    let w1 := fst (do_call Fork cpus w p (CRemote n)) in
    runs_tasks w1 q /\ queued w1 q ds /\
    forall h' r d, let w' := goes_on Fork cpus w1 h' in q_busy q h' -> r < w_procs w' -> In d ds -> answer Fork cpus w' r (CGet d) = Waits.
Proof.
  intros w L R. pose proof (history_ok h) as F. fold w in F. pose proof (not_tasks w p F L R) as D.
  destruct (remote_ok w p n F L D) as (w1 & F1 & K1 & D1 & N1 & Q1 & T1 & E).
  assert (EC : do_call Fork cpus w p (CRemote n) = do_remote Fork cpus w p n).
  { unfold do_call. destruct (Nat.ltb_spec p (w_procs w)); [|lia]. reflexivity. }
  unfold answer at 1 2. rewrite EC.
  destruct E as [E|(q & Rq & E)]; rewrite E; cbn [fst snd]; [left; auto|right].
  assert (Lt : forall d, In d (seq (w_next w) n) -> d < w_next w1) by (intros d I; apply in_seq in I; lia).
  destruct (fi_task w1 q (seq (w_next w) n) F1 Rq Lt) as (F2 & K2).
  exists (seq (w_next w) n), q. split; auto. split; [apply seq_length|]. split; [apply seq_NoDup|]. split.
  { intros d I. apply in_seq in I. rewrite get_out; auto; [|apply F]. destruct (w_dict w 0 d) as [e|] eqn:X; auto. destruct (f_next w F 0 _ e X). lia. }
  split; [exact (keeps_tasks _ _ _ K2 Rq)|].
  split; [exists 0; cbn [add_task w_queue]; rewrite Nat.eqb_refl; apply in_or_app; right; left; auto|].
  intros h' r d B Lr I.
  assert (P : pending (add_task w1 q (0, seq (w_next w) n)) q d).
  { apply in_seq in I. split.
    - cbn [add_task w_dict]. rewrite D1. cbn [put_all w_dict]. simpl (0 =? 0).
      destruct (Nat.leb_spec (w_next w) d); [|lia]. destruct (Nat.ltb_spec d (w_next w + n)); [reflexivity|lia].
    - intros q' k ds J Id. cbn [add_task w_queue] in J. rewrite Q1 in J. destruct (Nat.eqb_spec q' q) as [->|]; auto.
      destruct (f_queue w F q' k ds J) as (_ & _ & N). specialize (N d Id). lia. }
  destruct (pending_run h' _ q d F2 P B) as (Pw & _).
  rewrite get_out; auto; [now rewrite Pw|]. exact (proj1 (run_ok h' _ F2)).
Qed.

(** When the worker ends the task at the head of its queue, its references have values, for everybody and for good. *)
Lemma c89_end h q v k ds r : let w := goes_on Fork cpus world0 h in w_queue w q = (k, ds) :: r ->
  forall p d, p < w_procs w -> In d ds -> answer Fork cpus (goes_on Fork cpus w [EEnd q v]) p (CGet d) = Value v.
Proof.
  intros w E p d L I. pose proof (history_ok h) as F. fold w in F. cbn [goes_on fold_left event_step].
  destruct (fi_finish w q v F) as (F1 & K1). rewrite get_out; [|exact F1|destruct K1; lia].
  unfold finish. rewrite E. cbn [w_dict]. destruct (f_queue w F q k ds) as (-> & _); [rewrite E; left; auto|].
  cbn [Nat.eqb andb]. assert (X : existsb (Nat.eqb d) ds = true) by (apply existsb_exists; exists d; split; [auto|apply Nat.eqb_refl]).
  now rewrite X.
Qed.

End P.
