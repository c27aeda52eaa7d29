(** Programs with cleanups do not get stuck (C51): the system is compared with one in which nothing is ever forgotten. *)
From Verif Require Import Lib ValModel ShmModel PushModel PushProofs WorkerModel WorkerSpec WorkerLog WorkerTrace
  WorkerAnswer WorkerOrder WorkerThms WorkerSends WorkerWant MonModel ShutProofs ClusterModel ClusterSpec ClusterSeq ClusterProofs
  ClusterCount ClusterRoot ClusterNet ClusterGhost ClusterEnd.

(** Everything that is not a cleanup. *)
Definition keep_op (o : rop) : bool := match o with RClean _ => false | _ => true end.
Definition keep_msg (m : wmsg) : bool := match m with WClean _ => false | _ => true end.
Definition keep_in (p : rank * wmsg) : bool := keep_msg (snd p).
Definition keep_sight (x : sight) : bool := match x with RCleaned _ => false | _ => true end.

(** What cleanups were sent for, and what a worker was told to forget. *)
Definition dead (c : cst) : list dataid := flat_map (fun x => match x with RCleaned ds => ds | _ => [] end) (c_seen c).
Definition cleans (l : list wmsg) : list dataid := flat_map (fun m => match m with WClean ds => ds | _ => [] end) l.
Definition forgot (c : cst) (w : rank) : list dataid := cleans (map snd (c_in c w)).

Lemma cleans_app a b : cleans (a ++ b) = cleans a ++ cleans b.
Proof. apply flat_map_app. Qed.

(** ** Programs without their cleanups *)
Lemma filter_split {A} (f : A -> bool) l : forall a x b, filter f l = a ++ x :: b ->
  exists a' b', l = a' ++ x :: b' /\ filter f a' = a /\ filter f b' = b.
Proof.
  induction l as [|y l IH]; intros a x b H; simpl in H; [destruct a; discriminate|].
  destruct (f y) eqn:F.
  - destruct a as [|z a]; simpl in H.
    + assert (y = x) by congruence. assert (filter f l = b) by congruence. subst y. exists [], l. auto.
    + assert (y = z) by congruence. assert (G : filter f l = a ++ x :: b) by congruence. subst z.
      destruct (IH _ _ _ G) as (a' & b' & -> & <- & E). exists (y :: a'), b'. simpl. rewrite F. auto.
  - destruct (IH _ _ _ H) as (a' & b' & -> & <- & E). exists (y :: a'), b'. simpl. rewrite F. auto.
Qed.

Lemma keep_introduced p : introduced (filter keep_op p) = introduced p.
Proof. induction p as [|o p IH]; auto. destruct o; simpl; unfold introduced in *; simpl; rewrite ?IH; auto. Qed.

Lemma keep_submitted p : submitted (filter keep_op p) = submitted p.
Proof. induction p as [|o p IH]; auto. destruct o; simpl; unfold submitted in *; simpl; rewrite ?IH; auto. Qed.

Lemma keep_puts p : puts (filter keep_op p) = puts p.
Proof. induction p as [|o p IH]; auto. destruct o; simpl; unfold puts in *; simpl; rewrite ?IH; auto. Qed.

Lemma keep_valid workers p : valid workers p -> valid workers (filter keep_op p).
Proof.
  intros [V1 V2 V3 V4]. split.
  - rewrite keep_introduced; auto.
  - rewrite keep_submitted; auto.
  - intros d v I. apply filter_In in I as [I _]. eauto.
  - intros a dest q b E. apply filter_split in E as (a' & b' & E & <- & _).
    destruct (V4 _ _ _ _ E) as (X & Y & Z). rewrite keep_introduced, keep_puts. auto.
Qed.

Lemma keep_neat p : tidy p -> neat (filter keep_op p).
Proof.
  intros [T1 T2 T3]. split.
  - intros a ds b E. apply filter_split in E as (a' & b' & E & <- & _). rewrite keep_introduced. eauto.
  - intros a d b o E I. apply filter_split in E as (a' & b' & E & _ & <-). apply filter_In in I as [I _]. eauto.
  - intros ds I. apply filter_In in I as [_ I]. discriminate.
Qed.

Lemma keep_enough body p : returns_enough body p -> returns_enough body (filter keep_op p).
Proof. intros R dest q fd f a k I F P. apply filter_In in I as [I _]. apply filter_In in P as [P _]. eapply R; eauto. Qed.

Lemma tidy_prefix a b : tidy (a ++ b) -> tidy a.
Proof.
  intros [T1 T2 T3]. split.
  - intros x ds y ->. apply (T1 x ds (y ++ b)). rewrite <- app_assoc. auto.
  - intros x d y o -> O. apply (T2 x d (y ++ b) o); [rewrite <- app_assoc; auto | apply in_or_app; auto].
  - intros x ds y d ->. apply (T3 x ds (y ++ b)). rewrite <- app_assoc. auto.
Qed.

Lemma filter_same {A} (f : A -> bool) l : (forall x, In x l -> f x = true) -> filter f l = l.
Proof.
  induction l as [|x l IH]; intros H; simpl; auto. rewrite H by (simpl; auto). f_equal. apply IH. intros; apply H; simpl; auto.
Qed.

(** ** What a submission sends *)
Lemma push_about dest ds : forall p, exists new, p_out (fst (push_some p dest ds)) = p_out p ++ new /\
  forall r d, In (r, MValue d) new -> In d ds.
Proof.
  induction ds as [|d ds IH]; intros p; simpl.
  - exists []. rewrite app_nil_r. simpl. tauto.
  - destruct (push_ref p dest d) as [p1|] eqn:E.
    + assert (One : exists new, p_out p1 = p_out p ++ new /\ forall r x, In (r, MValue x) new -> x = d).
      { unfold push_ref in E. destruct (did_in d (p_store p)).
        - apply Some_inj in E as <-. unfold push_value. destruct (is_sent _ _ _).
          + exists []. rewrite app_nil_r. simpl. split; auto. tauto.
          + eexists. split; [reflexivity|]. intros r x [I|[]]. apply pair_inj in I as [_ I]. congruence.
        - destruct (p_owner p d); [|discriminate]. apply Some_inj in E as <-. eexists. split; [reflexivity|].
          intros r' x [I|[]]. apply pair_inj in I as [_ I]. congruence. }
      destruct One as (n1 & E1 & N1). destruct (IH p1) as (n2 & E2 & N2). exists (n1 ++ n2).
      rewrite E2, E1, app_assoc. split; auto. intros r x I. apply in_app_or in I as [I|I]; [left; symmetry|right]; eauto.
    + exists []. rewrite app_nil_r. simpl. split; auto. tauto.
Qed.

Lemma submit_about p dest n outs f a k : exists new, p_out (pstep p (PSubmit dest n outs f a k)) = p_out p ++ new /\
  forall r d, In (r, MValue d) new -> In d (refs f ++ refs a ++ refs k).
Proof.
  simpl. fold (with_outputs p dest outs). destruct (push_about dest (refs f ++ refs a ++ refs k) (with_outputs p dest outs)) as (new & E & N).
  rewrite submit_refs. unfold ok_of. change (p_out (with_outputs p dest outs)) with (p_out p) in E.
  destruct (push_some (with_outputs p dest outs) dest (refs f ++ refs a ++ refs k)) as [p1 []]; simpl in *.
  - exists (new ++ [(dest, MTask n)]). rewrite E, app_assoc. split; auto.
    intros r d I. apply in_app_or in I as [I|[I|[]]]; eauto. apply pair_inj in I as [_ I]. discriminate.
  - eauto.
Qed.

Lemma mentions_refs dest q : mentions (RSubmit dest q) = refs (fn_val (q_fn q)) ++ refs (q_args q) ++ refs (q_kwargs q).
Proof. unfold mentions, qrefs. destruct (q_fn q); auto. Qed.

(** A step of the root other than a cleanup does the same in two states that agree on what the root knows. *)
Lemma root_same workers c g r : keep_op r = true -> c_push g = c_push c -> c_vals g = c_vals c -> c_left c = 0 ->
  c_left g = 0 -> c_want g = c_want c -> c_ids g = c_ids c -> c_exc g = c_exc c ->
  exists p vals t t' seen out want ids k exc,
    root_step workers c r = set_get (root_to c r p vals t seen out) want ids k exc /\
    root_step workers g r = set_get (root_to g r p vals t' seen out) want ids k exc /\
    (forall x, In x seen -> keep_sight x = true) /\
    (forall w m, In (w, m) out -> keep_msg m = true) /\
    (forall w d v, In (w, WPut d v) out -> In d (mentions r)) /\
    (forall w q, In (w, WExec q) out -> exists dest, r = RSubmit dest q) /\
    (k <> 0 -> incl ids (mentions r)).
Proof.
  intros Kr Ep Ev Lc Lg Ew Ei Ex.
  assert (Sg : forall p vals t seen out, root_to c r p vals t seen out =
    set_get (root_to c r p vals t seen out) (c_want c) (c_ids c) 0 (c_exc c)).
  { intros. unfold set_get, root_to. simpl. rewrite Lc. auto. }
  assert (Sg' : forall p vals t seen out, root_to g r p vals t seen out =
    set_get (root_to g r p vals t seen out) (c_want c) (c_ids c) 0 (c_exc c)).
  { intros. unfold set_get, root_to. simpl. rewrite Lg, Ew, Ei, Ex. auto. }
  assert (G : forall x, In x (got (c_vals c) (mentions r)) -> keep_sight x = true).
  { intros x. unfold got. destruct (read_vals _ _); intros [<-|[]]; auto. }
  destruct r as [d v|dest q|ds|d|ds]; try discriminate Kr; cbn [root_step]; cbv zeta; rewrite ?Ep, ?Ev.
  - do 10 eexists. split; [apply Sg|]. split; [apply Sg'|]. simpl. repeat split; tauto.
  - do 10 eexists. split; [apply Sg|]. split; [apply Sg'|].
    destruct (submit_about (c_push c) dest (q_id q) (out_ids (q_out q)) (fn_val (q_fn q)) (q_args q) (q_kwargs q)) as (new & E & N).
    rewrite E, skipn_exact. split; [|split; [|split; [|split]]].
    + intros x. destruct (submit _ _ _ _ _ _ _); simpl; [tauto|]. intros [<-|[]]. auto.
    + intros w m I. apply in_pushed in I as (x & I & M). destruct x; simpl in M.
      * destruct (c_vals c d); [|destruct M]. destruct M as [<-|[]]; auto.
      * destruct M as [<-|[]]; auto.
      * destruct M as [<-|[]]; auto.
    + intros w d v I. apply in_pushed in I as (x & I & M). rewrite mentions_refs. destruct x; simpl in M.
      * destruct (c_vals c d0); [|destruct M]. destruct M as [M|[]]. injection M as <- <-. eauto.
      * destruct M as [M|[]]; discriminate.
      * destruct M as [M|[]]; discriminate.
    + intros w q' I. apply in_pushed in I as (x & I & M). exists dest. destruct x; simpl in M.
      * destruct (c_vals c d); [|destruct M]. destruct M as [M|[]]; discriminate.
      * destruct M as [M|[]]; discriminate.
      * destruct M as [M|[]]. congruence.
    + tauto.
  - assert (Fi : incl (filter (fun d => negb (did_in d (p_store (c_push c)))) ds) ds).
    { intros d I. apply filter_In in I. tauto. }
    destruct (filter (fun d => negb (did_in d (p_store (c_push c)))) ds) as [|x r].
    + do 10 eexists. split; [apply Sg|]. split; [apply Sg'|]. split; [exact G|]. simpl. repeat split; tauto.
    + destruct (owners (p_owner (c_push c)) (x :: r)) as [l|].
      * do 10 eexists. split; [reflexivity|]. split; [reflexivity|]. split; [simpl; tauto|].
        split; [|split; [|split]].
        -- intros w m I. apply in_map_iff in I as (y & Y & _). apply pair_inj in Y as [_ <-]. auto.
        -- intros w d v I. apply in_map_iff in I as (y & Y & _). apply pair_inj in Y as [_ Y]. discriminate.
        -- intros w q I. apply in_map_iff in I as (y & Y & _). apply pair_inj in Y as [_ Y]. discriminate.
        -- intros _. exact Fi.
      * do 10 eexists. split; [apply Sg|]. split; [apply Sg'|]. split; [simpl; intros y [<-|[]]; auto|].
        simpl. repeat split; tauto.
  - do 10 eexists. split; [apply Sg|]. split; [apply Sg'|]. simpl. repeat split; tauto.
Qed.

(** ** Forgetting workers *)
Lemma rw_ext K K' (own own' : dataid -> Prop) P r g : (forall d, In d K <-> In d K') -> (forall d, In d K -> own' d -> own d) ->
  RW K own P r g -> RW K' own' P r g.
Proof.
  intros X O [W1 W2 W3 W4 W5 W6 W7 W8 W9 W10 W11 W12 W13 W14 W15].
  assert (N : forall d, ~ In d K' -> ~ In d K) by (intros d I J; apply I, X; auto).
  split; eauto. intros d I Od. apply X in I. auto.
Qed.

Lemma fewer_ended K a b : fewer K a b -> ended a = ended b.
Proof. induction 1; auto. unfold ended in *. simpl. rewrite IHfewer. auto. Qed.

Lemma fewer_out K self dst a b : fewer K a b -> lossy (fun d => In d K) (outgoing self a dst) (outgoing self b dst).
Proof.
  induction 1 as [|e a b F IH|x d v p a b I F IH].
  - constructor.
  - change (e :: a) with ([e] ++ a). change (e :: b) with ([e] ++ b). rewrite !outgoing_app.
    apply lossy_app; auto. apply lossy_refl.
  - change (EvPut x d v p :: b) with ([EvPut x d v p] ++ b). rewrite outgoing_app.
    simpl outgoing at 2. destruct (x =? dst); simpl; auto. apply (lossy_drop _ _ d); auto.
Qed.

Lemma keep_outgoing self l dst : filter keep_msg (outgoing self l dst) = outgoing self l dst.
Proof. apply filter_same. intros m I. apply in_outgoing in I as [(d & v & b & -> & _)|(d & -> & _)]; auto. Qed.

Lemma cleans_outgoing self l dst : cleans (outgoing self l dst) = [].
Proof.
  assert (H := keep_outgoing self l dst). destruct (cleans (outgoing self l dst)) as [|d r] eqn:E; auto.
  assert (I : In d (cleans (outgoing self l dst))) by (rewrite E; simpl; auto).
  apply in_flat_map in I as (m & I & D). apply in_outgoing in I as [(x & v & b & -> & _)|(x & -> & _)]; destruct D.
Qed.

(** The same state with other messages under way. *)
Definition with_chan (c : cst) (ch : rank -> rank -> list wmsg) : cst :=
  {| c_push := c_push c; c_vals := c_vals c; c_tasks := c_tasks c; c_want := c_want c; c_ids := c_ids c;
     c_left := c_left c; c_exc := c_exc c; c_work := c_work c; c_dead := c_dead c; c_chan := ch;
     c_done := c_done c; c_mon := c_mon c; c_prog := c_prog c; c_seen := c_seen c; c_out := c_out c;
     c_in := c_in c |}.

Section Clean.
Variable workers : list rank.
Variable body : val -> val -> val -> result.
Hypothesis body_ok : forall f a k, no_refs_returned (body f a k).
Hypothesis no_root : ~ In 0 workers.
Hypothesis no_dup : NoDup workers.
Notation proper l c := (proper (Lost := fun d => In d l) workers body c).
Notation crun := (crun workers body).
Notation cstep := (cstep workers body).

Lemma thin_proper D g ch : proper D g -> (forall d, ch 0 d = c_chan g 0 d) ->
  (forall s d, lossy (fun x => In x D) (ch s d) (c_chan g s d)) -> proper D (with_chan g ch).
Proof using.
  intros [V R B L N Rk] Z Ls. split; auto.
  - destruct B as [B1 B2 B3 B4 B5 B6 B7]. split; auto. simpl. intros s d m I. apply (B3 s d). eapply lossy_in; eauto.
  - destruct L as [K1 K2 K3 K4 K5 K6 K7 K8 K9 K9' K10 K11 K12 K13 K14 K15 K16 K17]. split; auto.
  - destruct N as [N1 [N2 N3] N4]. split; auto. split; simpl.
    + intros d. rewrite Z. apply N2.
    + intros s d. eapply lossy_trans; [|apply N3]. apply lossy_app; [apply lossy_refl | apply Ls].
Qed.

Lemma proper_mono D D' g : incl D D' -> proper D g -> proper D' g.
Proof using.
  intros I [V R B L N Rk]. split; auto. destruct N as [N1 [N2 N3] N4]. split; auto. split; auto.
  intros s d. eapply lossy_mono; [|apply N3]. simpl. auto.
Qed.

(** References whose value no other worker will send to w. *)
Definition safe (g : cst) (w : rank) (d : dataid) : Prop :=
  made (c_prog g) w d \/ forall o, ~ In (EvGet o d) (log (c_work g w)).

Record Sim (c g : cst) : Prop := {
  s_push : c_push g = c_push c;
  s_vals : c_vals g = c_vals c;
  s_want : c_want g = c_want c;
  s_ids : c_ids g = c_ids c;
  s_left : c_left g = c_left c;
  s_exc : c_exc g = c_exc c;
  s_prog : c_prog g = filter keep_op (c_prog c);
  s_seen : c_seen g = filter keep_sight (c_seen c);
  s_chan : forall s d, c_chan g s d = filter keep_msg (c_chan c s d);
  s_in : forall w, c_in g w = filter keep_in (c_in c w);
  s_out : forall w, sends_to w (c_out g) = filter keep_msg (sends_to w (c_out c));
  s_alive : forall w, c_dead c w = false;
  s_zero : c_work g 0 = winit;
  s_rw : forall w, w <> 0 -> RW (forgot c w) (safe g w) (pend (c_work g w)) (c_work c w) (c_work g w);
  s_gets : forall w o d, w <> 0 -> In (EvGet o d) (log (c_work g w)) -> In (EvGet o d) (log (c_work c w));
  s_sent : forall ds w, In (RCleaned ds) (c_seen c) -> In w workers -> In (0, WClean ds) (c_in c w) \/ In (WClean ds) (c_chan c 0 w);
  s_pend : forall w, w <> 0 -> Forall (apart (dead c)) (pend (c_work g w));
  s_exec : forall w q, In (WExec q) (c_chan c 0 w) -> apart (dead c) q;
  s_ended : forall w, w <> 0 -> ended (log (c_work c w)) = ended (log (c_work g w));
  s_clean : forall s w ds, In (WClean ds) (c_chan c s w) -> s = 0 /\ In w workers /\ incl ds (dead c);
  s_known : forall w, incl (forgot c w) (dead c);
  s_fresh : forall w a d v b, c_chan c 0 w = a ++ WPut d v :: b -> ~ In d (forgot c w) /\ ~ In d (cleans a);
  s_get : forall d, c_left c <> 0 -> In d (c_ids c) -> ~ In d (dead c);
  s_dead : forall d, In d (dead c) -> In d (introduced (c_prog c)) /\ In (RDrop d) (c_prog c);
  s_valid : valid workers (c_prog c);
  s_tidy : tidy (c_prog c);
  s_proper : proper (dead c) g
}.

Lemma sim_init mgr : valid workers [] -> tidy [] -> returns_enough body [] -> Sim (cinit mgr) (cinit mgr).
Proof using.
  intros V T R. split; simpl; auto; try (intros; tauto); try discriminate.
  - intros w _. split; simpl; auto; try discriminate.
  - intros w. apply incl_refl.
  - intros w a d v b H. destruct a; discriminate.
  - split; auto; [apply init_cb | apply init_lr | apply init_ln | simpl; tauto].
Qed.

(** A worker that is not a worker has done nothing. *)
Lemma sim_outside c g w : Sim c g -> ~ In w workers -> pend (c_work g w) = [].
Proof using.
  intros S N. destruct (Nat.eq_dec w 0) as [->|W]; [rewrite (s_zero _ _ S); auto|].
  assert (Z : c_in g w = []).
  { destruct (c_in g w) eqn:E; auto. exfalso. assert (X : In w (0 :: workers)).
    { apply (pr_ranks _ _ _ (s_proper _ _ S)). rewrite E. discriminate. }
    destruct X as [X|X]; auto. }
  assert (Ru := cb_run _ _ (pr_cb _ _ _ (s_proper _ _ S)) w W). rewrite Z in Ru. simpl in Ru. apply Some_inj in Ru. rewrite <- Ru. auto.
Qed.

Lemma sim_root_clean c g ds : Sim c g -> CB body c -> CK workers c -> c_left c = 0 ->
  valid workers (c_prog c ++ [RClean ds]) -> tidy (c_prog c ++ [RClean ds]) -> Sim (root_step workers c (RClean ds)) g.
Proof using body_ok no_root no_dup.
  intros S B K L0 V T. cbn [root_step]. destruct (Nat.eqb_spec (mcount (c_mon c)) (c_tasks c)) as [Eq|_].
  - assert (Dn := equal_done workers body body_ok c B (s_valid _ _ S) K no_root Eq).
    assert (P0 : forall w, w <> 0 -> pend (c_work g w) = []).
    { intros w W. destruct (in_dec Nat.eq_dec w workers) as [I|I]; [|apply (sim_outside c); auto].
      destruct (Dn w I) as (X & _). rewrite (rw_pend _ _ _ _ _ (s_rw _ _ S w W)) in X. auto. }
    assert (E0 : forall w q, ~ In (WExec q) (c_chan c 0 w)).
    { intros w q I. destruct (in_dec Nat.eq_dec w workers) as [J|J].
      - destruct (Dn w J) as (_ & _ & _ & _ & X & _).
        assert (Y : In q (requests (c_chan c 0 w))). { unfold requests. apply in_flat_map. exists (WExec q). simpl. auto. }
        rewrite X in Y. destruct Y.
      - apply J. assert (X : In (WExec q) (c_chan g 0 w)) by (rewrite (s_chan _ _ S); apply filter_In; auto).
        assert (Y := in_stream g (ln_stream _ _ (pr_ln _ _ _ (s_proper _ _ S))) 0 w (WExec q) (or_intror X)).
        unfold stream in Y. simpl in Y. apply in_sends in Y. eapply lr_dest; [apply S | eauto]. }
    assert (Dd : dead (root_to c (RClean ds) (c_push c) (c_vals c) (c_tasks c) [RCleaned ds] (map (fun w => (w, WClean ds)) workers)) = dead c ++ ds).
    { unfold dead. simpl. rewrite flat_map_app. simpl. rewrite app_nil_r. auto. }
    assert (Out : forall w, sends_to w (map (fun w => (w, WClean ds)) workers) = if in_dec Nat.eq_dec w workers then [WClean ds] else []).
    { clear - no_dup. intros w. induction workers as [|x l IH]; auto. inversion no_dup as [|? ? Nx Nl]; subst. simpl sends_to. rewrite IH by auto.
      destruct (Nat.eqb_spec x w) as [->|Nw].
      - destruct (in_dec Nat.eq_dec w l); [tauto|]. destruct (in_dec Nat.eq_dec w (w :: l)) as [|Y]; auto. exfalso. apply Y; simpl; auto.
      - destruct (in_dec Nat.eq_dec w l) as [I|I], (in_dec Nat.eq_dec w (x :: l)) as [J|J]; auto; exfalso; [apply J; simpl; auto|].
        destruct J as [J|J]; auto. }
    destruct S as [S1 S2 S3 S4 S5 S6 S7 S8 S9 S10 So' S11 Sz S12 Sgt Ss S13 S14 S15 S16 S17 S18 S19 S20 S21 S22 S23].
    split; rewrite ?Dd; auto.
    + cbn [root_to c_prog]. rewrite filter_app. simpl. rewrite app_nil_r. auto.
    + cbn [root_to c_seen]. rewrite filter_app. simpl. rewrite app_nil_r. auto.
    + intros s d. cbn [root_to c_chan]. rewrite S9. destruct (Nat.eqb_spec s 0) as [->|]; auto. rewrite Out, filter_app.
      destruct (in_dec Nat.eq_dec d workers); simpl; rewrite app_nil_r; auto.
    + intros w. cbn [root_to c_out]. rewrite sends_app, Out, filter_app, So'.
      destruct (in_dec Nat.eq_dec w workers); simpl; rewrite app_nil_r; auto.
    + intros ds' w. cbn [root_to c_seen c_chan c_in]. simpl Nat.eqb. cbn iota. rewrite Out. intros I J.
      apply in_app_or in I as [I|[I|[]]].
      * destruct (Ss ds' w I J); auto. right. apply in_or_app. auto.
      * injection I as <-. right. apply in_or_app. right. destruct (in_dec Nat.eq_dec w workers); [simpl; auto|tauto].
    + intros w W. rewrite P0 by auto. constructor.
    + intros w q. cbn [root_to c_chan]. simpl Nat.eqb. cbn iota. rewrite Out. intros I. apply in_app_or in I as [I|I].
      * exfalso. eapply E0; eauto.
      * destruct (in_dec Nat.eq_dec w workers); [|destruct I]. destruct I as [I|[]]; discriminate.
    + intros s w ds'. cbn [root_to c_chan]. destruct (Nat.eqb_spec s 0) as [->|].
      * rewrite Out. intros I. apply in_app_or in I as [I|I].
        -- destruct (S16 _ _ _ I) as (_ & X & Y). split; auto. split; auto. apply incl_appl; auto.
        -- destruct (in_dec Nat.eq_dec w workers); [|destruct I]. destruct I as [I|[]]. injection I as <-.
           split; auto. split; auto. apply incl_appr, incl_refl.
      * intros I. destruct (S16 _ _ _ I) as (-> & X & Y). tauto.
    + intros w. apply incl_appl. apply S17.
    + intros w a d v b. cbn [root_to c_chan]. simpl Nat.eqb. cbn iota. rewrite Out. intros H.
      destruct (in_dec Nat.eq_dec w workers); [|rewrite app_nil_r in H; eauto].
      symmetry in H. apply app_split in H as [(t & E & _)|(t & E & H)].
      * exact (S18 _ _ _ _ _ E).
      * exfalso. destruct t as [|y [|z t]]; simpl in H; try discriminate.
    + intros d I. cbn [root_to c_prog]. rewrite introduced_app. apply in_app_or in I as [I|I].
      * destruct (S20 d I) as [X Y]. split; apply in_or_app; auto.
      * destruct (t_clean _ T (c_prog c) ds [] d eq_refl I) as [X Y]. split; apply in_or_app; auto.
    + eapply proper_mono; [|apply S23]. apply incl_appl, incl_refl.
  - assert (Dd : dead (root_to c (RClean ds) (c_push c) (c_vals c) (c_tasks c) [] []) = dead c).
    { unfold dead. simpl. rewrite app_nil_r. auto. }
    destruct S as [S1 S2 S3 S4 S5 S6 S7 S8 S9 S10 So' S11 Sz S12 Sgt Ss S13 S14 S15 S16 S17 S18 S19 S20 S21 S22 S23].
    assert (Ce : forall s d, c_chan (root_to c (RClean ds) (c_push c) (c_vals c) (c_tasks c) [] []) s d = c_chan c s d).
    { intros s d. simpl. rewrite app_nil_r. destruct (s =? 0); auto. }
    split; rewrite ?Dd; auto.
    + cbn [root_to c_prog]. rewrite filter_app. simpl. rewrite app_nil_r. auto.
    + cbn [root_to c_seen]. rewrite app_nil_r. auto.
    + intros s d. rewrite Ce. auto.
    + intros w. cbn [root_to c_out]. rewrite app_nil_r. auto.
    + intros ds' w. rewrite Ce. cbn [root_to c_seen c_in]. rewrite app_nil_r. auto.
    + intros w q. rewrite Ce. eauto.
    + intros s w ds'. rewrite Ce. eauto.
    + intros w a d v b. rewrite Ce. eauto.
    + intros d I. cbn [root_to c_prog]. rewrite introduced_app. destruct (S20 d I) as [X Y]. split; apply in_or_app; auto.
Qed.

Lemma made_keep c g w d : Sim c g -> made (c_prog g) w d <-> made (c_prog c) w d.
Proof using.
  intros S. rewrite (s_prog _ _ S). split; intros (q & I & O); exists q; split; auto.
  - apply filter_In in I. tauto.
  - apply filter_In. auto.
Qed.

Lemma sim_root c g r : Sim c g -> c_left c = 0 -> keep_op r = true ->
  valid workers (c_prog c ++ [r]) -> tidy (c_prog c ++ [r]) -> returns_enough body (c_prog c ++ [r]) ->
  Sim (root_step workers c r) (root_step workers g r).
Proof using body_ok no_root.
  intros S L0 Kr V T R.
  assert (Pg : c_prog g ++ [r] = filter keep_op (c_prog c ++ [r])).
  { rewrite filter_app, (s_prog _ _ S). simpl. rewrite Kr. auto. }
  assert (Vg : valid workers (c_prog g ++ [r])) by (rewrite Pg; apply keep_valid; auto).
  assert (Tg : neat (c_prog g ++ [r])) by (rewrite Pg; apply keep_neat; auto).
  assert (Rg : returns_enough body (c_prog g ++ [r])) by (rewrite Pg; apply keep_enough; auto).
  assert (Lg : c_left g = 0) by (rewrite (s_left _ _ S); auto).
  assert (Pr : proper (dead c) (root_step workers g r)).
  { destruct (s_proper _ _ S) as [P1 P2 P3 P4 P5 P6]. split; rewrite ?root_prog; auto.
    - apply root_cb; auto.
    - apply root_lr; auto.
    - apply root_ln; auto.
    - destruct (root_shape workers g r) as (p & vals & t & seen & out & want & ids & k & exc & ->). auto. }
  assert (Men : forall d, In d (mentions r) -> ~ In d (dead c)).
  { intros d M D. apply (s_dead _ _ S) in D as [_ D]. apply in_split in D as (x & y & E).
    apply (t_drop _ T x d (y ++ [r]) r); auto; [rewrite E, <- app_assoc; auto | apply in_or_app; simpl; auto]. }
  assert (New : forall d, In d (created r) -> ~ In d (dead c)).
  { intros d M D. apply (s_dead _ _ S) in D as [D _]. assert (N := v_fresh _ _ V). rewrite introduced_app in N.
    apply (nodup_sep _ _ d N D). simpl. rewrite app_nil_r. auto. }
  assert (Mk : forall w d, In d (dead c) -> made (c_prog c ++ [r]) w d -> made (c_prog g) w d).
  { intros w d D M. apply (made_keep c g); auto. eapply made_prefix; [apply V|apply (s_dead _ _ S); auto|eauto]. }
  assert (Px := root_prog workers g r). assert (Px' := root_prog workers c r).
  destruct (root_same workers c g r Kr (s_push _ _ S) (s_vals _ _ S) L0 Lg (s_want _ _ S) (s_ids _ _ S) (s_exc _ _ S))
    as (p & vals & t & t' & seen & out & want & ids & k & exc & Ec & Eg & Sn & Om & Op & Oe & Gi).
  rewrite Ec, Eg in *. clear Ec Eg.
  assert (Dd : dead (set_get (root_to c r p vals t seen out) want ids k exc) = dead c).
  { unfold dead. simpl. rewrite flat_map_app. rewrite <- (app_nil_r (flat_map _ (c_seen c))) at 2. f_equal.
    clear - Sn. induction seen as [|x l IH]; auto. simpl. rewrite IH by (intros; apply Sn; simpl; auto).
    assert (X := Sn x (or_introl eq_refl)). destruct x; auto. discriminate. }
  assert (So : forall w m, In m (sends_to w out) -> keep_msg m = true).
  { intros w m I. apply in_sends in I. eauto. }
  destruct S as [S1 S2 S3 S4 S5 S6 S7 S8 S9 S10 So' S11 Sz S12 Sgt Ss S13 S14 S15 S16 S17 S18 S19 S20 S21 S22 S23].
  split; rewrite ?Dd; auto.
  - cbn [set_get root_to c_seen]. rewrite filter_app, S8, (filter_same _ seen); auto.
  - intros s d. cbn [set_get root_to c_chan]. rewrite S9. destruct (s =? 0); auto.
    rewrite filter_app, (filter_same _ (sends_to d out)); eauto.
  - intros w. cbn [set_get root_to c_out]. rewrite !sends_app, filter_app, So'. f_equal. symmetry. apply filter_same. eauto.
  - intros w W. cbn [set_get root_to c_work c_prog]. eapply rw_ext; [reflexivity| |apply (S12 w W)].
    simpl. intros d D [M|M]; [left|right; exact M]. apply Mk.
    + apply (S17 w). exact D.
    + cbn [set_get root_to c_prog] in M. rewrite Pg in M. destruct M as (q & I & O). apply filter_In in I as [I _]. exists q. auto.
  - intros ds w. cbn [set_get root_to c_seen c_chan c_in]. simpl Nat.eqb. cbn iota. intros I J. apply in_app_or in I as [I|I].
    + destruct (Ss ds w I J); auto. right. apply in_or_app. auto.
    + apply Sn in I. discriminate.
  - intros w q. cbn [set_get root_to c_chan]. simpl Nat.eqb. cbn iota. intros I. apply in_app_or in I as [I|I]; eauto.
    apply in_sends in I. destruct (Oe w q I) as (dest & ->). split; [|split].
    + intros d D. apply Men. simpl. apply in_or_app. auto.
    + intros d D. apply Men. simpl. rewrite D. simpl. auto.
    + intros d D. apply New. auto.
  - intros s w ds. cbn [set_get root_to c_chan]. destruct (Nat.eqb_spec s 0) as [->|]; eauto.
    intros I. apply in_app_or in I as [I|I]; eauto. apply So in I. discriminate.
  - intros w a d v b. cbn [set_get root_to c_chan]. simpl Nat.eqb. cbn iota. intros H. symmetry in H.
    apply app_split in H as [(x & E & _)|(x & -> & H)]; [exact (S18 _ _ _ _ _ E)|].
    assert (Nd : ~ In d (dead c)).
    { apply Men. apply (Op w d v). apply in_sends. rewrite H. apply in_or_app. simpl. auto. }
    split; [intros I; apply Nd; apply (S17 w); exact I|].
    rewrite cleans_app. intros I. apply in_app_or in I as [I|I]; unfold cleans in I; apply in_flat_map in I as (m & I & D).
    + destruct m; try destruct D. apply S16 in I as (_ & _ & I). auto.
    + assert (X : keep_msg m = true) by (apply (So w); rewrite H; apply in_or_app; auto).
      destruct m; try destruct D. discriminate.
  - intros d. cbn [set_get c_left c_ids]. intros Nk I. apply Men, Gi; auto.
  - intros d D. cbn [set_get root_to c_prog]. rewrite introduced_app. destruct (S20 d D). split; apply in_or_app; auto.
Qed.

Lemma apart_sub K q q' : rest_of q' q -> apart K q -> apart K q'.
Proof using. intros (I & F & O) (A & B & C). split; [|split]; rewrite ?F, ?O; auto. Qed.

Lemma sim_ready c g w : Sim c g -> w <> 0 -> ready (c_work g w) = false.
Proof using body_ok.
  intros S W. destruct (s_proper _ _ S) as [V R B L N Rk].
  destruct (worker_agrees workers body body_ok (c_prog g) w (map snd (c_in g w)) (c_work g w) V) as (_ & _ & _ & X & _); auto.
  - intros m I. apply in_map_iff in I as ([s y] & <- & I). eapply cb_in; eauto.
  - apply B; auto.
Qed.

(** A worker takes a cleanup. *)
Lemma sim_take_clean c g s d ds l : Sim c g -> c_chan c s d = WClean ds :: l ->
  Sim (take body c s d) g /\ d <> 0 /\ c_prog (take body c s d) = c_prog c /\
  c_in (take body c s d) = (fun r => if Nat.eqb r d then c_in c r ++ [(s, WClean ds)] else c_in c r) /\
  forall x y, c_chan (take body c s d) x y = drop_head (c_chan c) s d x y.
Proof using body_ok no_root.
  intros S Ch. destruct (s_clean _ _ S s d ds) as (-> & Dw & Id); [rewrite Ch; simpl; auto|].
  assert (D0 : d <> 0) by (intros ->; auto).
  destruct (rw_forget _ _ _ _ _ ds d body no_method plain_fn (s_rw _ _ S d D0) (sim_ready c g d S D0)) as (r1 & St & W & Lg).
  unfold take. rewrite Ch. destruct (Nat.eqb_spec d 0) as [|_]; [tauto|]. rewrite (s_alive _ _ S). simpl orb. cbn iota. rewrite St.
  rewrite Lg, skipn_exact. cbv zeta.
  assert (Cx : forall x y, (if x =? d then drop_head (c_chan c) 0 d x y ++ outgoing d [EvIn (WClean ds)] y else drop_head (c_chan c) 0 d x y)
                 = drop_head (c_chan c) 0 d x y).
  { intros x y. destruct (x =? d); auto. simpl. apply app_nil_r. }
  split; [|split; [auto|split; [auto|split; [auto|exact Cx]]]].
  match goal with |- Sim ?c1 g => set (c' := c1) end.
  assert (Fg : forall w d', In d' (forgot c' w) <-> In d' (if w =? d then ds ++ forgot c w else forgot c w)).
  { intros w d'. unfold forgot, c'. cbn [c_in]. destruct (w =? d); [|tauto].
    rewrite map_app, cleans_app, !in_app_iff. simpl. rewrite app_nil_r. tauto. }
  assert (Cc : forall x y, c_chan c' x y = drop_head (c_chan c) 0 d x y) by exact Cx.
  assert (Dh : forall x y, exists pre, c_chan c x y = pre ++ drop_head (c_chan c) 0 d x y /\ filter keep_msg pre = [] /\
     (x = 0 -> y <> d -> pre = []) /\ (x = 0 -> y = d -> pre = [WClean ds])).
  { intros x y. destruct (Nat.eqb_spec x 0) as [->|Nx]; [destruct (Nat.eq_dec y d) as [->|Ny]|].
    - rewrite (drop_hit _ _ _ _ _ Ch), Ch. exists [WClean ds]. simpl. repeat split; auto. tauto.
    - rewrite drop_keep by congruence. exists []. simpl. repeat split; auto. tauto.
    - rewrite drop_keep by congruence. exists []. simpl. repeat split; auto. intros; congruence. }
  assert (Dd : dead c' = dead c) by reflexivity.
  destruct S as [S1 S2 S3 S4 S5 S6 S7 S8 S9 S10 So' S11 Sz S12 Sgt Ss S13 S14 S15 S16 S17 S18 S19 S20 S21 S22 S23].
  split; rewrite ?Dd; auto.
  - intros x y. rewrite Cc, S9. destruct (Dh x y) as (pre & E & F & _). rewrite E at 1. rewrite filter_app, F. auto.
  - intros w. rewrite S10. unfold c'. cbn [c_in]. destruct (w =? d); auto. rewrite filter_app. simpl. rewrite app_nil_r. auto.
  - intros w W0. unfold c' at 2. cbn [c_work]. destruct (Nat.eqb_spec w d) as [->|Nw].
    + eapply rw_ext; [|intros ? _ X; exact X|exact W]. intros x. rewrite Fg, Nat.eqb_refl. tauto.
    + eapply rw_ext; [|intros ? _ X; exact X|apply S12; auto]. intros x. rewrite Fg. destruct (Nat.eqb_spec w d); tauto.
  - intros w o x W0 I. unfold c'. cbn [c_work]. destruct (Nat.eqb_spec w d) as [->|Nw]; auto.
    rewrite Lg. apply in_or_app. auto.
  - intros ds' w I J. rewrite Cc. unfold c'. cbn [c_in]. destruct (Ss ds' w I J) as [H|H].
    + left. destruct (w =? d); auto. apply in_or_app. auto.
    + destruct (Nat.eqb_spec w d) as [->|Nw].
      * rewrite Ch in H. destruct H as [H|H]; [left|right].
        -- rewrite H. apply in_or_app. simpl. auto.
        -- rewrite (drop_hit _ _ _ _ _ Ch). auto.
      * right. rewrite drop_keep by congruence. auto.
  - intros w q I. rewrite Cc in I. apply in_drop in I. eauto.
  - intros w W0. unfold c'. cbn [c_work]. destruct (Nat.eqb_spec w d) as [->|Nw]; auto.
    rewrite Lg. unfold ended. rewrite flat_map_app. simpl. rewrite app_nil_r. apply S15; auto.
  - intros x w ds' I. rewrite Cc in I. apply in_drop in I. eauto.
  - intros w x I. apply Fg in I. destruct (w =? d); [apply in_app_or in I as [I|I]; auto|]; eapply S17; eauto.
  - intros w a x v b H. rewrite Cc in H. destruct (Dh 0 w) as (pre & E & _ & P1 & P2). rewrite H in E.
    rewrite app_assoc in E. destruct (S18 _ _ _ _ _ E) as [X Y]. rewrite cleans_app in Y. split.
    + intros I. apply Fg in I. destruct (Nat.eqb_spec w d) as [->|Nw]; auto. apply in_app_or in I as [I|I]; auto.
      apply Y. apply in_or_app. left. rewrite (P2 eq_refl eq_refl). simpl. rewrite app_nil_r. auto.
    + intros I. apply Y, in_or_app. auto.
Qed.

(** A worker takes another message. *)
Lemma may_take c g s d m : Sim c g -> d <> 0 -> In m (c_chan g s d) -> may_come (forgot c d) (safe g d) m.
Proof using body_ok.
  intros S D0 I. destruct (s_proper _ _ S) as [V R B L N Rk]. assert (St := ln_stream _ _ N).
  assert (Is := in_stream g St s d m (or_intror I)). assert (Ok := cb_chan _ _ B s d m I).
  destruct m; simpl; auto.
  - assert (I' := I). rewrite (s_chan _ _ S) in I'. apply filter_In in I' as [I' _].
    assert (s = 0).
    { apply stream_cases in Is as [[-> _]|[_ [(? & ? & ? & X & _)|(? & X & _)]]]; auto; discriminate. }
    subst s. destruct (s_exec _ _ S d q I') as (A1 & A2 & A3).
    split; [|split]; intros x X Y; [eapply A1 | eapply A2 | eapply A3]; eauto; apply (s_known _ _ S d); auto.
  - intros _. left. apply (asked_made workers body body_ok g V B L St s d src d0 blocking) in Is. tauto.
  - split; [eapply seq_clean; eauto|]. intros Kd M.
    destruct (Nat.eq_dec s 0) as [->|Ns].
    + assert (I' := I). rewrite (s_chan _ _ S) in I'. apply filter_In in I' as [I' _]. apply in_split in I' as (a & b & E).
      apply (s_fresh _ _ S) in E. tauto.
    + apply stream_cases in Is as [[-> _]|[_ [(x & y & b & X & P)|(? & X & _)]]]; try discriminate; [tauto|]. injection X as <- <-.
      destruct (answer_made workers body body_ok g V B L St s d d0 v b Ns P) as (M' & _ & b' & A).
      assert (Y := in_stream g St d s (WGet d d0 b') (or_introl A)).
      apply stream_cases in Y as [[-> _]|[_ [(? & ? & ? & Y & _)|(y & Y & G)]]]; try discriminate; [tauto|]. injection Y as <- _.
      destruct M as [M|M]; [|apply (M s G)].
      assert (s = d) by (eapply made_unique; eauto; apply V). subst s.
      apply (get_made workers body body_ok g V B L St) in G; tauto.
  - apply stream_cases in Is as [[-> Is]|[_ [(? & ? & ? & X & _)|(? & X & _)]]]; try discriminate.
    apply (lr_msgs _ _ L) in Is. exact Is.
Qed.

Lemma sim_take c g s d m l : Sim c g -> c_chan c s d = m :: l -> keep_msg m = true -> d <> 0 ->
  exists g', Sim (take body c s d) g' /\ c_prog (take body c s d) = c_prog c /\ c_out g' = c_out g /\
  c_in (take body c s d) = (fun r => if Nat.eqb r d then c_in c r ++ [(s, m)] else c_in c r) /\
  forall y, c_chan (take body c s d) 0 y = drop_head (c_chan c) s d 0 y.
Proof using body_ok no_root.
  intros S Ch Km D0.
  assert (Cg : c_chan g s d = m :: filter keep_msg l) by (rewrite (s_chan _ _ S), Ch; simpl; rewrite Km; auto).
  assert (Mc : may_come (forgot c d) (safe g d) m) by (apply (may_take c g s); auto; rewrite Cg; simpl; auto).
  destruct (delivered_now workers body body_ok no_root g s d m _ (s_proper _ _ S) Cg) as (Gi & Gp & Go & Pr).
  unfold deliver_op in *. destruct (Nat.eqb_spec d 0) as [|_]; [tauto|]. cbn [ClusterModel.cstep] in *.
  assert (Al := ln_alive _ _ (pr_ln _ _ _ Pr) d).
  assert (Ap : Forall (apart (forgot c d)) (pend (c_work g d))).
  { eapply Forall_impl; [|apply (s_pend _ _ S d D0)]. intros q (A1 & A2 & A3). assert (Kn := s_known _ _ S d).
    split; [|split]; intros x X Y; [eapply A1 | eapply A2 | eapply A3]; eauto. }
  assert (Stp := rw_step (forgot c d) (safe g d) d body no_method plain_fn body_ok no_method_ok (c_work c d) (c_work g d) m
                  (s_rw _ _ S d D0) Ap Mc (sim_ready c g d S D0)).
  unfold take in *. rewrite Ch, Cg in *. destruct (Nat.eqb_spec d 0) as [|_]; [tauto|].
  rewrite (s_alive _ _ S). rewrite (ln_alive _ _ (pr_ln _ _ _ (s_proper _ _ S))) in *. cbn [orb] in *. cbn iota in *.
  destruct (wstep d body no_method plain_fn (c_work g d) m) as [g1|] eqn:Sg; [|simpl in Al; rewrite Nat.eqb_refl in Al; discriminate].
  destruct (wstep d body no_method plain_fn (c_work c d) m) as [r1|] eqn:Sr; [|destruct Stp].
  destruct Stp as [(W & nr & ng & Lr & Lg & F) Fr]. rewrite Lr, Lg in *. rewrite !skipn_exact in *. cbv zeta in *.
  match goal with |- exists g', Sim ?c1 g' /\ _ => set (c' := c1) end.
  match type of Pr with ClusterEnd.proper _ _ ?t => set (tg := t) in * end.
  assert (Fd : forall x y, filter keep_msg (drop_head (c_chan c) s d x y) = drop_head (c_chan g) s d x y).
  { intros x y. unfold drop_head. destruct (Nat.eqb_spec x s) as [->|]; [destruct (Nat.eqb_spec y d) as [->|]|]; cbn [andb].
    - rewrite Ch, Cg. reflexivity.
    - symmetry. apply (s_chan _ _ S).
    - symmetry. apply (s_chan _ _ S). }
  assert (Cc : forall x y, c_chan c' x y = if x =? d then drop_head (c_chan c) s d x y ++ outgoing d nr y else drop_head (c_chan c) s d x y)
    by reflexivity.
  assert (Ct : forall x y, c_chan tg x y = if x =? d then drop_head (c_chan g) s d x y ++ outgoing d ng y else drop_head (c_chan g) s d x y)
    by reflexivity.
  assert (Cf : forall x y, filter keep_msg (c_chan c' x y) = if x =? d then drop_head (c_chan g) s d x y ++ outgoing d nr y else drop_head (c_chan g) s d x y).
  { intros x y. rewrite Cc. destruct (x =? d); rewrite ?filter_app, ?keep_outgoing, ?Fd; auto. }
  assert (C0 : forall y, c_chan c' 0 y = drop_head (c_chan c) s d 0 y).
  { intros y. rewrite Cc. destruct (Nat.eqb_spec 0 d); auto. congruence. }
  exists (with_chan tg (fun x y => filter keep_msg (c_chan c' x y))).
  split; [|split; [auto|split; [auto|split; [auto|exact C0]]]].
  assert (Fg : forall w, forgot c' w = forgot c w).
  { intros w. unfold forgot, c'. cbn [c_in]. destruct (w =? d); auto. rewrite map_app, cleans_app.
    destruct m; try discriminate Km; simpl; rewrite app_nil_r; auto. }
  assert (Dd : dead c' = dead c) by reflexivity.
  assert (Th : proper (dead c) (with_chan tg (fun x y => filter keep_msg (c_chan c' x y)))).
  { apply thin_proper; auto.
    - intros y. rewrite Cf, Ct. destruct (Nat.eqb_spec 0 d); auto. congruence.
    - intros x y. rewrite Cf, Ct. destruct (x =? d); [|apply lossy_refl]. apply lossy_app; [apply lossy_refl|].
      eapply lossy_mono; [|apply fewer_out, F]. simpl. intros z. apply (s_known _ _ S d). }
  assert (Pd : Forall (apart (dead c)) (pend g1)).
  { apply Forall_forall. intros q' I. destruct (Fr q' I) as (q & Iq & Rq). apply (apart_sub _ q); auto.
    apply in_app_or in Iq as [Iq|Iq].
    - assert (X := s_pend _ _ S d D0). rewrite Forall_forall in X. auto.
    - destruct m; simpl in Iq; try tauto. destruct Iq as [<-|[]].
      assert (X := in_stream g (ln_stream _ _ (pr_ln _ _ _ (s_proper _ _ S))) s d (WExec q0)).
      assert (s = 0).
      { assert (Y : In (WExec q0) (stream g s d)) by (apply X; right; rewrite Cg; simpl; auto).
        apply stream_cases in Y as [[-> _]|[_ [(? & ? & ? & Y & _)|(? & Y & _)]]]; auto; discriminate. }
      subst s. apply (s_exec _ _ S d). rewrite Ch. simpl. auto. }
  clear Gi Gp Go Pr Al Fr.
  destruct S as [S1 S2 S3 S4 S5 S6 S7 S8 S9 S10 So' S11 Sz S12 Sgt Ss S13 S14 S15 S16 S17 S18 S19 S20 S21 S22 S23].
  split; rewrite ?Dd; auto.
  - intros w. unfold c'. cbn [with_chan c_in tg]. rewrite S10. destruct (w =? d); auto. rewrite filter_app.
    simpl. unfold keep_in at 3. simpl. rewrite Km. auto.
  - unfold tg. cbn [with_chan c_work]. destruct (Nat.eqb_spec 0 d); [congruence|auto].
  - intros w W0. rewrite Fg. unfold safe, c', tg. cbn [with_chan c_work c_prog]. destruct (Nat.eqb_spec w d) as [->|Nw]; [|exact (S12 w W0)].
    eapply rw_ext; [reflexivity| |exact W]. intros x _ [M|M]; [left; auto|right]. intros o O. apply (M o). rewrite Lg. apply in_or_app. auto.
  - intros w o x W0. unfold c', tg. cbn [with_chan c_work]. destruct (Nat.eqb_spec w d) as [->|Nw]; auto.
    rewrite Lr, Lg. intros I. apply in_or_app. apply in_app_or in I as [I|I]; auto. right. clear - F I.
    induction F; simpl in *; auto; [tauto|]. destruct I as [I|I]; auto. discriminate.
  - intros ds w I J. rewrite C0. unfold c'. cbn [c_in]. destruct (Ss ds w I J) as [H|H].
    + left. destruct (w =? d); auto. apply in_or_app. auto.
    + destruct (Nat.eqb_spec s 0) as [->|Ns]; [destruct (Nat.eq_dec w d) as [->|Nw]|].
      * rewrite Ch in H. destruct H as [H|H]; [subst m; discriminate|]. right. rewrite (drop_hit _ _ _ _ _ Ch). auto.
      * right. rewrite drop_keep by congruence. auto.
      * right. rewrite drop_keep by congruence. auto.
  - intros w W0. unfold tg. cbn [with_chan c_work]. destruct (Nat.eqb_spec w d) as [->|Nw]; auto.
  - intros w q I. rewrite C0 in I. apply in_drop in I. eauto.
  - intros w W0. unfold c', tg. cbn [with_chan c_work]. destruct (Nat.eqb_spec w d) as [->|Nw]; auto.
    rewrite Lr, Lg. unfold ended. rewrite !flat_map_app. f_equal; [apply S15; auto | apply (fewer_ended _ _ _ F)].
  - intros x w ds I. assert (J : In (WClean ds) (drop_head (c_chan c) s d x w)).
    { rewrite Cc in I. destruct (x =? d); auto. apply in_app_or in I as [I|I]; auto.
      apply in_outgoing in I as [(? & ? & ? & I & _)|(? & I & _)]; discriminate. }
    apply in_drop in J. eauto.
  - intros w. rewrite Fg. apply S17.
  - intros w a x v b H. rewrite Fg. rewrite C0 in H.
    destruct (Nat.eqb_spec s 0) as [->|Ns]; [destruct (Nat.eq_dec w d) as [->|Nw]|].
    + rewrite (drop_hit _ _ _ _ _ Ch) in H. rewrite H in Ch. change (m :: a ++ WPut x v :: b) with ((m :: a) ++ WPut x v :: b) in Ch.
      apply S18 in Ch as [X Y]. split; auto. intros I. apply Y. unfold cleans. simpl. apply in_or_app. auto.
    + rewrite drop_keep in H by congruence. eauto.
    + rewrite drop_keep in H by congruence. eauto.
Qed.

(** The root takes a reply. *)
Lemma sim_no_clean c g s : Sim c g -> filter keep_msg (c_chan c s 0) = c_chan c s 0.
Proof using no_root.
  intros S. apply filter_same. intros m I. destruct m; auto. apply (s_clean _ _ S) in I. tauto.
Qed.

Lemma sim_reply c g s : Sim c g -> Sim (reply c s) (reply g s).
Proof using body_ok no_root.
  intros S. assert (F := sim_no_clean c g s S). assert (Cs := s_chan _ _ S s 0). rewrite F in Cs.
  assert (Pr : proper (dead c) (reply g s)).
  { destruct (s_proper _ _ S) as [P1 P2 P3 P4 P5 P6]. assert (Ep : c_prog (reply g s) = c_prog g).
    { unfold reply. destruct (c_left g); auto. destruct (c_chan g s 0) as [|[]]; auto. }
    split; rewrite ?Ep; auto.
    - apply reply_cb; auto.
    - apply (reply_lr (Lost := fun d => In d (dead c)) workers body); auto.
    - apply reply_ln; auto.
    - intros w. unfold reply. destruct (c_left g); auto. destruct (c_chan g s 0) as [|[]]; auto. cbn [c_in].
      destruct (Nat.eqb_spec w 0) as [->|]; auto. intros _. simpl. auto. }
  unfold reply in *. rewrite (s_left _ _ S), Cs in *.
  destruct (c_left c) as [|k] eqn:Lf; [auto|]. destruct (c_chan c s 0) as [|m l] eqn:Ch; [auto|]. destruct m; auto.
  rewrite (s_vals _ _ S), (s_exc _ _ S), (s_ids _ _ S), (s_want _ _ S), (s_push _ _ S) in *.
  cbv zeta in *.
  match goal with |- Sim ?c1 ?g1 => set (c' := c1); set (g' := g1) end. change (proper (dead c) g') in Pr.
  match goal with c' := {| c_seen := c_seen c ++ ?x |} |- _ => set (sn := x) in * end.
  assert (Ks : filter keep_sight sn = sn /\ flat_map (fun x => match x with RCleaned ds => ds | _ => [] end) sn = []).
  { unfold sn. destruct (did_in d (c_ids c)); [|split; reflexivity]. destruct k; [|split; reflexivity].
    destruct (match c_exc c, v with None, VExc e => Some e | x, _ => x end); [split; reflexivity|].
    unfold got. destruct (read_vals _ _); split; reflexivity. }
  destruct Ks as [Ks Ks'].
  assert (Dd : dead c' = dead c) by (unfold dead, c'; cbn [c_seen]; rewrite flat_map_app, Ks', app_nil_r; auto).
  assert (Fg : forall w, forgot c' w = forgot c w).
  { intros w. unfold forgot, c'. cbn [c_in]. destruct (w =? 0); auto. rewrite map_app, cleans_app. simpl. rewrite app_nil_r. auto. }
  assert (C0 : forall y, y <> 0 -> forall x, c_chan c' x y = c_chan c x y).
  { intros y Y x. unfold c'. cbn [c_chan]. apply drop_keep. congruence. }
  destruct S as [S1 S2 S3 S4 S5 S6 S7 S8 S9 S10 So' S11 Sz S12 Sgt Ss S13 S14 S15 S16 S17 S18 S19 S20 S21 S22 S23].
  split; rewrite ?Dd; auto.
  - unfold c', g'. cbn [c_seen]. rewrite filter_app, Ks, S8. auto.
  - intros x y. unfold c', g'. cbn [c_chan]. unfold drop_head. destruct (Nat.eqb_spec x s) as [->|]; [destruct (Nat.eqb_spec y 0) as [->|]|]; cbn [andb]; auto.
    rewrite Cs, Ch in *. simpl in F. simpl. congruence.
  - intros w. unfold c', g'. cbn [c_in]. rewrite S10. destruct (w =? 0); auto. rewrite filter_app. auto.
  - intros w W0. rewrite Fg. apply (S12 w W0).
  - intros ds w I J. rewrite C0 by (intros ->; auto). unfold c' in *. cbn [c_in c_seen] in *.
    apply in_app_or in I as [I|I].
    + destruct (Ss ds w I J) as [H|H]; auto. left. destruct (w =? 0); auto. apply in_or_app. auto.
    + rewrite <- Ks in I. apply filter_In in I as [_ I]. discriminate.
  - intros w q I. unfold c' in I. cbn [c_chan] in I. apply in_drop in I. eauto.
  - intros x w ds I. unfold c' in I. cbn [c_chan] in I. apply in_drop in I. eauto.
  - intros w. rewrite Fg. apply S17.
  - intros w a x y b H. rewrite Fg. unfold c' in H. cbn [c_chan] in H. unfold drop_head in H.
    destruct (Nat.eqb_spec 0 s) as [<-|]; [destruct (Nat.eqb_spec w 0) as [->|]|]; cbn [andb] in H; eauto.
    rewrite Ch in H. simpl in H. rewrite H in Ch. change (WPut d v :: a ++ WPut x y :: b) with ((WPut d v :: a) ++ WPut x y :: b) in Ch.
    apply S18 in Ch. exact Ch.
  - intros x X. apply S19. lia.
Qed.

Lemma sim_done c g s : Sim c g -> Sim (done workers c s) g.
Proof using.
  intros S. unfold done. destruct (c_done c s); auto.
  destruct S as [S1 S2 S3 S4 S5 S6 S7 S8 S9 S10 So' S11 Sz S12 Sgt Ss S13 S14 S15 S16 S17 S18 S19 S20 S21 S22 S23]. split; auto.
Qed.

(** ** Runs *)
Lemma run_sim mgr ops : valid workers (c_prog (crun mgr ops)) -> tidy (c_prog (crun mgr ops)) ->
  returns_enough body (c_prog (crun mgr ops)) -> exists g, Sim (crun mgr ops) g.
Proof using body_ok no_root no_dup.
  induction ops as [|o ops IH] using rev_ind; intros V T R.
  - exists (cinit mgr). apply sim_init; auto.
  - assert (V0 := valid_before workers body mgr ops o V). rewrite crun_snoc in *.
    destruct (prog_grows workers body (crun mgr ops) o) as (l & G).
    assert (T0 : tidy (c_prog (crun mgr ops))) by (rewrite G in T; eapply tidy_prefix; eauto).
    assert (R0 : returns_enough body (c_prog (crun mgr ops))) by (rewrite G in R; eapply enough_prefix; eauto).
    assert (B := run_cb workers body body_ok mgr ops V0). assert (K := run_ck workers body body_ok no_dup mgr ops V0).
    destruct (IH V0 T0 R0) as [g S]. clear IH G l. set (c := crun mgr ops) in *. clearbody c.
    destruct o as [r|s d|s|s]; cbn [ClusterModel.cstep] in *.
    + destruct (c_left c) eqn:Lf; eauto. rewrite root_prog in V, T, R. destruct (keep_op r) eqn:Kr.
      * exists (root_step workers g r). apply sim_root; auto.
      * destruct r; try discriminate. exists g. apply sim_root_clean; auto.
    + destruct (c_chan c s d) as [|m l] eqn:Ch; [unfold take; rewrite Ch; eauto|].
      destruct (Nat.eq_dec d 0) as [->|D0]; [unfold take; rewrite Ch; eauto|].
      destruct (keep_msg m) eqn:Km.
      * destruct (sim_take c g s d m l S Ch Km D0) as (g' & S' & _). eauto.
      * destruct m; try discriminate. exists g. eapply sim_take_clean; eauto.
    + exists (reply g s). apply sim_reply; auto.
    + exists g. apply sim_done; auto.
Qed.

(** C60. *)
Lemma cleaned_gone mgr ops : valid workers (c_prog (crun mgr ops)) -> tidy (c_prog (crun mgr ops)) ->
  returns_enough body (c_prog (crun mgr ops)) ->
  let c := crun mgr ops in
  idle c -> forall ds d w, In (RCleaned ds) (c_seen c) -> In d ds -> In w workers -> store (c_work c w) d <> None ->
  ~ made (c_prog c) w d /\ exists o, In (EvGet o d) (log (c_work c w)).
Proof using body_ok no_root no_dup.
  cbv zeta. intros V T R I ds d w Sn D W St. destruct (run_sim mgr ops V T R) as (g & S).
  assert (W0 : w <> 0) by (intros ->; auto).
  assert (F : In d (forgot (crun mgr ops) w)).
  { destruct (s_sent _ _ S ds w Sn W) as [H|H]; [|rewrite I in H; destruct H].
    unfold forgot, cleans. apply in_flat_map. exists (WClean ds). split; auto. apply in_map_iff. exists (0, WClean ds). auto. }
  assert (G : forall s, safe g w s -> s = d -> False).
  { intros s Sf ->. apply St. eapply rw_gone; [apply (s_rw _ _ S w W0)| |]; eauto. }
  split.
  - intros M. apply (G d); auto. left. apply (made_keep _ _ _ _ S). auto.
  - destruct (existsb (fun e => match e with EvGet _ x => did_eqb x d | _ => false end) (log (c_work g w))) eqn:X.
    + apply existsb_exists in X as (e & Ie & E). destruct e; try discriminate. apply did_eqb_eq in E as ->.
      eexists. eapply s_gets; eauto.
    + exfalso. apply (G d); auto. right. intros o O. assert (Y : existsb (fun e => match e with EvGet _ x => did_eqb x d | _ => false end) (log (c_work g w)) = true).
      { apply existsb_exists. eexists. split; [exact O|]. apply did_eqb_refl. }
      congruence.
Qed.

(** The root forgets what has died. *)
Lemma root_forgets mgr ops : valid workers (c_prog (crun mgr ops)) -> tidy (c_prog (crun mgr ops)) ->
  returns_enough body (c_prog (crun mgr ops)) ->
  forall a d b, c_prog (crun mgr ops) = a ++ RDrop d :: b -> In d (introduced a) -> c_vals (crun mgr ops) d = None.
Proof using body_ok no_root no_dup.
  induction ops as [|o ops IH] using rev_ind; intros V T R a d b E In0.
  - destruct a; discriminate.
  - assert (V0 := valid_before workers body mgr ops o V). rewrite crun_snoc in *.
    destruct (prog_grows workers body (crun mgr ops) o) as (l & G).
    assert (T0 : tidy (c_prog (crun mgr ops))) by (rewrite G in T; eapply tidy_prefix; eauto).
    assert (R0 : returns_enough body (c_prog (crun mgr ops))) by (rewrite G in R; eapply enough_prefix; eauto).
    destruct (run_sim mgr ops V0 T0 R0) as (g & S). specialize (IH V0 T0 R0).
    set (c := crun mgr ops) in *. clearbody c. clear G l.
    destruct o as [r|s w|s|s]; cbn [ClusterModel.cstep] in *.
    + destruct (c_left c) eqn:Lf; [|eapply IH; eauto]. rewrite root_prog in V, T, E.
      assert (Old : (exists b', c_prog c = a ++ RDrop d :: b') \/ (r = RDrop d /\ a = c_prog c)).
      { symmetry in E. apply app_split in E as [(t & E & _)|(t & -> & E)]; [left; eauto|].
        destruct t as [|x t]; simpl in E; [|destruct t; discriminate]. right. rewrite app_nil_r. split; congruence. }
      assert (Dead : r <> RDrop d -> ~ In d (created r) -> c_vals (root_step workers c r) d = c_vals c d).
      { intros N Nc. destruct r; cbn [root_step]; cbv zeta; try reflexivity.
        - cbn [root_to c_vals]. apply dput_other. intros ->. apply Nc. simpl. auto.
        - destruct (filter _ _); [reflexivity|]. destruct (owners _ _); reflexivity.
        - cbn [root_to c_vals]. apply ddel_other. congruence.
        - destruct (_ =? _); reflexivity. }
      destruct Old as [(b' & Eo)|[-> ->]].
      * destruct (did_dec d d) as [_|]; [|tauto].
        assert (Nc : ~ In d (created r)).
        { intros I. assert (N := v_fresh _ _ V). rewrite introduced_app in N. apply (nodup_sep _ _ d N).
          - rewrite Eo, introduced_app. apply in_or_app. auto.
          - simpl. rewrite app_nil_r. auto. }
        assert (Dr : r = RDrop d \/ r <> RDrop d).
        { destruct r; try (right; discriminate). destruct (did_dec d0 d) as [->|]; [auto|right; congruence]. }
        destruct Dr as [->|Dr]; [|rewrite Dead; auto; eapply IH; eauto].
        cbn [root_step root_to c_vals]. apply ddel_same.
      * cbn [root_step root_to c_vals]. apply ddel_same.
    + assert (Ep : c_prog (take body c s w) = c_prog c /\ c_vals (take body c s w) = c_vals c).
      { unfold take. destruct (c_chan c s w); auto. destruct (_ || _); auto. destruct (wstep _ _ _ _ _ _); auto. }
      destruct Ep as [Ep Ev]. rewrite Ep in E. rewrite Ev. eapply IH; eauto.
    + assert (S' := sim_reply c g s S). assert (Ne := lr_noerr _ _ (pr_lr _ _ _ (s_proper _ _ S'))). rewrite (s_seen _ _ S') in Ne.
      revert E Ne. unfold reply. destruct (c_left c) eqn:Lf; [intros; eapply IH; eauto|].
      destruct (c_chan c s 0) as [|[]]; try (intros; eapply IH; eauto; fail). cbn [c_prog c_vals c_seen]. intros E Ne.
      assert (Id : did_in d0 (c_ids c) = true).
      { destruct (did_in d0 (c_ids c)); auto. exfalso. apply Ne. apply filter_In. split; auto. apply in_or_app. simpl. auto. }
      apply did_in_In in Id. assert (Lg : c_left g <> 0) by (rewrite (s_left _ _ S), Lf; discriminate).
      destruct (lr_ids _ _ (pr_lr _ _ _ (s_proper _ _ S)) Lg) as [_ X]. rewrite (s_ids _ _ S), (s_prog _ _ S) in X.
      destruct (X d0 Id) as [Nd _]. rewrite dput_other; [eapply IH; eauto|]. intros ->. apply Nd.
      apply filter_In. split; auto. rewrite E. apply in_or_app. simpl. auto.
    + assert (Ep : c_prog (done workers c s) = c_prog c /\ c_vals (done workers c s) = c_vals c).
      { unfold done. destruct (c_done c s); auto. }
      destruct Ep as [Ep Ev]. rewrite Ep in E. rewrite Ev. eapply IH; eauto.
Qed.

(** C51. *)
Lemma sim_noerr c g : Sim c g -> ~ In RError (c_seen c).
Proof using.
  intros S I. apply (lr_noerr _ _ (pr_lr _ _ _ (s_proper _ _ S))). rewrite (s_seen _ _ S). apply filter_In. auto.
Qed.

Lemma sim_idle c g : Sim c g -> idle c -> c_left c = 0 /\
  forall dest q, In (RSubmit dest q) (c_prog c) -> In (q_id q) (ended (log (c_work c dest))).
Proof using body_ok no_root.
  intros S I. assert (Ig : idle g) by (intros s d; rewrite (s_chan _ _ S), I; auto).
  destruct (s_proper _ _ S) as [V R B L [N1 N2 N3] Rk].
  assert (Nd : forall w q d, In q (pend (c_work g w)) \/ In q (apend (c_work g w)) -> In d (qrefs q) -> ~ In d (dead c)).
  { intros w q d Q D. destruct (Nat.eq_dec w 0) as [->|W]; [rewrite (s_zero _ _ S) in Q; simpl in Q; tauto|].
    rewrite (rw_apend' _ _ _ _ _ (s_rw _ _ S w W)) in Q. destruct Q as [Q|[]].
    assert (X := s_pend _ _ S w W). rewrite Forall_forall in X. exact (proj1 (X q Q) d D). }
  assert (Wn : forall d, c_left g <> 0 -> In d (c_ids g) -> ~ In d (dead c)).
  { intros d. rewrite (s_left _ _ S), (s_ids _ _ S). apply S. }
  split.
  - rewrite <- (s_left _ _ S). eapply (get_ended (Lost := fun d => In d (dead c))); eauto.
  - intros dest q Iq.
    assert (D0 : dest <> 0).
    { intros ->. apply no_root. apply in_split in Iq as (a & b & E). apply (v_sub _ _ (s_valid _ _ S) a 0 q b E). }
    rewrite (s_ended _ _ S dest D0).
    assert (Ig' : In (RSubmit dest q) (c_prog g)) by (rewrite (s_prog _ _ S); apply filter_In; auto).
    apply in_split in Ig' as (a & b & E).
    exact (all_ended (Lost := fun d => In d (dead c)) workers body body_ok no_root g V R B L N2 N3 Ig Nd (Datatypes.S (length a)) a dest q b (le_n _) E).
Qed.

Lemma nothing_stuck mgr ops : valid workers (c_prog (crun mgr ops)) -> tidy (c_prog (crun mgr ops)) ->
  returns_enough body (c_prog (crun mgr ops)) ->
  let c := crun mgr ops in
  (forall w, c_dead c w = false) /\ ~ In RError (c_seen c) /\
  (idle c -> c_left c = 0 /\ forall dest q, In (RSubmit dest q) (c_prog c) -> In (q_id q) (ended (log (c_work c dest)))).
Proof using body_ok no_root no_dup.
  cbv zeta. intros V T R. destruct (run_sim mgr ops V T R) as (g & S).
  split; [apply S|]. split; [eapply sim_noerr; eauto | eapply sim_idle; eauto].
Qed.

(** C36: a cleanup is possible when everything is over. *)
Lemma cleanup_possible mgr ops ds : valid workers (c_prog (crun mgr ops)) -> tidy (c_prog (crun mgr ops)) ->
  returns_enough body (c_prog (crun mgr ops)) ->
  let c := crun mgr ops in
  idle c -> (forall w, In w workers -> c_done c w = []) ->
  c_seen (cstep c (CRoot (RClean ds))) = c_seen c ++ [RCleaned ds].
Proof using body_ok no_root no_dup.
  cbv zeta. intros V T R I Dn. destruct (run_sim mgr ops V T R) as (g & S).
  assert (B := run_cb workers body body_ok mgr ops V). assert (K := run_ck workers body body_ok no_dup mgr ops V).
  set (c := crun mgr ops) in *. clearbody c. destruct (sim_idle c g S I) as [L0 En].
  assert (Sm : forall w, In w workers -> length (requests (sends_to w (c_out c))) = length (reports (log (c_work c w)))).
  { intros w W. assert (W0 : w <> 0) by (intros ->; auto). destruct (worker_counts workers body body_ok c w B V W0) as (A & P & _).
    apply Nat.le_antisymm.
    - rewrite A.
      assert (Rq : requests (sends_to w (c_out c)) = map snd (filter (fun p => fst p =? w) (submitted (c_prog c)))).
      { rewrite <- keep_submitted, <- (s_prog _ _ S), <- (lr_reqs _ _ (pr_lr _ _ _ (s_proper _ _ S))), (s_out _ _ S).
        unfold requests. generalize (sends_to w (c_out c)). clear. induction l as [|m l IH]; auto.
        destruct m; simpl; rewrite ?IH; auto. }
      rewrite Rq, <- (map_length q_id). rewrite map_map. apply NoDup_incl_length.
      + assert (N := v_ids _ _ V). clear - N. induction (submitted (c_prog c)) as [|p l IH]; simpl; [constructor|].
        simpl in N. inversion N; subst. destruct (fst p =? w); auto. simpl. constructor; auto.
        intros X. apply H1. apply in_map_iff in X as (x & E & X). apply filter_In in X as [X _]. apply in_map_iff. eauto.
      + intros x X. apply in_map_iff in X as ([w' q] & <- & X). apply filter_In in X as [X Y]. simpl in Y. apply Nat.eqb_eq in Y as ->.
        apply En. apply in_submitted. auto.
    - apply Permutation_length in P. rewrite map_length, app_length in P.
      destruct (ck_sent _ _ K w) as (lost & Q). apply Permutation_length in Q. rewrite !app_length in Q. lia. }
  assert (Eq : mcount (c_mon c) = c_tasks c).
  { rewrite <- (ck_tasks _ _ K). assert (X := ck_count _ _ K).
    assert (Z : sumf (fun w => length (c_done c w)) workers = 0).
    { clear - Dn. induction workers as [|x l IH]; auto. unfold sumf in *. simpl. rewrite Dn by (simpl; auto). simpl. apply IH. intros; apply Dn; simpl; auto. }
    rewrite Z, Nat.add_0_r in X. rewrite X. clear - Sm. induction workers as [|x l IH]; auto. unfold sumf in *. simpl.
    rewrite Sm by (simpl; auto). f_equal. apply IH. intros; apply Sm; simpl; auto. }
  simpl. rewrite L0, Eq, Nat.eqb_refl. reflexivity.
Qed.

(** Cleanups under way. *)
Definition backlog (c : cst) : nat := sumf (fun w => length (filter (fun m => negb (keep_msg m)) (c_chan c 0 w))) workers.

Lemma sim_deliver c g s d m l : Sim c g -> c_chan c s d = m :: l ->
  let c' := cstep c (deliver_op s d) in
  c_in c' = (fun r => if Nat.eqb r d then c_in c r ++ [(s, m)] else c_in c r) /\ c_prog c' = c_prog c /\
  (forall y, c_chan c' 0 y = drop_head (c_chan c) s d 0 y) /\
  (exists g', Sim c' g' /\ c_out g' = c_out g) /\ In d (0 :: workers) /\ (keep_msg m = false -> s = 0 /\ In d workers).
Proof using body_ok no_root.
  cbv zeta. intros S Ch. unfold deliver_op.
  assert (Dw : In d (0 :: workers)).
  { destruct (keep_msg m) eqn:Km.
    - apply (chan_ranks workers body body_ok g s d m (s_proper _ _ S)).
      apply (in_stream g (ln_stream _ _ (pr_ln _ _ _ (s_proper _ _ S)))). right. rewrite (s_chan _ _ S), Ch. simpl. rewrite Km. simpl. auto.
    - destruct m; try discriminate. right. apply (s_clean _ _ S s d ds). rewrite Ch. simpl. auto. }
  destruct (Nat.eqb_spec d 0) as [->|D0]; cbn [ClusterModel.cstep].
  - assert (Km : keep_msg m = true).
    { destruct m; auto. destruct (s_clean _ _ S s 0 ds) as (_ & X & _); [rewrite Ch; simpl; auto | tauto]. }
    assert (Cg : c_chan g s 0 = m :: l) by (rewrite (s_chan _ _ S), (sim_no_clean c g s S); auto).
    destruct (replied_now workers body body_ok no_root g s m l (s_proper _ _ S) Cg) as (Ei & Ep & Eo).
    assert (S' := sim_reply c g s S).
    assert (Pm : exists x v k, m = WPut x v /\ c_left c = Datatypes.S k).
    { assert (Y := f_equal (fun f => length (f 0)) Ei). unfold reply in Y. rewrite Cg, (s_left _ _ S) in Y. simpl in Y.
      rewrite app_length in Y. simpl in Y.
      destruct (c_left c); [lia|]. destruct m; simpl in Y; try lia. eauto. }
    destruct Pm as (x & v & k & -> & Lf).
    split; [|split; [|split; [|split; [|split]]]]; auto; try (unfold reply; rewrite Lf, Ch; reflexivity).
    + exists (reply g s). auto.
    + discriminate.
  - destruct (keep_msg m) eqn:Km.
    + destruct (sim_take c g s d m l S Ch Km D0) as (g' & S' & Ep & Eo & Ei & Ec).
      split; auto. split; auto. split; auto. split; [eauto|]. split; auto. discriminate.
    + destruct m as [| | | | |ds| |]; try discriminate.
      destruct (sim_take_clean c g s d ds l S Ch) as (S' & _ & Ep & Ei & Ec).
      split; auto. split; auto. split; auto. split; [eauto|]. split; auto.
      intros _. destruct (s_clean _ _ S s d ds) as (X & Y & _); [rewrite Ch; simpl; auto | auto].
Qed.

Lemma ends c g : Sim c g -> Acc (fun y x => delivery workers body x y) c.
Proof using body_ok no_root no_dup.
  intros S. remember (limit workers g - amount workers g + backlog c) as n eqn:En.
  revert c g S En. induction n as [n IH] using lt_wf_ind. intros c g S En.
  constructor. intros c' (s & d & m & l & Ch & ->).
  destruct (sim_deliver c g s d m l S Ch) as (Ei & Ep & Ec & (g' & S' & Eo) & Dw & Kc). fold (deliver_op s d).
  set (c' := cstep c (deliver_op s d)) in *. clearbody c'.
  assert (Lm : limit workers g' = limit workers g).
  { unfold limit. rewrite Eo, (s_prog _ _ S), (s_prog _ _ S'), Ep. auto. }
  assert (A' := amount_limit workers body body_ok g' (s_proper _ _ S')).
  assert (A0 := amount_limit workers body body_ok g (s_proper _ _ S)).
  assert (Nd : NoDup (0 :: workers)) by (constructor; auto).
  assert (Am : amount workers g' = if keep_msg m then Datatypes.S (amount workers g) else amount workers g).
  { assert (H : amount workers g' + length (c_in g d) = amount workers g + length (c_in g' d)).
    { unfold amount. apply (sum_one (fun w => length (c_in g w)) (fun w => length (c_in g' w))); auto. intros x X. rewrite (s_in _ _ S), (s_in _ _ S'), Ei.
      destruct (Nat.eqb_spec x d); [tauto|auto]. }
    rewrite (s_in _ _ S'), (s_in _ _ S d), Ei, Nat.eqb_refl, filter_app, app_length in H. simpl in H.
    unfold keep_in at 3 in H. simpl in H. destruct (keep_msg m); simpl in H; lia. }
  assert (Bk : if keep_msg m then backlog c' = backlog c else backlog c' < backlog c).
  { destruct (keep_msg m) eqn:Km.
    - unfold backlog. apply sumf_ext. intros x _. rewrite Ec. unfold drop_head.
      destruct (Nat.eqb_spec 0 s) as [<-|]; [destruct (Nat.eqb_spec x d) as [->|]|]; cbn [andb]; auto.
      rewrite Ch. simpl. rewrite Km. auto.
    - destruct (Kc eq_refl) as [-> Dw'].
      assert (H : backlog c' + length (filter (fun m => negb (keep_msg m)) (c_chan c 0 d)) =
                  backlog c + length (filter (fun m => negb (keep_msg m)) (c_chan c' 0 d))).
      { unfold backlog. apply (sum_one (fun w => length (filter (fun m => negb (keep_msg m)) (c_chan c 0 w)))
                                       (fun w => length (filter (fun m => negb (keep_msg m)) (c_chan c' 0 w)))); auto.
        intros x X. rewrite Ec, drop_keep by congruence. auto. }
      rewrite Ec, (drop_hit _ _ _ _ _ Ch), Ch in H. simpl in H. rewrite Km in H. simpl in H. lia. }
  eapply (IH _ _ c' g' S' eq_refl). Unshelve.
  subst n. rewrite Lm. destruct (keep_msg m); lia.
Qed.

Lemma deliveries_end mgr ops : valid workers (c_prog (crun mgr ops)) -> tidy (c_prog (crun mgr ops)) ->
  returns_enough body (c_prog (crun mgr ops)) ->
  let c := crun mgr ops in
  (forall s d m l, c_chan c s d = m :: l ->
     c_in (cstep c (if Nat.eqb d 0 then CReply s else CTake s d)) d = c_in c d ++ [(s, m)]) /\
  Acc (fun y x => delivery workers body x y) c.
Proof using body_ok no_dup no_root.
  cbv zeta. intros V T R. destruct (run_sim mgr ops V T R) as (g & S). split.
  - intros s d m l Ch. destruct (sim_deliver _ g s d m l S Ch) as (E & _). unfold deliver_op in E. rewrite E.
    rewrite Nat.eqb_refl. auto.
  - eapply ends; eauto.
Qed.

Lemma gets_answered mgr ops : valid workers (c_prog (crun mgr ops)) -> tidy (c_prog (crun mgr ops)) ->
  returns_enough body (c_prog (crun mgr ops)) ->
  let c := crun mgr ops in
  gets_over (c_seen c) ++ (if Nat.eqb (c_left c) 0 then [] else [c_want c]) = gets_of (c_prog c) /\
  (idle c -> gets_over (c_seen c) = gets_of (c_prog c)).
Proof using body_ok no_root no_dup.
  cbv zeta. intros V T R. assert (A : answered_gets (crun mgr ops)).
  { induction ops as [|o ops IH] using rev_ind; [reflexivity|].
    destruct (nothing_stuck mgr (ops ++ [o]) V T R) as (_ & Ne & _).
    assert (V0 := valid_before workers body mgr ops o V). rewrite crun_snoc in *.
    destruct (prog_grows workers body (crun mgr ops) o) as (l & G).
    assert (T0 : tidy (c_prog (crun mgr ops))) by (rewrite G in T; eapply tidy_prefix; eauto).
    assert (R0 : returns_enough body (c_prog (crun mgr ops))) by (rewrite G in R; eapply enough_prefix; eauto).
    apply gets_step; auto. }
  split; [exact A|]. intros I.
  destruct (nothing_stuck mgr ops V T R) as (_ & _ & X). destruct (X I) as [Z _].
  unfold answered_gets in A. rewrite Z in A. simpl in A. rewrite app_nil_r in A. auto.
Qed.
End Clean.
