(** The root's part of progress: what it knows and has sent (C51). *)
From Verif Require Import Lib ValModel ShmModel PushModel PushProofs WorkerModel WorkerSpec WorkerLog
  WorkerThms WorkerSends MonModel ClusterModel ClusterSpec ClusterSeq ClusterProofs ClusterCount.
From Coq Require Import Permutation.

(** The reference is an output of a task submitted to s. *)
Definition made (prog : list rop) (s : rank) (d : dataid) : Prop :=
  exists q, In (RSubmit s q) prog /\ In d (out_ids (q_out q)).

Lemma made_app a b s d : made a s d -> made (a ++ b) s d.
Proof. intros (q & I & D). exists q. split; auto. apply in_or_app; auto. Qed.

Lemma made_intro a s d : made a s d -> In d (introduced a).
Proof. intros (q & I & D). apply in_flat_map. exists (RSubmit s q). auto. Qed.

Lemma puts_intro a d : In d (puts a) -> In d (introduced a).
Proof. intros I. apply in_puts in I as (v & I). apply in_flat_map. exists (RPut d v). simpl; auto. Qed.

Lemma intro_cases a d : In d (introduced a) -> In d (puts a) \/ exists s, made a s d.
Proof.
  intros I. apply in_flat_map in I as (o & I & D). destruct o; simpl in D; try tauto.
  - destruct D as [<-|[]]. left. apply in_puts. eauto.
  - right. exists dest, q. auto.
Qed.

Lemma puts_app a b : puts (a ++ b) = puts a ++ puts b.
Proof. apply flat_map_app. Qed.

Lemma introduced_split a o b : introduced (a ++ o :: b) = introduced a ++ created o ++ introduced b.
Proof. rewrite introduced_app. reflexivity. Qed.

(** Creation is unique. *)
Lemma created_once prog o o' d : NoDup (introduced prog) -> In o prog -> In o' prog -> In d (created o) -> In d (created o') -> o = o'.
Proof.
  induction prog as [|x prog IH]; simpl; [tauto|]. intros N I I' D D'.
  assert (S : forall y, In y prog -> In d (created y) -> ~ In d (created x)).
  { intros y Y Dy Dx. apply (nodup_sep _ _ d N Dx). apply in_flat_map. eauto. }
  destruct I as [<-|I], I' as [<-|I']; auto.
  - exfalso. eapply S; eauto.
  - exfalso. eapply S; eauto.
  - apply IH; auto. eapply ShmRaceProofs.nodup_app_r; eauto.
Qed.

Lemma made_unique prog s s' d : NoDup (introduced prog) -> made prog s d -> made prog s' d -> s = s'.
Proof.
  intros N (q & I & D) (q' & I' & D').
  assert (X := created_once prog (RSubmit s q) (RSubmit s' q') d N I I' D D'). congruence.
Qed.

Lemma made_not_put prog s d : NoDup (introduced prog) -> made prog s d -> ~ In d (puts prog).
Proof.
  intros N (q & I & D) P. apply in_puts in P as (v & P).
  assert (X := created_once prog (RSubmit s q) (RPut d v) d N I P D (or_introl eq_refl)). congruence.
Qed.

Lemma made_prefix a b s d : NoDup (introduced (a ++ b)) -> In d (introduced a) -> made (a ++ b) s d -> made a s d.
Proof.
  intros N I (q & Q & D). exists q. split; auto. apply in_app_or in Q as [Q|Q]; auto. exfalso.
  rewrite introduced_app in N. apply (nodup_sep _ _ d N I). apply in_flat_map. exists (RSubmit s q). auto.
Qed.

Lemma made_worker workers prog s d : valid workers prog -> made prog s d -> In s workers.
Proof.
  intros V (q & I & _). apply in_split in I as (a & b & ->). apply (v_sub _ _ V a s q b eq_refl).
Qed.

(** A tidy program without cleanups. *)
Record neat (prog : list rop) : Prop := {
  n_get : forall a ds b, prog = a ++ RGet ds :: b -> NoDup ds /\ incl ds (introduced a);
  n_drop : forall a d b o, prog = a ++ RDrop d :: b -> In o b -> ~ In d (mentions o);
  n_clean : forall ds, ~ In (RClean ds) prog
}.

(** neat and returns_enough for prefixes. *)
Lemma neat_prefix a b : neat (a ++ b) -> neat a.
Proof.
  intros [T1 T2 T3]. split.
  - intros x ds y ->. apply (T1 x ds (y ++ b)). rewrite <- app_assoc. auto.
  - intros x d y o -> O. apply (T2 x d (y ++ b) o); [rewrite <- app_assoc; auto | apply in_or_app; auto].
  - intros ds I. apply (T3 ds), in_or_app; auto.
Qed.

Lemma enough_prefix body a b : returns_enough body (a ++ b) -> returns_enough body a.
Proof.
  intros R dest q fd f x k I F P. apply (R dest q fd f x k); auto; apply in_or_app; auto.
Qed.

(** Owners after a submission. *)
Lemma owner_in outs (dest : rank) d : forall m, In d outs -> fold_left (fun m d => dput m d dest) outs m d = Some dest.
Proof.
  induction outs as [|x outs IH]; intros m; simpl; [tauto|]. intros I.
  destruct (in_dec did_dec d outs) as [J|J]; [apply IH; auto|].
  destruct I as [->|I]; [|tauto].
  assert (X : forall outs m, ~ In d outs -> fold_left (fun m d => dput m d dest) outs m d = m d).
  { clear. induction outs as [|x outs IH]; intros m N; simpl; auto. rewrite IH; [apply dput_other|]; simpl in N; intuition. }
  rewrite X; auto. apply dput_same.
Qed.

Lemma owner_out outs (dest : rank) d : forall m, ~ In d outs -> fold_left (fun m d => dput m d dest) outs m d = m d.
Proof.
  induction outs as [|x outs IH]; intros m N; simpl; auto. rewrite IH; [apply dput_other|]; simpl in N; intuition.
Qed.

(** What a sequence of pushes that does not fail sends. *)
Lemma push_detail dest ds : forall p, Pinv p -> snd (push_some p dest ds) = true ->
  let p' := fst (push_some p dest ds) in
  Pinv p' /\ p_store p' = p_store p /\ p_owner p' = p_owner p /\
  exists new, p_out p' = p_out p ++ new /\
    (forall e, In e new -> (exists d, e = (dest, MValue d) /\ In d ds /\ In d (p_store p)) \/
       (exists d o, e = (dest, MOwner d o) /\ In d ds /\ ~ In d (p_store p) /\ p_owner p d = Some o)) /\
    (forall d, In d ds -> In d (p_store p) -> In (dest, MValue d) (p_out p')) /\
    (forall d, In d ds -> ~ In d (p_store p) -> exists o, In (dest, MOwner d o) (p_out p')).
Proof.
  induction ds as [|d ds IH]; intros p PI H; simpl in *.
  - split; auto. split; auto. split; auto. exists []. rewrite app_nil_r. split; auto. simpl. split; [tauto|]. split; tauto.
  - destruct (push_ref p dest d) as [p1|] eqn:E; [|discriminate].
    assert (One : Pinv p1 /\ p_store p1 = p_store p /\ p_owner p1 = p_owner p /\
      exists new, p_out p1 = p_out p ++ new /\
      (forall e, In e new -> (exists d', e = (dest, MValue d') /\ d' = d /\ In d (p_store p)) \/
         (exists d' o, e = (dest, MOwner d' o) /\ d' = d /\ ~ In d (p_store p) /\ p_owner p d = Some o)) /\
      (In d (p_store p) -> In (dest, MValue d) (p_out p1)) /\
      (~ In d (p_store p) -> exists o, In (dest, MOwner d o) (p_out p1))).
    { assert (Ps := push_ref_spec p dest d p1 PI E). destruct Ps as (P1 & P2 & P3 & _).
      split; auto. split; auto. split; auto. unfold push_ref in E.
      destruct (did_in d (p_store p)) eqn:Sd.
      - apply did_in_In in Sd. apply Some_inj in E as <-. unfold push_value in *.
        destruct (is_sent (p_sent p) d dest) eqn:Se.
        + exists []. rewrite app_nil_r. apply is_sent_In, PI in Se. simpl. split; auto. split; [tauto|]. split; auto. tauto.
        + simpl. eexists. split; [reflexivity|]. split; [|split; [intros _; apply in_or_app; simpl; auto | tauto]].
          intros e [<-|[]]. left. exists d. auto.
      - apply did_in_false in Sd. destruct (p_owner p d) as [o|] eqn:O; [|discriminate].
        apply Some_inj in E as <-. simpl. eexists. split; [reflexivity|]. split.
        + intros e [<-|[]]. right. exists d, o. auto.
        + split; [tauto|]. intros _. exists o. apply in_or_app; simpl; auto. }
    destruct One as (P1 & P2 & P3 & new & N1 & N2 & N3 & N4).
    destruct (IH p1 P1 H) as (Q1 & Q2 & Q3 & new' & M1 & M2 & M3 & M4).
    split; auto. split; [congruence|]. split; [congruence|]. exists (new ++ new').
    rewrite P2, P3 in *. split; [rewrite M1, N1, app_assoc; auto|]. split; [|split].
    + intros e I. apply in_app_or in I as [I|I].
      * destruct (N2 e I) as [(d' & -> & -> & S)|(d' & o & -> & -> & S & O)]; [left|right]; eauto 8.
      * destruct (M2 e I) as [(d' & -> & D & S)|(d' & o & -> & D & S & O)]; [left|right]; eauto 10.
    + intros x [<-|X] S; auto. rewrite M1. apply in_or_app. auto.
    + intros x [<-|X] S; auto. destruct (N4 S) as (o & O). exists o. rewrite M1. apply in_or_app. auto.
Qed.

(** Announcements go before requests. *)
Lemma announced_more l L : announced l -> requests L = [] -> announced (l ++ L).
Proof.
  intros A R a m b q H Hm. symmetry in H. apply WorkerTrace.app_split in H as [(t & -> & _)|(t & -> & H)].
  - apply (A a m t q); auto.
  - exfalso. subst L. rewrite requests_app in R. change (m :: b) with ([m] ++ b) in R. rewrite requests_app in R.
    apply app_eq_nil in R as [_ R]. apply app_eq_nil in R as [R _]. destruct Hm as [->| ->]; discriminate.
Qed.

Lemma announced_exec l q : announced l ->
  (forall d, In d (qrefs q) -> (exists v, In (WPut d v) l) \/ (exists r, In (WOwner d r) l)) ->
  (forall d, q_fn q = FRef d -> exists f, In (WPut d f) l) -> announced (l ++ [WExec q]).
Proof.
  intros A R F a m b q' H Hm. symmetry in H. apply WorkerTrace.app_split in H as [(t & -> & _)|(t & -> & H)].
  - apply (A a m t q'); auto.
  - destruct t as [|x [|y t]]; simpl in H; try discriminate. injection H as <-. rewrite app_nil_r.
    destruct Hm as [Hm|Hm]; [injection Hm as <- | discriminate]. auto.
Qed.

Section Root.
Variable workers : list rank.

(** The value of a task's output has come to the root. *)
Definition came (c : cst) (d : dataid) : Prop :=
  exists s v, made (c_prog c) s d /\ In (s, WPut d v) (c_in c 0).

Definition sound_msg (c : cst) (w : rank) (m : wmsg) : Prop :=
  match m with
  | WPut d _ => In d (puts (c_prog c)) \/ came c d
  | WOwner d o => made (c_prog c) o d
  | WGet r d _ => r = 0 /\ made (c_prog c) w d
  | WExec q => In (RSubmit w q) (c_prog c)
  | _ => False
  end.

Definition missing (c : cst) : list dataid := filter (fun d => negb (did_in d (p_store (c_push c)))) (c_ids c).

Record LR (c : cst) : Prop := {
  lr_owner : forall d, In d (introduced (c_prog c)) -> ~ In (RDrop d) (c_prog c) -> p_owner (c_push c) d <> None;
  lr_right : forall d o, p_owner (c_push c) d = Some o ->
    (o = 0 /\ In d (puts (c_prog c))) \/ made (c_prog c) o d;
  lr_put : forall d, In d (puts (c_prog c)) -> ~ In (RDrop d) (c_prog c) -> In d (p_store (c_push c));
  lr_vals : forall d, In d (p_store (c_push c)) <-> c_vals c d <> None;
  lr_store : forall d, In d (p_store (c_push c)) -> In d (puts (c_prog c)) \/ came c d;
  lr_pinv : Pinv (c_push c);
  lr_outv : forall w d, In (w, MValue d) (p_out (c_push c)) -> exists v, In (w, WPut d v) (c_out c);
  lr_outo : forall w d o, In (w, MOwner d o) (p_out (c_push c)) -> In (w, WOwner d o) (c_out c);
  lr_msgs : forall w m, In (w, m) (c_out c) -> sound_msg c w m;
  lr_dest : forall w m, In (w, m) (c_out c) -> In w workers;
  lr_ann : forall w, announced (sends_to w (c_out c));
  lr_reqs : forall w, requests (sends_to w (c_out c)) =
    map snd (filter (fun p => Nat.eqb (fst p) w) (submitted (c_prog c)));
  lr_noerr : ~ In RError (c_seen c);
  lr_asked : forall s r d b, In (s, WGet r d b) (c_out c) ->
    came c d \/ (c_left c <> 0 /\ In d (c_ids c) /\ ~ In d (p_store (c_push c)));
  lr_left : c_left c <> 0 -> c_left c = length (missing c);
  lr_want : c_left c <> 0 -> forall d, In d (c_want c) -> In d (p_store (c_push c)) \/ In d (c_ids c);
  lr_ids : c_left c <> 0 -> NoDup (c_ids c) /\ forall d, In d (c_ids c) -> ~ In (RDrop d) (c_prog c) /\
    exists s, In (s, WGet 0 d true) (c_out c);
  lr_recv : forall s d v, In (s, WPut d v) (c_in c 0) -> In d (p_store (c_push c)) \/ In (RDrop d) (c_prog c)
}.

Lemma init_lr mgr : LR (cinit mgr).
Proof.
  split; simpl; try tauto; try discriminate; auto.
  - intros d r [].
  - intros w a m b q H. destruct a; discriminate.
Qed.

(** An operation that mentions a reference finds it. *)
Lemma not_dropped a o d : neat (a ++ [o]) -> In d (mentions o) -> ~ In (RDrop d) a.
Proof.
  clear. intros T M I. apply in_split in I as (x & y & ->). rewrite <- app_assoc in T. simpl in T.
  apply (n_drop _ T x d (y ++ [o]) o); auto. apply in_or_app; simpl; auto.
Qed.

Lemma came_app c o p vals tasks seen out d : came c d -> came (root_to c o p vals tasks seen out) d.
Proof. intros (s & v & M & I). exists s, v. split; [apply made_app; auto|auto]. Qed.

Lemma sound_app c o p vals tasks seen out w m : sound_msg c w m -> sound_msg (root_to c o p vals tasks seen out) w m.
Proof.
  destruct m; simpl; auto.
  - intros I. apply in_or_app; auto.
  - intros [-> M]. split; auto. apply made_app; auto.
  - rewrite puts_app, in_app_iff. intros [X|X]; auto. right. apply came_app; auto.
  - apply made_app.
Qed.

(** The parts of LR that say nothing about the step's own effect. *)
Lemma quiet_lr c o out : c_left c = 0 -> valid workers (c_prog c ++ [o]) -> LR c ->
  (forall dest q, o <> RSubmit dest q) -> (forall d v, o <> RPut d v) -> (forall d, o <> RDrop d) ->
  (forall w, requests (sends_to w out) = []) ->
  (forall w m, In (w, m) out -> sound_msg (root_to c o (c_push c) (c_vals c) (c_tasks c) [] out) w m) ->
  (forall s r d b, In (s, WGet r d b) out -> False) -> (forall w m, In (w, m) out -> In w workers) ->
  forall seen, ~ In RError seen -> LR (root_to c o (c_push c) (c_vals c) (c_tasks c) seen out).
Proof.
  intros L0 V [K1 K2 K3 K4 K5 K6 K7 K8 K9 K9' K10 K11 K12 K13 K14 K15 K16 K17] NS NP ND Q Sn NG Dw seen NE.
  assert (Ei : introduced (c_prog c ++ [o]) = introduced (c_prog c)).
  { rewrite introduced_app. destruct o; simpl; rewrite ?app_nil_r; auto; exfalso; [eapply NP|eapply NS]; eauto. }
  assert (Ep : puts (c_prog c ++ [o]) = puts (c_prog c)).
  { rewrite puts_app. destruct o; simpl; rewrite ?app_nil_r; auto; exfalso; eapply NP; eauto. }
  assert (Es : submitted (c_prog c ++ [o]) = submitted (c_prog c)).
  { rewrite submitted_app. destruct o; simpl; rewrite ?app_nil_r; auto; exfalso; eapply NS; eauto. }
  assert (Dr : forall d, ~ In (RDrop d) (c_prog c ++ [o]) -> ~ In (RDrop d) (c_prog c)).
  { intros d N I. apply N, in_or_app; auto. }
  split; simpl; auto; try (rewrite L0; congruence).
  - intros d. rewrite Ei. auto.
  - intros d x X. rewrite Ep. apply K2 in X as [X|X]; auto. right. apply made_app; auto.
  - intros d. rewrite Ep. auto.
  - intros d D. rewrite Ep. apply K5 in D as [D|D]; auto. right. apply came_app; auto.
  - intros w d I. apply K7 in I as (v & I). exists v. apply in_or_app; auto.
  - intros w d x I. apply in_or_app. left. auto.
  - intros w m I. apply in_app_or in I as [I|I].
    + apply sound_app. auto.
    + apply Sn in I. exact I.
  - intros w m I. apply in_app_or in I as [I|I]; eauto.
  - intros w. rewrite sends_app. apply announced_more; auto.
  - intros w. rewrite sends_app, requests_app, Q, app_nil_r, Es. auto.
  - rewrite in_app_iff. tauto.
  - intros s r d b I. apply in_app_or in I as [I|I]; [|exfalso; eauto].
    apply K13 in I as [I|(I & _)]; [|congruence]. left. apply came_app; auto.
  - intros s d v I. rewrite in_app_iff. apply K17 in I as [I|I]; auto.
Qed.

Lemma filter_all {A} (f : A -> bool) l : (forall x, In x l -> f x = true) -> filter f l = l.
Proof.
  clear. induction l as [|x l IH]; simpl; intros H; auto. rewrite H, IH; auto.
Qed.

Lemma read_there (st : dmap val) ds : (forall d, In d ds -> st d <> None) -> read_vals st ds <> None.
Proof.
  clear. induction ds as [|d ds IH]; simpl; [discriminate|]. intros H.
  destruct (st d) eqn:E; [|exfalso; apply (H d); auto]. destruct (read_vals st ds); [discriminate|].
  apply IH. intros x X. apply H; auto.
Qed.

Lemma owners_all (m : dmap rank) ds : (forall d, In d ds -> m d <> None) ->
  exists l, owners m ds = Some l /\ (forall p, In p l <-> In (snd p) ds /\ m (snd p) = Some (fst p)).
Proof.
  clear. induction ds as [|d ds IH]; intros H.
  - exists []. simpl. split; auto. intros p. tauto.
  - simpl. destruct (m d) as [o|] eqn:E; [|exfalso; apply (H d); simpl; auto].
    destruct IH as (l & -> & L); [intros x X; apply H; simpl; auto|].
    eexists. split; [reflexivity|]. intros [a b]. simpl. rewrite L. simpl. split.
    + intros [X|[X Y]]; [apply pair_inj in X as [<- <-]; auto | auto].
    + intros [[->|X] Y]; [left; congruence | auto].
Qed.

Lemma put_lr c d v : c_left c = 0 -> valid workers (c_prog c ++ [RPut d v]) -> LR c -> LR (root_step workers c (RPut d v)).
Proof.
  intros L0 V [K1 K2 K3 K4 K5 K6 K7 K8 K9 K9' K10 K11 K12 K13 K14 K15 K16 K17].
  cbn [root_step].
  assert (Ep : puts (c_prog c ++ [RPut d v]) = puts (c_prog c) ++ [d]) by (rewrite puts_app; auto).
  assert (Dr : forall x, ~ In (RDrop x) (c_prog c ++ [RPut d v]) -> ~ In (RDrop x) (c_prog c)).
  { intros x N I. apply N, in_or_app; auto. }
  split; simpl; auto; try (rewrite L0; congruence).
  - intros x. rewrite introduced_app, in_app_iff. simpl. intros [I|[<-|[]]] N.
    + destruct (did_dec d x) as [<-|Nx]; [rewrite dput_same; discriminate | rewrite dput_other; auto].
    + rewrite dput_same. discriminate.
  - intros x o. rewrite Ep, in_app_iff. destruct (did_dec d x) as [<-|Nx].
    + rewrite dput_same. intros X. apply Some_inj in X as <-. left. simpl; auto.
    + rewrite dput_other by auto. intros X. apply K2 in X as [[? ?]|X]; auto. right. apply made_app; auto.
  - intros x. rewrite Ep, in_app_iff. simpl. intros [I|[<-|[]]] N; auto.
  - intros x. destruct (did_dec d x) as [<-|Nx].
    + rewrite dput_same. split; [discriminate|auto].
    + rewrite dput_other by auto. rewrite <- K4. split; [intros [?|?]; congruence || auto | auto].
  - intros x. rewrite Ep, in_app_iff. simpl. intros [<-|I]; auto. apply K5 in I as [I|I]; auto. right. apply came_app; auto.
  - intros w x I. apply K7 in I as (y & I). exists y. rewrite app_nil_r. auto.
  - intros w x o I. rewrite app_nil_r. auto.
  - intros w m I. rewrite app_nil_r in I. apply sound_app. auto.
  - intros w m I. rewrite app_nil_r in I. eauto.
  - intros w. rewrite app_nil_r. auto.
  - intros w. rewrite app_nil_r, submitted_app. simpl. rewrite app_nil_r. auto.
  - rewrite app_nil_r. auto.
  - intros s r x b I. rewrite app_nil_r in I. apply K13 in I as [I|(I & _)]; [|congruence]. left. apply came_app; auto.
  - intros s x y I. rewrite in_app_iff. apply K17 in I as [I|I]; auto.
Qed.

Lemma drop_lr c d : c_left c = 0 -> valid workers (c_prog c ++ [RDrop d]) -> LR c -> LR (root_step workers c (RDrop d)).
Proof.
  intros L0 V [K1 K2 K3 K4 K5 K6 K7 K8 K9 K9' K10 K11 K12 K13 K14 K15 K16 K17].
  cbn [root_step].
  assert (Ei : introduced (c_prog c ++ [RDrop d]) = introduced (c_prog c)).
  { rewrite introduced_app. apply app_nil_r. }
  assert (Ep : puts (c_prog c ++ [RDrop d]) = puts (c_prog c)) by (rewrite puts_app; apply app_nil_r).
  assert (Dr : forall x, ~ In (RDrop x) (c_prog c ++ [RDrop d]) -> ~ In (RDrop x) (c_prog c) /\ d <> x).
  { intros x N. split; [intros I; apply N, in_or_app; auto|]. intros ->. apply N, in_or_app; simpl; auto. }
  assert (Fi : forall x, In x (filter (fun y => negb (did_eqb y d)) (p_store (c_push c))) <-> In x (p_store (c_push c)) /\ d <> x).
  { intros x. rewrite filter_In, Bool.negb_true_iff. split; intros [A B]; split; auto.
    - intros ->. rewrite did_eqb_refl in B. discriminate.
    - apply did_eqb_neq. congruence. }
  split; simpl; auto; try (rewrite L0; congruence).
  - intros x. rewrite Ei. intros I N. apply Dr in N as [N Nd]. rewrite ddel_other; auto.
  - intros x o. rewrite Ep. destruct (did_dec d x) as [<-|Nx]; [rewrite ddel_same; discriminate|].
    rewrite ddel_other by auto. intros X. apply K2 in X as [X|X]; auto. right. apply made_app; auto.
  - intros x. rewrite Ep, Fi. intros I N. apply Dr in N as [N Nd]. auto.
  - intros x. rewrite Fi, K4. destruct (did_dec d x) as [<-|Nx]; [rewrite ddel_same | rewrite ddel_other by auto]; intuition congruence.
  - intros x. rewrite Ep, Fi. intros [I _]. apply K5 in I as [I|I]; auto. right. apply came_app; auto.
  - intros x r I. simpl in I. apply filter_In in I as [I _]. apply K6; auto.
  - intros w x I. apply K7 in I as (y & I). exists y. rewrite app_nil_r. auto.
  - intros w x o I. rewrite app_nil_r. auto.
  - intros w m I. rewrite app_nil_r in I. apply sound_app. auto.
  - intros w m I. rewrite app_nil_r in I. eauto.
  - intros w. rewrite app_nil_r. auto.
  - intros w. rewrite app_nil_r, submitted_app. simpl. rewrite app_nil_r. auto.
  - rewrite app_nil_r. auto.
  - intros s r x b I. rewrite app_nil_r in I. apply K13 in I as [I|(I & _)]; [|congruence]. left. apply came_app; auto.
  - intros s x y I. rewrite Fi, in_app_iff. simpl. apply K17 in I as [I|I]; auto.
    destruct (did_dec d x) as [<-|Nx]; auto.
Qed.

Lemma get_lr c ds : ~ In 0 workers -> c_left c = 0 -> valid workers (c_prog c ++ [RGet ds]) -> neat (c_prog c ++ [RGet ds]) ->
  LR c -> LR (root_step workers c (RGet ds)).
Proof.
  intros Z L0 V T L. cbn [root_step].
  destruct (n_get _ T (c_prog c) ds [] eq_refl) as [Nd Inc].
  assert (Nr : forall d, In d ds -> ~ In (RDrop d) (c_prog c)).
  { intros d D. apply (not_dropped _ (RGet ds)); auto. }
  destruct (filter (fun d => negb (did_in d (p_store (c_push c)))) ds) as [|x r] eqn:F.
  - apply quiet_lr; auto; try discriminate; try (simpl; tauto).
    unfold got. destruct (read_vals (c_vals c) ds) eqn:R; [simpl; intros [X|[]]; discriminate|].
    exfalso. revert R. apply read_there. intros d D. apply (lr_vals _ L).
    destruct (did_in d (p_store (c_push c))) eqn:S; [apply did_in_In; auto|].
    exfalso. assert (I : In d []) by (rewrite <- F; apply filter_In; rewrite S; auto). destruct I.
  - rewrite <- F. set (l := filter (fun d => negb (did_in d (p_store (c_push c)))) ds) in *.
    assert (Fl : forall d, In d l <-> In d ds /\ ~ In d (p_store (c_push c))).
    { intros d. unfold l. rewrite filter_In, Bool.negb_true_iff, did_in_false. tauto. }
    destruct (owners_all (p_owner (c_push c)) l) as (ps & Ow & Ps).
    { intros d D. apply Fl in D as [D _]. apply L; auto. }
    rewrite Ow.
    assert (Mk : forall o d, In (o, d) ps -> made (c_prog c) o d).
    { intros o d I. apply Ps in I as [I O]. simpl in *. apply (lr_right _ L) in O as [[_ P]|M]; auto.
      exfalso. apply Fl in I as [I N]. apply N, L; auto. }
    assert (Nl : NoDup l) by (apply NoDup_filter; auto).
    assert (Ll : length l <> 0) by (rewrite F; simpl; lia).
    assert (Ei : introduced (c_prog c ++ [RGet ds]) = introduced (c_prog c)).
    { rewrite introduced_app. apply app_nil_r. }
    assert (Ep : puts (c_prog c ++ [RGet ds]) = puts (c_prog c)) by (rewrite puts_app; apply app_nil_r).
    assert (Dr : forall d, In (RDrop d) (c_prog c ++ [RGet ds]) -> In (RDrop d) (c_prog c)).
    { intros d I. apply in_app_or in I as [I|[I|[]]]; auto. discriminate. }
    set (out := map (fun p => (fst p, WGet 0 (snd p) true)) ps).
    assert (Q : forall w, requests (sends_to w out) = []).
    { apply sends_no_requests. intros d m I. apply in_map_iff in I as (y & H & _). apply pair_inj in H as [_ <-]. auto. }
    clearbody l. clear F.
    destruct L as [K1 K2 K3 K4 K5 K6 K7 K8 K9 K9' K10 K11 K12 K13 K14 K15 K16 K17].
    split; simpl; auto.
    + intros d. rewrite Ei. intros I N. apply K1; auto. intros X. apply N, in_or_app; auto.
    + intros d o X. rewrite Ep. apply K2 in X as [X|X]; auto. right. apply made_app; auto.
    + intros d. rewrite Ep. intros I N. apply K3; auto. intros X. apply N, in_or_app; auto.
    + intros d D. rewrite Ep. apply K5 in D as [D|D]; auto. right.
      destruct D as (s & v & M & I). exists s, v. split; [apply made_app; auto|auto].
    + intros w d I. apply K7 in I as (v & I). exists v. apply in_or_app; auto.
    + intros w d o I. apply in_or_app. left. auto.
    + intros w m I. apply in_app_or in I as [I|I].
      * apply K9 in I. apply (sound_app c (RGet ds) (c_push c) (c_vals c) (c_tasks c) [] out) in I. exact I.
      * apply in_map_iff in I as ([o d] & H & I). apply pair_inj in H as [<- <-]. simpl. split; auto.
        apply made_app. auto.
    + intros w m I. apply in_app_or in I as [I|I]; eauto.
      apply in_map_iff in I as ([o d] & H & I). apply pair_inj in H as [<- _]. simpl.
      eapply made_worker; [exact V|]. apply made_app, Mk. eauto.
    + intros w. rewrite sends_app. apply announced_more; auto.
    + intros w. rewrite sends_app, requests_app, Q, app_nil_r, submitted_app, app_nil_r. auto.
    + rewrite app_nil_r. auto.
    + intros s r' d b I. apply in_app_or in I as [I|I].
      * left. apply K13 in I as [I|(I & _)]; [|congruence].
        destruct I as (s' & v & M & I). exists s', v. split; [apply made_app; auto|auto].
      * right. split; auto. apply in_map_iff in I as ([o d'] & H & I). apply pair_inj in H as [<- H].
        injection H as <- <- <-. apply Ps in I as [I _]. split; auto. apply Fl in I. tauto.
    + intros _. unfold missing. simpl. f_equal. symmetry. apply filter_all.
      intros d D. apply Fl in D as [_ D]. apply Bool.negb_true_iff, did_in_false. auto.
    + intros _ d D. rewrite Fl. destruct (in_dec did_dec d (p_store (c_push c))); auto.
    + intros _. split.
      * auto.
      * intros d D. split; [intros X; apply Dr in X; apply Fl in D as [D _]; eapply Nr; eauto|].
        destruct (p_owner (c_push c) d) as [o|] eqn:O.
        -- exists o. apply in_or_app. right. apply in_map_iff. exists (o, d). split; auto. apply Ps. auto.
        -- exfalso. apply Fl in D as [D _]. apply (K1 d); auto.
    + intros s d v I. rewrite in_app_iff. apply K17 in I as [I|I]; auto.
Qed.

Lemma in_pushed vals q l w m : In (w, m) (pushed vals q l) <-> exists x, In (w, x) l /\ In m (to_wmsg vals q x).
Proof.
  clear. unfold pushed. rewrite in_flat_map. split.
  - intros ([r x] & I & H). apply in_map_iff in H as (y & E & Y). simpl in *. apply pair_inj in E as [<- <-]. eauto.
  - intros (x & I & Y). exists (w, x). split; auto. apply in_map_iff. exists m. auto.
Qed.

Lemma submit_lr c dest q : c_left c = 0 -> valid workers (c_prog c ++ [RSubmit dest q]) ->
  neat (c_prog c ++ [RSubmit dest q]) -> LR c -> LR (root_step workers c (RSubmit dest q)).
Proof.
  intros L0 V T L. cbn [root_step]. cbv zeta.
  set (outs := out_ids (q_out q)).
  destruct (v_sub _ _ V (c_prog c) dest q [] eq_refl) as (Dw & (fd & Fd & Fp) & Sub).
  assert (Nf := v_fresh _ _ V). rewrite introduced_app in Nf. simpl in Nf. rewrite app_nil_r in Nf. fold outs in Nf.
  set (ds := refs (fn_val (q_fn q)) ++ refs (q_args q) ++ refs (q_kwargs q)).
  assert (Ds : forall d, In d ds -> In d (introduced (c_prog c)) /\ ~ In (RDrop d) (c_prog c)).
  { intros d D. assert (M : In d (mentions (RSubmit dest q))).
    { unfold ds in D. simpl. rewrite Fd in *. unfold qrefs. simpl in D. simpl. rewrite in_app_iff in *. tauto. }
    split; [|eapply not_dropped; eauto].
    simpl in M. rewrite Fd in M. destruct M as [<-|M]; [apply puts_intro; auto | auto]. }
  set (p0 := with_outputs (c_push c) dest outs).
  assert (Ok : snd (push_some p0 dest ds) = true).
  { apply push_some_ok. intros d D. right. simpl. apply fold_owner. right. apply (lr_owner _ L); apply Ds; auto. }
  destruct (push_detail dest ds p0 (pinv_with _ _ _ (lr_pinv _ L)) Ok) as (PI & Es & Eo & new & N1 & N2 & N3 & N4).
  assert (Sb : submit (c_push c) dest (q_id q) outs (fn_val (q_fn q)) (q_args q) (q_kwargs q)
     = Some (send_task (fst (push_some p0 dest ds)) dest (q_id q))).
  { rewrite submit_refs. fold ds. fold p0. unfold ok_of. rewrite Ok. auto. }
  cbn [pstep]. rewrite Sb.
  set (p1 := fst (push_some p0 dest ds)) in *. clearbody p1.
  assert (Po : p_out p1 = p_out (c_push c) ++ new) by exact N1.
  assert (Ps : p_store p1 = p_store (c_push c)) by exact Es.
  cbn [send_task p_out]. rewrite Po, <- app_assoc, skipn_exact.
  set (out := pushed (c_vals c) q (new ++ [(dest, MTask (q_id q))])).
  change (p_store p0) with (p_store (c_push c)) in *.
  assert (Ow : forall d, In d ds -> p_owner p0 d = p_owner (c_push c) d).
  { intros d D. apply owner_out. intros X. apply Ds in D as [D _]. revert X. eapply nodup_sep; eauto. }
  assert (Ox : p_owner p1 = fold_left (fun m d => dput m d dest) outs (p_owner (c_push c))) by exact Eo.
  clear N1 Es Eo Sb.
  assert (Nq : forall w, requests (sends_to w (pushed (c_vals c) q new)) = []).
  { intros w. apply pushed_quiet. intros e E. apply N2 in E as [(d & -> & _)|(d & o & -> & _)]; exact I. }
  assert (R : forall w, requests (sends_to w out) = if dest =? w then [q] else []).
  { intros w. unfold out. rewrite pushed_app, sends_app, requests_app, Nq. simpl. destruct (dest =? w); auto. }
  assert (Vl : forall d, In d (p_store (c_push c)) -> exists v, c_vals c d = Some v).
  { intros d D. apply (lr_vals _ L) in D. destruct (c_vals c d); [eauto|congruence]. }
  assert (Ov : forall w d, In (w, MValue d) new -> exists v, In (w, WPut d v) (pushed (c_vals c) q new)).
  { intros w d I. assert (X := N2 _ I). destruct X as [(d' & E & _ & S)|(d' & o & E & _)]; [|discriminate].
    injection E as -> ->. destruct (Vl d' S) as (v & Ev). exists v. apply in_pushed. exists (MValue d'). split; auto.
    simpl. rewrite Ev. simpl; auto. }
  assert (Oo : forall w d o, In (w, MOwner d o) new -> In (w, WOwner d o) (pushed (c_vals c) q new)).
  { intros w d o I. apply in_pushed. exists (MOwner d o). simpl; auto. }
  assert (Sd : forall w m, In (w, m) out -> sound_msg (root_to c (RSubmit dest q) (send_task p1 dest (q_id q)) (c_vals c) (S (c_tasks c)) [] out) w m).
  { intros w m I. unfold out in I. apply in_pushed in I as (x & I & M). apply in_app_or in I as [I|[I|[]]].
    - apply N2 in I as [(d & E & D & Sx)|(d & o & E & D & Sx & O)]; injection E as -> ->; simpl in M.
      + destruct (c_vals c d) as [v|]; [|destruct M]. destruct M as [<-|[]].
        assert (X : sound_msg c dest (WPut d v)) by (apply (lr_store _ L); auto).
        apply (sound_app c (RSubmit dest q) (send_task p1 dest (q_id q)) (c_vals c) (S (c_tasks c)) [] out) in X. exact X.
      + destruct M as [<-|[]]. simpl. apply made_app. rewrite Ow in O by auto.
        apply (lr_right _ L) in O as [[_ P]|M]; auto. exfalso. apply Sx, (lr_put _ L); auto. apply Ds; auto.
    - apply pair_inj in I as [<- <-]. destruct M as [<-|[]]. simpl. apply in_or_app; simpl; auto. }
  assert (Dr : forall d, In (RDrop d) (c_prog c ++ [RSubmit dest q]) -> In (RDrop d) (c_prog c)).
  { intros d I. apply in_app_or in I as [I|[I|[]]]; auto. discriminate. }
  assert (Ep : puts (c_prog c ++ [RSubmit dest q]) = puts (c_prog c)) by (rewrite puts_app; apply app_nil_r).
  assert (Ei : introduced (c_prog c ++ [RSubmit dest q]) = introduced (c_prog c) ++ outs).
  { rewrite introduced_app. simpl. rewrite app_nil_r. auto. }
  assert (An : forall w, announced (sends_to w (c_out c ++ out))).
  { intros w. rewrite sends_app. unfold out. rewrite pushed_app, sends_app. simpl.
    rewrite app_nil_r. destruct (Nat.eqb_spec dest w) as [<-|Nw].
    - rewrite app_assoc. apply announced_exec.
      + apply announced_more; auto. apply L.
      + intros d D.
        assert (Dd : In d ds) by (unfold ds; apply in_or_app; right; exact D).
        destruct (in_dec did_dec d (p_store (c_push c))) as [S|S].
        * left. assert (X := N3 d Dd S). rewrite Po in X. apply in_app_or in X as [X|X].
          -- apply (lr_outv _ L) in X as (v & X). exists v. apply in_or_app. left. apply in_sends; auto.
          -- apply Ov in X as (v & X). exists v. apply in_or_app. right. apply in_sends; auto.
        * right. destruct (N4 d Dd S) as (o & X). exists o. rewrite Po in X. apply in_app_or in X as [X|X].
          -- apply (lr_outo _ L) in X. apply in_or_app. left. apply in_sends; auto.
          -- apply Oo in X. apply in_or_app. right. apply in_sends; auto.
      + intros d D. assert (E : d = fd) by congruence. subst d. clear D.
        assert (Dd : In fd ds) by (unfold ds; rewrite Fd; simpl; auto).
        assert (S : In fd (p_store (c_push c))) by (apply (lr_put _ L); auto; apply Ds; auto).
        assert (X := N3 fd Dd S). rewrite Po in X. apply in_app_or in X as [X|X].
        * apply (lr_outv _ L) in X as (v & X). exists v. apply in_or_app. left. apply in_sends; auto.
        * apply Ov in X as (v & X). exists v. apply in_or_app. right. apply in_sends; auto.
    - rewrite app_nil_r. apply announced_more; auto. apply L. }
  destruct L as [K1 K2 K3 K4 K5 K6 K7 K8 K9 K9' K10 K11 K12 K13 K14 K15 K16 K17].
  split; simpl; auto; try (rewrite L0; congruence).
  - intros d. rewrite Ei, in_app_iff, Ox. intros [I|I] N.
    + apply fold_owner. right. apply K1; auto. intros X. apply N, in_or_app; auto.
    + apply fold_owner. auto.
  - intros d o. rewrite Ep, Ox. destruct (in_dec did_dec d outs) as [I|I].
    + rewrite owner_in by auto. intros X. apply Some_inj in X as <-. right. exists q. split; auto. apply in_or_app; simpl; auto.
    + rewrite owner_out by auto. intros X. apply K2 in X as [X|X]; auto. right. apply made_app; auto.
  - intros d. rewrite Ep, Ps. intros I N. apply K3; auto. intros X. apply N, in_or_app; auto.
  - rewrite Ps. auto.
  - intros d. rewrite Ep, Ps. intros D. apply K5 in D as [D|D]; auto. right. apply came_app; auto.
  - intros d r I. simpl. apply PI in I. apply in_or_app; auto.
  - intros w d I. apply in_app_or in I as [I|[I|[]]]; [|discriminate].
    rewrite Po in I. apply in_app_or in I as [I|I].
    + apply K7 in I as (v & I). exists v. apply in_or_app; auto.
    + apply Ov in I as (v & I). exists v. apply in_or_app; right. unfold out. rewrite pushed_app. apply in_or_app; auto.
  - intros w d o I. apply in_app_or in I as [I|[I|[]]]; [|discriminate].
    rewrite Po in I. apply in_app_or in I as [I|I]; apply in_or_app; [left; auto|right].
    unfold out. rewrite pushed_app. apply in_or_app; auto.
  - intros w m I. apply in_app_or in I as [I|I].
    + apply sound_app. auto.
    + apply Sd in I. exact I.
  - intros w m I. apply in_app_or in I as [I|I]; eauto.
    unfold out in I. apply in_pushed in I as (x & I & _). apply in_app_or in I as [I|[I|[]]].
    + apply N2 in I as [(d & E & _)|(d & o & E & _)]; injection E as -> _; auto.
    + apply pair_inj in I as [<- _]. auto.
  - intros w. rewrite sends_app, requests_app, R, K11, submitted_app, filter_app, map_app. f_equal. simpl.
    destruct (dest =? w); auto.
  - rewrite app_nil_r. auto.
  - intros s r d b I. apply in_app_or in I as [I|I].
    + apply K13 in I as [I|(I & _)]; [|congruence]. left. apply came_app; auto.
    + exfalso. unfold out in I. apply in_pushed in I as (x & _ & M). destruct x; simpl in M.
      * destruct (c_vals c d0); [|destruct M]. destruct M as [M|[]]. discriminate.
      * destruct M as [M|[]]. discriminate.
      * destruct M as [M|[]]. discriminate.
  - intros s d v I. rewrite in_app_iff, Ps. apply K17 in I as [I|I]; auto.
Qed.

Lemma root_lr c o : ~ In 0 workers -> c_left c = 0 -> valid workers (c_prog c ++ [o]) -> neat (c_prog c ++ [o]) ->
  LR c -> LR (root_step workers c o).
Proof.
  intros Z L0 V T L. destruct o.
  - apply put_lr; auto.
  - apply submit_lr; auto.
  - apply get_lr; auto.
  - apply drop_lr; auto.
  - exfalso. apply (n_clean _ T ds). apply in_or_app; simpl; auto.
Qed.
End Root.
