(** Cleanup over several hosts. *)
From Verif Require Import Lib ShmModel ShmSpec ShmProofs ShmMgrProofs.
Local Open Scope Z_scope.

Lemma or_lists_map {A} (f g : A -> bool) l :
  or_lists (map f l) (map g l) = map (fun x => f x || g x) l.
Proof. induction l as [|x l IH]; simpl; [reflexivity | now rewrite IH]. Qed.

Lemma allreduce_map {A H} (g : H -> A -> bool) (hosts : list H) (l : list A) :
  hosts <> [] ->
  allreduce_max (map (fun h => map (g h) l) hosts) =
  map (fun x => existsb (fun h => g h x) hosts) l.
Proof.
  induction hosts as [|h hosts IH]; intros Hne; [congruence|].
  destruct hosts as [|h2 hosts].
  - simpl. apply map_ext. intros a. now rewrite orb_false_r.
  - change (allreduce_max (map (fun h0 => map (g h0) l) (h :: h2 :: hosts)))
      with (or_lists (map (g h) l) (allreduce_max (map (fun h0 => map (g h0) l) (h2 :: hosts)))).
    rewrite IH by discriminate. rewrite or_lists_map. reflexivity.
Qed.

Lemma combine_map {A B} (f : A -> B) l : combine l (map f l) = map (fun x => (x, f x)) l.
Proof. induction l as [|x l IH]; simpl; [reflexivity | now rewrite IH]. Qed.

Lemma clear_loop_pending F l : forall m,
  pending_cleanup (clear_loop m (map (fun d => (d, F d)) l)) = pending_cleanup m ++ filter F l.
Proof.
  induction l as [|d l IH]; simpl; intros m; [now rewrite app_nil_r|].
  destruct (F d).
  - rewrite IH. simpl. now rewrite <- app_assoc.
  - rewrite IH. f_equal. unfold mgr_free_one. destruct (resv m d); reflexivity.
Qed.

Lemma free_one_resv m d x : resv (mgr_free_one m d) x = if did_eqb d x then None else resv m x.
Proof.
  unfold mgr_free_one. destruct (resv m d) as [r|] eqn:E; simpl; [reflexivity|].
  destruct (did_eqb d x) eqn:E2; [|reflexivity]. apply did_eqb_eq in E2; now subst.
Qed.

Lemma clear_loop_resv_map F l : forall m x,
  resv (clear_loop m (map (fun d => (d, F d)) l)) x =
  if did_in x l && negb (F x) then None else resv m x.
Proof.
  induction l as [|d l IH]; simpl; intros m x; [reflexivity|].
  destruct (F d) eqn:EF.
  - rewrite IH. simpl. rewrite (did_eqb_sym x d). destruct (did_eqb d x) eqn:E.
    + apply did_eqb_eq in E; subst x. rewrite EF. simpl. now rewrite andb_false_r.
    + reflexivity.
  - rewrite IH, free_one_resv. rewrite (did_eqb_sym x d). destruct (did_eqb d x) eqn:E.
    + apply did_eqb_eq in E; subst x. rewrite EF. simpl. now destruct (did_in d l && true).
    + reflexivity.
Qed.

(** What one collective cleanup does when all pending lists agree. *)
Definition counted (h : manager * (dataid -> Z)) (d : dataid) : bool :=
  match resv (fst h) d with None => false | Some _ => 0 <? snd h d end.

Definition same_pending (ms : list manager) (p : list dataid) : Prop :=
  forall m, In m ms -> pending_cleanup m = p.

Lemma cluster_clear_char hosts ids p :
  hosts <> [] -> same_pending (map fst hosts) p ->
  cluster_clear hosts ids =
  map (fun h => clear_loop (set_pending (fst h) [])
                  (map (fun d => (d, existsb (fun h' => counted h' d) hosts)) (p ++ ids))) hosts.
Proof.
  intros Hne Hp. unfold cluster_clear.
  assert (E : map (fun h => has_refs (snd h) (fst h) (cleanup_list (fst h) ids)) hosts
              = map (fun h => map (counted h) (p ++ ids)) hosts).
  { apply map_ext_in. intros h Hh. unfold has_refs, cleanup_list.
    rewrite (Hp (fst h)); [reflexivity | now apply in_map]. }
  rewrite E, allreduce_map by assumption.
  apply map_ext_in. intros h Hh. unfold mgr_clear, cleanup_list.
  rewrite (Hp (fst h)) by now apply in_map. rewrite combine_map. reflexivity.
Qed.

Lemma with_refs_fst refs ms : forall h, map fst (with_refs refs h ms) = ms.
Proof. induction ms as [|m ms IH]; simpl; intros h; [reflexivity | now rewrite IH]. Qed.

Lemma with_refs_nth refs ms : forall h n m,
  nth_error ms n = Some m -> nth_error (with_refs refs h ms) n = Some (m, refs (h + n)%nat).
Proof.
  induction ms as [|m0 ms IH]; intros h n m H; destruct n; simpl in *; try discriminate.
  - injection H as ->. now rewrite Nat.add_0_r.
  - rewrite (IH (S h) n m H). replace (S h + n)%nat with (h + S n)%nat by lia. reflexivity.
Qed.

Lemma with_refs_In refs ms : forall h x, In x (with_refs refs h ms) ->
  exists n, nth_error ms n = Some (fst x) /\ snd x = refs (h + n)%nat.
Proof.
  induction ms as [|m0 ms IH]; simpl; intros h x H; [contradiction|].
  destruct H as [<-|H].
  - exists O. simpl. now rewrite Nat.add_0_r.
  - destruct (IH _ _ H) as (n & H1 & H2). exists (S n). simpl. split; [exact H1|].
    rewrite H2. replace (S h + n)%nat with (h + S n)%nat by lia. reflexivity.
Qed.

Lemma counted_iff refs ms d :
  existsb (fun h => counted h d) (with_refs refs 0 ms) = true <-> referenced_somewhere refs ms d.
Proof.
  rewrite existsb_exists. split.
  - intros (x & Hin & Hc). destruct (with_refs_In _ _ _ _ Hin) as (n & H1 & H2).
    exists n, (fst x). split; [exact H1|]. unfold counted in Hc.
    destruct (resv (fst x) d); [|discriminate]. split; [discriminate|].
    apply Z.ltb_lt in Hc. rewrite H2 in Hc. exact Hc.
  - intros (n & m & H1 & H2 & H3). exists (m, refs n).
    split.
    + apply (nth_error_In (with_refs refs 0 ms) n). rewrite (with_refs_nth _ _ _ _ _ H1). reflexivity.
    + unfold counted. simpl. destruct (resv m d); [now apply Z.ltb_lt | congruence].
Qed.

Lemma with_refs_nonempty refs ms h : ms <> [] -> with_refs refs h ms <> [].
Proof. destruct ms; simpl; congruence. Qed.

Definition refd (refs : nat -> dataid -> Z) (ms : list manager) (d : dataid) : bool :=
  existsb (fun h => counted h d) (with_refs refs 0 ms).

Lemma map_with_refs {B} (f : manager -> B) refs h ms :
  map (fun x => f (fst x)) (with_refs refs h ms) = map f ms.
Proof.
  rewrite <- (with_refs_fst refs ms h) at 2. now rewrite map_map.
Qed.

Lemma cstep_cleanup_char refs ids ms p :
  same_pending ms p ->
  cstep ms (CCleanup refs ids) =
  map (fun m => clear_loop (set_pending m [])
         (map (fun d => (d, refd refs ms d)) (p ++ ids))) ms.
Proof.
  intros Hp. simpl. destruct ms as [|m0 ms0]; [reflexivity|].
  set (ms := m0 :: ms0) in *.
  rewrite (cluster_clear_char (with_refs refs 0 ms) ids p).
  - unfold refd.
    exact (map_with_refs (fun m => clear_loop (set_pending m [])
         (map (fun d => (d, existsb (fun h => counted h d) (with_refs refs 0 ms))) (p ++ ids))) refs 0%nat ms).
  - apply with_refs_nonempty. discriminate.
  - rewrite with_refs_fst. exact Hp.
Qed.

Lemma reserve_pending m d n : pending_cleanup (fst (mgr_reserve m d n)) = pending_cleanup m.
Proof.
  unfold mgr_reserve, mgr_get. destruct (resv m d); [reflexivity|].
  destruct (mgr_put m d n) as [m' e] eqn:Hp. unfold mgr_put in Hp.
  destruct (occupy n (free_memory m)) as [fm [[f l]|]];
    destruct (occupy INFO_SIZE (free_service m)) as [fs [[s s2]|]]; inversion Hp; subst; reflexivity.
Qed.

Lemma upd_nth_In {A} (f : A -> A) l : forall n x, In x (upd_nth n f l) ->
  In x l \/ exists y, In y l /\ x = f y.
Proof.
  induction l as [|a l IH]; intros n x H; destruct n; simpl in *; try contradiction.
  - destruct H as [<-|H]; [right; exists a; auto | auto].
  - destruct H as [<-|H]; [auto|]. destruct (IH _ _ H) as [H'|(y & H1 & H2)]; [auto|].
    right; exists y; auto.
Qed.

Lemma same_pending_step ms p o : same_pending ms p ->
  exists p', same_pending (cstep ms o) p'.
Proof.
  intros Hp. destruct o as [h d n|refs ids].
  - exists p. intros m Hm. simpl in Hm. apply upd_nth_In in Hm.
    destruct Hm as [Hm|(y & Hy & ->)]; [now apply Hp|]. rewrite reserve_pending. now apply Hp.
  - rewrite (cstep_cleanup_char refs ids ms p Hp).
    exists (filter (refd refs ms) (p ++ ids)). intros m Hm.
    apply in_map_iff in Hm. destruct Hm as (y & <- & Hy). rewrite clear_loop_pending. reflexivity.
Qed.

Lemma same_pending_run ops : forall ms p, same_pending ms p ->
  exists p', same_pending (crun ms ops) p'.
Proof.
  unfold crun; induction ops as [|o ops IH]; simpl; intros ms p H; [eauto|].
  destruct (same_pending_step ms p o H) as (p' & H'). eauto.
Qed.

Lemma cluster_init_pending sizes : same_pending (cluster_init sizes) [].
Proof. intros m Hm. unfold cluster_init in Hm. apply in_map_iff in Hm. destruct Hm as (? & <- & _). reflexivity. Qed.

Lemma crun_pending sizes ops : exists p, same_pending (crun (cluster_init sizes) ops) p.
Proof. eapply same_pending_run. apply cluster_init_pending. Qed.

Lemma pending_agree sizes ops m m' :
  In m (crun (cluster_init sizes) ops) -> In m' (crun (cluster_init sizes) ops) ->
  pending_cleanup m = pending_cleanup m'.
Proof.
  destruct (crun_pending sizes ops) as (p & Hp). intros H H'. now rewrite (Hp m H), (Hp m' H').
Qed.

(** Effect of a cleanup on one host, for reachable clusters. *)
Lemma cleanup_effect sizes ops refs ids h m :
  let ms := crun (cluster_init sizes) ops in
  nth_error ms h = Some m ->
  exists m', nth_error (cstep ms (CCleanup refs ids)) h = Some m' /\
    (forall d, resv m' d =
       if did_in d (pending_cleanup m ++ ids) && negb (refd refs ms d) then None else resv m d) /\
    pending_cleanup m' = filter (refd refs ms) (pending_cleanup m ++ ids).
Proof.
  intros ms Hn. destruct (crun_pending sizes ops) as (p & Hp). fold ms in Hp.
  assert (Hpm : pending_cleanup m = p) by (apply Hp; eapply nth_error_In; eauto).
  rewrite (cstep_cleanup_char refs ids ms p Hp).
  rewrite Hpm. eexists. split; [apply map_nth_error; exact Hn|]. split.
  - intros d. rewrite clear_loop_resv_map. reflexivity.
  - rewrite clear_loop_pending. reflexivity.
Qed.

Lemma refd_true refs ms d : refd refs ms d = true <-> referenced_somewhere refs ms d.
Proof. apply counted_iff. Qed.

(** Freed only when unreferenced on every host. *)
Lemma freed_only_unreferenced sizes ops refs ids h m m' d :
  let ms := crun (cluster_init sizes) ops in
  nth_error ms h = Some m ->
  nth_error (cstep ms (CCleanup refs ids)) h = Some m' ->
  resv m d <> None -> resv m' d = None ->
  ~ referenced_somewhere refs ms d /\ In d (pending_cleanup m ++ ids).
Proof.
  intros ms Hm Hm' H1 H2.
  destruct (cleanup_effect sizes ops refs ids h m Hm) as (m2 & E & Er & _). fold ms in E, Er.
  assert (m2 = m') by congruence. subst m2. rewrite Er in H2.
  destruct (did_in d (pending_cleanup m ++ ids)) eqn:E1; simpl in H2; [|congruence].
  destruct (refd refs ms d) eqn:E2; simpl in H2; [congruence|].
  split; [|now apply did_in_In]. rewrite <- refd_true. congruence.
Qed.

(** Regions that stay keep their place. *)
Lemma kept_unchanged sizes ops refs ids h m m' d r :
  let ms := crun (cluster_init sizes) ops in
  nth_error ms h = Some m ->
  nth_error (cstep ms (CCleanup refs ids)) h = Some m' ->
  resv m' d = Some r -> resv m d = Some r.
Proof.
  intros ms Hm Hm' H.
  destruct (cleanup_effect sizes ops refs ids h m Hm) as (m2 & E & Er & _). fold ms in E, Er.
  assert (m2 = m') by congruence. subst m2. rewrite Er in H.
  destruct (did_in d (pending_cleanup m ++ ids) && negb (refd refs ms d)); congruence.
Qed.

Lemma cstep_In_nth refs ids ms m' :
  In m' (cstep ms (CCleanup refs ids)) ->
  exists h m, nth_error ms h = Some m /\ nth_error (cstep ms (CCleanup refs ids)) h = Some m'.
Proof.
  intros Hin. destruct (In_nth_error _ _ Hin) as (h & Hh).
  assert (Hl : length (cstep ms (CCleanup refs ids)) = length ms).
  { simpl. unfold cluster_clear. rewrite map_length. 
    rewrite <- (map_length fst), with_refs_fst. reflexivity. }
  assert (h < length ms)%nat by (rewrite <- Hl; apply nth_error_Some; congruence).
  destruct (nth_error ms h) as [m|] eqn:E; [eauto|].
  apply nth_error_None in E. lia.
Qed.

Lemma referenced_queued sizes ops refs ids d :
  let ms := crun (cluster_init sizes) ops in
  referenced_somewhere refs ms d ->
  (queued_everywhere ms d \/ In d ids) ->
  queued_everywhere (cstep ms (CCleanup refs ids)) d /\
  (forall h m m', nth_error ms h = Some m ->
     nth_error (cstep ms (CCleanup refs ids)) h = Some m' -> resv m' d = resv m d).
Proof.
  intros ms Href Hq. apply refd_true in Href. split.
  - intros m' Hin. destruct (cstep_In_nth _ _ _ _ Hin) as (h & m & H1 & H2).
    destruct (cleanup_effect sizes ops refs ids h m H1) as (m2 & E & _ & Ep). fold ms in E, Ep.
    assert (m2 = m') by congruence. subst m2. rewrite Ep. apply filter_In. split; [|exact Href].
    apply in_or_app. destruct Hq as [Hq|Hq]; [left; apply Hq; eapply nth_error_In; eauto | now right].
  - intros h m m' H1 H2.
    destruct (cleanup_effect sizes ops refs ids h m H1) as (m2 & E & Er & _). fold ms in E, Er.
    assert (m2 = m') by congruence. subst m2. rewrite Er, Href. simpl. now rewrite andb_false_r.
Qed.

Lemma unreferenced_freed sizes ops refs ids d :
  let ms := crun (cluster_init sizes) ops in
  ~ referenced_somewhere refs ms d ->
  (queued_everywhere ms d \/ In d ids) ->
  freed_everywhere (cstep ms (CCleanup refs ids)) d.
Proof.
  intros ms Href Hq m' Hin.
  assert (Hf : refd refs ms d = false).
  { destruct (refd refs ms d) eqn:E; [|reflexivity]. apply refd_true in E. contradiction. }
  destruct (cstep_In_nth _ _ _ _ Hin) as (h & m & H1 & H2).
  destruct (cleanup_effect sizes ops refs ids h m H1) as (m2 & E & Er & _). fold ms in E, Er.
  assert (m2 = m') by congruence. subst m2. rewrite Er, Hf. simpl.
  assert (In d (pending_cleanup m ++ ids)) as Hd.
  { apply in_or_app. destruct Hq as [Hq|Hq]; [left; apply Hq; eapply nth_error_In; eauto | now right]. }
  apply did_in_In in Hd. now rewrite Hd.
Qed.

Lemma unreferenced_dequeued sizes ops refs ids d :
  let ms := crun (cluster_init sizes) ops in
  ~ referenced_somewhere refs ms d ->
  forall m', In m' (cstep ms (CCleanup refs ids)) -> ~ In d (pending_cleanup m').
Proof.
  intros ms Href m' Hin Hd.
  destruct (cstep_In_nth _ _ _ _ Hin) as (h & m & H1 & H2).
  destruct (cleanup_effect sizes ops refs ids h m H1) as (m2 & E & _ & Ep). fold ms in E, Ep.
  assert (m2 = m') by congruence. subst m2. rewrite Ep in Hd. apply filter_In in Hd.
  apply Href. now apply refd_true.
Qed.

Lemma crun_app ms a b : crun ms (a ++ b) = crun (crun ms a) b.
Proof. unfold crun. apply fold_left_app. Qed.

Lemma queued_or_freed sizes ops1 d : forall ops2,
  let ms := crun (cluster_init sizes) ops1 in
  queued_everywhere ms d ->
  queued_everywhere (crun ms ops2) d \/ was_freed ms ops2 d.
Proof.
  intros ops2. induction ops2 as [|o ops2 IH] using rev_ind; intros ms Hq; [now left|].
  destruct (IH Hq) as [Hq'|(a & refs & ids & b & E & Hf)]; cycle 1.
  - right. exists a, refs, ids, (b ++ [o]). subst ops2. split; [now rewrite <- app_assoc | exact Hf].
  - fold ms in Hq'. rewrite crun_app. destruct o as [h d' n|refs ids].
    + left. intros m Hm. simpl in Hm. apply upd_nth_In in Hm.
      destruct Hm as [Hm|(y & Hy & ->)]; [now apply Hq'|]. rewrite reserve_pending. now apply Hq'.
    + unfold ms in Hq'. rewrite <- crun_app in Hq'. unfold ms. rewrite <- (crun_app _ ops1 ops2).
      change (crun (crun (cluster_init sizes) (ops1 ++ ops2)) [CCleanup refs ids])
        with (cstep (crun (cluster_init sizes) (ops1 ++ ops2)) (CCleanup refs ids)).
      destruct (refd refs (crun (cluster_init sizes) (ops1 ++ ops2)) d) eqn:E.
      * left. apply refd_true in E. apply (referenced_queued sizes (ops1 ++ ops2) refs ids d E). now left.
      * right. exists ops2, refs, ids, []. split; [reflexivity|].
        rewrite crun_app.
        rewrite <- (crun_app (cluster_init sizes) ops1 ops2).
        change (crun (crun (cluster_init sizes) (ops1 ++ ops2)) [CCleanup refs ids])
          with (cstep (crun (cluster_init sizes) (ops1 ++ ops2)) (CCleanup refs ids)).
        apply unreferenced_freed; [rewrite <- refd_true; congruence | now left].
Qed.

Lemma never_forgotten sizes ops1 refs ids ops2 d :
  let ms := crun (cluster_init sizes) ops1 in
  In d ids ->
  queued_everywhere (crun ms (CCleanup refs ids :: ops2)) d \/
  was_freed ms (CCleanup refs ids :: ops2) d.
Proof.
  intros ms Hin.
  destruct (refd refs ms d) eqn:E.
  - apply refd_true in E.
    destruct (referenced_queued sizes ops1 refs ids d E (or_intror Hin)) as [Hq _]. fold ms in Hq.
    assert (Hms : cstep ms (CCleanup refs ids) = crun (cluster_init sizes) (ops1 ++ [CCleanup refs ids]))
      by (rewrite crun_app; reflexivity).
    rewrite Hms in Hq. pose proof (queued_or_freed sizes _ d ops2 Hq) as [H|H].
    + left. change (crun ms (CCleanup refs ids :: ops2)) with (crun (cstep ms (CCleanup refs ids)) ops2).
      now rewrite Hms.
    + right. destruct H as (a & rf & is & b & -> & Hf). rewrite <- Hms in Hf.
      exists (CCleanup refs ids :: a), rf, is, b. split; [reflexivity | exact Hf].
  - right. exists [], refs, ids, ops2. split; [reflexivity|].
    apply (unreferenced_freed sizes ops1 refs ids d); [rewrite <- refd_true; fold ms; congruence | now right].
Qed.
