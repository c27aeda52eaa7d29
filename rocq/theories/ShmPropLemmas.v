(** Final forms of the lemmas used in ShmProps.v. *)
From Verif Require Import Lib ShmModel ShmSpec ShmProofs ShmMgrProofs.
Local Open Scope Z_scope.

Lemma size_cases mem svc : (0 < mem /\ 0 < svc) \/ (mem <= 0 \/ svc <= 0).
Proof. lia. Qed.

Lemma run_cases mem svc ops : Forall op_ok ops ->
  minv mem svc (mrun (manager_init mem svc) ops) \/
  (mem <= 0 \/ svc <= 0) /\ dead (mrun (manager_init mem svc) ops).
Proof.
  intros Hok. destruct (size_cases mem svc) as [[H1 H2]|H].
  - left. apply minv_run; auto. now apply minv_init.
  - right. split; [exact H|]. apply dead_run; auto. now apply dead_init.
Qed.

Lemma reservations_disjoint mem svc ops d d' r r' :
    Forall op_ok ops ->
    let m := mrun (manager_init mem svc) ops in
    resv m d = Some r -> resv m d' = Some r' -> d <> d' ->
    disjoint_regions (first_index r) (last_index r) (first_index r') (last_index r') /\
    disjoint_regions (service_index r) (service_index r + 4) (service_index r') (service_index r' + 4).
Proof.
  intros Hok m H1 H2 Hne. destruct (run_cases mem svc ops Hok) as [I|[_ [D _]]].
  - split; [eapply i_disjm; eauto | eapply (i_disjs _ _ _ I d d'); eauto].
  - fold m in D. rewrite D in H1. discriminate.
Qed.

Lemma reservations_in_bounds mem svc ops d r :
    Forall op_ok ops ->
    resv (mrun (manager_init mem svc) ops) d = Some r ->
    0 <= first_index r /\ first_index r < last_index r /\ last_index r <= mem /\
    0 <= service_index r /\ service_index r + 4 <= svc.
Proof.
  intros Hok H. destruct (run_cases mem svc ops Hok) as [I|[_ [D _]]].
  - exact (i_bound _ _ _ I _ _ H).
  - rewrite D in H. discriminate.
Qed.

Lemma reservation_length mem svc ops d size m' r :
    Forall op_ok ops -> 0 < size ->
    mgr_reserve (mrun (manager_init mem svc) ops) d size = (m', Some (r, true)) ->
    last_index r - first_index r = size.
Proof.
  intros Hok Hs H. unfold mgr_reserve, mgr_get in H.
  destruct (resv (mrun (manager_init mem svc) ops) d); [inversion H|].
  destruct (mgr_put (mrun (manager_init mem svc) ops) d size) as [m2 [r2| |]] eqn:E; inversion H; subst.
  eapply put_len; eauto.
Qed.

Lemma occupy_succeeds_iff_gap (used : Z -> Prop) rs size n :
  0 < n -> sep (-1) rs size ->
  (forall x, used x -> ~ covers rs x) ->
  (forall x, 0 <= x < size -> covers rs x \/ used x) ->
  (snd (occupy n rs) <> None <-> gap_exists used size n).
Proof.
  intros Hn Hs Hd He. split.
  - destruct (occupy n rs) as [rs' [[f l]|]] eqn:E; simpl; [|congruence]. intros _.
    destruct (occupy_some _ _ _ _ _ _ _ Hn Hs E) as (E1 & E2 & E3 & E4 & E5 & E6).
    exists f. split; [lia|]. split; [lia|]. intros x Hx Hu.
    apply (Hd x Hu). apply E5. right. unfold in_region in Hx. lia.
  - intros (a & Ha & Hb & Hg) Hnone.
    destruct (occupy n rs) as [rs' [p|]] eqn:E; simpl in Hnone; [discriminate|].
    destruct (sep_run _ _ _ a n Hs Hn) as (lo & hi & Hin & H1 & H2).
    { intros x Hx. destruct (He x) as [|Hu]; [lia|assumption|]. exfalso. apply (Hg x); [|exact Hu].
      unfold in_region; lia. }
    pose proof (occupy_none_small _ _ _ E lo hi Hin). lia.
Qed.

Lemma reserve_none_snd m d size :
  resv m d = None ->
  (snd (mgr_reserve m d size) <> None <->
   snd (occupy size (free_memory m)) <> None /\ snd (occupy INFO_SIZE (free_service m)) <> None).
Proof.
  intros Hd. unfold mgr_reserve, mgr_get. rewrite Hd. unfold mgr_put.
  destruct (occupy size (free_memory m)) as [fm [[f l]|]];
    destruct (occupy INFO_SIZE (free_service m)) as [fs [[s s2]|]]; simpl;
    split; try (intros [? ?]); intros; try split; congruence.
Qed.

Lemma gap_needs_size used size n : 0 < n -> gap_exists used size n -> 0 < size.
Proof. intros Hn (a & H1 & H2 & _). lia. Qed.

Lemma reserve_succeeds_iff_gap mem svc ops d size :
    Forall op_ok ops -> 0 < size ->
    let m := mrun (manager_init mem svc) ops in
    no_memory_error (manager_init mem svc) ops ->
    resv m d = None ->
    (snd (mgr_reserve m d size) <> None <->
     gap_exists (mem_used m) mem size /\ gap_exists (svc_used m) svc 4).
Proof.
  intros Hok Hsz m Hne Hd. rewrite (reserve_none_snd m d size Hd).
  assert (HI : 0 < INFO_SIZE) by (unfold INFO_SIZE; lia).
  destruct (size_cases mem svc) as [[H1 H2]|H].
  - assert (I : minv mem svc m) by (apply minv_run; auto; now apply minv_init).
    assert (X : mexact mem svc m).
    { apply mexact_run; auto; [now apply minv_init | apply mexact_init]. }
    destruct X as [Xm Xs].
    rewrite (occupy_succeeds_iff_gap (mem_used m) (free_memory m) mem size);
      [|assumption|apply I|apply I|assumption].
    rewrite (occupy_succeeds_iff_gap (svc_used m) (free_service m) svc INFO_SIZE);
      [|assumption|apply I|apply I|assumption].
    reflexivity.
  - assert (D : dead m) by (apply dead_run; auto; now apply dead_init).
    destruct D as [_ [D|D]]; split.
    + rewrite (occupy_empty size (free_memory m) Hsz D). simpl. tauto.
    + intros [G1 G2]. exfalso.
      apply gap_needs_size in G1; [|assumption]. apply gap_needs_size in G2; [|lia]. lia.
    + rewrite (occupy_empty INFO_SIZE (free_service m) HI D). simpl. tauto.
    + intros [G1 G2]. exfalso.
      apply gap_needs_size in G1; [|assumption]. apply gap_needs_size in G2; [|lia]. lia.
Qed.

Lemma all_released_restores mem svc ops :
    0 < mem -> 0 < svc ->
    Forall op_ok ops ->
    let m := mrun (manager_init mem svc) ops in
    no_memory_error (manager_init mem svc) ops ->
    (forall d, resv m d = None) ->
    free_memory m = free_memory (manager_init mem svc) /\
    free_service m = free_service (manager_init mem svc).
Proof.
  intros H1 H2 Hok m Hne Hd.
  assert (I : minv mem svc m) by (apply minv_run; auto; now apply minv_init).
  assert (X : mexact mem svc m).
  { apply mexact_run; auto; [now apply minv_init | apply mexact_init]. }
  destruct X as [Xm Xs]. simpl. unfold fmr_init. split.
  - apply sep_full; auto; [apply I|]. intros x. split; intros Hx.
    + pose proof (sep_covers_bound _ _ _ _ (i_sepm _ _ _ I) Hx). lia.
    + destruct (Xm x Hx) as [|(d & r & H & _)]; [assumption|]. rewrite Hd in H; discriminate.
  - apply sep_full; auto; [apply I|]. intros x. split; intros Hx.
    + pose proof (sep_covers_bound _ _ _ _ (i_seps _ _ _ I) Hx). lia.
    + destruct (Xs x Hx) as [|(d & r & H & _)]; [assumption|]. rewrite Hd in H; discriminate.
Qed.

Lemma reservation_stable mem svc ops d :
  stable_trace None (trace d (manager_init mem svc) ops).
Proof. exact (trace_stable_gen d ops (manager_init mem svc)). Qed.

Lemma memory_error_leaks :
  exists mem svc ops d size d2 size2 m',
    Forall op_ok ops /\ 0 < size /\ 0 < size2 /\
    no_memory_error (manager_init mem svc) ops /\
    let m := mrun (manager_init mem svc) ops in
    mgr_reserve m d size = (m', None) /\
    (forall x, resv (mgr_clear m' [(2,0)%nat] [false]) x = None) /\
    snd (mgr_reserve (mgr_clear m' [(2,0)%nat] [false]) d2 size2) = None /\
    snd (mgr_reserve (mgr_clear m [(2,0)%nat] [false]) d2 size2) <> None.
Proof.
  exists 100, 4, [Reserve (2,0)%nat 10], (2,1)%nat, 50, (2,2)%nat, 60. eexists.
  split; [repeat constructor|]. split; [lia|]. split; [lia|].
  split; [vm_compute; repeat split; discriminate|].
  split; [vm_compute; reflexivity|].
  split; [|split; [vm_compute; reflexivity | vm_compute; discriminate]].
  intros d. vm_compute.
  repeat match goal with |- context [match ?x with _ => _ end] => destruct x end; reflexivity.
Qed.

Lemma refused_keeps_reservations m d size m' :
    mgr_reserve m d size = (m', None) ->
    resv m' = resv m /\ pending_cleanup m' = pending_cleanup m.
Proof.
  unfold mgr_reserve, mgr_get. destruct (resv m d); [discriminate|].
  destruct (mgr_put m d size) as [m2 e] eqn:E. unfold mgr_put in E.
  destruct (occupy size (free_memory m)) as [fm [[f l]|]];
    destruct (occupy INFO_SIZE (free_service m)) as [fs [[s s2]|]]; inversion E; subst;
    intros H; inversion H; subst; simpl; auto.
Qed.

Lemma refused_without_gaps mem svc ops d size m' :
    0 < mem -> 0 < svc -> Forall op_ok ops -> 0 < size ->
    let m := mrun (manager_init mem svc) ops in
    no_memory_error (manager_init mem svc) ops ->
    mgr_reserve m d size = (m', None) ->
    ~ gap_exists (mem_used m) mem size -> ~ gap_exists (svc_used m) svc 4 -> m' = m.
Proof.
  intros H1 H2 Hok Hsz m Hne Hr G1 G2.
  assert (HI : 0 < INFO_SIZE) by (unfold INFO_SIZE; lia).
  assert (N : snd (occupy size (free_memory m)) = None /\ snd (occupy INFO_SIZE (free_service m)) = None).
  { assert (I : minv mem svc m) by (apply minv_run; auto; now apply minv_init).
    assert (X : mexact mem svc m) by (apply mexact_run; auto; [now apply minv_init | apply mexact_init]).
    destruct X as [Xm Xs]. split.
    - destruct (snd (occupy size (free_memory m))) eqn:E; auto. exfalso. apply G1.
      apply (occupy_succeeds_iff_gap (mem_used m) (free_memory m) mem size); [assumption|apply I|apply I|assumption|congruence].
    - destruct (snd (occupy INFO_SIZE (free_service m))) eqn:E; auto. exfalso. apply G2.
      apply (occupy_succeeds_iff_gap (svc_used m) (free_service m) svc INFO_SIZE); [assumption|apply I|apply I|assumption|congruence]. }
  revert Hr. unfold mgr_reserve, mgr_get. destruct (resv m d); [discriminate|].
  destruct (mgr_put m d size) as [m2 e] eqn:E. unfold mgr_put in E.
  destruct N as [N1 N2].
  destruct (occupy size (free_memory m)) as [fm [[f l]|]] eqn:E1; [discriminate N1|].
  destruct (occupy INFO_SIZE (free_service m)) as [fs [[s s2]|]] eqn:E2; [discriminate N2|].
  apply occupy_none_same in E1 as ->. apply occupy_none_same in E2 as ->. inversion E; subst.
  intros Hr. inversion Hr. destruct m; reflexivity.
Qed.
