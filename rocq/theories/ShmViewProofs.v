(** Proofs for ShmViewProps.v. *)
From Verif Require Import Lib ShmModel ShmSpec ShmProofs ShmStoreModel ShmStoreSpec ShmStoreProofs ShmViewModel ShmViewSpec.
Local Open Scope Z_scope.

Section View.
Variable host_of : nat -> nat.
Variable sizes : list (Z * Z).

Definition stored_at (st : store) (n : nat) (d : dataid) (r : resinfo) : Prop :=
  exists x, nth_error (hosts st) n = Some x /\ resv (mgr x) d = Some r.

Lemma stored_upd st n d r m x x' inf fs fl :
  stored_at st n d r -> nth_error (hosts st) m = Some x ->
  (resv (mgr x) d = Some r -> resv (mgr x') d = Some r) ->
  stored_at {| hosts := upd_nth m (fun _ => x') (hosts st); infos := inf; fins := fs; inflight := fl |} n d r.
Proof.
  intros (y & Hy & Hr) Hx Hk. unfold stored_at. simpl. destruct (Nat.eq_dec m n) as [->|Hne].
  - rewrite (nth_upd_same x' _ _ _ Hx). exists x'. split; [reflexivity|]. apply Hk. congruence.
  - rewrite nth_upd_other by exact Hne. eauto.
Qed.

Lemma reserve_keeps m d0 n m' o d r : mgr_reserve m d0 n = (m', o) -> resv m d = Some r -> resv m' d = Some r.
Proof.
  intros H Hr. destruct o as [[r0 []]|].
  - apply reserve_true in H. destruct H as [Hn Hp]. destruct (put_ok_facts _ _ _ _ _ Hp) as [_ ->].
    unfold dput. destruct (did_eqb d0 d) eqn:E; [|exact Hr]. apply did_eqb_eq in E. congruence.
  - apply reserve_false in H. destruct H as [_ ->]. exact Hr.
  - revert H. unfold mgr_reserve, mgr_get. destruct (resv m d0); [discriminate|].
    unfold mgr_put. destruct (occupy n (free_memory m)) as [fm [[? ?]|]];
      destruct (occupy INFO_SIZE (free_service m)) as [fs [[? ?]|]]; intros H; inversion H; subst; exact Hr.
Qed.

Lemma clear_loop_keeps d r l : forall h h',
  host_clear_loop h l = Some h' -> ~ In d (map fst l) ->
  resv (mgr h) d = Some r -> resv (mgr h') d = Some r.
Proof.
  induction l as [|[d0 b] l IH]; simpl; intros h h' H Hn Hr; [injection H as <-; exact Hr|].
  destruct b; [eapply IH; [exact H| |exact Hr]; tauto|].
  destruct (resv (mgr h) d0) as [r0|] eqn:E0; [|eapply IH; [exact H| |exact Hr]; tauto].
  destruct (delete_service_info _ _ _) as [sm|]; [|discriminate].
  eapply IH; [exact H|tauto|]. cbn [mgr set_smem set_mgr]. unfold mgr_free_one. rewrite E0. cbn [resv].
  unfold ddel. destruct (did_eqb d0 d) eqn:E; [apply did_eqb_eq in E; tauto | exact Hr].
Qed.

Lemma clear_loop_pending d l : forall h h',
  host_clear_loop h l = Some h' -> In d (pending_cleanup (mgr h')) ->
  In d (pending_cleanup (mgr h)) \/ In d (map fst l).
Proof.
  induction l as [|[d0 b] l IH]; simpl; intros h h' H Hd; [injection H as <-; auto|].
  destruct b.
  - destruct (IH _ _ H Hd) as [G|G]; [|auto]. cbn in G. apply in_app_or in G. destruct G as [G|[G|[]]]; auto.
  - destruct (resv (mgr h) d0) as [r0|] eqn:E0.
    + destruct (delete_service_info _ _ _) as [sm|]; [|discriminate].
      destruct (IH _ _ H Hd) as [G|G]; [|auto]. left. revert G. cbn [mgr set_smem set_mgr].
      unfold mgr_free_one. rewrite E0. auto.
    + destruct (IH _ _ H Hd); auto.
Qed.

Lemma In_combine_fst {A B} (d : A) (l : list A) (k : list B) : In d (map fst (combine l k)) -> In d l.
Proof.
  intros H. apply in_map_iff in H. destruct H as ([a b] & <- & H). exact (in_combine_l _ _ _ _ H).
Qed.

Lemma hosts_clear_nth hs ids hs' : hosts_clear hs ids = Some hs' ->
  exists refs, forall n,
    match nth_error hs n with
    | None => nth_error hs' n = None
    | Some h => exists h', nth_error hs' n = Some h' /\ clear_host refs ids h = Some h'
    end.
Proof.
  intros H. unfold hosts_clear in H.
  set (refs := allreduce_max _) in H. exists refs. clearbody refs.
  change (fold_right (fun h acc => match acc, clear_host refs ids h with
            | Some l, Some h' => Some (h' :: l) | _, _ => None end) (Some []) hs = Some hs') in H.
  revert hs' H. induction hs as [|h hs IH]; simpl; intros hs' H n.
  - injection H as <-. now destruct n.
  - destruct (fold_right _ _ hs) as [l|]; [|discriminate].
    destruct (clear_host refs ids h) as [h'|] eqn:E; [|discriminate]. injection H as <-.
    destruct n as [|n]; simpl; [eauto|]. exact (IH l eq_refl n).
Qed.

(* a cleanup that is not about the object *)
Lemma clear_other st ids hs' n d r :
  not_queued st d -> ~ In d ids -> hosts_clear (hosts st) ids = Some hs' ->
  stored_at st n d r ->
  let st' := {| hosts := hs'; infos := infos st; fins := fins st; inflight := inflight st |} in
  stored_at st' n d r.
Proof.
  intros Hq Hn Hc (x & Hx & Hr). simpl. destruct (hosts_clear_nth _ _ _ Hc) as (refs & G).
  pose proof (G n) as Gn. rewrite Hx in Gn. destruct Gn as (x' & Hx' & Hcx).
  exists x'. split; [exact Hx'|]. unfold clear_host in Hcx.
  eapply clear_loop_keeps; [exact Hcx| |exact Hr].
  intros Hin. apply In_combine_fst in Hin. unfold cleanup_list in Hin. apply in_app_or in Hin.
  destruct Hin as [Hin|Hin]; [exact (Hq x (nth_error_In _ _ Hx) Hin) | exact (Hn Hin)].
Qed.

Lemma clear_other_queue st ids hs' d :
  not_queued st d -> ~ In d ids -> hosts_clear (hosts st) ids = Some hs' ->
  not_queued {| hosts := hs'; infos := infos st; fins := fins st; inflight := inflight st |} d.
Proof.
  intros Hq Hn Hc h' Hh' Hin. simpl in Hh'. destruct (hosts_clear_nth _ _ _ Hc) as (refs & G).
  destruct (In_nth_error _ _ Hh') as (n & En). pose proof (G n) as Gn.
  destruct (nth_error (hosts st) n) as [x|] eqn:Ex; [|congruence].
  destruct Gn as (x' & Ex' & Hcx). assert (x' = h') by congruence. subst x'.
  unfold clear_host in Hcx. destruct (clear_loop_pending _ _ _ _ Hcx Hin) as [[]|Hc2].
  apply In_combine_fst in Hc2. unfold cleanup_list in Hc2. apply in_app_or in Hc2.
  destruct Hc2 as [H|H]; [exact (Hq x (nth_error_In _ _ Ex) H) | exact (Hn H)].
Qed.

(* what keeps an object in place during one operation *)
Definition safe (st : store) (d : dataid) (o : sop) : Prop :=
  match o with
  | SCleanup ids => (exists p s, In (p, d, s) (fins st)) \/ (not_queued st d /\ ~ In d ids)
  | _ => True
  end.

Lemma stored_step W st o st' out n d r :
  sinv host_of sizes W st -> quiet_cleanup st o -> safe st d o ->
  sstep host_of st o = Some (st', out) -> stored_at st n d r -> stored_at st' n d r.
Proof.
  intros V Hq Hsafe H Hs. destruct o as [p0 d0 pl|p0 d0|p0 k|p0 d0|p0 d0|ids|k0]; cbn [sstep] in H.
  - unfold store_put in H. destruct (nth_error _ _) as [x|] eqn:Ex; [|discriminate].
    destruct (mgr_reserve _ _ _) as [m' [[r0 b]|]] eqn:Em; [|discriminate].
    destruct (write_to_shared_buffer _ _ _) as [[? ?]|]; [|discriminate].
    injection H as <- _. eapply stored_upd; eauto. simpl. intros Hr. eapply reserve_keeps; eauto.
  - destruct (infos st p0 d0); injection H as <- _; exact Hs.
  - destruct (nth_error (inflight st) k) as [[[q d1] i]|]; [|injection H as <- _; exact Hs].
    unfold store_get in H. cbn [hosts infos fins inflight] in H.
    destruct (nth_error (hosts st) (host_of p0)) as [x|] eqn:Ex; [|discriminate]. destruct (negb _); [discriminate|].
    destruct (check_service_info _ _ _).
    { injection H as <- _. eapply stored_upd; eauto. }
    destruct (mgr_reserve _ _ _) as [m' [[r' []]|]] eqn:Em; [| |discriminate].
    + destruct (sync_bytes _ _ _ _); [|discriminate]. destruct (_ >? _); [discriminate|].
      injection H as <- _. cbn [set_host hosts]. rewrite upd_upd.
      eapply stored_upd; eauto. simpl. intros Hr. eapply reserve_keeps; eauto.
    + destruct (check_service_info _ _ _); [|discriminate]. injection H as <- _.
      cbn [set_host hosts]. rewrite upd_upd.
      eapply stored_upd; eauto. simpl. intros Hr. eapply reserve_keeps; eauto.
  - destruct (infos st p0 d0); [destruct (nth_error _ _)|]; injection H as <- _; exact Hs.
  - unfold store_drop in H. destruct (nth_error _ _) as [x|] eqn:Ex; [|discriminate]. injection H as <- _.
    eapply stored_upd; eauto.
  - destruct (hosts_clear _ _) as [hs|] eqn:Ec; [|discriminate]. injection H as <- _.
    destruct Hsafe as [(p & s & Hin)|[Hnq Hni]].
    + destruct Hs as (x & Hx & Hr).
      destruct (sinv_cleanup _ _ _ _ _ _ V Hq Ec) as (_ & K & _).
      destruct (K _ _ _ _ _ _ Hx Hr Hin) as (x' & Hx' & Hr'). exists x'. auto.
    + exact (clear_other _ _ _ _ _ _ Hnq Hni Ec Hs).
  - injection H as <- _. exact Hs.
Qed.

Lemma fin_of_info W st p d : sinv host_of sizes W st -> infos st p d <> None -> exists s, In (p, d, s) (fins st).
Proof.
  intros V H. destruct (infos st p d) as [i|] eqn:E; [|congruence].
  destruct (v_info _ _ _ _ V _ _ _ E) as [Hin _]. eauto.
Qed.

Lemma not_queued_upd st n d x x' inf fs fl :
  not_queued st d -> nth_error (hosts st) n = Some x -> pending_cleanup (mgr x') = pending_cleanup (mgr x) ->
  not_queued {| hosts := upd_nth n (fun _ => x') (hosts st); infos := inf; fins := fs; inflight := fl |} d.
Proof.
  intros Hq Hx Hp h Hh. simpl in Hh. destruct (In_nth_error _ _ Hh) as (k & Ek).
  destruct (Nat.eq_dec n k) as [->|Hne].
  - rewrite (nth_upd_same x' _ _ _ Hx) in Ek. injection Ek as <-. rewrite Hp. exact (Hq _ (nth_error_In _ _ Hx)).
  - rewrite nth_upd_other in Ek by exact Hne. exact (Hq _ (nth_error_In _ _ Ek)).
Qed.

Lemma reserve_pending m d0 n m' o : mgr_reserve m d0 n = (m', o) -> pending_cleanup m' = pending_cleanup m.
Proof.
  unfold mgr_reserve, mgr_get. destruct (resv m d0); [intros H; now inversion H|].
  unfold mgr_put. destruct (occupy n (free_memory m)) as [fm [[? ?]|]];
    destruct (occupy INFO_SIZE (free_service m)) as [fs [[? ?]|]]; intros H; inversion H; reflexivity.
Qed.

Lemma not_queued_step st o st' out d :
  (forall ids, o = SCleanup ids -> ~ In d ids) ->
  sstep host_of st o = Some (st', out) -> not_queued st d -> not_queued st' d.
Proof.
  intros Hids H Hs. destruct o as [p0 d0 pl|p0 d0|p0 k|p0 d0|p0 d0|ids|k0]; cbn [sstep] in H.
  - unfold store_put in H. destruct (nth_error _ _) as [x|] eqn:Ex; [|discriminate].
    destruct (mgr_reserve _ _ _) as [m' [[r0 b]|]] eqn:Em; [|discriminate].
    destruct (write_to_shared_buffer _ _ _) as [[? ?]|]; [|discriminate].
    injection H as <- _. eapply not_queued_upd; eauto. simpl. eapply reserve_pending; eauto.
  - destruct (infos st p0 d0); injection H as <- _; exact Hs.
  - destruct (nth_error (inflight st) k) as [[[q d1] i]|]; [|injection H as <- _; exact Hs].
    unfold store_get in H. cbn [hosts infos fins inflight] in H.
    destruct (nth_error (hosts st) (host_of p0)) as [x|] eqn:Ex; [|discriminate]. destruct (negb _); [discriminate|].
    destruct (check_service_info _ _ _).
    { injection H as <- _. eapply not_queued_upd; eauto. }
    destruct (mgr_reserve _ _ _) as [m' [[r' []]|]] eqn:Em; [| |discriminate].
    + destruct (sync_bytes _ _ _ _); [|discriminate]. destruct (_ >? _); [discriminate|].
      injection H as <- _. cbn [set_host hosts]. rewrite upd_upd.
      eapply not_queued_upd; eauto. simpl. eapply reserve_pending; eauto.
    + destruct (check_service_info _ _ _); [|discriminate]. injection H as <- _.
      cbn [set_host hosts]. rewrite upd_upd.
      eapply not_queued_upd; eauto. simpl. eapply reserve_pending; eauto.
  - destruct (infos st p0 d0); [destruct (nth_error _ _)|]; injection H as <- _; exact Hs.
  - unfold store_drop in H. destruct (nth_error _ _) as [x|] eqn:Ex; [|discriminate]. injection H as <- _.
    eapply not_queued_upd; eauto.
  - destruct (hosts_clear _ _) as [hs|] eqn:Ec; [|discriminate]. injection H as <- _.
    exact (clear_other_queue _ _ _ _ Hs (Hids ids eq_refl) Ec).
  - injection H as <- _. exact Hs.
Qed.

(* every prefix of a history is reachable *)
Lemma quiet_mid pre : forall st o more st1,
  quiet_run host_of st (pre ++ o :: more) -> srun host_of st pre = Some st1 -> quiet_cleanup st1 o.
Proof.
  induction pre as [|a pre IH]; simpl; intros st o more st1 Hq Hr.
  - injection Hr as <-. apply Hq.
  - destruct Hq as [_ Hq]. destruct (sstep host_of st a) as [[s u]|]; [|discriminate]. eapply IH; eauto.
Qed.

Definition keeps_it (st : store) (p : nat) (d : dataid) (more : list sop) : Prop :=
  (infos st p d <> None /\ ~ In (SDrop p d) more) \/ (not_queued st d /\ never_cleaned d more).

Lemma stored_run : forall more ops st st2 p n d r,
  sizes_ok sizes -> history_ok (ops ++ more) -> quiet_run host_of (store_init sizes) (ops ++ more) ->
  srun host_of (store_init sizes) ops = Some st -> srun host_of st more = Some st2 ->
  keeps_it st p d more -> stored_at st n d r -> stored_at st2 n d r.
Proof.
  induction more as [|o more IH]; intros ops st st2 p n d r Hs Hh Hq Hr Hm Hk Hst; simpl in Hm.
  - injection Hm as <-. exact Hst.
  - destruct (sstep host_of st o) as [[s1 u]|] eqn:E; [|discriminate].
    pose proof (reach_inv _ _ ops st Hs (history_app _ _ Hh) (quiet_app _ _ _ _ Hq) Hr) as V.
    assert (Hsafe : safe st d o).
    { destruct o; simpl; auto. destruct Hk as [[Hi _]|[Hnq Hnc]].
      - left. destruct (fin_of_info _ _ _ _ V Hi) as (s & Hin). eauto.
      - right. split; [exact Hnq|]. apply Hnc. now left. }
    pose proof (stored_step _ _ _ _ _ _ _ _ V (quiet_mid _ _ _ _ _ Hq Hr) Hsafe E Hst) as Hst1.
    eapply (IH (ops ++ [o]) s1 st2 p).
    + exact Hs.
    + rewrite <- app_assoc. exact Hh.
    + rewrite <- app_assoc. exact Hq.
    + rewrite srun_app, Hr. simpl. now rewrite E.
    + exact Hm.
    + destruct Hk as [[Hi Hn]|[Hnq Hnc]].
      * left. split; [|intros G; apply Hn; now right]. eapply info_keep; eauto. intros ->. apply Hn. now left.
      * right. split; [|intros ids G; apply Hnc; now right].
        eapply not_queued_step; eauto. intros ids ->. apply Hnc. now left.
    + exact Hst1.
Qed.

Lemma view_facts ops st p d v :
  sizes_ok sizes -> history_ok ops -> quiet_run host_of (store_init sizes) ops ->
  srun host_of (store_init sizes) ops = Some st -> view_of host_of st p d = Some v ->
  exists pl r, written ops d = Some pl /\ stored_at st (host_of p) d r /\
    v = {| v_at := host_of p; v_first := first_index r + Z.of_nat (length (s_data pl));
           v_lens := map (@length Z) (raw_buffers pl) |}.
Proof.
  intros Hs Hh Hq Hr Hv. pose proof (reach_inv _ _ ops st Hs Hh Hq Hr) as V.
  unfold view_of in Hv. destruct (infos st p d) as [i|] eqn:Ei; [|discriminate].
  destruct (nth_error (hosts st) (host_of p)) as [x|] eqn:Ex; [|discriminate]. injection Hv as <-.
  destruct (v_info _ _ _ _ V _ _ _ Ei) as [Hin (pl & HW & Hinfo)].
  destruct (v_fin _ _ _ _ V _ _ _ Hin) as (x' & r & H1 & H2 & H3).
  assert (x' = x) by congruence. subst x'.
  destruct (v_host _ _ _ _ V _ _ Ex) as (sz & _ & Hok).
  destruct (ho_pub _ _ _ _ _ Hok d r H2) as (_ & pl' & HW' & Hl & Hb & _ & _ & H6 & _).
  exists pl, r. split; [exact HW|]. split; [exists x; auto|].
  rewrite <- H3, H6. rewrite Hinfo. reflexivity.
Qed.

Lemma look_stored ops st n d r pl :
  sizes_ok sizes -> history_ok ops -> quiet_run host_of (store_init sizes) ops ->
  srun host_of (store_init sizes) ops = Some st -> stored_at st n d r -> written ops d = Some pl ->
  look st {| v_at := n; v_first := first_index r + Z.of_nat (length (s_data pl));
             v_lens := map (@length Z) (raw_buffers pl) |} = Some (raw_buffers pl).
Proof.
  intros Hs Hh Hq Hr (x & Hx & Hrv) HW. pose proof (reach_inv _ _ ops st Hs Hh Hq Hr) as V.
  destruct (v_host _ _ _ _ V _ _ Hx) as (sz & _ & Hok).
  destruct (ho_pub _ _ _ _ _ Hok d r Hrv) as (_ & pl' & HW' & Hl & Hb & _).
  assert (pl' = pl) by congruence. subst pl'.
  unfold look. simpl. rewrite Hx. f_equal. apply read_raw_concat.
  rewrite <- flat_length in Hb. unfold flat in Hb. rewrite app_length, read_bytes_app in Hb.
  apply app_inj_length in Hb; [|apply read_bytes_length]. apply Hb.
Qed.

Lemma view_stays ops more st st2 p d v :
  sizes_ok sizes -> history_ok (ops ++ more) -> quiet_run host_of (store_init sizes) (ops ++ more) ->
  srun host_of (store_init sizes) ops = Some st -> srun host_of st more = Some st2 ->
  view_of host_of st p d = Some v -> keeps_it st p d more ->
  exists pl, written ops d = Some pl /\ look st v = Some (raw_buffers pl) /\ look st2 v = Some (raw_buffers pl).
Proof.
  intros Hs Hh Hq Hr Hm Hv Hk.
  destruct (view_facts ops st p d v Hs (history_app _ _ Hh) (quiet_app _ _ _ _ Hq) Hr Hv) as (pl & r & HW & Hst & ->).
  exists pl. split; [exact HW|]. split.
  - exact (look_stored ops st _ d r pl Hs (history_app _ _ Hh) (quiet_app _ _ _ _ Hq) Hr Hst HW).
  - apply (look_stored (ops ++ more) st2 _ d r pl Hs Hh Hq).
    + rewrite srun_app, Hr. exact Hm.
    + eapply stored_run; eauto.
    + now apply written_app.
Qed.

Lemma view_while_referenced ops more st st2 p d v :
  sizes_ok sizes -> history_ok (ops ++ more) -> quiet_run host_of (store_init sizes) (ops ++ more) ->
  srun host_of (store_init sizes) ops = Some st -> srun host_of st more = Some st2 ->
  view_of host_of st p d = Some v -> ~ In (SDrop p d) more ->
  exists pl, written ops d = Some pl /\ look st v = Some (raw_buffers pl) /\ look st2 v = Some (raw_buffers pl).
Proof.
  intros Hs Hh Hq Hr Hm Hv Hd. eapply view_stays; eauto. left. split; [|exact Hd].
  unfold view_of in Hv. destruct (infos st p d); [discriminate|discriminate Hv].
Qed.

Lemma view_while_not_cleaned ops more st st2 p d v :
  sizes_ok sizes -> history_ok (ops ++ more) -> quiet_run host_of (store_init sizes) (ops ++ more) ->
  srun host_of (store_init sizes) ops = Some st -> srun host_of st more = Some st2 ->
  view_of host_of st p d = Some v -> not_queued st d -> never_cleaned d more ->
  exists pl, written ops d = Some pl /\ look st v = Some (raw_buffers pl) /\ look st2 v = Some (raw_buffers pl).
Proof. intros. eapply view_stays; eauto. right. auto. Qed.
End View.
