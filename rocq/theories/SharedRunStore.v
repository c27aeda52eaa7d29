(** What single operations do to the packages under way, the holders and the queues of the shared store. *)
From Coq Require Import ZArith.
From Verif Require Import Lib ShmModel ShmStoreModel ShmStoreSpec ShmStoreProofs.

Lemma remove_nth_none {A} (l : list A) : forall k, nth_error l k = None -> remove_nth k l = l.
Proof. induction l as [|x l IH]; intros [|k] H; simpl in *; try discriminate; auto. f_equal. auto. Qed.

Lemma remove_nth_length {A} (l : list A) : forall k x, nth_error l k = Some x -> S (length (remove_nth k l)) = length l.
Proof. induction l as [|y l IH]; intros [|k] x H; simpl in *; try discriminate; auto. f_equal. eauto. Qed.

Section Step.
Variable host_of : nat -> nat.
Notation sstep := (sstep host_of).

(** The packages under way after an operation. *)
Definition fly (st : store) (o : sop) : list (nat * dataid * shinfo) :=
  match o with
  | SSend p d => match infos st p d with Some i => inflight st ++ [(p, d, i)] | None => inflight st end
  | SRecv _ k | SSkip k => remove_nth k (inflight st)
  | _ => inflight st
  end.

Lemma get_infos st p q d i st' out : store_get host_of st p q d i = Some (st', out) ->
  inflight st' = inflight st /\
  (exists j, infos st' = put_shared_info (infos st) p d j) /\
  (forall D, (forall h, In h (hosts st) -> incl (pending_cleanup (mgr h)) D) -> forall h, In h (hosts st') -> incl (pending_cleanup (mgr h)) D).
Proof.
  intros H. unfold store_get in H.
  assert (U : forall n (h' : host) l D, (forall h, In h l -> incl (pending_cleanup (mgr h)) D) ->
            incl (pending_cleanup (mgr h')) D -> forall h, In h (upd_nth n (fun _ => h') l) -> incl (pending_cleanup (mgr h)) D).
  { clear. intros n h' l D. revert n. induction l as [|x l IH]; intros [|n] Hl Hh h I; simpl in *; try tauto.
    - destruct I as [<-|I]; auto.
    - destruct I as [<-|I]; auto. eapply IH; eauto. }
  assert (Rs : forall m d n, pending_cleanup (fst (mgr_reserve m d n)) = pending_cleanup m).
  { clear. intros m d n. unfold mgr_reserve. destruct (mgr_get m d); [reflexivity|]. unfold mgr_put.
    destruct (occupy n (free_memory m)) as [fm [[f l]|]]; destruct (occupy INFO_SIZE (free_service m)) as [fs [[f2 l2]|]]; reflexivity. }
  destruct (nth_error (hosts st) (host_of p)) as [h|] eqn:Eh; [|discriminate]. apply nth_error_In in Eh.
  destruct (negb _); [discriminate|].
  destruct (check_service_info _ _ _).
  - injection H as <- _. cbn. repeat split; eauto. intros D Hl. apply U; auto. simpl. apply Hl; auto.
  - destruct (mgr_reserve _ _ _) as [m' [[r' []]|]] eqn:Er; [| |discriminate].
    + assert (Rm := Rs (mgr h) d (Z.of_nat (s_data_len i + list_sum (raw_buffers_len i)))). rewrite Er in Rm. simpl in Rm.
      destruct (sync_bytes _ _ _ _); [|discriminate]. destruct (_ >? _)%Z; [discriminate|].
      injection H as <- _. cbn. repeat split; eauto. intros D Hl.
      apply U; [apply U; [exact Hl|]|]; simpl; rewrite Rm; apply Hl; auto.
    + assert (Rm := Rs (mgr h) d (Z.of_nat (s_data_len i + list_sum (raw_buffers_len i)))). rewrite Er in Rm. simpl in Rm.
      destruct (check_service_info _ _ _); [|discriminate]. injection H as <- _. cbn. repeat split; eauto. intros D Hl.
      apply U; [apply U; [exact Hl|]|]; simpl; rewrite ?Rm; apply Hl; auto.
Qed.

Lemma put_infos st p d pl st' : store_put host_of st p d pl = Some st' ->
  inflight st' = inflight st /\
  (exists j, infos st' = put_shared_info (infos st) p d j) /\
  (forall D, (forall h, In h (hosts st) -> incl (pending_cleanup (mgr h)) D) -> forall h, In h (hosts st') -> incl (pending_cleanup (mgr h)) D).
Proof.
  intros H. unfold store_put in H.
  assert (U : forall n (h' : host) l D, (forall h, In h l -> incl (pending_cleanup (mgr h)) D) ->
            incl (pending_cleanup (mgr h')) D -> forall h, In h (upd_nth n (fun _ => h') l) -> incl (pending_cleanup (mgr h)) D).
  { clear. intros n h' l D. revert n. induction l as [|x l IH]; intros [|n] Hl Hh h I; simpl in *; try tauto.
    - destruct I as [<-|I]; auto.
    - destruct I as [<-|I]; auto. eapply IH; eauto. }
  assert (Rs : forall m d n, pending_cleanup (fst (mgr_reserve m d n)) = pending_cleanup m).
  { clear. intros m d n. unfold mgr_reserve. destruct (mgr_get m d); [reflexivity|]. unfold mgr_put.
    destruct (occupy n (free_memory m)) as [fm [[f l]|]]; destruct (occupy INFO_SIZE (free_service m)) as [fs [[f2 l2]|]]; reflexivity. }
  destruct (nth_error (hosts st) (host_of p)) as [h|] eqn:Eh; [|discriminate]. apply nth_error_In in Eh.
  destruct (mgr_reserve _ _ _) as [m' [[r' b]|]] eqn:Er; [|discriminate].
  assert (Rm := Rs (mgr h) d (Z.of_nat (data_size pl))). rewrite Er in Rm. simpl in Rm.
  destruct (write_to_shared_buffer _ _ _) as [[dm i]|]; [|discriminate].
  injection H as <-. cbn. repeat split; eauto. intros D Hl. apply U; auto. simpl. rewrite Rm. apply Hl; auto.
Qed.

Lemma put_shared_here inf p d i : put_shared_info inf p d i p d <> None.
Proof.
  unfold put_shared_info. destruct (inf p d) eqn:E; [congruence|]. rewrite Nat.eqb_refl, dput_same. discriminate.
Qed.

Lemma put_shared_new inf p d i q e : put_shared_info inf p d i q e <> None -> inf q e <> None \/ (q = p /\ e = d).
Proof.
  unfold put_shared_info. destruct (inf p d) eqn:E; auto. destruct (Nat.eqb_spec q p) as [->|]; auto.
  unfold dput. destruct (did_eqb d e) eqn:E2; auto. apply did_eqb_eq in E2. auto.
Qed.

Lemma fly_step st o st' out : sstep st o = Some (st', out) -> inflight st' = fly st o.
Proof.
  intros H. destruct o as [p d pl|p d|p k|p d|p d|ids|k]; cbn [ShmStoreModel.sstep fly] in *.
  - destruct (store_put host_of st p d pl) as [s|] eqn:E; [|discriminate]. injection H as <- _. apply (put_infos _ _ _ _ _ E).
  - destruct (infos st p d); injection H as <- _; reflexivity.
  - destruct (nth_error (inflight st) k) as [[[q d] i]|] eqn:Ek.
    + apply get_infos in H as [-> _]. reflexivity.
    + injection H as <- _. symmetry. apply remove_nth_none; auto.
  - destruct (infos st p d); [destruct (nth_error _ _)|]; injection H as <- _; reflexivity.
  - destruct (store_drop host_of st p d) as [s|] eqn:E; [|discriminate]. injection H as <- _.
    unfold store_drop in E. destruct (nth_error _ _); [|discriminate]. injection E as <-. reflexivity.
  - destruct (hosts_clear _ _); [|discriminate]. injection H as <- _. reflexivity.
  - injection H as <- _. reflexivity.
Qed.

Lemma infos_new st o st' out p d : sstep st o = Some (st', out) -> infos st' p d <> None ->
  infos st p d <> None \/ (exists pl, o = SPut p d pl) \/
  (exists k q i, o = SRecv p k /\ nth_error (inflight st) k = Some (q, d, i)).
Proof.
  intros H I. destruct o as [p0 d0 pl|p0 d0|p0 k|p0 d0|p0 d0|ids|k]; cbn [ShmStoreModel.sstep] in *.
  - destruct (store_put host_of st p0 d0 pl) as [s|] eqn:E; [|discriminate]. injection H as <- _.
    apply put_infos in E as (_ & (j & E) & _). rewrite E in I. apply put_shared_new in I as [I|[-> ->]]; eauto.
  - destruct (infos st p0 d0); injection H as <- _; auto.
  - destruct (nth_error (inflight st) k) as [[[q d1] i]|] eqn:Ek.
    + apply get_infos in H as (_ & (j & H) & _). rewrite H in I. apply put_shared_new in I as [I|[-> ->]]; auto.
      right. right. exists k, q, i. auto.
    + injection H as <- _. auto.
  - destruct (infos st p0 d0); [destruct (nth_error _ _)|]; injection H as <- _; auto.
  - destruct (store_drop host_of st p0 d0) as [s|] eqn:E; [|discriminate]. injection H as <- _.
    unfold store_drop in E. destruct (nth_error _ _); [|discriminate]. injection E as <-. left. simpl in I.
    unfold del_shared_info in I. destruct (Nat.eqb_spec p p0) as [->|]; auto.
    unfold ddel in I. destruct (did_eqb d0 d); auto.
  - destruct (hosts_clear _ _); [|discriminate]. injection H as <- _. auto.
  - injection H as <- _. auto.
Qed.

Lemma infos_put st p d pl st' out : sstep st (SPut p d pl) = Some (st', out) -> infos st' p d <> None.
Proof.
  cbn [ShmStoreModel.sstep]. destruct (store_put host_of st p d pl) as [s|] eqn:E; [|discriminate]. intros H. injection H as <- _.
  apply put_infos in E as (_ & (j & E) & _). rewrite E. apply put_shared_here.
Qed.

Lemma infos_drop st p d st' out : sstep st (SDrop p d) = Some (st', out) -> infos st' p d = None.
Proof.
  cbn [ShmStoreModel.sstep]. destruct (store_drop host_of st p d) as [s|] eqn:E; [|discriminate]. intros H. injection H as <- _.
  unfold store_drop in E. destruct (nth_error _ _); [|discriminate]. injection E as <-. simpl. unfold del_shared_info.
  rewrite Nat.eqb_refl. unfold ddel. now rewrite did_eqb_refl.
Qed.

Lemma clear_pending l : forall h h' D, host_clear_loop h l = Some h' -> incl (pending_cleanup (mgr h)) D ->
  (forall d b, In (d, b) l -> In d D) -> incl (pending_cleanup (mgr h')) D.
Proof.
  induction l as [|[d b] l IH]; intros h h' D H P L; cbn [host_clear_loop] in H.
  - injection H as <-. exact P.
  - assert (L' : forall d b, In (d, b) l -> In d D) by (intros; eapply L; right; eauto).
    destruct b.
    + refine (IH _ _ D H _ L'). simpl. intros x I. apply in_app_or in I as [I|[<-|[]]]; auto. eapply L. now left.
    + destruct (resv (mgr h) d); [|exact (IH _ _ D H P L')].
      destruct (delete_service_info _ _ _); [|discriminate]. refine (IH _ _ D H _ L'). simpl.
      unfold mgr_free_one. destruct (resv (mgr h) d); exact P.
Qed.

Lemma pend_step st o st' out D : sstep st o = Some (st', out) ->
  (forall h, In h (hosts st) -> incl (pending_cleanup (mgr h)) D) ->
  (forall ids, o = SCleanup ids -> incl ids D) ->
  forall h, In h (hosts st') -> incl (pending_cleanup (mgr h)) D.
Proof.
  intros H P C. destruct o as [p d pl|p d|p k|p d|p d|ids|k]; cbn [ShmStoreModel.sstep] in *.
  - destruct (store_put host_of st p d pl) as [s|] eqn:E; [|discriminate]. injection H as <- _. apply (put_infos _ _ _ _ _ E); auto.
  - destruct (infos st p d); injection H as <- _; auto.
  - destruct (nth_error (inflight st) k) as [[[q d] i]|] eqn:Ek.
    + apply get_infos in H as (_ & _ & X). auto.
    + injection H as <- _. auto.
  - destruct (infos st p d); [destruct (nth_error _ _)|]; injection H as <- _; auto.
  - destruct (store_drop host_of st p d) as [s|] eqn:E; [|discriminate]. injection H as <- _.
    unfold store_drop in E. destruct (nth_error (hosts st) (host_of p)) as [x|] eqn:Ex; [|discriminate]. injection E as <-. simpl.
    apply nth_error_In in Ex. intros h I.
    assert (U : forall n (h' : host) l, (forall h, In h l -> incl (pending_cleanup (mgr h)) D) ->
            incl (pending_cleanup (mgr h')) D -> forall h, In h (upd_nth n (fun _ => h') l) -> incl (pending_cleanup (mgr h)) D).
    { clear. intros n h' l. revert n. induction l as [|x l IH]; intros [|n] Hl Hh h I; simpl in *; try tauto.
      - destruct I as [<-|I]; auto.
      - destruct I as [<-|I]; auto. eapply IH; eauto. }
    eapply U; [exact P| |exact I]. simpl. apply P; auto.
  - destruct (hosts_clear (hosts st) ids) as [hs|] eqn:E; [|discriminate]. injection H as <- _. simpl.
    unfold hosts_clear in E. remember (allreduce_max _) as ar. clear Heqar. specialize (C ids eq_refl).
    revert hs E P. induction (hosts st) as [|x l IH]; cbn [fold_right]; intros hs E P; [injection E as <-; simpl; tauto|].
    match type of E with match ?a with _ => _ end = _ => destruct a as [l'|] eqn:El end; [|discriminate].
    destruct (host_clear_loop _ _) as [x'|] eqn:Ex; [|discriminate]. injection E as <-. intros h [<-|I].
    + eapply clear_pending; [exact Ex| |]; simpl; [intros y []|]. intros d b I. apply in_combine_l in I.
      unfold cleanup_list in I. apply in_app_or in I as [I|I]; auto. apply (P x (or_introl eq_refl)); auto.
    + eapply IH; eauto. intros y Y. apply P. now right.
  - injection H as <- _. auto.
Qed.

Lemma puts_written ops d : In d (puts ops) <-> written ops d <> None.
Proof.
  induction ops as [|o ops IH]; simpl; [tauto|]. destruct o; simpl; auto.
  destruct (did_eqb d0 d) eqn:E2.
  - apply did_eqb_eq in E2. subst. split; [discriminate|auto].
  - split; [intros [->|I]; [rewrite did_eqb_refl in E2; discriminate|]|intros I; right]; apply IH; auto.
Qed.

Lemma written_snoc ops o d : written (ops ++ [o]) d =
  match written ops d with Some pl => Some pl | None => written [o] d end.
Proof. induction ops as [|x ops IH]; simpl; auto. destruct x; auto. destruct (did_eqb d0 d); auto. Qed.

Lemma quiet_snoc ops : forall st st' o, quiet_run host_of st ops -> srun host_of st ops = Some st' -> quiet_cleanup st' o ->
  quiet_run host_of st (ops ++ [o]).
Proof.
  induction ops as [|x ops IH]; intros st st' o Q R C; simpl in *.
  - injection R as <-. split; auto. destruct (sstep st o) as [[? ?]|]; auto.
  - destruct Q as [Q1 Q2]. split; auto. destruct (sstep st x) as [[s u]|]; auto. eapply IH; eauto.
Qed.
End Step.
