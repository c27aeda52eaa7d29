(** Invariant of the shared object store. *)
From Verif Require Import Lib ShmModel ShmSpec ShmProofs ShmMgrProofs ShmClusterProofs
  ShmStoreModel ShmStoreSpec.
Local Open Scope Z_scope.

(* ------------------------------------------------------------------ bytes *)

Lemma zupd_same m a v : zupd m a v a = v.
Proof. unfold zupd. now rewrite Z.eqb_refl. Qed.

Lemma zupd_other m a v x : x <> a -> zupd m a v x = m x.
Proof. intros H. unfold zupd. destruct (Z.eqb_spec x a); [contradiction | reflexivity]. Qed.

Lemma write_bytes_out bs : forall m a x,
  x < a \/ a + Z.of_nat (length bs) <= x -> write_bytes m a bs x = m x.
Proof.
  induction bs as [|b bs IH]; simpl; intros m a x H; [reflexivity|].
  rewrite IH by lia. apply zupd_other. lia.
Qed.

Lemma read_bytes_ext n : forall m m' a,
  (forall x, a <= x < a + Z.of_nat n -> m x = m' x) -> read_bytes m a n = read_bytes m' a n.
Proof.
  induction n as [|n IH]; simpl; intros m m' a H; [reflexivity|].
  f_equal; [apply H; lia | apply IH; intros; apply H; lia].
Qed.

Lemma read_write bs : forall m a, read_bytes (write_bytes m a bs) a (length bs) = bs.
Proof.
  induction bs as [|b bs IH]; simpl; intros m a; [reflexivity|].
  f_equal; [|apply IH]. rewrite write_bytes_out by lia. apply zupd_same.
Qed.

Lemma write_bytes_app b1 : forall m a b2,
  write_bytes m a (b1 ++ b2) = write_bytes (write_bytes m a b1) (a + Z.of_nat (length b1)) b2.
Proof.
  induction b1 as [|b b1 IH]; simpl; intros m a b2; [now rewrite Z.add_0_r|].
  rewrite IH. f_equal. lia.
Qed.

Lemma read_bytes_app n : forall m a k,
  read_bytes m a (n + k) = read_bytes m a n ++ read_bytes m (a + Z.of_nat n) k.
Proof.
  induction n as [|n IH]; simpl; intros m a k; [now rewrite Z.add_0_r|].
  rewrite IH. do 3 f_equal. lia.
Qed.

Lemma read_bytes_length n : forall m a, length (read_bytes m a n) = n.
Proof. induction n; simpl; intros; [reflexivity | now rewrite IHn]. Qed.

Definition flat (p : payload) : list Z := s_data p ++ concat (raw_buffers p).

Lemma concat_length_sum (bufs : list (list Z)) :
  length (concat bufs) = list_sum (map (@length Z) bufs).
Proof. induction bufs as [|b bufs IH]; simpl; [reflexivity|]. rewrite app_length. lia. Qed.

Lemma flat_length p : length (flat p) = data_size p.
Proof. unfold flat, data_size. now rewrite app_length, concat_length_sum. Qed.

Lemma write_raw_some bufs : forall m prev last,
  prev + Z.of_nat (length (concat bufs)) <= last ->
  write_raw m prev last bufs = Some (write_bytes m prev (concat bufs)).
Proof.
  induction bufs as [|b bufs IH]; simpl; intros m prev last H; [reflexivity|].
  rewrite app_length in H. rewrite Z.gtb_ltb.
  destruct (Z.ltb_spec last (prev + Z.of_nat (length b))); [lia|].
  rewrite IH by lia. now rewrite write_bytes_app.
Qed.

Definition info_of (p : payload) (s : Z) : shinfo :=
  {| s_data_len := length (s_data p); raw_buffers_len := map (@length Z) (raw_buffers p);
     info_buffer_count := buffer_count p; info_service_index := s |}.

Lemma write_to_shared_buffer_some m r p :
  last_index r - first_index r = Z.of_nat (data_size p) ->
  write_to_shared_buffer m r p =
  Some (write_bytes m (first_index r) (flat p), info_of p (service_index r)).
Proof.
  intros H. unfold write_to_shared_buffer. rewrite <- flat_length in H. unfold flat in *.
  rewrite app_length in H. rewrite Z.gtb_ltb.
  destruct (Z.ltb_spec (last_index r) (first_index r + Z.of_nat (length (s_data p)))); [lia|].
  rewrite write_raw_some by lia. now rewrite write_bytes_app.
Qed.

Lemma app_inj_length {A} (a a' b b' : list A) :
  length a = length a' -> a ++ b = a' ++ b' -> a = a' /\ b = b'.
Proof.
  revert a'. induction a as [|x a IH]; intros [|y a'] Hl H; simpl in *; try lia; [auto|].
  injection H as -> H. destruct (IH a') as [-> ->]; auto.
Qed.

Lemma read_raw_concat bufs : forall m prev,
  read_bytes m prev (length (concat bufs)) = concat bufs ->
  read_raw m prev (map (@length Z) bufs) = bufs.
Proof.
  induction bufs as [|b bufs IH]; simpl; intros m prev H; [reflexivity|].
  rewrite app_length, read_bytes_app in H.
  apply app_inj_length in H; [|apply read_bytes_length]. destruct H as [H1 H2].
  rewrite H1. f_equal. now apply IH.
Qed.

Lemma read_back h p s :
  read_bytes (dmem h) (smem h (s + 2)) (data_size p) = flat p ->
  read_from_shared_buffer h (info_of p s) = p.
Proof.
  intros H. unfold read_from_shared_buffer. simpl.
  rewrite <- flat_length in H. unfold flat in H. rewrite app_length, read_bytes_app in H.
  apply app_inj_length in H; [|apply read_bytes_length]. destruct H as [H1 H2].
  rewrite H1, (read_raw_concat _ _ _ H2). now destruct p.
Qed.

(* -------------------------------------------------------------- alignment *)

Definition alr (r : range) : Prop := (4 | fst r) /\ (4 | snd r).
Definition al (rs : list range) : Prop := Forall alr rs.

Lemma al_app a b : al (a ++ b) <-> al a /\ al b.
Proof. unfold al. apply Forall_app. Qed.

Lemma al_rev a : al (rev a) <-> al a.
Proof. unfold al. split; intros H; [rewrite <- (rev_involutive a)|]; now apply Forall_rev. Qed.

Lemma al_occupy rs : forall rs' r, al rs -> occupy 4 rs = (rs', r) ->
  al rs' /\ (forall f l, r = Some (f, l) -> (4 | f)).
Proof.
  induction rs as [|[lo hi] rs IH]; simpl; intros rs' r Ha H.
  - injection H as <- <-. split; [constructor | discriminate].
  - inversion Ha as [|x y [A1 A2] A3]; subst. simpl in *.
    destruct (4 <=? hi - lo).
    + destruct (hi =? lo + 4); injection H as <- <-; split;
        try (intros f l E; injection E as <- <-; assumption); [exact A3|].
      constructor; [split; simpl; [|assumption] | exact A3].
      apply Z.divide_add_r; [assumption | exists 1; reflexivity].
    + destruct (occupy 4 rs) as [rs2 r2]. injection H as <- <-.
      destruct (IH rs2 r2 A3 eq_refl) as [H1 H2]. split; [constructor; [split; assumption | exact H1] | exact H2].
Qed.

Lemma al_last_hi rs h : al rs -> last_hi rs = Some h -> (4 | h).
Proof.
  intros Ha H. unfold last_hi in H. apply al_rev in Ha. destruct (rev rs) as [|[lo hi] r]; [discriminate|].
  injection H as <-. inversion Ha as [|x y [A1 A2] A3]; subst. exact A2.
Qed.

Lemma al_set_last_hi rs h : al rs -> (4 | h) -> al (set_last_hi rs h).
Proof.
  intros Ha H. unfold set_last_hi. apply al_rev in Ha. destruct (rev rs) as [|[lo hi] r]; [constructor|].
  apply al_rev. inversion Ha as [|x y [A1 A2] A3]; subst. constructor; [split; assumption | exact A3].
Qed.

Lemma al_cons lo hi rs : (4 | lo) -> (4 | hi) -> al rs -> al ((lo, hi) :: rs).
Proof. intros. constructor; [split; assumption | assumption]. Qed.

Lemma al_release_loop f l after : forall before,
  (4 | f) -> (4 | l) -> al before -> al after -> al (release_loop f l before after).
Proof.
  induction after as [|[lo hi] rest IH]; intros before Hf Hl Hb Ha; [exact Hb|].
  pose proof Ha as Ha0.
  inversion Ha as [|x y [A1 A2] A3]; subst. change (al rest) in A3. cbn [fst snd] in A1, A2.
  cbn [release_loop].
  destruct (lo =? l).
  - destruct before as [|b0 before].
    + match goal with |- context [last_hi ?a] => destruct (last_hi a) end.
      * destruct (z =? f).
        -- destruct rest as [|r0 rest]; [constructor|]. now apply al_set_last_hi.
        -- now apply al_cons.
      * now apply al_cons.
    + match goal with |- context [last_hi ?a] => destruct (last_hi a) end.
      * destruct (z =? f).
        -- apply al_app; split; [now apply al_set_last_hi | exact A3].
        -- apply al_app; split; [exact Hb | now apply al_cons].
      * apply al_app; split; [exact Hb | now apply al_cons].
  - destruct (hi =? f).
    + destruct rest as [|[lo2 hi2] rest2].
      * apply al_app; split; [exact Hb | now apply al_cons].
      * inversion A3 as [|x y [B1 B2] B3]; subst. cbn [fst snd] in B1, B2.
        destruct (lo2 =? l); apply al_app; split; try exact Hb; now apply al_cons.
    + destruct (lo >? l).
      * apply al_app; split; [exact Hb |]. apply al_cons; assumption.
      * apply IH; auto. apply al_app; split; [exact Hb|]. apply al_cons; auto. constructor.
Qed.

Lemma al_release f l rs : (4 | f) -> (4 | l) -> al rs -> al (release f l rs).
Proof.
  intros Hf Hl Ha. unfold release. destruct (last_hi rs).
  - destruct (z <? f); [apply al_app; split; [exact Ha|]; apply al_cons; auto; constructor|].
    apply al_release_loop; auto. constructor.
  - apply al_cons; auto. constructor.
Qed.

(* ------------------------------------------------------------ host invariant *)

Definition published (W : dataid -> option payload) (L : dataid -> Z) (h : host)
    (d : dataid) (r : resinfo) : Prop :=
  (4 | service_index r) /\
  exists pl, W d = Some pl /\
    last_index r - first_index r = Z.of_nat (data_size pl) /\
    read_bytes (dmem h) (first_index r) (data_size pl) = flat pl /\
    smem h (service_index r) = worker_id d /\
    smem h (service_index r + 1) = data_number d /\
    smem h (service_index r + 2) = first_index r /\
    smem h (service_index r + 3) = L d.

Record host_ok (W : dataid -> option payload) (L : dataid -> Z) (mm sv : Z) (h : host) : Prop := {
  ho_inv : minv mm sv (mgr h);
  ho_al : al (free_service (mgr h));
  ho_pub : forall d r, resv (mgr h) d = Some r -> published W L h d r;
  ho_free : forall s, (4 | s) -> smem h s = -1 \/ exists d r, resv (mgr h) d = Some r /\ service_index r = s;
  ho_slen : slen h = sv
}.

Lemma host_ok_mono W W' L L' mm sv h :
  (forall d pl, W d = Some pl -> W' d = Some pl) ->
  (forall d, resv (mgr h) d <> None -> L d = L' d) ->
  host_ok W L mm sv h -> host_ok W' L' mm sv h.
Proof.
  intros HW HL [I A P F S]. constructor; auto.
  intros d r Hr. destruct (P d r Hr) as (Hal & pl & H1 & H2 & H3 & H4 & H5 & H6 & H7).
  split; [exact Hal|]. exists pl. repeat split; auto. rewrite H7. apply HL. congruence.
Qed.

Lemma id_inj d d' : worker_id d = worker_id d' -> data_number d = data_number d' -> d = d'.
Proof.
  unfold worker_id, data_number. destruct d, d'; simpl. intros H1 H2.
  apply Nat2Z.inj in H1, H2. congruence.
Qed.

Lemma worker_id_nonneg d : 0 <= worker_id d.
Proof. unfold worker_id. lia. Qed.

Lemma check_iff W L mm sv h d s : host_ok W L mm sv h -> (4 | s) ->
  check_service_info (smem h) d s = true <-> exists r, resv (mgr h) d = Some r /\ service_index r = s.
Proof.
  intros [I A P F S] Hs. unfold check_service_info. rewrite andb_true_iff, !Z.eqb_eq. split.
  - intros [H1 H2]. destruct (F s Hs) as [E|(d' & r & Hr & <-)].
    + pose proof (worker_id_nonneg d). lia.
    + destruct (P d' r Hr) as (_ & pl & _ & _ & _ & E1 & E2 & _).
      assert (d' = d) by (apply id_inj; congruence). subst d'. eauto.
  - intros (r & Hr & <-). destruct (P d r Hr) as (_ & pl & _ & _ & _ & E1 & E2 & _). auto.
Qed.

(** Publishing a new object. *)
Definition lset (L : dataid -> Z) (d : dataid) (v : Z) : dataid -> Z :=
  fun x => if did_eqb d x then v else L x.

Lemma disjoint_read m a n bs fi :
  (forall x, a <= x < a + Z.of_nat n -> x < fi \/ fi + Z.of_nat (length bs) <= x) ->
  read_bytes (write_bytes m fi bs) a n = read_bytes m a n.
Proof. intros H. apply read_bytes_ext. intros x Hx. now apply write_bytes_out, H. Qed.

Lemma disjoint_slots s s' : disjoint_regions s (s + 4) s' (s' + 4) -> s + 4 <= s' \/ s' + 4 <= s.
Proof.
  unfold disjoint_regions, in_region. intros H.
  destruct (Z_le_gt_dec (s + 4) s') as [|G1]; [now left|].
  destruct (Z_le_gt_dec (s' + 4) s) as [|G2]; [now right|].
  exfalso. apply (H (Z.max s s')); lia.
Qed.

Lemma put_service_other sm s d f x : x < s \/ s + 4 <= x -> put_service_info sm s d f x = sm x.
Proof. intros H. unfold put_service_info. rewrite !zupd_other by lia. reflexivity. Qed.

Lemma host_publish W L mm sv h d pl m' r :
  host_ok W L mm sv h -> W d = Some pl -> (0 < data_size pl)%nat ->
  resv (mgr h) d = None ->
  mgr_put (mgr h) d (Z.of_nat (data_size pl)) = (m', PutOk r) ->
  host_ok W (lset L d 1) mm sv
    {| mgr := m'; dmem := write_bytes (dmem h) (first_index r) (flat pl);
       smem := put_service_info (smem h) (service_index r) d (first_index r); slen := slen h |}.
Proof.
  intros [I A P F S] HW Hpos Hd Hp.
  assert (Hpos' : 0 < Z.of_nat (data_size pl)) by lia.
  pose proof (minv_put_ok _ _ _ _ _ _ _ Hpos' I Hd Hp) as I'.
  destruct (mgr_put_ok _ _ _ _ _ Hp) as (fm & fs & s2 & Hom & Hos & ->).
  destruct (al_occupy _ _ _ A Hos) as [A' Hsal]. specialize (Hsal _ _ eq_refl).
  assert (Hlen : last_index r - first_index r = Z.of_nat (data_size pl)) by (refine (put_len _ _ _ _ _ _ Hp); lia).
  assert (Hrd : dput (resv (mgr h)) d r d = Some r) by apply dput_same.
  constructor; simpl; auto.
  - intros d' r' Hr'. destruct (did_dec d d') as [<-|Hne].
    + simpl in Hr'. rewrite dput_same in Hr'. injection Hr' as <-.
      split; [exact Hsal|]. exists pl. simpl.
      split; [exact HW|]. split; [exact Hlen|].
      split. { rewrite <- flat_length. apply read_write. }
      unfold put_service_info.
      split; [apply zupd_same|].
      split; [rewrite zupd_other by lia; apply zupd_same|].
      split; [rewrite !zupd_other by lia; apply zupd_same|].
      rewrite zupd_other by lia. rewrite zupd_other by lia. rewrite zupd_same.
      unfold lset. now rewrite did_eqb_refl.
    + pose proof (i_disjm _ _ _ I' d d' r r' Hne Hrd Hr') as Dm.
      pose proof (i_disjs _ _ _ I' d d' r r' Hne Hrd Hr') as Ds.
      rewrite dput_other in Hr' by congruence.
      destruct (P d' r' Hr') as (Hal & pl' & H1 & H2 & H3 & H4 & H5 & H6 & H7).
      apply disjoint_slots in Ds.
      split; [exact Hal|]. exists pl'. simpl. split; [exact H1|]. split; [exact H2|].
      split. { rewrite disjoint_read; [exact H3|]. intros x Hx. rewrite flat_length.
               specialize (Dm x). unfold in_region in Dm. lia. }
      rewrite !put_service_other by lia. repeat split; auto.
      unfold lset. destruct (did_eqb d d') eqn:E; [|exact H7]. apply did_eqb_eq in E. congruence.
  - intros s Hs. destruct (Z.eq_dec s (service_index r)) as [->|Hns].
    + right. exists d, r. split; [exact Hrd | reflexivity].
    + destruct (F s Hs) as [E|(d' & r' & Hr' & E)].
      * left. rewrite put_service_other; [exact E|].
        destruct Hs as [a ->]. destruct Hsal as [b Hb]. rewrite Hb in *. lia.
      * right. exists d', r'. split; [|exact E]. rewrite dput_other; [exact Hr'|]. congruence.
Qed.

Lemma host_incr W L mm sv h d r :
  host_ok W L mm sv h -> resv (mgr h) d = Some r ->
  host_ok W (lset L d (L d + 1)) mm sv (set_smem h (increment_ref (smem h) (service_index r))).
Proof.
  intros [I A P F S] Hr. destruct (P d r Hr) as (Hal0 & pl0 & _ & _ & _ & _ & _ & _ & HL).
  constructor; simpl; auto.
  - intros d' r' Hr'. destruct (P d' r' Hr') as (Hal & pl & H1 & H2 & H3 & H4 & H5 & H6 & H7).
    split; [exact Hal|]. exists pl. simpl. unfold increment_ref, lset.
    destruct (did_eqb d d') eqn:E.
    + apply did_eqb_eq in E. subst d'. assert (r' = r) by congruence. subst r'.
      rewrite !zupd_other by lia. rewrite zupd_same. repeat split; auto. congruence.
    + assert (Hne : d <> d') by (intros ->; rewrite did_eqb_refl in E; discriminate).
      pose proof (i_disjs _ _ _ I d d' r r' Hne Hr Hr') as Ds. apply disjoint_slots in Ds.
      rewrite !zupd_other by lia. repeat split; auto.
  - intros s Hs. destruct (F s Hs) as [E|E]; [left|now right].
    unfold increment_ref. rewrite zupd_other; [exact E|].
    destruct Hs as [a ->]. destruct Hal0 as [b Hb]. rewrite Hb. lia.
Qed.

Lemma host_decr W L mm sv h d r :
  host_ok W L mm sv h -> resv (mgr h) d = Some r ->
  host_ok W (lset L d (L d - 1)) mm sv (set_smem h (decrement_ref (smem h) d (service_index r))).
Proof.
  intros H Hr. pose proof H as [I A P F S]. destruct (P d r Hr) as (Hal0 & pl0 & _ & _ & _ & _ & _ & _ & HL).
  assert (Hc : check_service_info (smem h) d (service_index r) = true).
  { apply (check_iff _ _ _ _ _ _ _ H Hal0). eauto. }
  unfold decrement_ref. rewrite Hc.
  constructor; simpl; auto.
  - intros d' r' Hr'. destruct (P d' r' Hr') as (Hal & pl & H1 & H2 & H3 & H4 & H5 & H6 & H7).
    split; [exact Hal|]. exists pl. simpl. unfold lset.
    destruct (did_eqb d d') eqn:E.
    + apply did_eqb_eq in E. subst d'. assert (r' = r) by congruence. subst r'.
      rewrite !zupd_other by lia. rewrite zupd_same. repeat split; auto. congruence.
    + assert (Hne : d <> d') by (intros ->; rewrite did_eqb_refl in E; discriminate).
      pose proof (i_disjs _ _ _ I d d' r r' Hne Hr Hr') as Ds. apply disjoint_slots in Ds.
      rewrite !zupd_other by lia. repeat split; auto.
  - intros s Hs. destruct (F s Hs) as [E|E]; [left|now right].
    rewrite zupd_other; [exact E|].
    destruct Hs as [a ->]. destruct Hal0 as [b Hb]. rewrite Hb. lia.
Qed.

Lemma host_run_finalizers W mm sv d r : forall ss h L,
  host_ok W L mm sv h -> resv (mgr h) d = Some r ->
  (forall s, In s ss -> s = service_index r) ->
  host_ok W (lset L d (L d - Z.of_nat (length ss))) mm sv
    (set_smem h (run_finalizers (smem h) d ss)).
Proof.
  unfold run_finalizers. induction ss as [|s ss IH]; intros h L H Hr Hss; cbn [fold_left length].
  - eapply host_ok_mono with (W := W) (L := L); auto; [|destruct h; exact H].
    intros d' _. unfold lset. destruct (did_eqb d d') eqn:E; [|reflexivity].
    apply did_eqb_eq in E. subst. simpl. lia.
  - rewrite (Hss s (or_introl eq_refl)).
    specialize (IH (set_smem h (decrement_ref (smem h) d (service_index r))) (lset L d (L d - 1))
                   (host_decr _ _ _ _ _ _ _ H Hr) Hr (fun s' Hs' => Hss s' (or_intror Hs'))).
    simpl in IH. eapply host_ok_mono; [| |exact IH]; auto.
    intros d' _. unfold lset. rewrite did_eqb_refl. destruct (did_eqb d d'); [lia | reflexivity].
Qed.

Lemma host_set_pending W L mm sv h p :
  host_ok W L mm sv h -> host_ok W L mm sv (set_mgr h (set_pending (mgr h) p)).
Proof. intros [I A P F S]. constructor; auto. now apply minv_set_pending. Qed.

Lemma host_free W L mm sv h d r :
  host_ok W L mm sv h -> resv (mgr h) d = Some r ->
  exists sm, delete_service_info (smem h) d (service_index r) = Some sm /\
    host_ok W L mm sv (set_smem (set_mgr h (mgr_free_one (mgr h) d)) sm).
Proof.
  intros H Hr. pose proof H as [I A P F S].
  destruct (P d r Hr) as (Hal0 & pl0 & _).
  assert (Hc : check_service_info (smem h) d (service_index r) = true).
  { apply (check_iff _ _ _ _ _ _ _ H Hal0). eauto. }
  unfold delete_service_info. rewrite Hc. eexists; split; [reflexivity|].
  assert (Hfree : forall x, resv (mgr_free_one (mgr h) d) x = if did_eqb d x then None else resv (mgr h) x)
    by (intros; apply free_one_resv).
  constructor; cbn [mgr smem dmem slen set_smem set_mgr].
  - now apply minv_free_one.
  - unfold mgr_free_one. rewrite Hr. simpl. apply al_release; auto.
    unfold INFO_SIZE. apply Z.divide_add_r; [exact Hal0 | exists 1; reflexivity].
  - intros d' r' Hr'. rewrite Hfree in Hr'. destruct (did_eqb d d') eqn:E; [discriminate|].
    assert (Hne : d <> d') by (intros ->; rewrite did_eqb_refl in E; discriminate).
    pose proof (i_disjs _ _ _ I d d' r r' Hne Hr Hr') as Ds. apply disjoint_slots in Ds.
    destruct (P d' r' Hr') as (Hal & pl & H1 & H2 & H3 & H4 & H5 & H6 & H7).
    split; [exact Hal|]. exists pl. cbn [smem dmem set_smem set_mgr].
    rewrite !zupd_other by lia. repeat split; auto.
  - intros s Hs. destruct (Z.eq_dec s (service_index r)) as [->|Hns].
    + left. rewrite !zupd_other by lia. apply zupd_same.
    + destruct (F s Hs) as [E|(d' & r' & Hr' & E)].
      * left. rewrite !zupd_other; [exact E| | | |];
          destruct Hs as [a ->]; destruct Hal0 as [b Hb]; rewrite Hb in *; lia.
      * right. exists d', r'. split; [|exact E]. rewrite Hfree.
        destruct (did_eqb d d') eqn:E2; [|exact Hr']. apply did_eqb_eq in E2. subst d'. congruence.
  - exact S.
Qed.

Lemma host_clear_loop_ok W L mm sv : forall l h,
  host_ok W L mm sv h ->
  exists h', host_clear_loop h l = Some h' /\ host_ok W L mm sv h' /\ mgr h' = clear_loop (mgr h) l.
Proof.
  induction l as [|[d b] l IH]; intros h H; simpl; [eauto|].
  destruct b.
  - exact (IH _ (host_set_pending _ _ _ _ h (pending_cleanup (mgr h) ++ [d]) H)).
  - destruct (resv (mgr h) d) as [r|] eqn:Hr.
    + destruct (host_free _ _ _ _ _ _ _ H Hr) as (sm & -> & Hok).
      exact (IH _ Hok).
    + destruct (IH _ H) as (h' & E & Hok & Em). exists h'.
      split; [exact E|]. split; [exact Hok|]. rewrite Em. unfold mgr_free_one. rewrite ?Hr. reflexivity.
Qed.

(* ---------------------------------------------------------- whole store *)

Section Store.
Variable host_of : nat -> nat.
Variable sizes : list (Z * Z).

Definition live (st : store) (h : nat) (d : dataid) : Z := Z.of_nat (holders host_of st h d).

Definition info_match (W : dataid -> option payload) (d : dataid) (i : shinfo) : Prop :=
  exists pl, W d = Some pl /\ i = info_of pl (info_service_index i).

Record sinv (W : dataid -> option payload) (st : store) : Prop := {
  v_host : forall h x, nth_error (hosts st) h = Some x ->
     exists sz, nth_error sizes h = Some sz /\ host_ok W (live st h) (fst sz) (snd sz) x;
  v_pend : same_pending (map mgr (hosts st)) (match hosts st with [] => [] | x :: _ => pending_cleanup (mgr x) end);
  v_fin : forall p d s, In (p, d, s) (fins st) ->
     exists x r, nth_error (hosts st) (host_of p) = Some x /\ resv (mgr x) d = Some r /\
                 service_index r = s;
  v_info : forall p d i, infos st p d = Some i ->
     In (p, d, info_service_index i) (fins st) /\ info_match W d i;
  v_fly : forall q d i, In (q, d, i) (inflight st) ->
     info_match W d i /\ (4 | info_service_index i) /\
     exists x r, nth_error (hosts st) (host_of q) = Some x /\ resv (mgr x) d = Some r;
  v_pos : forall d pl, W d = Some pl -> (0 < data_size pl)%nat
}.

Lemma sinv_mono W W' st :
  (forall d pl, W d = Some pl -> W' d = Some pl) ->
  (forall d pl, W' d = Some pl -> (0 < data_size pl)%nat) ->
  sinv W st -> sinv W' st.
Proof.
  intros HW Hpos [V1 V2 V3 V4 V5 V6]. constructor; try assumption.
  - intros h x Hx. destruct (V1 h x Hx) as (sz & Hsz & Hok). exists sz. split; [exact Hsz|].
    eapply host_ok_mono; [exact HW| |exact Hok]. auto.
  - intros p d i Hi. destruct (V4 p d i Hi) as [H1 (pl & H2 & H3)]. split; [exact H1|].
    exists pl. auto.
  - intros q d i Hi. destruct (V5 q d i Hi) as [(pl & H2 & H3) H1]. split; [|exact H1].
    exists pl. auto.
Qed.

Lemma nth_upd_same {A} (x : A) l : forall n y, nth_error l n = Some y ->
  nth_error (upd_nth n (fun _ => x) l) n = Some x.
Proof. induction l as [|a l IH]; intros [|n] y H; simpl in *; try discriminate; eauto. Qed.

Lemma nth_upd_other {A} (f : A -> A) l : forall n k, n <> k ->
  nth_error (upd_nth n f l) k = nth_error l k.
Proof.
  induction l as [|a l IH]; intros [|n] [|k] H; simpl; try reflexivity; try congruence; apply IH; congruence.
Qed.

Lemma nth_upd_inv {A} (x : A) l n k y :
  nth_error (upd_nth n (fun _ => x) l) k = Some y ->
  (k = n /\ y = x /\ exists z, nth_error l n = Some z) \/ (k <> n /\ nth_error l k = Some y).
Proof.
  destruct (Nat.eq_dec k n) as [->|Hne].
  - intros H. left. split; [reflexivity|].
    destruct (nth_error l n) as [z|] eqn:E.
    + rewrite (nth_upd_same x l n z E) in H. split; [congruence | eauto].
    + exfalso. revert n H E. clear. induction l as [|a l IH]; intros [|n] H E; simpl in *; try discriminate.
      eauto.
  - rewrite nth_upd_other by congruence. auto.
Qed.

Lemma holders_app st fs h d :
  holders host_of {| hosts := hosts st; infos := infos st; fins := fins st ++ fs; inflight := inflight st |} h d
  = (holders host_of st h d +
     length (filter (fun f => Nat.eqb (host_of (fst (fst f))) h && did_eqb (snd (fst f)) d) fs))%nat.
Proof. unfold holders. simpl. now rewrite filter_app, app_length. Qed.

Lemma holders_pos st h d : (0 < holders host_of st h d)%nat ->
  exists p s, In (p, d, s) (fins st) /\ host_of p = h.
Proof.
  unfold holders. destruct (filter _ (fins st)) as [|[[p d'] s] l] eqn:E; simpl; [lia|]. intros _.
  assert (Hin : In (p, d', s) (filter (fun f => Nat.eqb (host_of (fst (fst f))) h && did_eqb (snd (fst f)) d) (fins st)))
    by (rewrite E; now left).
  apply filter_In in Hin. destruct Hin as [H1 H2]. simpl in H2. apply andb_prop in H2. destruct H2 as [H2 H3].
  apply Nat.eqb_eq in H2. apply did_eqb_eq in H3. subst d'. eauto.
Qed.

Lemma holders_in st p d s : In (p, d, s) (fins st) -> (0 < holders host_of st (host_of p) d)%nat.
Proof.
  intros H. unfold holders.
  assert (Hin : In (p, d, s) (filter (fun f => Nat.eqb (host_of (fst (fst f))) (host_of p) && did_eqb (snd (fst f)) d) (fins st))).
  { apply filter_In. split; [exact H|]. simpl. now rewrite Nat.eqb_refl, did_eqb_refl. }
  destruct (filter _ (fins st)); [destruct Hin | simpl; lia].
Qed.

Lemma live_zero W st h x d : sinv W st -> nth_error (hosts st) h = Some x ->
  resv (mgr x) d = None -> live st h d = 0.
Proof.
  intros V Hx Hd. unfold live. destruct (holders host_of st h d) eqn:E; [reflexivity|].
  destruct (holders_pos st h d) as (p & s & Hin & Hp); [lia|].
  destruct (v_fin _ _ V p d s Hin) as (x' & r & H1 & H2 & _). rewrite Hp in H1. congruence.
Qed.

Lemma same_pending_upd hs n h' x :
  same_pending (map mgr hs) (match hs with [] => [] | y :: _ => pending_cleanup (mgr y) end) ->
  nth_error hs n = Some x -> pending_cleanup (mgr h') = pending_cleanup (mgr x) ->
  same_pending (map mgr (upd_nth n (fun _ => h') hs))
    (match upd_nth n (fun _ => h') hs with [] => [] | y :: _ => pending_cleanup (mgr y) end).
Proof.
  intros H Hn He.
  assert (Hall : forall y, In y (upd_nth n (fun _ => h') hs) ->
            pending_cleanup (mgr y) = match hs with [] => [] | y :: _ => pending_cleanup (mgr y) end).
  { intros y Hy. apply upd_nth_In in Hy. destruct Hy as [Hy|(z & Hz & ->)].
    - apply H. now apply in_map.
    - rewrite He. apply H. apply in_map. eapply nth_error_In; eauto. }
  intros m Hm. apply in_map_iff in Hm. destruct Hm as (y & <- & Hy). rewrite (Hall y Hy).
  destruct (upd_nth n (fun _ => h') hs) as [|y0 l] eqn:E; [destruct Hy|].
  symmetry. apply Hall. now left.
Qed.

(** Replacing one host by a good one, adding finalizers for that host. *)
Lemma sinv_replace W st p d (x h' : host) inf' fs s sz :
  sinv W st -> nth_error (hosts st) (host_of p) = Some x ->
  nth_error sizes (host_of p) = Some sz ->
  host_ok W (lset (live st (host_of p)) d (live st (host_of p) d + Z.of_nat (length fs))) (fst sz) (snd sz) h' ->
  (forall f, In f fs -> f = (p, d, s)) ->
  pending_cleanup (mgr h') = pending_cleanup (mgr x) ->
  (forall d' r, resv (mgr x) d' = Some r -> resv (mgr h') d' = Some r) ->
  (fs <> [] -> exists r, resv (mgr h') d = Some r /\ service_index r = s) ->
  (forall p' d' i, inf' p' d' = Some i ->
      In (p', d', info_service_index i) (fins st ++ fs) /\ info_match W d' i) ->
  sinv W {| hosts := upd_nth (host_of p) (fun _ => h') (hosts st); infos := inf';
            fins := fins st ++ fs; inflight := inflight st |}.
Proof.
  intros V Hx Hsz Hok Hfs Hpend Hres Hfr Hinf. pose proof V as [V1 V2 V3 V4 V5 V6].
  assert (Hres' : forall h y d' r, nth_error (hosts st) h = Some y -> resv (mgr y) d' = Some r ->
     exists y', nth_error (upd_nth (host_of p) (fun _ => h') (hosts st)) h = Some y' /\
       resv (mgr y') d' = Some r).
  { intros h y d' r Hy Hr. destruct (Nat.eq_dec h (host_of p)) as [->|Hne].
    - exists h'. split; [eapply nth_upd_same; eauto|]. apply Hres. congruence.
    - exists y. split; [rewrite nth_upd_other by congruence; exact Hy | exact Hr]. }
  constructor; cbn [hosts infos fins inflight].
  - intros h y Hy. apply nth_upd_inv in Hy. destruct Hy as [(-> & -> & _)|[Hne Hy]].
    + exists sz. split; [exact Hsz|]. eapply host_ok_mono; [| |exact Hok]; auto.
      intros d' _. unfold live, lset. 
      pose proof (holders_app st fs (host_of p) d') as Ha. unfold holders in *. cbn [fins] in *.
      rewrite Ha. clear Ha.
      assert (Hc : length (filter (fun f => Nat.eqb (host_of (fst (fst f))) (host_of p) && did_eqb (snd (fst f)) d') fs)
                   = if did_eqb d d' then length fs else O).
      { clear - Hfs. induction fs as [|f fs IH]; simpl; [now destruct (did_eqb d d')|].
        rewrite (Hfs f (or_introl eq_refl)). simpl. rewrite Nat.eqb_refl. simpl.
        specialize (IH (fun f' Hf' => Hfs f' (or_intror Hf'))).
        destruct (did_eqb d d'); simpl; now rewrite IH. }
      rewrite Hc. destruct (did_eqb d d') eqn:E; [apply did_eqb_eq in E; subst d'|]; lia.
    + destruct (V1 h y Hy) as (sz' & Hsz' & Hok'). exists sz'. split; [exact Hsz'|].
      eapply host_ok_mono; [| |exact Hok']; auto. intros d' _. unfold live.
      pose proof (holders_app st fs h d') as Ha. unfold holders in *. cbn [fins] in *.
      rewrite Ha. clear Ha.
      assert (Hc : length (filter (fun f => Nat.eqb (host_of (fst (fst f))) h && did_eqb (snd (fst f)) d') fs) = O).
      { clear - Hfs Hne. induction fs as [|f fs IH]; simpl; [reflexivity|].
        rewrite (Hfs f (or_introl eq_refl)). simpl.
        destruct (Nat.eqb_spec (host_of p) h); [congruence|]. simpl.
        apply IH. intros f' Hf'. apply Hfs. now right. }
      rewrite Hc. lia.
  - eapply same_pending_upd; eauto.
  - intros p' d' s' Hin. apply in_app_or in Hin. destruct Hin as [Hin|Hin].
    + destruct (V3 p' d' s' Hin) as (y & r & H1 & H2 & H3).
      destruct (Hres' _ _ _ _ H1 H2) as (y' & H4 & H5). exists y', r. auto.
    + pose proof (Hfs _ Hin) as E. injection E as -> -> ->.
      destruct Hfr as (r & Hr1 & Hr2); [intros ->; destruct Hin|].
      exists h', r. split; [eapply nth_upd_same; eauto | auto].
  - exact Hinf.
  - intros q d' i Hin. destruct (V5 q d' i Hin) as (H1 & H2 & y & r & H3 & H4).
    split; [exact H1|]. split; [exact H2|].
    destruct (Hres' _ _ _ _ H3 H4) as (y' & H5 & H6). eauto.
  - exact V6.
Qed.

Lemma reserve_true m d n m' r : mgr_reserve m d n = (m', Some (r, true)) ->
  resv m d = None /\ mgr_put m d n = (m', PutOk r).
Proof.
  unfold mgr_reserve, mgr_get. destruct (resv m d); [discriminate|].
  destruct (mgr_put m d n) as [m2 [r2| |]]; intros H; inversion H; subst; auto.
Qed.

Lemma reserve_false m d n m' r : mgr_reserve m d n = (m', Some (r, false)) ->
  resv m d = Some r /\ m' = m.
Proof.
  unfold mgr_reserve, mgr_get. destruct (resv m d) as [r0|]; [intros H; inversion H; auto|].
  destruct (mgr_put m d n) as [m2 [r2| |]]; intros H; inversion H.
Qed.

Lemma put_shared_info_inv inf p d i p' d' i' :
  put_shared_info inf p d i p' d' = Some i' ->
  inf p' d' = Some i' \/ (p' = p /\ d' = d /\ i' = i).
Proof.
  unfold put_shared_info. destruct (inf p d) eqn:E; [auto|].
  destruct (Nat.eqb_spec p' p) as [->|]; [|auto].
  unfold dput. destruct (did_eqb d d') eqn:E2; [|auto].
  apply did_eqb_eq in E2. intros H. inversion H. auto.
Qed.

Lemma put_ok_facts m d n m' r :
  mgr_put m d n = (m', PutOk r) ->
  pending_cleanup m' = pending_cleanup m /\ resv m' = dput (resv m) d r.
Proof. intros H. destruct (mgr_put_ok _ _ _ _ _ H) as (fm & fs & s2 & _ & _ & ->). auto. Qed.

Lemma sinv_put W st p d pl st' :
  sinv W st -> W d = None -> (0 < data_size pl)%nat ->
  store_put host_of st p d pl = Some st' ->
  sinv (fun x => if did_eqb d x then Some pl else W x) st' /\
  exists i, infos st' p d = Some i.
Proof.
  intros V HW Hpos Hs. unfold store_put in Hs.
  destruct (nth_error (hosts st) (host_of p)) as [x|] eqn:Hx; [|discriminate].
  destruct (v_host _ _ V _ _ Hx) as (sz & Hsz & Hok).
  assert (Hnone : resv (mgr x) d = None).
  { destruct (resv (mgr x) d) as [r|] eqn:E; [|reflexivity].
    destruct (ho_pub _ _ _ _ _ Hok d r E) as (_ & pl' & H & _). congruence. }
  destruct (mgr_reserve (mgr x) d (Z.of_nat (data_size pl))) as [m' [[r b]|]] eqn:Hr; [|discriminate].
  assert (b = true).
  { destruct b; [reflexivity|]. apply reserve_false in Hr. destruct Hr; congruence. }
  subst b. apply reserve_true in Hr. destruct Hr as [_ Hp].
  destruct (put_ok_facts _ _ _ _ _ Hp) as [Hpend Hres].
  assert (Hlen : last_index r - first_index r = Z.of_nat (data_size pl)) by (refine (put_len _ _ _ _ _ _ Hp); lia).
  rewrite (write_to_shared_buffer_some _ _ _ Hlen) in Hs. injection Hs as <-.
  set (W' := fun y => if did_eqb d y then Some pl else W y).
  assert (HWW : forall y q, W y = Some q -> W' y = Some q).
  { intros y q Hy. unfold W'. destruct (did_eqb d y) eqn:E; [|exact Hy].
    apply did_eqb_eq in E. congruence. }
  assert (HWd : W' d = Some pl) by (unfold W'; now rewrite did_eqb_refl).
  assert (Hp' : forall y q, W' y = Some q -> (0 < data_size q)%nat).
  { intros y q Hy. unfold W' in Hy. destruct (did_eqb d y); [now injection Hy as <-|].
    eapply (v_pos _ _ V); eauto. }
  pose proof (sinv_mono W W' st HWW Hp' V) as V'.
  split.
  - eapply (sinv_replace W' st p d x _ _ [(p, d, service_index r)] (service_index r) sz V' Hx Hsz).
    + pose proof (host_ok_mono W W' _ (live st (host_of p)) _ _ _ HWW (fun _ _ => eq_refl) Hok) as Hok'.
      rewrite (live_zero _ _ _ _ _ V Hx Hnone). simpl (0 + _).
      exact (host_publish _ _ _ _ _ _ _ _ _ Hok' HWd Hpos Hnone Hp).
    + intros f [<-|[]]. reflexivity.
    + simpl. exact Hpend.
    + simpl. intros d' r' Hr'. rewrite Hres. rewrite dput_other; [exact Hr'|]. congruence.
    + intros _. exists r. simpl. rewrite Hres, dput_same. auto.
    + intros p' d' i' Hi. apply put_shared_info_inv in Hi. destruct Hi as [Hi|(-> & -> & ->)].
      * destruct (v_info _ _ V' p' d' i' Hi) as [H1 H2]. split; [apply in_or_app; now left | exact H2].
      * split; [apply in_or_app; right; now left|]. exists pl. auto.
  - simpl. unfold put_shared_info. destruct (infos st p d) as [i|] eqn:E; [eauto|].
    rewrite Nat.eqb_refl, dput_same. eauto.
Qed.

Lemma finish_get_ok W st p x sz d i s st' out fs :
  sinv W st -> nth_error (hosts st) (host_of p) = Some x ->
  nth_error sizes (host_of p) = Some sz -> info_match W d i ->
  forall h, 
  host_ok W (lset (live st (host_of p)) d (live st (host_of p) d + Z.of_nat (length fs))) (fst sz) (snd sz) h ->
  (forall f, In f fs -> f = (p, d, s)) ->
  pending_cleanup (mgr h) = pending_cleanup (mgr x) ->
  (forall d' r, resv (mgr x) d' = Some r -> resv (mgr h) d' = Some r) ->
  (exists r, resv (mgr h) d = Some r /\ service_index r = s) ->
  forall hs, upd_nth (host_of p) (fun _ => h) hs = upd_nth (host_of p) (fun _ => h) (hosts st) ->
  (forall h', upd_nth (host_of p) (fun _ => h') hs = upd_nth (host_of p) (fun _ => h') (hosts st)) ->
  finish_get host_of {| hosts := hs; infos := infos st; fins := fins st ++ fs; inflight := inflight st |} p h d i s
    = (st', out) ->
  sinv W st' /\ exists pl, W d = Some pl /\ out = OValue pl.
Proof.
  intros V Hx Hsz (pl & HW & Hi) h Hok Hfs Hpend Hres (r & Hr & Hs) hs _ Hhs Hf.
  unfold finish_get in Hf. cbn [hosts infos fins inflight] in Hf.
  pose proof (host_incr _ _ _ _ _ _ _ Hok Hr) as Hok'. rewrite Hs in Hok'.
  assert (Hinfo : {| s_data_len := s_data_len i; raw_buffers_len := raw_buffers_len i;
             info_buffer_count := info_buffer_count i; info_service_index := s |} = info_of pl s).
  { rewrite Hi. reflexivity. }
  rewrite Hinfo in Hf. injection Hf as <- <-. split.
  - rewrite Hhs, <- app_assoc.
    eapply (sinv_replace W st p d x _ _ (fs ++ [(p, d, s)]) s sz V Hx Hsz).
    + eapply host_ok_mono; [| |exact Hok']; auto. intros d' _. unfold lset.
      rewrite did_eqb_refl, app_length. simpl. destruct (did_eqb d d'); lia.
    + intros f Hf. apply in_app_or in Hf. destruct Hf as [Hf|[<-|[]]]; [now apply Hfs | reflexivity].
    + simpl. exact Hpend.
    + simpl. exact Hres.
    + intros _. exists r. auto.
    + intros p' d' i' Hi'. apply put_shared_info_inv in Hi'. destruct Hi' as [Hi'|(-> & -> & ->)].
      * destruct (v_info _ _ V p' d' i' Hi') as [H1 H2]. split; [apply in_or_app; now left | exact H2].
      * split; [apply in_or_app; right; apply in_or_app; right; now left|]. exists pl. auto.
  - exists pl. split; [exact HW|]. f_equal. apply read_back. simpl.
    destruct (ho_pub _ _ _ _ _ Hok' d r) as (_ & pl' & H1 & H2 & H3 & _ & _ & H6 & _); [exact Hr|].
    assert (pl' = pl) by congruence. subst pl'. rewrite Hs in H6. simpl in H6. rewrite H6. exact H3.
Qed.

Lemma upd_upd {A} (x y : A) l : forall n,
  upd_nth n (fun _ => x) (upd_nth n (fun _ => y) l) = upd_nth n (fun _ => x) l.
Proof. induction l as [|a l IH]; intros [|n]; simpl; try reflexivity; now rewrite IH. Qed.

Lemma upd_same_id {A} (x : A) l : forall n, nth_error l n = Some x -> upd_nth n (fun _ => x) l = l.
Proof. induction l as [|a l IH]; intros [|n] H; simpl in *; try discriminate; [congruence|]. f_equal. auto. Qed.

Lemma set_mgr_same h : set_mgr h (mgr h) = h.
Proof. now destruct h. Qed.

Lemma sinv_remove_inflight W st fl :
  (forall y, In y fl -> In y (inflight st)) -> sinv W st ->
  sinv W {| hosts := hosts st; infos := infos st; fins := fins st; inflight := fl |}.
Proof. intros H [V1 V2 V3 V4 V5 V6]. constructor; try assumption. intros q d i Hin. apply V5. now apply H. Qed.

Lemma store_get_ok W st p q d i st' out x2 r2 :
  sinv W st -> info_match W d i -> (4 | info_service_index i) ->
  nth_error (hosts st) (host_of q) = Some x2 -> resv (mgr x2) d = Some r2 ->
  store_get host_of st p q d i = Some (st', out) ->
  sinv W st' /\ exists pl, W d = Some pl /\ out = OValue pl.
Proof.
  intros V Him Hal Hx2 Hr2 Hg. unfold store_get in Hg.
  destruct (nth_error (hosts st) (host_of p)) as [x|] eqn:Hx; [|discriminate].
  destruct (v_host _ _ V _ _ Hx) as (sz & Hsz & Hok).
  destruct (negb _); [discriminate|].
  assert (Hok0 : host_ok W (lset (live st (host_of p)) d (live st (host_of p) d + Z.of_nat (@length (nat*dataid*Z) []))) (fst sz) (snd sz) x).
  { eapply host_ok_mono; [| |exact Hok]; auto. intros d' _. unfold lset. simpl.
    destruct (did_eqb d d') eqn:E; [apply did_eqb_eq in E; subst|]; lia. }
  destruct (check_service_info (smem x) d (info_service_index i)) eqn:Hc.
  - apply (check_iff _ _ _ _ _ _ _ Hok Hal) in Hc.
    apply Some_inj in Hg.
    eapply (finish_get_ok W st p x sz d i _ st' out [] V Hx Hsz Him x Hok0 (fun f Hf => match Hf with end) eq_refl
              (fun _ _ H => H) Hc (hosts st) eq_refl (fun _ => eq_refl)).
    rewrite app_nil_r. destruct st; exact Hg.
  - destruct (mgr_reserve (mgr x) d (Z.of_nat (s_data_len i + list_sum (raw_buffers_len i)))) as [m' [[r b]|]] eqn:Hr; [|discriminate].
    destruct b.
    + apply reserve_true in Hr. destruct Hr as [Hnone Hp].
      destruct (put_ok_facts _ _ _ _ _ Hp) as [Hpend Hres].
      assert (Hneq : host_of q <> host_of p) by (intros E; rewrite E in Hx2; congruence).
      unfold sync_bytes, set_host in Hg. cbn [hosts infos fins inflight] in Hg.
      rewrite nth_upd_other, Hx2, Hr2 in Hg by congruence.
      destruct (v_host _ _ V _ _ Hx2) as (sz2 & Hsz2 & Hok2).
      destruct (ho_pub _ _ _ _ _ Hok2 d r2 Hr2) as (_ & pl & HW & Hlen2 & Hbytes & _).
      rewrite Hlen2, Nat2Z.id, Hbytes in Hg.
      pose proof Him as (pl' & HW' & Hi). assert (pl' = pl) by congruence. subst pl'.
      assert (Hsize : (s_data_len i + list_sum (raw_buffers_len i))%nat = data_size pl).
      { rewrite Hi. reflexivity. }
      rewrite Hsize in Hp.
      assert (Hpos : (0 < data_size pl)%nat) by (eapply (v_pos _ _ V); eauto).
      assert (Hlen : last_index r - first_index r = Z.of_nat (data_size pl)) by (refine (put_len _ _ _ _ _ _ Hp); lia).
      destruct (Z.of_nat (length (flat pl)) >? last_index r - first_index r) eqn:E; [discriminate|]. clear E.
      apply Some_inj in Hg.
      eapply (finish_get_ok W st p x sz d i _ st' out [(p, d, service_index r)] V Hx Hsz Him); [| | | | | | |exact Hg].
      * rewrite (live_zero _ _ _ _ _ V Hx Hnone). simpl (0 + _).
        exact (host_publish _ _ _ _ _ _ _ _ _ Hok HW Hpos Hnone Hp).
      * intros f [<-|[]]. reflexivity.
      * simpl. exact Hpend.
      * simpl. intros d' r' Hr'. rewrite Hres. rewrite dput_other; [exact Hr'|]. congruence.
      * exists r. simpl. rewrite Hres, dput_same. auto.
      * apply upd_upd.
      * intros h'. apply upd_upd.
    + apply reserve_false in Hr. destruct Hr as [Hr ->].
      rewrite set_mgr_same in Hg.
      destruct (check_service_info (smem x) d (service_index r)) eqn:Hc2; [|discriminate].
      apply Some_inj in Hg. unfold set_host in Hg. cbn [hosts infos fins inflight] in Hg.
      eapply (finish_get_ok W st p x sz d i _ st' out [] V Hx Hsz Him x Hok0 (fun f Hf => match Hf with end) eq_refl
              (fun _ _ H => H)); [exists r; auto | | | rewrite app_nil_r; exact Hg].
      * apply upd_upd.
      * intros h'. apply upd_upd.
Qed.

Lemma filter_split_length {A} (f g : A -> bool) l :
  (forall x, In x l -> g x = true -> f x = true) ->
  length (filter f l) = (length (filter f (filter (fun x => negb (g x)) l)) + length (filter g l))%nat.
Proof.
  induction l as [|x l IH]; simpl; intros H; [reflexivity|].
  specialize (IH (fun y Hy => H y (or_intror Hy))).
  destruct (g x) eqn:E; simpl.
  - rewrite (H x (or_introl eq_refl) E). simpl. lia.
  - destruct (f x); simpl; lia.
Qed.

Lemma sinv_drop W st p d st' :
  sinv W st -> store_drop host_of st p d = Some st' -> sinv W st'.
Proof.
  intros V Hd. unfold store_drop in Hd.
  destruct (nth_error (hosts st) (host_of p)) as [x|] eqn:Hx; [|discriminate].
  destruct (v_host _ _ V _ _ Hx) as (sz & Hsz & Hok). injection Hd as <-.
  pose proof V as [V1 V2 V3 V4 V5 V6].
  set (mine := map snd (filter (fin_is p d) (fins st))).
  set (h' := set_smem x (run_finalizers (smem x) d mine)).
  assert (Hother : forall h d', (h <> host_of p \/ d' <> d) ->
     length (filter (fun f => Nat.eqb (host_of (fst (fst f))) h && did_eqb (snd (fst f)) d')
               (filter (fun f => negb (fin_is p d f)) (fins st))) = holders host_of st h d').
  { intros h d' Hne. unfold holders. generalize (fins st) as l.
    induction l as [|f l IH]; simpl; [reflexivity|].
    destruct (fin_is p d f) eqn:E; simpl.
    - unfold fin_is in E. apply andb_prop in E. destruct E as [E1 E2].
      apply Nat.eqb_eq in E1. apply did_eqb_eq in E2.
      destruct (Nat.eqb_spec (host_of (fst (fst f))) h) as [E3|E3]; simpl; [|exact IH].
      destruct (did_eqb (snd (fst f)) d') eqn:E4; [|exact IH].
      apply did_eqb_eq in E4. subst. destruct Hne; congruence.
    - destruct (Nat.eqb (host_of (fst (fst f))) h && did_eqb (snd (fst f)) d'); simpl; now rewrite IH. }
  assert (Hself : holders host_of st (host_of p) d =
     (length (filter (fun f => Nat.eqb (host_of (fst (fst f))) (host_of p) && did_eqb (snd (fst f)) d)
               (filter (fun f => negb (fin_is p d f)) (fins st))) + length mine)%nat).
  { unfold holders, mine. rewrite map_length. apply filter_split_length.
    intros f _ Hf. unfold fin_is in Hf. apply andb_prop in Hf. destruct Hf as [H1 H2].
    apply Nat.eqb_eq in H1. rewrite H1, H2, Nat.eqb_refl. reflexivity. }
  assert (Hok' : host_ok W (lset (live st (host_of p)) d (live st (host_of p) d - Z.of_nat (length mine))) (fst sz) (snd sz) h').
  { destruct (resv (mgr x) d) as [r|] eqn:Hr.
    - apply host_run_finalizers with (r := r); auto. intros s Hs. unfold mine in Hs.
      apply in_map_iff in Hs. destruct Hs as ([[p' d'] s'] & <- & Hin). simpl.
      apply filter_In in Hin. destruct Hin as [Hin Hf]. unfold fin_is in Hf. simpl in Hf.
      apply andb_prop in Hf. destruct Hf as [H1 H2]. apply Nat.eqb_eq in H1. apply did_eqb_eq in H2. subst.
      destruct (V3 _ _ _ Hin) as (y & r' & H1 & H2 & H3). congruence.
    - assert (Hm : mine = []).
      { destruct mine as [|s l] eqn:E; [reflexivity|]. exfalso.
        pose proof (live_zero _ _ _ _ _ V Hx Hr) as Hz. unfold live in Hz. rewrite Hself in Hz.
        simpl in Hz. lia. }
      unfold h'. rewrite Hm. simpl. eapply host_ok_mono; [| |destruct x; exact Hok]; auto.
      intros d' Hd'. unfold lset. destruct (did_eqb d d') eqn:E; [|reflexivity].
      apply did_eqb_eq in E. subst. simpl in Hd'. congruence. }
  assert (Hres : forall h y d' r, nth_error (hosts st) h = Some y -> resv (mgr y) d' = Some r ->
     exists y', nth_error (upd_nth (host_of p) (fun _ => h') (hosts st)) h = Some y' /\ resv (mgr y') d' = Some r).
  { intros h y d' r Hy Hr. destruct (Nat.eq_dec h (host_of p)) as [->|Hne].
    - exists h'. split; [eapply nth_upd_same; eauto|]. simpl. congruence.
    - exists y. split; [rewrite nth_upd_other by congruence; exact Hy | exact Hr]. }
  constructor; cbn [hosts infos fins inflight].
  - intros h y Hy. apply nth_upd_inv in Hy. destruct Hy as [(-> & -> & _)|[Hne Hy]].
    + exists sz. split; [exact Hsz|]. eapply host_ok_mono; [| |exact Hok']; auto.
      intros d' _. unfold lset, live. unfold holders at 3. cbn [fins].
      destruct (did_eqb d d') eqn:E.
      * apply did_eqb_eq in E. subst d'. rewrite Hself. lia.
      * rewrite Hother; [reflexivity|]. right. intros ->. rewrite did_eqb_refl in E. discriminate.
    + destruct (V1 h y Hy) as (sz' & Hsz' & Hok2). exists sz'. split; [exact Hsz'|].
      eapply host_ok_mono; [| |exact Hok2]; auto. intros d' _. unfold live. unfold holders at 2. cbn [fins].
      rewrite Hother; auto.
  - eapply same_pending_upd; eauto.
  - intros p' d' s' Hin. apply filter_In in Hin. destruct Hin as [Hin _].
    destruct (V3 p' d' s' Hin) as (y & r & H1 & H2 & H3).
    destruct (Hres _ _ _ _ H1 H2) as (y' & H4 & H5). eauto.
  - intros p' d' i Hi. unfold del_shared_info in Hi. destruct (Nat.eqb_spec p' p) as [->|Hne].
    + unfold ddel in Hi. destruct (did_eqb d d') eqn:E; [discriminate|].
      destruct (V4 p d' i Hi) as [H1 H2]. split; [|exact H2]. apply filter_In. split; [exact H1|].
      unfold fin_is. simpl. rewrite (did_eqb_sym d' d), E. now rewrite andb_false_r.
    + destruct (V4 p' d' i Hi) as [H1 H2]. split; [|exact H2]. apply filter_In. split; [exact H1|].
      unfold fin_is. simpl. destruct (Nat.eqb_spec p' p); [congruence | reflexivity].
  - intros q d' i Hin. destruct (V5 q d' i Hin) as (H1 & H2 & y & r & H3 & H4).
    split; [exact H1|]. split; [exact H2|]. destruct (Hres _ _ _ _ H3 H4) as (y' & H5 & H6). eauto.
  - exact V6.
Qed.

(** Cleanup. *)
Definition clear_host (all_refs : list bool) (ids : list dataid) (h : host) : option host :=
  host_clear_loop (set_mgr h {| resv := resv (mgr h); free_memory := free_memory (mgr h);
                                free_service := free_service (mgr h); pending_cleanup := [] |})
                  (combine (cleanup_list (mgr h) ids) all_refs).

Lemma fold_opt_some (f : host -> option host) hs : 
  (forall h, In h hs -> exists h', f h = Some h') ->
  exists hs', fold_right (fun h acc => match acc, f h with Some l, Some h' => Some (h' :: l) | _, _ => None end)
                (Some []) hs = Some hs' /\
    length hs' = length hs /\
    forall n h', nth_error hs' n = Some h' -> exists h, nth_error hs n = Some h /\ f h = Some h'.
Proof.
  induction hs as [|h hs IH]; intros H; cbn [fold_right].
  - exists []. split; [reflexivity|]. split; [reflexivity|]. intros [|n] h' E; discriminate.
  - destruct IH as (hs' & E1 & E2 & E3); [intros; apply H; now right|].
    rewrite E1. destruct (H h (or_introl eq_refl)) as (h' & Eh). rewrite Eh.
    exists (h' :: hs'). split; [reflexivity|]. split; [simpl; congruence|].
    intros [|n] y Hy; simpl in *; [injection Hy as <-; eauto | eauto].
Qed.

Definition refdS (st : store) (d : dataid) : bool :=
  existsb (fun h => counted (mgr h, host_refs h) d) (hosts st).

Lemma sinv_cleanup W st ids hs' :
  sinv W st -> quiet_cleanup st (SCleanup ids) ->
  hosts_clear (hosts st) ids = Some hs' ->
  sinv W {| hosts := hs'; infos := infos st; fins := fins st; inflight := inflight st |} /\
  (forall n h d r p s, nth_error (hosts st) n = Some h -> resv (mgr h) d = Some r ->
     In (p, d, s) (fins st) -> exists h', nth_error hs' n = Some h' /\ resv (mgr h') d = Some r) /\
  (forall n h' d, nth_error hs' n = Some h' -> (In d ids \/ exists x, In x (hosts st) /\ In d (pending_cleanup (mgr x))) ->
     (forall p s, ~ In (p, d, s) (fins st)) -> resv (mgr h') d = None) /\
  (forall n h' d, nth_error hs' n = Some h' -> exists h, nth_error (hosts st) n = Some h /\
     (In d ids \/ In d (pending_cleanup (mgr h)) \/ resv (mgr h) d = None ->
      resv (mgr h') d = None \/ In d (pending_cleanup (mgr h')))).
Proof.
  intros V Hq Hc. pose proof V as [V1 V2 V3 V4 V5 V6].
  set (P := match hosts st with [] => [] | x :: _ => pending_cleanup (mgr x) end) in *.
  set (all_refs := allreduce_max (map (fun h => has_refs (host_refs h) (mgr h) (cleanup_list (mgr h) ids)) (hosts st))) in *.
  assert (Har : hosts st <> [] -> all_refs = map (refdS st) (P ++ ids)).
  { intros Hne. unfold all_refs.
    assert (E : map (fun h => has_refs (host_refs h) (mgr h) (cleanup_list (mgr h) ids)) (hosts st)
              = map (fun h => map (counted (mgr h, host_refs h)) (P ++ ids)) (hosts st)).
    { apply map_ext_in. intros h Hh. unfold has_refs, cleanup_list.
      rewrite (V2 (mgr h)) by now apply in_map. reflexivity. }
    rewrite E. exact (allreduce_map (fun h => counted (mgr h, host_refs h)) (hosts st) (P ++ ids) Hne). }
  assert (Hcl : forall n h, nth_error (hosts st) n = Some h ->
     exists h', clear_host all_refs ids h = Some h' /\
       (exists sz, nth_error sizes n = Some sz /\ host_ok W (live st n) (fst sz) (snd sz) h') /\
       mgr h' = clear_loop (set_pending (mgr h) []) (map (fun d => (d, refdS st d)) (P ++ ids))).
  { intros n h Hn. destruct (V1 n h Hn) as (sz & Hsz & Hok).
    destruct (host_clear_loop_ok _ _ _ _ (combine (cleanup_list (mgr h) ids) all_refs) _
                 (host_set_pending _ _ _ _ h [] Hok)) as (h' & E & Hok' & Em).
    exists h'. split; [exact E|]. split; [exists sz; auto|]. rewrite Em. simpl.
    rewrite Har; [|intros E0; rewrite E0 in Hn; destruct n; discriminate].
    unfold cleanup_list. rewrite (V2 (mgr h)) by (apply in_map; eapply nth_error_In; eauto).
    fold P. now rewrite combine_map. }
  assert (Hsome : forall h, In h (hosts st) -> exists h', clear_host all_refs ids h = Some h').
  { intros h Hh. destruct (In_nth_error _ _ Hh) as (n & Hn). destruct (Hcl n h Hn) as (h' & E & _). eauto. }
  destruct (fold_opt_some (clear_host all_refs ids) (hosts st) Hsome) as (hs2 & E1 & E2 & E3).
  unfold hosts_clear in Hc. fold all_refs in Hc. unfold clear_host in E1.
  rewrite E1 in Hc. injection Hc as <-. clear E1.
  assert (Hnew : forall n h', nth_error hs2 n = Some h' -> exists h, nth_error (hosts st) n = Some h /\
       (exists sz, nth_error sizes n = Some sz /\ host_ok W (live st n) (fst sz) (snd sz) h') /\
       mgr h' = clear_loop (set_pending (mgr h) []) (map (fun d => (d, refdS st d)) (P ++ ids))).
  { intros n h' Hn. destruct (E3 n h' Hn) as (h & Hh & Ec). exists h. split; [exact Hh|].
    destruct (Hcl n h Hh) as (h2 & Ec2 & H3 & H4). assert (h2 = h') by congruence. subst. auto. }
  assert (Hold : forall n h, nth_error (hosts st) n = Some h -> exists h', nth_error hs2 n = Some h' /\
       mgr h' = clear_loop (set_pending (mgr h) []) (map (fun d => (d, refdS st d)) (P ++ ids))).
  { intros n h Hn. destruct (nth_error hs2 n) as [h'|] eqn:E.
    - exists h'. split; [reflexivity|]. destruct (Hnew n h' E) as (h0 & H0 & _ & Em). congruence.
    - apply nth_error_None in E. assert (n < length (hosts st))%nat by (apply nth_error_Some; congruence). lia. }
  assert (Hkeep : forall n h d r, nth_error (hosts st) n = Some h -> resv (mgr h) d = Some r ->
      (refdS st d = true \/ ~ In d (P ++ ids)) ->
      exists h', nth_error hs2 n = Some h' /\ resv (mgr h') d = Some r).
  { intros n h d r Hn Hr Hcase. destruct (Hold n h Hn) as (h' & Hn' & Em). exists h'. split; [exact Hn'|].
    rewrite Em, clear_loop_resv_map. simpl. destruct Hcase as [Href|Hnin].
    - rewrite Href, andb_false_r. exact Hr.
    - destruct (did_in d (P ++ ids)) eqn:E; [|exact Hr]. apply did_in_In in E. contradiction. }
  assert (Hheld : forall p d s, In (p, d, s) (fins st) -> refdS st d = true).
  { intros p d s Hin. destruct (V3 p d s Hin) as (x & r & H1 & H2 & H3).
    unfold refdS. apply existsb_exists. exists x. split; [eapply nth_error_In; eauto|].
    unfold counted. simpl. rewrite H2. unfold host_refs. rewrite H2.
    destruct (V1 _ _ H1) as (sz & _ & Hok).
    destruct (ho_pub _ _ _ _ _ Hok d r H2) as (Hal & pl & _ & _ & _ & _ & _ & _ & HL).
    unfold get_ref_number.
    assert (Hck : check_service_info (smem x) d (service_index r) = true)
      by (apply (check_iff _ _ _ _ _ _ _ Hok Hal); eauto).
    rewrite Hck, HL. unfold live. pose proof (holders_in st p d s Hin). apply Z.ltb_lt. lia. }
  split; [|split; [|split]].
  2: { intros n h d r p s Hn Hr Hin. exact (Hkeep n h d r Hn Hr (or_introl (Hheld p d s Hin))). }
  2: { intros n h' d Hn Hd Hno. destruct (Hnew n h' Hn) as (h & Hh & _ & Em).
       rewrite Em, clear_loop_resv_map.
       assert (Href : refdS st d = false).
       { destruct (refdS st d) eqn:E; [|reflexivity]. exfalso. unfold refdS in E.
         apply existsb_exists in E. destruct E as (x & Hx & Hcnt).
         destruct (In_nth_error _ _ Hx) as (k & Hk). destruct (V1 _ _ Hk) as (sz & _ & Hok).
         unfold counted in Hcnt. simpl in Hcnt. unfold host_refs in Hcnt.
         destruct (resv (mgr x) d) as [r|] eqn:Hr; [|discriminate].
         destruct (ho_pub _ _ _ _ _ Hok d r Hr) as (Hal & pl & _ & _ & _ & _ & _ & _ & HL).
         unfold get_ref_number in Hcnt.
         assert (Hck : check_service_info (smem x) d (service_index r) = true)
           by (apply (check_iff _ _ _ _ _ _ _ Hok Hal); eauto).
         rewrite Hck, HL in Hcnt. unfold live in Hcnt. apply Z.ltb_lt in Hcnt.
         destruct (holders_pos st k d) as (p & s & Hin & _); [lia|]. exact (Hno p s Hin). }
       rewrite Href. assert (Hin : did_in d (P ++ ids) = true).
       { apply did_in_In, in_or_app. destruct Hd as [Hd|(x & Hx & Hd)]; [now right|]. left.
         rewrite (V2 (mgr x)) in Hd by now apply in_map. exact Hd. }
       now rewrite Hin. }
  2: { intros n h' d Hn. destruct (Hnew n h' Hn) as (h & Hh & _ & Em). exists h. split; [exact Hh|]. intros Hd.
       assert (Hp : pending_cleanup (mgr h) = P) by (apply (V2 (mgr h)), in_map; eapply nth_error_In; eauto).
       rewrite Em, clear_loop_resv_map, clear_loop_pending. simpl. rewrite Hp in Hd.
       assert (Hin : In d (P ++ ids) \/ resv (mgr h) d = None) by (rewrite in_app_iff; tauto). clear Hd.
       destruct (refdS st d) eqn:Hr.
       - destruct Hin as [Hin|Hin]; [right; apply filter_In; auto|]. left. rewrite andb_false_r. exact Hin.
       - left. destruct Hin as [Hin|Hin]; [apply did_in_In in Hin; rewrite Hin; reflexivity|].
         destruct (_ && _); auto. }
  constructor; cbn [hosts infos fins inflight].
  - intros n h' Hn. destruct (Hnew n h' Hn) as (h & Hh & (sz & Hsz & Hok) & _). exists sz.
    split; [exact Hsz | exact Hok].
  - assert (Hall : forall y, In y hs2 -> pending_cleanup (mgr y) = filter (refdS st) (P ++ ids)).
    { intros y Hy. destruct (In_nth_error _ _ Hy) as (n & Hn). destruct (Hnew n y Hn) as (h & _ & _ & Em).
      rewrite Em, clear_loop_pending. reflexivity. }
    intros m Hm. apply in_map_iff in Hm. destruct Hm as (y & <- & Hy). rewrite (Hall y Hy).
    destruct hs2 as [|y0 l]; [destruct Hy|]. symmetry. apply Hall. now left.
  - intros p d s Hin. destruct (V3 p d s Hin) as (x & r & H1 & H2 & H3).
    pose proof (Hheld p d s Hin) as Href.
    destruct (Hkeep _ _ _ _ H1 H2 (or_introl Href)) as (x' & H4 & H5). eauto.
  - intros p d i Hi. exact (V4 p d i Hi).
  - intros q d i Hin. destruct (V5 q d i Hin) as (H1 & H2 & x & r & H3 & H4).
    split; [exact H1|]. split; [exact H2|].
    assert (Hnin : ~ In d (P ++ ids)).
    { intros Hd. apply (Hq q d i x Hin (nth_error_In _ _ H3)).
      rewrite (V2 (mgr x)) by (apply in_map; eapply nth_error_In; eauto). exact Hd. }
    destruct (Hkeep _ _ _ _ H3 H4 (or_intror Hnin)) as (x' & H5 & H6). eauto.
  - exact V6.
Qed.

Lemma nth_error_remove_nth {A} (l : list A) : forall n y, In y (remove_nth n l) -> In y l.
Proof.
  induction l as [|a l IH]; intros [|n] y H; simpl in *; auto.
  destruct H as [->|H]; [now left | right; eauto].
Qed.

Definition extW (W : dataid -> option payload) (o : sop) : dataid -> option payload :=
  match o with
  | SPut _ d pl => fun x => if did_eqb d x then Some pl else W x
  | _ => W
  end.

Definition op_fresh (W : dataid -> option payload) (o : sop) : Prop :=
  match o with SPut _ d pl => W d = None | _ => True end.

Lemma sinv_step W st o st' out :
  sinv W st -> big_enough o -> op_fresh W o -> quiet_cleanup st o ->
  sstep host_of st o = Some (st', out) -> sinv (extW W o) st'.
Proof.
  intros V Hb Hf Hq Hs. destruct o as [p d pl|p d|p k|p d|p d|ids|k0]; simpl in *.
  - destruct (store_put host_of st p d pl) as [st2|] eqn:E; [|discriminate]. injection Hs as <- <-.
    exact (proj1 (sinv_put _ _ _ _ _ _ V Hf Hb E)).
  - destruct (infos st p d) as [i|] eqn:Ei; injection Hs as <- <-; [|exact V].
    destruct V as [V1 V2 V3 V4 V5 V6]. constructor; auto.
    intros q d' i' Hin. apply in_app_or in Hin. destruct Hin as [Hin|[E|[]]]; [now apply V5|].
    injection E as <- <- <-. destruct (V4 _ _ _ Ei) as [H1 H2]. split; [exact H2|].
    destruct (V3 _ _ _ H1) as (x & r & H3 & H4 & H5). rewrite <- H5.
    destruct (V1 _ _ H3) as (sz & _ & Hok). destruct (ho_pub _ _ _ _ _ Hok d r H4) as (Hal & _).
    split; [exact Hal | eauto].
  - destruct (nth_error (inflight st) k) as [[[q d] i]|] eqn:Ek.
    + destruct (v_fly _ _ V q d i (nth_error_In _ _ Ek)) as (H1 & H2 & x & r & H3 & H4).
      pose proof (sinv_remove_inflight W st (remove_nth k (inflight st))
                    (fun y => nth_error_remove_nth _ k y) V) as V'.
      exact (proj1 (store_get_ok _ _ _ _ _ _ _ _ _ _ V' H1 H2 H3 H4 Hs)).
    + injection Hs as <- <-. exact V.
  - destruct (infos st p d); [destruct (nth_error (hosts st) (host_of p))|]; injection Hs as <- <-; exact V.
  - destruct (store_drop host_of st p d) as [st2|] eqn:E; [|discriminate]. injection Hs as <- <-.
    exact (sinv_drop _ _ _ _ _ V E).
  - destruct (hosts_clear (hosts st) ids) as [hs|] eqn:E; [|discriminate]. injection Hs as <- <-.
    exact (proj1 (sinv_cleanup _ _ _ _ V Hq E)).
  - injection Hs as <- <-. exact (sinv_remove_inflight W st _ (fun y => nth_error_remove_nth _ k0 y) V).
Qed.

Lemma sinv_run : forall ops W st st',
  sinv W st -> Forall big_enough ops -> NoDup (puts ops) ->
  (forall d, In d (puts ops) -> W d = None) ->
  quiet_run host_of st ops -> srun host_of st ops = Some st' ->
  sinv (fun d => match W d with Some pl => Some pl | None => written ops d end) st'.
Proof.
  induction ops as [|o ops IH]; intros W st st' V Hb Hn HW Hq Hr; simpl in Hr.
  - injection Hr as <-. eapply sinv_mono; [| |exact V].
    + intros d pl H. now rewrite H.
    + intros d pl H. simpl in H. destruct (W d) eqn:E; [|discriminate].
      injection H as <-. exact (v_pos _ _ V _ _ E).
  - destruct Hq as [Hq1 Hq2].
    destruct (sstep host_of st o) as [[st1 out]|] eqn:E; [|discriminate].
    inversion Hb as [|x y Hb1 Hb2]; subst.
    assert (Hfr : op_fresh W o).
    { destruct o; simpl; auto. apply HW. simpl. now left. }
    pose proof (sinv_step _ _ _ _ _ V Hb1 Hfr Hq1 E) as V1.
    assert (Hn2 : NoDup (puts ops)) by (destruct o; simpl in Hn; auto; now inversion Hn).
    assert (HW2 : forall d, In d (puts ops) -> extW W o d = None).
    { intros d Hd. destruct o as [p d0 pl| | | | | |]; simpl in *; try (apply HW; exact Hd).
      inversion Hn; subst. destruct (did_eqb d0 d) eqn:E2; [apply did_eqb_eq in E2; subst; contradiction|].
      apply HW. now right. }
    specialize (IH _ _ _ V1 Hb2 Hn2 HW2 Hq2 Hr).
    eapply sinv_mono; [| |exact IH].
    + intros d pl. destruct o as [p d0 pl0| | | | | |]; simpl; auto.
      destruct (did_eqb d0 d) eqn:E2; [|auto].
      apply did_eqb_eq in E2. subst d0. simpl in Hfr. rewrite Hfr. auto.
    + intros d pl H. destruct (W d) eqn:EW; [injection H as <-; exact (v_pos _ _ V _ _ EW)|].
      apply (v_pos _ _ IH d). destruct o as [p d0 pl0| | | | | |]; simpl in *; try (rewrite EW; exact H).
      destruct (did_eqb d0 d); [exact H | rewrite EW; exact H].
Qed.

Lemma sinv_init : sizes_ok sizes -> sinv (fun _ => None) (store_init sizes).
Proof.
  intros Hs. constructor; simpl; try discriminate; try (intros; contradiction).
  - intros h x Hx. rewrite nth_error_map in Hx. destruct (nth_error sizes h) as [sz|] eqn:E; [|discriminate].
    injection Hx as <-. exists sz. split; [reflexivity|].
    unfold sizes_ok in Hs. rewrite Forall_forall in Hs.
    destruct (Hs sz (nth_error_In _ _ E)) as (H1 & H2 & H3).
    constructor; simpl.
    + now apply minv_init.
    + unfold fmr_init. apply al_cons; [apply Z.divide_0_r | exact H3 | constructor].
    + unfold dempty; discriminate.
    + intros s _. now left.
    + reflexivity.
  - intros m Hm. rewrite map_map in Hm. apply in_map_iff in Hm. destruct Hm as (sz & <- & Hin).
    destruct sizes; [destruct Hin|]. reflexivity.
Qed.

Lemma puts_app a b : puts (a ++ b) = puts a ++ puts b.
Proof. induction a as [|o a IH]; simpl; [reflexivity|]. destruct o; simpl; now rewrite IH. Qed.

Lemma NoDup_app_l {A} (a b : list A) : NoDup (a ++ b) -> NoDup a.
Proof.
  induction a as [|x a IH]; intros H; [constructor|]. inversion H as [|y l Hx Hl]; subst.
  constructor; [|now apply IH]. intros Hin. apply Hx. apply in_or_app. now left.
Qed.

Lemma reach_inv ops st : sizes_ok sizes -> history_ok ops ->
  quiet_run host_of (store_init sizes) ops ->
  srun host_of (store_init sizes) ops = Some st -> sinv (written ops) st.
Proof.
  intros Hs [Hn Hb] Hq Hr.
  pose proof (sinv_run ops (fun _ => None) _ _ (sinv_init Hs) Hb Hn (fun _ _ => eq_refl) Hq Hr) as V.
  simpl in V. exact V.
Qed.

(* ---------------------------------------------------------- final forms *)

Lemma read_returns_written ops st p d i :
  sizes_ok sizes -> history_ok ops -> quiet_run host_of (store_init sizes) ops ->
  srun host_of (store_init sizes) ops = Some st ->
  infos st p d = Some i ->
  exists pl, written ops d = Some pl /\ sstep host_of st (SRead p d) = Some (st, OValue pl).
Proof.
  intros Hs Hh Hq Hr Hi. pose proof (reach_inv ops st Hs Hh Hq Hr) as V.
  destruct (v_info _ _ V p d i Hi) as [Hin (pl & HW & Hinfo)].
  exists pl. split; [exact HW|]. simpl. rewrite Hi.
  destruct (v_fin _ _ V _ _ _ Hin) as (x & r & H1 & H2 & H3). rewrite H1.
  destruct (v_host _ _ V _ _ H1) as (sz & _ & Hok).
  destruct (ho_pub _ _ _ _ _ Hok d r H2) as (_ & pl' & HW' & Hl & Hb & _ & _ & H6 & _).
  assert (pl' = pl) by congruence. subst pl'. rewrite Hinfo. do 2 f_equal. f_equal.
  apply read_back. rewrite <- H3, H6. exact Hb.
Qed.

Lemma recv_returns_written ops st p k q d i st' out :
  sizes_ok sizes -> history_ok ops -> quiet_run host_of (store_init sizes) ops ->
  srun host_of (store_init sizes) ops = Some st ->
  nth_error (inflight st) k = Some (q, d, i) ->
  sstep host_of st (SRecv p k) = Some (st', out) ->
  exists pl, written ops d = Some pl /\ out = OValue pl /\ infos st' p d <> None.
Proof.
  intros Hs Hh Hq Hr Hk Hst. pose proof (reach_inv ops st Hs Hh Hq Hr) as V.
  simpl in Hst. rewrite Hk in Hst.
  destruct (v_fly _ _ V q d i (nth_error_In _ _ Hk)) as (H1 & H2 & x & r & H3 & H4).
  pose proof (sinv_remove_inflight _ st (remove_nth k (inflight st))
                    (fun y => nth_error_remove_nth _ k y) V) as V'.
  destruct (store_get_ok _ _ _ _ _ _ _ _ _ _ V' H1 H2 H3 H4 Hst) as [_ (pl & HW & ->)].
  exists pl. split; [exact HW|]. split; [reflexivity|].
  assert (G : forall inf p d i, put_shared_info inf p d i p d <> None).
  { clear. intros inf p d i. unfold put_shared_info. destruct (inf p d) eqn:E; [congruence|].
    rewrite Nat.eqb_refl, dput_same. discriminate. }
  unfold store_get in Hst. cbn [hosts infos fins inflight] in Hst.
  destruct (nth_error (hosts st) (host_of p)); [|discriminate].
  destruct (negb _); [discriminate|].
  destruct (check_service_info _ _ _).
  - injection Hst as <- _. simpl. apply G.
  - destruct (mgr_reserve _ _ _) as [m' [[r' []]|]]; [| |discriminate].
    + destruct (sync_bytes _ _ _ _); [|discriminate]. destruct (_ >? _); [discriminate|].
      injection Hst as <- _. simpl. apply G.
    + destruct (check_service_info _ _ _); [|discriminate]. injection Hst as <- _. simpl. apply G.
Qed.

Lemma count_is_holders ops st h d c :
  sizes_ok sizes -> history_ok ops -> quiet_run host_of (store_init sizes) ops ->
  srun host_of (store_init sizes) ops = Some st ->
  stored_count st h d = Some c -> c = Z.of_nat (holders host_of st h d).
Proof.
  intros Hs Hh Hq Hr Hc. pose proof (reach_inv ops st Hs Hh Hq Hr) as V.
  unfold stored_count in Hc. destruct (nth_error (hosts st) h) as [x|] eqn:Hx; [|discriminate].
  destruct (resv (mgr x) d) as [r|] eqn:E; [|discriminate]. injection Hc as <-.
  destruct (v_host _ _ V _ _ Hx) as (sz & _ & Hok).
  destruct (ho_pub _ _ _ _ _ Hok d r E) as (_ & pl' & _ & _ & _ & _ & _ & _ & H). exact H.
Qed.

Lemma held_is_reserved ops st p d s :
  sizes_ok sizes -> history_ok ops -> quiet_run host_of (store_init sizes) ops ->
  srun host_of (store_init sizes) ops = Some st ->
  In (p, d, s) (fins st) -> stored_count st (host_of p) d <> None.
Proof.
  intros Hs Hh Hq Hr Hin. pose proof (reach_inv ops st Hs Hh Hq Hr) as V.
  destruct (v_fin _ _ V _ _ _ Hin) as (x & r & H1 & H2 & H3).
  unfold stored_count. rewrite H1, H2. discriminate.
Qed.

Lemma srun_app ops : forall st more, srun host_of st (ops ++ more) =
  match srun host_of st ops with None => None | Some st' => srun host_of st' more end.
Proof.
  induction ops as [|o ops IH]; intros st more; simpl; [reflexivity|].
  destruct (sstep host_of st o) as [[s1 u]|]; [apply IH | reflexivity].
Qed.

Lemma quiet_app ops : forall st more, quiet_run host_of st (ops ++ more) -> quiet_run host_of st ops.
Proof.
  induction ops as [|o ops IH]; intros st more H; simpl in *; [exact I|].
  destruct H as [H1 H2]. split; [exact H1|]. destruct (sstep host_of st o) as [[s1 u]|]; [eauto | exact I].
Qed.

Lemma history_app ops more : history_ok (ops ++ more) -> history_ok ops.
Proof.
  intros [H1 H2]. split.
  - rewrite puts_app in H1. exact (NoDup_app_l _ _ H1).
  - apply Forall_app in H2. apply H2.
Qed.

Lemma put_shared_info_keep inf p d i p' d' : inf p' d' <> None -> put_shared_info inf p d i p' d' <> None.
Proof.
  intros H. unfold put_shared_info. destruct (inf p d); [exact H|].
  destruct (Nat.eqb_spec p' p) as [->|]; [|exact H].
  unfold dput. destruct (did_eqb d d'); [discriminate | exact H].
Qed.

Lemma info_keep st o st' out p d :
  sstep host_of st o = Some (st', out) -> infos st p d <> None -> o <> SDrop p d -> infos st' p d <> None.
Proof.
  intros H Hi Hne. destruct o as [p0 d0 pl|p0 d0|p0 k|p0 d0|p0 d0|ids|k0]; simpl in H.
  - unfold store_put in H. destruct (nth_error _ _); [|discriminate].
    destruct (mgr_reserve _ _ _) as [? [[? ?]|]]; [|discriminate].
    destruct (write_to_shared_buffer _ _ _) as [[? ?]|]; [|discriminate].
    injection H as <- _. now apply put_shared_info_keep.
  - destruct (infos st p0 d0); injection H as <- _; exact Hi.
  - destruct (nth_error (inflight st) k) as [[[q d1] i]|]; [|injection H as <- _; exact Hi].
    unfold store_get in H. cbn [hosts infos fins inflight] in H.
    destruct (nth_error (hosts st) (host_of p0)); [|discriminate]. destruct (negb _); [discriminate|].
    destruct (check_service_info _ _ _); [injection H as <- _; now apply put_shared_info_keep|].
    destruct (mgr_reserve _ _ _) as [m' [[r' []]|]]; [| |discriminate].
    + destruct (sync_bytes _ _ _ _); [|discriminate]. destruct (_ >? _); [discriminate|].
      injection H as <- _. now apply put_shared_info_keep.
    + destruct (check_service_info _ _ _); [|discriminate]. injection H as <- _. now apply put_shared_info_keep.
  - destruct (infos st p0 d0); [destruct (nth_error _ _)|]; injection H as <- _; exact Hi.
  - unfold store_drop in H. destruct (nth_error _ _); [|discriminate]. injection H as <- _.
    simpl. unfold del_shared_info. destruct (Nat.eqb_spec p p0) as [->|]; [|exact Hi].
    unfold ddel. destruct (did_eqb d0 d) eqn:E; [apply did_eqb_eq in E; congruence | exact Hi].
  - destruct (hosts_clear _ _); [|discriminate]. injection H as <- _. exact Hi.
  - injection H as <- _. exact Hi.
Qed.

Lemma info_keep_run more : forall st st' p d,
  srun host_of st more = Some st' -> infos st p d <> None -> ~ In (SDrop p d) more -> infos st' p d <> None.
Proof.
  induction more as [|o more IH]; intros st st' p d H Hi Hn; simpl in H; [injection H as <-; exact Hi|].
  destruct (sstep host_of st o) as [[s1 u]|] eqn:E; [|discriminate].
  refine (IH s1 st' p d H (info_keep _ _ _ _ _ _ E Hi _) _).
  - intros ->. apply Hn. now left.
  - intros Hin. apply Hn. now right.
Qed.

Lemma written_app ops more d pl : written ops d = Some pl -> written (ops ++ more) d = Some pl.
Proof.
  induction ops as [|o ops IH]; simpl; [discriminate|]. destruct o; auto.
  destruct (did_eqb d0 d); auto.
Qed.

Lemma other_writes_harmless ops more st st2 p d :
  sizes_ok sizes -> history_ok (ops ++ more) -> quiet_run host_of (store_init sizes) (ops ++ more) ->
  srun host_of (store_init sizes) ops = Some st ->
  srun host_of st more = Some st2 ->
  infos st p d <> None -> ~ In (SDrop p d) more ->
  exists pl, sstep host_of st (SRead p d) = Some (st, OValue pl) /\
             sstep host_of st2 (SRead p d) = Some (st2, OValue pl).
Proof.
  intros Hs Hh Hq Hr Hm Hi Hn.
  destruct (infos st p d) as [i|] eqn:Ei; [|congruence].
  pose proof (info_keep_run _ _ _ p d Hm ltac:(rewrite Ei; discriminate) Hn) as Hi2.
  destruct (infos st2 p d) as [i2|] eqn:Ei2; [|congruence].
  destruct (read_returns_written ops st p d i Hs (history_app _ _ Hh) (quiet_app _ _ _ Hq) Hr Ei)
    as (pl & H1 & H2).
  assert (Hr2 : srun host_of (store_init sizes) (ops ++ more) = Some st2) by (rewrite srun_app, Hr; exact Hm).
  destruct (read_returns_written (ops ++ more) st2 p d i2 Hs Hh Hq Hr2 Ei2) as (pl2 & H3 & H4).
  rewrite (written_app _ _ _ _ H1) in H3. injection H3 as <-. eauto.
Qed.

Lemma reclaim_only_unheld ops ids st st' out h d :
  sizes_ok sizes -> history_ok ops -> quiet_run host_of (store_init sizes) (ops ++ [SCleanup ids]) ->
  srun host_of (store_init sizes) ops = Some st ->
  sstep host_of st (SCleanup ids) = Some (st', out) ->
  stored_count st h d <> None -> stored_count st' h d = None ->
  forall h', holders host_of st h' d = 0%nat.
Proof.
  intros Hs Hh Hq Hr Hst Hc Hc' h'. pose proof (reach_inv ops st Hs Hh (quiet_app _ _ _ Hq) Hr) as V.
  simpl in Hst. destruct (hosts_clear (hosts st) ids) as [hs|] eqn:E; [|discriminate]. injection Hst as <- _.
  assert (Hq1 : quiet_cleanup st (SCleanup ids)).
  { clear - Hq Hr. revert Hq Hr. generalize (store_init sizes) as s. induction ops as [|o ops IH]; simpl; intros s Hq Hr.
    - injection Hr as <-. apply Hq.
    - destruct Hq as [_ Hq]. destruct (sstep host_of s o) as [[s1 u]|]; [|discriminate]. exact (IH s1 Hq Hr). }
  destruct (sinv_cleanup _ _ _ _ V Hq1 E) as (_ & Hkeep & _).
  destruct (holders host_of st h' d) eqn:Eh; [reflexivity|]. exfalso.
  destruct (holders_pos st h' d) as (p & s & Hin & _); [lia|].
  unfold stored_count in Hc, Hc'. simpl in Hc'.
  destruct (nth_error (hosts st) h) as [x|] eqn:Hx; [|congruence].
  destruct (resv (mgr x) d) as [r|] eqn:Er; [|congruence].
  destruct (Hkeep _ _ _ _ _ _ Hx Er Hin) as (x' & Hx' & Er').
  rewrite Hx', Er' in Hc'. discriminate.
Qed.

Lemma unheld_reclaimed ops ids st st' out h d :
  sizes_ok sizes -> history_ok ops -> quiet_run host_of (store_init sizes) (ops ++ [SCleanup ids]) ->
  srun host_of (store_init sizes) ops = Some st ->
  sstep host_of st (SCleanup ids) = Some (st', out) ->
  (In d ids \/ exists x, In x (hosts st) /\ In d (pending_cleanup (mgr x))) ->
  (forall h', holders host_of st h' d = 0%nat) ->
  stored_count st' h d = None.
Proof.
  intros Hs Hh Hq Hr Hst Hd Hno. pose proof (reach_inv ops st Hs Hh (quiet_app _ _ _ Hq) Hr) as V.
  simpl in Hst. destruct (hosts_clear (hosts st) ids) as [hs|] eqn:E; [|discriminate]. injection Hst as <- _.
  assert (Hq1 : quiet_cleanup st (SCleanup ids)).
  { clear - Hq Hr. revert Hq Hr. generalize (store_init sizes) as s. induction ops as [|o ops IH]; simpl; intros s Hq Hr.
    - injection Hr as <-. apply Hq.
    - destruct Hq as [_ Hq]. destruct (sstep host_of s o) as [[s1 u]|]; [|discriminate]. exact (IH s1 Hq Hr). }
  destruct (sinv_cleanup _ _ _ _ V Hq1 E) as (_ & _ & Hfree & _).
  unfold stored_count. simpl. destruct (nth_error hs h) as [x|] eqn:Hx; [|reflexivity].
  rewrite (Hfree h x d Hx Hd); [reflexivity|]. intros p s Hin.
  pose proof (holders_in st p d s Hin). rewrite Hno in H. lia.
Qed.

Lemma cleaned_or_queued ops ids st st' out :
  sizes_ok sizes -> history_ok ops -> quiet_run host_of (store_init sizes) (ops ++ [SCleanup ids]) ->
  srun host_of (store_init sizes) ops = Some st ->
  sstep host_of st (SCleanup ids) = Some (st', out) ->
  forall n h' d, nth_error (hosts st') n = Some h' -> exists h, nth_error (hosts st) n = Some h /\
     (In d ids \/ In d (pending_cleanup (mgr h)) \/ resv (mgr h) d = None ->
      resv (mgr h') d = None \/ In d (pending_cleanup (mgr h'))).
Proof.
  intros Hs Hh Hq Hr Hst. pose proof (reach_inv ops st Hs Hh (quiet_app _ _ _ Hq) Hr) as V.
  simpl in Hst. destruct (hosts_clear (hosts st) ids) as [hs|] eqn:E; [|discriminate]. injection Hst as <- _.
  assert (Hq1 : quiet_cleanup st (SCleanup ids)).
  { clear - Hq Hr. revert Hq Hr. generalize (store_init sizes) as s. induction ops as [|o ops IH]; simpl; intros s Hq Hr.
    - injection Hr as <-. apply Hq.
    - destruct Hq as [_ Hq]. destruct (sstep host_of s o) as [[s1 u]|]; [|discriminate]. exact (IH s1 Hq Hr). }
  exact (proj2 (proj2 (proj2 (sinv_cleanup _ _ _ _ V Hq1 E)))).
Qed.

Lemma fails_only_without_memory ops st o :
  sizes_ok sizes -> history_ok ops -> quiet_run host_of (store_init sizes) ops ->
  srun host_of (store_init sizes) ops = Some st ->
  (forall sz sz', In sz sizes -> In sz' sizes -> snd sz = snd sz') ->
  (forall p, (host_of p < length sizes)%nat) ->
  big_enough o -> ~ (exists d, In d (puts [o]) /\ In d (puts ops)) ->
  sstep host_of st o = None ->
  lacks_room host_of st o.
Proof.
  intros Hs Hh Hq Hr Heq Hhost Hbig Hfresh Hst. pose proof (reach_inv ops st Hs Hh Hq Hr) as V.
  assert (Hlen : length (hosts st) = length sizes).
  { clear - Hr. assert (G : forall o s s' u, sstep host_of s o = Some (s', u) -> length (hosts s') = length (hosts s)).
    { clear. intros o s s' u H. 
      assert (U : forall A (f : A -> A) l n, length (upd_nth n f l) = length l).
      { clear. induction l as [|a l IH]; intros [|n]; simpl; auto. }
      destruct o as [p d pl|p d|p k|p d|p d|ids|k0]; simpl in H.
      - unfold store_put in H. destruct (nth_error _ _); [|discriminate].
        destruct (mgr_reserve _ _ _) as [? [[? ?]|]]; [|discriminate].
        destruct (write_to_shared_buffer _ _ _) as [[? ?]|]; [|discriminate].
        injection H as <- _. simpl. apply U.
      - destruct (infos s p d); injection H as <- _; reflexivity.
      - destruct (nth_error (inflight s) k) as [[[q d] i]|]; [|injection H as <- _; reflexivity].
        unfold store_get in H. cbn [hosts infos fins inflight] in H.
        destruct (nth_error (hosts s) (host_of p)); [|discriminate]. destruct (negb _); [discriminate|].
        destruct (check_service_info _ _ _); [injection H as <- _; simpl; apply U|].
        destruct (mgr_reserve _ _ _) as [m' [[r' []]|]]; [| |discriminate].
        + destruct (sync_bytes _ _ _ _); [|discriminate]. destruct (_ >? _); [discriminate|].
          injection H as <- _. simpl. now rewrite !U.
        + destruct (check_service_info _ _ _); [|discriminate]. injection H as <- _. simpl. now rewrite !U.
      - destruct (infos s p d); [destruct (nth_error _ _)|]; injection H as <- _; reflexivity.
      - unfold store_drop in H. destruct (nth_error _ _); [|discriminate]. injection H as <- _. simpl. apply U.
      - destruct (hosts_clear (hosts s) ids) as [hs|] eqn:E; [|discriminate]. injection H as <- _. simpl.
        unfold hosts_clear in E.
        remember (allreduce_max _) as ar. clear Heqar.
        revert hs E. induction (hosts s) as [|y l IH]; cbn [fold_right]; intros hs E; [injection E as <-; reflexivity|].
        match type of E with match ?a with _ => _ end = _ => destruct a as [l'|] eqn:El end; [|discriminate].
        destruct (host_clear_loop _ _); [|discriminate]. injection E as <-. simpl. f_equal. now apply IH.
      - injection H as <- _. reflexivity. }
    assert (G2 : forall ops s s', srun host_of s ops = Some s' -> length (hosts s') = length (hosts s)).
    { induction ops0 as [|o ops0 IH]; intros s s' H; simpl in H; [injection H as <-; reflexivity|].
      destruct (sstep host_of s o) as [[s1 u]|] eqn:E; [|discriminate].
      rewrite (IH _ _ H). exact (G _ _ _ _ E). }
    rewrite (G2 _ _ _ Hr). unfold store_init. simpl. apply map_length. }
  assert (Hex : forall p, exists x, nth_error (hosts st) (host_of p) = Some x).
  { intros p. destruct (nth_error (hosts st) (host_of p)) eqn:E; [eauto|].
    apply nth_error_None in E. specialize (Hhost p). lia. }
  assert (Hnone : forall m d n m', mgr_reserve m d n = (m', None) -> resv m d = None).
  { intros m d n m'. unfold mgr_reserve, mgr_get. destruct (resv m d); [discriminate | reflexivity]. }
  destruct o as [p d pl|p d|p k|p d|p d|ids|k0]; simpl in Hst.
  - destruct (store_put host_of st p d pl) eqn:E; [discriminate|].
    unfold store_put in E. destruct (Hex p) as (x & Hx). rewrite Hx in E.
    destruct (mgr_reserve (mgr x) d (Z.of_nat (data_size pl))) as [m' [[r b]|]] eqn:Er.
    + exfalso. assert (Hb : b = true).
      { destruct b; [reflexivity|]. apply reserve_false in Er. destruct Er as [Er _].
        destruct (v_host _ _ V _ _ Hx) as (sz & _ & Hok).
        destruct (ho_pub _ _ _ _ _ Hok d r Er) as (_ & pl' & HW & _).
        exfalso. apply Hfresh. exists d. split; [simpl; now left|].
        revert HW. clear. induction ops as [|o ops IH]; simpl; [discriminate|].
        destruct o; simpl; auto. destruct (did_eqb d0 d) eqn:E; auto.
        apply did_eqb_eq in E. auto. }
      subst b. apply reserve_true in Er. destruct Er as [_ Hp]. simpl in Hbig.
      rewrite write_to_shared_buffer_some in E by (refine (put_len _ _ _ _ _ _ Hp); lia). discriminate.
    + exists x. rewrite Er. eauto.
  - destruct (infos st p d); discriminate.
  - destruct (nth_error (inflight st) k) as [[[q d] i]|] eqn:Ek; [|discriminate].
    destruct (v_fly _ _ V q d i (nth_error_In _ _ Ek)) as (Him & Hal & x2 & r2 & H3 & H4).
    unfold store_get in Hst. cbn [hosts infos fins inflight] in Hst.
    destruct (Hex p) as (x & Hx). rewrite Hx in Hst.
    destruct (v_host _ _ V _ _ Hx) as (sz & Hsz & Hok).
    destruct (v_host _ _ V _ _ H3) as (sz2 & Hsz2 & Hok2).
    destruct (negb ((0 <=? info_service_index i) && (info_service_index i + 4 <=? slen x))) eqn:Eb.
    { (* in bounds: all service buffers have the same length *)
      exfalso. 
      assert (Hinb : 0 <= info_service_index i /\ info_service_index i + 4 <= snd sz).
      { (* the package carries an index valid on the sender's host *)
        assert (Hbd : forall ops0 st0, history_ok ops0 -> quiet_run host_of (store_init sizes) ops0 ->
           srun host_of (store_init sizes) ops0 = Some st0 ->
           forall q d i, In (q, d, i) (inflight st0) ->
           exists sz, In sz sizes /\ 0 <= info_service_index i /\ info_service_index i + 4 <= snd sz).
        { clear - Hs Hhost. intros ops0. induction ops0 as [|o ops0 IH] using rev_ind; intros st0 Hh Hq Hr q d i Hin.
          - simpl in Hr. injection Hr as <-. destruct Hin.
          - assert (Hsplit : exists st1 u, srun host_of (store_init sizes) ops0 = Some st1 /\
                       sstep host_of st1 o = Some (st0, u) /\ quiet_run host_of (store_init sizes) ops0).
            { clear - Hr Hq. revert Hr Hq. generalize (store_init sizes) as s. induction ops0 as [|o1 ops0 IH]; simpl; intros s Hr Hq.
              - destruct (sstep host_of s o) as [[s1 u]|] eqn:E; [|discriminate]. injection Hr as <-.
                exists s, u. auto.
              - destruct Hq as [Hq1 Hq2]. destruct (sstep host_of s o1) as [[s1 u]|]; [|discriminate].
                destruct (IH s1 Hr Hq2) as (st1 & u' & E1 & E2 & E3). exists st1, u'. auto. }
            destruct Hsplit as (st1 & u & Hr1 & Hs1 & Hq1).
            assert (Hh1 : history_ok ops0).
            { destruct Hh as [Hn Hb]. split.
              - rewrite puts_app in Hn. exact (NoDup_app_l _ _ Hn).
              - apply Forall_app in Hb. apply Hb. }
            specialize (IH st1 Hh1 Hq1 Hr1).
            assert (V1 : sinv (written ops0) st1) by exact (reach_inv _ _ Hs Hh1 Hq1 Hr1).
            destruct o as [p0 d0 pl0|p0 d0|p0 k0|p0 d0|p0 d0|ids0|k1]; simpl in Hs1.
            + destruct (store_put host_of st1 p0 d0 pl0) eqn:E; [|discriminate]. injection Hs1 as <- _.
              unfold store_put in E. destruct (nth_error _ _); [|discriminate].
              destruct (mgr_reserve _ _ _) as [? [[? ?]|]]; [|discriminate].
              destruct (write_to_shared_buffer _ _ _) as [[? ?]|]; [|discriminate].
              injection E as <-. exact (IH _ _ _ Hin).
            + destruct (infos st1 p0 d0) as [i0|] eqn:Ei; injection Hs1 as <- _; [|exact (IH _ _ _ Hin)].
              simpl in Hin. apply in_app_or in Hin. destruct Hin as [Hin|[E|[]]]; [exact (IH _ _ _ Hin)|].
              injection E as <- <- <-.
              destruct (v_info _ _ V1 _ _ _ Ei) as [Hf _].
              destruct (v_fin _ _ V1 _ _ _ Hf) as (x & r & F1 & F2 & F3).
              destruct (v_host _ _ V1 _ _ F1) as (sz & Fs & Hok).
              exists sz. split; [eapply nth_error_In; eauto|].
              pose proof (i_bound _ _ _ (ho_inv _ _ _ _ _ Hok) _ _ F2) as B. unfold INFO_SIZE in B. lia.
            + destruct (nth_error (inflight st1) k0) as [[[q0 d0] i0]|] eqn:Ek; [|injection Hs1 as <- _; exact (IH _ _ _ Hin)].
              assert (Hfl : inflight st0 = remove_nth k0 (inflight st1)).
              { clear - Hs1. unfold store_get in Hs1. cbn [hosts infos fins inflight] in Hs1.
                destruct (nth_error (hosts st1) (host_of p0)); [|discriminate]. destruct (negb _); [discriminate|].
                destruct (check_service_info _ _ _); [injection Hs1 as <- _; reflexivity|].
                destruct (mgr_reserve _ _ _) as [m' [[r' []]|]]; [| |discriminate].
                + destruct (sync_bytes _ _ _ _); [|discriminate]. destruct (_ >? _); [discriminate|].
                  injection Hs1 as <- _. reflexivity.
                + destruct (check_service_info _ _ _); [|discriminate]. injection Hs1 as <- _. reflexivity. }
              rewrite Hfl in Hin. apply nth_error_remove_nth in Hin. exact (IH _ _ _ Hin).
            + destruct (infos st1 p0 d0); [destruct (nth_error _ _)|]; injection Hs1 as <- _; exact (IH _ _ _ Hin).
            + destruct (store_drop host_of st1 p0 d0) eqn:E; [|discriminate]. injection Hs1 as <- _.
              unfold store_drop in E. destruct (nth_error _ _); [|discriminate]. injection E as <-. exact (IH _ _ _ Hin).
            + destruct (hosts_clear _ _); [|discriminate]. injection Hs1 as <- _. exact (IH _ _ _ Hin).
            + injection Hs1 as <- _. simpl in Hin. apply nth_error_remove_nth in Hin. exact (IH _ _ _ Hin). }
        destruct (Hbd ops st Hh Hq Hr q d i (nth_error_In _ _ Ek)) as (sz' & Hin' & B1 & B2).
        rewrite (Heq sz sz'); [lia | eapply nth_error_In; eauto | exact Hin']. }
      rewrite (ho_slen _ _ _ _ _ Hok) in Eb.
      rewrite negb_true_iff, andb_false_iff in Eb.
      destruct Eb as [Eb|Eb]; apply Z.leb_gt in Eb; lia. }
    destruct (check_service_info (smem x) d (info_service_index i)); [discriminate|].
    destruct (mgr_reserve (mgr x) d (Z.of_nat (s_data_len i + list_sum (raw_buffers_len i)))) as [m' [[r []]|]] eqn:Er.
    + exfalso. apply reserve_true in Er. destruct Er as [Hnn Hp].
      assert (Hneq : host_of q <> host_of p) by (intros E; rewrite E in H3; congruence).
      unfold sync_bytes, set_host in Hst. cbn [hosts infos fins inflight] in Hst.
      rewrite nth_upd_other, H3, H4 in Hst by congruence.
      destruct (ho_pub _ _ _ _ _ Hok2 d r2 H4) as (_ & pl & HW & Hlen2 & Hbytes & _).
      rewrite Hlen2, Nat2Z.id, Hbytes in Hst.
      destruct Him as (pl' & HW' & Hi). assert (pl' = pl) by congruence. subst pl'.
      assert (Hsize : (s_data_len i + list_sum (raw_buffers_len i))%nat = data_size pl).
      { rewrite Hi. reflexivity. }
      rewrite Hsize in Hp.
      assert (Hpos : (0 < data_size pl)%nat) by (eapply (v_pos _ _ V); eauto).
      assert (Hl : last_index r - first_index r = Z.of_nat (data_size pl)) by (refine (put_len _ _ _ _ _ _ Hp); lia).
      rewrite flat_length, Hl in Hst. rewrite Z.gtb_ltb, Z.ltb_irrefl in Hst. discriminate.
    + exfalso. apply reserve_false in Er. destruct Er as [Er ->].
      destruct (ho_pub _ _ _ _ _ Hok d r Er) as (Hal' & _).
      assert (Hck : check_service_info (smem x) d (service_index r) = true)
        by (apply (check_iff _ _ _ _ _ _ _ Hok Hal'); eauto).
      rewrite Hck in Hst. discriminate.
    + cbn [lacks_room]. exists q, d, i. split; [exact Ek|]. exists x. rewrite Er. eauto.
  - destruct (infos st p d); [destruct (nth_error _ _)|]; discriminate.
  - destruct (store_drop host_of st p d) eqn:E; [discriminate|].
    unfold store_drop in E. destruct (Hex p) as (x & Hx). rewrite Hx in E. discriminate.
  - exfalso. destruct (hosts_clear (hosts st) ids) eqn:E; [discriminate|].
    remember (allreduce_max (map (fun h => has_refs (host_refs h) (mgr h) (cleanup_list (mgr h) ids)) (hosts st))) as ar.
    destruct (fold_opt_some (clear_host ar ids) (hosts st)) as (hs2 & E1 & _).
    + intros h Hh2. destruct (In_nth_error _ _ Hh2) as (n & Hn).
      destruct (v_host _ _ V n h Hn) as (sz & Hsz & Hok).
      destruct (host_clear_loop_ok _ _ _ _ (combine (cleanup_list (mgr h) ids) ar) _
                 (host_set_pending _ _ _ _ h [] Hok)) as (h' & E' & _). exists h'. exact E'.
    + unfold hosts_clear in E. unfold clear_host in E1. rewrite <- Heqar in E. congruence.
  - discriminate.
Qed.

End Store.
