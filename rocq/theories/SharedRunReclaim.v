(** The shared memory of cleaned objects is freed. *)
From Coq Require Import ZArith.
From Verif Require Import Lib ValModel ShmModel PushModel PushProofs WorkerModel WorkerSpec WorkerLog MonModel ClusterModel
  ClusterSpec ClusterSeq ClusterProofs ClusterRoot ClusterClean ClusterQuiet ClusterGone ShmStoreModel ShmStoreSpec ShmStoreProofs
  SharedRunModel SharedRunSpec SharedRunStore SharedRunFit SharedRunProofs.
Local Open Scope nat_scope.

(** ** Operations that are not cleanups *)
(** Only what P says may have got a new holder or new memory. *)
Record calm (P : rank -> dataid -> Prop) (a b : ShmStoreModel.store) : Prop := {
  ca_infos : forall p d, infos b p d <> None -> infos a p d <> None \/ P p d;
  ca_hosts : forall n h', nth_error (hosts b) n = Some h' -> exists h, nth_error (hosts a) n = Some h /\
    pending_cleanup (mgr h') = pending_cleanup (mgr h) /\
    forall d, resv (mgr h') d = resv (mgr h) d \/ exists p, P p d
}.

Lemma calm_refl P a : calm P a a.
Proof. split; eauto. Qed.

Lemma calm_trans P a b c : calm P a b -> calm P b c -> calm P a c.
Proof.
  intros [A1 A2] [B1 B2]. split.
  - intros p d H. apply B1 in H as [H|H]; auto.
  - intros n h H. destruct (B2 n h H) as (h1 & H1 & E1 & R1). destruct (A2 n h1 H1) as (h2 & H2 & E2 & R2).
    exists h2. split; auto. split; [congruence|]. intros d. destruct (R1 d) as [->|]; auto.
Qed.

Lemma calm_mono (P Q : rank -> dataid -> Prop) a b : (forall p d, P p d -> Q p d) -> calm P a b -> calm Q a b.
Proof.
  intros H [A1 A2]. split.
  - intros p d X. apply A1 in X as [X|X]; auto.
  - intros n h X. destruct (A2 n h X) as (h1 & H1 & E1 & R1). exists h1. split; auto. split; auto.
    intros d. destruct (R1 d) as [Y|[p Y]]; eauto.
Qed.

Lemma reserve_others m d n : pending_cleanup (fst (mgr_reserve m d n)) = pending_cleanup m /\
  forall e, e <> d -> resv (fst (mgr_reserve m d n)) e = resv m e.
Proof.
  unfold mgr_reserve. destruct (mgr_get m d); [split; reflexivity|]. unfold mgr_put.
  destruct (occupy n (free_memory m)) as [fm [[f l]|]]; destruct (occupy INFO_SIZE (free_service m)) as [fs [[f2 l2]|]];
    cbn; split; auto; intros e N; rewrite dput_other; auto.
Qed.

Lemma upd_calm (l : list host) n (x y : host) d : nth_error l n = Some x ->
  pending_cleanup (mgr y) = pending_cleanup (mgr x) -> (forall e, e <> d -> resv (mgr y) e = resv (mgr x) e) ->
  forall k h', nth_error (upd_nth n (fun _ => y) l) k = Some h' -> exists h, nth_error l k = Some h /\
    pending_cleanup (mgr h') = pending_cleanup (mgr h) /\ forall e, resv (mgr h') e = resv (mgr h) e \/ e = d.
Proof.
  intros X Pe Re. revert n X. induction l as [|z l IH]; intros [|n] X [|k] h' H; simpl in *; try discriminate; eauto.
  - injection X as ->. injection H as <-. exists x. split; auto. split; auto. intros e.
    destruct (did_eqb e d) eqn:Ed; [right; apply did_eqb_eq; auto|left; apply Re; apply did_eqb_neq; auto].
Qed.

Lemma upd_here {A} (l : list A) : forall n x, nth_error l n = Some x -> forall y, nth_error (upd_nth n (fun _ => y) l) n = Some y.
Proof. induction l as [|z l IH]; intros [|n] x X y; simpl in *; try discriminate; eauto. Qed.

Lemma upd_mgr (l : list host) : forall n x y, nth_error l n = Some x -> mgr y = mgr x ->
  forall k h', nth_error (upd_nth n (fun _ => y) l) k = Some h' -> exists h, nth_error l k = Some h /\ mgr h' = mgr h.
Proof.
  induction l as [|z l IH]; intros [|n] x y X M [|k] h' H; simpl in *; try discriminate; eauto.
  injection X as ->. injection H as <-. eauto.
Qed.

Lemma upd_twice (l : list host) n (x y z : host) d : nth_error l n = Some x ->
  pending_cleanup (mgr y) = pending_cleanup (mgr x) -> (forall e, e <> d -> resv (mgr y) e = resv (mgr x) e) -> mgr z = mgr y ->
  forall k h', nth_error (upd_nth n (fun _ => z) (upd_nth n (fun _ => y) l)) k = Some h' -> exists h, nth_error l k = Some h /\
    pending_cleanup (mgr h') = pending_cleanup (mgr h) /\ forall e, resv (mgr h') e = resv (mgr h) e \/ e = d.
Proof.
  intros X Pe Re Z k h' K.
  destruct (upd_calm _ n y z d (upd_here _ _ _ X y)) with (k := k) (h' := h') as (h1 & K1 & P1 & Q1); auto; try congruence.
  destruct (upd_calm _ n x y d X Pe Re k h1 K1) as (h2 & K2 & P2 & Q2).
  exists h2. split; [exact K2|]. split; [congruence|]. intros e. destruct (Q1 e) as [->|]; auto.
Qed.

Definition touches (st : ShmStoreModel.store) (o : sop) (p : rank) (d : dataid) : Prop :=
  match o with
  | SPut q e _ => p = q /\ d = e
  | SRecv q k => p = q /\ exists x i, nth_error (inflight st) k = Some (x, d, i)
  | _ => False
  end.

Section Reclaim.
Variable host_of : rank -> nat.
Notation sstep := (sstep host_of).

Lemma get_hosts st p q d i st' out : store_get host_of st p q d i = Some (st', out) ->
  forall k h', nth_error (hosts st') k = Some h' -> exists h, nth_error (hosts st) k = Some h /\
    pending_cleanup (mgr h') = pending_cleanup (mgr h) /\ forall e, resv (mgr h') e = resv (mgr h) e \/ e = d.
Proof.
  intros H. unfold store_get in H. destruct (nth_error (hosts st) (host_of p)) as [h|] eqn:Eh; [|discriminate].
  destruct (negb _); [discriminate|]. destruct (check_service_info _ _ _).
  - injection H as <- _. cbn [hosts]. eapply upd_calm; eauto.
  - destruct (reserve_others (mgr h) d (Z.of_nat (s_data_len i + list_sum (raw_buffers_len i)))) as [R1 R2].
    destruct (mgr_reserve _ _ _) as [m' [[r' []]|]] eqn:Er; [| |discriminate]; cbn [fst] in R1, R2.
    + destruct (sync_bytes _ _ _ _); [|discriminate]. destruct (_ >? _)%Z; [discriminate|].
      injection H as <- _. cbn [hosts set_host finish_get fst]. eapply upd_twice; [exact Eh|exact R1|exact R2|reflexivity].
    + destruct (check_service_info _ _ _); [|discriminate]. injection H as <- _. cbn [hosts set_host finish_get fst].
      eapply (upd_twice _ _ _ (set_mgr h m')); [exact Eh|exact R1|exact R2|reflexivity].
Qed.

Lemma calm_step st o st' out : sstep st o = Some (st', out) -> (forall ids, o <> SCleanup ids) -> calm (touches st o) st st'.
Proof.
  intros H Nc. split.
  - intros p d I. apply (infos_new host_of _ _ _ _ _ _ H) in I as [I|[(pl & ->)|(k & q & i & -> & I)]]; auto; right; simpl; eauto.
  - assert (Same : hosts st' = hosts st -> forall n h', nth_error (hosts st') n = Some h' ->
      exists h, nth_error (hosts st) n = Some h /\ pending_cleanup (mgr h') = pending_cleanup (mgr h) /\
      forall d, resv (mgr h') d = resv (mgr h) d \/ exists p, touches st o p d).
    { intros -> n h' K. eauto. }
    destruct o as [p0 d0 pl|p0 d0|p0 k|p0 d0|p0 d0|ids|k]; cbn [ShmStoreModel.sstep] in H.
    + unfold store_put in H. destruct (nth_error (hosts st) (host_of p0)) as [h|] eqn:Eh; [|discriminate].
      destruct (reserve_others (mgr h) d0 (Z.of_nat (data_size pl))) as [R1 R2].
      destruct (mgr_reserve _ _ _) as [m' [[r' b]|]] eqn:Er; [|discriminate]; cbn [fst] in R1, R2.
      destruct (write_to_shared_buffer _ _ _) as [[dm i]|]; [|discriminate]. injection H as <- _. cbn [hosts]. intros n h' K.
      eapply upd_calm in K; [|exact Eh|exact R1|exact R2].
      destruct K as (h1 & K1 & P1 & Q1). exists h1. split; auto. split; auto. intros d. destruct (Q1 d) as [Z|Z]; auto; subst d.
      right. exists p0. simpl; auto.
    + apply Same. destruct (infos st p0 d0); injection H as <- _; auto.
    + destruct (nth_error (inflight st) k) as [[[q d] i]|] eqn:Ek.
      * intros n h' K. destruct (get_hosts _ _ _ _ _ _ _ H n h' K) as (h & K1 & P1 & Q1). exists h. split; auto. split; auto.
        intros e. destruct (Q1 e) as [Z|Z]; auto; subst e. right. exists p0. simpl. rewrite Ek. eauto.
      * apply Same. injection H as <- _. auto.
    + apply Same. destruct (infos st p0 d0); [destruct (nth_error _ _)|]; injection H as <- _; auto.
    + unfold store_drop in H. destruct (nth_error (hosts st) (host_of p0)) as [h|] eqn:Eh; [|discriminate].
      injection H as <- _. cbn [hosts]. intros n h' K.
      eapply (upd_mgr _ _ h) in K; [|exact Eh|reflexivity]. destruct K as (h1 & K1 & E1). rewrite E1. eauto.
    + destruct (Nc ids); auto.
    + apply Same. injection H as <- _. auto.
Qed.

(** Whoever has a finalizer knows the object. *)
Lemma fins_known ops : forall st st', srun host_of st ops = Some st' ->
  (forall p d s, In (p, d, s) (fins st) -> infos st p d <> None) -> forall p d s, In (p, d, s) (fins st') -> infos st' p d <> None.
Proof.
  induction ops as [|o ops IH]; intros st st' H A; cbn [srun] in H; [injection H as <-; auto|].
  destruct (sstep st o) as [[s1 u]|] eqn:Es; [|discriminate]. refine (IH s1 st' H _). clear IH H st' ops.
  assert (Put : forall (st : ShmStoreModel.store) p d i (l : list (nat * dataid * Z)), (forall x, In x l -> fst x = (p, d)) ->
     (forall p d s, In (p, d, s) (fins st) -> infos st p d <> None) ->
     forall q e s, In (q, e, s) (fins st ++ l) -> put_shared_info (infos st) p d i q e <> None).
  { clear. intros st p d i l L A q e s I. apply in_app_or in I as [I|I].
    - apply A in I. unfold put_shared_info. destruct (infos st p d) eqn:Ei; auto. destruct (Nat.eqb_spec q p) as [->|]; auto.
      unfold dput. destruct (did_eqb d e); [discriminate|auto].
    - apply L in I. cbn [fst] in I. injection I as -> ->. apply put_shared_here. }
  destruct o as [p0 d0 pl|p0 d0|p0 k|p0 d0|p0 d0|ids|k]; cbn [ShmStoreModel.sstep] in Es.
  - unfold store_put in Es. destruct (nth_error (hosts st) (host_of p0)) as [h|]; [|discriminate].
    destruct (mgr_reserve _ _ _) as [m' [[r' b]|]]; [|discriminate].
    destruct (write_to_shared_buffer _ _ _) as [[dm i]|]; [|discriminate]. injection Es as <- _. cbn [fins infos].
    intros q e s. apply Put; auto. intros x [<-|[]]. reflexivity.
  - destruct (infos st p0 d0); injection Es as <- _; exact A.
  - destruct (nth_error (inflight st) k) as [[[q0 d0] i]|]; [|injection Es as <- _; exact A].
    unfold store_get in Es. cbn [hosts infos fins inflight] in Es.
    destruct (nth_error (hosts st) (host_of p0)) as [h|]; [|discriminate]. destruct (negb _); [discriminate|].
    destruct (check_service_info _ _ _).
    + injection Es as <- _. cbn [fins infos]. intros q e s. apply Put; auto. intros x [<-|[]]. reflexivity.
    + destruct (mgr_reserve _ _ _) as [m' [[r' []]|]]; [| |discriminate].
      * destruct (sync_bytes _ _ _ _); [|discriminate]. destruct (_ >? _)%Z; [discriminate|]. injection Es as <- _.
        cbn [fins infos set_host]. rewrite <- app_assoc. intros q e s. apply Put; auto. intros x [<-|[<-|[]]]; reflexivity.
      * destruct (check_service_info _ _ _); [|discriminate]. injection Es as <- _. cbn [fins infos set_host].
        intros q e s. apply Put; auto. intros x [<-|[]]. reflexivity.
  - destruct (infos st p0 d0); [destruct (nth_error _ _)|]; injection Es as <- _; exact A.
  - unfold store_drop in Es. destruct (nth_error (hosts st) (host_of p0)) as [h|]; [|discriminate]. injection Es as <- _.
    cbn [fins infos]. intros p d s I. apply filter_In in I as [I F]. apply A in I. unfold del_shared_info, fin_is in *.
    cbn [fst snd] in F. destruct (Nat.eqb_spec p p0) as [->|]; auto. unfold ddel.
    destruct (did_eqb d0 d) eqn:Ed; auto. apply did_eqb_eq in Ed. subst d0. rewrite did_eqb_refl in F. discriminate.
  - destruct (hosts_clear _ _); [|discriminate]. injection Es as <- _. exact A.
  - injection Es as <- _. exact A.
Qed.

Lemma clear_loop_none l : forall h h' d, host_clear_loop h l = Some h' -> resv (mgr h) d = None -> resv (mgr h') d = None.
Proof using.
  induction l as [|[e b] l IH]; intros h h' d H N; cbn [host_clear_loop] in H; [congruence|].
  destruct b; [eapply IH; eauto|]. destruct (resv (mgr h) e) eqn:Ee; [|eapply IH; eauto].
  destruct (delete_service_info _ _ _); [|discriminate]. eapply IH; [exact H|]. cbn [mgr set_smem set_mgr]. unfold mgr_free_one.
  rewrite Ee. cbn [resv]. unfold ddel. destruct (did_eqb e d); auto.
Qed.

Lemma cleanup_reserves_nothing st ids st' out : sstep st (SCleanup ids) = Some (st', out) ->
  forall n h', nth_error (hosts st') n = Some h' -> exists h, nth_error (hosts st) n = Some h /\
    forall d, resv (mgr h) d = None -> resv (mgr h') d = None.
Proof using.
  cbn [ShmStoreModel.sstep]. destruct (hosts_clear (hosts st) ids) as [hs|] eqn:E; [|discriminate]. intros H. injection H as <- _.
  cbn [hosts]. unfold hosts_clear in E. revert E. generalize (allreduce_max (map (fun h => has_refs (host_refs h) (mgr h) (cleanup_list (mgr h) ids)) (hosts st))) as refs.
  intros refs. revert hs. induction (hosts st) as [|x l IH]; intros hs E n h' H; cbn [fold_right] in E.
  - injection E as <-. destruct n; discriminate.
  - destruct (fold_right _ (Some []) l) as [hs0|] eqn:E0; [|discriminate].
    destruct (host_clear_loop _ _) as [x'|] eqn:Ex; [|discriminate]. injection E as <-.
    destruct n as [|n]; cbn [nth_error] in *.
    + injection H as <-. exists x. split; auto. intros d Z. eapply clear_loop_none; eauto.
    + eapply IH; eauto.
Qed.

(** ** The steps of the system *)
Lemma mdo_calm m o to m' out : mdo host_of m o to = Fine (m', out) -> (forall ids, o <> SCleanup ids) ->
  calm (touches (m_s m) o) (m_s m) (m_s m').
Proof.
  unfold mdo. intros H N. destruct (sstep (m_s m) o) as [[s u]|] eqn:Es; [|discriminate]. injection H as <- <-.
  cbn [m_s]. eapply calm_step; eauto.
Qed.

Variable enc : val -> payload.
Variable dec : payload -> option val.
Variable threshold : nat.

Lemma send_calm m src dst d m' P : send_pkg host_of m src dst d = Fine m' -> calm P (m_s m) (m_s m').
Proof using.
  unfold send_pkg. destruct (infos (m_s m) src d); [|discriminate].
  destruct (mdo host_of m (SSend src d) (m_to m ++ [dst])) as [[m1 u]|] eqn:E; [|discriminate]. cbn [andthen fst].
  intros H. injection H as <-. apply mdo_calm in E; [|discriminate]. eapply calm_mono; [|exact E]. intros ? ? [].
Qed.

Lemma pushes_calm src l : forall m m', pushes host_of enc threshold m src l = Fine m' ->
  calm (fun p d => p = src /\ exists r v, In (r, d, v) l) (m_s m) (m_s m').
Proof using.
  induction l as [|[[dst d] v] l IH]; intros m m' H; cbn [pushes] in H.
  - injection H as <-. apply calm_refl.
  - destruct (push1 host_of enc threshold m src dst d v) as [m1|] eqn:E; [|discriminate]. cbn [andthen] in H.
    apply IH in H. eapply calm_trans; [|eapply calm_mono; [|exact H]].
    2:{ intros p e (-> & r & w & I). split; auto. exists r, w. simpl; auto. }
    unfold push1 in E. destruct (infos (m_s m) src d); [eapply send_calm; eauto|].
    destruct (big enc threshold v); [|injection E as <-; apply calm_refl].
    destruct (mdo host_of m (SPut src d (enc v)) (m_to m)) as [[m0 u]|] eqn:E0; [|discriminate]. cbn [andthen fst] in E.
    eapply calm_trans; [|eapply send_calm; exact E]. apply mdo_calm in E0; [|discriminate].
    eapply calm_mono; [|exact E0]. intros p e (-> & ->). split; auto. exists dst, v. simpl; auto.
Qed.

Lemma drops_calm p ds : forall m m', drops host_of m p ds = Fine m' ->
  calm (fun _ _ => False) (m_s m) (m_s m') /\ forall d, In d ds -> infos (m_s m') p d = None.
Proof using.
  induction ds as [|d ds IH]; intros m m' H; cbn [drops] in H.
  - injection H as <-. split; [apply calm_refl|intros d []].
  - destruct (mdo host_of m (SDrop p d) (m_to m)) as [[m1 u]|] eqn:E; [|discriminate]. cbn [andthen fst] in H.
    apply IH in H as [C N]. assert (C0 := E). apply mdo_calm in C0; [|discriminate]. split.
    + eapply calm_trans; [eapply calm_mono; [|exact C0]|exact C]. intros ? ? [].
    + intros e [<-|I]; auto. unfold mdo in E. destruct (sstep (m_s m) (SDrop p d)) as [[s v]|] eqn:Es; [|discriminate].
      injection E as <- <-. cbn [m_s] in C. apply infos_drop in Es. destruct (infos (m_s m') p d) eqn:Ei; auto.
      exfalso. destruct (ca_infos _ _ _ C p d) as [X|[]]; congruence.
Qed.

Lemma receive_calm m src dst local d v m' u : receive host_of dec m src dst local d v = Fine (m', u) ->
  calm (fun p e => p = dst /\ e = d) (m_s m) (m_s m').
Proof using.
  unfold receive. destruct (find_pkg (inflight (m_s m)) (m_to m) src dst d) as [k|] eqn:F; [|intros H; injection H as <- <-; apply calm_refl].
  destruct (find_some _ _ _ _ _ _ F) as ((i & Fk) & _).
  destruct local as [w|].
  - destruct (mdo host_of m (SSkip k) (remove_nth k (m_to m))) as [[m1 o]|] eqn:E; [|discriminate]. cbn [andthen fst].
    intros H. injection H as <- <-. apply mdo_calm in E; [|discriminate]. eapply calm_mono; [|exact E]. intros ? ? [].
  - destruct (mdo host_of m (SRecv dst k) (remove_nth k (m_to m))) as [[m1 o]|] eqn:E; [|discriminate]. cbn [andthen fst snd].
    destruct (decoded dec o); [|discriminate]. cbn [andthen].
    intros H. injection H as <- <-. apply mdo_calm in E; [|discriminate]. eapply calm_mono; [|exact E].
    intros p e (-> & x & j & N). split; auto. congruence.
Qed.
End Reclaim.

Lemma did_dec (a b : dataid) : {a = b} + {a <> b}.
Proof. destruct (did_eqb a b) eqn:E; [left; apply did_eqb_eq; auto|right; apply did_eqb_neq; auto]. Qed.

Section XR.
Variable workers : list rank.
Variable body : val -> val -> val -> result.
Hypothesis body_ok : forall f a k, no_refs_returned (body f a k).
Hypothesis no_root : ~ In 0 workers.
Hypothesis no_dup : NoDup workers.
Variable host_of : rank -> nat.
Variable sizes : list (Z * Z).
Variable enc : val -> payload.
Variable dec : payload -> option val.
Variable threshold : nat.
Hypothesis sizes_fine : sizes_ok sizes.
Hypothesis same_service : forall sz sz', In sz sizes -> In sz' sizes -> snd sz = snd sz'.
Hypothesis hosts_known : forall p, host_of p < length sizes.
Notation Fit := (Fit body).
Notation XI := (XI body host_of sizes enc threshold).
Notation xtry := (xtry workers body host_of enc dec threshold).
Notation crun := (crun workers body).
Notation xrun := (xrun workers body host_of enc dec threshold).

Record Fit2 (c : cst) : Prop := {
  k_known : forall w d, In d (forgot c w) -> In d (dead c);
  k_dest : forall s d m, In m (c_chan c s d) -> In d (0 :: workers);
  k_dead : forall d, In d (dead c) -> In d (introduced (c_prog c))
}.

Lemma run_fit2 mgr ops : good workers body (c_prog (crun mgr ops)) -> Fit2 (crun mgr ops).
Proof using body_ok no_root no_dup.
  intros (V & T & R & O). destruct (run_sim workers body body_ok no_root no_dup mgr ops V T R) as (g & S).
  set (c := crun mgr ops) in *. clearbody c. split.
  - intros w. apply (s_known _ _ _ _ S).
  - intros s d m I. destruct (c_chan c s d) as [|x l] eqn:Ch; [destruct I|].
    apply (sim_deliver workers body body_ok no_root c g s d x l S Ch).
  - intros d D. apply (s_dead _ _ _ _ S d D).
Qed.

Record XR (x : xst) : Prop := {
  r_forgot : forall w d, w <> 0 -> infos (m_s (x_m x)) w d <> None -> ~ In d (forgot (x_c x) w);
  r_queued : forall d, In d (dead (x_c x)) -> ~ In d (concat (x_mon x)) ->
    forall n h, nth_error (hosts (m_s (x_m x))) n = Some h -> resv (mgr h) d = None \/ In d (pending_cleanup (mgr h));
  r_procs : forall p d, infos (m_s (x_m x)) p d <> None -> In p (0 :: workers)
}.

Lemma xr_calm x x' P : XR x -> Fit2 (x_c x') -> calm P (m_s (x_m x)) (m_s (x_m x')) ->
  (forall p d, P p d -> ~ In d (dead (x_c x')) /\ In p (0 :: workers)) ->
  (forall d, In d (dead (x_c x')) -> ~ In d (concat (x_mon x')) -> In d (dead (x_c x)) /\ ~ In d (concat (x_mon x))) ->
  (forall w d, w <> 0 -> In d (forgot (x_c x') w) -> In d (forgot (x_c x) w) \/ infos (m_s (x_m x')) w d = None) ->
  XR x'.
Proof using.
  intros [R1 R2 R3] K C HP Hd Hf. split.
  - intros w d N I D. destruct (Hf w d N D) as [D0|Z]; [|congruence].
    apply (ca_infos _ _ _ C) in I as [I|I]; [apply (R1 w d N I D0)|].
    apply HP in I as [I _]. apply I. eapply k_known; eauto.
  - intros d D M n h H. destruct (Hd d D M) as [D0 M0]. destruct (ca_hosts _ _ _ C n h H) as (h0 & H0 & Pe & Re).
    rewrite Pe. destruct (Re d) as [->|[p Q]]; [eapply R2; eauto|]. apply HP in Q as [Q _]. contradiction.
  - intros p d I. apply (ca_infos _ _ _ C) in I as [I|I]; [eapply R3; eauto|apply (HP p d I)].
Qed.

Lemma take_dead c s d m : dead (take_as body c s d m) = dead c.
Proof using. unfold dead, take_as. destruct (wstep _ _ _ _ _ _); auto. Qed.

Lemma reply_dead c s : dead (reply c s) = dead c.
Proof using.
  unfold dead, reply. destruct (c_left c) as [|k]; auto. destruct (c_chan c s 0) as [|[] l]; auto. cbn [c_seen].
  rewrite flat_map_app. etransitivity; [|apply app_nil_r]. f_equal. destruct (did_in d (c_ids c)); auto. destruct k; auto.
  destruct (match c_exc c with Some _ => _ | None => _ end); auto. unfold got. destruct (read_vals _ _); auto.
Qed.

Lemma reply_forgot c s w : w <> 0 -> forgot (reply c s) w = forgot c w.
Proof using.
  intros N. unfold forgot, reply. destruct (c_left c) as [|k]; auto. destruct (c_chan c s 0) as [|[] l]; auto. cbn [c_in].
  destruct (Nat.eqb_spec w 0); [contradiction|reflexivity].
Qed.

Lemma root_forgot c r w : forgot (root_step workers c r) w = forgot c w.
Proof using.
  unfold forgot. destruct r; cbn [root_step]; cbv zeta; auto.
  - destruct (filter _ _); auto. destruct (owners _ _); auto.
  - destruct (_ =? _); auto.
Qed.

Lemma xr_take x s d : XR x -> Fit (x_c x) -> Fit2 (x_c x) -> Fit (take body (x_c x) s d) -> Fit2 (take body (x_c x) s d) ->
  forall x', xtake body host_of enc dec threshold x s d = Fine x' -> x_c x' = take body (x_c x) s d -> XR x'.
Proof using.
  intros R F K F' K' x' H Ec. unfold xtake in H.
  destruct (c_chan (x_c x) s d) as [|msg rest] eqn:Ch; [injection H as <-; auto|].
  destruct (Nat.eqb_spec d 0) as [->|N0]; [injection H as <-; auto|]. cbn [orb] in H.
  rewrite (f_alive _ _ F d) in H.
  assert (Tk := take_as_take body (x_c x) s d msg rest Ch N0 (f_alive _ _ F d)).
  assert (Dw : In d (0 :: workers)) by (eapply (k_dest _ K s d msg); rewrite Ch; simpl; auto).
  assert (Dd := take_dead (x_c x) s d msg). rewrite Tk in *.
  destruct (match msg with WPut e v => andthen _ _ | _ => _ end) as [[m1 g]|] eqn:Rv in H; [|discriminate]. cbn [andthen fst snd] in H.
  assert (C1 : calm (fun p e => p = d /\ exists v, msg = WPut e v) (m_s (x_m x)) (m_s m1)).
  { destruct msg; try (injection Rv as <- <-; apply calm_refl; fail).
    destruct (receive host_of dec (x_m x) s d (WorkerModel.store (c_work (x_c x) d) d0) d0 v) as [[m' u]|] eqn:Er; [|discriminate].
    cbn [andthen fst snd] in Rv. injection Rv as <- <-. eapply calm_mono; [|eapply receive_calm; exact Er].
    intros p e (-> & ->). eauto. }
  destruct (drops host_of m1 d (match msg with WClean ds => ds | _ => [] end)) as [m2|] eqn:Dr; [|discriminate]. cbn [andthen] in H.
  apply drops_calm in Dr as [C2 Z2].
  set (c' := take_as body (x_c x) s d g) in *.
  destruct (pushes host_of enc threshold m2 d (answers (skipn (length (log (c_work (x_c x) d))) (log (c_work c' d))))) as [m3|] eqn:Pu;
    [|discriminate]. cbn [andthen] in H. injection H as <-. cbn [x_c] in Ec. unfold c' in *. rewrite Ec in Pu |- *. apply pushes_calm in Pu.
  clear c' Ec. set (c' := take_as body (x_c x) s d msg) in *.
  set (new := skipn (length (log (c_work (x_c x) d))) (log (c_work c' d))) in *.
  assert (An : forall r e v, In (r, e, v) (answers new) -> ~ In e (dead c')).
  { intros r e v I D. apply (f_quiet _ _ F' d r e v D). unfold c', take_as.
    assert (Alive := f_alive _ _ F' d). unfold c', take_as in Alive. unfold new, c', take_as in I.
    destruct (wstep d body no_method plain_fn (c_work (x_c x) d) msg) as [w'|] eqn:Ew.
    - cbn [c_chan c_work] in *. rewrite Nat.eqb_refl in *. apply in_or_app. right. apply in_answers; auto.
    - cbn [c_dead] in Alive. rewrite Nat.eqb_refl in Alive. discriminate. }
  assert (Fg : forall w e, In e (forgot c' w) -> In e (forgot (x_c x) w) \/
     (w = d /\ In e (match msg with WClean ds => ds | _ => [] end))).
  { intros w e. unfold c', take_as, forgot. destruct (wstep _ _ _ _ _ _); auto. cbn [c_in].
    destruct (Nat.eqb_spec w d) as [->|]; auto. rewrite map_app, cleans_app. intros I. apply in_app_or in I as [I|I]; auto.
    right. split; auto. cbn [map cleans flat_map snd] in I. rewrite app_nil_r in I. exact I. }
  apply (xr_calm x _ (fun p e => p = d /\ ((exists v, msg = WPut e v) \/ exists r v, In (r, e, v) (answers new)))); cbn [x_c x_m x_mon]; auto.
  - eapply calm_trans; [eapply calm_mono; [|exact C1]|]. { intros p e (-> & v & ->). eauto. }
    eapply calm_trans; [eapply calm_mono; [|exact C2]; intros ? ? []|]. eapply calm_mono; [|exact Pu]. intros p e (-> & X). auto.
  - intros p e (-> & [(v & ->)|(r & v & I)]); split; auto; [|eapply An; eauto].
    rewrite Dd. intros D. apply (f_quiet _ _ F s d e v D). rewrite Ch. simpl; auto.
  - rewrite Dd. auto.
  - intros w e Nw I. destruct (Fg w e I) as [|(-> & J)]; auto. right. destruct (infos (m_s m3) d e) eqn:Ei; auto. exfalso.
    destruct (ca_infos _ _ _ Pu d e) as [X|(_ & r & v & X)]; [congruence| |].
    + rewrite (Z2 e J) in X. contradiction.
    + apply (An r e v X). eapply (k_known _ K'); eauto.
Qed.

Lemma xr_reply x s : XR x -> Fit (x_c x) -> Fit2 (x_c x) -> Fit2 (reply (x_c x) s) ->
  forall x', xreply host_of dec x s = Fine x' -> x_c x' = reply (x_c x) s -> XR x'.
Proof using.
  intros R F K K' x' H Ec. unfold xreply in H.
  destruct (c_left (x_c x)) as [|k] eqn:Lf; [injection H as <-; auto|].
  destruct (c_chan (x_c x) s 0) as [|[] rest] eqn:Ch; try (injection H as <-; exact R).
  set (local := if did_in d (x_here x) then c_vals (x_c x) d else None) in *.
  destruct (receive host_of dec (x_m x) s 0 local d v) as [[m1 u]|] eqn:Er; [|discriminate].
  cbn [andthen fst snd] in H. apply receive_calm in Er.
  assert (M : x_m x' = m1 /\ x_mon x' = x_mon x).
  { destruct k; [destruct (c_exc _)|]; try (injection H as <-; auto; fail).
    destruct (reads _ _ _ _ _ _); [|discriminate]. injection H as <-. auto. }
  destruct M as [M1 M2]. clear H.
  assert (Nd : ~ In d (dead (x_c x))). { intros D. apply (f_quiet _ _ F s 0 d v D). rewrite Ch. simpl; auto. }
  apply (xr_calm x x' (fun p e => p = 0 /\ e = d)); rewrite ?Ec, ?M1, ?M2; auto.
  - intros p e (-> & ->). rewrite reply_dead. simpl; auto.
  - rewrite reply_dead. auto.
  - intros w e N. rewrite reply_forgot; auto.
Qed.

Lemma xr_root x r : XR x -> Fit (x_c x) -> Fit2 (x_c x) -> Fit (root_step workers (x_c x) r) -> Fit2 (root_step workers (x_c x) r) ->
  forall x', xroot workers host_of enc dec threshold x r = Fine x' -> x_c x' = root_step workers (x_c x) r -> XR x'.
Proof using.
  intros R F K F' K' x' H Ec. unfold xroot in H.
  assert (Fg : forall w d, w <> 0 -> In d (forgot (x_c x') w) -> In d (forgot (x_c x) w) \/ infos (m_s (x_m x')) w d = None).
  { intros w d _. rewrite Ec, root_forgot. auto. }
  assert (Pr := root_prog workers (x_c x) r).
  assert (K2 : Fit2 (x_c x')) by (rewrite Ec; auto).
  assert (Same : x_m x' = x_m x -> (forall d, In d (dead (x_c x')) -> ~ In d (concat (x_mon x')) -> In d (dead (x_c x)) /\ ~ In d (concat (x_mon x))) -> XR x').
  { intros M D. apply (xr_calm x x' (fun _ _ => False)); auto; [rewrite M; apply calm_refl|intros ? ? []]. }
  destruct r as [d v|dest q|ds|d|ds].
  - destruct (mdo host_of (x_m x) (SPut 0 d (enc v)) (m_to (x_m x))) as [[m1 o]|] eqn:E; [|discriminate]. cbn [andthen fst] in H.
    assert (M : x_m x' = m1 /\ x_mon x' = x_mon x) by (injection H as <-; auto). destruct M as [M1 M2]. clear H.
    apply mdo_calm in E; [|discriminate]. rewrite <- M1 in E.
    assert (Dc : dead (x_c x') = dead (x_c x)) by (rewrite Ec; unfold dead; simpl; rewrite app_nil_r; auto).
    apply (xr_calm x _ _ R K2 E); rewrite ?Dc, ?M2; auto.
    intros p e (-> & ->). split; [|simpl; auto]. intros D. apply (k_dead _ K) in D. assert (Nf := f_fresh _ _ F'). rewrite Pr in Nf.
    unfold introduced in *. rewrite flat_map_app in Nf. eapply nodup_sep; eauto. simpl; auto.
  - destruct (pushes _ _ _ _ _ _) as [m1|] eqn:E; [|discriminate]. cbn [andthen] in H.
    assert (M : x_m x' = m1 /\ x_mon x' = x_mon x) by (injection H as <-; auto). destruct M as [M1 M2]. clear H.
    apply pushes_calm in E. rewrite <- M1 in E. set (c' := root_step workers (x_c x) (RSubmit dest q)) in *.
    assert (Dc : dead c' = dead (x_c x)).
    { unfold dead, c'. cbn [root_step root_to c_seen]. rewrite flat_map_app. etransitivity; [|apply app_nil_r]. f_equal.
      destruct (submit _ _ _ _ _ _ _); auto. }
    apply (xr_calm x _ _ R K2 E); rewrite ?Ec, ?Dc, ?M2; auto.
    intros p e (-> & y & v & I). split; [|simpl; auto]. rewrite <- Dc. intros D. apply (f_quiet _ _ F' 0 y e v D).
    set (out := pushed (c_vals (x_c x)) q (skipn (length (p_out (c_push (x_c x)))) (p_out (c_push c')))).
    assert (Eo : skipn (length (c_out (x_c x))) (c_out c') = out).
    { change (c_out c') with (c_out (x_c x) ++ out). rewrite skipn_app, skipn_all, Nat.sub_diag. reflexivity. }
    rewrite Eo in I. apply in_values in I. change (In (WPut e v) (c_chan (x_c x) 0 y ++ sends_to y out)). apply in_or_app. right.
    unfold sends_to. apply in_flat_map. exists (y, WPut e v). split; auto. cbn [fst snd]. rewrite Nat.eqb_refl. simpl; auto.
  - cbn [root_step] in Ec. destruct (filter (fun d => negb (did_in d (p_store (c_push (x_c x))))) ds) as [|y l] eqn:Ef.
    + destruct (reads _ _ _ _ _ _) as [a|] eqn:E; [|discriminate]. cbn [andthen] in H.
      assert (M : x_m x' = x_m x /\ x_mon x' = x_mon x) by (injection H as <-; auto). destruct M as [M1 M2]. clear H.
      apply Same; auto. intros e. rewrite Ec, M2. unfold dead. cbn [root_to c_seen]. rewrite flat_map_app. intros I.
      apply in_app_or in I as [I|I]; auto. exfalso. unfold got in I. destruct (read_vals _ _); destruct I.
    + assert (M : x_m x' = x_m x /\ x_mon x' = x_mon x) by (injection H as <-; auto). destruct M as [M1 M2]. clear H.
      apply Same; auto. intros e. rewrite Ec, M2.
      destruct (owners (p_owner (c_push (x_c x))) (y :: l)) as [ol|]; unfold dead; cbn [root_to set_get c_seen];
        rewrite flat_map_app; simpl; rewrite app_nil_r; auto.
  - destruct (mdo host_of (x_m x) (SDrop 0 d) (m_to (x_m x))) as [[m1 o]|] eqn:E; [|discriminate]. cbn [andthen fst] in H.
    assert (M : x_m x' = m1 /\ x_mon x' = x_mon x) by (injection H as <-; auto). destruct M as [M1 M2]. clear H.
    apply mdo_calm in E; [|discriminate]. rewrite <- M1 in E.
    assert (Dc : dead (x_c x') = dead (x_c x)) by (rewrite Ec; unfold dead; simpl; rewrite app_nil_r; auto).
    apply (xr_calm x _ _ R K2 E); rewrite ?Dc, ?M2; auto. intros ? ? [].
  - cbn [root_step] in Ec.
    assert (M : x_m x' = x_m x /\ x_mon x' = if Nat.eqb (mcount (c_mon (x_c x))) (c_tasks (x_c x)) then x_mon x ++ [ds] else x_mon x)
      by (injection H as <-; auto). destruct M as [M1 M2]. clear H.
    apply Same; auto. intros e. rewrite Ec, M2.
    destruct (Nat.eqb (mcount (c_mon (x_c x))) (c_tasks (x_c x))); unfold dead; cbn [root_to c_seen]; rewrite flat_map_app;
      cbn [flat_map]; rewrite ?app_nil_r; auto.
    rewrite concat_app. cbn [concat]. rewrite app_nil_r. intros I N. split.
    + apply in_app_or in I as [I|I]; auto. destruct N. apply in_or_app; auto.
    + intros J. apply N. apply in_or_app; auto.
Qed.

Lemma xr_mon x x' : XR x -> XI x -> XI x' -> xtry x XMon = Fine x' -> x_c x' = x_c x -> XR x'.
Proof using sizes_fine.
  intros [R1 R2 R3] X X' H Ec. cbn [SharedRunModel.xtry] in H. destruct (x_mon x) as [|ds l] eqn:Em.
  { injection H as <-. split; auto. rewrite Em. auto. }
  destruct (mdo host_of (x_m x) (SCleanup ds) (m_to (x_m x))) as [[m1 o]|] eqn:E; [|discriminate]. cbn [andthen fst] in H.
  assert (M : x_m x' = m1 /\ x_mon x' = l) by (injection H as <-; auto). destruct M as [M1 M2]. clear H.
  assert (Mi := xi_mi _ _ _ _ _ _ X'). rewrite M1 in Mi. unfold mdo in E.
  destruct (sstep host_of (m_s (x_m x)) (SCleanup ds)) as [[s u]|] eqn:Es; [|discriminate].
  assert (Z : m_s m1 = s /\ m_ops m1 = m_ops (x_m x) ++ [SCleanup ds]) by (injection E as <- _; auto). destruct Z as [Z1 Z2]. clear E.
  assert (Q := mi_quiet _ _ _ _ _ _ _ _ Mi). rewrite Z2 in Q.
  assert (Cq := cleaned_or_queued host_of sizes (m_ops (x_m x)) ds _ s u sizes_fine (mi_hist _ _ _ _ _ _ _ _ (xi_mi _ _ _ _ _ _ X)) Q
     (mi_run _ _ _ _ _ _ _ _ (xi_mi _ _ _ _ _ _ X)) Es).
  assert (In' : infos s = infos (m_s (x_m x))).
  { cbn [ShmStoreModel.sstep] in Es. destruct (hosts_clear _ _); [|discriminate]. injection Es as <- _. reflexivity. }
  split; rewrite ?Ec, ?M1, ?Z1, ?M2, ?In'; auto.
  intros d D N n h H. destruct (Cq n h d H) as (h0 & H0 & C). apply C.
  destruct (in_dec did_dec d ds) as [|Nd]; auto. right.
  destruct (R2 d D) with (n := n) (h := h0) as [Y|Y]; auto.
  cbn [concat]. intros J. apply in_app_or in J as [J|J]; auto.
Qed.

Lemma run_xr mgr ops : good workers body (c_prog (crun mgr (plain ops))) -> round_trips body enc dec (c_prog (crun mgr (plain ops))) ->
  x_fault (xrun mgr sizes ops) = None -> XR (xrun mgr sizes ops).
Proof using body_ok no_root no_dup same_service hosts_known sizes_fine.
  induction ops as [|o ops IH] using rev_ind; intros G Cd Ff.
  { split; cbn [xinit SharedRunModel.xrun fold_left x_m x_c m_s store_init infos]; intros; try contradiction. }
  assert (Full := proj1 (run_shared workers body body_ok no_root no_dup host_of sizes enc dec threshold sizes_fine same_service hosts_known
                    mgr (ops ++ [o]) G Cd) Ff).
  assert (F' := run_fit workers body body_ok no_root no_dup mgr _ G). assert (K' := run_fit2 mgr _ G).
  assert (Pre : good workers body (c_prog (crun mgr (plain ops))) /\ round_trips body enc dec (c_prog (crun mgr (plain ops)))).
  { rewrite plain_snoc in G, Cd. destruct o as [o|]; [|rewrite app_nil_r in G, Cd; auto]. rewrite SharedRunProofs.crun_snoc in G, Cd.
    destruct (prog_grows workers body (crun mgr (plain ops)) o) as (l & El). rewrite El in G, Cd.
    split; [eapply good_prefix; eauto|]. eapply codec_prefix; eauto. apply G. }
  destruct Pre as [G0 Cd0]. specialize (IH G0 Cd0).
  assert (Es : xrun mgr sizes (ops ++ [o]) = xstep workers body host_of enc dec threshold (xrun mgr sizes ops) o).
  { unfold SharedRunModel.xrun. rewrite fold_left_app. reflexivity. }
  assert (Ff0 : x_fault (xrun mgr sizes ops) = None).
  { rewrite Es in Ff. unfold xstep in Ff. destruct (x_fault (xrun mgr sizes ops)) eqn:E0; auto. congruence. }
  assert (Old := proj1 (run_shared workers body body_ok no_root no_dup host_of sizes enc dec threshold sizes_fine same_service hosts_known
                    mgr ops G0 Cd0) Ff0).
  assert (F := run_fit workers body body_ok no_root no_dup mgr _ G0). assert (K := run_fit2 mgr _ G0).
  specialize (IH Ff0). rewrite Es in *. clear Es. destruct Old as [Ec X]. rewrite <- Ec in F, K.
  set (x := xrun mgr sizes ops) in *. clearbody x. unfold xstep in *. rewrite Ff0 in *.
  destruct (xtry x o) as [x'|f] eqn:Et; [|discriminate Ff]. destruct Full as [Ec' X'].
  destruct o as [o|].
  2:{ rewrite plain_snoc, app_nil_r in Ec'. apply (xr_mon x x'); auto. congruence. }
  rewrite plain_snoc, SharedRunProofs.crun_snoc, <- Ec in Ec', F', K'. clear X X' Ff Ff0.
  destruct o as [r|s d|s|s]; cbn [SharedRunModel.xtry ClusterModel.cstep] in *.
  - destruct (c_left (x_c x)); [|injection Et as <-; auto]. eapply xr_root; eauto.
  - eapply xr_take; eauto.
  - eapply xr_reply; eauto.
  - assert (M : x_m x' = x_m x /\ x_mon x' = x_mon x) by (injection Et as <-; auto). destruct M as [M1 M2].
    destruct (done_same workers (x_c x) s) as (_ & _ & _ & D).
    apply (xr_calm x x' (fun _ _ => False)); rewrite ?Ec', ?M1, ?M2, ?D; auto; [apply calm_refl|intros ? ? []|].
    intros w e _. unfold forgot, done. destruct (c_done (x_c x) s); auto.
Qed.

Lemma no_holders mgr ops : let c := crun mgr (plain ops) in let x := xrun mgr sizes ops in
  good workers body (c_prog c) -> round_trips body enc dec (c_prog c) -> dies_after_birth (c_prog c) -> x_fault x = None -> idle (x_c x) ->
  forall ds d, In (RCleaned ds) (c_seen (x_c x)) -> In d ds ->
  (forall p, infos (m_s (x_m x)) p d = None) /\ (forall h, holders host_of (m_s (x_m x)) h d = 0).
Proof using body_ok no_root no_dup same_service hosts_known sizes_fine.
  cbv zeta. intros G Cd Db Ff Id ds d Sn D.
  destruct (proj1 (run_shared workers body body_ok no_root no_dup host_of sizes enc dec threshold sizes_fine same_service hosts_known
                    mgr ops G Cd) Ff) as [Ec X].
  assert (R := run_xr mgr ops G Cd Ff). destruct G as (V & T & Re & O).
  destruct (run_sim workers body body_ok no_root no_dup mgr (plain ops) V T Re) as (g & S).
  assert (Rf := root_forgets workers body body_ok no_root no_dup mgr (plain ops) V T Re).
  rewrite <- Ec in *. set (x := xrun mgr sizes ops) in *. clearbody x.
  assert (Dd : In d (dead (x_c x))) by (unfold dead; apply in_flat_map; exists (RCleaned ds); auto).
  assert (No : forall p, infos (m_s (x_m x)) p d = None).
  { intros p. destruct (infos (m_s (x_m x)) p d) as [i|] eqn:Ei; auto. exfalso.
    assert (Hp : infos (m_s (x_m x)) p d <> None) by congruence.
    destruct (r_procs _ R p d Hp) as [<-|W].
    - apply (xi_vals _ _ _ _ _ _ X) in Hp. apply Hp.
      destruct (s_dead _ _ _ _ S d Dd) as [_ Dr]. apply in_split in Dr as (a & b & Dr). eapply Rf; eauto.
    - assert (Np : p <> 0) by (intros ->; auto). apply (r_forgot _ R p d Np Hp).
      destruct (s_sent _ _ _ _ S ds p Sn W) as [Y|Y]; [|rewrite Id in Y; destruct Y].
      unfold forgot, cleans. apply in_flat_map. exists (WClean ds). split; auto. apply in_map_iff. exists (0, WClean ds). auto. }
  split; auto. intros h. destruct (holders host_of (m_s (x_m x)) h d) eqn:Eh; auto. exfalso.
  destruct (holders_pos host_of (m_s (x_m x)) h d) as (p & s & I & _); [lia|].
  apply (fins_known host_of (m_ops (x_m x)) (store_init sizes) (m_s (x_m x)) (mi_run _ _ _ _ _ _ _ _ (xi_mi _ _ _ _ _ _ X))) in I; auto.
Qed.

Lemma next_cleanup mg ops : let c := crun mg (plain ops) in let x := xrun mg sizes ops in
  good workers body (c_prog c) -> round_trips body enc dec (c_prog c) -> dies_after_birth (c_prog c) -> x_fault x = None -> idle (x_c x) ->
  forall ids, exists st, sstep host_of (m_s (x_m x)) (SCleanup ids) = Some (st, ODone) /\
  forall ds d, In (RCleaned ds) (c_seen (x_c x)) -> In d ds -> (In d ids \/ ~ In d (concat (x_mon x))) ->
  forall h, stored_count st h d = None.
Proof using body_ok no_root no_dup same_service hosts_known sizes_fine.
  cbv zeta. intros G Cd Db Ff Id ids.
  assert (Nh := no_holders mg ops G Cd Db Ff Id). cbv zeta in Nh.
  destruct (proj1 (run_shared workers body body_ok no_root no_dup host_of sizes enc dec threshold sizes_fine same_service hosts_known
                    mg ops G Cd) Ff) as [Ec X].
  assert (R := run_xr mg ops G Cd Ff). set (x := xrun mg sizes ops) in *. clearbody x.
  assert (Mi := xi_mi _ _ _ _ _ _ X).
  assert (Fl : inflight (m_s (x_m x)) = []).
  { destruct (inflight (m_s (x_m x))) as [|[[q d] i] l] eqn:E; auto. exfalso.
    assert (L := mi_len _ _ _ _ _ _ _ _ Mi). rewrite E in L. destruct (m_to (x_m x)) as [|r to] eqn:Et; [discriminate|].
    assert (N := npk_in (x_m x) q d i r 0). rewrite E, Et in N. specialize (N eq_refl eq_refl).
    rewrite (xi_cnt _ _ _ _ _ _ X) in N. rewrite Id in N. destruct (shared _ _ _ _ _); auto. }
  assert (Qc : quiet_cleanup (m_s (x_m x)) (SCleanup ids)) by (intros q d i h I; rewrite Fl in I; destruct I).
  assert (Q : quiet_run host_of (store_init sizes) (m_ops (x_m x) ++ [SCleanup ids])).
  { eapply quiet_snoc; eauto; apply Mi. }
  destruct (sstep host_of (m_s (x_m x)) (SCleanup ids)) as [[st o]|] eqn:Es.
  2:{ exfalso. apply (fails_only_without_memory host_of sizes (m_ops (x_m x)) (m_s (x_m x)) (SCleanup ids)); auto; try apply Mi.
      - exact Logic.I.
      - intros (d & [] & _). }
  assert (o = ODone) by (cbn [ShmStoreModel.sstep] in Es; destruct (hosts_clear _ _); [|discriminate]; injection Es as _ <-; reflexivity).
  subst o. exists st. split; auto. intros ds d Sn D W h.
  destruct (Nh ds d Sn D) as [No Ho].
  assert (Dd : In d (dead (x_c x))) by (unfold dead; apply in_flat_map; exists (RCleaned ds); auto).
  assert (Use : (In d ids \/ exists y, In y (hosts (m_s (x_m x))) /\ In d (pending_cleanup (mgr y))) -> stored_count st h d = None).
  { intros U. eapply (unheld_reclaimed host_of sizes (m_ops (x_m x)) ids _ st ODone h d); eauto; apply Mi. }
  destruct W as [W|W]; [apply Use; auto|].
  destruct (stored_count st h d) as [c0|] eqn:Sc; auto.
  assert (Sc' := Sc). unfold stored_count in Sc'. destruct (nth_error (hosts st) h) as [h'|] eqn:Hh; [|discriminate].
  assert (Cq := cleaned_or_queued host_of sizes (m_ops (x_m x)) ids _ st ODone sizes_fine (mi_hist _ _ _ _ _ _ _ _ Mi) Q
     (mi_run _ _ _ _ _ _ _ _ Mi) Es h h' d Hh). destruct Cq as (h0 & H0 & _).
  destruct (in_dec did_dec d (pending_cleanup (mgr h0))) as [J|J].
  { apply Use. right. exists h0. split; auto. eapply nth_error_In; eauto. }
  exfalso. destruct (r_queued _ R d Dd W h h0 H0) as [Y|Y]; auto.
  (* a cleanup reserves nothing *)
  assert (Kr := cleanup_reserves_nothing host_of _ _ _ _ Es h h' Hh). destruct Kr as (h1 & H1 & Kr).
  assert (h1 = h0) by congruence. subst h1. apply Kr in Y. rewrite Y in Sc'. discriminate.
Qed.
End XR.

Section Final.
Variable workers : list rank.
Variable body : val -> val -> val -> result.
Variable host_of : rank -> nat.
Variable sizes : list (Z * Z).
Variable enc : val -> payload.
Variable dec : payload -> option val.
Variable threshold : nat.
Variable mg : manager.
Variable ops : list xop.
Hypothesis body_ok : forall f a k, no_refs_returned (body f a k).
Hypothesis no_root : ~ In 0 workers.
Hypothesis no_dup : NoDup workers.
Hypothesis mem_ok : memory_fine host_of sizes.
Notation prog := (c_prog (crun workers body mg (plain ops))).
Hypothesis V : valid workers prog.
Hypothesis T : tidy prog.
Hypothesis R : returns_enough body prog.
Hypothesis O : one_source prog.
Hypothesis Rt : round_trips body enc dec prog.
Hypothesis Db : dies_after_birth prog.
Notation x := (xrun workers body host_of enc dec threshold mg sizes ops).

Lemma final_holders : x_fault x = None -> idle (x_c x) -> forall ds d, In (RCleaned ds) (c_seen (x_c x)) -> In d ds ->
  (forall p, infos (m_s (x_m x)) p d = None) /\ (forall h, holders host_of (m_s (x_m x)) h d = 0).
Proof.
  destruct mem_ok as (M1 & M2 & M3).
  exact (no_holders workers body body_ok no_root no_dup host_of sizes enc dec threshold M1 M2 M3 mg ops (conj V (conj T (conj R O))) Rt Db).
Qed.

Lemma final_freed : x_fault x = None -> idle (x_c x) -> forall ids, exists st, sstep host_of (m_s (x_m x)) (SCleanup ids) = Some (st, ODone) /\
  forall ds d, In (RCleaned ds) (c_seen (x_c x)) -> In d ds -> (In d ids \/ ~ In d (concat (x_mon x))) ->
  forall h, stored_count st h d = None.
Proof.
  destruct mem_ok as (M1 & M2 & M3).
  exact (next_cleanup workers body body_ok no_root no_dup host_of sizes enc dec threshold M1 M2 M3 mg ops (conj V (conj T (conj R O))) Rt Db).
Qed.
End Final.
