(** Concrete shutdowns. *)
From Verif Require Import Lib ShmModel DataIdModel TopoModel TopoProofs MonModel ShutModel ShutSpec ShutProofs.

Definition xmgr : rank -> manager := fun _ => manager_init 0 0.

(** Shut down, receiving the oldest message first. *)
Definition oldest (n : nat) : list act := AStart :: repeat ACancel 10 ++ repeat (ADeliver 0) n.

Lemma quiet_net c s (m : rank * rank * smsg) :
  sstep c s AStart = None -> sstep c s ACancel = None -> snet s = [m] -> sstep c s (ADeliver 0) = None -> quiet c s.
Proof.
  intros A B E D. split; auto. split; auto. intros [|i]; auto. simpl. rewrite E. destruct i; reflexivity.
Qed.

Lemma quiet_nil c s : sstep c s AStart = None -> sstep c s ACancel = None -> snet s = [] -> quiet c s.
Proof. intros A B E. split; auto. split; auto. intros i. simpl. rewrite E. destruct i; reflexivity. Qed.

(** Two machines filled one after the other, shared store: monitors 1 and 4. *)
Definition xplace := [0; 0; 0; 1; 1; 1; 1].
Definition xcluster : scfg := {| s_workers := [2; 3; 5; 6]; s_monitors := [1; 4]; s_rmon := 1 |}.

Lemma xstarted : cluster xplace (fun k => k + 5) true = Some xcluster.
Proof. reflexivity. Qed.

Lemma two_each place : (forall k, In k place -> 2 <= count_occ Nat.eq_dec place k) <->
  forallb (fun k => Nat.leb 2 (count_occ Nat.eq_dec place k)) place = true.
Proof.
  rewrite forallb_forall. split; intros H k I; specialize (H k I); [apply Nat.leb_le | apply Nat.leb_le in H]; auto.
Qed.

Lemma xdone : let s := srun xcluster (sinit xmgr)
    ([AStart; ACancel; ACancel; ADeliver 1; AOther 4 (MCount 5); ACancel; ADeliver 1] ++ repeat ACancel 3 ++ repeat (ADeliver 0) 20) in
  sroot s = RGone /\ quiet xcluster s /\ receipts (slog s) = 14 /\ map (stops (slog s)) [1; 2; 3; 4; 5; 6] = [0; 1; 1; 1; 1; 1].
Proof.
  cbv zeta. split; [vm_compute; reflexivity|]. split; [|split; vm_compute; reflexivity].
  apply quiet_nil; vm_compute; reflexivity.
Qed.

(** Two machines filled in turn: rank 1 is a worker on the other machine, the root's monitor is 2. *)
Lemma waits_for_ever : exists place addr c acts,
  (forall a b, In a place -> In b place -> addr a = addr b -> a = b) /\
  (forall k, In k place -> 2 <= count_occ Nat.eq_dec place k) /\
  cluster place addr true = Some c /\ s_workers c <> [] /\
  let s := srun c (sinit xmgr) acts in
  quiet c s /\ sroot s = RWait /\ forall w, In w (s_workers c) -> sworker s w = WkGone.
Proof.
  exists [0; 1; 0; 1; 0; 1], (fun k => k + 5), {| s_workers := [4; 1; 5]; s_monitors := [2; 3]; s_rmon := 2 |}, (oldest 20).
  split; [intros; lia|]. split; [apply two_each; reflexivity|]. split; [reflexivity|]. split; [discriminate|].
  cbv zeta. split; [apply (quiet_net _ _ (2, 0, SStopObj)); vm_compute; reflexivity|].
  split; [vm_compute; reflexivity|]. intros w [<-|[<-|[<-|[]]]]; vm_compute; reflexivity.
Qed.

(** Only the root and a monitor. *)
Lemma no_workers_hang : exists place addr c acts,
  (forall a b, In a place -> In b place -> addr a = addr b -> a = b) /\
  (forall k, In k place -> 2 <= count_occ Nat.eq_dec place k) /\
  cluster place addr true = Some c /\ s_rmon c = 1 /\
  let s := srun c (sinit xmgr) acts in quiet c s /\ sroot s = RWait.
Proof.
  exists [0; 0], (fun k => k + 5), {| s_workers := []; s_monitors := [1]; s_rmon := 1 |}, (oldest 20).
  split; [intros; lia|]. split; [apply two_each; reflexivity|]. split; [reflexivity|]. split; [reflexivity|].
  cbv zeta. split; [apply quiet_nil; vm_compute; reflexivity|]. vm_compute; reflexivity.
Qed.

Section Lift.
Variables (place : list nat) (addr : nat -> nat) (shm : bool) (c : scfg).
Hypothesis dist : forall a b, In a place -> In b place -> addr a = addr b -> a = b.
Hypothesis len : 2 <= length place.
Hypothesis two : shm = true -> forall k, In k place -> 2 <= count_occ Nat.eq_dec place k.
Hypothesis cl : cluster place addr shm = Some c.

Lemma p_once g acts : let log := slog (srun c (sinit g) acts) in
  (forall r, In r (s_workers c ++ s_monitors c) -> stops log r <= 1) /\
  (forall w, In w (s_workers c) -> sworker (srun c (sinit g) acts) w <> WkDead) /\
  receipts log <= 3 * length (s_workers c) + length (s_monitors c).
Proof using dist len two cl.
  assert (O := started _ _ _ _ dist len two cl). cbv zeta.
  split; [intros r; apply stop_once; exact O|]. split; [intros w; apply nobody_dies; exact O | apply few_receipts; exact O].
Qed.

Lemma p_early g acts before e after : slog (srun c (sinit g) acts) = before ++ e :: after ->
  (exists r, e = SvGot r SStop) \/ e = SvGot 0 SStopObj ->
  forall w, In w (s_workers c) -> acknowledged c before w.
Proof using dist len two cl. intros E Te. eapply not_early; eauto. eapply started; eauto. Qed.

Lemma p_done g acts : s_workers c <> [] -> (shm = true -> nth 1 place 0 = nth 0 place 0) ->
  let s := srun c (sinit g) acts in
  sroot s <> RRun -> quiet c s ->
  sroot s = RGone /\
  forall r, In r (s_workers c ++ s_monitors c) ->
    gone c s r /\ stops (slog s) r = if Nat.eqb r (s_rmon c) then 0 else 1.
Proof using dist len two cl.
  intros Ne One s R Q. apply quiet_done; auto; [eapply started; eauto | eapply started_one; eauto].
Qed.
End Lift.
