(** C90: two machines, monitors 1 and 4, workers 2 and 3, 5. *)
From Verif Require Import Lib ShmModel DataIdModel TopoModel TopoProofs MonModel ShutModel ShutSpec ShutProofs ShutCases LateModel LateSpec LateProofs.

Definition yplace := [0; 0; 0; 1; 1; 1].
Definition yaddr (k : nat) := k + 5.
Definition ycluster : scfg := {| s_workers := [2; 3; 5]; s_monitors := [1; 4]; s_rmon := 1 |}.
Definition ymon := monitor_of yplace yaddr.

(** Worker 2 makes an object and sends it to worker 5, on the other machine; then shutdown. *)
Definition ysend : list lop := [LMake 2 (2, 0); LSend 2 5 (2, 0)].
Definition ycancel : list lop := LShut AStart :: repeat (LShut ACancel) 4 ++ repeat (LShut (ADeliver 0)) 3.

(** The package is taken in time; or after CANCEL, and monitor 4 leaves before it sees the request. *)
Definition ygood : list lop :=
  ysend ++ [LTake 0; LServe 0; LServe 0] ++ ycancel ++ repeat (LShut (ADeliver 0)) 8.
Definition ybad : list lop :=
  ysend ++ ycancel ++ repeat (LShut (ADeliver 0)) 3 ++ [LTake 0; LShut (ADeliver 3)] ++ [LShut (ADeliver 0); LShut (ADeliver 0); LShut (ADeliver 1)].

Lemma yhyps : (forall a b, In a yplace -> In b yplace -> yaddr a = yaddr b -> a = b) /\
  (forall k, In k yplace -> 2 <= count_occ Nat.eq_dec yplace k) /\ 2 <= length yplace /\
  cluster yplace yaddr true = Some ycluster /\ s_workers ycluster <> [] /\ nth 1 yplace 0 = nth 0 yplace 0.
Proof.
  split; [unfold yaddr; intros; lia|]. split; [apply two_each; reflexivity|]. split; [cbn; lia|]. split; [reflexivity|].
  split; [discriminate|reflexivity].
Qed.

Lemma rest_of c mon st : sstep c (l_s st) AStart = None -> sstep c (l_s st) ACancel = None ->
  (forall w, l_wait st w = None \/ exists o d, l_wait st w = Some (o, d, WaitReserve)) ->
  l_pkgs st = [] -> (forall i w m, nth_error (l_req st) i = Some (w, m) -> mstopped (smon (l_s st) m) = true) ->
  (forall i src dst m, nth_error (snet (l_s st)) i = Some (src, dst, m) -> l_wait st dst <> None) -> at_rest c mon st.
Proof.
  intros A B W P R N [o d|o w d|i|i|w|a]; auto; cbn [lstep].
  - rewrite P. destruct i; auto.
  - destruct (nth_error (l_req st) i) as [[w m]|] eqn:E; auto. rewrite (R _ _ _ E). auto.
  - destruct (W w) as [->|(o & d & ->)]; auto.
  - destruct a as [| |i|r m]; auto; cbn [free_for].
    + rewrite A. auto.
    + rewrite B. auto.
    + destruct (nth_error (snet (l_s st)) i) as [[[src dst] m]|] eqn:E.
      * specialize (N _ _ _ _ E). destruct (l_wait st dst); auto. congruence.
      * cbn [sstep]. rewrite E. auto.
Qed.

Lemma yworkers ops w x : l_wait (lrun ycluster ymon xmgr ops) w = Some x -> In w (s_workers ycluster).
Proof. intros H. apply (li_w _ _ _ (li_run ycluster ymon xmgr ops) w x H). Qed.

Lemma ygood_end : let st := lrun ycluster ymon xmgr ygood in
  sroot (l_s st) = RGone /\ at_rest ycluster ymon st /\ l_have st = [(2, (2, 0)); (5, (2, 0))] /\
  forall w, ~ took_late ycluster ymon xmgr ygood w.
Proof.
  cbv zeta. split; [vm_compute; reflexivity|]. split; [|split; [vm_compute; reflexivity|]].
  - apply rest_of.
    + vm_compute. reflexivity.
    + vm_compute. reflexivity.
    + intros w. left. destruct (l_wait (lrun ycluster ymon xmgr ygood) w) eqn:W; auto.
      destruct (yworkers _ _ _ W) as [<-|[<-|[<-|[]]]]; vm_compute in W; discriminate.
    + vm_compute. reflexivity.
    + assert (E : l_req (lrun ycluster ymon xmgr ygood) = []) by (vm_compute; reflexivity). rewrite E. intros [|i] ? ? H; discriminate H.
    + assert (E : snet (l_s (lrun ycluster ymon xmgr ygood)) = []) by (vm_compute; reflexivity). rewrite E. intros [|i] ? ? ? H; discriminate H.
  - intros w (ops1 & i & ops2 & o & d & E & _ & S & _).
    unfold ygood, ysend, ycancel in E. cbn in E.
    destruct ops1 as [|x1 ops1]; [discriminate|]. injection E as <- E.
    destruct ops1 as [|x2 ops1]; [discriminate|]. injection E as <- E.
    destruct ops1 as [|x3 ops1].
    + vm_compute in S. discriminate.
    + injection E as _ E. exfalso. clear S.
      assert (No : forall l, l = ops1 ++ LTake i :: ops2 -> In (LTake i) l) by (intros l ->; apply in_elt).
      apply No in E. cbn in E. repeat (destruct E as [E|E]; [discriminate E|]). exact E.
Qed.

Lemma ybad_end : let st := lrun ycluster ymon xmgr ybad in
  sroot (l_s st) <> RRun /\ at_rest ycluster ymon st /\ sworker (l_s st) 5 <> WkGone.
Proof.
  cbv zeta. split; [vm_compute; discriminate|]. split; [|vm_compute; discriminate].
  apply rest_of.
  - vm_compute. reflexivity.
  - vm_compute. reflexivity.
  - intros w. destruct (Nat.eq_dec w 5) as [->|D]; [right; exists 2, (2, 0); vm_compute; reflexivity|left].
    destruct (l_wait (lrun ycluster ymon xmgr ybad) w) eqn:W; auto.
    destruct (yworkers _ _ _ W) as [<-|[<-|[<-|[]]]]; [vm_compute in W; discriminate|vm_compute in W; discriminate|congruence].
  - vm_compute. reflexivity.
  - assert (E : l_req (lrun ycluster ymon xmgr ybad) = [(5, 4)]) by (vm_compute; reflexivity). rewrite E.
    intros [|[|i]] w m H; try discriminate H. injection H as <- <-. vm_compute. reflexivity.
  - assert (E : snet (l_s (lrun ycluster ymon xmgr ybad)) = [(1, 5, SStop)]) by (vm_compute; reflexivity). rewrite E.
    intros [|[|i]] src dst m H; try discriminate H. injection H as <- <- <-. vm_compute. discriminate.
Qed.

Lemma late_hang : exists place addr c ops w,
  (forall a b, In a place -> In b place -> addr a = addr b -> a = b) /\
  (forall k, In k place -> 2 <= count_occ Nat.eq_dec place k) /\ 2 <= length place /\
  cluster place addr true = Some c /\ s_workers c <> [] /\ nth 1 place 0 = nth 0 place 0 /\
  let mon := monitor_of place addr in
  sroot (l_s (lrun c mon xmgr ops)) <> RRun /\ at_rest c mon (lrun c mon xmgr ops) /\ In w (s_workers c) /\
  forall ops', sworker (l_s (lrun c mon xmgr (ops ++ ops'))) w = WkReady.
Proof.
  exists yplace, yaddr, ycluster, ybad, 5. destruct yhyps as (A & B & C & D & E & F). do 6 (split; [assumption|]).
  cbv zeta. destruct ybad_end as (G & H & K). split; [exact G|]. split; [exact H|]. split; [cbn; auto|].
  intros ops'.
  assert (O : cluster_ok ycluster) by (eapply started; eauto).
  assert (R : In (5, 4) (l_req (lrun ycluster ymon xmgr ybad))) by (vm_compute; auto).
  assert (S : mstopped (smon (l_s (lrun ycluster ymon xmgr ybad)) 4) = true) by (vm_compute; reflexivity).
  assert (T : sworker (l_s (lrun ycluster ymon xmgr ybad)) 5 = WkReady) by (vm_compute; reflexivity).
  destruct (hangs ycluster ymon xmgr ybad 5 4 R S ops') as (_ & _ & W). rewrite <- T. exact W.
Qed.
