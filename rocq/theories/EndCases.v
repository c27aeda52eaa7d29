(** Concrete shutdowns of programs with nested calls. *)
From Verif Require Import Lib ShmModel DataIdModel TopoModel MonModel ValModel WorkerModel WorkerSpec ClusterModel NestModel NestSpec NestCases NestStuckCases
  ShutModel ShutSpec ShutCases EndModel EndSpec EndSim.

(** The root, a monitor and the workers 2 and 3 on one machine. *)
Definition ecluster : scfg := {| s_workers := [2; 3]; s_monitors := [1]; s_rmon := 1 |}.

Lemma estarted : cluster [0; 0; 0; 0] (fun k => k) false = Some ecluster.
Proof. reflexivity. Qed.

Lemma etwo : exists w1 w2, In w1 (s_workers ecluster) /\ In w2 (s_workers ecluster) /\ w1 <> w2.
Proof. exists 2, 3. simpl. auto. Qed.

(** Messages that MPI does not buffer: none, or the values. *)
Definition all_small : wmsg -> bool := fun _ => false.
Definition big_values (m : wmsg) : bool := match m with WPut _ _ => true | _ => false end.

(** What makes a state one in which nothing can happen. *)
Lemma stuck_intro c body big e : e_called e = true ->
  (forall p, match p_cur (n_proc (e_n e) p) with None => True | Some fr => p = 0 \/ f_get fr <> None end) ->
  (forall p fr, p_cur (n_proc (e_n e) p) = Some fr -> f_get fr <> None -> forall src, n_rep (e_n e) src p = []) ->
  (forall p, In p (s_workers c) -> (forall src, n_chan (e_n e) src p = []) \/
     if e_cancelled e p then sworker (e_s e) p <> WkReady else p_cur (n_proc (e_n e) p) <> None) ->
  (forall i, take_cancel c e i = e) ->
  sstep c (e_s e) AStart = None -> sstep c (e_s e) ACancel = None ->
  (forall i, may c big e (ADeliver i) = true -> sstep c (e_s e) (ADeliver i) = None) ->
  stuck c body big e.
Proof.
  intros Ca F R Q T S1 S2 S3 o No. destruct o as [o| |i|a].
  - simpl. destruct o as [p d|src p|src p]; simpl.
    + destruct (Nat.eqb p ROOT) eqn:Ep; simpl; [rewrite Ca; reflexivity|]. specialize (F p). destruct (p_cur (n_proc (e_n e) p)) as [fr|]; [|apply set_same].
      destruct (n_dead (e_n e) p); [apply set_same|]. destruct F as [->|F]; [discriminate|]. destruct (f_get fr); [apply set_same|congruence].
    + destruct (mem_rank p (s_workers c)) eqn:M; auto. assert (M' : In p (s_workers c)).
      { unfold mem_rank in M. apply existsb_exists in M as (x & X & Y). apply Nat.eqb_eq in Y. subst x. exact X. }
      specialize (Q p M'). destruct Q as [Q|Q].
      * rewrite Q. destruct (e_cancelled e p); [destruct (sworker (e_s e) p); auto|apply set_same].
      * destruct (e_cancelled e p).
        -- destruct (sworker (e_s e) p); auto. congruence.
        -- destruct (n_chan (e_n e) src p); [apply set_same|]. destruct (p_cur (n_proc (e_n e) p)); [apply set_same|congruence].
    + destruct (n_rep (e_n e) src p) as [|[d v] l] eqn:E; [apply set_same|]. specialize (R p). destruct (p_cur (n_proc (e_n e) p)) as [fr|]; [|apply set_same].
      destruct (f_get fr) eqn:G; [|apply set_same]. rewrite (R fr eq_refl ltac:(congruence) src) in E. discriminate.
  - simpl. unfold call_shutdown. destruct (p_cur (n_proc (e_n e) ROOT)) as [fr|]; auto. destruct (f_get fr); auto. destruct e; simpl in *; subst; reflexivity.
  - apply T.
  - simpl. destruct a as [| |i|r m].
    + destruct (may c big e AStart); auto. rewrite S1. reflexivity.
    + destruct (may c big e ACancel); auto. rewrite S2. reflexivity.
    + specialize (S3 i). destruct (may c big e (ADeliver i)); auto. rewrite S3; auto.
    + exfalso. eapply No; reflexivity.
Qed.

(** ** A task waits in get for a task on another worker, which has taken CANCEL *)

Definition hmain : NestModel.act := APut (VLeaf 0) (fun f => ASubmit f (VTuple [VLeaf 5]) (VDict []) 1 (fun _ => ARet (RVal (VLeaf 0)))).

Lemma hmain_ok : refless hmain.
Proof. simpl. auto. Qed.
Lemma hmain_closed : closed [] [] hmain.
Proof. intros f. simpl. split; auto. split; [intros x []|auto]. Qed.

Definition hops : list eop :=
  map EProg [NRun 0 0; NRun 0 2; NTake 0 2; NTake 0 2; NRun 2 0; NRun 2 3] ++
  [ECall; EShut AStart; EShut ACancel; EShut ACancel; EShut ACancel; ECancel 1; EShut (ADeliver 1); EShut (ADeliver 1)] ++
  map EProg [NTake 2 3; NTake 2 3; NRun 2 0; NTake 2 3].

Notation hcase := (erun ecluster nbody all_small hmain xmgr hops).


Lemma hcase_fits : results_fit (n_hist (e_n hcase)).
Proof. apply ones_fit. vm_compute. reflexivity. Qed.

Lemma hcase_waits : in_get (e_n hcase) 2.
Proof. destruct (p_cur (n_proc (e_n hcase) 2)) as [fr|] eqn:E; vm_compute in E; [|discriminate]. apply Some_inj in E as <-. eexists. split; [vm_compute; reflexivity|discriminate]. Qed.

Lemma hcase_stuck : stuck ecluster nbody all_small hcase.
Proof.
  apply stuck_intro.
  - vm_compute. reflexivity.
  - intros p. destruct (p_cur (n_proc (e_n hcase) p)) as [fr|] eqn:E; auto. destruct p as [|[|[|[|p]]]]; vm_compute in E; try discriminate E; auto.
    apply Some_inj in E as <-. right. discriminate.
  - intros p fr E G. destruct p as [|[|[|[|p]]]]; vm_compute in E; try discriminate E; apply Some_inj in E as <-; [exfalso; apply G; reflexivity|]. quiet.
  - intros p [<-|[<-|[]]]; [right; vm_compute; discriminate|left; quiet].
  - intros [|i]; [|unfold take_cancel; assert (N : nth_error (snet (e_s hcase)) (S i) = None) by (vm_compute; destruct i; reflexivity); rewrite N; reflexivity].
    unfold take_cancel. assert (N : nth_error (snet (e_s hcase)) 0 = Some (0, 2, SCancel)) by (vm_compute; reflexivity). rewrite N.
    assert (X : mem_rank 2 (s_workers ecluster) && listens (e_n hcase) 0 2 && negb (e_cancelled hcase 2) = false) by (vm_compute; reflexivity). rewrite X. reflexivity.
  - vm_compute. reflexivity.
  - vm_compute. reflexivity.
  - intros [|i]; [vm_compute; discriminate|]. intros _. vm_compute. destruct i; reflexivity.
Qed.

Lemma hcase_root : sroot (e_s hcase) = RWait /\ e_called hcase = true.
Proof. vm_compute. auto. Qed.

(** ** Two workers wait in finish for each other *)

Definition umain : NestModel.act :=
  APut (VLeaf 1) (fun f => ASubmit f (VTuple [VLeaf 5]) (VDict []) 1 (fun x => ASubmit f (VTuple [VLeaf 6]) (VDict []) 1 (fun y =>
  match x, y with
  | Some [a], Some [b] => ASubmit f (VTuple [VRef b]) (VDict []) 1 (fun _ => ASubmit f (VTuple [VRef a]) (VDict []) 1 (fun _ => ARet (RVal (VLeaf 0))))
  | _, _ => ARet (RExc 5)
  end))).

Definition uops : list eop :=
  map EProg [NRun 0 0; NRun 0 2; NRun 0 3; NRun 0 2; NRun 0 3] ++ [ECall] ++
  map EProg [NTake 0 2; NTake 0 2; NRun 2 0; NTake 0 3; NTake 0 3; NRun 3 0; NTake 0 2; NTake 0 2; NTake 0 3; NTake 0 3; NTake 3 2; NTake 2 3] ++
  [EShut AStart; EShut ACancel; EShut ACancel; EShut ACancel; ECancel 0; ECancel 1].
Notation ucase := (erun ecluster nbody big_values umain xmgr uops).


Lemma umain_ok : refless umain.
Proof. simpl. split; auto. intros f [[|a [|]]|] [[|b [|]]|]; simpl; auto. Qed.
Lemma umain_closed : closed [] [] umain.
Proof.
  intros f. simpl. split; auto. split; [intros x []|]. intros [|a [|]] E; try discriminate. split; auto. split; [intros x []|].
  intros [|b [|]] E'; try discriminate. simpl. split; auto. split; [intros x [<-|[]]; simpl; auto|]. intros ds _. split; auto. split; auto.
  intros x [<-|[]]. simpl. right. apply in_or_app. simpl. auto.
Qed.

Lemma ucase_fits : results_fit (n_hist (e_n ucase)).
Proof. apply ones_fit. vm_compute. reflexivity. Qed.

Lemma ucase_waits : finishing ucase 2 /\ finishing ucase 3 /\ n_chan (e_n ucase) 2 3 = [WPut (0, 1) (VLeaf 10)] /\ n_chan (e_n ucase) 3 2 = [WPut (0, 2) (VLeaf 12)].
Proof. repeat split; vm_compute; reflexivity. Qed.

Lemma ucase_nobody : forall w, In w (s_workers ecluster) -> ~ in_get (e_n ucase) w.
Proof. intros w [<-|[<-|[]]] (fr & E & _); vm_compute in E; discriminate. Qed.

Lemma ucase_stuck : stuck ecluster nbody big_values ucase.
Proof.
  apply stuck_intro.
  - vm_compute. reflexivity.
  - intros p. destruct (p_cur (n_proc (e_n ucase) p)) as [fr|] eqn:E; auto. destruct p as [|[|[|[|p]]]]; vm_compute in E; try discriminate E; auto.
  - intros p fr E G. destruct p as [|[|[|[|p]]]]; vm_compute in E; try discriminate E; apply Some_inj in E as <-; exfalso; apply G; reflexivity.
  - intros p [<-|[<-|[]]]; right; vm_compute; discriminate.
  - intros i. unfold take_cancel. destruct i as [|[|i]].
    + assert (N : nth_error (snet (e_s ucase)) 0 = Some (0, 2, SCancel)) by (vm_compute; reflexivity). rewrite N.
      assert (X : mem_rank 2 (s_workers ecluster) && listens (e_n ucase) 0 2 && negb (e_cancelled ucase 2) = false) by (vm_compute; reflexivity). rewrite X. reflexivity.
    + assert (N : nth_error (snet (e_s ucase)) 1 = Some (0, 3, SCancel)) by (vm_compute; reflexivity). rewrite N.
      assert (X : mem_rank 3 (s_workers ecluster) && listens (e_n ucase) 0 3 && negb (e_cancelled ucase 3) = false) by (vm_compute; reflexivity). rewrite X. reflexivity.
    + assert (N : nth_error (snet (e_s ucase)) (S (S i)) = None) by (vm_compute; destruct i; reflexivity). rewrite N. reflexivity.
  - vm_compute. reflexivity.
  - vm_compute. reflexivity.
  - intros [|[|i]]; [vm_compute; discriminate|vm_compute; discriminate|]. intros _. vm_compute. destruct i; reflexivity.
Qed.

Lemma ucase_root : sroot (e_s ucase) = RWait /\ e_called ucase = true.
Proof. vm_compute. auto. Qed.

(** ** A pending call is dropped *)

(** f on 2 gives d; f(d) on 3 is pending when 3 takes CANCEL. *)
Definition dmain : NestModel.act :=
  APut (VLeaf 1) (fun f => ASubmit f (VTuple [VLeaf 5]) (VDict []) 1 (fun x =>
  match x with Some [a] => ASubmit f (VTuple [VRef a]) (VDict []) 1 (fun _ => ARet (RVal (VLeaf 0))) | _ => ARet (RExc 5) end)).

Definition stopping : list eop := [EShut (ADeliver 0); EShut (ADeliver 0); EShut (ADeliver 0); EShut (ADeliver 0); EShut (ADeliver 0)].
Definition dops : list eop :=
  map EProg [NRun 0 0; NRun 0 2; NRun 0 3] ++ [ECall] ++
  map EProg [NTake 0 3; NTake 0 3; NTake 0 3] ++
  [EShut AStart; EShut ACancel; EShut ACancel; EShut ACancel; ECancel 1] ++
  map EProg [NTake 0 2; NTake 0 2; NRun 2 0; NTake 3 2] ++ [ECancel 0; EShut (ADeliver 0); EShut (ADeliver 0); EProg (NTake 2 3)] ++ stopping.
Notation dcase := (erun ecluster nbody all_small dmain xmgr dops).

Lemma dmain_ok : refless dmain.
Proof. simpl. split; auto. intros f [[|a [|]]|]; simpl; auto. Qed.
Lemma dmain_closed : closed [] [] dmain.
Proof.
  intros f. simpl. split; auto. split; [intros x []|]. intros [|a [|]] E; try discriminate. simpl. split; auto. split; auto. intros x [<-|[]]. simpl. auto.
Qed.

Lemma dcase_fits : results_fit (n_hist (e_n dcase)).
Proof. apply ones_fit. vm_compute. reflexivity. Qed.

Lemma dcase_returned : returned dcase.
Proof. vm_compute. reflexivity. Qed.

Definition dtask : request := {| q_id := 1; q_fn := FRef (0, 0); q_args := VTuple [VRef (0, 1)]; q_kwargs := VDict []; q_out := OOne (0, 2) |}.
Definition dfirst : request := {| q_id := 0; q_fn := FRef (0, 0); q_args := VTuple [VLeaf 5]; q_kwargs := VDict []; q_out := OOne (0, 1) |}.

Lemma dcase_hist : n_hist (e_n dcase) =
  [(0, HPut (0, 0) (VLeaf 1)); (0, HSubmit 2 dfirst); (0, HSubmit 3 dtask); (1, HStart 0); (1, HEnd (RVal (VLeaf 10)))].
Proof. vm_compute. reflexivity. Qed.

Lemma dcase_dropped : In (0, HSubmit 3 dtask) (n_hist (e_n dcase)) /\ forall t, ~ In (t, HStart (q_id dtask)) (n_hist (e_n dcase)).
Proof.
  rewrite dcase_hist. split; [simpl; auto|]. intros t I. simpl in I. repeat (destruct I as [I|I]; [discriminate I|]). destruct I.
Qed.

Lemma dcase_put : In (0, HSubmit 2 dfirst) (n_hist (e_n dcase)) /\ put_args (n_hist (e_n dcase)) dfirst.
Proof. rewrite dcase_hist. split; [simpl; auto|]. intros d []. Qed.

(** ** A shutdown that ends: the tasks call others and do not wait for them; all have ended *)

Definition shutting : list eop :=
  [EShut AStart; EShut ACancel; EShut ACancel; EShut ACancel; ECancel 0; EShut (ADeliver 0); ECancel 0; EShut (ADeliver 0)] ++ stopping.
Notation pbefore := (map EProg gops).
Notation pcase := (erun ecluster gbody big_values gmain xmgr (pbefore ++ ECall :: shutting)).

Lemma pcase_returned : returned pcase.
Proof. vm_compute. reflexivity. Qed.

Lemma pcase_fits : results_fit (n_hist (e_n pcase)).
Proof. apply ones_fit. vm_compute. reflexivity. Qed.

Lemma pcase_called : e_called pcase = true /\ e_called (erun ecluster gbody big_values gmain xmgr (pbefore ++ [ECall])) = true.
Proof. vm_compute. auto. Qed.

(** Every task of a history has ended. *)
Definition ended_ids (h : list (nat * hev)) (i : nat) : bool :=
  existsb (fun x => match snd x with HStart j => Nat.eqb j i && existsb (fun y => match snd y with HEnd _ => Nat.eqb (fst y) (fst x) | _ => false end) h | _ => false end) h.
Definition all_ended (h : list (nat * hev)) : bool := forallb (fun x => match snd x with HSubmit _ q => ended_ids h (q_id q) | _ => true end) h.

Lemma all_ended_done h : all_ended h = true -> forall t w q, In (t, HSubmit w q) h -> done h q.
Proof.
  unfold all_ended. rewrite forallb_forall. intros A t w q I. specialize (A _ I). simpl in A. unfold ended_ids in A. apply existsb_exists in A as ((t1 & e1) & I1 & E1).
  simpl in E1. destruct e1; try discriminate. apply andb_true_iff in E1 as [E1 E2]. apply Nat.eqb_eq in E1. subst. apply existsb_exists in E2 as ((t2 & e2) & I2 & E2).
  simpl in E2. destruct e2; try discriminate. apply Nat.eqb_eq in E2. subst. exists t1, r. auto.
Qed.

Lemma pbefore_done : let e0 := erun ecluster gbody big_values gmain xmgr pbefore in
  (forall t w q, In (t, HSubmit w q) (n_hist (e_n e0)) -> done (n_hist (e_n e0)) q) /\ exists q, In (1, HSubmit 3 q) (n_hist (e_n e0)).
Proof.
  intros e0. split; [apply all_ended_done; vm_compute; reflexivity|].
  exists {| q_id := 2; q_fn := FRef (2, 0); q_args := VTuple [VLeaf 5]; q_kwargs := VDict []; q_out := OOne (2, 1) |}. vm_compute. tauto.
Qed.

Lemma pcase_stuck : stuck ecluster gbody big_values pcase.
Proof.
  assert (N : snet (e_s pcase) = []) by (vm_compute; reflexivity). assert (Nn : forall i, nth_error (snet (e_s pcase)) i = None) by (intros i; rewrite N; destruct i; reflexivity).
  apply stuck_intro.
  - vm_compute. reflexivity.
  - intros p. destruct (p_cur (n_proc (e_n pcase) p)) as [fr|] eqn:E; auto. destruct p as [|[|[|[|p]]]]; vm_compute in E; try discriminate E; auto.
  - intros p fr E G. destruct p as [|[|[|[|p]]]]; vm_compute in E; try discriminate E; apply Some_inj in E as <-; exfalso; apply G; reflexivity.
  - intros p [<-|[<-|[]]]; left; quiet.
  - intros i. unfold take_cancel. rewrite Nn. reflexivity.
  - vm_compute. reflexivity.
  - vm_compute. reflexivity.
  - intros i _. vm_compute. destruct i; reflexivity.
Qed.

Lemma esame : forall a b : nat, In a [0; 0; 0; 0] -> In b [0; 0; 0; 0] -> (fun k : nat => k) a = (fun k : nat => k) b -> a = b.
Proof. auto. Qed.
Lemma elong : 2 <= length [0; 0; 0; 0].
Proof. simpl. lia. Qed.
