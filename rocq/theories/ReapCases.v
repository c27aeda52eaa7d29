(** Concrete programs with nested calls and cleanups. *)
From Verif Require Import Lib ShmModel MonModel ValModel WorkerModel WorkerSpec ClusterModel NestModel NestSpec NestStuckCases NestRun ReapModel ReapSpec ReapInv.

(** Nobody can go on but for references that die. *)
Record Stopped (k : kst) : Prop := {
  st_idle : idle (k_n k);
  st_get : forall p fr, p_cur (n_proc (k_n k) p) = Some fr -> f_get fr <> None;
  st_ask : forall p, k_asked k p = None
}.

Lemma stopped_step workers body k o : Stopped k -> Stopped (kstep workers body k o) /\ n_hist (k_n (kstep workers body k o)) = n_hist (k_n k) /\
  forall p, p_cur (n_proc (k_n (kstep workers body k o)) p) = p_cur (n_proc (k_n k) p).
Proof.
  intros K. destruct o as [o|src|p d|p|p ds]; cbn [kstep].
  - assert (E : nest workers body (k_n k) o = k_n k).
    { destruct o as [p dest|src p|src p]; cbn [nest]; try (apply idle_still; apply (st_idle _ K)).
      destruct (n_chan (k_n k) src p) as [|[] ms] eqn:C; try (apply idle_still; apply (st_idle _ K)).
      destruct (p_cur (n_proc (k_n k) p)) eqn:F; [apply idle_still; apply (st_idle _ K)|]. destruct (Nat.eqb p 0) eqn:Z; auto.
      assert (I := st_idle _ K p). rewrite F in I. apply Nat.eqb_neq in Z. rewrite (I Z src) in C. discriminate. }
    destruct (busy k o); [auto|]. unfold prog_step. rewrite E. cbn [k_n]. split; auto. destruct K. constructor; auto.
  - unfold done_step. destruct (first_of src (k_done k)) as [[ds r]|]; auto. split; auto. destruct K. constructor; auto.
  - destruct (Nat.eqb (fst d) p); auto. cbn [k_n].
    assert (U : forall p', p_cur (n_proc (with_w (k_n k) p (forgets (p_w (n_proc (k_n k) p)) [d]) (n_chan (k_n k))) p') = p_cur (n_proc (k_n k) p')).
    { intros p'. cbn [with_w n_proc]. unfold upd. destruct (Nat.eqb p' p) eqn:E; auto. apply Nat.eqb_eq in E as ->. reflexivity. }
    split; auto. destruct K. constructor; cbn [k_n k_asked]; auto.
    + intros p'. rewrite U. apply st_idle0.
    + intros p' fr. rewrite U. apply st_get0.
  - assert (B : between k p = false).
    { unfold between. destruct (p_cur (n_proc (k_n k) p)) as [fr|] eqn:C; auto. destruct (n_dead (k_n k) p); auto. apply (st_get _ K) in C. destruct (f_get fr); congruence. }
    rewrite B. auto.
  - rewrite (st_ask _ K). auto.
Qed.

Lemma stopped_run workers body more : forall k, Stopped k -> n_hist (k_n (fold_left (kstep workers body) more k)) = n_hist (k_n k) /\
  forall p, p_cur (n_proc (k_n (fold_left (kstep workers body) more k)) p) = p_cur (n_proc (k_n k) p).
Proof.
  induction more as [|o more IH]; intros k K; simpl; auto. destruct (stopped_step workers body k o K) as (K' & E1 & E2).
  destruct (IH _ K') as [X1 X2]. split; [congruence|]. intros p. rewrite X2. apply E2.
Qed.

(** Function 1 calls function 4 and returns without waiting for it; the others call nothing. *)
Definition rbody (f args kwargs : val) : act :=
  match f with
  | VLeaf 1 => APut (VLeaf 4) (fun g => ASubmit g (VTuple []) (VDict []) 1 (fun _ => ARet (RVal (VLeaf 0))))
  | VLeaf 2 => ARet (RVal (VLeaf 5))
  | _ => ARet (RVal (VLeaf 6))
  end.

Lemma rbody_ok f a k : refs a = [] -> refs k = [] -> refless (rbody f a k).
Proof. intros _ _. unfold rbody. destruct f as [[|[|[|n]]]|e|r|l|l|l]; simpl; auto. Qed.

Lemma rbody_closed f a k : refs a = [] -> refs k = [] -> closed [] [] (rbody f a k).
Proof. intros _ _. unfold rbody. destruct f as [[|[|[|n]]]|e|r|l|l|l]; simpl; auto. intros d. split; auto. split; [intros x []|auto]. Qed.

(** The main program calls 1, calls 2, calls 3 with the result of 2, and gets the result of 3. *)
Definition rmain : act :=
  APut (VLeaf 1) (fun f1 => APut (VLeaf 2) (fun f2 => APut (VLeaf 3) (fun f3 =>
  ASubmit f1 (VTuple []) (VDict []) 1 (fun _ => ASubmit f2 (VTuple []) (VDict []) 1 (fun x =>
  match x with
  | Some [d] => ASubmit f3 (VTuple [VRef d]) (VDict []) 1 (fun y => match y with Some [e] => AGet [e] (fun _ => ARet (RVal (VLeaf 0))) | _ => ARet (RExc 1) end)
  | _ => ARet (RExc 1)
  end))))).

Lemma rmain_ok : refless rmain.
Proof. simpl. do 3 (split; [reflexivity|]; intros ?). intros _ [[|x [|x' l]]|]; simpl; auto. intros [[|y [|y' l]]|]; simpl; auto. Qed.

Lemma rmain_closed : closed [] [] rmain.
Proof.
  intros f1 f2 f3. split; [simpl; auto|]. split; [intros x []|]. intros ds _. split; [simpl; auto|]. split; [intros x []|].
  intros [|d [|d' l]] E; try discriminate. cbn [closed]. split; [simpl; auto|].
  split; [intros x [<-|[]]; simpl; auto|]. intros [|e [|e' l]] E'; try discriminate. cbn [closed]. split; [intros x [<-|[]]; simpl; auto|].
  split; [constructor; [intros []|constructor]|auto].
Qed.

Notation pr := KProg.

(** 1 runs on worker 2 and calls 4, which runs on worker 3; 2 runs on worker 2; 3 is sent to worker 3, which asks worker 2 for the
    result of 2. All but 3 have ended. *)
Definition rbefore : list kop :=
  [pr (NRun 0 0); pr (NRun 0 0); pr (NRun 0 0); pr (NRun 0 2); pr (NTake 0 2); pr (NTake 0 2); pr (NRun 2 0); pr (NRun 2 3); pr (NRun 2 0);
   pr (NTake 2 3); pr (NTake 2 3); pr (NRun 3 0); pr (NRun 0 2); pr (NTake 0 2); pr (NTake 0 2); pr (NRun 2 0);
   pr (NRun 0 3); pr (NTake 0 3); pr (NTake 0 3); pr (NTake 0 3); KDone 2; KDone 3; KDone 2; KDrop 0 (0, 4)].

(** The cleanup goes ahead and worker 2 takes it before the request. *)
Definition rops : list kop :=
  rbefore ++ [KAsk 0; KClean 0 [(0, 4)]; pr (NTake 0 2); pr (NTake 3 2); pr (NTake 0 3); pr (NRun 0 0); pr (NTake 0 3)].

Notation rcase := (krun [2; 3] rbody (manager_init 0 0) rmain rops).

Definition rcons : request := {| q_id := 3; q_fn := FRef (0, 2); q_args := VTuple [VRef (0, 4)]; q_kwargs := VDict []; q_out := OOne (0, 5) |}.

Definition runsent : cleanup :=
  {| u_by := 0; u_names := [(0, 4)]; u_calls := k_calls (krun [2; 3] rbody (manager_init 0 0) rmain rbefore);
     u_hist := n_hist (k_n (krun [2; 3] rbody (manager_init 0 0) rmain rbefore)) |}.

Lemma rcase_sent : k_sent rcase = [runsent].
Proof. vm_compute. reflexivity. Qed.

Lemma rcase_submit : In (0, HSubmit 3 rcons) (u_hist runsent).
Proof. vm_compute. do 13 right. left. reflexivity. Qed.

Definition started (i : nat) (h : list (nat * hev)) : bool :=
  existsb (fun e => match snd e with HStart j => Nat.eqb j i | _ => false end) h.

Lemma not_started h q : started (q_id q) h = false -> ~ finished h q.
Proof.
  intros N (t & r & A & _). assert (Y : started (q_id q) h = true); [|congruence]. apply existsb_exists. exists (t, HStart (q_id q)). split; auto. simpl. apply Nat.eqb_refl.
Qed.

Lemma rcase_open : ~ finished (n_hist (k_n rcase)) rcons.
Proof. apply not_started. vm_compute. reflexivity. Qed.

Lemma rcase_open' : ~ finished (u_hist runsent) rcons.
Proof. apply not_started. vm_compute. reflexivity. Qed.

Lemma rcase_fits : results_fit (n_hist (k_n rcase)).
Proof. apply ones_fit. vm_compute. reflexivity. Qed.

Definition rmain_frame : frame :=
  {| f_run := 0; f_q := {| q_id := 0; q_fn := FMethod 0; q_args := VList []; q_kwargs := VDict []; q_out := ONone |};
     f_act := AGet [(0, 5)] (fun _ : gres => ARet (RVal (VLeaf 0))); f_get := Some {| t_want := [(0, 5)]; t_ids := [(0, 5)]; t_left := 1; t_exc := None |};
     f_rest := LMain |}.

Lemma rcase_cur p : p_cur (n_proc (k_n rcase) p) = if Nat.eqb p 0 then Some rmain_frame else None.
Proof. destruct p as [|[|[|[|p]]]]; vm_compute; reflexivity. Qed.

Lemma rcase_chan r p : n_chan (k_n rcase) r p = [].
Proof. destruct p as [|[|[|[|p]]]]; destruct r as [|[|[|[|r]]]]; vm_compute; reflexivity. Qed.

Lemma rcase_rep r p : n_rep (k_n rcase) r p = [].
Proof. destruct p as [|[|[|[|p]]]]; destruct r as [|[|[|[|r]]]]; vm_compute; reflexivity. Qed.

Lemma rcase_ask p : k_asked rcase p = None.
Proof. destruct p as [|[|[|[|p]]]]; vm_compute; reflexivity. Qed.

Lemma rcase_stopped : Stopped rcase.
Proof.
  assert (C := rcase_cur). assert (X := rcase_chan). assert (R := rcase_rep). assert (A := rcase_ask). set (k := rcase) in *. clearbody k. constructor.
  - intros p. rewrite C. destruct (Nat.eqb p 0); [right; split; [discriminate|auto]|auto].
  - intros p fr. rewrite C. destruct (Nat.eqb p 0); intros E; [|discriminate E]. apply Some_inj in E as <-. discriminate.
  - exact A.
Qed.

Lemma rcase_in_get : in_get (k_n rcase) 0.
Proof. exists rmain_frame. split; [apply (rcase_cur 0)|discriminate]. Qed.

Lemma krun_more workers body mgr main ops more :
  krun workers body mgr main (ops ++ more) = fold_left (kstep workers body) more (krun workers body mgr main ops).
Proof. unfold krun. apply fold_left_app. Qed.

Lemma rcase_for_ever more : let k := krun [2; 3] rbody (manager_init 0 0) rmain (rops ++ more) in
  ~ finished (n_hist (k_n k)) rcons /\ in_get (k_n k) 0.
Proof.
  cbn zeta. rewrite krun_more. assert (A := rcase_stopped). assert (B := rcase_open). assert (C := rcase_in_get). set (k := rcase) in *. clearbody k.
  destruct (stopped_run [2; 3] rbody more k A) as [E1 E2]. split.
  - rewrite E1. exact B.
  - destruct C as (fr & E & G). exists fr. rewrite E2. auto.
Qed.

(** The calls 1 and 4 have ended and have been counted. *)
Definition rended : list kop := firstn 12 rbefore ++ [KDone 2; KDone 3].

Notation ecase := (krun [2; 3] rbody (manager_init 0 0) rmain rended).

Lemma ecase_hist : n_hist (k_n ecase) =
  [(0, HPut (0, 0) (VLeaf 1)); (0, HPut (0, 1) (VLeaf 2)); (0, HPut (0, 2) (VLeaf 3));
   (0, HSubmit 2 {| q_id := 0; q_fn := FRef (0, 0); q_args := VTuple []; q_kwargs := VDict []; q_out := OOne (0, 3) |});
   (1, HStart 0); (1, HPut (2, 0) (VLeaf 4));
   (1, HSubmit 3 {| q_id := 1; q_fn := FRef (2, 0); q_args := VTuple []; q_kwargs := VDict []; q_out := OOne (2, 1) |});
   (1, HEnd (RVal (VLeaf 0))); (2, HStart 1); (2, HEnd (RVal (VLeaf 6)))].
Proof. vm_compute. reflexivity. Qed.

Lemma ecase_ended : between ecase 0 = true /\ k_done ecase = [] /\ (forall p, n_dead (k_n ecase) p = false) /\
  (forall t dest q, In (t, HSubmit dest q) (n_hist (k_n ecase)) -> finished (n_hist (k_n ecase)) q) /\
  (exists dest q, In (1, HSubmit dest q) (n_hist (k_n ecase))) /\ k_sent ecase = [].
Proof.
  assert (H := ecase_hist). assert (B : between ecase 0 = true) by (vm_compute; reflexivity). assert (D : k_done ecase = []) by (vm_compute; reflexivity).
  assert (A : forall p, n_dead (k_n ecase) p = false) by quiet. assert (Z : k_sent ecase = []) by (vm_compute; reflexivity).
  set (k := ecase) in *. clearbody k. split; auto. split; auto. split; auto. rewrite H. split; [|split; [|exact Z]].
  - intros t dest q I. simpl in I. repeat (destruct I as [I|I]; [first [discriminate I|injection I as <- <- <-; unfold finished; simpl]|]); try contradiction.
    + exists 1, (RVal (VLeaf 0)). tauto.
    + exists 2, (RVal (VLeaf 6)). tauto.
  - eexists _, _. simpl. do 6 right. left. reflexivity.
Qed.

(** Functions that call nothing, and the same main program: everything is counted, the cleanup is sent and taken, and get gives the
    value. *)
Definition qbody (f args kwargs : val) : act := ARet (RVal (VLeaf 5)).

Lemma qbody_ok f a k : refs a = [] -> refs k = [] -> refless (qbody f a k).
Proof. intros _ _. reflexivity. Qed.

Lemma qbody_callless f a k : refs a = [] -> refs k = [] -> callless (qbody f a k).
Proof. intros _ _. exact Logic.I. Qed.

Definition qbefore : list kop :=
  [pr (NRun 0 0); pr (NRun 0 0); pr (NRun 0 0); pr (NRun 0 2); pr (NTake 0 2); pr (NTake 0 2); pr (NRun 2 0);
   pr (NRun 0 2); pr (NTake 0 2); pr (NTake 0 2); pr (NRun 2 0); pr (NRun 0 3); pr (NTake 0 3); pr (NTake 0 3); pr (NTake 0 3); pr (NTake 3 2); pr (NTake 2 3);
   pr (NRun 3 0); KDone 2; KDone 3; KDone 2; KDrop 0 (0, 4)].

Definition qops : list kop :=
  qbefore ++ [KAsk 0; KClean 0 [(0, 4)]; pr (NTake 0 2); pr (NTake 0 3); pr (NRun 0 0); pr (NTake 0 3); pr (NReply 3 0); pr (NRun 0 0)].

Notation qcase := (krun [2; 3] qbody (manager_init 0 0) rmain qops).

Definition qsent : cleanup :=
  {| u_by := 0; u_names := [(0, 4)]; u_calls := k_calls (krun [2; 3] qbody (manager_init 0 0) rmain qbefore);
     u_hist := n_hist (k_n (krun [2; 3] qbody (manager_init 0 0) rmain qbefore)) |}.

Lemma qcase_sent : k_sent qcase = [qsent].
Proof. vm_compute. reflexivity. Qed.

Definition qcons : request := {| q_id := 2; q_fn := FRef (0, 2); q_args := VTuple [VRef (0, 4)]; q_kwargs := VDict []; q_out := OOne (0, 5) |}.

Lemma qcase_submit : In (0, HSubmit 3 qcons) (u_hist qsent).
Proof. vm_compute. do 9 right. left. reflexivity. Qed.

Definition roots (h : list (nat * hev)) : bool :=
  forallb (fun e => match snd e with HSubmit _ q => forallb (fun d => Nat.eqb (fst d) 0) (uses q) | _ => true end) h.

Lemma roots_all h : roots h = true -> forall t dest q, In (t, HSubmit dest q) h -> forall d, In d (uses q) -> fst d = 0.
Proof.
  unfold roots. rewrite forallb_forall. intros R t dest q I d J. apply R in I. simpl in I. rewrite forallb_forall in I. apply Nat.eqb_eq. auto.
Qed.

Lemma qcase_roots : forall t dest q, In (t, HSubmit dest q) (u_hist qsent) -> forall d, In d (uses q) -> fst d = 0.
Proof. apply roots_all. vm_compute. reflexivity. Qed.

Lemma qcase_get : In (0, HGet [(0, 5)] (GVals [VLeaf 5])) (n_hist (k_n qcase)).
Proof. vm_compute. do 12 right. left. reflexivity. Qed.

Lemma qcase_forgot : store (p_w (n_proc (k_n qcase) 2)) (0, 4) = None /\
  store (p_w (n_proc (k_n (krun [2; 3] qbody (manager_init 0 0) rmain qbefore)) 2)) (0, 4) = Some (VLeaf 5).
Proof. split; vm_compute; reflexivity. Qed.

Lemma qbefore_hist : n_hist (k_n (krun [2; 3] qbody (manager_init 0 0) rmain qbefore)) =
  [(0, HPut (0, 0) (VLeaf 1)); (0, HPut (0, 1) (VLeaf 2)); (0, HPut (0, 2) (VLeaf 3));
   (0, HSubmit 2 {| q_id := 0; q_fn := FRef (0, 0); q_args := VTuple []; q_kwargs := VDict []; q_out := OOne (0, 3) |});
   (1, HStart 0); (1, HEnd (RVal (VLeaf 5)));
   (0, HSubmit 2 {| q_id := 1; q_fn := FRef (0, 1); q_args := VTuple []; q_kwargs := VDict []; q_out := OOne (0, 4) |});
   (2, HStart 1); (2, HEnd (RVal (VLeaf 5))); (0, HSubmit 3 qcons); (3, HStart 2); (3, HEnd (RVal (VLeaf 5)))].
Proof. vm_compute. reflexivity. Qed.

Lemma qbefore_ended : let k := krun [2; 3] qbody (manager_init 0 0) rmain qbefore in
  between k 0 = true /\ k_done k = [] /\ (forall p, n_dead (k_n k) p = false) /\
  (forall t dest q, In (t, HSubmit dest q) (n_hist (k_n k)) -> finished (n_hist (k_n k)) q) /\
  (forall t dest q, In (t, HSubmit dest q) (n_hist (k_n k)) -> t = 0).
Proof.
  cbn zeta. set (x := krun [2; 3] qbody (manager_init 0 0) rmain qbefore).
  assert (B : between x 0 = true) by (vm_compute; reflexivity). assert (D : k_done x = []) by (vm_compute; reflexivity).
  assert (A : forall p, n_dead (k_n x) p = false) by quiet.
  assert (H := qbefore_hist). fold x in H. clearbody x. split; auto. split; auto. split; auto. rewrite H. split.
  - intros t dest q I. simpl in I. repeat (destruct I as [I|I]; [first [discriminate I|injection I as <- <- <-; unfold finished; simpl]|]); try contradiction.
    + exists 1, (RVal (VLeaf 5)). tauto.
    + exists 2, (RVal (VLeaf 5)). tauto.
    + exists 3, (RVal (VLeaf 5)). tauto.
  - intros t dest q I. simpl in I. repeat (destruct I as [I|I]; [first [discriminate I|injection I as <- <- <-; reflexivity]|]). destruct I.
Qed.

Lemma qcase_names : forall d, In d (u_names qsent) -> fst d = u_by qsent.
Proof. intros d [<-|[]]. reflexivity. Qed.

Lemma rcase_call : In (u_by runsent, rcons) (u_calls runsent).
Proof. vm_compute. do 3 right. left. reflexivity. Qed.

Lemma ended_never workers body main (B : forall f a k, refs a = [] -> refs k = [] -> refless (body f a k)) (M : refless main) mgr ops :
  let k := krun workers body mgr main ops in
  between k 0 = true /\ k_done k = [] /\ (forall p, n_dead (k_n k) p = false) /\
  (forall t dest q, In (t, HSubmit dest q) (n_hist (k_n k)) -> finished (n_hist (k_n k)) q) /\
  (exists dest q, In (1, HSubmit dest q) (n_hist (k_n k))) /\ k_sent k = [] ->
  between k 0 = true /\ k_done k = [] /\ (forall p, n_dead (k_n k) p = false) /\
  (forall t dest q, In (t, HSubmit dest q) (n_hist (k_n k)) -> finished (n_hist (k_n k)) q) /\
  forall ds, k_sent (krun workers body mgr main (ops ++ [KAsk 0; KClean 0 ds])) = [].
Proof.
  cbn zeta. intros (X & D & A & F & (dest & q & J) & Z). split; auto. split; auto. split; auto. split; auto.
  intros ds. rewrite krun_more. destruct (when_all_ended workers body main B M mgr ops ds X D A F) as [_ Y]. cbn [fold_left].
  rewrite (Y _ _ _ J ltac:(discriminate)). exact Z.
Qed.

Lemma ecase_never : let k := krun [2; 3] rbody (manager_init 0 0) rmain rended in
  between k 0 = true /\ k_done k = [] /\ (forall p, n_dead (k_n k) p = false) /\
  (forall t dest q, In (t, HSubmit dest q) (n_hist (k_n k)) -> finished (n_hist (k_n k)) q) /\
  forall ds, k_sent (krun [2; 3] rbody (manager_init 0 0) rmain (rended ++ [KAsk 0; KClean 0 ds])) = [].
Proof. exact (ended_never [2; 3] rbody rmain rbody_ok rmain_ok (manager_init 0 0) rended ecase_ended). Qed.

Lemma rcase_in : In runsent (k_sent rcase).
Proof. rewrite rcase_sent. left. reflexivity. Qed.

Lemma rcase_others : length (others (u_by runsent) (u_calls runsent)) = 1.
Proof. vm_compute. reflexivity. Qed.
