(** Shutdown of programs with nested calls: the theorems. *)
From Verif Require Import Lib ShmModel DataIdModel TopoModel MonModel ValModel WorkerModel WorkerSpec NestModel NestSpec NestThms ShutModel ShutSpec ShutProofs
  EndModel EndSpec EndSim EndRoot EndProofs EndTasks.

Section Thms.
Variables (place : list nat) (addr : nat -> nat) (shm : bool) (c : scfg).
Hypothesis A : forall a b, In a place -> In b place -> addr a = addr b -> a = b.
Hypothesis L : 2 <= length place.
Hypothesis T : shm = true -> forall k, In k place -> 2 <= count_occ Nat.eq_dec place k.
Hypothesis C : cluster place addr shm = Some c.
Variable body : val -> val -> val -> NestModel.act.
Variable big : wmsg -> bool.
Variable main : NestModel.act.
Variable g : rank -> manager.
Hypothesis body_ok : forall f a k, refs a = [] -> refs k = [] -> refless (body f a k).
Hypothesis main_ok : refless main.

Let ok : cluster_ok c := started place addr shm c A L T C.

Lemma e_gets ops : let H := n_hist (e_n (erun c body big main g ops)) in forall t ds r, In (t, HGet ds r) H ->
  match r with
  | GVals vs => Forall2 (means body H) ds vs
  | GRaise e => exists d, In d ds /\ means body H d (VExc e)
  | GError => True
  end.
Proof. intros H t ds r. apply (end_gets c body big main g body_ok main_ok). Qed.

Hypothesis body_closed : forall f a k, refs a = [] -> refs k = [] -> closed [] [] (body f a k).
Hypothesis main_closed : closed [] [] main.

Lemma e_calls ops : let e := erun c body big main g ops in results_fit (n_hist (e_n e)) -> returned e ->
  forall w q, In (0, HSubmit w q) (n_hist (e_n e)) -> put_args (n_hist (e_n e)) q -> done (n_hist (e_n e)) q.
Proof.
  intros e F R w q I P. apply (cancelled_done c ok body big main g body_ok main_ok body_closed main_closed ops F w q); auto.
  apply (returned_cancelled c ok body big main g ops R).
  destruct (simulated c body big main g ops) as (ops' & _ & S & _).
  assert (V := NestLive.v_sub _ _ (NestRun.run_live (s_workers c) body main (no_root c ok) body_ok main_ok body_closed main_closed ops' ltac:(rewrite (m_hist _ _ _ _ S); exact F))).
  rewrite (m_hist _ _ _ _ S) in V. apply (V 0 w q I).
Qed.

Hypothesis O : shm = true -> nth 1 place 0 = nth 0 place 0.
Let one : s_rmon c = MONITOR := started_one place addr shm c A L T O C.

Lemma e_nobody ops : let e := erun c body big main g ops in results_fit (n_hist (e_n e)) ->
  (exists w1 w2, In w1 (s_workers c) /\ In w2 (s_workers c) /\ w1 <> w2) -> e_called e = true -> stuck c body big e ->
  (forall w, In w (s_workers c) -> ~ in_get (e_n e) w) ->
  (returned e /\ forall r, In r (s_workers c ++ s_monitors c) -> gone c (e_s e) r) \/
  (exists w w' m, In w (s_workers c) /\ In w' (s_workers c) /\ finishing e w /\ finishing e w' /\ In m (n_chan (e_n e) w w') /\ big m = true).
Proof.
  intros e F (w1 & w2 & I1 & I2 & I12) Ca St N.
  exact (stuck_end c ok body big main g body_ok main_ok body_closed main_closed ops F St w1 w2 I1 I2 I12 N Ca one).
Qed.

Lemma e_ends ops : let e := erun c body big main g ops in results_fit (n_hist (e_n e)) ->
  (exists w1 w2, In w1 (s_workers c) /\ In w2 (s_workers c) /\ w1 <> w2) -> e_called e = true -> stuck c body big e ->
  (returned e /\ forall r, In r (s_workers c ++ s_monitors c) -> gone c (e_s e) r) \/
  (exists w, In w (s_workers c) /\ in_get (e_n e) w) \/
  (exists w w' m, In w (s_workers c) /\ In w' (s_workers c) /\ finishing e w /\ finishing e w' /\ In m (n_chan (e_n e) w w') /\ big m = true).
Proof.
  intros e F TW Ca St. destruct (in_get_dec (e_n e) (s_workers c)) as [G|N]; [right; left; exact G|].
  destruct (e_nobody ops F TW Ca St N) as [X|X]; auto.
Qed.

Lemma e_getless ops : let e := erun c body big main g ops in (forall f a k, refs a = [] -> refs k = [] -> getless (body f a k)) ->
  results_fit (n_hist (e_n e)) -> (exists w1 w2, In w1 (s_workers c) /\ In w2 (s_workers c) /\ w1 <> w2) -> e_called e = true -> stuck c body big e ->
  (returned e /\ forall r, In r (s_workers c ++ s_monitors c) -> gone c (e_s e) r) \/
  (exists w w' m, In w (s_workers c) /\ In w' (s_workers c) /\ finishing e w /\ finishing e w' /\ In m (n_chan (e_n e) w w') /\ big m = true).
Proof.
  intros e G F TW Ca St. apply e_nobody; auto. apply (getless_nobody c ok body big main g body_ok main_ok ops G).
Qed.

Lemma e_when_done before after : let e0 := erun c body big main g before in let e := erun c body big main g (before ++ ECall :: after) in
  e_called (erun c body big main g (before ++ [ECall])) = true -> (forall t w q, In (t, HSubmit w q) (n_hist (e_n e0)) -> done (n_hist (e_n e0)) q) ->
  results_fit (n_hist (e_n e)) -> (exists w1 w2, In w1 (s_workers c) /\ In w2 (s_workers c) /\ w1 <> w2) -> stuck c body big e ->
  (returned e /\ forall r, In r (s_workers c ++ s_monitors c) -> gone c (e_s e) r) \/
  (exists w w' m, In w (s_workers c) /\ In w' (s_workers c) /\ finishing e w /\ finishing e w' /\ In m (n_chan (e_n e) w w') /\ big m = true).
Proof.
  intros e0 e Ca D F TW St. destruct (done_after c ok body big main g body_ok main_ok before after Ca D) as [Ca' D'].
  apply e_nobody; auto. apply (done_nobody c ok body big main g body_ok main_ok _ D').
Qed.

End Thms.

Lemma e_quiet place addr shm c : (forall a b, In a place -> In b place -> addr a = addr b -> a = b) -> 2 <= length place ->
  (shm = true -> forall k, In k place -> 2 <= count_occ Nat.eq_dec place k) -> cluster place addr shm = Some c ->
  forall body big main g ops, let e := erun c body big main g ops in returned e ->
  (forall w, In w (s_workers c) -> ~ busy e w) /\ forall more, n_hist (e_n (erun c body big main g (ops ++ more))) = n_hist (e_n e).
Proof. intros A L T C body big main g ops. apply returned_quiet. eapply started; eauto. Qed.
