(** Programs of tasks and calls that are functions, without cleanups, do not get stuck (C63). *)
From Verif Require Import Lib ValModel ShmModel PushModel PushProofs WorkerModel WorkerSpec WorkerLog WorkerTrace
  WorkerAnswer WorkerOrder WorkerThms WorkerSends WorkerWant WorkerDone MonModel ShutProofs ClusterModel ClusterSpec ClusterSeq ClusterProofs
  ClusterCount ClusterRoot ClusterNet ClusterEnd ActModel ActSpec ActGives ActProofs ActCount ActRoot ActNet.

Lemma tidy_neat prog : tidy prog -> (forall ds, ~ In (RClean ds) prog) -> neat prog.
Proof. intros [T1 T2 _] N. split; auto. Qed.

Lemma genough_prefix body mbody a b : greturns_enough body mbody (a ++ b) -> greturns_enough body mbody a.
Proof.
  intros [R1 R2]. split; intros.
  - apply (R1 dest q fd f); auto; apply in_or_app; auto.
  - apply (R2 dest nd q m); auto; apply in_or_app; auto.
Qed.

Section End.
Variable workers : list rank.
Variable body : val -> val -> val -> result.
Variable mbody : list call -> call -> result.
Variable is_async : callee -> bool.
Hypothesis body_ok : forall f a k, no_refs_returned (body f a k).
Hypothesis mbody_ok : forall h c, no_refs_returned (mbody h c).
Hypothesis all_sync : forall c, is_async c = false.
Hypothesis no_root : ~ In 0 workers.
Hypothesis no_dup : NoDup workers.
Notation AB := (AB body mbody is_async).
Notation AK := (AK workers).
Notation grun := (grun workers body mbody is_async).
Notation gstep := (gstep workers body mbody is_async).
Notation gtake := (gtake body mbody is_async).

Section Run.
Variable ndf : nat -> dataid.
Notation img := (img ndf).
Notation AN := (AN body mbody is_async).

(** What holds in every state of a proper run. *)
Record gproper (prog : list gprog) (c : cst) : Prop := {
  gp_valid : valid workers (tasks_of prog);
  gp_gvalid : gvalid prog;
  gp_enough : greturns_enough body mbody prog;
  gp_ab : AB prog c;
  gp_ak : AK prog c;
  gp_lr : LR workers (img prog c);
  gp_an : AN prog c;
  gp_ranks : forall w, c_in c w <> [] -> In w (0 :: workers)
}.

Lemma work_in prog c s e : gproper prog c -> s <> 0 -> In e (log (c_work c s)) -> In s workers.
Proof using.
  intros P N I. destruct (gp_ranks prog c P s) as [X|X]; auto; [|congruence].
  intros E. assert (Ru := ab_run _ _ _ _ _ (gp_ab _ _ P) s N). rewrite E in Ru. simpl in Ru. apply Some_inj in Ru.
  rewrite <- Ru in I. destruct I.
Qed.

Lemma chan_ranks prog c s d m : gproper prog c -> In m (stream c s d) -> In s (0 :: workers) /\ In d (0 :: workers).
Proof using body_ok mbody_ok.
  intros P I. assert (N2 := an_stream _ _ _ _ _ (gp_an _ _ P)).
  apply stream_cases in I as [[-> I]|[Ns [(x & v & b & -> & I)|(x & -> & I)]]].
  - split; simpl; auto. right. eapply (a_dest workers ndf prog c); [apply P | eauto].
  - split; [right; eapply work_in; eauto|].
    destruct (Nat.eq_dec d 0) as [->|Nd]; [simpl; auto|].
    destruct (answer_made workers body mbody is_async body_ok mbody_ok ndf prog c (gp_gvalid _ _ P) (gp_ab _ _ P) (gp_lr _ _ P) N2 s d x v b Ns I) as (_ & _ & b' & A).
    assert (A' : In (WGet d x b') (stream c d s)) by (apply in_astream; auto).
    apply stream_cases in A' as [[-> _]|[_ [(? & ? & ? & X & _)|(y & X & G)]]]; try discriminate; [tauto|].
    right. eapply work_in; eauto.
  - split; [right; eapply work_in; eauto|].
    destruct (get_made workers body mbody is_async body_ok mbody_ok ndf prog c (gp_gvalid _ _ P) (gp_ab _ _ P) (gp_lr _ _ P) N2 s x d Ns I) as [M _].
    right. eapply made_worker; [apply P | eauto].
Qed.

Lemma placed_valid prog : valid workers (tasks_of prog) -> placed workers prog.
Proof using.
  intros V dest q I. apply gsub_split in I as (a & p & b & Ep & Sp). eapply request_ok; eauto.
Qed.

(** A delivery takes place. *)
Lemma gtaken_now prog c s d m l : gproper prog c -> c_chan c s d = m :: l -> d <> 0 ->
  c_in (gtake c s d) = (fun r => if Nat.eqb r d then c_in c r ++ [(s, m)] else c_in c r) /\ c_out (gtake c s d) = c_out c.
Proof using body_ok mbody_ok no_root.
  intros P Ch N.
  assert (A := an_alive _ _ _ _ _ (gtake_an workers body mbody is_async body_ok mbody_ok no_root ndf prog c s d
    (gp_valid _ _ P) (gp_gvalid _ _ P) (gp_enough _ _ P) (gp_ab _ _ P) (gp_ak _ _ P) (gp_lr _ _ P) (gp_an _ _ P)) d).
  unfold ActModel.gtake in *. rewrite Ch in *. destruct (Nat.eqb_spec d 0); [tauto|].
  rewrite (an_alive _ _ _ _ _ (gp_an _ _ P)) in *. cbn [orb] in *. unfold deal in *.
  destruct (wstep d body mbody is_async (c_work c d) m); auto.
  simpl in A. rewrite Nat.eqb_refl in A. discriminate.
Qed.

Lemma greplied_now prog c s m l : gproper prog c -> c_chan c s 0 = m :: l ->
  c_in (reply c s) = (fun r => if Nat.eqb r 0 then c_in c r ++ [(s, m)] else c_in c r) /\ c_out (reply c s) = c_out c.
Proof using body_ok mbody_ok all_sync no_root.
  intros P Ch. assert (N2 := an_stream _ _ _ _ _ (gp_an _ _ P)).
  assert (Is : In m (stream c s 0)) by (apply in_astream; auto; rewrite Ch; simpl; auto).
  assert (Pm : exists d v, m = WPut d v).
  { apply stream_cases in Is as [[-> I]|[Ns [(x & v & b & -> & I)|(x & -> & I)]]]; eauto.
    - apply (a_dest workers ndf prog c (gp_lr _ _ P)) in I. tauto.
    - destruct (get_made workers body mbody is_async body_ok mbody_ok ndf prog c (gp_gvalid _ _ P) (gp_ab _ _ P) (gp_lr _ _ P) N2 s x 0 Ns I) as [M _].
      exfalso. apply no_root. eapply made_worker; [apply P | eauto]. }
  destruct Pm as (d & v & ->).
  destruct (areply_expected workers body mbody is_async body_ok mbody_ok all_sync no_root ndf prog c s d v l
    (gp_valid _ _ P) (gp_gvalid _ _ P) (gp_enough _ _ P) (gp_ab _ _ P) (gp_ak _ _ P) (gp_lr _ _ P) (gp_an _ _ P) Ch)
    as (_ & Lf & _). unfold reply. destruct (c_left c); [tauto|]. rewrite Ch. auto.
Qed.

Definition gdeliver_op (s d : rank) : gop := if Nat.eqb d 0 then GReply s else GTake s d.

Lemma gdelivered_now g s d m l : gproper (g_prog g) (g_c g) -> c_chan (g_c g) s d = m :: l ->
  let g' := gstep g (gdeliver_op s d) in
  c_in (g_c g') = (fun r => if Nat.eqb r d then c_in (g_c g) r ++ [(s, m)] else c_in (g_c g) r) /\
  g_prog g' = g_prog g /\ c_out (g_c g') = c_out (g_c g) /\ gproper (g_prog g') (g_c g').
Proof using body_ok mbody_ok all_sync no_root no_dup.
  cbv zeta. intros P Ch. destruct g as [c prog]. cbn [g_c g_prog] in *.
  assert (N2 := an_stream _ _ _ _ _ (gp_an _ _ P)).
  assert (Is : In m (stream c s d)) by (apply in_astream; auto; rewrite Ch; simpl; auto).
  destruct (chan_ranks prog c s d m P Is) as [_ Dw].
  assert (G : forall c', c_in c' = (fun r => if Nat.eqb r d then c_in c r ++ [(s, m)] else c_in c r) ->
    AB prog c' -> AK prog c' -> LR workers (img prog c') -> AN prog c' -> gproper prog c').
  { intros c' Ei B K L N. destruct P as [P1 P2 P3 P4 P5 P6 P7 P8]. split; auto.
    intros w. rewrite Ei. destruct (Nat.eqb_spec w d) as [->|]; auto. }
  assert (P' := P). destruct P' as [P1 P2 P3 P4 P5 P6 P7 P8].
  unfold gdeliver_op. destruct (Nat.eqb_spec d 0) as [->|Nd]; cbn [ActModel.gstep g_c g_prog].
  - destruct (greplied_now prog c s m l P Ch) as (E1 & E3). split; auto. split; auto. split; auto.
    apply G; auto; [apply reply_ab | apply reply_ak | apply (areply_lr workers body mbody is_async) | apply (areply_an body mbody is_async ndf)]; auto.
  - destruct (gtaken_now prog c s d m l P Ch Nd) as (E1 & E3). split; auto. split; auto. split; auto.
    apply G; auto; [apply gtake_ab | apply gtake_ak | apply gtake_lr | apply (gtake_an workers body mbody is_async body_ok mbody_ok no_root ndf)]; auto.
Qed.

(** The number of deliveries is bounded. *)
Definition gamount (c : cst) : nat := sumf (fun w => length (c_in c w)) (0 :: workers).
Definition glimit (prog : list gprog) (c : cst) : nat :=
  length (0 :: workers) * (length (0 :: workers) * (length (c_out c) + 2 * length (introduced (tasks_of prog)))).

Lemma stream_bound prog c s d : gproper prog c -> length (stream c s d) <= length (c_out c) + 2 * length (introduced (tasks_of prog)).
Proof using body_ok mbody_ok all_sync.
  intros P. destruct (Nat.eq_dec s 0) as [->|Ns].
  - unfold stream. simpl. assert (X := sends_length d (c_out c)). lia.
  - assert (Es : stream c s d = outgoing s (log (c_work c s)) d).
    { unfold stream. destruct (Nat.eqb_spec s 0); [tauto|auto]. }
    destruct P as [V GV R B K L [N1 N2 N3] _].
    destruct (facts body mbody is_async body_ok mbody_ok prog c GV B s Ns) as (_ & _ & _ & A & _).
    assert (G := box_gi workers body mbody is_async body_ok mbody_ok all_sync ndf prog c V GV R B K L N2 N3 s Ns).
    rewrite Es, outgoing_length.
    assert (X1 : length (vals_in (outgoing s (log (c_work c s)) d)) <= length (introduced (tasks_of prog))).
    { apply NoDup_incl_length.
      - apply vals_nodup. rewrite (gi_sent _ _ _ G). apply G.
      - intros x I. apply in_flat_map in I as (m & M & X). apply in_outgoing in M as [(y & v & b & -> & I)|(y & -> & I)]; simpl in X; [|destruct X].
        destruct X as [<-|[]]. destruct (answer_made workers body mbody is_async body_ok mbody_ok ndf prog c GV B L N2 s d y v b Ns I) as (M & _). eapply made_intro; eauto. }
    assert (X2 : length (asks_in (outgoing s (log (c_work c s)) d)) <= length (introduced (tasks_of prog))).
    { apply NoDup_incl_length.
      - apply asks_nodup; [apply A|]. intros ds. apply (no_clean workers body mbody is_async body_ok mbody_ok ndf prog c GV B L N2); auto.
      - intros x I. apply in_asks in I. destruct (get_made workers body mbody is_async body_ok mbody_ok ndf prog c GV B L N2 s x d Ns I) as [M _].
        eapply made_intro; eauto. }
    lia.
Qed.

Lemma amount_limit prog c : gproper prog c -> gamount c <= glimit prog c.
Proof using body_ok mbody_ok all_sync.
  intros P. unfold gamount, glimit. apply sum_bound. intros w _. assert (N2 := an_stream _ _ _ _ _ (gp_an _ _ P)).
  etransitivity; [apply (senders_count (0 :: workers))|].
  - intros s m I. eapply (chan_ranks prog c s w m P). apply in_astream; auto.
  - apply sum_bound. intros s _. etransitivity; [|apply (stream_bound prog c s w P)].
    assert (X := f_equal (@length _) (N2 s w)). rewrite app_length in X. lia.
Qed.

Lemma gends n : forall g, gproper (g_prog g) (g_c g) -> glimit (g_prog g) (g_c g) - gamount (g_c g) < n ->
  Acc (fun y x => gdelivery workers body mbody is_async x y) g.
Proof using body_ok mbody_ok all_sync no_root no_dup.
  induction n as [|n IH]; intros g P Ln; [lia|]. constructor. intros g' (s & d & m & l & Ch & ->).
  destruct (gdelivered_now g s d m l P Ch) as (E1 & E2 & E3 & P'). unfold gdeliver_op in *.
  set (g' := gstep g (if d =? 0 then GReply s else GTake s d)) in *. apply IH; auto.
  assert (A := amount_limit _ _ P').
  assert (X : glimit (g_prog g') (g_c g') = glimit (g_prog g) (g_c g)) by (unfold glimit; rewrite E2, E3; auto).
  assert (Dw : In d (0 :: workers)).
  { eapply (chan_ranks (g_prog g) (g_c g) s d m P). apply in_astream; [apply P|]. rewrite Ch; simpl; auto. }
  assert (Y : gamount (g_c g') = S (gamount (g_c g))); [|lia].
  unfold gamount. rewrite E1.
  assert (Z := sum_one (fun w => length (c_in (g_c g) w)) (fun w => length (if w =? d then c_in (g_c g) w ++ [(s, m)] else c_in (g_c g) w))
    (0 :: workers) d ltac:(constructor; auto) Dw).
  cbv beta in Z. rewrite Nat.eqb_refl, app_length in Z. simpl length in Z.
  assert (Z' := Z ltac:(intros x Nx; destruct (Nat.eqb_spec x d); [congruence|auto])). clear Z. lia.
Qed.

(** Every call of get is over except the one in progress. *)
Lemma root_gets prog c o : c_left c = 0 -> answered_gets (img prog c) -> ~ In RError (c_seen (root_step workers c o)) ->
  answered_gets (img (prog ++ [GP o]) (root_step workers c o)).
Proof using body workers.
  intros L0 A N. assert (X := gets_step workers body (img prog c) (CRoot o) A).
  assert (Y : c_seen (root_step workers (img prog c) o) = c_seen (root_step workers c o) /\
    c_left (root_step workers (img prog c) o) = c_left (root_step workers c o) /\
    c_want (root_step workers (img prog c) o) = c_want (root_step workers c o) /\
    c_prog (root_step workers (img prog c) o) = tasks_of prog ++ [o]).
  { destruct o as [d v|dest q|ds|d|ds]; cbn [root_step img c_push c_vals c_want c_ids c_left c_mon c_tasks]; cbv zeta; auto.
    - destruct (filter _ ds); auto. destruct (owners _ _); auto.
    - destruct (Nat.eqb _ _); auto. }
  destruct Y as (Y1 & Y2 & Y3 & Y4). cbn [cstep] in X. cbn [img c_left] in X. rewrite L0, Y1 in X. specialize (X N).
  unfold answered_gets in *. cbn [ActRoot.img c_seen c_left c_want c_prog]. rewrite Y1, Y2, Y3, Y4 in X.
  rewrite (map_app as_task). exact X.
Qed.

Lemma call_gets prog c dest nd q : c_left c = 0 -> answered_gets (img prog c) ->
  ~ In RError (c_seen (root_call c dest nd q)) -> answered_gets (img (prog ++ [GC dest nd q]) (root_call c dest nd q)).
Proof using body workers.
  intros L0 A N. assert (X := gets_step workers body (img prog c) (CRoot (RSubmit dest (as_req nd q))) A).
  cbn [cstep] in X. cbn [img c_left] in X. rewrite L0 in X. specialize (X N).
  unfold answered_gets in *. cbn [ActRoot.img c_seen c_left c_want c_prog] in *. rewrite (map_app as_task). exact X.
Qed.

Lemma run_gproper mgr ops : named ndf (g_prog (grun mgr ops)) -> valid workers (tasks_of (g_prog (grun mgr ops))) ->
  gvalid (g_prog (grun mgr ops)) -> neat (tasks_of (g_prog (grun mgr ops))) -> greturns_enough body mbody (g_prog (grun mgr ops)) ->
  gproper (g_prog (grun mgr ops)) (g_c (grun mgr ops)) /\ answered_gets (img (g_prog (grun mgr ops)) (g_c (grun mgr ops))).
Proof using body_ok mbody_ok all_sync no_root no_dup.
  induction ops as [|o ops IH] using rev_ind; intros Nm V GV T R.
  - split; [|reflexivity]. split; auto; simpl.
    + apply init_ab.
    + apply init_ak.
    + assert (X : LR workers (cinit mgr)) by apply init_lr. revert X. apply lr_same; auto.
    + apply init_an.
    + intros w X. exfalso. apply X. reflexivity.
  - rewrite grun_snoc in *. destruct (gprog_grows workers body mbody is_async (grun mgr ops) o) as (l & Gl).
    assert (GV0 : gvalid (g_prog (grun mgr ops))) by (rewrite Gl in GV; eapply gvalid_prefix; eauto).
    assert (V0 : valid workers (tasks_of (g_prog (grun mgr ops)))).
    { rewrite Gl, (map_app as_task) in V. eapply valid_prefix; eauto. }
    assert (T0 : neat (tasks_of (g_prog (grun mgr ops)))) by (rewrite Gl, (map_app as_task) in T; eapply neat_prefix; eauto).
    assert (R0 : greturns_enough body mbody (g_prog (grun mgr ops))) by (rewrite Gl in R; eapply genough_prefix; eauto).
    assert (Nm0 : named ndf (g_prog (grun mgr ops))) by (rewrite Gl in Nm; eapply named_prefix; eauto).
    destruct (IH Nm0 V0 GV0 T0 R0) as [P A]. clear IH Gl l.
    assert (AB' : AB (g_prog (gstep (grun mgr ops) o)) (g_c (gstep (grun mgr ops) o))).
    { rewrite <- grun_snoc. apply run_ab; auto. rewrite grun_snoc. auto. }
    assert (AK' : AK (g_prog (gstep (grun mgr ops) o)) (g_c (gstep (grun mgr ops) o))).
    { rewrite <- grun_snoc. apply run_ak; auto; rewrite grun_snoc; auto. apply placed_valid; auto. }
    set (g := grun mgr ops) in *. clearbody g. destruct g as [c prog]. cbn [g_c g_prog] in *.
    assert (P' := P). destruct P' as [P1 P2 P3 P4 P5 P6 P7 P8].
    assert (Same : forall c', LR workers (img prog c') -> AN prog c' -> (forall w, c_in c' w <> [] -> In w (0 :: workers)) ->
      AB prog c' -> AK prog c' -> gproper prog c') by (intros; split; auto).
    destruct o as [p|s d|s|s|d i]; cbn [ActModel.gstep g_c g_prog] in *.
    + destruct (c_left c) eqn:L0; [|split; auto]. cbn [g_c g_prog] in *. destruct p as [o|dest nd q].
      * assert (L' : LR workers (img (prog ++ [GP o]) (root_step workers c o))).
        { apply root_img. apply root_lr; auto.
          - rewrite (map_app as_task) in V. exact V.
          - rewrite (map_app as_task) in T. exact T. }
        split; [split; auto|].
        -- apply root_step_an; auto.
        -- destruct (root_shape workers c o) as (? & ? & ? & ? & ? & ? & ? & ? & ? & ->). exact P8.
        -- apply root_gets; auto. apply (lr_noerr _ _ L').
      * assert (L' : LR workers (img (prog ++ [GC dest nd q]) (root_call c dest nd q))).
        { apply call_img; [apply (Nm dest nd q), in_or_app; simpl; auto|]. apply root_lr; auto.
          - rewrite (map_app as_task) in V. exact V.
          - rewrite (map_app as_task) in T. exact T. }
        split; [split; auto|].
        -- apply root_call_an; auto.
        -- apply call_gets; auto. apply (lr_noerr _ _ L').
    + split.
      * apply Same; auto.
        -- apply gtake_lr; auto.
        -- apply (gtake_an workers body mbody is_async body_ok mbody_ok no_root ndf); auto.
        -- intros w. destruct (c_chan c s d) as [|m l] eqn:Ch; [unfold ActModel.gtake; rewrite Ch; auto|].
           destruct (Nat.eq_dec d 0) as [->|Nd]; [unfold ActModel.gtake; rewrite Ch; auto|].
           destruct (gtaken_now prog c s d m l P Ch Nd) as [E _]. rewrite E.
           destruct (Nat.eqb_spec w d) as [->|]; auto. intros _. eapply (chan_ranks prog c s d m P).
           apply in_astream; [apply P7|]. rewrite Ch. simpl; auto.
      * clear - A. unfold answered_gets in *. cbn [ActRoot.img c_seen c_left c_want c_prog] in *. unfold ActModel.gtake.
        destruct (c_chan c s d); auto. destruct (_ || _); auto. unfold deal. destruct (wstep _ _ _ _ _ _); auto.
    + assert (L' : LR workers (img prog (reply c s))) by (apply (areply_lr workers body mbody is_async); auto).
      split.
      * apply Same; auto.
        -- apply (areply_an body mbody is_async ndf); auto.
        -- intros w. unfold reply. destruct (c_left c); auto. destruct (c_chan c s 0) as [|m l]; auto. destruct m; auto.
           simpl c_in. destruct (Nat.eqb_spec w 0) as [->|]; auto. intros _. simpl; auto.
      * rewrite reply_img. apply (gets_step workers body (img prog c) (CReply s)); auto. cbn [cstep].
        rewrite <- reply_img. apply (lr_noerr _ _ L').
    + split.
      * apply Same; auto.
        -- apply adone_lr; auto.
        -- apply done_an; auto.
        -- intros w. unfold done. destruct (c_done c s); auto.
      * clear - A. unfold answered_gets in *. cbn [ActRoot.img c_seen c_left c_want c_prog] in *. unfold done. destruct (c_done c s); auto.
    + assert (Fin : finish body mbody is_async c d i = c).
      { unfold finish. destruct (nth_error _ i) eqn:Nt; auto. destruct (Nat.eqb_spec d 0) as [|D0]; auto. simpl orb.
        destruct (ainbox body mbody is_async body_ok mbody_ok prog (hist c) d _ P2 (box_ok body mbody is_async prog c P4 d)) as (Nr & _).
        destruct (run_blocks d body mbody is_async body_ok mbody_ok all_sync _ _ Nr (ab_run _ _ _ _ _ P4 d D0)) as [_ Rn].
        rewrite Rn in Nt. destruct i; discriminate. }
      rewrite Fin. auto.
Qed.
End Run.

Lemma act_run mgr ops : let g := grun mgr ops in gvalid (g_prog g) -> valid workers (tasks_of (g_prog g)) -> tidy (tasks_of (g_prog g)) ->
  (forall ds, ~ In (GP (RClean ds)) (g_prog g)) -> greturns_enough body mbody (g_prog g) ->
  exists ndf, gproper ndf (g_prog g) (g_c g) /\ answered_gets (img ndf (g_prog g) (g_c g)).
Proof using body_ok mbody_ok all_sync no_root no_dup.
  cbv zeta. intros GV V T Nc R. destruct (named_some (g_prog (grun mgr ops)) (gv_ids _ GV)) as (ndf & Nm).
  exists ndf. apply run_gproper; auto. apply tidy_neat; auto.
  intros ds I. apply in_map_iff in I as (p & X & I). destruct p as [o|]; simpl in X; [|discriminate]. subst o. eapply Nc; eauto.
Qed.

Lemma act_not_stuck mgr ops : let g := grun mgr ops in gvalid (g_prog g) -> valid workers (tasks_of (g_prog g)) -> tidy (tasks_of (g_prog g)) ->
  (forall ds, ~ In (GP (RClean ds)) (g_prog g)) -> greturns_enough body mbody (g_prog g) -> separate (g_prog g) ->
  (forall w, c_dead (g_c g) w = false) /\ ~ In RError (c_seen (g_c g)) /\
  (idle (g_c g) -> c_left (g_c g) = 0 /\
    forall dest q, In (dest, q) (gsubmitted (g_prog g)) -> In (q_id q) (ended (log (c_work (g_c g) dest)))).
Proof using body_ok mbody_ok all_sync no_root no_dup.
  cbv zeta. intros GV V T Nc R Sp. destruct (act_run mgr ops GV V T Nc R) as (ndf & P & _).
  destruct P as [P1 P2 P3 P4 P5 P6 [N1 N2 N3] P8]. split; auto. split; [apply (lr_noerr _ _ P6)|]. intros Id. split.
  - eapply (get_ended workers body mbody is_async body_ok mbody_ok all_sync no_root ndf); eauto.
  - intros dest q I. apply gsub_split in I as (a & p & b & Ep & Sq).
    eapply (all_ended workers body mbody is_async body_ok mbody_ok all_sync no_root ndf _ _ P1 P2 P3 P4 P5 P6 N2 N3 Sp Id (S (length a)) a p b); eauto.
Qed.

Lemma act_deliveries mgr ops : let g := grun mgr ops in gvalid (g_prog g) -> valid workers (tasks_of (g_prog g)) -> tidy (tasks_of (g_prog g)) ->
  (forall ds, ~ In (GP (RClean ds)) (g_prog g)) -> greturns_enough body mbody (g_prog g) ->
  (forall s d m l, c_chan (g_c g) s d = m :: l ->
     c_in (g_c (gstep g (if Nat.eqb d 0 then GReply s else GTake s d))) d = c_in (g_c g) d ++ [(s, m)]) /\
  Acc (fun y x => gdelivery workers body mbody is_async x y) g.
Proof using body_ok mbody_ok all_sync no_root no_dup.
  cbv zeta. intros GV V T Nc R. destruct (act_run mgr ops GV V T Nc R) as (ndf & P & _). split.
  - intros s d m l Ch. destruct (gdelivered_now ndf _ s d m l P Ch) as (E1 & _). unfold gdeliver_op in E1. rewrite E1, Nat.eqb_refl. auto.
  - eapply gends; eauto.
Qed.

Lemma act_gets mgr ops : let g := grun mgr ops in gvalid (g_prog g) -> valid workers (tasks_of (g_prog g)) -> tidy (tasks_of (g_prog g)) ->
  (forall ds, ~ In (GP (RClean ds)) (g_prog g)) -> greturns_enough body mbody (g_prog g) ->
  gets_over (c_seen (g_c g)) ++ (if Nat.eqb (c_left (g_c g)) 0 then [] else [c_want (g_c g)]) = gets_of (tasks_of (g_prog g)).
Proof using body_ok mbody_ok all_sync no_root no_dup.
  cbv zeta. intros GV V T Nc R. destruct (act_run mgr ops GV V T Nc R) as (ndf & _ & A). exact A.
Qed.
End End.
