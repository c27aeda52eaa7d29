(** No value of a cleaned-up reference is under way, if no worker has two sources for a value. *)
From Verif Require Import Lib ValModel ShmModel PushModel PushProofs WorkerModel WorkerSpec WorkerLog WorkerTrace
  WorkerAnswer WorkerOrder WorkerThms WorkerSends WorkerWant WorkerNeed MonModel ShutProofs ClusterModel ClusterSpec ClusterSeq
  ClusterProofs ClusterCount ClusterRoot ClusterNet ClusterGhost ClusterEnd ClusterClean.

(** ** Values sent with a request go before it *)
Definition followed (l : list wmsg) : Prop :=
  forall a d v b, l = a ++ WPut d v :: b -> exists q, In (WExec q) b /\ In d (mentions (RSubmit 0 q)).

Lemma followed_none l : (forall d v, ~ In (WPut d v) l) -> followed l.
Proof. intros N a d v b ->. exfalso. apply (N d v). apply in_or_app; simpl; auto. Qed.

Lemma followed_tail l : followed l -> followed (tl l).
Proof. intros F a d v b E. destruct l as [|m l]; [destruct a; discriminate|]. simpl in E. subst l. apply (F (m :: a) d v b eq_refl). Qed.

Lemma followed_app l l' : followed l -> followed l' -> followed (l ++ l').
Proof.
  intros F F' a d v b E. symmetry in E. apply app_split in E as [(t & E & ->)|(t & -> & E)].
  - destruct (F a d v t E) as (q & I & M). exists q. split; auto. apply in_or_app; auto.
  - apply (F' t d v b). auto.
Qed.

Lemma followed_exec l q : (forall d v, In (WPut d v) l -> In d (mentions (RSubmit 0 q))) -> followed (l ++ [WExec q]).
Proof.
  intros H a d v b E. symmetry in E. apply app_split in E as [(t & -> & ->)|(t & -> & E)].
  - exists q. split; [apply in_or_app; simpl; auto|]. apply (H d v). apply in_or_app; simpl; auto.
  - destruct t as [|x [|y t]]; simpl in E; discriminate.
Qed.

Lemma mentions_dest w w' q : mentions (RSubmit w q) = mentions (RSubmit w' q).
Proof. reflexivity. Qed.

Section Quiet.
Variable workers : list rank.
Variable body : val -> val -> val -> result.
Hypothesis body_ok : forall f a k, no_refs_returned (body f a k).
Hypothesis no_root : ~ In 0 workers.
Hypothesis no_dup : NoDup workers.
Notation crun := (crun workers body).
Notation cstep := (cstep workers body).
Notation Sim := (Sim workers body).

Record RT (c : cst) : Prop := {
  rt_busy : c_left c <> 0 -> exists x ds, c_prog c = x ++ [RGet ds] /\ incl (c_ids c) ds;
  rt_own : forall w d o, In (w, WOwner d o) (c_out c) -> exists a q b, c_prog c = a ++ RSubmit w q :: b /\
    In d (mentions (RSubmit w q)) /\ (In d (p_store (c_push c)) -> exists ds, In (RGet ds) b /\ In d ds);
  rt_put : forall w d v, In (w, WPut d v) (c_out c) -> In d (p_store (c_push c)) \/ In (RDrop d) (c_prog c);
  rt_both : forall w d o v, In (w, WOwner d o) (c_out c) -> In (w, WPut d v) (c_out c) ->
    exists a q1 b ds e q2 f, c_prog c = a ++ RSubmit w q1 :: b ++ RGet ds :: e ++ RSubmit w q2 :: f /\
      In d (mentions (RSubmit w q1)) /\ In d ds /\ In d (mentions (RSubmit w q2));
  rt_next : forall w, followed (c_chan c 0 w)
}.

Lemma rt_init mgr : RT (cinit mgr).
Proof. split; simpl; try tauto. intros w. apply followed_none. simpl. tauto. Qed.

(** An operation that sends no values and names no owners, and adds to the root's store only a new reference. *)
Lemma rt_other c r p vals t seen out want ids k exc : RT c -> c_left c = 0 ->
  (forall w m, In (w, m) out -> match m with WPut _ _ | WOwner _ _ => False | _ => True end) ->
  (forall d, In d (p_store p) -> In d (p_store (c_push c)) \/ (In d (created r) /\ ~ In d (introduced (c_prog c)))) ->
  (forall d, In d (p_store (c_push c)) -> In d (p_store p) \/ r = RDrop d) ->
  (forall a w q b d, c_prog c = a ++ RSubmit w q :: b -> In d (mentions (RSubmit w q)) -> In d (introduced (c_prog c))) ->
  (k <> 0 -> r = RGet want /\ incl ids want) ->
  RT (set_get (root_to c r p vals t seen out) want ids k exc).
Proof using.
  intros [R1 R2 R3 R4 R5] L0 O P1 P2 Mi K. split; cbn [set_get root_to c_left c_prog c_ids c_out c_push c_chan].
  - intros N. destruct (K N) as [-> I]. eauto.
  - intros w d o I. apply in_app_or in I as [I|I]; [|exfalso; apply (O _ _ I)].
    destruct (R2 w d o I) as (a & q & b & E & M & G). exists a, q, (b ++ [r]). rewrite E, <- app_assoc. split; auto.
    split; auto. intros S. apply P1 in S as [S|[_ S]].
    + destruct (G S) as (ds & X & Y). exists ds. split; auto. apply in_or_app; auto.
    + exfalso. apply S. eapply Mi; eauto.
  - intros w d v I. apply in_app_or in I as [I|I]; [|exfalso; apply (O _ _ I)]. rewrite in_app_iff.
    apply R3 in I as [I|I]; auto. apply P2 in I as [I|I]; auto. right. right. simpl; auto.
  - intros w d o v I J. apply in_app_or in I as [I|I]; [|exfalso; apply (O _ _ I)].
    apply in_app_or in J as [J|J]; [|exfalso; apply (O _ _ J)].
    destruct (R4 w d o v I J) as (a & q1 & b & ds & e & q2 & f & E & M). exists a, q1, b, ds, e, q2, (f ++ [r]).
    split; auto. rewrite E. rewrite <- app_assoc. simpl. do 2 f_equal. rewrite <- app_assoc. simpl. do 2 f_equal.
    rewrite <- app_assoc. auto.
  - intros w. simpl Nat.eqb. cbn iota. apply followed_app; auto. apply followed_none. intros d v I.
    apply in_sends in I. apply (O _ _ I).
Qed.

Lemma mention_intro c a w q b d : valid workers (c_prog c) -> c_prog c = a ++ RSubmit w q :: b ->
  In d (mentions (RSubmit w q)) -> In d (introduced (c_prog c)).
Proof using.
  intros V E M. destruct (v_sub _ _ V a w q b E) as (_ & (fd & Fd & P) & S). simpl in M. rewrite Fd in M.
  rewrite E, introduced_app. apply in_or_app. left. destruct M as [<-|M]; auto. apply puts_intro; auto.
Qed.

Lemma rt_root c g r : RT c -> Sim c g -> c_left c = 0 -> valid workers (c_prog c ++ [r]) -> tidy (c_prog c ++ [r]) ->
  ~ In RError (c_seen (root_step workers c r)) -> RT (root_step workers c r).
Proof using.
  intros R Sm L0 V T Ne.
  assert (V0 := s_valid _ _ _ _ Sm).
  assert (Mi := fun a w q b d => mention_intro c a w q b d V0).
  assert (Sg : forall p vals t seen out, root_to c r p vals t seen out =
    set_get (root_to c r p vals t seen out) (c_want c) (c_ids c) 0 (c_exc c)).
  { intros. unfold set_get, root_to. simpl. rewrite L0. auto. }
  destruct r as [d v|dest q|ds|d|ds]; cbn [root_step] in *; cbv zeta in *.
  - rewrite Sg. apply rt_other; auto; simpl; try tauto.
    assert (Nf := v_fresh _ _ V). rewrite introduced_app in Nf. simpl in Nf.
    intros x [<-|X]; auto. right. split; auto. intros X. revert X. apply NoDup_remove_2 in Nf. rewrite app_nil_r in Nf. auto.
  - destruct (submit (c_push c) dest (q_id q) (out_ids (q_out q)) (fn_val (q_fn q)) (q_args q) (q_kwargs q)) as [p'|] eqn:Sb.
    2:{ exfalso. apply Ne. simpl. apply in_or_app. simpl; auto. }
    cbn [pstep] in *. rewrite Sb in *. clear Ne.
    assert (Pi : Pinv (c_push c)).
    { rewrite <- (s_push _ _ _ _ Sm). apply (lr_pinv workers). apply (s_proper _ _ _ _ Sm). }
    rewrite submit_refs in Sb. unfold ok_of in Sb.
    set (ds := refs (fn_val (q_fn q)) ++ refs (q_args q) ++ refs (q_kwargs q)) in *.
    set (p0 := with_outputs (c_push c) dest (out_ids (q_out q))) in *.
    destruct (snd (push_some p0 dest ds)) eqn:Ok.
    2:{ destruct (push_some p0 dest ds) as [? []]; simpl in *; discriminate. }
    destruct (push_detail dest ds p0 (pinv_with _ _ _ Pi) Ok) as (_ & Es & _ & new & N1 & N2 & _).
    assert (Ep : p' = send_task (fst (push_some p0 dest ds)) dest (q_id q)).
    { destruct (push_some p0 dest ds) as [? []]; simpl in *; [|discriminate]. apply Some_inj in Sb. auto. }
    rewrite Ep. cbn [send_task p_out].
    set (p1 := fst (push_some p0 dest ds)) in *. clearbody p1. clear Sb Ep.
    assert (Po : p_out p1 = p_out (c_push c) ++ new) by exact N1.
    assert (Ps : p_store p1 = p_store (c_push c)) by exact Es.
    rewrite Po, <- app_assoc, skipn_exact, pushed_app.
    change (p_store p0) with (p_store (c_push c)) in *.
    assert (Dm : forall d, In d ds -> In d (mentions (RSubmit dest q))).
    { intros d D. rewrite mentions_refs. exact D. }
    set (X := pushed (c_vals c) q new).
    assert (XP : forall w d v, In (w, WPut d v) X -> w = dest /\ In d ds /\ In d (p_store (c_push c))).
    { intros w d v I. unfold X in I. apply in_pushed in I as (x & I & M).
      apply N2 in I as [(d' & E & D & Sx)|(d' & o & E & D & Sx & O)]; injection E as -> ->; simpl in M.
      - destruct (c_vals c d'); [|destruct M]. destruct M as [M|[]]. injection M as <- <-. auto.
      - destruct M as [M|[]]; discriminate. }
    assert (XO : forall w d o, In (w, WOwner d o) X -> w = dest /\ In d ds /\ ~ In d (p_store (c_push c))).
    { intros w d o I. unfold X in I. apply in_pushed in I as (x & I & M).
      apply N2 in I as [(d' & E & D & Sx)|(d' & o' & E & D & Sx & O)]; injection E as -> ->; simpl in M.
      - destruct (c_vals c d'); [|destruct M]. destruct M as [M|[]]. discriminate.
      - destruct M as [M|[]]. injection M as <- <-. auto. }
    assert (XE : pushed (c_vals c) q [(dest, MTask (q_id q))] = [(dest, WExec q)]) by reflexivity.
    rewrite XE. clearbody X.
    assert (Nd : forall d, In d ds -> ~ In (RDrop d) (c_prog c)).
    { intros d D I. apply in_split in I as (x & y & E). rewrite E, <- app_assoc in T. simpl in T.
      apply (t_drop _ T x d (y ++ [RSubmit dest q]) (RSubmit dest q) eq_refl); [apply in_or_app; simpl; auto | apply Dm; auto]. }
    destruct R as [R1 R2 R3 R4 R5]. split; cbn [root_to c_left c_prog c_ids c_out c_push c_chan send_task p_store]; rewrite ?Ps.
    + tauto.
    + intros w d o I. apply in_app_or in I as [I|I].
      * destruct (R2 w d o I) as (a & q0 & b & E & M & G). exists a, q0, (b ++ [RSubmit dest q]). rewrite E, <- app_assoc. split; auto.
        split; auto. intros S. destruct (G S) as (x & A & B). exists x. split; auto. apply in_or_app; auto.
      * apply in_app_or in I as [I|[I|[]]]; [|discriminate]. apply XO in I as (-> & D & S).
        exists (c_prog c), q, []. split; auto. split; auto. tauto.
    + intros w d v I. rewrite in_app_iff. apply in_app_or in I as [I|I].
      * apply R3 in I as [I|I]; auto.
      * apply in_app_or in I as [I|[I|[]]]; [|discriminate]. apply XP in I. tauto.
    + intros w d o v I J. apply in_app_or in I as [I|I].
      * apply in_app_or in J as [J|J].
        -- destruct (R4 w d o v I J) as (a & q1 & b & x & e & q2 & f & E & M). exists a, q1, b, x, e, q2, (f ++ [RSubmit dest q]).
           split; auto. rewrite E. rewrite <- app_assoc. simpl. do 2 f_equal. rewrite <- app_assoc. simpl. do 2 f_equal.
           rewrite <- app_assoc. auto.
        -- apply in_app_or in J as [J|[J|[]]]; [|discriminate]. apply XP in J as (-> & D & S).
           destruct (R2 dest d o I) as (a & q1 & b & E & M & G). destruct (G S) as (x & A & B).
           apply in_split in A as (b1 & b2 & ->). exists a, q1, b1, x, b2, q, []. split.
           ++ rewrite E, <- app_assoc. simpl. rewrite <- app_assoc. auto.
           ++ auto.
      * apply in_app_or in I as [I|[I|[]]]; [|discriminate]. apply XO in I as (-> & D & S).
        exfalso. apply in_app_or in J as [J|J].
        -- apply R3 in J as [J|J]; [tauto|]. eapply Nd; eauto.
        -- apply in_app_or in J as [J|[J|[]]]; [|discriminate]. apply XP in J. tauto.
    + intros w. simpl Nat.eqb. cbn iota. apply followed_app; auto. rewrite sends_app. simpl.
      destruct (Nat.eqb_spec dest w) as [<-|Nw].
      * apply followed_exec. intros d v I. apply in_sends in I. apply XP in I as (_ & D & _). apply Dm in D. exact D.
      * rewrite app_nil_r. apply followed_none. intros d v I. apply in_sends in I. apply XP in I as (-> & _). tauto.
  - assert (Fi : incl (filter (fun d => negb (did_in d (p_store (c_push c)))) ds) ds).
    { intros d I. apply filter_In in I. tauto. }
    destruct (filter (fun d => negb (did_in d (p_store (c_push c)))) ds) as [|x r].
    + rewrite Sg. apply rt_other; auto; simpl; tauto.
    + destruct (owners (p_owner (c_push c)) (x :: r)) as [l|].
      * apply rt_other; auto.
        intros w m I. apply in_map_iff in I as (y & Y & _). apply pair_inj in Y as [_ <-]. auto.
      * rewrite Sg. apply rt_other; auto; simpl; tauto.
  - rewrite Sg. apply rt_other; auto; simpl; try tauto.
    + intros x X. apply filter_In in X. tauto.
    + intros x X. destruct (did_dec x d) as [->|N]; auto. left. apply filter_In. split; auto.
      apply Bool.negb_true_iff, did_eqb_neq; auto.
  - destruct (Nat.eqb (mcount (c_mon c)) (c_tasks c)); rewrite Sg; apply rt_other; auto; simpl; try tauto.
    intros w m I. apply in_map_iff in I as (y & Y & _). apply pair_inj in Y as [_ <-]. auto.
Qed.

Lemma rt_take c s d : RT c -> RT (take body c s d).
Proof using.
  intros R. unfold take. destruct (c_chan c s d) as [|m l] eqn:Ch; auto.
  destruct (Nat.eqb_spec d 0) as [->|D0]; simpl; auto. destruct (c_dead c d); auto.
  destruct R as [R1 R2 R3 R4 R5].
  assert (F : forall w, followed (drop_head (c_chan c) s d 0 w)).
  { intros w. unfold drop_head. destruct ((0 =? s) && (w =? d)); auto. apply followed_tail; auto. }
  destruct (wstep d body no_method plain_fn (c_work c d) m); split; auto.
  intros x. cbn [c_chan]. destruct (Nat.eqb_spec 0 d) as [<-|]; [tauto|]. apply F.
Qed.

Lemma rt_done c s : RT c -> RT (done workers c s).
Proof using. intros [R1 R2 R3 R4 R5]. unfold done. destruct (c_done c s); split; auto. Qed.

Lemma rt_reply c s : RT c -> ~ In RError (c_seen (reply c s)) -> RT (reply c s).
Proof using.
  intros R Ne. unfold reply in *. destruct (c_left c) as [|k] eqn:Lf; auto.
  destruct (c_chan c s 0) as [|m l] eqn:Ch; auto. destruct m; auto. cbv zeta in *. cbn [c_seen] in Ne.
  destruct (did_in d (c_ids c)) eqn:Di; [|exfalso; apply Ne, in_or_app; simpl; auto]. clear Ne.
  apply did_in_In in Di. destruct R as [R1 R2 R3 R4 R5]. rewrite Lf in R1.
  destruct (R1 ltac:(discriminate)) as (x & ds & E & Ic).
  split; cbn [c_left c_prog c_ids c_out c_push c_chan]; auto.
  - intros w d' o I. destruct (R2 w d' o I) as (a & q & b & E' & M & G). exists a, q, b. split; auto. split; auto.
    simpl. intros [<-|S]; auto. exists ds. split; [|auto]. clear G.
    rewrite E in E'. symmetry in E'. apply app_split in E' as [(t & -> & E2)|(t & -> & E2)].
    + rewrite E2. apply in_or_app; simpl; auto.
    + destruct t as [|y [|z t]]; simpl in E2; discriminate.
  - intros w d' v' I. apply R3 in I as [I|I]; auto. left. simpl. auto.
  - intros w. unfold drop_head. destruct ((0 =? s) && (w =? 0)); auto. apply followed_tail; auto.
Qed.

Lemma run_rt mgr ops : valid workers (c_prog (crun mgr ops)) -> tidy (c_prog (crun mgr ops)) ->
  returns_enough body (c_prog (crun mgr ops)) -> RT (crun mgr ops).
Proof using body_ok no_root no_dup.
  induction ops as [|o ops IH] using rev_ind; intros V T R.
  - apply rt_init.
  - destruct (run_sim workers body body_ok no_root no_dup mgr _ V T R) as (g' & S').
    assert (Ne := sim_noerr workers body _ _ S'). clear g' S'.
    assert (V0 := valid_before workers body mgr ops o V). rewrite crun_snoc in *.
    destruct (prog_grows workers body (crun mgr ops) o) as (l & G).
    assert (T0 : tidy (c_prog (crun mgr ops))) by (rewrite G in T; eapply tidy_prefix; eauto).
    assert (R0 : returns_enough body (c_prog (crun mgr ops))) by (rewrite G in R; eapply enough_prefix; eauto).
    destruct (run_sim workers body body_ok no_root no_dup mgr _ V0 T0 R0) as (g & S).
    assert (Rt := IH V0 T0 R0). clear IH G l. set (c := crun mgr ops) in *. clearbody c.
    destruct o as [r|s d|s|s]; cbn [ClusterModel.cstep] in *.
    + destruct (c_left c) eqn:Lf; auto. rewrite root_prog in V, T. eapply rt_root; eauto.
    + apply rt_take; auto.
    + apply rt_reply; auto.
    + apply rt_done; auto.
Qed.

(** ** Nothing that was cleaned up is under way *)
Lemma wanted_by c g w d : Sim c g -> w <> 0 -> In d (reqs (c_work g w)) -> store (c_work g w) d = None ->
  exists q, In q (pend (c_work g w)) /\ In d (qrefs q).
Proof using body_ok.
  intros S N I St. destruct (s_proper _ _ _ _ S) as [V R B L Ln Rk].
  destruct (inbox_ok workers body body_ok (c_prog g) (map snd (c_in g w)) V (box_ok body g B w)) as (Nr & _ & _).
  assert (K : Forall WorkerNeed.keeps (map snd (c_in g w))).
  { apply Forall_forall. intros m M. apply in_map_iff in M as ([x y] & <- & Y).
    assert (P := plain_stream workers g L x w y). specialize (P (in_stream g (ln_stream _ _ Ln) x w y (or_introl Y))).
    simpl. destruct y; simpl in *; auto. }
  assert (X := needy_run w body no_method plain_fn body_ok no_method_ok (map snd (c_in g w)) winit (c_work g w)
    (wi_init _ _) Nr K).
  specialize (X ltac:(intros x []) (cb_run _ _ B w N) d I St).
  destruct X as (q & Q & D). exists q. split; auto. apply in_app_or in Q as [Q|Q]; auto. exfalso.
  revert Q. rewrite (rw_apend' _ _ _ _ _ (s_rw _ _ _ _ S w N)). simpl. tauto.
Qed.

Lemma store_made c g w d v : Sim c g -> w <> 0 -> In (EvStore d v) (log (c_work g w)) -> made (c_prog g) w d.
Proof using body_ok.
  intros S N I. destruct (s_proper _ _ _ _ S) as [V R B L Ln Rk]. assert (St := ln_stream _ _ Ln).
  destruct (facts workers body body_ok g V B w N) as (W & _).
  destruct (good_store body no_method _ (wi_good _ _ _ W) d v I) as (q & Q & D). exists q. split; auto.
  apply (box_submitted workers body body_ok g V B L St w q N Q).
Qed.

Lemma sends_once c g s w d v v' : Sim c g -> s <> 0 -> In (s, WPut d v) (c_in g w) -> In (WPut d v') (c_chan g s w) -> False.
Proof using body_ok.
  intros S N I J. destruct (s_proper _ _ _ _ S) as [V R B L Ln Rk]. assert (St := ln_stream _ _ Ln).
  assert (G := box_gi workers body body_ok g V R B L St (ln_back _ _ Ln) s N).
  assert (Nv : NoDup (vals_in (sends_to s (c_in g w) ++ c_chan g s w))).
  { apply (lossy_vals _ _ _ (proj2 St s w)). unfold stream. destruct (Nat.eqb_spec s 0); [tauto|]. apply vals_nodup.
    rewrite (gi_sent _ _ _ G). apply G. }
  unfold vals_in in Nv. rewrite flat_map_app in Nv. eapply nodup_sep; [exact Nv| |]; apply in_flat_map.
  - exists (WPut d v). rewrite in_sends. simpl; auto.
  - exists (WPut d v'). simpl; auto.
Qed.

Lemma out_same c g w m : Sim c g -> In (w, m) (c_out g) -> In (w, m) (c_out c).
Proof using.
  intros S I. apply in_sends in I. rewrite (s_out _ _ _ _ S) in I. apply filter_In in I as [I _]. apply in_sends; auto.
Qed.

Lemma quiet c g s w d v : Sim c g -> RT c -> one_source (c_prog c) -> In d (dead c) -> ~ In (WPut d v) (c_chan c s w).
Proof using body_ok no_root no_dup.
  intros S Rt One Dd I. destruct (s_proper _ _ _ _ S) as [V R B L Ln Rk]. assert (St := ln_stream _ _ Ln).
  assert (Nf := v_fresh _ _ V).
  destruct (Nat.eq_dec s 0) as [->|Ns].
  { apply in_split in I as (a & b & E). destruct (rt_next _ Rt w a d v b E) as (q & Q & M).
    destruct (s_exec _ _ _ _ S w q) as (A1 & A2 & _); [rewrite E; apply in_or_app; simpl; auto|].
    simpl in M. apply in_app_or in M as [M|M]; [|eapply A1; eauto].
    destruct (q_fn q) eqn:F; [|destruct M]. destruct M as [->|[]]. eapply A2; eauto. }
  assert (Ig : In (WPut d v) (c_chan g s w)) by (rewrite (s_chan _ _ _ _ S); apply filter_In; auto).
  assert (Is := in_stream g St s w (WPut d v) (or_intror Ig)).
  apply stream_cases in Is as [[-> _]|[_ [(x & y & b & X & P)|(? & X & _)]]]; try discriminate; [tauto|].
  injection X as <- <-.
  destruct (answer_made workers body body_ok g V B L St s w d v b Ns P) as (M & _ & b' & A).
  assert (Y := in_stream g St w s (WGet w d b') (or_introl A)).
  apply stream_cases in Y as [[-> Y]|[Nw [(? & ? & ? & Y & _)|(y & Y & G)]]]; try discriminate.
  { apply (lr_asked _ _ L) in Y as [(s' & v' & M' & C)|(Lf & Ic & _)].
    - assert (s' = s) by (eapply made_unique; eauto). subst s'. eapply sends_once; eauto.
    - rewrite (s_left _ _ _ _ S) in Lf. rewrite (s_ids _ _ _ _ S) in Ic. apply (s_get _ _ _ _ S d Lf Ic Dd). }
  injection Y as <- _.
  destruct (get_made workers body body_ok g V B L St w d s Nw G) as [_ Nsw].
  destruct (facts workers body body_ok g V B w Nw) as (W & Sv & _ & Ai & _).
  assert (Put : forall v', ~ In (EvIn (WPut d v')) (log (c_work g w))).
  { intros v' J. apply (taken workers body body_ok g V B) in J as (s' & J); auto.
    assert (Js := in_stream g St s' w (WPut d v') (or_introl J)).
    apply stream_cases in Js as [[-> Js]|[Ns' [(x & y & b2 & X & P')|(? & X & _)]]]; try discriminate.
    - apply in_split in G as (l1 & l2 & El). destruct (ai_gets _ _ Ai _ _ _ _ El) as (_ & To & _ & _).
      apply told_in in To.
      assert (To' : In (EvIn (WOwner d s)) (log (c_work g w))) by (rewrite El; apply in_or_app; auto).
      apply (taken workers body body_ok g V B) in To' as (s2 & To'); auto.
      assert (Ts := in_stream g St s2 w (WOwner d s) (or_introl To')).
      apply stream_cases in Ts as [[-> Ts]|[_ [(? & ? & ? & X & _)|(? & X & _)]]]; try discriminate.
      destruct (rt_both _ Rt w d s v' (out_same _ _ _ _ S Ts) (out_same _ _ _ _ S Js)) as (a & q1 & b1 & ds & e & q2 & f & E & M1 & Ds & M2).
      destruct M as (q & Iq & Dq). rewrite (s_prog _ _ _ _ S) in Iq. apply filter_In in Iq as [Iq _].
      assert (Vc := s_valid _ _ _ _ S).
      assert (Np : ~ In d (puts (c_prog c))).
      { apply (made_not_put _ s); [apply Vc | exists q; auto]. }
      assert (Qr : forall x w' q' y, c_prog c = x ++ RSubmit w' q' :: y -> In d (mentions (RSubmit w' q')) -> In d (qrefs q')).
      { intros x w' q' y E' M'. destruct (v_sub _ _ Vc x w' q' y E') as (_ & (fd & Fd & Fp) & _). simpl in M'. rewrite Fd in M'.
        destruct M' as [->|M']; auto. exfalso. apply Np. rewrite E', puts_app. apply in_or_app; auto. }
      apply (One a w q1 b1 ds e q2 f s q d E Iq Dq Nsw); auto.
      + eapply Qr; eauto.
      + eapply (Qr (a ++ RSubmit w q1 :: b1 ++ RGet ds :: e)); [|exact M2]. rewrite E, <- app_assoc. simpl. rewrite <- app_assoc. reflexivity.
    - injection X as <- <-. destruct (answer_made workers body body_ok g V B L St s' w d v' b2 Ns' P') as (M' & _).
      assert (s' = s) by (eapply made_unique; eauto). subst s'. eapply sends_once; eauto. }
  apply get_since in G as [O|(v' & J)]; [|eapply Put; eauto].
  apply (ai_reqs _ _ Ai) in O. destruct (store (c_work g w) d) as [x|] eqn:Sx.
  - apply (sv_store _ Sv) in Sx as [Sx|Sx]; [eapply Put; eauto|].
    apply (store_made c g) in Sx; auto. apply Nsw. eapply made_unique; eauto.
  - destruct (wanted_by c g w d S Nw O Sx) as (q & Q & D).
    assert (F := s_pend _ _ _ _ S w Nw). rewrite Forall_forall in F. destruct (F q Q) as (F1 & _). eapply F1; eauto.
Qed.

Lemma cleaned_quiet mgr ops d s w v : valid workers (c_prog (crun mgr ops)) -> tidy (c_prog (crun mgr ops)) ->
  returns_enough body (c_prog (crun mgr ops)) -> one_source (c_prog (crun mgr ops)) ->
  In d (dead (crun mgr ops)) -> ~ In (WPut d v) (c_chan (crun mgr ops) s w).
Proof using body_ok no_root no_dup.
  intros V T R One. destruct (run_sim workers body body_ok no_root no_dup mgr ops V T R) as (g & S).
  apply (quiet _ g); auto. apply run_rt; auto.
Qed.
End Quiet.
