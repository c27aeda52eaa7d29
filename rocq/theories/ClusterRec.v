(** No process but the monitor keeps a record of what was cleaned up (C91). *)
From Verif Require Import Lib ValModel ShmModel PushModel PushProofs WorkerModel WorkerSpec WorkerLog WorkerTrace
  WorkerAnswer WorkerOrder WorkerThms WorkerSends WorkerWant WorkerNeed WorkerKept WorkerRec MonModel ShutProofs ClusterModel ClusterSpec ClusterSeq
  ClusterProofs ClusterCount ClusterRoot ClusterNet ClusterGhost ClusterEnd ClusterClean ClusterQuiet ClusterGone.

(** A request that is outstanding has not been answered. *)
Lemma waiting self l d : (forall l1 o d l2, l = l1 ++ EvGet o d :: l2 -> ok_get self l1 o d) ->
  (forall ds, ~ In (EvIn (WClean ds)) l) -> outstanding l d = true -> forall v, ~ In (EvIn (WPut d v)) l.
Proof.
  induction l as [|e l IH] using rev_ind; intros G N O v I; [destruct I|].
  assert (Gl : forall l1 o d l2, l = l1 ++ EvGet o d :: l2 -> ok_get self l1 o d).
  { intros l1 o x l2 ->. apply (G l1 o x (l2 ++ [e])). rewrite <- app_assoc. auto. }
  assert (Nl : forall ds, ~ In (EvIn (WClean ds)) l) by (intros ds X; apply (N ds), in_or_app; auto).
  unfold outstanding in O. rewrite fold_left_app in O. simpl in O. fold (outstanding l d) in O.
  apply in_app_or in I as [I|[->|[]]].
  - destruct e as [m|n c a k|n r|x y|x y z b|o x|ds]; try (apply (IH Gl Nl O v I); fail).
    + destruct m; try (apply (IH Gl Nl O v I); fail).
      destruct (did_eqb d0 d); [discriminate|]. apply (IH Gl Nl O v I).
    + destruct (did_eqb x d) eqn:E; [|apply (IH Gl Nl O v I)]. apply did_eqb_eq in E as ->.
      destruct (G l o d [] eq_refl) as (_ & _ & _ & A).
      assert (X : available l d = true) by (apply (stored_available l d v); [exact Nl|left; auto]). congruence.
  - rewrite did_eqb_refl in O. discriminate.
Qed.

(** ** Owners sent with a request go before it *)
Definition led (l : list wmsg) : Prop :=
  forall a d o b, l = a ++ WOwner d o :: b -> exists q, In (WExec q) b /\ In d (mentions (RSubmit 0 q)).

Lemma led_none l : (forall d v, ~ In (WOwner d v) l) -> led l.
Proof. intros N a d v b ->. exfalso. apply (N d v). apply in_or_app; simpl; auto. Qed.

Lemma led_tail l : led l -> led (tl l).
Proof. intros F a d v b E. destruct l as [|m l]; [destruct a; discriminate|]. simpl in E. subst l. apply (F (m :: a) d v b eq_refl). Qed.

Lemma led_app l l' : led l -> led l' -> led (l ++ l').
Proof.
  intros F F' a d v b E. symmetry in E. apply app_split in E as [(t & E & ->)|(t & -> & E)].
  - destruct (F a d v t E) as (q & I & M). exists q. split; auto. apply in_or_app; auto.
  - apply (F' t d v b). auto.
Qed.

Lemma led_exec l q : (forall d v, In (WOwner d v) l -> In d (mentions (RSubmit 0 q))) -> led (l ++ [WExec q]).
Proof.
  intros H a d v b E. symmetry in E. apply app_split in E as [(t & -> & ->)|(t & -> & E)].
  - exists q. split; [apply in_or_app; simpl; auto|]. apply (H d v). apply in_or_app; simpl; auto.
  - destruct t as [|x [|y t]]; simpl in E; discriminate.
Qed.

Lemma nodup_join {A} (l l' : list A) : NoDup l -> NoDup l' -> (forall x, In x l -> ~ In x l') -> NoDup (l ++ l').
Proof.
  induction l as [|x l IH]; simpl; intros N N' H; auto. inversion N; subst. constructor.
  - intros I. apply in_app_or in I as [I|I]; auto. apply (H x); auto.
  - apply IH; auto.
Qed.

Lemma asks_app a b : asks_in (a ++ b) = asks_in a ++ asks_in b.
Proof. apply flat_map_app. Qed.

Lemma asks_keep l : asks_in (filter keep_msg l) = asks_in l.
Proof. induction l as [|m l IH]; auto. destruct m; simpl; rewrite ?IH; auto. Qed.

Lemma in_asks_in d l : In d (asks_in l) <-> exists r b, In (WGet r d b) l.
Proof.
  unfold asks_in. rewrite in_flat_map. split.
  - intros (m & I & X). destruct m; simpl in X; try tauto. destruct X as [->|[]]. eauto.
  - intros (r & b & I). exists (WGet r d b). simpl. auto.
Qed.

Lemma lossy_asks D a b : lossy D a b -> NoDup (asks_in b) -> NoDup (asks_in a).
Proof.
  assert (G : forall D a b, lossy D a b -> incl (asks_in a) (asks_in b)).
  { induction 1 as [|m a' b' L IH|m d a' b' A Dd L IH]; [apply incl_refl| |].
    - unfold asks_in. cbn [flat_map]. apply incl_app; [apply incl_appl, incl_refl | apply incl_appr; auto].
    - unfold asks_in. cbn [flat_map]. apply incl_appr; auto. }
  induction 1 as [|m a b L IH|m d a b A Dd L IH]; auto.
  - unfold asks_in in *. cbn [flat_map]. destruct m; auto. simpl. intros N. inversion N; subst. constructor; auto.
    intros I. apply (G _ _ _ L) in I. auto.
  - unfold asks_in in *. cbn [flat_map]. destruct m; auto. simpl. intros N. inversion N; subst. auto.
Qed.

Lemma owners_snd o ds : forall l, owners o ds = Some l -> map snd l = ds.
Proof.
  induction ds as [|d ds IH]; simpl; intros l H.
  - apply Some_inj in H as <-. auto.
  - destruct (o d); [|discriminate]. destruct (owners o ds); [|discriminate]. apply Some_inj in H as <-. simpl. rewrite IH; auto.
Qed.

Lemma asks_sent w (l : list (rank * dataid)) : NoDup (map snd l) ->
  NoDup (asks_in (sends_to w (map (fun p => (fst p, WGet 0 (snd p) true)) l))) /\
  incl (asks_in (sends_to w (map (fun p => (fst p, WGet 0 (snd p) true)) l))) (map snd l).
Proof.
  induction l as [|[r d] l IH]; intros N; simpl in *; [split; [constructor|apply incl_refl]|].
  inversion N as [|? ? Nd Nl]; subst. destruct (IH Nl) as [A B].
  destruct (Nat.eqb r w); simpl.
  - split; [constructor; auto|]. intros x [<-|X]; simpl; auto.
  - split; auto. intros x X. right. apply B; auto.
Qed.

Section Rec.
Variable workers : list rank.
Variable body : val -> val -> val -> result.
Hypothesis body_ok : forall f a k, no_refs_returned (body f a k).
Hypothesis no_root : ~ In 0 workers.
Hypothesis no_dup : NoDup workers.
Notation crun := (crun workers body).
Notation Sim := (Sim workers body).

Record FG (c : cst) : Prop := {
  fg_led : forall w, led (c_chan c 0 w);
  fg_once : forall w, NoDup (asks_in (sends_to w (c_out c)))
}.

Lemma fg_same c r p vals t seen out want ids k exc : FG c ->
  (forall w m, In (w, m) out -> match m with WOwner _ _ | WGet _ _ _ => False | _ => True end) ->
  FG (set_get (root_to c r p vals t seen out) want ids k exc).
Proof using.
  intros [F1 F2] H. split; cbn [set_get root_to c_chan c_out]; intros w; simpl Nat.eqb; cbn iota.
  - apply led_app; auto. apply led_none. intros d o I. apply in_sends in I. apply H in I. exact I.
  - rewrite sends_app, asks_app. assert (E : asks_in (sends_to w out) = []).
    { destruct (asks_in (sends_to w out)) as [|d l] eqn:E; auto. exfalso.
      assert (X : In d (asks_in (sends_to w out))) by (rewrite E; simpl; auto).
      apply in_asks_in in X as (x & b & X). apply in_sends in X. apply H in X. exact X. }
    rewrite E, app_nil_r. auto.
Qed.

Lemma fg_root c g r : FG c -> Sim c g -> c_left c = 0 -> valid workers (c_prog c ++ [r]) -> tidy (c_prog c ++ [r]) ->
  ~ In RError (c_seen (root_step workers c r)) -> FG (root_step workers c r).
Proof using.
  intros R Sm L0 V T Ne.
  assert (Sg : forall p vals t seen out, root_to c r p vals t seen out =
    set_get (root_to c r p vals t seen out) (c_want c) (c_ids c) 0 (c_exc c)).
  { intros. unfold set_get, root_to. simpl. rewrite L0. auto. }
  destruct r as [d v|dest q|ds|d|ds]; cbn [root_step] in *; cbv zeta in *.
  - rewrite Sg. apply fg_same; auto; simpl; tauto.
  - destruct (submit (c_push c) dest (q_id q) (out_ids (q_out q)) (fn_val (q_fn q)) (q_args q) (q_kwargs q)) as [p'|] eqn:Sb.
    2:{ exfalso. apply Ne. simpl. apply in_or_app. simpl; auto. }
    cbn [pstep] in *. rewrite Sb in *. clear Ne.
    assert (Pi : Pinv (c_push c)).
    { rewrite <- (s_push _ _ _ _ Sm). apply (lr_pinv workers). apply (s_proper _ _ _ _ Sm). }
    rewrite submit_refs in Sb. unfold ok_of in Sb.
    set (ds := refs (fn_val (q_fn q)) ++ refs (q_args q) ++ refs (q_kwargs q)) in *.
    set (p0 := with_outputs (c_push c) dest (out_ids (q_out q))) in *.
    destruct (snd (push_some p0 dest ds)) eqn:Ok.
    2:{ destruct (push_some p0 dest ds) as [? []]; simpl in *; discriminate. }
    destruct (push_detail dest ds p0 (pinv_with _ _ _ Pi) Ok) as (_ & Es & _ & new & N1 & N2 & _).
    assert (Ep : p' = send_task (fst (push_some p0 dest ds)) dest (q_id q)).
    { destruct (push_some p0 dest ds) as [? []]; simpl in *; [|discriminate]. apply Some_inj in Sb. auto. }
    rewrite Ep. cbn [send_task p_out].
    set (p1 := fst (push_some p0 dest ds)) in *. clearbody p1. clear Sb Ep.
    assert (Po : p_out p1 = p_out (c_push c) ++ new) by exact N1.
    rewrite Po, <- app_assoc, skipn_exact, pushed_app.
    assert (Dm : forall d, In d ds -> In d (mentions (RSubmit 0 q))).
    { intros d D. rewrite mentions_refs. exact D. }
    set (X := pushed (c_vals c) q new).
    assert (XO : forall w d o, In (w, WOwner d o) X -> w = dest /\ In d ds).
    { intros w d o I. unfold X in I. apply in_pushed in I as (x & I & M).
      apply N2 in I as [(d' & E & D & Sx)|(d' & o' & E & D & Sx & O)]; injection E as -> ->; simpl in M.
      - destruct (c_vals c d'); [|destruct M]. destruct M as [M|[]]. discriminate.
      - destruct M as [M|[]]. injection M as <- <-. auto. }
    assert (XG : forall w r d b, ~ In (w, WGet r d b) X).
    { intros w r d b I. unfold X in I. apply in_pushed in I as (x & I & M). destruct x; simpl in M.
      - destruct (c_vals c d0); [|destruct M]. destruct M as [M|[]]; discriminate.
      - destruct M as [M|[]]; discriminate.
      - destruct M as [M|[]]; discriminate. }
    assert (XE : pushed (c_vals c) q [(dest, MTask (q_id q))] = [(dest, WExec q)]) by reflexivity.
    rewrite XE. clearbody X.
    destruct R as [F1 F2]. split; cbn [root_to c_chan c_out]; intros w; simpl Nat.eqb; cbn iota.
    + apply led_app; auto. rewrite sends_app. simpl.
      destruct (Nat.eqb_spec dest w) as [<-|Nw].
      * apply led_exec. intros d v I. apply in_sends in I. apply XO in I as (_ & D). apply Dm in D. exact D.
      * rewrite app_nil_r. apply led_none. intros d v I. apply in_sends in I. apply XO in I as (-> & _). tauto.
    + rewrite !sends_app, !asks_app. assert (E : asks_in (sends_to w X) = []).
      { destruct (asks_in (sends_to w X)) as [|d l] eqn:E; auto. exfalso.
        assert (Y : In d (asks_in (sends_to w X))) by (rewrite E; simpl; auto).
        apply in_asks_in in Y as (x & b & Y). apply in_sends in Y. eapply XG; eauto. }
      rewrite E. simpl. destruct (Nat.eqb dest w); simpl; rewrite app_nil_r; auto.
  - assert (Fi : incl (filter (fun d => negb (did_in d (p_store (c_push c)))) ds) ds).
    { intros d I. apply filter_In in I. tauto. }
    assert (Nf : NoDup (filter (fun d => negb (did_in d (p_store (c_push c)))) ds)).
    { apply NoDup_filter. apply (t_get _ T (c_prog c) ds []). auto. }
    assert (Np : forall d, In d (filter (fun d => negb (did_in d (p_store (c_push c)))) ds) -> ~ In d (p_store (c_push c))).
    { intros d I J. apply filter_In in I as [_ I]. apply did_in_In in J. rewrite J in I. discriminate. }
    destruct (filter (fun d => negb (did_in d (p_store (c_push c)))) ds) as [|x r].
    + rewrite Sg. apply fg_same; auto; simpl; tauto.
    + destruct (owners (p_owner (c_push c)) (x :: r)) as [l|] eqn:Ow.
      * apply owners_snd in Ow. destruct R as [F1 F2].
        split; cbn [set_get root_to c_chan c_out]; intros w; simpl Nat.eqb; cbn iota.
        -- apply led_app; auto. apply led_none. intros d o I. apply in_sends in I. apply in_map_iff in I as (y & Y & _). discriminate.
        -- rewrite sends_app, asks_app. rewrite <- Ow in Nf. destruct (asks_sent w l Nf) as [A B]. apply nodup_join; auto.
           intros d I J. apply B in J. rewrite Ow in J. assert (D := Fi d J).
           apply in_asks_in in I as (r' & b & I). apply in_sends in I.
           assert (Ig : In (w, WGet r' d b) (c_out g)).
           { apply in_sends. rewrite (s_out _ _ _ _ Sm). apply filter_In. split; auto. apply in_sends; auto. }
           assert (Lg := pr_lr _ _ _ (s_proper _ _ _ _ Sm)).
           apply (lr_asked _ _ Lg) in Ig as [(s & v & _ & C)|(N & _)]; [|rewrite (s_left _ _ _ _ Sm) in N; tauto].
           apply (lr_recv _ _ Lg) in C as [C|C].
           ++ rewrite (s_push _ _ _ _ Sm) in C. apply (Np d J C).
           ++ rewrite (s_prog _ _ _ _ Sm) in C. apply filter_In in C as [C _]. apply in_split in C as (y & z & E).
              apply (t_drop _ T y d (z ++ [RGet ds]) (RGet ds)); [rewrite E, <- app_assoc; auto | apply in_or_app; simpl; auto | exact D].
      * rewrite Sg. apply fg_same; auto; simpl; tauto.
  - rewrite Sg. apply fg_same; auto; simpl; tauto.
  - destruct (Nat.eqb (mcount (c_mon c)) (c_tasks c)); rewrite Sg; apply fg_same; auto; simpl; try tauto.
    intros w m I. apply in_map_iff in I as (y & Y & _). apply pair_inj in Y as [_ <-]. auto.
Qed.

Lemma fg_take c s d : FG c -> FG (take body c s d).
Proof using.
  intros R. unfold take. destruct (c_chan c s d) as [|m l] eqn:Ch; auto.
  destruct (Nat.eqb_spec d 0) as [->|D0]; simpl; auto. destruct (c_dead c d); auto.
  destruct R as [F1 F2].
  assert (F : forall w, led (drop_head (c_chan c) s d 0 w)).
  { intros w. unfold drop_head. destruct ((0 =? s) && (w =? d)); auto. apply led_tail; auto. }
  destruct (wstep d body no_method plain_fn (c_work c d) m); split; auto.
  intros x. cbn [c_chan]. destruct (Nat.eqb_spec 0 d) as [<-|]; [tauto|]. apply F.
Qed.

Lemma fg_done c s : FG c -> FG (done workers c s).
Proof using. intros [F1 F2]. unfold done. destruct (c_done c s); split; auto. Qed.

Lemma fg_reply c s : FG c -> FG (reply c s).
Proof using.
  intros R. unfold reply. destruct (c_left c) as [|k]; auto. destruct (c_chan c s 0) as [|[]]; auto.
  destruct R as [F1 F2]. split; auto. intros w. cbn [c_chan]. unfold drop_head.
  destruct ((0 =? s) && (w =? 0)); auto. apply led_tail; auto.
Qed.

Lemma run_fg mgr ops : valid workers (c_prog (crun mgr ops)) -> tidy (c_prog (crun mgr ops)) ->
  returns_enough body (c_prog (crun mgr ops)) -> FG (crun mgr ops).
Proof using body_ok no_root no_dup.
  induction ops as [|o ops IH] using rev_ind; intros V T R.
  - split; intros w; [apply led_none; simpl; tauto | constructor].
  - destruct (run_sim workers body body_ok no_root no_dup mgr _ V T R) as (g' & S').
    assert (Ne := sim_noerr workers body _ _ S'). clear g' S'.
    assert (V0 := valid_before workers body mgr ops o V). rewrite crun_snoc in *.
    destruct (prog_grows workers body (crun mgr ops) o) as (l & G).
    assert (T0 : tidy (c_prog (crun mgr ops))) by (rewrite G in T; eapply tidy_prefix; eauto).
    assert (R0 : returns_enough body (c_prog (crun mgr ops))) by (rewrite G in R; eapply enough_prefix; eauto).
    destruct (run_sim workers body body_ok no_root no_dup mgr _ V0 T0 R0) as (g & S).
    assert (Rt := IH V0 T0 R0). clear IH G l. set (c := crun mgr ops) in *. clearbody c.
    destruct o as [r|s d|s|s]; cbn [ClusterModel.cstep] in *.
    + destruct (c_left c) eqn:Lf; auto. rewrite root_prog in V, T. eapply fg_root; eauto.
    + apply fg_take; auto.
    + apply fg_reply; auto.
    + apply fg_done; auto.
Qed.

(** ** What has been cleaned up was computed, and nobody asks for it any more *)
Lemma dead_stored c g w d : Sim c g -> made (c_prog g) w d -> In d (dead c) -> store (c_work g w) d <> None.
Proof using body_ok no_root.
  intros S M D. destruct (s_proper _ _ _ _ S) as [V R B L Ln Rk]. assert (St := ln_stream _ _ Ln).
  assert (N : w <> 0) by (intros ->; apply no_root; eapply made_worker; eauto).
  destruct M as (q & Iq & Dq).
  destruct (facts workers body body_ok g V B w N) as (_ & _ & Ei & _).
  assert (X : In q (requests (sends_to w (c_out g)))).
  { rewrite (lr_reqs _ _ L). apply in_map_iff. exists (w, q). split; auto. apply filter_In. simpl.
    rewrite Nat.eqb_refl. split; auto. apply in_submitted; auto. }
  change (sends_to w (c_out g)) with (stream g 0 w) in X. rewrite <- (proj1 St) in X.
  rewrite requests_app in X. apply in_app_or in X as [X|X].
  2:{ exfalso. unfold requests in X. apply in_flat_map in X as (m & Im & Xm).
      assert (Lm := in_stream g St 0 w m (or_intror Im)). unfold stream in Lm. simpl in Lm.
      apply in_sends in Lm. apply (lr_msgs _ _ L) in Lm.
      destruct m; simpl in Xm, Lm; try tauto. destruct Xm as [->|[]]. clear Lm.
      rewrite (s_chan _ _ _ _ S) in Im. apply filter_In in Im as [Im _].
      destruct (s_exec _ _ _ _ S w q Im) as (_ & _ & A). eapply A; eauto. }
  assert (Rq : In q (received (log (c_work g w)))).
  { rewrite received_inputs, Ei. rewrite requests_from; auto. intros s m Im.
    apply not_request with (c := g) (w := w). apply (in_stream g St); auto. }
  apply (ended_stored workers body body_ok g V R B L St w q d N Rq); auto.
  destruct (worker_counts workers body body_ok g w B V N) as (_ & Pm & _).
  assert (Iq' : In (q_id q) (map q_id (requests (map snd (c_in g w))))).
  { apply in_map. rewrite <- Ei, <- received_inputs. auto. }
  apply (Permutation_in _ Pm) in Iq'. apply in_app_or in Iq' as [Iq'|Iq']; auto. exfalso.
  apply in_map_iff in Iq' as (q' & Id & Q'). apply in_app_or in Q'.
  destruct (inbox_ok workers body body_ok (c_prog g) _ V (box_ok body g B w)) as (Nr & _ & _).
  destruct (pending_kept w body no_method plain_fn body_ok no_method_ok _ _ Nr (cb_run _ _ B w N) q' Q') as (q0 & Q0 & E0 & _ & Eo & _).
  assert (q0 = q) by (apply (same_id workers body body_ok g V B L St w); auto; congruence). subst q0.
  rewrite (rw_apend' _ _ _ _ _ (s_rw _ _ _ _ S w N)) in Q'. destruct Q' as [Q'|[]].
  assert (F := s_pend _ _ _ _ S w N). rewrite Forall_forall in F. destruct (F q' Q') as (_ & _ & A).
  apply (A d); auto. rewrite Eo. auto.
Qed.

Lemma dead_reqs c g w d : Sim c g -> w <> 0 -> In d (dead c) -> ~ In d (reqs (c_work g w)).
Proof using body_ok.
  intros S N D I. destruct (s_proper _ _ _ _ S) as [V R B L Ln Rk]. assert (St := ln_stream _ _ Ln).
  destruct (facts workers body body_ok g V B w N) as (W & Sv & _ & Ai & _).
  assert (O := I). apply (ai_reqs _ _ Ai) in O.
  assert (Nc : forall ds, ~ In (EvIn (WClean ds)) (log (c_work g w))).
  { intros ds. apply (no_clean workers body body_ok g V B L St w ds N). }
  assert (Np := waiting w _ d (ai_gets _ _ Ai) Nc O).
  destruct (outstanding_in _ _ O) as (o & G).
  destruct (get_made workers body body_ok g V B L St w d o N G) as [M Now].
  destruct (store (c_work g w) d) as [x|] eqn:Sx.
  - apply (sv_store _ Sv) in Sx as [Sx|Sx]; [eapply Np; eauto|].
    apply (store_made workers body body_ok c g) in Sx; auto. apply Now. eapply made_unique; eauto. apply V.
  - destruct (wanted_by workers body body_ok c g w d S N I Sx) as (q & Q & Dq).
    assert (F := s_pend _ _ _ _ S w N). rewrite Forall_forall in F. destruct (F q Q) as (F1 & _). eapply F1; eauto.
Qed.

Lemma quiet_get c g s w r d b : Sim c g -> RT c -> FG c -> one_source (c_prog c) -> In d (dead c) ->
  ~ In (WGet r d b) (c_chan c s w).
Proof using body_ok no_root no_dup.
  intros S Rt Fg One Dd I. destruct (s_proper _ _ _ _ S) as [V R B L Ln Rk]. assert (St := ln_stream _ _ Ln).
  assert (Nf := v_fresh _ _ V).
  assert (Ig : In (WGet r d b) (c_chan g s w)) by (rewrite (s_chan _ _ _ _ S); apply filter_In; auto).
  assert (Is := in_stream g St s w (WGet r d b) (or_intror Ig)).
  destruct (asked_made workers body body_ok g V B L St s w r d b Is) as [M ->].
  (* a second request of the same kind *)
  assert (Twice : forall b', In (s, WGet s d b') (c_in g w) -> False).
  { intros b' J. assert (Nd : NoDup (asks_in (stream g s w))).
    { unfold stream. destruct (Nat.eqb_spec s 0) as [->|Ns].
      - rewrite (s_out _ _ _ _ S), asks_keep. apply Fg.
      - destruct (facts workers body body_ok g V B s Ns) as (_ & _ & _ & Ai & _). apply asks_nodup.
        + apply Ai.
        + intros ds. apply (no_clean workers body body_ok g V B L St s ds Ns). }
    assert (Nl : NoDup (asks_in (sends_to s (c_in g w) ++ c_chan g s w))).
    { eapply lossy_asks; [apply (proj2 St s w) | exact Nd]. }
    rewrite asks_app in Nl. eapply nodup_sep; [exact Nl| |]; apply in_asks_in; [|eauto].
    exists s, b'. apply in_sends; auto. }
  apply stream_cases in Is as [[-> Is]|[Ns [(? & ? & ? & X & _)|(y & X & G)]]]; try discriminate.
  - apply (lr_asked _ _ L) in Is as [(s' & v' & M' & C)|(Lf & Ic & _)].
    + assert (s' = w) by (eapply made_unique; eauto). subst s'.
      assert (Nw : w <> 0) by (intros ->; apply no_root; eapply made_worker; eauto).
      assert (Y := in_stream g St w 0 (WPut d v') (or_introl C)).
      apply stream_cases in Y as [[Y _]|[_ [(d' & v2 & b' & Y & P)|(? & Y & _)]]]; try discriminate; [tauto|].
      injection Y as <- <-. destruct (answer_made workers body body_ok g V B L St w 0 d v' b' Nw P) as (_ & _ & b2 & A).
      eapply Twice; eauto.
    + rewrite (s_left _ _ _ _ S) in Lf. rewrite (s_ids _ _ _ _ S) in Ic. apply (s_get _ _ _ _ S d Lf Ic Dd).
  - injection X as <- _.
    destruct (get_made workers body body_ok g V B L St s d w Ns G) as [_ Nws].
    destruct (facts workers body body_ok g V B s Ns) as (W & Sv & _ & Ai & _).
    destruct (get_since _ _ _ G) as [O|(v' & J)].
    { apply (ai_reqs _ _ Ai) in O. eapply dead_reqs; eauto. }
    apply (taken workers body body_ok g V B) in J as (s' & J); auto.
    assert (Js := in_stream g St s' s (WPut d v') (or_introl J)).
    apply stream_cases in Js as [[-> Js]|[Ns' [(x & y & b2 & X & P')|(? & X & _)]]]; try discriminate.
    + apply in_split in G as (l1 & l2 & El). destruct (ai_gets _ _ Ai _ _ _ _ El) as (_ & To & _ & _).
      apply told_in in To.
      assert (To' : In (EvIn (WOwner d w)) (log (c_work g s))) by (rewrite El; apply in_or_app; auto).
      apply (taken workers body body_ok g V B) in To' as (s2 & To'); auto.
      assert (Ts := in_stream g St s2 s (WOwner d w) (or_introl To')).
      apply stream_cases in Ts as [[-> Ts]|[_ [(? & ? & ? & X & _)|(? & X & _)]]]; try discriminate.
      destruct (rt_both _ Rt s d w v' (out_same _ _ _ _ _ _ S Ts) (out_same _ _ _ _ _ _ S Js)) as (a & q1 & b1 & ds & e & q2 & f & E & M1 & Ds & M2).
      destruct M as (q & Iq & Dq). rewrite (s_prog _ _ _ _ S) in Iq. apply filter_In in Iq as [Iq _].
      assert (Vc := s_valid _ _ _ _ S).
      assert (Np : ~ In d (puts (c_prog c))).
      { apply (made_not_put _ w); [apply Vc | exists q; auto]. }
      assert (Qr : forall x w' q' y, c_prog c = x ++ RSubmit w' q' :: y -> In d (mentions (RSubmit w' q')) -> In d (qrefs q')).
      { intros x w' q' y E' M'. destruct (v_sub _ _ Vc x w' q' y E') as (_ & (fd & Fd & Fp) & _). simpl in M'. rewrite Fd in M'.
        destruct M' as [->|M']; auto. exfalso. apply Np. rewrite E', puts_app. apply in_or_app; auto. }
      apply (One a s q1 b1 ds e q2 f w q d E Iq Dq Nws); auto.
      * eapply Qr; eauto.
      * eapply (Qr (a ++ RSubmit s q1 :: b1 ++ RGet ds :: e)); [|exact M2]. rewrite E, <- app_assoc. simpl. rewrite <- app_assoc. reflexivity.
    + injection X as <- <-. destruct (answer_made workers body body_ok g V B L St s' s d v' b2 Ns' P') as (M' & _ & b3 & A).
      assert (s' = w) by (eapply made_unique; eauto). subst s'. eapply Twice; eauto.
Qed.

(** ** What the workers keep *)
Lemma told_inputs l d : told_owner l d = told_owner (map EvIn (inputs l)) d.
Proof using.
  induction l as [|e l IH] using rev_ind; auto. rewrite inputs_app, map_app, !told_app, <- IH.
  destruct e; reflexivity.
Qed.

Record KG (c : cst) (w : rank) : Prop := {
  kg_sent : forall p, In p (sent (c_work c w)) -> store (c_work c w) (fst p) <> None;
  kg_owner : forall d, In d (forgot c w) -> owner (c_work c w) d = None;
  kg_gets : forall d r, one_source (c_prog c) -> In d (forgot c w) -> ~ In (d, r) (gets (c_work c w)) /\ ~ In (d, r) (bgets (c_work c w))
}.

Lemma kg_same c c' w : KG c w -> c_work c' w = c_work c w -> c_in c' w = c_in c w ->
  (one_source (c_prog c') -> one_source (c_prog c)) -> KG c' w.
Proof using.
  intros [A B C] W I O. assert (F : forgot c' w = forgot c w) by (unfold forgot; rewrite I; auto).
  split; rewrite ?W, ?F; auto.
Qed.

Lemma kg_take c g c' g' s w : c' = take body c s w -> Sim c g -> RT c -> FG c -> CB body c ->
  Sim c' g' -> CB body c' -> (forall x, x <> 0 -> KG c x) -> forall x, x <> 0 -> KG c' x.
Proof using body_ok no_root no_dup.
  intros Ec S Rt Fg Bc S' Bc' H x Nx. unfold take in Ec. destruct (c_chan c s w) as [|m l] eqn:Ch in Ec; [subst; auto|].
  destruct (Nat.eq_dec w 0) as [->|Nw]; [subst; auto|]. rewrite (proj2 (Nat.eqb_neq w 0) Nw), (s_alive _ _ _ _ S) in Ec.
  cbn [orb] in Ec.
  destruct (wstep w body no_method plain_fn (c_work c w) m) as [w'|] eqn:Ws in Ec.
  2:{ subst c'. apply (kg_same c); auto. }
  destruct (Nat.eq_dec x w) as [->|Nxw].
  2:{ apply (kg_same c); auto; rewrite Ec; cbn [c_work c_in c_prog]; auto; destruct (Nat.eqb_spec x w); tauto. }
  assert (Ew : c_work c' w = w') by (rewrite Ec; cbn [c_work]; rewrite Nat.eqb_refl; auto).
  assert (Ei : c_in c' w = c_in c w ++ [(s, m)]) by (rewrite Ec; cbn [c_in]; rewrite Nat.eqb_refl; auto).
  assert (Ep : c_prog c' = c_prog c) by (rewrite Ec; auto). clear Ec.
  destruct (facts workers body body_ok c (s_valid _ _ _ _ S) Bc w Nw) as (Wc & _ & Ic & Ac & _).
  destruct (facts workers body body_ok c' (s_valid _ _ _ _ S') Bc' w Nw) as (_ & _ & Ic' & Ac' & _).
  assert (Nr : forall d v, m = WPut d v -> refs v = []).
  { intros a v ->. apply (seq_clean workers body body_ok (c_prog c) a v (s_valid _ _ _ _ S)).
    apply (cb_chan _ _ Bc s w (WPut a v)). rewrite Ch. simpl; auto. }
  assert (Rd : ready (c_work c w) = false).
  { rewrite (rw_ready _ _ _ _ _ (s_rw _ _ _ _ S w Nw)). eapply sim_ready; eauto. }
  assert (Rs := rec_step w body no_method plain_fn body_ok no_method_ok _ _ _ Wc Nr Rd Ws).
  destruct (H w Nw) as [K1 K2 K3]. clear H.
  assert (Im : In m (c_chan c s w)) by (rewrite Ch; simpl; auto).
  assert (Fo : forall d, In d (forgot c' w) -> In d (forgot c w) \/ exists ds, m = WClean ds /\ In d ds).
  { intros d D. unfold forgot in D. rewrite Ei, map_app, cleans_app in D. apply in_app_or in D as [D|D]; auto.
    right. simpl in D. destruct m; try destruct D. simpl in D. rewrite app_nil_r in D. eauto. }
  split; rewrite ?Ew.
  - intros p P. destruct m; try (apply (rc_sent _ _ Rs) in P as [P|P]; auto; apply (rc_store _ _ Rs); auto; fail).
    + destruct Rs as (R1 & R2 & _). apply R1 in P as [P|P]; auto. rewrite R2. auto.
    + destruct Rs as (R1 & R2 & _). rewrite R2 in P. apply filter_In in P as [P Np]. rewrite R1.
      unfold forget. simpl. destruct (did_in (fst p) ds); [discriminate|]. auto.
  - intros d D. rewrite <- Ew, (ai_owner _ _ Ac'), told_inputs, Ic', Ei, map_app, map_app, told_app. simpl.
    rewrite <- Ic, <- told_inputs, <- (ai_owner _ _ Ac).
    apply Fo in D as [D|(ds & -> & D)]; [|apply did_in_In in D; rewrite D; auto].
    destruct m; auto.
    + destruct (did_eqb d0 d) eqn:E; auto. exfalso. apply did_eqb_eq in E as ->.
      assert (s = 0).
      { destruct (Nat.eq_dec s 0) as [|Ns]; auto. exfalso. destruct (s_proper _ _ _ _ S) as [V R B L Ln Rk].
        assert (Is := in_stream g (ln_stream _ _ Ln) s w (WOwner d r)). apply stream_cases in Is.
        - destruct Is as [[Y _]|[_ [(? & ? & ? & Y & _)|(? & Y & _)]]]; [tauto|discriminate|discriminate].
        - right. rewrite (s_chan _ _ _ _ S). apply filter_In. auto. }
      subst s. apply in_split in Im as (a & b & E). destruct (fg_led _ Fg w a d r b E) as (q & Q & M).
      destruct (s_exec _ _ _ _ S w q) as (A1 & A2 & _); [rewrite E; apply in_or_app; simpl; auto|].
      assert (Dd : In d (dead c)) by (apply (s_known _ _ _ _ S w); auto).
      simpl in M. apply in_app_or in M as [M|M]; [|eapply A1; eauto].
      destruct (q_fn q) eqn:Fq; simpl in M; try tauto. destruct M as [->|[]]. eapply A2; eauto.
    + destruct (did_in d ds); auto.
  - intros d r One D. rewrite Ep in One. apply Fo in D as [D|(ds & -> & D)].
    + destruct (K3 d r One D) as [G1 G2].
      destruct m; try (split; intros I; [apply (rc_gets _ _ Rs) in I | apply (rc_bgets _ _ Rs) in I]; tauto).
      * destruct Rs as (_ & _ & R3 & R4).
        assert (Nd : d0 <> d).
        { intros ->. apply (quiet_get c g s w src d blocking S Rt Fg One); auto. apply (s_known _ _ _ _ S w); auto. }
        split; intros I; [apply R3 in I as [I|I]|apply R4 in I as [I|I]]; auto; congruence.
      * destruct Rs as (_ & _ & -> & ->). auto.
    + destruct Rs as (_ & _ & -> & ->).
      assert (Dd : In d (dead c)) by (destruct (s_clean _ _ _ _ S s w ds Im) as (_ & _ & X); auto).
      destruct (in_dec did_dec d (forgot c w)) as [F|F]; [apply K3; auto|].
      destruct (s_proper _ _ _ _ S) as [V R B L Ln Rk].
      assert (G := box_gi workers body body_ok g V R B L (ln_stream _ _ Ln) (ln_back _ _ Ln) w Nw).
      assert (Rw := s_rw _ _ _ _ S w Nw).
      assert (X : ~ (In (d, r) (gets (c_work g w)) \/ In (d, r) (bgets (c_work g w)))).
      { intros X. apply (gi_pending _ _ _ G) in X as (_ & M & [Z|[]]). simpl in M, Z. apply (dead_stored c g w d S M Dd Z). }
      split; intros I; apply X; [left|right]; apply in_ranks; apply in_ranks in I.
      * rewrite <- (rw_gets _ _ _ _ _ Rw d F). auto.
      * rewrite <- (rw_bgets _ _ _ _ _ Rw d F). auto.
Qed.

Lemma run_kg mgr ops : valid workers (c_prog (crun mgr ops)) -> tidy (c_prog (crun mgr ops)) ->
  returns_enough body (c_prog (crun mgr ops)) -> forall w, w <> 0 -> KG (crun mgr ops) w.
Proof using body_ok no_root no_dup.
  induction ops as [|o ops IH] using rev_ind; intros V T R.
  - intros w _. split; simpl; tauto.
  - assert (V0 := valid_before workers body mgr ops o V).
    destruct (run_sim workers body body_ok no_root no_dup mgr _ V T R) as (g' & S').
    assert (B' := run_cb workers body body_ok mgr _ V). rewrite crun_snoc in *.
    destruct (prog_grows workers body (crun mgr ops) o) as (l & G).
    assert (T0 : tidy (c_prog (crun mgr ops))) by (rewrite G in T; eapply tidy_prefix; eauto).
    assert (R0 : returns_enough body (c_prog (crun mgr ops))) by (rewrite G in R; eapply enough_prefix; eauto).
    assert (O0 : one_source (c_prog (ClusterModel.cstep workers body (crun mgr ops) o)) -> one_source (c_prog (crun mgr ops))).
    { rewrite G. intros One. eapply one_prefix; eauto. }
    assert (B := run_cb workers body body_ok mgr ops V0).
    destruct (run_sim workers body body_ok no_root no_dup mgr _ V0 T0 R0) as (g & S).
    assert (Rt := run_rt workers body body_ok no_root no_dup mgr ops V0 T0 R0).
    assert (Fg := run_fg mgr ops V0 T0 R0).
    specialize (IH V0 T0 R0). clear G l. set (c := crun mgr ops) in *. clearbody c.
    destruct o as [r|s w|s|s]; cbn [ClusterModel.cstep] in *.
    + destruct (c_left c) eqn:Lf; auto. intros w N. apply (kg_same c); auto; destruct r; cbn [root_step]; cbv zeta; auto.
      * destruct (filter _ _); auto. destruct (owners _ _); auto.
      * destruct (_ =? _); auto.
      * destruct (filter _ _); auto. destruct (owners _ _); auto.
      * destruct (_ =? _); auto.
    + eapply kg_take; eauto.
    + intros w N. apply (kg_same c); auto; unfold reply; destruct (c_left c); auto; destruct (c_chan c s 0) as [|[]]; auto;
        cbn [c_work c_in]; auto. destruct (Nat.eqb_spec w 0); tauto.
    + intros w N. apply (kg_same c); auto; unfold done; destruct (c_done c s); auto.
Qed.

Lemma in_forgot c src ds d w : In (src, WClean ds) (c_in c w) -> In d ds -> In d (forgot c w).
Proof using.
  intros I D. unfold forgot, cleans. apply in_flat_map. exists (WClean ds). split; auto.
  apply in_map_iff. exists (src, WClean ds). auto.
Qed.

(** C91. *)
Lemma worker_keeps_nothing mgr ops : let c := crun mgr ops in valid workers (c_prog c) -> tidy (c_prog c) ->
  returns_enough body (c_prog c) -> one_source (c_prog c) ->
  forall src ds d w, In (src, WClean ds) (c_in c w) -> In d ds -> w <> 0 ->
  store (c_work c w) d = None /\ owner (c_work c w) d = None /\ ~ In d (reqs (c_work c w)) /\
  forall r, ~ In (d, r) (sent (c_work c w)) /\ ~ In (d, r) (gets (c_work c w)) /\ ~ In (d, r) (bgets (c_work c w)).
Proof using body_ok no_root no_dup.
  cbv zeta. intros V T R One src ds d w I D N. assert (Ng := run_ng workers body body_ok no_root no_dup mgr ops V T R One).
  assert (F := in_forgot _ _ _ _ _ I D). destruct (run_kg mgr ops V T R w N) as [K1 K2 K3].
  destruct (run_sim workers body body_ok no_root no_dup mgr ops V T R) as (g & S).
  assert (St := Ng w d N F). split; auto. split; auto. split.
  - rewrite (rw_reqs _ _ _ _ _ (s_rw _ _ _ _ S w N)). apply (dead_reqs _ _ _ _ S N). apply (s_known _ _ _ _ S w); auto.
  - intros r. split; [|apply K3; auto]. intros X. apply K1 in X. auto.
Qed.

(** Where an object is, and that it is wanted, is forgotten whatever was fetched before. *)
Lemma worker_forgets_where mgr ops : let c := crun mgr ops in valid workers (c_prog c) -> tidy (c_prog c) ->
  returns_enough body (c_prog c) ->
  forall src ds d w, In (src, WClean ds) (c_in c w) -> In d ds -> w <> 0 ->
  owner (c_work c w) d = None /\ ~ In d (reqs (c_work c w)).
Proof using body_ok no_root no_dup.
  cbv zeta. intros V T R src ds d w I D N.
  assert (F := in_forgot _ _ _ _ _ I D). destruct (run_kg mgr ops V T R w N) as [K1 K2 K3].
  destruct (run_sim workers body body_ok no_root no_dup mgr ops V T R) as (g & S). split; auto.
  rewrite (rw_reqs _ _ _ _ _ (s_rw _ _ _ _ S w N)). apply (dead_reqs _ _ _ _ S N). apply (s_known _ _ _ _ S w); auto.
Qed.

(** ** What the root keeps *)
Lemma some_sent dest ds : forall p, p_store (fst (push_some p dest ds)) = p_store p /\
  p_owner (fst (push_some p dest ds)) = p_owner p /\
  forall x, In x (p_sent (fst (push_some p dest ds))) -> In x (p_sent p) \/ In (fst x) ds.
Proof using.
  induction ds as [|d ds IH]; intros p; simpl; auto. unfold push_ref.
  destruct (did_in d (p_store p)).
  - destruct (IH (push_value p dest d)) as (A & B & C). rewrite A, B. unfold push_value in *.
    destruct (is_sent (p_sent p) d dest); simpl in *; split; auto; split; auto; intros x X; apply C in X as [X|X]; auto.
    apply in_app_or in X as [X|[<-|[]]]; auto.
  - destruct (p_owner p d) as [o|]; simpl; auto. destruct (IH (push_owner p dest d o)) as (A & B & C). rewrite A, B. simpl in *.
    split; auto. split; auto. intros x X. apply C in X as [X|X]; auto.
Qed.

Lemma owners_other dest d l : ~ In d l -> forall m : dataid -> option rank, fold_left (fun m d => dput m d dest) l m d = m d.
Proof using.
  induction l as [|x l IH]; intros N m; auto. simpl in *. rewrite IH by tauto. apply dput_other. intros ->. tauto.
Qed.

Definition unknown (p : pst) (d : dataid) : Prop := ~ In d (p_store p) /\ p_owner p d = None /\ forall r, ~ In (d, r) (p_sent p).

Lemma submit_unknown p dest q d : unknown p d -> ~ In d (mentions (RSubmit dest q)) -> ~ In d (out_ids (q_out q)) ->
  unknown (pstep p (PSubmit dest (q_id q) (out_ids (q_out q)) (fn_val (q_fn q)) (q_args q) (q_kwargs q))) d.
Proof using.
  intros (U1 & U2 & U3) M O. rewrite mentions_refs in M. cbn [pstep]. rewrite submit_refs. fold (with_outputs p dest (out_ids (q_out q))).
  set (ds := refs (fn_val (q_fn q)) ++ refs (q_args q) ++ refs (q_kwargs q)) in *.
  destruct (some_sent dest ds (with_outputs p dest (out_ids (q_out q)))) as (A & B & C). unfold ok_of.
  assert (X : unknown (fst (push_some (with_outputs p dest (out_ids (q_out q))) dest ds)) d).
  { split; [|split].
    - rewrite A. exact U1.
    - rewrite B. cbn [with_outputs p_owner]. rewrite owners_other; auto.
    - intros r I. apply C in I as [I|I]; [eapply U3; eauto|auto]. }
  destruct (push_some (with_outputs p dest (out_ids (q_out q))) dest ds) as [p1 []]; exact X.
Qed.

Lemma forget_unknown p d : unknown (pstep p (PForget d)) d.
Proof using.
  cbn [pstep]. split; [|split]; cbn [p_store p_owner p_sent].
  - intros I. apply filter_In in I as [_ I]. rewrite did_eqb_refl in I. discriminate.
  - apply ddel_same.
  - intros r I. apply filter_In in I as [_ I]. simpl in I. rewrite did_eqb_refl in I. discriminate.
Qed.

Lemma root_knows_nothing mgr ops : valid workers (c_prog (crun mgr ops)) -> tidy (c_prog (crun mgr ops)) ->
  returns_enough body (c_prog (crun mgr ops)) ->
  forall a d b, c_prog (crun mgr ops) = a ++ RDrop d :: b -> In d (introduced a) -> unknown (c_push (crun mgr ops)) d.
Proof using body_ok no_root no_dup.
  induction ops as [|o ops IH] using rev_ind; intros V T R a d b E In0.
  - destruct a; discriminate.
  - assert (V0 := valid_before workers body mgr ops o V). rewrite crun_snoc in *.
    destruct (prog_grows workers body (crun mgr ops) o) as (l & G).
    assert (T0 : tidy (c_prog (crun mgr ops))) by (rewrite G in T; eapply tidy_prefix; eauto).
    assert (R0 : returns_enough body (c_prog (crun mgr ops))) by (rewrite G in R; eapply enough_prefix; eauto).
    destruct (run_sim workers body body_ok no_root no_dup mgr ops V0 T0 R0) as (g & S). specialize (IH V0 T0 R0).
    set (c := crun mgr ops) in *. clearbody c. clear G l.
    destruct o as [r|s w|s|s]; cbn [ClusterModel.cstep] in *.
    + destruct (c_left c) eqn:Lf; [|eapply IH; eauto]. rewrite root_prog in V, T, E.
      assert (Old : (exists b', c_prog c = a ++ RDrop d :: b') \/ (r = RDrop d /\ a = c_prog c)).
      { symmetry in E. apply app_split in E as [(t & E & _)|(t & -> & E)]; [left; eauto|].
        destruct t as [|x t]; simpl in E; [|destruct t; discriminate]. right. rewrite app_nil_r. split; congruence. }
      destruct Old as [(b' & Eo)|[-> ->]]; [|cbn [root_step root_to c_push]; apply forget_unknown].
      assert (Nc : ~ In d (created r)).
      { intros I. assert (N := v_fresh _ _ V). rewrite introduced_app in N. apply (nodup_sep _ _ d N).
        - rewrite Eo, introduced_app. apply in_or_app. auto.
        - simpl. rewrite app_nil_r. auto. }
      assert (Nm : ~ In d (mentions r)).
      { apply (t_drop _ T a d (b' ++ [r]) r); [rewrite Eo, <- app_assoc; auto|]. apply in_or_app; simpl; auto. }
      assert (U := IH a d b' Eo In0). clear - Nc Nm U. destruct r; cbn [root_step]; cbv zeta.
      * destruct U as (U1 & U2 & U3). cbn [root_to c_push pstep]. split; [|split]; cbn [p_store p_owner p_sent]; auto.
        -- intros [<-|I]; auto. apply Nc. simpl; auto.
        -- rewrite dput_other; auto. intros <-. apply Nc. simpl; auto.
      * cbn [root_to c_push]. apply submit_unknown; auto.
      * destruct (filter _ _); auto. destruct (owners _ _); auto.
      * destruct (did_dec d0 d) as [->|N]; [cbn [root_to c_push]; apply forget_unknown|].
        destruct U as (U1 & U2 & U3). cbn [root_to c_push pstep]. split; [|split]; cbn [p_store p_owner p_sent].
        -- intros I. apply filter_In in I as [I _]. auto.
        -- rewrite ddel_other; auto.
        -- intros r I. apply filter_In in I as [I _]. eapply U3; eauto.
      * destruct (_ =? _); auto.
    + assert (Ep : c_prog (take body c s w) = c_prog c /\ c_push (take body c s w) = c_push c).
      { unfold take. destruct (c_chan c s w); auto. destruct (_ || _); auto. destruct (wstep _ _ _ _ _ _); auto. }
      destruct Ep as [Ep Ev]. rewrite Ep in E. rewrite Ev. eapply IH; eauto.
    + assert (S' := sim_reply workers body body_ok no_root c g s S). assert (Ne := sim_noerr _ _ _ _ S').
      revert E Ne. unfold reply. destruct (c_left c) eqn:Lf; [intros; eapply IH; eauto|].
      destruct (c_chan c s 0) as [|[]]; try (intros; eapply IH; eauto; fail). cbn [c_prog c_push c_seen]. intros E Ne.
      assert (Id : did_in d0 (c_ids c) = true).
      { destruct (did_in d0 (c_ids c)); auto. exfalso. apply Ne. apply in_or_app. simpl. auto. }
      apply did_in_In in Id. assert (Lg : c_left g <> 0) by (rewrite (s_left _ _ _ _ S), Lf; discriminate).
      destruct (lr_ids _ _ (pr_lr _ _ _ (s_proper _ _ _ _ S)) Lg) as [_ X]. rewrite (s_ids _ _ _ _ S), (s_prog _ _ _ _ S) in X.
      destruct (X d0 Id) as [Nd _]. destruct (IH a d b E In0) as (U1 & U2 & U3). split; [|split]; cbn [pstep p_store p_owner p_sent]; auto.
      intros [->|I]; auto. apply Nd. apply filter_In. split; auto. rewrite E. apply in_or_app. simpl. auto.
    + assert (Ep : c_prog (done workers c s) = c_prog c /\ c_push (done workers c s) = c_push c).
      { unfold done. destruct (c_done c s); auto. }
      destruct Ep as [Ep Ev]. rewrite Ep in E. rewrite Ev. eapply IH; eauto.
Qed.

(** ** What the monitor keeps *)
Lemma mon_keeps s src ds s' : mon_step (mon_cfg workers) s (MDone src ds) = Some s' -> mstopped s = false ->
  mcompleted s' = ds ++ mcompleted s.
Proof using.
  intros H N. unfold mon_step in H. rewrite N in H. apply Some_inj in H as <-.
  assert (Sc : forall fuel i s, mcompleted (scan fuel i s) = mcompleted s).
  { clear. induction fuel; intros i s; simpl; auto. destruct (nth_error _ _); auto.
    destruct (did_in _ _); [destruct (Z.eqb _ _)|]; rewrite IHfuel; auto. }
  unfold process_waits. rewrite Sc. reflexivity.
Qed.

Definition heard (c : cst) : Prop := forall w ds, In ds (reports (log (c_work c w))) ->
  In ds (c_done c w) \/ incl ds (mcompleted (c_mon c)).

Lemma heard_run mgr ops : valid workers (c_prog (crun mgr ops)) -> heard (crun mgr ops).
Proof using body_ok no_dup.
  induction ops as [|o ops IH] using rev_ind; intros V.
  - intros w ds [].
  - assert (V0 := valid_before workers body mgr ops o V). rewrite crun_snoc in *. specialize (IH V0).
    assert (B := run_cb workers body body_ok mgr ops V0). assert (K := run_ck workers body body_ok no_dup mgr ops V0).
    set (c := crun mgr ops) in *. clearbody c.
    destruct o as [r|s w|s|s]; cbn [ClusterModel.cstep] in *.
    + destruct (c_left c); auto. destruct r; cbn [root_step]; cbv zeta; auto.
      * destruct (filter _ _); auto. destruct (owners _ _); auto.
      * destruct (_ =? _); auto.
    + unfold take. destruct (c_chan c s w) as [|m l] eqn:Ch; auto. destruct (w =? 0) eqn:W0; simpl; auto. apply Nat.eqb_neq in W0.
      destruct (c_dead c w); auto.
      destruct (wstep w body no_method plain_fn (c_work c w) m) as [w'|] eqn:Ws; auto.
      assert (Oi : forall x, In x (map snd (c_in c w)) -> okm body (c_prog c) x).
      { intros x X. apply in_map_iff in X as ([y z] & <- & X). eapply cb_in; eauto. }
      destruct (worker_agrees workers body body_ok _ _ _ _ V0 Oi (cb_run _ _ B w W0)) as (W & _ & _ & Rd & _).
      assert (Lg : log w' = log (c_work c w) ++ skipn (length (log (c_work c w))) (log w')).
      { apply (step_log body body_ok _ m w' w); auto. intros d v ->.
        apply (seq_clean workers body body_ok (c_prog c) d v V0). apply (cb_chan _ _ B s w (WPut d v)). rewrite Ch. simpl; auto. }
      set (new := skipn (length (log (c_work c w))) (log w')) in *. clearbody new.
      intros x ds. cbn [c_work c_done c_mon]. destruct (Nat.eqb_spec x w) as [->|]; [|apply IH].
      rewrite Lg, ClusterCount.reports_app, !in_app_iff. intros [I|I]; auto. apply IH in I as [I|I]; auto.
    + unfold reply. destruct (c_left c); auto. destruct (c_chan c s 0) as [|[]]; auto.
    + unfold done. destruct (c_done c s) as [|ds l] eqn:Dn; auto.
      destruct (count_step workers (c_mon c) s ds (ck_stop _ _ K)) as (m & Em & _). rewrite Em.
      assert (Mk := mon_keeps _ _ _ _ Em (ck_stop _ _ K)).
      intros x es. cbn [c_work c_done c_mon]. rewrite Mk. intros I. apply IH in I as [I|I]; [|right; apply incl_appr; auto].
      destruct (Nat.eqb_spec x s) as [->|]; auto. rewrite Dn in I. destruct I as [<-|I]; [right; apply incl_appl, incl_refl|].
      left. rewrite Dn. auto.
Qed.

Lemma monitor_keeps mgr ops ops' d : In d (mcompleted (c_mon (crun mgr ops))) -> In d (mcompleted (c_mon (crun mgr (ops ++ ops')))).
Proof using.
  intros I. induction ops' as [|o ops' IH] using rev_ind; [rewrite app_nil_r; auto|].
  rewrite app_assoc, crun_snoc. set (c := crun mgr (ops ++ ops')) in *. clearbody c.
  destruct o as [r|s w|s|s]; cbn [ClusterModel.cstep] in *.
  - destruct (c_left c); auto. destruct r; cbn [root_step]; cbv zeta; auto.
    + destruct (filter _ _); auto. destruct (owners _ _); auto.
    + destruct (_ =? _); auto.
  - unfold take. destruct (c_chan c s w); auto. destruct (_ || _); auto. destruct (wstep _ _ _ _ _ _); auto.
  - unfold reply. destruct (c_left c); auto. destruct (c_chan c s 0) as [|[]]; auto.
  - unfold done. destruct (c_done c s) as [|ds l]; auto. cbn [c_mon].
    destruct (mon_step (mon_cfg workers) (c_mon c) (MDone s ds)) as [m|] eqn:E; auto.
    destruct (mstopped (c_mon c)) eqn:St.
    + unfold mon_step in E. rewrite St in E. apply Some_inj in E as <-. auto.
    + rewrite (mon_keeps _ _ _ _ E St). apply in_or_app; auto.
Qed.
End Rec.
