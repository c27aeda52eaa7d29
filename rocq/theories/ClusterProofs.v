(** What every process holds agrees with the sequential meaning of the program. *)
From Verif Require Import Lib ValModel ShmModel PushModel WorkerModel WorkerSpec WorkerLog WorkerAnswer
  WorkerTrace WorkerOrder WorkerThms WorkerSends MonModel ClusterModel ClusterSpec ClusterSeq.

Section CP.
Variable workers : list rank.
Variable body : val -> val -> val -> result.
Hypothesis body_ok : forall f a k, no_refs_returned (body f a k).
Notation E := (sequential body).
Notation crun := (crun workers body).
Notation cstep := (cstep workers body).

Lemma no_method_ok h c : no_refs_returned (no_method h c).
Proof. clear. reflexivity. Qed.

(** A message that says nothing wrong. *)
Definition okm (prog : list rop) (m : wmsg) : Prop :=
  match m with
  | WPut d v => E prog d = Some v
  | WExec q => exists dest, In (RSubmit dest q) prog
  | WGet _ _ _ | WOwner _ _ | WClean _ => True
  | _ => False
  end.

Definition ok_sight (prog : list rop) (x : sight) : Prop :=
  match x with
  | RGot ds vs => Forall2 (fun d v => E prog d = Some v) ds vs
  | RRaised ds e => exists d, In d ds /\ E prog d = Some (VExc e)
  | _ => True
  end.

Record CB (c : cst) : Prop := {
  cb_run : forall w, w <> 0 -> wrun w body no_method plain_fn winit (map snd (c_in c w)) = Some (c_work c w);
  cb_in : forall r s m, In (s, m) (c_in c r) -> okm (c_prog c) m;
  cb_chan : forall s d m, In m (c_chan c s d) -> okm (c_prog c) m;
  cb_vals : forall d v, c_vals c d = Some v -> E (c_prog c) d = Some v;
  cb_ids : incl (c_ids c) (c_want c);
  cb_exc : c_left c <> 0 -> forall e, c_exc c = Some e -> exists d, In d (c_want c) /\ E (c_prog c) d = Some (VExc e);
  cb_seen : forall x, In x (c_seen c) -> ok_sight (c_prog c) x
}.

Lemma okm_mono a b m : NoDup (introduced (a ++ b)) -> okm a m -> okm (a ++ b) m.
Proof.
  intros N. destruct m; simpl; auto.
  - intros (x & X). exists x. apply in_or_app; auto.
  - intros H. apply seq_mono; auto.
Qed.

Lemma sight_mono a b x : NoDup (introduced (a ++ b)) -> ok_sight a x -> ok_sight (a ++ b) x.
Proof.
  intros N. destruct x; simpl; auto.
  - intros H. induction H; constructor; auto. apply seq_mono; auto.
  - intros (d & D & H). exists d. split; auto. apply seq_mono; auto.
Qed.

Lemma read_all st ds : forall vs, read_vals st ds = Some vs -> Forall2 (fun d v => st d = Some v) ds vs.
Proof.
  clear. induction ds as [|d ds IH]; simpl; intros vs H.
  - apply Some_inj in H as <-. constructor.
  - destruct (st d) eqn:Ed; [|discriminate]. destruct (read_vals st ds); [|discriminate].
    apply Some_inj in H as <-. constructor; auto.
Qed.

Lemma got_ok prog st ds x : (forall d v, st d = Some v -> E prog d = Some v) -> In x (got st ds) -> ok_sight prog x.
Proof.
  intros H. unfold got. destruct (read_vals st ds) as [vs|] eqn:R; simpl; intros [<-|[]]; simpl; auto.
  apply read_all in R. induction R; constructor; auto.
Qed.

Lemma in_sends d l m : In m (sends_to d l) <-> In (d, m) l.
Proof.
  clear. unfold sends_to. rewrite in_flat_map. split.
  - intros ([x y] & I & H). simpl in H. destruct (Nat.eqb_spec x d); simpl in H; [|tauto].
    destruct H as [<-|[]]. subst; auto.
  - intros I. exists (d, m). simpl. rewrite Nat.eqb_refl. simpl; auto.
Qed.

Lemma pushed_ok prog vals q l : (forall d v, vals d = Some v -> E prog d = Some v) ->
  (exists dest, In (RSubmit dest q) prog) -> forall d m, In (d, m) (pushed vals q l) -> okm prog m.
Proof.
  clear. intros V Q d m I. unfold pushed in I. apply in_flat_map in I as ([r x] & _ & I).
  apply in_map_iff in I as (y & H & I). apply pair_inj in H as [_ <-]. simpl in I.
  destruct x; simpl in I.
  - destruct (vals d0) eqn:F; [|destruct I]. destruct I as [<-|[]]. simpl; auto.
  - destruct I as [<-|[]]. exact Logic.I.
  - destruct I as [<-|[]]. auto.
Qed.

Lemma in_outgoing self l dst m : In m (outgoing self l dst) ->
  (exists d v b, m = WPut d v /\ In (EvPut dst d v b) l) \/ (exists d, m = WGet self d false /\ In (EvGet dst d) l).
Proof.
  clear. unfold outgoing. rewrite in_flat_map. intros (e & I & H). destruct e; simpl in H; try tauto.
  - destruct (Nat.eqb_spec dest dst); [|destruct H]. destruct H as [<-|[]]. subst. left. eauto 6.
  - destruct (Nat.eqb_spec dest dst); [|destruct H]. destruct H as [<-|[]]. subst. right. eauto.
Qed.

Lemma in_drop ch a b s d m : In m (drop_head ch a b s d) -> In m (ch s d).
Proof.
  clear. unfold drop_head. destruct (_ && _); auto. destruct (ch s d); simpl; auto.
Qed.

Lemma in_skipn {A} n (l : list A) x : In x (skipn n l) -> In x l.
Proof. clear. intros H. rewrite <- (firstn_skipn n l). apply in_or_app; auto. Qed.

Lemma root_to_cb c o p vals tasks seen out : CB c -> NoDup (introduced (c_prog c ++ [o])) ->
  (forall d v, vals d = Some v -> E (c_prog c ++ [o]) d = Some v) ->
  (forall x, In x seen -> ok_sight (c_prog c ++ [o]) x) ->
  (forall d m, In (d, m) out -> okm (c_prog c ++ [o]) m) ->
  CB (root_to c o p vals tasks seen out).
Proof.
  intros [B1 B2 B3 B4 B5 B6 B7] N V Sn O. split; simpl; auto.
  - intros r s m I. apply okm_mono; eauto.
  - intros s d m I. destruct (s =? 0); [apply in_app_or in I as [I|I]|].
    + apply okm_mono; eauto.
    + apply in_sends in I. eauto.
    + apply okm_mono; eauto.
  - intros L e X. destruct (B6 L e X) as (d & D & H). exists d. split; auto. apply seq_mono; auto.
  - intros x I. apply in_app_or in I as [I|I]; auto. apply sight_mono; auto.
Qed.

Lemma set_get_cb c want ids k : CB c -> incl ids want -> CB (set_get c want ids k None).
Proof. intros [B1 B2 B3 B4 B5 B6 B7] I. split; simpl; auto. discriminate. Qed.

Lemma root_cb c o : CB c -> valid workers (c_prog c ++ [o]) -> CB (root_step workers c o).
Proof.
  intros B V. assert (N := v_fresh _ _ V).
  assert (Vs : forall d v, c_vals c d = Some v -> E (c_prog c ++ [o]) d = Some v).
  { intros d v H. apply seq_mono; auto. apply B; auto. }
  destruct o; cbn [root_step]; cbv zeta.
  - apply root_to_cb; auto; try (simpl; tauto).
    intros x y. destruct (did_dec d x) as [<-|Nd].
    + rewrite dput_same. intros H. apply Some_inj in H as <-. apply seq_put; auto.
      apply in_or_app. simpl; auto.
    + rewrite dput_other; auto.
  - apply root_to_cb; auto.
    + intros x. destruct (submit _ _ _ _ _ _ _); simpl; [tauto|]. intros [<-|[]]. exact I.
    + eapply pushed_ok; eauto. exists dest. apply in_or_app. simpl; auto.
  - destruct (filter _ ds) as [|x r] eqn:F.
    + apply root_to_cb; auto; [|simpl; tauto]. intros x. apply got_ok; auto.
    + destruct (owners _ _) as [l|].
      * apply set_get_cb.
        -- apply root_to_cb; auto; [simpl; tauto|]. intros d m I. apply in_map_iff in I as (y & H & _).
           apply pair_inj in H as [_ <-]. exact Logic.I.
        -- rewrite <- F. intros y Y. apply filter_In in Y. tauto.
      * apply root_to_cb; auto; [|simpl; tauto]. simpl. intros y [<-|[]]. exact I.
  - apply root_to_cb; auto; try (simpl; tauto).
    intros x y. destruct (did_dec d x) as [<-|Nd]; [rewrite ddel_same; discriminate | rewrite ddel_other; auto].
  - destruct (Nat.eqb _ _); apply root_to_cb; auto; try (simpl; tauto).
    + simpl. intros y [<-|[]]. exact I.
    + intros d m I. apply in_map_iff in I as (y & H & _). apply pair_inj in H as [_ <-]. exact Logic.I.
Qed.

(** What a worker has taken determines what it holds. *)
Lemma inbox_ok prog ms : valid workers prog -> (forall m, In m ms -> okm prog m) ->
  no_refs_received ms /\ (forall i, ~ In (WFinish i) ms) /\ ~ In WCancel ms.
Proof.
  intros V H. split; [|split].
  - intros d v I. apply H in I. simpl in I. eapply seq_clean; eauto.
  - intros i I. apply H in I. exact I.
  - intros I. apply H in I. exact I.
Qed.

Lemma worker_agrees prog self ms w : valid workers prog -> (forall m, In m ms -> okm prog m) ->
  wrun self body no_method plain_fn winit ms = Some w ->
  WI body no_method w /\ SV w /\ inputs (log w) = ms /\ ready w = false /\
  forall d v, stored (log w) d v -> E prog d = Some v.
Proof.
  intros V H R. destruct (inbox_ok prog ms V H) as (N & NF & NC).
  assert (W : WI body no_method w).
  { apply (wrun_wi self body no_method plain_fn body_ok no_method_ok ms winit w); auto. apply wi_init. }
  assert (S := sv_run self body no_method plain_fn body_ok no_method_ok ms winit w
                (wi_init _ _) N sv_init R).
  destruct (run_inputs self body no_method plain_fn body_ok no_method_ok ms winit w
              (wi_init _ _) N NC eq_refl R) as [In Rd].
  simpl in In. split; [auto|]. split; [auto|]. split; [auto|]. split; [auto|].
  eapply stores_agree; eauto.
  - apply W.
  - intros d v I. apply in_inputs in I. rewrite In in I. apply H in I. exact I.
  - intros q I. rewrite received_inputs, In in I. unfold requests in I. apply in_flat_map in I as (m & M & Q).
    apply H in M. destruct m; simpl in *; try tauto. destruct Q as [<-|[]]. auto.
Qed.

Lemma take_cb c src dst : CB c -> valid workers (c_prog c) -> CB (take body c src dst).
Proof.
  intros B V. unfold take. destruct (c_chan c src dst) as [|m ch] eqn:Ch; auto.
  destruct (dst =? 0) eqn:D0; simpl; auto. apply Nat.eqb_neq in D0.
  destruct (c_dead c dst); auto.
  assert (Om : okm (c_prog c) m) by (apply (cb_chan _ B src dst); rewrite Ch; simpl; auto).
  destruct (wstep dst body no_method plain_fn (c_work c dst) m) as [w'|] eqn:St.
  - assert (R : wrun dst body no_method plain_fn winit (map snd (c_in c dst ++ [(src, m)])) = Some w').
    { rewrite map_app, wrun_app, (cb_run _ B dst D0). simpl. rewrite St. auto. }
    assert (Oi : forall x, In x (map snd (c_in c dst ++ [(src, m)])) -> okm (c_prog c) x).
    { intros x X. apply in_map_iff in X as ([s y] & <- & X). apply in_app_or in X as [X|[X|[]]].
      - eapply cb_in; eauto.
      - apply pair_inj in X as [_ <-]. auto. }
    destruct (worker_agrees _ _ _ _ V Oi R) as (W & S & _ & _ & Ag).
    destruct B as [B1 B2 B3 B4 B5 B6 B7]. split; simpl; auto.
    + intros w Nw. destruct (Nat.eqb_spec w dst) as [->|]; auto.
    + intros r s x. destruct (Nat.eqb_spec r dst) as [->|]; eauto.
      intros X. apply Oi. apply in_map_iff. exists (s, x). auto.
    + intros s d x. destruct (Nat.eqb_spec s dst) as [->|].
      * intros X. apply in_app_or in X as [X|X]; [apply in_drop in X; eauto|].
        apply in_outgoing in X as [(d' & v & b & -> & X)|(d' & -> & X)]; simpl; auto.
        apply Ag. apply (sv_put _ S d d' v b).
        eapply in_skipn; eauto.
      * intros X. apply in_drop in X. eauto.
  - destruct B as [B1 B2 B3 B4 B5 B6 B7]. split; simpl; auto.
    intros s d x X. apply in_drop in X. eauto.
Qed.

Lemma reply_cb c src : CB c -> CB (reply c src).
Proof.
  intros B. unfold reply. destruct (c_left c) as [|k] eqn:Lf; auto.
  destruct (c_chan c src 0) as [|m ch] eqn:Ch; auto. destruct m; auto.
  assert (Om : E (c_prog c) d = Some v).
  { apply (cb_chan _ B src 0 (WPut d v)). rewrite Ch; simpl; auto. }
  destruct B as [B1 B2 B3 B4 B5 B6 B7].
  assert (Vs : forall x y, dput (c_vals c) d v x = Some y -> E (c_prog c) x = Some y).
  { intros x y. destruct (did_dec d x) as [<-|Nd].
    - rewrite dput_same. intros H. apply Some_inj in H as <-. auto.
    - rewrite dput_other; auto. }
  assert (Ex : did_in d (c_ids c) = true -> forall e,
    match c_exc c with None => match v with VExc e => Some e | _ => None end | x => x end = Some e ->
    exists x, In x (c_want c) /\ E (c_prog c) x = Some (VExc e)).
  { intros Di e H. destruct (c_exc c) as [e'|].
    - apply Some_inj in H as ->. apply B6; auto. lia.
    - destruct v; try discriminate. apply Some_inj in H as ->. exists d. split; auto.
      apply B5. apply did_in_In; auto. }
  assert (Xe : match c_exc c, v with None, VExc e => Some e | x, _ => x end =
    match c_exc c with None => match v with VExc e => Some e | _ => None end | x => x end).
  { destruct (c_exc c); destruct v; auto. }
  cbv zeta in *. clear Xe. split; simpl; auto.
  - intros w Nw. destruct (Nat.eqb_spec w 0); [lia|auto].
  - intros r s m. destruct (r =? 0); eauto. intros X. apply in_app_or in X as [X|[X|[]]]; eauto.
    apply pair_inj in X as [_ <-]. auto.
  - intros s x m X. apply in_drop in X. eauto.
  - destruct (did_in d (c_ids c)); [auto | tauto].
  - intros x X. apply in_app_or in X as [X|X]; auto. destruct (did_in d (c_ids c)).
    + destruct k; [|destruct X].
      destruct (match c_exc c with None => _ | x => x end) as [e|]; [|eapply got_ok; eauto].
      destruct X as [<-|[]]. simpl. apply Ex; auto.
    + destruct X as [<-|[]]. exact I.
Qed.

Lemma done_cb c src : CB c -> CB (done workers c src).
Proof.
  intros B. unfold done. destruct (c_done c src); auto.
  destruct B as [B1 B2 B3 B4 B5 B6 B7]. split; simpl; auto.
Qed.

Lemma init_cb mgr : CB (cinit mgr).
Proof. split; simpl; try tauto; auto; try discriminate. intros x X; destruct X. Qed.

Lemma prog_grows c o : exists l, c_prog (cstep c o) = c_prog c ++ l.
Proof.
  clear. destruct o; simpl.
  - destruct (c_left c); [|exists []; rewrite app_nil_r; auto]. exists [o].
    destruct o; cbn [root_step]; auto.
    + destruct (filter _ ds); auto. destruct (owners _ _); auto.
    + destruct (Nat.eqb _ _); auto.
  - exists []. rewrite app_nil_r. unfold take. destruct (c_chan c src dst); auto.
    destruct (_ || _); auto. destruct (wstep _ _ _ _ _ _); auto.
  - exists []. rewrite app_nil_r. unfold reply. destruct (c_left c); auto.
    destruct (c_chan c src 0) as [|[] ?]; auto.
  - exists []. rewrite app_nil_r. unfold done. destruct (c_done c src); auto.
Qed.

Lemma root_prog c o : c_prog (root_step workers c o) = c_prog c ++ [o].
Proof.
  clear. destruct o; cbn [root_step]; auto.
  - destruct (filter _ ds); auto. destruct (owners _ _); auto.
  - destruct (Nat.eqb _ _); auto.
Qed.

Lemma crun_snoc mgr ops o : crun mgr (ops ++ [o]) = cstep (crun mgr ops) o.
Proof. clear. unfold ClusterModel.crun. rewrite fold_left_app. auto. Qed.

Lemma step_cb c o : CB c -> valid workers (c_prog (cstep c o)) -> CB (cstep c o).
Proof.
  intros B V. destruct o; simpl in *.
  - destruct (c_left c); auto. rewrite root_prog in V. apply root_cb; auto.
  - apply take_cb; auto. revert V. unfold take. destruct (c_chan c src dst); auto.
    destruct (_ || _); auto. destruct (wstep _ _ _ _ _ _); auto.
  - apply reply_cb; auto.
  - apply done_cb; auto.
Qed.

Lemma valid_before mgr ops o : valid workers (c_prog (crun mgr (ops ++ [o]))) -> valid workers (c_prog (crun mgr ops)).
Proof.
  rewrite crun_snoc. intros V. destruct (prog_grows (crun mgr ops) o) as (l & H). rewrite H in V.
  eapply valid_prefix; eauto.
Qed.

Lemma run_cb mgr ops : valid workers (c_prog (crun mgr ops)) -> CB (crun mgr ops).
Proof.
  induction ops as [|o ops IH] using rev_ind; intros V.
  - apply init_cb.
  - assert (V0 := valid_before mgr ops o V). rewrite crun_snoc in *. apply step_cb; auto.
Qed.

Lemma stores_right mgr ops : valid workers (c_prog (crun mgr ops)) ->
  (forall d v, c_vals (crun mgr ops) d = Some v -> E (c_prog (crun mgr ops)) d = Some v) /\
  (forall w d v, w <> 0 -> store (c_work (crun mgr ops) w) d = Some v -> E (c_prog (crun mgr ops)) d = Some v).
Proof.
  intros V. assert (B := run_cb mgr ops V). split; [apply B|].
  intros w d v Nw S. set (c := crun mgr ops) in *.
  assert (O : forall m, In m (map snd (c_in c w)) -> okm (c_prog c) m).
  { intros m M. apply in_map_iff in M as ([s x] & <- & X). eapply cb_in; eauto. }
  destruct (worker_agrees _ w _ _ V O (cb_run _ B w Nw)) as (W & _ & _ & _ & Ag).
  apply Ag. apply W. auto.
Qed.

End CP.
