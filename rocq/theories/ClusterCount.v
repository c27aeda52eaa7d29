(** The counts that decide a cleanup: tasks submitted, received, ended and reported. *)
From Verif Require Import Lib ValModel ShmModel PushModel PushProofs WorkerModel WorkerSpec WorkerLog
  WorkerThms WorkerSends WorkerDone MonModel ShutProofs ClusterModel ClusterSpec ClusterSeq ClusterProofs.
From Coq Require Import Permutation.

Lemma sum_one (f g : rank -> nat) l w : NoDup l -> In w l -> (forall x, x <> w -> g x = f x) ->
  sumf g l + f w = sumf f l + g w.
Proof.
  unfold sumf. induction 1 as [|x l N D IH]; simpl; [tauto|]. intros [->|I] O.
  - assert (H : list_sum (map g l) = list_sum (map f l)).
    { f_equal. apply map_ext_in. intros y Y. apply O. intros ->. tauto. }
    lia.
  - rewrite O by (intros ->; tauto). specialize (IH I O). lia.
Qed.

Lemma sum_none (f g : rank -> nat) l w : ~ In w l -> (forall x, x <> w -> g x = f x) -> sumf g l = sumf f l.
Proof. intros N O. apply sumf_ext. intros x X. apply O. intros ->. tauto. Qed.

Lemma sum_le (f g : rank -> nat) l : (forall x, In x l -> f x <= g x) -> sumf f l <= sumf g l.
Proof.
  unfold sumf. induction l as [|x l IH]; simpl; intros H; auto.
  assert (f x <= g x) by auto. assert (list_sum (map f l) <= list_sum (map g l)) by auto. lia.
Qed.

Lemma sum_same (f g : rank -> nat) l : (forall x, In x l -> f x <= g x) -> sumf g l <= sumf f l ->
  forall x, In x l -> f x = g x.
Proof.
  induction l as [|y l IH]; intros H S x X; [destruct X|].
  assert (Hy : f y <= g y) by (apply H; simpl; auto).
  assert (L : sumf f l <= sumf g l) by (apply sum_le; intros z Z; apply H; simpl; auto).
  unfold sumf in *. simpl in S. destruct X as [->|X]; [lia|].
  apply IH; auto; [intros z Z; apply H; simpl; auto|]. unfold sumf. lia.
Qed.

Lemma requests_app a b : requests (a ++ b) = requests a ++ requests b.
Proof. apply flat_map_app. Qed.

Lemma sends_app d a b : sends_to d (a ++ b) = sends_to d a ++ sends_to d b.
Proof. apply flat_map_app. Qed.

Lemma reports_app a b : reports (a ++ b) = reports a ++ reports b.
Proof. apply flat_map_app. Qed.

Definition quiet_msg (p : rank * msg) : Prop := match snd p with MTask _ => False | _ => True end.

Lemma pushed_quiet vals q l w : (forall e, In e l -> quiet_msg e) -> requests (sends_to w (pushed vals q l)) = [].
Proof.
  induction l as [|[r m] l IH]; intros H; auto. simpl pushed. rewrite sends_app, requests_app, IH.
  - rewrite app_nil_r. assert (Hm := H (r, m) (or_introl eq_refl)). destruct m; simpl in *; try destruct Hm.
    + destruct (vals d); simpl; auto. destruct (r =? w); auto.
    + destruct (r =? w); auto.
  - intros e E. apply H; simpl; auto.
Qed.

Lemma pushed_app vals q a b : pushed vals q (a ++ b) = pushed vals q a ++ pushed vals q b.
Proof. apply flat_map_app. Qed.

Lemma skipn_exact {A} (a b : list A) : skipn (length a) (a ++ b) = b.
Proof. rewrite skipn_app, Nat.sub_diag, skipn_all. auto. Qed.

(** What a submission sends. *)
Lemma submit_sends p dest n outs f a k : Pinv p ->
  exists new, (forall e, In e new -> fst e = dest /\ quiet_msg e) /\
  match submit p dest n outs f a k with
  | Some p' => p_out p' = p_out p ++ new ++ [(dest, MTask n)]
  | None => p_out (pstep p (PSubmit dest n outs f a k)) = p_out p ++ new
  end.
Proof.
  intros PI. simpl. fold (with_outputs p dest outs).
  pose proof (push_some_spec dest (refs f ++ refs a ++ refs k) _ (pinv_with p dest outs PI)) as H.
  simpl in H. destruct H as (_ & _ & _ & (new & L & Q) & _). rewrite submit_refs.
  exists new. split; [exact Q|]. unfold ok_of.
  change (p_out (with_outputs p dest outs)) with (p_out p) in L.
  destruct (push_some (with_outputs p dest outs) dest (refs f ++ refs a ++ refs k)) as [p1 []]; simpl in *; auto.
  rewrite L, app_assoc. auto.
Qed.

Section Count.
Variable workers : list rank.
Variable body : val -> val -> val -> result.
Hypothesis body_ok : forall f a k, no_refs_returned (body f a k).
Hypothesis no_dup : NoDup workers.
Notation crun := (crun workers body).
Notation cstep := (cstep workers body).

Record CK (c : cst) : Prop := {
  ck_push : exists ops, c_push c = prun ops;
  ck_src : forall s d m, s <> 0 -> In m (c_chan c s d) -> requests [m] = [];
  ck_sent : forall w, exists lost, Permutation (requests (sends_to w (c_out c)))
    (requests (map snd (c_in c w)) ++ requests (c_chan c 0 w) ++ lost);
  ck_done : forall w, exists pre, reports (log (c_work c w)) = pre ++ c_done c w;
  ck_count : mcount (c_mon c) + sumf (fun w => length (c_done c w)) workers =
    sumf (fun w => length (reports (log (c_work c w)))) workers;
  ck_tasks : sumf (fun w => length (requests (sends_to w (c_out c)))) workers = c_tasks c;
  ck_dest : forall w q, In q (requests (sends_to w (c_out c))) -> In w workers;
  ck_stop : mstopped (c_mon c) = false;
  ck_zero : c_work c 0 = winit;
  ck_all : forall dest q, In (RSubmit dest q) (c_prog c) -> In RError (c_seen c) \/ In (dest, WExec q) (c_out c)
}.

Lemma init_ck mgr : CK (cinit mgr).
Proof.
  split; simpl; try tauto; auto.
  - exists []. auto.
  - intros w. exists []. auto.
  - intros w. exists []. auto.
  - unfold sumf. clear. induction workers; simpl; auto.
Qed.

(** A root operation that sends no task. *)
Lemma root_to_ck c o p vals seen out : CK c -> (exists ops, p = prun ops) ->
  (forall w, requests (sends_to w out) = []) -> (forall dest q, o <> RSubmit dest q) ->
  CK (root_to c o p vals (c_tasks c) seen out).
Proof.
  intros [K1 K2 K3 K4 K5 K6 K7 K8 Kz K9] P Q NS. split; simpl; auto.
  - intros s d m S0 I. destruct (Nat.eqb_spec s 0); [lia|]. eauto.
  - intros w. rewrite sends_app, !requests_app, Q, !app_nil_r. auto.
  - rewrite <- K6. apply sumf_ext. intros w _. rewrite sends_app, requests_app, Q, app_nil_r. auto.
  - intros w q. rewrite sends_app, requests_app, Q, app_nil_r. eauto.
  - intros dest q I. apply in_app_or in I as [I|[I|[]]].
    + rewrite !in_app_iff. destruct (K9 dest q I); auto.
    + exfalso. eapply NS; eauto.
Qed.

Lemma set_get_ck c want ids k e : CK c -> CK (set_get c want ids k e).
Proof. intros [K1 K2 K3 K4 K5 K6 K7 K8 Kz K9]. split; auto. Qed.

Lemma prun_snoc ops o : pstep (prun ops) o = prun (ops ++ [o]).
Proof. unfold prun. rewrite fold_left_app. auto. Qed.

Lemma submit_ck c dest q : CK c -> In dest workers -> CK (root_step workers c (RSubmit dest q)).
Proof using no_dup.
  intros K D. destruct (ck_push _ K) as (ops & P).
  assert (PI : Pinv (c_push c)) by (rewrite P; apply pinv_run).
  destruct (submit_sends (c_push c) dest (q_id q) (out_ids (q_out q)) (fn_val (q_fn q)) (q_args q) (q_kwargs q) PI)
    as (new & Q & Sp).
  destruct K as [K1 K2 K3 K4 K5 K6 K7 K8 Kz K9].
  cbn [root_step]. cbv zeta.
  assert (Pn : exists ops, pstep (c_push c) (PSubmit dest (q_id q) (out_ids (q_out q)) (fn_val (q_fn q)) (q_args q) (q_kwargs q)) = prun ops).
  { rewrite P, prun_snoc. eauto. }
  destruct (submit (c_push c) dest (q_id q) (out_ids (q_out q)) (fn_val (q_fn q)) (q_args q) (q_kwargs q)) as [p'|] eqn:Sb.
  - assert (Pe : pstep (c_push c) (PSubmit dest (q_id q) (out_ids (q_out q)) (fn_val (q_fn q)) (q_args q) (q_kwargs q)) = p').
    { simpl. rewrite Sb. auto. }
    rewrite Pe in *. rewrite Sp, skipn_exact.
    set (out := pushed (c_vals c) q (new ++ [(dest, MTask (q_id q))])).
    assert (R : forall w, requests (sends_to w out) = if dest =? w then [q] else []).
    { intros w. unfold out. rewrite pushed_app, sends_app, requests_app, pushed_quiet.
      - simpl. destruct (dest =? w); auto.
      - intros e E. apply Q; auto. }
    split; simpl; auto.
    + intros s d m S0 I. destruct (Nat.eqb_spec s 0); [lia|]. eauto.
    + intros w. destruct (K3 w) as (lost & L). exists lost. rewrite sends_app, !requests_app, R.
      destruct (dest =? w); [|rewrite !app_nil_r; auto].
      rewrite L, <- !app_assoc. apply Permutation_app_head, Permutation_app_head, Permutation_app_comm.
    + rewrite <- K6.
      assert (X := sum_one (fun w => length (requests (sends_to w (c_out c))))
         (fun w => length (requests (sends_to w (c_out c ++ out)))) workers dest no_dup D).
      simpl in X. rewrite !sends_app, !requests_app, R, Nat.eqb_refl, app_length in X. simpl in X.
      apply (Nat.add_cancel_r _ _ (length (requests (sends_to dest (c_out c))))).
      rewrite X; [lia|]. intros x Nx. rewrite sends_app, requests_app, R.
      destruct (Nat.eqb_spec dest x); [congruence|]. rewrite app_nil_r. auto.
    + intros w x. rewrite sends_app, requests_app, R. intros I. apply in_app_or in I as [I|I]; eauto.
      destruct (Nat.eqb_spec dest w); [subst; auto | destruct I].
    + intros d x I. apply in_app_or in I as [I|[I|[]]].
      * rewrite !in_app_iff. destruct (K9 d x I); auto.
      * injection I as <- <-. right. apply in_or_app. right. unfold out. rewrite pushed_app.
        apply in_or_app. right. simpl; auto.
  - set (p' := pstep _ _) in *. rewrite Sp, skipn_exact.
    assert (R : forall w, requests (sends_to w (pushed (c_vals c) q new)) = []).
    { intros w. apply pushed_quiet. intros e E. apply Q; auto. }
    split; simpl; auto.
    + intros s d m S0 I. destruct (Nat.eqb_spec s 0); [lia|]. eauto.
    + intros w. rewrite sends_app, !requests_app, R, !app_nil_r. auto.
    + rewrite <- K6. apply sumf_ext. intros w _. rewrite sends_app, requests_app, R, app_nil_r. auto.
    + intros w x. rewrite sends_app, requests_app, R, app_nil_r. eauto.
    + intros d x I. left. apply in_or_app. right. simpl; auto.
Qed.

Lemma no_requests l : (forall m, In m l -> requests [m] = []) -> requests l = [].
Proof.
  clear. induction l as [|m l IH]; intros H; auto. change (m :: l) with ([m] ++ l).
  rewrite requests_app, IH; [rewrite H; simpl; auto|]. intros x X. apply H. simpl; auto.
Qed.

Lemma sends_no_requests out : (forall d m, In (d, m) out -> requests [m] = []) -> forall w, requests (sends_to w out) = [].
Proof. clear. intros H w. apply no_requests. intros m M. apply in_sends in M. eauto. Qed.

Lemma root_ck c o : CK c -> valid workers (c_prog c ++ [o]) -> CK (root_step workers c o).
Proof using no_dup.
  intros K V. assert (P := ck_push _ K). destruct o as [d v|dest q|ds|d|ds].
  2: { apply submit_ck; auto. apply (v_sub _ _ V (c_prog c) dest q []); auto. }
  all: cbn [root_step]; cbv zeta.
  - apply root_to_ck; auto; try discriminate. destruct P as (ops & ->). rewrite !prun_snoc. eauto.
  - destruct (filter _ ds) as [|x r]; [apply root_to_ck; auto; discriminate|].
    destruct (owners _ _) as [l|]; [|apply root_to_ck; auto; discriminate].
    apply set_get_ck, root_to_ck; auto; try discriminate. apply sends_no_requests.
    intros d m I. apply in_map_iff in I as (y & H & _). apply pair_inj in H as [_ <-]. auto.
  - apply root_to_ck; auto; try discriminate. destruct P as (ops & ->). rewrite !prun_snoc. eauto.
  - destruct (Nat.eqb _ _); apply root_to_ck; auto; try discriminate. apply sends_no_requests.
    intros d m I. apply in_map_iff in I as (y & H & _). apply pair_inj in H as [_ <-]. auto.
Qed.

Lemma drop_keep ch a b s d : (s, d) <> (a, b) -> drop_head ch a b s d = ch s d.
Proof.
  clear. unfold drop_head. intros N. destruct (Nat.eqb_spec s a), (Nat.eqb_spec d b); simpl; auto. congruence.
Qed.

Lemma drop_hit ch a b m l : ch a b = m :: l -> drop_head ch a b a b = l.
Proof. clear. unfold drop_head. rewrite !Nat.eqb_refl. simpl. intros ->. auto. Qed.

Lemma outgoing_quiet self l dst m : In m (outgoing self l dst) -> requests [m] = [].
Proof. clear. intros H. apply in_outgoing in H as [(d & v & b & -> & _)|(d & -> & _)]; auto. Qed.

(** The log grows. *)
Lemma step_log w m w' self : WI body no_method w -> (forall d v, m = WPut d v -> refs v = []) -> ready w = false ->
  wstep self body no_method plain_fn w m = Some w' -> log w' = log w ++ skipn (length (log w)) (log w').
Proof using body_ok.
  intros I N R H.
  destruct (WorkerOrder.step_own self body no_method plain_fn body_ok no_method_ok w m w' I N R H) as (t & L & _).
  rewrite L at 2. rewrite skipn_exact. auto.
Qed.

Lemma take_ck c src dst : CB body c -> valid workers (c_prog c) -> CK c -> CK (take body c src dst).
Proof using body_ok no_dup.
  intros B V K. unfold take. destruct (c_chan c src dst) as [|m ch] eqn:Ch; auto.
  destruct (dst =? 0) eqn:D0; simpl; auto. apply Nat.eqb_neq in D0.
  destruct (c_dead c dst); auto.
  assert (Om : okm body (c_prog c) m) by (apply (cb_chan _ _ B src dst); rewrite Ch; simpl; auto).
  assert (Oi : forall x, In x (map snd (c_in c dst)) -> okm body (c_prog c) x).
  { intros x X. apply in_map_iff in X as ([s y] & <- & X). eapply cb_in; eauto. }
  destruct (worker_agrees workers body body_ok _ _ _ _ V Oi (cb_run _ _ B dst D0)) as (W & _ & _ & Rd & _).
  destruct K as [K1 K2 K3 K4 K5 K6 K7 K8 Kz K9].
  assert (Sent : forall w, exists lost, Permutation (requests (sends_to w (c_out c)))
     (requests (map snd (c_in c w)) ++ (if w =? dst then requests (if src =? 0 then [m] else []) else []) ++
      requests (drop_head (c_chan c) src dst 0 w) ++ lost)).
  { intros w. destruct (K3 w) as (lost & L). exists lost. rewrite L. apply Permutation_app_head.
    destruct (Nat.eqb_spec w dst) as [->|Nw].
    - destruct (Nat.eqb_spec src 0) as [->|N0].
      + rewrite (drop_hit _ _ _ _ _ Ch), Ch. change (m :: ch) with ([m] ++ ch). rewrite requests_app, <- app_assoc. auto.
      + rewrite drop_keep by congruence. auto.
    - rewrite drop_keep by congruence. auto. }
  assert (Sr : requests [m] = requests (if src =? 0 then [m] else [])).
  { destruct (Nat.eqb_spec src 0); auto. apply (K2 src dst); auto. rewrite Ch; simpl; auto. }
  destruct (wstep dst body no_method plain_fn (c_work c dst) m) as [w'|] eqn:St.
  - assert (Lg : log w' = log (c_work c dst) ++ skipn (length (log (c_work c dst))) (log w')).
    { apply (step_log _ m w' dst); auto. intros d v ->. simpl in Om. eapply seq_clean; eauto. }
    set (new := skipn (length (log (c_work c dst))) (log w')) in *.
    split; simpl; auto.
    + intros s d x S0 I. destruct (Nat.eqb_spec s dst) as [->|].
      * apply in_app_or in I as [I|I]; [apply in_drop in I; eauto | eapply outgoing_quiet; eauto].
      * apply in_drop in I; eauto.
    + intros w. destruct (Sent w) as (lost & L). exists lost. rewrite L.
      replace (match dst with 0 => true | S _ => false end) with false by (destruct dst; [congruence|auto]).
      destruct (Nat.eqb_spec w dst) as [->|Nw]; [|auto].
      rewrite map_app, requests_app, <- !app_assoc. simpl map. rewrite <- Sr. auto.
    + intros w. destruct (Nat.eqb_spec w dst) as [->|Nw]; auto.
      destruct (K4 dst) as (pre & E). exists pre. rewrite Lg, reports_app, E, <- app_assoc. auto.
    + destruct (in_dec Nat.eq_dec dst workers) as [Id|Nd].
      * assert (X := sum_one (fun w => length (c_done c w))
          (fun s => length (if s =? dst then c_done c s ++ reports new else c_done c s)) workers dst no_dup Id).
        assert (Y := sum_one (fun w => length (reports (log (c_work c w))))
          (fun r => length (reports (log (if r =? dst then w' else c_work c r)))) workers dst no_dup Id).
        simpl in X, Y. rewrite !Nat.eqb_refl, app_length in X. rewrite Nat.eqb_refl, Lg, reports_app, app_length in Y.
        assert (X' := X ltac:(intros x Nx; destruct (Nat.eqb_spec x dst); [congruence|auto])).
        assert (Y' := Y ltac:(intros x Nx; destruct (Nat.eqb_spec x dst); [congruence|auto])). lia.
      * rewrite (sum_none (fun w => length (c_done c w)) _ workers dst); auto.
        2: { intros x Nx; destruct (Nat.eqb_spec x dst); [congruence|auto]. }
        rewrite K5. symmetry. apply sum_none with (w := dst); auto.
        intros x Nx; destruct (Nat.eqb_spec x dst); [congruence|auto].
    + destruct dst; [congruence|auto].
  - split; simpl; auto.
    + intros s d x S0 I. apply in_drop in I; eauto.
    + intros w. destruct (Sent w) as (lost & L).
      exists ((if w =? dst then requests (if src =? 0 then [m] else []) else []) ++ lost).
      rewrite L. apply Permutation_app_head. rewrite !app_assoc. apply Permutation_app_tail, Permutation_app_comm.
Qed.

Lemma reply_ck c src : CK c -> CK (reply c src).
Proof.
  intros K. unfold reply. destruct (c_left c) as [|k] eqn:Lf; auto.
  destruct (c_chan c src 0) as [|m ch] eqn:Ch; auto. destruct m; auto.
  destruct K as [K1 K2 K3 K4 K5 K6 K7 K8 Kz K9]. split; simpl; auto.
  - destruct K1 as (ops & ->). exists (ops ++ [PHave d]). exact (prun_snoc ops (PHave d)).
  - intros s x m S0 I. apply in_drop in I; eauto.
  - intros w. destruct (K3 w) as (lost & L). exists lost. rewrite L.
    assert (X : requests (map snd (if w =? 0 then c_in c w ++ [(src, WPut d v)] else c_in c w)) = requests (map snd (c_in c w))).
    { destruct (w =? 0); auto. rewrite map_app, requests_app. simpl. rewrite app_nil_r. auto. }
    rewrite X. apply Permutation_app_head. apply Permutation_app_tail.
    unfold drop_head. destruct (Nat.eqb_spec 0 src) as [<-|]; simpl; auto.
    destruct (Nat.eqb_spec w 0) as [->|]; simpl; auto. rewrite Ch. auto.
  - intros dest q I. rewrite in_app_iff. destruct (K9 dest q I); auto.
Qed.

Lemma count_step s src ds : mstopped s = false ->
  exists s', mon_step (mon_cfg workers) s (MDone src ds) = Some s' /\ mcount s' = S (mcount s) /\ mstopped s' = false.
Proof.
  clear. intros H. unfold mon_step. rewrite H. eexists. split; [reflexivity|].
  assert (Sc : forall fuel i s, mcount (scan fuel i s) = mcount s /\ mstopped (scan fuel i s) = mstopped s).
  { clear. induction fuel; intros i s; simpl; auto. destruct (nth_error _ _); auto.
    destruct (did_in _ _); [destruct (Z.eqb _ _)|]; match goal with |- context [scan fuel ?j ?t] => destruct (IHfuel j t) as [-> ->] end; auto. }
  unfold process_waits. destruct (Sc (length (mawaited (set_done (memit s (MvIn (MDone src ds))) (S (mcount (memit s (MvIn (MDone src ds))))) (ds ++ mcompleted (memit s (MvIn (MDone src ds)))))))
    0 (set_done (memit s (MvIn (MDone src ds))) (S (mcount (memit s (MvIn (MDone src ds))))) (ds ++ mcompleted (memit s (MvIn (MDone src ds)))))) as [A B].
  rewrite A, B. simpl. auto.
Qed.

(** A rank to which no task was submitted reports nothing. *)
Lemma worker_counts c w : CB body c -> valid workers (c_prog c) -> w <> 0 ->
  length (reports (log (c_work c w))) = length (ended (log (c_work c w))) /\
  Permutation (map q_id (requests (map snd (c_in c w))))
    (ended (log (c_work c w)) ++ map q_id (pend (c_work c w) ++ apend (c_work c w))) /\
  running (c_work c w) = [].
Proof using body_ok.
  intros B V W0.
  assert (Oi : forall x, In x (map snd (c_in c w)) -> okm body (c_prog c) x).
  { intros x X. apply in_map_iff in X as ([s y] & <- & X). eapply cb_in; eauto. }
  destruct (inbox_ok workers body body_ok (c_prog c) _ V Oi) as (N & NF & NC).
  assert (R := cb_run _ _ B w W0).
  destruct (worker_agrees workers body body_ok _ _ _ _ V Oi R) as (_ & _ & In & _ & _).
  assert (Rn := proj2 (run_blocks w body no_method plain_fn body_ok no_method_ok (fun _ => eq_refl) _ _ N R)).
  assert (O := one_report w body no_method plain_fn body_ok no_method_ok (fun _ => eq_refl) _ _ N R).
  assert (L := none_lost w body no_method plain_fn body_ok no_method_ok _ _ N R NC).
  rewrite received_inputs, In, Rn in L. simpl in L. rewrite app_nil_r in L. auto.
Qed.

Lemma done_ck c src : CB body c -> valid workers (c_prog c) -> CK c -> CK (done workers c src).
Proof using body_ok no_dup.
  intros B V K. unfold done. destruct (c_done c src) as [|ds l] eqn:Dn; auto.
  assert (Is : In src workers).
  { destruct (ck_done _ K src) as (pre & E). rewrite Dn in E.
    destruct (Nat.eq_dec src 0) as [->|N0].
    - exfalso. rewrite (ck_zero _ K) in E. simpl in E. symmetry in E. apply app_eq_nil in E as [_ E]. discriminate.
    - destruct (worker_counts c src B V N0) as (A & P & _).
      apply (f_equal (@length _)) in E. rewrite app_length in E. simpl in E.
      apply Permutation_length in P. rewrite map_length, app_length in P.
      destruct (ck_sent _ K src) as (lost & Q).
      destruct (requests (map snd (c_in c src))) as [|q r] eqn:Rq; [simpl in P; lia|].
      apply (ck_dest _ K src q). rewrite Q. simpl; auto. }
  destruct (count_step (c_mon c) src ds (ck_stop _ K)) as (s' & -> & Mc & Ms).
  destruct K as [K1 K2 K3 K4 K5 K6 K7 K8 Kz K9]. split; simpl; auto.
  - intros w. destruct (Nat.eqb_spec w src) as [->|]; auto. rewrite Dn. simpl.
    destruct (K4 src) as (pre & E). exists (pre ++ [ds]). rewrite E, Dn, <- app_assoc. auto.
  - assert (X := sum_one (fun w => length (c_done c w))
      (fun s => length (if s =? src then tl (c_done c s) else c_done c s)) workers src no_dup Is).
    simpl in X. rewrite !Nat.eqb_refl, Dn in X. simpl in X.
    assert (X' := X ltac:(intros x Nx; destruct (Nat.eqb_spec x src); [congruence|auto])).
    rewrite Mc. lia.
Qed.

Lemma step_ck c o : CB body c -> valid workers (c_prog (cstep c o)) -> CK c -> CK (cstep c o).
Proof using body_ok no_dup.
  intros B V K. destruct o; simpl in *.
  - destruct (c_left c); auto. rewrite root_prog in V. apply root_ck; auto.
  - apply take_ck; auto. revert V. unfold take. destruct (c_chan c src dst); auto.
    destruct (_ || _); auto. destruct (wstep _ _ _ _ _ _); auto.
  - apply reply_ck; auto.
  - apply done_ck; auto. revert V. unfold done. destruct (c_done c src); auto.
Qed.

Lemma run_ck mgr ops : valid workers (c_prog (crun mgr ops)) -> CK (crun mgr ops).
Proof using body_ok no_dup.
  induction ops as [|o ops IH] using rev_ind; intros V.
  - apply init_ck.
  - assert (V0 := valid_before workers body mgr ops o V). rewrite crun_snoc in *.
    apply step_ck; auto. apply run_cb; auto.
Qed.

(** When the counts are equal, every task has ended and been reported. *)
Lemma equal_done c : CB body c -> valid workers (c_prog c) -> CK c -> ~ In 0 workers ->
  mcount (c_mon c) = c_tasks c -> forall w, In w workers ->
  pend (c_work c w) = [] /\ apend (c_work c w) = [] /\ running (c_work c w) = [] /\ c_done c w = [] /\
  requests (c_chan c 0 w) = [] /\
  Permutation (map q_id (requests (sends_to w (c_out c)))) (ended (log (c_work c w))).
Proof using body_ok.
  intros B V K Z Eq w W.
  assert (Le : forall x, In x workers ->
    length (reports (log (c_work c x))) <= length (requests (sends_to x (c_out c)))).
  { intros x X. assert (X0 : x <> 0) by (intros ->; tauto).
    destruct (worker_counts c x B V X0) as (A & P & _). apply Permutation_length in P.
    rewrite map_length, app_length in P. destruct (ck_sent _ K x) as (lost & Q). apply Permutation_length in Q.
    rewrite !app_length in Q. lia. }
  assert (Tot : sumf (fun x => length (requests (sends_to x (c_out c)))) workers <=
                sumf (fun x => length (reports (log (c_work c x)))) workers).
  { rewrite (ck_tasks _ K), <- Eq, <- (ck_count _ K). lia. }
  assert (Same := sum_same _ _ _ Le Tot). assert (Sw := Same w W). simpl in Sw.
  assert (Dz : sumf (fun x => length (c_done c x)) workers = 0).
  { assert (X := ck_count _ K). assert (Y := ck_tasks _ K).
    assert (sumf (fun x => length (reports (log (c_work c x)))) workers <=
            sumf (fun x => length (requests (sends_to x (c_out c)))) workers) by (apply sum_le; auto). lia. }
  assert (W0 : w <> 0) by (intros ->; tauto).
  destruct (worker_counts c w B V W0) as (A & P & Rn). assert (Pl := Permutation_length P).
  rewrite map_length, app_length, map_length, app_length in Pl.
  destruct (ck_sent _ K w) as (lost & Q). assert (Ql := Permutation_length Q). rewrite !app_length in Ql.
  assert (P0 : pend (c_work c w) = []) by (apply length_zero_iff_nil; lia).
  assert (P1 : apend (c_work c w) = []) by (apply length_zero_iff_nil; lia).
  assert (Ch : requests (c_chan c 0 w) = []) by (apply length_zero_iff_nil; lia).
  assert (Lo : lost = []) by (apply length_zero_iff_nil; lia).
  repeat split; auto.
  - apply length_zero_iff_nil. assert (X : forall x, In x workers -> 0 = length (c_done c x)).
    { apply (sum_same (fun _ => 0)); [intros; lia|]. rewrite Dz. lia. }
    symmetry. auto.
  - rewrite P0, P1 in P. simpl in P. rewrite app_nil_r in P. rewrite <- P. apply Permutation_map.
    rewrite Ch, Lo in Q. simpl in Q. rewrite app_nil_r in Q. auto.
Qed.

(** C36. *)
Lemma cleaned_when_done mgr ops ds : ~ In 0 workers -> valid workers (c_prog (crun mgr ops)) ->
  let c := crun mgr ops in
  c_seen (cstep c (CRoot (RClean ds))) = c_seen c ++ [RCleaned ds] ->
  (forall w, In w workers -> pend (c_work c w) = [] /\ apend (c_work c w) = [] /\ running (c_work c w) = []) /\
  (forall dest q, In (dest, WExec q) (c_out c) -> In (q_id q) (ended (log (c_work c dest)))) /\
  (forall dest q, In (RSubmit dest q) (c_prog c) -> ~ In RError (c_seen c) -> In (q_id q) (ended (log (c_work c dest)))).
Proof using body_ok no_dup.
  cbv zeta. intros Z V H. assert (B := run_cb workers body body_ok mgr ops V). assert (K := run_ck mgr ops V).
  set (c := crun mgr ops) in *.
  assert (Eq : mcount (c_mon c) = c_tasks c).
  { simpl in H. destruct (c_left c); [|exfalso; revert H; clear; induction (c_seen c); simpl; congruence].
    destruct (Nat.eqb_spec (mcount (c_mon c)) (c_tasks c)); auto.
    exfalso. simpl in H. rewrite app_nil_r in H. revert H. clear. induction (c_seen c); simpl; congruence. }
  assert (D := equal_done c B V K Z Eq).
  assert (Ex : forall dest q, In (dest, WExec q) (c_out c) -> In (q_id q) (ended (log (c_work c dest)))).
  { intros dest q I. assert (Iq : In q (requests (sends_to dest (c_out c)))).
    { apply in_flat_map. exists (WExec q). split; [apply in_sends; auto | simpl; auto]. }
    destruct (D dest (ck_dest _ K dest q Iq)) as (_ & _ & _ & _ & _ & P). rewrite <- P.
    apply in_map; auto. }
  split; [|split]; auto.
  - intros w W. destruct (D w W) as (A1 & A2 & A3 & _). auto.
  - intros dest q I NE. destruct (ck_all _ K dest q I); [tauto|auto].
Qed.
End Count.
