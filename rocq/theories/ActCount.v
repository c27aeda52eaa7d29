(** Requests sent, taken, ended and reported, with actors and coroutines. *)
From Verif Require Import Lib ValModel ShmModel PushModel PushProofs WorkerModel WorkerSpec WorkerProofs WorkerLog
  WorkerTrace WorkerReady WorkerOrder WorkerThms WorkerSends WorkerDone WorkerFew MonModel ShutProofs
  ClusterModel ClusterSpec ClusterSeq ClusterProofs ClusterCount ActModel ActSpec ActGives ActProofs.
From Coq Require Import Permutation.

(** What a submission or call sends: the request, to dest, if it does not raise. *)
Lemma sent_exact vals (mk : request -> wmsg) q p dest n outs f a k : Pinv p ->
  (forall q, mk q = WExec q \/ mk q = WActor q) ->
  let new := skipn (length (p_out p)) (p_out (pstep p (PSubmit dest n outs f a k))) in
  let out := flat_map (fun p => map (fun m => (fst p, m))
    (match snd p with
     | MValue d => match vals d with Some v => [WPut d v] | None => [] end
     | MOwner d o => [WOwner d o]
     | MTask _ => [mk q] end)) new in
  forall w, requests (sends_to w out) =
    match submit p dest n outs f a k with Some _ => if dest =? w then [q] else [] | None => [] end.
Proof.
  intros PI K. simpl. destruct (submit_sends p dest n outs f a k PI) as (new & Q & S). simpl pstep in S.
  assert (N : forall w, flat_map (fun p0 : rank * msg => match snd p0 with MTask _ => if fst p0 =? w then [q] else [] | _ => [] end) new = []).
  { clear - Q. intros w. induction new as [|[r m] new IH]; auto. simpl. rewrite IH.
    - destruct (Q (r, m) (or_introl eq_refl)) as [_ X]. destruct m; auto. destruct X.
    - intros e I. apply Q. simpl; auto. }
  intros w. rewrite to_list by auto.
  destruct (submit p dest n outs f a k) as [p'|] eqn:Sb.
  - rewrite S, skipn_exact, flat_map_app, N. simpl. rewrite app_nil_r. auto.
  - rewrite S, skipn_exact. apply N.
Qed.

(** The requests of a program for one rank, in order. *)
Definition for_rank (w : rank) (l : list (rank * request)) : list request :=
  map snd (filter (fun p => fst p =? w) l).

Lemma for_rank_app w a b : for_rank w (a ++ b) = for_rank w a ++ for_rank w b.
Proof. unfold for_rank. rewrite filter_app, map_app. auto. Qed.

Lemma gsub_app a b : gsubmitted (a ++ b) = gsubmitted a ++ gsubmitted b.
Proof. apply flat_map_app. Qed.

Lemma in_for_rank w q l : In q (for_rank w l) <-> In (w, q) l.
Proof.
  unfold for_rank. rewrite in_map_iff. split.
  - intros ([r x] & <- & I). apply filter_In in I as [I E]. simpl in *. apply Nat.eqb_eq in E as <-. auto.
  - intros I. exists (w, q). split; auto. apply filter_In. split; auto. simpl. apply Nat.eqb_refl.
Qed.


Lemma sum_at_most (l : list rank) (dest : rank) (q : request) : NoDup l ->
  sumf (fun w => length (if dest =? w then [q] else [])) l <= 1.
Proof.
  assert (Z : forall l, ~ In dest l -> sumf (fun w => length (if dest =? w then [q] else [])) l = 0).
  { clear. unfold sumf. induction l as [|y l IH]; intros N; auto. simpl in *.
    destruct (Nat.eqb_spec dest y); [subst; tauto|]. simpl. apply IH. tauto. }
  induction 1 as [|x l N ND IH]; [unfold sumf; simpl; lia|].
  destruct (Nat.eq_dec dest x) as [->|Nx].
  - specialize (Z l N). unfold sumf in *. simpl. rewrite Nat.eqb_refl, Z. simpl. lia.
  - unfold sumf in *. simpl. apply Nat.eqb_neq in Nx. rewrite Nx. simpl. exact IH.
Qed.

Section Count.
Variable workers : list rank.
Variable body : val -> val -> val -> result.
Variable mbody : list call -> call -> result.
Variable is_async : callee -> bool.
Hypothesis body_ok : forall f a k, no_refs_returned (body f a k).
Hypothesis mbody_ok : forall h c, no_refs_returned (mbody h c).
Hypothesis no_dup : NoDup workers.
Notation grun := (grun workers body mbody is_async).
Notation gstep := (gstep workers body mbody is_async).
Notation AB := (AB body mbody is_async).

Record AK (prog : list gprog) (c : cst) : Prop := {
  ak_sent : forall w, exists lost, requests (sends_to w (c_out c)) =
    requests (map snd (c_in c w)) ++ lost ++ requests (c_chan c 0 w) /\ (c_dead c w = false -> lost = []);
  ak_prog : In RError (c_seen c) \/ forall w, requests (sends_to w (c_out c)) = for_rank w (gsubmitted prog);
  ak_known : forall w q, In q (requests (sends_to w (c_out c))) -> In (w, q) (gsubmitted prog);
  ak_done : forall w, exists pre, reports (log (c_work c w)) = pre ++ c_done c w;
  ak_count : mcount (c_mon c) + sumf (fun w => length (c_done c w)) workers =
    sumf (fun w => length (reports (log (c_work c w)))) workers;
  ak_tasks : sumf (fun w => length (requests (sends_to w (c_out c)))) workers <= c_tasks c + length (gcalls prog);
  ak_stop : mstopped (c_mon c) = false
}.

Lemma init_ak mgr : AK [] (cinit mgr).
Proof.
  split; simpl; try tauto; auto.
  - intros w. exists []. auto.
  - intros w. exists []. auto.
  - unfold sumf. clear. induction workers; simpl; auto.
Qed.

Lemma sum_plus (f g : rank -> nat) l : sumf (fun w => f w + g w) l = sumf f l + sumf g l.
Proof. clear. unfold sumf. induction l; simpl; auto. lia. Qed.

(** The root acts. *)
Lemma root_ak prog c p c' seen out : AK prog c ->
  c_work c' = c_work c -> c_in c' = c_in c -> c_done c' = c_done c -> c_mon c' = c_mon c -> c_dead c' = c_dead c ->
  (forall s d, c_chan c' s d = if s =? 0 then c_chan c s d ++ sends_to d out else c_chan c s d) ->
  c_out c' = c_out c ++ out -> c_seen c' = c_seen c ++ seen ->
  ((forall w, requests (sends_to w out) = for_rank w (gsubmitted [p])) \/
   In RError seen /\ forall w, requests (sends_to w out) = []) ->
  c_tasks c + sumf (fun w => length (requests (sends_to w out))) workers <= c_tasks c' + length (gcalls [p]) ->
  AK (prog ++ [p]) c'.
Proof.
  intros [K1 K2 K3 K4 K5 K6 K7] W I D M Dd Ch O Sn R T. split.
  - intros w. destruct (K1 w) as (lost & L & Lz). exists lost. rewrite O, I, Ch, Dd. simpl.
    rewrite sends_app, !requests_app, L, <- !app_assoc. auto.
  - rewrite Sn, O. destruct K2 as [K2|K2]; [left; apply in_or_app; auto|].
    destruct R as [R|[E _]]; [|left; apply in_or_app; auto].
    right. intros w. rewrite sends_app, requests_app, gsub_app, for_rank_app, K2, R. auto.
  - intros w q. rewrite O, sends_app, requests_app, gsub_app. intros X. apply in_or_app. apply in_app_or in X as [X|X]; auto.
    right. destruct R as [R|[_ R]]; rewrite R in X; [apply in_for_rank in X; auto | destruct X].
  - rewrite W, D. auto.
  - rewrite M, D, W. auto.
  - unfold gcalls in *. rewrite flat_map_app, app_length, O.
    rewrite (sumf_ext _ (fun w => length (requests (sends_to w (c_out c))) + length (requests (sends_to w out)))).
    + rewrite sum_plus. lia.
    + intros w _. rewrite sends_app, requests_app, app_length. auto.
  - rewrite M. auto.
Qed.

Lemma no_sends : sumf (fun w => length (requests (sends_to w []))) workers = 0.
Proof. clear. unfold sumf. induction workers; simpl; auto. Qed.

Lemma none_sum out : (forall w, requests (sends_to w out) = []) ->
  sumf (fun w => length (requests (sends_to w out))) workers = 0.
Proof. clear. intros H. unfold sumf. induction workers; simpl; auto. rewrite H. auto. Qed.

Lemma one_sum out dest q : (forall w, requests (sends_to w out) = if dest =? w then [q] else []) ->
  sumf (fun w => length (requests (sends_to w out))) workers <= 1.
Proof.
  clear - no_dup. intros H. rewrite (sumf_ext _ (fun w => length (if dest =? w then [q] else []))).
  - apply sum_at_most; auto.
  - intros w _. rewrite H. auto.
Qed.

Lemma chan_nil c : forall s d, c_chan c s d = if s =? 0 then c_chan c s d ++ sends_to d [] else c_chan c s d.
Proof. clear. intros s d. simpl. rewrite app_nil_r. destruct (s =? 0); auto. Qed.

Lemma root_step_ak prog c o : Pinv (c_push c) -> AK prog c -> AK (prog ++ [GP o]) (root_step workers c o).
Proof using no_dup.
  intros PI K. destruct o; cbn [root_step]; cbv zeta.
  - apply (root_ak prog c _ _ [] []); auto; try reflexivity. rewrite no_sends. simpl. lia.
  - assert (S := sent_exact (c_vals c) WExec q (c_push c) dest (q_id q) (out_ids (q_out q)) (fn_val (q_fn q))
      (q_args q) (q_kwargs q) PI ltac:(auto)). cbv zeta in S.
    match goal with |- AK _ (root_to _ _ _ _ _ ?sn ?o) => apply (root_ak prog c _ _ sn o) end; auto; try reflexivity.
    + destruct (submit _ _ _ _ _ _ _); [left|right; simpl; auto].
      intros w. unfold pushed. rewrite S. unfold for_rank. simpl. destruct (dest =? w); auto.
    + destruct (submit _ _ _ _ _ _ _); cbn [root_to c_tasks]; [apply one_sum in S|apply none_sum in S]; unfold pushed, to_wmsg in *; lia.
  - destruct (filter _ ds) as [|x r] eqn:F.
    + apply (root_ak prog c _ _ (got (c_vals c) ds) []); auto; try reflexivity. rewrite no_sends. simpl. lia.
    + destruct (owners _ _) as [l|].
      * assert (Q : forall w, requests (sends_to w (map (fun p => (fst p, WGet 0 (snd p) true)) l)) = []).
        { apply sends_no_requests. intros d m I. apply in_map_iff in I as (y & H & _). apply pair_inj in H as [_ <-]. auto. }
        apply (root_ak prog c _ _ [] (map (fun p => (fst p, WGet 0 (snd p) true)) l)); auto; try reflexivity.
        rewrite none_sum by auto. simpl. lia.
      * apply (root_ak prog c _ _ [RError] []); auto; try reflexivity. rewrite no_sends. simpl. lia.
  - apply (root_ak prog c _ _ [] []); auto; try reflexivity. rewrite no_sends. simpl. lia.
  - destruct (Nat.eqb _ _).
    + assert (Q : forall w, requests (sends_to w (map (fun w => (w, WClean ds)) workers)) = []).
      { apply sends_no_requests. intros d m I. apply in_map_iff in I as (y & H & _). apply pair_inj in H as [_ <-]. auto. }
      apply (root_ak prog c _ _ [RCleaned ds] (map (fun w => (w, WClean ds)) workers)); auto; try reflexivity.
      rewrite none_sum by auto. simpl. lia.
    + apply (root_ak prog c _ _ [] []); auto; try reflexivity. rewrite no_sends. simpl. lia.
Qed.

Lemma root_call_ak prog c dest nd q : Pinv (c_push c) -> AK prog c -> AK (prog ++ [GC dest nd q]) (root_call c dest nd q).
Proof using no_dup.
  intros PI K.
  assert (S := sent_exact (c_vals c) WActor q (c_push c) dest (q_id q) (out_ids (q_out q)) (VRef nd)
    (q_args q) (q_kwargs q) PI ltac:(auto)). cbv zeta in S.
  eapply (root_ak prog c); auto; try reflexivity.
  + destruct (submit _ _ _ _ _ _ _); [left|right; simpl; auto].
    intros w. unfold pushed_call, to_call. rewrite S. unfold for_rank. simpl. destruct (dest =? w); auto.
  + destruct (submit _ _ _ _ _ _ _); cbn [root_call c_tasks]; [apply one_sum in S|apply none_sum in S]; unfold pushed_call, to_call, gcalls in *; cbn [flat_map app length]; lia.
Qed.

(** A worker takes a message, or a coroutine ends. *)
Lemma deal_ak prog c src dst m ch : gvalid prog -> AB prog c -> AK prog c -> dst <> 0 -> c_dead c dst = false ->
  (forall d v, m = WPut d v -> refs v = []) ->
  (forall w, requests (c_chan c 0 w) = (if w =? dst then requests [m] else []) ++ requests (ch 0 w)) ->
  AK prog (deal body mbody is_async c src dst m ch).
Proof using body_ok mbody_ok no_dup.
  intros V B [K1 K2 K3 K4 K5 K6 K7] D0 Al Om Hc. unfold deal.
  destruct (wstep dst body mbody is_async (c_work c dst) m) as [w'|] eqn:St.
  - assert (Lg : log w' = log (c_work c dst) ++ skipn (length (log (c_work c dst))) (log w')).
    { destruct (ainbox body mbody is_async body_ok mbody_ok prog (hist c) dst (map snd (c_in c dst)) V) as (N & NC).
      { intros x X. apply in_map_iff in X as ([s y] & <- & X). eapply ab_in; eauto. }
      assert (W : WI body mbody (c_work c dst)).
      { apply (wrun_wi dst body mbody is_async body_ok mbody_ok (map snd (c_in c dst)) winit); auto; [apply wi_init | apply B; auto]. }
      assert (Rd := run_inputs dst body mbody is_async body_ok mbody_ok _ winit _ (wi_init _ _) N NC eq_refl (ab_run _ _ _ _ _ B dst D0)).
      destruct (step_own dst body mbody is_async body_ok mbody_ok (c_work c dst) m w' W) as (t & L & _); auto; [apply Rd|].
      rewrite L at 2. rewrite skipn_exact. auto. }
    set (new := skipn (length (log (c_work c dst))) (log w')) in *.
    split; cbn [c_out c_in c_chan c_dead c_work c_done c_mon c_seen c_tasks]; auto.
    + intros w. destruct (K1 w) as (lost & L & Lz). exists lost. split; auto. rewrite L, Hc.
      replace (0 =? dst) with false by (symmetry; apply Nat.eqb_neq; auto).
      destruct (w =? dst) eqn:Ew; auto. apply Nat.eqb_eq in Ew. rewrite Ew in *.
      rewrite (Lz Al). rewrite (map_app snd), requests_app, <- app_assoc. auto.
    + intros w. destruct (Nat.eqb_spec w dst) as [->|Nw]; auto.
      destruct (K4 dst) as (pre & E). exists pre. rewrite Lg, WorkerDone.reports_app, E, <- app_assoc. auto.
    + destruct (in_dec Nat.eq_dec dst workers) as [Id|Nd].
      * assert (X := sum_one (fun w => length (c_done c w))
          (fun s => length (if s =? dst then c_done c s ++ reports new else c_done c s)) workers dst no_dup Id).
        assert (Y := sum_one (fun w => length (reports (log (c_work c w))))
          (fun r => length (reports (log (if r =? dst then w' else c_work c r)))) workers dst no_dup Id).
        simpl in X, Y. rewrite !Nat.eqb_refl, app_length in X. rewrite Nat.eqb_refl, Lg, WorkerDone.reports_app, app_length in Y.
        assert (X' := X ltac:(intros x Nx; destruct (Nat.eqb_spec x dst); [congruence|auto])).
        assert (Y' := Y ltac:(intros x Nx; destruct (Nat.eqb_spec x dst); [congruence|auto])). lia.
      * rewrite (sum_none (fun w => length (c_done c w)) _ workers dst); auto.
        2: { intros x Nx; destruct (Nat.eqb_spec x dst); [congruence|auto]. }
        rewrite K5. symmetry. apply sum_none with (w := dst); auto.
        intros x Nx; destruct (Nat.eqb_spec x dst); [congruence|auto].
  - split; cbn [c_out c_in c_chan c_dead c_work c_done c_mon c_seen c_tasks]; auto.
    intros w. destruct (K1 w) as (lost & L & Lz). rewrite Hc in L.
    destruct (w =? dst); [|exists lost; auto].
    exists (lost ++ requests [m]). split; [|discriminate]. rewrite L, <- app_assoc. auto.
Qed.

Lemma gtake_ak prog c src dst : gvalid prog -> AB prog c -> AK prog c -> AK prog (gtake body mbody is_async c src dst).
Proof using body_ok mbody_ok no_dup.
  intros V B K. unfold gtake. destruct (c_chan c src dst) as [|m l] eqn:Ch; auto.
  destruct (dst =? 0) eqn:D0; simpl; auto. apply Nat.eqb_neq in D0.
  destruct (c_dead c dst) eqn:Al; auto.
  assert (Om : aokm body mbody is_async prog (hist c) dst m) by (apply (ab_chan _ _ _ _ _ B src dst); rewrite Ch; simpl; auto).
  apply deal_ak; auto.
  - intros d v ->. eapply gives_clean; eauto.
  - intros w. destruct (Nat.eqb_spec w dst) as [->|Nw].
    + destruct (Nat.eq_dec src 0) as [->|Ns].
      * rewrite (drop_hit _ _ _ _ _ Ch). rewrite Ch, <- ClusterCount.requests_app. auto.
      * rewrite drop_keep by congruence. rewrite (ab_src _ _ _ _ _ B src dst m Ns); auto. rewrite Ch; simpl; auto.
    + rewrite drop_keep by congruence. auto.
Qed.

Lemma finish_ak prog c dst i : gvalid prog -> AB prog c -> AK prog c -> AK prog (finish body mbody is_async c dst i).
Proof using body_ok mbody_ok no_dup.
  intros V B K. unfold finish. destruct (nth_error _ _); auto.
  destruct (dst =? 0) eqn:D0; simpl; auto. apply Nat.eqb_neq in D0.
  destruct (c_dead c dst) eqn:Al; auto. apply deal_ak; auto.
  - discriminate.
  - intros w. simpl. destruct (w =? dst); auto.
Qed.

Lemma reply_ak prog c src : AK prog c -> AK prog (reply c src).
Proof.
  intros K. unfold reply. destruct (c_left c) as [|k] eqn:Lf; auto.
  destruct (c_chan c src 0) as [|m ch] eqn:Ch; auto. destruct m; auto.
  destruct K as [K1 K2 K3 K4 K5 K6 K7]. cbv zeta. split; cbn [c_out c_in c_chan c_dead c_work c_done c_mon c_seen c_tasks]; auto.
  - intros w. destruct (K1 w) as (lost & L & Lz). exists lost. split; auto. rewrite L.
    assert (X : requests (map snd (if w =? 0 then c_in c w ++ [(src, WPut d v)] else c_in c w)) = requests (map snd (c_in c w))).
    { destruct (w =? 0); auto. rewrite (map_app snd), requests_app. simpl. rewrite app_nil_r. auto. }
    rewrite X. do 2 f_equal.
    unfold drop_head. destruct (Nat.eqb_spec 0 src) as [<-|]; simpl; auto.
    destruct (Nat.eqb_spec w 0) as [->|]; simpl; auto. rewrite Ch. auto.
  - destruct K2 as [K2|K2]; auto. left. apply in_or_app; auto.
Qed.

(** The requests a worker has taken. *)
Lemma worker_holds prog c w : gvalid prog -> AB prog c -> w <> 0 ->
  length (reports (log (c_work c w))) <= length (ended (log (c_work c w))) /\
  Permutation (map q_id (requests (map snd (c_in c w))))
    (ended (log (c_work c w)) ++ map q_id (pend (c_work c w) ++ apend (c_work c w)) ++
     map (fun p => q_id (fst p)) (running (c_work c w))).
Proof using body_ok mbody_ok.
  intros V B W0.
  destruct (ainbox body mbody is_async body_ok mbody_ok prog (hist c) w (map snd (c_in c w)) V) as (N & NC).
  { intros x X. apply in_map_iff in X as ([s y] & <- & X). eapply ab_in; eauto. }
  assert (R := ab_run _ _ _ _ _ B w W0). split.
  - apply (few_reports w body mbody is_async body_ok mbody_ok _ _ N R).
  - assert (L := none_lost w body mbody is_async body_ok mbody_ok _ _ N R NC).
    destruct (run_inputs w body mbody is_async body_ok mbody_ok _ winit _ (wi_init _ _) N NC eq_refl R) as [In _].
    simpl in In. rewrite received_inputs, In in L. exact L.
Qed.

Notation placed := (placed workers).

Lemma done_ak prog c src : gvalid prog -> placed prog -> AB prog c -> AK prog c -> AK prog (done workers c src).
Proof using body_ok mbody_ok no_dup.
  intros V Pl B K. unfold done. destruct (c_done c src) as [|ds l] eqn:Dn; auto.
  assert (Is : In src workers).
  { destruct (ak_done _ _ K src) as (pre & E). rewrite Dn in E.
    destruct (Nat.eq_dec src 0) as [->|N0].
    - exfalso. rewrite (ab_zero _ _ _ _ _ B) in E. simpl in E. symmetry in E. apply app_eq_nil in E as [_ E]. discriminate.
    - destruct (worker_holds prog c src V B N0) as (A & P).
      apply (f_equal (@length _)) in E. rewrite app_length in E. simpl in E.
      apply Permutation_length in P. rewrite map_length, app_length in P.
      destruct (ak_sent _ _ K src) as (lost & Q & _).
      destruct (requests (map snd (c_in c src))) as [|q r] eqn:Rq; [simpl in P; lia|].
      apply (Pl src q). apply (ak_known _ _ K src q). rewrite Q. simpl; auto. }
  destruct (count_step workers (c_mon c) src ds (ak_stop _ _ K)) as (s' & -> & Mc & Ms).
  destruct K as [K1 K2 K3 K4 K5 K6 K7]. split; simpl; auto.
  - intros w. destruct (Nat.eqb_spec w src) as [->|]; auto. rewrite Dn. simpl.
    destruct (K4 src) as (pre & E). exists (pre ++ [ds]). rewrite E, Dn, <- app_assoc. auto.
  - assert (X := sum_one (fun w => length (c_done c w))
      (fun s => length (if s =? src then tl (c_done c s) else c_done c s)) workers src no_dup Is).
    simpl in X. rewrite !Nat.eqb_refl, Dn in X. simpl in X.
    assert (X' := X ltac:(intros x Nx; destruct (Nat.eqb_spec x src); [congruence|auto])).
    rewrite Mc. lia.
Qed.

Lemma step_ak g o : AB (g_prog g) (g_c g) -> gvalid (g_prog (gstep g o)) -> placed (g_prog (gstep g o)) ->
  AK (g_prog g) (g_c g) -> AK (g_prog (gstep g o)) (g_c (gstep g o)).
Proof using body_ok mbody_ok no_dup.
  intros B V Pl K. destruct o; simpl in *.
  - destruct (c_left (g_c g)); auto. destruct p; simpl in *.
    + apply root_step_ak; auto. apply B.
    + apply root_call_ak; auto. apply B.
  - apply gtake_ak; auto.
  - apply reply_ak; auto.
  - apply done_ak; auto.
  - apply finish_ak; auto.
Qed.

Lemma placed_prefix a b : placed (a ++ b) -> placed a.
Proof. clear. intros H dest q I. apply (H dest q). rewrite gsub_app. apply in_or_app; auto. Qed.

Lemma run_ak mgr ops : gvalid (g_prog (grun mgr ops)) -> placed (g_prog (grun mgr ops)) ->
  AK (g_prog (grun mgr ops)) (g_c (grun mgr ops)).
Proof using body_ok mbody_ok no_dup.
  induction ops as [|o ops IH] using rev_ind; intros V P.
  - apply init_ak.
  - rewrite grun_snoc in *. destruct (gprog_grows workers body mbody is_async (grun mgr ops) o) as (l & L).
    assert (V0 : gvalid (g_prog (grun mgr ops))) by (rewrite L in V; eapply gvalid_prefix; eauto).
    assert (P0 : placed (g_prog (grun mgr ops))) by (rewrite L in P; eapply placed_prefix; eauto).
    apply step_ak; auto. apply run_ab; auto.
Qed.

(** What is unfinished when the counts are equal: no more requests than there are calls of methods. *)
Definition open_ids (c : cst) (w : rank) : list nat :=
  map q_id (pend (c_work c w) ++ apend (c_work c w)) ++ map (fun p => q_id (fst p)) (running (c_work c w)).

Lemma sum_lengths {A} (f : rank -> list A) l : length (flat_map f l) = sumf (fun w => length (f w)) l.
Proof. clear. unfold sumf. induction l; simpl; auto. rewrite app_length, IHl. auto. Qed.

Lemma few_open mgr ops : ~ In 0 workers -> let g := grun mgr ops in gvalid (g_prog g) -> placed (g_prog g) ->
  mcount (c_mon (g_c g)) = c_tasks (g_c g) ->
  exists l, length l <= length (gcalls (g_prog g)) /\
    (forall w q, In w workers -> In q (requests (sends_to w (c_out (g_c g)))) -> In (q_id q) (ended (log (c_work (g_c g) w))) \/ In (q_id q) l) /\
    (forall w q, In w workers -> In (q_id q) (open_ids (g_c g) w) -> In (q_id q) l).
Proof using body_ok mbody_ok no_dup.
  cbv zeta. intros Z V P Eq. assert (B := run_ab workers body mbody is_async body_ok mbody_ok mgr ops V).
  assert (K := run_ak mgr ops V P). set (g := grun mgr ops) in *. set (c := g_c g) in *. clearbody g.
  assert (L : exists f : rank -> list nat, forall w, In w workers ->
    Permutation (map q_id (requests (sends_to w (c_out c)))) (ended (log (c_work c w)) ++ f w) /\ incl (open_ids c w) (f w)).
  { assert (H : forall w, w <> 0 -> exists l,
      Permutation (map q_id (requests (sends_to w (c_out c)))) (ended (log (c_work c w)) ++ l) /\ incl (open_ids c w) l).
    { intros w W0. destruct (worker_holds _ c w V B W0) as (_ & Pw). destruct (ak_sent _ _ K w) as (lost & Q & _).
      exists (open_ids c w ++ map q_id (lost ++ requests (c_chan c 0 w))). split.
      - rewrite Q, map_app, Pw. unfold open_ids. rewrite <- !app_assoc. auto.
      - intros x X. apply in_or_app; auto. }
    assert (G : forall ws, ~ In 0 ws -> exists f : rank -> list nat, forall w, In w ws ->
      Permutation (map q_id (requests (sends_to w (c_out c)))) (ended (log (c_work c w)) ++ f w) /\ incl (open_ids c w) (f w)).
    { clear - H. induction ws as [|x ws IH]; intros Z; [exists (fun _ => []); intros w []|].
      destruct IH as (f & F); [simpl in Z; tauto|]. destruct (H x) as (l & L); [intros ->; simpl in Z; tauto|].
      exists (fun w => if w =? x then l else f w). intros w [<-|W]; [rewrite Nat.eqb_refl; auto|].
      destruct (Nat.eqb_spec w x) as [->|]; auto. }
    auto. }
  destruct L as (f & F). exists (flat_map f workers). split; [|split].
  - rewrite sum_lengths.
    assert (S1 : sumf (fun w => length (requests (sends_to w (c_out c)))) workers =
                 sumf (fun w => length (ended (log (c_work c w))) + length (f w)) workers).
    { apply sumf_ext. intros w W. destruct (F w W) as [X _]. apply Permutation_length in X.
      rewrite map_length, app_length in X. auto. }
    rewrite sum_plus in S1.
    assert (S2 : sumf (fun w => length (reports (log (c_work c w)))) workers <= sumf (fun w => length (ended (log (c_work c w)))) workers).
    { apply sum_le. intros w W. apply (worker_holds _ c w V B). intros ->; tauto. }
    assert (A := ak_count _ _ K). assert (T := ak_tasks _ _ K). lia.
  - intros w q W I. destruct (F w W) as [X _]. apply (in_map q_id) in I. rewrite X in I. apply in_app_or in I as [I|I]; auto.
    right. apply in_flat_map. eauto.
  - intros w q W I. destruct (F w W) as [_ X]. apply in_flat_map. eauto.
Qed.

Lemma cleaned_equal g ds : c_seen (g_c (gstep g (GRoot (GP (RClean ds))))) = c_seen (g_c g) ++ [RCleaned ds] ->
  mcount (c_mon (g_c g)) = c_tasks (g_c g).
Proof.
  clear. intros H. simpl in H. destruct (c_left (g_c g)); [|exfalso; revert H; clear; induction (c_seen (g_c g)); simpl; congruence].
  simpl in H. destruct (Nat.eqb_spec (mcount (c_mon (g_c g))) (c_tasks (g_c g))); auto.
  exfalso. simpl in H. rewrite app_nil_r in H. revert H. clear. induction (c_seen (g_c g)); simpl; congruence.
Qed.

Lemma cleaned_few mgr ops ds : ~ In 0 workers -> let g := grun mgr ops in gvalid (g_prog g) -> placed (g_prog g) ->
  c_seen (g_c (gstep g (GRoot (GP (RClean ds))))) = c_seen (g_c g) ++ [RCleaned ds] -> ~ In RError (c_seen (g_c g)) ->
  exists l, length l <= length (gcalls (g_prog g)) /\
    forall dest q, In (dest, q) (gsubmitted (g_prog g)) -> In (q_id q) (ended (log (c_work (g_c g) dest))) \/ In (q_id q) l.
Proof using body_ok mbody_ok no_dup.
  cbv zeta. intros Z V P H NE. assert (Eq := cleaned_equal _ _ H).
  assert (K := run_ak mgr ops V P). destruct (few_open mgr ops Z V P Eq) as (l & Ll & A & _).
  exists l. split; auto. intros dest q I. apply A; [eapply P; eauto|].
  destruct (ak_prog _ _ K) as [X|X]; [tauto|]. rewrite X. apply in_for_rank; auto.
Qed.

Lemma cleaned_all mgr ops ds : ~ In 0 workers -> let g := grun mgr ops in gvalid (g_prog g) -> placed (g_prog g) ->
  gcalls (g_prog g) = [] ->
  c_seen (g_c (gstep g (GRoot (GP (RClean ds))))) = c_seen (g_c g) ++ [RCleaned ds] ->
  (forall w, In w workers -> pend (c_work (g_c g) w) = [] /\ running (c_work (g_c g) w) = []) /\
  (~ In RError (c_seen (g_c g)) -> forall dest q, In (GP (RSubmit dest q)) (g_prog g) -> In (q_id q) (ended (log (c_work (g_c g) dest)))).
Proof using body_ok mbody_ok no_dup.
  cbv zeta. intros Z V P Nc H. assert (Eq := cleaned_equal _ _ H). destruct (few_open mgr ops Z V P Eq) as (l & Ll & A & O).
  rewrite Nc in Ll. assert (El : l = []) by (apply length_zero_iff_nil; simpl in Ll; lia). subst l. split.
  - intros w W. unfold open_ids in O.
    set (x := c_work (g_c (grun mgr ops)) w) in *.
    destruct (pend x) as [|q r] eqn:Ep; [|destruct (O w q W); fold x; rewrite Ep; simpl; auto].
    split; auto. destruct (running x) as [|[q y] r] eqn:Er; auto.
    destruct (O w q W). fold x. rewrite Er. apply in_or_app. right. simpl; auto.
  - intros NE dest q I. destruct (cleaned_few mgr ops ds Z V P H NE) as (l & L2 & X). rewrite Nc in L2.
    destruct l; [|simpl in L2; lia]. destruct (X dest q) as [Y|[]]; auto. apply in_gsub; auto.
Qed.
End Count.
