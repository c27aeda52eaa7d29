(** When everything has ended, are the two task counts equal? *)
From Verif Require Import Lib ValModel ShmModel PushModel WorkerModel WorkerSpec WorkerProofs WorkerLog WorkerTrace
  WorkerReady WorkerOrder WorkerThms WorkerDone MonModel ShutProofs ClusterModel ClusterSpec ClusterSeq ClusterProofs
  ClusterCount ActModel ActSpec ActGives ActProofs ActCount.
From Coq Require Import Permutation.

Lemma calls_app a b : gcalls (a ++ b) = gcalls a ++ gcalls b.
Proof. apply flat_map_app. Qed.

(** The requests for each worker make up all of them. *)
Lemma ranks_sum workers l : NoDup workers -> (forall dest q, In (dest, q) l -> In dest workers) ->
  sumf (fun w => length (for_rank w l)) workers = length l.
Proof.
  intros ND. induction l as [|[r q] l IH]; intros H.
  - clear. unfold sumf. induction workers; simpl; auto.
  - rewrite (sumf_ext _ (fun w => length (if r =? w then [q] else []) + length (for_rank w l))).
    + rewrite sum_plus, IH by (intros dest x I; apply (H dest x); simpl; auto).
      assert (Ir : In r workers) by (apply (H r q); simpl; auto). clear H IH.
      assert (X : sumf (fun w => length (if r =? w then [q] else [])) workers = 1).
      { assert (Z : forall l, ~ In r l -> sumf (fun w => length (if r =? w then [q] else [])) l = 0).
        { clear. unfold sumf. induction l as [|y l IH]; intros N; auto. simpl in *.
          destruct (Nat.eqb_spec r y); [subst; tauto|]. simpl. apply IH. tauto. }
        induction ND as [|x ws N ND IH]; [destruct Ir|].
        destruct Ir as [->|Ir].
        - specialize (Z ws N). unfold sumf in *. simpl. rewrite Nat.eqb_refl. simpl. lia.
        - unfold sumf in *. simpl. destruct (Nat.eqb_spec r x); [subst; tauto|]. simpl. auto. }
      simpl. lia.
    + intros w _. unfold for_rank. simpl. destruct (r =? w); auto.
Qed.

Section Reclaim.
Variable workers : list rank.
Variable body : val -> val -> val -> result.
Variable mbody : list call -> call -> result.
Variable is_async : callee -> bool.
Hypothesis body_ok : forall f a k, no_refs_returned (body f a k).
Hypothesis mbody_ok : forall h c, no_refs_returned (mbody h c).
Hypothesis no_dup : NoDup workers.
Hypothesis no_zero : ~ In 0 workers.
Notation grun := (grun workers body mbody is_async).
Notation gstep := (gstep workers body mbody is_async).

(** The root's counter: the tasks submitted, without the calls. *)
Definition counted (prog : list gprog) (c : cst) : Prop :=
  In RError (c_seen c) \/ c_tasks c + length (gcalls prog) = length (gsubmitted prog).

Ltac keep H := destruct H as [H|H]; [left; try (apply in_or_app; left); exact H|right; simpl in *; lia].

Lemma counted_root prog c p : counted prog c ->
  counted (prog ++ [p]) (match p with GP o => root_step workers c o | GC dest nd q => root_call c dest nd q end).
Proof.
  clear. intros H. unfold counted in *. rewrite calls_app, gsub_app, !app_length.
  destruct p as [o|dest nd q].
  - destruct o; cbn [root_step]; cbv zeta; cbn [root_to c_seen c_tasks gcalls gsubmitted flat_map app length].
    + rewrite app_nil_r. keep H.
    + destruct (submit _ _ _ _ _ _ _); [rewrite app_nil_r; keep H|left; apply in_or_app; simpl; auto].
    + destruct (filter _ ds).
      * cbn [root_to c_seen c_tasks]. keep H.
      * destruct (owners _ _).
        -- cbn [set_get root_to c_seen c_tasks]. rewrite app_nil_r. keep H.
        -- left. apply in_or_app. simpl; auto.
    + rewrite app_nil_r. keep H.
    + destruct (Nat.eqb _ _); cbn [root_to c_seen c_tasks]; keep H.
  - unfold root_call. cbv zeta. cbn [c_seen c_tasks gcalls gsubmitted flat_map app length].
    destruct (submit _ _ _ _ _ _ _); [rewrite app_nil_r; keep H|left; apply in_or_app; simpl; auto].
Qed.

Lemma counted_deal prog c src dst m ch : counted prog c -> counted prog (deal body mbody is_async c src dst m ch).
Proof. clear. unfold deal. destruct (wstep _ _ _ _ _ _); auto. Qed.

Lemma counted_run mgr ops : counted (g_prog (grun mgr ops)) (g_c (grun mgr ops)).
Proof.
  clear. induction ops as [|o ops IH] using rev_ind.
  - right. reflexivity.
  - rewrite grun_snoc. destruct o; simpl.
    + destruct (c_left _); auto. apply counted_root. auto.
    + unfold gtake. destruct (c_chan _ _ _); auto. destruct (_ || _); auto. apply counted_deal. auto.
    + unfold reply. destruct (c_left _); auto. destruct (c_chan _ _ _) as [|m l]; auto. destruct m; auto.
      destruct IH as [E|E]; [left; simpl; apply in_or_app; auto|right; simpl; auto].
    + unfold done. destruct (c_done _ _); auto.
    + unfold finish. destruct (nth_error _ _); auto. destruct (_ || _); auto. apply counted_deal. auto.
Qed.

(** When every task and call has ended, as many have as there are. *)
Lemma ended_count mgr ops : let g := grun mgr ops in gvalid (g_prog g) -> placed workers (g_prog g) ->
  ~ In RError (c_seen (g_c g)) ->
  (forall dest q, In (dest, q) (gsubmitted (g_prog g)) -> In (q_id q) (ended (log (c_work (g_c g) dest)))) ->
  sumf (fun w => length (ended (log (c_work (g_c g) w)))) workers = length (gsubmitted (g_prog g)).
Proof using body_ok mbody_ok no_dup no_zero.
  cbv zeta. intros V P NE All.
  assert (B := run_ab workers body mbody is_async body_ok mbody_ok mgr ops V).
  assert (K := run_ak workers body mbody is_async body_ok mbody_ok no_dup mgr ops V P).
  set (g := grun mgr ops) in *. clearbody g.
  rewrite <- (ranks_sum workers (gsubmitted (g_prog g)) no_dup P). apply sumf_ext. intros w W.
  destruct (worker_holds body mbody is_async body_ok mbody_ok _ (g_c g) w V B) as (_ & Pw); [intros ->; auto|].
  destruct (ak_sent _ _ _ K w) as (lost & Q & _). destruct (ak_prog _ _ _ K) as [X|X]; [tauto|].
  rewrite X in Q. apply Nat.le_antisymm.
  - apply Permutation_length in Pw. rewrite map_length, app_length in Pw. rewrite Q, app_length. lia.
  - rewrite <- (map_length q_id (for_rank _ _)). apply NoDup_incl_length.
    + assert (N := gv_ids _ V). clear - N. unfold for_rank. induction (gsubmitted (g_prog g)) as [|[r q] l IH]; simpl; [constructor|].
      inversion N as [|? ? N1 N2]; subst. specialize (IH N2). destruct (r =? w); simpl; auto. constructor; auto.
      intros I. apply N1. apply in_map_iff in I as (q' & E & I). apply in_map_iff in I as ([r' q''] & E' & I). simpl in E'. subst q''.
      apply filter_In in I as [I _]. apply in_map_iff. exists (r', q'). auto.
    + intros n I. apply in_map_iff in I as (q & <- & I). apply in_for_rank in I. auto.
Qed.

(** Every end of a function is reported. *)
Lemma all_reported mgr ops w : (forall c, is_async c = false) -> let g := grun mgr ops in gvalid (g_prog g) -> w <> 0 ->
  length (reports (log (c_work (g_c g) w))) = length (ended (log (c_work (g_c g) w))).
Proof using body_ok mbody_ok.
  cbv zeta. intros Sy V W0. assert (B := run_ab workers body mbody is_async body_ok mbody_ok mgr ops V).
  set (g := grun mgr ops) in *. clearbody g.
  destruct (ainbox body mbody is_async body_ok mbody_ok (g_prog g) (hist (g_c g)) w (map snd (c_in (g_c g) w)) V) as (N & NC).
  { intros x X. apply in_map_iff in X as ([s y] & <- & X). eapply ab_in; eauto. }
  exact (one_report w body mbody is_async body_ok mbody_ok Sy _ _ N (ab_run _ _ _ _ _ B w W0)).
Qed.

Lemma reclaim_iff mgr ops ds : (forall c, is_async c = false) -> let g := grun mgr ops in
  gvalid (g_prog g) -> placed workers (g_prog g) -> ~ In RError (c_seen (g_c g)) -> c_left (g_c g) = 0 ->
  (forall dest q, In (dest, q) (gsubmitted (g_prog g)) -> In (q_id q) (ended (log (c_work (g_c g) dest)))) ->
  (forall w, In w workers -> c_done (g_c g) w = []) ->
  mcount (c_mon (g_c g)) = c_tasks (g_c g) + length (gcalls (g_prog g)) /\
  (c_seen (g_c (gstep g (GRoot (GP (RClean ds))))) = c_seen (g_c g) ++ [RCleaned ds] <-> gcalls (g_prog g) = []) /\
  (gcalls (g_prog g) <> [] -> c_seen (g_c (gstep g (GRoot (GP (RClean ds))))) = c_seen (g_c g)).
Proof using body_ok mbody_ok no_dup no_zero.
  cbv zeta. intros Sy V P NE Lf All Dn.
  assert (K := run_ak workers body mbody is_async body_ok mbody_ok no_dup mgr ops V P).
  assert (E := ended_count mgr ops V P NE All).
  assert (C : mcount (c_mon (g_c (grun mgr ops))) = c_tasks (g_c (grun mgr ops)) + length (gcalls (g_prog (grun mgr ops)))).
  { destruct (counted_run mgr ops) as [X|X]; [tauto|]. rewrite X, <- E.
    assert (A := ak_count _ _ _ K).
    assert (Z : sumf (fun w => length (c_done (g_c (grun mgr ops)) w)) workers = 0).
    { revert Dn. generalize (c_done (g_c (grun mgr ops))). clear. intros f Dn. unfold sumf. induction workers as [|x l IH]; auto. simpl. rewrite Dn by (simpl; auto). simpl.
      apply IH. intros w W. apply Dn. simpl; auto. }
    rewrite Z, Nat.add_0_r in A. rewrite A. apply sumf_ext. intros w W. apply all_reported; auto. intros ->; auto. }
  set (g := grun mgr ops) in *. clearbody g. split; [exact C|].
  assert (St : c_seen (g_c (gstep g (GRoot (GP (RClean ds))))) =
    c_seen (g_c g) ++ (if mcount (c_mon (g_c g)) =? c_tasks (g_c g) then [RCleaned ds] else [])).
  { simpl. rewrite Lf. simpl. destruct (_ =? _); simpl; auto. }
  rewrite St. destruct (Nat.eqb_spec (mcount (c_mon (g_c g))) (c_tasks (g_c g))) as [Eq|Ne].
  - split; [|intros H; destruct H; apply length_zero_iff_nil; lia]. split; auto. intros _. apply length_zero_iff_nil. lia.
  - split.
    + split; [intros H; apply app_inv_head in H; discriminate|intros H; exfalso; apply Ne; rewrite C, H; simpl; lia].
    + intros _. apply app_nil_r.
Qed.
End Reclaim.
