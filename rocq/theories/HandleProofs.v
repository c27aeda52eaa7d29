(** Created actors: a worker of HandleModel is a worker of WorkerModel. *)
From Verif Require Import Lib ValModel WorkerModel WorkerSpec WorkerProofs WorkerLog WorkerTrace WorkerThms HandleModel HandleSpec HandleExt.

Lemma lookup_spec {C} (l : list (made C)) h : forall i j, lookup l h i = Some j ->
  i <= j /\ exists x, nth_error l (j - i) = Some x /\ a_handle x = h.
Proof.
  induction l as [|x l IH]; intros i j H; simpl in H; [discriminate|].
  destruct (lookup l h (S i)) as [j'|] eqn:E.
  - apply Some_inj in H as ->. apply IH in E as (L & y & Hy & Ey). split; [lia|]. exists y.
    replace (j - i) with (S (j - S i)) by lia. auto.
  - destruct (did_eqb (a_handle x) h) eqn:Q; [|discriminate]. apply Some_inj in H as <-.
    split; [lia|]. exists x. rewrite Nat.sub_diag. split; auto. apply did_eqb_eq; auto.
Qed.

Lemma lookup_none {C} (l : list (made C)) h : forall i, lookup l h i = None <-> ~ In h (map a_handle l).
Proof.
  induction l as [|x l IH]; intros i; simpl; [tauto|].
  destruct (lookup l h (S i)) as [j|] eqn:E.
  - split; [discriminate|]. intros H. assert (X : lookup l h (S i) = None) by (apply IH; tauto). congruence.
  - apply IH in E. destruct (did_eqb (a_handle x) h) eqn:Q.
    + apply did_eqb_eq in Q. split; [discriminate|]. tauto.
    + apply did_eqb_neq in Q. tauto.
Qed.

(** The messages as WorkerModel sees them; k calls came before. *)
Fixpoint plainly (k : nat) (ms : list hmsg) : list wmsg :=
  match ms with
  | [] => []
  | HM m :: r => if direct m then plainly k r else m :: plainly k r
  | HCreate _ _ _ _ :: r => plainly k r
  | HCall _ _ q :: r => WActor (with_method q k) :: plainly (S k) r
  end.

Lemma wrun_ready self body mb as0 ms : forall w, ready w = true -> wrun self body mb as0 w ms = Some w.
Proof.
  induction ms as [|m ms IH]; intros w H; simpl; auto.
  unfold wstep. rewrite H. auto.
Qed.

Section Refine.
Variable C : classes.
Variable self : rank.
Variable body : val -> val -> val -> result.
Variable fco : val -> bool.

Definition in_range (made : list (made C)) (bound : list (nat * nat)) : Prop :=
  Forall (fun p => fst p < length made) bound.

Lemma object_ext bound x i l o : few (length bound) l -> object_now C (bound ++ x) i l o = object_now C bound i l o.
Proof using Type.
  unfold object_now. revert o. induction l as [|c l IH]; intros o F; simpl; auto.
  inversion F; subst. rewrite nth_error_app1; auto.
Qed.

Lemma hbody_ext made bound y x : in_range made bound -> forall h c, few (length bound) h -> c_method c < length bound ->
  hbody C made bound h c = hbody C (made ++ y) (bound ++ x) h c.
Proof using Type.
  intros R h c F L. unfold hbody. rewrite nth_error_app1; auto.
  destruct (nth_error bound (c_method c)) as [[i n]|] eqn:E; auto.
  assert (i < length made). { apply nth_error_In in E. unfold in_range in R. rewrite Forall_forall in R. apply R in E. auto. }
  rewrite nth_error_app1; auto. destruct (nth_error made i); auto. rewrite object_ext; auto.
Qed.

Lemma hasync_ext made bound y x : in_range made bound -> forall c, ok_callee (length bound) c ->
  hasync C fco made bound c = hasync C fco (made ++ y) (bound ++ x) c.
Proof using Type.
  intros R c O. destruct c as [f|m]; simpl in *; auto. rewrite nth_error_app1; auto.
  destruct (nth_error bound m) as [[i n]|] eqn:E; auto.
  assert (i < length made). { apply nth_error_In in E. unfold in_range in R. rewrite Forall_forall in R. apply R in E. auto. }
  rewrite nth_error_app1; auto.
Qed.

Definition OKs (s : hst C) : Prop := in_range (hmade s) (hbound s) /\ OKw (length (hbound s)) (hw s).
Definition extends (s s' : hst C) : Prop :=
  (exists y, hmade s' = hmade s ++ y) /\ (exists x, hbound s' = hbound s ++ x).

Lemma extends_refl s : extends s s.
Proof using Type. split; exists []; rewrite app_nil_r; auto. Qed.
Lemma extends_trans a b c : extends a b -> extends b c -> extends a c.
Proof using Type.
  intros [[y A] [x B]] [[y' D] [x' E]]. split; [exists (y ++ y'); rewrite D, A, app_assoc; auto|exists (x ++ x'); rewrite E, B, app_assoc; auto].
Qed.

Lemma inner_ok s bound m s' : (exists x, bound = hbound s ++ x) -> in_range (hmade s) bound -> OKw (length bound) (hw s) ->
  ok_msg (length bound) m -> inner C self body fco s bound m = Lives s' ->
  OKs s' /\ extends s s' /\ hmade s' = hmade s /\ hbound s' = bound /\
  forall sf, extends s' sf -> wstep self body (hbody C (hmade sf) (hbound sf)) (hasync C fco (hmade sf) (hbound sf)) (hw s) m = Some (hw s').
Proof using Type.
  intros Hx R O M. unfold inner. destruct (wstep self body _ _ (hw s) m) as [w|] eqn:E; [|discriminate].
  intros H. injection H as <-. split; [|split; [|split; [|split]]]; auto.
  - split; auto. simpl. eapply wstep_ok; eauto.
  - split; simpl; auto. exists []. rewrite app_nil_r; auto.
  - intros sf [[y Hy] [x Hb]]. simpl in *. rewrite Hy, Hb. rewrite <- E. symmetry.
    apply wstep_ext with (N := length bound); auto.
    + intros. apply hbody_ext; auto.
    + intros. apply hasync_ext; auto.
Qed.

Lemma ok_with_method q N : ok_q (S N) (with_method q N).
Proof using Type. unfold ok_q. simpl. lia. Qed.
Lemma ok_direct m N : direct m = false -> ok_msg N m.
Proof using Type. destruct m; simpl; auto; try discriminate. unfold ok_q. destruct (q_fn q); auto; discriminate. Qed.

Lemma call_lives s h nd q s' : ready (hw s) = false -> hstep C self body fco s (HCall h nd q) = Lives s' ->
  exists n i x, store (hw s) nd = Some (VLeaf n) /\ lookup (hmade s) h 0 = Some i /\ nth_error (hmade s) i = Some x /\
    a_handle x = h /\ i < length (hmade s) /\
    inner C self body fco s (hbound s ++ [(i, n)]) (WActor (with_method q (length (hbound s)))) = Lives s'.
Proof using Type.
  intros R. simpl. rewrite R. destruct (store (hw s) nd) as [v|]; [|discriminate].
  destruct v; try discriminate. destruct (lookup (hmade s) h 0) as [i|] eqn:L; [|discriminate].
  destruct (nth_error (hmade s) i) as [x|] eqn:N; [|discriminate].
  destruct (has C _ n); [|discriminate]. intros H. exists n, i, x.
  apply lookup_spec in L as (_ & y & Hy & Ey). rewrite Nat.sub_0_r in Hy. assert (x = y) by congruence. subst y.
  repeat split; auto. apply nth_error_Some. congruence.
Qed.

Lemma range_app made bound i (n : nat) : in_range made bound -> i < length made -> in_range made (bound ++ [(i, n)]).
Proof using Type. intros R L. apply Forall_app. split; auto. Qed.
Lemma range_made made bound y : in_range made bound -> in_range (made ++ y) bound.
Proof using Type. intros R. eapply Forall_impl; [|exact R]. intros p. rewrite app_length. lia. Qed.

(** What one step is: the same step of WorkerModel, or none. *)
Lemma hstep_ok s m s' : OKs s -> hstep C self body fco s m = Lives s' ->
  OKs s' /\ extends s s' /\
  forall sf k ms, extends s' sf -> (ready (hw s) = false -> k = length (hbound s)) ->
  wrun self body (hbody C (hmade sf) (hbound sf)) (hasync C fco (hmade sf) (hbound sf)) (hw s) (plainly k (m :: ms)) =
  wrun self body (hbody C (hmade sf) (hbound sf)) (hasync C fco (hmade sf) (hbound sf)) (hw s')
    (plainly (match m with HCall _ _ _ => S k | _ => k end) ms).
Proof using Type.
  intros [R O] H. destruct m as [m|h c a k|h nd q].
  - simpl in H. destruct (direct m) eqn:Dm.
    + injection H as <-. split; [split; auto|]. split; [apply extends_refl|]. intros sf k ms _ _.
      simpl. rewrite Dm. auto.
    + eapply inner_ok in H as (A & B & _ & _ & D); auto; [|exists []; rewrite app_nil_r; auto|apply ok_direct; auto].
      split; auto. split; auto. intros sf k ms E _. simpl. rewrite Dm. simpl. rewrite D; auto.
  - simpl in H. destruct (ready (hw s)) eqn:Rd.
    + injection H as <-. split; [split; auto|]. split; [apply extends_refl|]. intros. simpl. auto.
    + destruct (construct C c a k) as [o|]; [|discriminate]. injection H as <-.
      split; [split; simpl; auto; apply range_made; auto|].
      split; [split; simpl; [eauto|exists []; rewrite app_nil_r; auto]|]. intros. simpl. auto.
  - destruct (ready (hw s)) eqn:Rd.
    + simpl in H. rewrite Rd in H. injection H as <-. split; [split; auto|]. split; [apply extends_refl|].
      intros. rewrite !wrun_ready; auto.
    + apply call_lives in H as (n & i & x & _ & _ & Hx & _ & L & H); auto.
      assert (LE : length (hbound s ++ [(i, n)]) = S (length (hbound s))) by (rewrite app_length; simpl; lia).
      eapply inner_ok in H as (A & B & _ & _ & D); eauto.
      * split; auto. split; auto. intros sf k ms E K. specialize (K eq_refl). subst k. simpl. rewrite D; auto.
      * apply range_app; auto.
      * rewrite LE. eapply okw_mono; [|exact O]. lia.
      * rewrite LE. simpl. apply ok_with_method.
Qed.

Lemma ready_keeps s m s' : hstep C self body fco s m = Lives s' -> ready (hw s') = false -> ready (hw s) = false.
Proof using Type.
  intros H. destruct (ready (hw s)) eqn:R; auto. destruct m as [m|h c a k|h nd q]; simpl in H; rewrite ?R in H.
  - destruct (direct m); [injection H as <-; congruence|]. unfold inner, wstep in H. rewrite R in H. injection H as <-. simpl. congruence.
  - injection H as <-. congruence.
  - injection H as <-. congruence.
Qed.

Lemma bound_grows s m s' : hstep C self body fco s m = Lives s' -> ready (hw s) = false ->
  length (hbound s') = match m with HCall _ _ _ => S (length (hbound s)) | _ => length (hbound s) end.
Proof using Type.
  intros H R. destruct m as [m|h c a k|h nd q].
  - simpl in H. destruct (direct m); [injection H as <-; auto|]. unfold inner in H.
    destruct (wstep _ _ _ _ _ _); [|discriminate]. injection H as <-. auto.
  - simpl in H. rewrite R in H. destruct (construct C c a k); [|discriminate]. injection H as <-. auto.
  - apply call_lives in H as (n & i & x & _ & _ & _ & _ & _ & H); auto. unfold inner in H.
    destruct (wstep _ _ _ _ _ _); [|discriminate]. injection H as <-. simpl. rewrite app_length. simpl. lia.
Qed.

Lemma hrun_refines ms : forall s sf, OKs s -> hrun C self body fco s ms = Lives sf ->
  OKs sf /\ extends s sf /\ forall k, (ready (hw s) = false -> k = length (hbound s)) ->
  wrun self body (hbody C (hmade sf) (hbound sf)) (hasync C fco (hmade sf) (hbound sf)) (hw s) (plainly k ms) = Some (hw sf).
Proof using Type.
  induction ms as [|m ms IH]; intros s sf O H; simpl in H.
  - injection H as <-. split; auto. split; [apply extends_refl|]. auto.
  - destruct (hstep C self body fco s m) as [s1|] eqn:E; [|discriminate].
    destruct (hstep_ok s m s1 O E) as (O1 & X1 & W). destruct (IH s1 sf O1 H) as (Of & Xf & Wf).
    split; auto. split; [eapply extends_trans; eauto|]. intros k K. rewrite (W sf k ms Xf K). apply Wf.
    intros R1. assert (R0 := ready_keeps _ _ _ E R1). rewrite (bound_grows _ _ _ E R0). specialize (K R0).
    destruct m; auto.
Qed.

Lemma ok_init : OKs hinit.
Proof using Type. split; [constructor|]. split; constructor. Qed.

Lemma hrun_wrun ms s : hrun C self body fco hinit ms = Lives s ->
  wrun self body (hbody C (hmade s) (hbound s)) (hasync C fco (hmade s) (hbound s)) winit (plainly 0 ms) = Some (hw s).
Proof using Type. intros H. destruct (hrun_refines ms hinit s ok_init H) as (_ & _ & W). apply W. auto. Qed.
End Refine.
