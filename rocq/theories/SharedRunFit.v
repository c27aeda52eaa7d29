(** What the proofs about the system with shared memory need to know about its processes. *)
From Verif Require Import Lib ValModel ShmModel PushModel PushProofs WorkerModel WorkerSpec WorkerLog WorkerTrace
  WorkerAnswer WorkerOrder WorkerThms WorkerSends WorkerWant WorkerNeed MonModel ShutProofs ClusterModel ClusterSpec ClusterSeq
  ClusterProofs ClusterCount ClusterRoot ClusterNet ClusterGhost ClusterEnd ClusterClean ClusterQuiet ClusterGone.

Section Fit.
Variable workers : list rank.
Variable body : val -> val -> val -> result.
Hypothesis body_ok : forall f a k, no_refs_returned (body f a k).
Hypothesis no_root : ~ In 0 workers.
Hypothesis no_dup : NoDup workers.
Notation crun := (crun workers body).
Notation E := (sequential body).

Record Fit (c : cst) : Prop := {
  f_val : forall s w d v, In (WPut d v) (c_chan c s w) -> E (c_prog c) d = Some v;
  f_made : forall s w d v, s <> 0 -> In (WPut d v) (c_chan c s w) -> made (c_prog c) s d;
  f_quiet : forall s w d v, In d (dead c) -> ~ In (WPut d v) (c_chan c s w);
  f_vals : forall d v, c_vals c d = Some v -> E (c_prog c) d = Some v;
  f_store : forall w d v, w <> 0 -> store (c_work c w) d = Some v -> E (c_prog c) d = Some v;
  f_clean : forall s w ds, In (WClean ds) (c_chan c s w) -> incl ds (dead c);
  f_fresh : NoDup (introduced (c_prog c));
  f_worker : forall s d, made (c_prog c) s d -> s <> 0;
  f_alive : forall w, c_dead c w = false;
  f_here : forall d, In d (p_store (c_push c)) <-> c_vals c d <> None
}.

Definition good (prog : list rop) : Prop :=
  valid workers prog /\ tidy prog /\ returns_enough body prog /\ one_source prog.

Lemma good_prefix a b : good (a ++ b) -> good a.
Proof using.
  intros (V & T & R & O). split; [eapply valid_prefix; eauto|]. split; [eapply tidy_prefix; eauto|].
  split; [eapply enough_prefix; eauto | eapply one_prefix; eauto].
Qed.

Lemma run_fit mgr ops : good (c_prog (crun mgr ops)) -> Fit (crun mgr ops).
Proof using body_ok no_root no_dup.
  intros (V & T & R & O). destruct (run_sim workers body body_ok no_root no_dup mgr ops V T R) as (g & S).
  assert (B := run_cb workers body body_ok mgr ops V). assert (Rt := run_rt workers body body_ok no_root no_dup mgr ops V T R).
  set (c := crun mgr ops) in *. clearbody c.
  split.
  - intros s w d v I. apply (cb_chan _ _ B s w (WPut d v) I).
  - intros s w d v N I. destruct (s_proper _ _ _ _ S) as [Vg Rg Bg L Ln Rk]. assert (St := ln_stream _ _ Ln).
    assert (Ig : In (WPut d v) (c_chan g s w)) by (rewrite (s_chan _ _ _ _ S); apply filter_In; auto).
    assert (Is := in_stream g St s w (WPut d v) (or_intror Ig)).
    apply stream_cases in Is as [[-> _]|[_ [(x & y & b & X & P)|(? & X & _)]]]; try discriminate; [tauto|].
    injection X as <- <-.
    destruct (answer_made workers body body_ok g Vg Bg L St s w d v b N P) as (M & _).
    apply (made_keep workers body c g s d S); auto.
  - intros s w d v D. eapply quiet; eauto.
  - apply B.
  - intros w d v N H. destruct (facts workers body body_ok c V B w N) as (_ & Sv & _ & _ & A). apply A. apply Sv; auto.
  - intros s w ds I. apply (s_clean _ _ _ _ S) in I. tauto.
  - apply V.
  - intros s d M. apply (made_worker workers) in M; auto. intros ->. auto.
  - apply S.
  - intros d. destruct (s_proper _ _ _ _ S) as [Vg Rg Bg L Ln Rk]. rewrite <- (s_push _ _ _ _ S), <- (s_vals _ _ _ _ S). apply L.
Qed.
End Fit.
