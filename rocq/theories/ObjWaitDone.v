(** C99, Dask: a program can be run to its end in a run in which it waits. *)
From Verif Require Import Lib ValModel PyseqModel PyseqSpec PortSpec ObjSpec ObjDoneSpec ObjDone.
From Verif Require Import DaskRunModel ObjWaitSpec.
From Verif Require DaskRunSpec PortDoneDask ObjDoneDask ObjWait.

Section Done.
Variable body : nat -> list val -> kwargs -> res.
Variable cbody : nat -> list val -> kwargs -> res.
Variable mbody : nat -> val -> list val -> kwargs -> res * val.
Notation d_i := PortDoneDask.d_i.
Notation run := (drun (fun _ => body) (fun _ => cbody) (fun _ => mbody) d_i).

Lemma hist_grows ops o e : In e (d_hist (run ops)) -> In e (d_hist (run (ops ++ [o]))).
Proof.
  intros I. rewrite ObjWait.drun_snoc. destruct (DaskRunSpec.is_call o) eqn:C; [|now rewrite ObjWait.sched_hist].
  set (st := run ops) in *. destruct o as [v|f vs ks n b|c vs ks b|a m vs ks n|d|d|d x|d]; try discriminate; cbn [dstep].
  - apply in_or_app. now left.
  - destruct b; [apply in_or_app; now left|]. destruct (Nat.eqb n 1); [apply in_or_app; now left|]. destruct (Nat.ltb 1 n); [|apply in_or_app; now left].
    pose proof (DaskRunProofs.many_spec (JItem (0, d_next st)) n (submit st (JFun (length (d_hist st)) f vs ks)) 0) as (_ & _ & _ & _ & _ & H & _ & _).
    destruct (submit_many _ _ 0 n) as [st2 l]. cbn in H |- *. rewrite H. apply in_or_app; now left.
  - destruct b; [apply in_or_app; now left|]. destruct (cbody c vs ks); apply in_or_app; now left.
  - destruct (Nat.eqb n 1); [apply in_or_app; now left|]. destruct (Nat.ltb 1 n); [|apply in_or_app; now left].
    pose proof (DaskRunProofs.many_spec (JResultItem (0, d_next st)) n (submit st (JMeth (length (d_hist st)) a m vs ks)) 0) as (_ & _ & _ & _ & _ & H & _ & _).
    destruct (submit_many _ _ 0 n) as [st2 l]. cbn in H |- *. rewrite H. apply in_or_app; now left.
Qed.

Lemma lg_awaited ops : ObjDoneDask.lg body cbody mbody ops -> (forall a m args kw n out, In (DCall a m args kw n, out) (d_hist (run ops)) -> 0 < n) -> awaited body cbody mbody d_i ops.
Proof.
  induction 1 as [|ops o L IH A B]; intros P pre a m args kw n post E m' args' kw' n' out I; [destruct pre; discriminate|].
  assert (P' : forall a m args kw n out, In (DCall a m args kw n, out) (d_hist (run ops)) -> 0 < n) by (intros; eapply P, hist_grows; eauto).
  destruct (ObjWait.list_snoc post) as [->|(post' & z & ->)].
  - apply app_inj_tail in E as [<- ->]. destruct (B _ _ _ _ _ eq_refl) as [_ B']. destruct (B' _ _ _ _ _ I) as (d & D & G); [eapply P'; eauto|].
    exists d. split; [exact D|]. exists ops, []. split; [now rewrite app_nil_r|exact G].
  - change (pre ++ DCall a m args kw n :: post' ++ [z]) with (pre ++ (DCall a m args kw n :: post') ++ [z]) in E. rewrite app_assoc in E. apply app_inj_tail in E as [-> _]. eapply (IH P'); eauto.
Qed.
End Done.

Theorem waits_done body cbody mbody prog : oportable body cbody mbody prog -> oscoped prog -> (forall a m args kw n, In (TMeth a m args kw n) prog -> 0 < n) ->
  forall c x i, nth_error prog c = Some x -> i < oouts x -> exists r, result_of (fst (odirect body cbody mbody prog)) c i = Some r /\ oshows_dask_waiting body cbody mbody prog c i r.
Proof.
  intros Po Sc Pn c x i N Li. destruct (ObjDoneDask.odask_submits body cbody mbody prog Po Sc) as (ops & rs & D). destruct D as [D1 D2 D3 D4 D5 D6 D7].
  destruct (ofull_ref _ _ D3 _ _ _ N Li) as (d & R). destruct (D7 c i d R) as (_ & _ & r & E & F). exists r. split; [exact E|]. exists PortDoneDask.d_i, ops, rs, (seq 0 (makes prog)), d. cbn zeta.
  split; [intros l k y Y; cbn; rewrite Y; auto|]. split; [exact (ObjDoneDask.lg_legal _ _ _ _ D1)|]. split; [|split; [exact D2|split; [exact R|unfold dget; now rewrite F]]].
  apply lg_awaited; [exact D1|]. intros a m args kw n out I. destruct (ObjDoneDask.plays_meth _ _ _ _ _ _ _ _ _ _ D2 I) as (c' & a' & args' & kw' & _ & Q). eapply Pn. eapply nth_error_In; eauto.
Qed.
