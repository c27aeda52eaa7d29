(** A run on Dask in which the program waits for each method call: the program of ObjCases. *)
From Verif Require Import Lib ValModel PyseqModel PyseqSpec PyseqCases PortSpec ObjSpec ObjCases.
From Verif Require Import DaskRunModel ObjWaitSpec.
From Verif Require DaskRunSpec DaskRunCases PortCases.

Section Check.
Variable body : nat -> list val -> kwargs -> res.
Variable cbody : nat -> list val -> kwargs -> res.
Variable mbody : nat -> val -> list val -> kwargs -> res * val.
Variable item : val -> nat -> res.
Notation run := (drun (fun _ => body) (fun _ => cbody) (fun _ => mbody) item).

Definition everb (pre : list dop) (d : dataid) : bool :=
  existsb (fun j => match dget (run (firstn j pre)) d with Some _ => true | None => false end) (seq 0 (S (length pre))).
Definition awaitedb (ops : list dop) : bool :=
  forallb (fun k => match nth_error ops k with
    | Some (DCall a _ _ _ _) =>
        forallb (fun e => match e with (DCall a' _ _ _ _, out) => negb (Nat.eqb a a') || existsb (everb (firstn k ops)) (DaskRunSpec.refs_out out) | _ => true end) (d_hist (run (firstn k ops)))
    | _ => true end) (seq 0 (length ops)).

Lemma everb_ok pre d : everb pre d = true -> ever body cbody mbody item pre d.
Proof.
  unfold everb. intros H. apply existsb_exists in H as (j & _ & H). exists (firstn j pre), (skipn j pre). split; [symmetry; apply firstn_skipn|].
  destruct (dget _ d); [discriminate|discriminate].
Qed.
Lemma awaitedb_ok ops : awaitedb ops = true -> awaited body cbody mbody item ops.
Proof.
  intros H pre a m args kw n post E m' args' kw' n' out I. unfold awaitedb in H. rewrite forallb_forall in H.
  assert (L : In (length pre) (seq 0 (length ops))) by (apply in_seq; rewrite E, app_length; cbn; lia).
  specialize (H _ L). rewrite E in H. rewrite nth_error_app2, Nat.sub_diag in H by auto. cbn [nth_error] in H.
  rewrite firstn_app, Nat.sub_diag, firstn_O, app_nil_r, firstn_all in H. rewrite forallb_forall in H. specialize (H _ I). cbn in H. rewrite Nat.eqb_refl in H. cbn in H.
  apply existsb_exists in H as (d & D & Ev). exists d. split; [exact D|now apply everb_ok].
Qed.
End Check.

Definition ow_ops : list dop :=
  [DPut (VLeaf 3); DActor 0 [VLeaf 10] [] false; DSubmit 0 [VRef (0, 0); VLeaf 1] [] 1 false; DCall 0 0 [VRef (0, 1)] [] 1;
   DRun (0, 1); DRun (0, 2); DRun (0, 3); DCall 0 1 [VLeaf 1] [] 1; DRun (0, 4); DRun (0, 5); DCall 0 0 [VLeaf 5] [] 1; DRun (0, 6); DRun (0, 7)].
Notation ow_run := (drun (fun _ => zbody) (fun _ => xcbody) (fun _ => zmbody) DaskRunCases.ki ow_ops).

Lemma ow_shows : oshows_dask_waiting zbody xcbody zmbody oprog 5 0 (Ret (VLeaf 20)).
Proof.
  assert (R : d_hist ow_run = od_h) by (vm_compute; reflexivity). assert (G : dget ow_run (0, 7) = Some (Ret (VLeaf 20))) by (vm_compute; reflexivity).
  exists DaskRunCases.ki, ow_ops, odrefs, [0], (0, 7). cbv zeta. rewrite R, G. split; [exact PortCases.ki_indexing|]. split; [unfold ow_ops; DaskRunCases.legal_ops|].
  split; [apply awaitedb_ok; vm_compute; reflexivity|]. split; [exact od_plays|]. split; reflexivity.
Qed.

(** The run of ObjCases, where the last method is run first, is not one of them. *)
Lemma od_not_awaited : ~ awaited zbody xcbody zmbody DaskRunCases.ki od_ops.
Proof.
  intros H. destruct (H (firstn 4 od_ops) 0 1 [VLeaf 1] [] 1 (skipn 5 od_ops) eq_refl 0 [VRef (0, 1)] [] 1 (DRef (0, 3))) as (d & [<-|[]] & pre & post & E & G).
  - vm_compute. auto 10.
  - apply G. assert (Ep : pre = firstn (length pre) (firstn 4 od_ops)) by (rewrite E, firstn_app, Nat.sub_diag, firstn_O, app_nil_r, firstn_all; reflexivity).
    assert (Lp : length pre <= 4) by (pose proof (f_equal (@length dop) E) as Q; rewrite app_length in Q; cbn in Q; lia).
    rewrite Ep. destruct (length pre) as [|[|[|[|[|k]]]]]; [vm_compute; reflexivity..|lia].
Qed.
