(** Concrete runs for C57-C59. *)
From Verif Require Import Lib ValModel PyseqModel DaskRunModel DaskRunSpec DaskRunProofs.

(** Function 0 gives a pair made of its argument and the number of the call, function 1 raises; an actor's object is a
    list, method 0 appends its argument and gives the list. *)
Definition kb (c f : nat) (vs : list val) (_ : kwargs) : res :=
  match f, vs with
  | 0, v :: _ => Ret (VTuple [v; VLeaf c])
  | _, _ => Exn 7
  end.
Definition kc (_ _ : nat) (_ : list val) (_ : kwargs) : res := Ret (VList []).
Definition km (_ _ : nat) (s : val) (vs : list val) (_ : kwargs) : res * val :=
  match s with
  | VList l => let l' := VList (l ++ vs) in (Ret l', l')
  | _ => (Exn 1, s)
  end.
Definition ki (v : val) (i : nat) : res :=
  match v with
  | VTuple l | VList l => match nth_error l i with Some x => Ret x | None => Exn 2 end
  | _ => Exn 3
  end.

(** put(5); two results of function 0; a call of function 1; a call of function 0 with the failed result; an actor and
    two calls of its method, the second of which is run first. *)
Definition k_ops : list dop :=
  [DPut (VLeaf 5); DSubmit 0 [VList [VRef (0, 0)]] [] 2 false; DSubmit 1 [] [] 1 false;
   DRun (0, 1); DRun (0, 3); DRun (0, 2); DRun (0, 4);
   DSubmit 0 [VRef (0, 2)] [(3, VRef (0, 4))] 1 false; DFail (0, 5) (0, 4);
   DActor 0 [] [] false; DCall 0 0 [VRef (0, 3)] [] 1; DCall 0 0 [VRef (0, 0)] [] 2;
   DRun (0, 8); DRun (0, 6); DRun (0, 9); DRun (0, 10); DRun (0, 7)].

Ltac legal_ops :=
  repeat match goal with
  | |- legal _ _ _ _ ?l =>
      let l' := eval cbv [removelast] in (removelast l) in
      let x := eval cbv [last] in (last l (DRun (0, 0))) in
      change l with (l' ++ [x]); apply L_call;
      [|let y := fresh in let H := fresh in
        intros y H; vm_compute in H; repeat destruct H as [<-|H]; try contradiction; vm_compute; tauto
       |let H := fresh in intros ? ? ? ? ? H; try discriminate H; injection H as <- <- <- <- <-; vm_compute; lia]
  end; apply L_nil.

Lemma k_legal : legal kb kc km ki k_ops.
Proof. unfold k_ops. legal_ops. Qed.

Lemma k_rest : at_rest kb kc km ki (drun kb kc km ki k_ops).
Proof.
  assert (N : forall d, d_job (drun kb kc km ki k_ops) d = None).
  { intros [[|x] [|[|[|[|[|[|[|[|[|[|[|y]]]]]]]]]]]]; vm_compute; reflexivity. }
  intros o. destruct o; try exact I; cbn [dstep]; rewrite N; reflexivity.
Qed.

(** What the references hold at the end. *)
Lemma k_results :
  map (dget (drun kb kc km ki k_ops)) [(0, 2); (0, 3); (0, 4); (0, 5); (0, 7); (0, 9); (0, 10)] =
  [Some (Ret (VList [VLeaf 5])); Some (Ret (VLeaf 1)); Some (Exn 7); Some (Exn 7);
   Some (Ret (VList [VLeaf 5; VLeaf 1])); Some (Ret (VLeaf 5)); Some (Exn 2)].
Proof. vm_compute. reflexivity. Qed.

Lemma k_hist : map (fun e => refs_out (snd e)) (d_hist (drun kb kc km ki k_ops)) =
  [[(0, 0)]; [(0, 2); (0, 3)]; [(0, 4)]; [(0, 5)]; []; [(0, 7)]; [(0, 9); (0, 10)]].
Proof. vm_compute. reflexivity. Qed.

Lemma k_log : map fst (d_log (drun kb kc km ki k_ops)) = [1; 2; 6; 5].
Proof. vm_compute. reflexivity. Qed.

Lemma c57_case :
  legal kb kc km ki k_ops /\ d_actors (drun kb kc km ki k_ops) = [VList [VLeaf 5; VLeaf 1]] /\
  In (0, 9) (flat_map (fun e => refs_out (snd e)) (d_hist (drun kb kc km ki k_ops))) /\
  dget (drun kb kc km ki k_ops) (0, 9) = Some (Ret (VLeaf 5)) /\ dget (drun kb kc km ki k_ops) (0, 5) = Some (Exn 7).
Proof. split; [exact k_legal|]. split; [vm_compute; reflexivity|]. split; [vm_compute; auto 20|]. split; vm_compute; reflexivity. Qed.

Lemma c58_case :
  legal kb kc km ki k_ops /\ at_rest kb kc km ki (drun kb kc km ki k_ops) /\
  nth_error (d_hist (drun kb kc km ki k_ops)) 6 = Some (DCall 0 0 [VRef (0, 0)] [] 2, DRefs [(0, 9); (0, 10)]) /\
  In (0, 10) (d_held (drun kb kc km ki k_ops)) /\ In 6 (map fst (d_log (drun kb kc km ki k_ops))).
Proof. split; [exact k_legal|]. split; [exact k_rest|]. split; [vm_compute; reflexivity|]. split; vm_compute; auto 20. Qed.

(** A call without references, and one whose reference is dropped: both are forgotten before they are run. *)
Definition k_forget : list dop :=
  [DSubmit 0 [VLeaf 1] [] 0 false; DForget (0, 0); DSubmit 0 [VLeaf 1] [] 1 false; DDrop (0, 1); DForget (0, 1)].

Lemma not_run :
  legal kb kc km ki k_forget /\ at_rest kb kc km ki (drun kb kc km ki k_forget) /\
  nth_error (d_hist (drun kb kc km ki k_forget)) 0 = Some (DSubmit 0 [VLeaf 1] [] 0 false, DNone) /\
  nth_error (d_hist (drun kb kc km ki k_forget)) 1 = Some (DSubmit 0 [VLeaf 1] [] 1 false, DRef (0, 1)) /\
  d_log (drun kb kc km ki k_forget) = [].
Proof.
  split; [unfold k_forget; legal_ops|]. split; [|split; [vm_compute; reflexivity|split; vm_compute; reflexivity]].
  assert (N : forall d, d_job (drun kb kc km ki k_forget) d = None).
  { intros [[|x] [|[|y]]]; vm_compute; reflexivity. }
  intros o. destruct o; try exact I; cbn [dstep]; rewrite N; reflexivity.
Qed.

(** Two calls of one actor's method, the later one is run first. *)
Lemma out_of_order :
  legal kb kc km ki k_ops /\
  (exists o o', nth_error (d_hist (drun kb kc km ki k_ops)) 5 = Some (DCall 0 0 [VRef (0, 3)] [] 1, o) /\
                nth_error (d_hist (drun kb kc km ki k_ops)) 6 = Some (DCall 0 0 [VRef (0, 0)] [] 2, o')) /\
  run_before (d_log (drun kb kc km ki k_ops)) 6 5.
Proof.
  split; [exact k_legal|]. split; [exists (DRef (0, 7)), (DRefs [(0, 9); (0, 10)]); split; vm_compute; reflexivity|].
  exists (firstn 3 (d_log (drun kb kc km ki k_ops))), (skipn 3 (d_log (drun kb kc km ki k_ops))).
  split; [symmetry; apply firstn_skipn|]. split; [vm_compute; auto|]. vm_compute. intuition discriminate.
Qed.

Lemma c59_case :
  legal kb kc km ki (firstn 7 k_ops ++ skipn 7 k_ops) /\
  nth_error (d_hist (drun kb kc km ki (firstn 7 k_ops))) 1 =
    Some (DSubmit 0 [VList [VRef (0, 0)]] [] 2 false, DRefs [(0, 2); (0, 3)]) /\
  dget (drun kb kc km ki (firstn 7 k_ops)) (0, 2) = Some (Ret (VList [VLeaf 5])) /\
  length (d_hist (drun kb kc km ki (firstn 7 k_ops))) <= 5 /\
  run_before (d_log (drun kb kc km ki k_ops)) 1 5.
Proof.
  split; [exact k_legal|]. split; [vm_compute; reflexivity|]. split; [vm_compute; reflexivity|].
  split; [vm_compute; lia|].
  exists (firstn 1 (d_log (drun kb kc km ki k_ops))), (skipn 1 (d_log (drun kb kc km ki k_ops))).
  split; [symmetry; apply firstn_skipn|]. split; [vm_compute; auto|]. vm_compute. intuition discriminate.
Qed.

Lemma order_refuted :
  exists body cbody mbody item ops c c' a m m' args args' n n' o o',
    legal body cbody mbody item ops /\ c < c' /\
    nth_error (d_hist (drun body cbody mbody item ops)) c = Some (DCall a m args [] n, o) /\
    nth_error (d_hist (drun body cbody mbody item ops)) c' = Some (DCall a m' args' [] n', o') /\
    run_before (d_log (drun body cbody mbody item ops)) c' c.
Proof.
  destruct out_of_order as (L & (o & o' & H & H') & B).
  exists kb, kc, km, ki, k_ops, 5, 6, 0, 0, 0, [VRef (0, 3)], [VRef (0, 0)], 1, 2, o, o'. auto 10.
Qed.
