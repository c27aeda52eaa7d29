(** get together with a worker; concrete cases. *)
From Verif Require Import Lib ShmModel ValModel WorkerModel WorkerSpec WorkerThms WorkerCases MonModel MonSpec MonCases CtrlModel CtrlSpec CtrlProofs.
From Coq Require Import Permutation.

(** What a worker with this log has sent to the root. *)
Definition to_root (l : list wev) : list (dataid * val) :=
  flat_map (fun e => match e with EvPut 0 d v _ => [(d, v)] | _ => [] end) l.

(** The root asks twice for the result of one task. *)
Definition xtwice : list wmsg :=
  [WPut f2 (VLeaf 2); WExec (req 1 (FRef f2) [VLeaf 4] [] (OOne z)); WGet 0 z true; WGet 0 z true].
Definition xowner : dmap rank := dput dempty z 2.

Lemma asked_twice : exists w, wrun 2 xbody xmbody xsync winit xtwice = Some w /\
  stored (log w) z (VLeaf 4) /\
  forall later, snd (fst (get (fun _ => false) dempty xowner (Many [z; z]) (to_root (log w)))) = GBlocked /\
  fst (fst (get (fun _ => false) dempty xowner (Many [z; z]) later)) = [(2, z); (2, z)].
Proof.
  assert (H : option_map log (wrun 2 xbody xmbody xsync winit xtwice) = Some
    [EvIn (WPut f2 (VLeaf 2)); EvIn (WExec (req 1 (FRef f2) [VLeaf 4] [] (OOne z)));
     EvRun 1 (CFun (VLeaf 2)) (VList [VLeaf 4]) (VDict []); EvEnd 1 (RVal (VLeaf 4)); EvStore z (VLeaf 4);
     EvDone [z]; EvIn (WGet 0 z true); EvPut 0 z (VLeaf 4) true; EvIn (WGet 0 z true)]) by (vm_compute; reflexivity).
  destruct (wrun 2 xbody xmbody xsync winit xtwice) as [w|]; [|discriminate].
  apply Some_inj in H. exists w. split; auto. rewrite H. split; [right; simpl; tauto|].
  intros later. split; [reflexivity|].
  unfold get. change (remote dempty (arg_ids (Many [z; z]))) with [z; z]. cbv iota.
  change (requests_for xowner [z; z]) with (Some [(2, z); (2, z)]). cbv iota.
  destruct (pull _ [z; z] _ _ _ _ later) as [? [?|] ?|?|?]; reflexivity.
Qed.

(** A failed task: the second get returns the exception as if it were the value. *)
Definition xfails : list wmsg :=
  [WPut f1 (VLeaf 1); WExec (req 1 (FRef f1) [] [] (OOne z)); WGet 0 z true].

Lemma second_get : exists w, wrun 2 xbody xmbody xsync winit xfails = Some w /\ In (EvEnd 1 (RExc 9)) (log w) /\
  let g1 := get (fun _ => false) dempty xowner (One z) (to_root (log w)) in
  snd (fst g1) = GRaise 9 /\
  snd (fst (get (fun _ => false) (snd g1) xowner (One z) [])) = GVal (VExc 9).
Proof.
  assert (H : option_map log (wrun 2 xbody xmbody xsync winit xfails) = Some
    [EvIn (WPut f1 (VLeaf 1)); EvIn (WExec (req 1 (FRef f1) [] [] (OOne z)));
     EvRun 1 (CFun (VLeaf 1)) (VList []) (VDict []); EvEnd 1 (RExc 9); EvStore z (VExc 9);
     EvDone []; EvIn (WGet 0 z true); EvPut 0 z (VExc 9) true]) by (vm_compute; reflexivity).
  destruct (wrun 2 xbody xmbody xsync winit xfails) as [w|]; [|discriminate].
  apply Some_inj in H. exists w. split; auto. rewrite H. split; [simpl; tauto|]. split; reflexivity.
Qed.

Definition xvalue (d : dataid) : val :=
  if did_eqb d y then VLeaf 1 else if did_eqb d z then VTuple [VLeaf 2] else if did_eqb d u then VExc 9 else VLeaf 3.

Definition xst : dmap val := dput dempty y (VLeaf 1).
Definition xow : dmap rank := dput (dput (dput dempty z 2) t 3) u 2.

Lemma xget : truth xvalue xst /\
  snd (fst (get (fun _ => true) xst xow (Many [y; z; t; y]) [(t, VLeaf 3); (z, VTuple [VLeaf 2])])) =
    GVals [VLeaf 1; VTuple [VLeaf 2]; VLeaf 3; VLeaf 1] /\
  fst (fst (get (fun _ => true) xst xow (Many [y; z; t; y]) [])) = [(2, z); (3, t)] /\
  snd (fst (get (fun _ => true) xst xow (Many [y; z; u]) [(u, VExc 9); (z, VTuple [VLeaf 2])])) = GRaise 9 /\
  snd (fst (get (fun _ => true) xst xow (One y) [])) = GVal (VLeaf 1).
Proof.
  split.
  - intros d v H. unfold xst in H. destruct (did_dec d y) as [E|N].
    + subst d. rewrite dput_same in H. apply Some_inj in H as <-. reflexivity.
    + rewrite dput_other in H by auto. discriminate.
  - repeat split; reflexivity.
Qed.

(** The history of MonCases; its second wait is the one of the root for 4 of 5 references, one here. *)
Lemma xwait : wait_local (dput dempty z (VLeaf 1)) [u; z; y; v; y] 4 = WAsk [z] [u; y; v; y] 3 /\
  wait_end [u; z; y; v; y] [z] ([v; y; y], [u]) = Some ([z; v; y; y], [u]) /\
  wait_local (dput dempty z (VLeaf 1)) [u; z; y; v; y] 1 = WReady [z] [u; y; v; y].
Proof. repeat split; reflexivity. Qed.
