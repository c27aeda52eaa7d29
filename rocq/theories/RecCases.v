(** Runs in which an object is cleaned up: what was known of it before, and what is known of it after (C91). *)
From Verif Require Import Lib ValModel ShmModel PushModel WorkerModel WorkerSpec WorkerCases MonModel
  ClusterModel ClusterSpec ClusterSeq ClusterProofs ClusterCount ClusterRoot ClusterNet ClusterGhost ClusterEnd ClusterClean ClusterQuiet ClusterGone ClusterCases.

(** Before the cleanup of cc5: worker 3 knew where y is and had asked for it, worker 2 had noted that request and, later,
    that it has sent y; the root knew where y is. Afterwards worker 2 has the messages, too. *)
Lemma c91_case : valid [2; 3] (c_prog cc5) /\ tidy (c_prog cc5) /\ returns_enough xbody (c_prog cc5) /\ one_source (c_prog cc5) /\
  In (0, WClean [y]) (c_in cc5 3) /\ In (0, WClean [y]) (c_in cc5 2) /\
  owner (c_work cc1 3) y = Some 2 /\ In (y, 3) (sent (c_work cc1 2)) /\ reqs (c_work cc2 3) = [y] /\
  p_owner (c_push cc2) y = Some 2 /\ (exists b, c_prog cc5 = (cprog1 ++ [RGet [t]]) ++ RDrop y :: b) /\ In y (introduced (cprog1 ++ [RGet [t]])).
Proof.
  assert (E : exists b, c_prog cc5 = (cprog1 ++ [RGet [t]]) ++ RDrop y :: b) by (rewrite cc5_prog; eexists; reflexivity).
  destruct c60_more as (V & T & R & O & _). split; [exact V|]. split; [exact T|]. split; [exact R|]. split; [exact O|].
  clear V T R O. assert (X : In (0, WClean [y]) (c_in cc5 3) /\ In (0, WClean [y]) (c_in cc5 2) /\
    owner (c_work cc1 3) y = Some 2 /\ In (y, 3) (sent (c_work cc1 2)) /\ reqs (c_work cc2 3) = [y] /\
    p_owner (c_push cc2) y = Some 2) by (vm_compute; auto 40).
  assert (Y : In y (introduced (cprog1 ++ [RGet [t]]))) by (vm_compute; auto 20). tauto.
Qed.

Lemma cc5_over : idle cc5 /\ c_left cc5 = 0 /\ (forall w, In w [2; 3] -> c_done cc5 w = []) /\ In y (mcompleted (c_mon cc5)) /\
  In (RCleaned [y]) (c_seen cc5).
Proof.
  destruct c60_more as (_ & _ & _ & _ & I & _). split; [exact I|]. split; [vm_compute; reflexivity|].
  split; [|vm_compute; auto 20]. intros w [<-|[<-|[]]]; vm_compute; reflexivity.
Qed.

(** Everything is over and y has been cleaned up, but the monitor still knows it. *)
Lemma monitor_refuted : exists workers body, (forall f a k, no_refs_returned (body f a k)) /\ ~ In 0 workers /\
  NoDup workers /\ exists mgr ops, let c := crun workers body mgr ops in
  valid workers (c_prog c) /\ tidy (c_prog c) /\ returns_enough body (c_prog c) /\ one_source (c_prog c) /\
  idle c /\ c_left c = 0 /\ (forall w, In w workers -> c_done c w = []) /\
  exists ds d, In (RCleaned ds) (c_seen c) /\ In d ds /\ In d (mcompleted (c_mon c)).
Proof.
  exists [2; 3], xbody. split; [exact xbody_ok|]. split; [simpl; intuition discriminate|].
  split; [repeat constructor; simpl; intuition discriminate|].
  exists cmgr, (cops1 ++ map CRoot (skipn 2 ctail5) ++ serve 12). cbv zeta.
  assert (W := c60_more). assert (X := cc5_over). unfold cc5 in *.
  set (c := crun [2; 3] xbody cmgr (cops1 ++ map CRoot (skipn 2 ctail5) ++ serve 12)) in *. clearbody c.
  destruct W as (V & T & R & O & _). destruct X as (I & L & D & M & S).
  split; [exact V|]. split; [exact T|]. split; [exact R|]. split; [exact O|]. split; [exact I|]. split; [exact L|]. split; [exact D|].
  exists [y], y. split; [exact S|]. split; [simpl; auto|]. exact M.
Qed.

(** As cc4, but it is the request of worker 3 that comes last: worker 2 has cleaned up y by then, and notes the request. *)
Definition cops6 : list cop :=
  map CRoot (firstn 3 cprog4) ++ [CTake 0 2; CTake 0 2; CTake 0 3; CTake 0 3; CTake 0 3; CRoot (RGet [y]); CTake 0 2;
    CReply 2; CRoot (RSubmit 3 (req 3 (FRef f2) [VRef y; VLeaf 1] [] (OOne u))); CTake 0 3; CTake 0 3; CDone 2; CDone 3; CDone 3;
    CRoot (RDrop y); CRoot (RClean [y]); CTake 0 2; CTake 0 3; CTake 3 2].
Definition cc6 : cst := crun [2; 3] xbody cmgr cops6.

Lemma cc6_prog : c_prog cc6 = cprog4.
Proof. vm_compute. reflexivity. Qed.

Lemma cc6_over : valid [2; 3] (c_prog cc6) /\ tidy (c_prog cc6) /\ returns_enough xbody (c_prog cc6) /\ idle cc6 /\ c_left cc6 = 0 /\
  In (RCleaned [y]) (c_seen cc6) /\ In (y, 3) (gets (c_work cc6 2)).
Proof.
  rewrite cc6_prog. split; [prove_valid|]. split; [prove_tidy|]. split; [prove_enough|].
  split; [|vm_compute; auto 20].
  intros s d. destruct s as [|[|[|[|s]]]]; destruct d as [|[|[|[|d]]]]; vm_compute; reflexivity.
Qed.

Lemma request_refuted : exists workers body, (forall f a k, no_refs_returned (body f a k)) /\ ~ In 0 workers /\
  NoDup workers /\ exists mgr ops, let c := crun workers body mgr ops in
  valid workers (c_prog c) /\ tidy (c_prog c) /\ returns_enough body (c_prog c) /\ idle c /\ c_left c = 0 /\
  exists ds d w r, In (RCleaned ds) (c_seen c) /\ In d ds /\ In w workers /\ In (d, r) (gets (c_work c w)).
Proof.
  exists [2; 3], xbody. split; [exact xbody_ok|]. split; [simpl; intuition discriminate|].
  split; [repeat constructor; simpl; intuition discriminate|]. exists cmgr, cops6. cbv zeta.
  assert (X := cc6_over). unfold cc6 in *. set (c := crun [2; 3] xbody cmgr cops6) in *. clearbody c.
  destruct X as (V & T & R & I & L & S & G).
  split; [exact V|]. split; [exact T|]. split; [exact R|]. split; [exact I|]. split; [exact L|].
  exists [y], y, 2, 3. split; [exact S|]. split; [simpl; auto|]. split; [simpl; auto|]. exact G.
Qed.
