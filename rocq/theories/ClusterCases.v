(** A concrete program on two workers, with one schedule. *)
From Verif Require Import Lib ValModel ShmModel PushModel WorkerModel WorkerSpec WorkerCases MonModel
  ClusterModel ClusterSpec ClusterSeq ClusterProofs ClusterCount.

(** A sum on worker 2, its result used on worker 3, a pair, a task that raises (it is given the result
    of worker 3); two gets and a cleanup. *)
Definition cprog1 : list rop :=
  [RPut f0 (VLeaf 0); RPut f1 (VLeaf 1); RPut f2 (VLeaf 2);
   RSubmit 2 (req 1 (FRef f2) [VLeaf 3] [] (OOne y));
   RSubmit 3 (req 2 (FRef f2) [VRef y; VList [VRef f0]; VLeaf 4] [(1, VRef y)] (OOne z));
   RSubmit 2 (req 3 (FRef f0) [] [] (OMany [u; v]));
   RSubmit 2 (req 4 (FRef f1) [VRef z] [] (OOne t));
   RGet [z; u]].

(** Worker 3 is served first, so it has to ask for y before worker 2 has computed it. *)
Definition serve (n : nat) : list cop :=
  concat (repeat [CTake 0 3; CTake 0 3; CTake 0 3; CTake 0 2; CTake 2 3; CTake 3 2; CDone 2; CDone 3; CReply 3; CReply 2] n).

Definition cops1 : list cop :=
  map CRoot cprog1 ++ serve 12 ++ [CRoot (RGet [t])] ++ serve 12 ++ [CRoot (RDrop y)].

Definition cmgr : manager := manager_init 100 10.
Definition cc1 : cst := crun [2; 3] xbody cmgr cops1.

(** Goes through a concrete program. *)
Ltac prove_valid := split;
  [ simpl; unfold f0, f1, f2, y, z, u, v, t; repeat constructor; simpl; intuition discriminate
  | simpl; repeat constructor; simpl; intuition discriminate
  | simpl; intros d x H; repeat (destruct H as [H|H]; [try discriminate; injection H as <- <-; reflexivity|]); destruct H
  | simpl; intros a dest q b H;
    repeat (destruct a as [|o a]; simpl in H; [try discriminate; injection H as <- <- <- | injection H as <- H]);
    try (destruct a; discriminate); (split; [simpl; auto | split; [eexists; split; [reflexivity|simpl; auto] | simpl; intuition]]) ].

Ltac prove_tidy := split;
  [ simpl; intros a ds b H;
    repeat (destruct a as [|o a]; simpl in H; [try discriminate; injection H as <- <- | injection H as <- H]);
    try (destruct a; discriminate); (split; [repeat constructor; simpl; intuition discriminate | intros x X; simpl in *; intuition])
  | simpl; intros a ds b o H;
    repeat (destruct a as [|o' a]; simpl in H; [try discriminate; injection H as <- <- | injection H as <- H]);
    try (destruct a; discriminate); simpl; try tauto;
    intros Ho; repeat (destruct Ho as [<-|Ho]; [simpl; intuition discriminate|]); destruct Ho
  | simpl; intros a ds b x H;
    repeat (destruct a as [|o a]; simpl in H; [try discriminate; injection H as <- <- | injection H as <- H]);
    try (destruct a; discriminate); intros [<-|[]]; simpl; split; auto 20 ].

Ltac prove_enough := intros dest q fd f a k H F P;
  assert (X : (fd = f0 /\ f = VLeaf 0) \/ (fd = f1 /\ f = VLeaf 1) \/ (fd = f2 /\ f = VLeaf 2))
    by (simpl in P; repeat (destruct P as [P|P]; [try discriminate P; inversion P; auto|]); destruct P);
  clear P; simpl in H;
  repeat (destruct H as [H|H]; [first [discriminate H |
    injection H as <- <-; injection F as <-; split; [discriminate|];
    destruct X as [[X ->]|[[X ->]|[X ->]]]; try discriminate X; simpl;
    first [exact I | eexists; split; [reflexivity|simpl; auto]]]|]);
  destruct H.

Lemma xvalid : valid [2; 3] (cprog1 ++ [RGet [t]; RDrop y]).
Proof. prove_valid. Qed.

Lemma xtidy : tidy (cprog1 ++ [RGet [t]; RDrop y]).
Proof. prove_tidy. Qed.

Lemma xenough : returns_enough xbody (cprog1 ++ [RGet [t]; RDrop y]).
Proof. prove_enough. Qed.

Lemma cc1_prog : c_prog cc1 = cprog1 ++ [RGet [t]; RDrop y].
Proof. vm_compute. reflexivity. Qed.

Lemma cc1_cleaned : c_seen (cstep [2; 3] xbody cc1 (CRoot (RClean [y]))) = c_seen cc1 ++ [RCleaned [y]] /\
  c_seen cc1 = [RGot [z; u] [VLeaf 110; VLeaf 10]; RRaised [t] 9] /\
  ended (log (c_work cc1 2)) = [1; 3; 4] /\ ended (log (c_work cc1 3)) = [2].
Proof. vm_compute. auto. Qed.

(** An attempt while a task is unfinished. *)
Definition cc2 : cst := crun [2; 3] xbody cmgr (map CRoot cprog1 ++ serve 2).

Lemma cc2_not : c_seen (cstep [2; 3] xbody cc2 (CRoot (RClean [y]))) = c_seen cc2 /\
  ended (log (c_work cc2 3)) = [].
Proof. vm_compute. auto. Qed.

Lemma cc1_valid : valid [2; 3] (c_prog cc1).
Proof. rewrite cc1_prog. exact xvalid. Qed.

Lemma cc1_case : valid [2; 3] (c_prog cc1) /\
  In (RGot [z; u] [VLeaf 110; VLeaf 10]) (c_seen cc1) /\ In (RRaised [t] 9) (c_seen cc1) /\
  c_in cc1 3 <> [] /\ c_in cc1 2 <> [].
Proof. split; [exact cc1_valid|]. vm_compute. repeat split; auto; discriminate. Qed.

Lemma c36_case : valid [2; 3] (c_prog cc1) /\
  c_seen (cstep [2; 3] xbody cc1 (CRoot (RClean [y]))) = c_seen cc1 ++ [RCleaned [y]] /\
  ended (log (c_work cc1 2)) = [1; 3; 4] /\ ended (log (c_work cc1 3)) = [2] /\ c_done cc1 2 = [] /\ c_done cc1 3 = [] /\
  c_seen (cstep [2; 3] xbody cc2 (CRoot (RClean [y]))) = c_seen cc2 /\ ended (log (c_work cc2 3)) = [].
Proof. split; [exact cc1_valid|]. vm_compute. repeat split; auto. Qed.

(** All messages of cc1 have been taken. *)
Lemma cc1_idle : idle cc1.
Proof.
  intros s d. destruct s as [|[|[|[|s]]]]; destruct d as [|[|[|[|d]]]]; vm_compute; reflexivity.
Qed.

Lemma cc1_tidy : tidy (c_prog cc1).
Proof. rewrite cc1_prog. exact xtidy. Qed.

(** The same program goes on: y is cleaned up, then z is used on worker 2 and the result is fetched. *)
Definition ctail3 : list rop :=
  [RGet [t]; RDrop y; RClean [y]; RSubmit 2 (req 5 (FRef f2) [VRef z] [] (OOne (1, 0))); RGet [(1, 0)]].
Definition cc3 : cst := crun [2; 3] xbody cmgr (cops1 ++ map CRoot (skipn 2 ctail3) ++ serve 12).

Lemma cc3_prog : c_prog cc3 = cprog1 ++ ctail3.
Proof. vm_compute. reflexivity. Qed.

Lemma cc3_valid : valid [2; 3] (c_prog cc3).
Proof. rewrite cc3_prog. prove_valid. Qed.

Lemma cc3_tidy : tidy (c_prog cc3).
Proof. rewrite cc3_prog. prove_tidy. Qed.

Lemma cc3_enough : returns_enough xbody (c_prog cc3).
Proof. rewrite cc3_prog. prove_enough. Qed.

Lemma cc3_idle : idle cc3.
Proof. intros s d. destruct s as [|[|[|[|s]]]]; destruct d as [|[|[|[|d]]]]; vm_compute; reflexivity. Qed.

Lemma c51_case : valid [2; 3] (c_prog cc3) /\ tidy (c_prog cc3) /\ returns_enough xbody (c_prog cc3) /\ idle cc3 /\
  In (RSubmit 3 (req 2 (FRef f2) [VRef y; VList [VRef f0]; VLeaf 4] [(1, VRef y)] (OOne z))) (c_prog cc3) /\
  c_seen cc3 = [RGot [z; u] [VLeaf 110; VLeaf 10]; RRaised [t] 9; RCleaned [y]; RGot [(1, 0)] [VLeaf 110]].
Proof.
  split; [exact cc3_valid|]. split; [exact cc3_tidy|]. split; [exact cc3_enough|].
  split; [exact cc3_idle|]. split; [rewrite cc3_prog; simpl; auto 20 | vm_compute; reflexivity].
Qed.

Lemma c60_case : valid [2; 3] (c_prog cc3) /\ tidy (c_prog cc3) /\ returns_enough xbody (c_prog cc3) /\ idle cc3 /\
  In (RCleaned [y]) (c_seen cc3) /\ In (EvStore y (VLeaf 3)) (log (c_work cc3 2)) /\
  store (c_work cc1 2) y = Some (VLeaf 3) /\ store (c_work cc1 3) y = Some (VLeaf 3) /\
  store (c_work cc3 2) y = None /\ store (c_work cc3 3) y = None.
Proof.
  split; [exact cc3_valid|]. split; [exact cc3_tidy|]. split; [exact cc3_enough|].
  split; [exact cc3_idle|]. vm_compute. repeat split; auto 20.
Qed.

(** Whether a program hands objects over from one source. *)
Definition pair_mem (w : rank) (d : dataid) (l : list (rank * dataid)) : bool :=
  existsb (fun p => Nat.eqb (fst p) w && did_eqb (snd p) d) l.
Fixpoint source_check (foreign : rank -> dataid -> bool) (byref both : list (rank * dataid)) (prog : list rop) : bool :=
  match prog with
  | [] => true
  | RSubmit w q :: r =>
      forallb (fun d => negb (pair_mem w d both && foreign w d)) (qrefs q) &&
      source_check foreign (map (fun d => (w, d)) (qrefs q) ++ byref) both r
  | RGet ds :: r => source_check foreign byref (filter (fun p => did_in (snd p) ds) byref ++ both) r
  | _ :: r => source_check foreign byref both r
  end.
Definition foreign_in (prog : list rop) (w : rank) (d : dataid) : bool :=
  existsb (fun o => match o with RSubmit s q => negb (Nat.eqb s w) && did_in d (out_ids (q_out q)) | _ => false end) prog.

Lemma check_app fo a : forall p byref both, source_check fo byref both (a ++ p) = true ->
  exists byref' both', source_check fo byref' both' p = true /\ incl byref byref' /\ incl both both'.
Proof.
  induction a as [|o a IH]; intros p byref both H.
  - exists byref, both. split; auto. split; apply incl_refl.
  - destruct o; cbn [app source_check] in H; try (apply IH in H as (r & b & H & I & J); exists r, b; auto; fail).
    + apply andb_true_iff in H as [_ H]. apply IH in H as (r & b & H & I & J). exists r, b. split; auto. split; auto.
      eapply incl_tran; [|exact I]. apply incl_appr, incl_refl.
    + apply IH in H as (r & b & H & I & J). exists r, b. split; auto. split; auto.
      eapply incl_tran; [|exact J]. apply incl_appr, incl_refl.
Qed.

Lemma check_sound prog : source_check (foreign_in prog) [] [] prog = true -> one_source prog.
Proof.
  intros H a w q1 b ds e q2 f s q d E Is Ds Ns D1 Dd D2.
  assert (Fo : foreign_in prog w d = true).
  { apply existsb_exists. exists (RSubmit s q). split; auto. apply andb_true_iff. split.
    - apply negb_true_iff, Nat.eqb_neq; auto.
    - apply did_in_In; auto. }
  assert (G : forall fo, fo w d = true -> source_check fo [] [] prog = true -> False).
  { clear H Fo Is. intros fo Fo H. rewrite E in H.
    apply check_app in H as (r1 & b1 & H & _ & _). cbn [source_check] in H. apply andb_true_iff in H as [_ H].
    apply check_app in H as (r2 & b2 & H & I & _). cbn [source_check] in H.
    assert (In2 : In (w, d) r2). { apply I. apply in_or_app. left. apply in_map_iff. eauto. }
    apply check_app in H as (r3 & b3 & H & _ & J). cbn [source_check] in H. apply andb_true_iff in H as [H _].
    rewrite forallb_forall in H. specialize (H d D2). rewrite Fo, andb_true_r in H. apply negb_true_iff in H.
    assert (P : pair_mem w d b3 = true); [|congruence].
    apply existsb_exists. exists (w, d). cbn [fst snd]. split; [|rewrite Nat.eqb_refl, did_eqb_refl; auto].
    apply J. apply in_or_app. left. apply filter_In. split; auto. apply did_in_In; auto. }
  apply (G (foreign_in prog)); auto.
Qed.

(** As cc3, but the last task is given u, which its worker has computed itself. *)
Definition ctail5 : list rop :=
  [RGet [t]; RDrop y; RClean [y]; RSubmit 2 (req 5 (FRef f2) [VRef u] [] (OOne (1, 0))); RGet [(1, 0)]].
Definition cc5 : cst := crun [2; 3] xbody cmgr (cops1 ++ map CRoot (skipn 2 ctail5) ++ serve 12).

Lemma cc5_prog : c_prog cc5 = cprog1 ++ ctail5.
Proof. vm_compute. reflexivity. Qed.

Lemma c60_more : valid [2; 3] (c_prog cc5) /\ tidy (c_prog cc5) /\ returns_enough xbody (c_prog cc5) /\ one_source (c_prog cc5) /\
  idle cc5 /\ In (0, WClean [y]) (c_in cc5 3) /\ store (c_work cc1 3) y = Some (VLeaf 3) /\ In (RCleaned [y]) (c_seen cc5).
Proof.
  rewrite cc5_prog. split; [prove_valid|]. split; [prove_tidy|]. split; [prove_enough|].
  split; [apply check_sound; vm_compute; reflexivity|]. split.
  - intros s d. destruct s as [|[|[|[|s]]]]; destruct d as [|[|[|[|d]]]]; vm_compute; reflexivity.
  - vm_compute. repeat split; auto 20.
Qed.

(** Worker 3 asks worker 2 for y for its first task, then gets y from the root, which has fetched it in the meantime,
    with its second task. Both tasks end, y dies and is cleaned up; the answer of worker 2 comes last. *)
Definition cprog4 : list rop :=
  [RPut f2 (VLeaf 2); RSubmit 2 (req 1 (FRef f2) [VLeaf 3] [] (OOne y));
   RSubmit 3 (req 2 (FRef f2) [VRef y] [] (OOne z)); RGet [y];
   RSubmit 3 (req 3 (FRef f2) [VRef y; VLeaf 1] [] (OOne u)); RDrop y; RClean [y]].
Definition cops4 : list cop :=
  map CRoot (firstn 3 cprog4) ++ [CTake 0 2; CTake 0 2; CTake 0 3; CTake 0 3; CTake 0 3; CTake 3 2; CRoot (RGet [y]); CTake 0 2;
    CReply 2; CRoot (RSubmit 3 (req 3 (FRef f2) [VRef y; VLeaf 1] [] (OOne u))); CTake 0 3; CTake 0 3; CDone 2; CDone 3; CDone 3;
    CRoot (RDrop y); CRoot (RClean [y]); CTake 0 2; CTake 0 3; CTake 2 3].
Definition cc4 : cst := crun [2; 3] xbody cmgr cops4.

Lemma cc4_prog : c_prog cc4 = cprog4.
Proof. vm_compute. reflexivity. Qed.

Lemma c60_witness : valid [2; 3] (c_prog cc4) /\ tidy (c_prog cc4) /\ returns_enough xbody (c_prog cc4) /\ idle cc4 /\
  In (RCleaned [y]) (c_seen cc4) /\ store (c_work cc4 3) y = Some (VLeaf 3).
Proof.
  rewrite cc4_prog. split; [prove_valid|]. split; [prove_tidy|]. split; [prove_enough|].
  split; [|vm_compute; auto].
  intros s d. destruct s as [|[|[|[|s]]]]; destruct d as [|[|[|[|d]]]]; vm_compute; reflexivity.
Qed.

Lemma c60_refuted : exists workers body, (forall f a k, no_refs_returned (body f a k)) /\ ~ In 0 workers /\
  NoDup workers /\ exists mgr ops, let c := crun workers body mgr ops in
  valid workers (c_prog c) /\ tidy (c_prog c) /\ returns_enough body (c_prog c) /\ idle c /\
  exists ds d w, In (RCleaned ds) (c_seen c) /\ In d ds /\ In w workers /\ store (c_work c w) d <> None.
Proof.
  exists [2; 3], xbody. split; [exact xbody_ok|]. split; [simpl; intuition discriminate|].
  split; [repeat constructor; simpl; intuition discriminate|]. exists cmgr, cops4.
  assert (W := c60_witness). unfold cc4 in W. cbv zeta. set (c := crun [2; 3] xbody cmgr cops4) in *. clearbody c.
  destruct W as (V & T & R & I & Sn & St). split; [exact V|]. split; [exact T|]. split; [exact R|]. split; [exact I|].
  exists [y], y, 3. split; [exact Sn|]. split; [simpl; auto|]. split; [simpl; auto|]. rewrite St. discriminate.
Qed.
