(** Concrete programs that go on after a failed get. *)
From Verif Require Import Lib ValModel WorkerModel WorkerSpec ClusterModel NestModel NestSpec PickCases GetFailModel GetFailSpec.

(** Calls functions one after the other and goes on with the references. *)
Fixpoint calls_then (fs : list nat) (xs : list dataid) (k : list dataid -> act) : act :=
  match fs with
  | [] => k xs
  | f :: fs => APut (VLeaf f) (fun d => ASubmit d (VTuple []) (VDict []) 1 (fun o =>
      match o with Some l => calls_then fs (xs ++ l) k | None => ARet (RExc 1) end))
  end.

Definition finish : act := ARet (RVal (VLeaf 0)).

(** Calls 2, 4 and 4; gets the first two results, which fails, then the third. *)
Definition bad_then : act :=
  calls_then [2; 4; 4] [] (fun l => match l with [x; y; z] => AGet [x; y] (fun _ => AGet [z] (fun _ => finish)) | _ => finish end).

(** Calls 2; gets the result, which fails, and tries again. *)
Definition bad_again : act := calls_then [2] [] (fun l => AGet l (fun _ => AGet l (fun _ => finish))).

(** Calls 4 and 4; gets the first result, then the second. *)
Definition two_gets : act :=
  calls_then [4; 4] [] (fun l => match l with [x; y] => AGet [x] (fun _ => AGet [y] (fun _ => finish)) | _ => finish end).

(** Calls 4; gets the result; tries again. *)
Definition good_again : act := calls_then [4] [] (fun l => AGet l (fun _ => AGet l (fun _ => finish))).

Lemma calls_ok fs k : (forall l, refless (k l)) -> forall xs, refless (calls_then fs xs k).
Proof. intros K. induction fs as [|f fs IH]; intros xs; simpl; auto. split; auto. intros d [l|]; simpl; auto. Qed.

Lemma bad_then_ok : refless bad_then.
Proof. apply calls_ok. intros [|x [|y [|z [|u l]]]]; simpl; auto. Qed.
Lemma bad_again_ok : refless bad_again.
Proof. apply calls_ok. intros l; simpl; auto. Qed.
Lemma two_gets_ok : refless two_gets.
Proof. apply calls_ok. intros [|x [|y [|z l]]]; simpl; auto. Qed.
Lemma good_again_ok : refless good_again.
Proof. apply calls_ok. intros l; simpl; auto. Qed.

(** n calls to worker 2, executed there one after the other. *)
Definition calls_ops (n : nat) : list nop := repeat (NRun 0 2) (2 * n) ++ concat (repeat [NTake 0 2; NTake 0 2; NRun 2 0] n).

Definition z1 : list zop := map ZStep (calls_ops 3 ++ [NRun 0 0; NTake 0 2; NTake 0 2; NReply 2 0; NRun 0 0; NReply 2 0]).
Definition z2 : list zop := map ZStep (calls_ops 1 ++ [NRun 0 0; NTake 0 2; NReply 2 0; NRun 0 0; NTake 0 2]).
Definition z3 : list zop := map ZStep (calls_ops 2 ++ [NRun 0 0; NTake 0 2]) ++ [ZSignal] ++ map ZStep [NRun 0 0; NReply 2 0].
Definition z4 : list zop := map ZStep (calls_ops 1 ++ [NRun 0 0; NTake 0 2]) ++ [ZSignal] ++ map ZStep [NRun 0 0; NTake 0 2; NReply 2 0].

Notation zr loads main ops := (zrun [2] kbody loads main ops).
Notation good := (fun _ : val => true).

(** Call i of the program: function put as (0, 2 i), result (0, 2 i + 1). *)
Definition zcall (i : nat) : request := {| q_id := i; q_fn := FRef (0, 2 * i); q_args := VTuple []; q_kwargs := VDict []; q_out := OOne (0, S (2 * i)) |}.

Lemma z1_hist : n_hist (zr kloads bad_then z1) =
  [(0, HPut (0, 0) (VLeaf 2)); (0, HSubmit 2 (zcall 0)); (0, HPut (0, 2) (VLeaf 4)); (0, HSubmit 2 (zcall 1)); (0, HPut (0, 4) (VLeaf 4)); (0, HSubmit 2 (zcall 2));
   (1, HStart 0); (1, HEnd (RExc 77)); (2, HStart 1); (2, HEnd (RVal (VLeaf 5))); (3, HStart 2); (3, HEnd (RVal (VLeaf 5)));
   (0, HGet [(0, 1); (0, 3)] GError); (0, HGet [(0, 5)] GError)].
Proof. vm_compute. reflexivity. Qed.

Lemma z2_hist : n_hist (zr kloads bad_again z2) =
  [(0, HPut (0, 0) (VLeaf 2)); (0, HSubmit 2 (zcall 0)); (1, HStart 0); (1, HEnd (RExc 77)); (0, HGet [(0, 1)] GError)].
Proof. vm_compute. reflexivity. Qed.

Lemma z3_hist : n_hist (zr good two_gets z3) =
  [(0, HPut (0, 0) (VLeaf 4)); (0, HSubmit 2 (zcall 0)); (0, HPut (0, 2) (VLeaf 4)); (0, HSubmit 2 (zcall 1));
   (1, HStart 0); (1, HEnd (RVal (VLeaf 5))); (2, HStart 1); (2, HEnd (RVal (VLeaf 5))); (0, HGet [(0, 1)] GError); (0, HGet [(0, 3)] GError)].
Proof. vm_compute. reflexivity. Qed.

Lemma z4_hist : n_hist (zr good good_again z4) =
  [(0, HPut (0, 0) (VLeaf 4)); (0, HSubmit 2 (zcall 0)); (1, HStart 0); (1, HEnd (RVal (VLeaf 5))); (0, HGet [(0, 1)] GError); (0, HGet [(0, 1)] (GVals [VLeaf 5]))].
Proof. vm_compute. reflexivity. Qed.

Lemma call_means H i f r v : In (0, HPut (0, 2 * i) (VLeaf f)) H -> In (0, HSubmit 2 (zcall i)) H -> trace H (S i) = [HStart i; HEnd r] ->
  kbody (VLeaf f) (VTuple []) (VDict []) = ARet r -> gives (OOne (0, S (2 * i))) r (0, S (2 * i)) v -> means kbody H (0, S (2 * i)) v.
Proof.
  intros P S T B G. exists 2. right. exists 0, 2, (zcall i), (0, 2 * i), (VLeaf f), (VTuple []), (VDict []), r. split; auto. split; [reflexivity|].
  split; [left; exists 0; exact P|]. do 2 (split; [apply WorkerProofs.fill_refl|]). do 2 (split; [reflexivity|]). split; auto.
  exists (Datatypes.S i), [], [HEnd r]. split; [exact T|]. split; [rewrite B; constructor|constructor].
Qed.

Lemma z1_means : means kbody (n_hist (zr kloads bad_then z1)) (0, 5) (VLeaf 5).
Proof. rewrite z1_hist. apply (call_means _ 2 4 (RVal (VLeaf 5))); simpl; auto 20. Qed.
Lemma z2_means : means kbody (n_hist (zr kloads bad_again z2)) (0, 1) (VExc 77).
Proof. rewrite z2_hist. apply (call_means _ 0 2 (RExc 77)); simpl; auto 20. Qed.
Lemma z3_means : means kbody (n_hist (zr good two_gets z3)) (0, 3) (VLeaf 5).
Proof. rewrite z3_hist. apply (call_means _ 1 4 (RVal (VLeaf 5))); simpl; auto 20. Qed.
Lemma z4_means : means kbody (n_hist (zr good good_again z4)) (0, 1) (VLeaf 5).
Proof. rewrite z4_hist. apply (call_means _ 0 4 (RVal (VLeaf 5))); simpl; auto 20. Qed.

(** ** The second get waits for ever *)

Definition quiet (n : nst) : Prop := (exists fr, p_cur (n_proc n 0) = Some fr /\ f_get fr <> None) /\ (forall src, n_rep n src 0 = []) /\
  forall p, p <> 0 -> p_cur (n_proc n p) = None /\ forall src, n_chan n src p = [].

Lemma quiet_still loads n o : quiet n -> zstep [2] kbody loads n (ZStep o) = n.
Proof.
  intros ((fr & C & G) & R & O). destruct o as [p dest|src p|src p]; simpl.
  - destruct (Nat.eq_dec p 0) as [->|Z]; [rewrite C; destruct (n_dead n 0); auto; destruct (f_get fr); congruence|]. destruct (O p Z) as [-> _]. reflexivity.
  - destruct (Nat.eq_dec p 0) as [->|Z]; [rewrite C; destruct (n_chan n src 0); reflexivity|]. destruct (O p Z) as [_ X]. rewrite X. reflexivity.
  - destruct (Nat.eq_dec p 0) as [->|Z]; [rewrite R; reflexivity|]. destruct (n_rep n src p) as [|[d v] ms] eqn:E; auto. destruct (O p Z) as [X _].
    destruct (loads v); [|unfold give_up; rewrite X; reflexivity]. rewrite X. reflexivity.
Qed.

Lemma quiet_more loads n more : quiet n -> ~ In ZSignal more -> fold_left (zstep [2] kbody loads) more n = n.
Proof.
  intros Q. induction more as [|z more IH]; intros S; simpl; auto. destruct z as [o|]; [|exfalso; apply S; simpl; auto].
  rewrite quiet_still by auto. apply IH. intros I. apply S. simpl. auto.
Qed.

Lemma z2_root : p_cur (n_proc (zr kloads bad_again z2) 0) = Some (kframe (0, 1) (fun _ => finish)).
Proof. vm_compute. reflexivity. Qed.

Lemma z2_quiet : quiet (zr kloads bad_again z2).
Proof.
  split; [eexists; split; [exact z2_root|discriminate]|]. split; [intros [|[|[|src]]]; vm_compute; reflexivity|].
  intros [|[|[|p]]] Z; [congruence| | |]; (split; [vm_compute; reflexivity|intros [|[|[|src]]]; vm_compute; reflexivity]).
Qed.

Lemma zr_more loads main ops more : quiet (zr loads main ops) -> ~ In ZSignal more -> zr loads main (ops ++ more) = zr loads main ops.
Proof. intros Q S. unfold zrun in *. rewrite fold_left_app. apply quiet_more; auto. Qed.

Lemma z2_waits more : ~ In ZSignal more -> main_gets (zr kloads bad_again (z2 ++ more)) [(0, 1)].
Proof. intros S. rewrite (zr_more _ _ _ _ z2_quiet S). eexists. eexists. split; [exact z2_root|]. split; reflexivity. Qed.

Lemma no_signal l : ~ In ZSignal (map ZStep l).
Proof. intros I. apply in_map_iff in I as (o & E & _). discriminate. Qed.

(** ** As stated *)

Lemma stale : exists workers body loads main ops, (forall f a k, refs a = [] -> refs k = [] -> refless (body f a k)) /\ refless main /\
  ~ In ZSignal ops /\
  let H := n_hist (zrun workers body loads main ops) in
  exists before x y z v t, H = before ++ [(0, HGet [x; y] GError); (0, HGet [z] GError)] /\ z <> x /\ z <> y /\
    means body H z v /\ loads v = true /\ In (t, HEnd (RVal v)) before.
Proof.
  exists [2], kbody, kloads, bad_then, z1. split; [exact kbody_ok|]. split; [exact bad_then_ok|]. split; [apply no_signal|].
  cbv zeta. assert (M := z1_means). rewrite z1_hist in *.
  exists [(0, HPut (0, 0) (VLeaf 2)); (0, HSubmit 2 (zcall 0)); (0, HPut (0, 2) (VLeaf 4)); (0, HSubmit 2 (zcall 1)); (0, HPut (0, 4) (VLeaf 4)); (0, HSubmit 2 (zcall 2));
   (1, HStart 0); (1, HEnd (RExc 77)); (2, HStart 1); (2, HEnd (RVal (VLeaf 5))); (3, HStart 2); (3, HEnd (RVal (VLeaf 5)))], (0, 1), (0, 3), (0, 5), (VLeaf 5), 3.
  split; [reflexivity|]. split; [discriminate|]. split; [discriminate|]. split; [exact M|]. split; [reflexivity|]. simpl. tauto.
Qed.

Lemma signalled : exists workers body main ops, (forall f a k, refs a = [] -> refs k = [] -> refless (body f a k)) /\ refless main /\
  let H := n_hist (zrun workers body (fun _ => true) main ops) in
  exists before x z v t, H = before ++ [(0, HGet [x] GError); (0, HGet [z] GError)] /\ z <> x /\
    means body H z v /\ In (t, HEnd (RVal v)) before.
Proof.
  exists [2], kbody, two_gets, z3. split; [exact kbody_ok|]. split; [exact two_gets_ok|].
  cbv zeta. assert (M := z3_means). rewrite z3_hist in *.
  exists [(0, HPut (0, 0) (VLeaf 4)); (0, HSubmit 2 (zcall 0)); (0, HPut (0, 2) (VLeaf 4)); (0, HSubmit 2 (zcall 1));
   (1, HStart 0); (1, HEnd (RVal (VLeaf 5))); (2, HStart 1); (2, HEnd (RVal (VLeaf 5)))], (0, 1), (0, 3), (VLeaf 5), 2.
  split; [reflexivity|]. split; [discriminate|]. split; [exact M|]. simpl. tauto.
Qed.

Lemma again : exists workers body loads main ops, (forall f a k, refs a = [] -> refs k = [] -> refless (body f a k)) /\ refless main /\
  ~ In ZSignal ops /\
  let H := n_hist (zrun workers body loads main ops) in
  exists x e t, means body H x (VExc e) /\ loads (VExc e) = false /\ In (t, HEnd (RExc e)) H /\ In (0, HGet [x] GError) H /\
    forall more, ~ In ZSignal more -> main_gets (zrun workers body loads main (ops ++ more)) [x].
Proof.
  exists [2], kbody, kloads, bad_again, z2. split; [exact kbody_ok|]. split; [exact bad_again_ok|]. split; [apply no_signal|].
  cbv zeta. assert (M := z2_means). rewrite z2_hist in *. exists (0, 1), 77, 1.
  split; [exact M|]. split; [reflexivity|]. split; [simpl; tauto|]. split; [simpl; tauto|]. exact z2_waits.
Qed.

Lemma z4_case : (forall f a k, refs a = [] -> refs k = [] -> refless (kbody f a k)) /\ refless good_again /\
  In (0, HGet [(0, 1)] GError) (n_hist (zrun [2] kbody (fun _ => true) good_again z4)) /\
  In (0, HGet [(0, 1)] (GVals [VLeaf 5])) (n_hist (zrun [2] kbody (fun _ => true) good_again z4)) /\
  means kbody (n_hist (zrun [2] kbody (fun _ => true) good_again z4)) (0, 1) (VLeaf 5).
Proof.
  split; [exact kbody_ok|]. split; [exact good_again_ok|]. assert (M := z4_means). rewrite z4_hist in *. split; [simpl; tauto|]. split; [simpl; tauto|exact M].
Qed.

Definition z5 : list zop := map ZStep (calls_ops 1 ++ [NRun 0 0; NTake 0 2; NReply 2 0]).

Lemma z5_hist : n_hist (zr good good_again z5) =
  [(0, HPut (0, 0) (VLeaf 4)); (0, HSubmit 2 (zcall 0)); (1, HStart 0); (1, HEnd (RVal (VLeaf 5))); (0, HGet [(0, 1)] (GVals [VLeaf 5]))].
Proof. vm_compute. reflexivity. Qed.

Lemma z5_case : undisturbed (fun _ => true) z5 /\ In (0, HGet [(0, 1)] (GVals [VLeaf 5])) (n_hist (zrun [2] kbody (fun _ => true) good_again z5)).
Proof. split; [split; [reflexivity|apply no_signal]|]. rewrite z5_hist. simpl. tauto. Qed.
