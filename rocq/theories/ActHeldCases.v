(** Calls with plain values and a value that was put, not waited for; a call given the result of a task, waited for;
    one more call. Two schedules. *)
From Verif Require Import Lib ValModel ShmModel PushModel WorkerModel WorkerSpec WorkerCases MonModel
  ClusterModel ClusterSpec ClusterCases ActModel ActSpec ActGives ActProofs ActCount ActThms ActCases ActWaitSpec.

Definition aprogh : list gprog :=
  [GP (RPut f2 (VLeaf 2)); GP (RPut nm (VLeaf 0)); GP (RPut t (VLeaf 5));
   GC 3 nm (req 1 (FMethod 0) [VLeaf 7] [] (OMany [y; (1, 1)]));
   GC 3 nm (req 2 (FMethod 0) [VRef t] [] (OMany [z; (1, 2)]));
   GP (RSubmit 2 (req 3 (FRef f2) [VLeaf 3] [] (OOne u)));
   GC 3 nm (req 4 (FMethod 0) [VRef u] [] (OMany [v; (1, 3)])); GP (RGet [v]);
   GC 3 nm (req 5 (FMethod 0) [VLeaf 1] [] (OMany [(1, 0); (1, 4)])); GP (RGet [y; z; (1, 2); (1, 0)])].
Definition aopsh : list gop := map GRoot (firstn 8 aprogh) ++ gserve 12 ++ map GRoot (skipn 8 aprogh) ++ gserve 12.
Notation agh := (grun [2; 3] xbody xmbody xsync cmgr aopsh).
Definition aopsi : list gop := map GRoot (firstn 4 aprogh) ++ gserve 2 ++ map GRoot (firstn 4 (skipn 4 aprogh)) ++
  [GTake 0 2; GTake 0 2; GTake 0 2; GDone 2] ++ gserve 14 ++ map GRoot (skipn 8 aprogh) ++ gserve 12.
Notation agi := (grun [2; 3] xbody xmbody xsync cmgr aopsi).

Definition hseen : list sight :=
  [RGot [v] [VLeaf 2]; RGot [y; z; (1, 2); (1, 0)] [VLeaf 0; VLeaf 1; VLeaf 5; VLeaf 3]].

Lemma agh_facts : g_prog agh = aprogh /\ map fst (history_of agh 3) = [1; 2; 4; 5] /\ c_seen (g_c agh) = hseen.
Proof. vm_compute. auto. Qed.
Lemma agi_facts : g_prog agi = aprogh /\ map fst (history_of agi 3) = [1; 2; 4; 5] /\ c_seen (g_c agi) = hseen.
Proof. vm_compute. auto. Qed.

Lemma aprogh_scoped : scoped aprogh.
Proof.
  intros a p b E d I.
  do 10 (destruct a as [|? a]; [injection E as <- _; simpl in I; simpl; tauto|injection E as <- E]).
  destruct a; discriminate.
Qed.

Lemma aprogh_orderly : waits_or_holds aprogh hseen.
Proof.
  intros a w nd1 q1 b nd2 q2 d E.
  do 10 (destruct a as [|? a]; [first
    [ discriminate E
    | injection E as <- <- <- E; destruct b as [|p b]; [discriminate|]; injection E as <- E; destruct b; discriminate
    | solve [injection E as <- <- <- E; right; intros x []]
    | solve [injection E as <- <- <- E; right; intros x [<-|[]]; split;
        [left; exists (VLeaf 5); simpl; auto|]; split; [simpl; intuition discriminate|];
        intros ds J; simpl in J; repeat (destruct J as [J|J]; [discriminate|]); destruct J]
    | injection E as <- <- <- E; destruct b as [|p b]; [discriminate|]; injection E as <- _; left; exists v, [v];
        split; [simpl; auto|]; split; [simpl; auto|]; split; [simpl; auto|]; auto ]
    |injection E as <- E]).
  destruct a; discriminate.
Qed.

Lemma held_direct_case : gvalid (g_prog agh) /\ placed [2; 3] (g_prog agh) /\ scoped (g_prog agh) /\
  ~ In RError (c_seen (g_c agh)) /\ waits_or_holds (g_prog agh) (c_seen (g_c agh)) /\
  ~ waits_for_calls (g_prog agh) (c_seen (g_c agh)) /\
  In (RGot [y; z; (1, 2); (1, 0)] [VLeaf 0; VLeaf 1; VLeaf 5; VLeaf 3]) (c_seen (g_c agh)) /\
  dvals (direct xbody xmbody (g_prog agh)) (1, 0) = Some (VLeaf 3).
Proof.
  assert (F := agh_facts). set (g := grun _ _ _ _ _ _) in *. clearbody g. destruct F as (P & _ & Sn). rewrite P, Sn.
  split; [prove_gvalid|]. split; [prove_placed|]. split; [exact aprogh_scoped|]. split; [simpl; intuition discriminate|].
  split; [exact aprogh_orderly|]. split; [|split; [simpl; auto|vm_compute; reflexivity]].
  intros W. destruct (W (firstn 3 aprogh) 3 nm (req 1 (FMethod 0) [VLeaf 7] [] (OMany [y; (1, 1)])) [] nm
    (req 2 (FMethod 0) [VRef t] [] (OMany [z; (1, 2)])) (skipn 5 aprogh) eq_refl) as (x & ds & _ & _ & [] & _).
Qed.

Lemma same_case : aopsh <> aopsi /\ g_prog agh = g_prog agi /\ gvalid (g_prog agh) /\ placed [2; 3] (g_prog agh) /\ scoped (g_prog agh) /\
  ~ In RError (c_seen (g_c agh)) /\ waits_or_holds (g_prog agh) (c_seen (g_c agh)) /\
  ~ In RError (c_seen (g_c agi)) /\ waits_or_holds (g_prog agi) (c_seen (g_c agi)) /\
  In (RGot [v] [VLeaf 2]) (c_seen (g_c agh)) /\ In (RGot [v] [VLeaf 2]) (c_seen (g_c agi)).
Proof.
  split; [intros X; apply (f_equal (fun l => nth 4 l (GTake 0 0))) in X; vm_compute in X; discriminate|].
  assert (W := held_direct_case). assert (F := agh_facts). assert (F' := agi_facts).
  set (g := grun _ _ _ _ _ aopsh) in *. set (g' := grun _ _ _ _ _ aopsi) in *. clearbody g g'.
  destruct W as (V & Pl & Sc & N & W & _ & _ & _). destruct F as (P & _ & Sn). destruct F' as (P' & _ & Sn').
  split; [rewrite P, P'; reflexivity|]. split; [exact V|]. split; [exact Pl|]. split; [exact Sc|]. split; [exact N|].
  split; [exact W|]. rewrite P', Sn, Sn'. split; [simpl; intuition discriminate|].
  split; [exact aprogh_orderly|]. simpl. auto.
Qed.
