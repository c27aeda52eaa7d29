(** The program of ObjCases on MPI: the function on worker 2, the actor on worker 3. The program waits for the call that is given the result of
    the function; the call that raises is not waited for. *)
From Verif Require Import Lib ValModel ShmModel PushModel WorkerModel WorkerSpec WorkerCases MonModel
  ClusterModel ClusterSpec ClusterCases ActModel ActSpec ActGives ActProofs ActCount ActThms ActCases ActWaitSpec.
From Verif Require Import PyseqModel PyseqSpec PortSpec PortShows ObjSpec ObjDoneSpec ObjMpiSpec ObjCases.
From Verif Require PyseqCases ObjDoneProofs.
Notation xcbody := PyseqCases.xcbody.

Definition om_prog : list gprog :=
  [GP (RPut (1, 0) (VLeaf 0)); GP (RPut (1, 1) (VLeaf 0)); GP (RPut (0, 0) (VLeaf 3));
   GP (RSubmit 2 (req 1 (FRef (1, 0)) [VRef (0, 0); VLeaf 1] [] (OOne (0, 1))));
   GC 3 (1, 1) (req 2 (FMethod 0) [VRef (0, 1)] [] (OOne (0, 2))); GP (RGet [(0, 2)]);
   GC 3 (1, 1) (req 3 (FMethod 1) [VLeaf 1] [] (OOne (0, 3)));
   GC 3 (1, 1) (req 4 (FMethod 0) [VLeaf 5] [] (OOne (0, 4))); GP (RGet [(0, 4)]); GP (RGet [(0, 3)])].
Definition om_sched : list gop := map GRoot (firstn 6 om_prog) ++ gserve 12 ++ map GRoot (firstn 3 (skipn 6 om_prog)) ++ gserve 12 ++
  map GRoot (skipn 9 om_prog) ++ gserve 12.
Notation om_run := (grun [2; 3] (as_mpi zbody) (as_methods zmbody (VLeaf 10)) (fun _ => false) cmgr om_sched).
Definition om_seen : list sight := [RGot [(0, 2)] [VLeaf 14]; RGot [(0, 4)] [VLeaf 20]; RRaised [(0, 3)] 8].

Lemma om_facts : g_prog om_run = om_prog /\ c_seen (g_c om_run) = om_seen.
Proof. vm_compute. auto. Qed.

Lemma om_scoped : ActWaitSpec.scoped om_prog.
Proof.
  intros a p b E d I.
  do 10 (destruct a as [|? a]; [injection E as <- _; simpl in I; simpl; tauto|injection E as <- E]).
  destruct a; discriminate.
Qed.

Lemma om_waits : waits_or_holds om_prog om_seen.
Proof.
  intros a w nd1 q1 b nd2 q2 d E.
  do 10 (destruct a as [|? a]; [first
    [ discriminate E
    | solve [injection E as <- <- <- E; right; intros x []]
    | injection E as <- <- <- E; destruct b as [|p b]; [discriminate|]; injection E as <- _; left; exists (0, 2), [(0, 2)];
        split; [simpl; auto|]; split; [simpl; auto|]; split; [simpl; auto|]; auto ]
    |injection E as <- E]).
  destruct a; discriminate.
Qed.

Lemma om_valid : gvalid om_prog.
Proof.
  split.
  - simpl. repeat (constructor; [simpl; intuition discriminate|]). constructor.
  - simpl. repeat (constructor; [simpl; intuition discriminate|]). constructor.
  - simpl; intros d x H; repeat (destruct H as [H|H]; [try discriminate; injection H as <- <-; reflexivity|]); destruct H.
  - simpl; intros dest q H; repeat (destruct H as [H|H]; [try discriminate; injection H as <- <-; eexists; reflexivity|]); destruct H.
  - simpl; intros dest nd q H; repeat (destruct H as [H|H]; [try discriminate; injection H as <- <- <-; eexists; reflexivity|]); destruct H.
Qed.

Lemma om_plays : gplays oprog orefs [((1, 0), 0)] [3] om_prog.
Proof.
  unfold om_prog.
  apply (G_other oprog orefs _ _ (firstn 9 om_prog) (RGet [(0, 3)])); [|exact Logic.I].
  apply (G_other oprog orefs _ _ (firstn 8 om_prog) (RGet [(0, 4)])); [|exact Logic.I].
  apply (G_meth (firstn 5 oprog) (firstn 5 orefs) _ [3] (firstn 7 om_prog) 0 3 (1, 1) 0 [AVal (VLeaf 5)] [] [VLeaf 5] [] [(0, 4)]); try reflexivity; [|repeat constructor|constructor].
  apply (G_meth (firstn 4 oprog) (firstn 4 orefs) _ [3] (firstn 6 om_prog) 0 3 (1, 1) 1 [AVal (VLeaf 1)] [] [VLeaf 1] [] [(0, 3)]); try reflexivity; [|repeat constructor|constructor].
  apply (G_other _ _ _ _ (firstn 5 om_prog) (RGet [(0, 2)])); [|exact Logic.I].
  apply (G_meth (firstn 3 oprog) (firstn 3 orefs) _ [3] (firstn 4 om_prog) 0 3 (1, 1) 0 [AOut 2 0] [] [VRef (0, 1)] [] [(0, 2)]); try reflexivity; [|repeat constructor; exists (0, 1); auto|constructor].
  apply (G_fun (firstn 2 oprog) (firstn 2 orefs) _ [3] (firstn 3 om_prog) 0 (1, 0) [AOut 0 0; AVal (VLeaf 1)] [] [VRef (0, 0); VLeaf 1] [] [(0, 1)]); try reflexivity;
    [|repeat constructor; exists (0, 0); auto|constructor|simpl; auto].
  apply (G_make (firstn 1 oprog) (firstn 1 orefs) _ []); [|intros []].
  apply (G_put [] [] _ [] (firstn 2 om_prog)). apply (G_name [] [] _ [] (firstn 1 om_prog)). apply (G_function [] [] [] [] []). constructor.
Qed.

Lemma om_shows c i r : match ref_at orefs c i with
    | Some d => match r with
                | Ret v => In (RGot [d] [v]) om_seen
                | Exn e => In (RRaised [d] e) om_seen end
    | None => False end -> oshows_mpi zbody zmbody (VLeaf 10) oprog c i r.
Proof.
  intros H. destruct (ref_at orefs c i) as [d|] eqn:R; [|contradiction]. exists [2; 3], cmgr, om_sched, orefs, [((1, 0), 0)], [3], d. cbv zeta.
  assert (F := om_facts). set (g := grun _ _ _ _ _ _) in *. clearbody g. destruct F as [P Sn]. rewrite P, Sn.
  split; [constructor; [simpl; intuition discriminate|]; constructor; [simpl; tauto|constructor]|]. split; [exact om_valid|]. split; [clear H; prove_placed|]. split; [exact om_scoped|].
  split; [unfold om_seen; simpl; intuition discriminate|]. split; [exact om_waits|]. split; [exact om_plays|]. split; [exact R|].
  destruct r as [x|e]; [|exact H]. exists [d], [x], 0. auto.
Qed.

Lemma om_case : plain_bodies zbody zmbody /\ oportable zbody xcbody zmbody oprog /\
  (forall c args kw, In (TMake c args kw) oprog -> xcbody c args kw = Ret (VLeaf 10)) /\
  oshows_mpi zbody zmbody (VLeaf 10) oprog 5 0 (Ret (VLeaf 20)) /\ oshows_mpi zbody zmbody (VLeaf 10) oprog 4 0 (Exn 8) /\
  oshows OnPySeq zbody xcbody zmbody oprog 5 0 (Ret (VLeaf 20)).
Proof.
  split; [exact ObjDoneProofs.o_plain|]. split; [exact o_portable|]. split.
  - intros c args kw I. simpl in I. repeat (destruct I as [I|I]; [try discriminate; injection I as <- <- <-; reflexivity|]). destruct I.
  - split; [apply om_shows; simpl; auto|]. split; [apply om_shows; simpl; auto|]. apply oseq_shows; reflexivity.
Qed.

Lemma om_done_case : plain_bodies zbody zmbody /\ oportable zbody xcbody zmbody oprog /\ oscoped oprog /\ calls_return oprog /\
  (forall c args kw, In (TMake c args kw) oprog -> xcbody c args kw = Ret (VLeaf 10)) /\ nth_error oprog 4 = Some (TMeth 0 1 [AVal (VLeaf 1)] [] 1).
Proof.
  destruct om_case as (A & B & C & _). split; [exact A|]. split; [exact B|]. split; [exact ObjDoneProofs.o_scoped|]. split; [|split; [exact C|reflexivity]].
  intros x I. simpl in I. repeat (destruct I as [<-|I]; [simpl; auto|]). destruct I.
Qed.
