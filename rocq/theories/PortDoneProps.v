(** C98: a program can be run to its end on every backend, and every result can be read. *)
From Verif Require Import Lib ValModel PyseqModel PyseqSpec PortSpec PortShows PortProofs PortCases PortDoneSpec PortDoneMpi PortDoneNot PortDoneProofs.
From Verif Require WorkerSpec WorkerCases ClusterModel ClusterSpec.

(** Every result of the program can be read with get. Partial: as in C98_values_partial; on PySeq, no call is given the reference of a
    call that raised; on MPI, no call with num_returns=0. *)
Theorem C98_complete_partial : forall body prog, plain_functions body -> portable body prog -> scoped prog -> forall b, suits b body prog ->
  forall c x i, nth_error prog c = Some x -> i < outs x -> exists r, shows b body prog c i r.
Proof. exact complete. Qed.
Print Assumptions C98_complete_partial.

(** Where direct execution gives a value, get gives exactly that value. *)
Theorem C98_exactly_partial : forall body prog, plain_functions body -> portable body prog -> scoped prog -> forall b, suits b body prog ->
  forall c x i v, nth_error prog c = Some x -> i < outs x -> result_of (direct body prog) c i = Some (Ret v) ->
  forall r, shows b body prog c i r <-> r = Ret v.
Proof. exact exactly. Qed.
Print Assumptions C98_exactly_partial.

(** What get returns on one backend, it returns on every other. *)
Theorem C98_everywhere_partial : forall body prog, plain_functions body -> portable body prog -> scoped prog -> forall b b', suits b' body prog ->
  forall c x i v, nth_error prog c = Some x -> i < outs x -> shows b body prog c i (Ret v) -> is_exc v = false -> shows b' body prog c i (Ret v).
Proof. exact everywhere. Qed.
Print Assumptions C98_everywhere_partial.

(** On PySeq a call that is given the reference of a call that raised returns no reference: the program goes no further. *)
Theorem C98_raising_argument : forall body prog, portable body prog -> forall pre f args kw n post c i e,
  prog = pre ++ CFun f args kw n :: post -> 0 < n -> In (AOut c i) (args ++ map snd kw) -> result_of (direct body pre) c i = Some (Exn e) ->
  forall c' i' r, ~ shows PySeq body prog c' i' r.
Proof. exact seq_never. Qed.
Print Assumptions C98_raising_argument.

(** So there is a program that all the other backends run to its end and PySeq does not. *)
Theorem C98_complete_refuted : exists body prog, plain_functions body /\ portable body prog /\ scoped prog /\
  (forall c i r, ~ shows PySeq body prog c i r) /\
  forall b, b <> PySeq -> forall c i, c < length prog -> i = 0 -> exists e r, shows b body prog c i r /\ (r = Exn e \/ b = Mpi /\ r = Ret (VExc e)).
Proof. exists zbody, rprog. split; [exact z_plain|]. split; [exact r_portable|]. split; [exact r_scoped|]. split; [exact r_never|exact r_others]. Qed.
Print Assumptions C98_complete_refuted.

(** On MPI: whatever has been executed, the messages under way can be delivered until there is none (then C51_gets_answered
    and C51_nothing_stuck say that nothing is left to do). *)
Theorem C51_settles : forall workers body, (forall f a k, WorkerSpec.no_refs_returned (body f a k)) -> ~ In 0 workers -> NoDup workers ->
  forall mgr ops, let c := ClusterModel.crun workers body mgr ops in
  ClusterSpec.valid workers (ClusterModel.c_prog c) -> ClusterSpec.tidy (ClusterModel.c_prog c) -> ClusterSpec.returns_enough body (ClusterModel.c_prog c) ->
  exists more, let c' := ClusterModel.crun workers body mgr (ops ++ more) in ClusterSpec.idle c' /\ ClusterModel.c_prog c' = ClusterModel.c_prog c.
Proof. exact settle. Qed.
Print Assumptions C51_settles.

(** ** Cases *)

Example C98_complete_partial_case : plain_functions zbody /\ portable zbody pprog /\ scoped pprog /\ (forall b, suits b zbody pprog) /\
  nth_error pprog 1 = Some (CFun 2 [AOut 0 0; AVal (VLeaf 1)] [] 2) /\ result_of (direct zbody pprog) 1 1 = Some (Ret (VLeaf 5)) /\
  forall b r, shows b zbody pprog 1 1 r <-> r = Ret (VLeaf 5).
Proof.
  split; [exact z_plain|]. split; [exact p_portable|]. split; [exact p_scoped|]. split; [exact p_suits|]. split; [reflexivity|]. split; [reflexivity|].
  intros b. apply (exactly zbody pprog z_plain p_portable p_scoped b (p_suits b) 1 (CFun 2 [AOut 0 0; AVal (VLeaf 1)] [] 2)); [reflexivity|cbn; auto with arith|reflexivity].
Qed.

Example C98_raising_argument_case : portable zbody rprog /\ rprog = [CFun 1 [] [] 1] ++ [CFun 0 [AOut 0 0] [] 1] /\
  result_of (direct zbody [CFun 1 [] [] 1]) 0 0 = Some (Exn 9).
Proof. split; [exact r_portable|]. split; reflexivity. Qed.

Example C51_settles_case : ClusterSpec.valid [2; 3] (ClusterModel.c_prog cc0) /\ ClusterSpec.tidy (ClusterModel.c_prog cc0) /\
  ClusterSpec.returns_enough WorkerCases.xbody (ClusterModel.c_prog cc0) /\ ~ ClusterSpec.idle cc0 /\ ClusterModel.c_left cc0 = 2.
Proof. exact cc0_case. Qed.
