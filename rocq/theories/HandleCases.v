(** Concrete actors and runs for HandleProps. Class 0 is a counter built from a number, class 1 has a constructor that raises. Method 0
    adds its argument and returns the sum, method 1 raises. *)
From Verif Require Import Lib ValModel WorkerModel WorkerSpec WorkerCases HandleModel HandleSpec.

Definition number (v : val) : nat := match v with VList [VLeaf n] => n | _ => 0 end.
Definition counters : classes := {|
  obj := nat;
  construct := fun c args _ => match c with 1 => None | _ => Some (number args) end;
  has := fun _ n => Nat.ltb n 2;
  meth := fun o n args _ => match n with 0 => (o + number args, RVal (VLeaf (o + number args))) | _ => (o, RExc 7) end;
  co := fun _ _ => false |}.

Definition h1 : dataid := (0, 101).
Definition h2 : dataid := (0, 102).
Definition nd0 : dataid := (0, 103).
Definition nd1 : dataid := (0, 104).
Definition nd9 : dataid := (0, 105).
Definition plainf : val -> bool := fun _ => false.
Definition noargs : val := VDict [].
Definition ask (n : nat) (args : list val) (d : dataid) : request :=
  {| q_id := n; q_fn := FMethod 0; q_args := VList args; q_kwargs := noargs; q_out := OOne d |}.
Definition o1 : dataid := (0, 111).
Definition o2 : dataid := (0, 112).
Definition o3 : dataid := (0, 113).
Definition late : dataid := (0, 114).

(** Two counters; the first call waits for its argument and is overtaken by the third. *)
Definition hms : list hmsg :=
  [HM (WPut nd0 (VLeaf 0)); HCreate h1 0 (VList [VLeaf 5]) noargs; HCreate h2 0 (VList [VLeaf 100]) noargs;
   HM (WOwner late 3); HCall h1 nd0 (ask 1 [VRef late] o1); HCall h2 nd0 (ask 2 [VLeaf 1] o2); HCall h1 nd0 (ask 3 [VLeaf 2] o3);
   HM (WPut late (VLeaf 10))].

Definition results_in (l : list wev) : list (nat * result) :=
  flat_map (fun e => match e with EvEnd n r => [(n, r)] | _ => [] end) l.

Lemma c68_case : no_refs_methods counters /\ no_refs_put hms /\ NoDup (created_handles hms) /\
  exists s, hrun counters 2 xbody plainf hinit hms = Lives s /\ ready (hw s) = false /\
    results_in (log (hw s)) = [(2, RVal (VLeaf 101)); (3, RVal (VLeaf 7)); (1, RVal (VLeaf 17))].
Proof.
  split; [intros o [|n] a k; exact Logic.I || reflexivity|].
  split. { intros d v H. simpl in H. repeat (destruct H as [H|H]; [try discriminate; injection H as <- <-; reflexivity|]). destruct H. }
  split. { repeat constructor; simpl; intuition discriminate. }
  eexists. split; [vm_compute; reflexivity|]. split; vm_compute; reflexivity.
Qed.

Lemma c68_reference : exists C self body fco ms s d v h c,
  In (HM (WPut d v)) ms /\ In (HCreate h c (VList [VRef d]) (VDict [])) ms /\ hrun C self body fco hinit ms = Lives s /\
  construct C c (VList [VRef d]) (VDict []) <> construct C c (VList [v]) (VDict []) /\
  exists x, In x (hmade s) /\ a_handle x = h /\ Some (a_obj x) <> construct C c (VList [v]) (VDict []).
Proof.
  exists counters, 2, xbody, plainf, [HM (WPut late (VLeaf 5)); HCreate h1 0 (VList [VRef late]) noargs].
  eexists. exists late, (VLeaf 5), h1, 0. split; [simpl; auto|]. split; [simpl; auto|]. split; [vm_compute; reflexivity|].
  split; [discriminate|]. eexists. split; [simpl; left; reflexivity|]. split; [reflexivity|]. simpl. discriminate.
Qed.

Lemma c68_raises : exists C self body fco h c args kwargs,
  construct C c args kwargs = None /\ hrun C self body fco hinit [HCreate h c args kwargs] = Dies DInit.
Proof. exists counters, 2, xbody, plainf, h1, 1, (VList []), noargs. split; reflexivity. Qed.

Lemma c68_missing : exists C self body fco h c args kwargs nd n q o,
  construct C c args kwargs = Some o /\ has C o n = false /\
  hrun C self body fco hinit [HM (WPut nd (VLeaf n)); HCreate h c args kwargs; HCall h nd q] = Dies DAttr.
Proof.
  exists counters, 2, xbody, plainf, h1, 0, (VList []), noargs, nd9, 9, (ask 1 [] o1), 0. split; [|split]; vm_compute; reflexivity.
Qed.

(** The root makes an actor on worker 2, calls it, receives an answer and passes the handle to worker 3, which calls it. *)
Definition nops1 : list nop :=
  [NCreate 0 2 h1 0 (VList [VLeaf 5]) noargs; NCall 0 h1 nd0 0 (ask 1 [VLeaf 1] o1);
   NTake 0 2; NTake 0 2; NTake 0 2; NSend 2 0 (WPut o1 (VLeaf 6)) []; NTake 2 0;
   NSend 0 3 (WPut o2 (VLeaf 0)) [h1]; NTake 0 3; NCall 3 h1 nd1 0 (ask 2 [VLeaf 10] o3); NTake 3 2; NTake 3 2].
(** The same without waiting for the answer: the call of worker 3 arrives first. *)
Definition nops2 : list nop :=
  [NCreate 0 2 h1 0 (VList [VLeaf 5]) noargs; NSend 0 3 (WPut o2 (VLeaf 0)) [h1]; NTake 0 3;
   NCall 3 h1 nd1 0 (ask 2 [VLeaf 10] o3); NTake 3 2; NTake 3 2].

Lemma c69_case : licensed counters xbody plainf nops1 /\
  (forall w, In w [0; 2; 3] -> n_dead (nrun counters xbody plainf nops1) w = None) /\
  results_in (log (hw (n_work (nrun counters xbody plainf nops1) 2))) = [(1, RVal (VLeaf 6)); (2, RVal (VLeaf 16))].
Proof.
  split; [|split].
  - intros a p h nd n q b E.
    do 12 (destruct a as [|? a]; [try discriminate; injection E as <- <- <- <- <- <-; vm_compute; auto|injection E as <- E]).
    destruct a; discriminate.
  - intros w [<-|[<-|[<-|[]]]]; vm_compute; reflexivity.
  - vm_compute. reflexivity.
Qed.

Lemma c69_refuted : exists C body fco ops a p h nd n q b w,
  ops = a ++ NCall p h nd n q :: b /\ In h (n_knows (nrun C body fco a) p) /\
  n_dead (nrun C body fco a) w = None /\ n_dead (nrun C body fco ops) w = Some DHandle.
Proof.
  exists counters, xbody, plainf, nops2, (firstn 3 nops2), 3, h1, nd1, 0, (ask 2 [VLeaf 10] o3), [NTake 3 2; NTake 3 2], 2.
  split; [reflexivity|]. split; [vm_compute; auto|]. split; vm_compute; reflexivity.
Qed.
