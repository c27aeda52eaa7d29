(** Concrete programs with values that cannot be pickled or unpickled. *)
From Verif Require Import Lib ValModel WorkerModel WorkerSpec ClusterModel NestModel NestSpec NestStuckCases NestRun ReapSpec ReapCases StopModel StopSpec StopProofs StopCases
  PickModel PickSpec PickProofs.

(** Function 1 returns what cannot be pickled (66: a generator), 2 raises an exception that can be pickled but not unpickled (77: a
    class whose constructor takes two arguments), 3 one that cannot be pickled; the others return 5. *)
Definition kbody (f args kwargs : val) : act :=
  match f with VLeaf 1 => ARet (RVal (VLeaf 66)) | VLeaf 2 => ARet (RExc 77) | VLeaf 3 => ARet (RExc 66) | _ => ARet (RVal (VLeaf 5)) end.

Definition kdumps (v : val) : bool := match v with VLeaf n | VExc n => negb (Nat.eqb n 66) | _ => true end.

Definition kloads (v : val) : bool := match v with VExc n => negb (Nat.eqb n 77) | _ => true end.

Ltac kcases f := unfold kbody; destruct f as [[|[|[|[|n]]]]|e|r|l|l|l]; simpl; auto.

Lemma kbody_ok f a k : refs a = [] -> refs k = [] -> refless (kbody f a k).
Proof. intros _ _. kcases f. Qed.

Lemma kbody_closed f a k : refs a = [] -> refs k = [] -> closed [] [] (kbody f a k).
Proof. intros _ _. kcases f. Qed.

Lemma kbody_getless f a k : refs a = [] -> refs k = [] -> getless (kbody f a k).
Proof. intros _ _. kcases f. Qed.

(** Calls a, then 4; gets the result of a, then the other one. *)
Definition kget (a : nat) : act :=
  APut (VLeaf a) (fun f1 => APut (VLeaf 4) (fun f2 =>
  ASubmit f1 (VTuple []) (VDict []) 1 (fun x => ASubmit f2 (VTuple []) (VDict []) 1 (fun y =>
  match x, y with
  | Some [x], Some [y] => AGet [x] (fun _ => AGet [y] (fun _ => ARet (RVal (VLeaf 0))))
  | _, _ => ARet (RExc 1)
  end)))).

(** Calls a, then 4 with its result and 4 without arguments; gets the last result. *)
Definition kuse (a : nat) : act :=
  APut (VLeaf a) (fun f1 => APut (VLeaf 4) (fun f2 =>
  ASubmit f1 (VTuple []) (VDict []) 1 (fun x =>
  match x with
  | Some [x] => ASubmit f2 (VTuple [VRef x]) (VDict []) 1 (fun _ => ASubmit f2 (VTuple []) (VDict []) 1 (fun y =>
      match y with Some [y] => AGet [y] (fun _ => ARet (RVal (VLeaf 0))) | _ => ARet (RExc 1) end))
  | _ => ARet (RExc 1)
  end))).

Lemma kget_ok a : refless (kget a).
Proof. simpl. do 2 (split; [reflexivity|]; intros ?). intros [[|y [|y' l]]|] [[|z [|z' l']]|]; simpl; auto. Qed.

Lemma kuse_ok a : refless (kuse a).
Proof. simpl. do 2 (split; [reflexivity|]; intros ?). intros [[|y [|y' l]]|]; simpl; auto. intros _ [[|z [|z' l']]|]; simpl; auto. Qed.

Lemma one_new (d : dataid) : NoDup [d].
Proof. constructor; [intros []|constructor]. Qed.

Lemma kget_closed a : closed [] [] (kget a).
Proof.
  intros f1 f2. split; [simpl; auto|]. split; [intros x []|]. intros [|x [|x' l]] E; try discriminate. cbn [closed]. split; [simpl; auto|]. split; [intros y []|].
  intros [|y [|y' l]] E'; try discriminate. cbn [closed]. split; [intros z [<-|[]]; simpl; auto|]. split; [apply one_new|].
  intros r _. cbn [closed]. split; [intros z [<-|[]]; simpl; auto|]. split; [apply one_new|auto].
Qed.

Lemma kuse_closed a : closed [] [] (kuse a).
Proof.
  intros f1 f2. split; [simpl; auto|]. split; [intros x []|]. intros [|x [|x' l]] E; try discriminate. cbn [closed]. split; [simpl; auto|].
  split; [intros y I; simpl in I; destruct I as [<-|[]]; simpl; auto|]. intros ds _. split; [simpl; auto|]. split; [intros y []|].
  intros [|y [|y' l]] E'; try discriminate. cbn [closed]. split; [intros z [<-|[]]; simpl; auto|]. split; [apply one_new|auto].
Qed.

Notation kr main ops := (yrun [2; 3] kbody kdumps kloads main ops).

(** Both calls go to worker 2. *)
Definition kops1 : list nop := [NRun 0 0; NRun 0 0; NRun 0 2; NRun 0 2; NTake 0 2; NTake 0 2; NRun 2 0; NRun 0 0].

(** The first call goes to worker 2, the others to worker 3. *)
Definition kops2 : list nop :=
  [NRun 0 0; NRun 0 0; NRun 0 2; NRun 0 3; NRun 0 3; NTake 0 2; NTake 0 2; NRun 2 0; NTake 0 3; NTake 0 3; NTake 0 3; NTake 3 2; NTake 2 3; NRun 0 0].

(** Both calls go to worker 2, which executes them before it is asked. *)
Definition kops3 : list nop :=
  [NRun 0 0; NRun 0 0; NRun 0 2; NRun 0 2; NTake 0 2; NTake 0 2; NRun 2 0; NTake 0 2; NTake 0 2; NRun 2 0; NRun 0 0; NTake 0 2].

(** The same; the answer comes. *)
Definition kops4 : list nop := kops3 ++ [NReply 2 0].

Definition kcall (i : nat) (f o : nat) (args : list val) : request := {| q_id := i; q_fn := FRef (0, f); q_args := VTuple args; q_kwargs := VDict []; q_out := OOne (0, o) |}.

Lemma halt_case x fr : p_cur (n_proc (x_n x) 0) = Some fr -> f_get fr <> None -> (x_gone x 0 = true \/ forall src, n_rep (x_n x) src 0 = []) ->
  (forall p, p <> 0 -> x_gone x p = true \/ (p_cur (n_proc (x_n x) p) = None /\ forall src, n_chan (x_n x) src p = [])) -> halted x.
Proof.
  intros C G R O p N. destruct (Nat.eq_dec p 0) as [->|Z].
  - destruct R as [R|R]; [congruence|]. rewrite C. right. auto.
  - destruct (O p Z) as [X|[X Y]]; [congruence|]. rewrite X. auto.
Qed.

Lemma kr_more main ops more : halted (kr main ops) -> kr main (ops ++ more) = kr main ops.
Proof. intros Hl. unfold yrun in *. rewrite fold_left_app. apply fixed. intros o. apply y_still. exact Hl. Qed.

Definition kframe (d : dataid) (k : gres -> act) : frame :=
  {| f_run := 0; f_q := noq; f_act := AGet [d] k; f_get := Some {| t_want := [d]; t_ids := [d]; t_left := 1; t_exc := None |}; f_rest := LMain |}.

Definition kend : gres -> act := fun _ => ARet (RVal (VLeaf 0)).
Definition kthen : gres -> act := fun _ => AGet [(0, 3)] kend.

Ltac kbare := intros [|[|[|[|p]]]] Z; [congruence| | | |]; first [left; vm_compute; reflexivity|right; split; [vm_compute; reflexivity|intros [|[|[|[|src]]]]; vm_compute; reflexivity]].
Ltac krep := right; intros [|[|[|[|src]]]]; vm_compute; reflexivity.

Lemma k1_root : p_cur (n_proc (x_n (kr (kget 1) kops1)) 0) = Some (kframe (0, 2) kthen).
Proof. vm_compute. reflexivity. Qed.
Lemma k1_halted : halted (kr (kget 1) kops1).
Proof. apply (halt_case _ _ k1_root); [discriminate|krep|kbare]. Qed.
Lemma k1_hist : n_hist (x_n (kr (kget 1) kops1)) =
  [(0, HPut (0, 0) (VLeaf 1)); (0, HPut (0, 1) (VLeaf 4)); (0, HSubmit 2 (kcall 0 0 2 [])); (0, HSubmit 2 (kcall 1 1 3 [])); (1, HStart 0)].
Proof. vm_compute. reflexivity. Qed.

Lemma k2_root : p_cur (n_proc (x_n (kr (kuse 2) kops2)) 0) = Some (kframe (0, 4) kend).
Proof. vm_compute. reflexivity. Qed.
Lemma k2_halted : halted (kr (kuse 2) kops2).
Proof. apply (halt_case _ _ k2_root); [discriminate|krep|kbare]. Qed.
Lemma k2_hist : n_hist (x_n (kr (kuse 2) kops2)) =
  [(0, HPut (0, 0) (VLeaf 2)); (0, HPut (0, 1) (VLeaf 4)); (0, HSubmit 2 (kcall 0 0 2 [])); (0, HSubmit 3 (kcall 1 1 3 [VRef (0, 2)]));
   (0, HSubmit 3 (kcall 2 1 4 [])); (1, HStart 0); (1, HEnd (RExc 77))].
Proof. vm_compute. reflexivity. Qed.
Lemma k2_gone p : x_gone (kr (kuse 2) kops2) p = Nat.eqb p 3.
Proof. destruct p as [|[|[|[|p]]]]; vm_compute; reflexivity. Qed.
Lemma k2_fits : results_fit (n_hist (x_n (kr (kuse 2) kops2))).
Proof. apply ones_fit. vm_compute. reflexivity. Qed.

Lemma k3_root : p_cur (n_proc (x_n (kr (kget 3) kops3)) 0) = Some (kframe (0, 2) kthen).
Proof. vm_compute. reflexivity. Qed.
Lemma k3_halted : halted (kr (kget 3) kops3).
Proof. apply (halt_case _ _ k3_root); [discriminate|krep|kbare]. Qed.
Lemma k3_hist : n_hist (x_n (kr (kget 3) kops3)) =
  [(0, HPut (0, 0) (VLeaf 3)); (0, HPut (0, 1) (VLeaf 4)); (0, HSubmit 2 (kcall 0 0 2 [])); (0, HSubmit 2 (kcall 1 1 3 []));
   (1, HStart 0); (1, HEnd (RExc 66)); (2, HStart 1); (2, HEnd (RVal (VLeaf 5)))].
Proof. vm_compute. reflexivity. Qed.

Lemma k4_root : p_cur (n_proc (x_n (kr (kget 2) kops4)) 0) = Some (kframe (0, 2) kthen).
Proof. vm_compute. reflexivity. Qed.
Lemma k4_gone : x_gone (kr (kget 2) kops4) 0 = true.
Proof. vm_compute. reflexivity. Qed.
Lemma k4_halted : halted (kr (kget 2) kops4).
Proof. apply (halt_case _ _ k4_root); [discriminate|left; exact k4_gone|kbare]. Qed.
Lemma k4_hist : n_hist (x_n (kr (kget 2) kops4)) =
  [(0, HPut (0, 0) (VLeaf 2)); (0, HPut (0, 1) (VLeaf 4)); (0, HSubmit 2 (kcall 0 0 2 [])); (0, HSubmit 2 (kcall 1 1 3 []));
   (1, HStart 0); (1, HEnd (RExc 77)); (2, HStart 1); (2, HEnd (RVal (VLeaf 5)))].
Proof. vm_compute. reflexivity. Qed.
Lemma k4_fits : results_fit (n_hist (x_n (kr (kget 2) kops4))).
Proof. apply ones_fit. vm_compute. reflexivity. Qed.

Lemma no_root23 : ~ In 0 [2; 3].
Proof. simpl. intros [E|[E|[]]]; discriminate. Qed.

Ltac kin I := simpl in I; repeat (destruct I as [I|I]; [first [discriminate I|injection I as <-|idtac]|]); try (destruct I).

Lemma k1_for_ever more : in_get (x_n (kr (kget 1) (kops1 ++ more))) 0 /\ ~ finished (n_hist (x_n (kr (kget 1) (kops1 ++ more)))) (kcall 1 1 3 []).
Proof.
  rewrite kr_more by exact k1_halted. split; [exists (kframe (0, 2) kthen); split; [exact k1_root|discriminate]|].
  rewrite k1_hist. intros (t & r & A & B). kin A.
Qed.

Lemma k1_calls : In (0, HSubmit 2 (kcall 0 0 2 [])) (n_hist (x_n (kr (kget 1) kops1))) /\ In (0, HSubmit 2 (kcall 1 1 3 [])) (n_hist (x_n (kr (kget 1) kops1))).
Proof. rewrite k1_hist. simpl. tauto. Qed.

Lemma k2_for_ever more : in_get (x_n (kr (kuse 2) (kops2 ++ more))) 0 /\ ~ finished (n_hist (x_n (kr (kuse 2) (kops2 ++ more)))) (kcall 2 1 4 []).
Proof.
  rewrite kr_more by exact k2_halted. split; [exists (kframe (0, 4) kend); split; [exact k2_root|discriminate]|].
  rewrite k2_hist. intros (t & r & A & B). kin A.
Qed.

Lemma k2_calls : In (0, HSubmit 2 (kcall 0 0 2 [])) (n_hist (x_n (kr (kuse 2) kops2))) /\ In (0, HSubmit 3 (kcall 1 1 3 [VRef (0, 2)])) (n_hist (x_n (kr (kuse 2) kops2))) /\
  In (0, HSubmit 3 (kcall 2 1 4 [])) (n_hist (x_n (kr (kuse 2) kops2))).
Proof. rewrite k2_hist. simpl. tauto. Qed.

Lemma k2_other d : In d (uses (kcall 2 1 4 [])) -> ~ In d (out_ids (q_out (kcall 0 0 2 []))) /\ ~ In d (out_ids (q_out (kcall 1 1 3 [VRef (0, 2)]))).
Proof. simpl. intros [<-|[]]. split; intros [E|[]]; discriminate E. Qed.

Lemma k2_finished : finished (n_hist (x_n (kr (kuse 2) kops2))) (kcall 0 0 2 []).
Proof. exists 1, (RExc 77). rewrite k2_hist. simpl. tauto. Qed.

Lemma k2_affected : ~ affected (fun w => x_gone (kr (kuse 2) kops2) w = true) (n_hist (x_n (kr (kuse 2) kops2))) (kcall 0 0 2 []).
Proof.
  intros A. inversion A as [t o q I B|t o q t' o' q' d I D I' O' A']; subst.
  - rewrite k2_gone in B. apply Nat.eqb_eq in B as ->. rewrite k2_hist in I. simpl in I. repeat (destruct I as [I|I]; [discriminate I|]). destruct I.
  - simpl in D. destruct D as [<-|[]]. rewrite k2_hist in I'. simpl in I'.
    repeat (destruct I' as [I'|I']; [first [discriminate I'|injection I' as <- <- <-; simpl in O'; destruct O' as [O'|[]]; discriminate O']|]). destruct I'.
Qed.

Lemma k3_for_ever more : in_get (x_n (kr (kget 3) (kops3 ++ more))) 0 /\ finished (n_hist (x_n (kr (kget 3) (kops3 ++ more)))) (kcall 0 0 2 []).
Proof.
  rewrite kr_more by exact k3_halted. split; [exists (kframe (0, 2) kthen); split; [exact k3_root|discriminate]|].
  exists 1, (RExc 66). rewrite k3_hist. simpl. tauto.
Qed.

Lemma k4_raises : main_raises kloads kbody (kr (kget 2) kops4).
Proof. apply main_gone; [exact no_root23|exact kbody_ok|apply kget_ok|exact kbody_closed|apply kget_closed|exact k4_fits|exact k4_gone]. Qed.

Lemma k4_for_ever more t ds r : ~ In (t, HGet ds r) (n_hist (x_n (kr (kget 2) (kops4 ++ more)))).
Proof. rewrite kr_more by exact k4_halted. rewrite k4_hist. intros I. kin I. Qed.

(** ** A program all of whose values can be pickled and unpickled *)

(** Function 2 raises 8, the others return 5. *)
Definition fbody (f args kwargs : val) : act := match f with VLeaf 2 => ARet (RExc 8) | _ => ARet (RVal (VLeaf 5)) end.

Lemma five_passes o d v : gives o (RVal (VLeaf 5)) d v -> passes kdumps kloads v.
Proof. destruct o as [|d'|ds]; simpl; [intros []|intros [_ ->]|intros (vs & E & _); discriminate E]. split; reflexivity. Qed.

Lemma fbody_fine f a k : picklable kdumps kloads (fbody f a k).
Proof.
  unfold fbody. destruct f as [[|[|[|n]]]|e|r|l|l|l]; cbn [picklable]; try exact five_passes.
  intros o d v. simpl. intros [_ ->]. split; reflexivity.
Qed.

Lemma fmain_fine : picklable kdumps kloads (kuse 2).
Proof.
  assert (R : forall e, passes kdumps kloads (VExc e) -> picklable kdumps kloads (ARet (RExc e))) by (intros e P o d v [_ ->]; exact P).
  assert (R1 : picklable kdumps kloads (ARet (RExc 1))) by (apply R; split; reflexivity).
  assert (V : picklable kdumps kloads (ARet (RVal (VLeaf 0)))) by (intros [|d'|ds] d v; simpl; [intros []|intros [_ ->]; split; reflexivity|intros (vs & E & _); discriminate E]).
  unfold kuse. cbn [picklable]. split; [split; reflexivity|]. intros f1. split; [split; reflexivity|]. intros f2.
  split; [exists [], []; do 4 (split; [reflexivity|]); intros e []|]. intros [[|x [|x' l]]|]; auto. cbn [picklable].
  split; [exists [VRef x], []; do 4 (split; [reflexivity|]); intros e [E|[]]; discriminate E|]. intros _. split; [exists [], []; do 4 (split; [reflexivity|]); intros e []|].
  intros [[|y [|y' l]]|]; auto. intros r. exact V.
Qed.

Lemma fbody_ok f a k : refs a = [] -> refs k = [] -> refless (fbody f a k).
Proof. intros _ _. unfold fbody. destruct f as [[|[|[|n]]]|e|r|l|l|l]; simpl; auto. Qed.

Definition fops : list nop := kops2 ++ [NRun 3 0; NTake 0 3; NRun 3 0; NTake 0 3; NReply 3 0].

Lemma fcase_all : n_hist (x_n (yrun [2; 3] fbody kdumps kloads (kuse 2) fops)) =
  [(0, HPut (0, 0) (VLeaf 2)); (0, HPut (0, 1) (VLeaf 4)); (0, HSubmit 2 (kcall 0 0 2 [])); (0, HSubmit 3 (kcall 1 1 3 [VRef (0, 2)]));
   (0, HSubmit 3 (kcall 2 1 4 [])); (1, HStart 0); (1, HEnd (RExc 8)); (2, HStart 1); (2, HEnd (RExc 8)); (3, HStart 2); (3, HEnd (RVal (VLeaf 5)));
   (0, HGet [(0, 4)] (GVals [VLeaf 5]))].
Proof. vm_compute. reflexivity. Qed.

Lemma fcase_hist : In (1, HEnd (RExc 8)) (n_hist (x_n (yrun [2; 3] fbody kdumps kloads (kuse 2) fops))) /\
  In (2, HEnd (RExc 8)) (n_hist (x_n (yrun [2; 3] fbody kdumps kloads (kuse 2) fops))) /\
  In (0, HGet [(0, 4)] (GVals [VLeaf 5])) (n_hist (x_n (yrun [2; 3] fbody kdumps kloads (kuse 2) fops))).
Proof. rewrite fcase_all. simpl. tauto. Qed.
