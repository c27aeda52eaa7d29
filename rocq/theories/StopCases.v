(** Concrete programs with a task that exits. *)
From Verif Require Import Lib ValModel WorkerModel WorkerSpec ClusterModel NestModel NestSpec NestStuckCases NestRun ReapSpec ReapCases StopModel StopSpec StopProofs.

(** Function 1 exits, the others return. Exception 9 is SystemExit. *)
Definition zbody (f args kwargs : val) : act := match f with VLeaf 1 => ARet (RExc 9) | _ => ARet (RVal (VLeaf 5)) end.

Definition zexits (e : nat) : bool := Nat.eqb e 9.

Lemma zbody_ok f a k : refs a = [] -> refs k = [] -> refless (zbody f a k).
Proof. intros _ _. unfold zbody. destruct f as [[|[|n]]|e|r|l|l|l]; simpl; auto. Qed.

Lemma zbody_closed f a k : refs a = [] -> refs k = [] -> closed [] [] (zbody f a k).
Proof. intros _ _. unfold zbody. destruct f as [[|[|n]]|e|r|l|l|l]; simpl; auto. Qed.

Lemma zbody_getless f a k : refs a = [] -> refs k = [] -> getless (zbody f a k).
Proof. intros _ _. unfold zbody. destruct f as [[|[|n]]|e|r|l|l|l]; simpl; auto. Qed.

(** The main program calls 1, then 2 twice, and gets the results of the calls of 2, the last one first. *)
Definition zmain : act :=
  APut (VLeaf 1) (fun f1 => APut (VLeaf 2) (fun f2 =>
  ASubmit f1 (VTuple []) (VDict []) 1 (fun _ => ASubmit f2 (VTuple []) (VDict []) 1 (fun y => ASubmit f2 (VTuple []) (VDict []) 1 (fun z =>
  match y, z with
  | Some [y], Some [z] => AGet [z] (fun _ => AGet [y] (fun _ => ARet (RVal (VLeaf 0))))
  | _, _ => ARet (RExc 1)
  end))))).

Lemma zmain_ok : refless zmain.
Proof. simpl. do 2 (split; [reflexivity|]; intros ?). intros _ [[|y [|y' l]]|] [[|z [|z' l']]|]; simpl; auto. Qed.

Lemma zmain_closed : closed [] [] zmain.
Proof.
  intros f1 f2. split; [simpl; auto|]. split; [intros x []|]. intros ds _. split; [simpl; auto|]. split; [intros x []|].
  intros [|y [|y' l]] E; try discriminate. cbn [closed]. split; [simpl; auto|]. split; [intros x []|].
  intros [|z [|z' l]] E'; try discriminate. cbn [closed]. split; [intros x [<-|[]]; simpl; auto|]. split; [constructor; [intros []|constructor]|].
  intros r _. cbn [closed]. split; [intros x [<-|[]]; simpl; auto|]. split; [constructor; [intros []|constructor]|auto].
Qed.

(** 1 and the first call of 2 go to worker 2, the second call of 2 to worker 3. *)
Definition zops : list nop :=
  [NRun 0 0; NRun 0 0; NRun 0 2; NRun 0 2; NRun 0 3; NTake 0 2; NTake 0 2; NRun 2 0; NTake 0 3; NTake 0 3; NRun 3 0;
   NRun 0 0; NTake 0 3; NReply 3 0; NRun 0 0; NTake 0 2].

Notation zcase := (xrun [2; 3] zbody zexits zmain zops).

Definition zlost : request := {| q_id := 1; q_fn := FRef (0, 1); q_args := VTuple []; q_kwargs := VDict []; q_out := OOne (0, 3) |}.

Definition zexit : request := {| q_id := 0; q_fn := FRef (0, 0); q_args := VTuple []; q_kwargs := VDict []; q_out := OOne (0, 2) |}.

Definition zother : request := {| q_id := 2; q_fn := FRef (0, 1); q_args := VTuple []; q_kwargs := VDict []; q_out := OOne (0, 4) |}.

Lemma zcase_hist : n_hist (x_n zcase) =
  [(0, HPut (0, 0) (VLeaf 1)); (0, HPut (0, 1) (VLeaf 2)); (0, HSubmit 2 zexit); (0, HSubmit 2 zlost); (0, HSubmit 3 zother);
   (1, HStart 0); (2, HStart 2); (2, HEnd (RVal (VLeaf 5))); (0, HGet [(0, 4)] (GVals [VLeaf 5]))].
Proof. vm_compute. reflexivity. Qed.

Lemma zcase_gone p : x_gone zcase p = Nat.eqb p 2.
Proof. destruct p as [|[|[|[|p]]]]; vm_compute; reflexivity. Qed.

Definition zframe : frame :=
  {| f_run := 0; f_q := noq; f_act := AGet [(0, 3)] (fun _ : gres => ARet (RVal (VLeaf 0)));
     f_get := Some {| t_want := [(0, 3)]; t_ids := [(0, 3)]; t_left := 1; t_exc := None |}; f_rest := LMain |}.

Lemma zcase_root : p_cur (n_proc (x_n zcase) 0) = Some zframe.
Proof. vm_compute. reflexivity. Qed.

Lemma zcase_cur p : p <> 0 -> p <> 2 -> p_cur (n_proc (x_n zcase) p) = None.
Proof. intros A B. destruct p as [|[|[|[|p]]]]; try congruence; vm_compute; reflexivity. Qed.

Lemma zcase_chan r p : p <> 2 -> n_chan (x_n zcase) r p = [].
Proof. intros A. destruct p as [|[|[|[|p]]]]; try congruence; destruct r as [|[|[|[|r]]]]; vm_compute; reflexivity. Qed.

Lemma zcase_rep r p : n_rep (x_n zcase) r p = [].
Proof. destruct p as [|[|[|[|p]]]]; destruct r as [|[|[|[|r]]]]; vm_compute; reflexivity. Qed.

Lemma zcase_fits : results_fit (n_hist (x_n zcase)).
Proof. apply ones_fit. vm_compute. reflexivity. Qed.

Lemma zcase_halted : halted zcase /\ forall o, xstep [2; 3] zbody zexits zcase o = zcase.
Proof.
  assert (G := zcase_gone). assert (R := zcase_root). assert (C := zcase_cur). assert (X := zcase_chan). assert (Y := zcase_rep). set (x := zcase) in *. clearbody x.
  assert (H : halted x).
  { intros p N. rewrite G in N. apply Nat.eqb_neq in N. destruct (Nat.eq_dec p 0) as [->|Z].
    - rewrite R. right. split; [discriminate|]. intros src. apply Y.
    - rewrite C by auto. intros _ src. apply X; auto. }
  split; auto. intros o. apply halted_still; auto. intros p N Q. rewrite G in N. apply Nat.eqb_neq in N. destruct (Nat.eq_dec p 0) as [->|Z].
  - unfold exiting. rewrite R. reflexivity.
  - rewrite C in Q by auto. congruence.
Qed.

Lemma zcase_open q : (q_id q <> 2) -> ~ finished (n_hist (x_n zcase)) q.
Proof.
  intros N (t & r & A & B). rewrite zcase_hist in A, B. simpl in A, B.
  assert (t = 2) by (repeat (destruct B as [B|B]; [first [discriminate B|congruence]|]); destruct B). subst t.
  repeat (destruct A as [A|A]; [first [discriminate A|congruence]|]). destruct A.
Qed.

Lemma xrun_more workers body exits main ops more :
  xrun workers body exits main (ops ++ more) = fold_left (xstep workers body exits) more (xrun workers body exits main ops).
Proof. unfold xrun. apply fold_left_app. Qed.

Lemma fixed {A} (f : A -> nop -> A) x : (forall o, f x o = x) -> forall l, fold_left f l x = x.
Proof. intros E l. induction l; simpl; auto. rewrite E. auto. Qed.

Lemma zcase_for_ever more : let x := xrun [2; 3] zbody zexits zmain (zops ++ more) in
  in_get (x_n x) 0 /\ ~ finished (n_hist (x_n x)) zlost.
Proof.
  cbn zeta. rewrite xrun_more. rewrite fixed by apply zcase_halted. split; [|apply zcase_open; discriminate].
  exists zframe. split; [exact zcase_root|discriminate].
Qed.

Lemma zcase_calls : In (0, HSubmit 2 zexit) (n_hist (x_n zcase)) /\ In (0, HSubmit 2 zlost) (n_hist (x_n zcase)) /\ In (0, HSubmit 3 zother) (n_hist (x_n zcase)) /\
  In (0, HGet [(0, 4)] (GVals [VLeaf 5])) (n_hist (x_n zcase)).
Proof. rewrite zcase_hist. simpl. tauto. Qed.

Lemma zcase_finished : finished (n_hist (x_n zcase)) zother.
Proof. exists 2, (RVal (VLeaf 5)). rewrite zcase_hist. simpl. tauto. Qed.

Lemma zexit_open more : ~ finished (n_hist (x_n (xrun [2; 3] zbody zexits zmain (zops ++ more)))) zexit.
Proof. rewrite xrun_more. rewrite fixed by apply zcase_halted. apply zcase_open. discriminate. Qed.

Lemma zcase_others : ~ affected (fun w => x_gone zcase w = true) (n_hist (x_n zcase)) zother.
Proof.
  assert (U : uses zother = [(0, 1)]) by reflexivity. assert (N : q_id zother = 2) by reflexivity.
  intros A. inversion A as [t o q I B|t o q t' o' q' d I D I' O' A']; subst.
  - rewrite zcase_gone in B. apply Nat.eqb_eq in B as ->. rewrite zcase_hist in I. simpl in I. repeat (destruct I as [I|I]; [discriminate I|]). destruct I.
  - rewrite U in D. destruct D as [<-|[]]. rewrite zcase_hist in I'. simpl in I'.
    repeat (destruct I' as [I'|I']; [first [discriminate I'|injection I' as <- <- <-; simpl in O'; destruct O' as [O'|[]]; discriminate O']|]). destruct I'.
Qed.

Lemma zlost_other d : In d (uses zlost) -> ~ In d (out_ids (q_out zexit)).
Proof. simpl. intros [<-|[]] [E|[]]. discriminate E. Qed.
