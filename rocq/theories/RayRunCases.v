(** Concrete programs for C97: those of C41, on Ray. *)
From Verif Require Import Lib ValModel PyseqModel PyseqSpec PyseqCases RayRunModel RayRunSpec RayRunProofs.

Definition no_iter (v : val) : option (list val) := None.
Notation xyrun := (yrun xbody xcbody xmbody no_iter 30 31).
Notation xystep := (ystep xbody xcbody xmbody no_iter 30 31).

(** Calls; Ray runs tasks in between, not in the order of submission. *)
Definition xyops : list yop :=
  [YPut (VLeaf 3);                                             (* (0,0) *)
   YSubmit 2 [VRef (0, 0); VLeaf 1] [] 2 false;                (* (0,1), (0,2): 4, 5 *)
   YSubmit 0 [VRef (0, 1)] [(7, VRef (0, 2))] 1 false;         (* (0,3): 4 + 5 *)
   YRun 1;                                                     (* not yet *)
   YActor 0 [VLeaf 10] [] false;
   YActor 0 [VLeaf 20] [] false;
   YCall 0 0 [VRef (0, 3)] [] 1;                               (* (0,4): 19 *)
   YCall 1 1 [VLeaf 1] [] 1;                                   (* (0,5): raises *)
   YCall 0 0 [VLeaf 1] [] 1;                                   (* (0,6): 20 *)
   YRun 4;                                                     (* not before the method called before *)
   YRun 3;
   YSubmit 1 [] [] 2 false;                                    (* (0,7), (0,8): raise *)
   YRun 4;
   YRun 0;
   YSubmit 0 [VRef (0, 7)] [] 1 false;                         (* (0,9): the exception of its argument *)
   YRun 3;
   YRun 0].

Definition xyops' : list yop := xyops ++ repeat (YRun 0) 5.

Definition xy_h : hist := Eval vm_compute in y_hist (xyrun xyops).
Lemma xy_hist : y_hist (xyrun xyops) = xy_h.
Proof. vm_compute. reflexivity. Qed.

Lemma xy_legal : legal (y_hist (xyrun xyops)).
Proof. rewrite xy_hist. apply legalb_ok. reflexivity. Qed.

Definition made (a : nat) (e : qop * qout) : bool := match snd e with OActor x => Nat.eqb x a | _ => false end.
Fixpoint knownb (h : hist) : bool :=
  match h with
  | [] => true
  | (o, _) :: h' => match o with QCall a _ _ _ _ => existsb (made a) h' | _ => true end && knownb h'
  end.

Lemma knownb_ok h : knownb h = true -> actors_known h.
Proof.
  induction h as [|[o out] h IH]; simpl; auto. intros H. apply andb_prop in H as [A B]. split; auto. intros a m args kw n ->. apply existsb_exists in A as ([o' x] & I & M).
  unfold made in M. simpl in M. destruct x; try discriminate. apply Nat.eqb_eq in M as ->. eauto.
Qed.

Lemma xy_known : actors_known (y_hist (xyrun xyops)).
Proof. rewrite xy_hist. apply knownb_ok. reflexivity. Qed.

Lemma xy_numbers : right_numbers xbody xmbody no_iter (y_hist (xyrun xyops)).
Proof.
  rewrite xy_hist. split.
  - intros f args kw n b out vs ks I. simpl in I. repeat (destruct I as [I|I]; [inversion I; subst; simpl; auto; right; eexists; split; reflexivity|]). destruct I.
  - intros a m args kw n out s vs ks I. simpl in I. repeat (destruct I as [I|I]; [inversion I; subst; simpl; auto|]). destruct I.
Qed.

Lemma xy_built : all_built xcbody (y_hist (xyrun xyops)).
Proof.
  rewrite xy_hist. intros c args kw b out I. split; [eexists; reflexivity|]. intros d D. assert (F : forallb (fun e => match fst e with QActor _ args kw _ => negb (existsb (fun v => match v with VRef _ => true | _ => false end) (args ++ map snd kw)) | _ => true end) xy_h = true) by reflexivity.
  rewrite forallb_forall in F. apply F in I. simpl in I. apply negb_true_iff in I. assert (X : existsb (fun v => match v with VRef _ => true | _ => false end) (args ++ map snd kw) = true) by (apply existsb_exists; eauto). congruence.
Qed.

(** Two results are asked for, the function returns three. *)
Definition three (f : nat) (args : list val) (kw : kwargs) : res := Ret (VList [VLeaf 1; VLeaf 2; VLeaf 3]).
Definition zops : list yop := [YSubmit 0 [] [] 2 false; YRun 0].

(** A constructor that raises. *)
Definition bad (c : nat) (args : list val) (kw : kwargs) : res := Exn 4.
Definition bops : list yop := [YActor 0 [] [] false; YCall 0 0 [] [] 1; YRun 0].
