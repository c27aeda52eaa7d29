(** Concrete programs for C41 and C54. *)
From Verif Require Import Lib ValModel PyseqModel PyseqSpec PyseqProofs.

Definition num (v : val) : nat := match v with VLeaf n => n | _ => 0 end.
Definition sum (l : list val) : nat := fold_left (fun n v => n + num v) l 0.

(** Functions: 0 adds its arguments, 1 raises, 2 returns a pair, 3 raises if its argument is odd; 4 returns an
    exception object. *)
Definition xbody (f : nat) (args : list val) (kw : kwargs) : res :=
  match f with
  | 0 => Ret (VLeaf (sum (args ++ map snd kw)))
  | 1 => Exn 9
  | 2 => Ret (VTuple [VLeaf (sum args); VLeaf (S (sum args))])
  | _ => if Nat.odd (sum args) then Exn 5 else Ret (VLeaf 1)
  end.
Definition ybody (f : nat) (args : list val) (kw : kwargs) : res :=
  match f with 4 => Ret (VExc 7) | _ => xbody f args kw end.

(** Objects count; method 0 adds, method 1 adds and then raises. *)
Definition xcbody (c : nat) (args : list val) (kw : kwargs) : res := Ret (VLeaf (sum args)).
Definition xmbody (m : nat) (s : val) (args : list val) (kw : kwargs) : res * val :=
  let s' := VLeaf (num s + sum args) in
  match m with 0 => (Ret s', s') | _ => (Exn 8, s') end.
Definition xitem (v : val) (i : nat) : option val := None.

Lemma x_clean : no_exception_values xbody xmbody xitem.
Proof.
  split.
  - intros f a k v H. unfold clean. destruct f as [|[|[|f]]]; simpl in H; try discriminate.
    + inversion H. split; auto. discriminate.
    + inversion H. split; auto. intros i x E. destruct i as [|[|i]]; simpl in E; inversion E; auto.
      destruct i; discriminate.
    + destruct (Nat.odd (sum a)); inversion H. split; auto. discriminate.
  - intros m s a k v s' H. unfold clean. destruct m; inversion H. split; auto. discriminate.
Qed.

Definition xprog : list qop :=
  [QPut (VLeaf 3);                                             (* (0,0) *)
   QSubmit 2 [VRef (0, 0); VLeaf 1] [] 2 false;                (* (0,1), (0,2) *)
   QSubmit 0 [VRef (0, 1)] [(7, VRef (0, 2))] 1 false;         (* (0,3): 4 + 5 *)
   QActor 0 [VLeaf 10] [] false;
   QActor 0 [VLeaf 20] [] false;
   QCall 0 0 [VRef (0, 3)] [] 1;                               (* (0,4): 19 *)
   QCall 1 1 [VLeaf 1] [] 1;                                   (* (0,5): raises *)
   QCall 0 0 [VLeaf 1] [] 1;                                   (* (0,6): 20 *)
   QSubmit 1 [] [] 2 false;                                    (* (0,7), (0,8): raise *)
   QSubmit 3 [VRef (0, 6)] [] 1 false;                         (* (0,9): 1 *)
   QWait [(0, 3); (0, 7); (0, 0)] 2].

Fixpoint legalb (h : hist) : bool :=
  match h with
  | [] => true
  | (o, _) :: h' => forallb (fun d => did_in d (returned h')) (uses o) && legalb h'
  end.

Lemma legalb_ok : forall h, legalb h = true -> legal h.
Proof.
  induction h as [|[o out] h IH]; simpl; auto. intros H. apply andb_prop in H. destruct H as [H1 H2].
  split; auto. intros d I. rewrite forallb_forall in H1. apply did_in_In. auto.
Qed.

Definition puts_cleanb (h : hist) : bool :=
  forallb (fun e => match fst e with QPut v => negb (is_exc v) | _ => true end) h.

Lemma puts_cleanb_ok : forall h, puts_cleanb h = true -> puts_clean h.
Proof.
  intros h H v out I. unfold puts_cleanb in H. rewrite forallb_forall in H. apply H in I. simpl in I.
  destruct (is_exc v); auto.
Qed.

Lemma xprog_run :
  let h := snd (qrun xbody xcbody xmbody xitem qinit [] xprog) in
  legal h /\ puts_clean h /\ length (returned h) = 10 /\
  map (outcome xbody xcbody xmbody xitem h) [(0, 3); (0, 4); (0, 5); (0, 6); (0, 8); (0, 9)] =
    [Some (Ret (VLeaf 9)); Some (Ret (VLeaf 19)); Some (Exn 8); Some (Ret (VLeaf 20)); Some (Exn 9); Some (Ret (VLeaf 1))] /\
  map (state xbody xcbody xmbody xitem h) [0; 1; 2] = [Some (VLeaf 20); Some (VLeaf 21); None] /\
  snd (qstep xbody xcbody xmbody xitem (fst (qrun xbody xcbody xmbody xitem qinit [] xprog))
         (QGetMany (map VRef [(0, 9); (0, 6)]))) = OVals [VLeaf 1; VLeaf 20] /\
  snd (qstep xbody xcbody xmbody xitem (fst (qrun xbody xcbody xmbody xitem qinit [] xprog))
         (QSubmit 0 [VLeaf 1; VRef (0, 5)] [(1, VRef (0, 7))] 1 false)) = ORaise 8.
Proof.
  cbv zeta. split; [|split; [|repeat split; vm_compute; reflexivity]].
  - apply legalb_ok. vm_compute. reflexivity.
  - apply puts_cleanb_ok. vm_compute. reflexivity.
Qed.

Lemma exc_put_raised :
  let (st, h) := qrun xbody xcbody xmbody xitem qinit [] [QPut (VExc 7)] in
  outcome xbody xcbody xmbody xitem h (0, 0) = Some (Ret (VExc 7)) /\
  snd (qstep xbody xcbody xmbody xitem st (QGet (VRef (0, 0)))) = ORaise 7.
Proof. vm_compute. auto. Qed.

Lemma exc_returned_raised : exists body cbody mbody item ops d v e,
  let (st, h) := qrun body cbody mbody item qinit [] ops in
  legal h /\ puts_clean h /\ In d (returned h) /\
  outcome body cbody mbody item h d = Some (Ret v) /\
  snd (qstep body cbody mbody item st (QGet (VRef d))) = ORaise e.
Proof.
  exists ybody, xcbody, xmbody, xitem, [QSubmit 4 [] [] 1 false], (0, 0), (VExc 7), 7.
  split; [apply legalb_ok|split; [apply puts_cleanb_ok|]]; vm_compute; auto.
Qed.

(** The exception of an argument's task comes out of the submission, not out of get. *)
Lemma submission_raises : exists body cbody mbody item ops f args e,
  no_exception_values body mbody item /\
  let (st, h) := qrun body cbody mbody item qinit [] ops in
  legal h /\ puts_clean h /\ known h (QSubmit f args [] 1 false) /\
  snd (qstep body cbody mbody item st (QSubmit f args [] 1 false)) = ORaise e.
Proof.
  exists xbody, xcbody, xmbody, xitem, [QSubmit 1 [] [] 1 false], 0, [VRef (0, 0)], 9.
  split; [exact x_clean|]. split; [apply legalb_ok|split; [apply puts_cleanb_ok|]]; vm_compute; auto.
Qed.

Lemma xprog_args : let st := fst (qrun xbody xcbody xmbody xitem qinit [] xprog) in
  nth_error (q_actors st) 1 = Some (VLeaf 21) /\
  Forall2 (arg_value xbody xcbody xmbody xitem st) [VRef (0, 9); VLeaf 4] [VLeaf 1; VLeaf 4] /\
  (forall vs, ~ Forall2 (arg_value xbody xcbody xmbody xitem st) [VRef (0, 5)] vs).
Proof.
  intros st. split; [vm_compute; auto|]. split; [repeat constructor; vm_compute; auto|].
  intros vs H. inversion H as [|? x ? xs Hx _]. vm_compute in Hx. discriminate.
Qed.
