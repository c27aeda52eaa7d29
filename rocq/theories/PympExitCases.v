(** A concrete program with a function that exits. *)
From Verif Require Import Lib ValModel PyseqModel PyseqSpec PyseqCases PympModel PympSpec PympProofs PympCases PympExitModel PympExitSpec PympExitProofs.

(** Function 1 exits. *)
Definition eexits (f : nat) (args : list val) (kw : kwargs) : bool := Nat.eqb f 1.

Definition eprog : list pop :=
  [PSubmit 0 [VLeaf 3] [] 1;                                   (* (0,0) on 0: 3 *)
   PSubmit 1 [] [] 1;                                          (* (0,1) on 1: exits *)
   PSubmit 0 [VRef (0, 1)] [] 1;                               (* (0,2) on 0: waits for it *)
   PSubmit 0 [VLeaf 4] [] 1;                                   (* (0,3) on 1: the worker has exited *)
   PSubmit 0 [VLeaf 5] [] 1;                                   (* (0,4) on 0: behind the one that waits *)
   PWork 0; PWork 1; PWork 0; PWork 1].

Notation erun := (yrun 2 zbody xcbody zmbody xitem xiterable xcallable xbytes xdumps xloads xstorable eexits yinit []).

Definition etask (i : nat) (f : nat) (args : list val) : task :=
  {| k_id := i; k_callee := Fun f; k_args := args; k_kw := []; k_out := [(0, i)] |}.

Definition elost : task := etask 1 1 [].
Definition ewaits : task := etask 2 0 [VRef (0, 1)].
Definition ethere : task := etask 3 0 [VLeaf 4].
Definition ebehind : task := etask 4 0 [VLeaf 5].

Lemma e_log : p_log (y_p (fst (erun eprog))) = [(0, etask 0 0 [VLeaf 3]); (1, elost); (0, ewaits); (1, ethere); (0, ebehind)].
Proof. vm_compute. reflexivity. Qed.

Lemma e_gone w : y_gone (fst (erun eprog)) w = Nat.eqb w 1.
Proof. destruct w as [|[|w]]; vm_compute; reflexivity. Qed.

Lemma e_done w : p_done (y_p (fst (erun eprog))) w = match w with 0 => [etask 0 0 [VLeaf 3]] | _ => [] end.
Proof. destruct w as [|[|w]]; vm_compute; reflexivity. Qed.

Lemma e_queue : p_queue (y_p (fst (erun eprog))) 0 = [ewaits; ebehind].
Proof. vm_compute. reflexivity. Qed.

Lemma e_legal : legal (snd (erun eprog)).
Proof. apply legalb_ok. vm_compute. reflexivity. Qed.

Lemma e_puts : plain_puts xbytes (snd (erun eprog)).
Proof. apply plain_putsb_ok. vm_compute. reflexivity. Qed.

Lemma e_behaved : behaved zbody zmbody xitem xiterable xstorable eprog.
Proof.
  split; [auto|]. split.
  - intros f args kw n vs ks I. simpl in I.
    repeat (destruct I as [I|I]; [try discriminate I; inversion I; subst; cbn; auto|]); try contradiction.
  - intros a m args kw n s vs ks I. simpl in I.
    repeat (destruct I as [I|I]; [try discriminate I; inversion I; subst; cbn; auto|]); try contradiction.
Qed.

Lemma e_kept : handles_kept (fun l => y_p (fst (erun l))) eprog.
Proof. intros pre a post t m E. assert (J : In (PDel a) eprog) by (rewrite E; apply in_or_app; simpl; auto). simpl in J. intuition discriminate. Qed.

Lemma e_halted : halted zbody zmbody xitem xiterable xbytes xloads xstorable (fst (erun eprog)).
Proof. intros [|[|w]]; vm_compute; intros; try discriminate; reflexivity. Qed.

Lemma e_get : pget xbytes xloads (y_p (fst (erun eprog))) (0, 0) = Look (Ret (VLeaf 3)).
Proof. vm_compute. reflexivity. Qed.

Lemma e_first : ~ affected (fun w => y_gone (fst (erun eprog)) w = true) (p_log (y_p (fst (erun eprog)))) 0 (etask 0 0 [VLeaf 3]).
Proof.
  intros A. inversion A as [w t I B|w t w' t' d I W O X|w t t' I L X]; subst.
  - rewrite e_gone in B. discriminate.
  - unfold waits_for in W. simpl in W. intuition discriminate.
  - simpl in L. lia.
Qed.

(** Whatever follows, none of the tasks but the first is ever finished. *)
Lemma e_ever more w t : In (w, t) [(1, elost); (0, ewaits); (1, ethere); (0, ebehind)] ->
  let y := fst (erun (eprog ++ more)) in
  ~ In t (p_done (y_p y) w) /\ forall d, In d (k_out t) -> pget xbytes xloads (y_p y) d = Later.
Proof.
  cbv zeta. assert (Lg := e_log). assert (G := e_gone). assert (Dn := e_done). assert (Qe := e_queue).
  destruct (erun (eprog ++ more)) as [y' h'] eqn:R'. destruct (erun eprog) as [y h] eqn:R. cbn [fst] in *.
  assert (K1 : In (1, elost) (p_log (y_p y))) by (rewrite Lg; simpl; auto). assert (K3 : In (1, ethere) (p_log (y_p y))) by (rewrite Lg; simpl; auto 6).
  assert (N1 : forall t, ~ In t (p_done (y_p y) 1)) by (intros x; rewrite Dn; auto).
  assert (S0 : p_done (y_p y') 0 = p_done (y_p y) 0 /\ forall x d', In x [ewaits; ebehind] -> In d' (k_out x) -> pget xbytes xloads (y_p y') d' = Later).
  { eapply (stopped 2 ltac:(lia)) with (w1 := 1) (t1 := elost) (d := (0, 1)) (r := []); eauto; simpl; auto. }
  destruct S0 as [S0 S1]. intros I. simpl in I. repeat (destruct I as [I|I]; [injection I as <- <-|]); [| | | |destruct I].
  - exact (lost 2 ltac:(lia) _ _ _ _ _ _ _ _ _ _ _ _ _ _ _ _ _ _ _ R R' (G 1) K1 (N1 _)).
  - split; [|intros d; apply S1; simpl; auto]. intros J. rewrite S0, Dn in J. simpl in J. intuition discriminate.
  - exact (lost 2 ltac:(lia) _ _ _ _ _ _ _ _ _ _ _ _ _ _ _ _ _ _ _ R R' (G 1) K3 (N1 _)).
  - split; [|intros d; apply S1; simpl; auto]. intros J. rewrite S0, Dn in J. simpl in J. intuition discriminate.
Qed.
