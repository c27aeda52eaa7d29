(** C99: the five backends together. *)
From Verif Require Import Lib ValModel PyseqModel PyseqSpec PortSpec PortShows ObjSpec ObjDoneSpec ObjWaitSpec ObjMpiSpec.
From Verif Require ObjBack ObjDoneProofs ObjWait ObjWaitDone ObjMpi ObjMpiDone.

Section Five.
Variable body : nat -> list val -> kwargs -> res.
Variable cbody : nat -> list val -> kwargs -> res.
Variable mbody : nat -> val -> list val -> kwargs -> res * val.
Variable s0 : val.
Hypothesis plain_ok : plain_bodies body mbody.
Variable prog : list ocall.
Hypothesis portable : oportable body cbody mbody prog.
Hypothesis same_start : forall c args kw, In (TMake c args kw) prog -> cbody c args kw = Ret s0.
Notation shows5 b := (oshows_waiting b body cbody mbody s0 prog).

Lemma five_direct b c i r : shows5 b c i r -> (forall e, r <> Ret (VExc e)) ->
  exists r0, result_of (fst (odirect body cbody mbody prog)) c i = Some r0 /\ alike r0 r.
Proof using plain_ok portable same_start.
  assert (A : forall b c i r, b <> OnDask -> oshows b body cbody mbody prog c i r -> exists r0, result_of (fst (odirect body cbody mbody prog)) c i = Some r0 /\ alike r0 r).
  { intros b' c' i' r' N H. exists r'. split; [eapply ObjBack.all_direct; eauto|]. destruct r'; simpl; auto. }
  intros H Nx. destruct b; cbn [oshows_waiting] in H.
  - apply (A OnPySeq); [discriminate|exact H].
  - apply (A OnPyMp); [discriminate|exact H].
  - apply (A OnRay); [discriminate|exact H].
  - apply (ObjWait.waits body cbody mbody prog portable) in H. unfold agrees in H. destruct (result_of _ _ _) as [[v|e]|]; [| |destruct H].
    + subst r. exists (Ret v). split; [reflexivity|reflexivity].
    + destruct H as (e' & ->). exists (Exn e). split; [reflexivity|exact I].
  - apply (ObjMpi.mpi_waits body cbody mbody s0 plain_ok prog portable same_start) in H; auto. exists r. split; [exact H|]. destruct r; simpl; auto.
Qed.

Lemma five_alike b b' c i r r' : shows5 b c i r -> shows5 b' c i r' -> (forall e, r <> Ret (VExc e)) -> (forall e, r' <> Ret (VExc e)) -> alike r r'.
Proof using plain_ok portable same_start.
  intros H H' N N'. destruct (five_direct b c i r H N) as (x & X & A). destruct (five_direct b' c i r' H' N') as (y & Y & B).
  rewrite X in Y. injection Y as <-. destruct x, r, r'; simpl in *; try tauto. congruence.
Qed.

Lemma five_done : oscoped prog -> calls_return prog ->
  forall b, (b = PySeq -> oarguments_fine body cbody mbody prog) -> forall c x i, nth_error prog c = Some x -> i < oouts x ->
  exists r r', result_of (fst (odirect body cbody mbody prog)) c i = Some r /\ shows5 b c i r' /\ (r' = r \/ exists e, b = Mpi /\ r = Exn e /\ r' = Ret (VExc e)).
Proof using plain_ok portable same_start.
  intros Sc Cr b Af c x i N L.
  assert (A : forall b', osuits b' body cbody mbody prog -> exists r, result_of (fst (odirect body cbody mbody prog)) c i = Some r /\ oshows b' body cbody mbody prog c i r)
    by (intros b' Su; eapply ObjDoneProofs.ogives; eauto).
  destruct b; cbn [oshows_waiting].
  - destruct (A OnPySeq (Af eq_refl)) as (r & R & H). exists r, r. auto.
  - destruct (A OnPyMp I) as (r & R & H). exists r, r. auto.
  - destruct (A OnRay I) as (r & R & H). exists r, r. auto.
  - destruct (ObjWaitDone.waits_done body cbody mbody prog portable Sc) with (c := c) (x := x) (i := i) as (r & R & H); auto; [|exists r, r; auto].
    intros a m args kw n J. exact (Cr _ J).
  - destruct (ObjMpiDone.mpi_done body cbody mbody s0 plain_ok prog portable Sc Cr same_start c x i N L) as (r & R & [H|(e & -> & H)]); [exists r, r; auto|].
    exists (Exn e), (Ret (VExc e)). split; [exact R|]. split; [exact H|]. right. eauto.
Qed.
End Five.
