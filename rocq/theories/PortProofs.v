(** C98: the backends together. *)
From Verif Require Import Lib ValModel PyseqModel PyseqSpec PortSpec PortShows PortSeq PortPymp PortDask PortMpi.

Section All.
Variable body : nat -> list val -> kwargs -> res.
Variable prog : list pcall.
Hypothesis plain_body : plain_functions body.
Hypothesis P : portable body prog.

Lemma shows_direct b c i r : shows b body prog c i r -> exists r0, result_of (direct body prog) c i = Some r0 /\ (forall v, r0 = Ret v -> r = Ret v) /\
  (forall e, r0 = Exn e -> match b with Mpi => r = Exn e \/ r = Ret (VExc e) | Dask => exists e', r = Exn e' | _ => r = Exn e end).
Proof.
  intros S. destruct b; simpl in S.
  - exists r. split; [eapply seq_direct; eauto|]. auto.
  - exists r. split; [eapply pymp_direct; eauto|]. auto.
  - exists r. split; [eapply ray_direct; eauto|]. auto.
  - apply dask_direct in S; auto. unfold agrees in S. destruct (result_of (direct body prog) c i) as [r0|]; [|contradiction]. exists r0. split; auto. destruct r0; split; intros x E; inversion E; subst; auto.
  - apply mpi_direct in S as (r0 & R & Pr & S); auto. exists r0. split; auto. split.
    + intros v ->. destruct S as [->|(e & E & _)]; [auto|discriminate].
    + intros e ->. destruct S as [->|(e' & E & ->)]; auto. inversion E. auto.
Qed.

Lemma values b c i v r : result_of (direct body prog) c i = Some (Ret v) -> shows b body prog c i r -> r = Ret v.
Proof. intros E S. apply shows_direct in S as (r0 & R & V & _). rewrite E in R. inversion R. subst. auto. Qed.

Lemma exceptions b c i e r : result_of (direct body prog) c i = Some (Exn e) -> shows b body prog c i r ->
  match b with Mpi => r = Exn e \/ r = Ret (VExc e) | Dask => exists e', r = Exn e' | _ => r = Exn e end.
Proof. intros E S. apply shows_direct in S as (r0 & R & _ & V). rewrite E in R. inversion R. subst. exact (V _ eq_refl). Qed.

Lemma defined b c i r : shows b body prog c i r -> exists r0, result_of (direct body prog) c i = Some r0.
Proof. intros S. apply shows_direct in S as (r0 & R & _). eauto. Qed.

Lemma same b b' c i v r : shows b body prog c i (Ret v) -> is_exc v = false -> shows b' body prog c i r -> r = Ret v.
Proof.
  intros S N S'. apply shows_direct in S as (r0 & R & V & X). destruct r0 as [w|e].
  - assert (Z := V w eq_refl). inversion Z; subst w. eapply values; eauto.
  - specialize (X e eq_refl). destruct b; try discriminate; [destruct X; discriminate|]. destruct X as [X|X]; inversion X. subst v. discriminate.
Qed.
End All.
