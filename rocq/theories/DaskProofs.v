(** C45 *)
From Verif Require Import Lib DaskModel.
From Coq Require Import Permutation.

Lemma split_perm : forall (f : dataid -> bool) l, Permutation l (filter f l ++ filter (fun d => negb (f d)) l).
Proof.
  intros f l. induction l as [|x l IH]; simpl; auto. destruct (f x); simpl.
  - constructor. auto.
  - apply Permutation_cons_app. auto.
Qed.

Section Proofs.
Variable finished : nat -> dataid -> bool.
Variable order : list dataid -> list dataid.
Hypothesis order_perm : forall l, Permutation l (order l).

Lemma dask_wait_spec : forall k fs done rest, NoDup fs -> dask_wait finished k fs = Some (done, rest) ->
  Permutation fs (done ++ rest) /\ done <> [] /\ (forall d, In d done -> finished k d = true).
Proof.
  intros k fs done rest ND H. unfold dask_wait in H. rewrite nodup_fixed_point in H by auto.
  pose proof (split_perm (finished k) fs) as P.
  assert (F : forall d, In d (filter (finished k) fs) -> finished k d = true) by (intros d I; apply filter_In in I; tauto).
  destruct (filter (finished k) fs) as [|x r]; [discriminate|].
  apply Some_inj in H. apply pair_inj in H as [<- <-]. split; auto. split; auto. discriminate.
Qed.

Lemma update_disjoint : forall done extra, NoDup (done ++ extra) -> update done extra = done ++ extra.
Proof.
  intros done extra ND. unfold update. f_equal.
  assert (D : forall d, In d extra -> ~ In d done).
  { intros d I J. revert ND. induction done as [|x l IH]; simpl in *; [contradiction|]. intros ND.
    inversion ND. subst. destruct J as [->|J]; auto. apply H1. apply in_or_app. auto. }
  clear ND. induction extra as [|x l IH]; simpl; auto.
  replace (did_in x done) with false; [simpl; f_equal; apply IH; intros; apply D; simpl; auto|].
  symmetry. apply did_in_false. apply D. simpl. auto.
Qed.

Lemma rounds_spec : forall fs, NoDup fs -> forall fuel k done rest n k' done' rest',
  Permutation fs (done ++ rest) -> (forall d, In d done -> exists j, j < k /\ finished j d = true) ->
  rounds finished fuel k done rest n = Some (k', done', rest') ->
  Permutation fs (done' ++ rest') /\ n <= length done' /\
  forall d, In d done' -> exists j, j < k' /\ finished j d = true.
Proof.
  intros fs ND fuel. induction fuel as [|fuel IH]; intros k done rest n k' done' rest' P F H; simpl in H;
    destruct (Nat.ltb_spec (length done) n).
  - discriminate.
  - apply Some_inj in H. apply pair_inj in H as [H <-]. apply pair_inj in H as [<- <-]. split; auto.
  - destruct (dask_wait finished k rest) as [[extra rest1]|] eqn:W; [|discriminate].
    assert (NDR : NoDup (done ++ rest)) by (eapply Permutation_NoDup; eauto).
    assert (NR : NoDup rest).
    { clear -NDR. induction done; simpl in NDR; auto. inversion NDR. auto. }
    destruct (dask_wait_spec _ _ _ _ NR W) as (P1 & _ & F1).
    assert (P2 : Permutation fs ((done ++ extra) ++ rest1)).
    { rewrite P. rewrite <- app_assoc. apply Permutation_app_head. auto. }
    assert (U : update done extra = done ++ extra).
    { apply update_disjoint. assert (N2 : NoDup ((done ++ extra) ++ rest1)) by (eapply Permutation_NoDup; eauto).
      clear -N2. induction (done ++ extra); simpl in *; [constructor|]. inversion N2. subst. constructor; auto.
      intros I. apply H1. apply in_or_app. auto. }
    rewrite U in H. apply IH in H; auto. intros d I. apply in_app_or in I. destruct I as [I|I].
    + destruct (F d I) as (j & L & J). exists j. split; auto.
    + exists k. split; auto.
  - apply Some_inj in H. apply pair_inj in H as [H <-]. apply pair_inj in H as [<- <-]. split; auto.
Qed.

Lemma give_back_spec : forall extra done rest r nr, extra <= length done -> give_back extra done rest = (r, nr) ->
  Permutation (done ++ rest) (r ++ nr) /\ length r = length done - extra /\ incl r done.
Proof.
  induction extra as [|e IH]; intros done rest r nr L H; simpl in H.
  - apply pair_inj in H as [<- <-]. split; auto. split; [lia|apply incl_refl].
  - destruct (rev done) as [|x l] eqn:R.
    + apply (f_equal (@rev dataid)) in R. rewrite rev_involutive in R. simpl in R. subst. simpl in L. lia.
    + apply (f_equal (@rev dataid)) in R. rewrite rev_involutive in R. simpl in R. subst done.
      rewrite app_length in *. simpl in *. apply IH in H; [|lia]. destruct H as (P & N & I). split; [|split].
      * rewrite <- P. rewrite <- app_assoc. simpl. apply Permutation_app_head. apply Permutation_cons_append.
      * lia.
      * intros d J. apply in_or_app. left. auto.
Qed.

Lemma wait_ok : forall fs n calls r nr, NoDup fs -> wait finished order fs n = DWait calls r nr ->
  Permutation fs (r ++ nr) /\ length r = n /\ forall d, In d r -> exists k, k < calls /\ finished k d = true.
Proof.
  intros fs n calls r nr ND H. unfold wait in H. destruct (dask_wait finished 0 fs) as [[done rest]|] eqn:W; [|discriminate].
  destruct (dask_wait_spec _ _ _ _ ND W) as (P1 & _ & F1).
  destruct (rounds finished (length fs) 1 done rest n) as [[[k1 done1] rest1]|] eqn:R; [|discriminate].
  apply (rounds_spec fs ND) in R; auto.
  2:{ intros d I. exists 0. auto. }
  destruct R as (P2 & L2 & F2).
  destruct (give_back (length (order done1) - n) (order done1) (order rest1)) as [r' nr'] eqn:G.
  inversion H. subst k1 r' nr'.
  assert (LE : length (order done1) = length done1) by (symmetry; apply Permutation_length; auto).
  apply give_back_spec in G; [|lia]. destruct G as (P3 & L3 & I3).
  split; [|split].
  - rewrite P2, <- P3. apply Permutation_app; auto.
  - lia.
  - intros d I. apply F2. eapply Permutation_in; [symmetry; apply order_perm|]. auto.
Qed.

(** It returns if every future is finished in the end ([k]-th call), as far as calls are made. *)
Lemma rounds_returns : forall fuel k done rest n, NoDup (done ++ rest) ->
  (forall k fs, fs <> [] -> incl fs rest -> exists d, In d fs /\ finished k d = true) ->
  n <= length done + length rest -> length rest <= fuel ->
  exists x, rounds finished fuel k done rest n = Some x.
Proof.
  induction fuel as [|fuel IH]; intros k done rest n ND A L FU; simpl; destruct (Nat.ltb_spec (length done) n); eauto.
  - lia.
  - assert (NR : NoDup rest) by (clear -ND; induction done; simpl in ND; auto; inversion ND; auto).
    destruct (dask_wait finished k rest) as [[extra rest1]|] eqn:W.
    + destruct (dask_wait_spec _ _ _ _ NR W) as (P1 & NE & _).
      assert (N2 : NoDup ((done ++ extra) ++ rest1)).
      { eapply Permutation_NoDup; [|exact ND]. rewrite <- app_assoc. apply Permutation_app_head. auto. }
      rewrite update_disjoint.
      2:{ clear -N2. induction (done ++ extra); simpl in *; [constructor|]. inversion N2. subst. constructor; auto.
          intros I. apply H1. apply in_or_app. auto. }
      apply Permutation_length in P1. rewrite app_length in P1.
      assert (0 < length extra) by (destruct extra; [contradiction|simpl; lia]).
      apply IH; auto.
      * intros k' fs' NE' I'. apply A; auto. intros d J. apply I' in J.
        unfold dask_wait in W. rewrite nodup_fixed_point in W by auto.
        destruct (filter (finished k) rest); [discriminate|]. apply Some_inj in W. apply pair_inj in W as [_ <-].
        apply filter_In in J. tauto.
      * rewrite app_length. lia.
      * lia.
    + exfalso. destruct rest as [|x rest]; [simpl in L; lia|].
      destruct (A k (x :: rest)) as (d & I & F); [discriminate|apply incl_refl|].
      unfold dask_wait in W. rewrite nodup_fixed_point in W by auto.
      assert (J : In d (filter (finished k) (x :: rest))) by (apply filter_In; auto).
      destruct (filter (finished k) (x :: rest)); [destruct J|discriminate].
Qed.

Lemma wait_returns : forall fs n, NoDup fs -> fs <> [] -> n <= length fs ->
  (forall k l, l <> [] -> incl l fs -> exists d, In d l /\ finished k d = true) ->
  exists calls r nr, wait finished order fs n = DWait calls r nr.
Proof.
  intros fs n ND NE L A. unfold wait. destruct (dask_wait finished 0 fs) as [[done rest]|] eqn:W.
  - destruct (dask_wait_spec _ _ _ _ ND W) as (P1 & _ & _).
    assert (RI : incl rest fs).
    { intros d J. eapply Permutation_in; [symmetry; exact P1|]. apply in_or_app. auto. }
    pose proof (Permutation_length P1) as PL. rewrite app_length in PL.
    destruct (rounds_returns (length fs) 1 done rest n) as [[[k1 d1] r1] R].
    + eapply Permutation_NoDup; eauto.
    + intros k l NL I. apply A; auto. intros d J. auto.
    + lia.
    + lia.
    + rewrite R. destruct (give_back (length (order d1) - n) (order d1) (order r1)). eauto.
  - exfalso. destruct (A 0 fs NE (incl_refl _)) as (d & I & F).
    unfold dask_wait in W. rewrite nodup_fixed_point in W by auto.
    assert (J : In d (filter (finished 0) fs)) by (apply filter_In; auto).
    destruct (filter (finished 0) fs); [destruct J|discriminate].
Qed.
End Proofs.

Lemma rounds_never : forall fuel finished k done rest n, NoDup (done ++ rest) -> length done + length rest < n ->
  rounds finished fuel k done rest n = None.
Proof.
  induction fuel as [|fuel IH]; intros finished k done rest n ND L; simpl; destruct (Nat.ltb_spec (length done) n); auto;
    try lia.
  assert (NR : NoDup rest) by (clear -ND; induction done; simpl in ND; auto; inversion ND; auto).
  destruct (dask_wait finished k rest) as [[extra rest1]|] eqn:W; auto.
  destruct (dask_wait_spec _ _ _ _ _ NR W) as (P1 & _ & _).
  assert (N2 : NoDup ((done ++ extra) ++ rest1)).
  { eapply Permutation_NoDup; [|exact ND]. rewrite <- app_assoc. apply Permutation_app_head. auto. }
  rewrite update_disjoint.
  2:{ clear -N2. induction (done ++ extra); simpl in *; [constructor|]. inversion N2. subst. constructor; auto.
      intros I. apply H1. apply in_or_app. auto. }
  apply IH; auto. apply Permutation_length in P1. rewrite app_length in *. lia.
Qed.

Lemma too_many_forever : forall finished order fs n, NoDup fs -> length fs < n -> wait finished order fs n = DForever.
Proof.
  intros finished order fs n ND L. unfold wait. destruct (dask_wait finished 0 fs) as [[done rest]|] eqn:W; auto.
  destruct (dask_wait_spec _ _ _ _ _ ND W) as (P1 & _ & _).
  rewrite rounds_never; auto.
  - eapply Permutation_NoDup; eauto.
  - apply Permutation_length in P1. rewrite app_length in P1. lia.
Qed.

(** Equal references are counted once. *)
Lemma duplicates_forever : forall d, wait (fun _ _ => true) (fun l => l) [d; d] 2 = DForever.
Proof.
  intros d. unfold wait, dask_wait. simpl. destruct (did_dec d d) as [_|N]; [|contradiction]. reflexivity.
Qed.

