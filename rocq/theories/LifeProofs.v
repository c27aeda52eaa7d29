(** Proofs for C78. *)
From Verif Require Import Lib BaseModel LifeModel LifeSpec.

Lemma ray_run spawn os : forall s, stuck s = false ->
  snd (lrun spawn Ray s os) = answers (up s) os /\ starts (fst (lrun spawn Ray s os)) = starts s + switched_on (up s) os /\
  up (fst (lrun spawn Ray s os)) = is_on (up s) os.
Proof.
  induction os as [|o r IH]; intros s Hs; [cbn; rewrite Nat.add_0_r; auto|].
  cbn [lrun]. unfold lstep. rewrite Hs. destruct s as [u f e n k]; cbn [stuck] in Hs; subst k.
  destruct o; cbn [l_init l_shutdown l_is up l_store].
  - destruct u; [destruct (IH (mkLife true f e n false) eq_refl) as (A & B & C)|destruct (IH (mkLife true f e (S n) false) eq_refl) as (A & B & C)];
      destruct (lrun _ _ _ _) as [s' l]; cbn in *; subst; repeat split; solve [auto | congruence | lia].
  - destruct (IH (mkLife u f e n false) eq_refl) as (A & B & C). destruct (lrun _ _ _ _) as [s' l]; cbn in *; subst.
    destruct u; cbn in *; repeat split; solve [auto | congruence | lia].
  - destruct (IH (mkLife false f e n false) eq_refl) as (A & B & C). destruct (lrun _ _ _ _) as [s' l]; cbn in *; subst.
    destruct u; cbn in *; repeat split; solve [auto | congruence | lia].
  - destruct u; [destruct (IH (mkLife true f e n false) eq_refl) as (A & B & C)|destruct (IH (mkLife true f e (S n) false) eq_refl) as (A & B & C)];
      cbn; destruct (lrun _ _ _ _) as [s' l]; cbn in *; subst; repeat split; solve [auto | congruence | lia].
Qed.

Lemma dask_run spawn os : forall s, stuck s = false ->
  (forall pre post, os = pre ++ LShutdown :: post -> is_on (up s) pre = true) ->
  snd (lrun spawn Dask s os) = answers (up s) os /\ starts (fst (lrun spawn Dask s os)) = starts s + switched_on (up s) os /\
  up (fst (lrun spawn Dask s os)) = is_on (up s) os.
Proof.
  induction os as [|o r IH]; intros s Hs H; [cbn; rewrite Nat.add_0_r; auto|].
  assert (forall pre post, r = pre ++ LShutdown :: post -> is_on (is_on (up s) [o]) pre = true) as H'.
  { intros pre post E. specialize (H (o :: pre) post). rewrite E in H. specialize (H eq_refl). destruct o; exact H. }
  cbn [lrun]. unfold lstep. rewrite Hs. destruct s as [u f e n k]; cbn [stuck up] in *; subst k.
  destruct o; cbn [l_init l_shutdown l_is up l_store is_on] in *.
  - destruct u; [destruct (IH (mkLife true f e n false) eq_refl H') as (A & B & C)|destruct (IH (mkLife true f e (S n) false) eq_refl H') as (A & B & C)];
      destruct (lrun _ _ _ _) as [s' l]; cbn in *; subst; repeat split; solve [auto | congruence | lia].
  - destruct (IH (mkLife u f e n false) eq_refl H') as (A & B & C). destruct (lrun _ _ _ _) as [s' l]; cbn in *; subst.
    destruct u; cbn in *; repeat split; solve [auto | congruence | lia].
  - specialize (H [] r eq_refl). cbn in H. subst u.
    destruct (IH (mkLife false f e n false) eq_refl H') as (A & B & C). destruct (lrun _ _ _ _) as [s' l]; cbn in *; subst. repeat split; solve [auto | congruence | lia].
  - destruct u; [destruct (IH (mkLife true f e n false) eq_refl H') as (A & B & C)|destruct (IH (mkLife true f e (S n) false) eq_refl H') as (A & B & C)];
      cbn; destruct (lrun _ _ _ _) as [s' l]; cbn in *; subst; repeat split; solve [auto | congruence | lia].
Qed.

Lemma local_run spawn b os : b = PyMp \/ b = PySeq -> ~ In LShutdown os -> forall s, stuck s = false -> flag s = up s ->
  snd (lrun spawn b s os) = answers (up s) os /\ starts (fst (lrun spawn b s os)) = starts s + switched_on (up s) os /\
  up (fst (lrun spawn b s os)) = is_on (up s) os.
Proof.
  intros Hb. induction os as [|o r IH]; intros N s Hs Hf; [cbn; rewrite Nat.add_0_r; auto|].
  assert (~ In LShutdown r) as N' by (intros X; apply N; right; exact X).
  cbn [lrun]. unfold lstep. rewrite Hs. destruct s as [u f e n k]; cbn [stuck up flag] in *; subst k f.
  assert (l_init spawn b (mkLife u u e n false) = (mkLife true true e (if u then n else S n) false, Returned)) as Hi by (destruct Hb as [-> | ->]; reflexivity).
  assert (l_is b (mkLife u u e n false) = u) as Hq by (destruct Hb as [-> | ->]; reflexivity).
  destruct o; [rewrite Hi|rewrite Hq|exfalso; apply N; left; reflexivity|rewrite Hq, Hi].
  - destruct (IH N' (mkLife true true e (if u then n else S n) false) eq_refl eq_refl) as (A & B & C).
    destruct (lrun _ _ _ _) as [s' l]; cbn in *; subst. destruct u; cbn in *; repeat split; solve [auto | congruence | lia].
  - destruct (IH N' (mkLife u u e n false) eq_refl eq_refl) as (A & B & C).
    destruct (lrun _ _ _ _) as [s' l]; cbn in *; subst. destruct u; cbn in *; repeat split; solve [auto | congruence | lia].
  - destruct u; [destruct (IH N' (mkLife true true e n false) eq_refl eq_refl) as (A & B & C)|destruct (IH N' (mkLife true true e (S n) false) eq_refl eq_refl) as (A & B & C)];
      cbn; destruct (lrun _ _ _ _) as [s' l]; cbn in *; subst; repeat split; solve [auto | congruence | lia].
Qed.

(** MPI, after the end. *)
Lemma mpi_ended spawn os : (forall o, In o os -> o = LShutdown) -> forall s, stuck s = false -> ended s = true ->
  lrun spawn Mpi s os = (s, answers false os) /\ switched_on false os = 0 /\ is_on false os = false.
Proof.
  induction os as [|o r IH]; intros H s Hs He; [auto|]. rewrite (H o (or_introl eq_refl)).
  destruct (IH (fun x X => H x (or_intror X)) s Hs He) as (A & B & C).
  cbn [lrun]. unfold lstep. rewrite Hs. cbn [l_shutdown]. rewrite He, A. cbn. auto.
Qed.

Lemma mpi_on spawn os : forall n,
  (forall pre post, os = pre ++ LInit :: post -> is_on true pre = false) ->
  (forall pre post, os = pre ++ LShutdown :: post -> forall o, In o post -> o = LShutdown) ->
  let s := mkLife true true false n false in
  snd (lrun spawn Mpi s os) = answers true os /\ starts (fst (lrun spawn Mpi s os)) = n + switched_on true os.
Proof.
  induction os as [|o r IH]; intros n H1 H2; cbv zeta; [cbn; rewrite Nat.add_0_r; auto|].
  assert (forall pre post, r = pre ++ LShutdown :: post -> forall x, In x post -> x = LShutdown) as H2'.
  { intros pre post E. apply (H2 (o :: pre) post). rewrite E. reflexivity. }
  destruct o.
  - specialize (H1 [] r eq_refl). discriminate.
  - assert (forall pre post, r = pre ++ LInit :: post -> is_on true pre = false) as H1'.
    { intros pre post E. apply (H1 (LIsInitialized :: pre) post). rewrite E. reflexivity. }
    destruct (IH n H1' H2') as [A B]. cbn [lrun]. unfold lstep. cbn [stuck l_is flag].
    destruct (lrun _ _ _ _) as [s' l]; cbn in *; subst; split; solve [auto | congruence | lia].
  - destruct (mpi_ended spawn r (H2 [] r eq_refl) (mkLife true true true n false) eq_refl eq_refl) as (A & B & C).
    cbn [lrun]. unfold lstep. cbn [stuck l_shutdown ended up flag starts]. rewrite A. cbn. rewrite B. split; [reflexivity|lia].
  - assert (forall pre post, r = pre ++ LInit :: post -> is_on true pre = false) as H1'.
    { intros pre post E. apply (H1 (LPut :: pre) post). rewrite E. reflexivity. }
    destruct (IH n H1' H2') as [A B]. cbn [lrun]. unfold lstep. cbn [stuck l_is flag].
    destruct (lrun _ _ _ _) as [s' l]; cbn in *; subst; split; solve [auto | congruence | lia].
Qed.

Lemma mpi_off spawn os : within Mpi os ->
  snd (lrun spawn Mpi life0 os) = answers false os /\ starts (fst (lrun spawn Mpi life0 os)) = switched_on false os.
Proof.
  intros [H1 H2]. induction os as [|o r IH]; [auto|].
  assert (forall pre post, r = pre ++ LShutdown :: post -> forall x, In x post -> x = LShutdown) as H2'.
  { intros pre post E. apply (H2 (o :: pre) post). rewrite E. reflexivity. }
  destruct o.
  - assert (forall pre post, r = pre ++ LInit :: post -> is_on true pre = false) as H1'.
    { intros pre post E. apply (H1 (LInit :: pre) post). rewrite E. reflexivity. }
    clear IH. destruct (mpi_on spawn r 1 H1' H2') as [A B]. change (lrun spawn Mpi life0 (LInit :: r)) with (let (s, l) := lrun spawn Mpi (mkLife true true false 1 false) r in (s, Returned :: l)).
    destruct (lrun _ _ _ _) as [s' l]; cbn in *; subst; split; solve [auto | congruence | lia].
  - destruct IH as [A B].
    + intros pre post E. apply (H1 (LIsInitialized :: pre) post). rewrite E. reflexivity.
    + intros pre post E. destruct (H2 (LIsInitialized :: pre) post) as [X Y]; [rewrite E; reflexivity|]. split; [|exact Y].
      destruct X as [X | [X | X]]; [left; exact X|discriminate|right; exact X].
    + change (lrun spawn Mpi life0 (LIsInitialized :: r)) with (let (s, l) := lrun spawn Mpi life0 r in (s, Says false :: l)). destruct (lrun _ _ _ _) as [s' l]; cbn in *; subst; split; solve [auto | congruence | lia].
  - destruct (H2 [] r eq_refl) as [[X | X] _]; [discriminate|destruct X].
  - assert (forall pre post, r = pre ++ LInit :: post -> is_on true pre = false) as H1'.
    { intros pre post E. apply (H1 (LPut :: pre) post). rewrite E. reflexivity. }
    clear IH. destruct (mpi_on spawn r 1 H1' H2') as [A B]. change (lrun spawn Mpi life0 (LPut :: r)) with (let (s, l) := lrun spawn Mpi (mkLife true true false 1 false) r in (s, Returned :: l)).
    destruct (lrun _ _ _ _) as [s' l]; cbn in *; subst; split; solve [auto | congruence | lia].
Qed.

Lemma life_ok spawn b os : within b os ->
  snd (lrun spawn b life0 os) = answers false os /\ starts (fst (lrun spawn b life0 os)) = switched_on false os.
Proof.
  destruct b; intros H.
  - destruct (ray_run spawn os life0 eq_refl) as (A & B & _). auto.
  - destruct (dask_run spawn os life0 eq_refl H) as (A & B & _). auto.
  - apply mpi_off, H.
  - destruct (local_run spawn PyMp os (or_introl eq_refl) H life0 eq_refl eq_refl) as (A & B & _). auto.
  - destruct (local_run spawn PySeq os (or_intror eq_refl) H life0 eq_refl eq_refl) as (A & B & _). auto.
Qed.
