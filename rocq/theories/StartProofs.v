(** Proofs about start and end of the processes (C87, C88). *)
From Verif Require Import Lib TopoModel TopoProofs SizingModel StartModel StartSpec.
From Coq Require Import ZArith.

Definition stage (x : point) : nat :=
  match x with
  | AtSplit => 0 | AtGather => 1 | AtAlloc => 2 | AtAllocService => 3 | AtBarrier => 4 | InLoop => 5 | AtFree => 6
  | AtFreeService => 7 | AtFinalize => 8 | Gone => 9 | Raised => 10
  end.

Definition P1 : list point := [AtSplit; AtGather; Raised].
Definition P2 : list point := [AtSplit; AtGather; AtAlloc; Raised].
Definition P3 : list point := AtSplit :: AtGather :: AtAlloc :: last_part.
Definition P4 : list point := [AtSplit; AtGather; AtBarrier; InLoop; AtFinalize; Gone].

Lemma point_eqb_eq a b : point_eqb a b = true <-> a = b.
Proof. destruct a, b; simpl; split; congruence. Qed.

(** A rank with the least value. *)
Lemma least (f : nat -> nat) n : 0 < n -> exists p, p < n /\ forall q, q < n -> f p <= f q.
Proof.
  induction n as [|n IH]; [lia|]. intros _. destruct n.
  - exists 0. split; [lia|]. intros q Q. assert (q = 0) by lia. subst. auto.
  - destruct IH as (p & P & L); [lia|]. destruct (Nat.le_gt_cases (f p) (f (S n))).
    + exists p. split; [lia|]. intros q Q. destruct (Nat.eq_dec q (S n)); [subst; auto|apply L; lia].
    + exists (S n). split; [lia|]. intros q Q. destruct (Nat.eq_dec q (S n)); [subst; auto|]. specialize (L q). lia.
Qed.

Lemma sum_change (f g : nat -> nat) p n : p < n -> g p = S (f p) -> (forall x, x <> p -> g x = f x) ->
  list_sum (map g (seq 0 n)) = S (list_sum (map f (seq 0 n))).
Proof.
  intros P E O. induction n as [|n IH]; [lia|].
  rewrite seq_S, !map_app, !list_sum_app. simpl. destruct (Nat.eq_dec p n).
  - subst. assert (list_sum (map g (seq 0 n)) = list_sum (map f (seq 0 n))) as ->.
    { f_equal. apply map_ext_in. intros x X. apply in_seq in X. apply O. lia. }
    rewrite E. lia.
  - rewrite IH by lia. rewrite (O n) by lia. lia.
Qed.

Lemma sum_bound (f : nat -> nat) b n : (forall p, p < n -> f p <= b) -> list_sum (map f (seq 0 n)) <= b * n.
Proof.
  induction n as [|n IH]; intros H; [simpl; lia|].
  rewrite seq_S, map_app, list_sum_app. simpl. specialize (H n ltac:(lia)) as H1.
  assert (list_sum (map f (seq 0 n)) <= b * n) by (apply IH; intros; apply H; lia). lia.
Qed.

Section Start.
Variable place : list nat.
Variable addr : nat -> nat.
Variable long : Z.
Variable sees : nat -> view.
Local Notation path := (path place addr long sees).
Local Notation now := (now place addr long sees).
Local Notation entered := (entered place addr long sees).
Local Notation step := (step place addr long sees).
Local Notation run := (run place addr long sees).
Local Notation members := (members place).
Local Notation n := (length place).

Lemma path_cases p : (path p = P1 \/ path p = P2 \/ path p = P3) /\ v_shm (sees p) = true \/ path p = P4 /\ v_shm (sees p) = false.
Proof.
  unfold StartModel.path, P1, P2, P3, P4. destruct (v_shm (sees p)); [|auto].
  destruct (Nat.eqb p ROOT && _); [auto|]. destruct (negb (fits long sees p)); [auto|]. destruct (Nat.leb 2 _); auto.
Qed.

Lemma path_le p : length (path p) <= 10.
Proof. destruct (path_cases p) as [[[E|[E|E]] _]|[E _]]; rewrite E; simpl; lia. Qed.

Lemma fits_suffices p : fits long sees p = true <-> memory_suffices long sees p.
Proof.
  unfold fits, memory_suffices, allocate_shared_memory. destruct (requested _ _ _ _ _) as [o z].
  set (a := mul_0_95 _). destruct (Z.ltb_spec a o); [split; [discriminate|lia]|].
  destruct (Z.ltb_spec a z); [split; [discriminate|lia]|].
  destruct (Z.ltb_spec a (o + z)); [split; [discriminate|lia]|]. split; [lia|auto].
Qed.

Lemma machines : distinct place addr -> monitor_processes place addr true = None <-> ~ forall k, In k place -> 2 <= size place k.
Proof.
  intros D. split.
  - intros E H. destruct place as [|k l] eqn:P; [discriminate|]. rewrite <- P in *.
    destruct (roles_any place addr D true) as (ms & M & _).
    + rewrite P. specialize (H k ltac:(rewrite P; simpl; auto)). unfold size in H. rewrite P in H.
      pose proof (count_occ_bound Nat.eq_dec k (k :: l)). lia.
    + intros _. exact H.
    + congruence.
  - intros H. destruct (monitor_processes place addr true) eqn:M; auto. exfalso. apply H. intros k K.
    destruct (Nat.le_gt_cases 2 (size place k)) as [|G]; auto. unfold size in G. exfalso.
    apply (count_occ_In Nat.eq_dec) in K. assert (C : count_occ Nat.eq_dec place k = 1) by lia.
    rewrite (too_few place addr D k C) in M. discriminate.
Qed.

Lemma sound_path p : distinct place addr ->
  sound place long sees p <-> path p = if v_shm (sees p) then P3 else P4.
Proof.
  intros D. unfold sound, StartModel.path, P3, P4. destruct (v_shm (sees p)); [|split; [auto|discriminate]].
  assert (M := machines D). rewrite <- fits_suffices. unfold size in *.
  destruct (Nat.eqb_spec p ROOT) as [E|E]; cbn [andb].
  - destruct (monitor_processes place addr true).
    + assert (A : forall k, In k place -> 2 <= count_occ Nat.eq_dec place k).
      { intros k K. destruct (Nat.le_gt_cases 2 (count_occ Nat.eq_dec place k)); auto. exfalso.
        assert (X : Some l = None) by (apply M; intros B; specialize (B k K); lia). discriminate. }
      destruct (fits long sees p); cbn [negb]; [|split; [intros H; destruct (H eq_refl) as [X _]; discriminate X|intros X; discriminate X]].
      destruct (Nat.leb_spec 2 (count_occ Nat.eq_dec place (nth p place 0))); simpl.
      * split; [auto|intros _ _; repeat split; auto].
      * split; [intros B; destruct (B eq_refl) as (_ & B1 & _); lia|intros X; discriminate X].
    + split; [|intros X; discriminate X]. intros H. destruct (H eq_refl) as (_ & _ & B). exfalso. apply M; auto.
  - destruct (fits long sees p); cbn [negb]; [|split; [intros H; destruct (H eq_refl) as [X _]; discriminate X|intros X; discriminate X]].
    destruct (Nat.leb_spec 2 (count_occ Nat.eq_dec place (nth p place 0))); simpl.
    + split; auto. intros _ _. repeat split; auto. intros Z. contradiction E.
    + split; [intros B; destruct (B eq_refl) as (_ & B1 & _); lia|intros X; discriminate X].
Qed.

(** ** Reachable states *)
Definition ok (s : st) : Prop :=
  (forall p, s p < length (path p)) /\ (forall p, n <= p -> s p = 0) /\
  (forall p i, i < s p -> scope_of (nth i (path p) Raised) <> NoColl ->
     forall q, In q (members p (scope_of (nth i (path p) Raised))) -> entered s q (nth i (path p) Raised) = true) /\
  (forall p i, i < s p -> nth i (path p) Raised <> Gone /\ nth i (path p) Raised <> Raised).

Lemma entered_iff s p x : entered s p x = true <-> In x (firstn (S (s p)) (path p)).
Proof.
  unfold StartModel.entered. rewrite existsb_exists. split.
  - intros (y & I & E). apply point_eqb_eq in E. subst. auto.
  - intros I. exists x. split; auto. apply point_eqb_eq. auto.
Qed.

Lemma firstn_mono {A} (l : list A) a b x : a <= b -> In x (firstn a l) -> In x (firstn b l).
Proof.
  intros L I. replace a with (Nat.min a b) in I by lia. rewrite <- firstn_firstn in I.
  revert I. generalize (firstn b l). intros m. revert a L. induction m as [|y m IH]; intros [|a] L I; simpl in *; try contradiction.
  destruct I as [I|I]; auto. right. apply (IH a); [lia|auto].
Qed.

Lemma entered_mono s t p x : s p <= t p -> entered s p x = true -> entered t p x = true.
Proof. rewrite !entered_iff. intros L. apply firstn_mono. lia. Qed.

Definition bump (s : st) (p : nat) : st := fun x => if Nat.eqb x p then S (s p) else s x.

Lemma bump_same s p : bump s p p = S (s p).
Proof. unfold bump. rewrite Nat.eqb_refl. auto. Qed.
Lemma bump_other s p x : x <> p -> bump s p x = s x.
Proof. unfold bump. intros H. apply Nat.eqb_neq in H. rewrite H. auto. Qed.
Lemma bump_le s p x : s x <= bump s p x.
Proof. destruct (Nat.eq_dec x p); [subst; rewrite bump_same; lia|rewrite bump_other; auto]. Qed.

Lemma last_point p : scope_of (nth (length (path p) - 1) (path p) Raised) = NoColl /\
  nth (length (path p) - 1) (path p) Raised <> InLoop.
Proof. destruct (path_cases p) as [[[E|[E|E]] _]|[E _]]; rewrite E; simpl; split; auto; discriminate. Qed.

Lemma step_inv s m s' : step s m = Some s' -> exists p, p < n /\ s' = bump s p /\
  (now s p = InLoop \/ scope_of (now s p) <> NoColl /\ forall q, In q (members p (scope_of (now s p))) -> entered s q (now s p) = true).
Proof.
  destruct m as [p|p]; unfold StartModel.step; intros H.
  - destruct (Nat.ltb_spec p n) as [L|L]; [|discriminate].
    destruct (scope_of (now s p)) eqn:C; simpl in H; try discriminate;
    (match type of H with (if ?b then _ else _) = _ => destruct b eqn:F; [|discriminate] end; apply Some_inj in H; exists p;
     split; [auto|]; split; [symmetry; exact H|]; right; split; [congruence|]; rewrite forallb_forall in F; rewrite C; auto).
  - destruct (Nat.ltb_spec p n) as [L|L]; [|discriminate]. destruct (now s p) eqn:C; try discriminate.
    apply Some_inj in H. exists p. split; auto.
Qed.

Lemma ok_start : ok start.
Proof.
  unfold ok, start. repeat split; intros; try lia.
  destruct (path_cases p) as [[[E|[E|E]] _]|[E _]]; rewrite E; simpl; lia.
Qed.

Lemma ok_step s m s' : ok s -> step s m = Some s' -> ok s'.
Proof.
  intros (R & Z & C & N) H. apply step_inv in H as (p & P & -> & H).
  assert (NL : S (s p) < length (path p)).
  { specialize (R p). destruct (Nat.eq_dec (S (s p)) (length (path p))) as [E|E]; [|lia].
    destruct (last_point p) as [A B]. unfold StartModel.now in H. replace (length (path p) - 1) with (s p) in * by lia.
    destruct H as [H|[H _]]; contradiction. }
  repeat split.
  - intros q. destruct (Nat.eq_dec q p); [subst; rewrite bump_same; auto|rewrite bump_other; auto].
  - intros q Q. rewrite bump_other by lia. auto.
  - intros q i I NC w W. apply (entered_mono s); [apply bump_le|].
    destruct (Nat.eq_dec q p) as [E|E].
    + subst q. rewrite bump_same in I. destruct (Nat.eq_dec i (s p)) as [E|E].
      * subst i. destruct H as [H|[_ H]]; [|apply H; auto]. unfold StartModel.now in H. rewrite H in NC. simpl in NC. congruence.
      * apply (C p i); auto. lia.
    + rewrite bump_other in I by auto. apply (C q i); auto.
  - destruct (Nat.eq_dec p0 p) as [E|E].
    + subst p0. rewrite bump_same in H0. destruct (Nat.eq_dec i (s p)) as [E|E]; [|apply N; lia]. subst i. intros X.
      unfold StartModel.now in H. rewrite X in H. simpl in H. destruct H as [H|[H _]]; [discriminate|congruence].
    + rewrite bump_other in H0 by auto. apply N. auto.
  - destruct (Nat.eq_dec p0 p) as [E|E].
    + subst p0. rewrite bump_same in H0. destruct (Nat.eq_dec i (s p)) as [E|E]; [|apply N; lia]. subst i. intros X.
      unfold StartModel.now in H. rewrite X in H. simpl in H. destruct H as [H|[H _]]; [discriminate|congruence].
    + rewrite bump_other in H0 by auto. apply N. auto.
Qed.

Lemma run_ok l : forall s, ok s -> ok (fst (run s l)).
Proof.
  induction l as [|m l IH]; intros s O; simpl; auto. destruct (step s m) as [s'|] eqn:E; auto.
  specialize (IH s' (ok_step _ _ _ O E)). destruct (run s' l). auto.
Qed.

Definition total (s : st) : nat := list_sum (map s (seq 0 n)).

Lemma total_step s m s' : step s m = Some s' -> total s' = S (total s).
Proof.
  intros H. apply step_inv in H as (p & P & -> & _). apply (sum_change s (bump s p) p); auto using bump_same, bump_other.
Qed.

Lemma total_le s : ok s -> total s <= 9 * n.
Proof.
  intros (R & _). apply sum_bound. intros p _. specialize (R p). pose proof (path_le p). lia.
Qed.

Lemma run_total l : forall s, total (fst (run s l)) = total s + snd (run s l).
Proof.
  induction l as [|m l IH]; intros s; simpl; [lia|]. destruct (step s m) as [s'|] eqn:E; auto.
  specialize (IH s'). apply total_step in E. destruct (run s' l) as [t k]. simpl in *. lia.
Qed.

Lemma bounded l : snd (run start l) <= 9 * n.
Proof. pose proof (run_total l start). pose proof (total_le _ (run_ok l _ ok_start)). lia. Qed.

Lemma run_app l l' : forall s, fst (run s (l ++ l')) = fst (run (fst (run s l)) l').
Proof.
  induction l as [|m l IH]; intros s; simpl; auto. destruct (step s m) as [s'|]; auto.
  specialize (IH s'). destruct (run s' (l ++ l')), (run s' l). auto.
Qed.

Lemma can_go s : (exists p s', step s (Go p) = Some s') \/ halted place addr long sees s.
Proof.
  assert (D : forall k, (exists p s', step s (Go p) = Some s') \/ forall p, p < k -> step s (Go p) = None).
  { induction k as [|k IH]; [right; intros; lia|]. destruct IH as [IH|IH]; auto.
    destruct (step s (Go k)) as [s'|] eqn:E; [left; eauto|]. right. intros p P.
    destruct (Nat.eq_dec p k); [subst; auto|apply IH; lia]. }
  destruct (D n) as [H|H]; auto. right. intros p. destruct (Nat.lt_ge_cases p n) as [L|L]; auto.
  unfold StartModel.step. apply Nat.ltb_ge in L. rewrite L. auto.
Qed.

Lemma halts s : ok s -> exists l, halted place addr long sees (fst (run s l)).
Proof.
  intros O. remember (9 * n - total s) as k eqn:K. revert s O K. induction k as [k IH] using lt_wf_ind. intros s O K.
  destruct (can_go s) as [(p & s' & E)|H]; [|exists []; auto].
  assert (O' := ok_step _ _ _ O E). assert (T := total_step _ _ _ E). assert (B := total_le _ O').
  destruct (IH (9 * n - total s')) with (s := s') as (l & L); auto; [lia|].
  exists (Go p :: l). cbn [StartModel.run]. rewrite E. destruct (run s' l). auto.
Qed.

(** ** Points and paths *)
Lemma pos_cases k : k < 10 -> k = 0 \/ k = 1 \/ k = 2 \/ k = 3 \/ k = 4 \/ k = 5 \/ k = 6 \/ k = 7 \/ k = 8 \/ k = 9.
Proof. lia. Qed.

Lemma in_range s p : ok s -> s p < length (path p).
Proof. intros (R & _). auto. Qed.

(** What has been entered, for a path that is sorted. *)
Lemma entered_stage s p x : ok s -> In x (path p) -> stage x <= stage (now s p) -> entered s p x = true.
Proof.
  intros O I L. rewrite entered_iff. assert (R := in_range _ p O). unfold StartModel.now in L. revert I L R.
  destruct (path_cases p) as [[[E|[E|E]] _]|[E _]]; rewrite E; intros I L R; cbn [length P1 P2 P3 P4 last_part] in R;
  assert (K := pos_cases (s p) ltac:(lia)); revert I L R;
  repeat (destruct K as [K|K]; [rewrite K; simpl; intuition (subst; simpl in *; auto; try lia; try discriminate)|]);
  rewrite K; simpl; intuition (subst; simpl in *; auto; try lia; try discriminate).
Qed.

Lemma stage_entered s p x : ok s -> entered s p x = true -> In x (path p) /\ stage x <= stage (now s p).
Proof.
  intros O I. rewrite entered_iff in I. assert (R := in_range _ p O). unfold StartModel.now. revert I R.
  destruct (path_cases p) as [[[E|[E|E]] _]|[E _]]; rewrite E; intros I R; cbn [length P1 P2 P3 P4 last_part] in R;
  assert (K := pos_cases (s p) ltac:(lia)); revert I R;
  repeat (destruct K as [K|K]; [rewrite K; simpl; intuition (subst; simpl in *; auto; try lia; try discriminate)|]);
  rewrite K; simpl; intuition (subst; simpl in *; auto; try lia; try discriminate).
Qed.

Lemma now_in s p : ok s -> In (now s p) (path p).
Proof. intros O. apply nth_In. apply in_range. auto. Qed.

(** A point that was left. *)
Lemma left_point s p x : ok s -> In x (path p) -> stage x < stage (now s p) -> exists i, i < s p /\ nth i (path p) Raised = x.
Proof.
  intros O I L. assert (H := entered_stage s p x O I ltac:(lia)). rewrite entered_iff in H.
  apply (In_nth _ _ Raised) in H as (i & I1 & I2). rewrite firstn_length in I1.
  assert (R := in_range _ p O). exists i.
  assert (N : nth i (path p) Raised = x).
  { rewrite <- I2. clear I2. revert I1. generalize (S (s p)). intros k. generalize (path p). intros l. revert i k.
    induction l as [|y l IH]; intros i k; simpl; [intros; rewrite firstn_nil; auto|]. destruct k; [simpl; lia|]. simpl. intros H.
    destruct i; auto. apply IH. lia. }
  split; auto. destruct (Nat.eq_dec i (s p)); [|lia]. subst i. unfold StartModel.now in L. rewrite N in L. lia.
Qed.

Lemma in_members p c q : In q (members p c) <-> q < n /\ match c with World => True | Host => nth q place 0 = nth p place 0 | NoColl => False end.
Proof.
  unfold StartModel.members. rewrite filter_In, in_seq. split.
  - intros [A B]. split; [lia|]. destruct c; auto; try discriminate. apply Nat.eqb_eq. auto.
  - intros [A B]. split; [lia|]. destruct c; auto; try contradiction. apply Nat.eqb_eq. auto.
Qed.

(** Who has left a collective operation has seen all others enter. *)
Lemma left_coll s p x q : ok s -> In x (path p) -> stage x < stage (now s p) -> scope_of x <> NoColl ->
  In q (members p (scope_of x)) -> entered s q x = true.
Proof.
  intros O I L C M. destruct (left_point s p x O I L) as (i & A & B). destruct O as (_ & _ & O & _). subst x. eapply O; eauto.
Qed.

Lemma stuck_missing s p : halted place addr long sees s -> p < n -> scope_of (now s p) <> NoColl ->
  ~ forall q, In q (members p (scope_of (now s p))) -> entered s q (now s p) = true.
Proof.
  intros H P C A. specialize (H p). unfold StartModel.step in H. apply Nat.ltb_lt in P. rewrite P in H.
  assert (F : forallb (fun q => entered s q (now s p)) (members p (scope_of (now s p))) = true) by (apply forallb_forall; auto).
  destruct (scope_of (now s p)); [| |contradiction C; auto]; simpl in H; rewrite F in H; discriminate.
Qed.

(** ** init *)
Lemma ready s p : ok s -> 0 < n -> returned place addr long sees s -> p < n -> in_place place addr long sees s p.
Proof.
  intros O N R P. unfold returned, in_place in *. apply stage_entered in R as [I L]; auto.
  apply (left_coll s 0 AtBarrier p O); [|apply Nat.lt_le_trans with (stage InLoop); [simpl; lia|exact L]|discriminate|].
  - clear L. destruct (path_cases 0) as [[[E|[E|E]] _]|[E _]]; rewrite E in *; simpl in *; intuition discriminate.
  - apply in_members. simpl. auto.
Qed.

Lemma good_path s q x : ok s -> entered s q x = true -> stage AtAlloc < stage x -> stage x < stage Raised ->
  path q = if v_shm (sees q) then P3 else P4.
Proof.
  intros O E A B. apply stage_entered in E as [I _]; auto.
  destruct (path_cases q) as [[[E|[E|E]] V]|[E V]]; rewrite V, E in *; auto; exfalso; simpl in I;
  intuition (subst; simpl in *; try discriminate; lia).
Qed.

Lemma returned_only s : ok s -> 0 < n -> distinct place addr -> returned place addr long sees s ->
  (forall p, p < n -> sound place long sees p) /\ agreed place sees.
Proof.
  intros O N D R.
  assert (G : forall p, p < n -> path p = if v_shm (sees p) then P3 else P4).
  { intros p P. apply (good_path s p AtBarrier); simpl; try lia; auto. apply (ready s p); auto. }
  split; [intros p P; apply sound_path; auto|].
  assert (H : forall p q, p < n -> q < n -> nth p place 0 = nth q place 0 -> v_shm (sees p) = true -> v_shm (sees q) = true).
  { intros p q P Q E V. assert (GP := G p P). rewrite V in GP. assert (B := ready s p O N R P). unfold in_place in B.
    apply stage_entered in B as [_ B]; auto.
    assert (A : entered s q AtAlloc = true).
    { apply (left_coll s p AtAlloc); auto; [rewrite GP; simpl; auto|simpl in *; lia|discriminate|apply in_members; simpl; auto]. }
    apply stage_entered in A as [A _]; auto. destruct (v_shm (sees q)) eqn:W; auto. rewrite (G q Q), W in A. simpl in A.
    intuition discriminate. }
  intros p q P Q E. destruct (v_shm (sees p)) eqn:V, (v_shm (sees q)) eqn:W; auto.
  - rewrite (H p q) in W; auto.
  - rewrite (H q p) in V; auto.
Qed.

(** The common argument: a process at the earliest point is not stuck in a collective operation. *)
Lemma earliest s p : ok s -> agreed place sees ->
  (forall q, q < n -> path q = if v_shm (sees q) then P3 else P4) ->
  p < n -> (forall q, q < n -> stage (now s p) <= stage (now s q)) -> 
  forall q, In q (members p (scope_of (now s p))) -> entered s q (now s p) = true.
Proof.
  intros O A G P L q M. apply in_members in M as [Q M]. apply entered_stage; auto.
  assert (I := now_in s p O). rewrite (G p P) in I. rewrite (G q Q).
  destruct (v_shm (sees p)) eqn:V, (v_shm (sees q)) eqn:W; auto.
  - revert I M. destruct (now s p); simpl; intros I M; try tauto; try (rewrite (A p q) in V; auto; congruence);
    intuition discriminate.
  - revert I M. destruct (now s p); simpl; intros I M; try tauto; try (rewrite (A p q) in V; auto; congruence);
    intuition discriminate.
Qed.

Lemma returns s : ok s -> 0 < n -> distinct place addr -> halted place addr long sees s ->
  (returned place addr long sees s <-> (forall p, p < n -> sound place long sees p) /\ agreed place sees).
Proof.
  intros O N D H. split; [apply returned_only; auto|]. intros [S A].
  assert (G : forall p, p < n -> path p = if v_shm (sees p) then P3 else P4) by (intros; apply sound_path; auto).
  destruct (least (fun p => stage (now s p)) n N) as (p & P & L).
  assert (B := earliest s p O A G P L).
  unfold returned. apply entered_stage; auto.
  - rewrite (G 0 N). destruct (v_shm (sees 0)); simpl; tauto.
  - destruct (Nat.le_gt_cases 5 (stage (now s p))) as [F|F]; [specialize (L 0 N); simpl; lia|].
    exfalso. apply (stuck_missing s p); auto. destruct (now s p); simpl in *; try discriminate; lia.
Qed.

Lemma raises s : ok s -> 0 < n -> distinct place addr -> halted place addr long sees s ->
  (raised place addr long sees s 0 <-> ~ sound place long sees 0).
Proof.
  intros O N D H. rewrite sound_path by auto. unfold raised. assert (I := now_in s 0 O). split.
  - intros E G. rewrite E, G in I. destruct (v_shm (sees 0)); simpl in I; intuition discriminate.
  - intros NS.
    assert (E0 : forall p, p < n -> stage (now s p) > 0).
    { intros p P. destruct (Nat.eq_dec (stage (now s p)) 0) as [E|E]; [|lia]. exfalso.
      apply (stuck_missing s p); auto; assert (X : now s p = AtSplit) by (destruct (now s p); simpl in E; auto; lia); rewrite X; [discriminate|].
      intros q M. apply in_members in M as [Q _]. apply (entered_stage s q AtSplit O); [|simpl; lia].
      destruct (path_cases q) as [[[E1|[E1|E1]] _]|[E1 _]]; rewrite E1; simpl; auto. }
    assert (E1 : forall p, p < n -> stage (now s p) > 1).
    { intros p P. destruct (Nat.eq_dec (stage (now s p)) 1) as [E|E]; [|specialize (E0 p P); lia]. exfalso.
      apply (stuck_missing s p); auto; assert (X : now s p = AtGather) by (destruct (now s p); simpl in E; auto; lia); rewrite X; [discriminate|].
      intros q M. apply in_members in M as [Q _]. specialize (E0 q Q). apply (entered_stage s q AtGather O); [|exact E0].
      destruct (path_cases q) as [[[E2|[E2|E2]] _]|[E2 _]]; rewrite E2; simpl; auto. }
    specialize (E1 0 N).
    destruct (path_cases 0) as [[[E|[E|E]] V]|[E V]]; rewrite E in *; rewrite V in NS; try (contradiction NS; reflexivity).
    + simpl in I. destruct I as [I|[I|[I|[]]]]; auto; rewrite <- I in E1; simpl in E1; lia.
    + simpl in I. destruct I as [I|[I|[I|[I|[]]]]]; auto; try (rewrite <- I in E1; simpl in E1; lia). exfalso.
      apply (stuck_missing s 0); auto; rewrite <- I; [discriminate|]. intros q M. apply in_members in M as [Q M].
      destruct (Nat.eq_dec q 0) as [->|X]; [apply (entered_stage s 0 AtAlloc O); [rewrite E; simpl; auto|rewrite <- I; simpl; lia]|]. exfalso.
      (* the machine of the root has one process *)
      revert E. unfold StartModel.path, P2. rewrite V. destruct (Nat.eqb 0 ROOT && _); [discriminate|].
      destruct (negb (fits long sees 0)); [discriminate|].
      destruct (Nat.leb_spec 2 (count_occ Nat.eq_dec place (nth 0 place 0))) as [C|C]; [discriminate|]. intros _.
      destruct place as [|k l]; [simpl in N; lia|]. simpl in M, C. destruct (Nat.eq_dec k k); [|contradiction].
      destruct q as [|q]; [contradiction|]. simpl in M, Q. assert (J : In k l) by (rewrite <- M; apply nth_In; lia).
      apply (count_occ_In Nat.eq_dec) in J. lia.
Qed.

(** ** The end *)
Lemma memory_kept s p q : ok s -> entered s p AtFreeService = true -> p < n -> q < n -> nth q place 0 = nth p place 0 ->
  loop_ended place addr long sees s q.
Proof.
  intros O E P Q M. assert (E' := E). apply stage_entered in E as [I L]; auto.
  assert (F : entered s q AtFree = true).
  { apply (left_coll s p AtFree q O); [|apply Nat.lt_le_trans with (stage AtFreeService); [simpl; lia|exact L]|discriminate|apply in_members; simpl; auto].
    clear L.
    destruct (path_cases p) as [[[X|[X|X]] _]|[X _]]; rewrite X in *; simpl in *; intuition discriminate. }
  apply stage_entered in F as [J F]; auto. split.
  - apply entered_stage; auto; [clear F|eapply Nat.le_trans; [|exact F]; simpl; lia].
    destruct (path_cases q) as [[[X|[X|X]] _]|[X _]]; rewrite X in *; simpl in *; intuition discriminate.
  - intros X. rewrite X in F. simpl in F. lia.
Qed.

Lemma together s p q : ok s -> gone place addr long sees s p -> p < n -> q < n -> loop_ended place addr long sees s q.
Proof.
  intros O E P Q. unfold gone in E. assert (I := now_in s p O). rewrite E in I.
  assert (F : entered s q AtFinalize = true).
  { apply (left_coll s p AtFinalize q O); [|rewrite E; simpl; lia|discriminate|apply in_members; simpl; auto].
    destruct (path_cases p) as [[[X|[X|X]] _]|[X _]]; rewrite X in *; simpl in *; intuition discriminate. }
  apply stage_entered in F as [J F]; auto. split.
  - apply entered_stage; auto; [clear F|eapply Nat.le_trans; [|exact F]; simpl; lia].
    destruct (path_cases q) as [[[X|[X|X]] _]|[X _]]; rewrite X in *; simpl in *; intuition discriminate.
  - intros X. rewrite X in F. simpl in F. lia.
Qed.

Lemma everybody_leaves s : ok s -> 0 < n -> distinct place addr -> halted place addr long sees s ->
  (forall p, p < n -> loop_ended place addr long sees s p) -> forall p, p < n -> gone place addr long sees s p.
Proof.
  intros O N D H E.
  assert (R : returned place addr long sees s) by apply (E 0 N).
  destruct (returned_only s O N D R) as [S A].
  assert (G : forall p, p < n -> path p = if v_shm (sees p) then P3 else P4) by (intros; apply sound_path; auto).
  destruct (least (fun p => stage (now s p)) n N) as (p & P & L).
  assert (B := earliest s p O A G P L).
  assert (K : 9 <= stage (now s p)).
  { destruct (Nat.le_gt_cases 9 (stage (now s p))) as [F|F]; auto. exfalso. apply (stuck_missing s p); auto.
    destruct (E p P) as [_ X]. destruct (now s p); simpl in *; try discriminate; try lia. contradiction X; auto. }
  intros q Q. specialize (L q Q). assert (I := now_in s q O). rewrite (G q Q) in I. unfold gone.
  destruct (now s q); simpl in *; try lia; auto. exfalso. destruct (v_shm (sees q)); simpl in I; intuition discriminate.
Qed.
End Start.
