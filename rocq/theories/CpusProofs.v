(** Proofs for C79. *)
From Verif Require Import Lib Dict TopoModel TopoProofs CpusModel.
From Coq Require Import Permutation.

Lemma mpi_cpus place addr shm cpu_count hosts :
  (forall a b, In a place -> In b place -> addr a = addr b -> a = b) ->
  length place = S (nprocs_to_spawn shm cpu_count hosts) ->
  (shm = true -> (forall k, In k place -> 2 <= count_occ Nat.eq_dec place k) /\ length (nodup Nat.eq_dec place) = hosts) ->
  exists monitors, monitor_processes place addr shm = Some monitors /\
    list_sum (map snd (cluster_resources place addr monitors)) = mpi_num_cpus cpu_count.
Proof.
  intros A L H. assert (P : place <> []) by (intros ->; discriminate).
  assert (L2 : 2 <= length place).
  { destruct shm; simpl in L; [|lia]. destruct (H eq_refl) as (T & _). destruct place as [|k r]; [congruence|].
    specialize (T k (or_introl eq_refl)). pose proof (count_occ_bound Nat.eq_dec k (k :: r)). lia. }
  destruct (roles_any place addr A shm L2 (fun E => proj1 (H E))) as (ms & M & _ & F & _).
  exists ms. split; [exact M|].
  destruct (resources_any place addr A shm L2 (fun E => proj1 (H E)) ms M) as (_ & _ & _ & R).
  unfold mpi_num_cpus. destruct shm; simpl in L.
  - destruct (H eq_refl) as (T & N). rewrite (count_hosts place addr A T P ms M) in R. lia.
  - destruct (F eq_refl) as (-> & _). simpl in R. lia.
Qed.

Definition asum (l : list (nat * nat)) := list_sum (map snd l).

Lemma asum_set k v l : asum (aset k (match aget k l with Some c => c | None => 0 end + v) l) = asum l + v.
Proof.
  unfold asum. induction l as [|[a c] r IH]; simpl; [lia|].
  destruct (Nat.eqb_spec k a); simpl; [lia|]. rewrite IH. lia.
Qed.

Lemma asum_fresh k v l : aget k l = None -> asum (aset k v l) = asum l + v.
Proof. intros E. rewrite <- (asum_set k v l), E. reflexivity. Qed.

Lemma asum_del k l : NoDup (map fst l) -> asum (adel k l) + (match aget k l with Some c => c | None => 0 end) = asum l.
Proof.
  unfold asum, adel. induction l as [|[a c] r IH]; simpl; [lia|]. intros D. inversion_clear D as [|? ? N D'].
  destruct (Nat.eqb_spec k a) as [->|M]; simpl; [|specialize (IH D'); lia].
  specialize (IH D'). assert (E : aget a r = None) by (apply aget_None; exact N). rewrite E in IH. lia.
Qed.

Lemma dask_table_sum ws t :
  asum (fold_left (fun t w => aset (fst w) (match aget (fst w) t with Some c => c | None => 0 end + snd w) t) ws t)
  = asum t + asum ws.
Proof.
  revert t. induction ws as [|w r IH]; intros t; simpl; [unfold asum; simpl; lia|].
  rewrite IH, asum_set. unfold asum. simpl. lia.
Qed.

Lemma dask_table_nodup ws t : NoDup (map fst t) ->
  NoDup (map fst (fold_left (fun t w => aset (fst w) (match aget (fst w) t with Some c => c | None => 0 end + snd w) t) ws t)).
Proof. revert t. induction ws as [|w r IH]; intros t D; simpl; [exact D|]. apply IH, aset_nodup, D. Qed.

(** All threads are in the report. *)
Lemma dask_total ip ws : ip <> LOCALHOST -> (In LOCALHOST (map fst ws) -> ~ In ip (map fst ws)) ->
  asum (dask_resources ip ws) = asum ws.
Proof.
  intros Ip S. unfold dask_resources. fold (dask_table ws).
  assert (T : asum (dask_table ws) = asum ws) by (unfold dask_table; rewrite dask_table_sum; reflexivity).
  destruct (aget LOCALHOST (dask_table ws)) as [c|] eqn:E; [|exact T].
  rewrite asum_fresh.
  - assert (D : NoDup (map fst (dask_table ws))) by (apply dask_table_nodup; constructor).
    pose proof (asum_del LOCALHOST _ D) as X. rewrite E in X. lia.
  - rewrite aget_adel_other by exact Ip. rewrite dask_table_get in E. rewrite dask_table_get.
    destruct (mem LOCALHOST (map fst ws)) eqn:M; [|discriminate]. apply mem_In in M. specialize (S M).
    destruct (mem ip (map fst ws)) eqn:M'; [|reflexivity]. apply mem_In in M'. contradiction.
Qed.

Lemma dask_cpus ip ws : ip <> LOCALHOST -> (In LOCALHOST (map fst ws) -> ~ In ip (map fst ws)) ->
  list_sum (map snd (dask_resources ip ws)) = list_sum (map snd ws) /\
  ((forall w, In w ws -> 1 <= snd w) ->
   (list_sum (map snd (dask_resources ip ws)) = dask_num_cpus ws <-> forall w, In w ws -> snd w = 1)).
Proof.
  intros Ip S. pose proof (dask_total ip ws Ip S) as T. unfold asum in T. split; [exact T|].
  rewrite T. unfold dask_num_cpus. clear. intros P.
  assert (L : length ws <= list_sum (map snd ws)).
  { induction ws as [|w r IH]; simpl; [lia|]. specialize (IH (fun x I => P x (or_intror I))). specialize (P w (or_introl eq_refl)). lia. }
  split.
  - induction ws as [|w r IH]; [intros _ w []|]. intros E. simpl in E.
    assert (L' : length r <= list_sum (map snd r)).
    { clear -P. induction r as [|x r IH]; simpl; [lia|].
      assert (IH' : length r <= list_sum (map snd r)) by (apply IH; intros y [->|I]; apply P; simpl; auto).
      specialize (P x (or_intror (or_introl eq_refl))). lia. }
    pose proof (P w (or_introl eq_refl)) as Pw. intros x [->|I]; [lia|].
    apply IH; auto; [intros y J; apply P; right; exact J | lia].
  - intros A. clear L P. induction ws as [|w r IH]; simpl; [reflexivity|].
    rewrite (A w (or_introl eq_refl)), IH; auto. intros x I. apply A. right; exact I.
Qed.

Lemma ray_total nodes t : NoDup (map fst t ++ map fst nodes) ->
  asum (fold_left (fun t n => aset (fst n) (match snd n with Some c => c | None => 1 end) t) nodes t)
  = asum t + list_sum (map (fun n => match snd n with Some c => c | None => 1 end) nodes).
Proof.
  revert t. induction nodes as [|[h c] r IH]; intros t D; simpl; [lia|].
  assert (N : ~ In h (map fst t)).
  { intros I. simpl in D. apply NoDup_remove_2 in D. apply D. apply in_or_app; left; exact I. }
  rewrite IH.
  - rewrite asum_fresh by (apply aget_None; exact N). simpl. lia.
  - simpl in D. rewrite aset_keys. destruct (existsb (Nat.eqb h) (map fst t)) eqn:E.
    + apply existsb_exists in E as (x & I & E). apply Nat.eqb_eq in E. subst. contradiction.
    + rewrite <- app_assoc. exact D.
Qed.

Lemma ray_cpus nodes : NoDup (map fst nodes) -> nodes <> [] ->
  (ray_num_cpus nodes = Some (list_sum (map snd (ray_resources nodes))) <-> forall n, In n nodes -> snd n <> None).
Proof.
  intros D NE. unfold ray_resources. pose proof (ray_total nodes [] D) as T. unfold asum in T. rewrite T. clear T D. simpl.
  assert (X : list_sum (map (fun n => match snd n with Some c => c | None => 1 end) nodes) =
    list_sum (flat_map (fun n : nat * option nat => match snd n with Some c => [c] | None => [] end) nodes) +
    length (filter (fun n : nat * option nat => match snd n with Some _ => false | None => true end) nodes)).
  { induction nodes as [|[h [c|]] r IH]; simpl; [reflexivity| |].
    - destruct r; [simpl; lia|]. rewrite IH by discriminate. lia.
    - destruct r; [simpl; lia|]. rewrite IH by discriminate. lia. }
  rewrite X. unfold ray_num_cpus.
  set (F := flat_map _ nodes) in *. set (G := filter _ nodes) in *.
  assert (Y : G = [] <-> forall n, In n nodes -> snd n <> None).
  { unfold G. clear. induction nodes as [|[h [c|]] r IH]; simpl.
    - split; [intros _ n []|reflexivity].
    - rewrite IH. split; [intros H n [<-|I]; [discriminate | auto] | intros H n I; auto].
    - split; [discriminate|]. intros H. exfalso. apply (H _ (or_introl eq_refl)). reflexivity. }
  rewrite <- Y. destruct F as [|c F'] eqn:EF.
  - split; [discriminate|]. intros E. exfalso. destruct nodes as [|[h [c|]] r]; [congruence | discriminate |].
    apply (proj1 Y E _ (or_introl eq_refl)). reflexivity.
  - split.
    + intros E. injection E as E. destruct G; [reflexivity|]. simpl in E. lia.
    + intros ->. simpl. f_equal. lia.
Qed.

Lemma local_cpus ip cpu_count :
  list_sum (map snd (pymp_resources ip cpu_count)) = pymp_num_cpus cpu_count /\
  list_sum (map snd (pyseq_resources ip)) = pyseq_num_cpus.
Proof. simpl. unfold pyseq_num_cpus. lia. Qed.
