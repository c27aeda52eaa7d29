From Verif Require Import Lib Dict TopoModel.
From Coq Require Import Permutation.

Lemma filter_seq_S p r : filter p (seq 0 (S r)) = filter p (seq 0 r) ++ (if p r then [r] else []).
Proof. rewrite seq_S, filter_app. simpl. destruct (p r); reflexivity. Qed.

Lemma aset_snoc {V} k (v : V) l : ~ In k (map fst l) -> aset k v l = l ++ [(k, v)].
Proof.
  induction l as [|[k' v'] r IH]; simpl; [reflexivity|]. intros H.
  destruct (Nat.eqb_spec k k') as [->|N]; [exfalso; auto|]. rewrite IH by auto; reflexivity.
Qed.

Lemma flat_map_aset {V A} (f : V -> list A) k v old x l :
  NoDup (map fst l) -> match aget k l with Some u => u | None => old end = old -> f v = f old ++ [x] ->
  (aget k l = None -> f old = []) ->
  Permutation (flat_map (fun p => f (snd p)) (aset k v l)) (x :: flat_map (fun p => f (snd p)) l).
Proof.
  intros D E F N. induction l as [|[k' v'] r IH]; simpl in *.
  - rewrite F, (N eq_refl). simpl. constructor; constructor.
  - inversion_clear D. destruct (Nat.eqb_spec k k') as [->|M]; simpl.
    + subst v'. rewrite F, <- app_assoc. simpl. symmetry. apply Permutation_middle.
    + rewrite IH by auto. symmetry. apply Permutation_middle.
Qed.

Lemma firstn_snoc r (l : list nat) : S r <= length l -> firstn (S r) l = firstn r l ++ [nth r l 0].
Proof.
  revert l. induction r as [|r IH]; intros [|a l] L; cbn [length] in *; try lia; [reflexivity|].
  cbn [firstn nth app]. f_equal. apply IH. lia.
Qed.

Section Topo.
Variable place : list nat.
Variable addr : nat -> nat.
Hypothesis addr_inj : forall a b, In a place -> In b place -> addr a = addr b -> a = b.

Definition at_host (h r : nat) : bool := Nat.eqb (addr (nth r place 0)) h.
Definition on (h r : nat) : list nat := filter (at_host h) (seq 0 r).

Lemma on_S h r : on h (S r) = on h r ++ (if at_host h r then [r] else []).
Proof. apply filter_seq_S. Qed.

Lemma in_on h r g : In g (on h r) <-> g < r /\ addr (nth g place 0) = h.
Proof.
  unfold on, at_host. rewrite filter_In, in_seq, Nat.eqb_eq. intuition lia.
Qed.

Lemma nodup_on h r : NoDup (on h r).
Proof. apply NoDup_filter, seq_NoDup. Qed.

Lemma count_firstn x r : r <= length place ->
  count_occ Nat.eq_dec (firstn r place) x = length (filter (fun g => Nat.eqb (nth g place 0) x) (seq 0 r)).
Proof.
  induction r as [|r IH]; intros L; [reflexivity|]. rewrite filter_seq_S, app_length, <- IH by lia.
  assert (E : firstn (S r) place = firstn r place ++ [nth r place 0]).
  { apply firstn_snoc, L. }
  rewrite E, count_occ_app. f_equal. simpl.
  destruct (Nat.eq_dec (nth r place 0) x) as [->|N]; [rewrite Nat.eqb_refl; reflexivity|].
  destruct (Nat.eqb_spec (nth r place 0) x); [contradiction | reflexivity].
Qed.

Lemma filter_ext_in' {A} (p q : A -> bool) l : (forall x, In x l -> p x = q x) -> filter p l = filter q l.
Proof.
  induction l as [|a r IH]; simpl; [reflexivity|]. intros H. rewrite (H a) by auto.
  rewrite IH by auto. reflexivity.
Qed.

Lemma host_rank_on r : r < length place -> host_rank place r = length (on (addr (nth r place 0)) r).
Proof using addr_inj.
  intros L. unfold host_rank. rewrite count_firstn by lia. unfold on. f_equal. apply filter_ext_in'.
  intros g G. apply in_seq in G. unfold at_host.
  destruct (Nat.eqb_spec (nth g place 0) (nth r place 0)) as [->|N]; [rewrite Nat.eqb_refl; reflexivity|].
  destruct (Nat.eqb_spec (addr (nth g place 0)) (addr (nth r place 0))) as [E|]; [|reflexivity].
  exfalso. apply N. apply addr_inj; auto using nth_In. apply nth_In; lia.
Qed.

Lemma host_ranks h r : r <= length place -> map (host_rank place) (on h r) = seq 0 (length (on h r)).
Proof using addr_inj.
  induction r as [|r IH]; intros L; [reflexivity|]. rewrite on_S.
  destruct (at_host h r) eqn:E; [|rewrite app_nil_r; apply IH; lia].
  rewrite map_app, app_length, IH by lia. simpl. rewrite Nat.add_1_r, seq_S, host_rank_on by lia.
  apply Nat.eqb_eq in E. rewrite E. reflexivity.
Qed.

Definition entry (h r : nat) : list (nat * nat) := map (fun g => (host_rank place g, g)) (on h r).

Definition topo_at (r : nat) :=
  fold_left (fun t i => match i with (h, g, hr) =>
               aset h (aset hr g (match aget h t with Some m => m | None => [] end)) t end)
            (map (fun r => (addr (nth r place 0), r, host_rank place r)) (seq 0 r)) [].

Lemma topo_S r : topo_at (S r) =
  aset (addr (nth r place 0))
    (aset (host_rank place r) r (match aget (addr (nth r place 0)) (topo_at r) with Some m => m | None => [] end))
    (topo_at r).
Proof. unfold topo_at. rewrite seq_S, map_app, fold_left_app. reflexivity. Qed.

Lemma topo_full : topology place addr = topo_at (length place).
Proof. reflexivity. Qed.

Lemma topo_inv r : r <= length place ->
  NoDup (map fst (topo_at r)) /\
  (forall h, aget h (topo_at r) = if Nat.eqb (length (on h r)) 0 then None else Some (entry h r)) /\
  Permutation (flat_map (fun hm => map snd (snd hm)) (topo_at r)) (seq 0 r).
Proof using addr_inj.
  induction r as [|r IH]; intros L.
  - repeat split; constructor.
  - destruct (IH ltac:(lia)) as (D & G & P). set (h0 := addr (nth r place 0)).
    assert (E : match aget h0 (topo_at r) with Some m => m | None => [] end = entry h0 r).
    { rewrite G. destruct (Nat.eqb_spec (length (on h0 r)) 0) as [Z|]; [|reflexivity].
      unfold entry. destruct (on h0 r); [reflexivity | discriminate]. }
    assert (S : aset (host_rank place r) r (entry h0 r) = entry h0 (S r)).
    { rewrite aset_snoc.
      - unfold entry. rewrite on_S, map_app. unfold at_host, h0. rewrite Nat.eqb_refl. reflexivity.
      - unfold entry. rewrite map_map. simpl. rewrite host_ranks by lia. rewrite host_rank_on by lia.
        rewrite in_seq. unfold h0. lia. }
    rewrite topo_S. fold h0. rewrite E, S. repeat split.
    + apply aset_nodup, D.
    + intros h. destruct (Nat.eq_dec h h0) as [->|N].
      * rewrite aget_aset_same. rewrite on_S. unfold at_host. fold h0. rewrite Nat.eqb_refl, app_length.
        simpl. rewrite Nat.add_1_r. reflexivity.
      * rewrite aget_aset_other by exact N. rewrite G. unfold entry. rewrite on_S. unfold at_host. fold h0.
        destruct (Nat.eqb_spec h0 h); [congruence|]. rewrite app_nil_r. reflexivity.
    + rewrite (flat_map_aset (map snd) h0 _ (entry h0 r) r).
      * rewrite P, seq_S. apply Permutation_cons_append.
      * exact D.
      * rewrite G. destruct (Nat.eqb_spec (length (on h0 r)) 0); reflexivity.
      * rewrite <- S, aset_snoc; [rewrite map_app; reflexivity|].
        unfold entry. rewrite map_map. simpl. rewrite host_ranks by lia. rewrite host_rank_on by lia.
        rewrite in_seq. unfold h0. lia.
      * rewrite G. destruct (Nat.eqb_spec (length (on h0 r)) 0) as [Z|]; [|discriminate].
        unfold entry. destruct (on h0 r); [reflexivity | discriminate].
Qed.

Let n := length place.

Lemma topo_entries h m : In (h, m) (topology place addr) -> m = entry h n /\ on h n <> [].
Proof using addr_inj.
  intros I. rewrite topo_full in I. destruct (topo_inv n (le_n _)) as (D & G & _).
  apply In_aget in I; [|exact D]. rewrite G in I.
  destruct (Nat.eqb_spec (length (on h n)) 0) as [Z|Z]; [discriminate|]. injection I as <-. split; [reflexivity|].
  intros O. apply Z. rewrite O. reflexivity.
Qed.

Lemma topo_get r : r < n -> aget (addr (nth r place 0)) (topology place addr) = Some (entry (addr (nth r place 0)) n).
Proof using addr_inj.
  intros L. rewrite topo_full. destruct (topo_inv n (le_n _)) as (_ & G & _). fold n. rewrite G.
  destruct (Nat.eqb_spec (length (on (addr (nth r place 0)) n)) 0) as [Z|Z]; [|reflexivity].
  exfalso. assert (I : In r (on (addr (nth r place 0)) n)) by (apply in_on; auto).
  destruct (on (addr (nth r place 0)) n); [contradiction | discriminate].
Qed.

Lemma topo_host h : In h (map fst (topology place addr)) <-> exists r, r < n /\ h = addr (nth r place 0).
Proof using addr_inj.
  split.
  - intros I. apply in_map_iff in I as ((h', m) & <- & I). apply topo_entries in I as (_ & O). simpl.
    destruct (on h' n) as [|r l] eqn:E; [contradiction|]. exists r.
    assert (J : In r (on h' n)) by (rewrite E; left; reflexivity). apply in_on in J as (J & <-). auto.
  - intros (r & L & ->). apply topo_get in L. apply aget_In in L. apply (in_map fst _ _ L).
Qed.

Lemma topo_nodup : NoDup (map fst (topology place addr)).
Proof using addr_inj. rewrite topo_full. apply (topo_inv n (le_n _)). Qed.

Lemma topo_ranks : Permutation (flat_map (fun hm => map snd (snd hm)) (topology place addr)) (seq 0 n).
Proof using addr_inj. rewrite topo_full. apply (topo_inv n (le_n _)). Qed.

Lemma entry_ranks h : map snd (entry h n) = on h n.
Proof. unfold entry. rewrite map_map. simpl. apply map_id. Qed.

Lemma entry_get h k : aget k (entry h n) = nth_error (on h n) k.
Proof using addr_inj.
  unfold entry. assert (K := host_ranks h n (le_n _)). revert K. generalize (on h n). clear. intros l.
  assert (A : forall l s, map (host_rank place) l = seq s (length l) ->
     aget (s + k) (map (fun g => (host_rank place g, g)) l) = nth_error l k).
  { clear l. revert k. intros k l. revert k. induction l as [|g r IH]; intros k s E; simpl.
    - destruct k; reflexivity.
    - simpl in E. injection E as E1 E2. rewrite E1. destruct k as [|k]; simpl.
      + rewrite Nat.add_0_r, Nat.eqb_refl. reflexivity.
      + destruct (Nat.eqb_spec (s + S k) s); [lia|]. replace (s + S k) with (S s + k) by lia. apply IH, E2. }
  intros K. apply (A l 0 K).
Qed.

Lemma length_on k : In k place -> length (on (addr k) n) = count_occ Nat.eq_dec place k.
Proof using addr_inj.
  intros I. replace (count_occ Nat.eq_dec place k) with (count_occ Nat.eq_dec (firstn n place) k)
    by (unfold n; rewrite firstn_all; reflexivity).
  rewrite count_firstn by (unfold n; lia). unfold on. f_equal.
  apply filter_ext_in'. intros g G. apply in_seq in G. unfold at_host.
  destruct (Nat.eqb_spec (nth g place 0) k) as [->|N]; [rewrite Nat.eqb_refl; reflexivity|].
  destruct (Nat.eqb_spec (addr (nth g place 0)) (addr k)) as [E|]; [|reflexivity].
  exfalso. apply N. apply addr_inj; auto. apply nth_In. unfold n in G; lia.
Qed.

Hypothesis two : forall k, In k place -> 2 <= count_occ Nat.eq_dec place k.

(** The monitor of a host: its second rank. *)
Definition second (h : nat) : nat := nth 1 (on h n) 0.

Lemma on_two h : on h n <> [] -> 2 <= length (on h n).
Proof using addr_inj two.
  destruct (on h n) as [|r l] eqn:E; [congruence|]. intros _.
  assert (I : In r (on h n)) by (rewrite E; left; reflexivity). apply in_on in I as (L & <-).
  rewrite <- E, length_on; [apply two|]; apply nth_In; exact L.
Qed.

Lemma monitor_entry h : on h n <> [] -> aget MONITOR (entry h n) = Some (second h).
Proof using addr_inj two.
  intros H. rewrite entry_get. apply nth_error_nth'. apply on_two in H. unfold MONITOR. lia.
Qed.

Lemma shm_monitors_are : forall t, incl t (topology place addr) -> shm_monitors t = Some (map (fun hm => second (fst hm)) t).
Proof using addr_inj two.
  induction t as [|[h m] r IH]; intros I; [reflexivity|]. simpl.
  destruct (topo_entries h m) as (-> & O); [apply I; left; reflexivity|].
  assert (L := on_two h O). unfold entry at 1. rewrite map_length. destruct (length (on h n)) as [|[|k]]; try lia.
  rewrite monitor_entry by exact O. rewrite IH; [reflexivity|]. intros x X. apply I. right; exact X.
Qed.

Lemma second_on h : on h n <> [] -> In (second h) (on h n).
Proof using addr_inj two. intros H. apply nth_In. apply on_two in H. lia. Qed.

Lemma sorted_nth : forall l s, (forall a, In a l -> s <= a) -> 
  (exists p m, l = filter p (seq s m)) -> forall x y r, l = x :: y :: r -> x < y.
Proof.
  intros l s _ (p & m & E) x y r ->. revert s p E. induction m as [|m IH]; intros s p E; simpl in E; [discriminate|].
  destruct (p s) eqn:P.
  - injection E as -> E. assert (I : In y (filter p (seq (S s) m))) by (rewrite <- E; left; reflexivity).
    apply filter_In in I as (I & _). apply in_seq in I. lia.
  - apply (IH (S s) p E).
Qed.

Lemma second_not_root h : on h n <> [] -> second h <> 0.
Proof using addr_inj two.
  intros H. assert (L := on_two h H). unfold second. destruct (on h n) as [|x [|y l]] eqn:E; simpl in *; try lia.
  assert (x < y); [|lia]. eapply (sorted_nth (on h n) 0); [intros; lia| |exact E]. exists (at_host h), n. reflexivity.
Qed.

Definition mons (shm : bool) : list nat :=
  if shm then map (fun hm => second (fst hm)) (topology place addr) else [MONITOR].

Lemma monitors_are shm : monitor_processes place addr shm = Some (mons shm).
Proof using addr_inj two.
  destruct shm; [|reflexivity]. apply shm_monitors_are. apply incl_refl.
Qed.

Lemma in_mons_shm m : In m (mons true) <-> exists r, r < n /\ m = second (addr (nth r place 0)).
Proof using addr_inj.
  unfold mons. rewrite in_map_iff. split.
  - intros ((h, e) & <- & I). assert (J : In h (map fst (topology place addr))) by apply (in_map fst _ _ I).
    apply topo_host in J as (r & L & ->). exists r. auto.
  - intros (r & L & ->). assert (J : In (addr (nth r place 0)) (map fst (topology place addr))).
    { apply topo_host. exists r. auto. }
    apply in_map_iff in J as ((h, e) & E & I). simpl in E. exists (h, e). simpl. split; [rewrite E; reflexivity | exact I].
Qed.

Lemma on_self r : r < n -> on (addr (nth r place 0)) n <> [].
Proof.
  intros L E. assert (I : In r (on (addr (nth r place 0)) n)) by (apply in_on; auto). rewrite E in I. contradiction.
Qed.

Lemma second_host r : r < n -> second (addr (nth r place 0)) < n /\
  nth (second (addr (nth r place 0))) place 0 = nth r place 0.
Proof using addr_inj two.
  intros L. assert (I := second_on _ (on_self r L)). apply in_on in I as (I & E). split; [exact I|].
  apply addr_inj; auto; apply nth_In; assumption.
Qed.

Lemma nodup_map_inj {A B} (f : A -> B) l :
  NoDup l -> (forall x y, In x l -> In y l -> f x = f y -> x = y) -> NoDup (map f l).
Proof.
  induction l as [|a r IH]; intros D I; simpl; [constructor|]. inversion_clear D as [|? ? H H']. constructor.
  - intros J. apply in_map_iff in J as (b & E & J). apply H. replace a with b; [exact J|].
    apply I; simpl; auto.
  - apply IH; [exact H' | intros; apply I; simpl; auto].
Qed.

Lemma nodup_mons shm : NoDup (mons shm).
Proof using addr_inj two.
  destruct shm; [|repeat constructor; simpl; tauto]. unfold mons.
  rewrite <- (map_map fst second). apply nodup_map_inj; [exact topo_nodup|].
  intros x y X Y E. apply topo_host in X as (a & La & ->). apply topo_host in Y as (b & Lb & ->).
  destruct (second_host a La) as (_ & A). destruct (second_host b Lb) as (_ & B). rewrite E in A. congruence.
Qed.

Lemma two_ranks : place <> [] -> 2 <= n.
Proof using addr_inj two.
  intros H. assert (I : exists k, In k place). { destruct place as [|k l]; [contradiction | exists k; left; reflexivity]. }
  destruct I as (k & I). specialize (two k I). pose proof (count_occ_bound Nat.eq_dec k place). unfold n. lia.
Qed.

Lemma mons_range shm m : place <> [] -> In m (mons shm) -> 0 < m < n.
Proof using addr_inj two.
  intros P I. destruct shm.
  - apply in_mons_shm in I as (r & L & ->). destruct (second_host r L) as (S & _).
    assert (Z := second_not_root _ (on_self r L)). lia.
  - destruct I as [<-|[]]. apply two_ranks in P. unfold MONITOR. lia.
Qed.

Lemma mem_In x l : mem x l = true <-> In x l.
Proof.
  unfold mem. rewrite existsb_exists. split.
  - intros (y & I & E). apply Nat.eqb_eq in E. subst; exact I.
  - intros I. exists x. rewrite Nat.eqb_refl. auto.
Qed.

Definition worker_rank ms r := negb (Nat.eqb r ROOT) && negb (mem r ms).

Lemma worker_rank_iff ms r : worker_rank ms r = true <-> r <> 0 /\ ~ In r ms.
Proof.
  unfold worker_rank, ROOT. rewrite andb_true_iff, !negb_true_iff, Nat.eqb_neq, <- mem_In.
  destruct (mem r ms); intuition congruence.
Qed.

Lemma filter_flat_map {A B} (f : A -> list B) p l : filter p (flat_map f l) = flat_map (fun x => filter p (f x)) l.
Proof. induction l as [|a r IH]; simpl; [reflexivity|]. rewrite filter_app, IH. reflexivity. Qed.

Lemma perm_filter {A} (p : A -> bool) l l' : Permutation l l' -> Permutation (filter p l) (filter p l').
Proof.
  induction 1; simpl; auto.
  - destruct (p x); auto.
  - destruct (p x), (p y); auto. constructor.
  - etransitivity; eassumption.
Qed.

Lemma workers_perm ms : Permutation (workers place addr ms) (filter (worker_rank ms) (seq 0 n)).
Proof using addr_inj.
  unfold workers. rewrite <- (filter_flat_map (fun hm => map snd (snd hm))).
  apply perm_filter, topo_ranks.
Qed.

Lemma in_workers ms r : In r (workers place addr ms) <-> r < n /\ r <> 0 /\ ~ In r ms.
Proof using addr_inj.
  rewrite <- worker_rank_iff. split.
  - intros I. apply (Permutation_in _ (workers_perm ms)) in I. apply filter_In in I as (I & W).
    apply in_seq in I. split; [lia | exact W].
  - intros (L & W). apply (Permutation_in _ (Permutation_sym (workers_perm ms))). apply filter_In.
    split; [apply in_seq; lia | exact W].
Qed.

Lemma nodup_workers ms : NoDup (workers place addr ms).
Proof using addr_inj.
  eapply Permutation_NoDup; [apply Permutation_sym, workers_perm|]. apply NoDup_filter, seq_NoDup.
Qed.

Lemma nodup_app {A} (l1 l2 : list A) : NoDup l1 -> NoDup l2 -> (forall x, In x l1 -> ~ In x l2) -> NoDup (l1 ++ l2).
Proof.
  induction l1 as [|a r IH]; simpl; intros D1 D2 S; [exact D2|]. inversion_clear D1. constructor.
  - rewrite in_app_iff. intros [I|I]; [contradiction | eapply S; eauto].
  - apply IH; auto.
Qed.

Lemma partition shm : place <> [] -> Permutation (0 :: mons shm ++ workers place addr (mons shm)) (seq 0 n).
Proof using addr_inj two.
  intros P. apply NoDup_Permutation.
  - constructor.
    + rewrite in_app_iff. intros [I|I].
      * apply mons_range in I; [lia | exact P].
      * apply in_workers in I. lia.
    + apply nodup_app; [apply nodup_mons | apply nodup_workers|]. intros x X I. apply in_workers in I. tauto.
  - apply seq_NoDup.
  - intros r. rewrite in_seq. simpl. rewrite in_app_iff, in_workers. split.
    + intros [<-|[I|I]]; [apply two_ranks in P; lia | apply mons_range in I; [lia | exact P] | lia].
    + intros L. destruct (Nat.eq_dec r 0) as [->|N]; [auto|]. right.
      destruct (in_dec Nat.eq_dec r (mons shm)); [auto | right; lia || (split; [lia | auto])].
Qed.

Lemma get_monitor_shm r : r < n -> get_monitor place addr true r = Some (second (addr (nth r place 0))).
Proof using addr_inj two.
  intros L. unfold get_monitor, host_by_rank. destruct (Nat.ltb_spec r (length place)) as [_|H]; [|unfold n in L; lia].
  rewrite topo_get by exact L. apply monitor_entry, on_self, L.
Qed.

Lemma in_place k : In k place <-> exists r, r < n /\ nth r place 0 = k.
Proof.
  split; [intros I; apply (In_nth _ _ 0) in I as (r & L & E); eauto|].
  intros (r & L & <-). apply nth_In, L.
Qed.

(** cluster_resources *)
Lemma resources_get ms k : In k place ->
  aget (addr k) (cluster_resources place addr ms) =
  Some (length (filter (fun r => Nat.eqb (nth r place 0) k) (workers place addr ms))).
Proof using addr_inj.
  intros I. apply in_place in I as (r & L & <-). set (k := nth r place 0).
  apply In_aget.
  - unfold cluster_resources. rewrite map_map. simpl. exact topo_nodup.
  - unfold cluster_resources. apply in_map_iff. exists (addr k, entry (addr k) n). split.
    + simpl. f_equal. rewrite entry_ranks. apply Permutation_length.
      rewrite (perm_filter _ _ _ (workers_perm ms)). unfold on.
      assert (C : forall p q l, filter p (filter q l) = filter (fun x : nat => q x && p x) l).
      { clear. induction l as [|a l IH]; simpl; [reflexivity|]. destruct (q a); simpl; rewrite IH; reflexivity. }
      rewrite !C. erewrite filter_ext_in'; [reflexivity|]. intros g G. apply in_seq in G. simpl.
      rewrite andb_comm. unfold worker_rank. f_equal. unfold at_host.
      destruct (Nat.eqb_spec (nth g place 0) k) as [E|N]; [rewrite E, Nat.eqb_refl; reflexivity|].
      destruct (Nat.eqb_spec (addr (nth g place 0)) (addr k)) as [E|]; [|reflexivity].
      exfalso. apply N. apply addr_inj; auto; apply nth_In; unfold n in *; lia.
    + apply aget_In, topo_get, L.
Qed.

Lemma resources_sum ms : list_sum (map snd (cluster_resources place addr ms)) = length (workers place addr ms).
Proof.
  unfold cluster_resources, workers. generalize (topology place addr) as t.
  induction t as [|hm t IH]; simpl; [reflexivity|]. rewrite app_length, IH. reflexivity.
Qed.

Lemma roles shm : place <> [] -> exists ms, monitor_processes place addr shm = Some ms /\
  Permutation (0 :: ms ++ workers place addr ms) (seq 0 (length place)) /\
  (shm = false -> ms = [1] /\ forall r, get_monitor place addr shm r = Some 1) /\
  (shm = true -> forall r, r < length place -> exists m, get_monitor place addr shm r = Some m /\ In m ms /\
     nth m place 0 = nth r place 0 /\
     forall m', In m' ms -> nth m' place 0 = nth r place 0 -> m' = m).
Proof using addr_inj two.
  intros P. exists (mons shm). split; [apply monitors_are|]. split; [apply partition, P|]. split.
  - intros ->. split; reflexivity.
  - intros ->. intros r L. exists (second (addr (nth r place 0))). split; [apply get_monitor_shm, L|].
    split; [apply in_mons_shm; eauto|]. split; [apply second_host, L|].
    intros m' I E. apply in_mons_shm in I as (r' & L' & ->). destruct (second_host r' L') as (_ & H).
    rewrite H in E. rewrite E. reflexivity.
Qed.

Lemma resources shm : place <> [] -> forall ms, monitor_processes place addr shm = Some ms ->
  NoDup (map fst (cluster_resources place addr ms)) /\
  (forall h, In h (map fst (cluster_resources place addr ms)) <-> exists k, In k place /\ h = addr k) /\
  (forall k, In k place -> aget (addr k) (cluster_resources place addr ms) =
     Some (length (filter (fun r => Nat.eqb (nth r place 0) k) (workers place addr ms)))) /\
  list_sum (map snd (cluster_resources place addr ms)) + 1 + length ms = length place.
Proof using addr_inj two.
  intros P ms M. rewrite monitors_are in M. injection M as <-. repeat split.
  - unfold cluster_resources. rewrite map_map. simpl. exact topo_nodup.
  - unfold cluster_resources. rewrite map_map. simpl. intros I. apply topo_host in I as (r & L & ->).
    exists (nth r place 0). split; [apply nth_In, L | reflexivity].
  - intros (k & I & ->). unfold cluster_resources. rewrite map_map. simpl. apply topo_host.
    apply in_place in I as (r & L & <-). eauto.
  - intros k. apply resources_get.
  - rewrite resources_sum. assert (H := Permutation_length (partition shm P)). simpl in H.
    rewrite app_length, seq_length in H. unfold n in H. lia.
Qed.

End Topo.

Lemma partition_one place addr :
  (forall a b, In a place -> In b place -> addr a = addr b -> a = b) -> 2 <= length place ->
  Permutation (0 :: [1] ++ workers place addr [1]) (seq 0 (length place)).
Proof.
  intros A L. apply NoDup_Permutation.
  - constructor.
    + simpl. intros [I|I]; [lia|]. apply in_workers in I; auto. lia.
    + simpl. constructor; [|apply nodup_workers, A]. intros I. apply in_workers in I; auto. simpl in I. tauto.
  - apply seq_NoDup.
  - intros r. rewrite in_seq. simpl. rewrite in_workers by exact A. simpl. split.
    + intros [<-|[<-|I]]; lia.
    + intros H. destruct r as [|[|r]]; auto. right. right. split; [lia|]. split; [lia|]. intros [X|[]]; lia.
Qed.

(** Without the shared store single processes on a machine are fine. *)
Lemma roles_any place addr :
  (forall a b, In a place -> In b place -> addr a = addr b -> a = b) ->
  forall shm, 2 <= length place -> (shm = true -> forall k, In k place -> 2 <= count_occ Nat.eq_dec place k) ->
  exists ms, monitor_processes place addr shm = Some ms /\
  Permutation (0 :: ms ++ workers place addr ms) (seq 0 (length place)) /\
  (shm = false -> ms = [1] /\ forall r, get_monitor place addr shm r = Some 1) /\
  (shm = true -> forall r, r < length place -> exists m, get_monitor place addr shm r = Some m /\ In m ms /\
     nth m place 0 = nth r place 0 /\
     forall m', In m' ms -> nth m' place 0 = nth r place 0 -> m' = m).
Proof.
  intros A [|] L T.
  - apply roles; auto. intros ->. simpl in L. lia.
  - exists [1]. split; [reflexivity|]. split; [apply partition_one; auto|]. split; [auto|discriminate].
Qed.

Lemma resources_any place addr :
  (forall a b, In a place -> In b place -> addr a = addr b -> a = b) ->
  forall shm, 2 <= length place -> (shm = true -> forall k, In k place -> 2 <= count_occ Nat.eq_dec place k) ->
  forall ms, monitor_processes place addr shm = Some ms ->
  NoDup (map fst (cluster_resources place addr ms)) /\
  (forall h, In h (map fst (cluster_resources place addr ms)) <-> exists k, In k place /\ h = addr k) /\
  (forall k, In k place -> aget (addr k) (cluster_resources place addr ms) =
     Some (length (filter (fun r => Nat.eqb (nth r place 0) k) (workers place addr ms)))) /\
  list_sum (map snd (cluster_resources place addr ms)) + 1 + length ms = length place.
Proof.
  intros A [|] L T ms M.
  - apply resources with (shm := true); auto. intros ->. simpl in L. lia.
  - injection M as <-. repeat split.
    + unfold cluster_resources. rewrite map_map. simpl. apply topo_nodup, A.
    + unfold cluster_resources. rewrite map_map. simpl. intros I. apply topo_host in I as (r & R & ->); auto.
      exists (nth r place 0). split; [apply nth_In, R | reflexivity].
    + intros (k & I & ->). unfold cluster_resources. rewrite map_map. simpl. apply topo_host; auto.
      apply in_place in I as (r & R & <-). eauto.
    + intros k. apply resources_get, A.
    + rewrite resources_sum. assert (H := Permutation_length (partition_one place addr A L)). simpl in H.
      rewrite seq_length in H. simpl. unfold MONITOR in *. lia.
Qed.

(** Rank 1 is the root's monitor if it is on the root's machine. *)
Lemma root_monitor place addr :
  (forall a b, In a place -> In b place -> addr a = addr b -> a = b) ->
  forall shm, 2 <= length place -> (shm = true -> forall k, In k place -> 2 <= count_occ Nat.eq_dec place k) ->
  (shm = true -> nth 1 place 0 = nth 0 place 0) -> get_monitor place addr shm 0 = Some 1.
Proof.
  intros A [|] L T E; [|reflexivity]. rewrite get_monitor_shm by (auto; lia). f_equal.
  unfold second, on. specialize (E eq_refl). destruct place as [|a [|b l]]; simpl in *; try lia. subst b.
  unfold at_host. simpl. rewrite Nat.eqb_refl. reflexivity.
Qed.

Lemma count_hosts place addr :
  (forall a b, In a place -> In b place -> addr a = addr b -> a = b) ->
  (forall k, In k place -> 2 <= count_occ Nat.eq_dec place k) -> place <> [] ->
  forall ms, monitor_processes place addr true = Some ms -> length ms = length (nodup Nat.eq_dec place).
Proof.
  intros A T P ms M. rewrite (monitors_are place addr A T) in M. injection M as <-. unfold mons. rewrite map_length.
  rewrite <- (map_length fst), <- (map_length addr (nodup Nat.eq_dec place)). apply Permutation_length.
  apply NoDup_Permutation.
  - apply topo_nodup, A.
  - apply nodup_map_inj; [apply NoDup_nodup|]. intros x y X Y. apply nodup_In in X, Y. auto.
  - intros h. rewrite topo_host by exact A. rewrite in_map_iff. split.
    + intros (r & L & ->). exists (nth r place 0). split; [reflexivity|]. apply nodup_In, nth_In, L.
    + intros (k & <- & I). apply nodup_In in I. apply in_place in I as (r & L & <-). eauto.
Qed.

Lemma too_few place addr :
  (forall a b, In a place -> In b place -> addr a = addr b -> a = b) ->
  forall k, count_occ Nat.eq_dec place k = 1 -> monitor_processes place addr true = None.
Proof.
  intros A k C. unfold monitor_processes.
  assert (I : In k place) by (apply (count_occ_In Nat.eq_dec); lia).
  assert (L := length_on place addr A k I). rewrite C in L.
  apply in_place in I as (r & R & <-). assert (G := topo_get place addr A r R). apply aget_In in G.
  revert G. generalize (topology place addr) as t. induction t as [|[h m] t IH]; simpl; [tauto|].
  intros [E|I].
  - injection E as -> ->. unfold entry. rewrite map_length, L. reflexivity.
  - destruct m as [|x [|y m]]; try reflexivity. simpl. rewrite (IH I).
    match goal with |- match ?e with _ => _ end = _ => destruct e; reflexivity end.
Qed.

(** Spawning. *)
Lemma sum_slots c h : h <> 0 -> list_sum (slots_per_host c h) = c + 1.
Proof.
  intros H. unfold slots_per_host. set (s := c + 1).
  assert (A : forall q m k, list_sum (map (fun i => q + (if Nat.ltb i m then 1 else 0)) (seq 0 k)) = q * k + Nat.min m k).
  { intros q m. induction k as [|k IH]; [simpl; lia|]. rewrite seq_S, map_app, list_sum_app, IH. simpl.
    destruct (Nat.ltb_spec k m); lia. }
  rewrite A. assert (D := Nat.div_mod s h H). assert (M := Nat.mod_upper_bound s h H). lia.
Qed.

Lemma slots_fair c h s s' : In s (slots_per_host c h) -> In s' (slots_per_host c h) -> s <= S s'.
Proof.
  unfold slots_per_host. intros A B. apply in_map_iff in A as (i & <- & _). apply in_map_iff in B as (j & <- & _).
  destruct (Nat.ltb i ((c + 1) mod h)), (Nat.ltb j ((c + 1) mod h)); lia.
Qed.

Lemma slots_two cpu h : h <> 0 ->
  (forall s, In s (slots_per_host (nprocs_to_spawn true cpu h) h) -> 2 <= s) <-> h <= cpu + 1.
Proof.
  intros H. simpl. set (c := cpu + h). split.
  - intros A. destruct (le_lt_dec h (cpu + 1)) as [|G]; [assumption|]. exfalso.
    assert (Q : (c + 1) / h = 1). { unfold c. symmetry. apply (Nat.div_unique _ _ 1 (cpu + 1)); lia. }
    assert (M : (c + 1) mod h = cpu + 1). { unfold c. symmetry. apply (Nat.mod_unique _ _ 1 (cpu + 1)); lia. }
    specialize (A 1). assert (2 <= 1); [|lia]. apply A. unfold slots_per_host. rewrite Q, M.
    apply in_map_iff. exists (h - 1). rewrite in_seq. destruct (Nat.ltb_spec (h - 1) (cpu + 1)); [lia|]. lia.
  - intros L s I. unfold slots_per_host in I. apply in_map_iff in I as (i & <- & _).
    assert (2 <= (c + 1) / h); [|lia]. apply Nat.div_le_lower_bound; [exact H|]. unfold c. lia.
Qed.

Lemma spawned_workers place addr shm cpu hosts :
  (forall a b, In a place -> In b place -> addr a = addr b -> a = b) ->
  (shm = true -> forall k, In k place -> 2 <= count_occ Nat.eq_dec place k) ->
  length place = S (nprocs_to_spawn shm cpu hosts) ->
  (shm = true -> length (nodup Nat.eq_dec place) = hosts) ->
  exists ms, monitor_processes place addr shm = Some ms /\ length (workers place addr ms) = cpu.
Proof.
  intros A T L H. assert (P : 2 <= length place) by (rewrite L; unfold nprocs_to_spawn; destruct shm; [|lia];
    specialize (H eq_refl); destruct hosts; [destruct place; [discriminate|]; apply length_zero_iff_nil in H|lia];
    exfalso; assert (X : In n (nodup Nat.eq_dec (n :: place))) by (apply nodup_In; simpl; auto); rewrite H in X; destruct X).
  destruct (roles_any place addr A shm P T) as (ms & M & R & F & _). exists ms. split; [exact M|].
  apply Permutation_length in R. simpl in R. rewrite app_length, seq_length, L in R.
  destruct shm; simpl in R.
  - rewrite (count_hosts place addr A (T eq_refl)) with (ms := ms) in R; auto; [rewrite (H eq_refl) in R; lia|intros ->; simpl in P; lia].
  - destruct (F eq_refl) as (-> & _). simpl in R. lia.
Qed.

(** Dask and Ray. *)
Definition host_total (h : nat) (ws : list (nat * nat)) : nat :=
  list_sum (map snd (filter (fun w => Nat.eqb (fst w) h) ws)).

Definition dask_table (ws : list (nat * nat)) :=
  fold_left (fun t w => aset (fst w) (match aget (fst w) t with Some c => c | None => 0 end + snd w) t) ws [].

Lemma dask_table_get ws h :
  aget h (dask_table ws) = if mem h (map fst ws) then Some (host_total h ws) else None.
Proof.
  unfold dask_table. rewrite <- fold_left_rev_right.
  assert (P : host_total h ws = host_total h (rev ws) /\ mem h (map fst ws) = mem h (map fst (rev ws))).
  { split.
    - unfold host_total. assert (A : forall l l', Permutation l l' -> list_sum l = list_sum l').
      { induction 1; simpl; lia. }
      apply A. apply Permutation_map, perm_filter, Permutation_rev.
    - destruct (mem h (map fst ws)) eqn:E, (mem h (map fst (rev ws))) eqn:F; auto; exfalso.
      + apply mem_In in E. rewrite map_rev in F. apply in_rev in E. apply mem_In in E. congruence.
      + apply mem_In in F. rewrite map_rev, <- in_rev in F. apply mem_In in F. congruence. }
  destruct P as (-> & ->). generalize (rev ws). clear ws. induction l as [|[k c] l IH]; [reflexivity|].
  cbn [fold_right fst snd map].
  destruct (Nat.eq_dec h k) as [->|N].
  - rewrite aget_aset_same, IH. unfold mem at 2. simpl. rewrite Nat.eqb_refl. simpl. f_equal.
    unfold host_total at 2. simpl. rewrite Nat.eqb_refl. simpl. fold (host_total k l).
    destruct (mem k (map fst l)) eqn:E; [lia|]. unfold host_total. clear -E.
    replace (filter (fun w => Nat.eqb (fst w) k) l) with (@nil (nat * nat)); [simpl; lia|].
    induction l as [|[a b] l IH]; [reflexivity|]. simpl in *. unfold mem in E. simpl in E.
    apply orb_false_iff in E as (E1 & E2). rewrite Nat.eqb_sym in E1. rewrite E1. apply IH, E2.
  - rewrite aget_aset_other by exact N. rewrite IH. unfold mem. simpl.
    destruct (Nat.eqb_spec h k); [contradiction|]. simpl.
    unfold host_total. simpl. destruct (Nat.eqb_spec k h); [congruence | reflexivity].
Qed.

Lemma aget_adel_same {V} k (l : list (nat * V)) : aget k (adel k l) = None.
Proof.
  apply aget_None. unfold adel. intros I. apply in_map_iff in I as ((a, b) & E & I). simpl in E. subst.
  apply filter_In in I as (_ & I). simpl in I. rewrite Nat.eqb_refl in I. discriminate.
Qed.

Lemma aget_adel_other {V} k k' (l : list (nat * V)) : k <> k' -> aget k (adel k' l) = aget k l.
Proof.
  intros N. induction l as [|[a b] l IH]; [reflexivity|]. simpl.
  destruct (Nat.eqb_spec k' a) as [->|M]; simpl; [rewrite IH; destruct (Nat.eqb_spec k a); [contradiction|reflexivity]|].
  destruct (Nat.eqb k a); [reflexivity | exact IH].
Qed.

(** No worker is known by this machine's proper address when some are known as localhost. *)
Lemma dask_hosts ip ws : ip <> LOCALHOST ->
  (In LOCALHOST (map fst ws) -> ~ In ip (map fst ws)) ->
  let real h := if Nat.eqb h LOCALHOST then ip else h in
  let ws' := map (fun w => (real (fst w), snd w)) ws in
  forall h, aget h (dask_resources ip ws) = if mem h (map fst ws') then Some (host_total h ws') else None.
Proof.
  intros Ip S real ws' h. unfold dask_resources. fold (dask_table ws).
  assert (N0 : ~ In LOCALHOST (map fst ws')).
  { unfold ws'. rewrite map_map. simpl. intros I. apply in_map_iff in I as (w & E & _). unfold real in E.
    destruct (Nat.eqb_spec (fst w) LOCALHOST); congruence. }
  assert (O : h <> ip -> h <> LOCALHOST -> aget h (dask_table ws) = if mem h (map fst ws') then Some (host_total h ws') else None).
  { intros A B. rewrite dask_table_get. unfold ws', host_total. rewrite map_map. simpl.
    assert (X : forall k, Nat.eqb (real k) h = Nat.eqb k h).
    { intros k. unfold real. destruct (Nat.eqb_spec k LOCALHOST) as [->|]; [|reflexivity].
      destruct (Nat.eqb_spec ip h); [congruence|]. destruct (Nat.eqb_spec LOCALHOST h); congruence. }
    assert (M : mem h (map (fun w => real (fst w)) ws) = mem h (map fst ws)).
    { unfold mem. clear -X. induction ws as [|w r IH]; [reflexivity|]. simpl. rewrite IH. f_equal.
      rewrite Nat.eqb_sym, X. apply Nat.eqb_sym. }
    rewrite M. destruct (mem h (map fst ws)); [|reflexivity]. f_equal. f_equal. clear -X.
    induction ws as [|w r IH]; [reflexivity|]. simpl. rewrite X. destruct (Nat.eqb (fst w) h); simpl; rewrite IH; reflexivity. }
  rewrite dask_table_get. destruct (mem LOCALHOST (map fst ws)) eqn:E.
  - apply mem_In in E. specialize (S E). destruct (Nat.eq_dec h ip) as [->|N].
    + rewrite aget_aset_same.
      assert (X : forall w, In w ws -> Nat.eqb (real (fst w)) ip = Nat.eqb (fst w) LOCALHOST).
      { intros w W. unfold real. destruct (Nat.eqb_spec (fst w) LOCALHOST); [apply Nat.eqb_refl|].
        destruct (Nat.eqb_spec (fst w) ip) as [F|]; [|reflexivity]. exfalso. apply S. rewrite <- F. apply in_map, W. }
      assert (M : mem ip (map fst ws') = true).
      { apply mem_In. unfold ws'. rewrite map_map. apply in_map_iff in E as (w & F & W). apply in_map_iff.
        exists w. split; [|exact W]. simpl. unfold real. rewrite F. reflexivity. }
      rewrite M. f_equal. unfold host_total, ws'. clear -X. induction ws as [|w r IH]; [reflexivity|]. simpl.
      rewrite X by (left; reflexivity). destruct (Nat.eqb (fst w) LOCALHOST); simpl; rewrite IH; auto;
      intros; apply X; right; assumption.
    + rewrite aget_aset_other by exact N. destruct (Nat.eq_dec h LOCALHOST) as [->|N'].
      * rewrite aget_adel_same. destruct (mem LOCALHOST (map fst ws')) eqn:F; [|reflexivity].
        apply mem_In in F. contradiction.
      * rewrite aget_adel_other by exact N'. apply O; assumption.
  - destruct (Nat.eq_dec h LOCALHOST) as [->|N'].
    + rewrite dask_table_get, E. destruct (mem LOCALHOST (map fst ws')) eqn:F; [|reflexivity].
      apply mem_In in F. contradiction.
    + assert (W : ws' = ws).
      { unfold ws'. rewrite <- (map_id ws) at 2. apply map_ext_in. intros (a, b) I. simpl. f_equal. unfold real.
        destruct (Nat.eqb_spec a LOCALHOST) as [->|]; [|reflexivity]. exfalso.
        assert (In LOCALHOST (map fst ws)) by apply (in_map fst _ _ I). apply mem_In in H. congruence. }
      rewrite W. apply dask_table_get.
Qed.

Lemma ray_hosts nodes h c : NoDup (map fst nodes) -> In (h, c) nodes ->
  aget h (ray_resources nodes) = Some (match c with Some x => x | None => 1 end).
Proof.
  intros D I. unfold ray_resources.
  assert (A : forall l t, ~ In h (map fst l) -> aget h (fold_left (fun t n =>
     aset (fst n) (match snd n with Some c => c | None => 1 end) t) l t) = aget h t).
  { induction l as [|[k v] l IH]; intros t N; [reflexivity|]. simpl. rewrite IH by (simpl in N; auto).
    rewrite aget_aset_other; [reflexivity|]. intros ->. apply N. left; reflexivity. }
  assert (B : forall l t, NoDup (map fst l) -> In (h, c) l -> aget h (fold_left (fun t n =>
     aset (fst n) (match snd n with Some c => c | None => 1 end) t) l t) = Some (match c with Some x => x | None => 1 end)).
  { induction l as [|[k v] l IH]; intros t N J; [contradiction|]. simpl. inversion_clear N. destruct J as [E|J].
    - injection E as -> ->. rewrite A by assumption. apply aget_aset_same.
    - apply IH; assumption. }
  apply B; assumption.
Qed.
