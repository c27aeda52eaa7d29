(** Proofs about data IDs. *)
From Verif Require Import Lib ShmModel ShmRaceProofs DataIdModel.
From Coq Require Import String Ascii DecimalString DecimalNat.

(** ** Names *)
Section Names.
Open Scope string_scope.

Fixpoint all_digits (s : string) : Prop :=
  match s with
  | EmptyString => True
  | String a r => a <> "_"%char /\ a <> ")"%char /\ all_digits r
  end.

Lemma digits_uint u : all_digits (NilEmpty.string_of_uint u).
Proof. induction u; simpl; repeat split; auto; discriminate. Qed.

Lemma digits_nat n : all_digits (str_nat n).
Proof.
  unfold str_nat, NilZero.string_of_uint. destruct (Nat.to_uint n) eqn:E;
    [simpl; repeat split; discriminate|..]; apply digits_uint.
Qed.

Lemma int_str n : int_of (str_nat n) = Some n.
Proof.
  unfold int_of, str_nat. rewrite NilZero.usu.
  - simpl. f_equal. apply Unsigned.of_to.
  - intros H. assert (E := Unsigned.of_to n). rewrite H in E. simpl in E. subst n. discriminate H.
Qed.

Lemma str_inj m n : str_nat m = str_nat n -> m = n.
Proof. intros H. assert (E : int_of (str_nat m) = int_of (str_nat n)) by now rewrite H.
  rewrite !int_str in E. now injection E. Qed.

Lemma drop_digits s r : all_digits s -> drop_char ")" (s ++ r) = s ++ drop_char ")" r.
Proof.
  induction s as [|a s IH]; simpl; auto. intros [H1 [H2 H3]].
  destruct (Ascii.eqb_spec a ")"); [contradiction|]. now rewrite IH.
Qed.

Lemma split_digits s r : all_digits s ->
  split_char "_" (s ++ String "_" r) = s :: split_char "_" r.
Proof.
  induction s as [|a s IH]; intros H.
  - reflexivity.
  - destruct H as [H1 [H2 H3]]. cbn [append split_char].
    destruct (Ascii.eqb_spec a "_"); [contradiction|]. now rewrite IH.
Qed.

Lemma split_last s : all_digits s -> split_char "_" s = [s].
Proof.
  induction s as [|a s IH]; intros H.
  - reflexivity.
  - destruct H as [H1 [H2 H3]]. cbn [split_char].
    destruct (Ascii.eqb_spec a "_"); [contradiction|]. now rewrite IH.
Qed.

Lemma app_nil_s s : s ++ "" = s.
Proof. induction s; simpl; congruence. Qed.

Lemma parse_repr d : parse_data_id (id_repr d) = Some d.
Proof.
  destruct d as [r n]. unfold parse_data_id, id_repr, id_name. cbn [fst snd].
  assert (Hr := digits_nat r). assert (Hn := digits_nat n).
  assert (Dr := int_str r). assert (Dn := int_str n).
  assert (E : drop_char ")" ("DataID(" ++ ("rank_" ++ str_nat r ++ "_id_" ++ str_nat n) ++ ")")
              = "DataID(rank" ++ String "_" (str_nat r ++ String "_" ("id" ++ String "_" (str_nat n)))).
  { cbn [append drop_char Ascii.eqb]. repeat f_equal. simpl.
    assert (A : forall a b c : string, (a ++ b) ++ c = a ++ (b ++ c)).
    { induction a; simpl; intros; congruence. }
    rewrite A. rewrite drop_digits by assumption. f_equal. simpl. repeat f_equal.
    rewrite drop_digits by assumption. simpl. apply app_nil_s. }
  rewrite E. rewrite split_digits by (simpl; repeat split; discriminate).
  rewrite split_digits by assumption.
  rewrite split_digits by (simpl; repeat split; discriminate).
  rewrite split_last by assumption. simpl. now rewrite Dr, Dn.
Qed.

Lemma repr_inj d d' : id_repr d = id_repr d' -> d = d'.
Proof.
  intros H. assert (E : parse_data_id (id_repr d) = parse_data_id (id_repr d')) by now rewrite H.
  rewrite !parse_repr in E. now injection E.
Qed.

Lemma name_inj d d' : id_name d = id_name d' -> d = d'.
Proof. intros H. apply repr_inj. unfold id_repr. now rewrite H. Qed.

End Names.

(** ** Counters and uniqueness *)
Lemma construct_counter p d g : counter (construct p d g) = counter p.
Proof. unfold construct, id_new. destruct (find_key (insts p) d); reflexivity. Qed.

Lemma construct_collected p d g : collected (construct p d g) = collected p.
Proof. unfold construct, id_new. destruct (find_key (insts p) d); reflexivity. Qed.

Lemma drop_counter p k : counter (drop_handle p k) = counter p.
Proof.
  unfold drop_handle. destruct (nth_error (handles p) k); auto.
  destruct (existsb _ _); auto. destruct (find _ _); auto.
Qed.

Lemma fold_construct_counter l : forall p,
  counter (fold_left (fun z d => construct z d false) l p) = counter p.
Proof. induction l; simpl; intros; auto. rewrite IHl. apply construct_counter. Qed.

Lemma fold_construct_collected l : forall p,
  collected (fold_left (fun z d => construct z d false) l p) = collected p.
Proof. induction l; simpl; intros; auto. rewrite IHl. apply construct_collected. Qed.

Lemma nth_upd_fun {A} (l : list A) f : forall i j,
  nth_error (upd_nth i f l) j =
  if Nat.eqb i j then option_map f (nth_error l j) else nth_error l j.
Proof.
  induction l as [|a l IH]; intros [|i] [|j]; simpl; auto.
  destruct (Nat.eqb i j); reflexivity.
Qed.

Definition cnt (ps : list proc) (p : rank) : nat :=
  match nth_error ps p with Some x => counter x | None => 0 end.

Lemma cnt_step ps o p : cnt ps p <= cnt (dstep ps o) p.
Proof.
  unfold cnt. destruct o as [q|q d|q k|q q']; simpl.
  - rewrite nth_upd_fun. destruct (Nat.eqb q p); [|lia].
    destruct (nth_error ps p); simpl; [|lia]. rewrite construct_counter. lia.
  - destruct (generated ps d); [|lia]. rewrite nth_upd_fun. destruct (Nat.eqb q p); [|lia].
    destruct (nth_error ps p) as [x|]; simpl; [|lia]. unfold unpickle, id_new.
    destruct (find_key (insts x) d); simpl; lia.
  - rewrite nth_upd_fun. destruct (Nat.eqb q p); [|lia].
    destruct (nth_error ps p); simpl; [|lia]. rewrite drop_counter. lia.
  - destruct (Nat.eqb q q'); [lia|]. destruct (nth_error ps q) as [x|]; [|lia].
    rewrite nth_upd_fun. destruct (Nat.eqb q' p); [|lia].
    destruct (nth_error ps p); simpl; [|lia]. rewrite fold_construct_counter. lia.
Qed.

Lemma created_bound ops : forall ps p n, In (p, n) (created ps ops) -> cnt ps p <= n.
Proof.
  induction ops as [|o ops IH]; simpl; intros ps p n H; [contradiction|].
  apply in_app_or in H. destruct H as [H|H].
  - destruct o; try contradiction. destruct (nth_error ps p0) as [x|] eqn:E; [|contradiction].
    destruct H as [H|[]]. injection H as -> <-. unfold cnt. rewrite E. lia.
  - apply IH in H. pose proof (cnt_step ps o p). lia.
Qed.

Lemma created_nodup ops : forall ps, NoDup (created ps ops).
Proof.
  induction ops as [|o ops IH]; simpl; intros ps; [constructor|].
  assert (T : NoDup (created (dstep ps o) ops)) by apply IH.
  destruct o; simpl; auto. destruct (nth_error ps p) as [x|] eqn:E; simpl; auto.
  constructor; auto. intros H. apply created_bound in H. unfold cnt in H. simpl in H.
  rewrite nth_upd_fun, Nat.eqb_refl, E in H. simpl in H. rewrite construct_counter in H. lia.
Qed.

Lemma names_nodup n ops :
  NoDup (created (repeat proc_init n) ops) /\
  NoDup (map id_name (created (repeat proc_init n) ops)).
Proof.
  split; [apply created_nodup|].
  apply FinFun.Injective_map_NoDup; [intros a b; apply name_inj|apply created_nodup].
Qed.

(** ** Identity and death *)
Record PI (r : rank) (x : proc) : Prop := {
  pi_addr : forall i j, In i (insts x) -> In j (insts x) -> addr i = addr j -> i = j;
  pi_key : forall i j, In i (insts x) -> In j (insts x) -> key i = key j -> i = j;
  pi_next : forall i, In i (insts x) -> addr i < next_addr x;
  pi_handles : forall a, In a (handles x) -> exists i, In i (insts x) /\ addr i = a;
  pi_alive : forall i, In i (insts x) -> In (addr i) (handles x);
  pi_gc : forall i, In i (insts x) -> has_gc i = true ->
            fst (key i) = r /\ snd (key i) < counter x /\ ~ In (key i) (collected x);
  pi_coll : forall d, In d (collected x) -> fst d = r /\ snd d < counter x;
  pi_nodup : NoDup (collected x);
  pi_own : forall n, n < counter x ->
            (exists i, In i (insts x) /\ key i = (r, n) /\ has_gc i = true) \/ In (r, n) (collected x);
  pi_ownkey : forall i, In i (insts x) -> fst (key i) = r -> snd (key i) < counter x
}.

Lemma find_key_some l d i : find_key l d = Some i -> In i l /\ key i = d.
Proof.
  intros H. apply find_some in H. destruct H as [H1 H2]. apply did_eqb_eq in H2. auto.
Qed.

Lemma find_key_none l d : find_key l d = None -> forall i, In i l -> key i <> d.
Proof.
  intros H i Hi E. pose proof (find_none _ _ H i Hi) as F. simpl in F.
  rewrite E, did_eqb_refl in F. discriminate.
Qed.

Lemma PI_new r x d : PI r x -> (fst d = r -> snd d < counter x) -> PI r (fst (id_new x d)).
Proof.
  intros P Hd. unfold id_new. destruct (find_key (insts x) d) as [i|] eqn:E.
  - apply find_key_some in E. destruct E as [Hi Hk]. destruct P.
    constructor; cbn [fst counter insts handles next_addr collected]; auto.
    + intros a Ha. apply in_app_or in Ha. destruct Ha as [Ha|[<-|[]]]; eauto.
    + intros j Hj. apply in_or_app. left. auto.
  - pose proof (find_key_none _ _ E) as N. destruct P.
    constructor; cbn [fst counter insts handles next_addr collected]; auto.
    + intros i j Hi Hj Ea. apply in_app_or in Hi. apply in_app_or in Hj.
      destruct Hi as [Hi|[<-|[]]], Hj as [Hj|[<-|[]]]; auto; simpl in *.
      * apply pi_next0 in Hi. lia.
      * apply pi_next0 in Hj. lia.
    + intros i j Hi Hj Ea. apply in_app_or in Hi. apply in_app_or in Hj.
      destruct Hi as [Hi|[<-|[]]], Hj as [Hj|[<-|[]]]; auto; simpl in *.
      * exfalso. exact (N i Hi Ea).
      * exfalso. exact (N j Hj (eq_sym Ea)).
    + intros i Hi. apply in_app_or in Hi. destruct Hi as [Hi|[<-|[]]]; simpl; [apply pi_next0 in Hi|]; lia.
    + intros a Ha. apply in_app_or in Ha. destruct Ha as [Ha|[<-|[]]].
      * destruct (pi_handles0 a Ha) as [i [Hi Ei]]. exists i. split; auto. apply in_or_app; auto.
      * exists {| addr := next_addr x; key := d; has_gc := false |}. simpl. split; auto.
        apply in_or_app; simpl; auto.
    + intros i Hi. apply in_or_app. apply in_app_or in Hi. destruct Hi as [Hi|[<-|[]]]; simpl; auto.
    + intros i Hi Hg. apply in_app_or in Hi. destruct Hi as [Hi|[<-|[]]]; auto. discriminate.
    + intros n Hn. destruct (pi_own0 n Hn) as [[i [Hi H]]|H]; auto. left. exists i. split; auto.
      apply in_or_app; auto.
    + intros i Hi Hf. apply in_app_or in Hi. destruct Hi as [Hi|[<-|[]]]; auto.
Qed.

Lemma id_new_in x d : exists i, In i (insts (fst (id_new x d))) /\ key i = d /\ addr i = snd (id_new x d).
Proof.
  unfold id_new. destruct (find_key (insts x) d) as [i|] eqn:E.
  - apply find_key_some in E. exists i. simpl. tauto.
  - eexists. simpl. split; [apply in_or_app; right; left; reflexivity|auto].
Qed.

(** Resetting [_gc] of an object of another process. *)
Lemma PI_init_foreign r x a i0 : PI r x -> In i0 (insts x) -> addr i0 = a -> fst (key i0) <> r ->
  PI r (id_init x a false).
Proof.
  intros P H0 Ha Hf. set (g := fun i => if Nat.eqb (addr i) a
       then {| addr := a; key := key i; has_gc := false |} else i).
  assert (Gk : forall i, key (g i) = key i).
  { intros i. unfold g. destruct (Nat.eqb (addr i) a); reflexivity. }
  assert (Ga : forall i, addr (g i) = addr i).
  { intros i. unfold g. destruct (Nat.eqb_spec (addr i) a); auto. }
  assert (IN : forall i, In i (map g (insts x)) -> exists j, In j (insts x) /\ i = g j).
  { intros i Hi. apply in_map_iff in Hi. destruct Hi as [j [<- Hj]]. eauto. }
  destruct P. unfold id_init. fold g. constructor; cbn [counter insts handles next_addr collected]; auto.
  - intros i j Hi Hj E. destruct (IN i Hi) as [i' [Hi' ->]]. destruct (IN j Hj) as [j' [Hj' ->]].
    rewrite !Ga in E. f_equal. auto.
  - intros i j Hi Hj E. destruct (IN i Hi) as [i' [Hi' ->]]. destruct (IN j Hj) as [j' [Hj' ->]].
    rewrite !Gk in E. f_equal. auto.
  - intros i Hi. destruct (IN i Hi) as [i' [Hi' ->]]. rewrite Ga. auto.
  - intros b Hb. destruct (pi_handles0 b Hb) as [i [Hi E]]. exists (g i). split; [now apply in_map|].
    now rewrite Ga.
  - intros i Hi. destruct (IN i Hi) as [i' [Hi' ->]]. rewrite Ga. auto.
  - intros i Hi Hg. destruct (IN i Hi) as [i' [Hi' ->]]. rewrite Gk. apply pi_gc0; auto.
    unfold g in Hg. destruct (Nat.eqb (addr i') a); [discriminate|assumption].
  - intros n Hn. destruct (pi_own0 n Hn) as [[i [Hi [Ek Eg]]]|H]; auto. left. exists (g i).
    split; [now apply in_map|]. rewrite Gk. split; auto. unfold g.
    destruct (Nat.eqb_spec (addr i) a) as [e|n0]; auto. exfalso. apply Hf.
    rewrite (pi_addr0 i0 i); auto; [now rewrite Ek|congruence].
  - intros i Hi Hfi. destruct (IN i Hi) as [i' [Hi' ->]]. rewrite Gk in *. auto.
Qed.

Lemma PI_construct_foreign r x d : PI r x -> fst d <> r -> PI r (construct x d false).
Proof.
  intros P Hd. unfold construct. destruct (id_new_in x d) as [i [Hi [Hk Ha]]].
  assert (P' := PI_new r x d P (fun e => False_ind _ (Hd e))).
  destruct (id_new x d) as [x' a]. cbn [fst snd] in *.
  apply (PI_init_foreign r x' a i); auto. now rewrite Hk.
Qed.

Lemma PI_generate r x : PI r x -> PI r (generate r x).
Proof.
  intros P. unfold generate, construct, id_new.
  destruct (find_key (insts x) (r, counter x)) as [i|] eqn:E.
  { exfalso. apply find_key_some in E. destruct E as [Hi Hk].
    pose proof (pi_ownkey _ _ P i Hi) as F. rewrite Hk in F. simpl in F. specialize (F eq_refl). lia. }
  pose proof (find_key_none _ _ E) as N.
  set (a := next_addr x). set (new := {| addr := a; key := (r, counter x); has_gc := true |}).
  assert (M : map (fun i => if Nat.eqb (addr i) a then {| addr := a; key := key i; has_gc := true |} else i)
                (insts x ++ [{| addr := a; key := (r, counter x); has_gc := false |}]) = insts x ++ [new]).
  { rewrite map_app. f_equal.
    - rewrite <- (map_id (insts x)) at 2. apply map_ext_in. intros i Hi.
      apply (pi_next _ _ P) in Hi. destruct (Nat.eqb_spec (addr i) a); auto. unfold a in *. lia.
    - simpl. rewrite Nat.eqb_refl. reflexivity. }
  unfold id_init. cbn [counter insts handles next_addr collected]. rewrite M. destruct P.
  constructor; cbn [counter insts handles next_addr collected]; auto.
  - intros i j Hi Hj Ea. apply in_app_or in Hi. apply in_app_or in Hj.
    destruct Hi as [Hi|[<-|[]]], Hj as [Hj|[<-|[]]]; auto; simpl in *.
    + apply pi_next0 in Hi. unfold a in *. lia.
    + apply pi_next0 in Hj. unfold a in *. lia.
  - intros i j Hi Hj Ea. apply in_app_or in Hi. apply in_app_or in Hj.
    destruct Hi as [Hi|[<-|[]]], Hj as [Hj|[<-|[]]]; auto; simpl in *.
    + exfalso. exact (N i Hi Ea).
    + exfalso. exact (N j Hj (eq_sym Ea)).
  - intros i Hi. apply in_app_or in Hi. unfold a. destruct Hi as [Hi|[<-|[]]]; simpl; [apply pi_next0 in Hi|]; unfold a in *; lia.
  - intros b Hb. apply in_app_or in Hb. destruct Hb as [Hb|[<-|[]]].
    + destruct (pi_handles0 b Hb) as [i [Hi Ei]]. exists i. split; auto. apply in_or_app; auto.
    + exists new. split; [apply in_or_app; simpl; auto|reflexivity].
  - intros i Hi. apply in_or_app. apply in_app_or in Hi. destruct Hi as [Hi|[<-|[]]]; simpl; auto.
  - intros i Hi Hg. apply in_app_or in Hi. destruct Hi as [Hi|[<-|[]]].
    + destruct (pi_gc0 i Hi Hg) as [A [B C]]. repeat split; auto; try lia.
    + simpl. repeat split; [lia|]. intros Hc. apply pi_coll0 in Hc. simpl in Hc. lia.
  - intros d Hd. apply pi_coll0 in Hd. split; [tauto|]. destruct Hd. lia.
  - intros n Hn. destruct (Nat.eq_dec n (counter x)) as [->|ne].
    + left. exists new. repeat split. apply in_or_app; simpl; auto.
    + destruct (pi_own0 n ltac:(lia)) as [[i [Hi H]]|H]; auto. left. exists i. split; auto.
      apply in_or_app; auto.
  - intros i Hi Hf. apply in_app_or in Hi. destruct Hi as [Hi|[<-|[]]]; [|simpl; lia].
    apply pi_ownkey0 in Hi; auto.
Qed.

Lemma remove_at_In {A} (l : list A) : forall k a x, nth_error l k = Some a -> In x l ->
  x = a \/ In x (remove_at k l).
Proof.
  induction l as [|y l IH]; intros [|k] a x E H; simpl in *; try discriminate.
  - apply Some_inj in E. subst y. destruct H; auto.
  - destruct H as [->|H]; [right; simpl; auto|]. destruct (IH k a x E H); simpl; auto.
Qed.

Lemma remove_at_sub {A} (l : list A) : forall k x, In x (remove_at k l) -> In x l.
Proof.
  induction l as [|y l IH]; intros [|k] x H; simpl in *; auto.
  destruct H; [auto|right; eauto].
Qed.

Lemma PI_drop r x k : PI r x -> PI r (drop_handle x k).
Proof.
  intros P. unfold drop_handle. destruct (nth_error (handles x) k) as [a|] eqn:E; [|assumption].
  destruct (existsb (Nat.eqb a) (remove_at k (handles x))) eqn:Ex.
  - apply existsb_exists in Ex. destruct Ex as [b [Hb Eb]]. apply Nat.eqb_eq in Eb. subst b.
    destruct P. constructor; cbn [counter insts handles next_addr collected]; auto.
    + intros b Hb'. apply pi_handles0. eapply remove_at_sub; eauto.
    + intros i Hi. destruct (remove_at_In _ _ _ _ E (pi_alive0 i Hi)) as [->|H]; auto.
  - destruct (find (fun i => Nat.eqb (addr i) a) (insts x)) as [i0|] eqn:Ef; [|assumption].
    apply find_some in Ef. destruct Ef as [Hi0 Ea]. apply Nat.eqb_eq in Ea.
    assert (NH : ~ In a (remove_at k (handles x))).
    { intros H. assert (existsb (Nat.eqb a) (remove_at k (handles x)) = true); [|congruence].
      apply existsb_exists. exists a. split; auto. apply Nat.eqb_refl. }
    assert (SUB : forall i, In i (filter (fun j => negb (Nat.eqb (addr j) a)) (insts x)) ->
                  In i (insts x) /\ addr i <> a).
    { intros i Hi. apply filter_In in Hi. destruct Hi as [H1 H2]. split; auto.
      apply negb_true_iff, Nat.eqb_neq in H2. auto. }
    destruct P. constructor; cbn [counter insts handles next_addr collected].
    + intros i j Hi Hj. apply SUB in Hi. apply SUB in Hj. apply pi_addr0; tauto.
    + intros i j Hi Hj. apply SUB in Hi. apply SUB in Hj. apply pi_key0; tauto.
    + intros i Hi. apply SUB in Hi. apply pi_next0; tauto.
    + intros b Hb. destruct (pi_handles0 b (remove_at_sub _ _ _ Hb)) as [i [Hi Ei]].
      exists i. split; auto. apply filter_In. split; auto. apply negb_true_iff, Nat.eqb_neq.
      intros e. apply NH. congruence.
    + intros i Hi. apply SUB in Hi. destruct Hi as [Hi Na].
      destruct (remove_at_In _ _ _ _ E (pi_alive0 i Hi)) as [e|H]; [contradiction|auto].
    + intros i Hi Hg. apply SUB in Hi. destruct Hi as [Hi Na].
      destruct (pi_gc0 i Hi Hg) as [A [B C]]. repeat split; auto.
      intros Hc. apply in_app_or in Hc. destruct Hc as [Hc|Hc]; auto.
      destruct (has_gc i0); [|contradiction]. destruct Hc as [Hc|[]].
      apply Na. rewrite <- Ea. f_equal. symmetry. apply pi_key0; auto.
    + intros d Hd. apply in_app_or in Hd. destruct Hd as [Hd|Hd]; auto.
      destruct (has_gc i0) eqn:Hg; [|contradiction]. destruct Hd as [<-|[]].
      destruct (pi_gc0 i0 Hi0 Hg) as [A [B C]]. auto.
    + destruct (has_gc i0) eqn:Hg; [|now rewrite app_nil_r].
      destruct (pi_gc0 i0 Hi0 Hg) as [A [B C]].
      apply (Permutation_NoDup (Permutation_app_comm [key i0] (collected x))). simpl. now constructor.
    + intros n Hn. destruct (pi_own0 n Hn) as [[i [Hi [Ek Eg]]]|H]; [|right; apply in_or_app; auto].
      destruct (Nat.eq_dec (addr i) a) as [e|ne].
      * right. assert (i = i0) by (apply pi_addr0; auto; congruence). subst i0.
        rewrite Eg. apply in_or_app. right. simpl. auto.
      * left. exists i. split; [|auto]. apply filter_In. split; auto.
        now apply negb_true_iff, Nat.eqb_neq.
    + intros i Hi. apply SUB in Hi. apply pi_ownkey0; tauto.
Qed.

Definition CI (ps : list proc) : Prop :=
  forall r x, nth_error ps r = Some x ->
    PI r x /\ (forall i, In i (insts x) -> generated ps (key i) = true).

Lemma generated_mono ps o d : generated ps d = true -> generated (dstep ps o) d = true.
Proof.
  unfold generated. intros H. pose proof (cnt_step ps o (fst d)) as C. unfold cnt in C.
  destruct (nth_error ps (fst d)) as [x|] eqn:E; [|discriminate]. apply Nat.ltb_lt in H.
  assert (L : nth_error (dstep ps o) (fst d) <> None).
  { apply nth_error_Some. assert (List.length (dstep ps o) = List.length ps) as ->.
    { assert (U : forall q f, List.length (upd_nth q f ps) = List.length ps).
      { clear. induction ps; intros [|q] f; simpl; auto. }
      destruct o; simpl; auto.
      - destruct (generated ps d0); auto.
      - destruct (Nat.eqb p q); auto. destruct (nth_error ps p); auto. }
    apply nth_error_Some. congruence. }
  destruct (nth_error (dstep ps o) (fst d)) as [y|]; [|congruence]. apply Nat.ltb_lt. lia.
Qed.

Lemma new_keys x d i : In i (insts (fst (id_new x d))) -> In i (insts x) \/ key i = d.
Proof.
  unfold id_new. destruct (find_key (insts x) d); simpl; auto.
  intros H. apply in_app_or in H. destruct H as [H|[<-|[]]]; auto.
Qed.

Lemma construct_keys x d g i : In i (insts (construct x d g)) ->
  (exists j, In j (insts x) /\ key j = key i) \/ key i = d.
Proof.
  unfold construct. pose proof (new_keys x d) as N. destruct (id_new x d) as [x' a]. simpl in *.
  intros H. apply in_map_iff in H. destruct H as [j [<- Hj]].
  apply N in Hj. destruct (Nat.eqb (addr j) a); simpl; destruct Hj; eauto.
Qed.

Lemma fold_construct_PI r l : forall x, (forall d, In d l -> fst d <> r) -> PI r x ->
  PI r (fold_left (fun z d => construct z d false) l x).
Proof.
  induction l as [|d l IH]; simpl; intros x H P; auto.
  apply IH; auto. apply PI_construct_foreign; auto.
Qed.

Lemma fold_construct_keys l : forall x i,
  In i (insts (fold_left (fun z d => construct z d false) l x)) ->
  (exists j, In j (insts x) /\ key j = key i) \/ In (key i) l.
Proof.
  induction l as [|d l IH]; simpl; intros x i H; eauto.
  apply IH in H. destruct H as [[j [Hj Ej]]|H]; auto.
  apply construct_keys in Hj. destruct Hj as [[j' [Hj' E']]|E']; [left; exists j'; split; congruence|].
  right. left. congruence.
Qed.

Lemma CI_step ps o : CI ps -> CI (dstep ps o).
Proof.
  intros C r x Hx.
  assert (GM := fun d => generated_mono ps o d).
  assert (KEEP : forall y, nth_error ps r = Some y -> x = y ->
             PI r x /\ (forall i, In i (insts x) -> generated (dstep ps o) (key i) = true)).
  { intros y Hy ->. destruct (C r y Hy). split; auto. }
  destruct o as [q|q d|q k|q q']; cbn [dstep] in Hx, GM, KEEP |- *.
  - rewrite nth_upd_fun in Hx. destruct (Nat.eqb_spec q r) as [->|n]; [|eauto].
    destruct (nth_error ps r) as [y|] eqn:Ey; [|discriminate]. simpl in Hx. apply Some_inj in Hx. subst x.
    destruct (C r y Ey) as [P K]. split; [now apply PI_generate|].
    intros i Hi. assert (Hi' : In i (insts (construct y (r, counter y) true))) by exact Hi.
    apply construct_keys in Hi'. destruct Hi' as [[j [Hj Ej]]|Ek].
    + apply GM. rewrite <- Ej. auto.
    + rewrite Ek. unfold generated. simpl. rewrite nth_upd_fun, Nat.eqb_refl, Ey. simpl.
      rewrite construct_counter. apply Nat.ltb_lt. lia.
  - destruct (generated ps d) eqn:Eg; [|eauto].
    rewrite nth_upd_fun in Hx. destruct (Nat.eqb_spec q r) as [->|n]; [|eauto].
    destruct (nth_error ps r) as [y|] eqn:Ey; [|discriminate]. simpl in Hx. apply Some_inj in Hx. subst x.
    destruct (C r y Ey) as [P K]. split.
    + apply PI_new; auto. intros e. unfold generated in Eg. destruct d as [d1 d2]. cbn [fst snd] in *. subst d1.
      rewrite Ey in Eg. now apply Nat.ltb_lt.
    + intros i Hi. apply new_keys in Hi. destruct Hi as [Hi| ->]; auto.
  - rewrite nth_upd_fun in Hx. destruct (Nat.eqb_spec q r) as [->|n]; [|eauto].
    destruct (nth_error ps r) as [y|] eqn:Ey; [|discriminate]. simpl in Hx. apply Some_inj in Hx. subst x.
    destruct (C r y Ey) as [P K]. split; [now apply PI_drop|].
    intros i Hi. apply GM. apply K. revert Hi. unfold drop_handle.
    destruct (nth_error (handles y) k); auto. destruct (existsb _ _); auto.
    destruct (find _ _); auto. simpl. intros Hi. apply filter_In in Hi. tauto.
  - destruct (Nat.eqb_spec q q') as [->|nq]; [eauto|].
    destruct (nth_error ps q) as [z|] eqn:Ez; [|eauto].
    rewrite nth_upd_fun in Hx. destruct (Nat.eqb_spec q' r) as [->|n]; [|eauto].
    destruct (nth_error ps r) as [y|] eqn:Ey; [|discriminate]. simpl in Hx. apply Some_inj in Hx. subst x.
    destruct (C r y Ey) as [P K]. destruct (C q z Ez) as [Pz Kz]. split.
    + apply fold_construct_PI; auto. intros d Hd. apply (pi_coll _ _ Pz) in Hd. intros e. apply nq.
      destruct Hd. congruence.
    + intros i Hi. apply fold_construct_keys in Hi. destruct Hi as [[j [Hj Ej]]|Hk].
      * apply GM. rewrite <- Ej. auto.
      * apply GM. apply (pi_coll _ _ Pz) in Hk. destruct Hk as [H1 H2]. unfold generated.
        rewrite H1, Ez. now apply Nat.ltb_lt.
Qed.

Lemma CI_init n : CI (repeat proc_init n).
Proof.
  intros r x H. apply nth_error_In, repeat_spec in H. subst x. split; [|simpl; tauto].
  constructor; simpl; try tauto; try lia. constructor.
Qed.

Lemma CI_run n ops : CI (drun n ops).
Proof.
  unfold drun. generalize (CI_init n). generalize (repeat proc_init n).
  induction ops as [|o ops IH]; simpl; intros ps C; auto. apply IH. now apply CI_step.
Qed.

(** ** Statements used by DataIdProps.v *)
Definition key_at (x : proc) (a : nat) : option dataid :=
  option_map key (find (fun i => Nat.eqb (addr i) a) (insts x)).

Definition live (x : proc) (d : dataid) : Prop := exists a, In a (handles x) /\ key_at x a = Some d.

Lemma key_at_spec r x a d : PI r x -> (key_at x a = Some d <-> exists i, In i (insts x) /\ addr i = a /\ key i = d).
Proof.
  intros P. unfold key_at. split.
  - destruct (find (fun i => Nat.eqb (addr i) a) (insts x)) as [i|] eqn:E; simpl; [|discriminate].
    intros H. apply Some_inj in H. apply find_some in E. destruct E as [E1 E2].
    apply Nat.eqb_eq in E2. eauto.
  - intros [i [Hi [Ha Hk]]].
    destruct (find (fun i => Nat.eqb (addr i) a) (insts x)) as [j|] eqn:E.
    + apply find_some in E. destruct E as [E1 E2]. apply Nat.eqb_eq in E2. simpl. f_equal.
      rewrite (pi_addr _ _ P j i); auto. congruence.
    + pose proof (find_none _ _ E i Hi) as F. simpl in F. rewrite Ha, Nat.eqb_refl in F. discriminate.
Qed.

Lemma live_inst r x i : PI r x -> In i (insts x) -> live x (key i).
Proof.
  intros P Hi. exists (addr i). split; [now apply (pi_alive _ _ P)|].
  apply (key_at_spec r); eauto.
Qed.

Lemma same_object n ops p x a b d : nth_error (drun n ops) p = Some x ->
  In a (handles x) -> In b (handles x) -> key_at x a = Some d -> key_at x b = Some d -> a = b.
Proof.
  intros Hx Ha Hb Ka Kb. destruct (CI_run n ops p x Hx) as [P _].
  apply (key_at_spec p x a d P) in Ka. apply (key_at_spec p x b d P) in Kb.
  destruct Ka as [i [Hi [<- Ki]]], Kb as [j [Hj [<- Kj]]]. f_equal. apply (pi_key _ _ P); congruence.
Qed.

Lemma handle_key n ops p x a : nth_error (drun n ops) p = Some x -> In a (handles x) ->
  exists d, key_at x a = Some d.
Proof.
  intros Hx Ha. destruct (CI_run n ops p x Hx) as [P _].
  destruct (pi_handles _ _ P a Ha) as [i [Hi E]]. exists (key i). apply (key_at_spec p); eauto.
Qed.

Lemma collected_once n ops p x : nth_error (drun n ops) p = Some x ->
  NoDup (collected x) /\ forall d, In d (collected x) -> fst d = p.
Proof.
  intros Hx. destruct (CI_run n ops p x Hx) as [P _]. split; [apply (pi_nodup _ _ P)|].
  intros d Hd. now apply (pi_coll _ _ P) in Hd.
Qed.

Lemma created_spec ops : forall ps d, In d (created ps ops) ->
  generated (fold_left dstep ops ps) d = true.
Proof.
  induction ops as [|o ops IH]; simpl; intros ps d H; [contradiction|].
  apply in_app_or in H. destruct H as [H|H]; [|auto].
  destruct o; try contradiction. destruct (nth_error ps p) as [x|] eqn:E; [|contradiction].
  destruct H as [<-|[]].
  assert (G : generated (dstep ps (DGen p)) (p, counter x) = true).
  { unfold generated. simpl. rewrite nth_upd_fun, Nat.eqb_refl, E. simpl.
    rewrite construct_counter. apply Nat.ltb_lt. lia. }
  revert G. generalize (dstep ps (DGen p)). generalize (p, counter x). clear.
  induction ops as [|o ops IH]; simpl; intros d ps G; auto. apply IH. now apply generated_mono.
Qed.

Lemma dead_is_collected n ops p x k : nth_error (drun n ops) p = Some x ->
  In (p, k) (created (repeat proc_init n) ops) -> ~ live x (p, k) -> In (p, k) (collected x).
Proof.
  intros Hx Hc Hl. destruct (CI_run n ops p x Hx) as [P _].
  apply created_spec in Hc. unfold generated in Hc. change (fold_left dstep ops (repeat proc_init n)) with (drun n ops) in Hc.
  simpl in Hc. rewrite Hx in Hc. apply Nat.ltb_lt in Hc.
  destruct (pi_own _ _ P k Hc) as [[i [Hi [Ek _]]]|H]; auto. exfalso. apply Hl. rewrite <- Ek.
  now apply (live_inst p).
Qed.

Lemma collected_when_last n ops o p x x' d :
  nth_error (drun n ops) p = Some x -> nth_error (drun n (ops ++ [o])) p = Some x' ->
  ~ In d (collected x) -> In d (collected x') ->
  live x d /\ ~ live x' d /\ exists k, o = DDrop p k.
Proof.
  intros Hx Hx' Hn Hi. destruct (CI_run n ops p x Hx) as [P _].
  destruct (CI_run n _ p x' Hx') as [P' _].
  unfold drun in Hx'. rewrite fold_left_app in Hx'. cbn [fold_left] in Hx'.
  change (fold_left dstep ops (repeat proc_init n)) with (drun n ops) in Hx'.
  assert (SAME : x' = x -> False) by (intros ->; contradiction).
  destruct o as [q|q d0|q k|q q']; simpl in Hx'.
  - exfalso. rewrite nth_upd_fun in Hx'. destruct (Nat.eqb_spec q p) as [->|nq]; [|apply SAME; congruence].
    rewrite Hx in Hx'. simpl in Hx'. apply Some_inj in Hx'. subst x'. simpl in Hi.
    rewrite construct_collected in Hi. contradiction.
  - exfalso. destruct (generated (drun n ops) d0); [|apply SAME; congruence].
    rewrite nth_upd_fun in Hx'. destruct (Nat.eqb_spec q p) as [->|nq]; [|apply SAME; congruence].
    rewrite Hx in Hx'. simpl in Hx'. apply Some_inj in Hx'. subst x'. revert Hi. unfold unpickle, id_new.
    destruct (find_key (insts x) d0); simpl; auto.
  - rewrite nth_upd_fun in Hx'. destruct (Nat.eqb_spec q p) as [->|nq]; [|exfalso; apply SAME; congruence].
    rewrite Hx in Hx'. simpl in Hx'. apply Some_inj in Hx'. revert P' Hi SAME. rewrite <- Hx'.
    intros P' Hi SAME. unfold drop_handle in *.
    destruct (nth_error (handles x) k) as [a|] eqn:Ek; [|exfalso; auto].
    destruct (existsb (Nat.eqb a) (remove_at k (handles x))) eqn:Ex; [exfalso; auto|].
    destruct (find (fun i => Nat.eqb (addr i) a) (insts x)) as [i0|] eqn:Ef; [|exfalso; auto].
    apply find_some in Ef. destruct Ef as [Hi0 Ea]. apply Nat.eqb_eq in Ea. cbn [collected] in Hi.
    apply in_app_or in Hi. destruct Hi as [Hi|Hi]; [contradiction|].
    destruct (has_gc i0); [|contradiction]. destruct Hi as [<-|[]].
    split; [now apply (live_inst p)|]. split; [|eauto].
    intros [b [Hb Kb]]. apply (key_at_spec p _ _ _ P') in Kb. cbn [insts] in Kb.
    destruct Kb as [j [Hj [Ej Kj]]]. apply filter_In in Hj. destruct Hj as [Hj1 Hj2].
    apply negb_true_iff, Nat.eqb_neq in Hj2. apply Hj2.
    rewrite (pi_key _ _ P j i0); auto.
  - exfalso. destruct (Nat.eqb q q'); [apply SAME; congruence|].
    destruct (nth_error (drun n ops) q) as [z|]; [|apply SAME; congruence].
    rewrite nth_upd_fun in Hx'. destruct (Nat.eqb_spec q' p) as [->|nq]; [|apply SAME; congruence].
    rewrite Hx in Hx'. simpl in Hx'. apply Some_inj in Hx'. subst x'.
    rewrite fold_construct_collected in Hi. contradiction.
Qed.
