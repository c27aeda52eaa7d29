(** Proofs about get and wait. *)
From Verif Require Import Lib ShmModel ShmRaceProofs ValModel WorkerModel WorkerSpec WorkerLog WorkerTrace WorkerThms WorkerDone WorkerFew MonModel MonSpec MonProofs CtrlModel CtrlSpec.
From Coq Require Import Permutation.

Lemma remote_missing st ds : missing st ds = remote st ds.
Proof. unfold missing, remote, here. induction ds as [|d ds IH]; simpl; auto. rewrite IH. destruct (st d); auto. Qed.

Lemma remote_In st ds d : In d (remote st ds) <-> In d ds /\ st d = None.
Proof. unfold remote. rewrite filter_In. destruct (st d); split; intros [A B]; split; auto; discriminate. Qed.

Lemma read_all_spec st ds l : read_all st ds = Some l <-> Forall2 (fun d v => st d = Some v) ds l.
Proof.
  revert l. induction ds as [|d ds IH]; intros l; simpl.
  - split; [intros E; apply Some_inj in E as <-; constructor | inversion 1; auto].
  - split.
    + destruct (st d) eqn:E; [|discriminate]. destruct (read_all st ds) as [r|] eqn:R; [|discriminate].
      intros X. apply Some_inj in X as <-. constructor; auto. apply IH. auto.
    + inversion 1; subst. rewrite H2. apply IH in H4. rewrite H4. auto.
Qed.

Lemma read_all_value st ds value : (forall d, In d ds -> st d = Some (value d)) -> read_all st ds = Some (map value ds).
Proof.
  intros H. apply read_all_spec. induction ds; simpl; constructor; auto.
  - apply H. left; auto.
  - apply IHds. intros. apply H. right; auto.
Qed.

Lemma read_all_true st ds value l : (forall d v, st d = Some v -> v = value d) -> read_all st ds = Some l -> l = map value ds.
Proof.
  intros H R. apply read_all_spec in R. induction R; simpl; auto. f_equal; auto.
Qed.

Lemma owners_known owner ds : (forall d, In d ds -> owner d <> None) ->
  exists out, requests_for owner ds = Some out /\ map snd out = ds /\ Forall (fun p => owner (snd p) = Some (fst p)) out.
Proof.
  induction ds as [|d ds IH]; intros H; simpl; [exists []; auto|].
  destruct (owner d) as [o|] eqn:E; [|exfalso; apply (H d); simpl; auto].
  destruct IH as (out & -> & M & F); [intros; apply H; simpl; auto|].
  exists ((o, d) :: out). split; auto. simpl. rewrite M. split; auto.
Qed.

Lemma requests_for_ids owner ds out : requests_for owner ds = Some out -> map snd out = ds.
Proof.
  revert out. induction ds as [|d ds IH]; intros out; simpl; [intros E; apply Some_inj in E as <-; auto|].
  destruct (owner d); [|discriminate]. destruct (requests_for owner ds); [|discriminate].
  intros E; apply Some_inj in E as <-. simpl. f_equal; auto.
Qed.

Section Value.
Variable value : dataid -> val.     (* what was put or computed for each reference *)
Variable shared : dataid -> bool.

Notation truth := (CtrlSpec.truth value).

Lemma pull_store_truth st d v st' x : truth st -> v = value d -> pull_store (shared d) st d v = (st', x) ->
  truth st' /\ x = value d /\ st' d = Some (value d) /\
  (forall k, st k <> None -> st' k = st k) /\ (forall k, st' k <> None -> k = d \/ st k <> None).
Proof.
  intros T V. unfold pull_store.
  assert (P : truth (dput st d v) /\ v = value d /\ dput st d v d = Some (value d) /\
    (forall k, st k <> None -> dput st d v k = st k) /\ (forall k, dput st d v k <> None -> k = d \/ st k <> None)).
  { split; [|split; [auto|split; [rewrite dput_same; congruence|]]].
    - intros k y K. destruct (did_dec k d) as [E|N].
      + subst k. rewrite dput_same in K. apply Some_inj in K. congruence.
      + rewrite dput_other in K by auto. auto.
    - split; intros k K; (destruct (did_dec k d) as [E|N]; [subst k|]).
      + rewrite dput_same. destruct (st d) as [y|] eqn:Y; [|congruence]. f_equal. rewrite (T _ _ Y). auto.
      + apply dput_other. auto.
      + auto.
      + right. rewrite dput_other in K by auto. auto. }
  destruct (shared d); [|intros E; apply pair_inj in E as [<- <-]; exact P].
  destruct (st d) as [y|] eqn:Y; intros E; apply pair_inj in E as [<- <-]; [|exact P].
  split; auto. split; [apply T; auto|]. split; [rewrite Y; f_equal; apply T; auto|]. split; auto.
Qed.

(** What the loop leaves, whatever comes. *)
Lemma pull_safe ids : forall fuel count st exc replies,
  truth st -> Forall (fun p => snd p = value (fst p)) replies -> length ids <= fuel + count ->
  match pull shared ids fuel count st exc replies with
  | PDone st' exc' rest => exists front, replies = front ++ rest /\ count + length front = Nat.max count (length ids) /\
      incl (map fst front) ids /\ truth st' /\ (forall k, st k <> None -> st' k = st k) /\
      (forall k, In k (map fst front) -> st' k <> None) /\
      exc' = match exc with Some e => Some e | None => hd_error (flat_map (fun d => match value d with VExc e => [e] | _ => [] end) (map fst front)) end
  | PBad st' d => truth st' /\ ~ In d ids /\ exists pre v post, replies = pre ++ (d, v) :: post /\ count + length pre < length ids
  | PWait st' => truth st' /\ incl (map fst replies) ids /\ count + length replies < length ids
  end.
Proof.
  induction fuel as [|fuel IH]; intros count st exc replies T R L; simpl in *.
  - exists []. simpl. split; auto. split; [lia|]. split; [intros x []|]. split; auto. split; auto. split; [intros k []|].
    destruct exc; auto.
  - destruct (Nat.ltb_spec count (length ids)) as [C|C].
    2:{ exists []. simpl. split; auto. split; [lia|]. split; [intros x []|]. split; auto. split; auto. split; [intros k []|].
        destruct exc; auto. }
    destruct replies as [|[d v] rest]; [split; auto; split; [intros x []|simpl; lia]|].
    inversion R as [|? ? Rv Rr]; subst. simpl in Rv.
    destruct (pull_store (shared d) st d v) as [st1 x] eqn:P.
    destruct (pull_store_truth _ _ _ _ _ T Rv P) as (T1 & X & D & K & _).
    destruct (did_in d ids) eqn:I.
    2:{ split; auto. split; [apply did_in_false; auto|]. exists [], v, rest. simpl. split; auto. lia. }
    apply did_in_In in I.
    specialize (IH (S count) st1 (match exc, x with None, VExc e => Some e | _, _ => exc end) rest T1 Rr ltac:(lia)).
    destruct (pull shared ids fuel (S count) st1 _ rest) as [st' exc' rest'|st' d'|st'].
    + destruct IH as (front & -> & Ln & Inc & T' & K' & A & E). exists ((d, v) :: front).
      split; auto. split; [simpl; lia|]. split; [intros y [<-|Y]; auto|]. split; auto.
      split; [intros k N; rewrite K'; rewrite K; auto|].
      split.
      { intros k [<-|Y]; auto. simpl. rewrite K' by congruence. congruence. }
      rewrite E, X. simpl. destruct exc; auto. destruct (value d); auto.
    + destruct IH as (A & N & pre & v' & post & -> & B). split; auto. split; auto.
      exists ((d, v) :: pre), v', post. simpl. split; auto. lia.
    + destruct IH as (A & B & N). split; auto. split; [intros y [<-|Y]; auto|]. simpl. lia.
Qed.

Lemma truth_give st a : truth st ->
  match give a st with
  | GVals vs => a = Many (arg_ids a) /\ vs = map value (arg_ids a)
  | GVal v => exists d, a = One d /\ v = value d
  | GMissing => True
  | _ => False
  end.
Proof.
  intros T. unfold give. destruct (read_all st (arg_ids a)) as [l|] eqn:R; auto.
  assert (E := read_all_true _ _ _ _ T R). destruct a as [d|ds]; simpl in *.
  - subst l. eauto.
  - destruct l; split; auto.
Qed.

(** Whatever comes, in whatever order: values returned are right and in order. *)
Lemma get_in_order st owner a replies out o st' :
  truth st -> Forall (fun p => snd p = value (fst p)) replies ->
  get shared st owner a replies = (out, o, st') ->
  match o with
  | GVals vs => a = Many (arg_ids a) /\ vs = map value (arg_ids a)
  | GVal v => exists d, a = One d /\ v = value d
  | GRaise e => exists d, In d (arg_ids a) /\ st d = None /\ value d = VExc e
  | _ => True
  end.
Proof.
  intros T R. unfold get. destruct (remote st (arg_ids a)) as [|r0 rr] eqn:Er.
  - intros E. assert (X := truth_give st a T). apply pair_inj in E as [E _]. apply pair_inj in E as [_ <-].
    destruct (give a st); auto; tauto.
  - rewrite <- Er. clear r0 rr Er. set (rem := remote st (arg_ids a)).
    destruct (requests_for owner rem) as [out'|]; [|intros E; apply pair_inj in E as [E _]; apply pair_inj in E as [_ <-]; auto].
    assert (P := pull_safe rem (length rem) 0 st None replies T R ltac:(lia)).
    destruct (pull shared rem (length rem) 0 st None replies) as [s exc rest|s d|s].
    + destruct P as (front & _ & _ & Inc & T' & _ & _ & X). destruct exc as [e|]; intros E;
      apply pair_inj in E as [E _]; apply pair_inj in E as [_ <-].
      * assert (In e (flat_map (fun d => match value d with VExc e => [e] | _ => [] end) (map fst front))) as I.
        { destruct (flat_map _ (map fst front)); simpl in X; [discriminate|]. apply Some_inj in X as ->. left; auto. }
        apply in_flat_map in I as (d & I & V). exists d. apply Inc in I. unfold rem in I. apply remote_In in I as [I N].
        split; auto. split; auto. destruct (value d); simpl in V; try tauto. destruct V as [->|[]]; auto.
      * assert (Y := truth_give s a T'). destruct (give a s); auto; tauto.
    + intros E; apply pair_inj in E as [E _]; apply pair_inj in E as [_ <-]; auto.
    + intros E; apply pair_inj in E as [E _]; apply pair_inj in E as [_ <-]; auto.
Qed.

Lemma give_value st a : (forall d, In d (arg_ids a) -> st d = Some (value d)) ->
  give a st = match a with One d => GVal (value d) | Many ds => GVals (map value ds) end.
Proof.
  intros H. unfold give. rewrite (read_all_value _ _ _ H). destruct a as [d|ds]; simpl; auto. destruct (map value ds); reflexivity.
Qed.

(** If exactly one reply comes for each remote reference, get ends. *)
Lemma get_ends st owner a front later :
  truth st -> Forall (fun p => snd p = value (fst p)) (front ++ later) ->
  (forall d, In d (arg_ids a) -> st d = None -> owner d <> None) ->
  Permutation (map fst front) (missing st (arg_ids a)) ->
  exists out st', map snd out = missing st (arg_ids a) /\ Forall (fun p => owner (snd p) = Some (fst p)) out /\
  (forall d, In d (arg_ids a) -> st' d = Some (value d)) /\
  (forall d, st d <> None -> st' d = st d) /\
  ((forall d e, In d (arg_ids a) -> st d = None -> value d <> VExc e) ->
     get shared st owner a (front ++ later) = (out, match a with One d => GVal (value d) | Many ds => GVals (map value ds) end, st')) /\
  ((exists d e, In d (arg_ids a) /\ st d = None /\ value d = VExc e) ->
     exists d e, In d (arg_ids a) /\ st d = None /\ value d = VExc e /\
     get shared st owner a (front ++ later) = (out, GRaise e, st')).
Proof.
  intros T R O P. rewrite remote_missing in *. set (rem := remote st (arg_ids a)) in *.
  destruct (owners_known owner rem) as (out & Eo & Ms & Fo).
  { intros d I. unfold rem in I. apply remote_In in I as [I N]. auto. }
  assert (Q := pull_safe rem (length rem) 0 st None (front ++ later) T R ltac:(lia)).
  destruct (pull shared rem (length rem) 0 st None (front ++ later)) as [s exc rest|s d|s] eqn:Ep.
  - destruct Q as (front' & Ef & Ln & Inc & T' & K & A & X).
    assert (L : length front = length rem) by (rewrite <- (Permutation_length P); symmetry; apply map_length).
    assert (front' = front).
    { assert (length front' = length front) by lia.
      apply (f_equal (firstn (length front))) in Ef. rewrite <- H in Ef at 2.
      rewrite !firstn_app, !Nat.sub_diag in Ef. simpl in Ef. rewrite !app_nil_r, !firstn_all in Ef. auto. }
    subst front'.
    assert (V : forall d, In d (arg_ids a) -> s d = Some (value d)).
    { intros d I. destruct (st d) as [v|] eqn:S.
      - rewrite K by congruence. rewrite S. f_equal. apply T; auto.
      - assert (In d (map fst front)) as J.
        { apply (Permutation_in d (Permutation_sym P)). unfold rem. apply remote_In. auto. }
        apply A in J. destruct (s d) as [v|] eqn:Sd; [|congruence]. f_equal. apply T'; auto. }
    exists out, s. split; auto. split; auto. split; auto. split; auto.
    assert (G : get shared st owner a (front ++ later) = match exc with None => (out, give a s, s) | Some e => (out, GRaise e, s) end).
    { unfold get. fold rem. destruct rem as [|r0 rr] eqn:Er.
      - simpl in Ep. injection Ep as <- <- _. simpl in Eo. apply Some_inj in Eo as <-. reflexivity.
      - rewrite Eo, Ep. destruct exc; reflexivity. }
    split.
    + intros Ne. assert (exc = None).
      { rewrite X. destruct (flat_map _ (map fst front)) as [|e l] eqn:F; auto. exfalso.
        assert (In e (e :: l)) as I by (left; auto). rewrite <- F in I. apply in_flat_map in I as (d & I & V').
        apply Inc in I. unfold rem in I. apply remote_In in I as [I N]. destruct (value d) eqn:Vd; simpl in V'; try tauto.
        apply (Ne d e0 I N Vd). }
      rewrite G, H. f_equal. f_equal. apply give_value. auto.
    + intros (d & e & I & N & Vd). rewrite G.
      assert (J : In e (flat_map (fun d => match value d with VExc e => [e] | _ => [] end) (map fst front))).
      { apply in_flat_map. exists d. split; [apply (Permutation_in d (Permutation_sym P)); unfold rem; apply remote_In; auto|].
        rewrite Vd. left; auto. }
      destruct (flat_map _ (map fst front)) as [|e' l] eqn:F; [destruct J|]. simpl in X. subst exc.
      assert (In e' (e' :: l)) as I' by (left; auto). rewrite <- F in I'. apply in_flat_map in I' as (d' & I' & V').
      apply Inc in I'. unfold rem in I'. apply remote_In in I' as [I' N']. exists d', e'.
      split; auto. split; auto. destruct (value d') eqn:Vd'; simpl in V'; try tauto. destruct V' as [->|[]]. auto.
  - exfalso. destruct Q as (_ & N & pre & v & post & E & L).
    assert (length front = length rem) by (rewrite <- (Permutation_length P); symmetry; apply map_length).
    apply N. apply (Permutation_in d P). apply in_map_iff. exists (d, v). split; auto.
    assert (X : nth_error (front ++ later) (length pre) = Some (d, v)).
    { rewrite E, nth_error_app2 by lia. rewrite Nat.sub_diag. reflexivity. }
    rewrite nth_error_app1 in X by lia. apply nth_error_In in X. auto.
  - exfalso. destruct Q as (_ & _ & L). rewrite app_length in L.
    assert (length front = length rem) by (rewrite <- (Permutation_length P); symmetry; apply map_length). lia.
Qed.
End Value.

Lemma pull_front shared ids : forall fuel count st exc replies st' exc' rest, length ids <= fuel + count ->
  pull shared ids fuel count st exc replies = PDone st' exc' rest ->
  exists front, replies = front ++ rest /\ count + length front = Nat.max count (length ids) /\ incl (map fst front) ids.
Proof.
  induction fuel as [|fuel IH]; intros count st exc replies st' exc' rest L; simpl in *.
  - intros E. injection E as _ _ <-. exists []. simpl. split; auto. split; [lia|intros x []].
  - destruct (Nat.ltb_spec count (length ids)) as [C|C].
    2:{ intros E. injection E as _ _ <-. exists []. simpl. split; auto. split; [lia|intros x []]. }
    destruct replies as [|[d v] r]; [discriminate|].
    destruct (pull_store (shared d) st d v) as [st1 x]. destruct (did_in d ids) eqn:I; [|discriminate].
    apply did_in_In in I. intros E. apply IH in E as (front & -> & Ln & Inc); [|lia].
    exists ((d, v) :: front). split; auto. split; [simpl; lia|]. intros y [<-|Y]; auto.
Qed.

(** A repeated remote reference: with one reply per reference get never ends normally. *)
Lemma repeated_blocks shared st owner a replies out o st' :
  ~ NoDup (missing st (arg_ids a)) -> NoDup (map fst replies) ->
  get shared st owner a replies = (out, o, st') ->
  o = GBlocked \/ o = GNoOwner \/ exists d, o = GUnexpected d.
Proof.
  intros Nd R. rewrite remote_missing in Nd. unfold get. destruct (remote st (arg_ids a)) as [|r0 rr] eqn:Er.
  - exfalso. apply Nd. constructor.
  - rewrite <- Er in *. clear r0 rr Er. set (rem := remote st (arg_ids a)) in *.
    destruct (requests_for owner rem) as [out'|]; [|intros E; apply pair_inj in E as [E _]; apply pair_inj in E as [_ <-]; auto].
    destruct (pull shared rem (length rem) 0 st None replies) as [s exc rest|s d|s] eqn:P.
    + exfalso. apply pull_front in P as (front & -> & L & Inc); [|lia]. apply Nd.
      apply (NoDup_incl_NoDup (l := map fst front)); auto.
      * rewrite map_app in R. apply nodup_app_l in R. auto.
      * rewrite map_length. lia.
    + intros E; apply pair_inj in E as [E _]; apply pair_inj in E as [_ <-]. eauto.
    + intros E; apply pair_inj in E as [E _]; apply pair_inj in E as [_ <-]. auto.
Qed.

(** ** wait *)

Lemma remove_id_perm d l : In d l -> Permutation (d :: remove_id d l) l.
Proof.
  induction l as [|x l IH]; simpl; [tauto|]. intros I. destruct (did_eqb x d) eqn:E.
  - apply did_eqb_eq in E. subst x. auto.
  - destruct I as [->|I]; [rewrite did_eqb_refl in E; discriminate|]. rewrite perm_swap. constructor. auto.
Qed.

(** copy: what is still to be looked at; not_ready is what has been passed over, and copy. *)
Lemma wait_loop_spec st n : forall copy seen ready not_ready pending,
  Permutation not_ready (seen ++ copy) -> Forall (fun d => st d = None) seen ->
  (Z.of_nat (length ready) + pending = n)%Z -> (1 <= pending)%Z -> Forall (fun d => st d <> None) ready ->
  match wait_loop st n copy ready not_ready pending with
  | WReady r nr => Permutation (r ++ nr) (ready ++ not_ready) /\ Z.of_nat (length r) = n /\ Forall (fun d => st d <> None) r
  | WAsk r nr p => Permutation (r ++ nr) (ready ++ not_ready) /\ (Z.of_nat (length r) + p = n)%Z /\ (1 <= p)%Z /\
      Forall (fun d => st d <> None) r /\ Forall (fun d => st d = None) nr
  end.
Proof.
  induction copy as [|d copy IH]; intros seen ready not_ready pending P F E L R; simpl.
  - rewrite app_nil_r in P. split; auto. split; auto. split; auto. split; auto.
    rewrite Forall_forall in *. intros x X. apply F. apply (Permutation_in _ P). auto.
  - destruct (st d) as [v|] eqn:S.
    + assert (I : In d not_ready) by (apply (Permutation_in d (Permutation_sym P)); apply in_or_app; simpl; auto).
      assert (Pr := remove_id_perm d not_ready I).
      assert (Q : Permutation ((ready ++ [d]) ++ remove_id d not_ready) (ready ++ not_ready)).
      { rewrite <- app_assoc. apply Permutation_app_head. exact Pr. }
      assert (R' : Forall (fun d => st d <> None) (ready ++ [d])).
      { apply Forall_app. split; auto. constructor; auto. congruence. }
      destruct (Z.eqb_spec (Z.of_nat (length (ready ++ [d]))) n) as [Z|Z]; [auto|].
      rewrite app_length in Z. simpl in Z.
      specialize (IH seen (ready ++ [d]) (remove_id d not_ready) (pending - 1)%Z).
      destruct (wait_loop st n copy (ready ++ [d]) (remove_id d not_ready) (pending - 1)%Z).
      * destruct IH as (A & B & C); auto.
        { apply (Permutation_cons_inv (a := d)). rewrite Pr, P. symmetry. apply Permutation_middle. }
        { rewrite app_length. simpl. lia. } { lia. }
        rewrite A, Q. auto.
      * destruct IH as (A & B & C); auto.
        { apply (Permutation_cons_inv (a := d)). rewrite Pr, P. symmetry. apply Permutation_middle. }
        { rewrite app_length. simpl. lia. } { lia. }
        rewrite A, Q. auto.
    + apply (IH (seen ++ [d])); auto.
      * rewrite P, <- app_assoc. reflexivity.
      * apply Forall_app. auto.
Qed.

Lemma wait_local_spec st ds n : (1 <= n)%Z ->
  match wait_local st ds n with
  | WReady r nr => Permutation (r ++ nr) ds /\ Z.of_nat (length r) = n /\ Forall (fun d => st d <> None) r
  | WAsk r nr p => Permutation (r ++ nr) ds /\ (Z.of_nat (length r) + p = n)%Z /\ (1 <= p)%Z /\
      Forall (fun d => st d <> None) r /\ Forall (fun d => st d = None) nr
  end.
Proof. intros L. apply (wait_loop_spec st n ds []); auto; simpl; lia. Qed.

Lemma map_back_some ds l : incl l ds -> map_back ds l = Some l.
Proof.
  intros I. unfold map_back. destruct (forallb _ l) eqn:E; auto. exfalso.
  assert (forallb (fun d => did_in d ds) l = true); [|congruence].
  apply forallb_forall. intros x X. apply did_in_In. auto.
Qed.

Lemma wait_remote c g st ds n r0 nr0 p ms1 ms2 s1 s : (1 <= n)%Z ->
  wait_local st ds n = WAsk r0 nr0 p ->
  orderly c (minit g) (ms1 ++ [MWait nr0 p]) -> waits ms2 = 0 ->
  mon_run c (minit g) ms1 = Some s1 ->
  mon_run c (minit g) (ms1 ++ MWait nr0 p :: ms2) = Some s -> mstopped s = false ->
  (n <= Z.of_nat (length (filter (fun d => here st d || complete (ms1 ++ ms2) d) ds)))%Z ->
  exists a r nr, answers (mlog s) = answers (mlog s1) ++ [a] /\ wait_end ds r0 a = Some (r, nr) /\
    Permutation (r ++ nr) ds /\ Z.of_nat (length r) = n /\
    Forall (fun d => st d <> None \/ complete (ms1 ++ ms2) d = true) r.
Proof.
  intros N W O Wa H1 H St Le. assert (S := wait_local_spec st ds n N). rewrite W in S.
  destruct S as (P & Ln & Lp & Fr & Fn).
  destruct (answered_once c g _ _ _ _ _ _ O Wa H1 H St) as (new & E & A). unfold answer_for in A.
  assert (Cn : length (filter (fun d => here st d || complete (ms1 ++ ms2) d) ds) <=
               length r0 + length (filter (complete (ms1 ++ ms2)) nr0)).
  { rewrite <- (Permutation_length (filter_perm _ _ _ P)). rewrite filter_app, app_length.
    apply Nat.add_le_mono; [clear; induction r0 as [|x l IH]; simpl; auto; destruct (_ || _); simpl; lia|].
    clear -Fn. induction nr0 as [|d l IH]; simpl; auto. inversion Fn as [|? ? A B]; subst. unfold here at 1. rewrite A.
    simpl. specialize (IH B). destruct (complete (ms1 ++ ms2) d); simpl; lia. }
  destruct (Z.ltb_spec (Z.of_nat (length (filter (complete (ms1 ++ ms2)) nr0))) p) as [X|X]; [lia|].
  destruct A as (r & nr & -> & P' & Lr & Fc). exists (r, nr), (r0 ++ r), nr.
  assert (Q : Permutation ((r0 ++ r) ++ nr) ds).
  { rewrite <- app_assoc. rewrite P'. exact P. }
  split; auto. split.
  { unfold wait_end. simpl. rewrite !map_back_some; auto; intros d D; apply (Permutation_in d Q); apply in_or_app; auto. }
  split; auto. split; [rewrite app_length; lia|].
  apply Forall_app. split; [eapply Forall_impl; [|exact Fr] | eapply Forall_impl; [|exact Fc]]; simpl; auto.
Qed.

(** What a worker reports, it has stored. *)
Lemma reported_stored self body mbody is_async ms w :
  (forall f a k, no_refs_returned (body f a k)) -> (forall h c, no_refs_returned (mbody h c)) ->
  no_refs_received ms ->
  wrun self body mbody is_async winit ms = Some w ->
  forall ds d, In ds (reports (log w)) -> In d ds -> exists v, stored (log w) d v.
Proof.
  intros B M N R ds d I D. destruct (told_stored self body mbody is_async B M ms w N R _ _ I D) as (v & V).
  exists v. right. auto.
Qed.

Lemma first_get value shared st owner d e :
  truth value st -> st d = None -> owner d <> None -> value d = VExc e ->
  exists out st', forall later, Forall (fun p => snd p = value (fst p)) later ->
  get shared st owner (One d) ((d, VExc e) :: later) = (out, GRaise e, st').
Proof.
  intros T N O V. destruct (owner d) as [o|] eqn:Eo; [|congruence].
  exists [(o, d)], (dput st d (VExc e)). intros later _. unfold get. simpl. rewrite N. simpl. rewrite Eo. simpl.
  unfold pull_store. rewrite N, did_eqb_refl. simpl. destruct (shared d); reflexivity.
Qed.
