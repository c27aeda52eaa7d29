(** Invariant of concurrent puts, gets and drops on one host. *)
From Verif Require Import Lib ShmModel ShmStoreModel ShmRaceModel ShmRaceSpec.
Local Open Scope Z_scope.

Definition obj := (dataid * place * list Z)%type.
Definition oid (x : obj) : dataid := fst (fst x).
Definition oslot (x : obj) : Z := p_slot (snd (fst x)).
Definition ofirst (x : obj) : Z := p_first (snd (fst x)).
Definition obytes (x : obj) : list Z := snd x.

Lemma cell_eqb_eq a b : cell_eqb a b = true <-> a = b.
Proof.
  destruct a, b; simpl; try rewrite Z.eqb_eq; split; intros H; try discriminate; congruence.
Qed.

Lemma cupd_same m c v : cupd m c v c = v.
Proof. unfold cupd. rewrite (proj2 (cell_eqb_eq c c)) by reflexivity. reflexivity. Qed.

Lemma cupd_other m c c' v : c' <> c -> cupd m c v c' = m c'.
Proof.
  intros H. unfold cupd. destruct (cell_eqb c' c) eqn:E; [|reflexivity].
  apply cell_eqb_eq in E. contradiction.
Qed.

Lemma nth_upd_same {A} (l : list A) i y t :
  nth_error l i = Some t -> nth_error (upd_nth i (fun _ => y) l) i = Some y.
Proof. revert i; induction l; intros [|i]; simpl; try discriminate; auto. Qed.

Lemma nth_upd_other {A} (l : list A) i j y :
  i <> j -> nth_error (upd_nth i (fun _ => y) l) j = nth_error l j.
Proof.
  revert i j; induction l as [|a l IH]; intros [|i] [|j] H; simpl; auto; try congruence.
Qed.

Lemma aligned_apart a b i j : (4 | a) -> (4 | b) -> 0 <= i < 4 -> 0 <= j < 4 ->
  a + i = b + j -> a = b /\ i = j.
Proof. intros [x ->] [y ->]. lia. Qed.

Definition cur (p : pc) : list obj :=
  match p with
  | PData d r bs _ => [(d, r, bs)]
  | PPub d r bs k => if (k <? 4)%nat then [(d, r, bs)] else []
  | _ => []
  end.

Definition pend (t : thread) : list obj := cur (at_ t) ++ flat_map put_of (todo t).

Definition crit (p : pc) : bool :=
  match p with
  | PPub _ _ _ _ | GInc _ _ _ | GIncW _ _ _ _ | GUnlock _ _ _
  | FDec _ _ | FDecW _ _ _ | FUnlock _ _ => true
  | _ => false
  end.

Section Inv.
Variable progs : list (list rop).
Hypothesis Hpl : places_ok progs.
Hypothesis Hgt : gets_ok progs.
Hypothesis Hnd : no_delete progs.

Notation PUTS := (all_puts progs).

Lemma puts_inj x y : In x PUTS -> In y PUTS -> oid x = oid y -> x = y.
Proof.
  destruct Hpl as [H _]. clear - H. revert H. generalize PUTS as l. intros l.
  induction l as [|a l IH]; simpl; intros H Hx Hy E; [contradiction|].
  inversion H as [|? ? Hn Hr]; subst.
  destruct Hx as [->|Hx], Hy as [->|Hy]; auto.
  - exfalso; apply Hn. change (In (oid x) (map oid l)). rewrite E. now apply in_map.
  - exfalso; apply Hn. change (In (oid y) (map oid l)). rewrite <- E. now apply in_map.
Qed.

Lemma puts_slot x : In x PUTS -> (4 | oslot x).
Proof. apply Hpl. Qed.

Lemma puts_apart x y : In x PUTS -> In y PUTS -> oid x <> oid y ->
  oslot x <> oslot y /\
  (ofirst x + Z.of_nat (length (obytes x)) <= ofirst y \/
   ofirst y + Z.of_nat (length (obytes y)) <= ofirst x).
Proof. intros Hx Hy E. destruct Hpl as [_ [H _]]. exact (H x y Hx Hy E). Qed.

Lemma slot_inj x y : In x PUTS -> In y PUTS -> oslot x = oslot y -> x = y.
Proof.
  intros Hx Hy E. destruct (did_dec (oid x) (oid y)) as [e|n]; [now apply puts_inj|].
  destruct (puts_apart x y Hx Hy n). contradiction.
Qed.

Definition stored (m : cmem) (x : obj) (n : nat) : Prop :=
  forall k, (k < n)%nat -> forall b, nth_error (obytes x) k = Some b ->
    m (CD (ofirst x + Z.of_nat k)) = b.

Definition published (m : cmem) (x : obj) : Prop :=
  m (CS (oslot x)) = worker_id (oid x) /\ m (CS (oslot x + 1)) = data_number (oid x) /\
  m (CS (oslot x + 2)) = ofirst x /\ stored m x (length (obytes x)).

Definition pub (m : cmem) (d : dataid) (s : Z) : Prop :=
  exists x, In x PUTS /\ oid x = d /\ oslot x = s /\ published m x.

Definition good_get (d : dataid) (s : Z) (n : nat) : Prop :=
  (4 | s) /\ forall x, In x PUTS -> oid x = d -> n = length (obytes x).

Definition tfact (m : cmem) (p : pc) : Prop :=
  match p with
  | PIdle => True
  | PData d r bs k => (k <= length bs)%nat /\ stored m (d, r, bs) k
  | PPub d r bs k =>
      In (d, r, bs) PUTS /\ (k <= 4)%nat /\ stored m (d, r, bs) (length bs) /\
      ((1 <= k)%nat -> m (CS (p_slot r + 2)) = p_first r) /\
      ((2 <= k < 4)%nat -> m (CS (p_slot r + 3)) = 1) /\
      ((3 <= k)%nat -> m (CS (p_slot r + 1)) = data_number d) /\
      ((4 <= k)%nat -> published m (d, r, bs))
  | GWorker d s n => good_get d s n
  | GNumber d s n w => good_get d s n /\ (w <> -1 -> m (CS s) = w)
  | GLock d s n | GInc d s n | GUnlock d s n | GFirst d s n => good_get d s n /\ pub m d s
  | GIncW d s n v => good_get d s n /\ pub m d s /\ v = m (CS (s + 3))
  | GData d s n f acc =>
      good_get d s n /\
      exists x, In x PUTS /\ oid x = d /\ oslot x = s /\ published m x /\ f = ofirst x /\
        exists rest, obytes x = acc ++ rest
  | FWorker d s => (4 | s)
  | FNumber d s w => (4 | s) /\ (w <> -1 -> m (CS s) = w)
  | FLock d s | FDec d s | FUnlock d s => (4 | s) /\ pub m d s
  | FDecW d s v => (4 | s) /\ pub m d s /\ v = m (CS (s + 3))
  | _ => False
  end.

Definition refs_ok (m : cmem) (l : list event) (x : obj) : Prop :=
  m (CS (oslot x + 3)) = 1 + incs l (oid x) (oslot x) - decs l (oid x) (oslot x).

Definition ev_ok (m : cmem) (e : event) : Prop :=
  match e with
  | Got d s f bs => exists x, In x PUTS /\ oid x = d /\ oslot x = s /\ f = ofirst x /\ bs = obytes x
  | Absent _ _ => True
  | Inc d s | Dec d s => pub m d s
  end.

Definition own (st : rstate) (i : nat) (x : obj) : Prop :=
  exists t, nth_error (rthreads st) i = Some t /\ In x (pend t).

Record RI (st : rstate) : Prop := {
  r_own : forall i x, own st i x -> In x PUTS /\ rmem st (CS (oslot x)) = -1;
  r_uniq : forall i j x, own st i x -> own st j x -> i = j;
  r_nodup : forall i t, nth_error (rthreads st) i = Some t -> NoDup (pend t);
  r_slots : forall s, (4 | s) -> rmem st (CS s) = -1 \/
    exists x, In x PUTS /\ oslot x = s /\ published (rmem st) x /\ refs_ok (rmem st) (rlog st) x;
  r_ev : forall e, In e (rlog st) -> ev_ok (rmem st) e;
  r_crit : forall i t, nth_error (rthreads st) i = Some t -> crit (at_ t) = true ->
    rlock st = Some i;
  r_fact : forall i t, nth_error (rthreads st) i = Some t -> tfact (rmem st) (at_ t);
  r_todo : forall i t o, nth_error (rthreads st) i = Some t -> In o (todo t) -> In o (concat progs)
}.

(** Which cells process [i] may write. *)
Definition covers (x : obj) (c : cell) : Prop :=
  (exists k, (k < length (obytes x))%nat /\ c = CD (ofirst x + Z.of_nat k)) \/
  (exists j, 0 <= j < 4 /\ c = CS (oslot x + j)).

Definition may_write (st : rstate) (i : nat) (c : cell) : Prop :=
  (exists x, own st i x /\ covers x c) \/
  (rlock st = Some i /\ exists x, In x PUTS /\ published (rmem st) x /\ c = CS (oslot x + 3)).

Lemma wid_not (x : obj) : worker_id (oid x) <> -1.
Proof. unfold worker_id. lia. Qed.

Lemma pub_not_own st i x y : RI st -> own st i x -> In y PUTS -> published (rmem st) y ->
  oid x <> oid y.
Proof.
  intros R O Hy P E. destruct (r_own _ R _ _ O) as [Hx Hm].
  rewrite (puts_inj x y Hx Hy E) in Hm. destruct P as [Hw _].
  rewrite Hm in Hw. exact (wid_not y (eq_sym Hw)).
Qed.

Lemma covers_apart x y c : In x PUTS -> In y PUTS -> oid x <> oid y -> covers x c -> ~ covers y c.
Proof.
  intros Hx Hy E C1 C2. destruct (puts_apart x y Hx Hy E) as [Hs Hb].
  destruct C1 as [[k [Hk ->]]|[j [Hj ->]]]; destruct C2 as [[k' [Hk' e]]|[j' [Hj' e]]];
    injection e as e || discriminate e.
  - lia.
  - apply Hs. apply (aligned_apart _ _ j j'); auto using puts_slot.
Qed.

Lemma stored_keep m c v x n : (forall k, (k < length (obytes x))%nat -> c <> CD (ofirst x + Z.of_nat k)) ->
  stored m x n -> stored (cupd m c v) x n.
Proof.
  intros H S k Hk b Hb. rewrite cupd_other; [now apply (S k Hk)|].
  intros E. apply (H k); [|now rewrite E]. apply nth_error_Some. congruence.
Qed.

Lemma not_covers_data x c : ~ covers x c ->
  forall k, (k < length (obytes x))%nat -> c <> CD (ofirst x + Z.of_nat k).
Proof. intros H k Hk ->. apply H. left. eauto. Qed.

Lemma not_covers_slot x c j : ~ covers x c -> 0 <= j < 4 -> CS (oslot x + j) <> c.
Proof. intros H Hj <-. apply H. right. eauto. Qed.

Lemma slot0 x : CS (oslot x) = CS (oslot x + 0).
Proof. now rewrite Z.add_0_r. Qed.

(** A published object survives every permitted write. *)
Lemma pub_keep st i c v y : RI st -> may_write st i c -> In y PUTS ->
  published (rmem st) y -> published (cupd (rmem st) c v) y.
Proof.
  intros R M Hy P. destruct M as [[x [O C]]|[L [x [Hx [Px ->]]]]].
  - assert (N : ~ covers y c).
    { apply (covers_apart x y); auto. apply (r_own _ R _ _ O). eapply pub_not_own; eauto. }
    destruct P as [P1 [P2 [P3 P4]]]. repeat split.
    + rewrite cupd_other; auto. rewrite slot0. apply not_covers_slot; auto. lia.
    + rewrite cupd_other; auto. apply not_covers_slot; auto. lia.
    + rewrite cupd_other; auto. apply not_covers_slot; auto. lia.
    + apply stored_keep; auto. now apply not_covers_data.
  - destruct P as [P1 [P2 [P3 P4]]].
    assert (S1 := puts_slot _ Hx). assert (S2 := puts_slot _ Hy).
    assert (NE : forall q, 0 <= q < 3 -> CS (oslot y + q) <> CS (oslot x + 3)).
    { intros q Hq e; injection e as e.
      destruct (aligned_apart (oslot y) (oslot x) q 3); auto; lia. }
    repeat split.
    + rewrite cupd_other; auto. rewrite slot0. apply NE. lia.
    + rewrite cupd_other; auto. apply NE. lia.
    + rewrite cupd_other; auto. apply NE. lia.
    + apply stored_keep; auto. intros; discriminate.
Qed.

Lemma pub_keep' st i c v d s : RI st -> may_write st i c ->
  pub (rmem st) d s -> pub (cupd (rmem st) c v) d s.
Proof.
  intros R M [x [Hx [E1 [E2 P]]]]. exists x. repeat split; auto; eapply pub_keep; eauto.
Qed.

(** The WORKER cell of a filled aligned slot does not change. *)
Lemma worker_keep st i c v s : RI st -> may_write st i c -> (4 | s) ->
  rmem st (CS s) <> -1 -> cupd (rmem st) c v (CS s) = rmem st (CS s).
Proof.
  intros R M Hs Hn. destruct (r_slots _ R s Hs) as [E|[x [Hx [<- [P _]]]]]; [contradiction|].
  destruct (pub_keep st i c v x R M Hx P) as [E _]. rewrite E. symmetry. apply P.
Qed.

Lemma apart_keep st i x j y c : RI st -> own st i x -> covers x c -> i <> j -> own st j y -> ~ covers y c.
Proof.
  intros R O C N O'. apply (covers_apart x y); auto.
  - apply (r_own _ R _ _ O).
  - apply (r_own _ R _ _ O').
  - intros E. apply N. apply (r_uniq _ R i j x O).
    rewrite (puts_inj x y); auto; [apply (r_own _ R _ _ O)|apply (r_own _ R _ _ O')].
Qed.

Lemma may_write_data st i c j y : RI st -> may_write st i c -> i <> j -> own st j y ->
  forall k, (k < length (obytes y))%nat -> c <> CD (ofirst y + Z.of_nat k).
Proof.
  intros R [[x [O C]]|[L [x [Hx [Px ->]]]]] N O'.
  - apply not_covers_data. apply (apart_keep st i x j y); auto.
  - intros; discriminate.
Qed.

Lemma may_write_slot st i c j y q : RI st -> may_write st i c -> i <> j -> own st j y ->
  0 <= q < 4 -> CS (oslot y + q) <> c.
Proof.
  intros R [[x [O C]]|[L [x [Hx [Px ->]]]]] N O' Hq.
  - apply not_covers_slot; auto. apply (apart_keep st i x j y); auto.
  - intros e; injection e as e. destruct (r_own _ R _ _ O') as [Hy Hm].
    assert (E : oslot y = oslot x)
      by (apply (aligned_apart (oslot y) (oslot x) q 3); auto using puts_slot; lia).
    rewrite (slot_inj y x Hy Hx E) in Hm. destruct Px as [Hw _]. rewrite Hm in Hw.
    exact (wid_not x (eq_sym Hw)).
Qed.

(** Facts of the other processes survive. *)
Lemma tfact_keep st i c v j t : RI st -> may_write st i c -> i <> j ->
  nth_error (rthreads st) j = Some t -> tfact (cupd (rmem st) c v) (at_ t).
Proof.
  intros R M N Ht. pose proof (r_fact _ R _ _ Ht) as F.
  assert (Cr := r_crit _ R _ _ Ht).
  assert (W : forall s w, (4 | s) -> (w <> -1 -> rmem st (CS s) = w) ->
            w <> -1 -> cupd (rmem st) c v (CS s) = w).
  { intros s w Hs H Hw. rewrite (worker_keep st i); auto. rewrite H; auto. }
  assert (REF : forall s d, crit (at_ t) = true -> pub (rmem st) d s ->
            cupd (rmem st) c v (CS (s + 3)) = rmem st (CS (s + 3))).
  { intros s d Hc [y [Hy [E1 [<- P]]]]. specialize (Cr Hc). apply cupd_other.
    destruct M as [[x [O C]]|[L _]]; [|congruence].
    apply not_covers_slot; [|lia]. apply (covers_apart x y); auto.
    apply (r_own _ R _ _ O). eapply pub_not_own; eauto. }
  destruct (at_ t) as [| d r bs k | d r bs k | d s n | d s n w | d s n | d s n | d s n v0 | d s n
     | d s n | d s n f acc | d s | d s w | d s | d s | d s v0 | d s | d s | d s | d s w | d s k |] eqn:Ep;
    simpl in F |- *; auto.
  - destruct F as [F1 F2]. split; auto. apply stored_keep; auto.
    eapply (may_write_data st i c j); eauto. exists t. split; auto. unfold pend. rewrite Ep. simpl. auto.
  - destruct F as [F0 [F1 [F2 [F3 [F4 [F5 F6]]]]]]. split; [assumption|split; [assumption|]].
    destruct (Nat.ltb_spec k 4) as [Hk|Hk].
    + assert (O : own st j (d, r, bs)).
      { exists t. split; auto. unfold pend. rewrite Ep. unfold cur.
        rewrite (proj2 (Nat.ltb_lt k 4) Hk). simpl. auto. }
      assert (SL : forall q, 0 <= q < 4 -> cupd (rmem st) c v (CS (p_slot r + q)) = rmem st (CS (p_slot r + q))).
      { intros q Hq. apply cupd_other. apply (may_write_slot st i c j (d, r, bs)); auto. }
      split; [apply stored_keep; auto; eapply (may_write_data st i c j); eauto|].
      rewrite !SL by lia. repeat (split; [assumption|]). intros; lia.
    + assert (k = 4%nat) by lia. subst k.
      assert (P := F6 ltac:(lia)).
      destruct (pub_keep st i c v _ R M F0 P) as [P1 [P2 [P3 P4]]].
      split; [exact P4|]. repeat split; intros; auto; lia.
  - destruct F as [F1 F2]. split; auto. apply W; auto. apply F1.
  - destruct F; split; auto; eapply pub_keep'; eauto.
  - destruct F; split; auto; eapply pub_keep'; eauto.
  - destruct F as [F1 [F2 F3]]; split; auto; split; [eapply pub_keep'; eauto|].
    rewrite (REF s d); auto.
  - destruct F; split; auto; eapply pub_keep'; eauto.
  - destruct F; split; auto; eapply pub_keep'; eauto.
  - destruct F as [F1 [x [Hx [E1 [E2 [P [E3 E4]]]]]]]. split; auto. exists x.
    repeat (split; [solve [auto | eapply pub_keep; eauto]|]). exact E4.
  - destruct F as [F1 F2]. split; auto.
  - destruct F; split; auto; eapply pub_keep'; eauto.
  - destruct F; split; auto; eapply pub_keep'; eauto.
  - destruct F as [F1 [F2 F3]]; split; auto; split; [eapply pub_keep'; eauto|].
    rewrite (REF s d); auto.
  - destruct F; split; auto; eapply pub_keep'; eauto.
Qed.

Definition sub (l l' : list obj) : Prop := (l = l') \/ (exists a, l' = a :: l).

Lemma sub_In l l' x : sub l l' -> In x l -> In x l'.
Proof. intros [->|[a ->]] H; simpl; auto. Qed.

Lemma sub_NoDup l l' : sub l l' -> NoDup l' -> NoDup l.
Proof. intros [->|[a ->]] H; auto. now inversion H. Qed.

Definition changed (st : rstate) (i : nat) (m' : cmem) : Prop :=
  m' = rmem st \/ exists c v, may_write st i c /\ m' = cupd (rmem st) c v.

Lemma changed_pub st i m' d s : RI st -> changed st i m' -> pub (rmem st) d s -> pub m' d s.
Proof. intros R [->|[c [v [M ->]]]] P; auto. eapply pub_keep'; eauto. Qed.

Lemma ev_keep st i m' e : RI st -> changed st i m' -> ev_ok (rmem st) e -> ev_ok m' e.
Proof. intros R C; destruct e; simpl; auto; eapply changed_pub; eauto. Qed.

Lemma preserve st i t t' m' lk' evs :
  RI st -> nth_error (rthreads st) i = Some t ->
  changed st i m' ->
  sub (pend t') (pend t) ->
  (forall x, In x (pend t') -> m' (CS (oslot x)) = -1) ->
  (forall s, (4 | s) -> m' (CS s) = -1 \/
     exists x, In x PUTS /\ oslot x = s /\ published m' x /\ refs_ok m' (rlog st ++ evs) x) ->
  (forall e, In e evs -> ev_ok m' e) ->
  (crit (at_ t') = true -> lk' = Some i) ->
  (lk' = rlock st \/ (rlock st = None) \/ (rlock st = Some i)) ->
  tfact m' (at_ t') ->
  (forall o, In o (todo t') -> In o (todo t)) ->
  RI {| rmem := m'; rlock := lk'; rlog := rlog st ++ evs;
        rthreads := upd_nth i (fun _ => t') (rthreads st) |}.
Proof.
  intros R Ht C Hs Hown Hslots Hev Hcrit Hlk Hf Htodo.
  assert (OWN : forall j x, own {| rmem := m'; rlock := lk'; rlog := rlog st ++ evs;
            rthreads := upd_nth i (fun _ => t') (rthreads st) |} j x ->
            own st j x /\ (j = i -> In x (pend t'))).
  { intros j x [t0 [H0 H1]]. cbn [rthreads] in H0. destruct (Nat.eq_dec i j) as [<-|N].
    - rewrite (nth_upd_same _ _ _ _ Ht) in H0. apply Some_inj in H0. subst t0. split; auto.
      exists t. split; auto. eapply sub_In; eauto.
    - rewrite (nth_upd_other _ _ _ _ N) in H0. split; [exists t0; auto|congruence]. }
  constructor; cbn [rmem rlock rlog rthreads].
  - intros j x O. destruct (OWN _ _ O) as [O1 O2]. split; [apply (r_own _ R _ _ O1)|].
    destruct (Nat.eq_dec j i) as [e|N]; [apply Hown; auto|].
    destruct C as [->|[c [v [M ->]]]]; [apply (r_own _ R _ _ O1)|].
    rewrite cupd_other; [apply (r_own _ R _ _ O1)|]. rewrite slot0.
    apply (may_write_slot st i c j x 0); auto. lia.
  - intros j k x O1 O2. apply OWN in O1. apply OWN in O2. apply (r_uniq _ R j k x); tauto.
  - intros j t0 H0. destruct (Nat.eq_dec i j) as [<-|N].
    + rewrite (nth_upd_same _ _ _ _ Ht) in H0. apply Some_inj in H0. subst t0.
      eapply sub_NoDup; eauto. eapply r_nodup; eauto.
    + rewrite (nth_upd_other _ _ _ _ N) in H0. eapply r_nodup; eauto.
  - exact Hslots.
  - intros e He. apply in_app_or in He. destruct He as [He|He]; [|auto].
    eapply ev_keep; eauto. now apply (r_ev _ R).
  - intros j t0 H0 Hc. destruct (Nat.eq_dec i j) as [<-|N].
    + rewrite (nth_upd_same _ _ _ _ Ht) in H0. apply Some_inj in H0. subst t0. auto.
    + rewrite (nth_upd_other _ _ _ _ N) in H0. pose proof (r_crit _ R _ _ H0 Hc) as L.
      destruct Hlk as [->|[E|E]]; congruence.
  - intros j t0 H0. destruct (Nat.eq_dec i j) as [<-|N].
    + rewrite (nth_upd_same _ _ _ _ Ht) in H0. apply Some_inj in H0. now subst t0.
    + rewrite (nth_upd_other _ _ _ _ N) in H0.
      destruct C as [->|[c [v [M ->]]]]; [eapply r_fact; eauto|eapply tfact_keep; eauto].
  - intros j t0 o H0 Ho. destruct (Nat.eq_dec i j) as [<-|N].
    + rewrite (nth_upd_same _ _ _ _ Ht) in H0. apply Some_inj in H0. subst t0.
      eapply r_todo; eauto.
    + rewrite (nth_upd_other _ _ _ _ N) in H0. eapply r_todo; eauto.
Qed.

Definition quiet (e : event) : Prop := match e with Inc _ _ | Dec _ _ => False | _ => True end.

Lemma filter_none {A} (f : A -> bool) l : (forall x, In x l -> f x = false) -> filter f l = [].
Proof.
  induction l as [|a l IH]; simpl; intros H; auto. rewrite (H a) by auto. apply IH. auto.
Qed.

Lemma counts_quiet l evs d s : (forall e, In e evs -> quiet e) ->
  incs (l ++ evs) d s = incs l d s /\ decs (l ++ evs) d s = decs l d s.
Proof.
  intros H. unfold incs, decs. rewrite !filter_app, !app_length.
  rewrite (filter_none (is_inc d s) evs), (filter_none (is_dec d s) evs).
  - simpl. rewrite !Nat.add_0_r. auto.
  - intros e He. specialize (H e He). destruct e; simpl in *; tauto.
  - intros e He. specialize (H e He). destruct e; simpl in *; tauto.
Qed.

(** Steps that write nothing. *)
Lemma preserve_quiet st i t t' lk' evs :
  RI st -> nth_error (rthreads st) i = Some t ->
  sub (pend t') (pend t) ->
  (forall e, In e evs -> ev_ok (rmem st) e /\ quiet e) ->
  (crit (at_ t') = true -> lk' = Some i) ->
  (lk' = rlock st \/ (rlock st = None) \/ (rlock st = Some i)) ->
  tfact (rmem st) (at_ t') ->
  (forall o, In o (todo t') -> In o (todo t)) ->
  RI {| rmem := rmem st; rlock := lk'; rlog := rlog st ++ evs;
        rthreads := upd_nth i (fun _ => t') (rthreads st) |}.
Proof.
  intros R Ht Hs Hev Hc Hl Hf Ho. eapply preserve; eauto.
  - now left.
  - intros x Hx. apply (r_own _ R i). exists t. split; auto. eapply sub_In; eauto.
  - intros s H4. destruct (r_slots _ R s H4) as [E|[x [Hx [E [P Q]]]]]; [now left|right].
    exists x. repeat (split; [assumption|]). unfold refs_ok.
    destruct (counts_quiet (rlog st) evs (oid x) (oslot x)) as [-> ->]; [apply Hev|exact Q].
  - apply Hev.
Qed.

(** Slots not touched by a write inside the writer's own unpublished object. *)
Lemma slots_keep st i c v x : RI st -> own st i x -> covers x c -> c <> CS (oslot x) ->
  forall s, (4 | s) -> cupd (rmem st) c v (CS s) = -1 \/
     exists y, In y PUTS /\ oslot y = s /\ published (cupd (rmem st) c v) y /\
       refs_ok (cupd (rmem st) c v) (rlog st ++ []) y.
Proof.
  intros R O C NW s Hs. destruct (r_own _ R _ _ O) as [Hx Hm].
  destruct (r_slots _ R s Hs) as [E|[y [Hy [E [P Q]]]]].
  - left. rewrite cupd_other; auto. intros <-. apply NW.
    destruct C as [[k [Hk e]]|[j [Hj e]]]; [discriminate|]. injection e as e.
    rewrite <- (Z.add_0_r s) in e.
    destruct (aligned_apart s (oslot x) 0 j) as [-> _]; auto using puts_slot. lia.
  - right. exists y. split; [assumption|split; [assumption|split]].
    + eapply pub_keep; eauto. left. eauto.
    + unfold refs_ok. rewrite app_nil_r, cupd_other; [exact Q|].
      apply not_covers_slot; [|lia]. apply (covers_apart x y); auto. eapply pub_not_own; eauto.
Qed.

Lemma own_cur st i t x : nth_error (rthreads st) i = Some t -> In x (cur (at_ t)) -> own st i x.
Proof. intros Ht H. exists t. split; auto. unfold pend. apply in_or_app. now left. Qed.

Lemma cell_of x j : 0 <= j < 4 -> covers x (CS (oslot x + j)).
Proof. intros; right; eauto. Qed.

(** Steps of put that write a cell other than WORKER. *)
Lemma preserve_put st i t p' x c v :
  RI st -> nth_error (rthreads st) i = Some t ->
  cur (at_ t) = [x] -> cur p' = [x] -> covers x c -> c <> CS (oslot x) ->
  crit p' = crit (at_ t) -> tfact (cupd (rmem st) c v) p' ->
  RI {| rmem := cupd (rmem st) c v; rlock := rlock st; rlog := rlog st ++ [];
        rthreads := upd_nth i (fun _ => {| todo := todo t; at_ := p' |}) (rthreads st) |}.
Proof.
  intros R Ht E1 E2 C NW Hc Hf.
  assert (O : own st i x) by (eapply own_cur; eauto; rewrite E1; simpl; auto).
  eapply preserve; eauto.
  - right. exists c, v. split; auto. left. eauto.
  - left. unfold pend. cbn [at_ todo]. now rewrite E1, E2.
  - intros y Hy. assert (Oy : own st i y).
    { exists t. split; auto. revert Hy. unfold pend. cbn [at_ todo]. now rewrite E1, E2. }
    destruct (r_own _ R _ _ Oy) as [Hy1 Hy2]. rewrite cupd_other; auto.
    destruct (did_dec (oid x) (oid y)) as [e|n].
    + rewrite <- (puts_inj x y); auto. apply (r_own _ R _ _ O).
    + rewrite slot0. apply not_covers_slot; [|lia]. apply (covers_apart x y); auto.
      apply (r_own _ R _ _ O).
  - now apply (slots_keep st i c v x).
  - simpl; tauto.
  - cbn [at_]. rewrite Hc. intros; eapply r_crit; eauto.
Qed.

Lemma is_inc_self d s : is_inc d s (Inc d s) = true.
Proof. simpl. now rewrite did_eqb_refl, Z.eqb_refl. Qed.

Lemma is_dec_self d s : is_dec d s (Dec d s) = true.
Proof. simpl. now rewrite did_eqb_refl, Z.eqb_refl. Qed.

(** Reference count updates under the lock. *)
Lemma preserve_ref st i t p' d s v e :
  RI st -> nth_error (rthreads st) i = Some t ->
  cur (at_ t) = [] -> cur p' = [] -> crit (at_ t) = true ->
  pub (rmem st) d s -> (4 | s) ->
  (e = Inc d s /\ v = rmem st (CS (s + 3)) + 1 \/ e = Dec d s /\ v = rmem st (CS (s + 3)) - 1) ->
  (changed st i (cupd (rmem st) (CS (s + 3)) v) -> tfact (cupd (rmem st) (CS (s + 3)) v) p') ->
  RI {| rmem := cupd (rmem st) (CS (s + 3)) v; rlock := rlock st; rlog := rlog st ++ [e];
        rthreads := upd_nth i (fun _ => {| todo := todo t; at_ := p' |}) (rthreads st) |}.
Proof.
  intros R Ht E1 E2 Hc Hp Hs He Hf.
  assert (L := r_crit _ R _ _ Ht Hc).
  assert (M : may_write st i (CS (s + 3))).
  { right. split; auto. destruct Hp as [x [Hx [_ [<- P]]]]. exists x. auto. }
  assert (C : changed st i (cupd (rmem st) (CS (s + 3)) v)) by (right; eauto).
  assert (NE : forall s', (4 | s') -> CS s' <> CS (s + 3)).
  { intros s' H' E. injection E as E. rewrite <- (Z.add_0_r s') in E.
    destruct (aligned_apart s' s 0 3); auto; lia. }
  eapply preserve; eauto.
  - left. unfold pend. cbn [at_ todo]. now rewrite E1, E2.
  - intros y Hy. assert (Oy : own st i y).
    { exists t. split; auto. revert Hy. unfold pend. cbn [at_ todo]. now rewrite E1, E2. }
    destruct (r_own _ R _ _ Oy) as [Hy1 Hy2]. rewrite cupd_other; auto. apply NE.
    now apply puts_slot.
  - intros s' Hs'. destruct (r_slots _ R s' Hs') as [E|[y [Hy [E [P Q]]]]].
    + left. rewrite cupd_other; auto.
    + right. exists y. split; [assumption|split; [assumption|split]].
      * eapply pub_keep; eauto.
      * unfold refs_ok in *. unfold incs, decs in *. rewrite !filter_app, !app_length.
        destruct Hp as [x [Hx [Ed [Es Px]]]].
        destruct (Z.eq_dec (oslot y) s) as [e1|n1].
        -- assert (y = x) by (apply slot_inj; congruence). subst y. subst d s.
           rewrite cupd_same. destruct He as [[-> ->]|[-> ->]]; rewrite Q.
           ++ cbn [filter]. rewrite is_inc_self. cbn [is_dec length]. lia.
           ++ cbn [filter]. rewrite is_dec_self. cbn [is_inc length]. lia.
        -- rewrite cupd_other, Q.
           ++ assert (F1 : filter (is_inc (oid y) (oslot y)) [e] = []).
              { destruct He as [[-> _]|[-> _]]; cbn [filter is_inc]; auto.
                assert (s =? oslot y = false) as -> by (apply Z.eqb_neq; auto).
                now rewrite andb_false_r. }
              assert (F2 : filter (is_dec (oid y) (oslot y)) [e] = []).
              { destruct He as [[-> _]|[-> _]]; cbn [filter is_dec]; auto.
                assert (s =? oslot y = false) as -> by (apply Z.eqb_neq; auto).
                now rewrite andb_false_r. }
              rewrite F1, F2. cbn [length]. lia.
           ++ intros E'. injection E' as E'. apply n1.
              apply (aligned_apart (oslot y) s 3 3); auto using puts_slot; lia.
  - intros e' [<-|[]]. destruct He as [[-> _]|[-> _]]; simpl; eapply changed_pub; eauto.
Qed.

(** The write of WORKER publishes the object. *)
Lemma preserve_publish st i t d r bs :
  RI st -> nth_error (rthreads st) i = Some t -> at_ t = PPub d r bs 3 ->
  RI {| rmem := cupd (rmem st) (CS (p_slot r)) (worker_id d); rlock := rlock st;
        rlog := rlog st ++ [];
        rthreads := upd_nth i (fun _ => {| todo := todo t; at_ := PPub d r bs 4 |}) (rthreads st) |}.
Proof.
  intros R Ht Ep. set (x := (d, r, bs) : obj).
  assert (O : own st i x) by (eapply own_cur; eauto; rewrite Ep; simpl; auto).
  destruct (r_own _ R _ _ O) as [Hx Hm].
  pose proof (r_fact _ R _ _ Ht) as F. rewrite Ep in F. simpl in F.
  destruct F as [F0 [F1 [F2 [F3 [F4 [F5 _]]]]]].
  assert (M : may_write st i (CS (p_slot r))).
  { left. exists x. split; auto. change (p_slot r) with (oslot x). rewrite slot0. apply cell_of. lia. }
  assert (NE : forall q, 0 < q < 4 -> CS (p_slot r + q) <> CS (p_slot r)).
  { intros q Hq e. injection e as e. lia. }
  assert (P : published (cupd (rmem st) (CS (p_slot r)) (worker_id d)) x).
  { repeat split; unfold x, oslot, ofirst, oid; cbn [fst snd].
    - apply cupd_same.
    - rewrite cupd_other; [apply F5; lia|apply NE; lia].
    - rewrite cupd_other; [apply F3; lia|apply NE; lia].
    - apply stored_keep; [intros; discriminate|exact F2]. }
  eapply preserve; eauto.
  - right. eauto.
  - right. exists x. unfold pend. cbn [at_ todo]. rewrite Ep. reflexivity.
  - intros y Hy. assert (Oy : own st i y).
    { exists t. split; auto. unfold pend. rewrite Ep. simpl. right. exact Hy. }
    destruct (r_own _ R _ _ Oy) as [Hy1 Hy2]. rewrite cupd_other; auto.
    intros E. injection E as E.
    assert (y = x) by (apply slot_inj; auto). subst y.
    pose proof (r_nodup _ R _ _ Ht) as N. unfold pend in N. rewrite Ep in N. simpl in N.
    inversion N; subst. contradiction.
  - intros s Hs. destruct (Z.eq_dec s (p_slot r)) as [->|n].
    + right. exists x. split; [assumption|split; [reflexivity|split; [exact P|]]].
      unfold refs_ok. rewrite app_nil_r. change (oslot x) with (p_slot r).
      rewrite cupd_other; [|apply NE; lia]. rewrite F4 by lia.
      unfold incs, decs. rewrite !filter_none; [simpl; lia| |].
      * intros e He. pose proof (r_ev _ R _ He) as Hk. destruct e; simpl in *; auto.
        destruct (did_eqb d0 (oid x)) eqn:Ed; auto. apply did_eqb_eq in Ed. subst d0. exfalso.
        destruct Hk as [y [Hy [E [_ Py]]]]. exact (pub_not_own st i x y R O Hy Py (eq_sym E)).
      * intros e He. pose proof (r_ev _ R _ He) as Hk. destruct e; simpl in *; auto.
        destruct (did_eqb d0 (oid x)) eqn:Ed; auto. apply did_eqb_eq in Ed. subst d0. exfalso.
        destruct Hk as [y [Hy [E [_ Py]]]]. exact (pub_not_own st i x y R O Hy Py (eq_sym E)).
    + destruct (r_slots _ R s Hs) as [E|[y [Hy [E [Py Q]]]]].
      * left. rewrite cupd_other; auto. congruence.
      * right. exists y. split; [assumption|split; [assumption|split]].
        -- eapply pub_keep; eauto.
        -- unfold refs_ok in *. rewrite app_nil_r, cupd_other; [exact Q|].
           intros e. injection e as e. rewrite <- (Z.add_0_r (p_slot r)) in e.
           destruct (aligned_apart (oslot y) (p_slot r) 3 0); auto using puts_slot; try lia.
           apply (puts_slot _ Hx).
  - simpl; tauto.
  - intros _. eapply r_crit; eauto. now rewrite Ep.
  - simpl. split; [assumption|]. split; [lia|]. destruct P as [P1 [P2 [P3 P4]]].
    split; [exact P4|]. repeat split; intros; auto; lia.
Qed.

Lemma stored_snoc m x k b : stored m x k -> nth_error (obytes x) k = Some b ->
  stored (cupd m (CD (ofirst x + Z.of_nat k)) b) x (S k).
Proof.
  intros H Hb q Hq b' Hb'. destruct (Nat.eq_dec q k) as [->|N].
  - rewrite cupd_same. congruence.
  - rewrite cupd_other; [apply H; auto; lia|]. intros E. injection E as E. lia.
Qed.

Lemma pub_checked st d s : RI st -> (4 | s) ->
  rmem st (CS s) = worker_id d -> rmem st (CS (s + 1)) = data_number d -> pub (rmem st) d s.
Proof.
  intros R Hs E1 E2. destruct (r_slots _ R s Hs) as [E|[x [Hx [<- [P Q]]]]].
  - exfalso. apply (wid_not (d, Build_place 0 0, [])). unfold oid; simpl. congruence.
  - exists x. repeat (split; [solve [auto]|]). split; [|split; auto].
    destruct P as [P1 [P2 _]]. destruct (oid x) as [a b], d as [a' b'].
    unfold worker_id, data_number in *. simpl in *. f_equal; lia.
Qed.

Ltac pq := eapply preserve_quiet;
  [ eassumption | eassumption
  | try (left; unfold pend; cbn [at_ todo]; match goal with H : at_ _ = _ |- _ => now rewrite H end)
  | try (simpl; tauto)
  | try solve [simpl; try discriminate; intros; auto; eauto]
  | try solve [auto | eauto]
  | cbn [at_]; try solve [simpl; auto | simpl; tauto]
  | solve [auto] || cbn [todo] ].

Lemma rstep_RI st i : RI st -> RI (rstep st i).
Proof.
  intros R. unfold rstep. destruct (nth_error (rthreads st) i) as [t|] eqn:Ht; [|assumption].
  pose proof (r_fact _ R _ _ Ht) as F.
  pose proof (r_crit _ R _ _ Ht) as Cr.
  assert (TD := fun o => r_todo _ R _ _ o Ht).
  destruct (at_ t) as [| d r bs k | d r bs k | d s n | d s n w | d s n | d s n | d s n v0 | d s n
     | d s n | d s n f acc | d s | d s w | d s | d s | d s v0 | d s | d s | d s | d s w | d s k |] eqn:Ep;
    simpl in F; try contradiction.
  - (* idle: start the next operation *)
    destruct (todo t) as [|o rest] eqn:Et; [assumption|].
    assert (Ho : In o (concat progs)) by (apply TD; simpl; auto).
    replace (rlog st) with (rlog st ++ []) by apply app_nil_r.
    pq.
    + left. unfold pend. cbn [at_ todo]. rewrite Ep, Et. destruct o; reflexivity.
    + destruct o; try (simpl; discriminate); simpl; try tauto.
    + cbn [at_]. destruct o as [d r bs|d s n|d s|d s]; simpl.
      * split; [lia|]. intros k Hk; lia.
      * destruct (Hgt _ Ho) as [H1 H2]. split; auto. intros [[d' r] bs] Hx E.
        unfold oid in E; simpl in E; subst d'. exact (H2 r bs Hx).
      * exact (Hgt _ Ho).
      * exact (Hnd _ _ Ho).
    + cbn [todo]. rewrite Et. intros; simpl; auto.
  - (* PData *)
    destruct F as [F1 F2].
    assert (O : own st i (d, r, bs)) by (eapply own_cur; eauto; rewrite Ep; simpl; auto).
    cbn [access]. destruct (nth_error bs k) as [b|] eqn:Eb.
    + assert (Hk : (k < length bs)%nat) by (apply nth_error_Some; congruence).
      apply (preserve_put st i t _ (d, r, bs)); auto.
      * now rewrite Ep.
      * left. exists k. split; auto.
      * discriminate.
      * now rewrite Ep.
      * simpl. split; [lia|]. exact (stored_snoc _ (d, r, bs) _ _ F2 Eb).
    + destruct (rlock st) eqn:El; [assumption|].
      assert (Hk : k = length bs) by (apply nth_error_None in Eb; lia). subst k.
      pq.
      * simpl. split; [apply (r_own _ R _ _ O)|]. split; [lia|]. split; [exact F2|].
        repeat split; intros; lia.
  - (* PPub *)
    destruct F as [F0 [F1 [F2 [F3 [F4 [F5 F6]]]]]].
    assert (Sl := puts_slot _ F0). unfold oslot in Sl; cbn [fst snd] in Sl.
    assert (NE : forall p q, 0 <= p < 4 -> 0 <= q < 4 -> p <> q -> CS (p_slot r + p) <> CS (p_slot r + q)).
    { intros p q Hp Hq N e. injection e as e. lia. }
    cbn [access]. destruct k as [|[|[|[|[|k]]]]]; [| | | | |lia].
    + apply (preserve_put st i t _ (d, r, bs)); auto.
      * now rewrite Ep.
      * apply (cell_of (d, r, bs)). lia.
      * rewrite slot0. apply (NE 2 0); lia.
      * now rewrite Ep.
      * simpl. split; [assumption|]. split; [lia|]. split; [apply stored_keep; auto; intros; discriminate|].
        split; [intros; apply cupd_same|]. split; [intros; lia|]. split; intros; lia.
    + apply (preserve_put st i t _ (d, r, bs)); auto.
      * now rewrite Ep.
      * apply (cell_of (d, r, bs)). lia.
      * rewrite slot0. apply (NE 3 0); lia.
      * now rewrite Ep.
      * simpl. split; [assumption|]. split; [lia|]. split; [apply stored_keep; auto; intros; discriminate|].
        split; [intros; rewrite cupd_other; [auto|apply NE; lia]|].
        split; [intros; apply cupd_same|]. split; intros; lia.
    + apply (preserve_put st i t _ (d, r, bs)); auto.
      * now rewrite Ep.
      * apply (cell_of (d, r, bs)). lia.
      * rewrite slot0. apply (NE 1 0); lia.
      * now rewrite Ep.
      * simpl. split; [assumption|]. split; [lia|]. split; [apply stored_keep; auto; intros; discriminate|].
        split; [intros; rewrite cupd_other; [auto|apply NE; lia]|].
        split; [intros; rewrite cupd_other; [apply F4; lia|apply NE; lia]|].
        split; [intros; apply cupd_same|intros; lia].
    + now apply preserve_publish.
    + pq.
  - (* GWorker *)
    cbn [access]. pq.
  - (* GNumber *)
    destruct F as [F1 F2]. cbn [access].
    destruct ((w =? worker_id d) && (rmem st (CS (s + 1)) =? data_number d)) eqn:Ec.
    + apply andb_true_iff in Ec. destruct Ec as [Ew En]. apply Z.eqb_eq in Ew, En.
      assert (w <> -1) by (rewrite Ew; apply (wid_not (d, Build_place 0 0, []))).
      pq.
      * simpl. split; auto. apply (pub_checked st d s); auto; [apply F1|].
        rewrite F2; auto.
    + pq.
      * intros e [<-|[]]. simpl; auto.
  - (* GLock *)
    cbn [access]. destruct (rlock st) eqn:El; [assumption|].
    pq.
  - (* GInc *)
    cbn [access]. pq.
  - (* GIncW *)
    destruct F as [F1 [F2 ->]]. cbn [access].
    apply (preserve_ref st i t (GUnlock d s n) d s); auto.
    + now rewrite Ep.
    + now rewrite Ep.
    + apply F1.
    + intros C. simpl. split; auto. eapply changed_pub; eauto.
  - (* GUnlock *)
    cbn [access]. pq.
  - (* GFirst *)
    destruct F as [F1 [x [Hx [E1 [E2 P]]]]].
    cbn [access]. pq.
    + simpl. split; auto. exists x. repeat (split; [assumption|]). split.
      * subst s. apply P.
      * exists (obytes x). reflexivity.
  - (* GData *)
    destruct F as [F1 [x [Hx [E1 [E2 [P [E3 [rest E4]]]]]]]].
    pose proof (proj2 F1 _ Hx E1) as Hn.
    cbn [access]. destruct (length acc <? n)%nat eqn:El.
    + apply Nat.ltb_lt in El. pq.
      * simpl. split; auto. exists x. repeat (split; [assumption|]).
        destruct rest as [|b rest].
        { exfalso. rewrite app_nil_r in E4. rewrite Hn, E4 in El. lia. }
        exists rest. rewrite <- app_assoc. simpl. rewrite E4. f_equal. f_equal.
        destruct P as [_ [_ [_ P4]]]. subst f. symmetry. apply P4; [lia|].
        rewrite E4. rewrite nth_error_app2 by lia. now rewrite Nat.sub_diag.
    + apply Nat.ltb_ge in El. pq.
      * intros e [<-|[]]. simpl. split; auto. exists x. repeat (split; [assumption|]).
        assert (rest = []).
        { destruct rest; auto. exfalso. apply (f_equal (@length Z)) in E4.
          rewrite app_length in E4. simpl in E4. lia. }
        subst rest. rewrite app_nil_r in E4. congruence.
  - (* FWorker *)
    cbn [access]. pq.
  - (* FNumber *)
    destruct F as [F1 F2]. cbn [access].
    destruct ((w =? worker_id d) && (rmem st (CS (s + 1)) =? data_number d)) eqn:Ec.
    + apply andb_true_iff in Ec. destruct Ec as [Ew En]. apply Z.eqb_eq in Ew, En.
      assert (w <> -1) by (rewrite Ew; apply (wid_not (d, Build_place 0 0, []))).
      pq.
      * simpl. split; auto. apply (pub_checked st d s); auto. rewrite F2; auto.
    + pq.
  - (* FLock *)
    cbn [access]. destruct (rlock st) eqn:El; [assumption|].
    pq.
  - (* FDec *)
    cbn [access]. pq.
  - (* FDecW *)
    destruct F as [F1 [F2 ->]]. cbn [access].
    apply (preserve_ref st i t (FUnlock d s) d s); auto.
    + now rewrite Ep.
    + now rewrite Ep.
    + intros C. simpl. split; auto. eapply changed_pub; eauto.
  - (* FUnlock *)
    cbn [access]. pq.
Qed.

Lemma flat_map_concat_in {A B} (f : A -> list B) ll x l :
  In l ll -> In x (flat_map f l) -> In x (flat_map f (concat ll)).
Proof.
  intros Hl Hx. apply in_flat_map in Hx. destruct Hx as [a [Ha Hx]].
  apply in_flat_map. exists a. split; auto. apply in_concat. eauto.
Qed.

Lemma nodup_app_l {A} (l l' : list A) : NoDup (l ++ l') -> NoDup l.
Proof.
  induction l as [|a l IH]; simpl; intros H; [constructor|]. inversion H; subst.
  constructor; auto. intros Ha. apply H2. apply in_or_app. auto.
Qed.

Lemma nodup_app_r {A} (l l' : list A) : NoDup (l ++ l') -> NoDup l'.
Proof. induction l; simpl; intros H; auto. inversion H; auto. Qed.

Lemma nodup_flat_split (ll : list (list rop)) :
  NoDup (map oid (flat_map put_of (concat ll))) ->
  (forall i l, nth_error ll i = Some l -> NoDup (flat_map put_of l)) /\
  (forall i j li lj x, nth_error ll i = Some li -> nth_error ll j = Some lj ->
     In x (flat_map put_of li) -> In x (flat_map put_of lj) -> i = j).
Proof.
  induction ll as [|l ll IH]; simpl; intros H.
  - split; [intros [|]; discriminate|intros [|]; discriminate].
  - rewrite flat_map_app, map_app in H.
    assert (H1 : NoDup (map oid (flat_map put_of l))) by (eapply nodup_app_l; eauto).
    assert (H2 : NoDup (map oid (flat_map put_of (concat ll)))) by (eapply nodup_app_r; eauto).
    assert (H3 : forall x l', In l' ll -> In x (flat_map put_of l) -> In x (flat_map put_of l') -> False).
    { intros x l' Hl' Hx Hx'.
      assert (In x (flat_map put_of (concat ll))) by (eapply flat_map_concat_in; eauto).
      clear - H Hx H0. revert H Hx. generalize (flat_map put_of l) as a. intros a.
      induction a as [|y a IHa]; simpl; intros H Hx; [contradiction|].
      inversion H as [|? ? Hn Hr]; subst. destruct Hx as [->|Hx]; [|now apply IHa].
      apply Hn. apply in_or_app. right. now apply in_map. }
    destruct (IH H2) as [A1 A2]. split.
    + intros [|i] l0 E; simpl in E; [|eauto]. apply Some_inj in E. subst l0.
      eapply NoDup_map_inv; eauto.
    + intros [|i] [|j] li lj x Ei Ej Xi Xj; simpl in Ei, Ej; auto.
      * exfalso. apply Some_inj in Ei. subst li. apply nth_error_In in Ej. eapply H3; eauto.
      * exfalso. apply Some_inj in Ej. subst lj. apply nth_error_In in Ei. eapply H3; eauto.
      * f_equal. eapply A2; eauto.
Qed.

Lemma rinit_RI : RI (rinit progs).
Proof.
  assert (N := proj1 Hpl). destruct (nodup_flat_split progs N) as [N1 N2].
  assert (TH : forall i t, nth_error (rthreads (rinit progs)) i = Some t ->
            exists ops, nth_error progs i = Some ops /\ t = {| todo := ops; at_ := PIdle |}).
  { intros i t H. unfold rinit in H; cbn [rthreads] in H. rewrite nth_error_map in H.
    destruct (nth_error progs i) as [ops|] eqn:E; simpl in H; [|discriminate].
    apply Some_inj in H. eauto. }
  constructor.
  - intros i x [t [Ht Hx]]. destruct (TH _ _ Ht) as [ops [E ->]]. unfold pend in Hx; simpl in Hx.
    split; [|reflexivity]. eapply flat_map_concat_in; eauto. eapply nth_error_In; eauto.
  - intros i j x [t [Ht Hx]] [t' [Ht' Hx']].
    destruct (TH _ _ Ht) as [ops [E ->]]. destruct (TH _ _ Ht') as [ops' [E' ->]].
    unfold pend in *; simpl in *. eapply N2; eauto.
  - intros i t Ht. destruct (TH _ _ Ht) as [ops [E ->]]. unfold pend; simpl. eauto.
  - intros s _. left. reflexivity.
  - simpl; tauto.
  - intros i t Ht Hc. destruct (TH _ _ Ht) as [ops [E ->]]. discriminate.
  - intros i t Ht. destruct (TH _ _ Ht) as [ops [E ->]]. exact I.
  - intros i t o Ht Ho. destruct (TH _ _ Ht) as [ops [E ->]]. simpl in Ho.
    apply in_concat. exists ops. split; auto. eapply nth_error_In; eauto.
Qed.

Lemma rrun_RI sched : RI (rrun progs sched).
Proof.
  unfold rrun. generalize rinit_RI. generalize (rinit progs). induction sched as [|i l IH]; simpl; intros st R; auto.
  apply IH. now apply rstep_RI.
Qed.

Lemma got_whole sched d s f bs : In (Got d s f bs) (rlog (rrun progs sched)) ->
  exists r, In (d, r, bs) PUTS /\ p_slot r = s /\ p_first r = f.
Proof.
  intros H. destruct (r_ev _ (rrun_RI sched) _ H) as [[[d' r] bs'] [Hx [E1 [E2 [E3 E4]]]]].
  exists r. unfold oid, oslot, ofirst, obytes in *; simpl in *. subst. auto.
Qed.

Lemma found_published sched d r bs : In (d, r, bs) PUTS ->
  let m := rmem (rrun progs sched) in
  m (CS (p_slot r)) = worker_id d -> m (CS (p_slot r + 1)) = data_number d ->
  m (CS (p_slot r + 2)) = p_first r /\
  (forall k b, nth_error bs k = Some b -> m (CD (p_first r + Z.of_nat k)) = b) /\
  m (CS (p_slot r + 3)) = 1 + incs (rlog (rrun progs sched)) d (p_slot r)
                            - decs (rlog (rrun progs sched)) d (p_slot r).
Proof.
  intros Hx m E1 E2. pose proof (rrun_RI sched) as R.
  destruct (r_slots _ R _ (puts_slot _ Hx)) as [E|[y [Hy [E [P Q]]]]].
  - exfalso. apply (wid_not (d, r, bs)). unfold oid, oslot in *; cbn [fst snd] in *.
    unfold m in E1. congruence.
  - assert (y = (d, r, bs)) by (apply slot_inj; auto). subst y.
    destruct P as [P1 [P2 [P3 P4]]]. split; [exact P3|]. split; [|exact Q].
    intros k b Hk. apply (P4 k); auto. apply nth_error_Some. unfold obytes; simpl. congruence.
Qed.

End Inv.
