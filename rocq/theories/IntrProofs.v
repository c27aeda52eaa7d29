From Verif Require Import Lib IntrModel IntrSpec.

Lemma iset_same {A} (f : nat -> A) k x : iset f k x k = x.
Proof. unfold iset. now rewrite Nat.eqb_refl. Qed.
Lemma iset_other {A} (f : nat -> A) k x i : i <> k -> iset f k x i = f i.
Proof. unfold iset. intros D. destruct (Nat.eqb_spec i k); congruence. Qed.

Lemma irun_snoc n ops o : irun n (ops ++ [o]) = match istep n (irun n ops) o with Some st' => st' | None => irun n ops end.
Proof. unfold irun. now rewrite fold_left_app. Qed.

Inductive tok := KTodo | KSent | KAnswered | KCounted | KLeft.

Section Early.
Variable n : nat.
Hypothesis pos : 0 < n.

Record KI (k : nat -> tok) (st : ist) : Prop := {
  k_cancel : forall w, i_cancel st w = match k w with KSent => 1 | _ => 0 end;
  k_ready : forall w, i_ready st w = match k w with KAnswered => 1 | _ => 0 end;
  k_wk : forall w, i_wk st w = match k w with KTodo | KSent => WLoop false | KAnswered | KCounted => WLoop true | KLeft => WLeft end;
  k_down : forall w, i_down st w = match i_mon st, k w with None, KCounted => 1 | _, _ => 0 end;
  k_some : forall l, i_mon st = Some l -> NoDup l /\ (forall w, In w l <-> k w = KCounted) /\ (forall w, k w <> KLeft) /\ length l < n;
  k_none : i_mon st = None -> forall w, w < n -> k w = KCounted \/ k w = KLeft;
  k_out : forall w, n <= w -> k w = KTodo;
  k_root : match i_root st with
           | RProg => forall w, k w = KTodo
           | RSend todo => NoDup todo /\ forall w, In w todo <-> w < n /\ k w = KTodo
           | _ => forall w, w < n -> k w <> KTodo
           end;
  k_back : i_back st = match i_mon st, i_root st with None, (RFin | RDone) => 0 | None, _ => 1 | _, _ => 0 end;
  k_fin : match i_root st with RFin | RDone => i_mon st = None | _ => True end;
  k_done : i_root st = RDone -> forall w, w < n -> k w = KLeft
}.

Lemma ki_init : KI (fun _ => KTodo) iinit.
Proof.
  split; cbn; auto; try discriminate. intros l E. injection E as <-. split; [constructor|]. split; [intros w; split; [intros []|discriminate]|]. split; [discriminate|exact pos].
Qed.

Definition early (st : ist) (o : iop) : Prop :=
  o = ISignal -> match i_root st with RSend todo => todo = seq 0 n | RWait | RFin => False | _ => True end.

Lemma left_in k w : (forall v, n <= v -> k v = KTodo) -> k w <> KTodo -> w < n.
Proof. intros H D. destruct (Nat.lt_ge_cases w n); [assumption|]. elim D. now apply H. Qed.

Definition weight (t : tok) : nat := match t with KTodo => 4 | KSent => 3 | KAnswered => 2 | KCounted => 1 | KLeft => 0 end.
Definition total (k : nat -> tok) : nat := list_sum (map (fun w => weight (k w)) (seq 0 n)).
Definition rweight (r : rphase) : nat := match r with RSend _ => 3 | RWait => 2 | RFin => 1 | _ => 0 end.

Lemma sum_set (f g : nat -> nat) w l : NoDup l -> In w l -> (forall v, v <> w -> g v = f v) -> list_sum (map g l) + f w = list_sum (map f l) + g w.
Proof.
  intros N. induction N as [|x l X N IH]; intros I E; [destruct I|]. cbn [map]. change (list_sum (?a :: ?b)) with (a + list_sum b). destruct (Nat.eq_dec x w) as [->|D].
  - assert (Z : map g l = map f l) by (apply map_ext_in; intros v V; apply E; congruence). rewrite Z. lia.
  - destruct I as [I|I]; [congruence|]. specialize (IH I E). rewrite (E x D). lia.
Qed.
Lemma total_set k w t : w < n -> total (iset k w t) + weight (k w) = total k + weight t.
Proof.
  intros L. unfold total. assert (E := sum_set (fun v => weight (k v)) (fun v => weight (iset k w t v)) w (seq 0 n) (seq_NoDup n 0)).
  cbv beta in E. rewrite iset_same in E. apply E; [apply in_seq; lia|]. intros v D. now rewrite iset_other.
Qed.

(** Every step other than a call of shutdown or a signal brings the end nearer. *)
Lemma ki_step k st o st' : KI k st -> early st o -> istep n st o = Some st' ->
  exists k', KI k' st' /\ (o <> ICall -> o <> ISignal -> total k' + rweight (i_root st') < total k + rweight (i_root st)).
Proof.
  intros [A1 A2 A3 A4 A5 A6 A7 A8 A9 A10 A11] Ea H. destruct o as [| | |w|w|w]; cbn [istep] in H.
  - destruct (i_root st) eqn:R; try discriminate. injection H as <-. exists k. split; [|congruence]. split; cbn; auto; try discriminate.
    split; [apply seq_NoDup|]. intros w. rewrite in_seq. split; [intros L; split; [lia|apply A8]|intros [L _]; lia].
  - destruct (i_root st) as [|[|w t]| | |] eqn:R; try discriminate.
    + injection H as <-. exists k. split; [|intros _ _; cbn; lia]. split; cbn; auto; try discriminate. intros w L E. destruct A8 as [_ A8]. apply (A8 w). auto.
    + injection H as <-. destruct A8 as [Nd A8]. assert (T : w < n /\ k w = KTodo) by (apply A8; now left). destruct T as [L T]. exists (iset k w KSent).
      assert (V : forall v, iset k w KSent v = KCounted <-> k v = KCounted). { intros v. destruct (Nat.eq_dec v w) as [->|D]; [rewrite iset_same, T; split; discriminate|now rewrite iset_other]. }
      split.
      * split; cbn [i_cancel i_ready i_wk i_down i_mon i_root i_back]; try discriminate; auto.
        -- intros v. destruct (Nat.eq_dec v w) as [->|D]; [rewrite !iset_same, A1, T; reflexivity|rewrite !iset_other by exact D; apply A1].
        -- intros v. rewrite A2. destruct (Nat.eq_dec v w) as [->|D]; [rewrite iset_same, T; reflexivity|now rewrite iset_other].
        -- intros v. rewrite A3. destruct (Nat.eq_dec v w) as [->|D]; [rewrite iset_same, T; reflexivity|now rewrite iset_other].
        -- intros v. rewrite A4. destruct (Nat.eq_dec v w) as [->|D]; [rewrite iset_same, T; reflexivity|now rewrite iset_other].
        -- intros l E. destruct (A5 l E) as (B1 & B2 & B3 & B4). split; [exact B1|]. split; [intros v; rewrite V; apply B2|]. split; [|exact B4].
           intros v. destruct (Nat.eq_dec v w) as [->|D]; [rewrite iset_same; discriminate|rewrite iset_other by exact D; apply B3].
        -- intros E. destruct (A6 E w L); congruence.
        -- intros v Lv. rewrite iset_other by lia. auto.
        -- inversion Nd as [|? ? X Nd']; subst. split; [exact Nd'|]. intros v. destruct (Nat.eq_dec v w) as [->|D].
           ++ rewrite iset_same. split; [contradiction|intros [_ E]; discriminate].
           ++ rewrite iset_other by exact D. rewrite <- A8. split; [now right|intros [E|E]; [congruence|exact E]].
      * intros _ _. assert (S0 := total_set k w KSent L). rewrite T in S0. cbn in S0 |- *. lia.
    + destruct (i_back st) as [|b] eqn:B; [discriminate|]. injection H as <-. exists k. assert (M : i_mon st = None). { destruct (i_mon st); [discriminate|reflexivity]. }
      rewrite M in *. split; [|intros _ _; cbn; lia]. split; cbn; auto; try discriminate; rewrite M; auto.
    + destruct (all_left n st) eqn:Al; [|discriminate]. injection H as <-. exists k. split; [|intros _ _; cbn; lia]. split; cbn; auto.
      intros _ w L. unfold all_left in Al. rewrite A10 in Al. assert (X := proj1 (forallb_forall _ _) Al w ltac:(apply in_seq; lia)). cbv beta in X. rewrite A3 in X. destruct (k w); try discriminate X; reflexivity.
  - specialize (Ea eq_refl). destruct (i_root st) as [|todo| | |] eqn:R; try discriminate; try (exfalso; exact Ea). injection H as <-. exists k. split; [|congruence]. destruct A8 as [_ A8]. subst todo.
    split; cbn; auto; try discriminate.
    intros w. destruct (Nat.lt_ge_cases w n) as [L|L]; [|now apply A7]. apply (A8 w). apply in_seq. lia.
  - rewrite A1, A3 in H. destruct (k w) eqn:T; try discriminate. injection H as <-. assert (L : w < n) by (apply (left_in k); [exact A7|congruence]). exists (iset k w KAnswered).
    assert (V : forall v, iset k w KAnswered v = KCounted <-> k v = KCounted). { intros v. destruct (Nat.eq_dec v w) as [->|D]; [rewrite iset_same, T; split; discriminate|now rewrite iset_other]. }
    assert (V0 : forall v, iset k w KAnswered v = KTodo <-> k v = KTodo). { intros v. destruct (Nat.eq_dec v w) as [->|D]; [rewrite iset_same, T; split; discriminate|now rewrite iset_other]. }
    split.
    + split; cbn [i_cancel i_ready i_wk i_down i_mon i_root i_back]; auto.
      * intros v. destruct (Nat.eq_dec v w) as [->|D]; [now rewrite !iset_same|rewrite !iset_other by exact D; apply A1].
      * intros v. destruct (Nat.eq_dec v w) as [->|D]; [rewrite !iset_same, A2, T; reflexivity|rewrite !iset_other by exact D; apply A2].
      * intros v. destruct (Nat.eq_dec v w) as [->|D]; [now rewrite !iset_same|rewrite !iset_other by exact D; apply A3].
      * intros v. rewrite A4. destruct (Nat.eq_dec v w) as [->|D]; [rewrite iset_same, T; reflexivity|now rewrite iset_other].
      * intros l E. destruct (A5 l E) as (B1 & B2 & B3 & B4). split; [exact B1|]. split; [intros v; rewrite V; apply B2|]. split; [|exact B4].
        intros v. destruct (Nat.eq_dec v w) as [->|D]; [rewrite iset_same; discriminate|rewrite iset_other by exact D; apply B3].
      * intros E. destruct (A6 E w L); congruence.
      * intros v Lv. rewrite iset_other by lia. auto.
      * destruct (i_root st) as [|todo| | |].
        -- intros v. apply V0, A8.
        -- destruct A8 as [Nd A8]. split; [exact Nd|]. intros v. rewrite V0. apply A8.
        -- intros v Lv. rewrite V0. auto.
        -- intros v Lv. rewrite V0. auto.
        -- intros v Lv. rewrite V0. auto.
      * intros E. specialize (A11 E w L). congruence.
    + intros _ _. assert (S0 := total_set k w KAnswered L). rewrite T in S0. cbn in S0 |- *. lia.
  - rewrite A2 in H. destruct (k w) eqn:T; try discriminate. destruct (i_mon st) as [l|] eqn:M; [|discriminate]. assert (L : w < n) by (apply (left_in k); [exact A7|congruence]).
    destruct (A5 l eq_refl) as (B1 & B2 & B3 & B4).
    assert (Nw : ~ In w l) by (rewrite B2, T; discriminate).
    assert (V : forall v, iset k w KCounted v = KCounted <-> In v (l ++ [w])).
    { intros v. rewrite in_app_iff. destruct (Nat.eq_dec v w) as [->|D]; [rewrite iset_same; cbn; tauto|rewrite iset_other by exact D; rewrite B2; cbn; intuition congruence]. }
    assert (V0 : forall v, iset k w KCounted v = KTodo <-> k v = KTodo). { intros v. destruct (Nat.eq_dec v w) as [->|D]; [rewrite iset_same, T; split; discriminate|now rewrite iset_other]. }
    assert (VL : forall v, iset k w KCounted v <> KLeft). { intros v. destruct (Nat.eq_dec v w) as [->|D]; [rewrite iset_same; discriminate|rewrite iset_other by exact D; apply B3]. }
    assert (Nd2 : NoDup (l ++ [w])). { clear - B1 Nw. induction B1 as [|x l X N IH]; cbn; [repeat constructor; auto|]. constructor; [|apply IH; intros I; apply Nw; now right]. rewrite in_app_iff. intros [I|[I|[]]]; [auto|subst; apply Nw; now left]. }
    assert (W : total (iset k w KCounted) < total k) by (assert (S0 := total_set k w KCounted L); rewrite T in S0; cbn in S0; lia).
    assert (Rt : match i_root st with RProg => forall v, iset k w KCounted v = KTodo | RSend todo => NoDup todo /\ forall v, In v todo <-> v < n /\ iset k w KCounted v = KTodo | _ => forall v, v < n -> iset k w KCounted v <> KTodo end).
    { destruct (i_root st) as [|todo| | |].
      - intros v. apply V0, A8.
      - destruct A8 as [Nd A8]. split; [exact Nd|]. intros v. rewrite V0. apply A8.
      - intros v Lv. rewrite V0. auto.
      - intros v Lv. rewrite V0. auto.
      - intros v Lv. rewrite V0. auto. }
    assert (NF : i_root st <> RFin /\ i_root st <> RDone) by (split; intros E; rewrite E in A10; discriminate).
    exists (iset k w KCounted). destruct (Nat.eqb_spec (length (l ++ [w])) n) as [E|E]; injection H as <-; (split; [|intros _ _; cbn; lia]).
    + assert (All : forall v, v < n -> In v (l ++ [w])).
      { intros v Lv. assert (Inc : incl (seq 0 n) (l ++ [w])).
        { apply (NoDup_length_incl Nd2); [rewrite seq_length, E; auto|]. intros x I. apply in_seq. apply V in I. split; [lia|]. cbn. apply (left_in (iset k w KCounted)); [|congruence]. intros y Ly. apply V0, A7. exact Ly. }
        apply Inc, in_seq. lia. }
      split; cbn [i_cancel i_ready i_wk i_down i_mon i_root i_back]; try discriminate; auto.
      * intros v. rewrite A1. destruct (Nat.eq_dec v w) as [->|D]; [rewrite iset_same, T; reflexivity|now rewrite iset_other].
      * intros v. destruct (Nat.eq_dec v w) as [->|D]; [now rewrite !iset_same|rewrite !iset_other by exact D; apply A2].
      * intros v. rewrite A3. destruct (Nat.eq_dec v w) as [->|D]; [rewrite iset_same, T; reflexivity|now rewrite iset_other].
      * intros v. rewrite A4. destruct (Nat.ltb_spec v n) as [Lv|Lv].
        -- apply All, V in Lv. now rewrite Lv.
        -- rewrite (proj2 (V0 v) (A7 v Lv)). reflexivity.
      * intros _ v Lv. left. apply V. auto.
      * intros v Lv. apply V0. auto.
      * rewrite A9. destruct NF. destruct (i_root st); congruence.
      * destruct NF. destruct (i_root st); congruence.
      * intros X. destruct NF. congruence.
    + split; cbn [i_cancel i_ready i_wk i_down i_mon i_root i_back]; try discriminate; auto.
      * intros v. rewrite A1. destruct (Nat.eq_dec v w) as [->|D]; [rewrite iset_same, T; reflexivity|now rewrite iset_other].
      * intros v. destruct (Nat.eq_dec v w) as [->|D]; [now rewrite !iset_same|rewrite !iset_other by exact D; apply A2].
      * intros v. rewrite A3. destruct (Nat.eq_dec v w) as [->|D]; [rewrite iset_same, T; reflexivity|now rewrite iset_other].
      * intros l' X. injection X as <-. split; [exact Nd2|]. split; [intros v; symmetry; apply V|]. split; [exact VL|]. rewrite app_length in *. cbn in *. lia.
      * intros v Lv. apply V0. auto.
      * destruct NF. destruct (i_root st); congruence.
      * intros X. destruct NF. congruence.
  - rewrite A4, A3 in H. destruct (i_mon st) as [l|] eqn:M; [discriminate|]. destruct (k w) eqn:T; try discriminate. injection H as <-. assert (L : w < n) by (apply (left_in k); [exact A7|congruence]). exists (iset k w KLeft).
    assert (V0 : forall v, iset k w KLeft v = KTodo <-> k v = KTodo). { intros v. destruct (Nat.eq_dec v w) as [->|D]; [rewrite iset_same, T; split; discriminate|now rewrite iset_other]. }
    split.
    + split; cbn [i_cancel i_ready i_wk i_down i_mon i_root i_back]; auto; try discriminate.
      * intros v. rewrite A1. destruct (Nat.eq_dec v w) as [->|D]; [rewrite iset_same, T; reflexivity|now rewrite iset_other].
      * intros v. rewrite A2. destruct (Nat.eq_dec v w) as [->|D]; [rewrite iset_same, T; reflexivity|now rewrite iset_other].
      * intros v. destruct (Nat.eq_dec v w) as [->|D]; [now rewrite !iset_same|rewrite !iset_other by exact D; apply A3].
      * intros v. destruct (Nat.eq_dec v w) as [->|D]; [now rewrite !iset_same|rewrite !iset_other by exact D; apply A4].
      * intros _ v Lv. destruct (Nat.eq_dec v w) as [->|D]; [rewrite iset_same; auto|rewrite iset_other by exact D; auto].
      * intros v Lv. rewrite iset_other by lia. auto.
      * destruct (i_root st) as [|todo| | |].
        -- intros v. apply V0, A8.
        -- destruct A8 as [Nd A8]. split; [exact Nd|]. intros v. rewrite V0. apply A8.
        -- intros v Lv. rewrite V0. auto.
        -- intros v Lv. rewrite V0. auto.
        -- intros v Lv. rewrite V0. auto.
      * intros E v Lv. destruct (Nat.eq_dec v w) as [->|D]; [now rewrite iset_same|rewrite iset_other by exact D; auto].
    + intros _ _. assert (S0 := total_set k w KLeft L). rewrite T in S0. cbn in S0 |- *. lia.
Qed.

Lemma early_front ops o : signals_early n (ops ++ [o]) -> signals_early n ops /\ early (irun n ops) o.
Proof.
  intros S0. split.
  - intros pre post E. apply (S0 pre (post ++ [o])). rewrite E, <- app_assoc. reflexivity.
  - intros ->. exact (S0 ops [] eq_refl).
Qed.

Lemma ki_run ops : signals_early n ops -> exists k, KI k (irun n ops).
Proof.
  induction ops as [|o ops IH] using rev_ind; intros S0; [exists (fun _ => KTodo); exact ki_init|].
  apply early_front in S0 as [S0 E]. destruct (IH S0) as (k & K). rewrite irun_snoc. destruct (istep n (irun n ops) o) as [st'|] eqn:H; [|eauto].
  destruct (ki_step k _ o st' K E H) as (k' & K' & _). eauto.
Qed.

Lemma no_failure ops : signals_early n ops -> forall w, i_wk (irun n ops) w <> WFailed.
Proof. intros S0 w E. destruct (ki_run ops S0) as (k & K). rewrite (k_wk _ _ K) in E. destruct (k w); discriminate. Qed.

(** Something can go on. *)
Lemma find_tok (k : nat -> tok) (f : tok -> bool) : (exists w, w < n /\ f (k w) = true) \/ forall w, w < n -> f (k w) = false.
Proof.
  destruct (existsb (fun w => f (k w)) (seq 0 n)) eqn:E.
  - apply existsb_exists in E as (w & I & F). apply in_seq in I. left. exists w. split; [lia|exact F].
  - right. intros w L. destruct (f (k w)) eqn:F; [|reflexivity]. assert (X : existsb (fun w => f (k w)) (seq 0 n) = true) by (apply existsb_exists; exists w; split; [apply in_seq; lia|exact F]). congruence.
Qed.

Lemma moves k st : KI k st -> in_shutdown st -> exists o st', o <> ICall /\ o <> ISignal /\ istep n st o = Some st'.
Proof.
  intros K S0. assert (K' := K). destruct K' as [A1 A2 A3 A4 A5 A6 A7 A8 A9 A10 A11]. unfold in_shutdown in S0.
  assert (Go : forall st', istep n st IGo = Some st' -> exists o st', o <> ICall /\ o <> ISignal /\ istep n st o = Some st') by (intros st' H; exists IGo, st'; repeat split; try discriminate; exact H).
  destruct (i_root st) as [|[|w t]| | |] eqn:R; try destruct S0.
  - eapply Go. cbn. rewrite R. reflexivity.
  - eapply Go. cbn. rewrite R. reflexivity.
  - destruct (i_mon st) as [l|] eqn:M.
    + destruct (find_tok k (fun t => match t with KSent => true | _ => false end)) as [(w & L & T)|N1].
      { destruct (k w) eqn:T'; try discriminate. eexists (ICancel w), _. split; [discriminate|]. split; [discriminate|]. cbn. rewrite A1, A3, T'. reflexivity. }
      destruct (find_tok k (fun t => match t with KAnswered => true | _ => false end)) as [(w & L & T)|N2].
      { destruct (k w) eqn:T'; try discriminate. exists (IReady w). cbn. rewrite A2, T', M. destruct (Nat.eqb (length (l ++ [w])) n); eexists; (split; [discriminate|]; split; [discriminate|reflexivity]). }
      exfalso. destruct (A5 l eq_refl) as (B1 & B2 & B3 & B4). assert (Inc : incl (seq 0 n) l).
      { intros w I. apply in_seq in I. apply B2. specialize (N1 w ltac:(lia)). specialize (N2 w ltac:(lia)). specialize (A8 w ltac:(lia)). specialize (B3 w). destruct (k w); congruence. }
      assert (Z := NoDup_incl_length (seq_NoDup n 0) Inc). rewrite seq_length in Z. lia.
    + eapply Go. cbn. rewrite R, A9. reflexivity.
  - destruct (find_tok k (fun t => match t with KCounted => true | _ => false end)) as [(w & L & T)|N1].
    { destruct (k w) eqn:T'; try discriminate. eexists (IDown w), _. split; [discriminate|]. split; [discriminate|]. cbn. rewrite A4, A3, A10, T'. reflexivity. }
    eapply Go. cbn. rewrite R. replace (all_left n st) with true; [reflexivity|]. symmetry. unfold all_left. rewrite A10. apply forallb_forall. intros w I. apply in_seq in I. rewrite A3.
    specialize (N1 w ltac:(lia)). destruct (A6 A10 w ltac:(lia)) as [X|X]; rewrite X in *; [discriminate|reflexivity].
Qed.

Lemma still_in k st o st' : KI k st -> o <> ISignal -> in_shutdown st -> istep n st o = Some st' -> in_shutdown st' \/ i_root st' = RDone.
Proof.
  intros K D S0 H. unfold in_shutdown in *. destruct o; cbn in H; try congruence.
  - destruct (i_root st); try discriminate. destruct S0.
  - destruct (i_root st) as [|[|w t]| | |] eqn:R; try discriminate.
    + injection H as <-. cbn. auto.
    + injection H as <-. cbn. auto.
    + destruct (i_back st); [discriminate|]. injection H as <-. cbn. auto.
    + destruct (all_left n st); [|discriminate]. injection H as <-. cbn. auto.
  - destruct (i_cancel st w); [discriminate|]. destruct (i_wk st w); try discriminate. injection H as <-. cbn. auto.
  - destruct (i_ready st w); [discriminate|]. destruct (i_mon st) as [l|]; [|discriminate]. destruct (Nat.eqb (length (l ++ [w])) n); injection H as <-; cbn; auto.
  - destruct (i_down st w); [discriminate|]. destruct (i_wk st w); try discriminate. injection H as <-. cbn. auto.
Qed.

Lemma early_more ops o : signals_early n ops -> o <> ISignal -> signals_early n (ops ++ [o]).
Proof.
  intros S0 D pre post E. destruct post as [|x post].
  - apply app_inj_tail in E as [_ E]. congruence.
  - destruct (@exists_last _ (x :: post)) as (q & y & Q); [discriminate|]. rewrite Q in E. change (pre ++ ISignal :: q ++ [y]) with (pre ++ (ISignal :: q) ++ [y]) in E. rewrite app_assoc in E. apply app_inj_tail in E as [E _]. exact (S0 pre q E).
Qed.

Lemma done_all k st : KI k st -> i_root st = RDone -> shut_down n st.
Proof. intros K R. split; [exact R|]. assert (M := k_fin _ _ K). rewrite R in M. split; [exact M|]. intros w L. now rewrite (k_wk _ _ K), (k_done _ _ K R w L). Qed.

Theorem ends ops : signals_early n ops -> in_shutdown (irun n ops) -> exists more, ~ In ISignal more /\ shut_down n (irun n (ops ++ more)).
Proof.
  intros S0 S1. destruct (ki_run ops S0) as (k & K). remember (total k + rweight (i_root (irun n ops))) as m eqn:E. revert ops k S0 S1 K E.
  induction m as [m IH] using lt_wf_ind. intros ops k S0 S1 K E. destruct (moves k _ K S1) as (o & st' & D1 & D2 & H).
  assert (Ea : early (irun n ops) o) by (intros X; congruence). destruct (ki_step k _ o st' K Ea H) as (k' & K' & Less). specialize (Less D1 D2).
  assert (Rn : irun n (ops ++ [o]) = st') by (rewrite irun_snoc, H; reflexivity).
  destruct (still_in k _ o st' K D2 S1 H) as [S2|S2].
  - destruct (IH (total k' + rweight (i_root st')) ltac:(lia) (ops ++ [o]) k') as (more & N & Sd); rewrite ?Rn; auto.
    { apply early_more; assumption. }
    exists (o :: more). rewrite <- app_assoc in Sd. split; [|exact Sd]. intros [X|X]; [congruence|auto].
  - exists [o]. split; [intros [X|[]]; congruence|]. rewrite Rn. now apply (done_all k').
Qed.

(** And a run cannot go on for ever without calls of shutdown and signals: see [ki_step]. At a final state everybody has left. *)
Theorem final ops : signals_early n ops -> (forall o, o <> ISignal -> o <> ICall -> istep n (irun n ops) o = None) -> ~ in_shutdown (irun n ops).
Proof. intros S0 F S1. destruct (ki_run ops S0) as (k & K). destruct (moves k _ K S1) as (o & st' & D1 & D2 & H). rewrite (F o D2 D1) in H. discriminate. Qed.
End Early.

(** ** Interrupted after the answer of the monitor *)
Definition late_inv (st : ist) : Prop := i_mon st = None /\ i_back st = 0 /\ match i_root st with RFin | RDone => False | _ => True end.

Lemma late_step n st o st' : late_inv st -> istep n st o = Some st' -> late_inv st'.
Proof.
  intros (M & B & R) H. destruct o; cbn in H.
  - destruct (i_root st); try discriminate. injection H as <-. repeat split; auto.
  - destruct (i_root st) as [|[|w t]| | |]; try discriminate; try destruct R.
    + injection H as <-. repeat split; auto.
    + injection H as <-. repeat split; auto.
    + rewrite B in H. discriminate.
  - destruct (i_root st); try discriminate; injection H as <-; repeat split; auto.
  - destruct (i_cancel st w); [discriminate|]. destruct (i_wk st w); try discriminate. injection H as <-. repeat split; auto.
  - rewrite M in H. destruct (i_ready st w); discriminate.
  - destruct (i_down st w); [discriminate|]. destruct (i_wk st w); try discriminate. injection H as <-. repeat split; auto.
Qed.

Definition one_answer (st : ist) : Prop :=
  match i_mon st with
  | Some _ => i_back st = 0 /\ match i_root st with RFin | RDone => False | _ => True end
  | None => match i_root st with RFin | RDone => i_back st = 0 | _ => i_back st <= 1 end
  end.

Lemma one_step n st o st' : one_answer st -> istep n st o = Some st' -> one_answer st'.
Proof.
  unfold one_answer. intros A H. destruct o; cbn in H.
  - destruct (i_root st); try discriminate. injection H as <-. cbn. exact A.
  - destruct (i_root st) as [|[|w t]| | |] eqn:R; try discriminate.
    + injection H as <-. cbn. exact A.
    + injection H as <-. cbn. exact A.
    + destruct (i_back st) as [|b] eqn:B; [discriminate|]. injection H as <-. cbn. destruct (i_mon st); [destruct A; discriminate|lia].
    + destruct (all_left n st); [|discriminate]. injection H as <-. cbn. exact A.
  - destruct (i_root st); try discriminate; injection H as <-; cbn; destruct (i_mon st); auto; try (destruct A; auto; fail); lia.
  - destruct (i_cancel st w); [discriminate|]. destruct (i_wk st w); try discriminate. injection H as <-. exact A.
  - destruct (i_ready st w); [discriminate|]. destruct (i_mon st) as [l|]; [|discriminate]. destruct (Nat.eqb (length (l ++ [w])) n); injection H as <-; cbn; [|exact A].
    destruct A as [B R]. rewrite B. destruct (i_root st); auto; destruct R.
  - destruct (i_down st w); [discriminate|]. destruct (i_wk st w); try discriminate. injection H as <-. exact A.
Qed.

Lemma one_run n ops : one_answer (irun n ops).
Proof.
  induction ops as [|o ops IH] using rev_ind; [cbn; auto|]. rewrite irun_snoc. destruct (istep n (irun n ops) o) eqn:H; [|exact IH]. eapply one_step; eauto.
Qed.

Theorem late n pre post : i_root (irun n pre) = RFin -> i_root (irun n (pre ++ ISignal :: post)) <> RDone /\ ~ shut_down n (irun n (pre ++ ISignal :: post)).
Proof.
  intros R. assert (L : late_inv (irun n (pre ++ ISignal :: post))).
  { change (pre ++ ISignal :: post) with (pre ++ [ISignal] ++ post). rewrite app_assoc. induction post as [|o post IH] using rev_ind.
    - rewrite app_nil_r, irun_snoc. cbn. rewrite R. assert (A := one_run n pre). unfold one_answer in A. rewrite R in A. destruct (i_mon (irun n pre)) eqn:M; [destruct A as [_ []]|]. repeat split; auto.
    - rewrite app_assoc, irun_snoc. destruct (istep n _ o) eqn:H; [|exact IH]. eapply late_step; eauto. }
  destruct L as (_ & _ & X). split; [intros E; now rewrite E in X|]. intros [E _]. now rewrite E in X.
Qed.

(** ** One worker *)
Definition one_worker (st : ist) : Prop :=
  (forall w, i_wk st w <> WFailed) /\ (forall w, i_down st w <> 0 -> w = 0 /\ i_wk st 0 <> WLoop false) /\
  (forall w, i_ready st w <> 0 -> w = 0 /\ i_wk st 0 <> WLoop false) /\ (forall w, i_cancel st w <> 0 -> w = 0) /\
  match i_root st with RSend todo => forall w, In w todo -> w = 0 | _ => True end.

Lemma worker_step st o st' : one_worker st -> istep 1 st o = Some st' -> one_worker st'.
Proof.
  intros (A & B & C & D & E) H. destruct o; cbn in H.
  - destruct (i_root st); try discriminate. injection H as <-. unfold one_worker; cbn. split; [exact A|]. split; [exact B|]. split; [exact C|]. split; [exact D|]. intros w [I|[]]; auto.
  - destruct (i_root st) as [|[|w t]| | |] eqn:R; try discriminate.
    + injection H as <-. unfold one_worker; cbn; auto.
    + injection H as <-. unfold one_worker; cbn. split; [exact A|]. split; [exact B|]. split; [exact C|]. split; [|intros v I; apply E; now right].
      intros v N. destruct (Nat.eq_dec v w) as [->|Dv]; [apply E; now left|rewrite iset_other in N by exact Dv; auto].
    + destruct (i_back st); [discriminate|]. injection H as <-. unfold one_worker; cbn; auto.
    + destruct (all_left 1 st); [|discriminate]. injection H as <-. unfold one_worker; cbn; auto.
  - destruct (i_root st); try discriminate; injection H as <-; unfold one_worker; cbn; auto.
  - destruct (i_cancel st w) as [|c] eqn:Cw; [discriminate|]. assert (w = 0) as -> by (apply D; lia). destruct (i_wk st 0) eqn:W; try discriminate. injection H as <-. unfold one_worker; cbn.
    assert (P : iset (i_wk st) 0 (WLoop true) 0 <> WLoop false) by (rewrite iset_same; discriminate).
    split; [|split; [|split; [|split]]].
    + intros v. destruct (Nat.eq_dec v 0) as [->|Dv]; [rewrite iset_same; discriminate|rewrite iset_other by exact Dv; apply A].
    + intros v N. split; [apply (B v N)|exact P].
    + intros v N. split; [|exact P]. destruct (Nat.eq_dec v 0) as [->|Dv]; [reflexivity|rewrite iset_other in N by exact Dv; apply (C v N)].
    + intros v N. destruct (Nat.eq_dec v 0) as [->|Dv]; [reflexivity|rewrite iset_other in N by exact Dv; auto].
    + exact E.
  - destruct (i_ready st w) as [|c] eqn:Cw; [discriminate|]. destruct (C w ltac:(lia)) as [-> P]. destruct (i_mon st) as [l|]; [|discriminate].
    assert (Cr : forall v, iset (i_ready st) 0 c v <> 0 -> v = 0 /\ i_wk st 0 <> WLoop false). { intros v N. split; [|exact P]. destruct (Nat.eq_dec v 0) as [->|Dv]; [reflexivity|rewrite iset_other in N by exact Dv; apply (C v N)]. }
    destruct (Nat.eqb (length (l ++ [0])) 1); injection H as <-; unfold one_worker; cbn; (split; [exact A|]); (split; [|split; [exact Cr|split; [exact D|exact E]]]); [|exact B].
    intros v N. split; [|exact P]. destruct v as [|v]; [reflexivity|]. cbn in N. apply (B (S v) N).
  - destruct (i_down st w) as [|c] eqn:Cw; [discriminate|]. destruct (B w ltac:(lia)) as [-> P]. destruct (i_wk st 0) as [posted| |] eqn:W; try discriminate. injection H as <-. destruct posted; [|congruence]. unfold one_worker; cbn.
    assert (P2 : iset (i_wk st) 0 WLeft 0 <> WLoop false) by (rewrite iset_same; discriminate).
    split; [|split; [|split; [|split]]].
    + intros v. destruct (Nat.eq_dec v 0) as [->|Dv]; [rewrite iset_same; discriminate|rewrite iset_other by exact Dv; apply A].
    + intros v N. split; [|exact P2]. destruct (Nat.eq_dec v 0) as [->|Dv]; [reflexivity|rewrite iset_other in N by exact Dv; apply (B v N)].
    + intros v N. split; [apply (C v N)|exact P2].
    + exact D.
    + exact E.
Qed.

Theorem alone ops w : i_wk (irun 1 ops) w <> WFailed.
Proof.
  assert (K : one_worker (irun 1 ops)).
  { induction ops as [|o ops IH] using rev_ind; [repeat split; cbn in *; congruence|]. rewrite irun_snoc. destruct (istep 1 (irun 1 ops) o) eqn:H; [|exact IH]. eapply worker_step; eauto. }
  apply K.
Qed.

(** ** A worker that failed *)
Definition kept (n : nat) (st : ist) : Prop := i_root st = RDone -> forall w, w < n -> i_wk st w = WLeft.

Lemma wk_keeps n st o st' w : istep n st o = Some st' -> i_wk st w = WLeft \/ i_wk st w = WFailed -> i_wk st' w = i_wk st w.
Proof.
  intros H F. assert (NL : forall b, i_wk st w <> WLoop b) by (intros b E; rewrite E in F; destruct F; discriminate). destruct o; cbn in H.
  - destruct (i_root st); try discriminate. now injection H as <-.
  - destruct (i_root st) as [|[|? ?]| | |]; try discriminate; [now injection H as <-|now injection H as <-| |].
    + destruct (i_back st); [discriminate|]. now injection H as <-.
    + destruct (all_left n st); [|discriminate]. now injection H as <-.
  - destruct (i_root st); try discriminate; now injection H as <-.
  - destruct (i_cancel st w0); [discriminate|]. destruct (i_wk st w0) eqn:W; try discriminate. injection H as <-. cbn. apply iset_other. intros ->. elim (NL posted W).
  - destruct (i_ready st w0); [discriminate|]. destruct (i_mon st) as [l|]; [|discriminate]. destruct (Nat.eqb (length (l ++ [w0])) n); now injection H as <-.
  - destruct (i_down st w0); [discriminate|]. destruct (i_wk st w0) eqn:W; try discriminate. injection H as <-. cbn. apply iset_other. intros ->. elim (NL posted W).
Qed.

Lemma kept_step n st o st' : kept n st -> istep n st o = Some st' -> kept n st'.
Proof.
  intros K H R w L. destruct (i_root st) as [|todo| | |] eqn:R0.
  5:{ rewrite (wk_keeps n st o st' w H); [now apply K|]. left. now apply K. }
  4:{ destruct o; cbn in H; rewrite ?R0 in H; try discriminate.
      - destruct (all_left n st) eqn:Al; [|discriminate]. injection H as <-. cbn. unfold all_left in Al. destruct (i_mon st); [discriminate|]. assert (X := proj1 (forallb_forall _ _) Al w ltac:(apply in_seq; lia)). cbv beta in X. destruct (i_wk st w); try discriminate X; reflexivity.
      - injection H as <-. cbn in R. discriminate.
      - destruct (i_cancel st w0); [discriminate|]. destruct (i_wk st w0); try discriminate. injection H as <-. cbn in R. congruence.
      - destruct (i_ready st w0); [discriminate|]. destruct (i_mon st) as [l|]; [|discriminate]. destruct (Nat.eqb (length (l ++ [w0])) n); injection H as <-; cbn in R; congruence.
      - destruct (i_down st w0); [discriminate|]. destruct (i_wk st w0); try discriminate. injection H as <-. cbn in R. congruence. }
  all: exfalso; destruct o; cbn in H; rewrite ?R0 in H; try discriminate; try (injection H as <-; cbn in R; congruence).
  all: try (destruct (i_cancel st w0); [discriminate|]; destruct (i_wk st w0); try discriminate; injection H as <-; cbn in R; congruence).
  all: try (destruct (i_ready st w0); [discriminate|]; destruct (i_mon st) as [l|]; [|discriminate]; destruct (Nat.eqb (length (l ++ [w0])) n); injection H as <-; cbn in R; congruence).
  all: try (destruct (i_down st w0); [discriminate|]; destruct (i_wk st w0); try discriminate; injection H as <-; cbn in R; congruence).
  - destruct todo; injection H as <-; cbn in R; congruence.
  - destruct (i_back st); [discriminate|]; injection H as <-; cbn in R; congruence.
Qed.

Lemma kept_run n ops : kept n (irun n ops).
Proof. induction ops as [|o ops IH] using rev_ind; [discriminate|]. rewrite irun_snoc. destruct (istep n (irun n ops) o) eqn:H; [|exact IH]. eapply kept_step; eauto. Qed.

Theorem failed_stuck n pre post w : w < n -> i_wk (irun n pre) w = WFailed -> i_wk (irun n (pre ++ post)) w = WFailed /\ i_root (irun n (pre ++ post)) <> RDone.
Proof.
  intros L F. assert (F2 : i_wk (irun n (pre ++ post)) w = WFailed).
  { induction post as [|o post IH] using rev_ind; [now rewrite app_nil_r|]. rewrite app_assoc, irun_snoc. destruct (istep n (irun n (pre ++ post)) o) eqn:H; [|exact IH]. rewrite (wk_keeps n _ o _ w H); auto. }
  split; [exact F2|]. intros R. assert (K := kept_run n (pre ++ post) R w L). congruence.
Qed.

Theorem done_left n ops w : i_root (irun n ops) = RDone -> w < n -> i_wk (irun n ops) w = WLeft.
Proof. intros R L. exact (kept_run n ops R w L). Qed.
