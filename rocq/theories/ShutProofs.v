(** Proofs about shutdown. *)
From Verif Require Import Lib ShmModel DataIdModel DataIdProofs TopoModel TopoProofs MonModel MonSpec MonProofs ShutModel ShutSpec.
From Coq Require Import Permutation.

Definition mdec (x y : rank * rank * smsg) : {x = y} + {x <> y}.
Proof. decide equality; [decide equality|]. decide equality; apply Nat.eq_dec. Qed.

Notation rdec := Nat.eq_dec.

Lemma count_app {A} dec (l l' : list A) x : count_occ dec (l ++ l') x = count_occ dec l x + count_occ dec l' x.
Proof. apply count_occ_app. Qed.

Lemma count_remove_at (l : list (rank * rank * smsg)) i x y : nth_error l i = Some x ->
  count_occ mdec l y = count_occ mdec [x] y + count_occ mdec (remove_at i l) y.
Proof.
  revert i. induction l as [|z l IH]; intros [|i] E; simpl in *; try discriminate.
  - injection E as ->. destruct (mdec x y); auto.
  - rewrite (IH i E). simpl. destruct (mdec z y), (mdec x y); lia.
Qed.

Lemma mem_rank_In r l : mem_rank r l = true <-> In r l.
Proof.
  unfold mem_rank. rewrite existsb_exists. split.
  - intros (x & I & E). apply Nat.eqb_eq in E as ->. auto.
  - intros I. exists r. rewrite Nat.eqb_refl. auto.
Qed.

Lemma fupd_same {A} (f : rank -> A) r a : fupd f r a r = a.
Proof. unfold fupd. rewrite Nat.eqb_refl. auto. Qed.
Lemma fupd_other {A} (f : rank -> A) r a x : x <> r -> fupd f r a x = f x.
Proof. unfold fupd. destruct (Nat.eqb_spec x r); tauto. Qed.

(** One turn of a monitor. *)
Lemma skip_app {A} (l t : list A) : skipn (length l) (l ++ t) = t.
Proof. rewrite skipn_app, skipn_all, Nat.sub_diag. auto. Qed.

Lemma stop_log c s : mlog (stop_all c s) = mlog s ++ map MvStop (stop_targets c) ++ [MvStopRoot].
Proof.
  unfold stop_all. simpl. generalize (stop_targets c). intros l. revert s.
  induction l as [|r l IH]; intros s; simpl; auto. rewrite IH. simpl. rewrite <- !app_assoc. auto.
Qed.

Lemma sends_stop l : sends_of (map MvStop l ++ [MvStopRoot]) = map (fun r => (r, SStop)) l ++ [(ROOT, SStopObj)].
Proof. induction l; simpl; auto. unfold sends_of in *. simpl. rewrite IHl. auto. Qed.

Lemma stop_acks c s : macks (stop_all c s) = macks s.
Proof.
  unfold stop_all. simpl. generalize (stop_targets c). intros l. revert s.
  induction l as [|r l IH]; intros s; simpl; auto. rewrite IH. auto.
Qed.

Definition nosend (e : mev) : Prop := match e with MvStop _ | MvStopRoot => False | _ => True end.

Lemma scan_nosend fuel : forall i s, exists t, mlog (scan fuel i s) = mlog s ++ t /\ Forall nosend t /\
  macks (scan fuel i s) = macks s /\ mstopped (scan fuel i s) = mstopped s.
Proof.
  induction fuel as [|fuel IH]; intros i s; simpl.
  - exists []. rewrite app_nil_r. auto.
  - destruct (nth_error (mawaited s) i); [|exists []; rewrite app_nil_r; auto].
    destruct (did_in d (mcompleted s)); [destruct (Z.eqb _ _)|]; auto.
    + match goal with |- context [scan fuel i ?x] => destruct (IH i x) as (t & -> & F & -> & ->) end.
      simpl. eexists. rewrite <- app_assoc. split; [reflexivity|]. split; auto. constructor; simpl; auto.
    + match goal with |- context [scan fuel i ?x] => destruct (IH i x) as (t & -> & F & -> & ->) end.
      simpl. eauto.
Qed.

Lemma sends_none t : Forall nosend t -> sends_of t = [].
Proof. unfold sends_of. induction 1 as [|e t N F IH]; simpl; auto. rewrite IH. destruct e; simpl in *; tauto. Qed.

Lemma turn_other c s r m s' : other m = true -> mon_turn c s r m = Some s' ->
  exists t, s' = set_mon s r t /\ macks t = macks (smon s r) /\ mstopped t = false /\ mstopped (smon s r) = false.
Proof.
  unfold mon_turn. intros O H. destruct (mstopped (smon s r)) eqn:St; [discriminate|].
  destruct (mon_step _ _ _) as [t|] eqn:E; [|discriminate]. apply Some_inj in H as <-.
  assert (X : exists u, mlog t = mlog (smon s r) ++ u /\ Forall nosend u /\ macks t = macks (smon s r) /\ mstopped t = false).
  { unfold mon_step in E. rewrite St in E. destruct m; try discriminate O; simpl in E.
    - apply Some_inj in E as <-. unfold process_waits. edestruct scan_nosend as (u & -> & F & -> & ->).
      simpl. rewrite <- app_assoc. eexists. split; [reflexivity|]. repeat split; auto. constructor; simpl; auto.
    - apply Some_inj in E as <-. unfold process_waits. edestruct scan_nosend as (u & -> & F & -> & ->).
      simpl. rewrite <- app_assoc. eexists. split; [reflexivity|]. repeat split; auto. constructor; simpl; auto.
    - apply Some_inj in E as <-. simpl. rewrite <- app_assoc. eexists. split; [reflexivity|]. repeat split; auto. repeat constructor.
    - destruct (mgr_reserve _ _ _) as [g [[i f]|]]; [|discriminate]. apply Some_inj in E as <-. simpl.
      rewrite <- app_assoc. eexists. split; [reflexivity|]. repeat split; auto. repeat constructor.
    - destruct (mgr_get _ _); [|discriminate]. apply Some_inj in E as <-. simpl.
      rewrite <- app_assoc. eexists. split; [reflexivity|]. repeat split; auto. repeat constructor.
    - apply Some_inj in E as <-. simpl. eexists. split; [reflexivity|]. repeat split; auto. repeat constructor. }
  destruct X as (u & L & F & A & B). exists t. rewrite L, skip_app, sends_none by auto. simpl. auto.
Qed.

(** Sending several messages. *)
Definition send_all (s : ssys) (r : rank) (l : list (rank * smsg)) : ssys :=
  fold_left (fun s p => send s r (fst p) (snd p)) l s.

Lemma send_all_eq l : forall s r, send_all s r l =
  {| sroot := sroot s; sworker := sworker s; smon := smon s;
     snet := snet s ++ map (fun p => (r, fst p, snd p)) l;
     slog := slog s ++ map (fun p => SvSend r (fst p) (snd p)) l |}.
Proof.
  induction l as [|p l IH]; intros s r; simpl.
  - rewrite !app_nil_r. destruct s; auto.
  - unfold send_all in *. rewrite IH. simpl. rewrite <- !app_assoc. auto.
Qed.

Lemma turn_ack c s r src s' : mon_turn c s r (MAck src) = Some s' ->
  mstopped (smon s r) = false /\
  exists t, macks t = macks (smon s r) ++ [src] /\
  ((length (macks t) = length (s_workers c) /\ mstopped t = true /\
    s' = send_all (set_mon s r t) r (map (fun x => (x, SStop)) (stop_targets (mcfg_of c r)) ++ [(ROOT, SStopObj)])) \/
   (length (macks t) <> length (s_workers c) /\ mstopped t = false /\ s' = set_mon s r t)).
Proof.
  unfold mon_turn. intros H. destruct (mstopped (smon s r)) eqn:St; [discriminate|]. split; auto.
  unfold mon_step in H. rewrite St in H. simpl in H.
  destruct (Nat.eqb_spec (length (macks (smon s r) ++ [src])) (length (s_workers c))) as [E|E];
    apply Some_inj in H as <-.
  - exists (stop_all (mcfg_of c r) (set_acks (memit (smon s r) (MvIn (MAck src))) (macks (smon s r) ++ [src]))).
    rewrite stop_acks. split; [reflexivity|]. left. split; [exact E|]. split; [reflexivity|].
    rewrite stop_log. simpl mlog. rewrite <- app_assoc, skip_app. change ([?x] ++ ?l) with (x :: l).
    unfold sends_of at 1. simpl. fold (sends_of (map MvStop (stop_targets (mcfg_of c r)) ++ [MvStopRoot])).
    rewrite sends_stop. reflexivity.
  - exists (set_acks (memit (smon s r) (MvIn (MAck src))) (macks (smon s r) ++ [src])).
    split; [reflexivity|]. right. split; [exact E|]. split; [exact St|]. simpl. rewrite skip_app. reflexivity.
Qed.

Lemma turn_stop c s r s' : mon_turn c s r MStop = Some s' ->
  mstopped (smon s r) = false /\
  exists t, macks t = macks (smon s r) /\ mstopped t = true /\ s' = set_mon s r t.
Proof.
  unfold mon_turn. intros H. destruct (mstopped (smon s r)) eqn:St; [discriminate|]. split; auto.
  unfold mon_step in H. rewrite St in H. apply Some_inj in H as <-. simpl. rewrite skip_app. simpl.
  eexists. split; [|split; [|reflexivity]]; auto.
Qed.

Lemma in_split_r {A} (a b before after : list A) e : a ++ b = before ++ e :: after ->
  (exists t, a = before ++ e :: t /\ after = t ++ b) \/ (exists t, before = a ++ t /\ b = t ++ e :: after).
Proof.
  revert before. induction a as [|x a IH]; intros before H; simpl in H.
  - right. exists before. auto.
  - destruct before as [|y before]; simpl in H.
    + injection H as -> <-. left. exists a. auto.
    + injection H as -> H. apply IH in H as [(t & -> & ->)|(t & -> & ->)]; [left|right]; exists t; auto.
Qed.

(** Sums over lists. *)
Definition sumf (f : rank -> nat) (l : list rank) : nat := list_sum (map f l).

Lemma sumf_ext f g l : (forall x, In x l -> f x = g x) -> sumf f l = sumf g l.
Proof. unfold sumf. intros H. f_equal. apply map_ext_in. exact H. Qed.

Lemma sumf_up f g l w : NoDup l -> In w l -> g w = S (f w) -> (forall x, In x l -> x <> w -> g x = f x) ->
  sumf g l = S (sumf f l).
Proof.
  unfold sumf. induction 1 as [|x l N D IH]; simpl; [tauto|]. intros H E O. destruct H as [->|H].
  - rewrite E. simpl. f_equal. f_equal. apply sumf_ext. intros y Hy. apply O; auto. intros ->. tauto.
  - rewrite O; auto; [|intros ->; tauto]. rewrite IH; auto.
Qed.

Lemma sumf_le f l : (forall x, In x l -> f x <= 1) -> sumf f l <= length l.
Proof.
  unfold sumf. induction l as [|x l IH]; simpl; intros H; auto.
  assert (f x <= 1) by auto. assert (list_sum (map f l) <= length l) by auto. lia.
Qed.

Section Shut.
Variable c : scfg.
Hypothesis ok : cluster_ok c.

Let W := s_workers c.
Let M := s_monitors c.
Let rm := s_rmon c.
Let T := stop_targets (mcfg_of c rm).

Lemma T_In r : In r T <-> (In r W \/ In r M) /\ r <> rm.
Proof.
  unfold T, stop_targets. simpl. rewrite filter_In, in_app_iff, negb_true_iff, Nat.eqb_neq. tauto.
Qed.

Lemma T_nodup : NoDup T.
Proof. unfold T, stop_targets. apply NoDup_filter. apply ok. Qed.

Lemma W_nodup : NoDup W.
Proof. destruct ok as (N & _). clear -N. unfold W. induction (s_workers c); [constructor|].
  simpl in N. apply NoDup_cons_iff in N as [N1 N2]. constructor; auto. intros X. apply N1. apply in_or_app; auto. Qed.

Lemma WM r : In r W -> In r M -> False.
Proof.
  destruct ok as (N & _). unfold W, M. intros A B. revert N. clear -A B. induction (s_workers c); simpl in *; [tauto|].
  intros N. apply NoDup_cons_iff in N as [N1 N2]. destruct A as [->|A]; auto. apply N1. apply in_or_app; auto.
Qed.

Lemma not_root r : In r W \/ In r M -> r <> ROOT.
Proof. intros H ->. destruct ok as (_ & N & _). apply N, in_or_app. exact H. Qed.

Lemma rm_M : In rm M. Proof. apply ok. Qed.
Lemma rm_W : ~ In rm W. Proof. intros H. eapply WM; eauto. apply rm_M. Qed.

Definition wf (x : rank * rank * smsg) : Prop :=
  (exists w, In w W /\ x = (ROOT, w, SCancel)) \/ (exists w, In w W /\ x = (w, rm, SAck)) \/
  (exists r, In r T /\ x = (rm, r, SStop)) \/ x = (rm, ROOT, SStopObj).

Definition todo (s : ssys) : list rank := match sroot s with RRun => W | RCancel l => l | _ => [] end.
Definition cn (s : ssys) x := count_occ mdec (snet s) x.
Definition ran (s : ssys) (w : rank) : nat := match sworker s w with WkRun => 0 | _ => 1 end.
Definition left (s : ssys) (r : rank) : nat :=
  if in_dec rdec r W then match sworker s r with WkGone => 1 | _ => 0 end
  else if mstopped (smon s r) then 1 else 0.
Definition rleft (s : ssys) : nat := match sroot s with RGone => 1 | _ => 0 end.

Record SI (s : ssys) : Prop := {
  si_wf : Forall wf (snet s);
  si_cancel : forall w, In w W -> count_occ rdec (todo s) w + cn s (ROOT, w, SCancel) + ran s w = 1;
  si_todo : incl (todo s) W;
  si_ack : forall w, In w W -> ran s w = cn s (w, rm, SAck) + count_occ rdec (macks (smon s rm)) w;
  si_acks : incl (macks (smon s rm)) W;
  si_dead : forall w, In w W -> sworker s w <> WkDead;
  si_stopped : mstopped (smon s rm) = true -> length (macks (smon s rm)) = length W /\
     (forall r, In r T -> cn s (rm, r, SStop) + left s r = 1) /\ cn s (rm, ROOT, SStopObj) + rleft s = 1;
  si_going : mstopped (smon s rm) = false -> (W <> [] -> length (macks (smon s rm)) <> length W) /\
     (forall r, In r T -> cn s (rm, r, SStop) = 0 /\ left s r = 0) /\ cn s (rm, ROOT, SStopObj) = 0 /\ rleft s = 0;
  si_got : forall r, In r T -> stops (slog s) r = left s r;
  si_gotrm : stops (slog s) rm = 0;
  si_sent : forall w, In w W -> ran s w = 1 -> acknowledged c (slog s) w
}.

Lemma count_in {A} dec (l : list A) x n : count_occ dec l x = S n -> In x l.
Proof. intros H. apply (count_occ_In dec). lia. Qed.

Lemma all_acked s : SI s -> length (macks (smon s rm)) = length W ->
  forall w, In w W -> count_occ rdec (macks (smon s rm)) w = 1.
Proof.
  intros I L w Hw.
  assert (Le : forall x, count_occ rdec (macks (smon s rm)) x <= 1).
  { intros x. destruct (in_dec rdec x W) as [H|H].
    - assert (A := si_ack _ I x H). unfold ran in A. destruct (sworker s x); lia.
    - destruct (count_occ rdec (macks (smon s rm)) x) eqn:E; auto. exfalso. apply H, (si_acks _ I).
      eapply count_in; eauto. }
  assert (Nd : NoDup (macks (smon s rm))) by (apply (NoDup_count_occ rdec); auto).
  assert (In w (macks (smon s rm))).
  { refine (NoDup_length_incl Nd (l' := W) _ (si_acks _ I) w Hw). rewrite L. apply le_n. }
  apply (count_occ_In rdec) in H. specialize (Le w). lia.
Qed.

Lemma si_init g : SI (sinit g).
Proof.
  split; simpl.
  - constructor.
  - intros w Hw. unfold todo, cn, ran. simpl.
    assert (count_occ rdec W w = 1).
    { assert (Le := proj1 (NoDup_count_occ rdec W) W_nodup w). apply (count_occ_In rdec) in Hw. lia. }
    lia.
  - apply incl_refl.
  - intros w Hw. reflexivity.
  - intros x [].
  - discriminate.
  - discriminate.
  - intros _. split; [destruct W; simpl; [tauto|lia]|]. repeat split; auto.
    unfold left. simpl. destruct (in_dec rdec r W); auto.
  - intros r _. unfold left. simpl. destruct (in_dec rdec r W); auto.
  - reflexivity.
  - intros w _. unfold ran. simpl. discriminate.
Qed.

Lemma stops_app l l' r : stops (l ++ l') r = stops l r + stops l' r.
Proof. unfold stops. rewrite filter_app, app_length. auto. Qed.

Lemma nth_rm i x s : nth_error (snet s) i = Some x ->
  (forall y, cn s y = count_occ mdec [x] y + count_occ mdec (remove_at i (snet s)) y).
Proof. intros H y. apply count_remove_at. exact H. Qed.

Lemma wf_rm i (l : list (rank * rank * smsg)) : Forall wf l -> Forall wf (remove_at i l).
Proof. rewrite !Forall_forall. intros F x H. apply F. eapply remove_at_sub; eauto. Qed.

Lemma cn1 x y : count_occ mdec [x] y = if mdec x y then 1 else 0.
Proof. simpl. destruct (mdec x y); auto. Qed.

Ltac mdecs := repeat match goal with
  | |- context [mdec ?a ?b] => destruct (mdec a b); try congruence
  | H : context [mdec ?a ?b] |- _ => destruct (mdec a b); try congruence
  end.

(** What a step does to the invariant. *)
Lemma si_step s a s' : SI s -> sstep c s a = Some s' -> SI s'.
Proof.
  intros I H. assert (I' := I). destruct I' as [I1 I2 I3 I4 I5 I6 I7 I8 I9 I9' I10].
  destruct a as [| |i|r m]; simpl in H.
  - (* start *)
    destruct (sroot s) eqn:R; try discriminate. apply Some_inj in H as <-.
    split; auto; unfold todo, cn, rleft in *; simpl; rewrite ?R in *; auto.
  - (* cancel *)
    destruct (sroot s) as [|[|w l]| |] eqn:R; try discriminate; apply Some_inj in H as <-.
    + split; auto; unfold todo, cn, rleft in *; simpl; rewrite ?R in *; auto.
    + assert (Hw : In w W) by (apply I3; unfold todo; rewrite R; simpl; auto).
      split; auto; unfold todo, cn, rleft, ran, left in *; simpl; rewrite ?R in *; auto.
      * apply Forall_app. split; auto. constructor; auto. left. eauto.
      * intros x Hx. specialize (I2 x Hx). rewrite count_app, cn1. simpl in I2.
        destruct (rdec w x) as [<-|N]; mdecs; lia.
      * intros x Hx. apply I3. simpl; auto.
      * intros x Hx. rewrite count_app, cn1. mdecs. rewrite (I4 x Hx). lia.
      * intros St. destruct (I7 St) as (A & B & C). split; auto. split; [intros r Hr; specialize (B r Hr)|];
          rewrite count_app, cn1; mdecs; lia.
      * intros St. destruct (I8 St) as (A & B & C). split; auto. split; [intros r Hr; destruct (B r Hr); split; auto|];
          rewrite ?count_app, ?cn1; mdecs; lia.
      * intros r Hr. rewrite stops_app, I9 by auto. unfold stops at 1. simpl. lia.
      * rewrite stops_app. unfold stops at 2. simpl. lia.
      * intros x Hx Rx. unfold acknowledged in *. apply in_or_app. left. apply I10; auto.
  - (* deliver *)
    destruct (nth_error (snet s) i) as [[[src dst] m]|] eqn:N; [|discriminate].
    assert (Wf : wf (src, dst, m)).
    { rewrite Forall_forall in I1. apply I1. eapply nth_error_In; eauto. }
    assert (Cn := nth_rm _ _ _ N). assert (F' := wf_rm i _ I1).
    set (net := remove_at i (snet s)) in *.
    destruct Wf as [(w & Hw & E)|[(w & Hw & E)|[(r & Hr & E)|E]]];
      apply pair_inj in E as [E Em]; apply pair_inj in E as [Es Ed]; subst src dst m.
    + (* CANCEL at a worker *)
      destruct (Nat.eqb_spec w ROOT) as [X|Nw]; [exfalso; apply (not_root w); auto|].
      rewrite (proj2 (mem_rank_In w (s_workers c)) Hw) in H.
      assert (C1 := Cn (ROOT, w, SCancel)). rewrite cn1 in C1. mdecs.
      assert (Rw : sworker s w = WkRun).
      { assert (A := I2 w Hw). unfold ran in A. destruct (sworker s w); auto; lia. }
      assert (R0 : ran s w = 0) by (unfold ran; rewrite Rw; auto).
      unfold worker_recv in H. simpl in H. rewrite Rw in H. apply Some_inj in H as <-.
      assert (Ra : forall x, ran (set_worker (send (take s i w SCancel) w (s_rmon c) SAck) w WkReady) x =
                   if rdec x w then 1 else ran s x).
      { intros x. unfold ran. simpl. destruct (rdec x w) as [->|Nx]; [rewrite fupd_same | rewrite fupd_other]; auto. }
      assert (Le : forall x, left (set_worker (send (take s i w SCancel) w (s_rmon c) SAck) w WkReady) x = left s x).
      { intros x. unfold left. simpl. destruct (in_dec rdec x W); auto.
        destruct (rdec x w) as [->|Nx]; [rewrite fupd_same, Rw | rewrite fupd_other]; auto. }
      assert (Ca : forall x, cn (set_worker (send (take s i w SCancel) w (s_rmon c) SAck) w WkReady) x =
                   count_occ mdec net x + if mdec (w, rm, SAck) x then 1 else 0).
      { intros x. unfold cn. simpl. rewrite count_app, cn1. auto. }
      split.
      * simpl. apply Forall_app. split; auto. constructor; auto. right. left. eauto.
      * intros x Hx. rewrite Ra, Ca. specialize (I2 x Hx). specialize (Cn (ROOT, x, SCancel)). rewrite cn1 in Cn.
        unfold todo in *. simpl. destruct (rdec x w) as [Ex|Nx]; [subst x|]; mdecs; try lia.
      * exact I3.
      * intros x Hx. rewrite Ra, Ca. simpl. specialize (Cn (x, rm, SAck)). rewrite cn1 in Cn.
        specialize (I4 x Hx). destruct (rdec x w) as [Ex|Nx]; [subst x|]; mdecs; try lia.
      * exact I5.
      * intros x Hx. simpl. destruct (rdec x w) as [->|Nx]; [rewrite fupd_same; discriminate | rewrite fupd_other; auto].
      * simpl. intros St. destruct (I7 St) as (A & B & C). split; auto.
        split; [intros r Hr; specialize (B r Hr)|].
        -- rewrite Ca, Le. specialize (Cn (rm, r, SStop)). rewrite cn1 in Cn. mdecs; lia.
        -- rewrite Ca. specialize (Cn (rm, ROOT, SStopObj)). rewrite cn1 in Cn. unfold rleft in *. simpl. mdecs; lia.
      * simpl. intros St. destruct (I8 St) as (A & B & C & D). split; auto.
        split; [intros r Hr; destruct (B r Hr)|].
        -- rewrite Ca, Le. specialize (Cn (rm, r, SStop)). rewrite cn1 in Cn. mdecs; lia.
        -- rewrite Ca. specialize (Cn (rm, ROOT, SStopObj)). rewrite cn1 in Cn. unfold rleft in *. simpl. mdecs; lia.
      * intros r Hr. rewrite Le. simpl. rewrite !stops_app, I9 by auto. unfold stops. simpl. lia.
      * simpl. rewrite !stops_app, I9'. reflexivity.
      * intros x Hx. rewrite Ra. intros Rx. unfold acknowledged in *. simpl. rewrite !in_app_iff.
        destruct (rdec x w) as [->|Nx]; [right; simpl; auto | left; left; auto].
    + (* ack at the monitor *)
      assert (Nr : rm <> ROOT) by (apply not_root; right; apply rm_M).
      destruct (Nat.eqb_spec rm ROOT) as [X|_]; [tauto|].
      destruct (mem_rank rm (s_workers c)) eqn:Mw; [apply mem_rank_In in Mw; exfalso; apply rm_W; auto|].
      destruct (mem_rank rm (s_monitors c)) eqn:Mm; [|discriminate].
      unfold monitor_recv in H. apply turn_ack in H as (St & t & At & H). simpl in St, At.
      assert (C1 := Cn (w, rm, SAck)). rewrite cn1 in C1. destruct (mdec (w, rm, SAck) (w, rm, SAck)); [|congruence].
      destruct (I8 St) as (A & B & C & D).
      assert (Lf : forall x, In x T -> left (set_mon (take s i rm SAck) rm t) x = left s x).
      { intros x Hx. unfold left. simpl. destruct (in_dec rdec x W); auto. apply T_In in Hx as [_ Hx]. rewrite fupd_other by exact Hx. reflexivity. }
      assert (Inc : incl (macks t) W).
      { rewrite At. intros x Hx. apply in_app_or in Hx as [Hx|[<-|[]]]; [apply I5; exact Hx | exact Hw]. }
      assert (Ack : forall x, In x W -> ran s x = count_occ mdec net (x, rm, SAck) + count_occ rdec (macks t) x).
      { intros x Hx. rewrite (I4 x Hx), At, count_app. specialize (Cn (x, rm, SAck)). rewrite cn1 in Cn.
        simpl. destruct (rdec w x) as [->|Nx]; mdecs; lia. }
      assert (Can : forall x, In x W -> count_occ rdec (todo s) x + count_occ mdec net (ROOT, x, SCancel) + ran s x = 1).
      { intros x Hx. specialize (I2 x Hx). specialize (Cn (ROOT, x, SCancel)). rewrite cn1 in Cn. mdecs; lia. }
      assert (Stp : forall x, In x T -> count_occ mdec net (rm, x, SStop) = 0).
      { intros x Hx. destruct (B x Hx). specialize (Cn (rm, x, SStop)). rewrite cn1 in Cn. mdecs; lia. }
      assert (Sto : count_occ mdec net (rm, ROOT, SStopObj) = 0).
      { specialize (Cn (rm, ROOT, SStopObj)). rewrite cn1 in Cn. mdecs; lia. }
      destruct H as [(L & St' & ->)|(L & St' & ->)].
      * rewrite send_all_eq. simpl.
        set (msgs := map (fun p => (rm, fst p, snd p)) (map (fun x => (x, SStop)) (stop_targets (mcfg_of c rm)) ++ [(ROOT, SStopObj)])).
        assert (Ms : msgs = map (fun x => (rm, x, SStop)) T ++ [(rm, ROOT, SStopObj)]).
        { unfold msgs. rewrite map_app, map_map. auto. }
        assert (Cm : forall x, count_occ mdec msgs x =
                     count_occ mdec (map (fun x => (rm, x, SStop)) T) x + if mdec (rm, ROOT, SStopObj) x then 1 else 0).
        { intros x. rewrite Ms, count_app, cn1. auto. }
        assert (Ct : forall x, count_occ mdec (map (fun x => (rm, x, SStop)) T) (rm, x, SStop) = count_occ rdec T x).
        { intros x. clear. induction T as [|y l IH]; simpl; auto. destruct (mdec (rm, y, SStop) (rm, x, SStop)) as [e|ne], (rdec y x); congruence. }
        assert (Cz : forall a b m, m <> SStop -> count_occ mdec (map (fun x => (rm, x, SStop)) T) (a, b, m) = 0).
        { intros a b m Hm. clear -Hm. induction T as [|y l IH]; simpl; auto. destruct (mdec (rm, y, SStop) (a, b, m)); congruence. }
        split; unfold cn, todo, ran, rleft in *; simpl; fold net; rewrite ?fupd_same.
        -- apply Forall_app. split; auto. rewrite Ms. apply Forall_app. split.
           ++ apply Forall_forall. intros y Hy. apply in_map_iff in Hy as (z & <- & Hz). right. right. left. eauto.
           ++ constructor; auto. right. right. right. auto.
        -- intros x Hx. rewrite count_app, Cm, Cz by discriminate. mdecs. specialize (Can x Hx). lia.
        -- exact I3.
        -- intros x Hx. rewrite count_app, Cm, Cz by discriminate. mdecs. specialize (Ack x Hx). lia.
        -- exact Inc.
        -- exact I6.
        -- intros _. split; auto. split.
           ++ intros x Hx. rewrite count_app, Cm, Ct, Stp by auto. mdecs.
              assert (count_occ rdec T x = 1).
              { assert (Y := proj1 (NoDup_count_occ rdec T) T_nodup x). apply (count_occ_In rdec) in Hx. lia. }
              rewrite H. destruct (B x Hx) as [_ B2]. rewrite <- (Lf x Hx) in B2. unfold left in *. simpl in *. lia.
           ++ rewrite count_app, Cm, Cz, Sto by discriminate. mdecs. lia.
        -- congruence.
        -- intros x Hx. specialize (Lf x Hx). unfold left in *. simpl in *. rewrite Lf, <- I9 by auto.
           rewrite !stops_app. unfold stops. rewrite map_app, map_map. rewrite filter_app. simpl.
           replace (filter _ (map _ (stop_targets (mcfg_of c rm)))) with (@nil sev); [simpl; lia|].
           clear. induction (stop_targets (mcfg_of c rm)); simpl; auto.
        -- rewrite !stops_app, I9'. unfold stops. rewrite map_app, map_map. rewrite filter_app. simpl.
           replace (filter _ (map _ (stop_targets (mcfg_of c rm)))) with (@nil sev); [simpl; lia|].
           clear. induction (stop_targets (mcfg_of c rm)); simpl; auto.
        -- intros x Hx Rx. unfold acknowledged in *. rewrite !in_app_iff. left. left. apply I10; auto.
      * split; unfold cn, todo, ran, rleft in *; simpl; fold net; rewrite ?fupd_same; auto.
        -- congruence.
        -- intros _. split; auto. split; auto. intros x Hx. rewrite Lf by auto. destruct (B x Hx). split; auto.
        -- intros x Hx. rewrite Lf, <- I9 by auto. rewrite !stops_app. unfold stops at 2. simpl. lia.
        -- rewrite stops_app, I9'. reflexivity.
        -- intros x Hx Rx. unfold acknowledged in *. rewrite !in_app_iff. left. apply I10; auto.
    + (* stop *)
      assert (C1 := Cn (rm, r, SStop)). rewrite cn1 in C1. destruct (mdec (rm, r, SStop) (rm, r, SStop)); [|congruence].
      destruct (mstopped (smon s rm)) eqn:St; [|destruct (I8 eq_refl) as (_ & B & _); destruct (B r Hr); lia].
      destruct (I7 eq_refl) as (A & B & C). assert (Br := B r Hr). assert (L0 : left s r = 0) by lia.
      assert (Hr' := Hr). apply T_In in Hr' as [Ht Nr].
      destruct (Nat.eqb_spec r ROOT) as [X|_]; [exfalso; apply (not_root r); auto|].
      assert (Cnn : forall x, x <> (rm, r, SStop) -> count_occ mdec net x = cn s x).
      { intros x Nx. specialize (Cn x). rewrite cn1 in Cn. destruct (mdec (rm, r, SStop) x); [congruence|]. lia. }
      assert (Cnr : count_occ mdec net (rm, r, SStop) = 0) by lia.
      destruct (mem_rank r (s_workers c)) eqn:Mw.
      * apply mem_rank_In in Mw. fold W in Mw.
        assert (Rr : ran s r = 1).
        { rewrite (I4 r Mw), (all_acked _ I A r Mw). assert (Q := I4 r Mw). unfold ran in Q.
          rewrite (all_acked _ I A r Mw) in Q. destruct (sworker s r); lia. }
        assert (Sr : sworker s r = WkReady).
        { unfold ran, left in *. specialize (I6 r Mw). destruct (in_dec rdec r W); [|tauto].
          destruct (sworker s r); auto; congruence. }
        unfold worker_recv in H. simpl in H. rewrite Sr in H. apply Some_inj in H as <-.
        assert (Ra : forall x, ran (set_worker (take s i r SStop) r WkGone) x = ran s x).
        { intros x. unfold ran. simpl. destruct (rdec x r) as [->|Nx]; [rewrite fupd_same, Sr | rewrite fupd_other]; auto. }
        assert (Le : forall x, left (set_worker (take s i r SStop) r WkGone) x = if rdec x r then 1 else left s x).
        { intros x. unfold left. simpl. destruct (rdec x r) as [->|Nx].
          - destruct (in_dec rdec r W); [|tauto]. rewrite fupd_same. auto.
          - rewrite fupd_other; auto. }
        split; unfold todo, rleft in *; simpl.
        -- exact F'.
        -- intros x Hx. rewrite Ra. unfold cn. simpl. fold net. rewrite Cnn by congruence. apply I2; auto.
        -- exact I3.
        -- intros x Hx. rewrite Ra. unfold cn. simpl. fold net. rewrite Cnn by congruence. apply I4; auto.
        -- exact I5.
        -- intros x Hx. destruct (rdec x r) as [->|Nx]; [rewrite fupd_same; discriminate | rewrite fupd_other; auto].
        -- intros _. split; auto. split.
           ++ intros x Hx. rewrite Le. unfold cn. simpl. fold net. destruct (rdec x r) as [->|Nx]; [lia|].
              rewrite Cnn by congruence. apply B; auto.
           ++ unfold cn. simpl. fold net. rewrite Cnn by congruence. exact C.
        -- congruence.
        -- intros x Hx. rewrite Le, stops_app, I9 by auto. unfold stops. simpl.
           destruct (rdec x r) as [->|Nx]; [rewrite Nat.eqb_refl; simpl; lia|].
           destruct (Nat.eqb_spec r x); [congruence|]. simpl. lia.
        -- rewrite stops_app, I9'. unfold stops. simpl. destruct (Nat.eqb_spec r rm); [congruence|]. auto.
        -- intros x Hx. rewrite Ra. intros Rx. unfold acknowledged in *. rewrite in_app_iff. left. apply I10; auto.
      * destruct Ht as [Ht|Ht]; [apply mem_rank_In in Ht; unfold W in Ht; congruence|].
        destruct (mem_rank r (s_monitors c)) eqn:Mm; [|discriminate].
        assert (NW : ~ In r W) by (intros X; eapply WM; eauto).
        unfold monitor_recv in H. apply turn_stop in H as (Sr & t & At & St' & ->). simpl in Sr, At.
        assert (Le : forall x, left (set_mon (take s i r SStop) r t) x = if rdec x r then 1 else left s x).
        { intros x. unfold left. simpl. destruct (rdec x r) as [->|Nx].
          - destruct (in_dec rdec r W); [tauto|]. rewrite fupd_same, St'. auto.
          - rewrite fupd_other; auto. }
        split; unfold todo, rleft, ran in *; simpl; rewrite ?(fupd_other _ _ _ rm) by congruence.
        -- exact F'.
        -- intros x Hx. unfold cn. simpl. fold net. rewrite Cnn by congruence. apply I2; auto.
        -- exact I3.
        -- intros x Hx. unfold cn. simpl. fold net. rewrite Cnn by congruence. apply I4; auto.
        -- exact I5.
        -- exact I6.
        -- intros _. split; auto. split.
           ++ intros x Hx. rewrite Le. unfold cn. simpl. fold net. destruct (rdec x r) as [->|Nx]; [lia|].
              rewrite Cnn by congruence. apply B; auto.
           ++ unfold cn. simpl. fold net. rewrite Cnn by congruence. exact C.
        -- congruence.
        -- intros x Hx. rewrite Le, stops_app, I9 by auto. unfold stops. simpl.
           destruct (rdec x r) as [->|Nx]; [rewrite Nat.eqb_refl; simpl; lia|].
           destruct (Nat.eqb_spec r x); [congruence|]. simpl. lia.
        -- rewrite stops_app, I9'. unfold stops. simpl. destruct (Nat.eqb_spec r rm); [congruence|]. auto.
        -- intros x Hx Rx. unfold acknowledged in *. rewrite in_app_iff. left. apply I10; auto.
    + (* the root *)
      simpl in H. unfold root_recv in H. simpl in H. destruct (sroot s) eqn:R; try discriminate.
      destruct (Nat.eqb rm MONITOR); [|discriminate]. apply Some_inj in H as <-.
      assert (C1 := Cn (rm, ROOT, SStopObj)). rewrite cn1 in C1. destruct (mdec (rm, ROOT, SStopObj) (rm, ROOT, SStopObj)); [|congruence].
      destruct (mstopped (smon s rm)) eqn:St; [|destruct (I8 eq_refl) as (_ & _ & B & _); lia].
      destruct (I7 eq_refl) as (A & B & C).
      assert (Cnn : forall x, x <> (rm, ROOT, SStopObj) -> count_occ mdec net x = cn s x).
      { intros x Nx. specialize (Cn x). rewrite cn1 in Cn. destruct (mdec (rm, ROOT, SStopObj) x); [congruence|]. lia. }
      split; unfold todo, rleft, ran, left in *; simpl; rewrite ?R in *.
      * exact F'.
      * intros x Hx. unfold cn. simpl. fold net. rewrite Cnn by congruence. apply I2; auto.
      * exact I3.
      * intros x Hx. unfold cn. simpl. fold net. rewrite Cnn by congruence. apply I4; auto.
      * exact I5.
      * exact I6.
      * intros _. split; auto. split.
        -- intros x Hx. unfold cn. simpl. fold net. rewrite Cnn by congruence. apply B; auto.
        -- unfold cn. simpl. fold net. lia.
      * congruence.
      * intros x Hx. rewrite stops_app, I9 by auto. unfold stops. simpl. lia.
      * rewrite stops_app, I9'. reflexivity.
      * intros x Hx Rx. unfold acknowledged in *. rewrite in_app_iff. left. apply I10; auto.
  - (* another operation *)
    destruct (mem_rank r (s_monitors c) && other m) eqn:Mo; [|discriminate].
    apply andb_true_iff in Mo as [Mm O]. apply mem_rank_In in Mm. fold M in Mm.
    apply turn_other in H as (t & -> & At & St & St0); auto.
    assert (NW : ~ In r W) by (intros X; eapply WM; eauto).
    assert (Le : forall x, left (set_mon s r t) x = left s x).
    { intros x. unfold left. simpl. destruct (in_dec rdec x W); auto.
      destruct (rdec x r) as [->|Nx]; [rewrite fupd_same, St, St0 | rewrite fupd_other]; auto. }
    assert (Ak : macks (fupd (smon s) r t rm) = macks (smon s rm)).
    { destruct (rdec rm r) as [Er|Nx]; [rewrite Er, fupd_same | rewrite fupd_other]; auto. }
    assert (Sk : mstopped (fupd (smon s) r t rm) = mstopped (smon s rm)).
    { destruct (rdec rm r) as [Er|Nx]; [rewrite Er, fupd_same; congruence | rewrite fupd_other; auto]. }
    split; unfold todo, rleft, ran, cn in *; simpl; rewrite ?Ak, ?Sk; auto.
    + intros X. destruct (I7 X) as (A & B & C). split; auto. split; auto. intros x Hx. rewrite Le. auto.
    + intros X. destruct (I8 X) as (A & B & C). split; auto. split; auto. intros x Hx. rewrite Le. auto.
    + intros x Hx. rewrite Le. auto.
Qed.

(** What is appended to the log. *)
Definition sends_only (l : list sev) : Prop := Forall (fun e => match e with SvSend _ _ _ => True | _ => False end) l.

Lemma step_log s a s' : sstep c s a = Some s' ->
  exists l, sends_only l /\
  ((slog s' = slog s ++ l /\ forall i, a <> ADeliver i) \/
   exists i src dst m, a = ADeliver i /\ nth_error (snet s) i = Some (src, dst, m) /\
                       slog s' = slog s ++ SvGot dst m :: l).
Proof.
  intros H. destruct a as [| |i|r m]; simpl in H.
  - destruct (sroot s); try discriminate. apply Some_inj in H as <-. exists []. split; [constructor|]. left. split; [symmetry; apply app_nil_r | discriminate].
  - destruct (sroot s) as [|[|w l]| |]; try discriminate; apply Some_inj in H as <-.
    + exists []. split; [constructor|]. left. split; [symmetry; apply app_nil_r | discriminate].
    + eexists. split; [|left; split; [reflexivity | discriminate]]. repeat constructor.
  - destruct (nth_error (snet s) i) as [[[src dst] m]|] eqn:N; [|discriminate].
    assert (X : exists l, sends_only l /\ slog s' = slog s ++ SvGot dst m :: l).
    { destruct (Nat.eqb dst ROOT); [|destruct (mem_rank dst (s_workers c)); [|destruct (mem_rank dst (s_monitors c)); [|discriminate]]].
      - unfold root_recv in H. simpl in H. destruct (sroot s), m; try discriminate. destruct (Nat.eqb _ _); [|discriminate].
        apply Some_inj in H as <-. exists []. split; [constructor|]. auto.
      - unfold worker_recv in H. simpl in H. destruct (sworker s dst), m; try discriminate; apply Some_inj in H as <-; simpl;
          rewrite <- ?app_assoc; eexists; (split; [|reflexivity]); repeat constructor.
      - unfold monitor_recv in H. destruct m; try discriminate.
        + apply turn_ack in H as (_ & t & _ & [(_ & _ & ->)|(_ & _ & ->)]).
          * rewrite send_all_eq. simpl. rewrite <- app_assoc. eexists. split; [|reflexivity].
            apply Forall_forall. intros x X. apply in_map_iff in X as (y & <- & _). auto.
          * exists []. split; [constructor|]. auto.
        + apply turn_stop in H as (_ & t & _ & _ & ->). exists []. split; [constructor|]. auto. }
    destruct X as (l & F & E). exists l. split; auto. right. exists i, src, dst, m. auto.
  - destruct (mem_rank r (s_monitors c) && other m) eqn:Mo; [|discriminate]. apply andb_true_iff in Mo as [_ O].
    apply turn_other in H as (t & -> & _); auto. exists []. split; [constructor|]. left. split; [symmetry; apply app_nil_r | discriminate].
Qed.

(** Somebody is told that everything stops. *)
Definition tells (e : sev) : Prop := (exists r, e = SvGot r SStop) \/ e = SvGot ROOT SStopObj.

Definition In_order (l : list sev) : Prop :=
  forall before e after, l = before ++ e :: after -> tells e -> forall w, In w W -> acknowledged c before w.

Lemma told_after s i src dst m : SI s -> nth_error (snet s) i = Some (src, dst, m) ->
  tells (SvGot dst m) -> forall w, In w W -> acknowledged c (slog s) w.
Proof.
  intros I N Te w Hw. apply (si_sent _ I w Hw).
  assert (Wf : wf (src, dst, m)).
  { assert (F := si_wf _ I). rewrite Forall_forall in F. apply F. eapply nth_error_In; eauto. }
  assert (Cn : cn s (src, dst, m) > 0) by (apply (count_occ_In mdec); eapply nth_error_In; eauto).
  assert (St : mstopped (smon s rm) = true).
  { destruct (mstopped (smon s rm)) eqn:St; auto. exfalso. destruct (si_going _ I St) as (_ & B & C & _).
    destruct Wf as [(x & _ & E)|[(x & _ & E)|[(x & Hx & E)|E]]];
      apply pair_inj in E as [E Em]; apply pair_inj in E as [Es Ed]; subst src dst m.
    - destruct Te as [[y E]|E]; discriminate.
    - destruct Te as [[y E]|E]; discriminate.
    - destruct (B x Hx). lia.
    - lia. }
  destruct (si_stopped _ I St) as (A & _). assert (Q := si_ack _ I w Hw). rewrite (all_acked _ I A w Hw) in Q.
  unfold ran in *. destruct (sworker s w); lia.
Qed.

Lemma order_step s a s' : SI s -> sstep c s a = Some s' -> In_order (slog s) -> In_order (slog s').
Proof.
  intros I H O before e after E Te w Hw.
  destruct (step_log _ _ _ H) as (l & F & [[L Na]|(i & src & dst & m & -> & N & L)]); rewrite L in E.
  - destruct (in_split_r _ _ _ _ _ E) as [(t & Ea & Eb)|(t & Ea & Eb)].
    + rewrite Ea in O. eapply O; eauto.
    + exfalso. unfold sends_only in F. rewrite Forall_forall in F.
      assert (X : In e l) by (rewrite Eb; apply in_or_app; simpl; auto). apply F in X.
      destruct Te as [[r ->]| ->]; exact X.
  - destruct (in_split_r _ _ _ _ _ E) as [(t & Ea & Eb)|(t & Ea & Eb)].
    + rewrite Ea in O. eapply O; eauto.
    + destruct t as [|x t]; simpl in Eb.
      * injection Eb as <- _. rewrite Ea, app_nil_r. eapply told_after; eauto.
      * exfalso. injection Eb as <- Eb. unfold sends_only in F. rewrite Forall_forall in F.
        assert (X : In e l) by (rewrite Eb; apply in_or_app; simpl; auto). apply F in X.
        destruct Te as [[r ->]| ->]; exact X.
Qed.

(** Progress: every receipt is counted. *)
Definition phi (s : ssys) : nat :=
  sumf (ran s) W + length (macks (smon s rm)) + sumf (left s) T + rleft s.

Lemma left_le s x : left s x <= 1.
Proof. unfold left. destruct (in_dec rdec x W); [destruct (sworker s x) | destruct (mstopped _)]; lia. Qed.

Lemma ran_le s x : ran s x <= 1.
Proof. unfold ran. destruct (sworker s x); lia. Qed.

Lemma T_length : length T < length W + length M.
Proof.
  unfold T, stop_targets. simpl. rewrite <- app_length. fold W M.
  assert (H : In rm (W ++ M)) by (apply in_or_app; right; apply rm_M).
  revert H. generalize (W ++ M) rm. clear. intros l r. induction l as [|x l IH]; simpl; [tauto|].
  intros H. assert (L : length (filter (fun r0 => negb (Nat.eqb r0 r)) l) <= length l).
  { clear. induction l; simpl; auto. destruct (negb _); simpl; lia. }
  destruct (Nat.eqb_spec x r); simpl; [lia|]. destruct H as [H|H]; [congruence|]. apply IH in H. lia.
Qed.

Lemma phi_le s : SI s -> phi s <= 3 * length W + length M.
Proof.
  intros I. unfold phi. assert (A := sumf_le (ran s) W (fun x _ => ran_le s x)).
  assert (B := sumf_le (left s) T (fun x _ => left_le s x)). assert (C := T_length).
  assert (D : length (macks (smon s rm)) <= length W).
  { apply NoDup_incl_length; [|apply (si_acks _ I)]. apply (NoDup_count_occ rdec). intros x.
    destruct (in_dec rdec x W) as [H|H].
    - assert (Q := si_ack _ I x H). assert (Y := ran_le s x). lia.
    - destruct (count_occ rdec (macks (smon s rm)) x) eqn:E; auto. exfalso. apply H, (si_acks _ I). eapply count_in; eauto. }
  assert (E : rleft s <= 1) by (unfold rleft; destruct (sroot s); lia). lia.
Qed.

Lemma receipts_app l l' : receipts (l ++ l') = receipts l + receipts l'.
Proof. unfold receipts. rewrite filter_app, app_length. auto. Qed.

Lemma sends_receipts l : sends_only l -> receipts l = 0.
Proof. unfold receipts. induction 1 as [|e l E F IH]; auto. simpl. destruct e; simpl in *; [auto|tauto]. Qed.

Lemma phi_step s a s' : SI s -> sstep c s a = Some s' ->
  phi s' = phi s + match a with ADeliver _ => 1 | _ => 0 end.
Proof.
  intros I H. assert (I' := I). destruct I' as [I1 I2 I3 I4 I5 I6 I7 I8 I9 I9' I10].
  destruct a as [| |i|r m]; simpl in H.
  - destruct (sroot s) eqn:R; try discriminate. apply Some_inj in H as <-.
    unfold phi, rleft. simpl. rewrite R. unfold ran, left. simpl. lia.
  - destruct (sroot s) as [|[|w l]| |] eqn:R; try discriminate; apply Some_inj in H as <-;
      unfold phi, rleft; simpl; rewrite R; unfold ran, left; simpl; lia.
  - destruct (nth_error (snet s) i) as [[[src dst] m]|] eqn:N; [|discriminate].
    assert (Wf : wf (src, dst, m)).
    { rewrite Forall_forall in I1. apply I1. eapply nth_error_In; eauto. }
    assert (Cn : cn s (src, dst, m) > 0) by (apply (count_occ_In mdec); eapply nth_error_In; eauto).
    destruct Wf as [(w & Hw & E)|[(w & Hw & E)|[(r & Hr & E)|E]]];
      apply pair_inj in E as [E Em]; apply pair_inj in E as [Es Ed]; subst src dst m.
    + destruct (Nat.eqb_spec w ROOT) as [X|Nw]; [exfalso; apply (not_root w); auto|].
      rewrite (proj2 (mem_rank_In w (s_workers c)) Hw) in H.
      assert (Rw : sworker s w = WkRun).
      { assert (A := I2 w Hw). unfold ran in A. destruct (sworker s w); auto; lia. }
      unfold worker_recv in H. simpl in H. rewrite Rw in H. apply Some_inj in H as <-.
      unfold phi, rleft. simpl.
      rewrite (sumf_up (ran s) _ W w W_nodup Hw).
      * rewrite (sumf_ext _ (left s) T); [lia|]. intros x Hx. unfold left. simpl. destruct (in_dec rdec x W); auto.
        destruct (rdec x w) as [->|Nx]; [rewrite fupd_same, Rw | rewrite fupd_other]; auto.
      * unfold ran. simpl. rewrite fupd_same, Rw. auto.
      * intros x _ Nx. unfold ran. simpl. rewrite fupd_other; auto.
    + assert (Nr : rm <> ROOT) by (apply not_root; right; apply rm_M).
      destruct (Nat.eqb_spec rm ROOT) as [X|_]; [tauto|].
      destruct (mem_rank rm (s_workers c)) eqn:Mw; [apply mem_rank_In in Mw; exfalso; apply rm_W; auto|].
      destruct (mem_rank rm (s_monitors c)) eqn:Mm; [|discriminate].
      unfold monitor_recv in H. apply turn_ack in H as (St & t & At & H). simpl in St, At.
      assert (X : sworker s' = sworker s /\ sroot s' = sroot s /\ smon s' = fupd (smon s) rm t).
      { destruct H as [(_ & _ & ->)|(_ & _ & ->)]; [rewrite send_all_eq|]; auto. }
      destruct X as (X1 & X2 & X3). unfold phi, rleft. rewrite X2, X3, fupd_same, At, app_length. simpl.
      rewrite (sumf_ext (ran s') (ran s) W) by (intros x Hx; unfold ran; rewrite X1; auto).
      rewrite (sumf_ext (left s') (left s) T); [lia|].
      intros x Hx. unfold left. rewrite X1, X3. destruct (in_dec rdec x W); auto.
      apply T_In in Hx as [_ Hx]. rewrite fupd_other by exact Hx. auto.
    + destruct (mstopped (smon s rm)) eqn:St; [|destruct (I8 eq_refl) as (_ & B & _); destruct (B r Hr); lia].
      destruct (I7 eq_refl) as (A & B & C). assert (Br := B r Hr). assert (L0 : left s r = 0) by lia.
      assert (Hr' := Hr). apply T_In in Hr' as [Ht Nr].
      destruct (Nat.eqb_spec r ROOT) as [X|_]; [exfalso; apply (not_root r); auto|].
      assert (Y : (forall x, In x W -> ran s' x = ran s x) /\ left s' r = 1 /\ (forall x, x <> r -> left s' x = left s x) /\
                  macks (smon s' rm) = macks (smon s rm) /\ sroot s' = sroot s).
      { destruct (mem_rank r (s_workers c)) eqn:Mw.
        - apply mem_rank_In in Mw. fold W in Mw.
          assert (Sr : sworker s r = WkReady).
          { assert (Q := I4 r Mw). rewrite (all_acked _ I A r Mw) in Q.
            unfold ran, left in *. specialize (I6 r Mw). destruct (in_dec rdec r W); [|tauto].
            destruct (sworker s r); auto; try congruence; lia. }
          unfold worker_recv in H. simpl in H. rewrite Sr in H. apply Some_inj in H as <-. simpl.
          unfold ran, left. simpl. repeat split; auto.
          + intros x Hx. destruct (rdec x r) as [->|Nx]; [rewrite fupd_same, Sr | rewrite fupd_other]; auto.
          + destruct (in_dec rdec r W); [|tauto]. rewrite fupd_same. auto.
          + intros x Nx. rewrite fupd_other; auto.
        - destruct Ht as [Ht|Ht]; [apply mem_rank_In in Ht; unfold W in Ht; congruence|].
          destruct (mem_rank r (s_monitors c)) eqn:Mm; [|discriminate].
          assert (NW : ~ In r W) by (intros X; eapply WM; eauto).
          unfold monitor_recv in H. apply turn_stop in H as (Sr & t & At & St' & ->). simpl in *.
          unfold left. simpl. repeat split; auto.
          + destruct (in_dec rdec r W); [tauto|]. rewrite fupd_same, St'. auto.
          + intros x Nx. rewrite fupd_other; auto.
          + rewrite fupd_other; auto. }
      destruct Y as (Y1 & Y2 & Y3 & Y4 & Y5). unfold phi, rleft. rewrite Y4, Y5.
      rewrite (sumf_ext (ran s') (ran s) W Y1), (sumf_up (left s) (left s') T r T_nodup Hr); [lia | lia|].
      intros x _ Nx. auto.
    + simpl in H. unfold root_recv in H. simpl in H. destruct (sroot s) eqn:R; try discriminate.
      destruct (Nat.eqb rm MONITOR); [|discriminate]. apply Some_inj in H as <-.
      unfold phi, rleft. simpl. rewrite R. unfold ran, left. simpl. lia.
  - destruct (mem_rank r (s_monitors c) && other m) eqn:Mo; [|discriminate].
    apply andb_true_iff in Mo as [Mm O]. apply mem_rank_In in Mm. fold M in Mm.
    apply turn_other in H as (t & -> & At & St & St0); auto.
    assert (NW : ~ In r W) by (intros X; eapply WM; eauto).
    unfold phi, rleft, ran. simpl.
    assert (Ak : macks (fupd (smon s) r t rm) = macks (smon s rm)).
    { destruct (rdec rm r) as [Er|Nx]; [rewrite Er, fupd_same | rewrite fupd_other]; auto. }
    rewrite Ak. rewrite (sumf_ext (left (set_mon s r t)) (left s) T); [lia|].
    intros x Hx. unfold left. simpl. destruct (in_dec rdec x W); auto.
    destruct (rdec x r) as [->|Nx]; [rewrite fupd_same, St, St0 | rewrite fupd_other]; auto.
Qed.

Record Inv (s : ssys) : Prop := {
  inv_si : SI s;
  inv_order : In_order (slog s);
  inv_phi : receipts (slog s) = phi s
}.

Lemma inv_step s a s' : Inv s -> sstep c s a = Some s' -> Inv s'.
Proof.
  intros [A B D] H. split; [eapply si_step; eauto | eapply order_step; eauto|].
  rewrite (phi_step _ _ _ A H), <- D.
  destruct (step_log _ _ _ H) as (l & F & [[L Na]|(i & src & dst & m & -> & N & L)]); rewrite L, receipts_app.
  - rewrite (sends_receipts l F). destruct a; try lia. exfalso. eapply Na; eauto.
  - unfold receipts at 2. simpl. fold (receipts l). rewrite (sends_receipts l F). lia.
Qed.

Lemma inv_init g : Inv (sinit g).
Proof.
  split; [apply si_init | intros [|x b] e after E Te; discriminate E|].
  unfold phi, rleft. simpl. unfold receipts. simpl.
  assert (A : sumf (ran (sinit g)) W = 0).
  { unfold sumf, ran. simpl. induction W; simpl; auto. }
  assert (B : sumf (left (sinit g)) T = 0).
  { unfold sumf, left. simpl. induction T as [|x l IH]; simpl; auto. destruct (in_dec rdec x W); auto. }
  rewrite A, B. auto.
Qed.

Lemma inv_run acts : forall s, Inv s -> Inv (srun c s acts).
Proof.
  induction acts as [|a acts IH]; intros s I; simpl; auto. apply IH.
  destruct (sstep c s a) as [s'|] eqn:E; auto. eapply inv_step; eauto.
Qed.

Variable g : rank -> manager.
Variable acts : list act.
Let s := srun c (sinit g) acts.

Lemma inv_s : Inv s.
Proof. apply inv_run, inv_init. Qed.

Lemma stop_once r : In r (W ++ M) -> stops (slog s) r <= 1.
Proof.
  intros H. destruct (rdec r rm) as [->|N]; [rewrite (si_gotrm _ (inv_si _ inv_s)); auto|].
  rewrite (si_got _ (inv_si _ inv_s)); [apply left_le|]. apply T_In. apply in_app_or in H. tauto.
Qed.

Lemma not_early before e after : slog s = before ++ e :: after ->
  (exists r, e = SvGot r SStop) \/ e = SvGot ROOT SStopObj ->
  forall w, In w W -> acknowledged c before w.
Proof. intros E Te. apply (inv_order _ inv_s before e after E Te). Qed.

Lemma nobody_dies w : In w W -> sworker s w <> WkDead.
Proof. apply (si_dead _ (inv_si _ inv_s)). Qed.

Lemma few_receipts : receipts (slog s) <= 3 * length W + length M.
Proof. rewrite (inv_phi _ inv_s). apply phi_le, inv_s. Qed.

Lemma quiet_done : W <> [] -> rm = MONITOR -> sroot s <> RRun -> quiet c s ->
  sroot s = RGone /\ (forall r, In r (W ++ M) -> gone c s r /\ stops (slog s) r = if Nat.eqb r rm then 0 else 1).
Proof.
  intros Ne Em Rr (Q1 & Q2 & Q3). assert (I := inv_si _ inv_s). assert (I' := I).
  destruct I' as [I1 I2 I3 I4 I5 I6 I7 I8 I9 I9' I10]. clearbody s.
  assert (Td : todo s = []).
  { unfold todo. simpl in Q2. destruct (sroot s) as [|[|w l]| |]; auto; try congruence; discriminate. }
  assert (No : forall x, In x (snet s) -> exists i, nth_error (snet s) i = Some x /\ sstep c s (ADeliver i) = None).
  { intros x Hx. apply In_nth_error in Hx as [i Hi]. exists i. split; auto. }
  (* no CANCEL in flight *)
  assert (Run : forall w, In w W -> ran s w = 1).
  { intros w Hw. assert (A := I2 w Hw). rewrite Td in A. simpl in A.
    destruct (cn s (ROOT, w, SCancel)) eqn:Cw; [lia|]. exfalso.
    destruct (No (ROOT, w, SCancel)) as (i & N & H); [eapply (count_in mdec); exact Cw|].
    simpl in H. rewrite N in H. destruct (Nat.eqb_spec w ROOT) as [X|Nw]; [apply (not_root w); auto|].
    rewrite (proj2 (mem_rank_In w (s_workers c)) Hw) in H. unfold worker_recv in H. simpl in H.
    assert (Y : ran s w = 0) by lia. unfold ran in Y. destruct (sworker s w); discriminate. }
  (* no ack in flight *)
  assert (Mm : mem_rank rm (s_monitors c) = true) by (apply mem_rank_In, rm_M).
  assert (Mw : mem_rank rm (s_workers c) = false).
  { destruct (mem_rank rm (s_workers c)) eqn:E; auto. apply mem_rank_In in E. exfalso. apply rm_W; auto. }
  assert (Nr : Nat.eqb rm ROOT = false) by (apply Nat.eqb_neq, not_root; right; apply rm_M).
  assert (Turn : forall x src m, mstopped (smon s x) = false -> forall i, mon_turn c (take s i x m) x (MAck src) <> None).
  { intros x src m St i. unfold mon_turn. simpl. rewrite St. unfold mon_step. rewrite St.
    destruct (Nat.eqb (length _) (length _)); discriminate. }
  assert (Turn' : forall x m, mstopped (smon s x) = false -> forall i, mon_turn c (take s i x m) x MStop <> None).
  { intros x m St i. unfold mon_turn. simpl. rewrite St. unfold mon_step. rewrite St. discriminate. }
  assert (Stp : mstopped (smon s rm) = true).
  { destruct (mstopped (smon s rm)) eqn:St; auto. exfalso. destruct (I8 eq_refl) as (A & _). apply (A Ne).
    assert (Ak : forall w, In w W -> count_occ rdec (macks (smon s rm)) w = 1).
    { intros w Hw. assert (B := I4 w Hw). rewrite (Run w Hw) in B.
      destruct (cn s (w, rm, SAck)) eqn:Cw; [lia|]. exfalso.
      destruct (No (w, rm, SAck)) as (i & N & H); [eapply (count_in mdec); exact Cw|].
      simpl in H. rewrite N, Nr, Mw, Mm in H. apply (Turn rm w SAck St i). exact H. }
    apply Nat.le_antisymm.
    - apply NoDup_incl_length; auto. apply (NoDup_count_occ rdec). intros x.
      destruct (in_dec rdec x W) as [H|H]; [rewrite Ak; auto|].
      destruct (count_occ rdec (macks (smon s rm)) x) eqn:E; auto. exfalso. apply H, I5. eapply count_in; eauto.
    - apply NoDup_incl_length; [apply W_nodup|]. intros x Hx. apply (count_occ_In rdec). rewrite Ak; auto. }
  destruct (I7 Stp) as (A & B & C).
  assert (Lf : forall r, In r T -> left s r = 1).
  { intros r Hr. specialize (B r Hr). destruct (cn s (rm, r, SStop)) eqn:Cr; [lia|]. exfalso.
    destruct (No (rm, r, SStop)) as (i & N & H); [eapply (count_in mdec); exact Cr|].
    assert (Hr' := Hr). apply T_In in Hr' as [Ht Nrm].
    simpl in H. rewrite N in H. destruct (Nat.eqb_spec r ROOT) as [X|_]; [apply (not_root r); auto|].
    assert (L0 : left s r = 0) by lia. unfold left in L0.
    destruct (mem_rank r (s_workers c)) eqn:Er.
    - apply mem_rank_In in Er. fold W in Er. unfold worker_recv in H. simpl in H.
      assert (R1 := Run r Er). unfold ran in R1. specialize (I6 r Er). destruct (in_dec rdec r W); [|tauto].
      destruct (sworker s r); try discriminate; congruence.
    - destruct Ht as [Ht|Ht]; [apply mem_rank_In in Ht; unfold W in Ht; congruence|].
      rewrite (proj2 (mem_rank_In r (s_monitors c)) Ht) in H.
      destruct (in_dec rdec r W) as [X|X]; [eapply WM; eauto|].
      apply (Turn' r SStop) with (i := i) in H; auto. destruct (mstopped (smon s r)); auto; discriminate. }
  split.
  - unfold rleft in C. destruct (sroot s) eqn:R; auto; exfalso.
    + congruence.
    + simpl in Q2. rewrite R in Q2. destruct l; discriminate.
    + destruct (No (rm, ROOT, SStopObj)) as (i & N & H); [apply (count_occ_In mdec); unfold cn in C; lia|].
      simpl in H. rewrite N in H. simpl in H. unfold root_recv in H. simpl in H. rewrite R in H.
      rewrite Em, Nat.eqb_refl in H. discriminate.
  - intros r Hr. apply in_app_or in Hr. destruct (Nat.eqb_spec r rm) as [->|N].
    + split; auto. split; intros X; auto. exfalso. apply rm_W; auto.
    + assert (Ht : In r T) by (apply T_In; tauto). split; [|rewrite I9; auto].
      specialize (Lf r Ht). unfold left in Lf. split; intros X; fold W in X; fold M in X.
      * destruct (in_dec rdec r W); [|tauto]. destruct (sworker s r); auto; discriminate.
      * destruct (in_dec rdec r W) as [Y|Y]; [exfalso; eapply WM; eauto|]. destruct (mstopped (smon s r)); [reflexivity | discriminate Lf].
Qed.
End Shut.

(** The clusters that can be started. *)
Lemma started place addr shm c :
  (forall a b, In a place -> In b place -> addr a = addr b -> a = b) -> 2 <= length place ->
  (shm = true -> forall k, In k place -> 2 <= count_occ Nat.eq_dec place k) ->
  cluster place addr shm = Some c -> cluster_ok c.
Proof.
  intros A L T H. unfold cluster in H.
  destruct (roles_any place addr A shm L T) as (ms & M & P & F & G). rewrite M in H.
  destruct (get_monitor place addr shm ROOT) as [m|] eqn:E; [|discriminate]. apply Some_inj in H as <-.
  assert (N := Permutation_NoDup (Permutation_sym P) (seq_NoDup _ _)).
  apply NoDup_cons_iff in N as [N0 N]. unfold cluster_ok. simpl.
  assert (Sw : Permutation (ms ++ workers place addr ms) (workers place addr ms ++ ms)) by apply Permutation_app_comm.
  split; [eapply Permutation_NoDup; eauto|]. split.
  - intros I. apply N0. eapply Permutation_in; [apply Permutation_sym, Sw | exact I].
  - destruct shm.
    + destruct (G eq_refl ROOT) as (m' & E' & I & _); [unfold ROOT; lia|]. congruence.
    + destruct (F eq_refl) as [-> Q]. rewrite Q in E. injection E as <-. simpl; auto.
Qed.

Lemma started_one place addr shm c :
  (forall a b, In a place -> In b place -> addr a = addr b -> a = b) -> 2 <= length place ->
  (shm = true -> forall k, In k place -> 2 <= count_occ Nat.eq_dec place k) ->
  (shm = true -> nth 1 place 0 = nth 0 place 0) ->
  cluster place addr shm = Some c -> s_rmon c = MONITOR.
Proof.
  intros A L T O H. unfold cluster in H. destruct (monitor_processes place addr shm); [|discriminate].
  unfold ROOT in H. rewrite root_monitor in H by auto. apply Some_inj in H as <-. reflexivity.
Qed.
