(** The log of a worker: how it is built up. *)
From Verif Require Import Lib ShmModel ShmRaceProofs ValModel WorkerModel WorkerSpec WorkerProofs.
From Coq Require Import Permutation.

(** What storing a result amounts to. *)
Definition results (o : outputs) (r : result) : option (list (dataid * val) * list dataid) :=
  match r, o with
  | RExc e, OMany ds => Some (map (fun d => (d, VExc e)) ds, [])
  | RExc e, OOne d => Some ([(d, VExc e)], [])
  | RExc e, ONone => None
  | RVal v, ONone => Some ([], [])
  | RVal v, OOne d => Some ([(d, v)], [d])
  | RVal v, OMany ds =>
      match iterate v with
      | None => None
      | Some vs => Some (combine ds vs, map fst (combine ds vs))
      end
  end.

Definition put_all (w : wst) (l : list (dataid * val)) : wst :=
  fold_left (fun w dv => put w (fst dv) (snd dv)) l w.

Definition dput_all (m : dmap val) (l : list (dataid * val)) : dmap val :=
  fold_left (fun m dv => dput m (fst dv) (snd dv)) l m.

Definition ev_stores (l : list (dataid * val)) : list wev := map (fun dv => EvStore (fst dv) (snd dv)) l.

Lemma store_result_eqn w o r : store_result w o r =
  match results o r with Some (l, done) => Some (put_all w l, done) | None => None end.
Proof.
  destruct r, o; simpl; auto.
  - destruct (iterate v); auto.
  - f_equal. f_equal. unfold put_all. revert w. induction ds; intros; simpl; auto.
Qed.

Lemma put_all_fields l : forall w, store (put_all w l) = dput_all (store w) l /\
  owner (put_all w l) = owner w /\ reqs (put_all w l) = reqs w /\ sent (put_all w l) = sent w /\
  gets (put_all w l) = gets w /\ bgets (put_all w l) = bgets w /\ pend (put_all w l) = pend w /\
  apend (put_all w l) = apend w /\ running (put_all w l) = running w /\ calls (put_all w l) = calls w /\
  ready (put_all w l) = ready w /\ log (put_all w l) = log w ++ ev_stores l.
Proof.
  induction l as [|[d v] l IH]; intros w; simpl.
  - rewrite app_nil_r. repeat split; auto.
  - destruct (IH (put w d v)) as (H1&H2&H3&H4&H5&H6&H7&H8&H9&H10&H11&H12).
    rewrite H1, H2, H3, H4, H5, H6, H7, H8, H9, H10, H11, H12. simpl.
    rewrite <- app_assoc. repeat split; auto.
Qed.

Lemma dput_all_spec l : forall m d x, dput_all m l d = Some x -> m d = Some x \/ In (d, x) l.
Proof.
  induction l as [|[a b] l IH]; intros m d x H; simpl in H; auto.
  apply IH in H as [H|H]; simpl; auto.
  destruct (did_dec a d) as [<-|N].
  - rewrite dput_same in H. apply Some_inj in H as <-. auto.
  - rewrite dput_other in H; auto.
Qed.

Lemma dput_all_mono l : forall m d, m d <> None -> dput_all m l d <> None.
Proof.
  induction l as [|[a b] l IH]; intros m d H; simpl; auto.
  apply IH. destruct (did_dec a d) as [<-|N]; [rewrite dput_same; discriminate | rewrite dput_other; auto].
Qed.

Lemma dput_all_in l : forall m d, In d (map fst l) -> dput_all m l d <> None.
Proof.
  induction l as [|[a b] l IH]; intros m d H; simpl in *; [tauto|].
  destruct H as [<-|H]; [|apply IH; auto].
  apply dput_all_mono. rewrite dput_same. discriminate.
Qed.

Lemma dput_all_not l : forall m d, ~ In d (map fst l) -> dput_all m l d = m d.
Proof.
  induction l as [|[a b] l IH]; intros m d H; simpl in *; auto.
  rewrite IH by tauto. apply dput_other. tauto.
Qed.

(** Only sending and asking happened. *)
Definition quiet_ev (e : wev) : Prop :=
  match e with EvPut _ _ _ _ | EvGet _ _ | EvDone _ => True | _ => False end.

Record Quietly (w w' : wst) : Prop := {
  qu_store : store w' = store w;
  qu_owner : owner w' = owner w;
  qu_pend : pend w' = pend w;
  qu_apend : apend w' = apend w;
  qu_running : running w' = running w;
  qu_calls : calls w' = calls w;
  qu_ready : ready w' = ready w;
  qu_log : exists l, log w' = log w ++ l /\ Forall quiet_ev l
}.

Lemma quietly_refl w : Quietly w w.
Proof. split; auto. exists []. rewrite app_nil_r. auto. Qed.

Lemma quietly_trans w1 w2 w3 : Quietly w1 w2 -> Quietly w2 w3 -> Quietly w1 w3.
Proof.
  intros [A1 A2 A3 A4 A5 A6 A7 [l [A8 F]]] [B1 B2 B3 B4 B5 B6 B7 [l' [B8 F']]].
  split; try congruence. exists (l ++ l'). rewrite B8, A8, app_assoc. split; auto.
  apply Forall_app; auto.
Qed.

Lemma quietly_emit w e : quiet_ev e -> Quietly w (emit w e).
Proof. intros Q. split; auto. exists [e]. simpl. auto. Qed.

Lemma quietly_asks self w w' : Asks self w w' -> Quietly w w'.
Proof.
  induction 1; [apply quietly_refl|]. eapply quietly_trans; [|exact IHAsks].
  split; auto. exists [EvGet o d]. split; auto. constructor; simpl; auto.
Qed.

Lemma quietly_get w src d b : Quietly w (process_get w src d b).
Proof.
  unfold process_get. destruct (store w d).
  - destruct (pair_in (d, src) (sent w)); [apply quietly_refl|].
    split; auto. eexists. simpl. split; eauto. constructor; simpl; auto.
  - destruct b; (split; auto; exists []; rewrite app_nil_r; auto).
Qed.

Lemma quietly_fold d b l : forall w, Quietly w (fold_left (fun w r => process_get w r d b) l w).
Proof.
  induction l as [|r l IH]; intros w; simpl; [apply quietly_refl|].
  eapply quietly_trans; [apply quietly_get|apply IH].
Qed.

Lemma quietly_set w g b : Quietly w (set_gets w g b).
Proof. split; auto. exists []. rewrite app_nil_r. auto. Qed.

Lemma quietly_request w d : Quietly w (check_request w d).
Proof.
  unfold check_request.
  eapply quietly_trans; [apply quietly_fold|]. eapply quietly_trans; [apply quietly_set|].
  eapply quietly_trans; [apply quietly_fold|]. apply quietly_set.
Qed.

Lemma quietly_gets ds : forall w, Quietly w (check_gets w ds).
Proof.
  unfold check_gets. induction ds as [|d ds IH]; intros w; simpl; [apply quietly_refl|].
  eapply quietly_trans; [apply quietly_request|apply IH].
Qed.

(** The method calls executed so far. *)
Definition ev_run (n : nat) (c : callee) (args kwargs : val) : list wev :=
  match failed_arg args kwargs with Some _ => [] | None => [EvRun n c args kwargs] end.

Definition other_ev (e : wev) : Prop :=
  match e with EvIn _ | EvPut _ _ _ _ | EvGet _ _ | EvDone _ => True | _ => False end.

Lemma stored_app l l' d x : stored (l ++ l') d x <-> stored l d x \/ stored l' d x.
Proof. clear. unfold stored. rewrite !in_app_iff. tauto. Qed.

Lemma stored_quiet l d x : Forall quiet_ev l -> ~ stored l d x.
Proof. intros F [H|H]; rewrite Forall_forall in F; apply F in H; exact H. Qed.

Lemma received_app l l' : received (l ++ l') = received l ++ received l'.
Proof. apply flat_map_app. Qed.

Lemma ended_app l l' : ended (l ++ l') = ended l ++ ended l'.
Proof. apply flat_map_app. Qed.

Lemma calls_app l l' : calls_of (l ++ l') = calls_of l ++ calls_of l'.
Proof. apply flat_map_app. Qed.

Lemma received_quiet l : Forall quiet_ev l -> received l = [].
Proof. induction 1; simpl; auto. rewrite IHForall. destruct x; simpl in *; tauto. Qed.

Lemma ended_quiet l : Forall quiet_ev l -> ended l = [].
Proof. induction 1; simpl; auto. rewrite IHForall. destruct x; simpl in *; tauto. Qed.

Lemma calls_quiet l : Forall quiet_ev l -> calls_of l = [].
Proof. induction 1; simpl; auto. rewrite IHForall. destruct x; simpl in *; tauto. Qed.

(** A pending request is a received one with some references filled in. *)
Definition From (l : list wev) (q' : request) : Prop :=
  exists q, In q (received l) /\ q_id q' = q_id q /\ q_fn q' = q_fn q /\ q_out q' = q_out q /\
            fill (stored l) (q_args q) (q_args q') /\ fill (stored l) (q_kwargs q) (q_kwargs q').

Lemma from_app l l' q : From l q -> From (l ++ l') q.
Proof.
  intros (q0 & I & E1 & E2 & E3 & F1 & F2). exists q0. rewrite received_app.
  repeat split; auto; [apply in_or_app; auto | |];
    (eapply fill_mono; [|eassumption]; intros; apply stored_app; auto).
Qed.

Lemma callee_app l l' q c : callee_of l q c -> callee_of (l ++ l') q c.
Proof.
  unfold callee_of. destruct (q_fn q); auto. intros (f & S & E). exists f. split; auto.
  apply stored_app; auto.
Qed.

Lemma flat_nil (l : list dataid) : (forall d, In d l -> False) -> l = [].
Proof. destruct l; auto. intros H. exfalso. apply (H d). simpl; auto. Qed.

Lemma flat_map_nil {A B} (f : A -> list B) l x : flat_map f l = [] -> In x l -> f x = [].
Proof.
  induction l; simpl; [tauto|]. intros E [<-|I]; apply app_eq_nil in E as [E1 E2]; auto.
Qed.

Lemma in_combine_snd {A B} (l : list A) (l' : list B) x : In x (combine l l') -> In (snd x) l'.
Proof. destruct x. apply in_combine_r. Qed.

Lemma ended_run n c a k : ended (ev_run n c a k) = [].
Proof. unfold ev_run. destruct (failed_arg a k); auto. Qed.

Lemma received_run n c a k : received (ev_run n c a k) = [].
Proof. unfold ev_run. destruct (failed_arg a k); auto. Qed.

Lemma stored_run n c a k d x : ~ stored (ev_run n c a k) d x.
Proof.
  unfold ev_run, stored. destruct (failed_arg a k); simpl; [tauto|].
  intros [[H|[]]|[H|[]]]; discriminate.
Qed.

Lemma stored_stores st d x : stored (ev_stores st) d x <-> In (d, x) st.
Proof.
  unfold stored, ev_stores. rewrite !in_map_iff. split.
  - intros [([a b] & E & I) | ([a b] & E & I)]; simpl in E; [discriminate|].
    injection E as -> ->. exact I.
  - intros I. right. exists (d, x). auto.
Qed.

Lemma ended_stores st : ended (ev_stores st) = [].
Proof. induction st; auto. Qed.
Lemma received_stores st : received (ev_stores st) = [].
Proof. induction st; auto. Qed.
Lemma calls_stores st : calls_of (ev_stores st) = [].
Proof. induction st; auto. Qed.

(** Numbers of requests. *)
Definition cnt (n : nat) (l : list nat) : nat := count_occ Nat.eq_dec l n.
Arguments cnt : simpl never.
Definition n_running (w : wst) : list nat := map (fun p => q_id (fst p)) (running w).
Definition busy (n : nat) (w : wst) : nat := cnt n (ended (log w)) + cnt n (n_running w).

Lemma cnt_app n a b : cnt n (a ++ b) = cnt n a + cnt n b.
Proof. apply count_occ_app. Qed.

Lemma cnt_nil n : cnt n [] = 0.
Proof. reflexivity. Qed.

Lemma busy_quietly n w w' : Quietly w w' -> busy n w' = busy n w.
Proof.
  intros [_ _ _ _ Q5 _ _ [l [Q8 F]]]. unfold busy, n_running.
  rewrite Q5, Q8, ended_app, (ended_quiet _ F), app_nil_r. reflexivity.
Qed.

Lemma received_quietly w w' : Quietly w w' -> received (log w') = received (log w).
Proof.
  intros [_ _ _ _ _ _ _ [l [Q8 F]]]. rewrite Q8, received_app, (received_quiet _ F), app_nil_r. reflexivity.
Qed.

Lemma log_quietly w w' : Quietly w w' -> exists l, log w' = log w ++ l.
Proof. intros [_ _ _ _ _ _ _ [l [Q8 F]]]. eauto. Qed.

(** Not the arrival of a message. *)
Definition own_ev (e : wev) : Prop := match e with EvIn _ => False | _ => True end.

Lemma own_quiet l : Forall quiet_ev l -> Forall own_ev l.
Proof. apply Forall_impl. intros e. destruct e; simpl; auto. Qed.

Lemma own_run n c a k r st : Forall own_ev (ev_run n c a k ++ EvEnd n r :: ev_stores st).
Proof.
  apply Forall_app. split.
  - unfold ev_run. destruct (failed_arg a k); repeat constructor.
  - constructor; simpl; auto. apply Forall_forall. intros e H. apply in_map_iff in H as ([d v] & <- & _).
    exact Logic.I.
Qed.

(** What any processing keeps. *)
Record Kept (w w' : wst) : Prop := {
  k_pend : pend w' = pend w;
  k_apend : apend w' = apend w;
  k_ready : ready w' = ready w;
  k_owner : owner w' = owner w;
  k_rec : received (log w') = received (log w);
  k_log : exists l, log w' = log w ++ l;
  k_own : exists l, log w' = log w ++ l /\ Forall own_ev l;
  k_store : forall d, store w d <> None -> store w' d <> None
}.

Lemma kept_refl w : Kept w w.
Proof. split; auto; exists []; rewrite app_nil_r; auto. Qed.

Lemma kept_trans w1 w2 w3 : Kept w1 w2 -> Kept w2 w3 -> Kept w1 w3.
Proof.
  intros [A1 A2 A3 A4 A5 [l A6] [m [A8 Fm]] A7] [B1 B2 B3 B4 B5 [l' B6] [m' [B8 Fm']] B7].
  split; try congruence.
  - exists (l ++ l'). rewrite B6, A6, app_assoc. auto.
  - exists (m ++ m'). rewrite B8, A8, app_assoc. split; auto. apply Forall_app; auto.
  - auto.
Qed.

Lemma kept_quietly w w' : Quietly w w' -> Kept w w'.
Proof.
  intros Q. split; try (apply Q).
  - apply received_quietly; auto.
  - apply log_quietly; auto.
  - destruct (qu_log _ _ Q) as (l & L & F). exists l. split; auto. apply own_quiet; auto.
  - intros d. rewrite (qu_store _ _ Q). auto.
Qed.

Definition one (n : nat) (q : request) : nat := cnt n [q_id q].

Lemma cnt_remove_at n i (l : list (request * callee)) p : nth_error l i = Some p ->
  cnt n (map (fun p => q_id (fst p)) l) =
  cnt n (map (fun p => q_id (fst p)) (remove_at i l)) + one n (fst p).
Proof.
  intros H. apply nth_error_split in H as (a & b & -> & L). unfold remove_at.
  assert (E : skipn (S i) (a ++ p :: b) = b).
  { subst. replace (S (length a)) with (length (a ++ [p])) by (rewrite app_length; simpl; lia).
    change (p :: b) with ([p] ++ b). rewrite app_assoc, skipn_app, skipn_all, Nat.sub_diag. reflexivity. }
  rewrite E. subst. rewrite firstn_app, firstn_all, Nat.sub_diag. simpl. rewrite app_nil_r.
  rewrite !map_app, !cnt_app. simpl. unfold one, cnt. simpl. destruct (Nat.eq_dec (q_id (fst p)) n); lia.
Qed.

Lemma remove_at_in {A} i (l : list A) x : In x (remove_at i l) -> In x l.
Proof.
  unfold remove_at. intros H. rewrite <- (firstn_skipn i l). apply in_or_app.
  apply in_app_or in H as [H|H]; auto. right.
  rewrite <- (firstn_skipn 1 (skipn i l)). apply in_or_app. right.
  revert H. clear. revert i. induction l; intros i H; simpl in *; [destruct i; auto|].
  destruct i; simpl in *; auto.
Qed.

Section Log.
Variable self : rank.
Variable body : val -> val -> val -> result.
Variable mbody : list call -> call -> result.
Variable is_async : callee -> bool.

Definition result_of (l : list wev) (c : callee) (args kwargs : val) : result :=
  match failed_arg args kwargs with
  | Some e => RExc e
  | None =>
      match c with
      | CFun f => body f args kwargs
      | CMethod m => mbody (calls_of l) {| c_method := m; c_args := args; c_kwargs := kwargs |}
      end
  end.

(** The log is a sequence of inputs, sends, and executions of received requests. *)
Inductive Good : list wev -> Prop :=
| good_nil : Good []
| good_other l e : other_ev e -> Good l -> Good (l ++ [e])
| good_exec l q c args kwargs st :
    Good l -> In q (received l) -> callee_of l q c ->
    fill (stored l) (q_args q) args -> fill (stored l) (q_kwargs q) kwargs ->
    refs args = [] -> refs kwargs = [] ->
    (exists done, results (q_out q) (result_of l c args kwargs) = Some (st, done)) \/
    (results (q_out q) (result_of l c args kwargs) = None /\ st = []) ->
    Good (l ++ ev_run (q_id q) c args kwargs ++
          EvEnd (q_id q) (result_of l c args kwargs) :: ev_stores st).

Lemma good_quiet l' : forall l, Good l -> Forall quiet_ev l' -> Good (l ++ l').
Proof using Type.
  induction l' as [|e l' IH]; intros l G F; [rewrite app_nil_r; auto|].
  inversion F; subst. change (e :: l') with ([e] ++ l'). rewrite app_assoc. apply IH; auto.
  constructor; auto. destruct e; simpl in *; auto.
Qed.

Record WI (w : wst) : Prop := {
  wi_good : Good (log w);
  wi_store : forall d x, store w d = Some x -> stored (log w) d x;
  wi_clean : forall d x, stored (log w) d x -> refs x = [];
  wi_calls : calls w = calls_of (log w);
  wi_from : forall q, In q (pend w) \/ In q (apend w) -> From (log w) q;
  wi_run : forall q c, In (q, c) (running w) ->
    From (log w) q /\ refs (q_args q) = [] /\ refs (q_kwargs q) = [] /\ callee_of (log w) q c
}.

Lemma wi_clean' w : WI w -> clean w.
Proof using Type. intros I d x H. eapply wi_clean; eauto. eapply wi_store; eauto. Qed.

Lemma wi_quietly w w' : WI w -> Quietly w w' -> WI w'.
Proof using Type.
  intros [I1 I2 I3 I4 I5 I6] [Q1 Q2 Q3 Q4 Q5 Q6 Q7 [l [Q8 F]]]. split.
  - rewrite Q8. apply good_quiet; auto.
  - intros d x. rewrite Q1, Q8. intros H. apply stored_app; auto.
  - intros d x. rewrite Q8, stored_app. intros [H|H]; eauto. apply stored_quiet in H; tauto.
  - rewrite Q8, calls_app, (calls_quiet l), app_nil_r, Q6; auto.
  - intros q. rewrite Q3, Q4, Q8. intros H. apply from_app; auto.
  - intros q c. rewrite Q5, Q8. intros H. apply I6 in H as (A & B & C & D).
    repeat split; auto; [apply from_app | apply callee_app]; auto.
Qed.

(** What processing one request amounts to. *)
Inductive Processed (w : wst) (q : request) (w' : wst) : option request -> Prop :=
| PrPending args kwargs :
    Asks self w w' ->
    fill (has w) (q_args q) args -> fill (has w) (q_kwargs q) kwargs ->
    (forall d, In d (refs args ++ refs kwargs) <-> In d (qrefs q) /\ store w d = None) ->
    refs args ++ refs kwargs <> [] ->
    Processed w q w' (Some {| q_id := q_id q; q_fn := q_fn q; q_args := args;
                              q_kwargs := kwargs; q_out := q_out q |})
| PrAsync c args kwargs w2 :
    Asks self w w2 ->
    (match q_fn q with FRef d => exists f, store w d = Some f /\ c = CFun f | FMethod m => c = CMethod m end) ->
    fill (has w) (q_args q) args -> fill (has w) (q_kwargs q) kwargs ->
    refs args = [] -> refs kwargs = [] -> (forall d, In d (qrefs q) -> store w d <> None) ->
    is_async c = true ->
    w' = check_gets (set_running w2 (running w2 ++
           [({| q_id := q_id q; q_fn := q_fn q; q_args := args; q_kwargs := kwargs;
                q_out := q_out q |}, c)])) (out_ids (q_out q)) ->
    Processed w q w' None
| PrSync c args kwargs w2 st done :
    Asks self w w2 ->
    (match q_fn q with FRef d => exists f, store w d = Some f /\ c = CFun f | FMethod m => c = CMethod m end) ->
    fill (has w) (q_args q) args -> fill (has w) (q_kwargs q) kwargs ->
    refs args = [] -> refs kwargs = [] -> (forall d, In d (qrefs q) -> store w d <> None) ->
    is_async c = false ->
    results (q_out q) (snd (evaluate body mbody w2 (q_id q) c args kwargs)) = Some (st, done) ->
    w' = check_gets (emit (check_gets (put_all (fst (evaluate body mbody w2 (q_id q) c args kwargs)) st)
                             (out_ids (q_out q))) (EvDone done)) (out_ids (q_out q)) ->
    Processed w q w' None.

Lemma process_task_spec w q w' kept : clean w ->
  process_task self body mbody is_async w q = Some (w', kept) -> Processed w q w' kept.
Proof using Type.
  intros C H. unfold process_task in H.
  set (cc := match q_fn q with
             | FRef d => match store w d with Some f => Some (CFun f) | None => None end
             | FMethod m => Some (CMethod m) end) in H.
  destruct cc as [c|] eqn:Ec; [|discriminate].
  assert (CE : match q_fn q with FRef d => exists f, store w d = Some f /\ c = CFun f
               | FMethod m => c = CMethod m end).
  { unfold cc in Ec. destruct (q_fn q).
    - destruct (store w d) as [f|]; [|discriminate]. apply Some_inj in Ec. exists f; auto.
    - apply Some_inj in Ec; auto. }
  clear Ec cc.
  destruct (materialize self w (q_args q) false) as [[[w1 args] p1]|] eqn:E1; [|discriminate].
  destruct (materialize self w1 (q_kwargs q) false) as [[[w2 kwargs] p2]|] eqn:E2; [|discriminate].
  apply mat_ok in E1 as [F1 [A1 [P1 R1]]]; auto.
  apply mat_ok in E2 as [F2 [A2 [P2 R2]]]; [|eapply clean_asks; eauto].
  assert (S1 := asks_store _ _ _ A1).
  assert (F2' : fill (has w) (q_kwargs q) kwargs) by (eapply fill_same_store; eauto).
  assert (RR : forall d, In d (refs args ++ refs kwargs) <-> In d (qrefs q) /\ store w d = None).
  { intros d. unfold qrefs. rewrite !in_app_iff, R1, R2, S1. tauto. }
  assert (A : Asks self w w2) by (eapply asks_trans; eauto).
  destruct (p1 || p2) eqn:P.
  - apply Some_inj in H; apply pair_inj in H as [<- <-]. apply PrPending; auto.
    intros N. apply app_eq_nil in N as [N1 N2]. apply Bool.orb_true_iff in P as [P|P]; subst.
    + destruct P1 as [P1 _]. destruct P1 as [?|?]; auto; discriminate.
    + destruct P2 as [P2 _]. destruct P2 as [?|?]; auto; discriminate.
  - apply Bool.orb_false_iff in P as [Pa Pb]; subst.
    assert (N1 : refs args = []).
    { destruct (refs args) eqn:N; auto. destruct P1 as [_ P1]. discriminate P1. right; discriminate. }
    assert (N2 : refs kwargs = []).
    { destruct (refs kwargs) eqn:N; auto. destruct P2 as [_ P2]. discriminate P2. right; discriminate. }
    assert (AV : forall d, In d (qrefs q) -> store w d <> None).
    { intros d I N. assert (X : In d (refs args ++ refs kwargs)) by (apply RR; auto).
      rewrite N1, N2 in X. exact X. }
    destruct (is_async c) eqn:As.
    + apply Some_inj in H; apply pair_inj in H as [<- <-]. apply (PrAsync w q _ c args kwargs w2); auto.
    + unfold execute_sync in H. cbn [q_id q_out] in H.
      destruct (evaluate body mbody w2 (q_id q) c args kwargs) as [w3 r] eqn:Ev.
      rewrite store_result_eqn in H.
      destruct (results (q_out q) r) as [[st done]|] eqn:Rs; [|discriminate].
      apply Some_inj in H; apply pair_inj in H as [<- <-].
      apply (PrSync w q _ c args kwargs w2 st done); auto; rewrite Ev; auto.
Qed.

Lemma evaluate_spec w n c args kwargs : calls w = calls_of (log w) ->
  let w' := fst (evaluate body mbody w n c args kwargs) in
  snd (evaluate body mbody w n c args kwargs) = result_of (log w) c args kwargs /\
  log w' = log w ++ ev_run n c args kwargs ++ [EvEnd n (result_of (log w) c args kwargs)] /\
  store w' = store w /\ owner w' = owner w /\ reqs w' = reqs w /\ sent w' = sent w /\
  gets w' = gets w /\ bgets w' = bgets w /\ pend w' = pend w /\
  apend w' = apend w /\ running w' = running w /\ ready w' = ready w /\ calls w' = calls_of (log w').
Proof using Type.
  intros Hc. unfold evaluate, result_of, ev_run.
  destruct (failed_arg args kwargs); simpl.
  - repeat split; auto. rewrite calls_app. simpl. rewrite app_nil_r. auto.
  - destruct c; simpl; rewrite <- ?app_assoc; simpl.
    + repeat split; auto. rewrite calls_app. simpl. rewrite app_nil_r. auto.
    + repeat split; auto; try (rewrite Hc; reflexivity). rewrite calls_app. simpl. rewrite Hc. auto.
Qed.

Hypothesis body_ok : forall f a k, no_refs_returned (body f a k).
Hypothesis mbody_ok : forall h c, no_refs_returned (mbody h c).

Lemma result_ok l c a k : no_refs_returned (result_of l c a k).
Proof using Type body_ok mbody_ok.
  unfold result_of. destruct (failed_arg a k); simpl; auto.
  destruct c; auto.
Qed.

Lemma results_clean o r st done d x : no_refs_returned r -> results o r = Some (st, done) ->
  In (d, x) st -> refs x = [].
Proof using Type body_ok mbody_ok.
  intros N H I. destruct r, o; simpl in H; try discriminate.
  - apply Some_inj in H; apply pair_inj in H as [<- <-]. destruct I.
  - apply Some_inj in H; apply pair_inj in H as [<- <-]. destruct I as [E|[]].
    apply pair_inj in E as [<- <-]. exact N.
  - destruct (iterate v) as [vs|] eqn:V; [|discriminate].
    apply Some_inj in H; apply pair_inj in H as [<- <-].
    apply in_combine_r in I. destruct v; simpl in V; try discriminate;
      apply Some_inj in V as <-; simpl in N.
    + eapply flat_map_nil; eauto.
    + eapply flat_map_nil; eauto.
    + apply in_map_iff in I as (kv & <- & _). reflexivity.
  - apply Some_inj in H; apply pair_inj in H as [<- <-]. destruct I as [E|[]].
    apply pair_inj in E as [<- <-]. reflexivity.
  - apply Some_inj in H; apply pair_inj in H as [<- <-]. apply in_map_iff in I as (y & E & _).
    apply pair_inj in E as [<- <-]. reflexivity.
Qed.

(** Executing a request in hand: the log grows by one execution. *)
Lemma wi_exec w q c st : WI w -> From (log w) q -> callee_of (log w) q c ->
  refs (q_args q) = [] -> refs (q_kwargs q) = [] ->
  let r := snd (evaluate body mbody w (q_id q) c (q_args q) (q_kwargs q)) in
  let w1 := fst (evaluate body mbody w (q_id q) c (q_args q) (q_kwargs q)) in
  (exists done, results (q_out q) r = Some (st, done)) \/ (results (q_out q) r = None /\ st = []) ->
  WI (put_all w1 st) /\
  log (put_all w1 st) = log w ++ ev_run (q_id q) c (q_args q) (q_kwargs q) ++
                                EvEnd (q_id q) (result_of (log w) c (q_args q) (q_kwargs q)) :: ev_stores st /\
  store (put_all w1 st) = dput_all (store w) st /\ owner (put_all w1 st) = owner w /\
  reqs (put_all w1 st) = reqs w /\ pend (put_all w1 st) = pend w /\ apend (put_all w1 st) = apend w /\
  running (put_all w1 st) = running w /\ ready (put_all w1 st) = ready w.
Proof using Type body_ok mbody_ok.
  clear is_async.
  intros I F Ca Ra Rk r w1 St.
  destruct (evaluate_spec w (q_id q) c (q_args q) (q_kwargs q) (wi_calls _ I))
    as (Er & El & E1 & E2 & E3 & E4 & E5 & E6 & E7 & E8 & E9 & E10 & E11).
  fold w1 in El, E1, E2, E3, E4, E5, E6, E7, E8, E9, E10, E11. fold r in Er.
  destruct (put_all_fields st w1) as (H1&H2&H3&H4&H5&H6&H7&H8&H9&H10&H11&H12).
  assert (HL : log (put_all w1 st) = log w ++ ev_run (q_id q) c (q_args q) (q_kwargs q) ++
      EvEnd (q_id q) (result_of (log w) c (q_args q) (q_kwargs q)) :: ev_stores st).
  { rewrite H12, El, <- !app_assoc. reflexivity. }
  split; [|repeat split; congruence].
  split.
  - rewrite HL. destruct F as (q0 & I0 & Q1 & Q2 & Q3 & F1 & F2). rewrite Q1.
    apply good_exec; auto; [apply I | | ].
    + unfold callee_of in *. rewrite <- Q2. exact Ca.
    + rewrite <- Q3, <- Er. exact St.
  - intros d x. rewrite H1, E1, HL. intros H. apply dput_all_spec in H as [H|H].
    + apply stored_app. left. apply I, H.
    + apply stored_app. right. apply stored_app. right.
      change (EvEnd (q_id q) (result_of (log w) c (q_args q) (q_kwargs q)) :: ev_stores st)
        with ([EvEnd (q_id q) (result_of (log w) c (q_args q) (q_kwargs q))] ++ ev_stores st).
      apply stored_app. right. apply stored_stores, H.
  - intros d x. rewrite HL, stored_app. intros [H|H]; [eapply wi_clean; eauto|].
    apply stored_app in H as [H|H]; [apply stored_run in H; tauto|].
    assert (X : stored (ev_stores st) d x).
    { destruct H as [[H|H]|[H|H]]; try discriminate; [left | right]; auto. }
    apply stored_stores in X. destruct St as [[done St]|[_ ->]]; [|destruct X].
    eapply (results_clean _ r); [|exact St|exact X]. rewrite Er. apply result_ok.
  - rewrite H10, E11, HL, El, !calls_app. simpl. rewrite calls_stores. reflexivity.
  - intros q'. rewrite H7, H8, E7, E8, HL. intros H. apply from_app. eapply wi_from; eauto.
  - intros q' c'. rewrite H9, E9, HL. intros H.
    apply (wi_run _ I) in H as (A & B & C & D).
    repeat split; auto; [apply from_app | apply callee_app]; auto.
Qed.

Lemma has_stored w v v' : WI w -> fill (has w) v v' -> fill (stored (log w)) v v'.
Proof using Type body_ok mbody_ok. intros I. apply fill_mono. apply I. Qed.

Lemma from_fill w q args kwargs : WI w -> From (log w) q ->
  fill (has w) (q_args q) args -> fill (has w) (q_kwargs q) kwargs ->
  From (log w) {| q_id := q_id q; q_fn := q_fn q; q_args := args; q_kwargs := kwargs; q_out := q_out q |}.
Proof using Type body_ok mbody_ok.
  intros I (q0 & I0 & Q1 & Q2 & Q3 & F1 & F2) G1 G2. exists q0. simpl. repeat split; auto.
  - eapply fill_trans; [apply I | exact F1 |]. apply has_stored; auto.
  - eapply fill_trans; [apply I | exact F2 |]. apply has_stored; auto.
Qed.

Lemma process_task_wi w q w' kept : WI w -> From (log w) q ->
  process_task self body mbody is_async w q = Some (w', kept) ->
  WI w' /\ Kept w w' /\
  match kept with
  | Some q' => From (log w') q' /\ q_id q' = q_id q /\ (forall n, busy n w' = busy n w)
  | None => forall n, busy n w' = busy n w + one n q
  end.
Proof using Type body_ok mbody_ok.
  intros I F H. apply process_task_spec in H; [|apply wi_clean'; auto].
  inversion H as [args kwargs A F1 F2 R N | c args kwargs w2 A Ca F1 F2 N1 N2 AV As E
                 | c args kwargs w2 st done A Ca F1 F2 N1 N2 AV As Rs E]; subst.
  - assert (Q := quietly_asks _ _ _ A). split; [eapply wi_quietly; eauto|].
    split; [apply kept_quietly; auto|]. simpl. repeat split; auto.
    + destruct (log_quietly _ _ Q) as [l ->]. apply from_app. apply from_fill; auto.
    + intros n. apply busy_quietly; auto.
  - assert (Q := quietly_asks _ _ _ A).
    set (q' := {| q_id := q_id q; q_fn := q_fn q; q_args := args; q_kwargs := kwargs; q_out := q_out q |}) in *.
    set (w3 := set_running w2 (running w2 ++ [(q', c)])).
    assert (I2 : WI w2) by (eapply wi_quietly; eauto).
    assert (I3 : WI w3).
    { destruct I2 as [J1 J2 J3 J4 J5 J6]. split; auto.
      intros p cc Hin. unfold w3 in Hin. simpl in Hin. apply in_app_or in Hin as [Hin|[E|[]]].
      - apply J6 in Hin. exact Hin.
      - apply pair_inj in E as [<- <-]. destruct (log_quietly _ _ Q) as [l L].
        simpl. rewrite L. repeat split; auto.
        + apply from_app. apply from_fill; auto.
        + apply callee_app. unfold callee_of. simpl. destruct (q_fn q); auto.
          destruct Ca as (f & Sf & ->). exists f. split; auto. apply I, Sf. }
    assert (Q3 : Quietly w3 (check_gets w3 (out_ids (q_out q)))) by apply quietly_gets.
    fold w3. split; [eapply wi_quietly; eauto|]. split.
    + eapply kept_trans; [apply kept_quietly, Q|].
      eapply kept_trans; [|apply kept_quietly, Q3]. split; auto; exists []; rewrite app_nil_r; auto.
    + intros n. rewrite (busy_quietly n _ _ Q3). unfold busy, n_running, w3, q'. simpl.
      rewrite map_app, cnt_app. simpl. unfold one.
      assert (B := busy_quietly n _ _ Q). unfold busy, n_running in B. lia.
  - assert (Q := quietly_asks _ _ _ A).
    set (q' := {| q_id := q_id q; q_fn := q_fn q; q_args := args; q_kwargs := kwargs; q_out := q_out q |}) in *.
    assert (I2 : WI w2) by (eapply wi_quietly; eauto).
    destruct (log_quietly _ _ Q) as [l L].
    assert (F' : From (log w2) q').
    { rewrite L. apply from_app. apply from_fill; auto. }
    assert (Ca' : callee_of (log w2) q' c).
    { rewrite L. apply callee_app. unfold callee_of. simpl. destruct (q_fn q); auto.
      destruct Ca as (f & Sf & ->). exists f. split; auto. apply I, Sf. }
    destruct (wi_exec w2 q' c st I2 F' Ca' N1 N2) as (J & JL & J1 & J2 & J3 & J4 & J5 & J6 & J7).
    { left. exists done. exact Rs. }
    simpl in J, JL, J1, J2, J3, J4, J5, J6, J7.
    set (w3 := put_all (fst (evaluate body mbody w2 (q_id q) c args kwargs)) st) in *.
    assert (Q3 : Quietly w3 (check_gets (emit (check_gets w3 (out_ids (q_out q))) (EvDone done)) (out_ids (q_out q)))).
    { eapply quietly_trans; [apply quietly_gets|].
      eapply quietly_trans; [apply (quietly_emit _ (EvDone done)); exact Logic.I | apply quietly_gets]. }
    split; [eapply wi_quietly; eauto|]. split.
    + eapply kept_trans; [apply kept_quietly, Q|].
      eapply kept_trans; [|apply kept_quietly, Q3]. split; auto.
      * rewrite JL, received_app, received_app, received_run. simpl. rewrite received_stores, app_nil_r. auto.
      * eexists. exact JL.
      * eexists. split; [exact JL|]. apply own_run.
      * intros d D. rewrite J1. apply dput_all_mono, D.
    + intros n. rewrite (busy_quietly n _ _ Q3), <- (busy_quietly n _ _ Q). unfold busy, n_running, one.
      rewrite J6, JL, ended_app, ended_app, ended_run. simpl. rewrite ended_stores.
      rewrite cnt_app. lia.
Qed.

Lemma recheck_wi l : forall w w' l', WI w -> (forall q, In q l -> From (log w) q) ->
  recheck self body mbody is_async w l = Some (w', l') ->
  WI w' /\ Kept w w' /\ (forall q, In q l' -> From (log w') q) /\
  (forall n, busy n w' + cnt n (map q_id l') = busy n w + cnt n (map q_id l)).
Proof using Type body_ok mbody_ok.
  induction l as [|q l IH]; intros w w' l' I F H; simpl in H.
  - apply Some_inj in H; apply pair_inj in H as [<- <-]. split; auto. split; [apply kept_refl|].
    split; auto.
  - destruct (process_task self body mbody is_async w q) as [[w1 kept]|] eqn:E; [|discriminate].
    destruct (recheck self body mbody is_async w1 l) as [[w2 l2]|] eqn:E2; [|discriminate].
    apply Some_inj in H; apply pair_inj in H as [<- <-].
    apply process_task_wi in E as (I1 & K1 & B1); auto; [|apply F; simpl; auto].
    apply IH in E2 as (I2 & K2 & F2 & B2); auto.
    2:{ intros x X. destruct (k_log _ _ K1) as [t ->]. apply from_app, F. simpl; auto. }
    split; auto. split; [eapply kept_trans; eauto|]. destruct kept as [q'|].
    + destruct B1 as (F1 & Id & B1). split.
      * intros x [<-|X]; auto. destruct (k_log _ _ K2) as [t ->]. apply from_app; auto.
      * intros n. specialize (B1 n). specialize (B2 n). simpl. rewrite Id.
        unfold cnt in *. simpl. destruct (Nat.eq_dec (q_id q) n); lia.
    + split; auto. intros n. specialize (B1 n). specialize (B2 n).
      unfold one, cnt in *. simpl in *. destruct (Nat.eq_dec (q_id q) n); lia.
Qed.

(** Conservation: received = ended + running + pending. *)
Definition Cons (w : wst) : Prop := forall n,
  cnt n (map q_id (received (log w))) =
  busy n w + cnt n (map q_id (pend w)) + cnt n (map q_id (apend w)).

Lemma set_pend_wi w p a : WI w -> (forall q, In q p \/ In q a -> From (log w) q) -> WI (set_pend w p a).
Proof using Type body_ok mbody_ok. intros [J1 J2 J3 J4 J5 J6] F. split; auto. Qed.

Lemma check_tasks_wi w w' : WI w -> check_tasks self body mbody is_async w = Some w' ->
  WI w' /\ (Cons w -> Cons w') /\ ready w' = ready w.
Proof using Type body_ok mbody_ok.
  intros I H. unfold check_tasks in H.
  destruct (recheck self body mbody is_async w (pend w)) as [[w1 l]|] eqn:E; [|discriminate].
  apply Some_inj in H as <-. apply recheck_wi in E as (I1 & K & F & B); auto.
  2:{ intros q Hq. apply I; auto. }
  split; [|split].
  - apply set_pend_wi; auto. intros q [Q|Q]; auto. apply I1; auto.
  - intros C n. specialize (C n). specialize (B n). unfold busy, n_running in *. simpl.
    rewrite (k_rec _ _ K), (k_apend _ _ K). lia.
  - simpl. apply K.
Qed.

Lemma check_actor_tasks_wi w w' : WI w -> check_actor_tasks self body mbody is_async w = Some w' ->
  WI w' /\ (Cons w -> Cons w') /\ ready w' = ready w.
Proof using Type body_ok mbody_ok.
  intros I H. unfold check_actor_tasks in H.
  destruct (recheck self body mbody is_async w (apend w)) as [[w1 l]|] eqn:E; [|discriminate].
  apply Some_inj in H as <-. apply recheck_wi in E as (I1 & K & F & B); auto.
  2:{ intros q Hq. apply I; auto. }
  split; [|split].
  - apply set_pend_wi; auto. intros q [Q|Q]; auto. apply I1; auto.
  - intros C n. specialize (C n). specialize (B n). unfold busy, n_running in *. simpl.
    rewrite (k_rec _ _ K), (k_pend _ _ K). lia.
  - simpl. apply K.
Qed.

Lemma emit_in_wi w m : WI w -> (forall d v, m = WPut d v -> refs v = []) -> WI (emit w (EvIn m)).
Proof using Type body_ok mbody_ok.
  intros [J1 J2 J3 J4 J5 J6] N. split; simpl.
  - constructor; simpl; auto.
  - intros d x H. apply stored_app. auto.
  - intros d x H. apply stored_app in H as [H|H]; eauto.
    destruct H as [[H|[]]|[H|[]]]; [|discriminate]. injection H as ->. eapply N; eauto.
  - rewrite calls_app. simpl. rewrite app_nil_r. auto.
  - intros q H. apply from_app; auto.
  - intros q c H. apply J6 in H as (A & B & C & D). repeat split; auto; [apply from_app | apply callee_app]; auto.
Qed.

Lemma wstep_wi w m w' : WI w -> (forall d v, m = WPut d v -> refs v = []) ->
  wstep self body mbody is_async w m = Some w' ->
  WI w' /\ (m <> WCancel -> Cons w -> Cons w').
Proof using Type body_ok mbody_ok.
  intros I N H. unfold wstep in H. destruct (ready w); [apply Some_inj in H as <-; auto|].
  assert (I0 := emit_in_wi w m I N).
  set (w0 := emit w (EvIn m)) in *.
  destruct m.
  - (* WExec *)
    assert (F0 : From (log w0) q).
    { exists q. unfold w0. simpl. rewrite received_app. simpl.
      split; [apply in_or_app; simpl; auto|]. repeat split; auto; apply fill_refl. }
    assert (C0 : Cons w -> forall n, cnt n (map q_id (received (log w0))) =
        busy n w0 + cnt n (map q_id (pend w0)) + cnt n (map q_id (apend w0)) + one n q).
    { intros C n. specialize (C n). unfold w0, busy, n_running in *. simpl.
      rewrite received_app, ended_app, map_app, !cnt_app. simpl. rewrite ?cnt_nil. unfold one. lia. }
    destruct (process_task self body mbody is_async w0 q) as [[w1 [q'|]]|] eqn:E; [| |discriminate].
    + apply Some_inj in H as <-. apply process_task_wi in E as (I1 & K & F1 & Id & B); auto.
      split.
      * apply set_pend_wi; auto. intros x [X|X]; [|apply I1; auto].
        apply in_app_or in X as [X|[<-|[]]]; auto. apply I1; auto.
      * intros _ C n. specialize (C0 C n). specialize (B n). unfold busy, n_running in *. simpl.
        rewrite (k_rec _ _ K), (k_pend _ _ K), (k_apend _ _ K), map_app, cnt_app.
        cbn [map]. unfold one in *. rewrite Id. lia.
    + apply process_task_wi in E as (I1 & K & B); auto.
      apply check_tasks_wi in H as (I2 & C2 & _); auto. split; auto.
      intros _ C. apply C2. intros n. specialize (C0 C n). specialize (B n).
      rewrite (k_rec _ _ K), (k_pend _ _ K), (k_apend _ _ K). lia.
  - (* WActor *)
    assert (F0 : From (log w0) q).
    { exists q. unfold w0. simpl. rewrite received_app. simpl.
      split; [apply in_or_app; simpl; auto|]. repeat split; auto; apply fill_refl. }
    assert (C0 : Cons w -> forall n, cnt n (map q_id (received (log w0))) =
        busy n w0 + cnt n (map q_id (pend w0)) + cnt n (map q_id (apend w0)) + one n q).
    { intros C n. specialize (C n). unfold w0, busy, n_running in *. simpl.
      rewrite received_app, ended_app, map_app, !cnt_app. simpl. rewrite ?cnt_nil. unfold one. lia. }
    destruct (process_task self body mbody is_async w0 q) as [[w1 [q'|]]|] eqn:E; [| |discriminate].
    + apply Some_inj in H as <-. apply process_task_wi in E as (I1 & K & F1 & Id & B); auto.
      split.
      * apply set_pend_wi; auto. intros x [X|X]; [apply I1; auto|].
        apply in_app_or in X as [X|[<-|[]]]; auto. apply I1; auto.
      * intros _ C n. specialize (C0 C n). specialize (B n). unfold busy, n_running in *. simpl.
        rewrite (k_rec _ _ K), (k_pend _ _ K), (k_apend _ _ K), map_app, cnt_app.
        cbn [map]. unfold one in *. rewrite Id. lia.
    + apply process_task_wi in E as (I1 & K & B); auto.
      apply check_actor_tasks_wi in H as (I2 & C2 & _); auto. split; auto.
      intros _ C. apply C2. intros n. specialize (C0 C n). specialize (B n).
      rewrite (k_rec _ _ K), (k_pend _ _ K), (k_apend _ _ K). lia.
  - (* WGet *)
    apply Some_inj in H as <-. assert (Q := quietly_get w0 src d blocking).
    split; [eapply wi_quietly; eauto|]. intros _ C n. specialize (C n).
    rewrite (busy_quietly n _ _ Q), (received_quietly _ _ Q), (qu_pend _ _ Q), (qu_apend _ _ Q).
    unfold w0, busy, n_running in *. simpl. rewrite received_app, ended_app, map_app, !cnt_app. simpl. rewrite ?cnt_nil. lia.
  - (* WPut *)
    set (w1 := set_store w0 (dput (store w0) d v)) in H.
    set (w2 := set_reqs w1 (filter (fun x => negb (did_eqb x d)) (reqs w1))) in H.
    assert (I2 : WI w2).
    { destruct I0 as [J1 J2 J3 J4 J5 J6]. split; auto. intros a x. unfold w2, w1. simpl.
      destruct (did_dec d a) as [<-|Na].
      - rewrite dput_same. intros X. apply Some_inj in X as <-. left. apply in_or_app. simpl; auto.
      - rewrite dput_other by auto. intros X. apply J2. exact X. }
    destruct (check_tasks self body mbody is_async w2) as [w3|] eqn:E; [|discriminate].
    apply check_tasks_wi in E as (I3 & C3 & _); auto.
    apply check_actor_tasks_wi in H as (I4 & C4 & _); auto. split; auto.
    intros _ C. apply C4, C3. intros n. specialize (C n).
    unfold w2, w1, w0, busy, n_running in *. simpl. rewrite received_app, ended_app, map_app, !cnt_app. simpl. rewrite ?cnt_nil. lia.
  - (* WOwner *)
    apply Some_inj in H as <-. split.
    + destruct I0 as [J1 J2 J3 J4 J5 J6]. split; auto.
    + intros _ C n. specialize (C n). unfold w0, busy, n_running in *. simpl.
      rewrite received_app, ended_app, map_app, !cnt_app. simpl. rewrite ?cnt_nil. lia.
  - (* WClean *)
    apply Some_inj in H as <-. split.
    + destruct I0 as [J1 J2 J3 J4 J5 J6]. split; auto. intros d x. simpl. unfold forget.
      destruct (did_in d ds); [discriminate|]. apply J2.
    + intros _ C n. specialize (C n). unfold w0, busy, n_running in *. simpl.
      rewrite received_app, ended_app, map_app, !cnt_app. simpl. rewrite ?cnt_nil. lia.
  - (* WFinish *)
    assert (C0 : Cons w -> Cons w0).
    { intros C n. specialize (C n). unfold w0, busy, n_running in *. simpl.
      rewrite received_app, ended_app, map_app, !cnt_app. simpl. rewrite ?cnt_nil. lia. }
    destruct (nth_error (running w0) i) as [[q c]|] eqn:E; [|apply Some_inj in H as <-; auto].
    apply Some_inj in H as <-.
    assert (R := wi_run _ I0 q c (nth_error_In _ _ E)). destruct R as (Fq & R1 & R2 & Ca).
    set (w1 := set_running w0 (remove_at i (running w0))).
    assert (I1 : WI w1).
    { destruct I0 as [J1 J2 J3 J4 J5 J6]. split; auto. intros q' c' X. apply J6.
      unfold w1 in X. simpl in X. apply remove_at_in in X. exact X. }
    assert (B1 : forall n, busy n w0 = busy n w1 + one n q).
    { intros n. unfold busy, n_running. change (running w1) with (remove_at i (running w0)).
      change (log w1) with (log w0). rewrite (cnt_remove_at n i _ _ E). cbn [fst]. lia. }
    unfold finish_async.
    set (r := snd (evaluate body mbody w1 (q_id q) c (q_args q) (q_kwargs q))).
    assert (X := wi_exec w1 q c).
    assert (Hr : r = snd (evaluate body mbody w1 (q_id q) c (q_args q) (q_kwargs q))) by reflexivity.
    destruct (evaluate body mbody w1 (q_id q) c (q_args q) (q_kwargs q)) as [we re] eqn:Ev.
    simpl in Hr. subst r. cbn [fst snd] in X. rewrite store_result_eqn.
    assert (Done : forall st w2, 
       (exists done, results (q_out q) re = Some (st, done)) \/ results (q_out q) re = None /\ st = [] ->
       Quietly (put_all we st) w2 -> WI w2 /\ (WFinish i <> WCancel -> Cons w -> Cons w2)).
    { intros st w2 St Q2. destruct (X st I1 Fq Ca R1 R2 St) as (J & JL & J1 & J2 & J3 & J4 & J5 & J6 & J7).
      split; [eapply wi_quietly; eauto|]. intros _ C n. specialize (C0 C n).
      rewrite (busy_quietly n _ _ Q2), (received_quietly _ _ Q2), (qu_pend _ _ Q2), (qu_apend _ _ Q2).
      specialize (B1 n). unfold busy, n_running in *. rewrite JL, J4, J5, J6, !received_app, !ended_app, received_run, ended_run.
      cbn [received ended flat_map app]. change (flat_map _ (ev_stores st)) with (received (ev_stores st)) at 1.
      fold (ended (ev_stores st)). rewrite received_stores, ended_stores, app_nil_r, cnt_app.
      change (log w1) with (log w0) in *. change (pend w1) with (pend w0). change (apend w1) with (apend w0).
      unfold one in *. lia. }
    destruct (results (q_out q) re) as [[st done]|] eqn:Rs.
    + assert (Q0 := quietly_gets (out_ids (q_out q)) (put_all we st)).
      assert (Q1 : Quietly (put_all we st) (emit (check_gets (put_all we st) (out_ids (q_out q))) (EvDone done))).
      { eapply quietly_trans; [exact Q0|]. apply quietly_emit. exact Logic.I. }
      destruct re; [destruct (q_out q) eqn:Qo|]; apply (Done st); eauto.
    + apply (Done []); auto. simpl. apply quietly_refl.
  - (* WCancel *)
    apply Some_inj in H as <-. split; [|congruence].
    destruct I0 as [J1 J2 J3 J4 J5 J6]. split; auto. simpl. tauto.
Qed.

Lemma wi_init : WI winit.
Proof using Type. clear is_async self. split; simpl; try discriminate; try tauto; auto; [constructor | intros d x [[]|[]]]. Qed.

Lemma wrun_wi ms : forall w w', WI w -> no_refs_received ms ->
  wrun self body mbody is_async w ms = Some w' ->
  WI w' /\ (~ In WCancel ms -> Cons w -> Cons w').
Proof using Type body_ok mbody_ok.
  induction ms as [|m ms IH]; intros w w' I N H; simpl in H.
  - apply Some_inj in H as <-. auto.
  - destruct (wstep self body mbody is_async w m) as [w1|] eqn:E; [|discriminate].
    apply wstep_wi in E as (I1 & C1); auto.
    2:{ intros d v ->. apply (N d). simpl; auto. }
    apply IH in H as (I2 & C2); auto.
    2:{ intros d v X. apply (N d). simpl; auto. }
    split; auto. intros NC C. apply C2; [simpl in NC; tauto|]. apply C1; auto.
    intros ->. apply NC. simpl; auto.
Qed.

End Log.
