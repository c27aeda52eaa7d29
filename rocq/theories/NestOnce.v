(** Every task is executed at most once; references and tasks are new when they are made. *)
From Verif Require Import Lib ShmModel ShmRaceProofs ValModel WorkerModel WorkerSpec WorkerProofs ClusterModel NestModel NestSpec NestProofs.

Definition made (H : list (nat * hev)) : list dataid :=
  flat_map (fun e => match snd e with HPut d _ => [d] | HSubmit _ q => out_ids (q_out q) | _ => [] end) H.
Definition tasks_of (H : list (nat * hev)) : list nat := flat_map (fun e => match snd e with HSubmit _ q => [q_id q] | _ => [] end) H.
Definition starts (H : list (nat * hev)) : list nat := flat_map (fun e => match snd e with HStart i => [i] | _ => [] end) H.
Definition waiting (s : proc) : list request :=
  pend (p_w s) ++ match p_cur s with Some fr => match f_rest fr with LPass kept todo => kept ++ todo | _ => [] end | None => [] end.
Definition held (s : proc) : list nat := map q_id (waiting s).
Definition execs (l : list wmsg) : list nat := flat_map (fun m => match m with WExec q => [q_id q] | _ => [] end) l.

Inductive loc := LC (a b : rank) | LH (p : rank) | LS.

Lemma loc_dec (x y : loc) : {x = y} + {x <> y}.
Proof. decide equality; apply Nat.eq_dec. Qed.

Definition content (n : nst) (l : loc) : list nat :=
  match l with LC a b => execs (n_chan n a b) | LH p => held (n_proc n p) | LS => starts (n_hist n) end.

Notation cnt l i := (count_occ Nat.eq_dec l i).

Lemma cnt_app l l' i : cnt (l ++ l') i = cnt l i + cnt l' i.
Proof. apply count_occ_app. Qed.

Definition one (x i : nat) : nat := if Nat.eq_dec x i then 1 else 0.

Lemma cnt_cons x l i : cnt (x :: l) i = one x i + cnt l i.
Proof. simpl. unfold one. destruct (Nat.eq_dec x i); auto. Qed.

Record Once (n : nst) : Prop := {
  on_one : forall l i, cnt (content n l) i <= 1;
  on_loc : forall l l' i, 0 < cnt (content n l) i -> 0 < cnt (content n l') i -> l = l';
  on_new : forall l i, 0 < cnt (content n l) i -> i < n_tasks n
}.

Lemma once_less n n' : Once n -> n_tasks n <= n_tasks n' -> (forall l i, cnt (content n' l) i <= cnt (content n l) i) -> Once n'.
Proof.
  intros [A B C] T L. split; intros.
  - specialize (L l i). specialize (A l i). lia.
  - assert (X := L l i). assert (Y := L l' i). apply (B l l' i); lia.
  - assert (X := L l i). assert (Y := C l i ltac:(lia)). lia.
Qed.

Lemma once_move n n' l1 l2 x : Once n -> n_tasks n <= n_tasks n' -> l1 <> l2 -> (forall i, cnt (content n' l1) i + one x i <= cnt (content n l1) i) ->
  (forall i, cnt (content n' l2) i <= cnt (content n l2) i + one x i) ->
  (forall l i, l <> l1 -> l <> l2 -> cnt (content n' l) i <= cnt (content n l) i) -> Once n'.
Proof.
  intros [A B C] T D F G L.
  assert (X1 : 0 < cnt (content n l1) x) by (specialize (F x); unfold one in F; destruct (Nat.eq_dec x x); [lia|congruence]).
  assert (X2 : cnt (content n l2) x = 0) by (destruct (cnt (content n l2) x) eqn:E; auto; exfalso; apply D; apply (B l1 l2 x); auto; lia).
  assert (K : forall l i, 0 < cnt (content n' l) i -> (l = l2 /\ i = x) \/ (0 < cnt (content n l) i /\ ~ (l = l1 /\ i = x))).
  { intros l i P. destruct (loc_dec l l2) as [->|N2].
    - specialize (G i). unfold one in G. destruct (Nat.eq_dec x i); auto. right. split; [lia|]. intros [? ?]; congruence.
    - destruct (loc_dec l l1) as [->|N1].
      + right. specialize (F i). specialize (A l1 i). unfold one in F. destruct (Nat.eq_dec x i); [lia|]. split; [lia|]. intros [_ ?]; congruence.
      + right. specialize (L l i N1 N2). split; [lia|]. intros [? _]; congruence. }
  split.
  - intros l i. destruct (loc_dec l l2) as [->|N2].
    + specialize (G i). specialize (A l2 i). unfold one in G. destruct (Nat.eq_dec x i); [subst i; lia|lia].
    + destruct (loc_dec l l1) as [->|N1].
      * specialize (F i). specialize (A l1 i). lia.
      * specialize (L l i N1 N2). specialize (A l i). lia.
  - intros l l' i P P'. destruct (K _ _ P) as [[-> ->]|[Q R]], (K _ _ P') as [[-> E]|[Q' R']]; auto.
    + exfalso. apply R'. split; auto. eapply (B l' l1 x); auto.
    + subst i. exfalso. apply R. split; auto. eapply (B l l1 x); auto.
    + eapply B; eauto.
  - intros l i P. eapply Nat.lt_le_trans; [|exact T]. destruct (K _ _ P) as [[_ ->]|[Q _]]; eapply C; eauto.
Qed.

Lemma once_more n n' l2 : Once n -> n_tasks n' = S (n_tasks n) ->
  (forall i, cnt (content n' l2) i <= cnt (content n l2) i + one (n_tasks n) i) ->
  (forall l i, l <> l2 -> cnt (content n' l) i <= cnt (content n l) i) -> Once n'.
Proof.
  intros [A B C] T G L.
  assert (Z : forall l, cnt (content n l) (n_tasks n) = 0).
  { intros l. destruct (cnt (content n l) (n_tasks n)) eqn:E; auto. assert (X := C l (n_tasks n) ltac:(lia)). lia. }
  assert (K : forall l i, 0 < cnt (content n' l) i -> (l = l2 /\ i = n_tasks n) \/ 0 < cnt (content n l) i).
  { intros l i P. destruct (loc_dec l l2) as [->|N2].
    - specialize (G i). unfold one in G. destruct (Nat.eq_dec (n_tasks n) i); auto. right. lia.
    - right. specialize (L l i N2). lia. }
  split.
  - intros l i. destruct (loc_dec l l2) as [->|N2].
    + specialize (G i). specialize (A l2 i). unfold one in G. destruct (Nat.eq_dec (n_tasks n) i); [subst i; specialize (Z l2); lia|lia].
    + specialize (L l i N2). specialize (A l i). lia.
  - intros l l' i P P'. destruct (K _ _ P) as [[-> ->]|Q], (K _ _ P') as [[-> E]|Q']; auto.
    + specialize (Z l'). lia.
    + subst i. specialize (Z l). lia.
    + eapply B; eauto.
  - intros l i P. rewrite T. destruct (K _ _ P) as [[_ ->]|Q]; [lia|]. apply C in Q. lia.
Qed.

(** ** The loop *)

Lemma unwrap_asks self w v w' v' p : unwrap self w v = Some (w', v', p) -> Asks self w w'.
Proof.
  intros H. destruct v; simpl in H; try (apply Some_inj in H; apply pair_inj in H as [H _]; apply pair_inj in H as [<- _]; constructor).
  destruct (store w d) as [x|] eqn:E; [apply Some_inj in H; apply pair_inj in H as [H _]; apply pair_inj in H as [<- _]; constructor|].
  destruct (owner w d) as [o|] eqn:O; [|discriminate]. destruct (did_in d (reqs w)) eqn:R;
    [apply Some_inj in H; apply pair_inj in H as [H _]; apply pair_inj in H as [<- _]; constructor|].
  destruct (Nat.eqb o self) eqn:S; apply Some_inj in H; apply pair_inj in H as [H _]; apply pair_inj in H as [<- _]; [constructor|].
  eapply A_ask; eauto; [apply did_in_false, R | apply Nat.eqb_neq, S | constructor].
Qed.

Lemma mat_asks self v : forall w p w' v' p', materialize self w v p = Some (w', v', p') -> Asks self w w'.
Proof.
  induction v using val_ind'; intros w p w' v' p' E.
  - simpl in E. apply Some_inj in E; apply pair_inj in E as [E _]; apply pair_inj in E as [<- _]. constructor.
  - simpl in E. apply Some_inj in E; apply pair_inj in E as [E _]; apply pair_inj in E as [<- _]. constructor.
  - cbn [materialize] in E. destruct (unwrap self w (VRef d)) as [[[w1 x] q]|] eqn:U; [|discriminate].
    apply Some_inj in E; apply pair_inj in E as [E _]; apply pair_inj in E as [<- _]. eapply unwrap_asks; eauto.
  - rewrite mat_list_eqn in E. destruct (mat_list self (materialize self) w l p) as [[[w1 l1] p1]|] eqn:G; [|discriminate].
    apply Some_inj in E; apply pair_inj in E as [E _]; apply pair_inj in E as [<- _].
    clear v' p'. revert w p l1 p1 w1 G. induction H as [|x l Hx Hl IH]; intros w p l1 p1 w1 G; cbn [mat_list] in G.
    + apply Some_inj in G; apply pair_inj in G as [G _]; apply pair_inj in G as [<- _]. constructor.
    + destruct (materialize self w x p) as [[[w2 x2] p2]|] eqn:E1; [|discriminate].
      destruct (unwrap self w2 x2) as [[[w3 x3] p3]|] eqn:E2; [|discriminate].
      destruct (mat_list self (materialize self) w3 l (p2 || p3)) as [[[w4 r4] p4]|] eqn:E3; [|discriminate].
      apply Some_inj in G; apply pair_inj in G as [G _]; apply pair_inj in G as [<- _].
      eapply asks_trans; [eapply Hx; eauto|]. eapply asks_trans; [eapply unwrap_asks; eauto|]. eapply IH; eauto.
  - rewrite mat_tuple_eqn in E. destruct (mat_list self (materialize self) w l p) as [[[w1 l1] p1]|] eqn:G; [|discriminate].
    apply Some_inj in E; apply pair_inj in E as [E _]; apply pair_inj in E as [<- _].
    clear v' p'. revert w p l1 p1 w1 G. induction H as [|x l Hx Hl IH]; intros w p l1 p1 w1 G; cbn [mat_list] in G.
    + apply Some_inj in G; apply pair_inj in G as [G _]; apply pair_inj in G as [<- _]. constructor.
    + destruct (materialize self w x p) as [[[w2 x2] p2]|] eqn:E1; [|discriminate].
      destruct (unwrap self w2 x2) as [[[w3 x3] p3]|] eqn:E2; [|discriminate].
      destruct (mat_list self (materialize self) w3 l (p2 || p3)) as [[[w4 r4] p4]|] eqn:E3; [|discriminate].
      apply Some_inj in G; apply pair_inj in G as [G _]; apply pair_inj in G as [<- _].
      eapply asks_trans; [eapply Hx; eauto|]. eapply asks_trans; [eapply unwrap_asks; eauto|]. eapply IH; eauto.
  - rewrite mat_dict_eqn in E. destruct (mat_dict self (materialize self) w l p) as [[[w1 l1] p1]|] eqn:G; [|discriminate].
    apply Some_inj in E; apply pair_inj in E as [E _]; apply pair_inj in E as [<- _].
    clear v' p'. revert w p l1 p1 w1 G. induction H as [|x l Hx Hl IH]; intros w p l1 p1 w1 G; cbn [mat_dict] in G.
    + apply Some_inj in G; apply pair_inj in G as [G _]; apply pair_inj in G as [<- _]. constructor.
    + destruct (materialize self w (snd x) p) as [[[w2 x2] p2]|] eqn:E1; [|discriminate].
      destruct (unwrap self w2 x2) as [[[w3 x3] p3]|] eqn:E2; [|discriminate].
      destruct (mat_dict self (materialize self) w3 l (p2 || p3)) as [[[w4 r4] p4]|] eqn:E3; [|discriminate].
      apply Some_inj in G; apply pair_inj in G as [G _]; apply pair_inj in G as [<- _].
      eapply asks_trans; [eapply Hx; eauto|]. eapply asks_trans; [eapply unwrap_asks; eauto|]. eapply IH; eauto.
Qed.

Lemma prepare_same p w q w1 q1 f : prepare p w q = Some (w1, q1, f) -> pend w1 = pend w /\ q_id q1 = q_id q.
Proof.
  unfold prepare. intros E. destruct (q_fn q); [|discriminate]. destruct (store w d); [|discriminate].
  destruct (materialize p w (q_args q) false) as [[[w2 a] p1]|] eqn:M1; [|discriminate].
  destruct (materialize p w2 (q_kwargs q) false) as [[[w3 k] p2]|] eqn:M2; [|discriminate]. apply Some_inj in E. apply pair_inj in E as [E _]. apply pair_inj in E as [<- <-].
  split; auto. apply mat_asks in M1, M2. apply pend_asks in M1, M2. congruence.
Qed.

Lemma pass_same p todo : forall w kept w1 x, pass p w kept todo = Some (w1, x) -> pend w1 = pend w /\
  match x with
  | inl l => map q_id l = map q_id (kept ++ todo)
  | inr (q, f, l, r) => forall i, cnt (map q_id (l ++ r)) i + one (q_id q) i = cnt (map q_id (kept ++ todo)) i
  end.
Proof.
  induction todo as [|q todo IH]; intros w kept w1 x E; simpl in E.
  - apply Some_inj in E. apply pair_inj in E as [<- <-]. rewrite app_nil_r. auto.
  - destruct (prepare p w q) as [[[w2 q2] [f|]]|] eqn:R; [| |discriminate]; apply prepare_same in R as [R1 R2].
    + apply Some_inj in E. apply pair_inj in E as [<- <-]. split; auto. intros i. rewrite !map_app. simpl map. rewrite !cnt_app, cnt_cons, R2. lia.
    + apply IH in E as [E1 E2]. split; [congruence|]. destruct x as [l|[[[q3 f3] l] r]].
      * rewrite E2, <- app_assoc, !map_app. simpl. rewrite R2. reflexivity.
      * intros i. rewrite E2, <- app_assoc, !map_app. simpl. rewrite R2. reflexivity.
Qed.

Section Once.
Variable workers : list rank.
Variable body : val -> val -> val -> act.
Variable main : act.

Definition started (x : option nat) (i : nat) : nat := match x with Some j => one j i | None => 0 end.

Lemma go_on_once p s w kept todo run s' x : go_on body p s w kept todo run = Some (s', x) ->
  forall i, cnt (held s') i + started x i <= cnt (map q_id (pend w ++ kept ++ todo)) i.
Proof.
  intros E i. unfold go_on in E. destruct (pass p w kept todo) as [[w1 [l|[[[q f] l] r]]]|] eqn:R; [| |discriminate];
    apply pass_same in R as [R1 R2]; apply Some_inj in E; apply pair_inj in E as [<- <-]; unfold held, waiting; simpl; rewrite !map_app, !cnt_app.
  - rewrite R2, map_app, cnt_app. simpl. lia.
  - specialize (R2 i). rewrite !map_app, !cnt_app in R2. rewrite R1. lia.
Qed.

Lemma serve_once p s m run s' x : p_cur s = None -> serve body p s m run = Some (s', x) ->
  (forall i, cnt (held s') i + started x i <= cnt (held s) i) \/
  (exists q, m = WExec q /\ ((x = None /\ forall i, cnt (held s') i <= cnt (held s) i + one (q_id q) i) \/
                             (x = Some (q_id q) /\ forall i, cnt (held s') i <= cnt (held s) i))).
Proof.
  intros C E. assert (Hs : held s = map q_id (pend (p_w s))) by (unfold held, waiting; rewrite C, app_nil_r; reflexivity).
  unfold serve in E. destruct m; try (left; intros ?; apply Some_inj in E; apply pair_inj in E as [<- <-];
    rewrite Hs; unfold held, waiting; cbn [p_cur p_w started]; rewrite app_nil_r, ?pend_get; cbn; lia).
  - right. exists q. split; auto. destruct (prepare p (no_log (p_w s)) q) as [[[w1 q1] [f|]]|] eqn:R; [| |discriminate]; apply prepare_same in R as [R1 R2];
      apply Some_inj in E; apply pair_inj in E as [<- <-]; [right|left]; split; auto; intros i; rewrite Hs; unfold held, waiting; simpl; rewrite app_nil_r, R1; simpl; auto.
    rewrite map_app, cnt_app. simpl map. rewrite cnt_cons, R2. simpl. lia.
  - left. intros i. rewrite Hs. eapply go_on_once in E. eapply E.
Qed.

Lemma leave_once p s fr r run s' x : p_cur s = Some fr -> f_rest fr <> LMain -> leave body p s fr r run = Some (s', x) ->
  forall i, cnt (held s') i + started x i <= cnt (held s) i.
Proof.
  intros C N E i. unfold held at 2, waiting. rewrite C. unfold leave in E. destruct (finish_task (no_log (p_w s)) (f_q fr) r) as [w|] eqn:F; [|discriminate].
  assert (Pw : pend w = pend (p_w s)).
  { apply (ok_finish (fun _ _ => True)) in F; [apply F|split; auto|auto]. }
  destruct (f_rest fr); [congruence| |]; eapply go_on_once in E.
  - rewrite app_nil_r, <- Pw. apply E.
  - rewrite <- Pw. apply E.
Qed.

Lemma execs_app l l' : execs (l ++ l') = execs l ++ execs l'.
Proof. apply flat_map_app. Qed.

Lemma execs_ops p l b : execs (ops_out p l b) = [].
Proof.
  unfold ops_out. induction l as [|e l IH]; auto. simpl. rewrite execs_app, IH, app_nil_r. destruct e; auto.
  - destruct blocking; auto. destruct (Nat.eqb dest b); auto.
  - destruct (Nat.eqb dest b); auto.
Qed.

Lemma starts_app h h' : starts (h ++ h') = starts h ++ starts h'.
Proof. apply flat_map_app. Qed.

Lemma drop_execs (ch : rank -> rank -> list wmsg) src p m ms a b i : ch src p = m :: ms ->
  cnt (execs (drop_head ch src p a b)) i + (if Nat.eqb a src && Nat.eqb b p then match m with WExec q => one (q_id q) i | _ => 0 end else 0)
  = cnt (execs (ch a b)) i.
Proof.
  intros E. unfold drop_head. destruct (Nat.eqb a src && Nat.eqb b p) eqn:X; [|lia].
  apply andb_true_iff in X as [X Y]. apply Nat.eqb_eq in X as ->. apply Nat.eqb_eq in Y as ->. rewrite E. simpl tl.
  change (execs (m :: ms)) with (match m with WExec q => [q_id q] | _ => [] end ++ execs ms). rewrite cnt_app.
  destruct m; simpl app; rewrite ?cnt_cons; simpl; lia.
Qed.

(** A put of process p: what changes. *)
Lemma put_content n p s ch re out tasks runs h l i :
  cnt (content (put_proc n p s ch re out tasks runs h) l) i =
  match l with
  | LC a b => cnt (execs (ch a b)) i + (if Nat.eqb a p then cnt (execs (sends_to b out)) i else 0)
  | LH r => if Nat.eqb r p then cnt (held s) i else cnt (held (n_proc n r)) i
  | LS => cnt (starts (n_hist n)) i + cnt (starts h) i
  end.
Proof.
  destruct l as [a b|r|]; simpl.
  - destruct (Nat.eqb a p); [|lia]. rewrite !execs_app, execs_ops, app_nil_r, cnt_app. reflexivity.
  - unfold upd. destruct (Nat.eqb r p); reflexivity.
  - rewrite starts_app, cnt_app. reflexivity.
Qed.

Lemma chan_less n src p m ms a b i : n_chan n src p = m :: ms -> cnt (execs (drop_head (n_chan n) src p a b)) i <= cnt (execs (n_chan n a b)) i.
Proof. intros C. assert (Y := drop_execs (n_chan n) src p m ms a b i C). lia. Qed.

Lemma put_quiet n p s ch re runs h l i :
  cnt (content (put_proc n p s ch re [] (n_tasks n) runs h) l) i =
  match l with LC a b => cnt (execs (ch a b)) i | LH r => if Nat.eqb r p then cnt (held s) i else cnt (held (n_proc n r)) i
             | LS => cnt (starts (n_hist n)) i + cnt (starts h) i end.
Proof. rewrite put_content. destruct l as [a b|r|]; auto. destruct (Nat.eqb a p); auto. Qed.

Lemma starts_one h run j i : starts h = [] -> cnt (starts (h ++ [(run, HStart j)])) i = one j i.
Proof. intros E. rewrite starts_app, E. cbn [starts flat_map snd app]. rewrite cnt_cons. simpl. lia. Qed.

Ltac others r p := destruct (Nat.eqb r p) eqn:?E; [apply Nat.eqb_eq in E; subst; auto; try congruence|auto].

Lemma looped_held n p s x ch h : Once n -> (forall i, cnt (held s) i + started x i <= cnt (held (n_proc n p)) i) -> starts h = [] ->
  (forall a b i, cnt (execs (ch a b)) i <= cnt (execs (n_chan n a b)) i) -> Once (looped n p (Some (s, x)) ch h).
Proof.
  intros O X Sh C. destruct x as [j|]; unfold looped.
  - apply (once_move n _ (LH p) LS j); auto; [discriminate| | |].
    + intros i. rewrite put_quiet, Nat.eqb_refl. apply X.
    + intros i. rewrite put_quiet, starts_one; auto.
    + intros l i N1 N2. rewrite put_quiet. destruct l as [a b|r|]; simpl; [apply C| |congruence]. others r p.
  - apply (once_less n); auto. intros l i. rewrite put_quiet. destruct l as [a b|r|]; simpl; [apply C| |].
    + others r p. specialize (X i). simpl in X. lia.
    + rewrite Sh. simpl. lia.
Qed.

Lemma looped_exec n src p q ms s x h : Once n -> n_chan n src p = WExec q :: ms -> starts h = [] ->
  (x = None /\ forall i, cnt (held s) i <= cnt (held (n_proc n p)) i + one (q_id q) i) \/ (x = Some (q_id q) /\ forall i, cnt (held s) i <= cnt (held (n_proc n p)) i) ->
  Once (looped n p (Some (s, x)) (drop_head (n_chan n) src p) h).
Proof.
  intros O C Sh [[-> X]|[-> X]]; unfold looped.
  - apply (once_move n _ (LC src p) (LH p) (q_id q)); auto; [discriminate| | |].
    + intros i. rewrite put_quiet. assert (Y := drop_execs (n_chan n) src p _ ms src p i C). rewrite !Nat.eqb_refl in Y. simpl in *. lia.
    + intros i. rewrite put_quiet, Nat.eqb_refl. apply X.
    + intros l i N1 N2. rewrite put_quiet. destruct l as [a b|r|]; simpl; [eapply chan_less; eauto| |rewrite Sh; simpl; lia]. others r p.
  - apply (once_move n _ (LC src p) LS (q_id q)); auto; [discriminate| | |].
    + intros i. rewrite put_quiet. assert (Y := drop_execs (n_chan n) src p _ ms src p i C). rewrite !Nat.eqb_refl in Y. simpl in *. lia.
    + intros i. rewrite put_quiet, starts_one; auto.
    + intros l i N1 N2. rewrite put_quiet. destruct l as [a b|r|]; simpl; [eapply chan_less; eauto| |congruence]. others r p.
Qed.

Lemma kill_once n p ch h : Once n -> starts h = [] -> (forall a b i, cnt (execs (ch a b)) i <= cnt (execs (n_chan n a b)) i) -> Once (kill n p ch h).
Proof.
  intros O Sh C. apply (once_less n); auto. intros l i.
  change (content (kill n p ch h) l) with (content (put_proc n p {| p_w := no_log (p_w (n_proc n p)); p_next := p_next (n_proc n p); p_cur := None |} ch (n_rep n) [] (n_tasks n) (n_runs n) h) l).
  rewrite put_quiet. destruct l as [a b|r|]; simpl; auto; [|rewrite Sh; simpl; lia].
  destruct (Nat.eqb r p) eqn:E; [apply Nat.eqb_eq in E as ->|auto]. unfold held, waiting. simpl. rewrite app_nil_r, map_app, cnt_app. lia.
Qed.

Lemma push_one_pend w dest d w' l : push_one w dest d = Some (w', l) -> pend w' = pend w /\ execs l = [].
Proof.
  intros E. unfold push_one in E. destruct (store w d) as [v|] eqn:S.
  - destruct (pair_in _ _); apply Some_inj in E; apply pair_inj in E as [<- <-]; auto.
  - destruct (owner w d); [|discriminate]. apply Some_inj in E; apply pair_inj in E as [<- <-]; auto.
Qed.

Lemma push_all_pend dest ds : forall w w' l ok, push_all w dest ds = (w', l, ok) -> pend w' = pend w /\ execs l = [].
Proof.
  induction ds as [|d ds IH]; intros w w' l ok E; simpl in E.
  - apply pair_inj in E as [E _]. apply pair_inj in E as [<- <-]. auto.
  - destruct (push_one w dest d) as [[w1 l1]|] eqn:P1.
    + destruct (push_all w1 dest ds) as [[w2 l2] ok2] eqn:P2. apply pair_inj in E as [E _]. apply pair_inj in E as [<- <-].
      apply push_one_pend in P1 as [A B]. apply IH in P2 as [A2 B2]. split; [congruence|]. rewrite execs_app, B, B2. reflexivity.
    + apply pair_inj in E as [E _]. apply pair_inj in E as [<- <-]. auto.
Qed.

Lemma sends_same dest l b : sends_to b (map (fun m : wmsg => (dest, m)) l) = if Nat.eqb dest b then l else [].
Proof.
  unfold sends_to. induction l as [|m l IH]; simpl; [destruct (Nat.eqb dest b); auto|]. rewrite IH. destruct (Nat.eqb dest b); auto.
Qed.

Lemma asks_execs p l b : execs (sends_to b (map (fun y : rank * dataid => (fst y, WGet p (snd y) true)) l)) = [].
Proof. unfold sends_to. induction l as [|m l IH]; simpl; auto. rewrite execs_app, IH, app_nil_r. destruct (Nat.eqb (fst m) b); auto. Qed.

Lemma api_once p s fr dest task s' out sub es : p_cur s = Some fr -> call_api workers p s fr dest task = Some (s', out, sub, es) ->
  held s' = held s /\ starts (map (fun e => (f_run fr, e)) es) = [] /\
  if sub then (forall b, execs (sends_to b out) = if Nat.eqb dest b then [task] else []) else (forall b, execs (sends_to b out) = []).
Proof.
  intros C E. unfold call_api in E. destruct (f_act fr) as [r|v k|f args kwargs n k|ds k] eqn:A; [discriminate| | |].
  - apply Some_inj in E. apply pair_inj in E as [E <-]. apply pair_inj in E as [E <-]. apply pair_inj in E as [<- <-].
    unfold held, waiting. rewrite C. auto.
  - destruct (negb _ || _); [discriminate|]. destruct (push_all _ dest _) as [[w1 l] ok] eqn:Pa. apply push_all_pend in Pa as [Pp Pe].
    destruct ok; apply Some_inj in E; apply pair_inj in E as [E <-]; apply pair_inj in E as [E <-]; apply pair_inj in E as [<- <-];
      (split; [unfold held, waiting; rewrite C; simpl; rewrite Pp; reflexivity|split; auto]); intros b; rewrite sends_same; destruct (Nat.eqb dest b); auto.
    rewrite execs_app, Pe. reflexivity.
  - destruct (filter (fun d => negb (dmem (store (no_log (p_w s))) d)) ds) as [|x r] eqn:Fl.
    + apply Some_inj in E. apply pair_inj in E as [E <-]. apply pair_inj in E as [E <-]. apply pair_inj in E as [<- <-].
      unfold held, waiting. rewrite C. auto.
    + destruct (ask_owners _ (x :: r)) as [l ok]. destruct ok; apply Some_inj in E; apply pair_inj in E as [E <-]; apply pair_inj in E as [E <-]; apply pair_inj in E as [<- <-];
        (split; [unfold held, waiting; rewrite C; reflexivity|split; auto]); intros b; apply asks_execs.
Qed.

Lemma receive_once s fr g k d v s' es : p_cur s = Some fr -> receive s fr g k d v = (s', es) ->
  held s' = held s /\ starts (map (fun e => (f_run fr, e)) es) = [].
Proof.
  intros C E. unfold receive in E. unfold held, waiting. rewrite C.
  destruct (did_in d (t_ids g)); [destruct (t_left g) as [|[|j]]|]; apply pair_inj in E as [<- <-]; auto.
Qed.

Lemma once_step n o : Once n -> Once (nstep workers body n o).
Proof.
  intros O. destruct o as [p dest|src p|src p]; unfold nstep.
  - destruct (p_cur (n_proc n p)) as [fr|] eqn:C; auto. destruct (n_dead n p); auto. destruct (f_get fr) eqn:G; auto.
    destruct (f_act fr) as [r|v k|f args kwargs j k|ds k] eqn:A.
    { assert (Y : f_rest fr <> LMain -> Once (looped n p (leave body p (n_proc n p) fr r (n_runs n)) (n_chan n) [(f_run fr, HEnd r)])).
      { intros Nm. destruct (leave body p (n_proc n p) fr r (n_runs n)) as [[s x]|] eqn:L; [|apply kill_once; auto].
        apply looped_held; auto. eapply leave_once; eauto. }
      destruct (f_rest fr) eqn:R; auto; apply Y; discriminate. }
    all: destruct (call_api workers p (n_proc n p) fr dest (n_tasks n)) as [[[[s out] sub] h]|] eqn:E; auto;
      destruct (api_once _ _ _ _ _ _ _ _ _ C E) as (A1 & A2 & A3); destruct sub;
      [ apply (once_more n _ (LC p dest)); auto;
        [ intros i; rewrite put_content, Nat.eqb_refl, A3, Nat.eqb_refl; simpl content; rewrite cnt_cons; simpl; lia
        | intros l i N; rewrite put_content; destruct l as [a b|r|]; simpl;
          [ destruct (Nat.eqb a p) eqn:E1; [apply Nat.eqb_eq in E1 as ->|lia]; rewrite A3; destruct (Nat.eqb dest b) eqn:E2; [apply Nat.eqb_eq in E2 as ->; congruence|simpl; lia]
          | destruct (Nat.eqb r p) eqn:E1; [apply Nat.eqb_eq in E1 as ->; rewrite A1; lia|lia]
          | rewrite A2; simpl; lia ] ]
      | apply (once_less n); auto; intros l i; rewrite put_content; destruct l as [a b|r|]; simpl;
        [ destruct (Nat.eqb a p); rewrite ?A3; simpl; lia
        | destruct (Nat.eqb r p) eqn:E1; [apply Nat.eqb_eq in E1 as ->; rewrite A1; lia|lia]
        | rewrite A2; simpl; lia ] ].
  - destruct (n_chan n src p) as [|m ms] eqn:Ch; auto. destruct (p_cur (n_proc n p)) eqn:C; auto. destruct (Nat.eqb p 0 || n_dead n p); auto.
    destruct (serve body p (n_proc n p) m (n_runs n)) as [[s x]|] eqn:E; [|apply kill_once; auto; intros; eapply chan_less; eauto].
    apply serve_once in E; auto. destruct E as [E|(q & -> & E)].
    + apply looped_held; auto. intros; eapply chan_less; eauto.
    + eapply looped_exec; eauto.
  - destruct (n_rep n src p) as [|[d v] ms] eqn:Ch; auto. destruct (p_cur (n_proc n p)) as [fr|] eqn:C; auto.
    destruct (f_get fr) as [g|] eqn:G; auto. destruct (f_act fr) as [r|v' k|f args kwargs j k|ds k] eqn:A; auto.
    destruct (receive (n_proc n p) fr g k d v) as [s h] eqn:E. apply receive_once in E as [E1 E2]; auto.
    apply (once_less n); auto. intros l i. rewrite put_quiet. destruct l as [a b|r|]; simpl; auto.
    + destruct (Nat.eqb r p) eqn:E; [apply Nat.eqb_eq in E as ->; rewrite E1; lia|lia].
    + rewrite E2. simpl. lia.
Qed.

Lemma once_init : Once (ninit main).
Proof.
  assert (Z : forall l, content (ninit main) l = []) by (intros [a b|p|]; auto; unfold content, held, waiting; simpl; destruct (Nat.eqb p 0); auto).
  split; intros; rewrite Z in *; simpl in *; lia.
Qed.

Theorem run_once ops : Once (nrun workers body main ops).
Proof.
  unfold nrun. generalize once_init. generalize (ninit main). induction ops as [|o ops IH]; intros n N; simpl; auto. apply IH, once_step, N.
Qed.

End Once.
