(** New references, executions, and that the meaning of a reference is one value. *)
From Verif Require Import Lib ShmModel ShmRaceProofs ValModel WorkerModel WorkerSpec WorkerProofs ClusterModel NestModel NestSpec NestProofs NestOnce.

Lemma made_app h h' : made (h ++ h') = made h ++ made h'.
Proof. apply flat_map_app. Qed.
Lemma tasks_app h h' : tasks_of (h ++ h') = tasks_of h ++ tasks_of h'.
Proof. apply flat_map_app. Qed.

Record Fresh (n : nst) : Prop := {
  fr_made : NoDup (made (n_hist n));
  fr_next : forall d, In d (made (n_hist n)) -> snd d < p_next (n_proc n (fst d));
  fr_tasks : NoDup (tasks_of (n_hist n));
  fr_below : forall i, In i (tasks_of (n_hist n)) -> i < n_tasks n
}.

Lemma fresh_same n n' h : Fresh n -> n_hist n' = n_hist n ++ h -> made h = [] -> tasks_of h = [] -> n_tasks n <= n_tasks n' ->
  (forall p, p_next (n_proc n p) <= p_next (n_proc n' p)) -> Fresh n'.
Proof.
  intros [A B C D] E Mh Th T P. split; rewrite E, ?made_app, ?tasks_app, ?Mh, ?Th, ?app_nil_r; auto.
  - intros d I. apply B in I. specialize (P (fst d)). lia.
  - intros i I. apply D in I. lia.
Qed.

Lemma go_on_next body p s w kept todo run s' x : go_on body p s w kept todo run = Some (s', x) -> p_next s' = p_next s.
Proof.
  unfold go_on. destruct (pass p w kept todo) as [[w1 [l|[[[q f] l] r]]]|]; intros E; [| |discriminate]; apply Some_inj in E; apply pair_inj in E as [<- _]; reflexivity.
Qed.

Lemma serve_next body p s m run s' x : serve body p s m run = Some (s', x) -> p_next s' = p_next s.
Proof.
  unfold serve. intros E. destruct m; try (apply Some_inj in E; apply pair_inj in E as [<- _]; reflexivity).
  - destruct (prepare p (no_log (p_w s)) q) as [[[w1 q1] [f|]]|]; [| |discriminate]; apply Some_inj in E; apply pair_inj in E as [<- _]; reflexivity.
  - eapply go_on_next; eauto.
Qed.

Lemma leave_next body p s fr r run s' x : leave body p s fr r run = Some (s', x) -> p_next s' = p_next s.
Proof.
  unfold leave. destruct (finish_task _ _ _); [|discriminate]. destruct (f_rest fr); [|apply go_on_next|apply go_on_next].
  intros E. apply Some_inj in E. apply pair_inj in E as [<- _]. reflexivity.
Qed.

Lemma receive_next s fr g k d v s' es : receive s fr g k d v = (s', es) -> p_next s' = p_next s /\ made (map (fun e => (f_run fr, e)) es) = [] /\ tasks_of (map (fun e => (f_run fr, e)) es) = [].
Proof.
  intros E. unfold receive in E. destruct (did_in d (t_ids g)); [destruct (t_left g) as [|[|j]]|]; apply pair_inj in E as [<- <-]; auto.
Qed.

Lemma out_new p next n : out_ids (new_out p next n) = new_ids p next n.
Proof. unfold new_out, new_ids. destruct n as [|[|n]]; reflexivity. Qed.

Lemma api_fresh workers p s fr dest task s' out sub es : call_api workers p s fr dest task = Some (s', out, sub, es) ->
  exists m, p_next s' = p_next s + m /\ (made (map (fun e => (f_run fr, e)) es) = [] \/ made (map (fun e => (f_run fr, e)) es) = new_ids p (p_next s) m) /\
  tasks_of (map (fun e => (f_run fr, e)) es) = if sub then [task] else [].
Proof.
  intros E. unfold call_api in E. destruct (f_act fr) as [r|v k|f args kwargs n k|ds k] eqn:A; [discriminate| | |].
  - apply Some_inj in E. apply pair_inj in E as [E <-]. apply pair_inj in E as [E <-]. apply pair_inj in E as [<- <-].
    exists 1. simpl. repeat split; auto. lia.
  - destruct (negb _ || _); [discriminate|]. destruct (push_all _ dest _) as [[w1 l] ok] eqn:Pa.
    destruct ok; apply Some_inj in E; apply pair_inj in E as [E <-]; apply pair_inj in E as [E <-]; apply pair_inj in E as [<- <-]; exists n.
    + repeat split. right. cbn. rewrite app_nil_r. apply out_new.
    + repeat split. auto.
  - exists 0. destruct (filter (fun d => negb (dmem (store (no_log (p_w s))) d)) ds) as [|x r] eqn:Fl.
    + apply Some_inj in E. apply pair_inj in E as [E <-]. apply pair_inj in E as [E <-]. apply pair_inj in E as [<- <-]. simpl. repeat split; auto.
    + destruct (ask_owners _ (x :: r)) as [l ok]. destruct ok; apply Some_inj in E; apply pair_inj in E as [E <-]; apply pair_inj in E as [E <-]; apply pair_inj in E as [<- <-]; simpl; repeat split; auto.
Qed.

Lemma new_ids_in p next n d : In d (new_ids p next n) -> fst d = p /\ next <= snd d < next + n.
Proof. unfold new_ids. intros I. apply in_map_iff in I as (i & <- & I). apply in_seq in I. simpl. lia. Qed.

Lemma new_ids_nodup p next n : NoDup (new_ids p next n).
Proof. unfold new_ids. apply FinFun.Injective_map_NoDup; [intros a b E; apply pair_inj in E as [_ E]; auto|apply seq_NoDup]. Qed.

Lemma nodup_app_new {A} (l l' : list A) : NoDup l -> NoDup l' -> (forall x, In x l -> In x l' -> False) -> NoDup (l ++ l').
Proof.
  intros N N' D. induction N as [|x l I N IH]; simpl; auto. constructor.
  - intros J. apply in_app_or in J as [J|J]; auto. apply (D x); simpl; auto.
  - apply IH. intros y Y. apply D. simpl; auto.
Qed.

Section Fresh.
Variable workers : list rank.
Variable body : val -> val -> val -> act.
Variable main : act.

Lemma looped_fresh n p x ch h : Fresh n -> made h = [] -> tasks_of h = [] -> (forall s y, x = Some (s, y) -> p_next s = p_next (n_proc n p)) ->
  Fresh (looped n p x ch h).
Proof.
  intros F Mh Th P. destruct x as [[s y]|].
  - specialize (P s y eq_refl). assert (Y : forall h' runs, made h' = [] -> tasks_of h' = [] -> Fresh (put_proc n p s ch (n_rep n) [] (n_tasks n) runs h')).
    { intros h' runs A B. apply (fresh_same n _ h'); auto. simpl. unfold upd. intros r. destruct (Nat.eqb r p) eqn:E; [apply Nat.eqb_eq in E as ->; lia|lia]. }
    destruct y; apply Y; auto; rewrite ?made_app, ?tasks_app, ?Mh, ?Th; reflexivity.
  - apply (fresh_same n _ h); auto. simpl. unfold upd. intros r. destruct (Nat.eqb r p) eqn:E; [apply Nat.eqb_eq in E as ->; auto|auto].
Qed.

Lemma fresh_step n o : Fresh n -> Fresh (nstep workers body n o).
Proof.
  intros O. destruct o as [p dest|src p|src p]; unfold nstep.
  - destruct (p_cur (n_proc n p)) as [fr|] eqn:C; auto. destruct (n_dead n p); auto. destruct (f_get fr) eqn:G; auto.
    destruct (f_act fr) as [r|v k|f args kwargs j k|ds k] eqn:A.
    { assert (Y : Fresh (looped n p (leave body p (n_proc n p) fr r (n_runs n)) (n_chan n) [(f_run fr, HEnd r)])).
      { apply looped_fresh; auto. intros s y E. eapply leave_next; eauto. }
      destruct (f_rest fr) eqn:R; auto. }
    all: destruct (call_api workers p (n_proc n p) fr dest (n_tasks n)) as [[[[s out] sub] h]|] eqn:E; auto; clear A;
      apply api_fresh in E as (m & E1 & E2 & E3); destruct O as [X1 X2 X3 X4]; constructor; cbn [put_proc n_hist n_proc n_tasks].
    all: try (rewrite made_app; destruct E2 as [->| ->]; [rewrite app_nil_r; auto|]; apply nodup_app_new; auto; [apply new_ids_nodup|];
      intros d I J; apply X2 in I; apply new_ids_in in J as [J1 J2]; rewrite J1 in I; lia).
    all: try (rewrite made_app; intros d I; apply in_app_or in I as [I|I];
      [ apply X2 in I; unfold upd; destruct (Nat.eqb (fst d) p) eqn:Ed; [apply Nat.eqb_eq in Ed; rewrite Ed in I; lia|lia]
      | destruct E2 as [E2|E2]; rewrite E2 in I; [destruct I|]; apply new_ids_in in I as [I1 I2]; unfold upd; rewrite I1, Nat.eqb_refl; lia ]).
    all: try (rewrite tasks_app, E3; apply nodup_app_new; auto; [destruct sub; repeat constructor; auto|];
      intros i I J; apply X4 in I; destruct sub; [destruct J as [J|[]]; lia|destruct J]).
    all: rewrite tasks_app, E3; intros i I; apply in_app_or in I as [I|I]; [apply X4 in I; destruct sub; lia|destruct sub; [destruct I as [I|[]]; lia|destruct I]].
  - destruct (n_chan n src p) as [|m ms] eqn:Ch; auto. destruct (p_cur (n_proc n p)) eqn:C; auto. destruct (Nat.eqb p 0 || n_dead n p); auto.
    apply looped_fresh; auto. intros s y E. eapply serve_next; eauto.
  - destruct (n_rep n src p) as [|[d v] ms] eqn:Ch; auto. destruct (p_cur (n_proc n p)) as [fr|] eqn:C; auto.
    destruct (f_get fr) as [g|] eqn:G; auto. destruct (f_act fr) as [r|v' k|f args kwargs j k|ds k] eqn:A; auto.
    destruct (receive (n_proc n p) fr g k d v) as [s h] eqn:E. apply receive_next in E as (E1 & E2 & E3).
    eapply (fresh_same n _ (map (fun e => (f_run fr, e)) h)); auto. simpl. unfold upd. intros r. destruct (Nat.eqb r p) eqn:Er; [apply Nat.eqb_eq in Er as ->; lia|lia].
Qed.

Lemma fresh_init : Fresh (ninit main).
Proof. constructor; simpl; try constructor; intros ? []. Qed.

Theorem run_fresh ops : Fresh (nrun workers body main ops).
Proof.
  unfold nrun. generalize fresh_init. generalize (ninit main). induction ops as [|o ops IH]; intros n N; simpl; auto. apply IH, fresh_step, N.
Qed.

End Fresh.

(** ** One value *)

Lemma follows_det a l a1 : follows a l a1 -> forall a2, follows a l a2 -> a1 = a2.
Proof. induction 1; intros a2 F; inversion F; subst; auto; apply IHfollows; auto; congruence. Qed.

Lemma follows_split a l1 : forall l2 a2, follows a (l1 ++ l2) a2 -> exists a1, follows a l1 a1 /\ follows a1 l2 a2.
Proof.
  revert a. induction l1 as [|e l1 IH]; intros a l2 a2 F; simpl in F; [exists a; split; [constructor|auto]|].
  inversion F; subst; match goal with X : follows _ (l1 ++ l2) a2 |- _ => apply IH in X as (a1 & F1 & F2) end; exists a1; split; auto; constructor; auto.
Qed.

Lemma prefix_cases {A} (l l' r r' : list A) : l ++ r = l' ++ r' -> (exists x, l' = l ++ x) \/ (exists x, l = l' ++ x).
Proof.
  revert l'. induction l as [|a l IH]; intros l' E; [left; exists l'; auto|]. destruct l' as [|b l']; [right; exists (a :: l); auto|].
  simpl in E. assert (E1 : a = b) by congruence. assert (E2 : l ++ r = l' ++ r') by congruence. subst b.
  destruct (IH _ E2) as [[x ->]|[x ->]]; [left|right]; exists x; reflexivity.
Qed.

Lemma follows_end r l a : follows (ARet r) l a -> l = [] /\ a = ARet r.
Proof. intros F. inversion F; auto. Qed.

Lemma follows_ends a l l' rest rest' r r' : l ++ rest = l' ++ rest' -> follows a l (ARet r) -> follows a l' (ARet r') -> r = r'.
Proof.
  intros E F F'. destruct (prefix_cases _ _ _ _ E) as [[x ->]|[x ->]].
  - apply follows_split in F' as (a1 & F1 & F2). rewrite <- (follows_det _ _ _ F _ F1) in F2. apply follows_end in F2 as [_ F2]. congruence.
  - apply follows_split in F as (a1 & F1 & F2). rewrite <- (follows_det _ _ _ F' _ F1) in F2. apply follows_end in F2 as [_ F2]. congruence.
Qed.

Lemma fill_unique (S S' : dataid -> val -> Prop) v : (forall d x x', S d x -> S' d x' -> x = x') ->
  forall a b, fill S v a -> fill S' v b -> refs a = [] -> refs b = [] -> a = b.
Proof.
  intros U. induction v using val_ind'; intros a b Fa Fb Ra Rb; inversion Fa; subst; inversion Fb; subst; auto; try discriminate.
  - eapply U; eauto.
  - f_equal. simpl in Ra, Rb. match goal with X1 : Forall2 (fill S) l ?p, X2 : Forall2 (fill S') l ?q |- _ => clear Fa Fb; revert p q X1 X2 Ra Rb end.
    induction H as [|x l Hx Hl IH]; intros l1 l2 F1 F2 Ra Rb; inversion F1; subst; inversion F2; subst; auto.
    simpl in Ra, Rb. apply app_eq_nil in Ra as [Ra1 Ra2]. apply app_eq_nil in Rb as [Rb1 Rb2]. f_equal; auto.
  - f_equal. simpl in Ra, Rb. match goal with X1 : Forall2 (fill S) l ?p, X2 : Forall2 (fill S') l ?q |- _ => clear Fa Fb; revert p q X1 X2 Ra Rb end.
    induction H as [|x l Hx Hl IH]; intros l1 l2 F1 F2 Ra Rb; inversion F1; subst; inversion F2; subst; auto.
    simpl in Ra, Rb. apply app_eq_nil in Ra as [Ra1 Ra2]. apply app_eq_nil in Rb as [Rb1 Rb2]. f_equal; auto.
  - f_equal. simpl in Ra, Rb. match goal with X1 : Forall2 _ l ?p, X2 : Forall2 _ l ?q |- _ => clear Fa Fb; revert p q X1 X2 Ra Rb end.
    induction H as [|x l Hx Hl IH]; intros l1 l2 F1 F2 Ra Rb; inversion F1; subst; inversion F2; subst; auto.
    simpl in Ra, Rb. apply app_eq_nil in Ra as [Ra1 Ra2]. apply app_eq_nil in Rb as [Rb1 Rb2].
    repeat match goal with X : _ /\ _ |- _ => destruct X end. destruct y as [k1 y1], y0 as [k2 y2]. simpl in *. f_equal; [|auto]. f_equal; [congruence|auto].
Qed.

Lemma in_made H t e d : In (t, e) H -> In d (match e with HPut d _ => [d] | HSubmit _ q => out_ids (q_out q) | _ => [] end) -> In d (made H).
Proof. intros I J. apply in_flat_map. exists (t, e). auto. Qed.

Lemma nodup_flat {A B} (f : A -> list B) l x y b : NoDup (flat_map f l) -> In x l -> In y l -> In b (f x) -> In b (f y) -> x = y.
Proof.
  induction l as [|a l IH]; intros N X Y Bx By; [destruct X|]. simpl in N, X, Y.
  assert (N2 : NoDup (flat_map f l)) by (clear -N; induction (f a); simpl in N; auto; inversion N; auto).
  assert (D : forall z, In z l -> In b (f a) -> In b (f z) -> False).
  { clear -N. intros z I J K. induction (f a) as [|c u IHu]; [destruct J|]. simpl in N. inversion N; subst. destruct J as [->|J]; auto.
    apply H1. apply in_or_app. right. apply in_flat_map. eauto. }
  destruct X as [->|X], Y as [->|Y]; auto; exfalso; eauto.
Qed.

Lemma gives_in o r d v : gives o r d v -> In d (out_ids o).
Proof.
  destruct r as [x|e]; simpl; [|tauto]. destruct o; simpl; [tauto|intros [-> _]; auto|]. intros (vs & _ & I). eapply in_combine_l; eauto.
Qed.

Lemma combine_unique {A B} (l : list A) (m : list B) a b b' : NoDup l -> In (a, b) (combine l m) -> In (a, b') (combine l m) -> b = b'.
Proof.
  intros N. revert m. induction N as [|x l I N IH]; intros m X Y; [destruct X|]. destruct m as [|y m]; [destruct X|]. simpl in X, Y.
  destruct X as [X|X], Y as [Y|Y].
  - congruence.
  - apply pair_inj in X as [<- <-]. apply in_combine_l in Y. tauto.
  - apply pair_inj in Y as [<- <-]. apply in_combine_l in X. tauto.
  - eauto.
Qed.

Lemma gives_unique o r d v v' : NoDup (out_ids o) -> gives o r d v -> gives o r d v' -> v = v'.
Proof.
  destruct r as [x|e]; simpl; [|intros _ [_ ->] [_ ->]; auto]. destruct o; simpl; [tauto|intros _ [_ ->] [_ ->]; auto|].
  intros N (vs & I & C) (vs' & I' & C'). assert (vs = vs') by congruence. subst vs'. eapply combine_unique; eauto.
Qed.

Section Unique.
Variable body : val -> val -> val -> act.
Variable H : list (nat * hev).
Hypothesis made_once : NoDup (made H).
Hypothesis starts_once : forall t t' i l l', trace H t = HStart i :: l -> trace H t' = HStart i :: l' -> t = t'.

Lemma nodup_in {A B} (f : A -> list B) l x : NoDup (flat_map f l) -> In x l -> NoDup (f x).
Proof.
  induction l as [|a l IH]; intros N I; [destruct I|]. simpl in N. destruct I as [->|I].
  - clear IH. induction (f x) as [|b u IHu]; [constructor|]. simpl in N. inversion N; subst. constructor; auto. intros J. apply H2, in_or_app. auto.
  - apply IH; auto. clear -N. induction (f a); simpl in N; auto. inversion N; auto.
Qed.

Lemma means_unique k : forall k' d v v', means_in body H k d v -> means_in body H k' d v' -> v = v'.
Proof.
  induction k as [|k IH]; intros k' d v v' A B; [destruct A|]. destruct k' as [|k']; [destruct B|].
  destruct A as [[t I]|(t & dest & q & fd & f & args & kwargs & r & I & Qf & Mf & Fa & Fk & Ra & Rk & C & G)];
  destruct B as [[t' I']|(t' & dest' & q' & fd' & f' & args' & kwargs' & r' & I' & Qf' & Mf' & Fa' & Fk' & Ra' & Rk' & C' & G')].
  - assert (E := nodup_flat _ H _ _ d made_once I I' ltac:(simpl; auto) ltac:(simpl; auto)). congruence.
  - assert (E := nodup_flat _ H _ _ d made_once I I' ltac:(simpl; auto) ltac:(simpl; eapply gives_in; eauto)). congruence.
  - assert (E := nodup_flat _ H _ _ d made_once I I' ltac:(simpl; eapply gives_in; eauto) ltac:(simpl; auto)). congruence.
  - assert (E := nodup_flat _ H _ _ d made_once I I' ltac:(simpl; eapply gives_in; eauto) ltac:(simpl; eapply gives_in; eauto)).
    assert (Eq : q = q') by congruence. subst q'. assert (fd = fd') by congruence. subst fd'. clear E.
    assert (f = f') by (eapply IH; eauto). subst f'.
    assert (args = args') by (eapply fill_unique; [| exact Fa | exact Fa' | auto | auto]; intros; eapply IH; eauto). subst args'.
    assert (kwargs = kwargs') by (eapply fill_unique; [| exact Fk | exact Fk' | auto | auto]; intros; eapply IH; eauto). subst kwargs'.
    assert (Er : r = r').
    { unfold computes in C, C'. destruct (failed_arg args kwargs); [congruence|].
      destruct C as (x & l & rest & T & F & _), C' as (x' & l' & rest' & T' & F' & _).
      assert (x = x') by (eapply starts_once; eauto). subst x'. rewrite T in T'. assert (E : l ++ rest = l' ++ rest') by congruence.
      eapply follows_ends; eauto. }
    subst r'. eapply gives_unique; eauto. apply (nodup_in _ _ _ made_once I).
Qed.

End Unique.

(** ** What executions do *)

Section Exec.
Variable workers : list rank.
Variable body : val -> val -> val -> act.
Variable main : act.
Hypothesis body_ok : forall f a k, refs a = [] -> refs k = [] -> refless (body f a k).
Hypothesis main_ok : refless main.

Definition tok (H : list (nat * hev)) (t : nat) : Prop :=
  (t = 0 /\ exists a, follows main (trace H t) a) \/
  (t <> 0 /\ exists p q f l a e, rok body H p q f /\ trace H t = HStart (q_id q) :: l ++ e /\ follows (entered body f q) l a /\
   (e = [] \/ exists r, a = ARet r /\ e = [HEnd r])).

Lemma tok_same H h t : tok H t -> trace h t = [] -> tok (H ++ h) t.
Proof.
  intros T E. unfold tok. rewrite trace_app, E, app_nil_r. destruct T as [T|(N & p & q & f & l & a & e & R & X)]; [left; auto|right].
  split; auto. exists p, q, f, l, a, e. split; auto. apply rok_grows; auto.
Qed.

Lemma fok_tok H runs p fr : fok body main H runs p fr (trace H (f_run fr)) -> tok H (f_run fr).
Proof.
  intros (_ & _ & _ & D & _). assert (X : (f_rest fr = LMain /\ f_run fr = 0 /\ follows main (trace H (f_run fr)) (f_act fr)) \/
    (f_run fr <> 0 /\ exists f, rok body H p (f_q fr) f /\ exists l, trace H (f_run fr) = HStart (q_id (f_q fr)) :: l /\ follows (entered body f (f_q fr)) l (f_act fr))).
  { destruct (f_rest fr); [left; tauto| |]; right; destruct D as (D0 & f & R & l & T & F & _); split; auto; exists f; split; auto; exists l; auto. }
  destruct X as [(_ & X & Y)|(X & f & R & l & T & F)]; [left; split; auto; exists (f_act fr); auto|right].
  split; auto. exists p, (f_q fr), f, l, (f_act fr), []. rewrite app_nil_r. auto.
Qed.

Lemma fok_end H runs p fr h r : fok body main H runs p fr (trace H (f_run fr)) -> f_act fr = ARet r -> f_rest fr <> LMain -> trace h (f_run fr) = [HEnd r] ->
  tok (H ++ h) (f_run fr).
Proof.
  intros (_ & _ & _ & D & _) A N E. assert (X : f_run fr <> 0 /\ exists f, rok body H p (f_q fr) f /\ exists l, trace H (f_run fr) = HStart (q_id (f_q fr)) :: l /\ follows (entered body f (f_q fr)) l (f_act fr)).
  { destruct (f_rest fr); [congruence| |]; destruct D as (D0 & f & R & l & T & F & _); split; auto; exists f; split; auto; exists l; auto. }
  destruct X as (X & f & R & l & T & F). right. split; auto. exists p, (f_q fr), f, l, (f_act fr), [HEnd r]. split; [apply rok_grows; auto|].
  rewrite trace_app, T, E. split; [reflexivity|]. split; auto. right. exists r. auto.
Qed.

Definition TI (n : nst) : Prop := forall t, t < n_runs n -> tok (n_hist n) t.

Lemma ti_step' n n' h : NI body main n -> NI body main n' -> TI n -> n_hist n' = n_hist n ++ h ->
  (forall t, t < n_runs n' -> (t < n_runs n /\ trace h t = []) \/ (exists p fr, p_cur (n_proc n' p) = Some fr /\ f_run fr = t) \/
    (exists p fr r, p_cur (n_proc n p) = Some fr /\ f_run fr = t /\ f_act fr = ARet r /\ f_rest fr <> LMain /\ trace h t = [HEnd r])) -> TI n'.
Proof.
  intros N N' T E X t L. destruct (X t L) as [[L' Z]|[(p & fr & C & <-)|(p & fr & r & C & <- & A & R & Z)]].
  - rewrite E. apply tok_same; auto.
  - assert (K := ni_proc _ _ _ N' p). destruct K as (_ & _ & K). rewrite C in K. eapply fok_tok; eauto.
  - rewrite E. assert (K := ni_proc _ _ _ N p). destruct K as (_ & _ & K). rewrite C in K. eapply fok_end; eauto.
Qed.

Lemma trace_single t e t' : trace [(t, e)] t' = if Nat.eqb t t' then [e] else [].
Proof. unfold trace. simpl. destruct (Nat.eqb t t'); auto. Qed.

Lemma go_on_cur p s w kept todo run s' j : go_on body p s w kept todo run = Some (s', Some j) -> exists fr, p_cur s' = Some fr /\ f_run fr = run.
Proof.
  unfold go_on. destruct (pass p w kept todo) as [[w1 [l|[[[q f] l] r]]]|]; intros E; [| |discriminate]; apply Some_inj in E; apply pair_inj in E as [<- E]; [discriminate|].
  eexists. simpl. split; reflexivity.
Qed.

Lemma serve_cur p s m run s' j : serve body p s m run = Some (s', Some j) -> exists fr, p_cur s' = Some fr /\ f_run fr = run.
Proof.
  unfold serve. intros E. destruct m; try (apply Some_inj in E; apply pair_inj in E as [_ E]; discriminate).
  - destruct (prepare p (no_log (p_w s)) q) as [[[w1 q1] [f|]]|]; [| |discriminate]; apply Some_inj in E; apply pair_inj in E as [<- E]; [|discriminate]. eexists. simpl. split; reflexivity.
  - eapply go_on_cur; eauto.
Qed.

Lemma leave_cur p s fr r run s' j : leave body p s fr r run = Some (s', Some j) -> exists fr, p_cur s' = Some fr /\ f_run fr = run.
Proof.
  unfold leave. destruct (finish_task _ _ _); [|discriminate]. destruct (f_rest fr); [|apply go_on_cur|apply go_on_cur].
  intros E. apply Some_inj in E. apply pair_inj in E as [_ E]. discriminate.
Qed.

Lemma upd_same {A} (f : rank -> A) p x : upd f p x p = x.
Proof. unfold upd. rewrite Nat.eqb_refl. reflexivity. Qed.

Lemma run_before n p fr : NI body main n -> p_cur (n_proc n p) = Some fr -> f_run fr < n_runs n.
Proof. intros N C. assert (K := ni_proc _ _ _ N p). destruct K as (_ & _ & K). rewrite C in K. apply K. Qed.

Lemma ti_step n o : NI body main n -> TI n -> TI (nstep workers body n o).
Proof using body_ok.
  intros N T. assert (N' := ni_step workers body main body_ok n o N). revert N'. destruct o as [p dest|src p|src p]; unfold nstep.
  - destruct (p_cur (n_proc n p)) as [fr|] eqn:C; auto. destruct (n_dead n p); auto. destruct (f_get fr) eqn:G; auto.
    destruct (f_act fr) as [r|v k|f args kwargs j k|ds k] eqn:A.
    { assert (Y : f_rest fr <> LMain -> NI body main (looped n p (leave body p (n_proc n p) fr r (n_runs n)) (n_chan n) [(f_run fr, HEnd r)]) ->
        TI (looped n p (leave body p (n_proc n p) fr r (n_runs n)) (n_chan n) [(f_run fr, HEnd r)])).
      { intros Nm N'. destruct (leave body p (n_proc n p) fr r (n_runs n)) as [[s [j|]]|] eqn:L.
        - apply (ti_step' n _ ([(f_run fr, HEnd r)] ++ [(n_runs n, HStart j)]) N N' T eq_refl).
          cbn [looped put_proc n_runs n_proc]. intros t Lt. rewrite trace_app, !trace_single.
          destruct (Nat.eqb (n_runs n) t) eqn:E; [right; left; exists p; rewrite upd_same; apply leave_cur in L as (fr' & L1 & L2); exists fr'; apply Nat.eqb_eq in E; split; [auto|congruence]|].
          apply Nat.eqb_neq in E. rewrite app_nil_r. destruct (Nat.eqb (f_run fr) t) eqn:E'; [apply Nat.eqb_eq in E'; right; right; exists p, fr, r; auto|]. left. split; [lia|auto].
        - apply (ti_step' n _ [(f_run fr, HEnd r)] N N' T eq_refl).
          cbn [looped put_proc n_runs n_proc]. intros t Lt. rewrite trace_single.
          destruct (Nat.eqb (f_run fr) t) eqn:E'; [apply Nat.eqb_eq in E'; right; right; exists p, fr, r; auto|]. left. auto.
        - apply (ti_step' n _ [(f_run fr, HEnd r)] N N' T eq_refl).
          cbn [looped kill put_proc n_runs n_proc]. intros t Lt. rewrite trace_single.
          destruct (Nat.eqb (f_run fr) t) eqn:E'; [apply Nat.eqb_eq in E'; right; right; exists p, fr, r; auto|]. left. auto. }
      destruct (f_rest fr) eqn:R; auto; apply Y; discriminate. }
    all: destruct (call_api workers p (n_proc n p) fr dest (n_tasks n)) as [[[[s out] sub] h]|] eqn:E; auto; intros N';
      assert (X := api_ok workers body main _ _ _ _ _ _ _ _ _ _ _ (ni_proc _ _ _ N p) C G E); destruct X as (_ & _ & _ & fr' & X1 & X2 & _);
      apply (ti_step' n _ (map (fun e => (f_run fr, e)) h) N N' T eq_refl); cbn [put_proc n_runs n_proc]; intros t Lt;
      destruct (Nat.eq_dec t (f_run fr)) as [->|Nt]; [right; left; exists p; rewrite upd_same; exists fr'; auto|];
      left; split; auto; apply trace_other; intros e I; apply in_map_iff in I as (x & <- & _); simpl; congruence.
  - destruct (n_chan n src p) as [|m ms] eqn:Ch; auto. destruct (p_cur (n_proc n p)) eqn:C; auto. destruct (Nat.eqb p 0 || n_dead n p); auto. intros N'.
    destruct (serve body p (n_proc n p) m (n_runs n)) as [[s [j|]]|] eqn:L.
    + apply (ti_step' n _ ([] ++ [(n_runs n, HStart j)]) N N' T eq_refl).
      cbn [looped put_proc n_runs n_proc app]. intros t Lt. rewrite trace_single.
      destruct (Nat.eqb (n_runs n) t) eqn:E; [right; left; exists p; rewrite upd_same; apply serve_cur in L as (fr' & L1 & L2); exists fr'; apply Nat.eqb_eq in E; split; [auto|congruence]|].
      apply Nat.eqb_neq in E. left. split; [lia|auto].
    + apply (ti_step' n _ [] N N' T eq_refl). auto.
    + apply (ti_step' n _ [] N N' T eq_refl). auto.
  - destruct (n_rep n src p) as [|[d v] ms] eqn:Ch; auto. destruct (p_cur (n_proc n p)) as [fr|] eqn:C; auto.
    destruct (f_get fr) as [g|] eqn:G; auto. destruct (f_act fr) as [r|v' k|f args kwargs j k|ds k] eqn:A; auto.
    destruct (receive (n_proc n p) fr g k d v) as [s h] eqn:E. intros N'.
    assert (Pd : Pv body (n_hist n) d v) by (apply (ni_rep _ _ _ N src p); rewrite Ch; simpl; auto).
    destruct (receive_ok body main _ _ _ _ _ _ _ _ _ _ _ _ (ni_proc _ _ _ N p) C G A Pd E) as (_ & _ & fr' & X1 & X2 & _).
    apply (ti_step' n _ (map (fun e => (f_run fr, e)) h) N N' T eq_refl); cbn [put_proc n_runs n_proc]; intros t Lt;
      destruct (Nat.eq_dec t (f_run fr)) as [->|Nt]; [right; left; exists p; rewrite upd_same; exists fr'; auto|];
      left; split; auto; apply trace_other; intros e I; apply in_map_iff in I as (x & <- & _); simpl; congruence.
Qed.

Theorem run_ti ops : TI (nrun workers body main ops).
Proof using body_ok main_ok.
  unfold nrun. assert (T : TI (ninit main)) by (intros t L; simpl in L; left; split; [lia|]; assert (t = 0) by lia; subst t; exists main; constructor).
  assert (N := ni_init body main main_ok). revert N T. generalize (ninit main). induction ops as [|o ops IH]; intros n N T; simpl; auto.
  apply IH; [apply ni_step; auto|apply ti_step; auto].
Qed.

(** ** What is claimed *)

Theorem gets_mean ops t ds r : In (t, HGet ds r) (n_hist (nrun workers body main ops)) ->
  match r with
  | GVals vs => Forall2 (means body (n_hist (nrun workers body main ops))) ds vs
  | GRaise e => exists d, In d ds /\ means body (n_hist (nrun workers body main ops)) d (VExc e)
  | GError => True
  end.
Proof using body_ok main_ok. intros I. apply (ni_good _ _ _ (run_ni workers body main body_ok main_ok ops)) in I. destruct r; exact I. Qed.

Theorem means_one ops d v v' : means body (n_hist (nrun workers body main ops)) d v -> means body (n_hist (nrun workers body main ops)) d v' -> v = v'.
Proof.
  intros [k A] [k' B]. eapply means_unique; eauto; [apply (fr_made _ (run_fresh workers body main ops))|].
  intros t t' i l l' X Y. set (H := n_hist _) in *.
  assert (In' : forall x y, trace H x = HStart i :: y -> In (x, HStart i) H).
  { intros x y E. assert (J : In (HStart i) (trace H x)) by (rewrite E; simpl; auto). unfold trace in J. apply in_flat_map in J as ([a b] & J1 & J2). simpl in J2.
    destruct (Nat.eqb a x) eqn:Z; [|destruct J2]. destruct J2 as [<-|[]]. apply Nat.eqb_eq in Z as <-. auto. }
  apply In' in X, Y. assert (N : NoDup (starts H)).
  { apply (NoDup_count_occ Nat.eq_dec). intros z. apply (on_one _ (run_once workers body main ops) LS z). }
  assert (E := nodup_flat _ H _ _ i N X Y ltac:(simpl; auto) ltac:(simpl; auto)). congruence.
Qed.

Theorem started_once ops t t' i : In (t, HStart i) (n_hist (nrun workers body main ops)) -> In (t', HStart i) (n_hist (nrun workers body main ops)) -> t = t'.
Proof.
  intros X Y. set (H := n_hist _) in *. assert (N : NoDup (starts H)).
  { apply (NoDup_count_occ Nat.eq_dec). intros z. apply (on_one _ (run_once workers body main ops) LS z). }
  assert (E := nodup_flat _ H _ _ i N X Y ltac:(simpl; auto) ltac:(simpl; auto)). congruence.
Qed.

Theorem main_text ops : exists a, follows main (trace (n_hist (nrun workers body main ops)) 0) a.
Proof using body_ok main_ok.
  destruct (run_ti ops 0) as [[_ X]|[X _]]; [|exact X|congruence]. apply (ni_zero _ _ _ (run_ni workers body main body_ok main_ok ops)).
Qed.

Theorem task_text ops t : t <> 0 -> trace (n_hist (nrun workers body main ops)) t <> [] ->
  exists t' dest q fd f args kwargs l rest a, In (t', HSubmit dest q) (n_hist (nrun workers body main ops)) /\ q_fn q = FRef fd /\
    means body (n_hist (nrun workers body main ops)) fd f /\
    fill (means body (n_hist (nrun workers body main ops))) (q_args q) args /\ fill (means body (n_hist (nrun workers body main ops))) (q_kwargs q) kwargs /\
    refs args = [] /\ refs kwargs = [] /\
    trace (n_hist (nrun workers body main ops)) t = HStart (q_id q) :: l ++ rest /\
    match failed_arg args kwargs with
    | Some e => l = [] /\ a = ARet (RExc e)
    | None => follows (body f args kwargs) l a
    end /\ (rest = [] \/ exists r, a = ARet r /\ rest = [HEnd r]).
Proof using body_ok main_ok.
  intros Z E. assert (L : t < n_runs (nrun workers body main ops)).
  { destruct (Nat.lt_ge_cases t (n_runs (nrun workers body main ops))) as [|L]; auto. exfalso. apply E.
    apply (trace_none _ (n_runs (nrun workers body main ops))); auto. apply (ni_new _ _ _ (run_ni workers body main body_ok main_ok ops)). }
  destruct (run_ti ops t L) as [[X _]|(_ & p & q & f & l & a & e & R & T & F & X)]; [congruence|]. set (H := n_hist _) in *.
  destruct R as (t' & q0 & fd & I & Qi & Qo & Qf & Mf & Fa & Fk & Ra & Rk).
  exists t', p, q0, fd, f, (q_args q), (q_kwargs q), l, e, a. repeat split; auto.
  - eapply fill_mono; [|exact Fa]. intros ? ? [Y _]. exact Y.
  - eapply fill_mono; [|exact Fk]. intros ? ? [Y _]. exact Y.
  - rewrite <- Qi. exact T.
  - unfold entered in F. destruct (failed_arg _ _); auto. apply follows_end in F. auto.
Qed.

End Exec.
