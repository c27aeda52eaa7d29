(** Values that cannot be pickled or unpickled: proofs. *)
From Verif Require Import Lib ShmModel ShmRaceProofs ValModel WorkerModel WorkerSpec WorkerProofs WorkerWant WorkerAnswer ClusterModel ClusterNet
  NestModel NestSpec NestProofs NestOnce NestThms NestNet NestLoop NestLive NestStep NestCall NestTurn NestRun ReapSpec ReapProofs StopModel StopSpec StopProofs
  PickModel PickSpec.

Section Pick.
Variable workers : list rank.
Variable body : val -> val -> val -> act.
Variable dumps loads : val -> bool.
Variable main : act.

Notation yr := (yrun workers body dumps loads main).
Notation ys := (ystep workers body dumps loads).

Lemma yrun_snoc ops o : yr (ops ++ [o]) = ys (yr ops) o.
Proof using. unfold yrun. rewrite fold_left_app. reflexivity. Qed.

Lemma yrun_part ops : exists ops', x_n (yr ops) = nrun workers body main ops'.
Proof using.
  induction ops as [|o ops IH] using rev_ind; [exists []; reflexivity|]. destruct IH as [l IH]. rewrite yrun_snoc. unfold ystep.
  destruct (x_gone (yr ops) (actor_of o)); [eauto|]. destruct (leaves dumps loads (x_n (yr ops)) o); [eauto|]. exists (l ++ [o]).
  unfold nrun in *. rewrite fold_left_app, <- IH. reflexivity.
Qed.

(** ** What a process that is gone has before it *)

Lemma hd_app {A} (l l' : list A) x : hd_error l = Some x -> hd_error (l ++ l') = Some x.
Proof. destruct l; [discriminate|auto]. Qed.

Lemma front_stays n o p a m : actor_of o <> p -> hd_error (n_chan n a p) = Some m -> hd_error (n_chan (nstep workers body n o) a p) = Some m.
Proof using.
  intros N I. assert (Pp : forall s ch re out t r h, hd_error (ch a p) = Some m -> hd_error (n_chan (put_proc n (actor_of o) s ch re out t r h) a p) = Some m).
  { intros s ch re out t r h J. simpl. destruct (Nat.eqb a (actor_of o)); auto. apply hd_app. auto. }
  assert (Lp : forall y ch h, hd_error (ch a p) = Some m -> hd_error (n_chan (looped n (actor_of o) y ch h) a p) = Some m) by (intros [[s [i|]]|] ch h J; apply Pp; exact J).
  destruct o as [r dest|src r|src r]; simpl actor_of in *; cbn [nstep].
  - destruct (p_cur (n_proc n r)) as [fr|]; auto. destruct (n_dead n r); auto. destruct (f_get fr); auto.
    destruct (f_act fr) as [res|v k|f a' kw m' k|ds k]; [destruct (f_rest fr); auto| | |]; destruct (call_api _ _ _ _ _ _) as [[[[s out] sub] h]|]; auto.
  - destruct (n_chan n src r) eqn:E; auto. destruct (p_cur (n_proc n r)); auto. destruct (_ || _); auto. apply Lp. rewrite drop_other; auto.
  - destruct (n_rep n src r) as [|[d v] l]; auto. destruct (p_cur (n_proc n r)) as [fr|]; auto. destruct (f_get fr); auto. destruct (f_act fr); auto.
    destruct (receive _ _ _ _ _ _) as [s h]. apply Pp. exact I.
Qed.

Lemma answer_stays n o p a m : actor_of o <> p -> hd_error (n_rep n a p) = Some m -> hd_error (n_rep (nstep workers body n o) a p) = Some m.
Proof using.
  intros N I. assert (Pp : forall s ch re out t r h, hd_error (re a p) = Some m -> hd_error (n_rep (put_proc n (actor_of o) s ch re out t r h) a p) = Some m).
  { intros s ch re out t r h J. simpl. destruct (Nat.eqb a (actor_of o)); auto. apply hd_app. auto. }
  assert (Lp : forall y ch h, hd_error (n_rep (looped n (actor_of o) y ch h) a p) = Some m) by (intros [[s [i|]]|] ch h; apply Pp; exact I).
  destruct o as [r dest|src r|src r]; simpl actor_of in *; cbn [nstep].
  - destruct (p_cur (n_proc n r)) as [fr|]; auto. destruct (n_dead n r); auto. destruct (f_get fr); auto.
    destruct (f_act fr) as [res|v k|f a' kw m' k|ds k]; [destruct (f_rest fr); auto| | |]; destruct (call_api _ _ _ _ _ _) as [[[[s out] sub] h]|]; auto.
  - destruct (n_chan n src r) eqn:E; auto. destruct (p_cur (n_proc n r)); auto. destruct (_ || _); auto.
  - destruct (n_rep n src r) as [|[d v] l]; auto. destruct (p_cur (n_proc n r)) as [fr|]; auto. destruct (f_get fr); auto. destruct (f_act fr); auto.
    destruct (receive _ _ _ _ _ _) as [s h]. apply Pp. assert (Z : Nat.eqb p r = false) by (apply Nat.eqb_neq; congruence). rewrite Z, andb_false_r. exact I.
Qed.

Lemma cause_stays n o p : actor_of o <> p -> cause dumps loads n p -> cause dumps loads (nstep workers body n o) p.
Proof using.
  intros N C. assert (P := others_stay workers body n o p N). destruct C.
  - eapply ca_result; rewrite ?P; eauto.
  - eapply ca_value; eauto. apply front_stays; eauto.
  - eapply ca_call; eauto. apply front_stays; eauto.
  - eapply ca_asked; rewrite ?P; eauto. apply front_stays; eauto.
  - eapply ca_answer; eauto; [unfold in_get; rewrite P; exact H|]. apply answer_stays; eauto.
Qed.

Lemma result_cause w o r : result_fails dumps w o r = true -> exists d v, gives o r d v /\ dumps v = false.
Proof using.
  unfold result_fails. destruct r as [v|e].
  - destruct o as [|d|ds]; [discriminate| |]; intros E; simpl.
    + exists d, v. apply negb_true_iff in E. auto.
    + destruct (iterate v) as [vs|] eqn:I; [|discriminate]. apply existsb_exists in E as ([d x] & J & E). apply negb_true_iff in E. exists d, x. split; eauto.
  - intros E. apply andb_true_iff in E as [A B]. apply negb_true_iff in B. apply existsb_exists in A as (d & I & _). exists d, (VExc e). simpl. auto.
Qed.

Lemma leaves_cause n o : leaves dumps loads n o = true -> cause dumps loads n (actor_of o).
Proof using.
  destruct o as [p dest|src p|src p]; simpl.
  - destruct (p_cur (n_proc n p)) as [fr|] eqn:C; [|discriminate]. destruct (f_get fr); [discriminate|]. destruct (f_act fr) as [r| | |] eqn:A; try discriminate.
    intros E. assert (Nm : f_rest fr <> LMain) by (intros Z; rewrite Z in E; discriminate).
    assert (F : result_fails dumps (p_w (n_proc n p)) (q_out (f_q fr)) r = true) by (destruct (f_rest fr); auto; congruence).
    apply result_cause in F as (d & v & G & D). eapply ca_result; eauto.
  - destruct (n_chan n src p) as [|m l] eqn:C; [discriminate|]. destruct (p_cur (n_proc n p)); [discriminate|]. intros E. apply andb_true_iff in E as [Z E].
    apply negb_true_iff, Nat.eqb_neq in Z. assert (Hd : hd_error (n_chan n src p) = Some m) by (rewrite C; reflexivity).
    destruct m as [q|q|r d b|d v|d r|ds|i|]; simpl in E; try discriminate.
    + apply orb_true_iff in E. rewrite !negb_true_iff in E. eapply ca_call; eauto.
    + destruct (store (p_w (n_proc n p)) d) as [v|] eqn:S; [|discriminate]. apply negb_true_iff in E. eapply ca_asked; eauto.
    + apply negb_true_iff in E. eapply ca_value; eauto.
  - destruct (n_rep n src p) as [|[d v] l] eqn:R; [discriminate|]. destruct (p_cur (n_proc n p)) as [fr|] eqn:C; [|discriminate].
    destruct (f_get fr) eqn:G; [|discriminate]. intros E. apply negb_true_iff in E. eapply (ca_answer _ _ _ _ src d v); auto; [exists fr; split; auto; congruence|rewrite R; auto].
Qed.

Theorem gone_cause ops p : x_gone (yr ops) p = true -> cause dumps loads (x_n (yr ops)) p.
Proof using.
  revert p. induction ops as [|o ops IH] using rev_ind; intros p; [discriminate|]. rewrite yrun_snoc. unfold ystep.
  destruct (x_gone (yr ops) (actor_of o)) eqn:G; [apply IH|]. destruct (leaves dumps loads (x_n (yr ops)) o) eqn:X; cbn [x_n x_gone].
  - unfold upd. destruct (Nat.eqb p (actor_of o)) eqn:Z; [|apply IH]. apply Nat.eqb_eq in Z as ->. intros _. apply leaves_cause; auto.
  - intros Gp. apply cause_stays; [congruence|auto].
Qed.

Hypothesis no_root : ~ In 0 workers.
Hypothesis body_ok : forall f a k, refs a = [] -> refs k = [] -> refless (body f a k).
Hypothesis main_ok : refless main.
Hypothesis body_closed : forall f a k, refs a = [] -> refs k = [] -> closed [] [] (body f a k).
Hypothesis main_closed : closed [] [] main.

Lemma run_inv ops : NI body main (x_n (yr ops)) /\ TI body main (x_n (yr ops)) /\ Fresh (x_n (yr ops)) /\ Once (x_n (yr ops)).
Proof using body_ok main_ok. destruct (yrun_part ops) as [l ->]. split; [apply run_ni; auto|]. split; [apply run_ti; auto|]. split; [apply run_fresh|apply run_once]. Qed.

Lemma run_alive ops : results_fit (n_hist (x_n (yr ops))) -> Live workers (x_n (yr ops)).
Proof using no_root body_ok main_ok body_closed main_closed. destruct (yrun_part ops) as [l ->]. intros Rf. apply run_live; auto. Qed.

Theorem y_gets ops t ds r : let H := n_hist (x_n (yr ops)) in In (t, HGet ds r) H ->
  match r with
  | GVals vs => Forall2 (means body H) ds vs
  | GRaise e => exists d, In d ds /\ means body H d (VExc e)
  | GError => True
  end.
Proof using body_ok main_ok. cbn zeta. destruct (yrun_part ops) as [l E]. rewrite E. apply gets_mean; auto. Qed.

Theorem y_one ops d v v' : let H := n_hist (x_n (yr ops)) in means body H d v -> means body H d v' -> v = v'.
Proof using. cbn zeta. destruct (yrun_part ops) as [l E]. rewrite E. apply means_one. Qed.

(** ** What is lost *)

Lemma main_gone ops : results_fit (n_hist (x_n (yr ops))) -> x_gone (yr ops) 0 = true -> main_raises loads body (yr ops).
Proof using no_root body_ok main_ok body_closed main_closed.
  intros Rf G. assert (L := run_alive ops Rf). destruct (run_inv ops) as (Ni & _). apply gone_cause in G.
  assert (M := v_main _ _ L 0). destruct G as [fr r d v C A N _ _|src d v Z _ _|src q Z _ _|src r d b v Z _ _ _|src d v (fr & C & Gg) Hd B]; try congruence.
  - rewrite C in M. destruct N. apply M. reflexivity.
  - destruct (f_get fr) as [g|] eqn:Gf; [|congruence]. exists fr, g, src, d, v. assert (I : In (d, v) (n_rep (x_n (yr ops)) src 0)) by (destruct (n_rep _ _ _); [discriminate|injection Hd as ->; simpl; auto]).
    split; auto. split; auto. split; auto. split; [|split; [apply (ni_rep _ _ _ Ni _ _ _ _ I)|auto]].
    assert (W := t_wants _ _ (a_tok _ _ _ _ _ _ (v_net _ _ L)) (BR src 0) (0, d)). simpl in W. destruct W as [W _]; [apply in_map_iff; exists (d, v); auto|].
    simpl in W. unfold wantof in W. rewrite C, Gf in W. destruct (ni_proc _ _ _ Ni 0) as (_ & _ & Fk). rewrite C in Fk. destruct Fk as (_ & _ & Fk & _). rewrite Gf in Fk. apply Fk. exact W.
Qed.

Lemma y_held ops w : (forall f a k, refs a = [] -> refs k = [] -> getless (body f a k)) -> blocked (yr ops) w -> x_gone (yr ops) w = true.
Proof using body_ok main_ok.
  intros G [X|[N X]]; auto. exfalso. destruct (yrun_part ops) as [l E]. rewrite E in X. eapply getless_workers; eauto.
Qed.

Theorem y_isolated ops : (forall f a k, refs a = [] -> refs k = [] -> getless (body f a k)) ->
  let x := yr ops in let gone w := x_gone x w = true in results_fit (n_hist (x_n x)) -> halted x ->
  (forall t o q, In (t, HSubmit o q) (n_hist (x_n x)) -> finished (n_hist (x_n x)) q \/ affected gone (n_hist (x_n x)) q) /\
  (main_over x \/ main_waits gone x \/ main_raises loads body x).
Proof using no_root body_ok main_ok body_closed main_closed.
  intros Gl x gone Rf Hl. assert (L := run_alive ops Rf). destruct (run_inv ops) as (Ni & _ & F & _). fold x in L, Ni, F.
  assert (M : forall w, blocked x w -> gone w) by (intros w; apply y_held; auto). split.
  - intros t o q I. destruct (follow workers no_root x L F Hl (S (q_id q)) t o q ltac:(lia) I) as [[X _]|X]; auto. right. eapply affected_mono; eauto.
  - destruct (x_gone x 0) eqn:G0; [right; right; apply main_gone; auto|].
    destruct (root_stays workers body main no_root x L F Hl Ni G0) as [B|(fr & g & t & o & q & d & B1 & B2 & B3 & B4 & B5 & B6)]; auto.
    right. left. exists fr, g, t, o, q, d. do 5 (split; auto). eapply affected_mono; eauto.
Qed.

Lemma y_later ops more p : x_gone (yr ops) p = true -> let x := yr ops in let x' := yr (ops ++ more) in
  x_gone x' p = true /\ n_proc (x_n x') p = n_proc (x_n x) p /\ forall a m, In m (n_chan (x_n x) a p) -> In m (n_chan (x_n x') a p).
Proof using.
  intros G. cbn zeta. induction more as [|o more IH] using rev_ind; [rewrite app_nil_r; auto|]. rewrite app_assoc, yrun_snoc. destruct IH as (A & B & C).
  set (y := yr (ops ++ more)) in *. unfold ystep. destruct (x_gone y (actor_of o)) eqn:Z; auto. destruct (leaves dumps loads (x_n y) o); cbn [x_n x_gone].
  - split; auto. unfold upd. destruct (Nat.eqb p (actor_of o)); auto.
  - assert (N : actor_of o <> p) by congruence. split; auto. split; [rewrite others_stay; auto|]. intros a m I. apply mail_stays; auto.
Qed.

Theorem y_lost ops more p t q : let x := yr ops in let x' := yr (ops ++ more) in
  results_fit (n_hist (x_n x)) -> x_gone x p = true -> In (t, HSubmit p q) (n_hist (x_n x)) -> ~ finished (n_hist (x_n x)) q -> ~ finished (n_hist (x_n x')) q.
Proof using no_root body_ok main_ok body_closed main_closed.
  intros x x' Rf G I Nf. destruct (y_later ops more p G) as (_ & P & C). fold x x' in P, C. destruct (run_inv (ops ++ more)) as (Ni & _ & _ & O). fold x' in Ni, O.
  exact (lost_core workers body main (x_n x) (x_n x') p t q (run_alive ops Rf) O Ni P C I Nf).
Qed.

(** ** Programs all of whose values can be pickled and unpickled *)

Section Fine.
Hypothesis body_fine : forall f a k, picklable dumps loads (body f a k).
Hypothesis main_fine : picklable dumps loads main.

Notation fine := (picklable dumps loads).
Notation ok := (passes dumps loads).

Lemma fine_follows a l a' : follows a l a' -> fine a -> fine a'.
Proof using. intros F. induction F; simpl; intros X; auto; apply IHF; apply X. Qed.

Lemma fine_events a l a' : follows a l a' -> fine a -> forall e, In e l -> match e with
  | HPut _ v => ok v
  | HSubmit _ q => exists l m, q_args q = VTuple l /\ q_kwargs q = VDict m /\ loads (q_args q) = true /\ loads (q_kwargs q) = true /\ forall e, In (VExc e) (l ++ map snd m) -> ok (VExc e)
  | _ => True end.
Proof using.
  intros F. induction F as [a|v k d l a F IH|f args kwargs n k dest q l a Ef Ea Ek El F IH|f args kwargs n k l a F IH|ds k r l a F IH]; intros X e I; [destruct I| | | |].
  - destruct I as [<-|I]; [apply X|apply IH; auto; apply X].
  - destruct I as [<-|I]; [rewrite Ea, Ek; apply X|apply IH; auto; apply X].
  - destruct I as [<-|I]; [exact Logic.I|apply IH; auto; apply X].
  - destruct I as [<-|I]; [exact Logic.I|apply IH; auto; apply X].
Qed.

Lemma first_exc l e : first_some is_exc l = Some e -> In (VExc e) l.
Proof using. induction l as [|v l IH]; [discriminate|]. simpl. destruct v; simpl; intros E; auto. injection E as ->. auto. Qed.

Lemma fill_exc_in (S : dataid -> val -> Prop) l l' e : Forall2 (fill S) l l' -> In (VExc e) l' -> In (VExc e) l \/ exists d, S d (VExc e).
Proof using. induction 1 as [|v v' l l' F R IH]; [intros []|]. intros [->|I]; [inversion F; subst; eauto; left; simpl; auto|destruct (IH I); auto; left; simpl; auto]. Qed.

Lemma fill_failed (S : dataid -> val -> Prop) l m args kwargs e : fill S (VTuple l) args -> fill S (VDict m) kwargs -> failed_arg args kwargs = Some e ->
  In (VExc e) (l ++ map snd m) \/ exists d, S d (VExc e).
Proof using.
  intros A K E. apply first_exc in E. apply in_app_or in E. inversion A; subst. inversion K; subst. destruct E as [E|E].
  - destruct (fill_exc_in _ _ _ _ H0 E) as [X|X]; auto. left. apply in_or_app. auto.
  - assert (X : Forall2 (fill S) (map snd m) (map snd l'0)) by (clear - H1; induction H1 as [|x y a b [_ Q]]; simpl; constructor; auto).
    destruct (fill_exc_in _ _ _ _ X E) as [Y|Y]; auto. left. apply in_or_app. auto.
Qed.

Variable n : nst.
Hypothesis Ni : NI body main n.
Hypothesis Ti : TI body main n.

Lemma means_fine_from (Hs : forall t dest q, In (t, HSubmit dest q) (n_hist n) -> exists l m, q_args q = VTuple l /\ q_kwargs q = VDict m /\ forall e, In (VExc e) (l ++ map snd m) -> ok (VExc e))
  (Hp : forall t d v, In (t, HPut d v) (n_hist n) -> ok v) k : forall d v, means_in body (n_hist n) k d v -> ok v.
Proof using body_fine.
  induction k as [|k IH]; intros d v; [intros []|]. intros [(t & I)|(t & dest & q & fd & f & args & kwargs & r & I & _ & _ & A & K & _ & _ & C & G)]; [eauto|].
  destruct (Hs _ _ _ I) as (l & m & Ea & Ek & Ex). rewrite Ea in A. rewrite Ek in K. unfold computes in C. destruct (failed_arg args kwargs) as [e|] eqn:Fa.
  - subst r. destruct G as [_ ->]. destruct (fill_failed _ _ _ _ _ _ A K Fa) as [X|[d' X]]; auto. apply (IH d' _ X).
  - destruct C as (t' & l' & rest & _ & Fo & _). apply fine_follows in Fo; auto. apply (Fo _ _ _ G).
Qed.

(** The programs entered are fine, if what is known so far is. *)
Lemma hist_fine : (forall t dest q, In (t, HSubmit dest q) (n_hist n) -> exists l m, q_args q = VTuple l /\ q_kwargs q = VDict m /\
    loads (q_args q) = true /\ loads (q_kwargs q) = true /\ forall e, In (VExc e) (l ++ map snd m) -> ok (VExc e)) /\
  (forall t d v, In (t, HPut d v) (n_hist n) -> ok v).
Proof using body_fine main_fine Ni Ti.
  assert (K : forall t e, In (t, e) (n_hist n) -> match e with
    | HPut _ v => ok v
    | HSubmit _ q => exists l m, q_args q = VTuple l /\ q_kwargs q = VDict m /\ loads (q_args q) = true /\ loads (q_kwargs q) = true /\ forall e, In (VExc e) (l ++ map snd m) -> ok (VExc e)
    | _ => True end).
  { intros t e I. assert (T := Ti t (ni_new _ _ _ Ni _ I)). apply in_trace in I. destruct T as [(-> & a & F)|(Nt & p & q & f & l & a & e' & R & T & F & X)].
    - apply (fine_events _ _ _ F main_fine _ I).
    - rewrite T in I. destruct I as [<-|I]; auto. apply in_app_or in I as [I|I].
      + unfold entered in F. destruct (failed_arg (q_args q) (q_kwargs q)); [|exact (fine_events _ _ _ F (body_fine _ _ _) _ I)].
        apply follows_end in F as [-> _]. destruct I.
      + destruct X as [->|(r & _ & ->)]; [destruct I|destruct I as [<-|[]]; auto]. }
  split; [intros t dest q I; exact (K _ _ I)|intros t d v I; exact (K _ _ I)].
Qed.

Lemma means_fine d v : means body (n_hist n) d v -> ok v.
Proof using body_fine main_fine Ni Ti.
  intros [k X]. destruct hist_fine as [A B]. apply (means_fine_from (fun t dest q I => match A t dest q I with ex_intro _ l (ex_intro _ m (conj a (conj b (conj _ (conj _ e))))) => ex_intro _ l (ex_intro _ m (conj a (conj b e))) end) B k d v X).
Qed.

Lemma no_cause p : ~ cause dumps loads n p.
Proof using body_fine main_fine Ni Ti.
  intros [fr r d v C A N G D|src d v _ Hd B|src q _ Hd B|src r d b v _ _ S D|src d v _ Hd B].
  - destruct (ni_proc _ _ _ Ni p) as (_ & _ & Fk). rewrite C in Fk. destruct Fk as (_ & _ & _ & X & _).
    assert (Y : exists f l, rok body (n_hist n) p (f_q fr) f /\ follows (entered body f (f_q fr)) l (f_act fr)) by (destruct (f_rest fr); [congruence| |]; destruct X as (_ & f & R & l & _ & F & _); exists f, l; auto).
    destruct Y as (f & l & (t & q0 & fd & I & _ & _ & _ & _ & Fa & Fk & _) & F). rewrite A in F. unfold entered in F.
    destruct (failed_arg (q_args (f_q fr)) (q_kwargs (f_q fr))) as [e|] eqn:Fe.
    + apply follows_end in F as [_ F]. injection F as ->. destruct (proj1 hist_fine _ _ _ I) as (l0 & m & Ea & Ek & _ & _ & Ex). rewrite Ea in Fa. rewrite Ek in Fk.
      destruct G as [_ ->]. destruct (fill_failed _ _ _ _ _ _ Fa Fk Fe) as [Z|[d' Z]].
      * apply Ex in Z. destruct Z. congruence.
      * destruct Z as [Z _]. apply means_fine in Z. destruct Z. congruence.
    + apply fine_follows in F; auto. destruct (F _ _ _ G). congruence.
  - assert (I : In (WPut d v) (n_chan n src p)) by (destruct (n_chan n src p); [discriminate|injection Hd as ->; simpl; auto]).
    apply (ni_chan _ _ _ Ni) in I as [I _]. apply means_fine in I. destruct I. congruence.
  - assert (I : In (WExec q) (n_chan n src p)) by (destruct (n_chan n src p); [discriminate|injection Hd as ->; simpl; auto]).
    apply (ni_chan _ _ _ Ni) in I as [t I]. destruct (proj1 hist_fine _ _ _ I) as (l & m & _ & _ & La & Lk & _). destruct B; congruence.
  - destruct (ni_proc _ _ _ Ni p) as ((X & _) & _). apply X in S as [S _]. apply means_fine in S. destruct S. congruence.
  - assert (I : In (d, v) (n_rep n src p)) by (destruct (n_rep n src p); [discriminate|injection Hd as ->; simpl; auto]).
    apply (ni_rep _ _ _ Ni) in I as [I _]. apply means_fine in I. destruct I. congruence.
Qed.

End Fine.

Theorem fine_stays : (forall f a k, picklable dumps loads (body f a k)) -> picklable dumps loads main -> forall ops,
  (forall p, x_gone (yr ops) p = false) /\ x_n (yr ops) = nrun workers body main ops.
Proof using body_ok main_ok.
  intros Bf Mf ops. assert (K : forall ops p, x_gone (yr ops) p = false).
  { clear ops. intros ops p. destruct (x_gone (yr ops) p) eqn:G; auto. exfalso. apply gone_cause in G. destruct (run_inv ops) as (Ni & Ti & _).
    exact (no_cause Bf Mf _ Ni Ti p G). }
  split; auto. induction ops as [|o ops IH] using rev_ind; [reflexivity|]. assert (G := K (ops ++ [o]) (actor_of o)). rewrite yrun_snoc in *. unfold ystep in *.
  rewrite (K ops) in *. destruct (leaves dumps loads (x_n (yr ops)) o); cbn [x_n x_gone] in *.
  - unfold upd in G. rewrite Nat.eqb_refl in G. discriminate.
  - rewrite IH. unfold nrun. rewrite fold_left_app. reflexivity.
Qed.

Lemma y_still x o : halted x -> ys x o = x.
Proof using.
  intros Hl. unfold ystep. destruct (x_gone x (actor_of o)) eqn:G; auto. specialize (Hl _ G).
  assert (E : nstep workers body (x_n x) o = x_n x /\ leaves dumps loads (x_n x) o = false).
  { destruct o as [p dest|src p|src p]; simpl in *.
    - destruct (p_cur (n_proc (x_n x) p)) as [fr|]; auto. destruct Hl as [(-> & -> & r & ->)|[Q _]]; [destruct (n_dead (x_n x) p); auto|]. destruct (f_get fr); [|congruence]. destruct (n_dead (x_n x) p); auto.
    - destruct (n_chan (x_n x) src p) as [|m ms] eqn:E; auto. destruct (p_cur (n_proc (x_n x) p)); auto. destruct (Nat.eqb p 0) eqn:Z; auto.
      apply Nat.eqb_neq in Z. rewrite (Hl Z) in E. discriminate.
    - destruct (n_rep (x_n x) src p) as [|[d v] l] eqn:E; auto. destruct (p_cur (n_proc (x_n x) p)) as [fr|]; auto. destruct Hl as [(_ & -> & _)|[_ I]]; auto. rewrite I in E. discriminate. }
  destruct E as [-> ->]. destruct x; reflexivity.
Qed.

End Pick.
