(** The invariants of runs with cleanups. *)
From Verif Require Import Lib ShmModel ShmRaceProofs ValModel WorkerModel WorkerSpec ClusterModel MonModel NestModel NestSpec NestProofs NestOnce NestThms NestRun
  ReapModel ReapSpec ReapProofs.

Section Inv.
Variable workers : list rank.
Variable body : val -> val -> val -> act.
Variable main : act.
Hypothesis body_ok : forall f a k, refs a = [] -> refs k = [] -> refless (body f a k).
Hypothesis main_ok : refless main.

(** ** A process forgets *)

Lemma ni_with n p w ch : NI body main n -> (forall d v, store w d = Some v -> store (p_w (n_proc n p)) d = Some v) ->
  pend w = pend (p_w (n_proc n p)) -> log w = log (p_w (n_proc n p)) ->
  (forall a b m, In m (ch a b) -> In m (n_chan n a b) \/ exists ds, m = WClean ds) -> NI body main (with_w n p w ch).
Proof.
  intros N S P L C. assert (U : forall p', p_cur (n_proc (with_w n p w ch) p') = p_cur (n_proc n p')).
  { intros p'. unfold with_w. cbn [n_proc]. unfold upd. destruct (Nat.eqb p' p) eqn:E; auto. apply Nat.eqb_eq in E as ->. reflexivity. }
  constructor.
  - intros p'. assert (K := ni_proc _ _ _ N p'). unfold pok. rewrite U. change (n_hist (with_w n p w ch)) with (n_hist n).
    change (n_runs (with_w n p w ch)) with (n_runs n). destruct K as (K1 & K2 & K3).
    unfold with_w. cbn [n_proc]. unfold upd. destruct (Nat.eqb p' p) eqn:E; [|split; [exact K1|split; auto]]. apply Nat.eqb_eq in E as ->. cbn [p_w].
    split; [|split; auto; rewrite P; auto]. destruct K1 as [K1 K1']. split; [eauto|]. rewrite L. auto.
  - intros a b m I. change (n_hist (with_w n p w ch)) with (n_hist n). destruct (C a b m I) as [J|[ds ->]]; [eapply (ni_chan _ _ _ N); eauto|exact Logic.I].
  - exact (ni_rep _ _ _ N).
  - intros a b fr fr'. rewrite !U. apply (ni_run _ _ _ N).
  - exact (ni_new _ _ _ N).
  - exact (ni_good _ _ _ N).
  - exact (ni_zero _ _ _ N).
  - intros a fr. rewrite U. apply (ni_first _ _ _ N).
Qed.

Lemma once_with n p w ch : Once n -> pend w = pend (p_w (n_proc n p)) ->
  (forall a b i, count_occ Nat.eq_dec (execs (ch a b)) i <= count_occ Nat.eq_dec (execs (n_chan n a b)) i) -> Once (with_w n p w ch).
Proof.
  intros O P C. apply (once_less n); auto. intros l i. destruct l as [a b|r|]; [apply C| |apply le_n].
  cbn [content with_w n_proc]. unfold upd. destruct (Nat.eqb r p) eqn:E; auto. apply Nat.eqb_eq in E as ->. unfold held, waiting. cbn [p_w p_cur].
  rewrite P. auto.
Qed.

Lemma fresh_with n p w ch : Fresh n -> Fresh (with_w n p w ch).
Proof.
  intros [A B C D]. constructor; auto. intros d I. cbn [with_w n_proc]. unfold upd. destruct (Nat.eqb (fst d) p) eqn:E; [|auto].
  apply Nat.eqb_eq in E. cbn [p_next]. rewrite <- E. auto.
Qed.

Lemma forgets_store w ds d v : store (forgets w ds) d = Some v -> store w d = Some v.
Proof. cbn [forgets set_sent set_owner set_store store]. unfold forget. destruct (did_in d ds); [discriminate|auto]. Qed.

Lemma no_execs ds l b : execs (sends_to b (map (fun w : rank => (w, WClean ds)) l)) = [].
Proof. induction l as [|x l IH]; auto. cbn [map sends_to flat_map fst snd]. destruct (Nat.eqb x b); auto. Qed.

Lemma cleans_only ds l b m : In m (sends_to b (map (fun w : rank => (w, WClean ds)) l)) -> m = WClean ds.
Proof. intros I. apply in_sends in I. apply in_map_iff in I as (x & E & _). congruence. Qed.

(** ** The root executes nothing but the main program *)

Definition RM (n : nst) : Prop := forall fr, p_cur (n_proc n 0) = Some fr -> f_rest fr = LMain.

Lemma rm_put n p s ch re out t r h : RM n -> (p = 0 -> forall fr, p_cur s = Some fr -> f_rest fr = LMain) -> RM (put_proc n p s ch re out t r h).
Proof. intros R A fr. unfold put_proc. cbn [n_proc]. unfold upd. destruct (Nat.eqb 0 p) eqn:E; auto. apply Nat.eqb_eq in E. auto. Qed.

Lemma api_rest p s fr dest task s' out sub es : call_api workers p s fr dest task = Some (s', out, sub, es) -> exists fr', p_cur s' = Some fr' /\ f_rest fr' = f_rest fr.
Proof.
  unfold call_api. destruct (f_act fr) as [r|v k|f args kwargs m k|ds k]; intros E.
  - discriminate.
  - apply Some_inj in E. apply pair_inj in E as [E _]. apply pair_inj in E as [E _]. apply pair_inj in E as [<- _]. eexists. split; reflexivity.
  - destruct (negb (existsb (Nat.eqb dest) workers) || Nat.eqb dest p); [discriminate|].
    destruct (push_all _ dest _) as [[w1 l] ok]. destruct ok; apply Some_inj in E; apply pair_inj in E as [E _]; apply pair_inj in E as [E _]; apply pair_inj in E as [<- _];
      eexists; split; reflexivity.
  - destruct (filter _ ds); [|destruct (ask_owners _ _) as [l0 ok]; destruct ok]; apply Some_inj in E; apply pair_inj in E as [E _]; apply pair_inj in E as [E _];
      apply pair_inj in E as [<- _]; eexists; split; reflexivity.
Qed.

Lemma receive_rest s fr g k d v s' es : receive s fr g k d v = (s', es) -> exists fr', p_cur s' = Some fr' /\ f_rest fr' = f_rest fr.
Proof.
  unfold receive. destruct (did_in d (t_ids g)); [destruct (t_left g) as [|[|j]]|]; intros E; apply pair_inj in E as [<- _]; eexists; split; reflexivity.
Qed.

Lemma rm_step n o : RM n -> RM (nest workers body n o).
Proof.
  intros R.
  assert (L : forall p x ch h, p <> 0 -> RM (looped n p x ch h)).
  { intros p x ch h Np fr. assert (E : n_proc (looped n p x ch h) 0 = n_proc n 0).
    { destruct x as [[s [i|]]|]; cbn [looped put_proc kill n_proc]; unfold upd; destruct (Nat.eqb 0 p) eqn:Q; auto; apply Nat.eqb_eq in Q; congruence. }
    rewrite E. apply R. }
  assert (A : forall p dest, RM (nstep workers body n (NRun p dest))).
  { intros p dest. cbn [nstep]. destruct (p_cur (n_proc n p)) as [fr|] eqn:C; auto. destruct (n_dead n p); auto. destruct (f_get fr); auto.
    assert (B : RM match call_api workers p (n_proc n p) fr dest (n_tasks n) with
                | None => n
                | Some (s, out, sub, h) => put_proc n p s (n_chan n) (n_rep n) out (if sub then S (n_tasks n) else n_tasks n) (n_runs n) (map (fun e => (f_run fr, e)) h)
                end).
    { destruct (call_api workers p (n_proc n p) fr dest (n_tasks n)) as [[[[s out] sub] es]|] eqn:E; auto. apply rm_put; auto. intros -> fr' F.
      apply api_rest in E as (fr2 & E1 & E2). rewrite F in E1. apply Some_inj in E1 as <-. rewrite E2. apply R. exact C. }
    destruct (f_act fr); auto. destruct (f_rest fr) eqn:F; auto; apply L; intros ->; rewrite (R fr C) in F; discriminate. }
  assert (T : forall src p, RM (nstep workers body n (NTake src p))).
  { intros src p. cbn [nstep]. destruct (n_chan n src p); auto. destruct (p_cur (n_proc n p)); auto. destruct (Nat.eqb p 0 || n_dead n p) eqn:E; auto.
    apply L. intros ->. discriminate E. }
  destruct o as [p dest|src p|src p]; cbn [nest].
  - apply A.
  - destruct (n_chan n src p) as [|[] ms]; auto; destruct (p_cur (n_proc n p)) eqn:C; auto. destruct (Nat.eqb p 0 || n_dead n p) eqn:E; auto.
    intros fr. cbn [take_clean with_w n_proc]. unfold upd. destruct (Nat.eqb 0 p) eqn:Q; [cbn [p_cur]; rewrite C; discriminate|apply R].
  - cbn [nstep]. destruct (n_rep n src p) as [|[d v] rs]; auto. destruct (p_cur (n_proc n p)) as [fr|] eqn:C; auto.
    destruct (f_get fr) as [g|]; auto. destruct (f_act fr) as [r|v' k|f args kwargs m k|ds k]; auto.
    destruct (receive (n_proc n p) fr g k d v) as [s es] eqn:E. apply rm_put; auto. intros -> fr' F. apply receive_rest in E as (fr2 & E1 & E2).
    rewrite F in E1. apply Some_inj in E1 as <-. rewrite E2. apply R. exact C.
Qed.

Lemma frame_zero n p fr : NI body main n -> RM n -> p_cur (n_proc n p) = Some fr -> (f_run fr = 0 <-> p = 0).
Proof.
  intros N R C. assert (K := ni_proc _ _ _ N p). destruct K as (_ & _ & K). rewrite C in K. destruct K as (_ & _ & _ & D & _). split.
  - intros Z. destruct (f_rest fr) eqn:F; [apply (ni_first _ _ _ N p fr C F)| |]; destruct D as [D _]; congruence.
  - intros ->. rewrite (R fr C) in D. apply D.
Qed.

(** ** One step of the programs *)

Record Base (n : nst) : Prop := { b_ni : NI body main n; b_ti : TI body main n; b_once : Once n; b_fresh : Fresh n; b_rm : RM n }.

Lemma base_with n p w ch : Base n -> (forall d v, store w d = Some v -> store (p_w (n_proc n p)) d = Some v) ->
  pend w = pend (p_w (n_proc n p)) -> log w = log (p_w (n_proc n p)) ->
  (forall a b m, In m (ch a b) -> In m (n_chan n a b) \/ exists ds, m = WClean ds) ->
  (forall a b i, count_occ Nat.eq_dec (execs (ch a b)) i <= count_occ Nat.eq_dec (execs (n_chan n a b)) i) -> Base (with_w n p w ch).
Proof.
  intros [A B C D E] S P L I J. constructor.
  - apply ni_with; auto.
  - exact B.
  - apply once_with; auto.
  - apply fresh_with; auto.
  - intros fr. cbn [with_w n_proc]. unfold upd. destruct (Nat.eqb 0 p) eqn:Q; [|apply E]. apply Nat.eqb_eq in Q as <-. cbn [p_cur]. apply E.
Qed.

Lemma base_nest n o : Base n -> Base (nest workers body n o).
Proof using body_ok.
  intros B. assert (R := rm_step n o (b_rm _ B)). assert (X : Base (nstep workers body n o) \/ exists src p ds, nest workers body n o = take_clean n src p ds /\ exists ms, n_chan n src p = WClean ds :: ms).
  { destruct B. left. constructor; [apply ni_step; auto|apply ti_step; auto|apply once_step; auto|apply fresh_step; auto|].
    destruct o as [p dest|src p|src p]; [exact R| |exact R].
    cbn [nest] in R. destruct (n_chan n src p) as [|[] ms] eqn:C; auto; destruct (p_cur (n_proc n p)) as [fr|] eqn:E; auto.
    cbn [nstep]. rewrite C, E. destruct (Nat.eqb p 0 || n_dead n p) eqn:Z; auto. intros fr.
    cbn [looped serve put_proc n_proc]. unfold upd. destruct (Nat.eqb 0 p) eqn:Q; [apply Nat.eqb_eq in Q as <-; discriminate Z|apply b_rm0]. }
  assert (Y : nest workers body n o = n \/ nest workers body n o = nstep workers body n o \/
    exists src p ds ms, nest workers body n o = take_clean n src p ds /\ n_chan n src p = WClean ds :: ms).
  { destruct o as [p dest|src p|src p]; cbn [nest]; auto. destruct (n_chan n src p) as [|[] ms] eqn:C; auto; destruct (p_cur (n_proc n p)) as [fr|] eqn:E; auto.
    destruct (Nat.eqb p 0 || n_dead n p); auto. right. right. eauto 6. }
  destruct Y as [->|[E|(src & p & ds & ms & E & C)]]; auto.
  - rewrite E. destruct X as [X|(src & p & ds & X & ms & C)]; auto. rewrite <- E, X. apply base_with; auto; intros.
    + eapply forgets_store; eauto.
    + left. eapply drop_in; eauto.
    + eapply chan_less; eauto.
  - rewrite E. apply base_with; auto; intros.
    + eapply forgets_store; eauto.
    + left. eapply drop_in; eauto.
    + eapply chan_less; eauto.
Qed.

(** ** Runs *)

Definition mine (p : rank) (l : list (rank * request)) : list (rank * request) := filter (fun c => Nat.eqb (fst c) p) l.

(** What is known of the calls l, the history H and the count c a cleanup of p is based on. *)
Definition sound (l : list (rank * request)) (H : list (nat * hev)) : Prop :=
  map snd l = submits H /\ (forall p q, In (p, q) l -> exists t dest, In (t, HSubmit dest q) H /\ (t = 0 <-> p = 0)).

Record KI (k : kst) : Prop := {
  ki_base : Base (k_n k);
  ki_calls : sound (k_calls k) (n_hist (k_n k));
  ki_tasks : forall p, k_tasks k p = length (mine p (k_calls k));
  ki_count : mcount (k_mon k) + length (k_done k) <= length (ends (n_hist (k_n k)));
  ki_exact : nobody_dead (k_n k) -> mcount (k_mon k) + length (k_done k) = length (ends (n_hist (k_n k)));
  ki_stop : mstopped (k_mon k) = false;
  ki_asked : forall p c, k_asked k p = Some c -> c <= mcount (k_mon k);
  ki_sent : forall u, In u (k_sent k) -> exists n, Base n /\ n_hist n = u_hist u /\ sound (u_calls u) (u_hist u) /\
    length (mine (u_by u) (u_calls u)) <= length (ends (u_hist u))
}.

Lemma mine_app p l l' : mine p (l ++ l') = mine p l ++ mine p l'.
Proof. apply filter_app. Qed.

Lemma skipn_app_len {A} (l l' : list A) : skipn (length l) (l ++ l') = l'.
Proof. induction l; simpl; auto. Qed.

Lemma called_snd n o h : n_hist (nest workers body n o) = n_hist n ++ h ->
  (forall t dest q, In (t, HSubmit dest q) h -> exists p d fr, o = NRun p d /\ p_cur (n_proc n p) = Some fr /\ t = f_run fr) ->
  map snd (called n o (nest workers body n o)) = submits h.
Proof.
  intros E S. destruct o as [p dest|src p|src p]; cbn [called].
  - rewrite E, skipn_app_len. clear. unfold submits. induction h as [|[t e] h IH]; auto. cbn [flat_map]. rewrite map_app, IH. destruct e; reflexivity.
  - destruct (submits h) as [|q l] eqn:F; auto. assert (I : In q (submits h)) by (rewrite F; simpl; auto). apply in_submits in I as (t & dest & I).
    destruct (S _ _ _ I) as (? & ? & ? & ? & _). discriminate.
  - destruct (submits h) as [|q l] eqn:F; auto. assert (I : In q (submits h)) by (rewrite F; simpl; auto). apply in_submits in I as (t & dest & I).
    destruct (S _ _ _ I) as (? & ? & ? & ? & _). discriminate.
Qed.

Lemma in_called n o n' p q : In (p, q) (called n o n') -> exists d t dest, o = NRun p d /\ In (t, HSubmit dest q) (skipn (length (n_hist n)) (n_hist n')).
Proof.
  destruct o as [p' d|src p'|src p']; simpl; try tauto. intros I. apply in_flat_map in I as ([t e] & I & J). simpl in J. destruct e; simpl in J; try tauto.
  destruct J as [J|[]]. inversion J; subst. eauto.
Qed.

Lemma first_len src l ds r : first_of src l = Some (ds, r) -> length l = S (length r).
Proof.
  revert ds r. induction l as [|[s x] l IH]; intros ds r E; simpl in E; [discriminate|]. destruct (Nat.eqb s src).
  - apply Some_inj in E. apply pair_inj in E as [_ <-]. reflexivity.
  - destruct (first_of src l) as [[y r']|] eqn:F; [|discriminate]. apply Some_inj in E. apply pair_inj in E as [_ <-]. simpl. f_equal. eapply IH. reflexivity.
Qed.

Lemma scan_count f : forall i s, mcount (scan f i s) = mcount s /\ mstopped (scan f i s) = mstopped s.
Proof.
  induction f as [|f IH]; intros i s; cbn [scan]; auto. destruct (nth_error (mawaited s) i); auto. destruct (did_in _ (mcompleted s)); auto.
  cbn zeta. destruct (_ =? _)%Z; match goal with |- mcount (scan f i ?x) = _ /\ _ => destruct (IH i x) as [-> ->] end; auto.
Qed.

Lemma done_count c s src ds m : mstopped s = false -> mon_step c s (MDone src ds) = Some m -> mcount m = S (mcount s) /\ mstopped m = false.
Proof.
  intros Z E. unfold mon_step in E. rewrite Z in E. apply Some_inj in E as <-. unfold process_waits.
  match goal with |- mcount (scan ?f ?i ?x) = _ /\ _ => destruct (scan_count f i x) as [-> ->] end. auto.
Qed.

Lemma dead_step n o p : n_dead n p = true -> n_dead (nest workers body n o) p = true.
Proof.
  intros D. assert (L : forall q x ch h, n_dead (looped n q x ch h) p = true).
  { intros q x ch h. destruct x as [[s [i|]]|]; cbn [looped put_proc kill n_dead]; auto. unfold upd. destruct (Nat.eqb p q); auto. }
  assert (A : n_dead (nstep workers body n o) p = true).
  { destruct o as [q dest|src q|src q]; cbn [nstep].
    - destruct (p_cur (n_proc n q)) as [fr|]; auto. destruct (n_dead n q); auto. destruct (f_get fr); auto. destruct (f_act fr); auto.
      + destruct (f_rest fr); auto.
      + destruct (call_api _ _ _ _ _ _) as [[[[? ?] ?] ?]|]; auto.
      + destruct (call_api _ _ _ _ _ _) as [[[[? ?] ?] ?]|]; auto.
      + destruct (call_api _ _ _ _ _ _) as [[[[? ?] ?] ?]|]; auto.
    - destruct (n_chan n src q); auto. destruct (p_cur (n_proc n q)); auto. destruct (Nat.eqb q 0 || n_dead n q); auto.
    - destruct (n_rep n src q) as [|[d v] rs]; auto. destruct (p_cur (n_proc n q)) as [fr|]; auto. destruct (f_get fr); auto. destruct (f_act fr); auto.
      destruct (receive _ _ _ _ _ _); auto. }
  destruct o as [q dest|src q|src q]; auto. cbn [nest]. destruct (n_chan n src q) as [|[] ms]; auto; destruct (p_cur (n_proc n q)); auto.
  destruct (Nat.eqb q 0 || n_dead n q); auto.
Qed.

Lemma alive_before n o : nobody_dead (nest workers body n o) -> nobody_dead n.
Proof. intros A p. destruct (n_dead n p) eqn:D; auto. apply (dead_step n o) in D. rewrite A in D. discriminate. Qed.

Lemma ki_step k o : KI k -> KI (kstep workers body k o).
Proof using body_ok.
  intros K. destruct o as [o|src|p d|p|p ds]; cbn [kstep].
  - destruct (busy k o); auto. destruct (nest_events workers body (k_n k) o) as (h & E & R1 & R2 & R3). cbn zeta in *.
    assert (Bs := base_nest _ o (ki_base _ K)). assert (Cl := called_snd (k_n k) o h E R3). destruct (ki_calls _ K) as [S1 S2].
    constructor; unfold prog_step; cbn [k_n k_tasks k_done k_mon k_asked k_calls k_sent].
    + exact Bs.
    + split.
      * rewrite map_app, S1, Cl, E, submits_app. reflexivity.
      * intros p q I. rewrite E. apply in_app_or in I as [I|I].
        -- destruct (S2 _ _ I) as (t & dest & J & Z). exists t, dest. split; auto. apply in_or_app. auto.
        -- apply in_called in I as (d & t & dest & Eo & I). rewrite E, skipn_app_len in I. destruct (R3 _ _ _ I) as (p' & d' & fr & Eo' & C & ->).
           rewrite Eo in Eo'. inversion Eo'; subst. exists (f_run fr), dest. split; [apply in_or_app; auto|].
           apply (frame_zero _ _ _ (b_ni _ (ki_base _ K)) (b_rm _ (ki_base _ K)) C).
    + intros p. rewrite mine_app, app_length, (ki_tasks _ K). reflexivity.
    + rewrite E, ends_app, !app_length. assert (X := ki_count _ K). lia.
    + intros A. rewrite E, ends_app, !app_length. assert (X := ki_exact _ K (alive_before _ _ A)). specialize (R2 A). lia.
    + apply (ki_stop _ K).
    + apply (ki_asked _ K).
    + apply (ki_sent _ K).
  - unfold done_step. destruct (first_of src (k_done k)) as [[ds r]|] eqn:F; auto. apply first_len in F.
    assert (M : exists m, mon_step (mon_cfg workers) (k_mon k) (MDone src ds) = Some m).
    { unfold mon_step. rewrite (ki_stop _ K). eauto. }
    destruct M as [m M]. rewrite M. destruct (done_count _ _ _ _ _ (ki_stop _ K) M) as [M1 M2].
    assert (X := ki_count _ K). destruct K. constructor; cbn [k_n k_tasks k_done k_mon k_asked k_calls k_sent]; auto; try lia.
    + intros A. specialize (ki_exact0 A). lia.
    + intros p c A. specialize (ki_asked0 p c A). lia.
  - destruct (Nat.eqb (fst d) p); auto. destruct K. constructor; cbn [k_n k_tasks k_done k_mon k_asked k_calls k_sent]; auto.
    apply base_with; auto. intros. eapply forgets_store; eauto.
  - destruct (between k p); auto. destruct K. constructor; cbn [k_n k_tasks k_done k_mon k_asked k_calls k_sent]; auto.
    intros p' c. unfold upd. destruct (Nat.eqb p' p); [|apply ki_asked0]. intros A. apply Some_inj in A as <-. auto.
  - destruct (k_asked k p) as [c|] eqn:A; auto. assert (Ka := ki_asked _ K _ _ A). assert (Kt := ki_tasks _ K p). assert (Kc := ki_count _ K).
    assert (Kb := ki_base _ K). assert (Ks := ki_calls _ K). destruct K. constructor; cbn [k_n k_tasks k_done k_mon k_asked k_calls k_sent]; auto.
    + apply base_with; auto.
      * intros a b m I. destruct (Nat.eqb a p); auto. apply in_app_or in I as [I|I]; auto. right. exists ds. destruct (Nat.eqb c (k_tasks k p)); [|destruct I].
        eapply cleans_only; eauto.
      * intros a b i. destruct (Nat.eqb a p); auto. rewrite execs_app, count_occ_app. destruct (Nat.eqb c (k_tasks k p)); [rewrite no_execs|]; simpl; lia.
    + intros p' c'. unfold upd. destruct (Nat.eqb p' p); [discriminate|apply ki_asked0].
    + intros u I. destruct (Nat.eqb c (k_tasks k p)) eqn:Q; auto. apply in_app_or in I as [I|[<-|[]]]; auto. cbn [u_hist u_calls u_by].
      exists (k_n k). split; [exact Kb|]. split; auto. split; [exact Ks|]. apply Nat.eqb_eq in Q. lia.
Qed.

Lemma ki_init mgr : KI (kinit mgr main).
Proof using main_ok.
  constructor; cbn [kinit k_n k_tasks k_done k_mon k_asked k_calls k_sent]; auto.
  - constructor; [apply ni_init; auto| |apply once_init|apply fresh_init|].
    + intros t L. simpl in L. left. split; [lia|]. assert (t = 0) by lia. subst t. exists main. constructor.
    + intros fr E. simpl in E. apply Some_inj in E as <-. reflexivity.
  - split; auto. intros p q [].
  - intros p c E. discriminate.
  - intros u [].
Qed.

Theorem run_ki mgr ops : KI (krun workers body mgr main ops).
Proof using body_ok main_ok.
  unfold krun. assert (K := ki_init mgr). revert K. generalize (kinit mgr main). induction ops as [|o ops IH]; intros k K; simpl; auto.
  apply IH. apply ki_step. auto.
Qed.

(** ** Counting *)

Lemma base_ends n : Base n -> NoDup (ends (n_hist n)).
Proof.
  intros B. apply (NoDup_count_occ Nat.eq_dec). intros t. rewrite count_ends. destruct (Nat.lt_ge_cases t (n_runs n)) as [L|L].
  - destruct (b_ti _ B t L) as [(_ & a & F)|(_ & p & q & f & l & a & e & _ & T & F & C)].
    + rewrite (follows_no_end _ _ _ F). lia.
    + rewrite T. assert (X := follows_no_end _ _ _ F). unfold hends in *. simpl. rewrite flat_map_app, app_length, X. destruct C as [->|(r & _ & ->)]; simpl; lia.
  - rewrite (trace_none _ _ (ni_new _ _ _ (b_ni _ B)) t L). cbn. auto.
Qed.

Lemma base_started n t : Base n -> In t (ends (n_hist n)) -> exists i, In (t, HStart i) (n_hist n) /\ In i (tasks_of (n_hist n)).
Proof.
  intros B I. apply ends_trace in I as (r & I). assert (L : t < n_runs n). { apply in_trace in I. apply (ni_new _ _ _ (b_ni _ B)) in I. exact I. }
  destruct (b_ti _ B t L) as [(_ & a & F)|(_ & p & q & f & l & a & e & R & T & F & C)].
  - exfalso. apply follows_no_end in F. unfold hends in F. clear - I F. induction (trace (n_hist n) t) as [|x l IH]; [destruct I|].
    destruct I as [->|I]; [discriminate F|]. apply IH; [exact I|]. destruct x; simpl in F; auto; discriminate.
  - exists (q_id q). split; [apply in_trace; rewrite T; simpl; auto|]. destruct R as (t' & q0 & fd & J & E & _). rewrite E, tasks_submits.
    apply in_map. apply in_submits. eauto.
Qed.

Lemma base_start n t t' i i' : Base n -> In (t, HStart i) (n_hist n) -> In (t', HStart i') (n_hist n) -> (t = t' <-> i = i').
Proof.
  intros B X Y. split.
  - intros <-. apply in_trace in X, Y. assert (L : t < n_runs n). { apply in_trace in X. apply (ni_new _ _ _ (b_ni _ B)) in X. exact X. }
    destruct (b_ti _ B t L) as [(_ & a & F)|(_ & p & q & f & l & a & e & R & T & F & C)].
    + exfalso. clear - F X. induction F; simpl in X; auto; destruct X as [X|X]; try discriminate; auto.
    + rewrite T in X, Y. assert (Z : forall j, In (HStart j) (l ++ e) -> False).
      { intros j J. apply in_app_or in J as [J|J]; [clear - F J; induction F; simpl in J; auto; destruct J as [J|J]; try discriminate; auto|].
        destruct C as [->|(r & _ & ->)]; [destruct J|]. destruct J as [J|[]]. discriminate. }
      destruct X as [X|X]; [|exfalso; eapply Z; eauto]. destruct Y as [Y|Y]; [|exfalso; eapply Z; eauto]. congruence.
  - intros <-. assert (N : NoDup (starts (n_hist n))). { apply (NoDup_count_occ Nat.eq_dec). intros z. apply (on_one _ (b_once _ B) LS z). }
    assert (E := nodup_flat _ (n_hist n) _ _ i N X Y ltac:(simpl; auto) ltac:(simpl; auto)). congruence.
Qed.

(** Executions that have ended, with different task numbers. *)
Lemma ended_ids n : Base n -> exists ids, length ids = length (ends (n_hist n)) /\ NoDup ids /\ incl ids (tasks_of (n_hist n)) /\
  forall i, In i ids <-> exists t r, In (t, HStart i) (n_hist n) /\ In (t, HEnd r) (n_hist n).
Proof.
  intros B. assert (G : forall l, incl l (ends (n_hist n)) -> NoDup l -> exists ids, length ids = length l /\ NoDup ids /\ incl ids (tasks_of (n_hist n)) /\
    forall i, In i ids <-> exists t, In t l /\ In (t, HStart i) (n_hist n)).
  { induction l as [|t l IH]; intros I N.
    - exists []. split; auto. split; [constructor|]. split; [intros x []|]. intros i. split; [intros []|intros (? & [] & _)].
    - inversion N as [|? ? N1 N2]; subst. destruct IH as (ids & L & D & J & S); auto; [intros x X; apply I; simpl; auto|].
      destruct (base_started n t B) as (i & I1 & I2); [apply I; simpl; auto|]. exists (i :: ids). split; [simpl; auto|]. split; [|split].
      + constructor; auto. intros X. apply S in X as (t' & X1 & X2). assert (E : t = t') by (apply (base_start n t t' i i B I1 X2); auto). subst. auto.
      + intros x [<-|X]; auto.
      + intros j. split.
        * intros [<-|X]; [exists t; simpl; auto|]. apply S in X as (t' & X1 & X2). exists t'. simpl. auto.
        * intros (t' & [<-|X1] & X2); [left; apply (base_start n t t i j B I1 X2); auto|]. right. apply S. eauto. }
  destruct (G (ends (n_hist n)) (incl_refl _) (base_ends n B)) as (ids & L & D & J & S). exists ids. repeat split; auto.
  - intros X. apply S in X as (t & X1 & X2). apply in_ends in X1 as (r & X1). eauto.
  - intros (t & r & X1 & X2). apply S. exists t. split; auto. apply in_ends. eauto.
Qed.

Lemma split_calls p l : length l = length (mine p l) + length (others p l).
Proof. induction l as [|[r q] l IH]; auto. unfold mine, others in *. simpl. destruct (Nat.eqb r p); simpl; lia. Qed.

Lemma sound_nodup n l : Base n -> sound l (n_hist n) -> NoDup (map (fun c => q_id (snd c)) l).
Proof.
  intros B [S _]. rewrite <- (map_map snd q_id), S, <- tasks_submits. apply (fr_tasks _ (b_fresh _ B)).
Qed.

Lemma map_unique {A B} (f : A -> B) l x y : NoDup (map f l) -> In x l -> In y l -> f x = f y -> x = y.
Proof.
  induction l as [|z l IH]; simpl; [tauto|]. intros N X Y E. inversion N as [|? ? N1 N2]; subst.
  destruct X as [->|X], Y as [->|Y]; auto; exfalso; apply N1; [rewrite E|rewrite <- E]; apply in_map; auto.
Qed.

(** The open calls of p are not more than the calls of the others. *)
Lemma few n l p L : Base n -> sound l (n_hist n) -> length (mine p l) <= length (ends (n_hist n)) -> NoDup L ->
  (forall q, In q L -> In (p, q) l /\ ~ finished (n_hist n) q) -> length L <= length (others p l).
Proof.
  intros B S C N O. destruct (ended_ids n B) as (ids & E & D & I & F).
  assert (X : NoDup (ids ++ map q_id L)).
  { apply nodup_app_new; auto.
    - assert (Z := sound_nodup n l B S). clear - Z N O. induction N as [|q L N1 N2 IH]; simpl; constructor.
      + intros X. apply in_map_iff in X as (q' & E & X). destruct (O q ltac:(simpl; auto)) as [A _]. destruct (O q' ltac:(simpl; auto)) as [A' _].
        assert (W := map_unique (fun c => q_id (snd c)) l _ _ Z A' A E). inversion W; subst. auto.
      + apply IH. intros q' J. apply O. simpl. auto.
    - intros i X Y. apply in_map_iff in Y as (q & <- & Y). apply O in Y as [_ Y]. apply Y. apply F in X. exact X. }
  assert (Y : incl (ids ++ map q_id L) (map (fun c => q_id (snd c)) l)).
  { intros i X'. destruct S as [S _]. rewrite <- (map_map snd q_id), S, <- tasks_submits. apply in_app_or in X' as [X'|X']; auto.
    apply in_map_iff in X' as (q & <- & X'). apply O in X' as [X' _]. rewrite tasks_submits, <- S. apply in_map. change q with (snd (p, q)). apply in_map. exact X'. }
  assert (Z := NoDup_incl_length X Y). rewrite app_length, !map_length in Z. assert (W := split_calls p l). lia.
Qed.

(** Everything has ended: the executions are as many as the calls. *)
Lemma all_counted n l : Base n -> sound l (n_hist n) -> (forall t dest q, In (t, HSubmit dest q) (n_hist n) -> finished (n_hist n) q) ->
  length (ends (n_hist n)) = length l.
Proof.
  intros B S A. destruct (ended_ids n B) as (ids & E & D & I & F). assert (N := sound_nodup n l B S). destruct S as [S _].
  rewrite <- (map_map snd q_id), S, <- tasks_submits in N. assert (L : length l = length (tasks_of (n_hist n))) by (rewrite tasks_submits, <- S, !map_length; auto).
  rewrite <- E, L. apply Nat.le_antisymm; apply NoDup_incl_length; auto. intros i J. apply F. rewrite tasks_submits in J. apply in_map_iff in J as (q & <- & J).
  apply in_submits in J as (t & dest & J). apply A in J. exact J.
Qed.

(** Tasks that call no remote function. *)
Lemma callless_follows a l a' : follows a l a' -> callless a -> submits (map (fun e => (0, e)) l) = [] /\ callless a'.
Proof. induction 1; simpl; auto; intros C; try (apply IHfollows; auto); contradiction. Qed.

Lemma callless_task n t dest q : Base n -> (forall f a k, refs a = [] -> refs k = [] -> callless (body f a k)) -> In (t, HSubmit dest q) (n_hist n) -> t = 0.
Proof.
  intros B C I. destruct (Nat.eq_dec t 0) as [|Z]; auto. exfalso. assert (L : t < n_runs n) by (apply (ni_new _ _ _ (b_ni _ B)) in I; exact I).
  apply in_trace in I. destruct (b_ti _ B t L) as [(? & _)|(_ & p & r & f & l & a & e & R & T & F & D)]; [auto|]. rewrite T in I.
  destruct R as (? & ? & ? & _ & _ & _ & _ & _ & _ & _ & R1 & R2).
  assert (E : callless (entered body f r)) by (unfold entered; destruct (failed_arg _ _); simpl; auto).
  destruct (callless_follows _ _ _ F E) as [G _]. destruct I as [I|I]; [discriminate|]. apply in_app_or in I as [I|I].
  - assert (J : In q (submits (map (fun e => (0, e)) l))). { apply in_submits. exists 0, dest. apply in_map_iff. eauto. } rewrite G in J. exact J.
  - destruct D as [->|(x' & _ & ->)]; [destruct I|]. destruct I as [I|[]]; discriminate.
Qed.

(** ** What is claimed *)

Lemma finished_dec H q : finished H q \/ ~ finished H q.
Proof.
  destruct (existsb (fun e => match snd e with HStart i => Nat.eqb i (q_id q) && existsb (Nat.eqb (fst e)) (ends H) | _ => false end) H) eqn:E.
  - left. apply existsb_exists in E as ([t e] & I & J). simpl in J. destruct e; try discriminate. apply andb_prop in J as [J1 J2]. apply Nat.eqb_eq in J1 as ->.
    apply existsb_exists in J2 as (t' & J2 & J3). apply Nat.eqb_eq in J3 as <-. apply in_ends in J2 as (r & J2). exists t, r. auto.
  - right. intros (t & r & I & J). apply Bool.not_true_iff_false in E. apply E. apply existsb_exists. exists (t, HStart (q_id q)). split; auto. simpl.
    rewrite Nat.eqb_refl. simpl. apply existsb_exists. exists t. split; [apply in_ends; eauto|apply Nat.eqb_refl].
Qed.

Section Claims.
Variable mgr : manager.
Variable ops : list kop.
Notation k := (krun workers body mgr main ops).

Theorem open_few u : In u (k_sent k) -> forall L, NoDup L ->
  (forall q, In q L -> In (u_by u, q) (u_calls u) /\ ~ finished (u_hist u) q) -> length L <= length (others (u_by u) (u_calls u)).
Proof using body_ok main_ok.
  intros I L N O. destruct (ki_sent _ (run_ki mgr ops) u I) as (n & B & E & S & C). rewrite <- E in *. eapply few; eauto.
Qed.

Theorem calls_recorded u : In u (k_sent k) -> forall q, (exists p, In (p, q) (u_calls u)) <-> exists t dest, In (t, HSubmit dest q) (u_hist u).
Proof using body_ok main_ok.
  intros I q. destruct (ki_sent _ (run_ki mgr ops) u I) as (n & B & E & [S _] & C). rewrite <- in_submits, <- S, in_map_iff. split.
  - intros (p & J). exists (p, q). auto.
  - intros ([p q'] & <- & J). exists p. auto.
Qed.

Theorem main_calls : (forall f a k, refs a = [] -> refs k = [] -> callless (body f a k)) -> forall u, In u (k_sent k) -> u_by u = 0 ->
  forall t dest q, In (t, HSubmit dest q) (u_hist u) -> finished (u_hist u) q.
Proof using body_ok main_ok.
  intros C u I Z t dest q J. destruct (finished_dec (u_hist u) q) as [|O]; auto. exfalso. destruct (ki_sent _ (run_ki mgr ops) u I) as (n & B & E & S & X). rewrite <- E in *.
  assert (M : forall p q', In (p, q') (u_calls u) -> p = 0).
  { intros p q' K. destruct S as [_ S]. destruct (S _ _ K) as (t' & d' & K1 & K2). apply K2. eapply callless_task; eauto. }
  assert (W : length [q] <= length (others (u_by u) (u_calls u))).
  { eapply few; eauto; [constructor; [intros []|constructor]|]. intros q' [<-|[]]. split; auto. destruct S as [S _].
    assert (K : In q (map snd (u_calls u))) by (rewrite S; apply in_submits; eauto). apply in_map_iff in K as ([p q'] & <- & K). rewrite Z, <- (M _ _ K). exact K. }
  assert (V : others (u_by u) (u_calls u) = []).
  { unfold others. rewrite Z. destruct (filter _ (u_calls u)) as [|[p q'] l] eqn:F; auto. exfalso.
    assert (K : In (p, q') (filter (fun c => negb (Nat.eqb (fst c) 0)) (u_calls u))) by (rewrite F; simpl; auto). apply filter_In in K as [K1 K2].
    rewrite (M _ _ K1) in K2. discriminate. }
  rewrite V in W. simpl in W. lia.
Qed.

(** Objects named by a cleanup of their own process. *)
Theorem objects : (forall f a k, refs a = [] -> refs k = [] -> callless (body f a k)) -> forall u, In u (k_sent k) ->
  (forall d, In d (u_names u) -> fst d = u_by u) ->
  (forall t dest q, In (t, HSubmit dest q) (u_hist u) -> forall d, In d (uses q) -> fst d = 0) ->
  forall t dest q d, In (t, HSubmit dest q) (u_hist u) -> In d (uses q) -> In d (u_names u) -> finished (u_hist u) q.
Proof using body_ok main_ok.
  intros C u I O A t dest q d J U D. eapply main_calls; eauto. rewrite <- (O d D). eapply A; eauto.
Qed.

Theorem gets_right t ds r : In (t, HGet ds r) (n_hist (k_n k)) ->
  match r with
  | GVals vs => Forall2 (means body (n_hist (k_n k))) ds vs
  | GRaise e => exists d, In d ds /\ means body (n_hist (k_n k)) d (VExc e)
  | GError => True
  end.
Proof using body_ok main_ok. intros I. apply (ni_good _ _ _ (b_ni _ (ki_base _ (run_ki mgr ops)))) in I. destruct r; exact I. Qed.

Theorem one_value d v v' : means body (n_hist (k_n k)) d v -> means body (n_hist (k_n k)) d v' -> v = v'.
Proof using body_ok main_ok.
  intros [j A] [j' B]. assert (S := ki_base _ (run_ki mgr ops)). eapply means_unique; eauto; [apply (fr_made _ (b_fresh _ S))|].
  intros t t' i l l' X Y. set (H := n_hist _) in *.
  assert (In' : forall x y, trace H x = HStart i :: y -> In (x, HStart i) H).
  { intros x y E. assert (J : In (HStart i) (trace H x)) by (rewrite E; simpl; auto). unfold trace in J. apply in_flat_map in J as ([a b] & J1 & J2). simpl in J2.
    destruct (Nat.eqb a x) eqn:Z; [|destruct J2]. destruct J2 as [<-|[]]. apply Nat.eqb_eq in Z as <-. auto. }
  apply In' in X, Y. assert (N : NoDup (starts H)).
  { apply (NoDup_count_occ Nat.eq_dec). intros z. apply (on_one _ (b_once _ S) LS z). }
  assert (E := nodup_flat _ H _ _ i N X Y ltac:(simpl; auto) ltac:(simpl; auto)). congruence.
Qed.

(** When everything has ended. *)
Theorem when_all_ended ds : let n := k_n k in between k 0 = true -> k_done k = [] -> (forall p, n_dead n p = false) ->
  (forall t dest q, In (t, HSubmit dest q) (n_hist n) -> finished (n_hist n) q) ->
  let k' := kstep workers body (kstep workers body k (KAsk 0)) (KClean 0 ds) in
  ((forall t dest q, In (t, HSubmit dest q) (n_hist n) -> t = 0) ->
   k_sent k' = k_sent k ++ [{| u_by := 0; u_names := ds; u_calls := k_calls k; u_hist := n_hist n |}]) /\
  (forall t dest q, In (t, HSubmit dest q) (n_hist n) -> t <> 0 -> k_sent k' = k_sent k).
Proof using body_ok main_ok.
  intros n Bt D A F. assert (K := run_ki mgr ops). cbn zeta. cbn [kstep]. rewrite Bt. cbn [k_asked]. rewrite upd_same. cbn [k_sent k_tasks k_calls k_n].
  assert (C := all_counted _ _ (ki_base _ K) (ki_calls _ K) F). assert (X := ki_exact _ K A). rewrite D in X. simpl in X. rewrite C in X.
  assert (T := ki_tasks _ K 0). assert (W := split_calls 0 (k_calls k)). destruct (ki_calls _ K) as [S1 S2].
  assert (Zr : forall t dest q, In (t, HSubmit dest q) (n_hist n) -> t <> 0 -> exists p, In (p, q) (k_calls k)).
  { intros t dest q I _. assert (J : In q (map snd (k_calls k))) by (rewrite S1; apply in_submits; eauto). apply in_map_iff in J as ([p q'] & <- & J). eauto. }
  split.
  - intros Z. assert (V : others 0 (k_calls k) = []).
    { unfold others. destruct (filter _ (k_calls k)) as [|[p q'] l] eqn:Fl; auto. exfalso.
      assert (Kx : In (p, q') (filter (fun c => negb (Nat.eqb (fst c) 0)) (k_calls k))) by (rewrite Fl; simpl; auto). apply filter_In in Kx as [K1 K2].
      destruct (S2 _ _ K1) as (t & dest & I & E). apply Z in I. apply E in I. subst p. discriminate. }
    rewrite V in W. simpl in W. replace (Nat.eqb (mcount (k_mon k)) (k_tasks k 0)) with true by (symmetry; apply Nat.eqb_eq; lia). reflexivity.
  - intros t dest q I Nz. destruct (Zr _ _ _ I Nz) as [p J]. assert (V : others 0 (k_calls k) <> []).
    { assert (Np : p <> 0). { intros ->. destruct (S2 _ _ J) as (t' & dest' & I' & E).
        assert (Y : (t, HSubmit dest q) = (t', HSubmit dest' q)).
        { assert (N := fr_tasks _ (b_fresh _ (ki_base _ K))). unfold tasks_of in N. eapply (nodup_flat _ _ _ _ (q_id q) N I I'); simpl; auto. }
        inversion Y; subst. apply Nz. apply E. reflexivity. }
      intros V. assert (Y : In (p, q) (others 0 (k_calls k))). { apply filter_In. split; auto. simpl. destruct p; [congruence|reflexivity]. } rewrite V in Y. exact Y. }
    destruct (others 0 (k_calls k)) as [|c l]; [congruence|]. simpl in W. destruct (Nat.eqb (mcount (k_mon k)) (k_tasks k 0)) eqn:Q; auto. apply Nat.eqb_eq in Q. lia.
Qed.

End Claims.
End Inv.
