(** C61. *)
From Verif Require Import Lib ValModel ShmModel ShmRaceProofs PushModel PushProofs WorkerModel WorkerSpec WorkerProofs WorkerLog
  WorkerTrace WorkerReady WorkerAnswer WorkerOrder WorkerThms WorkerSends WorkerDone WorkerFew MonModel ShutProofs
  ClusterModel ClusterSpec ClusterSeq ClusterProofs ClusterCount ActModel ActSpec ActGives ActProofs ActCount.
From Coq Require Import Permutation.

Lemma good_cut body mbody m r : forall x, Good body mbody x -> forall l, x = l ++ EvIn m :: r -> Good body mbody l.
Proof.
  revert r. intros r0 x G. revert r0. induction G as [|l e Oe G IH|l q c args kwargs st G IH Q C F1 F2 R1 R2 Rs]; intros r x E.
  - destruct x; discriminate.
  - destruct r as [|z r] using rev_ind.
    + apply app_inj_tail in E as [<- _]. auto.
    + change (EvIn m :: r ++ [z]) with ((EvIn m :: r) ++ [z]) in E. rewrite app_assoc in E.
      apply app_inj_tail in E as [E _]. eauto.
  - symmetry in E. apply app_split in E as [(u & -> & _)|(u & -> & X)]; [eauto|]. exfalso.
    assert (N : In (EvIn m) (ev_run (q_id q) c args kwargs ++ EvEnd (q_id q) (result_of body mbody l c args kwargs) :: ev_stores st)).
    { rewrite X. apply in_or_app. simpl; auto. }
    apply in_app_or in N as [N|[N|N]]; [|discriminate|].
    + unfold ev_run in N. destruct (failed_arg args kwargs); simpl in N; intuition discriminate.
    + unfold ev_stores in N. apply in_map_iff in N as ([? ?] & N & _). discriminate.
Qed.

(** A list whose parts give the elements of another. *)
Lemma flat_split {A B} (f : A -> list B) (one : forall a, f a = [] \/ exists b, f a = [b]) l : forall x b y,
  flat_map f l = x ++ b :: y -> exists l1 a l2, l = l1 ++ a :: l2 /\ f a = [b] /\ flat_map f l1 = x /\ flat_map f l2 = y.
Proof.
  induction l as [|a l IH]; intros x b y E; simpl in E; [destruct x; discriminate|].
  destruct (one a) as [Z|(b' & Z)]; rewrite Z in E; simpl in E.
  - destruct (IH x b y E) as (l1 & a' & l2 & -> & H1 & H2 & H3). exists (a :: l1), a', l2. simpl. rewrite Z, H2. auto.
  - destruct x as [|x0 x]; simpl in E; injection E as -> E.
    + exists [], a, l. auto.
    + destruct (IH x b y E) as (l1 & a' & l2 & -> & H1 & H2 & H3). exists (a :: l1), a', l2. simpl. rewrite Z, H2. auto.
Qed.

Lemma requests_split l x q y : requests l = x ++ q :: y ->
  exists l1 m l2, l = l1 ++ m :: l2 /\ requests [m] = [q] /\ requests l1 = x /\ requests l2 = y.
Proof.
  intros H. apply flat_split in H as (l1 & m & l2 & E & M & X & Y).
  - exists l1, m, l2. repeat split; auto. simpl. rewrite app_nil_r. auto.
  - intros a. destruct a; eauto.
Qed.

Lemma inputs_split l x m y : inputs l = x ++ m :: y -> exists l1 l2, l = l1 ++ EvIn m :: l2 /\ inputs l1 = x /\ inputs l2 = y.
Proof.
  intros H. apply flat_split in H as (l1 & e & l2 & E & M & X & Y).
  - destruct e; try discriminate. injection M as ->. eauto.
  - intros a. destruct a; eauto.
Qed.

(** Where an element occurs is determined. *)
Lemma prefix_until {A} (x : A) a c p r : NoDup (a ++ x :: c) -> p ++ r = a ++ x :: c -> In x p -> exists s, p = a ++ x :: s.
Proof.
  revert p. induction a as [|y a IH]; intros p N E I; destruct p as [|z p]; try destruct I; simpl in *; try congruence.
  - injection E as -> _. eauto.
  - injection E as -> _. eauto.
  - subst z. injection E as -> E. exfalso. inversion N; subst. apply H1. apply in_or_app. simpl; auto.
  - injection E as -> E. inversion N; subst. destruct (IH p H3 E H) as (s & ->). eauto.
Qed.

(** A request that has ended was carried out, unless an argument was an exception. *)
Lemma ended_carried body mbody l n : Good body mbody l -> In n (ended l) ->
  exists q c args kwargs, In q (received l) /\ q_id q = n /\ callee_of l q c /\
    fill (stored l) (q_args q) args /\ fill (stored l) (q_kwargs q) kwargs /\ refs args = [] /\ refs kwargs = [] /\
    (failed_arg args kwargs = None -> forall m, c = CMethod m -> In n (map fst (carried l))).
Proof.
  intros G. induction G as [|l e Oe G IH|l q c args kwargs st G IH Q C F1 F2 R1 R2 Rs]; intros I; [destruct I| |].
  - rewrite ended_app in I. apply in_app_or in I as [I|I]; [|destruct e; simpl in Oe, I; tauto].
    destruct (IH I) as (q & c & args & kwargs & A1 & A2 & A3 & A4 & A5 & Ra & Rk & A6). exists q, c, args, kwargs.
    rewrite carried_app, map_app. repeat split; auto.
    + unfold received. rewrite flat_map_app. apply in_or_app; auto.
    + apply callee_app; auto.
    + eapply fill_mono; [|eauto]. intros d x X. apply stored_app; auto.
    + eapply fill_mono; [|eauto]. intros d x X. apply stored_app; auto.
    + intros X m Y. apply in_or_app. left. eauto.
  - set (blk := ev_run _ _ _ _ ++ _) in *. rewrite ended_app in I. apply in_app_or in I as [I|I].
    + destruct (IH I) as (q' & c' & args' & kwargs' & A1 & A2 & A3 & A4 & A5 & Ra & Rk & A6). exists q', c', args', kwargs'.
      rewrite carried_app, map_app. repeat split; auto.
      * unfold received. rewrite flat_map_app. apply in_or_app; auto.
      * apply callee_app; auto.
      * eapply fill_mono; [|eauto]. intros d x X. apply stored_app; auto.
      * eapply fill_mono; [|eauto]. intros d x X. apply stored_app; auto.
      * intros X m Y. apply in_or_app. left. eauto.
    + assert (En : q_id q = n).
      { unfold blk in I. rewrite ended_app, ended_run in I. simpl in I. fold (ended (ev_stores st)) in I.
        rewrite ended_stores in I. destruct I as [I|[]]. auto. }
      exists q, c, args, kwargs. rewrite carried_app, map_app. repeat split; auto.
      * unfold received. rewrite flat_map_app. apply in_or_app; auto.
      * apply callee_app; auto.
      * eapply fill_mono; [|eauto]. intros d x X. apply stored_app; auto.
      * eapply fill_mono; [|eauto]. intros d x X. apply stored_app; auto.
      * intros X m ->. apply in_or_app. right. unfold blk, ev_run. rewrite X. simpl. auto.
Qed.

Section Thms.
Variable workers : list rank.
Variable body : val -> val -> val -> result.
Variable mbody : list call -> call -> result.
Variable is_async : callee -> bool.
Hypothesis body_ok : forall f a k, no_refs_returned (body f a k).
Hypothesis mbody_ok : forall h c, no_refs_returned (mbody h c).
Notation grun := (grun workers body mbody is_async).
Notation gstep := (gstep workers body mbody is_async).
Notation AB := (AB body mbody is_async).

Lemma got_values mgr ops : let g := grun mgr ops in gvalid (g_prog g) ->
  forall ds vs, In (RGot ds vs) (c_seen (g_c g)) -> Forall2 (gives body mbody (g_prog g) (history_of g)) ds vs.
Proof.
  cbv zeta. intros V ds vs I. exact (ab_seen _ _ _ _ _ (run_ab workers body mbody is_async body_ok mbody_ok mgr ops V) _ I).
Qed.

Lemma raised_values mgr ops : let g := grun mgr ops in gvalid (g_prog g) ->
  forall ds e, In (RRaised ds e) (c_seen (g_c g)) -> exists d, In d ds /\ gives body mbody (g_prog g) (history_of g) d (VExc e).
Proof.
  cbv zeta. intros V ds e I. exact (ab_seen _ _ _ _ _ (run_ab workers body mbody is_async body_ok mbody_ok mgr ops V) _ I).
Qed.

Lemma history_once mgr ops : let g := grun mgr ops in gvalid (g_prog g) -> forall w, NoDup (map fst (history_of g w)).
Proof.
  cbv zeta. intros V. exact (hist_once body mbody is_async body_ok mbody_ok _ _ V (run_ab workers body mbody is_async body_ok mbody_ok mgr ops V)).
Qed.

Lemma stores_give_all mgr ops : let g := grun mgr ops in gvalid (g_prog g) ->
  (forall d v, c_vals (g_c g) d = Some v -> gives body mbody (g_prog g) (history_of g) d v) /\
  (forall w d v, w <> 0 -> store (c_work (g_c g) w) d = Some v -> gives body mbody (g_prog g) (history_of g) d v).
Proof.
  cbv zeta. intros V. assert (B := run_ab workers body mbody is_async body_ok mbody_ok mgr ops V).
  set (g := grun mgr ops) in *. clearbody g. split; [intros d v; apply B|].
  intros w d v W0 S.
  assert (Oi : forall m, In m (map snd (c_in (g_c g) w)) -> aokm body mbody is_async (g_prog g) (hist (g_c g)) w m).
  { intros m M. apply in_map_iff in M as ([s y] & <- & M). eapply ab_in; eauto. }
  destruct (worker_gives body mbody is_async body_ok mbody_ok (g_prog g) (hist (g_c g)) w _ _ V
    (hist_once body mbody is_async body_ok mbody_ok _ _ V B) Oi (ab_run _ _ _ _ _ B w W0)) as (W & _ & _ & _ & G).
  - exists []. rewrite app_nil_r. auto.
  - apply G. apply W. auto.
Qed.

Lemma one_value mgr ops : let g := grun mgr ops in gvalid (g_prog g) ->
  forall d v v', gives body mbody (g_prog g) (history_of g) d v -> gives body mbody (g_prog g) (history_of g) d v' -> v = v'.
Proof.
  cbv zeta. intros V d v v' G G'. assert (B := run_ab workers body mbody is_async body_ok mbody_ok mgr ops V).
  eapply gives_fun; eauto. apply (hist_once body mbody is_async body_ok mbody_ok _ _ V B).
Qed.

(** Steps extend histories. *)
Lemma step_hist g o : AB (g_prog g) (g_c g) -> gvalid (g_prog g) -> grows (history_of g) (history_of (gstep g o)).
Proof.
  intros B V.
  assert (Same : forall c c', c_work c' = c_work c -> grows (hist c) (hist c')).
  { intros c c' E w. exists []. unfold hist. rewrite E, app_nil_r. auto. }
  assert (Dl : forall src dst m ch, dst <> 0 -> (forall d v, m = WPut d v -> refs v = []) ->
    grows (hist (g_c g)) (hist (deal body mbody is_async (g_c g) src dst m ch))).
  { intros src dst m ch D0 Om. unfold deal. destruct (wstep _ _ _ _ _ _) as [w'|] eqn:St; [|apply Same; auto].
    intros w. unfold hist. simpl. destruct (Nat.eqb_spec w dst) as [->|]; [|exists []; rewrite app_nil_r; auto].
    destruct (ainbox body mbody is_async body_ok mbody_ok (g_prog g) (hist (g_c g)) dst (map snd (c_in (g_c g) dst)) V) as (N & NC).
    { intros x X. apply in_map_iff in X as ([s y] & <- & X). eapply ab_in; eauto. }
    assert (W : WI body mbody (c_work (g_c g) dst)).
    { apply (wrun_wi dst body mbody is_async body_ok mbody_ok (map snd (c_in (g_c g) dst)) winit); auto; [apply wi_init | apply B; auto]. }
    assert (Rd := run_inputs dst body mbody is_async body_ok mbody_ok _ winit _ (wi_init _ _) N NC eq_refl (ab_run _ _ _ _ _ B dst D0)).
    destruct (step_own dst body mbody is_async body_ok mbody_ok (c_work (g_c g) dst) m w' W) as (t & L & _); auto; [apply Rd|].
    rewrite L, carried_app. eauto. }
  destruct o; simpl.
  - destruct (c_left (g_c g)); [|apply grows_refl]. apply Same. destruct p as [o|]; [|reflexivity]. cbn [g_c].
    unfold root_step. repeat match goal with |- context [match ?x with _ => _ end] => destruct x end; reflexivity.
  - change (grows (hist (g_c g)) (hist (gtake body mbody is_async (g_c g) src dst))).
    unfold gtake. destruct (c_chan (g_c g) src dst) as [|m l] eqn:Ch; [apply grows_refl|].
    destruct (dst =? 0) eqn:D0; simpl; [apply grows_refl|]. apply Nat.eqb_neq in D0.
    destruct (c_dead (g_c g) dst); [apply grows_refl|]. apply Dl; auto.
    intros d v ->. assert (X : aokm body mbody is_async (g_prog g) (hist (g_c g)) dst (WPut d v)).
    { apply (ab_chan _ _ _ _ _ B src dst). rewrite Ch; simpl; auto. }
    eapply gives_clean; eauto.
  - apply Same. simpl. unfold reply. destruct (c_left (g_c g)); auto. destruct (c_chan (g_c g) src 0) as [|[] l]; auto.
  - apply Same. simpl. unfold done. destruct (c_done (g_c g) src); auto.
  - change (grows (hist (g_c g)) (hist (finish body mbody is_async (g_c g) dst i))).
    unfold finish. destruct (nth_error _ _); [|apply grows_refl].
    destruct (dst =? 0) eqn:D0; simpl; [apply grows_refl|]. apply Nat.eqb_neq in D0.
    destruct (c_dead (g_c g) dst); [apply grows_refl|]. apply Dl; auto. discriminate.
Qed.

Lemma grows_trans a b c : grows a b -> grows b c -> grows a c.
Proof. clear. intros X Y w. destruct (X w) as (l & L), (Y w) as (l' & L'). exists (l ++ l'). rewrite L', L, app_assoc. auto. Qed.

Lemma run_grows mgr ops more : gvalid (g_prog (grun mgr (ops ++ more))) ->
  grows (history_of (grun mgr ops)) (history_of (grun mgr (ops ++ more))) /\
  exists l, g_prog (grun mgr (ops ++ more)) = g_prog (grun mgr ops) ++ l.
Proof.
  induction more as [|o more IH] using rev_ind; intros V.
  - rewrite app_nil_r. split; [apply grows_refl|]. exists []. rewrite app_nil_r. auto.
  - rewrite app_assoc, grun_snoc in *. destruct (gprog_grows workers body mbody is_async (grun mgr (ops ++ more)) o) as (l & L).
    assert (V0 : gvalid (g_prog (grun mgr (ops ++ more)))) by (rewrite L in V; eapply gvalid_prefix; eauto).
    destruct (IH V0) as (G & l' & L'). split.
    + eapply grows_trans; [exact G|]. apply step_hist; auto. apply run_ab; auto.
    + rewrite L, L', <- app_assoc. eauto.
Qed.

Lemma values_stay mgr ops more : gvalid (g_prog (grun mgr (ops ++ more))) ->
  forall d v, gives body mbody (g_prog (grun mgr ops)) (history_of (grun mgr ops)) d v ->
  gives body mbody (g_prog (grun mgr (ops ++ more))) (history_of (grun mgr (ops ++ more))) d v.
Proof.
  intros V d v G. destruct (run_grows mgr ops more V) as (H & l & L). rewrite L. eapply gives_mono; eauto.
Qed.

(** What the actors of a worker have carried out are calls of the program, with the values of their arguments. *)
Lemma history_real mgr ops : let g := grun mgr ops in gvalid (g_prog g) -> forall w n x, In (n, x) (history_of g w) ->
  exists nd q m env, In (GC w nd q) (g_prog g) /\ q_id q = n /\ q_fn q = FMethod m /\
    (forall d, In d (qrefs q) -> gives body mbody (g_prog g) (history_of g) d (env d)) /\
    x = {| c_method := m; c_args := subst env (q_args q); c_kwargs := subst env (q_kwargs q) |}.
Proof.
  cbv zeta. intros V w n x I. assert (B := run_ab workers body mbody is_async body_ok mbody_ok mgr ops V).
  set (g := grun mgr ops) in *. clearbody g. set (H := history_of g) in *.
  assert (W0 : w <> 0).
  { intros ->. unfold H, history_of in I. rewrite (ab_zero _ _ _ _ _ B) in I. destruct I. }
  assert (Oi : forall m, In m (map snd (c_in (g_c g) w)) -> aokm body mbody is_async (g_prog g) H w m).
  { intros m M. apply in_map_iff in M as ([s y] & <- & M). eapply ab_in; eauto. }
  assert (R := ab_run _ _ _ _ _ B w W0).
  assert (NH := hist_once body mbody is_async body_ok mbody_ok _ _ V B).
  destruct (ainbox body mbody is_async body_ok mbody_ok _ H w _ V Oi) as (N & NC).
  destruct (worker_gives body mbody is_async body_ok mbody_ok _ H w _ _ V NH Oi R) as (_ & _ & Inp & _ & G).
  { exists []. rewrite app_nil_r. auto. }
  unfold H, history_of, carried in I. apply in_flat_map in I as (e & I & E).
  destruct e; try (simpl in E; tauto). destruct c; [simpl in E; tauto|]. destruct E as [E|[]].
  apply pair_inj in E as [-> <-].
  apply in_split in I as (l1 & l2 & L).
  destruct (runs_filled w body mbody is_async body_ok mbody_ok _ _ N R _ _ _ _ _ _ L) as (q & Q & <- & C & Fa & Fk & Ra & Rk).
  assert (Q' : In q (received (log (c_work (g_c g) w)))).
  { rewrite L. unfold received. rewrite flat_map_app. apply in_or_app; auto. }
  rewrite received_inputs, Inp in Q'. apply requests_in in Q'.
  assert (Pq : exists nd, In (GC w nd q) (g_prog g)).
  { unfold callee_of in C. destruct Q' as [Q'|Q']; apply Oi in Q'; simpl in Q'; auto.
    destruct (gv_task _ V w q Q') as (fd & Fd). rewrite Fd in C. destruct C as (f & _ & C). discriminate. }
  destruct Pq as (nd & Pq). destruct (gv_call _ V w nd q Pq) as (mm & Fm).
  unfold callee_of in C. rewrite Fm in C. injection C as ->.
  assert (S1 : forall d y, stored l1 d y -> gives body mbody (g_prog g) H d y).
  { intros d y S. apply G. rewrite L. apply stored_app. auto. }
  destruct (choose (gives body mbody (g_prog g) H) (qrefs q)) as (env & Env).
  { intros d D. unfold qrefs in D. apply in_app_or in D as [D|D];
      [destruct (fill_found _ _ _ Fa Ra d D) as (y & Y) | destruct (fill_found _ _ _ Fk Rk d D) as (y & Y)]; eauto. }
  exists nd, q, mm, env. repeat split; auto. f_equal.
  - apply (fill_subst _ _ _ _ Fa Ra). intros d y D S. eapply gives_fun; eauto. apply Env. apply in_or_app; auto.
  - apply (fill_subst _ _ _ _ Fk Rk). intros d y D S. eapply gives_fun; eauto. apply Env. apply in_or_app; auto.
Qed.

End Thms.
