(** Which worker gets a task, and why some worker can always go on. *)
From Verif Require Import Lib ValModel PyseqModel PyseqSpec PympModel PympSpec.

Lemma upd_same : forall {A} (f : nat -> A) k x, upd f k x k = x.
Proof. intros. unfold upd. rewrite Nat.eqb_refl. auto. Qed.

Lemma upd_other : forall {A} (f : nat -> A) k x i, i <> k -> upd f k x i = f i.
Proof. intros A f k x i N. unfold upd. destruct (Nat.eqb_spec i k); auto. contradiction. Qed.

Lemma placed_app : forall w l1 l2, placed_on w (l1 ++ l2) = placed_on w l1 ++ placed_on w l2.
Proof. intros. unfold placed_on. rewrite filter_app, map_app. auto. Qed.

Lemma placed_In : forall w log t, In t (placed_on w log) <-> In (w, t) log.
Proof.
  intros w log t. unfold placed_on. rewrite in_map_iff. split.
  - intros ([w' t'] & E & I). simpl in E. subst. apply filter_In in I. destruct I as [I E]. simpl in E.
    apply Nat.eqb_eq in E. subst. auto.
  - intros I. exists (w, t). split; auto. apply filter_In. split; auto. simpl. apply Nat.eqb_refl.
Qed.

Section Pick.
Variable nw : nat.
Hypothesis pos : 0 < nw.

Lemma next_mod : forall w, w < nw -> next_wid nw w = (w + 1) mod nw.
Proof.
  intros w L. unfold next_wid. destruct (Nat.eqb_spec (S w) nw) as [E|N].
  - replace (w + 1) with nw by lia. rewrite Nat.mod_same; lia.
  - rewrite Nat.mod_small; lia.
Qed.

Lemma pick_spec : forall grab k wid o wid', wid < nw -> pick nw grab wid k = (o, wid') ->
  match o with
  | Some w => w < nw /\ grab w = false /\ wid' = (w + 1) mod nw /\
      exists j, j < k /\ w = (wid + j) mod nw /\ forall i, i < j -> grab ((wid + i) mod nw) = true
  | None => wid' = (wid + k) mod nw /\ forall i, i < k -> grab ((wid + i) mod nw) = true
  end.
Proof.
  intros grab k. induction k as [|k IH]; intros wid o wid' L H; simpl in H.
  - apply pair_inj in H as [<- <-]. split; [|intros; lia]. rewrite Nat.add_0_r, Nat.mod_small; lia.
  - destruct (grab wid) eqn:G.
    + assert (L' : next_wid nw wid < nw) by (rewrite next_mod by auto; apply Nat.mod_upper_bound; lia).
      apply IH in H; auto.
      assert (SH : forall i, (next_wid nw wid + i) mod nw = (wid + S i) mod nw).
      { intros i. rewrite next_mod by auto. rewrite Nat.add_mod_idemp_l by lia. f_equal. lia. }
      destruct o as [w|].
      * destruct H as (A & B & C & j & J & E & F). split; [auto|split; [auto|split; [auto|]]].
        exists (S j). split; [lia|]. split; [rewrite <- SH; auto|].
        intros i I. destruct i. -- rewrite Nat.add_0_r, Nat.mod_small; auto.
        -- rewrite <- SH. apply F. lia.
      * destruct H as [E F]. split; [rewrite <- SH; auto|].
        intros i I. destruct i. -- rewrite Nat.add_0_r, Nat.mod_small; auto.
        -- rewrite <- SH. apply F. lia.
    + apply pair_inj in H as [<- <-]. split; auto. split; auto. split; [apply next_mod; auto|].
      exists 0. split; [lia|]. split; [rewrite Nat.add_0_r, Nat.mod_small; lia|]. intros; lia.
Qed.

Lemma all_from : forall (P : nat -> bool) c, c < nw ->
  (forall i, i < nw -> P ((c + i) mod nw) = true) -> forall w, w < nw -> P w = true.
Proof.
  intros P c L H w W. destruct (Nat.le_gt_cases c w).
  - replace w with ((c + (w - c)) mod nw). apply H; lia. rewrite Nat.mod_small; lia.
  - replace w with ((c + (nw - c + w)) mod nw). apply H; lia.
    replace (c + (nw - c + w)) with (w + 1 * nw) by lia. rewrite Nat.mod_add by lia. apply Nat.mod_small. auto.
Qed.
End Pick.

Section Queue.
Variable nw : nat.
Hypothesis pos : 0 < nw.
Variable body cbody : nat -> list val -> kwargs -> res.
Variable mbody : nat -> val -> list val -> kwargs -> res * val.
Variable item : val -> nat -> option val.
Variable iterable callable bytes : val -> bool.
Variable dumps : val -> val.
Variable loads : val -> res.
Variable storable : val -> bool.

Notation pstep := (pstep nw body cbody mbody item iterable callable bytes dumps loads storable).
Notation prun := (prun nw body cbody mbody item iterable callable bytes dumps loads storable).
Notation work := (work body mbody item iterable bytes loads storable).

(** Facts about actors' table *)
Lemma nth_set_gen : forall {A} (l : list A) a s x, nth_error l a = Some s ->
  forall b, nth_error (firstn a l ++ x :: skipn (S a) l) b = if Nat.eqb a b then Some x else nth_error l b.
Proof.
  induction l as [|y l IH]; intros a s x H b; [destruct a; discriminate|].
  destruct a; destruct b; auto. simpl in *. apply (IH a s x); auto.
Qed.

Lemma set_state_nth : forall l a s b, nth_error (set_state l a s) b =
  match nth_error l b with
  | Some t => Some (if Nat.eqb a b then {| t_state := s; t_worker := t_worker t; t_live := t_live t |} else t)
  | None => None
  end.
Proof.
  intros l a s b. unfold set_state. destruct (nth_error l a) as [t|] eqn:E.
  - rewrite (nth_set_gen _ _ _ _ E). destruct (Nat.eqb_spec a b) as [<-|].
    + rewrite E. auto.
    + destruct (nth_error l b); auto.
  - destruct (Nat.eqb_spec a b) as [<-|]. + rewrite E. auto. + destruct (nth_error l b); auto.
Qed.

Lemma kill_nth : forall l a b, nth_error (kill l a) b =
  match nth_error l b with
  | Some t => Some (if Nat.eqb a b then {| t_state := t_state t; t_worker := t_worker t; t_live := false |} else t)
  | None => None
  end.
Proof.
  intros l a b. unfold kill. destruct (nth_error l a) as [t|] eqn:E.
  - rewrite (nth_set_gen _ _ _ _ E). destruct (Nat.eqb_spec a b) as [<-|].
    + rewrite E. auto.
    + destruct (nth_error l b); auto.
  - destruct (Nat.eqb_spec a b) as [<-|]. + rewrite E. auto. + destruct (nth_error l b); auto.
Qed.

(** A worker's step only touches its queue, the store and the states of objects. *)
Definition same_actors (l l' : list actor) : Prop :=
  forall b, option_map (fun x => (t_worker x, t_live x)) (nth_error l' b) =
            option_map (fun x => (t_worker x, t_live x)) (nth_error l b).

Lemma set_state_same : forall l a s, same_actors l (set_state l a s).
Proof.
  intros l a s b. rewrite set_state_nth. destruct (nth_error l b) as [t|]; auto.
  destruct (Nat.eqb a b); auto.
Qed.

Lemma call_same : forall l t vs kw r l', call body mbody l t vs kw = (r, l') -> same_actors l l'.
Proof.
  intros l t vs kw r l' H. unfold call in H. destruct (k_callee t) as [f|a m].
  - apply pair_inj in H as [_ <-]. intros b. auto.
  - destruct (nth_error l a) as [x|]; [destruct (t_live x)|].
    + destruct (mbody m (t_state x) vs kw) as [r' s]. apply pair_inj in H as [_ <-]. apply set_state_same.
    + apply pair_inj in H as [_ <-]. intros b. auto.
    + apply pair_inj in H as [_ <-]. intros b. auto.
Qed.

Lemma work_spec : forall st w st', work st w = Some st' -> exists t q r m ok acts,
  p_queue st w = t :: q /\ (p_dead st w = false /\ (gone (p_actors st) t = true -> p_taken st w = true)) /\
  store_outcome item iterable storable (p_store st) (k_out t) r = (m, ok) /\ same_actors (p_actors st) acts /\
  st' = {| p_next := p_next st; p_store := m; p_queue := upd (p_queue st) w q;
           p_done := upd (p_done st) w (p_done st w ++ [t]);
           p_dead := if ok then p_dead st else upd (p_dead st) w true; p_taken := upd (p_taken st) w false;
           p_grab := p_grab st; p_wid := p_wid st; p_actors := acts; p_log := p_log st |} /\
  ((exists e, r = Exn e /\ acts = p_actors st /\
      (pmat bytes loads st (k_args t) = MatExc e \/
       exists vs, pmat bytes loads st (k_args t) = Mat vs /\ pmat bytes loads st (map snd (k_kw t)) = MatExc e)) \/
   exists vs ks, pmat bytes loads st (k_args t) = Mat vs /\ pmat bytes loads st (map snd (k_kw t)) = Mat ks /\
     call body mbody (p_actors st) t vs (combine (map fst (k_kw t)) ks) = (r, acts)).
Proof.
  intros st w st' H. unfold PympModel.work in H. destruct (p_queue st w) as [|t q] eqn:Q; [discriminate|].
  destruct (p_dead st w) eqn:D; [discriminate|].
  destruct (negb (p_taken st w) && gone (p_actors st) t) eqn:GN; [discriminate|].
  assert (GT : gone (p_actors st) t = true -> p_taken st w = true).
  { intros X. rewrite X in GN. destruct (p_taken st w); auto. }
  assert (G : forall r acts, (let (m, ok) := store_outcome item iterable storable (p_store st) (k_out t) r in
     Some {| p_next := p_next st; p_store := m; p_queue := upd (p_queue st) w q;
             p_done := upd (p_done st) w (p_done st w ++ [t]);
             p_dead := if ok then p_dead st else upd (p_dead st) w true; p_taken := upd (p_taken st) w false;
             p_grab := p_grab st; p_wid := p_wid st; p_actors := acts; p_log := p_log st |}) = Some st' ->
     exists m ok, store_outcome item iterable storable (p_store st) (k_out t) r = (m, ok) /\
     st' = {| p_next := p_next st; p_store := m; p_queue := upd (p_queue st) w q;
             p_done := upd (p_done st) w (p_done st w ++ [t]);
             p_dead := if ok then p_dead st else upd (p_dead st) w true; p_taken := upd (p_taken st) w false;
             p_grab := p_grab st; p_wid := p_wid st; p_actors := acts; p_log := p_log st |}).
  { intros r acts E. destruct (store_outcome item iterable storable (p_store st) (k_out t) r) as [m ok].
    apply Some_inj in E. eauto. }
  destruct (pmat bytes loads st (k_args t)) as [vs|e|] eqn:M1; [| |discriminate].
  - destruct (pmat bytes loads st (map snd (k_kw t))) as [ks|e|] eqn:M2; [| |discriminate].
    + destruct (call body mbody (p_actors st) t vs (combine (map fst (k_kw t)) ks)) as [r acts] eqn:C.
      apply G in H. destruct H as (m & ok & S & ->). exists t, q, r, m, ok, acts.
      repeat split; auto. * eapply call_same; eauto. * right. eauto.
    + apply G in H. destruct H as (m & ok & S & ->). exists t, q, (Exn e), m, ok, (p_actors st).
      repeat split; auto. left. exists e. eauto 6.
  - apply G in H. destruct H as (m & ok & S & ->). exists t, q, (Exn e), m, ok, (p_actors st).
    repeat split; auto. left. exists e. eauto 6.
Qed.

(** ** Which worker *)
Record QI (st : pst) : Prop := {
  qi_queues : forall w, p_done st w ++ p_queue st w = placed_on w (p_log st);
  qi_grab : forall w, p_grab st w = true <-> exists a, has_actor st a w;
  qi_alone : forall a b w, has_actor st a w -> has_actor st b w -> a = b;
  qi_bound : forall a x, nth_error (p_actors st) a = Some x -> t_worker x < nw;
  qi_log : forall w t, In (w, t) (p_log st) -> w < nw;
  qi_wid : p_wid st = cursor nw (p_log st) /\ p_wid st < nw;
  qi_ids : map (fun x => k_id (snd x)) (p_log st) = seq 0 (length (p_log st));
  qi_meth : forall w t a m, In (w, t) (p_log st) -> k_callee t = Meth a m ->
            exists x, nth_error (p_actors st) a = Some x /\ t_worker x = w
}.

Lemma qi_init : QI pinit.
Proof.
  split; simpl; auto.
  - intros w. split; [discriminate|]. intros (a & x & E & _). destruct a; discriminate.
  - intros a b w (x & E & _). destruct a; discriminate.
  - intros a x E. destruct a; discriminate.
  - intros w t [].
  - intros w t a m [].
Qed.

Lemma has_same : forall st st', same_actors (p_actors st) (p_actors st') -> forall a w, has_actor st a w <-> has_actor st' a w.
Proof.
  intros st st' S a w. specialize (S a). unfold has_actor.
  destruct (nth_error (p_actors st) a) as [x|], (nth_error (p_actors st') a) as [y|]; simpl in S; try discriminate.
  - inversion S as [[H1 H2]]. split; intros (z & E & L & W); inversion E; subst z.
    + exists y. rewrite H1, H2. auto.
    + exists x. rewrite <- H1, <- H2. auto.
  - split; intros (z & E & _); discriminate.
Qed.

Lemma same_nth : forall l l' a x, same_actors l l' -> nth_error l a = Some x ->
  exists y, nth_error l' a = Some y /\ t_worker y = t_worker x.
Proof.
  intros l l' a x S E. specialize (S a). rewrite E in S. destruct (nth_error l' a) as [y|]; [|discriminate].
  simpl in S. inversion S. eauto.
Qed.

Lemma same_nth_r : forall l l' a y, same_actors l l' -> nth_error l' a = Some y ->
  exists x, nth_error l a = Some x /\ t_worker y = t_worker x.
Proof.
  intros l l' a y S E. specialize (S a). rewrite E in S. destruct (nth_error l a) as [x|]; [|discriminate].
  simpl in S. inversion S. eauto.
Qed.

Lemma qi_work : forall st w st', QI st -> work st w = Some st' -> QI st'.
Proof.
  intros st w st' I H. apply work_spec in H.
  destruct H as (t & q & r & m & ok & acts & Q & D & _ & S & -> & _).
  assert (HS : forall a w', has_actor st a w' <->
    has_actor {| p_next := p_next st; p_store := m; p_queue := upd (p_queue st) w q;
           p_done := upd (p_done st) w (p_done st w ++ [t]);
           p_dead := if ok then p_dead st else upd (p_dead st) w true; p_taken := upd (p_taken st) w false;
           p_grab := p_grab st; p_wid := p_wid st; p_actors := acts; p_log := p_log st |} a w').
  { apply has_same. auto. }
  destruct I as [I1 I2 I3 I4 I5 I6 I7 I8]. split; cbn [p_queue p_done p_grab p_actors p_log p_wid]; auto.
  - intros w'. destruct (Nat.eq_dec w' w) as [->|N].
    + rewrite !upd_same, <- app_assoc. rewrite <- I1, Q. auto.
    + rewrite !upd_other by auto. auto.
  - intros w'. rewrite I2. split; intros [a A]; exists a; apply HS; auto.
  - intros a b w' A B. apply HS in A, B. eauto.
  - intros a y E. destruct (same_nth_r _ _ _ _ S E) as (x & E' & ->). eauto.
  - intros w' t' a mm J K. destruct (I8 _ _ _ _ J K) as (x & E & W).
    destruct (same_nth _ _ _ _ S E) as (y & E' & W'). exists y. rewrite W'. auto.
Qed.

Lemma cursor_snoc : forall log w t, cursor nw (log ++ [(w, t)]) =
  if is_plain t then (w + 1) mod nw else cursor nw log.
Proof. intros. unfold cursor. rewrite fold_left_app. simpl. auto. Qed.

Lemma qi_place : forall st t w wid, QI st -> w < nw -> k_id t = length (p_log st) ->
  wid < nw -> wid = (if is_plain t then (w + 1) mod nw else p_wid st) ->
  (forall a m, k_callee t = Meth a m -> exists x, nth_error (p_actors st) a = Some x /\ t_worker x = w) ->
  QI (place_task st t w wid).
Proof.
  intros st t w wid [I1 I2 I3 I4 I5 I6 I7 I8] L K WL WE M.
  split; cbn [place_task p_queue p_done p_grab p_actors p_log p_wid]; auto.
  - intros w'. rewrite placed_app, <- I1. unfold placed_on. simpl. destruct (Nat.eqb_spec w w') as [->|N].
    + rewrite upd_same. simpl. rewrite app_assoc. auto.
    + rewrite upd_other by auto. simpl. rewrite app_nil_r. auto.
  - intros w' t' J. apply in_app_or in J. destruct J as [J|[E|[]]]; eauto. apply pair_inj in E as [<- _]. auto.
  - rewrite cursor_snoc. destruct I6 as [E B]. rewrite <- E. auto.
  - rewrite map_app, I7, app_length, Nat.add_comm. cbn [length plus map snd]. rewrite K, seq_S. auto.
  - intros w' t' a m J E. apply in_app_or in J. destruct J as [J|[F|[]]]; eauto.
    apply pair_inj in F as [<- <-]. eapply M; eauto.
Qed.

Lemma qi_take : forall st w, QI st -> QI (take st w).
Proof.
  intros st w I. unfold take. destruct (p_queue st w) as [|t q]; auto. destruct (p_dead st w || p_taken st w); auto.
  destruct (gone (p_actors st) t); destruct I; split; auto.
Qed.

Lemma qi_step : forall st o st' e, QI st -> pstep st o = (st', e) -> QI st'.
Proof.
  intros st o st' e I H. destruct o; cbn [PympModel.pstep] in H.
  - apply pair_inj in H as [<- _]. destruct I. split; auto.
  - destruct (pick nw (p_grab st) (p_wid st) nw) as [[w|] wid] eqn:P; apply pair_inj in H as [<- _].
    + apply pick_spec in P; [|auto|apply I]. destruct P as (L & _ & W & _).
      apply qi_place; auto.
      * subst. apply Nat.mod_upper_bound. lia.
      * simpl. discriminate.
    + apply pick_spec in P; [|auto|apply I]. destruct P as (W & _).
      destruct I as [I1 I2 I3 I4 I5 I6 I7 I8]. split; cbn [p_queue p_done p_grab p_actors p_log p_wid]; auto.
      destruct I6 as [E B]. replace (p_wid st + nw) with (p_wid st + 1 * nw) in W by lia.
      rewrite Nat.mod_add in W by lia. rewrite Nat.mod_small in W by auto. subst wid. auto.
  - destruct (cbody c args kw) as [s|x]; [|apply pair_inj in H as [<- _]; auto].
    destruct (grab_worker nw (p_grab st)) as [w|] eqn:G; apply pair_inj in H as [<- _]; auto.
    unfold grab_worker in G. apply find_some in G. destruct G as [G1 G2]. apply in_seq in G1.
    apply Bool.negb_true_iff in G2.
    destruct I as [I1 I2 I3 I4 I5 I6 I7 I8].
    assert (HA : forall a w', has_actor {| p_next := p_next st; p_store := p_store st; p_queue := p_queue st;
                  p_done := p_done st; p_dead := p_dead st; p_taken := p_taken st; p_grab := upd (p_grab st) w true; p_wid := p_wid st;
                  p_actors := p_actors st ++ [{| t_state := s; t_worker := w; t_live := true |}];
                  p_log := p_log st |} a w' <->
                has_actor st a w' \/ (a = length (p_actors st) /\ w' = w)).
    { intros a w'. unfold has_actor. simpl. split.
      - intros (x & E & L & W). destruct (Nat.lt_ge_cases a (length (p_actors st))) as [LT|GE].
        + rewrite nth_error_app1 in E by auto. left. eauto.
        + rewrite nth_error_app2 in E by auto. destruct (a - length (p_actors st)) as [|k] eqn:K.
          * simpl in E. apply Some_inj in E. subst x. simpl in W. right. split; [lia|auto].
          * simpl in E. destruct k; discriminate.
      - intros [(x & E & L & W)|[-> ->]].
        + exists x. rewrite nth_error_app1; auto. apply nth_error_Some. rewrite E. discriminate.
        + exists {| t_state := s; t_worker := w; t_live := true |}.
          rewrite nth_error_app2, Nat.sub_diag by auto. auto. }
    split; cbn [p_queue p_done p_grab p_actors p_log p_wid]; auto.
    + intros w'. destruct (Nat.eq_dec w' w) as [->|N].
      * rewrite upd_same. split; auto. intros _. exists (length (p_actors st)). apply HA. auto.
      * rewrite upd_other by auto. rewrite I2. split; intros [a A]; exists a; [apply HA; auto|].
        apply HA in A. destruct A as [A|[_ A]]; [auto|contradiction].
    + intros a b w' A B. apply HA in A, B. destruct A as [A|[-> ->]], B as [B|[-> W]]; auto.
      * eauto.
      * subst w'. assert (p_grab st w = true) by (apply I2; eauto). congruence.
      * assert (p_grab st w = true) by (apply I2; eauto). congruence.
    + intros a x E. destruct (Nat.lt_ge_cases a (length (p_actors st))) as [LT|GE].
      * rewrite nth_error_app1 in E by auto. eauto.
      * rewrite nth_error_app2 in E by auto. destruct (a - length (p_actors st)) as [|k].
        -- simpl in E. apply Some_inj in E. subst x. simpl. lia.
        -- simpl in E. destruct k; discriminate.
    + intros w' t a m J K. destruct (I8 _ _ _ _ J K) as (x & E & W). exists x. split; auto.
      rewrite nth_error_app1; auto. apply nth_error_Some. rewrite E. discriminate.
  - destruct (nth_error (p_actors st) a) as [x|] eqn:E; [|apply pair_inj in H as [<- _]; auto].
    destruct (t_live x) eqn:L; apply pair_inj in H as [<- _]; auto.
    apply qi_place; auto.
    + eapply qi_bound; eauto.
    + apply I.
    + simpl. intros a' m' C. inversion C. subst. eauto.
  - destruct (nth_error (p_actors st) a) as [x|] eqn:E; [|apply pair_inj in H as [<- _]; auto].
    destruct (t_live x) eqn:L; apply pair_inj in H as [<- _]; auto.
    destruct I as [I1 I2 I3 I4 I5 I6 I7 I8].
    assert (HA : forall b w', has_actor {| p_next := p_next st; p_store := p_store st; p_queue := p_queue st;
                  p_done := p_done st; p_dead := p_dead st; p_taken := p_taken st; p_grab := upd (p_grab st) (t_worker x) false;
                  p_wid := p_wid st; p_actors := kill (p_actors st) a; p_log := p_log st |} b w' <->
                has_actor st b w' /\ b <> a).
    { intros b w'. unfold has_actor. simpl. rewrite kill_nth. split.
      - intros (y & F & LV & W). destruct (nth_error (p_actors st) b) as [z|]; [|discriminate].
        apply Some_inj in F. destruct (Nat.eqb_spec a b) as [->|N].
        + subst y. discriminate.
        + subst y. split; eauto.
      - intros [(y & F & LV & W) N]. exists y. rewrite F. destruct (Nat.eqb_spec a b); [congruence|auto]. }
    assert (AX : has_actor st a (t_worker x)) by (exists x; auto).
    split; cbn [p_queue p_done p_grab p_actors p_log p_wid]; auto.
    + intros w'. destruct (Nat.eq_dec w' (t_worker x)) as [->|N].
      * rewrite upd_same. split; [discriminate|]. intros [b B]. apply HA in B. destruct B as [B NB].
        destruct NB. eapply I3; eauto.
      * rewrite upd_other by auto. rewrite I2. split; intros [b B]; exists b; [|apply HA in B; tauto].
        apply HA. split; auto. intros ->. destruct B as (y & F & _ & W). congruence.
    + intros b c w' B C. apply HA in B, C. destruct B, C. eauto.
    + intros b y F. rewrite kill_nth in F. destruct (nth_error (p_actors st) b) as [z|] eqn:Z; [|discriminate].
      apply Some_inj in F. subst y. specialize (I4 _ _ Z). destruct (Nat.eqb a b); auto.
    + intros w' t b m J K. destruct (I8 _ _ _ _ J K) as (z & Z & W).
      rewrite kill_nth, Z. eexists. split; [reflexivity|]. destruct (Nat.eqb a b); auto.
  - apply pair_inj in H as [<- _]. apply qi_take. auto.
  - destruct (work st w) as [st1|] eqn:W; apply pair_inj in H as [<- _]; auto. eapply qi_work; eauto.
Qed.

Lemma prun_ext : forall ops st h st' h', prun st h ops = (st', h') -> exists x, h' = x ++ h.
Proof.
  induction ops as [|o r IH]; intros st h st' h' H; simpl in H.
  - apply pair_inj in H as [_ <-]. exists []. auto.
  - destruct (pstep st o) as [st1 [e|]].
    + apply IH in H. destruct H as [x ->]. exists (x ++ [e]). rewrite <- app_assoc. auto.
    + apply IH in H. auto.
Qed.

Lemma qi_run_gen : forall ops st h st' h', QI st -> prun st h ops = (st', h') -> QI st'.
Proof.
  induction ops as [|o r IH]; intros st h st' h' I H; simpl in H.
  - apply pair_inj in H as [<- _]. auto.
  - destruct (pstep st o) as [st1 e] eqn:S. apply qi_step in S; auto. destruct e; eapply IH; eauto.
Qed.

Lemma qi_run : forall ops st h, prun pinit [] ops = (st, h) -> QI st.
Proof. intros. eapply qi_run_gen; eauto. apply qi_init. Qed.

Lemma one_queue : forall ops st h w, prun pinit [] ops = (st, h) ->
  p_done st w ++ p_queue st w = placed_on w (p_log st).
Proof. intros. apply (qi_queues _ (qi_run _ _ _ H)). Qed.

Lemma ids_unique : forall ops st h, prun pinit [] ops = (st, h) -> NoDup (map (fun x => k_id (snd x)) (p_log st)).
Proof. intros. rewrite (qi_ids _ (qi_run _ _ _ H)). apply seq_NoDup. Qed.

Lemma submit_placed : forall ops st h f args kw n st' e, prun pinit [] ops = (st, h) ->
  pstep st (PSubmit f args kw n) = (st', e) ->
  (exists w t, p_log st' = p_log st ++ [(w, t)] /\ k_callee t = Fun f /\ k_args t = args /\ k_kw t = kw /\
     length (k_out t) = n /\ w < nw /\ first_free nw (p_grab st) (cursor nw (p_log st)) w /\
     p_queue st' w = p_queue st w ++ [t] /\ forall w', w' <> w -> p_queue st' w' = p_queue st w') \/
  (p_log st' = p_log st /\ (forall w, w < nw -> p_grab st w = true) /\ e = Some (QSubmit f args kw n false, OError)).
Proof.
  intros ops st h f args kw n st' e R H. pose proof (qi_run _ _ _ R) as I.
  destruct (qi_wid _ I) as [W B]. cbn [PympModel.pstep] in H.
  destruct (pick nw (p_grab st) (p_wid st) nw) as [[w|] wid] eqn:P; apply pick_spec in P; auto;
    apply pair_inj in H as [<- <-].
  - left. destruct P as (L & G & _ & J). eexists w, _. cbn [place_task p_log p_queue]. rewrite <- W.
    split; [reflexivity|]. simpl. unfold new_ids. rewrite map_length, seq_length.
    repeat split; auto. + apply upd_same. + intros. apply upd_other. auto.
  - right. simpl. split; auto. split; auto. destruct P as [_ P]. apply (all_from nw pos _ (p_wid st)); auto.
Qed.

Lemma call_placed : forall ops st h a m args kw n st' q out, prun pinit [] ops = (st, h) ->
  pstep st (PCall a m args kw n) = (st', Some (q, out)) ->
  exists w t, has_actor st a w /\ p_log st' = p_log st ++ [(w, t)] /\ k_callee t = Meth a m /\ k_args t = args /\
    k_kw t = kw /\ length (k_out t) = n /\
    p_queue st' w = p_queue st w ++ [t] /\ forall w', w' <> w -> p_queue st' w' = p_queue st w'.
Proof.
  intros ops st h a m args kw n st' q out R H. cbn [PympModel.pstep] in H.
  destruct (nth_error (p_actors st) a) as [x|] eqn:E; [|discriminate].
  destruct (t_live x) eqn:L; [|discriminate]. apply pair_inj in H as [<- _].
  exists (t_worker x). eexists. cbn [place_task p_log p_queue]. split; [exists x; auto|]. split; [reflexivity|].
  simpl. unfold new_ids. rewrite map_length, seq_length. repeat split; auto.
  - apply upd_same. - intros. apply upd_other. auto.
Qed.

Lemma grabbed_live : forall ops st h w, prun pinit [] ops = (st, h) ->
  (p_grab st w = true <-> exists a, has_actor st a w).
Proof. intros. apply (qi_grab _ (qi_run _ _ _ H)). Qed.

Lemma one_actor : forall ops st h a b w, prun pinit [] ops = (st, h) ->
  has_actor st a w -> has_actor st b w -> a = b.
Proof. intros ops st h a b w H. apply (qi_alone _ (qi_run _ _ _ H)). Qed.

Lemma refs_out_list : forall ds, out_list (refs_out ds) = ds /\ refs_out ds <> OError.
Proof. clear. intros [|d [|e ds]]; split; try reflexivity; discriminate. Qed.

Lemma submissions_cons : forall e h, submissions (e :: h) = submissions h ++ submission e.
Proof. clear. intros e h. unfold submissions. simpl. rewrite flat_map_app. simpl. rewrite app_nil_r. auto. Qed.

Lemma log_step : forall st o st' e, pstep st o = (st', e) ->
  map (fun x => task_desc (snd x)) (p_log st') =
  map (fun x => task_desc (snd x)) (p_log st) ++ match e with Some x => submission x | None => [] end.
Proof.
  intros st o st' e H. destruct o; cbn [PympModel.pstep] in H.
  - apply pair_inj in H as [<- <-]. simpl. rewrite app_nil_r. auto.
  - destruct (pick nw (p_grab st) (p_wid st) nw) as [[w|] wid]; apply pair_inj in H as [<- <-].
    + cbn [place_task p_log]. rewrite map_app. simpl. f_equal. unfold task_desc. simpl.
      destruct (refs_out_list (new_ids st n)) as [E N]. destruct (refs_out (new_ids st n)); try congruence; rewrite <- E; auto.
    + simpl. rewrite app_nil_r. auto.
  - destruct (cbody c args kw); [destruct (grab_worker nw (p_grab st))|]; apply pair_inj in H as [<- <-]; simpl;
      rewrite app_nil_r; auto.
  - destruct (nth_error (p_actors st) a) as [x|]; [|apply pair_inj in H as [<- <-]; rewrite app_nil_r; auto].
    destruct (t_live x); apply pair_inj in H as [<- <-]; [|rewrite app_nil_r; auto].
    cbn [place_task p_log]. rewrite map_app. simpl. f_equal. unfold task_desc. simpl.
    destruct (refs_out_list (new_ids st n)) as [E N]. rewrite E. auto.
  - destruct (nth_error (p_actors st) a) as [x|]; [|apply pair_inj in H as [<- <-]; rewrite app_nil_r; auto].
    destruct (t_live x); apply pair_inj in H as [<- <-]; rewrite app_nil_r; auto.
  - apply pair_inj in H as [<- <-]. rewrite app_nil_r. unfold take. destruct (p_queue st w) as [|t q]; auto.
    destruct (p_dead st w || p_taken st w); auto. destruct (gone (p_actors st) t); auto.
  - destruct (work st w) as [st1|] eqn:W; apply pair_inj in H as [<- <-]; rewrite app_nil_r; auto.
    apply work_spec in W. destruct W as (t & q & r & m & ok & acts & _ & _ & _ & _ & -> & _). auto.
Qed.

Lemma log_run_gen : forall ops st h st' h', prun st h ops = (st', h') ->
  map (fun x => task_desc (snd x)) (p_log st) = submissions h ->
  map (fun x => task_desc (snd x)) (p_log st') = submissions h'.
Proof.
  induction ops as [|o r IH]; intros st h st' h' H E; simpl in H.
  - apply pair_inj in H as [<- <-]. auto.
  - destruct (pstep st o) as [st1 e] eqn:S. apply log_step in S. rewrite E in S. destruct e as [e|].
    + eapply IH; eauto. rewrite submissions_cons. auto.
    + eapply IH; eauto. rewrite app_nil_r in S. auto.
Qed.

Lemma log_run : forall ops st h, prun pinit [] ops = (st, h) ->
  map (fun x => task_desc (snd x)) (p_log st) = submissions h.
Proof. intros. eapply log_run_gen; eauto. Qed.

(** ** Handles that are kept until the calls have ended *)
Definition KI (st : pst) : Prop := forall t, pending st t -> gone (p_actors st) t = false.

Lemma ki_init : KI pinit.
Proof. intros t (w & []). Qed.

Lemma gone_same : forall l l' t, same_actors l l' -> gone l' t = gone l t.
Proof.
  intros l l' t S. unfold gone. destruct (k_callee t) as [f|a m]; auto. specialize (S a).
  destruct (nth_error l a) as [x|], (nth_error l' a) as [y|]; simpl in S; try discriminate; auto.
  inversion S as [[A B]]. rewrite B. auto.
Qed.

Lemma ki_take : forall st w, KI st -> take st w = st \/
  take st w = {| p_next := p_next st; p_store := p_store st; p_queue := p_queue st; p_done := p_done st;
              p_dead := p_dead st; p_taken := upd (p_taken st) w true;
              p_grab := p_grab st; p_wid := p_wid st; p_actors := p_actors st; p_log := p_log st |}.
Proof.
  intros st w K. unfold take. destruct (p_queue st w) as [|t q] eqn:Q; auto. destruct (p_dead st w || p_taken st w); auto.
  assert (G : gone (p_actors st) t = false) by (apply K; exists w; rewrite Q; simpl; auto). rewrite G. auto.
Qed.

Lemma ki_step : forall st o st' e, QI st -> KI st -> pstep st o = (st', e) ->
  (forall a, o = PDel a -> forall t m, pending st t -> k_callee t <> Meth a m) -> KI st'.
Proof.
  intros st o st' e I K H D. destruct o; cbn [PympModel.pstep] in H.
  - apply pair_inj in H as [<- _]. exact K.
  - destruct (pick nw (p_grab st) (p_wid st) nw) as [[w|] wid]; apply pair_inj in H as [<- _]; [|exact K].
    intros t (w' & J). cbn [place_task p_queue p_actors] in *. destruct (Nat.eq_dec w' w) as [->|N].
    + rewrite upd_same in J. apply in_app_or in J. destruct J as [J|[<-|[]]]; [apply K; exists w; auto|auto].
    + rewrite upd_other in J by auto. apply K. exists w'. auto.
  - destruct (cbody c args kw) as [s|x]; [|apply pair_inj in H as [<- _]; auto].
    destruct (grab_worker nw (p_grab st)) as [w|]; apply pair_inj in H as [<- _]; auto.
    intros t J. specialize (K t J). unfold gone in *. cbn [p_actors]. destruct (k_callee t) as [f|a m]; auto.
    destruct (nth_error (p_actors st) a) as [x|] eqn:E; [|discriminate].
    rewrite nth_error_app1, E; auto. apply nth_error_Some. rewrite E. discriminate.
  - destruct (nth_error (p_actors st) a) as [x|] eqn:E; [|apply pair_inj in H as [<- _]; auto].
    destruct (t_live x) eqn:L; apply pair_inj in H as [<- _]; auto.
    intros t (w' & J). cbn [place_task p_queue p_actors] in *.
    assert (N : In t (p_queue st w') \/ t = {| k_id := length (p_log st); k_callee := Meth a m; k_args := args; k_kw := kw; k_out := new_ids st n |}).
    { destruct (Nat.eq_dec w' (t_worker x)) as [->|N].
      + rewrite upd_same in J. apply in_app_or in J. destruct J as [J|[<-|[]]]; auto.
      + rewrite upd_other in J by auto. auto. }
    destruct N as [N| ->]; [apply K; exists w'; auto|]. unfold gone. simpl. rewrite E, L. auto.
  - destruct (nth_error (p_actors st) a) as [x|] eqn:E; [|apply pair_inj in H as [<- _]; auto].
    destruct (t_live x) eqn:L; apply pair_inj in H as [<- _]; auto.
    intros t J. specialize (K t J). specialize (D a eq_refl t). unfold gone in *. cbn [p_actors].
    destruct (k_callee t) as [f|b m]; auto. rewrite kill_nth. destruct (nth_error (p_actors st) b) as [y|]; auto.
    destruct (Nat.eqb_spec a b) as [->|]; auto. destruct (D m J eq_refl).
  - apply pair_inj in H as [<- _]. destruct (ki_take st w K) as [-> | ->]; exact K.
  - destruct (work st w) as [st1|] eqn:W; apply pair_inj in H as [<- _]; auto.
    apply work_spec in W. destruct W as (t & q & r & m & ok & acts & Q & _ & _ & S & -> & _).
    intros t' (w' & J). cbn [p_queue p_actors] in *. rewrite (gone_same _ _ _ S). apply K. exists w'.
    destruct (Nat.eq_dec w' w) as [->|N].
    + rewrite upd_same in J. rewrite Q. simpl. auto.
    + rewrite upd_other in J; auto.
Qed.

(** Histories of kept handles are closed under prefixes. *)
Lemma kept_step : forall o r st h st1 e, pstep st o = (st1, e) -> handles_kept (fun l => fst (prun st h l)) (o :: r) ->
  (forall a, o = PDel a -> forall t m, pending st t -> k_callee t <> Meth a m) /\ handles_kept (fun l => fst (prun st1 (match e with Some x => x :: h | None => h end) l)) r.
Proof.
  intros o r st h st1 e S HK. split.
  - intros a -> t m P. apply (HK [] a r t m); auto.
  - intros pre a post t m E P. apply (HK (o :: pre) a post t m); [rewrite E; auto|]. simpl. rewrite S. destruct e; auto.
Qed.

Lemma ki_run_gen : forall ops st h st' h', QI st -> KI st -> prun st h ops = (st', h') ->
  handles_kept (fun l => fst (prun st h l)) ops -> KI st'.
Proof.
  induction ops as [|o r IH]; intros st h st' h' I K H HK; simpl in H.
  - apply pair_inj in H as [<- _]. auto.
  - destruct (pstep st o) as [st1 e] eqn:S. pose proof (qi_step _ _ _ _ I S) as I1.
    destruct (kept_step _ _ _ _ _ _ S HK) as [HD HR].
    pose proof (ki_step _ _ _ _ I K S HD) as K1. destruct e as [e|]; eapply IH; eauto.
Qed.

(** ** Progress *)
Lemma unfinished_step : forall st w st', QI st -> work st w = Some st' -> unfinished nw st = S (unfinished nw st').
Proof.
  intros st w st' I H. pose proof H as H'. apply work_spec in H'.
  destruct H' as (t & q & r & m & ok & acts & Q & D & _ & S & E & _).
  assert (L : w < nw).
  { eapply (qi_log _ I). apply placed_In. rewrite <- (qi_queues _ I). apply in_or_app. right. rewrite Q. simpl. auto. }
  unfold unfinished. subst st'. cbn [p_queue].
  assert (G : forall l, NoDup l -> In w l ->
    length (flat_map (p_queue st) l) = Datatypes.S (length (flat_map (upd (p_queue st) w q) l))).
  { induction l as [|x l IH]; intros ND J; [destruct J|]. simpl. rewrite !app_length.
    inversion ND as [|? ? NI ND']. subst. destruct (Nat.eq_dec x w) as [->|N].
    - rewrite Q, upd_same. simpl. f_equal. f_equal.
      assert (F : forall l', ~ In w l' -> flat_map (p_queue st) l' = flat_map (upd (p_queue st) w q) l').
      { induction l' as [|y l' IH']; intros NJ; auto. simpl. rewrite upd_other by (intros ->; apply NJ; simpl; auto).
        rewrite IH'; auto. intros J'. apply NJ. simpl. auto. }
      rewrite F; auto.
    - rewrite upd_other by auto. destruct J as [J|J]; [congruence|]. rewrite IH by auto. lia. }
  apply G. - apply seq_NoDup. - apply in_seq. lia.
Qed.

Lemma store_exn : forall ds (m : dmap cell) e d,
  fold_left (fun m d => dput m d (Cell (VExc e))) ds m d =
  if did_in d ds then Some (Cell (VExc e)) else m d.
Proof. clear.
  induction ds as [|x ds IH]; intros m e d; simpl; auto. rewrite IH. unfold did_in. simpl.
  fold (did_in d ds). destruct (did_in d ds); [rewrite Bool.orb_true_r; auto|]. rewrite Bool.orb_false_r.
  destruct (did_eqb d x) eqn:E.
  - apply did_eqb_eq in E. subst. apply dput_same.
  - apply dput_other. apply did_eqb_neq in E. auto.
Qed.

Lemma zip_store_spec : forall ds m v i,
  (forall k, k < length ds -> exists x, nth_item item v (i + k) = Some x /\ storable x = true) ->
  NoDup ds ->
  exists m', zip_store item storable m ds v i = (m', true) /\
    (forall d, ~ In d ds -> m' d = m d) /\
    (forall k d, nth_error ds k = Some d -> exists x, nth_item item v (i + k) = Some x /\ m' d = Some (Cell x)).
Proof.
  induction ds as [|x ds IH]; intros m v i H ND.
  - exists m. split; auto. split; auto. intros k d E. destruct k; discriminate.
  - destruct (H 0) as (y & Y & S); [simpl; lia|]. rewrite Nat.add_0_r in Y. inversion ND as [|? ? NI ND']. subst.
    destruct (IH (dput m x (Cell y)) v (Datatypes.S i)) as (m' & Z & O & V); auto.
    { intros k L. destruct (H (Datatypes.S k)) as (z & Z & SZ); [simpl; lia|]. exists z. split; auto.
      rewrite <- Z. f_equal. lia. }
    exists m'. simpl. rewrite Y, S. split; auto. split.
    + intros d N. rewrite O by (intros J; apply N; simpl; auto). apply dput_other. intros <-. apply N. simpl. auto.
    + intros k d E. destruct k; simpl in E.
      * apply Some_inj in E. subst d. exists y. rewrite Nat.add_0_r. split; auto. rewrite O by auto. apply dput_same.
      * apply V in E. destruct E as (z & Z' & M). exists z. split; auto. rewrite <- Z'. f_equal. lia.
Qed.

Lemma firstn_nth {A} (l : list A) n i : n <= length l -> i < n -> exists x, nth_error l i = Some x /\ In x (firstn n l).
Proof.
  revert n i. induction l as [|y l IH]; intros [|n] i L I; simpl in *; try lia. destruct i.
  - exists y. simpl. auto.
  - destruct (IH n i) as (x & E & J); try lia. exists x. simpl. auto.
Qed.

(** The results that suit several references, in the words of the model. *)
Lemma suits_many n v : suits item iterable storable (S (S n)) (Ret v) ->
  can_iterate iterable v = true /\ forall i, i < S (S n) -> exists x, nth_item item v i = Some x /\ storable x = true.
Proof.
  unfold suits. generalize (S (S n)) as k; intros k H.
  destruct v; unfold can_iterate, nth_item; try exact H; try contradiction;
  (split; [reflexivity|]; destruct H as [H1 H2]; intros i I; destruct (firstn_nth _ _ _ H1 I) as (x & E & J); eauto).
Qed.

Lemma store_outcome_spec : forall m ds r, suits item iterable storable (length ds) r -> NoDup ds ->
  exists m', store_outcome item iterable storable m ds r = (m', true) /\
    (forall d, ~ In d ds -> m' d = m d) /\
    (forall k d, nth_error ds k = Some d -> exists x, m' d = Some (Cell x) /\
       match r with
       | Exn e => x = VExc e
       | Ret v => if Nat.eqb (length ds) 1 then x = v else nth_item item v k = Some x
       end).
Proof.
  intros m ds r S ND. destruct r as [v|e]; simpl in *.
  - destruct ds as [|d1 [|d2 ds]].
    + exists m. split; auto. split; auto. intros k d E. destruct k; discriminate.
    + simpl in S. rewrite S. eexists. split; auto. split.
      * intros d N. apply dput_other. intros <-. apply N. simpl. auto.
      * intros k d E. destruct k; simpl in E; [|destruct k; discriminate]. apply Some_inj in E. subst.
        exists v. rewrite dput_same. simpl. auto.
    + destruct (suits_many (length ds) v S) as [C H]. rewrite C.
      destruct (zip_store_spec (d1 :: d2 :: ds) m v 0) as (m' & Z & O & V); auto.
      exists m'. split; auto. split; auto. intros k d E. destruct (V _ _ E) as (x & X & M). exists x. auto.
  - rewrite S. eexists. split; auto. split.
    + intros d N. rewrite store_exn. apply did_in_false in N. rewrite N. auto.
    + intros k d E. exists (VExc e). split; auto. rewrite store_exn. apply nth_error_In in E.
      apply did_in_In in E. rewrite E. auto.
Qed.

Definition tops (l : list val) : list dataid := flat_map (fun v => match v with VRef d => [d] | _ => [] end) l.

Definition task_tops (t : task) : list dataid := tops (k_args t) ++ tops (map snd (k_kw t)).

Definition task_suits (t : task) : Prop :=
  match k_callee t with
  | Fun f => forall vs ks, suits item iterable storable (length (k_out t)) (body f vs ks)
  | Meth a m => forall s vs ks, suits item iterable storable (length (k_out t)) (fst (mbody m s vs ks))
  end.

Record PI (st : pst) (h : hist) : Prop := {
  pi_alive : forall w, p_dead st w = false;
  pi_known : forall d, In d (returned h) -> fst d = 0 /\ snd d < p_next st /\ p_store st d <> None;
  pi_delayed : forall d, In d (returned h) -> p_store st d = Some Delayed ->
               exists t, pending st t /\ In d (k_out t);
  pi_tops : forall w t d, In (w, t) (p_log st) -> In d (task_tops t) ->
            In d (returned h) /\ forall w' t', In (w', t') (p_log st) -> In d (k_out t') -> k_id t' < k_id t;
  pi_outs : forall w t d, In (w, t) (p_log st) -> In d (k_out t) -> snd d < p_next st;
  pi_nodup : forall w t, In (w, t) (p_log st) -> NoDup (k_out t);
  pi_suits : forall w t, In (w, t) (p_log st) -> task_suits t
}.

Hypothesis exc_storable : forall e, storable (VExc e) = true.

Lemma pending_log : forall st w t, QI st -> In t (p_queue st w) -> In (w, t) (p_log st).
Proof.
  intros st w t I J. apply placed_In. rewrite <- (qi_queues _ I). apply in_or_app. auto.
Qed.

(** The outcome of a task that is worked on suits it. *)
Lemma work_suits : forall st w st', QI st ->
  (forall w t, In (w, t) (p_log st) -> task_suits t) -> work st w = Some st' ->
  exists t q r acts m, p_queue st w = t :: q /\ In (w, t) (p_log st) /\
    suits item iterable storable (length (k_out t)) r /\ same_actors (p_actors st) acts /\
    store_outcome item iterable storable (p_store st) (k_out t) r = (m, snd (store_outcome item iterable storable (p_store st) (k_out t) r)) /\
    st' = {| p_next := p_next st; p_store := m; p_queue := upd (p_queue st) w q;
           p_done := upd (p_done st) w (p_done st w ++ [t]);
           p_dead := if snd (store_outcome item iterable storable (p_store st) (k_out t) r) then p_dead st else upd (p_dead st) w true; p_taken := upd (p_taken st) w false;
           p_grab := p_grab st; p_wid := p_wid st; p_actors := acts; p_log := p_log st |}.
Proof.
  intros st w st' I TS H. apply work_spec in H.
  destruct H as (t & q & r & m & ok & acts & Q & D & S & SA & -> & R).
  assert (L : In (w, t) (p_log st)) by (apply pending_log; auto; rewrite Q; simpl; auto).
  exists t, q, r, acts, m. rewrite S. simpl. repeat split; auto.
  specialize (TS _ _ L). unfold task_suits in TS.
  destruct R as [(e & -> & _)|(vs & ks & _ & _ & C)]; [apply exc_storable|].
  unfold call in C. destruct (k_callee t) as [f|a mm].
  - apply pair_inj in C as [<- _]. auto.
  - destruct (nth_error (p_actors st) a) as [x|]; [destruct (t_live x)|].
    + specialize (TS (t_state x) vs (combine (map fst (k_kw t)) ks)).
      destruct (mbody mm (t_state x) vs (combine (map fst (k_kw t)) ks)) as [r' s]. apply pair_inj in C as [<- _]. auto.
    + apply pair_inj in C as [<- _]. apply exc_storable.
    + apply pair_inj in C as [<- _]. apply exc_storable.
Qed.

Lemma delay_spec : forall ds (m : dmap cell) d, delay m ds d = if did_in d ds then Some Delayed else m d.
Proof. clear.
  unfold delay. induction ds as [|x ds IH]; intros m d; simpl; auto. rewrite IH. unfold did_in. simpl.
  fold (did_in d ds). destruct (did_in d ds); [rewrite Bool.orb_true_r; auto|]. rewrite Bool.orb_false_r.
  destruct (did_eqb d x) eqn:E.
  - apply did_eqb_eq in E. subst. apply dput_same.
  - apply dput_other. apply did_eqb_neq in E. auto.
Qed.

Lemma new_ids_In : forall st n d, In d (new_ids st n) <-> fst d = 0 /\ p_next st <= snd d < p_next st + n.
Proof. clear.
  intros st n [a k]. unfold new_ids. rewrite in_map_iff. simpl. split.
  - intros (x & E & I). apply pair_inj in E as [<- <-]. apply in_seq in I. lia.
  - intros [-> L]. exists k. split; auto. apply in_seq. lia.
Qed.

Lemma new_ids_NoDup : forall st n, NoDup (new_ids st n).
Proof. clear.
  intros. unfold new_ids. apply FinFun.Injective_map_NoDup; [|apply seq_NoDup].
  intros x y E. apply pair_inj in E. tauto.
Qed.

Lemma refs_out_returned : forall ds o h, returned ((o, refs_out ds) :: h) = ds ++ returned h.
Proof. clear. intros ds o h. destruct ds as [|d [|d2 ds]]; reflexivity. Qed.

Lemma pi_place : forall st h t w wid o, QI st -> PI st h -> k_id t = length (p_log st) ->
  k_out t = new_ids st (length (k_out t)) -> incl (task_tops t) (returned h) -> task_suits t ->
  PI (place_task st t w wid) ((o, refs_out (k_out t)) :: h).
Proof.
  intros st h t w wid o QIst [P1 P2 P3 P4 P5 P6 P7] K O T S.
  assert (FR : forall d, In d (k_out t) -> fst d = 0 /\ p_next st <= snd d < p_next st + length (k_out t)).
  { intros d J. rewrite O in J. apply new_ids_In in J. auto. }
  split; cbn [place_task p_dead p_next p_store p_log]; auto.
  - intros d J. rewrite refs_out_returned in J. rewrite delay_spec. apply in_app_or in J. destruct J as [J|J].
    + destruct (FR _ J). split; auto. split; [lia|]. apply did_in_In in J. rewrite J. discriminate.
    + destruct (P2 _ J) as (A & B & C). split; auto. split; [lia|]. destruct (did_in d (k_out t)); auto. discriminate.
  - intros d J D. rewrite refs_out_returned in J. rewrite delay_spec in D.
    destruct (did_in d (k_out t)) eqn:E.
    + apply did_in_In in E. exists t. split; auto. exists w. cbn [place_task p_queue]. rewrite upd_same.
      apply in_or_app. simpl. auto.
    + apply did_in_false in E. apply in_app_or in J. destruct J as [J|J]; [contradiction|].
      destruct (P3 _ J D) as (t' & (w' & Q) & I). exists t'. split; auto. exists w'. cbn [place_task p_queue].
      destruct (Nat.eq_dec w' w) as [->|N]. * rewrite upd_same. apply in_or_app. auto. * rewrite upd_other; auto.
  - intros w' t' d J I. apply in_app_or in J. destruct J as [J|[E|[]]].
    + destruct (P4 _ _ _ J I) as [R L]. split; [rewrite refs_out_returned; apply in_or_app; auto|].
      intros w2 t2 J2 I2. apply in_app_or in J2. destruct J2 as [J2|[E|[]]]; eauto.
      apply pair_inj in E as [<- <-]. destruct (P2 _ R) as (_ & B & _). apply FR in I2. lia.
    + apply pair_inj in E as [<- <-]. specialize (T _ I). split; [rewrite refs_out_returned; apply in_or_app; auto|].
      intros w2 t2 J2 I2. apply in_app_or in J2. destruct J2 as [J2|[E|[]]].
      * rewrite K. assert (M : In (k_id t2) (map (fun x => k_id (snd x)) (p_log st))).
        { apply in_map_iff. exists (w2, t2). auto. }
        rewrite (qi_ids _ QIst) in M. apply in_seq in M. lia.
      * apply pair_inj in E as [<- <-]. destruct (P2 _ T) as (_ & B & _). apply FR in I2. lia.
  - intros w' t' d J I. apply in_app_or in J. destruct J as [J|[E|[]]].
    + specialize (P5 _ _ _ J I). lia.
    + apply pair_inj in E as [<- <-]. apply FR in I. lia.
  - intros w' t' J. apply in_app_or in J. destruct J as [J|[E|[]]]; eauto.
    apply pair_inj in E as [<- <-]. rewrite O. apply new_ids_NoDup.
  - intros w' t' J. apply in_app_or in J. destruct J as [J|[E|[]]]; eauto. apply pair_inj in E as [<- <-]. auto.
Qed.

Lemma pi_quiet : forall st st' h o out, PI st h -> returned [(o, out)] = [] ->
  p_dead st' = p_dead st -> p_next st <= p_next st' ->
  (forall d, snd d < p_next st -> p_store st' d = p_store st d) ->
  p_queue st' = p_queue st -> p_log st' = p_log st -> PI st' ((o, out) :: h).
Proof.
  intros st st' h o out [P1 P2 P3 P4 P5 P6 P7] R D N S Q L.
  assert (RR : returned ((o, out) :: h) = returned h).
  { change ((o, out) :: h) with ([(o, out)] ++ h). unfold returned in *. rewrite flat_map_app, R. auto. }
  split; rewrite ?RR, ?D, ?L; auto.
  - intros d J. destruct (P2 _ J) as (A & B & C). split; auto. split; [lia|]. rewrite S; auto.
  - intros d J E. destruct (P2 _ J) as (A & B & C). rewrite S in E by auto. destruct (P3 _ J E) as (t & (w & W) & I).
    exists t. split; auto. exists w. rewrite Q. auto.
  - intros w t d J I. specialize (P5 _ _ _ J I). lia.
Qed.

Lemma pi_same : forall st st' h, PI st h -> p_dead st' = p_dead st -> p_next st' = p_next st ->
  p_store st' = p_store st -> p_queue st' = p_queue st -> p_log st' = p_log st -> PI st' h.
Proof.
  intros st st' h [P1 P2 P3 P4 P5 P6 P7] D N S Q L. split; rewrite ?D, ?L, ?N, ?S; auto.
  intros d J E. destruct (P3 _ J E) as (t & (w & W) & I). exists t. split; auto. exists w. rewrite Q. auto.
Qed.

Lemma pi_work : forall st h w st', QI st -> PI st h -> work st w = Some st' -> PI st' h.
Proof.
  intros st h w st' QIst PIst H. apply work_suits in H; auto; [|apply PIst].
  destruct H as (t & q & r & acts & m & Q & L & SU & SA & SO & ->).
  destruct PIst as [P1 P2 P3 P4 P5 P6 P7].
  destruct (store_outcome_spec (p_store st) (k_out t) r SU (P6 _ _ L)) as (m' & E & O & V).
  rewrite E in SO. simpl in SO. apply pair_inj in SO as [<- _]. rewrite E. simpl.
  assert (INV : forall d, In d (k_out t) -> exists x, m' d = Some (Cell x)).
  { intros d J. apply In_nth_error in J. destruct J as [k J]. destruct (V _ _ J) as (x & X & _). eauto. }
  split; cbn [p_dead p_next p_store p_log]; auto.
  - intros d J. destruct (P2 _ J) as (A & B & C). split; auto. split; auto.
    destruct (in_dec did_dec d (k_out t)) as [I|N]. + destruct (INV _ I) as [x ->]. discriminate.
    + rewrite O; auto.
  - intros d J D. destruct (in_dec did_dec d (k_out t)) as [I|N].
    + destruct (INV _ I) as [x X]. rewrite X in D. discriminate.
    + rewrite O in D by auto. destruct (P3 _ J D) as (t' & (w' & W) & I). exists t'. split; auto.
      exists w'. cbn [p_queue]. destruct (Nat.eq_dec w' w) as [->|NW].
      * rewrite upd_same. rewrite Q in W. destruct W as [<-|W]; [contradiction|auto].
      * rewrite upd_other; auto.
Qed.

Lemma pi_step : forall st h o st' e, QI st -> KI st -> PI st h -> pstep st o = (st', e) ->
  (forall q out, e = Some (q, out) -> known h q) ->
  (forall f args kw n, o = PSubmit f args kw n -> forall vs ks, suits item iterable storable n (body f vs ks)) ->
  (forall a m args kw n, o = PCall a m args kw n ->
     forall s vs ks, suits item iterable storable n (fst (mbody m s vs ks))) ->
  match e with Some x => PI st' (x :: h) | None => PI st' h end.
Proof.
  intros st h o st' e QIst KIst PIst H K B1 B2. destruct o; cbn [PympModel.pstep] in H.
  - apply pair_inj in H as [<- <-]. destruct PIst as [P1 P2 P3 P4 P5 P6 P7].
    assert (NE : forall d, In d (returned h) -> (0, p_next st) <> d).
    { intros d J <-. destruct (P2 _ J) as (_ & B & _). simpl in B. lia. }
    split; cbn [p_dead p_next p_store p_log]; auto.
    + intros d J. simpl in J. destruct J as [<-|J].
      * simpl. split; auto. split; [lia|]. rewrite dput_same. discriminate.
      * destruct (P2 _ J) as (A & B & C). split; auto. split; [lia|]. rewrite dput_other; auto.
    + intros d J D. simpl in J. destruct J as [<-|J]; [rewrite dput_same in D; discriminate|].
      rewrite dput_other in D by auto. destruct (P3 _ J D) as (t & (w & W) & I). exists t. split; auto. exists w. auto.
    + intros w t d J I. destruct (P4 _ _ _ J I). simpl. auto.
    + intros w t d J I. specialize (P5 _ _ _ J I). lia.
  - destruct (pick nw (p_grab st) (p_wid st) nw) as [[w|] wid] eqn:P; apply pair_inj in H as [<- <-].
    + set (t := {| k_id := length (p_log st); k_callee := Fun f; k_args := args; k_kw := kw; k_out := new_ids st n |}).
      apply pi_place; auto.
      * simpl. unfold new_ids at 3. rewrite map_length, seq_length. auto.
      * apply (K _ _ eq_refl).
      * unfold task_suits. simpl. unfold new_ids. rewrite map_length, seq_length. eapply B1; eauto.
    + apply (pi_quiet st); auto; simpl; [lia|].
      intros d L. rewrite delay_spec. replace (did_in d (new_ids st n)) with false; auto. symmetry.
      apply did_in_false. intros J. apply new_ids_In in J. lia.
  - destruct (cbody c args kw) as [s|x].
    + destruct (grab_worker nw (p_grab st)) as [w|]; apply pair_inj in H as [<- <-]; apply (pi_quiet st); auto.
    + apply pair_inj in H as [<- <-]; apply (pi_quiet st); auto.
  - destruct (nth_error (p_actors st) a) as [x|]; [|apply pair_inj in H as [<- <-]; auto].
    destruct (t_live x); apply pair_inj in H as [<- <-]; auto.
    set (t := {| k_id := length (p_log st); k_callee := Meth a m; k_args := args; k_kw := kw; k_out := new_ids st n |}).
    apply pi_place; auto.
    + simpl. unfold new_ids at 3. rewrite map_length, seq_length. auto.
    + apply (K _ _ eq_refl).
    + unfold task_suits. simpl. unfold new_ids. rewrite map_length, seq_length. eapply B2; eauto.
  - destruct (nth_error (p_actors st) a) as [x|]; [|apply pair_inj in H as [<- <-]; auto].
    destruct (t_live x); apply pair_inj in H as [<- <-]; auto. apply (pi_same st); auto.
  - apply pair_inj in H as [<- <-]. destruct (ki_take st w KIst) as [-> | ->]; auto. apply (pi_same st); auto.
  - destruct (work st w) as [st1|] eqn:W; apply pair_inj in H as [<- <-]; auto. eapply pi_work; eauto.
Qed.

Lemma legal_tail : forall h2 h1, legal (h2 ++ h1) -> legal h1.
Proof. clear. induction h2 as [|[o out] h2 IH]; intros h1 L; simpl in *; auto. apply IH. tauto. Qed.

Lemma pi_run_gen : forall ops st h st' h', QI st -> KI st -> PI st h -> prun st h ops = (st', h') -> legal h' ->
  behaved body mbody item iterable storable ops -> handles_kept (fun l => fst (prun st h l)) ops -> PI st' h'.
Proof.
  induction ops as [|o r IH]; intros st h st' h' Q KI0 P H L B HK; simpl in H.
  - apply pair_inj in H as [<- <-]. auto.
  - destruct (pstep st o) as [st1 e] eqn:S.
    assert (K : forall q out, e = Some (q, out) -> known h q).
    { intros q out ->. apply prun_ext in H. destruct H as [x ->]. apply legal_tail in L. simpl in L. tauto. }
    destruct B as (B0 & B1 & B2).
    assert (B' : behaved body mbody item iterable storable r).
    { split; auto. split; intros.
      - eapply B1. simpl. eauto.
      - eapply B2. simpl. eauto. }
    pose proof (qi_step _ _ _ _ Q S) as Q1.
    destruct (kept_step _ _ _ _ _ _ S HK) as [HD HR].
    pose proof (ki_step _ _ _ _ Q KI0 S HD) as K1.
    pose proof (pi_step _ _ _ _ _ Q KI0 P S K) as P1.
    assert (C1 : forall f args kw n, o = PSubmit f args kw n -> forall vs ks, suits item iterable storable n (body f vs ks)).
    { intros f args kw n -> vs ks. eapply B1. simpl. eauto. }
    assert (C2 : forall a m args kw n, o = PCall a m args kw n ->
      forall s vs ks, suits item iterable storable n (fst (mbody m s vs ks))).
    { intros a m args kw n -> s vs ks. eapply B2. simpl. eauto. }
    specialize (P1 C1 C2). destruct e as [e|]; eapply IH; eauto.
Qed.

Lemma pi_init : PI pinit [].
Proof. split; simpl; auto; try contradiction. Qed.

Lemma min_exists : forall (l : list task) t, In t l -> exists m, In m l /\ forall x, In x l -> k_id m <= k_id x.
Proof.
  induction l as [|y l IH]; intros t I; [destruct I|]. destruct l as [|z l].
  - exists y. split; simpl; auto. intros x [<-|[]]. auto.
  - destruct (IH z) as (m & M & L); [simpl; auto|]. destruct (Nat.le_gt_cases (k_id y) (k_id m)).
    + exists y. split; [simpl; auto|]. intros x [<-|X]; auto. specialize (L x X). lia.
    + exists m. split; [simpl in *; auto|]. intros x [<-|X]; auto. lia.
Qed.

(** Within one queue tasks are in the order of submission. *)
Lemma sorted_filter : forall (f : nat * task -> bool) l k,
  map (fun x => k_id (snd x)) l = seq k (length l) ->
  forall pre t post, map snd (filter f l) = pre ++ t :: post -> forall t', In t' post -> k_id t < k_id t'.
Proof.
  intros f. induction l as [|x l IH]; intros k E pre t post F t' I; simpl in *.
  - destruct pre; discriminate.
  - assert (E1 : k_id (snd x) = k) by congruence.
    assert (E2 : map (fun x => k_id (snd x)) l = seq (S k) (length l)) by congruence. clear E. destruct (f x).
    + simpl in F. destruct pre as [|p pre]; simpl in F.
      * assert (A : t = snd x) by congruence. assert (B : post = map snd (filter f l)) by congruence. subst t post.
        apply in_map_iff in I. destruct I as (y & <- & Y). apply filter_In in Y. destruct Y as [Y _].
        assert (M : In (k_id (snd y)) (seq (S k) (length l))).
        { rewrite <- E2. apply in_map_iff. eauto. }
        apply in_seq in M. lia.
      * apply (IH (S k) E2 pre t post); auto. congruence.
    + apply (IH (S k) E2 pre t post); auto.
Qed.

Lemma head_first : forall st w t q t', QI st -> p_queue st w = t :: q -> In t' (p_queue st w) -> k_id t <= k_id t'.
Proof.
  intros st w t q t' I Q J. rewrite Q in J. destruct J as [<-|J]; auto. apply Nat.lt_le_incl.
  pose proof (qi_queues _ I w) as E. rewrite Q in E.
  eapply sorted_filter; [apply (qi_ids _ I)| |exact J]. symmetry. exact E.
Qed.

Lemma pmat_ready : forall st l, (forall d, In d (tops l) -> p_store st d <> Some Delayed) -> pmat bytes loads st l <> MatLater.
Proof.
  intros st. induction l as [|v l IH]; intros H; simpl; [discriminate|].
  assert (R : forall d, In d (tops l) -> p_store st d <> Some Delayed).
  { intros d J. apply H. unfold tops. simpl. apply in_or_app. auto. }
  specialize (IH R).
  assert (D : (match v with VRef d => pget bytes loads st d | _ => Look (Ret v) end) <> Later).
  { destruct v; try discriminate. unfold pget. specialize (H d). destruct (p_store st d) as [[|c]|]; try discriminate.
    exfalso. apply H; auto. unfold tops. simpl. auto. }
  destruct (match v with VRef d => pget bytes loads st d | _ => Look (Ret v) end) as [[x|e]| |]; try discriminate.
  - destruct (pmat bytes loads st l); try discriminate. contradiction.
  - contradiction.
Qed.

Lemma progress_inv : forall st h t, QI st -> KI st -> PI st h -> pending st t -> exists w st', work st w = Some st'.
Proof.
  intros st h t Q KIst P (w & W).
  set (all := flat_map (p_queue st) (seq 0 nw)).
  assert (A : forall w t, In t (p_queue st w) -> In t all).
  { intros w0 t0 J. apply in_flat_map. exists w0. split; auto. apply in_seq.
    assert (w0 < nw) by (eapply (qi_log _ Q); eapply pending_log; eauto). lia. }
  destruct (min_exists all t (A _ _ W)) as (m & M & L).
  apply in_flat_map in M. destruct M as (w1 & _ & M).
  destruct (p_queue st w1) as [|t1 q] eqn:Q1; [destruct M|].
  assert (L1 : forall w' x, In x (p_queue st w') -> k_id t1 <= k_id x).
  { intros w' x X. apply A in X. apply L in X. rewrite <- Q1 in M.
    pose proof (head_first _ _ _ _ _ Q Q1 M). lia. }
  assert (I1 : In (w1, t1) (p_log st)) by (apply pending_log; auto; rewrite Q1; simpl; auto).
  assert (R : forall d, In d (task_tops t1) -> p_store st d <> Some Delayed).
  { intros d J D. destruct (pi_tops _ _ P _ _ _ I1 J) as [R F].
    destruct (pi_delayed _ _ P _ R D) as (t2 & (w2 & Q2) & O).
    specialize (F _ _ (pending_log _ _ _ Q Q2) O). specialize (L1 _ _ Q2). lia. }
  assert (G1 : gone (p_actors st) t1 = false) by (apply KIst; exists w1; rewrite Q1; simpl; auto).
  exists w1. unfold PympModel.work. rewrite Q1, (pi_alive _ _ P), G1, Bool.andb_false_r.
  assert (R1 : pmat bytes loads st (k_args t1) <> MatLater)
    by (apply pmat_ready; intros d J; apply R; unfold task_tops; apply in_or_app; auto).
  assert (R2 : pmat bytes loads st (map snd (k_kw t1)) <> MatLater)
    by (apply pmat_ready; intros d J; apply R; unfold task_tops; apply in_or_app; auto).
  destruct (pmat bytes loads st (k_args t1)) as [vs|e|]; [| |contradiction].
  - destruct (pmat bytes loads st (map snd (k_kw t1))) as [ks|e|]; [| |contradiction].
    + destruct (call body mbody (p_actors st) t1 vs (combine (map fst (k_kw t1)) ks)) as [r acts].
      destruct (store_outcome item iterable storable (p_store st) (k_out t1) r). eauto.
    + destruct (store_outcome item iterable storable (p_store st) (k_out t1) (Exn e)). eauto.
  - destruct (store_outcome item iterable storable (p_store st) (k_out t1) (Exn e)). eauto.
Qed.
End Queue.

Section Progress.
Variable nw : nat.
Hypothesis pos : 0 < nw.
Variable body cbody : nat -> list val -> kwargs -> res.
Variable mbody : nat -> val -> list val -> kwargs -> res * val.
Variable item : val -> nat -> option val.
Variable iterable callable bytes : val -> bool.
Variable dumps : val -> val.
Variable loads : val -> res.
Variable storable : val -> bool.

Notation prun := (prun nw body cbody mbody item iterable callable bytes dumps loads storable).
Notation work := (work body mbody item iterable bytes loads storable).

Lemma progress : forall ops st h, prun pinit [] ops = (st, h) -> legal h ->
  behaved body mbody item iterable storable ops -> handles_kept (fun l => fst (prun pinit [] l)) ops ->
  forall t, pending st t -> exists w st', work st w = Some st'.
Proof.
  intros ops st h H L B HK t P. eapply (progress_inv nw); eauto.
  - eapply qi_run; eauto.
  - eapply ki_run_gen; eauto. + apply qi_init; auto. + apply ki_init.
  - eapply pi_run_gen; eauto. + apply B. + apply qi_init; auto. + apply ki_init. + apply pi_init.
Qed.

Lemma terminates : forall ops st h w st', prun pinit [] ops = (st, h) -> work st w = Some st' ->
  unfinished nw st = S (unfinished nw st').
Proof. intros ops st h w st' H. eapply unfinished_step; eauto. eapply qi_run; eauto. Qed.

Lemma all_computed : forall ops st h, prun pinit [] ops = (st, h) -> legal h ->
  behaved body mbody item iterable storable ops -> handles_kept (fun l => fst (prun pinit [] l)) ops ->
  (forall w, work st w = None) ->
  (forall t, ~ pending st t) /\ forall d, In d (returned h) -> exists r, pget bytes loads st d = Look r.
Proof.
  intros ops st h H L B HK N.
  assert (NP : forall t, ~ pending st t).
  { intros t P. destruct (progress _ _ _ H L B HK t P) as (w & st' & W). rewrite N in W. discriminate. }
  split; auto. intros d J.
  assert (P : PI body mbody item iterable storable st h).
  { eapply pi_run_gen; eauto. + apply B. + apply qi_init; auto. + apply ki_init. + apply pi_init. }
  destruct (pi_known _ _ _ _ _ _ _ P _ J) as (_ & _ & S). unfold pget.
  destruct (p_store st d) as [[|v]|] eqn:E; [| |contradiction].
  - destruct (pi_delayed _ _ _ _ _ _ _ P _ J E) as (t & T & _). destruct (NP _ T).
  - eauto.
Qed.
End Progress.

(** ** wait *)
From Coq Require Import Permutation.

Lemma pop_at_perm : forall l i x r, pop_at l i = Some (x, r) -> Permutation l (x :: r).
Proof.
  intros l i x r H. unfold pop_at in H. destruct (nth_error l i) eqn:E; [|discriminate].
  apply Some_inj in H. apply pair_inj in H as [-> <-]. apply nth_error_split in E.
  destruct E as (l1 & l2 & -> & <-). rewrite firstn_app, skipn_app, Nat.sub_diag, (skipn_all2 l1), firstn_all, app_nil_r by lia.
  replace (S (length l1) - length l1) with 1 by lia. simpl. symmetry. apply Permutation_middle.
Qed.

Lemma scan_perm : forall ready n snap idx acc ids acc' ids',
  wait_scan ready n idx snap acc ids = Some (acc', ids') -> Permutation (acc ++ ids) (acc' ++ ids').
Proof.
  intros ready n snap. induction snap as [|d r IH]; intros idx acc ids acc' ids' H; simpl in H.
  - apply Some_inj in H. apply pair_inj in H as [<- <-]. auto.
  - destruct (ready idx d).
    + destruct (pop_at ids idx) as [[x ids1]|] eqn:P; [|discriminate]. apply pop_at_perm in P.
      assert (Q : Permutation (acc ++ ids) ((acc ++ [x]) ++ ids1)).
      { rewrite <- app_assoc. simpl. apply Permutation_app_head. auto. }
      destruct (Nat.eqb (length (acc ++ [x])) n).
      * apply Some_inj in H. apply pair_inj in H as [<- <-]. auto.
      * apply IH in H. rewrite Q. auto.
    + destruct (Nat.eqb (length acc) n).
      * apply Some_inj in H. apply pair_inj in H as [<- <-]. auto.
      * apply IH in H. auto.
Qed.

Lemma rest_perm : forall final n ids acc r nr, wait_rest final n acc ids = Waited r nr ->
  Permutation (acc ++ ids) (r ++ nr) /\ length r = n.
Proof.
  intros final n. induction ids as [|d ids IH]; intros acc r nr H; simpl in H;
    destruct (Nat.eqb_spec (length acc) n).
  - inversion H. subst. auto.
  - discriminate.
  - inversion H. subst. auto.
  - destruct (final d); try discriminate. apply IH in H. rewrite <- app_assoc in H. auto.
Qed.

Lemma wait_partition : forall ready final ids n r nr, pwait ready final ids n = Waited r nr ->
  Permutation ids (r ++ nr) /\ length r = n.
Proof.
  intros ready final ids n r nr H. unfold pwait in H.
  destruct (wait_scan ready n 0 ids [] ids) as [[acc rest]|] eqn:S; [|discriminate].
  apply scan_perm in S. apply rest_perm in H. destruct H as [H L]. split; auto.
  simpl in S. eapply Permutation_trans; eauto.
Qed.

(** One reference: the one that is returned is computed. *)
Lemma scan_one : forall ready final ids0 snap idx pre,
  (forall k d, ready k d = true -> final d = FDone) -> ids0 = pre ++ snap -> length pre = idx ->
  match wait_scan ready 1 idx snap [] ids0 with
  | Some ([], rest) => rest = ids0
  | Some ([d], rest) => final d = FDone
  | _ => False
  end.
Proof.
  intros ready final ids0 snap. induction snap as [|d r IH]; intros idx pre F E L; cbn [wait_scan]; auto.
  destruct (ready idx d) eqn:R.
  - assert (N : nth_error ids0 idx = Some d).
    { subst ids0 idx. rewrite nth_error_app2, Nat.sub_diag by auto. auto. }
    unfold pop_at. rewrite N. simpl. eauto.
  - simpl. apply (IH (S idx) (pre ++ [d])); auto.
    + rewrite <- app_assoc. auto.
    + rewrite app_length. simpl. lia.
Qed.

Lemma wait_one : forall ready final ids r nr,
  (forall k d, ready k d = true -> really_ready final d) -> pwait ready final ids 1 = Waited r nr ->
  exists d, r = [d] /\ really_ready final d.
Proof.
  intros ready final ids r nr F H. unfold pwait in H.
  pose proof (scan_one ready final ids ids 0 [] F eq_refl eq_refl) as S.
  destruct (wait_scan ready 1 0 ids [] ids) as [[acc rest]|]; [|contradiction].
  destruct acc as [|d [|d2 acc]]; [| |contradiction].
  - subst rest. destruct ids as [|d ids]; simpl in H; [discriminate|].
    destruct (final d) eqn:E; try discriminate. exists d. split; auto.
    destruct ids; simpl in H; inversion H; auto.
  - exists d. split; auto. destruct rest; simpl in H; inversion H; auto.
Qed.

(** wait(ids, 1) with a computed reference, or one that will be, returns. *)
Lemma wait_one_returns : forall ready final ids,
  ids <> [] -> (forall k d, ready k d = true -> really_ready final d) ->
  (forall d, In d ids -> final d = FDone) -> exists r nr, pwait ready final ids 1 = Waited r nr.
Proof.
  intros ready final ids NE F D. unfold pwait.
  pose proof (scan_one ready final ids ids 0 [] F eq_refl eq_refl) as S.
  destruct (wait_scan ready 1 0 ids [] ids) as [[acc rest]|]; [|contradiction].
  destruct acc as [|d [|d2 acc]]; [| |contradiction].
  - subst rest. destruct ids as [|d ids]; [contradiction|]. simpl. rewrite (D d) by (simpl; auto).
    destruct ids; simpl; eauto.
  - destruct rest; simpl; eauto.
Qed.
