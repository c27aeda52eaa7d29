(** What a worker notes down about references in one turn: to whom values were sent and who waits for them. *)
From Verif Require Import Lib ShmModel ShmRaceProofs ValModel WorkerModel WorkerSpec WorkerProofs WorkerLog WorkerReady WorkerTrace WorkerAnswer WorkerOrder WorkerSends.

(** Values are noted as sent only if they are there; what is there stays; no new requests are noted. *)
Record Rec (w w' : wst) : Prop := {
  rc_sent : forall p, In p (sent w') -> In p (sent w) \/ store w' (fst p) <> None;
  rc_store : forall d, store w d <> None -> store w' d <> None;
  rc_gets : incl (gets w') (gets w);
  rc_bgets : incl (bgets w') (bgets w)
}.

Lemma rec_same w w' : store w' = store w -> sent w' = sent w -> gets w' = gets w -> bgets w' = bgets w -> Rec w w'.
Proof. intros E1 E2 E3 E4. split; rewrite ?E1, ?E2, ?E3, ?E4; auto; apply incl_refl. Qed.

Lemma rec_refl w : Rec w w.
Proof. apply rec_same; auto. Qed.

Lemma rec_trans a b c : Rec a b -> Rec b c -> Rec a c.
Proof.
  intros [A1 A2 A3 A4] [B1 B2 B3 B4]. split; eauto using incl_tran.
  intros p P. apply B1 in P as [P|P]; auto. apply A1 in P as [P|P]; auto.
Qed.

Lemma in_ranks d r l : In r (ranks_of d l) <-> In (d, r) l.
Proof.
  unfold ranks_of. rewrite in_map_iff. split.
  - intros ([x y] & E & I). apply filter_In in I as [I X]. simpl in *. apply did_eqb_eq in X. congruence.
  - intros I. exists (d, r). split; auto. apply filter_In. split; auto. apply did_eqb_refl.
Qed.

Lemma add_pair_incl p l l' : In p l' -> incl l l' -> incl (add_pair p l) l'.
Proof. intros I H. unfold add_pair. destruct (pair_in p l); auto. apply incl_app; auto. intros x [<-|[]]; auto. Qed.

(** Answering, or noting, a request that is noted already. *)
Lemma rec_get w r d b : In (d, r) (if b : bool then bgets w else gets w) -> Rec w (process_get w r d b).
Proof.
  intros I. unfold process_get. destruct (store w d) as [v|] eqn:E.
  - destruct (pair_in (d, r) (sent w)); [apply rec_refl|]. split; simpl; auto using incl_refl.
    intros p P. apply in_app_or in P as [P|[<-|[]]]; auto. right. simpl. rewrite E. discriminate.
  - destruct b; split; simpl; auto using incl_refl; apply add_pair_incl; auto using incl_refl.
Qed.

Lemma add_pair_keep p x l : In x l -> In x (add_pair p l).
Proof. intros I. unfold add_pair. destruct (pair_in p l); auto. apply in_or_app; auto. Qed.

Lemma get_keeps w r d b x : In x (if b : bool then bgets w else gets w) ->
  In x (if b then bgets (process_get w r d b) else gets (process_get w r d b)).
Proof.
  intros I. unfold process_get. destruct (store w d).
  - destruct (pair_in (d, r) (sent w)); destruct b; auto.
  - destruct b; simpl; apply add_pair_keep; auto.
Qed.

Lemma rec_fold d b l : forall w, (forall r, In r l -> In (d, r) (if b : bool then bgets w else gets w)) ->
  Rec w (fold_left (fun w r => process_get w r d b) l w).
Proof.
  induction l as [|r l IH]; intros w H; simpl; [apply rec_refl|].
  eapply rec_trans; [apply rec_get; apply H; simpl; auto|]. apply IH. intros x X. apply get_keeps. apply H. simpl; auto.
Qed.

Lemma without_incl d l : incl (without d l) l.
Proof. intros x I. apply filter_In in I. tauto. Qed.

Lemma rec_request w d : Rec w (check_request w d).
Proof.
  unfold check_request. set (w1 := fold_left (fun w r => process_get w r d false) (ranks_of d (gets w)) w).
  assert (R1 : Rec w w1) by (apply (rec_fold d false); intros r; apply in_ranks).
  eapply rec_trans; [exact R1|]. cbv zeta.
  set (w2 := set_gets w1 (without d (gets w1)) (bgets w1)).
  assert (R2 : Rec w1 w2) by (split; simpl; auto using incl_refl, without_incl).
  eapply rec_trans; [exact R2|].
  set (w3 := fold_left (fun w r => process_get w r d true) (ranks_of d (bgets w2)) w2).
  assert (R3 : Rec w2 w3) by (apply (rec_fold d true); intros r; apply in_ranks).
  eapply rec_trans; [exact R3|]. split; simpl; auto using incl_refl, without_incl.
Qed.

Lemma rec_check_gets ds : forall w, Rec w (check_gets w ds).
Proof.
  unfold check_gets. induction ds as [|d ds IH]; intros w; simpl; [apply rec_refl|].
  eapply rec_trans; [apply rec_request|apply IH].
Qed.

Lemma rec_asks self w w' : Asks self w w' -> Rec w w'.
Proof. induction 1; [apply rec_refl|]. eapply rec_trans; [|exact IHAsks]. apply rec_same; reflexivity. Qed.

Lemma rec_emit w e : Rec w (emit w e).
Proof. apply rec_same; reflexivity. Qed.

Section Rec.
Variable self : rank.
Variable body : val -> val -> val -> result.
Variable mbody : list call -> call -> result.
Variable is_async : callee -> bool.
Hypothesis body_ok : forall f a k, no_refs_returned (body f a k).
Hypothesis mbody_ok : forall h c, no_refs_returned (mbody h c).

Lemma rec_evaluated w n c args kwargs st : WI body mbody w ->
  Rec w (put_all (fst (evaluate body mbody w n c args kwargs)) st).
Proof using.
  intros I.
  destruct (evaluate_spec body mbody w n c args kwargs (wi_calls _ _ _ I))
    as (_ & _ & E1 & _ & _ & E4 & E5 & E6 & _).
  set (w3 := fst (evaluate body mbody w n c args kwargs)) in *.
  destruct (put_all_fields st w3) as (P1&_&_&P4&P5&P6&_).
  split; rewrite ?P4, ?P5, ?P6, ?E4, ?E5, ?E6; auto using incl_refl.
  intros d D. rewrite P1. apply dput_all_mono. rewrite E1. auto.
Qed.

Lemma rec_process w q w' kept : WI body mbody w ->
  process_task self body mbody is_async w q = Some (w', kept) -> Rec w w'.
Proof using body_ok mbody_ok.
  intros I H. apply process_task_spec in H; [|eapply wi_clean'; eauto].
  destruct H as [args kwargs As _ _ _ _ | c args kwargs w2 As _ _ _ _ _ _ _ Y
                | c args kwargs w2 st done As _ _ _ _ _ _ _ R ->].
  - eapply rec_asks; eauto.
  - subst w'. eapply rec_trans; [eapply rec_asks; eauto|].
    eapply rec_trans; [|eapply rec_check_gets]. apply rec_same; reflexivity.
  - assert (I2 : WI body mbody w2) by (eapply wi_quietly; eauto; eapply quietly_asks; eauto).
    eapply rec_trans; [eapply rec_asks; eauto|].
    eapply rec_trans; [|eapply rec_check_gets].
    eapply rec_trans; [|apply rec_emit].
    eapply rec_trans; [|eapply rec_check_gets].
    apply rec_evaluated; auto.
Qed.

Lemma rec_recheck l : forall w w' l', WI body mbody w -> (forall q, In q l -> From (log w) q) ->
  recheck self body mbody is_async w l = Some (w', l') -> Rec w w'.
Proof using body_ok mbody_ok.
  induction l as [|q l IH]; intros w w' l' I F H; simpl in H.
  - apply Some_inj in H; apply pair_inj in H as [<- <-]. apply rec_refl.
  - destruct (process_task self body mbody is_async w q) as [[w1 kept]|] eqn:E; [|discriminate].
    destruct (recheck self body mbody is_async w1 l) as [[w2 l2]|] eqn:E2; [|discriminate].
    apply Some_inj in H; apply pair_inj in H as [<- <-].
    eapply rec_trans; [eapply rec_process; eauto|].
    apply process_task_wi in E as (I1 & K1 & _); auto; [|apply F; simpl; auto].
    apply (IH w1 w2 l2); auto. intros x X. destruct (k_log _ _ K1) as [t ->]. apply from_app, F. simpl; auto.
Qed.

Lemma rec_tasks w w' : WI body mbody w -> check_tasks self body mbody is_async w = Some w' -> Rec w w'.
Proof using body_ok mbody_ok.
  intros I H. unfold check_tasks in H.
  destruct (recheck self body mbody is_async w (pend w)) as [[w1 l]|] eqn:E; [|discriminate].
  apply Some_inj in H as <-. apply (rec_trans _ w1); [|apply rec_same; reflexivity].
  apply rec_recheck in E; auto. intros q Q; apply I; auto.
Qed.

Lemma rec_actor_tasks w w' : WI body mbody w -> check_actor_tasks self body mbody is_async w = Some w' -> Rec w w'.
Proof using body_ok mbody_ok.
  intros I H. unfold check_actor_tasks in H.
  destruct (recheck self body mbody is_async w (apend w)) as [[w1 l]|] eqn:E; [|discriminate].
  apply Some_inj in H as <-. apply (rec_trans _ w1); [|apply rec_same; reflexivity].
  apply rec_recheck in E; auto. intros q Q; apply I; auto.
Qed.

(** One turn. *)
Lemma rec_step w m w' : WI body mbody w -> (forall d v, m = WPut d v -> refs v = []) -> ready w = false ->
  wstep self body mbody is_async w m = Some w' ->
  match m with
  | WGet s d b => (forall p, In p (sent w') -> In p (sent w) \/ store w' (fst p) <> None) /\ store w' = store w /\
      incl (gets w') ((d, s) :: gets w) /\ incl (bgets w') ((d, s) :: bgets w)
  | WClean ds => store w' = forget ds (store w) /\ sent w' = filter (fun p => negb (did_in (fst p) ds)) (sent w) /\
      gets w' = gets w /\ bgets w' = bgets w
  | _ => Rec w w'
  end.
Proof using body_ok mbody_ok.
  intros I N Rd H. unfold wstep in H. rewrite Rd in H.
  assert (I0 := emit_in_wi body mbody body_ok mbody_ok w m I N).
  assert (G0 := rec_emit w (EvIn m)).
  destruct m.
  - eapply rec_trans; [exact G0|].
    assert (Fq : From (log (emit w (EvIn (WExec q)))) q) by apply (from_new w q false).
    set (w0 := emit w (EvIn (WExec q))) in *.
    destruct (process_task self body mbody is_async w0 q) as [[w1 [q'|]]|] eqn:E; [| |discriminate].
    + apply Some_inj in H as <-. apply (rec_trans _ w1); [|apply rec_same; reflexivity]. eapply rec_process; eauto.
    + assert (G1 := rec_process _ _ _ _ I0 E). apply process_task_wi in E as (I1 & _); auto.
      eapply rec_trans; [exact G1|]. apply (rec_tasks w1 w'); auto.
  - eapply rec_trans; [exact G0|].
    assert (Fq : From (log (emit w (EvIn (WActor q)))) q) by apply (from_new w q true).
    set (w0 := emit w (EvIn (WActor q))) in *.
    destruct (process_task self body mbody is_async w0 q) as [[w1 [q'|]]|] eqn:E; [| |discriminate].
    + apply Some_inj in H as <-. apply (rec_trans _ w1); [|apply rec_same; reflexivity]. eapply rec_process; eauto.
    + assert (G1 := rec_process _ _ _ _ I0 E). apply process_task_wi in E as (I1 & _); auto.
      eapply rec_trans; [exact G1|]. apply (rec_actor_tasks w1 w'); auto.
  - apply Some_inj in H as <-. unfold process_get. simpl. destruct (store w d) as [v|] eqn:E.
    + destruct (pair_in (d, src) (sent w)); simpl; [repeat split; auto; apply incl_tl, incl_refl|].
      split; [|repeat split; auto; apply incl_tl, incl_refl].
      intros p P. apply in_app_or in P as [P|[<-|[]]]; auto. right. simpl. rewrite E. discriminate.
    + destruct blocking; simpl; (split; [auto|]; split; [auto|]; split;
        try (apply incl_tl, incl_refl); apply add_pair_incl; [simpl; auto|apply incl_tl, incl_refl]).
  - set (w0 := emit w (EvIn (WPut d v))) in *.
    set (w2 := set_reqs (set_store w0 (dput (store w0) d v))
                 (filter (fun x => negb (did_eqb x d)) (reqs (set_store w0 (dput (store w0) d v))))) in H.
    assert (I2 : WI body mbody w2).
    { destruct I0 as [J1 J2 J3 J4 J5 J6]. split; auto. intros a x. unfold w2. simpl.
      destruct (did_dec d a) as [<-|Na].
      - rewrite dput_same. intros X. apply Some_inj in X as <-. left. apply in_or_app. simpl; auto.
      - rewrite dput_other by auto. intros X. apply J2. exact X. }
    assert (G2 : Rec w w2).
    { split; simpl; auto using incl_refl. intros a A.
      destruct (did_dec d a) as [<-|Na]; [rewrite dput_same; discriminate | rewrite dput_other; auto]. }
    destruct (check_tasks self body mbody is_async w2) as [w3|] eqn:E; [|discriminate].
    assert (G3 := rec_tasks _ _ I2 E). apply check_tasks_wi in E as (I3 & _); auto.
    eapply rec_trans; [exact G2|]. eapply rec_trans; [exact G3|]. apply (rec_actor_tasks w3 w'); auto.
  - apply Some_inj in H as <-. eapply rec_trans; [exact G0|]. apply rec_same; reflexivity.
  - apply Some_inj in H as <-. repeat split; reflexivity.
  - eapply rec_trans; [exact G0|]. set (w0 := emit w (EvIn (WFinish i))) in *.
    destruct (nth_error (running w0) i) as [[q c]|]; [|apply Some_inj in H as <-; apply rec_refl].
    apply Some_inj in H as <-. set (w1 := set_running w0 (remove_at i (running w0))).
    assert (I1 : WI body mbody w1).
    { destruct I0 as [J1 J2 J3 J4 J5 J6]. split; auto. intros q' c' X. apply J6.
      unfold w1 in X. simpl in X. apply remove_at_in in X. exact X. }
    eapply rec_trans; [apply (rec_same w0 w1); reflexivity|].
    unfold finish_async.
    assert (G2 := fun st => rec_evaluated w1 (q_id q) c (q_args q) (q_kwargs q) st I1).
    destruct (evaluate body mbody w1 (q_id q) c (q_args q) (q_kwargs q)) as [we re]. simpl in G2.
    rewrite store_result_eqn. destruct (results (q_out q) re) as [[st done]|]; [|apply (G2 [])].
    assert (G3 : Rec w1 (check_gets (put_all we st) (out_ids (q_out q)))).
    { eapply rec_trans; [apply G2|]. apply rec_check_gets. }
    destruct re; [destruct (q_out q)|]; auto; (eapply rec_trans; [exact G3|]; apply rec_emit).
  - apply Some_inj in H as <-. eapply rec_trans; [exact G0|]. split; simpl; auto; intros x [].
Qed.
End Rec.
