(** Sequential evaluation, and what a worker computes compared to it. *)
From Verif Require Import Lib ValModel ShmRaceProofs PushModel WorkerModel WorkerSpec WorkerLog ClusterModel ClusterSpec.

Lemma failure_same a k : first_failure (arguments a k) = failed_arg a k.
Proof.
  unfold failed_arg, arguments. generalize (elements a ++ elements k). induction l as [|x l IH]; auto.
  simpl. destruct x; simpl; auto.
Qed.

Section Seq.
Variable workers : list rank.
Variable body : val -> val -> val -> result.
Hypothesis body_ok : forall f a k, no_refs_returned (body f a k).
Notation E := (sequential body).

Lemma introduced_app a b : introduced (a ++ b) = introduced a ++ introduced b.
Proof. apply flat_map_app. Qed.

Lemma submitted_app a b : submitted (a ++ b) = submitted a ++ submitted b.
Proof. apply flat_map_app. Qed.

Lemma in_submitted prog dest q : In (dest, q) (submitted prog) <-> In (RSubmit dest q) prog.
Proof.
  unfold submitted. rewrite in_flat_map. split.
  - intros (o & I & H). destruct o; simpl in H; try tauto. destruct H as [H|[]].
    apply pair_inj in H as [-> ->]. auto.
  - intros I. exists (RSubmit dest q). simpl; auto.
Qed.

Lemma in_puts prog d : In d (puts prog) <-> exists v, In (RPut d v) prog.
Proof.
  unfold puts. rewrite in_flat_map. split.
  - intros (o & I & H). destruct o; simpl in H; try tauto. destruct H as [->|[]]. eauto.
  - intros (v & I). exists (RPut d v). simpl; auto.
Qed.

Lemma bind_each_other env : forall ds vs d, ~ In d ds -> bind_each env ds vs d = env d.
Proof.
  induction ds as [|x ds IH]; intros vs d H; simpl; auto. destruct vs; auto.
  rewrite dput_other; [apply IH|]; simpl in H; intuition.
Qed.

Lemma bind_other env o r d : ~ In d (out_ids o) -> bind env o r d = env d.
Proof.
  intros H. destruct o, r; simpl in *; auto.
  - apply dput_other; intuition.
  - apply dput_other; intuition.
  - apply bind_each_other; auto.
  - apply did_in_false in H. rewrite H. auto.
Qed.

Lemma step_other env o d : ~ In d (created o) -> seq_step body env o d = env d.
Proof.
  intros H. destruct o; simpl in *; auto.
  - apply dput_other. intuition.
  - destruct (q_fn q); auto. destruct (env d0); auto. destruct (forallb _ _); auto. apply bind_other; auto.
Qed.

Lemma keeps b : forall env d, ~ In d (introduced b) -> fold_left (seq_step body) b env d = env d.
Proof.
  induction b as [|o b IH]; intros env d H; simpl; auto.
  simpl in H. rewrite IH, step_other; auto; intros X; apply H, in_or_app; auto.
Qed.

Lemma seq_app a b : E (a ++ b) = fold_left (seq_step body) b (E a).
Proof. unfold sequential. apply fold_left_app. Qed.

Lemma nodup_sep {A} (a b : list A) x : NoDup (a ++ b) -> In x a -> ~ In x b.
Proof.
  intros N I J. apply in_split in J as (b1 & b2 & ->). rewrite app_assoc in N.
  apply NoDup_remove_2 in N. apply N, in_or_app. left. apply in_or_app; auto.
Qed.

Lemma stable a b d : NoDup (introduced (a ++ b)) -> In d (introduced a) -> E (a ++ b) d = E a d.
Proof.
  rewrite introduced_app, seq_app. intros N I. apply keeps. eapply nodup_sep; eauto.
Qed.

Lemma seq_dom a d : E a d <> None -> In d (introduced a).
Proof.
  intros H. destruct (in_dec did_dec d (introduced a)); auto. exfalso. apply H.
  unfold sequential. rewrite keeps; auto.
Qed.

Lemma seq_mono a b d v : NoDup (introduced (a ++ b)) -> E a d = Some v -> E (a ++ b) d = Some v.
Proof. intros N H. rewrite stable; auto. apply seq_dom. congruence. Qed.

Lemma seq_put prog d v : NoDup (introduced prog) -> In (RPut d v) prog -> E prog d = Some v.
Proof.
  intros N I. apply in_split in I as (a & b & ->).
  change (RPut d v :: b) with ([RPut d v] ++ b) in *. rewrite app_assoc in *. rewrite stable; auto.
  - rewrite seq_app. simpl. apply dput_same.
  - rewrite introduced_app. apply in_or_app. right. simpl; auto.
Qed.

(** The values bound for the outputs of a call. *)
Lemma bind_results env o r st done d v : NoDup (out_ids o) -> results o r = Some (st, done) ->
  In (d, v) st -> bind env o r d = Some v.
Proof.
  intros N H I. destruct r as [x|e], o as [|d0|ds]; simpl in H; try discriminate.
  - apply Some_inj in H; apply pair_inj in H as [<- <-]. destruct I.
  - apply Some_inj in H; apply pair_inj in H as [<- <-]. destruct I as [I|[]].
    apply pair_inj in I as [<- <-]. simpl. apply dput_same.
  - destruct (iterate x) as [vs|] eqn:It; [|discriminate].
    apply Some_inj in H; apply pair_inj in H as [<- <-].
    assert (items x = vs) as Iv.
    { destruct x; simpl in *; try discriminate; apply Some_inj in It; auto. }
    simpl. rewrite Iv. simpl in N. clear It Iv. revert vs I. induction ds as [|y ds IH]; intros vs I; [destruct I|].
    destruct vs as [|z vs]; [destruct I|]. inversion N; subst. simpl in *. destruct I as [I|I].
    + apply pair_inj in I as [<- <-]. apply dput_same.
    + rewrite dput_other; [apply IH; auto|]. intros ->. apply H1. eapply in_combine_l; eauto.
  - apply Some_inj in H; apply pair_inj in H as [<- <-]. destruct I as [I|[]].
    apply pair_inj in I as [<- <-]. simpl. apply dput_same.
  - apply Some_inj in H; apply pair_inj in H as [<- <-]. apply in_map_iff in I as (y & Y & I).
    apply pair_inj in Y as [-> <-]. simpl. apply did_in_In in I. rewrite I. auto.
Qed.

(** Filling in values that agree with an environment is substituting them. *)
Lemma fill_value (S : dataid -> val -> Prop) env v : (forall d x, S d x -> env d = Some x) ->
  forall v', fill S v v' -> refs v' = [] -> v' = value_of env v /\ forall d, In d (refs v) -> env d <> None.
Proof.
  clear. intros HS. unfold value_of.
  assert (Ls : forall l, Forall (fun v => forall v', fill S v v' -> refs v' = [] ->
      v' = subst (fun d => match env d with Some x => x | None => VRef d end) v /\
      forall d, In d (refs v) -> env d <> None) l ->
    forall l', Forall2 (fill S) l l' -> flat_map refs l' = [] ->
    l' = map (subst (fun d => match env d with Some x => x | None => VRef d end)) l /\
    forall d, In d (flat_map refs l) -> env d <> None).
  { induction 1 as [|x l Hx Hl IH]; intros l' F R; inversion F; subst; simpl; [split; auto; tauto|].
    simpl in R. apply app_eq_nil in R as [R1 R2].
    destruct (Hx _ H1 R1) as [-> A]. destruct (IH _ H3 R2) as [-> B]. split; auto.
    intros d D. apply in_app_or in D as [D|D]; auto. }
  induction v as [n|e|d|l IH|l IH|l IH] using val_ind'; intros v' F R; inversion F; subst; simpl.
  - split; auto; tauto.
  - split; auto; tauto.
  - apply HS in H0. rewrite H0. split; auto. intros y [<-|[]]. congruence.
  - discriminate.
  - simpl in R. destruct (Ls _ IH _ H0 R) as [-> A]. auto.
  - simpl in R. destruct (Ls _ IH _ H0 R) as [-> A]. auto.
  - simpl in R. clear F Ls. match goal with H : Forall2 _ _ _ |- _ => rename H into F2 end. revert l' F2 R.
    induction IH as [|x l Hx Hl IH]; intros l' F R; inversion F; subst; simpl; [split; auto; tauto|].
    simpl in R. apply app_eq_nil in R as [R1 R2]. destruct H1 as [K1 K2].
    destruct (Hx _ K2 R1) as [Y A]. destruct (IH _ H3 R2) as [Q B].
    split.
    + injection Q as ->. f_equal. f_equal. destruct y; simpl in *. subst. auto.
    + intros d D. apply in_app_or in D as [D|D]; auto.
Qed.

Lemma value_stable env env' v : (forall d, In d (refs v) -> env' d = env d) -> value_of env' v = value_of env v.
Proof.
  clear. unfold value_of. induction v as [n|e|d|l IH|l IH|l IH] using val_ind'; intros H; simpl; auto.
  - rewrite H; simpl; auto.
  - f_equal. apply map_ext_in. intros x X. rewrite Forall_forall in IH. apply IH; auto.
    intros d D. apply H. simpl. apply in_flat_map. eauto.
  - f_equal. apply map_ext_in. intros x X. rewrite Forall_forall in IH. apply IH; auto.
    intros d D. apply H. simpl. apply in_flat_map. eauto.
  - f_equal. apply map_ext_in. intros x X. rewrite Forall_forall in IH. f_equal. apply IH; auto.
    intros d D. apply H. simpl. apply in_flat_map. eauto.
Qed.

(** The outputs of a submitted task are bound to the results of its call. *)
Lemma seq_outputs prog dest q fd f st done d v : valid workers prog -> In (RSubmit dest q) prog ->
  q_fn q = FRef fd -> E prog fd = Some f -> (forall d, In d (qrefs q) -> E prog d <> None) ->
  results (q_out q) (call_value body f (value_of (E prog) (q_args q)) (value_of (E prog) (q_kwargs q))) = Some (st, done) ->
  In (d, v) st -> E prog d = Some v.
Proof.
  intros V I Fd Ef R Rs Dv. apply in_split in I as (a & b & ->).
  assert (N := v_fresh _ _ V). destruct (v_sub _ _ V a dest q b eq_refl) as (_ & (fd' & Fd' & Pf) & Sub).
  rewrite Fd in Fd'. injection Fd' as <-.
  assert (Pi : In fd (introduced a)).
  { apply in_puts in Pf as (x & X). unfold introduced. apply in_flat_map. exists (RPut fd x). simpl; auto. }
  assert (Sa : forall x, In x (introduced a) -> E (a ++ RSubmit dest q :: b) x = E a x).
  { intros x X. apply stable; auto. }
  rewrite Sa in Ef by auto.
  assert (No : NoDup (out_ids (q_out q))).
  { rewrite introduced_app in N. apply nodup_app_r in N. simpl in N. apply nodup_app_l in N. auto. }
  assert (Dt : In d (out_ids (q_out q))).
  { clear - Rs Dv. revert Rs. generalize (call_value body f (value_of (E (a ++ RSubmit dest q :: b)) (q_args q))
      (value_of (E (a ++ RSubmit dest q :: b)) (q_kwargs q))). intros r H.
    destruct r, (q_out q); simpl in *; try discriminate.
    - apply Some_inj in H; apply pair_inj in H as [<- <-]. destruct Dv.
    - apply Some_inj in H; apply pair_inj in H as [<- <-]. destruct Dv as [X|[]]. apply pair_inj in X as [-> _]. auto.
    - destruct (iterate v0); [|discriminate]. apply Some_inj in H; apply pair_inj in H as [<- <-]. eapply in_combine_l; eauto.
    - apply Some_inj in H; apply pair_inj in H as [<- <-]. destruct Dv as [X|[]]. apply pair_inj in X as [-> _]. auto.
    - apply Some_inj in H; apply pair_inj in H as [<- <-]. apply in_map_iff in Dv as (x & X & Y). apply pair_inj in X as [-> _]. auto. }
  replace (a ++ RSubmit dest q :: b) with ((a ++ [RSubmit dest q]) ++ b) in * by (rewrite <- app_assoc; auto).
  rewrite stable; auto.
  2:{ rewrite introduced_app. apply in_or_app. right. simpl. rewrite app_nil_r. auto. }
  rewrite seq_app. simpl. rewrite Fd, Ef.
  assert (Bd : forallb (bound (E a)) (qrefs q) = true).
  { apply forallb_forall. intros x X. unfold bound. specialize (R x X). rewrite Sa in R by auto.
    destruct (E a x); congruence. }
  rewrite Bd.
  assert (Ga : value_of (E ((a ++ [RSubmit dest q]) ++ b)) (q_args q) = value_of (E a) (q_args q)).
  { apply value_stable. intros x X. apply Sa, Sub. apply in_or_app; auto. }
  assert (Gk : value_of (E ((a ++ [RSubmit dest q]) ++ b)) (q_kwargs q) = value_of (E a) (q_kwargs q)).
  { apply value_stable. intros x X. apply Sa, Sub. apply in_or_app; auto. }
  rewrite Ga, Gk in Rs. eapply bind_results; eauto.
Qed.

(** What a worker stores agrees with sequential evaluation, if what it receives does. *)
Lemma stores_agree prog mbody l : valid workers prog -> Good body mbody l ->
  (forall d v, In (EvIn (WPut d v)) l -> E prog d = Some v) ->
  (forall q, In q (received l) -> exists dest, In (RSubmit dest q) prog) ->
  forall d v, stored l d v -> E prog d = Some v.
Proof.
  intros V. induction 1 as [|l e Oe G IH|l q c args kwargs st G IH Q C F1 F2 R1 R2 Rs]; intros P Rq d v S.
  - destruct S as [[]|[]].
  - apply stored_app in S as [S|S].
    + apply IH; auto.
      * intros x y X. apply P, in_or_app; auto.
      * intros q Q. apply Rq. rewrite received_app. apply in_or_app; auto.
    + destruct S as [[S|[]]|[S|[]]]; subst e; [|simpl in Oe; tauto].
      apply P. apply in_or_app. simpl; auto.
  - assert (IHa : forall d v, stored l d v -> E prog d = Some v).
    { apply IH.
      - intros x y X. apply P, in_or_app; auto.
      - intros p Qp. apply Rq. rewrite received_app. apply in_or_app; auto. }
    apply stored_app in S as [S|S]; auto.
    destruct (Rq q) as [dest Sub]; [rewrite received_app; apply in_or_app; auto|].
    assert (Sub' := Sub). apply in_split in Sub' as (a & b & Pe).
    destruct (v_sub _ _ V a dest q b Pe) as (_ & (fd & Fd & Pf) & _).
    unfold callee_of in C. rewrite Fd in C. destruct C as (f & Sf & ->). apply IHa in Sf.
    destruct (fill_value (stored l) (E prog) (q_args q) IHa _ F1 R1) as [Ea Ba].
    destruct (fill_value (stored l) (E prog) (q_kwargs q) IHa _ F2 R2) as [Ek Bk].
    apply stored_app in S as [S|S]; [exfalso; eapply stored_run; eauto|].
    change (EvEnd (q_id q) ?r :: ev_stores st) with ([EvEnd (q_id q) r] ++ ev_stores st) in S.
    apply stored_app in S as [S|S]; [destruct S as [[S|[]]|[S|[]]]; discriminate|].
    apply stored_stores in S.
    destruct Rs as [[dn Rs]|[_ ->]]; [|destruct S].
    eapply (seq_outputs prog dest q fd f st dn); eauto.
    + intros x X. apply in_app_or in X as [X|X]; auto.
    + rewrite <- Ea, <- Ek. unfold call_value. rewrite failure_same. exact Rs.
Qed.

(** Values contain no references. *)
Lemma seq_clean prog d v : valid workers prog -> E prog d = Some v -> refs v = [].
Proof.
  intros V. assert (P := v_put _ _ V). clear V. revert d v. induction prog as [|o prog IH] using rev_ind; intros d v H.
  - discriminate.
  - assert (IHp : forall d v, E prog d = Some v -> refs v = []).
    { apply IH. intros x y X. apply (P x). apply in_or_app; auto. }
    rewrite seq_app in H. simpl in H. destruct o; simpl in H; eauto.
    + destruct (did_dec d0 d) as [->|Nd].
      * rewrite dput_same in H. apply Some_inj in H as <-. apply (P d). apply in_or_app. simpl; auto.
      * rewrite dput_other in H by auto. eauto.
    + destruct (q_fn q); eauto. destruct (E prog d0); eauto. destruct (forallb _ _); eauto.
      assert (B : no_refs_returned (call_value body v0 (value_of (E prog) (q_args q)) (value_of (E prog) (q_kwargs q)))).
      { unfold call_value. destruct (first_failure _); simpl; auto. }
      revert H B. generalize (call_value body v0 (value_of (E prog) (q_args q)) (value_of (E prog) (q_kwargs q))).
      intros r H B. destruct (q_out q) as [|d1|ds], r as [x|e]; simpl in *; eauto.
      * destruct (did_dec d1 d) as [->|Nd]; [rewrite dput_same in H | rewrite dput_other in H by auto; eauto].
        apply Some_inj in H as <-. auto.
      * destruct (did_dec d1 d) as [->|Nd]; [rewrite dput_same in H | rewrite dput_other in H by auto; eauto].
        apply Some_inj in H as <-. auto.
      * assert (It : forall y, In y (items x) -> refs y = []).
        { intros y Y. destruct x; simpl in *; try tauto.
          - eapply (flat_map_nil refs); eauto.
          - eapply (flat_map_nil refs); eauto.
          - apply in_map_iff in Y as (kv & <- & _). auto. }
        revert H It. generalize (items x). clear - IHp. induction ds as [|y ds IH]; intros l H It; simpl in H; eauto.
        destruct l as [|z l]; eauto.
        destruct (did_dec y d) as [->|Nd]; [rewrite dput_same in H | rewrite dput_other in H by auto].
        -- apply Some_inj in H as <-. apply It. simpl; auto.
        -- apply (IH l); auto. intros u U. apply It. simpl; auto.
      * destruct (did_in d ds); eauto. apply Some_inj in H as <-. auto.
Qed.

Lemma valid_prefix a b : valid workers (a ++ b) -> valid workers a.
Proof.
  intros [V1 V2 V3 V4]. split.
  - rewrite introduced_app in V1. eapply nodup_app_l; eauto.
  - rewrite submitted_app, map_app in V2. eapply nodup_app_l; eauto.
  - intros d v I. apply (V3 d), in_or_app; auto.
  - intros x dest q y ->. apply (V4 x dest q (y ++ b)). rewrite <- app_assoc. auto.
Qed.

End Seq.
