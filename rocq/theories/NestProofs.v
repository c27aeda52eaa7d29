From Verif Require Import Lib ShmModel ShmRaceProofs ValModel WorkerModel WorkerSpec WorkerProofs ClusterModel NestModel NestSpec.

(** ** The meaning of references *)

Lemma trace_app H h t : trace (H ++ h) t = trace H t ++ trace h t.
Proof. apply flat_map_app. Qed.

Lemma good_mono (S S' : dataid -> val -> Prop) e : (forall d v, S d v -> S' d v) -> good_get S e -> good_get S' e.
Proof.
  intros M. destruct e as [| | | |ds [vs|x|]|]; simpl; auto.
  - intros F. induction F; constructor; auto.
  - intros (d & I & X). eauto.
Qed.

Lemma means_mono body H h k : forall d v, means_in body H k d v -> means_in body (H ++ h) k d v.
Proof.
  induction k as [|k IH]; simpl; auto. intros d v [[t I]|(t & dest & q & fd & f & args & kwargs & r & I & F & Mf & A & K & Ra & Rk & C & G)].
  - left. exists t. apply in_or_app. auto.
  - right. exists t, dest, q, fd, f, args, kwargs, r. repeat split; auto; try (eapply fill_mono; [|eassumption]; auto).
    { apply in_or_app. auto. }
    unfold computes in *. destruct (failed_arg args kwargs); auto. destruct C as (t' & l & rest & T & Fo & Gd).
    exists t', l, (rest ++ trace h t'). rewrite trace_app, T. split; [simpl; rewrite <- app_assoc; reflexivity|]. split; auto.
    eapply Forall_impl; [|exact Gd]. intros e. apply good_mono. auto.
Qed.

Lemma means_up body H k : forall d v, means_in body H k d v -> means_in body H (S k) d v.
Proof.
  induction k as [|k IH]; [intros d v []|]. intros d v [X|(t & dest & q & fd & f & args & kwargs & r & I & F & Mf & A & K & Ra & Rk & C & G)].
  - left. exact X.
  - right. exists t, dest, q, fd, f, args, kwargs, r. repeat split; auto; try (eapply fill_mono; [|eassumption]; auto).
    unfold computes in *. destruct (failed_arg args kwargs); auto. destruct C as (t' & l & rest & T & Fo & Gd).
    exists t', l, rest. repeat split; auto. eapply Forall_impl; [|exact Gd]. intros e. apply good_mono. auto.
Qed.

Lemma means_le body H j k d v : j <= k -> means_in body H j d v -> means_in body H k d v.
Proof. induction 1; auto. intros X. apply means_up. auto. Qed.

Section Bound.
Variable S : nat -> dataid -> val -> Prop.
Hypothesis S_le : forall j k d v, j <= k -> S j d v -> S k d v.
Notation some := (fun d v => exists k, S k d v).

Lemma fill_bound v : forall v', fill some v v' -> exists k, fill (S k) v v'.
Proof.
  induction v using val_ind'; intros v' F; inversion F; subst.
  - exists 0. constructor.
  - exists 0. constructor.
  - match goal with X : exists _, _ |- _ => destruct X as [k X] end. exists k. constructor; auto.
  - exists 0. apply fill_keep.
  - assert (X : exists k, Forall2 (fill (S k)) l l').
    { clear F. match goal with X : Forall2 _ l l' |- _ => rename X into F end. revert l' F.
      induction H as [|x l Hx Hl IH]; intros l' F; inversion F; subst; [exists 0; constructor|].
      destruct (Hx _ ltac:(eassumption)) as [a A]. destruct (IH _ ltac:(eassumption)) as [b B]. exists (max a b). constructor.
      - eapply fill_mono; [|exact A]. intros d u. apply S_le. lia.
      - clear - B S_le. induction B; constructor; auto. eapply fill_mono; [|eassumption]. intros d u. apply S_le. lia. }
    destruct X as [k X]. exists k. constructor; auto.
  - assert (X : exists k, Forall2 (fill (S k)) l l').
    { clear F. match goal with X : Forall2 _ l l' |- _ => rename X into F end. revert l' F.
      induction H as [|x l Hx Hl IH]; intros l' F; inversion F; subst; [exists 0; constructor|].
      destruct (Hx _ ltac:(eassumption)) as [a A]. destruct (IH _ ltac:(eassumption)) as [b B]. exists (max a b). constructor.
      - eapply fill_mono; [|exact A]. intros d u. apply S_le. lia.
      - clear - B S_le. induction B; constructor; auto. eapply fill_mono; [|eassumption]. intros d u. apply S_le. lia. }
    destruct X as [k X]. exists k. constructor; auto.
  - assert (X : exists k, Forall2 (fun a b => fst a = fst b /\ fill (S k) (snd a) (snd b)) l l').
    { clear F. match goal with X : Forall2 _ l l' |- _ => rename X into F end. revert l' F.
      induction H as [|x l Hx Hl IH]; intros l' F; inversion F; subst; [exists 0; constructor|].
      match goal with X : _ = _ /\ fill _ _ _ |- _ => destruct X as [E1 E2] end.
      destruct (Hx _ E2) as [a A]. destruct (IH _ ltac:(eassumption)) as [b B]. exists (max a b). constructor.
      - split; auto. eapply fill_mono; [|exact A]. intros d u. apply S_le. lia.
      - clear - B S_le. induction B as [|x y l l' [K X] B IH]; constructor; auto. split; auto.
        eapply fill_mono; [|eassumption]. intros d u. apply S_le. lia. }
    destruct X as [k X]. exists k. constructor; auto.
Qed.

Lemma good_bound e : good_get some e -> exists k, good_get (S k) e.
Proof.
  destruct e as [| | | |ds [vs|x|]|]; simpl; try (intros _; exists 0; exact Logic.I).
  - intros F. induction F as [|d v ds vs [k X] F [j IH]]; [exists 0; constructor|]. exists (max k j). constructor.
    + eapply S_le; [|exact X]. lia.
    + clear - IH S_le. induction IH; constructor; auto. eapply S_le; [|eassumption]. lia.
  - intros (d & I & k & X). exists k. eauto.
Qed.

Lemma goods_bound l : Forall (good_get some) l -> exists k, Forall (good_get (S k)) l.
Proof.
  induction 1 as [|e l E F [j IH]]; [exists 0; constructor|]. apply good_bound in E as [k E]. exists (max k j). constructor.
  - eapply good_mono; [|exact E]. intros d v. apply S_le. lia.
  - eapply Forall_impl; [|exact IH]. intros x. apply good_mono. intros d v. apply S_le. lia.
Qed.
End Bound.

Section Meaning.
Variable body : val -> val -> val -> act.

Lemma means_grows H h d v : means body H d v -> means body (H ++ h) d v.
Proof. intros [k X]. exists k. apply means_mono. auto. Qed.

Lemma means_put H t d v : In (t, HPut d v) H -> means body H d v.
Proof. intros I. exists 1. left. eauto. Qed.

(** The clause for tasks, without the bounds. *)
Lemma means_task H t dest q fd f args kwargs r d v : In (t, HSubmit dest q) H -> q_fn q = FRef fd -> means body H fd f ->
  fill (means body H) (q_args q) args -> fill (means body H) (q_kwargs q) kwargs -> refs args = [] -> refs kwargs = [] ->
  computes body H (means body H) (q_id q) f args kwargs r -> gives (q_out q) r d v -> means body H d v.
Proof.
  intros I F [k1 Mf] A K Ra Rk C G. assert (L := means_le body H).
  apply (fill_bound (means_in body H)) in A as [k2 A]; auto. apply (fill_bound (means_in body H)) in K as [k3 K]; auto.
  assert (X : exists k4, computes body H (means_in body H k4) (q_id q) f args kwargs r).
  { unfold computes in *. destruct (failed_arg args kwargs); [exists 0; auto|]. destruct C as (t' & l & rest & T & Fo & Gd).
    apply (goods_bound (means_in body H)) in Gd as [k4 Gd]; auto. exists k4, t', l, rest. auto. }
  destruct X as [k4 C']. exists (S (k1 + k2 + k3 + k4)). right. exists t, dest, q, fd, f, args, kwargs, r.
  assert (L' : forall j, j <= k1 + k2 + k3 + k4 -> forall d v, means_in body H j d v -> means_in body H (k1 + k2 + k3 + k4) d v).
  { intros j J d' v'. apply L. auto. }
  repeat split; auto.
  - apply (L' k1); auto. lia.
  - eapply fill_mono; [|exact A]. apply L'. lia.
  - eapply fill_mono; [|exact K]. apply L'. lia.
  - unfold computes in *. destruct (failed_arg args kwargs); auto. destruct C' as (t' & l & rest & T & Fo & Gd).
    exists t', l, rest. repeat split; auto. eapply Forall_impl; [|exact Gd]. intros e. apply good_mono. apply L'. lia.
Qed.

End Meaning.

(** ** A worker's state *)

(** What is held and sent satisfies P. *)
Definition Wok (P : dataid -> val -> Prop) (w : wst) : Prop :=
  (forall d v, store w d = Some v -> P d v) /\ (forall x d v b, In (EvPut x d v b) (log w) -> P d v).

Section Worker.
Variable P : dataid -> val -> Prop.

Lemma ok_get w src d b : Wok P w -> Wok P (process_get w src d b).
Proof.
  intros [A B]. unfold process_get. destruct (store w d) as [v|] eqn:E.
  - destruct (pair_in (d, src) (sent w)); [split; auto|]. split; auto. simpl. intros x d' v' b' I.
    apply in_app_or in I as [I|[I|[]]]; eauto. inversion I; subst. auto.
  - destruct b; split; auto.
Qed.

Lemma pend_get w src d b : pend (process_get w src d b) = pend w.
Proof. unfold process_get. destruct (store w d); [destruct (pair_in _ _)|destruct b]; reflexivity. Qed.

Lemma ok_fold {A} (f : wst -> A -> wst) l : (forall w a, Wok P w -> Wok P (f w a)) -> forall w, Wok P w -> Wok P (fold_left f l w).
Proof. intros F. induction l as [|a l IH]; intros w W; simpl; auto. Qed.

Lemma pend_fold {A} (f : wst -> A -> wst) l : (forall w a, pend (f w a) = pend w) -> forall w, pend (fold_left f l w) = pend w.
Proof. intros F. induction l as [|a l IH]; intros w; simpl; auto. rewrite IH, F. auto. Qed.

Lemma ok_check w d : Wok P w -> Wok P (check_request w d).
Proof.
  intros W. unfold check_request. set (w1 := fold_left _ _ w).
  assert (W1 : Wok P w1) by (apply ok_fold; auto; intros; apply ok_get; auto). set (w2 := set_gets w1 _ _).
  assert (W2 : Wok P w2) by (destruct W1; split; auto). set (w3 := fold_left _ _ w2).
  assert (W3 : Wok P w3) by (apply ok_fold; auto; intros; apply ok_get; auto). destruct W3; split; auto.
Qed.

Lemma pend_check w d : pend (check_request w d) = pend w.
Proof.
  unfold check_request. cbn [pend set_gets]. rewrite pend_fold by (intros; apply pend_get). cbn [pend set_gets].
  apply pend_fold. intros; apply pend_get.
Qed.

Lemma ok_checks w ds : Wok P w -> Wok P (check_gets w ds).
Proof. apply ok_fold. intros; apply ok_check; auto. Qed.

Lemma pend_checks w ds : pend (check_gets w ds) = pend w.
Proof. apply pend_fold. intros; apply pend_check. Qed.

Lemma ok_asks self w w' : Asks self w w' -> Wok P w -> Wok P w'.
Proof.
  induction 1 as [|w o d w' S O R N A IH]; auto. intros [X Y]. apply IH. split; auto. simpl. intros x d' v b I.
  apply in_app_or in I as [I|[I|[]]]; eauto. discriminate.
Qed.

Lemma pend_asks self w w' : Asks self w w' -> pend w' = pend w.
Proof. induction 1; auto. Qed.

Lemma ok_put w d v : Wok P w -> P d v -> Wok P (put w d v).
Proof.
  intros [A B] X. split; simpl.
  - intros d' v' E. unfold dput in E. destruct (did_eqb d d') eqn:D; auto. apply did_eqb_eq in D as ->. apply Some_inj in E as <-. auto.
  - intros x d' v' b I. apply in_app_or in I as [I|[I|[]]]; eauto. discriminate.
Qed.

Lemma ok_puts l : forall w, Wok P w -> (forall d v, In (d, v) l -> P d v) ->
  Wok P (fold_left (fun w dv => put w (fst dv) (snd dv)) l w) /\ pend (fold_left (fun w dv => put w (fst dv) (snd dv)) l w) = pend w.
Proof.
  induction l as [|[d v] l IH]; intros w W X; simpl; auto. destruct (IH (put w d v)) as [A B].
  - apply ok_put; auto. apply X. simpl; auto.
  - intros; apply X; simpl; auto.
  - split; auto.
Qed.

Lemma ok_puts_exc e ds : forall w, Wok P w -> (forall d, In d ds -> P d (VExc e)) ->
  Wok P (fold_left (fun w d => put w d (VExc e)) ds w) /\ pend (fold_left (fun w d => put w d (VExc e)) ds w) = pend w.
Proof.
  induction ds as [|d ds IH]; intros w W X; simpl; auto. destruct (IH (put w d (VExc e))) as [A B].
  - apply ok_put; auto. apply X. simpl; auto.
  - intros; apply X; simpl; auto.
  - split; auto.
Qed.

Lemma ok_store w o r w' done : Wok P w -> (forall d v, gives o r d v -> P d v) -> store_result w o r = Some (w', done) ->
  Wok P w' /\ pend w' = pend w.
Proof.
  intros W G E. destruct r as [v|e], o as [|d|ds]; simpl in E; try discriminate.
  - apply Some_inj in E. apply pair_inj in E as [<- _]. auto.
  - apply Some_inj in E. apply pair_inj in E as [<- _]. split; auto. apply ok_put; auto. apply G. simpl; auto.
  - destruct (iterate v) as [vs|] eqn:I; [|discriminate]. apply Some_inj in E. apply pair_inj in E as [<- _].
    apply ok_puts; auto. intros d x X. apply G. simpl. eauto.
  - apply Some_inj in E. apply pair_inj in E as [<- _]. split; auto. apply ok_put; auto. apply G. simpl; auto.
  - apply Some_inj in E. apply pair_inj in E as [<- _]. apply ok_puts_exc; auto. intros d X. apply G. simpl; auto.
Qed.

Lemma ok_finish w q r w' : Wok P w -> (forall d v, gives (q_out q) r d v -> P d v) -> finish_task w q r = Some w' ->
  Wok P w' /\ pend w' = pend w.
Proof.
  intros W G E. unfold finish_task in E. destruct (store_result w (q_out q) r) as [[w1 dn]|] eqn:S; [|discriminate].
  apply Some_inj in E as <-. destruct (ok_store _ _ _ _ _ W G S) as [A B]. split; [apply ok_checks, ok_checks, A|].
  rewrite !pend_checks. auto.
Qed.

End Worker.

(** ** The system *)

Section Nest.
Variable workers : list rank.
Variable body : val -> val -> val -> act.
Variable main : act.
Hypothesis body_ok : forall f a k, refs a = [] -> refs k = [] -> refless (body f a k).
Hypothesis main_ok : refless main.

Notation M H := (means body H).
Definition Pv (H : list (nat * hev)) (d : dataid) (v : val) : Prop := M H d v /\ refs v = [].

Lemma pv_grows H h d v : Pv H d v -> Pv (H ++ h) d v.
Proof. intros [A B]. split; auto. apply means_grows; auto. Qed.

Lemma wok_grows H h w : Wok (Pv H) w -> Wok (Pv (H ++ h)) w.
Proof. intros [A B]. split; intros; apply pv_grows; eauto. Qed.

(** A request on its way: as submitted, with some references replaced. *)
Definition qok (H : list (nat * hev)) (p : rank) (q : request) : Prop := exists t q0, In (t, HSubmit p q0) H /\
  q_id q = q_id q0 /\ q_fn q = q_fn q0 /\ q_out q = q_out q0 /\ fill (Pv H) (q_args q0) (q_args q) /\ fill (Pv H) (q_kwargs q0) (q_kwargs q).

Lemma qok_grows H h p q : qok H p q -> qok (H ++ h) p q.
Proof.
  intros (t & q0 & I & A & B & C & D & E). exists t, q0. repeat split; auto; [apply in_or_app; auto| |];
    (eapply fill_mono; [|eassumption]; intros; apply pv_grows; auto).
Qed.

(** A request all of whose arguments are there, and its function. *)
Definition rok (H : list (nat * hev)) (p : rank) (q : request) (f : val) : Prop := exists t q0 fd, In (t, HSubmit p q0) H /\
  q_id q = q_id q0 /\ q_out q = q_out q0 /\ q_fn q0 = FRef fd /\ M H fd f /\ fill (Pv H) (q_args q0) (q_args q) /\
  fill (Pv H) (q_kwargs q0) (q_kwargs q) /\ refs (q_args q) = [] /\ refs (q_kwargs q) = [].

Lemma rok_grows H h p q f : rok H p q f -> rok (H ++ h) p q f.
Proof.
  intros (t & q0 & fd & I & A & B & C & D & E & F & G). exists t, q0, fd. repeat split; auto; try tauto; [apply in_or_app; auto| | |];
    [apply means_grows; auto| |]; (eapply fill_mono; [|eassumption]; intros; apply pv_grows; auto).
Qed.

Lemma clean_ok H w : Wok (Pv H) w -> clean w.
Proof. intros [A _] d x E. apply A in E. apply E. Qed.

Lemma has_ok H w : Wok (Pv H) w -> forall d x, has w d x -> Pv H d x.
Proof. intros [A _] d x E. apply A, E. Qed.

Lemma mat_step H self w v p w' v' p' : Wok (Pv H) w -> materialize self w v p = Some (w', v', p') ->
  Wok (Pv H) w' /\ pend w' = pend w /\ store w' = store w /\ fill (Pv H) v v' /\ (p' = false -> refs v' = []).
Proof.
  intros W E. apply mat_ok in E as [F (A & L & _)]; [|eapply clean_ok; eauto].
  split; [eapply ok_asks; eauto|]. split; [eapply pend_asks; eauto|]. split; [eapply asks_store; eauto|].
  split; [eapply fill_mono; [|exact F]; apply has_ok; auto|]. intros ->. destruct (refs v'); auto.
  destruct L as [_ L]. discriminate L. right. discriminate.
Qed.

Lemma fill_pv H v v1 v2 : fill (Pv H) v v1 -> fill (Pv H) v1 v2 -> fill (Pv H) v v2.
Proof. apply fill_trans. intros d x [_ X]. exact X. Qed.

Lemma prepare_ok H p w q w1 q1 f : Wok (Pv H) w -> qok H p q -> prepare p w q = Some (w1, q1, f) ->
  Wok (Pv H) w1 /\ pend w1 = pend w /\ qok H p q1 /\ q_id q1 = q_id q /\ match f with Some f => rok H p q1 f | None => True end.
Proof.
  intros W (t & q0 & I & Qi & Qf & Qo & A & K) E. unfold prepare in E. destruct (q_fn q) as [fd|m] eqn:F; [|discriminate].
  destruct (store w fd) as [fv|] eqn:S; [|discriminate].
  destruct (materialize p w (q_args q) false) as [[[w2 args] p1]|] eqn:E1; [|discriminate].
  destruct (materialize p w2 (q_kwargs q) false) as [[[w3 kwargs] p2]|] eqn:E2; [|discriminate].
  apply Some_inj in E. apply pair_inj in E as [E Ef]. apply pair_inj in E as [<- <-].
  destruct (mat_step _ _ _ _ _ _ _ _ W E1) as (W2 & P2 & S2 & F2 & R2).
  destruct (mat_step _ _ _ _ _ _ _ _ W2 E2) as (W3 & P3 & S3 & F3 & R3).
  assert (FA := fill_pv _ _ _ _ A F2). assert (FK := fill_pv _ _ _ _ K F3).
  split; auto. split; [congruence|]. split.
  { exists t, q0. simpl. rewrite F in *. repeat split; auto. }
  split; [reflexivity|]. destruct f as [f|]; auto. destruct p1; [discriminate|]. destruct p2; [discriminate|].
  apply Some_inj in Ef as <-. exists t, q0, fd. simpl. repeat split; auto. destruct W as [W _]. apply W in S. apply S.
Qed.

Lemma pass_ok H p todo : forall w kept w1 x, Wok (Pv H) w -> Forall (qok H p) kept -> Forall (qok H p) todo ->
  pass p w kept todo = Some (w1, x) -> Wok (Pv H) w1 /\ pend w1 = pend w /\
  match x with
  | inl l => Forall (qok H p) l
  | inr (q, f, l, r) => rok H p q f /\ Forall (qok H p) l /\ Forall (qok H p) r
  end.
Proof.
  induction todo as [|q todo IH]; intros w kept w1 x W K T E; simpl in E.
  - apply Some_inj in E. apply pair_inj in E as [<- <-]. auto.
  - inversion T; subst. destruct (prepare p w q) as [[[w2 q2] [f|]]|] eqn:R; [| |discriminate].
    + apply Some_inj in E. apply pair_inj in E as [<- <-]. eapply prepare_ok in R as (A & B & C & D & F); eauto.
    + eapply prepare_ok in R as (A & B & C & D & F); eauto. apply IH in E as (X & Y & Z); auto.
      * split; auto. split; [congruence|auto].
      * apply Forall_app. auto.
Qed.

(** An execution in progress; T is what it did so far. *)
Definition fok (H : list (nat * hev)) (runs : nat) (p : rank) (fr : frame) (T : list hev) : Prop :=
  f_run fr < runs /\ refless (f_act fr) /\
  (match f_get fr with
   | Some g => (exists k, f_act fr = AGet (t_want g) k) /\
               (forall e, t_exc g = Some e -> exists d, In d (t_want g) /\ M H d (VExc e)) /\ incl (t_ids g) (t_want g)
   | None => True
   end) /\
  (match f_rest fr with
   | LMain => f_run fr = 0 /\ follows main T (f_act fr) /\ Forall (good_get (M H)) T
   | _ => f_run fr <> 0 /\ exists f, rok H p (f_q fr) f /\ exists l, T = HStart (q_id (f_q fr)) :: l /\
          follows (entered body f (f_q fr)) l (f_act fr) /\ Forall (good_get (M H)) l
   end) /\
  (match f_rest fr with LPass kept todo => Forall (qok H p) kept /\ Forall (qok H p) todo | _ => True end).

Lemma forall_grows H h p l : Forall (qok H p) l -> Forall (qok (H ++ h) p) l.
Proof. intros F. eapply Forall_impl; [|exact F]. intros q. apply qok_grows. Qed.

Lemma goods_grow H h l : Forall (good_get (M H)) l -> Forall (good_get (M (H ++ h))) l.
Proof. intros F. eapply Forall_impl; [|exact F]. intros e. apply good_mono. intros; apply means_grows; auto. Qed.

Lemma fok_grows H h runs runs' p fr T : runs <= runs' -> fok H runs p fr T -> fok (H ++ h) runs' p fr T.
Proof.
  intros L (A & B & C & D & E). split; [lia|]. split; auto. split.
  - destruct (f_get fr) as [g|]; auto. destruct C as (C1 & C2 & C3). split; auto. split; auto.
    intros e X. destruct (C2 e X) as (d & I & Y). exists d. split; auto. apply means_grows; auto.
  - split.
    + destruct (f_rest fr).
      * destruct D as (D1 & D2 & D3). split; auto. split; auto. apply goods_grow; auto.
      * destruct D as (D0 & f & R & l & -> & F & G). split; auto. exists f. split; [apply rok_grows; auto|]. exists l.
        repeat split; auto. apply goods_grow; auto.
      * destruct D as (D0 & f & R & l & -> & F & G). split; auto. exists f. split; [apply rok_grows; auto|]. exists l.
        repeat split; auto. apply goods_grow; auto.
    + destruct (f_rest fr); auto. destruct E. split; apply forall_grows; auto.
Qed.

Definition mok (H : list (nat * hev)) (p : rank) (m : wmsg) : Prop :=
  match m with
  | WPut d v => Pv H d v
  | WExec q => exists t, In (t, HSubmit p q) H
  | _ => True
  end.

Lemma mok_grows H h p m : mok H p m -> mok (H ++ h) p m.
Proof. destruct m; simpl; auto; [intros [t I]; exists t; apply in_or_app; auto | apply pv_grows]. Qed.

(** A process: what it holds, its pending tasks and the program it executes. *)
Definition pok (H : list (nat * hev)) (runs : nat) (p : rank) (s : proc) : Prop :=
  Wok (Pv H) (p_w s) /\ Forall (qok H p) (pend (p_w s)) /\
  match p_cur s with Some fr => fok H runs p fr (trace H (f_run fr)) | None => True end.

Record NI (n : nst) : Prop := {
  ni_proc : forall p, pok (n_hist n) (n_runs n) p (n_proc n p);
  ni_chan : forall a b m, In m (n_chan n a b) -> mok (n_hist n) b m;
  ni_rep : forall a b d v, In (d, v) (n_rep n a b) -> Pv (n_hist n) d v;
  ni_run : forall p p' fr fr', p_cur (n_proc n p) = Some fr -> p_cur (n_proc n p') = Some fr' -> f_run fr = f_run fr' -> p = p';
  ni_new : forall e, In e (n_hist n) -> fst e < n_runs n;
  ni_good : forall t e, In (t, e) (n_hist n) -> good_get (M (n_hist n)) e;
  ni_zero : 0 < n_runs n;
  ni_first : forall p fr, p_cur (n_proc n p) = Some fr -> f_rest fr = LMain -> p = 0
}.

Lemma trace_none H runs : (forall e, In e H -> fst e < runs) -> forall t, runs <= t -> trace H t = [].
Proof.
  intros F t L. unfold trace. induction H as [|e H IH]; auto. simpl. rewrite IH by (intros; apply F; simpl; auto).
  assert (X := F e ltac:(simpl; auto)). destruct (Nat.eqb (fst e) t) eqn:E; auto. apply Nat.eqb_eq in E. lia.
Qed.

Lemma trace_tag t h : trace (map (fun e => (t, e)) h) t = h.
Proof. unfold trace. induction h as [|e h IH]; auto. simpl. rewrite Nat.eqb_refl. simpl. f_equal. auto. Qed.

Lemma trace_other h t : (forall e, In e h -> fst e <> t) -> trace h t = [].
Proof.
  intros F. unfold trace. induction h as [|e h IH]; auto. simpl. rewrite IH by (intros; apply F; simpl; auto).
  assert (X := F e ltac:(simpl; auto)). apply Nat.eqb_neq in X. rewrite X. auto.
Qed.

Lemma in_sends b l m : In m (sends_to b l) <-> In (b, m) l.
Proof.
  unfold sends_to. rewrite in_flat_map. split.
  - intros ([x y] & I & J). simpl in J. destruct (Nat.eqb x b) eqn:E; [|destruct J]. apply Nat.eqb_eq in E as ->.
    destruct J as [<-|[]]. auto.
  - intros I. exists (b, m). split; auto. simpl. rewrite Nat.eqb_refl. simpl. auto.
Qed.

(** A step of process p. *)
Lemma put_proc_ok n p s ch re out tasks runs h : NI n ->
  n_runs n <= runs -> (forall e, In e h -> fst e < runs) ->
  (forall e, In e h -> n_runs n <= fst e \/ exists fr, p_cur (n_proc n p) = Some fr /\ fst e = f_run fr) ->
  (match p_cur s with Some fr => n_runs n <= f_run fr \/ exists fr', p_cur (n_proc n p) = Some fr' /\ f_run fr = f_run fr' | None => True end) ->
  pok (n_hist n ++ h) runs p s ->
  (forall t e, In (t, e) h -> good_get (M (n_hist n ++ h)) e) ->
  (forall a b m, In m (ch a b) -> In m (n_chan n a b)) -> (forall a b x, In x (re a b) -> In x (n_rep n a b)) ->
  (forall b m, In (b, m) out -> mok (n_hist n ++ h) b m) ->
  (forall fr, p_cur s = Some fr -> f_rest fr = LMain -> p = 0) ->
  NI (put_proc n p s ch re out tasks runs h).
Proof.
  intros N L Hn Ht Hc Hp Hg Hch Hre Hout Hm. unfold put_proc. constructor; cbn [n_proc n_chan n_rep n_hist n_runs].
  - intros r. unfold upd. destruct (Nat.eqb r p) eqn:E; [apply Nat.eqb_eq in E as ->; auto|]. apply Nat.eqb_neq in E.
    destruct (ni_proc n N r) as (A & B & C). split; [apply wok_grows; auto|]. split; [apply forall_grows; auto|].
    destruct (p_cur (n_proc n r)) as [fr|] eqn:Cr; auto. rewrite trace_app, (trace_other h), app_nil_r; [eapply fok_grows; eauto|].
    intros e I X. destruct (Ht e I) as [Y|(fr' & Y & Z)].
    + destruct C as [C _]. lia.
    + apply E. eapply (ni_run n N); eauto. congruence.
  - intros a b m I. destruct (Nat.eqb a p) eqn:E; [|apply mok_grows, (ni_chan n N a), Hch, I].
    apply in_app_or in I as [I|I]; [apply mok_grows, (ni_chan n N a), Hch, I|]. apply in_app_or in I as [I|I].
    + apply in_sends in I. apply Hout; auto.
    + unfold ops_out in I. apply in_flat_map in I as (e & Ie & I). destruct Hp as ([_ W] & _). destruct e; try destruct I.
      * destruct blocking; [destruct I|]. destruct (Nat.eqb dest b); [|destruct I]. destruct I as [<-|[]]. simpl. eapply W; eauto.
      * destruct (Nat.eqb dest b); [|destruct I]. destruct I as [<-|[]]. simpl. auto.
  - intros a b d v I. destruct (Nat.eqb a p) eqn:E; [|apply pv_grows; eapply (ni_rep n N); eauto].
    apply in_app_or in I as [I|I]; [apply pv_grows; eapply (ni_rep n N); eauto|].
    unfold reps_out in I. apply in_flat_map in I as (e & Ie & I). destruct Hp as ([_ W] & _). destruct e; try destruct I.
    destruct blocking; [|destruct I]. destruct (Nat.eqb dest b); [|destruct I]. destruct I as [I|[]]. apply pair_inj in I as [<- <-]. eapply W; eauto.
  - unfold upd. intros r r' fr fr' X Y Z. destruct (Nat.eqb r p) eqn:E, (Nat.eqb r' p) eqn:E';
      repeat match goal with X : Nat.eqb _ _ = true |- _ => apply Nat.eqb_eq in X as -> end; auto.
    + rewrite X in Hc. exfalso. apply Nat.eqb_neq in E'. destruct Hc as [Hc|(f2 & Hc & Hd)].
      * assert (W := ni_proc n N r'). destruct W as (_ & _ & W). rewrite Y in W. destruct W as [W _]. lia.
      * apply E'. eapply (ni_run n N); eauto. congruence.
    + rewrite Y in Hc. exfalso. apply Nat.eqb_neq in E. destruct Hc as [Hc|(f2 & Hc & Hd)].
      * assert (W := ni_proc n N r). destruct W as (_ & _ & W). rewrite X in W. destruct W as [W _]. lia.
      * apply E. eapply (ni_run n N); eauto. congruence.
    + eapply (ni_run n N); eauto.
  - intros e I. apply in_app_or in I as [I|I]; auto. apply (ni_new n N) in I. lia.
  - intros t e I. apply in_app_or in I as [I|I]; eauto. eapply good_mono; [|eapply (ni_good n N); eauto]. intros; apply means_grows; auto.
  - assert (X := ni_zero n N). lia.
  - unfold upd. intros r fr X Y. destruct (Nat.eqb r p) eqn:E; [apply Nat.eqb_eq in E as ->; eauto | eapply (ni_first n N); eauto].
Qed.

Lemma entered_ok f q : refs (q_args q) = [] -> refs (q_kwargs q) = [] -> refless (entered body f q).
Proof using body_ok. unfold entered. destruct (failed_arg _ _); simpl; auto. Qed.

(** A process whose loop went on under H, perhaps into execution run. *)
Definition lok (H : list (nat * hev)) (p : rank) (run : nat) (s : proc) (x : option nat) : Prop :=
  Wok (Pv H) (p_w s) /\ Forall (qok H p) (pend (p_w s)) /\
  match x with
  | None => p_cur s = None
  | Some i => exists fr f, p_cur s = Some fr /\ f_run fr = run /\ f_get fr = None /\ q_id (f_q fr) = i /\ rok H p (f_q fr) f /\
      f_act fr = entered body f (f_q fr) /\ f_rest fr <> LMain /\
      match f_rest fr with LPass kept todo => Forall (qok H p) kept /\ Forall (qok H p) todo | _ => True end
  end.

Lemma go_on_ok H p s w kept todo run s' x : Wok (Pv H) w -> Forall (qok H p) (pend w) -> Forall (qok H p) kept -> Forall (qok H p) todo ->
  go_on body p s w kept todo run = Some (s', x) -> lok H p run s' x.
Proof.
  intros W Pn K T E. unfold go_on in E. destruct (pass p w kept todo) as [[w1 y]|] eqn:R; [|discriminate].
  destruct (pass_ok _ _ _ _ _ _ _ W K T R) as (A & B & C). destruct y as [l|[[[q f] l] r]]; apply Some_inj in E; apply pair_inj in E as [<- <-].
  - split; [destruct A; split; auto|]. split; auto.
  - split; auto. split; [simpl; rewrite B; auto|]. destruct C as (C1 & C2 & C3). eexists. exists f. repeat split; auto. discriminate.
Qed.

Lemma no_log_ok H w : Wok (Pv H) w -> Wok (Pv H) (no_log w).
Proof. intros [A B]. split; auto. simpl. intros x d v b []. Qed.

Lemma kill_ok n p ch h : NI n ->
  (forall e, In e h -> exists fr, p_cur (n_proc n p) = Some fr /\ fst e = f_run fr) -> (forall t e, In (t, e) h -> good_get (fun _ _ => False) e) ->
  (forall a b m, In m (ch a b) -> In m (n_chan n a b)) -> NI (kill n p ch h).
Proof.
  intros N Ht Hg C.
  assert (Hr : forall e, In e h -> fst e < n_runs n).
  { intros e I. destruct (Ht e I) as (fr & X & ->). assert (Y := ni_proc n N p). destruct Y as (_ & _ & Y). rewrite X in Y. apply Y. }
  assert (K : NI (put_proc n p {| p_w := no_log (p_w (n_proc n p)); p_next := p_next (n_proc n p); p_cur := None |} ch (n_rep n) [] (n_tasks n) (n_runs n) h)).
  { destruct (ni_proc n N p) as (A & B & _). apply put_proc_ok; auto.
    - exact Logic.I.
    - split; [apply wok_grows, no_log_ok, A|]. split; [apply forall_grows; exact B|exact Logic.I].
    - intros t e I. eapply good_mono; [|eapply Hg; eauto]. intros ? ? [].
    - intros b m [].
    - discriminate. }
  destruct K. constructor; auto.
Qed.

Lemma serve_ok H runs p s m run s' x : pok H runs p s -> mok H p m -> serve body p s m run = Some (s', x) -> lok H p run s' x.
Proof.
  intros (W & Pn & _) Mm E. assert (W0 := no_log_ok _ _ W). unfold serve in E. destruct m; try (apply Some_inj in E; apply pair_inj in E as [<- <-];
    (split; [|split; [|reflexivity]]); auto; fail).
  - destruct (prepare p (no_log (p_w s)) q) as [[[w1 q1] [f|]]|] eqn:R; [| |discriminate]; apply Some_inj in E; apply pair_inj in E as [<- <-].
    + destruct Mm as [t I]. eapply prepare_ok in R as (A & B & C & D & F); eauto; [|exists t, q; repeat split; auto; apply fill_refl].
      split; auto. split; [simpl; rewrite B; auto|]. eexists. exists f. repeat split; auto. discriminate.
    + destruct Mm as [t I]. eapply prepare_ok in R as (A & B & C & D & F); eauto; [|exists t, q; repeat split; auto; apply fill_refl].
      split; [destruct A; split; auto|]. split; auto. simpl. rewrite B. apply Forall_app. auto.
  - apply Some_inj in E; apply pair_inj in E as [<- <-]. split; [apply ok_get; auto|]. split; auto. cbn [p_w]. rewrite pend_get. auto.
  - eapply go_on_ok; [| | | |exact E]; simpl; auto. destruct W0 as [W1 W2]. split; auto. simpl. intros d' v' X. unfold dput in X.
    destruct (did_eqb d d') eqn:D; [|apply W in X; auto]. apply did_eqb_eq in D as ->. apply Some_inj in X as <-. auto.
Qed.

Lemma iterate_norefs v vs : refs v = [] -> iterate v = Some vs -> forall x, In x vs -> refs x = [].
Proof.
  destruct v; simpl; intros R E; try discriminate; apply Some_inj in E as <-; intros x I.
  - destruct (refs x) as [|y z] eqn:X; auto. assert (Y : In y (flat_map refs l)) by (apply in_flat_map; exists x; rewrite X; simpl; auto). rewrite R in Y. destruct Y.
  - destruct (refs x) as [|y z] eqn:X; auto. assert (Y : In y (flat_map refs l)) by (apply in_flat_map; exists x; rewrite X; simpl; auto). rewrite R in Y. destruct Y.
  - apply in_map_iff in I as (kv & <- & _). reflexivity.
Qed.

Lemma gives_norefs o r d v : no_refs_returned r -> gives o r d v -> refs v = [].
Proof.
  destruct r as [x|e]; simpl; [|intros _ [_ ->]; reflexivity]. destruct o; simpl; [tauto|intros R [_ ->]; auto|].
  intros R (vs & I & C). apply in_combine_r in C. eapply iterate_norefs; eauto.
Qed.

Lemma leave_ok H runs p s fr r run s' x : pok H runs p s -> p_cur s = Some fr -> f_act fr = ARet r -> f_rest fr <> LMain ->
  leave body p s fr r run = Some (s', x) -> lok H p run s' x.
Proof.
  intros (W & Pn & C) Cu A Nm E. assert (W0 := no_log_ok _ _ W). rewrite Cu in C. destruct C as (_ & Rl & _ & D & L). rewrite A in Rl.
  unfold leave in E. destruct (finish_task (no_log (p_w s)) (f_q fr) r) as [w|] eqn:F; [|discriminate].
  assert (G : forall d v, gives (q_out (f_q fr)) r d v -> Pv H d v).
  { assert (X : exists f, rok H p (f_q fr) f /\ exists l, trace H (f_run fr) = HStart (q_id (f_q fr)) :: l /\
      follows (entered body f (f_q fr)) l (f_act fr) /\ Forall (good_get (M H)) l).
    { destruct (f_rest fr); [congruence| |]; destruct D as (_ & f & X); exists f; exact X. }
    destruct X as (f & (t & q0 & fd & I & Qi & Qo & Qf & Mf & Fa & Fk & Ra & Rk) & l & T & Fo & Gd).
    intros d v Gv. split; [|eapply gives_norefs; eauto].
    eapply (means_task body H t p q0 fd f (q_args (f_q fr)) (q_kwargs (f_q fr)) r); eauto.
    - eapply fill_mono; [|exact Fa]. intros ? ? [X _]. exact X.
    - eapply fill_mono; [|exact Fk]. intros ? ? [X _]. exact X.
    - unfold computes, entered in *. rewrite A in Fo. destruct (failed_arg _ _).
      + inversion Fo; subst; auto.
      + exists (f_run fr), l, []. rewrite app_nil_r, <- Qi. auto.
    - rewrite <- Qo. auto. }
  destruct (ok_finish _ _ _ _ _ W0 G F) as [Ww Wp]. simpl in Wp.
  destruct (f_rest fr) as [| |kept todo] eqn:R; [congruence| |].
  - eapply go_on_ok; [| | | |exact E]; simpl; auto. rewrite Wp. auto.
  - destruct L as [L1 L2]. eapply go_on_ok; [| | | |exact E]; auto. rewrite Wp. auto.
Qed.

Lemma looped_ok n p s x ch h : NI n -> lok (n_hist n ++ h) p (n_runs n) s x ->
  (forall e, In e h -> exists fr, p_cur (n_proc n p) = Some fr /\ fst e = f_run fr) -> (forall t e, In (t, e) h -> good_get (fun _ _ => False) e) ->
  (forall a b m, In m (ch a b) -> In m (n_chan n a b)) -> NI (looped n p (Some (s, x)) ch h).
Proof using body_ok.
  intros N (W & Pn & X) Ht Hg Hch.
  assert (Hr : forall e, In e h -> fst e < n_runs n).
  { intros e I. destruct (Ht e I) as (fr & C & ->). assert (Y := ni_proc n N p). destruct Y as (_ & _ & Y). rewrite C in Y. apply Y. }
  destruct x as [i|]; unfold looped.
  - destruct X as (fr & f & C & Fr & Fg & Fi & R & Fa & Fn & Fl). apply put_proc_ok; auto.
    + intros e I. apply in_app_or in I as [I|[<-|[]]]; [apply Hr in I; lia|simpl; lia].
    + intros e I. apply in_app_or in I as [I|[<-|[]]]; [right; auto | left; simpl; lia].
    + rewrite C. left. lia.
    + rewrite app_assoc. split; [apply wok_grows; auto|]. split; [apply forall_grows; auto|]. rewrite C.
      assert (T : trace ((n_hist n ++ h) ++ [(n_runs n, HStart i)]) (f_run fr) = [HStart i]).
      { rewrite !trace_app, Fr, (trace_none (n_hist n) (n_runs n)), (trace_none h (n_runs n)); auto; [|apply (ni_new n N)].
        unfold trace. simpl. rewrite Nat.eqb_refl. reflexivity. }
      rewrite T. split; [lia|]. split; [rewrite Fa; destruct R as (? & ? & ? & _ & _ & _ & _ & _ & _ & _ & R1 & R2); apply entered_ok; auto|]. split; [rewrite Fg; auto|]. split.
      * assert (Y : f_run fr <> 0 /\ (exists f0, rok ((n_hist n ++ h) ++ [(n_runs n, HStart i)]) p (f_q fr) f0 /\
          (exists l : list hev, [HStart i] = HStart (q_id (f_q fr)) :: l /\ follows (entered body f0 (f_q fr)) l (f_act fr) /\
            Forall (good_get (M ((n_hist n ++ h) ++ [(n_runs n, HStart i)]))) l))).
        { split; [rewrite Fr; assert (Z := ni_zero n N); lia|]. exists f. split; [apply rok_grows; auto|]. exists []. rewrite Fi, Fa. repeat split; auto. constructor. }
        destruct (f_rest fr); auto. congruence.
      * destruct (f_rest fr); auto. destruct Fl. split; apply forall_grows; auto.
    + intros t e I. apply in_app_or in I as [I|[I|[]]]; [|apply pair_inj in I as [<- <-]; simpl; auto].
      eapply good_mono; [|eapply Hg; eauto]. intros ? ? [].
    + intros b m [].
    + intros fr' C' L. rewrite C in C'. apply Some_inj in C' as <-. congruence.
  - apply put_proc_ok; auto.
    + rewrite X. auto.
    + split; auto. split; auto. rewrite X. auto.
    + intros t e I. eapply good_mono; [|eapply Hg; eauto]. intros ? ? [].
    + intros b m [].
    + intros fr' C'. congruence.
Qed.

Lemma follows_trans a l a' l' a'' : follows a l a' -> follows a' l' a'' -> follows a (l ++ l') a''.
Proof. induction 1; intros F; simpl; auto; constructor; auto. Qed.

Lemma fok_ext H runs p fr T a es : fok H runs p fr T -> follows (f_act fr) es a -> refless a ->
  Forall (good_get (M (H ++ map (fun e => (f_run fr, e)) es))) es ->
  fok (H ++ map (fun e => (f_run fr, e)) es) runs p (set_act fr a None) (T ++ es).
Proof.
  intros F Fo Rl G. apply (fok_grows H (map (fun e => (f_run fr, e)) es) runs runs) in F; auto. destruct F as (A & B & C & D & E).
  split; [exact A|]. split; [exact Rl|]. split; [exact Logic.I|]. cbn [set_act f_rest f_run f_q f_act]. split; [|exact E].
  destruct (f_rest fr).
  - destruct D as (D1 & D2 & D3). split; auto. split; [eapply follows_trans; eauto|]. apply Forall_app. auto.
  - destruct D as (D0 & f & R & l & -> & F & Gd). split; auto. exists f. split; auto. exists (l ++ es). split; auto.
    split; [eapply follows_trans; eauto|]. apply Forall_app. auto.
  - destruct D as (D0 & f & R & l & -> & F & Gd). split; auto. exists f. split; auto. exists (l ++ es). split; auto.
    split; [eapply follows_trans; eauto|]. apply Forall_app. auto.
Qed.

Lemma fok_get H runs p fr T g : fok H runs p fr T ->
  (exists k, f_act fr = AGet (t_want g) k) -> (forall e, t_exc g = Some e -> exists d, In d (t_want g) /\ M H d (VExc e)) ->
  incl (t_ids g) (t_want g) -> fok H runs p (set_act fr (f_act fr) (Some g)) T.
Proof. intros (A & B & C & D & E) X Y Z. split; [exact A|]. split; [exact B|]. split; [simpl; auto|]. split; [exact D|exact E]. Qed.

Lemma push_one_ok H w dest d w' l : Wok (Pv H) w -> push_one w dest d = Some (w', l) ->
  Wok (Pv H) w' /\ pend w' = pend w /\ Forall (mok H dest) l.
Proof.
  intros W E. unfold push_one in E. destruct (store w d) as [v|] eqn:S.
  - destruct (pair_in _ _); apply Some_inj in E; apply pair_inj in E as [<- <-]; [auto|]. split; [destruct W; split; auto|]. split; auto.
    constructor; auto. simpl. destruct W as [W _]. auto.
  - destruct (owner w d); [|discriminate]. apply Some_inj in E; apply pair_inj in E as [<- <-]. split; auto. split; auto. repeat constructor.
Qed.

Lemma push_all_ok H dest ds : forall w w' l ok, Wok (Pv H) w -> push_all w dest ds = (w', l, ok) ->
  Wok (Pv H) w' /\ pend w' = pend w /\ Forall (mok H dest) l.
Proof.
  induction ds as [|d ds IH]; intros w w' l ok W E; simpl in E.
  - apply pair_inj in E as [E _]. apply pair_inj in E as [<- <-]. auto.
  - destruct (push_one w dest d) as [[w1 l1]|] eqn:P1.
    + destruct (push_all w1 dest ds) as [[w2 l2] ok2] eqn:P2. apply pair_inj in E as [E _]. apply pair_inj in E as [<- <-].
      destruct (push_one_ok _ _ _ _ _ _ W P1) as (A & B & C). destruct (IH _ _ _ _ A P2) as (A2 & B2 & C2).
      split; auto. split; [congruence|]. apply Forall_app. auto.
    + apply pair_inj in E as [E _]. apply pair_inj in E as [<- <-]. auto.
Qed.

Lemma new_len p next n : length (out_ids (new_out p next n)) = n.
Proof. unfold new_out. destruct n as [|[|n]]; auto. cbn [out_ids]. unfold new_ids. rewrite map_length, seq_length. reflexivity. Qed.

Lemma read_ok H w ds vs : Wok (Pv H) w -> read_vals (store w) ds = Some vs -> Forall2 (M H) ds vs.
Proof.
  intros [W _]. revert vs. induction ds as [|d ds IH]; intros vs E; simpl in E.
  - apply Some_inj in E as <-. constructor.
  - destruct (store w d) as [v|] eqn:S; [|discriminate]. destruct (read_vals (store w) ds) as [l|]; [|discriminate].
    apply Some_inj in E as <-. constructor; auto. apply W in S. apply S.
Qed.

Lemma api_ok H runs p s fr dest task s' out sub es : pok H runs p s -> p_cur s = Some fr -> f_get fr = None ->
  call_api workers p s fr dest task = Some (s', out, sub, es) ->
  let H' := H ++ map (fun e => (f_run fr, e)) es in
  pok H' runs p s' /\ Forall (good_get (M H')) es /\ (forall b m, In (b, m) out -> mok H' b m) /\
  exists fr', p_cur s' = Some fr' /\ f_run fr' = f_run fr /\ f_rest fr' = f_rest fr.
Proof.
  intros (W & Pn & C) Cu Ng E. assert (W0 := no_log_ok _ _ W). rewrite Cu in C. cbv zeta. unfold call_api in E.
  assert (Rl : refless (f_act fr)) by apply C.
  destruct (f_act fr) as [r|v k|f args kwargs n k|ds k] eqn:A; [discriminate| | |].
  - apply Some_inj in E. apply pair_inj in E as [E <-]. apply pair_inj in E as [E _]. apply pair_inj in E as [<- <-].
    set (es := [HPut (p, p_next s) v]). set (H' := H ++ _). assert (G : Forall (good_get (M H')) es) by (repeat constructor).
    split; [|split; auto; split; [intros b m []|eexists; repeat split]]. split.
    { cbn [p_w]. assert (W1 := wok_grows H (map (fun e => (f_run fr, e)) es) _ W0). destruct W1 as [W1 W2]. split; auto. simpl. intros d' v' X. unfold dput in X.
      destruct (did_eqb (p, p_next s) d') eqn:D; [|apply W1; auto]. apply did_eqb_eq in D as <-. apply Some_inj in X as <-.
      split; [|apply Rl]. eapply (means_put body _ (f_run fr)). apply in_or_app. right. simpl. auto. }
    split; [apply forall_grows; auto|]. cbn [p_cur set_act f_run]. unfold H' at 2. rewrite trace_app, trace_tag. apply fok_ext; auto.
    + rewrite A. apply fo_put. constructor.
    + apply Rl.
  - destruct (negb _ || _); [discriminate|]. destruct (push_all _ dest _) as [[w1 l] ok] eqn:Pa.
    assert (Ww : forall o, Wok (Pv H) (set_owner (no_log (p_w s)) o)) by (intros o; destruct W0 as [X Y]; split; [exact X|exact Y]).
    specialize (Ww (fold_left (fun m d => dput m d dest) (out_ids (new_out p (p_next s) n)) (owner (no_log (p_w s))))).
    destruct ok; apply Some_inj in E; apply pair_inj in E as [E <-]; apply pair_inj in E as [E _]; apply pair_inj in E as [<- <-].
    + match goal with |- context [HSubmit dest ?x] => set (q := x) end. set (es := [HSubmit dest q]). set (H' := H ++ _).
      assert (G : Forall (good_get (M H')) es) by (repeat constructor).
      destruct (push_all_ok H dest _ _ _ _ _ Ww Pa) as (W1 & P1 & L1).
      split; [|split; auto; split; [|eexists; repeat split]].
      * split; [apply wok_grows; auto|]. split; [apply forall_grows; cbn [p_w]; rewrite P1; auto|].
        cbn [p_cur set_act f_run]. unfold H' at 2. rewrite trace_app, trace_tag. apply fok_ext; auto.
        rewrite A. apply (fo_submit f args kwargs n k dest q); auto; [simpl; apply new_len|constructor].
      * intros b m I. apply in_map_iff in I as (m' & X & I). apply pair_inj in X as [<- <-]. apply in_app_or in I as [I|[<-|[]]].
        -- rewrite Forall_forall in L1. apply mok_grows. auto.
        -- simpl. exists (f_run fr). apply in_or_app. right. simpl. auto.
    + match goal with |- context [HRefused f args kwargs n] => set (es := [HRefused f args kwargs n]) end. set (H' := H ++ _).
      assert (G : Forall (good_get (M H')) es) by (repeat constructor).
      destruct (push_all_ok H dest _ _ _ _ _ Ww Pa) as (W1 & P1 & L1).
      split; [|split; auto; split; [|eexists; repeat split]].
      * split; [apply wok_grows; auto|]. split; [apply forall_grows; cbn [p_w]; rewrite P1; auto|].
        cbn [p_cur set_act f_run]. unfold H' at 2. rewrite trace_app, trace_tag. apply fok_ext; auto.
        rewrite A. apply fo_refused. constructor.
      * intros b m I. apply in_map_iff in I as (m' & X & I). apply pair_inj in X as [<- <-].
        rewrite Forall_forall in L1. apply mok_grows. auto.
  - destruct (filter (fun d => negb (dmem (store (no_log (p_w s))) d)) ds) as [|x r] eqn:Fl.
    + apply Some_inj in E; apply pair_inj in E as [E <-]; apply pair_inj in E as [E _]; apply pair_inj in E as [<- <-].
      match goal with |- context [HGet ds ?y] => set (gr := y) end. set (es := [HGet ds gr]). set (H' := H ++ _).
      assert (G : Forall (good_get (M H')) es).
      { constructor; auto. unfold gr. simpl. destruct (read_vals (store (p_w s)) ds) eqn:Rd; auto. eapply read_ok; [|exact Rd]. apply wok_grows. exact W. }
      split; [|split; auto; split; [intros b m []|eexists; repeat split]].
      split; [apply wok_grows; auto|]. split; [apply forall_grows; auto|].
      cbn [p_cur set_act f_run]. unfold H' at 2. rewrite trace_app, trace_tag. apply fok_ext; auto.
      rewrite A. apply fo_get. constructor.
    + destruct (ask_owners _ (x :: r)) as [l ok] eqn:Ao. destruct ok; apply Some_inj in E; apply pair_inj in E as [E <-]; apply pair_inj in E as [E _]; apply pair_inj in E as [<- <-].
      * simpl map. rewrite app_nil_r. split; [|split; auto; split; [|eexists; repeat split]].
        -- split; auto. split; auto. cbn [p_cur set_act f_run]. rewrite <- A.
           apply (fok_get H runs p fr (trace H (f_run fr)) {| t_want := ds; t_ids := x :: r; t_left := S (length r); t_exc := None |}); auto.
           ++ exists k. exact A.
           ++ simpl. discriminate.
           ++ simpl. rewrite <- Fl. intros d I. apply filter_In in I. apply I.
        -- intros b m I. apply in_map_iff in I as (y & X & I). apply pair_inj in X as [<- <-]. exact Logic.I.
      * set (es := [HGet ds GError]). set (H' := H ++ _). assert (G : Forall (good_get (M H')) es) by (repeat constructor).
        split; [|split; auto; split; [|eexists; repeat split]].
        -- split; [apply wok_grows; auto|]. split; [apply forall_grows; auto|].
           cbn [p_cur set_act f_run]. unfold H' at 2. rewrite trace_app, trace_tag. apply fok_ext; auto.
           rewrite A. apply fo_get. constructor.
        -- intros b m I. apply in_map_iff in I as (y & X & I). apply pair_inj in X as [<- <-]. exact Logic.I.
Qed.

Lemma receive_ok H runs p s fr g ds k d v s' es : pok H runs p s -> p_cur s = Some fr -> f_get fr = Some g -> f_act fr = AGet ds k ->
  Pv H d v -> receive s fr g k d v = (s', es) ->
  let H' := H ++ map (fun e => (f_run fr, e)) es in
  pok H' runs p s' /\ Forall (good_get (M H')) es /\ exists fr', p_cur s' = Some fr' /\ f_run fr' = f_run fr /\ f_rest fr' = f_rest fr.
Proof.
  intros (W & Pn & C) Cu Fg A Pd E. assert (W0 := no_log_ok _ _ W). rewrite Cu in C. cbv zeta.
  assert (Rl : refless (f_act fr)) by apply C. rewrite A in Rl. simpl in Rl.
  assert (X := C). destruct X as (_ & _ & X & _). rewrite Fg in X. destruct X as ((k' & X1) & X2 & X3). rewrite A in X1.
  assert (X4 : ds = t_want g) by congruence. clear X1 k'. subst ds.
  assert (Ws : Wok (Pv H) (set_store (no_log (p_w s)) (dput (store (p_w s)) d v))).
  { destruct W0 as [W1 W2]. split; auto. simpl. intros d' v' X. unfold dput in X.
    destruct (did_eqb d d') eqn:D; [|apply W1; auto]. apply did_eqb_eq in D as <-. apply Some_inj in X as <-. auto. }
  assert (Over : forall r, (forall h, good_get (M (H ++ h)) (HGet (t_want g) r)) ->
    (s', es) = ({| p_w := set_store (no_log (p_w s)) (dput (store (p_w s)) d v); p_next := p_next s; p_cur := Some (set_act fr (k r) None) |}, [HGet (t_want g) r]) ->
    pok (H ++ map (fun e => (f_run fr, e)) es) runs p s' /\ Forall (good_get (M (H ++ map (fun e => (f_run fr, e)) es))) es /\
    exists fr', p_cur s' = Some fr' /\ f_run fr' = f_run fr /\ f_rest fr' = f_rest fr).
  { intros r Gr Eq. apply pair_inj in Eq as [-> ->].
    assert (G : Forall (good_get (M (H ++ map (fun e => (f_run fr, e)) [HGet (t_want g) r]))) [HGet (t_want g) r]) by (constructor; auto).
    split; [|split; auto; eexists; repeat split].
    split; [apply wok_grows; auto|]. split; [apply forall_grows; auto|].
    cbn [p_cur set_act f_run]. rewrite trace_app, trace_tag. apply fok_ext; auto.
    rewrite A. apply fo_get. constructor. }
  unfold receive in E. destruct (did_in d (t_ids g)) eqn:D.
  - set (exc := match t_exc g, v with None, VExc e => Some e | x, _ => x end) in *.
    assert (Ex : forall e, exc = Some e -> exists d, In d (t_want g) /\ M H d (VExc e)).
    { intros e. unfold exc. destruct (t_exc g) eqn:Te; [intros Y; apply X2; destruct v; exact Y|]. destruct v; try discriminate. intros Y. apply Some_inj in Y as <-.
      exists d. split; [apply X3, did_in_In, D|apply Pd]. }
    assert (Fin : forall h, good_get (M (H ++ h)) (HGet (t_want g) (match exc with
                 | Some e => GRaise e
                 | None => match read_vals (store (set_store (no_log (p_w s)) (dput (store (p_w s)) d v))) (t_want g) with Some vs => GVals vs | None => GError end
                 end))).
    { intros h. destruct exc as [e|] eqn:Ee; [simpl|].
      - destruct (Ex e eq_refl) as (d' & Y & Z). exists d'. split; auto. apply means_grows; auto.
      - destruct (read_vals _ (t_want g)) as [vs|] eqn:Rd; simpl; auto. eapply read_ok; [|exact Rd]. apply wok_grows. auto. }
    destruct (t_left g) as [|[|j]]; [apply (Over _ Fin); auto|apply (Over _ Fin); auto|].
    apply pair_inj in E as [<- <-]. simpl map. rewrite app_nil_r. split; [|split; auto; eexists; repeat split].
    split; auto. split; auto. cbn [p_cur set_act f_run].
    apply (fok_get H runs p fr (trace H (f_run fr)) {| t_want := t_want g; t_ids := t_ids g; t_left := S j; t_exc := exc |}); auto.
    exists k. exact A.
  - apply (Over GError); auto. intros h. exact Logic.I.
Qed.

Notation nstep := (nstep workers body).

Lemma drop_in (ch : rank -> rank -> list wmsg) src p a b m : In m (drop_head ch src p a b) -> In m (ch a b).
Proof. unfold drop_head. destruct (Nat.eqb a src && Nat.eqb b p); auto. destruct (ch a b); simpl; auto. Qed.

Lemma ni_step n o : NI n -> NI (nstep n o).
Proof using body_ok.
  intros N. destruct o as [p dest|src p|src p]; unfold NestModel.nstep.
  - destruct (p_cur (n_proc n p)) as [fr|] eqn:C; auto. destruct (n_dead n p); auto. destruct (f_get fr) eqn:G; auto.
    assert (Pk := ni_proc n N p).
    destruct (f_act fr) as [r|v k|f args kwargs j k|ds k] eqn:A.
    { assert (Y : f_rest fr <> LMain -> NI (looped n p (leave body p (n_proc n p) fr r (n_runs n)) (n_chan n) [(f_run fr, HEnd r)])).
      { intros Nm. destruct (leave body p (n_proc n p) fr r (n_runs n)) as [[s x]|] eqn:L; [|apply kill_ok; auto; [intros e [<-|[]]; eauto|intros t e [X|[]]; apply pair_inj in X as [<- <-]; exact Logic.I]].
        apply looped_ok; auto.
        - assert (Z := leave_ok _ _ _ _ _ _ _ _ _ Pk C A Nm L). destruct Z as (Z1 & Z2 & Z3). split; [apply wok_grows; auto|]. split; [apply forall_grows; auto|].
          destruct x; auto. destruct Z3 as (fr' & f & Z4 & Z5 & Z6 & Z7 & Z8 & Z9 & Z10 & Z11). exists fr', f. repeat split; auto; [apply rok_grows; auto|].
          destruct (f_rest fr'); auto. destruct Z11. split; apply forall_grows; auto.
        - intros e [<-|[]]. eauto.
        - intros t e [X|[]]. apply pair_inj in X as [<- <-]. exact Logic.I. }
      destruct (f_rest fr) eqn:R; auto; apply Y; discriminate. }
    all: destruct (call_api workers p (n_proc n p) fr dest (n_tasks n)) as [[[[s out] sub] h]|] eqn:E; auto;
      destruct (api_ok _ _ _ _ _ _ _ _ _ _ _ Pk C G E) as (A1 & A2 & A3 & fr' & A4 & A5 & A6);
      (apply put_proc_ok; auto;
       [ intros e I; apply in_map_iff in I as (x & <- & I); simpl; destruct Pk as (_ & _ & Pk); rewrite C in Pk; apply Pk
       | intros e I; apply in_map_iff in I as (x & <- & I); right; exists fr; auto
       | rewrite A4; right; exists fr; auto
       | intros t e I; apply in_map_iff in I as (x & X & I); apply pair_inj in X as [<- <-]; rewrite Forall_forall in A2; auto
       | intros fr2 X Y; rewrite A4 in X; apply Some_inj in X as <-; rewrite A6 in Y; eapply (ni_first n N); eauto ]).
  - destruct (n_chan n src p) as [|m ms] eqn:Ch; auto. destruct (p_cur (n_proc n p)) eqn:C; auto. destruct (Nat.eqb p 0 || n_dead n p); auto.
    destruct (serve body p (n_proc n p) m (n_runs n)) as [[s x]|] eqn:E; [|apply kill_ok; auto; [intros e []|intros t e []|intros; eapply drop_in; eauto]].
    apply looped_ok; auto.
    + rewrite app_nil_r. eapply serve_ok; eauto; [apply (ni_proc n N)|]. apply (ni_chan n N src). rewrite Ch. simpl; auto.
    + intros e [].
    + intros t e [].
    + intros; eapply drop_in; eauto.
  - destruct (n_rep n src p) as [|[d v] ms] eqn:Ch; auto. destruct (p_cur (n_proc n p)) as [fr|] eqn:C; auto.
    destruct (f_get fr) as [g|] eqn:G; auto. destruct (f_act fr) as [r|v' k|f args kwargs j k|ds k] eqn:A; auto.
    destruct (receive (n_proc n p) fr g k d v) as [s h] eqn:E. assert (Pk := ni_proc n N p).
    assert (Pd : Pv (n_hist n) d v) by (apply (ni_rep n N src p); rewrite Ch; simpl; auto).
    destruct (receive_ok _ _ _ _ _ _ _ _ _ _ _ _ Pk C G A Pd E) as (A1 & A2 & fr' & A4 & A5 & A6).
    apply put_proc_ok; auto.
    + intros e I; apply in_map_iff in I as (x & <- & I); simpl; destruct Pk as (_ & _ & Pk); rewrite C in Pk; apply Pk.
    + intros e I; apply in_map_iff in I as (x & <- & I); right; exists fr; auto.
    + rewrite A4; right; exists fr; auto.
    + intros t e I; apply in_map_iff in I as (x & X & I); apply pair_inj in X as [<- <-]; rewrite Forall_forall in A2; auto.
    + intros a b x. destruct (Nat.eqb a src && Nat.eqb b p); auto. destruct (n_rep n a b); simpl; auto.
    + intros b m [].
    + intros fr2 X Y; rewrite A4 in X; apply Some_inj in X as <-; rewrite A6 in Y; eapply (ni_first n N); eauto.
Qed.

Lemma ni_init : NI (ninit main).
Proof using main_ok.
  constructor; simpl; try tauto; auto.
  - intros p. split; [split; [discriminate|intros x d v b []]|]. split; [constructor|]. destruct (Nat.eqb p 0); [|exact Logic.I]. simpl. split; [simpl; lia|]. simpl.
    repeat split; auto; constructor.
  - intros p p' fr fr'. destruct (Nat.eqb p 0) eqn:E; [|discriminate]. destruct (Nat.eqb p' 0) eqn:E'; [|discriminate].
    apply Nat.eqb_eq in E, E'. congruence.
  - intros p fr. destruct (Nat.eqb p 0) eqn:E; [|discriminate]. apply Nat.eqb_eq in E. auto.
Qed.

Theorem run_ni ops : NI (nrun workers body main ops).
Proof using body_ok main_ok.
  unfold nrun. generalize ni_init. generalize (ninit main). induction ops as [|o ops IH]; intros n N; simpl; auto. apply IH, ni_step, N.
Qed.

End Nest.
