(** Messages between root and workers are neither lost nor duplicated, and requests are answered (C51). *)
From Verif Require Import Lib ValModel ShmModel PushModel PushProofs WorkerModel WorkerSpec WorkerLog WorkerTrace
  WorkerAnswer WorkerOrder WorkerThms WorkerSends WorkerWant MonModel ClusterModel ClusterSpec ClusterSeq ClusterProofs
  ClusterCount ClusterRoot.
From Coq Require Import Permutation.

(** Generic facts about logs. *)
Lemma told_in l d o : told_owner l d = Some o -> In (EvIn (WOwner d o)) l.
Proof.
  unfold told_owner. induction l as [|e l IH] using rev_ind; simpl; [discriminate|].
  rewrite fold_left_app. simpl. rewrite in_app_iff. destruct e; auto. destruct m; auto.
  - destruct (did_eqb d0 d) eqn:Q; auto. apply did_eqb_eq in Q as ->. intros X. apply Some_inj in X as <-. simpl; auto.
  - destruct (did_in d ds); [discriminate|auto].
Qed.

Lemma stored_available l d v : (forall ds, ~ In (EvIn (WClean ds)) l) -> stored l d v -> available l d = true.
Proof.
  unfold available. induction l as [|e l IH] using rev_ind; intros N S.
  - destruct S as [[]|[]].
  - rewrite fold_left_app. simpl.
    assert (Nl : forall ds, ~ In (EvIn (WClean ds)) l) by (intros ds X; apply (N ds), in_or_app; auto).
    apply stored_app in S as [S|S].
    + rewrite (IH Nl S). destruct e; auto.
      * destruct m; auto; [destruct (did_eqb _ _); auto|]. exfalso. apply (N ds), in_or_app; simpl; auto.
      * destruct (did_eqb _ _); auto.
    + destruct S as [[->|[]]|[->|[]]]; rewrite did_eqb_refl; auto.
Qed.

Lemma outstanding_in l d : outstanding l d = true -> exists o, In (EvGet o d) l.
Proof.
  unfold outstanding. induction l as [|e l IH] using rev_ind; simpl; [discriminate|].
  rewrite fold_left_app. simpl. intros H.
  assert (K : fold_left (fun (b : bool) (e : wev) => match e with
                        | EvGet _ x => if did_eqb x d then true else b
                        | EvIn (WPut x _) => if did_eqb x d then false else b
                        | _ => b end) l false = true -> exists o, In (EvGet o d) (l ++ [e])).
  { intros X. apply IH in X as (o & X). exists o. apply in_or_app; auto. }
  destruct e; auto.
  - destruct m; auto. destruct (did_eqb d0 d); [discriminate|auto].
  - destruct (did_eqb d0 d) eqn:Q; auto. apply did_eqb_eq in Q as ->. exists dest. apply in_or_app; simpl; auto.
Qed.

Lemma fill_refs (S : dataid -> val -> Prop) v : (forall d x, S d x -> refs x = []) -> forall v', fill S v v' -> incl (refs v') (refs v).
Proof.
  intros H. induction v as [n|e|d|l IH|l IH|l IH] using val_ind'; intros v' F; inversion F as [? ? Sx|? |?|?|? l' F2|? l' F2|? l' F2]; subst; try apply incl_refl.
  - rewrite (H _ _ Sx). apply incl_nil_l.
  - simpl. clear F. induction F2 as [|x x' l l' Fx F2 IH2]; [apply incl_refl|]. inversion IH; subst. simpl.
    apply incl_app; [apply incl_appl; auto | apply incl_appr; auto].
  - simpl. clear F. induction F2 as [|x x' l l' Fx F2 IH2]; [apply incl_refl|]. inversion IH; subst. simpl.
    apply incl_app; [apply incl_appl; auto | apply incl_appr; auto].
  - simpl. clear F. induction F2 as [|x x' l l' [_ Fx] F2 IH2]; [apply incl_refl|]. inversion IH; subst. simpl.
    apply incl_app; [apply incl_appl; auto | apply incl_appr; auto].
Qed.

Lemma map_nodup_inj {A B} (f : A -> B) l : NoDup (map f l) -> forall x y, In x l -> In y l -> f x = f y -> x = y.
Proof.
  induction l as [|a l IH]; simpl; intros N x y Ix Iy E; [tauto|]. inversion N as [|? ? I Nl]; subst.
  destruct Ix as [->|Ix], Iy as [->|Iy]; auto; exfalso; apply I; [rewrite E|rewrite <- E]; apply in_map; auto.
Qed.

(** The references whose values are sent to a rank. *)
Definition vals_in (ms : list wmsg) : list dataid := flat_map (fun m => match m with WPut d _ => [d] | _ => [] end) ms.

Lemma vals_answered self l dst : vals_in (outgoing self l dst) = map fst (filter (fun p => Nat.eqb (snd p) dst) (answered l)).
Proof.
  induction l as [|e l IH]; auto. simpl. unfold vals_in in *. rewrite flat_map_app, IH.
  destruct e; simpl; auto; destruct (Nat.eqb dest dst); auto.
Qed.

Lemma vals_nodup self l dst : NoDup (answered l) -> NoDup (vals_in (outgoing self l dst)).
Proof.
  intros N. rewrite vals_answered. induction N as [|[d s] l' I N IH]; simpl; [constructor|].
  destruct (Nat.eqb_spec s dst) as [->|]; auto. simpl. constructor; auto.
  intros X. apply in_map_iff in X as ([x y] & E & Y). simpl in E. subst x. apply filter_In in Y as [Y Z].
  simpl in Z. apply Nat.eqb_eq in Z as ->. auto.
Qed.

Lemma outgoing_app self a b dst : outgoing self (a ++ b) dst = outgoing self a dst ++ outgoing self b dst.
Proof. apply flat_map_app. Qed.

Lemma put_outgoing self l dst d v b : In (EvPut dst d v b) l -> In (WPut d v) (outgoing self l dst).
Proof. intros I. apply in_flat_map. exists (EvPut dst d v b). rewrite Nat.eqb_refl. simpl; auto. Qed.

Lemma get_outgoing self l dst d : In (EvGet dst d) l -> In (WGet self d false) (outgoing self l dst).
Proof. intros I. apply in_flat_map. exists (EvGet dst d). rewrite Nat.eqb_refl. simpl; auto. Qed.

Lemma asked_in l d s : In (d, s) (asked l) <-> exists b, In (EvIn (WGet s d b)) l.
Proof.
  unfold asked. rewrite in_flat_map. split.
  - intros (e & I & H). destruct e; simpl in H; try tauto. destruct m; simpl in H; try tauto.
    destruct H as [H|[]]. apply pair_inj in H as [-> ->]. eauto.
  - intros (b & I). exists (EvIn (WGet s d b)). simpl; auto.
Qed.

Lemma answered_in l d s : In (d, s) (answered l) <-> exists v b, In (EvPut s d v b) l.
Proof.
  unfold answered. rewrite in_flat_map. split.
  - intros (e & I & H). destruct e; simpl in H; try tauto.
    destruct H as [H|[]]. apply pair_inj in H as [-> ->]. eauto.
  - intros (v & b & I). exists (EvPut s d v b). simpl; auto.
Qed.

Lemma requests_from L : (forall s m, In (s, m) L -> s <> 0 -> requests [m] = []) ->
  requests (map snd L) = requests (sends_to 0 L).
Proof.
  induction L as [|[s m] L IH]; intros H; auto. simpl map. change (m :: map snd L) with ([m] ++ map snd L).
  rewrite requests_app, IH by (intros; eapply H; simpl; eauto).
  change ((s, m) :: L) with ([(s, m)] ++ L). rewrite sends_app, requests_app. f_equal.
  simpl sends_to. destruct (Nat.eqb_spec s 0) as [->|N]; auto. apply (H s); simpl; auto.
Qed.

(** The announcements of one sender carry over to the merged inbox. *)
Lemma announced_prefix a b : announced (a ++ b) -> announced a.
Proof.
  intros A x m y q -> Hm. apply (A x m (y ++ b) q); auto. rewrite <- app_assoc. auto.
Qed.

Lemma announced_from L : announced (sends_to 0 L) -> (forall s m, In (s, m) L -> s <> 0 -> requests [m] = []) ->
  announced (map snd L).
Proof.
  intros A H a m b q E Hm.
  apply map_eq_app in E as (La & Lb & -> & Ea & Eb).
  destruct Lb as [|[s x] Lb]; [discriminate|]. simpl in Eb. injection Eb as -> Eb.
  assert (s = 0).
  { destruct (Nat.eq_dec s 0) as [|N]; auto. exfalso.
    assert (X := H s m ltac:(apply in_or_app; simpl; auto) N). destruct Hm as [->| ->]; discriminate. }
  subst s. rewrite sends_app in A. simpl in A. destruct (A (sends_to 0 La) m (sends_to 0 Lb) q eq_refl Hm) as [A1 A2].
  assert (Sub : forall y, In y (sends_to 0 La) -> In y a).
  { intros y Y. apply in_sends in Y. rewrite <- Ea. apply in_map_iff. exists (0, y). auto. }
  split.
  - intros d D. destruct (A1 d D) as [(v & X)|(r & X)]; eauto.
  - intros d D. destruct (A2 d D) as (f & X). eauto.
Qed.

(** Messages about a reference. *)
Definition about (m : wmsg) : option dataid := match m with WPut d _ => Some d | WGet _ d _ => Some d | _ => None end.

(** The first list is the second, except that messages about references in D may be missing. *)
Inductive lossy (D : dataid -> Prop) : list wmsg -> list wmsg -> Prop :=
| lossy_nil : lossy D [] []
| lossy_keep m a b : lossy D a b -> lossy D (m :: a) (m :: b)
| lossy_drop m d a b : about m = Some d -> D d -> lossy D a b -> lossy D a (m :: b).

Lemma lossy_refl D a : lossy D a a.
Proof. induction a; constructor; auto. Qed.

Lemma lossy_app D a b a' b' : lossy D a b -> lossy D a' b' -> lossy D (a ++ a') (b ++ b').
Proof. induction 1; simpl; intros H'; auto; [apply lossy_keep | eapply lossy_drop]; eauto. Qed.

Lemma lossy_in D a b m : lossy D a b -> In m a -> In m b.
Proof. induction 1; simpl; tauto. Qed.

Lemma lossy_back D a b m : lossy D a b -> In m b -> In m a \/ exists d, about m = Some d /\ D d.
Proof. induction 1 as [|x a b L IH|x d a b A Dd L IH]; simpl; [tauto| |]; intros [->|I]; eauto; apply IH in I as [I|I]; auto. Qed.

Lemma lossy_trans D a b c : lossy D a b -> lossy D b c -> lossy D a c.
Proof.
  intros H1 H2. revert a H1. induction H2; intros a' H1; auto.
  - inversion H1; subst; [apply lossy_keep; auto | eapply lossy_drop; eauto].
  - eapply lossy_drop; eauto.
Qed.

Lemma lossy_mono (D D' : dataid -> Prop) a b : (forall d, D d -> D' d) -> lossy D a b -> lossy D' a b.
Proof. induction 2; [constructor|constructor; auto|eapply lossy_drop; eauto]. Qed.

Lemma lossy_length D a b : lossy D a b -> length a <= length b.
Proof. induction 1; simpl; lia. Qed.

Lemma lossy_vals D a b : lossy D a b -> NoDup (vals_in b) -> NoDup (vals_in a).
Proof.
  assert (G : forall D a b, lossy D a b -> incl (vals_in a) (vals_in b)).
  { induction 1 as [|m a' b' L IH|m d a' b' A Dd L IH]; [apply incl_refl| |].
    - unfold vals_in. cbn [flat_map]. apply incl_app; [apply incl_appl, incl_refl | apply incl_appr; auto].
    - unfold vals_in. cbn [flat_map]. apply incl_appr; auto. }
  induction 1 as [|m a b L IH|m d a b A Dd L IH]; auto.
  - unfold vals_in in *. cbn [flat_map]. destruct m; auto. simpl. intros N. inversion N; subst. constructor; auto.
    intros I. apply (G _ _ _ L) in I. auto.
  - unfold vals_in in *. cbn [flat_map]. destruct m; auto. simpl. intros N. inversion N; subst. auto.
Qed.

Section Net.
Context {Lost : dataid -> Prop}.
Variable workers : list rank.
Variable body : val -> val -> val -> result.
Hypothesis body_ok : forall f a k, no_refs_returned (body f a k).
Hypothesis no_root : ~ In 0 workers.

(** What one process has sent to another so far. *)
Definition stream (c : cst) (s d : rank) : list wmsg :=
  if Nat.eqb s 0 then sends_to d (c_out c) else outgoing s (log (c_work c s)) d.

(** What was sent has been taken or is under way; messages between workers about references in Lost may have been lost. *)
Definition flow (c : cst) : Prop :=
  (forall d, sends_to 0 (c_in c d) ++ c_chan c 0 d = stream c 0 d) /\
  (forall s d, lossy Lost (sends_to s (c_in c d) ++ c_chan c s d) (stream c s d)).

Record LN (c : cst) : Prop := {
  ln_alive : forall w, c_dead c w = false;
  ln_stream : flow c;
  ln_back : forall w a s d v b w1, w <> 0 -> c_in c w = a ++ (s, WPut d v) :: b -> made (c_prog c) w d ->
    wrun w body no_method plain_fn winit (map snd a) = Some w1 -> store w1 d <> None
}.

Section Snap.
Variable c : cst.
Hypothesis V : valid workers (c_prog c).
Hypothesis R : returns_enough body (c_prog c).
Hypothesis B : CB body c.
Hypothesis L : LR workers c.
Hypothesis streams : flow c.
Notation prog := (c_prog c).
Notation E := (sequential body).

Lemma in_stream s w m : In (s, m) (c_in c w) \/ In m (c_chan c s w) -> In m (stream c s w).
Proof using streams.
  intros H. apply (lossy_in Lost _ _ _ (proj2 streams s w)). rewrite in_app_iff, in_sends. auto.
Qed.

Lemma stream_cases s w m : In m (stream c s w) ->
  (s = 0 /\ In (w, m) (c_out c)) \/
  (s <> 0 /\ ((exists d v b, m = WPut d v /\ In (EvPut w d v b) (log (c_work c s))) \/
              (exists d, m = WGet s d false /\ In (EvGet w d) (log (c_work c s))))).
Proof using.
  unfold stream. destruct (Nat.eqb_spec s 0) as [->|N]; intros I.
  - left. split; auto. apply in_sends; auto.
  - right. split; auto. apply in_outgoing in I; auto.
Qed.

Lemma box_ok w x : In x (map snd (c_in c w)) -> okm body prog x.
Proof using B. intros X. apply in_map_iff in X as ([s y] & <- & X). eapply cb_in; eauto. Qed.

Lemma facts w : w <> 0 ->
  WI body no_method (c_work c w) /\ SV (c_work c w) /\ inputs (log (c_work c w)) = map snd (c_in c w) /\
  AI w (c_work c w) /\ (forall d v, stored (log (c_work c w)) d v -> E prog d = Some v).
Proof using B V body_ok.
  intros N. destruct (worker_agrees workers body body_ok prog w _ _ V (box_ok w) (cb_run _ _ B w N)) as (W & S & I & _ & A).
  destruct (inbox_ok workers body body_ok prog _ V (box_ok w)) as (Nr & _ & _).
  split; auto. split; auto. split; auto. split; auto.
  apply (run_ai w body no_method plain_fn body_ok no_method_ok (map snd (c_in c w))); auto. apply B; auto.
Qed.

Lemma taken w m : w <> 0 -> In (EvIn m) (log (c_work c w)) <-> exists s, In (s, m) (c_in c w).
Proof using B V body_ok.
  intros N. destruct (facts w N) as (_ & _ & I & _). rewrite <- in_inputs, I, in_map_iff. split.
  - intros ([s y] & <- & Y). eauto.
  - intros (s & Y). exists (s, m). auto.
Qed.

Lemma not_request s w m : In m (stream c s w) -> s <> 0 -> requests [m] = [].
Proof using.
  intros I N. apply stream_cases in I as [[-> _]|[_ [(d & v & b & -> & _)|(d & -> & _)]]]; [tauto|auto|auto].
Qed.

Lemma plain_stream s w m : In m (stream c s w) -> plain m.
Proof using L.
  intros I. apply stream_cases in I as [[-> I]|[_ [(d & v & b & -> & _)|(d & -> & _)]]]; simpl; auto.
  apply (lr_msgs _ _ L) in I. destruct m; simpl in *; auto.
Qed.

Lemma no_clean w ds : w <> 0 -> ~ In (EvIn (WClean ds)) (log (c_work c w)).
Proof using B L V body_ok streams.
  intros N I. apply taken in I as (s & I); auto. apply (plain_stream s w (WClean ds)). apply in_stream; auto.
Qed.

Lemma stored_store w d v : w <> 0 -> stored (log (c_work c w)) d v -> store (c_work c w) d <> None.
Proof using B L V body_ok streams.
  intros N S. destruct (facts w N) as (_ & _ & _ & A & _). apply A. eapply stored_available; eauto.
  intros ds. apply no_clean; auto.
Qed.

Lemma told_made w d o : w <> 0 -> In (EvIn (WOwner d o)) (log (c_work c w)) -> made prog o d.
Proof using B L V body_ok streams.
  intros N I. apply taken in I as (s & I); auto.
  assert (X : In (WOwner d o) (stream c s w)) by (apply in_stream; auto).
  apply stream_cases in X as [[-> X]|[_ [(? & ? & ? & X & _)|(? & X & _)]]]; try discriminate.
  apply (lr_msgs _ _ L) in X. exact X.
Qed.

Lemma get_made w d o : w <> 0 -> In (EvGet o d) (log (c_work c w)) -> made prog o d /\ o <> w.
Proof using B L V body_ok streams.
  intros N I. destruct (facts w N) as (_ & _ & _ & A & _). apply in_split in I as (l1 & l2 & I).
  destruct (ai_gets _ _ A _ _ _ _ I) as (_ & T & Ne & _). split; auto. apply (told_made w); auto.
  apply told_in in T. rewrite I. apply in_or_app; auto.
Qed.

Lemma asked_made s w r d b : In (WGet r d b) (stream c s w) -> made prog w d /\ r = s.
Proof using B L V body_ok streams.
  intros I. apply stream_cases in I as [[-> I]|[N [(? & ? & ? & X & _)|(d' & X & I)]]]; try discriminate.
  - apply (lr_msgs _ _ L) in I as [-> M]. auto.
  - injection X as -> -> ->. apply get_made in I as [M _]; auto.
Qed.

(** A value sent by a worker was asked for; the worker computed it. *)
Lemma answer_made s w d v b : s <> 0 -> In (EvPut w d v b) (log (c_work c s)) ->
  made prog s d /\ stored (log (c_work c s)) d v /\ exists b', In (w, WGet w d b') (c_in c s).
Proof using B L V body_ok streams.
  intros N I. destruct (facts s N) as (_ & S & _). apply (sv_put _ S) in I as [St A].
  apply asked_in in A as (b' & A). apply taken in A as (x & A); auto.
  destruct (asked_made x s w d b') as [M <-]; [apply in_stream; auto|]. eauto.
Qed.

Lemma back s w d v : w <> 0 -> In (WPut d v) (stream c s w) -> made prog w d -> store (c_work c w) d <> None.
Proof using B L V body_ok streams.
  intros N I M. assert (Nf := v_fresh _ _ V). apply stream_cases in I as [[-> I]|[Ns [(d' & v' & b & X & I)|(? & X & _)]]]; try discriminate.
  - apply (lr_msgs _ _ L) in I as [P|(s' & v' & M' & I)].
    + exfalso. eapply made_not_put; eauto.
    + assert (s' = w) by (eapply made_unique; eauto). subst s'.
      assert (X : In (WPut d v') (stream c w 0)) by (apply in_stream; auto).
      apply stream_cases in X as [[-> _]|[_ [(d' & v'' & b & X & J)|(? & X & _)]]]; try discriminate; [tauto|].
      injection X as <- <-. apply answer_made in J as (_ & S & _); auto. eapply stored_store; eauto.
  - injection X as <- <-. apply answer_made in I as (M' & S & _); auto.
    assert (s = w) by (eapply made_unique; eauto). subst s. eapply stored_store; eauto.
Qed.

(** An inbox that is part of what was sent is harmless. *)
Lemma box_safe w X : w <> 0 -> (forall s m, In (s, m) X -> In m (stream c s w) /\ okm body prog m) ->
  (exists rest, sends_to 0 X ++ rest = sends_to w (c_out c)) ->
  wrun w body no_method plain_fn winit (map snd X) <> None.
Proof using B L R V body_ok.
  intros N H (rest & Pf).
  assert (Ok : forall m, In m (map snd X) -> okm body prog m).
  { intros m M. apply in_map_iff in M as ([s y] & <- & Y). apply (H s); auto. }
  destruct (inbox_ok workers body body_ok prog _ V Ok) as (Nr & _ & _).
  assert (Nq : forall s m, In (s, m) X -> s <> 0 -> requests [m] = []).
  { intros s m I Ns. apply H in I as [I _]. eapply not_request; eauto. }
  assert (Rq : forall q, In q (requests (map snd X)) -> In (RSubmit w q) prog).
  { intros q Q. rewrite requests_from in Q by auto.
    assert (Q2 : In q (requests (sends_to w (c_out c)))) by (rewrite <- Pf, requests_app; apply in_or_app; auto).
    rewrite (lr_reqs _ _ L) in Q2. apply in_map_iff in Q2 as ([x y] & <- & Q2). apply filter_In in Q2 as [Q2 E].
    simpl in E. apply Nat.eqb_eq in E as ->. apply in_submitted; auto. }
  assert (Fn : forall q, In (RSubmit w q) prog -> exists fd f, q_fn q = FRef fd /\ In (RPut fd f) prog).
  { intros q Q. apply in_split in Q as (a & b & E). destruct (v_sub _ _ V a w q b E) as (_ & (fd & Fd & P) & _).
    apply in_puts in P as (f & P). exists fd, f. split; auto. rewrite E. apply in_or_app; auto. }
  apply survives; auto; try (apply no_method_ok).
  - intros ds I. apply in_map_iff in I as ([s y] & Ey & Y). simpl in Ey. subst y. apply H in Y as [Y _].
    apply (plain_stream s w (WClean ds)); auto.
  - apply announced_from; auto. apply (announced_prefix _ rest). rewrite Pf. apply L.
  - split.
    + intros q Q. apply Rq in Q. destruct (Fn q Q) as (fd & f & Fd & P). apply (R w q fd f (VLeaf 0) (VLeaf 0)); auto.
    + intros q d f a k Q Fd P. apply Rq in Q. destruct (Fn q Q) as (fd & f' & Fd' & P').
      assert (fd = d) by congruence. subst fd.
      assert (f' = f).
      { apply Ok in P. simpl in P. apply (seq_put body) in P'; [|apply V]. congruence. }
      subst f'. destruct (R w q d f a k Q Fd P') as [No En].
      destruct (q_out q), (body f a k); simpl in *; auto; try congruence.
      destruct En as (vs & -> & _). discriminate.
    + intros q m h a k Q Fd. apply Rq in Q. destruct (Fn q Q) as (fd & f & Fd' & _). congruence.
    + intros q q' d Q Q' Fd. apply Rq in Q, Q'. destruct (Fn q Q) as (fd & f & Fd' & P).
      assert (fd = d) by congruence. subst fd. intros I.
      apply (made_not_put prog w d); [apply V | exists q'; auto | apply in_puts; eauto].
Qed.

Lemma box_prefix w : exists rest, sends_to 0 (c_in c w) ++ rest = sends_to w (c_out c).
Proof using streams. exists (c_chan c 0 w). apply (proj1 streams w). Qed.

Lemma box_requests w : w <> 0 -> exists rest, requests (map snd (c_in c w)) ++ rest =
  map snd (filter (fun p => Nat.eqb (fst p) w) (submitted prog)).
Proof using L streams.
  intros N. exists (requests (c_chan c 0 w)). rewrite requests_from.
  - rewrite <- requests_app, (proj1 streams w). apply (lr_reqs _ _ L).
  - intros s m I. apply not_request with (w := w). apply in_stream; auto.
Qed.

Lemma box_submitted w q : w <> 0 -> In q (received (log (c_work c w))) -> In (RSubmit w q) prog.
Proof using B L V body_ok streams.
  intros N Q. destruct (facts w N) as (_ & _ & I & _). rewrite received_inputs, I in Q.
  destruct (box_requests w N) as (rest & E).
  assert (X : In q (map snd (filter (fun p => Nat.eqb (fst p) w) (submitted prog)))) by (rewrite <- E; apply in_or_app; auto).
  apply in_map_iff in X as ([x y] & <- & X). apply filter_In in X as [X Y]. simpl in Y. apply Nat.eqb_eq in Y as ->.
  apply in_submitted; auto.
Qed.

Lemma sub_ids w : NoDup (map q_id (map snd (filter (fun p => Nat.eqb (fst p) w) (submitted prog)))).
Proof using V.
  rewrite map_map. assert (N := v_ids _ _ V). induction (submitted prog) as [|x l IH]; simpl in *; [constructor|].
  inversion N as [|? ? I Nl]; subst. destruct (fst x =? w); simpl; auto. constructor; auto.
  intros Y. apply I. apply in_map_iff in Y as (y & <- & Y). apply filter_In in Y as [Y _].
  apply (in_map (fun p => q_id (snd p))); auto.
Qed.

Lemma box_ids w : w <> 0 -> NoDup (map q_id (received (log (c_work c w)))).
Proof using B L V body_ok streams.
  intros N. destruct (facts w N) as (_ & _ & I & _). rewrite received_inputs, I.
  destruct (box_requests w N) as (rest & E). assert (X := sub_ids w). rewrite <- E, map_app in X.
  eapply ShmRaceProofs.nodup_app_l; eauto.
Qed.

Lemma same_id w q q' : w <> 0 -> In q (received (log (c_work c w))) -> In q' (received (log (c_work c w))) ->
  q_id q = q_id q' -> q = q'.
Proof using B L V body_ok streams.
  intros N Q Q' E. apply (map_nodup_inj q_id (received (log (c_work c w)))); auto. apply box_ids; auto.
Qed.

Lemma box_enough w : w <> 0 -> all_enough (log (c_work c w)).
Proof using B L R V body_ok streams.
  intros N n r q En Q Id. destruct (facts w N) as (W & _ & _ & _ & Ag).
  apply in_split in En as (l1 & l2 & El).
  destruct (good_end body no_method _ (wi_good _ _ _ W) _ _ _ _ El)
    as (l0 & q' & cl & a & k & st & Ei & (X1 & X2 & _) & _ & Re & -> & _).
  assert (Q' : In q' (received (log (c_work c w)))).
  { rewrite El, <- app_assoc, received_app. apply in_or_app; auto. }
  assert (q' = q) by (apply (same_id w); auto; congruence). subst q'.
  assert (Sb := box_submitted w q N Q). assert (Sb' := Sb). apply in_split in Sb' as (x & y & Ep).
  destruct (v_sub _ _ V x w q y Ep) as (_ & (fd & Fd & P) & _). apply in_puts in P as (f & P).
  assert (Pf : In (RPut fd f) prog) by (rewrite Ep; apply in_or_app; auto).
  unfold callee_of in X2. rewrite Fd in X2. destruct X2 as (f' & Sf & ->).
  assert (Ef : E prog fd = Some f').
  { apply Ag. rewrite El, <- app_assoc, stored_app. auto. }
  apply (seq_put body) in Pf as Ef'; [|apply V]. assert (f' = f) by congruence. subst f'.
  rewrite Re. unfold result_of. destruct (failed_arg a k); [destruct (q_out q); simpl; auto|].
  apply (R w q fd f a k); auto.
Qed.

(** The outputs of a task that has ended are stored where it was executed. *)
Lemma ended_stored w q d : w <> 0 -> In q (received (log (c_work c w))) -> In (q_id q) (ended (log (c_work c w))) ->
  In d (out_ids (q_out q)) -> store (c_work c w) d <> None.
Proof using B L R V body_ok streams.
  intros N Q En D. destruct (facts w N) as (W & _). assert (Be := box_enough w N).
  unfold ended in En. apply in_flat_map in En as (e & I & X). destruct e; simpl in X; try tauto.
  destruct X as [->|[]]. assert (Eq := Be _ _ _ I Q eq_refl).
  apply in_split in I as (l1 & l2 & El).
  destruct (good_end body no_method _ (wi_good _ _ _ W) _ _ _ _ El)
    as (l0 & q' & cl & a & k & st & Ei & (X1 & X2 & _) & _ & Re & -> & Rs & l3 & -> & _).
  assert (Q' : In q' (received (log (c_work c w)))).
  { rewrite El, <- app_assoc, received_app. apply in_or_app; auto. }
  assert (q' = q) by (apply (same_id w); auto; congruence). subst q'.
  assert (In d (map fst st)).
  { clear - Rs D Eq. destruct (q_out q) as [|d'|ds], r as [v|x]; simpl in *; try tauto.
    - destruct Rs as [[done Rs]|[Rs _]]; [|discriminate]. apply Some_inj in Rs. apply pair_inj in Rs as [<- _]. auto.
    - destruct Rs as [[done Rs]|[Rs _]]; [|discriminate]. apply Some_inj in Rs. apply pair_inj in Rs as [<- _]. auto.
    - destruct Eq as (vs & It & Le). rewrite It in Rs. destruct Rs as [[done Rs]|[Rs _]]; [|discriminate].
      apply Some_inj in Rs. apply pair_inj in Rs as [<- _]. revert vs Le It. induction ds as [|y ds IH]; intros vs Le It; [destruct D|].
      destruct vs as [|z vs]; simpl in Le; [lia|]. simpl. destruct D as [<-|D]; auto. right.
      clear It. revert vs Le. clear IH. revert D. induction ds as [|u ds IH]; intros D vs Le; [destruct D|].
      destruct vs as [|t vs]; simpl in Le; [lia|]. simpl. destruct D as [<-|D]; auto. right. apply IH; auto. lia.
    - destruct Rs as [[done Rs]|[Rs _]]; [|discriminate]. apply Some_inj in Rs. apply pair_inj in Rs as [<- _].
      rewrite map_map, map_id. auto. }
  apply in_map_iff in H as ([d' v] & E1 & Sv). simpl in E1. subst d'.
  apply (stored_store w d v); auto. right. rewrite El. apply in_or_app. right. right.
  apply in_or_app. left. apply in_map_iff. exists (d, v). auto.
Qed.

Hypothesis backs : forall w a s d v b w1, w <> 0 -> c_in c w = a ++ (s, WPut d v) :: b -> made prog w d ->
  wrun w body no_method plain_fn winit (map snd a) = Some w1 -> store w1 d <> None.

Lemma box_gi w : w <> 0 -> GI (fun d => made prog w d) (fun _ => False) (c_work c w).
Proof using B L R V backs body_ok streams.
  intros N. destruct (inbox_ok workers body body_ok prog _ V (box_ok w)) as (Nr & _ & _).
  apply (gi_run (fun d => made prog w d) w body no_method plain_fn body_ok no_method_ok (fun _ => eq_refl) (map snd (c_in c w)) winit); auto.
  - apply wi_init.
  - apply Forall_forall. intros m M. apply in_map_iff in M as ([s y] & <- & Y).
    apply (plain_stream s w). apply in_stream; auto.
  - intros s d b M. apply in_map_iff in M as ([x y] & Ey & Y). simpl in Ey. subst y.
    destruct (asked_made x w s d b) as [M _]; auto. apply in_stream; auto.
  - intros a d v b w1 Ea M Ru. apply map_eq_app in Ea as (La & Lb & El & <- & Eb).
    destruct Lb as [|[s x] Lb]; [discriminate|]. simpl in Eb. injection Eb as -> _. eapply backs; eauto.
  - apply gi_init.
  - apply B; auto.
  - apply box_enough; auto.
Qed.

(** A request for something stored has been answered. *)
Lemma answers_all w d s : w <> 0 -> In (d, s) (asked (log (c_work c w))) -> store (c_work c w) d <> None ->
  exists v b, In (EvPut s d v b) (log (c_work c w)).
Proof using B L R V backs body_ok streams.
  intros N I S. assert (G := box_gi w N). apply answered_in. rewrite (gi_sent _ _ _ G).
  destruct (gi_none_lost _ _ _ G _ I) as [X|X]; auto. exfalso.
  apply (gi_pending _ _ _ G) in X as (_ & _ & [X|X]); auto.
Qed.

Definition own (d : dataid) : rank :=
  match find (fun p => did_in d (out_ids (q_out (snd p)))) (submitted prog) with Some p => fst p | None => 0 end.

Lemma own_made s d : made prog s d -> own d = s.
Proof using V.
  intros M. unfold own. destruct (find _ (submitted prog)) as [[s' q']|] eqn:F.
  - apply find_some in F as [I F]. simpl in *. apply did_in_In in F. apply in_submitted in I.
    apply (made_unique prog _ _ d); auto; [apply V|]. exists q'; auto.
  - exfalso. destruct M as (q & I & D). apply in_submitted in I.
    assert (X := find_none _ _ F _ I). simpl in X. apply did_in_false in X. auto.
Qed.

Lemma box_wt w : w <> 0 -> WT w own (c_work c w).
Proof using B L V body_ok streams.
  intros N. destruct (inbox_ok workers body body_ok prog _ V (box_ok w)) as (Nr & _ & _).
  apply (wt_run w body no_method plain_fn body_ok no_method_ok own (map snd (c_in c w)) winit); auto.
  - apply wi_init.
  - apply Forall_forall. intros m M. apply in_map_iff in M as ([s y] & <- & Y). simpl.
    assert (Ys : In y (stream c s w)) by (apply in_stream; auto). assert (P := plain_stream s w y Ys).
    destruct y; simpl in *; auto. symmetry. apply own_made. apply (told_made w); auto. apply taken; eauto.
  - apply wt_init.
  - apply B; auto.
Qed.

Lemma ordered_tasks w : ForallOrdPairs independent (map snd (filter (fun p => Nat.eqb (fst p) w) (submitted prog))).
Proof using V.
  assert (G : forall suf pre, prog = pre ++ suf ->
    ForallOrdPairs independent (map snd (filter (fun p => Nat.eqb (fst p) w) (submitted suf)))).
  { induction suf as [|o suf IH]; intros pre Ep; [constructor|].
    assert (IH' := IH (pre ++ [o]) ltac:(rewrite <- app_assoc; auto)).
    destruct o as [| dest q | | |]; simpl; auto. destruct (dest =? w); auto. simpl. constructor; auto.
    apply Forall_forall. intros q' Q' d D D'. apply in_map_iff in Q' as ([x y] & <- & Q'). apply filter_In in Q' as [Q' _].
    apply in_submitted in Q'. destruct (v_sub _ _ V pre dest q suf Ep) as (_ & _ & Rf). apply Rf in D.
    assert (Nf := v_fresh _ _ V). rewrite Ep, introduced_app in Nf. apply (nodup_sep _ _ d Nf D).
    apply in_flat_map. exists (RSubmit x y). split; simpl; auto. }
  apply (G prog []). auto.
Qed.

(** Nothing is under way, and what may have been lost is not needed. *)
Hypothesis quiet : idle c.
Hypothesis needed : forall w q d, In q (pend (c_work c w)) \/ In q (apend (c_work c w)) -> In d (qrefs q) -> ~ Lost d.
Hypothesis wanted : forall d, c_left c <> 0 -> In d (c_ids c) -> ~ Lost d.

Lemma delivered s d m : In m (stream c s d) -> (forall x, about m = Some x -> ~ Lost x) -> In (s, m) (c_in c d).
Proof using quiet streams.
  intros I N. apply (lossy_back Lost _ _ _ (proj2 streams s d)) in I as [I|(x & A & X)]; [|exfalso; eapply N; eauto].
  rewrite quiet, app_nil_r in I. apply in_sends; auto.
Qed.

Lemma ord_prefix {A} (P : A -> A -> Prop) a b : ForallOrdPairs P (a ++ b) -> ForallOrdPairs P a.
Proof.
  clear. induction a as [|x a IH]; intros H; [constructor|]. inversion H as [|? ? F O]; subst.
  constructor; auto. apply Forall_app in F as [F _]. auto.
Qed.

Lemma got_request dest q : In (RSubmit dest q) prog -> In q (received (log (c_work c dest))).
Proof using B L V body_ok no_root quiet streams.
  intros I. assert (N : dest <> 0).
  { intros ->. apply in_split in I as (a & b & Ep). apply (v_sub _ _ V) in Ep as [X _]. auto. }
  destruct (facts dest N) as (_ & _ & Ei & _). rewrite received_inputs, Ei.
  assert (X : In q (requests (sends_to dest (c_out c)))).
  { rewrite (lr_reqs _ _ L). apply in_map_iff. exists (dest, q). split; auto. apply filter_In. simpl.
    rewrite Nat.eqb_refl. split; auto. apply in_submitted; auto. }
  change (sends_to dest (c_out c)) with (stream c 0 dest) in X. rewrite <- (proj1 streams), quiet, app_nil_r in X.
  rewrite requests_from; auto. intros s m Im. apply not_request with (w := dest). apply in_stream; auto.
Qed.

Lemma all_ended n : forall a dest q b, length a < n -> prog = a ++ RSubmit dest q :: b ->
  In (q_id q) (ended (log (c_work c dest))).
Proof using B L R V backs body_ok no_root needed quiet streams.
  induction n as [|n IH]; intros a dest q b Len Ep; [lia|].
  assert (Nf := v_fresh _ _ V).
  destruct (v_sub _ _ V a dest q b Ep) as (Dw & _ & Rf).
  assert (N : dest <> 0) by (intros ->; auto).
  assert (Sub : In (RSubmit dest q) prog) by (rewrite Ep; apply in_or_app; simpl; auto).
  assert (Rec := got_request dest q Sub).
  destruct (facts dest N) as (W & _ & Ei & Ai & _).
  destruct (worker_counts workers body body_ok c dest B V N) as (_ & Pm & _).
  assert (Iq : In (q_id q) (map q_id (requests (map snd (c_in c dest))))).
  { apply in_map. rewrite <- Ei, <- received_inputs. auto. }
  apply (Permutation_in _ Pm) in Iq. apply in_app_or in Iq as [Iq|Iq]; auto. exfalso.
  apply in_map_iff in Iq as (q' & Id & Q'). apply in_app_or in Q'.
  destruct (inbox_ok workers body body_ok prog _ V (box_ok dest)) as (Nr & _ & _).
  assert (Ru := cb_run _ _ B dest N).
  destruct (pending_kept dest body no_method plain_fn body_ok no_method_ok _ _ Nr Ru q' Q') as (q0 & Q0 & E0 & _ & _ & F1 & F2).
  assert (q0 = q) by (apply (same_id dest); auto; congruence). subst q0.
  assert (Noact : actors (map snd (c_in c dest)) = []).
  { assert (X : forall m, In m (map snd (c_in c dest)) -> actors [m] = []).
    { intros m M. apply in_map_iff in M as ([s y] & <- & Y). simpl snd.
      assert (Ys : In y (stream c s dest)) by (apply in_stream; auto).
      apply stream_cases in Ys as [[-> Ys]|[_ [(? & ? & ? & -> & _)|(? & -> & _)]]]; auto.
      apply (lr_msgs _ _ L) in Ys. destruct y; simpl in *; tauto || auto. }
    revert X. clear. induction (map snd (c_in c dest)) as [|m l IHl]; intros X; auto.
    change (m :: l) with ([m] ++ l). unfold actors in *. rewrite flat_map_app, X by (simpl; auto).
    apply IHl. intros; apply X; simpl; auto. }
  assert (Ex : execs (map snd (c_in c dest)) = requests (map snd (c_in c dest))).
  { revert Noact. clear. induction (map snd (c_in c dest)) as [|m l IHl]; intros X; auto.
    destruct m; simpl in *; try discriminate; auto. f_equal; auto. }
  assert (Nready : exists d, In d (qrefs q') /\ available (log (c_work c dest)) d = false).
  { apply (no_ready dest body no_method plain_fn body_ok no_method_ok _ _ Nr Ru); auto.
    - intros i I. apply in_map_iff in I as ([s y] & Ey & Y). simpl in Ey. subst y.
      apply (plain_stream s dest (WFinish i)). apply in_stream; auto.
    - rewrite Ex. destruct (box_requests dest N) as (rest & Er). apply (ord_prefix _ _ rest). rewrite Er. apply ordered_tasks.
    - rewrite Noact. constructor.
    - rewrite Noact. intros ? ? ? [].
    - rewrite Noact. intros ? ? []. }
  destruct Nready as (d & Dq & Un).
  assert (Nd := needed dest q' d Q' Dq).
  assert (Clean : forall x v, stored (log (c_work c dest)) x v -> refs v = []).
  { intros x v Sx. destruct (facts dest N) as (_ & _ & _ & _ & Ag). apply Ag in Sx. eapply seq_clean; eauto. }
  assert (Dq0 : In d (qrefs q)).
  { unfold qrefs in *. apply in_app_or in Dq as [D|D]; apply in_or_app; [left|right].
    - eapply (fill_refs _ _ Clean); eauto.
    - eapply (fill_refs _ _ Clean); eauto. }
  assert (Snone : store (c_work c dest) d = None).
  { destruct (store (c_work c dest) d) eqn:Sd; auto. exfalso.
    assert (X : store (c_work c dest) d <> None) by congruence. apply Ai in X. congruence. }
  assert (Wt := box_wt dest N).
  assert (Cov : covered dest (c_work c dest) d).
  { destruct Q' as [Q'|Q']; [apply (wt_pend _ _ _ Wt q') | apply (wt_apend _ _ _ Wt q')]; auto. }
  assert (Here : forall o, made prog o d -> exists q2, In q2 (received (log (c_work c o))) /\
     In (q_id q2) (ended (log (c_work c o))) /\ In d (out_ids (q_out q2)) /\ o <> 0).
  { intros o M. assert (M' : made a o d).
    { apply (made_prefix a (RSubmit dest q :: b)); [rewrite <- Ep; auto | auto | rewrite <- Ep; auto]. }
    destruct M' as (q2 & I2 & D2). exists q2.
    assert (I2' : In (RSubmit o q2) prog) by (rewrite Ep; apply in_or_app; auto).
    split; [apply got_request; auto|].
    apply in_split in I2 as (a1 & a2 & Ea). split.
    - apply (IH a1 o q2 (a2 ++ RSubmit dest q :: b)).
      + rewrite Ea, app_length in Len. simpl in Len. lia.
      + rewrite Ep, Ea, <- app_assoc. auto.
    - split; auto. intros ->. apply no_root. apply (made_worker workers prog 0 d); auto. }
  destruct Cov as [Ow|Rq].
  - rewrite (ai_owner _ _ Ai) in Ow. apply told_in in Ow. apply told_made in Ow; auto.
    destruct (Here _ Ow) as (q2 & R2 & E2 & D2 & _). apply (ended_stored dest q2 d) in D2; auto.
  - apply (ai_reqs _ _ Ai) in Rq. apply outstanding_in in Rq as (o & G). assert (G' := G).
    apply get_made in G' as [M _]; auto.
    destruct (Here _ M) as (q2 & R2 & E2 & D2 & No). apply (ended_stored o q2 d) in D2; auto.
    assert (A : In (d, dest) (asked (log (c_work c o)))).
    { apply asked_in. exists false. apply taken; auto. exists dest. apply delivered.
      - unfold stream. destruct (Nat.eqb_spec dest 0); [tauto|]. apply get_outgoing; auto.
      - simpl. intros x Ax. apply Some_inj in Ax as <-. auto. }
    destruct (answers_all o d dest No A D2) as (v & b' & P).
    assert (X : available (log (c_work c dest)) d = true).
    { apply (stored_available _ _ v); [intros ds; apply no_clean; auto|]. left. apply taken; auto. exists o.
      apply delivered.
      - unfold stream. destruct (Nat.eqb_spec o 0); [tauto|]. eapply put_outgoing; eauto.
      - simpl. intros x Ax. apply Some_inj in Ax as <-. auto. }
    congruence.
Qed.

Lemma get_ended : c_left c = 0.
Proof using B L R V backs body_ok needed no_root quiet streams wanted.
  destruct (Nat.eq_dec (c_left c) 0) as [|N]; auto. exfalso.
  assert (Lf := lr_left _ _ L N). destruct (missing c) as [|d l] eqn:Mi; [simpl in Lf; lia|].
  assert (I : In d (missing c)) by (rewrite Mi; simpl; auto). unfold missing in I. apply filter_In in I as [I Ns].
  apply negb_true_iff, did_in_false in Ns.
  assert (Dd := wanted d N I).
  destruct (lr_ids _ _ L N) as [_ Ids]. destruct (Ids d I) as (Nd & s & G).
  assert (M := lr_msgs _ _ L _ _ G). simpl in M. destruct M as [_ M].
  assert (Sw := made_worker workers prog s d V M). assert (N0 : s <> 0) by (intros ->; auto).
  destruct M as (q & Iq & Dq).
  assert (Rq := got_request s q Iq). apply in_split in Iq as (a & b & Ep).
  assert (En := all_ended (S (length a)) a s q b ltac:(lia) Ep).
  assert (St := ended_stored s q d N0 Rq En Dq).
  assert (A : In (d, 0) (asked (log (c_work c s)))).
  { apply asked_in. exists true. apply taken; auto. exists 0. apply delivered.
    - unfold stream. simpl. apply in_sends; auto.
    - simpl. intros x Ax. apply Some_inj in Ax as <-. auto. }
  destruct (answers_all s d 0 N0 A St) as (v & b' & P).
  assert (X : In (s, WPut d v) (c_in c 0)).
  { apply delivered.
    - unfold stream. destruct (Nat.eqb_spec s 0); [tauto|]. eapply put_outgoing; eauto.
    - simpl. intros x Ax. apply Some_inj in Ax as <-. auto. }
  apply (lr_recv _ _ L) in X as [X|X]; auto.
Qed.
End Snap.

(** One reply comes at most once, and is expected. *)
Lemma reply_expected c src d v ch : valid workers (c_prog c) -> returns_enough body (c_prog c) -> CB body c ->
  LR workers c -> LN c -> c_chan c src 0 = WPut d v :: ch ->
  made (c_prog c) src d /\ c_left c <> 0 /\ In d (c_ids c) /\ ~ In d (p_store (c_push c)).
Proof using body_ok no_root.
  intros V R B L [N1 N2 N3] Ch.
  assert (I : In (WPut d v) (stream c src 0)) by (apply in_stream; auto; rewrite Ch; simpl; auto).
  assert (Ns : src <> 0).
  { intros ->. unfold stream in I. simpl in I. apply in_sends, (lr_dest _ _ L) in I. auto. }
  apply stream_cases in I as [[-> _]|[_ [(d' & v' & b & X & I)|(? & X & _)]]]; try discriminate; [tauto|].
  injection X as <- <-.
  destruct (answer_made c V B L N2 src 0 d v b Ns I) as (M & _ & b' & A).
  split; auto.
  assert (A' : In (WGet 0 d b') (stream c 0 src)) by (apply in_stream; auto).
  unfold stream in A'. simpl in A'. apply in_sends in A'.
  destruct (lr_asked _ _ L _ _ _ _ A') as [(s' & v' & M' & C)|X]; auto. exfalso.
  assert (s' = src) by (eapply made_unique; eauto; apply V). subst s'.
  assert (G := box_gi c V R B L N2 N3 src Ns).
  assert (Nd : NoDup (vals_in (sends_to src (c_in c 0) ++ c_chan c src 0))).
  { apply (lossy_vals Lost _ _ (proj2 N2 src 0)). unfold stream. destruct (Nat.eqb_spec src 0); [tauto|]. apply vals_nodup. rewrite (gi_sent _ _ _ G). apply G. }
  rewrite Ch in Nd. unfold vals_in in Nd. rewrite flat_map_app in Nd. simpl in Nd.
  apply (nodup_sep _ _ d Nd); [|simpl; auto].
  apply in_flat_map. exists (WPut d v'). split; simpl; auto. apply in_sends; auto.
Qed.

Lemma missing_one (ids st : list dataid) d : NoDup ids -> In d ids -> ~ In d st ->
  length (filter (fun x => negb (did_in x st)) ids) = S (length (filter (fun x => negb (did_in x (d :: st))) ids)).
Proof.
  clear. induction ids as [|x ids IH]; intros N I Ns; [destruct I|]. inversion N as [|? ? Nx Nl]; subst.
  assert (Hd : forall y, did_in y (d :: st) = did_eqb y d || did_in y st) by auto.
  cbn [filter]. rewrite Hd. destruct (did_dec d x) as [<-|Nd].
  - rewrite did_eqb_refl. replace (did_in d st) with false by (symmetry; apply did_in_false; auto). simpl negb. cbn iota.
    simpl length. f_equal. f_equal. apply TopoProofs.filter_ext_in'. intros y Y. cbv beta. change (did_in y (d :: st)) with (did_eqb y d || did_in y st).
    replace (did_eqb y d) with false; auto. symmetry. apply did_eqb_neq. intros ->. auto.
  - destruct I as [->|I]; [congruence|].
    replace (did_eqb x d) with false by (symmetry; apply did_eqb_neq; congruence). simpl orb.
    destruct (did_in x st); simpl; auto.
Qed.

Lemma expected_lr c src : (forall d v ch, c_chan c src 0 = WPut d v :: ch ->
    made (c_prog c) src d /\ c_left c <> 0 /\ In d (c_ids c) /\ ~ In d (p_store (c_push c))) ->
  LR workers c -> LR workers (reply c src).
Proof using.
  intros Ex L. unfold reply. destruct (c_left c) as [|k] eqn:Lf; auto.
  destruct (c_chan c src 0) as [|m ch] eqn:Ch; auto. destruct m; auto.
  destruct (Ex d v ch eq_refl) as (M & _ & Id & Ns).
  replace (did_in d (c_ids c)) with true by (symmetry; apply did_in_In; auto).
  destruct L as [K1 K2 K3 K4 K5 K6 K7 K8 K9 K9' K10 K11 K12 K13 K14 K15 K16 K17].
  rewrite Lf in *. assert (Nz : S k <> 0) by lia. destruct (K16 Nz) as [Nd Ids].
  assert (Mi : length (filter (fun x => negb (did_in x (d :: p_store (c_push c)))) (c_ids c)) = k).
  { assert (X := K14 Nz). unfold missing in X. rewrite (missing_one _ _ d Nd Id Ns) in X. lia. }
  assert (Cm : forall c', c_prog c' = c_prog c -> (forall x, In x (c_in c 0) -> In x (c_in c' 0)) ->
    forall x, came c x -> came c' x).
  { intros c' E I x (s & y & Mx & Ix). exists s, y. rewrite E. auto. }
  match goal with |- LR _ ?c1 => set (c' := c1) end.
  assert (Ci : forall x, In x (c_in c 0) -> In x (c_in c' 0)) by (intros x X; simpl; apply in_or_app; auto).
  assert (Cm' := Cm c' eq_refl Ci). assert (Cd : came c' d).
  { exists src, v. split; auto. simpl. apply in_or_app; simpl; auto. }
  assert (Va : forall x, In x (p_store (c_push c')) <-> c_vals c' x <> None).
  { intros x. simpl. destruct (did_dec d x) as [<-|Nx].
    - rewrite dput_same. split; [discriminate|auto].
    - rewrite dput_other by auto. rewrite <- K4. split; [intros [X|X]; [congruence|auto]|auto]. }
  split; auto.
  - intros x X Y. simpl. right. auto.
  - intros x [<-|X]; auto. destruct (K5 x X); auto.
  - intros w m X. apply K9 in X. destruct m; auto. destruct X as [X|X]; [left; auto | right; auto].
  - intros X. simpl in X. apply in_app_or in X as [X|X]; auto. destruct k; [|destruct X].
    destruct (match c_exc c, v with None, VExc e => Some e | x, _ => x end) as [e|];
      [destruct X as [X|[]]; discriminate|].
    unfold got in X. change (dput (c_vals c) d v) with (c_vals c') in X.
    destruct (read_vals (c_vals c') (c_want c)) eqn:Rd; [destruct X as [X|[]]; discriminate|].
    revert Rd. apply read_there. intros x Wx. apply Va. simpl.
    destruct (K15 Nz x Wx) as [X1|X1]; auto.
    destruct (did_in x (d :: p_store (c_push c))) eqn:D; [apply did_in_In in D; auto|]. exfalso.
    assert (Y : In x (filter (fun x => negb (did_in x (d :: p_store (c_push c)))) (c_ids c))).
    { apply filter_In. rewrite D. auto. }
    destruct (filter _ (c_ids c)); [destruct Y | simpl in Mi; lia].
  - intros s r x b X. destruct (K13 s r x b X) as [C|(_ & Ix & Sx)]; auto.
    destruct (did_dec d x) as [<-|Nx]; auto. right.
    assert (Y : In x (filter (fun x => negb (did_in x (d :: p_store (c_push c)))) (c_ids c))).
    { apply filter_In. split; auto. apply negb_true_iff, did_in_false. simpl. intros [Z|Z]; auto. }
    split; [|split; auto].
    + simpl. intros ->. destruct (filter _ (c_ids c)); [destruct Y | simpl in Mi; lia].
    + simpl. intros [Z|Z]; auto.
  - intros _ x X. simpl. destruct (K15 Nz x X); auto.
  - intros s x y X. simpl in X. apply in_app_or in X as [X|[X|[]]].
    + destruct (K17 s x y X); auto. left. simpl. auto.
    + apply pair_inj in X as [_ X]. injection X as <- _. left. simpl. auto.
Qed.

Lemma reply_lr c src : valid workers (c_prog c) -> returns_enough body (c_prog c) -> CB body c ->
  LR workers c -> LN c -> LR workers (reply c src).
Proof using body_ok no_root.
  intros V R B L N. apply expected_lr; auto. intros d v ch Ch. eapply reply_expected; eauto.
Qed.

Lemma reply_ln c src : LN c -> LN (reply c src).
Proof using.
  intros N. unfold reply. destruct (c_left c) as [|k] eqn:Lf; auto.
  destruct (c_chan c src 0) as [|m ch] eqn:Ch; auto. destruct m; auto.
  destruct N as [N1 N2 N3]. split; auto.
  - match goal with |- flow ?c1 => set (c' := c1) end.
    assert (E : forall s x, sends_to s (c_in c' x) ++ c_chan c' s x = sends_to s (c_in c x) ++ c_chan c s x).
    { intros s x. simpl c_in. simpl c_chan. destruct (Nat.eqb_spec x 0) as [->|Nx].
      + rewrite sends_app. destruct (Nat.eq_dec s src) as [->|Nsr].
        * rewrite (drop_hit _ _ _ (WPut d v) ch); auto. rewrite Ch. simpl. rewrite Nat.eqb_refl, <- app_assoc. auto.
        * rewrite drop_keep by congruence. simpl. destruct (Nat.eqb_spec src s); [congruence|]. rewrite app_nil_r. auto.
      + rewrite drop_keep by congruence. auto. }
    split; intros; rewrite E; apply N2.
  - intros w a s x y b w1 Nw E. simpl in E. destruct (Nat.eqb_spec w 0); [tauto|]. revert E. apply N3; auto.
Qed.

Lemma take_lr c src dst : LR workers c -> LR workers (take body c src dst).
Proof using.
  intros L. unfold take. destruct (c_chan c src dst) as [|m ch]; auto.
  destruct dst as [|n]; auto. simpl orb. destruct (c_dead c (S n)); auto.
  destruct (wstep (S n) body no_method plain_fn (c_work c (S n)) m) as [w'|];
    destruct L as [K1 K2 K3 K4 K5 K6 K7 K8 K9 K9' K10 K11 K12 K13 K14 K15 K16 K17]; split; auto.
Qed.

Lemma take_ln c src dst : valid workers (c_prog c) -> returns_enough body (c_prog c) -> CB body c ->
  LR workers c -> LN c -> LN (take body c src dst).
Proof using body_ok no_root.
  intros V R B L N. assert (N' := N). destruct N' as [N1 N2 N3]. unfold take.
  destruct (c_chan c src dst) as [|m ch] eqn:Ch; auto.
  destruct (Nat.eqb_spec dst 0) as [|D0]; simpl orb; auto. rewrite N1.
  assert (Om : okm body (c_prog c) m) by (apply (cb_chan _ _ B src dst); rewrite Ch; simpl; auto).
  assert (Is : In m (stream c src dst)) by (apply in_stream; auto; rewrite Ch; simpl; auto).
  assert (Ru := cb_run _ _ B dst D0).
  assert (Sf : wrun dst body no_method plain_fn winit (map snd (c_in c dst ++ [(src, m)])) <> None).
  { apply (box_safe c V R B L dst); auto.
    - intros s x X. apply in_app_or in X as [X|[X|[]]].
      + split; [apply in_stream; auto | eapply cb_in; eauto].
      + apply pair_inj in X as [<- <-]. auto.
    - rewrite sends_app. simpl. destruct (Nat.eqb_spec src 0) as [->|Ns].
      + exists ch. rewrite <- app_assoc. simpl. rewrite <- Ch. apply (proj1 N2 dst).
      + rewrite app_nil_r. apply (box_prefix c N2). }
  rewrite map_app, wrun_app, Ru in Sf. simpl in Sf.
  destruct (wstep dst body no_method plain_fn (c_work c dst) m) as [w'|] eqn:St; [|tauto]. clear Sf.
  destruct (worker_agrees workers body body_ok (c_prog c) dst _ _ V (box_ok c B dst) Ru) as (W & _ & _ & Rd & _).
  assert (Lg : log w' = log (c_work c dst) ++ skipn (length (log (c_work c dst))) (log w')).
  { apply (step_log body body_ok _ m _ dst); auto. intros d v ->. simpl in Om. eapply seq_clean; eauto. }
  split; auto.
  - match goal with |- flow ?c1 => set (c' := c1) end.
    assert (Y : forall s x, sends_to s (c_in c' x) ++ drop_head (c_chan c) src dst s x = sends_to s (c_in c x) ++ c_chan c s x).
    { intros s x. simpl c_in. destruct (Nat.eqb_spec x dst) as [->|Nx].
      - rewrite sends_app. destruct (Nat.eq_dec s src) as [->|Nsr].
        + rewrite (drop_hit _ _ _ m ch); auto. rewrite Ch. simpl. rewrite Nat.eqb_refl, <- app_assoc. auto.
        + rewrite drop_keep by congruence. simpl. destruct (Nat.eqb_spec src s); [congruence|]. rewrite app_nil_r. auto.
      - rewrite drop_keep by congruence. auto. }
    split.
    + intros x. change (stream c' 0 x) with (stream c 0 x). simpl c_chan. destruct dst as [|n]; [tauto|]. simpl Nat.eqb. cbn iota. rewrite Y. apply N2.
    + intros s x. assert (X := proj2 N2 s x). unfold stream in *. simpl c_out. simpl c_work. simpl c_chan.
      destruct (Nat.eqb_spec s dst) as [->|Nsd]; [|rewrite Y; auto].
      rewrite app_assoc, Y. destruct (Nat.eqb_spec dst 0); [tauto|]. rewrite Lg at 2. rewrite outgoing_app.
      apply lossy_app; auto. apply lossy_refl.
  - intros w a s x y b w1 Nw E Mx Rn. simpl in E. destruct (Nat.eqb_spec w dst) as [->|Nd]; [|eapply N3; eauto].
    symmetry in E. apply WorkerTrace.split_last in E as [[E ->]|(t & E)].
    + apply pair_inj in E as [-> <-]. rewrite Ru in Rn. apply Some_inj in Rn as <-. eapply back; eauto.
    + eapply N3; eauto.
Qed.

Lemma root_shape c o : exists p vals tasks seen out want ids k exc,
  root_step workers c o = set_get (root_to c o p vals tasks seen out) want ids k exc.
Proof using.
  assert (G : forall p vals tasks seen out, exists p' vals' tasks' seen' out' want ids k exc,
    root_to c o p vals tasks seen out = set_get (root_to c o p' vals' tasks' seen' out') want ids k exc).
  { intros. exists p, vals, tasks, seen, out, (c_want c), (c_ids c), (c_left c), (c_exc c). reflexivity. }
  destruct o as [d v|dest q|ds|d|ds]; cbn [root_step]; cbv zeta.
  - apply G.
  - apply G.
  - destruct (filter _ ds); [apply G|]. destruct (owners _ _); [|apply G]. do 9 eexists. reflexivity.
  - apply G.
  - destruct (Nat.eqb _ _); apply G.
Qed.

Lemma root_ln c o : valid workers (c_prog c ++ [o]) -> CB body c -> LN c -> LN (root_step workers c o).
Proof using.
  intros V B [N1 N2 N3]. destruct (root_shape c o) as (p & vals & tasks & seen & out & want & ids & k & exc & ->).
  split; auto.
  - split.
    + intros x. assert (X := proj1 N2 x). unfold stream in *. cbn [set_get root_to c_chan c_out c_work c_in].
      simpl Nat.eqb in *. cbn iota in *. rewrite app_assoc, X, sends_app. auto.
    + intros s x. assert (X := proj2 N2 s x). unfold stream in *. cbn [set_get root_to c_chan c_out c_work c_in].
      destruct (s =? 0); auto. rewrite app_assoc, sends_app. apply lossy_app; auto. apply lossy_refl.
  - intros w a s d v b w1 Nw E M. cbn [set_get root_to c_prog c_in] in *. apply (N3 w a s d v b); auto.
    eapply made_prefix; [apply V | | eauto]. apply (seq_dom body).
    assert (O : okm body (c_prog c) (WPut d v)).
    { apply (cb_in _ _ B w s). rewrite E. apply in_or_app; simpl; auto. }
    simpl in O. congruence.
Qed.

Lemma done_lr c src : LR workers c -> LR workers (done workers c src).
Proof using.
  intros L. unfold done. destruct (c_done c src); auto.
  destruct L as [K1 K2 K3 K4 K5 K6 K7 K8 K9 K9' K10 K11 K12 K13 K14 K15 K16 K17]; split; auto.
Qed.

Lemma done_ln c src : LN c -> LN (done workers c src).
Proof using. intros [N1 N2 N3]. unfold done. destruct (c_done c src); split; auto. Qed.

Lemma init_ln mgr : LN (cinit mgr).
Proof using.
  split; simpl; auto.
  - split; intros; unfold stream; simpl; auto. destruct (s =? 0); apply lossy_refl.
  - intros w a s d v b w1 _ H. destruct a; discriminate.
Qed.
End Net.
Arguments LN Lost body c : clear implicits.
