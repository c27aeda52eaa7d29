(** The number of deliveries is bounded (C51). *)
From Verif Require Import Lib ValModel ShmModel PushModel PushProofs WorkerModel WorkerSpec WorkerLog WorkerTrace
  WorkerAnswer WorkerOrder WorkerThms WorkerSends WorkerWant MonModel ShutProofs ClusterModel ClusterSpec ClusterSeq ClusterProofs
  ClusterCount ClusterRoot ClusterNet.

Lemma get_since l d o : In (EvGet o d) l -> outstanding l d = true \/ exists v, In (EvIn (WPut d v)) l.
Proof.
  unfold outstanding. induction l as [|e l IH] using rev_ind; simpl; [tauto|].
  rewrite fold_left_app, in_app_iff. simpl. intros [I|[->|[]]].
  - apply IH in I as [I|(v & I)]; [|right; exists v; apply in_or_app; auto]. rewrite I.
    destruct e; auto.
    + destruct m; auto. destruct (did_eqb d0 d) eqn:Q; auto. apply did_eqb_eq in Q as ->.
      right. exists v. apply in_or_app; simpl; auto.
    + destruct (did_eqb d0 d); auto.
  - rewrite did_eqb_refl. auto.
Qed.

(** The references a rank is asked for. *)
Definition asks_in (ms : list wmsg) : list dataid := flat_map (fun m => match m with WGet _ d _ => [d] | _ => [] end) ms.

Lemma outgoing_length self l dst :
  length (outgoing self l dst) = length (vals_in (outgoing self l dst)) + length (asks_in (outgoing self l dst)).
Proof.
  induction l as [|e l IH]; auto. simpl. unfold vals_in, asks_in in *. rewrite !flat_map_app, !app_length, IH.
  destruct e; simpl; try lia; destruct (Nat.eqb _ _); simpl; lia.
Qed.

Lemma in_asks self l dst d : In d (asks_in (outgoing self l dst)) -> In (EvGet dst d) l.
Proof.
  intros I. apply in_flat_map in I as (m & M & X). apply in_outgoing in M as [(d' & v & b & -> & _)|(d' & -> & G)]; simpl in X.
  - destruct X.
  - destruct X as [<-|[]]. auto.
Qed.

Lemma asks_nodup self l dst : (forall l1 o d l2, l = l1 ++ EvGet o d :: l2 -> ok_get self l1 o d) ->
  (forall ds, ~ In (EvIn (WClean ds)) l) -> NoDup (asks_in (outgoing self l dst)).
Proof.
  induction l as [|e l IH] using rev_ind; intros G N; [constructor|].
  assert (IHl : NoDup (asks_in (outgoing self l dst))).
  { apply IH.
    - intros l1 o d l2 ->. apply (G l1 o d (l2 ++ [e])). rewrite <- app_assoc. auto.
    - intros ds I. apply (N ds), in_or_app; auto. }
  rewrite outgoing_app. unfold asks_in in *. rewrite flat_map_app. simpl. rewrite app_nil_r.
  destruct e; simpl; rewrite ?app_nil_r; auto; destruct (Nat.eqb_spec dest dst) as [->|]; simpl; rewrite ?app_nil_r; auto.
  apply nodup_snoc; auto. intros I. apply in_asks in I.
  destruct (G l dst d [] eq_refl) as (O & _ & _ & A). apply get_since in I as [I|(v & I)]; [congruence|].
  assert (X : available l d = true); [|congruence]. apply (stored_available l d v); [|left; auto].
  intros ds Y. apply (N ds), in_or_app; auto.
Qed.

Lemma senders_count (S : list rank) (L : list (rank * wmsg)) : (forall s m, In (s, m) L -> In s S) ->
  length L <= sumf (fun s => length (sends_to s L)) S.
Proof.
  induction L as [|[s m] L IH]; intros H; [simpl; lia|].
  assert (IH' := IH ltac:(intros; eapply H; simpl; eauto)). assert (Is : In s S) by (eapply H; simpl; eauto).
  simpl length at 1. clear IH H.
  assert (Le : forall x, length (sends_to x L) <= length (sends_to x ((s, m) :: L))).
  { intros x. simpl. rewrite app_length. lia. }
  revert IH'. generalize (length L). induction S as [|x S IHS]; [destruct Is|]. intros n H.
  change (sumf (fun s0 => length (sends_to s0 L)) (x :: S)) with
      (length (sends_to x L) + sumf (fun s0 => length (sends_to s0 L)) S) in H.
  destruct (Nat.eq_dec s x) as [->|Nx].
  - change (sumf (fun s0 => length (sends_to s0 ((x, m) :: L))) (x :: S)) with
      (length (sends_to x ((x, m) :: L)) + sumf (fun s0 => length (sends_to s0 ((x, m) :: L))) S).
    assert (Hx : length (sends_to x ((x, m) :: L)) = 1 + length (sends_to x L)).
    { simpl. rewrite Nat.eqb_refl. auto. }
    assert (X : sumf (fun s => length (sends_to s L)) S <= sumf (fun s => length (sends_to s ((x, m) :: L))) S).
    { apply sum_le. auto. }
    lia.
  - destruct Is as [->|Is]; [congruence|].
    assert (Y := Le x). assert (Z := IHS Is (sumf (fun s => length (sends_to s L)) S) (le_n _)).
    change (sumf (fun s0 => length (sends_to s0 ((s, m) :: L))) (x :: S)) with
      (length (sends_to x ((s, m) :: L)) + sumf (fun s0 => length (sends_to s0 ((s, m) :: L))) S). lia.
Qed.

Lemma sum_bound (f : rank -> nat) l b : (forall x, In x l -> f x <= b) -> sumf f l <= length l * b.
Proof.
  induction l as [|x l IH]; intros H; [unfold sumf; simpl; lia|].
  change (sumf f (x :: l)) with (f x + sumf f l). assert (f x <= b) by (apply H; simpl; auto). simpl.
  assert (sumf f l <= length l * b) by (apply IH; intros; apply H; simpl; auto). lia.
Qed.

Lemma sends_length d l : length (sends_to d l) <= length l.
Proof. induction l as [|x l IH]; simpl; [lia|]. rewrite app_length. destruct (_ =? _); simpl; lia. Qed.

Section End.
Context {Lost : dataid -> Prop}.
Variable workers : list rank.
Variable body : val -> val -> val -> result.
Hypothesis body_ok : forall f a k, no_refs_returned (body f a k).
Hypothesis no_root : ~ In 0 workers.
Hypothesis no_dup : NoDup workers.

(** What holds in every state of a proper run. *)
Record proper (c : cst) : Prop := {
  pr_valid : valid workers (c_prog c);
  pr_enough : returns_enough body (c_prog c);
  pr_cb : CB body c;
  pr_lr : LR workers c;
  pr_ln : LN Lost body c;
  pr_ranks : forall w, c_in c w <> [] -> In w (0 :: workers)
}.

Lemma work_in c s e : proper c -> s <> 0 -> In e (log (c_work c s)) -> In s workers.
Proof using.
  intros P N I. destruct (pr_ranks c P s) as [X|X]; auto; [|congruence].
  intros E. assert (Ru := cb_run _ _ (pr_cb _ P) s N). rewrite E in Ru. simpl in Ru. apply Some_inj in Ru.
  rewrite <- Ru in I. destruct I.
Qed.

Lemma chan_ranks c s d m : proper c -> In m (stream c s d) -> In s (0 :: workers) /\ In d (0 :: workers).
Proof using body_ok.
  intros P I. destruct (pr_ln _ P) as [_ N2 _].
  apply stream_cases in I as [[-> I]|[Ns [(x & v & b & -> & I)|(x & -> & I)]]].
  - split; simpl; auto. right. eapply lr_dest; [apply P | eauto].
  - split; [right; eapply work_in; eauto|].
    destruct (Nat.eq_dec d 0) as [->|Nd]; [simpl; auto|].
    destruct (answer_made workers body body_ok c (pr_valid _ P) (pr_cb _ P) (pr_lr _ P) N2 s d x v b Ns I) as (_ & _ & b' & A).
    assert (A' : In (WGet d x b') (stream c d s)) by (apply (in_stream (Lost:=Lost)); auto).
    apply stream_cases in A' as [[-> _]|[_ [(? & ? & ? & X & _)|(y & X & G)]]]; try discriminate; [tauto|].
    right. eapply work_in; eauto.
  - split; [right; eapply work_in; eauto|].
    destruct (get_made workers body body_ok c (pr_valid _ P) (pr_cb _ P) (pr_lr _ P) N2 s x d Ns I) as [M _].
    right. eapply made_worker; [apply P | eauto].
Qed.

(** A delivery takes place. *)
Lemma taken_now c s d m l : proper c -> c_chan c s d = m :: l -> d <> 0 -> 
  c_in (take body c s d) = (fun r => if Nat.eqb r d then c_in c r ++ [(s, m)] else c_in c r) /\
  c_prog (take body c s d) = c_prog c /\ c_out (take body c s d) = c_out c.
Proof using body_ok no_root.
  intros P Ch N. assert (A := ln_alive _ _ (take_ln workers body body_ok no_root c s d (pr_valid _ P) (pr_enough _ P) (pr_cb _ P) (pr_lr _ P) (pr_ln _ P)) d).
  unfold take in *. rewrite Ch in *. destruct (Nat.eqb_spec d 0); [tauto|].
  rewrite (ln_alive _ _ (pr_ln _ P)) in *. cbn [orb] in *.
  destruct (wstep d body no_method plain_fn (c_work c d) m); auto.
  simpl in A. rewrite Nat.eqb_refl in A. discriminate.
Qed.

Lemma replied_now c s m l : proper c -> c_chan c s 0 = m :: l ->
  c_in (reply c s) = (fun r => if Nat.eqb r 0 then c_in c r ++ [(s, m)] else c_in c r) /\
  c_prog (reply c s) = c_prog c /\ c_out (reply c s) = c_out c.
Proof using body_ok no_root.
  intros P Ch. assert (Is : In m (stream c s 0)) by (apply (in_stream (Lost:=Lost)); [apply P|rewrite Ch; simpl; auto]).
  assert (N2 := ln_stream _ _ (pr_ln _ P)).
  assert (Pm : exists d v, m = WPut d v).
  { apply stream_cases in Is as [[-> I]|[Ns [(x & v & b & -> & I)|(x & -> & I)]]]; eauto.
    - apply (lr_dest _ _ (pr_lr _ P)) in I. tauto.
    - destruct (get_made workers body body_ok c (pr_valid _ P) (pr_cb _ P) (pr_lr _ P) N2 s x 0 Ns I) as [M _].
      exfalso. apply no_root. eapply made_worker; [apply P | eauto]. }
  destruct Pm as (d & v & ->).
  destruct (reply_expected workers body body_ok no_root c s d v l (pr_valid _ P) (pr_enough _ P) (pr_cb _ P) (pr_lr _ P) (pr_ln _ P) Ch)
    as (_ & Lf & _). unfold reply. destruct (c_left c); [tauto|]. rewrite Ch. auto.
Qed.

Definition deliver_op (s d : rank) : cop := if Nat.eqb d 0 then CReply s else CTake s d.

Lemma delivered_now c s d m l : proper c -> c_chan c s d = m :: l ->
  let c' := cstep workers body c (deliver_op s d) in
  c_in c' = (fun r => if Nat.eqb r d then c_in c r ++ [(s, m)] else c_in c r) /\
  c_prog c' = c_prog c /\ c_out c' = c_out c /\ proper c'.
Proof using body_ok no_root.
  cbv zeta. intros P Ch. assert (Is : In m (stream c s d)) by (apply (in_stream (Lost:=Lost)); [apply P|rewrite Ch; simpl; auto]).
  destruct (chan_ranks c s d m P Is) as [_ Dw].
  assert (G : forall c', c_in c' = (fun r => if Nat.eqb r d then c_in c r ++ [(s, m)] else c_in c r) ->
    c_prog c' = c_prog c -> CB body c' -> LR workers c' -> LN Lost body c' -> proper c').
  { intros c' Ei Ep B L N. destruct P as [P1 P2 P3 P4 P5 P6]. split; auto; rewrite ?Ep; auto.
    intros w. rewrite Ei. destruct (Nat.eqb_spec w d) as [->|]; auto. }
  unfold deliver_op. destruct (Nat.eqb_spec d 0) as [->|Nd]; cbn [cstep].
  - destruct (replied_now c s m l P Ch) as (E1 & E2 & E3). split; auto. split; auto. split; auto.
    apply G; auto; [apply reply_cb, P | apply (reply_lr (Lost:=Lost) workers body); auto; apply P | apply reply_ln, P].
  - destruct (taken_now c s d m l P Ch Nd) as (E1 & E2 & E3). split; auto. split; auto. split; auto.
    apply G; auto; [apply (take_cb workers); auto; apply P | apply take_lr, P | apply (take_ln workers); auto; apply P].
Qed.

(** The number of deliveries is bounded. *)
Definition amount (c : cst) : nat := sumf (fun w => length (c_in c w)) (0 :: workers).
Definition limit (c : cst) : nat := length (0 :: workers) * (length (0 :: workers) * (length (c_out c) + 2 * length (introduced (c_prog c)))).

Lemma stream_bound c s d : proper c -> length (stream c s d) <= length (c_out c) + 2 * length (introduced (c_prog c)).
Proof using body_ok.
  intros P. destruct (Nat.eq_dec s 0) as [->|Ns].
  - unfold stream. simpl. assert (X := sends_length d (c_out c)). lia.
  - assert (Es : stream c s d = outgoing s (log (c_work c s)) d).
    { unfold stream. destruct (Nat.eqb_spec s 0); [tauto|auto]. }
    destruct P as [V R B L [N1 N2 N3] _].
    destruct (facts workers body body_ok c V B s Ns) as (_ & _ & _ & A & _).
    assert (G := box_gi workers body body_ok c V R B L N2 N3 s Ns).
    rewrite Es, outgoing_length.
    assert (X1 : length (vals_in (outgoing s (log (c_work c s)) d)) <= length (introduced (c_prog c))).
    { apply NoDup_incl_length.
      - apply vals_nodup. rewrite (gi_sent _ _ _ G). apply G.
      - intros x I. apply in_flat_map in I as (m & M & X). apply in_outgoing in M as [(y & v & b & -> & I)|(y & -> & I)]; simpl in X; [|destruct X].
        destruct X as [<-|[]]. destruct (answer_made workers body body_ok c V B L N2 s d y v b Ns I) as (M & _). eapply made_intro; eauto. }
    assert (X2 : length (asks_in (outgoing s (log (c_work c s)) d)) <= length (introduced (c_prog c))).
    { apply NoDup_incl_length.
      - apply asks_nodup; [apply A|]. intros ds. apply (no_clean workers body body_ok c V B L N2); auto.
      - intros x I. apply in_asks in I. destruct (get_made workers body body_ok c V B L N2 s x d Ns I) as [M _].
        eapply made_intro; eauto. }
    lia.
Qed.

Lemma amount_limit c : proper c -> amount c <= limit c.
Proof using body_ok.
  intros P. unfold amount, limit. apply sum_bound. intros w _.
  etransitivity; [apply (senders_count (0 :: workers))|].
  - intros s m I. eapply (chan_ranks c s w m P). apply (in_stream (Lost:=Lost)); auto. apply P.
  - apply sum_bound. intros s _. etransitivity; [|apply (stream_bound c s w P)].
    assert (X := lossy_length _ _ _ (proj2 (ln_stream _ _ (pr_ln _ P)) s w)). rewrite app_length in X. lia.
Qed.

Lemma over_app a b : gets_over (a ++ b) = gets_over a ++ gets_over b.
Proof using. apply flat_map_app. Qed.

Lemma got_over st ds : ~ In RError (got st ds) -> gets_over (got st ds) = [ds].
Proof using. unfold got. destruct (read_vals st ds); simpl; auto. tauto. Qed.

(** Every get is over except the one in progress. *)
Definition answered_gets (c : cst) : Prop :=
  gets_over (c_seen c) ++ (if Nat.eqb (c_left c) 0 then [] else [c_want c]) = gets_of (c_prog c).

Lemma gets_step c o : answered_gets c -> ~ In RError (c_seen (cstep workers body c o)) ->
  answered_gets (cstep workers body c o).
Proof using.
  unfold answered_gets. intros A.
  assert (Ga : forall a b, gets_of (a ++ b) = gets_of a ++ gets_of b) by (intros; apply flat_map_app).
  assert (Q : forall r p vals tasks seen out, c_left c = 0 -> gets_over seen = gets_of [r] ->
    gets_over (c_seen (root_to c r p vals tasks seen out)) ++
      (if Nat.eqb (c_left (root_to c r p vals tasks seen out)) 0 then [] else [c_want (root_to c r p vals tasks seen out)]) =
    gets_of (c_prog (root_to c r p vals tasks seen out))).
  { intros r p vals tasks seen out Lf H. cbn [root_to c_seen c_left c_want c_prog]. rewrite Lf in *. cbn [Nat.eqb] in *.
    rewrite !app_nil_r in *. rewrite Ga, over_app, A, H. reflexivity. }
  destruct o as [r|s d|s|s]; cbn [cstep].
  - destruct (c_left c) eqn:Lf; [|rewrite Lf; auto]. simpl in A. rewrite app_nil_r in A.
    destruct r as [d v|dest q|ds|d|ds]; cbn [root_step]; cbv zeta.
    + intros _. apply Q; auto.
    + destruct (submit _ _ _ _ _ _ _); intros _; apply Q; auto.
    + destruct (filter _ ds) as [|x r] eqn:Fi.
      * intros N. apply Q; auto. rewrite got_over; auto. intros I. apply N. simpl. apply in_or_app; auto.
      * destruct (owners _ _) as [l|]; simpl; [|intros N; exfalso; apply N, in_or_app; simpl; auto].
        intros _. rewrite Ga, app_nil_r, A. auto.
    + intros _. apply Q; auto.
    + destruct (Nat.eqb _ _); intros _; apply Q; auto.
  - unfold take. destruct (c_chan c s d); auto. destruct (_ || _); auto. destruct (wstep _ _ _ _ _ _); auto.
  - unfold reply. destruct (c_left c) as [|k] eqn:Lf; [rewrite Lf; auto|].
    destruct (c_chan c s 0) as [|m l]; [rewrite Lf; auto|]. destruct m; try (rewrite Lf; auto).
    cbn [c_seen c_left c_want c_prog]. intros N.
    destruct (did_in d (c_ids c)); [|exfalso; apply N, in_or_app; simpl; auto].
    rewrite over_app. destruct k; [|simpl in *; rewrite app_nil_r; auto].
    simpl in A. rewrite <- A. simpl. rewrite app_nil_r. f_equal.
    destruct (match c_exc c, v with None, VExc e => Some e | x, _ => x end); auto.
    apply got_over. intros I. apply N, in_or_app; auto.
  - unfold done. destruct (c_done c s); auto.
Qed.

End End.
