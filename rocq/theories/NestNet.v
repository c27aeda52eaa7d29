(** Requests for data and their answers under way between the processes of NestModel. *)
From Verif Require Import Lib ShmModel ShmRaceProofs ValModel WorkerModel WorkerSpec WorkerProofs WorkerAnswer ClusterModel NestModel NestSpec
  NestProofs NestOnce.

(** ** Blocking requests: each is at one place *)

Definition bask := (nat * dataid)%type.

Lemma bask_dec (x y : bask) : {x = y} + {x <> y}.
Proof. decide equality; [apply did_dec|apply Nat.eq_dec]. Qed.

Definition asks_in (l : list wmsg) : list bask := flat_map (fun m => match m with WGet s d true => [(s, d)] | _ => [] end) l.
Definition turn (y : dataid * rank) : bask := (snd y, fst y).
Definition unanswered (w : wst) : list bask := map turn (filter (fun y => negb (pair_in y (sent w))) (bgets w)).

Inductive bloc := BC (a b : rank) | BH (p : rank) | BR (a b : rank).

Lemma bloc_dec (x y : bloc) : {x = y} + {x <> y}.
Proof. decide equality; apply Nat.eq_dec. Qed.

Definition bcont (W : rank -> wst) (C : rank -> rank -> list wmsg) (R : rank -> rank -> list (dataid * val)) (l : bloc) : list bask :=
  match l with BC a b => asks_in (C a b) | BH p => unanswered (W p) | BR a b => map (fun y => (b, fst y)) (R a b) end.

Notation bcnt l i := (count_occ bask_dec l i).
Definition bone (x i : bask) : nat := if bask_dec x i then 1 else 0.

Lemma bcnt_cons x l i : bcnt (x :: l) i = bone x i + bcnt l i.
Proof. simpl. unfold bone. destruct (bask_dec x i); auto. Qed.

Lemma bcnt_app l l' i : bcnt (l ++ l') i = bcnt l i + bcnt l' i.
Proof. apply count_occ_app. Qed.

Lemma bone_same x : bone x x = 1.
Proof. unfold bone. destruct (bask_dec x x); congruence. Qed.

Lemma bcnt_in l i : 0 < bcnt l i <-> In i l.
Proof. rewrite (count_occ_In bask_dec). lia. Qed.

(** F is what the places hold; A is who waits for what. *)
Record Tok (A : bask -> Prop) (F : bloc -> list bask) : Prop := {
  t_one : forall l i, bcnt (F l) i <= 1;
  t_loc : forall l l' i, In i (F l) -> In i (F l') -> l = l';
  t_wants : forall l i, In i (F l) -> A i;
  t_have : forall i, A i -> exists l, In i (F l)
}.

Lemma tok_ext A A' F F' : Tok A F -> (forall i, A i <-> A' i) -> (forall l i, bcnt (F' l) i = bcnt (F l) i) -> Tok A' F'.
Proof.
  intros [B1 B2 B3 B4] Ae Fe. assert (Fi : forall l i, In i (F' l) <-> In i (F l)) by (intros; rewrite <- !bcnt_in, Fe; reflexivity).
  split; intros.
  - rewrite Fe. auto.
  - rewrite Fi in *. eauto.
  - rewrite Fi in *. apply Ae. eauto.
  - apply Ae in H. destruct (B4 _ H) as [l X]. exists l. apply Fi. auto.
Qed.

Lemma tok_move A F F' l1 l2 x : Tok A F -> l1 <> l2 -> (forall i, bcnt (F' l1) i + bone x i = bcnt (F l1) i) ->
  (forall i, bcnt (F' l2) i = bcnt (F l2) i + bone x i) -> (forall l i, l <> l1 -> l <> l2 -> bcnt (F' l) i = bcnt (F l) i) -> Tok A F'.
Proof.
  intros [B1 B2 B3 B4] D E1 E2 E3.
  assert (X1 : In x (F l1)) by (apply bcnt_in; rewrite <- E1, bone_same; lia).
  assert (X2 : ~ In x (F l2)) by (intros X; apply D; eauto).
  assert (K : forall l i, In i (F' l) -> (l = l2 /\ i = x) \/ (In i (F l) /\ ~ (l = l1 /\ i = x))).
  { intros l i P. apply bcnt_in in P. destruct (bloc_dec l l2) as [->|N2].
    - rewrite E2 in P. unfold bone in P. destruct (bask_dec x i); auto. right. split; [apply bcnt_in; lia|]. intros [? ?]; congruence.
    - right. destruct (bloc_dec l l1) as [->|N1].
      + specialize (E1 i). specialize (B1 l1 i). unfold bone in E1. destruct (bask_dec x i); [lia|]. split; [apply bcnt_in; lia|]. intros [_ ?]; congruence.
      + rewrite E3 in P by auto. split; [apply bcnt_in; lia|]. intros [? _]; congruence. }
  split.
  - intros l i. destruct (bloc_dec l l2) as [->|N2].
    + rewrite E2. unfold bone. specialize (B1 l2 i). destruct (bask_dec x i); [|lia]. subst i. rewrite <- bcnt_in in X2. lia.
    + destruct (bloc_dec l l1) as [->|N1]; [specialize (E1 i); specialize (B1 l1 i); lia|rewrite E3; auto].
  - intros l l' i P P'. destruct (K _ _ P) as [[-> ->]|[Q Q']], (K _ _ P') as [[-> E]|[U U']]; auto.
    + exfalso. apply U'. split; eauto.
    + exfalso. subst i. apply Q'. split; eauto.
    + eauto.
  - intros l i P. destruct (K _ _ P) as [[-> ->]|[Q _]]; eauto.
  - intros i P. destruct (B4 _ P) as [l Q]. destruct (bloc_dec l l2) as [->|N2].
    { exists l2. apply bcnt_in. apply bcnt_in in Q. rewrite E2. lia. }
    destruct (bloc_dec l l1) as [->|N1].
    + destruct (bask_dec x i) as [<-|Ni].
      * exists l2. apply bcnt_in. rewrite E2, bone_same. lia.
      * exists l1. apply bcnt_in. apply bcnt_in in Q. specialize (E1 i). unfold bone in E1. destruct (bask_dec x i); [congruence|]. lia.
    + exists l. apply bcnt_in. apply bcnt_in in Q. rewrite E3; auto.
Qed.

Lemma tok_more A A' F F' l2 x : Tok A F -> (forall i, A' i <-> A i \/ i = x) -> ~ A x ->
  (forall i, bcnt (F' l2) i = bcnt (F l2) i + bone x i) -> (forall l i, l <> l2 -> bcnt (F' l) i = bcnt (F l) i) -> Tok A' F'.
Proof.
  intros [B1 B2 B3 B4] Ae N E2 E3.
  assert (X2 : forall l, ~ In x (F l)) by (intros l X; eauto).
  assert (K : forall l i, In i (F' l) -> (l = l2 /\ i = x) \/ In i (F l)).
  { intros l i P. apply bcnt_in in P. destruct (bloc_dec l l2) as [->|N2].
    - rewrite E2 in P. unfold bone in P. destruct (bask_dec x i); auto. right. apply bcnt_in; lia.
    - right. rewrite E3 in P by auto. apply bcnt_in. lia. }
  split.
  - intros l i. destruct (bloc_dec l l2) as [->|N2]; [|rewrite E3; auto].
    rewrite E2. unfold bone. specialize (B1 l2 i). destruct (bask_dec x i); [|lia]. subst i. specialize (X2 l2). rewrite <- bcnt_in in X2. lia.
  - intros l l' i P P'. destruct (K _ _ P) as [[-> ->]|Q], (K _ _ P') as [[-> E]|U]; auto; [exfalso; eapply X2; eauto|subst i; exfalso; eapply X2; eauto|eauto].
  - intros l i P. apply Ae. destruct (K _ _ P) as [[-> ->]|Q]; eauto.
  - intros i P. apply Ae in P as [P| ->].
    + destruct (B4 _ P) as [l Q]. exists l. apply bcnt_in. apply bcnt_in in Q. destruct (bloc_dec l l2) as [->|N2]; [rewrite E2; lia|rewrite E3; auto].
    + exists l2. apply bcnt_in. rewrite E2, bone_same. lia.
Qed.

Lemma tok_less A A' F F' l1 x : Tok A F -> (forall i, A' i <-> A i /\ i <> x) ->
  (forall i, bcnt (F' l1) i + bone x i = bcnt (F l1) i) -> (forall l i, l <> l1 -> bcnt (F' l) i = bcnt (F l) i) -> Tok A' F'.
Proof.
  intros [B1 B2 B3 B4] Ae E1 E3.
  assert (X1 : In x (F l1)) by (apply bcnt_in; rewrite <- E1, bone_same; lia).
  assert (K : forall l i, In i (F' l) -> In i (F l) /\ i <> x).
  { intros l i P. apply bcnt_in in P. destruct (bloc_dec l l1) as [->|N1].
    - specialize (E1 i). specialize (B1 l1 i). unfold bone in E1. destruct (bask_dec x i); [lia|]. split; [apply bcnt_in; lia|]. congruence.
    - rewrite E3 in P by auto. apply bcnt_in in P. split; auto. intros ->. apply N1. eauto. }
  split.
  - intros l i. destruct (bloc_dec l l1) as [->|N1]; [specialize (E1 i); specialize (B1 l1 i); lia|rewrite E3; auto].
  - intros l l' i P P'. apply K in P as [P _]. apply K in P' as [P' _]. eauto.
  - intros l i P. apply K in P as [P Q]. apply Ae. split; eauto.
  - intros i P. apply Ae in P as [P Q]. destruct (B4 _ P) as [l U]. exists l. apply bcnt_in. apply bcnt_in in U. destruct (bloc_dec l l1) as [->|N1]; [|rewrite E3; auto].
    specialize (E1 i). unfold bone in E1. destruct (bask_dec x i); [congruence|]. lia.
Qed.

Lemma asks_app l l' : asks_in (l ++ l') = asks_in l ++ asks_in l'.
Proof. apply flat_map_app. Qed.

Lemma in_asks s d l : In (s, d) (asks_in l) <-> In (WGet s d true) l.
Proof.
  unfold asks_in. rewrite in_flat_map. split.
  - intros (m & I & J). destruct m; try destruct J. destruct blocking; [|destruct J]. destruct J as [E|[]]. apply pair_inj in E as [-> ->]. auto.
  - intros I. eexists. split; [exact I|]. simpl. auto.
Qed.

Lemma in_unanswered s d w : In (s, d) (unanswered w) <-> In (d, s) (bgets w) /\ ~ In (d, s) (sent w).
Proof.
  unfold unanswered. rewrite in_map_iff. split.
  - intros ([d' s'] & E & I). simpl in E. apply pair_inj in E as [<- <-]. apply filter_In in I as [I J]. split; auto.
    apply negb_true_iff in J. apply pair_in_not in J. auto.
  - intros [I J]. exists (d, s). split; auto. apply filter_In. split; auto. apply negb_true_iff. apply pair_in_not. auto.
Qed.

(** ** The invariant *)

Section Net.
Variable prod : dataid -> rank -> Prop.       (* the reference is of a task sent to that worker *)
Hypothesis prod_one : forall d o o', prod d o -> prod d o' -> o = o'.
Hypothesis prod_fst : forall d o, prod d o -> fst d <> o.

Section State.
Variable want : rank -> list dataid.          (* what a process waits for in get *)
Variable W : rank -> wst.
Variable C : rank -> rank -> list wmsg.
Variable R : rank -> rank -> list (dataid * val).
Variable X : rank -> dataid -> Prop.          (* stored, the requests for it not yet answered *)

Definition awaits (i : bask) : Prop := In (snd i) (want (fst i)) /\ store (W (fst i)) (snd i) = None.

Record Net : Prop := {
  a_get : forall a b s d bl, In (WGet s d bl) (C a b) -> s = a /\ a <> b /\ prod d b /\ if bl : bool then fst d = a else fst d <> a /\ a <> 0;
  a_put : forall a b d v, In (WPut d v) (C a b) -> fst d <> b /\ (prod d b -> store (W b) d <> None);
  a_own : forall a b d o, In (WOwner d o) (C a b) -> fst d <> b /\ prod d o;
  a_rep : forall a b d v, In (d, v) (R a b) -> fst d = b;
  a_owner : forall p d o, owner (W p) d = Some o -> prod d o;
  a_gets : forall p d x, In (d, x) (gets (W p)) -> fst d <> x /\ x <> p /\ x <> 0 /\ prod d p /\ (store (W p) d = None \/ X p d);
  a_bgets : forall p d x, In (d, x) (bgets (W p)) -> fst d = x /\ x <> p /\ prod d p /\ (store (W p) d = None \/ X p d);
  a_sent : forall p d x, In (d, x) (sent (W p)) -> store (W x) d <> None \/ (exists v, In (WPut d v) (C p x)) \/ exists v, In (d, v) (R p x);
  a_reqs : forall p d, In d (reqs (W p)) -> fst d <> p /\ store (W p) d = None /\ exists o, owner (W p) d = Some o /\ o <> p /\
    (In (WGet p d false) (C p o) \/ In (d, p) (gets (W o)) \/ exists v, In (WPut d v) (C o p));
  a_want : forall p d, In d (want p) -> fst d = p;
  a_tok : Tok awaits (bcont W C R);
  a_self : forall a b m, In m (C a b) -> a <> b
}.

End State.

Definition okmsg (W : rank -> wst) (a b : rank) (m : wmsg) : Prop := a <> b /\
  match m with
  | WGet s d bl => s = a /\ a <> b /\ prod d b /\ (if bl then fst d = a else fst d <> a /\ a <> 0)
  | WPut d v => fst d <> b /\ (prod d b -> store (W b) d <> None)
  | WOwner d o => fst d <> b /\ prod d o
  | _ => True
  end.

Lemma upd_p {A} (f : rank -> A) p x : upd f p x p = x.
Proof. unfold upd. rewrite Nat.eqb_refl. reflexivity. Qed.

Lemma upd_o {A} (f : rank -> A) p x r : r <> p -> upd f p x r = f r.
Proof. unfold upd. intros N. apply Nat.eqb_neq in N. rewrite N. reflexivity. Qed.

(** Process p has changed to w', and more is under way. *)
Lemma net_grow want want' W C R X X' p w' C' R' (N : rank -> rank -> list wmsg) (M : rank -> rank -> list (dataid * val)) :
  Net want W C R X -> (forall a b, C' a b = C a b ++ N a b) -> (forall a b, R' a b = R a b ++ M a b) ->
  (forall d, store (W p) d <> None -> store w' d <> None) ->
  (forall a b m, In m (N a b) -> okmsg (upd W p w') a b m) ->
  (forall a b d v, In (d, v) (M a b) -> fst d = b) ->
  (forall d o, owner w' d = Some o -> prod d o) ->
  (forall d x, In (d, x) (gets w') -> fst d <> x /\ x <> p /\ x <> 0 /\ prod d p /\ (store w' d = None \/ X' p d)) ->
  (forall d x, In (d, x) (bgets w') -> fst d = x /\ x <> p /\ prod d p /\ (store w' d = None \/ X' p d)) ->
  (forall d x, In (d, x) (sent w') -> In (d, x) (sent (W p)) \/ (exists v, In (WPut d v) (N p x)) \/ exists v, In (d, v) (M p x)) ->
  (forall d, In d (reqs w') -> fst d <> p /\ store w' d = None /\ exists o, owner w' d = Some o /\ o <> p /\
    (In (WGet p d false) (C' p o) \/ In (d, p) (gets (W o)) \/ exists v, In (WPut d v) (C' o p))) ->
  (forall d x, x <> p -> In d (reqs (W x)) -> In (d, x) (gets (W p)) -> In (d, x) (gets w') \/ exists v, In (WPut d v) (C' p x)) ->
  (forall r d, In d (want' r) -> fst d = r) ->
  (forall r d, r <> p -> X r d -> X' r d) ->
  Tok (awaits want' (upd W p w')) (bcont (upd W p w') C' R') ->
  Net want' (upd W p w') C' R' X'.
Proof using.
  intros [A1 A2 A3 A4 A5 A6 A7 A8 A9 A10 A11 A12] Ec Er G1 G2 G3 G4 G5 G6 G7 G8 G9 G10 G11 G12.
  assert (St : forall r d, store (W r) d <> None -> store (upd W p w' r) d <> None).
  { intros r d. destruct (Nat.eq_dec r p) as [->|Nr]; [rewrite upd_p; auto|rewrite upd_o by auto; auto]. }
  assert (K : forall a b m, In m (C' a b) -> In m (C a b) \/ okmsg (upd W p w') a b m).
  { intros a b m I. rewrite Ec in I. apply in_app_or in I as [I|I]; auto. }
  assert (Cl : forall a b m, In m (C a b) -> In m (C' a b)) by (intros; rewrite Ec; apply in_or_app; auto).
  assert (A12' : forall a b m, In m (C' a b) -> a <> b) by (intros a b m I; destruct (K _ _ _ I) as [J|[J _]]; eauto).
  split; auto.
  - intros a b s d bl I. destruct (K _ _ _ I) as [J|[_ J]]; [eauto|exact J].
  - intros a b d v I. destruct (K _ _ _ I) as [J|[_ J]]; [|exact J]. apply A2 in J as [J1 J2]. split; auto.
  - intros a b d o I. destruct (K _ _ _ I) as [J|[_ J]]; [eauto|exact J].
  - intros a b d v I. rewrite Er in I. apply in_app_or in I as [I|I]; eauto.
  - intros r d o. destruct (Nat.eq_dec r p) as [->|Nr]; [rewrite upd_p; auto|rewrite upd_o by auto; eauto].
  - intros r d x. destruct (Nat.eq_dec r p) as [->|Nr]; [rewrite upd_p; auto|rewrite upd_o by auto].
    intros I. apply A6 in I as (I1 & I2 & I3 & I4 & I5). repeat split; auto. destruct I5; auto.
  - intros r d x. destruct (Nat.eq_dec r p) as [->|Nr]; [rewrite upd_p; auto|rewrite upd_o by auto].
    intros I. apply A7 in I as (I1 & I2 & I3 & I5). repeat split; auto. destruct I5; auto.
  - intros r d x I. assert (Y : In (d, x) (sent (W r)) \/ (exists v, In (WPut d v) (C' r x)) \/ exists v, In (d, v) (R' r x)).
    { destruct (Nat.eq_dec r p) as [->|Nr]; [|rewrite upd_o in I; auto]. rewrite upd_p in I.
      destruct (G7 _ _ I) as [J|[[v J]|[v J]]]; auto; right; [left|right]; exists v; rewrite ?Ec, ?Er; apply in_or_app; auto. }
    destruct Y as [Y|Y]; auto. apply A8 in Y as [Y|[[v Y]|[v Y]]]; auto; right; [left|right]; exists v; rewrite ?Ec, ?Er; apply in_or_app; auto.
  - intros r d. destruct (Nat.eq_dec r p) as [->|Nr]; [rewrite !upd_p|rewrite !upd_o by auto].
    + intros I. apply G8 in I as (I1 & I2 & o & I3 & I4 & I5). split; auto. split; auto. exists o. rewrite upd_o by auto. auto.
    + intros I. assert (I0 := I). apply A9 in I as (I1 & I2 & o & I3 & I4 & I5). split; auto. split; auto. exists o. split; auto. split; auto.
      destruct I5 as [I5|[I5|[v I5]]]; auto; [|right; right; exists v; auto].
      destruct (Nat.eq_dec o p) as [->|No]; [rewrite upd_p|rewrite upd_o by auto; auto]. right. apply G9; auto.
Qed.

(** A message is taken that nobody waits for any more. *)
Definition spent (w : wst) (a : rank) (m : wmsg) : Prop :=
  match m with
  | WGet s d bl => bl = false /\ (In (d, a) (sent w) \/ In (d, a) (gets w))
  | WPut d v => store w d <> None /\ ~ In d (reqs w)
  | _ => True
  end.

Lemma net_drop want W C R X C' src p m l : Net want W C R X -> C src p = m :: l -> spent (W p) src m ->
  (forall a b, C' a b = if Nat.eqb a src && Nat.eqb b p then l else C a b) -> Net want W C' R X.
Proof using prod_one.
  intros [A1 A2 A3 A4 A5 A6 A7 A8 A9 A10 A11 A12] Hm Sp Ec.
  assert (K : forall a b x, In x (C' a b) -> In x (C a b)).
  { intros a b x. rewrite Ec. destruct (Nat.eqb a src) eqn:E1, (Nat.eqb b p) eqn:E2; simpl; auto.
    apply Nat.eqb_eq in E1 as ->. apply Nat.eqb_eq in E2 as ->. rewrite Hm. simpl. auto. }
  assert (L : forall a b x, In x (C a b) -> In x (C' a b) \/ (a = src /\ b = p /\ x = m)).
  { intros a b x. rewrite Ec. destruct (Nat.eqb a src) eqn:E1, (Nat.eqb b p) eqn:E2; simpl; auto.
    apply Nat.eqb_eq in E1 as ->. apply Nat.eqb_eq in E2 as ->. rewrite Hm. intros [I|I]; auto. }
  split; [| | |exact A4|exact A5|exact A6|exact A7| | |exact A10| |intros a b x I; eauto].
  - intros a b s d bl I. apply K in I. eauto.
  - intros a b d v I. apply K in I. eauto.
  - intros a b d o I. apply K in I. eauto.
  - intros r d x I. apply A8 in I as [I|[[v I]|I]]; auto. apply L in I as [I|(-> & -> & <-)]; [right; left; eauto|]. left. apply Sp.
  - intros r d I. assert (I0 := I). apply A9 in I as (I1 & I2 & o & I3 & I4 & I5). split; auto. split; auto. exists o. split; auto. split; auto.
    destruct I5 as [I5|[I5|[v I5]]]; auto.
    + apply L in I5 as [I5|(-> & -> & <-)]; auto. simpl in Sp. destruct Sp as [_ [Sp|Sp]]; auto.
      apply A8 in Sp as [Sp|[Sp|[v Sp]]]; [congruence| |apply A4 in Sp; congruence].
      destruct Sp as [v Sp]. apply L in Sp as [Sp|(_ & _ & E3)]; [right; right; exists v; auto|discriminate].
    + apply L in I5 as [I5|(-> & -> & <-)]; [right; right; exists v; auto|]. simpl in Sp. tauto.
  - eapply tok_ext; [exact A11|reflexivity|]. intros [a b|r|a b] i; try reflexivity. simpl. rewrite Ec.
    destruct (Nat.eqb a src) eqn:E1, (Nat.eqb b p) eqn:E2; simpl; auto. apply Nat.eqb_eq in E1 as ->. apply Nat.eqb_eq in E2 as ->. rewrite Hm.
    destruct m; simpl; auto. simpl in Sp. destruct Sp as [-> _]. reflexivity.
Qed.

Lemma net_ext want W C R X W' C' R' : (forall r, W' r = W r) -> (forall a b, C' a b = C a b) -> (forall a b, R' a b = R a b) ->
  Net want W C R X -> Net want W' C' R' X.
Proof using.
  intros Ew Ec Er [A1 A2 A3 A4 A5 A6 A7 A8 A9 A10 A11 A12]. split.
  - intros a b s d bl. rewrite Ec. apply A1.
  - intros a b d v. rewrite Ec, Ew. apply A2.
  - intros a b d o. rewrite Ec. apply A3.
  - intros a b d v. rewrite Er. apply A4.
  - intros r d o. rewrite Ew. apply A5.
  - intros r d x. rewrite Ew. apply A6.
  - intros r d x. rewrite Ew. apply A7.
  - intros r d x. rewrite !Ew, Ec, Er. apply A8.
  - intros r d. rewrite !Ew. intros I. apply A9 in I as (I1 & I2 & o & I3 & I4 & I5). split; auto. split; auto. exists o. rewrite Ew, !Ec. auto.
  - exact A10.
  - eapply tok_ext; [exact A11| |].
    + intros i. unfold awaits. rewrite Ew. reflexivity.
    + intros [a b|r|a b] i; simpl; rewrite ?Ec, ?Ew, ?Er; reflexivity.
  - intros a b m. rewrite Ec. apply A12.
Qed.

Definition to_one {A} (p r : rank) (m : A) (a b : rank) : list A := if Nat.eqb a p && Nat.eqb b r then [m] else [].
Definition nothing {A} (a b : rank) : list A := [].

Lemma in_to_one {A} p r (m : A) a b x : In x (to_one p r m a b) <-> a = p /\ b = r /\ x = m.
Proof.
  unfold to_one. split.
  - destruct (Nat.eqb a p) eqn:E1, (Nat.eqb b r) eqn:E2; simpl; intros I; try destruct I as [<-|[]]; try destruct I.
    apply Nat.eqb_eq in E1. apply Nat.eqb_eq in E2. auto.
  - intros (-> & -> & ->). rewrite !Nat.eqb_refl. simpl. auto.
Qed.

(** Everything about requests is as before. *)
Definition alike (w w' : wst) : Prop := store w' = store w /\ owner w' = owner w /\ reqs w' = reqs w /\ gets w' = gets w /\ bgets w' = bgets w.

Lemma bcont_upd W C R p w' C' R' l i : (forall a b, asks_in (C' a b) = asks_in (C a b)) -> (forall a b, R' a b = R a b) -> unanswered w' = unanswered (W p) ->
  bcnt (bcont (upd W p w') C' R' l) i = bcnt (bcont W C R l) i.
Proof.
  intros Ec Er Eu. destruct l as [a b|r|a b]; simpl; rewrite ?Ec, ?Er; auto.
  unfold upd. destruct (Nat.eqb r p) eqn:E; auto. apply Nat.eqb_eq in E as ->. rewrite Eu. auto.
Qed.

Lemma awaits_upd want W p w' i : (forall d, In d (want p) -> store w' d = store (W p) d) -> awaits want (upd W p w') i <-> awaits want W i.
Proof.
  intros E. unfold awaits, upd. destruct i as [r d]. simpl. destruct (Nat.eqb r p) eqn:Q; [|reflexivity]. apply Nat.eqb_eq in Q as ->.
  split; intros [A B]; split; auto; rewrite ?E in *; auto.
Qed.

Lemma unanswered_sent w w' d r : bgets w' = bgets w -> sent w' = sent w ++ [(d, r)] -> ~ In (d, r) (bgets w) -> unanswered w' = unanswered w.
Proof.
  intros Eb Es N. unfold unanswered. rewrite Eb, Es. f_equal. clear Eb Es. induction (bgets w) as [|y l IH]; auto. simpl in *.
  rewrite IH by tauto. unfold pair_in at 1. rewrite existsb_app. fold (pair_in y (sent w)). simpl.
  destruct (pair_eqb y (d, r)) eqn:E; [apply pair_eqb_eq in E; tauto|]. rewrite !orb_false_r. reflexivity.
Qed.

(** A value is sent. *)
Lemma net_push want W C R X p w' C' d v r : Net want W C R X -> alike (W p) w' -> sent w' = sent (W p) ++ [(d, r)] ->
  (forall a b, C' a b = C a b ++ to_one p r (WPut d v) a b) -> fst d <> r -> r <> p -> (prod d r -> store (W r) d <> None) ->
  Net want (upd W p w') C' R X.
Proof using.
  intros HN (E1 & E2 & E3 & E4 & E5) Es Ec Nd Nr Pr. assert (HN' := HN). destruct HN' as [A1 A2 A3 A4 A5 A6 A7 A8 A9 A10 A11 A12].
  assert (Nb : ~ In (d, r) (bgets (W p))) by (intros I; apply A7 in I; tauto).
  apply (net_grow want want W C R X X p w' C' R (to_one p r (WPut d v)) nothing HN); auto; rewrite ?E1, ?E2, ?E3, ?E4, ?E5; auto.
  - intros. rewrite app_nil_r. reflexivity.
  - intros a b m I. apply in_to_one in I as (-> & -> & ->). simpl. split; auto. rewrite upd_o by auto. auto.
  - intros a b ? ? [].
  - eauto.
  - intros d' x I. rewrite Es in I. apply in_app_or in I as [I|[I|[]]]; auto. apply pair_inj in I as [<- <-]. right. left. exists v. apply in_to_one. auto.
  - intros d' I. apply A9 in I as (I1 & I2 & o & I3 & I4 & I5). split; auto. split; auto. exists o. split; auto. split; auto.
    destruct I5 as [I5|[I5|[u I5]]]; auto; [left|right; right; exists u]; rewrite Ec; apply in_or_app; auto.
  - eapply tok_ext; [exact A11| |].
    + intros i. symmetry. apply awaits_upd. intros. rewrite E1. auto.
    + intros l i. apply bcont_upd; auto; [|eapply unanswered_sent; eauto].
      intros a b. rewrite Ec, asks_app. unfold to_one. destruct (_ && _); simpl; apply app_nil_r.
Qed.

Lemma filter_cnt (f : bask -> bool) l i : bcnt (filter f l) i = if f i then bcnt l i else 0.
Proof.
  induction l as [|x l IH]; simpl; [destruct (f i); auto|]. destruct (f x) eqn:Fx; simpl; destruct (bask_dec x i) as [->|N]; rewrite ?IH, ?Fx; auto.
Qed.

Lemma unanswered_cnt w i : bcnt (unanswered w) i = if pair_in (snd i, fst i) (sent w) then 0 else bcnt (map turn (bgets w)) i.
Proof.
  unfold unanswered. assert (E : map turn (filter (fun y => negb (pair_in y (sent w))) (bgets w)) =
    filter (fun x => negb (pair_in (snd x, fst x) (sent w))) (map turn (bgets w))).
  { induction (bgets w) as [|[a b] l IH]; auto. simpl. destruct (pair_in (a, b) (sent w)); simpl; rewrite ?IH; auto. }
  rewrite E, filter_cnt. destruct (pair_in _ _); auto.
Qed.

Lemma pair_in_snoc y l z : pair_in y (l ++ [z]) = pair_in y l || pair_eqb y z.
Proof. unfold pair_in. rewrite existsb_app. simpl. rewrite orb_false_r. reflexivity. Qed.

(** A blocking request that waits is answered. *)
Lemma net_reply want W C R X p w' R' d v r : Net want W C R X -> alike (W p) w' -> sent w' = sent (W p) ++ [(d, r)] ->
  (forall a b, R' a b = R a b ++ to_one p r (d, v) a b) -> In (d, r) (bgets (W p)) -> ~ In (d, r) (sent (W p)) ->
  Net want (upd W p w') C R' X.
Proof using.
  intros HN (E1 & E2 & E3 & E4 & E5) Es Er Hb Ns. assert (HN' := HN). destruct HN' as [A1 A2 A3 A4 A5 A6 A7 A8 A9 A10 A11 A12].
  destruct (A7 _ _ _ Hb) as (Fd & Nr & _).
  apply (net_grow want want W C R X X p w' C R' nothing (to_one p r (d, v)) HN); auto; rewrite ?E1, ?E2, ?E3, ?E4, ?E5; auto.
  - intros. rewrite app_nil_r. reflexivity.
  - intros a b m [].
  - intros a b d' v' I. apply in_to_one in I as (-> & -> & I). apply pair_inj in I as [-> ->]. auto.
  - eauto.
  - intros d' x I. rewrite Es in I. apply in_app_or in I as [I|[I|[]]]; auto. apply pair_inj in I as [<- <-]. right. right. exists v. apply in_to_one. auto.
  - eapply (tok_move _ (bcont W C R) _ (BH p) (BR p r) (r, d)); [eapply tok_ext; [exact A11| |reflexivity]|discriminate| | |].
    + intros i. symmetry. apply awaits_upd. intros. rewrite E1. auto.
    + intros i. simpl. rewrite upd_p, !unanswered_cnt, Es, E5, pair_in_snoc. unfold bone. destruct i as [r' d']. simpl fst; simpl snd.
      destruct (bask_dec (r, d) (r', d')) as [E|N].
      * apply pair_inj in E as [<- <-]. assert (Y : pair_in (d, r) (sent (W p)) = false) by (apply pair_in_not; auto). rewrite Y.
        assert (Z : pair_eqb (d, r) (d, r) = true) by (apply pair_eqb_eq; auto). rewrite Z. simpl.
        assert (U := t_one _ _ A11 (BH p) (r, d)). simpl in U. rewrite unanswered_cnt in U. simpl fst in U; simpl snd in U. rewrite Y in U.
        assert (V : 0 < bcnt (map turn (bgets (W p))) (r, d)) by (apply bcnt_in; apply in_map_iff; exists (d, r); auto). lia.
      * destruct (pair_eqb (d', r') (d, r)) eqn:Z; [apply pair_eqb_eq in Z; apply pair_inj in Z as [-> ->]; congruence|].
        rewrite orb_false_r. lia.
    + intros i. simpl. rewrite Er, map_app, bcnt_app. unfold to_one. rewrite !Nat.eqb_refl. simpl map. rewrite bcnt_cons. simpl. lia.
    + intros l i N1 N2. destruct l as [a b|q|a b]; simpl; auto.
      * rewrite upd_o by congruence. auto.
      * rewrite Er, map_app, bcnt_app. unfold to_one. destruct (Nat.eqb a p) eqn:Q1, (Nat.eqb b r) eqn:Q2; simpl; try lia.
        apply Nat.eqb_eq in Q1. apply Nat.eqb_eq in Q2. congruence.
Qed.

(** A request that is not blocking waits. *)
Lemma net_wait want W C R X p w' d r : Net want W C R X -> store w' = store (W p) -> owner w' = owner (W p) -> reqs w' = reqs (W p) ->
  bgets w' = bgets (W p) -> sent w' = sent (W p) -> gets w' = add_pair (d, r) (gets (W p)) -> fst d <> r -> r <> p -> r <> 0 -> prod d p ->
  store (W p) d = None -> Net want (upd W p w') C R X.
Proof using.
  intros HN E1 E2 E3 E5 Es Eg H1 H2 H3 H4 H5. assert (HN' := HN). destruct HN' as [A1 A2 A3 A4 A5 A6 A7 A8 A9 A10 A11 A12].
  apply (net_grow want want W C R X X p w' C R nothing nothing HN); auto; rewrite ?E1, ?E2, ?E3, ?E5, ?Es; auto; try (intros; rewrite app_nil_r; reflexivity); try (intros ? ? ? []; fail);
    try (intros ? ? ? ? []; fail).
  - eauto.
  - intros d' x I. rewrite Eg in I. apply add_pair_in in I as [I|I]; auto. apply pair_inj in I as [-> ->]. repeat split; auto.
  - intros d' x Nx I J. left. rewrite Eg. apply add_pair_in. auto.
  - eapply tok_ext; [exact A11| |].
    + intros i. symmetry. apply awaits_upd. intros. rewrite E1. auto.
    + intros l i. apply bcont_upd; auto. unfold unanswered. rewrite E5, Es. auto.
Qed.

(** Requests that have been answered are forgotten. *)
Lemma net_clear want W C R X p w' : Net want W C R X -> store w' = store (W p) -> owner w' = owner (W p) -> reqs w' = reqs (W p) ->
  sent w' = sent (W p) -> (forall y, In y (gets w') -> In y (gets (W p))) -> (forall y, In y (gets (W p)) -> In y (gets w') \/ In y (sent (W p))) ->
  (forall i, bcnt (unanswered w') i = bcnt (unanswered (W p)) i) -> (forall y, In y (bgets w') -> In y (bgets (W p))) -> Net want (upd W p w') C R X.
Proof using.
  intros HN E1 E2 E3 Es G1 G2 G3 G4. assert (HN' := HN). destruct HN' as [A1 A2 A3 A4 A5 A6 A7 A8 A9 A10 A11 A12].
  apply (net_grow want want W C R X X p w' C R nothing nothing HN); auto; rewrite ?E1, ?E2, ?E3, ?Es; auto; try (intros; rewrite app_nil_r; reflexivity); try (intros ? ? ? []; fail);
    try (intros ? ? ? ? []; fail).
  - eauto.
  - intros d x Nx I J. destruct (G2 _ J) as [K|K]; auto. right. apply A8 in K as [K|[K|[v K]]]; auto.
    + apply A9 in I as (_ & I & _). congruence.
    + apply A4 in K. apply A6 in J. tauto.
  - eapply tok_ext; [exact A11| |].
    + intros i. symmetry. apply awaits_upd. intros. rewrite E1. auto.
    + intros l i. destruct l as [a b|q|a b]; simpl; auto. unfold upd. destruct (Nat.eqb q p) eqn:Q; auto. apply Nat.eqb_eq in Q as ->. auto.
Qed.

(** A value is asked for. *)
Lemma net_ask want W C R X p w' C' d o : Net want W C R X -> store w' = store (W p) -> owner w' = owner (W p) -> reqs w' = d :: reqs (W p) ->
  sent w' = sent (W p) -> gets w' = gets (W p) -> bgets w' = bgets (W p) -> (forall a b, C' a b = C a b ++ to_one p o (WGet p d false) a b) ->
  store (W p) d = None -> owner (W p) d = Some o -> o <> p -> fst d <> p -> p <> 0 -> Net want (upd W p w') C' R X.
Proof using.
  intros HN E1 E2 E3 Es Eg Eb Ec H1 H2 H3 H4 H5. assert (HN' := HN). destruct HN' as [A1 A2 A3 A4 A5 A6 A7 A8 A9 A10 A11 A12].
  apply (net_grow want want W C R X X p w' C' R (to_one p o (WGet p d false)) nothing HN); auto; rewrite ?E1, ?E2, ?Es, ?Eg, ?Eb; auto; try (intros; rewrite app_nil_r; reflexivity).
  - intros a b m I. apply in_to_one in I as (-> & -> & ->). simpl. repeat split; auto. eauto.
  - intros ? ? ? ? [].
  - eauto.
  - intros d' I. rewrite E3 in I. destruct I as [<-|I].
    + split; auto. split; auto. exists o. split; auto. split; auto. left. rewrite Ec. apply in_or_app. right. apply in_to_one. auto.
    + apply A9 in I as (I1 & I2 & o' & I3 & I4 & I5). split; auto. split; auto. exists o'. split; auto. split; auto.
      destruct I5 as [I5|[I5|[u I5]]]; auto; [left|right; right; exists u]; rewrite Ec; apply in_or_app; auto.
  - eapply tok_ext; [exact A11| |].
    + intros i. symmetry. apply awaits_upd. intros. rewrite E1. auto.
    + intros l i. apply bcont_upd; auto; [|unfold unanswered; rewrite Eb, Es; auto].
      intros a b. rewrite Ec, asks_app. unfold to_one. destruct (_ && _); simpl; apply app_nil_r.
Qed.

(** A value is stored that no get waits for; requests for it are still to be answered (X'). *)
Lemma net_store want W C R X (X' : rank -> dataid -> Prop) p w' d v : Net want W C R X -> store w' = dput (store (W p)) d v -> owner w' = owner (W p) ->
  (forall x, In x (reqs w') -> In x (reqs (W p))) -> ~ In d (reqs w') -> sent w' = sent (W p) -> gets w' = gets (W p) -> bgets w' = bgets (W p) ->
  ~ In d (want p) -> (forall r x, X r x -> X' r x) -> (store (W p) d = None -> prod d p -> X' p d) -> Net want (upd W p w') C R X'.
Proof using.
  intros HN E1 E2 E3 Nr Es Eg Eb H1 H2 H3. assert (HN' := HN). destruct HN' as [A1 A2 A3 A4 A5 A6 A7 A8 A9 A10 A11 A12].
  assert (Y : forall x, prod x p -> store (W p) x = None \/ X p x -> store w' x = None \/ X' p x).
  { intros x Px [Z|Z]; auto. rewrite E1. unfold dput. destruct (did_eqb d x) eqn:Q; auto. apply did_eqb_eq in Q as <-. right. auto. }
  apply (net_grow want want W C R X X' p w' C R nothing nothing HN); auto; rewrite ?E2, ?Es, ?Eg, ?Eb; auto; try (intros; rewrite app_nil_r; reflexivity); try (intros ? ? ? []; fail);
    try (intros ? ? ? ? []; fail).
  - intros x N. rewrite E1. unfold dput. destruct (did_eqb d x); congruence.
  - eauto.
  - intros x r I. apply A6 in I as (I1 & I2 & I3 & I4 & I5). repeat split; auto.
  - intros x r I. apply A7 in I as (I1 & I2 & I3 & I4). repeat split; auto.
  - intros x I. assert (I0 := I). apply E3 in I. apply A9 in I as (I1 & I2 & o & I3 & I4 & I5). split; auto. split.
    + rewrite E1, dput_other; auto. intros ->. auto.
    + exists o. auto.
  - eapply tok_ext; [exact A11| |].
    + intros i. symmetry. apply awaits_upd. intros x I. rewrite E1, dput_other; auto. intros ->. auto.
    + intros l i. apply bcont_upd; auto. unfold unanswered. rewrite Eb, Es. auto.
Qed.

(** The owner of a reference is told. *)
Lemma net_own want W C R X p w' : Net want W C R X -> store w' = store (W p) -> reqs w' = reqs (W p) -> sent w' = sent (W p) -> gets w' = gets (W p) ->
  bgets w' = bgets (W p) -> (forall d o, owner w' d = Some o -> prod d o) -> (forall d o, owner (W p) d = Some o -> owner w' d <> None) ->
  Net want (upd W p w') C R X.
Proof using prod_one.
  intros HN E1 E3 Es Eg Eb H1 H2. assert (HN' := HN). destruct HN' as [A1 A2 A3 A4 A5 A6 A7 A8 A9 A10 A11 A12].
  apply (net_grow want want W C R X X p w' C R nothing nothing HN); auto; rewrite ?E1, ?E3, ?Es, ?Eg, ?Eb; auto; try (intros; rewrite app_nil_r; reflexivity); try (intros ? ? ? []; fail);
    try (intros ? ? ? ? []; fail).
  - intros d I. apply A9 in I as (I1 & I2 & o & I3 & I4 & I5). split; auto. split; auto. exists o. split; auto.
    destruct (owner w' d) as [o'|] eqn:O; [|exfalso; eapply H2; eauto]. f_equal. eapply prod_one; eauto.
  - eapply tok_ext; [exact A11| |].
    + intros i. symmetry. apply awaits_upd. intros. rewrite E1. auto.
    + intros l i. apply bcont_upd; auto. unfold unanswered. rewrite Eb, Es. auto.
Qed.

(** get asks for one more value. *)
Lemma net_want want W C R X p want' C' d o : Net want W C R X -> (forall a b, C' a b = C a b ++ to_one p o (WGet p d true) a b) ->
  want' p = d :: want p -> (forall r, r <> p -> want' r = want r) ->
  store (W p) d = None -> ~ In d (want p) -> prod d o -> o <> p -> fst d = p -> Net want' W C' R X.
Proof using.
  intros HN Ec Ew1 Ew2 H1 H2 H3 H4 H5. assert (HN' := HN). destruct HN' as [A1 A2 A3 A4 A5 A6 A7 A8 A9 A10 A11 A12].
  apply (net_ext want' (upd W p (W p)) C' R X W C' R); auto; [intros r; unfold upd; destruct (Nat.eqb r p) eqn:E; auto; apply Nat.eqb_eq in E as ->; auto|].
  apply (net_grow want want' W C R X X p (W p) C' R (to_one p o (WGet p d true)) nothing HN); auto; try (intros; rewrite app_nil_r; reflexivity).
  - intros a b m I. apply in_to_one in I as (-> & -> & ->). simpl. repeat split; auto.
  - intros ? ? ? ? [].
  - eauto.
  - intros d' I. apply A9 in I as (I1 & I2 & o' & I3 & I4 & I5). split; auto. split; auto. exists o'. split; auto. split; auto.
    destruct I5 as [I5|[I5|[u I5]]]; auto; [left|right; right; exists u]; rewrite Ec; apply in_or_app; auto.
  - intros r x. destruct (Nat.eq_dec r p) as [->|N]; [rewrite Ew1; intros [<-|I]; auto|rewrite Ew2; auto].
  - apply (tok_more (awaits want W) _ (bcont W C R) _ (BC p o) (p, d)); auto.
    + intros [r x]. unfold awaits. simpl. destruct (Nat.eq_dec r p) as [->|N]; [rewrite upd_p, Ew1|rewrite upd_o, Ew2 by auto].
      * simpl. split.
        -- intros [[<-|I] J]; auto.
        -- intros [[I J]|I]; auto. apply pair_inj in I as [_ ->]. auto.
      * split; auto. intros [I|I]; auto. congruence.
    + intros [I _]. auto.
    + intros i. simpl. rewrite Ec, asks_app, bcnt_app. unfold to_one. rewrite !Nat.eqb_refl. simpl asks_in. rewrite bcnt_cons. simpl. lia.
    + intros l i N. destruct l as [a b|q|a b]; simpl; auto.
      * rewrite Ec, asks_app, bcnt_app. unfold to_one. destruct (Nat.eqb a p) eqn:Q1, (Nat.eqb b o) eqn:Q2; simpl; try lia.
        apply Nat.eqb_eq in Q1. apply Nat.eqb_eq in Q2. congruence.
      * unfold upd. destruct (Nat.eqb q p) eqn:Q; auto. apply Nat.eqb_eq in Q as ->. auto.
Qed.

(** get is over. *)
Lemma net_over want W C R X p want' : Net want W C R X -> (forall d, In d (want p) -> store (W p) d <> None) -> want' p = [] ->
  (forall r, r <> p -> want' r = want r) -> Net want' W C R X.
Proof using.
  intros [A1 A2 A3 A4 A5 A6 A7 A8 A9 A10 A11 A12] H Ew1 Ew2. split; auto.
  - intros r x. destruct (Nat.eq_dec r p) as [->|N]; [rewrite Ew1; intros []|rewrite Ew2; auto].
  - eapply tok_ext; [exact A11| |reflexivity]. intros [r x]. unfold awaits. simpl. destruct (Nat.eq_dec r p) as [->|N]; [rewrite Ew1|rewrite Ew2 by auto; reflexivity].
    split; [intros [I J]; exfalso; apply (H x); auto|intros [[] _]].
Qed.

(** An answer is taken. *)
Lemma net_answer want W C R X p w' R' d v l src : Net want W C R X -> R src p = (d, v) :: l ->
  (forall a b, R' a b = if Nat.eqb a src && Nat.eqb b p then l else R a b) ->
  store w' = dput (store (W p)) d v -> owner w' = owner (W p) -> reqs w' = reqs (W p) -> sent w' = sent (W p) -> gets w' = gets (W p) ->
  bgets w' = bgets (W p) -> Net want (upd W p w') C R' X.
Proof using prod_fst.
  intros HN Hr Er E1 E2 E3 Es Eg Eb. assert (HN' := HN). destruct HN' as [A1 A2 A3 A4 A5 A6 A7 A8 A9 A10 A11 A12].
  assert (Fd : fst d = p) by (apply (A4 src p d v); rewrite Hr; simpl; auto).
  assert (K : forall a b x, In x (R' a b) -> In x (R a b)).
  { intros a b x. rewrite Er. destruct (Nat.eqb a src) eqn:Q1, (Nat.eqb b p) eqn:Q2; simpl; auto.
    apply Nat.eqb_eq in Q1 as ->. apply Nat.eqb_eq in Q2 as ->. rewrite Hr. simpl. auto. }
  assert (L : forall a b x, In x (R a b) -> In x (R' a b) \/ (a = src /\ b = p /\ x = (d, v))).
  { intros a b x. rewrite Er. destruct (Nat.eqb a src) eqn:Q1, (Nat.eqb b p) eqn:Q2; simpl; auto.
    apply Nat.eqb_eq in Q1 as ->. apply Nat.eqb_eq in Q2 as ->. rewrite Hr. intros [I|I]; auto. }
  assert (Y : forall x, prod x p -> store (W p) x = None \/ X p x -> store w' x = None \/ X p x).
  { intros x Px [Z|Z]; auto. rewrite E1. unfold dput. destruct (did_eqb d x) eqn:Q; auto. apply did_eqb_eq in Q as <-. exfalso. eapply prod_fst; eauto. }
  assert (St : forall r x, store (W r) x <> None -> store (upd W p w' r) x <> None).
  { intros r x N. destruct (Nat.eq_dec r p) as [->|Nr]; [rewrite upd_p, E1|rewrite upd_o; auto]. unfold dput. destruct (did_eqb d x); congruence. }
  split; auto.
  - intros a b x u I. apply A2 in I as [I J]. split; auto.
  - intros a b x u I. apply K in I. eauto.
  - intros r x o. destruct (Nat.eq_dec r p) as [->|N]; [rewrite upd_p, E2|rewrite upd_o by auto]; eauto.
  - intros r x q. destruct (Nat.eq_dec r p) as [->|N]; [rewrite upd_p, Eg|rewrite upd_o by auto; eauto].
    intros I. apply A6 in I as (I1 & I2 & I3 & I4 & I5). repeat split; auto.
  - intros r x q. destruct (Nat.eq_dec r p) as [->|N]; [rewrite upd_p, Eb|rewrite upd_o by auto; eauto].
    intros I. apply A7 in I as (I1 & I2 & I3 & I4). repeat split; auto.
  - intros r x q I. assert (I' : In (x, q) (sent (W r))).
    { destruct (Nat.eq_dec r p) as [->|N]; [rewrite upd_p, Es in I|rewrite upd_o in I by auto]; auto. }
    apply A8 in I' as [J|[J|[u J]]]; auto. apply L in J as [J|(-> & -> & J)]; [right; right; eauto|]. apply pair_inj in J as [-> ->].
    left. rewrite upd_p, E1, dput_same. discriminate.
  - intros r x I. assert (I' : In x (reqs (W r))).
    { destruct (Nat.eq_dec r p) as [->|N]; [rewrite upd_p, E3 in I|rewrite upd_o in I by auto]; auto. }
    apply A9 in I' as (I1 & I2 & o & I3 & I4 & I5). split; auto. split.
    + destruct (Nat.eq_dec r p) as [->|N]; [rewrite upd_p, E1, dput_other|rewrite upd_o]; auto. intros ->. auto.
    + exists o. split; [destruct (Nat.eq_dec r p) as [->|N]; [rewrite upd_p, E2|rewrite upd_o]; auto|]. split; auto.
      destruct I5 as [I5|[I5|I5]]; auto. right. left. destruct (Nat.eq_dec o p) as [->|N]; [rewrite upd_p, Eg|rewrite upd_o]; auto.
  - eapply (tok_less (awaits want W) _ (bcont W C R) _ (BR src p) (p, d)); auto.
    + intros [r x]. unfold awaits. simpl. destruct (Nat.eq_dec r p) as [->|N]; [rewrite upd_p, E1|rewrite upd_o by auto].
      * unfold dput. destruct (did_eqb d x) eqn:Q.
        -- apply did_eqb_eq in Q as <-. split; [intros [_ I]; discriminate|]. intros [_ I]. congruence.
        -- apply did_eqb_neq in Q. split; [intros [I J]; split; auto; congruence|tauto].
      * split; [intros I; split; auto; congruence|tauto].
    + intros i. simpl. rewrite Er, !Nat.eqb_refl, Hr. simpl map. simpl andb. cbv iota. rewrite bcnt_cons. lia.
    + intros q i N. destruct q as [a b|q|a b]; simpl; auto.
      * unfold upd. destruct (Nat.eqb q p) eqn:Q; auto. apply Nat.eqb_eq in Q as ->. unfold unanswered. rewrite Eb, Es. auto.
      * rewrite Er. destruct (Nat.eqb a src) eqn:Q1, (Nat.eqb b p) eqn:Q2; simpl; auto. apply Nat.eqb_eq in Q1. apply Nat.eqb_eq in Q2. congruence.
Qed.

(** A blocking request is taken: it is answered at once, or waits. *)
Lemma net_take want W C R X p w' C' R' src d l (M : rank -> rank -> list (dataid * val)) : Net want W C R X -> C src p = WGet src d true :: l ->
  (forall a b, C' a b = if Nat.eqb a src && Nat.eqb b p then l else C a b) -> (forall a b, R' a b = R a b ++ M a b) ->
  store w' = store (W p) -> owner w' = owner (W p) -> reqs w' = reqs (W p) -> gets w' = gets (W p) ->
  (forall x r, In (x, r) (bgets w') -> In (x, r) (bgets (W p)) \/ (x = d /\ r = src /\ store (W p) d = None)) ->
  (forall x r, In (x, r) (sent w') -> In (x, r) (sent (W p)) \/ exists v, In (x, v) (M p r)) -> (forall a b x v, In (x, v) (M a b) -> fst x = b) ->
  Tok (awaits want W) (bcont (upd W p w') C' R') -> Net want (upd W p w') C' R' X.
Proof using.
  intros HN Hm Ec Er E1 E2 E3 Eg G1 G2 G3 T. assert (HN' := HN). destruct HN' as [A1 A2 A3 A4 A5 A6 A7 A8 A9 A10 A11 A12].
  assert (K : forall a b x, In x (C' a b) -> In x (C a b)).
  { intros a b x. rewrite Ec. destruct (Nat.eqb a src) eqn:Q1, (Nat.eqb b p) eqn:Q2; simpl; auto.
    apply Nat.eqb_eq in Q1 as ->. apply Nat.eqb_eq in Q2 as ->. rewrite Hm. simpl. auto. }
  assert (L : forall a b x, In x (C a b) -> In x (C' a b) \/ (a = src /\ b = p /\ x = WGet src d true)).
  { intros a b x. rewrite Ec. destruct (Nat.eqb a src) eqn:Q1, (Nat.eqb b p) eqn:Q2; simpl; auto.
    apply Nat.eqb_eq in Q1 as ->. apply Nat.eqb_eq in Q2 as ->. rewrite Hm. intros [I|I]; auto. }
  assert (St : forall r, store (upd W p w' r) = store (W r)).
  { intros r. destruct (Nat.eq_dec r p) as [->|Nr]; [rewrite upd_p|rewrite upd_o]; auto. }
  assert (Ow : forall r, owner (upd W p w' r) = owner (W r)).
  { intros r. destruct (Nat.eq_dec r p) as [->|Nr]; [rewrite upd_p|rewrite upd_o]; auto. }
  assert (Rq : forall r, reqs (upd W p w' r) = reqs (W r)).
  { intros r. destruct (Nat.eq_dec r p) as [->|Nr]; [rewrite upd_p|rewrite upd_o]; auto. }
  assert (Gt : forall r, gets (upd W p w' r) = gets (W r)).
  { intros r. destruct (Nat.eq_dec r p) as [->|Nr]; [rewrite upd_p|rewrite upd_o]; auto. }
  destruct (A1 src p src d true) as (_ & B2 & B3 & B4); [rewrite Hm; simpl; auto|].
  split; [| | | | | | | | |exact A10| |intros a b x I; apply K in I; eauto].
  - intros a b s x bl I. apply K in I. eauto.
  - intros a b x v I. rewrite St. apply K in I. eauto.
  - intros a b x o I. apply K in I. eauto.
  - intros a b x v I. rewrite Er in I. apply in_app_or in I as [I|I]; eauto.
  - intros r x o. rewrite Ow. eauto.
  - intros r x q. rewrite Gt, St. eauto.
  - intros r x q. rewrite St. destruct (Nat.eq_dec r p) as [->|Nr]; [rewrite upd_p|rewrite upd_o by auto; eauto].
    intros I. apply G1 in I as [I|(-> & -> & I)]; [eauto|]. repeat split; auto.
  - intros r x q I. rewrite St. assert (Y : In (x, q) (sent (W r)) \/ exists v, In (x, v) (R' r q)).
    { destruct (Nat.eq_dec r p) as [->|Nr]; [|rewrite upd_o in I by auto; auto]. rewrite upd_p in I.
      apply G2 in I as [I|[v I]]; auto. right. exists v. rewrite Er. apply in_or_app. auto. }
    destruct Y as [Y|Y]; auto. apply A8 in Y as [Y|[[v Y]|[v Y]]]; auto; right.
    + left. exists v. apply L in Y as [Y|(_ & _ & Y)]; [auto|discriminate].
    + right. exists v. rewrite Er. apply in_or_app. auto.
  - intros r x I. rewrite Rq in I. rewrite St, Ow. apply A9 in I as (I1 & I2 & o & I3 & I4 & I5). split; auto. split; auto. exists o. split; auto. split; auto.
    rewrite Gt. destruct I5 as [I5|[I5|[v I5]]]; auto.
    + left. apply L in I5 as [I5|(_ & _ & I5)]; [auto|discriminate].
    + right. right. exists v. apply L in I5 as [I5|(_ & _ & I5)]; [auto|discriminate].
  - eapply tok_ext; [exact T| |reflexivity]. intros i. unfold awaits. rewrite St. reflexivity.
Qed.

(** Nobody is sent a value twice that they wait for. *)
Lemma not_sent want W C R X p src d l : Net want W C R X -> C src p = WGet src d true :: l -> ~ In (d, src) (sent (W p)) /\ ~ In (d, src) (bgets (W p)).
Proof using.
  intros HN Hm. assert (HN' := HN). destruct HN' as [A1 A2 A3 A4 A5 A6 A7 A8 A9 A10 A11 A12].
  assert (T : In (src, d) (bcont W C R (BC src p))) by (simpl; rewrite Hm; simpl; auto).
  destruct (A1 src p src d true) as (_ & B2 & B3 & B4); [rewrite Hm; simpl; auto|].
  assert (Y : ~ In (d, src) (sent (W p))).
  { intros I. apply A8 in I as [I|[[v I]|[v I]]].
    - apply (t_wants _ _ A11) in T. destruct T as [_ T]. auto.
    - apply A2 in I. tauto.
    - assert (U : In (src, d) (bcont W C R (BR p src))) by (simpl; apply in_map_iff; exists (d, v); auto).
      assert (Z := t_loc _ _ A11 _ _ _ T U). discriminate. }
  split; auto. intros I. assert (U : In (src, d) (bcont W C R (BH p))) by (simpl; apply in_unanswered; auto).
  assert (Z := t_loc _ _ A11 _ _ _ T U). discriminate.
Qed.

(** ** The operations of a worker *)

Definition also (p : rank) (C : rank -> rank -> list wmsg) (w : wst) : rank -> rank -> list wmsg :=
  fun a b => if Nat.eqb a p then C a b ++ ops_out p (log w) b else C a b.
Definition alsor (p : rank) (R : rank -> rank -> list (dataid * val)) (w : wst) : rank -> rank -> list (dataid * val) :=
  fun a b => if Nat.eqb a p then R a b ++ reps_out (log w) b else R a b.

Lemma ops_app p l l' b : ops_out p (l ++ l') b = ops_out p l b ++ ops_out p l' b.
Proof. apply flat_map_app. Qed.
Lemma reps_app l l' b : reps_out (l ++ l') b = reps_out l b ++ reps_out l' b.
Proof. apply flat_map_app. Qed.

(** A request for data is taken. *)
Lemma net_get want W C R X p src d bl l C' : Net want W C R X -> C src p = WGet src d bl :: l -> log (W p) = [] ->
  (forall a b, C' a b = if Nat.eqb a src && Nat.eqb b p then l else C a b) ->
  let w' := process_get (W p) src d bl in Net want (upd W p w') (also p C' w') (alsor p R w') X.
Proof using prod_one.
  intros HN Hm Lg Ec w'. assert (HN' := HN). destruct HN' as [A1 A2 A3 A4 A5 A6 A7 A8 A9 A10 A11 A12].
  destruct (A1 src p src d bl) as (_ & B2 & B3 & B4); [rewrite Hm; simpl; auto|].
  assert (Eno : forall w a b, log w = [] -> also p C' w a b = C' a b /\ alsor p R w a b = R a b).
  { intros w a b E. unfold also, alsor. rewrite E. simpl. rewrite !app_nil_r. destruct (Nat.eqb a p); auto. }
  destruct bl.
  - destruct (not_sent _ _ _ _ _ _ _ _ _ HN Hm) as [Ns Nb]. unfold process_get in w'. destruct (store (W p) d) as [v|] eqn:S.
    + destruct (pair_in (d, src) (sent (W p))) eqn:Pi; [apply pair_in_In in Pi; tauto|].
      assert (Lw : log w' = [EvPut src d v true]) by (unfold w'; simpl; rewrite Lg, orb_true_r; reflexivity).
      apply (net_take want W C R X p w' _ _ src d l (to_one p src (d, v)) HN Hm); auto.
      * intros a b. rewrite <- Ec. unfold also. rewrite Lw. simpl. rewrite app_nil_r. destruct (Nat.eqb a p); auto.
      * intros a b. unfold alsor. rewrite Lw. unfold to_one. simpl. rewrite app_nil_r. rewrite (Nat.eqb_sym src b). destruct (Nat.eqb a p); simpl; auto. rewrite app_nil_r. auto.
      * intros x r I. simpl in I. apply in_app_or in I as [I|[I|[]]]; auto. apply pair_inj in I as [<- <-]. right. exists v. apply in_to_one. auto.
      * intros a b x u I. apply in_to_one in I as (-> & -> & I). apply pair_inj in I as [-> _]. auto.
      * apply (tok_move _ (bcont W C R) _ (BC src p) (BR p src) (src, d)); auto; [discriminate| | |].
        -- intros i. simpl. unfold also. rewrite Lw. simpl. rewrite app_nil_r. assert (Q : Nat.eqb src p = false) by (apply Nat.eqb_neq; auto). rewrite Q.
           rewrite Ec, !Nat.eqb_refl, Hm. simpl andb. cbv iota. simpl asks_in. rewrite bcnt_cons. lia.
        -- intros i. simpl. unfold alsor. rewrite Nat.eqb_refl, Lw. simpl. rewrite Nat.eqb_refl, map_app, bcnt_app. simpl map. rewrite bcnt_cons. simpl. lia.
        -- intros q i N1 N2. destruct q as [a b|q|a b]; simpl.
           ++ unfold also. rewrite Lw. simpl. rewrite app_nil_r. assert (Z : (if Nat.eqb a p then C' a b else C' a b) = C' a b) by (destruct (Nat.eqb a p); auto). rewrite Z, Ec.
              destruct (Nat.eqb a src) eqn:Q1, (Nat.eqb b p) eqn:Q2; simpl; auto. apply Nat.eqb_eq in Q1. apply Nat.eqb_eq in Q2. congruence.
           ++ unfold upd. destruct (Nat.eqb q p) eqn:Q; auto. apply Nat.eqb_eq in Q as ->. f_equal. apply (unanswered_sent (W p) w' d src); auto.
           ++ unfold alsor. rewrite Lw. simpl. rewrite app_nil_r. destruct (Nat.eqb a p) eqn:Q1; auto. apply Nat.eqb_eq in Q1 as ->.
              destruct (Nat.eqb src b) eqn:Q2; [apply Nat.eqb_eq in Q2 as <-; congruence|]. rewrite app_nil_r. auto.
    + apply (net_take want W C R X p w' _ _ src d l nothing HN Hm); auto.
      * intros a b. rewrite <- Ec. apply Eno. exact Lg.
      * intros a b. rewrite app_nil_r. apply Eno. exact Lg.
      * intros x r I. simpl in I. apply add_pair_in in I as [I|I]; auto. apply pair_inj in I as [-> ->]. auto.
      * intros a b x u [].
      * apply (tok_move _ (bcont W C R) _ (BC src p) (BH p) (src, d)); auto; [discriminate| | |].
        -- intros i. simpl. destruct (Eno w' src p Lg) as [Z _]. rewrite Z. rewrite Ec, !Nat.eqb_refl, Hm. simpl andb. cbv iota. simpl asks_in. rewrite bcnt_cons. lia.
        -- intros i. simpl. rewrite upd_p, !unanswered_cnt. simpl. unfold add_pair. assert (Q : pair_in (d, src) (bgets (W p)) = false) by (apply pair_in_not; auto). rewrite Q.
           rewrite map_app, bcnt_app. simpl map. rewrite bcnt_cons. simpl. unfold turn at 2. simpl. destruct (pair_in (snd i, fst i) (sent (W p))) eqn:Pi; [|lia].
           unfold bone. destruct (bask_dec (src, d) i) as [<-|]; [|lia]. simpl in Pi. apply pair_in_In in Pi. tauto.
        -- intros q i N1 N2. destruct q as [a b|q|a b]; simpl.
           ++ destruct (Eno w' a b Lg) as [Z _]. rewrite Z, Ec. destruct (Nat.eqb a src) eqn:Q1, (Nat.eqb b p) eqn:Q2; simpl; auto. apply Nat.eqb_eq in Q1. apply Nat.eqb_eq in Q2. congruence.
           ++ rewrite upd_o by congruence. auto.
           ++ destruct (Eno w' a b Lg) as [_ Z]. rewrite Z. auto.
  - destruct B4 as [B4 B5].
    assert (Y : Net want (upd W p w') (also p C w') (alsor p R w') X /\ (In (d, src) (sent w') \/ In (d, src) (gets w'))).
    { assert (Eno2 : forall w a b, log w = [] -> also p C w a b = C a b /\ alsor p R w a b = R a b).
      { intros w a b E. unfold also, alsor. rewrite E. simpl. rewrite !app_nil_r. destruct (Nat.eqb a p); auto. }
      unfold process_get in w'. destruct (store (W p) d) as [v|] eqn:S.
      - destruct (pair_in (d, src) (sent (W p))) eqn:Pi.
        + split; [|left; apply pair_in_In; auto]. eapply net_ext; [| | |exact HN]; [|intros; apply Eno2; exact Lg|intros; apply Eno2; exact Lg].
          intros r. unfold upd. destruct (Nat.eqb r p) eqn:E; auto. apply Nat.eqb_eq in E as ->. reflexivity.
        + assert (Lw : log w' = [EvPut src d v false]).
          { unfold w'. simpl. rewrite Lg. assert (Q : Nat.eqb src 0 = false) by (apply Nat.eqb_neq; auto). rewrite Q. reflexivity. }
          split; [|left; simpl; apply in_or_app; simpl; auto].
          eapply net_ext; [| | |eapply (net_push want W C R X p w' (fun a b => C a b ++ to_one p src (WPut d v) a b) d v src HN)]; auto.
          * intros a b. unfold also. rewrite Lw. unfold to_one. simpl. rewrite app_nil_r, (Nat.eqb_sym src b). destruct (Nat.eqb a p); simpl; auto. rewrite app_nil_r. auto.
          * intros a b. unfold alsor. rewrite Lw. simpl. rewrite app_nil_r. destruct (Nat.eqb a p); auto.
          * repeat split.
          * intros P. exfalso. apply B2. eapply prod_one; eauto.
      - split; [|right; simpl; apply add_pair_in; auto]. eapply net_ext; [| | |eapply (net_wait want W C R X p w' d src HN)]; auto; intros; apply Eno2; exact Lg. }
    destruct Y as [Y Z]. eapply (net_drop _ _ _ _ _ _ src p (WGet src d false) l Y); auto.
    + unfold also. assert (Q : Nat.eqb src p = false) by (apply Nat.eqb_neq; auto). rewrite Q. exact Hm.
    + rewrite upd_p. simpl. auto.
    + intros a b. unfold also. rewrite Ec. destruct (Nat.eqb a p) eqn:Q1; auto.
      apply Nat.eqb_eq in Q1 as ->. assert (Q : Nat.eqb p src = false) by (apply Nat.eqb_neq; auto). rewrite Q. reflexivity.
Qed.

Lemma net_X want W C R X (X' : rank -> dataid -> Prop) : Net want W C R X ->
  (forall p d x, In (d, x) (gets (W p)) \/ In (d, x) (bgets (W p)) -> X p d -> X' p d) -> Net want W C R X'.
Proof using.
  intros [A1 A2 A3 A4 A5 A6 A7 A8 A9 A10 A11 A12] H. split; auto.
  - intros p d x I. assert (J := I). apply A6 in I as (I1 & I2 & I3 & I4 & [I5|I5]); repeat split; eauto.
  - intros p d x I. assert (J := I). apply A7 in I as (I1 & I2 & I3 & [I5|I5]); repeat split; eauto.
Qed.

Lemma wo_in d l y : In y (without d l) <-> In y l /\ fst y <> d.
Proof. apply without_in; exact (fun _ => True). Qed.
Lemma ro_in d l r : In r (ranks_of d l) <-> In (d, r) l.
Proof. apply ranks_of_in. Qed.

Section View.
Variable want : rank -> list dataid.
Variable W0 : rank -> wst.
Variable C0 : rank -> rank -> list wmsg.
Variable R0 : rank -> rank -> list (dataid * val).
Variable p : rank.

Definition NV (X : rank -> dataid -> Prop) (w : wst) : Prop := Net want (upd W0 p w) (also p C0 w) (alsor p R0 w) X.

(** A step on p, with what it has sent. *)
Lemma nv_step X X' w w' e : (forall C' R', (forall a b, C' a b = also p C0 w a b ++ (if Nat.eqb a p then ops_out p e b else [])) ->
    (forall a b, R' a b = alsor p R0 w a b ++ (if Nat.eqb a p then reps_out e b else [])) ->
    Net want (upd (upd W0 p w) p w') C' R' X') -> log w' = log w ++ e -> NV X w -> NV X' w'.
Proof using.
  intros H L N. unfold NV. eapply net_ext; [| | |apply (H (also p C0 w') (alsor p R0 w'))].
  - intros r. unfold upd. destruct (Nat.eqb r p); auto.
  - reflexivity.
  - reflexivity.
  - intros a b. unfold also. rewrite L, ops_app. destruct (Nat.eqb a p); rewrite ?app_nil_r, ?app_assoc; auto.
  - intros a b. unfold alsor. rewrite L, reps_app. destruct (Nat.eqb a p); rewrite ?app_nil_r, ?app_assoc; auto.
Qed.

Definition asked_for (w : wst) (d : dataid) (r : rank) (bl : bool) : Prop := In (d, r) (if bl then bgets w else gets w).

Lemma nv_process X w r d v bl : NV X w -> store w d = Some v -> asked_for w d r bl -> NV X (process_get w r d bl).
Proof using prod_one.
  intros N S A. unfold process_get. rewrite S. destruct (pair_in (d, r) (sent w)) eqn:Pi; auto. apply pair_in_not in Pi.
  assert (N' := N). destruct N' as [A1 A2 A3 A4 A5 A6 A7 A8 A9 A10 A11 A12]. specialize (A6 p d r). specialize (A7 p d r). rewrite upd_p in A6, A7.
  destruct bl; simpl in A.
  - rewrite orb_true_r. eapply (nv_step X X w _ [EvPut r d v true]); [|reflexivity|exact N]. intros C' R' Ec Er.
    eapply net_ext with (W := upd (upd W0 p w) p _) (C := also p C0 w) (R := R'); [reflexivity| |reflexivity|].
    { intros a b. rewrite Ec. simpl. destruct (Nat.eqb a p); apply app_nil_r. }
    eapply (net_reply want (upd W0 p w) _ (alsor p R0 w) X p _ R' d v r N); try rewrite upd_p; auto; try (repeat split; fail).
    + intros a b. rewrite Er. unfold to_one. simpl. rewrite app_nil_r, (Nat.eqb_sym r b). destruct (Nat.eqb a p); auto.
  - destruct A6 as (B1 & B2 & B3 & B4 & _); auto. assert (Q : Nat.eqb r 0 = false) by (apply Nat.eqb_neq; auto). rewrite Q.
    eapply (nv_step X X w _ [EvPut r d v false]); [|reflexivity|exact N]. intros C' R' Ec Er.
    eapply net_ext with (W := upd (upd W0 p w) p _) (C := C') (R := alsor p R0 w); [reflexivity|reflexivity| |].
    { intros a b. rewrite Er. simpl. destruct (Nat.eqb a p); apply app_nil_r. }
    eapply (net_push want (upd W0 p w) (also p C0 w) _ X p _ C' d v r N); try rewrite upd_p; auto; try (repeat split; fail).
    + intros a b. rewrite Ec. unfold to_one. simpl. rewrite app_nil_r, (Nat.eqb_sym r b). destruct (Nat.eqb a p); auto.
    + intros P. exfalso. apply B2. eapply prod_one; eauto.
Qed.

Lemma process_alike w r d v bl : store w d = Some v -> alike w (process_get w r d bl) /\ incl (sent w) (sent (process_get w r d bl)) /\
  In (d, r) (sent (process_get w r d bl)).
Proof.
  intros S. unfold process_get. rewrite S. destruct (pair_in (d, r) (sent w)) eqn:Pi.
  - split; [repeat split|]. split; [apply incl_refl|]. apply pair_in_In. auto.
  - split; [repeat split|]. simpl. split; [apply incl_appl, incl_refl|apply in_or_app; simpl; auto].
Qed.

Lemma alike_trans w w1 w2 : alike w w1 -> alike w1 w2 -> alike w w2.
Proof. intros (A1 & A2 & A3 & A4 & A5) (B1 & B2 & B3 & B4 & B5). repeat split; congruence. Qed.

Lemma nv_processes X d v bl rs : forall w, NV X w -> store w d = Some v -> (forall r, In r rs -> asked_for w d r bl) ->
  let w' := fold_left (fun w r => process_get w r d bl) rs w in NV X w' /\ alike w w' /\ incl (sent w) (sent w') /\ forall r, In r rs -> In (d, r) (sent w').
Proof using prod_one.
  induction rs as [|r rs IH]; intros w N S A; simpl.
  - split; [exact N|]. split; [repeat split|]. split; [apply incl_refl|]. intros r [].
  - destruct (process_alike w r d v bl S) as (B1 & B2 & B3). destruct (IH (process_get w r d bl)) as (D1 & D2 & D3 & D4).
    + eapply nv_process; eauto. apply A. simpl; auto.
    + destruct B1 as (B1 & _). rewrite B1. auto.
    + intros r' I. specialize (A r' ltac:(simpl; auto)). unfold asked_for in *. destruct B1 as (_ & _ & _ & B4 & B5). rewrite B4, B5. auto.
    + split; auto. split; [eapply alike_trans; eauto|]. split; [eapply incl_tran; eauto|]. intros r' [<-|I]; auto.
Qed.

Definition same (w w' : wst) : Prop := store w' = store w /\ owner w' = owner w /\ reqs w' = reqs w.

Lemma nv_check X w d : NV X w -> store w d <> None ->
  NV (fun r x => X r x /\ (r = p -> x <> d)) (check_request w d) /\ same w (check_request w d) /\ incl (gets (check_request w d)) (gets w).
Proof using prod_one.
  intros N S. destruct (store w d) as [v|] eqn:E; [clear S|congruence]. unfold check_request.
  destruct (nv_processes X d v false (ranks_of d (gets w)) w N E) as (N1 & L1 & I1 & J1); [intros r I; apply ro_in; auto|].
  set (w1 := fold_left _ _ w) in *. set (w2 := set_gets w1 (without d (gets w1)) (bgets w1)).
  assert (L1' := L1). destruct L1' as (La & Lb & Lc & Ld & Le).
  assert (N2 : NV X w2).
  { eapply (nv_step X X w1 w2 []); [|simpl; rewrite app_nil_r; reflexivity|exact N1]. intros C' R' Ec Er.
    eapply net_ext; [reflexivity| | |apply (net_clear want (upd W0 p w1) _ _ X p w2 N1)]; try rewrite upd_p; auto.
    - intros a b. rewrite Ec. destruct (Nat.eqb a p); apply app_nil_r.
    - intros a b. rewrite Er. destruct (Nat.eqb a p); apply app_nil_r.
    - intros y I. simpl in I. apply wo_in in I. tauto.
    - intros [x r] I. destruct (did_dec x d) as [->|Nx]; [|left; apply wo_in; auto]. right. apply J1. apply ro_in. rewrite <- Ld. auto.
    }
  destruct (nv_processes X d v true (ranks_of d (bgets w2)) w2 N2) as (N3 & L3 & I3 & J3); [simpl; rewrite La; auto|intros r I; apply ro_in; auto|].
  set (w3 := fold_left _ _ w2) in *. set (w4 := set_gets w3 (gets w3) (without d (bgets w3))). assert (L3' := L3). destruct L3' as (Ma & Mb & Mc & Md & Me).
  assert (N4 : NV X w4).
  { eapply (nv_step X X w3 w4 []); [|simpl; rewrite app_nil_r; reflexivity|exact N3]. intros C' R' Ec Er.
    eapply net_ext; [reflexivity| | |apply (net_clear want (upd W0 p w3) _ _ X p w4 N3)]; try rewrite upd_p; auto.
    - intros a b. rewrite Ec. destruct (Nat.eqb a p); apply app_nil_r.
    - intros a b. rewrite Er. destruct (Nat.eqb a p); apply app_nil_r.
    - intros i. rewrite !unanswered_cnt. simpl. destruct (pair_in (snd i, fst i) (sent w3)) eqn:Pi; auto.
      destruct i as [r x]. simpl in Pi. rewrite Me in *. clear - J3 Pi. apply pair_in_not in Pi.
      assert (Y : forall l, (forall z, In z l -> In z (bgets w2)) -> bcnt (map turn (without d l)) (r, x) = bcnt (map turn l) (r, x)).
      { induction l as [|[x' r'] l IH]; intros F; auto. simpl. destruct (did_eqb x' d) eqn:Q; simpl.
        - rewrite IH by (intros; apply F; simpl; auto). destruct (bask_dec (turn (x', r')) (r, x)) as [Z|Z]; auto. unfold turn in Z. simpl in Z. apply pair_inj in Z as [-> ->].
          apply did_eqb_eq in Q as ->. exfalso. apply Pi. apply J3. apply ro_in. apply F. simpl; auto.
        - rewrite IH by (intros; apply F; simpl; auto). reflexivity. }
      apply Y. auto.
    - intros y I. simpl in I. apply wo_in in I. tauto. }
  split; [|split].
  - eapply net_X; [exact N4|]. intros r x y I Hx. split; auto. intros -> ->. rewrite upd_p in I. simpl in I. destruct I as [I|I].
    + rewrite Md in I. apply wo_in in I. simpl in I. tauto.
    + apply wo_in in I. simpl in I. tauto.
  - change (store w2) with (store w1) in Ma. change (owner w2) with (owner w1) in Mb. change (reqs w2) with (reqs w1) in Mc. repeat split; simpl; congruence.
  - intros y I. simpl in I. rewrite Md in I. simpl in I. apply wo_in in I. rewrite <- Ld. tauto.
Qed.

Lemma nv_checks ds : forall X w, NV X w -> (forall d, In d ds -> store w d <> None) ->
  NV (fun r x => X r x /\ (r = p -> ~ In x ds)) (check_gets w ds) /\ same w (check_gets w ds).
Proof using prod_one.
  induction ds as [|d ds IH]; intros X w N S; simpl.
  - split; [|repeat split]. eapply net_X; [exact N|]. intros; split; auto.
  - destruct (nv_check X w d N) as (N1 & E1 & _); [apply S; simpl; auto|]. destruct (IH _ _ N1) as (N2 & E2).
    + intros x I. destruct E1 as (E1 & _). rewrite E1. apply S. simpl; auto.
    + split; [|destruct E1 as (? & ? & ?), E2 as (? & ? & ?); repeat split; congruence].
      eapply net_X; [exact N2|]. intros r x y _ [[Hx H1] H2]. split; auto. intros -> [->|I]; [apply H1; auto|apply H2; auto].
Qed.

Lemma nv_put X w d v : NV X w -> ~ In d (reqs w) -> ~ In d (want p) -> NV (fun r x => X r x \/ (r = p /\ x = d)) (put w d v).
Proof using.
  intros N Nr Nw. eapply (nv_step X _ w (put w d v) [EvStore d v]); [|reflexivity|exact N]. intros C' R' Ec Er.
  eapply net_ext; [reflexivity| | |apply (net_store want (upd W0 p w) _ _ X _ p (put w d v) d v N)]; try rewrite upd_p; auto.
  - intros a b. rewrite Ec. simpl. destruct (Nat.eqb a p); apply app_nil_r.
  - intros a b. rewrite Er. simpl. destruct (Nat.eqb a p); apply app_nil_r.
Qed.

Lemma nv_puts l : forall X w, NV X w -> (forall d, In d (map fst l) -> ~ In d (reqs w) /\ ~ In d (want p)) ->
  NV (fun r x => X r x \/ (r = p /\ In x (map fst l))) (fold_left (fun w dv => put w (fst dv) (snd dv)) l w).
Proof using.
  induction l as [|[d v] l IH]; intros X w N H; simpl.
  - eapply net_X; [exact N|]. auto.
  - destruct (H d ltac:(simpl; auto)) as [H1 H2]. apply (nv_put X w d v) in N; auto. apply IH in N; [|intros x I; apply H; simpl; auto].
    eapply net_X; [exact N|]. intros r x y _ [[A|[A1 A2]]|[A1 A2]]; auto.
Qed.

End View.

End Net.
