(** The calls of programs keep the invariant of NestLive. *)
From Verif Require Import Lib ShmModel ShmRaceProofs ValModel WorkerModel WorkerSpec WorkerProofs WorkerWant WorkerAnswer ClusterModel ClusterNet
  NestModel NestSpec NestProofs NestOnce NestThms NestNet NestLoop NestLive.

Section Step.
Variable workers : list rank.
Variable body : val -> val -> val -> act.
Variable main : act.

Notation W n := (fun r => p_w (n_proc n r)).
Notation Live := (Live workers).

Lemma line_eq s s' fr fr' : p_cur s = Some fr -> p_cur s' = Some fr' -> f_q fr' = f_q fr -> f_rest fr' = f_rest fr -> pend (p_w s') = pend (p_w s) ->
  line s' = line s /\ resting s' = resting s.
Proof. intros A B D E F. unfold line, resting. rewrite A, B, D, E, F. auto. Qed.

Lemma tfine_near H p w w' q : (forall d, fst d <> p -> store w' d = store w d) -> (forall d, fst d <> p -> owner w' d = owner w d) -> reqs w' = reqs w ->
  (forall d, store w d <> None -> store w' d <> None) -> tfine H p w q -> tfine H p w' q.
Proof.
  intros Es Eo Er Sg (A & ((f & F1 & F2) & K) & Cv). split; auto. split; [split|].
  - exists f. split; auto.
  - intros d I. destruct (K d I) as [Nd Z]. split; auto. rewrite Es, Eo; auto.
  - intros d I. destruct (K d I) as [Nd _]. rewrite Es, Eo, Er by auto. apply Cv; auto.
Qed.

(** A program goes on: it may store and send, and submit tasks. *)
Lemma live_frame n p s' fr fr' C' R' h dead tk rn : Live n -> dead = n_dead n -> p_cur (n_proc n p) = Some fr -> p_cur s' = Some fr' -> f_q fr' = f_q fr -> f_rest fr' = f_rest fr ->
  pend (p_w s') = pend (p_w (n_proc n p)) -> reqs (p_w s') = reqs (p_w (n_proc n p)) ->
  (forall d, fst d <> p -> store (p_w s') d = store (p_w (n_proc n p)) d) -> (forall d, fst d <> p -> owner (p_w s') d = owner (p_w (n_proc n p)) d) ->
  wider (p_w (n_proc n p)) (p_w s') ->
  (forall a b, exists x, C' a b = n_chan n a b ++ x /\ (execq x = [] \/ exists q x1, x = x1 ++ [WExec q] /\ execq x1 = [] /\
     cfine (n_hist n ++ h) a b (p_w (upd (n_proc n) p s' b)) (n_chan n a b ++ x1) q /\
     forall q1, In q1 (line (n_proc n b) ++ execq (n_chan n a b)) -> apart q1 q)) ->
  (forall t e, In (t, e) h -> fine_ev e) ->
  (forall t o q, In (t, HSubmit o q) h -> (In o workers /\ (exists c, c <> o /\ forall d, In d (qrefs q ++ outs q) -> fst d = c) /\
     forall d, In d (qrefs q) -> origin (n_hist n ++ h) q d) /\ exists a, In (WExec q) (C' a o)) ->
  ffine (n_hist n ++ h) p (p_w s') fr' ->
  (forall d v, store (p_w s') d = Some v -> there (n_hist n ++ h) (fun r => p_w (upd (n_proc n) p s' r)) d) ->
  (forall a b d v, In (WPut d v) (C' a b) -> there (n_hist n ++ h) (fun r => p_w (upd (n_proc n) p s' r)) d) ->
  (forall a b d v, In (d, v) (R' a b) -> there (n_hist n ++ h) (fun r => p_w (upd (n_proc n) p s' r)) d) ->
  (forall r d v, r <> p -> store (p_w (n_proc n r)) d = Some v -> there (n_hist n ++ h) (fun r => p_w (upd (n_proc n) p s' r)) d) ->
  Net (produced (n_hist n ++ h)) (fun r => wantof (upd (n_proc n) p s' r)) (fun r => p_w (upd (n_proc n) p s' r)) C' R' nobody ->
  Live {| n_proc := upd (n_proc n) p s'; n_dead := dead; n_chan := C'; n_rep := R'; n_tasks := tk; n_runs := rn; n_hist := n_hist n ++ h |}.
Proof.
  intros L Ed Ec Ec' Eq Er Ep Eq' Es Eo Wd Hc Hh Hs Hf T1 T2 T3 T4 N. subst dead.
  destruct (line_eq _ _ _ _ Ec Ec' Eq Er Ep) as [El Et].
  assert (LN : forall b, line (upd (n_proc n) p s' b) = line (n_proc n b)) by (intros b; unfold upd; destruct (Nat.eqb b p) eqn:E; auto; apply Nat.eqb_eq in E as ->; auto).
  assert (Wb : forall b, wider (p_w (n_proc n b)) (p_w (upd (n_proc n) p s' b))).
  { intros b. unfold upd. destruct (Nat.eqb b p) eqn:E; [apply Nat.eqb_eq in E as ->; auto|split; auto]. }
  split; simpl.
  - apply (v_dead _ _ L).
  - intros t e I. apply in_app_or in I as [I|I]; [eapply (v_hist _ _ L); eauto|eauto].
  - intros t o q I. apply in_app_or in I as [I|I]; [|apply Hs in I; tauto].
    destruct (v_sub _ _ L _ _ _ I) as (A & B & D). split; auto. split; auto. intros d J. apply origin_more. auto.
  - intros b q. rewrite LN. intros I. apply (v_line _ _ L) in I. apply tfine_more.
    destruct (Nat.eq_dec b p) as [->|Nb]; [rewrite upd_p|rewrite upd_o by auto; auto]. destruct Wd as [Wd _]. eapply tfine_near; eauto.
  - intros a b l1 q l2 E. destruct (Hc a b) as (x & Ex & Y). rewrite Ex in E. apply app_split in E as [(m & E1 & E2)|(m & E1 & E2)].
    + apply (v_chan _ _ L) in E1. eapply cfine_wider; [apply Wb|]. apply cfine_more. exact E1.
    + destruct Y as [Y|(q0 & x1 & -> & Nx & Y & _)]; [exfalso; eapply no_exec; eauto|].
      apply app_split in E2 as [(m' & E2 & _)|(m' & E2 & E3)]; [exfalso; eapply (no_exec x1); eauto|].
      destruct m' as [|y m']; simpl in E3; [|assert (Z : [] = m' ++ WExec q :: l2) by congruence; destruct m'; discriminate].
      assert (q0 = q) by congruence. subst q0. rewrite app_nil_r in E2. subst. auto.
  - intros a b. rewrite LN. destruct (Hc a b) as (x & -> & Y). rewrite execq_app. assert (O := v_order _ _ L a b).
    destruct Y as [->|(q0 & x1 & -> & Nx & _ & Y)]; [rewrite app_nil_r; auto|]. rewrite execq_app, Nx. simpl. rewrite app_assoc. apply ordered_app.
    split; auto. split; [repeat constructor|]. intros u v I [<-|[]]. auto.
  - intros b q. destruct (Nat.eq_dec b p) as [->|Nb]; [rewrite upd_p, Et|rewrite upd_o by auto; apply (v_rest _ _ L)].
    intros I. assert (J := v_line _ _ L p q). destruct (v_rest _ _ L p q I) as (d & D1 & D2). exists d. split; auto. rewrite Es; auto.
    destruct J as (_ & (_ & K) & _); [|apply K; auto]. clear -I Ec. unfold line, resting in *. rewrite Ec in *. apply in_app_or in I as [I|I]; apply in_or_app; auto.
    right. destruct (f_rest fr); [destruct I|destruct I|]. apply in_or_app. auto.
  - intros b g k t. destruct (Nat.eq_dec b p) as [->|Nb]; [rewrite upd_p, Ec', Ep|rewrite upd_o by auto; apply (v_pend _ _ L)].
    intros E1 E2. apply Some_inj in E1 as <-. rewrite Er in E2. eapply (v_pend _ _ L); eauto.
  - intros b. destruct (Nat.eq_dec b p) as [->|Nb]; [rewrite upd_p, Ec', Er|rewrite upd_o by auto; apply (v_main _ _ L)].
    assert (X := v_main _ _ L p). rewrite Ec in X. auto.
  - intros b g. destruct (Nat.eq_dec b p) as [->|Nb]; [rewrite upd_p, Ec'|rewrite upd_o by auto].
    + intros E. apply Some_inj in E as <-. auto.
    + intros E. apply ffine_more. apply (v_frame _ _ L); auto.
  - intros t o q I. rewrite LN. apply in_app_or in I as [I|I]; [|left; apply Hs in I; tauto].
    destruct (v_task _ _ L _ _ _ I) as [(a & J)|[J|[J1 J2]]]; auto.
    + left. exists a. destruct (Hc a o) as (x & -> & _). apply in_or_app; auto.
    + right. right. split; [apply ended_more; auto|]. intros d D. apply (Wb o). auto.
  - intros b d v. destruct (Nat.eq_dec b p) as [->|Nb]; [rewrite upd_p|rewrite upd_o by auto]; eauto.
  - exact T2.
  - exact T3.
  - exact N.
Qed.

Lemma quiet_app l x : execq x = [] -> forall H a b w L1 (q1s : list request), exists y, l ++ x = l ++ y /\ (execq y = [] \/ exists q x1, y = x1 ++ [WExec q] /\ execq x1 = [] /\
     cfine H a b w (L1 ++ x1) q /\ forall q1, In q1 q1s -> apart q1 q).
Proof. intros E H a b w L1 q1s. exists x. auto. Qed.

(** ** The calls *)

Lemma w_upd n p s' r : p_w (upd (n_proc n) p s' r) = upd (W n) p (p_w s') r.
Proof. unfold upd. destruct (Nat.eqb r p); reflexivity. Qed.

Lemma net_quietlog pr want Wf C R X p : Net pr want Wf C R X -> Net pr want (upd Wf p (no_log (Wf p))) C R X.
Proof. intros N. apply net_clear; auto. Qed.

Lemma upd_upd {A} (f : rank -> A) p x y r : upd (upd f p x) p y r = upd f p y r.
Proof. unfold upd. destruct (Nat.eqb r p); auto. Qed.

Lemma there_more H h Wf Wf' d : (forall t o q, ~ In (t, HSubmit o q) h) -> (forall r x, store (Wf r) x <> None -> store (Wf' r) x <> None) ->
  there H Wf d -> there (H ++ h) Wf' d.
Proof. intros Q G T o P. apply prod_quiet in P; auto. Qed.

Lemma stores_grow n p s' : (forall d, store (p_w (n_proc n p)) d <> None -> store (p_w s') d <> None) ->
  forall r d, store (p_w (n_proc n r)) d <> None -> store (p_w (upd (n_proc n) p s' r)) d <> None.
Proof. intros G r d. unfold upd. destruct (Nat.eqb r p) eqn:E; auto. apply Nat.eqb_eq in E as ->. auto. Qed.

Lemma want_none fr n p : p_cur (n_proc n p) = Some fr -> f_get fr = None -> wantof (n_proc n p) = [].
Proof. intros A B. unfold wantof. rewrite A, B. auto. Qed.

Lemma want_upd n p s' : wantof s' = wantof (n_proc n p) -> forall r, wantof (upd (n_proc n) p s' r) = wantof (n_proc n r).
Proof. intros E r. unfold upd. destruct (Nat.eqb r p) eqn:Q; auto. apply Nat.eqb_eq in Q as ->. auto. Qed.

Lemma new_not_made n p : Fresh n -> forall d j, fst d = p -> p_next (n_proc n p) <= snd d < p_next (n_proc n p) + j -> ~ In d (made (n_hist n)).
Proof. intros F d j E B I. apply (fr_next n F) in I. rewrite E in I. lia. Qed.

Lemma produced_made H d o : produced H d o -> In d (made H).
Proof. intros (t & q & I & J). eapply in_made; eauto. Qed.

Lemma live_put n p fr v k rn tk : Live n -> Fresh n -> p_cur (n_proc n p) = Some fr -> f_get fr = None -> f_act fr = APut v k ->
  let w := no_log (p_w (n_proc n p)) in let d := (p, p_next (n_proc n p)) in
  Live (put_proc n p {| p_w := set_store w (dput (store w) d v); p_next := S (p_next (n_proc n p)); p_cur := Some (set_act fr (k d) None) |}
    (n_chan n) (n_rep n) [] tk rn [(f_run fr, HPut d v)]).
Proof.
  intros L F Ec Eg Ea w d. set (s' := {| p_w := _ |}). unfold put_proc. set (h := [(f_run fr, HPut d v)]).
  assert (Nd : ~ In d (made (n_hist n))) by (apply (new_not_made n p F d 1); simpl; auto; lia).
  assert (Q : forall t o q, ~ In (t, HSubmit o q) h) by (intros t o q [I|[]]; discriminate I).
  assert (Sg : forall x, store (p_w (n_proc n p)) x <> None -> store (p_w s') x <> None).
  { intros x S. simpl. unfold dput. destruct (did_eqb d x); auto. discriminate. }
  assert (SG := stores_grow n p s' Sg).
  assert (T0 : there (n_hist n ++ h) (fun r => p_w (upd (n_proc n) p s' r)) d).
  { intros o P. apply prod_quiet in P; auto. exfalso. apply Nd. eapply produced_made; eauto. }
  assert (Cc : forall a b, (if Nat.eqb a p then n_chan n a b ++ sends_to b [] ++ ops_out p (log (p_w s')) b else n_chan n a b) = n_chan n a b).
  { intros a b. simpl. rewrite app_nil_r. destruct (Nat.eqb a p); auto. }
  assert (Rc : forall a b, (if Nat.eqb a p then n_rep n a b ++ reps_out (log (p_w s')) b else n_rep n a b) = n_rep n a b).
  { intros a b. simpl. rewrite app_nil_r. destruct (Nat.eqb a p); auto. }
  destruct (v_frame _ _ L _ _ Ec) as (pu & ou & F1 & F2 & F3 & _). rewrite Ea in F1. simpl in F1.
  eapply (live_frame n p s' fr (set_act fr (k d) None)); auto.
  - intros x Nx. simpl. apply dput_other. intros <-. apply Nx. reflexivity.
  - split; auto.
  - intros a b. rewrite Cc. exists []. rewrite app_nil_r. auto.
  - intros t e [I|[]]. apply pair_inj in I as [<- <-]. exact Logic.I.
  - intros t o q I. exfalso. eapply Q; eauto.
  - exists (d :: pu), ou. simpl. split; auto. split; [|split; auto].
    + intros x [<-|I].
      * split; auto. rewrite dput_same. split; [discriminate|]. exists (f_run fr), v. apply in_or_app. simpl. auto.
      * destruct (F2 x I) as (A & B & D). split; auto. split; [apply Sg; auto|apply put_more; auto].
    + intros x I. destruct (F3 x I) as (A & B & o & D). split; auto. split; [|exists o; apply produced_more; auto]. destruct B as [B|B]; auto. left. apply Sg; auto.
  - intros x u S. simpl in S. unfold dput in S. destruct (did_eqb d x) eqn:E; [apply did_eqb_eq in E as <-; auto|]. apply (there_more _ _ (W n)); auto. exact (v_have _ _ L p x u S).
  - intros a b x u. rewrite Cc. intros I. apply (there_more _ _ (W n)); auto. exact (v_carry _ _ L _ _ _ _ I).
  - intros a b x u. rewrite Rc. intros I. apply (there_more _ _ (W n)); auto. exact (v_back _ _ L _ _ _ _ I).
  - intros r x u _ S. apply (there_more _ _ (W n)); auto. exact (v_have _ _ L r x u S).
  - assert (N := v_net _ _ L). apply (net_quietlog _ _ _ _ _ _ p) in N. cbv beta in N. fold w in N.
    eapply (net_store _ _ _ _ _ _ nobody p (p_w s') d v) in N; try rewrite upd_p; auto.
    + apply net_quiet; auto. eapply net_wants; [apply want_upd; unfold wantof; rewrite Ec, Eg; reflexivity|].
      eapply net_ext; [| | |exact N]; auto. intros r. rewrite w_upd, upd_upd. reflexivity.
    + simpl. intros I. apply (a_reqs _ _ _ _ _ _ (v_net _ _ L)) in I as [I _]. apply I. reflexivity.
    + rewrite (want_none fr) by auto. intros [].
    + intros _ P. exfalso. eapply (produced_fst workers n L); eauto.
Qed.

Lemma net_wants_iff pr want want' Wf C R X : (forall r d, In d (want' r) <-> In d (want r)) -> Net pr want Wf C R X -> Net pr want' Wf C R X.
Proof.
  intros E [A1 A2 A3 A4 A5 A6 A7 A8 A9 A10 A11 A12]. split; auto.
  - intros p d I. apply E in I. auto.
  - eapply tok_ext; [exact A11| |reflexivity]. intros i. unfold awaits. rewrite E. reflexivity.
Qed.

Lemma net_asks (pr : dataid -> rank -> Prop) Wf R X p ds : (forall d o, pr d o -> fst d <> o) -> forall want C l, Net pr want Wf C R X -> ask_owners (owner (Wf p)) ds = (l, true) -> NoDup ds ->
  (forall d, In d ds -> store (Wf p) d = None /\ fst d = p /\ ~ In d (want p)) ->
  forall want' C', (forall d, In d (want' p) <-> In d ds \/ In d (want p)) -> (forall r, r <> p -> want' r = want r) ->
  (forall a b, C' a b = C a b ++ (if Nat.eqb a p then sends_to b (map (fun y => (fst y, WGet p (snd y) true)) l) else [])) -> Net pr want' Wf C' R X.
Proof.
  intros Pf. induction ds as [|d ds IH]; intros want C l N E Nd H want' C' W1 W2 Ec; simpl in E.
  - apply pair_inj in E as [<- _]. eapply net_ext with (W := Wf) (C := C) (R := R); auto.
    + intros a b. rewrite Ec. simpl. destruct (Nat.eqb a p); apply app_nil_r.
    + eapply net_wants_iff; [|exact N]. intros r d. destruct (Nat.eq_dec r p) as [->|Nr]; [rewrite W1; simpl; tauto|rewrite W2; auto; tauto].
  - destruct (owner (Wf p) d) as [o|] eqn:O; [|discriminate]. destruct (ask_owners (owner (Wf p)) ds) as [l' ok] eqn:E'.
    apply pair_inj in E as [<- ->]. inversion Nd as [|? ? N1 N2]; subst. destruct (H d ltac:(simpl; auto)) as (H1 & H2 & H3).
    assert (Po := a_owner _ _ _ _ _ _ N _ _ _ O). assert (No := Pf _ _ Po).
    assert (M : Net pr (upd want p (d :: want p)) Wf (fun a b => C a b ++ to_one p o (WGet p d true) a b) R X).
    { eapply (net_want pr want Wf C R X p _ _ d o N); auto; [apply upd_p|intros r Nr; apply upd_o; auto|congruence]. }
    eapply (IH _ _ l' M eq_refl N2).
    + intros x I. destruct (H x ltac:(simpl; auto)) as (X1 & X2 & X3). split; auto. split; auto. rewrite upd_p. intros [<-|J]; auto.
    + intros x. rewrite W1, upd_p. simpl. tauto.
    + intros r Nr. rewrite upd_o by auto. auto.
    + intros a b. rewrite Ec, <- app_assoc. f_equal. unfold to_one. rewrite (Nat.eqb_sym b o). simpl. destruct (Nat.eqb a p); simpl; auto.
Qed.

Lemma read_all st ds : (forall d, In d ds -> st d <> None) -> exists vs, read_vals st ds = Some vs.
Proof.
  induction ds as [|d ds IH]; intros H; simpl; [eauto|]. destruct (st d) eqn:E; [|exfalso; apply (H d); simpl; auto].
  destruct IH as [vs ->]; eauto. intros x I. apply H. simpl; auto.
Qed.

Lemma in_missing w ds d : In d (missing w ds) <-> In d ds /\ store w d = None.
Proof. unfold missing, dmem. rewrite filter_In. destruct (store w d); simpl; split; intros [A B]; split; auto; discriminate. Qed.

Lemma missing_all w l : (forall d, In d l -> store w d = None) -> missing w l = l.
Proof.
  induction l as [|d l IH]; intros Z; auto. unfold missing, dmem. simpl. rewrite Z by (simpl; auto). simpl. f_equal. apply IH. intros; apply Z; simpl; auto.
Qed.

Lemma ask_known o ds : (forall d, In d ds -> o d <> None) -> exists l, ask_owners o ds = (l, true).
Proof.
  induction ds as [|d ds IH]; intros H; simpl; [eauto|]. destruct (o d) eqn:E; [|exfalso; apply (H d); simpl; auto].
  destruct IH as [l ->]; [intros x I; apply H; simpl; auto|eauto].
Qed.

Lemma asks_no_exec p l b : execq (sends_to b (map (fun y : rank * dataid => (fst y, WGet p (snd y) true)) l)) = [].
Proof. induction l as [|y l IH]; auto. simpl. destruct (Nat.eqb (fst y) b); simpl; auto. Qed.

(** The part that the branches of get share: only the program has changed. *)
Lemma live_get n p fr a g out tk rn h : Live n -> p_cur (n_proc n p) = Some fr ->
  let w := no_log (p_w (n_proc n p)) in
  let s' := {| p_w := w; p_next := p_next (n_proc n p); p_cur := Some (set_act fr a g) |} in
  (forall b, execq (sends_to b out) = []) -> (forall b d v, ~ In (WPut d v) (sends_to b out)) ->
  (forall t e, In (t, e) h -> fine_ev e /\ match e with HSubmit _ _ => False | _ => True end) ->
  ffine (n_hist n) p w (set_act fr a g) ->
  Net (produced (n_hist n)) (fun r => wantof (upd (n_proc n) p s' r)) (upd (W n) p w) (fun a b => n_chan n a b ++ (if Nat.eqb a p then sends_to b out else [])) (n_rep n) nobody ->
  Live (put_proc n p s' (n_chan n) (n_rep n) out tk rn h).
Proof.
  intros L Ec w s' He Hp Hh Hf N. unfold put_proc.
  assert (Q : forall t o q, ~ In (t, HSubmit o q) h) by (intros t o q I; apply Hh in I as [_ I]; exact I).
  assert (SG := stores_grow n p s' ltac:(simpl; auto)).
  assert (Cc : forall a b, (if Nat.eqb a p then n_chan n a b ++ sends_to b out ++ ops_out p (log (p_w s')) b else n_chan n a b) = n_chan n a b ++ (if Nat.eqb a p then sends_to b out else [])).
  { intros x b. simpl. rewrite app_nil_r. destruct (Nat.eqb x p); auto. rewrite app_nil_r. auto. }
  assert (Rc : forall a b, (if Nat.eqb a p then n_rep n a b ++ reps_out (log (p_w s')) b else n_rep n a b) = n_rep n a b).
  { intros x b. simpl. rewrite app_nil_r. destruct (Nat.eqb x p); auto. }
  eapply (live_frame n p s' fr (set_act fr a g)); auto.
  - split; auto.
  - intros x b. rewrite Cc. eexists. split; [reflexivity|]. left. destruct (Nat.eqb x p); auto.
  - intros t e I. apply Hh in I. tauto.
  - intros t o q I. exfalso. eapply Q; eauto.
  - apply ffine_more. exact Hf.
  - intros x u S. apply (there_more _ _ (W n)); auto. exact (v_have _ _ L p x u S).
  - intros x b d u. rewrite Cc. intros I. apply in_app_or in I as [I|I]; [apply (there_more _ _ (W n)); auto; exact (v_carry _ _ L _ _ _ _ I)|].
    destruct (Nat.eqb x p); [exfalso; eapply Hp; eauto|destruct I].
  - intros x b d u. rewrite Rc. intros I. apply (there_more _ _ (W n)); auto. exact (v_back _ _ L _ _ _ _ I).
  - intros r x u _ S. apply (there_more _ _ (W n)); auto. exact (v_have _ _ L r x u S).
  - apply net_quiet; auto. eapply net_ext; [| | |exact N]; auto. intros r. apply w_upd.
Qed.

(** get: everything is there, or the owners are asked. *)
Lemma live_get_call n p fr ds k dest task s' out sub h rn tk : Live n -> Fresh n -> p_cur (n_proc n p) = Some fr -> f_get fr = None -> f_act fr = AGet ds k ->
  call_api workers p (n_proc n p) fr dest task = Some (s', out, sub, h) ->
  Live (put_proc n p s' (n_chan n) (n_rep n) out tk rn (map (fun e => (f_run fr, e)) h)).
Proof.
  intros L F Ec Eg Ea E. unfold call_api in E. rewrite Ea in E. set (w := no_log (p_w (n_proc n p))) in *.
  destruct (v_frame _ _ L _ _ Ec) as (pu & ou & F1 & F2 & F3 & _). rewrite Ea in F1. simpl in F1. destruct F1 as (F1a & F1b & F1c).
  assert (N := v_net _ _ L). apply (net_quietlog _ _ _ _ _ _ p) in N. cbv beta in N. fold w in N.
  assert (Wn := want_none _ _ _ Ec Eg).
  fold (missing w ds) in E. destruct (missing w ds) as [|x r] eqn:Ms.
  - assert (A : forall d, In d ds -> store w d <> None).
    { intros d I Z. assert (J : In d (missing w ds)) by (apply in_missing; auto). rewrite Ms in J. destruct J. }
    destruct (read_all _ _ A) as [vs Ev]. rewrite Ev in E.
    apply Some_inj in E. apply pair_inj in E as [E <-]. apply pair_inj in E as [E <-]. apply pair_inj in E as [<- <-].
    apply live_get; auto.
    + intros t e [I|[]]. apply pair_inj in I as [<- <-]. split; exact Logic.I.
    + exists pu, ou. split; [apply F1c; discriminate|]. split; [exact F2|]. split; [exact F3|exact Logic.I].
    + eapply net_wants; [apply want_upd; unfold wantof at 1; simpl; auto|]. eapply net_ext; [| | |exact N]; auto.
      intros a b. destruct (Nat.eqb a p); apply app_nil_r.
  - assert (Inm : forall d, In d (x :: r) -> In d ds /\ store w d = None) by (intros d I; rewrite <- Ms in I; apply in_missing in I; auto).
    assert (Kn : forall d, In d (x :: r) -> fst d = p /\ owner w d <> None).
    { intros d I. destruct (Inm d I) as [J Z]. apply F1a in J. apply in_app_or in J as [J|J].
      - apply F2 in J as (_ & J & _). exfalso. apply J. exact Z.
      - apply F3 in J as (J1 & [J2|J2] & _); [exfalso; apply J2; exact Z|auto]. }
    destruct (ask_known (owner w) (x :: r)) as [l El]; [apply Kn|]. rewrite El in E.
    apply Some_inj in E. apply pair_inj in E as [E <-]. apply pair_inj in E as [E <-]. apply pair_inj in E as [<- <-].
    assert (Nx : NoDup (x :: r)) by (rewrite <- Ms; apply NoDup_filter; auto).
    apply live_get; auto.
    + intros b. apply asks_no_exec.
    + intros b d v I. apply in_sends in I. apply in_map_iff in I as (y & I & _). discriminate I.
    + intros t e [].
    + exists pu, ou. simpl. split; [simpl; auto|]. split; [exact F2|]. split; [exact F3|]. split; [exists k; auto|]. split; [exact Nx|]. split; [|split].
      * intros d I. destruct (store (p_w (n_proc n p)) d) eqn:S; [left; discriminate|]. right. change (In d (x :: r)). rewrite <- Ms. apply in_missing. auto.
      * change (Datatypes.S (length r) = length (missing w (x :: r))). rewrite missing_all; [reflexivity|]. intros d I. apply Inm. auto.
      * lia.
    + eapply (net_asks _ _ _ _ p (x :: r) (produced_fst workers n L) _ _ l N).
      * rewrite upd_p. exact El.
      * exact Nx.
      * intros d I. rewrite upd_p. split; [apply Inm; auto|]. split; [apply Kn; auto|]. rewrite Wn. intros [].
      * intros d. rewrite upd_p, Wn. unfold wantof. simpl. tauto.
      * intros q Nq. rewrite upd_o; auto.
      * auto.
Qed.

(** ** Answers *)

Lemma missing_less w w' d v ids : store w' = dput (store w) d v -> NoDup ids -> In d ids -> store w d = None -> length (missing w ids) = S (length (missing w' ids)).
Proof.
  intros Es N I Z. induction N as [|x ids Nx N IH]; [destruct I|].
  assert (K : forall l, ~ In d l -> missing w' l = missing w l).
  { clear - Es. intros l. unfold missing. rewrite Es. induction l as [|x l IH]; intros H; auto. simpl in *. rewrite IH by tauto.
    unfold dmem. rewrite dput_other by (intros ->; tauto). reflexivity. }
  destruct (did_dec x d) as [->|Ne].
  - specialize (K ids Nx). unfold missing in *. simpl.
    assert (E1 : dmem (store w) d = false) by (unfold dmem; rewrite Z; auto). assert (E2 : dmem (store w') d = true) by (unfold dmem; rewrite Es, dput_same; auto).
    rewrite E1, E2. simpl. rewrite K. reflexivity.
  - destruct I as [I|I]; [congruence|]. specialize (IH I). unfold missing in *. simpl.
    assert (E1 : dmem (store w') x = dmem (store w) x) by (unfold dmem; rewrite Es, dput_other; auto). rewrite E1.
    destruct (dmem (store w) x); simpl; rewrite IH; auto.
Qed.

Lemma live_receive n src p d v l fr g ds k s' h tk rn : Live n -> Fresh n -> n_rep n src p = (d, v) :: l -> p_cur (n_proc n p) = Some fr -> f_get fr = Some g ->
  f_act fr = AGet ds k -> receive (n_proc n p) fr g k d v = (s', h) ->
  Live (put_proc n p s' (n_chan n) (fun a b => if Nat.eqb a src && Nat.eqb b p then tl (n_rep n a b) else n_rep n a b) [] tk rn (map (fun e => (f_run fr, e)) h)).
Proof.
  intros L F Hr Ec Eg Ea E. unfold receive in E. set (w := set_store (no_log (p_w (n_proc n p))) (dput (store (p_w (n_proc n p))) d v)) in *.
  destruct (v_frame _ _ L _ _ Ec) as (pu & ou & F1 & F2 & F3 & F4). rewrite Eg in F4. destruct F4 as ((k' & F4a) & F4b & F4c & F4d & F4e).
  assert (ds = t_want g) by congruence. assert (k' = k) by congruence. subst ds k'. rewrite Ea in F1. simpl in F1. destruct F1 as (F1a & F1b & F1c).
  assert (N := v_net _ _ L).
  assert (Wp : wantof (n_proc n p) = t_ids g) by (unfold wantof; rewrite Ec, Eg; auto).
  assert (Tk : In d (t_ids g) /\ store (p_w (n_proc n p)) d = None).
  { destruct (t_wants _ _ (a_tok _ _ _ _ _ _ N) (BR src p) (p, d)) as [A B]; [|simpl in A; rewrite Wp in A; auto].
    simpl. rewrite Hr. simpl. auto. }
  destruct Tk as [Td Ts]. assert (Fd : fst d = p) by (apply (a_rep _ _ _ _ _ _ N src p d v); rewrite Hr; simpl; auto).
  assert (Ml := missing_less (p_w (n_proc n p)) w d v (t_ids g) eq_refl F4b Td Ts).
  assert (Sg : forall x, store (p_w (n_proc n p)) x <> None -> store w x <> None).
  { intros x S. simpl. unfold dput. destruct (did_eqb d x); auto. discriminate. }
  assert (Sd : store w d <> None) by (simpl; rewrite dput_same; discriminate).
  assert (Td' : did_in d (t_ids g) = true) by (apply did_in_In; auto). rewrite Td' in E.
  apply (net_quietlog _ _ _ _ _ _ p) in N. cbv beta in N.
  set (R' := fun a b => if Nat.eqb a src && Nat.eqb b p then tl (n_rep n a b) else n_rep n a b).
  assert (N1 : Net (produced (n_hist n)) (fun r => wantof (n_proc n r)) (upd (W n) p w) (n_chan n) R' nobody).
  { eapply net_ext with (W := upd (upd (W n) p (no_log (p_w (n_proc n p)))) p w) (C := n_chan n) (R := R'); auto; [intros r; rewrite upd_upd; auto|].
    eapply (net_answer _ (produced_fst workers n L) _ _ _ _ _ p w R' d v l src N Hr); try rewrite upd_p; auto.
    intros a b. unfold R'. destruct (Nat.eqb a src) eqn:Q1, (Nat.eqb b p) eqn:Q2; simpl; auto. apply Nat.eqb_eq in Q1 as ->. apply Nat.eqb_eq in Q2 as ->. rewrite Hr. auto. }
  assert (Y : exists a go, s' = {| p_w := w; p_next := p_next (n_proc n p); p_cur := Some (set_act fr a go) |} /\
    (forall e, In e h -> fine_ev e /\ match e with HSubmit _ _ => False | _ => True end) /\ ffine (n_hist n) p w (set_act fr a go) /\
    Net (produced (n_hist n)) (fun r => wantof (upd (n_proc n) p s' r)) (upd (W n) p w) (n_chan n) R' nobody).
  { assert (F2' : forall x, In x pu -> fst x = p /\ store w x <> None /\ put_in (n_hist n) x) by (intros x I; apply F2 in I as (I1 & I2 & I3); auto).
    assert (F3' : forall x, In x ou -> fst x = p /\ (store w x <> None \/ owner w x <> None) /\ exists o, produced (n_hist n) x o) by (intros x I; apply F3 in I as (I1 & [I2|I2] & I3); auto).
    destruct (t_left g) as [|[|j]] eqn:Tl; [lia| |].
    - assert (Ms : missing w (t_ids g) = []) by (destruct (missing w (t_ids g)); auto; simpl in Ml; lia).
      assert (Al : forall x, In x (t_ids g) -> store w x <> None).
      { intros x I Z. assert (J : In x (missing w (t_ids g))) by (apply in_missing; auto). rewrite Ms in J. destruct J. }
      destruct (read_all (store w) (t_want g)) as [vs Ev]; [intros x I; destruct (F4c x I); auto|].
      match type of E with (let r := ?r in _) = _ => set (res := r) in E | _ => idtac end.
      match type of E with ({| p_w := _; p_next := _; p_cur := Some (set_act fr (k ?r) None) |}, _) = _ => set (res := r) in E end.
      assert (Hres : res <> GError) by (unfold res; rewrite Ev; destruct (match t_exc g with None => _ | Some _ => _ end); discriminate).
      apply pair_inj in E as [<- <-]. exists (k res), None. split; [reflexivity|]. split; [|split].
      + intros e [<-|[]]. simpl. destruct res; auto.
      + exists pu, ou. split; [apply F1c; auto|]. split; [exact F2'|]. split; [exact F3'|exact Logic.I].
      + eapply (net_over _ _ _ _ _ _ p); [exact N1| | |].
        * rewrite upd_p, Wp. exact Al.
        * rewrite upd_p. reflexivity.
        * intros r Nr. rewrite upd_o; auto.
    - apply pair_inj in E as [<- <-]. eexists _, _. split; [reflexivity|]. split; [intros e []|]. split.
      + exists pu, ou. simpl. rewrite Ea. split; [simpl; auto|]. split; [exact F2'|]. split; [exact F3'|]. split; [exists k; auto|]. split; [exact F4b|]. split; [|split; [|lia]].
        * intros x I. destruct (F4c x I) as [Z|Z]; auto. left. apply Sg. auto.
        * change (S j = length (missing w (t_ids g))). lia.
      + eapply net_wants; [|exact N1]. apply want_upd. rewrite Wp. reflexivity. }
  clear E. destruct Y as (a & go & Es' & Hh & Hf & N2). assert (Ew : p_w s' = w) by (rewrite Es'; auto). assert (Eu : p_cur s' = Some (set_act fr a go)) by (rewrite Es'; auto). clear Es'. unfold put_proc.
  assert (Q : forall t o q, ~ In (t, HSubmit o q) (map (fun e => (f_run fr, e)) h)).
  { intros t o q I. apply in_map_iff in I as (e & I & J). apply pair_inj in I as [_ ->]. apply Hh in J as [_ J]. exact J. }
  assert (SG : forall r x, store (p_w (n_proc n r)) x <> None -> store (p_w (upd (n_proc n) p s' r)) x <> None) by (apply stores_grow; rewrite Ew; exact Sg).
  assert (Cc : forall a b, (if Nat.eqb a p then n_chan n a b ++ sends_to b [] ++ ops_out p (log (p_w s')) b else n_chan n a b) = n_chan n a b).
  { intros x b. rewrite Ew. simpl. rewrite app_nil_r. destruct (Nat.eqb x p); auto. }
  assert (Rc : forall a b, (if Nat.eqb a p then R' a b ++ reps_out (log (p_w s')) b else R' a b) = R' a b).
  { intros x b. rewrite Ew. simpl. rewrite app_nil_r. destruct (Nat.eqb x p); auto. }
  assert (Rin : forall a b y, In y (R' a b) -> In y (n_rep n a b)).
  { intros x b y. unfold R'. destruct (Nat.eqb x src && Nat.eqb b p); auto. destruct (n_rep n x b); simpl; auto. }
  eapply (live_frame n p s' fr (set_act fr a go)); auto; try (rewrite Ew; reflexivity).
  - intros x Nx. rewrite Ew. simpl. apply dput_other. intros <-. auto.
  - rewrite Ew. split; auto.
  - intros x b. rewrite Cc. exists []. rewrite app_nil_r. auto.
  - intros t e I. apply in_map_iff in I as (e' & I & J). apply pair_inj in I as [_ <-]. apply Hh in J. tauto.
  - intros t o q I. exfalso. eapply Q; eauto.
  - rewrite Ew. apply ffine_more. exact Hf.
  - intros x u S. apply (there_more _ _ (W n)); auto. rewrite Ew in S. simpl in S. unfold dput in S. destruct (did_eqb d x) eqn:Ex; [|exact (v_have _ _ L p x u S)].
    apply did_eqb_eq in Ex as <-. apply (v_back _ _ L src p d v). rewrite Hr. simpl; auto.
  - intros x b y u. rewrite Cc. intros I. apply (there_more _ _ (W n)); auto. exact (v_carry _ _ L _ _ _ _ I).
  - intros x b y u. fold (R' x b). rewrite Rc. intros I. apply Rin in I. apply (there_more _ _ (W n)); auto. exact (v_back _ _ L _ _ _ _ I).
  - intros r x u _ S. apply (there_more _ _ (W n)); auto. exact (v_have _ _ L r x u S).
  - apply net_quiet; auto. eapply net_ext; [| | |exact N2]; auto. intros r. rewrite w_upd, Ew. reflexivity.
Qed.

End Step.
