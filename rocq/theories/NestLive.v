(** Programs that use only what they have made: an invariant of their executions. *)
From Verif Require Import Lib ShmModel ShmRaceProofs ValModel WorkerModel WorkerSpec WorkerProofs WorkerWant WorkerAnswer ClusterModel ClusterNet
  NestModel NestSpec NestProofs NestOnce NestThms NestNet NestLoop.

Definition produced (H : list (nat * hev)) (d : dataid) (o : rank) : Prop := exists t q, In (t, HSubmit o q) H /\ In d (outs q).
Definition put_in (H : list (nat * hev)) (d : dataid) : Prop := exists t v, In (t, HPut d v) H.
Definition origin (H : list (nat * hev)) (q : request) (d : dataid) : Prop :=
  put_in H d \/ exists t o q', In (t, HSubmit o q') H /\ In d (outs q') /\ q_id q' < q_id q.
Definition ended (H : list (nat * hev)) (i : nat) : Prop := exists t r, In (t, HStart i) H /\ In (t, HEnd r) H.
Definition fine_ev (e : hev) : Prop := match e with HRefused _ _ _ _ => False | HGet _ GError => False | _ => True end.

Definition wantof (s : proc) : list dataid :=
  match p_cur s with Some fr => match f_get fr with Some g => t_ids g | None => [] end | None => [] end.
(** The tasks of a process in the order they came, and those looked at in vain. *)
Definition line (s : proc) : list request := pend (p_w s) ++
  match p_cur s with
  | Some fr => match f_rest fr with LMain => [] | LExec => [f_q fr] | LPass kept todo => kept ++ f_q fr :: todo end
  | None => []
  end.
Definition resting (s : proc) : list request := pend (p_w s) ++
  match p_cur s with Some fr => match f_rest fr with LPass kept _ => kept | _ => [] end | None => [] end.
Definition execq (l : list wmsg) : list request := flat_map (fun m => match m with WExec q => [q] | _ => [] end) l.

(** No task needs the result of a later one. *)
Definition apart (q1 q2 : request) : Prop := forall d, In d (qrefs q1) -> ~ In d (outs q2).
Definition ordered (l : list request) : Prop := ForallOrdPairs apart l.

Definition tfine (H : list (nat * hev)) (p : rank) (w : wst) (q : request) : Prop :=
  (exists t q0, In (t, HSubmit p q0) H /\ lessq q0 q) /\ lfine p w q /\ lcov p w q.

Definition missing (w : wst) (ds : list dataid) : list dataid := filter (fun d => negb (dmem (store w) d)) ds.

Definition ffine (H : list (nat * hev)) (p : rank) (w : wst) (fr : frame) : Prop := exists puts outs,
  closed puts outs (f_act fr) /\ (forall d, In d puts -> fst d = p /\ store w d <> None /\ put_in H d) /\
  (forall d, In d outs -> fst d = p /\ (store w d <> None \/ owner w d <> None) /\ exists o, produced H d o) /\
  match f_get fr with
  | None => True
  | Some g => (exists k, f_act fr = AGet (t_want g) k) /\ NoDup (t_ids g) /\ (forall d, In d (t_want g) -> store w d <> None \/ In d (t_ids g)) /\
      t_left g = length (missing w (t_ids g)) /\ 0 < t_left g
  end.

Definition cfine (H : list (nat * hev)) (a b : rank) (w : wst) (l1 : list wmsg) (q : request) : Prop :=
  (exists t, In (t, HSubmit b q) H) /\ a <> b /\ (forall d, In d (qrefs q ++ outs q) -> fst d = a) /\
  (exists f, q_fn q = FRef f /\ (store w f <> None \/ exists v, In (WPut f v) l1)) /\
  forall d, In d (qrefs q) -> store w d <> None \/ owner w d <> None \/ (exists v, In (WPut d v) l1) \/ exists o, In (WOwner d o) l1.

(** A value of a task is at the worker that executed it. *)
Definition there (H : list (nat * hev)) (Wf : rank -> wst) (d : dataid) : Prop := forall o, produced H d o -> store (Wf o) d <> None.

Section Live.
Variable workers : list rank.

Notation W n := (fun r => p_w (n_proc n r)).

Record Live (n : nst) : Prop := {
  v_dead : forall p, n_dead n p = false;
  v_hist : forall t e, In (t, e) (n_hist n) -> fine_ev e;
  v_sub : forall t o q, In (t, HSubmit o q) (n_hist n) -> In o workers /\ (exists c, c <> o /\ forall d, In d (qrefs q ++ outs q) -> fst d = c) /\
    forall d, In d (qrefs q) -> origin (n_hist n) q d;
  v_line : forall p q, In q (line (n_proc n p)) -> tfine (n_hist n) p (p_w (n_proc n p)) q;
  v_chan : forall a b l1 q l2, n_chan n a b = l1 ++ WExec q :: l2 -> cfine (n_hist n) a b (p_w (n_proc n b)) l1 q;
  v_order : forall a b, ordered (line (n_proc n b) ++ execq (n_chan n a b));
  v_rest : forall p q, In q (resting (n_proc n p)) -> lmiss (p_w (n_proc n p)) q;
  v_pend : forall p fr k t, p_cur (n_proc n p) = Some fr -> f_rest fr = LPass k t -> pend (p_w (n_proc n p)) = [];
  v_main : forall p, match p_cur (n_proc n p) with Some fr => f_rest fr = LMain <-> p = 0 | None => p <> 0 end;
  v_frame : forall p fr, p_cur (n_proc n p) = Some fr -> ffine (n_hist n) p (p_w (n_proc n p)) fr;
  v_task : forall t o q, In (t, HSubmit o q) (n_hist n) -> (exists a, In (WExec q) (n_chan n a o)) \/
    (exists q', In q' (line (n_proc n o)) /\ q_id q' = q_id q) \/ (ended (n_hist n) (q_id q) /\ forall d, In d (outs q) -> store (p_w (n_proc n o)) d <> None);
  v_have : forall p d v, store (W n p) d = Some v -> there (n_hist n) (W n) d;
  v_carry : forall a b d v, In (WPut d v) (n_chan n a b) -> there (n_hist n) (W n) d;
  v_back : forall a b d v, In (d, v) (n_rep n a b) -> there (n_hist n) (W n) d;
  v_net : Net (produced (n_hist n)) (fun r => wantof (n_proc n r)) (W n) (n_chan n) (n_rep n) nobody
}.

(** ** Growing histories *)

Lemma produced_more H h d o : produced H d o -> produced (H ++ h) d o.
Proof. intros (t & q & I & J). exists t, q. split; auto. apply in_or_app. auto. Qed.
Lemma put_more H h d : put_in H d -> put_in (H ++ h) d.
Proof. intros (t & v & I). exists t, v. apply in_or_app. auto. Qed.
Lemma origin_more H h q d : origin H q d -> origin (H ++ h) q d.
Proof. intros [I|(t & o & q' & I & J & K)]; [left; apply put_more; auto|right]. exists t, o, q'. split; auto. apply in_or_app. auto. Qed.
Lemma ended_more H h i : ended H i -> ended (H ++ h) i.
Proof. intros (t & r & I & J). exists t, r. split; apply in_or_app; auto. Qed.
Lemma tfine_more H h p w q : tfine H p w q -> tfine (H ++ h) p w q.
Proof. intros ((t & q0 & I & L) & A). split; auto. exists t, q0. split; auto. apply in_or_app. auto. Qed.
Lemma ffine_more H h p w fr : ffine H p w fr -> ffine (H ++ h) p w fr.
Proof.
  intros (pu & ou & A & B & D & E). exists pu, ou. split; auto. split; [|split; auto].
  - intros d I. destruct (B d I) as (B1 & B2 & B3). repeat split; auto. apply put_more; auto.
  - intros d I. destruct (D d I) as (D1 & D2 & o & D3). repeat split; auto. exists o. apply produced_more; auto.
Qed.
Lemma cfine_more H h a b w l1 q : cfine H a b w l1 q -> cfine (H ++ h) a b w l1 q.
Proof. intros ((t & I) & A). split; auto. exists t. apply in_or_app; auto. Qed.

(** More is known at the process. *)
Definition wider (w w' : wst) : Prop := (forall d, store w d <> None -> store w' d <> None) /\ (forall d, owner w d <> None -> owner w' d <> None).

Lemma cfine_wider H a b w w' l1 q : wider w w' -> cfine H a b w l1 q -> cfine H a b w' l1 q.
Proof.
  intros [Ws Wo] (A & B & D & (f & E & F) & G). split; auto. split; auto. split; auto. split.
  - exists f. split; auto. destruct F; auto.
  - intros d I. destruct (G d I) as [X|[X|X]]; auto.
Qed.

(** ** Lists *)

Lemma app_split {A} (l l' l1 l2 : list A) x : l ++ l' = l1 ++ x :: l2 ->
  (exists m, l = l1 ++ x :: m /\ l2 = m ++ l') \/ (exists m, l1 = l ++ m /\ l' = m ++ x :: l2).
Proof.
  revert l1. induction l as [|y l IH]; intros l1 E; simpl in E; [right; exists l1; auto|].
  destruct l1 as [|z l1]; simpl in E.
  - assert (y = x) by congruence. assert (l ++ l' = l2) by congruence. subst. left. exists l. auto.
  - assert (y = z) by congruence. assert (E2 : l ++ l' = l1 ++ x :: l2) by congruence. subst z. destruct (IH _ E2) as [(m & -> & ->)|(m & -> & ->)]; [left|right]; exists m; auto.
Qed.

Lemma execq_app l l' : execq (l ++ l') = execq l ++ execq l'.
Proof. apply flat_map_app. Qed.
Lemma in_execq q l : In q (execq l) <-> In (WExec q) l.
Proof.
  unfold execq. rewrite in_flat_map. split.
  - intros (m & I & J). destruct m; try destruct J. subst. auto. destruct H.
  - intros I. eexists. split; [exact I|]. simpl. auto.
Qed.
Lemma execq_ops p l b : execq (ops_out p l b) = [].
Proof.
  unfold ops_out. induction l as [|e l IH]; auto. simpl. rewrite execq_app, IH, app_nil_r. destruct e; auto.
  - destruct blocking; auto. destruct (Nat.eqb dest b); auto.
  - destruct (Nat.eqb dest b); auto.
Qed.
Lemma no_exec l l1 q l2 : execq l = [] -> l = l1 ++ WExec q :: l2 -> False.
Proof. intros E ->. rewrite execq_app in E. simpl in E. destruct (execq l1); discriminate. Qed.

Lemma ordered_app l l' : ordered (l ++ l') <-> ordered l /\ ordered l' /\ forall x y, In x l -> In y l' -> apart x y.
Proof.
  induction l as [|a l IH]; simpl.
  - split; [intros O; repeat split; auto; [constructor|intros x y []]|tauto].
  - split.
    + intros O. inversion O as [|? ? F O']; subst. apply IH in O' as (O1 & O2 & O3). rewrite Forall_forall in F. split; [|split; auto].
      * constructor; auto. apply Forall_forall. intros x I. apply F. apply in_or_app; auto.
      * intros x y [<-|I] J; auto. apply F. apply in_or_app; auto.
    + intros (O1 & O2 & O3). inversion O1 as [|? ? F O']; subst. constructor; [|apply IH; auto].
      rewrite Forall_forall in *. intros x I. apply in_app_or in I as [I|I]; auto.
Qed.

Lemma ordered_less l l' : Forall2 lessq l l' -> forall r, ordered (l ++ r) -> ordered (l' ++ r).
Proof.
  intros F. induction F as [|q q' l l' Q F IH]; intros r O; simpl in *; auto. inversion O as [|? ? Fo O']; subst. constructor; [|apply IH; auto].
  rewrite Forall_forall in *. destruct Q as (_ & _ & _ & Qi). intros x I d J. apply Qi in J.
  apply in_app_or in I as [I|I]; [|apply (Fo x); auto; apply in_or_app; auto].
  assert (X : exists y, In y l /\ lessq y x).
  { clear - F I. induction F as [|a b l l' Q F IH]; [destruct I|]. destruct I as [<-|I]; [exists a; simpl; auto|]. destruct (IH I) as (y & Y & Z). exists y. simpl; auto. }
  destruct X as (y & Y & (_ & _ & Yo & _)). unfold outs. rewrite Yo. apply (Fo y); auto. apply in_or_app; auto.
Qed.

Lemma less_in l l' q : Forall2 lessq l l' -> In q l' -> exists q0, In q0 l /\ lessq q0 q.
Proof. intros F. induction F; intros I; [destruct I|]. destruct I as [<-|I]; [eexists; simpl; eauto|]. destruct (IHF I) as (q0 & A & B). exists q0. simpl; auto. Qed.
Lemma less_in' l l' q : Forall2 lessq l l' -> In q l -> exists q0, In q0 l' /\ lessq q q0.
Proof. intros F. induction F; intros I; [destruct I|]. destruct I as [<-|I]; [eexists; simpl; eauto|]. destruct (IHF I) as (q0 & A & B). exists q0. simpl; auto. Qed.

Lemma lessq_trans q q1 q2 : lessq q q1 -> lessq q1 q2 -> lessq q q2.
Proof. intros (A & B & D & E) (A' & B' & D' & E'). repeat split; try congruence. eapply incl_tran; eauto. Qed.

(** ** Requests when the history grows *)

Lemma net_prod (pr pr' : dataid -> rank -> Prop) want Wf C R X : Net pr want Wf C R X -> (forall d o, pr d o -> pr' d o) ->
  (forall a b d v, In (WPut d v) (C a b) -> pr' d b -> pr d b) -> Net pr' want Wf C R X.
Proof.
  intros [A1 A2 A3 A4 A5 A6 A7 A8 A9 A10 A11 A12] M Pw. split; auto.
  - intros a b s d bl I. apply A1 in I as (I1 & I2 & I3 & I4). auto.
  - intros a b d v I. destruct (A2 _ _ _ _ I) as [I1 I2]. split; auto. intros Z. apply I2. eapply Pw; eauto.
  - intros a b d o I. apply A3 in I as [I1 I2]. auto.
  - eauto.
  - intros p d x I. apply A6 in I as (I1 & I2 & I3 & I4 & I5). repeat split; auto.
  - intros p d x I. apply A7 in I as (I1 & I2 & I3 & I5). repeat split; auto.
Qed.

Lemma prod_quiet H h d o : (forall t o q, ~ In (t, HSubmit o q) h) -> produced (H ++ h) d o <-> produced H d o.
Proof.
  intros Q. split; [|apply produced_more]. intros (t & q & I & J). apply in_app_or in I as [I|I]; [exists t, q; auto|exfalso; eapply Q; eauto].
Qed.

Lemma net_quiet H h want Wf C R X : (forall t o q, ~ In (t, HSubmit o q) h) -> Net (produced H) want Wf C R X -> Net (produced (H ++ h)) want Wf C R X.
Proof.
  intros Q N. eapply net_prod; [exact N| |].
  - intros d o. apply produced_more.
  - intros a b d v _. rewrite prod_quiet; auto.
Qed.

Lemma net_wants pr want want' Wf C R X : (forall r, want' r = want r) -> Net pr want Wf C R X -> Net pr want' Wf C R X.
Proof.
  intros E [A1 A2 A3 A4 A5 A6 A7 A8 A9 A10 A11 A12]. split; auto.
  - intros p d. rewrite E. auto.
  - eapply tok_ext; [exact A11| |reflexivity]. intros i. unfold awaits. rewrite E. reflexivity.
Qed.

(** A reference of a task belongs to one task. *)
Lemma produced_one n : Fresh n -> forall d o o', produced (n_hist n) d o -> produced (n_hist n) d o' -> o = o'.
Proof.
  intros F d o o' (t & q & I & J) (t' & q' & I' & J'). assert (E := nodup_flat _ _ _ _ d (fr_made n F) I I' J J'). congruence.
Qed.

Lemma produced_fst n : Live n -> forall d o, produced (n_hist n) d o -> fst d <> o.
Proof. intros L d o (t & q & I & J). apply (v_sub n L) in I as (_ & (c & Nc & E) & _). rewrite (E d); auto. apply in_or_app. auto. Qed.

Lemma submit_same n t t' o o' q q' : Fresh n -> In (t, HSubmit o q) (n_hist n) -> In (t', HSubmit o' q') (n_hist n) -> q_id q = q_id q' -> o = o' /\ q = q'.
Proof.
  intros F I I' E. assert (X := nodup_flat _ _ _ _ (q_id q) (fr_tasks n F) I I' ltac:(simpl; auto) ltac:(simpl; rewrite E; auto)). split; congruence.
Qed.

Lemma origin_made H q d : origin H q d -> In d (made H).
Proof. intros [(t & v & I)|(t & o & q' & I & J & _)]; eapply in_made; eauto; simpl; auto. Qed.

End Live.
