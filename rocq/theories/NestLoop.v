(** The worker's loop of NestModel: looking up arguments, passes over the pending tasks, storing results. *)
From Verif Require Import Lib ShmModel ShmRaceProofs ValModel WorkerModel WorkerSpec WorkerProofs WorkerWant WorkerAnswer ClusterModel ClusterNet
  NestModel NestSpec NestProofs NestOnce NestNet.

(** ** What looking up arguments keeps *)

Section Pres.
Variable self : rank.
Variable P : wst -> Prop.
Variable Q : dataid -> Prop.
Hypothesis ask_ok : forall w d o, P w -> Q d -> store w d = None -> owner w d = Some o -> ~ In d (reqs w) -> o <> self -> P (request_data w o d).

Lemma unwrap_pres w v w' v' p : P w -> (forall d, In d (refs v) -> Q d) -> unwrap self w v = Some (w', v', p) -> P w'.
Proof using ask_ok.
  intros Pw H E. destruct v; simpl in E; try (apply Some_inj in E; apply pair_inj in E as [E _]; apply pair_inj in E as [<- _]; auto).
  destruct (store w d) as [x|] eqn:S; [apply Some_inj in E; apply pair_inj in E as [E _]; apply pair_inj in E as [<- _]; auto|].
  destruct (owner w d) as [o|] eqn:O; [|discriminate]. destruct (did_in d (reqs w)) eqn:R;
    [apply Some_inj in E; apply pair_inj in E as [E _]; apply pair_inj in E as [<- _]; auto|].
  destruct (Nat.eqb o self) eqn:N; apply Some_inj in E; apply pair_inj in E as [E _]; apply pair_inj in E as [<- _]; auto.
  apply ask_ok; auto; [apply H; simpl; auto|apply did_in_false; auto|apply Nat.eqb_neq; auto].
Qed.

Definition MatPres (v : val) : Prop := forall w p w' v' p', clean w -> P w -> (forall d, In d (refs v) -> Q d) ->
  materialize self w v p = Some (w', v', p') -> P w'.

Lemma mat_pres v : MatPres v.
Proof using ask_ok.
  induction v using val_ind'; intros w p w' v' p' Cl Pw R E.
  - simpl in E. apply Some_inj in E; apply pair_inj in E as [E _]; apply pair_inj in E as [<- _]. auto.
  - simpl in E. apply Some_inj in E; apply pair_inj in E as [E _]; apply pair_inj in E as [<- _]. auto.
  - cbn [materialize] in E. destruct (unwrap self w (VRef d)) as [[[w1 x] q]|] eqn:U; [|discriminate].
    apply Some_inj in E; apply pair_inj in E as [E _]; apply pair_inj in E as [<- _]. eapply unwrap_pres; eauto.
  - rewrite mat_list_eqn in E. destruct (mat_list self (materialize self) w l p) as [[[w1 l1] p1]|] eqn:G; [|discriminate].
    apply Some_inj in E; apply pair_inj in E as [E _]; apply pair_inj in E as [<- _]. simpl in R.
    clear v' p'. revert w p l1 p1 w1 Cl Pw R G. induction H as [|x l Hx Hl IH]; intros w p l1 p1 w1 Cl Pw R G; cbn [mat_list] in G.
    + apply Some_inj in G; apply pair_inj in G as [G _]; apply pair_inj in G as [<- _]. auto.
    + destruct (materialize self w x p) as [[[w2 x2] p2]|] eqn:E1; [|discriminate].
      destruct (unwrap self w2 x2) as [[[w3 x3] p3]|] eqn:E2; [|discriminate].
      destruct (mat_list self (materialize self) w3 l (p2 || p3)) as [[[w4 r4] p4]|] eqn:E3; [|discriminate].
      apply Some_inj in G; apply pair_inj in G as [G _]; apply pair_inj in G as [<- _].
      assert (P2 := Hx _ _ _ _ _ Cl Pw ltac:(intros d I; apply R; simpl; apply in_or_app; auto) E1).
      assert (A2 := mat_asks _ _ _ _ _ _ _ E1). assert (C2 := clean_asks _ _ _ A2 Cl). assert (C3 := clean_asks _ _ _ (unwrap_asks _ _ _ _ _ _ E2) C2).
      apply mat_ok in E1 as [_ (_ & _ & L)]; auto.
      eapply IH; [exact C3| | |exact E3]; [|intros; apply R; simpl; apply in_or_app; auto].
      eapply unwrap_pres; [exact P2| |exact E2]. intros d I. apply L in I as [I _]. apply R. simpl. apply in_or_app; auto.
  - rewrite mat_tuple_eqn in E. destruct (mat_list self (materialize self) w l p) as [[[w1 l1] p1]|] eqn:G; [|discriminate].
    apply Some_inj in E; apply pair_inj in E as [E _]; apply pair_inj in E as [<- _]. simpl in R.
    clear v' p'. revert w p l1 p1 w1 Cl Pw R G. induction H as [|x l Hx Hl IH]; intros w p l1 p1 w1 Cl Pw R G; cbn [mat_list] in G.
    + apply Some_inj in G; apply pair_inj in G as [G _]; apply pair_inj in G as [<- _]. auto.
    + destruct (materialize self w x p) as [[[w2 x2] p2]|] eqn:E1; [|discriminate].
      destruct (unwrap self w2 x2) as [[[w3 x3] p3]|] eqn:E2; [|discriminate].
      destruct (mat_list self (materialize self) w3 l (p2 || p3)) as [[[w4 r4] p4]|] eqn:E3; [|discriminate].
      apply Some_inj in G; apply pair_inj in G as [G _]; apply pair_inj in G as [<- _].
      assert (P2 := Hx _ _ _ _ _ Cl Pw ltac:(intros d I; apply R; simpl; apply in_or_app; auto) E1).
      assert (A2 := mat_asks _ _ _ _ _ _ _ E1). assert (C2 := clean_asks _ _ _ A2 Cl). assert (C3 := clean_asks _ _ _ (unwrap_asks _ _ _ _ _ _ E2) C2).
      apply mat_ok in E1 as [_ (_ & _ & L)]; auto.
      eapply IH; [exact C3| | |exact E3]; [|intros; apply R; simpl; apply in_or_app; auto].
      eapply unwrap_pres; [exact P2| |exact E2]. intros d I. apply L in I as [I _]. apply R. simpl. apply in_or_app; auto.
  - rewrite mat_dict_eqn in E. destruct (mat_dict self (materialize self) w l p) as [[[w1 l1] p1]|] eqn:G; [|discriminate].
    apply Some_inj in E; apply pair_inj in E as [E _]; apply pair_inj in E as [<- _]. simpl in R.
    clear v' p'. revert w p l1 p1 w1 Cl Pw R G. induction H as [|x l Hx Hl IH]; intros w p l1 p1 w1 Cl Pw R G; cbn [mat_dict] in G.
    + apply Some_inj in G; apply pair_inj in G as [G _]; apply pair_inj in G as [<- _]. auto.
    + destruct (materialize self w (snd x) p) as [[[w2 x2] p2]|] eqn:E1; [|discriminate].
      destruct (unwrap self w2 x2) as [[[w3 x3] p3]|] eqn:E2; [|discriminate].
      destruct (mat_dict self (materialize self) w3 l (p2 || p3)) as [[[w4 r4] p4]|] eqn:E3; [|discriminate].
      apply Some_inj in G; apply pair_inj in G as [G _]; apply pair_inj in G as [<- _].
      assert (P2 := Hx _ _ _ _ _ Cl Pw ltac:(intros d I; apply R; simpl; apply in_or_app; auto) E1).
      assert (A2 := mat_asks _ _ _ _ _ _ _ E1). assert (C2 := clean_asks _ _ _ A2 Cl). assert (C3 := clean_asks _ _ _ (unwrap_asks _ _ _ _ _ _ E2) C2).
      apply mat_ok in E1 as [_ (_ & _ & L)]; auto.
      eapply IH; [exact C3| | |exact E3]; [|intros; apply R; simpl; apply in_or_app; auto].
      eapply unwrap_pres; [exact P2| |exact E2]. intros d I. apply L in I as [I _]. apply R. simpl. apply in_or_app; auto.
Qed.
End Pres.

(** ** Requests in the loop *)

Definition qrefs (q : request) : list dataid := refs (q_args q) ++ refs (q_kwargs q).
Definition outs (q : request) : list dataid := out_ids (q_out q).

(** q' is q, with some references replaced by their values. *)
Definition lessq (q q' : request) : Prop := q_id q' = q_id q /\ q_fn q' = q_fn q /\ q_out q' = q_out q /\ incl (qrefs q') (qrefs q).

Lemma lessq_refl q : lessq q q.
Proof. repeat split. apply incl_refl. Qed.

(** What process_task_request needs. *)
Definition lfine (p : rank) (w : wst) (q : request) : Prop :=
  (exists f, q_fn q = FRef f /\ store w f <> None) /\ forall d, In d (qrefs q) -> fst d <> p /\ (store w d <> None \/ owner w d <> None).

Definition lcov (p : rank) (w : wst) (q : request) : Prop :=
  forall d, In d (qrefs q) -> store w d <> None \/ owner w d = Some p \/ In d (reqs w).
Definition lmiss (w : wst) (q : request) : Prop := exists d, In d (qrefs q) /\ store w d = None.

Definition grown (w w' : wst) : Prop := store w' = store w /\ owner w' = owner w /\ incl (reqs w) (reqs w').

Lemma grown_refl w : grown w w.
Proof. repeat split. apply incl_refl. Qed.
Lemma grown_trans w w1 w2 : grown w w1 -> grown w1 w2 -> grown w w2.
Proof. intros (A & B & D) (A' & B' & D'). repeat split; try congruence. eapply incl_tran; eauto. Qed.
Lemma asks_grown self w w' : Asks self w w' -> grown w w'.
Proof.
  intros A. induction A; [apply grown_refl|]. eapply grown_trans; [|exact IHA]. repeat split. intros x I. simpl. auto.
Qed.

Lemma lfine_grown p w w' q : grown w w' -> lfine p w q -> lfine p w' q.
Proof. intros (A & B & _). unfold lfine. rewrite A, B. auto. Qed.
Lemma lcov_grown p w w' q : grown w w' -> lcov p w q -> lcov p w' q.
Proof. intros (A & B & D) L d I. rewrite A, B. destruct (L d I) as [X|[X|X]]; auto. Qed.
Lemma lmiss_grown w w' q : grown w w' -> lmiss w q -> lmiss w' q.
Proof. intros (A & _) (d & I & X). exists d. rewrite A. auto. Qed.

Section Loop.
Variable prod : dataid -> rank -> Prop.
Hypothesis prod_one : forall d o o', prod d o -> prod d o' -> o = o'.
Hypothesis prod_fst : forall d o, prod d o -> fst d <> o.
Variable want : rank -> list dataid.
Variable W0 : rank -> wst.
Variable C0 : rank -> rank -> list wmsg.
Variable R0 : rank -> rank -> list (dataid * val).
Variable p : rank.
Hypothesis p_worker : p <> 0.

Notation NV := (NV prod want W0 C0 R0 p).

Lemma nv_request X w d o : NV X w -> fst d <> p -> store w d = None -> owner w d = Some o -> ~ In d (reqs w) -> o <> p -> NV X (request_data w o d).
Proof using p_worker.
  intros N F S O _ No. eapply (nv_step prod want W0 C0 R0 p X X w _ [EvGet o d]); [|reflexivity|exact N]. intros C' R' Ec Er.
  eapply net_ext; [reflexivity|reflexivity| |eapply (net_ask prod want (upd W0 p w) (also p C0 w) (alsor p R0 w) X p _ C' d o N)]; try rewrite upd_p; auto.
  - intros a b. rewrite Er. simpl. destruct (Nat.eqb a p); apply app_nil_r.
  - intros a b. rewrite Ec. unfold to_one. simpl. rewrite app_nil_r, (Nat.eqb_sym o b). destruct (Nat.eqb a p); auto.
Qed.

Lemma nv_mat X w v b w' v' b' : clean w -> NV X w -> (forall d, In d (refs v) -> fst d <> p) -> materialize p w v b = Some (w', v', b') -> NV X w'.
Proof using p_worker.
  intros Cl N F E. eapply (mat_pres p (NV X) (fun d => fst d <> p)); [|exact Cl|exact N|exact F|exact E].
  intros. apply nv_request; auto.
Qed.

Lemma prepare_fine X w q : clean w -> NV X w -> lfine p w q -> exists w1 q1 fo, prepare p w q = Some (w1, q1, fo) /\ NV X w1 /\ grown w w1 /\ pend w1 = pend w /\
  lessq q q1 /\ lcov p w1 q1 /\ match fo with Some _ => qrefs q1 = [] | None => lmiss w1 q1 end.
Proof using p_worker.
  intros Cl N ((f & Ef & Sf) & K). unfold prepare. rewrite Ef. destruct (store w f) as [fv|] eqn:S; [|congruence].
  assert (Ka : forall d, In d (refs (q_args q)) -> known w d) by (intros d I; destruct (K d) as [_ Z]; auto; unfold qrefs; apply in_or_app; auto).
  destruct (materialize p w (q_args q) false) as [[[w1 args] p1]|] eqn:E1; [|exfalso; eapply (mat_known p (q_args q) w false); eauto].
  assert (A1 := mat_asks _ _ _ _ _ _ _ E1). assert (Cl1 := clean_asks _ _ _ A1 Cl). assert (G1 := asks_grown _ _ _ A1).
  assert (Kk : forall d, In d (refs (q_kwargs q)) -> known w1 d).
  { intros d I. destruct (K d) as [_ Z]; [unfold qrefs; apply in_or_app; auto|]. unfold known. destruct G1 as (-> & -> & _). auto. }
  destruct (materialize p w1 (q_kwargs q) false) as [[[w2 kwargs] p2]|] eqn:E2; [|exfalso; eapply (mat_known p (q_kwargs q) w1 false); eauto].
  assert (A2 := mat_asks _ _ _ _ _ _ _ E2). assert (G2 := asks_grown _ _ _ A2). assert (G := grown_trans _ _ _ G1 G2).
  assert (N1 : NV X w1) by (eapply nv_mat; [exact Cl|exact N| |exact E1]; intros d I; apply K; unfold qrefs; apply in_or_app; auto).
  assert (N2 : NV X w2) by (eapply nv_mat; [exact Cl1|exact N1| |exact E2]; intros d I; apply K; unfold qrefs; apply in_or_app; auto).
  assert (V1 := mat_cov p _ _ _ _ _ _ Cl E1). assert (V2 := mat_cov p _ _ _ _ _ _ Cl1 E2).
  apply mat_ok in E1 as [_ (_ & P1 & L1)]; auto. apply mat_ok in E2 as [_ (_ & P2 & L2)]; auto.
  exists w2, (with_args q args kwargs), (if p1 || p2 then None else Some fv).
  assert (Pe : pend w2 = pend w) by (rewrite (pend_asks _ _ _ A2); apply (pend_asks _ _ _ A1)).
  split; [reflexivity|]. split; auto. split; auto. split; auto. split; [|split].
  - repeat split. intros d I. unfold qrefs in *. simpl in I. apply in_app_or in I as [I|I]; apply in_or_app; [left; apply L1|right; apply L2]; auto.
  - intros d I. unfold qrefs in I. simpl in I. right. apply in_app_or in I as [I|I].
    + destruct (V1 _ I) as [Z|Z]; destruct G2 as (_ & Eo & Ei); [left; rewrite Eo; auto|right; auto].
    + apply V2. auto.
  - destruct p1 eqn:Q1; simpl.
    + destruct P1 as [P1 _]. destruct P1 as [P1|P1]; auto; [discriminate|]. destruct (refs args) as [|d r] eqn:Ra; [congruence|].
      exists d. unfold qrefs. simpl. rewrite Ra. simpl. split; auto. destruct G as (-> & _). apply L1. simpl; auto.
    + destruct p2 eqn:Q2.
      * destruct P2 as [P2 _]. destruct P2 as [P2|P2]; auto; [discriminate|]. destruct (refs kwargs) as [|d r] eqn:Ra; [congruence|].
        exists d. unfold qrefs. simpl. rewrite Ra. split; [apply in_or_app; simpl; auto|]. destruct G2 as (-> & _). apply L2. simpl; auto.
      * unfold qrefs. simpl. assert (Z1 : refs args = []) by (destruct (refs args); auto; destruct P1 as [_ P1]; discriminate P1; right; discriminate).
        assert (Z2 : refs kwargs = []) by (destruct (refs kwargs); auto; destruct P2 as [_ P2]; discriminate P2; right; discriminate).
        rewrite Z1, Z2. auto.
Qed.

(** The requests in the order they came, and those known to wait, after a pass. *)
Definition ln (x : list request + request * val * list request * list request) : list request :=
  match x with inl l => l | inr (q, _, l, r) => l ++ q :: r end.
Definition rs (x : list request + request * val * list request * list request) : list request :=
  match x with inl l => l | inr (_, _, l, _) => l end.

Lemma pass_fine X todo : forall w kept, clean w -> NV X w -> Forall (lfine p w) todo -> Forall (lcov p w) todo ->
  exists w1 x, pass p w kept todo = Some (w1, x) /\ NV X w1 /\ grown w w1 /\ pend w1 = pend w /\
  exists todo', ln x = kept ++ todo' /\ Forall2 lessq todo todo' /\ Forall (lcov p w1) todo' /\
  exists new, rs x = kept ++ new /\ Forall (lmiss w1) new /\ match x with inl _ => True | inr (q, _, _, _) => qrefs q = [] end.
Proof using p_worker.
  induction todo as [|q todo IH]; intros w kept Cl N F L; simpl.
  - exists w, (inl kept). split; auto. split; auto. split; [apply grown_refl|]. split; auto. exists []. simpl. rewrite app_nil_r. split; auto. split; auto. split; auto.
    exists []. rewrite app_nil_r. auto.
  - inversion F as [|? ? F1 F2]; subst. inversion L as [|? ? L1 L2]; subst.
    destruct (prepare_fine X w q Cl N F1) as (w1 & q1 & fo & E & N1 & G1 & P1 & Lq & Cv & Y). rewrite E.
    assert (F2' : Forall (lfine p w1) todo) by (eapply Forall_impl; [|exact F2]; intros; eapply lfine_grown; eauto).
    assert (L2' : Forall (lcov p w1) todo) by (eapply Forall_impl; [|exact L2]; intros; eapply lcov_grown; eauto).
    destruct fo as [f|].
    + exists w1, (inr (q1, f, kept, todo)). split; auto. split; auto. split; auto. split; auto. exists (q1 :: todo). simpl. split; auto. split.
      { constructor; auto. clear. induction todo; constructor; auto. apply lessq_refl. }
      split; [constructor; auto|]. exists []. rewrite app_nil_r. auto.
    + assert (Cl1 : clean w1) by (intros d v S; apply (Cl d v); destruct G1 as (G1 & _); rewrite <- G1; auto).
      destruct (IH w1 (kept ++ [q1]) Cl1 N1 F2' L2') as (w2 & x & E2 & N2 & G2 & P2 & todo' & Ex & Fx & Lx & new & En & Mn & Z).
      exists w2, x. split; auto. split; auto. split; [eapply grown_trans; eauto|]. split; [congruence|]. exists (q1 :: todo').
      split; [rewrite Ex, <- app_assoc; reflexivity|]. split; [constructor; auto|]. split; [constructor; auto; eapply lcov_grown; eauto|].
      exists (q1 :: new). split; [rewrite En, <- app_assoc; reflexivity|]. split; auto. constructor; auto. eapply lmiss_grown; eauto.
Qed.

(** ** Storing results *)

Definition nobody (r : rank) (d : dataid) : Prop := False.

Lemma puts_store l : forall w d, let w' := fold_left (fun w dv => put w (fst dv) (snd dv)) l w in
  owner w' = owner w /\ reqs w' = reqs w /\ (In d (map fst l) -> store w' d <> None) /\ (~ In d (map fst l) -> store w' d = store w d) /\
  (store w d <> None -> store w' d <> None).
Proof.
  induction l as [|[d0 v0] l IH]; intros w d; simpl; [repeat split; auto; intros []|].
  destruct (IH (put w d0 v0) d) as (A & B & D & E & F). simpl in *. split; auto. split; auto.
  assert (G : store (put w d0 v0) d0 <> None) by (simpl; rewrite dput_same; discriminate).
  split; [|split].
  - intros [->|I]; auto.
  - intros I. rewrite E by tauto. apply dput_other. tauto.
  - intros I. apply F. simpl. unfold dput. destruct (did_eqb d0 d); auto. discriminate.
Qed.

Lemma exc_puts e ds : forall w, fold_left (fun w d => put w d (VExc e)) ds w =
  fold_left (fun w dv => put w (fst dv) (snd dv)) (map (fun d => (d, VExc e)) ds) w.
Proof. induction ds as [|d ds IH]; intros w; simpl; auto. Qed.

Lemma store_fits w o r : fits o r -> exists l done, store_result w o r = Some (fold_left (fun w dv => put w (fst dv) (snd dv)) l w, done) /\ map fst l = out_ids o.
Proof.
  destruct r as [v|e], o as [|d|ds]; simpl; try tauto; intros F.
  - exists [], []. auto.
  - exists [(d, v)], [d]. auto.
  - destruct F as (vs & -> & Le). exists (combine ds vs), (map fst (combine ds vs)). split; auto.
    clear -Le. revert vs Le. induction ds as [|d ds IH]; intros [|v vs] Le; simpl in *; auto; [lia|]. f_equal. apply IH. lia.
  - exists [(d, VExc e)], []. auto.
  - exists (map (fun d => (d, VExc e)) ds), []. rewrite exc_puts. split; auto. rewrite map_map. simpl. apply map_id.
Qed.

Lemma finish_fine w q r : NV nobody w -> fits (q_out q) r -> (forall d, In d (outs q) -> ~ In d (reqs w) /\ ~ In d (want p)) ->
  exists w', finish_task w q r = Some w' /\ NV nobody w' /\ owner w' = owner w /\ reqs w' = reqs w /\ pend w' = pend w /\
  (forall d, store w d <> None -> store w' d <> None) /\ (forall d, In d (outs q) -> store w' d <> None) /\
  (forall d, ~ In d (outs q) -> store w' d = store w d).
Proof using prod_one.
  intros N F H. unfold finish_task. destruct (store_fits w _ _ F) as (l & done & E & El). rewrite E.
  set (w1 := fold_left _ l w) in *.
  assert (N1 := nv_puts prod want W0 C0 R0 p l nobody w N ltac:(intros d I; rewrite El in I; auto)). fold w1 in N1.
  assert (S1 : forall d, In d (outs q) -> store w1 d <> None) by (intros d I; destruct (puts_store l w d) as (_ & _ & Z & _); apply Z; rewrite El; exact I).
  destruct (nv_checks prod prod_one want W0 C0 R0 p (out_ids (q_out q)) _ w1 N1 S1) as [N2 E2].
  set (w2 := check_gets w1 (out_ids (q_out q))) in *.
  destruct (nv_checks prod prod_one want W0 C0 R0 p (out_ids (q_out q)) _ w2 N2) as [N3 E3]; [intros d I; destruct E2 as (-> & _); auto|].
  exists (check_gets w2 (out_ids (q_out q))). split; auto.
  destruct E2 as (Ea & Eb & Ec). destruct E3 as (Fa & Fb & Fc).
  assert (Pp : pend w1 = pend w) by (unfold w1; apply pend_fold; auto).
  split; [|split; [|split; [|split; [|split; [|split]]]]].
  - eapply net_X; [exact N3|]. intros r0 x y _ [[[A|[A1 A2]] B] D]; [destruct A|]. exfalso. apply (D A1). rewrite <- El. exact A2.
  - rewrite Fb, Eb. apply (puts_store l w (0, 0)).
  - rewrite Fc, Ec. apply (puts_store l w (0, 0)).
  - rewrite pend_checks. unfold w2. rewrite pend_checks. auto.
  - intros d S. rewrite Fa, Ea. destruct (puts_store l w d) as (_ & _ & _ & _ & Z). apply Z. auto.
  - intros d I. rewrite Fa, Ea. auto.
  - intros d I. rewrite Fa, Ea. destruct (puts_store l w d) as (_ & _ & _ & Z & _). apply Z. rewrite El. auto.
Qed.

End Loop.
