(** Submissions keep the invariant of NestLive. *)
From Verif Require Import Lib ShmModel ShmRaceProofs ValModel WorkerModel WorkerSpec WorkerProofs WorkerWant WorkerAnswer ClusterModel ClusterNet
  NestModel NestSpec NestProofs NestOnce NestThms NestNet NestLoop NestLive NestStep.

(** A message is sent that asks for nothing. *)
Lemma net_msg (pr : dataid -> rank -> Prop) want Wf C R X p C' r m : Net pr want Wf C R X -> (forall a b, C' a b = C a b ++ to_one p r m a b) -> asks_in [m] = [] ->
  okmsg pr Wf p r m -> Net pr want Wf C' R X.
Proof.
  intros HN Ec Na Ok. assert (HN' := HN). destruct HN' as [A1 A2 A3 A4 A5 A6 A7 A8 A9 A10 A11 A12].
  assert (Eu : forall q, Wf q = upd Wf p (Wf p) q) by (intros q; unfold upd; destruct (Nat.eqb q p) eqn:E; auto; apply Nat.eqb_eq in E as ->; auto).
  apply (net_ext pr want (upd Wf p (Wf p)) C' R X Wf C' R); auto.
  apply (net_grow pr want want Wf C R X X p (Wf p) C' R (to_one p r m) nothing HN); auto; try (intros; rewrite app_nil_r; reflexivity).
  - intros a b x I. apply in_to_one in I as (-> & -> & ->). destruct Ok as [O1 O2]. split; auto. destruct m; auto. simpl in *. rewrite <- Eu. auto.
  - intros a b ? ? [].
  - eauto.
  - intros d I. apply A9 in I as (I1 & I2 & o & I3 & I4 & I5). split; auto. split; auto. exists o. split; auto. split; auto.
    destruct I5 as [I5|[I5|[u I5]]]; auto; [left|right; right; exists u]; rewrite Ec; apply in_or_app; auto.
  - eapply tok_ext; [exact A11| |].
    + intros i. symmetry. apply awaits_upd. auto.
    + intros l i. apply bcont_upd; auto. intros a b. rewrite Ec, asks_app. unfold to_one. destruct (_ && _); rewrite ?Na; simpl; apply app_nil_r.
Qed.

Lemma alike_refl w : alike w w.
Proof. repeat split. Qed.

Definition pushed (dest : rank) (ds : list dataid) (w w' : wst) (l : list wmsg) : Prop :=
  alike w w' /\ pend w' = pend w /\ log w' = log w /\ execq l = [] /\ incl (sent w) (sent w') /\ (forall d v, In (WPut d v) l -> store w d = Some v) /\
  forall d, In d ds -> (store w d <> None -> In (d, dest) (sent w')) /\ (store w d = None -> exists o, In (WOwner d o) l).

Lemma net_pushes (pr : dataid -> rank -> Prop) Wf R X want p dest (ds : list dataid) : dest <> p -> forall w C, Net pr want (upd Wf p w) C R X ->
  (forall d, In d ds -> fst d = p /\ (store w d <> None \/ owner w d <> None)) -> (forall d, In d ds -> store w d <> None -> pr d dest -> store (Wf dest) d <> None) ->
  exists w' l, push_all w dest ds = (w', l, true) /\ pushed dest ds w w' l /\
  forall C', (forall a b, C' a b = C a b ++ (if Nat.eqb a p && Nat.eqb b dest then l else [])) -> Net pr want (upd Wf p w') C' R X.
Proof.
  intros Nd. induction ds as [|d ds IH]; intros w C N K Pr; simpl.
  - exists w, []. split; auto. split.
    + split; [apply alike_refl|]. repeat split; auto. apply incl_refl. intros d v []. destruct H. destruct H.
    + intros C' Ec. eapply net_ext; [| | |exact N]; auto. intros a b. rewrite Ec. destruct (_ && _); apply app_nil_r.
  - destruct (K d ltac:(simpl; auto)) as [Fd Kd].
    assert (Y : exists w1 l1, push_one w dest d = Some (w1, l1) /\ pushed dest [d] w w1 l1 /\
      forall C', (forall a b, C' a b = C a b ++ (if Nat.eqb a p && Nat.eqb b dest then l1 else [])) -> Net pr want (upd Wf p w1) C' R X).
    { unfold push_one. destruct (store w d) as [v|] eqn:S.
      - destruct (pair_in (d, dest) (sent w)) eqn:Pi.
        + exists w, []. split; auto. split.
          * split; [apply alike_refl|]. split; auto. split; auto. split; auto. split; [apply incl_refl|]. split; [intros ? ? []|].
            intros x [<-|[]]. rewrite S. split; [intros _; apply pair_in_In; auto|discriminate].
          * intros C' Ec. eapply net_ext; [| | |exact N]; auto. intros a b. rewrite Ec. destruct (_ && _); apply app_nil_r.
        + eexists _, _. split; [reflexivity|]. split.
          * split; [repeat split|]. split; auto. split; auto. split; auto. split; [simpl; apply incl_appl, incl_refl|]. split; [intros ? ? [I|[]]; congruence|].
            intros x [<-|[]]. rewrite S. split; [intros _; simpl; apply in_or_app; simpl; auto|discriminate].
          * intros C' Ec. eapply net_ext with (W := upd (upd Wf p w) p _); [intros r; symmetry; apply upd_upd|reflexivity|reflexivity|].
            eapply (net_push pr want _ C R X p _ C' d v dest N); try rewrite upd_p; auto; [repeat split|congruence|].
            rewrite upd_o by auto. intros P. apply Pr; simpl; auto. congruence.
      - destruct (owner w d) as [o|] eqn:O; [|destruct Kd; congruence]. eexists _, _. split; [reflexivity|]. split.
        + split; [apply alike_refl|]. split; auto. split; auto. split; auto. split; [apply incl_refl|]. split; [intros ? ? [I|[]]; congruence|].
          intros x [<-|[]]. rewrite S. split; [congruence|]. intros _. exists o. simpl; auto.
        + intros C' Ec. eapply (net_msg pr want _ C R X p C' dest (WOwner d o) N); auto. split; [auto|]. simpl. split; [congruence|].
          apply (a_owner _ _ _ _ _ _ N p). rewrite upd_p. auto. }
    destruct Y as (w1 & l1 & E1 & P1 & N1). rewrite E1. assert (P1' := P1). destruct P1' as (A1 & B1 & D1 & X1 & I1 & V1 & Z1). assert (A1' := A1). destruct A1' as (Sa & Oa & Ra & Ga & Ba).
    assert (M1 := N1 (fun a b => C a b ++ (if Nat.eqb a p && Nat.eqb b dest then l1 else [])) ltac:(auto)).
    destruct (IH w1 _ M1) as (w2 & l2 & E2 & P2 & N2).
    { intros x I. rewrite Sa, Oa. apply K. simpl; auto. }
    { intros x I. rewrite Sa. apply Pr. simpl; auto. }
    rewrite E2. exists w2, (l1 ++ l2). split; auto. destruct P2 as (A2 & B2 & D2 & X2 & I2 & V2 & Z2). split.
    + split; [eapply alike_trans; eauto|]. split; [congruence|]. split; [congruence|]. split; [rewrite execq_app, X1, X2; auto|]. split; [eapply incl_tran; eauto|]. split.
      * intros x v I. apply in_app_or in I as [I|I]; auto. rewrite <- Sa. auto.
      * intros x I. rewrite Sa in Z2. destruct I as [<-|I].
        -- destruct (Z1 d ltac:(simpl; auto)) as [Za Zb]. split; [intros Q; apply I2; auto|]. intros Q. destruct (Zb Q) as [o J]. exists o. apply in_or_app; auto.
        -- destruct (Z2 x I) as [Za Zb]. split; auto. intros Q. destruct (Zb Q) as [o J]. exists o. apply in_or_app; auto.
    + intros C' Ec. apply N2. intros a b. rewrite Ec. destruct (_ && _); rewrite ?app_nil_r, <- ?app_assoc; auto.
Qed.

Lemma own_fold ids dest : forall (m : dmap rank) d, fold_left (fun m d => dput m d dest) ids m d = if did_in d ids then Some dest else m d.
Proof.
  induction ids as [|x ids IH]; intros m d; simpl; auto. rewrite IH. unfold did_in at 2. simpl. fold (did_in d ids). destruct (did_in d ids) eqn:E; [rewrite orb_true_r; auto|].
  rewrite orb_false_r. unfold dput. assert (Q : did_eqb x d = did_eqb d x). { unfold did_eqb. rewrite (Nat.eqb_sym (fst x)), (Nat.eqb_sym (snd x)). auto. }
  rewrite Q. destruct (did_eqb d x); auto.
Qed.

Lemma means_made body H d v : means body H d v -> In d (made H).
Proof.
  intros [k M]. destruct k as [|k]; [destruct M|]. destruct M as [(t & I)|(t & dest & q & fd & f & args & kwargs & r & I & _ & _ & _ & _ & _ & _ & _ & G)].
  - eapply in_made; eauto. simpl; auto.
  - eapply in_made; eauto. simpl. eapply gives_in; eauto.
Qed.

Section Call.
Variable workers : list rank.
Variable body : val -> val -> val -> act.
Variable main : act.

Notation W n := (fun r => p_w (n_proc n r)).
Notation Live := (Live workers).

Lemma produced_new H t dest q d o : produced (H ++ [(t, HSubmit dest q)]) d o <-> produced H d o \/ (o = dest /\ In d (outs q)).
Proof.
  split.
  - intros (t' & q' & I & J). apply in_app_or in I as [I|[I|[]]]; [left; exists t', q'; auto|]. right. apply pair_inj in I as [_ I].
    assert (dest = o) by congruence. assert (q = q') by congruence. subst. auto.
  - intros [P|[-> I]]; [apply produced_more; auto|]. exists t, q. split; auto. apply in_or_app. simpl; auto.
Qed.

Lemma live_submit n p fr f args kwargs m k dest s' out sub h rn : Live n -> NI body main n -> Fresh n -> p_cur (n_proc n p) = Some fr -> f_get fr = None ->
  f_act fr = ASubmit f args kwargs m k -> call_api workers p (n_proc n p) fr dest (n_tasks n) = Some (s', out, sub, h) ->
  Live (put_proc n p s' (n_chan n) (n_rep n) out (if sub then S (n_tasks n) else n_tasks n) rn (map (fun e => (f_run fr, e)) h)).
Proof.
  intros L Ni F Ec Eg Ea E. unfold call_api in E. rewrite Ea in E. destruct (negb _ || _) eqn:Gd; [discriminate|].
  apply orb_false_iff in Gd as [Gd Nd]. apply negb_false_iff in Gd. apply existsb_exists in Gd as (y & Iw & Ey). apply Nat.eqb_eq in Ey as <-.
  apply Nat.eqb_neq in Nd. set (w := no_log (p_w (n_proc n p))) in *. set (o := new_out p (p_next (n_proc n p)) m) in *.
  set (w0 := set_owner w (fold_left (fun m d => dput m d dest) (out_ids o) (owner w))) in *.
  set (q := {| q_id := n_tasks n; q_fn := FRef f; q_args := args; q_kwargs := kwargs; q_out := o |}) in *.
  destruct (v_frame _ _ L _ _ Ec) as (pu & ou & F1 & F2 & F3 & _). rewrite Ea in F1. simpl in F1. destruct F1 as (F1a & F1b & F1c).
  assert (Fq : forall d, In d (qrefs q) -> In d (pu ++ ou)) by (intros d I; apply F1b; exact I).
  set (t := f_run fr) in *. set (H := n_hist n) in *. set (h1 := [(t, HSubmit dest q)]).
  assert (Eo : out_ids o = new_ids p (p_next (n_proc n p)) m) by apply out_new.
  assert (New : forall d, In d (outs q) -> fst d = p /\ ~ In d (made H)).
  { intros d I. unfold outs in I. simpl in I. rewrite Eo in I. apply new_ids_in in I as [I1 I2]. split; auto. eapply new_not_made; eauto. }
  assert (Mv : forall d v, Pv body H d v -> In d (made H)) by (intros d v [M _]; eapply means_made; eauto).
  assert (Mst : forall r d v, store (p_w (n_proc n r)) d = Some v -> In d (made H)).
  { intros r d v S. destruct (ni_proc _ _ _ Ni r) as ((Wk & _) & _). apply Wk in S. eauto. }
  assert (Mch : forall a b d v, In (WPut d v) (n_chan n a b) -> In d (made H)) by (intros a b d v I; apply (ni_chan _ _ _ Ni) in I; simpl in I; eauto).
  assert (Mre : forall a b d v, In (d, v) (n_rep n a b) -> In d (made H)) by (intros a b d v I; apply (ni_rep _ _ _ Ni) in I; eauto).
  assert (Pn : forall d r, In d (made H) -> produced (H ++ h1) d r -> produced H d r).
  { intros d r I P. apply produced_new in P as [P|[_ P]]; auto. exfalso. eapply New; eauto. }
  assert (Prf : forall d r, produced (H ++ h1) d r -> fst d <> r).
  { intros d r P. apply produced_new in P as [P|[-> P]]; [eapply produced_fst; eauto|]. apply New in P as [-> _]. auto. }
  assert (Pr1 : forall d r r', produced (H ++ h1) d r -> produced (H ++ h1) d r' -> r = r').
  { intros d r r' P P'. assert (Q := fun P => produced_made H d r P). assert (Q' := fun P => produced_made H d r' P).
    apply produced_new in P as [P|[-> P]]; apply produced_new in P' as [P'|[-> P']]; auto.
    - eapply (produced_one n F); eauto.
    - exfalso. eapply New; eauto.
    - exfalso. eapply New; eauto. }
  assert (Ow : forall d, owner w0 d = if did_in d (outs q) then Some dest else owner w d) by (intros d; unfold w0; simpl; apply own_fold).
  assert (Ofr : forall d r, owner w d = Some r -> In d (made H)).
  { intros d r O. eapply produced_made. eapply (a_owner _ _ _ _ _ _ (v_net _ _ L) p). exact O. }
  assert (Osame : forall d r, owner w d = Some r -> owner w0 d = Some r).
  { intros d r O. rewrite Ow. destruct (did_in d (outs q)) eqn:D; auto. apply did_in_In in D. exfalso. eapply New; eauto. }
  assert (N0 : Net (produced (H ++ h1)) (fun r => wantof (n_proc n r)) (upd (W n) p w0) (n_chan n) (n_rep n) nobody).
  { assert (N := v_net _ _ L). apply (net_quietlog _ _ _ _ _ _ p) in N. cbv beta in N. fold w in N.
    eapply net_ext with (W := upd (upd (W n) p w) p w0); [intros r; symmetry; apply upd_upd|reflexivity|reflexivity|].
    eapply net_own; try rewrite upd_p; auto.
    - eapply net_prod; [exact N|intros; apply produced_more; auto|]. intros a b d v I. apply Pn. eauto.
    - intros d r O. rewrite Ow in O. destruct (did_in d (outs q)) eqn:D.
      + apply did_in_In in D. apply Some_inj in O as <-. apply produced_new. auto.
      + apply produced_more. eapply (a_owner _ _ _ _ _ _ (v_net _ _ L) p). exact O.
    - intros d r O. rewrite (Osame d r O). discriminate. }
  destruct (net_pushes _ _ _ _ _ p dest ([f] ++ refs args ++ refs kwargs) Nd w0 _ N0) as (w1 & l & Ep & Pu & N1).
  { intros d I. destruct I as [<-|I]; [destruct (F2 f F1a) as (A & B & _); auto|]. apply F1b in I. apply in_app_or in I as [I|I].
    - apply F2 in I as (A & B & _). auto.
    - apply F3 in I as (A & B & _). split; auto. destruct B as [B|B]; auto. right. rewrite Ow. destruct (did_in d (outs q)); auto. discriminate. }
  { intros d I S P. change (store w0 d) with (store (p_w (n_proc n p)) d) in S. destruct (store (p_w (n_proc n p)) d) as [v|] eqn:Sv; [|congruence].
    apply (v_have _ _ L p d v Sv). apply Pn; eauto. }
  rewrite Ep in E. apply Some_inj in E. apply pair_inj in E as [E <-]. apply pair_inj in E as [E <-]. apply pair_inj in E as [<- <-].
  specialize (N1 _ ltac:(intros; reflexivity)). set (C1 := fun a b : nat => _) in N1.
  destruct Pu as ((Sa & Oa & Ra & Ga & Ba) & Pp & Pl & Px & Pi & Pv' & Pz).
  set (s' := {| p_w := w1 |}). unfold put_proc. change (map (fun e => (t, e)) [HSubmit dest q]) with h1.
  assert (Cc : forall a b, (if Nat.eqb a p then n_chan n a b ++ sends_to b (map (fun m0 => (dest, m0)) (l ++ [WExec q])) ++ ops_out p (log (p_w s')) b else n_chan n a b) =
     n_chan n a b ++ (if Nat.eqb a p && Nat.eqb b dest then l ++ [WExec q] else [])).
  { intros a b. simpl. rewrite Pl, sends_same, (Nat.eqb_sym dest b). simpl. rewrite app_nil_r. destruct (Nat.eqb a p); simpl; auto. rewrite app_nil_r; auto. }
  assert (Rc : forall a b, (if Nat.eqb a p then n_rep n a b ++ reps_out (log (p_w s')) b else n_rep n a b) = n_rep n a b).
  { intros x b. simpl. rewrite Pl. simpl. rewrite app_nil_r. destruct (Nat.eqb x p); auto. }
  assert (St : forall r, store (p_w (upd (n_proc n) p s' r)) = store (p_w (n_proc n r))).
  { intros r. unfold upd. destruct (Nat.eqb r p) eqn:Q; auto. apply Nat.eqb_eq in Q as ->. exact Sa. }
  assert (Th : forall d, In d (made H) -> there H (W n) d -> there (H ++ h1) (fun r => p_w (upd (n_proc n) p s' r)) d).
  { intros d I T r P. rewrite St. apply T. apply Pn; auto. }
  assert (Qfst : forall d, In d (qrefs q ++ outs q) -> fst d = p).
  { intros d I. apply in_app_or in I as [I|I]; [|apply New; auto]. apply Fq in I. apply in_app_or in I as [I|I]; [apply F2; auto|apply F3; auto]. }
  assert (Sub : In (t, HSubmit dest q) (H ++ h1)) by (apply in_or_app; simpl; auto).
  assert (Arr : forall d, In d ([f] ++ refs args ++ refs kwargs) -> store w0 d <> None -> store (p_w (n_proc n dest)) d <> None \/ exists v, In (WPut d v) (n_chan n p dest ++ l)).
  { intros d I S. destruct (Pz d I) as [Z _]. specialize (Z S). destruct (a_sent _ _ _ _ _ _ N1 p d dest) as [Y|[[v Y]|[v Y]]]; [rewrite upd_p; auto| | |].
    - left. rewrite upd_o in Y by auto. auto.
    - right. exists v. unfold C1 in Y. rewrite !Nat.eqb_refl in Y. simpl in Y. auto.
    - exfalso. apply (a_rep _ _ _ _ _ _ N1) in Y. assert (X : fst d = p).
      { destruct I as [<-|I]; [apply F2; auto|]. apply Qfst. apply in_or_app. left. exact I. }
      congruence. }
  eapply (live_frame workers n p s' fr (set_act fr (k (Some (out_ids o))) None)); auto.
  - intros d Nf. simpl. rewrite Sa. reflexivity.
  - intros d Nf. simpl. rewrite Oa, Ow. destruct (did_in d (outs q)) eqn:D; auto. apply did_in_In in D. apply New in D. tauto.
  - split; intros d X; simpl; [rewrite Sa; auto|]. rewrite Oa, Ow. destruct (did_in d (outs q)); auto. discriminate.
  - intros a b. rewrite Cc. eexists. split; [reflexivity|]. destruct (Nat.eqb a p && Nat.eqb b dest) eqn:Q; [|auto]. apply andb_true_iff in Q as [Q1 Q2].
    apply Nat.eqb_eq in Q1 as ->. apply Nat.eqb_eq in Q2 as ->. right. exists q, l. split; auto. split; auto. split.
    + split; [exists t; auto|]. split; auto. split; auto. split.
      * exists f. split; auto. rewrite St. apply Arr; [simpl; auto|]. destruct (F2 f F1a) as (_ & B & _). exact B.
      * intros d I. rewrite St. destruct (store w0 d) as [v|] eqn:S.
        -- destruct (Arr d) as [Y|Y]; auto; [right; exact I|congruence].
        -- destruct (Pz d ltac:(right; exact I)) as [_ Z]. destruct (Z S) as [r Y]. right. right. right. exists r. apply in_or_app; auto.
    + intros q1 I d J1 J2. destruct (New d J2) as [_ Z]. apply Z.
      assert (X : exists t0 q0, In (t0, HSubmit dest q0) H /\ In d (qrefs q0)).
      { apply in_app_or in I as [I|I].
        - apply (v_line _ _ L) in I as ((t0 & q0 & I & (_ & _ & _ & Il)) & _). exists t0, q0. auto.
        - apply in_execq in I. apply in_split in I as (l1 & l2 & I). apply (v_chan _ _ L) in I as ((t0 & I) & _). exists t0, q1. auto. }
      destruct X as (t0 & q0 & X1 & X2). apply (v_sub _ _ L) in X1 as (_ & _ & X1). eapply origin_made. eauto.
  - intros t0 e [I|[]]. apply pair_inj in I as [_ <-]. exact Logic.I.
  - intros t0 o0 q0 [I|[]]. apply pair_inj in I as [_ I]. assert (o0 = dest) by congruence. assert (q0 = q) by congruence. subst o0 q0. split.
    + split; auto. split; [exists p; auto|]. intros d I'. apply Fq in I'. apply in_app_or in I' as [J|J].
      * left. apply put_more. apply F2. auto.
      * right. apply F3 in J as (_ & _ & r & t1 & q1 & J1 & J2). exists t1, r, q1. split; [apply in_or_app; auto|]. split; auto.
        apply (fr_below n F). unfold tasks_of. apply in_flat_map. eexists. split; [exact J1|]. simpl. auto.
    + exists p. rewrite Cc, !Nat.eqb_refl. simpl. apply in_or_app. right. apply in_or_app. simpl; auto.
  - exists pu, (out_ids o ++ ou). simpl. split; [apply F1c; apply new_len|]. split; [|split; auto].
    + intros d I. apply F2 in I as (A & B & D). rewrite Sa. split; auto. split; auto. apply put_more; auto.
    + intros d I. rewrite Sa, Oa, Ow. apply in_app_or in I as [I|I].
      * split; [apply New; auto|]. assert (D : did_in d (outs q) = true) by (apply did_in_In; exact I). rewrite D. split; [right; discriminate|].
        exists dest. apply produced_new. auto.
      * apply F3 in I as (A & B & r & D). split; auto. split; [|exists r; apply produced_more; auto]. destruct B as [B|B]; auto. right. destruct (did_in d (outs q)); auto. discriminate.
  - intros d v S. simpl in S. rewrite Sa in S. apply Th; [eapply (Mst p); eauto|exact (v_have _ _ L p d v S)].
  - intros a b d v. rewrite Cc. intros I. apply in_app_or in I as [I|I]; [apply Th; [eauto|exact (v_carry _ _ L _ _ _ _ I)]|].
    destruct (Nat.eqb a p && Nat.eqb b dest); [|destruct I]. apply in_app_or in I as [I|[I|[]]]; [|discriminate]. apply Pv' in I.
    apply Th; [eapply (Mst p); eauto|exact (v_have _ _ L p d v I)].
  - intros a b d v. rewrite Rc. intros I. apply Th; [eauto|exact (v_back _ _ L _ _ _ _ I)].
  - intros r d v _ S. apply Th; [eapply (Mst r); eauto|exact (v_have _ _ L r d v S)].
  - eapply net_wants; [apply want_upd; unfold wantof; rewrite Ec, Eg; reflexivity|].
    eapply net_ext with (W := upd (W n) p w1); [intros r; apply w_upd|reflexivity|exact Rc|].
    eapply (net_msg _ _ _ _ _ _ p _ dest (WExec q) N1); auto; [|split; [auto|exact Logic.I]].
    intros a b. rewrite Cc. unfold C1, to_one. destruct (Nat.eqb a p && Nat.eqb b dest); rewrite ?app_nil_r, <- ?app_assoc; auto.
Qed.

End Call.
