(** C55: what the store holds is what direct calls give. *)
From Verif Require Import Lib ValModel PyseqModel PyseqSpec PyseqProofs PympModel PympSpec PympProofs.

Section Direct.
Variable nw : nat.
Hypothesis pos : 0 < nw.
Variable body cbody : nat -> list val -> kwargs -> res.
Variable mbody : nat -> val -> list val -> kwargs -> res * val.
Variable item : val -> nat -> option val.
Variable iterable callable bytes : val -> bool.
Variable dumps : val -> val.
Variable loads : val -> res.
Variable storable : val -> bool.
Hypothesis PR : plain_results body mbody bytes item.
Hypothesis PK : pickle_ok callable bytes dumps loads.

Notation outcome := (outcome body cbody mbody item).
Notation state := (state body cbody mbody item).
Notation argument := (argument body cbody mbody item).
Notation pstep := (pstep nw body cbody mbody item iterable callable bytes dumps loads storable).
Notation prun := (prun nw body cbody mbody item iterable callable bytes dumps loads storable).
Notation work := (work body mbody item iterable bytes loads storable).
Notation unpack := (unpack bytes loads).

(** The arguments of a task, evaluated directly. *)
Definition args_of (h : hist) (args : list val) (kw : kwargs) : option (list val * kwargs + nat) :=
  match all_ok (map (argument h) args), all_ok (map (argument h) (map snd kw)) with
  | Some (inl vs), Some (inl ks) => Some (inl (vs, combine (map fst kw) ks))
  | Some (inl _), Some (inr e) | Some (inr e), _ => Some (inr e)
  | _, _ => None
  end.

Definition fun_part (h : hist) (f : nat) (t : task) (k : nat) : option res :=
  match args_of h (k_args t) (k_kw t) with
  | Some (inl (vs, kw)) => part item (body f vs kw) (length (k_out t)) k
  | Some (inr e) => Some (Exn e)
  | None => None
  end.

Definition meth_part (h : hist) (m : nat) (s : val) (t : task) (k : nat) : option res :=
  match args_of h (k_args t) (k_kw t) with
  | Some (inl (vs, kw)) => part item (fst (mbody m s vs kw)) (length (k_out t)) k
  | Some (inr e) => Some (Exn e)
  | None => None
  end.

Definition meth_next (h : hist) (m : nat) (s : val) (t : task) : val :=
  match args_of h (k_args t) (k_kw t) with
  | Some (inl (vs, kw)) => snd (mbody m s vs kw)
  | _ => s
  end.

(** Pending calls of an actor *)
Definition call_of (a : nat) (t : task) : option nat :=
  match k_callee t with Meth b m => if Nat.eqb b a then Some m else None | Fun _ => None end.

Fixpoint expect (h : hist) (a : nat) (s : val) (q : list task) : Prop :=
  match q with
  | [] => state h a = Some s
  | t :: r => match call_of a t with
              | None => expect h a s r
              | Some m => (forall k d, nth_error (k_out t) k = Some d -> outcome h d = meth_part h m s t k) /\
                          expect h a (meth_next h m s t) r
              end
  end.

Record DI (st : pst) (h : hist) : Prop := {
  di_ref : forall d, In d (returned h) -> snd d < p_next st /\ p_store st d <> None /\
           forall v, p_store st d = Some (Cell v) -> outcome h d = Some (unpack v);
  di_tops : forall w t, In t (p_queue st w) -> incl (task_tops t) (returned h);
  di_outs : forall w t, In t (p_queue st w) -> incl (k_out t) (returned h);
  di_fun : forall w t f k d, In t (p_queue st w) -> k_callee t = Fun f -> nth_error (k_out t) k = Some d ->
           outcome h d = fun_part h f t k;
  di_act : forall a x, nth_error (p_actors st) a = Some x -> expect h a (t_state x) (p_queue st (t_worker x))
}.

(** *** History grows *)
Section Grow.
Variable h : hist.
Variable o : qop.
Variable out : qout.
Hypothesis fresh : forall d, In d (out_refs out) -> ~ In d (returned h).

Lemma grow_outcome : forall d, In d (returned h) -> outcome ((o, out) :: h) d = outcome h d.
Proof.
  intros d J. rewrite outcome_cons. destruct (place d out) as [i|] eqn:P; auto.
  apply place_refs, nth_error_In in P. destruct (fresh _ P J).
Qed.

Lemma grow_args : forall l, incl (tops l) (returned h) ->
  map (argument ((o, out) :: h)) l = map (argument h) l.
Proof.
  intros l I. apply map_ext_in. intros v J. unfold PyseqSpec.argument. destruct v; auto.
  apply grow_outcome. apply I. unfold tops. apply in_flat_map. exists (VRef d). simpl. auto.
Qed.

Lemma grow_args_of : forall args kw, incl (tops args ++ tops (map snd kw)) (returned h) ->
  args_of ((o, out) :: h) args kw = args_of h args kw.
Proof.
  intros args kw I. unfold args_of. rewrite !grow_args; auto.
  - intros d J. apply I. apply in_or_app. auto.
  - intros d J. apply I. apply in_or_app. auto.
Qed.

Lemma grow_expect : forall a q s, (forall t, In t q -> incl (task_tops t) (returned h)) ->
  (forall t, In t q -> incl (k_out t) (returned h)) ->
  state ((o, out) :: h) a = state h a ->
  expect h a s q -> expect ((o, out) :: h) a s q.
Proof.
  intros a q. induction q as [|t q IH]; intros s T O S E; simpl in *.
  - rewrite S. auto.
  - destruct (call_of a t) as [m|]; auto. destruct E as [E1 E2].
    assert (A : args_of ((o, out) :: h) (k_args t) (k_kw t) = args_of h (k_args t) (k_kw t))
      by (apply grow_args_of; apply T; auto).
    split.
    + intros k d N. rewrite grow_outcome by (apply (O t); auto; eapply nth_error_In; eauto).
      unfold meth_part. rewrite A. apply E1. auto.
    + unfold meth_next. rewrite A. apply IH; auto.
Qed.
End Grow.

Lemma refs_out_refs : forall ds, out_refs (refs_out ds) = ds.
Proof. intros [|d [|e ds]]; reflexivity. Qed.

Lemma refs_out_place : forall ds k d, NoDup ds -> nth_error ds k = Some d -> place d (refs_out ds) = Some k.
Proof.
  intros ds k d ND N.
  destruct (place_In d (refs_out ds)) as [i P].
  { rewrite refs_out_refs. eapply nth_error_In; eauto. }
  rewrite P. f_equal. apply place_refs in P. rewrite refs_out_refs in P.
  eapply NoDup_nth_error; eauto.
  - apply nth_error_Some. rewrite P. discriminate.
  - congruence.
Qed.

Lemma outcome_submit : forall f args kw n r ds h k d, NoDup ds -> nth_error ds k = Some d ->
  outcome ((QSubmit f args kw n r, refs_out ds) :: h) d =
  match args_of h args kw with
  | Some (inl (vs, ks)) => part item (body f vs ks) n k
  | Some (inr e) => Some (Exn e)
  | None => None
  end.
Proof.
  intros f args kw n r ds h k d ND N. rewrite outcome_cons, (refs_out_place _ _ _ ND N). unfold args_of.
  destruct (all_ok (map (argument h) args)) as [[vs|e]|]; auto;
  destruct (all_ok (map (argument h) (map snd kw))) as [[ks|e']|]; auto.
Qed.

Lemma outcome_call : forall a m args kw n ds h k d s, NoDup ds -> nth_error ds k = Some d -> state h a = Some s ->
  outcome ((QCall a m args kw n, refs_out ds) :: h) d =
  match args_of h args kw with
  | Some (inl (vs, ks)) => part item (fst (mbody m s vs ks)) n k
  | Some (inr e) => Some (Exn e)
  | None => None
  end.
Proof.
  intros a m args kw n ds h k d s ND N S. rewrite outcome_cons, (refs_out_place _ _ _ ND N), S. unfold args_of.
  destruct (all_ok (map (argument h) args)) as [[vs|e]|]; auto;
  destruct (all_ok (map (argument h) (map snd kw))) as [[ks|e']|]; auto.
Qed.

Lemma state_call : forall a m args kw n out h s, state h a = Some s ->
  state ((QCall a m args kw n, out) :: h) a =
  Some (match args_of h args kw with Some (inl (vs, ks)) => snd (mbody m s vs ks) | _ => s end).
Proof.
  intros a m args kw n out h s S. rewrite state_cons, Nat.eqb_refl, S. unfold args_of.
  destruct (all_ok (map (argument h) args)) as [[vs|e]|]; auto;
  destruct (all_ok (map (argument h) (map snd kw))) as [[ks|e']|]; auto.
Qed.

Lemma new_fresh : forall st h n, DI st h -> forall d, In d (new_ids st n) -> ~ In d (returned h).
Proof.
  intros st h n D d J K. apply new_ids_In in J. destruct (di_ref _ _ D _ K) as (L & _). lia.
Qed.

(** *** Placing a task *)
Lemma expect_snoc : forall h a t q s, call_of a t = None -> expect h a s q -> expect h a s (q ++ [t]).
Proof.
  intros h a t q. induction q as [|x q IH]; intros s C E; simpl in *.
  - rewrite C. auto.
  - destruct (call_of a x); auto. destruct E. split; auto.
Qed.

Lemma di_place : forall st h t w wid o, DI st h -> k_out t = new_ids st (length (k_out t)) ->
  incl (task_tops t) (returned h) ->
  (match k_callee t with
   | Fun f => o = QSubmit f (k_args t) (k_kw t) (length (k_out t)) false
   | Meth a m => o = QCall a m (k_args t) (k_kw t) (length (k_out t)) /\
                 exists x, nth_error (p_actors st) a = Some x /\ t_worker x = w
   end) ->
  DI (place_task st t w wid) ((o, refs_out (k_out t)) :: h).
Proof.
  intros st h t w wid o D O T K.
  assert (FR : forall d, In d (out_refs (refs_out (k_out t))) -> ~ In d (returned h)).
  { intros d J. rewrite refs_out_refs, O in J. eapply new_fresh; eauto. }
  assert (ND : NoDup (k_out t)) by (rewrite O; apply new_ids_NoDup).
  assert (RE : returned ((o, refs_out (k_out t)) :: h) = k_out t ++ returned h) by apply refs_out_returned.
  assert (A : args_of ((o, refs_out (k_out t)) :: h) (k_args t) (k_kw t) = args_of h (k_args t) (k_kw t))
    by (apply grow_args_of; auto).
  assert (QI : forall w' t', In t' (p_queue (place_task st t w wid) w') -> (w' = w /\ t' = t) \/ In t' (p_queue st w')).
  { intros w' t' J. cbn [place_task p_queue] in J. destruct (Nat.eq_dec w' w) as [->|N].
    - rewrite upd_same in J. apply in_app_or in J. destruct J as [J|[<-|[]]]; auto.
    - rewrite upd_other in J; auto. }
  split.
  - intros d J. rewrite RE in J. cbn [place_task p_next p_store]. rewrite delay_spec.
    apply in_app_or in J. destruct J as [J|J].
    + pose proof J as J'. rewrite O in J'. apply new_ids_In in J'. split; [lia|].
      apply did_in_In in J. rewrite J. split; discriminate.
    + destruct (di_ref _ _ D _ J) as (L & S & V). split; [lia|].
      assert (NI : did_in d (k_out t) = false).
      { apply did_in_false. intros I. apply (FR d); auto. rewrite refs_out_refs. auto. }
      rewrite NI. split; auto. intros v E. rewrite grow_outcome; auto.
  - intros w' t' J d I. rewrite RE. apply in_or_app. right. destruct (QI _ _ J) as [[_ ->]|J']; auto.
    eapply di_tops; eauto.
  - intros w' t' J d I. rewrite RE. apply in_or_app. destruct (QI _ _ J) as [[_ ->]|J']; auto.
    right. eapply di_outs; eauto.
  - intros w' t' f k d J C N. destruct (QI _ _ J) as [[_ ->]|J'].
    + rewrite C in K. subst o. rewrite (outcome_submit _ _ _ _ _ _ _ k) by auto.
      unfold fun_part. rewrite A. auto.
    + rewrite grow_outcome; auto; [|eapply di_outs; eauto; eapply nth_error_In; eauto].
      unfold fun_part. rewrite grow_args_of; auto; [|eapply di_tops; eauto].
      eapply di_fun; eauto.
  - intros a x E. cbn [place_task p_actors] in E. pose proof (di_act _ _ D _ _ E) as X.
    assert (TQ : forall t', In t' (p_queue st (t_worker x)) -> incl (task_tops t') (returned h))
      by (intros; eapply di_tops; eauto).
    assert (OQ : forall t', In t' (p_queue st (t_worker x)) -> incl (k_out t') (returned h))
      by (intros; eapply di_outs; eauto).
    assert (CO : call_of a t = None -> state ((o, refs_out (k_out t)) :: h) a = state h a).
    { intros C. unfold call_of in C. rewrite state_cons. destruct (k_callee t) as [f|b m].
      - subst o. auto.
      - destruct K as [-> _]. destruct (Nat.eqb_spec b a); [discriminate|auto]. }
    cbn [place_task p_queue]. destruct (call_of a t) as [m|] eqn:C.
    + (* a call of this actor *)
      assert (KC : k_callee t = Meth a m).
      { unfold call_of in C. destruct (k_callee t) as [f|b m']; [discriminate|].
        destruct (Nat.eqb_spec b a); [|discriminate]. apply Some_inj in C. subst. auto. }
      rewrite KC in K. destruct K as [EO (x' & E' & W)]. rewrite E in E'. apply Some_inj in E'. subst x'.
      rewrite W, upd_same. rewrite W in X, TQ, OQ. clear CO QI E.
      revert X TQ OQ. generalize (t_state x) as s. generalize (p_queue st w) as q.
      induction q as [|y q IH]; intros s X TQ OQ; simpl in X |- *.
      * rewrite C. split.
        -- intros k d N. rewrite EO. rewrite (outcome_call _ _ _ _ _ _ _ k _ s) by auto.
           unfold meth_part. rewrite <- EO. rewrite A. auto.
        -- rewrite EO. rewrite (state_call _ _ _ _ _ _ _ s) by auto. unfold meth_next. rewrite <- EO, A.
           destruct (args_of h (k_args t) (k_kw t)) as [[[vs ks]|e]|]; auto.
      * assert (AY : args_of ((o, refs_out (k_out t)) :: h) (k_args y) (k_kw y) = args_of h (k_args y) (k_kw y))
          by (apply grow_args_of; auto; apply TQ; simpl; auto).
        destruct (call_of a y) as [m'|].
        -- destruct X as [X1 X2]. split.
           ++ intros k d N. rewrite grow_outcome; auto.
              ** unfold meth_part. rewrite AY. apply X1. auto.
              ** apply (OQ y); simpl; auto. eapply nth_error_In; eauto.
           ++ unfold meth_next at 1. rewrite AY. apply IH; auto; intros t' J; [apply TQ|apply OQ]; simpl; auto.
        -- apply IH; auto; intros t' J; [apply TQ|apply OQ]; simpl; auto.
    + specialize (CO eq_refl). destruct (Nat.eq_dec (t_worker x) w) as [W|N].
      * rewrite W, upd_same. rewrite W in X, TQ, OQ. apply expect_snoc; auto. apply grow_expect; auto.
      * rewrite upd_other by auto. apply grow_expect; auto.
Qed.

Lemma di_quiet : forall st st' h o out, DI st h -> out_refs out = [] ->
  (forall a x, nth_error (p_actors st) a = Some x -> state ((o, out) :: h) a = state h a) ->
  p_next st <= p_next st' -> (forall d, snd d < p_next st -> p_store st' d = p_store st d) ->
  p_queue st' = p_queue st ->
  (forall a x, nth_error (p_actors st') a = Some x ->
     nth_error (p_actors st) a = Some x \/ expect ((o, out) :: h) a (t_state x) (p_queue st (t_worker x))) ->
  DI st' ((o, out) :: h).
Proof.
  intros st st' h o out D R ST N S Q A.
  assert (FR : forall d, In d (out_refs out) -> ~ In d (returned h)) by (rewrite R; intros d []).
  assert (RE : returned ((o, out) :: h) = returned h) by (rewrite returned_cons, R; auto).
  split; rewrite ?RE, ?Q.
  - intros d J. destruct (di_ref _ _ D _ J) as (L & X & V). split; [lia|]. rewrite S by auto. split; auto.
    intros v E. rewrite grow_outcome; auto.
  - intros w t J. eapply di_tops; eauto.
  - intros w t J. eapply di_outs; eauto.
  - intros w t f k d J C E. rewrite grow_outcome; auto; [|eapply di_outs; eauto; eapply nth_error_In; eauto].
    unfold fun_part. rewrite grow_args_of; auto; [|eapply di_tops; eauto]. eapply di_fun; eauto.
  - intros a x E. destruct (A _ _ E) as [E'|X]; auto. apply grow_expect; auto.
    + intros t J. eapply di_tops; eauto.
    + intros t J. eapply di_outs; eauto.
    + eapply ST; eauto.
    + eapply di_act; eauto.
Qed.

(** *** Reading arguments *)
Lemma pmat_direct : forall st h l, DI st h -> incl (tops l) (returned h) ->
  match pmat bytes loads st l with
  | Mat vs => all_ok (map (argument h) l) = Some (inl vs)
  | MatExc e => all_ok (map (argument h) l) = Some (inr e)
  | MatLater => True
  end.
Proof.
  intros st h l D. induction l as [|v l IH]; intros I; simpl; auto.
  assert (I' : incl (tops l) (returned h)) by (intros d J; apply I; unfold tops; simpl; apply in_or_app; auto).
  specialize (IH I').
  assert (V : match (match v with VRef d => pget bytes loads st d | _ => Look (Ret v) end) with
              | Look r => argument h v = Some r | Later => True | Unknown => False end).
  { destruct v; simpl; auto. assert (J : In d (returned h)) by (apply I; unfold tops; simpl; auto).
    destruct (di_ref _ _ D _ J) as (_ & S & X). unfold pget. destruct (p_store st d) as [[|c]|]; auto. }
  destruct (match v with VRef d => pget bytes loads st d | _ => Look (Ret v) end) as [[x|e]| |]; auto.
  - rewrite V. destruct (pmat bytes loads st l); auto; rewrite IH; auto.
  - rewrite V. auto.
  - contradiction.
Qed.

Lemma zip_store_gen : forall ds m v i m' ok, zip_store item storable m ds v i = (m', ok) ->
  forall d, m' d = m d \/ exists k x, nth_error ds k = Some d /\ nth_item item v (i + k) = Some x /\ m' d = Some (Cell x).
Proof.
  induction ds as [|y ds IH]; intros m v i m' ok H d; simpl in H.
  - apply pair_inj in H as [<- _]. auto.
  - destruct (nth_item item v i) as [x|] eqn:X; [|apply pair_inj in H as [<- _]; auto].
    destruct (storable x); [|apply pair_inj in H as [<- _]; auto].
    destruct (IH _ _ _ _ _ H d) as [E|(k & z & A & B & C)].
    + destruct (did_dec y d) as [<-|N].
      * right. exists 0, x. rewrite Nat.add_0_r. rewrite E, dput_same. auto.
      * left. rewrite E. apply dput_other. auto.
    + right. exists (S k), z. split; auto. split; auto. rewrite <- B. f_equal. lia.
Qed.

Lemma store_outcome_gen : forall m ds r m' ok, store_outcome item iterable storable m ds r = (m', ok) ->
  forall d, m' d = m d \/ exists k x, nth_error ds k = Some d /\ m' d = Some (Cell x) /\
    match r with
    | Exn e => x = VExc e
    | Ret v => if Nat.eqb (length ds) 1 then x = v else nth_item item v k = Some x
    end.
Proof.
  intros m ds r m' ok H d. destruct r as [v|e]; simpl in H.
  - destruct ds as [|d1 [|d2 ds]].
    + apply pair_inj in H as [<- _]. auto.
    + destruct (storable v); apply pair_inj in H as [<- _]; auto.
      destruct (did_dec d1 d) as [<-|N].
      * right. exists 0, v. rewrite dput_same. simpl. auto.
      * left. apply dput_other. auto.
    + destruct (can_iterate iterable v); [|apply pair_inj in H as [<- _]; auto].
      destruct (zip_store_gen _ _ _ _ _ _ H d) as [E|(k & x & A & B & C)]; auto.
      right. exists k, x. auto.
  - destruct (storable (VExc e)); apply pair_inj in H as [<- _]; auto. rewrite store_exn.
    destruct (did_in d ds) eqn:E; auto. right. apply did_in_In, In_nth_error in E. destruct E as [k E].
    exists k, (VExc e). auto.
Qed.

Lemma unpack_plain : forall v, plain_value bytes v -> unpack v = Ret v.
Proof. intros v [E B]. unfold PympModel.unpack. destruct v; simpl in *; try discriminate; rewrite B; auto. Qed.

(** A value stored for an output is its part of the result. *)
Lemma part_stored : forall r n k x, match r with Exn _ => True | Ret v => plain_result bytes item v end ->
  match r with
  | Exn e => x = VExc e
  | Ret v => if Nat.eqb n 1 then x = v else nth_item item v k = Some x
  end -> part item r n k = Some (unpack x).
Proof.
  intros r n k x P E. destruct r as [v|e]; simpl.
  - destruct P as [P1 P2]. destruct (Nat.eqb n 1).
    + subst. rewrite unpack_plain; auto.
    + change (index item v k = Some x) in E. rewrite E. simpl. rewrite unpack_plain; eauto.
  - subst. auto.
Qed.

Lemma di_work : forall st h w st', QI nw st -> KI st -> DI st h -> work st w = Some st' -> DI st' h.
Proof.
  intros st h w st' Q KIst D H. apply work_spec in H.
  destruct H as (t & q & r & m & ok & acts & QW & _ & SO & _ & -> & R).
  pose proof (store_outcome_gen _ _ _ _ _ SO) as SG.
  assert (TI : In t (p_queue st w)) by (rewrite QW; simpl; auto).
  assert (TT : incl (tops (k_args t)) (returned h) /\ incl (tops (map snd (k_kw t))) (returned h)).
  { pose proof (di_tops _ _ D _ _ TI) as I. split; intros d J; apply I; apply in_or_app; auto. }
  destruct TT as [T1 T2].
  pose proof (pmat_direct st h _ D T1) as M1. pose proof (pmat_direct st h _ D T2) as M2.
  (* the result, evaluated directly *)
  assert (AR : match r with
    | Exn e => (args_of h (k_args t) (k_kw t) = Some (inr e) /\ acts = p_actors st) \/
               exists vs kw, args_of h (k_args t) (k_kw t) = Some (inl (vs, kw)) /\
                 call body mbody (p_actors st) t vs kw = (r, acts)
    | Ret _ => exists vs kw, args_of h (k_args t) (k_kw t) = Some (inl (vs, kw)) /\
                 call body mbody (p_actors st) t vs kw = (r, acts)
    end).
  { destruct R as [(e & -> & EA & W)|(vs & ks & E1 & E2 & C)].
    - left. split; auto. unfold args_of. destruct W as [E1|(vs & E1 & E2)].
      + rewrite E1 in M1. rewrite M1. auto.
      + rewrite E1 in M1. rewrite E2 in M2. rewrite M1, M2. auto.
    - rewrite E1 in M1. rewrite E2 in M2.
      assert (AA : args_of h (k_args t) (k_kw t) = Some (inl (vs, combine (map fst (k_kw t)) ks))).
      { unfold args_of. rewrite M1, M2. auto. }
      destruct r; [|right]; exists vs, (combine (map fst (k_kw t)) ks); auto. }
  (* its effect on the actors, and the outcomes of the outputs *)
  assert (OUT : (forall k d x, nth_error (k_out t) k = Some d ->
       match r with
       | Exn e => x = VExc e
       | Ret v => if Nat.eqb (length (k_out t)) 1 then x = v else nth_item item v k = Some x
       end -> outcome h d = Some (unpack x)) /\
     (forall a x, nth_error acts a = Some x -> expect h a (t_state x) (upd (p_queue st) w q (t_worker x)))).
  { destruct (k_callee t) as [f|b mm] eqn:KC.
    - assert (NA : acts = p_actors st).
      { destruct r; [|destruct AR as [[_ AR]|AR]; auto]; destruct AR as (vs & kw & _ & C); unfold call in C;
          rewrite KC in C; apply pair_inj in C as [_ <-]; auto. }
      split.
      + intros k d x N E. rewrite (di_fun _ _ D _ _ _ _ _ TI KC N). unfold fun_part. destruct r as [v|e].
        * destruct AR as (vs & kw & AA & C). rewrite AA. unfold call in C. rewrite KC in C.
          apply pair_inj in C as [C _]. rewrite C. apply part_stored; auto. eapply (proj1 PR); eauto.
        * destruct AR as [[AA _]|(vs & kw & AA & C)]; rewrite AA.
          -- subst. auto.
          -- unfold call in C. rewrite KC in C. apply pair_inj in C as [C _]. rewrite C. apply part_stored; auto.
      + subst acts. intros a x E. pose proof (di_act _ _ D _ _ E) as X.
        destruct (Nat.eq_dec (t_worker x) w) as [W|W].
        * rewrite W, upd_same. rewrite W, QW in X. simpl in X. unfold call_of in X. rewrite KC in X. auto.
        * rewrite upd_other by auto. auto.
    - assert (LG : In (w, t) (p_log st)) by (eapply pending_log; eauto).
      destruct (qi_meth _ _ Q _ _ _ _ LG KC) as (y & EY & WY).
      pose proof (di_act _ _ D _ _ EY) as X. rewrite WY, QW in X. simpl in X.
      assert (CB : call_of b t = Some mm) by (unfold call_of; rewrite KC, Nat.eqb_refl; auto).
      rewrite CB in X. destruct X as [X1 X2].
      assert (NEXT : forall vs kw, args_of h (k_args t) (k_kw t) = Some (inl (vs, kw)) ->
         call body mbody (p_actors st) t vs kw = (r, acts) ->
         mbody mm (t_state y) vs kw = (r, snd (mbody mm (t_state y) vs kw)) /\
         acts = set_state (p_actors st) b (meth_next h mm (t_state y) t)).
      { assert (LY : t_live y = true).
        { assert (G : gone (p_actors st) t = false) by (apply KIst; exists w; auto). unfold gone in G.
          rewrite KC, EY in G. destruct (t_live y); auto. }
        intros vs kw AA C. unfold call in C. rewrite KC, EY, LY in C. unfold meth_next. rewrite AA.
        destruct (mbody mm (t_state y) vs kw) as [r' s']. apply pair_inj in C as [<- <-]. auto. }
      assert (OTHER : forall a x, a <> b -> nth_error (p_actors st) a = Some x ->
        expect h a (t_state x) (upd (p_queue st) w q (t_worker x))).
      { intros a x N E. pose proof (di_act _ _ D _ _ E) as X. destruct (Nat.eq_dec (t_worker x) w) as [W|W].
        - rewrite W, upd_same. rewrite W, QW in X. simpl in X. unfold call_of in X. rewrite KC in X.
          destruct (Nat.eqb_spec b a); [congruence|auto].
        - rewrite upd_other by auto. auto. }
      assert (SELF : acts = set_state (p_actors st) b (meth_next h mm (t_state y) t) \/
                     (acts = p_actors st /\ meth_next h mm (t_state y) t = t_state y)).
      { destruct r as [v|e].
        - destruct AR as (vs & kw & AA & C). left. apply (NEXT _ _ AA C).
        - destruct AR as [[AA EA]|(vs & kw & AA & C)].
          + right. split; auto. unfold meth_next. rewrite AA. auto.
          + left. apply (NEXT _ _ AA C). }
      split.
      + intros k d x N E. rewrite (X1 _ _ N). unfold meth_part. destruct r as [v|e].
        * destruct AR as (vs & kw & AA & C). rewrite AA. destruct (NEXT _ _ AA C) as [B _]. rewrite B. simpl fst.
          apply part_stored; auto. eapply (proj2 PR); eauto.
        * destruct AR as [[AA _]|(vs & kw & AA & C)]; rewrite AA.
          -- subst. auto.
          -- destruct (NEXT _ _ AA C) as [B _]. rewrite B. simpl fst. apply part_stored; auto.
      + intros a x E. destruct SELF as [->|[-> MN]].
        * rewrite set_state_nth in E. destruct (nth_error (p_actors st) a) as [z|] eqn:EZ; [|discriminate].
          apply Some_inj in E. destruct (Nat.eqb_spec b a) as [<-|N].
          -- rewrite EY in EZ. apply Some_inj in EZ. subst z x. simpl. rewrite WY, upd_same. auto.
          -- subst x. apply OTHER; auto.
        * destruct (Nat.eq_dec a b) as [->|N].
          -- rewrite EY in E. apply Some_inj in E. subst x. rewrite WY, upd_same. rewrite <- MN. auto.
          -- apply OTHER; auto. }
  destruct OUT as [OUT ACT].
  assert (SUB : forall w' t', In t' (upd (p_queue st) w q w') -> In t' (p_queue st w')).
  { intros w' t' J. destruct (Nat.eq_dec w' w) as [->|N].
    - rewrite upd_same in J. rewrite QW. simpl. auto.
    - rewrite upd_other in J; auto. }
  split; cbn [p_next p_store p_queue p_actors]; auto.
  - intros d J. destruct (di_ref _ _ D _ J) as (L & S & V). split; auto.
    destruct (SG d) as [E|(k & x & N & E & X)].
    + rewrite E. auto.
    + rewrite E. split; [discriminate|]. intros v EV. inversion EV. subst v. eauto.
  - intros w' t' J. eapply di_tops; eauto.
  - intros w' t' J. eapply di_outs; eauto.
  - intros w' t' f k d J. eapply di_fun; eauto.
Qed.

Lemma di_step : forall st h o st' e, QI nw st -> KI st -> DI st h -> pstep st o = (st', e) ->
  match e with
  | Some (q, out) => known h q -> (forall v, q = QPut v -> plain_value bytes v) -> DI st' ((q, out) :: h)
  | None => DI st' h
  end.
Proof.
  intros st h o st' e Q KIst D H. destruct o; cbn [PympModel.pstep] in H.
  - apply pair_inj in H as [<- <-]. intros _ PV. specialize (PV v eq_refl).
    assert (FR : forall d, In d (out_refs (ORef (0, p_next st))) -> ~ In d (returned h)).
    { intros d [<-|[]] J. destruct (di_ref _ _ D _ J) as (L & _). simpl in L. lia. }
    assert (NE : forall d, In d (returned h) -> (0, p_next st) <> d).
    { intros d J <-. apply (FR (0, p_next st)); simpl; auto. }
    split; cbn [p_next p_store p_queue p_actors].
    + intros d J. simpl in J. destruct J as [<-|J].
      * split; [simpl; lia|]. rewrite dput_same. split; [discriminate|]. intros x E. inversion E. subst x.
        rewrite outcome_cons. cbn [place find_ref]. rewrite did_eqb_refl. f_equal. unfold pack.
        destruct (callable v) eqn:C.
        -- destruct (PK _ C) as (A & B & G). unfold PympModel.unpack. rewrite B, G. destruct (dumps v); auto. discriminate.
        -- rewrite unpack_plain; auto.
      * destruct (di_ref _ _ D _ J) as (L & S & V). split; [lia|]. rewrite dput_other by auto. split; auto.
        intros x E. rewrite grow_outcome; auto.
    + intros w t J d I. simpl. right. eapply di_tops; eauto.
    + intros w t J d I. simpl. right. eapply di_outs; eauto.
    + intros w t f k d J C E. rewrite grow_outcome; auto; [|eapply di_outs; eauto; eapply nth_error_In; eauto].
      unfold fun_part. rewrite grow_args_of; auto; [|eapply di_tops; eauto]. eapply di_fun; eauto.
    + intros a x E. apply grow_expect; auto.
      * intros t J. eapply di_tops; eauto.
      * intros t J. eapply di_outs; eauto.
      * eapply di_act; eauto.
  - assert (LN : length (new_ids st n) = n) by (unfold new_ids; rewrite map_length, seq_length; auto).
    destruct (pick nw (p_grab st) (p_wid st) nw) as [[w|] wid]; apply pair_inj in H as [<- <-]; intros K _.
    + set (t := {| k_id := length (p_log st); k_callee := Fun f; k_args := args; k_kw := kw; k_out := new_ids st n |}).
      replace (QSubmit f args kw n false) with (QSubmit f args kw (length (k_out t)) false) by (simpl; rewrite LN; auto).
      apply (di_place st h t w wid); simpl; auto.
    + apply (di_quiet st); simpl; auto; [lia|].
      intros d L. rewrite delay_spec. replace (did_in d (new_ids st n)) with false; auto. symmetry.
      apply did_in_false. intros J. apply new_ids_In in J. lia.
  - destruct (cbody c args kw) as [s|x] eqn:CB.
    + destruct (grab_worker nw (p_grab st)) as [w|]; apply pair_inj in H as [<- <-]; intros _ _.
      * apply (di_quiet st); simpl; auto.
        -- intros a x E. rewrite state_cons. destruct (Nat.eqb_spec (length (p_actors st)) a) as [<-|]; auto.
           assert (length (p_actors st) < length (p_actors st)) by (apply nth_error_Some; rewrite E; discriminate). lia.
        -- intros a x E. destruct (Nat.lt_ge_cases a (length (p_actors st))) as [LT|GE].
           ++ rewrite nth_error_app1 in E by auto. auto.
           ++ rewrite nth_error_app2 in E by auto. destruct (a - length (p_actors st)) as [|k] eqn:A;
                [|simpl in E; destruct k; discriminate].
              simpl in E. apply Some_inj in E. subst x. simpl. right.
              assert (a = length (p_actors st)) by lia. subst a.
              assert (G : forall q, (forall t, In t q -> In t (p_queue st w)) ->
                expect ((QActor c args kw false, OActor (length (p_actors st))) :: h) (length (p_actors st)) s q).
              { induction q as [|t q IH]; intros I; cbn [expect].
                - rewrite state_cons, Nat.eqb_refl, CB. auto.
                - assert (C : call_of (length (p_actors st)) t = None).
                  { unfold call_of. destruct (k_callee t) as [f|b mm] eqn:KC; auto.
                    destruct (qi_meth _ _ Q w t b mm) as (y & EY & _); auto.
                    { eapply pending_log; eauto. apply I. simpl. auto. }
                    destruct (Nat.eqb_spec b (length (p_actors st))) as [->|]; auto.
                    assert (length (p_actors st) < length (p_actors st)) by (apply nth_error_Some; rewrite EY; discriminate). lia. }
                  rewrite C. apply IH. intros t' J. apply I. simpl. auto. }
              apply G. auto.
      * apply (di_quiet st); simpl; auto.
    + apply pair_inj in H as [<- <-]; intros _ _. apply (di_quiet st); simpl; auto.
  - assert (LN : length (new_ids st n) = n) by (unfold new_ids; rewrite map_length, seq_length; auto).
    destruct (nth_error (p_actors st) a) as [x|] eqn:E; [|apply pair_inj in H as [<- <-]; auto].
    destruct (t_live x); apply pair_inj in H as [<- <-]; auto. intros K _.
    set (t := {| k_id := length (p_log st); k_callee := Meth a m; k_args := args; k_kw := kw; k_out := new_ids st n |}).
    replace (QCall a m args kw n) with (QCall a m args kw (length (k_out t))) by (simpl; rewrite LN; auto).
    apply (di_place st h t (t_worker x) (p_wid st)); simpl; eauto.
  - destruct (nth_error (p_actors st) a) as [x|] eqn:E; [|apply pair_inj in H as [<- <-]; auto].
    destruct (t_live x); apply pair_inj in H as [<- <-]; auto.
    destruct D as [D1 D2 D3 D4 D5]. split; cbn [p_next p_store p_queue p_actors]; auto.
    intros b y F. rewrite kill_nth in F. destruct (nth_error (p_actors st) b) as [z|] eqn:Z; [|discriminate].
    apply Some_inj in F. specialize (D5 _ _ Z). destruct (Nat.eqb a b); subst y; auto.
  - apply pair_inj in H as [<- <-]. destruct (ki_take st w KIst) as [-> | ->]; auto. destruct D. split; auto.
  - destruct (work st w) as [st1|] eqn:W; apply pair_inj in H as [<- <-]; auto. eapply di_work; eauto.
Qed.

Lemma di_run_gen : forall ops st h st' h', QI nw st -> KI st -> DI st h -> prun st h ops = (st', h') -> legal h' ->
  plain_puts bytes h' -> handles_kept (fun l => fst (prun st h l)) ops -> DI st' h'.
Proof.
  induction ops as [|o r IH]; intros st h st' h' Q KI0 D H L P HK; simpl in H.
  - apply pair_inj in H as [<- <-]. auto.
  - destruct (pstep st o) as [st1 e] eqn:S.
    assert (Q1 : QI nw st1) by (eapply qi_step; eauto).
    destruct (kept_step _ _ _ _ _ _ _ _ _ _ _ _ _ _ _ _ _ S HK) as [HD HR].
    pose proof (ki_step _ _ _ _ _ _ _ _ _ _ _ _ _ _ _ Q KI0 S HD) as K1.
    pose proof (di_step _ _ _ _ _ Q KI0 D S) as D1. destruct e as [[q out]|].
    + pose proof H as H'. apply prun_ext in H'. destruct H' as [x E].
      assert (D2 : DI st1 ((q, out) :: h)).
      { apply D1.
        - subst h'. apply PympProofs.legal_tail in L. simpl in L. tauto.
        - intros v ->. apply (P v out). subst h'. apply in_or_app. simpl. auto. }
      eapply IH; eauto.
    + eapply IH; eauto.
Qed.

Lemma di_run : forall ops st h, prun pinit [] ops = (st, h) -> legal h -> plain_puts bytes h ->
  handles_kept (fun l => fst (prun pinit [] l)) ops -> DI st h.
Proof.
  intros ops st h H L P HK. eapply di_run_gen; eauto.
  - apply qi_init; auto.
  - apply ki_init.
  - split; simpl; try contradiction. intros a x E. destruct a; discriminate.
Qed.

Lemma read_direct : forall ops st h d r, prun pinit [] ops = (st, h) -> legal h -> plain_puts bytes h ->
  handles_kept (fun l => fst (prun pinit [] l)) ops -> In d (returned h) -> pget bytes loads st d = Look r -> outcome h d = Some r.
Proof.
  intros ops st h d r H L P HK J G. pose proof (di_run _ _ _ H L P HK) as D. destruct (di_ref _ _ D _ J) as (_ & _ & V).
  unfold pget in G. destruct (p_store st d) as [[|v]|]; try discriminate. inversion G. subst. auto.
Qed.

Lemma actor_direct : forall ops st h a x, prun pinit [] ops = (st, h) -> legal h -> plain_puts bytes h ->
  handles_kept (fun l => fst (prun pinit [] l)) ops -> nth_error (p_actors st) a = Some x -> (forall t, In t (p_queue st (t_worker x)) -> forall m, k_callee t <> Meth a m) ->
  state h a = Some (t_state x).
Proof.
  intros ops st h a x H L P HK E N. pose proof (di_act _ _ (di_run _ _ _ H L P HK) _ _ E) as X.
  revert X N. generalize (p_queue st (t_worker x)). induction l as [|t l IH]; simpl; intros X N; auto.
  assert (C : call_of a t = None).
  { unfold call_of. destruct (k_callee t) as [f|b m] eqn:K; auto. destruct (Nat.eqb_spec b a) as [->|]; auto.
    exfalso. apply (N t (or_introl eq_refl) m). auto. }
  rewrite C in X. apply IH; auto.
Qed.
End Direct.
