From Verif Require Import Lib ValModel PyseqModel PyseqSpec.

Section Proofs.
Variable body cbody : nat -> list val -> kwargs -> res.
Variable mbody : nat -> val -> list val -> kwargs -> res * val.
Variable item : val -> nat -> option val.
Hypothesis NE : no_exception_values body mbody item.

Notation outcome := (outcome body cbody mbody item).
Notation state := (state body cbody mbody item).
Notation argument := (argument body cbody mbody item).
Notation qstep := (qstep body cbody mbody item).
Notation qrun := (qrun body cbody mbody item).

Definition res_of (v : val) : res := match v with VExc e => Exn e | _ => Ret v end.

Definition Inv (st : qst) (h : hist) : Prop :=
  (forall d, In d (returned h) ->
     fst d = 0 /\ snd d < q_next st /\ exists v, q_store st d = Some v /\ outcome h d = Some (res_of v)) /\
  (forall a, nth_error (q_actors st) a = state h a).

Lemma outcome_cons : forall o out h d, outcome ((o, out) :: h) d =
  match place d out with
  | None => outcome h d
  | Some i =>
      match o with
      | QPut v => Some (Ret v)
      | QSubmit f args kw n _ =>
          match all_ok (map (argument h) args), all_ok (map (argument h) (map snd kw)) with
          | Some (inl vs), Some (inl ks) => part item (body f vs (combine (map fst kw) ks)) n i
          | Some (inl _), Some (inr e) | Some (inr e), _ => Some (Exn e)
          | _, _ => None
          end
      | QCall a m args kw n =>
          match state h a, all_ok (map (argument h) args), all_ok (map (argument h) (map snd kw)) with
          | Some s, Some (inl vs), Some (inl ks) => part item (fst (mbody m s vs (combine (map fst kw) ks))) n i
          | Some _, Some (inl _), Some (inr e) | Some _, Some (inr e), _ => Some (Exn e)
          | _, _, _ => None
          end
      | _ => None
      end
  end.
Proof. reflexivity. Qed.

Lemma state_cons : forall o out h a, state ((o, out) :: h) a =
  match o, out with
  | QActor c args kw _, OActor x =>
      if Nat.eqb x a then match cbody c args kw with Ret s => Some s | Exn _ => None end else state h a
  | QCall x m args kw _, _ =>
      if Nat.eqb x a
      then match state h a, all_ok (map (argument h) args), all_ok (map (argument h) (map snd kw)) with
           | Some s, Some (inl vs), Some (inl ks) => Some (snd (mbody m s vs (combine (map fst kw) ks)))
           | s, _, _ => s
           end
      else state h a
  | _, _ => state h a
  end.
Proof. reflexivity. Qed.

Lemma find_ref_In : forall d l i, find_ref d l = Some i -> nth_error l i = Some d.
Proof.
  intros d l. induction l as [|x r IH]; intros i H; simpl in H; [discriminate|].
  destruct (did_eqb x d) eqn:E.
  - apply did_eqb_eq in E. apply Some_inj in H. subst. auto.
  - destruct (find_ref d r); [|discriminate]. apply Some_inj in H. subst. simpl. auto.
Qed.

Lemma find_ref_None : forall d l, find_ref d l = None -> ~ In d l.
Proof.
  intros d l. induction l as [|x r IH]; intros H; simpl in H; [intros []|].
  destruct (did_eqb x d) eqn:E; [discriminate|]. apply did_eqb_neq in E.
  destruct (find_ref d r); [discriminate|]. intros [->|I]; auto. apply IH; auto.
Qed.

Definition out_refs (o : qout) : list dataid := match o with ORef d => [d] | ORefs l => l | _ => [] end.

Lemma place_In : forall d o, In d (out_refs o) -> exists i, place d o = Some i.
Proof.
  intros d o I. destruct (place d o) as [i|] eqn:E; eauto. exfalso.
  destruct o; simpl in *; auto.
  - destruct I as [->|[]]. rewrite did_eqb_refl in E. discriminate.
  - apply find_ref_None in E. auto.
Qed.

Lemma place_refs : forall d o i, place d o = Some i -> nth_error (out_refs o) i = Some d.
Proof.
  intros d o i H. destruct o; simpl in H; try discriminate.
  - change (find_ref d [d0] = Some i) in H. apply find_ref_In in H. auto.
  - apply find_ref_In in H. auto.
Qed.

(** Reading *)
Lemma get_spec : forall st h d, Inv st h -> In d (returned h) ->
  match outcome h d with
  | Some (Ret v) => qget st (VRef d) = Got v
  | Some (Exn e) => qget st (VRef d) = GotExc e
  | None => False
  end.
Proof.
  intros st h d [I _] K. destruct (I d K) as (_ & _ & v & S & O). rewrite O.
  unfold qget. rewrite S. destruct v; simpl; auto.
Qed.

Lemma top_in : forall v l (P : list dataid),
  incl (flat_map (fun v => match v with VRef d => [d] | _ => [] end) (v :: l)) P ->
  (forall d, v = VRef d -> In d P) /\
  incl (flat_map (fun v => match v with VRef d => [d] | _ => [] end) l) P.
Proof.
  intros v l P H. split.
  - intros d ->. apply H. simpl. auto.
  - intros x I. apply H. simpl. apply in_or_app. auto.
Qed.

Lemma materialize_spec : forall st h l, Inv st h ->
  incl (flat_map (fun v => match v with VRef d => [d] | _ => [] end) l) (returned h) ->
  match all_ok (map (argument h) l) with
  | Some (inl vs) => materialize st l = Gots vs
  | Some (inr e) => materialize st l = GotsExc e
  | None => False
  end.
Proof.
  intros st h l I. induction l as [|v r IH]; intros K; [reflexivity|].
  apply top_in in K. destruct K as [K1 K2]. specialize (IH K2).
  cbn [map all_ok materialize].
  assert (G : match argument h v with
              | Some (Ret x) => (if is_ref v then qget st v else Got v) = Got x
              | Some (Exn e) => (if is_ref v then qget st v else Got v) = GotExc e
              | None => False end).
  { destruct v; try reflexivity. apply (get_spec st h d I). apply K1. auto. }
  destruct (argument h v) as [[x|e]|]; [| |contradiction].
  - rewrite G. destruct (all_ok (map (argument h) r)) as [[vs|e]|]; [| |contradiction]; rewrite IH; auto.
  - rewrite G. auto.
Qed.

Lemma gets_spec : forall st h l, Inv st h -> incl l (returned h) ->
  match all_ok (map (outcome h) l) with
  | Some (inl vs) => qgets st (map VRef l) = Gots vs
  | Some (inr e) => qgets st (map VRef l) = GotsExc e
  | None => False
  end.
Proof.
  intros st h l I. induction l as [|d r IH]; intros K; [reflexivity|].
  assert (K1 : In d (returned h)) by (apply K; simpl; auto).
  assert (K2 : incl r (returned h)) by (intros x J; apply K; simpl; auto).
  specialize (IH K2). cbn [map all_ok qgets]. pose proof (get_spec st h d I K1) as G.
  destruct (outcome h d) as [[x|e]|]; [| |contradiction]; rewrite G.
  - destruct (all_ok (map (outcome h) r)) as [[vs|e]|]; [| |contradiction]; rewrite IH; auto.
  - auto.
Qed.

(** Storing *)
Lemma put_items_spec : forall n st v idx st' o, put_items item st v idx n = (st', o) ->
  q_actors st' = q_actors st /\ q_next st <= q_next st' /\
  (forall d, snd d < q_next st -> q_store st' d = q_store st d) /\
  match o with
  | None => True
  | Some ds => length ds = n /\ forall i d, nth_error ds i = Some d ->
      d = (0, q_next st + i) /\ snd d < q_next st' /\
      exists x, index item v (idx + i) = Some x /\ q_store st' d = Some x
  end.
Proof.
  induction n as [|n IH]; intros st v idx st' o H; simpl in H.
  - apply pair_inj in H as [<- <-]. repeat split; auto.
    all: intros; destruct i; discriminate.
  - destruct (index item v idx) as [x|] eqn:E.
    2:{ apply pair_inj in H as [<- <-]. repeat split; auto. }
    destruct (put_items item _ v (S idx) n) as [st2 o2] eqn:P.
    apply IH in P. clear IH. destruct P as (A & N & S & R). simpl in *.
    assert (S' : forall d, snd d < q_next st -> q_store st2 d = q_store st d).
    { intros d L. rewrite S by lia. apply dput_other. intros <-. simpl in L. lia. }
    destruct o2 as [ds|].
    + apply pair_inj in H as [<- <-]. destruct R as [RL RN].
      repeat split; auto; try lia.
      * simpl. lia.
      * destruct i; simpl in H.
        -- apply Some_inj in H. subst. rewrite Nat.add_0_r. auto.
        -- apply RN in H. destruct H as (-> & _). f_equal. lia.
      * destruct i; simpl in H.
        -- apply Some_inj in H. subst. simpl. lia.
        -- apply RN in H. tauto.
      * destruct i; simpl in H.
        -- apply Some_inj in H. subst. exists x. rewrite Nat.add_0_r. split; auto.
           rewrite S by (simpl; lia). apply dput_same.
        -- apply RN in H. destruct H as (_ & _ & y & Y & Z). exists y. split; auto.
           rewrite <- Y. f_equal. lia.
    + apply pair_inj in H as [<- <-]. repeat split; auto. lia.
Qed.

Lemma put_spec : forall st v st' d, qput st v = (st', d) ->
  q_actors st' = q_actors st /\ q_next st' = S (q_next st) /\ d = (0, q_next st) /\
  (forall x, snd x < q_next st -> q_store st' x = q_store st x) /\ q_store st' d = Some v.
Proof.
  intros st v st' d H. unfold qput in H. apply pair_inj in H as [<- <-]. simpl. repeat split; auto.
  - intros x L. apply dput_other. intros <-. simpl in L. lia.
  - apply dput_same.
Qed.

Definition clean_res (r : res) : Prop := match r with Ret v => clean item v | Exn _ => True end.

Lemma res_of_clean : forall v, is_exc v = false -> res_of v = Ret v.
Proof. intros v H. destruct v; auto. discriminate. Qed.

Lemma nth_repeat : forall {A} (x : A) n i y, nth_error (repeat x n) i = Some y -> y = x.
Proof.
  intros A x n i y H. apply nth_error_In in H. apply repeat_spec in H. auto.
Qed.

Lemma store_result_spec : forall st r n st' out, store_result item st r n = (st', out) -> clean_res r ->
  q_actors st' = q_actors st /\ q_next st <= q_next st' /\
  (forall d, snd d < q_next st -> q_store st' d = q_store st d) /\
  (forall a, out <> OActor a) /\ (forall e, out <> ORaise e) /\
  (forall d i, place d out = Some i ->
     fst d = 0 /\ q_next st <= snd d < q_next st' /\
     exists v, q_store st' d = Some v /\ part item r n i = Some (res_of v)).
Proof.
  intros st r n st' out H C. unfold store_result in H.
  destruct (n =? 0) eqn:E0.
  { apply pair_inj in H as [<- <-]. repeat split; auto; discriminate. }
  apply Nat.eqb_neq in E0.
  destruct (1 <? n) eqn:E1.
  - apply Nat.ltb_lt in E1.
    destruct (put_items item st _ 0 n) as [st2 o2] eqn:P. apply put_items_spec in P.
    destruct P as (A & N & S & R).
    destruct o2 as [ds|]; apply pair_inj in H as [<- <-].
    2:{ repeat split; auto; discriminate. }
    destruct R as [RL RN].
    split; [auto|split; [auto|split; [auto|split; [discriminate|split; [discriminate|]]]]].
    intros d i Q. apply place_refs in Q. simpl in Q. apply RN in Q. destruct Q as (-> & L & x & X & Y).
    simpl in *. split; auto. split; [lia|]. exists x. split; auto.
    destruct r as [v|e]; simpl.
    + replace (n =? 1) with false by (symmetry; apply Nat.eqb_neq; lia).
      rewrite X. simpl. simpl in C. destruct C as [_ C]. rewrite res_of_clean; eauto.
    + simpl in X. apply nth_repeat in X. subst. auto.
  - apply Nat.ltb_ge in E1. assert (n = 1) by lia. subst.
    destruct (qput st _) as [st2 d2] eqn:P. apply put_spec in P. destruct P as (A & N & D & S & V).
    apply pair_inj in H as [<- <-].
    split; [auto|split; [lia|split; [auto|split; [discriminate|split; [discriminate|]]]]].
    intros d i Q. apply place_refs in Q. destruct i; simpl in Q; [|destruct i; discriminate].
    apply Some_inj in Q. subst. simpl. split; auto. split; [lia|].
    destruct r as [v|e]; simpl in *.
    + exists v. split; auto. destruct C. rewrite res_of_clean; auto.
    + exists (VExc e). auto.
Qed.

Lemma nth_set : forall (l : list val) a s x, nth_error l a = Some s ->
  forall b, nth_error (firstn a l ++ x :: skipn (S a) l) b = if Nat.eqb a b then Some x else nth_error l b.
Proof.
  induction l as [|y l IH]; intros a s x H b; [destruct a; discriminate|].
  destruct a; destruct b; auto. simpl in *. apply (IH a s x); auto.
Qed.

(** One call *)
Lemma returned_cons : forall o out h, returned ((o, out) :: h) = out_refs out ++ returned h.
Proof. reflexivity. Qed.

Lemma Inv_quiet : forall st h o out, Inv st h -> out_refs out = [] ->
  (forall a, state ((o, out) :: h) a = state h a) -> Inv st ((o, out) :: h).
Proof.
  intros st h o out [I A] N S. split.
  - intros d K. rewrite returned_cons, N in K. simpl in K. destruct (I d K) as (X & Y & v & Z & W).
    split; auto. split; auto. exists v. split; auto. rewrite outcome_cons.
    replace (place d out) with (@None nat); auto.
    destruct (place d out) eqn:P; auto. apply place_refs in P. rewrite N in P. destruct n; discriminate.
  - intros a. rewrite S. auto.
Qed.

Lemma Inv_store : forall st h st' o out,
  Inv st h -> q_next st <= q_next st' ->
  (forall d, snd d < q_next st -> q_store st' d = q_store st d) ->
  (forall d i, place d out = Some i ->
     fst d = 0 /\ q_next st <= snd d < q_next st' /\
     exists v, q_store st' d = Some v /\ outcome ((o, out) :: h) d = Some (res_of v)) ->
  (forall a, nth_error (q_actors st') a = state ((o, out) :: h) a) ->
  Inv st' ((o, out) :: h).
Proof.
  intros st h st' o out [I _] N S P A. split; auto.
  intros d K. rewrite returned_cons in K. apply in_app_or in K. destruct K as [K|K].
  - apply place_In in K. destruct K as [i K]. destruct (P _ _ K) as (X & Y & Z). split; auto. split; [lia|auto].
  - destruct (I d K) as (X & Y & v & Z & W). split; auto. split; [lia|]. exists v. split.
    + rewrite S; auto.
    + rewrite outcome_cons. destruct (place d out) as [i|] eqn:Q; auto.
      destruct (P _ _ Q) as (_ & L & _). lia.
Qed.

Lemma step_inv : forall st h o st' out, Inv st h -> known h o ->
  (forall v, o = QPut v -> is_exc v = false) ->
  qstep st o = (st', out) -> Inv st' ((o, out) :: h).
Proof.
  intros st h o st' out I K PC H. destruct o; simpl in H.
  - (* put *)
    apply pair_inj in H as [<- <-]. destruct (put_spec st v _ _ eq_refl) as (A & N & D & S & V).
    apply (Inv_store st); auto; [cbn; lia| |].
    + intros d i P. apply place_refs in P. destruct i; simpl in P; [|destruct i; discriminate].
      apply Some_inj in P. subst. rewrite outcome_cons. cbn [place find_ref]. rewrite did_eqb_refl.
      split; auto. split; [cbn; lia|]. exists v. split; auto. rewrite res_of_clean; auto.
    + apply I.
  - (* submit *)
    destruct reserve. { apply pair_inj in H as [<- <-]. apply Inv_quiet; auto. }
    unfold known in K. simpl in K.
    pose proof (materialize_spec st h args I (fun x J => K x (in_or_app _ _ _ (or_introl J)))) as M1.
    pose proof (materialize_spec st h (map snd kw) I (fun x J => K x (in_or_app _ _ _ (or_intror J)))) as M2.
    destruct (all_ok (map (argument h) args)) as [[vs|e]|] eqn:O1; [| |contradiction]; rewrite M1 in H.
    2:{ apply pair_inj in H as [<- <-]. apply Inv_quiet; auto. }
    destruct (all_ok (map (argument h) (map snd kw))) as [[ks|e]|] eqn:O2; [| |contradiction]; rewrite M2 in H.
    2:{ apply pair_inj in H as [<- <-]. apply Inv_quiet; auto. }
    apply store_result_spec in H.
    2:{ destruct (body f vs (combine (map fst kw) ks)) eqn:B; simpl; auto. apply (proj1 NE) in B. auto. }
    destruct H as (A & N & S & _ & _ & P).
    apply (Inv_store st); auto.
    + intros d i Q. rewrite outcome_cons, Q, O1, O2. apply P. auto.
    + intros a. rewrite A. rewrite state_cons. apply I.
  - (* actor *)
    destruct reserve. { apply pair_inj in H as [<- <-]. apply Inv_quiet; auto. }
    destruct (cbody c args kw) as [s|e] eqn:C; apply pair_inj in H as [<- <-].
    2:{ apply Inv_quiet; auto. }
    apply (Inv_store st); auto; try discriminate.
    intros a. rewrite state_cons, C. cbn [q_actors].
    destruct (Nat.eqb_spec (length (q_actors st)) a) as [<-|Na].
    + rewrite nth_error_app2, Nat.sub_diag; auto.
    + rewrite <- (proj2 I a). destruct (Nat.lt_ge_cases a (length (q_actors st))).
      * rewrite nth_error_app1; auto.
      * rewrite (proj2 (nth_error_None (q_actors st) a)) by lia. apply nth_error_None. rewrite app_length. simpl. lia.
  - (* method call *)
    unfold known in K. simpl in K.
    pose proof (materialize_spec st h args I (fun x J => K x (in_or_app _ _ _ (or_introl J)))) as M1.
    pose proof (materialize_spec st h (map snd kw) I (fun x J => K x (in_or_app _ _ _ (or_intror J)))) as M2.
    pose proof (proj2 I a) as SA.
    destruct (nth_error (q_actors st) a) as [s|] eqn:E.
    2:{ apply pair_inj in H as [<- <-]. apply Inv_quiet; auto. intros b. rewrite state_cons.
        destruct (Nat.eqb_spec a b) as [<-|]; auto. rewrite <- SA. auto. }
    destruct (all_ok (map (argument h) args)) as [[vs|e]|] eqn:O1; [| |contradiction]; rewrite M1 in H.
    2:{ apply pair_inj in H as [<- <-]. apply Inv_quiet; auto. intros b. rewrite state_cons.
        destruct (Nat.eqb_spec a b) as [<-|]; auto. rewrite <- SA, O1. auto. }
    destruct (all_ok (map (argument h) (map snd kw))) as [[ks|e]|] eqn:O2; [| |contradiction]; rewrite M2 in H.
    2:{ apply pair_inj in H as [<- <-]. apply Inv_quiet; auto. intros b. rewrite state_cons.
        destruct (Nat.eqb_spec a b) as [<-|]; auto. rewrite <- SA, O1, O2. auto. }
    destruct (mbody m s vs (combine (map fst kw) ks)) as [r s'] eqn:B.
    apply store_result_spec in H.
    2:{ destruct r; simpl; auto. apply (proj2 NE) in B. auto. }
    destruct H as (A & N & S & _ & _ & P). simpl in *.
    apply (Inv_store st); auto.
    + intros d i Q. rewrite outcome_cons, Q, <- SA, O1, O2, B. apply P. auto.
    + intros b. rewrite A, state_cons, (nth_set _ _ _ _ E).
      destruct (Nat.eqb_spec a b) as [<-|]. * rewrite <- SA, O1, O2, B. auto. * apply I.
  - destruct (qget st v); apply pair_inj in H as [<- <-]; apply Inv_quiet; auto.
  - destruct (forallb is_ref l); [destruct (qgets st l)|]; apply pair_inj in H as [<- <-]; apply Inv_quiet; auto.
  - apply pair_inj in H as [<- <-]; apply Inv_quiet; auto.
Qed.

Lemma legal_app : forall h2 h1, legal (h2 ++ h1) -> legal h1.
Proof. induction h2 as [|[o out] h2 IH]; intros h1 L; simpl in *; auto. apply IH. tauto. Qed.

Lemma qrun_ext : forall ops st h st' h', qrun st h ops = (st', h') -> exists x, h' = x ++ h.
Proof.
  induction ops as [|o r IH]; intros st h st' h' H; simpl in H.
  - apply pair_inj in H as [_ <-]. exists []. auto.
  - destruct (qstep st o) as [st1 out]. apply IH in H. destruct H as [x ->].
    exists (x ++ [(o, out)]). rewrite <- app_assoc. auto.
Qed.

Lemma run_inv_gen : forall ops st h st' h', Inv st h -> qrun st h ops = (st', h') ->
  legal h' -> puts_clean h' -> Inv st' h'.
Proof.
  induction ops as [|o r IH]; intros st h st' h' I H L P; simpl in H.
  - apply pair_inj in H as [<- <-]. auto.
  - destruct (qstep st o) as [st1 out] eqn:E. pose proof H as H'. apply qrun_ext in H'. destruct H' as [x ->].
    apply IH in H; auto. pose proof (legal_app _ _ L) as [K _].
    apply step_inv with (st := st); auto. intros v ->. apply (P v out). apply in_or_app. simpl. auto.
Qed.

Lemma run_inv : forall ops st h, qrun qinit [] ops = (st, h) -> legal h -> puts_clean h -> Inv st h.
Proof.
  intros ops st h H L P. eapply run_inv_gen; eauto. split.
  - intros d [].
  - intros a. simpl. destruct a; auto.
Qed.

Lemma get_direct : forall ops st h d, qrun qinit [] ops = (st, h) -> legal h -> puts_clean h ->
  In d (returned h) ->
  match outcome h d with
  | Some (Ret v) => qstep st (QGet (VRef d)) = (st, OVal v)
  | Some (Exn e) => qstep st (QGet (VRef d)) = (st, ORaise e)
  | None => False
  end.
Proof.
  intros ops st h d H L P K. pose proof (get_spec st h d (run_inv _ _ _ H L P) K) as G.
  destruct (outcome h d) as [[v|e]|]; auto; cbn [PyseqModel.qstep]; rewrite G; auto.
Qed.

Lemma gets_direct : forall ops st h ds, qrun qinit [] ops = (st, h) -> legal h -> puts_clean h ->
  incl ds (returned h) ->
  match all_ok (map (outcome h) ds) with
  | Some (inl vs) => qstep st (QGetMany (map VRef ds)) = (st, OVals vs)
  | Some (inr e) => qstep st (QGetMany (map VRef ds)) = (st, ORaise e)
  | None => False
  end.
Proof.
  intros ops st h ds H L P K. pose proof (gets_spec st h ds (run_inv _ _ _ H L P) K) as G.
  assert (F : forallb is_ref (map VRef ds) = true) by (clear; induction ds; auto).
  destruct (all_ok (map (outcome h) ds)) as [[v|e]|]; auto; cbn [PyseqModel.qstep]; rewrite F, G; auto.
Qed.

Lemma submit_raises : forall ops st h f args kw n e, qrun qinit [] ops = (st, h) -> legal h -> puts_clean h ->
  known h (QSubmit f args kw n false) ->
  (snd (qstep st (QSubmit f args kw n false)) = ORaise e <->
   all_ok (map (argument h) (args ++ map snd kw)) = Some (inr e)).
Proof.
  intros ops st h f args kw n e H L P K. pose proof (run_inv _ _ _ H L P) as I.
  unfold known in K. simpl in K.
  pose proof (materialize_spec st h args I (fun x J => K x (in_or_app _ _ _ (or_introl J)))) as M1.
  pose proof (materialize_spec st h (map snd kw) I (fun x J => K x (in_or_app _ _ _ (or_intror J)))) as M2.
  assert (A : all_ok (map (argument h) (args ++ map snd kw)) =
    match all_ok (map (argument h) args) with
    | Some (inl vs) => match all_ok (map (argument h) (map snd kw)) with
                       | Some (inl ks) => Some (inl (vs ++ ks)) | o => o end
    | o => o end).
  { clear. induction args as [|v r IH]; simpl.
    - destruct (all_ok (map (argument h) (map snd kw))) as [[?|?]|]; auto.
    - destruct (argument h v) as [[x|x]|]; auto. rewrite IH.
      destruct (all_ok (map (argument h) r)) as [[?|?]|]; auto.
      destruct (all_ok (map (argument h) (map snd kw))) as [[?|?]|]; auto. }
  rewrite A. clear A. cbn [PyseqModel.qstep].
  destruct (all_ok (map (argument h) args)) as [[vs|e1]|]; [| |contradiction]; rewrite M1.
  - destruct (all_ok (map (argument h) (map snd kw))) as [[ks|e1]|]; [| |contradiction]; rewrite M2.
    + split; [|discriminate]. intros Q. exfalso.
      destruct (store_result item st (body f vs (combine (map fst kw) ks)) n) as [st' out] eqn:S.
      simpl in Q. subst. apply store_result_spec in S.
      * destruct S as (_ & _ & _ & _ & S & _). apply (S e). auto.
      * destruct (body f vs (combine (map fst kw) ks)) eqn:B; simpl; auto. apply (proj1 NE) in B. auto.
    + simpl. split; intros Q; inversion Q; auto.
  - simpl. split; intros Q; inversion Q; auto.
Qed.

Lemma actor_direct : forall ops st h a, qrun qinit [] ops = (st, h) -> legal h -> puts_clean h ->
  nth_error (q_actors st) a = state h a.
Proof. intros ops st h a H L P. apply (run_inv _ _ _ H L P). Qed.

(** Every reference is fresh. *)
Lemma refs_fresh : forall ops st h o st' out, qrun qinit [] ops = (st, h) -> legal h -> puts_clean h ->
  known h o -> (forall v, o = QPut v -> is_exc v = false) -> qstep st o = (st', out) ->
  forall d, In d (out_refs out) -> ~ In d (returned h).
Proof.
  intros ops st h o st' out H L P K PC S d J R. pose proof (run_inv _ _ _ H L P) as I.
  destruct (proj1 I d R) as (_ & LT & _).
  assert (G : q_next st <= snd d); [|lia]. clear R LT.
  destruct o; simpl in S.
  - apply pair_inj in S as [<- <-]. simpl in J. destruct J as [<-|[]]. simpl. lia.
  - destruct reserve. { apply pair_inj in S as [<- <-]. destruct J. }
    destruct (materialize st args); [destruct (materialize st (map snd kw))| |];
      try (apply pair_inj in S as [<- <-]; destruct J; fail).
    apply store_result_spec in S.
    2:{ destruct (body f _ _) eqn:B; simpl; auto. apply (proj1 NE) in B. auto. }
    destruct S as (_ & _ & _ & _ & _ & Q). apply place_In in J. destruct J as [i J].
    apply Q in J. lia.
  - destruct reserve. { apply pair_inj in S as [<- <-]. destruct J. }
    destruct (cbody c args kw); apply pair_inj in S as [<- <-]; destruct J.
  - destruct (nth_error (q_actors st) a) as [s|]; [|apply pair_inj in S as [<- <-]; destruct J].
    destruct (materialize st args); [destruct (materialize st (map snd kw))| |];
      try (apply pair_inj in S as [<- <-]; destruct J; fail).
    destruct (mbody m s l (combine (map fst kw) l0)) as [r s'] eqn:B.
    apply store_result_spec in S.
    2:{ destruct r; simpl; auto. apply (proj2 NE) in B. auto. }
    destruct S as (_ & _ & _ & _ & _ & Q). apply place_In in J. destruct J as [i J].
    apply Q in J. simpl in J. lia.
  - destruct (qget st v); apply pair_inj in S as [<- <-]; destruct J.
  - destruct (forallb is_ref l); [destruct (qgets st l)|]; apply pair_inj in S as [<- <-]; destruct J.
  - apply pair_inj in S as [<- <-]. destruct J.
Qed.

Lemma wait_partition : forall st l n st' r nr, qstep st (QWait l n) = (st', OWait r nr) ->
  st' = st /\ r ++ nr = l /\ length r = Nat.min n (length l).
Proof.
  intros st l n st' r nr H. simpl in H. inversion H. subst. split; auto. split.
  - apply firstn_skipn.
  - apply firstn_length.
Qed.
End Proofs.

(** C54, call by call. *)
Section Step.
Variable body cbody : nat -> list val -> kwargs -> res.
Variable mbody : nat -> val -> list val -> kwargs -> res * val.
Variable item : val -> nat -> option val.

Lemma materialize_iff st : forall l vs,
  materialize st l = Gots vs <-> Forall2 (arg_value body cbody mbody item st) l vs.
Proof.
  induction l as [|v l IH]; intros vs; cbn [materialize].
  - split; intros H; [injection H as <-; constructor|inversion H; auto].
  - assert (A : forall x, (if is_ref v then qget st v else Got v) = Got x <-> arg_value body cbody mbody item st v x).
    { intros x. unfold arg_value. destruct v; cbn; try (split; [intros H; injection H as <-; auto|intros ->; auto]).
      destruct (q_store st d) as [y|]; [|split; discriminate].
      destruct y; cbn; split; intros H; try discriminate; injection H as <-; auto. }
    split.
    + intros H. destruct (if is_ref v then qget st v else Got v) as [x|e|] eqn:E; try discriminate.
      destruct (materialize st l) as [xs|e|] eqn:M; try discriminate. injection H as <-. constructor; [now apply A|now apply IH].
    + intros H. inversion H as [|? x ? xs Hx Hl]; subst. apply A in Hx. rewrite Hx. apply IH in Hl. now rewrite Hl.
Qed.

Lemma put_items_actors : forall n st v i, q_actors (fst (put_items item st v i n)) = q_actors st.
Proof.
  induction n as [|n IH]; intros st v i; cbn [put_items]; auto.
  destruct (index item v i) as [x|]; auto. cbn [qput].
  match goal with |- context [put_items item ?t v (S i) n] => specialize (IH t v (S i)) end.
  destruct (put_items item _ v (S i) n) as [st2 [ds|]]; exact IH.
Qed.

Lemma store_result_actors st r n : q_actors (fst (store_result item st r n)) = q_actors st.
Proof.
  unfold store_result. destruct (Nat.eqb n 0); auto. destruct (Nat.ltb 1 n); auto.
  match goal with |- context [put_items item st ?v 0 n] => pose proof (put_items_actors n st v 0) as P; destruct (put_items item st v 0 n) as [st2 [ds|]] end; exact P.
Qed.

Lemma set_actor_same st a s : a < length (q_actors st) -> nth_error (q_actors (set_actor st a s)) a = Some s.
Proof.
  intros L. cbn. rewrite nth_error_app2 by (rewrite firstn_length; lia). rewrite firstn_length, Nat.min_l, Nat.sub_diag by lia. auto.
Qed.

Lemma nth_upd : forall (l : list val) a b s, a < length l -> b <> a -> nth_error (firstn a l ++ s :: skipn (S a) l) b = nth_error l b.
Proof.
  induction l as [|x l IH]; intros a b s L N; [inversion L|].
  destruct a as [|a]; destruct b as [|b]; cbn in *; auto; try congruence. apply (IH a b s); lia.
Qed.

Lemma actor_made st c args kw reserve a : snd (qstep body cbody mbody item st (QActor c args kw reserve)) = OActor a <->
  reserve = false /\ a = length (q_actors st) /\ exists s, cbody c args kw = Ret s /\
    q_actors (fst (qstep body cbody mbody item st (QActor c args kw reserve))) = q_actors st ++ [s].
Proof.
  cbn [qstep]. destruct reserve; [split; [discriminate|intros (H & _); discriminate]|].
  destruct (cbody c args kw) as [s|e]; cbn.
  - split; [intros H; injection H as <-; eauto|intros (_ & -> & _); auto].
  - split; [discriminate|intros (_ & _ & s & H & _); discriminate].
Qed.

Lemma actor_called st a m args kw n s vs ks : nth_error (q_actors st) a = Some s ->
  Forall2 (arg_value body cbody mbody item st) args vs ->
  Forall2 (arg_value body cbody mbody item st) (map snd kw) ks ->
  let st' := fst (qstep body cbody mbody item st (QCall a m args kw n)) in
  nth_error (q_actors st') a = Some (snd (mbody m s vs (combine (map fst kw) ks))) /\
  (forall b, b <> a -> nth_error (q_actors st') b = nth_error (q_actors st) b) /\
  (n = 1 -> exists d, snd (qstep body cbody mbody item st (QCall a m args kw n)) = ORef d /\
     snd (qstep body cbody mbody item st' (QGet (VRef d))) =
       match fst (mbody m s vs (combine (map fst kw) ks)) with
       | Ret (VExc e) | Exn e => ORaise e
       | Ret v => OVal v
       end).
Proof.
  intros Ha Hv Hk. apply materialize_iff in Hv. apply materialize_iff in Hk.
  assert (L : a < length (q_actors st)) by (apply nth_error_Some; congruence).
  cbn [qstep]. rewrite Ha, Hv, Hk. destruct (mbody m s vs (combine (map fst kw) ks)) as [r s']. cbn [fst snd].
  split; [|split].
  - rewrite store_result_actors. now apply set_actor_same.
  - intros b N. rewrite store_result_actors. now apply nth_upd.
  - intros ->. exists (0, q_next st). unfold store_result. cbn [Nat.eqb Nat.ltb Nat.leb qput fst snd qget q_store]. split; auto.
    cbn [set_actor q_next q_store]. rewrite dput_same. destruct r as [v|e]; [destruct v|]; auto.
Qed.

Lemma actor_kept st o : 
  match o with
  | QActor c args kw reserve => forall a, snd (qstep body cbody mbody item st o) <> OActor a
  | QCall a m args kw n => nth_error (q_actors st) a = None \/
      (forall vs, ~ Forall2 (arg_value body cbody mbody item st) (args ++ map snd kw) vs)
  | _ => True
  end -> q_actors (fst (qstep body cbody mbody item st o)) = q_actors st.
Proof.
  destruct o as [v|f args kw n reserve|c args kw reserve|a m args kw n|v|l|l n]; cbn [qstep]; intros H; auto.
  - destruct reserve; auto. destruct (materialize st args); auto. destruct (materialize st (map snd kw)); auto.
    apply store_result_actors.
  - destruct reserve; auto. destruct (cbody c args kw); auto. exfalso. eapply H. reflexivity.
  - destruct (nth_error (q_actors st) a) as [s|]; auto. destruct H as [H|H]; [discriminate|].
    destruct (materialize st args) as [vs| |] eqn:V; auto. destruct (materialize st (map snd kw)) as [ks| |] eqn:K; auto.
    exfalso. apply materialize_iff in V. apply materialize_iff in K. apply (H (vs ++ ks)). now apply Forall2_app.
  - destruct (qget st v); auto.
  - destruct (forallb is_ref l); auto. destruct (qgets st l); auto.
Qed.
End Step.
