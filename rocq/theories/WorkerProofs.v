From Verif Require Import Lib ShmModel ShmRaceProofs ValModel WorkerModel WorkerSpec.
From Coq Require Import Permutation.

(** ** Materialising *)

Section Mat.
Variable self : rank.

(** Requests for data sent one after the other. *)
Inductive Asks : wst -> wst -> Prop :=
| A_nil w : Asks w w
| A_ask w o d w' : store w d = None -> owner w d = Some o -> ~ In d (reqs w) -> o <> self ->
    Asks (request_data w o d) w' -> Asks w w'.

Lemma asks_trans w1 w2 w3 : Asks w1 w2 -> Asks w2 w3 -> Asks w1 w3.
Proof. induction 1; intros; auto. eapply A_ask; eauto. Qed.

Lemma asks_store w w' : Asks w w' -> store w' = store w.
Proof. induction 1; auto. Qed.

Fixpoint mat_list (f : wst -> val -> bool -> option (wst * val * bool))
  (w : wst) (l : list val) (pending : bool) {struct l} : option (wst * list val * bool) :=
  match l with
  | [] => Some (w, [], pending)
  | x :: r =>
      match f w x pending with
      | None => None
      | Some (w1, x1, p1) =>
          match unwrap self w1 x1 with
          | None => None
          | Some (w2, x2, p2) =>
              match mat_list f w2 r (p1 || p2) with
              | None => None
              | Some (w3, r3, p3) => Some (w3, x2 :: r3, p3)
              end
          end
      end
  end.

Fixpoint mat_dict (f : wst -> val -> bool -> option (wst * val * bool))
  (w : wst) (l : list (nat * val)) (pending : bool) {struct l} : option (wst * list (nat * val) * bool) :=
  match l with
  | [] => Some (w, [], pending)
  | kv :: r =>
      match f w (snd kv) pending with
      | None => None
      | Some (w1, x1, p1) =>
          match unwrap self w1 x1 with
          | None => None
          | Some (w2, x2, p2) =>
              match mat_dict f w2 r (p1 || p2) with
              | None => None
              | Some (w3, r3, p3) => Some (w3, (fst kv, x2) :: r3, p3)
              end
          end
      end
  end.

Lemma mat_list_eqn l : forall w p, materialize self w (VList l) p =
  match mat_list (materialize self) w l p with Some (w', l', p') => Some (w', VList l', p') | None => None end.
Proof.
  intros w p. cbn [materialize].
  match goal with |- match ?f w l p with _ => _ end = _ => set (go := f) end.
  replace (go w l p) with (mat_list (materialize self) w l p); [reflexivity|].
  revert w p. induction l as [|x l IH]; intros; [reflexivity|]. cbn [mat_list].
  unfold go at 1; fold go.
  destruct (materialize self w x p) as [[[w1 x1] p1]|]; [|reflexivity].
  destruct (unwrap self w1 x1) as [[[w2 x2] p2]|]; [|reflexivity].
  rewrite IH. reflexivity.
Qed.

Lemma mat_tuple_eqn l : forall w p, materialize self w (VTuple l) p =
  match mat_list (materialize self) w l p with Some (w', l', p') => Some (w', VTuple l', p') | None => None end.
Proof.
  intros w p. cbn [materialize].
  match goal with |- match ?f w l p with _ => _ end = _ => set (go := f) end.
  replace (go w l p) with (mat_list (materialize self) w l p); [reflexivity|].
  revert w p. induction l as [|x l IH]; intros; [reflexivity|]. cbn [mat_list].
  unfold go at 1; fold go.
  destruct (materialize self w x p) as [[[w1 x1] p1]|]; [|reflexivity].
  destruct (unwrap self w1 x1) as [[[w2 x2] p2]|]; [|reflexivity].
  rewrite IH. reflexivity.
Qed.

Lemma mat_dict_eqn l : forall w p, materialize self w (VDict l) p =
  match mat_dict (materialize self) w l p with Some (w', l', p') => Some (w', VDict l', p') | None => None end.
Proof.
  intros w p. cbn [materialize].
  match goal with |- match ?f w l p with _ => _ end = _ => set (go := f) end.
  replace (go w l p) with (mat_dict (materialize self) w l p); [reflexivity|].
  revert w p. induction l as [|x l IH]; intros; [reflexivity|]. cbn [mat_dict].
  unfold go at 1; fold go.
  destruct (materialize self w (snd x) p) as [[[w1 x1] p1]|]; [|reflexivity].
  destruct (unwrap self w1 x1) as [[[w2 x2] p2]|]; [|reflexivity].
  rewrite IH. reflexivity.
Qed.

Definition clean (w : wst) : Prop := forall d x, store w d = Some x -> refs x = [].
Definition has (w : wst) : dataid -> val -> Prop := fun d x => store w d = Some x.

(** The outcome of looking at v: what remains unresolved is exactly what is missing. *)
Definition Looked (w : wst) (rv rv' : list dataid) (w' : wst) (p p' : bool) : Prop :=
  Asks w w' /\ (p' = true <-> p = true \/ rv' <> []) /\
  (forall d, In d rv' <-> In d rv /\ store w d = None).

Lemma unwrap_spec w v w' v' p : clean w -> unwrap self w v = Some (w', v', p) ->
  Asks w w' /\
  match v with
  | VRef d => (p = false /\ store w d = Some v') \/ (p = true /\ v' = v /\ store w d = None)
  | _ => p = false /\ v' = v
  end.
Proof.
  intros C H. destruct v; simpl in H;
    try (apply Some_inj in H; apply pair_inj in H as [H <-]; apply pair_inj in H as [<- <-];
         split; [constructor | auto]).
  destruct (store w d) as [x|] eqn:E.
  - apply Some_inj in H; apply pair_inj in H as [H <-]; apply pair_inj in H as [<- <-].
    split; [constructor | auto].
  - destruct (owner w d) as [o|] eqn:O; [|discriminate].
    destruct (did_in d (reqs w)) eqn:R.
    + apply Some_inj in H; apply pair_inj in H as [H <-]; apply pair_inj in H as [<- <-].
      split; [constructor | auto].
    + destruct (Nat.eqb o self) eqn:S.
      * apply Some_inj in H; apply pair_inj in H as [H <-]; apply pair_inj in H as [<- <-].
        split; [constructor | auto].
      * apply Some_inj in H; apply pair_inj in H as [H <-]; apply pair_inj in H as [<- <-].
        split; [|auto]. eapply A_ask; eauto; [apply did_in_false, R | apply Nat.eqb_neq, S | constructor].
Qed.

(** Unwrapping what the recursive call gave changes nothing but requests. *)
Lemma unwrap_again w v w' v' p (rv : list dataid) : clean w ->
  (forall d, In d (refs v) -> store w d = None) ->
  unwrap self w v = Some (w', v', p) -> Asks w w' /\ v' = v /\ (p = true -> refs v <> []).
Proof.
  intros C N H. apply unwrap_spec in H as [A H]; auto. split; auto.
  destruct v; try (destruct H as [-> ->]; split; [reflexivity|discriminate]).
  destruct H as [[-> E] | [-> [-> E]]].
  - rewrite (N d) in E by (simpl; auto). discriminate.
  - split; auto. intros _; simpl; discriminate.
Qed.

Lemma clean_asks w w' : Asks w w' -> clean w -> clean w'.
Proof. intros A C d x. rewrite (asks_store _ _ A). apply C. Qed.

Definition MatOk (v : val) : Prop := forall w p w' v' p', clean w ->
  materialize self w v p = Some (w', v', p') ->
  fill (has w) v v' /\ Looked w (refs v) (refs v') w' p p'.

Lemma fill_same_store w w' v v' : store w' = store w -> fill (has w') v v' -> fill (has w) v v'.
Proof. unfold has. intros ->. auto. Qed.

Lemma mat_list_ok l : Forall MatOk l -> forall w p w' l' p', clean w ->
  mat_list (materialize self) w l p = Some (w', l', p') ->
  Forall2 (fill (has w)) l l' /\ Looked w (flat_map refs l) (flat_map refs l') w' p p'.
Proof.
  induction 1 as [|x l Hx Hl IH]; intros w p w' l' p' C H; cbn [mat_list] in H.
  - apply Some_inj in H; apply pair_inj in H as [H <-]; apply pair_inj in H as [<- <-].
    split; [constructor|]. split; [constructor|]. simpl. split; [tauto|].
    intros d; tauto.
  - destruct (materialize self w x p) as [[[w1 x1] p1]|] eqn:E1; [|discriminate].
    destruct (unwrap self w1 x1) as [[[w2 x2] p2]|] eqn:E2; [|discriminate].
    destruct (mat_list (materialize self) w2 l (p1 || p2)) as [[[w3 r3] p3]|] eqn:E3; [|discriminate].
    apply Some_inj in H; apply pair_inj in H as [H <-]; apply pair_inj in H as [<- <-].
    apply Hx in E1 as [F1 [A1 [P1 R1]]]; auto.
    assert (S1 := asks_store _ _ A1).
    apply unwrap_again in E2 as [A2 [-> P2]]; [| exact [] | eapply clean_asks; eauto |].
    2:{ intros d D. rewrite S1. apply R1, D. }
    assert (S2 := asks_store _ _ A2).
    apply IH in E3 as [F3 [A3 [P3 R3]]]; [| eapply clean_asks; eauto; eapply clean_asks; eauto].
    split.
    + constructor; auto. revert F3. unfold has. rewrite S2, S1. auto.
    + split; [eapply asks_trans; eauto; eapply asks_trans; eauto|]. simpl. split.
      * rewrite P3, Bool.orb_true_iff, P1. split.
        -- intros [[[?|?]|?]|?]; auto; right; intros E; apply app_eq_nil in E as [? ?]; auto.
           apply P2 in H; auto.
        -- intros [?|?]; auto.
           destruct (refs x1) eqn:R; [|left; left; right; discriminate].
           simpl in H. right. auto.
      * intros d. rewrite !in_app_iff, R1, R3, S2, S1. tauto.
Qed.

Lemma mat_dict_ok l : Forall (fun kv => MatOk (snd kv)) l -> forall w p w' l' p', clean w ->
  mat_dict (materialize self) w l p = Some (w', l', p') ->
  Forall2 (fun a b => fst a = fst b /\ fill (has w) (snd a) (snd b)) l l' /\
  Looked w (flat_map (fun kv => refs (snd kv)) l) (flat_map (fun kv => refs (snd kv)) l') w' p p'.
Proof.
  induction 1 as [|x l Hx Hl IH]; intros w p w' l' p' C H; cbn [mat_dict] in H.
  - apply Some_inj in H; apply pair_inj in H as [H <-]; apply pair_inj in H as [<- <-].
    split; [constructor|]. split; [constructor|]. simpl. split; [tauto|].
    intros d; tauto.
  - destruct (materialize self w (snd x) p) as [[[w1 x1] p1]|] eqn:E1; [|discriminate].
    destruct (unwrap self w1 x1) as [[[w2 x2] p2]|] eqn:E2; [|discriminate].
    destruct (mat_dict (materialize self) w2 l (p1 || p2)) as [[[w3 r3] p3]|] eqn:E3; [|discriminate].
    apply Some_inj in H; apply pair_inj in H as [H <-]; apply pair_inj in H as [<- <-].
    apply Hx in E1 as [F1 [A1 [P1 R1]]]; auto.
    assert (S1 := asks_store _ _ A1).
    apply unwrap_again in E2 as [A2 [-> P2]]; [| exact [] | eapply clean_asks; eauto |].
    2:{ intros d D. rewrite S1. apply R1, D. }
    assert (S2 := asks_store _ _ A2).
    apply IH in E3 as [F3 [A3 [P3 R3]]]; [| eapply clean_asks; eauto; eapply clean_asks; eauto].
    split.
    + constructor; [simpl; auto|]. revert F3. unfold has. rewrite S2, S1. auto.
    + split; [eapply asks_trans; eauto; eapply asks_trans; eauto|]. simpl. split.
      * rewrite P3, Bool.orb_true_iff, P1. split.
        -- intros [[[?|?]|?]|?]; auto; right; intros E; apply app_eq_nil in E as [? ?]; auto.
           apply P2 in H; auto.
        -- intros [?|?]; auto.
           destruct (refs x1) eqn:R; [|left; left; right; discriminate].
           simpl in H. right. auto.
      * intros d. rewrite !in_app_iff, R1, R3, S2, S1. tauto.
Qed.

Lemma mat_ok v : MatOk v.
Proof.
  induction v using val_ind'; intros w p w' v' p' C H0.
  - simpl in H0. rewrite Bool.orb_false_r in H0.
    apply Some_inj in H0; apply pair_inj in H0 as [H0 <-]; apply pair_inj in H0 as [<- <-].
    split; [constructor|]. split; [constructor|]. simpl. split; [tauto | intros; tauto].
  - simpl in H0. rewrite Bool.orb_false_r in H0.
    apply Some_inj in H0; apply pair_inj in H0 as [H0 <-]; apply pair_inj in H0 as [<- <-].
    split; [constructor|]. split; [constructor|]. simpl. split; [tauto | intros; tauto].
  - cbn [materialize] in H0. destruct (unwrap self w (VRef d)) as [[[w1 x] q]|] eqn:U; [|discriminate].
    apply Some_inj in H0; apply pair_inj in H0 as [H0 <-]; apply pair_inj in H0 as [<- <-].
    apply unwrap_spec in U as [A U]; auto. destruct U as [[-> E] | [-> [-> E]]].
    + split; [constructor; exact E|]. split; auto. simpl. rewrite (C _ _ E), Bool.orb_false_r.
      split; [tauto|]. intros d'; split; [intros [] | intros [[<-|[]] N]; congruence].
    + split; [apply fill_keep|]. split; auto. simpl. split.
      * split; [right; discriminate | intros _; apply Bool.orb_true_r].
      * intros d'; split; [intros [<-|[]]; auto | tauto].
  - rewrite mat_list_eqn in H0.
    destruct (mat_list (materialize self) w l p) as [[[w1 l1] p1]|] eqn:E; [|discriminate].
    apply Some_inj in H0; apply pair_inj in H0 as [H0 <-]; apply pair_inj in H0 as [<- <-].
    apply mat_list_ok in E as [F L]; auto. split; [constructor|]; auto.
  - rewrite mat_tuple_eqn in H0.
    destruct (mat_list (materialize self) w l p) as [[[w1 l1] p1]|] eqn:E; [|discriminate].
    apply Some_inj in H0; apply pair_inj in H0 as [H0 <-]; apply pair_inj in H0 as [<- <-].
    apply mat_list_ok in E as [F L]; auto. split; [constructor|]; auto.
  - rewrite mat_dict_eqn in H0.
    destruct (mat_dict (materialize self) w l p) as [[[w1 l1] p1]|] eqn:E; [|discriminate].
    apply Some_inj in H0; apply pair_inj in H0 as [H0 <-]; apply pair_inj in H0 as [<- <-].
    apply mat_dict_ok in E as [F L]; auto. split; [constructor|]; auto.
Qed.

(** Looking fails only for an unknown reference. *)
Definition known (w : wst) (d : dataid) : Prop := store w d <> None \/ owner w d <> None.

Lemma asks_owner w w' : Asks w w' -> owner w' = owner w.
Proof. induction 1; auto. Qed.

Lemma known_asks w w' d : Asks w w' -> known w d -> known w' d.
Proof. intros A. unfold known. rewrite (asks_store _ _ A), (asks_owner _ _ A). auto. Qed.

Lemma unwrap_known w v : (forall d, In d (refs v) -> known w d) -> unwrap self w v <> None.
Proof.
  intros K. destruct v; simpl; try discriminate.
  destruct (store w d) eqn:E; [discriminate|]. destruct (K d) as [N|N]; [simpl; auto | congruence |].
  destruct (owner w d); [|congruence]. destruct (did_in d (reqs w)); [discriminate|].
  destruct (Nat.eqb n self); discriminate.
Qed.

Definition MatKnown (v : val) : Prop := forall w p, clean w ->
  (forall d, In d (refs v) -> known w d) -> materialize self w v p <> None.

Lemma mat_list_known l : Forall MatKnown l -> forall w p, clean w ->
  (forall d, In d (flat_map refs l) -> known w d) -> mat_list (materialize self) w l p <> None.
Proof.
  induction 1 as [|x l Hx Hl IH]; intros w p C K; cbn [mat_list]; [discriminate|].
  destruct (materialize self w x p) as [[[w1 x1] p1]|] eqn:E1.
  2:{ apply Hx in E1; auto. intros d D. apply K. simpl. apply in_or_app; auto. }
  apply mat_ok in E1 as [F1 [A1 [P1 R1]]]; auto.
  destruct (unwrap self w1 x1) as [[[w2 x2] p2]|] eqn:E2.
  2:{ apply unwrap_known in E2; auto. intros d D. eapply known_asks; eauto. apply K. simpl.
      apply in_or_app. left. apply R1, D. }
  assert (C1 : clean w1) by (eapply clean_asks; eauto).
  assert (E2' := E2). apply unwrap_spec in E2' as [A2 _]; auto.
  destruct (mat_list (materialize self) w2 l (p1 || p2)) as [[[w3 r3] p3]|] eqn:E3; [discriminate|].
  apply IH in E3; auto; [eapply clean_asks; eauto|].
  intros d D. eapply known_asks; eauto. eapply known_asks; eauto. apply K. simpl. apply in_or_app; auto.
Qed.

Lemma mat_dict_known l : Forall (fun kv => MatKnown (snd kv)) l -> forall w p, clean w ->
  (forall d, In d (flat_map (fun kv => refs (snd kv)) l) -> known w d) ->
  mat_dict (materialize self) w l p <> None.
Proof.
  induction 1 as [|x l Hx Hl IH]; intros w p C K; cbn [mat_dict]; [discriminate|].
  destruct (materialize self w (snd x) p) as [[[w1 x1] p1]|] eqn:E1.
  2:{ apply Hx in E1; auto. intros d D. apply K. simpl. apply in_or_app; auto. }
  apply mat_ok in E1 as [F1 [A1 [P1 R1]]]; auto.
  destruct (unwrap self w1 x1) as [[[w2 x2] p2]|] eqn:E2.
  2:{ apply unwrap_known in E2; auto. intros d D. eapply known_asks; eauto. apply K. simpl.
      apply in_or_app. left. apply R1, D. }
  assert (C1 : clean w1) by (eapply clean_asks; eauto).
  assert (E2' := E2). apply unwrap_spec in E2' as [A2 _]; auto.
  destruct (mat_dict (materialize self) w2 l (p1 || p2)) as [[[w3 r3] p3]|] eqn:E3; [discriminate|].
  apply IH in E3; auto; [eapply clean_asks; eauto|].
  intros d D. eapply known_asks; eauto. eapply known_asks; eauto. apply K. simpl. apply in_or_app; auto.
Qed.

Lemma mat_known v : MatKnown v.
Proof.
  induction v using val_ind'; intros w p C K.
  - simpl; discriminate.
  - simpl; discriminate.
  - cbn [materialize]. destruct (unwrap self w (VRef d)) as [[[w1 x] q]|] eqn:U; [discriminate|].
    apply unwrap_known in U; auto.
  - rewrite mat_list_eqn.
    destruct (mat_list (materialize self) w l p) as [[[w1 l1] p1]|] eqn:E; [discriminate|].
    apply mat_list_known in E; auto.
  - rewrite mat_tuple_eqn.
    destruct (mat_list (materialize self) w l p) as [[[w1 l1] p1]|] eqn:E; [discriminate|].
    apply mat_list_known in E; auto.
  - rewrite mat_dict_eqn.
    destruct (mat_dict (materialize self) w l p) as [[[w1 l1] p1]|] eqn:E; [discriminate|].
    apply mat_dict_known in E; auto.
Qed.

End Mat.

(** ** Filling *)

Lemma fill_norefs S v : forall v', refs v = [] -> fill S v v' -> v' = v.
Proof.
  induction v using val_ind'; intros v' N F; inversion F; subst; auto; try discriminate.
  - f_equal. simpl in N. clear F. revert l' H1. induction H as [|x l Hx Hl IH]; intros l' F2;
      inversion F2; subst; auto.
    simpl in N. apply app_eq_nil in N as [N1 N2]. f_equal; auto.
  - f_equal. simpl in N. clear F. revert l' H1. induction H as [|x l Hx Hl IH]; intros l' F2;
      inversion F2; subst; auto.
    simpl in N. apply app_eq_nil in N as [N1 N2]. f_equal; auto.
  - f_equal. simpl in N. clear F. revert l' H1. induction H as [|x l Hx Hl IH]; intros l' F2;
      inversion F2; subst; auto.
    simpl in N. apply app_eq_nil in N as [N1 N2]. match goal with X : _ = _ /\ fill _ _ _ |- _ => destruct X as [K V] end.
    f_equal; [|apply IH; auto]. destruct x, y; simpl in *. subst. f_equal. auto.
Qed.

Lemma fill_mono (S S' : dataid -> val -> Prop) v : (forall d x, S d x -> S' d x) ->
  forall v', fill S v v' -> fill S' v v'.
Proof.
  intros M. induction v using val_ind'; intros v' F; inversion F; subst; try (constructor; auto; fail).
  - constructor. clear F. revert l' H1. induction H; intros l' F2; inversion F2; subst; constructor; auto.
  - constructor. clear F. revert l' H1. induction H; intros l' F2; inversion F2; subst; constructor; auto.
  - constructor. clear F. revert l' H1. induction H; intros l' F2; inversion F2; subst; constructor; auto.
    match goal with X : _ = _ /\ fill _ _ _ |- _ => destruct X as [K V] end. auto.
Qed.

Lemma fill_trans (S : dataid -> val -> Prop) v : (forall d x, S d x -> refs x = []) ->
  forall v1 v2, fill S v v1 -> fill S v1 v2 -> fill S v v2.
Proof.
  intros M. induction v using val_ind'; intros v1 v2 F G; inversion F; subst; auto.
  - apply fill_norefs in G; eauto. subst. constructor; auto.
  - inversion G; subst. constructor. clear F G. revert l' l'0 H1 H2.
    induction H; intros l' l'' F2 G2; inversion F2; subst; inversion G2; subst; constructor; eauto.
  - inversion G; subst. constructor. clear F G. revert l' l'0 H1 H2.
    induction H; intros l' l'' F2 G2; inversion F2; subst; inversion G2; subst; constructor; eauto.
  - inversion G; subst. constructor. clear F G. revert l' l'0 H1 H2.
    induction H; intros l' l'' F2 G2; inversion F2; subst; inversion G2; subst; constructor; eauto.
    match goal with X : _ = _ /\ fill _ _ _, Y : _ = _ /\ fill _ _ _ |- _ =>
      destruct X as [K1 V1], Y as [K2 V2] end.
    split; [congruence|]. eauto.
Qed.

Lemma fill_refl S v : fill S v v.
Proof.
  induction v using val_ind'; try (constructor; auto; fail); try apply fill_keep.
  - constructor. induction H; constructor; auto.
  - constructor. induction H; constructor; auto.
  - constructor. induction H; constructor; auto.
Qed.
