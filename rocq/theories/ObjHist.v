(** C99, backends with histories as in PyseqModel. *)
From Verif Require Import Lib ValModel PyseqModel PyseqSpec PyseqProofs PortSpec PortHist ObjSpec.

Lemma set_at_same l a s : a < length l -> nth_error (set_at l a s) a = Some s.
Proof. intros L. unfold set_at. rewrite nth_error_app2; rewrite firstn_length_le by lia; auto. rewrite Nat.sub_diag. reflexivity. Qed.

Lemma nth_skipn {A} n : forall (l : list A) k, nth_error (skipn n l) k = nth_error l (n + k).
Proof. induction n as [|n IH]; intros [|x l] k; simpl; auto. destruct k; auto. Qed.

Lemma nth_firstn {A} (l : list A) : forall a b, b < a -> nth_error (firstn a l) b = nth_error l b.
Proof. induction l as [|x l IH]; intros [|a] [|b] L; simpl; auto; try lia. apply IH. lia. Qed.

Lemma set_at_other l a b s : a < length l -> b <> a -> nth_error (set_at l a s) b = nth_error l b.
Proof.
  intros L N. unfold set_at. destruct (Nat.lt_ge_cases b a) as [H|H].
  - rewrite nth_error_app1 by (rewrite firstn_length_le; lia). apply nth_firstn. auto.
  - rewrite nth_error_app2 by (rewrite firstn_length_le; lia). rewrite firstn_length_le by lia. destruct (b - a) as [|k] eqn:K; [lia|]. cbn [nth_error]. rewrite nth_skipn. f_equal. lia.
Qed.

Lemma set_at_length l a s : a < length l -> length (set_at l a s) = length l.
Proof. intros L. unfold set_at. rewrite app_length. cbn [length]. rewrite firstn_length_le, skipn_length by lia. lia. Qed.

Lemma NoDup_app_snoc {A} (l : list A) x : NoDup l -> ~ In x l -> NoDup (l ++ [x]).
Proof. induction 1 as [|y l N _ IH]; simpl; intros I; [repeat constructor; auto|]. constructor; [|apply IH; tauto]. intros J. apply in_app_or in J as [J|[->|[]]]; tauto. Qed.

Section Obj.
Variable body : nat -> list val -> kwargs -> res.
Variable cbody : nat -> list val -> kwargs -> res.
Variable mbody : nat -> val -> list val -> kwargs -> res * val.
Variable item : val -> nat -> option val.
Notation outcome := (outcome body cbody mbody item).
Notation state := (state body cbody mbody item).
Notation argument := (argument body cbody mbody item).
Notation odirect := (odirect body cbody mbody).

Lemma odirect_snoc p x : odirect (p ++ [x]) = operform body cbody mbody (odirect p) x.
Proof. unfold ObjSpec.odirect. rewrite fold_left_app. reflexivity. Qed.

Lemma part_of n r i : i < n -> enough n r -> exists x, part item r n i = Some x /\ nth_error (each n r) i = Some x.
Proof.
  intros L R. destruct r as [v|e].
  - simpl. destruct (Nat.eqb n 1) eqn:N; [apply Nat.eqb_eq in N; destruct i; [eauto|lia]|]. apply Nat.eqb_neq in N.
    destruct (R v eq_refl) as [X|(l & X & Ll)]; [lia|]. assert (Y : nth_error l i <> None) by (apply nth_error_Some; lia). destruct (nth_error l i) as [y|] eqn:E; [|congruence]. exists (Ret y).
    destruct X as [->| ->]; simpl; rewrite nth_error_map, E; auto.
  - exists (Exn e). split; auto. simpl. rewrite nth_error_repeat; auto.
Qed.

Lemma all_ok_eq {A B} (f : A -> option res) (g : B -> option res) l m : Forall2 (fun a b => f a = g b /\ f a <> None) l m -> all_ok (map f l) = all_ok (map g m) /\ all_ok (map f l) <> None.
Proof.
  induction 1 as [|a b l m [H1 H2] F [I1 I2]]; simpl; [split; [auto|discriminate]|]. rewrite <- H1, <- I1. destruct (f a) as [[v|e]|]; [|split; [auto|discriminate]|congruence]. destruct (all_ok (map f l)) as [[vs|e]|]; [split; [auto|discriminate]|split; [auto|discriminate]|congruence].
Qed.

Lemma oportable_front p x : oportable body cbody mbody (p ++ [x]) -> oportable body cbody mbody p.
Proof.
  intros (P1 & P2 & P3 & P4 & P5 & P6). split; [|split; [|split; [|split; [|split]]]].
  - intros v I. apply P1, in_or_app. auto.
  - intros f args kw n v I. apply (P2 f args kw n v), in_or_app. auto.
  - intros a m args kw n v I. apply (P3 a m args kw n v), in_or_app. auto.
  - intros f args kw n vs ks I. apply (P4 f args kw n vs ks), in_or_app. auto.
  - intros a m args kw n s vs ks I. apply (P5 a m args kw n s vs ks), in_or_app. auto.
  - intros c args kw I. apply (P6 c args kw), in_or_app. auto.
Qed.

(** The handles the calls returned. *)
Definition made (h : hist) : list nat := flat_map (fun e => match snd e with OActor x => [x] | _ => [] end) h.

Record OI (p : list ocall) (rs : list (list dataid)) (hs : list nat) (h : hist) : Prop := {
  oi_rs : length rs = length p;
  oi_env : length (fst (odirect p)) = length p;
  oi_hs : length hs = length (snd (odirect p));
  oi_made : forall x, In x hs -> In x (made h);
  oi_nodup : NoDup hs;
  oi_in : forall c i d, ref_at rs c i = Some d -> In d (returned h);
  oi_res : forall c i d, ref_at rs c i = Some d -> exists r, outcome h d = Some r /\ result_of (fst (odirect p)) c i = Some r;
  oi_obj : forall a x, nth_error hs a = Some x -> exists s, state h x = Some s /\ nth_error (snd (odirect p)) a = Some s
}.

Lemma args_same rs env h args vs kw ks : Forall2 (stands rs) args vs -> Forall2 (stands_kw rs) kw ks ->
  (forall c i d, ref_at rs c i = Some d -> exists r, outcome h d = Some r /\ result_of env c i = Some r) ->
  (forall x, In (AVal x) (args ++ map snd kw) -> plain x) ->
  (all_ok (map (argument h) vs) = all_ok (map (arg_result env) args) /\ all_ok (map (argument h) vs) <> None) /\
  (all_ok (map (argument h) (map snd ks)) = all_ok (map (arg_result env) (map snd kw)) /\ all_ok (map (argument h) (map snd ks)) <> None) /\ map fst ks = map fst kw.
Proof.
  intros Fa Fk R Pv. assert (St : forall a v, stands rs a v -> (forall x, a = AVal x -> plain x) -> argument h v = arg_result env a /\ argument h v <> None).
  { intros a v S P. destruct a as [x|c i]; simpl in *.
    - subst v. destruct (P x eq_refl) as (Q & _). destruct x; try discriminate; split; auto; discriminate.
    - destruct S as (d & D & ->). destruct (R _ _ _ D) as (r & E1 & E2). simpl. rewrite E1, E2. split; [auto|discriminate]. }
  split; [|split].
  - apply all_ok_eq. assert (G : forall x, In (AVal x) args -> plain x) by (intros; apply Pv, in_or_app; auto). clear - Fa St G. induction Fa; constructor; [apply St; auto; intros; subst; apply G; simpl; auto|]. apply IHFa. intros. apply G. simpl. auto.
  - apply all_ok_eq. assert (G : forall x, In (AVal x) (map snd kw) -> plain x) by (intros; apply Pv, in_or_app; auto). clear - Fk St G. induction Fk as [|x y l m [A B] F IH]; simpl; constructor; [apply St; auto; intros; apply G; simpl; auto|]. apply IH. intros. apply G. simpl. auto.
  - clear - Fk. induction Fk as [|x y l m [A B] F IH]; simpl; congruence.
Qed.

Lemma made_front o out h : NoDup (made ((o, out) :: h)) -> NoDup (made h).
Proof. unfold made. simpl. destruct out; auto. intros N. inversion N; auto. Qed.

Lemma made_more o out h x : In x (made h) -> In x (made ((o, out) :: h)).
Proof. unfold made. simpl. intros I. apply in_or_app. auto. Qed.

Lemma oi_plays p rs hs h : oplays p rs hs h -> oportable body cbody mbody p -> NoDup (returned h) -> NoDup (made h) -> OI p rs hs h.
Proof.
  induction 1 as [|p rs hs h v d0 Pl IH|p rs hs h f args kw n b vs ks out Pl IH Fa Fk Ln|p rs hs h c0 args kw b x0 Pl IH|p rs hs h a0 x0 m args kw n vs ks out Pl IH Hx Fa Fk Ln|p rs hs h o out Pl IH Lk Ro]; intros Po Nd Nm.
  - split; auto; try (intros c i d E; destruct c; discriminate); try (constructor; fail); intros a x E; destruct a; discriminate.
  - rewrite returned_of in Nd. apply nodup_parts in Nd as (_ & Nd & Fr). destruct (IH (oportable_front _ _ Po) Nd Nm) as [A B C D E F G H]. split; try rewrite odirect_snoc; destruct (odirect p) as [env objs] eqn:Od; cbn [fst snd operform] in *; auto.
    + rewrite !app_length. simpl. lia.
    + rewrite !app_length. simpl. lia.
    + intros c i d R. rewrite returned_of. apply in_or_app. apply ref_cases in R as [[_ R]|[_ R]]; [right; eauto|left; eapply nth_error_In; eauto].
    + intros c i d R. rewrite outcome_cons. apply ref_cases in R as [[L R]|[-> R]].
      * rewrite place_not by (apply Fr; eauto). rewrite result_old by (rewrite B; lia). eauto.
      * destruct i as [|[|i]]; simpl in R; try discriminate. apply Some_inj in R as ->. simpl place. rewrite did_eqb_refl. exists (Ret v). split; auto. rewrite A, <- B, result_new. auto.
  - rewrite returned_of in Nd. apply nodup_parts in Nd as (No & Nd & Fr).
    destruct (IH (oportable_front _ _ Po) Nd (made_front _ _ _ Nm)) as [A B C D E F G H].
    destruct (args_same rs (fst (odirect p)) h args vs kw ks Fa Fk G) as ((A1 & A2) & (K1 & K2) & Kn). { destruct Po as (_ & P2 & _). intros x I. eapply P2; eauto. apply in_or_app. simpl. auto. }
    assert (Fi : forall vs ks, enough n (body f vs ks)). { destruct Po as (_ & _ & _ & P4 & _). intros. eapply P4. apply in_or_app. simpl. auto. }
    split; try rewrite odirect_snoc; destruct (odirect p) as [env objs] eqn:Od; cbn [fst snd operform] in *; auto.
    + rewrite !app_length. simpl. lia.
    + rewrite !app_length. simpl. lia.
    + intros x I. apply made_more. auto.
    + intros c i d R. rewrite returned_of. apply in_or_app. apply ref_cases in R as [[_ R]|[_ R]]; [right; eauto|left; eapply nth_error_In; eauto].
    + intros c i d R. rewrite outcome_cons. apply ref_cases in R as [[L R]|[-> R]].
      * rewrite place_not by (apply Fr; eauto). rewrite result_old by (rewrite B; lia). eauto.
      * rewrite (place_out _ _ _ No R). assert (Li : i < n) by (rewrite <- Ln; apply nth_error_Some; congruence). rewrite A, <- B, result_new. unfold perform. rewrite <- A1, <- K1, Kn.
        destruct (all_ok (map (argument h) vs)) as [[xs|e]|]; [| |congruence].
        -- destruct (all_ok (map (argument h) (map snd ks))) as [[ys|e]|]; [| |congruence]; [apply part_of; auto|exists (Exn e); split; auto; apply nth_error_repeat; auto].
        -- exists (Exn e); split; auto; apply nth_error_repeat; auto.
  - rewrite returned_of in Nd. simpl in Nd. assert (Nx : ~ In x0 (made h)) by (inversion Nm; auto). destruct (IH (oportable_front _ _ Po) Nd (made_front _ _ _ Nm)) as [A B C D E F G H].
    assert (Bu : exists s, cbody c0 args kw = Ret s). { destruct Po as (_ & _ & _ & _ & _ & P6). apply (P6 c0 args kw). apply in_or_app. simpl. auto. } destruct Bu as (s & Bu).
    split; try rewrite odirect_snoc; destruct (odirect p) as [env objs] eqn:Od; cbn [fst snd operform] in *; rewrite ?Bu; auto.
    + rewrite !app_length. simpl. lia.
    + rewrite !app_length. simpl. lia.
    + rewrite !app_length. simpl. lia.
    + intros x I. unfold made. simpl. apply in_app_or in I as [I|[<-|[]]]; [right; apply D|left]; auto.
    + apply NoDup_app_snoc; auto.
    + intros c i d R. rewrite returned_of. apply in_or_app. right. apply ref_cases in R as [[_ R]|[_ R]]; [eauto|destruct i; discriminate].
    + intros c i d R. rewrite outcome_cons. apply ref_cases in R as [[L R]|[_ R]]; [|destruct i; discriminate]. simpl place. rewrite result_old by (rewrite B; lia). eauto.
    + intros a x R. rewrite state_cons. destruct (Nat.lt_ge_cases a (length hs)) as [L|L].
      * rewrite nth_error_app1 in R by auto. assert (x0 <> x) by (intros ->; apply Nx, D; eapply nth_error_In; eauto). rewrite (proj2 (Nat.eqb_neq x0 x)) by auto. rewrite nth_error_app1 by lia. auto.
      * rewrite nth_error_app2 in R by auto. destruct (a - length hs) as [|k] eqn:K; [|destruct k; discriminate]. simpl in R. apply Some_inj in R as ->. rewrite Nat.eqb_refl, Bu. exists s. split; auto. rewrite nth_error_app2 by lia. replace (a - length objs) with 0 by lia. reflexivity.
  - rewrite returned_of in Nd. apply nodup_parts in Nd as (No & Nd & Fr).
    destruct (IH (oportable_front _ _ Po) Nd (made_front _ _ _ Nm)) as [A B C D E F G H].
    destruct (args_same rs (fst (odirect p)) h args vs kw ks Fa Fk G) as ((A1 & A2) & (K1 & K2) & Kn). { destruct Po as (_ & _ & P3 & _). intros x I. eapply P3; eauto. apply in_or_app. simpl. auto. }
    assert (Fi : forall s vs ks, enough n (fst (mbody m s vs ks))). { destruct Po as (_ & _ & _ & _ & P5 & _). intros. eapply P5. apply in_or_app. simpl. auto. }
    destruct (H _ _ Hx) as (s & Hs & Ho). assert (La : a0 < length (snd (odirect p))) by (rewrite <- C; apply nth_error_Some; congruence).
    assert (Res : exists l objs', odirect (p ++ [TMeth a0 m args kw n]) = (fst (odirect p) ++ [l], objs') /\ length objs' = length (snd (odirect p)) /\
      (forall i d, nth_error (refs_of out) i = Some d -> exists r, outcome ((QCall x0 m vs ks n, out) :: h) d = Some r /\ nth_error l i = Some r) /\
      (forall a, a <> a0 -> nth_error objs' a = nth_error (snd (odirect p)) a) /\
      (exists s', state ((QCall x0 m vs ks n, out) :: h) x0 = Some s' /\ nth_error objs' a0 = Some s')).
    { rewrite odirect_snoc. destruct (odirect p) as [env objs] eqn:Od. cbn [fst snd operform] in *. rewrite Ho, <- A1, <- K1. rewrite state_cons, Nat.eqb_refl, Hs, Kn.
      destruct (all_ok (map (argument h) vs)) as [[xs|e]|] eqn:Q1; [| |congruence]; [destruct (all_ok (map (argument h) (map snd ks))) as [[ys|e]|] eqn:Q2; [| |congruence]|].
      - destruct (mbody m s xs (combine (map fst kw) ys)) as [r s'] eqn:M. exists (each n r), (set_at objs a0 s'). split; auto. split; [apply set_at_length; auto|]. split; [|split].
        + intros i d R. rewrite outcome_cons, (place_out _ _ _ No R), Hs, Q1, Q2, Kn, M. assert (Li : i < n) by (rewrite <- Ln; apply nth_error_Some; congruence). apply part_of; auto.
          specialize (Fi s xs (combine (map fst kw) ys)). rewrite M in Fi. exact Fi.
        + intros a Na. apply set_at_other; auto.
        + exists s'. split; auto. apply set_at_same. auto.
      - exists (repeat (Exn e) n), objs. split; auto. split; auto. split; [|split]; eauto.
        intros i d R. rewrite outcome_cons, (place_out _ _ _ No R), Hs, Q1, Q2. exists (Exn e). split; auto. apply nth_error_repeat. rewrite <- Ln; apply nth_error_Some; congruence.
      - exists (repeat (Exn e) n), objs. split; [destruct (all_ok (map (argument h) (map snd ks))) as [[ys|e']|]; auto|]. split; auto. split; [|split]; eauto.
        intros i d R. rewrite outcome_cons, (place_out _ _ _ No R), Hs, Q1. exists (Exn e). split; [destruct (all_ok (map (argument h) (map snd ks))) as [[ys|e']|]; auto|]. apply nth_error_repeat. rewrite <- Ln; apply nth_error_Some; congruence. }
    destruct Res as (l & objs' & Od & Lo & Rr & Ro' & (s' & S1 & S2)). split; rewrite ?Od; cbn [fst snd]; auto.
    + rewrite !app_length. simpl. lia.
    + rewrite !app_length. simpl. lia.
    + lia.
    + intros x I. apply made_more. auto.
    + intros c i d R. rewrite returned_of. apply in_or_app. apply ref_cases in R as [[_ R]|[_ R]]; [right; eauto|left; eapply nth_error_In; eauto].
    + intros c i d R. apply ref_cases in R as [[L R]|[-> R]].
      * rewrite outcome_cons. rewrite place_not by (apply Fr; eauto). rewrite result_old by (rewrite B; lia). eauto.
      * rewrite A, <- B, result_new. eauto.
    + intros a x R. destruct (Nat.eq_dec a a0) as [->|Na].
      * rewrite Hx in R. apply Some_inj in R as <-. eauto.
      * rewrite Ro' by auto. rewrite state_cons. assert (x0 <> x). { intros ->. apply Na. apply (proj1 (NoDup_nth_error _) E); [apply nth_error_Some; congruence|congruence]. }
        rewrite (proj2 (Nat.eqb_neq x0 x)) by auto. auto.
  - rewrite returned_of, Ro in Nd. destruct (IH Po Nd (made_front _ _ _ Nm)) as [A B C D E F G H]. split; auto.
    + intros x I. apply made_more. auto.
    + intros c i d R. rewrite returned_of, Ro. eauto.
    + intros c i d R. rewrite outcome_cons, place_not by (rewrite Ro; auto). eauto.
    + intros a x R. rewrite state_cons. destruct o; try destruct Lk; auto.
Qed.

Theorem obj_direct p rs hs h : oplays p rs hs h -> oportable body cbody mbody p -> NoDup (returned h) -> NoDup (made h) ->
  forall c i d r, ref_at rs c i = Some d -> outcome h d = Some r -> result_of (fst (odirect p)) c i = Some r.
Proof. intros Pl Po N M c i d r R E. destruct (oi_res _ _ _ _ (oi_plays _ _ _ _ Pl Po N M) _ _ _ R) as (r' & E1 & E2). congruence. Qed.
End Obj.
