(** C98, backends with histories as in PyseqModel: what a history's references stand for is what direct execution of the program gives. *)
From Verif Require Import Lib ValModel PyseqModel PyseqSpec PyseqProofs PortSpec.

Section Port.
Variable body : nat -> list val -> kwargs -> res.
Variable cbody : nat -> list val -> kwargs -> res.
Variable mbody : nat -> val -> list val -> kwargs -> res * val.
Variable item : val -> nat -> option val.
Notation outcome := (outcome body cbody mbody item).
Notation argument := (argument body cbody mbody item).

Lemma direct_snoc p x : direct body (p ++ [x]) = direct body p ++ [perform body (direct body p) x].
Proof. unfold direct. rewrite fold_left_app. reflexivity. Qed.

Lemma direct_length p : length (direct body p) = length p.
Proof. induction p using rev_ind; auto. rewrite direct_snoc, !app_length, IHp. reflexivity. Qed.

Lemma result_old env l c i : c < length env -> result_of (env ++ [l]) c i = result_of env c i.
Proof. intros L. unfold result_of. rewrite nth_error_app1 by auto. reflexivity. Qed.

Lemma result_new env l i : result_of (env ++ [l]) (length env) i = nth_error l i.
Proof. unfold result_of. rewrite nth_error_app2, Nat.sub_diag by auto. reflexivity. Qed.

Lemma ref_cases rs l c i d : ref_at (rs ++ [l]) c i = Some d -> (c < length rs /\ ref_at rs c i = Some d) \/ (c = length rs /\ nth_error l i = Some d).
Proof.
  unfold ref_at. intros E. destruct (Nat.lt_ge_cases c (length rs)) as [L|L].
  - rewrite nth_error_app1 in E by auto. auto.
  - rewrite nth_error_app2 in E by auto. destruct (c - length rs) as [|k] eqn:K; simpl in E; [right; split; [lia|auto]|destruct k; discriminate].
Qed.

Lemma each_length n r : (forall v, r = Ret v -> n <= 1 \/ exists l, (v = VList l \/ v = VTuple l) /\ length l = n) -> 0 < n -> length (each n r) = n.
Proof.
  intros R P. destruct r as [v|e]; simpl; [|apply repeat_length]. destruct (Nat.eqb n 1) eqn:N; [apply Nat.eqb_eq in N; auto|]. apply Nat.eqb_neq in N.
  destruct (R v eq_refl) as [X|(l & X & L)]; [lia|]. destruct X as [->| ->]; rewrite map_length; auto.
Qed.

Lemma part_each n r i x : i < n -> (forall v, r = Ret v -> n <= 1 \/ exists l, (v = VList l \/ v = VTuple l) /\ length l = n) -> part item r n i = Some x -> nth_error (each n r) i = Some x.
Proof.
  intros L R. destruct r as [v|e]; simpl.
  - destruct (Nat.eqb n 1) eqn:N; [apply Nat.eqb_eq in N; destruct i; [auto|lia]|]. apply Nat.eqb_neq in N.
    destruct (R v eq_refl) as [X|(l & X & Ll)]; [lia|]. destruct X as [->| ->]; simpl; rewrite nth_error_map; auto.
  - intros E. rewrite <- E. rewrite nth_error_repeat; auto.
Qed.

Lemma all_ok_same {A B} (f : A -> option res) (g : B -> option res) l m X :
  Forall2 (fun a b => forall r, f a = Some r -> g b = Some r) l m -> all_ok (map f l) = Some X -> all_ok (map g m) = Some X.
Proof.
  intros F. revert X. induction F as [|a b l m H F IH]; intros X E; simpl in *; auto. destruct (f a) as [[v|e]|] eqn:Fa; [| |discriminate]; rewrite (H _ eq_refl); auto.
  destruct (all_ok (map f l)) as [[vs|e]|]; [| |discriminate]; rewrite (IH _ eq_refl); auto.
Qed.

Lemma returned_of o out h : returned ((o, out) :: h) = refs_of out ++ returned h.
Proof. destruct out; reflexivity. Qed.

Lemma plays_length p rs h : plays p rs h -> length rs = length p.
Proof. induction 1; auto; rewrite !app_length; simpl; lia. Qed.

Lemma plays_returned p rs h : plays p rs h -> forall c i d, ref_at rs c i = Some d -> In d (returned h).
Proof.
  induction 1; intros c i x E; [destruct c; discriminate| | |]; rewrite returned_of.
  - apply ref_cases in E as [[_ E]|[_ E]]; apply in_or_app; [right; eauto|left]. eapply nth_error_In; eauto.
  - apply ref_cases in E as [[_ E]|[_ E]]; apply in_or_app; [right; eauto|left]. eapply nth_error_In; eauto.
  - apply in_or_app. right. eauto.
Qed.

Lemma nodup_parts {A} (l m : list A) : NoDup (l ++ m) -> NoDup l /\ NoDup m /\ forall x, In x m -> ~ In x l.
Proof.
  induction l as [|x l IH]; simpl; intros N; [split; [constructor|split; auto]|]. inversion N; subst. destruct (IH H2) as (A1 & B & C). split; [constructor; auto; intros I; apply H1, in_or_app; auto|].
  split; auto. intros y I [->|J]; [apply H1, in_or_app; auto|]. eapply C; eauto.
Qed.

Lemma place_out d out i : NoDup (refs_of out) -> nth_error (refs_of out) i = Some d -> place d out = Some i.
Proof.
  intros N E. destruct (place_In d out) as (j & J); [eapply nth_error_In; eauto|]. rewrite J. apply place_refs in J. f_equal. symmetry. apply (proj1 (NoDup_nth_error _) N).
  - apply nth_error_Some. congruence.
  - rewrite E. symmetry. exact J.
Qed.

Lemma place_not d out : ~ In d (refs_of out) -> place d out = None.
Proof. intros N. destruct (place d out) as [i|] eqn:E; auto. apply place_refs in E. apply nth_error_In in E. contradiction. Qed.

Lemma portable_front p x : portable body (p ++ [x]) -> portable body p.
Proof.
  intros (P1 & P2 & P3). split; [|split].
  - intros v I. apply P1, in_or_app. auto.
  - intros f args kw n v I. apply (P2 f args kw n v), in_or_app. auto.
  - intros f args kw n vs ks v I. apply (P3 f args kw n vs ks v), in_or_app. auto.
Qed.

Theorem hist_direct p rs h : plays p rs h -> portable body p -> NoDup (returned h) ->
  forall c i d r, ref_at rs c i = Some d -> outcome h d = Some r -> result_of (direct body p) c i = Some r.
Proof.
  induction 1 as [|p rs h v d0 Pl IH|p rs h f args kw n b vs ks out Pl IH Fa Fk Ln|p rs h o out Pl IH Lk Ro]; intros Po Nd c i d r Rf E.
  - destruct c; discriminate.
  - rewrite direct_snoc. rewrite returned_of in Nd. apply nodup_parts in Nd as (_ & Nd & Fr). assert (Po' : portable body p).
    { eapply portable_front; eauto. }
    assert (Le := plays_length _ _ _ Pl). apply ref_cases in Rf as [[L Rf]|[-> Rf]].
    + rewrite result_old by (rewrite direct_length; lia). apply (IH Po' Nd _ _ _ _ Rf). rewrite outcome_cons, place_not in E; auto. apply Fr. eapply plays_returned; eauto.
    + destruct i as [|[|i]]; simpl in Rf; try discriminate. apply Some_inj in Rf as ->. rewrite outcome_cons in E. simpl place in E. rewrite did_eqb_refl in E.
      rewrite Le, <- (direct_length p), result_new. exact E.
  - rewrite direct_snoc. rewrite returned_of in Nd. apply nodup_parts in Nd as (No & Nd & Fr). assert (Po' : portable body p).
    { eapply portable_front; eauto. }
    assert (Le := plays_length _ _ _ Pl). apply ref_cases in Rf as [[L Rf]|[-> Rf]].
    + rewrite result_old by (rewrite direct_length; lia). apply (IH Po' Nd _ _ _ _ Rf). rewrite outcome_cons, place_not in E; auto. apply Fr. eapply plays_returned; eauto.
    + rewrite Le, <- (direct_length p), result_new. rewrite outcome_cons, (place_out _ _ _ No Rf) in E.
      assert (Li : i < n) by (rewrite <- Ln; apply nth_error_Some; congruence).
      assert (St : forall a v, stands rs a v -> (forall x, a = AVal x -> plain x) -> forall r, argument h v = Some r -> arg_result (direct body p) a = Some r).
      { intros a v S Pv r' A. destruct a as [x|c' i']; simpl in *.
        - subst v. destruct (Pv x eq_refl) as (R & _). destruct x; auto. discriminate.
        - destruct S as (d' & R & ->). simpl in A. eapply IH; eauto. }
      assert (Pa : forall a x, In a (args ++ map snd kw) -> a = AVal x -> plain x).
      { intros a x I ->. destruct Po as (_ & P2 & _). eapply P2; eauto. apply in_or_app. simpl. auto. }
      assert (F1 : Forall2 (fun v a => forall r, argument h v = Some r -> arg_result (direct body p) a = Some r) vs args).
      { assert (G : forall a x, In a args -> a = AVal x -> plain x) by (intros; eapply Pa; eauto; apply in_or_app; auto). clear - Fa St G. induction Fa; constructor; [apply St; auto; intros; eapply G; eauto; simpl; auto|]. apply IHFa. intros; eapply G; eauto; simpl; auto. }
      assert (F2 : Forall2 (fun v a => forall r, argument h v = Some r -> arg_result (direct body p) a = Some r) (map snd ks) (map snd kw) /\ map fst ks = map fst kw).
      { assert (G : forall a x, In a (map snd kw) -> a = AVal x -> plain x) by (intros; eapply Pa; eauto; apply in_or_app; auto). clear - Fk St G. induction Fk as [|x y l m [A B] F IH]; [split; constructor|].
        destruct IH as [I1 I2]; [intros; eapply G; eauto; simpl; auto|]. split; [simpl; constructor; auto; apply St; auto; intros; eapply G; eauto; simpl; auto|simpl; congruence]. }
      destruct F2 as [F2 Fn]. unfold perform. change (match all_ok (map (argument h) vs) with
         | Some (inl vs0) => match all_ok (map (argument h) (map snd ks)) with Some (inl ks0) => part item (body f vs0 (combine (map fst ks) ks0)) n i | Some (inr e) => Some (Exn e) | None => None end
         | Some (inr e) => Some (Exn e) | None => None end = Some r) in E.
      destruct (all_ok (map (argument h) vs)) as [X|] eqn:A1; [|discriminate]. rewrite (all_ok_same _ _ _ _ _ F1 A1). destruct X as [xs|e].
      * destruct (all_ok (map (argument h) (map snd ks))) as [Y|] eqn:A2; [|discriminate]. rewrite (all_ok_same _ _ _ _ _ F2 A2). destruct Y as [ys|e].
        -- rewrite Fn in E. apply part_each; auto. intros v Bv. destruct Po as (_ & _ & P3). eapply P3; eauto. apply in_or_app. simpl. auto.
        -- rewrite <- E. rewrite nth_error_repeat; auto.
      * rewrite <- E. rewrite nth_error_repeat; auto.
  - rewrite returned_of, Ro in Nd. apply (IH Po Nd _ _ _ _ Rf). rewrite outcome_cons, place_not in E; auto. rewrite Ro. auto.
Qed.
End Port.
