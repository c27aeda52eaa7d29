(** Invariants of AliasModel. *)
From Verif Require Import Lib AliasModel AliasSpec.
Local Arguments skipn : simpl never.

Lemma aset_same {A} (f : nat -> A) x a : aset f x a x = a.
Proof. unfold aset. now rewrite Nat.eqb_refl. Qed.
Lemma aset_other {A} (f : nat -> A) x y a : x <> y -> aset f x a y = f y.
Proof. unfold aset. intros H. destruct (Nat.eqb_spec y x); congruence. Qed.

Lemma aset_dput {V} (f : nat -> dmap V) p d v q e x :
  aset f p (dput (f p) d v) q e = Some x -> (q = p /\ e = d /\ x = v) \/ f q e = Some x.
Proof.
  unfold aset. destruct (Nat.eqb_spec q p) as [->|]; [|auto].
  unfold dput. destruct (did_eqb d e) eqn:E; [|auto]. apply did_eqb_eq in E as ->. intros H. injection H as <-. auto.
Qed.
Lemma dput_some {V} (f : dmap V) d v e x : dput f d v e = Some x -> (e = d /\ x = v) \/ f e = Some x.
Proof. unfold dput. destruct (did_eqb d e) eqn:E; [|auto]. apply did_eqb_eq in E as ->. intros H. injection H as <-. auto. Qed.

Record WF (s : ast) : Prop := {
  f_local : forall q d l, local s q d = Some l -> In d (used s) /\ l < next s;
  f_cached : forall q d k, cached s q d = Some k -> In d (used s);
  f_info : forall q d u, info s q d = Some u -> In d (used s);
  f_shared : forall d c, shared s d = Some c -> In d (used s);
  f_data : forall d w k, In (FData d w k) (air s) -> In d (used s);
  f_inf : forall d w, In (FInfo d w) (air s) -> In d (used s);
  f_arg : forall n w a l, In (FArg n w a l) (air s) -> n < nsub s /\ l < next s;
  f_got : forall q d c, In (AGot q d c) (alog s) -> In d (used s);
  f_args : forall n c, In (AArg n c) (alog s) -> n < nsub s
}.

Lemma wf_init : WF ainit.
Proof. constructor; simpl; try contradiction; unfold dempty; discriminate. Qed.

Lemma in_cut {A} (l : list A) i x : In x (firstn i l ++ skipn (S i) l) -> In x l.
Proof.
  rewrite in_app_iff. intros [H|H].
  - rewrite <- (firstn_skipn i l). apply in_or_app; auto.
  - rewrite <- (firstn_skipn (S i) l). apply in_or_app; auto.
Qed.

Ltac guards :=
  repeat match goal with
  | H : _ && _ = true |- _ => apply andb_true_iff in H as [? ?]
  | H : (_ <? _) = true |- _ => apply Nat.ltb_lt in H
  | H : Nat.eqb _ _ = true |- _ => apply Nat.eqb_eq in H
  | H : negb _ = true |- _ => apply negb_true_iff in H
  end.
Ltac facts :=
  repeat match goal with
  | H : aset _ _ (dput _ _ _) _ _ = Some _ |- _ => apply aset_dput in H as [(? & ? & ?)|H]; subst
  | H : dput _ _ _ _ = Some _ |- _ => apply dput_some in H as [(? & ?)|H]; subst
  | H : In _ (firstn _ _ ++ skipn _ _) |- _ => apply in_cut in H
  | H : In _ (_ ++ [_]) |- _ => apply in_app_iff in H as [H|[H|[]]]
  | H : FData _ _ _ = FData _ _ _ |- _ => injection H as ? ? ?; subst
  | H : FInfo _ _ = FInfo _ _ |- _ => injection H as ? ?; subst
  | H : FArg _ _ _ _ = FArg _ _ _ _ |- _ => injection H as ? ? ? ?; subst
  | H : AGot _ _ _ = AGot _ _ _ |- _ => injection H as ? ? ?; subst
  | H : AArg _ _ = AArg _ _ |- _ => injection H as ? ?; subst
  | H : nth_error _ _ = Some _ |- _ => apply nth_error_In in H
  | H : (if ?b then _ else _) = _ |- _ => destruct b
  end; try discriminate; try contradiction.

Lemma wf_step s o : WF s -> WF (astep s o).
Proof.
  intros [H1 H2 H3 H4 H5 H6 H7 H8 H9].
  assert (L : forall q d l, local s q d = Some l -> l < S (next s)).
  { intros q d l X. apply H1 in X. lia. }
  assert (L7 : forall n w a l, In (FArg n w a l) (air s) -> n < nsub s /\ l < S (next s)).
  { intros n w a l X. apply H7 in X. lia. }
  destruct o as [p a bs|p l a|p l bs|p l d sh|p l d sh|p l w|p d|p d w sh|i]; simpl.
  all: unfold keep;
    repeat match goal with
    | |- WF (match ?e with _ => _ end) => let E := fresh "E" in destruct e eqn:E
    | |- WF (if ?e then _ else _) => let E := fresh "E" in destruct e eqn:E
    | |- context [with_air (if ?e then _ else _) _] => destruct e
    end; try (constructor; assumption); guards.
  all: constructor; simpl; intros; facts; eauto.
  all: try (split; [eauto|]; eauto; fail).
  all: repeat match goal with
       | X : local _ _ _ = Some _ |- _ => apply H1 in X as [? ?]
       | X : In (FArg _ _ _ _) (air _) |- _ => apply H7 in X as [? ?]
       | X : In (AArg _ _) (alog _) |- _ => apply H9 in X
       end; auto; try (split; eauto; lia); eauto; try lia.
Qed.

Lemma wf_run ops : WF (arun ops).
Proof.
  unfold arun. assert (G : forall s, WF s -> WF (fold_left astep ops s)).
  { induction ops as [|o ops IH]; intros s W; simpl; auto using wf_step. }
  apply G, wf_init.
Qed.

(** ** The value of a reference *)
Definition fits (c : cont) (k : pk) : Prop :=
  k_count k = length (c_bufs c) /\ c_in (k_c k) = c_in c /\ (c_bufs (k_c k) = c_bufs c \/ c_bufs (k_c k) = []).

Lemma fits_pack c : fits c (pack c).
Proof. unfold fits, pack; simpl; auto. Qed.
Lemma fits_whole c k : fits c k -> whole k = true -> k_c k = c.
Proof.
  intros (A & B & D) W. unfold whole in W. apply Nat.eqb_eq in W. rewrite A in W.
  destruct (k_c k) as [a bs], c as [a' bs']; simpl in *. subst a'. f_equal.
  destruct D as [-> | ->]; auto. destruct bs'; auto; discriminate.
Qed.

Record INV (d : dataid) (c : cont) (s : ast) : Prop := {
  v_local : forall q l, local s q d = Some l -> o_c (heap s l) = c;
  v_cached : forall q k, cached s q d = Some k -> fits c k;
  v_shared : forall c', shared s d = Some c' -> c' = c;
  v_data : forall w k, In (FData d w k) (air s) -> fits c k;
  v_got : forall q c', In (AGot q d c') (alog s) -> c' = c
}.

(** What an operation may not change. *)
Definition spares (s : ast) (o : aop) : Prop :=
  forall l, (exists p x, o = ASetIn p l x) \/ (exists p bs, o = ASetBufs p l bs) -> forall q d, local s q d <> Some l.

Lemma inv_step d c s o : WF s -> In d (used s) -> spares s o -> INV d c s -> INV d c (astep s o).
Proof.
  intros W U SP [H1 H2 H3 H4 H5].
  assert (L : forall q l, local s q d = Some l -> aset (heap s) (next s) =
                                                 aset (heap s) (next s) /\ l <> next s).
  { intros q l X. split; auto. apply (f_local s W) in X. lia. }
  assert (HA : forall x q l, local s q d = Some l -> o_c (aset (heap s) (next s) x l) = c).
  { intros x q l X. rewrite aset_other; eauto. apply not_eq_sym. apply (L q l X). }
  destruct o as [p a bs|p l a|p l bs|p l e sh|p l e sh|p l w|p e|p e w sh|i].
  - simpl. constructor; simpl; intros; eauto.
  - simpl. assert (NL : forall q e, local s q e <> Some l) by (apply SP; eauto).
    destruct (_ && _); [|constructor; auto]. constructor; simpl; intros; eauto.
    rewrite aset_other; eauto. intros ->. apply (NL q d); auto.
  - simpl. assert (NL : forall q e, local s q e <> Some l) by (apply SP; eauto).
    destruct (_ && _); [|constructor; auto]. constructor; simpl; intros; eauto.
    rewrite aset_other; eauto. intros ->. apply (NL q d); auto.
  - simpl. destruct (_ && _) eqn:G; [|constructor; auto]. guards.
    assert (ND : e <> d) by (intros ->; apply did_in_In in U; congruence).
    unfold keep; destruct sh; constructor; simpl; intros; facts; eauto; congruence.
  - simpl. destruct (_ && _) eqn:G; [|constructor; auto]. guards.
    assert (ND : e <> d) by (intros ->; apply did_in_In in U; congruence).
    unfold keep; destruct sh; constructor; simpl; intros; facts; eauto; congruence.
  - simpl. destruct (_ && _) eqn:G; [|constructor; auto].
    constructor; simpl; intros; facts; eauto.
  - simpl. destruct (local s p e) as [l|] eqn:E.
    + constructor; simpl; intros; facts; eauto.
    + destruct (cached s p e) as [k|] eqn:Ek.
      * destruct (whole k) eqn:Wk.
        -- constructor; simpl; intros; facts; eauto.
           ++ rewrite aset_same. simpl. apply fits_whole; eauto.
           ++ destruct (H2 _ _ Ek) as (A & B & _). unfold fits; simpl; auto.
           ++ apply fits_whole; eauto.
        -- constructor; simpl; intros; facts; eauto.
      * destruct (info s p e), (shared s e) eqn:Es; try (constructor; auto; fail).
        constructor; simpl; intros; facts; eauto. rewrite aset_same. simpl. eauto.
  - simpl. destruct (info s p e).
    + constructor; simpl; intros; facts; eauto.
    + destruct (cached s p e) as [k|] eqn:Ek.
      * constructor; simpl; intros; facts; eauto.
      * destruct (local s p e) as [l|] eqn:El; [|constructor; auto].
        unfold keep; destruct sh; constructor; simpl; intros; facts; eauto.
        -- rewrite (H1 _ _ El). apply fits_pack.
        -- rewrite (H1 _ _ El). apply fits_pack.
  - simpl. destruct (nth_error (air s) i) as [[e w k|e w|n w a l]|] eqn:E; [| | |constructor; auto].
    + apply nth_error_In in E. destruct (whole k) eqn:Wk.
      * constructor; simpl; intros; facts; eauto. rewrite aset_same. simpl. apply fits_whole; eauto.
      * constructor; simpl; intros; facts; eauto.
    + destruct (local s w e) as [l|] eqn:El.
      * constructor; simpl; intros; facts; eauto.
      * destruct (shared s e) eqn:Es; constructor; simpl; intros; facts; eauto. rewrite aset_same. simpl. eauto.
    + constructor; simpl; intros; facts; eauto.
Qed.

Lemma used_step s o d : In d (used s) -> In d (used (astep s o)).
Proof.
  intros U. destruct o; simpl; unfold keep;
    repeat match goal with
    | |- context [match ?e with _ => _ end] => destruct e
    end; simpl; auto.
Qed.

Lemma arun_app a b : arun (a ++ b) = fold_left astep b (arun a).
Proof. unfold arun. apply fold_left_app. Qed.

Lemma inv_rest d c ops : values_left_alone ops -> forall b a, ops = a ++ b ->
  In d (used (arun a)) -> INV d c (arun a) -> INV d c (arun ops).
Proof.
  intros LA. induction b as [|o b IH]; intros a Eq U V.
  - rewrite app_nil_r in Eq. subst; auto.
  - assert (E1 : arun (a ++ [o]) = astep (arun a) o) by (rewrite arun_app; reflexivity).
    apply (IH (a ++ [o])).
    + rewrite <- app_assoc. auto.
    + rewrite E1. apply used_step; auto.
    + rewrite E1. apply inv_step; auto using wf_run. intros l Hl q e. apply (LA a o b l); auto.
Qed.

Lemma got_inv ops a o b d c : values_left_alone ops -> ops = a ++ o :: b ->
  In d (used (astep (arun a) o)) -> INV d c (astep (arun a) o) ->
  forall q c', In (AGot q d c') (alog (arun ops)) -> c' = c.
Proof.
  intros LA Eq U V q c' H.
  assert (E1 : arun (a ++ [o]) = astep (arun a) o) by (rewrite arun_app; reflexivity).
  apply (v_got d c (arun ops)) in H; auto. apply (inv_rest d c ops LA b (a ++ [o])).
  - rewrite <- app_assoc. auto.
  - rewrite E1; auto.
  - rewrite E1; auto.
Qed.

Lemma new_guard s p l c d : holds s p l c -> ~ In d (used s) ->
  (l <? next s) && Nat.eqb (o_mem (heap s l)) p && negb (did_in d (used s)) = true.
Proof.
  intros (A & B & _) N. rewrite !andb_true_iff, negb_true_iff. repeat split.
  - now apply Nat.ltb_lt.
  - now apply Nat.eqb_eq.
  - destruct (did_in d (used s)) eqn:E; auto. apply did_in_In in E. contradiction.
Qed.

Lemma put_value ops a p l d sh b c : values_left_alone ops -> ops = a ++ APut p l d sh :: b ->
  holds (arun a) p l c -> ~ In d (used (arun a)) ->
  forall q c', In (AGot q d c') (alog (arun ops)) -> c' = c.
Proof.
  intros LA Eq Ho N. assert (G := new_guard _ _ _ _ _ Ho N). destruct Ho as (_ & _ & Hc). assert (W := wf_run a).
  apply (got_inv ops a (APut p l d sh) b d c LA Eq); simpl; rewrite G; unfold keep.
  - destruct sh; simpl; auto.
  - destruct sh; constructor; simpl; intros; facts; auto.
    all: try (exfalso; apply N; eapply f_local + eapply f_cached + eapply f_shared + eapply f_data + eapply f_got; eauto; fail).
    apply fits_pack.
Qed.

Lemma return_value ops a p l d sh b c : values_left_alone ops -> ops = a ++ AReturn p l d sh :: b ->
  holds (arun a) p l c -> ~ In d (used (arun a)) ->
  forall q c', In (AGot q d c') (alog (arun ops)) -> c' = c.
Proof.
  intros LA Eq Ho N. assert (G := new_guard _ _ _ _ _ Ho N). destruct Ho as (_ & _ & Hc). assert (W := wf_run a).
  apply (got_inv ops a (AReturn p l d sh) b d c LA Eq); simpl; rewrite G; unfold keep.
  - destruct sh; simpl; auto.
  - destruct sh; constructor; simpl; intros; facts; auto.
    all: try (exfalso; apply N; eapply f_local + eapply f_cached + eapply f_shared + eapply f_data + eapply f_got; eauto; fail).
    apply fits_pack.
Qed.

(** ** Arguments given directly *)
Record ARG (n : nat) (c : cont) (s : ast) : Prop := {
  g_sub : n < nsub s;
  g_air : forall w a l, In (FArg n w a l) (air s) -> {| c_in := a; c_bufs := c_bufs (o_c (heap s l)) |} = c;
  g_log : forall c', In (AArg n c') (alog s) -> c' = c
}.

Lemma arg_step n c s o : WF s ->
  (c_bufs c = [] \/ forall p l bs, o = ASetBufs p l bs -> forall m w x, ~ In (FArg m w x l) (air s)) ->
  ARG n c s -> ARG n c (astep s o).
Proof.
  intros W SP [H0 H1 H2].
  assert (HA : forall x w a l, In (FArg n w a l) (air s) ->
     {| c_in := a; c_bufs := c_bufs (o_c (aset (heap s) (next s) x l)) |} = c).
  { intros x w a l X. rewrite aset_other; eauto. apply (f_arg s W) in X. lia. }
  destruct o as [p a bs|p l a|p l bs|p l e sh|p l e sh|p l w|p e|p e w sh|i]; simpl.
  - constructor; simpl; intros; eauto.
  - destruct (_ && _); [|constructor; auto]. constructor; simpl; intros; eauto.
    unfold aset. destruct (Nat.eqb_spec l0 l) as [->|]; simpl; eauto.
  - destruct (_ && _) eqn:G; [|constructor; auto]. guards. constructor; simpl; intros; eauto.
    unfold aset. destruct (Nat.eqb_spec l0 l) as [->|]; simpl; eauto.
    destruct SP as [Ec|SP]; [|exfalso; eapply SP; eauto].
    match goal with X : In (FArg _ _ _ _) _ |- _ => specialize (H1 _ _ _ X) end.
    rewrite <- H1 in Ec |- *. simpl in Ec. rewrite Ec in *. simpl in *. f_equal.
    destruct bs; auto; discriminate.
  - destruct (_ && _); [|constructor; auto]. unfold keep; destruct sh; constructor; simpl; intros; eauto.
  - destruct (_ && _); [|constructor; auto]. unfold keep; destruct sh; constructor; simpl; intros; eauto.
  - destruct (_ && _); [|constructor; auto]. constructor; simpl; intros; facts; eauto; lia.
  - destruct (local s p e); [|destruct (cached s p e) as [k|]; [destruct (whole k)|destruct (info s p e), (shared s e)]];
      constructor; simpl; intros; facts; eauto.
  - destruct (info s p e); [|destruct (cached s p e); [|destruct (local s p e)]]; try (constructor; simpl; intros; facts; eauto; fail).
    unfold keep; destruct sh; constructor; simpl; intros; facts; eauto.
  - destruct (nth_error (air s) i) as [[e w k|e w|m w a l]|] eqn:E; [| | |constructor; auto].
    + destruct (whole k); constructor; simpl; intros; facts; eauto.
    + destruct (local s w e); [|destruct (shared s e)]; constructor; simpl; intros; facts; eauto.
    + constructor; simpl; intros; facts; eauto.
Qed.

Lemma arg_rest n c ops : c_bufs c = [] \/ buffers_left_alone ops -> forall b a, ops = a ++ b ->
  ARG n c (arun a) -> ARG n c (arun ops).
Proof.
  intros LA. induction b as [|o b IH]; intros a Eq V.
  - rewrite app_nil_r in Eq. subst; auto.
  - assert (E1 : arun (a ++ [o]) = astep (arun a) o) by (rewrite arun_app; reflexivity).
    apply (IH (a ++ [o])).
    + rewrite <- app_assoc. auto.
    + rewrite E1. apply arg_step; auto using wf_run. destruct LA as [LA|LA]; auto.
      right. intros p l bs ->. apply (LA a p l bs b); auto.
Qed.

Lemma arg_value ops a p l w b c : c_bufs c = [] \/ buffers_left_alone ops -> ops = a ++ ASubmit p l w :: b ->
  holds (arun a) p l c ->
  forall c', In (AArg (nsub (arun a)) c') (alog (arun ops)) -> c' = c.
Proof.
  intros LA Eq (A & B & Hc) c' H. assert (W := wf_run a).
  assert (E1 : arun (a ++ [ASubmit p l w]) = astep (arun a) (ASubmit p l w)) by (rewrite arun_app; reflexivity).
  apply (g_log (nsub (arun a)) c (arun ops)) in H; auto.
  apply (arg_rest _ c ops LA b (a ++ [ASubmit p l w])).
  - rewrite <- app_assoc. auto.
  - rewrite E1. simpl. apply Nat.ltb_lt in A as ->. apply Nat.eqb_eq in B as ->. simpl.
    constructor; simpl; intros; facts.
    + lia.
    + apply (f_arg _ W) in H0. lia.
    + match goal with X : FArg _ _ _ _ = FArg _ _ _ _ |- _ => injection X as <- <- <- end. rewrite Hc. destruct c; auto.
    + apply (f_args _ W) in H0. lia.
Qed.

(** ** Changes in the process that made the value do not matter elsewhere *)
Section Elsewhere.
Variable p0 : nat.

Record INX (d : dataid) (c : cont) (s : ast) : Prop := {
  x_local : forall q l, q <> p0 -> local s q d = Some l -> o_c (heap s l) = c;
  x_cached : forall q k, cached s q d = Some k -> fits c k;
  x_kept : info s p0 d = None -> exists k, cached s p0 d = Some k;
  x_shared : forall c', shared s d = Some c' -> c' = c;
  x_data : forall w k, In (FData d w k) (air s) -> fits c k;
  x_got : forall q c', q <> p0 -> In (AGot q d c') (alog s) -> c' = c
}.

Definition spares_x (s : ast) (o : aop) : Prop :=
  forall l, (exists p x, o = ASetIn p l x) \/ (exists p bs, o = ASetBufs p l bs) -> forall q d, q <> p0 -> local s q d <> Some l.

Lemma aset_none {V} (f : nat -> dmap V) p d v q e : aset f p (dput (f p) d v) q e = None -> f q e = None.
Proof.
  unfold aset. destruct (Nat.eqb_spec q p) as [->|]; [|auto].
  unfold dput. destruct (did_eqb d e) eqn:E; [discriminate|auto].
Qed.
Lemma aset_some {V} (f : nat -> dmap V) p d v q e k : f q e = Some k -> exists k', aset f p (dput (f p) d v) q e = Some k'.
Proof.
  unfold aset. destruct (Nat.eqb_spec q p) as [->|]; [|eauto].
  unfold dput. destruct (did_eqb d e) eqn:E; eauto.
Qed.

Lemma inx_step d c s o : WF s -> In d (used s) -> spares_x s o -> INX d c s -> INX d c (astep s o).
Proof.
  intros W U SP [H1 H2 HK H3 H4 H5].
  assert (HA : forall x q l, q <> p0 -> local s q d = Some l -> o_c (aset (heap s) (next s) x l) = c).
  { intros x q l N X. rewrite aset_other; eauto. apply (f_local s W) in X. lia. }
  assert (HK1 : forall p e v, info s p0 d = None -> exists k, aset (cached s) p (dput (cached s p) e v) p0 d = Some k).
  { intros p e v X. destruct (HK X) as (k & Hk). apply (aset_some _ p e v) in Hk. auto. }
  assert (HK2 : forall p e, aset (info s) p (dput (info s p) e tt) p0 d = None -> exists k, cached s p0 d = Some k).
  { intros p e X. apply aset_none in X. auto. }
  destruct o as [p a bs|p l a|p l bs|p l e sh|p l e sh|p l w|p e|p e w sh|i].
  - simpl. constructor; simpl; intros; eauto.
  - simpl. assert (NL : forall q e, q <> p0 -> local s q e <> Some l) by (apply SP; eauto).
    destruct (_ && _); [|constructor; auto]. constructor; simpl; intros; eauto.
    rewrite aset_other; eauto. intros ->. apply (NL q d); auto.
  - simpl. assert (NL : forall q e, q <> p0 -> local s q e <> Some l) by (apply SP; eauto).
    destruct (_ && _); [|constructor; auto]. constructor; simpl; intros; eauto.
    rewrite aset_other; eauto. intros ->. apply (NL q d); auto.
  - simpl. destruct (_ && _) eqn:G; [|constructor; auto]. guards.
    assert (ND : e <> d) by (intros ->; apply did_in_In in U; congruence).
    unfold keep; destruct sh; constructor; simpl; intros; facts; eauto; congruence.
  - simpl. destruct (_ && _) eqn:G; [|constructor; auto]. guards.
    assert (ND : e <> d) by (intros ->; apply did_in_In in U; congruence).
    unfold keep; destruct sh; constructor; simpl; intros; facts; eauto; congruence.
  - simpl. destruct (_ && _) eqn:G; [|constructor; auto].
    constructor; simpl; intros; facts; eauto.
  - simpl. destruct (local s p e) as [l|] eqn:E.
    + constructor; simpl; intros; facts; eauto.
    + destruct (cached s p e) as [k|] eqn:Ek.
      * destruct (whole k) eqn:Wk.
        -- constructor; simpl; intros; facts; eauto.
           ++ rewrite aset_same. simpl. apply fits_whole; eauto.
           ++ destruct (H2 _ _ Ek) as (A & B & _). unfold fits; simpl; auto.
           ++ apply fits_whole; eauto.
        -- constructor; simpl; intros; facts; eauto.
      * destruct (info s p e), (shared s e) eqn:Es; try (constructor; auto; fail).
        constructor; simpl; intros; facts; eauto. rewrite aset_same. simpl. eauto.
  - simpl. destruct (info s p e) eqn:Ei.
    + constructor; simpl; intros; facts; eauto.
    + destruct (cached s p e) as [k|] eqn:Ek.
      * constructor; simpl; intros; facts; eauto.
      * destruct (local s p e) as [l|] eqn:El; [|constructor; auto].
        assert (NP : e = d -> p <> p0) by (intros -> ->; destruct (HK Ei); congruence).
        unfold keep; destruct sh; constructor; simpl; intros; facts; eauto.
        -- rewrite (H1 _ _ (NP eq_refl) El). apply fits_pack.
        -- rewrite (H1 _ _ (NP eq_refl) El). apply fits_pack.
  - simpl. destruct (nth_error (air s) i) as [[e w k|e w|n w a l]|] eqn:E; [| | |constructor; auto].
    + apply nth_error_In in E. destruct (whole k) eqn:Wk.
      * constructor; simpl; intros; facts; eauto. rewrite aset_same. simpl. apply fits_whole; eauto.
      * constructor; simpl; intros; facts; eauto.
    + destruct (local s w e) as [l|] eqn:El.
      * constructor; simpl; intros; facts; eauto.
      * destruct (shared s e) eqn:Es; constructor; simpl; intros; facts; eauto. rewrite aset_same. simpl. eauto.
    + constructor; simpl; intros; facts; eauto.
Qed.

Lemma inx_rest d c ops : values_left_alone_but p0 ops -> forall b a, ops = a ++ b ->
  In d (used (arun a)) -> INX d c (arun a) -> INX d c (arun ops).
Proof.
  intros LA. induction b as [|o b IH]; intros a Eq U V.
  - rewrite app_nil_r in Eq. subst; auto.
  - assert (E1 : arun (a ++ [o]) = astep (arun a) o) by (rewrite arun_app; reflexivity).
    apply (IH (a ++ [o])).
    + rewrite <- app_assoc. auto.
    + rewrite E1. apply used_step; auto.
    + rewrite E1. apply inx_step; auto using wf_run. intros l Hl q e. apply (LA a o b l); auto.
Qed.

Lemma elsewhere ops a l d sh b c o : values_left_alone_but p0 ops -> ops = a ++ o :: b ->
  o = APut p0 l d sh \/ o = AReturn p0 l d sh ->
  holds (arun a) p0 l c -> ~ In d (used (arun a)) ->
  forall q c', q <> p0 -> In (AGot q d c') (alog (arun ops)) -> c' = c.
Proof.
  intros LA Eq Ho Hh N q c' Q H. assert (G := new_guard _ _ _ _ _ Hh N). destruct Hh as (_ & _ & Hc). assert (W := wf_run a).
  assert (E1 : arun (a ++ [o]) = astep (arun a) o) by (rewrite arun_app; reflexivity).
  apply (x_got d c (arun ops)) with (q := q); auto. apply (inx_rest d c ops LA b (a ++ [o])).
  - rewrite <- app_assoc. auto.
  - rewrite E1. destruct Ho as [-> | ->]; simpl; rewrite G; unfold keep; destruct sh; simpl; auto.
  - rewrite E1. destruct Ho as [-> | ->]; simpl; rewrite G; unfold keep; destruct sh; constructor; simpl; intros; facts; auto.
    all: try (exfalso; apply N; eapply f_local + eapply f_cached + eapply f_shared + eapply f_data + eapply f_got; eauto; fail).
    all: try apply fits_pack.
    all: try congruence.
    all: try (exfalso; match goal with X : aset _ _ _ _ _ = None |- _ => rewrite aset_same, dput_same in X; discriminate end).
    all: rewrite aset_same, dput_same; eauto.
Qed.
End Elsewhere.
