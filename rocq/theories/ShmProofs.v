(** Lemmas about the shared-memory manager model. *)
From Verif Require Import Lib ShmModel ShmSpec.
Local Open Scope Z_scope.

(** ** Free lists *)

(** Sorted, non-empty, non-adjacent ranges within (lb, ub]. *)
Fixpoint sep (lb : Z) (rs : list range) (ub : Z) : Prop :=
  match rs with
  | [] => True
  | (lo, hi) :: rest => lb < lo /\ lo < hi /\ hi <= ub /\ sep hi rest ub
  end.

Definition covers (rs : list range) (x : Z) : Prop :=
  exists lo hi, In (lo, hi) rs /\ lo <= x < hi.

Lemma covers_nil x : ~ covers [] x.
Proof. intros (lo & hi & [] & _). Qed.

Lemma covers_cons lo hi rs x : covers ((lo, hi) :: rs) x <-> lo <= x < hi \/ covers rs x.
Proof.
  unfold covers; split.
  - intros (a & b & [E|H] & Hx); [injection E as -> ->; now left | right; eauto].
  - intros [H|(a & b & H & Hx)]; [exists lo, hi; simpl; auto | exists a, b; simpl; auto].
Qed.

Lemma sep_weaken lb lb' rs ub : lb' <= lb -> sep lb rs ub -> sep lb' rs ub.
Proof. destruct rs as [|[lo hi] rs]; simpl; [auto | intros ? (?&?&?&?); repeat split; auto; lia]. Qed.

Lemma sep_covers_bound lb rs ub x : sep lb rs ub -> covers rs x -> lb < x < ub.
Proof.
  revert lb; induction rs as [|[lo hi] rs IH]; intros lb H Hc.
  - now apply covers_nil in Hc.
  - simpl in H; destruct H as (H1 & H2 & H3 & H4).
    apply covers_cons in Hc; destruct Hc as [Hc|Hc]; [lia|].
    specialize (IH _ H4 Hc); lia.
Qed.

Lemma occupy_some count rs lb ub rs' f l :
  0 < count -> sep lb rs ub -> occupy count rs = (rs', Some (f, l)) ->
  l = f + count /\ lb < f /\ l <= ub /\ sep lb rs' ub /\
  (forall x, covers rs x <-> covers rs' x \/ f <= x < l) /\
  (forall x, f <= x < l -> ~ covers rs' x).
Proof.
  intros Hc; revert lb rs' f l; induction rs as [|[lo hi] rs IH]; intros lb rs' f l Hs Ho; simpl in Ho.
  - discriminate.
  - simpl in Hs; destruct Hs as (H1 & H2 & H3 & H4).
    destruct (count <=? hi - lo) eqn:E1.
    + apply Z.leb_le in E1.
      destruct (hi =? lo + count) eqn:E2.
      * apply Z.eqb_eq in E2. injection Ho as <- <- <-.
        repeat split; try lia.
        -- eapply sep_weaken; [|exact H4]; lia.
        -- intros H. apply covers_cons in H. destruct H; [right; lia | now left].
        -- intros H. apply covers_cons. destruct H; [now right | left; lia].
        -- intros x Hx Hcov. apply (sep_covers_bound _ _ _ _ H4) in Hcov. lia.
      * apply Z.eqb_neq in E2. injection Ho as <- <- <-.
        split; [lia|]. split; [lia|]. split; [lia|].
        split; [simpl; repeat split; try lia; exact H4|].
        split.
        -- intros x. rewrite !covers_cons. split.
           ++ intros [H|H]; [|left; now right].
              destruct (Z_lt_ge_dec x (lo + count)); [right; lia | left; left; lia].
           ++ intros [[H|H]|H]; [left; lia | now right | left; lia].
        -- intros x Hx Hcov. apply covers_cons in Hcov. destruct Hcov as [H|H]; [lia|].
           apply (sep_covers_bound _ _ _ _ H4) in H. lia.
    + destruct (occupy count rs) as [rs1 r1] eqn:Eo. injection Ho as <- ->.
      destruct (IH hi rs1 f l H4 eq_refl) as (K1 & K2 & K3 & K4 & K5 & K6).
      split; [exact K1|]. split; [lia|]. split; [exact K3|].
      split; [simpl; repeat split; auto|].
      split.
      * intros x. rewrite !covers_cons, K5. tauto.
      * intros x Hx Hcov. apply covers_cons in Hcov. destruct Hcov as [H|H]; [lia|].
        exact (K6 x Hx H).
Qed.

Lemma occupy_none_same count rs rs' : occupy count rs = (rs', None) -> rs' = rs.
Proof.
  revert rs'; induction rs as [|[lo hi] rs IH]; intros rs' H; simpl in H.
  - now injection H as <-.
  - destruct (count <=? hi - lo); [destruct (hi =? lo + count); discriminate|].
    destruct (occupy count rs) as [rs1 r1]. injection H as <- ->. f_equal. now apply IH.
Qed.

Lemma occupy_none_small count rs rs' :
  occupy count rs = (rs', None) -> forall lo hi, In (lo, hi) rs -> hi - lo < count.
Proof.
  revert rs'; induction rs as [|[lo0 hi0] rs IH]; intros rs' H lo hi Hin; simpl in H, Hin.
  - contradiction.
  - destruct (count <=? hi0 - lo0) eqn:E; [destruct (hi0 =? lo0 + count); discriminate|].
    apply Z.leb_gt in E.
    destruct (occupy count rs) as [rs1 r1] eqn:Eo. injection H as <- ->.
    destruct Hin as [Hin|Hin]; [injection Hin as <- <-; lia | eauto].
Qed.

(** Consecutive covered cells lie in one range (ranges are not adjacent). *)
Lemma sep_run lb rs ub a n :
  sep lb rs ub -> 0 < n -> (forall x, a <= x < a + n -> covers rs x) ->
  exists lo hi, In (lo, hi) rs /\ lo <= a /\ a + n <= hi.
Proof.
  revert lb; induction rs as [|[lo hi] rs IH]; intros lb Hs Hn Hcov.
  - exfalso. apply (covers_nil a), Hcov. lia.
  - simpl in Hs; destruct Hs as (H1 & H2 & H3 & H4).
    assert (Ha : covers ((lo, hi) :: rs) a) by (apply Hcov; lia).
    apply covers_cons in Ha. destruct Ha as [Ha|Ha].
    + exists lo, hi. split; [now left|]. split; [lia|].
      destruct (Z_le_gt_dec (a + n) hi) as [|G]; [assumption|exfalso].
      assert (Hh : covers ((lo, hi) :: rs) hi) by (apply Hcov; lia).
      apply covers_cons in Hh. destruct Hh as [Hh|Hh]; [lia|].
      apply (sep_covers_bound _ _ _ _ H4) in Hh. lia.
    + pose proof (sep_covers_bound _ _ _ _ H4 Ha) as Hb.
      destruct (IH hi H4 Hn) as (lo' & hi' & Hin & Hle).
      * intros x Hx. assert (Hc := Hcov x Hx). apply covers_cons in Hc.
        destruct Hc as [Hc|Hc]; [lia | exact Hc].
      * exists lo', hi'. split; [now right | exact Hle].
Qed.

(** ** release *)

Fixpoint ins (f l : Z) (rs : list range) : list range :=
  match rs with
  | [] => []
  | (lo, hi) :: rest =>
      if lo =? l then (f, hi) :: rest
      else if hi =? f then
        match rest with
        | (lo2, hi2) :: rest2 => if lo2 =? l then (lo, hi2) :: rest2 else (lo, l) :: rest
        | [] => [(lo, l)]
        end
      else if lo >? l then (f, l) :: (lo, hi) :: rest
      else (lo, hi) :: ins f l rest
  end.

Lemma last_hi_app rs lo hi : last_hi (rs ++ [(lo, hi)]) = Some hi.
Proof. unfold last_hi. now rewrite rev_app_distr. Qed.

Lemma last_hi_cons2 p q r : last_hi (p :: q :: r) = last_hi (q :: r).
Proof.
  unfold last_hi. simpl. destruct (rev r ++ [q]) as [|x y] eqn:E; [|reflexivity].
  destruct (rev r); discriminate.
Qed.

Lemma last_hi_cons_ge lb lo hi rs ub h :
  sep lb ((lo, hi) :: rs) ub -> last_hi ((lo, hi) :: rs) = Some h -> lo < h.
Proof.
  revert lb lo hi; induction rs as [|[lo2 hi2] rs IH]; intros lb lo hi Hs Hl.
  - unfold last_hi in Hl; simpl in Hl. injection Hl as <-. simpl in Hs; lia.
  - simpl in Hs. destruct Hs as (H1 & H2 & H3 & H4 & H5 & H6 & H7).
    assert (lo2 < h).
    { apply (IH hi lo2 hi2).
      - simpl; repeat split; assumption.
      - now rewrite last_hi_cons2 in Hl. }
    lia.
Qed.

(** The free range list and the released region do not overlap. *)
Definition apart (f l : Z) (rs : list range) : Prop :=
  forall lo hi, In (lo, hi) rs -> hi <= f \/ l <= lo.

Lemma release_loop_ins f l before after lb ub :
  f < l -> sep lb after ub -> apart f l after ->
  (forall h, last_hi before = Some h -> h < f) ->
  release_loop f l before after = before ++ ins f l after.
Proof.
  intros Hfl; revert before lb; induction after as [|[lo hi] rest IH]; intros before lb Hs Ha Hb.
  - simpl. now rewrite app_nil_r.
  - cbn [release_loop ins].
    destruct (lo =? l) eqn:E1.
    + apply Z.eqb_eq in E1. destruct before as [|b0 bs].
      * match goal with |- context [last_hi ?a] => destruct (last_hi a) as [h|] eqn:El end;
          [|reflexivity].
        pose proof (last_hi_cons_ge _ _ _ _ _ _ Hs El) as Hg.
        destruct (h =? f) eqn:E2; [apply Z.eqb_eq in E2; lia | reflexivity].
      * match goal with |- context [last_hi ?a] => destruct (last_hi a) as [h|] eqn:El end;
          [|reflexivity].
        specialize (Hb h eq_refl).
        destruct (h =? f) eqn:E2; [apply Z.eqb_eq in E2; lia | reflexivity].
    + apply Z.eqb_neq in E1. destruct (hi =? f) eqn:E2.
      * destruct rest as [|[lo2 hi2] rest2]; [reflexivity|].
        destruct (lo2 =? l); reflexivity.
      * apply Z.eqb_neq in E2. destruct (lo >? l) eqn:E3; [reflexivity|].
        assert (~ lo > l) by (rewrite Z.gt_lt_iff, <- Z.gtb_lt; congruence).
        simpl in Hs; destruct Hs as (H1 & H2 & H3 & H4).
        rewrite (IH _ hi H4).
        -- now rewrite <- app_assoc.
        -- intros a b Hin; apply Ha; now right.
        -- intros h Hh. rewrite last_hi_app in Hh. injection Hh as <-.
           destruct (Ha lo hi (or_introl eq_refl)); lia.
Qed.

Lemma ins_correct f l rs lb ub h :
  f < l -> lb < f -> l <= ub -> sep lb rs ub -> apart f l rs ->
  last_hi rs = Some h -> f <= h ->
  sep lb (ins f l rs) ub /\
  (forall x, covers (ins f l rs) x <-> covers rs x \/ f <= x < l).
Proof.
  intros Hfl; revert lb; induction rs as [|[lo hi] rest IH]; intros lb Hlb Hub Hs Ha Hl Hh.
  - discriminate.
  - simpl in Hs; destruct Hs as (H1 & H2 & H3 & H4). cbn [ins].
    destruct (Z.eqb_spec lo l) as [E1|E1].
    + subst lo. split; [simpl; repeat split; auto; lia|].
      intros x. rewrite !covers_cons. split.
      * intros [H|H]; [|left; now right].
        destruct (Z_lt_ge_dec x l); [right; lia | left; left; lia].
      * intros [[H|H]|H]; [left; lia | now right | left; lia].
    + destruct (Z.eqb_spec hi f) as [E2|E2].
      * subst hi. destruct rest as [|[lo2 hi2] rest2].
        -- split; [simpl; repeat split; auto; lia|].
           intros x. rewrite !covers_cons. split.
           ++ intros [H|H]; [|left; now right].
              destruct (Z_lt_ge_dec x f); [left; left; lia | right; lia].
           ++ intros [[H|H]|H]; [left; lia | now right | left; lia].
        -- simpl in H4; destruct H4 as (K1 & K2 & K3 & K4).
           assert (Hap : hi2 <= f \/ l <= lo2) by (apply Ha; right; now left).
           destruct (Z.eqb_spec lo2 l) as [E3|E3].
           ++ subst lo2. split; [simpl; repeat split; auto; lia|].
              intros x. rewrite !covers_cons. split.
              ** intros [H|H]; [|left; right; now right].
                 destruct (Z_lt_ge_dec x f); [left; left; lia|].
                 destruct (Z_lt_ge_dec x l); [right; lia | left; right; left; lia].
              ** intros [[H|[H|H]]|H]; [left; lia | left; lia | now right | left; lia].
           ++ split; [simpl; repeat split; auto; lia|].
              intros x. rewrite !covers_cons. split.
              ** intros [H|H]; [|left; now right].
                 destruct (Z_lt_ge_dec x f); [left; left; lia | right; lia].
              ** intros [[H|H]|H]; [left; lia | now right | left; lia].
      * destruct (lo >? l) eqn:E3.
        -- apply Z.gtb_lt in E3. split; [simpl; repeat split; auto; lia|].
           intros x. rewrite !covers_cons. tauto.
        -- assert (Hng : ~ lo > l) by (rewrite Z.gt_lt_iff, <- Z.gtb_lt; congruence).
           assert (Hlt : hi < f) by (destruct (Ha lo hi (or_introl eq_refl)); lia).
           assert (Hl' : last_hi rest = Some h).
           { destruct rest as [|p r].
             - unfold last_hi in Hl; simpl in Hl; injection Hl as <-. lia.
             - now rewrite last_hi_cons2 in Hl. }
           destruct (IH hi Hlt Hub H4) as [J1 J2]; auto.
           { intros a b Hin; apply Ha; now right. }
           split; [simpl; repeat split; auto|].
           intros x. rewrite !covers_cons, J2. tauto.
Qed.

Lemma sep_app_last lb rs ub f l h :
  sep lb rs ub -> last_hi rs = Some h -> h < f -> f < l -> l <= ub ->
  sep lb (rs ++ [(f, l)]) ub.
Proof.
  revert lb; induction rs as [|[lo hi] rest IH]; intros lb Hs Hl Hh Hfl Hub.
  - discriminate.
  - simpl in *; destruct Hs as (H1 & H2 & H3 & H4). repeat split; auto.
    destruct rest as [|p r].
    + unfold last_hi in Hl; simpl in Hl; injection Hl as <-. simpl; repeat split; auto.
    + apply IH; auto. now rewrite last_hi_cons2 in Hl.
Qed.

Lemma covers_app rs rs' x : covers (rs ++ rs') x <-> covers rs x \/ covers rs' x.
Proof.
  unfold covers; split.
  - intros (lo & hi & H & Hx). apply in_app_or in H. destruct H; [left|right]; eauto.
  - intros [(lo & hi & H & Hx)|(lo & hi & H & Hx)]; exists lo, hi; split; auto;
      apply in_or_app; auto.
Qed.

Lemma sep_In lb rs ub lo hi : sep lb rs ub -> In (lo, hi) rs -> lb < lo /\ lo < hi /\ hi <= ub.
Proof.
  revert lb; induction rs as [|[a b] rs IH]; simpl; intros lb Hs Hin; [contradiction|].
  destruct Hs as (H1 & H2 & H3 & H4). destruct Hin as [E|Hin].
  - injection E as <- <-. auto.
  - destruct (IH _ H4 Hin); lia.
Qed.

Lemma apart_of_disjoint f l rs lb ub :
  f < l -> sep lb rs ub -> (forall x, f <= x < l -> ~ covers rs x) -> apart f l rs.
Proof.
  intros Hfl Hs Hd lo hi Hin. destruct (sep_In _ _ _ _ _ Hs Hin) as (_ & Hlh & _).
  destruct (Z_le_gt_dec hi f) as [|G1]; [now left|].
  destruct (Z_le_gt_dec l lo) as [|G2]; [now right|exfalso].
  apply (Hd (Z.max f lo)); [lia|]. exists lo, hi. split; [assumption|lia].
Qed.

Lemma release_correct f l rs lb ub :
  f < l -> lb < f -> l <= ub -> sep lb rs ub -> (forall x, f <= x < l -> ~ covers rs x) ->
  sep lb (release f l rs) ub /\
  (forall x, covers (release f l rs) x <-> covers rs x \/ f <= x < l).
Proof.
  intros Hfl Hlb Hub Hs Hd. unfold release.
  destruct (last_hi rs) as [h|] eqn:El.
  - destruct (h <? f) eqn:E.
    + apply Z.ltb_lt in E. split; [eapply sep_app_last; eauto|].
      intros x. rewrite covers_app, covers_cons.
      pose proof (covers_nil x). tauto.
    + apply Z.ltb_ge in E.
      pose proof (apart_of_disjoint _ _ _ _ _ Hfl Hs Hd) as Ha.
      rewrite (release_loop_ins f l [] rs lb ub Hfl Hs Ha); [|discriminate].
      simpl. eapply ins_correct; eauto.
  - assert (rs = []) as ->.
    { unfold last_hi in El. destruct (rev rs) as [|[a b] r] eqn:Er; [|discriminate].
      rewrite <- (rev_involutive rs), Er. reflexivity. }
    split; [simpl; repeat split; auto|].
    intros x. rewrite covers_cons. pose proof (covers_nil x). tauto.
Qed.

(** A separated list covering exactly [0, n) is the initial list. *)
Lemma sep_full rs n :
  0 < n -> sep (-1) rs n -> (forall x, covers rs x <-> 0 <= x < n) -> rs = [(0, n)].
Proof.
  intros Hn Hs Hc.
  destruct (sep_run (-1) rs n 0 n Hs Hn) as (lo & hi & Hin & Hlo & Hhi).
  { intros x Hx. apply Hc. lia. }
  destruct rs as [|[a b] rest]; [destruct Hin|].
  simpl in Hs. destruct Hs as (H1 & H2 & H3 & H4).
  assert (a = 0).
  { assert (covers ((a, b) :: rest) 0) as C by (apply Hc; lia).
    apply covers_cons in C. destruct C as [C|C]; [lia|].
    apply (sep_covers_bound _ _ _ _ H4) in C. lia. }
  subst a. destruct Hin as [E|Hin].
  - injection E as <- <-. assert (b = n) by lia. subst b.
    destruct rest as [|[c e] r]; [reflexivity|]. simpl in H4. lia.
  - destruct (sep_In _ _ _ _ _ H4 Hin). lia.
Qed.
