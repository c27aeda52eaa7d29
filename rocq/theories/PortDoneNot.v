(** C98: a call on PySeq that is given the reference of a call that raised. *)
From Verif Require Import Lib ValModel PyseqModel PyseqSpec PyseqProofs PortSpec PortHist PortShows PortDoneSpec PortSeq PortProofs.

Section Not.
Variable body : nat -> list val -> kwargs -> res.
Variable cbody : nat -> list val -> kwargs -> res.
Variable mbody : nat -> val -> list val -> kwargs -> res * val.
Variable item : val -> nat -> option val.
Notation step := (qstep body cbody mbody item).
Notation run := (qrun body cbody mbody item).

Lemma run_last ops : forall st h o, run st h (ops ++ [o]) = let (s, h') := run st h ops in let (s', out) := step s o in (s', (o, out) :: h').
Proof.
  induction ops as [|x ops IH]; intros st h o; cbn [app qrun].
  - destruct (step st o) as [s' out]. reflexivity.
  - destruct (step st x) as [s1 o1]. apply IH.
Qed.

Lemma run_before ops st o out h : run qinit [] ops = (st, (o, out) :: h) -> exists ops1 st1, run qinit [] ops1 = (st1, h) /\ step st1 o = (st, out).
Proof.
  destruct ops as [|x ops _] using rev_ind; [discriminate|]. rewrite run_last. destruct (run qinit [] ops) as [s h'] eqn:R. destruct (step s x) as [s' out'] eqn:Q. intros E.
  apply pair_inj in E as [<- E]. inversion E; subst. eauto.
Qed.

Lemma plays_at p rs h : plays p rs h -> forall ops st pre f args kw n post, run qinit [] ops = (st, h) -> legal h -> p = pre ++ CFun f args kw n :: post ->
  exists ops1 st1 h1 rs1 vs ks b, run qinit [] ops1 = (st1, h1) /\ legal h1 /\ plays pre rs1 h1 /\ Forall2 (stands rs1) args vs /\ Forall2 (stands_kw rs1) kw ks /\
    length (refs_of (snd (step st1 (QSubmit f vs ks n b)))) = n.
Proof.
  induction 1 as [|p rs h v d Pl IH|p rs h f0 args0 kw0 n0 b vs ks out Pl IH Fa Fk Ln|p rs h o out Pl IH Ot Ro]; intros ops st pre f args kw n post R L E.
  - destruct pre; discriminate.
  - destruct (run_before _ _ _ _ _ R) as (ops1 & st1 & R1 & _). destruct post as [|y post _] using rev_ind.
    + apply app_inj_tail in E as [_ E]. discriminate.
    + rewrite app_comm_cons, app_assoc in E. apply app_inj_tail in E as [E _]. eapply IH; eauto. apply L.
  - destruct (run_before _ _ _ _ _ R) as (ops1 & st1 & R1 & S1). destruct post as [|y post _] using rev_ind.
    + apply app_inj_tail in E as [E1 E2]. inversion E2; subst. exists ops1, st1, h, rs, vs, ks, b. rewrite S1. cbn [snd]. split; [exact R1|]. split; [apply L|]. auto.
    + rewrite app_comm_cons, app_assoc in E. apply app_inj_tail in E as [E _]. eapply IH; eauto. apply L.
  - destruct (run_before _ _ _ _ _ R) as (ops1 & st1 & R1 & _). eapply IH; eauto. apply L.
Qed.

Lemma mat_not st vs d : In (VRef d) vs -> (forall x, qget st (VRef d) <> Got x) -> forall l, materialize st vs <> Gots l.
Proof.
  induction vs as [|v vs IH]; intros I N l; [destruct I|]. cbn [materialize]. destruct I as [->|I].
  - cbn [is_ref]. destruct (qget st (VRef d)) as [x| |] eqn:G; try discriminate. elim (N x eq_refl).
  - destruct (if is_ref v then qget st v else Got v); try discriminate. destruct (materialize st vs) as [xs| |] eqn:M; try discriminate. elim (IH I N xs eq_refl).
Qed.

Lemma stands_in rs args vs c i d : Forall2 (stands rs) args vs -> In (AOut c i) args -> ref_at rs c i = Some d -> In (VRef d) vs.
Proof.
  intros F. induction F as [|a v args vs S0 F IH]; intros I R; [destruct I|]. destruct I as [->|I]; [|right; auto]. destruct S0 as (e & Q & ->). rewrite R in Q. injection Q as <-. now left.
Qed.

Lemma kw_in rs kw ks c i d : Forall2 (stands_kw rs) kw ks -> In (AOut c i) (map snd kw) -> ref_at rs c i = Some d -> In (VRef d) (map snd ks).
Proof.
  intros F I R. apply (stands_in rs (map snd kw) (map snd ks) c i d); auto. clear - F. induction F as [|x y kw ks [_ S0] F IH]; cbn; constructor; auto.
Qed.

Lemma raises_there st f vs ks n b d : In (VRef d) (vs ++ map snd ks) -> (forall x, qget st (VRef d) <> Got x) ->
  refs_of (snd (step st (QSubmit f vs ks n b))) = [].
Proof.
  intros I N. cbn [qstep]. destruct b; [reflexivity|]. apply in_app_or in I as [I|I].
  - assert (M := mat_not st vs d I N). destruct (materialize st vs) as [xs| |]; try reflexivity. elim (M xs eq_refl).
  - destruct (materialize st vs); try reflexivity. assert (M := mat_not st (map snd ks) d I N). destruct (materialize st (map snd ks)) as [xs| |]; try reflexivity. elim (M xs eq_refl).
Qed.
End Not.

Lemma plays_ref_at rs args vs c i : Forall2 (stands rs) args vs -> In (AOut c i) args -> exists d, ref_at rs c i = Some d.
Proof.
  intros F. induction F as [|a v args vs S0 F IH]; intros I; [destruct I|]. destruct I as [->|I]; [|auto]. destruct S0 as (d & R & _). eauto.
Qed.
Lemma plays_ref_kw rs kw ks c i : Forall2 (stands_kw rs) kw ks -> In (AOut c i) (map snd kw) -> exists d, ref_at rs c i = Some d.
Proof.
  intros F I. apply (plays_ref_at rs (map snd kw) (map snd ks) c i); auto. clear - F. induction F as [|x y kw ks [_ S0] F IH]; cbn; constructor; auto.
Qed.

Theorem seq_never body prog : portable body prog -> forall pre f args kw n post c i e, prog = pre ++ CFun f args kw n :: post -> 0 < n ->
  In (AOut c i) (args ++ map snd kw) -> result_of (direct body pre) c i = Some (Exn e) -> forall c' i' r, ~ shows PySeq body prog c' i' r.
Proof.
  intros Po pre f args kw n post c i e Ep Hn I D c' i' r (cbody & mbody & item & ops & st & h & rs & d' & NE & R & L & Pl & _).
  destruct (plays_at body cbody mbody item _ _ _ Pl ops st pre f args kw n post R L Ep) as (ops1 & st1 & h1 & rs1 & vs & ks & b & R1 & L1 & Pl1 & Fa & Fk & Ln).
  assert (Po1 : portable body pre).
  { clear - Po Ep. subst prog. revert Po. induction (CFun f args kw n :: post) as [|x l IH] using rev_ind; [now rewrite app_nil_r|]. rewrite app_assoc. intros P. apply IH. eapply portable_front; eauto. }
  assert (Rd : exists d, ref_at rs1 c i = Some d /\ In (VRef d) (vs ++ map snd ks)).
  { apply in_app_or in I as [I|I].
    - destruct (plays_ref_at _ _ _ _ _ Fa I) as (d & Q). exists d. split; [exact Q|]. apply in_or_app. left. eapply stands_in; eauto.
    - destruct (plays_ref_kw _ _ _ _ _ Fk I) as (d & Q). exists d. split; [exact Q|]. apply in_or_app. right. eapply kw_in; eauto. }
  destruct Rd as (d & Q & J). rewrite (raises_there body cbody mbody item st1 f vs ks n b d J) in Ln; [cbn in Ln; lia|]. intros x G.
  assert (Sh : shows_seq body pre c i (Ret x)).
  { exists cbody, mbody, item, ops1, st1, h1, rs1, d. split; [exact NE|]. split; [exact R1|]. split; [exact L1|]. split; [exact Pl1|]. split; [exact Q|]. cbn [qstep]. rewrite G. reflexivity. }
  apply (seq_direct body pre Po1) in Sh. congruence.
Qed.
