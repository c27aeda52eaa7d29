(** C99, completeness: what the backends need in common; Ray. *)
From Verif Require Import Lib ValModel PyseqModel PyseqSpec PyseqProofs PortSpec PortHist PortDone ObjSpec ObjHist ObjBack ObjDoneSpec.
From Verif Require RayRunModel RayRunSpec RayRunProofs.

Definition ofull (prog : list ocall) (rs : list (list dataid)) : Prop := Forall2 (fun x l => length l = oouts x) prog rs.

Lemma ofull_snoc p rs x l : ofull p rs -> length l = oouts x -> ofull (p ++ [x]) (rs ++ [l]).
Proof. intros F E. apply Forall2_app; [exact F|]. constructor; [exact E|constructor]. Qed.

Lemma ofull_ref p rs : ofull p rs -> forall c x i, nth_error p c = Some x -> i < oouts x -> exists d, ref_at rs c i = Some d.
Proof.
  intros F. induction F as [|y l p rs E F IH]; intros c x i N L; [destruct c; discriminate|].
  destruct c as [|c]; cbn in N.
  - injection N as <-. unfold ref_at. cbn. destruct (nth_error l i) as [d|] eqn:G; [eauto|]. apply nth_error_None in G. lia.
  - destruct (IH c x i N L) as (d & D). exists d. exact D.
Qed.

Lemma makes_snoc p x : makes (p ++ [x]) = makes p + match x with TMake _ _ _ => 1 | _ => 0 end.
Proof. unfold makes. rewrite filter_app, app_length. destruct x; reflexivity. Qed.

Lemma oscoped_front p x : oscoped (p ++ [x]) -> oscoped p.
Proof. intros S0 pre y post E. apply (S0 pre y (post ++ [x])). rewrite E, <- app_assoc. reflexivity. Qed.

Lemma oscoped_last p x : oscoped (p ++ [x]) -> (forall c i, In (AOut c i) (oargs x) -> exists y, nth_error p c = Some y /\ i < oouts y) /\
  (forall a m args kw n, x = TMeth a m args kw n -> a < makes p).
Proof. intros S0. exact (S0 p x [] eq_refl). Qed.

Lemma ostand p rs args (kw : list (nat * parg)) : ofull p rs -> (forall c i, In (AOut c i) (args ++ map snd kw) -> exists y, nth_error p c = Some y /\ i < oouts y) ->
  exists vs ks, Forall2 (stands rs) args vs /\ Forall2 (stands_kw rs) kw ks.
Proof.
  intros F S0. assert (H : forall c i, In (AOut c i) (args ++ map snd kw) -> exists d, ref_at rs c i = Some d).
  { intros c i I. destruct (S0 c i I) as (x & N & L). exact (ofull_ref _ _ F _ _ _ N L). }
  destruct (args_stand rs args) as (vs & A); [intros; apply H, in_or_app; auto|].
  destruct (kws_stand rs kw) as (ks & B); [intros; apply H, in_or_app; auto|]. eauto.
Qed.

Lemma oplays_returned p rs hs h : oplays p rs hs h -> forall c i d, ref_at rs c i = Some d -> In d (returned h).
Proof.
  induction 1; intros c1 i1 x1 E; [destruct c1; discriminate| | | | |]; rewrite returned_of.
  - apply ref_cases in E as [[_ E]|[_ E]]; apply in_or_app; [right; eauto|left]. eapply nth_error_In; eauto.
  - apply ref_cases in E as [[_ E]|[_ E]]; apply in_or_app; [right; eauto|left]. eapply nth_error_In; eauto.
  - apply ref_cases in E as [[_ E]|[_ E]]; apply in_or_app; [right; eauto|left]. destruct i1; discriminate.
  - apply ref_cases in E as [[_ E]|[_ E]]; apply in_or_app; [right; eauto|left]. eapply nth_error_In; eauto.
  - apply in_or_app; right; eauto.
Qed.
Lemma oplays_length p rs hs h : oplays p rs hs h -> length rs = length p.
Proof. induction 1; auto; rewrite !app_length; simpl; lia. Qed.
Lemma oplays_makes p rs hs h : oplays p rs hs h -> length hs = makes p.
Proof. induction 1; auto; rewrite ?app_length, makes_snoc; simpl; lia. Qed.

Lemma oknown p rs hs h args kw vs ks : oplays p rs hs h -> Forall2 (stands rs) args vs -> Forall2 (stands_kw rs) kw ks ->
  (forall v, In (AVal v) (args ++ map snd kw) -> plain v) ->
  incl (flat_map (fun v => match v with VRef d => [d] | _ => [] end) vs ++ flat_map (fun v => match v with VRef d => [d] | _ => [] end) (map snd ks)) (returned h).
Proof.
  intros Pl Fa Fk Pv d I. apply in_app_or in I as [I|I]; apply top_refs in I.
  - destruct (stands_refs _ _ _ d Fa) as (c & i & _ & R); auto; [|eapply oplays_returned; eauto]. intros v J. apply Pv, in_or_app; auto.
  - destruct (stands_kw_refs _ _ _ d Fk) as (c & i & _ & R); auto; [|eapply oplays_returned; eauto]. intros v J. apply Pv, in_or_app; auto.
Qed.

Lemma oargs_plain body cbody mbody p x : oportable body cbody mbody (p ++ [x]) -> forall v, In (AVal v) (oargs x) -> plain v.
Proof.
  intros (_ & P2 & P3 & _) v I. destruct x; cbn in I; try destruct I.
  - eapply P2; [apply in_or_app; right; now left|exact I].
  - eapply P3; [apply in_or_app; right; now left|exact I].
Qed.

(** ** Ray *)
Import RayRunModel RayRunSpec RayRunProofs.
Section Ray.
Variable body : nat -> list val -> kwargs -> res.
Variable cbody : nat -> list val -> kwargs -> res.
Variable mbody : nat -> val -> list val -> kwargs -> res * val.
Notation run := (yrun body cbody mbody (fun _ => None) 0 0).

Lemma oray_submits prog : oportable body cbody mbody prog -> oscoped prog ->
  exists ops rs hs, legal (y_hist (run ops)) /\ oplays prog rs hs (y_hist (run ops)) /\ ofull prog rs.
Proof.
  induction prog as [|x p IH] using rev_ind; intros Po Sc.
  - exists [], [], []. cbn. repeat split; constructor.
  - destruct IH as (ops & rs & hs & L & Pl & F); [eapply oportable_front; eauto|eapply oscoped_front; eauto|].
    assert (Sn : forall o, run (ops ++ [o]) = ystep body cbody mbody (fun _ => None) 0 0 (run ops) o) by (intros o; unfold yrun; now rewrite fold_left_app).
    assert (Pv := oargs_plain _ _ _ _ _ Po). destruct (oscoped_last _ _ Sc) as [S1 S2].
    remember (run ops) as st eqn:Est. clear Est. destruct x as [v|f args kw n|k args kw|a m args kw n].
    + exists (ops ++ [YPut v]), (rs ++ [[(0, y_next st)]]), hs. rewrite Sn. cbn [ystep called y_hist]. split; [|split].
      * split; [intros d []|exact L].
      * now constructor.
      * now apply ofull_snoc.
    + destruct (ostand p rs args kw F S1) as (vs & ks & Fa & Fk).
      exists (ops ++ [YSubmit f vs ks n false]), (rs ++ [refs_of (wrap (fresh_refs (y_next st) n))]), hs. rewrite Sn. cbn [ystep enqueue called y_hist]. split; [|split].
      * split; [|exact L]. unfold known, uses. exact (oknown _ _ _ _ _ _ _ _ Pl Fa Fk Pv).
      * constructor; auto. rewrite refs_wrap. apply fresh_length.
      * apply ofull_snoc; [exact F|]. rewrite refs_wrap. apply fresh_length.
    + exists (ops ++ [YActor k args kw false]), (rs ++ [[]]), (hs ++ [length (y_actors st)]). rewrite Sn. cbn [ystep called y_hist]. split; [|split].
      * split; [intros d []|exact L].
      * now constructor.
      * now apply ofull_snoc.
    + destruct (ostand p rs args kw F S1) as (vs & ks & Fa & Fk).
      assert (A : exists x, nth_error hs a = Some x). { destruct (nth_error hs a) eqn:N; [eauto|]. apply nth_error_None in N. rewrite (oplays_makes _ _ _ _ Pl) in N. specialize (S2 a m args kw n eq_refl). lia. }
      destruct A as (x & A).
      exists (ops ++ [YCall x m vs ks n]), (rs ++ [refs_of (wrap (fresh_refs (y_next st) n))]), hs. rewrite Sn. cbn [ystep enqueue called y_hist]. split; [|split].
      * split; [|exact L]. unfold known, uses. exact (oknown _ _ _ _ _ _ _ _ Pl Fa Fk Pv).
      * econstructor; eauto. rewrite refs_wrap. apply fresh_length.
      * apply ofull_snoc; [exact F|]. rewrite refs_wrap. apply fresh_length.
Qed.

Theorem oray_done prog : oportable body cbody mbody prog -> oscoped prog ->
  forall c x i, nth_error prog c = Some x -> i < oouts x -> exists r, oshows_ray body cbody mbody prog c i r.
Proof.
  intros Po Sc c x i N Li. destruct (oray_submits prog Po Sc) as (ops & rs & hs & L & Pl & F).
  destruct (finishes body cbody mbody (fun _ => None) 0 0 ops L (oplays_known _ _ _ _ Pl)) as (k & H & _ & R).
  destruct (ofull_ref _ _ F _ _ _ N Li) as (d & D). destruct (R d) as (r & G); [eapply oplays_returned; eauto|].
  exists r, (fun _ => None), 0, 0, (ops ++ repeat (YRun 0) k), rs, hs, d. cbn zeta. rewrite H. auto.
Qed.
End Ray.
