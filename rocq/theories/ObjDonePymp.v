(** C99, completeness: PyMp. *)
From Verif Require Import Lib ValModel PyseqModel PyseqSpec PyseqProofs PortSpec PortHist PortDone PortDoneSeq ObjSpec ObjHist ObjBack ObjDoneSpec ObjDone.
From Verif Require Import PympModel PympSpec.
From Verif Require PympProofs PympProps PortPymp PortDonePymp.
Import PortDonePymp.

Lemma first_free k : forall nw s, s <= k < s + nw -> find (fun w => negb (Nat.ltb w k)) (seq s nw) = Some k.
Proof.
  induction nw as [|nw IH]; intros s L; [lia|]. cbn [seq find]. destruct (Nat.ltb_spec s k) as [H|H]; cbn [negb].
  - apply IH. lia.
  - f_equal. lia.
Qed.

Lemma find_same {A} (f g : A -> bool) l : (forall x, f x = g x) -> find f l = find g l.
Proof. intros E. induction l as [|x l IH]; cbn; [reflexivity|]. now rewrite E, IH. Qed.

Section Pymp.
Variable body : nat -> list val -> kwargs -> res.
Variable cbody : nat -> list val -> kwargs -> res.
Variable mbody : nat -> val -> list val -> kwargs -> res * val.
Variable nw : nat.
Hypothesis pos : 0 < nw.
Notation step := (pstep nw body cbody mbody no_i no_b no_b no_b same_v same_r yes_b).
Notation run := (prun nw body cbody mbody no_i no_b no_b no_b same_v same_r yes_b).
Notation wrk := (work body mbody no_i no_b no_b same_r yes_b).

Lemma oprun_app ops ops' : forall st h, run st h (ops ++ ops') = let (s, h') := run st h ops in run s h' ops'.
Proof.
  induction ops as [|x ops IH]; intros st h; cbn [app prun].
  - reflexivity.
  - destruct (step st x) as [s1 [e|]]; apply IH.
Qed.

(** The actors are on the first workers; all are alive. *)
Record GI (p : list ocall) (hs : list nat) (st : pst) : Prop := {
  g_grab : forall w, p_grab st w = Nat.ltb w (makes p);
  g_acts : length (p_actors st) = makes p;
  g_live : forall a x, nth_error (p_actors st) a = Some x -> t_live x = true;
  g_hs : hs = seq 0 (makes p)
}.

Definition from (p : list ocall) (ops : list pop) : Prop :=
  (forall a, ~ In (PDel a) ops) /\
  (forall f args kw n, In (PSubmit f args kw n) ops -> exists a k, In (TFun f a k n) p) /\
  (forall a m args kw n, In (PCall a m args kw n) ops -> exists b ar k, In (TMeth b m ar k n) p).

Lemma from_more p x ops o : from p ops ->
  match o with
  | PDel _ => False
  | PSubmit f _ _ n => exists a k, x = TFun f a k n
  | PCall _ m _ _ n => exists b a k, x = TMeth b m a k n
  | _ => True
  end -> from (p ++ [x]) (ops ++ [o]).
Proof.
  intros (A & B & C) H. split; [|split].
  - intros a J. apply in_app_or in J as [J|[J|[]]]; [exact (A a J)|subst o; exact H].
  - intros f args kw n J. apply in_app_or in J as [J|[J|[]]].
    + destruct (B _ _ _ _ J) as (a & k & K). exists a, k. apply in_or_app; auto.
    + subst o. destruct H as (a & k & ->). exists a, k. apply in_or_app; right; now left.
  - intros a m args kw n J. apply in_app_or in J as [J|[J|[]]].
    + destruct (C _ _ _ _ _ J) as (b & ar & k & K). exists b, ar, k. apply in_or_app; auto.
    + subst o. destruct H as (b & ar & k & ->). exists b, ar, k. apply in_or_app; right; now left.
Qed.

Lemma opymp_submits p : oportable body cbody mbody p -> oscoped p -> makes p < nw ->
  exists ops st h rs hs, run pinit [] ops = (st, h) /\ legal h /\ oplays p rs hs h /\ ofull p rs /\ GI p hs st /\ from p ops.
Proof.
  induction p as [|x p IH] using rev_ind; intros Po Sc Few.
  - exists [], pinit, [], [], []. split; [reflexivity|]. split; [exact I|]. split; [constructor|]. split; [constructor|]. split.
    + split; cbn; auto. intros a y E. destruct a; discriminate.
    + split; [intros a []|]. split; [intros f args kw n []|intros a m args kw n []].
  - assert (Few' : makes p < nw) by (rewrite makes_snoc in Few; lia).
    destruct IH as (ops & st & h & rs & hs & R & L & Pl & F & G & Fr); [eapply oportable_front; eauto|eapply oscoped_front; eauto|exact Few'|].
    assert (Pv := oargs_plain _ _ _ _ _ Po). destruct (oscoped_last _ _ Sc) as [S1 S2]. destruct G as [G1 G2 G3 G4].
    destruct (PympProofs.qi_run nw pos body cbody mbody no_i no_b no_b no_b same_v same_r yes_b ops st h R) as [_ _ _ _ _ [_ Wd] _ _].
    assert (Same : (match x with TMake _ _ _ => false | _ => true end) = true -> makes (p ++ [x]) = makes p) by (rewrite makes_snoc; destruct x; intros; try discriminate; lia).
    destruct x as [v|f args kw n|k args kw|a m args kw n].
    + exists (ops ++ [PPut v]). do 2 eexists. exists (rs ++ [[(0, p_next st)]]), hs. split; [rewrite oprun_app, R; cbn [prun pstep]; reflexivity|].
      split; [split; [intros d []|exact L]|]. split; [now constructor|]. split; [now apply ofull_snoc|].
      split; [split; cbn; rewrite ?Same by reflexivity; auto|]. apply from_more; [exact Fr|exact I].
    + destruct (ostand p rs args kw F S1) as (vs & ks & Fa & Fk).
      destruct (pick nw (p_grab st) (p_wid st) nw) as [[w|] wid] eqn:Pk.
      2:{ apply (PympProofs.pick_spec nw pos) in Pk as [_ Pk]; [|exact Wd]. apply (PympProofs.all_from nw pos (p_grab st) _ Wd) with (w := makes p) in Pk; [|exact Few'].
          rewrite G1, Nat.ltb_irrefl in Pk. discriminate. }
      assert (Lo : length (refs_of (refs_out (new_ids st n))) = n).
      { rewrite PortPymp.refs_of_out. unfold new_ids. now rewrite map_length, seq_length. }
      exists (ops ++ [PSubmit f vs ks n]). do 2 eexists. exists (rs ++ [refs_of (refs_out (new_ids st n))]), hs.
      split. { rewrite oprun_app, R. cbn [prun pstep]. rewrite Pk. cbn [k_out]. reflexivity. }
      split; [split; [|exact L]; unfold known, uses; exact (oknown _ _ _ _ _ _ _ _ Pl Fa Fk Pv)|]. split; [now constructor|]. split; [now apply ofull_snoc|].
      split; [split; cbn; rewrite ?Same by reflexivity; auto|]. apply from_more; [exact Fr|]. exists args, kw. reflexivity.
    + assert (Mk : exists s, cbody k args kw = Ret s). { destruct Po as (_ & _ & _ & _ & _ & P6). apply (P6 k args kw). apply in_or_app; right; now left. }
      destruct Mk as (s & Mk).
      assert (Gr : grab_worker nw (p_grab st) = Some (makes p)).
      { unfold grab_worker. rewrite (find_same _ (fun w => negb (Nat.ltb w (makes p)))) by (intros w; now rewrite G1). apply first_free. lia. }
      exists (ops ++ [PActor k args kw]). do 2 eexists. exists (rs ++ [[]]), (hs ++ [length (p_actors st)]).
      split. { rewrite oprun_app, R. cbn [prun pstep]. rewrite Mk, Gr. reflexivity. }
      split; [split; [intros d []|exact L]|]. split; [now constructor|]. split; [now apply ofull_snoc|].
      split; [|apply from_more; [exact Fr|exact I]]. assert (Mx : makes (p ++ [TMake k args kw]) = S (makes p)) by (rewrite makes_snoc; lia). split; cbn [p_grab p_actors].
      * intros w. rewrite Mx. unfold upd. destruct (Nat.eqb_spec w (makes p)) as [->|D]; [symmetry; apply Nat.ltb_lt; lia|]. rewrite G1.
        destruct (Nat.ltb_spec w (makes p)), (Nat.ltb_spec w (S (makes p))); auto; lia.
      * rewrite app_length, G2, Mx. cbn. lia.
      * intros b y E. destruct (Nat.lt_ge_cases b (length (p_actors st))) as [H|H].
        -- rewrite nth_error_app1 in E by exact H. eauto.
        -- rewrite nth_error_app2 in E by exact H. destruct (b - length (p_actors st)) as [|z]; cbn in E; [|destruct z; discriminate]. injection E as <-. reflexivity.
      * rewrite Mx, G2, G4, seq_S. reflexivity.
    + destruct (ostand p rs args kw F S1) as (vs & ks & Fa & Fk). specialize (S2 a m args kw n eq_refl).
      assert (A : nth_error hs a = Some a). { rewrite G4. rewrite (nth_error_nth' _ 0) by (rewrite seq_length; exact S2). now rewrite seq_nth. }
      destruct (nth_error (p_actors st) a) as [y|] eqn:Y; [|apply nth_error_None in Y; lia].
      assert (Lo : length (refs_of (refs_out (new_ids st n))) = n).
      { rewrite PortPymp.refs_of_out. unfold new_ids. now rewrite map_length, seq_length. }
      exists (ops ++ [PCall a m vs ks n]). do 2 eexists. exists (rs ++ [refs_of (refs_out (new_ids st n))]), hs.
      split. { rewrite oprun_app, R. cbn [prun pstep]. rewrite Y, (G3 a y Y). cbn [k_out]. reflexivity. }
      split; [split; [|exact L]; unfold known, uses; exact (oknown _ _ _ _ _ _ _ _ Pl Fa Fk Pv)|]. split; [econstructor; eauto|]. split; [now apply ofull_snoc|].
      split; [split; cbn; rewrite ?Same by reflexivity; auto|]. apply from_more; [exact Fr|]. exists a, args, kw. reflexivity.
Qed.

Lemma some_or_none {A} (f : nat -> option A) n : (exists w x, w < n /\ f w = Some x) \/ (forall w, w < n -> f w = None).
Proof.
  induction n as [|n IH]; [right; intros; lia|]. destruct IH as [(w & x & L & E)|N]; [left; exists w, x; split; [lia|exact E]|].
  destruct (f n) as [x|] eqn:E; [left; exists n, x; split; [lia|exact E]|]. right. intros w L. destruct (Nat.eq_dec w n) as [->|D]; [exact E|]. apply N. lia.
Qed.

Lemma opymp_ends : forall k ops st h, run pinit [] ops = (st, h) -> unfinished nw st = k ->
  exists ws st', run pinit [] (ops ++ map PWork ws) = (st', h) /\ forall w, wrk st' w = None.
Proof.
  assert (Out : forall ops st h w, run pinit [] ops = (st, h) -> nw <= w -> wrk st w = None).
  { intros ops st h w R L. destruct (PympProofs.qi_run nw pos body cbody mbody no_i no_b no_b no_b same_v same_r yes_b ops st h R) as [Q _ _ _ B _ _ _]. unfold work.
    destruct (p_queue st w) as [|t q] eqn:E; [reflexivity|]. assert (I : In t (placed_on w (p_log st))) by (rewrite <- Q, E; apply in_or_app; right; now left).
    apply PympProofs.placed_In, B in I. lia. }
  induction k as [|k IH]; intros ops st h R U; destruct (some_or_none (wrk st) nw) as [(w & st' & L & W)|N].
  - pose proof (PympProps.C43_turns nw pos body cbody mbody no_i no_b no_b no_b same_v same_r yes_b ops st h w st' R W). lia.
  - exists [], st. cbn. rewrite app_nil_r. split; [exact R|]. intros w. destruct (Nat.lt_ge_cases w nw); eauto.
  - pose proof (PympProps.C43_turns nw pos body cbody mbody no_i no_b no_b no_b same_v same_r yes_b ops st h w st' R W) as T.
    assert (R' : run pinit [] (ops ++ [PWork w]) = (st', h)). { rewrite oprun_app, R. cbn [prun pstep]. rewrite W. reflexivity. }
    destruct (IH _ _ _ R') as (ws & st2 & R2 & N2); [lia|]. exists (w :: ws), st2. split; [|exact N2]. rewrite <- app_assoc in R2. exact R2.
  - exists [], st. cbn. rewrite app_nil_r. split; [exact R|]. intros w. destruct (Nat.lt_ge_cases w nw); eauto.
Qed.
End Pymp.

Lemma enough_suits n r : enough n r -> suits no_i no_b yes_b n r.
Proof.
  intros E. unfold suits. destruct r as [v|e]; [|reflexivity]. destruct n as [|[|n]]; [exact I|reflexivity|].
  destruct (E v eq_refl) as [X|(l & V & Ll)]; [lia|]. destruct V as [-> | ->]; split; auto; lia.
Qed.

Theorem opymp_done body cbody mbody prog : plain_bodies body mbody -> oportable body cbody mbody prog -> oscoped prog ->
  forall c x i, nth_error prog c = Some x -> i < oouts x -> exists r, oshows_pymp body cbody mbody prog c i r.
Proof.
  intros [Pf Pm] Po Sc c x i N Li. set (nw := S (makes prog)). assert (pos : 0 < nw) by (unfold nw; lia).
  destruct (opymp_submits body cbody mbody nw pos prog Po Sc) as (ops & st & h & rs & hs & R & L & Pl & F & G & (N1 & N2 & N3)); [unfold nw; lia|].
  destruct (opymp_ends body cbody mbody nw pos _ ops st h R eq_refl) as (ws & st' & R' & W). destruct (ofull_ref _ _ F _ _ _ N Li) as (d & D).
  assert (Wk : forall o, In o (map PWork ws) -> exists w, o = PWork w) by (intros o J; apply in_map_iff in J as (w & <- & _); eauto).
  assert (Nd : forall a, ~ In (PDel a) (ops ++ map PWork ws)).
  { intros a J. apply in_app_or in J as [J|J]; [exact (N1 a J)|]. apply Wk in J as (w & J). discriminate. }
  assert (Be : behaved body mbody no_i no_b yes_b (ops ++ map PWork ws)).
  { destruct Po as (_ & _ & _ & P4 & P5 & _). split; [reflexivity|]. split.
    - intros f args kw n vs ks J. apply in_app_or in J as [J|J]; [|apply Wk in J as (w & J); discriminate]. destruct (N2 f args kw n J) as (a & k & K). apply enough_suits. eapply P4; eauto.
    - intros a m args kw n s vs ks J. apply in_app_or in J as [J|J]; [|apply Wk in J as (w & J); discriminate]. destruct (N3 _ _ _ _ _ J) as (b & ar & k & K). apply enough_suits. eapply P5; eauto. }
  assert (Hk : handles_kept (fun l => fst (prun nw body cbody mbody no_i no_b no_b no_b same_v same_r yes_b pinit [] l)) (ops ++ map PWork ws)).
  { intros pre a post t m E. elim (Nd a). rewrite E. apply in_or_app; right; now left. }
  destruct (PympProps.C43_all_computed_partial nw pos body cbody mbody no_i no_b no_b no_b same_v same_r yes_b _ st' h R' L Be Hk W) as [_ A].
  destruct (A d) as (r & Gt); [eapply oplays_returned; eauto|].
  exists r, nw, no_i, no_b, no_b, no_b, same_v, same_r, yes_b, (ops ++ map PWork ws), st', h, rs, hs, d.
  split; [exact pos|]. split; [|split; [|split; [exact R'|split; [exact L|split; [|split; [exact Hk|split; [exact Pl|split; [exact D|exact Gt]]]]]]]].
  - assert (Z : forall v, plain v -> plain_result no_b no_i v).
    { intros v (_ & X1 & X2). split; [split; [exact X1|reflexivity]|]. intros n y J. split; [|reflexivity]. destruct v; try discriminate J; (eapply X2; [eauto|eapply nth_error_In; exact J]). }
    split; [intros f a k v B; apply Z; eapply Pf; eauto|intros m s a k v s' B; apply Z; eapply Pm; eauto].
  - intros v C. discriminate C.
  - intros v out J. apply (ohist _ _ _ _ Pl) in J. destruct Po as (P1 & _). split; [apply (P1 v J)|reflexivity].
Qed.
