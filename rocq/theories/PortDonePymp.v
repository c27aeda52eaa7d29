(** C98, completeness: PyMp. *)
From Verif Require Import Lib ValModel PyseqModel PyseqSpec PyseqProofs PortSpec PortHist PortShows PortDoneSpec PortDone PortDoneSeq PortSeq.
From Verif Require Import PympModel PympSpec.
From Verif Require PympProofs PympProps PortPymp.

Section Pymp.
Variable body : nat -> list val -> kwargs -> res.
Definition no_b : val -> bool := fun _ => false.
Definition yes_b : val -> bool := fun _ => true.
Definition same_v : val -> val := fun v => v.
Definition same_r : val -> res := fun v => Ret v.
Notation step := (pstep 1 body no_c no_m no_i no_b no_b no_b same_v same_r yes_b).
Notation run := (prun 1 body no_c no_m no_i no_b no_b no_b same_v same_r yes_b).
Notation wrk := (work body no_m no_i no_b no_b same_r yes_b).

Lemma prun_app ops ops' : forall st h, run st h (ops ++ ops') = let (s, h') := run st h ops in run s h' ops'.
Proof.
  induction ops as [|x ops IH]; intros st h; cbn [app prun].
  - reflexivity.
  - destruct (step st x) as [s1 [e|]]; apply IH.
Qed.

Definition PI (st : pst) : Prop := p_wid st = 0 /\ (forall w, p_grab st w = false) /\ forall w, w <> 0 -> p_queue st w = [].

Lemma pymp_submits p : portable body p -> scoped p ->
  exists ops st h rs, run pinit [] ops = (st, h) /\ legal h /\ plays p rs h /\ full p rs /\ PI st /\ (forall a, ~ In (PDel a) ops) /\
    (forall f args kw n, In (PSubmit f args kw n) ops -> exists a k, In (CFun f a k n) p) /\ (forall a m args kw n, ~ In (PCall a m args kw n) ops).
Proof.
  induction p as [|x p IH] using rev_ind; intros Po Sc.
  - exists [], pinit, [], []. split; [reflexivity|]. split; [exact I|]. split; [constructor|]. split; [constructor|]. split; [repeat split|]. split; [intros a []|]. split; [intros f args kw n []|intros a m args kw n []].
  - destruct IH as (ops & st & h & rs & R & L & Pl & F & (W & G & Q) & N1 & N2 & N3); [eapply portable_front; eauto|eapply scoped_front; eauto|].
    assert (N2' : forall f args kw n, In (PSubmit f args kw n) ops -> exists a k, In (CFun f a k n) (p ++ [x])).
    { intros f args kw n J. destruct (N2 f args kw n J) as (a & k & K). exists a, k. apply in_or_app; auto. }
    destruct x as [v|f args kw n].
    + exists (ops ++ [PPut v]). do 2 eexists. exists (rs ++ [[(0, p_next st)]]). split; [rewrite prun_app, R; cbn [prun pstep]; reflexivity|].
      split; [split; [intros d []|exact L]|]. split; [now constructor|]. split; [now apply full_snoc|]. split; [split; [exact W|split; [exact G|exact Q]]|].
      split; [|split].
      * intros a J. apply in_app_or in J as [J|[J|[]]]; [exact (N1 a J)|discriminate].
      * intros f args kw n J. apply in_app_or in J as [J|[J|[]]]; [eauto|discriminate].
      * intros a m args kw n J. apply in_app_or in J as [J|[J|[]]]; [exact (N3 _ _ _ _ _ J)|discriminate].
    + destruct (stand_call _ _ _ _ _ _ F Sc) as (vs & ks & Fa & Fk).
      assert (Lo : length (refs_of (refs_out (new_ids st n))) = n).
      { rewrite PortPymp.refs_of_out. unfold new_ids. now rewrite map_length, seq_length. }
      exists (ops ++ [PSubmit f vs ks n]). do 2 eexists. exists (rs ++ [refs_of (refs_out (new_ids st n))]).
      split. { rewrite prun_app, R. cbn [prun pstep]. rewrite W. cbn [pick]. rewrite G. cbn [k_out]. reflexivity. }
      split; [split; [|exact L]; eapply known_call; eauto; eapply portable_args; eauto|]. split; [now constructor|]. split; [now apply full_snoc|].
      split; [split; [reflexivity|split; [exact G|]]|].
      * intros w D. cbn. unfold upd. destruct (Nat.eqb_spec w 0); [contradiction|now apply Q].
      * split; [|split].
        -- intros a J. apply in_app_or in J as [J|[J|[]]]; [exact (N1 a J)|discriminate].
        -- intros f' args' kw' n' J. apply in_app_or in J as [J|[J|[]]]; [eauto|]. injection J as <- <- <- <-. exists args, kw. apply in_or_app; right; now left.
        -- intros a m args' kw' n' J. apply in_app_or in J as [J|[J|[]]]; [exact (N3 _ _ _ _ _ J)|discriminate].
Qed.

Lemma pymp_ends : forall k ops st h, run pinit [] ops = (st, h) -> PI st -> unfinished 1 st = k ->
  exists j st', run pinit [] (ops ++ repeat (PWork 0) j) = (st', h) /\ forall w, wrk st' w = None.
Proof.
  induction k as [|k IH]; intros ops st h R P U; destruct (wrk st 0) as [st'|] eqn:W.
  - pose proof (PympProps.C43_turns 1 (le_n 1) body no_c no_m no_i no_b no_b no_b same_v same_r yes_b ops st h 0 st' R W). lia.
  - exists 0, st. cbn. rewrite app_nil_r. split; [exact R|]. intros [|w]; [exact W|]. unfold work. now rewrite (proj2 (proj2 P)) by lia.
  - pose proof (PympProps.C43_turns 1 (le_n 1) body no_c no_m no_i no_b no_b no_b same_v same_r yes_b ops st h 0 st' R W) as T.
    assert (R' : run pinit [] (ops ++ [PWork 0]) = (st', h)). { rewrite prun_app, R. cbn [prun pstep]. rewrite W. reflexivity. }
    assert (P' : PI st').
    { apply PympProofs.work_spec in W as (t & q & r & m & ok & acts & _ & _ & _ & _ & -> & _). destruct P as (A & B & C). split; [exact A|]. split; [exact B|].
      intros w D. cbn. unfold upd. destruct (Nat.eqb_spec w 0); [contradiction|now apply C]. }
    destruct (IH _ _ _ R' P') as (j & st2 & R2 & N2); [lia|]. exists (S j), st2. split; [|exact N2]. rewrite <- app_assoc in R2. exact R2.
  - exists 0, st. cbn. rewrite app_nil_r. split; [exact R|]. intros [|w]; [exact W|]. unfold work. now rewrite (proj2 (proj2 P)) by lia.
Qed.
End Pymp.

Theorem pymp_done body prog : plain_functions body -> portable body prog -> scoped prog ->
  forall c x i, nth_error prog c = Some x -> i < outs x -> exists r, shows_pymp body prog c i r.
Proof.
  intros Pf Po Sc c x i N Li. destruct (pymp_submits body prog Po Sc) as (ops & st & h & rs & R & L & Pl & F & P & N1 & N2 & N3).
  destruct (pymp_ends body _ ops st h R P eq_refl) as (j & st' & R' & W). destruct (full_ref _ _ F _ _ _ N Li) as (d & D).
  assert (Nd : forall a, ~ In (PDel a) (ops ++ repeat (PWork 0) j)).
  { intros a J. apply in_app_or in J as [J|J]; [exact (N1 a J)|]. apply repeat_spec in J. discriminate. }
  assert (Be : behaved body no_m no_i no_b yes_b (ops ++ repeat (PWork 0) j)).
  { split; [reflexivity|]. split.
    - intros f args kw n vs ks J. apply in_app_or in J as [J|J]; [|apply repeat_spec in J; discriminate]. destruct (N2 f args kw n J) as (a & k & K).
      unfold suits. destruct (body f vs ks) as [v|e] eqn:B; [|reflexivity]. destruct n as [|[|n]]; [exact I|reflexivity|].
      destruct Po as (_ & _ & P3). destruct (P3 f a k (S (S n)) vs ks v K B) as [X|(l & V & Ll)]; [lia|]. destruct V as [-> | ->]; split; auto; lia.
    - intros a m args kw n s vs ks J. apply in_app_or in J as [J|J]; [elim (N3 _ _ _ _ _ J)|apply repeat_spec in J; discriminate]. }
  assert (Hk : handles_kept (fun l => fst (prun 1 body no_c no_m no_i no_b no_b no_b same_v same_r yes_b pinit [] l)) (ops ++ repeat (PWork 0) j)).
  { intros pre a post t m E. elim (Nd a). rewrite E. apply in_or_app; right; now left. }
  destruct (PympProps.C43_all_computed_partial 1 (le_n 1) body no_c no_m no_i no_b no_b no_b same_v same_r yes_b _ st' h R' L Be Hk W) as [_ A].
  destruct (A d) as (r & G); [eapply plays_returned; eauto|].
  exists r, 1, no_c, no_m, no_i, no_b, no_b, no_b, same_v, same_r, yes_b, (ops ++ repeat (PWork 0) j), st', h, rs, d.
  split; [lia|]. split; [|split; [|split; [exact R'|split; [exact L|split; [|split; [exact Nd|split; [exact Pl|split; [exact D|exact G]]]]]]]].
  - split.
    + intros f a k v B. destruct (Pf _ _ _ _ B) as (_ & X1 & X2). split; [split; [exact X1|reflexivity]|]. intros n y J. split; [|reflexivity].
      destruct v; try discriminate J; (eapply X2; [eauto|eapply nth_error_In; exact J]).
    + intros m s a k v s' B. discriminate B.
  - intros v C. discriminate C.
  - intros v out J. apply (pure_hist _ _ _ Pl) in J. destruct Po as (P1 & _). split; [apply (P1 v J)|reflexivity].
Qed.
