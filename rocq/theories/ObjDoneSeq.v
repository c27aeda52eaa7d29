(** C99, completeness: PySeq. *)
From Verif Require Import Lib ValModel PyseqModel PyseqSpec PyseqProofs PortSpec PortHist PortDone PortDoneSeq ObjSpec ObjHist ObjBack ObjDoneSpec ObjDone.

Section Seq.
Variable body : nat -> list val -> kwargs -> res.
Variable cbody : nat -> list val -> kwargs -> res.
Variable mbody : nat -> val -> list val -> kwargs -> res * val.
Notation step := (qstep body cbody mbody no_i).
Notation run := (qrun body cbody mbody no_i).
Notation odir := (odirect body cbody mbody).

Record OS (p : list ocall) (rs : list (list dataid)) (hs : list nat) (st : qst) : Prop := {
  os_env : length (fst (odir p)) = length p;
  os_acts : q_actors st = snd (odir p);
  os_hs : hs = seq 0 (length (q_actors st));
  os_refs : forall c i d, ref_at rs c i = Some d -> snd d < q_next st /\
    exists r, result_of (fst (odir p)) c i = Some r /\ q_store st d = Some (stored r) /\ forall v, r = Ret v -> is_exc v = false
}.

Lemma orun_snoc ops o : forall st h, run st h (ops ++ [o]) = let (s, h') := run st h ops in let (s', out) := step s o in (s', (o, out) :: h').
Proof.
  induction ops as [|x ops IH]; intros st h; cbn [app qrun].
  - destruct (step st o) as [s' out]. reflexivity.
  - destruct (step st x) as [s1 o1]. apply IH.
Qed.

Lemma omat p rs hs st args vs : OS p rs hs st -> Forall2 (stands rs) args vs -> (forall v, In (AVal v) args -> plain v) ->
  (forall c i, In (AOut c i) args -> exists v, result_of (fst (odir p)) c i = Some (Ret v)) ->
  exists xs, materialize st vs = Gots xs /\ all_ok (map (arg_result (fst (odir p))) args) = Some (inl xs).
Proof.
  intros S0 F. induction F as [|a v args vs A F IH]; intros P O; [exists []; split; reflexivity|].
  destruct IH as (xs & M & K); [intros; apply P; now right|intros; apply O; now right|].
  destruct a as [x|c i]; cbn in A.
  - subst v. assert (R : is_ref x = false) by (destruct (P x (or_introl eq_refl)) as [Rx _]; destruct x; auto; discriminate).
    exists (x :: xs). cbn [materialize map arg_result all_ok]. rewrite R, M, K. split; reflexivity.
  - destruct A as (d & R & ->). destruct (os_refs _ _ _ _ S0 c i d R) as (_ & r & E & Q & X). destruct (O c i) as (v & V); [now left|].
    rewrite E in V. injection V as ->. exists (v :: xs). cbn [materialize map arg_result all_ok is_ref]. rewrite (get_stored st d v Q (X v eq_refl)), M, E, K. split; reflexivity.
Qed.

Lemma omat_kw p rs hs st kw ks : OS p rs hs st -> Forall2 (stands_kw rs) kw ks -> (forall v, In (AVal v) (map snd kw) -> plain v) ->
  (forall c i, In (AOut c i) (map snd kw) -> exists v, result_of (fst (odir p)) c i = Some (Ret v)) ->
  exists xs, materialize st (map snd ks) = Gots xs /\ all_ok (map (arg_result (fst (odir p))) (map snd kw)) = Some (inl xs) /\ map fst ks = map fst kw.
Proof.
  intros S0 F P O.
  assert (F' : Forall2 (stands rs) (map snd kw) (map snd ks) /\ map fst ks = map fst kw).
  { clear - F. induction F as [|a b kw ks [E S0] F [I1 I2]]; cbn; [split; constructor|]. split; [constructor; auto|congruence]. }
  destruct F' as [F' N]. destruct (omat p rs hs st (map snd kw) (map snd ks) S0 F' P O) as (xs & A & B). eauto.
Qed.

Lemma os_more p rs hs hs' st st' x l : OS p rs hs st -> length rs = length p -> q_next st <= q_next st' -> (forall d, snd d < q_next st -> q_store st' d = q_store st d) ->
  forall new objs, odir (p ++ [x]) = (fst (odir p) ++ [new], objs) -> q_actors st' = objs -> hs' = seq 0 (length objs) ->
  (forall k d, nth_error l k = Some d -> snd d < q_next st' /\ exists r, nth_error new k = Some r /\ q_store st' d = Some (stored r) /\ forall v, r = Ret v -> is_exc v = false) ->
  OS (p ++ [x]) (rs ++ [l]) hs' st'.
Proof.
  intros [E1 E2 E3 E4] Le Q O new objs D A Hh H. split.
  - rewrite D. cbn. rewrite !app_length. cbn. lia.
  - rewrite D. exact A.
  - now rewrite A.
  - intros c i d R. rewrite D. cbn [fst]. apply ref_cases in R as [[L R]|[-> R]].
    + destruct (E4 c i d R) as (B & r & E & G & X). split; [lia|]. exists r. rewrite result_old by lia. split; [exact E|]. split; [now rewrite O|exact X].
    + rewrite Le, <- E1, result_new. exact (H i d R).
Qed.

Lemma parts_plain n r k y : (forall v, r = Ret v -> plain v) -> k < n -> nth_error (each n r) k = Some y -> forall v, y = Ret v -> is_exc v = false.
Proof.
  intros Pf Lk Y v ->. destruct r as [w|e] eqn:Er; cbn [each] in Y; [|rewrite nth_error_repeat in Y by exact Lk; discriminate].
  destruct (Pf _ eq_refl) as (_ & X1 & X2). destruct (Nat.eqb_spec n 1) as [->|Dn].
  - assert (k = 0) as -> by lia. cbn in Y. injection Y as ->. exact X1.
  - destruct w; try (destruct k; discriminate); rewrite nth_error_map in Y; (destruct (nth_error l k) eqn:Nl; [|discriminate]); cbn in Y; injection Y as ->; (eapply X2; [eauto|eapply nth_error_In; eauto]).
Qed.

(** Storing the result of a call. *)
Lemma os_result p rs hs st st1 x r n objs : OS p rs hs st -> length rs = length p -> q_next st1 = q_next st -> q_store st1 = q_store st -> enough n r -> (forall v, r = Ret v -> plain v) ->
  odir (p ++ [x]) = (fst (odir p) ++ [each n r], objs) -> q_actors st1 = objs -> length objs = length (q_actors st) ->
  exists st' out, store_result no_i st1 r n = (st', out) /\ length (refs_of out) = n /\ OS (p ++ [x]) (rs ++ [refs_of out]) hs st'.
Proof.
  intros S0 Le N1 T1 En Pf D A Lo. destruct (store_all st1 r n En) as (st' & out & E & Ro & Q & O & T). exists st', out. split; [exact E|].
  split; [rewrite Ro, map_length, seq_length; reflexivity|].
  assert (A' : q_actors st' = objs).
  { rewrite <- A. unfold store_result in E. destruct (Nat.eqb n 0); [injection E as <- _; reflexivity|]. destruct (Nat.ltb 1 n).
    - match type of E with context [put_items no_i st1 ?v 0 n] => assert (I := items_actors no_i n st1 v 0); destruct (put_items no_i st1 v 0 n) as [st2 [ds|]] end; injection E as <- _; exact I.
    - cbn in E. injection E as <- _. reflexivity. }
  eapply (os_more p rs hs hs st st'); eauto.
  - lia.
  - intros d L. rewrite O by lia. now rewrite T1.
  - rewrite (os_hs _ _ _ _ S0), Lo. reflexivity.
  - intros k d G. rewrite Ro, nth_error_map in G.
    assert (Lk : k < n). { destruct (nth_error (seq (q_next st1) n) k) eqn:Z; [|discriminate]. assert (K : k < length (seq (q_next st1) n)) by (apply nth_error_Some; congruence). rewrite seq_length in K. exact K. }
    rewrite (nth_error_nth' (seq (q_next st1) n) 0) in G by (rewrite seq_length; exact Lk). rewrite seq_nth in G by exact Lk. cbn in G. injection G as <-. cbn [fst snd].
    split; [lia|]. destruct (T k Lk) as (y & Y & Z). exists y. split; [exact Y|]. split; [exact Z|]. exact (parts_plain n r k y Pf Lk Y).
Qed.

Lemma oseq_submits p : plain_bodies body mbody -> oportable body cbody mbody p -> oscoped p -> oarguments_fine body cbody mbody p ->
  exists ops st h rs hs, run qinit [] ops = (st, h) /\ legal h /\ oplays p rs hs h /\ ofull p rs /\ OS p rs hs st.
Proof.
  intros [Pf Pm]. induction p as [|x p IH] using rev_ind; intros Po Sc Fine.
  - exists [], qinit, [], [], []. split; [reflexivity|]. split; [exact I|]. split; [constructor|]. split; [constructor|]. split; auto. intros c i d E. destruct c; discriminate E.
  - assert (Po' := oportable_front _ _ _ _ _ Po). assert (Sc' := oscoped_front _ _ Sc).
    assert (Len : length (fst (odir p)) = length p).
    { clear. induction p as [|y p IHp] using rev_ind; [reflexivity|]. rewrite odirect_snoc. destruct (odir p) as [env objs] eqn:Ed. cbn [fst] in IHp. rewrite app_length. cbn [length].
      destruct y; cbn [operform]; try (cbn [fst]; rewrite app_length; cbn; lia). destruct (nth_error objs a) as [s|]; [|cbn [fst]; rewrite app_length; cbn; lia].
      destruct (all_ok (map (arg_result env) args)) as [[vs|e]|]; try (cbn [fst]; rewrite app_length; cbn; lia).
      destruct (all_ok (map (arg_result env) (map snd kw))) as [[ks|e]|]; try (cbn [fst]; rewrite app_length; cbn; lia).
      destruct (mbody m s vs (combine (map fst kw) ks)). cbn [fst]. rewrite app_length. cbn. lia. }
    assert (Grow : exists new, fst (odir (p ++ [x])) = fst (odir p) ++ [new]).
    { rewrite odirect_snoc. destruct (odir p) as [env objs]. destruct x; cbn [operform]; try (eexists; reflexivity). destruct (nth_error objs a) as [s|]; [|eexists; reflexivity].
      destruct (all_ok (map (arg_result env) args)) as [[vs|e]|]; try (eexists; reflexivity). destruct (all_ok (map (arg_result env) (map snd kw))) as [[ks|e]|]; try (eexists; reflexivity).
      destruct (mbody m s vs (combine (map fst kw) ks)). eexists; reflexivity. }
    assert (Old : forall y c i, In y (p ++ [x]) -> In (AOut c i) (oargs y) -> c < length p -> exists v, result_of (fst (odir p)) c i = Some (Ret v)).
    { intros y c i J K Lc. destruct (Fine y c i J K) as (v & V). destruct Grow as (new & Gw). rewrite Gw, result_old in V by lia. eauto. }
    destruct IH as (ops & st & h & rs & hs & R & L & Pl & F & S0); auto.
    { intros y c i J K. apply (Old y c i); [apply in_or_app; auto|exact K|].
      apply in_split in J as (p1 & p2 & Ep). destruct (proj1 (Sc' p1 y p2 Ep) c i K) as (z & N & _). assert (c < length p1) by (apply nth_error_Some; congruence). rewrite Ep, app_length. lia. }
    assert (Le := oplays_length _ _ _ _ Pl). assert (Pv := oargs_plain _ _ _ _ _ Po). destruct (oscoped_last _ _ Sc) as [S1 S2].
    assert (Fi : forall c i, In (AOut c i) (oargs x) -> exists v, result_of (fst (odir p)) c i = Some (Ret v)).
    { intros c i K. apply (Old x c i); [apply in_or_app; right; now left|exact K|]. destruct (S1 c i K) as (y & N & _). apply nth_error_Some. congruence. }
    destruct (odir p) as [env objs] eqn:Ed. cbn [fst] in *.
    assert (Acts : q_actors st = objs) by (rewrite (os_acts _ _ _ _ S0), Ed; reflexivity).
    destruct x as [v|f args kw n|k args kw|a m args kw n].
    + assert (Pw : plain v) by (apply (proj1 Po), in_or_app; right; now left).
      eexists (ops ++ [QPut v]), _, _, (rs ++ [[(0, q_next st)]]), hs. split; [rewrite orun_snoc, R; cbn [qstep qput]; reflexivity|]. split; [|split; [|split]].
      * split; [intros d []|exact L].
      * now constructor.
      * now apply ofull_snoc.
      * eapply (os_more p rs hs hs st); [exact S0|exact Le|cbn; lia| |rewrite odirect_snoc, Ed; cbn; reflexivity|exact Acts|rewrite (os_hs _ _ _ _ S0), Acts; reflexivity|].
        -- intros d D. cbn. unfold dput. destruct (did_eqb (0, q_next st) d) eqn:Z'; [apply did_eqb_eq in Z'; subst d; cbn in D; lia|].
           destruct (did_eqb d (0, q_next st)) eqn:Z; [apply did_eqb_eq in Z; subst d; cbn in D; lia|reflexivity].
        -- intros k d D. destruct k as [|[|k]]; cbn in D; try discriminate. injection D as <-. cbn. split; [lia|]. exists (Ret v). split; [reflexivity|]. unfold dput. rewrite did_eqb_refl. split; [reflexivity|].
           intros w W. injection W as <-. apply Pw.
    + destruct (ostand p rs args kw F S1) as (vs & ks & Fa & Fk). cbn [oargs] in *.
      destruct (omat p rs hs st args vs S0 Fa) as (xs & M & K). { intros v J. apply Pv, in_or_app; auto. } { rewrite Ed. intros c i J. apply Fi, in_or_app; auto. }
      destruct (omat_kw p rs hs st kw ks S0 Fk) as (ys & M' & K' & Names). { intros v J. apply Pv, in_or_app; auto. } { rewrite Ed. intros c i J. apply Fi, in_or_app; auto. }
      rewrite Ed in K, K'. cbn [fst] in K, K'. set (r := body f xs (combine (map fst kw) ys)).
      destruct (os_result p rs hs st st (TFun f args kw n) r n objs S0 Le eq_refl eq_refl) as (st' & out & E & Lo & S').
      { destruct Po as (_ & _ & _ & P4 & _). eapply P4. apply in_or_app; right; now left. }
      { intros v Er. eapply Pf; exact Er. }
      { rewrite odirect_snoc, Ed. cbn [operform perform fst]. rewrite K, K'. reflexivity. }
      { exact Acts. } { now rewrite Acts. }
      exists (ops ++ [QSubmit f vs ks n false]), st', ((QSubmit f vs ks n false, out) :: h), (rs ++ [refs_of out]), hs. split; [|split; [|split; [|split]]].
      * rewrite orun_snoc, R. cbn [qstep]. rewrite M, M', Names. fold r. rewrite E. reflexivity.
      * split; [|exact L]. unfold known, uses. exact (oknown _ _ _ _ _ _ _ _ Pl Fa Fk Pv).
      * now constructor.
      * now apply ofull_snoc.
      * exact S'.
    + assert (Mk : exists s, cbody k args kw = Ret s). { destruct Po as (_ & _ & _ & _ & _ & P6). apply (P6 k args kw). apply in_or_app; right; now left. }
      destruct Mk as (s & Mk).
      exists (ops ++ [QActor k args kw false]). do 2 eexists. exists (rs ++ [[]]), (hs ++ [length (q_actors st)]).
      split. { rewrite orun_snoc, R. cbn [qstep]. rewrite Mk. reflexivity. }
      split; [split; [intros d []|exact L]|]. split; [now constructor|]. split; [now apply ofull_snoc|].
      eapply (os_more p rs hs _ st); [exact S0|exact Le|cbn; lia|reflexivity|rewrite odirect_snoc, Ed; cbn [operform fst]; rewrite Mk; reflexivity| | |].
      * cbn. now rewrite Acts.
      * rewrite (os_hs _ _ _ _ S0), Acts, app_length. cbn [length]. rewrite Nat.add_1_r, seq_S. reflexivity.
      * intros j d D. destruct j; discriminate.
    + destruct (ostand p rs args kw F S1) as (vs & ks & Fa & Fk). cbn [oargs] in *. specialize (S2 a m args kw n eq_refl).
      destruct (omat p rs hs st args vs S0 Fa) as (xs & M & K). { intros v J. apply Pv, in_or_app; auto. } { rewrite Ed. intros c i J. apply Fi, in_or_app; auto. }
      destruct (omat_kw p rs hs st kw ks S0 Fk) as (ys & M' & K' & Names). { intros v J. apply Pv, in_or_app; auto. } { rewrite Ed. intros c i J. apply Fi, in_or_app; auto. }
      rewrite Ed in K, K'. cbn [fst] in K, K'.
      assert (Lh : length hs = length (q_actors st)) by (rewrite (os_hs _ _ _ _ S0), seq_length; reflexivity).
      rewrite <- (oplays_makes _ _ _ _ Pl), Lh in S2.
      assert (A : nth_error hs a = Some a). { rewrite (os_hs _ _ _ _ S0), (nth_error_nth' _ 0) by (rewrite seq_length; exact S2). now rewrite seq_nth. }
      destruct (nth_error (q_actors st) a) as [s|] eqn:Y; [|apply nth_error_None in Y; lia].
      destruct (mbody m s xs (combine (map fst kw) ys)) as [r s'] eqn:Mb.
      destruct (os_result p rs hs st (set_actor st a s') (TMeth a m args kw n) r n (set_at objs a s') S0 Le eq_refl eq_refl) as (st' & out & E & Lo & S').
      { destruct Po as (_ & _ & _ & _ & P5 & _). assert (X := P5 a m args kw n s xs (combine (map fst kw) ys)). rewrite Mb in X. apply X. apply in_or_app; right; now left. }
      { intros v ->. eapply Pm; exact Mb. }
      { rewrite odirect_snoc, Ed. cbn [operform fst]. rewrite <- Acts, Y, K, K', Mb. reflexivity. }
      { cbn. rewrite Acts. reflexivity. } { rewrite Acts. apply set_at_length. rewrite <- Acts. exact S2. }
      exists (ops ++ [QCall a m vs ks n]), st', ((QCall a m vs ks n, out) :: h), (rs ++ [refs_of out]), hs. split; [|split; [|split; [|split]]].
      * rewrite orun_snoc, R. cbn [qstep]. rewrite Y, M, M', Names, Mb, E. reflexivity.
      * split; [|exact L]. unfold known, uses. exact (oknown _ _ _ _ _ _ _ _ Pl Fa Fk Pv).
      * econstructor; eauto.
      * now apply ofull_snoc.
      * exact S'.
Qed.
End Seq.

Theorem oseq_done body cbody mbody prog : plain_bodies body mbody -> oportable body cbody mbody prog -> oscoped prog -> oarguments_fine body cbody mbody prog ->
  forall c x i, nth_error prog c = Some x -> i < oouts x -> exists r, oshows_seq body cbody mbody prog c i r.
Proof.
  intros Pb Po Sc Af c x i N Li. destruct (oseq_submits body cbody mbody prog Pb Po Sc Af) as (ops & st & h & rs & hs & R & L & Pl & F & S0).
  destruct (ofull_ref _ _ F _ _ _ N Li) as (d & D). destruct (os_refs _ _ _ _ _ _ _ S0 c i d D) as (_ & r & E & Q & X).
  exists r, no_i, ops, st, h, rs, hs, d. split; [|split; [exact R|split; [exact L|split; [exact Pl|split; [exact D|]]]]].
  - destruct Pb as [Pf Pm]. assert (Z : forall v, plain v -> clean no_i v).
    { intros v (_ & X1 & X2). split; [exact X1|]. intros j y I. destruct v; try discriminate I; (eapply X2; [eauto|eapply nth_error_In; exact I]). }
    split; [intros f a k v B; apply Z; eapply Pf; eauto|intros m s a k v s' B; apply Z; eapply Pm; eauto].
  - cbn [qstep snd]. destruct r as [v|e].
    + rewrite (get_stored st d v Q (X v eq_refl)). reflexivity.
    + cbn [qget]. rewrite Q. reflexivity.
Qed.
