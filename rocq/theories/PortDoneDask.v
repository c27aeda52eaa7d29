(** C98, completeness: Dask. *)
From Verif Require Import Lib ValModel PyseqModel PyseqSpec PyseqProofs PortSpec PortHist PortShows PortDoneSpec PortDone.
From Verif Require Import DaskRunModel.
From Verif Require DaskRunSpec DaskRunProofs PortDask.

Section Dask.
Variable body : nat -> list val -> kwargs -> res.
Definition d_c : nat -> nat -> list val -> kwargs -> res := fun _ _ _ _ => Exn 0.
Definition d_m : nat -> nat -> val -> list val -> kwargs -> res * val := fun _ _ s _ _ => (Exn 0, s).
Definition d_i : val -> nat -> res := fun v k => match v with VList l | VTuple l => match nth_error l k with Some x => Ret x | None => Exn 0 end | _ => Exn 0 end.
Notation step := (dstep (fun _ => body) d_c d_m d_i).
Notation run := (drun (fun _ => body) d_c d_m d_i).
Notation lg := (DaskRunSpec.legal (fun _ => body) d_c d_m d_i).

Definition done (st : dst) (d : dataid) : Prop := exists r, d_fin st d = Some (Fin r).
Definition simple (j : job) : Prop := match j with JFun _ _ _ _ | JItem _ _ => True | _ => False end.
Definition ready (st : dst) (d : dataid) : Prop := exists j, d_job st d = Some j /\ simple j /\ forall x, In x (deps j) -> done st x.

Lemma run_snoc ops o : run (ops ++ [o]) = step (run ops) o.
Proof. unfold drun. rewrite fold_left_app. reflexivity. Qed.

Lemma one_step st d : ready st d -> exists o r, DaskRunSpec.refs_in o = [] /\ (forall a m args kw n, o <> DCall a m args kw n) /\
  (forall x, d_fin (step st o) x = if did_eqb d x then Some (Fin r) else d_fin st x) /\
  (forall x, x <> d -> d_job (step st o) x = d_job st x) /\ d_held (step st o) = d_held st /\ d_hist (step st o) = d_hist st.
Proof.
  intros (j & J & Sj & D). destruct (forallb (finished_well st) (deps j)) eqn:W.
  - assert (X : exists r acts log, step st (DRun d) = finish st d (Fin r) acts log).
    { cbn [dstep]. rewrite J, W. destruct j; try contradiction; cbn [run_job]; eauto. }
    destruct X as (r & acts & log & X). exists (DRun d), r. split; [reflexivity|]. split; [discriminate|]. rewrite X. cbn. unfold dput, ddel. split; [reflexivity|]. split; [|split; reflexivity].
    intros x N. destruct (did_eqb d x) eqn:E; [apply did_eqb_eq in E; congruence|]. reflexivity.
  - assert (X : exists x, In x (deps j) /\ finished_well st x = false).
    { clear - W. induction (deps j) as [|y l IH]; [discriminate|]. cbn in W. destruct (finished_well st y) eqn:E; [destruct (IH W) as (x & I & F); exists x; split; [now right|exact F]|exists y; split; [now left|exact E]]. }
    destruct X as (x & I & F). destruct (D x I) as (r & R). unfold finished_well in F. rewrite R in F. destruct r as [v|e]; [discriminate|].
    assert (X : step st (DFail d x) = finish st d (Fin (Exn e)) (d_actors st) []). { cbn [dstep]. rewrite J, R, (proj2 (did_in_In _ _) I). reflexivity. }
    exists (DFail d x), (Exn e). split; [reflexivity|]. split; [discriminate|]. rewrite X. cbn. unfold dput, ddel. split; [reflexivity|]. split; [|split; reflexivity].
    intros y N. destruct (did_eqb d y) eqn:E; [apply did_eqb_eq in E; congruence|]. reflexivity.
Qed.

Definition later (ops ops' : list dop) : Prop :=
  lg ops' /\ (forall x, done (run ops) x -> done (run ops') x) /\ d_held (run ops') = d_held (run ops) /\ d_hist (run ops') = d_hist (run ops).

Lemma finish_all ds : NoDup ds -> forall ops, lg ops -> (forall d, In d ds -> ready (run ops) d) ->
  exists ops', later ops ops' /\ (forall d, In d ds -> done (run ops') d) /\ (forall x, ~ In x ds -> d_job (run ops') x = d_job (run ops) x).
Proof.
  induction ds as [|d ds IH]; intros N ops L R.
  - exists ops. split; [split; [exact L|auto]|]. split; [intros d []|auto].
  - inversion N as [|? ? N1 N2]; subst. destruct (one_step (run ops) d) as (o & r & A1 & A2 & A3 & A4 & A5 & A6); [apply R; now left|].
    rewrite <- run_snoc in A3, A4, A5, A6. assert (L' : lg (ops ++ [o])).
    { constructor; [exact L|rewrite A1; intros x []|]. intros a m args kw n E. elim (A2 _ _ _ _ _ E). }
    assert (M : forall x, done (run ops) x -> done (run (ops ++ [o])) x).
    { intros x (q & Q). unfold done. rewrite A3. destruct (did_eqb d x); eauto. }
    destruct (IH N2 (ops ++ [o]) L') as (ops' & (B1 & B2 & B3 & B4) & B5 & B6).
    { intros y I. destruct (R y (or_intror I)) as (j & J & Sj & D). exists j. split; [rewrite A4; [exact J|intros ->; contradiction]|]. split; [exact Sj|]. intros x K. apply M, D, K. }
    exists ops'. split; [split; [exact B1|split; [auto|split; [congruence|congruence]]]|]. split.
    + intros y [->|I]; [|now apply B5]. apply B2. unfold done. rewrite A3, did_eqb_refl. eauto.
    + intros x Nx. rewrite B6 by (intros I; apply Nx; now right). apply A4. intros ->. apply Nx. now left.
Qed.

Lemma nodup_ids a n : NoDup (map (fun k => (0, k)) (seq a n)).
Proof. apply FinFun.Injective_map_NoDup; [intros x y E; now injection E|apply seq_NoDup]. Qed.

Lemma arg_refs_done p rs st args kw vs ks : Forall2 (stands rs) args vs -> Forall2 (stands_kw rs) kw ks ->
  (forall v, In (AVal v) (args ++ map snd kw) -> plain v) -> full p rs -> (forall c i d, ref_at rs c i = Some d -> done st d /\ In d (d_held st)) ->
  forall x, In x (arg_refs vs ks) -> done st x /\ In x (d_held st).
Proof.
  intros Fa Fk Pv F H x I. unfold arg_refs in I. apply in_app_or in I as [I|I].
  - destruct (stands_refs _ _ _ x Fa) as (c & i & _ & R); eauto. intros v J. apply Pv, in_or_app; auto.
  - destruct (stands_kw_refs _ _ _ x Fk) as (c & i & _ & R); eauto. + intros v J. apply Pv, in_or_app; auto.
    + apply in_flat_map in I as (y & I & K). apply in_flat_map. exists (snd y). split; [now apply in_map|exact K].
Qed.

Lemma dask_submits p : portable body p -> scoped p -> exists ops rs, lg ops /\ dplays p rs (d_hist (run ops)) /\ full p rs /\
  (forall c i d, ref_at rs c i = Some d -> done (run ops) d /\ In d (d_held (run ops))).
Proof.
  induction p as [|x p IH] using rev_ind; intros Po Sc.
  - exists [], []. split; [constructor|]. split; [constructor|]. split; [constructor|]. intros c i d E. destruct c; discriminate E.
  - destruct IH as (ops & rs & L & Pl & F & H); [eapply portable_front; eauto|eapply scoped_front; eauto|]. set (st := run ops) in *. destruct x as [v|f args kw n].
    + exists (ops ++ [DPut v]), (rs ++ [[(0, d_next st)]]). rewrite run_snoc. fold st. split; [|split; [|split]].
      * constructor; [exact L|intros y []|discriminate].
      * cbn. now constructor.
      * now apply full_snoc.
      * intros c i d R. unfold done. cbn [dstep hand_out d_fin d_held app]. unfold dput. apply ref_cases in R as [[_ R]|[_ R]].
        -- destruct (H c i d R) as [(r & D) I]. split; [destruct (did_eqb (0, d_next st) d); eauto|now right].
        -- destruct i as [|[|i]]; cbn in R; try discriminate. injection R as <-. rewrite did_eqb_refl. split; [eauto|now left].
    + destruct (stand_call _ _ _ _ _ _ F Sc) as (vs & ks & Fa & Fk). assert (Pa := portable_args _ _ _ _ _ _ Po).
      assert (AD := arg_refs_done p rs st args kw vs ks Fa Fk Pa F H).
      assert (L1 : lg (ops ++ [DSubmit f vs ks n false])).
      { constructor; [exact L| |discriminate]. intros y I. fold st. apply AD. exact I. }
      set (jb := JFun (length (d_hist st)) f vs ks). set (ops1 := ops ++ [DSubmit f vs ks n false]) in *. assert (R1 : run ops1 = step st (DSubmit f vs ks n false)) by apply run_snoc.
      cbn [dstep] in R1. fold jb in R1. destruct (Nat.eqb_spec n 1) as [->|N1]; [|destruct (Nat.ltb_spec 1 n) as [N2|N2]].
      * assert (Rd : ready (run ops1) (0, d_next st)).
        { exists jb. rewrite R1. cbn. unfold dput. rewrite did_eqb_refl. split; [reflexivity|]. split; [exact I|]. intros y K. apply AD, K. }
        destruct (finish_all [(0, d_next st)] (NoDup_cons _ (@in_nil _ _) (NoDup_nil _)) ops1 L1) as (ops2 & (B1 & B2 & B3 & B4) & B5 & _). { intros d [<-|[]]. exact Rd. }
        exists ops2, (rs ++ [[(0, d_next st)]]). split; [exact B1|]. split; [|split].
        -- rewrite B4, R1. cbn. apply (D_fun p rs _ f args kw 1 vs ks (DRef (0, d_next st))); auto.
        -- now apply full_snoc.
        -- intros c i d R. rewrite B3, R1. cbn [hand_out d_held app]. apply ref_cases in R as [[_ R]|[_ R]].
           ++ destruct (H c i d R) as [D K]. split; [|now right]. apply B2. rewrite R1. exact D.
           ++ destruct i as [|[|i]]; cbn in R; try discriminate. injection R as <-. split; [apply B5; now left|now left].
      * destruct (submit_many (submit st jb) (JItem (0, d_next st)) 0 n) as [st2 l] eqn:Em.
        pose proof (DaskRunProofs.many_spec (JItem (0, d_next st)) n (submit st jb) 0) as Ms. rewrite Em in Ms. cbn [fst snd] in Ms. destruct Ms as (M1 & M2 & M3 & M4 & _ & M6 & _ & M8).
        cbn [submit d_next d_fin d_held d_hist d_job] in M1, M2, M3, M4, M6, M8.
        assert (Jf : d_job (run ops1) (0, d_next st) = Some jb).
        { rewrite R1. cbn [hand_out d_job]. rewrite M8. cbn [fst snd]. destruct (Nat.leb_spec (S (d_next st)) (d_next st)); [lia|]. rewrite andb_false_r. cbn. unfold dput. now rewrite did_eqb_refl. }
        assert (Ji : forall k, k < n -> d_job (run ops1) (0, S (d_next st) + k) = Some (JItem (0, d_next st) k)).
        { intros k K. rewrite R1. cbn [hand_out d_job]. rewrite M8. cbn [fst snd]. destruct (Nat.leb_spec (S (d_next st)) (S (d_next st) + k)); [|lia].
          destruct (Nat.ltb_spec (S (d_next st) + k) (S (d_next st) + n)); [|lia]. cbn [Nat.eqb andb]. do 2 f_equal. lia. }
        assert (Rd : ready (run ops1) (0, d_next st)).
        { exists jb. split; [exact Jf|]. split; [exact I|]. intros y K. unfold done. rewrite R1. cbn [hand_out d_fin]. rewrite M3. apply AD, K. }
        destruct (finish_all [(0, d_next st)] (NoDup_cons _ (@in_nil _ _) (NoDup_nil _)) ops1 L1) as (ops2 & (B1 & B2 & B3 & B4) & B5 & B6). { intros d [<-|[]]. exact Rd. }
        destruct (finish_all l ltac:(rewrite M1; apply nodup_ids) ops2 B1) as (ops3 & (C1 & C2 & C3 & C4) & C5 & _).
        { intros d K. rewrite M1 in K. apply in_map_iff in K as (k & <- & K). apply in_seq in K. exists (JItem (0, d_next st) (k - S (d_next st))). split; [|split; [exact I|]].
          - rewrite B6 by (intros [E|[]]; injection E; lia). rewrite <- (Ji (k - S (d_next st))) by lia. do 2 f_equal. lia.
          - intros y [<-|[]]. apply B5. now left. }
        assert (Ll : length l = n) by (rewrite M1, map_length, seq_length; reflexivity).
        exists ops3, (rs ++ [l]). split; [exact C1|]. split; [|split].
        -- rewrite C4, B4, R1. cbn [hand_out d_hist]. rewrite M6. apply (D_fun p rs _ f args kw n vs ks (DRefs l)); auto.
        -- now apply full_snoc.
        -- intros c i d R. rewrite C3, B3, R1. cbn [hand_out d_held]. rewrite M4. apply ref_cases in R as [[_ R]|[_ R]].
           ++ destruct (H c i d R) as [D K]. split; [|apply in_or_app; now right]. apply C2, B2. rewrite R1. unfold done. cbn [hand_out d_fin]. rewrite M3. exact D.
           ++ apply nth_error_In in R. split; [now apply C5|apply in_or_app; now left].
      * assert (n = 0) as -> by lia. exists ops1, (rs ++ [[]]). split; [exact L1|]. rewrite R1. split; [|split].
        -- cbn. apply (D_fun p rs _ f args kw 0 vs ks DNone); auto.
        -- now apply full_snoc.
        -- intros c i d R. apply ref_cases in R as [[_ R]|[_ R]]; [|destruct i; discriminate]. destruct (H c i d R) as [D K]. split; [exact D|exact K].
Qed.
End Dask.

Theorem dask_done body prog : portable body prog -> scoped prog -> forall c x i, nth_error prog c = Some x -> i < outs x -> exists r, shows_dask body prog c i r.
Proof.
  intros Po Sc c x i N Li. destruct (dask_submits body prog Po Sc) as (ops & rs & L & Pl & F & H). destruct (full_ref _ _ F _ _ _ N Li) as (d & D).
  destruct (H c i d D) as ((r & R) & _). exists r, d_c, d_m, d_i, ops, rs, d. cbn zeta. split; [|split; [exact L|split; [exact Pl|split; [exact D|]]]].
  - intros l k y Y. cbn. rewrite Y. auto.
  - unfold dget. now rewrite R.
Qed.
