(** C98, completeness: PySeq. *)
From Verif Require Import Lib ValModel PyseqModel PyseqSpec PyseqProofs PortSpec PortHist PortShows PortDoneSpec PortSeq PortDask PortDone.

Section Seq.
Variable body : nat -> list val -> kwargs -> res.
Definition no_i : val -> nat -> option val := fun _ _ => None.
Notation step := (qstep body no_c no_m no_i).
Notation run := (qrun body no_c no_m no_i).

Definition stored (r : res) : val := match r with Ret v => v | Exn e => VExc e end.

Definition SI (p : list pcall) (rs : list (list dataid)) (st : qst) : Prop :=
  forall c i d, ref_at rs c i = Some d -> fst d = 0 /\ snd d < q_next st /\
    exists r, result_of (direct body p) c i = Some r /\ q_store st d = Some (stored r) /\ forall v, r = Ret v -> is_exc v = false.

Lemma run_snoc ops o : forall st h, run st h (ops ++ [o]) = let (s, h') := run st h ops in let (s', out) := step s o in (s', (o, out) :: h').
Proof.
  induction ops as [|x ops IH]; intros st h; cbn [app qrun].
  - destruct (step st o) as [s' out]. reflexivity.
  - destruct (step st x) as [s1 o1]. apply IH.
Qed.

Lemma get_stored st d v : q_store st d = Some v -> is_exc v = false -> qget st (VRef d) = Got v.
Proof. intros E X. cbn. rewrite E. destruct v; auto; discriminate. Qed.

(** Arguments that are values are read, and are those of direct execution. *)
Lemma mat_args p rs st args vs : SI p rs st -> Forall2 (stands rs) args vs -> (forall v, In (AVal v) args -> refs v = []) ->
  (forall c i, In (AOut c i) args -> exists v, result_of (direct body p) c i = Some (Ret v)) ->
  exists xs, materialize st vs = Gots xs /\ all_ok (map (arg_result (direct body p)) args) = Some (inl xs).
Proof.
  intros S0 F. induction F as [|a v args vs A F IH]; intros P O; [exists []; split; reflexivity|].
  destruct IH as (xs & M & K); [intros; apply P; now right|intros; apply O; now right|].
  destruct a as [x|c i]; cbn in A.
  - subst v. assert (R : is_ref x = false) by (specialize (P x (or_introl eq_refl)); destruct x; auto; discriminate).
    exists (x :: xs). cbn [materialize map arg_result all_ok]. rewrite R, M, K. split; reflexivity.
  - destruct A as (d & R & ->). destruct (S0 c i d R) as (_ & _ & r & E & Q & X). destruct (O c i) as (v & V); [now left|].
    rewrite E in V. injection V as ->. exists (v :: xs). cbn [materialize map arg_result all_ok is_ref]. rewrite (get_stored st d v Q (X v eq_refl)), M, E, K. split; reflexivity.
Qed.

Lemma put_all l : forall n idx st v, v = VList l \/ v = VTuple l -> length l = idx + n ->
  exists st', put_items no_i st v idx n = (st', Some (map (fun k => (0, k)) (seq (q_next st) n))) /\ q_next st' = q_next st + n /\
    (forall d, snd d < q_next st -> q_store st' d = q_store st d) /\
    (forall k, k < n -> q_store st' (0, q_next st + k) = nth_error l (idx + k)).
Proof.
  induction n as [|n IH]; intros idx st v V L; cbn [put_items].
  - exists st. split; [reflexivity|]. split; [lia|]. split; [auto|]. intros k K. lia.
  - assert (X : exists x, index no_i v idx = Some x /\ nth_error l idx = Some x).
    { destruct (nth_error l idx) as [x|] eqn:N; [|apply nth_error_None in N; lia]. exists x. split; [|reflexivity]. destruct V as [-> | ->]; exact N. }
    destruct X as (x & X & N). rewrite X. cbn [qput]. set (st1 := {| q_next := S (q_next st); q_store := dput (q_store st) (0, q_next st) x; q_actors := q_actors st |}).
    destruct (IH (S idx) st1 v V) as (st' & E & Q & O & T); [lia|]. rewrite E. exists st'. split; [reflexivity|]. split; [cbn in Q; lia|]. split.
    + intros d D. rewrite O by (cbn; lia). cbn. unfold dput. destruct (did_eqb d (0, q_next st)) eqn:Z; [apply did_eqb_eq in Z; subst d; cbn in D; lia|]. 
      destruct (did_eqb (0, q_next st) d) eqn:Z'; [apply did_eqb_eq in Z'; subst d; cbn in D; lia|reflexivity].
    + intros k K. destruct k as [|k].
      * rewrite Nat.add_0_r, Nat.add_0_r, O by (cbn; lia). cbn. unfold dput. rewrite did_eqb_refl. symmetry. exact N.
      * replace (q_next st + S k) with (q_next st1 + k) by (cbn; lia). rewrite T by lia. f_equal. lia.
Qed.

Lemma store_all st r n : (forall v, r = Ret v -> n <= 1 \/ exists l, (v = VList l \/ v = VTuple l) /\ length l = n) ->
  exists st' out, store_result no_i st r n = (st', out) /\ refs_of out = map (fun k => (0, k)) (seq (q_next st) n) /\ q_next st' = q_next st + n /\
    (forall d, snd d < q_next st -> q_store st' d = q_store st d) /\
    (forall k, k < n -> exists x, nth_error (each n r) k = Some x /\ q_store st' (0, q_next st + k) = Some (stored x)).
Proof.
  intros R. unfold store_result. destruct n as [|[|n]].
  - exists st, ONone. cbn. repeat split; auto. intros k K. lia.
  - cbn [Nat.eqb Nat.ltb Nat.leb]. cbn [qput]. eexists _, _. split; [reflexivity|]. split; [reflexivity|]. cbn [q_next q_store]. split; [lia|]. split.
    + intros d D. unfold dput. destruct (did_eqb (0, q_next st) d) eqn:Z'; [apply did_eqb_eq in Z'; subst d; cbn in D; lia|].
      destruct (did_eqb d (0, q_next st)) eqn:Z; [apply did_eqb_eq in Z; subst d; cbn in D; lia|reflexivity].
    + intros k K. assert (k = 0) as -> by lia. rewrite Nat.add_0_r. unfold dput. rewrite did_eqb_refl. destruct r as [v|e]; cbn; eauto.
  - cbn [Nat.eqb Nat.ltb Nat.leb]. set (m := S (S n)). destruct r as [v|e].
    + destruct (R v eq_refl) as [X|(l & V & L)]; [lia|]. destruct (put_all l m 0 st v V) as (st' & E & Q & O & T); [lia|]. rewrite E. eexists _, _. split; [reflexivity|].
      split; [reflexivity|]. split; [exact Q|]. split; [exact O|]. intros k K. rewrite (T k K). cbn [Nat.add].
      destruct (nth_error l k) as [y|] eqn:Y; [|apply nth_error_None in Y; lia]. exists (Ret y). split; [|reflexivity].
      cbn [each]. change (m =? 1) with false. destruct V as [-> | ->]; rewrite nth_error_map, Y; reflexivity.
    + destruct (put_all (repeat (VExc e) m) m 0 st (VList (repeat (VExc e) m))) as (st' & E & Q & O & T); [now left|rewrite repeat_length; lia|]. rewrite E. eexists _, _. split; [reflexivity|].
      split; [reflexivity|]. split; [exact Q|]. split; [exact O|]. intros k K. rewrite (T k K). cbn [Nat.add]. rewrite nth_error_repeat by exact K.
      exists (Exn e). split; [|reflexivity]. cbn [each]. now rewrite nth_error_repeat by exact K.
Qed.

Lemma si_more p rs st st' x l : SI p rs st -> length rs = length p -> q_next st <= q_next st' -> (forall d, snd d < q_next st -> q_store st' d = q_store st d) ->
  (forall k d, nth_error l k = Some d -> fst d = 0 /\ snd d < q_next st' /\ exists r, nth_error (perform body (direct body p) x) k = Some r /\ q_store st' d = Some (stored r) /\ forall v, r = Ret v -> is_exc v = false) ->
  SI (p ++ [x]) (rs ++ [l]) st'.
Proof.
  intros S0 Le Q O H c i d R. rewrite direct_snoc. apply ref_cases in R as [[L R]|[-> R]].
  - destruct (S0 c i d R) as (A & B & r & E & G & X). split; [exact A|]. split; [lia|]. exists r. rewrite result_old by (rewrite direct_length; lia). split; [exact E|]. split; [now rewrite O|exact X].
  - rewrite Le, <- (direct_length body p), result_new. exact (H i d R).
Qed.

Lemma seq_submits p : plain_functions body -> portable body p -> scoped p ->
  (forall f args kw n c i, In (CFun f args kw n) p -> In (AOut c i) (args ++ map snd kw) -> exists v, result_of (direct body p) c i = Some (Ret v)) ->
  exists ops st h rs, run qinit [] ops = (st, h) /\ legal h /\ plays p rs h /\ full p rs /\ SI p rs st.
Proof.
  intros Pf. induction p as [|x p IH] using rev_ind; intros Po Sc Fine.
  - exists [], qinit, [], []. split; [reflexivity|]. split; [exact I|]. split; [constructor|]. split; [constructor|]. intros c i d E. destruct c; discriminate E.
  - assert (Po' : portable body p) by (eapply portable_front; eauto). assert (Sc' : scoped p) by (eapply scoped_front; eauto).
    assert (Old : forall f args kw n c i, In (CFun f args kw n) (p ++ [x]) -> In (AOut c i) (args ++ map snd kw) -> c < length p -> exists v, result_of (direct body p) c i = Some (Ret v)).
    { intros f args kw n c i J K Lc. destruct (Fine f args kw n c i J K) as (v & V). rewrite direct_snoc, result_old in V by (rewrite direct_length; exact Lc). eauto. }
    destruct IH as (ops & st & h & rs & R & L & Pl & F & S0); auto.
    { intros f args kw n c i J K. apply (Old f args kw n c i); [apply in_or_app; auto|exact K|].
      apply in_split in J as (p1 & p2 & ->). destruct (Sc' p1 f args kw n p2 c i eq_refl K) as (y & N & _). assert (c < length p1) by (apply nth_error_Some; congruence). rewrite app_length. lia. }
    assert (Le := plays_length _ _ _ Pl). destruct x as [v|f args kw n].
    + assert (Pv : plain v) by (apply (proj1 Po), in_or_app; right; now left).
      eexists (ops ++ [QPut v]), _, _, (rs ++ [[(0, q_next st)]]). split; [rewrite run_snoc, R; cbn [qstep qput]; reflexivity|]. split; [|split; [|split]].
      * split; [intros d []|exact L].
      * now constructor.
      * now apply full_snoc.
      * apply (si_more p rs st); [exact S0|exact Le|cbn; lia| |].
        -- intros d D. cbn. unfold dput. destruct (did_eqb (0, q_next st) d) eqn:Z'; [apply did_eqb_eq in Z'; subst d; cbn in D; lia|].
           destruct (did_eqb d (0, q_next st)) eqn:Z; [apply did_eqb_eq in Z; subst d; cbn in D; lia|reflexivity].
        -- intros k d D. destruct k as [|[|k]]; cbn in D; try discriminate. injection D as <-. cbn. split; [reflexivity|]. split; [lia|]. exists (Ret v). split; [reflexivity|]. unfold dput. rewrite did_eqb_refl. split; [reflexivity|].
           intros w W. injection W as <-. apply Pv.
    + destruct (stand_call _ _ _ _ _ _ F Sc) as (vs & ks & Fa & Fk).
      assert (Pa := portable_args _ _ _ _ _ _ Po).
      assert (Fi : forall c i, In (AOut c i) (args ++ map snd kw) -> exists v, result_of (direct body p) c i = Some (Ret v)).
      { intros c i K. apply (Old f args kw n c i); [apply in_or_app; right; now left|exact K|]. destruct (scoped_last _ _ _ _ _ Sc c i K) as (y & N & _). apply nth_error_Some. congruence. }
      destruct (mat_args p rs st args vs S0 Fa) as (xs & M & K). { intros v J. apply Pa, in_or_app; auto. } { intros c i J. apply Fi, in_or_app; auto. }
      assert (Fk' : Forall2 (stands rs) (map snd kw) (map snd ks) /\ map fst ks = map fst kw).
      { clear - Fk. induction Fk as [|a b kw ks [E S0] F [I1 I2]]; cbn; [split; constructor|]. split; [constructor; auto|congruence]. }
      destruct Fk' as [Fk' Names].
      destruct (mat_args p rs st (map snd kw) (map snd ks) S0 Fk') as (ys & M' & K'). { intros v J. apply Pa, in_or_app; auto. } { intros c i J. apply Fi, in_or_app; auto. }
      set (r := body f xs (combine (map fst kw) ys)).
      assert (Rn : forall v, r = Ret v -> n <= 1 \/ exists l, (v = VList l \/ v = VTuple l) /\ length l = n).
      { intros v E. destruct Po as (_ & _ & P3). eapply P3; [apply in_or_app; right; now left|exact E]. }
      destruct (store_all st r n Rn) as (st' & out & E & Ro & Q & O & T).
      assert (Pe : perform body (direct body p) (CFun f args kw n) = each n r) by (unfold perform; rewrite K, K'; reflexivity).
      exists (ops ++ [QSubmit f vs ks n false]), st', ((QSubmit f vs ks n false, out) :: h), (rs ++ [refs_of out]).
      assert (Lo : length (refs_of out) = n) by (rewrite Ro, map_length, seq_length; reflexivity).
      split; [|split; [|split; [|split]]].
      * rewrite run_snoc, R. cbn [qstep]. rewrite M, M', Names. fold r. rewrite E. reflexivity.
      * split; [|exact L]. eapply known_call; eauto.
      * now constructor.
      * now apply full_snoc.
      * apply (si_more p rs st); [exact S0|exact Le|lia|exact O|]. rewrite Pe. intros k d D. rewrite Ro, nth_error_map in D.
        assert (Lk : k < n). { destruct (nth_error (seq (q_next st) n) k) eqn:Z; [|discriminate]. assert (k < length (seq (q_next st) n)) by (apply nth_error_Some; congruence). rewrite seq_length in H. exact H. }
        rewrite (nth_error_nth' (seq (q_next st) n) 0) in D by (rewrite seq_length; exact Lk). rewrite seq_nth in D by exact Lk. cbn in D. injection D as <-. cbn [fst snd].
        split; [reflexivity|]. split; [lia|]. destruct (T k Lk) as (y & Y & Z). exists y. split; [exact Y|]. split; [exact Z|].
        intros v ->. destruct r as [w|e] eqn:Er; cbn [each] in Y; [|rewrite nth_error_repeat in Y by exact Lk; discriminate].
        destruct (Pf _ _ _ _ Er) as (_ & X1 & X2). destruct (Nat.eqb_spec n 1) as [->|Dn].
        -- assert (k = 0) as -> by lia. cbn in Y. injection Y as ->. exact X1.
        -- destruct w; try (destruct k; discriminate); rewrite nth_error_map in Y; (destruct (nth_error l k) eqn:Nl; [|discriminate]); cbn in Y; injection Y as ->; (eapply X2; [eauto|eapply nth_error_In; eauto]).
Qed.
End Seq.

Theorem seq_done body prog : plain_functions body -> portable body prog -> scoped prog -> arguments_fine body prog ->
  forall c x i, nth_error prog c = Some x -> i < outs x -> exists r, shows_seq body prog c i r.
Proof.
  intros Pf Po Sc Af c x i N Li. destruct (seq_submits body prog Pf Po Sc) as (ops & st & h & rs & R & L & Pl & F & S0).
  { intros f args kw n c' i' J K. exact (Af f args kw n c' i' J K). }
  destruct (full_ref _ _ F _ _ _ N Li) as (d & D). destruct (S0 c i d D) as (_ & _ & r & E & Q & X).
  exists r, no_c, no_m, no_i, ops, st, h, rs, d. split; [|split; [exact R|split; [exact L|split; [exact Pl|split; [exact D|]]]]].
  - split.
    + intros f a k v B. destruct (Pf _ _ _ _ B) as (_ & X1 & X2). split; [exact X1|]. intros j y I. destruct v; try discriminate I; (eapply X2; [eauto|eapply nth_error_In; exact I]).
    + intros m s a k v s' B. discriminate B.
  - cbn [qstep snd]. destruct r as [v|e].
    + rewrite (get_stored st d v Q (X v eq_refl)). reflexivity.
    + cbn [qget]. rewrite Q. reflexivity.
Qed.
