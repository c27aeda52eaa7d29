(** C99, Dask: a program with actors can be run to its end with the results of direct execution. *)
From Verif Require Import Lib ValModel PyseqModel PyseqSpec PyseqProofs PortSpec PortHist PortShows PortDone ObjSpec ObjHist ObjDoneSpec ObjDone.
From Verif Require Import DaskRunModel.
From Verif Require DaskRunSpec DaskRunProofs PortDask PortDoneDask.

Section Dask.
Variable body : nat -> list val -> kwargs -> res.
Variable cbody : nat -> list val -> kwargs -> res.
Variable mbody : nat -> val -> list val -> kwargs -> res * val.
Notation d_i := PortDoneDask.d_i.
Notation step := (dstep (fun _ => body) (fun _ => cbody) (fun _ => mbody) d_i).
Notation run := (drun (fun _ => body) (fun _ => cbody) (fun _ => mbody) d_i).
Notation odir := (odirect body cbody mbody).

Lemma dsnoc ops o : run (ops ++ [o]) = step (run ops) o.
Proof. unfold drun. rewrite fold_left_app. reflexivity. Qed.

(** Legal runs in which a method is called only when every earlier call on this actor has a finished reference, if it returned one. *)
Inductive lg : list dop -> Prop :=
| lg_nil : lg []
| lg_call ops o : lg ops -> incl (DaskRunSpec.refs_in o) (d_held (run ops)) ->
    (forall a m args kw n, o = DCall a m args kw n -> a < length (d_actors (run ops)) /\
       forall m' args' kw' n' out, In (DCall a m' args' kw' n', out) (d_hist (run ops)) -> 0 < n' -> exists d, In d (DaskRunSpec.refs_out out) /\ dget (run ops) d <> None) ->
    lg (ops ++ [o]).

Lemma lg_legal ops : lg ops -> DaskRunSpec.legal (fun _ => body) (fun _ => cbody) (fun _ => mbody) d_i ops.
Proof. induction 1 as [|ops o L IH A B]; constructor; auto. intros a m args kw n E. apply (B a m args kw n E). Qed.

Lemma plays_meth p rs hs h a m vs ks n out : odplays p rs hs h -> In (DCall a m vs ks n, out) h ->
  exists c a' args kw, nth_error rs c = Some (DaskRunSpec.refs_out out) /\ nth_error p c = Some (TMeth a' m args kw n).
Proof.
  induction 1 as [|p rs hs h v d Pl IH|p rs hs h f args kw k vs' ks' out' Pl IH Fa Fk|p rs hs h k args kw x Pl IH|p rs hs h a0 x m0 args kw k vs' ks' out' Pl IH Hx Fa Fk]; intros I; [destruct I|..].
  all: assert (Ls : length p = length rs) by (clear - Pl; induction Pl; cbn; rewrite ?app_length; cbn; lia).
  all: apply in_app_or in I as [I|[I|[]]]; try discriminate.
  all: try (destruct (IH I) as (c & a' & args1 & kw1 & E1 & E2); exists c, a', args1, kw1; rewrite !nth_error_app1 by (apply nth_error_Some; congruence); auto; fail).
  injection I as <- <- <- <- <- <-. exists (length p), a0, args, kw. rewrite Ls at 1. rewrite !nth_error_app2, !Nat.sub_diag by auto. auto.
Qed.

Definition sched (o : dop) : Prop := DaskRunSpec.refs_in o = [] /\ forall a m args kw n, o <> DCall a m args kw n.
Lemma lg_sched ops o : lg ops -> sched o -> lg (ops ++ [o]).
Proof. intros L [A B]. constructor; [exact L|rewrite A; intros x []|]. intros a m args kw n E. elim (B _ _ _ _ _ E). Qed.

(** ** What the arguments give *)
Definition stored (rs : list (list dataid)) (env : list (list res)) (st : dst) : Prop :=
  forall c i d, ref_at rs c i = Some d -> exists r, result_of env c i = Some r /\ d_fin st d = Some (Fin r).

Lemma list_outcome rs env st args vs : stored rs env st -> Forall2 (stands rs) args vs -> (forall v, In (AVal v) args -> plain v) ->
  (all_ok (map (arg_result env) args) = Some (inl (map (subst (value st)) vs)) /\ forall x, In x (flat_map refs vs) -> finished_well st x = true) \/
  exists e x, all_ok (map (arg_result env) args) = Some (inr e) /\ In x (flat_map refs vs) /\ d_fin st x = Some (Fin (Exn e)).
Proof.
  intros St F. induction F as [|a v args vs S0 F IH]; intros P; [left; split; [reflexivity|intros x []]|].
  specialize (IH (fun w I => P w (or_intror I))). destruct a as [w|c i]; cbn in S0.
  - subst v. assert (Pw : refs w = []) by (apply P; now left). cbn. rewrite Pw, (PortDask.subst_plain (value st) w Pw). cbn. destruct IH as [[-> B]|(e & x & -> & B)]; [left; auto|right; eauto].
  - destruct S0 as (d & R & ->). destruct (St c i d R) as (r & E & D). cbn. rewrite E. destruct r as [w|e].
    + assert (V : value st d = w) by (unfold value; now rewrite D). destruct IH as [[-> B]|(e & x & -> & I & B)].
      * left. rewrite V. split; [reflexivity|]. intros x [<-|I]; [unfold finished_well; now rewrite D|auto].
      * right. exists e, x. auto.
    + right. exists e, d. auto.
Qed.

Lemma fst_same rs kw ks : Forall2 (stands_kw rs) kw ks -> map fst kw = map fst ks.
Proof. induction 1 as [|x y kw ks [E _] F IH]; cbn; [reflexivity|]. now rewrite E, IH. Qed.
Lemma snd_stands rs kw ks : Forall2 (stands_kw rs) kw ks -> Forall2 (stands rs) (map snd kw) (map snd ks).
Proof. induction 1 as [|x y kw ks [_ E] F IH]; cbn; constructor; auto. Qed.
Lemma fill_combine s (ks : kwargs) : combine (map fst ks) (map (subst s) (map snd ks)) = fill_kw s ks.
Proof. induction ks as [|[k v] ks IH]; cbn; [reflexivity|]. unfold fill_kw in IH. now rewrite IH. Qed.
Lemma kw_refs (ks : kwargs) : flat_map (fun kv : nat * val => refs (snd kv)) ks = flat_map refs (map snd ks).
Proof. induction ks as [|[k v] ks IH]; cbn; [reflexivity|]. now rewrite IH. Qed.

Lemma outcome rs env st args kw vs ks : stored rs env st -> Forall2 (stands rs) args vs -> Forall2 (stands_kw rs) kw ks ->
  (forall v, In (AVal v) (args ++ map snd kw) -> plain v) ->
  (exists K, all_ok (map (arg_result env) args) = Some (inl (fill (value st) vs)) /\ all_ok (map (arg_result env) (map snd kw)) = Some (inl K) /\
             combine (map fst kw) K = fill_kw (value st) ks /\ forallb (finished_well st) (arg_refs vs ks) = true) \/
  exists e x, In x (arg_refs vs ks) /\ d_fin st x = Some (Fin (Exn e)) /\
    (all_ok (map (arg_result env) args) = Some (inr e) \/
     exists l, all_ok (map (arg_result env) args) = Some (inl l) /\ all_ok (map (arg_result env) (map snd kw)) = Some (inr e)).
Proof.
  intros St Fa Fk P. unfold arg_refs. rewrite kw_refs.
  destruct (list_outcome rs env st args vs St Fa) as [[A A']|(e & x & A & I & D)]; [intros v I; apply P, in_or_app; now left| |].
  - destruct (list_outcome rs env st (map snd kw) (map snd ks) St (snd_stands _ _ _ Fk)) as [[B B']|(e & x & B & I & D)]; [intros v I; apply P, in_or_app; now right| |].
    + left. exists (map (subst (value st)) (map snd ks)). split; [exact A|]. split; [exact B|]. split; [rewrite (fst_same _ _ _ Fk); apply fill_combine|].
      apply forallb_forall. intros x I. apply in_app_or in I as [I|I]; auto.
    + right. exists e, x. split; [apply in_or_app; now right|]. split; [exact D|]. right. eauto.
  - right. exists e, x. split; [apply in_or_app; now left|]. split; [exact D|]. now left.
Qed.

(** ** Running the task of a call *)
Lemma fails st d j x e : d_job st d = Some j -> In x (deps j) -> d_fin st x = Some (Fin (Exn e)) -> step st (DFail d x) = finish st d (Fin (Exn e)) (d_actors st) [].
Proof. intros J I D. cbn [dstep]. rewrite J, D, (proj2 (did_in_In _ _) I). reflexivity. Qed.

Lemma prim_fun rs env st d c f args kw vs ks n : stored rs env st -> Forall2 (stands rs) args vs -> Forall2 (stands_kw rs) kw ks ->
  (forall v, In (AVal v) (args ++ map snd kw) -> plain v) -> d_job st d = Some (JFun c f vs ks) ->
  exists o R log, sched o /\ step st o = finish st d (Fin R) (d_actors st) log /\ perform body env (CFun f args kw n) = each n R /\ ((exists e, R = Exn e) \/ exists a b, R = body f a b).
Proof.
  intros St Fa Fk P J. cbn [perform]. destruct (outcome rs env st args kw vs ks St Fa Fk P) as [(K & -> & -> & -> & W)|(e & x & I & D & A)].
  - exists (DRun d), (body f (fill (value st) vs) (fill_kw (value st) ks)), [(c, RFun f (fill (value st) vs) (fill_kw (value st) ks))].
    split; [split; [reflexivity|discriminate]|]. split; [cbn [dstep]; rewrite J; cbn [deps]; rewrite W; reflexivity|]. split; [reflexivity|eauto].
  - exists (DFail d x), (Exn e), []. split; [split; [reflexivity|discriminate]|]. split; [exact (fails st d _ x e J I D)|]. split; [|eauto]. destruct A as [->|(l & -> & ->)]; reflexivity.
Qed.

Lemma prim_meth rs env st d c a m s args kw vs ks n : stored rs env st -> Forall2 (stands rs) args vs -> Forall2 (stands_kw rs) kw ks ->
  (forall v, In (AVal v) (args ++ map snd kw) -> plain v) -> d_job st d = Some (JMeth c a m vs ks) -> nth_error (d_actors st) a = Some s ->
  exists o R F acts log, sched o /\ step st o = finish st d F acts log /\ (F = Fut R \/ exists e, R = Exn e /\ F = Fin R) /\
    operform body cbody mbody (env, d_actors st) (TMeth a m args kw n) = (env ++ [each n R], acts) /\ ((exists e, R = Exn e) \/ exists x y z, R = fst (mbody m x y z)) /\
    length acts = length (d_actors st).
Proof.
  intros St Fa Fk P J S0. cbn [operform]. rewrite S0. destruct (outcome rs env st args kw vs ks St Fa Fk P) as [(K & -> & -> & -> & W)|(e & x & I & D & A)].
  - destruct (mbody m s (fill (value st) vs) (fill_kw (value st) ks)) as [r s'] eqn:M. exists (DRun d), r, (Fut r), (set_at (d_actors st) a s'), [(c, RMeth a m (fill (value st) vs) (fill_kw (value st) ks))].
    split; [split; [reflexivity|discriminate]|]. split; [cbn [dstep]; rewrite J; cbn [deps]; rewrite W; cbn [run_job]; rewrite S0, M; unfold replace; rewrite S0; reflexivity|]. split; [auto|]. split; [reflexivity|].
    split; [right; exists s, (fill (value st) vs), (fill_kw (value st) ks); now rewrite M|].
    unfold set_at. assert (La : a < length (d_actors st)) by (apply nth_error_Some; congruence). rewrite app_length, firstn_length. cbn [length]. rewrite skipn_length. lia.
  - exists (DFail d x), (Exn e), (Fin (Exn e)), (d_actors st), []. split; [split; [reflexivity|discriminate]|]. split; [exact (fails st d _ x e J I D)|]. split; [eauto|]. split; [|split; eauto].
    destruct A as [->|(l & -> & ->)]; reflexivity.
Qed.

(** ** The tasks that take the results apart *)
Definition sub_ok (st : dst) (j : job) (R : res) : Prop :=
  match j with
  | JItem s _ => d_fin st s = Some (Fin R)
  | JResult s | JResultItem s _ => d_fin st s = Some (Fut R) \/ exists e, R = Exn e /\ d_fin st s = Some (Fin R)
  | _ => False
  end.
Definition sub_val (j : job) (R : res) : res :=
  match R with Exn e => Exn e | Ret v => match j with JItem _ k | JResultItem _ k => d_i v k | _ => Ret v end end.

Lemma sub_step st d j R : d_job st d = Some j -> sub_ok st j R -> exists o, sched o /\ step st o = finish st d (Fin (sub_val j R)) (d_actors st) [].
Proof.
  intros J Ok. assert (Run : forall st', step st (DRun d) = st' -> exists o, sched o /\ step st o = st') by (intros st' E; exists (DRun d); split; [split; [reflexivity|discriminate]|exact E]).
  assert (Fl : forall x e, In x (deps j) -> d_fin st x = Some (Fin (Exn e)) -> exists o, sched o /\ step st o = finish st d (Fin (Exn e)) (d_actors st) []).
  { intros x e I D. exists (DFail d x). split; [split; [reflexivity|discriminate]|]. exact (fails st d j x e J I D). }
  destruct j as [| s k| | s | s k]; cbn in Ok; try contradiction.
  - destruct R as [v|e]; [|apply (Fl s e); [now left|exact Ok]]. apply Run. cbn [dstep]. rewrite J. cbn [deps forallb]. unfold finished_well. rewrite Ok. cbn. unfold value. now rewrite Ok.
  - destruct Ok as [H|(e & -> & D)]; [|apply (Fl s e); [now left|exact D]].
    destruct R as [v|e]; apply Run; cbn [dstep]; rewrite J; cbn [deps forallb]; unfold finished_well; rewrite H; cbn; now rewrite H.
  - destruct Ok as [H|(e & -> & D)]; [|apply (Fl s e); [now left|exact D]].
    destruct R as [v|e]; apply Run; cbn [dstep]; rewrite J; cbn [deps forallb]; unfold finished_well; rewrite H; cbn; now rewrite H.
Qed.

Lemma subs R : forall (l : list (dataid * job)) ops, lg ops -> NoDup (map fst l) ->
  (forall d j, In (d, j) l -> d_job (run ops) d = Some j /\ sub_ok (run ops) j R /\ forall s, In s (deps j) -> ~ In s (map fst l)) ->
  exists ops', lg ops' /\ d_held (run ops') = d_held (run ops) /\ d_hist (run ops') = d_hist (run ops) /\ d_actors (run ops') = d_actors (run ops) /\
    d_next (run ops') = d_next (run ops) /\ (forall d j, In (d, j) l -> d_fin (run ops') d = Some (Fin (sub_val j R))) /\
    (forall x, ~ In x (map fst l) -> d_fin (run ops') x = d_fin (run ops) x).
Proof.
  induction l as [|[d j] l IH]; intros ops L N H.
  - exists ops. repeat split; auto. intros d j [].
  - destruct (H d j (or_introl eq_refl)) as (J & O & Nd). destruct (sub_step _ _ _ _ J O) as (o & Sc & E). rewrite <- dsnoc in E. inversion N as [|? ? N1 N2]; subst. cbn [map fst] in *.
    destruct (IH (ops ++ [o]) (lg_sched _ _ L Sc) N2) as (ops' & B1 & B2 & B3 & B4 & B5 & B6 & B7).
    { intros d' j' I'. destruct (H d' j' (or_intror I')) as (J' & O' & Nd'). assert (Dd : d <> d') by (intros ->; apply N1; apply in_map_iff; exists (d', j'); auto).
      split; [|split].
      - rewrite E. cbn. unfold ddel. destruct (did_eqb d d') eqn:Q; [apply did_eqb_eq in Q; contradiction|exact J'].
      - assert (Fs : forall s, In s (deps j') -> d_fin (run (ops ++ [o])) s = d_fin (run ops) s).
        { intros s I. rewrite E. cbn. unfold dput. destruct (did_eqb d s) eqn:Q; [|reflexivity]. apply did_eqb_eq in Q. subst s. elim (Nd' d I). now left. }
        destruct j' as [| s k| | s | s k]; cbn [sub_ok] in O' |- *; try contradiction; rewrite (Fs s) by (cbn; auto); exact O'.
      - intros s I K. apply (Nd' s I). now right. }
    exists ops'. rewrite E in B2, B3, B4, B5. split; [exact B1|]. split; [exact B2|]. split; [exact B3|]. split; [exact B4|]. split; [exact B5|]. split.
    + intros d' j' [I|I]; [|now apply B6]. injection I as <- <-. rewrite B7 by exact N1. rewrite E. cbn. unfold dput. now rewrite did_eqb_refl.
    + intros x Nx. rewrite B7 by (intros I; apply Nx; now right). rewrite E. cbn. unfold dput. destruct (did_eqb d x) eqn:Q; [|reflexivity]. apply did_eqb_eq in Q. elim Nx. now left.
Qed.

(** ** The program *)
Record OD (p : list ocall) (rs : list (list dataid)) (ops : list dop) : Prop := {
  od_lg : lg ops;
  od_plays : odplays p rs (seq 0 (makes p)) (d_hist (run ops));
  od_full : ofull p rs;
  od_env : length (fst (odir p)) = length p;
  od_objs : length (snd (odir p)) = makes p;
  od_acts : d_actors (run ops) = snd (odir p);
  od_ref : forall c i d, ref_at rs c i = Some d -> In d (d_held (run ops)) /\ snd d < d_next (run ops) /\
           exists r, result_of (fst (odir p)) c i = Some r /\ d_fin (run ops) d = Some (Fin r)
}.

Lemma ofull_length p rs : ofull p rs -> length p = length rs.
Proof. induction 1; cbn; auto. Qed.

Lemma od_more p rs ops x l row ops' : OD p rs ops -> lg ops' -> odplays (p ++ [x]) (rs ++ [l]) (seq 0 (makes (p ++ [x]))) (d_hist (run ops')) ->
  length l = oouts x -> fst (odir (p ++ [x])) = fst (odir p) ++ [row] -> length (snd (odir (p ++ [x]))) = makes (p ++ [x]) -> d_actors (run ops') = snd (odir (p ++ [x])) ->
  (forall d, In d (l ++ d_held (run ops)) -> In d (d_held (run ops'))) -> d_next (run ops) <= d_next (run ops') ->
  (forall d, snd d < d_next (run ops) -> d_fin (run ops') d = d_fin (run ops) d) ->
  (forall k d, nth_error l k = Some d -> snd d < d_next (run ops') /\ exists r, nth_error row k = Some r /\ d_fin (run ops') d = Some (Fin r)) ->
  OD (p ++ [x]) (rs ++ [l]) ops'.
Proof.
  intros [A1 A2 A3 A4 A5 A6 A7] B1 B2 B3 B4 B5 B6 B7 B8 B9 B10. split; auto.
  - now apply ofull_snoc.
  - rewrite B4, !app_length. cbn. lia.
  - intros c i d R. assert (Lr : length rs = length p) by (symmetry; now apply ofull_length). rewrite B4. unfold result_of. apply ref_cases in R as [[Lc R]|[-> R]].
    + destruct (A7 c i d R) as (C1 & C2 & r & C3 & C4). split; [apply B7, in_or_app; now right|]. split; [lia|]. exists r. rewrite nth_error_app1 by lia. split; [exact C3|]. now rewrite B9.
    + destruct (B10 i d R) as (C1 & r & C2 & C3). split; [apply B7, in_or_app; left; eapply nth_error_In; eauto|]. split; [exact C1|]. exists r. rewrite Lr, <- A4, nth_error_app2, Nat.sub_diag by lia. cbn. auto.
Qed.

Lemma each_at n R k s (mk : nat -> job) : enough n R -> 1 < n -> k < n -> (mk = JItem s \/ mk = JResultItem s) -> nth_error (each n R) k = Some (sub_val (mk k) R).
Proof.
  intros En N L M. destruct R as [v|e]; cbn [each].
  - destruct (En v eq_refl) as [X|(l & V & Ll)]; [lia|]. destruct (Nat.eqb_spec n 1); [lia|]. destruct (nth_error l k) as [y|] eqn:Y; [|apply nth_error_None in Y; lia].
    assert (Z : d_i v k = Ret y) by (destruct V as [-> | ->]; cbn; now rewrite Y).
    replace (sub_val (mk k) (Ret v)) with (Ret y) by (destruct M as [-> | ->]; cbn [sub_val]; now rewrite Z).
    destruct V as [-> | ->]; rewrite nth_error_map, Y; reflexivity.
  - destruct M as [-> | ->]; cbn [sub_val]; apply nth_error_repeat; exact L.
Qed.

Lemma seq_at n a : a < n -> nth_error (seq 0 n) a = Some a.
Proof. intros L. rewrite (nth_error_nth' _ 0) by (rewrite seq_length; exact L). now rewrite seq_nth. Qed.

Lemma ids_shift a n : map (fun k => (0, a + k)) (seq 0 n) = map (fun k => (0, k)) (seq a n).
Proof. revert a. induction n as [|n IH]; intros a; cbn [seq map]; [reflexivity|]. rewrite Nat.add_0_r. f_equal. rewrite <- (IH (S a)), <- seq_shift, map_map. apply map_ext. intros k. f_equal. lia. Qed.

Lemma in_ids a n d : In d (map (fun k => (0, k)) (seq a n)) -> exists k, d = (0, k) /\ a <= k < a + n.
Proof. intros I. apply in_map_iff in I as (k & <- & I). apply in_seq in I. eauto. Qed.

Lemma odask_submits p : oportable body cbody mbody p -> oscoped p -> exists ops rs, OD p rs ops.
Proof.
  induction p as [|x p IH] using rev_ind; intros Po Sc.
  - exists [], []. split; [constructor|constructor|constructor|reflexivity|reflexivity|reflexivity|]. intros c i d E. destruct c; discriminate E.
  - destruct IH as (ops & rs & D); [eapply oportable_front; eauto|eapply oscoped_front; eauto|]. assert (D' := D). destruct D' as [A1 A2 A3 A4 A5 A6 A7].
    assert (Pv := oargs_plain _ _ _ _ _ Po). destruct (oscoped_last _ _ Sc) as [S1 S2].
    destruct (odir p) as [env objs] eqn:Od. cbn [fst snd] in *. assert (On := odirect_snoc body cbody mbody p x). rewrite Od in On.
    assert (St : stored rs env (run ops)) by (intros c i d R; destruct (A7 c i d R) as (_ & _ & r & H1 & H2); eauto).
    set (st := run ops) in *. set (N := d_next st) in *.
    destruct x as [v|f args kw n|k args kw|a m args kw n].
    + (* put *)
      exists (ops ++ [DPut v]), (rs ++ [[(0, N)]]). apply (od_more p rs ops _ _ [Ret v] _ D); rewrite ?dsnoc; fold st; cbn [dstep hand_out d_hist d_held d_actors d_next d_fin app].
      * constructor; [exact A1|intros y []|discriminate].
      * rewrite makes_snoc, Nat.add_0_r. now constructor.
      * reflexivity.
      * rewrite On, Od. reflexivity.
      * rewrite On, makes_snoc. cbn. lia.
      * rewrite On. exact A6.
      * auto.
      * lia.
      * intros d L. unfold dput. destruct (did_eqb (0, d_next st) d) eqn:Q; [|reflexivity]. apply did_eqb_eq in Q. subst d. cbn in L. fold N in L. lia.
      * intros [|k] d E; [|destruct k; discriminate]. injection E as <-. split; [cbn; fold N; lia|]. exists (Ret v). split; [reflexivity|]. unfold dput. fold N. now rewrite did_eqb_refl.
    + (* a function *)
      destruct (ostand p rs args kw A3 S1) as (vs & ks & Fa & Fk).
      assert (L1 : lg (ops ++ [DSubmit f vs ks n false])).
      { constructor; [exact A1| |discriminate]. intros y I. fold st. cbn in I. unfold arg_refs in I. rewrite kw_refs in I. apply in_app_or in I as [I|I].
        - destruct (stands_refs _ _ _ y Fa) as (c & i & _ & R); auto; [intros w J; apply Pv, in_or_app; now left|]. now apply (A7 c i y R).
        - destruct (stands_kw_refs _ _ _ y Fk) as (c & i & _ & R); auto; [intros w J; apply Pv, in_or_app; now right|]. now apply (A7 c i y R). }
      assert (En : forall R, ((exists e, R = Exn e) \/ exists a b, R = body f a b) -> enough n R).
      { intros R [(e & ->)|(a & b & ->)]; [intros v X; discriminate|]. destruct Po as (_ & _ & _ & P4 & _). eapply P4. apply in_or_app. right. now left. }
      set (jb := JFun (length (d_hist st)) f vs ks). set (ops1 := ops ++ [DSubmit f vs ks n false]) in *. assert (R1 : run ops1 = step st (DSubmit f vs ks n false)) by apply dsnoc.
      cbn [dstep] in R1. fold jb N in R1. destruct (Nat.eqb_spec n 1) as [->|N1]; [|destruct (Nat.ltb_spec 1 n) as [N2|N2]].
      * assert (Jb : d_job (run ops1) (0, N) = Some jb) by (rewrite R1; cbn; unfold dput; fold N; now rewrite did_eqb_refl).
        assert (St1 : stored rs env (run ops1)) by (rewrite R1; exact St).
        destruct (prim_fun rs env _ _ _ _ _ _ _ _ 1 St1 Fa Fk Pv Jb) as (o & R & log & So & E & Pf & Ro). rewrite <- dsnoc in E.
        exists (ops1 ++ [o]), (rs ++ [[(0, N)]]). apply (od_more p rs ops _ _ [R] _ D); rewrite ?E, ?R1; fold st; cbn [hand_out submit finish d_hist d_held d_actors d_next d_fin app]; fold N.
        -- apply lg_sched; assumption.
        -- rewrite makes_snoc, Nat.add_0_r. exact (OD_fun p rs _ _ f args kw 1 vs ks (DRef (0, N)) A2 Fa Fk).
        -- reflexivity.
        -- rewrite On, Od. cbn [operform fst]. rewrite Pf. destruct R; reflexivity.
        -- rewrite On, makes_snoc. cbn [operform snd]. lia.
        -- rewrite On. exact A6.
        -- auto.
        -- lia.
        -- intros d L. unfold dput. destruct (did_eqb (0, N) d) eqn:Q; [|reflexivity]. apply did_eqb_eq in Q. subst d. cbn in L. lia.
        -- intros [|k] d X; [|destruct k; discriminate]. injection X as <-. split; [cbn; lia|]. exists R. split; [reflexivity|]. unfold dput. now rewrite did_eqb_refl.
      * destruct (submit_many (submit st jb) (JItem (0, N)) 0 n) as [st2 l] eqn:Em.
        pose proof (DaskRunProofs.many_spec (JItem (0, N)) n (submit st jb) 0) as Ms. rewrite Em in Ms. cbn [fst snd] in Ms. destruct Ms as (M1 & M2 & M3 & M4 & M5 & M6 & _ & M8).
        cbn [submit d_next d_fin d_held d_hist d_job d_actors] in M1, M2, M3, M4, M5, M6, M8. fold N in M1, M2, M8.
        assert (Jf : d_job (run ops1) (0, N) = Some jb).
        { rewrite R1. cbn [hand_out d_job]. rewrite M8. cbn [fst snd]. destruct (Nat.leb_spec (S N) N); [lia|]. rewrite andb_false_r. cbn. unfold dput. now rewrite did_eqb_refl. }
        assert (Ji : forall k, k < n -> d_job (run ops1) (0, S N + k) = Some (JItem (0, N) k)).
        { intros k K. rewrite R1. cbn [hand_out d_job]. rewrite M8. cbn [fst snd]. destruct (Nat.leb_spec (S N) (S N + k)); [|lia].
          destruct (Nat.ltb_spec (S N + k) (S N + n)); [|lia]. cbn [Nat.eqb andb]. do 2 f_equal. lia. }
        assert (St1 : stored rs env (run ops1)) by (rewrite R1; intros c i d X; cbn [hand_out d_fin]; rewrite M3; now apply St).
        destruct (prim_fun rs env _ _ _ _ _ _ _ _ n St1 Fa Fk Pv Jf) as (o & R & log & So & E & Pf & Ro). rewrite <- dsnoc in E. specialize (En R Ro).
        set (sl := map (fun k => ((0, S N + k), JItem (0, N) k)) (seq 0 n)).
        assert (Ms : map (@fst dataid job) sl = l). { unfold sl. rewrite map_map. cbn [fst]. rewrite M1. apply ids_shift. }
        assert (Lin : forall d, In d l -> exists k, k < n /\ d = (0, S N + k)). { intros d I. rewrite M1 in I. apply in_ids in I as (k & -> & K). exists (k - S N). split; [lia|f_equal; lia]. }
        destruct (subs R sl (ops1 ++ [o])) as (ops' & B1 & B2 & B3 & B4 & B5 & B6 & B7).
        { apply lg_sched; assumption. }
        { rewrite Ms, M1. apply PortDoneDask.nodup_ids. }
        { intros d j I. unfold sl in I. apply in_map_iff in I as (k & X & I). injection X as <- <-. apply in_seq in I. rewrite Ms, E. cbn [finish d_job d_fin sub_ok deps]. unfold ddel, dput. split; [|split].
          - destruct (did_eqb (0, N) (0, S (N + k))) eqn:Q; [apply did_eqb_eq in Q; injection Q; lia|]. apply (Ji k). lia.
          - now rewrite did_eqb_refl.
          - intros s [<-|[]] X. apply Lin in X as (q & _ & X). injection X. lia. }
        rewrite E in B2, B3, B4, B5. rewrite R1 in B2, B3, B4, B5. cbn [hand_out finish d_hist d_held d_actors d_next] in B2, B3, B4, B5. rewrite M4 in B2. rewrite M6 in B3. rewrite M5 in B4. rewrite M2 in B5.
        assert (Ll : length l = n) by (rewrite M1, map_length, seq_length; reflexivity).
        exists ops', (rs ++ [l]). apply (od_more p rs ops _ _ (each n R) _ D); rewrite ?B2, ?B3, ?B4, ?B5; fold st; fold N.
        -- exact B1.
        -- rewrite makes_snoc, Nat.add_0_r. exact (OD_fun p rs _ _ f args kw n vs ks (DRefs l) A2 Fa Fk).
        -- exact Ll.
        -- rewrite On, Od. cbn [operform fst]. now rewrite Pf.
        -- rewrite On, makes_snoc. cbn [operform snd]. lia.
        -- rewrite On. exact A6.
        -- auto.
        -- lia.
        -- intros d L. rewrite B7, E, R1; [|rewrite Ms; intros I; apply Lin in I as (q & _ & ->); cbn in L; lia]. cbn [hand_out finish d_fin]. rewrite M3. unfold dput. destruct (did_eqb (0, N) d) eqn:Q; [|reflexivity]. apply did_eqb_eq in Q. subst d. cbn in L. lia.
        -- intros k d X. assert (K : k < n) by (rewrite <- Ll; apply nth_error_Some; congruence). assert (Dk : d = (0, S N + k)).
           { rewrite M1 in X. rewrite nth_error_map in X. destruct (nth_error (seq (S N) n) k) as [q|] eqn:Q; [|discriminate]. injection X as <-. rewrite (nth_error_nth' _ 0) in Q by (rewrite seq_length; exact K). rewrite seq_nth in Q by exact K. now injection Q as <-. }
           split; [rewrite Dk; cbn; lia|]. exists (sub_val (JItem (0, N) k) R). split; [apply (each_at n R k (0, N) (JItem (0, N))); auto|]. apply B6. unfold sl. apply in_map_iff. exists k. split; [now rewrite Dk|apply in_seq; lia].
      * assert (n = 0) as -> by lia. exists ops1, (rs ++ [[]]). apply (od_more p rs ops _ _ (perform body env (CFun f args kw 0)) _ D); rewrite ?R1; fold st; cbn [hand_out submit d_hist d_held d_actors d_next d_fin app]; fold N.
        -- exact L1.
        -- rewrite makes_snoc, Nat.add_0_r. exact (OD_fun p rs _ _ f args kw 0 vs ks DNone A2 Fa Fk).
        -- reflexivity.
        -- rewrite On, Od. reflexivity.
        -- rewrite On, makes_snoc. cbn [operform snd]. lia.
        -- rewrite On. exact A6.
        -- auto.
        -- lia.
        -- reflexivity.
        -- intros k d X. destruct k; discriminate.
    + (* an actor *)
      assert (Cb : exists s, cbody k args kw = Ret s). { destruct Po as (_ & _ & _ & _ & _ & P6). apply P6. apply in_or_app. right. now left. }
      destruct Cb as (s & Cb). exists (ops ++ [DActor k args kw false]), (rs ++ [[]]).
      assert (R1 : run (ops ++ [DActor k args kw false]) = step st (DActor k args kw false)) by apply dsnoc. cbn [dstep] in R1. rewrite Cb in R1.
      apply (od_more p rs ops _ _ [] _ D); rewrite ?R1; fold st; cbn [hand_out d_hist d_held d_actors d_next d_fin app]; fold N.
      * constructor; [exact A1|intros y []|discriminate].
      * rewrite makes_snoc, Nat.add_1_r, seq_S. cbn [Nat.add]. rewrite A6, A5. now constructor.
      * reflexivity.
      * rewrite On, Od. cbn [operform fst]. reflexivity.
      * rewrite On, makes_snoc. cbn [operform snd]. rewrite Cb, app_length. cbn. lia.
      * rewrite On. cbn [operform snd]. rewrite Cb, A6. reflexivity.
      * auto.
      * lia.
      * reflexivity.
      * intros q d X. destruct q; discriminate.
    + (* a method *)
      destruct (ostand p rs args kw A3 S1) as (vs & ks & Fa & Fk). assert (La : a < makes p) by (apply (S2 a m args kw n eq_refl)).
      assert (L1 : lg (ops ++ [DCall a m vs ks n])).
      { constructor; [exact A1| |].
        - intros y I. fold st. cbn in I. unfold arg_refs in I. rewrite kw_refs in I. apply in_app_or in I as [I|I].
          + destruct (stands_refs _ _ _ y Fa) as (c & i & _ & R); auto; [intros w J; apply Pv, in_or_app; now left|]. now apply (A7 c i y R).
          + destruct (stands_kw_refs _ _ _ y Fk) as (c & i & _ & R); auto; [intros w J; apply Pv, in_or_app; now right|]. now apply (A7 c i y R).
        - intros a' m' args' kw' n' X. injection X as <- _ _ _ _. fold st. split; [rewrite A6; lia|]. intros m2 args2 kw2 n2 out2 I2 L2.
          destruct (plays_meth _ _ _ _ _ _ _ _ _ _ A2 I2) as (c & a2 & args3 & kw3 & E1 & E2). destruct (ofull_ref _ _ A3 _ _ 0 E2 L2) as (d & R). exists d.
          split; [unfold ref_at in R; rewrite E1 in R; eapply nth_error_In; eauto|]. destruct (A7 _ _ _ R) as (_ & _ & r & _ & F). unfold dget. rewrite F. discriminate. }
      assert (Sa : exists s, nth_error (d_actors st) a = Some s). { destruct (nth_error (d_actors st) a) eqn:X; [eauto|]. apply nth_error_None in X. rewrite A6 in X. lia. }
      destruct Sa as (s & Sa).
      assert (En : forall R, ((exists e, R = Exn e) \/ exists x y z, R = fst (mbody m x y z)) -> enough n R).
      { intros R [(e & ->)|(x & y & z & ->)]; [intros v X; discriminate|]. destruct Po as (_ & _ & _ & _ & P5 & _). eapply P5. apply in_or_app. right. now left. }
      set (jb := JMeth (length (d_hist st)) a m vs ks). set (ops1 := ops ++ [DCall a m vs ks n]) in *. assert (R1 : run ops1 = step st (DCall a m vs ks n)) by apply dsnoc.
      cbn [dstep] in R1. fold jb N in R1. change (d_next (submit st jb)) with (S N) in R1. destruct (Nat.eqb_spec n 1) as [->|N1]; [|destruct (Nat.ltb_spec 1 n) as [N2|N2]].
      * assert (Jb : d_job (run ops1) (0, N) = Some jb).
        { rewrite R1. cbn. unfold dput. fold N. destruct (did_eqb (0, S N) (0, N)) eqn:Q; [apply did_eqb_eq in Q; injection Q; lia|]. now rewrite did_eqb_refl. }
        assert (Jr : d_job (run ops1) (0, S N) = Some (JResult (0, N))) by (rewrite R1; cbn; unfold dput; fold N; now rewrite did_eqb_refl).
        assert (St1 : stored rs env (run ops1)) by (rewrite R1; exact St).
        assert (Sa1 : nth_error (d_actors (run ops1)) a = Some s) by (rewrite R1; exact Sa).
        destruct (prim_meth rs env _ _ _ _ _ _ _ _ _ _ 1 St1 Fa Fk Pv Jb Sa1) as (o & R & F & acts & log & So & E & HF & Op & Ro & Lc). rewrite <- dsnoc in E.
        assert (Ac : d_actors (run ops1) = objs) by (rewrite R1; exact A6). rewrite Ac in Op, Lc.
        destruct (subs R [((0, S N), JResult (0, N))] (ops1 ++ [o])) as (ops' & B1 & B2 & B3 & B4 & B5 & B6 & B7).
        { apply lg_sched; assumption. }
        { repeat constructor. intros []. }
        { intros d j [I|[]]. injection I as <- <-. rewrite E. cbn [finish d_job d_fin sub_ok deps map fst]. unfold ddel, dput. split; [|split].
          - destruct (did_eqb (0, N) (0, S N)) eqn:Q; [apply did_eqb_eq in Q; injection Q; lia|exact Jr].
          - rewrite did_eqb_refl. destruct HF as [->|(e & -> & ->)]; eauto.
          - intros q [<-|[]] [X|[]]. injection X. lia. }
        rewrite E in B2, B3, B4, B5. rewrite R1 in B2, B3, B5. cbn [hand_out submit finish d_hist d_held d_actors d_next app] in B2, B3, B4, B5. fold N in B5.
        exists ops', (rs ++ [[(0, S N)]]). apply (od_more p rs ops _ _ (each 1 R) _ D); rewrite ?B2, ?B3, ?B4, ?B5; fold st; fold N.
        -- exact B1.
        -- rewrite makes_snoc, Nat.add_0_r. apply (OD_meth p rs _ _ a a m args kw 1 vs ks (DRef (0, S N)) A2); auto. now apply seq_at.
        -- reflexivity.
        -- rewrite On, Od, Op. reflexivity.
        -- rewrite On, makes_snoc, Op. cbn [snd]. lia.
        -- rewrite On, Op. reflexivity.
        -- auto.
        -- lia.
        -- intros d L. rewrite B7, E, R1; [|cbn; intros [<-|[]]; cbn in L; lia]. cbn [hand_out submit finish d_fin]. unfold dput. destruct (did_eqb (0, N) d) eqn:Q; [|reflexivity]. apply did_eqb_eq in Q. subst d. cbn in L. lia.
        -- intros [|k] d X; [|destruct k; discriminate]. injection X as <-. split; [cbn; lia|]. exists R. split; [destruct R; reflexivity|]. rewrite (B6 _ _ (or_introl eq_refl)). destruct R; reflexivity.
      * destruct (submit_many (submit st jb) (JResultItem (0, N)) 0 n) as [st2 l] eqn:Em.
        pose proof (DaskRunProofs.many_spec (JResultItem (0, N)) n (submit st jb) 0) as Ms. rewrite Em in Ms. cbn [fst snd] in Ms. destruct Ms as (M1 & M2 & M3 & M4 & M5 & M6 & _ & M8).
        cbn [submit d_next d_fin d_held d_hist d_job d_actors] in M1, M2, M3, M4, M5, M6, M8. fold N in M1, M2, M8.
        assert (Jf : d_job (run ops1) (0, N) = Some jb).
        { rewrite R1. cbn [hand_out d_job]. rewrite M8. cbn [fst snd]. destruct (Nat.leb_spec (S N) N); [lia|]. rewrite andb_false_r. cbn. unfold dput. now rewrite did_eqb_refl. }
        assert (Ji : forall k, k < n -> d_job (run ops1) (0, S N + k) = Some (JResultItem (0, N) k)).
        { intros k K. rewrite R1. cbn [hand_out d_job]. rewrite M8. cbn [fst snd]. destruct (Nat.leb_spec (S N) (S N + k)); [|lia].
          destruct (Nat.ltb_spec (S N + k) (S N + n)); [|lia]. cbn [Nat.eqb andb]. do 2 f_equal. lia. }
        assert (St1 : stored rs env (run ops1)) by (rewrite R1; intros c i d X; cbn [hand_out d_fin]; rewrite M3; now apply St).
        assert (Sa1 : nth_error (d_actors (run ops1)) a = Some s) by (rewrite R1; cbn [hand_out d_actors]; rewrite M5; exact Sa).
        destruct (prim_meth rs env _ _ _ _ _ _ _ _ _ _ n St1 Fa Fk Pv Jf Sa1) as (o & R & F & acts & log & So & E & HF & Op & Ro & Lc). rewrite <- dsnoc in E. specialize (En R Ro).
        assert (Ac : d_actors (run ops1) = objs) by (rewrite R1; cbn [hand_out d_actors]; rewrite M5; exact A6). rewrite Ac in Op, Lc.
        set (sl := map (fun k => ((0, S N + k), JResultItem (0, N) k)) (seq 0 n)).
        assert (Ms : map (@fst dataid job) sl = l). { unfold sl. rewrite map_map. cbn [fst]. rewrite M1. apply ids_shift. }
        assert (Lin : forall d, In d l -> exists k, k < n /\ d = (0, S N + k)). { intros d I. rewrite M1 in I. apply in_ids in I as (k & -> & K). exists (k - S N). split; [lia|f_equal; lia]. }
        destruct (subs R sl (ops1 ++ [o])) as (ops' & B1 & B2 & B3 & B4 & B5 & B6 & B7).
        { apply lg_sched; assumption. }
        { rewrite Ms, M1. apply PortDoneDask.nodup_ids. }
        { intros d j I. unfold sl in I. apply in_map_iff in I as (k & X & I). injection X as <- <-. apply in_seq in I. rewrite Ms, E. cbn [finish d_job d_fin sub_ok deps]. unfold ddel, dput. split; [|split].
          - destruct (did_eqb (0, N) (0, S (N + k))) eqn:Q; [apply did_eqb_eq in Q; injection Q; lia|]. apply (Ji k). lia.
          - rewrite did_eqb_refl. destruct HF as [->|(e & -> & ->)]; eauto.
          - intros q [<-|[]] X. apply Lin in X as (z & _ & X). injection X. lia. }
        rewrite E in B2, B3, B4, B5. rewrite R1 in B2, B3, B5. cbn [hand_out finish d_hist d_held d_actors d_next] in B2, B3, B4, B5. rewrite M4 in B2. rewrite M6 in B3. rewrite M2 in B5.
        assert (Ll : length l = n) by (rewrite M1, map_length, seq_length; reflexivity).
        exists ops', (rs ++ [l]). apply (od_more p rs ops _ _ (each n R) _ D); rewrite ?B2, ?B3, ?B4, ?B5; fold st; fold N.
        -- exact B1.
        -- rewrite makes_snoc, Nat.add_0_r. apply (OD_meth p rs _ _ a a m args kw n vs ks (DRefs l) A2); auto. now apply seq_at.
        -- exact Ll.
        -- rewrite On, Od, Op. reflexivity.
        -- rewrite On, makes_snoc, Op. cbn [snd]. lia.
        -- rewrite On, Op. reflexivity.
        -- auto.
        -- lia.
        -- intros d L. rewrite B7, E, R1; [|rewrite Ms; intros I; apply Lin in I as (q & _ & ->); cbn in L; lia]. cbn [hand_out finish d_fin]. rewrite M3. unfold dput. destruct (did_eqb (0, N) d) eqn:Q; [|reflexivity]. apply did_eqb_eq in Q. subst d. cbn in L. lia.
        -- intros k d X. assert (K : k < n) by (rewrite <- Ll; apply nth_error_Some; congruence). assert (Dk : d = (0, S N + k)).
           { rewrite M1 in X. rewrite nth_error_map in X. destruct (nth_error (seq (S N) n) k) as [q|] eqn:Q; [|discriminate]. injection X as <-. rewrite (nth_error_nth' _ 0) in Q by (rewrite seq_length; exact K). rewrite seq_nth in Q by exact K. now injection Q as <-. }
           split; [rewrite Dk; cbn; lia|]. exists (sub_val (JResultItem (0, N) k) R). split; [apply (each_at n R k (0, N) (JResultItem (0, N))); auto|]. apply B6. unfold sl. apply in_map_iff. exists k. split; [now rewrite Dk|apply in_seq; lia].
      * assert (n = 0) as -> by lia. assert (Jb : d_job (run ops1) (0, N) = Some jb) by (rewrite R1; cbn; unfold dput; fold N; now rewrite did_eqb_refl).
        assert (St1 : stored rs env (run ops1)) by (rewrite R1; exact St).
        assert (Sa1 : nth_error (d_actors (run ops1)) a = Some s) by (rewrite R1; exact Sa).
        destruct (prim_meth rs env _ _ _ _ _ _ _ _ _ _ 0 St1 Fa Fk Pv Jb Sa1) as (o & R & F & acts & log & So & E & HF & Op & Ro & Lc). rewrite <- dsnoc in E.
        assert (Ac : d_actors (run ops1) = objs) by (rewrite R1; exact A6). rewrite Ac in Op, Lc.
        exists (ops1 ++ [o]), (rs ++ [[]]). apply (od_more p rs ops _ _ (each 0 R) _ D); rewrite ?E, ?R1; fold st; cbn [hand_out submit finish d_hist d_held d_actors d_next d_fin app]; fold N.
        -- apply lg_sched; assumption.
        -- rewrite makes_snoc, Nat.add_0_r. apply (OD_meth p rs _ _ a a m args kw 0 vs ks DNone A2); auto. now apply seq_at.
        -- reflexivity.
        -- rewrite On, Od, Op. reflexivity.
        -- rewrite On, makes_snoc, Op. cbn [snd]. lia.
        -- rewrite On, Op. reflexivity.
        -- auto.
        -- lia.
        -- intros d L. unfold dput. destruct (did_eqb (0, N) d) eqn:Q; [|reflexivity]. apply did_eqb_eq in Q. subst d. cbn in L. lia.
        -- intros k d X. destruct k; discriminate.
Qed.
End Dask.

Theorem odask_done body cbody mbody prog : oportable body cbody mbody prog -> oscoped prog ->
  forall c x i, nth_error prog c = Some x -> i < oouts x -> exists r, result_of (fst (odirect body cbody mbody prog)) c i = Some r /\ oshows_dask body cbody mbody prog c i r.
Proof.
  intros Po Sc c x i N Li. destruct (odask_submits body cbody mbody prog Po Sc) as (ops & rs & D). destruct (ofull_ref _ _ (od_full _ _ _ _ _ _ D) _ _ _ N Li) as (d & R).
  destruct (od_ref _ _ _ _ _ _ D c i d R) as (_ & _ & r & E & F). exists r. split; [exact E|]. exists PortDoneDask.d_i, ops, rs, (seq 0 (makes prog)), d. cbn zeta.
  split; [|split; [exact (lg_legal _ _ _ _ (od_lg _ _ _ _ _ _ D))|split; [exact (od_plays _ _ _ _ _ _ D)|split; [exact R|]]]].
  - intros l k y Y. cbn. rewrite Y. auto.
  - unfold dget. now rewrite F.
Qed.
