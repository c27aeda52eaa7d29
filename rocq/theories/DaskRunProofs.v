(** Proofs for C57-C59. *)
From Verif Require Import Lib ValModel PyseqModel DaskRunModel DaskRunSpec.

Lemma replace_length l a x : length (replace l a x) = length l.
Proof.
  unfold replace. destruct (nth_error l a) eqn:N; [|reflexivity].
  assert (a < length l) by (apply nth_error_Some; congruence).
  rewrite app_length, firstn_length. cbn [length]. rewrite skipn_length. lia.
Qed.

Lemma replace_app l a x r : a < length l -> replace (l ++ r) a x = replace l a x ++ r.
Proof.
  intros L. unfold replace. rewrite nth_error_app1 by assumption.
  destruct (nth_error l a) eqn:N; [|reflexivity].
  rewrite firstn_app, skipn_app. replace (a - length l) with 0 by lia. replace (S a - length l) with 0 by lia.
  rewrite firstn_O, skipn_O, app_nil_r, <- app_assoc. reflexivity.
Qed.

Definition allrefs (h : list (dop * dout)) : list dataid := flat_map (fun e => refs_out (snd e)) h.

Lemma allrefs_app h e : allrefs (h ++ [e]) = allrefs h ++ refs_out (snd e).
Proof. unfold allrefs. rewrite flat_map_app. simpl. now rewrite app_nil_r. Qed.

Lemma allrefs_in h c o out d : nth_error h c = Some (o, out) -> In d (refs_out out) -> In d (allrefs h).
Proof.
  intros N I. apply in_flat_map. exists (o, out). split; [apply (nth_error_In _ _ N)|exact I].
Qed.

Lemma nth_more {A} (h : list A) c x l : nth_error h c = Some x -> nth_error (h ++ l) c = Some x.
Proof. intros N. rewrite nth_error_app1; [assumption|]. apply nth_error_Some. congruence. Qed.

Section Proofs.
Variable body : nat -> nat -> list val -> kwargs -> res.
Variable cbody : nat -> nat -> list val -> kwargs -> res.
Variable mbody : nat -> nat -> val -> list val -> kwargs -> res * val.
Variable item : val -> nat -> res.

Notation direct := (direct body mbody).
Notation made := (made cbody).
Notation gives := (gives body cbody mbody item).
Notation step := (dstep body cbody mbody item).
Notation run := (drun body cbody mbody item).

Lemma direct_app objs l1 l2 :
  direct objs (l1 ++ l2) =
  (fst (direct objs l1) ++ fst (direct (snd (direct objs l1)) l2), snd (direct (snd (direct objs l1)) l2)).
Proof.
  revert objs; induction l1 as [|[c [f vs kvs|a m vs kvs]] l1 IH]; intros objs; simpl.
  - now destruct (direct objs l2).
  - rewrite IH. destruct (direct objs l1) as [x y]; simpl. reflexivity.
  - destruct (nth_error objs a) as [x|]; [|apply IH].
    destruct (mbody c m x vs kvs) as [r x']. rewrite IH. destruct (direct (replace objs a x') l1) as [y z]; simpl. reflexivity.
Qed.

Definition wfl (n : nat) (log : list (nat * ran)) : Prop :=
  forall c a m vs kvs, In (c, RMeth a m vs kvs) log -> a < n.

Lemma direct_more objs x log :
  wfl (length objs) log -> direct (objs ++ x) log = (fst (direct objs log), snd (direct objs log) ++ x).
Proof.
  revert objs; induction log as [|[c [f vs kvs|a m vs kvs]] log IH]; intros objs W; simpl; [reflexivity| |].
  - rewrite IH; [|intros ? ? ? ? ? I; apply (W _ _ _ _ _ (or_intror I))]. destruct (direct objs log); reflexivity.
  - pose proof (W c a m vs kvs (or_introl eq_refl)) as L.
    rewrite nth_error_app1 by assumption. destruct (nth_error objs a) as [y|] eqn:N;
      [|apply nth_error_None in N; lia].
    destruct (mbody c m y vs kvs) as [r x']. rewrite replace_app by assumption. rewrite IH.
    + destruct (direct (replace objs a x') log); reflexivity.
    + rewrite replace_length. intros ? ? ? ? ? I. apply (W _ _ _ _ _ (or_intror I)).
Qed.

Lemma direct_length objs log : length (snd (direct objs log)) = length objs.
Proof.
  revert objs; induction log as [|[c [f vs kvs|a m vs kvs]] log IH]; intros objs; simpl; [reflexivity| |].
  - specialize (IH objs). destruct (direct objs log); assumption.
  - destruct (nth_error objs a) as [x|]; [|apply IH].
    destruct (mbody c m x vs kvs) as [r x']. specialize (IH (replace objs a x')). rewrite replace_length in IH.
    destruct (direct (replace objs a x') log); assumption.
Qed.

Lemma made_app c h e : made c (h ++ [e]) = made c h ++ made (c + length h) [e].
Proof.
  revert c; induction h as [|[o out] h IH]; intros c; [simpl app; now rewrite Nat.add_0_r|].
  replace (c + length ((o, out) :: h)) with (S c + length h) by (simpl; lia).
  simpl app. destruct o; cbn [DaskRunSpec.made]; try apply IH.
  destruct reserve; [apply IH|]. destruct (cbody c c0 args kw); [simpl; f_equal|]; apply IH.
Qed.

Lemma direct_hist h e log :
  wfl (length (made 0 h)) log ->
  fst (direct (made 0 (h ++ [e])) log) = fst (direct (made 0 h) log) /\
  snd (direct (made 0 (h ++ [e])) log) = snd (direct (made 0 h) log) ++ made (length h) [e].
Proof. intros W. rewrite made_app, direct_more by assumption. split; reflexivity. Qed.

Lemma gives_hist h e log d r : wfl (length (made 0 h)) log -> gives h log d r -> gives (h ++ [e]) log d r.
Proof.
  intros W G. induction G as [c v d N|c o out d x x' N I J G IH|c o out d i s ent r N I A IH En L D].
  - eapply G_put, nth_more, N.
  - eapply G_failed; [eapply nth_more, N|exact I|exact J|exact IH].
  - eapply G_call; [eapply nth_more, N|exact I|exact IH|exact En|exact L|].
    destruct (direct_hist h e log W) as [-> _]. exact D.
Qed.

Lemma gives_log h log l d r : gives h log d r -> gives h (log ++ l) d r.
Proof.
  intros G. induction G as [c v d N|c o out d x x' N I J G IH|c o out d i s ent r N I A IH En L D].
  - eapply G_put, N.
  - eapply G_failed; eassumption.
  - eapply G_call; [exact N|exact I|exact IH|exact En|apply in_or_app; now left|].
    rewrite direct_app; simpl. apply in_or_app; now left.
Qed.

(** The outcome of a call as such. *)
Definition raw (h : list (dop * dout)) (log : list (nat * ran)) (c : nat) (r : res) : Prop :=
  exists o out, nth_error h c = Some (o, out) /\
  ((exists x e, In x (refs_in o) /\ gives h log x (Exn e) /\ r = Exn e) \/
   (exists s e, (forall x, In x (refs_in o) -> gives h log x (Ret (s x))) /\ entry o s = Some e /\ In (c, e) log /\
                In (c, r) (fst (direct (made 0 h) log)))).

Lemma raw_hist h e log c r : wfl (length (made 0 h)) log -> raw h log c r -> raw (h ++ [e]) log c r.
Proof.
  intros W (o & out & N & R). exists o, out. split; [apply nth_more, N|].
  destruct R as [(x & x' & I & G & ->)|(s & ent & A & En & L & D)]; [left|right].
  - exists x, x'. repeat split; [exact I|apply gives_hist; assumption].
  - exists s, ent. repeat split; [intros x I; apply gives_hist; auto|exact En|exact L|].
    destruct (direct_hist h e log W) as [-> _]. exact D.
Qed.

Lemma raw_log h log l c r : raw h log c r -> raw h (log ++ l) c r.
Proof.
  intros (o & out & N & R). exists o, out. split; [exact N|].
  destruct R as [(x & x' & I & G & ->)|(s & ent & A & En & L & D)]; [left|right].
  - exists x, x'. repeat split; [exact I|apply gives_log; assumption].
  - exists s, ent. repeat split; [intros x I; apply gives_log; auto|exact En|apply in_or_app; now left|].
    rewrite direct_app; simpl. apply in_or_app; now left.
Qed.

Lemma raw_gives h log c r o out i d :
  raw h log c r -> nth_error h c = Some (o, out) -> nth_error (refs_out out) i = Some d ->
  gives h log d (share item (returns o) i r).
Proof.
  intros (o' & out' & N' & R) N I. rewrite N in N'. injection N' as <- <-.
  destruct R as [(x & e & J & G & ->)|(s & ent & A & En & L & D)].
  - simpl. eapply G_failed; [exact N|eapply nth_error_In, I|exact J|exact G].
  - eapply G_call; eassumption.
Qed.

(** A future that carries the outcome of a call to a function or to a method. *)
Definition fun_base (st : dst) (c : nat) (s : dataid) : Prop :=
  (exists f args kw, d_job st s = Some (JFun c f args kw)) \/
  (exists r, d_fin st s = Some (Fin r) /\ raw (d_hist st) (d_log st) c r).
Definition meth_base (st : dst) (c : nat) (s : dataid) : Prop :=
  (exists a m args kw, d_job st s = Some (JMeth c a m args kw)) \/
  (exists r, d_fin st s = Some (Fut r) /\ raw (d_hist st) (d_log st) c r) \/
  (exists e, d_fin st s = Some (Fin (Exn e)) /\ raw (d_hist st) (d_log st) c (Exn e)).

(** What a task is for. *)
Definition job_ok (st : dst) (d : dataid) (j : job) : Prop :=
  match j with
  | JFun c f args kw =>
      exists n out, nth_error (d_hist st) c = Some (DSubmit f args kw n false, out) /\
        (In d (allrefs (d_hist st)) -> n = 1 /\ out = DRef d) /\ incl (arg_refs args kw) (allrefs (d_hist st))
  | JItem s i =>
      exists c f args kw n out, nth_error (d_hist st) c = Some (DSubmit f args kw n false, out) /\
        n <> 1 /\ nth_error (refs_out out) i = Some d /\ fun_base st c s
  | JMeth c a m args kw =>
      exists n out, nth_error (d_hist st) c = Some (DCall a m args kw n, out) /\
        ~ In d (allrefs (d_hist st)) /\ incl (arg_refs args kw) (allrefs (d_hist st)) /\ a < length (d_actors st)
  | JResult s =>
      exists c a m args kw out, nth_error (d_hist st) c = Some (DCall a m args kw 1, out) /\
        out = DRef d /\ meth_base st c s
  | JResultItem s i =>
      exists c a m args kw n out, nth_error (d_hist st) c = Some (DCall a m args kw n, out) /\
        n <> 1 /\ nth_error (refs_out out) i = Some d /\ meth_base st c s
  end.

Definition call_of (j : job) : option nat :=
  match j with JFun c _ _ _ => Some c | JMeth c _ _ _ _ => Some c | _ => None end.

Definition known (st : dst) (d : dataid) : Prop := d_job st d <> None \/ d_fin st d <> None.

Definition logged (h : list (dop * dout)) (log : list (nat * ran)) : Prop :=
  forall l1 c e l2, log = l1 ++ (c, e) :: l2 ->
    exists o out s, nth_error h c = Some (o, out) /\ entry o s = Some e /\
      (forall x, In x (refs_in o) -> gives h l1 x (Ret (s x))).

Record Dinv (st : dst) : Prop := {
  v_key : forall d, known st d -> fst d = 0 /\ snd d < d_next st;
  v_ref : forall d, In d (allrefs (d_hist st)) -> fst d = 0 /\ snd d < d_next st;
  v_one : forall d j, d_job st d = Some j -> d_fin st d = None;
  v_held : forall d, In d (d_held st) -> known st d /\ In d (allrefs (d_hist st));
  v_deps : forall d j x, d_job st d = Some j -> In x (deps j) -> known st x /\ snd x < snd d;
  v_job : forall d j, d_job st d = Some j -> job_ok st d j;
  v_fin : forall d f, d_fin st d = Some f -> In d (allrefs (d_hist st)) ->
            exists r, f = Fin r /\ gives (d_hist st) (d_log st) d r;
  v_acts : d_actors st = snd (direct (made 0 (d_hist st)) (d_log st));
  v_wfl : wfl (length (made 0 (d_hist st))) (d_log st);
  v_calls : forall d d' j j' c, d_job st d = Some j -> d_job st d' = Some j' ->
              call_of j = Some c -> call_of j' = Some c -> d = d';
  v_fresh : forall d j c, d_job st d = Some j -> call_of j = Some c -> ~ In c (map fst (d_log st));
  v_log : forall c, In c (map fst (d_log st)) -> c < length (d_hist st);
  v_once : NoDup (map fst (d_log st));
  v_logged : logged (d_hist st) (d_log st);
  v_nodup : NoDup (allrefs (d_hist st))
}.

Lemma known_same st st' d :
  d_job st' d = d_job st d -> d_fin st' d = d_fin st d -> known st d -> known st' d.
Proof. unfold known. now intros -> ->. Qed.

(** ** Calls of the main process *)
Section Client.
Variable st st' : dst.
Variable e : dop * dout.
Hypothesis V : Dinv st.
Hypothesis Hhist : d_hist st' = d_hist st ++ [e].
Hypothesis Hlog : d_log st' = d_log st.
Hypothesis Hnext : d_next st <= d_next st'.
Hypothesis Hjob : forall d, snd d < d_next st -> d_job st' d = d_job st d.
Hypothesis Hfin : forall d, snd d < d_next st -> d_fin st' d = d_fin st d.
Hypothesis Hacts : d_actors st' = d_actors st ++ made (length (d_hist st)) [e].
Hypothesis Hheld : d_held st' = refs_out (snd e) ++ d_held st.
Hypothesis Hout : forall d, In d (refs_out (snd e)) -> fst d = 0 /\ d_next st <= snd d < d_next st' /\ known st' d.
Hypothesis Hnd : NoDup (refs_out (snd e)).
(** The new tasks. *)
Hypothesis Hkey : forall d, d_next st <= snd d -> known st' d -> fst d = 0 /\ snd d < d_next st'.
Hypothesis Hone : forall d j, d_next st <= snd d -> d_job st' d = Some j -> d_fin st' d = None.
Hypothesis Hdeps : forall d j x, d_next st <= snd d -> d_job st' d = Some j -> In x (deps j) -> known st' x /\ snd x < snd d.
Hypothesis Hok : forall d j, d_next st <= snd d -> d_job st' d = Some j -> job_ok st' d j.
Hypothesis Hput : forall d f, d_next st <= snd d -> d_fin st' d = Some f -> In d (allrefs (d_hist st')) ->
  exists r, f = Fin r /\ gives (d_hist st') (d_log st') d r.
Hypothesis Hcall : forall d j c, d_next st <= snd d -> d_job st' d = Some j -> call_of j = Some c ->
  c = length (d_hist st) /\ forall d' j', d_next st <= snd d' -> d_job st' d' = Some j' -> call_of j' = Some c -> d' = d.

Lemma old_known d : known st d -> known st' d.
Proof.
  intros K. pose proof (v_key _ V d K) as [_ L]. apply (known_same st); [apply Hjob, L|apply Hfin, L|exact K].
Qed.

Lemma job_old d j : d_job st' d = Some j -> snd d < d_next st -> d_job st d = Some j.
Proof. intros J L. rewrite <- Hjob by assumption. exact J. Qed.

Lemma old_fun c s : fun_base st c s -> fun_base st' c s.
Proof.
  intros [(f & args & kw & J)|(r & F & R)]; [left|right].
  - assert (K : known st s) by (left; congruence). pose proof (v_key _ V s K) as [_ L].
    exists f, args, kw. now rewrite Hjob.
  - assert (K : known st s) by (right; congruence). pose proof (v_key _ V s K) as [_ L].
    exists r. rewrite Hfin, Hhist, Hlog by assumption. split; [exact F|]. apply raw_hist; [apply (v_wfl _ V)|exact R].
Qed.

Lemma old_meth c s : meth_base st c s -> meth_base st' c s.
Proof.
  intros [(a & m & args & kw & J)|[(r & F & R)|(r & F & R)]]; [left|right; left|right; right].
  - assert (K : known st s) by (left; congruence). pose proof (v_key _ V s K) as [_ L].
    exists a, m, args, kw. now rewrite Hjob.
  - assert (K : known st s) by (right; congruence). pose proof (v_key _ V s K) as [_ L].
    exists r. rewrite Hfin, Hhist, Hlog by assumption. split; [exact F|]. apply raw_hist; [apply (v_wfl _ V)|exact R].
  - assert (K : known st s) by (right; congruence). pose proof (v_key _ V s K) as [_ L].
    exists r. rewrite Hfin, Hhist, Hlog by assumption. split; [exact F|]. apply raw_hist; [apply (v_wfl _ V)|exact R].
Qed.

Lemma old_ref d : In d (allrefs (d_hist st')) -> snd d < d_next st -> In d (allrefs (d_hist st)).
Proof.
  intros I L. rewrite Hhist, allrefs_app in I. apply in_app_or in I as [I|I]; [exact I|].
  destruct (Hout d I) as (_ & ? & _). lia.
Qed.

Lemma more_refs : incl (allrefs (d_hist st)) (allrefs (d_hist st')).
Proof. rewrite Hhist, allrefs_app. apply incl_appl, incl_refl. Qed.

Lemma old_job d j : d_job st d = Some j -> job_ok st d j -> job_ok st' d j.
Proof.
  intros J O. assert (L : snd d < d_next st) by (apply (v_key _ V); left; congruence).
  destruct j as [c f args kw|s i|c a m args kw|s|s i]; simpl in *.
  - destruct O as (n & out & N & R & I). exists n, out.
    split; [rewrite Hhist; apply nth_more, N|]. split; [intros D; apply R, old_ref; assumption|].
    eapply incl_tran, more_refs. exact I.
  - destruct O as (c & f & args & kw & n & out & N & R & I & B). exists c, f, args, kw, n, out.
    split; [rewrite Hhist; apply nth_more, N|]. repeat split; try assumption. apply old_fun, B.
  - destruct O as (n & out & N & R & I & A). exists n, out.
    split; [rewrite Hhist; apply nth_more, N|]. split; [intros D; apply R, old_ref; assumption|].
    split; [eapply incl_tran, more_refs; exact I|]. rewrite Hacts, app_length. lia.
  - destruct O as (c & a & m & args & kw & out & N & R & B). exists c, a, m, args, kw, out.
    split; [rewrite Hhist; apply nth_more, N|]. repeat split; try assumption. apply old_meth, B.
  - destruct O as (c & a & m & args & kw & n & out & N & R & I & B). exists c, a, m, args, kw, n, out.
    split; [rewrite Hhist; apply nth_more, N|]. repeat split; try assumption. apply old_meth, B.
Qed.

Lemma logged_hist h log x : wfl (length (made 0 h)) log -> logged h log -> logged (h ++ [x]) log.
Proof.
  intros W L l1 c y l2 E0. destruct (L l1 c y l2 E0) as (o & out & s & N & En & A).
  exists o, out, s. split; [apply nth_more, N|]. split; [exact En|].
  intros z I. apply gives_hist; [|apply A, I]. intros ? ? ? ? ? J. eapply W. rewrite E0. apply in_or_app. left; exact J.
Qed.

Lemma client_inv : Dinv st'.
Proof.
  pose proof (v_wfl _ V) as W.
  constructor.
  - intros d K. destruct (Nat.lt_ge_cases (snd d) (d_next st)) as [L|L]; [|apply Hkey; assumption].
    destruct (v_key _ V d) as [F _]; [|split; [exact F|lia]].
    unfold known in *. rewrite Hjob, Hfin in K by assumption. exact K.
  - intros d I. rewrite Hhist, allrefs_app in I. apply in_app_or in I as [I|I].
    + destruct (v_ref _ V d I). split; [assumption|lia].
    + destruct (Hout d I) as (F & ? & _). split; [exact F|lia].
  - intros d j J. destruct (Nat.lt_ge_cases (snd d) (d_next st)) as [L|L]; [|apply (Hone d j); assumption].
    rewrite Hfin by assumption. apply (v_one _ V d j). apply job_old; assumption.
  - intros d I. rewrite Hheld in I. apply in_app_or in I as [I|I].
    + split; [apply (Hout d I)|]. rewrite Hhist, allrefs_app. apply in_or_app; now right.
    + destruct (v_held _ V d I) as [K R]. split; [apply old_known, K|apply more_refs, R].
  - intros d j x J I. destruct (Nat.lt_ge_cases (snd d) (d_next st)) as [L|L]; [|apply (Hdeps d j x); assumption].
    apply job_old in J; [|assumption]. destruct (v_deps _ V d j x J I) as [K O]. split; [apply old_known, K|exact O].
  - intros d j J. destruct (Nat.lt_ge_cases (snd d) (d_next st)) as [L|L]; [|apply Hok; assumption].
    apply job_old in J; [|assumption]. apply old_job; [exact J|]. apply (v_job _ V d j J).
  - intros d f F I. destruct (Nat.lt_ge_cases (snd d) (d_next st)) as [L|L]; [|apply Hput; assumption].
    rewrite Hfin in F by assumption. destruct (v_fin _ V d f F (old_ref d I L)) as (r & -> & G).
    exists r. split; [reflexivity|]. rewrite Hhist, Hlog. apply gives_hist; assumption.
  - rewrite Hacts, (v_acts _ V), Hhist, Hlog. symmetry. apply direct_hist, W.
  - rewrite Hhist, Hlog, made_app, app_length. intros c a m vs kvs I. specialize (W _ _ _ _ _ I). lia.
  - intros d d' j j' c J J' C C'.
    destruct (Nat.lt_ge_cases (snd d) (d_next st)) as [L|L], (Nat.lt_ge_cases (snd d') (d_next st)) as [L'|L'].
    + apply job_old in J, J'; [|assumption..]. apply (v_calls _ V d d' j j' c); assumption.
    + exfalso. destruct (Hcall d' j' c L' J' C') as [Ec _]. apply job_old in J; [|assumption].
      pose proof (v_job _ V d j J) as O.
      assert (c < length (d_hist st)); [|lia].
      apply nth_error_Some. destruct j as [c0 f args kw|s i|c0 a m args kw|s|s i]; try discriminate C; injection C as ->;
        destruct O as (n & out & N & _); congruence.
    + exfalso. destruct (Hcall d j c L J C) as [Ec _]. apply job_old in J'; [|assumption].
      pose proof (v_job _ V d' j' J') as O.
      assert (c < length (d_hist st)); [|lia].
      apply nth_error_Some. destruct j' as [c0 f args kw|s i|c0 a m args kw|s|s i]; try discriminate C'; injection C' as ->;
        destruct O as (n & out & N & _); congruence.
    + destruct (Hcall d' j' c L' J' C') as [_ U]. apply (U d j); assumption.
  - intros d j c J C. rewrite Hlog. destruct (Nat.lt_ge_cases (snd d) (d_next st)) as [L|L].
    + apply job_old in J; [|assumption]. apply (v_fresh _ V d j c); assumption.
    + destruct (Hcall d j c L J C) as [-> _]. intros I. apply (v_log _ V) in I. lia.
  - intros c I. rewrite Hlog in I. rewrite Hhist, app_length. apply (v_log _ V) in I. lia.
  - rewrite Hlog. apply (v_once _ V).
  - rewrite Hhist, Hlog. apply logged_hist; [exact W|apply (v_logged _ V)].
  - rewrite Hhist, allrefs_app.
    clear -V Hout Hnd. pose proof (v_nodup _ V) as ND. pose proof (v_ref _ V) as R.
    induction (allrefs (d_hist st)) as [|x l IH]; simpl; [exact Hnd|].
    inversion ND as [|? ? N1 N2]; subst. constructor; [|apply IH; [exact N2|intros d I; apply R; now right]].
    intros I. apply in_app_or in I as [I|I]; [contradiction|].
    destruct (Hout x I) as (_ & ? & _). destruct (R x (or_introl eq_refl)). lia.
Qed.
End Client.

(** ** Steps of the scheduler *)
Section Finish.
Variable st : dst.
Variable d : dataid.
Variable j : job.
Variable f : fin.
Variable acts : list val.
Variable l : list (nat * ran).
Let st' := finish st d f acts l.
Hypothesis V : Dinv st.
Hypothesis J : d_job st d = Some j.
Hypothesis Hl :
  (l = [] /\ acts = d_actors st) \/
  (exists c e o out s, l = [(c, e)] /\ call_of j = Some c /\ nth_error (d_hist st) c = Some (o, out) /\
     entry o s = Some e /\ (forall x, In x (refs_in o) -> gives (d_hist st) (d_log st) x (Ret (s x))) /\
     acts = snd (direct (d_actors st) l) /\ wfl (length (d_actors st)) l).
Hypothesis Hvis : In d (allrefs (d_hist st)) -> exists r, f = Fin r /\ gives (d_hist st) (d_log st ++ l) d r.
Hypothesis Hfun : forall c g args kw, j = JFun c g args kw -> exists r, f = Fin r /\ raw (d_hist st) (d_log st ++ l) c r.
Hypothesis Hmeth : forall c a m args kw, j = JMeth c a m args kw ->
  (exists r, f = Fut r /\ raw (d_hist st) (d_log st ++ l) c r) \/
  (exists e, f = Fin (Exn e) /\ raw (d_hist st) (d_log st ++ l) c (Exn e)).

Lemma finish_known x : known st x <-> known st' x.
Proof.
  unfold known, st'; simpl. destruct (did_dec d x) as [<-|N].
  - rewrite ddel_same, dput_same, J. intuition congruence.
  - rewrite ddel_other, dput_other by assumption. reflexivity.
Qed.

Lemma finish_job x k : d_job st' x = Some k -> x <> d /\ d_job st x = Some k.
Proof.
  unfold st'; simpl. destruct (did_dec d x) as [<-|N]; [rewrite ddel_same; discriminate|].
  rewrite ddel_other by assumption. intros H; split; [congruence|exact H].
Qed.

Lemma finish_fun c s : fun_base st c s -> fun_base st' c s.
Proof.
  intros B. destruct (did_dec d s) as [<-|N].
  - destruct B as [(g & args & kw & J')|(r & F & _)]; [|rewrite (v_one _ V d j J) in F; discriminate].
    rewrite J in J'. apply Some_inj in J'. destruct (Hfun _ _ _ _ J') as (r & -> & R).
    right. exists r. unfold st'; simpl. rewrite dput_same. auto.
  - destruct B as [(g & args & kw & J')|(r & F & R)]; [left; exists g, args, kw|right; exists r]; unfold st'; simpl.
    + now rewrite ddel_other.
    + rewrite dput_other by assumption. split; [exact F|apply raw_log, R].
Qed.

Lemma finish_meth c s : meth_base st c s -> meth_base st' c s.
Proof.
  intros B. destruct (did_dec d s) as [<-|N].
  - destruct B as [(a & m & args & kw & J')|[(r & F & _)|(r & F & _)]];
      [|rewrite (v_one _ V d j J) in F; discriminate..].
    rewrite J in J'. apply Some_inj in J'. destruct (Hmeth _ _ _ _ _ J') as [(r & -> & R)|(r & -> & R)];
      right; [left|right]; exists r; unfold st'; simpl; rewrite dput_same; auto.
  - destruct B as [(a & m & args & kw & J')|[(r & F & R)|(r & F & R)]];
      [left; exists a, m, args, kw|right; left; exists r|right; right; exists r]; unfold st'; simpl.
    + now rewrite ddel_other.
    + rewrite dput_other by assumption. split; [exact F|apply raw_log, R].
    + rewrite dput_other by assumption. split; [exact F|apply raw_log, R].
Qed.

Lemma finish_acts : acts = snd (direct (made 0 (d_hist st)) (d_log st ++ l)) /\ length acts = length (d_actors st).
Proof.
  rewrite direct_app; simpl. rewrite <- (v_acts _ V).
  destruct Hl as [[-> ->]|(c & e & o & out & s & _ & _ & _ & _ & _ & -> & _)]; [split; reflexivity|].
  split; [reflexivity|apply direct_length].
Qed.

Lemma logged_app h log x :
  logged h log -> 
  (forall c e, x = [(c, e)] -> exists o out s, nth_error h c = Some (o, out) /\ entry o s = Some e /\
     (forall y, In y (refs_in o) -> gives h log y (Ret (s y)))) ->
  length x <= 1 -> logged h (log ++ x).
Proof.
  intros L1 L2 Len. destruct x as [|[c e] [|? ?]]; [now rewrite app_nil_r| |simpl in Len; lia].
  intros l1 c' e' l2 E0.
  destruct l2 as [|z l2] using rev_ind.
  - apply app_inj_tail in E0 as [-> E0]. apply pair_inj in E0 as [<- <-]. apply L2; reflexivity.
  - rewrite app_comm_cons, app_assoc in E0. apply app_inj_tail in E0 as [E0 _]. apply (L1 _ _ _ _ E0).
Qed.

Lemma finish_inv : Dinv st'.
Proof.
  destruct finish_acts as [Ha La]. pose proof (v_wfl _ V) as W.
  assert (LM : length (d_actors st) = length (made 0 (d_hist st))).
  { rewrite (v_acts _ V). apply direct_length. }
  constructor.
  - intros x K. apply finish_known in K. apply (v_key _ V x K).
  - apply (v_ref _ V).
  - intros x k Jx. apply finish_job in Jx as [N Jx]. unfold st'; simpl. rewrite dput_other by congruence.
    apply (v_one _ V x k Jx).
  - intros x I. destruct (v_held _ V x I) as [K R]. split; [apply finish_known, K|exact R].
  - intros x k y Jx I. apply finish_job in Jx as [N Jx]. destruct (v_deps _ V x k y Jx I) as [K O].
    split; [apply finish_known, K|exact O].
  - intros x k Jx. apply finish_job in Jx as [N Jx]. pose proof (v_job _ V x k Jx) as O.
    destruct k as [c g args kw|s i|c a m args kw|s|s i]; simpl in *.
    + exact O.
    + destruct O as (c & g & args & kw & n & out & O1 & O2 & O3 & B). exists c, g, args, kw, n, out.
      repeat split; try assumption. apply finish_fun, B.
    + rewrite La. exact O.
    + destruct O as (c & a & m & args & kw & out & O1 & O2 & B). exists c, a, m, args, kw, out.
      repeat split; try assumption. apply finish_meth, B.
    + destruct O as (c & a & m & args & kw & n & out & O1 & O2 & O3 & B). exists c, a, m, args, kw, n, out.
      repeat split; try assumption. apply finish_meth, B.
  - intros x g F I. unfold st' in F, I |- *; simpl in *. destruct (did_dec d x) as [<-|N].
    + rewrite dput_same in F. apply Some_inj in F as <-. apply Hvis, I.
    + rewrite dput_other in F by assumption. destruct (v_fin _ V x g F I) as (r & -> & G).
      exists r. split; [reflexivity|apply gives_log, G].
  - exact Ha.
  - unfold st'; simpl. intros c a m vs kvs I. apply in_app_or in I as [I|I]; [apply (W _ _ _ _ _ I)|].
    rewrite <- LM. destruct Hl as [[-> _]|(c' & e & o & out & s & _ & _ & _ & _ & _ & _ & W')]; [contradiction I|].
    apply (W' _ _ _ _ _ I).
  - intros x y k k' c Jx Jy C C'. apply finish_job in Jx as [_ Jx], Jy as [_ Jy].
    apply (v_calls _ V x y k k' c); assumption.
  - intros x k c Jx C I. apply finish_job in Jx as [N Jx]. unfold st' in I; simpl in I. rewrite map_app in I.
    apply in_app_or in I as [I|I]; [apply (v_fresh _ V x k c Jx C I)|].
    destruct Hl as [[-> _]|(c' & e & o & out & s & -> & C' & _)]; [contradiction I|].
    destruct I as [I|[]]. simpl in I. subst c'. apply N. apply (v_calls _ V x d k j c); assumption.
  - intros c I. unfold st' in *; simpl in *. rewrite map_app in I. apply in_app_or in I as [I|I]; [apply (v_log _ V c I)|].
    destruct Hl as [[-> _]|(c' & e & o & out & s & -> & C' & N & _)]; [contradiction I|].
    destruct I as [I|[]]. simpl in I. subst c'. apply nth_error_Some. congruence.
  - unfold st'; simpl. rewrite map_app.
    destruct Hl as [[-> _]|(c' & e & o & out & s & -> & C' & N & _)]; [simpl; rewrite app_nil_r; apply (v_once _ V)|].
    apply (Permutation_NoDup (l := c' :: map fst (d_log st))); [apply Permutation_cons_append|].
    constructor; [apply (v_fresh _ V d j c' J C')|apply (v_once _ V)].
  - unfold st'; simpl. apply logged_app; [apply (v_logged _ V)| |].
    + intros c e E0. destruct Hl as [[E1 _]|(c' & e' & o & out & s & E1 & C' & N & En & A & _)];
        rewrite E0 in E1; [discriminate|].
      injection E1 as <- <-. exists o, out, s. auto.
    + destruct Hl as [[-> _]|(c' & e' & o & out & s & -> & _)]; simpl; lia.
  - apply (v_nodup _ V).
Qed.
End Finish.

Lemma job_hist st d j c : Dinv st -> d_job st d = Some j -> call_of j = Some c ->
  exists o out, nth_error (d_hist st) c = Some (o, out) /\ refs_in o = deps j /\ incl (deps j) (allrefs (d_hist st)) /\
    (In d (allrefs (d_hist st)) -> returns o = 1 /\ out = DRef d).
Proof.
  intros V J C. pose proof (v_job _ V d j J) as O.
  destruct j as [c0 f args kw|s i|c0 a m args kw|s|s i]; try discriminate C; injection C as ->; simpl in O.
  - destruct O as (n & out & N & R & I). exists (DSubmit f args kw n false), out. repeat split; try assumption; now apply R.
  - destruct O as (n & out & N & R & I & _). exists (DCall a m args kw n), out. repeat split; try assumption; contradiction.
Qed.

Lemma fail_inv st d j x e :
  Dinv st -> d_job st d = Some j -> In x (deps j) -> d_fin st x = Some (Fin (Exn e)) ->
  Dinv (finish st d (Fin (Exn e)) (d_actors st) []).
Proof.
  intros V J I F.
  assert (Q : forall c, call_of j = Some c -> raw (d_hist st) (d_log st ++ []) c (Exn e)).
  { intros c C. destruct (job_hist st d j c V J C) as (o & out & N & R & A & _). rewrite app_nil_r.
    exists o, out. split; [exact N|]. left. exists x, e. rewrite R. repeat split; [exact I|].
    destruct (v_fin _ V x _ F (A x I)) as (r & Er & G). injection Er as <-. exact G. }
  apply (finish_inv st d j); try assumption.
  - now left.
  - intros D. exists (Exn e). split; [reflexivity|]. pose proof (v_job _ V d j J) as O.
    destruct j as [c g args kw|s i|c a m args kw|s|s i]; simpl in O.
    + destruct O as (n & out & N & R & _). destruct (R D) as [-> ->].
      apply (raw_gives _ _ c (Exn e) _ _ 0 d (Q c eq_refl) N eq_refl).
    + destruct O as (c & g & args & kw & n & out & N & n1 & I' & B). destruct I as [<-|[]].
      destruct B as [(g' & args' & kw' & J')|(r & F' & R)]; [rewrite (v_one _ V _ _ J') in F; discriminate|].
      rewrite F in F'. injection F' as <-. rewrite app_nil_r. apply (raw_gives _ _ c (Exn e) _ _ i d R N I').
    + destruct O as (n & out & N & R & _). contradiction.
    + destruct O as (c & a & m & args & kw & out & N & -> & B). destruct I as [<-|[]]. rewrite app_nil_r.
      destruct B as [(a' & m' & args' & kw' & J')|[(r & F' & R)|(r & F' & R)]];
        [rewrite (v_one _ V _ _ J') in F; discriminate|rewrite F in F'; discriminate|].
      rewrite F in F'. injection F' as <-. apply (raw_gives _ _ c (Exn e) _ _ 0 d R N eq_refl).
    + destruct O as (c & a & m & args & kw & n & out & N & n1 & I' & B). destruct I as [<-|[]]. rewrite app_nil_r.
      destruct B as [(a' & m' & args' & kw' & J')|[(r & F' & R)|(r & F' & R)]];
        [rewrite (v_one _ V _ _ J') in F; discriminate|rewrite F in F'; discriminate|].
      rewrite F in F'. injection F' as <-. apply (raw_gives _ _ c (Exn e) _ _ i d R N I').
  - intros c g args kw ->. exists (Exn e). split; [reflexivity|apply Q; reflexivity].
  - intros c a m args kw ->. right. exists e. split; [reflexivity|apply Q; reflexivity].
Qed.

Lemma args_known st d j c :
  Dinv st -> d_job st d = Some j -> call_of j = Some c -> forallb (finished_well st) (deps j) = true ->
  forall x, In x (deps j) -> gives (d_hist st) (d_log st) x (Ret (value st x)).
Proof.
  intros V J C W x I. destruct (job_hist st d j c V J C) as (o & out & N & R & A & _).
  rewrite forallb_forall in W. specialize (W x I). unfold finished_well in W.
  destruct (d_fin st x) as [g|] eqn:F; [|discriminate].
  destruct (v_fin _ V x _ F (A x I)) as (r & -> & G). destruct r as [v|e]; [|discriminate].
  unfold value. rewrite F. exact G.
Qed.

Lemma call_raw st d j c o out e r :
  Dinv st -> d_job st d = Some j -> call_of j = Some c -> forallb (finished_well st) (deps j) = true ->
  nth_error (d_hist st) c = Some (o, out) -> refs_in o = deps j -> entry o (value st) = Some e ->
  fst (direct (d_actors st) [(c, e)]) = [(c, r)] ->
  raw (d_hist st) (d_log st ++ [(c, e)]) c r.
Proof.
  intros V J C W N R En D. exists o, out. split; [exact N|]. right. exists (value st), e.
  split; [intros x I; apply gives_log, (args_known st d j c V J C W); now rewrite <- R|].
  split; [exact En|]. split; [apply in_or_app; right; now left|].
  rewrite direct_app. cbn [fst]. rewrite <- (v_acts _ V), D. apply in_or_app; right; now left.
Qed.

Lemma run_inv st d j :
  Dinv st -> d_job st d = Some j -> forallb (finished_well st) (deps j) = true ->
  Dinv (run_job body mbody item st d j).
Proof.
  intros V J W. pose proof (v_job _ V d j J) as O.
  destruct j as [c g args kw|s i|c a m args kw|s|s i]; simpl in O; unfold run_job.
  - destruct O as (n & out & N & R & A).
    set (e := RFun g (fill (value st) args) (fill_kw (value st) kw)).
    set (r := body c g (fill (value st) args) (fill_kw (value st) kw)).
    assert (Q : raw (d_hist st) (d_log st ++ [(c, e)]) c r).
    { eapply call_raw; try eassumption; reflexivity. }
    apply (finish_inv st d (JFun c g args kw)); try assumption.
    + right. exists c, e, (DSubmit g args kw n false), out, (value st). split; [reflexivity|]. split; [reflexivity|].
      split; [exact N|]. split; [reflexivity|]. split; [apply (args_known st d _ c V J eq_refl W)|].
      split; [reflexivity|]. intros ? ? ? ? ? [H|[]]. discriminate H.
    + intros D. exists r. split; [reflexivity|]. destruct (R D) as [-> ->].
      assert (Eshare : share item 1 0 r = r) by (destruct r; reflexivity).
      pose proof (raw_gives _ _ c r _ _ 0 d Q N eq_refl) as G. simpl returns in G. now rewrite Eshare in G.
    + intros c' g' args' kw' E0. injection E0 as <- <- <- <-. exists r. split; [reflexivity|exact Q].
    + intros; discriminate.
  - destruct O as (c & g & args & kw & n & out & N & n1 & I & B).
    simpl in W. rewrite andb_true_r in W. unfold finished_well in W.
    assert (exists v, d_fin st s = Some (Fin (Ret v)) /\ raw (d_hist st) (d_log st) c (Ret v)) as (v & F & R).
    { destruct B as [(g' & args' & kw' & J')|(r & F' & R)]; [rewrite (v_one _ V _ _ J') in W; discriminate|].
      rewrite F' in *. destruct r as [v|e]; [|discriminate]. eauto. }
    apply (finish_inv st d (JItem s i)); try assumption; try (intros; discriminate).
    + now left.
    + intros D. exists (item (value st s) i). split; [reflexivity|]. rewrite app_nil_r. unfold value. rewrite F.
      pose proof (raw_gives _ _ c _ _ _ i d R N I) as G. simpl in G. apply Nat.eqb_neq in n1. now rewrite n1 in G.
  - destruct O as (n & out & N & R & A & La).
    set (vs := fill (value st) args). set (kvs := fill_kw (value st) kw).
    destruct (nth_error (d_actors st) a) as [x|] eqn:X; [|exact V].
    destruct (mbody c m x vs kvs) as [r x'] eqn:M.
    assert (Q : raw (d_hist st) (d_log st ++ [(c, RMeth a m vs kvs)]) c r).
    { eapply call_raw; try eassumption; try reflexivity. simpl. rewrite X, M. reflexivity. }
    apply (finish_inv st d (JMeth c a m args kw)); try assumption.
    + right. exists c, (RMeth a m vs kvs), (DCall a m args kw n), out, (value st). split; [reflexivity|]. split; [reflexivity|].
      split; [exact N|]. split; [reflexivity|]. split; [apply (args_known st d _ c V J eq_refl W)|].
      split; [simpl; rewrite X, M; reflexivity|]. intros ? ? ? ? ? [H|[]]. injection H as <- <- <- <- <-. exact La.
    + intros D. contradiction.
    + intros; discriminate.
    + intros c' a' m' args' kw' E0. injection E0 as <- <- <- <- <-. left. exists r. split; [reflexivity|exact Q].
  - destruct O as (c & a & m & args & kw & out & N & -> & B).
    destruct (d_fin st s) as [[?|r]|] eqn:F; [exact V| |exact V].
    apply (finish_inv st d (JResult s)); try assumption; try (intros; discriminate).
    + now left.
    + intros D. exists r. split; [reflexivity|]. rewrite app_nil_r.
      destruct B as [(a' & m' & args' & kw' & J')|[(r' & F' & R)|(r' & F' & R)]];
        [rewrite (v_one _ V _ _ J') in F; discriminate| |rewrite F in F'; discriminate].
      rewrite F in F'. injection F' as <-.
      assert (Eshare : share item 1 0 r = r) by (destruct r; reflexivity).
      pose proof (raw_gives _ _ c r _ _ 0 d R N eq_refl) as G. simpl returns in G. now rewrite Eshare in G.
  - destruct O as (c & a & m & args & kw & n & out & N & n1 & I & B).
    destruct (d_fin st s) as [[?|r]|] eqn:F; [exact V| |exact V].
    assert (R : raw (d_hist st) (d_log st) c r).
    { destruct B as [(a' & m' & args' & kw' & J')|[(r' & F' & R)|(r' & F' & R)]];
        [rewrite (v_one _ V _ _ J') in F; discriminate| |rewrite F in F'; discriminate].
      rewrite F in F'. injection F' as <-. exact R. }
    pose proof (raw_gives _ _ c r _ _ i d R N I) as G. apply Nat.eqb_neq in n1.
    destruct r as [v|e]; (apply (finish_inv st d (JResultItem s i)); try assumption; try (intros; discriminate); [now left|]);
      intros D; (eexists; split; [reflexivity|]); rewrite app_nil_r; simpl in G; [now rewrite n1 in G|exact G].
Qed.

Lemma needed_spec st d x j : Dinv st -> d_job st x = Some j -> In d (deps j) -> needed st d = true.
Proof.
  intros V J I. destruct (v_key _ V x) as [F L]; [left; congruence|]. destruct x as [x0 k]; simpl in F, L; subst x0.
  apply existsb_exists. exists k. split; [apply in_seq; lia|]. rewrite J. apply did_in_In, I.
Qed.

Lemma forget_inv st d : Dinv st -> did_in d (d_held st) || needed st d = false ->
  Dinv {| d_next := d_next st; d_job := ddel (d_job st) d; d_fin := ddel (d_fin st) d; d_held := d_held st;
          d_actors := d_actors st; d_hist := d_hist st; d_log := d_log st |}.
Proof.
  intros V H. apply orb_false_iff in H as [Hh Hn]. apply did_in_false in Hh.
  assert (S0 : forall x, x <> d -> ddel (d_job st) d x = d_job st x /\ ddel (d_fin st) d x = d_fin st x).
  { intros x N. now rewrite !ddel_other by congruence. }
  assert (Jx : forall x j, ddel (d_job st) d x = Some j -> d_job st x = Some j /\ forall y, In y (deps j) -> y <> d).
  { intros x j Jx. destruct (did_dec d x) as [<-|N]; [rewrite ddel_same in Jx; discriminate|].
    rewrite ddel_other in Jx by assumption. split; [exact Jx|]. intros y I ->.
    rewrite (needed_spec st d x j V Jx I) in Hn. discriminate. }
  constructor; simpl.
  - intros x K. apply (v_key _ V). destruct (did_dec d x) as [<-|N].
    + unfold known in K; simpl in K. rewrite !ddel_same in K. intuition.
    + unfold known in *; simpl in K. now rewrite !ddel_other in K by assumption.
  - apply (v_ref _ V).
  - intros x j J. destruct (did_dec d x) as [<-|N]; [apply ddel_same|]. rewrite !ddel_other in * by assumption.
    apply (v_one _ V x j J).
  - intros x I. destruct (v_held _ V x I) as [K R]. split; [|exact R]. unfold known in *; simpl.
    rewrite !ddel_other by (intros ->; contradiction). exact K.
  - intros x j y J I. apply Jx in J as [J Ny]. destruct (v_deps _ V x j y J I) as [K O]. split; [|exact O].
    unfold known in *; simpl. rewrite !ddel_other by (intros <-; apply (Ny d I); reflexivity). exact K.
  - intros x j J. apply Jx in J as [J Ny]. pose proof (v_job _ V x j J) as O.
    destruct j as [c g args kw|s i|c a m args kw|s|s i]; simpl in *.
    + exact O.
    + destruct O as (c & g & args & kw & n & out & O1 & O2 & O3 & B). exists c, g, args, kw, n, out.
      repeat split; try assumption. unfold fun_base in *; simpl.
      destruct (S0 s) as [-> ->]; [apply Ny; now left|exact B].
    + exact O.
    + destruct O as (c & a & m & args & kw & out & O1 & O2 & B). exists c, a, m, args, kw, out.
      repeat split; try assumption. unfold meth_base in *; simpl.
      destruct (S0 s) as [-> ->]; [apply Ny; now left|exact B].
    + destruct O as (c & a & m & args & kw & n & out & O1 & O2 & O3 & B). exists c, a, m, args, kw, n, out.
      repeat split; try assumption. unfold meth_base in *; simpl.
      destruct (S0 s) as [-> ->]; [apply Ny; now left|exact B].
  - intros x f F I. destruct (did_dec d x) as [<-|N]; [rewrite ddel_same in F; discriminate|].
    rewrite ddel_other in F by assumption. apply (v_fin _ V x f F I).
  - apply (v_acts _ V).
  - apply (v_wfl _ V).
  - intros x y k k' c J J'. apply Jx in J as [J _], J' as [J' _]. apply (v_calls _ V x y k k' c J J').
  - intros x k c J. apply Jx in J as [J _]. apply (v_fresh _ V x k c J).
  - apply (v_log _ V).
  - apply (v_once _ V).
  - apply (v_logged _ V).
  - apply (v_nodup _ V).
Qed.

Lemma drop_inv st d : Dinv st -> Dinv (step st (DDrop d)).
Proof.
  intros V. destruct V. constructor; simpl; try assumption.
  intros x I. apply filter_In in I as [I _]. destruct (v_held0 x I) as [K R]. split; [exact K|exact R].
Qed.

Lemma init_inv : Dinv dinit.
Proof.
  constructor; simpl; unfold known, dempty; simpl; try (intros; contradiction); try (intros; discriminate); try constructor.
  - intuition congruence.
  - intuition congruence.
  - intros ? ? ? ? ? [].
  - intros l1 c e l2 E0. destruct l1; discriminate.
Qed.

(** ** The calls *)
Lemma many_spec mk n : forall st i,
  let st' := fst (submit_many st mk i n) in
  snd (submit_many st mk i n) = map (fun k => (0, k)) (seq (d_next st) n) /\
  d_next st' = d_next st + n /\ d_fin st' = d_fin st /\ d_held st' = d_held st /\ d_actors st' = d_actors st /\
  d_hist st' = d_hist st /\ d_log st' = d_log st /\
  (forall d, d_job st' d = if Nat.eqb (fst d) 0 && Nat.leb (d_next st) (snd d) && Nat.ltb (snd d) (d_next st + n)
                           then Some (mk (i + (snd d - d_next st))) else d_job st d).
Proof.
  induction n as [|n IH]; intros st i; cbn zeta.
  - simpl. rewrite Nat.add_0_r. repeat split. intros [x y]; simpl.
    destruct (Nat.leb_spec (d_next st) y), (Nat.ltb_spec y (d_next st)); try lia; now rewrite ?andb_false_r.
  - cbn [submit_many]. specialize (IH (submit st (mk i)) (S i)). cbn zeta in IH.
    destruct (submit_many (submit st (mk i)) mk (S i) n) as [st' l]. simpl fst in *; simpl snd in *.
    destruct IH as (A & B & C & D & F & G & H & I). simpl in A, B, C, D, F, G, H, I.
    rewrite A, B, C, D, F, G, H. repeat split; [lia|].
    intros [x y]. rewrite I. simpl. unfold dput.
    destruct (did_eqb (0, d_next st) (x, y)) eqn:Eq.
    + apply did_eqb_eq in Eq. injection Eq as <- <-. simpl.
      rewrite (proj2 (Nat.leb_le _ _) (le_n _)). rewrite (proj2 (Nat.ltb_lt (d_next st) (d_next st + S n))) by lia. simpl.
      replace (match d_next st with 0 => false | S m' => Nat.leb (d_next st) m' end) with false.
      2:{ destruct (d_next st); [reflexivity|]. symmetry. apply Nat.leb_gt. lia. }
      simpl. rewrite Nat.sub_diag, Nat.add_0_r. reflexivity.
    + apply did_eqb_neq in Eq. destruct (Nat.eqb_spec x 0) as [->|]; simpl; [|reflexivity].
      assert (y <> d_next st) by congruence.
      change (match y with 0 => false | S m' => Nat.leb (d_next st) m' end) with (Nat.ltb (d_next st) y).
      destruct (Nat.ltb_spec (d_next st) y), (Nat.leb_spec (d_next st) y); try lia; simpl; [|reflexivity].
      replace (d_next st + S n) with (S (d_next st + n)) by lia.
      destruct (Nat.ltb_spec y (S (d_next st + n))); [|reflexivity]. f_equal. f_equal. lia.
Qed.

Definition with_jobs (st : dst) (jb : job) (k : nat) (mk : nat -> job) (d : dataid) : option job :=
  if did_eqb (0, d_next st) d then Some jb
  else if Nat.eqb (fst d) 0 && Nat.leb (S (d_next st)) (snd d) && Nat.ltb (snd d) (S (d_next st) + k)
       then Some (mk (snd d - S (d_next st))) else d_job st d.

Lemma with_jobs_new st jb k mk d j : Dinv st -> d_next st <= snd d -> with_jobs st jb k mk d = Some j ->
  (d = (0, d_next st) /\ j = jb) \/ (exists i, i < k /\ d = (0, S (d_next st) + i) /\ j = mk i).
Proof.
  intros V L H. unfold with_jobs in H.
  destruct (did_eqb (0, d_next st) d) eqn:Eq; [apply did_eqb_eq in Eq; left; split; congruence|].
  destruct (Nat.eqb (fst d) 0 && Nat.leb (S (d_next st)) (snd d) && Nat.ltb (snd d) (S (d_next st) + k)) eqn:B.
  - apply andb_true_iff in B as [B B3]. apply andb_true_iff in B as [B1 B2].
    apply Nat.eqb_eq in B1. apply Nat.leb_le in B2. apply Nat.ltb_lt in B3. right.
    exists (snd d - S (d_next st)). split; [lia|]. split; [|congruence]. destruct d as [x y]; simpl in *. f_equal; lia.
  - exfalso. destruct (v_key _ V d) as [_ K]; [left; congruence|lia].
Qed.

Lemma with_jobs_old st jb k mk d : snd d < d_next st -> with_jobs st jb k mk d = d_job st d.
Proof.
  intros L. unfold with_jobs. destruct (did_eqb (0, d_next st) d) eqn:Eq.
  - apply did_eqb_eq in Eq. subst d. simpl in L. lia.
  - destruct (Nat.leb_spec (S (d_next st)) (snd d)); [lia|]. now rewrite andb_false_r.
Qed.

Lemma with_jobs_item st jb k mk i : i < k -> with_jobs st jb k mk (0, S (d_next st) + i) = Some (mk i).
Proof.
  intros L. unfold with_jobs. destruct (did_eqb (0, d_next st) (0, S (d_next st) + i)) eqn:Eq.
  - apply did_eqb_eq in Eq. injection Eq as Eq. lia.
  - simpl fst; simpl snd. rewrite (proj2 (Nat.leb_le _ _)) by lia. rewrite (proj2 (Nat.ltb_lt _ _)) by lia. simpl.
    f_equal. f_equal. lia.
Qed.

Lemma jobs_inv st st' o out jb k mk :
  Dinv st -> incl (deps jb) (d_held st) -> call_of jb = Some (length (d_hist st)) ->
  (forall i, deps (mk i) = [(0, d_next st)]) -> (forall i, call_of (mk i) = None) ->
  made (length (d_hist st)) [(o, out)] = [] ->
  refs_out out = [] \/ refs_out out = [(0, d_next st)] \/ refs_out out = map (fun i => (0, i)) (seq (S (d_next st)) k) ->
  d_hist st' = d_hist st ++ [(o, out)] -> d_log st' = d_log st -> d_next st' = S (d_next st) + k ->
  (forall d, d_job st' d = with_jobs st jb k mk d) -> d_fin st' = d_fin st -> d_actors st' = d_actors st ->
  d_held st' = refs_out out ++ d_held st ->
  job_ok st' (0, d_next st) jb -> (forall i, i < k -> job_ok st' (0, S (d_next st) + i) (mk i)) ->
  Dinv st'.
Proof.
  intros V Hd Hc Hdm Hcm Hm Hout Hh Hl Hn Hj Hf Ha He Ok1 Ok2.
  assert (NF : forall d, d_next st <= snd d -> d_fin st d = None).
  { intros d L. destruct (d_fin st d) eqn:F; [|reflexivity]. destruct (v_key _ V d) as [_ K]; [right; congruence|lia]. }
  assert (K0 : known st' (0, d_next st)).
  { left. rewrite Hj. unfold with_jobs. rewrite did_eqb_refl. discriminate. }
  assert (Old : forall d, known st d -> known st' d).
  { intros d K. pose proof (v_key _ V d K) as [_ L]. apply (known_same st); [|now rewrite Hf|exact K].
    rewrite Hj. now apply with_jobs_old. }
  apply (client_inv st st' (o, out)); try assumption.
  - lia.
  - intros d L. rewrite Hj. now apply with_jobs_old.
  - intros d _. now rewrite Hf.
  - rewrite Hm, app_nil_r. exact Ha.
  - intros d I. simpl in I. destruct Hout as [Ho|[Ho|Ho]]; rewrite Ho in I.
    + destruct I.
    + destruct I as [<-|[]]. simpl. repeat split; try lia. exact K0.
    + apply in_map_iff in I as (y & <- & I). apply in_seq in I. simpl. repeat split; try lia.
      left. rewrite Hj. replace y with (S (d_next st) + (y - S (d_next st))) by lia. rewrite with_jobs_item by lia. discriminate.
  - simpl. destruct Hout as [-> | [-> | ->]]; [constructor|repeat constructor; intros []|].
    apply FinFun.Injective_map_NoDup; [intros x y H; now injection H|apply seq_NoDup].
  - intros d L [K|K].
    + rewrite Hj in K. destruct (with_jobs st jb k mk d) as [j|] eqn:W; [|congruence].
      destruct (with_jobs_new st jb k mk d j V L W) as [[-> _]|(i & Li & -> & _)]; simpl; lia.
    + rewrite Hf, NF in K by assumption. congruence.
  - intros d j L _. rewrite Hf. apply NF, L.
  - intros d j x L J I. rewrite Hj in J. destruct (with_jobs_new st jb k mk d j V L J) as [[-> ->]|(i & Li & -> & ->)].
    + pose proof (Hd x I) as H. apply (v_held _ V) in H as [K _]. split; [apply Old, K|]. simpl. apply (v_key _ V x K).
    + rewrite Hdm in I. destruct I as [<-|[]]. split; [exact K0|simpl; lia].
  - intros d j L J. rewrite Hj in J. destruct (with_jobs_new st jb k mk d j V L J) as [[-> ->]|(i & Li & -> & ->)]; auto.
  - intros d f L F. rewrite Hf, NF in F by assumption. discriminate.
  - intros d j c L J C. rewrite Hj in J. destruct (with_jobs_new st jb k mk d j V L J) as [[-> ->]|(i & Li & -> & ->)].
    + split; [congruence|]. intros d' j' L' J' C'. rewrite Hj in J'.
      destruct (with_jobs_new st jb k mk d' j' V L' J') as [[-> ->]|(i & Li & -> & ->)]; [reflexivity|].
      rewrite Hcm in C'. discriminate.
    + rewrite Hcm in C. discriminate.
Qed.

Lemma quiet_inv st o out :
  Dinv st -> refs_out out = [] -> made (length (d_hist st)) [(o, out)] = [] -> Dinv (hand_out st o out).
Proof.
  intros V Ho Hm. apply (client_inv st _ (o, out)); try assumption; try reflexivity; cbn [snd]; try rewrite Ho.
  - rewrite Hm, app_nil_r. reflexivity.
  - intros d [].
  - constructor.
  - intros d L K. destruct (v_key _ V d K). lia.
  - intros d j L J; simpl in J. destruct (v_key _ V d) as [_ K]; [left; congruence|lia].
  - intros d j x L J; simpl in J. destruct (v_key _ V d) as [_ K]; [left; congruence|lia].
  - intros d j L J; simpl in J. destruct (v_key _ V d) as [_ K]; [left; congruence|lia].
  - intros d f L J; simpl in J. destruct (v_key _ V d) as [_ K]; [right; congruence|lia].
  - intros d j c L J; simpl in J. destruct (v_key _ V d) as [_ K]; [left; congruence|lia].
Qed.

Lemma put_inv st v : Dinv st -> Dinv (step st (DPut v)).
Proof.
  intros V. cbn [dstep].
  assert (NF : forall d, d_next st <= snd d -> d_job st d = None /\ d_fin st d = None).
  { intros d L. split.
    - destruct (d_job st d) eqn:J; [|reflexivity]. destruct (v_key _ V d) as [_ K]; [left; congruence|lia].
    - destruct (d_fin st d) eqn:F; [|reflexivity]. destruct (v_key _ V d) as [_ K]; [right; congruence|lia]. }
  apply (client_inv st _ (DPut v, DRef (0, d_next st))); try assumption; simpl; try reflexivity.
  - lia.
  - intros d L. apply dput_other. intros <-. simpl in L. lia.
  - now rewrite app_nil_r.
  - intros d [<-|[]]. simpl. repeat split; try lia. right. simpl. rewrite dput_same. discriminate.
  - repeat constructor. intros [].
  - intros d L [K|K]; simpl in K.
    + destruct (NF d L) as [N _]. congruence.
    + destruct (did_dec (0, d_next st) d) as [<-|N]; [simpl; lia|]. rewrite dput_other in K by assumption.
      destruct (NF d L) as [_ N']. congruence.
  - intros d j L J. destruct (NF d L) as [N _]. congruence.
  - intros d j x L J. destruct (NF d L) as [N _]. congruence.
  - intros d j L J. destruct (NF d L) as [N _]. congruence.
  - intros d f L F I. destruct (did_dec (0, d_next st) d) as [<-|N].
    + rewrite dput_same in F. apply Some_inj in F as <-. exists (Ret v). split; [reflexivity|].
      apply (G_put _ _ _ _ _ _ (length (d_hist st))). rewrite nth_error_app2, Nat.sub_diag by lia. reflexivity.
    + rewrite dput_other in F by assumption. destruct (NF d L) as [_ N']. congruence.
  - intros d j c L J. destruct (NF d L) as [N _]. congruence.
Qed.

Lemma last_hist st o out : nth_error (d_hist st ++ [(o, out)]) (length (d_hist st)) = Some (o, out).
Proof. rewrite nth_error_app2, Nat.sub_diag by lia. reflexivity. Qed.

Lemma fresh_ref st : Dinv st -> ~ In (0, d_next st) (allrefs (d_hist st)).
Proof. intros V I. destruct (v_ref _ V _ I) as [_ L]. simpl in L. lia. Qed.

Lemma incl_held st l x : Dinv st -> incl l (d_held st) -> incl l (allrefs (d_hist st ++ [x])).
Proof.
  intros V H d I. rewrite allrefs_app. apply in_or_app. left. apply (v_held _ V d), H, I.
Qed.

Lemma many_jobs st jb mk n d :
  d_job (fst (submit_many (submit st jb) mk 0 n)) d = with_jobs st jb n mk d.
Proof.
  destruct (many_spec mk n (submit st jb) 0) as (_ & _ & _ & _ & _ & _ & _ & H). cbn zeta in H.
  rewrite H. unfold with_jobs. simpl d_next. simpl d_job. unfold dput.
  destruct (did_eqb (0, d_next st) d) eqn:Eq; [|reflexivity].
  apply did_eqb_eq in Eq. subst d. simpl fst; simpl snd.
  destruct (Nat.leb_spec (S (d_next st)) (d_next st)); [lia|]. now rewrite andb_false_r.
Qed.

Lemma nth_seq_refs n i N : i < n -> nth_error (map (fun k => (0, k)) (seq N n)) i = Some (0, N + i).
Proof.
  intros L. rewrite (map_nth_error _ _ _ (d := N + i)); [reflexivity|].
  rewrite (nth_error_nth' _ 0) by now rewrite seq_length. now rewrite seq_nth.
Qed.

Lemma submit_inv st f args kw n b :
  Dinv st -> incl (arg_refs args kw) (d_held st) -> Dinv (step st (DSubmit f args kw n b)).
Proof.
  intros V Hi. cbn [dstep]. destruct b; [apply quiet_inv; auto|].
  set (c := length (d_hist st)). set (jb := JFun c f args kw).
  destruct (Nat.eqb_spec n 1) as [->|n1]; [|destruct (Nat.ltb_spec 1 n) as [n2|n2]].
  - apply (jobs_inv st _ (DSubmit f args kw 1 false) (DRef (0, d_next st)) jb 0 (JItem (0, d_next st)));
      try assumption; try reflexivity; try (intros; lia).
    + right; now left.
    + simpl. lia.
    + intros d. simpl. unfold with_jobs, dput. destruct (did_eqb (0, d_next st) d); [reflexivity|].
      rewrite Nat.add_0_r. destruct (Nat.leb_spec (S (d_next st)) (snd d)), (Nat.ltb_spec (snd d) (S (d_next st)));
        try lia; now rewrite ?andb_false_r.
    + simpl. exists 1, (DRef (0, d_next st)). split; [apply last_hist|]. split; [auto|]. apply incl_held; assumption.
  - destruct (submit_many (submit st jb) (JItem (0, d_next st)) 0 n) as [st2 l] eqn:Em.
    pose proof (many_spec (JItem (0, d_next st)) n (submit st jb) 0) as (A & B & C & D & F & G & H & _).
    pose proof (many_jobs st jb (JItem (0, d_next st)) n) as J. rewrite Em in *. simpl in A, B, C, D, F, G, H, J.
    assert (Jk : job_ok (hand_out st2 (DSubmit f args kw n false) (DRefs l)) (0, d_next st) jb).
    { simpl. exists n, (DRefs l). rewrite G. split; [apply last_hist|]. split; [|apply incl_held; assumption].
      intros I. exfalso. rewrite allrefs_app in I. apply in_app_or in I as [I|I]; [apply (fresh_ref st V I)|].
      simpl in I. rewrite A in I. apply in_map_iff in I as (y & Ey & I). apply in_seq in I. injection Ey as ->. lia. }
    apply (jobs_inv st _ (DSubmit f args kw n false) (DRefs l) jb n (JItem (0, d_next st)));
      try assumption; try reflexivity; simpl; try congruence.
    + right; right. exact A.
    + intros i Li. simpl. exists c, f, args, kw, n, (DRefs l). rewrite G. split; [apply last_hist|]. split; [exact n1|].
      split; [simpl; rewrite A; now apply nth_seq_refs|]. left. exists f, args, kw. simpl. rewrite J.
      unfold with_jobs. now rewrite did_eqb_refl.
  - apply (jobs_inv st _ (DSubmit f args kw n false) DNone jb 0 (JItem (0, d_next st)));
      try assumption; try reflexivity; try (intros; lia).
    + now left.
    + simpl. lia.
    + intros d. simpl. unfold with_jobs, dput. destruct (did_eqb (0, d_next st) d); [reflexivity|].
      rewrite Nat.add_0_r. destruct (Nat.leb_spec (S (d_next st)) (snd d)), (Nat.ltb_spec (snd d) (S (d_next st)));
        try lia; now rewrite ?andb_false_r.
    + simpl. exists n, DNone. split; [apply last_hist|]. split; [|apply incl_held; assumption].
      intros I. exfalso. rewrite allrefs_app in I. apply in_app_or in I as [I|[]]. apply (fresh_ref st V I).
Qed.

Lemma call_inv st a m args kw n :
  Dinv st -> incl (arg_refs args kw) (d_held st) -> a < length (d_actors st) -> Dinv (step st (DCall a m args kw n)).
Proof.
  intros V Hi La. cbn [dstep].
  set (c := length (d_hist st)). set (jb := JMeth c a m args kw).
  destruct (Nat.eqb_spec n 1) as [->|n1]; [|destruct (Nat.ltb_spec 1 n) as [n2|n2]].
  - set (st' := hand_out _ _ _).
    assert (J : forall d, d_job st' d = with_jobs st jb 1 (fun _ => JResult (0, d_next st)) d).
    { intros d. simpl. unfold with_jobs, dput. destruct (did_eqb (0, d_next st) d) eqn:E1.
      - apply did_eqb_eq in E1. subst d. destruct (did_eqb (0, S (d_next st)) (0, d_next st)) eqn:E2; [|reflexivity].
        apply did_eqb_eq in E2. injection E2 as E2. lia.
      - destruct (did_eqb (0, S (d_next st)) d) eqn:E2.
        + apply did_eqb_eq in E2. subst d. simpl fst; simpl snd.
          rewrite (proj2 (Nat.leb_le _ _)) by lia. rewrite (proj2 (Nat.ltb_lt _ _)) by lia. reflexivity.
        + apply did_eqb_neq in E2. destruct d as [x y]; simpl fst; simpl snd.
          destruct (Nat.eqb_spec x 0) as [->|]; [|reflexivity].
          assert (y <> S (d_next st)) by congruence.
          destruct (Nat.leb_spec (S (d_next st)) y), (Nat.ltb_spec y (S (d_next st) + 1)); try lia; reflexivity. }
    apply (jobs_inv st _ (DCall a m args kw 1) (DRef (0, S (d_next st))) jb 1 (fun _ => JResult (0, d_next st)));
      try assumption; try reflexivity.
    + right; right. reflexivity.
    + simpl. lia.
    + simpl. exists 1, (DRef (0, S (d_next st))). split; [apply last_hist|].
      split; [|split; [apply incl_held; assumption|exact La]].
      intros I. rewrite allrefs_app in I. apply in_app_or in I as [I|[I|[]]]; [apply (fresh_ref st V I)|].
      injection I as I. lia.
    + intros i Li. assert (i = 0) as -> by lia. simpl.
      exists c, a, m, args, kw, (DRef (0, S (d_next st))). rewrite Nat.add_0_r. split; [apply last_hist|].
      split; [reflexivity|]. left. exists a, m, args, kw. rewrite J. unfold with_jobs. now rewrite did_eqb_refl.
  - destruct (submit_many (submit st jb) (JResultItem (0, d_next st)) 0 n) as [st2 l] eqn:Em.
    pose proof (many_spec (JResultItem (0, d_next st)) n (submit st jb) 0) as (A & B & C & D & F & G & H & _).
    pose proof (many_jobs st jb (JResultItem (0, d_next st)) n) as J. rewrite Em in *. simpl in A, B, C, D, F, G, H, J.
    apply (jobs_inv st _ (DCall a m args kw n) (DRefs l) jb n (JResultItem (0, d_next st)));
      try assumption; try reflexivity; simpl; try congruence.
    + right; right. exact A.
    + exists n, (DRefs l). rewrite G, F. split; [apply last_hist|]. split; [|split; [apply incl_held; assumption|exact La]].
      intros I. rewrite allrefs_app in I. apply in_app_or in I as [I|I]; [apply (fresh_ref st V I)|].
      simpl in I. rewrite A in I. apply in_map_iff in I as (y & Ey & I). apply in_seq in I. injection Ey as ->. lia.
    + intros i Li. simpl. exists c, a, m, args, kw, n, (DRefs l). rewrite G. split; [apply last_hist|]. split; [exact n1|].
      split; [simpl; rewrite A; now apply nth_seq_refs|]. left. exists a, m, args, kw. simpl. rewrite J.
      unfold with_jobs. now rewrite did_eqb_refl.
  - apply (jobs_inv st _ (DCall a m args kw n) DNone jb 0 (JItem (0, d_next st)));
      try assumption; try reflexivity; try (intros; lia).
    + now left.
    + simpl. lia.
    + intros d. simpl. unfold with_jobs, dput. destruct (did_eqb (0, d_next st) d); [reflexivity|].
      rewrite Nat.add_0_r. destruct (Nat.leb_spec (S (d_next st)) (snd d)), (Nat.ltb_spec (snd d) (S (d_next st)));
        try lia; now rewrite ?andb_false_r.
    + simpl. exists n, DNone. split; [apply last_hist|]. split; [|split; [apply incl_held; assumption|exact La]].
      intros I. rewrite allrefs_app in I. apply in_app_or in I as [I|[]]. apply (fresh_ref st V I).
Qed.

Lemma actor_inv st c args kw b : Dinv st -> Dinv (step st (DActor c args kw b)).
Proof.
  intros V. cbn [dstep]. destruct b; [apply quiet_inv; auto|].
  destruct (cbody (length (d_hist st)) c args kw) as [x|e] eqn:Cb.
  - apply (client_inv st _ (DActor c args kw false, DMade (length (d_actors st)))); try assumption; simpl; try reflexivity.
    + now rewrite Cb.
    + intros d [].
    + constructor.
    + intros d L K. destruct (v_key _ V d K). lia.
    + intros d j L J. destruct (v_key _ V d) as [_ K]; [left; congruence|lia].
    + intros d j y L J. destruct (v_key _ V d) as [_ K]; [left; congruence|lia].
    + intros d j L J. destruct (v_key _ V d) as [_ K]; [left; congruence|lia].
    + intros d f L J. destruct (v_key _ V d) as [_ K]; [right; congruence|lia].
    + intros d j y L J. destruct (v_key _ V d) as [_ K]; [left; congruence|lia].
  - apply quiet_inv; [exact V|reflexivity|]. simpl. now rewrite Cb.
Qed.

Notation legal := (legal body cbody mbody item).

Lemma run_snoc ops o : run (ops ++ [o]) = step (run ops) o.
Proof. unfold drun. now rewrite fold_left_app. Qed.

Lemma legal_inv ops : legal ops -> Dinv (run ops).
Proof.
  induction 1 as [|ops o L V Hi Ha]; [apply init_inv|]. rewrite run_snoc. destruct o.
  - apply put_inv, V.
  - apply submit_inv; assumption.
  - apply actor_inv, V.
  - apply call_inv; try assumption. eapply Ha. reflexivity.
  - apply drop_inv, V.
  - cbn [dstep]. destruct (d_job _ d) as [j|] eqn:J; [|exact V].
    destruct (forallb _ (deps j)) eqn:W; [|exact V]. apply run_inv; assumption.
  - cbn [dstep]. destruct (d_job _ d) as [j|] eqn:J; [|exact V].
    destruct (d_fin _ x) as [[[v|e]|r]|] eqn:F; try exact V.
    destruct (did_in x (deps j)) eqn:I; [|exact V]. apply did_in_In in I. apply (fail_inv _ d j x); assumption.
  - cbn [dstep]. destruct (_ || _) eqn:B; [exact V|]. apply forget_inv; assumption.
Qed.

(** ** C57 *)
Lemma results ops d r :
  legal ops -> In d (flat_map (fun e => refs_out (snd e)) (d_hist (run ops))) -> dget (run ops) d = Some r ->
  gives (d_hist (run ops)) (d_log (run ops)) d r.
Proof.
  intros L I G. pose proof (legal_inv ops L) as V. unfold dget in G.
  destruct (d_fin (run ops) d) as [f|] eqn:F; [|discriminate].
  destruct (v_fin _ V d f F I) as (r' & -> & G'). injection G as <-. exact G'.
Qed.

Lemma step_hist st o : exists l, d_hist (step st o) = d_hist st ++ l /\ map fst l = filter is_call [o] /\
  Forall (fun e => length (refs_out (snd e)) = returns (fst e)) l.
Proof.
  destruct o; cbn [dstep]; cbn [filter is_call]; try (exists []; simpl; rewrite app_nil_r; split; [reflexivity|split; [reflexivity|constructor]]).
  - eexists. split; [reflexivity|]. split; [reflexivity|]. repeat constructor.
  - destruct reserve; [eexists; split; [reflexivity|]; split; [reflexivity|]; repeat constructor|].
    destruct (Nat.eqb_spec n 1) as [->|n1]; [eexists; split; [reflexivity|]; split; [reflexivity|]; repeat constructor|].
    destruct (Nat.ltb_spec 1 n) as [n2|n2].
    + set (jb := JFun _ _ _ _). destruct (submit_many (submit st jb) (JItem (0, d_next st)) 0 n) as [st2 l] eqn:Em.
      pose proof (many_spec (JItem (0, d_next st)) n (submit st jb) 0) as (A & B & C & D & F & G & H & _).
      rewrite Em in A, G. simpl in A, G. exists [(DSubmit f args kw n false, DRefs l)]. simpl. rewrite G.
      split; [reflexivity|]. split; [reflexivity|]. repeat constructor. simpl. rewrite A, map_length, seq_length. reflexivity.
    + eexists; split; [reflexivity|]; split; [reflexivity|]. repeat constructor. simpl. lia.
  - destruct reserve; [eexists; split; [reflexivity|]; split; [reflexivity|]; repeat constructor|].
    destruct (cbody _ _ _ _); eexists; (split; [reflexivity|]; split; [reflexivity|]; repeat constructor).
  - destruct (Nat.eqb_spec n 1) as [->|n1]; [eexists; split; [reflexivity|]; split; [reflexivity|]; repeat constructor|].
    destruct (Nat.ltb_spec 1 n) as [n2|n2].
    + set (jb := JMeth _ _ _ _ _). destruct (submit_many (submit st jb) (JResultItem (0, d_next st)) 0 n) as [st2 l] eqn:Em.
      pose proof (many_spec (JResultItem (0, d_next st)) n (submit st jb) 0) as (A & B & C & D & F & G & H & _).
      rewrite Em in A, G. simpl in A, G. exists [(DCall a m args kw n, DRefs l)]. simpl. rewrite G.
      split; [reflexivity|]. split; [reflexivity|]. repeat constructor. simpl. rewrite A, map_length, seq_length. reflexivity.
    + eexists; split; [reflexivity|]; split; [reflexivity|]. repeat constructor. simpl. lia.
  - exists []. rewrite app_nil_r. split; [|split; [reflexivity|constructor]].
    destruct (d_job st d) as [j|]; [|reflexivity]. destruct (forallb _ _); [|reflexivity].
    destruct j; simpl; try reflexivity.
    + destruct (nth_error _ _); [|reflexivity]. destruct (mbody _ _ _ _ _); reflexivity.
    + destruct (d_fin st src) as [[?|?]|]; reflexivity.
    + destruct (d_fin st src) as [[?|[?|?]]|]; reflexivity.
  - exists []. rewrite app_nil_r. split; [|split; [reflexivity|constructor]].
    destruct (d_job st d) as [j|]; [|reflexivity]. destruct (d_fin st x) as [[[?|?]|?]|]; try reflexivity.
    destruct (did_in _ _); reflexivity.
  - exists []. rewrite app_nil_r. split; [|split; [reflexivity|constructor]]. destruct (_ || _); reflexivity.
Qed.

Lemma hist_calls ops : map fst (d_hist (run ops)) = filter is_call ops /\
  Forall (fun e => length (refs_out (snd e)) = returns (fst e)) (d_hist (run ops)).
Proof.
  induction ops as [|o ops [IH1 IH2]] using rev_ind; [split; [reflexivity|constructor]|].
  rewrite run_snoc. destruct (step_hist (run ops) o) as (l & -> & M & F). split.
  - rewrite map_app, IH1, M, <- filter_app. reflexivity.
  - apply Forall_app. auto.
Qed.

Lemma refs_ok ops :
  legal ops ->
  map fst (d_hist (run ops)) = filter is_call ops /\
  (forall o out, In (o, out) (d_hist (run ops)) -> length (refs_out out) = returns o) /\
  NoDup (flat_map (fun e => refs_out (snd e)) (d_hist (run ops))).
Proof.
  intros L. destruct (hist_calls ops) as [H F]. split; [exact H|]. split.
  - intros o out I. rewrite Forall_forall in F. apply (F _ I).
  - apply (v_nodup _ (legal_inv ops L)).
Qed.

Lemma objects ops : legal ops ->
  d_actors (run ops) = snd (direct (made 0 (d_hist (run ops))) (d_log (run ops))).
Proof. intros L. apply (v_acts _ (legal_inv ops L)). Qed.

Lemma once ops : legal ops -> NoDup (map fst (d_log (run ops))).
Proof. intros L. apply (v_once _ (legal_inv ops L)). Qed.

Lemma args_first ops l1 c e l2 : legal ops -> d_log (run ops) = l1 ++ (c, e) :: l2 ->
  exists o out s, nth_error (d_hist (run ops)) c = Some (o, out) /\ entry o s = Some e /\
    forall x, In x (refs_in o) -> gives (d_hist (run ops)) l1 x (Ret (s x)).
Proof. intros L. apply (v_logged _ (legal_inv ops L)). Qed.

(** ** C58 *)
Lemma finish_changes st d j f acts l : d_job st d = Some j -> finish st d f acts l <> st.
Proof.
  intros J E0. assert (H : d_job (finish st d f acts l) d = d_job st d) by now rewrite E0.
  simpl in H. rewrite ddel_same, J in H. discriminate.
Qed.

Lemma base_shape st d j : Dinv st -> d_job st d = Some j -> forallb (finished_well st) (deps j) = true ->
  exists f acts l, run_job body mbody item st d j = finish st d f acts l.
Proof.
  intros V J W. pose proof (v_job _ V d j J) as O.
  destruct j as [c g args kw|s i|c a m args kw|s|s i]; simpl in O; unfold run_job; try (eexists _, _, _; reflexivity).
  - destruct O as (n & out & _ & _ & _ & La). destruct (nth_error (d_actors st) a) eqn:N;
      [|apply nth_error_None in N; lia]. destruct (mbody _ _ _ _ _). eexists _, _, _; reflexivity.
  - destruct O as (c & a & m & args & kw & out & N & _ & B). simpl in W. rewrite andb_true_r in W. unfold finished_well in W.
    destruct B as [(a' & m' & args' & kw' & J')|[(r' & F' & R)|(r' & F' & R)]].
    + rewrite (v_one _ V _ _ J') in W. discriminate.
    + rewrite F'. eexists _, _, _; reflexivity.
    + rewrite F' in W. discriminate.
  - destruct O as (c & a & m & args & kw & n & out & N & _ & _ & B). simpl in W. rewrite andb_true_r in W. unfold finished_well in W.
    destruct B as [(a' & m' & args' & kw' & J')|[(r' & F' & R)|(r' & F' & R)]].
    + rewrite (v_one _ V _ _ J') in W. discriminate.
    + rewrite F'. destruct r'; eexists _, _, _; reflexivity.
    + rewrite F' in W. discriminate.
Qed.

Lemma rest_finished st : Dinv st -> at_rest body cbody mbody item st -> forall d, known st d -> d_fin st d <> None.
Proof.
  intros V R. assert (H : forall k d, snd d < k -> known st d -> d_fin st d <> None).
  { induction k as [|k IH]; [lia|]. intros d L [K|K]; [|exact K].
    destruct (d_job st d) as [j|] eqn:J; [|congruence]. exfalso.
    assert (D : forall x, In x (deps j) -> d_fin st x <> None).
    { intros x I. destruct (v_deps _ V d j x J I) as [Kx Lx]. apply IH; [lia|exact Kx]. }
    destruct (forallb (finished_well st) (deps j)) eqn:W.
    - pose proof (R (DRun d)) as Rd. cbn [dstep] in Rd. rewrite J, W in Rd.
      destruct (base_shape st d j V J W) as (f & acts & l & Eq). rewrite Eq in Rd. revert Rd. apply (finish_changes _ _ j), J.
    - assert (exists x, In x (deps j) /\ finished_well st x = false) as (x & I & Wx).
      { clear -W. induction (deps j) as [|y l IH]; [discriminate|]. simpl in W. apply andb_false_iff in W as [W|W].
        - exists y. split; [now left|exact W].
        - destruct (IH W) as (x & I & Wx). exists x. split; [now right|exact Wx]. }
      specialize (D x I). unfold finished_well in Wx.
      destruct (d_fin st x) as [[[v|e]|r]|] eqn:F; try discriminate; try congruence.
      pose proof (R (DFail d x)) as Rd. cbn [dstep] in Rd. rewrite J, F in Rd.
      rewrite (proj2 (did_in_In x (deps j)) I) in Rd. revert Rd. apply (finish_changes _ _ j), J. }
  intros d K. apply (H (S (snd d))); [lia|exact K].
Qed.

Lemma kept_finished ops d : legal ops -> at_rest body cbody mbody item (run ops) -> In d (d_held (run ops)) ->
  exists r, dget (run ops) d = Some r.
Proof.
  intros L R I. pose proof (legal_inv ops L) as V. destruct (v_held _ V d I) as [K A].
  pose proof (rest_finished _ V R d K) as F. destruct (d_fin (run ops) d) as [f|] eqn:Fd; [|congruence].
  destruct (v_fin _ V d f Fd A) as (r & -> & _). exists r. unfold dget. now rewrite Fd.
Qed.

Lemma nodup_owner h c c' o o' out out' d :
  NoDup (allrefs h) -> nth_error h c = Some (o, out) -> nth_error h c' = Some (o', out') ->
  In d (refs_out out) -> In d (refs_out out') -> c = c'.
Proof.
  revert c c'. induction h as [|x h IH]; intros c c' ND N N' I I'; [destruct c; discriminate|].
  unfold allrefs in ND. simpl in ND. fold (allrefs h) in ND.
  assert (Sep : forall y, In y (refs_out (snd x)) -> ~ In y (allrefs h)).
  { intros y Y1 Y2. clear -ND Y1 Y2. induction (refs_out (snd x)) as [|z l IH']; [destruct Y1|].
    simpl in ND. inversion ND as [|? ? N1 N2]; subst. destruct Y1 as [->|Y1]; [|apply IH'; assumption].
    apply N1. apply in_or_app. now right. }
  destruct c as [|c], c' as [|c']; simpl in N, N'; [reflexivity| | |].
  - exfalso. injection N as ->. apply (Sep d I). apply (allrefs_in _ _ _ _ _ N' I').
  - exfalso. injection N' as ->. apply (Sep d I'). apply (allrefs_in _ _ _ _ _ N I).
  - f_equal. apply IH; try assumption. clear -ND. induction (refs_out (snd x)); [exact ND|]. inversion ND; auto.
Qed.

Lemma gives_run h log c o out d r :
  NoDup (allrefs h) -> gives h log d r -> nth_error h c = Some (o, out) -> In d (refs_out out) ->
  (exists v, o = DPut v) \/ In c (map fst log) \/ exists x e, In x (refs_in o) /\ gives h log x (Exn e).
Proof.
  intros ND G N I. destruct G as [c' v d N'|c' o' out' d x x' N' I' J G|c' o' out' d i s ent r N' I' A En L D].
  - assert (c = c') by (apply (nodup_owner h c c' _ _ _ _ d ND N N' I); now left). subst c'.
    rewrite N in N'. injection N' as -> _. left. eauto.
  - assert (c = c') by (apply (nodup_owner h c c' _ _ _ _ d ND N N' I I')). subst c'.
    rewrite N in N'. injection N' as -> _. right; right. eauto.
  - apply nth_error_In in I'. assert (c = c') by (apply (nodup_owner h c c' _ _ _ _ d ND N N' I I')). subst c'.
    right; left. apply in_map_iff. exists (c, ent). auto.
Qed.

Lemma kept_run ops c o out d :
  legal ops -> at_rest body cbody mbody item (run ops) ->
  nth_error (d_hist (run ops)) c = Some (o, out) -> In d (refs_out out) -> In d (d_held (run ops)) ->
  (forall x e, In x (refs_in o) -> ~ gives (d_hist (run ops)) (d_log (run ops)) x (Exn e)) ->
  (exists v, o = DPut v) \/ In c (map fst (d_log (run ops))).
Proof.
  intros L R N I H Ok. pose proof (legal_inv ops L) as V.
  destruct (kept_finished ops d L R H) as (r & G).
  assert (Gv : gives (d_hist (run ops)) (d_log (run ops)) d r).
  { apply results; [exact L|apply (allrefs_in _ _ _ _ _ N I)|exact G]. }
  destruct (gives_run _ _ c o out d r (v_nodup _ V) Gv N I) as [P|[P|(x & e & P & Q)]]; auto.
  exfalso. apply (Ok x e P Q).
Qed.

(** Every step of the scheduler takes a task away. *)
Definition todo (st : dst) : nat :=
  length (filter (fun k => match d_job st (0, k) with Some _ => true | None => false end) (seq 0 (d_next st))).

Lemma finish_todo st d j f acts l : Dinv st -> d_job st d = Some j -> todo (finish st d f acts l) < todo st.
Proof.
  intros V J. destruct (v_key _ V d) as [F L]; [left; congruence|]. destruct d as [x k]; simpl in F, L; subst x.
  unfold todo; simpl. assert (I : In k (seq 0 (d_next st))) by (apply in_seq; lia).
  clear L V. revert I. induction (seq 0 (d_next st)) as [|y r IH]; intros I; [destruct I|]. simpl.
  assert (LE : forall r, length (filter (fun k0 => match ddel (d_job st) (0, k) (0, k0) with Some _ => true | None => false end) r)
               <= length (filter (fun k0 => match d_job st (0, k0) with Some _ => true | None => false end) r)).
  { clear. induction r as [|y r IH]; [apply le_n|]. simpl. destruct (did_dec (0, k) (0, y)) as [E1|N].
    - rewrite E1, ddel_same. rewrite E1 in IH. destruct (d_job st (0, y)); simpl; lia.
    - rewrite ddel_other by assumption. destruct (d_job st (0, y)); simpl; lia. }
  destruct (Nat.eq_dec y k) as [->|N].
  - rewrite ddel_same, J. specialize (LE r). simpl. lia.
  - rewrite ddel_other by congruence. destruct I as [->|I]; [contradiction|]. specialize (IH I).
    destruct (d_job st (0, y)); simpl; lia.
Qed.

Lemma sched_ends ops : legal ops -> Acc (fun st' st => progress body cbody mbody item st st') (run ops).
Proof.
  intros L. pose proof (legal_inv ops L) as V. remember (run ops) as st. clear ops L Heqst.
  remember (todo st) as n eqn:En. revert st V En. induction n as [n IH] using lt_wf_ind. intros st V En.
  constructor. intros st' (Ne & o & Eo). destruct o; try contradiction; cbn [dstep] in Eo.
  - destruct (d_job st d) as [j|] eqn:J; [|congruence]. destruct (forallb (finished_well st) (deps j)) eqn:W; [|congruence].
    apply (IH (todo st')); [|rewrite Eo; now apply run_inv|reflexivity].
    destruct (base_shape st d j V J W) as (f & acts & l & Eq). rewrite Eo, Eq, En. apply (finish_todo _ _ j); assumption.
  - destruct (d_job st d) as [j|] eqn:J; [|congruence].
    destruct (d_fin st x) as [[[v|e]|r]|] eqn:F; try congruence.
    destruct (did_in x (deps j)) eqn:I; [|congruence]. apply did_in_In in I.
    apply (IH (todo st')); [|rewrite Eo; apply (fail_inv st d j x); assumption|reflexivity].
    rewrite Eo, En. apply (finish_todo _ _ j); assumption.
Qed.

(** ** C59 *)
Lemma step_log st o : exists l, d_log (step st o) = d_log st ++ l.
Proof.
  destruct o; cbn [dstep]; try (exists []; now rewrite app_nil_r).
  - exists []. rewrite app_nil_r. destruct reserve; [reflexivity|]. destruct (Nat.eqb n 1); [reflexivity|].
    destruct (Nat.ltb 1 n); [|reflexivity].
    set (jb := JFun _ _ _ _). destruct (submit_many (submit st jb) (JItem (0, d_next st)) 0 n) as [st2 l] eqn:Em.
    pose proof (many_spec (JItem (0, d_next st)) n (submit st jb) 0) as (A & B & C & D & F & G & H & _).
    rewrite Em in H. simpl in H. simpl. exact H.
  - exists []. rewrite app_nil_r. destruct reserve; [reflexivity|]. destruct (cbody _ _ _ _); reflexivity.
  - exists []. rewrite app_nil_r. destruct (Nat.eqb n 1); [reflexivity|].
    destruct (Nat.ltb 1 n); [|reflexivity].
    set (jb := JMeth _ _ _ _ _). destruct (submit_many (submit st jb) (JResultItem (0, d_next st)) 0 n) as [st2 l] eqn:Em.
    pose proof (many_spec (JResultItem (0, d_next st)) n (submit st jb) 0) as (A & B & C & D & F & G & H & _).
    rewrite Em in H. simpl in H. simpl. exact H.
  - destruct (d_job st d) as [j|]; [|exists []; now rewrite app_nil_r].
    destruct (forallb _ _); [|exists []; now rewrite app_nil_r].
    destruct j; simpl; try (eexists; reflexivity).
    + destruct (nth_error _ _); [|exists []; now rewrite app_nil_r]. destruct (mbody _ _ _ _ _); eexists; reflexivity.
    + destruct (d_fin st src) as [[?|?]|]; try (eexists; reflexivity); exists []; now rewrite app_nil_r.
    + destruct (d_fin st src) as [[?|[?|?]]|]; try (eexists; reflexivity); exists []; now rewrite app_nil_r.
  - destruct (d_job st d) as [j|]; [|exists []; now rewrite app_nil_r].
    destruct (d_fin st x) as [[[?|?]|?]|]; try (exists []; now rewrite app_nil_r).
    destruct (did_in _ _); try (eexists; reflexivity); exists []; now rewrite app_nil_r.
  - exists []. rewrite app_nil_r. destruct (_ || _); reflexivity.
Qed.

Lemma run_more ops ops' : (exists l, d_hist (run (ops ++ ops')) = d_hist (run ops) ++ l) /\
                          (exists l, d_log (run (ops ++ ops')) = d_log (run ops) ++ l).
Proof.
  induction ops' as [|o ops' [[l1 H1] [l2 H2]]] using rev_ind.
  - rewrite app_nil_r. split; exists []; now rewrite app_nil_r.
  - rewrite app_assoc, run_snoc. destruct (step_hist (run (ops ++ ops')) o) as (h & Eh & _).
    destruct (step_log (run (ops ++ ops')) o) as (l & El). rewrite Eh, El, H1, H2, <- !app_assoc. eauto.
Qed.

Lemma legal_prefix ops ops' : legal (ops ++ ops') -> legal ops.
Proof.
  induction ops' as [|o ops' IH] using rev_ind; [now rewrite app_nil_r|]. rewrite app_assoc. intros H.
  inversion H as [E0|ops0 o0 L Hi Ha E0]; [symmetry in E0; apply app_eq_nil in E0 as [_ E0]; discriminate|].
  apply app_inj_tail in E0 as [-> ->]. apply IH, L.
Qed.

Lemma waited_order ops ops' c o out d r c' :
  legal (ops ++ ops') ->
  nth_error (d_hist (run ops)) c = Some (o, out) -> In d (refs_out out) -> dget (run ops) d = Some r ->
  length (d_hist (run ops)) <= c' ->
  (forall x e, In x (refs_in o) -> ~ gives (d_hist (run ops)) (d_log (run ops)) x (Exn e)) ->
  (exists v, o = DPut v) \/ run_before (d_log (run (ops ++ ops'))) c c'.
Proof.
  intros L N I G Lc Ok. pose proof (legal_inv ops (legal_prefix _ _ L)) as V.
  assert (Gv : gives (d_hist (run ops)) (d_log (run ops)) d r).
  { apply results; [apply (legal_prefix _ _ L)|apply (allrefs_in _ _ _ _ _ N I)|exact G]. }
  destruct (gives_run _ _ c o out d r (v_nodup _ V) Gv N I) as [P|[P|(x & e & P & Q)]]; [now left| |exfalso; apply (Ok x e P Q)].
  right. destruct (run_more ops ops') as [_ [l El]]. exists (d_log (run ops)), l. split; [exact El|]. split; [exact P|].
  intros H. apply (v_log _ V) in H. lia.
Qed.

Lemma gives_ret h log c o out d v :
  NoDup (allrefs h) -> gives h log d (Ret v) -> nth_error h c = Some (o, out) -> In d (refs_out out) ->
  (exists v, o = DPut v) \/ In c (map fst log).
Proof.
  intros ND G N I. inversion G as [c' v' d' N' E1 E2|c' o' out' d' x x' N' I' J G' E1 E2|c' o' out' d' i s ent r N' I' A En L D E1 E2].
  - assert (c = c') by (apply (nodup_owner h c c' _ _ _ _ d ND N N' I); now left). subst c'.
    rewrite N in N'. injection N' as -> _. left. eauto.
  - apply nth_error_In in I'. assert (c = c') by (apply (nodup_owner h c c' _ _ _ _ d ND N N' I I')). subst c'.
    right. apply in_map_iff. exists (c, ent). auto.
Qed.

Lemma dependent_order ops c o out d c' o' out' :
  legal ops ->
  nth_error (d_hist (run ops)) c = Some (o, out) -> In d (refs_out out) ->
  nth_error (d_hist (run ops)) c' = Some (o', out') -> In d (refs_in o') -> In c' (map fst (d_log (run ops))) ->
  (exists v, o = DPut v) \/ run_before (d_log (run ops)) c c'.
Proof.
  intros L N I N' I' Lc. pose proof (legal_inv ops L) as V.
  apply in_map_iff in Lc as ([c'' e] & Ec & Lc). simpl in Ec. subst c''.
  apply in_split in Lc as (l1 & l2 & El).
  destruct (v_logged _ V _ _ _ _ El) as (o'' & out'' & s & N'' & En & A).
  rewrite N' in N''. injection N'' as <- <-. specialize (A d I').
  destruct (gives_ret _ _ c o out d _ (v_nodup _ V) A N I) as [P|P]; [now left|].
  right. exists l1, ((c', e) :: l2). split; [exact El|]. split; [exact P|].
  pose proof (v_once _ V) as ND. rewrite El, map_app in ND. simpl in ND. apply NoDup_remove_2 in ND.
  intros H. apply ND. apply in_or_app. now left.
Qed.
End Proofs.
