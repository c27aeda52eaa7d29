(** C99, Dask: results of a program that waits for each method call before the next one on the same actor. *)
From Verif Require Import Lib ValModel PyseqModel PyseqSpec PyseqProofs PortSpec PortHist PortShows PortDone ObjSpec ObjHist.
From Verif Require Import DaskRunModel ObjWaitSpec.
From Verif Require DaskRunSpec DaskRunProofs PortDask ObjDoneDask ActGives.
Notation refs_out := DaskRunSpec.refs_out.

Definition isx (r : res) : Prop := exists e, r = Exn e.
Definition sameR (r R : res) : Prop := match R with Ret v => r = Ret v | Exn _ => isx r end.

(** What a future stands for, by direct execution: a result, or the ActorFuture of one. *)
Inductive mean := MFin (R : res) | MFut (R : res).
Definition meaning := dataid -> option mean.
Definition mval (M : meaning) (x : dataid) : val := match M x with Some (MFin (Ret v)) => v | _ => VLeaf 0 end.
Definition good (M : meaning) (xs : list dataid) : Prop := forall x, In x xs -> exists v, M x = Some (MFin (Ret v)).
Definition bad (M : meaning) (xs : list dataid) : Prop := exists x e, In x xs /\ M x = Some (MFin (Exn e)).
Definition knownM (M : meaning) (xs : list dataid) : Prop := forall x, In x xs -> exists R, M x = Some (MFin R).

Lemma good_bad M xs : good M xs -> bad M xs -> False.
Proof. intros G (x & e & I & E). destruct (G x I) as [v H]. congruence. Qed.

Definition ext (M M' : meaning) : Prop := forall x, M x <> None -> M' x = M x.

Lemma ext_some M M' x y : ext M M' -> M x = Some y -> M' x = Some y.
Proof. intros X E. rewrite X; congruence. Qed.
Lemma known_ext M M' xs : ext M M' -> knownM M xs -> knownM M' xs.
Proof. intros X K x I. destruct (K x I) as [R E]. exists R. eapply ext_some; eauto. Qed.
Lemma known_same M M' xs x : ext M M' -> knownM M xs -> In x xs -> M' x = M x.
Proof. intros X K I. destruct (K x I) as [R E]. apply X. congruence. Qed.
Lemma good_back M M' xs : ext M M' -> knownM M xs -> good M' xs -> good M xs.
Proof. intros X K G x I. destruct (G x I) as [v E]. exists v. rewrite <- E. symmetry. eapply known_same; eauto. Qed.
Lemma bad_back M M' xs : ext M M' -> knownM M xs -> bad M' xs -> bad M xs.
Proof. intros X K (x & e & I & E). exists x, e. split; auto. rewrite <- E. symmetry. eapply known_same; eauto. Qed.

Lemma fill_same s s' vs ks : (forall x, In x (arg_refs vs ks) -> s x = s' x) -> fill s vs = fill s' vs /\ fill_kw s ks = fill_kw s' ks.
Proof.
  intros H. split.
  - apply map_ext_in. intros v I. apply ActGives.subst_ext. intros d D. apply H. apply in_or_app. left. apply in_flat_map. eauto.
  - apply map_ext_in. intros [k v] I. cbn. f_equal. apply ActGives.subst_ext. intros d D. apply H. apply in_or_app. right. apply in_flat_map. exists (k, v). auto.
Qed.

Section Wait.
Variable body : nat -> list val -> kwargs -> res.
Variable cbody : nat -> list val -> kwargs -> res.
Variable mbody : nat -> val -> list val -> kwargs -> res * val.
Variable item : val -> nat -> res.
Hypothesis Ix : indexing item.
Notation step := (dstep (fun _ => body) (fun _ => cbody) (fun _ => mbody) item).
Notation run := (drun (fun _ => body) (fun _ => cbody) (fun _ => mbody) item).
Notation lg := (DaskRunSpec.legal (fun _ => body) (fun _ => cbody) (fun _ => mbody) item).
Notation Dinv := (DaskRunProofs.Dinv (fun _ => body) (fun _ => cbody) (fun _ => mbody) item).
Notation odir := (odirect body cbody mbody).

Definition pick (R : res) (i : nat) : res := match R with Ret v => item v i | Exn e => Exn e end.

Definition fun_ok (M : meaning) (f : nat) vs ks (R : res) : Prop :=
  knownM M (arg_refs vs ks) /\ (bad M (arg_refs vs ks) -> isx R) /\
  (good M (arg_refs vs ks) -> R = body f (fill (mval M) vs) (fill_kw (mval M) ks)).
Definition meth_ok (M : meaning) (m : nat) vs ks (R : res) (s t : val) : Prop :=
  knownM M (arg_refs vs ks) /\ (bad M (arg_refs vs ks) -> isx R /\ t = s) /\
  (good M (arg_refs vs ks) -> mbody m s (fill (mval M) vs) (fill_kw (mval M) ks) = (R, t)).

Lemma mval_same M M' vs ks : ext M M' -> knownM M (arg_refs vs ks) -> fill (mval M') vs = fill (mval M) vs /\ fill_kw (mval M') ks = fill_kw (mval M) ks.
Proof. intros X K. apply fill_same. intros x I. unfold mval. rewrite (known_same M M' _ x X K I). reflexivity. Qed.
Lemma fun_ext M M' f vs ks R : ext M M' -> fun_ok M f vs ks R -> fun_ok M' f vs ks R.
Proof.
  intros X (K & B & G). destruct (mval_same M M' vs ks X K) as [E1 E2]. split; [eapply known_ext; eauto|]. rewrite E1, E2. split.
  - intros H. apply B. eapply bad_back; eauto.
  - intros H. apply G. eapply good_back; eauto.
Qed.
Lemma meth_ext M M' m vs ks R s t : ext M M' -> meth_ok M m vs ks R s t -> meth_ok M' m vs ks R s t.
Proof.
  intros X (K & B & G). destruct (mval_same M M' vs ks X K) as [E1 E2]. split; [eapply known_ext; eauto|]. rewrite E1, E2. split.
  - intros H. apply B. eapply bad_back; eauto.
  - intros H. apply G. eapply good_back; eauto.
Qed.

Definition job_ok (M : meaning) (acts objs : list val) (d : dataid) (j : job) : Prop :=
  match j with
  | JFun _ f vs ks => exists R, M d = Some (MFin R) /\ fun_ok M f vs ks R
  | JMeth _ a m vs ks => exists R s t, M d = Some (MFut R) /\ nth_error acts a = Some s /\ nth_error objs a = Some t /\ meth_ok M m vs ks R s t
  | JItem x i => exists R, M x = Some (MFin R) /\ M d = Some (MFin (pick R i))
  | JResult x => exists R, M x = Some (MFut R) /\ M d = Some (MFin R)
  | JResultItem x i => exists R, M x = Some (MFut R) /\ M d = Some (MFin (pick R i))
  end.

Definition fin_ok (M : meaning) (d : dataid) (f : fin) : Prop :=
  match f with
  | Fin r => (exists R, M d = Some (MFin R) /\ sameR r R) \/ (exists R, M d = Some (MFut R) /\ isx R /\ isx r)
  | Fut r => M d = Some (MFut r)
  end.

Lemma job_ext M M' acts objs acts' objs' d j : ext M M' -> job_ok M acts objs d j ->
  (forall c a m vs ks, j = JMeth c a m vs ks -> nth_error acts' a = nth_error acts a /\ nth_error objs' a = nth_error objs a) -> job_ok M' acts' objs' d j.
Proof.
  intros X J H. destruct j as [c f vs ks|x i|c a m vs ks|x|x i]; cbn in *.
  - destruct J as (R & A & B). exists R. split; [eapply ext_some; eauto|eapply fun_ext; eauto].
  - destruct J as (R & A & B). exists R. split; eapply ext_some; eauto.
  - destruct J as (R & s & t & A & B & C & D). destruct (H _ _ _ _ _ eq_refl) as [E1 E2]. exists R, s, t. rewrite E1, E2. split; [eapply ext_some; eauto|]. split; auto. split; auto. eapply meth_ext; eauto.
  - destruct J as (R & A & B). exists R. split; eapply ext_some; eauto.
  - destruct J as (R & A & B). exists R. split; eapply ext_some; eauto.
Qed.
Lemma fin_ext M M' d f : ext M M' -> fin_ok M d f -> fin_ok M' d f.
Proof.
  intros X. destruct f; cbn.
  - intros [(R & A & B)|(R & A & B)]; [left|right]; exists R; (split; [eapply ext_some; eauto|auto]).
  - apply ext_some; auto.
Qed.
Lemma fin_new M d f : fin_ok M d f -> M d <> None.
Proof. destruct f; cbn; [intros [(R & A & B)|(R & A & B)]|intros A]; congruence. Qed.

Definition refs_mean (M : meaning) (rs : list (list dataid)) (env : list (list res)) : Prop :=
  forall c i d, ref_at rs c i = Some d -> exists R, M d = Some (MFin R) /\ result_of env c i = Some R.

(** ** What the arguments stand for *)
Lemma list_mean M rs env args vs : refs_mean M rs env -> Forall2 (stands rs) args vs -> (forall v, In (AVal v) args -> plain v) ->
  knownM M (flat_map refs vs) /\
  ((good M (flat_map refs vs) /\ all_ok (map (arg_result env) args) = Some (inl (map (subst (mval M)) vs))) \/
   (bad M (flat_map refs vs) /\ exists e, all_ok (map (arg_result env) args) = Some (inr e))).
Proof.
  intros St F. induction F as [|a v args vs S0 F IH]; intros P; [split; [intros x []|left; split; [intros x []|reflexivity]]|].
  destruct (IH (fun w I => P w (or_intror I))) as [K IH']. clear IH. destruct a as [w|c i]; cbn in S0.
  - subst v. assert (Pw : refs w = []) by (apply P; now left). cbn. rewrite Pw, (PortDask.subst_plain (mval M) w Pw). cbn. split; [exact K|].
    destruct IH' as [[G ->]|[B [e ->]]]; [left; auto|right; eauto].
  - destruct S0 as (d & R & ->). destruct (St c i d R) as (r & D & E). cbn. rewrite E. split; [intros x [<-|I]; [eauto|auto]|].
    destruct r as [w|e].
    + assert (V : mval M d = w) by (unfold mval; now rewrite D). destruct IH' as [[G ->]|[(x & e & I & B) [e' ->]]].
      * left. rewrite V. split; [|reflexivity]. intros x [<-|I]; [eauto|auto].
      * right. split; [exists x, e; split; [now right|auto]|eauto].
    + right. split; [exists d, e; split; [now left|auto]|]. eauto.
Qed.

Lemma known_app M l m : knownM M l -> knownM M m -> knownM M (l ++ m).
Proof. intros A B x I. apply in_app_or in I as [I|I]; auto. Qed.

Lemma call_mean M rs env args kw vs ks : refs_mean M rs env -> Forall2 (stands rs) args vs -> Forall2 (stands_kw rs) kw ks ->
  (forall v, In (AVal v) (args ++ map snd kw) -> plain v) ->
  knownM M (arg_refs vs ks) /\
  ((good M (arg_refs vs ks) /\ exists K, all_ok (map (arg_result env) args) = Some (inl (fill (mval M) vs)) /\
      all_ok (map (arg_result env) (map snd kw)) = Some (inl K) /\ combine (map fst kw) K = fill_kw (mval M) ks) \/
   (bad M (arg_refs vs ks) /\ exists e, all_ok (map (arg_result env) args) = Some (inr e) \/
     exists l, all_ok (map (arg_result env) args) = Some (inl l) /\ all_ok (map (arg_result env) (map snd kw)) = Some (inr e))).
Proof.
  intros St Fa Fk P. unfold arg_refs. rewrite ObjDoneDask.kw_refs.
  destruct (list_mean M rs env args vs St Fa) as [K1 H1]; [intros v I; apply P, in_or_app; now left|].
  destruct (list_mean M rs env (map snd kw) (map snd ks) St (ObjDoneDask.snd_stands _ _ _ Fk)) as [K2 H2]; [intros v I; apply P, in_or_app; now right|].
  split; [apply known_app; auto|]. destruct H1 as [[G1 A]|[(x & e & I & B1) [e' A]]].
  - destruct H2 as [[G2 B]|[(x & e & I & B1) [e' B]]].
    + left. split; [intros x I; apply in_app_or in I as [I|I]; auto|]. exists (map (subst (mval M)) (map snd ks)). split; [exact A|]. split; [exact B|].
      rewrite (ObjDoneDask.fst_same _ _ _ Fk). apply ObjDoneDask.fill_combine.
    + right. split; [exists x, e; split; [apply in_or_app; now right|exact B1]|]. exists e'. right. eauto.
  - right. split; [exists x, e; split; [apply in_or_app; now left|exact B1]|]. exists e'. now left.
Qed.

Lemma fun_mean M rs env f args kw vs ks n : refs_mean M rs env -> Forall2 (stands rs) args vs -> Forall2 (stands_kw rs) kw ks ->
  (forall v, In (AVal v) (args ++ map snd kw) -> plain v) ->
  exists R, fun_ok M f vs ks R /\ perform body env (CFun f args kw n) = each n R /\ (isx R \/ exists a b, R = body f a b).
Proof.
  intros St Fa Fk P. cbn [perform]. destruct (call_mean M rs env args kw vs ks St Fa Fk P) as [K [[G (L & -> & -> & ->)]|[B [e A]]]].
  - exists (body f (fill (mval M) vs) (fill_kw (mval M) ks)). split; [|split; [reflexivity|eauto]]. split; [exact K|]. split; [|auto]. intros B. elim (good_bad _ _ G B).
  - exists (Exn e). split; [|split; [destruct A as [->|(l & -> & ->)]; reflexivity|left; exists e; auto]]. split; [exact K|]. split; [intros _; exists e; auto|]. intros G. elim (good_bad _ _ G B).
Qed.

Lemma meth_mean M rs env objs a m s args kw vs ks n : refs_mean M rs env -> Forall2 (stands rs) args vs -> Forall2 (stands_kw rs) kw ks ->
  (forall v, In (AVal v) (args ++ map snd kw) -> plain v) -> nth_error objs a = Some s ->
  exists R t objs', meth_ok M m vs ks R s t /\ operform body cbody mbody (env, objs) (TMeth a m args kw n) = (env ++ [each n R], objs') /\
    (isx R \/ exists x y z, R = fst (mbody m x y z)) /\ length objs' = length objs /\ nth_error objs' a = Some t /\ (forall b, b <> a -> nth_error objs' b = nth_error objs b).
Proof.
  intros St Fa Fk P S0. assert (La : a < length objs) by (apply nth_error_Some; congruence).
  cbn [operform]. rewrite S0. destruct (call_mean M rs env args kw vs ks St Fa Fk P) as [K [[G (L & -> & -> & ->)]|[B [e A]]]].
  - destruct (mbody m s (fill (mval M) vs) (fill_kw (mval M) ks)) as [r s'] eqn:Mb. exists r, s', (set_at objs a s').
    split; [split; [exact K|]; split; [intros B; elim (good_bad _ _ G B)|auto]|]. split; [reflexivity|].
    split; [right; exists s, (fill (mval M) vs), (fill_kw (mval M) ks); now rewrite Mb|]. split; [now apply set_at_length|]. split; [now apply set_at_same|]. intros b Nb. now apply set_at_other.
  - exists (Exn e), s, objs. split; [split; [exact K|]; split; [intros _; split; [exists e; auto|auto]|intros G; elim (good_bad _ _ G B)]|].
    split; [destruct A as [->|(l & -> & ->)]; reflexivity|]. split; [left; exists e; auto|auto].
Qed.

(** ** The state of the actors *)
Definition no_meth (st : dst) (a : nat) : Prop := forall d c m vs ks, d_job st d <> Some (JMeth c a m vs ks).

Definition actor_ok (E : dataid -> Prop) (st : dst) (objs : list val) (a : nat) : Prop :=
  (no_meth st a /\ nth_error (d_actors st) a = nth_error objs a) \/
  (exists d0 c m vs ks m' args' kw' n' out, d_job st d0 = Some (JMeth c a m vs ks) /\ In (DCall a m' args' kw' n', out) (d_hist st) /\
     forall x, In x (refs_out out) -> ~ E x /\ d_fin st x = None /\ snd x < d_next st /\ x <> d0 /\ forall j, d_job st x = Some j -> deps j = [d0]) \/
  (no_meth st a /\ exists m' args' kw' n' out, In (DCall a m' args' kw' n', out) (d_hist st) /\
     forall x, In x (refs_out out) -> ~ E x /\ d_fin st x = None /\ snd x < d_next st /\ d_job st x = None).

Record W (M : meaning) (E : dataid -> Prop) (st : dst) (p : list ocall) (rs : list (list dataid)) (hs : list nat) : Prop := {
  w_new : forall d, M d <> None -> snd d < d_next st;
  w_job : forall d j, d_job st d = Some j -> job_ok M (d_actors st) (snd (odir p)) d j;
  w_fin : forall d f, d_fin st d = Some f -> fin_ok M d f;
  w_ref : refs_mean M rs (fst (odir p));
  w_env : length (fst (odir p)) = length p;
  w_rs : length rs = length p;
  w_hs : hs = seq 0 (length (d_actors st));
  w_objs : length (snd (odir p)) = length (d_actors st);
  w_ever : forall x, E x -> snd x < d_next st;
  w_one : forall d d' c c' a m m' vs vs' ks ks', d_job st d = Some (JMeth c a m vs ks) -> d_job st d' = Some (JMeth c' a m' vs' ks') -> d = d';
  w_act : forall a, a < length (d_actors st) -> actor_ok E st (snd (odir p)) a
}.

Definition meth_on (j : job) (b : nat) : bool := match j with JMeth _ a _ _ _ => Nat.eqb a b | _ => false end.

(** ** Steps of the scheduler *)
Lemma W_finish M (E E' : dataid -> Prop) st p rs hs d j f acts log : Dinv st -> W M E st p rs hs -> d_job st d = Some j -> fin_ok M d f -> length acts = length (d_actors st) ->
  (forall b, nth_error acts b = if meth_on j b then nth_error (snd (odir p)) b else nth_error (d_actors st) b) ->
  (forall y, deps j = [y] -> d_fin st y <> None) ->
  (forall x, E' x -> E x \/ d_fin (finish st d f acts log) x <> None) ->
  W M E' (finish st d f acts log) p rs hs.
Proof.
  intros V Wi J Fk La Ha Hd HE. destruct Wi as [w1 w2 w3 w4 w5 w5' w6 w7 w8 w9 w10].
  assert (JJ : forall x k, ddel (d_job st) d x = Some k -> x <> d /\ d_job st x = Some k).
  { intros x k H. unfold ddel in H. destruct (did_eqb d x) eqn:Q; [discriminate|]. apply did_eqb_neq in Q. split; [congruence|exact H]. }
  assert (FF : forall x, x <> d -> dput (d_fin st) d f x = d_fin st x).
  { intros x N. unfold dput. destruct (did_eqb d x) eqn:Q; [apply did_eqb_eq in Q; congruence|reflexivity]. }
  split; cbn [finish d_job d_fin d_next d_actors d_hist] in *.
  - exact w1.
  - intros x k H. apply JJ in H as [N H]. apply (job_ext M M (d_actors st) (snd (odir p))); [intros y _; reflexivity|now apply w2|].
    intros c a m vs ks ->. split; [|reflexivity]. rewrite Ha. destruct (meth_on j a) eqn:Q; [|reflexivity]. destruct j; try discriminate. apply Nat.eqb_eq in Q. subst. elim N. eapply w9; eauto.
  - intros x g H. unfold dput in H. destruct (did_eqb d x) eqn:Q; [apply did_eqb_eq in Q; subst x; injection H as <-; exact Fk|now apply w3].
  - exact w4.
  - exact w5.
  - exact w5'.
  - now rewrite La.
  - now rewrite La.
  - intros x H. destruct (HE x H) as [H'|H']; [auto|]. destruct (did_eqb d x) eqn:Q.
    + apply did_eqb_eq in Q. subst x. apply w1. eapply fin_new; eauto.
    + rewrite FF in H' by (apply did_eqb_neq in Q; congruence). destruct (d_fin st x) as [g|] eqn:G; [|congruence]. apply w1. eapply fin_new; eauto.
  - intros x x' c c' a m m' vs vs' ks ks' H H'. apply JJ in H as [_ H]. apply JJ in H' as [_ H']. eapply w9; eauto.
  - intros b Lb. rewrite La in Lb. destruct (meth_on j b) eqn:Q.
    + left. cbn. split; [|now rewrite Ha, Q]. intros x c m vs ks H. cbn in H. apply JJ in H as [N H]. destruct j; try discriminate. apply Nat.eqb_eq in Q. subst. elim N. eapply w9; eauto.
    + destruct (w10 b Lb) as [[A B]|[(d0 & c & m & vs & ks & m' & args' & kw' & n' & out & A & B & C)|(A & m' & args' & kw' & n' & out & B & C)]].
      * left. cbn. split; [|rewrite Ha, Q; exact B]. intros x c m vs ks H. cbn in H. apply JJ in H as [_ H]. elim (A _ _ _ _ _ H).
      * right; left. exists d0, c, m, vs, ks, m', args', kw', n', out. cbn. assert (N0 : d0 <> d) by (intros ->; rewrite A in J; injection J as <-; cbn in Q; rewrite Nat.eqb_refl in Q; discriminate).
        split; [unfold ddel; destruct (did_eqb d d0) eqn:Q'; [apply did_eqb_eq in Q'; congruence|exact A]|]. split; [exact B|]. intros x I. destruct (C x I) as (C1 & C2 & C3 & C4 & C5).
        assert (Nx : x <> d). { intros ->. elim (Hd d0 (C5 _ J)). exact (DaskRunProofs.v_one _ _ _ _ _ V _ _ A). }
        rewrite (FF x Nx). split; [|split; [exact C2|split; [exact C3|split; [exact C4|]]]].
        -- intros H. destruct (HE x H) as [H'|H']; [auto|]. rewrite FF in H' by exact Nx. auto.
        -- intros k H. apply JJ in H as [_ H]. auto.
      * right; right. cbn. split; [intros x c m vs ks H; cbn in H; apply JJ in H as [_ H]; elim (A _ _ _ _ _ H)|]. exists m', args', kw', n', out. split; [exact B|]. intros x I. destruct (C x I) as (C1 & C2 & C3 & C4).
        assert (Nx : x <> d) by congruence. rewrite (FF x Nx). split; [|split; [exact C2|split; [exact C3|unfold ddel; destruct (did_eqb d x); auto]]].
        intros H. destruct (HE x H) as [H'|H']; [auto|]. rewrite FF in H' by exact Nx. auto.
Qed.

Lemma W_same M (E E' : dataid -> Prop) st st' p rs hs : W M E st p rs hs -> d_next st' = d_next st -> d_job st' = d_job st -> d_fin st' = d_fin st -> d_actors st' = d_actors st -> d_hist st' = d_hist st ->
  (forall x, E' x -> E x \/ d_fin st x <> None) -> W M E' st' p rs hs.
Proof.
  intros [w1 w2 w3 w4 w5 w5' w6 w7 w8 w9 w10] A B C D F HE. split; rewrite ?A, ?B, ?C, ?D, ?F in *; auto.
  - intros x H. destruct (HE x H) as [H'|H']; [auto|]. destruct (d_fin st x) as [g|] eqn:G; [|congruence]. apply w1. eapply fin_new; eauto.
  - intros a La. unfold actor_ok, no_meth. rewrite A, B, C, D, F. destruct (w10 a La) as [H|[(d0 & c & m & vs & ks & m' & args' & kw' & n' & out & P & Q & R)|(P & m' & args' & kw' & n' & out & Q & R)]]; [now left| |].
    + right; left. exists d0, c, m, vs, ks, m', args', kw', n', out. split; [exact P|]. split; [exact Q|]. intros x I. destruct (R x I) as (R1 & R2 & R3). split; [|auto]. intros H. destruct (HE x H); auto.
    + right; right. split; [exact P|]. exists m', args', kw', n', out. split; [exact Q|]. intros x I. destruct (R x I) as (R1 & R2 & R3). split; [|auto]. intros H. destruct (HE x H); auto.
Qed.

Lemma well_good M st xs : (forall d f, d_fin st d = Some f -> fin_ok M d f) -> knownM M xs -> forallb (finished_well st) xs = true ->
  good M xs /\ forall x, In x xs -> value st x = mval M x.
Proof.
  intros F K H. rewrite forallb_forall in H. assert (A : forall x, In x xs -> exists v, d_fin st x = Some (Fin (Ret v)) /\ M x = Some (MFin (Ret v))).
  { intros x I. specialize (H x I). unfold finished_well in H. destruct (K x I) as [R E]. destruct (d_fin st x) as [[[v|e]|r]|] eqn:D; try discriminate.
    - exists v. split; [reflexivity|]. destruct (F x _ D) as [(R' & E' & S)|(R' & E' & S)]; [|congruence]. rewrite E' in *. destruct R' as [w|e]; cbn in S; [congruence|]. destruct S as [? S]. discriminate.
    - specialize (F x _ D). cbn in F. congruence. }
  split; [intros x I; destruct (A x I) as (v & _ & E); eauto|]. intros x I. destruct (A x I) as (v & D & E). unfold value, mval. now rewrite D, E.
Qed.

Lemma fail_bad M st xs x e : (forall d f, d_fin st d = Some f -> fin_ok M d f) -> knownM M xs -> In x xs -> d_fin st x = Some (Fin (Exn e)) -> bad M xs.
Proof.
  intros F K I D. destruct (K x I) as [R E]. destruct (F x _ D) as [(R' & E' & S)|(R' & E' & S)]; [|congruence]. destruct R' as [v|e']; [discriminate|]. exists x, e'. auto.
Qed.

Lemma isx_same e R : isx R -> sameR (Exn e) R.
Proof. intros [e' ->]. cbn. exists e. auto. Qed.
Lemma same_refl R : sameR R R.
Proof. destruct R; cbn; [auto|exists e; auto]. Qed.

Lemma nth_replace l a s b : nth_error (replace l a s) b = if Nat.eqb a b then (if Nat.ltb a (length l) then Some s else nth_error l b) else nth_error l b.
Proof.
  unfold replace. destruct (nth_error l a) as [y|] eqn:N.
  - assert (La : a < length l) by (apply nth_error_Some; congruence). change (firstn a l ++ s :: skipn (S a) l) with (set_at l a s). rewrite (proj2 (Nat.ltb_lt _ _) La).
    destruct (Nat.eqb_spec a b) as [->|Nb]; [now apply set_at_same|]. apply set_at_other; auto.
  - apply nth_error_None in N. destruct (Nat.ltb_spec a (length l)); [lia|]. now destruct (Nat.eqb a b).
Qed.

Lemma W_sched M (E E' : dataid -> Prop) st p rs hs o : Dinv st -> W M E st p rs hs -> DaskRunSpec.is_call o = false ->
  (forall x, E' x -> E x \/ d_fin (step st o) x <> None) -> W M E' (step st o) p rs hs.
Proof.
  intros V Wi Hc HE. destruct o as [v|f vs ks n b|c vs ks b|a m vs ks n|d|d|d x|d]; try discriminate; cbn [dstep] in *.
  - apply (W_same M E E' st); auto.
  - destruct (d_job st d) as [j|] eqn:J; [|apply (W_same M E E' st); auto].
    destruct (forallb (finished_well st) (deps j)) eqn:Fw; [|apply (W_same M E E' st); auto].
    assert (Hd : forall y, deps j = [y] -> d_fin st y <> None).
    { intros y Q. rewrite Q in Fw. cbn in Fw. unfold finished_well in Fw. destruct (d_fin st y); [discriminate|]. discriminate. }
    pose proof (w_job _ _ _ _ _ _ Wi d j J) as Jk. destruct j as [c f vs ks|y i|c a m vs ks|y|y i]; cbn [run_job job_ok] in *.
    + apply (W_finish M E E' st p rs hs d (JFun c f vs ks)); auto. left. destruct Jk as (R & A & K & B & G). exists R. split; [exact A|].
      destruct (well_good M st _ (w_fin _ _ _ _ _ _ Wi) K Fw) as [Gd Ev]. destruct (fill_same (value st) (mval M) vs ks Ev) as [-> ->]. rewrite (G Gd). apply same_refl.
    + apply (W_finish M E E' st p rs hs d (JItem y i)); auto. left. destruct Jk as (R & A & B). eexists. split; [exact B|].
      assert (K : knownM M [y]) by (intros x [<-|[]]; eauto). destruct (well_good M st [y] (w_fin _ _ _ _ _ _ Wi) K Fw) as [Gd Ev]. destruct (Gd y (or_introl eq_refl)) as [v Ey].
      rewrite A in Ey. injection Ey as ->. rewrite (Ev y (or_introl eq_refl)). unfold mval. rewrite A. apply same_refl.
    + destruct Jk as (R & s & t & A & Sa & So & K & B & G). rewrite Sa in *. destruct (well_good M st _ (w_fin _ _ _ _ _ _ Wi) K Fw) as [Gd Ev].
      destruct (fill_same (value st) (mval M) vs ks Ev) as [E1 E2]. rewrite E1, E2, (G Gd) in *.
      apply (W_finish M E E' st p rs hs d (JMeth c a m vs ks)); auto; [apply DaskRunProofs.replace_length|].
      intros b. rewrite nth_replace. cbn [meth_on]. destruct (Nat.eqb_spec a b) as [<-|]; [|reflexivity]. assert (La : a < length (d_actors st)) by (apply nth_error_Some; congruence). rewrite (proj2 (Nat.ltb_lt _ _) La). auto.
    + destruct Jk as (R & A & B). destruct (d_fin st y) as [[r|r]|] eqn:D; try (apply (W_same M E E' st); auto; fail).
      apply (W_finish M E E' st p rs hs d (JResult y)); auto. left. pose proof (w_fin _ _ _ _ _ _ Wi y _ D) as F. cbn in F. exists R. split; [exact B|]. assert (R = r) as -> by congruence. apply same_refl.
    + destruct Jk as (R & A & B). destruct (d_fin st y) as [[r|r]|] eqn:D; try (apply (W_same M E E' st); auto; fail).
      pose proof (w_fin _ _ _ _ _ _ Wi y _ D) as F. cbn in F. assert (R = r) as -> by congruence.
      destruct r as [v|e]; apply (W_finish M E E' st p rs hs d (JResultItem y i)); auto; left; eexists; (split; [exact B|apply same_refl]).
  - destruct (d_job st d) as [j|] eqn:J; [|apply (W_same M E E' st); auto].
    destruct (d_fin st x) as [[[v|e]|r]|] eqn:D; try (apply (W_same M E E' st); auto; fail).
    destruct (did_in x (deps j)) eqn:I; [|apply (W_same M E E' st); auto]. apply did_in_In in I.
    pose proof (w_job _ _ _ _ _ _ Wi d j J) as Jk.
    assert (Hd : forall y, deps j = [y] -> d_fin st y <> None) by (intros y Q; rewrite Q in I; destruct I as [->|[]]; congruence).
    assert (Hb : forall y, deps j = [y] -> y = x) by (intros y Q; rewrite Q in I; destruct I as [->|[]]; auto).
    assert (Fk : fin_ok M d (Fin (Exn e))).
    { pose proof (w_fin _ _ _ _ _ _ Wi x _ D) as F. destruct j as [c f vs ks|y i|c a m vs ks|y|y i]; cbn [job_ok deps] in *.
      - destruct Jk as (R & A & K & B & G). left. exists R. split; [exact A|]. apply isx_same, B. eapply fail_bad; eauto. apply (w_fin _ _ _ _ _ _ Wi).
      - destruct Jk as (R & A & B). rewrite <- (Hb y eq_refl) in F. left. eexists. split; [exact B|]. destruct F as [(R' & A' & S)|(R' & A' & S)]; [|congruence].
        assert (R' = R) as -> by congruence. destruct R as [v|e']; [discriminate|]. exact S.
      - destruct Jk as (R & s & t & A & Sa & So & K & B & G). right. exists R. split; [exact A|]. split; [|exists e; auto]. apply B. eapply fail_bad; eauto. apply (w_fin _ _ _ _ _ _ Wi).
      - destruct Jk as (R & A & B). rewrite <- (Hb y eq_refl) in F. left. eexists. split; [exact B|]. destruct F as [(R' & A' & S)|(R' & A' & S & S')]; [congruence|].
        assert (R' = R) as -> by congruence. apply isx_same, S.
      - destruct Jk as (R & A & B). rewrite <- (Hb y eq_refl) in F. left. eexists. split; [exact B|]. destruct F as [(R' & A' & S)|(R' & A' & [e' ->] & S')]; [congruence|].
        assert (R = Exn e') as -> by congruence. cbn. exists e. auto. }
    apply (W_finish M E E' st p rs hs d j); auto. intros b. destruct (meth_on j b) eqn:Q; [|reflexivity]. destruct j; try discriminate. apply Nat.eqb_eq in Q. subst. cbn [job_ok] in Jk.
    destruct Jk as (R & s & t & A & Sa & So & K & B & G). rewrite Sa, So. destruct B as [_ ->]; [|reflexivity]. eapply fail_bad; eauto. apply (w_fin _ _ _ _ _ _ Wi).
  - destruct (did_in d (d_held st) || needed st d) eqn:Hn; [apply (W_same M E E' st); auto|]. apply orb_false_iff in Hn as [_ Hn].
    destruct Wi as [w1 w2 w3 w4 w5 w5' w6 w7 w8 w9 w10].
    assert (JJ : forall x k, ddel (d_job st) d x = Some k -> x <> d /\ d_job st x = Some k).
    { intros x k H. unfold ddel in H. destruct (did_eqb d x) eqn:Q; [discriminate|]. apply did_eqb_neq in Q. split; [congruence|exact H]. }
    assert (FF : forall x k, ddel (d_fin st) d x = Some k -> d_fin st x = Some k) by (intros x k H; unfold ddel in H; destruct (did_eqb d x); [discriminate|exact H]).
    assert (FN : forall x, d_fin st x = None -> ddel (d_fin st) d x = None) by (intros x H; unfold ddel; destruct (did_eqb d x); auto).
    split; cbn [d_job d_fin d_next d_actors d_hist] in *; auto.
    + intros x k H. apply JJ in H as [_ H]. auto.
    + intros x H. destruct (HE x H) as [H'|H']; [auto|]. destruct (ddel (d_fin st) d x) as [g|] eqn:G; [|congruence]. apply w1. eapply fin_new; eauto.
    + intros x x' c c' a m m' vs vs' ks ks' H H'. apply JJ in H as [_ H]. apply JJ in H' as [_ H']. eapply w9; eauto.
    + intros a La. destruct (w10 a La) as [[A B]|[(d0 & c & m & vs & ks & m' & args' & kw' & n' & out & A & B & C)|(A & m' & args' & kw' & n' & out & B & C)]].
      * left. split; [|exact B]. intros x c m vs ks H. cbn in H. apply JJ in H as [_ H]. elim (A _ _ _ _ _ H).
      * destruct (did_eqb d d0) eqn:Q.
        -- apply did_eqb_eq in Q. subst d0. right; right. split; [intros x c' m2 vs' ks' H; cbn in H; apply JJ in H as [Nx H]; apply Nx; eapply w9; eauto|].
           exists m', args', kw', n', out. split; [exact B|]. intros x I. destruct (C x I) as (C1 & C2 & C3 & C4 & C5). cbn. split; [|split; [auto|split; [exact C3|]]].
           ++ intros H. destruct (HE x H) as [H'|H']; [auto|]. apply H', FN, C2.
           ++ destruct (ddel (d_job st) d x) as [k|] eqn:Q; [|reflexivity]. exfalso. apply JJ in Q as [_ Q]. apply Bool.not_true_iff_false in Hn. apply Hn. unfold needed. apply existsb_exists.
              destruct (DaskRunProofs.v_key _ _ _ _ _ V x) as [K1 K2]; [left; congruence|]. exists (snd x). split; [apply in_seq; lia|].
              replace (0, snd x) with x by (destruct x; cbn in *; congruence). rewrite Q. apply did_in_In. rewrite (C5 _ Q). now left.
        -- right; left. exists d0, c, m, vs, ks, m', args', kw', n', out. split; [cbn; unfold ddel; now rewrite Q|]. split; [exact B|]. intros x I. destruct (C x I) as (C1 & C2 & C3 & C4 & C5). cbn.
           split; [|split; [auto|split; [exact C3|split; [exact C4|]]]].
           ++ intros H. destruct (HE x H) as [H'|H']; [auto|]. apply H', FN, C2.
           ++ intros k H. apply JJ in H as [_ H]. auto.
      * right; right. split; [intros x c m vs ks H; cbn in H; apply JJ in H as [_ H]; elim (A _ _ _ _ _ H)|]. exists m', args', kw', n', out. split; [exact B|]. intros x I. destruct (C x I) as (C1 & C2 & C3 & C4). cbn.
        split; [|split; [auto|split; [exact C3|unfold ddel; destruct (did_eqb d x); auto]]]. intros H. destruct (HE x H) as [H'|H']; [auto|]. apply H', FN, C2.
Qed.

(** ** Calls of the main process *)
Lemma W_grow M M' (E E' : dataid -> Prop) st st' p x rs l hs hs' e (tgt : nat -> bool) : Dinv st -> W M E st p rs hs ->
  d_hist st' = d_hist st ++ [e] -> d_next st <= d_next st' ->
  (forall d, snd d < d_next st -> d_job st' d = d_job st d) -> (forall d, snd d < d_next st -> d_fin st' d = d_fin st d) ->
  ext M M' -> (forall d, M' d <> None -> snd d < d_next st') ->
  (forall d j, d_next st <= snd d -> d_job st' d = Some j -> job_ok M' (d_actors st') (snd (odir (p ++ [x]))) d j) ->
  (forall d f, d_next st <= snd d -> d_fin st' d = Some f -> fin_ok M' d f) ->
  refs_mean M' (rs ++ [l]) (fst (odir (p ++ [x]))) -> length (fst (odir (p ++ [x]))) = S (length p) ->
  hs' = seq 0 (length (d_actors st')) -> length (snd (odir (p ++ [x]))) = length (d_actors st') -> length (d_actors st) <= length (d_actors st') ->
  (forall b, b < length (d_actors st) -> nth_error (d_actors st') b = nth_error (d_actors st) b) ->
  (forall b, b < length (d_actors st) -> tgt b = false -> nth_error (snd (odir (p ++ [x]))) b = nth_error (snd (odir p)) b) ->
  (forall b, tgt b = true -> no_meth st b) ->
  (forall d c b m vs ks, d_next st <= snd d -> d_job st' d = Some (JMeth c b m vs ks) -> tgt b = true /\ d = (0, d_next st)) ->
  (forall b, tgt b = true -> b < length (d_actors st') -> actor_ok E' st' (snd (odir (p ++ [x]))) b) ->
  (forall b, length (d_actors st) <= b -> tgt b = true) ->
  (forall y, E' y -> E y \/ d_fin st' y <> None) ->
  W M' E' st' (p ++ [x]) (rs ++ [l]) hs'.
Proof.
  intros V Wi Hh Hn Hj Hf X Mn Nj Nf Rm Le Hhs Lo La Ha Ho Tn Tj Ta Tb HE.
  destruct Wi as [w1 w2 w3 w4 w5 w5' w6 w7 w8 w9 w10].
  assert (F' : forall d f, d_fin st' d = Some f -> fin_ok M' d f).
  { intros d f H. destruct (Nat.lt_ge_cases (snd d) (d_next st)) as [L|L]; [|auto]. rewrite (Hf d L) in H. eapply fin_ext; eauto. }
  assert (Old : forall d j, d_job st d = Some j -> snd d < d_next st).
  { intros d j H. apply (DaskRunProofs.v_key _ _ _ _ _ V d). left. congruence. }
  split; auto.
  - intros d j H. destruct (Nat.lt_ge_cases (snd d) (d_next st)) as [L|L]; [|auto]. rewrite (Hj d L) in H. apply (job_ext M M' (d_actors st) (snd (odir p))); [exact X|now apply w2|].
    intros c a m vs ks ->. pose proof (w2 _ _ H) as Jk. destruct Jk as (R & s & t & A & B & C & D). assert (La' : a < length (d_actors st)) by (apply nth_error_Some; congruence).
    split; [auto|]. apply Ho; [exact La'|]. destruct (tgt a) eqn:T; [|reflexivity]. elim (Tn a T _ _ _ _ _ H).
  - rewrite app_length. cbn. lia.
  - rewrite !app_length. cbn. lia.
  - intros y H. destruct (HE y H) as [H'|H']; [specialize (w8 y H'); lia|]. destruct (d_fin st' y) as [g|] eqn:G; [|congruence]. apply Mn. eapply fin_new; eauto.
  - intros d d' c c' a m m' vs vs' ks ks' H H'. destruct (Nat.lt_ge_cases (snd d) (d_next st)) as [L|L], (Nat.lt_ge_cases (snd d') (d_next st)) as [L'|L'].
    + rewrite Hj in H, H' by auto. eapply w9; eauto.
    + rewrite Hj in H by auto. destruct (Tj _ _ _ _ _ _ L' H') as [T _]. elim (Tn a T _ _ _ _ _ H).
    + rewrite Hj in H' by auto. destruct (Tj _ _ _ _ _ _ L H) as [T _]. elim (Tn a T _ _ _ _ _ H').
    + destruct (Tj _ _ _ _ _ _ L H) as [_ ->]. destruct (Tj _ _ _ _ _ _ L' H') as [_ ->]. reflexivity.
  - intros b Lb. destruct (tgt b) eqn:T; [auto|]. assert (Lb' : b < length (d_actors st)) by (destruct (Nat.lt_ge_cases b (length (d_actors st))) as [L|L]; [exact L|rewrite (Tb b L) in T; discriminate]).
    assert (Nm : no_meth st b -> no_meth st' b).
    { intros N d c m vs ks H. destruct (Nat.lt_ge_cases (snd d) (d_next st)) as [L|L]; [rewrite Hj in H by auto; elim (N _ _ _ _ _ H)|]. destruct (Tj _ _ _ _ _ _ L H). congruence. }
    assert (Ne : forall y, ~ E y -> d_fin st y = None -> snd y < d_next st -> ~ E' y).
    { intros y N1 N2 L H. destruct (HE y H) as [H'|H']; [auto|]. rewrite Hf in H' by auto. auto. }
    destruct (w10 b Lb') as [[A B]|[(d0 & c & m & vs & ks & m' & args' & kw' & n' & out & A & B & C)|(A & m' & args' & kw' & n' & out & B & C)]].
    + left. split; [auto|]. rewrite Ha, Ho by auto. exact B.
    + right; left. exists d0, c, m, vs, ks, m', args', kw', n', out. rewrite Hj by (eapply Old; eauto). split; [exact A|]. split; [rewrite Hh; apply in_or_app; now left|].
      intros y I. destruct (C y I) as (C1 & C2 & C3 & C4 & C5). rewrite Hj, Hf by auto. split; [auto|]. split; [exact C2|]. split; [lia|auto].
    + right; right. split; [auto|]. exists m', args', kw', n', out. split; [rewrite Hh; apply in_or_app; now left|].
      intros y I. destruct (C y I) as (C1 & C2 & C3 & C4). rewrite Hj, Hf by auto. split; [auto|]. split; [exact C2|]. split; [lia|auto].
Qed.

(** The meaning of the new tasks of a call. *)
Definition with_mean (M : meaning) (N : nat) (pr : mean) (k : nat) (sub : nat -> res) (d : dataid) : option mean :=
  if did_eqb (0, N) d then Some pr
  else if Nat.eqb (fst d) 0 && Nat.leb (S N) (snd d) && Nat.ltb (snd d) (S N + k) then Some (MFin (sub (snd d - S N))) else M d.

Lemma mean_base M N pr k sub : with_mean M N pr k sub (0, N) = Some pr.
Proof. unfold with_mean. now rewrite did_eqb_refl. Qed.
Lemma mean_sub M N pr k sub i : i < k -> with_mean M N pr k sub (0, S N + i) = Some (MFin (sub i)).
Proof.
  intros L. unfold with_mean. destruct (did_eqb (0, N) (0, S N + i)) eqn:Eq; [apply did_eqb_eq in Eq; injection Eq as Eq; lia|].
  cbn [fst snd]. rewrite (proj2 (Nat.leb_le _ _)) by lia. rewrite (proj2 (Nat.ltb_lt _ _)) by lia. cbn [Nat.eqb andb]. do 3 f_equal. lia.
Qed.
Lemma mean_ext M N pr k sub : (forall d, M d <> None -> snd d < N) -> ext M (with_mean M N pr k sub).
Proof.
  intros H d D. specialize (H d D). unfold with_mean. destruct (did_eqb (0, N) d) eqn:Eq; [apply did_eqb_eq in Eq; subst d; cbn in H; lia|].
  destruct (Nat.leb_spec (S N) (snd d)); [lia|]. now rewrite andb_false_r.
Qed.
Lemma mean_new M N pr k sub d : (forall d, M d <> None -> snd d < N) -> with_mean M N pr k sub d <> None -> snd d < S N + k.
Proof.
  intros H D. unfold with_mean in D. destruct (did_eqb (0, N) d) eqn:Eq; [apply did_eqb_eq in Eq; subst d; cbn; lia|].
  destruct (Nat.eqb (fst d) 0 && Nat.leb (S N) (snd d) && Nat.ltb (snd d) (S N + k)) eqn:B; [|specialize (H d D); lia].
  apply andb_true_iff in B as [_ B]. apply Nat.ltb_lt in B. exact B.
Qed.

Lemma mean_refs M M' rs l env y : ext M M' -> refs_mean M rs env -> length rs = length env ->
  (forall i d, nth_error l i = Some d -> exists R, M' d = Some (MFin R) /\ nth_error y i = Some R) -> refs_mean M' (rs ++ [l]) (env ++ [y]).
Proof.
  intros X H L N c i d R. apply ref_cases in R as [[Lc R]|[-> R]].
  - destruct (H _ _ _ R) as (r & A & B). exists r. split; [eapply ext_some; eauto|]. rewrite result_old by lia. exact B.
  - rewrite L, result_new. auto.
Qed.

Lemma pick_at n R i : enough n R -> 1 < n -> i < n -> nth_error (each n R) i = Some (pick R i).
Proof.
  intros En N L. destruct R as [v|e]; cbn [each pick].
  - destruct (En v eq_refl) as [X|(l & V & Ll)]; [lia|]. destruct (Nat.eqb_spec n 1); [lia|]. destruct (nth_error l i) as [y|] eqn:Y; [|apply nth_error_None in Y; lia].
    destruct (Ix l i y Y) as [I1 I2]. destruct V as [-> | ->]; rewrite nth_error_map, Y; cbn; [now rewrite I1|now rewrite I2].
  - apply nth_error_repeat; exact L.
Qed.

Lemma one_at R i (d D : dataid) : nth_error [d] i = Some D -> d = D /\ nth_error (each 1 R) i = Some R.
Proof. destruct i as [|[|i]]; cbn; intros H; try discriminate. injection H as ->. split; [reflexivity|]. destruct R; reflexivity. Qed.

Lemma seq_at N n i (d : dataid) : nth_error (map (fun k => (0, k)) (seq N n)) i = Some d -> i < n /\ d = (0, N + i).
Proof.
  intros H. assert (L : i < n). { assert (i < length (map (fun k : nat => (0, k)) (seq N n))) by (apply nth_error_Some; congruence). now rewrite map_length, seq_length in H0. }
  split; [exact L|]. rewrite DaskRunProofs.nth_seq_refs in H by exact L. congruence.
Qed.

(** *** put *)
Lemma W_put M (E E' : dataid -> Prop) st p rs hs v : Dinv st -> W M E st p rs hs -> (forall y, E' y -> E y \/ d_fin (step st (DPut v)) y <> None) ->
  W (with_mean M (d_next st) (MFin (Ret v)) 0 (fun _ => Ret v)) E' (step st (DPut v)) (p ++ [TPut v]) (rs ++ [[(0, d_next st)]]) hs.
Proof.
  intros V Wi HE. pose proof Wi as [w1 w2 w3 w4 w5 w5' w6 w7 w8 w9 w10].
  assert (X : ext M (with_mean M (d_next st) (MFin (Ret v)) 0 (fun _ => Ret v))) by (apply mean_ext, w1).
  assert (Kj : forall d j, d_next st <= snd d -> d_job st d = Some j -> False).
  { intros d j L H. destruct (DaskRunProofs.v_key _ _ _ _ _ V d) as [_ K]; [left; congruence|lia]. }
  apply (W_grow M _ E E' st _ p (TPut v) rs [(0, d_next st)] hs hs (DPut v, DRef (0, d_next st)) (fun b => negb (Nat.ltb b (length (d_actors st))))); auto; rewrite ?odirect_snoc; destruct (odir p) as [env objs] eqn:Od; cbn [fst snd operform] in *; cbn [dstep hand_out d_next d_job d_fin d_actors d_hist] in *; auto.
  - intros d L. unfold dput. destruct (did_eqb (0, d_next st) d) eqn:Q; [apply did_eqb_eq in Q; subst d; cbn in L; lia|reflexivity].
  - intros d D. apply mean_new in D; [lia|exact w1].
  - intros d j L H. elim (Kj d j L H).
  - intros d f L H. unfold dput in H. destruct (did_eqb (0, d_next st) d) eqn:Q.
    + apply did_eqb_eq in Q. subst d. injection H as <-. left. exists (Ret v). split; [apply mean_base|reflexivity].
    + destruct (DaskRunProofs.v_key _ _ _ _ _ V d) as [_ K]; [right; congruence|lia].
  - apply (mean_refs M); auto; [congruence|]. intros i d H. destruct i as [|[|i]]; cbn in H; try discriminate. injection H as <-. exists (Ret v). split; [apply mean_base|reflexivity].
  - rewrite app_length. cbn. lia.
  - intros b T d c m vs ks H. apply negb_true_iff, Nat.ltb_ge in T. destruct (w2 _ _ H) as (R & s & t & A & B & C). assert (b < length (d_actors st)) by (apply nth_error_Some; congruence). lia.
  - intros d c b m vs ks L H. elim (Kj _ _ L H).
  - intros b T L. apply negb_true_iff, Nat.ltb_ge in T. lia.
  - intros b L. apply negb_true_iff, Nat.ltb_ge. exact L.
Qed.

(** *** A new actor *)
Lemma W_make M (E E' : dataid -> Prop) st p rs hs c vs ks s : Dinv st -> W M E st p rs hs -> cbody c vs ks = Ret s -> (forall y, E' y -> E y \/ d_fin (step st (DActor c vs ks false)) y <> None) ->
  W M E' (step st (DActor c vs ks false)) (p ++ [TMake c vs ks]) (rs ++ [[]]) (hs ++ [length (d_actors st)]).
Proof.
  intros V Wi Cb HE. pose proof Wi as [w1 w2 w3 w4 w5 w5' w6 w7 w8 w9 w10]. cbn [dstep] in *. rewrite Cb in *.
  assert (Kj : forall d j, d_next st <= snd d -> d_job st d = Some j -> False).
  { intros d j L H. destruct (DaskRunProofs.v_key _ _ _ _ _ V d) as [_ K]; [left; congruence|lia]. }
  assert (Nb : forall b, length (d_actors st) <= b -> no_meth st b).
  { intros b T d c' m vs' ks' H. destruct (w2 _ _ H) as (R & s' & t & A & B & C). assert (b < length (d_actors st)) by (apply nth_error_Some; congruence). lia. }
  apply (W_grow M _ E E' st _ p (TMake c vs ks) rs [] hs _ (DActor c vs ks false, DMade (length (d_actors st))) (fun b => negb (Nat.ltb b (length (d_actors st))))); auto; rewrite ?odirect_snoc; destruct (odir p) as [env objs] eqn:Od; cbn [fst snd operform] in *; rewrite ?Cb; cbn [hand_out d_next d_job d_fin d_actors d_hist] in *; auto.
  - intros d H. reflexivity.
  - intros d j L H. elim (Kj d j L H).
  - apply (mean_refs M); auto; [intros d H; reflexivity|congruence|]. intros i d H. destruct i; discriminate.
  - rewrite app_length. cbn. lia.
  - rewrite w6, app_length, seq_app. reflexivity.
  - rewrite !app_length. cbn. lia.
  - rewrite !app_length. cbn. lia.
  - intros b L. now rewrite nth_error_app1.
  - intros b L _. rewrite nth_error_app1 by lia. reflexivity.
  - intros b T. apply negb_true_iff, Nat.ltb_ge in T. auto.
  - intros d c' b m vs' ks' L H. elim (Kj _ _ L H).
  - intros b T L. apply negb_true_iff, Nat.ltb_ge in T. left. split; [exact (Nb b T)|]. cbn. rewrite !nth_error_app2 by lia. rewrite w7. reflexivity.
  - intros b L. apply negb_true_iff, Nat.ltb_ge. exact L.
Qed.

(** *** Calls that make tasks *)
Lemma W_jobs M (E E' : dataid -> Prop) st st' p x rs l hs e jb k mk pr sub (tgt : nat -> bool) : Dinv st -> W M E st p rs hs ->
  d_hist st' = d_hist st ++ [e] -> d_next st' = S (d_next st) + k -> d_fin st' = d_fin st -> d_actors st' = d_actors st ->
  (forall d, d_job st' d = DaskRunProofs.with_jobs st jb k mk d) ->
  let M' := with_mean M (d_next st) pr k sub in
  job_ok M' (d_actors st) (snd (odir (p ++ [x]))) (0, d_next st) jb ->
  (forall i, i < k -> job_ok M' (d_actors st) (snd (odir (p ++ [x]))) (0, S (d_next st) + i) (mk i) /\ forall b, meth_on (mk i) b = false) ->
  (forall b, meth_on jb b = true -> tgt b = true) ->
  refs_mean M' (rs ++ [l]) (fst (odir (p ++ [x]))) -> length (fst (odir (p ++ [x]))) = S (length p) -> length (snd (odir (p ++ [x]))) = length (d_actors st) ->
  (forall b, b < length (d_actors st) -> tgt b = false -> nth_error (snd (odir (p ++ [x]))) b = nth_error (snd (odir p)) b) ->
  (forall b, tgt b = true -> no_meth st b) ->
  (forall b, tgt b = true -> b < length (d_actors st) -> actor_ok E' st' (snd (odir (p ++ [x]))) b) ->
  (forall b, length (d_actors st) <= b -> tgt b = true) ->
  (forall y, E' y -> E y \/ d_fin st' y <> None) ->
  W M' E' st' (p ++ [x]) (rs ++ [l]) hs.
Proof.
  intros V Wi Hh Hn Hf Ha Hj M' Jb Js Tm Rm Le Lo Ho Tn Ta Tb HE.
  assert (w1 := w_new _ _ _ _ _ _ Wi).
  apply (W_grow M M' E E' st st' p x rs l hs hs e tgt); auto.
  - lia.
  - intros d L. rewrite Hj. now apply DaskRunProofs.with_jobs_old.
  - intros d L. now rewrite Hf.
  - now apply mean_ext.
  - intros d D. rewrite Hn. eapply mean_new; eauto.
  - intros d j L H. rewrite Hj in H. rewrite Ha. destruct (DaskRunProofs.with_jobs_new _ _ _ _ _ _ _ _ _ _ V L H) as [[-> ->]|(i & Li & -> & ->)]; [exact Jb|]. apply Js, Li.
  - intros d f L H. rewrite Hf in H. destruct (DaskRunProofs.v_key _ _ _ _ _ V d) as [_ K]; [right; congruence|lia].
  - rewrite Ha. apply (w_hs _ _ _ _ _ _ Wi).
  - now rewrite Ha.
  - now rewrite Ha.
  - intros b _. now rewrite Ha.
  - intros d c b m vs ks L H. rewrite Hj in H. destruct (DaskRunProofs.with_jobs_new _ _ _ _ _ _ _ _ _ _ V L H) as [[-> Q]|(i & Li & -> & Q)].
    + split; [|reflexivity]. apply Tm. rewrite <- Q. cbn. apply Nat.eqb_refl.
    + destruct (Js i Li) as [_ Nm]. specialize (Nm b). rewrite <- Q in Nm. cbn in Nm. rewrite Nat.eqb_refl in Nm. discriminate.
  - rewrite Ha. exact Ta.
Qed.

Lemma one_job st jb d : dput (d_job st) (0, d_next st) jb d = DaskRunProofs.with_jobs st jb 0 (fun _ => jb) d.
Proof.
  unfold DaskRunProofs.with_jobs, dput. destruct (did_eqb (0, d_next st) d); [reflexivity|].
  rewrite Nat.add_0_r. destruct (Nat.leb_spec (S (d_next st)) (snd d)), (Nat.ltb_spec (snd d) (S (d_next st))); try lia; now rewrite ?andb_false_r.
Qed.

Lemma two_jobs st jb j2 d : dput (dput (d_job st) (0, d_next st) jb) (0, S (d_next st)) j2 d = DaskRunProofs.with_jobs st jb 1 (fun _ => j2) d.
Proof.
  unfold DaskRunProofs.with_jobs, dput. destruct (did_eqb (0, d_next st) d) eqn:E1.
  - apply did_eqb_eq in E1. subst d. destruct (did_eqb (0, S (d_next st)) (0, d_next st)) eqn:E2; [|reflexivity]. apply did_eqb_eq in E2. injection E2 as E2. lia.
  - destruct (did_eqb (0, S (d_next st)) d) eqn:E2.
    + apply did_eqb_eq in E2. subst d. cbn [fst snd]. rewrite (proj2 (Nat.leb_le _ _)) by lia. rewrite (proj2 (Nat.ltb_lt _ _)) by lia. reflexivity.
    + apply did_eqb_neq in E2. destruct d as [x y]. cbn [fst snd]. destruct (Nat.eqb_spec x 0) as [->|]; [|reflexivity].
      assert (y <> S (d_next st)) by congruence. destruct (Nat.leb_spec (S (d_next st)) y), (Nat.ltb_spec y (S (d_next st) + 1)); try lia; reflexivity.
Qed.

Lemma W_fun M (E E' : dataid -> Prop) st p rs hs f args kw n vs ks : Dinv st -> W M E st p rs hs -> oportable body cbody mbody (p ++ [TFun f args kw n]) ->
  Forall2 (stands rs) args vs -> Forall2 (stands_kw rs) kw ks -> (forall y, E' y -> E y \/ d_fin (step st (DSubmit f vs ks n false)) y <> None) ->
  exists out M', d_hist (step st (DSubmit f vs ks n false)) = d_hist st ++ [(DSubmit f vs ks n false, out)] /\
    W M' E' (step st (DSubmit f vs ks n false)) (p ++ [TFun f args kw n]) (rs ++ [refs_out out]) hs.
Proof.
  intros V Wi Po Fa Fk HE. pose proof (w_new _ _ _ _ _ _ Wi) as w1.
  assert (Pv : forall v, In (AVal v) (args ++ map snd kw) -> plain v). { destruct Po as (_ & P2 & _). intros v I. eapply P2; eauto. apply in_or_app. cbn. auto. }
  destruct (fun_mean M rs (fst (odir p)) f args kw vs ks n (w_ref _ _ _ _ _ _ Wi) Fa Fk Pv) as (R & Rk & Pf & Rb).
  assert (En : enough n R). { destruct Rb as [[e ->]|(a & b & ->)]; [intros v Q; discriminate|]. destruct Po as (_ & _ & _ & P4 & _). eapply P4. apply in_or_app. cbn. auto. }
  assert (Od : odir (p ++ [TFun f args kw n]) = (fst (odir p) ++ [each n R], snd (odir p))) by (rewrite odirect_snoc; destruct (odir p) as [env objs]; cbn [fst snd operform] in *; now rewrite Pf).
  set (N := d_next st) in *. set (jb := JFun (length (d_hist st)) f vs ks).
  assert (G : forall st' out k mk sub, d_hist st' = d_hist st ++ [(DSubmit f vs ks n false, out)] -> d_next st' = S N + k -> d_fin st' = d_fin st -> d_actors st' = d_actors st ->
     (forall d, d_job st' d = DaskRunProofs.with_jobs st jb k mk d) -> (forall i, i < k -> mk i = JItem (0, N) i /\ sub i = pick R i) ->
     (forall i d, nth_error (refs_out out) i = Some d -> exists r, with_mean M N (MFin R) k sub d = Some (MFin r) /\ nth_error (each n R) i = Some r) ->
     (forall y, E' y -> E y \/ d_fin st' y <> None) -> W (with_mean M N (MFin R) k sub) E' st' (p ++ [TFun f args kw n]) (rs ++ [refs_out out]) hs).
  { intros st' out k mk sub Hh Hn Hf Ha Hj Hs Hr HE'.
    apply (W_jobs M E E' st st' p (TFun f args kw n) rs (refs_out out) hs (DSubmit f vs ks n false, out) jb k mk (MFin R) sub (fun b => negb (Nat.ltb b (length (d_actors st))))); auto; rewrite ?Od; cbn [fst snd].
    - exists R. split; [apply mean_base|]. eapply fun_ext; eauto. now apply mean_ext.
    - intros i Li. destruct (Hs i Li) as [-> Q]. split; [|reflexivity]. exists R. split; [apply mean_base|]. rewrite <- Q. now apply mean_sub.
    - intros b Q. discriminate.
    - apply (mean_refs M); auto; [now apply mean_ext|apply (w_ref _ _ _ _ _ _ Wi)|]. rewrite (w_rs _ _ _ _ _ _ Wi), (w_env _ _ _ _ _ _ Wi). reflexivity.
    - rewrite app_length, (w_env _ _ _ _ _ _ Wi). cbn. lia.
    - apply (w_objs _ _ _ _ _ _ Wi).
    - intros b _ _. reflexivity.
    - intros b T d c m vs' ks' H. apply negb_true_iff, Nat.ltb_ge in T. destruct (w_job _ _ _ _ _ _ Wi _ _ H) as (R' & s & t & A & B & C). assert (b < length (d_actors st)) by (apply nth_error_Some; congruence). lia.
    - intros b T L. apply negb_true_iff, Nat.ltb_ge in T. lia.
    - intros b L. apply negb_true_iff, Nat.ltb_ge. exact L. }
  cbn [dstep] in *. fold N jb in HE |- *. destruct (Nat.eqb_spec n 1) as [->|n1]; [|destruct (Nat.ltb_spec 1 n) as [n2|n2]].
  - exists (DRef (0, N)), (with_mean M N (MFin R) 0 (fun _ => R)). split; [reflexivity|]. apply (G _ (DRef (0, N)) 0 (fun _ => jb)); auto; try reflexivity.
    + intros d. apply one_job.
    + intros i Li. lia.
    + intros i d H. destruct (one_at R i _ _ H) as [<- Q]. exists R. split; [apply mean_base|exact Q].
  - pose proof (DaskRunProofs.many_spec (JItem (0, N)) n (submit st jb) 0) as (A & B & C & D & F & H & _ & _).
    pose proof (DaskRunProofs.many_jobs st jb (JItem (0, N)) n) as J. destruct (submit_many (submit st jb) (JItem (0, N)) 0 n) as [st2 l] eqn:Em. cbn in A, B, C, D, F, H, J.
    exists (DRefs l), (with_mean M N (MFin R) n (pick R)). split; [cbn; now rewrite H|]. apply (G _ (DRefs l) n (JItem (0, N))); auto; cbn.
    + now rewrite H.
    + intros i d Q. rewrite A in Q. destruct (seq_at _ _ _ _ Q) as [Li ->]. exists (pick R i). split; [change (S (N + i)) with (S N + i); now apply mean_sub|now apply pick_at].
  - exists DNone, (with_mean M N (MFin R) 0 (fun _ => R)). split; [reflexivity|]. apply (G _ DNone 0 (fun _ => jb)); auto; try reflexivity.
    + intros d. apply one_job.
    + intros i Li. lia.
    + intros i d H. destruct i; discriminate.
Qed.

Lemma W_meth M (E E' : dataid -> Prop) st p rs hs a m args kw n vs ks : Dinv st -> W M E st p rs hs -> oportable body cbody mbody (p ++ [TMeth a m args kw n]) ->
  a < length (d_actors st) -> no_meth st a -> nth_error (d_actors st) a = nth_error (snd (odir p)) a ->
  Forall2 (stands rs) args vs -> Forall2 (stands_kw rs) kw ks -> (forall y, E' y -> E y \/ d_fin (step st (DCall a m vs ks n)) y <> None) ->
  exists out M', d_hist (step st (DCall a m vs ks n)) = d_hist st ++ [(DCall a m vs ks n, out)] /\
    W M' E' (step st (DCall a m vs ks n)) (p ++ [TMeth a m args kw n]) (rs ++ [refs_out out]) hs.
Proof.
  intros V Wi Po La Na Sa Fa Fk HE. pose proof (w_new _ _ _ _ _ _ Wi) as w1.
  assert (Pv : forall v, In (AVal v) (args ++ map snd kw) -> plain v). { destruct Po as (_ & _ & P3 & _). intros v I. eapply P3; eauto. apply in_or_app. cbn. auto. }
  destruct (nth_error (d_actors st) a) as [s|] eqn:Sa'; [|apply nth_error_None in Sa'; lia]. symmetry in Sa.
  destruct (meth_mean M rs (fst (odir p)) (snd (odir p)) a m s args kw vs ks n (w_ref _ _ _ _ _ _ Wi) Fa Fk Pv Sa) as (R & t & objs' & Rk & Pf & Rb & Lo & Ot & Oo).
  assert (En : enough n R). { destruct Rb as [[e ->]|(x & y & z & ->)]; [intros v Q; discriminate|]. destruct Po as (_ & _ & _ & _ & P5 & _). eapply P5. apply in_or_app. cbn. auto. }
  assert (Od : odir (p ++ [TMeth a m args kw n]) = (fst (odir p) ++ [each n R], objs')) by (rewrite odirect_snoc, <- Pf; now destruct (odir p)).
  set (N := d_next st) in *. set (jb := JMeth (length (d_hist st)) a m vs ks).
  assert (G : forall st' out k mk sub, d_hist st' = d_hist st ++ [(DCall a m vs ks n, out)] -> d_next st' = S N + k -> d_fin st' = d_fin st -> d_actors st' = d_actors st ->
     (forall d, d_job st' d = DaskRunProofs.with_jobs st jb k mk d) -> (forall i, i < k -> (mk i = JResult (0, N) /\ sub i = R) \/ (mk i = JResultItem (0, N) i /\ sub i = pick R i)) ->
     (forall i d, nth_error (refs_out out) i = Some d -> i < k /\ d = (0, S N + i) /\ nth_error (each n R) i = Some (sub i)) ->
     (forall y, E' y -> E y \/ d_fin st' y <> None) -> W (with_mean M N (MFut R) k sub) E' st' (p ++ [TMeth a m args kw n]) (rs ++ [refs_out out]) hs).
  { intros st' out k mk sub Hh Hn Hf Ha Hj Hs Hr HE'.
    apply (W_jobs M E E' st st' p (TMeth a m args kw n) rs (refs_out out) hs (DCall a m vs ks n, out) jb k mk (MFut R) sub (fun b => Nat.eqb b a || negb (Nat.ltb b (length (d_actors st))))); auto; rewrite ?Od; cbn [fst snd].
    - exists R, s, t. split; [apply mean_base|]. split; [exact Sa'|]. split; [exact Ot|]. eapply meth_ext; eauto. now apply mean_ext.
    - intros i Li. destruct (Hs i Li) as [[-> Q]|[-> Q]]; (split; [|reflexivity]); exists R; (split; [apply mean_base|]); rewrite <- Q; now apply mean_sub.
    - intros b Q. cbn in Q. apply Nat.eqb_eq in Q. subst b. now rewrite Nat.eqb_refl.
    - apply (mean_refs M); auto; [now apply mean_ext|apply (w_ref _ _ _ _ _ _ Wi)|rewrite (w_rs _ _ _ _ _ _ Wi), (w_env _ _ _ _ _ _ Wi); reflexivity|].
      intros i d H. destruct (Hr i d H) as (Li & -> & Q). exists (sub i). split; [now apply mean_sub|exact Q].
    - rewrite app_length, (w_env _ _ _ _ _ _ Wi). cbn. lia.
    - rewrite Lo. apply (w_objs _ _ _ _ _ _ Wi).
    - intros b L T. apply orb_false_iff in T as [T _]. apply Nat.eqb_neq in T. auto.
    - intros b T. apply orb_true_iff in T as [T|T]; [apply Nat.eqb_eq in T; subst b; exact Na|]. intros d c m' vs' ks' H.
      apply negb_true_iff, Nat.ltb_ge in T. destruct (w_job _ _ _ _ _ _ Wi _ _ H) as (R' & s' & t' & A & B & C). assert (b < length (d_actors st)) by (apply nth_error_Some; congruence). lia.
    - intros b T L. apply orb_true_iff in T as [T|T]; [|apply negb_true_iff, Nat.ltb_ge in T; lia]. apply Nat.eqb_eq in T. subst b. right; left.
      exists (0, N), (length (d_hist st)), m, vs, ks, m, vs, ks, n, out. split; [rewrite Hj; unfold DaskRunProofs.with_jobs; fold N; now rewrite did_eqb_refl|]. split; [rewrite Hh; apply in_or_app; right; now left|].
      intros x I. apply In_nth_error in I as [i I]. destruct (Hr i x I) as (Li & -> & _). assert (Fn : d_fin st' (0, S N + i) = None).
      { rewrite Hf. destruct (d_fin st (0, S N + i)) as [g|] eqn:Q; [|reflexivity]. destruct (DaskRunProofs.v_key _ _ _ _ _ V (0, S N + i)) as [_ K]; [right; congruence|]. cbn in K. fold N in K. lia. }
      split; [|split; [exact Fn|split; [cbn; lia|split; [intros Q; injection Q as Q; lia|]]]].
      + intros H. destruct (HE' _ H) as [H'|H']; [|auto]. apply (w_ever _ _ _ _ _ _ Wi) in H'. cbn in H'. fold N in H'. lia.
      + intros j H. rewrite Hj in H. pose proof (DaskRunProofs.with_jobs_item st jb k mk i Li) as Q. fold N in Q. rewrite Q in H. injection H as <-. destruct (Hs i Li) as [[-> _]|[-> _]]; reflexivity.
    - intros b L. apply orb_true_iff. right. apply negb_true_iff, Nat.ltb_ge. exact L. }
  cbn [dstep] in *. fold N jb in HE |- *. destruct (Nat.eqb_spec n 1) as [->|n1]; [|destruct (Nat.ltb_spec 1 n) as [n2|n2]].
  - exists (DRef (0, S N)), (with_mean M N (MFut R) 1 (fun _ => R)). split; [reflexivity|]. apply (G _ (DRef (0, S N)) 1 (fun _ => JResult (0, N))); auto.
    + cbn. unfold N. lia.
    + intros d. apply two_jobs.
    + intros i d H. destruct i as [|[|i]]; cbn in H; try discriminate. injection H as <-. split; [lia|]. split; [f_equal; lia|]. destruct R; reflexivity.
  - pose proof (DaskRunProofs.many_spec (JResultItem (0, N)) n (submit st jb) 0) as (A & B & C & D & F & H & _ & _).
    pose proof (DaskRunProofs.many_jobs st jb (JResultItem (0, N)) n) as J. destruct (submit_many (submit st jb) (JResultItem (0, N)) 0 n) as [st2 l] eqn:Em. cbn in A, B, C, D, F, H, J.
    exists (DRefs l), (with_mean M N (MFut R) n (pick R)). split; [cbn; now rewrite H|]. apply (G _ (DRefs l) n (JResultItem (0, N))); auto; cbn.
    + now rewrite H.
    + intros i d Q. rewrite A in Q. destruct (seq_at _ _ _ _ Q) as [Li ->]. split; [exact Li|]. split; [reflexivity|now apply pick_at].
  - exists DNone, (with_mean M N (MFut R) 0 (fun _ => R)). split; [reflexivity|]. apply (G _ DNone 0 (fun _ => jb)); auto; try reflexivity.
    + intros d. apply one_job.
    + intros i Li. lia.
    + intros i d H. destruct i; discriminate.
Qed.

(** ** Runs *)
Notation ev := (ever body cbody mbody item).
Notation aw := (awaited body cbody mbody item).

Lemma drun_snoc ops o : run (ops ++ [o]) = step (run ops) o.
Proof. unfold drun. rewrite fold_left_app. reflexivity. Qed.

Lemma list_snoc {A} (l : list A) : l = [] \/ exists l' x, l = l' ++ [x].
Proof. induction l as [|x l IH] using rev_ind; [now left|right; eauto]. Qed.

Lemma ever_snoc ops o y : ev (ops ++ [o]) y -> ev ops y \/ d_fin (step (run ops) o) y <> None.
Proof.
  intros (pre & post & E & H). destruct (list_snoc post) as [->|(post' & z & ->)].
  - right. rewrite app_nil_r in E. subst pre. rewrite drun_snoc in H. unfold dget in H. destruct (d_fin (step (run ops) o) y); [discriminate|congruence].
  - left. rewrite app_assoc in E. apply app_inj_tail in E as [-> _]. exists pre, post'. auto.
Qed.

Lemma aw_front ops o : aw (ops ++ [o]) -> aw ops.
Proof. intros H pre a m args kw n post E. apply (H pre a m args kw n (post ++ [o])). rewrite E, <- app_assoc. reflexivity. Qed.

Lemma sched_hist st o : DaskRunSpec.is_call o = false -> d_hist (step st o) = d_hist st.
Proof.
  destruct o as [v|f vs ks n b|c vs ks b|a m vs ks n|d|d|d x|d]; try discriminate; intros _; cbn [dstep]; auto.
  - destruct (d_job st d) as [j|]; [|auto]. destruct (forallb (finished_well st) (deps j)); [|auto]. destruct j; cbn [run_job]; auto.
    + destruct (nth_error (d_actors st) a); [|auto]. destruct (mbody m v _ _). auto.
    + destruct (d_fin st src) as [[|]|]; auto.
    + destruct (d_fin st src) as [[|[|]]|]; auto.
  - destruct (d_job st d); [|auto]. destruct (d_fin st x) as [[[|]|]|]; auto. destruct (did_in x (deps j)); auto.
  - destruct (did_in d (d_held st) || needed st d); auto.
Qed.

Lemma nth_seq0 n a x : nth_error (seq 0 n) a = Some x -> x = a /\ a < n.
Proof.
  intros H. assert (L : a < n) by (rewrite <- (seq_length n 0); apply nth_error_Some; congruence). split; [|exact L].
  rewrite (nth_error_nth' _ 0) in H by now rewrite seq_length. rewrite seq_nth in H by exact L. injection H as <-. reflexivity.
Qed.

Theorem W_run ops : lg ops -> aw ops -> forall prog rs hs, odplays prog rs hs (d_hist (run ops)) -> oportable body cbody mbody prog -> exists M, W M (ev ops) (run ops) prog rs hs.
Proof.
  induction 1 as [|ops o L IH Ri Ra]; intros Aw prog rs hs Pl Po.
  - assert (P0 : prog = [] /\ rs = [] /\ hs = []) by (cbn in Pl; inversion Pl as [| ? ? ? ? ? ? ? Q| ? ? ? ? ? ? ? ? ? ? ? ? ? ? Q| ? ? ? ? ? ? ? ? ? Q| ? ? ? ? ? ? ? ? ? ? ? ? ? ? ? ? ? Q]; [auto|..]; match goal with H : _ ++ [_] = [] |- _ => symmetry in H; elim (app_cons_not_nil _ _ _ H) end).
    destruct P0 as (-> & -> & ->). exists (fun _ => None). split; cbn; try discriminate; auto; try (intros; congruence); try (intros; lia).
    + intros c i d H. destruct c; discriminate.
    + intros x (pre & post & E & H). destruct pre; [|discriminate]. elim H. reflexivity.
  - pose proof (DaskRunProofs.legal_inv _ _ _ _ _ L) as V. specialize (IH (aw_front _ _ Aw)). rewrite drun_snoc in *.
    assert (HE : forall y, ev (ops ++ [o]) y -> ev ops y \/ d_fin (step (run ops) o) y <> None) by (intros y; apply ever_snoc).
    destruct (DaskRunSpec.is_call o) eqn:Ic.
    2:{ rewrite (sched_hist _ _ Ic) in Pl. destruct (IH _ _ _ Pl Po) as [M Wi]. exists M. apply (W_sched M (ev ops)); auto. }
    set (st := run ops) in *.
    assert (Hh : exists out, d_hist (step st o) = d_hist st ++ [(o, out)]).
    { destruct o as [v|f vs ks n b|c vs ks b|a m vs ks n|d|d|d x|d]; try discriminate; cbn [dstep].
      - eexists; reflexivity.
      - destruct b; [eexists; reflexivity|]. destruct (Nat.eqb n 1); [eexists; reflexivity|]. destruct (Nat.ltb 1 n); [|eexists; reflexivity].
        pose proof (DaskRunProofs.many_spec (JItem (0, d_next st)) n (submit st (JFun (length (d_hist st)) f vs ks)) 0) as (_ & _ & _ & _ & _ & H & _ & _).
        destruct (submit_many _ _ 0 n) as [st2 l]. cbn in H. exists (DRefs l). cbn. now rewrite H.
      - destruct b; [eexists; reflexivity|]. destruct (cbody c vs ks); eexists; reflexivity.
      - destruct (Nat.eqb n 1); [eexists; reflexivity|]. destruct (Nat.ltb 1 n); [|eexists; reflexivity].
        pose proof (DaskRunProofs.many_spec (JResultItem (0, d_next st)) n (submit st (JMeth (length (d_hist st)) a m vs ks)) 0) as (_ & _ & _ & _ & _ & H & _ & _).
        destruct (submit_many _ _ 0 n) as [st2 l]. cbn in H. exists (DRefs l). cbn. now rewrite H. }
    destruct Hh as [out Hh]. rewrite Hh in Pl. remember (d_hist st ++ [(o, out)]) as H eqn:EH.
    destruct Pl as [|p rs hs h v d Pl|p rs hs h f args kw n vs ks out' Pl Fa Fk|p rs hs h k args kw x Pl|p rs hs h a x m args kw n vs ks out' Pl Hx Fa Fk].
    + destruct (d_hist st); discriminate.
    + apply app_inj_tail in EH as [-> EH]. injection EH as <- <-. destruct (IH _ _ _ Pl (oportable_front _ _ _ _ _ Po)) as [M Wi].
      assert (d = (0, d_next st)) as ->. { cbn in Hh. apply app_inj_tail in Hh as [_ Hh]. congruence. }
      eexists. apply (W_put M (ev ops)); auto.
    + apply app_inj_tail in EH as [-> EH]. injection EH as <- <-. destruct (IH _ _ _ Pl (oportable_front _ _ _ _ _ Po)) as [M Wi].
      destruct (W_fun M (ev ops) (ev (ops ++ [DSubmit f vs ks n false])) st p rs hs f args kw n vs ks V Wi Po Fa Fk HE) as (out2 & M' & Hh' & Wi').
      rewrite Hh in Hh'. apply app_inj_tail in Hh' as [_ Hh']. injection Hh' as <-. eauto.
    + apply app_inj_tail in EH as [-> EH]. injection EH as <- <-. destruct (IH _ _ _ Pl (oportable_front _ _ _ _ _ Po)) as [M Wi].
      destruct Po as (_ & _ & _ & _ & _ & P6). destruct (P6 k args kw) as [[s Cb] _]; [apply in_or_app; cbn; auto|].
      assert (x = length (d_actors st)) as ->. { cbn [dstep] in Hh. rewrite Cb in Hh. cbn in Hh. apply app_inj_tail in Hh as [_ Hh]. congruence. }
      exists M. apply (W_make M (ev ops) _ st p rs hs k args kw s); auto.
    + apply app_inj_tail in EH as [-> EH]. injection EH as <- <-. destruct (IH _ _ _ Pl (oportable_front _ _ _ _ _ Po)) as [M Wi].
      pose proof Hx as Hx'. rewrite (w_hs _ _ _ _ _ _ Wi) in Hx'. apply nth_seq0 in Hx' as [-> La].
      assert (Ok : no_meth st a /\ nth_error (d_actors st) a = nth_error (snd (odir p)) a).
      { assert (Aw' : forall m' args' kw' n' out, In (DCall a m' args' kw' n', out) (d_hist st) -> exists d, In d (refs_out out) /\ ev ops d) by (apply (Aw ops a m vs ks n []); reflexivity).
        destruct (w_act _ _ _ _ _ _ Wi a La) as [Q|[(d0 & c & m2 & vs2 & ks2 & m' & args' & kw' & n' & out2 & A & B & C)|(A & m' & args' & kw' & n' & out2 & B & C)]]; [exact Q| |];
          destruct (Aw' _ _ _ _ _ B) as (y & I & Ey); destruct (C y I) as [N _]; elim (N Ey). }
      destruct Ok as [Na Sa].
      destruct (W_meth M (ev ops) (ev (ops ++ [DCall a m vs ks n])) st p rs hs a m args kw n vs ks V Wi Po La Na Sa Fa Fk HE) as (out2 & M' & Hh' & Wi').
      rewrite Hh in Hh'. apply app_inj_tail in Hh' as [_ Hh']. injection Hh' as <-. eauto.
Qed.
End Wait.

Theorem waits body cbody mbody prog : oportable body cbody mbody prog -> forall c i r, oshows_dask_waiting body cbody mbody prog c i r ->
  agrees (result_of (fst (odirect body cbody mbody prog)) c i) r.
Proof.
  intros Po c i r (item & ops & rs & hs & d & Ix & L & Aw & Pl & Rf & G). destruct (W_run body cbody mbody item Ix ops L Aw prog rs hs Pl Po) as [M Wi].
  destruct (w_ref _ _ _ _ _ _ _ _ _ _ Wi c i d Rf) as (R & Md & ->). unfold dget in G. destruct (d_fin _ d) as [[r'|r']|] eqn:D; try discriminate. injection G as ->.
  destruct (w_fin _ _ _ _ _ _ _ _ _ _ Wi d _ D) as [(R' & E & S)|(R' & E & _)]; [|congruence]. assert (R' = R) as -> by congruence.
  destruct R as [v|e]; cbn in *; exact S.
Qed.
