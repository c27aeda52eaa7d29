(** A monitor keeps running. *)
From Verif Require Import Lib ShmModel ShmSpec ShmProofs ShmMgrProofs ShmPropLemmas MonModel MonSpec MonProofs SurviveSpec.
Local Open Scope Z_scope.

Definition aligned (m : manager) : Prop := forall d r, resv m d = Some r -> service_index r mod INFO_SIZE = 0.
Definition below (S : Z) (m : manager) : Prop := forall d r, resv m d = Some r -> last_index r <= S.

Lemma occupy_at c rs rs' f l : occupy c rs = (rs', Some (f, l)) ->
  exists hi, In (f, hi) rs /\ f + c <= hi.
Proof.
  revert rs'. induction rs as [|[lo hi] rs IH]; intros rs' H; simpl in H; [discriminate|].
  destruct (c <=? hi - lo) eqn:E.
  - apply Z.leb_le in E. exists hi. destruct (hi =? lo + c); injection H as <- <- <-; (split; [now left|lia]).
  - destruct (occupy c rs) as [rs1 r1] eqn:O. injection H as <- ->.
    destruct (IH rs1 eq_refl) as (h & I & L). exists h. split; [now right|exact L].
Qed.

Lemma occupy_first c rs rs' f l lb ub lo hi : sep lb rs ub -> occupy c rs = (rs', Some (f, l)) ->
  In (lo, hi) rs -> lo + c <= hi -> f <= lo.
Proof.
  revert lb rs'. induction rs as [|[a b] rs IH]; intros lb rs' S O I L; [destruct I|].
  cbn [sep] in S. destruct S as (S1 & S2 & S3 & S4). simpl in O.
  destruct (c <=? b - a) eqn:Q.
  - assert (f = a) as -> by (destruct (b =? a + c); injection O; auto).
    destruct I as [I|I]; [injection I; lia|]. pose proof (sep_In _ _ _ _ _ S4 I). lia.
  - apply Z.leb_gt in Q. destruct (occupy c rs) as [rs1 r1]. injection O as <- ->.
    destruct I as [I|I]; [injection I; intros; lia|]. eapply IH; eauto.
Qed.

(** The cell before a free range is not free. *)
Lemma sep_before lb rs ub lo hi : sep lb rs ub -> In (lo, hi) rs -> ~ covers rs (lo - 1).
Proof.
  revert lb. induction rs as [|[a b] rs IH]; intros lb S I C; [destruct I|].
  cbn [sep] in S. destruct S as (S1 & S2 & S3 & S4). apply covers_cons in C. destruct I as [I|I].
  - injection I as -> ->. destruct C as [C|C]; [lia|]. apply (sep_covers_bound _ _ _ _ S4) in C. lia.
  - destruct C as [C|C]; [|exact (IH _ S4 I C)].
    pose proof (sep_In _ _ _ _ _ S4 I). lia.
Qed.

Lemma aligned_place mem svc m fs f l : minv mem svc m -> mexact mem svc m -> aligned m ->
  occupy INFO_SIZE (free_service m) = (fs, Some (f, l)) -> f mod INFO_SIZE = 0.
Proof.
  intros I X A O. destruct (occupy_at _ _ _ _ _ O) as (hi & Hi & L).
  pose proof (sep_In _ _ _ _ _ (i_seps _ _ _ I) Hi) as B.
  assert (f = 0 \/ 0 < f) as [-> | P] by lia; [reflexivity|].
  pose proof (sep_before _ _ _ _ _ (i_seps _ _ _ I) Hi) as N.
  destruct (proj2 X (f - 1)) as [C|(d & r & R & U)]; [lia|tauto|].
  assert (F : covers (free_service m) f) by (exists f, hi; split; [exact Hi|lia]).
  assert (~ in_region (service_index r) (service_index r + INFO_SIZE) f).
  { intros Z. apply (i_frees _ _ _ I f); [exists d, r; auto|exact F]. }
  unfold in_region in *. assert (f = service_index r + INFO_SIZE) as -> by lia.
  specialize (A d r R). unfold INFO_SIZE in *. rewrite <- Z.add_mod_idemp_l, A; [reflexivity|lia].
Qed.

Lemma put_fields m d n m' r : mgr_put m d n = (m', PutOk r) -> resv m' = dput (resv m) d r.
Proof. intros H. destruct (mgr_put_ok _ _ _ _ _ H) as (fm & fs & s2 & _ & _ & ->). reflexivity. Qed.

Lemma aligned_step mem svc m o : op_ok o -> minv mem svc m -> mexact mem svc m -> aligned m -> aligned (mstep m o).
Proof.
  intros K I X A. destruct o as [d n|d|ids rf]; cbn [mstep].
  - unfold mgr_reserve, mgr_get. destruct (resv m d) as [r|] eqn:R; [exact A|].
    destruct (mgr_put m d n) as [m' [r| |]] eqn:P; cbn [fst].
    + destruct (mgr_put_ok _ _ _ _ _ P) as (fm & fs & s2 & _ & O & ->).
      intros d' r'. cbn [resv]. unfold dput. destruct (did_eqb d d') eqn:E.
      * intros H. injection H as <-. exact (aligned_place _ _ _ _ _ _ I X A O).
      * apply A.
    + unfold mgr_put in P. destruct (occupy n (free_memory m)) as [fm [[f l]|]], (occupy INFO_SIZE (free_service m)) as [fs [[s s2]|]];
        injection P as <-; try discriminate; exact A.
    + unfold mgr_put in P. destruct (occupy n (free_memory m)) as [fm [[f l]|]], (occupy INFO_SIZE (free_service m)) as [fs [[s s2]|]];
        injection P as <-; try discriminate; exact A.
  - exact A.
  - intros d r R. unfold mgr_clear in R.
    destruct (clear_loop_resv (combine (cleanup_list m ids) rf)
      {| resv := resv m; free_memory := free_memory m; free_service := free_service m; pending_cleanup := [] |} d) as [H|H];
      rewrite H in R; [exact (A d r R)|discriminate].
Qed.

(** A gap of four service cells exists whenever fewer IDs are held than the segment has slots. *)
Lemma slot_free mem svc m k : minv mem svc m -> aligned m -> holds_at_most m k -> INFO_SIZE * (k + 1) <= svc ->
  gap_exists (svc_used m) svc INFO_SIZE.
Proof.
  intros I A (ds & L & H) B.
  set (slot := fun d => match resv m d with Some r => Z.to_nat (service_index r / INFO_SIZE) | None => O end).
  assert (exists i, In i (seq 0 (S (length ds))) /\ ~ In i (map slot ds)) as (i & Hi & Ni).
  { destruct (forallb (fun i => existsb (Nat.eqb i) (map slot ds)) (seq 0 (S (length ds)))) eqn:F.
    - exfalso. assert (Inc : incl (seq 0 (S (length ds))) (map slot ds)).
      { intros x Hx. rewrite forallb_forall in F. specialize (F x Hx). apply existsb_exists in F as (y & Y & E).
        apply Nat.eqb_eq in E as ->. exact Y. }
      apply NoDup_incl_length in Inc; [|apply seq_NoDup]. rewrite seq_length, map_length in Inc. lia.
    - assert (exists i, In i (seq 0 (S (length ds))) /\ existsb (Nat.eqb i) (map slot ds) = false) as (i & Hi & E).
      { revert F. generalize (seq 0 (S (length ds))). induction l as [|x l IH]; simpl; [discriminate|].
        destruct (existsb (Nat.eqb x) (map slot ds)) eqn:E; simpl.
        - intros F. destruct (IH F) as (i & ? & ?). exists i. auto.
        - intros _. exists x. auto. }
      exists i. split; [exact Hi|]. intros C. enough (existsb (Nat.eqb i) (map slot ds) = true) by congruence.
      apply existsb_exists. exists i. split; [exact C|apply Nat.eqb_refl]. }
  apply in_seq in Hi. exists (INFO_SIZE * Z.of_nat i). unfold INFO_SIZE in *.
  split; [lia|]. split; [lia|]. intros x Hx (d & r & R & U). apply Ni.
  apply in_map_iff. exists d. split; [|apply H; congruence].
  unfold slot. rewrite R. pose proof (A d r R) as M. unfold in_region, INFO_SIZE in *.
  apply Z.div_exact in M; [|lia]. set (q := service_index r / 4) in *.
  assert (q = Z.of_nat i) as -> by lia. apply Nat2Z.id.
Qed.

(** ** The messages *)

Definition opof (s : mst) (m : mmsg) : list mop :=
  if mstopped s then [] else
  match m with
  | MReserve _ d n => [Reserve d n]
  | MShared _ d => [Query d]
  | MClean ds fl => [Cleanup ds fl]
  | _ => []
  end.

Lemma scan_mgr n : forall i s, mmgr (scan n i s) = mmgr s.
Proof.
  induction n as [|n IH]; intros i s; cbn [scan]; [reflexivity|].
  destruct (nth_error (mawaited s) i) as [d|]; [|reflexivity].
  destruct (did_in d (mcompleted s)); [|apply IH].
  destruct (_ =? _); rewrite IH; reflexivity.
Qed.

Lemma stops_mgr l : forall s, mmgr (fold_left (fun s r => memit s (MvStop r)) l s) = mmgr s.
Proof. induction l as [|r l IH]; intros s; simpl; [reflexivity|]. rewrite IH. reflexivity. Qed.

Lemma step_mgr c s m s' : mon_step c s m = Some s' -> mmgr s' = mrun (mmgr s) (opof s m).
Proof.
  unfold mon_step, opof. destruct (mstopped s); [intros H; injection H as <-; reflexivity|].
  destruct m as [src ds|ds n|src|src d n|src d|ds fl|src|]; intros H.
  - injection H as <-. unfold process_waits. rewrite scan_mgr. reflexivity.
  - injection H as <-. unfold process_waits. rewrite scan_mgr. reflexivity.
  - injection H as <-. reflexivity.
  - unfold mrun. cbn [fold_left mstep]. cbn [mmgr memit] in H. destruct (mgr_reserve (mmgr s) d n) as [g [[i f]|]]; [|discriminate].
    injection H as <-. reflexivity.
  - cbn [mmgr memit] in H. destruct (mgr_get (mmgr s) d); [|discriminate]. injection H as <-. reflexivity.
  - injection H as <-. reflexivity.
  - destruct (Nat.eqb _ _); injection H as <-; [|reflexivity].
    unfold stop_all. cbn [set_stopped memit mmgr]. rewrite stops_mgr. reflexivity.
  - injection H as <-. reflexivity.
Qed.

Section Run.
Variables (c : mcfg) (mem svc : Z).
Hypothesis mem_pos : 0 < mem.
Hypothesis svc_pos : 0 < svc.

Record Good (m : manager) : Prop := {
  gd_inv : minv mem svc m;
  gd_ex : mexact mem svc m;
  gd_al : aligned m
}.

Lemma good_init : Good (manager_init mem svc).
Proof using mem_pos svc_pos. constructor; [now apply minv_init|apply mexact_init|intros d r H; discriminate]. Qed.

Lemma good_step s m s' : Good (mmgr s) -> (forall src d n, m = MReserve src d n -> 0 < n) ->
  mon_step c s m = Some s' -> Good (mmgr s').
Proof using.
  intros G P H. rewrite (step_mgr _ _ _ _ H). unfold opof, mon_step in *.
  destruct (mstopped s); [exact G|]. destruct G as [I X A].
  destruct m; try (constructor; assumption); unfold mrun; cbn [fold_left].
  - assert (K : op_ok (Reserve d size)) by (simpl; eauto). constructor.
    + now apply minv_step.
    + apply mexact_step; auto. simpl. cbn [mmgr memit] in H.
      destruct (mgr_reserve (mmgr s) d size) as [g [p|]]; [|discriminate]. simpl. split; [discriminate|exact Logic.I].
    + now apply (aligned_step mem svc).
  - constructor; [now apply minv_step|apply mexact_step; simpl; auto|now apply (aligned_step mem svc)].
Qed.

Lemma reserve_ok m d n : Good m -> 0 < n -> gap_exists (mem_used m) mem n -> gap_exists (svc_used m) svc INFO_SIZE ->
  resv m d = None -> snd (mgr_reserve m d n) <> None.
Proof using.
  intros G P Hm Hs R. destruct G as [I [Xm Xs] A]. apply reserve_none_snd; [exact R|]. split.
  - apply (occupy_succeeds_iff_gap (mem_used m) (free_memory m) mem n); auto; apply I.
  - apply (occupy_succeeds_iff_gap (svc_used m) (free_service m) svc INFO_SIZE); auto; try apply I. unfold INFO_SIZE; lia.
Qed.

(** What is known of an ID that is reserved and never named in a cleanup. *)
Lemma clear_loop_keeps l : forall m d, ~ In d (map fst l) -> resv (clear_loop m l) d = resv m d.
Proof using.
  induction l as [|[x b] l IH]; intros m d N; simpl in *; [reflexivity|]. destruct b.
  - rewrite IH by tauto. reflexivity.
  - rewrite IH by tauto. unfold mgr_free_one. destruct (resv m x) as [r|]; [|reflexivity]. cbn [resv].
    unfold ddel. destruct (did_eqb x d) eqn:E; [|reflexivity]. apply did_eqb_eq in E. tauto.
Qed.

Lemma clear_loop_pending l : forall m d, In d (pending_cleanup (clear_loop m l)) -> In d (pending_cleanup m) \/ In d (map fst l).
Proof using.
  induction l as [|[x b] l IH]; intros m d H; simpl in *; [now left|]. destruct b.
  - apply IH in H as [H|H]; [|tauto]. cbn [pending_cleanup] in H. apply in_app_or in H as [H|[<-|[]]]; auto.
  - apply IH in H as [H|H]; [|tauto]. unfold mgr_free_one in H. destruct (resv m x); auto.
Qed.

Lemma map_fst_combine {A B} (l : list A) (r : list B) x : In x (map fst (combine l r)) -> In x l.
Proof using. clear. intros H. apply in_map_iff in H as ([a b] & <- & H). exact (in_combine_l _ _ _ _ H). Qed.

Lemma reserve_resv m d n g i f : mgr_reserve m d n = (g, Some (i, f)) ->
  pending_cleanup g = pending_cleanup m /\ resv g d = Some i /\ (forall x, resv m x <> None -> resv g x <> None).
Proof using.
  unfold mgr_reserve, mgr_get. destruct (resv m d) as [r|] eqn:R.
  - intros H. injection H as <- <- <-. auto.
  - destruct (mgr_put m d n) as [m' [r| |]] eqn:P; intros H; try discriminate. injection H as <- <- <-.
    destruct (mgr_put_ok _ _ _ _ _ P) as (fm & fs & s2 & _ & _ & ->). cbn [resv pending_cleanup]. split; [reflexivity|].
    unfold dput. rewrite did_eqb_refl. split; [reflexivity|]. intros x. destruct (did_eqb d x); [discriminate|auto].
Qed.

Record Known (done : list mmsg) (s : mst) : Prop := {
  kn_pend : forall d, In d (pending_cleanup (mmgr s)) -> exists ds fl, In (MClean ds fl) done /\ In d ds;
  kn_resv : forall src d n, In (MReserve src d n) done -> (forall ds fl, In (MClean ds fl) done -> ~ In d ds) ->
            mstopped s = true \/ resv (mmgr s) d <> None
}.

Lemma stopped_step s m s' : mstopped s = true -> mon_step c s m = Some s' -> s' = s.
Proof using. unfold mon_step. intros ->. congruence. Qed.

Lemma known_step done s m s' : Known done s -> mon_step c s m = Some s' -> Known (done ++ [m]) s'.
Proof using.
  intros [P R] H. destruct (mstopped s) eqn:St.
  { rewrite (stopped_step _ _ _ St H). constructor.
    - intros d D. destruct (P d D) as (ds & fl & A & B). exists ds, fl. split; [apply in_or_app; auto|exact B].
    - auto. }
  assert (Mg := step_mgr _ _ _ _ H). unfold opof in Mg. rewrite St in Mg.
  assert (Same : mmgr s' = mmgr s -> (forall src d n, m <> MReserve src d n) -> (forall ds fl, m <> MClean ds fl) ->
     Known (done ++ [m]) s').
  { intros E N1 N2. constructor.
    - intros d D. rewrite E in D. destruct (P d D) as (ds & fl & A & B). exists ds, fl. split; [apply in_or_app; auto|exact B].
    - intros src d n Hi Hn. rewrite E. apply in_app_or in Hi as [Hi|[Hi|[]]]; [|exfalso; exact (N1 _ _ _ Hi)].
      destruct (R src d n Hi) as [C|C]; [|congruence|auto]. intros ds fl X. apply (Hn ds fl). apply in_or_app. auto. }
  destruct m as [src ds|ds n|src|src d n|src d|ds fl|src|]; try (apply Same; [exact Mg|discriminate|discriminate]); clear Same.
  - unfold mon_step in H. rewrite St in H. cbn [mmgr memit] in H. unfold mrun in Mg. cbn [fold_left mstep] in Mg.
    destruct (mgr_reserve (mmgr s) d n) as [g [[i f]|]] eqn:Q; [|discriminate]. cbn [fst] in Mg.
    destruct (reserve_resv _ _ _ _ _ _ Q) as (Q1 & Q2 & Q3). constructor.
    + rewrite Mg, Q1. intros x D. destruct (P x D) as (ds & fl & A & B). exists ds, fl. split; [apply in_or_app; auto|exact B].
    + intros src' x n' Hi Hn. right. rewrite Mg. apply in_app_or in Hi as [Hi|[Hi|[]]].
      * apply Q3. destruct (R src' x n' Hi) as [C|C]; [|congruence|exact C]. intros ds fl X. apply (Hn ds fl). apply in_or_app. auto.
      * injection Hi as <- <- <-. congruence.
  - unfold mrun in Mg. cbn [fold_left mstep] in Mg. unfold mgr_clear in Mg.
    assert (Cl : forall x, In x (map fst (combine (cleanup_list (mmgr s) ds) fl)) ->
       exists ds' fl', In (MClean ds' fl') (done ++ [MClean ds fl]) /\ In x ds').
    { intros x X. apply map_fst_combine in X. unfold cleanup_list in X. apply in_app_or in X as [X|X].
      - destruct (P x X) as (a & b & A & B). exists a, b. split; [apply in_or_app; auto|exact B].
      - exists ds, fl. split; [apply in_or_app; right; left; reflexivity|exact X]. }
    constructor.
    + rewrite Mg. intros x D. apply clear_loop_pending in D as [[]|D]. exact (Cl x D).
    + intros src x n Hi Hn. apply in_app_or in Hi as [Hi|[Hi|[]]]; [|discriminate].
      destruct (R src x n Hi) as [C|C]; [|congruence|].
      * intros a b X. apply (Hn a b). apply in_or_app. auto.
      * right. rewrite Mg, clear_loop_keeps; [exact C|]. intros X. destruct (Cl x X) as (a & b & A & B). exact (Hn a b A B).
Qed.

Lemma run_app ms : forall s m, mon_run c s (ms ++ [m]) = match mon_run c s ms with Some s' => mon_step c s' m | None => None end.
Proof using.
  induction ms as [|x ms IH]; intros s m; cbn [mon_run app]; [destruct (mon_step c s m); reflexivity|].
  destruct (mon_step c s x); [apply IH|reflexivity].
Qed.

Theorem survives_room k ms : sizes_ok ms -> known_when_asked ms -> INFO_SIZE * k <= svc ->
  room c (minit (manager_init mem svc)) mem k ms ->
  exists s, mon_run c (minit (manager_init mem svc)) ms = Some s /\ Good (mmgr s) /\ Known ms s.
Proof using mem_pos svc_pos.
  intros SZ KW SV. induction ms as [|m ms IH] using rev_ind; intros RM.
  - eexists. split; [reflexivity|]. split; [exact good_init|]. constructor; simpl; tauto.
  - destruct IH as (s & H & G & K).
    + intros src d n X. apply (SZ src d n). apply in_or_app. auto.
    + intros a src d b X. apply (KW a src d (b ++ [m])). rewrite X, <- app_assoc. reflexivity.
    + intros a src d n b s X. apply (RM a src d n (b ++ [m]) s). rewrite X, <- app_assoc. reflexivity.
    + assert (exists s', mon_step c s m = Some s') as (s' & T).
      { destruct (mstopped s) eqn:St; [unfold mon_step; rewrite St; eauto|].
        destruct m as [src ds|ds n|src|src d n|src d|ds fl|src|]; unfold mon_step; rewrite St; eauto.
        - cbn [mmgr memit]. assert (snd (mgr_reserve (mmgr s) d n) <> None) as N.
          { destruct (resv (mmgr s) d) as [r|] eqn:R; [unfold mgr_reserve, mgr_get; rewrite R; discriminate|].
            destruct (RM ms src d n [] s eq_refl H St R) as (G1 & G2). apply reserve_ok; auto.
            - apply (SZ src d n). apply in_or_app. right. left. reflexivity.
            - apply (slot_free mem svc _ (k - 1)); [apply G|apply G|exact G2|]. replace (k - 1 + 1) with k by lia. exact SV. }
          destruct (mgr_reserve (mmgr s) d n) as [g [[i f]|]]; [eauto|]. simpl in N. congruence.
        - cbn [mmgr memit]. destruct (KW ms src d [] eq_refl) as ((src' & n & A) & B).
          destruct (kn_resv _ _ K src' d n A B) as [C|C]; [congruence|]. unfold mgr_get. destruct (resv (mmgr s) d); [eauto|congruence].
        - destruct (Nat.eqb _ _); eauto. }
      exists s'. split; [rewrite run_app, H; exact T|]. split.
      * eapply good_step; eauto. intros src d n ->. apply (SZ src d n). apply in_or_app. right. left. reflexivity.
      * eapply known_step; eauto.
Qed.

(** ** Enough memory for all that is ever asked for *)

Lemma asked_app a b : asked (a ++ b) = asked a + asked b.
Proof using. clear. unfold asked. rewrite map_app. induction a as [|x a IH]; simpl; [reflexivity|]. rewrite IH. lia. Qed.

Lemma requests_app a b : requests (a ++ b) = requests a + requests b.
Proof using. clear. unfold requests. rewrite map_app. induction a as [|x a IH]; simpl; [reflexivity|]. rewrite IH. lia. Qed.

Lemma asked_nonneg ms : sizes_ok ms -> 0 <= asked ms.
Proof using.
  clear. intros H. unfold asked. induction ms as [|m ms IH]; simpl; [lia|].
  assert (0 <= fold_right Z.add 0 (map (fun m => match m with MReserve _ _ n => n | _ => 0 end) ms)).
  { apply IH. intros src d n X. apply (H src d n). right. exact X. }
  destruct m; try lia. assert (0 < size) by (apply (H src d size); left; reflexivity). lia.
Qed.

Lemma requests_nonneg ms : 0 <= requests ms.
Proof using. clear. unfold requests. induction ms as [|m ms IH]; simpl; [lia|]. destruct m; lia. Qed.

Record Low (ms : list mmsg) (m : manager) : Prop := {
  lw_mem : below (asked ms) m;
  lw_held : holds_at_most m (requests ms)
}.

Lemma low_gap ms m n : Good m -> Low ms m -> 0 <= asked ms -> asked ms + n <= mem -> gap_exists (mem_used m) mem n.
Proof using.
  intros G [L _] A B. exists (asked ms). split; [exact A|]. split; [exact B|].
  intros x Hx (d & r & R & U). specialize (L d r R). unfold in_region in *. lia.
Qed.

Lemma low_step ms s m s' : Good (mmgr s) -> Low ms (mmgr s) -> sizes_ok (ms ++ [m]) -> asked (ms ++ [m]) <= mem ->
  mon_step c s m = Some s' -> Low (ms ++ [m]) (mmgr s').
Proof using.
  intros G L SZ B H.
  assert (A0 : 0 <= asked ms) by (apply asked_nonneg; intros src d n X; apply (SZ src d n); apply in_or_app; auto).
  assert (A1 : 0 <= asked [m]).
  { apply asked_nonneg. intros src d n X. apply (SZ src d n). apply in_or_app; auto. }
  assert (R1 := requests_nonneg [m]).
  assert (Mono : forall g, (forall d r, resv g d = Some r -> resv (mmgr s) d = Some r) -> Low (ms ++ [m]) g).
  { intros g Hg. destruct L as [L1 (ds & L2 & L3)]. constructor.
    - intros d r R. specialize (L1 d r (Hg d r R)). rewrite asked_app. lia.
    - exists ds. rewrite requests_app. split; [lia|]. intros d N. apply L3. destruct (resv g d) as [r|] eqn:R; [|congruence].
      rewrite (Hg d r R). discriminate. }
  assert (Mg := step_mgr _ _ _ _ H). unfold opof in Mg. destruct (mstopped s) eqn:St; [apply Mono; rewrite Mg; auto|].
  destruct m as [src ds|ds n|src|src d n|src d|ds fl|src|]; try (apply Mono; rewrite Mg; auto; fail).
  - unfold mrun in Mg. cbn [fold_left mstep] in Mg. unfold mgr_reserve, mgr_get in Mg.
    destruct (resv (mmgr s) d) as [r|] eqn:R; [apply Mono; rewrite Mg; auto|].
    destruct (mgr_put (mmgr s) d n) as [g p] eqn:P.
    assert (exists r, p = PutOk r) as (r & ->).
    { unfold mon_step in H. rewrite St in H. cbn [mmgr memit] in H. unfold mgr_reserve, mgr_get in H. rewrite R, P in H.
      destruct p; [eauto|discriminate|discriminate]. }
    cbn [fst] in Mg. subst g. destruct (mgr_put_ok _ _ _ _ _ P) as (fm & fs & s2 & O & _ & Eg).
    assert (N : 0 < n) by (apply (SZ src d n); apply in_or_app; right; left; reflexivity).
    assert (Ea : asked (ms ++ [MReserve src d n]) = asked ms + n) by (rewrite asked_app; unfold asked at 2; simpl; lia).
    assert (Er : requests (ms ++ [MReserve src d n]) = requests ms + 1) by (rewrite requests_app; reflexivity).
    rewrite Ea in B. destruct L as [L1 (ds & L2 & L3)]. constructor.
    + intros d' r'. rewrite Eg. cbn [resv]. unfold dput. destruct (did_eqb d d').
      * intros X. injection X as <-. rewrite Ea.
        destruct (sep_run (-1) (free_memory (mmgr s)) mem (asked ms) n) as (lo & hi & I1 & I2 & I3); [apply G|exact N| |].
        { intros x Hx. destruct (proj1 (gd_ex _ G) x) as [C|(d1 & r1 & R2 & U)]; [lia|exact C|].
          specialize (L1 d1 r1 R2). unfold in_region in U. lia. }
        pose proof (occupy_first _ _ _ _ _ _ _ _ _ (i_sepm _ _ _ (gd_inv _ G)) O I1 ltac:(lia)).
        destruct (occupy_some _ _ _ _ _ _ _ N (i_sepm _ _ _ (gd_inv _ G)) O) as (E1 & _). lia.
      * intros X. specialize (L1 d' r' X). lia.
    + exists (d :: ds). rewrite Er. cbn [length]. split; [lia|]. intros d'. rewrite Eg. cbn [resv]. unfold dput.
      destruct (did_eqb d d') eqn:Q; [apply did_eqb_eq in Q as <-; intros _; now left|intros X; right; auto].
  - apply Mono. intros d r. rewrite Mg. unfold mrun. cbn [fold_left mstep]. unfold mgr_clear.
    destruct (clear_loop_resv (combine (cleanup_list (mmgr s) ds) fl)
      {| resv := resv (mmgr s); free_memory := free_memory (mmgr s); free_service := free_service (mmgr s); pending_cleanup := [] |} d) as [Q|Q];
      rewrite Q; [auto|discriminate].
Qed.

Theorem survives_total ms : sizes_ok ms -> known_when_asked ms -> asked ms <= mem -> INFO_SIZE * requests ms <= svc ->
  mon_run c (minit (manager_init mem svc)) ms <> None.
Proof using mem_pos svc_pos.
  intros SZ KW AM SV. destruct (survives_room (requests ms) ms SZ KW SV) as (s & H & _); [|congruence].
  assert (Gen : forall a b s, ms = a ++ b -> mon_run c (minit (manager_init mem svc)) a = Some s -> Good (mmgr s) /\ Low a (mmgr s)).
  { induction a as [|m a IH] using rev_ind; intros b s E R.
    - cbn [mon_run] in R. injection R as <-. split; [exact good_init|]. constructor.
      + intros d r X. discriminate.
      + exists []. split; [reflexivity|]. intros d X. exfalso. apply X. reflexivity.
    - rewrite run_app in R. destruct (mon_run c (minit (manager_init mem svc)) a) as [s1|] eqn:R1; [|discriminate].
      rewrite <- app_assoc in E. destruct (IH _ _ E eq_refl) as (G & L).
      assert (SZ' : sizes_ok (a ++ [m])).
      { intros src d n X. apply (SZ src d n). rewrite E. apply in_or_app. apply in_app_or in X as [X|[<-|[]]]; [auto|right; left; reflexivity]. }
      split.
      + eapply good_step; eauto. intros src d n ->. apply (SZ' src d n). apply in_or_app. right. left. reflexivity.
      + eapply low_step; eauto. assert (asked ms = asked (a ++ [m]) + asked b).
        { rewrite E. rewrite !asked_app. lia. }
        assert (0 <= asked b); [|lia]. apply asked_nonneg. intros src d n X. apply (SZ src d n). rewrite E.
        apply in_or_app. right. right. exact X. }
  intros a src d n b s E R St _. destruct (Gen a _ s E R) as (G & L).
  assert (X : asked ms = asked a + (n + asked b)).
  { rewrite E, asked_app. change (MReserve src d n :: b) with ([MReserve src d n] ++ b). rewrite asked_app. unfold asked at 2. simpl. lia. }
  assert (Y : requests ms = requests a + (1 + requests b)).
  { rewrite E, requests_app. change (MReserve src d n :: b) with ([MReserve src d n] ++ b). rewrite requests_app. unfold requests at 2. simpl. lia. }
  assert (A0 : 0 <= asked a) by (apply asked_nonneg; intros src' d' n' Q; apply (SZ src' d' n'); rewrite E; apply in_or_app; auto).
  assert (B0 : 0 <= asked b) by (apply asked_nonneg; intros src' d' n' Q; apply (SZ src' d' n'); rewrite E; apply in_or_app; right; right; exact Q).
  pose proof (requests_nonneg b). split; [apply (low_gap a); auto; lia|].
  destruct L as [_ (ds & L2 & L3)]. exists ds. split; [lia|exact L3].
Qed.
End Run.

Theorem survives c mem svc : 0 < mem -> 0 < svc ->
  forall k ms, sizes_ok ms -> known_when_asked ms -> INFO_SIZE * k <= svc ->
  room c (minit (manager_init mem svc)) mem k ms ->
  exists s, mon_run c (minit (manager_init mem svc)) ms = Some s.
Proof. intros A B k ms C D E F. destruct (survives_room c mem svc A B k ms C D E F) as (s & H & _). eauto. Qed.
