(** Invariants of the shared-memory manager over all histories. *)
From Verif Require Import Lib ShmModel ShmSpec ShmProofs.
Local Open Scope Z_scope.

Record minv (mem svc : Z) (m : manager) : Prop := {
  i_sepm : sep (-1) (free_memory m) mem;
  i_seps : sep (-1) (free_service m) svc;
  i_bound : forall d r, resv m d = Some r ->
      0 <= first_index r /\ first_index r < last_index r /\ last_index r <= mem /\
      0 <= service_index r /\ service_index r + INFO_SIZE <= svc;
  i_disjm : forall d d' r r', d <> d' -> resv m d = Some r -> resv m d' = Some r' ->
      disjoint_regions (first_index r) (last_index r) (first_index r') (last_index r');
  i_disjs : forall d d' r r', d <> d' -> resv m d = Some r -> resv m d' = Some r' ->
      disjoint_regions (service_index r) (service_index r + INFO_SIZE)
                       (service_index r') (service_index r' + INFO_SIZE);
  i_freem : forall x, mem_used m x -> ~ covers (free_memory m) x;
  i_frees : forall x, svc_used m x -> ~ covers (free_service m) x
}.

(** No leak: every cell is free or used. *)
Definition mexact (mem svc : Z) (m : manager) : Prop :=
  (forall x, 0 <= x < mem -> covers (free_memory m) x \/ mem_used m x) /\
  (forall x, 0 <= x < svc -> covers (free_service m) x \/ svc_used m x).

Definition set_pending (m : manager) (p : list dataid) : manager :=
  {| resv := resv m; free_memory := free_memory m; free_service := free_service m;
     pending_cleanup := p |}.

Lemma minv_init mem svc : 0 < mem -> 0 < svc -> minv mem svc (manager_init mem svc).
Proof.
  intros Hm Hs. constructor; simpl; try (unfold dempty; discriminate); try lia.
  - intros x (d & r & H & _). unfold dempty in H; discriminate.
  - intros x (d & r & H & _). unfold dempty in H; discriminate.
Qed.

Lemma mexact_init mem svc : mexact mem svc (manager_init mem svc).
Proof.
  split; intros x Hx; left; simpl; [exists 0, mem | exists 0, svc]; split; auto; now left.
Qed.

Lemma mgr_put_ok m d n m' r :
  mgr_put m d n = (m', PutOk r) ->
  exists fm fs s2,
    occupy n (free_memory m) = (fm, Some (first_index r, last_index r)) /\
    occupy INFO_SIZE (free_service m) = (fs, Some (service_index r, s2)) /\
    m' = {| resv := dput (resv m) d r; free_memory := fm; free_service := fs;
            pending_cleanup := pending_cleanup m |}.
Proof.
  unfold mgr_put. destruct (occupy n (free_memory m)) as [fm [[f l]|]];
    destruct (occupy INFO_SIZE (free_service m)) as [fs [[s s2]|]]; intros H; inversion H; subst.
  exists fm, fs, s2. auto.
Qed.

Lemma minv_put_ok mem svc m d n m' r :
  0 < n -> minv mem svc m -> resv m d = None -> mgr_put m d n = (m', PutOk r) ->
  minv mem svc m'.
Proof.
  intros Hn [Hsm Hss Hb Hdm Hds Hfm Hfs] Hd Hp.
  destruct (mgr_put_ok _ _ _ _ _ Hp) as (fm & fs & s2 & Hom & Hos & ->).
  destruct (occupy_some _ _ _ _ _ _ _ Hn Hsm Hom) as (E1 & E2 & E3 & E4 & E5 & E6).
  assert (HI : 0 < INFO_SIZE) by (unfold INFO_SIZE; lia).
  destruct (occupy_some _ _ _ _ _ _ _ HI Hss Hos) as (F1 & F2 & F3 & F4 & F5 & F6).
  assert (Hnew : forall d' r', d <> d' -> dput (resv m) d r d' = Some r' -> resv m d' = Some r')
    by (intros d' r' Hne H; rewrite dput_other in H; auto).
  assert (Hsep1 : forall d' r', resv m d' = Some r' ->
            disjoint_regions (first_index r) (last_index r) (first_index r') (last_index r')).
  { intros d' r' Hr' x [Hx Hx']. apply (Hfm x); [exists d', r'; auto|].
    apply E5; right; exact Hx. }
  assert (Hsep2 : forall d' r', resv m d' = Some r' ->
            disjoint_regions (service_index r) (service_index r + INFO_SIZE)
              (service_index r') (service_index r' + INFO_SIZE)).
  { intros d' r' Hr' x [Hx Hx']. apply (Hfs x); [exists d', r'; auto|].
    apply F5; right. unfold in_region in Hx. lia. }
  constructor; simpl; auto.
  - intros d' r' H. destruct (did_dec d d') as [<-|Hne].
    + rewrite dput_same in H; injection H as <-. lia.
    + eauto.
  - intros d1 d2 r1 r2 Hne H1 H2.
    destruct (did_dec d d1) as [<-|Hn1]; destruct (did_dec d d2) as [<-|Hn2].
    + congruence.
    + rewrite dput_same in H1; injection H1 as <-. eauto.
    + rewrite dput_same in H2; injection H2 as <-. intros x [Hx Hx'].
      apply (Hsep1 d1 r1 (Hnew _ _ Hn1 H1) x). auto.
    + eauto.
  - intros d1 d2 r1 r2 Hne H1 H2.
    destruct (did_dec d d1) as [<-|Hn1]; destruct (did_dec d d2) as [<-|Hn2].
    + congruence.
    + rewrite dput_same in H1; injection H1 as <-. eauto.
    + rewrite dput_same in H2; injection H2 as <-. intros x [Hx Hx'].
      apply (Hsep2 d1 r1 (Hnew _ _ Hn1 H1) x). auto.
    + eauto.
  - intros x (d' & r' & H & Hx) Hc. simpl in H. destruct (did_dec d d') as [<-|Hne].
    + rewrite dput_same in H; injection H as <-. exact (E6 x Hx Hc).
    + apply (Hfm x); [exists d', r'; eauto | apply E5; now left].
  - intros x (d' & r' & H & Hx) Hc. simpl in H. destruct (did_dec d d') as [<-|Hne].
    + rewrite dput_same in H; injection H as <-. unfold in_region in Hx.
      apply (F6 x); [lia | exact Hc].
    + apply (Hfs x); [exists d', r'; eauto | apply F5; now left].
Qed.

Lemma mexact_put_ok mem svc m d n m' r :
  0 < n -> minv mem svc m -> resv m d = None -> mexact mem svc m ->
  mgr_put m d n = (m', PutOk r) -> mexact mem svc m'.
Proof.
  intros Hn [Hsm Hss Hb Hdm Hds Hfm Hfs] Hd [Xm Xs] Hp.
  destruct (mgr_put_ok _ _ _ _ _ Hp) as (fm & fs & s2 & Hom & Hos & ->).
  destruct (occupy_some _ _ _ _ _ _ _ Hn Hsm Hom) as (E1 & E2 & E3 & E4 & E5 & E6).
  assert (HI : 0 < INFO_SIZE) by (unfold INFO_SIZE; lia).
  destruct (occupy_some _ _ _ _ _ _ _ HI Hss Hos) as (F1 & F2 & F3 & F4 & F5 & F6).
  split; intros x Hx; simpl.
  - destruct (Xm x Hx) as [Hc|(d' & r' & H & Hin)].
    + apply E5 in Hc. destruct Hc as [Hc|Hc]; [now left|].
      right. exists d, r. simpl. rewrite dput_same. auto.
    + right. exists d', r'. simpl. rewrite dput_other; [auto|]. intros ->. congruence.
  - destruct (Xs x Hx) as [Hc|(d' & r' & H & Hin)].
    + apply F5 in Hc. destruct Hc as [Hc|Hc]; [now left|].
      right. exists d, r. simpl. rewrite dput_same. split; [auto|]. unfold in_region. lia.
    + right. exists d', r'. simpl. rewrite dput_other; [auto|]. intros ->. congruence.
Qed.

(** A failed put keeps the invariant (but may leak). *)
Lemma minv_put_fail mem svc m d n m' e :
  0 < n -> minv mem svc m -> mgr_put m d n = (m', e) -> (forall r, e <> PutOk r) ->
  minv mem svc m' /\ resv m' = resv m.
Proof.
  intros Hn [Hsm Hss Hb Hdm Hds Hfm Hfs] Hp He. unfold mgr_put in Hp.
  assert (HI : 0 < INFO_SIZE) by (unfold INFO_SIZE; lia).
  destruct (occupy n (free_memory m)) as [fm rm] eqn:Em.
  destruct (occupy INFO_SIZE (free_service m)) as [fs rs] eqn:Es.
  assert (Sm : sep (-1) fm mem /\ forall x, covers fm x -> covers (free_memory m) x).
  { destruct rm as [[f l]|].
    - destruct (occupy_some _ _ _ _ _ _ _ Hn Hsm Em) as (E1 & E2 & E3 & E4 & E5 & E6).
      split; [exact E4|]. intros x Hx; apply E5; auto.
    - apply occupy_none_same in Em; subst; auto. }
  assert (Ss : sep (-1) fs svc /\ forall x, covers fs x -> covers (free_service m) x).
  { destruct rs as [[f l]|].
    - destruct (occupy_some _ _ _ _ _ _ _ HI Hss Es) as (E1 & E2 & E3 & E4 & E5 & E6).
      split; [exact E4|]. intros x Hx; apply E5; auto.
    - apply occupy_none_same in Es; subst; auto. }
  destruct Sm as [Sm1 Sm2], Ss as [Ss1 Ss2].
  assert (Hm' : m' = {| resv := resv m; free_memory := fm; free_service := fs;
                        pending_cleanup := pending_cleanup m |}).
  { destruct rm as [[f l]|]; destruct rs as [[s s2]|]; inversion Hp; subst; try reflexivity.
    exfalso. eapply He; reflexivity. }
  subst m'. split; [|reflexivity].
  constructor; simpl; auto.
  - intros x Hu Hc. apply (Hfm x); auto.
  - intros x Hu Hc. apply (Hfs x); auto.
Qed.

Lemma minv_set_pending mem svc m p : minv mem svc m -> minv mem svc (set_pending m p).
Proof. intros [? ? ? ? ? ? ?]; constructor; simpl; auto. Qed.

Lemma mexact_set_pending mem svc m p : mexact mem svc m -> mexact mem svc (set_pending m p).
Proof. intros [? ?]; split; simpl; auto. Qed.

Lemma minv_free_one mem svc m d :
  minv mem svc m -> minv mem svc (mgr_free_one m d).
Proof.
  intros I; pose proof I as [Hsm Hss Hb Hdm Hds Hfm Hfs]. unfold mgr_free_one.
  destruct (resv m d) as [r|] eqn:Hr; [|exact I].
  destruct (Hb d r Hr) as (B1 & B2 & B3 & B4 & B5).
  assert (HI : 0 < INFO_SIZE) by (unfold INFO_SIZE; lia).
  destruct (release_correct (first_index r) (last_index r) (free_memory m) (-1) mem)
    as [R1 R2]; auto; try lia.
  { intros x Hx. apply Hfm. exists d, r; auto. }
  destruct (release_correct (service_index r) (service_index r + INFO_SIZE) (free_service m) (-1) svc)
    as [S1 S2]; auto; try lia.
  { intros x Hx. apply Hfs. exists d, r; auto. }
  assert (Hold : forall d' r', ddel (resv m) d d' = Some r' -> d <> d' /\ resv m d' = Some r').
  { intros d' r' H. destruct (did_dec d d') as [<-|Hne]; [rewrite ddel_same in H; discriminate|].
    rewrite ddel_other in H; auto. }
  constructor; simpl; auto.
  - intros d' r' H. apply Hold in H. apply Hb with d'. apply H.
  - intros d1 d2 r1 r2 Hne H1 H2. apply Hold in H1; apply Hold in H2.
    apply Hdm with d1 d2; tauto.
  - intros d1 d2 r1 r2 Hne H1 H2. apply Hold in H1; apply Hold in H2.
    apply Hds with d1 d2; tauto.
  - intros x (d' & r' & H & Hx) Hc. simpl in H. apply Hold in H. destruct H as [Hne H].
    apply R2 in Hc. destruct Hc as [Hc|Hc].
    + apply (Hfm x); [exists d', r'; auto | exact Hc].
    + apply (Hdm d d' r r' Hne Hr H x). auto.
  - intros x (d' & r' & H & Hx) Hc. simpl in H. apply Hold in H. destruct H as [Hne H].
    apply S2 in Hc. destruct Hc as [Hc|Hc].
    + apply (Hfs x); [exists d', r'; auto | exact Hc].
    + apply (Hds d d' r r' Hne Hr H x). auto.
Qed.

Lemma mexact_free_one mem svc m d :
  minv mem svc m -> mexact mem svc m -> mexact mem svc (mgr_free_one m d).
Proof.
  intros I [Xm Xs]; pose proof I as [Hsm Hss Hb Hdm Hds Hfm Hfs]. unfold mgr_free_one.
  destruct (resv m d) as [r|] eqn:Hr; [|split; assumption].
  destruct (Hb d r Hr) as (B1 & B2 & B3 & B4 & B5).
  assert (HI : 0 < INFO_SIZE) by (unfold INFO_SIZE; lia).
  destruct (release_correct (first_index r) (last_index r) (free_memory m) (-1) mem)
    as [R1 R2]; auto; try lia.
  { intros x Hx. apply Hfm. exists d, r; auto. }
  destruct (release_correct (service_index r) (service_index r + INFO_SIZE) (free_service m) (-1) svc)
    as [S1 S2]; auto; try lia.
  { intros x Hx. apply Hfs. exists d, r; auto. }
  split; intros x Hx; simpl.
  - rewrite R2. destruct (Xm x Hx) as [Hc|(d' & r' & H & Hin)]; [tauto|].
    destruct (did_dec d d') as [<-|Hne].
    + assert (r' = r) by congruence. subst. left; right; exact Hin.
    + right. exists d', r'. simpl. rewrite ddel_other; auto.
  - rewrite S2. destruct (Xs x Hx) as [Hc|(d' & r' & H & Hin)]; [tauto|].
    destruct (did_dec d d') as [<-|Hne].
    + assert (r' = r) by congruence. subst. left; right; exact Hin.
    + right. exists d', r'. simpl. rewrite ddel_other; auto.
Qed.

Lemma minv_clear_loop mem svc l m :
  minv mem svc m -> minv mem svc (clear_loop m l).
Proof.
  revert m; induction l as [|[d b] l IH]; simpl; intros m I; [exact I|].
  destruct b; apply IH.
  - exact (minv_set_pending _ _ _ (pending_cleanup m ++ [d]) I).
  - now apply minv_free_one.
Qed.

Lemma mexact_clear_loop mem svc l m :
  minv mem svc m -> mexact mem svc m -> mexact mem svc (clear_loop m l).
Proof.
  revert m; induction l as [|[d b] l IH]; simpl; intros m I X; [exact X|].
  destruct b; apply IH.
  - exact (minv_set_pending _ _ _ (pending_cleanup m ++ [d]) I).
  - exact (mexact_set_pending _ _ _ (pending_cleanup m ++ [d]) X).
  - now apply minv_free_one.
  - now apply mexact_free_one.
Qed.

Lemma minv_step mem svc m o : op_ok o -> minv mem svc m -> minv mem svc (mstep m o).
Proof.
  intros Hok I. destruct o as [d n|d|ids rf]; simpl.
  - unfold mgr_reserve, mgr_get. simpl in Hok. destruct (resv m d) as [r|] eqn:Hr; [exact I|].
    destruct (mgr_put m d n) as [m' [r| |]] eqn:Hp; simpl.
    + eapply minv_put_ok; eauto.
    + eapply minv_put_fail; eauto; discriminate.
    + eapply minv_put_fail; eauto; discriminate.
  - exact I.
  - unfold mgr_clear. apply minv_clear_loop.
    exact (minv_set_pending _ _ _ [] I).
Qed.

Lemma mexact_step mem svc m o :
  op_ok o -> minv mem svc m -> mexact mem svc m -> no_memory_error m [o] ->
  mexact mem svc (mstep m o).
Proof.
  intros Hok I X [He _]. destruct o as [d n|d|ids rf]; simpl in *.
  - unfold mgr_reserve, mgr_get in *. destruct (resv m d) as [r|] eqn:Hr; [exact X|].
    destruct (mgr_put m d n) as [m' [r| |]] eqn:Hp; simpl in *.
    + eapply mexact_put_ok; eauto.
    + congruence.
    + congruence.
  - exact X.
  - unfold mgr_clear. apply mexact_clear_loop.
    + exact (minv_set_pending _ _ _ [] I).
    + exact (mexact_set_pending _ _ _ [] X).
Qed.

Lemma minv_run mem svc ops : forall m,
  Forall op_ok ops -> minv mem svc m -> minv mem svc (mrun m ops).
Proof.
  unfold mrun; induction ops as [|o ops IH]; simpl; intros m Hok I; [exact I|].
  inversion Hok; subst. apply IH; auto. now apply minv_step.
Qed.

Lemma mexact_run mem svc ops : forall m,
  Forall op_ok ops -> minv mem svc m -> mexact mem svc m -> no_memory_error m ops ->
  mexact mem svc (mrun m ops).
Proof.
  unfold mrun; induction ops as [|o ops IH]; simpl; intros m Hok I X H; [exact X|].
  destruct H as [He Hr]. inversion Hok; subst. apply IH; auto.
  - now apply minv_step.
  - apply mexact_step; auto. simpl; auto.
Qed.

(** *** Degenerate segments: nothing can ever be reserved. *)
Lemma put_needs_space m d n m' r :
  0 < n -> mgr_put m d n = (m', PutOk r) ->
  (exists lo hi, In (lo, hi) (free_memory m) /\ lo < hi) /\
  (exists lo hi, In (lo, hi) (free_service m) /\ lo < hi).
Proof.
  intros Hn Hp. destruct (mgr_put_ok _ _ _ _ _ Hp) as (fm & fs & s2 & Hom & Hos & _).
  assert (G : forall c rs rs' p, 0 < c -> occupy c rs = (rs', Some p) ->
                exists lo hi, In (lo, hi) rs /\ lo < hi).
  { intros c rs; induction rs as [|[lo hi] rs IH]; intros rs' p Hc H; simpl in H; [discriminate|].
    destruct (c <=? hi - lo) eqn:E.
    - apply Z.leb_le in E. exists lo, hi. split; [now left|lia].
    - destruct (occupy c rs) as [rs1 r1]. injection H as <- ->.
      destruct (IH rs1 p Hc eq_refl) as (a & b & Hin & Hlt). exists a, b; split; [now right|exact Hlt]. }
  split; [exact (G _ _ _ _ Hn Hom) | refine (G _ _ _ _ _ Hos); unfold INFO_SIZE; lia].
Qed.

Definition dead (m : manager) : Prop :=
  (forall d, resv m d = None) /\
  ((forall lo hi, In (lo, hi) (free_memory m) -> hi <= lo) \/
   (forall lo hi, In (lo, hi) (free_service m) -> hi <= lo)).

Lemma occupy_empty c rs :
  0 < c -> (forall lo hi, In (lo, hi) rs -> hi <= lo) -> occupy c rs = (rs, None).
Proof.
  intros Hc; induction rs as [|[lo hi] rs IH]; intros H; simpl; [reflexivity|].
  destruct (c <=? hi - lo) eqn:E.
  - apply Z.leb_le in E. specialize (H lo hi (or_introl eq_refl)). lia.
  - rewrite IH; [reflexivity|]. intros a b Hin; apply H; now right.
Qed.

Lemma dead_clear_loop l : forall m, dead m -> dead (clear_loop m l).
Proof.
  induction l as [|[d b] l IH]; simpl; intros m D; [exact D|].
  destruct b; apply IH.
  - exact D.
  - unfold mgr_free_one. destruct D as [D1 D2]. rewrite D1. split; assumption.
Qed.

Lemma dead_step m o : op_ok o -> dead m -> dead (mstep m o).
Proof.
  intros Hok D. destruct o as [d n|d|ids rf]; simpl.
  - unfold mgr_reserve, mgr_get. pose proof D as [D1 D2]. rewrite D1. simpl in Hok.
    destruct (mgr_put m d n) as [m' e] eqn:Hp.
    assert (Hdead : dead m').
    { unfold mgr_put in Hp.
      assert (HI : 0 < INFO_SIZE) by (unfold INFO_SIZE; lia).
      destruct D2 as [D2|D2].
      - rewrite (occupy_empty n (free_memory m) Hok D2) in Hp.
        destruct (occupy INFO_SIZE (free_service m)) as [fs rs]. inversion Hp; subst.
        split; simpl; auto.
      - rewrite (occupy_empty INFO_SIZE (free_service m) HI D2) in Hp.
        destruct (occupy n (free_memory m)) as [fm [[f l]|]]; inversion Hp; subst;
          split; simpl; auto. }
    destruct e; exact Hdead.
  - exact D.
  - apply dead_clear_loop. exact D.
Qed.

Lemma dead_run ops : forall m, Forall op_ok ops -> dead m -> dead (mrun m ops).
Proof.
  unfold mrun; induction ops as [|o ops IH]; simpl; intros m Hok D; [exact D|].
  inversion Hok; subst. apply IH; auto. now apply dead_step.
Qed.

Lemma dead_init mem svc : mem <= 0 \/ svc <= 0 -> dead (manager_init mem svc).
Proof.
  intros H. split; [reflexivity|]. simpl.
  destruct H; [left|right]; intros lo hi [E|[]]; injection E as <- <-; lia.
Qed.

(** The length of a reservation is the requested size: for the whole history. *)
Lemma put_len m d n m' r :
  0 < n -> mgr_put m d n = (m', PutOk r) -> last_index r - first_index r = n.
Proof.
  intros Hn Hp. destruct (mgr_put_ok _ _ _ _ _ Hp) as (fm & fs & s2 & Hom & Hos & _).
  assert (G : forall c rs rs' f l, occupy c rs = (rs', Some (f, l)) -> l - f = c).
  { intros c rs; induction rs as [|[lo hi] rs IH]; intros rs' f l H; simpl in H; [discriminate|].
    destruct (c <=? hi - lo).
    - destruct (hi =? lo + c); injection H as <- <- <-; lia.
    - destruct (occupy c rs) as [rs1 r1]. injection H as <- ->. eauto. }
  eauto.
Qed.

(** *** Stability of reservations *)
Lemma clear_loop_resv l : forall m d,
  resv (clear_loop m l) d = resv m d \/ resv (clear_loop m l) d = None.
Proof.
  induction l as [|[d' b] l IH]; simpl; intros m d; [now left|].
  destruct b.
  - apply (IH {| resv := resv m; free_memory := free_memory m;
                 free_service := free_service m;
                 pending_cleanup := pending_cleanup m ++ [d'] |} d).
  - destruct (IH (mgr_free_one m d') d) as [H|H]; [|now right].
    rewrite H. unfold mgr_free_one. destruct (resv m d') as [r|]; [|now left].
    simpl. unfold ddel. destruct (did_eqb d' d); [now right | now left].
Qed.

Lemma trace_stable_gen d ops : forall m,
  stable_trace (resv m d) (trace d m ops).
Proof.
  induction ops as [|o ops IH]; simpl; intros m; [exact I|].
  destruct o as [d' n|d'|ids rf]; simpl.
  - destruct (did_eqb d' d) eqn:E.
    + apply did_eqb_eq in E; subst d'. specialize (IH (fst (mgr_reserve m d n))).
      unfold mgr_reserve, mgr_get in *. destruct (resv m d) as [r|] eqn:Hr; simpl in *.
      * rewrite Hr in IH. auto.
      * destruct (mgr_put m d n) as [m' e] eqn:Hp.
        destruct e as [r| |]; simpl in *.
        -- split; [reflexivity|].
           destruct (mgr_put_ok _ _ _ _ _ Hp) as (fm & fs & s2 & _ & _ & ->).
           simpl in IH. rewrite dput_same in IH. exact IH.
        -- split; [reflexivity|].
           replace (resv m' d) with (@None resinfo) in IH; [exact IH|].
           unfold mgr_put in Hp. destruct (occupy n (free_memory m)) as [fm [[f l]|]];
             destruct (occupy INFO_SIZE (free_service m)) as [fs [[s s2]|]];
             inversion Hp; subst; simpl; auto.
        -- split; [reflexivity|].
           replace (resv m' d) with (@None resinfo) in IH; [exact IH|].
           unfold mgr_put in Hp. destruct (occupy n (free_memory m)) as [fm [[f l]|]];
             destruct (occupy INFO_SIZE (free_service m)) as [fs [[s s2]|]];
             inversion Hp; subst; simpl; auto.
    + simpl. specialize (IH (fst (mgr_reserve m d' n))).
      replace (resv (fst (mgr_reserve m d' n)) d) with (resv m d) in IH; [exact IH|].
      unfold mgr_reserve, mgr_get. destruct (resv m d') as [r|]; [reflexivity|].
      apply did_eqb_neq in E.
      destruct (mgr_put m d' n) as [m' e] eqn:Hp.
      unfold mgr_put in Hp. destruct (occupy n (free_memory m)) as [fm [[f l]|]];
             destruct (occupy INFO_SIZE (free_service m)) as [fs [[s s2]|]];
             inversion Hp; subst; simpl; auto.
      rewrite dput_other; auto.
  - destruct (did_eqb d' d) eqn:E; [|apply IH].
    apply did_eqb_eq in E; subst d'. simpl. split; [reflexivity | apply IH].
  - specialize (IH (mgr_clear m ids rf)). unfold mstep.
    destruct (clear_loop_resv (combine (cleanup_list m ids) rf)
                (set_pending m []) d) as [H|H]; fold (mgr_clear m ids rf) in H;
      change (clear_loop (set_pending m []) (combine (cleanup_list m ids) rf))
        with (mgr_clear m ids rf) in H; simpl in H.
    + rewrite H in *. destruct (resv m d) as [r|]; exact IH.
    + rewrite H in *. destruct (resv m d) as [r|]; simpl; [split; [discriminate|exact IH] | exact IH].
Qed.
