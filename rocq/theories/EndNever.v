(** Shutdowns that never return. *)
From Verif Require Import Lib ShmModel DataIdModel TopoModel MonModel ValModel WorkerModel WorkerSpec ClusterModel NestModel NestSpec NestCases NestStuckCases
  ShutModel ShutSpec ShutProofs ShutCases EndModel EndSpec EndSim EndProofs EndCases.

Lemma eok : cluster_ok ecluster.
Proof. apply (started [0; 0; 0; 0] (fun k => k) false); [apply esame|apply elong|discriminate|apply estarted]. Qed.

(** ** In get for ever *)

Definition hanging (e : est) : Prop := e_called e = true /\ e_cancelled e 3 = true /\ (exists fr, p_cur (n_proc (e_n e) 2) = Some fr /\ f_get fr <> None) /\
  (forall a b, n_rep (e_n e) a b = []) /\ (forall p fr, p_cur (n_proc (e_n e) p) = Some fr -> p = 0 \/ p = 2) /\
  (forall p, e_cancelled e p = true -> p_cur (n_proc (e_n e) p) = None).

Lemma hanging_step body big e o : hanging e -> hanging (estep ecluster body big e o).
Proof.
  intros (A & B & (fr & C & G) & D & E & F). assert (K : hanging e) by (split; [|split; [|split; [exists fr|split; [|split]]]]; auto).
  destruct (step_cases ecluster body big e o F) as [X|o' X X1 X2 X3|src p X X1 X2|fr' X X1 X2|i src p X X1 X2 X3 X4 X5 X6|a s X X1 X2]; rewrite X; auto.
  - assert (Z : nstep (s_workers ecluster) body (e_n e) o' = e_n e).
    { destruct o' as [p d|src p|src p]; simpl in X1, X2, X3; simpl.
      - destruct (p_cur (n_proc (e_n e) p)) as [fr'|] eqn:P; auto. destruct (n_dead (e_n e) p); auto. destruct (E p fr' P) as [->| ->].
        + exfalso. eapply X2; eauto.
        + rewrite C in P. apply Some_inj in P as <-. destruct (f_get fr); [reflexivity|congruence].
      - destruct X3 as [X3|X3]; [|exfalso; eapply X3; reflexivity]. destruct (n_chan (e_n e) src p); auto. destruct X3 as [<-|[<-|[]]]; [rewrite C; reflexivity|congruence].
      - rewrite D. reflexivity. }
    rewrite Z, set_same. exact K.
  - destruct K as [_ K]. split; [reflexivity|exact K].
  - exfalso. destruct X2 as [<-|[<-|[]]]; congruence.
Qed.

Lemma hcase_hanging : hanging hcase.
Proof.
  split; [vm_compute; reflexivity|]. split; [vm_compute; reflexivity|]. split; [apply hcase_waits|]. split; [|split].
  - intros a b. destruct a as [|[|[|[|a]]]], b as [|[|[|[|b]]]]; vm_compute; reflexivity.
  - intros p fr E. destruct p as [|[|[|[|p]]]]; vm_compute in E; try discriminate E; auto.
  - intros p E. destruct p as [|[|[|[|p]]]]; vm_compute in E; try discriminate E. vm_compute. reflexivity.
Qed.

Lemma run_more c body big main g ops more : erun c body big main g (ops ++ more) = fold_left (estep c body big) more (erun c body big main g ops).
Proof. unfold erun. apply fold_left_app. Qed.

Lemma hangs_for_ever more : let e := erun ecluster nbody all_small hmain xmgr (hops ++ more) in in_get (e_n e) 2 /\ ~ returned e.
Proof.
  intros e. assert (K : hanging e).
  { unfold e. rewrite run_more. assert (H := hcase_hanging). revert H. generalize hcase as x. induction more as [|o more IH]; intros x H; [exact H|]. simpl. apply IH. apply hanging_step. exact H. }
  destruct K as (_ & _ & (fr & C & G) & _ & _ & F). split; [exists fr; auto|]. intros R.
  assert (Q := returned_cancelled ecluster eok nbody all_small hmain xmgr (hops ++ more) R 2 ltac:(simpl; auto)). fold e in Q. rewrite (F _ Q) in C. discriminate.
Qed.

(** ** In finish for ever *)

Definition locked (e : est) : Prop := e_called e = true /\ e_cancelled e 2 = true /\ e_cancelled e 3 = true /\ sworker (e_s e) 2 = WkRun /\ sworker (e_s e) 3 = WkRun /\
  In (WPut (0, 1) (VLeaf 10)) (n_chan (e_n e) 2 3) /\ In (WPut (0, 2) (VLeaf 12)) (n_chan (e_n e) 3 2) /\
  (forall a b, n_rep (e_n e) a b = []) /\ (forall p fr, p_cur (n_proc (e_n e) p) = Some fr -> p = 0).

Lemma locked_step body e o : locked e -> (forall w, In w (s_workers ecluster) -> sworker (e_s (estep ecluster body big_values e o)) w <> WkDead) -> locked (estep ecluster body big_values e o).
Proof.
  intros K Nd. assert (K' := K). destruct K as (A & B2 & B3 & C2 & C3 & D2 & D3 & E & F). destruct o as [o| |i|a].
  - simpl. destruct o as [p d|src p|src p]; simpl.
    + destruct (Nat.eqb p ROOT) eqn:Ep; simpl; [rewrite A; auto|]. destruct (p_cur (n_proc (e_n e) p)) as [fr|] eqn:P; [|rewrite set_same; auto].
      apply F in P. subst p. discriminate.
    + unfold mem_rank. simpl. destruct (Nat.eqb p 2) eqn:E2; [apply Nat.eqb_eq in E2; subst p; simpl; rewrite B2, C2; auto|].
      destruct (Nat.eqb p 3) eqn:E3; [apply Nat.eqb_eq in E3; subst p; simpl; rewrite B3, C3; auto|]. simpl. auto.
    + rewrite E, set_same. auto.
  - simpl. unfold call_shutdown. destruct (p_cur (n_proc (e_n e) ROOT)) as [fr|]; auto. destruct (f_get fr); auto. unfold locked. simpl. tauto.
  - simpl. unfold take_cancel. destruct (nth_error (snet (e_s e)) i) as [[[src p] [| | |]]|]; auto. unfold mem_rank. simpl.
    destruct (Nat.eqb p 2) eqn:E2; [apply Nat.eqb_eq in E2; subst p; rewrite B2; simpl; rewrite andb_false_r; auto|].
    destruct (Nat.eqb p 3) eqn:E3; [apply Nat.eqb_eq in E3; subst p; rewrite B3; simpl; rewrite andb_false_r; auto|]. simpl. auto.
  - assert (Sent : forall w m p, In w (s_workers ecluster) -> In m (n_chan (e_n e) p w) -> big_values m = true -> all_sent ecluster big_values (e_n e) p = false).
    { intros w m p Hw Hm Bm. unfold all_sent. apply not_true_iff_false. rewrite forallb_forall. intros X. specialize (X w (or_intror Hw)). rewrite forallb_forall in X. specialize (X m Hm).
      rewrite Bm in X. discriminate. }
    simpl in Nd |- *. destruct (may ecluster big_values e a) eqn:M; auto. destruct (sstep ecluster (e_s e) a) as [s|] eqn:S; auto. simpl in Nd.
    assert (Still : forall w, In w [2; 3] -> sworker (e_s e) w = WkRun -> all_sent ecluster big_values (e_n e) w = false -> sworker s w = WkRun).
    { intros w Hw R As. destruct (sworker s w) eqn:Sw; auto; exfalso; (destruct (step_workers ecluster (e_s e) a s w S ltac:(congruence)) as [X|[X|(i & src & -> & X)]]; [congruence|exact (Nd w Hw X)|];
      simpl in M; rewrite X, As, andb_false_r in M; discriminate). }
    unfold locked. simpl. split; auto. split; auto. split; auto. split; [|split; [|tauto]]; apply Still; simpl; auto; eapply Sent; eauto; simpl; auto.
Qed.

Lemma ucase_locked : locked ucase.
Proof.
  split; [vm_compute; reflexivity|]. split; [vm_compute; reflexivity|]. split; [vm_compute; reflexivity|]. split; [vm_compute; reflexivity|]. split; [vm_compute; reflexivity|].
  split; [vm_compute; auto|]. split; [vm_compute; auto|]. split.
  - intros a b. destruct a as [|[|[|[|a]]]], b as [|[|[|[|b]]]]; vm_compute; reflexivity.
  - intros p fr E. destruct p as [|[|[|[|p]]]]; vm_compute in E; try discriminate E; auto.
Qed.

Lemma alive ops w : In w (s_workers ecluster) -> sworker (e_s (erun ecluster nbody big_values umain xmgr ops)) w <> WkDead.
Proof. intros Hw. apply (si_dead _ _ (es_si ecluster eok nbody big_values umain xmgr ops) w Hw). Qed.

Lemma locked_more more : locked (erun ecluster nbody big_values umain xmgr (uops ++ more)).
Proof.
  induction more as [|o more IH] using rev_ind; [rewrite app_nil_r; exact ucase_locked|].
  rewrite app_assoc, erun_snoc. apply (locked_step nbody _ o IH). intros w Hw. rewrite <- erun_snoc. apply alive. exact Hw.
Qed.

Lemma locked_not ops : locked (erun ecluster nbody big_values umain xmgr ops) -> let e := erun ecluster nbody big_values umain xmgr ops in finishing e 2 /\ finishing e 3 /\ ~ returned e.
Proof.
  intros K e. assert (G := gone_ran ecluster (e_s e) (es_si ecluster eok nbody big_values umain xmgr ops)). fold e in K. clearbody e.
  destruct K as (_ & B2 & B3 & C2 & C3 & _). split; [split; auto|]. split; [split; auto|]. intros R. apply (G R 2 (or_introl eq_refl)). exact C2.
Qed.

Lemma locked_for_ever more : let e := erun ecluster nbody big_values umain xmgr (uops ++ more) in finishing e 2 /\ finishing e 3 /\ ~ returned e.
Proof. exact (locked_not (uops ++ more) (locked_more more)). Qed.
