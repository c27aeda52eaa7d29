(** A program that waits for each call of a method gets the values of direct execution. *)
From Verif Require Import Lib ValModel ShmModel PushModel WorkerModel WorkerSpec MonModel
  ClusterModel ClusterSpec ClusterSeq ActModel ActSpec ActGives ActProofs ActCount ActThms ActWaitSpec ActWait.

Lemma bind_each_mono env d v : forall ds vs, bind_each dempty ds vs d = Some v -> bind_each env ds vs d = Some v.
Proof.
  induction ds as [|x ds IH]; intros vs E; [discriminate|]. destruct vs as [|y vs]; [discriminate|].
  cbn [bind_each] in *. unfold dput in *. destruct (did_eqb _ _); auto.
Qed.

Lemma output_bind env o r d v : output o r d v -> bind env o r d = Some v.
Proof.
  intros [I E]. destruct o, r; cbn [bind] in *; try discriminate.
  - unfold dput in *. destruct (did_eqb _ _); [auto|discriminate].
  - unfold dput in *. destruct (did_eqb _ _); [auto|discriminate].
  - apply bind_each_mono; auto.
  - destruct (did_in _ _); [auto|discriminate].
Qed.

Section Direct.
Variable body : val -> val -> val -> result.
Variable mbody : list call -> call -> result.
Variable prog : list gprog.
Variable H : rank -> history.
Notation gives := (gives body mbody prog H).
Notation direct := (direct body mbody).
Hypothesis V : gvalid prog.
Hypothesis Sc : scoped prog.
Hypothesis NH : forall w, NoDup (map fst (H w)).
Hypothesis Real : forall w n x, In (n, x) (H w) ->
  exists nd q m env, In (GC w nd q) prog /\ q_id q = n /\ q_fn q = FMethod m /\
    (forall d, In d (qrefs q) -> gives d (env d)) /\
    x = {| c_method := m; c_args := subst env (q_args q); c_kwargs := subst env (q_kwargs q) |}.
Hypothesis Fine : forall w n c, In (n, c) (H w) -> first_failure (arguments (c_args c) (c_kwargs c)) = None.
Hypothesis Waits : forall a w nd1 q1 b nd2 q2 d, prog = a ++ GC w nd1 q1 :: b ++ GC w nd2 q2 :: d ->
  In (q_id q2) (map fst (H w)) -> precedes (q_id q1) (q_id q2) (map fst (H w)) \/
  exists env, (forall x, In x (qrefs q1) -> gives x (env x)) /\
     first_failure (arguments (subst env (q_args q1)) (subst env (q_kwargs q1))) <> None.

Definition ids (p : list gprog) : list nat := map (fun x => q_id (snd x)) (gsubmitted p).

Lemma ids_app a b : ids (a ++ b) = ids a ++ ids b.
Proof. unfold ids, gsubmitted. rewrite flat_map_app, map_app. auto. Qed.

Lemma in_ids w nd q p : In (GC w nd q) p -> In (q_id q) (ids p).
Proof. intros I. apply in_map_iff. exists (w, q). split; auto. apply in_flat_map. exists (GC w nd q). simpl; auto. Qed.

(** Requests with the same number are the same. *)
Lemma same_sub x y : In x (gsubmitted prog) -> In y (gsubmitted prog) -> q_id (snd x) = q_id (snd y) -> x = y.
Proof.
  assert (N := gv_ids _ V). revert N. generalize (gsubmitted prog). clear. induction l as [|z l IH]; simpl; [tauto|].
  intros N [->|X] [->|Y] E; inversion N; subst; auto.
  - exfalso. apply H1. rewrite E. apply in_map_iff. eauto.
  - exfalso. apply H1. rewrite <- E. apply in_map_iff. eauto.
Qed.

Lemma gc_sub w nd q p : In (GC w nd q) p -> In (w, q) (gsubmitted p).
Proof. intros I. apply in_flat_map. exists (GC w nd q). simpl; auto. Qed.

(** A call that was carried out, with the values of its arguments. *)
Lemma done_call w nd q c w' : In (GC w nd q) prog -> In (q_id q, c) (H w') -> w' = w /\
  exists m env, q_fn q = FMethod m /\ (forall d, In d (qrefs q) -> gives d (env d)) /\
    c = {| c_method := m; c_args := subst env (q_args q); c_kwargs := subst env (q_kwargs q) |} /\
    first_failure (arguments (subst env (q_args q)) (subst env (q_kwargs q))) = None.
Proof.
  intros I X. destruct (Real _ _ _ X) as (nd' & q' & m & env & I' & Eq & F & Ge & ->).
  assert (Y := same_sub (w', q') (w, q) (gc_sub _ _ _ _ I') (gc_sub _ _ _ _ I) Eq). injection Y as -> ->.
  split; auto. exists m, env. repeat split; auto. apply (Fine _ _ _ X).
Qed.

Lemma env_same env env' q : (forall d, In d (qrefs q) -> gives d (env d)) -> (forall d, In d (qrefs q) -> gives d (env' d)) ->
  subst env (q_args q) = subst env' (q_args q) /\ subst env (q_kwargs q) = subst env' (q_kwargs q).
Proof.
  intros A B. split; apply subst_ext; intros d D; (eapply gives_fun; eauto; [apply A|apply B]; unfold qrefs; apply in_or_app; auto).
Qed.

Lemma not_failing w nd q env : In (GC w nd q) prog -> In (q_id q) (map fst (H w)) ->
  (forall x, In x (qrefs q) -> gives x (env x)) -> first_failure (arguments (subst env (q_args q)) (subst env (q_kwargs q))) = None.
Proof.
  intros I X Ge. apply in_map_iff in X as ([n c] & En & X). cbn [fst] in En. subst n.
  destruct (done_call _ _ _ _ _ I X) as (_ & m & env' & _ & Ge' & _ & F). destruct (env_same _ _ _ Ge Ge') as [-> ->]. exact F.
Qed.

Record D (p : list gprog) : Prop := {
  d_val : forall d v, In d (gintroduced p) -> gives d v -> dvals (direct p) d = Some v;
  d_ids : forall w n, In n (map fst (dcalls (direct p) w)) -> In n (ids p);
  d_call : forall w n, In n (map fst (H w)) -> ~ In n (ids p) ->
    exists tail, H w = dcalls (direct p) w ++ tail /\ forall k, In k (map fst tail) -> ~ In k (ids p)
}.

(** Arguments in direct execution. *)
Lemma args_direct p x r env q : prog = p ++ x :: r -> D p -> incl (qrefs q) (gneeds x) ->
  (forall d, In d (qrefs q) -> gives d (env d)) ->
  forallb (bound (dvals (direct p))) (qrefs q) = true /\
  value_of (dvals (direct p)) (q_args q) = subst env (q_args q) /\ value_of (dvals (direct p)) (q_kwargs q) = subst env (q_kwargs q).
Proof.
  intros E Dp I Ge.
  assert (X : forall d, In d (qrefs q) -> dvals (direct p) d = Some (env d)).
  { intros d Q. apply (d_val _ Dp); auto. apply (Sc p x r E). auto. }
  split; [|split].
  - apply forallb_forall. intros d Q. unfold bound. rewrite (X d Q). auto.
  - apply subst_ext. intros d Q. rewrite X; auto. apply in_or_app; auto.
  - apply subst_ext. intros d Q. rewrite X; auto. apply in_or_app; auto.
Qed.

(** The next call of the program on a worker is the next one carried out. *)
Lemma next_call p w nd q r : prog = p ++ GC w nd q :: r -> D p -> In (q_id q) (map fst (H w)) ->
  exists c tail, H w = dcalls (direct p) w ++ (q_id q, c) :: tail /\ forall k, In k (map fst tail) -> ~ In k (ids p).
Proof.
  intros E Dp I.
  assert (Iq : In (GC w nd q) prog) by (rewrite E; apply in_or_app; simpl; auto).
  assert (Nq : ~ In (q_id q) (ids p)).
  { assert (N := gv_ids _ V). fold (ids prog) in N. rewrite E, ids_app in N. cbn in N. apply NoDup_remove_2 in N.
    intros X. apply N. apply in_or_app; auto. }
  destruct (d_call _ Dp w _ I Nq) as (tail & Et & Nt).
  assert (It : In (q_id q) (map fst tail)).
  { rewrite Et, map_app in I. apply in_app_or in I as [I|I]; auto. destruct Nq. apply (d_ids _ Dp w); auto. }
  destruct tail as [|[n c] tail]; [destruct It|]. destruct (Nat.eq_dec n (q_id q)) as [->|Nn].
  - exists c, tail. split; auto. intros k K. apply Nt. simpl; auto.
  - exfalso. destruct It as [It|It]; [cbn [fst] in It; congruence|].
    assert (In' : In (n, c) (H w)) by (rewrite Et; apply in_or_app; simpl; auto).
    destruct (Real _ _ _ In') as (nd' & q' & m & env & I' & Eq & _).
    assert (Ir : In (GC w nd' q') r).
    { rewrite E in I'. apply in_app_or in I' as [I'|[I'|I']]; auto.
      - exfalso. apply (Nt n); [simpl; auto|]. rewrite <- Eq. eapply in_ids; eauto.
      - congruence. }
    apply in_split in Ir as (b & d & ->).
    destruct (Waits _ _ _ _ _ _ _ _ E) as [(u1 & u2 & u3 & U)|(env' & Ge & F)].
    + rewrite Eq. apply in_map_iff. exists (n, c). auto.
    + assert (N := NH w). rewrite Et, map_app in U, N. cbn [map fst] in U, N. rewrite Eq in U.
      apply in_split in It as (t1 & t2 & It). rewrite It in U, N.
      clear - U N Nn. revert u1 U. induction (map fst (dcalls (direct p) w)) as [|k K IH]; intros u1 U; cbn [app] in *.
      * destruct u1 as [|z u1]; injection U as Z U; [congruence|]. subst z. inversion N as [|? ? X _]; subst. apply X.
        rewrite U. apply in_or_app. right. simpl. right. apply in_or_app. simpl; auto.
      * destruct u1 as [|z u1]; injection U as Z U.
        -- subst k. inversion N as [|? ? X _]; subst. apply X. apply in_or_app. right. simpl. right. apply in_or_app. simpl; auto.
        -- inversion N; subst. eapply IH; eauto.
    + apply F. eapply not_failing; eauto.
Qed.

Lemma direct_snoc p x : direct (p ++ [x]) = direct_step body mbody (direct p) x.
Proof. unfold ActWaitSpec.direct. rewrite fold_left_app. reflexivity. Qed.

Lemma step_vals_other s x d : ~ In d (gcreated x) -> dvals (direct_step body mbody s x) d = dvals s d.
Proof.
  intros N. destruct x as [o|w nd q]; cbn [direct_step dvals].
  - apply step_other. exact N.
  - destruct (q_fn q); auto. destruct (forallb _ _); auto. cbv zeta. destruct (first_failure _); cbn [dvals]; apply bind_other; exact N.
Qed.

Lemma step_val p x r d v : prog = p ++ x :: r -> D p -> In d (gcreated x) -> gives d v ->
  dvals (direct_step body mbody (direct p) x) d = Some v.
Proof.
  intros E Dp Dx G.
  assert (Ix : In x prog) by (rewrite E; apply in_or_app; simpl; auto).
  assert (SC := fun y => same_creator _ V x y d Ix).
  inversion G as [d0 v0 I'|dest' q' fd' f' env' d0 v0 I' F' Gf' Ge' O'
    |dest' nd' q' m' env' bf' af' d0 v0 I' F' Ge' NF' E0 O'|dest' nd' q' m' env' e' d0 v0 I' F' Ge' Fl' O']; subst d0 v0.
  - assert (Y := SC _ I' Dx (or_introl eq_refl)). subst x. cbn [direct_step dvals seq_step]. apply dput_same.
  - assert (Y := SC _ I' Dx (proj1 O')). subst x. cbn [direct_step dvals seq_step]. rewrite F'.
    rewrite (d_val _ Dp fd' f'); auto; [|apply (Sc _ _ _ E); cbn [gneeds]; rewrite F'; simpl; auto].
    destruct (args_direct p _ r env' q' E Dp) as (B & -> & ->); auto.
    { cbn [gneeds]. rewrite F'. intros z Z. simpl; auto. }
    rewrite B. apply output_bind. exact O'.
  - assert (Y := SC _ I' Dx (proj1 O')). subst x. cbn [direct_step]. rewrite F'.
    destruct (args_direct p _ r env' q' E Dp) as (B & -> & ->); auto; [apply incl_refl|]. rewrite B. cbv zeta. cbn [c_args c_kwargs].
    rewrite NF'. cbn [dvals]. apply output_bind.
    destruct (next_call _ _ _ _ _ E Dp) as (c & tail & Eh & _).
    { rewrite E0, map_app. apply in_or_app. simpl; auto. }
    assert (Nd := NH dest'). rewrite E0 in Eh, Nd. destruct (split_at _ _ _ _ _ _ _ Nd Eh) as [-> _]. exact O'.
  - assert (Y := SC _ I' Dx (proj1 O')). subst x. cbn [direct_step]. rewrite F'.
    destruct (args_direct p _ r env' q' E Dp) as (B & -> & ->); auto; [apply incl_refl|]. rewrite B. cbv zeta. cbn [c_args c_kwargs].
    rewrite Fl'. cbn [dvals]. apply output_bind. exact O'.
Qed.

Lemma all_direct p r : prog = p ++ r -> D p.
Proof.
  revert r. induction p as [|x p IH] using rev_ind; intros r E.
  - split; [intros d v []|intros w n []|]. intros w n I _. exists (H w). split; auto.
  - rewrite <- app_assoc in E. cbn [app] in E. assert (Dp := IH _ E).
    assert (Ix : In x prog) by (rewrite E; apply in_or_app; simpl; auto).
    split.
    + intros d v I G. rewrite direct_snoc. unfold gintroduced in I. rewrite flat_map_app in I. apply in_app_or in I as [I|I].
      * rewrite step_vals_other; [apply (d_val _ Dp); auto|]. intros X.
        assert (N := gv_fresh _ V). unfold gintroduced in N. rewrite E, flat_map_app in N. cbn [flat_map] in N.
        revert N I X. clear. intros N I X. apply in_split in I as (a & b & Z). rewrite Z, <- app_assoc in N. cbn [app] in N.
        apply NoDup_remove_2 in N. apply N. rewrite !in_app_iff. auto.
      * cbn [flat_map] in I. rewrite app_nil_r in I. eapply step_val; eauto.
    + intros w n I. rewrite direct_snoc in I. rewrite ids_app. apply in_or_app. destruct x as [o|w' nd q]; cbn [direct_step] in I.
      * left. apply (d_ids _ Dp w). exact I.
      * destruct (q_fn q); [left; apply (d_ids _ Dp w); exact I|]. destruct (forallb _ _); [|left; apply (d_ids _ Dp w); exact I].
        cbv zeta in I. destruct (first_failure _); cbn [dcalls] in I; [left; apply (d_ids _ Dp w); exact I|].
        destruct (w =? w'); [|left; apply (d_ids _ Dp w); exact I]. rewrite map_app in I. apply in_app_or in I as [I|I];
          [left; apply (d_ids _ Dp w); exact I|]. right. exact I.
    + intros w n I Nn. rewrite direct_snoc. rewrite ids_app in Nn.
      destruct (d_call _ Dp w n I) as (tail & Et & Nt); [intros X; apply Nn; apply in_or_app; auto|].
      assert (Other : forall q w', In (w', q) (gsubmitted [x]) -> In (q_id q) (map fst tail) -> w' = w /\ exists nd, x = GC w nd q).
      { intros q w' S J. apply in_map_iff in J as ([k c] & Ek & J). cbn [fst] in Ek. subst k.
        assert (J' : In (q_id q, c) (H w)) by (rewrite Et; apply in_or_app; auto).
        destruct (Real _ _ _ J') as (nd' & q' & m & env & I' & Eq & Fq & _).
        assert (Sx : In (w', q) (gsubmitted prog)).
        { rewrite E. unfold gsubmitted. rewrite flat_map_app. apply in_or_app. right. cbn [flat_map]. apply in_or_app. left.
          unfold gsubmitted in S. cbn [flat_map] in S. rewrite app_nil_r in S. exact S. }
        assert (Y := same_sub (w, q') (w', q) (gc_sub _ _ _ _ I') Sx Eq). injection Y as -> ->. split; auto.
        destruct x as [[]|w2 nd2 q2]; simpl in S; try tauto; destruct S as [S|[]]; injection S as -> ->; eauto.
        destruct (gv_task _ V w' q Ix) as (fd & Fd). congruence. }
      destruct x as [o|w' nd q].
      { exists tail. split; [exact Et|]. intros k K X. rewrite ids_app in X. apply in_app_or in X as [X|X]; [apply (Nt k K X)|].
        apply in_map_iff in X as ([w2 q2] & <- & X). destruct (Other q2 w2 X K) as (_ & nd & Z). discriminate. }
      assert (Skip : ~ In (q_id q) (map fst tail) -> forall k, In k (map fst tail) -> ~ In k (ids (p ++ [GC w' nd q]))).
      { intros Nq k K X. rewrite ids_app in X. apply in_app_or in X as [X|[X|[]]]; [apply (Nt k K X)|]. cbn [snd] in X. subst k. auto. }
      destruct (Nat.eq_dec w w') as [<-|Nw].
      * assert (I2 := I). apply in_map_iff in I2 as ([k c2] & Ek & I2). cbn [fst] in Ek. subst k.
        destruct (Real _ _ _ I2) as (nd2 & q2 & m2 & env2 & Iq2 & Eq2 & _).
        assert (Ir : In (GC w nd2 q2) r).
        { rewrite E in Iq2. apply in_app_or in Iq2 as [X|[X|X]]; auto; exfalso; apply Nn; apply in_or_app.
          - left. rewrite <- Eq2. eapply in_ids; eauto.
          - right. injection X as -> ->. rewrite <- Eq2. simpl; auto. }
        apply in_split in Ir as (b & d & ->). rewrite <- Eq2 in I.
        destruct (Waits _ _ _ _ _ _ _ _ E I) as [(u1 & u2 & u3 & U)|(env & Ge & F)].
        -- assert (Iq : In (q_id q) (map fst (H w))) by (rewrite U; apply in_or_app; simpl; auto).
           destruct (next_call _ _ _ _ _ E Dp Iq) as (c & tail' & Eh & Nt').
           assert (Ic : In (q_id q, c) (H w)) by (rewrite Eh; apply in_or_app; simpl; auto).
           destruct (done_call _ _ _ _ _ Ix Ic) as (_ & m & env & Fm & Ge & -> & Ff).
           cbn [direct_step]. rewrite Fm.
           destruct (args_direct p _ _ env q E Dp) as (B & -> & ->); auto; [apply incl_refl|]. rewrite B. cbv zeta. cbn [c_args c_kwargs].
           rewrite Ff. cbn [dcalls]. rewrite Nat.eqb_refl. exists tail'. split; [rewrite <- app_assoc; exact Eh|].
           intros k K X. rewrite ids_app in X. apply in_app_or in X as [X|[X|[]]]; [apply (Nt' k K X)|]. cbn [snd] in X. subst k.
           assert (N := NH w). rewrite Eh, map_app in N. cbn [map fst] in N. apply NoDup_remove_2 in N. apply N. apply in_or_app; auto.
        -- assert (Nq : ~ In (q_id q) (map fst tail)).
           { intros X. apply F. apply (not_failing w nd); auto. rewrite Et, map_app. apply in_or_app; auto. }
           destruct (gv_call _ V _ _ _ Ix) as (m & Fm). cbn [direct_step]. rewrite Fm.
           destruct (args_direct p _ _ env q E Dp) as (B & -> & ->); auto; [apply incl_refl|]. rewrite B. cbv zeta. cbn [c_args c_kwargs].
           destruct (first_failure _); [|congruence]. cbn [dcalls]. exists tail. split; auto.
      * assert (Nq : ~ In (q_id q) (map fst tail)).
        { intros X. destruct (Other q w' (or_introl eq_refl) X) as (Z & _). congruence. }
        exists tail. split; auto. rewrite Et at 1. f_equal. cbn [direct_step]. destruct (q_fn q); auto. destruct (forallb _ _); auto.
        cbv zeta. destruct (first_failure _); auto. cbn [dcalls]. apply Nat.eqb_neq in Nw. rewrite Nw. auto.
Qed.

Lemma gives_direct d v : gives d v -> dvals (direct prog) d = Some v.
Proof.
  intros G. destruct (gives_created _ _ _ _ _ _ G) as (x & I & X).
  apply (d_val _ (all_direct prog [] (eq_sym (app_nil_r _)))); auto. apply in_flat_map. eauto.
Qed.
End Direct.

Section Runs.
Variable workers : list rank.
Variable body : val -> val -> val -> result.
Variable mbody : list call -> call -> result.
Variable is_async : callee -> bool.
Hypothesis body_ok : forall f a k, no_refs_returned (body f a k).
Hypothesis mbody_ok : forall h c, no_refs_returned (mbody h c).
Notation grun := (grun workers body mbody is_async).

Lemma waiting_gives mgr ops : let g := grun mgr ops in
  gvalid (g_prog g) -> scoped (g_prog g) -> ~ In RError (c_seen (g_c g)) -> waits_for_calls (g_prog g) (c_seen (g_c g)) ->
  forall d v, gives body mbody (g_prog g) (history_of g) d v -> dvals (direct body mbody (g_prog g)) d = Some v.
Proof.
  cbv zeta. intros V Sc NE Wt. apply gives_direct; auto.
  - apply (history_once workers body mbody is_async body_ok mbody_ok mgr ops V).
  - apply (history_real workers body mbody is_async body_ok mbody_ok mgr ops V).
  - apply (carried_fine workers body mbody is_async body_ok mbody_ok mgr ops V).
  - intros a w nd1 q1 b nd2 q2 d E I. destruct (Wt _ _ _ _ _ _ _ _ E) as (x & ds & X1 & X2 & X3 & X4).
    apply in_split in X3 as (b1 & b2 & ->). rewrite <- app_assoc in E. cbn [app] in E.
    eapply (waited workers body mbody is_async body_ok mbody_ok mgr ops V NE); eauto.
Qed.

Lemma waiting_direct mgr ops : let g := grun mgr ops in
  gvalid (g_prog g) -> scoped (g_prog g) -> ~ In RError (c_seen (g_c g)) -> waits_for_calls (g_prog g) (c_seen (g_c g)) ->
  (forall ds vs, In (RGot ds vs) (c_seen (g_c g)) -> Forall2 (fun d v => dvals (direct body mbody (g_prog g)) d = Some v) ds vs) /\
  (forall ds e, In (RRaised ds e) (c_seen (g_c g)) -> exists d, In d ds /\ dvals (direct body mbody (g_prog g)) d = Some (VExc e)).
Proof.
  cbv zeta. intros V Sc NE Wt. assert (G := waiting_gives mgr ops V Sc NE Wt). split.
  - intros ds vs I. assert (F := got_values workers body mbody is_async body_ok mbody_ok mgr ops V _ _ I).
    clear I. induction F; constructor; auto.
  - intros ds e I. destruct (raised_values workers body mbody is_async body_ok mbody_ok mgr ops V _ _ I) as (d & D & X). eauto.
Qed.
End Runs.
