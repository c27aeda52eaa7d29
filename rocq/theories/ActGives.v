(** Every reference has one value, and what a worker computes compared to it. *)
From Verif Require Import Lib ValModel ShmRaceProofs PushModel WorkerModel WorkerSpec WorkerLog ClusterModel ClusterSpec
  ClusterSeq ActModel ActSpec.

Lemma flat_unique {A B} (f : A -> list B) l x y d : NoDup (flat_map f l) -> In x l -> In y l ->
  In d (f x) -> In d (f y) -> x = y.
Proof.
  induction l as [|z l IH]; simpl; intros N X Y Fx Fy; [destruct X|].
  destruct X as [->|X], Y as [->|Y]; auto.
  - exfalso. eapply (nodup_sep _ _ d N); eauto. apply in_flat_map; eauto.
  - exfalso. eapply (nodup_sep _ _ d N); eauto. apply in_flat_map; eauto.
  - apply IH; auto. eapply nodup_app_r; eauto.
Qed.

Lemma subst_ext s s' v : (forall d, In d (refs v) -> s d = s' d) -> subst s v = subst s' v.
Proof.
  induction v as [n|e|d|l IH|l IH|l IH] using val_ind'; intros H; simpl; auto.
  - apply H. simpl; auto.
  - f_equal. apply map_ext_in. intros x X. rewrite Forall_forall in IH. apply IH; auto.
    intros d D. apply H. simpl. apply in_flat_map. eauto.
  - f_equal. apply map_ext_in. intros x X. rewrite Forall_forall in IH. apply IH; auto.
    intros d D. apply H. simpl. apply in_flat_map. eauto.
  - f_equal. apply map_ext_in. intros x X. rewrite Forall_forall in IH. f_equal. apply IH; auto.
    intros d D. apply H. simpl. apply in_flat_map. eauto.
Qed.

Lemma fill_found (S : dataid -> val -> Prop) v : forall v', fill S v v' -> refs v' = [] ->
  forall d, In d (refs v) -> exists x, S d x.
Proof.
  induction v as [n|e|d|l IH|l IH|l IH] using val_ind'; intros v' F R y Y; inversion F; subst; simpl in *; try tauto.
  - destruct Y as [<-|[]]. eauto.
  - discriminate.
  - revert l' H0 R F. induction IH as [|x l Hx Hl IH]; intros l' F2 R F; inversion F2; subst; [destruct Y|].
    simpl in R, Y. apply app_eq_nil in R as [R1 R2]. apply in_app_or in Y as [Y|Y]; eauto.
    eapply (IH Y); eauto. constructor; auto.
  - revert l' H0 R F. induction IH as [|x l Hx Hl IH]; intros l' F2 R F; inversion F2; subst; [destruct Y|].
    simpl in R, Y. apply app_eq_nil in R as [R1 R2]. apply in_app_or in Y as [Y|Y]; eauto.
    eapply (IH Y); eauto. constructor; auto.
  - match goal with H : Forall2 _ _ _ |- _ => rename H into F2 end. clear F. revert l' F2 R.
    induction IH as [|x l Hx Hl IH]; intros l' F2 R; inversion F2; subst; [destruct Y|].
    simpl in R, Y. apply app_eq_nil in R as [R1 R2]. destruct H1 as [_ K2].
    apply in_app_or in Y as [Y|Y]; eauto.
Qed.

Lemma fill_subst (S : dataid -> val -> Prop) env v : forall v', fill S v v' -> refs v' = [] ->
  (forall d x, In d (refs v) -> S d x -> x = env d) -> v' = subst env v.
Proof.
  induction v as [n|e|d|l IH|l IH|l IH] using val_ind'; intros v' F R HS; inversion F; subst; simpl in *; auto.
  - discriminate.
  - f_equal. revert l' H0 R HS F. induction IH as [|x l Hx Hl IH]; intros l' F2 R HS F; inversion F2; subst; auto.
    simpl in R, HS. apply app_eq_nil in R as [R1 R2]. simpl. f_equal.
    + apply Hx; auto. intros d z D. apply HS, in_or_app; auto.
    + apply IH; auto; [|constructor; auto]. intros d z D. apply HS, in_or_app; auto.
  - f_equal. revert l' H0 R HS F. induction IH as [|x l Hx Hl IH]; intros l' F2 R HS F; inversion F2; subst; auto.
    simpl in R, HS. apply app_eq_nil in R as [R1 R2]. simpl. f_equal.
    + apply Hx; auto. intros d z D. apply HS, in_or_app; auto.
    + apply IH; auto; [|constructor; auto]. intros d z D. apply HS, in_or_app; auto.
  - f_equal. match goal with H : Forall2 _ _ _ |- _ => rename H into F2 end. clear F. revert l' F2 R HS.
    induction IH as [|x l Hx Hl IH]; intros l' F2 R HS; inversion F2; subst; auto.
    simpl in R, HS. apply app_eq_nil in R as [R1 R2]. destruct H1 as [K1 K2]. simpl. f_equal.
    + destruct y as [k z], x as [k' z']. simpl in *. subst. f_equal. apply Hx; auto.
      intros d u D. apply HS, in_or_app; auto.
    + apply IH; auto. intros d u D. apply HS, in_or_app; auto.
Qed.

Lemma choose (P : dataid -> val -> Prop) l : (forall d, In d l -> exists x, P d x) ->
  exists env, forall d, In d l -> P d (env d).
Proof.
  induction l as [|d l IH]; intros H.
  - exists (fun _ => VLeaf 0). intros d [].
  - destruct IH as [env He]; [intros y Y; apply H; simpl; auto|].
    destruct (H d (or_introl eq_refl)) as [x X].
    exists (fun y => if did_dec d y then x else env y). intros y [<-|Y].
    + destruct (did_dec d d); [auto|congruence].
    + destruct (did_dec d y) as [<-|]; auto.
Qed.

Lemma carried_app a b : carried (a ++ b) = carried a ++ carried b.
Proof. apply flat_map_app. Qed.

Lemma carried_calls l : calls_of l = map snd (carried l).
Proof. induction l as [|e l IH]; auto. simpl. rewrite map_app, <- IH. destruct e; auto; destruct c; auto. Qed.

Lemma results_output o r st done d v : NoDup (out_ids o) -> results o r = Some (st, done) -> In (d, v) st -> output o r d v.
Proof.
  intros N H I. split; [|eapply bind_results; eauto].
  destruct r, o; simpl in *; try discriminate.
  - apply Some_inj in H; apply pair_inj in H as [<- <-]. destruct I.
  - apply Some_inj in H; apply pair_inj in H as [<- <-]. destruct I as [X|[]]. apply pair_inj in X as [-> _]. auto.
  - destruct (iterate v0); [|discriminate]. apply Some_inj in H; apply pair_inj in H as [<- <-]. eapply in_combine_l; eauto.
  - apply Some_inj in H; apply pair_inj in H as [<- <-]. destruct I as [X|[]]. apply pair_inj in X as [-> _]. auto.
  - apply Some_inj in H; apply pair_inj in H as [<- <-]. apply in_map_iff in I as (x & X & Y). apply pair_inj in X as [-> _]. auto.
Qed.

Lemma output_clean o r d v : no_refs_returned r -> output o r d v -> refs v = [].
Proof.
  intros B [D H]. destruct o as [|d1|ds], r as [x|e]; simpl in *; try discriminate.
  - destruct D as [->|[]]. rewrite dput_same in H. apply Some_inj in H as <-. auto.
  - destruct D as [->|[]]. rewrite dput_same in H. apply Some_inj in H as <-. auto.
  - assert (It : forall y, In y (items x) -> refs y = []).
    { intros y Y. destruct x; simpl in *; try tauto.
      - eapply (flat_map_nil refs); eauto.
      - eapply (flat_map_nil refs); eauto.
      - apply in_map_iff in Y as (kv & <- & _). auto. }
    revert H It. generalize (items x). clear. induction ds as [|y ds IH]; intros l H It; simpl in H; [discriminate|].
    destruct l as [|z l]; [discriminate|].
    destruct (did_dec y d) as [->|Nd]; [rewrite dput_same in H | rewrite dput_other in H by auto].
    + apply Some_inj in H as <-. apply It. simpl; auto.
    + apply (IH l); auto. intros u U. apply It. simpl; auto.
  - destruct (did_in d ds); [|discriminate]. apply Some_inj in H as <-. auto.
Qed.

Section Gives.
Variable body : val -> val -> val -> result.
Variable mbody : list call -> call -> result.

Lemma gives_mono prog more (H H' : rank -> history) : (forall w, exists l, H' w = H w ++ l) ->
  forall d v, gives body mbody prog H d v -> gives body mbody (prog ++ more) H' d v.
Proof.
  intros M d v G. induction G as [d v I|dest q fd f env d v I F Gf IHf Ge IHe O
    |dest nd q m env bf af d v I F Ge IHe NF E O|dest nd q m env e d v I F Ge IHe Fl O].
  - apply gives_put. apply in_or_app; auto.
  - apply (gives_task body mbody (prog ++ more) H' dest q fd f env); auto. apply in_or_app; auto.
  - destruct (M dest) as [l L]. apply (gives_call body mbody (prog ++ more) H' dest nd q m env bf (af ++ l)); auto.
    + apply in_or_app; auto.
    + rewrite L, E, <- app_assoc. auto.
  - apply (gives_failure body mbody (prog ++ more) H' dest nd q m env e); auto. apply in_or_app; auto.
Qed.

Lemma split_at {A B} (l1 l1' l2 l2' : list (A * B)) n x x' : NoDup (map fst (l1 ++ (n, x) :: l2)) ->
  l1 ++ (n, x) :: l2 = l1' ++ (n, x') :: l2' -> l1 = l1' /\ x = x'.
Proof.
  clear. revert l1'. induction l1 as [|y l1 IH]; intros l1' N E; destruct l1' as [|y' l1']; simpl in *.
  - injection E as -> _. auto.
  - exfalso. injection E as <- E. inversion N as [|? ? Ni _]; subst. apply Ni. rewrite map_app. simpl.
    apply in_or_app. right. simpl; auto.
  - exfalso. injection E as -> E. inversion N as [|? ? Ni _]; subst. apply Ni. simpl. rewrite map_app.
    apply in_or_app. right. simpl; auto.
  - injection E as <- E. inversion N; subst. destruct (IH l1') as [-> ->]; auto.
Qed.

Variable prog : list gprog.
Variable H : rank -> history.
Hypothesis V : gvalid prog.
Notation gives := (gives body mbody prog H).

Lemma same_creator x y d : In x prog -> In y prog -> In d (gcreated x) -> In d (gcreated y) -> x = y.
Proof. intros X Y. eapply flat_unique; eauto. apply V. Qed.

Lemma gives_created d v : gives d v -> exists p, In p prog /\ In d (gcreated p).
Proof.
  intros G. destruct G as [d v I|dest q fd f env d v I F Gf Ge O
    |dest nd q m env bf af d v I F Ge NF E O|dest nd q m env e d v I F Ge Fl O].
  - eexists; split; eauto. simpl; auto.
  - eexists; split; eauto. apply O.
  - eexists; split; eauto. apply O.
  - eexists; split; eauto. apply O.
Qed.

Lemma gives_fun : (forall w, NoDup (map fst (H w))) -> forall d v, gives d v -> forall v', gives d v' -> v = v'.
Proof.
  intros NH d v G. induction G as [d v I|dest q fd f env d v I F Gf IHf Ge IHe O
    |dest nd q m env bf af d v I F Ge IHe NF E O|dest nd q m env e d v I F Ge IHe Fl O]; intros v' G'.
  - assert (Dx : In d (gcreated (GP (RPut d v)))) by (simpl; auto).
    inversion G' as [d0 v0 I'|dest' q' fd' f' env' d0 v0 I' F' Gf' Ge' O'
      |dest' nd' q' m' env' bf' af' d0 v0 I' F' Ge' NF' E' O'|dest' nd' q' m' env' e' d0 v0 I' F' Ge' Fl' O']; subst.
    + assert (X := same_creator _ _ _ I I' Dx Dx). congruence.
    + assert (X := same_creator _ _ _ I I' Dx (proj1 O')). congruence.
    + assert (X := same_creator _ _ _ I I' Dx (proj1 O')). congruence.
    + assert (X := same_creator _ _ _ I I' Dx (proj1 O')). congruence.
  - assert (Dx := proj1 O).
    inversion G' as [d0 v0 I'|dest' q' fd' f' env' d0 v0 I' F' Gf' Ge' O'
      |dest' nd' q' m' env' bf' af' d0 v0 I' F' Ge' NF' E' O'|dest' nd' q' m' env' e' d0 v0 I' F' Ge' Fl' O']; subst.
    + assert (X := same_creator _ _ _ I I' Dx (or_introl eq_refl)). congruence.
    + assert (X := same_creator _ _ _ I I' Dx (proj1 O')). injection X as <- <-.
      rewrite F in F'. injection F' as <-. rewrite (IHf f' Gf') in O.
      rewrite (subst_ext env env' (q_args q)), (subst_ext env env' (q_kwargs q)) in O.
      * destruct O, O'. congruence.
      * intros x X. apply IHe; [|apply Ge']; apply in_or_app; auto.
      * intros x X. apply IHe; [|apply Ge']; apply in_or_app; auto.
    + assert (X := same_creator _ _ _ I I' Dx (proj1 O')). congruence.
    + assert (X := same_creator _ _ _ I I' Dx (proj1 O')). congruence.
  - assert (Dx := proj1 O).
    inversion G' as [d0 v0 I'|dest' q' fd' f' env' d0 v0 I' F' Gf' Ge' O'
      |dest' nd' q' m' env' bf' af' d0 v0 I' F' Ge' NF' E' O'|dest' nd' q' m' env' e' d0 v0 I' F' Ge' Fl' O']; subst.
    + assert (X := same_creator _ _ _ I I' Dx (or_introl eq_refl)). congruence.
    + assert (X := same_creator _ _ _ I I' Dx (proj1 O')). congruence.
    + assert (X := same_creator _ _ _ I I' Dx (proj1 O')). injection X as <- <- <-.
      assert (Nd := NH dest). rewrite E in E', Nd. destruct (split_at _ _ _ _ _ _ _ Nd E') as [-> Ec].
      rewrite Ec in O. destruct O, O'. congruence.
    + assert (X := same_creator _ _ _ I I' Dx (proj1 O')). injection X as <- <- <-.
      rewrite (subst_ext env env' (q_args q)), (subst_ext env env' (q_kwargs q)) in NF; [congruence| |];
        intros x X; (apply IHe; [|apply Ge']; apply in_or_app; auto).
  - assert (Dx := proj1 O).
    inversion G' as [d0 v0 I'|dest' q' fd' f' env' d0 v0 I' F' Gf' Ge' O'
      |dest' nd' q' m' env' bf' af' d0 v0 I' F' Ge' NF' E' O'|dest' nd' q' m' env' e' d0 v0 I' F' Ge' Fl' O']; subst.
    + assert (X := same_creator _ _ _ I I' Dx (or_introl eq_refl)). congruence.
    + assert (X := same_creator _ _ _ I I' Dx (proj1 O')). congruence.
    + assert (X := same_creator _ _ _ I I' Dx (proj1 O')). injection X as <- <- <-.
      rewrite (subst_ext env env' (q_args q)), (subst_ext env env' (q_kwargs q)) in Fl; [congruence| |];
        intros x X; (apply IHe; [|apply Ge']; apply in_or_app; auto).
    + assert (X := same_creator _ _ _ I I' Dx (proj1 O')). injection X as <- <- <-.
      rewrite (subst_ext env env' (q_args q)), (subst_ext env env' (q_kwargs q)) in Fl.
      * rewrite Fl in Fl'. injection Fl' as <-. destruct O, O'. congruence.
      * intros x X. apply IHe; [|apply Ge']; apply in_or_app; auto.
      * intros x X. apply IHe; [|apply Ge']; apply in_or_app; auto.
Qed.

Hypothesis body_ok : forall f a k, no_refs_returned (body f a k).
Hypothesis mbody_ok : forall h c, no_refs_returned (mbody h c).

Lemma gives_clean d v : gives d v -> refs v = [].
Proof.
  intros G. destruct G as [d v I|dest q fd f env d v I F Gf Ge O
    |dest nd q m env bf af d v I F Ge NF E O|dest nd q m env e d v I F Ge Fl O].
  - eapply gv_put; eauto.
  - eapply output_clean; [|exact O]. unfold call_value. destruct (first_failure _); simpl; auto.
  - eapply output_clean; [|exact O]. auto.
  - eapply output_clean; [|exact O]. exact Logic.I.
Qed.

Lemma outs_nodup p : In p prog -> NoDup (gcreated p).
Proof.
  intros I. apply in_split in I as (a & b & E). assert (N := gv_fresh _ V). rewrite E in N.
  unfold gintroduced in N. rewrite flat_map_app in N. apply nodup_app_r in N. simpl in N. eapply nodup_app_l; eauto.
Qed.

(** What a worker stores is given, if what it receives is. *)
Lemma stores_give w l : (forall w, NoDup (map fst (H w))) -> Good body mbody l ->
  (exists rest, H w = carried l ++ rest) ->
  (forall d v, In (EvIn (WPut d v)) l -> gives d v) ->
  (forall q, In q (received l) -> In (GP (RSubmit w q)) prog \/ exists nd, In (GC w nd q) prog) ->
  forall d v, stored l d v -> gives d v.
Proof.
  intros NH. induction 1 as [|l e Oe G IH|l q c args kwargs st G IH Q C F1 F2 R1 R2 Rs]; intros Hh P Rq d v S.
  - destruct S as [[]|[]].
  - apply stored_app in S as [S|S].
    + apply IH; auto.
      * destruct Hh as [rest Hh]. rewrite carried_app, <- app_assoc in Hh. eauto.
      * intros x y X. apply P, in_or_app; auto.
      * intros q Q. apply Rq. rewrite received_app. apply in_or_app; auto.
    + destruct S as [[S|[]]|[S|[]]]; subst e; [|simpl in Oe; tauto].
      apply P. apply in_or_app. simpl; auto.
  - assert (IHa : forall d v, stored l d v -> gives d v).
    { apply IH.
      - destruct Hh as [rest Hh]. rewrite carried_app, <- app_assoc in Hh. eauto.
      - intros x y X. apply P, in_or_app; auto.
      - intros p Qp. apply Rq. rewrite received_app. apply in_or_app; auto. }
    apply stored_app in S as [S|S]; auto.
    assert (Sub : In (GP (RSubmit w q)) prog \/ exists nd, In (GC w nd q) prog).
    { apply Rq. rewrite received_app. apply in_or_app; auto. }
    apply stored_app in S as [S|S]; [exfalso; eapply stored_run; eauto|].
    change (EvEnd (q_id q) ?r :: ev_stores st) with ([EvEnd (q_id q) r] ++ ev_stores st) in S.
    apply stored_app in S as [S|S]; [destruct S as [[S|[]]|[S|[]]]; discriminate|].
    apply stored_stores in S.
    destruct Rs as [[dn Rs]|[_ ->]]; [|destruct S].
    destruct (choose gives (qrefs q)) as [env Env].
    { intros x X. apply in_app_or in X as [X|X].
      - destruct (fill_found _ _ _ F1 R1 x X) as [y Y]. eauto.
      - destruct (fill_found _ _ _ F2 R2 x X) as [y Y]. eauto. }
    assert (Ea : args = subst env (q_args q)).
    { eapply fill_subst; eauto. intros x y X Y. eapply gives_fun; eauto. apply Env, in_or_app; auto. }
    assert (Ek : kwargs = subst env (q_kwargs q)).
    { eapply fill_subst; eauto. intros x y X Y. eapply gives_fun; eauto. apply Env, in_or_app; auto. }
    assert (No : NoDup (out_ids (q_out q))).
    { destruct Sub as [Sub|[nd Sub]]; apply (outs_nodup _ Sub). }
    assert (O := results_output _ _ _ _ _ _ No Rs S). unfold result_of in O.
    destruct Sub as [Sub|[nd Sub]].
    + destruct (gv_task _ V _ _ Sub) as [fd Fd]. unfold callee_of in C. rewrite Fd in C.
      destruct C as (f & Sf & ->). apply IHa in Sf.
      eapply (gives_task body mbody prog H w q fd f env); eauto.
      rewrite <- Ea, <- Ek. unfold call_value. rewrite failure_same. exact O.
    + destruct (gv_call _ V _ _ _ Sub) as [m Fm]. unfold callee_of in C. rewrite Fm in C. subst c.
      destruct (failed_arg args kwargs) as [e|] eqn:Fa.
      * eapply (gives_failure body mbody prog H w nd q m env e); eauto. rewrite <- Ea, <- Ek, failure_same. auto.
      * destruct Hh as [rest Hh]. rewrite !carried_app in Hh. unfold ev_run in Hh. rewrite Fa in Hh.
        eapply (gives_call body mbody prog H w nd q m env (carried l)); eauto.
        -- rewrite <- Ea, <- Ek, failure_same. auto.
        -- rewrite <- Ea, <- Ek, Hh, <- app_assoc. simpl. reflexivity.
        -- rewrite <- Ea, <- Ek, <- carried_calls. exact O.
Qed.
End Gives.
