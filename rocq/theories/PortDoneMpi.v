(** C98, completeness: MPI. *)
From Verif Require Import Lib ValModel WorkerModel WorkerSpec ClusterModel ClusterSpec ClusterSeq ClusterProofs.
From Verif Require Import PyseqModel PyseqSpec PortSpec PortHist PortShows PortDoneSpec PortDone PortMpi.
From Verif Require ClusterProps ClusterClean ClusterEnd ClusterNet ClusterRoot.

(** ** Messages can be delivered until none is under way. *)
Section Settle.
Variable workers : list rank.
Variable body : val -> val -> val -> result.
Hypothesis body_ok : forall f a k, no_refs_returned (body f a k).
Hypothesis no_root : ~ In 0 workers.
Hypothesis no_dup : NoDup workers.
Notation run := (crun workers body).

Lemma busy_ranks mgr ops s d m l : valid workers (c_prog (run mgr ops)) -> tidy (c_prog (run mgr ops)) -> returns_enough body (c_prog (run mgr ops)) ->
  c_chan (run mgr ops) s d = m :: l -> In s (0 :: workers) /\ In d (0 :: workers).
Proof.
  intros V T R Ch. destruct (ClusterClean.run_sim workers body body_ok no_root no_dup mgr ops V T R) as (g & Si).
  destruct (ClusterClean.keep_msg m) eqn:Km.
  - apply (ClusterEnd.chan_ranks workers body body_ok g s d m (ClusterClean.s_proper _ _ _ _ Si)).
    apply (ClusterNet.in_stream g (ClusterNet.ln_stream _ _ (ClusterEnd.pr_ln _ _ _ (ClusterClean.s_proper _ _ _ _ Si)))). right. rewrite (ClusterClean.s_chan _ _ _ _ Si), Ch. simpl. rewrite Km. simpl. auto.
  - destruct m as [| | | | |ds| |]; try discriminate. destruct (ClusterClean.s_clean _ _ _ _ Si s d ds) as (-> & W & _); [rewrite Ch; simpl; auto|]. simpl. auto.
Qed.

Lemma busy_or (ch : rank -> rank -> list wmsg) ss ds : (exists s d m l, ch s d = m :: l) \/ forall s d, In s ss -> In d ds -> ch s d = [].
Proof.
  induction ss as [|s ss [B|N]]; [right; intros s d []|left; exact B|].
  assert (X : (exists d m l, ch s d = m :: l) \/ forall d, In d ds -> ch s d = []).
  { clear N. induction ds as [|d ds [B|N]]; [right; intros d []|left; exact B|]. destruct (ch s d) as [|m l] eqn:E; [|left; eauto]. right. intros x [<-|I]; auto. }
  destruct X as [(d & m & l & E)|X]; [left; eauto 6|]. right. intros x d [<-|I] J; auto.
Qed.

Lemma settle mgr ops : valid workers (c_prog (run mgr ops)) -> tidy (c_prog (run mgr ops)) -> returns_enough body (c_prog (run mgr ops)) ->
  exists more, idle (run mgr (ops ++ more)) /\ c_prog (run mgr (ops ++ more)) = c_prog (run mgr ops).
Proof.
  intros V T R. destruct (ClusterProps.C51_deliveries_end workers body body_ok no_root no_dup mgr ops V T R) as (_ & A).
  remember (run mgr ops) as c eqn:Ec. revert ops Ec V T R. induction A as [c _ IH]; intros ops Ec V T R.
  destruct (busy_or (c_chan c) (0 :: workers) (0 :: workers)) as [(s & d & m & l & E)|N].
  - set (o := if Nat.eqb d 0 then CReply s else CTake s d).
    assert (Es : cstep workers body c o = run mgr (ops ++ [o])) by (rewrite Ec; symmetry; apply crun_snoc).
    assert (Ep : c_prog (cstep workers body c o) = c_prog c).
    { subst c. destruct (ClusterClean.run_sim workers body body_ok no_root no_dup mgr ops V T R) as (g & Si). apply (ClusterClean.sim_deliver workers body body_ok no_root _ g s d m l Si E). }
    destruct (IH (cstep workers body c o)) with (ops := ops ++ [o]) as (more & M1 & M2).
    + exists s, d, m, l. split; [exact E|reflexivity].
    + exact Es.
    + now rewrite Ep.
    + now rewrite Ep.
    + now rewrite Ep.
    + exists (o :: more). rewrite <- app_assoc in M1, M2. cbn in M1, M2. split; [exact M1|congruence].
  - exists []. rewrite app_nil_r. split; [|now rewrite Ec]. intros s d. rewrite <- Ec. destruct (c_chan c s d) as [|m l] eqn:E; [reflexivity|].
    subst c. destruct (busy_ranks mgr ops s d m l V T R E) as [Is Id]. rewrite (N s d Is Id) in E. discriminate.
Qed.
End Settle.

(** ** The program on the root *)
Record MJ (p : list pcall) (rs : list (list dataid)) (fs : list (dataid * nat)) (l : list rop) (k m : nat) : Prop := {
  j_plays : mplays p rs fs l;
  j_full : full p rs;
  j_made : introduced l = map (pair 0) (seq 0 k);
  j_ids : map (fun x => q_id (snd x)) (submitted l) = seq 0 m;
  j_refs : forall c i d, ref_at rs c i = Some d -> In d (introduced l);
  j_put : forall d v, In (RPut d v) l -> refs v = [];
  j_sub : forall a dest q b, l = a ++ RSubmit dest q :: b ->
    In dest [2] /\ (exists fd, q_fn q = FRef fd /\ In fd (puts a)) /\ forall d, In d (qrefs q) -> In d (introduced a);
  j_pure : forall o, In o l -> match o with RPut _ _ | RSubmit _ _ => True | _ => False end;
  j_fun : forall dest q, In (RSubmit dest q) l -> exists fd f args kw ds, q_fn q = FRef fd /\ In (RPut fd (VLeaf f)) l /\
    q_out q = outputs_of ds /\ In (PortSpec.CFun f args kw (length ds)) p
}.

Lemma intro_snoc l o : introduced (l ++ [o]) = introduced l ++ created o.
Proof. rewrite introduced_app. simpl. now rewrite app_nil_r. Qed.

Lemma made_snoc k n : map (pair 0) (seq 0 k) ++ map (pair 0) (seq k n) = map (pair 0) (seq 0 (k + n)) :> list dataid.
Proof. now rewrite (List.seq_app k n 0), map_app. Qed.

Lemma split_last (l a b : list rop) o x : l ++ [o] = a ++ x :: b -> (exists b', b = b' ++ [o] /\ l = a ++ x :: b') \/ (b = [] /\ a = l /\ x = o).
Proof.
  destruct b as [|y b' _] using rev_ind; intros E.
  - apply app_inj_tail in E as [-> ->]. auto.
  - left. exists b'. assert (X : a ++ x :: b' ++ [y] = (a ++ x :: b') ++ [y]) by now rewrite <- app_assoc. rewrite X in E. apply app_inj_tail in E as [-> ->]. auto.
Qed.

(** A put, of a value or of a function. *)
Lemma put_mj p rs fs l k m d v : MJ p rs fs l k m -> d = (0, k) -> refs v = [] -> forall p' rs' fs', mplays p' rs' fs' (l ++ [RPut d v]) -> full p' rs' ->
  incl p p' -> (forall c i x, ref_at rs' c i = Some x -> In x (introduced l) \/ x = d) -> MJ p' rs' fs' (l ++ [RPut d v]) (S k) m.
Proof.
  intros [J1 J2 J3 J4 J5 J6 J7 J8 J9] -> Rv p' rs' fs' Pl F Ip Rf. split; auto.
  - rewrite intro_snoc, J3. cbn [created]. rewrite <- (Nat.add_1_r k), <- made_snoc. reflexivity.
  - rewrite submitted_app. cbn. now rewrite app_nil_r.
  - intros c i x X. rewrite intro_snoc. apply in_or_app. destruct (Rf c i x X) as [I| ->]; [auto|right; now left].
  - intros d' v' I. apply in_app_or in I as [I|[I|[]]]; [eauto|]. injection I as <- <-. exact Rv.
  - intros a dest q b E. apply split_last in E as [(b' & -> & E)|(_ & _ & E)]; [eauto|discriminate].
  - intros o I. apply in_app_or in I as [I|[<-|[]]]; [exact (J8 _ I)|exact Logic.I].
  - intros dest q I. apply in_app_or in I as [I|[I|[]]]; [|discriminate]. destruct (J9 dest q I) as (fd & f & args & kw & ds & A1 & A2 & A3 & A4).
    exists fd, f, args, kw, ds. split; [exact A1|]. split; [apply in_or_app; now left|]. split; [exact A3|]. now apply Ip.
Qed.

Lemma refs_args vs : refs (VList vs) = flat_map refs vs.
Proof. reflexivity. Qed.
Lemma refs_kws ks : refs (VDict ks) = flat_map (fun kv => refs (snd kv)) ks.
Proof. reflexivity. Qed.

Lemma mpi_submits body p : portable body p -> scoped p -> exists rs fs l k m, MJ p rs fs l k m.
Proof.
  induction p as [|x p IH] using rev_ind; intros Po Sc.
  - exists [], [], [], 0, 0. split; try (intros; contradiction); try constructor.
    + intros c i d E. destruct c; discriminate.
    + destruct a; discriminate.
    + destruct a; discriminate.
  - destruct IH as (rs & fs & l & k & m & J); [eapply portable_front; eauto|eapply scoped_front; eauto|]. assert (Fl := j_full _ _ _ _ _ _ J). destruct x as [v|f args kw n].
    + exists (rs ++ [[(0, k)]]), fs, (l ++ [RPut (0, k) v]), (S k), m. apply (put_mj p rs fs l k m (0, k) v J); auto.
      * destruct Po as (P1 & _). apply (P1 v). apply in_or_app. right. now left.
      * constructor. apply J.
      * now apply full_snoc.
      * apply incl_appl, incl_refl.
      * intros c i y R. apply ref_cases in R as [[_ R]|[_ R]]; [left; eapply j_refs; eauto|]. destruct i as [|[|i]]; cbn in R; try discriminate. injection R as <-. auto.
    + assert (J1 : MJ p rs (fs ++ [((0, k), f)]) (l ++ [RPut (0, k) (VLeaf f)]) (S k) m).
      { apply (put_mj p rs fs l k m (0, k) (VLeaf f) J); auto. - constructor. apply J. - apply incl_refl. - intros c i y R. left. eapply j_refs; eauto. }
      destruct (stand_call _ _ _ _ _ _ Fl Sc) as (vs & ks & Fa & Fk). assert (Pa := portable_args _ _ _ _ _ _ Po).
      set (l1 := l ++ [RPut (0, k) (VLeaf f)]) in *. set (fs1 := fs ++ [((0, k), f)]) in *. set (ds := map (pair 0) (seq (S k) n) : list dataid).
      set (q := {| q_id := m; q_fn := FRef (0, k); q_args := VList vs; q_kwargs := VDict ks; q_out := outputs_of ds |}).
      assert (Ln : length ds = n) by (unfold ds; now rewrite map_length, seq_length).
      assert (Qi : forall d, In d (qrefs q) -> In d (introduced l1)).
      { intros d I. unfold qrefs in I. cbn [q_args q_kwargs q] in I. apply in_app_or in I as [I|I].
        - destruct (stands_refs _ _ _ d Fa) as (c & i & _ & R); [intros v K; apply Pa, in_or_app; auto|exact I|]. eapply (j_refs _ _ _ _ _ _ J1); eauto.
        - destruct (stands_kw_refs _ _ _ d Fk) as (c & i & _ & R); [intros v K; apply Pa, in_or_app; auto| |eapply (j_refs _ _ _ _ _ _ J1); eauto].
          rewrite refs_kws in I. apply in_flat_map in I as (y & I & K). apply in_flat_map. exists (snd y). split; [now apply in_map|exact K]. }
      exists (rs ++ [ds]), fs1, (l1 ++ [RSubmit 2 q]), (S k + n), (S m). destruct J1 as [A1 A2 A3 A4 A5 A6 A7 A8 A9]. split.
      * rewrite <- Ln. apply (M_fun p rs fs1 l1 f (0, k) args kw vs ks ds 2 q); auto. unfold fs1. apply in_or_app. right. now left.
      * apply full_snoc; [exact A2|exact Ln].
      * rewrite intro_snoc, A3. cbn [created q q_out]. rewrite out_ids_of. apply made_snoc.
      * rewrite submitted_app, map_app, A4, (seq_S m 0). reflexivity.
      * intros c i d R. rewrite intro_snoc. apply in_or_app. apply ref_cases in R as [[_ R]|[_ R]]; [left; eauto|]. right. cbn [created q q_out]. rewrite out_ids_of. eapply nth_error_In; eauto.
      * intros d v I. apply in_app_or in I as [I|[I|[]]]; [eauto|discriminate].
      * intros a dest q' b E. apply split_last in E as [(b' & -> & E)|(_ & -> & E)]; [eauto|]. injection E as -> ->. split; [now left|]. split; [|exact Qi].
        exists (0, k). split; [reflexivity|]. apply in_puts. exists (VLeaf f). apply in_or_app. right. now left.
      * intros o I. apply in_app_or in I as [I|[<-|[]]]; [exact (A8 _ I)|exact Logic.I].
      * intros dest q' I. apply in_app_or in I as [I|[I|[]]].
        -- destruct (A9 dest q' I) as (fd & f' & args' & kw' & ds' & B1 & B2 & B3 & B4). exists fd, f', args', kw', ds'. split; [exact B1|]. split; [apply in_or_app; now left|]. split; [exact B3|apply in_or_app; now left].
        -- injection I as <- <-. exists (0, k), f, args, kw, ds. split; [reflexivity|]. split; [apply in_or_app; left; apply in_or_app; right; now left|]. split; [reflexivity|]. rewrite Ln. apply in_or_app. right. now left.
Qed.

Lemma mj_valid p rs fs l k m d : MJ p rs fs l k m -> valid [2] (l ++ [RGet [d]]).
Proof.
  intros [J1 J2 J3 J4 J5 J6 J7 J8 J9]. split.
  - rewrite intro_snoc, app_nil_r, J3. apply FinFun.Injective_map_NoDup; [intros x y E; now injection E|apply seq_NoDup].
  - rewrite submitted_app. cbn. rewrite app_nil_r, J4. apply seq_NoDup.
  - intros x v I. apply in_app_or in I as [I|[I|[]]]; [eauto|discriminate].
  - intros a dest q b E. apply split_last in E as [(b' & -> & E)|(_ & _ & E)]; [eauto|discriminate].
Qed.

Lemma mj_tidy p rs fs l k m d : MJ p rs fs l k m -> In d (introduced l) -> tidy (l ++ [RGet [d]]).
Proof.
  intros J I. split.
  - intros a ds b E. apply split_last in E as [(b' & -> & E)|(_ & -> & E)].
    + assert (X := j_pure _ _ _ _ _ _ J (RGet ds)). rewrite E in X. destruct X. apply in_or_app. right. now left.
    + injection E as ->. split; [constructor; [intros []|constructor]|]. intros x [<-|[]]. exact I.
  - intros a x b o E K. apply split_last in E as [(b' & -> & E)|(_ & -> & E)]; [|discriminate].
    assert (X := j_pure _ _ _ _ _ _ J (RDrop x)). rewrite E in X. destruct X. apply in_or_app. right. now left.
  - intros a ds b x E K. apply split_last in E as [(b' & -> & E)|(_ & -> & E)]; [|discriminate].
    assert (X := j_pure _ _ _ _ _ _ J (RClean ds)). rewrite E in X. destruct X. apply in_or_app. right. now left.
Qed.

Lemma mj_enough body p rs fs l k m d : portable body p -> calls_return p -> MJ p rs fs l k m -> returns_enough (as_mpi body) (l ++ [RGet [d]]).
Proof.
  intros (_ & _ & P3) Cr J dest q fd v a ka I Q P. apply in_app_or in I as [I|[I|[]]]; [|discriminate]. apply in_app_or in P as [P|[P|[]]]; [|discriminate].
  assert (V := v_fresh _ _ (mj_valid _ _ _ _ _ _ d J)). rewrite intro_snoc, app_nil_r in V.
  destruct (j_fun _ _ _ _ _ _ J dest q I) as (fd' & f & args & kw & ds & A1 & A2 & A3 & A4). rewrite Q in A1. injection A1 as <-.
  assert (E : VLeaf f = v). { assert (X := seq_put (as_mpi body) l fd v V P). rewrite (seq_put (as_mpi body) l fd (VLeaf f) V A2) in X. now injection X. } subst v.
  assert (N := Cr _ A4). cbn in N. rewrite A3. split.
  - destruct ds as [|x [|y ds]]; [cbn in N; lia|discriminate|discriminate].
  - destruct ds as [|x [|y ds]]; cbn [outputs_of enough]; auto. destruct (as_mpi body (VLeaf f) a ka) as [r|e] eqn:B; [|exact Logic.I].
    unfold as_mpi in B. destruct a; try discriminate. destruct ka; try discriminate. destruct (body f l0 l1) as [w|e] eqn:W; [|discriminate]. injection B as <-.
    destruct (P3 _ _ _ _ _ _ _ A4 W) as [X|(items & X & Y)]; [cbn in X; lia|]. exists items. split; [destruct X as [->| ->]; reflexivity|lia].
Qed.

(** Puts and submissions are executed at once. *)
Lemma run_prog workers body mgr l : (forall o, In o l -> match o with RPut _ _ | RSubmit _ _ => True | _ => False end) ->
  c_prog (crun workers body mgr (map CRoot l)) = l /\ c_left (crun workers body mgr (map CRoot l)) = 0.
Proof.
  induction l as [|o l IH] using rev_ind; intros H; [split; reflexivity|]. destruct IH as [A B]; [intros x I; apply H, in_or_app; auto|].
  rewrite map_app. cbn [map]. rewrite crun_snoc. set (c := crun workers body mgr (map CRoot l)) in *. cbn [cstep]. rewrite B, root_prog, A. split; [reflexivity|].
  assert (X := H o). lapply X; [clear X; intros X|apply in_or_app; right; now left]. destruct o; try destruct X; exact B.
Qed.

Theorem mpi_done body prog : plain_functions body -> portable body prog -> scoped prog -> calls_return prog ->
  forall c x i, nth_error prog c = Some x -> i < outs x -> exists r, shows_mpi body prog c i r.
Proof.
  intros Pb Po Sc Cr c x i N Li. destruct (mpi_submits body prog Po Sc) as (rs & fs & l & k & m & J). destruct (full_ref _ _ (j_full _ _ _ _ _ _ J) _ _ _ N Li) as (d & D).
  assert (Id := j_refs _ _ _ _ _ _ J _ _ _ D). assert (V := mj_valid _ _ _ _ _ _ d J). assert (T := mj_tidy _ _ _ _ _ _ d J Id). assert (R := mj_enough body _ _ _ _ _ _ d Po Cr J).
  assert (Nr : forall f a k, no_refs_returned (as_mpi body f a k)).
  { intros f a k0. unfold as_mpi. destruct f; simpl; auto. destruct a; simpl; auto. destruct k0; simpl; auto. destruct (body n l0 l1) as [v|e] eqn:B; simpl; auto. apply Pb in B. apply B. }
  set (mgr := ShmModel.manager_init 100 10). set (ops := map CRoot l ++ [CRoot (RGet [d])]).
  assert (Ep : c_prog (crun [2] (as_mpi body) mgr ops) = l ++ [RGet [d]]).
  { unfold ops. rewrite crun_snoc. destruct (run_prog [2] (as_mpi body) mgr l (j_pure _ _ _ _ _ _ J)) as [A B]. cbn [cstep]. rewrite B, root_prog, A. reflexivity. }
  assert (Z : ~ In 0 [2]) by (intros [E|[]]; discriminate). assert (Nd : NoDup [2]) by (constructor; [intros []|constructor]).
  destruct (settle [2] (as_mpi body) Nr Z Nd mgr ops) as (more & M1 & M2); try (rewrite Ep; assumption). rewrite Ep in M2.
  set (y := crun [2] (as_mpi body) mgr (ops ++ more)) in *.
  assert (G : gets_over (c_seen y) = [[d]]).
  { destruct (ClusterProps.C51_gets_answered [2] (as_mpi body) Nr Z Nd mgr (ops ++ more)) as (_ & G); fold y; try (rewrite M2; assumption). fold y in G. rewrite (G M1), M2.
    unfold gets_of. rewrite flat_map_app. cbn. assert (X : flat_map (fun o => match o with RGet ds => [ds] | _ => [] end) l = []); [|rewrite X; reflexivity].
    assert (Pu := j_pure _ _ _ _ _ _ J). clear - Pu. induction l as [|o l IH]; [reflexivity|]. cbn. rewrite IH by (intros z I; apply Pu; now right). assert (Y := Pu o (or_introl eq_refl)). destruct o; try destruct Y; reflexivity. }
  assert (Pl : mplays prog rs fs (c_prog y)). { rewrite M2. apply M_other; [apply J|exact Logic.I]. }
  assert (I : In [d] (gets_over (c_seen y))) by (rewrite G; now left). unfold gets_over in I. apply in_flat_map in I as (s & I & K).
  destruct s as [ds vs|ds e| |]; try (destruct K as [K|[]]; subst ds); try destruct K.
  - assert (F := ClusterProps.C50_values [2] (as_mpi body) Nr mgr (ops ++ more) [d] vs). cbn zeta in F. fold y in F. rewrite M2 in F. specialize (F V I). inversion F as [|? v ? vs' _ F']; subst. inversion F'; subst.
    exists (Ret v), [2], mgr, (ops ++ more), rs, fs, d. cbn zeta. fold y. split; [rewrite M2; exact V|]. split; [exact Pl|]. split; [exact D|]. exists [d], [v], 0. auto.
  - exists (Exn e), [2], mgr, (ops ++ more), rs, fs, d. cbn zeta. fold y. split; [rewrite M2; exact V|]. split; [exact Pl|]. split; [exact D|]. exact I.
Qed.
