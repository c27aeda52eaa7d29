(** C98: MPI. *)
From Verif Require Import Lib ValModel WorkerModel WorkerSpec ClusterModel ClusterSpec ClusterSeq.
From Verif Require Import PyseqModel PyseqSpec PortSpec PortHist PortShows.
From Verif Require ClusterProps PortDask.

Definition val_of (r : res) : val := match r with Ret v => v | Exn e => VExc e end.
Definition plain_res (r : res) : Prop := match r with Ret v => refs v = [] /\ is_exc v = false | Exn _ => True end.
Definition to_result (r : res) : result := match r with Ret v => RVal v | Exn e => RExc e end.

Lemma failure_app l m : first_failure (l ++ m) = match first_failure l with Some e => Some e | None => first_failure m end.
Proof. induction l as [|v l IH]; auto. simpl. destruct v; auto. Qed.

Lemma all_ok_failure {A} (f : A -> option res) l vs : Forall2 (fun a v => exists r, f a = Some r /\ v = val_of r /\ plain_res r) l vs ->
  match all_ok (map f l) with Some (inl xs) => xs = vs /\ first_failure vs = None | Some (inr e) => first_failure vs = Some e | None => False end.
Proof.
  induction 1 as [|a v l vs (r & E & -> & P) F IH]; simpl; auto. rewrite E. destruct r as [x|e]; simpl; auto. destruct P as [_ P]. destruct (all_ok (map f l)) as [[xs|e]|]; [| |destruct IH].
  - destruct IH as [-> Z]. destruct x; auto. discriminate.
  - destruct x; auto. discriminate.
Qed.

Section Mpi.
Variable body : nat -> list val -> kwargs -> res.
Hypothesis plain_body : plain_functions body.
Notation E := (sequential (as_mpi body)).

Lemma out_ids_of ds : out_ids (outputs_of ds) = ds.
Proof. destruct ds as [|a [|b l]]; reflexivity. Qed.

Lemma bind_each_at env ds : forall vs j d v, NoDup ds -> nth_error ds j = Some d -> nth_error vs j = Some v -> bind_each env ds vs d = Some v.
Proof.
  induction ds as [|x ds IH]; intros vs j d v N F G; [destruct j; discriminate|]. destruct vs as [|y vs]; [destruct j; discriminate|]. simpl. inversion N; subst. destruct j as [|j]; simpl in *.
  - apply Some_inj in F as ->. apply Some_inj in G as ->. apply dput_same.
  - rewrite dput_other; [eapply IH; eauto|]. intros ->. apply H1. eapply nth_error_In; eauto.
Qed.

Lemma bind_at env ds r j d : NoDup ds -> nth_error ds j = Some d -> (forall v, r = Ret v -> length ds <= 1 \/ exists l, (v = VList l \/ v = VTuple l) /\ length l = length ds) ->
  exists x, nth_error (each (length ds) r) j = Some x /\ bind env (outputs_of ds) (to_result r) d = Some (val_of x) /\
    (x = r \/ exists v, r = Ret v /\ exists l y, (v = VList l \/ v = VTuple l) /\ In y l /\ x = Ret y).
Proof.
  intros N F R. assert (Lj : j < length ds) by (apply nth_error_Some; congruence). destruct ds as [|a [|b ds]].
  - destruct j; discriminate.
  - destruct j as [|[|j]]; try discriminate. apply Some_inj in F as ->. destruct r as [v|e]; simpl.
    + exists (Ret v). split; auto. split; [apply dput_same|auto].
    + exists (Exn e). split; auto. split; [apply dput_same|auto].
  - destruct r as [v|e].
    + destruct (R v eq_refl) as [X|(l & X & L)]; [simpl in X; lia|]. assert (Y : exists y, nth_error l j = Some y). { assert (Y : nth_error l j <> None) by (apply nth_error_Some; lia). destruct (nth_error l j); [eauto|congruence]. }
      destruct Y as (y & Y). exists (Ret y). assert (I : In y l) by (eapply nth_error_In; eauto).
      split; [destruct X as [->| ->]; cbn [each length Nat.eqb]; rewrite nth_error_map, Y; reflexivity|]. split; [|right; exists v; split; auto; exists l, y; auto].
      cbn [outputs_of to_result bind]. apply bind_each_at with j; auto. destruct X as [->| ->]; exact Y.
    + exists (Exn e). split; [unfold each; rewrite nth_error_repeat; auto|]. split; auto. cbn [outputs_of to_result bind]. apply nth_error_In in F. apply did_in_In in F. rewrite F. reflexivity.
Qed.

Record MI (p : list pcall) (rs : list (list dataid)) (fs : list (dataid * nat)) (l : list rop) : Prop := {
  mi_len : length rs = length p;
  mi_fns : forall d f, In (d, f) fs -> In d (introduced l) /\ E l d = Some (VLeaf f);
  mi_refs : forall c i d, ref_at rs c i = Some d -> In d (introduced l) /\ exists r, result_of (direct body p) c i = Some r /\ E l d = Some (val_of r) /\ plain_res r
}.

Lemma E_snoc l o : E (l ++ [o]) = seq_step (as_mpi body) (E l) o.
Proof. unfold sequential. rewrite fold_left_app. reflexivity. Qed.

Lemma introduced_snoc l o : introduced (l ++ [o]) = introduced l ++ created o.
Proof. rewrite introduced_app. simpl. rewrite app_nil_r. reflexivity. Qed.

Lemma old l o d : NoDup (introduced (l ++ [o])) -> In d (introduced l) -> E (l ++ [o]) d = E l d.
Proof. rewrite introduced_snoc, E_snoc. intros N I. apply nodup_parts in N as (_ & _ & D). apply step_other. intros J. eapply D; eauto. Qed.

Theorem mi_plays p rs fs l : mplays p rs fs l -> portable body p -> NoDup (introduced l) -> MI p rs fs l.
Proof.
  induction 1 as [|p rs fs l f d Pl IH|p rs fs l v d Pl IH|p rs fs l f fd args kw vs ks ds dest q Pl IH Fa Fk Ff Qf Qa Qk Qo|p rs fs l o Pl IH Ot]; intros Po Nd.
  - split; auto; [intros d f []|intros c i d X; destruct c; discriminate].
  - assert (Nd' := Nd). rewrite introduced_snoc in Nd'. apply nodup_parts in Nd' as (N1 & _ & _). destruct (IH Po N1) as [A B C]. split; auto.
    + intros d' f' I. rewrite introduced_snoc. apply in_app_or in I as [I|[I|[]]].
      * destruct (B _ _ I) as [I1 I2]. rewrite old by auto. split; auto. apply in_or_app. auto.
      * apply pair_inj in I as [<- <-]. split; [apply in_or_app; simpl; auto|]. rewrite E_snoc. simpl. apply dput_same.
    + intros c i d' R. destruct (C _ _ _ R) as [I1 I2]. rewrite introduced_snoc, old by auto. split; auto. apply in_or_app. auto.
  - assert (Nd' := Nd). rewrite introduced_snoc in Nd'. apply nodup_parts in Nd' as (N1 & _ & _). destruct (IH (portable_front _ _ _ Po) N1) as [A B C]. assert (Ld := direct_length body p). split.
    + rewrite !app_length. simpl. lia.
    + intros d' f' I. destruct (B _ _ I) as [I1 I2]. rewrite introduced_snoc, old by auto. split; auto. apply in_or_app. auto.
    + intros c i d' R. rewrite introduced_snoc, direct_snoc. apply ref_cases in R as [[L R]|[-> R]].
      * destruct (C _ _ _ R) as [I1 I2]. rewrite old by auto. rewrite result_old by lia. split; auto. apply in_or_app. auto.
      * destruct i as [|[|i]]; simpl in R; try discriminate. apply Some_inj in R as <-. split; [apply in_or_app; simpl; auto|]. exists (Ret v). rewrite A, <- Ld, result_new. split; auto. rewrite E_snoc. split; [apply dput_same|].
        destruct Po as (P1 & _). destruct (P1 v) as (X & Y & _); [apply in_or_app; simpl; auto|]. split; auto.
  - assert (Nd' := Nd). rewrite introduced_snoc in Nd'. apply nodup_parts in Nd' as (N1 & Ns & _). cbn [created] in Ns. rewrite Qo, out_ids_of in Ns.
    destruct (IH (portable_front _ _ _ Po) N1) as [A B C]. assert (Ld := direct_length body p). split.
    + rewrite !app_length. simpl. lia.
    + intros d' f' I. destruct (B _ _ I) as [I1 I2]. rewrite introduced_snoc, old by auto. split; auto. apply in_or_app. auto.
    + intros c i d' R. rewrite introduced_snoc, direct_snoc. apply ref_cases in R as [[L R]|[-> R]].
      * destruct (C _ _ _ R) as [I1 I2]. rewrite old by auto. rewrite result_old by lia. split; auto. apply in_or_app. auto.
      * rewrite A, <- Ld, result_new. split; [apply in_or_app; right; cbn [created]; rewrite Qo, out_ids_of; eapply nth_error_In; eauto|].
        rewrite E_snoc. cbn [seq_step]. rewrite Qf. destruct (B _ _ Ff) as [_ Ef]. rewrite Ef.
        assert (Pv : forall v, In (AVal v) (args ++ map snd kw) -> plain v). { intros v I. destruct Po as (_ & P2 & _). eapply P2; eauto. apply in_or_app. simpl. auto. }
        assert (Sv : forall a v, In a (args ++ map snd kw) -> stands rs a v -> forallb (bound (E l)) (refs v) = true /\
           exists r, arg_result (direct body p) a = Some r /\ value_of (E l) v = val_of r /\ plain_res r).
        { intros a v I S. destruct a as [x|c' i']; simpl in S.
          - subst v. destruct (Pv x I) as (X & Y & _). rewrite X. split; auto. exists (Ret x). split; auto. split; [apply PortDask.subst_plain; auto|split; auto].
          - destruct S as (d2 & R2 & ->). destruct (C _ _ _ R2) as (_ & r & R3 & R4 & R5). simpl. unfold bound. rewrite R4. split; auto. exists r. split; auto. split; auto. unfold value_of. simpl. rewrite R4. reflexivity. }
        assert (F1 : forallb (bound (E l)) (flat_map refs vs) = true /\ Forall2 (fun a v => exists r, arg_result (direct body p) a = Some r /\ v = val_of r /\ plain_res r) args (map (value_of (E l)) vs)).
        { assert (S1 : forall a v, In a args -> stands rs a v -> forallb (bound (E l)) (refs v) = true /\ exists r, arg_result (direct body p) a = Some r /\ value_of (E l) v = val_of r /\ plain_res r) by (intros; apply Sv; auto; apply in_or_app; auto).
          clear - Fa S1. induction Fa as [|a v la lv S F IH]; [split; [reflexivity|constructor]|]. destruct IH as [I1 I2]; [intros; apply S1; simpl; auto|]. destruct (S1 a v) as [X Y]; simpl; auto.
          rewrite forallb_app, X, I1. split; auto. }
        assert (F2 : forallb (bound (E l)) (flat_map (fun kv => refs (snd kv)) ks) = true /\ Forall2 (fun a v => exists r, arg_result (direct body p) a = Some r /\ v = val_of r /\ plain_res r) (map snd kw) (map (fun kv => value_of (E l) (snd kv)) ks) /\ map fst kw = map fst ks).
        { assert (S1 : forall a v, In a (map snd kw) -> stands rs a v -> forallb (bound (E l)) (refs v) = true /\ exists r, arg_result (direct body p) a = Some r /\ value_of (E l) v = val_of r /\ plain_res r) by (intros; apply Sv; auto; apply in_or_app; auto).
          clear - Fk S1. induction Fk as [|a v la lv [K S] F IH]; [split; [reflexivity|split; constructor]|]. destruct IH as (I1 & I2 & I3); [intros; apply S1; simpl; auto|]. destruct (S1 (snd a) (snd v)) as [X Y]; simpl; auto.
          rewrite forallb_app, X, I1. split; auto. split; [constructor; auto|congruence]. }
        destruct F1 as [B1 F1], F2 as (B2 & F2 & Kn). apply all_ok_failure in F1, F2.
        assert (Bd : forallb (bound (E l)) (qrefs q) = true) by (unfold qrefs; rewrite Qa, Qk, forallb_app; simpl; rewrite B1, B2; reflexivity). rewrite Bd, Qo.
        assert (Va : value_of (E l) (q_args q) = VList (map (value_of (E l)) vs)) by (rewrite Qa; reflexivity).
        assert (Vk : value_of (E l) (q_kwargs q) = VDict (map (fun kv => (fst kv, value_of (E l) (snd kv))) ks)) by (rewrite Qk; reflexivity). rewrite Va, Vk.
        assert (Res : exists r, call_value (as_mpi body) (VLeaf f) (VList (map (value_of (E l)) vs)) (VDict (map (fun kv => (fst kv, value_of (E l) (snd kv))) ks)) = to_result r /\
           perform body (direct body p) (CFun f args kw (length ds)) = each (length ds) r /\ ((exists e, r = Exn e) \/ exists a b, r = body f a b)).
        { unfold call_value, arguments. cbn [elements]. rewrite failure_app, map_map. cbn [snd]. unfold perform.
          destruct (all_ok (map (arg_result (direct body p)) args)) as [[xs|e]|]; [| |destruct F1].
          - destruct F1 as [-> F1]. rewrite F1. destruct (all_ok (map (arg_result (direct body p)) (map snd kw))) as [[ys|e]|]; [| |destruct F2].
            + destruct F2 as [-> F2]. rewrite F2. exists (body f (map (value_of (E l)) vs) (combine (map fst kw) (map (fun kv => value_of (E l) (snd kv)) ks))). split; [|eauto].
              rewrite Kn. assert (Z : combine (map fst ks) (map (fun kv => value_of (E l) (snd kv)) ks) = map (fun kv => (fst kv, value_of (E l) (snd kv))) ks) by (clear; induction ks as [|[a b] m IH]; simpl; congruence).
              rewrite Z. unfold as_mpi, to_result. destruct (body f _ _); reflexivity.
            + rewrite F2. exists (Exn e). split; eauto.
          - rewrite F1. exists (Exn e). split; eauto. }
        destruct Res as (r & -> & -> & Br). assert (Rn : forall v, r = Ret v -> length ds <= 1 \/ exists l0, (v = VList l0 \/ v = VTuple l0) /\ length l0 = length ds).
        { intros v ->. destruct Br as [(e & X)|(a & b & X)]; [discriminate|]. destruct Po as (_ & _ & P3). eapply P3; eauto. apply in_or_app. simpl. auto. }
        destruct (bind_at (E l) ds r i d' Ns R Rn) as (x & X1 & X2 & X3). exists x. split; auto. split; auto.
        destruct X3 as [->|(v & -> & l0 & y & X & I & ->)].
        -- destruct r as [v|e]; simpl; auto. destruct Br as [(e & X)|(a & b & X)]; [discriminate|]. symmetry in X. destruct (plain_body _ _ _ _ X) as (Y1 & Y2 & _). auto.
        -- destruct Br as [(e & Z)|(a & b & Z)]; [discriminate|]. symmetry in Z. destruct (plain_body _ _ _ _ Z) as (Y1 & _ & Y3). simpl. split; [|eapply Y3; eauto].
           assert (Y : flat_map refs l0 = []) by (destruct X as [->| ->]; exact Y1). clear - Y I. induction l0 as [|a l0 IH]; [destruct I|]. simpl in Y. apply app_eq_nil in Y as [P Q]. destruct I as [->|I]; auto.
  - assert (Cr : created o = []) by (destruct o; try destruct Ot; reflexivity). assert (Nd' := Nd). rewrite introduced_snoc, Cr, app_nil_r in Nd'. destruct (IH Po Nd') as [A B C]. split; auto.
    + intros d f I. destruct (B _ _ I) as [I1 I2]. rewrite introduced_snoc, old by auto. split; auto. apply in_or_app. auto.
    + intros c i d R. destruct (C _ _ _ R) as [I1 I2]. rewrite introduced_snoc, old by auto. split; auto. apply in_or_app. auto.
Qed.
End Mpi.

Theorem mpi_direct body prog : plain_functions body -> portable body prog -> forall c i r, shows_mpi body prog c i r ->
  exists r0, result_of (direct body prog) c i = Some r0 /\ plain_res r0 /\ (r = r0 \/ exists e, r0 = Exn e /\ r = Ret (VExc e)).
Proof.
  intros Pb Po c i r (workers & mgr & ops & rs & fs & d & V & Pl & Rf & G). set (x := crun workers (as_mpi body) mgr ops) in *.
  assert (Nr : forall f a k, no_refs_returned (as_mpi body f a k)).
  { intros f a k. unfold as_mpi. destruct f; simpl; auto. destruct a; simpl; auto. destruct k; simpl; auto. destruct (body n l l0) as [v|e] eqn:B; simpl; auto. apply Pb in B. apply B. }
  destruct (mi_refs _ _ _ _ _ (mi_plays body Pb prog rs fs _ Pl Po (v_fresh _ _ V)) _ _ _ Rf) as (_ & r0 & R0 & E0 & P0). exists r0. split; auto. split; auto. destruct r as [v|e].
  - destruct G as (ds & vs & k & I & Kd & Kv). assert (F := ClusterProps.C50_values workers (as_mpi body) Nr mgr ops ds vs V I).
    assert (Ev : sequential (as_mpi body) (c_prog x) d = Some v).
    { clear - F Kd Kv. revert k Kd Kv. fold x in F. induction F as [|a b l m H F IH]; intros [|k] Kd Kv; simpl in *; try discriminate; [congruence|eauto]. }
    rewrite E0 in Ev. apply Some_inj in Ev. destruct r0 as [y|y]; simpl in Ev; subst v; [auto|right; eauto].
  - destruct (ClusterProps.C50_exceptions workers (as_mpi body) Nr mgr ops [d] e V G) as (d' & [<-|[]] & Ev). fold x in Ev. rewrite E0 in Ev. apply Some_inj in Ev. destruct r0 as [y|y]; simpl in Ev.
    + subst y. destruct P0 as [_ P0]. discriminate.
    + left. congruence.
Qed.
