(** C99: MPI, for programs that wait for each call of a method or hold the values of its arguments. *)
From Verif Require Import Lib ValModel WorkerModel WorkerSpec ClusterModel ClusterSpec ClusterSeq ActModel ActSpec ActWaitSpec ActWaitDirect ActHeldDirect.
From Verif Require Import PyseqModel PyseqSpec PortSpec PortHist PortShows PortMpi ObjSpec ObjHist ObjDoneSpec ObjMpiSpec.
From Verif Require PortDask ObjBack.

Section Args.
Variable E : dmap val.
Variable R : list (list res).
Variable rs : list (list dataid).
Hypothesis known : forall c i d, ref_at rs c i = Some d -> exists r, result_of R c i = Some r /\ E d = Some (val_of r) /\ plain_res r.

Lemma one_arg a v : (forall x, a = AVal x -> PortSpec.plain x) -> stands rs a v -> forallb (bound E) (refs v) = true /\
  exists r, arg_result R a = Some r /\ value_of E v = val_of r /\ plain_res r.
Proof using known.
  intros P S. destruct a as [x|c' i']; simpl in S.
  - subst v. destruct (P x eq_refl) as (X & Y & _). rewrite X. split; auto. exists (Ret x). split; auto. split; [apply PortDask.subst_plain; auto|split; auto].
  - destruct S as (d2 & R2 & ->). destruct (known _ _ _ R2) as (r & R3 & R4 & R5). simpl. unfold bound. rewrite R4. split; auto.
    exists r. split; auto. split; auto. unfold value_of. simpl. rewrite R4. reflexivity.
Qed.

Lemma args_eval args kw vs ks q : Forall2 (stands rs) args vs -> Forall2 (stands_kw rs) kw ks ->
  (forall v, In (AVal v) (args ++ map snd kw) -> PortSpec.plain v) -> q_args q = VList vs -> q_kwargs q = VDict ks ->
  forallb (bound E) (qrefs q) = true /\
  exists xs ys, value_of E (q_args q) = VList xs /\ value_of E (q_kwargs q) = VDict (combine (map fst kw) ys) /\
    match all_ok (map (arg_result R) args), all_ok (map (arg_result R) (map snd kw)) with
    | Some (inl a), Some (inl b) => a = xs /\ b = ys /\ first_failure (arguments (VList xs) (VDict (combine (map fst kw) ys))) = None
    | Some (inl _), Some (inr e) | Some (inr e), _ => first_failure (arguments (VList xs) (VDict (combine (map fst kw) ys))) = Some e
    | _, _ => False
    end.
Proof using known.
  intros Fa Fk Pv Qa Qk.
  assert (F1 : forallb (bound E) (flat_map refs vs) = true /\ Forall2 (fun a v => exists r, arg_result R a = Some r /\ v = val_of r /\ plain_res r) args (map (value_of E) vs)).
  { assert (S1 : forall v, In (AVal v) args -> PortSpec.plain v) by (intros; apply Pv; apply in_or_app; auto).
    clear - Fa S1 known. induction Fa as [|a v la lv S F IH]; [split; [reflexivity|constructor]|]. destruct IH as [I1 I2]; [intros; apply S1; simpl; auto|].
    destruct (one_arg a v) as [X Y]; [intros x ->; apply S1; simpl; auto|exact S|]. simpl. rewrite forallb_app, X, I1. split; auto. }
  assert (F2 : forallb (bound E) (flat_map (fun kv => refs (snd kv)) ks) = true /\
    Forall2 (fun a v => exists r, arg_result R a = Some r /\ v = val_of r /\ plain_res r) (map snd kw) (map (fun kv => value_of E (snd kv)) ks) /\ map fst kw = map fst ks).
  { assert (S1 : forall v, In (AVal v) (map snd kw) -> PortSpec.plain v) by (intros; apply Pv; apply in_or_app; auto).
    clear - Fk S1 known. induction Fk as [|a v la lv [K S] F IH]; [split; [reflexivity|split; constructor]|]. destruct IH as (I1 & I2 & I3); [intros; apply S1; simpl; auto|].
    destruct (one_arg (snd a) (snd v)) as [X Y]; [intros x Ex; apply S1; simpl; auto|exact S|]. simpl. rewrite forallb_app, X, I1. split; auto. split; [constructor; auto|congruence]. }
  destruct F1 as [B1 F1], F2 as (B2 & F2 & Kn). apply all_ok_failure in F1, F2.
  split; [unfold qrefs; rewrite Qa, Qk, forallb_app; simpl; rewrite B1, B2; reflexivity|].
  exists (map (value_of E) vs), (map (fun kv => value_of E (snd kv)) ks).
  assert (Z : combine (map fst kw) (map (fun kv => value_of E (snd kv)) ks) = map (fun kv => (fst kv, value_of E (snd kv))) ks)
    by (rewrite Kn; clear; induction ks as [|[a b] m IH]; simpl; congruence).
  split; [rewrite Qa; reflexivity|]. split; [rewrite Qk, Z; reflexivity|]. rewrite Z.
  assert (Ar : arguments (VList (map (value_of E) vs)) (VDict (map (fun kv => (fst kv, value_of E (snd kv))) ks)) = map (value_of E) vs ++ map (fun kv => value_of E (snd kv)) ks)
    by (unfold arguments; cbn [elements]; rewrite map_map; reflexivity). rewrite Ar, failure_app.
  destruct (all_ok (map (arg_result R) args)) as [[xs|e]|]; [| |destruct F1].
  - destruct F1 as [-> F1]. rewrite F1. destruct (all_ok (map (arg_result R) (map snd kw))) as [[ys|e]|]; [| |destruct F2].
    + destruct F2 as [-> F2]. auto.
    + exact F2.
  - rewrite F1. reflexivity.
Qed.
End Args.

Section Mpi.
Variable body : nat -> list val -> kwargs -> res.
Variable cbody : nat -> list val -> kwargs -> res.
Variable mbody : nat -> val -> list val -> kwargs -> res * val.
Variable s0 : val.
Hypothesis plain_ok : plain_bodies body mbody.
Notation D := (ActWaitSpec.direct (as_mpi body) (as_methods mbody s0)).
Notation O := (odirect body cbody mbody).

Record GI (p : list ocall) (rs : list (list dataid)) (fs : list (dataid * nat)) (hs : list rank) (l : list gprog) : Prop := {
  gi_len : length rs = length (fst (O p));
  gi_fns : forall d f, In (d, f) fs -> In d (gintroduced l) /\ dvals (D l) d = Some (VLeaf f);
  gi_refs : forall c i d, ref_at rs c i = Some d -> In d (gintroduced l) /\ exists r, result_of (fst (O p)) c i = Some r /\ dvals (D l) d = Some (val_of r) /\ plain_res r;
  gi_hs : NoDup hs;
  gi_objs : length (snd (O p)) = length hs;
  gi_state : forall a w, nth_error hs a = Some w -> nth_error (snd (O p)) a = Some (after_calls mbody s0 (map snd (dcalls (D l) w)));
  gi_none : forall w, ~ In w hs -> dcalls (D l) w = []
}.

Lemma gintro_snoc l o : gintroduced (l ++ [o]) = gintroduced l ++ gcreated o.
Proof. unfold gintroduced. rewrite flat_map_app. simpl. rewrite app_nil_r. reflexivity. Qed.

Lemma D_snoc l o : D (l ++ [o]) = direct_step (as_mpi body) (as_methods mbody s0) (D l) o.
Proof. unfold ActWaitSpec.direct. rewrite fold_left_app. reflexivity. Qed.

Lemma gold l o d : NoDup (gintroduced (l ++ [o])) -> In d (gintroduced l) -> dvals (D (l ++ [o])) d = dvals (D l) d.
Proof. rewrite gintro_snoc, D_snoc. intros N I. apply nodup_parts in N as (_ & _ & X). apply step_vals_other. intros J. eapply X; eauto. Qed.

Lemma calls_gp l o : dcalls (D (l ++ [GP o])) = dcalls (D l).
Proof. rewrite D_snoc. reflexivity. Qed.

(** What was there stays. *)
Lemma kept p rs fs hs l o : GI p rs fs hs l -> NoDup (gintroduced (l ++ [o])) ->
  (forall d f, In (d, f) fs -> In d (gintroduced (l ++ [o])) /\ dvals (D (l ++ [o])) d = Some (VLeaf f)) /\
  (forall c i d, ref_at rs c i = Some d -> In d (gintroduced (l ++ [o])) /\ exists r, result_of (fst (O p)) c i = Some r /\ dvals (D (l ++ [o])) d = Some (val_of r) /\ plain_res r).
Proof.
  intros [A B C _ _ _ _] Nd. split.
  - intros d f I. destruct (B _ _ I) as [I1 I2]. rewrite gold by auto. split; auto. rewrite gintro_snoc. apply in_or_app. auto.
  - intros c i d R. destruct (C _ _ _ R) as [I1 I2]. rewrite gold by auto. split; auto. rewrite gintro_snoc. apply in_or_app. auto.
Qed.

Lemma plain_part ds r x : plain_res r -> (forall v, r = Ret v -> PortSpec.plain v) ->
  (x = r \/ exists v, r = Ret v /\ exists l y, (v = VList l \/ v = VTuple l) /\ In y l /\ x = Ret y) -> plain_res x /\ length (ds : list dataid) = length ds.
Proof.
  intros P Q [->|(v & -> & l0 & y & X & I & ->)]; split; auto. destruct (Q v eq_refl) as (Y1 & _ & Y3). simpl. split; [|eapply Y3; eauto].
  assert (Y : flat_map refs l0 = []) by (destruct X as [->| ->]; exact Y1). clear - Y I.
  induction l0 as [|a l0 IH]; [destruct I|]. simpl in Y. apply app_eq_nil in Y as [P Q]. destruct I as [->|I]; auto.
Qed.

Theorem gi_plays p rs fs hs l : gplays p rs fs hs l -> oportable body cbody mbody p ->
  (forall c args kw, In (TMake c args kw) p -> cbody c args kw = Ret s0) -> NoDup (gintroduced l) -> GI p rs fs hs l.
Proof using plain_ok.
  induction 1 as [|p rs fs hs l f d Pl IH|p rs fs hs l v d Pl IH|p rs fs hs l v d Pl IH|p rs fs hs l f fd args kw vs ks ds dest q Pl IH Fa Fk Ff Qf Qa Qk Qo
    |p rs fs hs l k args kw w Pl IH Nw|p rs fs hs l a w nd m args kw vs ks ds q Pl IH Hw Fa Fk Qf Qa Qk Qo|p rs fs hs l o Pl IH Ot]; intros Po Ms Nd.
  - split; auto; [intros d f []|intros c i d X; destruct c; discriminate|constructor|intros a w X; destruct a; discriminate].
  - assert (Nd' := Nd). rewrite gintro_snoc in Nd'. apply nodup_parts in Nd' as (N1 & _ & _). assert (G := IH Po Ms N1). destruct (kept _ _ _ _ _ _ G Nd) as [B C]. destruct G as [A _ _ H1 H2 H3 H4].
    split; auto; try (rewrite calls_gp; auto).
    intros d' f' I. apply in_app_or in I as [I|[I|[]]]; auto. apply pair_inj in I as [<- <-]. split; [rewrite gintro_snoc; apply in_or_app; simpl; auto|]. rewrite D_snoc. apply dput_same.
  - assert (Nd' := Nd). rewrite gintro_snoc in Nd'. apply nodup_parts in Nd' as (N1 & _ & _). assert (G := IH Po Ms N1). destruct (kept _ _ _ _ _ _ G Nd) as [B C]. destruct G as [A _ _ H1 H2 H3 H4].
    split; auto; try (rewrite calls_gp; auto).
  - assert (Nd' := Nd). rewrite gintro_snoc in Nd'. apply nodup_parts in Nd' as (N1 & _ & _). assert (Po' := oportable_front _ _ _ _ _ Po).
    assert (G := IH Po' (fun c args kw I => Ms c args kw (in_or_app _ _ _ (or_introl I))) N1). destruct (kept _ _ _ _ _ _ G Nd) as [B C]. destruct G as [A _ _ H1 H2 H3 H4].
    assert (OS := odirect_snoc body cbody mbody p (TPut v)). destruct (O p) as [env objs] eqn:Op. cbn [operform fst snd] in *.
    split; rewrite ?OS; cbn [fst snd]; auto; try (rewrite calls_gp; auto).
    + rewrite !app_length. simpl. lia.
    + intros c i d' R. apply ref_cases in R as [[L R]|[-> R]].
      * destruct (C _ _ _ R) as [I1 I2]. rewrite result_old by lia. auto.
      * destruct i as [|[|i]]; simpl in R; try discriminate. apply Some_inj in R as <-. split; [rewrite gintro_snoc; apply in_or_app; simpl; auto|].
        exists (Ret v). rewrite A, result_new. split; auto. rewrite D_snoc. split; [apply dput_same|].
        destruct Po as (P1 & _). destruct (P1 v) as (X & Y & _); [apply in_or_app; simpl; auto|]. split; auto.
  - assert (Nd' := Nd). rewrite gintro_snoc in Nd'. apply nodup_parts in Nd' as (N1 & Ns & _). cbn [gcreated created] in Ns. rewrite Qo, out_ids_of in Ns. assert (Po' := oportable_front _ _ _ _ _ Po).
    assert (G := IH Po' (fun c args kw I => Ms c args kw (in_or_app _ _ _ (or_introl I))) N1). destruct (kept _ _ _ _ _ _ G Nd) as [B C]. destruct G as [A B0 C0 H1 H2 H3 H4].
    assert (OS := odirect_snoc body cbody mbody p (TFun f args kw (length ds))). destruct (O p) as [env objs] eqn:Op. cbn [operform fst snd] in *.
    split; rewrite ?OS; cbn [fst snd]; auto; try (rewrite calls_gp; auto).
    + rewrite !app_length. simpl. lia.
    + intros c i d' R. apply ref_cases in R as [[L R]|[-> R]].
      * destruct (C _ _ _ R) as [I1 I2]. rewrite result_old by lia. auto.
      * split; [rewrite gintro_snoc; apply in_or_app; right; cbn [gcreated created]; rewrite Qo, out_ids_of; eapply nth_error_In; eauto|].
        rewrite A, result_new. rewrite D_snoc. cbn [direct_step dvals seq_step]. rewrite Qf. destruct (B0 _ _ Ff) as [_ Ef]. rewrite Ef.
        destruct (args_eval (dvals (D l)) env rs (fun c i d X => proj2 (C0 c i d X)) args kw vs ks q Fa Fk) as (Bd & xs & ys & Va & Vk & M); auto.
        { intros v I. destruct Po as (_ & P2 & _). eapply P2; eauto. apply in_or_app. simpl. auto. }
        rewrite Bd, Qo, Va, Vk.
        assert (Res : exists r, call_value (as_mpi body) (VLeaf f) (VList xs) (VDict (combine (map fst kw) ys)) = to_result r /\
           perform body env (CFun f args kw (length ds)) = each (length ds) r /\ ((exists e, r = Exn e) \/ exists a b, r = body f a b)).
        { unfold call_value, perform. destruct (all_ok (map (arg_result env) args)) as [[xs'|e]|]; [| |destruct M].
          - destruct (all_ok (map (arg_result env) (map snd kw))) as [[ys'|e]|]; [| |destruct M].
            + destruct M as (-> & -> & ->). exists (body f xs (combine (map fst kw) ys)). split; [|eauto]. unfold as_mpi, to_result. destruct (body f _ _); reflexivity.
            + rewrite M. exists (Exn e). split; eauto.
          - rewrite M. exists (Exn e). split; eauto. }
        destruct Res as (r & -> & -> & Br). assert (Rn : enough (length ds) r).
        { intros v ->. destruct Br as [(e & X)|(a & b & X)]; [discriminate|]. destruct Po as (_ & _ & _ & P3 & _). eapply P3; eauto. apply in_or_app. simpl. auto. }
        assert (Pr : forall v, r = Ret v -> PortSpec.plain v).
        { intros v ->. destruct Br as [(e & X)|(a & b & X)]; [discriminate|]. symmetry in X. eapply (proj1 plain_ok); eauto. }
        destruct (bind_at (dvals (D l)) ds r i d' Ns R Rn) as (x & X1 & X2 & X3). exists x. split; auto. split; auto. apply (plain_part ds r x); auto.
        destruct r as [v|e]; simpl; auto. destruct (Pr v eq_refl) as (Y1 & Y2 & _). auto.
  - assert (Po' := oportable_front _ _ _ _ _ Po).
    destruct (IH Po' (fun c args kw I => Ms c args kw (in_or_app _ _ _ (or_introl I))) Nd) as [A B C H1 H2 H3 H4].
    assert (Ek : cbody k args kw = Ret s0) by (apply Ms; apply in_or_app; simpl; auto).
    assert (OS := odirect_snoc body cbody mbody p (TMake k args kw)). destruct (O p) as [env objs] eqn:Op. cbn [operform fst snd] in *. rewrite Ek in OS.
    split; rewrite ?OS; cbn [fst snd]; auto.
    + rewrite !app_length. simpl. lia.
    + intros c i d' R. apply ref_cases in R as [[L R]|[-> R]]; [|destruct i; discriminate]. rewrite result_old by lia. auto.
    + apply NoDup_app_snoc; auto.
    + rewrite !app_length. simpl. lia.
    + intros a w' X. destruct (Nat.lt_ge_cases a (length hs)) as [L|L].
      * rewrite nth_error_app1 in X by auto. rewrite nth_error_app1 by lia. auto.
      * rewrite nth_error_app2 in X by auto. rewrite nth_error_app2 by lia. rewrite H2. destruct (a - length hs) as [|j]; [|destruct j; discriminate].
        simpl in *. apply Some_inj in X as <-. rewrite H4 by auto. reflexivity.
    + intros w' X. apply H4. intros Y. apply X. apply in_or_app; auto.
  - assert (Nd' := Nd). rewrite gintro_snoc in Nd'. apply nodup_parts in Nd' as (N1 & Ns & _). cbn [gcreated] in Ns. rewrite Qo, out_ids_of in Ns. assert (Po' := oportable_front _ _ _ _ _ Po).
    assert (G := IH Po' (fun c args kw I => Ms c args kw (in_or_app _ _ _ (or_introl I))) N1). destruct (kept _ _ _ _ _ _ G Nd) as [B C]. destruct G as [A B0 C0 H1 H2 H3 H4].
    assert (OS := odirect_snoc body cbody mbody p (TMeth a m args kw (length ds))). destruct (O p) as [env objs] eqn:Op. cbn [operform fst snd] in *.
    destruct (args_eval (dvals (D l)) env rs (fun c i d X => proj2 (C0 c i d X)) args kw vs ks q Fa Fk) as (Bd & xs & ys & Va & Vk & M); auto.
    { intros v I. destruct Po as (_ & _ & P2 & _). eapply P2; eauto. apply in_or_app. simpl. auto. }
    assert (Sa := H3 _ _ Hw). rewrite Sa in OS. set (st := after_calls mbody s0 (map snd (dcalls (D l) w))) in *.
    assert (DS := D_snoc l (GC w nd q)). cbn [direct_step] in DS. rewrite Qf, Bd, Va, Vk in DS. cbv zeta in DS. cbn [c_args c_kwargs] in DS.
    assert (Res : exists r s', O (p ++ [TMeth a m args kw (length ds)]) = (env ++ [each (length ds) r], s') /\
      dvals (D (l ++ [GC w nd q])) = bind (dvals (D l)) (q_out q) (to_result r) /\
      ((exists e, r = Exn e) \/ exists s x y, r = fst (mbody m s x y)) /\
      length s' = length hs /\ (forall a' w', nth_error hs a' = Some w' -> nth_error s' a' = Some (after_calls mbody s0 (map snd (dcalls (D (l ++ [GC w nd q])) w')))) /\
      (forall w', ~ In w' hs -> dcalls (D (l ++ [GC w nd q])) w' = [])).
    { destruct (all_ok (map (arg_result env) args)) as [[xs'|e]|]; [| |destruct M].
      - destruct (all_ok (map (arg_result env) (map snd kw))) as [[ys'|e]|]; [| |destruct M].
        + destruct M as (-> & -> & M). rewrite M in DS. destruct (mbody m st xs (combine (map fst kw) ys)) as [r s'] eqn:Mb.
          set (cl := {| c_method := m; c_args := VList xs; c_kwargs := VDict (combine (map fst kw) ys) |}) in *.
          assert (Ap : apply_call mbody st cl = (r, s')) by exact Mb.
          assert (Am : as_methods mbody s0 (map snd (dcalls (D l) w)) cl = to_result r) by (change (in_mpi (fst (apply_call mbody st cl)) = to_result r); rewrite Ap; reflexivity).
          exists r, (set_at objs a s'). split; [exact OS|]. rewrite DS. cbn [dvals dcalls]. rewrite Am.
          assert (La : a < length objs) by (apply nth_error_Some; congruence).
          split; [reflexivity|]. split; [right; exists st, xs, (combine (map fst kw) ys); rewrite Mb; reflexivity|].
          split; [rewrite set_at_length; auto|]. split.
          * intros a' w' X. destruct (Nat.eqb w' w) eqn:Ew.
            -- apply Nat.eqb_eq in Ew. subst w'. assert (a' = a) as ->.
               { apply (proj1 (NoDup_nth_error _) H1); [apply nth_error_Some; congruence|congruence]. }
               rewrite set_at_same by auto. rewrite map_app. unfold after_calls. rewrite fold_left_app. cbn [map fold_left snd]. fold (after_calls mbody s0 (map snd (dcalls (D l) w))). fold st. rewrite Ap. reflexivity.
            -- rewrite set_at_other; auto. intros ->. rewrite Hw in X. apply Some_inj in X. subst. rewrite Nat.eqb_refl in Ew. discriminate.
          * intros w' X. destruct (Nat.eqb w' w) eqn:Ew; auto. apply Nat.eqb_eq in Ew. subst. destruct X. eapply nth_error_In; eauto.
        + rewrite M in DS. exists (Exn e), objs. rewrite DS. cbn [dvals dcalls to_result]. split; [exact OS|]. split; [reflexivity|]. split; eauto.
      - rewrite M in DS. exists (Exn e), objs. rewrite DS. cbn [dvals dcalls to_result]. split; [exact OS|]. split; [reflexivity|]. split; eauto. }
    destruct Res as (r & s' & ER & ED & Br & K1 & K2 & K3). clear OS DS.
    split; rewrite ?ER; cbn [fst snd]; auto.
    + rewrite !app_length. simpl. lia.
    + intros c i d' R. apply ref_cases in R as [[L R]|[-> R]].
      * destruct (C _ _ _ R) as [I1 I2]. rewrite result_old by lia. auto.
      * split; [rewrite gintro_snoc; apply in_or_app; right; cbn [gcreated]; rewrite Qo, out_ids_of; eapply nth_error_In; eauto|].
        rewrite A, result_new, ED, Qo.
        assert (Rn : enough (length ds) r).
        { intros v ->. destruct Br as [(e & X)|(s & x & y & X)]; [discriminate|]. destruct Po as (_ & _ & _ & _ & P3 & _). eapply P3; [apply in_or_app; simpl; auto|eauto]. }
        assert (Pr : forall v, r = Ret v -> PortSpec.plain v).
        { intros v ->. destruct Br as [(e & X)|(s & x & y & X)]; [discriminate|]. destruct (mbody m s x y) as [r2 s2] eqn:Mb. cbn [fst] in X. subst r2. eapply (proj2 plain_ok); eauto. }
        destruct (bind_at (dvals (D l)) ds r i d' Ns R Rn) as (x & X1 & X2 & X3). exists x. split; auto. split; auto. apply (plain_part ds r x); auto.
        destruct r as [v|e]; simpl; auto. destruct (Pr v eq_refl) as (Y1 & Y2 & _). auto.
  - assert (Cr : gcreated (GP o) = []) by (destruct o; try destruct Ot; reflexivity). assert (Nd' := Nd). rewrite gintro_snoc, Cr, app_nil_r in Nd'.
    assert (G := IH Po Ms Nd'). destruct (kept _ _ _ _ _ _ G Nd) as [B C]. destruct G as [A _ _ H1 H2 H3 H4].
    split; auto; try (rewrite calls_gp; auto).
Qed.

Lemma no_refs_mpi : (forall f a k, no_refs_returned (as_mpi body f a k)) /\ (forall h k, no_refs_returned (as_methods mbody s0 h k)).
Proof using plain_ok.
  split.
  - intros f a k. unfold as_mpi. destruct f; simpl; auto. destruct a; simpl; auto. destruct k; simpl; auto. destruct (body n l l0) as [v|e] eqn:B; simpl; auto. apply (proj1 plain_ok) in B. apply B.
  - intros h k. unfold as_methods, apply_call. destruct (c_args k); simpl; auto. destruct (c_kwargs k); simpl; auto.
    destruct (mbody (c_method k) (after_calls mbody s0 h) l l0) as [[v|e] s'] eqn:B; simpl; auto. apply (proj2 plain_ok) in B. apply B.
Qed.

Theorem mpi_waits_all prog : oportable body cbody mbody prog -> (forall c args kw, In (TMake c args kw) prog -> cbody c args kw = Ret s0) ->
  forall c i r, oshows_mpi body mbody s0 prog c i r ->
  exists r0, result_of (fst (O prog)) c i = Some r0 /\ (r = r0 \/ exists e, r0 = Exn e /\ r = Ret (VExc e)).
Proof using plain_ok.
  intros Po Ms c i r (workers & mgr & ops & rs & fs & hs & d & W & V & Pd & Sc & NE & Wt & Pl & Rf & G). destruct no_refs_mpi as [Nb Nm].
  destruct (orderly_direct workers (as_mpi body) (as_methods mbody s0) (fun _ => false) Nb Nm mgr ops W (fun _ => eq_refl) V Pd Sc NE Wt) as [Gv Ge].
  set (g := grun _ _ _ _ _ _) in *. clearbody g.
  destruct (gi_refs _ _ _ _ _ (gi_plays prog rs fs hs _ Pl Po Ms (gv_fresh _ V)) _ _ _ Rf) as (_ & r0 & R0 & E0 & P0). exists r0. split; [exact R0|]. destruct r as [v|e].
  - destruct G as (ds & vs & k & I & Kd & Kv). assert (F := Gv _ _ I).
    assert (Ev : dvals (D (g_prog g)) d = Some v).
    { clear - F Kd Kv. revert k Kd Kv. induction F as [|a b l m H F IH]; intros [|k] Kd Kv; simpl in *; try discriminate; [congruence|eauto]. }
    rewrite E0 in Ev. apply Some_inj in Ev. destruct r0 as [y|y]; simpl in Ev; subst v; [auto|]. right. eauto.
  - destruct (Ge _ _ G) as (d' & [<-|[]] & Ev). rewrite E0 in Ev. apply Some_inj in Ev. destruct r0 as [y|y]; simpl in Ev.
    + subst y. destruct P0 as [_ P0]. discriminate.
    + left. congruence.
Qed.

Theorem mpi_waits prog : oportable body cbody mbody prog -> (forall c args kw, In (TMake c args kw) prog -> cbody c args kw = Ret s0) ->
  forall c i r, oshows_mpi body mbody s0 prog c i r -> (forall e, r <> Ret (VExc e)) -> result_of (fst (O prog)) c i = Some r.
Proof using plain_ok.
  intros Po Ms c i r H Nx. destruct (mpi_waits_all prog Po Ms c i r H) as (r0 & R & [->|(e & _ & X)]); [exact R|]. destruct (Nx e X).
Qed.
End Mpi.

Lemma mpi_same body cbody mbody s0 : plain_bodies body mbody ->
  forall prog, oportable body cbody mbody prog -> (forall c args kw, In (TMake c args kw) prog -> cbody c args kw = Ret s0) ->
  forall b c i r r', b <> OnDask -> oshows_mpi body mbody s0 prog c i r -> (forall e, r <> Ret (VExc e)) ->
  oshows b body cbody mbody prog c i r' -> r = r'.
Proof.
  intros P prog Po Ms b c i r r' Nb H Nx H'. apply (mpi_waits body cbody mbody s0 P prog Po Ms) in H; auto.
  apply (ObjBack.all_direct body cbody mbody prog Po) in H'; auto. congruence.
Qed.
