(** C98: Dask. *)
From Verif Require Import Lib ValModel PyseqModel DaskRunModel DaskRunSpec PyseqSpec PortSpec PortHist PortShows.
From Verif Require DaskRunProps.

Lemma subst_plain s v : refs v = [] -> subst s v = v.
Proof.
  induction v using val_ind'; intros R; simpl in *; auto; try discriminate.
  - f_equal. induction H; auto. simpl in R. apply app_eq_nil in R as [A B]. simpl. rewrite H, IHForall; auto.
  - f_equal. induction H; auto. simpl in R. apply app_eq_nil in R as [A B]. simpl. rewrite H, IHForall; auto.
  - f_equal. induction H as [|[k x] l H F IH]; auto. simpl in *. apply app_eq_nil in R as [A B]. rewrite H, IH; auto.
Qed.

Lemma in_at (l : list (list dataid)) : forall k j x, ref_at l k j = Some x -> In x (concat l).
Proof.
  induction l as [|y l IH]; intros [|k] j x E; try discriminate; simpl; apply in_or_app.
  - left. apply nth_error_In with j. exact E.
  - right. apply (IH k j). exact E.
Qed.

Lemma concat_at (rs : list (list dataid)) : NoDup (concat rs) -> forall c i c' j d, ref_at rs c i = Some d -> ref_at rs c' j = Some d -> c = c' /\ i = j.
Proof.
  induction rs as [|l rs IH]; intros N c i c' j d E F; [destruct c; discriminate|]. simpl in N. apply nodup_parts in N as (N1 & N2 & D).
  destruct c as [|c], c' as [|c'].
  - split; auto. unfold ref_at in *. simpl in *. apply (proj1 (NoDup_nth_error _) N1); [apply nth_error_Some; congruence|congruence].
  - exfalso. apply (D d); [eapply (in_at rs c'); exact F|]. apply nth_error_In with i. exact E.
  - exfalso. apply (D d); [eapply (in_at rs c); exact E|]. apply nth_error_In with j. exact F.
  - destruct (IH N2 c i c' j d E F). auto.
Qed.

Lemma Forall2_impl {A B} (R S : A -> B -> Prop) l m : (forall a b, R a b -> S a b) -> Forall2 R l m -> Forall2 S l m.
Proof. intros H. induction 1; constructor; auto. Qed.

Section Dask.
Variable body : nat -> list val -> kwargs -> res.
Variable cbody : nat -> nat -> list val -> kwargs -> res.
Variable mbody : nat -> nat -> val -> list val -> kwargs -> res * val.
Variable item : val -> nat -> res.
Notation gives := (gives (fun _ => body) cbody mbody item).

Lemma dplays_refs p rs h : dplays p rs h -> rs = map (fun e => refs_out (snd e)) h.
Proof. induction 1; auto; rewrite map_app; simpl; congruence. Qed.

Lemma dplays_length p rs h : dplays p rs h -> length p = length h.
Proof. induction 1; auto; rewrite !app_length; simpl; congruence. Qed.

Lemma ref_more rs l c i d : ref_at rs c i = Some d -> ref_at (rs ++ [l]) c i = Some d.
Proof. unfold ref_at. destruct (nth_error rs c) as [x|] eqn:E; [|discriminate]. rewrite nth_error_app1 by (apply nth_error_Some; congruence). rewrite E. auto. Qed.

Lemma stands_more rs l a v : stands rs a v -> stands (rs ++ [l]) a v.
Proof. destruct a; simpl; auto. intros (d & E & ->). exists d. split; auto. apply ref_more, E. Qed.

(** What the calls in the history are. *)
Definition is_call (body : nat -> list val -> kwargs -> res) (p : list pcall) (rs : list (list dataid)) (c : nat) (o : dop) : Prop :=
  match o with
  | DPut v => nth_error p c = Some (CPut v) /\ nth_error (direct body p) c = Some [Ret v]
  | DSubmit f vs ks n false => exists args kw, nth_error p c = Some (CFun f args kw n) /\ Forall2 (stands rs) args vs /\ Forall2 (stands_kw rs) kw ks /\
      nth_error (direct body p) c = Some (perform body (direct body p) (CFun f args kw n)) /\
      (forall a, In a (args ++ map snd kw) -> exists r, arg_result (direct body p) a = Some r)
  | _ => False
  end.

Lemma perform_more env l args kw f n : (forall a, In a (args ++ map snd kw) -> exists r, arg_result env a = Some r) ->
  perform body (env ++ [l]) (CFun f args kw n) = perform body env (CFun f args kw n) /\ (forall a, In a (args ++ map snd kw) -> exists r, arg_result (env ++ [l]) a = Some r).
Proof.
  intros D. assert (E : forall a, In a (args ++ map snd kw) -> arg_result (env ++ [l]) a = arg_result env a).
  { intros a I. destruct (D a I) as (r & R). destruct a as [v|c i]; auto. simpl in *. unfold result_of in *. destruct (nth_error env c) as [x|] eqn:N; [|discriminate].
    rewrite nth_error_app1 by (apply nth_error_Some; congruence). rewrite N. auto. }
  split; [|intros a I; rewrite (E a I); auto]. unfold perform. rewrite (map_ext_in (arg_result (env ++ [l])) (arg_result env) args) by (intros; apply E, in_or_app; auto).
  rewrite (map_ext_in (arg_result (env ++ [l])) (arg_result env) (map snd kw)) by (intros; apply E, in_or_app; auto). reflexivity.
Qed.

Lemma all_ok_defined l : (forall o, In o l -> exists r : res, o = Some r) -> exists X, all_ok l = Some X.
Proof.
  induction l as [|o l IH]; intros D; simpl; [eauto|]. destruct (D o) as (r & ->); [simpl; auto|]. destruct r as [v|e]; [|eauto]. destruct IH as (X & ->); [intros; apply D; simpl; auto|]. destruct X; eauto.
Qed.

Lemma perform_length env f args kw n : (forall vs ks v, body f vs ks = Ret v -> n <= 1 \/ exists l, (v = VList l \/ v = VTuple l) /\ length l = n) ->
  (forall a, In a (args ++ map snd kw) -> exists r, arg_result env a = Some r) -> forall i, i < n -> exists r, nth_error (perform body env (CFun f args kw n)) i = Some r.
Proof.
  intros Rn D i L. assert (Q : forall l : list res, length l = n -> exists r, nth_error l i = Some r). { intros l E. assert (X : nth_error l i <> None) by (apply nth_error_Some; lia). destruct (nth_error l i); [eauto|congruence]. }
  apply Q. unfold perform. destruct (all_ok_defined (map (arg_result env) args)) as (X & ->); [intros o I; apply in_map_iff in I as (a & <- & I); apply D, in_or_app; auto|].
  destruct (all_ok_defined (map (arg_result env) (map snd kw))) as (Y & ->); [intros o I; apply in_map_iff in I as (a & <- & I); apply D, in_or_app; auto|].
  destruct X as [vs|e]; [destruct Y as [ks|e]|]; try apply repeat_length. apply each_length; [|lia]. intros v E. eapply Rn; eauto.
Qed.

Lemma dplays_calls p rs h : dplays p rs h -> portable body p -> (forall o out, In (o, out) h -> length (refs_out out) = returns o) ->
  (forall c i d, ref_at rs c i = Some d -> exists r, result_of (direct body p) c i = Some r) /\
  forall c o out, nth_error h c = Some (o, out) -> is_call body p rs c o.
Proof.
  induction 1 as [|p rs h v d0 Pl IH|p rs h f args kw n vs ks out Pl IH Fa Fk]; intros Po Ln.
  - split; [intros c i d E; destruct c; discriminate|intros c o out E; destruct c; discriminate].
  - destruct IH as [I1 I2]; [eapply portable_front; eauto|intros; apply Ln, in_or_app; auto|]. assert (Le := dplays_length _ _ _ Pl).
    assert (Lr : length rs = length p) by (rewrite (dplays_refs _ _ _ Pl), map_length; auto). rewrite direct_snoc. assert (Ld := direct_length body p). split.
    + intros c i d E. apply ref_cases in E as [[L E]|[-> E]]; [rewrite result_old by lia; eauto|]. rewrite Lr, <- Ld, result_new. destruct i as [|[|i]]; simpl in *; try discriminate. eauto.
    + intros c o out E. destruct (Nat.lt_ge_cases c (length h)) as [L|L].
      * rewrite nth_error_app1 in E by auto. apply I2 in E. unfold is_call in *. rewrite direct_snoc. destruct o; auto.
        -- destruct E as [A B]. rewrite !nth_error_app1 by lia. auto.
        -- destruct reserve; auto. destruct E as (a & k & A & B & C & D & F). exists a, k. rewrite !nth_error_app1 by lia. destruct (perform_more (direct body p) (perform body (direct body p) (CPut v)) a k f n F) as [X Y]. rewrite X.
           split; auto. split; [eapply Forall2_impl; [|eauto]; intros; apply stands_more; auto|]. split; [eapply Forall2_impl; [|eauto]; intros x y [U V]; split; auto; apply stands_more; auto|]. auto.
      * rewrite nth_error_app2 in E by auto. destruct (c - length h) as [|k] eqn:K; simpl in E; [|destruct k; discriminate]. inversion E; subst. assert (c = length p) by lia. subst c.
        simpl. rewrite direct_snoc. rewrite !nth_error_app2 by lia. rewrite Nat.sub_diag, Ld, Nat.sub_diag. auto.
  - destruct IH as [I1 I2]; [eapply portable_front; eauto|intros; apply Ln, in_or_app; auto|]. assert (Le := dplays_length _ _ _ Pl).
    assert (Lr : length rs = length p) by (rewrite (dplays_refs _ _ _ Pl), map_length; auto). rewrite direct_snoc. assert (Ld := direct_length body p).
    assert (Lo : length (refs_out out) = n) by (apply (Ln (DSubmit f vs ks n false)), in_or_app; simpl; auto).
    assert (Df : forall a, In a (args ++ map snd kw) -> exists r, arg_result (direct body p) a = Some r).
    { intros a I. assert (S : exists v, stands rs a v).
      { apply in_app_or in I as [I|I].
        - clear - I Fa. induction Fa; [destruct I|]. destruct I as [->|I]; eauto.
        - clear - I Fk. induction Fk as [|x y l m [A B] F IH]; [destruct I|]. destruct I as [<-|I]; eauto. }
      destruct S as (v & S). destruct a as [x|c i]; simpl in *; [eauto|]. destruct S as (d & E & _). eauto. }
    assert (Rn : forall vs ks v, body f vs ks = Ret v -> n <= 1 \/ exists l, (v = VList l \/ v = VTuple l) /\ length l = n).
    { intros vs' ks' v' B. destruct Po as (_ & _ & P3). eapply P3; eauto. apply in_or_app. simpl. auto. }
    split.
    + intros c i d E. apply ref_cases in E as [[L E]|[-> E]]; [rewrite result_old by lia; eauto|]. rewrite Lr, <- Ld, result_new. apply perform_length; auto. rewrite <- Lo. apply nth_error_Some. congruence.
    + intros c o out' E. destruct (Nat.lt_ge_cases c (length h)) as [L|L].
      * rewrite nth_error_app1 in E by auto. apply I2 in E. unfold is_call in *. rewrite direct_snoc. destruct o; auto.
        -- destruct E as [A B]. rewrite !nth_error_app1 by lia. auto.
        -- destruct reserve; auto. destruct E as (a & k & A & B & C & D & F). exists a, k. rewrite !nth_error_app1 by lia. destruct (perform_more (direct body p) (perform body (direct body p) (CFun f args kw n)) a k f0 n0 F) as [X Y]. rewrite X.
           split; auto. split; [eapply Forall2_impl; [|eauto]; intros; apply stands_more; auto|]. split; [eapply Forall2_impl; [|eauto]; intros x y [U V]; split; auto; apply stands_more; auto|]. auto.
      * rewrite nth_error_app2 in E by auto. destruct (c - length h) as [|k] eqn:K; simpl in E; [|destruct k; discriminate]. inversion E; subst o out'. assert (c = length p) by lia. subst c.
        unfold is_call. exists args, kw. rewrite direct_snoc. rewrite !nth_error_app2 by lia. rewrite Nat.sub_diag, Ld, Nat.sub_diag.
        destruct (perform_more (direct body p) (perform body (direct body p) (CFun f args kw n)) args kw f n Df) as [X Y]. rewrite X. split; auto.
        split; [eapply Forall2_impl; [|eauto]; intros; apply stands_more; auto|]. split; [eapply Forall2_impl; [|eauto]; intros x y [U V]; split; auto; apply stands_more; auto|]. auto.
Qed.

Lemma direct_entry log : forall objs c r, In (c, r) (fst (DaskRunSpec.direct (fun _ => body) mbody objs log)) -> NoDup (map fst log) ->
  forall f vs ks, In (c, RFun f vs ks) log -> r = body f vs ks.
Proof.
  induction log as [|[c0 e0] log IH]; intros objs c r I N f vs ks J; [destruct J|]. simpl in N. inversion N; subst.
  assert (Sub : forall objs, In (c, r) (fst (DaskRunSpec.direct (fun _ => body) mbody objs log)) -> In c (map fst log)).
  { clear. intros objs. revert objs. induction log as [|[k e] log IH]; intros objs I; simpl in *; [destruct I|]. destruct e as [f vs ks|a m vs ks].
    - destruct (DaskRunSpec.direct (fun _ => body) mbody objs log) as [l o] eqn:D. simpl in I. destruct I as [E|I]; [apply pair_inj in E as [-> _]; auto|]. right. apply (IH objs). rewrite D. exact I.
    - destruct (nth_error objs a) as [x|]; [|right; eapply IH; eauto]. destruct (mbody k m x vs ks) as [r' x']. destruct (DaskRunSpec.direct (fun _ => body) mbody (replace objs a x') log) as [l o] eqn:D. simpl in I.
      destruct I as [E|I]; [apply pair_inj in E as [-> _]; auto|]. right. apply (IH (replace objs a x')). rewrite D. exact I. }
  destruct J as [E|J].
  - apply pair_inj in E as [-> ->]. simpl in I. destruct (DaskRunSpec.direct (fun _ => body) mbody objs log) as [l o] eqn:D. simpl in I. destruct I as [E|I]; [apply pair_inj in E as [_ <-]; auto|].
    exfalso. apply H1. apply (Sub objs). rewrite D. exact I.
  - assert (Ne : c0 <> c) by (intros ->; apply H1, in_map_iff; exists (c, RFun f vs ks); auto). simpl in I. destruct e0 as [f0 vs0 ks0|a m vs0 ks0].
    + destruct (DaskRunSpec.direct (fun _ => body) mbody objs log) as [l o] eqn:D. simpl in I. destruct I as [E|I]; [apply pair_inj in E as [E _]; congruence|]. apply (IH objs c r) with (vs := vs) (ks := ks) (f := f); auto. rewrite D. exact I.
    + destruct (nth_error objs a) as [x|]; [|eapply (IH objs); eauto]. destruct (mbody c0 m x vs0 ks0) as [r' x']. destruct (DaskRunSpec.direct (fun _ => body) mbody (replace objs a x') log) as [l o] eqn:D. simpl in I.
      destruct I as [E|I]; [apply pair_inj in E as [E _]; congruence|]. apply (IH (replace objs a x') c r) with (vs := vs) (ks := ks) (f := f); auto. rewrite D. exact I.
Qed.

Lemma all_ok_values {A B} (f : A -> option res) (g : B -> val) l m : Forall2 (fun a b => f a = Some (Ret (g b))) l m -> all_ok (map f l) = Some (inl (map g m)).
Proof. induction 1; simpl; auto. rewrite H, IHForall2. reflexivity. Qed.

Lemma all_ok_fails l e : (forall o, In o l -> exists r : res, o = Some r) -> In (Some (Exn e)) l -> exists e', all_ok l = Some (inr e').
Proof.
  induction l as [|o l IH]; intros D I; [destruct I|]. simpl. destruct I as [->|I]; [eauto|]. destruct (D o) as (r & ->); [simpl; auto|]. destruct r as [v|x]; [|eauto].
  destruct IH as (e' & ->); eauto. intros; apply D; simpl; auto.
Qed.

Theorem gives_agrees p rs h log : dplays p rs h -> portable body p -> (forall o out, In (o, out) h -> length (refs_out out) = returns o) -> NoDup (concat rs) ->
  NoDup (map fst log) -> indexing item -> forall d r, gives h log d r -> forall c i, ref_at rs c i = Some d -> agrees (result_of (direct body p) c i) r.
Proof.
  intros Pl Po Ln Nd Nl Ix. destruct (dplays_calls p rs h Pl Po Ln) as [Df Cl]. assert (Rs := dplays_refs _ _ _ Pl).
  assert (At : forall c o out j d, nth_error h c = Some (o, out) -> nth_error (refs_out out) j = Some d -> ref_at rs c j = Some d).
  { intros c o out j d E F. rewrite Rs. unfold ref_at. rewrite nth_error_map, E. exact F. }
  assert (Pv : forall c f args kw n v, nth_error p c = Some (CFun f args kw n) -> In (AVal v) (args ++ map snd kw) -> refs v = []).
  { intros c f args kw n v E I. destruct Po as (_ & P2 & _). destruct (P2 f args kw n v (nth_error_In _ _ E) I) as (R & _). exact R. }
  induction 1 as [c' v d E|c' o out d x e E I J G IH|c' o out d j s e r E F G IH En Lg Dr]; intros c i Rf.
  - destruct (concat_at rs Nd c i c' 0 d Rf (At _ _ _ 0 _ E eq_refl)) as [-> ->]. destruct (Cl _ _ _ E) as [_ Q]. unfold result_of. rewrite Q. reflexivity.
  - apply In_nth_error in I as (j & F). destruct (concat_at rs Nd c i c' j d Rf (At _ _ _ _ _ E F)) as [-> ->]. assert (Q := Cl _ _ _ E). destruct o; try destruct Q; [destruct J|].
    destruct reserve; [destruct Q|]. destruct Q as (aa & kk & Pn & Fa & Fk & Dn & Da). unfold result_of. rewrite Dn. simpl in J.
    assert (Lj : j < n). { assert (X := Ln _ _ (nth_error_In _ _ E)). simpl in X. rewrite <- X. apply nth_error_Some. congruence. }
    assert (Bad : (exists a e', In a aa /\ arg_result (direct body p) a = Some (Exn e')) \/ exists a e', In a (map snd kk) /\ arg_result (direct body p) a = Some (Exn e')).
    { assert (Q : forall a v, In a (aa ++ map snd kk) -> stands rs a v -> In x (refs v) -> exists e', arg_result (direct body p) a = Some (Exn e')).
      { intros a v Ia S Ix'. destruct a as [y|c2 i2]; simpl in S.
        - subst v. rewrite (Pv _ _ _ _ _ _ Pn Ia) in Ix'. destruct Ix'.
        - destruct S as (d2 & R2 & ->). simpl in Ix'. destruct Ix' as [->|[]]. assert (A := IH _ _ R2). simpl. destruct (result_of (direct body p) c2 i2) as [[y|y]|]; simpl in A; [discriminate|eauto|destruct A]. }
      unfold arg_refs in J. apply in_app_or in J as [J|J].
      - left. apply in_flat_map in J as (v & Iv & J). assert (X : exists a, In a aa /\ stands rs a v). { clear - Fa Iv. induction Fa; [destruct Iv|]. destruct Iv as [->|Iv]; [eexists; split; [left; reflexivity|auto]|]. destruct IHFa as (a & A & B); auto. exists a. simpl. auto. }
        destruct X as (a & Ia & S). destruct (Q a v) as (e' & R); auto; [apply in_or_app; auto|]. eauto.
      - right. apply in_flat_map in J as (v & Iv & J). assert (X : exists a, In a (map snd kk) /\ stands rs a (snd v)). { clear - Fk Iv. induction Fk as [|x y l m [A B] F IH]; [destruct Iv|]. destruct Iv as [->|Iv]; [eexists; split; [left; reflexivity|auto]|]. destruct IH as (a & A' & B'); auto. exists a. simpl. auto. }
        destruct X as (a & Ia & S). destruct (Q a (snd v)) as (e' & R); auto; [apply in_or_app; auto|]. eauto. }
    assert (Z : exists e', perform body (direct body p) (CFun f aa kk n) = repeat (Exn e') n).
    { unfold perform. assert (D1 : forall o, In o (map (arg_result (direct body p)) aa) -> exists r, o = Some r) by (intros o Io; apply in_map_iff in Io as (a & <- & Io); apply Da, in_or_app; auto).
      assert (D2 : forall o, In o (map (arg_result (direct body p)) (map snd kk)) -> exists r, o = Some r) by (intros o Io; apply in_map_iff in Io as (a & <- & Io); apply Da, in_or_app; auto).
      destruct Bad as [(a & e' & Ia & R)|(a & e' & Ia & R)].
      - destruct (all_ok_fails _ e' D1) as (e2 & ->); [rewrite <- R; apply in_map; auto|]. eauto.
      - destruct (all_ok_fails _ e' D2) as (e2 & ->); [rewrite <- R; apply in_map; auto|]. destruct (all_ok_defined _ D1) as (X & ->). destruct X; eauto. }
    destruct Z as (e' & ->). rewrite nth_error_repeat by auto. simpl. eauto.
  - destruct (concat_at rs Nd c i c' j d Rf (At _ _ _ _ _ E F)) as [-> ->]. assert (Q := Cl _ _ _ E). destruct o; try destruct Q; [discriminate|].
    destruct reserve; [destruct Q|]. destruct Q as (aa & kk & Pn & Fa & Fk & Dn & Da). unfold result_of. rewrite Dn. simpl in En. apply Some_inj in En as <-.
    assert (Lj : j < n). { assert (X := Ln _ _ (nth_error_In _ _ E)). simpl in X. rewrite <- X. apply nth_error_Some. congruence. }
    rewrite (direct_entry _ _ _ _ Dr Nl _ _ _ Lg). clear Dr.
    assert (Q : forall a v, In a (aa ++ map snd kk) -> stands rs a v -> (forall x, In x (refs v) -> In x (arg_refs args kw)) -> arg_result (direct body p) a = Some (Ret (subst s v))).
    { intros a v Ia S Iv. destruct a as [y|c2 i2]; simpl in S.
      - subst v. simpl. rewrite subst_plain; auto. eapply Pv; eauto.
      - destruct S as (d2 & R2 & ->). simpl. assert (A := IH d2 (Iv d2 (or_introl eq_refl)) _ _ R2). destruct (result_of (direct body p) c2 i2) as [[y|y]|]; simpl in A; [congruence|destruct A; discriminate|destruct A]. }
    assert (A1 : all_ok (map (arg_result (direct body p)) aa) = Some (inl (fill s args))).
    { unfold fill. apply all_ok_values. assert (Q' : forall a v, In a aa -> In v args -> stands rs a v -> arg_result (direct body p) a = Some (Ret (subst s v))).
      { intros a v Ia Iv S. apply Q; auto; [apply in_or_app; auto|]. intros x Ix'. unfold arg_refs. apply in_or_app. left. apply in_flat_map. eauto. }
      clear - Fa Q'. induction Fa; constructor; [apply Q'; simpl; auto|]. apply IHFa. intros; apply Q'; simpl; auto. }
    assert (A2 : all_ok (map (arg_result (direct body p)) (map snd kk)) = Some (inl (map (fun kv => subst s (snd kv)) kw)) /\ map fst kk = map fst kw).
    { assert (Q' : forall a v, In a (map snd kk) -> In v kw -> stands rs a (snd v) -> arg_result (direct body p) a = Some (Ret (subst s (snd v)))).
      { intros a v Ia Iv S. apply Q; auto; [apply in_or_app; auto|]. intros x Ix'. unfold arg_refs. apply in_or_app. right. apply in_flat_map. eauto. }
      split.
      - apply all_ok_values. clear - Fk Q'. induction Fk as [|x y l m [A B] F IH]; simpl; constructor; [apply Q'; simpl; auto|]. apply IH. intros; apply Q'; simpl; auto.
      - clear - Fk. induction Fk as [|x y l m [A B] F IH]; simpl; congruence. }
    destruct A2 as [A2 Kn]. unfold perform. rewrite A1, A2.
    assert (Kw : combine (map fst kk) (map (fun kv => subst s (snd kv)) kw) = fill_kw s kw).
    { rewrite Kn. unfold fill_kw. clear. induction kw as [|[a b] l IH]; simpl; congruence. }
    rewrite Kw. simpl returns. destruct (body f (fill s args) (fill_kw s kw)) as [v|e'] eqn:B; simpl.
    + destruct (Nat.eqb n 1) eqn:N1; [apply Nat.eqb_eq in N1; destruct j; [reflexivity|lia]|]. apply Nat.eqb_neq in N1. destruct Po as (_ & _ & P3).
      destruct (P3 f aa kk n _ _ v (nth_error_In _ _ Pn) B) as [X|(l & X & Ll)]; [lia|]. assert (Y : exists x, nth_error l j = Some x). { assert (Y : nth_error l j <> None) by (apply nth_error_Some; lia). destruct (nth_error l j); [eauto|congruence]. }
      destruct Y as (x & Y). destruct (Ix l j x Y) as [I1 I2]. destruct X as [->| ->]; rewrite nth_error_map, Y; simpl; auto.
    + rewrite nth_error_repeat by auto. simpl. eauto.
Qed.
End Dask.

Theorem dask_direct body prog : portable body prog -> forall c i r, shows_dask body prog c i r -> agrees (result_of (direct body prog) c i) r.
Proof.
  intros Po c i r (cbody & mbody & item & ops & rs & d & Ix & L & Pl & Rf & G). destruct (DaskRunProps.C57_references _ _ _ _ _ L) as (_ & Ln & Nd).
  assert (Rs := dplays_refs _ _ _ Pl). eapply gives_agrees; eauto.
  - rewrite Rs, <- flat_map_concat_map. exact Nd.
  - apply (DaskRunProps.C58_at_most_once _ _ _ _ _ L).
  - apply DaskRunProps.C57_results; auto. rewrite flat_map_concat_map, <- Rs. eapply in_at; eauto.
Qed.
