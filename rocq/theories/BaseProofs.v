(** C46, C47, C48, C56 *)
From Verif Require Import Lib BaseModel BaseSpec.
From Coq Require Import ZArith.

(** C46 *)
Lemma unwrap_items : forall l, unwrap (PList l) = PList (map unwrap l).
Proof.
  intros l. simpl. f_equal.
  assert (A : forall l acc, (fix items l acc := match l with [] => acc | x :: r => items r (acc ++ [unwrap x]) end) l acc =
    acc ++ map unwrap l).
  { clear. induction l as [|x l IH]; intros acc; simpl; [now rewrite app_nil_r|]. rewrite IH, <- app_assoc. reflexivity. }
  apply (A l []).
Qed.

Lemma unwrap_titems : forall l, unwrap (PTuple l) = PTuple (map unwrap l).
Proof.
  intros l. pose proof (unwrap_items l) as H. simpl in *. injection H. intros E. now rewrite E.
Qed.

Lemma dict_set_new : forall l k v, ~ In k (map fst l) -> dict_set l k v = l ++ [(k, v)].
Proof.
  induction l as [|[k' v'] l IH]; intros k v N; simpl in *; auto.
  destruct (Nat.eqb_spec k k') as [E|_]; [exfalso; auto|]. rewrite IH; auto.
Qed.

Lemma unwrap_entries : forall l, NoDup (map fst l) -> unwrap (PDict l) = PDict (map (fun '(k, v) => (k, unwrap v)) l).
Proof.
  intros l ND. simpl. f_equal.
  assert (A : forall l acc, NoDup (map fst (acc ++ l)) ->
    (fix entries l acc := match l with [] => acc | (k, x) :: r => entries r (dict_set acc k (unwrap x)) end) l acc =
    acc ++ map (fun '(k, v) => (k, unwrap v)) l).
  { clear. induction l as [|[k x] l IH]; intros acc ND; simpl; [now rewrite app_nil_r|].
    assert (N : ~ In k (map fst acc)).
    { rewrite map_app in ND. simpl in ND. apply NoDup_remove_2 in ND. intros I. apply ND. apply in_or_app. auto. }
    rewrite dict_set_new by auto. rewrite IH.
    - rewrite <- app_assoc. reflexivity.
    - rewrite map_app in *. rewrite map_app. simpl in *. rewrite <- app_assoc. simpl. auto. }
  apply (A l []). auto.
Qed.

Lemma entry_map : forall l k, entry (map (fun '(k, v) => (k, unwrap v)) l) k = option_map unwrap (entry l k).
Proof.
  induction l as [|[k' v'] l IH]; intros k; simpl; auto. destruct (Nat.eqb k k'); auto.
Qed.

Lemma proper_dict : forall l, proper (PDict l) -> NoDup (map fst l).
Proof. intros l P. apply (P []). reflexivity. Qed.

Lemma child_unwrap : forall o s, proper o -> (forall c l, o <> PSub c l) ->
  child (unwrap o) s = option_map unwrap (child o s).
Proof.
  intros o s P N. destruct o; try (destruct s; reflexivity).
  - rewrite unwrap_items. destruct s; simpl; auto. apply nth_error_map.
  - rewrite unwrap_titems. destruct s; simpl; auto. apply nth_error_map.
  - rewrite unwrap_entries by (apply proper_dict; auto). destruct s; simpl; auto. apply entry_map.
  - exfalso. eapply N. reflexivity.
Qed.

Lemma look_unwrap : forall o, proper o -> look (unwrap o) = unref (look o).
Proof.
  intros o P. destruct o; try reflexivity.
  - rewrite unwrap_items. simpl. now rewrite map_length.
  - rewrite unwrap_titems. simpl. now rewrite map_length.
  - rewrite unwrap_entries by (apply proper_dict; auto). simpl. f_equal. rewrite map_map. apply map_ext.
    intros [k v]. reflexivity.
Qed.

Lemma proper_child : forall o s x, proper o -> child o s = Some x -> proper x.
Proof.
  intros o s x P C p keys H. apply (P (s :: p)). unfold sees in *. simpl. rewrite C. auto.
Qed.

Lemma unwrap_faithful : forall o, proper o -> forall p, in_plain p o ->
  sees p (unwrap o) = option_map unref (sees p o).
Proof.
  intros o P p. revert o P. induction p as [|s p IH]; intros o P N.
  - unfold sees. simpl. now rewrite look_unwrap.
  - unfold sees. simpl. rewrite child_unwrap; auto.
    + destruct (child o s) as [x|] eqn:C; simpl; auto. apply IH.
      * eapply proper_child; eauto.
      * intros q r c n E. intros Hs. apply (N (s :: q) r c n); [simpl; now rewrite E|]. unfold sees. simpl. now rewrite C.
    + intros c l E. subst. apply (N [] (s :: p) c (length l)); reflexivity.
Qed.

(** A reference becomes the same whether it is unwrapped first or not. *)
Lemma unwrap_filtered : forall o, unwrap (filter_argument o) = unwrap o.
Proof. intros []; reflexivity. Qed.

Lemma unwrap_values : forall (kw : kwargs),
  map (fun '(k, v) => (k, unwrap v)) (map (fun '(k, v) => (k, filter_argument v)) kw) =
  map (fun '(k, v) => (k, unwrap v)) kw.
Proof.
  intros kw. rewrite map_map. apply map_ext. intros [k v]. now rewrite unwrap_filtered.
Qed.

(** C47 *)
Lemma step_instance : forall p o p' a b, pstep p o = (p', a) -> instance p = Some b ->
  instance p' = Some b /\ forall b', a = CalledOn b' -> b' = b.
Proof.
  intros [i st] o p' a b H I. simpl in I. subst i.
  destruct o as [cfg main|cfg|cfg main]; simpl in H.
  - destruct cfg; simpl in H; try (apply pair_inj in H as [<- <-]; split; [reflexivity|discriminate]).
    destruct main; apply pair_inj in H as [<- <-]; (split; [reflexivity|discriminate]).
  - apply pair_inj in H as [<- <-]. split; auto. intros b' E. congruence.
  - unfold api_put in H. simpl in H. destruct (existsb (backend_eqb b) st).
    + apply pair_inj in H as [<- <-]. split; auto. intros b' E. congruence.
    + destruct cfg; simpl in H; try (apply pair_inj in H as [<- <-]; split; auto; intros b' E; congruence).
      destruct main; simpl in H; apply pair_inj in H as [<- <-]; (split; [reflexivity|]); intros b' E; congruence.
Qed.

Lemma run_instance : forall os p p' l b, prun p os = (p', l) -> instance p = Some b ->
  forall b', In b' (called_on l) -> b' = b.
Proof.
  induction os as [|o os IH]; intros p p' l b H I b' J; simpl in H.
  - apply pair_inj in H as [_ <-]. destruct J.
  - destruct (pstep p o) as [p1 a] eqn:S1. destruct (prun p1 os) as [p2 l2] eqn:R. apply pair_inj in H as [_ <-].
    destruct (step_instance _ _ _ _ _ S1 I) as (I1 & A). simpl in J. apply in_app_or in J. destruct J as [J|J]; eauto.
    destruct a; simpl in J; try destruct J as [J|[]]; try contradiction. subst. auto.
Qed.

Lemma step_fresh : forall p o p' a, pstep p o = (p', a) -> instance p = None ->
  instance p' = None /\ (forall b, a <> CalledOn b) \/
  exists b, instance p' = Some b /\ forall b', a = CalledOn b' -> b' = b.
Proof.
  intros [i st] o p' a H I. simpl in I. subst i.
  destruct o as [cfg main|cfg|cfg main]; simpl in H.
  - destruct cfg; simpl in H;
      try (apply pair_inj in H as [<- <-]; right; eexists; split; [reflexivity|]; discriminate).
    destruct main; apply pair_inj in H as [<- <-].
    + right. eexists. split; [reflexivity|]. discriminate.
    + left. split; auto. discriminate.
  - apply pair_inj in H as [<- <-]. right. eexists. split; [reflexivity|]. intros b' E. congruence.
  - unfold api_put in H. simpl in H. destruct (existsb (backend_eqb cfg) st).
    + apply pair_inj in H as [<- <-]. right. eexists. split; [reflexivity|]. intros b' E. congruence.
    + destruct cfg; simpl in H;
        try (apply pair_inj in H as [<- <-]; right; eexists; split; [reflexivity|]; intros b' E; congruence).
      destruct main; simpl in H; apply pair_inj in H as [<- <-]; right; eexists; (split; [reflexivity|]);
        intros b' E; congruence.
Qed.

Lemma one_backend : forall os p' l, prun proc_init os = (p', l) ->
  forall b b', In b (called_on l) -> In b' (called_on l) -> b = b'.
Proof.
  assert (G : forall os p p' l, prun p os = (p', l) -> instance p = None ->
    forall b b', In b (called_on l) -> In b' (called_on l) -> b = b').
  { induction os as [|o os IH]; intros p p' l H N b b' J J'; simpl in H.
    - apply pair_inj in H as [_ <-]. destruct J.
    - destruct (pstep p o) as [p1 a] eqn:S1. destruct (prun p1 os) as [p2 l2] eqn:R. apply pair_inj in H as [_ <-].
      simpl in J, J'. destruct (step_fresh _ _ _ _ S1 N) as [(N1 & A)|(b0 & I1 & A)].
      + destruct a; simpl in J, J'; eauto. exfalso. eapply A. reflexivity.
      + assert (K : forall x, In x (called_on l2) -> x = b0) by (eapply run_instance; eauto).
        assert (K2 : forall x, In x (called_on (a :: l2)) -> x = b0).
        { intros x I. simpl in I. apply in_app_or in I. destruct I as [I|I]; auto.
          destruct a; simpl in I; try contradiction. destruct I as [E|[]]. subst. auto. }
        rewrite (K2 b), (K2 b'); auto. }
  intros. eapply G; eauto.
Qed.

Lemma init_first : forall cfg main os p' l, (cfg = Dask -> main = true) ->
  prun proc_init (Init cfg main :: os) = (p', l) ->
  (forall b, In b (called_on l) -> b = cfg) /\ In cfg (started p').
Proof.
  intros cfg main os p' l D H. simpl in H.
  assert (E : pstep proc_init (Init cfg main) = (mkProc (Some cfg) [cfg], Done)).
  { destruct cfg; auto. rewrite D by auto. reflexivity. }
  simpl in E. rewrite E in H. destruct (prun (mkProc (Some cfg) [cfg]) os) as [p2 l2] eqn:R.
  apply pair_inj in H as [<- <-]. split.
  - intros b I. simpl in I. eapply run_instance; [exact R| |exact I]. reflexivity.
  - assert (G : forall os p p' l, prun p os = (p', l) -> In cfg (started p) -> In cfg (started p')).
    { clear. induction os as [|o os IH]; intros p p' l H I; simpl in H.
      - apply pair_inj in H as [<- _]. auto.
      - destruct (pstep p o) as [p1 a] eqn:S1. destruct (prun p1 os) as [p2 l2] eqn:R. apply pair_inj in H as [<- _].
        eapply IH; eauto. clear R IH.
        assert (GI : forall q b, started (get_instance q b) = started q)
          by (intros [[x|] st] b; reflexivity).
        assert (IB : forall q c m q' a', init_backend q c m = (q', a') -> In cfg (started q) -> In cfg (started q')).
        { intros q c m q' a' HH J. destruct c; simpl in HH; try (destruct m);
            apply pair_inj in HH as [<- _]; try rewrite GI; simpl; try (apply in_or_app; auto); auto. }
        assert (AC : forall q c q' a', api_call q c = (q', a') -> started q' = started q).
        { intros [[x|] st] c q' a' HH; simpl in HH; apply pair_inj in HH as [<- _]; reflexivity. }
        destruct o as [c m|c|c m]; simpl in S1.
        + eapply IB; eauto.
        + rewrite (AC _ _ _ _ S1). auto.
        + unfold api_put in S1. destruct (api_call p c) as [q x] eqn:A1.
          assert (J : In cfg (started q)) by (rewrite (AC _ _ _ _ A1); auto).
          destruct x; try (apply pair_inj in S1 as [<- _]; auto).
          destruct (existsb (backend_eqb b) (started q)).
          * rewrite (AC _ _ _ _ S1). auto.
          * destruct (init_backend q c m) as [q2 y] eqn:A2. pose proof (IB _ _ _ _ _ A2 J) as J2.
            destruct y; try (rewrite (AC _ _ _ _ S1); auto). apply pair_inj in S1 as [<- _]. auto. }
    eapply G; eauto. simpl. auto.
Qed.

(** C48 *)
Lemma decorator_functions : forall kw f, kw <> [] ->
  (kwget kw NumReturns = PNone \/ exists z, kwget kw NumReturns = PInt z /\ (0 <= z)%Z) ->
  exists dec, remote [] kw = Decorator dec /\
  dec (AFunction f) = RemoteFunction f (kwget kw NumCpus) (kwget kw NumReturns) (kwget kw Resources).
Proof.
  intros kw f NE H. destruct kw as [|e kw]; [contradiction|]. eexists. split; [reflexivity|].
  unfold make_decorator. destruct H as [->|(z & -> & L)]; [reflexivity|]. simpl.
  replace (z <? 0)%Z with false; auto. symmetry. apply Z.ltb_ge. auto.
Qed.

Lemma decorator_classes : forall kw c, kw <> [] -> kwget kw NumReturns = PNone ->
  exists dec, remote [] kw = Decorator dec /\
  dec (AClass c) = RemoteActor c (kwget kw NumCpus) (kwget kw Resources).
Proof.
  intros kw c NE H. destruct kw as [|e kw]; [contradiction|]. eexists. split; [reflexivity|].
  unfold make_decorator. now rewrite H.
Qed.

Lemma decorator_rejects : forall kw t dec, remote [] kw = Decorator dec ->
  match t with
  | AFunction _ => (forall z, kwget kw NumReturns = PInt z -> (z < 0)%Z) /\ kwget kw NumReturns <> PNone /\
                   (forall b, kwget kw NumReturns <> PBool b)
  | AClass _ => kwget kw NumReturns <> PNone
  | _ => True
  end ->
  dec t = RaisesValueError \/ dec t = RaisesTypeError.
Proof.
  intros kw t dec H C. destruct kw as [|e kw]; [discriminate|]. unfold remote in H.
  remember (e :: kw) as k. injection H. intros <-. clear H. destruct t; simpl.
  - destruct C as (N & X & B). destruct (kwget k NumReturns) eqn:E; simpl; auto.
    + exfalso. auto.
    + specialize (N z eq_refl). apply Z.ltb_lt in N. rewrite N. auto.
    + exfalso. eapply B. eauto.
  - destruct (kwget k NumReturns); simpl; auto; contradiction.
  - auto.
  - auto.
Qed.

Lemma bare_decorator : forall t,
  remote [t] [] = match t with
                  | AFunction f => Decorated (RemoteFunction f PNone PNone PNone)
                  | AClass c => Decorated (RemoteActor c PNone PNone)
                  | ACallable _ => Decorated RaisesTypeError
                  | AValue _ => RaisesAssertion
                  end.
Proof. intros []; reflexivity. Qed.

Lemma other_uses : forall args kw, (args = [] /\ kw = []) \/ (args <> [] /\ kw <> []) \/ 2 <= length args ->
  remote args kw = RaisesAssertion.
Proof.
  intros args kw [[-> ->]|[[A K]|L]]; auto.
  - destruct args as [|t [|t' r]]; [contradiction| |]; destruct kw; try contradiction; reflexivity.
  - destruct args as [|t [|t' r]]; simpl in L; try lia. reflexivity.
Qed.

Lemma unknown_ignored : forall n v t, exists dec, remote [] [(Other n, v)] = Decorator dec /\
  dec t = make_decorator PNone PNone PNone t.
Proof. intros n v t. eexists. split; reflexivity. Qed.

(** C56 *)
Lemma ordinary_has : forall kw k, ordinary kw -> (forall n, k <> Other n) -> kwhas kw k = false /\ kwget kw k = PNone.
Proof.
  induction kw as [|[k' v] kw IH]; intros k O N; simpl; auto.
  destruct (O k' v) as (n & ->); [simpl; auto|].
  assert (E : kwname_eqb k (Other n) = false).
  { destruct k; auto. exfalso. eapply N. reflexivity. }
  rewrite E. simpl. apply IH; auto. intros a b I. apply (O a b). simpl. auto.
Qed.

Lemma ordinary_kept : forall kw, ordinary kw -> filter unreserved kw = kw.
Proof.
  induction kw as [|[k v] kw IH]; intros O; simpl; auto. destruct (O k v) as (n & ->); [simpl; auto|]. simpl.
  rewrite IH; auto. intros a b I. apply (O a b). simpl. auto.
Qed.

Lemma ordinary_filtered : forall kw, ordinary kw -> ordinary (map (fun '(k, v) => (k, filter_argument v)) kw).
Proof.
  intros kw O k v I. apply in_map_iff in I. destruct I as ([k' v'] & E & I). apply pair_inj in E as [<- <-]. eauto.
Qed.

Lemma call_plain : forall nret args kw n, ordinary kw ->
  (nret = PNone /\ n = 1%Z \/ nret = PInt n \/ exists b : bool, nret = PBool b /\ n = if b then 1%Z else 0%Z) ->
  f_remote PNone nret PNone args kw =
  Submits (map unwrap args) (map (fun '(k, v) => (k, unwrap v)) kw) n
    (if Z.eqb n 1 then OneRef else if Z.ltb 1 n then Refs (Z.to_nat n) else NoRefs).
Proof.
  intros nret args kw n O N. unfold f_remote, filter_arguments.
  set (kw' := map (fun '(k, v) => (k, filter_argument v)) kw).
  assert (O' : ordinary kw') by (apply ordinary_filtered; auto).
  unfold mpi_remote. rewrite (ordinary_kept kw' O').
  destruct (ordinary_has kw' Self O' ltac:(intros; discriminate)) as [-> _].
  destruct (ordinary_has kw' NumCpus O' ltac:(intros; discriminate)) as [_ ->].
  destruct (ordinary_has kw' Resources O' ltac:(intros; discriminate)) as [_ ->].
  destruct (ordinary_has kw' NumReturns O' ltac:(intros; discriminate)) as [_ ->].
  destruct (ordinary_has kw' Task O' ltac:(intros; discriminate)) as [-> _].
  cbn [is_none negb orb]. unfold kw'. rewrite unwrap_values. rewrite map_map.
  rewrite (map_ext _ unwrap) by (intros; apply unwrap_filtered).
  destruct N as [[-> ->]|[-> |([|] & -> & ->)]]; reflexivity.
Qed.

Lemma options_plain : forall nret m args kw n, ordinary kw ->
  (m = PInt n \/ (exists b : bool, m = PBool b /\ n = if b then 1%Z else 0%Z) \/
   m = PNone /\ (nret = PNone /\ n = 1%Z \/ nret = PInt n \/ exists b : bool, nret = PBool b /\ n = if b then 1%Z else 0%Z)) ->
  f_options_remote PNone nret PNone PNone m PNone args kw =
  Submits (map unwrap args) (map (fun '(k, v) => (k, unwrap v)) kw) n
    (if Z.eqb n 1 then OneRef else if Z.ltb 1 n then Refs (Z.to_nat n) else NoRefs).
Proof.
  intros nret m args kw n O N. unfold f_options_remote, filter_arguments.
  destruct (ordinary_has kw Self O ltac:(intros; discriminate)) as [-> _].
  destruct (ordinary_has kw NumCpus O ltac:(intros; discriminate)) as [-> _].
  destruct (ordinary_has kw NumReturns O ltac:(intros; discriminate)) as [-> _].
  destruct (ordinary_has kw Resources O ltac:(intros; discriminate)) as [-> _].
  cbn [orb].
  set (kw' := map (fun '(k, v) => (k, filter_argument v)) kw).
  assert (O' : ordinary kw') by (apply ordinary_filtered; auto).
  unfold mpi_remote. cbn [app kwhas kwget filter unreserved fst kwname_eqb orb is_none negb].
  rewrite (ordinary_kept kw' O').
  destruct (ordinary_has kw' Self O' ltac:(intros; discriminate)) as [-> _].
  destruct (ordinary_has kw' Task O' ltac:(intros; discriminate)) as [-> _].
  unfold kw'. rewrite unwrap_values. rewrite map_map.
  rewrite (map_ext _ unwrap) by (intros; apply unwrap_filtered).
  destruct N as [-> |[([|] & -> & ->)|[-> [[-> ->]|[-> |([|] & -> & ->)]]]]]; reflexivity.
Qed.

Lemma reservations_refused : forall cpus nret res args kw, ordinary kw -> cpus <> PNone \/ res <> PNone ->
  f_remote cpus nret res args kw = CallNotImplemented.
Proof.
  intros cpus nret res args kw O N. unfold f_remote, filter_arguments.
  set (kw' := map (fun '(k, v) => (k, filter_argument v)) kw).
  assert (O' : ordinary kw') by (apply ordinary_filtered; auto).
  unfold mpi_remote.
  destruct (ordinary_has kw' Self O' ltac:(intros; discriminate)) as [-> _].
  destruct (ordinary_has kw' NumCpus O' ltac:(intros; discriminate)) as [_ ->].
  destruct (ordinary_has kw' Resources O' ltac:(intros; discriminate)) as [_ ->].
  simpl. destruct N as [N|N].
  - destruct cpus; try contradiction; reflexivity.
  - destruct cpus; simpl; auto; destruct res; try contradiction; reflexivity.
Qed.

(** ** put starts a runtime once *)
Lemma backend_in b l : existsb (backend_eqb b) l = true <-> In b l.
Proof.
  rewrite existsb_exists. split.
  - intros (x & I & E). assert (x = b) by (destruct b, x; simpl in E; congruence). subst. auto.
  - intros I. exists b. split; auto. destruct b; reflexivity.
Qed.

Lemma prun_snoc os o p q l : prun p os = (q, l) -> prun p (os ++ [o]) = (let (r, a) := pstep q o in (r, l ++ [a])).
Proof.
  revert p q l. induction os as [|x os IH]; intros p q l H; simpl in *.
  - apply pair_inj in H as [<- <-]. destruct (pstep p o). reflexivity.
  - destruct (pstep p x) as [p1 a1]. destruct (prun p1 os) as [p2 l2] eqn:E. apply pair_inj in H as [<- <-].
    rewrite (IH _ _ _ E). destruct (pstep p2 o). reflexivity.
Qed.

Lemma put_starts : forall os cfg main p q l a, prun proc_init os = (p, l) -> prun proc_init (os ++ [Put cfg main]) = (q, l ++ [a]) ->
  match a with
  | CalledOn b => (In b (started p) -> started q = started p) /\ (~ In b (started p) -> started q = started p ++ [cfg])
  | _ => cfg = Dask /\ main = false /\ started q = started p
  end.
Proof.
  intros os cfg main p q l a P Q. rewrite (prun_snoc _ _ _ _ _ P) in Q. destruct (pstep p (Put cfg main)) as [q0 a0] eqn:E.
  apply pair_inj in Q as [Q1 Q2]. apply app_inj_tail in Q2 as [_ Q2]. subst q0 a0. clear P. destruct p as [[b|] st]; cbn -[existsb backend_eqb] in E.
  - assert (B := backend_in b st). destruct (existsb (backend_eqb b) st).
    + apply pair_inj in E as [<- <-]. simpl. tauto.
    + destruct cfg, main; apply pair_inj in E as [<- <-]; simpl; repeat split; auto; intros I; apply B in I; discriminate.
  - assert (B := backend_in cfg st). destruct (existsb (backend_eqb cfg) st).
    + apply pair_inj in E as [<- <-]. simpl. tauto.
    + destruct cfg, main; apply pair_inj in E as [<- <-]; simpl; repeat split; auto; intros I; apply B in I; discriminate.
Qed.

Lemma kwhas_in kw k v : In (k, v) kw -> kwhas kw k = true.
Proof. induction kw as [|[k' v'] r IH]; simpl; [tauto|]. intros [E|I]; [injection E as -> ->|rewrite IH by auto; apply orb_true_r]. destruct k; simpl; rewrite ?Nat.eqb_refl; reflexivity. Qed.

Lemma options_clash cpus nret res c n r args kw k v :
  k = Self \/ k = NumCpus \/ k = NumReturns \/ k = Resources -> In (k, v) kw ->
  f_options_remote cpus nret res c n r args kw = CallTypeError.
Proof.
  intros K I. apply kwhas_in in I. unfold f_options_remote. destruct (kwhas kw Self) eqn:S; auto.
  destruct K as [-> |[-> |[-> | ->]]]; [congruence| | |]; rewrite I, ?orb_true_r; reflexivity.
Qed.
