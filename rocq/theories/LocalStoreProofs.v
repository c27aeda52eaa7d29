(** The local store behaves as if there were no objects, only data IDs. *)
From Verif Require Import Lib ShmModel ShmRaceProofs ValModel LocalStoreModel LocalStoreSpec.

Section Objs.
Variable objs : list (nat * dataid).
Hypothesis addrs : NoDup (map fst objs).

Lemma key_in a d : key_of objs a = Some d <-> In (a, d) objs.
Proof using addrs.
  unfold key_of. split.
  - destruct (find _ objs) as [[a' d']|] eqn:F; [|discriminate]. intros E. apply find_some in F as [I F]. apply Nat.eqb_eq in F. simpl in E, F. apply Some_inj in E. subst. exact I.
  - revert addrs. induction objs as [|[a' d'] l IH]; intros N I; [destruct I|]. simpl. simpl in N. inversion N; subst.
    destruct (Nat.eqb a' a) eqn:E.
    + apply Nat.eqb_eq in E as ->. destruct I as [I|I]; [apply pair_inj in I as [_ ->]; reflexivity|]. exfalso. apply H1. apply in_map_iff. exists (a, d). auto.
    + destruct I as [I|I]; [apply pair_inj in I as [-> _]; rewrite Nat.eqb_refl in E; discriminate|]. auto.
Qed.

Lemma is_key_in d a : is_key objs d a = true <-> In (a, d) objs.
Proof using addrs.
  unfold is_key. destruct (key_of objs a) as [d'|] eqn:K.
  - rewrite did_eqb_eq. split; [intros ->; apply key_in; auto|]. intros I. apply key_in in I. congruence.
  - split; [discriminate|]. intros I. apply key_in in I. congruence.
Qed.

Hypothesis keys : NoDup (map snd objs).

Lemma key_one d a a' : In (a, d) objs -> In (a', d) objs -> a = a'.
Proof using keys.
  revert keys. clear addrs. induction objs as [|[b e] l IH]; intros N I J; [destruct I|]. simpl in N. inversion N; subst.
  destruct I as [I|I], J as [J|J]; auto; [congruence| |]; exfalso; apply H1; apply in_map_iff.
  - apply pair_inj in I as [-> ->]. exists (a', d). auto.
  - apply pair_inj in J as [-> ->]. exists (a, d). auto.
Qed.

End Objs.

(** m holds items of live objects only, and says f. *)
Definition wrel {A} (objs : list (nat * dataid)) (m : wmap A) (f : dmap A) : Prop :=
  (forall a x, In (a, x) m -> exists d, In (a, d) objs) /\ forall d, wget objs m d = f d.

Lemma find_ext_in {A} (p q : A -> bool) l : (forall x, In x l -> p x = q x) -> find p l = find q l.
Proof. induction l as [|x l IH]; intros E; auto. simpl. rewrite (E x) by (simpl; auto). destruct (q x); auto. apply IH. intros; apply E; simpl; auto. Qed.

Lemma find_filter {A} (p q : A -> bool) l : find p (filter q l) = find (fun x => q x && p x) l.
Proof. induction l as [|x l IH]; auto. simpl. destruct (q x) eqn:Q; simpl; [destruct (p x); auto|auto]. Qed.

Lemma find_none_all {A} (p : A -> bool) l : (forall x, In x l -> p x = false) -> find p l = None.
Proof. induction l as [|x l IH]; intros E; auto. simpl. rewrite E by (simpl; auto). apply IH. intros; apply E; simpl; auto. Qed.

Lemma find_map {A B} (p : B -> bool) (f : A -> B) l : find p (map f l) = option_map f (find (fun x => p (f x)) l).
Proof. induction l as [|x l IH]; auto. simpl. destruct (p (f x)); auto. Qed.

Lemma find_app' {A} (p : A -> bool) l x : find p (l ++ [x]) = match find p l with Some y => Some y | None => if p x then Some x else None end.
Proof. induction l as [|y l IH]; simpl; auto. destruct (p y); auto. Qed.

Lemma dput_get {A} (f : dmap A) d x d' : dput f d x d' = if did_eqb d d' then Some x else f d'.
Proof. reflexivity. Qed.

Lemma wput_rel {A} objs (m : wmap A) f a d x : NoDup (map fst objs) -> wrel objs m f -> In (a, d) objs -> wrel objs (wput objs m a x) (dput f d x).
Proof.
  intros N [W G] I. unfold wput. assert (K := proj2 (key_in objs N a d) I). rewrite K. destruct (existsb _ m) eqn:E.
  - split.
    + intros a' x' J. apply in_map_iff in J as ([b y] & E' & J). simpl in E'. destruct (is_key objs d b); [apply pair_inj in E' as [<- _]|apply pair_inj in E' as [<- _]]; eauto.
    + intros d'. unfold wget. rewrite find_map. rewrite (find_ext_in _ (fun x => is_key objs d' (fst x))) by (intros y _; destruct (is_key objs d (fst y)); reflexivity).
      rewrite dput_get. specialize (G d'). unfold wget in G. destruct (find (fun y => is_key objs d' (fst y)) m) as [[b y]|] eqn:F; simpl.
      * apply find_some in F as [J F]. simpl in F. destruct (did_eqb d d') eqn:D.
        -- apply did_eqb_eq in D as <-. rewrite F. reflexivity.
        -- destruct (is_key objs d b) eqn:F'; [|exact G]. exfalso. apply is_key_in in F, F'; auto. apply key_in in F, F'; auto. apply did_eqb_neq in D. congruence.
      * destruct (did_eqb d d') eqn:D; [|exact G]. apply did_eqb_eq in D as <-. exfalso. apply existsb_exists in E as (y & J & E).
        assert (X := find_none _ _ F _ J). congruence.
  - split.
    + intros a' x' J. apply in_app_or in J as [J|[J|[]]]; [eauto|]. apply pair_inj in J as [<- _]. eauto.
    + intros d'. unfold wget. rewrite find_app'. rewrite dput_get. specialize (G d'). unfold wget in G. simpl.
      destruct (find (fun y => is_key objs d' (fst y)) m) as [y|] eqn:F.
      * destruct (did_eqb d d') eqn:D; auto. apply did_eqb_eq in D as <-. exfalso. apply find_some in F as [J F].
        assert (X : existsb (fun y => is_key objs d (fst y)) m = true) by (apply existsb_exists; eauto). congruence.
      * unfold is_key. rewrite K. destruct (did_eqb d d'); auto.
Qed.

Lemma key_filter objs alive a : key_of (filter (fun o : nat * dataid => alive (fst o)) objs) a = if alive a then key_of objs a else None.
Proof.
  unfold key_of. rewrite find_filter. destruct (alive a) eqn:E.
  - rewrite (find_ext_in _ (fun x => Nat.eqb (fst x) a)); auto. intros x _. destruct (Nat.eqb (fst x) a) eqn:F; [apply Nat.eqb_eq in F; rewrite F, E; auto|apply andb_false_r].
  - rewrite find_none_all; auto. intros x _. destruct (Nat.eqb (fst x) a) eqn:F; [apply Nat.eqb_eq in F; rewrite F, E; auto|apply andb_false_r].
Qed.

Lemma is_key_filter objs alive d a : is_key (filter (fun o : nat * dataid => alive (fst o)) objs) d a = alive a && is_key objs d a.
Proof. unfold is_key. rewrite key_filter. destruct (alive a); auto. Qed.

(** Dead objects take their items with them. *)
Lemma wsweep_rel {A} objs (m : wmap A) f alive (still : dataid -> bool) : NoDup (map fst objs) -> NoDup (map snd objs) -> wrel objs m f ->
  (forall a d, In (a, d) objs -> alive a = still d) ->
  wrel (filter (fun o => alive (fst o)) objs) (wsweep alive m) (fun d => if still d then f d else None).
Proof.
  intros N N' [W G] S. split.
  - intros a x I. apply filter_In in I as [I L]. destruct (W a x I) as (d & J). exists d. apply filter_In. auto.
  - intros d. unfold wget, wsweep. rewrite find_filter, (find_ext_in _ (fun x => alive (fst x) && is_key objs d (fst x))).
    2:{ intros x _. rewrite is_key_filter. destruct (alive (fst x)); auto. }
    destruct (still d) eqn:E.
    + rewrite (find_ext_in _ (fun x => is_key objs d (fst x))); [apply G|]. intros [a x] I. simpl. destruct (is_key objs d a) eqn:K; [|apply andb_false_r].
      apply is_key_in in K; auto. rewrite (S a d K), E. auto.
    + rewrite find_none_all; auto. intros [a x] I. simpl. destruct (is_key objs d a) eqn:K; [|apply andb_false_r].
      apply is_key_in in K; auto. rewrite (S a d K), E. auto.
Qed.

Record Rel (s : lst) (t : sst) : Prop := {
  r_addrs : NoDup (map fst (l_objs s));
  r_keys : NoDup (map snd (l_objs s));
  r_next : forall a d, In (a, d) (l_objs s) -> a < l_next s;
  r_vars : Forall2 (fun a d => In (a, d) (l_objs s)) (l_vars s) (s_vars t);
  r_kept : Forall2 (fun a d => In (a, d) (l_objs s)) (l_ids s) (s_kept t);
  r_data : wrel (l_objs s) (l_data s) (s_data t);
  r_owner : wrel (l_objs s) (l_owner s) (s_owner t);
  r_sent : wrel (l_objs s) (l_sent s) (s_sent t);
  r_ser : wrel (l_objs s) (l_ser s) (s_ser t)
}.

Lemma rel_init : Rel linit sinit.
Proof. split; simpl; try constructor; auto; try (intros ? ? []). Qed.

Lemma nodup_filter_map {A B} (f : A -> B) p l : NoDup (map f l) -> NoDup (map f (filter p l)).
Proof.
  induction l as [|x l IH]; simpl; intros N; auto. inversion N; subst. destruct (p x); auto. simpl. constructor; auto.
  intros I. apply H1. apply in_map_iff in I as (y & E & I). apply filter_In in I as [I _]. apply in_map_iff. eauto.
Qed.

Lemma forall2_in_l {A B} (R : A -> B -> Prop) l m a : Forall2 R l m -> In a l -> exists b, In b m /\ R a b.
Proof. induction 1; intros I; [destruct I|]. destruct I as [<-|I]; [eexists; simpl; eauto|]. destruct (IHForall2 I) as (b & J & K). exists b. simpl. auto. Qed.

Lemma forall2_in_r {A B} (R : A -> B -> Prop) l m b : Forall2 R l m -> In b m -> exists a, In a l /\ R a b.
Proof. induction 1; intros I; [destruct I|]. destruct I as [<-|I]; [eexists; simpl; eauto|]. destruct (IHForall2 I) as (a & J & K). exists a. simpl. auto. Qed.

Lemma forall2_mono {A B} (R R' : A -> B -> Prop) l m : (forall a b, In a l -> R a b -> R' a b) -> Forall2 R l m -> Forall2 R' l m.
Proof. intros E F. induction F; constructor; [apply E; simpl; auto|apply IHF; intros; apply E; simpl; auto]. Qed.

Lemma mem_in d l : mem d l = true <-> In d l.
Proof. unfold mem. rewrite existsb_exists. split; [intros (x & I & E); apply did_eqb_eq in E as ->; auto|intros I; exists d; split; auto; apply did_eqb_refl]. Qed.

Lemma natmem_in a l : existsb (Nat.eqb a) l = true <-> In a l.
Proof. rewrite existsb_exists. split; [intros (x & I & E); apply Nat.eqb_eq in E as ->; auto|intros I; exists a; split; auto; apply Nat.eqb_refl]. Qed.

Lemma sweep_rel s t vars kept : NoDup (map fst (l_objs s)) -> NoDup (map snd (l_objs s)) -> (forall a d, In (a, d) (l_objs s) -> a < l_next s) ->
  Forall2 (fun a d => In (a, d) (l_objs s)) (l_vars s) vars -> Forall2 (fun a d => In (a, d) (l_objs s)) (l_ids s) kept ->
  wrel (l_objs s) (l_data s) (s_data t) -> wrel (l_objs s) (l_owner s) (s_owner t) -> wrel (l_objs s) (l_sent s) (s_sent t) -> wrel (l_objs s) (l_ser s) (s_ser t) ->
  Rel (sweep s) (remember vars kept t).
Proof.
  intros A K N V I D O S E. unfold sweep. set (alive := fun a => existsb (Nat.eqb a) (l_vars s ++ l_ids s)).
  assert (F := Forall2_app V I).
  assert (L : forall a d, In (a, d) (l_objs s) -> alive a = mem d (vars ++ kept)).
  { intros a d J. destruct (mem d (vars ++ kept)) eqn:M.
    - apply natmem_in. apply mem_in in M. apply (forall2_in_r _ _ _ _ F) in M as (b & M & X). rewrite (key_one _ K d a b); auto.
    - destruct (alive a) eqn:X; auto. apply natmem_in in X. apply (forall2_in_l _ _ _ _ F) in X as (b & X & Y). apply key_in in J, Y; auto.
      assert (d = b) by congruence. subst b. apply mem_in in X. congruence. }
  split; cbn [l_objs l_next l_vars l_ids l_data l_owner l_sent l_ser remember s_vars s_kept s_data s_owner s_sent s_ser].
  - apply nodup_filter_map; auto.
  - apply nodup_filter_map; auto.
  - intros a d J. apply filter_In in J as [J _]. eauto.
  - eapply forall2_mono; [|exact V]. intros a d J X. apply filter_In. split; auto. apply natmem_in, in_or_app. auto.
  - eapply forall2_mono; [|exact I]. intros a d J X. apply filter_In. split; auto. apply natmem_in, in_or_app. auto.
  - apply (wsweep_rel _ _ _ alive (fun d => mem d (vars ++ kept))); auto.
  - apply (wsweep_rel _ _ _ alive (fun d => mem d (vars ++ kept))); auto.
  - apply (wsweep_rel _ _ _ alive (fun d => mem d (vars ++ kept))); auto.
  - apply (wsweep_rel _ _ _ alive (fun d => mem d (vars ++ kept))); auto.
Qed.

Lemma forall2_nth {A B} (R : A -> B -> Prop) l m k : Forall2 R l m ->
  match nth_error l k, nth_error m k with Some a, Some b => R a b | None, None => True | _, _ => False end.
Proof. intros F. revert k. induction F; intros [|k]; simpl; auto. apply IHF. Qed.

Lemma forall2_remove {A B} (R : A -> B -> Prop) l m : Forall2 R l m -> forall k, Forall2 R (firstn k l ++ skipn (S k) l) (firstn k m ++ skipn (S k) m).
Proof.
  induction 1; intros k.
  - destruct k; simpl; constructor.
  - destruct k as [|k]; simpl; auto. constructor; auto. specialize (IHForall2 k). destruct l, l'; simpl in *; auto.
Qed.

Section Store.
Variable self : rank.
Variable loads : nat -> val.

Lemma keep_rel s t a d : Rel s t -> In (a, d) (l_objs s) -> Forall2 (fun a d => In (a, d) (l_objs s)) (keep_id self s a) (keep self t d).
Proof.
  intros R I. unfold keep_id, keep. assert (N := r_addrs _ _ R). rewrite (proj2 (key_in _ N a d) I).
  assert (E : existsb (is_key (l_objs s) d) (l_ids s) = mem d (s_kept t)).
  { destruct (mem d (s_kept t)) eqn:M.
    - apply mem_in in M. apply (forall2_in_r _ _ _ _ (r_kept _ _ R)) in M as (b & M & X). apply existsb_exists. exists b. split; auto. apply is_key_in; auto.
    - destruct (existsb _ (l_ids s)) eqn:X; auto. apply existsb_exists in X as (b & X & Y). apply (forall2_in_l _ _ _ _ (r_kept _ _ R)) in X as (e & X & Z).
      apply is_key_in in Y; auto. apply key_in in Y, Z; auto. assert (d = e) by congruence. subst e. apply mem_in in X. congruence. }
  rewrite E. destruct (_ && _); [|apply (r_kept _ _ R)]. apply Forall2_app; [apply (r_kept _ _ R)|auto].
Qed.

Lemma put_rel s t a d v : Rel s t -> In (a, d) (l_objs s) -> Rel (put_data self s a v) (store_data self t d v).
Proof. intros R I. assert (K := keep_rel _ _ _ _ R I). destruct R. split; auto. apply wput_rel; auto. Qed.

Lemma nodup_snoc {A} (l : list A) x : NoDup l -> ~ In x l -> NoDup (l ++ [x]).
Proof.
  induction l as [|y l IH]; intros N I; simpl; [constructor; auto|]. inversion N; subst. constructor.
  - intros J. apply in_app_or in J as [J|[J|[]]]; [auto|]. apply I. simpl. auto.
  - apply IH; auto. intros J. apply I. simpl. auto.
Qed.

Lemma grow_rel {A} objs (m : wmap A) f a d : NoDup (map fst (objs ++ [(a, d)])) -> wrel objs m f -> NoDup (map fst objs) -> wrel (objs ++ [(a, d)]) m f.
Proof.
  intros N' [W G] N. split.
  - intros b x I. destruct (W b x I) as (e & J). exists e. apply in_or_app. auto.
  - intros e. rewrite <- G. unfold wget. rewrite (find_ext_in _ (fun x => is_key objs e (fst x))); auto. intros [b x] I. simpl. destruct (W b x I) as (c & J).
    unfold is_key. rewrite (proj2 (key_in _ N b c) J), (proj2 (key_in _ N' b c)); auto. apply in_or_app. auto.
Qed.

Lemma new_rel s t d : Rel s t -> Rel (new_id s d)
  {| s_vars := s_vars t ++ [d]; s_kept := s_kept t; s_data := s_data t; s_owner := s_owner t; s_sent := s_sent t; s_ser := s_ser t |}.
Proof.
  intros R. unfold new_id. destruct (find (fun o => did_eqb (snd o) d) (l_objs s)) as [[a d']|] eqn:F.
  - apply find_some in F as [I F]. simpl in F. apply did_eqb_eq in F as ->. destruct R. split; auto. simpl. apply Forall2_app; auto.
  - assert (New : ~ In d (map snd (l_objs s))).
    { intros I. apply in_map_iff in I as ([a e] & E & I). simpl in E. subst e. assert (X := find_none _ _ F _ I). simpl in X. rewrite did_eqb_refl in X. discriminate. }
    assert (Old : ~ In (l_next s) (map fst (l_objs s))). { intros I. apply in_map_iff in I as ([a e] & E & I). simpl in E. subst a. apply (r_next _ _ R) in I. lia. }
    destruct R as [A K N V Kp D O S E].
    assert (A' : NoDup (map fst (l_objs s ++ [(l_next s, d)]))) by (rewrite map_app; apply nodup_snoc; auto).
    assert (In' : forall a b, In (a, b) (l_objs s) -> In (a, b) (l_objs s ++ [(l_next s, d)])) by (intros; apply in_or_app; auto).
    split; cbn [l_objs l_next l_vars l_ids l_data l_owner l_sent l_ser s_vars s_kept s_data s_owner s_sent s_ser]; auto; try (apply grow_rel; auto; fail).
    + rewrite map_app. apply nodup_snoc; auto.
    + intros a e I. apply in_app_or in I as [I|[I|[]]]; [apply N in I; lia|]. apply pair_inj in I as [<- _]. lia.
    + apply Forall2_app; [eapply forall2_mono; [|exact V]; auto|]. constructor; auto. apply in_or_app. simpl. auto.
    + eapply forall2_mono; [|exact Kp]; auto.
Qed.

Lemma step_rel s t o : Rel s t -> Rel (lstep self loads s o) (sstep self loads t o).
Proof.
  intros R. assert (At : forall k, match nth_error (l_vars s) k, nth_error (s_vars t) k with Some a, Some d => In (a, d) (l_objs s) | None, None => True | _, _ => False end).
  { intros k. apply forall2_nth, (r_vars _ _ R). }
  destruct o as [d|k|k v|k r|k b|k r|k|ds]; simpl; unfold at_var; try (specialize (At k); destruct (nth_error (l_vars s) k) as [a|], (nth_error (s_vars t) k) as [d|]; try (destruct At; fail)); auto.
  - apply new_rel; auto.
  - destruct R. unfold drop_var. apply sweep_rel; auto. apply forall2_remove; auto.
  - destruct R. unfold drop_var. apply sweep_rel; auto. apply forall2_remove; auto.
  - apply put_rel; auto.
  - assert (K := keep_rel _ _ _ _ R At). destruct R. split; auto. apply wput_rel; auto.
  - assert (K := keep_rel _ _ _ _ R At). destruct R. split; auto. apply wput_rel; auto.
  - assert (N := r_addrs _ _ R). unfold put_sent. rewrite (proj2 (key_in _ N a d) At), (proj2 (r_sent _ _ R)). destruct R. split; auto.
    cbn [l_objs l_sent s_sent]. destruct (s_sent t d); apply wput_rel; auto.
  - assert (N := r_addrs _ _ R). unfold fetch. rewrite (proj2 (key_in _ N a d) At), (proj2 (r_data _ _ R)), (proj2 (r_ser _ _ R)).
    destruct (s_data t d), (s_ser t d); auto. apply put_rel; auto.
  - unfold clear_ids. assert (N := r_addrs _ _ R). destruct R as [A K Nx V Kp D O S E]. apply sweep_rel; auto. cbn [l_objs l_ids]. clear - Kp N.
    induction Kp as [|a d l m X Y IH]; simpl; auto. assert (Eq : existsb (fun e => is_key (l_objs s) e a) ds = mem d ds).
    { destruct (mem d ds) eqn:M.
      - apply mem_in in M. apply existsb_exists. exists d. split; auto. apply is_key_in; auto.
      - destruct (existsb _ ds) eqn:Z; auto. apply existsb_exists in Z as (e & Z & W). apply is_key_in in W; auto. apply key_in in W, X; auto.
        assert (d = e) by congruence. subst e. apply mem_in in Z. congruence. }
    rewrite Eq. destruct (mem d ds); simpl; auto.
Qed.

Theorem run_rel ops : Rel (lrun self loads ops) (srun self loads ops).
Proof.
  unfold lrun, srun. generalize rel_init. generalize linit sinit. induction ops as [|o ops IH]; intros s t R; simpl; auto. apply IH, step_rel, R.
Qed.

Lemma rel_var s t k : Rel s t -> var_key s k = nth_error (s_vars t) k.
Proof.
  intros R. unfold var_key. assert (X := forall2_nth _ _ _ k (r_vars _ _ R)). destruct (nth_error (l_vars s) k), (nth_error (s_vars t) k); try tauto.
  apply key_in; auto. apply (r_addrs _ _ R).
Qed.

(** Objects do not matter. *)
Theorem as_ids ops d : let s := lrun self loads ops in let t := srun self loads ops in
  data_of s d = s_data t d /\ owner_of s d = s_owner t d /\ serial_of s d = s_ser t d /\
  (forall r, sent_to s d r = match s_sent t d with Some l => existsb (Nat.eqb r) l | None => false end) /\
  forall k, var_key s k = nth_error (s_vars t) k.
Proof.
  intros s t. assert (R := run_rel ops). fold s t in R. unfold data_of, owner_of, serial_of, sent_to.
  rewrite (proj2 (r_data _ _ R)), (proj2 (r_owner _ _ R)), (proj2 (r_ser _ _ R)), (proj2 (r_sent _ _ R)). do 4 (split; [reflexivity|]).
  intros k. apply rel_var; auto.
Qed.

(** ** What is kept *)

Lemma srun_app ops more : srun self loads (ops ++ more) = fold_left (sstep self loads) more (srun self loads ops).
Proof. apply fold_left_app. Qed.

Lemma srun_snoc ops o : srun self loads (ops ++ [o]) = sstep self loads (srun self loads ops) o.
Proof. rewrite srun_app. reflexivity. Qed.

Definition has_ref (t : sst) (d : dataid) : Prop := In d (s_vars t ++ s_kept t).

Lemma var_in ops k d : var_key (lrun self loads ops) k = Some d -> In d (s_vars (srun self loads ops)).
Proof. intros V. destruct (as_ids ops d) as (_ & _ & _ & _ & X). rewrite X in V. eapply nth_error_In; eauto. Qed.

Lemma keep_in t d : fst d <> self -> In d (keep self t d).
Proof.
  intros F. unfold keep. apply Nat.eqb_neq in F. rewrite F. simpl. destruct (mem d (s_kept t)) eqn:M; simpl; [apply mem_in; auto|apply in_or_app; simpl; auto].
Qed.

Lemma keep_more t d e : In d (s_kept t) -> In d (keep self t e).
Proof. intros I. unfold keep. destruct (_ && _); auto. apply in_or_app. auto. Qed.

Lemma kept_step t o d : In d (s_kept t) -> (forall ds, o = LClear ds -> ~ In d ds) -> In d (s_kept (sstep self loads t o)).
Proof.
  intros I C. destruct o as [e|k|k v|k r|k b|k r|k|ds]; simpl; auto; try (destruct (nth_error (s_vars t) k) as [e|]; simpl; auto using keep_more; fail).
  - destruct (nth_error (s_vars t) k) as [e|]; auto. destruct (s_data t e), (s_ser t e); simpl; auto using keep_more.
  - apply filter_In. split; auto. apply negb_true_iff. destruct (mem d ds) eqn:M; auto. apply mem_in in M. exfalso. eapply C; eauto.
Qed.

(** In every state on the way there is a reference or it is kept. *)
Lemma stays_all ops d : (fst d <> self -> In d (s_kept (srun self loads ops))) -> forall more, stays self loads ops more d ->
  forall pre suf, more = pre ++ suf -> has_ref (srun self loads (ops ++ pre)) d.
Proof.
  intros K more [St|[F C]] pre suf E.
  - destruct (St pre suf E) as (k & V). apply in_or_app. left. eapply var_in; eauto.
  - apply in_or_app. right. assert (Cp : forall ds, In (LClear ds) pre -> ~ In d ds) by (intros; apply C; rewrite E; apply in_or_app; auto). clear E suf.
    induction pre as [|o pre IH] using rev_ind; [rewrite app_nil_r; auto|]. rewrite app_assoc, srun_snoc. apply kept_step.
    + apply IH. intros ds I. apply Cp, in_or_app. auto.
    + intros ds ->. apply Cp, in_or_app. simpl. auto.
Qed.

Section Fact.
Context {A : Type}.
Variable f : sst -> dmap A.
Variable d : dataid.
Variable x : A.
Variable writes : sst -> lop -> Prop.
Hypothesis f_step : forall t o, f t d = Some x -> has_ref (sstep self loads t o) d -> ~ writes t o -> f (sstep self loads t o) d = Some x.

Lemma fact_stays ops : f (srun self loads ops) d = Some x -> forall more, (forall pre suf, more = pre ++ suf -> has_ref (srun self loads (ops ++ pre)) d) ->
  (forall pre o suf, more = pre ++ o :: suf -> ~ writes (srun self loads (ops ++ pre)) o) -> f (srun self loads (ops ++ more)) d = Some x.
Proof using f_step.
  intros F. induction more as [|o more IH] using rev_ind; intros R W; [rewrite app_nil_r; auto|]. rewrite app_assoc, srun_snoc. apply f_step.
  - apply IH.
    + intros pre suf ->. apply (R pre (suf ++ [o])). rewrite app_assoc. reflexivity.
    + intros pre o' suf ->. apply (W pre o' (suf ++ [o])). rewrite <- app_assoc. reflexivity.
  - rewrite <- srun_snoc, <- app_assoc. apply (R (more ++ [o]) []). rewrite app_nil_r. reflexivity.
  - apply (W more o []). reflexivity.
Qed.
End Fact.

Definition writes_data (d : dataid) (t : sst) (o : lop) : Prop := match o with LPut k _ => nth_error (s_vars t) k = Some d | _ => False end.
Definition writes_owner (d : dataid) (t : sst) (o : lop) : Prop := match o with LOwner k _ => nth_error (s_vars t) k = Some d | _ => False end.
Definition writes_ser (d : dataid) (t : sst) (o : lop) : Prop := match o with LSerial k _ => nth_error (s_vars t) k = Some d | _ => False end.

Lemma only_has {A} vars kept (g : dmap A) d : In d (vars ++ kept) -> only vars kept g d = g d.
Proof. intros I. unfold only. apply mem_in in I. rewrite I. reflexivity. Qed.

Lemma dput_other {A} (g : dmap A) e y d : e <> d -> dput g e y d = g d.
Proof. intros N. rewrite dput_get. apply did_eqb_neq in N. rewrite N. reflexivity. Qed.

Ltac at_k t k e := destruct (nth_error (s_vars t) k) as [e|] eqn:?Nk; simpl; auto.

Lemma data_step d v t o : s_data t d = Some v -> has_ref (sstep self loads t o) d -> ~ writes_data d t o -> s_data (sstep self loads t o) d = Some v.
Proof.
  intros F R W. destruct o as [e|k|k v'|k r|k b|k r|k|ds]; simpl in *; auto; try (at_k t k e; fail).
  - rewrite only_has; auto.
  - at_k t k e. rewrite dput_other; auto. intros ->. auto.
  - at_k t k e. destruct (s_data t e) eqn:D; auto. destruct (s_ser t e); auto. simpl. rewrite dput_other; auto. congruence.
  - rewrite only_has; auto.
Qed.

Lemma owner_step d v t o : s_owner t d = Some v -> has_ref (sstep self loads t o) d -> ~ writes_owner d t o -> s_owner (sstep self loads t o) d = Some v.
Proof.
  intros F R W. destruct o as [e|k|k v'|k r|k b|k r|k|ds]; simpl in *; auto; try (at_k t k e; fail).
  - rewrite only_has; auto.
  - at_k t k e. rewrite dput_other; auto. intros ->. auto.
  - at_k t k e. destruct (s_data t e) eqn:D; auto. destruct (s_ser t e); auto.
  - rewrite only_has; auto.
Qed.

Lemma ser_step d v t o : s_ser t d = Some v -> has_ref (sstep self loads t o) d -> ~ writes_ser d t o -> s_ser (sstep self loads t o) d = Some v.
Proof.
  intros F R W. destruct o as [e|k|k v'|k r|k b|k r|k|ds]; simpl in *; auto; try (at_k t k e; fail).
  - rewrite only_has; auto.
  - at_k t k e. rewrite dput_other; auto. intros ->. auto.
  - at_k t k e. destruct (s_data t e) eqn:D; auto. destruct (s_ser t e); auto.
  - rewrite only_has; auto.
Qed.

Lemma key_nth ops k d : var_key (lrun self loads ops) k = Some d <-> nth_error (s_vars (srun self loads ops)) k = Some d.
Proof. destruct (as_ids ops d) as (_ & _ & _ & _ & X). rewrite X. tauto. Qed.

Theorem value_kept ops k d v more : var_key (lrun self loads ops) k = Some d -> stays self loads (ops ++ [LPut k v]) more d ->
  (forall pre k' v' suf, more = pre ++ LPut k' v' :: suf -> var_key (lrun self loads (ops ++ [LPut k v] ++ pre)) k' <> Some d) ->
  data_of (lrun self loads (ops ++ [LPut k v] ++ more)) d = Some v.
Proof.
  intros V St W. apply key_nth in V. destruct (as_ids (ops ++ [LPut k v] ++ more) d) as (-> & _). rewrite app_assoc.
  apply (fact_stays s_data d v (writes_data d) (data_step d v)).
  - rewrite srun_snoc. simpl. rewrite V. simpl. rewrite dput_get, did_eqb_refl. reflexivity.
  - apply stays_all; auto. intros F. rewrite srun_snoc. simpl. rewrite V. simpl. apply keep_in; auto.
  - intros pre o suf E Wr. destruct o; simpl in Wr; try contradiction. rewrite <- app_assoc in Wr. apply (W pre k0 v0 suf E), key_nth, Wr.
Qed.

Theorem owner_kept ops k d v more : var_key (lrun self loads ops) k = Some d -> stays self loads (ops ++ [LOwner k v]) more d ->
  (forall pre k' v' suf, more = pre ++ LOwner k' v' :: suf -> var_key (lrun self loads (ops ++ [LOwner k v] ++ pre)) k' <> Some d) ->
  owner_of (lrun self loads (ops ++ [LOwner k v] ++ more)) d = Some v.
Proof.
  intros V St W. apply key_nth in V. destruct (as_ids (ops ++ [LOwner k v] ++ more) d) as (_ & -> & _). rewrite app_assoc.
  apply (fact_stays s_owner d v (writes_owner d) (owner_step d v)).
  - rewrite srun_snoc. simpl. rewrite V. simpl. rewrite dput_get, did_eqb_refl. reflexivity.
  - apply stays_all; auto. intros F. rewrite srun_snoc. simpl. rewrite V. simpl. apply keep_in; auto.
  - intros pre o suf E Wr. destruct o; simpl in Wr; try contradiction. rewrite <- app_assoc in Wr. apply (W pre k0 r suf E), key_nth, Wr.
Qed.

Theorem serial_kept ops k d v more : var_key (lrun self loads ops) k = Some d -> stays self loads (ops ++ [LSerial k v]) more d ->
  (forall pre k' v' suf, more = pre ++ LSerial k' v' :: suf -> var_key (lrun self loads (ops ++ [LSerial k v] ++ pre)) k' <> Some d) ->
  serial_of (lrun self loads (ops ++ [LSerial k v] ++ more)) d = Some v.
Proof.
  intros V St W. apply key_nth in V. destruct (as_ids (ops ++ [LSerial k v] ++ more) d) as (_ & _ & -> & _). rewrite app_assoc.
  apply (fact_stays s_ser d v (writes_ser d) (ser_step d v)).
  - rewrite srun_snoc. simpl. rewrite V. simpl. rewrite dput_get, did_eqb_refl. reflexivity.
  - apply stays_all; auto. intros F. rewrite srun_snoc. simpl. rewrite V. simpl. apply keep_in; auto.
  - intros pre o suf E Wr. destruct o; simpl in Wr; try contradiction. rewrite <- app_assoc in Wr. apply (W pre k0 b suf E), key_nth, Wr.
Qed.

(** What was sent is remembered as long as there is a reference. *)
Definition told (t : sst) (d : dataid) (r : rank) : Prop := exists l, s_sent t d = Some l /\ In r l.

Lemma told_step d r t o : told t d r -> has_ref (sstep self loads t o) d -> told (sstep self loads t o) d r.
Proof.
  intros (l & F & I) R. unfold told. destruct o as [e|k|k v'|k q|k b|k q|k|ds]; simpl in *; eauto; try (at_k t k e; eauto; fail).
  - rewrite only_has; eauto.
  - at_k t k e; eauto. rewrite dput_get. destruct (did_eqb e d) eqn:E; eauto. apply did_eqb_eq in E as ->. rewrite F. eexists. split; [reflexivity|].
    destruct (existsb (Nat.eqb q) l); auto. apply in_or_app. auto.
  - at_k t k e; eauto. destruct (s_data t e); simpl; eauto. destruct (s_ser t e); simpl; eauto.
  - rewrite only_has; eauto.
Qed.

Theorem sent_kept ops k d r more : var_key (lrun self loads ops) k = Some d ->
  (forall pre suf, more = pre ++ suf -> exists k', var_key (lrun self loads (ops ++ [LSent k r] ++ pre)) k' = Some d) ->
  sent_to (lrun self loads (ops ++ [LSent k r] ++ more)) d r = true.
Proof.
  intros V St. apply key_nth in V. destruct (as_ids (ops ++ [LSent k r] ++ more) d) as (_ & _ & _ & -> & _).
  assert (T : told (srun self loads (ops ++ [LSent k r] ++ more)) d r).
  { induction more as [|o more IH] using rev_ind.
    - simpl app. rewrite srun_snoc. simpl. rewrite V. unfold told. simpl. rewrite dput_get, did_eqb_refl. eexists. split; [reflexivity|].
      destruct (s_sent _ d) as [l|]; simpl; auto. destruct (existsb (Nat.eqb r) l) eqn:E; [apply natmem_in; auto|apply in_or_app; simpl; auto].
    - rewrite 2 app_assoc, srun_snoc. apply told_step.
      + rewrite <- app_assoc. apply IH. intros pre suf ->. apply (St pre (suf ++ [o])). rewrite app_assoc. reflexivity.
      + rewrite <- srun_snoc, <- 2 app_assoc. destruct (St (more ++ [o]) []) as (k' & X); [rewrite app_nil_r; auto|]. apply in_or_app. left. eapply var_in; eauto. }
  destruct T as (l & -> & I). apply natmem_in. auto.
Qed.

(** ** What is forgotten *)

Record Held (t : sst) : Prop := {
  h_kept : forall d, In d (s_kept t) -> fst d <> self;
  h_data : forall d v, s_data t d = Some v -> has_ref t d;
  h_owner : forall d v, s_owner t d = Some v -> has_ref t d;
  h_sent : forall d v, s_sent t d = Some v -> has_ref t d;
  h_ser : forall d v, s_ser t d = Some v -> has_ref t d
}.

Lemma only_some {A} vars kept (g : dmap A) d x : only vars kept g d = Some x -> In d (vars ++ kept).
Proof. unfold only. destruct (mem d (vars ++ kept)) eqn:M; [|discriminate]. intros _. apply mem_in; auto. Qed.

Lemma keep_foreign t d e : (forall d, In d (s_kept t) -> fst d <> self) -> In e (keep self t d) -> fst e <> self.
Proof.
  intros K I. unfold keep in I. destruct (Nat.eqb (fst d) self) eqn:E; simpl in I; auto. destruct (mem d (s_kept t)); simpl in I; auto.
  apply in_app_or in I as [I|[<-|[]]]; auto. apply Nat.eqb_neq; auto.
Qed.

Lemma has_more t d e : has_ref t d -> In d (s_vars t ++ keep self t e).
Proof. intros R. apply in_app_or in R as [R|R]; apply in_or_app; [auto|right; apply keep_more; auto]. Qed.

Lemma dput_has {A} (g : dmap A) e y d x t vars kept : dput g e y d = Some x -> In e vars -> (g d = Some x -> has_ref t d) -> (has_ref t d -> In d (vars ++ kept)) -> In d (vars ++ kept).
Proof. rewrite dput_get. destruct (did_eqb e d) eqn:E; [|auto]. apply did_eqb_eq in E as ->. intros _ I _ _. apply in_or_app. auto. Qed.

Lemma held_step t o : Held t -> Held (sstep self loads t o).
Proof.
  intros H. assert (H0 := H). destruct H as [K D O S E]. assert (Hm := has_more t).
  assert (Rem : forall vars kept, incl kept (s_kept t) -> Held (remember vars kept t)).
  { intros vars kept I. split; simpl; [intros d J; apply K, I, J| | | |]; intros d x X; eapply only_some; eauto. }
  assert (St : forall e v, In e (s_vars t) -> Held (store_data self t e v)).
  { intros e v I. split; simpl; [intros d J; eapply keep_foreign; eauto|intros d x X; apply (dput_has _ _ _ _ _ t (s_vars t) (keep self t e) X); eauto|intros d x X; apply Hm; eauto|intros d x X; apply Hm; eauto|intros d x X; apply Hm; eauto]. }
  destruct o as [e|k|k v'|k q|k b|k q|k|ds]; simpl; auto; try (destruct (nth_error (s_vars t) k) as [e|] eqn:N; auto; apply nth_error_In in N).
  - assert (X : forall d, has_ref t d -> In d ((s_vars t ++ [e]) ++ s_kept t)). { intros d R. apply in_app_or in R as [R|R]; apply in_or_app; [left; apply in_or_app|]; auto. }
    split; simpl; auto; intros d x Y; apply X; eauto.
  - apply Rem, incl_refl.
  - apply St; auto.
  - split; simpl; [intros d J; eapply keep_foreign; eauto|intros d x X; apply Hm; eauto|intros d x X; apply (dput_has _ _ _ _ _ t (s_vars t) (keep self t e) X); eauto|intros d x X; apply Hm; eauto|intros d x X; apply Hm; eauto].
  - split; simpl; [intros d J; eapply keep_foreign; eauto|intros d x X; apply Hm; eauto|intros d x X; apply Hm; eauto|intros d x X; apply Hm; eauto|intros d x X; apply (dput_has _ _ _ _ _ t (s_vars t) (keep self t e) X); eauto].
  - split; simpl; auto. intros d x X. apply (dput_has _ _ _ _ _ t (s_vars t) (s_kept t) X); eauto.
  - destruct (s_data t e); auto. destruct (s_ser t e); auto.
  - apply Rem. intros d I. apply filter_In in I. tauto.
Qed.

Lemma held_run ops : Held (srun self loads ops).
Proof.
  assert (I : Held sinit) by (split; simpl; intros; try discriminate; tauto). revert I. unfold srun. generalize sinit. induction ops as [|o ops IH]; intros t H; simpl; auto.
  apply IH, held_step, H.
Qed.

Lemma not_kept_step t o d : ~ In d (s_kept t) -> (match o with LPut k _ | LOwner k _ | LSerial k _ | LFetch k => nth_error (s_vars t) k <> Some d | _ => True end) ->
  ~ In d (s_kept (sstep self loads t o)).
Proof.
  assert (Kp : forall e, e <> d -> ~ In d (s_kept t) -> ~ In d (keep self t e)).
  { intros e N K I. unfold keep in I. destruct (_ && _); auto. apply in_app_or in I as [I|[I|[]]]; congruence. }
  intros N A. destruct o as [e|k|k v'|k q|k b|k q|k|ds]; simpl; auto; try (destruct (nth_error (s_vars t) k) as [e|]; simpl; auto; apply Kp; auto; congruence).
  - destruct (nth_error (s_vars t) k) as [e|]; simpl; auto. destruct (s_data t e); auto. destruct (s_ser t e); auto. simpl. apply Kp; auto. congruence.
  - intros I. apply filter_In in I. tauto.
Qed.

Theorem gone ops d : (forall k, var_key (lrun self loads ops) k <> Some d) ->
  (fst d = self \/ exists pre ds post, ops = pre ++ LClear ds :: post /\ In d ds /\
     forall p o q, post = p ++ o :: q -> ~ stores_for self loads (pre ++ LClear ds :: p) o d) ->
  forgotten (lrun self loads ops) d.
Proof.
  intros V C. assert (H := held_run ops). assert (N : ~ has_ref (srun self loads ops) d).
  { intros R. apply in_app_or in R as [R|R].
    - apply In_nth_error in R as (k & R). apply (V k), key_nth, R.
    - destruct C as [C|(pre & ds & post & -> & I & A)]; [eapply h_kept; eauto|]. revert R. clear H V.
      induction post as [|o post IH] using rev_ind.
      + rewrite srun_snoc. simpl. intros J. apply filter_In in J as [_ J]. apply negb_true_iff in J. apply mem_in in I. congruence.
      + change (pre ++ LClear ds :: post ++ [o]) with (pre ++ (LClear ds :: post) ++ [o]). rewrite app_assoc, srun_snoc. apply not_kept_step.
        * intros J. apply IH; [|exact J]. intros p o' q ->. apply (A p o' (q ++ [o])). rewrite <- app_assoc. reflexivity.
        * specialize (A post o [] eq_refl). unfold stores_for in A. destruct o; auto; intros X; apply A, key_nth, X. }
  destruct (as_ids ops d) as (E1 & E2 & E3 & E4 & _). unfold forgotten. rewrite E1, E2, E3. split; [|split; [|split]].
  - destruct (s_data _ d) eqn:X; auto. exfalso. apply N. eapply h_data; eauto.
  - destruct (s_owner _ d) eqn:X; auto. exfalso. apply N. eapply h_owner; eauto.
  - destruct (s_ser _ d) eqn:X; auto. exfalso. apply N. eapply h_ser; eauto.
  - intros r. rewrite E4. destruct (s_sent _ d) eqn:X; auto. exfalso. apply N. eapply h_sent; eauto.
Qed.

End Store.
