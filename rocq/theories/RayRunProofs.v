(** Calls on the Ray backend. *)
From Coq Require Import Sorted.
From Verif Require Import Lib ValModel PyseqModel PyseqSpec PyseqProofs RayRunModel RayRunSpec.

Section Ray.
Variable body : nat -> list val -> kwargs -> res.
Variable cbody : nat -> list val -> kwargs -> res.
Variable mbody : nat -> val -> list val -> kwargs -> res * val.
Variable iter : val -> option (list val).
Variable wrong_number actor_died : nat.

Notation yrun := (yrun body cbody mbody iter wrong_number actor_died).
Notation ystep := (ystep body cbody mbody iter wrong_number actor_died).
Notation execute := (execute body mbody actor_died).
Notation deal := (deal iter wrong_number).
Notation item := (item_of iter).
Notation outcome := (outcome body cbody mbody item).
Notation state := (state body cbody mbody item).
Notation argument := (argument body cbody mbody item).

Lemma wrap_outs ds : outs_of (wrap ds) = ds.
Proof. destruct ds as [|a [|b l]]; reflexivity. Qed.

Lemma returned_cons o out h : returned ((o, out) :: h) = outs_of out ++ returned h.
Proof. destruct out; reflexivity. Qed.

Lemma returned_app l h : returned (l ++ h) = returned l ++ returned h.
Proof. unfold returned. apply flat_map_app. Qed.

Lemma place_none d out : ~ In d (outs_of out) -> place d out = None.
Proof.
  intros N. destruct (place d out) as [i|] eqn:E; auto. exfalso. apply N. apply place_refs in E. apply nth_error_In in E. destruct out; auto.
Qed.

Lemma find_ref_nth d l i : NoDup l -> nth_error l i = Some d -> find_ref d l = Some i.
Proof.
  revert i. induction l as [|x l IH]; intros i N E; [destruct i; discriminate|]. inversion N; subst. destruct i as [|i]; simpl in *.
  - apply Some_inj in E. subst. rewrite did_eqb_refl. reflexivity.
  - destruct (did_eqb x d) eqn:F; [apply did_eqb_eq in F; subst; apply nth_error_In in E; contradiction|]. rewrite (IH i); auto.
Qed.

Lemma place_nth d out i : NoDup (outs_of out) -> nth_error (outs_of out) i = Some d -> place d out = Some i.
Proof.
  intros N E. destruct out; simpl in *; try (destruct i; discriminate).
  - destruct i; [|destruct i; discriminate]. apply Some_inj in E. subst. rewrite did_eqb_refl. reflexivity.
  - apply find_ref_nth; auto.
Qed.

Lemma outcome_new e h d : ~ In d (outs_of (snd e)) -> outcome (e :: h) d = outcome h d.
Proof. destruct e as [o out]. simpl snd. intros N. rewrite outcome_cons, place_none; auto. Qed.

(** What is known about a reference does not change. *)
Lemma outcome_suffix l h d : NoDup (returned (l ++ h)) -> In d (returned h) -> outcome (l ++ h) d = outcome h d.
Proof.
  induction l as [|[o out] l IH]; intros N I; auto. simpl app in *. rewrite returned_cons in N. rewrite outcome_new.
  - apply IH; auto. clear - N. induction (outs_of out); auto. inversion N; auto.
  - simpl. intros J. assert (K : In d (returned (l ++ h))) by (rewrite returned_app; apply in_or_app; auto). revert N J K. generalize (returned (l ++ h)).
    generalize (outs_of out). induction l0 as [|x l0 IH']; intros m N J K; [destruct J|]. inversion N; subst. destruct J as [->|J]; [|eauto].
    apply H1, in_or_app. auto.
Qed.

(** The state of an actor, the calls of its methods that are still to be run, and the state after all calls. *)
Fixpoint linked (a : nat) (s : option val) (ts : list rtask) (fin : option val) : Prop :=
  match ts with
  | [] => fin = s
  | t :: ts => state (rt_before t) a = s /\ linked a (state ((rt_op t, rt_res t) :: rt_before t) a) ts fin
  end.

Definition on (a : nat) (ts : list rtask) : list rtask := filter (fun t => on_actor (rt_op t) a) ts.

Lemma linked_snoc a s ts fin t : linked a s ts fin -> state (rt_before t) a = fin -> linked a s (ts ++ [t]) (state ((rt_op t, rt_res t) :: rt_before t) a).
Proof. revert s. induction ts as [|u ts IH]; intros s; simpl; [intros -> ->; auto|]. intros [E L] F. split; auto. Qed.

Lemma on_snoc a ts t : on a (ts ++ [t]) = on a ts ++ if on_actor (rt_op t) a then [t] else [].
Proof. unfold on. rewrite filter_app. simpl. destruct (on_actor (rt_op t) a); auto. Qed.

Lemma on_remove a ts i t : nth_error ts i = Some t -> on a (firstn i ts ++ skipn (S i) ts) = on a (firstn i ts) ++ on a (skipn (S i) ts).
Proof. intros _. apply filter_app. Qed.

Lemma split_nth {A} (l : list A) i x : nth_error l i = Some x -> l = firstn i l ++ x :: skipn (S i) l.
Proof. revert i. induction l as [|y l IH]; intros [|i] E; simpl in *; try discriminate; [apply Some_inj in E; subst; auto|]. f_equal. apply IH, E. Qed.

Record YI (st : yst) : Prop := {
  yi_refs : forall d, In d (returned (y_hist st)) -> fst d = 0 /\ snd d < y_next st;
  yi_nodup : NoDup (returned (y_hist st));
  yi_dom : forall d r, y_vals st d = Some r -> In d (returned (y_hist st));
  yi_pend : forall t, In t (y_pend st) -> (exists l, y_hist st = l ++ (rt_op t, rt_res t) :: rt_before t) /\
     match rt_op t with QSubmit _ _ _ _ _ | QCall _ _ _ _ _ => True | _ => False end;
  yi_acts : forall t a, In t (y_pend st) -> on_actor (rt_op t) a = true -> a < length (y_actors st);
  yi_all : forall d, In d (returned (y_hist st)) -> y_vals st d <> None \/ exists t, In t (y_pend st) /\ In d (outs_of (rt_res t));
  yi_made : forall a o, In (o, OActor a) (y_hist st) -> a < length (y_actors st);
  yi_once : NoDup (y_log st ++ map (fun t => length (rt_before t)) (y_pend st));
  yi_less : forall k, In k (y_log st ++ map (fun t => length (rt_before t)) (y_pend st)) -> k < length (y_hist st);
  yi_wanted : forall o out, In (o, out) (y_hist st) -> length (outs_of out) = wanted o
}.

Lemma yi_init : YI yinit.
Proof. split; simpl; try tauto; try constructor; try discriminate. Qed.

Lemma fresh_in k n d : In d (fresh_refs k n) <-> fst d = 0 /\ k <= snd d < k + n.
Proof.
  unfold fresh_refs. rewrite in_map_iff. split.
  - intros (i & <- & I). apply in_seq in I. simpl. lia.
  - destruct d as [a b]. simpl. intros [-> H]. exists b. split; auto. apply in_seq. lia.
Qed.

Lemma fresh_nodup k n : NoDup (fresh_refs k n).
Proof. unfold fresh_refs. apply FinFun.Injective_map_NoDup; [intros a b E; apply pair_inj in E; tauto|apply seq_NoDup]. Qed.

Lemma fresh_length k n : length (fresh_refs k n) = n.
Proof. unfold fresh_refs. rewrite map_length. apply seq_length. Qed.

Lemma nodup_app' {A} (l m : list A) : NoDup l -> NoDup m -> (forall x, In x l -> ~ In x m) -> NoDup (l ++ m).
Proof.
  induction l as [|x l IH]; intros N M D; auto. inversion N; subst. simpl. constructor.
  - intros I. apply in_app_or in I as [I|I]; auto. apply (D x); simpl; auto.
  - apply IH; auto. intros y I. apply D. simpl. auto.
Qed.

Lemma yi_put st v : YI st -> YI (ystep st (YPut v)).
Proof.
  intros Y. assert (F : ~ In (0, y_next st) (returned (y_hist st))) by (intros I; apply (yi_refs _ Y) in I; simpl in I; lia).
  split; unfold RayRunModel.ystep, called; cbn [y_next y_pend y_vals y_actors y_log y_hist]; try rewrite returned_cons; cbn [outs_of app].
  - intros d [<-|I]; [simpl; lia|]. apply (yi_refs _ Y) in I. lia.
  - constructor; [auto|apply (yi_nodup _ Y)].
  - intros d r E. unfold dput in E. destruct (did_eqb (0, y_next st) d) eqn:D; [apply did_eqb_eq in D; simpl; auto|]. simpl. right. eapply yi_dom; eauto.
  - intros t I. destruct (yi_pend _ Y t I) as ((l & E) & X). split; auto. exists ((QPut v, ORef (0, y_next st)) :: l). rewrite E. reflexivity.
  - apply (yi_acts _ Y).
  - intros d [<-|I]; [left; rewrite dput_same; discriminate|]. destruct (yi_all _ Y d I) as [V|V]; auto. left. unfold dput. destruct (did_eqb _ _); [discriminate|auto].
  - intros a o [E|I]; [discriminate|]. eapply yi_made; eauto.
  - apply (yi_once _ Y).
  - intros k I. apply (yi_less _ Y) in I. simpl. lia.
  - intros o out [E|I]; [apply pair_inj in E as [<- <-]; reflexivity|]. eapply yi_wanted; eauto.
Qed.

Lemma yi_enqueue st o n : YI st -> wanted o = n -> match o with QSubmit _ _ _ _ _ | QCall _ _ _ _ _ => True | _ => False end ->
  (forall a, on_actor o a = true -> a < length (y_actors st)) -> YI (enqueue st o n).
Proof.
  intros Y W T A. assert (F : forall d, In d (fresh_refs (y_next st) n) -> ~ In d (returned (y_hist st))).
  { intros d I J. apply fresh_in in I. apply (yi_refs _ Y) in J. lia. }
  split; unfold enqueue, called; cbn [y_next y_pend y_vals y_actors y_log y_hist]; try rewrite returned_cons; rewrite ?wrap_outs.
  - intros d I. apply in_app_or in I as [I|I]; [apply fresh_in in I|apply (yi_refs _ Y) in I]; lia.
  - apply nodup_app'; [apply fresh_nodup|apply (yi_nodup _ Y)|apply F].
  - intros d r E. apply in_or_app. right. eapply yi_dom; eauto.
  - intros t I. apply in_app_or in I as [I|[<-|[]]]; [|split; [exists []; reflexivity|exact T]].
    destruct (yi_pend _ Y t I) as ((l & E) & X). split; auto. exists ((o, wrap (fresh_refs (y_next st) n)) :: l). rewrite E. reflexivity.
  - intros t a I E. apply in_app_or in I as [I|[<-|[]]]; [eapply yi_acts; eauto|]. apply A, E.
  - intros d I. apply in_app_or in I as [I|I].
    + right. exists {| rt_op := o; rt_res := wrap (fresh_refs (y_next st) n); rt_before := y_hist st |}. split; [apply in_or_app; simpl; auto|]. simpl. rewrite wrap_outs. exact I.
    + destruct (yi_all _ Y d I) as [V|(t & V & V')]; auto. right. exists t. split; auto. apply in_or_app. auto.
  - intros a o' [E|I]; [|eapply yi_made; eauto]. apply pair_inj in E as [_ E]. exfalso. clear - E. destruct (fresh_refs (y_next st) n) as [|x [|y l]]; discriminate.
  - rewrite map_app, app_assoc. simpl. apply nodup_app'; [apply (yi_once _ Y)|repeat constructor; auto|]. intros k I [E|[]]. apply (yi_less _ Y) in I. lia.
  - intros k I. rewrite map_app, app_assoc in I. cbn [length]. apply in_app_or in I as [I|I]; [apply (yi_less _ Y) in I; lia|]. destruct I as [I|[]]. simpl in I. lia.
  - intros o' out [E|I]; [|eapply yi_wanted; eauto]. apply pair_inj in E as [<- <-]. rewrite wrap_outs, fresh_length, W. reflexivity.
Qed.

Lemma yi_actor st c args kw b : YI st -> YI (ystep st (YActor c args kw b)).
Proof.
  intros Y. split; unfold RayRunModel.ystep, called; cbn [y_next y_pend y_vals y_actors y_log y_hist]; try rewrite returned_cons; cbn [outs_of app]; try apply Y.
  - intros t I. destruct (yi_pend _ Y t I) as ((l & E) & X). split; auto. exists ((QActor c args kw b, OActor (length (y_actors st))) :: l). rewrite E. reflexivity.
  - intros t a I E. rewrite app_length. simpl. assert (Z := yi_acts _ Y t a I E). lia.
  - intros a o [E|I]; rewrite app_length; simpl; [apply pair_inj in E as [_ E]; injection E as <-; lia|]. apply (yi_made _ Y) in I. lia.
  - intros k I. apply (yi_less _ Y) in I. simpl. lia.
  - intros o out [E|I]; [apply pair_inj in E as [<- <-]; reflexivity|]. eapply yi_wanted; eauto.
Qed.

Lemma record_in m ds rs d r : record m ds rs d = Some r -> In d ds \/ m d = Some r.
Proof.
  revert rs. induction ds as [|x ds IH]; intros [|y rs]; simpl; auto. unfold dput. destruct (did_eqb x d) eqn:E; [apply did_eqb_eq in E; auto|]. intros R. apply IH in R. tauto.
Qed.

Lemma record_some m ds rs d : length rs = length ds -> In d ds -> record m ds rs d <> None.
Proof.
  revert rs. induction ds as [|x ds IH]; intros [|y rs] L I; simpl in *; try discriminate; [destruct I|]. unfold dput. destruct (did_eqb x d) eqn:E; [discriminate|].
  destruct I as [->|I]; [rewrite did_eqb_refl in E; discriminate|]. apply IH; auto.
Qed.

Lemma record_other m ds rs d : ~ In d ds -> record m ds rs d = m d.
Proof.
  revert rs. induction ds as [|x ds IH]; intros [|y rs] N; simpl in *; auto. unfold dput. destruct (did_eqb x d) eqn:E; [apply did_eqb_eq in E; tauto|]. apply IH. tauto.
Qed.

Lemma record_nth m ds rs d r : NoDup ds -> record m ds rs d = Some r -> In d ds -> length rs = length ds -> exists i, nth_error ds i = Some d /\ nth_error rs i = Some r.
Proof.
  revert rs. induction ds as [|x ds IH]; intros [|y rs] N R I L; simpl in *; try discriminate; [destruct I|]. unfold dput in R. inversion N; subst. destruct (did_eqb x d) eqn:E.
  - apply did_eqb_eq in E as ->. exists 0. split; auto.
  - destruct I as [->|I]; [rewrite did_eqb_refl in E; discriminate|]. destruct (IH rs H2 R I) as (i & A & B); [lia|]. exists (S i). auto.
Qed.

Lemma deal_length n r : length (deal n r) = n.
Proof.
  unfold RayRunModel.deal. destruct r as [v|e]; [|apply repeat_length]. destruct (Nat.eqb n 1) eqn:E; [apply Nat.eqb_eq in E; subst; auto|].
  destruct (items_of iter v) as [l|]; [|apply repeat_length]. destruct (Nat.eqb (length l) n) eqn:F; [rewrite map_length; apply Nat.eqb_eq; auto|apply repeat_length].
Qed.

Lemma in_remove {A} (l : list A) i x : In x (firstn i l ++ skipn (S i) l) -> In x l.
Proof. revert i. induction l as [|y l IH]; intros [|i] I; simpl in *; auto. destruct I as [I|I]; auto. right. apply (IH i), I. Qed.

(** The step that runs a task. *)
Lemma run_cases st i : ystep st (YRun i) = st \/ exists t r acts entered, nth_error (y_pend st) i = Some t /\ runnable st i t = true /\ execute st (rt_op t) = Some (r, acts, entered) /\
  ystep st (YRun i) = {| y_next := y_next st; y_pend := firstn i (y_pend st) ++ skipn (S i) (y_pend st);
                   y_vals := record (y_vals st) (outs_of (rt_res t)) (deal (length (outs_of (rt_res t))) r);
                   y_actors := acts; y_log := if entered then y_log st ++ [length (rt_before t)] else y_log st; y_hist := y_hist st |}.
Proof.
  simpl. destruct (nth_error (y_pend st) i) as [t|] eqn:N; auto. destruct (runnable st i t) eqn:R; auto. destruct (execute st (rt_op t)) as [[[r acts] entered]|] eqn:E; auto.
  right. exists t, r, acts, entered. auto.
Qed.

Lemma execute_acts st o r acts e : execute st o = Some (r, acts, e) -> length acts = length (y_actors st).
Proof.
  unfold RayRunModel.execute. destruct (gather st (task_args o)) as [[vs|x]|]; [| |discriminate].
  - destruct (gather st (map snd (task_kw o))) as [[ks|x]|]; [| |discriminate].
    + destruct o; try discriminate; [intros E; inversion E; auto|]. destruct (nth_error (y_actors st) a) as [[s|]|] eqn:N; [| |discriminate].
      * destruct (mbody m s vs (combine (map fst (task_kw (QCall a m args kw n))) ks)) as [r' s'] eqn:M. intros E. inversion E. unfold set_obj. rewrite app_length. cbn [length].
        rewrite firstn_length, skipn_length. assert (a < length (y_actors st)) by (apply nth_error_Some; congruence). lia.
      * intros E. inversion E. auto.
    + intros E. inversion E. auto.
  - destruct (gather st (map snd (task_kw o))); [|discriminate]. intros E. inversion E. auto.
Qed.

Lemma yi_run st i : YI st -> YI (ystep st (YRun i)).
Proof.
  intros Y. destruct (run_cases st i) as [->|(t & r & acts & entered & N & R & E & ->)]; auto. assert (It : In t (y_pend st)) by (eapply nth_error_In; eauto).
  destruct (yi_pend _ Y t It) as ((l & H) & _). assert (Outs : incl (outs_of (rt_res t)) (returned (y_hist st))).
  { intros d I. rewrite H, returned_app, returned_cons. apply in_or_app. right. apply in_or_app. auto. }
  split; cbn [y_next y_pend y_vals y_actors y_log y_hist]; try apply Y.
  - intros d x V. apply record_in in V as [V|V]; [apply Outs, V|]. eapply yi_dom; eauto.
  - intros u I. apply in_remove in I. apply (yi_pend _ Y u I).
  - intros u a I F. apply in_remove in I. rewrite (execute_acts _ _ _ _ _ E). eapply yi_acts; eauto.
  - intros d I. destruct (in_dec did_dec d (outs_of (rt_res t))) as [J|J]; [left; apply record_some; auto; apply deal_length|]. rewrite record_other by auto.
    destruct (yi_all _ Y d I) as [V|(u & V & V')]; auto. right. exists u. split; auto. rewrite (split_nth _ _ _ N) in V. apply in_app_or in V as [V|[V|V]].
    + apply in_or_app. auto.
    + subst u. contradiction.
    + apply in_or_app. auto.
  - intros a o I. rewrite (execute_acts _ _ _ _ _ E). eapply yi_made; eauto.
  - assert (O := yi_once _ Y). rewrite (split_nth _ _ _ N), map_app in O. simpl in O. rewrite map_app. destruct entered.
    + rewrite <- app_assoc. simpl. rewrite app_assoc in O. apply NoDup_remove in O as [O O']. apply nodup_app'.
      * rewrite <- app_assoc in O. clear - O. induction (y_log st); [constructor|]. inversion O; subst. constructor; auto. intros I. apply H1, in_or_app. auto.
      * constructor; [intros I; apply O'; rewrite <- app_assoc; apply in_or_app; right; exact I|]. rewrite <- app_assoc in O. clear - O. induction (y_log st); auto. inversion O; auto.
      * intros k I [J|J]; [subst k; apply O'; rewrite <- app_assoc; apply in_or_app; auto|]. rewrite <- app_assoc in O. clear - O I J. induction (y_log st); [destruct I|]. inversion O; subst.
        destruct I as [->|I]; [apply H1, in_or_app; auto|auto].
    + rewrite app_assoc in O. apply NoDup_remove_1 in O. rewrite <- app_assoc in O. exact O.
  - intros k I. apply (yi_less _ Y). rewrite (split_nth _ _ _ N), map_app, !in_app_iff. rewrite map_app, !in_app_iff in I. cbn [map In].
    destruct entered; [rewrite in_app_iff in I; cbn [In] in I|]; tauto.
Qed.

Lemma known_tail st o : actors_known (y_hist (ystep st o)) -> actors_known (y_hist st).
Proof.
  destruct o; try (destruct (run_cases st i) as [->|(t & r & acts & entered & _ & _ & _ & ->)]; auto; fail); unfold RayRunModel.ystep, enqueue, called; cbn [y_hist actors_known]; tauto.
Qed.

Lemma yrun_snoc ops o : yrun (ops ++ [o]) = ystep (yrun ops) o.
Proof. unfold RayRunModel.yrun. rewrite fold_left_app. reflexivity. Qed.

Lemma yi_all_runs ops : actors_known (y_hist (yrun ops)) -> YI (yrun ops).
Proof.
  induction ops as [|o ops IH] using rev_ind; [intros _; exact yi_init|]. rewrite yrun_snoc. intros K. assert (Y := IH (known_tail _ _ K)). destruct o.
  - apply yi_put; auto.
  - apply yi_enqueue; auto. intros a E. discriminate E.
  - apply yi_actor; auto.
  - apply yi_enqueue; auto. simpl in K. intros a' E. simpl in E. apply Nat.eqb_eq in E as <-. destruct K as [K _]. destruct (K a m args kw n eq_refl) as (o' & I). eapply yi_made; eauto.
  - apply yi_run; auto.
Qed.

(** ** Values *)

Definition Good (h : hist) : Prop := legal h /\ actors_known h /\ right_numbers body mbody iter h /\ all_built cbody h.

Lemma good_tail o out h : Good ((o, out) :: h) -> Good h.
Proof.
  intros ([L1 L2] & [K1 K2] & [R1 R2] & B). split; [exact L2|]. split; [exact K2|]. split; [split|].
  - intros f args kw n b out' vs ks I. apply (R1 f args kw n b out'). simpl. auto.
  - intros a m args kw n out' s vs ks I. apply (R2 a m args kw n out'). simpl. auto.
  - intros c args kw b out' I. apply (B c args kw b out'). simpl. auto.
Qed.

Lemma legal_suffix l o out h : legal (l ++ (o, out) :: h) -> known h o.
Proof. induction l as [|[o' out'] l IH]; simpl; tauto. Qed.

Lemma state_call o out h a : on_actor o a = false -> (forall x, out = OActor x -> x <> a) -> state ((o, out) :: h) a = state h a.
Proof.
  intros N M. rewrite state_cons. destruct o; auto.
  - destruct out; auto. assert (X := M _ eq_refl). apply Nat.eqb_neq in X. rewrite X. reflexivity.
  - simpl in N. rewrite N. reflexivity.
Qed.

Record YV (st : yst) : Prop := {
  yv_vals : forall d r, y_vals st d = Some r -> outcome (y_hist st) d = Some r;
  yv_objs : forall a x, nth_error (y_actors st) a = Some x -> linked a x (on a (y_pend st)) (state (y_hist st) a);
  yv_built : forall a, nth_error (y_actors st) a <> Some None
}.

Lemma gather_ok st h l X : gather st l = Some X -> (forall x r, In (VRef x) l -> y_vals st x = Some r -> outcome h x = Some r) -> all_ok (map (argument h) l) = Some X.
Proof.
  revert X. induction l as [|v l IH]; intros X G A; simpl in *; auto. assert (Hd : forall r, match v with VRef d => y_vals st d | _ => Some (Ret v) end = Some r -> argument h v = Some r).
  { intros r E. destruct v; auto. simpl. apply A; auto. }
  destruct (match v with VRef d => y_vals st d | _ => Some (Ret v) end) as [[x|e]|]; [| |discriminate]; rewrite (Hd _ eq_refl); [|exact G].
  destruct (gather st l) as [[xs|e]|]; [| |discriminate]; rewrite (IH _ eq_refl); auto.
Qed.

Lemma in_top l x : In (VRef x) l -> In x (flat_map (fun v => match v with VRef d => [d] | _ => [] end) l).
Proof. intros I. apply in_flat_map. exists (VRef x). simpl. auto. Qed.

Lemma deal_part n r i x : nth_error (deal n r) i = Some x -> fits iter n r -> part item r n i = Some x.
Proof.
  intros E F. assert (Li : i < n) by (rewrite <- (deal_length n r); apply nth_error_Some; congruence). revert E F.
  unfold RayRunModel.deal, part, fits. destruct r as [v|e].
  - intros E F. destruct (Nat.eqb n 1) eqn:N; [destruct i as [|[|i]]; simpl in E; congruence|]. apply Nat.eqb_neq in N. destruct F as [F|(l & F & L)].
    + lia.
    + rewrite F, L, Nat.eqb_refl in E. rewrite nth_error_map in E. assert (X : index item v i = nth_error l i).
      { unfold index, items_of, item_of in *. destruct v; try (rewrite F; reflexivity); try (apply Some_inj in F; subst; reflexivity); discriminate. }
      rewrite X. destruct (nth_error l i); [exact E|discriminate].
  - intros E _. apply nth_error_In, repeat_spec in E. congruence.
Qed.

Lemma set_obj_nth l a s b : a < length l -> nth_error (set_obj l a s) b = if Nat.eqb a b then Some (Some s) else nth_error l b.
Proof.
  intros L. unfold set_obj. destruct (Nat.eqb a b) eqn:E.
  - apply Nat.eqb_eq in E as <-. rewrite nth_error_app2 by (rewrite firstn_length; lia). rewrite firstn_length, Nat.min_l by lia. rewrite Nat.sub_diag. reflexivity.
  - apply Nat.eqb_neq in E. revert a b L E. induction l as [|x l IH]; intros a b L E; [simpl in L; lia|]. destruct a as [|a], b as [|b]; simpl; auto; [lia|]. apply IH; simpl in L; lia.
Qed.

Lemma on_first a ts i t : nth_error ts i = Some t -> existsb (fun u => on_actor (rt_op u) a) (firstn i ts) = false -> on_actor (rt_op t) a = true ->
  on a ts = t :: on a (firstn i ts ++ skipn (S i) ts).
Proof.
  intros N E A. rewrite (split_nth _ _ _ N) at 1. unfold on. rewrite !filter_app. simpl. rewrite A. assert (Z : filter (fun u => on_actor (rt_op u) a) (firstn i ts) = []).
  { clear N. induction (firstn i ts) as [|u l IH]; auto. simpl in *. apply orb_false_iff in E as [-> E]. auto. }
  rewrite Z. reflexivity.
Qed.

Lemma on_not a ts i t : nth_error ts i = Some t -> on_actor (rt_op t) a = false -> on a ts = on a (firstn i ts ++ skipn (S i) ts).
Proof. intros N A. rewrite (split_nth _ _ _ N) at 1. unfold on. rewrite !filter_app. simpl. rewrite A. reflexivity. Qed.

Lemma execute_other st o r acts e a : execute st o = Some (r, acts, e) -> on_actor o a = false -> nth_error acts a = nth_error (y_actors st) a.
Proof.
  unfold RayRunModel.execute. destruct (gather st (task_args o)) as [[vs|x]|]; [| |discriminate].
  - destruct (gather st (map snd (task_kw o))) as [[ks|x]|]; [| |discriminate].
    + destruct o as [| | |b m args kw n| | |]; try discriminate; [intros E; inversion E; auto|]. destruct (nth_error (y_actors st) b) as [[s|]|] eqn:N; [| |discriminate].
      * destruct (mbody m s vs _) as [r' s'] eqn:M. intros E F. inversion E. simpl in F. rewrite set_obj_nth by (apply nth_error_Some; congruence). rewrite F. reflexivity.
      * intros E. inversion E. auto.
    + intros E. inversion E. auto.
  - destruct (gather st (map snd (task_kw o))); [|discriminate]. intros E. inversion E. auto.
Qed.

Lemma execute_built st o r acts e a : execute st o = Some (r, acts, e) -> (forall b, nth_error (y_actors st) b <> Some None) -> nth_error acts a <> Some None.
Proof.
  unfold RayRunModel.execute. destruct (gather st (task_args o)) as [[vs|x]|]; [| |discriminate].
  - destruct (gather st (map snd (task_kw o))) as [[ks|x]|]; [| |discriminate].
    + destruct o as [| | |b m args kw n| | |]; try discriminate; [intros E; inversion E; auto|]. destruct (nth_error (y_actors st) b) as [[s|]|] eqn:N; [| |discriminate].
      * destruct (mbody m s vs _) as [r' s'] eqn:M. intros E F. inversion E. rewrite set_obj_nth by (apply nth_error_Some; congruence). destruct (Nat.eqb b a); [discriminate|auto].
      * intros E. inversion E. subst. auto.
    + intros E. inversion E. subst. auto.
  - destruct (gather st (map snd (task_kw o))); [|discriminate]. intros E. inversion E. subst. auto.
Qed.

Lemma yv_run st i : YI st -> Good (y_hist st) -> YV st -> YV (ystep st (YRun i)).
Proof.
  intros Y G V. destruct (run_cases st i) as [->|(t & r & acts & entered & N & R & E & ->)]; auto. assert (It : In t (y_pend st)) by (eapply nth_error_In; eauto).
  destruct (yi_pend _ Y t It) as ((l & H) & Tk). destruct G as (L & K & [R1 R2] & B). assert (Kn := L). rewrite H in Kn. apply legal_suffix in Kn.
  assert (Nd := yi_nodup _ Y). rewrite H in Nd. assert (Ie : In (rt_op t, rt_res t) (y_hist st)) by (rewrite H; apply in_or_app; simpl; auto).
  assert (NdT : NoDup (returned ((rt_op t, rt_res t) :: rt_before t))). { rewrite returned_app in Nd. clear - Nd. induction (returned l); auto. inversion Nd; auto. }
  assert (NdO : NoDup (outs_of (rt_res t))). { rewrite returned_cons in NdT. clear - NdT. induction (outs_of (rt_res t)); [constructor|]. inversion NdT; subst. constructor; auto. intros I. apply H1, in_or_app. auto. }
  assert (NdB : NoDup (returned ((l ++ [(rt_op t, rt_res t)]) ++ rt_before t))) by (rewrite <- app_assoc; exact Nd).
  assert (Old : forall x, In x (returned (rt_before t)) -> outcome (y_hist st) x = outcome (rt_before t) x).
  { intros x I. rewrite H. assert (Z := outcome_suffix (l ++ [(rt_op t, rt_res t)]) (rt_before t) x NdB I). rewrite <- app_assoc in Z. exact Z. }
  assert (Args : forall x r', In (VRef x) (task_args (rt_op t)) -> y_vals st x = Some r' -> outcome (rt_before t) x = Some r').
  { intros x r' I F. rewrite <- Old; [apply (yv_vals _ V); auto|]. apply Kn. destruct (rt_op t); simpl in I; try destruct I; simpl; apply in_or_app; left; apply in_top; auto. }
  assert (Kws : forall x r', In (VRef x) (map snd (task_kw (rt_op t))) -> y_vals st x = Some r' -> outcome (rt_before t) x = Some r').
  { intros x r' I F. rewrite <- Old; [apply (yv_vals _ V); auto|]. apply Kn. destruct (rt_op t); simpl in I; try destruct I; simpl; apply in_or_app; right; apply in_top; auto. }
  (* what the call means *)
  assert (Mean : (forall j d x, nth_error (outs_of (rt_res t)) j = Some d -> nth_error (deal (length (outs_of (rt_res t))) r) j = Some x ->
      outcome ((rt_op t, rt_res t) :: rt_before t) d = Some x) /\
    forall a x, nth_error (y_actors st) a = Some x -> on_actor (rt_op t) a = true -> state (rt_before t) a = x ->
      exists x', nth_error acts a = Some x' /\ state ((rt_op t, rt_res t) :: rt_before t) a = x').
  { rewrite (yi_wanted _ Y _ _ Ie). unfold RayRunModel.execute in E.
    destruct (gather st (task_args (rt_op t))) as [[vs|e]|] eqn:G1; [| |discriminate]; destruct (gather st (map snd (task_kw (rt_op t)))) as [[ks|e']|] eqn:G2; try discriminate;
      apply gather_ok with (h := rt_before t) in G1, G2; auto; destruct (rt_op t) as [v|f args kw n b|c args kw b|a m args kw n|v|vs'|vs' n] eqn:Op; try destruct Tk;
      try discriminate; simpl task_args in *; simpl task_kw in *; simpl wanted in *.
    - inversion E; subst; clear E. split; [|intros; discriminate]. intros j d x P Q. rewrite outcome_cons, (place_nth _ _ _ NdO P), G1, G2. apply deal_part; auto. eapply R1; eauto.
    - destruct (nth_error (y_actors st) a) as [[s|]|] eqn:An; [| |discriminate]; [|exfalso; eapply (yv_built _ V); eauto].
      assert (Fst : state (rt_before t) a = Some s).
      { assert (Lk := yv_objs _ V a _ An). unfold runnable in R. rewrite Op in R. apply andb_true_iff in R as [_ R]. apply negb_true_iff in R.
        rewrite (on_first a _ _ _ N R) in Lk by (rewrite Op; simpl; apply Nat.eqb_refl). apply Lk. }
      destruct (mbody m s vs (combine (map fst kw) ks)) as [r' s'] eqn:M. inversion E; subst; clear E. split.
      + intros j d x P Q. rewrite outcome_cons, (place_nth _ _ _ NdO P), Fst, G1, G2, M. simpl. apply deal_part; auto. specialize (R2 a m args kw n (rt_res t) s vs (combine (map fst kw) ks) Ie). rewrite M in R2. exact R2.
      + intros a' x X A Sx. simpl in A. apply Nat.eqb_eq in A as <-. exists (Some s'). rewrite set_obj_nth, Nat.eqb_refl by (apply nth_error_Some; congruence). split; auto.
        rewrite state_cons, Nat.eqb_refl, Fst, G1, G2, M. reflexivity.
    - inversion E; subst; clear E. split; [|intros; discriminate]. intros j d x P Q. rewrite outcome_cons, (place_nth _ _ _ NdO P), G1, G2. apply nth_error_In, repeat_spec in Q. congruence.
    - inversion E; subst; clear E. assert (Ac : a < length (y_actors st)) by (apply (yi_acts _ Y t); auto; rewrite Op; simpl; apply Nat.eqb_refl).
      apply nth_error_Some in Ac. destruct (nth_error (y_actors st) a) as [x0|] eqn:An; [|congruence].
      assert (Fst : state (rt_before t) a = x0).
      { assert (Lk := yv_objs _ V a _ An). unfold runnable in R. rewrite Op in R. apply andb_true_iff in R as [_ R]. apply negb_true_iff in R.
        rewrite (on_first a _ _ _ N R) in Lk by (rewrite Op; simpl; apply Nat.eqb_refl). apply Lk. }
      destruct x0 as [s|]; [|exfalso; eapply (yv_built _ V); eauto]. split.
      + intros j d x P Q. rewrite outcome_cons, (place_nth _ _ _ NdO P), Fst, G1, G2. apply nth_error_In, repeat_spec in Q. congruence.
      + intros a' x X A Sx. simpl in A. apply Nat.eqb_eq in A as <-. exists x. split; auto. rewrite state_cons, Nat.eqb_refl, G1, G2, Sx. destruct x; auto.
    - inversion E; subst; clear E. split; [|intros; discriminate]. intros j d x P Q. rewrite outcome_cons, (place_nth _ _ _ NdO P), G1. apply nth_error_In, repeat_spec in Q. congruence.
    - inversion E; subst; clear E. assert (Ac : a < length (y_actors st)) by (apply (yi_acts _ Y t); auto; rewrite Op; simpl; apply Nat.eqb_refl).
      apply nth_error_Some in Ac. destruct (nth_error (y_actors st) a) as [x0|] eqn:An; [|congruence].
      assert (Fst : state (rt_before t) a = x0).
      { assert (Lk := yv_objs _ V a _ An). unfold runnable in R. rewrite Op in R. apply andb_true_iff in R as [_ R]. apply negb_true_iff in R.
        rewrite (on_first a _ _ _ N R) in Lk by (rewrite Op; simpl; apply Nat.eqb_refl). apply Lk. }
      destruct x0 as [s|]; [|exfalso; eapply (yv_built _ V); eauto]. split.
      + intros j d x P Q. rewrite outcome_cons, (place_nth _ _ _ NdO P), Fst, G1. apply nth_error_In, repeat_spec in Q. congruence.
      + intros a' x X A Sx. simpl in A. apply Nat.eqb_eq in A as <-. exists x. split; auto. rewrite state_cons, Nat.eqb_refl, G1, Sx. destruct x; auto.
    - inversion E; subst; clear E. split; [|intros; discriminate]. intros j d x P Q. rewrite outcome_cons, (place_nth _ _ _ NdO P), G1. apply nth_error_In, repeat_spec in Q. congruence.
    - inversion E; subst; clear E. assert (Ac : a < length (y_actors st)) by (apply (yi_acts _ Y t); auto; rewrite Op; simpl; apply Nat.eqb_refl).
      apply nth_error_Some in Ac. destruct (nth_error (y_actors st) a) as [x0|] eqn:An; [|congruence].
      assert (Fst : state (rt_before t) a = x0).
      { assert (Lk := yv_objs _ V a _ An). unfold runnable in R. rewrite Op in R. apply andb_true_iff in R as [_ R]. apply negb_true_iff in R.
        rewrite (on_first a _ _ _ N R) in Lk by (rewrite Op; simpl; apply Nat.eqb_refl). apply Lk. }
      destruct x0 as [s|]; [|exfalso; eapply (yv_built _ V); eauto]. split.
      + intros j d x P Q. rewrite outcome_cons, (place_nth _ _ _ NdO P), Fst, G1. apply nth_error_In, repeat_spec in Q. congruence.
      + intros a' x X A Sx. simpl in A. apply Nat.eqb_eq in A as <-. exists x. split; auto. rewrite state_cons, Nat.eqb_refl, G1, Sx. destruct x; auto.
  }
  destruct Mean as [Mv Ms]. split; cbn [y_next y_pend y_vals y_actors y_log y_hist].
  - intros d x X. destruct (in_dec did_dec d (outs_of (rt_res t))) as [J|J].
    + destruct (record_nth _ _ _ _ _ NdO X J (deal_length _ _)) as (j & P & Q). rewrite H, outcome_suffix; auto; [eapply Mv; eauto|]. rewrite returned_cons. apply in_or_app. auto.
    + rewrite record_other in X by auto. apply (yv_vals _ V), X.
  - intros a x X. destruct (on_actor (rt_op t) a) eqn:A.
    + assert (La : a < length (y_actors st)) by (eapply yi_acts; eauto). apply nth_error_Some in La. destruct (nth_error (y_actors st) a) as [x0|] eqn:An; [|congruence].
      assert (Lk := yv_objs _ V a _ An). unfold runnable in R. apply andb_true_iff in R as [_ R].
      assert (R' : existsb (fun u => on_actor (rt_op u) a) (firstn i (y_pend st)) = false).
      { destruct (rt_op t); try discriminate. simpl in A. apply Nat.eqb_eq in A as <-. apply negb_true_iff, R. }
      rewrite (on_first a _ _ _ N R' A) in Lk. destruct Lk as [F Lk]. destruct (Ms a x0 An A F) as (x' & X' & S'). rewrite S' in Lk. rewrite X in X'. apply Some_inj in X' as ->. exact Lk.
    + rewrite (execute_other _ _ _ _ _ a E A) in X. rewrite <- (on_not a _ _ _ N A). apply (yv_objs _ V), X.
  - intros a. eapply execute_built; eauto. apply (yv_built _ V).
Qed.

Lemma yv_init : YV yinit.
Proof. split; simpl; try discriminate; intros a; destruct a; discriminate. Qed.

Lemma yv_put st v : YI st -> YV st -> YV (ystep st (YPut v)).
Proof.
  intros Y V. split; unfold RayRunModel.ystep, called; cbn [y_next y_pend y_vals y_actors y_log y_hist].
  - intros d r E. unfold dput in E. destruct (did_eqb (0, y_next st) d) eqn:D.
    + apply did_eqb_eq in D as <-. rewrite outcome_cons. simpl place. rewrite did_eqb_refl. exact E.
    + rewrite outcome_new; [apply (yv_vals _ V), E|]. simpl. intros [F|[]]. subst d. rewrite did_eqb_refl in D. discriminate.
  - intros a x E. rewrite state_call; auto; [apply (yv_objs _ V), E|]. discriminate.
  - apply (yv_built _ V).
Qed.

Lemma wrap_no_actor ds x : wrap ds <> OActor x.
Proof. destruct ds as [|a [|b l]]; discriminate. Qed.

Lemma yv_enqueue st o n : YI st -> YV st -> YV (enqueue st o n).
Proof.
  intros Y V. split; unfold enqueue, called; cbn [y_next y_pend y_vals y_actors y_log y_hist].
  - intros d r E. rewrite outcome_new; [apply (yv_vals _ V), E|]. simpl. rewrite wrap_outs. intros I. apply fresh_in in I. apply (yi_dom _ Y), (yi_refs _ Y) in E. lia.
  - intros a x E. rewrite on_snoc. simpl rt_op. destruct (on_actor o a) eqn:A.
    + apply (linked_snoc a x (on a (y_pend st)) (state (y_hist st) a) {| rt_op := o; rt_res := wrap (fresh_refs (y_next st) n); rt_before := y_hist st |}); auto. apply (yv_objs _ V), E.
    + rewrite app_nil_r, state_call; auto; [apply (yv_objs _ V), E|]. intros x' F. destruct (wrap_no_actor _ _ F).
  - apply (yv_built _ V).
Qed.

Lemma yv_actor st c args kw b s : YI st -> YV st -> cbody c args kw = Ret s -> YV (ystep st (YActor c args kw b)).
Proof.
  intros Y V C. split; unfold RayRunModel.ystep, called; cbn [y_next y_pend y_vals y_actors y_log y_hist]; rewrite ?C.
  - intros d r E. rewrite outcome_new; [apply (yv_vals _ V), E|]. simpl. tauto.
  - intros a x E. destruct (Nat.eq_dec a (length (y_actors st))) as [->|D].
    + rewrite nth_error_app2, Nat.sub_diag in E by lia. simpl in E. apply Some_inj in E as <-. rewrite state_cons, Nat.eqb_refl, C.
      assert (Z : on (length (y_actors st)) (y_pend st) = []).
      { unfold on. assert (Ac := yi_acts _ Y). induction (y_pend st) as [|t l IH]; auto. simpl. destruct (on_actor (rt_op t) (length (y_actors st))) eqn:F.
        - apply (Ac t) in F; simpl; auto. lia.
        - apply IH. intros u a' I. apply Ac. simpl. auto. }
      rewrite Z. reflexivity.
    + assert (La : a < length (y_actors st)). { assert (X : a < length (y_actors st ++ [Some s])) by (apply nth_error_Some; congruence). rewrite app_length in X. simpl in X. lia. }
      rewrite nth_error_app1 in E by lia. rewrite state_call; auto; [apply (yv_objs _ V), E|]. intros x' F. injection F as <-. auto.
  - intros a F. destruct (Nat.lt_ge_cases a (length (y_actors st))) as [La|La]; [rewrite nth_error_app1 in F by lia; eapply yv_built; eauto|].
    rewrite nth_error_app2 in F by lia. destruct (a - length (y_actors st)) as [|[|k]]; discriminate.
Qed.

Lemma good_step st o : Good (y_hist (ystep st o)) -> Good (y_hist st).
Proof.
  destruct o; try (destruct (run_cases st i) as [->|(t & r & acts & entered & _ & _ & _ & ->)]; auto; fail); unfold RayRunModel.ystep, enqueue, called; cbn [y_hist]; apply good_tail.
Qed.

Lemma yv_runs ops : Good (y_hist (yrun ops)) -> YV (yrun ops).
Proof.
  induction ops as [|o ops IH] using rev_ind; [intros _; exact yv_init|]. rewrite yrun_snoc. intros G. assert (G' := good_step _ _ G). assert (V := IH G').
  assert (Y : YI (yrun ops)) by (apply yi_all_runs, G'). destruct o.
  - apply yv_put; auto.
  - apply yv_enqueue; auto.
  - destruct G as (_ & _ & _ & B). destruct (B c args kw reserve (OActor (length (y_actors (yrun ops))))) as [(s & C) _]; [simpl; auto|]. eapply yv_actor; eauto.
  - apply yv_enqueue; auto.
  - apply yv_run; auto.
Qed.

(** ** The theorems *)

Theorem read ops d r : legal (y_hist (yrun ops)) -> actors_known (y_hist (yrun ops)) -> right_numbers body mbody iter (y_hist (yrun ops)) ->
  all_built cbody (y_hist (yrun ops)) -> yget (yrun ops) d = Some r -> outcome (y_hist (yrun ops)) d = Some r.
Proof. intros L K R B. apply yv_vals, yv_runs. exact (conj L (conj K (conj R B))). Qed.

Theorem objects ops a : legal (y_hist (yrun ops)) -> actors_known (y_hist (yrun ops)) -> right_numbers body mbody iter (y_hist (yrun ops)) ->
  all_built cbody (y_hist (yrun ops)) -> y_pend (yrun ops) = [] -> a < length (y_actors (yrun ops)) -> nth_error (y_actors (yrun ops)) a = Some (state (y_hist (yrun ops)) a).
Proof.
  intros L K R B P La. apply nth_error_Some in La. destruct (nth_error (y_actors (yrun ops)) a) as [x|] eqn:E; [|congruence].
  assert (V : YV (yrun ops)) by (apply yv_runs; exact (conj L (conj K (conj R B)))). assert (Lk := yv_objs _ V a x E). rewrite P in Lk. simpl in Lk. congruence.
Qed.

Theorem entered_once ops : actors_known (y_hist (yrun ops)) -> NoDup (y_log (yrun ops)).
Proof. intros K. apply yi_all_runs in K as Y. assert (O := yi_once _ Y). clear - O. induction (y_log (yrun ops)); [constructor|]. inversion O; subst. constructor; auto. intros I. apply H1, in_or_app. auto. Qed.

Theorem history ops : map fst (y_hist (yrun ops)) = rev (flat_map api_call ops).
Proof.
  induction ops as [|o ops IH] using rev_ind; auto. rewrite yrun_snoc, flat_map_app, rev_app_distr. destruct o; try (simpl; rewrite IH; reflexivity).
  destruct (run_cases (yrun ops) i) as [->|(t & r & acts & entered & _ & _ & _ & ->)]; simpl; exact IH.
Qed.

Theorem references ops : actors_known (y_hist (yrun ops)) -> NoDup (returned (y_hist (yrun ops))) /\ forall o out, In (o, out) (y_hist (yrun ops)) -> length (outs_of out) = wanted o.
Proof. intros K. apply yi_all_runs in K as Y. split; [apply Y|apply Y]. Qed.

(** The first task that was not run can be run: what it depends on was submitted before. *)
Definition order (st : yst) : Prop := StronglySorted lt (map (fun t => length (rt_before t)) (y_pend st)).

Lemma sorted_snoc l k : StronglySorted lt l -> (forall x, In x l -> x < k) -> StronglySorted lt (l ++ [k]).
Proof.
  induction l as [|a l IH]; intros S' H; simpl; [repeat constructor|]. inversion S'; subst. constructor; [apply IH; auto; intros x I; apply H; simpl; auto|].
  apply Forall_app. split; auto. constructor; auto. apply H. simpl. auto.
Qed.

Lemma sorted_remove l1 (x : nat) l2 : StronglySorted lt (l1 ++ x :: l2) -> StronglySorted lt (l1 ++ l2).
Proof.
  induction l1 as [|a l1 IH]; simpl; intros H; inversion H; subst; auto. constructor; auto. apply Forall_app in H3 as [A B]. apply Forall_app. split; auto. inversion B; auto.
Qed.

Lemma order_runs ops : actors_known (y_hist (yrun ops)) -> order (yrun ops).
Proof.
  induction ops as [|o ops IH] using rev_ind; [intros _; constructor|]. rewrite yrun_snoc. intros K. assert (K' := known_tail _ _ K). assert (O := IH K'). assert (Y := yi_all_runs _ K').
  assert (Q : forall o n, order (enqueue (yrun ops) o n)).
  { intros o' n. unfold order, enqueue, called. cbn [y_pend]. rewrite map_app. apply sorted_snoc; auto. intros x I. apply (yi_less _ Y), in_or_app. auto. }
  destruct o; try exact O; try apply Q. destruct (run_cases (yrun ops) i) as [->|(t & r & acts & entered & N & _ & _ & ->)]; auto.
  unfold order in *. cbn [y_pend]. rewrite (split_nth _ _ _ N), map_app in O. cbn [map] in O. rewrite map_app. eapply sorted_remove; eauto.
Qed.

Lemma suffixes {A} (a b a' b' : list A) : a ++ b = a' ++ b' -> length b <= length b' -> exists m, b' = m ++ b.
Proof.
  revert a'. induction a as [|x a IH]; intros [|y a'] E L; simpl in *.
  - exists []. auto.
  - exfalso. rewrite E in L. simpl in L. rewrite app_length in L. lia.
  - exists (x :: a). auto.
  - inversion E. eauto.
Qed.

Lemma gather_some st l : forallb (available st) l = true -> exists X, gather st l = Some X.
Proof.
  induction l as [|v l IH]; simpl; intros H; [eauto|]. apply andb_true_iff in H as [A B]. destruct (IH B) as (X & E). destruct v; simpl in A; try (rewrite E; destruct X; eauto; fail).
  destruct (y_vals st d) as [[x|e]|]; [|eauto|discriminate]. rewrite E. destruct X; eauto.
Qed.

Lemma first_runs ops t l : legal (y_hist (yrun ops)) -> actors_known (y_hist (yrun ops)) -> y_pend (yrun ops) = t :: l -> y_pend (ystep (yrun ops) (YRun 0)) = l /\ y_hist (ystep (yrun ops) (YRun 0)) = y_hist (yrun ops).
Proof.
  intros L K P. assert (Y := yi_all_runs _ K). assert (O := order_runs _ K). set (st := yrun ops) in *. assert (It : In t (y_pend st)) by (rewrite P; simpl; auto).
  destruct (yi_pend _ Y t It) as ((h1 & H) & Tk). assert (Kn := L). rewrite H in Kn. apply legal_suffix in Kn.
  assert (Dep : forall d, In d (returned (rt_before t)) -> y_vals st d <> None).
  { intros d I. assert (I' : In d (returned (y_hist st))) by (rewrite H, returned_app, returned_cons; apply in_or_app; right; apply in_or_app; auto).
    destruct (yi_all _ Y d I') as [A|(u & A & B)]; auto. exfalso. destruct (yi_pend _ Y u A) as ((h2 & H2) & _).
    assert (Le : length (rt_before t) <= length (rt_before u)).
    { rewrite P in A. destruct A as [->|A]; auto. unfold order in O. rewrite P in O. inversion O; subst. rewrite Forall_forall in H4. specialize (H4 (length (rt_before u))).
      apply Nat.lt_le_incl, H4, in_map_iff. eauto. }
    destruct (suffixes (h1 ++ [(rt_op t, rt_res t)]) (rt_before t) (h2 ++ [(rt_op u, rt_res u)]) (rt_before u)) as (m & M); auto.
    { rewrite <- !app_assoc. simpl. congruence. }
    assert (Nd := yi_nodup _ Y). rewrite H2, returned_app, returned_cons in Nd. assert (Iu : In d (returned (rt_before u))) by (rewrite M, returned_app; apply in_or_app; auto).
    clear - Nd B Iu. induction (returned h2); simpl in Nd; [|inversion Nd; auto]. induction (outs_of (rt_res u)); [destruct B|]. simpl in Nd. inversion Nd; subst.
    destruct B as [->|B]; [apply H1, in_or_app; auto|auto]. }
  assert (Av : forallb (available st) (task_args (rt_op t)) = true).
  { apply forallb_forall. intros v I. destruct v; auto. simpl. assert (D := Dep d). destruct (y_vals st d); auto. exfalso. apply D; auto. apply Kn. destruct (rt_op t); simpl in I; try destruct I; simpl; apply in_or_app; left; apply in_top; auto. }
  assert (Ak : forallb (available st) (map snd (task_kw (rt_op t))) = true).
  { apply forallb_forall. intros v I. destruct v; auto. simpl. assert (D := Dep d). destruct (y_vals st d); auto. exfalso. apply D; auto. apply Kn. destruct (rt_op t); simpl in I; try destruct I; simpl; apply in_or_app; right; apply in_top; auto. }
  assert (Rn : runnable st 0 t = true).
  { unfold runnable. rewrite forallb_app, Av, Ak. destruct (rt_op t); reflexivity. }
  assert (Ex : exists r acts e, execute st (rt_op t) = Some (r, acts, e)).
  { unfold RayRunModel.execute. destruct (gather_some _ _ Av) as (X & ->). destruct (gather_some _ _ Ak) as (X' & ->). destruct X as [vs|e]; [|eauto]. destruct X' as [ks|e]; [|eauto].
    assert (Ac := yi_acts _ Y t). destruct (rt_op t) as [| | |a m args kw n| | |]; try destruct Tk; [eauto|]. specialize (Ac a It). simpl in Ac. rewrite Nat.eqb_refl in Ac. specialize (Ac eq_refl).
    apply nth_error_Some in Ac. destruct (nth_error (y_actors st) a) as [[s|]|]; [|eauto|congruence]. destruct (mbody m s vs _). eauto. }
  destruct Ex as (r & acts & e & Ex). unfold RayRunModel.ystep. rewrite P. cbn [nth_error]. rewrite Rn, Ex. split; reflexivity.
Qed.

Theorem complete ops : legal (y_hist (yrun ops)) -> actors_known (y_hist (yrun ops)) -> (forall i, ystep (yrun ops) (YRun i) = yrun ops) ->
  forall d, In d (returned (y_hist (yrun ops))) -> exists r, yget (yrun ops) d = Some r.
Proof.
  intros L K F d I. assert (Y := yi_all_runs _ K). assert (P : y_pend (yrun ops) = []).
  { destruct (y_pend (yrun ops)) as [|t l] eqn:P; auto. destruct (first_runs ops t l L K P) as [A _]. rewrite F, P in A. exfalso. clear - A. assert (X : length (t :: l) = length l) by congruence. simpl in X. lia. }
  destruct (yi_all _ Y d I) as [A|(t & A & _)]; [|rewrite P in A; destruct A]. unfold yget. destruct (y_vals (yrun ops) d); [eauto|congruence].
Qed.

Theorem finishes ops : legal (y_hist (yrun ops)) -> actors_known (y_hist (yrun ops)) ->
  exists k, y_hist (yrun (ops ++ repeat (YRun 0) k)) = y_hist (yrun ops) /\ y_pend (yrun (ops ++ repeat (YRun 0) k)) = [] /\
    forall d, In d (returned (y_hist (yrun ops))) -> exists r, yget (yrun (ops ++ repeat (YRun 0) k)) d = Some r.
Proof.
  intros L K. assert (Z : exists k, y_hist (yrun (ops ++ repeat (YRun 0) k)) = y_hist (yrun ops) /\ y_pend (yrun (ops ++ repeat (YRun 0) k)) = []).
  { remember (y_pend (yrun ops)) as l eqn:P. symmetry in P. revert ops L K P. induction l as [|t l IH]; intros ops L K P.
    - exists 0. simpl. rewrite app_nil_r. auto.
    - destruct (first_runs ops t l L K P) as [A B]. rewrite <- yrun_snoc in A, B. destruct (IH (ops ++ [YRun 0])) as (k & C & D); [rewrite B; auto|rewrite B; auto|auto|].
      exists (S k). rewrite <- app_assoc in C, D. simpl in *. rewrite C, D, B. auto. }
  destruct Z as (k & A & B). exists k. split; auto. split; auto. intros d I. assert (Y : YI (yrun (ops ++ repeat (YRun 0) k))) by (apply yi_all_runs; rewrite A; auto).
  rewrite <- A in I. destruct (yi_all _ Y d I) as [C|(t & C & _)]; [|rewrite B in C; destruct C]. unfold yget. destruct (y_vals (yrun (ops ++ repeat (YRun 0) k)) d); [eauto|congruence].
Qed.

End Ray.
