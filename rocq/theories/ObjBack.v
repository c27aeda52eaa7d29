(** C99: the backends with histories. *)
From Verif Require Import Lib ValModel PyseqModel PyseqSpec PyseqProofs PortSpec PortHist ObjSpec ObjHist.
From Verif Require PortSeq PortPymp RayRunModel RayRunSpec RayRunProofs PympModel PympSpec PympProofs PympProps.

Section Facts.
Variable body : nat -> list val -> kwargs -> res.
Variable cbody : nat -> list val -> kwargs -> res.
Variable mbody : nat -> val -> list val -> kwargs -> res * val.

Lemma ohist p rs hs h : oplays p rs hs h -> forall o out, In (o, out) h ->
  match o with
  | QPut v => In (TPut v) p
  | QSubmit f _ _ n _ => exists args kw, In (TFun f args kw n) p
  | QActor c args kw _ => In (TMake c args kw) p
  | QCall _ m _ _ n => exists a args kw, In (TMeth a m args kw n) p
  | _ => True
  end.
Proof.
  assert (W : forall p x o, match o with QPut v => In (TPut v) p | QSubmit f _ _ n _ => exists args kw, In (TFun f args kw n) p | QActor c args kw _ => In (TMake c args kw) p
      | QCall _ m _ _ n => exists a args kw, In (TMeth a m args kw n) p | _ => True end ->
    match o with QPut v => In (TPut v) (p ++ [x]) | QSubmit f _ _ n _ => exists args kw, In (TFun f args kw n) (p ++ [x]) | QActor c args kw _ => In (TMake c args kw) (p ++ [x])
      | QCall _ m _ _ n => exists a args kw, In (TMeth a m args kw n) (p ++ [x]) | _ => True end).
  { intros p' x [] H; auto; try (apply in_or_app; auto; fail); [destruct H as (a & k & H); exists a, k|destruct H as (b & a1 & k & H); exists b, a1, k]; apply in_or_app; auto. }
  induction 1 as [|p rs hs h v d0 Pl IH|p rs hs h f args kw n b vs ks out Pl IH Fa Fk Ln|p rs hs h c0 args kw b x0 Pl IH|p rs hs h a0 x0 m args kw n vs ks out Pl IH Hx Fa Fk Ln|p rs hs h o out Pl IH Lk Ro];
    intros o' out' I; simpl in I; [destruct I| | | | |]; destruct I as [E|I].
  - inversion E; subst. apply in_or_app. simpl. auto.
  - apply (W p _ o' (IH _ _ I)).
  - inversion E; subst. exists args, kw. apply in_or_app. simpl. auto.
  - apply (W p _ o' (IH _ _ I)).
  - inversion E; subst. apply in_or_app. simpl. auto.
  - apply (W p _ o' (IH _ _ I)).
  - inversion E; subst. exists a0, args, kw. apply in_or_app. simpl. auto.
  - apply (W p _ o' (IH _ _ I)).
  - inversion E; subst. destruct o'; try destruct Lk; auto.
  - apply (IH _ _ I).
Qed.

Lemma oplays_made p rs hs h : oplays p rs hs h -> forall x, In x hs -> exists o, In (o, OActor x) h.
Proof.
  induction 1; intros y I; try (destruct (IHoplays _ I) as (o' & J); exists o'; simpl; auto; fail); [destruct I|].
  apply in_app_or in I as [I|[<-|[]]]; [destruct (IHoplays _ I) as (o' & J); exists o'; simpl; auto|exists (QActor c args kw b); simpl; auto].
Qed.

Lemma oplays_known p rs hs h : oplays p rs hs h -> RayRunSpec.actors_known h.
Proof.
  induction 1; simpl; auto; split; auto; intros a' m' args' kw' n' E; try discriminate E.
  - inversion E; subst. eapply oplays_made; eauto using nth_error_In.
  - subst o. destruct H0.
Qed.
End Facts.

(** *** PySeq *)
Section Seq.
Variable body : nat -> list val -> kwargs -> res.
Variable cbody : nat -> list val -> kwargs -> res.
Variable mbody : nat -> val -> list val -> kwargs -> res * val.
Variable item : val -> nat -> option val.

Definition grows (n n' : nat) (out : qout) : Prop := match out with OActor x => x = n /\ n' = S n | _ => n' = n end.

Lemma items_actors n : forall st v k, q_actors (fst (put_items item st v k n)) = q_actors st.
Proof.
  induction n as [|n IH]; intros st v k; simpl; auto. destruct (index item v k) as [x|]; auto. specialize (IH {| q_next := S (q_next st); q_store := dput (q_store st) (0, q_next st) x; q_actors := q_actors st |} v (S k)).
  destruct (put_items item _ v (S k) n) as [st2 [ds|]]; simpl in *; auto.
Qed.

Lemma store_grows st r n st' out : store_result item st r n = (st', out) -> grows (length (q_actors st)) (length (q_actors st')) out.
Proof.
  unfold store_result. destruct (Nat.eqb n 0); [intros E; apply pair_inj in E as [<- <-]; reflexivity|]. destruct (Nat.ltb 1 n).
  - match goal with |- context [put_items item st ?v 0 n] => assert (I := items_actors n st v 0); destruct (put_items item st v 0 n) as [st2 [ds|]] end; intros E; apply pair_inj in E as [<- <-]; simpl in *; congruence.
  - simpl. intros E. apply pair_inj in E as [<- <-]. reflexivity.
Qed.

Lemma step_grows st o st' out : qstep body cbody mbody item st o = (st', out) -> grows (length (q_actors st)) (length (q_actors st')) out.
Proof.
  destruct o; simpl; intros E.
  - apply pair_inj in E as [<- <-]. reflexivity.
  - destruct reserve; [apply pair_inj in E as [<- <-]; reflexivity|]. destruct (materialize st args); [destruct (materialize st (map snd kw))| |]; try (apply pair_inj in E as [<- <-]; reflexivity). eapply store_grows; eauto.
  - destruct reserve; [apply pair_inj in E as [<- <-]; reflexivity|]. destruct (cbody c args kw); apply pair_inj in E as [<- <-]; simpl; auto. rewrite app_length. simpl. split; auto. lia.
  - destruct (nth_error (q_actors st) a) as [s|] eqn:N; [|apply pair_inj in E as [<- <-]; reflexivity]. destruct (materialize st args); [destruct (materialize st (map snd kw))| |]; try (apply pair_inj in E as [<- <-]; reflexivity).
    destruct (mbody m s l (combine (map fst kw) l0)) as [r s'] eqn:B. apply store_grows in E. assert (L : length (q_actors (set_actor st a s')) = length (q_actors st)).
    { apply (set_at_length (q_actors st) a s'). apply nth_error_Some. congruence. } rewrite L in E. exact E.
  - destruct (qget st v); apply pair_inj in E as [<- <-]; reflexivity.
  - destruct (forallb is_ref l); [destruct (qgets st l)|]; apply pair_inj in E as [<- <-]; reflexivity.
  - apply pair_inj in E as [<- <-]; reflexivity.
Qed.

Lemma made_step n n' o out h : grows n n' out -> (forall x, In x (made h) -> x < n) -> NoDup (made h) -> (forall x, In x (made ((o, out) :: h)) -> x < n') /\ NoDup (made ((o, out) :: h)).
Proof.
  intros G L N. unfold made in *. cbn [flat_map snd]. destruct out; simpl in *; subst; auto. destruct G as [-> ->]. split.
  - intros x [<-|I]; [lia|]. apply L in I. lia.
  - constructor; auto. intros I. apply L in I. lia.
Qed.

Lemma seq_made ops : forall st h st' h', (forall x, In x (made h) -> x < length (q_actors st)) -> NoDup (made h) -> qrun body cbody mbody item st h ops = (st', h') -> NoDup (made h').
Proof.
  induction ops as [|o ops IH]; intros st h st' h' L N E; simpl in E; [apply pair_inj in E as [<- <-]; auto|]. destruct (qstep body cbody mbody item st o) as [st1 out] eqn:S1.
  destruct (made_step _ _ o _ h (step_grows _ _ _ _ S1) L N). eapply IH; eauto.
Qed.
End Seq.

Theorem oseq_direct body cbody mbody prog : oportable body cbody mbody prog -> forall c i r, oshows_seq body cbody mbody prog c i r ->
  result_of (fst (odirect body cbody mbody prog)) c i = Some r.
Proof.
  intros Po c i r (item & ops & st & h & rs & hs & d & NE & R & L & Pl & Rf & G).
  assert (N : NoDup (returned h)). { apply (PortSeq.nr_run body cbody mbody item ops qinit [] st h); auto. split; [intros x []|constructor]. }
  assert (M : NoDup (made h)). { apply (seq_made body cbody mbody item ops qinit [] st h); auto; [intros x []|constructor]. }
  assert (I := oi_in _ _ _ _ _ _ _ _ (oi_plays body cbody mbody item _ _ _ _ Pl Po N M) _ _ _ Rf).
  assert (Pc : puts_clean h). { intros v out J. apply (ohist _ _ _ _ Pl) in J. destruct Po as (P1 & _). apply P1 in J. apply J. }
  apply (obj_direct body cbody mbody item prog rs hs h Pl Po N M c i d r Rf).
  assert (X := get_direct body cbody mbody item NE ops st h d R L Pc I). destruct (outcome body cbody mbody item h d) as [[v|e]|]; [| |destruct X]; rewrite X in G; simpl in G; destruct r; congruence.
Qed.

(** *** PyMp *)
Section Pymp.
Import PympModel.
Variable nw : nat.
Variable body : nat -> list val -> kwargs -> res.
Variable cbody : nat -> list val -> kwargs -> res.
Variable mbody : nat -> val -> list val -> kwargs -> res * val.
Variable item : val -> nat -> option val.
Variable iterable callable bytes : val -> bool.
Variable dumps : val -> val.
Variable loads : val -> res.
Variable storable : val -> bool.
Notation step := (pstep nw body cbody mbody item iterable callable bytes dumps loads storable).
Notation run := (prun nw body cbody mbody item iterable callable bytes dumps loads storable).

Lemma same_length l l' : PympProofs.same_actors l l' -> length l' = length l.
Proof.
  intros S. assert (T : forall b, nth_error l' b = None <-> nth_error l b = None). { intros b. specialize (S b). destruct (nth_error l' b), (nth_error l b); simpl in S; split; congruence. }
  apply Nat.le_antisymm; apply nth_error_None; apply T, nth_error_None; auto.
Qed.

Lemma kill_length l a : length (kill l a) = length l.
Proof.
  unfold kill. destruct (nth_error l a) as [t|] eqn:E; auto. assert (a < length l) by (apply nth_error_Some; congruence). rewrite app_length. cbn [length]. rewrite firstn_length_le, skipn_length by lia. lia.
Qed.

Lemma pstep_grows st o st' e : step st o = (st', e) -> match e with Some x => grows (length (p_actors st)) (length (p_actors st')) (snd x) | None => length (p_actors st') = length (p_actors st) end.
Proof.
  assert (Z : forall ds n, grows n n (refs_out ds)) by (intros [|a [|b l]] n; reflexivity).
  destruct o; simpl; intros E.
  - apply pair_inj in E as [<- <-]. reflexivity.
  - destruct (pick nw (p_grab st) (p_wid st) nw) as [[w|] wid]; apply pair_inj in E as [<- <-]; simpl; auto.
  - destruct (cbody c args kw); [destruct (grab_worker nw (p_grab st))|]; apply pair_inj in E as [<- <-]; simpl; auto. rewrite app_length. simpl. split; [auto|lia].
  - destruct (nth_error (p_actors st) a) as [x|]; [destruct (t_live x)|]; apply pair_inj in E as [<- <-]; auto. simpl. apply Z.
  - destruct (nth_error (p_actors st) a) as [x|]; [destruct (t_live x)|]; apply pair_inj in E as [<- <-]; auto. simpl. apply kill_length.
  - apply pair_inj in E as [<- <-]. unfold take. destruct (p_queue st w) as [|t q]; auto. destruct (p_dead st w || p_taken st w); auto. destruct (gone (p_actors st) t); auto.
  - destruct (work body mbody item iterable bytes loads storable st w) as [s|] eqn:W; apply pair_inj in E as [<- <-]; auto.
    apply PympProofs.work_spec in W as (t & q & r & m & ok & acts & _ & _ & _ & S & -> & _). simpl. apply same_length. auto.
Qed.

Lemma pymp_made ops : forall st h st' h', (forall x, In x (made h) -> x < length (p_actors st)) -> NoDup (made h) -> run st h ops = (st', h') -> NoDup (made h').
Proof.
  induction ops as [|o ops IH]; intros st h st' h' L N E; simpl in E; [apply pair_inj in E as [<- <-]; auto|]. destruct (step st o) as [st1 e] eqn:S1. apply pstep_grows in S1.
  destruct e as [[q out]|].
  - destruct (made_step _ _ q _ h S1 L N). eapply IH; eauto.
  - apply (IH st1 h st' h'); auto. intros x I. rewrite S1. auto.
Qed.
End Pymp.

Theorem opymp_direct body cbody mbody prog : oportable body cbody mbody prog -> forall c i r, oshows_pymp body cbody mbody prog c i r ->
  result_of (fst (odirect body cbody mbody prog)) c i = Some r.
Proof.
  intros Po c i r (nw & item & iterable & callable & bytes & dumps & loads & storable & ops & st & h & rs & hs & d & Nw & PR' & PK & R & L & PP & HK & Pl & Rf & G).
  assert (N : NoDup (returned h)). { apply (PortPymp.pr_run nw body cbody mbody item iterable callable bytes dumps loads storable ops PympModel.pinit [] st h); auto. split; [intros x []|constructor]. }
  assert (M : NoDup (made h)). { apply (pymp_made nw body cbody mbody item iterable callable bytes dumps loads storable ops PympModel.pinit [] st h); auto; [intros x []|constructor]. }
  assert (I := oi_in _ _ _ _ _ _ _ _ (oi_plays body cbody mbody item _ _ _ _ Pl Po N M) _ _ _ Rf).
  apply (obj_direct body cbody mbody item prog rs hs h Pl Po N M c i d r Rf).
  apply (PympProps.C55_read_partial nw Nw body cbody mbody item iterable callable bytes dumps loads storable PR' PK ops st h d r R L PP HK I G).
Qed.

(** *** Ray *)
Section Ray.
Import RayRunModel RayRunSpec RayRunProofs.
Variable body : nat -> list val -> kwargs -> res.
Variable cbody : nat -> list val -> kwargs -> res.
Variable mbody : nat -> val -> list val -> kwargs -> res * val.
Variable iter : val -> option (list val).
Variable wrong_number actor_died : nat.
Notation yrun := (yrun body cbody mbody iter wrong_number actor_died).

Lemma made_in h x : In x (made h) <-> exists o, In (o, OActor x) h.
Proof.
  unfold made. rewrite in_flat_map. split.
  - intros ([o out] & I & J). simpl in J. destruct out; try destruct J; [subst; eauto|contradiction].
  - intros (o & I). exists (o, OActor x). simpl. auto.
Qed.

Lemma wrap_made o ds h : made ((o, wrap ds) :: h) = made h.
Proof. destruct ds as [|a [|b l]]; reflexivity. Qed.

Lemma ray_made ops : actors_known (y_hist (yrun ops)) -> NoDup (made (y_hist (yrun ops))).
Proof.
  induction ops as [|o ops IH] using rev_ind; [intros _; constructor|]. rewrite yrun_snoc. intros K. assert (K' := known_tail _ _ _ _ _ _ _ _ K). specialize (IH K'). destruct o.
  - exact IH.
  - unfold ystep, enqueue, called. cbn [y_hist]. rewrite wrap_made. exact IH.
  - unfold ystep, called. cbn [y_hist]. change (NoDup (length (y_actors (yrun ops)) :: made (y_hist (yrun ops)))). constructor; auto. intros I. apply made_in in I as (o & I).
    apply (yi_made _ (yi_all_runs _ _ _ _ _ _ ops K')) in I. lia.
  - unfold ystep, enqueue, called. cbn [y_hist]. rewrite wrap_made. exact IH.
  - destruct (run_cases body cbody mbody iter wrong_number actor_died (yrun ops) i) as [->|(t & r & acts & entered & _ & _ & _ & ->)]; exact IH.
Qed.
End Ray.

Theorem oray_direct body cbody mbody prog : oportable body cbody mbody prog -> forall c i r, oshows_ray body cbody mbody prog c i r ->
  result_of (fst (odirect body cbody mbody prog)) c i = Some r.
Proof.
  intros Po c i r (iter & wn & ad & ops & rs & hs & d & L & Pl & Rf & G). set (st := RayRunModel.yrun body cbody mbody iter wn ad ops) in *.
  assert (Ph := ohist _ _ _ _ Pl). assert (K := oplays_known _ _ _ _ Pl).
  assert (Fi : forall n r, enough n r -> RayRunSpec.fits iter n r).
  { intros n [v|e] F; simpl; auto. destruct (F v eq_refl) as [X|(l & X & Ll)]; auto. right. exists l. split; auto. destruct X as [->| ->]; reflexivity. }
  assert (Rn : RayRunSpec.right_numbers body mbody iter (RayRunModel.y_hist st)).
  { destruct Po as (_ & _ & _ & P4 & P5 & _). split.
    - intros f args kw n b out vs ks I. apply Ph in I as (a & k & I). apply Fi. eapply P4; eauto.
    - intros a m args kw n out s vs ks I. apply Ph in I as (a' & a1 & k & I). apply Fi. eapply P5; eauto. }
  assert (B : RayRunSpec.all_built cbody (RayRunModel.y_hist st)).
  { intros k args kw b out I. apply Ph in I. destruct Po as (_ & _ & _ & _ & _ & P6). destruct (P6 _ _ _ I) as [S V]. split; auto. intros x J. apply V in J. destruct J as (J & _). discriminate J. }
  assert (O := RayRunProofs.read body cbody mbody iter wn ad ops d r L K Rn B G).
  apply (obj_direct body cbody mbody (RayRunSpec.item_of iter) prog rs hs (RayRunModel.y_hist st) Pl Po) with (d := d); auto.
  - apply (RayRunProofs.references body cbody mbody iter wn ad ops K).
  - apply ray_made. exact K.
Qed.

(** *** Together *)
Lemma all_direct body cbody mbody prog : oportable body cbody mbody prog -> forall b c i r, b <> OnDask -> oshows b body cbody mbody prog c i r ->
  result_of (fst (odirect body cbody mbody prog)) c i = Some r.
Proof. intros Po [] c i r N S; [eapply oseq_direct|eapply opymp_direct|eapply oray_direct|congruence]; eauto. Qed.

Lemma all_same body cbody mbody prog : oportable body cbody mbody prog -> forall b b' c i r r', b <> OnDask -> b' <> OnDask ->
  oshows b body cbody mbody prog c i r -> oshows b' body cbody mbody prog c i r' -> r = r'.
Proof. intros Po b b' c i r r' N N' S S'. apply all_direct in S; auto. apply all_direct in S'; auto. congruence. Qed.
