(** C98: PySeq and Ray. *)
From Verif Require Import Lib ValModel PyseqModel PyseqSpec PyseqProofs PortSpec PortHist PortShows RayRunModel RayRunSpec RayRunProofs.

Lemma pure_hist p rs h : plays p rs h -> forall o out, In (o, out) h ->
  match o with QPut v => In (CPut v) p | QSubmit f _ _ n _ => exists args kw, In (CFun f args kw n) p | QActor _ _ _ _ | QCall _ _ _ _ _ => False | _ => True end.
Proof.
  induction 1; intros o' out' I; simpl in I; [destruct I| | |].
  - destruct I as [E|I]; [inversion E; apply in_or_app; simpl; auto|]. specialize (IHplays _ _ I). destruct o'; auto; [apply in_or_app; auto|]. destruct IHplays as (a & k & X). exists a, k. apply in_or_app. auto.
  - destruct I as [E|I]; [inversion E; exists args, kw; apply in_or_app; simpl; auto|]. specialize (IHplays _ _ I). destruct o'; auto; [apply in_or_app; auto|]. destruct IHplays as (a & k & X). exists a, k. apply in_or_app. auto.
  - destruct I as [E|I]; [inversion E; subst; destruct o'; try destruct H0; auto|]. apply (IHplays _ _ I).
Qed.

(** ** References of the sequential backend *)
Section Seq.
Variable body : nat -> list val -> kwargs -> res.
Variable cbody : nat -> list val -> kwargs -> res.
Variable mbody : nat -> val -> list val -> kwargs -> res * val.
Variable item : val -> nat -> option val.

Definition NR (st : qst) (h : hist) : Prop := (forall d, In d (returned h) -> snd d < q_next st) /\ NoDup (returned h).
Definition fresh_out (st st' : qst) (out : qout) : Prop :=
  q_next st <= q_next st' /\ NoDup (refs_of out) /\ forall d, In d (refs_of out) -> q_next st <= snd d < q_next st'.

Lemma fresh_none st st' out : q_next st <= q_next st' -> refs_of out = [] -> fresh_out st st' out.
Proof. intros L E. unfold fresh_out. rewrite E. split; auto. split; [constructor|]. simpl. tauto. Qed.

Lemma put_items_fresh n : forall st v k st' o, put_items item st v k n = (st', o) ->
  q_next st <= q_next st' /\ match o with Some ds => NoDup ds /\ forall d, In d ds -> q_next st <= snd d < q_next st' | None => True end.
Proof.
  induction n as [|n IH]; intros st v k st' o E; simpl in E; [apply pair_inj in E as [<- <-]; split; auto; split; [constructor|simpl; tauto]|].
  destruct (index item v k) as [x|]; [|apply pair_inj in E as [<- <-]; auto]. destruct (put_items item _ v (S k) n) as [st2 [ds|]] eqn:P in E; apply pair_inj in E as [<- <-]; apply IH in P; simpl in P; destruct P as [L D].
  - split; [lia|]. destruct D as [N D]. split.
    + constructor; auto. intros I. apply D in I. simpl in I. lia.
    + intros d [<-|I]; [simpl; lia|]. apply D in I. lia.
  - split; [lia|auto].
Qed.

Lemma store_fresh st r n st' out : store_result item st r n = (st', out) -> fresh_out st st' out.
Proof.
  unfold store_result. intros E. destruct (Nat.eqb n 0); [apply pair_inj in E as [<- <-]; apply fresh_none; auto|]. destruct (Nat.ltb 1 n).
  - destruct (put_items item st _ 0 n) as [st2 [ds|]] eqn:P; apply pair_inj in E as [<- <-]; apply put_items_fresh in P as [L D]; [|apply fresh_none; auto]. split; auto.
  - simpl in E. apply pair_inj in E as [<- <-]. unfold fresh_out. simpl. split; [lia|]. split; [repeat constructor; auto|]. intros d [<-|[]]. simpl. lia.
Qed.

Lemma step_fresh st o st' out : qstep body cbody mbody item st o = (st', out) -> fresh_out st st' out.
Proof.
  assert (Q : forall out, refs_of out = [] -> fresh_out st st out) by (intros; apply fresh_none; auto).
  destruct o; simpl; intros E.
  - apply pair_inj in E as [<- <-]. unfold fresh_out. simpl. split; [lia|]. split; [repeat constructor; auto|]. intros d [<-|[]]. simpl. lia.
  - destruct reserve; [apply pair_inj in E as [<- <-]; auto|]. destruct (materialize st args); [destruct (materialize st (map snd kw))| |]; try (apply pair_inj in E as [<- <-]; auto; fail). eapply store_fresh; eauto.
  - destruct reserve; [apply pair_inj in E as [<- <-]; auto|]. destruct (cbody c args kw); apply pair_inj in E as [<- <-]; apply fresh_none; auto.
  - destruct (nth_error (q_actors st) a); [|apply pair_inj in E as [<- <-]; auto]. destruct (materialize st args); [destruct (materialize st (map snd kw))| |]; try (apply pair_inj in E as [<- <-]; auto; fail).
    destruct (mbody m v l (combine (map fst kw) l0)) as [r s'] eqn:B. apply store_fresh in E. exact E.
  - destruct (qget st v); apply pair_inj in E as [<- <-]; auto.
  - destruct (forallb is_ref l); [destruct (qgets st l)|]; apply pair_inj in E as [<- <-]; auto.
  - apply pair_inj in E as [<- <-]; auto.
Qed.

Lemma nr_run ops : forall st h st' h', NR st h -> qrun body cbody mbody item st h ops = (st', h') -> NR st' h'.
Proof.
  induction ops as [|o ops IH]; intros st h st' h' N E; simpl in E; [apply pair_inj in E as [<- <-]; auto|]. destruct (qstep body cbody mbody item st o) as [st1 out] eqn:S1.
  apply IH in E; auto. apply step_fresh in S1 as (L & D & F). destruct N as [A B]. split; rewrite returned_of.
  - intros d I. apply in_app_or in I as [I|I]; [apply F in I; lia|apply A in I; lia].
  - apply nodup_app'; auto. intros d I J. apply F in I. apply A in J. lia.
Qed.
End Seq.

Theorem seq_direct body prog : portable body prog -> forall c i r, shows_seq body prog c i r -> result_of (direct body prog) c i = Some r.
Proof.
  intros Po c i r (cbody & mbody & item & ops & st & h & rs & d & NE & R & L & Pl & Rf & G). assert (I : In d (returned h)) by (eapply plays_returned; eauto).
  assert (Pc : puts_clean h). { intros v out J. apply (pure_hist _ _ _ Pl) in J. destruct Po as (P1 & _). apply P1 in J. apply J. }
  assert (N : NoDup (returned h)). { apply (nr_run body cbody mbody item ops qinit [] st h); auto. split; [intros x []|constructor]. }
  apply (hist_direct body cbody mbody item prog rs h Pl Po N c i d r Rf).
  assert (X := get_direct body cbody mbody item NE ops st h d R L Pc I). destruct (outcome body cbody mbody item h d) as [[v|e]|]; [| |destruct X]; rewrite X in G; simpl in G; destruct r; congruence.
Qed.

Theorem ray_direct body prog : portable body prog -> forall c i r, shows_ray body prog c i r -> result_of (direct body prog) c i = Some r.
Proof.
  intros Po c i r (cbody & mbody & iter & wn & ad & ops & rs & d & L & Pl & Rf & G). set (st := yrun body cbody mbody iter wn ad ops) in *.
  assert (Ph := pure_hist _ _ _ Pl). assert (K : actors_known (y_hist st)).
  { clear - Ph. induction (y_hist st) as [|[o out] h IH]; simpl; auto. split; [|apply IH; intros o' out' I; apply (Ph o' out'); simpl; auto].
    intros a m args kw n ->. destruct (Ph (QCall a m args kw n) out); simpl; auto. }
  assert (Rn : right_numbers body mbody iter (y_hist st)).
  { split.
    - intros f args kw n b out vs ks I. apply Ph in I as (a & k & I). destruct Po as (_ & _ & P3). unfold fits. destruct (body f vs ks) as [v|e] eqn:B; auto.
      destruct (P3 f a k n vs ks v I B) as [X|(l & X & Ll)]; auto. right. exists l. split; auto. destruct X as [->| ->]; reflexivity.
    - intros a m args kw n out s vs ks I. destruct (Ph _ _ I). }
  assert (B : all_built cbody (y_hist st)). { intros k args kw b out I. destruct (Ph _ _ I). }
  assert (O := read body cbody mbody iter wn ad ops d r L K Rn B G). eapply hist_direct; eauto. apply (references body cbody mbody iter wn ad ops K).
Qed.
