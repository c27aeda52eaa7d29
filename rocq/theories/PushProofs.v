(** Proofs about sending data. *)
From Verif Require Import Lib ValModel PushModel.

Lemma push_some_app : forall a b p dest,
  push_some p dest (a ++ b) =
  let (p', ok) := push_some p dest a in if ok then push_some p' dest b else (p', false).
Proof.
  induction a as [|d a IH]; intros b p dest; simpl; [reflexivity|].
  destruct (push_ref p dest d) as [p'|]; [apply IH|reflexivity].
Qed.

Definition ok_of (x : pst * bool) : option pst := if snd x then Some (fst x) else None.

Lemma ok_app a b p dest : ok_of (push_some p dest (a ++ b)) =
  match ok_of (push_some p dest a) with Some p' => ok_of (push_some p' dest b) | None => None end.
Proof.
  rewrite push_some_app. unfold ok_of at 2. destruct (push_some p dest a) as [p' [|]]; reflexivity.
Qed.

Lemma push_data_refs v : forall p dest, push_data p dest v = ok_of (push_some p dest (refs v)).
Proof.
  induction v as [n|e|d|l IH|l IH|l IH] using val_ind'; intros p dest; try reflexivity.
  - simpl. destruct (push_ref p dest d); reflexivity.
  - simpl. revert p. induction l as [|x l IHl]; intros p; [reflexivity|].
    inversion IH as [|? ? Hx Hl]; subst. simpl flat_map. rewrite ok_app, Hx.
    destruct (ok_of (push_some p dest (refs x))); [|reflexivity]. apply IHl; exact Hl.
  - simpl. revert p. induction l as [|x l IHl]; intros p; [reflexivity|].
    inversion IH as [|? ? Hx Hl]; subst. simpl flat_map. rewrite ok_app, Hx.
    destruct (ok_of (push_some p dest (refs x))); [|reflexivity]. apply IHl; exact Hl.
  - simpl. revert p. induction l as [|x l IHl]; intros p; [reflexivity|].
    inversion IH as [|? ? Hx Hl]; subst. simpl flat_map. rewrite ok_app, Hx.
    destruct (ok_of (push_some p dest (refs (snd x)))); [|reflexivity]. apply IHl; exact Hl.
Qed.

(** Submission, in terms of the list of references. *)
Definition with_outputs (p : pst) (dest : rank) (outputs : list dataid) : pst :=
  {| p_store := p_store p; p_owner := fold_left (fun m d => dput m d dest) outputs (p_owner p);
     p_sent := p_sent p; p_out := p_out p |}.

Lemma submit_refs p dest n outputs task args kwargs :
  submit p dest n outputs task args kwargs =
  match ok_of (push_some (with_outputs p dest outputs) dest (refs task ++ refs args ++ refs kwargs)) with
  | Some p' => Some (send_task p' dest n)
  | None => None
  end.
Proof.
  unfold submit. fold (with_outputs p dest outputs). rewrite push_data_refs, ok_app.
  destruct (ok_of (push_some (with_outputs p dest outputs) dest (refs task))) as [p1|]; [|reflexivity].
  rewrite push_data_refs, ok_app.
  destruct (ok_of (push_some p1 dest (refs args))) as [p2|]; [|reflexivity].
  rewrite push_data_refs. reflexivity.
Qed.

Lemma is_sent_In l d r : is_sent l d r = true <-> In (d, r) l.
Proof.
  unfold is_sent. rewrite existsb_exists. split.
  - intros ([d' r'] & H & E). apply andb_true_iff in E. destruct E as (E1 & E2).
    apply did_eqb_eq in E1. apply Nat.eqb_eq in E2. simpl in *. now subst.
  - intros H. exists (d, r). split; [assumption|]. simpl.
    rewrite did_eqb_refl, Nat.eqb_refl. reflexivity.
Qed.

Lemma is_sent_not l d r : is_sent l d r = false <-> ~ In (d, r) l.
Proof. rewrite <- is_sent_In. destruct (is_sent l d r); split; intuition congruence. Qed.

(** [Pinv]: what is in the cache was sent. *)
Definition Pinv (p : pst) : Prop := forall d r, In (d, r) (p_sent p) -> In (r, MValue d) (p_out p).

Definition known (out : list (rank * msg)) (dest : rank) (d : dataid) : Prop :=
  In (dest, MValue d) out \/ exists o, In (dest, MOwner d o) out.

Lemma known_mono out out' dest d : known out dest d -> known (out ++ out') dest d.
Proof.
  intros [H|(o & H)]; [left|right; exists o]; apply in_or_app; auto.
Qed.

(** One reference. *)
Lemma push_ref_spec p dest d p' : Pinv p -> push_ref p dest d = Some p' ->
  Pinv p' /\ p_store p' = p_store p /\ p_owner p' = p_owner p /\
  (exists new, p_out p' = p_out p ++ new /\ forall e, In e new -> fst e = dest /\
     match snd e with MTask _ => False | _ => True end) /\
  known (p_out p') dest d.
Proof.
  intros HI H. unfold push_ref in H. destruct (did_in d (p_store p)) eqn:Es.
  - apply Some_inj in H. subst p'. unfold push_value.
    destruct (is_sent (p_sent p) d dest) eqn:E.
    + split; [assumption|]. split; [reflexivity|]. split; [reflexivity|]. split.
      * exists []. rewrite app_nil_r. split; [reflexivity|]. intros e [].
      * left. apply HI. now apply is_sent_In.
    + split; [|split; [reflexivity|split; [reflexivity|split]]].
      * intros d0 r0. simpl. rewrite in_app_iff. intros [H|[H|[]]].
        -- apply in_or_app. left. now apply HI.
        -- injection H as <- <-. apply in_or_app. right. left; reflexivity.
      * exists [(dest, MValue d)]. split; [reflexivity|]. intros e [<-|[]]. simpl; auto.
      * left. simpl. apply in_or_app. right. left; reflexivity.
  - destruct (p_owner p d) as [o|]; [|discriminate]. apply Some_inj in H. subst p'.
    unfold push_owner. split; [|split; [reflexivity|split; [reflexivity|split]]].
    + intros d0 r0 H. simpl. apply in_or_app. left. now apply HI.
    + exists [(dest, MOwner d o)]. split; [reflexivity|]. intros e [<-|[]]. simpl; auto.
    + right. exists o. simpl. apply in_or_app. right. left; reflexivity.
Qed.

Lemma push_some_spec dest : forall ds p, Pinv p ->
  let p' := fst (push_some p dest ds) in
  Pinv p' /\ p_store p' = p_store p /\ p_owner p' = p_owner p /\
  (exists new, p_out p' = p_out p ++ new /\ forall e, In e new -> fst e = dest /\
     match snd e with MTask _ => False | _ => True end) /\
  (snd (push_some p dest ds) = true -> forall d, In d ds -> known (p_out p') dest d).
Proof.
  induction ds as [|d ds IH]; intros p HI; simpl.
  - repeat split; auto.
    + exists []. rewrite app_nil_r. split; [reflexivity|]. intros e [].
    + intros _ d [].
  - destruct (push_ref p dest d) as [p1|] eqn:E; simpl.
    + destruct (push_ref_spec _ _ _ _ HI E) as (I1 & S1 & O1 & (n1 & N1 & F1) & K1).
      destruct (IH p1 I1) as (I2 & S2 & O2 & (n2 & N2 & F2) & K2).
      split; [assumption|]. split; [congruence|]. split; [congruence|]. split.
      * exists (n1 ++ n2). rewrite N2, N1, app_assoc. split; [reflexivity|].
        intros e H. apply in_app_iff in H. destruct H; auto.
      * intros Hok x [<-|Hx]; [|auto]. rewrite N2. now apply known_mono.
    + repeat split; auto.
      * exists []. rewrite app_nil_r. split; [reflexivity|]. intros e [].
      * discriminate.
Qed.

(** A submission fails exactly on unknown references. *)
Lemma push_some_ok dest : forall ds p,
  (snd (push_some p dest ds) = true <->
   forall d, In d ds -> In d (p_store p) \/ p_owner p d <> None).
Proof.
  induction ds as [|d ds IH]; intros p; simpl.
  - split; [intros _ d []|reflexivity].
  - destruct (push_ref p dest d) as [p1|] eqn:E.
    + assert (Hs : p_store p1 = p_store p /\ p_owner p1 = p_owner p).
      { unfold push_ref in E. destruct (did_in d (p_store p)).
        - apply Some_inj in E. subst p1. unfold push_value. destruct (is_sent _ _ _); auto.
        - destruct (p_owner p d); [|discriminate]. apply Some_inj in E. subst p1. auto. }
      destruct Hs as (Hs & Ho). rewrite IH, Hs, Ho. split.
      * intros H x [<-|Hx]; [|auto]. unfold push_ref in E.
        destruct (did_in d (p_store p)) eqn:Es.
        -- left. now apply did_in_In.
        -- right. destruct (p_owner p d); [discriminate|discriminate E].
      * intros H x Hx. apply H. auto.
    + split; [discriminate|]. intros H. exfalso. unfold push_ref in E.
      destruct (H d (or_introl eq_refl)) as [Hs|Ho].
      * apply did_in_In in Hs. rewrite Hs in E. discriminate.
      * destruct (did_in d (p_store p)); [discriminate|]. destruct (p_owner p d); congruence.
Qed.

Lemma pinv_with p dest outputs : Pinv p -> Pinv (with_outputs p dest outputs).
Proof. intros H. exact H. Qed.

Lemma pinv_step p o : Pinv p -> Pinv (pstep p o).
Proof.
  intros HI. destruct o as [dest n outputs task args kwargs|dest d|d|d r|d]; simpl.
  - rewrite submit_refs. fold (with_outputs p dest outputs).
    set (ds := refs task ++ refs args ++ refs kwargs).
    pose proof (push_some_spec dest ds (with_outputs p dest outputs) (pinv_with p dest outputs HI)) as H.
    simpl in H. destruct H as (I1 & _).
    unfold ok_of. destruct (push_some (with_outputs p dest outputs) dest ds) as [p' ok].
    destruct ok; simpl in *; [|exact I1].
    intros d r H. simpl. apply in_or_app. left. now apply I1.
  - destruct (did_in d (p_store p)); [|exact HI]. unfold push_value.
    destruct (is_sent (p_sent p) d dest) eqn:E; [exact HI|].
    intros d0 r0. simpl. rewrite in_app_iff. intros [H|[H|[]]].
    + apply in_or_app. left. now apply HI.
    + injection H as <- <-. apply in_or_app. right. left; reflexivity.
  - exact HI.
  - exact HI.
  - intros d0 r0 H. simpl in *. apply filter_In in H. apply HI. tauto.
Qed.

Lemma pinv_run ops : Pinv (prun ops).
Proof.
  unfold prun. assert (H : Pinv pinit) by (intros d r []). revert H. generalize pinit.
  induction ops as [|o ops IH]; intros p H; simpl; [exact H|]. apply IH. now apply pinv_step.
Qed.

(** C25 *)
Lemma submit_known ops dest n outputs task args kwargs p' :
  submit (prun ops) dest n outputs task args kwargs = Some p' ->
  exists before, p_out p' = before ++ [(dest, MTask n)] /\
    forall d, In d (refs task) \/ In d (refs args) \/ In d (refs kwargs) -> known before dest d.
Proof.
  rewrite submit_refs.
  set (ds := refs task ++ refs args ++ refs kwargs).
  pose proof (push_some_spec dest ds _ (pinv_with (prun ops) dest outputs (pinv_run ops))) as H.
  simpl in H. unfold ok_of. destruct (push_some _ dest ds) as [q ok]. simpl in H.
  destruct H as (_ & _ & _ & _ & HK). destruct ok; simpl; [|discriminate].
  intros E. apply Some_inj in E. subst p'. exists (p_out q). split; [reflexivity|].
  intros d Hd. apply HK; [reflexivity|]. unfold ds. rewrite !in_app_iff. tauto.
Qed.

Lemma fold_owner outputs (dest : rank) (m : dmap rank) d :
  fold_left (fun m d => dput m d dest) outputs m d <> None <-> In d outputs \/ m d <> None.
Proof.
  revert m. induction outputs as [|o outputs IH]; intros m; simpl.
  - tauto.
  - rewrite IH. destruct (did_dec o d) as [->|Hn].
    + rewrite dput_same. split; [tauto|]. intros _. right. discriminate.
    + rewrite dput_other by congruence. split; [tauto|]. intros [[H|H]|H]; [congruence|tauto|tauto].
Qed.

Lemma submit_fails ops dest n outputs task args kwargs :
  submit (prun ops) dest n outputs task args kwargs = None <->
  exists d, (In d (refs task) \/ In d (refs args) \/ In d (refs kwargs)) /\
            ~ In d (p_store (prun ops)) /\ p_owner (prun ops) d = None /\ ~ In d outputs.
Proof.
  rewrite submit_refs.
  set (ds := refs task ++ refs args ++ refs kwargs).
  pose proof (push_some_ok dest ds (with_outputs (prun ops) dest outputs)) as H.
  unfold ok_of. destruct (push_some _ dest ds) as [q ok]. simpl in *.
  assert (Hds : forall d, In d ds <-> In d (refs task) \/ In d (refs args) \/ In d (refs kwargs)).
  { intros d. unfold ds. rewrite !in_app_iff. tauto. }
  destruct ok; simpl.
  - split; [discriminate|]. intros (d & Hd & H1 & H2 & H3). exfalso.
    apply Hds in Hd. destruct H as (H & _). destruct (H eq_refl d Hd) as [Hs|Ho].
    + apply H1. exact Hs.
    + apply fold_owner in Ho. tauto.
  - split; [|reflexivity]. intros _. destruct H as (_ & H).
    destruct (Exists_dec (fun d => ~ In d (p_store (prun ops)) /\ p_owner (prun ops) d = None /\ ~ In d outputs) ds)
      as [Hex|Hno].
    + intros d. destruct (in_dec did_dec d (p_store (prun ops))); [right; tauto|].
      destruct (p_owner (prun ops) d); [right; intros (_ & ? & _); discriminate|].
      destruct (in_dec did_dec d outputs); [right; tauto|left; auto].
    + apply Exists_exists in Hex. destruct Hex as (d & Hd & Hp). exists d. apply Hds in Hd. auto.
    + exfalso. enough (false = true) by discriminate. apply H. intros d Hd.
      destruct (in_dec did_dec d (p_store (prun ops))) as [Hs|Hs]; [left; exact Hs|right].
      apply fold_owner. destruct (p_owner (prun ops) d) eqn:Eo; [right; discriminate|left].
      destruct (in_dec did_dec d outputs) as [Hi|Hi]; [exact Hi|exfalso]. apply Hno.
      apply Exists_exists. exists d. auto.
Qed.

(** ** C24: at most once between two "forgets" *)
Definition sends (d : dataid) (r : rank) (out : list (rank * msg)) : nat :=
  length (filter (fun e => Nat.eqb (fst e) r &&
                   match snd e with MValue x => did_eqb x d | _ => false end) out).

Lemma sends_app d r a b : sends d r (a ++ b) = sends d r a + sends d r b.
Proof. unfold sends. rewrite filter_app, app_length. reflexivity. Qed.

Definition forgets (d : dataid) (ops : list pop) : nat :=
  length (filter (fun o => match o with PForget x => did_eqb x d | _ => false end) ops).

(** [n] bounds the sends so far; one more is possible only if the pair is not in the cache. *)
Definition Sinv (d : dataid) (r : rank) (n : nat) (p : pst) : Prop :=
  sends d r (p_out p) <= (if is_sent (p_sent p) d r then n else pred n) /\ 0 < n.

Lemma is_sent_app l d r d' r' : is_sent (l ++ [(d', r')]) d r
  = is_sent l d r || (did_eqb d' d && Nat.eqb r' r).
Proof. unfold is_sent. rewrite existsb_app. simpl. now rewrite orb_false_r. Qed.

Lemma sinv_value d r n p dest x : Sinv d r n p -> Sinv d r n (push_value p dest x).
Proof.
  intros (H & Hn). unfold push_value. destruct (is_sent (p_sent p) x dest) eqn:E; [split; auto|].
  split; [|exact Hn]. simpl. rewrite sends_app, is_sent_app. unfold sends at 2. simpl.
  destruct (did_eqb x d) eqn:E1, (Nat.eqb dest r) eqn:E2; simpl;
    rewrite ?orb_true_r, ?orb_false_r; try (destruct (is_sent (p_sent p) d r); simpl in *; lia).
  apply did_eqb_eq in E1. apply Nat.eqb_eq in E2. subst x dest. rewrite E in *. lia.
Qed.

Lemma sinv_ref d r n p dest x p' : Sinv d r n p -> push_ref p dest x = Some p' -> Sinv d r n p'.
Proof.
  intros H E. unfold push_ref in E. destruct (did_in x (p_store p)).
  - apply Some_inj in E. subst p'. now apply sinv_value.
  - destruct (p_owner p x); [|discriminate]. apply Some_inj in E. subst p'.
    destruct H as (H & Hn). split; [|exact Hn]. simpl. rewrite sends_app. unfold sends at 2. simpl.
    rewrite andb_false_r. simpl. lia.
Qed.

Lemma sinv_some d r n dest : forall ds p, Sinv d r n p -> Sinv d r n (fst (push_some p dest ds)).
Proof.
  induction ds as [|x ds IH]; intros p H; simpl; [exact H|].
  destruct (push_ref p dest x) as [p'|] eqn:E; [|exact H]. apply IH. eapply sinv_ref; eauto.
Qed.

Lemma is_sent_forget l x d r :
  is_sent (filter (fun y => negb (did_eqb (fst y) x)) l) d r
  = if did_eqb x d then false else is_sent l d r.
Proof.
  destruct (did_eqb x d) eqn:E.
  - apply did_eqb_eq in E. subst x. apply is_sent_not. intros H. apply filter_In in H.
    destruct H as (_ & H). simpl in H. rewrite did_eqb_refl in H. discriminate.
  - unfold is_sent. induction l as [|[d' r'] l IH]; [reflexivity|]. simpl.
    destruct (did_eqb d' x) eqn:E1; simpl.
    + rewrite IH. apply did_eqb_eq in E1. subst d'. rewrite E. reflexivity.
    + rewrite IH. reflexivity.
Qed.

Lemma sinv_step d r n p o : Sinv d r n p ->
  Sinv d r (match o with PForget x => if did_eqb x d then S n else n | _ => n end) (pstep p o).
Proof.
  intros HI. destruct o as [dest m outputs task args kwargs|dest x|x|x y|x]; simpl.
  - rewrite submit_refs. fold (with_outputs p dest outputs).
    set (ds := refs task ++ refs args ++ refs kwargs).
    assert (H : Sinv d r n (fst (push_some (with_outputs p dest outputs) dest ds)))
      by (apply sinv_some; exact HI).
    unfold ok_of. destruct (push_some (with_outputs p dest outputs) dest ds) as [p' ok].
    destruct ok; simpl in *; [|exact H].
    destruct H as (H & Hn). split; [|exact Hn]. simpl. rewrite sends_app.
    unfold sends at 2. simpl. rewrite andb_false_r. simpl. lia.
  - destruct (did_in x (p_store p)); [|exact HI]. now apply sinv_value.
  - exact HI.
  - exact HI.
  - destruct HI as (H & Hn). unfold Sinv. simpl. rewrite is_sent_forget.
    destruct (did_eqb x d); simpl; [|split; [exact H|exact Hn]].
    split; [|lia]. destruct (is_sent (p_sent p) d r); lia.
Qed.

Lemma forgets_app d a b : forgets d (a ++ b) = forgets d a + forgets d b.
Proof. unfold forgets. rewrite filter_app, app_length. reflexivity. Qed.

Lemma sinv_run ops d r : Sinv d r (S (forgets d ops)) (prun ops).
Proof.
  unfold prun. induction ops as [|o ops IH] using rev_ind.
  - split; [unfold sends; simpl|]; lia.
  - rewrite fold_left_app. simpl. pose proof (sinv_step d r _ _ o IH) as H.
    rewrite forgets_app. unfold forgets at 2. simpl.
    destruct o as [dest m outputs task args kwargs|dest x|x|x y|x]; simpl in *;
      rewrite ?Nat.add_0_r; try exact H.
    destruct (did_eqb x d); simpl; rewrite ?Nat.add_0_r, ?Nat.add_1_r; exact H.
Qed.

Lemma at_most_once ops d r : sends d r (p_out (prun ops)) <= 1 + forgets d ops.
Proof.
  destruct (sinv_run ops d r) as (H & _). destruct (is_sent _ _ _); simpl in H; lia.
Qed.

Lemma no_forgets d ops : (forall x, In (PForget x) ops -> x <> d) -> forgets d ops = 0.
Proof.
  intros H. unfold forgets. induction ops as [|o ops IH]; [reflexivity|]. simpl.
  assert (IH' := IH (fun x Hx => H x (or_intror Hx))).
  destruct o; simpl; auto.
  destruct (did_eqb d0 d) eqn:E; [|exact IH'].
  exfalso. apply did_eqb_eq in E. apply (H d0); [left; reflexivity|exact E].
Qed.
