(** A worker that has been told to forget some data, next to one that has not: both do the same except for that
    data (C51). *)
From Verif Require Import Lib ValModel ShmModel WorkerModel WorkerSpec WorkerProofs WorkerLog.

(** The events of the first log are those of the second, except that values of the references in K may not have been
    sent. *)
Inductive fewer (K : list dataid) : list wev -> list wev -> Prop :=
| fewer_nil : fewer K [] []
| fewer_keep e a b : fewer K a b -> fewer K (e :: a) (e :: b)
| fewer_drop x d v p a b : In d K -> fewer K a b -> fewer K a (EvPut x d v p :: b).

Lemma fewer_app K a b a' b' : fewer K a b -> fewer K a' b' -> fewer K (a ++ a') (b ++ b').
Proof. induction 1; simpl; intros H'; auto; [apply fewer_keep | apply fewer_drop]; auto. Qed.

Lemma fewer_refl K a : fewer K a a.
Proof. induction a; constructor; auto. Qed.

(** r has been told to forget K, g has not. own: the references asked of this worker. P: what is pending on both. *)
Record RW (K : list dataid) (own : dataid -> Prop) (P : list request) (r g : wst) : Prop := {
  rw_store : forall d, ~ In d K -> store r d = store g d;
  rw_gone : forall d, In d K -> own d -> store r d = None;
  rw_owner : forall d, ~ In d K -> owner r d = owner g d;
  rw_reqs : reqs r = reqs g;
  rw_sent : forall d x, ~ In d K -> pair_in (d, x) (sent r) = pair_in (d, x) (sent g);
  rw_gets : forall d, ~ In d K -> ranks_of d (gets r) = ranks_of d (gets g);
  rw_bgets : forall d, ~ In d K -> ranks_of d (bgets r) = ranks_of d (bgets g);
  rw_pend : pend r = P;
  rw_pend' : pend g = P;
  rw_apend : apend r = [];
  rw_apend' : apend g = [];
  rw_running : running r = running g;
  rw_calls : calls r = calls g;
  rw_ready : ready r = ready g;
  rw_clean : forall d v, ~ In d K -> store g d = Some v -> refs v = []
}.

Definition Rel K own P (r0 g0 r g : wst) : Prop :=
  RW K own P r g /\ exists nr ng, log r = log r0 ++ nr /\ log g = log g0 ++ ng /\ fewer K nr ng.

(** A request that does not mention what is forgotten. *)
Definition apart (K : list dataid) (q : request) : Prop :=
  (forall d, In d (qrefs q) -> ~ In d K) /\ (forall d, q_fn q = FRef d -> ~ In d K) /\
  (forall d, In d (out_ids (q_out q)) -> ~ In d K).

(** The same request with fewer references left. *)
Definition rest_of (q' q : request) : Prop := incl (qrefs q') (qrefs q) /\ q_fn q' = q_fn q /\ q_out q' = q_out q.

Lemma rest_refl q : rest_of q q.
Proof. split; auto. apply incl_refl. Qed.

Section Ghost.
Variable K : list dataid.
Variable own : dataid -> Prop.
Variable P : list request.
Variables r0 g0 : wst.
Notation rel := (Rel K own P r0 g0).

Lemma rel_emit r g e : rel r g -> rel (emit r e) (emit g e).
Proof.
  intros [[] (nr & ng & Lr & Lg & F)]. split; [split; auto|]. exists (nr ++ [e]), (ng ++ [e]). simpl.
  rewrite Lr, Lg, !app_assoc. split; auto. split; auto. apply fewer_app; auto. apply fewer_refl.
Qed.

Lemma rel_silent r g r' g' : rel r g -> log r' = log r -> log g' = log g -> RW K own P r' g' -> rel r' g'.
Proof. intros [_ (nr & ng & Lr & Lg & F)] E E' R. split; auto. exists nr, ng. rewrite E, E'. auto. Qed.

Lemma rel_lost r g g' x d v b : rel r g -> In d K -> log g' = log g ++ [EvPut x d v b] -> RW K own P r g' -> rel r g'.
Proof.
  intros [_ (nr & ng & Lr & Lg & F)] I E R. split; auto. exists nr, (ng ++ [EvPut x d v b]).
  rewrite E, Lg, app_assoc. split; auto. split; auto. rewrite <- (app_nil_r nr). apply fewer_app; auto.
  apply fewer_drop; auto. constructor.
Qed.

Lemma ranks_add d x d' l : ranks_of d' (add_pair (d, x) l) =
  if did_eqb d d' then (if pair_in (d, x) l then ranks_of d' l else ranks_of d' l ++ [x]) else ranks_of d' l.
Proof.
  unfold add_pair. destruct (pair_in (d, x) l); [destruct (did_eqb d d'); auto|].
  unfold ranks_of. rewrite filter_app, map_app. simpl. destruct (did_eqb d d'); simpl; rewrite ?app_nil_r; auto.
Qed.

Lemma pair_in_ranks d x l : pair_in (d, x) l = existsb (Nat.eqb x) (ranks_of d l).
Proof.
  unfold ranks_of, pair_in. induction l as [|[d' y] l IH]; simpl; auto. unfold pair_eqb at 1. simpl.
  rewrite (did_eqb_sym d d'). destruct (did_eqb d' d); simpl; rewrite ?IH; auto.
Qed.

Lemma ranks_add_same d x d' l l' : ranks_of d l = ranks_of d l' -> ranks_of d' l = ranks_of d' l' ->
  ranks_of d' (add_pair (d, x) l) = ranks_of d' (add_pair (d, x) l').
Proof. intros E E'. rewrite !ranks_add, !pair_in_ranks, E, E'. auto. Qed.

Lemma pair_in_app p a b : pair_in p (a ++ b) = pair_in p a || pair_in p b.
Proof. apply existsb_app. Qed.

Lemma pair_in_other d d' x y : d <> d' -> pair_in (d, x) [(d', y)] = false.
Proof. intros N. unfold pair_in. simpl. unfold pair_eqb. simpl. rewrite (proj2 (did_eqb_neq _ _) N). auto. Qed.

(** The worker is asked for something that is not forgotten. *)
Lemma rel_get r g s d b : rel r g -> ~ In d K -> rel (process_get r s d b) (process_get g s d b).
Proof.
  intros R N. assert (R' := R). destruct R as [W _]. unfold process_get. rewrite (rw_store _ _ _ _ _ W d N).
  destruct (store g d) as [v|] eqn:S.
  - rewrite (rw_sent _ _ _ _ _ W d s N). destruct (pair_in (d, s) (sent g)); auto. apply rel_emit.
    apply (rel_silent r g); auto. destruct W as [W1 W2 W3 W4 W5 W6 W7 W8 W9 W10 W11 W12 W13 W14 W15]. split; auto. simpl.
    intros x y Nx. rewrite !pair_in_app, W5; auto.
  - apply (rel_silent r g); [auto|destruct b; auto|destruct b; auto|].
    destruct W as [W1 W2 W3 W4 W5 W6 W7 W8 W9 W10 W11 W12 W13 W14 W15].
    destruct b; split; auto; simpl; intros x Nx; apply ranks_add_same; auto.
Qed.

(** It is asked for something forgotten. *)
Lemma rel_get_gone r g s d b : rel r g -> In d K -> own d -> rel (process_get r s d b) (process_get g s d b).
Proof.
  intros R I O. assert (R' := R). destruct R as [W _]. unfold process_get. rewrite (rw_gone _ _ _ _ _ W d I O).
  assert (Ne : forall x, ~ In x K -> did_eqb d x = false) by (intros x X; apply did_eqb_neq; intros ->; auto).
  assert (G : rel (if b then set_gets r (gets r) (add_pair (d, s) (bgets r)) else set_gets r (add_pair (d, s) (gets r)) (bgets r)) g).
  { apply (rel_silent r g); [auto|destruct b; auto|auto|].
    destruct W as [W1 W2 W3 W4 W5 W6 W7 W8 W9 W10 W11 W12 W13 W14 W15].
    destruct b; split; auto; simpl; intros x Nx; rewrite ranks_add, Ne; auto. }
  destruct (store g d) as [v|] eqn:S.
  - destruct (pair_in (d, s) (sent g)); auto.
    apply (rel_lost _ g _ s d v (Nat.eqb s 0 || b)); auto.
    destruct G as [[W1 W2 W3 W4 W5 W6 W7 W8 W9 W10 W11 W12 W13 W14 W15] _]. split; auto. simpl.
    intros x y Nx. rewrite pair_in_app, pair_in_other by congruence. rewrite orb_false_r. auto.
  - apply (rel_silent (if b then set_gets r (gets r) (add_pair (d, s) (bgets r)) else set_gets r (add_pair (d, s) (gets r)) (bgets r)) g);
      [auto|auto|destruct b; auto|].
    destruct W as [W1 W2 W3 W4 W5 W6 W7 W8 W9 W10 W11 W12 W13 W14 W15].
    destruct b; split; auto; simpl; intros x Nx; rewrite !(ranks_add d s x), !Ne by auto; auto.
Qed.

Lemma ranks_without d d' l : ranks_of d' (without d l) = if did_eqb d d' then [] else ranks_of d' l.
Proof.
  unfold ranks_of, without. induction l as [|[x y] l IH]; simpl; [destruct (did_eqb d d'); auto|].
  destruct (did_eqb x d) eqn:E; simpl.
  - apply did_eqb_eq in E as ->. rewrite IH. destruct (did_eqb d d'); auto.
  - destruct (did_eqb x d') eqn:E'; simpl; auto. apply did_eqb_eq in E' as ->.
    rewrite did_eqb_sym, E in IH. rewrite did_eqb_sym, E. simpl. rewrite IH. auto.
Qed.

Lemma rel_fold d b l : forall r g, rel r g -> ~ In d K ->
  rel (fold_left (fun w x => process_get w x d b) l r) (fold_left (fun w x => process_get w x d b) l g).
Proof. induction l as [|x l IH]; simpl; auto. intros. apply IH; auto. apply rel_get; auto. Qed.

Lemma rel_set r g f f' : rel r g -> (forall d, ~ In d K -> ranks_of d (f (gets r)) = ranks_of d (f (gets g))) ->
  (forall d, ~ In d K -> ranks_of d (f' (bgets r)) = ranks_of d (f' (bgets g))) ->
  rel (set_gets r (f (gets r)) (f' (bgets r))) (set_gets g (f (gets g)) (f' (bgets g))).
Proof. intros R F F'. apply (rel_silent r g); auto. destruct R as [[] _]. split; auto. Qed.

Lemma rel_request r g d : rel r g -> ~ In d K -> rel (check_request r d) (check_request g d).
Proof.
  intros R N. unfold check_request. rewrite (rw_gets _ _ _ _ _ (proj1 R) d N).
  assert (R1 := rel_fold d false (ranks_of d (gets g)) r g R N).
  set (r1 := fold_left _ _ r) in *. set (g1 := fold_left _ _ g) in *.
  assert (R2 : rel (set_gets r1 (without d (gets r1)) (bgets r1)) (set_gets g1 (without d (gets g1)) (bgets g1))).
  { apply (rel_set r1 g1 (without d) (fun l => l)); auto; intros x Nx; [|apply (rw_bgets _ _ _ _ _ (proj1 R1)); auto].
    rewrite !ranks_without. destruct (did_eqb d x); auto. apply (rw_gets _ _ _ _ _ (proj1 R1)); auto. }
  set (r2 := set_gets r1 _ _) in *. set (g2 := set_gets g1 _ _) in *.
  rewrite (rw_bgets _ _ _ _ _ (proj1 R2) d N).
  assert (R3 := rel_fold d true (ranks_of d (bgets g2)) r2 g2 R2 N).
  set (r3 := fold_left _ _ r2) in *. set (g3 := fold_left _ _ g2) in *.
  apply (rel_set r3 g3 (fun l => l) (without d)); auto; intros x Nx; [apply (rw_gets _ _ _ _ _ (proj1 R3)); auto|].
  rewrite !ranks_without. destruct (did_eqb d x); auto. apply (rw_bgets _ _ _ _ _ (proj1 R3)); auto.
Qed.

Lemma rel_check ds : forall r g, rel r g -> (forall d, In d ds -> ~ In d K) -> rel (check_gets r ds) (check_gets g ds).
Proof.
  unfold check_gets. induction ds as [|d ds IH]; simpl; auto. intros r g R H. apply IH; auto. apply rel_request; auto.
Qed.

Variable self : rank.

(** Arguments are filled in with the same values. *)
Definition same_mat (v : val) (a b : option (wst * val * bool)) : Prop :=
  match a, b with
  | Some (r, x, p), Some (g, y, q) => rel r g /\ x = y /\ p = q /\ incl (refs x) (refs v)
  | None, None => True
  | _, _ => False
  end.

Lemma rel_unwrap v r g : rel r g -> (forall d, In d (refs v) -> ~ In d K) ->
  same_mat v (unwrap self r v) (unwrap self g v).
Proof.
  intros R H. destruct v; simpl; try (split; [auto|split; [auto|split; [auto|apply incl_refl]]]).
  assert (N : ~ In d K) by (apply H; simpl; auto). destruct R as [W L].
  rewrite (rw_store _ _ _ _ _ W d N), (rw_owner _ _ _ _ _ W d N), (rw_reqs _ _ _ _ _ W).
  destruct (store g d) as [x|] eqn:S; simpl.
  - split; [split; auto|]. split; auto. split; auto. rewrite (rw_clean _ _ _ _ _ W d x N S). apply incl_nil_l.
  - destruct (owner g d) as [o|]; [|exact I].
    destruct (did_in d (reqs g)); simpl; [split; [split; auto|split; [auto|split; [auto|apply incl_refl]]]|].
    destruct (Nat.eqb o self); simpl; (split; [|split; [auto|split; [auto|apply incl_refl]]]); [split; auto|].
    unfold request_data. assert (R2 := rel_emit r g (EvGet o d) (conj W L)).
    apply (rel_silent _ _ _ _ R2); auto. destruct R2 as [[] _]. split; auto. simpl in *. rewrite rw_reqs0. auto.
Qed.

Definition MatRel (v : val) : Prop := forall r g p, rel r g -> (forall d, In d (refs v) -> ~ In d K) ->
  same_mat v (materialize self r v p) (materialize self g v p).

Lemma mat_flat v : (forall w p, materialize self w v p = match unwrap self w v with
    | Some (w', v', q) => Some (w', v', p || q) | None => None end) -> MatRel v.
Proof.
  intros E r g p R H. rewrite !E. assert (U := rel_unwrap v r g R H). unfold same_mat in U.
  destruct (unwrap self r v) as [[[r1 x] p1]|], (unwrap self g v) as [[[g1 y] q1]|]; try tauto.
  simpl. destruct U as (U1 & U2 & U3 & U4). subst. auto.
Qed.

Lemma mat_list_rel l : Forall MatRel l -> forall r g p, rel r g -> (forall d, In d (flat_map refs l) -> ~ In d K) ->
  match mat_list self (materialize self) r l p, mat_list self (materialize self) g l p with
  | Some (r1, x, p1), Some (g1, y, p2) => rel r1 g1 /\ x = y /\ p1 = p2 /\ incl (flat_map refs x) (flat_map refs l)
  | None, None => True
  | _, _ => False
  end.
Proof.
  induction 1 as [|v l Hv Hl IH]; intros r g p R H; simpl.
  - split; auto. split; auto. split; auto. apply incl_refl.
  - assert (M := Hv r g p R ltac:(intros d I; apply H; simpl; apply in_or_app; auto)). unfold same_mat in M.
    destruct (materialize self r v p) as [[[r1 x] p1]|], (materialize self g v p) as [[[g1 y] q1]|]; try tauto.
    destruct M as (R1 & <- & <- & I1).
    assert (U := rel_unwrap x r1 g1 R1 ltac:(intros d I; apply H; simpl; apply in_or_app; auto)). unfold same_mat in U.
    destruct (unwrap self r1 x) as [[[r2 x2] p2]|], (unwrap self g1 x) as [[[g2 y2] q2]|]; try tauto.
    destruct U as (R2 & <- & <- & I2).
    assert (L := IH r2 g2 (p1 || p2) R2 ltac:(intros d I; apply H; simpl; apply in_or_app; auto)).
    destruct (mat_list self (materialize self) r2 l (p1 || p2)) as [[[r3 l3] p3]|],
      (mat_list self (materialize self) g2 l (p1 || p2)) as [[[g3 l3'] q3]|]; try tauto.
    destruct L as (R3 & <- & <- & I3). split; auto. split; auto. split; auto. simpl.
    apply incl_app; [apply incl_appl; eapply incl_tran; eauto | apply incl_appr; auto].
Qed.

Lemma mat_dict_rel l : Forall (fun kv => MatRel (snd kv)) l -> forall r g p, rel r g ->
  (forall d, In d (flat_map (fun kv : nat * val => refs (snd kv)) l) -> ~ In d K) ->
  match mat_dict self (materialize self) r l p, mat_dict self (materialize self) g l p with
  | Some (r1, x, p1), Some (g1, y, p2) => rel r1 g1 /\ x = y /\ p1 = p2 /\
      incl (flat_map (fun kv => refs (snd kv)) x) (flat_map (fun kv => refs (snd kv)) l)
  | None, None => True
  | _, _ => False
  end.
Proof.
  induction 1 as [|[k v] l Hv Hl IH]; intros r g p R H; simpl.
  - split; auto. split; auto. split; auto. apply incl_refl.
  - simpl in Hv. assert (M := Hv r g p R ltac:(intros d I; apply H; simpl; apply in_or_app; auto)). unfold same_mat in M.
    destruct (materialize self r v p) as [[[r1 x] p1]|], (materialize self g v p) as [[[g1 y] q1]|]; try tauto.
    destruct M as (R1 & <- & <- & I1).
    assert (U := rel_unwrap x r1 g1 R1 ltac:(intros d I; apply H; simpl; apply in_or_app; auto)). unfold same_mat in U.
    destruct (unwrap self r1 x) as [[[r2 x2] p2]|], (unwrap self g1 x) as [[[g2 y2] q2]|]; try tauto.
    destruct U as (R2 & <- & <- & I2).
    assert (L := IH r2 g2 (p1 || p2) R2 ltac:(intros d I; apply H; simpl; apply in_or_app; auto)).
    destruct (mat_dict self (materialize self) r2 l (p1 || p2)) as [[[r3 l3] p3]|],
      (mat_dict self (materialize self) g2 l (p1 || p2)) as [[[g3 l3'] q3]|]; try tauto.
    destruct L as (R3 & <- & <- & I3). split; auto. split; auto. split; auto. simpl.
    apply incl_app; [apply incl_appl; eapply incl_tran; eauto | apply incl_appr; auto].
Qed.

Lemma mat_rel v : MatRel v.
Proof.
  induction v as [n|e|d|l IH|l IH|l IH] using val_ind'; try (apply mat_flat; reflexivity); intros r g p R H.
  - rewrite !mat_list_eqn. assert (L := mat_list_rel l IH r g p R H).
    destruct (mat_list _ _ r l p) as [[[r1 x] p1]|], (mat_list _ _ g l p) as [[[g1 y] q1]|]; try tauto.
    destruct L as (R1 & <- & <- & I1). simpl. auto.
  - rewrite !mat_tuple_eqn. assert (L := mat_list_rel l IH r g p R H).
    destruct (mat_list _ _ r l p) as [[[r1 x] p1]|], (mat_list _ _ g l p) as [[[g1 y] q1]|]; try tauto.
    destruct L as (R1 & <- & <- & I1). simpl. auto.
  - rewrite !mat_dict_eqn. assert (L := mat_dict_rel l IH r g p R H).
    destruct (mat_dict _ _ r l p) as [[[r1 x] p1]|], (mat_dict _ _ g l p) as [[[g1 y] q1]|]; try tauto.
    destruct L as (R1 & <- & <- & I1). simpl. auto.
Qed.

Variable body : val -> val -> val -> result.
Variable mbody : list call -> call -> result.
Variable is_async : callee -> bool.
Hypothesis body_ok : forall f a k, no_refs_returned (body f a k).
Hypothesis mbody_ok : forall h c, no_refs_returned (mbody h c).

Lemma rel_eval r g n c a k : rel r g ->
  rel (fst (evaluate body mbody r n c a k)) (fst (evaluate body mbody g n c a k)) /\
  snd (evaluate body mbody r n c a k) = snd (evaluate body mbody g n c a k) /\
  no_refs_returned (snd (evaluate body mbody g n c a k)).
Proof using body_ok mbody_ok.
  intros R. unfold evaluate, run_body. rewrite (rw_calls _ _ _ _ _ (proj1 R)).
  destruct (failed_arg a k); [simpl; split; [apply rel_emit; auto | auto]|].
  assert (R1 := rel_emit r g (EvRun n c a k) R). destruct c; cbn [fst snd].
  - split; [apply rel_emit; auto | auto].
  - split; [|auto]. apply rel_emit. apply (rel_silent _ _ _ _ R1); auto.
    destruct R1 as [[] _]. split; auto.
Qed.

Lemma rel_put r g d v : rel r g -> ~ In d K -> refs v = [] -> rel (put r d v) (put g d v).
Proof.
  intros R N C. unfold put. apply rel_emit. apply (rel_silent _ _ _ _ R); auto.
  destruct R as [[W1 W2 W3 W4 W5 W6 W7 W8 W9 W10 W11 W12 W13 W14 W15] _]. split; auto; simpl.
  - intros x Nx. destruct (did_dec d x) as [<-|Nd]; [rewrite !dput_same; auto | rewrite !dput_other; auto].
  - intros x Ix O. rewrite dput_other; auto. intros ->. auto.
  - intros x y Nx. destruct (did_dec d x) as [<-|Nd].
    + rewrite dput_same. intros E. apply Some_inj in E as <-. auto.
    + rewrite dput_other by auto. eauto.
Qed.

Lemma iterate_refs v l : refs v = [] -> iterate v = Some l -> Forall (fun x => refs x = []) l.
Proof.
  assert (G : forall l, flat_map refs l = [] -> Forall (fun x => refs x = []) l).
  { clear. induction l as [|x l IH]; simpl; intros E; constructor; apply app_eq_nil in E as [E1 E2]; auto. }
  destruct v; simpl; try discriminate; intros E H; apply Some_inj in H as <-; auto.
  clear. induction l0 as [|x l IH]; simpl; constructor; auto.
Qed.

Lemma rel_result r g o x : rel r g -> (forall d, In d (out_ids o) -> ~ In d K) -> no_refs_returned x ->
  match store_result r o x, store_result g o x with
  | Some (r1, a), Some (g1, b) => rel r1 g1 /\ a = b
  | None, None => True
  | _, _ => False
  end.
Proof.
  intros R H C. destruct x as [v|e], o as [|d|ds]; simpl in *; auto.
  - split; auto. apply rel_put; auto.
  - destruct (iterate v) as [vs|] eqn:It; auto. split; auto. assert (F := iterate_refs _ _ C It). clear It C.
    revert r g vs R F. induction ds as [|d ds IH]; intros r g vs R F; simpl; auto.
    destruct vs as [|v' vs]; simpl; auto. inversion F; subst.
    apply IH; auto; [intros x X; apply H; simpl; auto | apply rel_put; auto; apply H; simpl; auto].
  - split; auto. apply rel_put; auto.
  - split; auto. revert r g R. induction ds as [|d ds IH]; intros r g R; simpl; auto.
    apply IH; auto; [intros x X; apply H; simpl; auto | apply rel_put; auto; apply H; simpl; auto].
Qed.

Lemma rel_sync r g q c a k : rel r g -> (forall d, In d (out_ids (q_out q)) -> ~ In d K) ->
  match execute_sync body mbody r q c a k, execute_sync body mbody g q c a k with
  | Some r1, Some g1 => rel r1 g1
  | None, None => True
  | _, _ => False
  end.
Proof using body_ok mbody_ok.
  intros R H. unfold execute_sync. destruct (rel_eval r g (q_id q) c a k R) as (R1 & E & C).
  destruct (evaluate body mbody r (q_id q) c a k) as [r1 x], (evaluate body mbody g (q_id q) c a k) as [g1 y].
  simpl in *. subst x. assert (S := rel_result r1 g1 (q_out q) y R1 H C).
  destruct (store_result r1 (q_out q) y) as [[r2 a2]|], (store_result g1 (q_out q) y) as [[g2 b2]|]; auto.
  destruct S as [R2 <-]. apply rel_emit. apply rel_check; auto.
Qed.

Lemma rel_process r g q : rel r g -> apart K q ->
  match process_task self body mbody is_async r q, process_task self body mbody is_async g q with
  | Some (r1, a), Some (g1, b) => rel r1 g1 /\ a = b /\ (forall q', a = Some q' -> apart K q' /\ rest_of q' q)
  | None, None => True
  | _, _ => False
  end.
Proof using body_ok mbody_ok.
  intros R (A1 & A2 & A3). unfold process_task.
  assert (Fn : match q_fn q with FRef d => match store r d with Some f => Some (CFun f) | None => None end
                               | FMethod m => Some (CMethod m) end =
               match q_fn q with FRef d => match store g d with Some f => Some (CFun f) | None => None end
                               | FMethod m => Some (CMethod m) end).
  { destruct (q_fn q) as [d|m] eqn:F; auto. rewrite (rw_store _ _ _ _ _ (proj1 R) d); auto. }
  rewrite Fn. clear Fn. generalize (match q_fn q with FRef d => match store g d with Some f => Some (CFun f) | None => None end
                               | FMethod m => Some (CMethod m) end). intros [c|]; auto.
  assert (M1 := mat_rel (q_args q) r g false R ltac:(intros d I; apply A1; unfold qrefs; apply in_or_app; auto)).
  unfold same_mat in M1.
  destruct (materialize self r (q_args q) false) as [[[r1 a] p1]|], (materialize self g (q_args q) false) as [[[g1 a'] p1']|]; try tauto.
  destruct M1 as (R1 & <- & <- & I1).
  assert (M2 := mat_rel (q_kwargs q) r1 g1 false R1 ltac:(intros d I; apply A1; unfold qrefs; apply in_or_app; auto)).
  unfold same_mat in M2.
  destruct (materialize self r1 (q_kwargs q) false) as [[[r2 k] p2]|], (materialize self g1 (q_kwargs q) false) as [[[g2 k'] p2']|]; try tauto.
  destruct M2 as (R2 & <- & <- & I2).
  assert (Inc : incl (refs a ++ refs k) (qrefs q)).
  { unfold qrefs. apply incl_app; [apply incl_appl; auto | apply incl_appr; auto]. }
  cbv zeta. destruct (p1 || p2); cbv iota beta.
  - split; auto. split; auto. intros q' E. apply Some_inj in E as <-. split; [|split; [exact Inc|split; reflexivity]].
    split; [|split; auto]. intros d I. apply A1, Inc. exact I.
  - destruct (is_async c); cbv iota beta.
    + split; [|split; [auto|discriminate]]. apply rel_check; auto. apply (rel_silent _ _ _ _ R2); auto.
      destruct R2 as [[] _]. split; auto. simpl. rewrite rw_running0. auto.
    + match goal with |- context [execute_sync body mbody r2 ?q' c a k] =>
        assert (S := rel_sync r2 g2 q' c a k R2 A3) end.
      destruct (execute_sync body mbody r2 _ c a k) as [r3|], (execute_sync body mbody g2 _ c a k) as [g3|]; auto.
      split; [apply rel_check; auto | split; [auto|discriminate]].
Qed.

Lemma rel_recheck l : forall r g, rel r g -> Forall (apart K) l ->
  match recheck self body mbody is_async r l, recheck self body mbody is_async g l with
  | Some (r1, a), Some (g1, b) => rel r1 g1 /\ a = b /\ (forall q', In q' a -> exists q, In q l /\ rest_of q' q)
  | None, None => True
  | _, _ => False
  end.
Proof using body_ok mbody_ok.
  induction l as [|q l IH]; intros r g R A; simpl; [split; auto; split; auto; intros ? []|].
  inversion A as [|? ? Aq Al]; subst. assert (Pq := rel_process r g q R Aq).
  destruct (process_task self body mbody is_async r q) as [[r1 a]|], (process_task self body mbody is_async g q) as [[g1 b]|]; try tauto.
  destruct Pq as (R1 & <- & Q). assert (X := IH r1 g1 R1 Al).
  destruct (recheck self body mbody is_async r1 l) as [[r2 l2]|], (recheck self body mbody is_async g1 l) as [[g2 l2']|]; auto.
  destruct X as (R2 & <- & I2). split; auto. split; auto. intros q' I.
  assert (J : a = Some q' \/ In q' l2) by (destruct a; [destruct I as [<-|I]; auto | auto]).
  destruct J as [->|J].
  - exists q. split; [simpl; auto|]. apply (Q q' eq_refl).
  - destruct (I2 q' J) as (x & X & Y). exists x. simpl; auto.
Qed.

End Ghost.

Definition from (l l' : list request) : Prop := forall q', In q' l' -> exists q, In q l /\ rest_of q' q.

Section Step.
Variable K : list dataid.
Variable own : dataid -> Prop.
Variable self : rank.
Variable body : val -> val -> val -> result.
Variable mbody : list call -> call -> result.
Variable is_async : callee -> bool.
Hypothesis body_ok : forall f a k, no_refs_returned (body f a k).
Hypothesis mbody_ok : forall h c, no_refs_returned (mbody h c).

Lemma rel_pend P P' r0 g0 r g : Rel K own P r0 g0 r g -> Rel K own P' r0 g0 (set_pend r P' []) (set_pend g P' []).
Proof. intros [[] L]. split; [split; auto|]. destruct L as (nr & ng & L). exists nr, ng. auto. Qed.

Lemma rel_tasks P r0 g0 r g : Rel K own P r0 g0 r g -> Forall (apart K) P ->
  match check_tasks self body mbody is_async r, check_tasks self body mbody is_async g with
  | Some r1, Some g1 => Rel K own (pend g1) r0 g0 r1 g1 /\ from P (pend g1)
  | None, None => True
  | _, _ => False
  end.
Proof using body_ok mbody_ok.
  intros R A. unfold check_tasks. destruct R as [W L]. assert (E1 := rw_pend _ _ _ _ _ W). assert (E2 := rw_pend' _ _ _ _ _ W).
  rewrite E1, E2.
  assert (X := rel_recheck K own P r0 g0 self body mbody is_async body_ok mbody_ok P r g (conj W L) A).
  destruct (recheck self body mbody is_async r P) as [[r1 l]|], (recheck self body mbody is_async g P) as [[g1 l']|]; try tauto.
  destruct X as (R1 & <- & F). rewrite (rw_apend _ _ _ _ _ (proj1 R1)), (rw_apend' _ _ _ _ _ (proj1 R1)).
  split; [eapply rel_pend; eauto | auto].
Qed.

(** Messages in plain programs that the worker can be sent after it has forgotten K. *)
Definition may_come (m : wmsg) : Prop :=
  match m with
  | WExec q => apart K q
  | WGet _ d _ => In d K -> own d
  | WPut d v => refs v = [] /\ (In d K -> ~ own d)
  | WOwner _ _ => True
  | _ => False
  end.

Definition task_of (m : wmsg) : list request := match m with WExec q => [q] | _ => [] end.

Lemma rw_step r g m : RW K own (pend g) r g -> Forall (apart K) (pend g) -> may_come m -> ready g = false ->
  match wstep self body mbody is_async r m, wstep self body mbody is_async g m with
  | Some r1, Some g1 => Rel K own (pend g1) r g r1 g1 /\ from (pend g ++ task_of m) (pend g1)
  | None, None => True
  | _, _ => False
  end.
Proof using body_ok mbody_ok.
  intros W A C Rd. unfold wstep. rewrite (rw_ready _ _ _ _ _ W), Rd.
  assert (R : Rel K own (pend g) r g r g).
  { split; auto. exists [], []. rewrite !app_nil_r. split; auto. split; auto. constructor. }
  assert (Re := rel_emit _ _ _ _ _ _ _ (EvIn m) R). clear R W.
  assert (Ep : pend g = pend (emit g (EvIn m))) by auto.
  set (r1 := emit r (EvIn m)) in *. set (g1 := emit g (EvIn m)) in *. set (P := pend g) in *.
  destruct m; simpl in C; try tauto; cbn [task_of].
  - assert (Pq := rel_process K own P r g self body mbody is_async body_ok mbody_ok r1 g1 q Re C).
    destruct (process_task self body mbody is_async r1 q) as [[r2 a]|], (process_task self body mbody is_async g1 q) as [[g2 b]|]; try tauto.
    destruct Pq as (R2 & <- & Q). destruct a as [q'|].
    + rewrite (rw_pend _ _ _ _ _ (proj1 R2)), (rw_pend' _ _ _ _ _ (proj1 R2)), (rw_apend _ _ _ _ _ (proj1 R2)), (rw_apend' _ _ _ _ _ (proj1 R2)).
      split; [eapply rel_pend; eauto|]. simpl. intros x I. apply in_app_or in I as [I|[<-|[]]].
      * exists x. split; [apply in_or_app; auto | apply rest_refl].
      * exists q. split; [apply in_or_app; simpl; auto | apply (Q q' eq_refl)].
    + assert (X := rel_tasks P r g r2 g2 R2 A).
      destruct (check_tasks self body mbody is_async r2), (check_tasks self body mbody is_async g2); try tauto.
      destruct X as [X1 X2]. split; auto. intros x I. destruct (X2 x I) as (y & Y & Z). exists y. split; auto. apply in_or_app; auto.
  - assert (G : Rel K own P r g (process_get r1 src d blocking) (process_get g1 src d blocking)).
    { destruct (in_dec did_dec d K) as [I|I]; [apply rel_get_gone | apply rel_get]; auto. }
    rewrite (rw_pend' _ _ _ _ _ (proj1 G)). split; auto. rewrite app_nil_r. intros x I. exists x. split; auto. apply rest_refl.
  - destruct C as [C1 C2].
    assert (G : Rel K own P r g (set_reqs (set_store r1 (dput (store r1) d v)) (filter (fun x => negb (did_eqb x d)) (reqs r1)))
                              (set_reqs (set_store g1 (dput (store g1) d v)) (filter (fun x => negb (did_eqb x d)) (reqs g1)))).
    { apply (rel_silent K own P r g r1 g1); auto.
      destruct Re as [[W1 W2 W3 W4 W5 W6 W7 W8 W9 W10 W11 W12 W13 W14 W15] _]. split; auto; cbn [set_reqs set_store store reqs].
      - intros x Nx. destruct (did_dec d x) as [<-|Nd]; [rewrite !dput_same; auto | rewrite !dput_other; auto].
      - intros x Ix O. rewrite dput_other; auto. intros ->. apply C2; auto.
      - rewrite W4. auto.
      - intros x y Nx. destruct (did_dec d x) as [<-|Nd].
        + rewrite dput_same. intros E. apply Some_inj in E as <-. auto.
        + rewrite dput_other by auto. eauto. }
    assert (X := rel_tasks P r g _ _ G A). cbn [set_store reqs].
    match goal with |- match match ?a with _ => _ end with _ => _ end =>
      match type of X with match ?a' with _ => _ end => change a' with a in X end end.
    match goal with |- context [check_tasks self body mbody is_async ?gg] =>
      destruct (check_tasks self body mbody is_async gg) as [r2|] end.
    + match type of X with match ?b with _ => _ end =>
        match goal with |- context [check_tasks self body mbody is_async ?gg] => change b with (check_tasks self body mbody is_async gg) in X;
          destruct (check_tasks self body mbody is_async gg) as [g2|]; [|tauto] end end.
      destruct X as [X1 X2]. unfold check_actor_tasks.
      rewrite (rw_apend _ _ _ _ _ (proj1 X1)), (rw_apend' _ _ _ _ _ (proj1 X1)). simpl.
      rewrite (rw_pend _ _ _ _ _ (proj1 X1)). split; [eapply rel_pend; eauto|]. rewrite app_nil_r. auto.
    + match type of X with match ?b with _ => _ end =>
        match goal with |- context [check_tasks self body mbody is_async ?gg] => change b with (check_tasks self body mbody is_async gg) in X;
          destruct (check_tasks self body mbody is_async gg) as [g2|]; tauto end end.
  - split.
    + apply (rel_silent K own P r g r1 g1); auto.
      destruct Re as [[W1 W2 W3 W4 W5 W6 W7 W8 W9 W10 W11 W12 W13 W14 W15] _]. split; auto; simpl.
      intros x Nx. unfold dput. destruct (did_eqb d x); auto. apply W3; auto.
    + simpl. rewrite app_nil_r. intros x I. exists x. split; auto. apply rest_refl.
Qed.
End Step.

(** The worker is told to forget more. *)
Lemma rw_forget K own P r g ds self body mbody is_async : RW K own P r g -> ready g = false ->
  exists r1, wstep self body mbody is_async r (WClean ds) = Some r1 /\ RW (ds ++ K) own P r1 g /\
    log r1 = log r ++ [EvIn (WClean ds)].
Proof.
  intros W Rd. unfold wstep. rewrite (rw_ready _ _ _ _ _ W), Rd. eexists. split; [reflexivity|]. split; [|reflexivity].
  assert (Nn : forall d, ~ In d (ds ++ K) -> ~ In d ds /\ ~ In d K) by (intros d N; split; intros I; apply N, in_or_app; auto).
  destruct W as [W1 W2 W3 W4 W5 W6 W7 W8 W9 W10 W11 W12 W13 W14 W15]. split; simpl; auto.
  - intros d N. apply Nn in N as [N1 N2]. unfold forget. apply did_in_false in N1. rewrite N1. auto.
  - intros d I O. unfold forget. destruct (did_in d ds) eqn:E; auto. apply did_in_false in E.
    apply in_app_or in I as [I|I]; [tauto|auto].
  - intros d N. apply Nn in N as [N1 N2]. unfold forget. apply did_in_false in N1. rewrite N1. auto.
  - intros d x N. apply Nn in N as [N1 N2]. rewrite <- W5 by auto.
    generalize (sent r). intros l. induction l as [|[y z] l IH]; simpl; auto.
    destruct (did_in y ds) eqn:E; simpl; [|rewrite IH; auto]. rewrite IH. unfold pair_eqb. simpl.
    replace (did_eqb d y) with false; auto. symmetry. apply did_eqb_neq. intros ->. apply did_in_In in E. auto.
  - intros d N. apply Nn in N as [N1 N2]. auto.
  - intros d N. apply Nn in N as [N1 N2]. auto.
  - intros d v N. apply Nn in N as [N1 N2]. eauto.
Qed.
