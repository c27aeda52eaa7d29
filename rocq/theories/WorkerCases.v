(** Concrete histories of a worker. *)
From Verif Require Import Lib ValModel WorkerModel WorkerSpec WorkerThms.

(** Function 0 returns a pair, 1 raises, 2 adds its arguments (anything but a number counts 100),
    3 is a coroutine, 4 returns a list of one. *)
Definition leaf (v : val) : nat := match v with VLeaf n => n | _ => 100 end.
Definition sum (l : list val) : nat := fold_right (fun v n => leaf v + n) 0 l.

Definition xbody (f a k : val) : result :=
  match f with
  | VLeaf 0 => RVal (VTuple [VLeaf 10; VLeaf 11])
  | VLeaf 1 => RExc 9
  | VLeaf 4 => RVal (VList [VLeaf 12])
  | _ => RVal (VLeaf (sum (elements a ++ elements k)))
  end.

(** An actor's method n returns how many calls came before, and the sum of its arguments. *)
Definition xmbody (h : list call) (c : call) : result :=
  RVal (VTuple [VLeaf (length h); VLeaf (sum (elements (c_args c)))]).

Definition xsync (c : callee) : bool := false.
Definition xasync (c : callee) : bool := match c with CFun (VLeaf 3) => true | _ => false end.

Lemma xbody_ok f a k : no_refs_returned (xbody f a k).
Proof.
  unfold xbody. destruct f; simpl; auto.
  do 6 (destruct n as [|n]; simpl; auto).
Qed.

Lemma xmbody_ok h c : no_refs_returned (xmbody h c).
Proof. reflexivity. Qed.

Definition req n f args kwargs out : request :=
  {| q_id := n; q_fn := f; q_args := VList args; q_kwargs := VDict kwargs; q_out := out |}.

Definition f0 : dataid := (0, 0).
Definition f1 : dataid := (0, 1).
Definition f2 : dataid := (0, 2).
Definition f3 : dataid := (0, 3).
Definition f4 : dataid := (0, 4).
Definition y : dataid := (0, 5).
Definition z : dataid := (0, 6).
Definition u : dataid := (0, 7).
Definition v : dataid := (0, 8).
Definition t : dataid := (0, 9).

(** Worker 2. Task 1 waits for y, which rank 3 owns; ranks 4 and 0 want its result; task 2 raises;
    task 3 is given the failure; task 4 returns a pair; y comes; two actor calls. *)
Definition xms : list wmsg :=
  [WPut f0 (VLeaf 0); WPut f1 (VLeaf 1); WPut f2 (VLeaf 2); WOwner y 3;
   WExec (req 1 (FRef f2) [VRef y; VList [VLeaf 1; VRef y]] [(7, VRef y)] (OOne z));
   WGet 4 z false; WGet 0 z true; WGet 4 z false;
   WExec (req 2 (FRef f1) [VRef f2] [] (OMany [u; v]));
   WOwner v 2; WExec (req 3 (FRef f2) [VLeaf 1; VRef v] [] (OOne t));
   WPut y (VLeaf 4);
   WExec (req 4 (FRef f0) [] [] (OMany [(1, 0); (1, 1)]));
   WOwner z 2; WActor (req 5 (FMethod 0) [VRef z] [] (OOne (1, 2)));
   WActor (req 6 (FMethod 0) [VRef y] [] (OOne (1, 3)))].

Definition xlog : list wev := Eval vm_compute in
  match wrun 2 xbody xmbody xsync winit xms with Some w => log w | None => [] end.

Lemma xrun : exists w, wrun 2 xbody xmbody xsync winit xms = Some w /\ log w = xlog.
Proof.
  assert (H : option_map log (wrun 2 xbody xmbody xsync winit xms) = Some xlog) by (vm_compute; reflexivity).
  destruct (wrun 2 xbody xmbody xsync winit xms) as [w|]; [|discriminate].
  apply Some_inj in H. exists w. auto.
Qed.

Lemma xclean : no_refs_received xms.
Proof.
  intros d x H. repeat destruct H as [H|H]; try discriminate; try (injection H as <- <-; reflexivity).
  destruct H.
Qed.

Lemma xids : NoDup (map q_id (received xlog)).
Proof. vm_compute. repeat constructor; simpl; intuition discriminate. Qed.

Lemma xplain : Forall plain xms.
Proof. repeat constructor. Qed.

Definition enoughb (o : outputs) (r : result) : bool :=
  match o, r with
  | OMany ds, RVal v => match iterate v with Some vs => length ds <=? length vs | None => false end
  | _, _ => true
  end.

Lemma enoughb_ok o r : enoughb o r = true -> enough o r.
Proof.
  destruct o, r; simpl; auto. destruct (iterate v0) as [vs|]; [|discriminate].
  intros H. apply Nat.leb_le in H. eauto.
Qed.

Lemma xenough : all_enough xlog.
Proof.
  assert (H : forallb (fun e => match e with
      | EvEnd n r => forallb (fun q => negb (q_id q =? n) || enoughb (q_out q) r) (received xlog)
      | _ => true end) xlog = true) by (vm_compute; reflexivity).
  intros n r q E Q I. rewrite forallb_forall in H. apply H in E. rewrite forallb_forall in E. apply E in Q.
  rewrite I, Nat.eqb_refl in Q. simpl in Q. apply enoughb_ok, Q.
Qed.

Lemma xget_put : forall s d b v, In (WGet s d b) xms -> ~ In (WPut d v) xms.
Proof.
  intros s d b x G P. simpl in G, P.
  repeat (destruct G as [G|G]; [try discriminate G; injection G; intros; subst; intuition discriminate|]).
  destruct G.
Qed.

Lemma xannounced : announced xms.
Proof.
  intros a m b q E Q.
  assert (T : forall l a b, xms = a ++ m :: b -> l = length a ->
    (forall d, In d (qrefs q) -> existsb (fun m => match m with WPut x _ | WOwner x _ => did_eqb x d | _ => false end) (firstn l xms) = true) /\
    (forall d, q_fn q = FRef d -> existsb (fun m => match m with WPut x _ => did_eqb x d | _ => false end) (firstn l xms) = true)).
  { clear E. intros l a' b' E ->. unfold xms in E.
    do 16 (destruct a' as [|? a']; [injection E; intros; destruct Q; subst; try discriminate;
      (match goal with H : _ = _ |- _ => injection H; intros; subst end);
      (split; [intros d D; simpl in D; intuition (subst; reflexivity)
              |intros d D; simpl in D; try discriminate; injection D as <-; reflexivity])
      | injection E; clear E; intros E ?; subst ]).
    destruct a'; discriminate. }
  assert (Fa : firstn (length a) xms = a) by (rewrite E, firstn_app, Nat.sub_diag, firstn_all; apply app_nil_r).
  destruct (T (length a) a b E eq_refl) as [T1 T2]. rewrite Fa in T1, T2. split.
  - intros d D. apply T1, existsb_exists in D as (x & X & H). destruct x; try discriminate;
      apply did_eqb_eq in H as <-; eauto.
  - intros d D. apply T2, existsb_exists in D as (x & X & H). destruct x; try discriminate;
      apply did_eqb_eq in H as <-; eauto.
Qed.

Lemma xsafe : safe xbody xmbody xms.
Proof.
  assert (Rq : forall q, In q (requests xms) ->
    (exists d, q_out q = OOne d) \/ (q_fn q = FRef f0 \/ q_fn q = FRef f1) /\ exists ds, q_out q = OMany ds).
  { intros q Q. simpl in Q. repeat (destruct Q as [<-|Q]; [simpl; eauto 6|]). destruct Q. }
  split.
  - intros q Q. destruct (Rq q Q) as [[d ->]|(_ & ds & ->)]; discriminate.
  - intros q d f a k Q E P. destruct (Rq q Q) as [[x ->]|([F|F] & ds & ->)]; simpl; auto;
      rewrite E in F; injection F as ->; simpl in P;
      repeat (destruct P as [P|P]; [try discriminate P; injection P as <-; simpl; auto; discriminate|]); destruct P.
  - intros q m h a k Q E. destruct (Rq q Q) as [[x ->]|([F|F] & _)]; simpl; auto; congruence.
  - intros q q' d Q Q' E. simpl in Q, Q'.
    repeat (destruct Q as [<-|Q]; [simpl in E; try discriminate E; injection E as <-;
      repeat (destruct Q' as [<-|Q']; [simpl; intuition discriminate|]); destruct Q'|]). destruct Q.
Qed.

(** Task 1 alone, still waiting. *)
Lemma xready : exists w, wrun 2 xbody xmbody xsync winit (firstn 11 xms) = Some w /\
  ForallOrdPairs independent (execs (firstn 11 xms)) /\ map q_id (pend w) = [1] /\ apend w = [] /\
  available (log w) y = false /\ available (log w) t = true.
Proof.
  assert (H : option_map (fun w => (map q_id (pend w), apend w, available (log w) y, available (log w) t))
    (wrun 2 xbody xmbody xsync winit (firstn 11 xms)) = Some ([1], [], false, true)) by (vm_compute; reflexivity).
  destruct (wrun 2 xbody xmbody xsync winit (firstn 11 xms)) as [w|]; [|discriminate].
  simpl in H. injection H as A B C D. exists w. split; auto. split; auto.
  repeat constructor; intros d I; simpl in *; intuition (subst; discriminate).
Qed.

(** ** What goes wrong *)

(** A task waiting for the result of an actor call of the same worker. *)
Lemma actor_result_ignored :
  let ms := [WPut f2 (VLeaf 2); WOwner z 2; WExec (req 1 (FRef f2) [VRef z] [] (OOne t));
             WActor (req 2 (FMethod 0) [] [] (OOne z))] in
  exists w, wrun 2 xbody xmbody xsync winit ms = Some w /\
    exists q, pend w = [q] /\ qrefs q = [z] /\ available (log w) z = true.
Proof.
  intros ms.
  assert (H : option_map (fun w => (pend w, available (log w) z)) (wrun 2 xbody xmbody xsync winit ms) =
    Some ([req 1 (FRef f2) [VRef z] [] (OOne t)], true)) by (vm_compute; reflexivity).
  destruct (wrun 2 xbody xmbody xsync winit ms) as [w|]; [|discriminate].
  simpl in H. injection H as A B. exists w. split; auto. eexists. split; [exact A|]. auto.
Qed.

(** A task waiting for the result of a coroutine of the same worker. *)
Lemma coroutine_result_ignored :
  let ms := [WPut f2 (VLeaf 2); WPut f3 (VLeaf 3); WExec (req 2 (FRef f3) [] [] (OOne z)); WOwner z 2;
             WExec (req 1 (FRef f2) [VRef z] [] (OOne t)); WFinish 0] in
  exists w, wrun 2 xbody xmbody xasync winit ms = Some w /\
    exists q, pend w = [q] /\ qrefs q = [z] /\ available (log w) z = true.
Proof.
  intros ms.
  assert (H : option_map (fun w => (pend w, available (log w) z)) (wrun 2 xbody xmbody xasync winit ms) =
    Some ([req 1 (FRef f2) [VRef z] [] (OOne t)], true)) by (vm_compute; reflexivity).
  destruct (wrun 2 xbody xmbody xasync winit ms) as [w|]; [|discriminate].
  simpl in H. injection H as A B. exists w. split; auto. eexists. split; [exact A|]. auto.
Qed.

(** A task received before the one whose result it needs (another process submitted that one). *)
Lemma consumer_first_ignored :
  let ms := [WPut f2 (VLeaf 2); WOwner z 2; WOwner y 3; WExec (req 1 (FRef f2) [VRef z] [] (OOne t));
             WExec (req 2 (FRef f2) [VRef y] [] (OOne z)); WPut y (VLeaf 4)] in
  exists w, wrun 2 xbody xmbody xsync winit ms = Some w /\
    exists q, pend w = [q] /\ qrefs q = [z] /\ available (log w) z = true.
Proof.
  intros ms.
  assert (H : option_map (fun w => (pend w, available (log w) z)) (wrun 2 xbody xmbody xsync winit ms) =
    Some ([req 1 (FRef f2) [VRef z] [] (OOne t)], true)) by (vm_compute; reflexivity).
  destruct (wrun 2 xbody xmbody xsync winit ms) as [w|]; [|discriminate].
  simpl in H. injection H as A B. exists w. split; auto. eexists. split; [exact A|]. auto.
Qed.

(** A failed result inside a list: the body runs with the exception in it. *)
Lemma nested_failure_passed :
  let ms := [WPut f1 (VLeaf 1); WPut f2 (VLeaf 2); WExec (req 1 (FRef f1) [] [] (OOne z));
             WExec (req 2 (FRef f2) [VList [VRef z]] [] (OOne t))] in
  exists w, wrun 2 xbody xmbody xsync winit ms = Some w /\
    In (EvRun 2 (CFun (VLeaf 2)) (VList [VList [VExc 9]]) (VDict [])) (log w) /\
    In (EvStore t (VLeaf 100)) (log w).
Proof.
  intros ms.
  assert (H : option_map (fun w => skipn 7 (log w)) (wrun 2 xbody xmbody xsync winit ms) =
    Some (EvIn (WExec (req 2 (FRef f2) [VList [VRef z]] [] (OOne t))) ::
          [EvRun 2 (CFun (VLeaf 2)) (VList [VList [VExc 9]]) (VDict []); EvEnd 2 (RVal (VLeaf 100));
           EvStore t (VLeaf 100); EvDone [t]])) by (vm_compute; reflexivity).
  destruct (wrun 2 xbody xmbody xsync winit ms) as [w|]; [|discriminate].
  apply Some_inj in H. exists w. split; auto.
  rewrite <- (firstn_skipn 7 (log w)), H.
  split; apply in_or_app; right; simpl; auto.
Qed.

(** Fewer values than outputs: the remaining references never get a value, and the request for
    one of them is forgotten. *)
Lemma too_few_values :
  let ms := [WPut f4 (VLeaf 4); WGet 3 v false; WExec (req 1 (FRef f4) [] [] (OMany [u; v]))] in
  exists w, wrun 2 xbody xmbody xsync winit ms = Some w /\
    ended (log w) = [1] /\ available (log w) u = true /\ available (log w) v = false /\ gets w = [] /\
    answered (log w) = [].
Proof.
  intros ms.
  assert (H : option_map (fun w => (ended (log w), available (log w) u, available (log w) v, gets w, answered (log w)))
    (wrun 2 xbody xmbody xsync winit ms) = Some ([1], true, false, [], [])) by (vm_compute; reflexivity).
  destruct (wrun 2 xbody xmbody xsync winit ms) as [w|]; [|discriminate].
  apply Some_inj in H. injection H as A B C D E. exists w. auto 8.
Qed.

(** A request for the result of a coroutine, received before the coroutine starts. *)
Lemma coroutine_get_lost :
  let ms := [WPut f3 (VLeaf 3); WGet 3 z false; WExec (req 1 (FRef f3) [] [] (OOne z)); WFinish 0] in
  exists w, wrun 2 xbody xmbody xasync winit ms = Some w /\
    asked (log w) = [(z, 3)] /\ available (log w) z = true /\ answered (log w) = [] /\ gets w = [] /\ bgets w = [].
Proof.
  intros ms.
  assert (H : option_map (fun w => (asked (log w), available (log w) z, answered (log w), gets w, bgets w))
    (wrun 2 xbody xmbody xasync winit ms) = Some ([(z, 3)], true, [], [], [])) by (vm_compute; reflexivity).
  destruct (wrun 2 xbody xmbody xasync winit ms) as [w|]; [|discriminate].
  apply Some_inj in H. injection H as A B C D E. exists w. auto 8.
Qed.

(** A request for a value that comes from elsewhere. *)
Lemma forwarded_get_lost :
  let ms := [WGet 3 z false; WPut z (VLeaf 1)] in
  exists w, wrun 2 xbody xmbody xsync winit ms = Some w /\
    asked (log w) = [(z, 3)] /\ available (log w) z = true /\ answered (log w) = [].
Proof.
  intros ms.
  assert (H : option_map (fun w => (asked (log w), available (log w) z, answered (log w)))
    (wrun 2 xbody xmbody xsync winit ms) = Some ([(z, 3)], true, [])) by (vm_compute; reflexivity).
  destruct (wrun 2 xbody xmbody xsync winit ms) as [w|]; [|discriminate].
  apply Some_inj in H. injection H as A B C. exists w. auto.
Qed.

(** The rank that blocks is the rank that has been sent the value before, without blocking. *)
Lemma blocking_get_unanswered :
  let ms := [WPut z (VLeaf 1); WGet 3 z false; WGet 3 z true] in
  exists w, wrun 2 xbody xmbody xsync winit ms = Some w /\
    log w = [EvIn (WPut z (VLeaf 1)); EvIn (WGet 3 z false); EvPut 3 z (VLeaf 1) false; EvIn (WGet 3 z true)].
Proof.
  intros ms.
  assert (H : option_map log (wrun 2 xbody xmbody xsync winit ms) =
    Some [EvIn (WPut z (VLeaf 1)); EvIn (WGet 3 z false); EvPut 3 z (VLeaf 1) false; EvIn (WGet 3 z true)])
    by (vm_compute; reflexivity).
  destruct (wrun 2 xbody xmbody xsync winit ms) as [w|]; [|discriminate].
  apply Some_inj in H. exists w. auto.
Qed.

(** The first call waits for its argument, the second does not. *)
Lemma calls_reordered :
  let ms := [WOwner y 3; WActor (req 1 (FMethod 0) [VRef y] [] (OOne z));
             WActor (req 2 (FMethod 0) [] [] (OOne t)); WPut y (VLeaf 4)] in
  exists w, wrun 2 xbody xmbody xsync winit ms = Some w /\
    map q_id (received (log w)) = [1; 2] /\ ended (log w) = [2; 1].
Proof.
  intros ms.
  assert (H : option_map (fun w => (map q_id (received (log w)), ended (log w)))
    (wrun 2 xbody xmbody xsync winit ms) = Some ([1; 2], [2; 1])) by (vm_compute; reflexivity).
  destruct (wrun 2 xbody xmbody xsync winit ms) as [w|]; [|discriminate].
  apply Some_inj in H. injection H as A B. exists w. auto.
Qed.

Lemma no_output_failure_kills :
  wrun 2 xbody xmbody xsync winit [WPut f1 (VLeaf 1); WExec (req 1 (FRef f1) [] [] ONone)] = None.
Proof. vm_compute. reflexivity. Qed.

Lemma not_iterable_kills :
  wrun 2 xbody xmbody xsync winit [WPut f2 (VLeaf 2); WExec (req 1 (FRef f2) [] [] (OMany [u; v]))] = None.
Proof. vm_compute. reflexivity. Qed.

Lemma too_few_asked w :
  wrun 2 xbody xmbody xsync winit
    [WPut f4 (VLeaf 4); WGet 3 v false; WExec (req 1 (FRef f4) [] [] (OMany [u; v]))] = Some w ->
  In (v, 3) (asked (log w)).
Proof.
  intros R. assert (H : option_map (fun w => asked (log w)) (wrun 2 xbody xmbody xsync winit
    [WPut f4 (VLeaf 4); WGet 3 v false; WExec (req 1 (FRef f4) [] [] (OMany [u; v]))]) = Some [(v, 3)])
    by (vm_compute; reflexivity).
  rewrite R in H. apply Some_inj in H. rewrite H. simpl; auto.
Qed.

Lemma kill_announced (f : dataid) x q : q_fn q = FRef f -> qrefs q = [] -> announced [WPut f x; WExec q].
Proof.
  intros F R a m b q' E Q. destruct a as [|m1 [|m2 a]].
  - injection E as <- _. destruct Q; discriminate.
  - injection E as <- <- _. destruct Q as [Q|Q]; [injection Q as <- | discriminate]. split.
    + rewrite R. intros d [].
    + intros d D. rewrite F in D. injection D as <-. exists x. simpl; auto.
  - destruct a; discriminate.
Qed.

Lemma kill1_announced : announced [WPut f1 (VLeaf 1); WExec (req 1 (FRef f1) [] [] ONone)].
Proof. apply kill_announced; reflexivity. Qed.

Lemma kill2_announced : announced [WPut f2 (VLeaf 2); WExec (req 1 (FRef f2) [] [] (OMany [u; v]))].
Proof. apply kill_announced; reflexivity. Qed.
