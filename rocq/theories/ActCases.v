(** Concrete programs with actors and coroutines, on workers 2 and 3. *)
From Verif Require Import Lib ValModel ShmModel PushModel WorkerModel WorkerSpec WorkerCases MonModel
  ClusterModel ClusterSpec ClusterCases ActModel ActSpec ActGives ActProofs ActCount ActThms.

Definition nm : dataid := (1, 9).

(** A coroutine on worker 2; a call on worker 3 that waits for its result; a call that does not wait; a task that uses
    the second call's result; a call given an exception. *)
Definition aprog1 : list gprog :=
  [GP (RPut f2 (VLeaf 2)); GP (RPut f3 (VLeaf 3)); GP (RPut f1 (VLeaf 1)); GP (RPut nm (VLeaf 0));
   GP (RSubmit 2 (req 1 (FRef f3) [VLeaf 3] [] (OOne y)));
   GC 3 nm (req 2 (FMethod 0) [VRef y] [] (OMany [z; v]));
   GC 3 nm (req 3 (FMethod 1) [VLeaf 7] [] (OMany [u; t]));
   GP (RSubmit 2 (req 4 (FRef f2) [VRef t; VLeaf 1] [] (OOne (1, 0))));
   GP (RSubmit 2 (req 5 (FRef f1) [] [] (OOne (1, 1))));
   GC 3 nm (req 6 (FMethod 0) [VRef (1, 1)] [] (OOne (1, 2)));
   GP (RGet [z; v; u; t; (1, 0)])].

Definition gserve (n : nat) : list gop :=
  concat (repeat [GTake 0 3; GTake 0 3; GTake 0 3; GTake 0 2; GTake 2 3; GTake 3 2; GDone 2; GDone 3; GReply 3; GReply 2] n).

Definition aops1 : list gop := map GRoot aprog1 ++ [GTake 0 2; GTake 0 2] ++ gserve 12 ++ [GFinish 2 0] ++ gserve 12 ++ [GRoot (GP (RGet [(1, 2)]))] ++ gserve 4.
Definition ag1 : gst := grun [2; 3] xbody xmbody xasync cmgr aops1.

Lemma ag1_prog : g_prog ag1 = aprog1 ++ [GP (RGet [(1, 2)])].
Proof. vm_compute. reflexivity. Qed.

Lemma ag1_facts : c_seen (g_c ag1) = [RGot [z; v; u; t; (1, 0)] [VLeaf 1; VLeaf 3; VLeaf 0; VLeaf 7; VLeaf 8]; RRaised [(1, 2)] 9] /\
  map fst (history_of ag1 3) = [3; 2] /\ ended (log (c_work (g_c ag1) 2)) = [4; 5; 1].
Proof. vm_compute. auto. Qed.

(** Goes through a concrete program. *)
Ltac prove_gvalid := split;
  [ simpl; unfold f0, f1, f2, f3, y, z, u, v, t, nm; repeat constructor; simpl; intuition discriminate
  | simpl; repeat constructor; simpl; intuition discriminate
  | simpl; intros d x H; repeat (destruct H as [H|H]; [try discriminate; injection H as <- <-; reflexivity|]); destruct H
  | simpl; intros dest q H; repeat (destruct H as [H|H]; [try discriminate; injection H as <- <-; eexists; reflexivity|]); destruct H
  | simpl; intros dest nd q H; repeat (destruct H as [H|H]; [try discriminate; injection H as <- <- <-; eexists; reflexivity|]); destruct H ].

Ltac prove_placed := intros dest q H; simpl in H; repeat (destruct H as [H|H]; [injection H as <- <-; simpl; auto|]); destruct H.

Ltac prove_idle := intros s d; destruct s as [|[|[|[|s]]]]; destruct d as [|[|[|[|d]]]]; vm_compute; reflexivity.

Lemma ag1_valid : gvalid (g_prog ag1).
Proof. rewrite ag1_prog. prove_gvalid. Qed.

Lemma c61_case : gvalid (g_prog ag1) /\
  In (RGot [z; v; u; t; (1, 0)] [VLeaf 1; VLeaf 3; VLeaf 0; VLeaf 7; VLeaf 8]) (c_seen (g_c ag1)) /\
  In (RRaised [(1, 2)] 9) (c_seen (g_c ag1)) /\
  history_of ag1 3 = [(3, {| c_method := 1; c_args := VList [VLeaf 7]; c_kwargs := VDict [] |});
                      (2, {| c_method := 0; c_args := VList [VLeaf 3]; c_kwargs := VDict [] |})] /\
  store (c_work (g_c ag1) 3) y = Some (VLeaf 3).
Proof. split; [exact ag1_valid|]. vm_compute. repeat split; auto. Qed.

(** A call given a value that was put and a result that was got, and a call given the result of a task. *)
Definition held1 : request := req 2 (FMethod 0) [VRef t; VRef y] [] (OMany [z; v]).
Definition free1 : request := req 3 (FMethod 0) [VRef u] [] (OOne (1, 0)).
Definition aprog2 : list gprog :=
  [GP (RPut f2 (VLeaf 2)); GP (RPut nm (VLeaf 0)); GP (RPut t (VLeaf 5));
   GP (RSubmit 2 (req 1 (FRef f2) [VLeaf 3] [] (OOne y))); GP (RGet [y]); GC 3 nm held1;
   GP (RSubmit 2 (req 4 (FRef f2) [VRef y] [] (OOne u))); GC 3 nm free1].
Definition aops2 : list gop := map GRoot (firstn 5 aprog2) ++ gserve 4 ++ map GRoot (skipn 5 aprog2) ++ gserve 12.
Definition ag2 : gst := grun [2; 3] xbody xmbody xsync cmgr aops2.

Lemma ag2_facts : g_prog ag2 = aprog2 /\ map fst (history_of ag2 3) = [2; 3] /\ c_seen (g_c ag2) = [RGot [y] [VLeaf 3]].
Proof. vm_compute. auto. Qed.

Lemma c61_order_case : gvalid (g_prog ag2) /\ placed [2; 3] (g_prog ag2) /\ ~ In RError (c_seen (g_c ag2)) /\
  g_prog ag2 = firstn 5 aprog2 ++ GC 3 nm held1 :: firstn 1 (skipn 6 aprog2) ++ GC 3 nm free1 :: [] /\
  qrefs held1 = [t; y] /\ (forall x, In x (qrefs held1) -> held (firstn 5 aprog2) (c_seen (g_c ag2)) x) /\
  (forall env, (forall x, In x (qrefs held1) -> gives xbody xmbody (g_prog ag2) (history_of ag2) x (env x)) ->
     first_failure (arguments (subst env (q_args held1)) (subst env (q_kwargs held1))) = None) /\
  map fst (history_of ag2 3) = [2; 3].
Proof.
  assert (F := ag2_facts).
  assert (X := got_values [2; 3] xbody xmbody xsync xbody_ok xmbody_ok cmgr aops2).
  assert (NH := history_once [2; 3] xbody xmbody xsync xbody_ok xmbody_ok cmgr aops2).
  unfold ag2 in *. set (g := grun _ _ _ _ _ _) in *. cbv zeta in X, NH. clearbody g. destruct F as (P & Hh & Sn).
  assert (V : gvalid (g_prog g)) by (rewrite P; prove_gvalid). specialize (X V [y] [VLeaf 3]). specialize (NH V).
  assert (Ty : gives xbody xmbody (g_prog g) (history_of g) t (VLeaf 5)).
  { apply gives_put. rewrite P. simpl. auto. }
  assert (Yy : gives xbody xmbody (g_prog g) (history_of g) y (VLeaf 3)).
  { rewrite Sn in X. specialize (X (or_introl eq_refl)). inversion X; auto. }
  assert (Gf := gives_fun xbody xmbody (g_prog g) (history_of g) V NH).
  split; [exact V|]. rewrite Sn, Hh. split; [rewrite P; prove_placed|].
  split; [simpl; intuition discriminate|]. split; [rewrite P; reflexivity|]. split; [reflexivity|].
  split; [|split; [|reflexivity]].
  - intros x [<-|[<-|[]]]; (split; [|split; [simpl; intuition discriminate|
      intros ds H; simpl in H; repeat (destruct H as [H|H]; [discriminate|]); destruct H]]).
    + left. exists (VLeaf 5). simpl. auto.
    + right. exists [y]. simpl. intuition discriminate.
  - intros env E. assert (E1 := E t (or_introl eq_refl)). assert (E2 := E y (or_intror (or_introl eq_refl))).
    apply (Gf _ _ Ty) in E1. apply (Gf _ _ Yy) in E2. simpl. rewrite <- E1, <- E2. reflexivity.
Qed.

(** The first call waits for a task, the second overtakes it. *)
Definition aprog3 : list gprog :=
  [GP (RPut f2 (VLeaf 2)); GP (RPut nm (VLeaf 0));
   GP (RSubmit 2 (req 1 (FRef f2) [VLeaf 3] [] (OOne y)));
   GC 3 nm (req 2 (FMethod 0) [VRef y] [] (OMany [z; u]));
   GC 3 nm (req 3 (FMethod 0) [VLeaf 7] [] (OMany [v; t]));
   GP (RGet [z; v])].
Definition aops3 : list gop := map GRoot aprog3 ++ [GTake 0 3; GTake 0 3; GTake 0 3; GTake 0 3] ++ gserve 12.
Notation ag3 := (grun [2; 3] xbody xmbody xsync cmgr aops3).

Lemma ag3_facts : g_prog ag3 = aprog3 /\ map fst (history_of ag3 3) = [3; 2] /\
  c_seen (g_c ag3) = [RGot [z; v] [VLeaf 1; VLeaf 0]].
Proof. vm_compute. auto. Qed.

Lemma c61_refuted : exists workers body mbody is_async,
  (forall f a k, no_refs_returned (body f a k)) /\ (forall h c, no_refs_returned (mbody h c)) /\ NoDup workers /\
  (forall c, is_async c = false) /\ exists mgr ops, let g := grun workers body mbody is_async mgr ops in
  gvalid (g_prog g) /\ placed workers (g_prog g) /\ ~ In RError (c_seen (g_c g)) /\
  exists a w nd1 q1 b nd2 q2 d, g_prog g = a ++ GC w nd1 q1 :: b ++ GC w nd2 q2 :: d /\
    precedes (q_id q2) (q_id q1) (map fst (history_of g w)).
Proof.
  exists [2; 3], xbody, xmbody, xsync. split; [exact xbody_ok|]. split; [exact xmbody_ok|].
  split; [repeat constructor; simpl; intuition discriminate|]. split; [reflexivity|]. exists cmgr, aops3. cbv zeta.
  assert (F := ag3_facts). set (g := grun _ _ _ _ _ _) in *. clearbody g.
  destruct F as (P & Hh & Sn). rewrite P.
  split; [prove_gvalid|]. split; [prove_placed|]. split; [rewrite Sn; simpl; intuition discriminate|].
  exists (firstn 3 aprog3), 3, nm, (req 2 (FMethod 0) [VRef y] [] (OMany [z; u])), [], nm,
    (req 3 (FMethod 0) [VLeaf 7] [] (OMany [v; t])), [GP (RGet [z; v])].
  split; [reflexivity|]. rewrite Hh. exists [], [], []. reflexivity.
Qed.

(** C62: a task on worker 2 and a call there; a task on worker 3 that needs the first one's result. *)
Definition aprog4 : list gprog :=
  [GP (RPut f2 (VLeaf 2)); GP (RPut nm (VLeaf 0));
   GP (RSubmit 2 (req 1 (FRef f2) [VLeaf 3] [] (OOne y)));
   GP (RSubmit 3 (req 2 (FRef f2) [VRef y] [] (OOne z)));
   GC 2 nm (req 3 (FMethod 0) [] [] (OOne u));
   GP (RDrop y); GP (RClean [y]); GP (RGet [z])].
Definition aops4 : list gop := map GRoot (firstn 5 aprog4) ++ [GTake 0 2; GTake 0 2; GTake 0 2; GTake 0 2; GDone 2; GDone 2] ++
  map GRoot (skipn 5 aprog4) ++ [GTake 0 2] ++ gserve 12.
Notation ag4 := (grun [2; 3] xbody xmbody xsync cmgr aops4).
Lemma ag4_prog : g_prog ag4 = aprog4. Proof. vm_compute. reflexivity. Qed.

Lemma ag4_facts : c_seen (g_c ag4) = [RCleaned [y]] /\ c_left (g_c ag4) = 1 /\ ended (log (c_work (g_c ag4) 3)) = [] /\
  c_dead (g_c ag4) 2 = false /\ c_dead (g_c ag4) 3 = false /\ c_want (g_c ag4) = [z].
Proof. vm_compute. repeat split; auto. Qed.

Lemma ag4_idle : idle (g_c ag4).
Proof. prove_idle. Qed.

Lemma ag4_alive : forall w, c_dead (g_c ag4) w = false.
Proof. intros w. destruct w as [|[|[|[|w]]]]; vm_compute; reflexivity. Qed.

Lemma c62_witness : gvalid (g_prog ag4) /\ valid [2; 3] (map as_task (g_prog ag4)) /\ tidy (map as_task (g_prog ag4)) /\
  (forall w, c_dead (g_c ag4) w = false) /\ ~ In RError (c_seen (g_c ag4)) /\ idle (g_c ag4) /\
  (exists ds, In (RCleaned ds) (c_seen (g_c ag4))) /\ c_left (g_c ag4) <> 0 /\
  exists dest q, In (GP (RSubmit dest q)) (g_prog ag4) /\ ~ In (q_id q) (ended (log (c_work (g_c ag4) dest))).
Proof.
  rewrite ag4_prog, (proj1 ag4_facts), (proj1 (proj2 ag4_facts)).
  split; [prove_gvalid|]. split; [unfold aprog4, nm; simpl map; prove_valid|]. split; [simpl map; prove_tidy|].
  split; [exact ag4_alive|]. split; [simpl; intuition discriminate|]. split; [exact ag4_idle|].
  split; [exists [y]; simpl; auto|]. split; [discriminate|].
  exists 3, (req 2 (FRef f2) [VRef y] [] (OOne z)). split; [simpl; auto|].
  rewrite (proj1 (proj2 (proj2 ag4_facts))). simpl. tauto.
Qed.

Lemma c62_refuted : exists workers body mbody is_async,
  (forall f a k, no_refs_returned (body f a k)) /\ (forall h c, no_refs_returned (mbody h c)) /\ NoDup workers /\ ~ In 0 workers /\
  (forall c, is_async c = false) /\ exists mgr ops, let g := grun workers body mbody is_async mgr ops in
  gvalid (g_prog g) /\ valid workers (map as_task (g_prog g)) /\ tidy (map as_task (g_prog g)) /\
  (forall w, c_dead (g_c g) w = false) /\ ~ In RError (c_seen (g_c g)) /\ idle (g_c g) /\
  (exists ds, In (RCleaned ds) (c_seen (g_c g))) /\ c_left (g_c g) <> 0 /\
  exists dest q, In (GP (RSubmit dest q)) (g_prog g) /\ ~ In (q_id q) (ended (log (c_work (g_c g) dest))).
Proof.
  exists [2; 3], xbody, xmbody, xsync. split; [exact xbody_ok|]. split; [exact xmbody_ok|].
  split; [repeat constructor; simpl; intuition discriminate|]. split; [simpl; intuition discriminate|].
  split; [reflexivity|]. exists cmgr, aops4. exact c62_witness.
Qed.

(** A cleanup with a coroutine, no calls: only when it has ended. *)
Definition aprog5 : list gprog :=
  [GP (RPut f2 (VLeaf 2)); GP (RPut f3 (VLeaf 3));
   GP (RSubmit 2 (req 1 (FRef f3) [VLeaf 3] [] (OOne y)));
   GP (RSubmit 3 (req 2 (FRef f2) [VRef y] [] (OOne z)));
   GP (RGet [z]); GP (RDrop y)].
Definition aops5 : list gop := map GRoot aprog5 ++ [GTake 0 2; GTake 0 2] ++ gserve 12 ++ [GFinish 2 0] ++ gserve 12 ++ [GRoot (GP (RDrop y))].
Definition ag5 : gst := grun [2; 3] xbody xmbody xasync cmgr aops5.

Lemma ag5_prog : g_prog ag5 = aprog5. Proof. vm_compute. reflexivity. Qed.

Lemma c62_case : gvalid (g_prog ag5) /\ placed [2; 3] (g_prog ag5) /\ gcalls (g_prog ag5) = [] /\ ~ In RError (c_seen (g_c ag5)) /\
  c_seen (g_c (gstep [2; 3] xbody xmbody xasync ag5 (GRoot (GP (RClean [y]))))) = c_seen (g_c ag5) ++ [RCleaned [y]] /\
  ended (log (c_work (g_c ag5) 2)) = [1] /\ ended (log (c_work (g_c ag5) 3)) = [2] /\
  In (EvIn (WFinish 0)) (log (c_work (g_c ag5) 2)).
Proof.
  rewrite ag5_prog.
  split; [prove_gvalid|]. split; [prove_placed|]. split; [reflexivity|]. vm_compute. repeat split; auto 20. intuition discriminate.
Qed.

(** With a call, one task may be open. *)
Lemma ag6_prog : g_prog (grun [2; 3] xbody xmbody xsync cmgr (firstn 12 aops4)) = firstn 6 aprog4.
Proof. vm_compute. reflexivity. Qed.

Lemma c62_few_case : let g := grun [2; 3] xbody xmbody xsync cmgr (firstn 12 aops4) in
  gvalid (g_prog g) /\ placed [2; 3] (g_prog g) /\ length (gcalls (g_prog g)) = 1 /\ ~ In RError (c_seen (g_c g)) /\
  c_seen (g_c (gstep [2; 3] xbody xmbody xsync g (GRoot (GP (RClean [y]))))) = c_seen (g_c g) ++ [RCleaned [y]].
Proof.
  cbv zeta. rewrite ag6_prog.
  split; [prove_gvalid|]. split; [prove_placed|]. split; [reflexivity|]. vm_compute. repeat split; auto 20.
Qed.

(** C63: worker 3 asks for the coroutine's result before the coroutine has begun. *)
Definition aprog7 : list gprog :=
  [GP (RPut f2 (VLeaf 2)); GP (RPut f3 (VLeaf 3));
   GP (RSubmit 2 (req 1 (FRef f3) [VLeaf 3] [] (OOne y)));
   GP (RSubmit 3 (req 2 (FRef f2) [VRef y] [] (OOne z))); GP (RGet [z])].
Definition aops7 : list gop := map GRoot aprog7 ++ gserve 6 ++ [GFinish 2 0] ++ gserve 6.
Notation ag7 := (grun [2; 3] xbody xmbody xasync cmgr aops7).

Lemma ag7_prog : g_prog ag7 = aprog7. Proof. vm_compute. reflexivity. Qed.
Lemma ag7_facts : c_seen (g_c ag7) = [] /\ c_left (g_c ag7) = 1 /\ ended (log (c_work (g_c ag7) 2)) = [1] /\
  ended (log (c_work (g_c ag7) 3)) = [] .
Proof. vm_compute. auto. Qed.
Lemma ag7_idle : idle (g_c ag7). Proof. prove_idle. Qed.
Lemma ag7_alive : forall w, c_dead (g_c ag7) w = false /\ running (c_work (g_c ag7) w) = [].
Proof. intros w. destruct w as [|[|[|[|w]]]]; vm_compute; auto. Qed.

(** The same with a call of an actor and a task on its rank: the call waits for a task on worker 2, the task for the call. *)
Definition aprog8 : list gprog :=
  [GP (RPut f2 (VLeaf 2)); GP (RPut nm (VLeaf 0));
   GP (RSubmit 2 (req 1 (FRef f2) [VLeaf 3] [] (OOne y)));
   GC 3 nm (req 2 (FMethod 0) [VRef y] [] (OOne z));
   GP (RSubmit 3 (req 3 (FRef f2) [VRef z] [] (OOne u))); GP (RGet [u])].
Definition aops8 : list gop := map GRoot aprog8 ++ gserve 10.
Notation ag8 := (grun [2; 3] xbody xmbody xsync cmgr aops8).

Lemma ag8_prog : g_prog ag8 = aprog8. Proof. vm_compute. reflexivity. Qed.
Lemma ag8_facts : c_seen (g_c ag8) = [] /\ c_left (g_c ag8) = 1 /\ ended (log (c_work (g_c ag8) 2)) = [1] /\
  ended (log (c_work (g_c ag8) 3)) = [2] .
Proof. vm_compute. auto. Qed.
Lemma ag8_idle : idle (g_c ag8). Proof. prove_idle. Qed.
Lemma ag8_alive : forall w, c_dead (g_c ag8) w = false /\ running (c_work (g_c ag8) w) = [].
Proof. intros w. destruct w as [|[|[|[|w]]]]; vm_compute; auto. Qed.

Lemma c63_witness7 : gvalid (g_prog ag7) /\ valid [2; 3] (map as_task (g_prog ag7)) /\ gcalls (g_prog ag7) = [] /\ stuck ag7.
Proof.
  unfold stuck. rewrite ag7_prog, (proj1 ag7_facts), (proj1 (proj2 ag7_facts)).
  split; [prove_gvalid|]. split; [unfold aprog7, f3; simpl map; prove_valid|]. split; [reflexivity|]. split; [exact ag7_idle|].
  split; [exact ag7_alive|]. split; [simpl; tauto|]. split; [discriminate|].
  exists 3, (req 2 (FRef f2) [VRef y] [] (OOne z)). split; [simpl; auto|].
  rewrite (proj2 (proj2 (proj2 ag7_facts))). simpl. tauto.
Qed.

Lemma c63_witness8 : gvalid (g_prog ag8) /\ valid [2; 3] (map as_task (g_prog ag8)) /\ stuck ag8.
Proof.
  unfold stuck. rewrite ag8_prog, (proj1 ag8_facts), (proj1 (proj2 ag8_facts)).
  split; [prove_gvalid|]. split; [unfold aprog8, nm; simpl map; prove_valid|]. split; [exact ag8_idle|].
  split; [exact ag8_alive|]. split; [simpl; tauto|]. split; [discriminate|].
  exists 3, (req 3 (FRef f2) [VRef z] [] (OOne u)). split; [simpl; auto 10|].
  rewrite (proj2 (proj2 (proj2 ag8_facts))). simpl. intuition discriminate.
Qed.

Lemma c63_coroutine : exists workers body mbody is_async,
  (forall f a k, no_refs_returned (body f a k)) /\ (forall h c, no_refs_returned (mbody h c)) /\ NoDup workers /\ ~ In 0 workers /\
  exists mgr ops, let g := grun workers body mbody is_async mgr ops in
  gvalid (g_prog g) /\ valid workers (map as_task (g_prog g)) /\ gcalls (g_prog g) = [] /\ stuck g.
Proof.
  exists [2; 3], xbody, xmbody, xasync. split; [exact xbody_ok|]. split; [exact xmbody_ok|].
  split; [repeat constructor; simpl; intuition discriminate|]. split; [simpl; intuition discriminate|].
  exists cmgr, aops7. exact c63_witness7.
Qed.

Lemma c63_actor : exists workers body mbody is_async,
  (forall f a k, no_refs_returned (body f a k)) /\ (forall h c, no_refs_returned (mbody h c)) /\ NoDup workers /\ ~ In 0 workers /\
  (forall c, is_async c = false) /\
  exists mgr ops, let g := grun workers body mbody is_async mgr ops in
  gvalid (g_prog g) /\ valid workers (map as_task (g_prog g)) /\ stuck g.
Proof.
  exists [2; 3], xbody, xmbody, xsync. split; [exact xbody_ok|]. split; [exact xmbody_ok|].
  split; [repeat constructor; simpl; intuition discriminate|]. split; [simpl; intuition discriminate|].
  split; [reflexivity|]. exists cmgr, aops8. exact c63_witness8.
Qed.

(** A call that waits for a task elsewhere, a call that waits for the first one, a task elsewhere that waits for the
    second, and a task beside the calls. *)
Definition aprog9 : list gprog :=
  [GP (RPut f2 (VLeaf 2)); GP (RPut nm (VLeaf 0));
   GP (RSubmit 2 (req 1 (FRef f2) [VLeaf 3] [] (OOne y)));
   GC 3 nm (req 2 (FMethod 0) [VRef y] [] (OMany [z; u]));
   GC 3 nm (req 3 (FMethod 1) [VRef u; VList [VRef z]; VLeaf 1] [] (OMany [v; t]));
   GP (RSubmit 2 (req 4 (FRef f2) [VRef t] [] (OOne (1, 0))));
   GP (RSubmit 3 (req 5 (FRef f2) [VRef (1, 0)] [] (OOne (1, 1))));
   GP (RGet [(1, 1); v])].
Definition aops9 : list gop := map GRoot aprog9 ++ gserve 12.
Definition ag9 : gst := grun [2; 3] xbody xmbody xsync cmgr aops9.

Lemma ag9_prog : g_prog ag9 = aprog9. Proof. vm_compute. reflexivity. Qed.
Lemma ag9_idle : idle (g_c ag9). Proof. prove_idle. Qed.

Lemma ag9_enough : greturns_enough xbody xmbody aprog9.
Proof.
  split.
  - intros dest q fd f a k H _ _. simpl in H.
    repeat (destruct H as [H|H]; [first [discriminate H | injection H as <- <-; split; [discriminate|exact I]]|]). destruct H.
  - intros dest nd q m h a k H _. simpl in H.
    repeat (destruct H as [H|H]; [first [discriminate H |
      injection H as <- <- <-; split; [discriminate|]; eexists; split; [reflexivity|simpl; auto]]|]). destruct H.
Qed.

Lemma ag9_separate : separate aprog9.
Proof.
  intros w q nd q' H H'. simpl in H, H'.
  repeat (destruct H as [H|H]; [first [discriminate H | injection H as <- <-;
    repeat (destruct H' as [H'|H']; [first [discriminate H' | injection H' as <- <-;
      split; intros d X Y; simpl in X, Y; unfold y, z, u, v, t in *; intuition congruence]|]); destruct H']|]). destruct H.
Qed.

Lemma c63_case : gvalid (g_prog ag9) /\ valid [2; 3] (map as_task (g_prog ag9)) /\ tidy (map as_task (g_prog ag9)) /\
  (forall ds, ~ In (GP (RClean ds)) (g_prog ag9)) /\ greturns_enough xbody xmbody (g_prog ag9) /\ separate (g_prog ag9) /\
  idle (g_c ag9) /\ In (3, req 3 (FMethod 1) [VRef u; VList [VRef z]; VLeaf 1] [] (OMany [v; t])) (gsubmitted (g_prog ag9)) /\
  c_seen (g_c ag9) = [RGot [(1, 1); v] [VLeaf 104; VLeaf 1]].
Proof.
  rewrite ag9_prog. split; [prove_gvalid|]. split; [unfold aprog9, nm; simpl map; prove_valid|]. split; [prove_tidy|].
  split; [intros ds; simpl; intuition discriminate|]. split; [exact ag9_enough|]. split; [exact ag9_separate|].
  split; [exact ag9_idle|]. split; [simpl; auto|]. vm_compute. reflexivity.
Qed.
