(** Concrete programs with wait, on workers 2 and 3. *)
From Verif Require Import Lib ValModel ShmModel PushModel WorkerModel WorkerSpec WorkerCases MonModel MonSpec CtrlModel
  ClusterModel ClusterSpec ClusterCases ActModel ActSpec ActGives ActProofs ActCount ActThms ActCases WaitModel WaitSpec.
From Coq Require Import Permutation.

Definition vserve (n : nat) : list vop := map VOp (gserve n).

(** aprog9 with waits: one when nothing has been computed yet, whose request reaches the monitor late; one for what
    the root has; one for two of three. *)
Definition vops1 : list vop :=
  map VOp (map GRoot (firstn 7 aprog9)) ++ [VWait [y; f2; (1, 1); v] 3] ++ vserve 2 ++ [VAsk] ++ vserve 12 ++ [VAns] ++
  map VOp (map GRoot (skipn 7 aprog9)) ++ vserve 4 ++ [VWait [v; f2; u] 2; VWait [z; (1, 1); u] 2; VAsk; VAns].
Definition vg1 : vst := vrun [2; 3] xbody xmbody xsync cmgr vops1.

Lemma vg1_prog : g_prog (v_g vg1) = aprog9. Proof. vm_compute. reflexivity. Qed.

Lemma vg1_facts : v_seen vg1 = [WGave [y; f2; (1, 1); v] 3 [f2; y; v] [(1, 1)]; WGave [v; f2; u] 2 [v; f2] [u];
    WGave [z; (1, 1); u] 2 [(1, 1); z] [u]] /\ v_wait vg1 = None /\
  c_seen (g_c (v_g vg1)) = [RGot [(1, 1); v] [VLeaf 104; VLeaf 1]].
Proof. vm_compute. repeat split; reflexivity. Qed.

Lemma vg1_settled : settled vg1.
Proof.
  split; [prove_idle|]. split; [|vm_compute; auto]. intros w. destruct w as [|[|[|[|w]]]]; vm_compute; reflexivity.
Qed.

Lemma vg1_calls : v_calls vg1 = [([y; f2; (1, 1); v], 3%Z); ([v; f2; u], 2%Z); ([z; (1, 1); u], 2%Z)].
Proof. vm_compute. reflexivity. Qed.

Lemma c64_sound_case : gvalid (g_prog (v_g vg1)) /\ In (WGave [z; (1, 1); u] 2 [(1, 1); z] [u]) (v_seen vg1) /\
  In (WGave [y; f2; (1, 1); v] 3 [f2; y; v] [(1, 1)]) (v_seen vg1).
Proof. rewrite vg1_prog, (proj1 vg1_facts). split; [prove_gvalid|]. simpl. auto. Qed.

Lemma vg1_ended : Forall (ended_well (v_g vg1)) [z; u].
Proof.
  apply Forall_cons; [|apply Forall_cons; [|apply Forall_nil]];
    (right; exists 3, (req 2 (FMethod 0) [VRef y] [] (OMany [z; u])); eexists;
    (split; [rewrite vg1_prog; simpl; auto|]); (split; [simpl; auto|]);
    (split; [vm_compute; repeat (first [left; reflexivity | right]) | eexists; split; [reflexivity|simpl; auto]])).
Qed.

Lemma c64_ends_case : gvalid (g_prog (v_g vg1)) /\ settled vg1 /\ In ([z; (1, 1); u], 2%Z) (v_calls vg1) /\
  Permutation ([z; u] ++ [(1, 1)]) [z; (1, 1); u] /\ Forall (ended_well (v_g vg1)) [z; u].
Proof.
  split; [rewrite vg1_prog; prove_gvalid|]. split; [exact vg1_settled|]. split; [rewrite vg1_calls; simpl; auto|].
  split; [simpl; apply perm_skip, perm_swap | exact vg1_ended].
Qed.

Lemma vg1_none_failed : none_failed (v_g vg1).
Proof.
  assert (X : forall w, forallb (fun e => match e with EvEnd _ (RExc _) => false | _ => true end) (log (c_work (g_c (v_g vg1)) w)) = true).
  { intros w. destruct w as [|[|[|[|w]]]]; vm_compute; reflexivity. }
  intros w n e I. specialize (X w). rewrite forallb_forall in X. apply X in I. discriminate.
Qed.

Lemma c64_stuck_case : let prog := g_prog (v_g vg1) in
  gvalid prog /\ valid [2; 3] (map as_task prog) /\ tidy (map as_task prog) /\
  (forall ds, ~ In (GP (RClean ds)) prog) /\ greturns_enough xbody xmbody prog /\ separate prog /\ settled vg1 /\
  none_failed (v_g vg1) /\ In ([y; f2; (1, 1); v], 3%Z) (v_calls vg1) /\ Forall (usable prog) [y; f2; (1, 1); v].
Proof.
  cbv zeta. rewrite vg1_prog. split; [prove_gvalid|]. split; [unfold aprog9, nm; simpl map; prove_valid|]. split; [prove_tidy|].
  split; [intros ds; simpl; intuition discriminate|]. split; [exact ag9_enough|]. split; [exact ag9_separate|].
  split; [exact vg1_settled|]. split; [exact vg1_none_failed|]. split; [rewrite vg1_calls; simpl; auto|].
  apply Forall_cons; [|apply Forall_cons; [|apply Forall_cons; [|apply Forall_cons; [|apply Forall_nil]]]].
  - right. exists 2, (req 1 (FRef f2) [VLeaf 3] [] (OOne y)). simpl; auto.
  - left. exists (VLeaf 2). simpl. split; auto. intuition discriminate.
  - right. exists 3, (req 5 (FRef f2) [VRef (1, 0)] [] (OOne (1, 1))). simpl; auto 10.
  - right. exists 3, (req 3 (FMethod 1) [VRef u; VList [VRef z]; VLeaf 1] [] (OMany [v; t])). simpl; auto 10.
Qed.

(** A task that raises. *)
Definition vprog2 : list gprog := [GP (RPut f1 (VLeaf 1)); GP (RSubmit 2 (req 1 (FRef f1) [] [] (OOne y)))].
Definition vops2 (n : Z) : list vop := map VOp (map GRoot vprog2) ++ [VWait [y] n; VAsk] ++ vserve 3 ++ [VAns].
Notation vg2 n := (vrun [2; 3] xbody xmbody xsync cmgr (vops2 n)).

Lemma vg2_settled : settled (vg2 1).
Proof.
  split; [prove_idle|]. split; [|vm_compute; auto]. intros w. destruct w as [|[|[|[|w]]]]; vm_compute; reflexivity.
Qed.

Lemma vg2_facts : g_prog (v_g (vg2 1)) = vprog2 /\ waiting (vg2 1) = [([y], 1%Z)] /\ ended (log (c_work (g_c (v_g (vg2 1))) 2)) = [1].
Proof. vm_compute. auto. Qed.

Lemma c64_failed : exists workers body mbody is_async,
  (forall f a k, no_refs_returned (body f a k)) /\ (forall h c, no_refs_returned (mbody h c)) /\ (forall c, is_async c = false) /\
  exists mgr ops, let v := vrun workers body mbody is_async mgr ops in
  gvalid (g_prog (v_g v)) /\ settled v /\ over v /\ exists ds n, In (ds, n) (waiting v) /\ (1 <= n <= Z.of_nat (length ds))%Z /\
    Forall (usable (g_prog (v_g v))) ds.
Proof.
  exists [2; 3], xbody, xmbody, xsync. split; [exact xbody_ok|]. split; [exact xmbody_ok|]. split; [reflexivity|].
  exists cmgr, (vops2 1). cbv zeta. assert (F := vg2_facts). assert (S := vg2_settled). unfold over. set (v := vrun _ _ _ _ _ _) in *. clearbody v.
  destruct F as (P & W & En). rewrite P. split; [prove_gvalid|]. split; auto. split.
  - intros dest q I. simpl in I. destruct I as [I|[]]. apply pair_inj in I as [<- <-]. rewrite En. simpl; auto.
  - exists [y], 1%Z. rewrite W. split; [simpl; auto|]. split; [simpl; lia|]. apply Forall_cons; [|apply Forall_nil].
    right. exists 2, (req 1 (FRef f1) [] [] (OOne y)). simpl; auto.
Qed.

(** A wait for no reference, with a task that returns. *)
Definition vprog3 : list gprog := [GP (RPut f2 (VLeaf 2)); GP (RSubmit 2 (req 1 (FRef f2) [VLeaf 1] [] (OOne y)))].
Definition vops3 : list vop := map VOp (map GRoot vprog3) ++ [VWait [y] 0; VAsk] ++ vserve 3 ++ [VAns].
Notation vg3 := (vrun [2; 3] xbody xmbody xsync cmgr vops3).

Lemma vg3_settled : settled vg3.
Proof.
  split; [prove_idle|]. split; [|vm_compute; auto]. intros w. destruct w as [|[|[|[|w]]]]; vm_compute; reflexivity.
Qed.

Lemma vg3_facts : g_prog (v_g vg3) = vprog3 /\ waiting vg3 = [([y], 0%Z)] /\ ended (log (c_work (g_c (v_g vg3)) 2)) = [1].
Proof. vm_compute. auto. Qed.

Lemma vg3_none_failed : none_failed (v_g vg3).
Proof.
  assert (X : forall w, forallb (fun e => match e with EvEnd _ (RExc _) => false | _ => true end) (log (c_work (g_c (v_g vg3)) w)) = true).
  { intros w. destruct w as [|[|[|[|w]]]]; vm_compute; reflexivity. }
  intros w n e I. specialize (X w). rewrite forallb_forall in X. apply X in I. discriminate.
Qed.

Lemma c64_zero : exists workers body mbody is_async,
  (forall f a k, no_refs_returned (body f a k)) /\ (forall h c, no_refs_returned (mbody h c)) /\ (forall c, is_async c = false) /\
  exists mgr ops, let v := vrun workers body mbody is_async mgr ops in
  gvalid (g_prog (v_g v)) /\ settled v /\ over v /\ none_failed (v_g v) /\ exists ds, In (ds, 0%Z) (waiting v) /\
    Forall (usable (g_prog (v_g v))) ds.
Proof.
  exists [2; 3], xbody, xmbody, xsync. split; [exact xbody_ok|]. split; [exact xmbody_ok|]. split; [reflexivity|].
  exists cmgr, vops3. cbv zeta. assert (F := vg3_facts). assert (S := vg3_settled). assert (N := vg3_none_failed).
  unfold over. set (v := vrun _ _ _ _ _ _) in *. clearbody v.
  destruct F as (P & W & En). rewrite P. split; [prove_gvalid|]. split; auto. split; [|split; auto].
  - intros dest q I. simpl in I. destruct I as [I|[]]. apply pair_inj in I as [<- <-]. rewrite En. simpl; auto.
  - exists [y]. rewrite W. split; [simpl; auto|]. apply Forall_cons; [|apply Forall_nil].
    right. exists 2, (req 1 (FRef f2) [VLeaf 1] [] (OOne y)). simpl; auto.
Qed.
