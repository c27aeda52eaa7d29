(** Concrete programs for ActReclaimProps, on workers 2 and 3. *)
From Verif Require Import Lib ValModel ShmModel PushModel WorkerModel WorkerSpec WorkerCases MonModel
  ClusterModel ClusterSpec ClusterCases ActModel ActSpec ActGives ActProofs ActCount ActThms ActCases.

(** Tasks on both workers, one of which fails. *)
Definition rprog1 : list gprog :=
  [GP (RPut f2 (VLeaf 2)); GP (RPut f1 (VLeaf 1));
   GP (RSubmit 2 (req 1 (FRef f2) [VLeaf 3] [] (OOne y)));
   GP (RSubmit 3 (req 2 (FRef f2) [VRef y] [] (OOne z)));
   GP (RSubmit 3 (req 3 (FRef f1) [] [] (OOne u)));
   GP (RDrop y)].
Notation rg1 := (grun [2; 3] xbody xmbody xsync cmgr (map GRoot rprog1 ++ gserve 12)).

(** The same and one call of a method. *)
Definition rprog2 : list gprog := rprog1 ++ [GP (RPut nm (VLeaf 0)); GC 2 nm (req 4 (FMethod 0) [] [] (OOne v))].
Notation rg2 := (grun [2; 3] xbody xmbody xsync cmgr (map GRoot rprog2 ++ gserve 12)).

(** The failing function is a coroutine. *)
Definition rasync (c : callee) : bool := match c with CFun (VLeaf 1) => true | _ => false end.
Notation rg3 := (grun [2; 3] xbody xmbody rasync cmgr (map GRoot rprog1 ++ gserve 12 ++ [GFinish 3 0] ++ gserve 4)).

Lemma rg1_facts : g_prog rg1 = rprog1 /\ c_seen (g_c rg1) = [] /\ c_left (g_c rg1) = 0 /\
  ended (log (c_work (g_c rg1) 2)) = [1] /\ ended (log (c_work (g_c rg1) 3)) = [3; 2] /\
  c_done (g_c rg1) 2 = [] /\ c_done (g_c rg1) 3 = [] /\
  c_seen (g_c (gstep [2; 3] xbody xmbody xsync rg1 (GRoot (GP (RClean [y]))))) = [RCleaned [y]].
Proof. vm_compute. repeat split; auto. Qed.

Lemma rg2_facts : g_prog rg2 = rprog2 /\ c_seen (g_c rg2) = [] /\ c_left (g_c rg2) = 0 /\
  ended (log (c_work (g_c rg2) 2)) = [1; 4] /\ ended (log (c_work (g_c rg2) 3)) = [3; 2] /\
  c_done (g_c rg2) 2 = [] /\ c_done (g_c rg2) 3 = [] /\
  c_seen (g_c (gstep [2; 3] xbody xmbody xsync rg2 (GRoot (GP (RClean [y]))))) = [].
Proof. vm_compute. repeat split; auto. Qed.

Lemma rg3_facts : g_prog rg3 = rprog1 /\ c_seen (g_c rg3) = [] /\ c_left (g_c rg3) = 0 /\
  ended (log (c_work (g_c rg3) 2)) = [1] /\ ended (log (c_work (g_c rg3) 3)) = [2; 3] /\
  running (c_work (g_c rg3) 2) = [] /\ running (c_work (g_c rg3) 3) = [] /\
  c_done (g_c rg3) 2 = [] /\ c_done (g_c rg3) 3 = [] /\
  c_seen (g_c (gstep [2; 3] xbody xmbody rasync rg3 (GRoot (GP (RClean [y]))))) = [].
Proof. vm_compute. repeat split; auto. Qed.
Lemma rg3_idle : idle (g_c rg3).
Proof. prove_idle. Qed.

Ltac prove_all_ended E2 E3 := intros dest q H; simpl in H;
  repeat (destruct H as [H|H]; [injection H as <- <-; first [rewrite E2|rewrite E3]; simpl; auto|]); destruct H.

Lemma c67_case : gvalid (g_prog rg1) /\ placed [2; 3] (g_prog rg1) /\ ~ In RError (c_seen (g_c rg1)) /\ c_left (g_c rg1) = 0 /\
  (forall dest q, In (dest, q) (gsubmitted (g_prog rg1)) -> In (q_id q) (ended (log (c_work (g_c rg1) dest)))) /\
  (forall w, In w [2; 3] -> c_done (g_c rg1) w = []) /\ length (gsubmitted (g_prog rg1)) = 3 /\
  c_seen (g_c (gstep [2; 3] xbody xmbody xsync rg1 (GRoot (GP (RClean [y]))))) = c_seen (g_c rg1) ++ [RCleaned [y]].
Proof.
  assert (F := rg1_facts). set (g := grun _ _ _ _ _ _) in *. clearbody g.
  destruct F as (P & Sn & Lf & E2 & E3 & D2 & D3 & C). rewrite P, Sn, C.
  split; [prove_gvalid|]. split; [prove_placed|]. split; [simpl; tauto|]. split; [exact Lf|].
  split; [prove_all_ended E2 E3|]. split; [|split; reflexivity].
  intros w [<-|[<-|[]]]; auto.
Qed.

Lemma c67_calls : exists workers body mbody is_async,
  (forall f a k, no_refs_returned (body f a k)) /\ (forall h c, no_refs_returned (mbody h c)) /\ NoDup workers /\ ~ In 0 workers /\
  (forall c, is_async c = false) /\ exists mgr ops ds, let g := grun workers body mbody is_async mgr ops in
  gvalid (g_prog g) /\ placed workers (g_prog g) /\ ~ In RError (c_seen (g_c g)) /\ c_left (g_c g) = 0 /\
  (forall dest q, In (dest, q) (gsubmitted (g_prog g)) -> In (q_id q) (ended (log (c_work (g_c g) dest)))) /\
  (forall w, In w workers -> c_done (g_c g) w = []) /\
  c_seen (g_c (gstep workers body mbody is_async g (GRoot (GP (RClean ds))))) = c_seen (g_c g).
Proof.
  exists [2; 3], xbody, xmbody, xsync. split; [exact xbody_ok|]. split; [exact xmbody_ok|].
  split; [repeat constructor; simpl; intuition discriminate|]. split; [simpl; intuition discriminate|].
  split; [reflexivity|]. exists cmgr, (map GRoot rprog2 ++ gserve 12), [y]. cbv zeta.
  assert (F := rg2_facts). set (g := grun _ _ _ _ _ _) in *. clearbody g.
  destruct F as (P & Sn & Lf & E2 & E3 & D2 & D3 & C). rewrite P, Sn, C.
  split; [prove_gvalid|]. split; [prove_placed|]. split; [simpl; tauto|]. split; [exact Lf|].
  split; [prove_all_ended E2 E3|]. split; [|reflexivity].
  intros w [<-|[<-|[]]]; auto.
Qed.

Lemma c67_coroutine : exists workers body mbody is_async,
  (forall f a k, no_refs_returned (body f a k)) /\ (forall h c, no_refs_returned (mbody h c)) /\ NoDup workers /\ ~ In 0 workers /\
  exists mgr ops ds, let g := grun workers body mbody is_async mgr ops in
  gvalid (g_prog g) /\ placed workers (g_prog g) /\ gcalls (g_prog g) = [] /\ ~ In RError (c_seen (g_c g)) /\ c_left (g_c g) = 0 /\
  (forall dest q, In (dest, q) (gsubmitted (g_prog g)) -> In (q_id q) (ended (log (c_work (g_c g) dest)))) /\
  (forall w, In w workers -> c_done (g_c g) w = [] /\ running (c_work (g_c g) w) = []) /\ idle (g_c g) /\
  c_seen (g_c (gstep workers body mbody is_async g (GRoot (GP (RClean ds))))) = c_seen (g_c g).
Proof.
  exists [2; 3], xbody, xmbody, rasync. split; [exact xbody_ok|]. split; [exact xmbody_ok|].
  split; [repeat constructor; simpl; intuition discriminate|]. split; [simpl; intuition discriminate|].
  exists cmgr, (map GRoot rprog1 ++ gserve 12 ++ [GFinish 3 0] ++ gserve 4), [y]. cbv zeta.
  assert (F := rg3_facts). assert (Hi := rg3_idle). set (g := grun _ _ _ _ _ _) in *. clearbody g.
  destruct F as (P & Sn & Lf & E2 & E3 & R2 & R3 & D2 & D3 & C). rewrite P, Sn, C.
  split; [prove_gvalid|]. split; [prove_placed|]. split; [reflexivity|]. split; [simpl; tauto|]. split; [exact Lf|].
  split; [prove_all_ended E2 E3|]. split; [|split; [exact Hi|reflexivity]].
  intros w [<-|[<-|[]]]; auto.
Qed.
