(** A call given the result of a task, which the program does not have, waited for before the next call. *)
From Verif Require Import Lib ValModel ShmModel PushModel WorkerModel WorkerSpec WorkerCases MonModel
  ClusterModel ClusterSpec ClusterCases ActModel ActSpec ActGives ActProofs ActCount ActThms ActCases ActWaitSpec ActWait.

Definition wait1 : request := req 2 (FMethod 0) [VRef y] [] (OMany [z; u]).
Definition wait2 : request := req 3 (FMethod 0) [VLeaf 7] [] (OMany [v; t]).
Definition aprogw : list gprog :=
  [GP (RPut f2 (VLeaf 2)); GP (RPut nm (VLeaf 0));
   GP (RSubmit 2 (req 1 (FRef f2) [VLeaf 3] [] (OOne y)));
   GC 3 nm wait1; GP (RGet [y; z]); GC 3 nm wait2; GP (RGet [v])].
Definition aopsw : list gop := map GRoot (firstn 5 aprogw) ++ [GTake 0 3; GTake 0 3; GTake 0 3] ++ gserve 12 ++
  map GRoot (skipn 5 aprogw) ++ gserve 12.
Notation agw := (grun [2; 3] xbody xmbody xsync cmgr aopsw).

Lemma agw_facts : g_prog agw = aprogw /\ map fst (history_of agw 3) = [2; 3] /\
  c_seen (g_c agw) = [RGot [y; z] [VLeaf 3; VLeaf 0]; RGot [v] [VLeaf 1]].
Proof. vm_compute. auto. Qed.

Lemma waits_case : gvalid (g_prog agw) /\ ~ In RError (c_seen (g_c agw)) /\
  g_prog agw = firstn 3 aprogw ++ GC 3 nm wait1 :: [] ++ GP (RGet [y; z]) :: [] ++ GC 3 nm wait2 :: [GP (RGet [v])] /\
  In z (out_ids (q_out wait1)) /\ In z [y; z] /\ (forall e, In (RRaised [y; z] e) (c_seen (g_c agw)) -> [y; z] = [z]) /\
  (forall env, (forall x, In x (qrefs wait1) -> gives xbody xmbody (g_prog agw) (history_of agw) x (env x)) ->
     first_failure (arguments (subst env (q_args wait1)) (subst env (q_kwargs wait1))) = None) /\
  ~ held (firstn 3 aprogw) (c_seen (g_c agw)) y /\ map fst (history_of agw 3) = [2; 3].
Proof.
  assert (F := agw_facts).
  assert (X := got_values [2; 3] xbody xmbody xsync xbody_ok xmbody_ok cmgr aopsw).
  assert (NH := history_once [2; 3] xbody xmbody xsync xbody_ok xmbody_ok cmgr aopsw).
  set (g := grun _ _ _ _ _ _) in *. cbv zeta in X, NH. clearbody g. destruct F as (P & Hh & Sn).
  assert (V : gvalid (g_prog g)) by (rewrite P; prove_gvalid). specialize (X V [y; z] [VLeaf 3; VLeaf 0]). specialize (NH V).
  assert (Yy : gives xbody xmbody (g_prog g) (history_of g) y (VLeaf 3)).
  { rewrite Sn in X. specialize (X (or_introl eq_refl)). inversion X; auto. }
  assert (Gf := gives_fun xbody xmbody (g_prog g) (history_of g) V NH).
  split; [exact V|]. rewrite Sn, Hh. split; [simpl; intuition discriminate|]. split; [rewrite P; reflexivity|].
  split; [simpl; auto|]. split; [simpl; auto|]. split; [intros e [I|[I|[]]]; discriminate|].
  split; [|split; [|reflexivity]].
  - intros env E. assert (E1 := E y (or_introl eq_refl)). apply (Gf _ _ Yy) in E1. simpl. rewrite <- E1. reflexivity.
  - intros [[(w & I)|(ds & _ & I & _)] _]; simpl in I; intuition discriminate.
Qed.

(** The same, then a task that raises, a call given its result, a get that raises it, and one more call. *)
Definition aprogd : list gprog := aprogw ++
  [GP (RPut f1 (VLeaf 1)); GP (RSubmit 2 (req 4 (FRef f1) [] [] (OOne (1, 1))));
   GC 3 nm (req 5 (FMethod 0) [VRef (1, 1)] [] (OOne (1, 2))); GP (RGet [(1, 2)]);
   GC 3 nm (req 6 (FMethod 0) [VRef z] [] (OMany [(1, 3); (1, 4)])); GP (RGet [(1, 3); y])].
Definition aopsd : list gop := aopsw ++ map GRoot (firstn 4 (skipn 7 aprogd)) ++ gserve 12 ++ map GRoot (skipn 11 aprogd) ++ gserve 12.
Notation agd := (grun [2; 3] xbody xmbody xsync cmgr aopsd).

Lemma agd_facts : g_prog agd = aprogd /\ map fst (history_of agd 3) = [2; 3; 6] /\
  c_seen (g_c agd) = [RGot [y; z] [VLeaf 3; VLeaf 0]; RGot [v] [VLeaf 1]; RRaised [(1, 2)] 9; RGot [(1, 3); y] [VLeaf 2; VLeaf 3]].
Proof. vm_compute. auto. Qed.

Lemma aprogd_scoped : scoped aprogd.
Proof.
  intros a p b E d I.
  do 13 (destruct a as [|? a]; [injection E as <- _; simpl in I; simpl; tauto|injection E as <- E]).
  destruct a; discriminate.
Qed.

Lemma aprogd_waits : waits_for_calls aprogd
  [RGot [y; z] [VLeaf 3; VLeaf 0]; RGot [v] [VLeaf 1]; RRaised [(1, 2)] 9; RGot [(1, 3); y] [VLeaf 2; VLeaf 3]].
Proof.
  intros a w nd1 q1 b nd2 q2 d E.
  assert (Get : forall x ds, In x (out_ids (q_out q1)) -> In x ds -> hd_error b = Some (GP (RGet ds)) ->
    (forall e, In (RRaised ds e) [RGot [y; z] [VLeaf 3; VLeaf 0]; RGot [v] [VLeaf 1]; RRaised [(1, 2)] 9; RGot [(1, 3); y] [VLeaf 2; VLeaf 3]] -> ds = [x]) ->
    exists x ds, In x (out_ids (q_out q1)) /\ In x ds /\ In (GP (RGet ds)) b /\
    forall e, In (RRaised ds e) [RGot [y; z] [VLeaf 3; VLeaf 0]; RGot [v] [VLeaf 1]; RRaised [(1, 2)] 9; RGot [(1, 3); y] [VLeaf 2; VLeaf 3]] -> ds = [x]).
  { intros x ds X1 X2 X3 X4. exists x, ds. split; auto. split; auto. split; auto. destruct b; [discriminate|]. injection X3 as ->. simpl; auto. }
  do 13 (destruct a as [|? a]; [first
    [ discriminate E
    | injection E as <- <- <- E; destruct b as [|p b]; [discriminate|]; injection E as <- E; destruct b; discriminate
    | injection E as <- <- <- E; destruct b as [|p b]; [discriminate|]; injection E as <- _;
      first [ solve [apply (Get z [y; z]); simpl; auto; intuition discriminate] | solve [apply (Get v [v]); simpl; auto]
            | solve [apply (Get (1, 2) [(1, 2)]); simpl; auto] ] ]
    |injection E as <- E]).
  destruct a; discriminate.
Qed.

Lemma direct_case : gvalid (g_prog agd) /\ scoped (g_prog agd) /\ ~ In RError (c_seen (g_c agd)) /\
  waits_for_calls (g_prog agd) (c_seen (g_c agd)) /\
  In (RGot [(1, 3); y] [VLeaf 2; VLeaf 3]) (c_seen (g_c agd)) /\ In (RRaised [(1, 2)] 9) (c_seen (g_c agd)) /\
  dvals (direct xbody xmbody (g_prog agd)) (1, 3) = Some (VLeaf 2).
Proof.
  assert (F := agd_facts). set (g := grun _ _ _ _ _ _) in *. clearbody g. destruct F as (P & _ & Sn). rewrite P, Sn.
  split; [prove_gvalid|]. split; [exact aprogd_scoped|]. split; [simpl; intuition discriminate|].
  split; [exact aprogd_waits|]. split; [simpl; auto|]. split; [simpl; auto|]. vm_compute. reflexivity.
Qed.
