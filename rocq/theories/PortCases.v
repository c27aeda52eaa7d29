(** A program for C98 on the five backends. *)
From Verif Require Import Lib ValModel PyseqModel PyseqSpec PyseqProofs PyseqCases PortSpec PortShows PortMpi.
From Verif Require ShmModel PympModel PympSpec PympCases RayRunModel DaskRunModel DaskRunSpec DaskRunCases WorkerModel ClusterModel ClusterSpec.

Notation zbody := PympCases.zbody.

(** put(3); a pair made of it; the sum of its items; a function that raises. *)
Definition pprog : list pcall :=
  [CPut (VLeaf 3); CFun 2 [AOut 0 0; AVal (VLeaf 1)] [] 2; CFun 0 [AOut 1 0] [(7, AOut 1 1)] 1; CFun 1 [] [] 1].
(** The references on the backends that number them. *)
Definition prefs : list (list dataid) := [[(0, 0)]; [(0, 1); (0, 2)]; [(0, 3)]; [(0, 4)]].

Lemma z_plain : plain_functions zbody.
Proof.
  intros f a k v H. destruct f as [|[|[|f]]]; cbn [PympCases.zbody] in H; try discriminate.
  - inversion H; subst v; clear H. split; auto. split; auto. intros l x [E|E]; discriminate.
  - inversion H; subst v; clear H. split; auto. split; auto. intros l x [E|E] I; inversion E; subst. destruct I as [<-|[<-|[]]]; auto.
  - destruct (Nat.odd _); [discriminate|]. inversion H; subst v; clear H. split; auto. split; auto. intros l x [E|E]; discriminate.
Qed.

Lemma leaf_plain n : plain (VLeaf n).
Proof. split; auto. split; auto. intros l x [E|E]; discriminate. Qed.

Lemma p_portable : portable zbody pprog.
Proof.
  split; [|split].
  - intros v I. simpl in I. destruct I as [I|[I|[I|[I|[]]]]]; try discriminate. inversion I. apply leaf_plain.
  - intros f args kw n v I J. simpl in I. destruct I as [I|[I|[I|[I|[]]]]]; inversion I; subst; simpl in J; repeat (destruct J as [J|J]; [try discriminate; inversion J; apply leaf_plain|]); destruct J.
  - intros f args kw n vs ks v I E. simpl in I. destruct I as [I|[I|[I|[I|[]]]]]; inversion I; subst; auto. right. simpl in E. inversion E; subst v; clear E. eauto.
Qed.

Lemma p_direct : direct zbody pprog = [[Ret (VLeaf 3)]; [Ret (VLeaf 4); Ret (VLeaf 5)]; [Ret (VLeaf 9)]; [Exn 9]].
Proof. reflexivity. Qed.

Definition p_hist : hist :=
  [(QSubmit 1 [] [] 1 false, ORef (0, 4)); (QSubmit 0 [VRef (0, 1)] [(7, VRef (0, 2))] 1 false, ORef (0, 3));
   (QSubmit 2 [VRef (0, 0); VLeaf 1] [] 2 false, ORefs [(0, 1); (0, 2)]); (QPut (VLeaf 3), ORef (0, 0))].

Lemma p_plays : plays pprog prefs p_hist.
Proof.
  unfold p_hist. apply (P_fun [CPut (VLeaf 3); CFun 2 [AOut 0 0; AVal (VLeaf 1)] [] 2; CFun 0 [AOut 1 0] [(7, AOut 1 1)] 1] [[(0, 0)]; [(0, 1); (0, 2)]; [(0, 3)]] _ 1 [] [] 1 false [] [] (ORef (0, 4))); [|constructor|constructor|reflexivity].
  apply (P_fun [CPut (VLeaf 3); CFun 2 [AOut 0 0; AVal (VLeaf 1)] [] 2] [[(0, 0)]; [(0, 1); (0, 2)]] _ 0 [AOut 1 0] [(7, AOut 1 1)] 1 false [VRef (0, 1)] [(7, VRef (0, 2))] (ORef (0, 3))).
  - apply (P_fun [CPut (VLeaf 3)] [[(0, 0)]] _ 2 [AOut 0 0; AVal (VLeaf 1)] [] 2 false [VRef (0, 0); VLeaf 1] [] (ORefs [(0, 1); (0, 2)])); [|repeat constructor; exists (0, 0); auto|constructor|reflexivity].
    apply (P_put [] [] []). constructor.
  - repeat constructor. exists (0, 1). auto.
  - repeat constructor. exists (0, 2). auto.
  - reflexivity.
Qed.

Lemma p_legal : legal p_hist.
Proof. apply legalb_ok. reflexivity. Qed.

(** *** PySeq *)
Definition q_ops : list qop :=
  [QPut (VLeaf 3); QSubmit 2 [VRef (0, 0); VLeaf 1] [] 2 false; QSubmit 0 [VRef (0, 1)] [(7, VRef (0, 2))] 1 false; QSubmit 1 [] [] 1 false].

Lemma z_clean : no_exception_values zbody PympCases.zmbody xitem.
Proof.
  split.
  - intros f a k v H. destruct (z_plain _ _ _ _ H) as (_ & X & Y). split; auto. intros i x E. unfold xitem in *. destruct v; try discriminate; simpl in E; eapply Y; eauto using nth_error_In.
  - intros m s a k v s' H. unfold clean. destruct m; inversion H. split; auto. discriminate.
Qed.

Definition q_run := qrun zbody xcbody PympCases.zmbody xitem qinit [] q_ops.
Lemma seq_run : snd q_run = p_hist. Proof. reflexivity. Qed.

Lemma seq_shows c i r : match ref_at prefs c i with
    | Some d => snd (qstep zbody xcbody PympCases.zmbody xitem (fst q_run) (QGet (VRef d))) = match r with Ret v => OVal v | Exn e => ORaise e end | None => False end ->
  shows PySeq zbody pprog c i r.
Proof.
  intros H. destruct (ref_at prefs c i) as [d|] eqn:R; [|contradiction]. exists xcbody, PympCases.zmbody, xitem, q_ops, (fst q_run), (snd q_run), prefs, d.
  split; [exact z_clean|]. split; [reflexivity|]. rewrite seq_run. split; [exact p_legal|]. split; [exact p_plays|]. split; auto.
Qed.

(** *** PyMp: two workers. *)
Definition m_ops : list PympModel.pop :=
  [PympModel.PPut (VLeaf 3); PympModel.PSubmit 2 [VRef (0, 0); VLeaf 1] [] 2; PympModel.PSubmit 0 [VRef (0, 1)] [(7, VRef (0, 2))] 1;
   PympModel.PSubmit 1 [] [] 1; PympModel.PWork 1; PympModel.PWork 0; PympModel.PWork 0; PympModel.PWork 1; PympModel.PWork 1; PympModel.PWork 0].
Definition m_run := PympModel.prun 2 zbody xcbody PympCases.zmbody xitem PympCases.xiterable PympCases.xcallable PympCases.xbytes
  PympCases.xdumps PympCases.xloads PympCases.xstorable PympModel.pinit [] m_ops.
Lemma pymp_run : snd m_run = p_hist. Proof. vm_compute. reflexivity. Qed.

Lemma pymp_shows c i r : match ref_at prefs c i with Some d => PympModel.pget PympCases.xbytes PympCases.xloads (fst m_run) d = PympModel.Look r | None => False end ->
  shows PyMp zbody pprog c i r.
Proof.
  intros H. destruct (ref_at prefs c i) as [d|] eqn:R; [|contradiction].
  exists 2, xcbody, PympCases.zmbody, xitem, PympCases.xiterable, PympCases.xcallable, PympCases.xbytes, PympCases.xdumps, PympCases.xloads, PympCases.xstorable, m_ops, (fst m_run), (snd m_run), prefs, d.
  split; [auto|]. split; [exact PympCases.z_plain|]. split; [exact PympCases.z_pickle|]. split; [unfold m_run; apply surjective_pairing|]. rewrite pymp_run. split; [exact p_legal|].
  split; [apply PympCases.plain_putsb_ok; reflexivity|]. split; [|split; [exact p_plays|split; auto]].
  intros a I. simpl in I. intuition discriminate.
Qed.

(** *** Ray: the third function is run first. *)
Definition y_ops : list RayRunModel.yop :=
  [RayRunModel.YPut (VLeaf 3); RayRunModel.YSubmit 2 [VRef (0, 0); VLeaf 1] [] 2 false; RayRunModel.YSubmit 0 [VRef (0, 1)] [(7, VRef (0, 2))] 1 false;
   RayRunModel.YSubmit 1 [] [] 1 false; RayRunModel.YRun 2; RayRunModel.YRun 0; RayRunModel.YRun 0].
Definition y_run := RayRunModel.yrun zbody xcbody PympCases.zmbody (fun _ => None) 30 31 y_ops.
Lemma ray_run : RayRunModel.y_hist y_run = p_hist. Proof. vm_compute. reflexivity. Qed.

Lemma ray_shows c i r : match ref_at prefs c i with Some d => RayRunModel.yget y_run d = Some r | None => False end -> shows Ray zbody pprog c i r.
Proof.
  intros H. destruct (ref_at prefs c i) as [d|] eqn:R; [|contradiction]. exists xcbody, PympCases.zmbody, (fun _ => None), 30, 31, y_ops, prefs, d. cbv zeta.
  change (RayRunModel.yrun zbody xcbody PympCases.zmbody (fun _ => None) 30 31 y_ops) with y_run. rewrite ray_run. split; [exact p_legal|]. split; [exact p_plays|]. auto.
Qed.

(** *** Dask *)
Definition drefs : list (list dataid) := [[(0, 0)]; [(0, 2); (0, 3)]; [(0, 4)]; [(0, 5)]].
Definition d_ops : list DaskRunModel.dop :=
  [DaskRunModel.DPut (VLeaf 3); DaskRunModel.DSubmit 2 [VRef (0, 0); VLeaf 1] [] 2 false;
   DaskRunModel.DSubmit 0 [VRef (0, 2)] [(7, VRef (0, 3))] 1 false; DaskRunModel.DSubmit 1 [] [] 1 false;
   DaskRunModel.DRun (0, 5); DaskRunModel.DRun (0, 1); DaskRunModel.DRun (0, 2); DaskRunModel.DRun (0, 3); DaskRunModel.DRun (0, 4)].
Notation d_run := (DaskRunModel.drun (fun _ => zbody) (fun _ => xcbody) (fun _ => PympCases.zmbody) DaskRunCases.ki d_ops).
Definition d_h : list (DaskRunModel.dop * DaskRunModel.dout) :=
  [(DaskRunModel.DPut (VLeaf 3), DaskRunModel.DRef (0, 0));
   (DaskRunModel.DSubmit 2 [VRef (0, 0); VLeaf 1] [] 2 false, DaskRunModel.DRefs [(0, 2); (0, 3)]);
   (DaskRunModel.DSubmit 0 [VRef (0, 2)] [(7, VRef (0, 3))] 1 false, DaskRunModel.DRef (0, 4));
   (DaskRunModel.DSubmit 1 [] [] 1 false, DaskRunModel.DRef (0, 5))].
Lemma dask_run : DaskRunModel.d_hist d_run = d_h. Proof. vm_compute. reflexivity. Qed.

Lemma d_plays : dplays pprog drefs d_h.
Proof.
  apply (D_fun [CPut (VLeaf 3); CFun 2 [AOut 0 0; AVal (VLeaf 1)] [] 2; CFun 0 [AOut 1 0] [(7, AOut 1 1)] 1] [[(0, 0)]; [(0, 2); (0, 3)]; [(0, 4)]] (firstn 3 d_h) 1 [] [] 1 [] [] (DaskRunModel.DRef (0, 5))); [|constructor|constructor].
  apply (D_fun [CPut (VLeaf 3); CFun 2 [AOut 0 0; AVal (VLeaf 1)] [] 2] [[(0, 0)]; [(0, 2); (0, 3)]] (firstn 2 d_h) 0 [AOut 1 0] [(7, AOut 1 1)] 1 [VRef (0, 2)] [(7, VRef (0, 3))] (DaskRunModel.DRef (0, 4))).
  - apply (D_fun [CPut (VLeaf 3)] [[(0, 0)]] (firstn 1 d_h) 2 [AOut 0 0; AVal (VLeaf 1)] [] 2 [VRef (0, 0); VLeaf 1] [] (DaskRunModel.DRefs [(0, 2); (0, 3)])); [|repeat constructor; exists (0, 0); auto|constructor].
    apply (D_put [] [] []). constructor.
  - repeat constructor. exists (0, 2). auto.
  - repeat constructor. exists (0, 3). auto.
Qed.

Lemma d_legal : DaskRunSpec.legal (fun _ => zbody) (fun _ => xcbody) (fun _ => PympCases.zmbody) DaskRunCases.ki d_ops.
Proof. unfold d_ops. DaskRunCases.legal_ops. Qed.

Lemma ki_indexing : indexing DaskRunCases.ki.
Proof. intros l k x E. simpl. rewrite E. auto. Qed.

Lemma dask_shows c i r : match ref_at drefs c i with Some d => DaskRunModel.dget d_run d = Some r | None => False end -> shows Dask zbody pprog c i r.
Proof.
  intros H. destruct (ref_at drefs c i) as [d|] eqn:R; [|contradiction]. exists (fun _ => xcbody), (fun _ => PympCases.zmbody), DaskRunCases.ki, d_ops, drefs, d. cbv zeta.
  rewrite dask_run. split; [exact ki_indexing|]. split; [exact d_legal|]. split; [exact d_plays|]. auto.
Qed.

(** *** MPI: two workers; the functions are put first, the results are got one by one, the last of them twice. *)
Import WorkerModel ClusterModel ClusterSpec.
Definition F0 : dataid := (9, 0). Definition F1 : dataid := (9, 1). Definition F2 : dataid := (9, 2).
Definition rq (n : nat) (f : dataid) (args : list val) (kw : list (nat * val)) (o : outputs) : request :=
  {| q_id := n; q_fn := FRef f; q_args := VList args; q_kwargs := VDict kw; q_out := o |}.
Definition c_ops1 : list rop :=
  [RPut F0 (VLeaf 0); RPut F1 (VLeaf 1); RPut F2 (VLeaf 2); RPut (0, 0) (VLeaf 3);
   RSubmit 2 (rq 1 F2 [VRef (0, 0); VLeaf 1] [] (OMany [(0, 1); (0, 2)]));
   RSubmit 3 (rq 2 F0 [VRef (0, 1)] [(7, VRef (0, 2))] (OOne (0, 3)));
   RSubmit 2 (rq 3 F1 [] [] (OOne (0, 4)))].
Definition turns (n : nat) : list cop :=
  concat (repeat [CTake 0 3; CTake 0 3; CTake 0 3; CTake 0 2; CTake 2 3; CTake 3 2; CDone 2; CDone 3; CReply 3; CReply 2] n).
Definition c_gets : list rop := [RGet [(0, 0)]; RGet [(0, 1); (0, 2)]; RGet [(0, 3)]; RGet [(0, 4)]; RGet [(0, 4)]].
Definition c_all : list cop := map CRoot c_ops1 ++ flat_map (fun o => CRoot o :: turns 12) c_gets.
Definition cmgr0 : ShmModel.manager := ShmModel.manager_init 100 10.
Notation c_run := (crun [2; 3] (as_mpi zbody) cmgr0 c_all).

Lemma mpi_prog : c_prog c_run = c_ops1 ++ c_gets. Proof. vm_compute. reflexivity. Qed.
Definition c_sight : list sight := Eval vm_compute in c_seen c_run.
Lemma mpi_seen : c_seen c_run = c_sight. Proof. vm_compute. reflexivity. Qed.

Lemma mpi_valid : valid [2; 3] (c_ops1 ++ c_gets).
Proof.
  split.
  - simpl. unfold F0, F1, F2. repeat constructor; simpl; intuition discriminate.
  - simpl. repeat constructor; simpl; intuition discriminate.
  - simpl. intros d x H. repeat (destruct H as [H|H]; [try discriminate; injection H as <- <-; reflexivity|]). destruct H.
  - simpl. intros a dest q b H. repeat (destruct a as [|o a]; simpl in H; [try discriminate; injection H as <- <- <- | injection H as <- H]); try (destruct a; discriminate);
    (split; [simpl; auto | split; [eexists; split; [reflexivity|simpl; auto] | simpl; intuition]]).
Qed.

Lemma c_plays : mplays pprog prefs [(F0, 0); (F1, 1); (F2, 2)] (c_ops1 ++ c_gets).
Proof.
  unfold c_gets.
  change (c_ops1 ++ [RGet [(0, 0)]; RGet [(0, 1); (0, 2)]; RGet [(0, 3)]; RGet [(0, 4)]; RGet [(0, 4)]])
    with (((((c_ops1 ++ [RGet [(0, 0)]]) ++ [RGet [(0, 1); (0, 2)]]) ++ [RGet [(0, 3)]]) ++ [RGet [(0, 4)]]) ++ [RGet [(0, 4)]]).
  do 5 (apply M_other; [|exact I]).
  apply (M_fun [CPut (VLeaf 3); PortSpec.CFun 2 [AOut 0 0; AVal (VLeaf 1)] [] 2; PortSpec.CFun 0 [AOut 1 0] [(7, AOut 1 1)] 1] [[(0, 0)]; [(0, 1); (0, 2)]; [(0, 3)]] _ (firstn 6 c_ops1) 1 F1 [] [] [] [] [(0, 4)] 2); try reflexivity; [|constructor|constructor|simpl; auto].
  apply (M_fun [CPut (VLeaf 3); PortSpec.CFun 2 [AOut 0 0; AVal (VLeaf 1)] [] 2] [[(0, 0)]; [(0, 1); (0, 2)]] _ (firstn 5 c_ops1) 0 F0 [AOut 1 0] [(7, AOut 1 1)] [VRef (0, 1)] [(7, VRef (0, 2))] [(0, 3)] 3); try reflexivity; [| | |simpl; auto].
  - apply (M_fun [CPut (VLeaf 3)] [[(0, 0)]] _ (firstn 4 c_ops1) 2 F2 [AOut 0 0; AVal (VLeaf 1)] [] [VRef (0, 0); VLeaf 1] [] [(0, 1); (0, 2)] 2); try reflexivity; [|repeat constructor; exists (0, 0); auto|constructor|simpl; auto].
    apply (M_put [] [] _ (firstn 3 c_ops1)). apply (M_function [] [] [(F0, 0); (F1, 1)] (firstn 2 c_ops1)). apply (M_function [] [] [(F0, 0)] (firstn 1 c_ops1)). apply (M_function [] [] [] []). constructor.
  - repeat constructor. exists (0, 1). auto.
  - repeat constructor. exists (0, 2). auto.
Qed.

Lemma mpi_shows c i r d : ref_at prefs c i = Some d -> match r with
  | Ret v => exists ds vs k, In (RGot ds vs) c_sight /\ nth_error ds k = Some d /\ nth_error vs k = Some v
  | Exn e => In (RRaised [d] e) c_sight end -> shows Mpi zbody pprog c i r.
Proof.
  intros R H. exists [2; 3], cmgr0, c_all, prefs, [(F0, 0); (F1, 1); (F2, 2)], d. cbv zeta. rewrite mpi_prog, mpi_seen.
  split; [exact mpi_valid|]. split; [exact c_plays|]. auto.
Qed.

(** *** A reference inside a list: function 0 gives 1 if that is what it gets, 2 if not. *)
Definition nbody (f : nat) (args : list val) (kw : kwargs) : res :=
  match args with [VList [VRef _]] => Ret (VLeaf 1) | _ => Ret (VLeaf 2) end.
Definition nprog : list pcall := [CPut (VLeaf 3); PortSpec.CFun 0 [AVal (VList [VRef (0, 0)])] [] 1].

Lemma n_plain : plain_functions nbody.
Proof.
  intros f a k v H. assert (X : v = VLeaf 1 \/ v = VLeaf 2).
  { unfold nbody in H. destruct a as [|[ | | |[|[] []] | | ] []]; inversion H; auto. }
  destruct X as [-> | ->]; apply leaf_plain.
Qed.

Lemma n_clean : no_exception_values nbody PympCases.zmbody xitem.
Proof.
  split.
  - intros f a k v H. destruct (n_plain _ _ _ _ H) as (_ & X & Y). split; auto. intros i x E. unfold xitem in *. destruct v; try discriminate; simpl in E; eapply Y; eauto using nth_error_In.
  - intros m s a k v s' H. unfold clean. destruct m; inversion H. split; auto. discriminate.
Qed.

Definition n_hist : hist := [(QSubmit 0 [VList [VRef (0, 0)]] [] 1 false, ORef (0, 1)); (QPut (VLeaf 3), ORef (0, 0))].
Lemma n_plays : plays nprog [[(0, 0)]; [(0, 1)]] n_hist.
Proof.
  apply (P_fun [CPut (VLeaf 3)] [[(0, 0)]] [(QPut (VLeaf 3), ORef (0, 0))] 0 [AVal (VList [VRef (0, 0)])] [] 1 false [VList [VRef (0, 0)]] [] (ORef (0, 1)));
    [|repeat constructor|constructor|reflexivity]. apply (P_put [] [] []). constructor.
Qed.

Lemma n_seq : shows PySeq nbody nprog 1 0 (Ret (VLeaf 1)).
Proof.
  pose (ops := [QPut (VLeaf 3); QSubmit 0 [VList [VRef (0, 0)]] [] 1 false]).
  exists xcbody, PympCases.zmbody, xitem, ops, (fst (qrun nbody xcbody PympCases.zmbody xitem qinit [] ops)), n_hist, [[(0, 0)]; [(0, 1)]], (0, 1).
  split; [exact n_clean|]. split; [reflexivity|]. split; [apply legalb_ok; reflexivity|]. split; [exact n_plays|]. split; reflexivity.
Qed.

Definition nd_ops : list DaskRunModel.dop :=
  [DaskRunModel.DPut (VLeaf 3); DaskRunModel.DSubmit 0 [VList [VRef (0, 0)]] [] 1 false; DaskRunModel.DRun (0, 1)].
Definition nd_h : list (DaskRunModel.dop * DaskRunModel.dout) :=
  [(DaskRunModel.DPut (VLeaf 3), DaskRunModel.DRef (0, 0));
   (DaskRunModel.DSubmit 0 [VList [VRef (0, 0)]] [] 1 false, DaskRunModel.DRef (0, 1))].

Lemma n_dask : shows Dask nbody nprog 1 0 (Ret (VLeaf 2)).
Proof.
  assert (R : DaskRunModel.d_hist (DaskRunModel.drun (fun _ => nbody) (fun _ => xcbody) (fun _ => PympCases.zmbody) DaskRunCases.ki nd_ops) = nd_h) by (vm_compute; reflexivity).
  assert (G : DaskRunModel.dget (DaskRunModel.drun (fun _ => nbody) (fun _ => xcbody) (fun _ => PympCases.zmbody) DaskRunCases.ki nd_ops) (0, 1) = Some (Ret (VLeaf 2))) by (vm_compute; reflexivity).
  exists (fun _ => xcbody), (fun _ => PympCases.zmbody), DaskRunCases.ki, nd_ops, [[(0, 0)]; [(0, 1)]], (0, 1). cbv zeta. rewrite R, G.
  split; [exact ki_indexing|]. split; [unfold nd_ops; DaskRunCases.legal_ops|]. split; [|split; reflexivity].
  apply (D_fun [CPut (VLeaf 3)] [[(0, 0)]] (firstn 1 nd_h) 0 [AVal (VList [VRef (0, 0)])] [] 1 [VList [VRef (0, 0)]] [] (DaskRunModel.DRef (0, 1))); [|repeat constructor|constructor].
  apply (D_put [] [] []). constructor.
Qed.
