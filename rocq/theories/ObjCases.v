(** A program for C99. *)
From Verif Require Import Lib ValModel PyseqModel PyseqSpec PyseqProofs PyseqCases PortSpec PortShows ObjSpec.
From Verif Require PympModel PympSpec PympCases RayRunModel DaskRunModel DaskRunSpec DaskRunCases PortCases.

Notation zbody := PympCases.zbody.
Notation zmbody := PympCases.zmbody.

(** put(3); an actor that counts from 10; 3 + 1; add that; add 1 and raise; add 5. *)
Definition oprog : list ocall :=
  [TPut (VLeaf 3); TMake 0 [VLeaf 10] []; TFun 0 [AOut 0 0; AVal (VLeaf 1)] [] 1; TMeth 0 0 [AOut 2 0] [] 1; TMeth 0 1 [AVal (VLeaf 1)] [] 1;
   TMeth 0 0 [AVal (VLeaf 5)] [] 1].
Definition orefs : list (list dataid) := [[(0, 0)]; []; [(0, 1)]; [(0, 2)]; [(0, 3)]; [(0, 4)]].

Lemma o_direct : odirect zbody xcbody zmbody oprog =
  ([[Ret (VLeaf 3)]; []; [Ret (VLeaf 4)]; [Ret (VLeaf 14)]; [Exn 8]; [Ret (VLeaf 20)]], [VLeaf 20]).
Proof. reflexivity. Qed.

Lemma o_portable : oportable zbody xcbody zmbody oprog.
Proof.
  unfold oportable, oprog. split; [|split; [|split; [|split; [|split]]]].
  - intros v I. simpl in I. repeat (destruct I as [I|I]; [try discriminate; inversion I; apply PortCases.leaf_plain|]). destruct I.
  - intros f args kw n v I J. simpl in I. repeat (destruct I as [I|I]; [try discriminate; inversion I; subst; simpl in J; repeat (destruct J as [J|J]; [try discriminate; inversion J; apply PortCases.leaf_plain|]); destruct J|]). destruct I.
  - intros a m args kw n v I J. simpl in I. repeat (destruct I as [I|I]; [try discriminate; inversion I; subst; simpl in J; repeat (destruct J as [J|J]; [try discriminate; inversion J; apply PortCases.leaf_plain|]); destruct J|]). destruct I.
  - intros f args kw n vs ks I v E. left. simpl in I. repeat (destruct I as [I|I]; [try discriminate; inversion I; auto|]). destruct I.
  - intros a m args kw n s vs ks I v E. left. simpl in I. repeat (destruct I as [I|I]; [try discriminate; inversion I; auto|]). destruct I.
  - intros c args kw I. simpl in I. repeat (destruct I as [I|I]; [try discriminate; inversion I; subst|]); [|destruct I]. split; [eexists; reflexivity|]. intros v [<-|[]]. apply PortCases.leaf_plain.
Qed.

Definition o_hist : hist :=
  [(QCall 0 0 [VLeaf 5] [] 1, ORef (0, 4)); (QCall 0 1 [VLeaf 1] [] 1, ORef (0, 3)); (QCall 0 0 [VRef (0, 1)] [] 1, ORef (0, 2));
   (QSubmit 0 [VRef (0, 0); VLeaf 1] [] 1 false, ORef (0, 1)); (QActor 0 [VLeaf 10] [] false, OActor 0); (QPut (VLeaf 3), ORef (0, 0))].

Lemma o_plays : oplays oprog orefs [0] o_hist.
Proof.
  unfold o_hist. apply (O_meth (firstn 5 oprog) (firstn 5 orefs) [0] _ 0 0 0 [AVal (VLeaf 5)] [] 1 [VLeaf 5] [] (ORef (0, 4))); try reflexivity; [|repeat constructor|constructor].
  apply (O_meth (firstn 4 oprog) (firstn 4 orefs) [0] _ 0 0 1 [AVal (VLeaf 1)] [] 1 [VLeaf 1] [] (ORef (0, 3))); try reflexivity; [|repeat constructor|constructor].
  apply (O_meth (firstn 3 oprog) (firstn 3 orefs) [0] _ 0 0 0 [AOut 2 0] [] 1 [VRef (0, 1)] [] (ORef (0, 2))); try reflexivity; [|repeat constructor; exists (0, 1); auto|constructor].
  apply (O_fun (firstn 2 oprog) (firstn 2 orefs) [0] _ 0 [AOut 0 0; AVal (VLeaf 1)] [] 1 false [VRef (0, 0); VLeaf 1] [] (ORef (0, 1))); try reflexivity; [|repeat constructor; exists (0, 0); auto|constructor].
  apply (O_make (firstn 1 oprog) (firstn 1 orefs) []). apply (O_put [] [] [] []). constructor.
Qed.

Lemma o_legal : legal o_hist.
Proof. apply legalb_ok. reflexivity. Qed.

(** *** PySeq *)
Definition oq_ops : list qop :=
  [QPut (VLeaf 3); QActor 0 [VLeaf 10] [] false; QSubmit 0 [VRef (0, 0); VLeaf 1] [] 1 false; QCall 0 0 [VRef (0, 1)] [] 1; QCall 0 1 [VLeaf 1] [] 1; QCall 0 0 [VLeaf 5] [] 1].
Notation oq_run := (qrun zbody xcbody zmbody xitem qinit [] oq_ops).
Lemma oseq_run : snd oq_run = o_hist. Proof. reflexivity. Qed.

Lemma oseq_shows c i r : match ref_at orefs c i with
    | Some d => snd (qstep zbody xcbody zmbody xitem (fst oq_run) (QGet (VRef d))) = match r with Ret v => OVal v | Exn e => ORaise e end | None => False end ->
  oshows_seq zbody xcbody zmbody oprog c i r.
Proof.
  intros H. destruct (ref_at orefs c i) as [d|] eqn:R; [|contradiction]. exists xitem, oq_ops, (fst oq_run), (snd oq_run), orefs, [0], d.
  split; [exact PortCases.z_clean|]. split; [reflexivity|]. rewrite oseq_run. split; [exact o_legal|]. split; [exact o_plays|]. split; auto.
Qed.

(** *** PyMp: three workers, one of them for the actor. *)
Definition om_ops : list PympModel.pop :=
  [PympModel.PPut (VLeaf 3); PympModel.PActor 0 [VLeaf 10] []; PympModel.PSubmit 0 [VRef (0, 0); VLeaf 1] [] 1; PympModel.PCall 0 0 [VRef (0, 1)] [] 1;
   PympModel.PCall 0 1 [VLeaf 1] [] 1; PympModel.PCall 0 0 [VLeaf 5] [] 1;
   PympModel.PWork 0; PympModel.PWork 2; PympModel.PWork 1; PympModel.PWork 0; PympModel.PWork 0; PympModel.PWork 0].
Notation om_run := (PympModel.prun 3 zbody xcbody zmbody xitem PympCases.xiterable PympCases.xcallable PympCases.xbytes
  PympCases.xdumps PympCases.xloads PympCases.xstorable PympModel.pinit [] om_ops).
Lemma opymp_run : snd om_run = o_hist. Proof. vm_compute. reflexivity. Qed.

Lemma opymp_shows c i r : match ref_at orefs c i with Some d => PympModel.pget PympCases.xbytes PympCases.xloads (fst om_run) d = PympModel.Look r | None => False end ->
  oshows_pymp zbody xcbody zmbody oprog c i r.
Proof.
  intros H. destruct (ref_at orefs c i) as [d|] eqn:R; [|contradiction].
  exists 3, xitem, PympCases.xiterable, PympCases.xcallable, PympCases.xbytes, PympCases.xdumps, PympCases.xloads, PympCases.xstorable, om_ops, (fst om_run), (snd om_run), orefs, [0], d.
  split; [auto|]. split; [exact PympCases.z_plain|]. split; [exact PympCases.z_pickle|]. split; [apply surjective_pairing|]. rewrite opymp_run. split; [exact o_legal|].
  split; [apply PympCases.plain_putsb_ok; reflexivity|]. split; [|split; [exact o_plays|split; auto]].
  intros pre a post t m E. exfalso. assert (I : In (PympModel.PDel a) om_ops) by (rewrite E; apply in_or_app; simpl; auto). simpl in I. intuition discriminate.
Qed.

(** *** Ray *)
Definition oy_ops : list RayRunModel.yop :=
  [RayRunModel.YPut (VLeaf 3); RayRunModel.YActor 0 [VLeaf 10] [] false; RayRunModel.YSubmit 0 [VRef (0, 0); VLeaf 1] [] 1 false;
   RayRunModel.YCall 0 0 [VRef (0, 1)] [] 1; RayRunModel.YCall 0 1 [VLeaf 1] [] 1; RayRunModel.YCall 0 0 [VLeaf 5] [] 1;
   RayRunModel.YRun 2; RayRunModel.YRun 0; RayRunModel.YRun 0; RayRunModel.YRun 0; RayRunModel.YRun 0].
Notation oy_run := (RayRunModel.yrun zbody xcbody zmbody (fun _ => None) 30 31 oy_ops).
Lemma oray_run : RayRunModel.y_hist oy_run = o_hist. Proof. vm_compute. reflexivity. Qed.

Lemma oray_shows c i r : match ref_at orefs c i with Some d => RayRunModel.yget oy_run d = Some r | None => False end -> oshows_ray zbody xcbody zmbody oprog c i r.
Proof.
  intros H. destruct (ref_at orefs c i) as [d|] eqn:R; [|contradiction]. exists (fun _ => None), 30, 31, oy_ops, orefs, [0], d. cbv zeta.
  rewrite oray_run. split; [exact o_legal|]. split; [exact o_plays|]. auto.
Qed.

(** *** Dask: the last method is run first. *)
Definition od_ops : list DaskRunModel.dop :=
  [DaskRunModel.DPut (VLeaf 3); DaskRunModel.DActor 0 [VLeaf 10] [] false; DaskRunModel.DSubmit 0 [VRef (0, 0); VLeaf 1] [] 1 false;
   DaskRunModel.DCall 0 0 [VRef (0, 1)] [] 1; DaskRunModel.DCall 0 1 [VLeaf 1] [] 1; DaskRunModel.DCall 0 0 [VLeaf 5] [] 1;
   DaskRunModel.DRun (0, 6); DaskRunModel.DRun (0, 7)].
Notation od_run := (DaskRunModel.drun (fun _ => zbody) (fun _ => xcbody) (fun _ => zmbody) DaskRunCases.ki od_ops).
Definition od_h : list (DaskRunModel.dop * DaskRunModel.dout) :=
  [(DaskRunModel.DPut (VLeaf 3), DaskRunModel.DRef (0, 0)); (DaskRunModel.DActor 0 [VLeaf 10] [] false, DaskRunModel.DMade 0);
   (DaskRunModel.DSubmit 0 [VRef (0, 0); VLeaf 1] [] 1 false, DaskRunModel.DRef (0, 1)); (DaskRunModel.DCall 0 0 [VRef (0, 1)] [] 1, DaskRunModel.DRef (0, 3));
   (DaskRunModel.DCall 0 1 [VLeaf 1] [] 1, DaskRunModel.DRef (0, 5)); (DaskRunModel.DCall 0 0 [VLeaf 5] [] 1, DaskRunModel.DRef (0, 7))].
Definition odrefs : list (list dataid) := [[(0, 0)]; []; [(0, 1)]; [(0, 3)]; [(0, 5)]; [(0, 7)]].

Lemma od_plays : odplays oprog odrefs [0] od_h.
Proof.
  apply (OD_meth (firstn 5 oprog) (firstn 5 odrefs) [0] (firstn 5 od_h) 0 0 0 [AVal (VLeaf 5)] [] 1 [VLeaf 5] [] (DaskRunModel.DRef (0, 7))); try reflexivity; [|repeat constructor|constructor].
  apply (OD_meth (firstn 4 oprog) (firstn 4 odrefs) [0] (firstn 4 od_h) 0 0 1 [AVal (VLeaf 1)] [] 1 [VLeaf 1] [] (DaskRunModel.DRef (0, 5))); try reflexivity; [|repeat constructor|constructor].
  apply (OD_meth (firstn 3 oprog) (firstn 3 odrefs) [0] (firstn 3 od_h) 0 0 0 [AOut 2 0] [] 1 [VRef (0, 1)] [] (DaskRunModel.DRef (0, 3))); try reflexivity; [|repeat constructor; exists (0, 1); auto|constructor].
  apply (OD_fun (firstn 2 oprog) (firstn 2 odrefs) [0] (firstn 2 od_h) 0 [AOut 0 0; AVal (VLeaf 1)] [] 1 [VRef (0, 0); VLeaf 1] [] (DaskRunModel.DRef (0, 1))); [|repeat constructor; exists (0, 0); auto|constructor].
  apply (OD_make (firstn 1 oprog) (firstn 1 odrefs) [] (firstn 1 od_h)). apply (OD_put [] [] [] []). constructor.
Qed.

Lemma odask_shows : oshows OnDask zbody xcbody zmbody oprog 5 0 (Ret (VLeaf 15)).
Proof.
  assert (R : DaskRunModel.d_hist od_run = od_h) by (vm_compute; reflexivity). assert (G : DaskRunModel.dget od_run (0, 7) = Some (Ret (VLeaf 15))) by (vm_compute; reflexivity).
  exists DaskRunCases.ki, od_ops, odrefs, [0], (0, 7). cbv zeta. rewrite R, G. split; [exact PortCases.ki_indexing|]. split; [unfold od_ops; DaskRunCases.legal_ops|]. split; [exact od_plays|]. split; reflexivity.
Qed.
