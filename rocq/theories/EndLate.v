(** A program that has all its results, and whose shutdown never returns. *)
From Verif Require Import Lib ShmModel DataIdModel TopoModel MonModel ValModel WorkerModel WorkerSpec ClusterModel NestModel NestSpec NestCases NestStuckCases
  ShutModel ShutSpec ShutProofs ShutCases EndModel EndSpec EndSim EndProofs EndCases EndNever.

(** f(a) on worker 2 gives x and f(b) on 3 gives y; f(y) on 2 and f(x) on 3 make the workers ask each other. The main
    program gets x and y and calls f(y) on 2 and f(x) on 3 once more: now the values come from the main program, all calls are
    executed and their results got, while the answers of the workers to each other are still under way. *)
Definition vsub (f r : dataid) (k : list dataid -> NestModel.act) : NestModel.act :=
  ASubmit f (VTuple [VRef r]) (VDict []) 1 (fun o => match o with Some l => k l | None => ARet (RExc 5) end).
Definition vmain : NestModel.act :=
  APut (VLeaf 1) (fun f => ASubmit f (VTuple [VLeaf 5]) (VDict []) 1 (fun x => ASubmit f (VTuple [VLeaf 6]) (VDict []) 1 (fun y =>
  match x, y with
  | Some [a], Some [b] => vsub f b (fun c => vsub f a (fun d => AGet [a] (fun _ => AGet [b] (fun _ =>
      vsub f b (fun c' => vsub f a (fun d' => AGet c (fun _ => AGet d (fun _ => AGet c' (fun _ => AGet d' (fun _ => ARet (RVal (VLeaf 0))))))))))))
  | _, _ => ARet (RExc 5)
  end))).

Definition vbefore : list eop :=
  map EProg ([NRun 0 0; NRun 0 2; NRun 0 3; NRun 0 2; NRun 0 3] ++
   [NTake 0 2; NTake 0 2; NRun 2 0; NTake 0 3; NTake 0 3; NRun 3 0; NTake 0 2; NTake 0 2; NTake 0 3; NTake 0 3; NTake 3 2; NTake 2 3] ++
   [NRun 0 0; NTake 0 2; NReply 2 0; NRun 0 0; NTake 0 3; NReply 3 0; NRun 0 2; NRun 0 3] ++
   [NTake 0 2; NRun 2 0; NTake 0 2; NRun 2 0; NTake 0 3; NRun 3 0; NTake 0 3; NRun 3 0] ++
   [NRun 0 0; NTake 0 2; NReply 2 0; NRun 0 0; NTake 0 3; NReply 3 0; NRun 0 0; NTake 0 2; NReply 2 0; NRun 0 0; NTake 0 3; NReply 3 0]).
Definition vafter : list eop := [EShut AStart; EShut ACancel; EShut ACancel; EShut ACancel; ECancel 0; ECancel 1].
Definition vops : list eop := vbefore ++ ECall :: vafter.
Notation vcase := (erun ecluster nbody big_values vmain xmgr vops).

Lemma vmain_ok : refless vmain.
Proof.
  simpl. split; auto. intros f [[|a [|]]|] [[|b [|]]|]; simpl; auto. intros [c|]; simpl; auto. intros [d|]; simpl; auto.
  intros _ _ [c'|]; simpl; auto. intros [d'|]; simpl; auto.
Qed.

Lemma one_nodup {A} (l : list A) : length l = 1 -> NoDup l.
Proof. destruct l as [|x [|]]; try discriminate. intros _. constructor; [intros []|constructor]. Qed.

Lemma vmain_closed : closed [] [] vmain.
Proof.
  intros f. simpl. split; auto. split; [intros x []|]. intros [|a [|]] E; try discriminate. split; auto. split; [intros x []|].
  intros [|b [|]] E'; try discriminate. simpl. split; auto. split; [intros x [<-|[]]; simpl; auto|]. intros c C. split; auto.
  split; [intros x [<-|[]]; repeat (simpl; rewrite ?in_app_iff); auto|]. intros d D.
  split; [intros x [<-|[]]; repeat (simpl; rewrite ?in_app_iff); auto 10|]. split; [apply one_nodup; reflexivity|]. intros _ _.
  split; [intros x [<-|[]]; repeat (simpl; rewrite ?in_app_iff); auto 10|]. split; [apply one_nodup; reflexivity|]. intros _ _.
  split; auto. split; [intros x [<-|[]]; repeat (simpl; rewrite ?in_app_iff); auto 10|]. intros c' C'. split; auto.
  split; [intros x [<-|[]]; repeat (simpl; rewrite ?in_app_iff); auto 10|]. intros d' D'.
  repeat (split; [intros x X; repeat (simpl; rewrite ?in_app_iff); tauto|]; split; [apply one_nodup; assumption|]; intros _ _). auto.
Qed.

Lemma vcase_fits : results_fit (n_hist (e_n vcase)).
Proof. apply ones_fit. vm_compute. reflexivity. Qed.

Lemma vcase_nobody : forall w, In w (s_workers ecluster) -> ~ in_get (e_n vcase) w.
Proof. intros w [<-|[<-|[]]] (fr & E & _); vm_compute in E; discriminate. Qed.

(** Every call of the main program has been got. *)
Definition gotb (H : list (nat * hev)) : bool :=
  forallb (fun e => match e with
    | (0, HSubmit _ q) => match q_out q with
        | OOne d => existsb (fun e' => match e' with (0, HGet [d'] (GVals [_])) => did_eqb d d' | _ => false end) H
        | _ => false end
    | _ => true end) H.

Lemma gotb_ok H : gotb H = true ->
  forall w q, In (0, HSubmit w q) H -> exists d v, q_out q = OOne d /\ In (0, HGet [d] (GVals [v])) H.
Proof.
  intros G w q I. unfold gotb in G. rewrite forallb_forall in G. apply G in I. simpl in I.
  destruct (q_out q) as [|d|ds0]; try discriminate. apply existsb_exists in I as (x & I & E).
  destruct x as [[|t] x]; [|discriminate]. destruct x as [| | | |ds r|]; try discriminate. destruct ds as [|d' [|]]; try discriminate.
  destruct r as [[|v [|]]| |]; try discriminate. apply did_eqb_eq in E. subst. exists d', v. auto.
Qed.

Lemma vbefore_done : let e0 := erun ecluster nbody big_values vmain xmgr vbefore in
  (forall t w q, In (t, HSubmit w q) (n_hist (e_n e0)) -> done (n_hist (e_n e0)) q) /\
  forall w q, In (0, HSubmit w q) (n_hist (e_n e0)) -> exists d v, q_out q = OOne d /\ In (0, HGet [d] (GVals [v])) (n_hist (e_n e0)).
Proof.
  intros e0. split; [apply all_ended_done; vm_compute; reflexivity|]. apply gotb_ok. vm_compute. reflexivity.
Qed.

Lemma vcalled : e_called (erun ecluster nbody big_values vmain xmgr (vbefore ++ [ECall])) = true.
Proof. vm_compute. reflexivity. Qed.

Lemma vcase_locked : locked vcase.
Proof.
  split; [vm_compute; reflexivity|]. split; [vm_compute; reflexivity|]. split; [vm_compute; reflexivity|]. split; [vm_compute; reflexivity|]. split; [vm_compute; reflexivity|].
  split; [vm_compute; auto|]. split; [vm_compute; auto|]. split.
  - intros a b. destruct a as [|[|[|[|a]]]], b as [|[|[|[|b]]]]; vm_compute; reflexivity.
  - intros p fr E. destruct p as [|[|[|[|p]]]]; vm_compute in E; try discriminate E; auto.
Qed.

Lemma valive ops w : In w (s_workers ecluster) -> sworker (e_s (erun ecluster nbody big_values vmain xmgr ops)) w <> WkDead.
Proof. intros Hw. apply (si_dead _ _ (es_si ecluster eok nbody big_values vmain xmgr ops) w Hw). Qed.

Lemma vlocked_more more : locked (erun ecluster nbody big_values vmain xmgr (vops ++ more)).
Proof.
  induction more as [|o more IH] using rev_ind; [rewrite app_nil_r; exact vcase_locked|].
  rewrite app_assoc, erun_snoc. apply (locked_step nbody _ o IH). intros w Hw. rewrite <- erun_snoc. apply valive. exact Hw.
Qed.

Lemma vlocked_not ops : locked (erun ecluster nbody big_values vmain xmgr ops) -> let e := erun ecluster nbody big_values vmain xmgr ops in finishing e 2 /\ finishing e 3 /\ ~ returned e.
Proof.
  intros K e. assert (G := gone_ran ecluster (e_s e) (es_si ecluster eok nbody big_values vmain xmgr ops)). fold e in K. clearbody e.
  destruct K as (_ & B2 & B3 & C2 & C3 & _). split; [split; auto|]. split; [split; auto|]. intros R. apply (G R 2 (or_introl eq_refl)). exact C2.
Qed.

Lemma vlocked_for_ever more : let e := erun ecluster nbody big_values vmain xmgr (vops ++ more) in finishing e 2 /\ finishing e 3 /\ ~ returned e.
Proof. exact (vlocked_not (vops ++ more) (vlocked_more more)). Qed.
