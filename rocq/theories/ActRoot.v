(** The root's part of progress with actors: with a task in the place of each call, the root does the same (C63). *)
From Verif Require Import Lib ValModel ShmModel PushModel PushProofs WorkerModel WorkerSpec WorkerLog
  WorkerThms WorkerSends MonModel ClusterModel ClusterSpec ClusterSeq ClusterProofs ClusterCount ClusterRoot ClusterNet
  ActModel ActSpec.

(** The task in the place of a call. *)
Definition as_req (nd : dataid) (q : request) : request :=
  {| q_id := q_id q; q_fn := FRef nd; q_args := q_args q; q_kwargs := q_kwargs q; q_out := q_out q |}.

Section Image.
Variable workers : list rank.
(** The reference to the method's name of a call, by the call's number. *)
Variable ndf : nat -> dataid.

Definition named (prog : list gprog) : Prop := forall dest nd q, In (GC dest nd q) prog -> ndf (q_id q) = nd.

Definition conv (m : wmsg) : wmsg := match m with WActor q => WExec (as_req (ndf (q_id q)) q) | _ => m end.
Definition conv_out (l : list (rank * wmsg)) : list (rank * wmsg) := map (fun p => (fst p, conv (snd p))) l.

(** The same state with tasks in the place of calls. *)
Definition img (prog : list gprog) (c : cst) : cst :=
  {| c_push := c_push c; c_vals := c_vals c; c_tasks := c_tasks c; c_want := c_want c; c_ids := c_ids c;
     c_left := c_left c; c_exc := c_exc c; c_work := c_work c; c_dead := c_dead c; c_chan := c_chan c;
     c_done := c_done c; c_mon := c_mon c; c_prog := map as_task prog;
     c_seen := c_seen c; c_out := conv_out (c_out c); c_in := c_in c |}.

Lemma lr_same c c' : c_push c' = c_push c -> c_vals c' = c_vals c -> c_want c' = c_want c -> c_ids c' = c_ids c ->
  c_left c' = c_left c -> c_prog c' = c_prog c -> c_seen c' = c_seen c -> c_out c' = c_out c -> c_in c' 0 = c_in c 0 ->
  LR workers c -> LR workers c'.
Proof.
  intros E1 E2 E3 E4 E5 E6 E7 E8 E9 L.
  assert (Cm : forall d, came c d <-> came c' d) by (intros d; unfold came; rewrite E6, E9; tauto).
  assert (Mi : missing c' = missing c) by (unfold missing; rewrite E1, E4; auto).
  destruct L as [K1 K2 K3 K4 K5 K6 K7 K8 K9 K9' K10 K11 K12 K13 K14 K15 K16 K17].
  split; rewrite ?E1, ?E2, ?E3, ?E4, ?E5, ?E6, ?E7, ?E8, ?E9, ?Mi; auto.
  - intros d D. destruct (K5 d D); auto. right. apply Cm; auto.
  - intros w m I. apply K9 in I. destruct m; simpl in *; rewrite ?E6; auto. destruct I as [I|I]; auto. right. apply Cm; auto.
  - intros s r d b I. destruct (K13 s r d b I) as [X|X]; auto. left. apply Cm; auto.
Qed.

Lemma conv_app a b : conv_out (a ++ b) = conv_out a ++ conv_out b.
Proof. apply map_app. Qed.

Lemma conv_id l : (forall w q, ~ In (w, WActor q) l) -> conv_out l = l.
Proof.
  induction l as [|[w m] l IH]; intros N; auto. unfold conv_out in *. simpl. rewrite IH by (intros; intro; eapply N; simpl; eauto).
  f_equal. destruct m; auto. exfalso. eapply N; simpl; eauto.
Qed.

Lemma in_conv w m l : In (w, m) l -> In (w, conv m) (conv_out l).
Proof. intros I. apply in_map_iff. exists (w, m). auto. Qed.

Lemma conv_back w m l : In (w, m) (conv_out l) -> exists m0, In (w, m0) l /\ m = conv m0.
Proof. intros I. apply in_map_iff in I as ([w0 m0] & E & I). apply pair_inj in E as [<- <-]. eauto. Qed.

Lemma conv_sends w l : sends_to w (conv_out l) = map conv (sends_to w l).
Proof.
  induction l as [|[r m] l IH]; auto. unfold conv_out in *. simpl. rewrite IH, map_app. destruct (r =? w); auto.
Qed.

Lemma pushed_plain vals q l : conv_out (pushed vals q l) = pushed vals q l.
Proof.
  apply conv_id. intros w x I. apply in_flat_map in I as ([r m] & _ & I). apply in_map_iff in I as (y & Y & I).
  apply pair_inj in Y as [_ ->]. destruct m; simpl in I.
  - destruct (vals d); simpl in I; [destruct I as [I|[]]; discriminate | tauto].
  - destruct I as [I|[]]; discriminate.
  - destruct I as [I|[]]; discriminate.
Qed.

Lemma pushed_conv vals nd q l : ndf (q_id q) = nd -> conv_out (pushed_call vals q l) = pushed vals (as_req nd q) l.
Proof.
  intros E. induction l as [|[r m] l IH]; auto. unfold pushed_call, pushed in *. simpl. rewrite conv_app, IH. f_equal.
  destruct m; simpl; auto.
  - destruct (vals d); auto.
  - rewrite E. auto.
Qed.

Lemma root_img prog c o : LR workers (root_step workers (img prog c) o) -> LR workers (img (prog ++ [GP o]) (root_step workers c o)).
Proof.
  assert (Nl : conv_out [] = []) by auto.
  destruct o as [d v|dest q|ds|d|ds]; cbn [root_step img c_push c_vals c_want c_ids c_left c_mon c_tasks]; cbv zeta;
    [| |destruct (filter _ ds); [|destruct (owners _ _)]| |destruct (Nat.eqb _ _)];
    (apply lr_same; auto; cbn [set_get root_to img c_prog c_out]; [apply (map_app as_task)|]);
    rewrite conv_app, ?Nl, ?pushed_plain; auto; f_equal; apply conv_id; intros w q I;
    apply in_map_iff in I as (x & X & _); discriminate.
Qed.

Lemma call_img prog c dest nd q : ndf (q_id q) = nd ->
  LR workers (root_step workers (img prog c) (RSubmit dest (as_req nd q))) ->
  LR workers (img (prog ++ [GC dest nd q]) (root_call c dest nd q)).
Proof.
  intros E. apply lr_same; auto; cbn [img root_call root_step c_prog c_out root_to]; cbv zeta.
  - rewrite (map_app as_task). auto.
  - rewrite conv_app. f_equal. apply (pushed_conv _ nd); auto.
Qed.

Lemma named_prefix a b : named (a ++ b) -> named a.
Proof. intros N dest nd q I. apply (N dest), in_or_app; auto. Qed.

End Image.

(** Numbers are unique, so there is such a function. *)
Lemma named_some prog : NoDup (map (fun p => q_id (snd p)) (gsubmitted prog)) -> exists ndf, named ndf prog.
Proof.
  intros N.
  exists (fun n => match find (fun p => match p with GC _ _ q => Nat.eqb (q_id q) n | _ => false end) prog with
                   | Some (GC _ nd _) => nd | _ => (0, 0) end).
  intros dest nd q I. destruct (find _ prog) as [p|] eqn:F.
  - apply find_some in F as [I' F]. destruct p as [o|dest' nd' q']; [discriminate|]. apply Nat.eqb_eq in F.
    assert (X : GC dest' nd' q' = GC dest nd q); [|congruence].
    clear - N I I' F. induction prog as [|p prog IH]; [destruct I|].
    unfold gsubmitted in *. simpl in N. rewrite map_app in N.
    assert (G : forall d1 n1 q1, In (GC d1 n1 q1) prog -> In (q_id q1) (map (fun p => q_id (snd p))
      (flat_map (fun p => match p with GP (RSubmit dest q) | GC dest _ q => [(dest, q)] | _ => [] end) prog))).
    { intros d1 n1 q1 J. apply in_map_iff. exists (d1, q1). split; auto. apply in_flat_map. eexists; split; eauto. simpl; auto. }
    destruct I as [->|I], I' as [->|I']; auto.
    + exfalso. eapply (nodup_sep _ _ (q_id q) N); simpl; auto. rewrite <- F. eauto.
    + exfalso. eapply (nodup_sep _ _ (q_id q') N); simpl; auto. rewrite F. eauto.
    + apply IH; auto. eapply ShmRaceProofs.nodup_app_r; eauto.
  - exfalso. assert (X := find_none _ _ F _ I). simpl in X. rewrite Nat.eqb_refl in X. discriminate.
Qed.
