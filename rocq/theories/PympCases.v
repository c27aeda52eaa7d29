(** Concrete programs for C42-C44 and C55. *)
From Verif Require Import Lib ValModel PyseqModel PyseqSpec PyseqCases PympModel PympSpec PympProofs.
From Coq Require Import Permutation.

(** Leaves from 1000 on are byte strings: 1000 + n is the pickled form of n; leaves 40-49 are callables. *)
Definition xiterable (v : val) : bool := false.
Definition xcallable (v : val) : bool := match v with VLeaf n => Nat.leb 40 n && Nat.ltb n 50 | _ => false end.
Definition xbytes (v : val) : bool := match v with VLeaf n => Nat.eqb (n / 1000) 1 | _ => false end.
Definition xdumps (v : val) : val := match v with VLeaf n => VLeaf (1000 + n) | _ => v end.
Definition xloads (v : val) : res := match v with VLeaf n => Ret (VLeaf (n - 1000)) | _ => Ret v end.
Definition xstorable (v : val) : bool := true.

(** As [xbody], but numbers stay below 100; 4 returns too few values; 5 a byte string. *)
Definition zbody (f : nat) (args : list val) (kw : kwargs) : res :=
  match f with
  | 0 => Ret (VLeaf (sum (args ++ map snd kw) mod 100))
  | 1 => Exn 9
  | 2 => Ret (VTuple [VLeaf (sum args mod 100); VLeaf (S (sum args mod 100))])
  | _ => if Nat.odd (sum args) then Exn 5 else Ret (VLeaf 1)
  end.
Definition zmbody (m : nat) (s : val) (args : list val) (kw : kwargs) : res * val :=
  let s' := VLeaf ((num s + sum args) mod 100) in
  match m with 0 => (Ret s', s') | _ => (Exn 8, s') end.

Definition zprog : list pop :=
  [PPut (VLeaf 3);                                             (* (0,0) *)
   PPut (VLeaf 42);                                            (* (0,1): a callable *)
   PSubmit 2 [VRef (0, 0); VLeaf 1] [] 2;                      (* (0,2), (0,3) on 0 *)
   PActor 0 [VLeaf 10] [];                                     (* grabs 0 *)
   PActor 0 [VLeaf 20] [];                                     (* grabs 1 *)
   PSubmit 0 [VRef (0, 2)] [(7, VRef (0, 3))] 1;               (* (0,4): 4 + 5 on 2 *)
   PCall 0 0 [VRef (0, 4)] [] 1;                               (* (0,5): 19 *)
   PWork 2;                                                    (* cannot yet *)
   PWork 0;
   PCall 1 1 [VRef (0, 1)] [] 1;                               (* (0,6): raises *)
   PCall 0 0 [VRef (0, 1)] [] 1;                               (* (0,7): 61 *)
   PWork 2; PWork 1;
   PDel 1;                                                     (* frees 1 *)
   PSubmit 1 [] [] 2;                                          (* (0,8), (0,9) on 1 *)
   PSubmit 0 [VRef (0, 7); VRef (0, 6)] [] 1].                 (* (0,10) on 2 *)

Definition zfinish : list pop := [PWork 0; PWork 0; PWork 1; PWork 2].

Notation zrun := (prun 3 zbody xcbody zmbody xitem xiterable xcallable xbytes xdumps xloads xstorable pinit []).

Lemma mod_small : forall n, n mod 100 < 100.
Proof. intros. apply Nat.mod_upper_bound. discriminate. Qed.

Lemma small_plain : forall n, n <= 100 -> plain_value xbytes (VLeaf n).
Proof.
  intros n L. split; auto. unfold xbytes. replace (n / 1000) with 0; auto. symmetry. apply Nat.div_small. lia.
Qed.

Lemma leaf_plain : forall n, n <= 100 -> plain_result xbytes xitem (VLeaf n).
Proof. intros n L. split; [apply small_plain; auto|discriminate]. Qed.

Lemma z_plain : plain_results zbody zmbody xbytes xitem.
Proof.
  split.
  - intros f a k v H. destruct f as [|[|[|f]]]; cbn [zbody] in H.
    + inversion H. apply leaf_plain. apply Nat.lt_le_incl, mod_small.
    + discriminate.
    + pose proof (mod_small (sum a)) as L. revert H L. generalize (sum a mod 100). intros z H L.
      inversion H. split; [split; auto|]. intros i x E. destruct i as [|[|i]]; simpl index in E.
      * apply Some_inj in E. subst x. apply small_plain. lia.
      * apply Some_inj in E. subst x. apply small_plain. lia.
      * destruct i; discriminate.
    + destruct (Nat.odd (sum a)); inversion H. apply leaf_plain. lia.
  - intros m s a k v s' H. pose proof (mod_small (num s + sum a)). destruct m; cbn [zmbody] in H; inversion H.
    apply leaf_plain. apply Nat.lt_le_incl, mod_small.
Qed.

Lemma z_pickle : pickle_ok xcallable xbytes xdumps xloads.
Proof.
  intros v C. unfold xcallable in C. destruct v; try discriminate. apply andb_prop in C. destruct C as [C1 C2].
  apply Nat.leb_le in C1. apply Nat.ltb_lt in C2. split; [auto|split].
  - unfold xbytes, xdumps. replace ((1000 + n) / 1000) with 1; auto.
    apply Nat.div_unique with n; lia.
  - unfold xloads, xdumps. rewrite (Nat.add_comm 1000), Nat.add_sub. auto.
Qed.

Lemma z_behaved : behaved zbody zmbody xitem xiterable xstorable (zprog ++ zfinish).
Proof.
  split; [auto|]. split.
  - intros f args kw n vs ks I. simpl in I.
    repeat (destruct I as [I|I]; [try discriminate I; inversion I; subst; cbn; auto|]); try contradiction.
  - intros a m args kw n s vs ks I. simpl in I.
    repeat (destruct I as [I|I]; [try discriminate I; inversion I; subst; cbn; auto|]); try contradiction.
Qed.

Definition plain_putsb (h : hist) : bool :=
  forallb (fun e => match fst e with QPut v => negb (is_exc v) && negb (xbytes v) | _ => true end) h.

Lemma plain_putsb_ok : forall h, plain_putsb h = true -> plain_puts xbytes h.
Proof.
  intros h H v out I. unfold plain_putsb in H. rewrite forallb_forall in H. apply H in I. simpl in I.
  apply andb_prop in I. destruct I as [A B]. split; [destruct (is_exc v)|destruct (xbytes v)]; auto.
Qed.

Lemma zprog_run :
  let st := fst (zrun zprog) in let h := snd (zrun zprog) in
  legal h /\ plain_puts xbytes h /\ length (returned h) = 11 /\
  map (fun x => (fst x, k_id (snd x))) (p_log st) = [(0, 0); (2, 1); (0, 2); (1, 3); (0, 4); (1, 5); (2, 6)] /\
  map (p_grab st) [0; 1; 2] = [true; false; false] /\
  map (fun w => map k_id (p_queue st w)) [0; 1; 2] = [[2; 4]; [5]; [6]] /\
  map (pget xbytes xloads st) [(0, 1); (0, 4); (0, 6); (0, 7)] =
    [Look (Ret (VLeaf 42)); Look (Ret (VLeaf 9)); Look (Exn 8); Later] /\
  map (outcome zbody xcbody zmbody xitem h) [(0, 1); (0, 4); (0, 6); (0, 7); (0, 10)] =
    [Some (Ret (VLeaf 42)); Some (Ret (VLeaf 9)); Some (Exn 8); Some (Ret (VLeaf 61)); Some (Exn 8)].
Proof. cbv zeta.
  split; [|split; [|repeat split; vm_compute; reflexivity]].
  - apply legalb_ok. vm_compute. reflexivity.
  - apply plain_putsb_ok. vm_compute. reflexivity.
Qed.

Lemma zprog_end :
  let st := fst (zrun (zprog ++ zfinish)) in let h := snd (zrun (zprog ++ zfinish)) in
  legal h /\ (forall w, work zbody zmbody xitem xiterable xbytes xloads xstorable st w = None) /\
  map (pget xbytes xloads st) [(0, 7); (0, 9); (0, 10)] = [Look (Ret (VLeaf 61)); Look (Exn 9); Look (Exn 8)] /\
  map t_state (p_actors st) = [VLeaf 61; VLeaf 62].
Proof. cbv zeta.
  split; [|split; [|repeat split; vm_compute; reflexivity]].
  - apply legalb_ok. vm_compute. reflexivity.
  - intros [|[|[|w]]]; vm_compute; reflexivity.
Qed.

(** Handles are kept: decided for one program. *)
Definition calls_actor (a : nat) (t : task) : bool := match k_callee t with Meth b _ => Nat.eqb b a | Fun _ => false end.
Definition keptb (nw : nat) (run : list pop -> pst) (ops : list pop) : bool :=
  forallb (fun i => match nth_error ops i with
                    | Some (PDel a) => forallb (fun t => negb (calls_actor a t)) (flat_map (p_queue (run (firstn i ops))) (seq 0 nw))
                    | _ => true end) (seq 0 (length ops)).

Lemma keptb_ok : forall nw run ops, (forall l w t, In t (p_queue (run l) w) -> w < nw) -> keptb nw run ops = true ->
  handles_kept run ops.
Proof.
  intros nw run ops B H pre a post t m E (w & J) C. unfold keptb in H. rewrite forallb_forall in H.
  specialize (H (length pre)). rewrite in_seq in H. rewrite E, app_length in H. simpl in H.
  rewrite nth_error_app2, Nat.sub_diag in H by auto. simpl in H. rewrite firstn_app, Nat.sub_diag, firstn_all, app_nil_r in H.
  rewrite forallb_forall in H. specialize (H ltac:(lia) t).
  assert (I : In t (flat_map (p_queue (run pre)) (seq 0 nw))).
  { apply in_flat_map. exists w. split; auto. apply in_seq. specialize (B _ _ _ J). lia. }
  specialize (H I). unfold calls_actor in H. rewrite C, Nat.eqb_refl in H. discriminate.
Qed.

Lemma queue_bound : forall nw, 0 < nw -> forall body cbody mbody item iterable callable bytes dumps loads storable l w t,
  In t (p_queue (fst (prun nw body cbody mbody item iterable callable bytes dumps loads storable pinit [] l)) w) -> w < nw.
Proof.
  intros nw P body cbody mbody item iterable callable bytes dumps loads storable l w t J.
  destruct (prun nw body cbody mbody item iterable callable bytes dumps loads storable pinit [] l) as [st h] eqn:R.
  pose proof (qi_run _ P _ _ _ _ _ _ _ _ _ _ _ _ _ R) as Q. eapply (qi_log _ _ Q). eapply pending_log; eauto.
Qed.

Lemma z_kept : handles_kept (fun l => fst (zrun l)) (zprog ++ zfinish).
Proof. apply (keptb_ok 3); [apply queue_bound; lia|]. vm_compute. reflexivity. Qed.
Lemma z_kept1 : handles_kept (fun l => fst (zrun l)) zprog.
Proof. apply (keptb_ok 3); [apply queue_bound; lia|]. vm_compute. reflexivity. Qed.

(** C43: the handle of an actor dies before the worker has taken its call. The worker ends, is free for tasks, and a plain task
    is given to it. *)
Definition hprog : list pop :=
  [PActor 0 [VLeaf 10] []; PCall 0 0 [VLeaf 1] [] 1; PDel 0; PTake 0; PSubmit 0 [VLeaf 3] [] 1; PWork 0; PTake 0].
Notation hrun := (prun 2 zbody xcbody zmbody xitem xiterable xcallable xbytes xdumps xloads xstorable pinit []).

Lemma stuck_dropped :
  behaved zbody zmbody xitem xiterable xstorable hprog /\
  let st := fst (hrun hprog) in let h := snd (hrun hprog) in
  legal h /\ (exists t w, In t (p_queue st w) /\ p_dead st w = true /\ k_callee t = Fun 0 /\ k_args t = [VLeaf 3]) /\
  forall w, work zbody zmbody xitem xiterable xbytes xloads xstorable st w = None /\ take st w = st.
Proof.
  split.
  { split; [auto|]. split.
    - intros f args kw n vs ks I. simpl in I.
      repeat (destruct I as [I|I]; [try discriminate I; inversion I; subst; cbn; auto|]); try contradiction.
    - intros a m args kw n s vs ks I. simpl in I.
      repeat (destruct I as [I|I]; [try discriminate I; inversion I; subst; cbn; auto|]); try contradiction. }
  cbv zeta. split; [apply legalb_ok; vm_compute; reflexivity|]. split.
  - eexists. exists 0. split; [|split; [|split]].
    + vm_compute. right. left. reflexivity.
    + vm_compute. reflexivity.
    + reflexivity.
    + reflexivity.
  - intros [|[|w]]; split; vm_compute; reflexivity.
Qed.

(** C55: the handle dies while the worker waits for the argument of the call. *)
Definition gprog : list pop :=
  [PActor 0 [VLeaf 10] []; PSubmit 0 [VLeaf 3] [] 1; PCall 0 0 [VRef (0, 0)] [] 1; PTake 0; PDel 0; PWork 1; PWork 0].

Lemma lost_dropped :
  plain_results zbody zmbody xbytes xitem /\ pickle_ok xcallable xbytes xdumps xloads /\
  let st := fst (hrun gprog) in let h := snd (hrun gprog) in
  legal h /\ plain_puts xbytes h /\ In (0, 1) (returned h) /\
  outcome zbody xcbody zmbody xitem h (0, 1) = Some (Ret (VLeaf 13)) /\
  pget xbytes xloads st (0, 1) = Look (Exn connection_lost).
Proof.
  split; [exact z_plain|]. split; [exact z_pickle|]. cbv zeta.
  split; [apply legalb_ok; vm_compute; reflexivity|]. split; [apply plain_putsb_ok; vm_compute; reflexivity|].
  vm_compute. auto.
Qed.

(** C43: a task that returns fewer values than references, and another that waits for the missing one. *)
Definition sbody (f : nat) (args : list val) (kw : kwargs) : res :=
  match f with 0 => Ret (VTuple [VLeaf 1]) | _ => Ret (VLeaf 2) end.
Definition sprog : list pop := [PSubmit 0 [] [] 2; PSubmit 1 [VRef (0, 1)] [] 1; PWork 0].

Lemma stuck_short :
  let st := fst (prun 2 sbody xcbody zmbody xitem xiterable xcallable xbytes xdumps xloads xstorable pinit [] sprog) in let h := snd (prun 2 sbody xcbody zmbody xitem xiterable xcallable xbytes xdumps xloads xstorable pinit [] sprog) in
  legal h /\ (exists t, pending st t) /\ (forall w, p_dead st w = false) /\
  forall w, work sbody zmbody xitem xiterable xbytes xloads xstorable st w = None.
Proof. cbv zeta.
  split; [apply legalb_ok; vm_compute; reflexivity|]. split; [|split].
  - eexists. exists 1. vm_compute. left. reflexivity.
  - intros w. vm_compute. reflexivity.
  - intros [|[|w]]; vm_compute; reflexivity.
Qed.

(** C43: a task whose result is no iterable ends its worker process, and the tasks queued there never run. *)
Definition kprog : list pop := [PSubmit 1 [] [] 2; PSubmit 1 [] [] 1; PWork 0].

Lemma stuck_dead :
  let st := fst (prun 1 sbody xcbody zmbody xitem xiterable xcallable xbytes xdumps xloads xstorable pinit [] kprog) in let h := snd (prun 1 sbody xcbody zmbody xitem xiterable xcallable xbytes xdumps xloads xstorable pinit [] kprog) in
  legal h /\ (exists t, pending st t) /\
  forall w, work sbody zmbody xitem xiterable xbytes xloads xstorable st w = None.
Proof. cbv zeta.
  split; [apply legalb_ok; vm_compute; reflexivity|]. split.
  - eexists. exists 0. vm_compute. left. reflexivity.
  - intros [|w]; vm_compute; reflexivity.
Qed.

(** C44 *)
Definition a1 : dataid := (0, 1). Definition b1 : dataid := (0, 2). Definition c1 : dataid := (0, 3).
Definition only_ab (k : nat) (d : dataid) : bool := negb (did_eqb d c1).
Definition slow_c (d : dataid) : fin := if did_eqb d c1 then FNever else FDone.

Lemma drift_error : pwait (fun _ _ => true) (fun _ => FDone) [a1; b1; c1] 3 = WIndexError.
Proof. vm_compute. reflexivity. Qed.

Lemma drift_wrong : pwait only_ab slow_c [a1; b1; c1] 2 = Waited [a1; c1] [b1].
Proof. vm_compute. reflexivity. Qed.

Lemma abc_distinct : NoDup [a1; b1; c1].
Proof. repeat constructor; simpl; intuition discriminate. Qed.
Lemma ab_distinct : NoDup [a1; b1].
Proof. repeat constructor; simpl; intuition discriminate. Qed.

Lemma drift_not_ready : NoDup [a1; b1; c1] /\ (forall k d, only_ab k d = true -> really_ready slow_c d) /\
  pwait only_ab slow_c [a1; b1; c1] 2 = Waited [a1; c1] [b1] /\ In c1 [a1; c1] /\ ~ really_ready slow_c c1.
Proof.
  split; [apply abc_distinct|]. split.
  - intros k d H. unfold only_ab, really_ready, slow_c in *. destruct (did_eqb d c1); [discriminate|auto].
  - split; [apply drift_wrong|]. split; [simpl; auto|]. discriminate.
Qed.

Lemma zero_error : pwait (fun _ _ => true) (fun _ => FDone) [a1] 0 = WIndexError.
Proof. vm_compute. reflexivity. Qed.

Lemma failed_raises : pwait (fun _ _ => false) (fun _ => FRaise 9) [a1; b1] 1 = WRaise 9.
Proof. vm_compute. reflexivity. Qed.

Lemma wait_cases : pwait only_ab slow_c [c1; b1; a1] 1 = Waited [b1] [c1; a1] /\
  pwait (fun _ _ => false) (fun _ => FDone) [a1; b1; c1] 2 = Waited [a1; b1] [c1].
Proof. vm_compute. auto. Qed.

(** C55: byte strings are unpickled. *)
Definition bprog : list pop := [PPut (VLeaf 1007)].

Lemma bytes_changed :
  let st := fst (prun 1 zbody xcbody zmbody xitem xiterable xcallable xbytes xdumps xloads xstorable pinit [] bprog) in let h := snd (prun 1 zbody xcbody zmbody xitem xiterable xcallable xbytes xdumps xloads xstorable pinit [] bprog) in
  legal h /\ outcome zbody xcbody zmbody xitem h (0, 0) = Some (Ret (VLeaf 1007)) /\
  pget xbytes xloads st (0, 0) = Look (Ret (VLeaf 7)).
Proof. cbv zeta. split; [apply legalb_ok|]; vm_compute; auto. Qed.
