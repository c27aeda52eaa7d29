(** Concrete programs that run through shared memory. *)
From Coq Require Import ZArith.
From Verif Require Import Lib ValModel ShmModel ShmStoreModel ShmStoreSpec PushModel WorkerModel WorkerSpec WorkerCases MonModel ClusterModel
  ClusterSpec ClusterSeq ClusterRoot ClusterCases SharedRunModel SharedRunSpec SharedRunFit.
Local Open Scope nat_scope.

(** A serialisation of integers and exceptions. *)
Definition senc (v : val) : payload :=
  match v with
  | VLeaf n => {| s_data := [7%Z; Z.of_nat n]; raw_buffers := []; buffer_count := [] |}
  | VExc n => {| s_data := [8%Z; Z.of_nat n]; raw_buffers := []; buffer_count := [] |}
  | _ => {| s_data := [0%Z]; raw_buffers := []; buffer_count := [] |}
  end.
Definition sdec (p : payload) : option val :=
  match s_data p with
  | [m; n] => if Z.eqb m 7 then Some (VLeaf (Z.to_nat n)) else if Z.eqb m 8 then Some (VExc (Z.to_nat n)) else None
  | _ => None
  end.

(** All values of a program are integers or exceptions. *)
Definition simple (body : val -> val -> val -> result) (prog : list rop) : bool :=
  forallb (fun d => match sequential body prog d with Some (VLeaf _) | Some (VExc _) | None => true | _ => false end) (introduced prog).

Lemma simple_trips body prog : simple body prog = true -> round_trips body senc sdec prog.
Proof.
  intros H d v Ev. unfold simple in H. rewrite forallb_forall in H. specialize (H d).
  rewrite Ev in H. assert (I : In d (introduced prog)) by (apply (seq_dom body); congruence). specialize (H I).
  destruct v; try discriminate; cbn; split; try lia; rewrite Nat2Z.id; reflexivity.
Qed.

Definition rounds (n : nat) (l : list xop) := concat (repeat l n).

(** Worker 3 is handed y twice, first by reference, then, after the program has fetched it, by value. *)
Definition sprog : list rop :=
  [RPut f2 (VLeaf 2); RSubmit 2 (req 1 (FRef f2) [VLeaf 3] [] (OOne y)); RSubmit 3 (req 2 (FRef f2) [VRef y] [] (OOne z)); RGet [y];
   RSubmit 3 (req 3 (FRef f2) [VRef y] [] (OOne u)); RDrop y; RClean [y]; RPut t (VLeaf 9)].
Definition root_ops (l : list rop) : list xop := map (fun o => XStep (CRoot o)) l.
Definition sops : list xop :=
  root_ops (firstn 4 sprog) ++ rounds 4 [XStep (CTake 0 2); XStep (CTake 0 3); XStep (CTake 3 2)] ++
  XStep (CReply 2) :: root_ops (firstn 1 (skipn 4 sprog)) ++
  rounds 4 [XStep (CTake 0 3); XStep (CDone 2); XStep (CDone 3)] ++
  root_ops (firstn 2 (skipn 5 sprog)) ++ [XStep (CTake 0 2); XStep (CTake 0 3); XMon] ++ root_ops (skipn 7 sprog).
Definition srun' (sizes : list (Z * Z)) (ops : list xop) : xst := xrun [2; 3] xbody (fun _ => 0) senc sdec 0 cmgr sizes ops.

Lemma sprog_run : c_prog (crun [2; 3] xbody cmgr (plain (sops ++ [XStep (CTake 2 3)]))) = sprog.
Proof. vm_compute. reflexivity. Qed.

Lemma sprog_valid : valid [2; 3] sprog. Proof. prove_valid. Qed.
Lemma sprog_tidy : tidy sprog. Proof. prove_tidy. Qed.
Lemma sprog_enough : returns_enough xbody sprog.
Proof.
  intros dest q fd f a k H F P.
  assert (X : f = VLeaf 2 \/ f = VLeaf 9).
  { simpl in P. repeat (destruct P as [P|P]; [first [discriminate P | inversion P; auto]|]). destruct P. }
  clear P. simpl in H.
  repeat (destruct H as [H|H]; [first [discriminate H |
    injection H as <- <-; split; [discriminate|]; destruct X as [-> | ->]; exact I]|]).
  destruct H.
Qed.

Definition sfault : bool := match x_fault (srun' [(100, 40)%Z] (sops ++ [XStep (CTake 2 3)])) with Some Unreadable => true | _ => false end.
Lemma sfault_true : sfault = true. Proof. vm_compute. reflexivity. Qed.

(** Every segment has 100 bytes; no more than 32 bytes are ever put. *)
Lemma two_sources : exists workers body host_of enc dec threshold mgr sizes ops f,
  (forall f a k, no_refs_returned (body f a k)) /\ ~ In 0 workers /\ NoDup workers /\ memory_fine host_of sizes /\
  let prog := c_prog (crun workers body mgr (plain ops)) in
  valid workers prog /\ tidy prog /\ returns_enough body prog /\ round_trips body enc dec prog /\
  x_fault (xrun workers body host_of enc dec threshold mgr sizes ops) = Some f /\ ~ for_lack_of_memory host_of f.
Proof.
  exists [2; 3], xbody, (fun _ => 0), senc, sdec, 0, cmgr, [(100, 40)%Z], (sops ++ [XStep (CTake 2 3)]), Unreadable.
  split; [exact xbody_ok|]. split; [simpl; intuition discriminate|]. split; [repeat constructor; simpl; intuition discriminate|].
  split.
  { split; [repeat constructor; simpl; try lia; exists 10%Z; lia|]. split; [|intros; simpl; lia].
    intros sz sz' [<-|[]] [<-|[]]. reflexivity. }
  cbv zeta. rewrite sprog_run. split; [exact sprog_valid|]. split; [exact sprog_tidy|]. split; [exact sprog_enough|].
  split; [apply simple_trips; vm_compute; reflexivity|]. split.
  - assert (W := sfault_true). unfold sfault, srun' in W. destruct (x_fault _) as [[]|]; try discriminate. reflexivity.
  - intros (st & o & H & _). discriminate.
Qed.

(** Two hosts; worker 3 is on the second. y dies, is cleaned up, and its memory is used again. *)
Definition shost (p : rank) : nat := if Nat.eqb p 3 then 1 else 0.
Definition sizes2 : list (Z * Z) := [(200, 40)%Z; (200, 40)%Z].
Definition stail : list rop :=
  [RGet [t]; RDrop y; RClean [y]; RPut (1, 1) (VLeaf 77); RSubmit 2 (req 5 (FRef f2) [VRef u; VRef (1, 1)] [] (OOne (1, 0))); RGet [(1, 0); (1, 1)]].
Definition sgood : list xop :=
  map XStep (map CRoot cprog1 ++ serve 12 ++ [CRoot (RGet [t])] ++ serve 12 ++ map CRoot [RDrop y; RClean [y]] ++ serve 4) ++ [XMon] ++
  map XStep (map CRoot (skipn 3 stail) ++ serve 12).
Definition sx2 : xst := xrun [2; 3] xbody shost senc sdec 0 cmgr sizes2 sgood.

Definition sprog2 : list rop := cprog1 ++ stail.

Lemma sgood_run : c_prog (crun [2; 3] xbody cmgr (plain sgood)) = sprog2.
Proof. vm_compute. reflexivity. Qed.

Lemma sprog2_enough : returns_enough xbody sprog2.
Proof.
  intros dest q fd f a k H F P.
  assert (X : (fd = f0 /\ f = VLeaf 0) \/ (fd = f1 /\ f = VLeaf 1) \/ (fd = f2 /\ f = VLeaf 2) \/ (fd = (1, 1) /\ f = VLeaf 77)).
  { simpl in P. repeat (destruct P as [P|P]; [first [discriminate P | inversion P; auto]|]). destruct P. }
  clear P. simpl in H.
  repeat (destruct H as [H|H]; [first [discriminate H |
    injection H as <- <-; injection F as <-; split; [discriminate|];
    destruct X as [[X ->]|[[X ->]|[[X ->]|[X ->]]]]; try discriminate X; simpl;
    first [exact I | eexists; split; [reflexivity|simpl; auto]]]|]).
  destruct H.
Qed.

Lemma sgood_ok : let prog := c_prog (crun [2; 3] xbody cmgr (plain sgood)) in
  valid [2; 3] prog /\ tidy prog /\ returns_enough xbody prog /\ one_source prog /\ round_trips xbody senc sdec prog.
Proof.
  cbv zeta. rewrite sgood_run. split; [prove_valid|]. split; [prove_tidy|]. split; [exact sprog2_enough|].
  split; [apply check_sound; vm_compute; reflexivity|]. apply simple_trips. vm_compute. reflexivity.
Qed.

Lemma sizes2_ok : memory_fine shost sizes2.
Proof.
  split; [repeat constructor; simpl; try lia; exists 10%Z; lia|]. split.
  - intros sz sz' [<-|[<-|[]]] [<-|[<-|[]]]; reflexivity.
  - intros p. unfold shost. destruct (Nat.eqb p 3); simpl; lia.
Qed.

(** What a case shows, as a value that can be computed. *)
Definition summary (x : xst) : (nat * list sight) * (list sop * list (list dataid)) :=
  ((match x_fault x with None => 0 | Some Unreadable => 1 | Some (Raised _ _) => 2 end, c_seen (x_c x)),
   (filter (fun o => match o with SSkip _ | SCleanup _ | SDrop _ _ => true | _ => false end) (m_ops (x_m x)), x_mon x)).

Lemma sx2_summary : summary sx2 =
  ((0, [RGot [z; u] [VLeaf 110; VLeaf 10]; RRaised [t] 9; RCleaned [y]; RGot [(1, 0); (1, 1)] [VLeaf 87; VLeaf 77]]),
   ([SDrop 0 y; SDrop 3 y; SDrop 2 y; SCleanup [y]; SSkip 0], [])).
Proof. vm_compute. reflexivity. Qed.

(** The same with room for one object of two bytes on the first host. *)
Definition sx3 : xst := xrun [2; 3] xbody shost senc sdec 0 cmgr [(2, 40)%Z; (2, 40)%Z] sgood.
Lemma sx3_summary : fst (summary sx3) = (2, []).
Proof. vm_compute. reflexivity. Qed.

Lemma from_summary x2 x3 seen :
  summary x2 = ((0, seen), ([SDrop 0 y; SDrop 3 y; SDrop 2 y; SCleanup [y]; SSkip 0], [])) -> fst (summary x3) = (2, []) ->
  x_fault x2 = None /\ c_seen (x_c x2) = seen /\ In (SCleanup [y]) (m_ops (x_m x2)) /\ In (SSkip 0) (m_ops (x_m x2)) /\ x_fault x3 <> None.
Proof.
  intros A B. unfold summary in A, B. cbn [fst] in B. apply (f_equal fst) in B as B1. cbn [fst] in B1.
  assert (A1 := f_equal (fun p => fst (fst p)) A). assert (A2 := f_equal (fun p => snd (fst p)) A).
  assert (A3 := f_equal (fun p => fst (snd p)) A). cbn [fst snd] in A1, A2, A3.
  split. { destruct (x_fault x2) as [[]|]; first [discriminate|reflexivity]. }
  split; [exact A2|].
  assert (S : forall o, In o [SDrop 0 y; SDrop 3 y; SDrop 2 y; SCleanup [y]; SSkip 0] -> In o (m_ops (x_m x2))).
  { intros o I. rewrite <- A3 in I. apply filter_In in I as [I _]. auto. }
  split; [apply S; simpl; auto 10|]. split; [apply S; simpl; auto 10|].
  intros H. rewrite H in B1. discriminate.
Qed.

Lemma c80_case : memory_fine shost sizes2 /\
  (let prog := c_prog (crun [2; 3] xbody cmgr (plain sgood)) in
   valid [2; 3] prog /\ tidy prog /\ returns_enough xbody prog /\ one_source prog /\ round_trips xbody senc sdec prog) /\
  x_fault sx2 = None /\
  c_seen (x_c sx2) = [RGot [z; u] [VLeaf 110; VLeaf 10]; RRaised [t] 9; RCleaned [y]; RGot [(1, 0); (1, 1)] [VLeaf 87; VLeaf 77]] /\
  In (SCleanup [y]) (m_ops (x_m sx2)) /\ In (SSkip 0) (m_ops (x_m sx2)) /\
  x_fault sx3 <> None.
Proof. exact (conj sizes2_ok (conj sgood_ok (from_summary _ _ _ sx2_summary sx3_summary))). Qed.

(** ** Freeing memory *)
(** The monitors carry out the cleanup before the workers have taken it: y is queued, and freed by the next cleanup. *)
Definition sgood4 : list xop :=
  map XStep (map CRoot cprog1 ++ serve 12 ++ [CRoot (RGet [t])] ++ serve 12 ++ map CRoot [RDrop y; RClean [y]]) ++ [XMon] ++
  map XStep (serve 4).
Definition sx4 : xst := xrun [2; 3] xbody shost senc sdec 0 cmgr sizes2 sgood4.
Definition sprog4 : list rop := cprog1 ++ firstn 3 stail.

Lemma sgood4_run : c_prog (crun [2; 3] xbody cmgr (plain sgood4)) = sprog4.
Proof. vm_compute. reflexivity. Qed.

Ltac prove_births := simpl; intros a d b H;
  repeat (destruct a as [|o a]; simpl in H; [try discriminate; injection H as <- <- | injection H as <- H]);
  try (destruct a; discriminate); simpl; auto 20.

Lemma sgood4_ok : let prog := c_prog (crun [2; 3] xbody cmgr (plain sgood4)) in
  valid [2; 3] prog /\ tidy prog /\ returns_enough xbody prog /\ one_source prog /\ round_trips xbody senc sdec prog /\
  dies_after_birth prog.
Proof.
  cbv zeta. rewrite sgood4_run. split; [prove_valid|]. split; [prove_tidy|].
  split. { apply (enough_prefix xbody sprog4 (skipn 3 stail)). exact sprog2_enough. }
  split; [apply check_sound; vm_compute; reflexivity|]. split; [apply simple_trips; vm_compute; reflexivity|]. prove_births.
Qed.

Definition counts (host_of : nat -> nat) (x : xst) (ids : list dataid) :
  (nat * list (list dataid)) * ((option Z * option Z) * option ((option Z * option Z) * sout)) :=
  ((match x_fault x with None => 0 | Some _ => 1 end, x_mon x),
   ((stored_count (m_s (x_m x)) 0 y, stored_count (m_s (x_m x)) 1 y),
    match sstep host_of (m_s (x_m x)) (SCleanup ids) with
    | Some (st, o) => Some ((stored_count st 0 y, stored_count st 1 y), o)
    | None => None
    end)).

Lemma sx4_counts : counts shost sx4 [] = ((0, []), ((Some 0%Z, Some 0%Z), Some ((None, None), ODone))).
Proof. vm_compute. reflexivity. Qed.
Lemma sx4_idle : idle (x_c sx4).
Proof. intros s d. destruct s as [|[|[|[|s]]]]; destruct d as [|[|[|[|d]]]]; vm_compute; reflexivity. Qed.
Lemma sx4_seen : c_seen (x_c sx4) = [RGot [z; u] [VLeaf 110; VLeaf 10]; RRaised [t] 9; RCleaned [y]].
Proof. vm_compute. reflexivity. Qed.

Lemma from_counts host_of x ids a b c e :
  counts host_of x ids = ((0, []), ((a, b), Some ((c, e), ODone))) ->
  x_fault x = None /\ x_mon x = [] /\ stored_count (m_s (x_m x)) 0 y = a /\ stored_count (m_s (x_m x)) 1 y = b /\
  exists st, sstep host_of (m_s (x_m x)) (SCleanup ids) = Some (st, ODone) /\ stored_count st 0 y = c /\ stored_count st 1 y = e.
Proof.
  unfold counts. intros H.
  assert (A1 := f_equal (fun p => fst (fst p)) H). assert (A2 := f_equal (fun p => snd (fst p)) H).
  assert (A3 := f_equal (fun p => fst (fst (snd p))) H). assert (A4 := f_equal (fun p => snd (fst (snd p))) H).
  assert (A5 := f_equal (fun p => snd (snd p)) H). cbn [fst snd] in *. clear H.
  split; [destruct (x_fault x); [discriminate|reflexivity]|]. split; [exact A2|]. split; [exact A3|]. split; [exact A4|].
  destruct (sstep host_of (m_s (x_m x)) (SCleanup ids)) as [[st o]|]; [|discriminate]. exists st.
  apply (f_equal (fun p => match p with Some q => q | None => ((None, None), ODone) end)) in A5.
  assert (B1 := f_equal snd A5). assert (B2 := f_equal (fun p => fst (fst p)) A5). assert (B3 := f_equal (fun p => snd (fst p)) A5).
  cbn [fst snd] in B1, B2, B3. subst o. auto.
Qed.

Lemma c80_freed : (let prog := c_prog (crun [2; 3] xbody cmgr (plain sgood4)) in
   valid [2; 3] prog /\ tidy prog /\ returns_enough xbody prog /\ one_source prog /\ round_trips xbody senc sdec prog /\
   dies_after_birth prog) /\
  idle (x_c sx4) /\ c_seen (x_c sx4) = [RGot [z; u] [VLeaf 110; VLeaf 10]; RRaised [t] 9; RCleaned [y]] /\
  x_fault sx4 = None /\ x_mon sx4 = [] /\
  stored_count (m_s (x_m sx4)) 0 y = Some 0%Z /\ stored_count (m_s (x_m sx4)) 1 y = Some 0%Z /\
  exists st, sstep shost (m_s (x_m sx4)) (SCleanup []) = Some (st, ODone) /\ stored_count st 0 y = None /\ stored_count st 1 y = None.
Proof. exact (conj sgood4_ok (conj sx4_idle (conj sx4_seen (from_counts _ _ _ _ _ _ _ sx4_counts)))). Qed.

(** Two sources: worker 3 receives y again after it has taken the cleanup. *)
Definition sops5 : list xop :=
  root_ops (firstn 4 sprog) ++ rounds 4 [XStep (CTake 0 2); XStep (CTake 0 3); XStep (CTake 3 2)] ++
  XStep (CReply 2) :: root_ops (firstn 1 (skipn 4 sprog)) ++
  rounds 4 [XStep (CTake 0 3); XStep (CDone 2); XStep (CDone 3)] ++
  root_ops (firstn 2 (skipn 5 sprog)) ++ [XStep (CTake 0 2); XStep (CTake 0 3); XStep (CTake 2 3); XMon].
Notation sx5 := (xrun [2; 3] xbody (fun _ => 0) senc sdec 0 cmgr [(100, 40)%Z] sops5).
Lemma sops5_run : c_prog (crun [2; 3] xbody cmgr (plain sops5)) = firstn 7 sprog.
Proof. vm_compute. reflexivity. Qed.
Lemma sx5_counts : counts (fun _ => 0) sx5 [y] = ((0, []), ((Some 1%Z, None), Some ((Some 1%Z, None), ODone))).
Proof. vm_compute. reflexivity. Qed.
Lemma sx5_idle : idle (x_c sx5).
Proof. intros s d. destruct s as [|[|[|[|s]]]]; destruct d as [|[|[|[|d]]]]; vm_compute; reflexivity. Qed.
Lemma sx5_seen : c_seen (x_c sx5) = [RGot [y] [VLeaf 3]; RCleaned [y]].
Proof. vm_compute. reflexivity. Qed.

Lemma two_sources_leak : exists workers body host_of enc dec threshold mgr sizes ops d,
  (forall f a k, no_refs_returned (body f a k)) /\ ~ In 0 workers /\ NoDup workers /\ memory_fine host_of sizes /\
  (let prog := c_prog (crun workers body mgr (plain ops)) in
   valid workers prog /\ tidy prog /\ returns_enough body prog /\ round_trips body enc dec prog /\ dies_after_birth prog) /\
  let x := xrun workers body host_of enc dec threshold mgr sizes ops in
  x_fault x = None /\ idle (x_c x) /\ x_mon x = [] /\ In (RCleaned [d]) (c_seen (x_c x)) /\
  exists st, sstep host_of (m_s (x_m x)) (SCleanup [d]) = Some (st, ODone) /\ stored_count st 0 d = Some 1%Z.
Proof.
  exists [2; 3], xbody, (fun _ => 0), senc, sdec, 0, cmgr, [(100, 40)%Z], sops5, y.
  split; [exact xbody_ok|]. split; [simpl; intuition discriminate|]. split; [repeat constructor; simpl; intuition discriminate|].
  split.
  { split; [repeat constructor; simpl; try lia; exists 10%Z; lia|]. split; [|intros; simpl; lia].
    intros sz sz' [<-|[]] [<-|[]]. reflexivity. }
  split.
  { cbv zeta. rewrite sops5_run. split; [unfold sprog, firstn; prove_valid|]. split; [unfold sprog, firstn; prove_tidy|].
    split. { apply (enough_prefix xbody (firstn 7 sprog) (skipn 7 sprog)). exact sprog_enough. }
    split; [apply simple_trips; vm_compute; reflexivity|]. unfold sprog, firstn. prove_births. }
  assert (A := sx5_counts). assert (Id := sx5_idle). assert (S := sx5_seen).
  revert A Id S. set (x := xrun _ _ _ _ _ _ _ _ _). clearbody x. intros A Id S.
  apply from_counts in A as (A & B & _ & _ & st & C & D & _).
  split; [exact A|]. split; [exact Id|]. split; [exact B|]. split; [rewrite S; simpl; auto|]. exists st; split; [exact C|exact D].
Qed.
