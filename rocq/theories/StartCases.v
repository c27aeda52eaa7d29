(** Clusters for C87 and C88. *)
From Verif Require Import Lib TopoModel SizingModel StartModel StartSpec StartProofs.
From Coq Require Import ZArith.

Definition cplace : list nat := [0; 0; 0; 1; 1; 1].
Definition caddr (k : nat) : nat := 10 + k.

(** A process that finds [total] bytes; half a gigabyte is configured for objects. *)
Definition with_memory (shm : bool) (total : Z) : view :=
  {| v_shm := shm; v_total := total; v_obj := Some 500000000%Z; v_svc := None; v_threshold := 100000%Z |}.

(** Enough memory everywhere. *)
Definition good (p : nat) : view := with_memory true 1000000000.
(** The second machine has too little. *)
Definition small (p : nat) : view := with_memory true (if Nat.ltb p 3 then 1000000000 else 100000000).
(** Rank 5 is configured not to use shared memory. *)
Definition odd (p : nat) : view := with_memory (negb (Nat.eqb p 5)) 1000000000.
(** One process on the second machine. *)
Definition lonely : list nat := [0; 0; 0; 1].

(** Every process goes on whenever it can. *)
Definition all_go (n k : nat) : list move := concat (repeat (map Go (seq 0 n)) k).
Definition all_end (n : nat) : list move := map EndLoop (seq 0 n).

Definition haltedb (place : list nat) (addr : nat -> nat) (long : Z) (sees : nat -> view) (s : st) : bool :=
  forallb (fun p => match step place addr long sees s (Go p) with None => true | Some _ => false end) (seq 0 (length place)).

Lemma haltedb_ok place addr long sees s : haltedb place addr long sees s = true -> halted place addr long sees s.
Proof.
  intros H p. unfold haltedb in H. rewrite forallb_forall in H. destruct (Nat.lt_ge_cases p (length place)) as [L|L].
  - specialize (H p). rewrite in_seq in H. specialize (H ltac:(lia)). destruct (step place addr long sees s (Go p)); congruence.
  - unfold step. apply Nat.ltb_ge in L. rewrite L. auto.
Qed.

Lemma cdistinct place : distinct place caddr.
Proof. intros a b _ _ E. unfold caddr in E. lia. Qed.

Lemma csizes k : In k cplace -> 2 <= size cplace k.
Proof. intros H. simpl in H. unfold size. intuition (subst; vm_compute; lia). Qed.


(** The run on the cluster with a small second machine: it halts, the driver neither returned nor raised. *)
Notation small_end := (fst (run cplace caddr 8 small start (all_go 6 6))).
Lemma small_halted : halted cplace caddr 8 small small_end.
Proof. apply haltedb_ok. vm_compute. reflexivity. Qed.
Lemma small_points : map (now cplace caddr 8 small small_end) (seq 0 6) = [AtBarrier; AtBarrier; AtBarrier; Raised; Raised; Raised].
Proof. vm_compute. reflexivity. Qed.
Lemma small_not_returned : ~ returned cplace caddr 8 small small_end.
Proof. unfold returned. vm_compute. discriminate. Qed.
Lemma small_not_raised : ~ raised cplace caddr 8 small small_end 0.
Proof. unfold raised. vm_compute. discriminate. Qed.
Lemma small_raised : raised cplace caddr 8 small small_end 3.
Proof. unfold raised. vm_compute. reflexivity. Qed.

Notation odd_end := (fst (run cplace caddr 8 odd start (all_go 6 6))).
Lemma odd_halted : halted cplace caddr 8 odd odd_end.
Proof. apply haltedb_ok. vm_compute. reflexivity. Qed.
Lemma odd_points : map (now cplace caddr 8 odd odd_end) (seq 0 6) = [AtBarrier; AtBarrier; AtBarrier; AtAlloc; AtAlloc; AtBarrier].
Proof. vm_compute. reflexivity. Qed.
Lemma odd_not_returned : ~ returned cplace caddr 8 odd odd_end.
Proof. unfold returned. vm_compute. discriminate. Qed.
Lemma odd_not_raised p : p < 6 -> ~ raised cplace caddr 8 odd odd_end p.
Proof.
  intros L. do 6 (destruct p as [|p]; [unfold raised; vm_compute; discriminate|]). lia.
Qed.

(** The good cluster: init returns, and after the end of the loops everybody leaves. *)
Notation up_end := (fst (run cplace caddr 8 good start (all_go 6 6))).
Notation down_end := (fst (run cplace caddr 8 good start (all_go 6 6 ++ all_end 6 ++ all_go 6 4))).
Lemma up_halted : halted cplace caddr 8 good up_end.
Proof. apply haltedb_ok. vm_compute. reflexivity. Qed.
Lemma up_returned : returned cplace caddr 8 good up_end.
Proof. unfold returned. vm_compute. reflexivity. Qed.
Lemma down_halted : halted cplace caddr 8 good down_end.
Proof. apply haltedb_ok. vm_compute. reflexivity. Qed.
Lemma down_points : map (now cplace caddr 8 good down_end) (seq 0 6) = repeat Gone 6.
Proof. vm_compute. reflexivity. Qed.
Lemma down_ended p : p < 6 -> loop_ended cplace caddr 8 good down_end p.
Proof.
  intros L. do 6 (destruct p as [|p]; [split; [vm_compute; reflexivity|vm_compute; discriminate]|]). lia.
Qed.

(** All loops but that of rank 4 end: nobody on its machine frees the memory, nobody leaves. *)
Notation part_end := (fst (run cplace caddr 8 good start (all_go 6 6 ++ map EndLoop [0; 1; 2; 3; 5] ++ all_go 6 4))).
Lemma part_points : map (now cplace caddr 8 good part_end) (seq 0 6) = [AtFinalize; AtFinalize; AtFinalize; AtFree; InLoop; AtFree].
Proof. vm_compute. reflexivity. Qed.

Notation lonely_end := (fst (run lonely caddr 8 good start (all_go 4 6))).
Lemma lonely_halted : halted lonely caddr 8 good lonely_end.
Proof. apply haltedb_ok. vm_compute. reflexivity. Qed.
Lemma lonely_raised : raised lonely caddr 8 good lonely_end 0.
Proof. unfold raised. vm_compute. reflexivity. Qed.

Lemma small_sound p : p < 3 -> sound cplace 8 small p.
Proof.
  intros L _. split; [|split; [|intros _; apply csizes]].
  - do 3 (destruct p as [|p]; [unfold memory_suffices; vm_compute; intuition discriminate|]). lia.
  - apply csizes. apply nth_In. simpl. lia.
Qed.

Lemma remote_memory : exists place addr long sees l,
  distinct place addr /\ (forall k, In k place -> 2 <= size place k) /\ (forall p, v_shm (sees p) = true) /\
  (forall p q, v_obj (sees p) = v_obj (sees q) /\ v_svc (sees p) = v_svc (sees q) /\ v_threshold (sees p) = v_threshold (sees q)) /\
  sound place long sees 0 /\
  let s := fst (run place addr long sees start l) in
  halted place addr long sees s /\ ~ returned place addr long sees s /\ ~ raised place addr long sees s 0 /\
  exists p, raised place addr long sees s p.
Proof.
  exists cplace, caddr, 8%Z, small, (all_go 6 6). split; [apply cdistinct|]. split; [apply csizes|]. split; [auto|].
  split; [repeat split|]. split; [apply small_sound; lia|]. cbv zeta.
  split; [exact small_halted|]. split; [exact small_not_returned|]. split; [exact small_not_raised|]. exists 3. exact small_raised.
Qed.

Lemma odd_sound p : p < 6 -> sound cplace 8 odd p.
Proof.
  intros L _. split; [|split; [|intros _; apply csizes]].
  - do 6 (destruct p as [|p]; [unfold memory_suffices; vm_compute; intuition discriminate|]). lia.
  - apply csizes. apply nth_In. simpl. lia.
Qed.

Lemma disagree : exists place addr long sees l,
  distinct place addr /\ (forall k, In k place -> 2 <= size place k) /\ (forall p, p < length place -> sound place long sees p) /\
  let s := fst (run place addr long sees start l) in
  halted place addr long sees s /\ ~ returned place addr long sees s /\
  forall p, p < length place -> ~ raised place addr long sees s p.
Proof.
  exists cplace, caddr, 8%Z, odd, (all_go 6 6). split; [apply cdistinct|]. split; [apply csizes|].
  split; [apply odd_sound|]. cbv zeta. split; [exact odd_halted|]. split; [exact odd_not_returned|]. exact odd_not_raised.
Qed.
