(** Concrete schedules used by ShmRaceProps.v. *)
From Verif Require Import Lib ShmModel ShmStoreModel ShmRaceModel ShmRaceSpec.
Local Open Scope Z_scope.

Definition race_pl (s f : Z) : place := {| p_slot := s; p_first := f |}.

(** Two publishers and two readers; one reader drops its object. *)
Definition race_progs : list (list rop) :=
  [[RPut (1, 5)%nat (race_pl 4 0) [10; 11; 12]];
   [RGet (1, 5)%nat 4 3; RGet (1, 5)%nat 4 3; RDrop (1, 5)%nat 4];
   [RPut (2, 0)%nat (race_pl 0 3) [20]; RGet (1, 5)%nat 4 3]].

Fixpoint rounds (n : nat) (l : list nat) : list nat :=
  match n with O => [] | S n' => l ++ rounds n' l end.

Definition race_sched : list nat :=
  repeat 0%nat 6 ++ repeat 1%nat 3 ++ repeat 0%nat 5 ++ rounds 30 [1; 2]%nat.

Lemma race_case :
  places_ok race_progs /\ gets_ok race_progs /\ no_delete race_progs /\
  rlog (rrun race_progs race_sched) =
    [Absent (1, 5)%nat 4; Inc (1, 5)%nat 4; Inc (1, 5)%nat 4;
     Got (1, 5)%nat 4 0 [10; 11; 12]; Got (1, 5)%nat 4 0 [10; 11; 12]; Dec (1, 5)%nat 4] /\
  rmem (rrun race_progs race_sched) (CS 7) = 2.
Proof.
  split; [|split; [|split; [|split]]].
  - split; [|split].
    + cbn. repeat (constructor; [simpl; intuition congruence|]). constructor.
    + intros x y Hx Hy N. cbn in Hx, Hy. destruct Hx as [<-|[<-|[]]], Hy as [<-|[<-|[]]];
        cbn in *; unfold slots_apart, bytes_apart; cbn; try (exfalso; now apply N); split; lia.
    + intros x Hx. cbn in Hx. destruct Hx as [<-|[<-|[]]]; cbn; [now exists 1|now exists 0].
  - intros o Ho. cbn in Ho.
    repeat match goal with H : _ \/ _ |- _ => destruct H end; subst; try contradiction; cbn; auto;
      try tauto.
    all: try (now exists 1).
    all: split; [now exists 1|]; intros r bs [E|[E|[]]]; [|discriminate E]; injection E as _ <-; reflexivity.
  - intros d s Ho. cbn in Ho. intuition congruence.
  - vm_compute. reflexivity.
  - vm_compute. reflexivity.
Qed.

(** A reader looking for (1,5) in a slot that goes from (1,7) to (2,5) between its two
    unlocked reads. *)
Definition torn_progs : list (list rop) :=
  [[RPut (1, 7)%nat (race_pl 0 0) [10]; RDelete (1, 7)%nat 0; RPut (2, 5)%nat (race_pl 0 0) [20]];
   [RGet (1, 5)%nat 0 1]].

Definition torn_sched : list nat := repeat 0%nat 8 ++ repeat 1%nat 2 ++ repeat 0%nat 20 ++ repeat 1%nat 20.

Lemma torn_case :
  (forall r bs, ~ In (1%nat, 5%nat, r, bs) (all_puts torn_progs)) /\
  In (Got (1, 5)%nat 0 0 [20]) (rlog (rrun torn_progs torn_sched)).
Proof.
  split.
  - intros r bs. cbn. intuition congruence.
  - vm_compute. auto.
Qed.

(** The check succeeds, then the slot is freed (the count was zero: the publisher's reference
    had gone) and reused, then the increment and the read go to the new object. *)
Definition late_progs : list (list rop) :=
  [[RPut (1, 5)%nat (race_pl 0 0) [10]; RDrop (1, 5)%nat 0; RDelete (1, 5)%nat 0;
    RPut (2, 0)%nat (race_pl 0 0) [20]];
   [RGet (1, 5)%nat 0 1]].

Definition late_sched : list nat := repeat 0%nat 15 ++ repeat 1%nat 3 ++ repeat 0%nat 20 ++ repeat 1%nat 20.

Lemma late_case :
  In ((1, 5)%nat, race_pl 0 0, [10]) (all_puts late_progs) /\
  (forall r bs, In (1%nat, 5%nat, r, bs) (all_puts late_progs) -> bs = [10]) /\
  In (Got (1, 5)%nat 0 0 [20]) (rlog (rrun late_progs late_sched)) /\ [20] <> [10].
Proof.
  split; [vm_compute; auto|]. split; [|split].
  - intros r bs. cbn. intuition congruence.
  - vm_compute. auto.
  - discriminate.
Qed.
