(** Vocabulary of C101: the picture of a message from source to dest among size processes, one column of four characters for each. *)
From Coq Require Import String Ascii.
From Verif Require Import Lib LogLineModel.

(** In column k: the head of the arrow at the receiver, a dot elsewhere. *)
Definition mark (source dest k : nat) : ascii :=
  if Nat.eqb k dest then (if Nat.ltb source dest then ">"%char else "<"%char) else "."%char.
(** Between column k and the next: a dash between sender and receiver, blank elsewhere. *)
Definition gap (source dest k : nat) : ascii :=
  if (min source dest <=? k) && (k <? max source dest) then "-"%char else " "%char.
Definition cell (source dest k : nat) : txt := [mark source dest k; gap source dest k; gap source dest k; gap source dest k].
Definition picture (size source dest : nat) : txt :=
  concat (map (cell source dest) (seq 0 (size - 1))) ++ [mark source dest (size - 1)].

(** The operations of the protocol. *)
Definition operation (op : nat) : Prop := 1 <= op <= 16.
(** Their names. *)
Definition named (op : nat) (name : txt) : Prop := exists s, In (s, op) operations /\ name = tx s.
