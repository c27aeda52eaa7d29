(** Shared vocabulary of the model: data IDs, ranks, finite maps as functions. *)
From Coq Require Export List Arith ZArith Lia Bool Permutation.
Export ListNotations.

(** MPI rank (mpi/common.py and mpi/communication.py use plain ints). *)
Notation rank := nat (only parsing).

(** core/backends/mpi/core/common.py:266-300 (MpiDataID): a data ID is determined by the
    pair (owner_rank, data_number); the instance table is modelled in DataIdModel.v. *)
Definition dataid := (nat * nat)%type.

Definition did_eqb (a b : dataid) : bool :=
  Nat.eqb (fst a) (fst b) && Nat.eqb (snd a) (snd b).

Lemma did_eqb_eq a b : did_eqb a b = true <-> a = b.
Proof.
  unfold did_eqb; destruct a as [a1 a2], b as [b1 b2]; simpl.
  rewrite andb_true_iff, !Nat.eqb_eq. split; [intros [-> ->]; reflexivity | intros H; injection H as -> ->; auto].
Qed.

Lemma did_eqb_refl a : did_eqb a a = true.
Proof. apply did_eqb_eq; reflexivity. Qed.

Lemma did_eqb_neq a b : did_eqb a b = false <-> a <> b.
Proof.
  split; intros H.
  - intros ->. rewrite did_eqb_refl in H; discriminate.
  - destruct (did_eqb a b) eqn:E; [apply did_eqb_eq in E; contradiction | reflexivity].
Qed.

Lemma did_eqb_sym a b : did_eqb a b = did_eqb b a.
Proof. unfold did_eqb. now rewrite (Nat.eqb_sym (fst a)), (Nat.eqb_sym (snd a)). Qed.

Lemma did_dec (a b : dataid) : {a = b} + {a <> b}.
Proof. decide equality; apply Nat.eq_dec. Defined.

(** Dictionaries keyed by data IDs, as functions. *)
Definition dmap (V : Type) := dataid -> option V.
Definition dempty {V} : dmap V := fun _ => None.
Definition dput {V} (m : dmap V) (k : dataid) (v : V) : dmap V :=
  fun k' => if did_eqb k k' then Some v else m k'.
Definition ddel {V} (m : dmap V) (k : dataid) : dmap V :=
  fun k' => if did_eqb k k' then None else m k'.
Definition dmem {V} (m : dmap V) (k : dataid) : bool :=
  match m k with Some _ => true | None => false end.

Lemma dput_same {V} (m : dmap V) k v : dput m k v k = Some v.
Proof. unfold dput; now rewrite did_eqb_refl. Qed.
Lemma dput_other {V} (m : dmap V) k k' v : k <> k' -> dput m k v k' = m k'.
Proof. intros H; unfold dput; apply did_eqb_neq in H; now rewrite H. Qed.
Lemma ddel_same {V} (m : dmap V) k : ddel m k k = None.
Proof. unfold ddel; now rewrite did_eqb_refl. Qed.
Lemma ddel_other {V} (m : dmap V) k k' : k <> k' -> ddel m k k' = m k'.
Proof. intros H; unfold ddel; apply did_eqb_neq in H; now rewrite H. Qed.

(** Membership tests on lists of data IDs. *)
Definition did_in (d : dataid) (l : list dataid) : bool := existsb (did_eqb d) l.

Lemma did_in_In d l : did_in d l = true <-> In d l.
Proof.
  unfold did_in; rewrite existsb_exists; split.
  - intros [x [Hx E]]; apply did_eqb_eq in E; now subst.
  - intros H; exists d; split; [assumption | apply did_eqb_refl].
Qed.

Lemma did_in_false d l : did_in d l = false <-> ~ In d l.
Proof.
  rewrite <- did_in_In. destruct (did_in d l); split; intros; congruence.
Qed.

(** Python's [list.remove]: delete the first occurrence (caller guarantees presence,
    otherwise Python raises ValueError; see [remove1_opt]). *)
Fixpoint remove1 (d : dataid) (l : list dataid) : list dataid :=
  match l with
  | [] => []
  | x :: r => if did_eqb d x then r else x :: remove1 d r
  end.

Lemma remove1_perm d l : In d l -> Permutation l (d :: remove1 d l).
Proof.
  induction l as [|x r IH]; simpl; [contradiction|].
  destruct (did_eqb d x) eqn:E.
  - apply did_eqb_eq in E; subst; reflexivity.
  - intros [->|H]; [rewrite did_eqb_refl in E; discriminate|].
    rewrite (IH H) at 1. apply perm_swap.
Qed.

Lemma remove1_notin d l : ~ In d l -> remove1 d l = l.
Proof.
  induction l as [|x r IH]; simpl; intros H; [reflexivity|].
  destruct (did_eqb d x) eqn:E.
  - apply did_eqb_eq in E; subst; exfalso; apply H; now left.
  - f_equal; apply IH; intros H'; apply H; now right.
Qed.

Lemma remove1_subset d l x : In x (remove1 d l) -> In x l.
Proof.
  induction l as [|y r IH]; simpl; [tauto|].
  destruct (did_eqb d y); simpl; intuition.
Qed.

Lemma Some_inj {A} (a b : A) : Some a = Some b -> a = b.
Proof. congruence. Qed.

Lemma pair_inj {A B} (a a' : A) (b b' : B) : (a, b) = (a', b') -> a = a' /\ b = b'.
Proof. intros H. split; congruence. Qed.
