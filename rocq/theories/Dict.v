(** Python dictionaries with natural numbers for keys, in insertion order. *)
From Verif Require Import Lib.

Fixpoint aget {V} (k : nat) (l : list (nat * V)) : option V :=
  match l with [] => None | (k', v) :: r => if Nat.eqb k k' then Some v else aget k r end.

(** d[k] = v keeps the place of an existing key. *)
Fixpoint aset {V} (k : nat) (v : V) (l : list (nat * V)) : list (nat * V) :=
  match l with
  | [] => [(k, v)]
  | (k', v') :: r => if Nat.eqb k k' then (k', v) :: r else (k', v') :: aset k v r
  end.

Definition adel {V} (k : nat) (l : list (nat * V)) : list (nat * V) :=
  filter (fun p => negb (Nat.eqb k (fst p))) l.

Lemma aget_aset_same {V} k (v : V) l : aget k (aset k v l) = Some v.
Proof.
  induction l as [|[k' v'] r IH]; simpl; [rewrite Nat.eqb_refl; reflexivity|].
  destruct (Nat.eqb_spec k k') as [->|N]; simpl; [rewrite Nat.eqb_refl; reflexivity|].
  destruct (Nat.eqb_spec k k'); [contradiction | exact IH].
Qed.

Lemma aget_aset_other {V} k k' (v : V) l : k <> k' -> aget k (aset k' v l) = aget k l.
Proof.
  intros N. induction l as [|[k1 v1] r IH]; simpl.
  - destruct (Nat.eqb_spec k k'); [contradiction | reflexivity].
  - destruct (Nat.eqb_spec k' k1) as [->|M]; simpl.
    + destruct (Nat.eqb_spec k k1); [contradiction | reflexivity].
    + destruct (Nat.eqb_spec k k1); [reflexivity | exact IH].
Qed.

Lemma aget_In {V} k (v : V) l : aget k l = Some v -> In (k, v) l.
Proof.
  induction l as [|[k' v'] r IH]; simpl; [discriminate|].
  destruct (Nat.eqb_spec k k') as [->|N]; intros E; [injection E as ->; left; reflexivity | right; auto].
Qed.

Lemma aget_None {V} k (l : list (nat * V)) : aget k l = None <-> ~ In k (map fst l).
Proof.
  induction l as [|[k' v'] r IH]; simpl; [tauto|].
  destruct (Nat.eqb_spec k k') as [->|N].
  - split; [discriminate | intros H; exfalso; auto].
  - rewrite IH. split; intros H; [intros [E|E]; [congruence | auto] | intros E; auto].
Qed.

Lemma In_aget {V} k (v : V) l : NoDup (map fst l) -> In (k, v) l -> aget k l = Some v.
Proof.
  induction l as [|[k' v'] r IH]; simpl; [tauto|]. intros D [E|I]; inversion_clear D as [|? ? H H'].
  - injection E as -> ->. rewrite Nat.eqb_refl; reflexivity.
  - destruct (Nat.eqb_spec k k') as [->|N]; [exfalso; apply H; apply (in_map fst _ _ I) | auto].
Qed.

Lemma aset_keys {V} k (v : V) l :
  map fst (aset k v l) = if existsb (Nat.eqb k) (map fst l) then map fst l else map fst l ++ [k].
Proof.
  induction l as [|[k' v'] r IH]; simpl; [reflexivity|].
  destruct (Nat.eqb_spec k k') as [->|N]; simpl; [reflexivity|].
  rewrite IH. destruct (existsb (Nat.eqb k) (map fst r)); reflexivity.
Qed.

Lemma aset_nodup {V} k (v : V) l : NoDup (map fst l) -> NoDup (map fst (aset k v l)).
Proof.
  intros D. rewrite aset_keys. destruct (existsb (Nat.eqb k) (map fst l)) eqn:E; [exact D|].
  apply NoDup_rev in D. rewrite <- (rev_involutive (map fst l ++ [k])). apply NoDup_rev.
  rewrite rev_app_distr. simpl. constructor; [|exact D]. rewrite <- in_rev. intros I.
  assert (existsb (Nat.eqb k) (map fst l) = true); [|congruence].
  apply existsb_exists. exists k. split; [exact I | apply Nat.eqb_refl].
Qed.
