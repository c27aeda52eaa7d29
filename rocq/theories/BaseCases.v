(** Concrete cases for C46, C47, C48 and C56. *)
From Verif Require Import Lib BaseModel BaseSpec.
From Coq Require Import ZArith.

(** {7: [ref 1, (2, {8: ref 3})], 9: None} *)
Definition nested : pobj :=
  PDict [(7, PList [PRef 1; PTuple [PInt 2; PDict [(8, PRef 3)]]]); (9, PNone)].

Lemma nested_unwrapped :
  unwrap nested = PDict [(7, PList [PId 1; PTuple [PInt 2; PDict [(8, PId 3)]]]); (9, PNone)].
Proof. reflexivity. Qed.

Lemma proper_intro : forall o, (forall keys, look o = NDict keys -> NoDup keys) ->
  (forall s x, child o s = Some x -> proper x) -> proper o.
Proof.
  intros o A B [|s p] keys H; unfold sees in H; simpl in H.
  - apply A. congruence.
  - destruct (child o s) as [x|] eqn:C; [|discriminate]. eapply B; eauto.
Qed.

Lemma proper_atom : forall o, (forall s, child o s = None) -> (forall keys, look o <> NDict keys) -> proper o.
Proof.
  intros o A B. apply proper_intro.
  - intros keys E. exfalso. eapply B. eauto.
  - intros s x E. rewrite A in E. discriminate.
Qed.

Lemma proper_list : forall l, (forall x, In x l -> proper x) -> proper (PList l) /\ proper (PTuple l).
Proof.
  intros l A. split; (apply proper_intro; [discriminate|]); intros [i|k] x E; simpl in E; try discriminate;
    apply A; eapply nth_error_In; eauto.
Qed.

Lemma proper_dict_intro : forall l, NoDup (map fst l) -> (forall k x, In (k, x) l -> proper x) -> proper (PDict l).
Proof.
  intros l ND A. apply proper_intro.
  - simpl. intros keys E. injection E. intros <-. auto.
  - intros [i|k] x E; simpl in E; [discriminate|].
    assert (I : In (k, x) l).
    { clear -E. induction l as [|[k' v] l IH]; simpl in *; [discriminate|].
      destruct (Nat.eqb_spec k k'); subst; auto. left. congruence. }
    eauto.
Qed.

Ltac prove_proper :=
  repeat match goal with
  | |- proper (PDict _) => apply proper_dict_intro; [repeat constructor; simpl; intuition discriminate|simpl; intros]
  | |- proper (PList _) => apply proper_list; simpl; intros
  | |- proper (PTuple _) => apply proper_list; simpl; intros
  | H : _ \/ _ |- _ => destruct H
  | H : False |- _ => destruct H
  | H : (_, _) = (_, _) |- _ => inversion H; subst; clear H
  | H : _ = ?x |- proper ?x => subst x
  end; try (apply proper_atom; [intros [?|?]; reflexivity|discriminate]).

Lemma nested_proper : proper nested.
Proof. unfold nested. prove_proper. Qed.

Lemma nested_plain : in_plain [Entry 7; Item 1; Item 1; Entry 8] nested.
Proof.
  intros q r c n E H. destruct q as [|a [|b [|d [|e [|g q]]]]]; simpl in E; inversion E; subst; discriminate.
Qed.

Lemma subclass_keeps_ref : exists o p r, proper o /\ sees p (unwrap o) = Some (NAtom (PRef r)).
Proof.
  exists (PSub 0 [PRef 5]), [Item 0], 5. split; [|reflexivity].
  intros p keys H. destruct p as [|[i|k] p]; simpl in H; try discriminate.
  unfold sees in H. simpl in H. destruct i as [|i]; simpl in H.
  - destruct p as [|[j|k] p]; discriminate.
  - destruct i; discriminate.
Qed.

Lemma call_case :
  ordinary [(Other 3, PRef 1)] /\
  f_remote PNone (PInt 2) PNone [PRef 7; PList [PRef 8]] [(Other 3, PRef 1)] =
  Submits [PId 7; PList [PId 8]] [(Other 3, PId 1)] 2 (Refs 2).
Proof.
  split; [|reflexivity]. intros k v [E|[]]. inversion E. eauto.
Qed.
