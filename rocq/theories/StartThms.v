(** C87 and C88 for the runs from the start. *)
From Verif Require Import Lib TopoModel SizingModel StartModel StartSpec StartProofs.
From Coq Require Import ZArith.

Section Thms.
Variable place : list nat.
Variable addr : nat -> nat.
Variable long : Z.
Variable sees : nat -> view.
Variable l : list move.
Local Notation s := (fst (run place addr long sees start l)).

Lemma t_ok : ok place addr long sees s.
Proof. apply run_ok, ok_start. Qed.

Lemma t_pos : place <> [] -> 0 < length place.
Proof. destruct place; simpl; [congruence|lia]. Qed.

Lemma t_ready : returned place addr long sees s -> place <> [] ->
  forall p, p < length place -> in_place place addr long sees s p.
Proof. intros R N p P. apply ready; auto using t_ok, t_pos. Qed.

Lemma t_returns : place <> [] -> distinct place addr -> halted place addr long sees s ->
  (returned place addr long sees s <-> (forall p, p < length place -> sound place long sees p) /\ agreed place sees).
Proof. intros. apply returns; auto using t_ok, t_pos. Qed.

Lemma t_raises : place <> [] -> distinct place addr -> halted place addr long sees s ->
  (raised place addr long sees s 0 <-> ~ sound place long sees 0).
Proof. intros. apply raises; auto using t_ok, t_pos. Qed.

Lemma t_halts : snd (run place addr long sees start l) <= 9 * length place /\
  exists l', halted place addr long sees (fst (run place addr long sees start (l ++ l'))).
Proof.
  split; [apply bounded|]. destruct (halts place addr long sees s t_ok) as (l' & H). exists l'. rewrite run_app. auto.
Qed.

Lemma t_memory : forall p q, p < length place -> q < length place -> nth q place 0 = nth p place 0 ->
  entered place addr long sees s p AtFreeService = true -> loop_ended place addr long sees s q.
Proof. intros p q P Q M E. apply (memory_kept place addr long sees s p q); auto using t_ok. Qed.

Lemma t_together : forall p q, p < length place -> q < length place -> gone place addr long sees s p -> loop_ended place addr long sees s q.
Proof. intros p q P Q E. apply (together place addr long sees s p q); auto using t_ok. Qed.

Lemma t_leaves : place <> [] -> distinct place addr -> halted place addr long sees s ->
  (forall p, p < length place -> loop_ended place addr long sees s p) ->
  forall p, p < length place -> gone place addr long sees s p.
Proof. intros. apply everybody_leaves; auto using t_ok, t_pos. Qed.
End Thms.
