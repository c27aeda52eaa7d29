From Verif Require Import Lib PyGcModel PyGcSpec.

Lemma run_snoc ops o : grun (ops ++ [o]) = gstep (grun ops) o.
Proof. unfold grun. now rewrite fold_left_app. Qed.
Lemma asked_snoc ops o : asked_for (ops ++ [o]) = match o with GSet x => x | GReceive _ => asked_for ops end.
Proof. unfold asked_for. now rewrite fold_left_app. Qed.
Lemma well_snoc ops o : all_well (ops ++ [o]) -> all_well ops.
Proof.
  intros W b I. apply W. rewrite run_snoc. destruct o as [l|x]; cbn [gstep]; [|exact I]. destruct (deserialize (g_on (grun ops)) l) as [[g ok] t]. apply in_or_app. now left.
Qed.

Lemma after_well ops l : all_well (ops ++ [GReceive l]) -> is_enabled (ops ++ [GReceive l]) = true.
Proof.
  unfold all_well, is_enabled. rewrite run_snoc. cbn [gstep]. unfold deserialize. destruct (loads false l) as [[g ok] t]. cbn. intros W.
  rewrite (W ok) by (apply in_or_app; right; now left). reflexivity.
Qed.

Theorem enabled ops : all_well ops -> (forall b, In (GSet b) ops -> b = true) -> is_enabled ops = true /\ asked_for ops = true.
Proof.
  induction ops as [|o ops IH] using rev_ind; intros W N; [split; reflexivity|].
  destruct IH as [A B]; [eapply well_snoc; eauto|intros b I; apply N, in_or_app; auto|]. rewrite asked_snoc. destruct o as [l|b].
  - split; [now apply after_well|exact B].
  - assert (b = true) as -> by (apply N, in_or_app; right; now left). split; [|reflexivity]. unfold is_enabled. now rewrite run_snoc.
Qed.

Lemma loads_simple l : Forall simple l -> forall gc, let '(g, ok, t) := loads gc l in g = gc /\ (ok = true <-> ~ In Bad l) /\ Forall (fun b => b = gc) t.
Proof.
  induction 1 as [|i l Si F IH]; intros gc; cbn [loads].
  - split; [reflexivity|]. split; [split; auto|constructor].
  - destruct i; try contradiction; cbn [load].
    + specialize (IH gc). destruct (loads gc l) as [[g ok] t]. destruct IH as (-> & E & T). split; [reflexivity|]. split; [|constructor; auto].
      rewrite E. split; [intros N [X|X]; [discriminate|auto]|intros N X; apply N; now right].
    + split; [reflexivity|]. split; [|constructor]. split; [discriminate|]. intros N. elim N. now left.
Qed.

Theorem during gc l : Forall simple l -> Forall (fun b => b = false) (snd (deserialize gc l)).
Proof.
  intros F. assert (X := loads_simple l F false). unfold deserialize. destruct (loads false l) as [[g ok] t]. apply X.
Qed.

Lemma failed_one st l : Forall simple l -> In Bad l -> g_on (gstep st (GReceive l)) = false.
Proof.
  intros F B. assert (X := loads_simple l F false). cbn [gstep]. unfold deserialize. destruct (loads false l) as [[g ok] t]. destruct X as (-> & E & _).
  destruct ok; [|reflexivity]. elim (proj1 E eq_refl B).
Qed.

Theorem failed ops bad : bad <> [] -> Forall (fun l => Forall simple l /\ In Bad l) bad -> is_enabled (ops ++ map GReceive bad) = false.
Proof.
  intros N F. destruct bad as [|l bad _] using rev_ind; [congruence|]. rewrite map_app, app_assoc. cbn [map]. unfold is_enabled. rewrite run_snoc.
  apply Forall_app in F as [_ F]. inversion F as [|? ? [Sl Bl] _]; subst. now apply failed_one.
Qed.

Theorem asked_kept ops : (forall l, ~ In (GReceive l) ops) -> is_enabled ops = asked_for ops.
Proof.
  induction ops as [|o ops IH] using rev_ind; intros N; [reflexivity|]. rewrite asked_snoc. unfold is_enabled. rewrite run_snoc. destruct o as [l|b]; [|reflexivity].
  elim (N l). apply in_or_app. right. now left.
Qed.

Theorem forgotten ops l more : all_well (ops ++ GSet false :: more ++ [GReceive l]) -> is_enabled (ops ++ GSet false :: more ++ [GReceive l]) = true.
Proof.
  assert (E : ops ++ GSet false :: more ++ [GReceive l] = (ops ++ GSet false :: more) ++ [GReceive l]) by now rewrite <- app_assoc.
  rewrite E. apply after_well.
Qed.
