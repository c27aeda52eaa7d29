(** Concrete histories of C100. *)
From Verif Require Import Lib LogModel LogSpec.

Ltac ins := repeat match goal with
  | H : In _ (_ :: _) |- _ => destruct H as [H|H]
  | H : In _ [] |- _ => destruct H
  | H : _ \/ _ |- _ => destruct H as [H|H]
  | H : False |- _ => destruct H
  | H : ours _ _ |- _ => destruct H
  | H : our_file _ _ |- _ => destruct H
  end.

(** Two modules of the backend share logger 5 (worker_1), a third has logger 6; the application has handlers and a logger of its own. *)
Definition busy : list lev :=
  [AHandler 1 (HFile 9); UImport 5 5; ULog 5 UDebug 50; UImport 6 6; UImport 5 5; ARootHandler (HUser 0); ALevel 1 20; ALog 1 20 10;
   ULog 6 UInfo 60; ULog 5 UInfo 51; ARootLevel 25; ARootLog 30 11; ALog 1 10 12; ULog 5 UDebug 52].

Lemma busy_backend : backend_ok busy.
Proof.
  split.
  - intros n u m H. cbn in H. unfold ours. assert (n = 5 \/ n = 6) as [-> | ->] by (ins; try discriminate H; injection H as <- _ _; auto);
      [exists 5|exists 6]; cbn; tauto.
  - intros n n' f f' H H'. cbn in H, H'.
    assert (X : n = f /\ n' = f'); [|lia]. split; [clear H'|clear H; rename H' into H]; ins; try discriminate H; injection H as <- <-; reflexivity.
Qed.
Lemma busy_ours n : ours busy n -> n = 5 \/ n = 6.
Proof. intros [f H]. cbn in H. ins; try discriminate H; injection H as <- <-; auto. Qed.
Lemma busy_file n : our_file busy n -> n = 5 \/ n = 6.
Proof. intros [f H]. cbn in H. ins; try discriminate H; injection H as <- <-; auto. Qed.
Lemma busy_apart : app_apart busy.
Proof.
  split.
  - intros n O e H. apply busy_ours in O. cbn in H. destruct O as [-> | ->]; ins; subst; cbn; trivial; lia.
  - intros n O e H. apply busy_file in O. cbn in H. destruct O as [-> | ->]; ins; subst; cbn; trivial; try discriminate.
Qed.
Lemma busy_quiet : root_quiet busy.
Proof. intros l H. cbn in H. ins; try discriminate H. injection H as <-. lia. Qed.

(** The application sets the root logger to INFO, as basicConfig(level=INFO) does. *)
Definition loud : list lev := [UImport 0 0; ARootLevel 20; ULog 0 UInfo 7].
Lemma loud_ok : backend_ok loud /\ app_apart loud /\ our_file loud 0.
Proof.
  split; [split|split; [split|]].
  - intros n u m H. cbn in H. ins; try discriminate H. injection H as <- _ _. exists 0. now left.
  - intros n n' f f' H H'. cbn in H, H'. ins; try discriminate. injection H as <- <-. injection H' as <- <-. lia.
  - intros n _ e H. cbn in H. ins; subst; exact I.
  - intros n _ e H. cbn in H. ins; subst; exact I.
  - exists 0. now left.
Qed.

(** The application has a logger of its own, set to ERROR, of the same name as one of the backend ("utils", "common", "api"). *)
Definition same_name : list lev := [ALevel 0 40; UImport 0 0; ALog 0 30 7].

(** The application has called basicConfig() before it imports the backend. *)
Definition configured : list lev := [ARootHandler (HUser 0); UImport 0 0; ULog 0 UDebug 7].
Lemma configured_ok : backend_ok configured /\ app_apart configured.
Proof.
  split; [split|split].
  - intros n u m H. cbn in H. ins; try discriminate H. injection H as <- _ _. exists 0. right; now left.
  - intros n n' f f' H H'. cbn in H, H'. ins; try discriminate. injection H as <- <-. injection H' as <- <-. lia.
  - intros n _ e H. cbn in H. ins; subst; exact I.
  - intros n _ e H. cbn in H. ins; subst; try exact I. discriminate.
Qed.
