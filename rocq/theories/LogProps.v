(** C100: the log of the MPI backend. *)
From Verif Require Import Lib LogModel LogSpec LogProofs LogCases.

(** With UNIDIST_MPI_LOG off no log file of the backend is ever written, whatever the application logs, provided that it keeps to its own
    loggers and files and keeps the root logger above INFO. *)
Theorem C100_off_partial : forall h, backend_ok h -> app_apart h -> root_quiet h -> forall f, our_file h f -> files (lrun false h) f = [].
Proof. exact off_nothing. Qed.
Print Assumptions C100_off_partial.

(** Then the application's own handlers and files get exactly what they would get without the backend. *)
Theorem C100_unseen_partial : forall h, backend_ok h -> app_apart h -> root_quiet h ->
  (forall u, users (lrun false h) u = users (lrun false (filter is_app h)) u) /\
  (forall f, ~ our_file h f -> files (lrun false h) f = files (lrun false (filter is_app h)) f).
Proof. exact off_alike. Qed.
Print Assumptions C100_unseen_partial.

(** With it on, every message of the backend is in the file of its logger, once and in order, however many modules share the logger and
    whatever the application logs, provided that no handler was added to the root logger before the backend was imported. *)
Theorem C100_on_partial : forall h1 n f h2, let h := h1 ++ UImport n f :: h2 in backend_ok h -> app_apart h ->
  (forall k, ~ In (ARootHandler k) h1) -> (forall g, ~ In (UImport n g) h1) -> said n h1 = [] ->
  files (lrun true h) f = said n h2.
Proof. exact on_all. Qed.
Print Assumptions C100_on_partial.

(** With it off, log files are written if the application sets the root logger to INFO or DEBUG. *)
Theorem C100_level_refuted : exists h f, backend_ok h /\ app_apart h /\ our_file h f /\ files (lrun false h) f <> [].
Proof. exists loud, 0. destruct loud_ok as (A & B & C). split; [exact A|]. split; [exact B|]. split; [exact C|]. discriminate. Qed.
Print Assumptions C100_level_refuted.

(** With it off, the backend takes over a logger of the application that has the same name: the level set by the application is lost, and
    what it logs goes to a file it did not ask for. *)
Theorem C100_name_refuted : exists h f, root_quiet h /\ (forall n u m, ~ In (ULog n u m) h) /\
  files (lrun false (filter is_app h)) f = [] /\ files (lrun false h) f <> [].
Proof.
  exists same_name, 0. split; [intros l H; cbn in H; intuition discriminate|]. split; [intros n u m H; cbn in H; intuition discriminate|].
  split; [reflexivity|discriminate].
Qed.
Print Assumptions C100_name_refuted.

(** With it on, nothing is written to the file if the root logger had a handler before the import; the application's handler gets the
    messages, although the root logger is at WARNING. *)
Theorem C100_on_refuted : exists h n f u, backend_ok h /\ app_apart h /\ In (UImport n f) h /\ said n h <> [] /\ lvl (root (lrun true h)) = 30 /\
  files (lrun true h) f = [] /\ users (lrun true h) u = said n h.
Proof.
  exists configured, 0, 0, 0. destruct configured_ok as (A & B). split; [exact A|]. split; [exact B|]. split; [right; now left|].
  split; [discriminate|]. split; [reflexivity|]. split; reflexivity.
Qed.
Print Assumptions C100_on_refuted.

(** ** Cases: two modules share a logger, another has its own; the application has a logger, a file and a handler. *)
Example C100_off_partial_case : backend_ok busy /\ app_apart busy /\ root_quiet busy /\ our_file busy 5 /\ our_file busy 6 /\
  said 5 busy = [50; 51; 52].
Proof.
  split; [exact busy_backend|]. split; [exact busy_apart|]. split; [exact busy_quiet|]. split; [exists 5; cbn; tauto|]. split; [exists 6; cbn; tauto|]. reflexivity.
Qed.
Example C100_unseen_partial_case : users (lrun false busy) 0 = [10; 11] /\ files (lrun false busy) 9 = [10] /\
  users (lrun true busy) 0 = [10; 60; 51; 11; 52].
Proof. repeat split. Qed.
Example C100_on_partial_case : files (lrun true busy) 5 = [50; 51; 52] /\ files (lrun true busy) 6 = [60].
Proof.
  split.
  - exact (C100_on_partial [AHandler 1 (HFile 9)] 5 5 _ busy_backend busy_apart
      ltac:(cbn; intuition discriminate) ltac:(cbn; intuition discriminate) eq_refl).
  - exact (C100_on_partial [AHandler 1 (HFile 9); UImport 5 5; ULog 5 UDebug 50] 6 6 _ busy_backend busy_apart
      ltac:(cbn; intuition discriminate) ltac:(cbn; intuition discriminate) eq_refl).
Qed.
