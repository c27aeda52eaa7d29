(** Vocabulary of C100. *)
From Verif Require Import Lib LogModel.

(** The logger names and the files of the backend in a history. *)
Definition ours (h : list lev) (n : nat) : Prop := exists f, In (UImport n f) h.
Definition our_file (h : list lev) (f : nat) : Prop := exists n, In (UImport n f) h.

(** The backend logs through its own loggers only, and each has its own file. *)
Definition backend_ok (h : list lev) : Prop :=
  (forall n u m, In (ULog n u m) h -> ours h n) /\
  (forall n n' f f', In (UImport n f) h -> In (UImport n' f') h -> n = n' <-> f = f').

(** The application keeps to its own loggers and files. *)
Definition app_apart (h : list lev) : Prop :=
  (forall n, ours h n -> forall e, In e h -> match e with ALevel k _ | AHandler k _ | ALog k _ _ => k <> n | _ => True end) /\
  (forall f, our_file h f -> forall e, In e h -> match e with AHandler _ k | ARootHandler k => k <> HFile f | _ => True end).

(** It keeps the root logger above INFO. *)
Definition root_quiet (h : list lev) : Prop := forall l, In (ARootLevel l) h -> 20 < l.

(** What the application does itself. *)
Definition is_app (e : lev) : bool := match e with UImport _ _ | ULog _ _ _ => false | _ => true end.

(** The messages the backend logs through one logger, in order. *)
Fixpoint said (n : nat) (h : list lev) : list nat :=
  match h with
  | [] => []
  | ULog k _ m :: r => if Nat.eqb k n then m :: said n r else said n r
  | _ :: r => said n r
  end.
