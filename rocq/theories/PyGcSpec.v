(** Vocabulary for C102. *)
From Verif Require Import Lib PyGcModel.

(** Messages whose loading runs no code that touches the collector or receives other values. *)
Definition simple (i : item) : Prop := match i with Plain | Bad => True | _ => False end.

(** Whether the collector is on after a program, as the program sees it with gc.isenabled(). *)
Definition is_enabled (ops : list gop) : bool := g_on (grun ops).

(** Whether all receives of the program went well. *)
Definition all_well (ops : list gop) : Prop := forall b, In b (g_well (grun ops)) -> b = true.

(** The setting the application has made: what it last asked for; on, if it asked for nothing. *)
Definition asked_for (ops : list gop) : bool :=
  fold_left (fun b o => match o with GSet x => x | GReceive _ => b end) ops true.
