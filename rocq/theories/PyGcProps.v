(** C102: receiving a value leaves Python's garbage collector as the application has set it (MPI). *)
From Verif Require Import Lib PyGcModel PyGcSpec PyGcProofs.

(** If the application never switches the collector off and no value fails to load, the collector is on whenever the application looks, however
    deeply receives are nested in the loading of values. Missing: applications that switch it off, and values that fail to load (refuted below). *)
Theorem C102_enabled_partial : forall ops, all_well ops -> (forall b, In (GSet b) ops -> b = true) -> is_enabled ops = true /\ asked_for ops = true.
Proof. exact enabled. Qed.
Print Assumptions C102_enabled_partial.

(** As long as nothing is received it is what the application asked for. *)
Theorem C102_untouched : forall ops, (forall l, ~ In (GReceive l) ops) -> is_enabled ops = asked_for ops.
Proof. exact asked_kept. Qed.
Print Assumptions C102_untouched.

(** An application that has switched it off: after every receive that goes well it is on again. *)
Theorem C102_switched_on_again : forall ops l more, all_well (ops ++ GSet false :: more ++ [GReceive l]) ->
  is_enabled (ops ++ GSet false :: more ++ [GReceive l]) = true.
Proof. exact forgotten. Qed.
Print Assumptions C102_switched_on_again.

(** A value that fails to load: the collector is off afterwards, and stays off over all further values that fail to load. *)
Theorem C102_left_off : forall ops bad, bad <> [] -> Forall (fun l => Forall simple l /\ In Bad l) bad -> is_enabled (ops ++ map GReceive bad) = false.
Proof. exact failed. Qed.
Print Assumptions C102_left_off.

(** While a value is loaded the collector is off, unless the loading itself receives another value or touches the collector. *)
Theorem C102_off_during_partial : forall gc l, Forall simple l -> Forall (fun b => b = false) (snd (deserialize gc l)).
Proof. exact during. Qed.
Print Assumptions C102_off_during_partial.

(** The setting of the application does not survive. *)
Theorem C102_kept_refuted : exists ops, all_well ops /\ asked_for ops = false /\ is_enabled ops = true.
Proof. exists [GSet false; GReceive [Plain]]. split; [intros b [<-|[]]; reflexivity|]. split; reflexivity. Qed.
Print Assumptions C102_kept_refuted.

Theorem C102_failure_refuted : exists ops, (forall b, ~ In (GSet b) ops) /\ asked_for ops = true /\ is_enabled ops = false.
Proof. exists [GReceive [Plain]; GReceive [Plain; Bad]]. split; [intros b [E|[E|[]]]; discriminate|]. split; reflexivity. Qed.
Print Assumptions C102_failure_refuted.

(** A value whose loading receives another one: the rest of it is loaded with the collector on. *)
Theorem C102_off_during_refuted : exists gc l, In true (snd (deserialize gc l)).
Proof. exists true, [Plain; Inner [Plain] false; Plain]. cbn. auto. Qed.
Print Assumptions C102_off_during_refuted.

(** ** Cases *)
Example C102_enabled_partial_case : all_well [GReceive [Plain; Inner [SetGc false; Inner [Plain; Bad] true; Plain] false; Plain]; GSet true; GReceive [Plain]] /\
  g_well (grun [GReceive [Plain; Inner [SetGc false; Inner [Plain; Bad] true; Plain] false; Plain]; GSet true; GReceive [Plain]]) = [true; true].
Proof. split; [intros b [<-|[<-|[]]]; reflexivity|reflexivity]. Qed.

Example C102_switched_on_again_case : all_well ([] ++ GSet false :: [] ++ [GReceive [Plain; Inner [Plain] false]]).
Proof. intros b [<-|[]]. reflexivity. Qed.

Example C102_left_off_case : Forall (fun l => Forall simple l /\ In Bad l) [[Plain; Bad]; [Bad]] /\
  is_enabled ([GSet true; GReceive [Plain]] ++ map GReceive [[Plain; Bad]; [Bad]]) = false /\
  is_enabled ([GSet true; GReceive [Plain]] ++ map GReceive [[Plain; Bad]; [Bad]; [Plain]]) = true.
Proof. split; [|split; reflexivity]. repeat (constructor; try split; cbn; auto). Qed.

Example C102_off_during_partial_case : Forall simple [Plain; Plain; Bad] /\ snd (deserialize true [Plain; Plain; Bad]) = [false; false].
Proof. split; [repeat constructor|reflexivity]. Qed.
