(** Cases for C78. *)
From Verif Require Import Lib BaseModel LifeModel LifeSpec.

(** All ways to split a list. *)
Fixpoint splits {A} (l : list A) : list (list A * A * list A) :=
  match l with [] => [] | x :: r => ([], x, r) :: map (fun s => (x :: fst (fst s), snd (fst s), snd s)) (splits r) end.

Lemma splits_all {A} (l : list A) : forall pre x post, l = pre ++ x :: post -> In (pre, x, post) (splits l).
Proof.
  induction l as [|y l IH]; intros pre x post E; [destruct pre; discriminate|].
  destruct pre as [|z pre]; cbn [app] in E; injection E as -> E.
  - subst. left. reflexivity.
  - right. apply in_map_iff. exists (pre, x, post). split; [reflexivity|]. apply IH, E.
Qed.

Lemma c78_case :
  within Mpi [LIsInitialized; LPut; LPut; LIsInitialized; LShutdown; LShutdown] /\
  within Dask [LInit; LShutdown; LPut; LShutdown; LInit] /\
  snd (lrun true Mpi life0 [LIsInitialized; LPut; LPut; LIsInitialized; LShutdown; LShutdown]) =
    [Says false; Returned; Returned; Says true; Returned; Returned] /\
  starts (fst (lrun true Dask life0 [LInit; LShutdown; LPut; LShutdown; LInit])) = 3.
Proof.
  split; [|split; [|split; reflexivity]].
  - split; intros pre post E; apply splits_all in E; cbn in E.
    + repeat (destruct E as [E | E]; [discriminate E|]). destruct E.
    + do 4 (destruct E as [E | E]; [discriminate E|]).
      destruct E as [E | [E | []]]; inversion E; subst; (split; [simpl; tauto|]).
      * intros o [<- | []]. reflexivity.
      * intros o [].
  - intros pre post E. apply splits_all in E; cbn in E; repeat (destruct E as [E | E]; [try discriminate E; inversion E; reflexivity|]); destruct E.
Qed.
