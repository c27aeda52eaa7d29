(** Concrete histories for C96. *)
From Verif Require Import Lib ShmModel ValModel LocalStoreModel LocalStoreSpec.

(** Process 2; its own data ID and one of process 1. *)
Definition mine : dataid := (2, 0).
Definition theirs : dataid := (1, 7).
Definition unpickle (b : nat) : val := VLeaf b.

(** A reference of process 1 arrives twice, a value is stored through the first one, both go, it arrives again. *)
Definition arrives : list lop := [LNew mine; LNew theirs; LNew theirs].
Definition goes_and_comes : list lop := [LDrop 2; LDrop 1; LPut 0 (VLeaf 5); LNew theirs].
(** It is cleaned up while a reference is there, and that reference goes. *)
Definition cleaned : list lop := [LClear [theirs]; LSent 1 3; LDrop 1].

Lemma kept_case : var_key (lrun 2 unpickle arrives) 1 = Some theirs /\ stays 2 unpickle (arrives ++ [LPut 1 (VLeaf 9)]) goes_and_comes theirs /\
  (forall pre k' v' suf, goes_and_comes = pre ++ LPut k' v' :: suf -> var_key (lrun 2 unpickle (arrives ++ [LPut 1 (VLeaf 9)] ++ pre)) k' <> Some theirs) /\
  data_of (lrun 2 unpickle (arrives ++ [LPut 1 (VLeaf 9)] ++ goes_and_comes)) theirs = Some (VLeaf 9).
Proof.
  split; [reflexivity|]. split; [right; split; [discriminate|intros ds I; simpl in I; repeat destruct I as [I|I]; try discriminate; tauto]|]. split; [|reflexivity].
  intros pre k v suf E. repeat (destruct pre as [|? pre]; simpl in E; [try discriminate; injection E as <- <- _; vm_compute; discriminate|injection E as <- E]). destruct pre; discriminate.
Qed.

(** Its own data ID stays by a second reference only. *)
Lemma own_case : stays 2 unpickle ([LNew mine; LNew mine] ++ [LSerial 0 4]) [LDrop 0; LFetch 0] mine /\
  data_of (lrun 2 unpickle ([LNew mine; LNew mine] ++ [LSerial 0 4] ++ [LDrop 0; LFetch 0])) mine = Some (VLeaf 4) /\
  forgotten (lrun 2 unpickle ([LNew mine; LNew mine] ++ [LSerial 0 4] ++ [LDrop 0; LFetch 0; LDrop 0])) mine.
Proof.
  split; [|split; [reflexivity|repeat split; reflexivity]]. left. intros pre suf E.
  repeat (destruct pre as [|? pre]; simpl in E; [exists 0; reflexivity|injection E as <- E]). destruct pre; [exists 0; reflexivity|discriminate].
Qed.

Lemma sent_case : let ops := [LNew theirs; LNew mine] in let more := [LSent 0 5; LNew theirs; LDrop 0] in
  var_key (lrun 2 unpickle ops) 0 = Some theirs /\
  (forall pre suf, more = pre ++ suf -> exists k', var_key (lrun 2 unpickle (ops ++ [LSent 0 3] ++ pre)) k' = Some theirs) /\
  sent_to (lrun 2 unpickle (ops ++ [LSent 0 3] ++ more)) theirs 3 = true /\ sent_to (lrun 2 unpickle (ops ++ [LSent 0 3] ++ more)) theirs 4 = false.
Proof.
  split; [reflexivity|]. split; [|split; reflexivity]. intros pre suf E.
  destruct pre as [|? pre]; simpl in E; [exists 0; reflexivity|injection E as <- E].
  destruct pre as [|? pre]; simpl in E; [exists 0; reflexivity|injection E as <- E].
  destruct pre as [|? pre]; simpl in E; [exists 0; reflexivity|injection E as <- E].
  destruct pre as [|? pre]; simpl in E; [exists 1; reflexivity|discriminate].
Qed.

(** After the cleanup, and when the reference has gone, nothing is known; before, something was. *)
Lemma gone_case : let ops := arrives ++ [LPut 1 (VLeaf 9); LOwner 1 4; LDrop 2] in
  (forall k, var_key (lrun 2 unpickle (ops ++ cleaned)) k <> Some theirs) /\
  (exists pre ds post, ops ++ cleaned = pre ++ LClear ds :: post /\ In theirs ds /\
     forall p o q, post = p ++ o :: q -> ~ stores_for 2 unpickle (pre ++ LClear ds :: p) o theirs) /\
  data_of (lrun 2 unpickle (ops ++ [LDrop 1])) theirs = Some (VLeaf 9) /\ forgotten (lrun 2 unpickle (ops ++ cleaned)) theirs.
Proof.
  split.
  - intros [|[|k]]; vm_compute; try discriminate.
  - split; [|split; [reflexivity|repeat split; reflexivity]]. exists (arrives ++ [LPut 1 (VLeaf 9); LOwner 1 4; LDrop 2]), [theirs], [LSent 1 3; LDrop 1].
    split; [reflexivity|]. split; [simpl; auto|]. intros p o q E.
    destruct p as [|? p]; simpl in E; [injection E as <- _; exact (fun x => x)|injection E as <- E].
    destruct p as [|? p]; simpl in E; [injection E as <- _; exact (fun x => x)|injection E as <- E]. destruct p; discriminate.
Qed.
