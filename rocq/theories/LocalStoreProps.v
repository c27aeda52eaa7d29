(** C96: what a process has stored about a reference stays as long as it may be needed, and goes afterwards (MPI). *)
From Verif Require Import Lib ShmModel ValModel LocalStoreModel LocalStoreSpec LocalStoreProofs LocalStoreCases.

(** It does not matter which copy of a reference something was stored with, nor which copies have gone: what can be found depends on
    the references as values only. *)
Theorem C96_identity : forall self loads ops d, let s := lrun self loads ops in let t := srun self loads ops in
  data_of s d = s_data t d /\ owner_of s d = s_owner t d /\ serial_of s d = s_ser t d /\
  (forall r, sent_to s d r = match s_sent t d with Some l => existsb (Nat.eqb r) l | None => false end) /\
  forall k, var_key s k = nth_error (s_vars t) k.
Proof. exact as_ids. Qed.
Print Assumptions C96_identity.

(** A value stays while there is a reference, or the reference is of another process and is not cleaned up. *)
Theorem C96_value : forall self loads ops k d v more, var_key (lrun self loads ops) k = Some d ->
  stays self loads (ops ++ [LPut k v]) more d ->
  (forall pre k' v' suf, more = pre ++ LPut k' v' :: suf -> var_key (lrun self loads (ops ++ [LPut k v] ++ pre)) k' <> Some d) ->
  data_of (lrun self loads (ops ++ [LPut k v] ++ more)) d = Some v.
Proof. exact value_kept. Qed.
Print Assumptions C96_value.

(** So does the rank of the process that has the value. *)
Theorem C96_owner : forall self loads ops k d r more, var_key (lrun self loads ops) k = Some d ->
  stays self loads (ops ++ [LOwner k r]) more d ->
  (forall pre k' r' suf, more = pre ++ LOwner k' r' :: suf -> var_key (lrun self loads (ops ++ [LOwner k r] ++ pre)) k' <> Some d) ->
  owner_of (lrun self loads (ops ++ [LOwner k r] ++ more)) d = Some r.
Proof. exact owner_kept. Qed.
Print Assumptions C96_owner.

(** And the serialised form. *)
Theorem C96_serial : forall self loads ops k d b more, var_key (lrun self loads ops) k = Some d ->
  stays self loads (ops ++ [LSerial k b]) more d ->
  (forall pre k' b' suf, more = pre ++ LSerial k' b' :: suf -> var_key (lrun self loads (ops ++ [LSerial k b] ++ pre)) k' <> Some d) ->
  serial_of (lrun self loads (ops ++ [LSerial k b] ++ more)) d = Some b.
Proof. exact serial_kept. Qed.
Print Assumptions C96_serial.

(** To whom it was sent is known while there is a reference. *)
Theorem C96_sent : forall self loads ops k d r more, var_key (lrun self loads ops) k = Some d ->
  (forall pre suf, more = pre ++ suf -> exists k', var_key (lrun self loads (ops ++ [LSent k r] ++ pre)) k' = Some d) ->
  sent_to (lrun self loads (ops ++ [LSent k r] ++ more)) d r = true.
Proof. exact sent_kept. Qed.
Print Assumptions C96_sent.

(** Nothing is kept of a reference of the process itself that nobody holds, nor of one that was cleaned up and not stored again. *)
Theorem C96_gone : forall self loads ops d, (forall k, var_key (lrun self loads ops) k <> Some d) ->
  (fst d = self \/ exists pre ds post, ops = pre ++ LClear ds :: post /\ In d ds /\
     forall p o q, post = p ++ o :: q -> ~ stores_for self loads (pre ++ LClear ds :: p) o d) ->
  forgotten (lrun self loads ops) d.
Proof. exact gone. Qed.
Print Assumptions C96_gone.

Example C96_value_case : var_key (lrun 2 unpickle arrives) 1 = Some theirs /\ stays 2 unpickle (arrives ++ [LPut 1 (VLeaf 9)]) goes_and_comes theirs /\
  (forall pre k' v' suf, goes_and_comes = pre ++ LPut k' v' :: suf -> var_key (lrun 2 unpickle (arrives ++ [LPut 1 (VLeaf 9)] ++ pre)) k' <> Some theirs) /\
  data_of (lrun 2 unpickle (arrives ++ [LPut 1 (VLeaf 9)] ++ goes_and_comes)) theirs = Some (VLeaf 9).
Proof. exact kept_case. Qed.

Example C96_own_case : stays 2 unpickle ([LNew mine; LNew mine] ++ [LSerial 0 4]) [LDrop 0; LFetch 0] mine /\
  data_of (lrun 2 unpickle ([LNew mine; LNew mine] ++ [LSerial 0 4] ++ [LDrop 0; LFetch 0])) mine = Some (VLeaf 4) /\
  forgotten (lrun 2 unpickle ([LNew mine; LNew mine] ++ [LSerial 0 4] ++ [LDrop 0; LFetch 0; LDrop 0])) mine.
Proof. exact own_case. Qed.

Example C96_sent_case : let ops := [LNew theirs; LNew mine] in let more := [LSent 0 5; LNew theirs; LDrop 0] in
  var_key (lrun 2 unpickle ops) 0 = Some theirs /\
  (forall pre suf, more = pre ++ suf -> exists k', var_key (lrun 2 unpickle (ops ++ [LSent 0 3] ++ pre)) k' = Some theirs) /\
  sent_to (lrun 2 unpickle (ops ++ [LSent 0 3] ++ more)) theirs 3 = true /\ sent_to (lrun 2 unpickle (ops ++ [LSent 0 3] ++ more)) theirs 4 = false.
Proof. exact sent_case. Qed.

Example C96_gone_case : let ops := arrives ++ [LPut 1 (VLeaf 9); LOwner 1 4; LDrop 2] in
  (forall k, var_key (lrun 2 unpickle (ops ++ cleaned)) k <> Some theirs) /\
  (exists pre ds post, ops ++ cleaned = pre ++ LClear ds :: post /\ In theirs ds /\
     forall p o q, post = p ++ o :: q -> ~ stores_for 2 unpickle (pre ++ LClear ds :: p) o theirs) /\
  data_of (lrun 2 unpickle (ops ++ [LDrop 1])) theirs = Some (VLeaf 9) /\ forgotten (lrun 2 unpickle (ops ++ cleaned)) theirs.
Proof. exact gone_case. Qed.
