(** What a process relies on of its local store, without objects and weak references. *)
From Verif Require Import Lib ShmModel ValModel LocalStoreModel.

(** The references a process has, the data IDs it keeps on behalf of others, and what it knows about data IDs. *)
Record sst := {
  s_vars : list dataid;
  s_kept : list dataid;
  s_data : dmap val;
  s_owner : dmap rank;
  s_sent : dmap (list rank);
  s_ser : dmap nat
}.

Definition sinit : sst :=
  {| s_vars := []; s_kept := []; s_data := fun _ => None; s_owner := fun _ => None; s_sent := fun _ => None; s_ser := fun _ => None |}.

Definition mem (d : dataid) (l : list dataid) : bool := existsb (did_eqb d) l.

(** Only what is referred to or kept is remembered. *)
Definition only {A} (vars kept : list dataid) (f : dmap A) : dmap A := fun d => if mem d (vars ++ kept) then f d else None.

Definition remember (vars kept : list dataid) (t : sst) : sst :=
  {| s_vars := vars; s_kept := kept; s_data := only vars kept (s_data t); s_owner := only vars kept (s_owner t);
     s_sent := only vars kept (s_sent t); s_ser := only vars kept (s_ser t) |}.

Section Store.
Variable self : rank.
Variable loads : nat -> val.

(** Data IDs of other processes are kept once something is stored for them. *)
Definition keep (t : sst) (d : dataid) : list dataid :=
  if negb (Nat.eqb (fst d) self) && negb (mem d (s_kept t)) then s_kept t ++ [d] else s_kept t.

Definition store_data (t : sst) (d : dataid) (v : val) : sst :=
  {| s_vars := s_vars t; s_kept := keep t d; s_data := dput (s_data t) d v; s_owner := s_owner t; s_sent := s_sent t; s_ser := s_ser t |}.

Definition sstep (t : sst) (o : lop) : sst :=
  let at_ k f := match nth_error (s_vars t) k with Some d => f d | None => t end in
  match o with
  | LNew d => {| s_vars := s_vars t ++ [d]; s_kept := s_kept t; s_data := s_data t; s_owner := s_owner t; s_sent := s_sent t; s_ser := s_ser t |}
  | LDrop k => remember (firstn k (s_vars t) ++ skipn (S k) (s_vars t)) (s_kept t) t
  | LPut k v => at_ k (fun d => store_data t d v)
  | LOwner k r => at_ k (fun d =>
      {| s_vars := s_vars t; s_kept := keep t d; s_data := s_data t; s_owner := dput (s_owner t) d r; s_sent := s_sent t; s_ser := s_ser t |})
  | LSerial k b => at_ k (fun d =>
      {| s_vars := s_vars t; s_kept := keep t d; s_data := s_data t; s_owner := s_owner t; s_sent := s_sent t; s_ser := dput (s_ser t) d b |})
  | LSent k r => at_ k (fun d =>
      {| s_vars := s_vars t; s_kept := s_kept t; s_data := s_data t; s_owner := s_owner t;
         s_sent := dput (s_sent t) d (match s_sent t d with Some l => if existsb (Nat.eqb r) l then l else l ++ [r] | None => [r] end);
         s_ser := s_ser t |})
  | LFetch k => at_ k (fun d => match s_data t d, s_ser t d with None, Some b => store_data t d (loads b) | _, _ => t end)
  | LClear ds => remember (s_vars t) (filter (fun d => negb (mem d ds)) (s_kept t)) t
  end.

Definition srun (ops : list lop) : sst := fold_left sstep ops sinit.

(** A reference to d is there all the time while more happens, or d is of another process and not cleaned up meanwhile. *)
Definition stays (ops more : list lop) (d : dataid) : Prop :=
  (forall pre suf, more = pre ++ suf -> exists k, var_key (lrun self loads (ops ++ pre)) k = Some d) \/
  (fst d <> self /\ forall ds, In (LClear ds) more -> ~ In d ds).

(** The operation stores something for d in the state after ops. *)
Definition stores_for (ops : list lop) (o : lop) (d : dataid) : Prop :=
  match o with
  | LPut k _ | LOwner k _ | LSerial k _ | LFetch k => var_key (lrun self loads ops) k = Some d
  | _ => False
  end.

(** Nothing is known about d. *)
Definition forgotten (s : lst) (d : dataid) : Prop :=
  data_of s d = None /\ owner_of s d = None /\ serial_of s d = None /\ forall r, sent_to s d r = false.

End Store.
