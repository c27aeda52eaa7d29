(** Vocabulary for C99: one program with actors, several backends. As in PortSpec, results are named by the number of the call and their
    place among its results; actors by their number, in the order in which the program makes them. *)
From Verif Require Import Lib ValModel PyseqModel PyseqSpec PortSpec.
From Verif Require PympModel PympSpec RayRunModel DaskRunModel DaskRunSpec PortShows.

(** put(v), f.options(num_returns=n).remote(args, kw), C.remote(args, kw), actor.method.options(num_returns=n).remote(args, kw). *)
Inductive ocall :=
| TPut (v : val)
| TFun (f : nat) (args : list parg) (kw : list (nat * parg)) (n : nat)
| TMake (c : nat) (args : list val) (kw : kwargs)
| TMeth (a m : nat) (args : list parg) (kw : list (nat * parg)) (n : nat).

Definition set_at (l : list val) (a : nat) (s : val) : list val := firstn a l ++ s :: skipn (S a) l.

Section Direct.
Variable body : nat -> list val -> kwargs -> res.
Variable cbody : nat -> list val -> kwargs -> res.
Variable mbody : nat -> val -> list val -> kwargs -> res * val.

(** Without any backend: the results of the calls so far and the objects. A call with an exception among its arguments is not made; that
    exception is its result. *)
Definition operform (st : list (list res) * list val) (p : ocall) : list (list res) * list val :=
  let (env, objs) := st in
  match p with
  | TPut v => (env ++ [[Ret v]], objs)
  | TFun f args kw n => (env ++ [perform body env (CFun f args kw n)], objs)
  | TMake c args kw => (env ++ [[]], match cbody c args kw with Ret s => objs ++ [s] | Exn _ => objs end)
  | TMeth a m args kw n =>
      match nth_error objs a, all_ok (map (arg_result env) args), all_ok (map (arg_result env) (map snd kw)) with
      | Some s, Some (inl vs), Some (inl ks) =>
          let (r, s') := mbody m s vs (combine (map fst kw) ks) in (env ++ [each n r], set_at objs a s')
      | Some _, Some (inl _), Some (inr e) | Some _, Some (inr e), _ => (env ++ [repeat (Exn e) n], objs)
      | _, _, _ => (env ++ [[]], objs)
      end
  end.

Definition odirect (prog : list ocall) : list (list res) * list val := fold_left operform prog ([], []).

(** A list or tuple of as many items as asked for. *)
Definition enough (n : nat) (r : res) : Prop := forall v, r = Ret v -> n <= 1 \/ exists l, (v = VList l \/ v = VTuple l) /\ length l = n.

(** Plain values; functions and methods return as many items as are asked for; constructors do not raise. *)
Definition oportable (prog : list ocall) : Prop :=
  (forall v, In (TPut v) prog -> plain v) /\
  (forall f args kw n v, In (TFun f args kw n) prog -> In (AVal v) (args ++ map snd kw) -> plain v) /\
  (forall a m args kw n v, In (TMeth a m args kw n) prog -> In (AVal v) (args ++ map snd kw) -> plain v) /\
  (forall f args kw n vs ks, In (TFun f args kw n) prog -> enough n (body f vs ks)) /\
  (forall a m args kw n s vs ks, In (TMeth a m args kw n) prog -> enough n (fst (mbody m s vs ks))) /\
  (forall c args kw, In (TMake c args kw) prog -> (exists s, cbody c args kw = Ret s) /\ forall v, In v (args ++ map snd kw) -> plain v).
End Direct.

(** The calls of a history (latest first) are those of the program, apart from get and wait; [rs] are the references returned, [hs] the
    handles of the actors. *)
Inductive oplays : list ocall -> list (list dataid) -> list nat -> hist -> Prop :=
| O_start : oplays [] [] [] []
| O_put p rs hs h v d : oplays p rs hs h -> oplays (p ++ [TPut v]) (rs ++ [[d]]) hs ((QPut v, ORef d) :: h)
| O_fun p rs hs h f args kw n b vs ks out :
    oplays p rs hs h -> Forall2 (stands rs) args vs -> Forall2 (stands_kw rs) kw ks -> length (refs_of out) = n ->
    oplays (p ++ [TFun f args kw n]) (rs ++ [refs_of out]) hs ((QSubmit f vs ks n b, out) :: h)
| O_make p rs hs h c args kw b x :
    oplays p rs hs h -> oplays (p ++ [TMake c args kw]) (rs ++ [[]]) (hs ++ [x]) ((QActor c args kw b, OActor x) :: h)
| O_meth p rs hs h a x m args kw n vs ks out :
    oplays p rs hs h -> nth_error hs a = Some x -> Forall2 (stands rs) args vs -> Forall2 (stands_kw rs) kw ks ->
    length (refs_of out) = n ->
    oplays (p ++ [TMeth a m args kw n]) (rs ++ [refs_of out]) hs ((QCall x m vs ks n, out) :: h)
| O_look p rs hs h o out :
    oplays p rs hs h -> match o with QGet _ | QGetMany _ | QWait _ _ => True | _ => False end -> refs_of out = [] ->
    oplays p rs hs ((o, out) :: h).

Section Shows.
Variable body : nat -> list val -> kwargs -> res.
Variable cbody : nat -> list val -> kwargs -> res.
Variable mbody : nat -> val -> list val -> kwargs -> res * val.
Variable prog : list ocall.
Variable c i : nat.
Variable r : res.

(** There is a run of the backend whose calls are those of the program, and get of reference number i of call number c gives r. *)
Definition oshows_seq : Prop := exists item ops st h rs hs d,
  no_exception_values body mbody item /\
  qrun body cbody mbody item qinit [] ops = (st, h) /\ legal h /\ oplays prog rs hs h /\ ref_at rs c i = Some d /\
  snd (qstep body cbody mbody item st (QGet (VRef d))) = match r with Ret v => OVal v | Exn e => ORaise e end.

(** Without byte strings (C55_bytes_refuted); no handle of an actor dies while a call is unfinished. *)
Definition oshows_pymp : Prop := exists nw item iterable callable bytes dumps loads storable ops st h rs hs d,
  0 < nw /\ PympSpec.plain_results body mbody bytes item /\ PympSpec.pickle_ok callable bytes dumps loads /\
  PympModel.prun nw body cbody mbody item iterable callable bytes dumps loads storable PympModel.pinit [] ops = (st, h) /\ legal h /\
  PympSpec.plain_puts bytes h /\
  PympSpec.handles_kept (fun l => fst (PympModel.prun nw body cbody mbody item iterable callable bytes dumps loads storable PympModel.pinit [] l)) ops /\
  oplays prog rs hs h /\ ref_at rs c i = Some d /\
  PympModel.pget bytes loads st d = PympModel.Look r.

Definition oshows_ray : Prop := exists iter wrong_number actor_died ops rs hs d,
  let st := RayRunModel.yrun body cbody mbody iter wrong_number actor_died ops in
  legal (RayRunModel.y_hist st) /\ oplays prog rs hs (RayRunModel.y_hist st) /\ ref_at rs c i = Some d /\ RayRunModel.yget st d = Some r.

(** Dask: the calls with what they returned, in order. *)
Inductive odplays : list ocall -> list (list dataid) -> list nat -> list (DaskRunModel.dop * DaskRunModel.dout) -> Prop :=
| OD_start : odplays [] [] [] []
| OD_put p rs hs h v d : odplays p rs hs h -> odplays (p ++ [TPut v]) (rs ++ [[d]]) hs (h ++ [(DaskRunModel.DPut v, DaskRunModel.DRef d)])
| OD_fun p rs hs h f args kw n vs ks out :
    odplays p rs hs h -> Forall2 (stands rs) args vs -> Forall2 (stands_kw rs) kw ks ->
    odplays (p ++ [TFun f args kw n]) (rs ++ [DaskRunSpec.refs_out out]) hs (h ++ [(DaskRunModel.DSubmit f vs ks n false, out)])
| OD_make p rs hs h k args kw x :
    odplays p rs hs h -> odplays (p ++ [TMake k args kw]) (rs ++ [[]]) (hs ++ [x]) (h ++ [(DaskRunModel.DActor k args kw false, DaskRunModel.DMade x)])
| OD_meth p rs hs h a x m args kw n vs ks out :
    odplays p rs hs h -> nth_error hs a = Some x -> Forall2 (stands rs) args vs -> Forall2 (stands_kw rs) kw ks ->
    odplays (p ++ [TMeth a m args kw n]) (rs ++ [DaskRunSpec.refs_out out]) hs (h ++ [(DaskRunModel.DCall x m vs ks n, out)]).

Definition oshows_dask : Prop := exists item ops rs hs d,
  let st := DaskRunModel.drun (fun _ => body) (fun _ => cbody) (fun _ => mbody) item ops in
  PortShows.indexing item /\ DaskRunSpec.legal (fun _ => body) (fun _ => cbody) (fun _ => mbody) item ops /\
  odplays prog rs hs (DaskRunModel.d_hist st) /\ ref_at rs c i = Some d /\ DaskRunModel.dget st d = Some r.
End Shows.

(** The backends whose models have several actors. (On MPI the methods of an actor may also be run in another order: C61_order_refuted.) *)
Inductive with_actors := OnPySeq | OnPyMp | OnRay | OnDask.

Definition oshows (b : with_actors) (body cbody : nat -> list val -> kwargs -> res) (mbody : nat -> val -> list val -> kwargs -> res * val)
  (prog : list ocall) (c i : nat) (r : res) : Prop :=
  match b with
  | OnPySeq => oshows_seq body cbody mbody prog c i r
  | OnPyMp => oshows_pymp body cbody mbody prog c i r
  | OnRay => oshows_ray body cbody mbody prog c i r
  | OnDask => oshows_dask body cbody mbody prog c i r
  end.
