(** Vocabulary for C98: what the backends show for a program. Each definition says: there is a run of the backend's model in which the
    calls made are those of the program, get of the reference number i that call number c returned gives r. *)
From Verif Require Import Lib ValModel PyseqModel PyseqSpec PortSpec.
From Verif Require PympModel PympSpec RayRunModel RayRunSpec DaskRunModel DaskRunSpec WorkerModel WorkerSpec ClusterModel ClusterSpec.

Section Shows.
Variable body : nat -> list val -> kwargs -> res.
Variable prog : list pcall.
Variable c i : nat.
Variable r : res.

(** PySeq. *)
Definition shows_seq : Prop := exists cbody mbody item ops st h rs d,
  no_exception_values body mbody item /\
  qrun body cbody mbody item qinit [] ops = (st, h) /\ legal h /\ plays prog rs h /\ ref_at rs c i = Some d /\
  snd (qstep body cbody mbody item st (QGet (VRef d))) = match r with Ret v => OVal v | Exn e => ORaise e end.

(** PyMp: no byte strings among the values (C55_bytes_refuted), no actors. *)
Definition shows_pymp : Prop := exists nw cbody mbody item iterable callable bytes dumps loads storable ops st h rs d,
  0 < nw /\ PympSpec.plain_results body mbody bytes item /\ PympSpec.pickle_ok callable bytes dumps loads /\
  PympModel.prun nw body cbody mbody item iterable callable bytes dumps loads storable PympModel.pinit [] ops = (st, h) /\ legal h /\
  PympSpec.plain_puts bytes h /\ (forall a, ~ In (PympModel.PDel a) ops) /\ plays prog rs h /\ ref_at rs c i = Some d /\
  PympModel.pget bytes loads st d = PympModel.Look r.

(** Ray. *)
Definition shows_ray : Prop := exists cbody mbody iter wrong_number actor_died ops rs d,
  let st := RayRunModel.yrun body cbody mbody iter wrong_number actor_died ops in
  legal (RayRunModel.y_hist st) /\ plays prog rs (RayRunModel.y_hist st) /\ ref_at rs c i = Some d /\ RayRunModel.yget st d = Some r.

(** Dask. The calls with what they returned, in order. *)
Inductive dplays : list pcall -> list (list dataid) -> list (DaskRunModel.dop * DaskRunModel.dout) -> Prop :=
| D_start : dplays [] [] []
| D_put p rs h v d : dplays p rs h -> dplays (p ++ [CPut v]) (rs ++ [[d]]) (h ++ [(DaskRunModel.DPut v, DaskRunModel.DRef d)])
| D_fun p rs h f args kw n vs ks out :
    dplays p rs h -> Forall2 (stands rs) args vs -> Forall2 (stands_kw rs) kw ks ->
    dplays (p ++ [CFun f args kw n]) (rs ++ [DaskRunSpec.refs_out out]) (h ++ [(DaskRunModel.DSubmit f vs ks n false, out)]).

(** v[i] of a list or tuple. *)
Definition indexing (item : val -> nat -> res) : Prop :=
  forall l k x, nth_error l k = Some x -> item (VList l) k = Ret x /\ item (VTuple l) k = Ret x.

Definition shows_dask : Prop := exists cbody mbody item ops rs d,
  let st := DaskRunModel.drun (fun _ => body) cbody mbody item ops in
  indexing item /\ DaskRunSpec.legal (fun _ => body) cbody mbody item ops /\ dplays prog rs (DaskRunModel.d_hist st) /\
  ref_at rs c i = Some d /\ DaskRunModel.dget st d = Some r.

(** MPI: functions are values that are put once. *)
Definition as_mpi (f args kw : val) : WorkerModel.result :=
  match f, args, kw with
  | VLeaf k, VList vs, VDict ks => match body k vs ks with Ret v => WorkerModel.RVal v | Exn e => WorkerModel.RExc e end
  | _, _, _ => WorkerModel.RExc 0
  end.

Definition outputs_of (ds : list dataid) : WorkerModel.outputs :=
  match ds with [] => WorkerModel.ONone | [d] => WorkerModel.OOne d | _ => WorkerModel.OMany ds end.

(** [fs]: the functions that were put. The operations of the program, in order. *)
Inductive mplays : list pcall -> list (list dataid) -> list (dataid * nat) -> list ClusterModel.rop -> Prop :=
| M_start : mplays [] [] [] []
| M_function p rs fs l f d : mplays p rs fs l -> mplays p rs (fs ++ [(d, f)]) (l ++ [ClusterModel.RPut d (VLeaf f)])
| M_put p rs fs l v d : mplays p rs fs l -> mplays (p ++ [CPut v]) (rs ++ [[d]]) fs (l ++ [ClusterModel.RPut d v])
| M_fun p rs fs l f fd args kw vs ks ds dest q :
    mplays p rs fs l -> Forall2 (stands rs) args vs -> Forall2 (stands_kw rs) kw ks -> In (fd, f) fs ->
    WorkerModel.q_fn q = WorkerModel.FRef fd -> WorkerModel.q_args q = VList vs -> WorkerModel.q_kwargs q = VDict ks ->
    WorkerModel.q_out q = outputs_of ds ->
    mplays (p ++ [CFun f args kw (length ds)]) (rs ++ [ds]) fs (l ++ [ClusterModel.RSubmit dest q])
| M_other p rs fs l o : mplays p rs fs l ->
    match o with ClusterModel.RGet _ | ClusterModel.RDrop _ | ClusterModel.RClean _ => True | _ => False end -> mplays p rs fs (l ++ [o]).

Definition shows_mpi : Prop := exists workers mgr ops rs fs d,
  let x := ClusterModel.crun workers as_mpi mgr ops in
  ClusterSpec.valid workers (ClusterModel.c_prog x) /\ mplays prog rs fs (ClusterModel.c_prog x) /\ ref_at rs c i = Some d /\
  match r with
  | Ret v => exists ds vs k, In (ClusterModel.RGot ds vs) (ClusterModel.c_seen x) /\ nth_error ds k = Some d /\ nth_error vs k = Some v
  | Exn e => In (ClusterModel.RRaised [d] e) (ClusterModel.c_seen x)
  end.
End Shows.

(** The backends. *)
Inductive backend := PySeq | PyMp | Ray | Dask | Mpi.

Definition shows (b : backend) (body : nat -> list val -> kwargs -> res) (prog : list pcall) (c i : nat) (r : res) : Prop :=
  match b with
  | PySeq => shows_seq body prog c i r
  | PyMp => shows_pymp body prog c i r
  | Ray => shows_ray body prog c i r
  | Dask => shows_dask body prog c i r
  | Mpi => shows_mpi body prog c i r
  end.
