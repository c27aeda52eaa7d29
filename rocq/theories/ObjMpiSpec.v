(** Vocabulary for C99 on MPI: programs with actors that wait for each call of a method, or hold the values of its arguments. *)
From Verif Require Import Lib ValModel PyseqModel PortSpec PortShows ObjSpec ObjDoneSpec ObjWaitSpec.
From Verif Require Import WorkerModel WorkerSpec ClusterModel ClusterSpec ActModel ActSpec ActWaitSpec.

Definition in_mpi (r : res) : result := match r with Ret v => RVal v | Exn e => RExc e end.

Section Spec.
Variable body : nat -> list val -> kwargs -> res.
Variable mbody : nat -> val -> list val -> kwargs -> res * val.
Variable s0 : val.

(** A call on an object; an object after some calls; the result of a call after some calls. All objects start as [s0]. (The model of MPI takes
    the result of a method as a function of the calls before it; the making of the object is in the model of C68.) *)
Definition apply_call (s : val) (c : call) : res * val :=
  match c_args c, c_kwargs c with VList vs, VDict ks => mbody (c_method c) s vs ks | _, _ => (Exn 0, s) end.
Definition after_calls (l : list call) : val := fold_left (fun s c => snd (apply_call s c)) l s0.
Definition as_methods (l : list call) (c : call) : result := in_mpi (fst (apply_call (after_calls l) c)).

(** [fs]: the functions that were put. [hs]: the workers of the actors, one actor on each. The operations of the program, in order; names of
    methods are put, too. *)
Inductive gplays : list ocall -> list (list dataid) -> list (dataid * nat) -> list rank -> list gprog -> Prop :=
| G_start : gplays [] [] [] [] []
| G_function p rs fs hs l f d : gplays p rs fs hs l -> gplays p rs (fs ++ [(d, f)]) hs (l ++ [GP (RPut d (VLeaf f))])
| G_name p rs fs hs l v d : gplays p rs fs hs l -> gplays p rs fs hs (l ++ [GP (RPut d v)])
| G_put p rs fs hs l v d : gplays p rs fs hs l -> gplays (p ++ [TPut v]) (rs ++ [[d]]) fs hs (l ++ [GP (RPut d v)])
| G_fun p rs fs hs l f fd args kw vs ks ds dest q :
    gplays p rs fs hs l -> Forall2 (stands rs) args vs -> Forall2 (stands_kw rs) kw ks -> In (fd, f) fs ->
    q_fn q = FRef fd -> q_args q = VList vs -> q_kwargs q = VDict ks -> q_out q = outputs_of ds ->
    gplays (p ++ [TFun f args kw (length ds)]) (rs ++ [ds]) fs hs (l ++ [GP (RSubmit dest q)])
| G_make p rs fs hs l c args kw w : gplays p rs fs hs l -> ~ In w hs -> gplays (p ++ [TMake c args kw]) (rs ++ [[]]) fs (hs ++ [w]) l
| G_meth p rs fs hs l a w nd m args kw vs ks ds q :
    gplays p rs fs hs l -> nth_error hs a = Some w -> Forall2 (stands rs) args vs -> Forall2 (stands_kw rs) kw ks ->
    q_fn q = FMethod m -> q_args q = VList vs -> q_kwargs q = VDict ks -> q_out q = outputs_of ds ->
    gplays (p ++ [TMeth a m args kw (length ds)]) (rs ++ [ds]) fs hs (l ++ [GC w nd q])
| G_other p rs fs hs l o : gplays p rs fs hs l ->
    match o with RGet _ | RDrop _ | RClean _ => True | _ => False end -> gplays p rs fs hs (l ++ [GP o]).

(** There is a run of the backend whose operations are those of the program, in which the program waits or holds the arguments, and get of
    reference number i of call number c gives r. *)
Definition oshows_mpi (prog : list ocall) (c i : nat) (r : res) : Prop := exists workers mgr ops rs fs hs d,
  let g := grun workers (as_mpi body) as_methods (fun _ => false) mgr ops in
  NoDup workers /\ gvalid (g_prog g) /\ placed workers (g_prog g) /\ ActWaitSpec.scoped (g_prog g) /\ ~ In RError (c_seen (g_c g)) /\
  waits_or_holds (g_prog g) (c_seen (g_c g)) /\ gplays prog rs fs hs (g_prog g) /\ ref_at rs c i = Some d /\
  match r with
  | Ret v => exists ds vs k, In (RGot ds vs) (c_seen (g_c g)) /\ nth_error ds k = Some d /\ nth_error vs k = Some v
  | Exn e => In (RRaised [d] e) (c_seen (g_c g))
  end.
End Spec.

(** Every call of a function or method asks for a result. *)
Definition calls_return (p : list ocall) : Prop := forall x, In x p -> match x with TMake _ _ _ => True | _ => 0 < oouts x end.

(** As oshows, on all five backends; on MPI and Dask in runs in which the program waits for method calls. *)
Definition oshows_waiting (b : backend) (body cbody : nat -> list val -> kwargs -> res) (mbody : nat -> val -> list val -> kwargs -> res * val) (s0 : val)
  (prog : list ocall) (c i : nat) (r : res) : Prop :=
  match b with
  | PySeq => oshows_seq body cbody mbody prog c i r
  | PyMp => oshows_pymp body cbody mbody prog c i r
  | Ray => oshows_ray body cbody mbody prog c i r
  | Dask => oshows_dask_waiting body cbody mbody prog c i r
  | Mpi => oshows_mpi body mbody s0 prog c i r
  end.

(** The same value, or an exception. *)
Definition alike (r r' : res) : Prop := match r, r' with Ret v, Ret v' => v = v' | Exn _, Exn _ => True | _, _ => False end.
