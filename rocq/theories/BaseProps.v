(** C46, C47, C48, C56 *)
From Verif Require Import Lib BaseModel BaseSpec BaseProofs BaseCases.
From Coq Require Import ZArith.

(** C46: wherever one looks, unwrapped and original value agree except that a reference has become the backend's own;
    in particular lists, tuples and dicts keep their kind, length, order and keys. *)
Theorem C46_unwrap_faithful :
  forall o, proper o -> forall p, in_plain p o -> sees p (unwrap o) = option_map unref (sees p o).
Proof. exact unwrap_faithful. Qed.
Print Assumptions C46_unwrap_faithful.

(** Subclasses of list, tuple and dict are left alone, with the references in them. *)
Theorem C46_subclasses_refuted :
  exists o p r, proper o /\ sees p (unwrap o) = Some (NAtom (PRef r)).
Proof. exact subclass_keeps_ref. Qed.
Print Assumptions C46_subclasses_refuted.

Example C46_case :
  proper nested /\ in_plain [Entry 7; Item 1; Item 1; Entry 8] nested /\
  unwrap nested = PDict [(7, PList [PId 1; PTuple [PInt 2; PDict [(8, PId 3)]]]); (9, PNone)].
Proof. exact (conj nested_proper (conj nested_plain nested_unwrapped)). Qed.

(** C47: all calls of a process go to the same backend, whatever is configured when. *)
Theorem C47_one_backend :
  forall ops p answers, prun proc_init ops = (p, answers) ->
  forall b b', In b (called_on answers) -> In b' (called_on answers) -> b = b'.
Proof. exact one_backend. Qed.
Print Assumptions C47_one_backend.

(** A process that starts with init uses the backend configured then, which has been started, for the rest of its
    life. *)
Theorem C47_init_first :
  forall cfg main ops p answers, (cfg = Dask -> main = true) ->
  prun proc_init (Init cfg main :: ops) = (p, answers) ->
  (forall b, In b (called_on answers) -> b = cfg) /\ In cfg (started p).
Proof. exact init_first. Qed.
Print Assumptions C47_init_first.

(** A call before init (decorating a function is one) decides on the backend: the one initialised later is another, and
    the calls go to one that was never started. *)
Theorem C47_call_before_init_refuted :
  forall a b, a <> b -> exists p answers,
  prun proc_init [Call a; Init b true; Call b] = (p, answers) /\ called_on answers = [a; a] /\ started p = [b].
Proof.
  exact (fun a b _ => match b with
    | Ray => ex_intro _ _ (ex_intro _ _ (conj eq_refl (conj eq_refl eq_refl)))
    | Dask => ex_intro _ _ (ex_intro _ _ (conj eq_refl (conj eq_refl eq_refl)))
    | Mpi => ex_intro _ _ (ex_intro _ _ (conj eq_refl (conj eq_refl eq_refl)))
    | PyMp => ex_intro _ _ (ex_intro _ _ (conj eq_refl (conj eq_refl eq_refl)))
    | PySeq => ex_intro _ _ (ex_intro _ _ (conj eq_refl (conj eq_refl eq_refl)))
    end).
Qed.
Print Assumptions C47_call_before_init_refuted.

(** A second init starts a second runtime. *)
Theorem C47_second_init_refuted :
  exists p answers, prun proc_init [Init Mpi true; Init PyMp true; Call PyMp] = (p, answers) /\
  called_on answers = [Mpi] /\ started p = [Mpi; PyMp].
Proof. exact (ex_intro _ _ (ex_intro _ _ (conj eq_refl (conj eq_refl eq_refl)))). Qed.
Print Assumptions C47_second_init_refuted.

(** A put starts the configured runtime if the backend of the process has not been started, and nothing if it has. It
    raises only for Dask outside the main thread, having started nothing. *)
Theorem C47_put_starts :
  forall os cfg main p q l a, prun proc_init os = (p, l) -> prun proc_init (os ++ [Put cfg main]) = (q, l ++ [a]) ->
  match a with
  | CalledOn b => (In b (started p) -> started q = started p) /\ (~ In b (started p) -> started q = started p ++ [cfg])
  | _ => cfg = Dask /\ main = false /\ started q = started p
  end.
Proof. exact put_starts. Qed.
Print Assumptions C47_put_starts.

Example C47_case :
  prun proc_init [Put Dask false; Put PyMp true; Call Ray; Init Dask true] =
  (mkProc (Some Dask) [PyMp; Dask], [UnboundLocal; CalledOn Dask; CalledOn Dask; Done]).
Proof. reflexivity. Qed.

(** C48: functions are accepted with any options whose num_returns is absent, None or a natural number, and the options
    arrive unchanged; *)
Theorem C48_functions :
  forall kw f, kw <> [] ->
  (kwget kw NumReturns = PNone \/ exists z, kwget kw NumReturns = PInt z /\ (0 <= z)%Z) ->
  exists dec, remote [] kw = Decorator dec /\
  dec (AFunction f) = RemoteFunction f (kwget kw NumCpus) (kwget kw NumReturns) (kwget kw Resources).
Proof. exact decorator_functions. Qed.
Print Assumptions C48_functions.

(** classes with any options but num_returns; *)
Theorem C48_classes :
  forall kw c, kw <> [] -> kwget kw NumReturns = PNone ->
  exists dec, remote [] kw = Decorator dec /\
  dec (AClass c) = RemoteActor c (kwget kw NumCpus) (kwget kw Resources).
Proof. exact decorator_classes. Qed.
Print Assumptions C48_classes.

(** other values of num_returns for functions (booleans apart), num_returns for classes, and everything that is neither
    function nor class are rejected; *)
Theorem C48_rejected_partial :
  forall kw t dec, remote [] kw = Decorator dec ->
  match t with
  | AFunction _ => (forall z, kwget kw NumReturns = PInt z -> (z < 0)%Z) /\ kwget kw NumReturns <> PNone /\
                   (forall b, kwget kw NumReturns <> PBool b)
  | AClass _ => kwget kw NumReturns <> PNone
  | _ => True
  end ->
  dec t = RaisesValueError \/ dec t = RaisesTypeError.
Proof. exact decorator_rejects. Qed.
Print Assumptions C48_rejected_partial.

(** the decorator without options takes functions and classes only, *)
Theorem C48_bare :
  forall t, remote [t] [] = match t with
                            | AFunction f => Decorated (RemoteFunction f PNone PNone PNone)
                            | AClass c => Decorated (RemoteActor c PNone PNone)
                            | ACallable _ => Decorated RaisesTypeError
                            | AValue _ => RaisesAssertion
                            end.
Proof. exact bare_decorator. Qed.
Print Assumptions C48_bare.

(** and any other way to use it is refused. *)
Theorem C48_other_uses :
  forall args kw, (args = [] /\ kw = []) \/ (args <> [] /\ kw <> []) \/ 2 <= length args ->
  remote args kw = RaisesAssertion.
Proof. exact other_uses. Qed.
Print Assumptions C48_other_uses.

(** Unknown options are ignored, not refused; *)
Theorem C48_unknown_refuted :
  forall n v t, exists dec, remote [] [(Other n, v)] = Decorator dec /\
  dec t = make_decorator PNone PNone PNone t.
Proof. exact unknown_ignored. Qed.
Print Assumptions C48_unknown_refuted.

(** num_returns=True is accepted. *)
Theorem C48_bool_refuted :
  forall f b, make_decorator PNone (PBool b) PNone (AFunction f) = RemoteFunction f PNone (PBool b) PNone.
Proof. exact (fun f b => match b with true => eq_refl | false => eq_refl end). Qed.
Print Assumptions C48_bool_refuted.

Example C48_case :
  (exists dec, remote [] [(Resources, PLeaf 4); (NumReturns, PInt 3)] = Decorator dec /\
   dec (AFunction 0) = RemoteFunction 0 PNone (PInt 3) (PLeaf 4) /\ dec (AClass 1) = RaisesTypeError) /\
  (exists dec, remote [] [(NumReturns, PInt (-1))] = Decorator dec /\ dec (AFunction 0) = RaisesValueError).
Proof.
  exact (conj (ex_intro _ _ (conj eq_refl (conj eq_refl eq_refl))) (ex_intro _ _ (conj eq_refl eq_refl))).
Qed.

(** C56: a call submits its arguments, positional and by keyword, unwrapped and in order; the number of outputs is the
    decorator's, 1 if there is none; *)
Theorem C56_remote_partial :
  forall nret args kw n, ordinary kw ->
  (nret = PNone /\ n = 1%Z \/ nret = PInt n \/ exists b : bool, nret = PBool b /\ n = if b then 1%Z else 0%Z) ->
  f_remote PNone nret PNone args kw =
  Submits (map unwrap args) (map (fun '(k, v) => (k, unwrap v)) kw) n
    (if Z.eqb n 1 then OneRef else if Z.ltb 1 n then Refs (Z.to_nat n) else NoRefs).
Proof. exact call_plain. Qed.
Print Assumptions C56_remote_partial.

(** that of options() if given there. *)
Theorem C56_options_partial :
  forall nret m args kw n, ordinary kw ->
  (m = PInt n \/ (exists b : bool, m = PBool b /\ n = if b then 1%Z else 0%Z) \/
   m = PNone /\ (nret = PNone /\ n = 1%Z \/ nret = PInt n \/ exists b : bool, nret = PBool b /\ n = if b then 1%Z else 0%Z)) ->
  f_options_remote PNone nret PNone PNone m PNone args kw =
  Submits (map unwrap args) (map (fun '(k, v) => (k, unwrap v)) kw) n
    (if Z.eqb n 1 then OneRef else if Z.ltb 1 n then Refs (Z.to_nat n) else NoRefs).
Proof. exact options_plain. Qed.
Print Assumptions C56_options_partial.

(** After options(), keyword arguments of the function that are named like an option, or self, are refused: the call raises TypeError. *)
Theorem C56_options_names_refuted :
  forall cpus nret res c n r args kw k v, k = Self \/ k = NumCpus \/ k = NumReturns \/ k = Resources -> In (k, v) kw ->
  f_options_remote cpus nret res c n r args kw = CallTypeError.
Proof. exact options_clash. Qed.
Print Assumptions C56_options_names_refuted.

(** Reservations are refused, not ignored. *)
Theorem C56_reservations :
  forall cpus nret res args kw, ordinary kw -> cpus <> PNone \/ res <> PNone ->
  f_remote cpus nret res args kw = CallNotImplemented.
Proof. exact reservations_refused. Qed.
Print Assumptions C56_reservations.

(** Keyword arguments that have the name of an option never reach the function; *)
Theorem C56_option_names_refuted :
  forall v, f_remote PNone PNone PNone [] [(NumReturns, PInt 3); (Other 0, v)] =
  Submits [] [(Other 0, unwrap (filter_argument v))] 3 (Refs 3).
Proof. exact (fun v => eq_refl). Qed.
Print Assumptions C56_option_names_refuted.

(** some names cannot be used at all. *)
Theorem C56_clashes_refuted :
  forall v, f_remote PNone PNone PNone [] [(Task, v)] = CallTypeError /\
            f_remote PNone PNone PNone [] [(Self, v)] = CallTypeError.
Proof. exact (fun v => conj eq_refl eq_refl). Qed.
Print Assumptions C56_clashes_refuted.

Example C56_case :
  ordinary [(Other 3, PRef 1)] /\
  f_remote PNone (PInt 2) PNone [PRef 7; PList [PRef 8]] [(Other 3, PRef 1)] =
  Submits [PId 7; PList [PId 8]] [(Other 3, PId 1)] 2 (Refs 2).
Proof. exact call_case. Qed.
