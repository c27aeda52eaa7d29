(** Model of the configuration parameters: config/parameter.py, and MpiPickleThreshold of
    config/backends/mpi/envvars.py. Texts are lists of character codes; only ASCII characters count as white space, letters
    or digits here. *)
From Verif Require Import Lib.
From Coq Require Import ZArith.

(** A str, as code points; only ASCII ones are classified below (config/parameter.py:41-73). *)
Definition text := list nat.

(** A Python value; floats are numbered. The values a parameter can hold (config/parameter.py:39-76, 206, 211, 232). *)
Inductive cval := CNone | CStr (s : text) | CBool (b : bool) | CInt (z : Z) | CFloat (f : nat) | COther (n : nat).

(** str.isspace for ASCII, as used by strip (config/parameter.py:41-73). *)
Definition is_space (c : nat) : bool := (Nat.leb 9 c && Nat.leb c 13) || (Nat.leb 28 c && Nat.leb c 32).
(** str.isdigit for ASCII (config/parameter.py:66, 73). *)
Definition is_digit (c : nat) : bool := Nat.leb 48 c && Nat.leb c 57.
(** str.lower for one ASCII character (config/parameter.py:41-58). *)
Definition lower1 (c : nat) : nat := if Nat.leb 65 c && Nat.leb c 90 then c + 32 else c.

(** str.lstrip, half of strip (config/parameter.py:41-73). *)
Fixpoint lstrip (s : text) : text := match s with [] => [] | c :: r => if is_space c then lstrip r else s end.
(** config/parameter.py:41-73. *)
Definition strip (s : text) : text := rev (lstrip (rev (lstrip s))).          (* str.strip() *)
(** config/parameter.py:41-58. *)
Definition lower (s : text) : text := map lower1 s.                            (* str.lower() *)
(** config/parameter.py:66, 73. *)
Definition isdigit (s : text) : bool := match s with [] => false | _ => forallb is_digit s end.   (* str.isdigit() *)
(** config/parameter.py:63-64, for digits only. *)
Definition number (s : text) : Z := fold_left (fun n c => (10 * n + (Z.of_nat c - 48))%Z) s 0%Z.  (* int(s) *)

(** Equality of str, as in the sets and choices (config/parameter.py:53, 58, 214). *)
Definition text_eqb (a b : text) : bool := if list_eq_dec Nat.eq_dec a b then true else false.

(** "true", "yes", "1", "false", "no", "0". config/parameter.py:53, 58. *)
Definition t_true : text := [116; 114; 117; 101].
(** config/parameter.py:53, 58. *)
Definition t_yes : text := [121; 101; 115].
(** config/parameter.py:53, 58. *)
Definition t_1 : text := [49].
(** config/parameter.py:58. *)
Definition t_false : text := [102; 97; 108; 115; 101].
(** config/parameter.py:58. *)
Definition t_no : text := [110; 111].
(** config/parameter.py:58. *)
Definition t_0 : text := [48].

(** value in {...} (config/parameter.py:53, 58, 214). *)
Definition among (s : text) (l : list text) : bool := existsb (text_eqb s) l.

(** The keys of _TYPE_PARAMS (config/parameter.py:39-76). *)
Inductive ptype := TStr | TExactStr | TBool | TInt | TFloat.

(** ValueSource (config/parameter.py:83-91). *)
Inductive source := DEFAULT | SET_BY_USER | GOT_FROM_CFG_SOURCE.

(** A parameter: its type, its choices, what _get_default gives (None: it raises). config/parameter.py:111-113, 155-163,
    206; the subclasses in config/backends/*/envvars.py. *)
Record param := mkParam { ptype_of : ptype; choices : option (list text); default : option cval }.

(** _value (None: _UNSET) and _value_source. config/parameter.py:114, 151. *)
Record pstate := mkPState { value : option cval; value_source : option source }.

(** After __init_subclass__ (config/parameter.py:138-152). *)
Definition fresh : pstate := mkPState None None.

Section Config.
(** float(s) of a text of digits and dots; None: it raises (more than one dot). *)
Variable float_of : text -> option nat.

(** The verify entries of _TYPE_PARAMS (config/parameter.py:43,49,54-58,64-65,71-72). *)
Definition verify (t : ptype) (v : cval) : bool :=
  match t, v with
  | TStr, CStr _ | TExactStr, CStr _ => true
  | TBool, CBool _ => true
  | TBool, CStr s => among (lower (strip s)) [t_true; t_yes; t_1; t_false; t_no; t_0]
  | TInt, CInt _ | TInt, CBool _ => true
  | TInt, CStr s => isdigit (strip s)
  | TFloat, CFloat _ => true
  | TFloat, CStr s => isdigit (filter (fun c => negb (Nat.eqb c 46)) (strip s))
  | _, _ => false
  end.

(** The decode entries (config/parameter.py:41,47,53,62,69); None: raises ValueError. *)
Definition decode (t : ptype) (s : text) : option cval :=
  match t with
  | TStr => Some (CStr (lower (strip s)))
  | TExactStr => Some (CStr s)
  | TBool => Some (CBool (among (lower (strip s)) [t_true; t_yes; t_1]))
  | TInt => Some (CInt (number (strip s)))
  | TFloat => option_map CFloat (float_of (strip s))
  end.

(** The normalize entries (config/parameter.py:42,48,54,63,70) of a verified value. bool(s) of a text is whether it is
    not empty. *)
Definition normalize (t : ptype) (v : cval) : option cval :=
  match t, v with
  | TStr, CStr s => Some (CStr (lower (strip s)))
  | TExactStr, v => Some v
  | TBool, CBool b => Some (CBool b)
  | TBool, CStr s => Some (CBool (match s with [] => false | _ => true end))
  | TInt, CInt z => Some (CInt z)
  | TInt, CBool b => Some (CInt (if b then 1 else 0)%Z)
  | TInt, CStr s => Some (CInt (number (strip s)))
  | TFloat, CFloat f => Some (CFloat f)
  | TFloat, CStr s => option_map CFloat (float_of (strip s))
  | _, _ => None
  end.

Section Param.
Variable p : param.

(** config/parameter.py:214; the choices are texts. *)
Definition allowed (v : cval) : bool :=
  match choices p with
  | None => true
  | Some l => match v with CStr s => among s l | _ => false end
  end.

(** get (config/parameter.py:190-218); [env] is the environment variable. The answer None means that it raises. *)
Definition get (st : pstate) (env : option text) : pstate * option cval :=
  let check st v := if allowed v then (st, Some v) else (st, None) in
  match value st with
  | Some v => check st v
  | None =>
      match env with
      | None => match default p with
                | None => (st, None)
                | Some d => check (mkPState (Some d) (Some DEFAULT)) d
                end
      | Some raw =>
          if verify (ptype_of p) (CStr raw) then
            match decode (ptype_of p) raw with
            | None => (st, None)
            | Some v => check (mkPState (Some v) (Some GOT_FROM_CFG_SOURCE)) v
            end
          else (st, None)
      end
  end.

(** put (config/parameter.py:220-233); false: it raises. *)
Definition put (st : pstate) (v : cval) : pstate * bool :=
  if verify (ptype_of p) v then
    match normalize (ptype_of p) v with
    | None => (st, false)
    | Some w => (mkPState (Some w) (Some SET_BY_USER), true)
    end
  else (st, false).

(** get_value_source (config/parameter.py:164-177). *)
Definition get_value_source (st : pstate) (env : option text) : pstate * option source :=
  match value_source st with
  | Some s => (st, Some s)
  | None => let (st, a) := get st env in (st, match a with None => None | Some _ => value_source st end)
  end.

(** Parameter.get, put and get_value_source (config/parameter.py:166-233), with what the environment holds at that moment
    (256). *)
Inductive cop := OGet (env : option text) | OPut (v : cval) | OSource (env : option text).
(** What these return; None: ValueError (config/parameter.py:210, 215, 231). *)
Inductive cans := Value (v : option cval) | Put (ok : bool) | Source (s : option source).

(** One of these calls (config/parameter.py:166-233). *)
Definition cstep (st : pstate) (o : cop) : pstate * cans :=
  match o with
  | OGet env => let (st, a) := get st env in (st, Value a)
  | OPut v => let (st, a) := put st v in (st, Put a)
  | OSource env => let (st, a) := get_value_source st env in (st, Source a)
  end.

(** Any history of calls on one parameter (config/parameter.py:166-233). *)
Fixpoint crun (st : pstate) (os : list cop) : pstate * list cans :=
  match os with
  | [] => (st, [])
  | o :: r => let (st, a) := cstep st o in let (st, l) := crun st r in (st, a :: l)
  end.
End Param.

(** MpiPickleThreshold.get (config/backends/mpi/envvars.py:48-62): [shared] is MpiSharedObjectStore, [thr]
    MpiSharedObjectStoreThreshold; states and environment variables in this order, MpiPickleThreshold last. *)
Definition pickle_get (shared thr p : param) (st : pstate * pstate * pstate)
    (env : option text * option text * option text) : (pstate * pstate * pstate) * option cval :=
  let '(s1, s2, s3) := st in
  let '(e1, e2, e3) := env in
  match get shared s1 e1 with
  | (s1, None) => ((s1, s2, s3), None)
  | (s1, Some (CBool true)) =>
      match get thr s2 e2 with
      | (s2, None) => ((s1, s2, s3), None)
      | (s2, Some v) =>
          match get_value_source thr s2 e2 with
          | (s2, None) => ((s1, s2, s3), None)
          | (s2, Some src) => ((s1, s2, mkPState (value s3) (Some src)), Some v)
          end
      end
  | (s1, Some _) => let (s3, a) := get p s3 e3 in ((s1, s2, s3), a)
  end.
End Config.
