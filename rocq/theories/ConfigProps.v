(** C49. [float_of] is what float() makes of a text of digits and dots. *)
From Coq Require Import ZArith String.
From Verif Require Import Lib ConfigModel ConfigSpec ConfigProofs.
Local Open Scope list_scope.
Local Open Scope nat_scope.

(** After any history of puts and reads, in any environments, get answers the last value put if there is one, else what
    the first read that found something found: the environment variable if set, else the default. It raises if there is
    nothing, or if the value is none of the choices. *)
Theorem C49_get_precedence :
  forall float_of p os env a l, snd (crun float_of p fresh (os ++ [OGet env])) = l ++ [Value a] ->
  match current float_of p (os ++ [OGet env]) with
  | Some (v, _) => (permitted p v -> a = Some v) /\ (~ permitted p v -> a = None)
  | None => a = None
  end.
Proof. exact get_answers. Qed.
Print Assumptions C49_get_precedence.

(** The source reported is the one of that value. *)
Theorem C49_source :
  forall float_of p os env a l, snd (crun float_of p fresh (os ++ [OSource env])) = l ++ [Source a] ->
  match current float_of p (os ++ [OSource env]) with
  | Some (v, s) => (permitted p v -> a = Some s) /\ (a = Some s \/ a = None)
  | None => a = None
  end.
Proof. exact source_answers. Qed.
Print Assumptions C49_source.

(** A put either stores a value or raises; when it raises every later get is what it would have been. *)
Theorem C49_put :
  forall float_of p os v a l, snd (crun float_of p fresh (os ++ [OPut v])) = l ++ [Put a] ->
  (a = true <-> exists w, accepts float_of p v = Some w) /\
  (a = false -> forall env, get float_of p (fst (crun float_of p fresh (os ++ [OPut v]))) env =
                            get float_of p (fst (crun float_of p fresh os)) env).
Proof. exact put_answers. Qed.
Print Assumptions C49_put.

(** Texts are read as decimal numbers, white space around them ignored; *)
Theorem C49_int_text :
  forall float_of choices default a s b, blank a -> digits s -> blank b ->
  let p := mkParam TInt choices default in
  accepts float_of p (CStr (a ++ s ++ b)) = Some (CInt (weight s)) /\
  first_read float_of p (Some (a ++ s ++ b)) = Some (CInt (weight s), GOT_FROM_CFG_SOURCE).
Proof. exact int_text. Qed.
Print Assumptions C49_int_text.

(** anything but numbers and such texts is refused. *)
Theorem C49_int_refused :
  forall float_of choices default v, let p := mkParam TInt choices default in
  accepts float_of p v = None <->
  match v with
  | CInt _ | CBool _ => False
  | CStr s => forall t, padded s t -> ~ digits t
  | _ => True
  end.
Proof. exact int_refuses. Qed.
Print Assumptions C49_int_refused.

(** Every text is one word with white space around it, and has a form in small letters. *)
Theorem C49_every_text : forall s, exists t w, padded s t /\ in_small t w.
Proof. exact every_text. Qed.
Print Assumptions C49_every_text.

(** Flags in the environment: white space around the word and capital letters do not matter. *)
Theorem C49_bool_text :
  forall float_of choices default s t w, padded s t -> in_small t w -> let p := mkParam TBool choices default in
  (In w (map chars ["true"; "yes"; "1"]%string) -> first_read float_of p (Some s) = Some (CBool true, GOT_FROM_CFG_SOURCE)) /\
  (In w (map chars ["false"; "no"; "0"]%string) -> first_read float_of p (Some s) = Some (CBool false, GOT_FROM_CFG_SOURCE)) /\
  (~ In w (map chars ["true"; "yes"; "1"; "false"; "no"; "0"]%string) -> first_read float_of p (Some s) = None).
Proof. exact bool_words. Qed.
Print Assumptions C49_bool_text.

(** Texts are kept in small letters, without the white space around them; *)
Theorem C49_str_text :
  forall float_of choices default s t w, padded s t -> in_small t w -> let p := mkParam TStr choices default in
  accepts float_of p (CStr s) = Some (CStr w) /\ first_read float_of p (Some s) = Some (CStr w, GOT_FROM_CFG_SOURCE).
Proof. exact str_text. Qed.
Print Assumptions C49_str_text.

(** those of the parameters for exact texts are kept as they are. *)
Theorem C49_exact_text :
  forall float_of choices default s, let p := mkParam TExactStr choices default in
  accepts float_of p (CStr s) = Some (CStr s) /\ first_read float_of p (Some s) = Some (CStr s, GOT_FROM_CFG_SOURCE).
Proof. exact exact_text. Qed.
Print Assumptions C49_exact_text.

(** Texts of digits and points are what float makes of them. *)
Theorem C49_float_text :
  forall float_of choices default s t, padded s t -> t <> [] -> (forall c, In c t -> 48 <= c <= 57 \/ c = 46) ->
  (exists c, In c t /\ c <> 46) -> let p := mkParam TFloat choices default in
  accepts float_of p (CStr s) = option_map CFloat (float_of t) /\
  first_read float_of p (Some s) = option_map (fun x => (CFloat x, GOT_FROM_CFG_SOURCE)) (float_of t).
Proof. exact float_text. Qed.
Print Assumptions C49_float_text.

Example C49_text_case : padded (chars " YeS "%string) (chars "YeS"%string) /\ in_small (chars "YeS"%string) (chars "yes"%string) /\
  padded (chars " 1.5"%string) (chars "1.5"%string) /\ (forall c, In c (chars "1.5"%string) -> 48 <= c <= 57 \/ c = 46).
Proof. exact text_case. Qed.

(** MpiPickleThreshold: while the shared object store is on, value and source are those of the other threshold. *)
Theorem C49_pickle_threshold :
  forall float_of shared thr p st env os,
  let '(s1, s2, s3) := st in let '(e1, e2, e3) := env in
  s2 = fst (crun float_of thr fresh os) ->
  let '((s1', s2', s3'), a) := pickle_get float_of shared thr p st env in
  match get float_of shared s1 e1 with
  | (_, Some (CBool true)) =>
      a = snd (get float_of thr s2 e2) /\ value s3' = value s3 /\
      (a <> None -> snd (get_value_source float_of p s3' e3) = snd (get_value_source float_of thr s2' e2))
  | (_, Some _) => a = snd (get float_of p s3 e3) /\ s2' = s2
  | (_, None) => a = None /\ s2' = s2 /\ s3' = s3
  end.
Proof. exact pickle_threshold. Qed.
Print Assumptions C49_pickle_threshold.

(** A text that is none of the choices is not refused: it is stored, and every get raises from then on. *)
Theorem C49_choices_refuted :
  forall float_of l d s t w, padded s t -> in_small t w -> ~ In w l ->
  let p := mkParam TStr (Some l) d in
  exists st, put float_of p fresh (CStr s) = (st, true) /\ forall env, get float_of p st env = (st, None).
Proof. exact outside_choices. Qed.
Print Assumptions C49_choices_refuted.

(** put("false") stores True. *)
Theorem C49_put_false_refuted :
  forall float_of d, put float_of (mkParam TBool None d) fresh (CStr t_false) =
  (mkPState (Some (CBool true)) (Some SET_BY_USER), true).
Proof. exact false_is_true. Qed.
Print Assumptions C49_put_false_refuted.

(** The environment is read once: later changes are not seen. *)
Theorem C49_environment_read_once :
  forall float_of p env v st env', get float_of p fresh env = (st, Some v) -> get float_of p st env' = (st, Some v).
Proof. exact env_cached. Qed.
Print Assumptions C49_environment_read_once.

(** UNIDIST_CPUS = " 12": default 4, environment 12, then a refused and an accepted put, after which the environment
    does not matter. *)
Example C49_case :
  let p := mkParam TInt None (Some (CInt 4)) in
  snd (crun (fun _ => None) p fresh
        [OSource (Some [32; 49; 50]); OGet (Some [55]); OPut (CStr [45; 49]); OGet None; OPut (CBool true); OGet None;
         OSource None]) =
  [Source (Some GOT_FROM_CFG_SOURCE); Value (Some (CInt 12)); Put false; Value (Some (CInt 12)); Put true;
   Value (Some (CInt 1)); Source (Some SET_BY_USER)] /\
  snd (crun (fun _ => None) p fresh [OGet None; OSource None]) = [Value (Some (CInt 4)); Source (Some DEFAULT)].
Proof. exact (conj eq_refl eq_refl). Qed.
