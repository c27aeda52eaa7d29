(** What C49 speaks about: what a history of puts and reads leaves in a parameter. *)
From Coq Require Import ZArith String Ascii.
From Verif Require Import Lib ConfigModel.
Import ListNotations.
Local Open Scope list_scope.
Local Open Scope nat_scope.

Section Spec.
Variable float_of : text -> option nat.
Variable p : param.

(** What a put stores, None if it is refused. *)
Definition accepts (v : cval) : option cval :=
  if verify (ptype_of p) v then normalize float_of (ptype_of p) v else None.

(** What reading gives while nothing was put or read before. *)
Definition first_read (env : option text) : option (cval * source) :=
  match env with
  | None => option_map (fun d => (d, DEFAULT)) (default p)
  | Some raw => if verify (ptype_of p) (CStr raw)
                then option_map (fun v => (v, GOT_FROM_CFG_SOURCE)) (decode float_of (ptype_of p) raw) else None
  end.

(** The last value put in a history. *)
Definition last_put (os : list cop) : option cval :=
  fold_left (fun r o => match o with
                        | OPut v => match accepts v with Some w => Some w | None => r end
                        | _ => r
                        end) os None.

(** What the first read that gives anything gives. *)
Fixpoint first_value (os : list cop) : option (cval * source) :=
  match os with
  | [] => None
  | OGet env :: r | OSource env :: r => match first_read env with Some x => Some x | None => first_value r end
  | OPut _ :: r => first_value r
  end.

(** Put over environment over default. *)
Definition current (os : list cop) : option (cval * source) :=
  match last_put os with
  | Some w => Some (w, SET_BY_USER)
  | None => first_value os
  end.

Definition permitted (v : cval) : Prop :=
  match choices p with None => True | Some l => exists s, v = CStr s /\ In s l end.
End Spec.

(** The number a text of digits stands for, by weights of ten. *)
Fixpoint weight (s : text) : Z :=
  match s with [] => 0%Z | c :: r => ((Z.of_nat c - 48) * 10 ^ Z.of_nat (List.length r) + weight r)%Z end.

(** Characters: tab, line feed, vertical tab, form feed, carriage return, the separators 28 to 31, space. *)
Definition white (c : nat) : Prop := In c [9; 10; 11; 12; 13; 28; 29; 30; 31; 32].
Definition blank (s : text) : Prop := forall c, In c s -> white c.

(** s is t with white space around it; t neither begins nor ends with white space. *)
Definition padded (s t : text) : Prop := exists a b, s = a ++ t ++ b /\ blank a /\ blank b /\
  (forall c r, t = c :: r -> ~ white c) /\ (forall c r, t = r ++ [c] -> ~ white c).

(** w is t in small letters. *)
Definition small_of (c c' : nat) : Prop := (65 <= c <= 90 /\ c' = c + 32) \/ (~ 65 <= c <= 90 /\ c' = c).
Definition in_small (t w : text) : Prop := Forall2 small_of t w.

(** The characters of a word. *)
Definition chars (s : string) : text := map nat_of_ascii (list_ascii_of_string s).
Definition digits (s : text) : Prop := s <> [] /\ forall c, In c s -> 48 <= c <= 57.
