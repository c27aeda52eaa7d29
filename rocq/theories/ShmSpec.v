(** Vocabulary for the shared-memory reservation properties. *)
From Verif Require Import Lib ShmModel.
Local Open Scope Z_scope.

(** The cells of a half-open interval. *)
Definition in_region (lo hi x : Z) : Prop := lo <= x < hi.

(** Two half-open intervals share no cell. *)
Definition disjoint_regions (a b c d : Z) : Prop :=
  forall x, ~ (in_region a b x /\ in_region c d x).

(** Cell [x] of the data segment is covered by some live reservation. *)
Definition mem_used (m : manager) (x : Z) : Prop :=
  exists d r, resv m d = Some r /\ in_region (first_index r) (last_index r) x.

(** Cell [x] of the service segment is covered by some live reservation. *)
Definition svc_used (m : manager) (x : Z) : Prop :=
  exists d r, resv m d = Some r /\
              in_region (service_index r) (service_index r + INFO_SIZE) x.

(** [n] consecutive unused cells exist inside a segment of size [size]. *)
Definition gap_exists (used : Z -> Prop) (size n : Z) : Prop :=
  exists a, 0 <= a /\ a + n <= size /\ forall x, in_region a (a + n) x -> ~ used x.

(** An operation asks for a positive amount of memory: shared_object_store.py:594-609 only
    shares data whose size is strictly above a non-negative threshold. *)
Definition op_ok (o : mop) : Prop :=
  match o with Reserve _ size => 0 < size | _ => True end.

(** No reservation in the history failed with MemoryError. (monitor/loop.py:225 does not
    catch it, so a monitor that is still running has had no such failure.) *)
Fixpoint no_memory_error (m : manager) (ops : list mop) : Prop :=
  match ops with
  | [] => True
  | o :: rest =>
      match o with
      | Reserve d size => snd (mgr_reserve m d size) <> None
      | _ => True
      end /\ no_memory_error (mstep m o) rest
  end.

(** ** What the users of one data ID observe *)
Inductive event :=
| Answered (r : resinfo) (first : bool)   (* reply to a reservation request *)
| Located (r : option resinfo)            (* reply to a query *)
| Refused                                 (* MemoryError *)
| Freed.                                  (* the reservation disappeared in a cleanup *)

Definition events_of (d : dataid) (m : manager) (o : mop) : list event :=
  match o with
  | Reserve d' size =>
      if did_eqb d' d then
        match snd (mgr_reserve m d' size) with
        | Some (r, b) => [Answered r b]
        | None => [Refused]
        end
      else []
  | Query d' => if did_eqb d' d then [Located (mgr_get m d')] else []
  | Cleanup _ _ =>
      match resv m d, resv (mstep m o) d with
      | Some _, None => [Freed]
      | _, _ => []
      end
  end.

Fixpoint trace (d : dataid) (m : manager) (ops : list mop) : list event :=
  match ops with
  | [] => []
  | o :: rest => events_of d m o ++ trace d (mstep m o) rest
  end.

(** The reference automaton: one current reservation, announced once as first. *)
Fixpoint stable_trace (cur : option resinfo) (t : list event) : Prop :=
  match t with
  | [] => True
  | Answered r b :: t' =>
      match cur with
      | None => b = true /\ stable_trace (Some r) t'
      | Some r0 => r = r0 /\ b = false /\ stable_trace cur t'
      end
  | Located r :: t' => r = cur /\ stable_trace cur t'
  | Refused :: t' => cur = None /\ stable_trace cur t'
  | Freed :: t' => cur <> None /\ stable_trace None t'
  end.

(** ** Clusters *)

(** Some host that holds a reservation for [d] counts references to it. *)
Definition referenced_somewhere (refs : nat -> dataid -> Z) (ms : list manager) (d : dataid) : Prop :=
  exists h m, nth_error ms h = Some m /\ resv m d <> None /\ 0 < refs h d.

(** Every host has forgotten / still keeps its reservation for [d]. *)
Definition freed_everywhere (ms : list manager) (d : dataid) : Prop :=
  forall m, In m ms -> resv m d = None.
Definition queued_everywhere (ms : list manager) (d : dataid) : Prop :=
  forall m, In m ms -> In d (pending_cleanup m).

(** A cluster of [n] freshly started monitors. *)
Definition cluster_init (sizes : list (Z * Z)) : list manager :=
  map (fun p => manager_init (fst p) (snd p)) sizes.

(** At some point of the history [ops] a cleanup was handled after which no host had a
    reservation for [d]. *)
Definition was_freed (ms : list manager) (ops : list cop) (d : dataid) : Prop :=
  exists ops1 refs ids ops2, ops = ops1 ++ CCleanup refs ids :: ops2 /\
    freed_everywhere (crun ms (ops1 ++ [CCleanup refs ids])) d.
