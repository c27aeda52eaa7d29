(** Cases for C76. *)
From Coq Require Import ZArith String Ascii.
From Verif Require Import Lib ConfigModel SpawnModel SpawnSpec SpawnProofs.
From Coq Require Import List.
Import ListNotations.
Local Open Scope list_scope.

(** A repr that can be read: lengths before the texts. *)
Definition len_text (t : text) : text := List.length t :: t.
Definition un_text (s : text) : option (text * text) :=
  match s with [] => None | n :: r => Some (firstn n r, skipn n r) end.

Definition a_repr (l : list (text * text)) : text :=
  List.length l :: flat_map (fun nv => len_text (fst nv) ++ len_text (snd nv)) l.

Fixpoint un_pairs (n : nat) (s : text) : option (list (text * text) * text) :=
  match n with
  | 0 => Some ([], s)
  | S n =>
      match un_text s with
      | None => None
      | Some (a, s) =>
          match un_text s with
          | None => None
          | Some (b, s) => option_map (fun x => ((a, b) :: fst x, snd x)) (un_pairs n s)
          end
      end
  end.

Definition a_unrepr (s : text) : option (list (text * text) * text) :=
  match s with [] => None | n :: r => un_pairs n r end.

Lemma un_len t r : un_text (len_text t ++ r) = Some (t, r).
Proof.
  unfold un_text, len_text. cbn [app]. rewrite firstn_app, skipn_app, firstn_all, skipn_all, Nat.sub_diag, app_nil_r. reflexivity.
Qed.

Lemma a_contract : repr_contract a_repr a_unrepr.
Proof.
  intros l rest. unfold a_unrepr, a_repr. cbn [app]. induction l as [|[a b] l IH]; [reflexivity|].
  cbn [List.length flat_map un_pairs fst snd]. rewrite <- !app_assoc, un_len, un_len, IH. reflexivity.
Qed.

(** One float, 0.001, and one that is infinite. *)
Definition a_show (f : nat) : text := match f with 0 => codes "0.0001" | 1 => codes "0.001" | _ => codes "inf" end.
Definition a_read (t : text) : option nat :=
  if text_eqb t (codes "0.0001") then Some 0 else if text_eqb t (codes "0.001") then Some 1 else None.
Definition a_float (t : text) : option nat := a_read t.

Lemma a_literal f : f <= 1 -> literal_float a_show a_read f.
Proof.
  intros H. assert (f = 0 \/ f = 1) as [-> | ->] by lia; (split; [|split]).
  - intros c Hc. simpl in Hc. repeat destruct Hc as [<- | Hc]; try reflexivity; contradiction.
  - exists 46. simpl. intuition discriminate.
  - reflexivity.
  - intros c Hc. simpl in Hc. repeat destruct Hc as [<- | Hc]; try reflexivity; contradiction.
  - exists 46. simpl. intuition discriminate.
  - reflexivity.
Qed.

(** The root has 12 CPUs by its environment, hosts and the shared store by put. *)
Definition env_root : environ := fun n => if text_eqb n (codes "UNIDIST_CPUS") then Some (codes " 12") else None.
Definition no_env : environ := fun _ => None.
Definition us1 : list use := [UGet Spawn; UPut Hosts (CStr (codes "a,b")); UPut Shared (CBool true); UPut Backoff (CFloat 1); UGet PickleThr; UGet Log].
Definition rt1 : option (list (text * text)) := Some [(codes "UNIDIST_MPI_LOG", codes "yes"); (codes "A", codes "x y")].

Definition prog_of (e : environ) (us : list use) (rt : option (list (text * text))) : option (conf * text) :=
  program a_float a_show a_repr 4%Z e (uses a_float 4%Z e us) rt.
Definition root_of (x : option (conf * text)) : conf := match x with Some (c, _) => c | None => conf0 end.
Definition text_of (x : option (conf * text)) : text := match x with Some (_, t) => t | None => [] end.

Definition child_of (x : option (conf * text)) : option (conf * environ) :=
  spawned a_float a_read a_unrepr 8%Z no_env (text_of x).

Definition child_gets (x : option (conf * text)) (p : pname) : option cval :=
  match child_of x with None => None | Some (c, e) => snd (cfg_get a_float 8%Z c e p) end.

Definition child_env (x : option (conf * text)) (n : text) : option text :=
  match child_of x with None => None | Some (_, e) => e n end.

Lemma plain_check s : forallb (fun c => negb (existsb (Nat.eqb c) [39; 92; 10; 13; 0])) s = true -> plain s.
Proof.
  intros H c Hc. rewrite forallb_forall in H. specialize (H c Hc). apply Bool.negb_true_iff in H.
  repeat split; intros ->; simpl in H; discriminate.
Qed.

Lemma got x : x <> None -> x = Some (root_of x, text_of x).
Proof. destruct x as [[c t]|]; [reflexivity|congruence]. Qed.

Lemma c76_case :
  let root := root_of (prog_of env_root us1 rt1) in
  let ec := assigned rt1 no_env in
  repr_contract a_repr a_unrepr /\
  program a_float a_show a_repr 4%Z env_root (uses a_float 4%Z env_root us1) rt1 = Some (root, text_of (prog_of env_root us1 rt1)) /\
  (forall h, value (root Hosts) = Some (CStr h) -> plain h) /\
  (forall f, value (root Backoff) = Some (CFloat f) -> literal_float a_show a_read f) /\
  (forall l n v, rt1 = Some l -> In (n, v) l -> plain n /\ plain v) /\
  settled 4%Z 8%Z root ec Cpus /\ settled 4%Z 8%Z root ec Hosts /\ settled 4%Z 8%Z root ec Shared /\ settled 4%Z 8%Z root ec SharedThr /\
  ~ settled 4%Z 8%Z root ec Log /\ shared_on a_float 4%Z env_root root /\
  child_gets (prog_of env_root us1 rt1) Cpus = Some (CInt 12) /\
  child_gets (prog_of env_root us1 rt1) Hosts = Some (CStr (codes "a,b")) /\
  child_gets (prog_of env_root us1 rt1) Backoff = Some (CFloat 1) /\
  child_gets (prog_of env_root us1 rt1) PickleThr = Some (CInt 100000).
Proof.
  cbv zeta. split; [exact a_contract|]. split; [apply got; vm_compute; discriminate|].
  split. { intros h H. assert (value (root_of (prog_of env_root us1 rt1) Hosts) = Some (CStr (codes "a,b"))) as A by (vm_compute; reflexivity).
           rewrite A in H. apply Some_inj in H. injection H as <-. apply plain_check. reflexivity. }
  split. { intros f H. assert (value (root_of (prog_of env_root us1 rt1) Backoff) = Some (CFloat 1)) as A by (vm_compute; reflexivity).
           rewrite A in H. apply Some_inj in H. injection H as <-. apply a_literal. lia. }
  split. { intros l n v H. unfold rt1 in H. apply Some_inj in H. subst l. intros [E | [E | []]]; apply pair_inj in E as [<- <-]; split; apply plain_check; reflexivity. }
  split; [left; vm_compute; discriminate|]. split; [left; vm_compute; discriminate|]. split; [left; vm_compute; discriminate|].
  split; [right; vm_compute; auto|].
  split; [intros [A | [A _]]; vm_compute in A; congruence|].
  split; [vm_compute; reflexivity|]. repeat split; vm_compute; reflexivity.
Qed.

(** MpiPickleThreshold is put, read while the shared object store is on, and the store is switched off. *)
Definition us_stale : list use := [UPut PickleThr (CInt 5); UPut Shared (CBool true); UGet PickleThr; UPut Shared (CBool false)].

Lemma c76_stale :
  snd (cfg_get a_float 4%Z (root_of (prog_of no_env us_stale None)) no_env PickleThr) = Some (CInt 5) /\
  child_gets (prog_of no_env us_stale None) PickleThr = Some (CInt 262144).
Proof. split; vm_compute; reflexivity. Qed.

Lemma c76_quote :
  prog_of no_env [] (Some [(codes "A", codes "it's")]) <> None /\ child_of (prog_of no_env [] (Some [(codes "A", codes "it's")])) = None.
Proof. split; [vm_compute; discriminate|vm_compute; reflexivity]. Qed.

Definition inject : option (list (text * text)) := Some [(codes "A", codes "x'; os.environ['B'] = 'y")].

Lemma c76_inject :
  child_env (prog_of no_env [] inject) (codes "A") = Some (codes "x") /\ child_env (prog_of no_env [] inject) (codes "B") = Some (codes "y") /\
  assigned inject no_env (codes "B") = None.
Proof. repeat split; vm_compute; reflexivity. Qed.

Lemma c76_backslash :
  child_env (prog_of no_env [] (Some [(codes "DIR", codes "C:\temp")])) (codes "DIR") = Some (codes "C:" ++ 9 :: codes "emp").
Proof. vm_compute. reflexivity. Qed.

Lemma c76_infinite :
  prog_of no_env [UPut Backoff (CFloat 2)] None <> None /\ child_of (prog_of no_env [UPut Backoff (CFloat 2)] None) = None.
Proof. split; [vm_compute; discriminate|vm_compute; reflexivity]. Qed.

(** A default of the root is not handed on: the environment or the number of CPUs of the other host decides. *)
Lemma c76_default :
  snd (cfg_get a_float 4%Z (root_of (prog_of no_env [] None)) no_env Cpus) = Some (CInt 4) /\
  child_gets (prog_of no_env [] None) Cpus = Some (CInt 8).
Proof. split; vm_compute; reflexivity. Qed.
