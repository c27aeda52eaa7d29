(** Model of core/backends/ray/utils.py: with which memory Ray is started (_get_object_store_memory) and what ray.init is called with
    (initialize_ray). The warning about a small /dev/shm (101-107) is not modelled. *)
From Verif Require Import Lib SizingModel.
Local Open Scope Z_scope.

(** sys.platform (ray/utils.py:96, 127). *)
Inductive platform := Linux | Mac | Windows.

(** The machine: psutil.virtual_memory().total and f_bsize, f_bavail of /dev/shm (ray/utils.py:95-100). *)
Record machine := { os : platform; ram : Z; shm_bsize : Z; shm_bavail : Z }.

(** system_memory (ray/utils.py:96-111). *)
Definition system_memory (m : machine) : Z :=
  match os m with Linux => shm_bsize m * shm_bavail m | _ => ram m end.

(** int(0.6 * system_memory // 1e9 * 1e9) (ray/utils.py:112-118): the double 0.6 is 5404319552844595 / 2^53, the product is
    rounded, the floor division and the last product are exact below 2^53. *)
Definition whole_gigabytes (memory : Z) : Z :=
  round53 (round53 memory * 5404319552844595) / (2 ^ 53 * 10 ^ 9) * 10 ^ 9.

(** version.parse(a) >= version.parse(b) for release numbers (ray/utils.py:129-131): trailing zeros do not count. *)
Fixpoint version_ge (a b : list nat) : bool :=
  match a, b with
  | _, [] => true
  | [], y :: b' => Nat.eqb y 0 && version_ge [] b'
  | x :: a', y :: b' => Nat.ltb y x || (Nat.eqb x y && version_ge a' b')
  end.

(** _MAC_OBJECT_STORE_LIMIT_BYTES (ray/utils.py:29). *)
Definition mac_limit : Z := 2 * 2 ^ 30.

(** _get_object_store_memory (ray/utils.py:75-132); [set] is RayObjectStoreMemory.get(), the result None leaves it to Ray. *)
Definition object_store_memory (set : option Z) (m : machine) (ray : list nat) : option Z :=
  match set with
  | Some n => Some n
  | None =>
      let n := whole_gigabytes (system_memory m) in
      if n =? 0 then None
      else match os m with
           | Mac => if version_ge ray [1; 3; 0]%nat then Some (Z.min n mac_limit) else Some n
           | _ => Some n
           end
  end.

(** What a call of ray.init names (ray/utils.py:55-72); passwords are numbers. *)
Inductive ray_init :=
| Connect (address : option nat) (password : nat)                                   (* None: "auto" *)
| Start (cpus gpus : Z) (object_store memory : option Z) (password : nat).

(** The Ray parameters of the configuration (ray/utils.py:15-23): the password and whether it is the default one. *)
Record ray_conf := {
  cluster : bool; address : option nat; password : nat; password_default : bool;
  cpu_count : Z; gpu_count : Z; store_memory : option Z
}.

(** initialize_ray (ray/utils.py:32-72); [running] is ray.is_initialized(), [ray_password] is ray's own default. The result is the
    call of ray.init, if there is one. *)
Definition initialize_ray (running : bool) (c : ray_conf) (m : machine) (ray : list nat) (ray_password : nat) : option ray_init :=
  if negb running || cluster c then
    let pw := if password_default c then (if cluster c then ray_password else password c) else password c in
    if cluster c then Some (Connect (address c) pw)
    else
      let mem := object_store_memory (store_memory c) m ray in
      Some (Start (cpu_count c) (gpu_count c) mem mem pw)
  else None.
