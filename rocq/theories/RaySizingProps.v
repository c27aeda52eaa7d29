(** C82: the memory Ray is started with. [object_store_memory set m ray] is what unidist asks Ray for when the configured size is [set],
    on the machine [m], with Ray release [ray]; [system_memory m] is the free space of /dev/shm on Linux and the RAM elsewhere. *)
From Verif Require Import Lib SizingModel RaySizingModel RaySizingProofs RaySizingCases.
Local Open Scope Z_scope.

(** Nothing configured: at most 60% of the memory there is, in whole gigabytes and not a gigabyte less than possible; on a Mac with Ray
    1.3.0 or later at most 2 GiB. The choice is left to Ray exactly when 60% is less than one gigabyte. *)
Theorem C82_fits : forall m ray, 0 <= system_memory m < 2 ^ 48 ->
  match object_store_memory None m ray with
  | Some n => 0 < n /\ 5 * n <= 3 * system_memory m /\
      (os m = Mac -> version_ge ray [1; 3; 0]%nat = true -> n <= 2 * 2 ^ 30) /\
      ((os m <> Mac \/ version_ge ray [1; 3; 0]%nat = false \/ n < 2 * 2 ^ 30) ->
        (10 ^ 9 | n) /\ 3 * system_memory m < 5 * (n + 10 ^ 9))
  | None => 3 * system_memory m < 5 * 10 ^ 9
  end.
Proof. exact unset_memory. Qed.
Print Assumptions C82_fits.

(** 64 GB of RAM; 40 GB free in /dev/shm; then 40 GB, 3/5 of which is just under a whole number; a Mac before and after 1.3.0. *)
Example C82_case :
  object_store_memory None {| os := Linux; ram := 64 * 10 ^ 9; shm_bsize := 4096; shm_bavail := 9765625 |} [2; 7; 1]%nat = Some (24 * 10 ^ 9) /\
  object_store_memory None {| os := Linux; ram := 64 * 10 ^ 9; shm_bsize := 1; shm_bavail := 40 * 10 ^ 9 - 1 |} [2; 7; 1]%nat = Some (23 * 10 ^ 9) /\
  object_store_memory None {| os := Mac; ram := 64 * 10 ^ 9; shm_bsize := 0; shm_bavail := 0 |} [1; 2; 0]%nat = Some (38 * 10 ^ 9) /\
  object_store_memory None {| os := Mac; ram := 64 * 10 ^ 9; shm_bsize := 0; shm_bavail := 0 |} [1; 3]%nat = Some (2 * 2 ^ 30) /\
  object_store_memory None {| os := Linux; ram := 64 * 10 ^ 9; shm_bsize := 1024; shm_bavail := 65536 |} [2; 7; 1]%nat = None.
Proof. exact ray_cases. Qed.

(** The documentation of the function says "On Mac, never return more than Ray-specified upper limit": not so for a configured size,
    which is used as it is, whatever memory there is. *)
Theorem C82_documented_limit_refuted : ~ (forall set m ray n,
  os m = Mac -> version_ge ray [1; 3; 0]%nat = true -> object_store_memory set m ray = Some n -> n <= 2 * 2 ^ 30).
Proof. exact limit_refuted. Qed.
Print Assumptions C82_documented_limit_refuted.

(** A running Ray is left alone unless a cluster is to be used. In a cluster Ray is only connected to. Otherwise it is started with the
    configured CPUs and GPUs. The configured password, if one was configured, is the one used. *)
Theorem C82_started_as_configured : forall running c m ray ray_password,
  (initialize_ray running c m ray ray_password = None <-> running = true /\ cluster c = false) /\
  (forall a pw, initialize_ray running c m ray ray_password = Some (Connect a pw) ->
     cluster c = true /\ a = address c /\ (password_default c = false -> pw = password c)) /\
  (forall cpus gpus store memory pw, initialize_ray running c m ray ray_password = Some (Start cpus gpus store memory pw) ->
     cluster c = false /\ running = false /\ cpus = cpu_count c /\ gpus = gpu_count c /\ pw = password c /\
     store = memory /\ store = object_store_memory (store_memory c) m ray).
Proof. exact started_as_configured. Qed.
Print Assumptions C82_started_as_configured.
