From Verif Require Import Lib SizingModel RaySizingModel.
Local Open Scope Z_scope.

Lemma ray_cases :
  object_store_memory None {| os := Linux; ram := 64 * 10 ^ 9; shm_bsize := 4096; shm_bavail := 9765625 |} [2; 7; 1]%nat = Some (24 * 10 ^ 9) /\
  object_store_memory None {| os := Linux; ram := 64 * 10 ^ 9; shm_bsize := 1; shm_bavail := 40 * 10 ^ 9 - 1 |} [2; 7; 1]%nat = Some (23 * 10 ^ 9) /\
  object_store_memory None {| os := Mac; ram := 64 * 10 ^ 9; shm_bsize := 0; shm_bavail := 0 |} [1; 2; 0]%nat = Some (38 * 10 ^ 9) /\
  object_store_memory None {| os := Mac; ram := 64 * 10 ^ 9; shm_bsize := 0; shm_bavail := 0 |} [1; 3]%nat = Some (2 * 2 ^ 30) /\
  object_store_memory None {| os := Linux; ram := 64 * 10 ^ 9; shm_bsize := 1024; shm_bavail := 65536 |} [2; 7; 1]%nat = None.
Proof. vm_compute. auto 10. Qed.

Lemma limit_refuted : ~ (forall set m ray n,
  os m = Mac -> version_ge ray [1; 3; 0]%nat = true -> object_store_memory set m ray = Some n -> n <= 2 * 2 ^ 30).
Proof.
  intros H. specialize (H (Some (2 ^ 40)) {| os := Mac; ram := 2 ^ 33; shm_bsize := 0; shm_bavail := 0 |} [2; 7; 1]%nat (2 ^ 40)
    eq_refl eq_refl eq_refl). apply H. reflexivity.
Qed.

Lemma started_as_configured running c m ray ray_password :
  (initialize_ray running c m ray ray_password = None <-> running = true /\ cluster c = false) /\
  (forall a pw, initialize_ray running c m ray ray_password = Some (Connect a pw) ->
     cluster c = true /\ a = address c /\ (password_default c = false -> pw = password c)) /\
  (forall cpus gpus store memory pw, initialize_ray running c m ray ray_password = Some (Start cpus gpus store memory pw) ->
     cluster c = false /\ running = false /\ cpus = cpu_count c /\ gpus = gpu_count c /\ pw = password c /\
     store = memory /\ store = object_store_memory (store_memory c) m ray).
Proof.
  unfold initialize_ray. destruct running, (cluster c) eqn:C; cbn [negb orb]; split; [| split| |split| |split| |split];
    try (split; [discriminate|intros []; congruence]); try (split; [auto|reflexivity]); try discriminate.
  - intros a pw H. injection H as <- <-. destruct (password_default c); auto. split; [reflexivity|]. split; [reflexivity|discriminate].
  - intros a pw H. injection H as <- <-. destruct (password_default c); auto. split; [reflexivity|]. split; [reflexivity|discriminate].
  - intros cp g s me pw H. injection H as <- <- <- <- <-. destruct (password_default c); auto 10.
Qed.
