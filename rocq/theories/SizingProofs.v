From Verif Require Import Lib SizingModel.
From Coq Require Import ZifyBool.
Local Open Scope Z_scope.

Lemma round53_small n : 0 <= n < 2 ^ 53 -> round53 n = n.
Proof.
  intros H. unfold round53.
  assert (Hl : Z.log2 n < 53).
  { destruct (Z.eq_dec n 0) as [->|]; [reflexivity|]. apply Z.log2_lt_pow2; lia. }
  rewrite Z.max_l by lia. change (2 ^ 0) with 1. rewrite Z.mod_1_r, Z.div_1_r. simpl. lia.
Qed.

Lemma round53_error n : 0 <= n -> 2 ^ 53 * Z.abs (round53 n - n) <= n.
Proof.
  intros H. destruct (Z_lt_dec n (2 ^ 53)) as [Hs|Hs].
  - rewrite round53_small by lia. lia.
  - unfold round53.
    assert (Hl : 53 <= Z.log2 n) by (apply Z.log2_le_pow2; lia).
    rewrite Z.max_r by lia.
    remember (Z.log2 n + 1 - 53) as e eqn:Ee.
    assert (He : 2 ^ 52 * 2 ^ e <= n).
    { rewrite <- Z.pow_add_r by lia. replace (52 + e) with (Z.log2 n) by lia.
      apply Z.log2_spec. lia. }
    assert (Hp : 0 < 2 ^ e) by (apply Z.pow_pos_nonneg; lia).
    pose proof (Z.div_mod n (2 ^ e) ltac:(lia)) as Hd.
    pose proof (Z.mod_pos_bound n (2 ^ e) Hp) as Hm.
    remember (n / 2 ^ e) as q eqn:Eq. remember (n mod 2 ^ e) as r eqn:Er.
    remember (2 ^ e) as b eqn:Eb. clear Eq Er Eb Ee.
    assert (Hb : 2 * Z.abs ((if (b <? 2 * r) || ((b =? 2 * r) && Z.odd q) then q + 1 else q) * b - n) <= b).
    { destruct (b <? 2 * r) eqn:E1; cbn [orb].
      - replace ((q + 1) * b - n) with (b - r) by (rewrite Hd; ring). clear - E1 Hm Hp; lia.
      - destruct ((b =? 2 * r) && Z.odd q) eqn:E2; cbn [orb].
        + apply andb_prop in E2. destruct E2 as [E2 _].
          replace ((q + 1) * b - n) with (b - r) by (rewrite Hd; ring). clear - E2 Hm Hp; lia.
        + replace (q * b - n) with (- r) by (rewrite Hd; ring). clear - E1 Hm Hp; lia. }
    change (2 ^ 53) with (2 * 2 ^ 52). change (2 ^ 52) with 4503599627370496 in *.
    nia.
Qed.

(** [int(a * c)] is at most the exact product plus a relative error of 2^-53. *)
Lemma int_mul_float_upper a m k : 0 <= a < 2 ^ 53 -> 0 <= m -> 0 <= k ->
  2 ^ 53 * (int_mul_float a m k * 2 ^ k) <= (2 ^ 53 + 1) * (a * m).
Proof.
  intros Ha Hm Hk. unfold int_mul_float. rewrite (round53_small a) by lia.
  pose proof (round53_error (a * m) ltac:(nia)) as He.
  assert (Hp : 0 < 2 ^ k) by (apply Z.pow_pos_nonneg; lia).
  pose proof (Z.div_mod (round53 (a * m)) (2 ^ k) ltac:(lia)) as Hd.
  pose proof (Z.mod_pos_bound (round53 (a * m)) (2 ^ k) Hp) as Hr.
  change (2 ^ 53) with 9007199254740992 in *. nia.
Qed.

Lemma int_mul_float_nonneg a m k : 0 <= a < 2 ^ 53 -> 0 <= m -> 0 <= k -> 0 <= int_mul_float a m k.
Proof.
  intros Ha Hm Hk. unfold int_mul_float. rewrite (round53_small a) by lia.
  apply Z.div_pos; [|apply Z.pow_pos_nonneg; lia].
  pose proof (round53_error (a * m) ltac:(nia)) as He. change (2 ^ 53) with 9007199254740992 in *. nia.
Qed.

Lemma mul_0_95_bounds a : 0 <= a < 2 ^ 53 -> 0 <= mul_0_95 a /\ 20 * mul_0_95 a < 19 * a + 20 /\ mul_0_95 a <= a.
Proof.
  intros Ha. unfold mul_0_95. split; [apply int_mul_float_nonneg; lia|].
  pose proof (int_mul_float_upper a 8556839292003942 53 Ha ltac:(lia) ltac:(lia)) as H.
  change (2 ^ 53) with 9007199254740992 in *. lia.
Qed.

Lemma mul_0_95_exact a : 0 <= a < 2 ^ 48 -> 20 * mul_0_95 a <= 19 * a.
Proof.
  intros Ha. unfold mul_0_95.
  pose proof (int_mul_float_upper a 8556839292003942 53 ltac:(lia) ltac:(lia) ltac:(lia)) as H.
  change (2 ^ 53) with 9007199254740992 in *. lia.
Qed.

Lemma split_99_01 a : 0 <= a < 2 ^ 53 ->
  0 <= mul_0_99 a /\ 0 <= mul_0_01 a /\ mul_0_99 a + mul_0_01 a <= a.
Proof.
  intros Ha. unfold mul_0_99, mul_0_01.
  split; [apply int_mul_float_nonneg; lia|]. split; [apply int_mul_float_nonneg; lia|].
  pose proof (int_mul_float_upper a 8917127262193582 53 Ha ltac:(lia) ltac:(lia)) as H1.
  pose proof (int_mul_float_upper a 5764607523034235 59 Ha ltac:(lia) ltac:(lia)) as H2.
  change (2 ^ 53) with 9007199254740992 in *. change (2 ^ 59) with 576460752303423488 in *. lia.
Qed.

Lemma split_BC A B C : 0 <= A -> 0 < B -> 0 < C ->
  0 <= (A * B) / (B + C) /\ 0 <= (A * C) / (B + C) /\ (A * B) / (B + C) + (A * C) / (B + C) <= A.
Proof.
  intros HA HB HC. split; [apply Z.div_pos; nia|]. split; [apply Z.div_pos; nia|].
  pose proof (Z.div_mod (A * B) (B + C) ltac:(lia)). pose proof (Z.mod_pos_bound (A * B) (B + C) ltac:(lia)).
  pose proof (Z.div_mod (A * C) (B + C) ltac:(lia)). pose proof (Z.mod_pos_bound (A * C) (B + C) ltac:(lia)).
  nia.
Qed.

Lemma alloc_inv long total obj svc thr z :
  allocate_shared_memory long total obj svc thr = inr z ->
  exists o s, requested long (mul_0_95 total) obj svc thr = (o, s) /\
    o <= mul_0_95 total /\ s <= mul_0_95 total /\ o + s <= mul_0_95 total /\
    z = {| object_bytes := o; service_bytes := s;
           service_cells := s / (INFO_SIZE * long) * INFO_SIZE |}.
Proof.
  unfold allocate_shared_memory. destruct (requested _ _ _ _ _) as [o s].
  destruct (mul_0_95 total <? o) eqn:E1; [discriminate|].
  destruct (mul_0_95 total <? s) eqn:E2; [discriminate|].
  destruct (mul_0_95 total <? o + s) eqn:E3; [discriminate|].
  intros H. injection H as <-. exists o, s. repeat split; lia.
Qed.

Lemma fits_95 long total obj svc thr z :
  0 <= total < 2 ^ 53 -> allocate_shared_memory long total obj svc thr = inr z ->
  20 * (object_bytes z + service_bytes z) < 19 * total + 20.
Proof.
  intros Ht H. destruct (alloc_inv _ _ _ _ _ _ H) as (o & s & _ & _ & _ & H3 & ->). cbn [object_bytes service_bytes service_cells].
  pose proof (mul_0_95_bounds total Ht). lia.
Qed.

Lemma fits_95_exact long total obj svc thr z :
  0 <= total < 2 ^ 48 -> allocate_shared_memory long total obj svc thr = inr z ->
  20 * (object_bytes z + service_bytes z) <= 19 * total.
Proof.
  intros Ht H. destruct (alloc_inv _ _ _ _ _ _ H) as (o & s & _ & _ & _ & H3 & ->). cbn [object_bytes service_bytes service_cells].
  pose proof (mul_0_95_exact total Ht). lia.
Qed.

Lemma configured_sizes long total obj svc thr z :
  allocate_shared_memory long total obj svc thr = inr z ->
  (forall o, obj = Some o -> object_bytes z = o) /\ (forall s, svc = Some s -> service_bytes z = s).
Proof.
  intros H. destruct (alloc_inv _ _ _ _ _ _ H) as (o & s & Hr & _ & _ & _ & ->). cbn [object_bytes service_bytes service_cells].
  unfold requested in Hr. destruct obj as [o0|], svc as [s0|]; split; intros ? E; inversion E; subst;
    inversion Hr; reflexivity.
Qed.

Lemma cells_fit long total obj svc thr z :
  0 < long -> allocate_shared_memory long total obj svc thr = inr z ->
  (4 | service_cells z) /\ service_cells z * long <= service_bytes z < (service_cells z + 4) * long.
Proof.
  intros Hl H. destruct (alloc_inv _ _ _ _ _ _ H) as (o & s & _ & _ & _ & _ & ->). cbn [object_bytes service_bytes service_cells].
  split; [now exists (s / (INFO_SIZE * long))|]. unfold INFO_SIZE.
  pose proof (Z.div_mod s (4 * long) ltac:(lia)). pose proof (Z.mod_pos_bound s (4 * long) ltac:(lia)). nia.
Qed.

Lemma nonneg_sizes long total obj svc thr z :
  0 < long -> 0 <= total < 2 ^ 53 ->
  (forall o, obj = Some o -> 0 <= o) -> (forall s, svc = Some s -> 0 <= s) ->
  allocate_shared_memory long total obj svc thr = inr z ->
  0 <= object_bytes z /\ 0 <= service_bytes z /\ 0 <= service_cells z.
Proof.
  intros Hl Ht Ho Hs H. destruct (alloc_inv _ _ _ _ _ _ H) as (o & s & Hr & H1 & H2 & H3 & ->). cbn [object_bytes service_bytes service_cells].
  pose proof (mul_0_95_bounds total Ht) as Hb. 
  assert (G : 0 <= o /\ 0 <= s).
  { unfold requested in Hr. destruct obj as [o0|], svc as [s0|].
    - inversion Hr; subst. split; [now apply Ho | now apply Hs].
    - specialize (Ho o0 eq_refl). apply pair_inj in Hr; destruct Hr as [<- <-]. split; [exact Ho|].
      destruct (0 <? thr) eqn:E; [|lia].
      apply Z.ltb_lt in E. apply Z.min_glb; [lia|]. unfold INFO_SIZE.
      apply Z.mul_nonneg_nonneg; [exact (Z.div_pos o0 thr Ho E) | lia].
    - specialize (Hs s0 eq_refl). apply pair_inj in Hr; destruct Hr as [<- <-]. lia.
    - destruct (99 * (INFO_SIZE * long) <? thr) eqn:E; apply pair_inj in Hr; destruct Hr as [<- <-].
      + unfold INFO_SIZE in *.
        destruct (split_BC (mul_0_95 total) thr (4 * long)) as (G1 & G2 & _); [lia|lia|lia|].
        split; assumption.
      + destruct (split_99_01 (mul_0_95 total)) as (G1 & G2 & _); lia. }
  destruct G as [G1 G2]. split; [exact G1|]. split; [exact G2|].
  unfold INFO_SIZE. apply Z.mul_nonneg_nonneg; [apply Z.div_pos; lia | lia].
Qed.

Lemma defaults_succeed long total thr :
  0 < long -> 0 <= total < 2 ^ 53 ->
  exists z, allocate_shared_memory long total None None thr = inr z.
Proof.
  intros Hl Ht. unfold allocate_shared_memory, requested.
  pose proof (mul_0_95_bounds total Ht) as Hb.
  destruct (99 * (INFO_SIZE * long) <? thr) eqn:E.
  - unfold INFO_SIZE in *.
    destruct (split_BC (mul_0_95 total) thr (4 * long)) as (G1 & G2 & G3); [lia|lia|lia|].
    remember (mul_0_95 total * thr / (thr + 4 * long)) as x.
    remember (mul_0_95 total * (4 * long) / (thr + 4 * long)) as y. clear Heqx Heqy.
    replace (mul_0_95 total <? x) with false by lia.
    replace (mul_0_95 total <? y) with false by lia.
    replace (mul_0_95 total <? x + y) with false by lia.
    eexists; reflexivity.
  - destruct (split_99_01 (mul_0_95 total)) as (G1 & G2 & G3); [lia|].
    replace (mul_0_95 total <? mul_0_99 (mul_0_95 total)) with false by lia.
    replace (mul_0_95 total <? mul_0_01 (mul_0_95 total)) with false by lia.
    replace (mul_0_95 total <? mul_0_99 (mul_0_95 total) + mul_0_01 (mul_0_95 total)) with false by lia.
    eexists; reflexivity.
Qed.

Lemma configured_error_iff long total o s thr :
  0 <= o -> 0 <= s ->
  ((exists e, allocate_shared_memory long total (Some o) (Some s) thr = inl e) <-> mul_0_95 total < o + s).
Proof.
  intros Ho Hs. unfold allocate_shared_memory, requested. split.
  - intros (e & H). destruct (mul_0_95 total <? o) eqn:E1; [lia|].
    destruct (mul_0_95 total <? s) eqn:E2; [lia|].
    destruct (mul_0_95 total <? o + s) eqn:E3; [lia | discriminate].
  - intros H. destruct (mul_0_95 total <? o); [eauto|]. destruct (mul_0_95 total <? s); [eauto|].
    replace (mul_0_95 total <? o + s) with true by lia. eauto.
Qed.

Lemma one_configured_error_iff long total o thr :
  0 < long -> 0 <= total < 2 ^ 53 -> 0 <= o ->
  ((exists e, allocate_shared_memory long total (Some o) None thr = inl e) <-> mul_0_95 total < o) /\
  ((exists e, allocate_shared_memory long total None (Some o) thr = inl e) <-> mul_0_95 total < o).
Proof.
  intros Hl Ht Ho. pose proof (mul_0_95_bounds total Ht) as Hb.
  unfold allocate_shared_memory, requested. split; split.
  - intros (e & H). destruct (mul_0_95 total <? o) eqn:E1; [lia|]. exfalso.
    destruct (0 <? thr) eqn:E0.
    + pose proof (Z.le_min_l (mul_0_95 total - o) (o / thr * (INFO_SIZE * long))).
      match type of H with context [Z.min ?a ?b] => remember (Z.min a b) as mn end.
      replace (mul_0_95 total <? mn) with false in H by lia.
      replace (mul_0_95 total <? o + mn) with false in H by lia. discriminate.
    + replace (mul_0_95 total <? mul_0_95 total - o) with false in H by lia.
      replace (mul_0_95 total <? o + (mul_0_95 total - o)) with false in H by lia. discriminate.
  - intros H. replace (mul_0_95 total <? o) with true by lia. eauto.
  - intros (e & H). destruct (mul_0_95 total <? mul_0_95 total - o) eqn:E1; [lia|].
    destruct (mul_0_95 total <? o) eqn:E2; [lia|].
    replace (mul_0_95 total <? mul_0_95 total - o + o) with false in H by lia. discriminate.
  - intros H. destruct (mul_0_95 total <? mul_0_95 total - o); [eauto|].
    replace (mul_0_95 total <? o) with true by lia. eauto.
Qed.

Lemma div_div_slots A B C : 0 <= A -> 0 < B -> 0 < C ->
  (A * B / (B + C)) / B = A / (B + C) /\ (A * C / (B + C)) / C = A / (B + C).
Proof.
  intros HA HB HC. split.
  - rewrite Z.div_div by lia. rewrite (Z.mul_comm (B + C) B), (Z.mul_comm A B).
    apply Z.div_mul_cancel_l; lia.
  - rewrite Z.div_div by lia. rewrite (Z.mul_comm (B + C) C), (Z.mul_comm A C).
    apply Z.div_mul_cancel_l; lia.
Qed.

(** As many objects of the minimum size as fit in the object memory have a slot. *)
Lemma default_slots_suffice long total thr z :
  0 < long -> 0 <= total < 2 ^ 53 -> 99 * (4 * long) < thr ->
  allocate_shared_memory long total None None thr = inr z ->
  service_cells z = 4 * (object_bytes z / thr).
Proof.
  intros Hl Ht Hthr H. destruct (alloc_inv _ _ _ _ _ _ H) as (o & s & Hr & _ & _ & _ & ->). cbn [object_bytes service_bytes service_cells].
  unfold requested, INFO_SIZE in Hr. replace (99 * (4 * long) <? thr) with true in Hr by lia.
  apply pair_inj in Hr; destruct Hr as [<- <-]. pose proof (mul_0_95_bounds total Ht) as Hb.
  destruct (div_div_slots (mul_0_95 total) thr (4 * long)) as [G1 G2]; [lia|lia|lia|].
  unfold INFO_SIZE. rewrite G1, G2. lia.
Qed.

(** With the 1% split the service buffer can run out first. *)
Lemma small_threshold_slots long total o s thr z :
  0 < long -> 0 < thr ->
  requested long (mul_0_95 total) (Some o) None thr = (o, s) ->
  o + (o / thr) * (4 * long) <= mul_0_95 total -> 0 <= o ->
  allocate_shared_memory long total (Some o) None thr = inr z ->
  service_cells z = 4 * (object_bytes z / thr).
Proof.
  intros Hl Hthr Hr Hfit Ho H. destruct (alloc_inv _ _ _ _ _ _ H) as (o' & s' & Hr' & _ & _ & _ & ->). cbn [object_bytes service_bytes service_cells].
  rewrite Hr in Hr'. injection Hr' as <- <-. unfold requested, INFO_SIZE in *.
  replace (0 <? thr) with true in Hr by lia. apply pair_inj in Hr; destruct Hr as [_ <-].
  rewrite Z.min_r by lia. rewrite Z.div_mul by lia. lia.
Qed.
