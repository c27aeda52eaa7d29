From Coq Require Import Znumtheory.
From Verif Require Import Lib SizingModel SizingProofs RaySizingModel.
Local Open Scope Z_scope.

Lemma round_under j : 0 < j < 2 ^ 47 -> round53 (3 * j * 2 ^ 53 - j) = 3 * j * 2 ^ 53.
Proof.
  intros Hj. set (n := 3 * j * 2 ^ 53 - j).
  assert (Hn : 0 < n) by (unfold n; change (2 ^ 53) with 9007199254740992; lia).
  pose proof (Z.log2_spec n Hn) as [L1 L2].
  assert (Hl : 53 <= Z.log2 n).
  { apply Z.log2_le_pow2; [exact Hn|]. unfold n. change (2 ^ 53) with 9007199254740992. lia. }
  assert (Hu : Z.log2 n < 102).
  { apply Z.log2_lt_pow2; [exact Hn|]. unfold n. change (2 ^ 53) with 9007199254740992.
    change (2 ^ 47) with 140737488355328 in Hj. change (2 ^ 102) with 5070602400912917605986812821504. lia. }
  unfold round53. fold n. rewrite Z.max_r by lia.
  remember (Z.log2 n + 1 - 53) as e eqn:Ee.
  assert (He : 1 <= e <= 50) by lia.
  assert (Hp : 0 < 2 ^ e) by (apply Z.pow_pos_nonneg; lia).
  assert (Hhalf : 2 * j < 2 ^ e).
  { assert (A : n < 2 ^ 53 * 2 ^ e).
    { rewrite <- Z.pow_add_r by lia. replace (53 + e) with (Z.succ (Z.log2 n)) by lia. exact L2. }
    unfold n in A. change (2 ^ 53) with 9007199254740992 in A. lia. }
  assert (Hm : 2 ^ 53 = 2 ^ (53 - e) * 2 ^ e) by (rewrite <- Z.pow_add_r by lia; f_equal; lia).
  set (b := 2 ^ e) in *. set (t := 3 * j * 2 ^ (53 - e)).
  assert (Hn2 : n = (t - 1) * b + (b - j)).
  { unfold n, t. rewrite Hm. ring. }
  assert (Hd : n / b = t - 1) by (rewrite Hn2, Z.div_add_l, Z.div_small by lia; lia).
  assert (Hr : n mod b = b - j) by (rewrite Hn2, Z.add_comm, Z.mod_add, Z.mod_small by lia; lia).
  rewrite Hd, Hr. assert (E : b <? 2 * (b - j) = true) by (apply Z.ltb_lt; lia). rewrite E. cbn [orb].
  unfold t. rewrite Hm. ring.
Qed.

Theorem whole_gigabytes_exact memory : 0 <= memory < 2 ^ 48 ->
  whole_gigabytes memory = 3 * memory / (5 * 10 ^ 9) * 10 ^ 9.
Proof.
  intros H. unfold whole_gigabytes. f_equal. rewrite (round53_small memory) by lia.
  pose proof (Z.div_mod (3 * memory) (5 * 10 ^ 9) ltac:(lia)) as Hd.
  pose proof (Z.mod_pos_bound (3 * memory) (5 * 10 ^ 9) ltac:(lia)) as Hm.
  set (k := 3 * memory / (5 * 10 ^ 9)) in *. set (s := (3 * memory) mod (5 * 10 ^ 9)) in *.
  clearbody k s. symmetry.
  pose proof (round53_error (memory * 5404319552844595) ltac:(lia)) as He.
  destruct (Z.eq_dec s 0) as [Z0|Z0].
  - subst s. destruct (Z.eq_dec memory 0) as [M|M].
    + subst memory. assert (k = 0) by lia. subst k. reflexivity.
    + assert (D : (5 | memory)). { apply Gauss with 3; [exists (10 ^ 9 * k); lia|]. apply Zgcd_1_rel_prime. reflexivity. }
      destruct D as [j Ej].
      replace (memory * 5404319552844595) with (3 * j * 2 ^ 53 - j)
        by (subst memory; change (2 ^ 53) with 9007199254740992; lia).
      rewrite round_under by (change (2 ^ 47) with 140737488355328; change (2 ^ 48) with 281474976710656 in H; lia).
      apply Z.div_unique_exact; [lia|]. change (2 ^ 53) with 9007199254740992. lia.
  - apply (Z.div_unique_pos _ _ _ (round53 (memory * 5404319552844595) - 2 ^ 53 * 10 ^ 9 * k)); [|lia].
    set (x := round53 (memory * 5404319552844595)) in *. clearbody x.
    change (2 ^ 53) with 9007199254740992 in *. change (2 ^ 48) with 281474976710656 in H. lia.
Qed.

Lemma version_ge_zeros b : version_ge [] b = forallb (Nat.eqb 0) b.
Proof. induction b as [|y b IH]; simpl; [reflexivity|]. rewrite IH. destruct y; reflexivity. Qed.

Theorem unset_memory m ray : 0 <= system_memory m < 2 ^ 48 ->
  match object_store_memory None m ray with
  | Some n => 0 < n /\ 5 * n <= 3 * system_memory m /\
      (os m = Mac -> version_ge ray [1; 3; 0]%nat = true -> n <= mac_limit) /\
      ((os m <> Mac \/ version_ge ray [1; 3; 0]%nat = false \/ n < mac_limit) -> 
        (10 ^ 9 | n) /\ 3 * system_memory m < 5 * (n + 10 ^ 9))
  | None => 3 * system_memory m < 5 * 10 ^ 9
  end.
Proof.
  intros H. unfold object_store_memory. rewrite whole_gigabytes_exact by exact H.
  pose proof (Z.div_mod (3 * system_memory m) (5 * 10 ^ 9) ltac:(lia)) as Hd.
  pose proof (Z.mod_pos_bound (3 * system_memory m) (5 * 10 ^ 9) ltac:(lia)) as Hm.
  assert (Hk : 0 <= 3 * system_memory m / (5 * 10 ^ 9)) by (apply Z.div_pos; lia).
  set (k := 3 * system_memory m / (5 * 10 ^ 9)) in *. set (s := (3 * system_memory m) mod (5 * 10 ^ 9)) in *.
  clearbody k s. destruct (k * 10 ^ 9 =? 0) eqn:E.
  - apply Z.eqb_eq in E. lia.
  - apply Z.eqb_neq in E.
    assert (P : 0 < k * 10 ^ 9 /\ 5 * (k * 10 ^ 9) <= 3 * system_memory m /\ (10 ^ 9 | k * 10 ^ 9) /\
                3 * system_memory m < 5 * (k * 10 ^ 9 + 10 ^ 9)).
    { split; [lia|]. split; [lia|]. split; [exists k; reflexivity|lia]. }
    destruct P as (P1 & P2 & P3 & P4).
    destruct (os m) eqn:O.
    + split; [exact P1|]. split; [exact P2|]. split; [discriminate|auto].
    + destruct (version_ge ray [1; 3; 0]%nat) eqn:V.
      * unfold mac_limit in *. split; [lia|]. split; [lia|]. split; [lia|]. intros [A|[A|A]]; [congruence|discriminate|].
        rewrite Z.min_l by lia. auto.
      * split; [exact P1|]. split; [exact P2|]. split; [discriminate|auto].
    + split; [exact P1|]. split; [exact P2|]. split; [discriminate|auto].
Qed.
