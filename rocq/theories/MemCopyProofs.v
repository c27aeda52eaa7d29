From Verif Require Import Lib MemCopyModel.
From Coq Require Import Permutation ZifyBool ZifyNat.
Local Open Scope Z_scope.
Ltac Zify.zify_post_hook ::= Z.div_mod_to_equations.

Lemma align_down_mod k a : 0 <= k -> align_down (2 ^ k) a = a - a mod 2 ^ k.
Proof.
  intros Hk. unfold align_down.
  replace (2 ^ k - 1) with (Z.ones k) by (rewrite Z.ones_equiv; lia).
  rewrite <- Z.ldiff_land, Z.ldiff_ones_r by lia.
  rewrite Z.shiftl_mul_pow2, Z.shiftr_div_pow2 by lia.
  assert (0 < 2 ^ k) by (apply Z.pow_pos_nonneg; lia).
  pose proof (Z.div_mod a (2 ^ k)). lia.
Qed.

Lemma memcpy_in d s n x y : In (x, y) (memcpy_bytes d s n) <-> d <= x < d + n /\ y = s + (x - d).
Proof.
  unfold memcpy_bytes. rewrite in_map_iff. split.
  - intros (k & E & Hk). apply in_seq in Hk. injection E as <- <-. lia.
  - intros [H ->]. exists (Z.to_nat (x - d)). split; [f_equal; lia|]. apply in_seq. lia.
Qed.

Lemma run_copies_spec src_mem off l : forall m x,
  (forall d s, In (d, s) l -> s = off + d) ->
  run_copies src_mem m l x =
  if existsb (fun c => fst c =? x) l then src_mem (off + x) else m x.
Proof.
  induction l as [|[d s] l IH]; intros m x H; simpl; [reflexivity|].
  rewrite IH by (intros; apply H; now right).
  rewrite (H d s (or_introl eq_refl)).
  destruct (existsb (fun c => fst c =? x) l) eqn:E; simpl.
  - now rewrite orb_true_r.
  - rewrite orb_false_r. rewrite (Z.eqb_sym d x). destruct (Z.eqb_spec x d); [now subst | reflexivity].
Qed.

(** The layout is right whenever an aligned address lies inside the source. *)
Lemma exact_copy dst src nbytes k threads src_mem m l :
  0 <= k <= 32 -> 0 <= nbytes -> 0 <= src -> src + nbytes + 2 ^ k < 2 ^ 63 -> 0 < threads < 2 ^ 31 ->
  (exists a, src <= a <= src + nbytes /\ (2 ^ k | a)) ->
  exists copies, parallel_memcopy dst src nbytes (2 ^ k) threads = Some copies /\
    (Permutation l copies ->
     forall x, run_copies src_mem m l x =
       if (dst <=? x) && (x <? dst + nbytes) then src_mem (src + (x - dst)) else m x).
Proof.
  intros Hk Hn Hs Hmax Ht (a & Ha & (c & Hc)).
  assert (Hb : 0 < 2 ^ k) by (apply Z.pow_pos_nonneg; lia).
  unfold parallel_memcopy. rewrite !align_down_mod by lia.
  remember (2 ^ k) as b eqn:Eb.
  remember (src + b - 1 - (src + b - 1) mod b) as left eqn:El.
  remember (src + nbytes - (src + nbytes) mod b) as right eqn:Er.
  assert (Hl : exists q, left = q * b /\ src <= left < src + b).
  { exists ((src + b - 1) / b). pose proof (Z.div_mod (src + b - 1) b). 
    pose proof (Z.mod_pos_bound (src + b - 1) b Hb). nia. }
  destruct Hl as (ql & Hql & Hlb).
  assert (Hr : exists q, right = q * b /\ src + nbytes - b < right <= src + nbytes).
  { exists ((src + nbytes) / b). pose proof (Z.div_mod (src + nbytes) b).
    pose proof (Z.mod_pos_bound (src + nbytes) b Hb). nia. }
  destruct Hr as (qr & Hqr & Hrb).
  assert (Hle : ql <= qr). { assert (ql <= c) by nia. assert (c <= qr) by nia. lia. }
  clear El Er Eb.
  assert (Hnb : (right - left) mod 2 ^ 64 / b = qr - ql).
  { rewrite Z.mod_small by (rewrite Hql, Hqr; split; [nia|]; nia).
    replace (right - left) with ((qr - ql) * b) by nia. apply Z.div_mul. lia. }
  rewrite Hnb. rewrite Z.rem_mod_nonneg by lia.
  remember ((qr - ql) mod threads) as rm eqn:Erm.
  assert (Hrm : 0 <= rm < threads) by (subst rm; apply Z.mod_pos_bound; lia).
  assert (Hdiv : exists t, qr - ql = t * threads + rm /\ 0 <= t).
  { exists ((qr - ql) / threads). pose proof (Z.div_mod (qr - ql) threads). 
    split; [lia|]. apply Z.div_pos; lia. }
  destruct Hdiv as (t & Ht1 & Ht2). clear Erm.
  assert (Hrl : right - rm * b - left = t * b * threads).
  { rewrite Hql, Hqr. replace (qr * b - rm * b - ql * b) with ((qr - ql - rm) * b) by ring.
    rewrite Ht1. ring. }
  rewrite Hrl. rewrite Z.quot_mul by lia.
  assert (Hch : 0 <= t * b) by nia.
  assert (Hsuf : 0 <= src + nbytes - (right - rm * b)) by nia.
  replace (t * b <? 0) with false by (symmetry; apply Z.ltb_ge; lia).
  replace (left - src <? 0) with false by (symmetry; apply Z.ltb_ge; lia).
  replace (src + nbytes - (right - rm * b) <? 0) with false by (symmetry; apply Z.ltb_ge; lia).
  cbn [orb]. eexists. split; [reflexivity|]. intros Hp x.
  remember (t * b) as ch eqn:Ech. clear Ech Ht1 Ht2 Hnb.
  remember (right - rm * b) as right' eqn:Er'. clear Er'.
  assert (Hin : forall d s, In (d, s) l <-> dst <= d < dst + nbytes /\ s = (src - dst) + d).
  { intros d s. rewrite (Permutation_in' eq_refl Hp).
    rewrite !in_app_iff, !memcpy_in, in_concat. split.
    - intros [(seg & Hseg & Hd)|[H|H]]; [|lia|nia].
      apply in_map_iff in Hseg. destruct Hseg as (i & <- & Hi). apply in_seq in Hi.
      apply memcpy_in in Hd. nia.
    - intros [H ->].
      destruct (Z_lt_dec d (dst + (left - src))) as [H1|H1]; [right; left; lia|].
      destruct (Z_lt_dec d (dst + (left - src) + threads * ch)) as [H2|H2]; [|right; right; nia].
      left. assert (Hc0 : 0 < ch) by nia.
      pose (i := (d - (dst + (left - src))) / ch).
      pose proof (Z.div_mod (d - (dst + (left - src))) ch).
      pose proof (Z.mod_pos_bound (d - (dst + (left - src))) ch Hc0).
      fold i in H0. assert (0 <= i < threads) by nia.
      eexists. split.
      + apply in_map_iff. exists (Z.to_nat i). split; [reflexivity|]. apply in_seq. lia.
      + apply memcpy_in. rewrite Z2Nat.id by lia. nia. }
  rewrite (run_copies_spec src_mem (src - dst)) by (intros d s H; apply Hin in H; lia).
  replace (src + (x - dst)) with (src - dst + x) by lia.
  assert (Hex : existsb (fun c0 => fst c0 =? x) l = (dst <=? x) && (x <? dst + nbytes)).
  { apply eq_true_iff_eq. rewrite existsb_exists, andb_true_iff, Z.leb_le, Z.ltb_lt. split.
    - intros ([d s] & Hds & E). apply Hin in Hds. simpl in E. lia.
    - intros H. exists (x, src - dst + x). split; [apply Hin; lia | simpl; apply Z.eqb_refl]. }
  now rewrite Hex.
Qed.

Lemma long_enough src nbytes k : 0 <= k -> 2 ^ k - 1 <= nbytes ->
  exists a, src <= a <= src + nbytes /\ (2 ^ k | a).
Proof.
  intros Hk Hn. assert (Hb : 0 < 2 ^ k) by (apply Z.pow_pos_nonneg; lia).
  exists ((src + 2 ^ k - 1) / 2 ^ k * 2 ^ k). split; [|now exists ((src + 2 ^ k - 1) / 2 ^ k)].
  pose proof (Z.div_mod (src + 2 ^ k - 1) (2 ^ k)).
  pose proof (Z.mod_pos_bound (src + 2 ^ k - 1) (2 ^ k) Hb). nia.
Qed.

(** The call the code makes: block size 64, six threads. *)
Lemma small_unaligned dst src nbytes :
  0 <= src -> 0 <= nbytes -> src + nbytes + 64 < 2 ^ 63 ->
  (forall a, src <= a <= src + nbytes -> ~ (64 | a)) ->
  parallel_memcopy dst src nbytes 64 6 = None.
Proof.
  intros Hs Hn Hmax Hno. unfold parallel_memcopy.
  assert (G0 : forall a, align_down 64 a = a - a mod 64) by (intros a; apply (align_down_mod 6); lia).
  rewrite !G0. clear G0.
  assert (Hlt : (src + 64 - 1 - (src + 64 - 1) mod 64) = (src + nbytes - (src + nbytes) mod 64) + 64).
  { assert (G : (src + nbytes) / 64 = src / 64 /\ src mod 64 <> 0).
    { split.
      - destruct (Z_lt_dec (src / 64) ((src + nbytes) / 64)) as [H|H].
        + exfalso. apply (Hno ((src + nbytes) / 64 * 64)); [lia | now exists ((src + nbytes) / 64)].
        + lia.
      - intros H. apply (Hno src); [lia|]. exists (src / 64). lia. }
    lia. }
  rewrite Hlt. remember (src + nbytes - (src + nbytes) mod 64) as right eqn:Er.
  replace (right - (right + 64)) with (-64) by lia.
  change ((-64) mod 2 ^ 64 / 64) with (2 ^ 58 - 1). change (Z.rem (2 ^ 58 - 1) 6) with 3.
  replace (right - 3 * 64 - (right + 64)) with (-256) by lia.
  reflexivity.
Qed.
