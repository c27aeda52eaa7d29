(** Proofs for C77. *)
From Coq Require Import ZArith String DecimalString DecimalNat.
From Verif Require Import Lib ConfigModel SpawnModel SpawnSpec SpawnProofs SupportModel SupportSpec.
From Coq Require Import List.
Import ListNotations.
Local Open Scope list_scope.

Lemma begins_app a y : begins a (a ++ y) = true.
Proof. induction a as [|x a IH]; [reflexivity|]. cbn [app begins]. rewrite Nat.eqb_refl. exact IH. Qed.

Lemma begins_spec a : forall s, begins a s = true -> exists y, s = a ++ y.
Proof.
  induction a as [|x a IH]; intros s H; [exists s; reflexivity|]. destruct s as [|y s]; [discriminate|]. cbn [begins] in H.
  apply andb_prop in H as [E H]. apply Nat.eqb_eq in E. subst y. destruct (IH s H) as [r ->]. exists r. reflexivity.
Qed.

Lemma contains_iff a s : contains a s = true <-> occurs a s.
Proof.
  split.
  - induction s as [|c s IH]; intros H; cbn [contains] in H; apply orb_prop in H as [H | H].
    + destruct (begins_spec a [] H) as [y ->]. exists [], y. reflexivity.
    + discriminate.
    + destruct (begins_spec a _ H) as [y E]. exists [], y. exact E.
    + destruct (IH H) as (x & y & ->). exists (c :: x), y. reflexivity.
  - intros (x & y & ->). induction x as [|c x IH].
    + cbn [app]. destruct (a ++ y) as [|c r] eqn:E; cbn [contains]; rewrite <- E, begins_app; reflexivity.
    + cbn [app contains]. rewrite IH. apply orb_true_r.
Qed.

Lemma splitc_none c s : ~ In c s -> splitc c s = [s].
Proof.
  induction s as [|x s IH]; intros N; [reflexivity|]. cbn [splitc].
  destruct (Nat.eqb_spec x c) as [-> | E]; [exfalso; apply N; left; reflexivity|]. rewrite IH; [reflexivity|]. intros H. apply N. right. exact H.
Qed.

Lemma splitc_app c s r : ~ In c s -> splitc c (s ++ c :: r) = s :: splitc c r.
Proof.
  induction s as [|x s IH]; intros N; cbn [app splitc]; [rewrite Nat.eqb_refl; reflexivity|].
  destruct (Nat.eqb_spec x c) as [-> | E]; [exfalso; apply N; left; reflexivity|]. rewrite IH; [reflexivity|]. intros H. apply N. right. exact H.
Qed.

Lemma splitc_nonempty c s : splitc c s <> [].
Proof. destruct s as [|x s]; cbn [splitc]; [discriminate|]. destruct (Nat.eqb x c); [discriminate|]. destruct (splitc c s); discriminate. Qed.

Lemma splitc_last c a s : ~ In c s -> last (splitc c (a ++ c :: s)) [] = s.
Proof.
  intros N. induction a as [|x a IH]; cbn [app splitc].
  - rewrite Nat.eqb_refl, splitc_none by exact N. reflexivity.
  - destruct (Nat.eqb x c).
    + destruct (splitc c (a ++ c :: s)) as [|w ws] eqn:E; [destruct (splitc_nonempty _ _ E)|]. cbn [last] in *. exact IH.
    + destruct (splitc c (a ++ c :: s)) as [|w ws] eqn:E; [destruct (splitc_nonempty _ _ E)|].
      destruct ws as [|w2 ws]; [|exact IH].
      (* at least two parts *)
      exfalso. clear IH N. revert w E. induction a as [|y a IHa]; intros w E; cbn [app splitc] in E.
      * rewrite Nat.eqb_refl in E. injection E as _ E. exact (splitc_nonempty _ _ E).
      * destruct (Nat.eqb y c); [injection E as _ E; exact (splitc_nonempty _ _ E)|].
        destruct (splitc c (a ++ c :: s)) as [|w' ws'] eqn:E'; [destruct (splitc_nonempty _ _ E')|].
        injection E as _ ->. exact (IHa w' eq_refl).
Qed.

(** Decimal numbers. *)
Lemma codes_digits d : forall c, In c (codes (NilEmpty.string_of_uint d)) -> is_digit c = true.
Proof. induction d; intros c H; cbn in H; [destruct H|..]; destruct H as [<- | H]; auto. Qed.

Lemma number_acc d : forall n,
  fold_left (fun n c => (10 * n + (Z.of_nat c - 48))%Z) (codes (NilEmpty.string_of_uint d)) (Z.of_nat n) = Z.of_nat (Nat.of_uint_acc d n).
Proof.
  induction d; intros n; [reflexivity|..]; cbn [NilEmpty.string_of_uint Nat.of_uint_acc];
    rewrite <- IHd, !Nat.tail_mul_spec; unfold codes; cbn [list_ascii_of_string map fold_left]; f_equal;
    match goal with |- context [Ascii.nat_of_ascii ?a] => let v := eval vm_compute in (Ascii.nat_of_ascii a) in change (Ascii.nat_of_ascii a) with v end; lia.
Qed.

Lemma decimal_number n : number (decimal n) = Z.of_nat n.
Proof. unfold number, decimal. etransitivity; [exact (number_acc (Nat.to_uint n) 0)|]. f_equal. exact (Unsigned.of_to n). Qed.

Lemma decimal_nonempty n : decimal n <> [].
Proof.
  unfold decimal. intros H.
  assert (Nat.to_uint n = Decimal.Nil) as E by (destruct (Nat.to_uint n); [reflexivity|..]; discriminate).
  pose proof (Unsigned.of_to n) as O. rewrite E in O. cbn in O. subst n. discriminate.
Qed.

Lemma decimal_int n : py_int (decimal n) = Some (Z.of_nat n).
Proof.
  unfold py_int. assert (isdigit (decimal n) = true) as ->; [|f_equal; apply decimal_number].
  unfold isdigit. destruct (decimal n) as [|c r] eqn:E; [destruct (decimal_nonempty n E)|]. rewrite <- E. apply forallb_forall.
  intros x Hx. apply (codes_digits _ x Hx).
Qed.

Lemma decimal_chars n c : In c (decimal n) -> 48 <= c <= 57.
Proof. intros H. apply codes_digits in H. unfold is_digit in H. apply andb_prop in H as [A B]. apply Nat.leb_le in A, B. lia. Qed.

Lemma dotted_chars vs : forall c, In c (dotted vs) -> c = 46 \/ 48 <= c <= 57.
Proof.
  induction vs as [|v [|w r] IH]; intros c H; cbn [dotted] in H; [destruct H|right; eapply decimal_chars, H|].
  apply in_app_or in H as [H | [H | H]]; [right; eapply decimal_chars, H|left; congruence|apply IH, H].
Qed.

Lemma dotted_version vs : vs <> [] -> versiontuple (dotted vs) = Some (map Z.of_nat vs).
Proof.
  unfold versiontuple. induction vs as [|v [|w r] IH]; intros N; [congruence|..].
  - cbn [dotted]. rewrite splitc_none by (intros H; apply decimal_chars in H; lia). cbn [ints map]. rewrite decimal_int. reflexivity.
  - change (dotted (v :: w :: r)) with (decimal v ++ 46 :: dotted (w :: r)).
    rewrite splitc_app by (intros H; apply decimal_chars in H; lia). cbn [ints]. rewrite decimal_int, IH by discriminate. reflexivity.
Qed.

(** The version line. *)
Lemma filter_lines (f : text -> bool) (before : list text) (line rest : text) :
  (forall l, In l before -> ~ In 10 l /\ f l = false) -> ~ In 10 line -> f line = true -> (rest = [] \/ exists r, rest = 10 :: r) ->
  exists more, filter f (splitc 10 (flat_map (fun l : text => l ++ [10]) before ++ line ++ rest)) = line :: more.
Proof.
  intros B N F R. induction before as [|b before IH].
  - cbn [flat_map app]. destruct R as [-> | [r ->]].
    + rewrite app_nil_r, splitc_none by exact N. cbn [filter]. rewrite F. eexists; reflexivity.
    + rewrite splitc_app by exact N. cbn [filter]. rewrite F. eexists; reflexivity.
  - cbn [flat_map]. rewrite <- !app_assoc. cbn [app]. destruct (B b (or_introl eq_refl)) as [Nb Fb].
    rewrite splitc_app by exact Nb. cbn [filter]. rewrite Fb. apply IH. intros l Hl. apply B. right. exact Hl.
Qed.

Lemma tabs_dotted vs : tabs (dotted vs) = dotted vs.
Proof.
  unfold tabs. etransitivity; [|apply map_id]. apply map_ext_in. intros c H. apply dotted_chars in H.
  destruct (Nat.eqb_spec c 9); [lia|reflexivity].
Qed.

Lemma check_spec lib vs target : mpich_library lib vs -> vs <> [] ->
  check_mpich_version lib target = match versiontuple target with Some b => Some (tuple_ge (map Z.of_nat vs) b) | None => None end.
Proof.
  intros (before & line & blank & rest & -> & B & N & O & Bl & R) Nv. unfold check_mpich_version.
  assert (forall c, In c (line ++ blank :: dotted vs) -> c <> 10) as N'.
  { intros c H. apply in_app_or in H as [H | [H | H]]; [intros ->; contradiction|lia|apply dotted_chars in H; lia]. }
  destruct (filter_lines (contains (codes "MPICH Version:")) before (line ++ blank :: dotted vs) rest) as [more ->].
  - intros l Hl. destruct (B l Hl) as [A C]. split; [exact A|].
    destruct (contains (codes "MPICH Version:") l) eqn:E; [exfalso; apply C, contains_iff, E|reflexivity].
  - intros H. exact (N' 10 H eq_refl).
  - apply contains_iff. destruct O as (x & y & ->). exists x, (y ++ blank :: dotted vs). rewrite <- !app_assoc. reflexivity.
  - exact R.
  - assert (tabs (line ++ blank :: dotted vs) = tabs line ++ 32 :: dotted vs) as ->.
    { unfold tabs. rewrite map_app. cbn [map]. fold (tabs (dotted vs)). rewrite tabs_dotted. f_equal. f_equal. destruct Bl as [-> | ->]; reflexivity. }
    rewrite splitc_last by (intros H; apply dotted_chars in H; lia). rewrite dotted_version by exact Nv. reflexivity.
Qed.

Lemma target_tuple : versiontuple (codes "4.2.0") = Some [4; 2; 0]%Z.
Proof. reflexivity. Qed.

Lemma tuple_spec vs : vs <> [4; 2] -> (tuple_ge (map Z.of_nat vs) [4; 2; 0]%Z = true <-> at_least_4_2_0 vs).
Proof.
  intros N. unfold at_least_4_2_0. destruct vs as [|a [|b [|d r]]]; cbn [map tuple_ge nth].
  - split; [discriminate|lia].
  - destruct (Z.eqb_spec (Z.of_nat a) 4); [split; [discriminate|lia]|]. rewrite Z.ltb_lt. lia.
  - destruct (Z.eqb_spec (Z.of_nat a) 4).
    + destruct (Z.eqb_spec (Z.of_nat b) 2); [exfalso; apply N; f_equal; [lia|f_equal; lia]|]. rewrite Z.ltb_lt. lia.
    + rewrite Z.ltb_lt. lia.
  - destruct (Z.eqb_spec (Z.of_nat a) 4).
    + destruct (Z.eqb_spec (Z.of_nat b) 2); [|rewrite Z.ltb_lt; lia].
      destruct (Z.eqb_spec (Z.of_nat d) 0); [split; [lia|destruct r; reflexivity]|]. rewrite Z.ltb_lt. lia.
    + rewrite Z.ltb_lt. lia.
Qed.

Lemma occurs_mpich lib vs : mpich_library lib vs -> contains (codes "MPICH") lib = true.
Proof.
  intros (before & line & blank & rest & E & _ & _ & (x & y & L) & _). apply contains_iff.
  assert (codes "MPICH Version:" = codes "MPICH" ++ codes " Version:") as V by reflexivity. rewrite V in L.
  revert L. generalize (codes "MPICH") (codes " Version:"). intros m v L. subst line lib.
  exists (flat_map (fun l : text => l ++ [10]) before ++ x), (v ++ y ++ (blank :: dotted vs) ++ rest).
  rewrite <- !app_assoc. reflexivity.
Qed.

Lemma mpich_exact lib vs shared version spawn : mpich_library lib vs -> vs <> [] -> vs <> [4; 2] ->
  exists b, supported shared version lib spawn = Some b /\
    (b = true <-> shared = true /\ 3 <= version /\ (spawn = true -> at_least_4_2_0 vs)).
Proof.
  intros M N1 N2. unfold supported. destruct shared; cbn [negb]; [|exists false; split; [reflexivity|intuition discriminate]].
  destruct (Nat.ltb_spec version 3); [exists false; split; [reflexivity|]; split; [discriminate|lia]|].
  rewrite (occurs_mpich lib vs M). destruct spawn; cbn [andb].
  - rewrite (check_spec lib vs _ M N1), target_tuple. eexists. split; [reflexivity|]. rewrite tuple_spec by exact N2. tauto.
  - exists true. split; [reflexivity|]. repeat split; auto. discriminate.
Qed.

Lemma other_exact lib shared version spawn : ~ occurs (codes "MPICH") lib ->
  exists b, supported shared version lib spawn = Some b /\ (b = true <-> shared = true /\ 3 <= version).
Proof.
  intros N. unfold supported. destruct shared; cbn [negb]; [|exists false; split; [reflexivity|intuition discriminate]].
  destruct (Nat.ltb_spec version 3); [exists false; split; [reflexivity|]; split; [discriminate|lia]|].
  destruct (contains (codes "MPICH") lib) eqn:E; [exfalso; apply N, contains_iff, E|]. cbn [andb]. exists true. split; [reflexivity|]. tauto.
Qed.

(** Root and spawned process. *)
Lemma supported_values fo cp c e version lib :
  supported_in fo cp c e version lib =
  match snd (cfg_get fo cp c e Shared) with
  | Some (CBool shared) =>
      if negb shared then Some false
      else if Nat.ltb version 3 then Some false
      else if contains (codes "MPICH") lib then
        match snd (cfg_get fo cp c e Spawn) with
        | Some (CBool spawn) => supported shared version lib spawn
        | _ => None
        end
      else Some true
  | _ => None
  end.
Proof.
  unfold supported_in. rewrite cfg_get_other by discriminate. cbn [snd].
  destruct (snd (ConfigModel.get fo (param_of cp Shared) (c Shared) (e (varname Shared)))) as [[| | [] | | |]|]; try reflexivity.
  cbn [negb]. destruct (Nat.ltb version 3); [reflexivity|]. destruct (contains _ lib); [|reflexivity].
  rewrite !cfg_get_other by discriminate. cbn [snd]. rewrite cset_other by discriminate. reflexivity.
Qed.

Lemma agree fo sf rf re ur root_cpus child_cpus e ec us rt root prog version lib :
  repr_contract re ur ->
  program fo sf re root_cpus e (uses fo root_cpus e us) rt = Some (root, prog) ->
  (forall h, value (root Hosts) = Some (CStr h) -> plain h) ->
  (forall f, value (root Backoff) = Some (CFloat f) -> literal_float sf rf f) ->
  (forall l n v, rt = Some l -> In (n, v) l -> plain n /\ plain v) ->
  settled root_cpus child_cpus root (assigned rt ec) Shared ->
  settled root_cpus child_cpus root (assigned rt ec) Spawn ->
  exists child, spawned fo rf ur child_cpus ec prog = Some (child, assigned rt ec) /\
    supported_in fo child_cpus child (assigned rt ec) version lib = supported_in fo root_cpus root e version lib.
Proof.
  intros R P H1 H2 H3 S1 S2.
  destruct (same_values fo sf rf re ur root_cpus child_cpus e ec us rt root prog R P H1 H2 H3) as (child & A & B).
  exists child. split; [exact A|]. rewrite !supported_values.
  destruct (B Shared ltac:(discriminate) S1) as (v & -> & ->). destruct (B Spawn ltac:(discriminate) S2) as (w & -> & ->). reflexivity.
Qed.
