(** C49 *)
From Coq Require Import ZArith String.
From Verif Require Import Lib ConfigModel ConfigSpec.
Local Open Scope list_scope.
Local Open Scope nat_scope.

Section Proofs.
Variable float_of : text -> option nat.
Variable p : param.

Notation get := (get float_of p). Notation put := (put float_of p).
Notation get_value_source := (get_value_source float_of p).
Notation crun := (crun float_of p). Notation cstep := (cstep float_of p).
Notation current := (current float_of p). Notation last_put := (last_put float_of p).
Notation first_value := (first_value float_of p). Notation first_read := (first_read float_of p).
Notation accepts := (accepts float_of p).

Definition holds (x : option (cval * source)) : pstate :=
  match x with None => fresh | Some (v, s) => mkPState (Some v) (Some s) end.

Definition checked (x : option (cval * source)) : option cval :=
  match x with None => None | Some (v, _) => if allowed p v then Some v else None end.

Lemma get_holds : forall x env, get (holds x) env =
  let y := match x with Some _ => x | None => first_read env end in (holds y, checked y).
Proof.
  intros [[v s]|] env; unfold ConfigModel.get; simpl.
  - destruct (allowed p v); reflexivity.
  - unfold ConfigSpec.first_read. destruct env as [raw|].
    + destruct (verify (ptype_of p) (CStr raw)); [|reflexivity].
      destruct (decode float_of (ptype_of p) raw) as [v|]; simpl; [|reflexivity]. destruct (allowed p v); reflexivity.
    + destruct (default p) as [d|]; simpl; [|reflexivity]. destruct (allowed p d); reflexivity.
Qed.

Lemma put_holds : forall x v, put (holds x) v =
  match accepts v with Some w => (holds (Some (w, SET_BY_USER)), true) | None => (holds x, false) end.
Proof.
  intros x v. unfold ConfigModel.put, ConfigSpec.accepts. destruct (verify (ptype_of p) v); [|reflexivity].
  destruct (normalize float_of (ptype_of p) v); reflexivity.
Qed.

Lemma source_holds : forall x env, get_value_source (holds x) env =
  match x with
  | Some (_, s) => (holds x, Some s)
  | None => (holds (first_read env), match checked (first_read env) with None => None | Some _ => option_map snd (first_read env) end)
  end.
Proof.
  intros [[v s]|] env; [reflexivity|]. unfold ConfigModel.get_value_source. cbn [holds value_source fresh].
  change fresh with (holds None). rewrite get_holds. cbv zeta.
  destruct (first_read env) as [[v s]|]; simpl; [|reflexivity]. destruct (allowed p v); reflexivity.
Qed.

Lemma crun_app : forall a b st, crun st (a ++ b) =
  let (st1, l1) := crun st a in let (st2, l2) := crun st1 b in (st2, l1 ++ l2).
Proof.
  induction a as [|o a IH]; intros b st; simpl.
  - destruct (crun st b). reflexivity.
  - destruct (cstep st o) as [st1 x]. rewrite IH. destruct (crun st1 a) as [st2 l1]. destruct (crun st2 b). reflexivity.
Qed.

Lemma last_put_snoc : forall os o, last_put (os ++ [o]) =
  match o with OPut v => match accepts v with Some w => Some w | None => last_put os end | _ => last_put os end.
Proof. intros os o. unfold ConfigSpec.last_put. rewrite fold_left_app. destruct o; reflexivity. Qed.

Lemma first_value_snoc : forall os o, first_value (os ++ [o]) =
  match first_value os with
  | Some x => Some x
  | None => match o with OGet env | OSource env => first_read env | OPut _ => None end
  end.
Proof.
  induction os as [|a os IH]; intros o; simpl.
  - destruct o; try reflexivity; destruct (first_read env); reflexivity.
  - destruct a; try apply IH; destruct (first_read env); auto.
Qed.

Lemma run_holds : forall os, fst (crun fresh os) = holds (current os).
Proof.
  induction os as [|o os IH] using rev_ind; [reflexivity|].
  rewrite crun_app. destruct (crun fresh os) as [st l]. simpl in IH. subst st.
  unfold ConfigSpec.current. rewrite last_put_snoc, first_value_snoc. simpl.
  destruct o as [env|v|env]; simpl.
  - rewrite get_holds. cbv zeta. simpl. unfold ConfigSpec.current. destruct (last_put os); auto.
    destruct (first_value os); reflexivity.
  - rewrite put_holds. unfold ConfigSpec.current. destruct (accepts v); simpl; auto.
    destruct (last_put os); auto. destruct (first_value os); reflexivity.
  - rewrite source_holds. unfold ConfigSpec.current. destruct (last_put os); auto.
    destruct (first_value os) as [[v s]|]; reflexivity.
Qed.

Lemma run_last : forall os o, exists l, snd (crun fresh (os ++ [o])) = l ++ [snd (cstep (holds (current os)) o)].
Proof.
  intros os o. rewrite crun_app. pose proof (run_holds os) as E. destruct (crun fresh os) as [st l]. simpl in E. subst st.
  simpl. destruct (cstep (holds (current os)) o) as [st2 a]. simpl. eauto.
Qed.

Lemma in_permitted : forall v, allowed p v = true <-> permitted p v.
Proof.
  intros v. unfold allowed, permitted. destruct (choices p) as [l|]; [|tauto].
  assert (A : forall s, among s l = true <-> In s l).
  { intros s. unfold among. rewrite existsb_exists. unfold text_eqb. split.
    - intros (x & I & E). destruct (list_eq_dec Nat.eq_dec s x); [now subst|discriminate].
    - intros I. exists s. split; auto. destruct (list_eq_dec Nat.eq_dec s s); auto. }
  destruct v; split; try discriminate; try (intros (s' & E & _); discriminate).
  - intros H. exists s. split; auto. apply A. auto.
  - intros (s' & E & I). inversion E. subst. apply A. auto.
Qed.

(** What a get answers after any history. *)
Lemma get_answers : forall os env a l, snd (crun fresh (os ++ [OGet env])) = l ++ [Value a] ->
  match current (os ++ [OGet env]) with
  | Some (v, _) => (permitted p v -> a = Some v) /\ (~ permitted p v -> a = None)
  | None => a = None
  end.
Proof.
  intros os env a l H. destruct (run_last os (OGet env)) as (l' & E). rewrite E in H.
  apply app_inj_tail in H. destruct H as [_ H]. simpl in H. rewrite get_holds in H. cbv zeta in H. cbn [snd] in H.
  inversion H as [H1]. clear H E.
  assert (C : current (os ++ [OGet env]) = match current os with Some _ => current os | None => first_read env end).
  { unfold ConfigSpec.current. rewrite last_put_snoc, first_value_snoc. destruct (last_put os); auto.
    destruct (first_value os); auto. }
  rewrite C. destruct (match current os with Some _ => current os | None => first_read env end) as [[v s]|]; auto.
  simpl. destruct (allowed p v) eqn:A; split; intros P; auto.
  - exfalso. apply P. apply in_permitted. auto.
  - apply in_permitted in P. congruence.
Qed.

Lemma source_answers : forall os env a l, snd (crun fresh (os ++ [OSource env])) = l ++ [Source a] ->
  match current (os ++ [OSource env]) with
  | Some (v, s) => (permitted p v -> a = Some s) /\ (a = Some s \/ a = None)
  | None => a = None
  end.
Proof.
  intros os env a l H. destruct (run_last os (OSource env)) as (l' & E). rewrite E in H.
  apply app_inj_tail in H. destruct H as [_ H]. simpl in H. rewrite source_holds in H.
  assert (C : current (os ++ [OSource env]) = match current os with Some _ => current os | None => first_read env end).
  { unfold ConfigSpec.current. rewrite last_put_snoc, first_value_snoc. destruct (last_put os); auto.
    destruct (first_value os); auto. }
  rewrite C. clear C E. destruct (current os) as [[v s]|].
  - inversion H. auto.
  - inversion H as [H1]. clear H. destruct (first_read env) as [[v s]|]; simpl; auto.
    destruct (allowed p v) eqn:A; simpl.
    + auto.
    + split; auto. intros P. apply in_permitted in P. congruence.
Qed.

Lemma put_answers : forall os v a l, snd (crun fresh (os ++ [OPut v])) = l ++ [Put a] ->
  (a = true <-> exists w, accepts v = Some w) /\
  (a = false -> forall env, get (fst (crun fresh (os ++ [OPut v]))) env = get (fst (crun fresh os)) env).
Proof.
  intros os v a l H. destruct (run_last os (OPut v)) as (l' & E). rewrite E in H.
  apply app_inj_tail in H. destruct H as [_ H]. simpl in H. rewrite put_holds in H. rewrite !run_holds.
  unfold ConfigSpec.current. rewrite last_put_snoc, first_value_snoc.
  destruct (accepts v) as [w|]; simpl in H; inversion H; subst; split.
  - split; eauto.
  - discriminate.
  - split; [discriminate|]. intros (w & X). discriminate.
  - intros _ env. destruct (last_put os); auto. destruct (first_value os); auto.
Qed.
End Proofs.

(** Texts. *)
Lemma space_white : forall c, is_space c = true <-> white c.
Proof.
  intros c. unfold is_space, white. rewrite orb_true_iff, !andb_true_iff, !Nat.leb_le. simpl. lia.
Qed.

Lemma space_not : forall c, ~ white c -> is_space c = false.
Proof. intros c N. destruct (is_space c) eqn:E; auto. apply space_white in E. contradiction. Qed.

Lemma lstrip_blank : forall a s, blank a -> lstrip (a ++ s) = lstrip s.
Proof.
  induction a as [|c a IH]; intros s B; simpl; auto. rewrite (proj2 (space_white c)) by (apply B; simpl; auto). apply IH.
  intros x I. apply B. simpl. auto.
Qed.

Lemma lstrip_all : forall b, blank b -> lstrip b = [].
Proof. intros b B. rewrite <- (app_nil_r b). rewrite lstrip_blank by auto. reflexivity. Qed.

Lemma blank_rev : forall b, blank b -> blank (rev b).
Proof. intros b B x I. apply in_rev in I. auto. Qed.

Lemma strip_padded : forall s t, padded s t -> strip s = t.
Proof.
  intros s t (a & b & -> & A & B & H & L). unfold strip. rewrite lstrip_blank by auto. destruct t as [|c t].
  - simpl. rewrite (lstrip_all b B). reflexivity.
  - assert (E : lstrip ((c :: t) ++ b) = (c :: t) ++ b) by (simpl; rewrite (space_not c); [reflexivity|eapply H; reflexivity]).
    rewrite E, rev_app_distr, lstrip_blank by (apply blank_rev; auto).
    destruct (rev (c :: t)) as [|x r] eqn:R.
    + apply (f_equal (@rev nat)) in R. rewrite rev_involutive in R. discriminate.
    + simpl. rewrite (space_not x).
      * rewrite <- R, rev_involutive. reflexivity.
      * apply (L x (rev r)). apply (f_equal (@rev nat)) in R. rewrite rev_involutive in R. simpl in R. exact R.
Qed.

Lemma lstrip_pad : forall s, exists a, s = a ++ lstrip s /\ blank a /\ (forall c r, lstrip s = c :: r -> ~ white c).
Proof.
  induction s as [|c s (a & E & B & N)]; [exists []; split; auto; split; [intros x []|discriminate]|]. simpl. destruct (is_space c) eqn:S.
  - exists (c :: a). split; [simpl; congruence|]. split; auto. intros x [<-|I]; auto. apply space_white. auto.
  - exists []. split; auto. split; [intros x []|]. intros c0 r X. injection X as <- <-. intros W. apply space_white in W. congruence.
Qed.

Lemma padded_strip : forall s, padded s (strip s).
Proof.
  intros s. unfold strip. destruct (lstrip_pad s) as (a & E & A & N). destruct (lstrip_pad (rev (lstrip s))) as (b & F & B & M).
  set (u := lstrip s) in *. set (v := lstrip (rev u)) in *. assert (U : u = rev v ++ rev b).
  { rewrite <- rev_app_distr, <- F, rev_involutive. reflexivity. }
  exists a, (rev b). split; [congruence|]. split; auto. split; [apply blank_rev; auto|]. split.
  - intros c r X. apply (N c (r ++ rev b)). rewrite U, X. reflexivity.
  - intros c r X. apply (M c (rev r)). apply (f_equal (@rev nat)) in X. rewrite rev_involutive, rev_app_distr in X. exact X.
Qed.

Lemma padded_around : forall a s b, blank a -> blank b -> (forall c, In c s -> ~ white c) -> padded (a ++ s ++ b) s.
Proof.
  intros a s b A B N. exists a, b. split; auto. split; auto. split; auto. split.
  - intros c r ->. apply N. simpl. auto.
  - intros c r ->. apply N. apply in_or_app. simpl. auto.
Qed.

Lemma lower_small : forall t w, in_small t w <-> lower t = w.
Proof.
  assert (O : forall c c', small_of c c' <-> lower1 c = c').
  { intros c c'. unfold small_of, lower1. destruct (Nat.leb 65 c && Nat.leb c 90) eqn:E.
    - apply andb_true_iff in E as [E1 E2]. apply Nat.leb_le in E1, E2. split; [intros [[_ ->]|[X _]]; auto; lia|intros <-; left; auto].
    - apply andb_false_iff in E. rewrite !Nat.leb_gt in E. split; [intros [[X _]|[_ ->]]; auto; lia|intros <-; right; split; auto; lia]. }
  intros t w. unfold in_small, lower. split.
  - induction 1 as [|c c' t w S _ IH]; simpl; auto. f_equal; auto. apply O. auto.
  - intros <-. induction t as [|c t IH]; simpl; constructor; auto. apply O. reflexivity.
Qed.

Lemma number_weight : forall s, number s = weight s.
Proof.
  intros s. unfold number.
  assert (A : forall s n, fold_left (fun n c => (10 * n + (Z.of_nat c - 48))%Z) s n = (n * 10 ^ Z.of_nat (List.length s) + weight s)%Z).
  { clear. induction s as [|c s IH]; intros n.
    - simpl. lia.
    - cbn [fold_left weight length]. rewrite IH.
      rewrite Nat2Z.inj_succ, Z.pow_succ_r by lia. generalize (10 ^ Z.of_nat (List.length s))%Z. intros. ring. }
  rewrite A. simpl. reflexivity.
Qed.

Lemma digits_nospace : forall s, digits s -> (forall c, In c s -> ~ white c) /\ isdigit s = true.
Proof.
  intros s (NE & D). split.
  - intros c I. specialize (D c I). unfold white. simpl. lia.
  - unfold isdigit. destruct s as [|c s]; [contradiction|]. apply forallb_forall. intros x I. specialize (D x I).
    unfold is_digit. apply andb_true_iff. split; apply Nat.leb_le; lia.
Qed.

Lemma int_text : forall (fo : text -> option nat) choices default a s b, blank a -> digits s -> blank b ->
  let p := mkParam TInt choices default in
  accepts fo p (CStr (a ++ s ++ b)) = Some (CInt (weight s)) /\
  first_read fo p (Some (a ++ s ++ b)) = Some (CInt (weight s), GOT_FROM_CFG_SOURCE).
Proof.
  intros fo ch de a s b A D B p. destruct (digits_nospace s D) as [N I].
  unfold accepts, first_read. simpl. rewrite (strip_padded _ s) by (apply padded_around; auto). rewrite I. simpl. rewrite number_weight. auto.
Qed.

Lemma int_refuses : forall (fo : text -> option nat) choices default v, let p := mkParam TInt choices default in
  accepts fo p v = None <->
  match v with
  | CInt _ | CBool _ => False
  | CStr s => forall t, padded s t -> ~ digits t
  | _ => True
  end.
Proof.
  intros fo ch de v. destruct v; unfold accepts; simpl; try tauto; try (split; [discriminate|tauto]).
  split.
  - intros H t P D. destruct (digits_nospace _ D) as [_ I]. rewrite (strip_padded _ _ P), I in H. discriminate.
  - intros N. destruct (isdigit (strip s)) eqn:I; auto. exfalso. apply (N _ (padded_strip s)). unfold isdigit in I.
    destruct (strip s) as [|c r]; [discriminate|]. split; [discriminate|]. intros x J.
    rewrite forallb_forall in I. specialize (I x J). unfold is_digit in I. apply andb_true_iff in I.
    destruct I as [I1 I2]. apply Nat.leb_le in I1, I2. lia.
Qed.

Lemma among_In : forall s l, among s l = true <-> In s l.
Proof.
  intros s l. unfold among. rewrite existsb_exists. unfold text_eqb. split.
  - intros (x & I & E). destruct (list_eq_dec Nat.eq_dec s x); [now subst|discriminate].
  - intros I. exists s. split; auto. destruct (list_eq_dec Nat.eq_dec s s); auto.
Qed.

Lemma bool_text : forall (fo : text -> option nat) choices default s, let p := mkParam TBool choices default in
  exists t w, padded s t /\ in_small t w /\ first_read fo p (Some s) =
  (if among w (map chars ["true"; "yes"; "1"]%string) then Some (CBool true, GOT_FROM_CFG_SOURCE)
   else if among w (map chars ["false"; "no"; "0"]%string) then Some (CBool false, GOT_FROM_CFG_SOURCE)
   else None).
Proof.
  intros fo ch de s p. exists (strip s), (lower (strip s)). split; [apply padded_strip|]. split; [apply lower_small; reflexivity|].
  change (map chars ["true"; "yes"; "1"]%string) with [t_true; t_yes; t_1]. change (map chars ["false"; "no"; "0"]%string) with [t_false; t_no; t_0].
  unfold first_read. simpl. set (w := lower (strip s)).
  unfold among. simpl.
  destruct (text_eqb w t_true), (text_eqb w t_yes), (text_eqb w t_1), (text_eqb w t_false), (text_eqb w t_no),
    (text_eqb w t_0); reflexivity.
Qed.

Lemma bool_words : forall (fo : text -> option nat) choices default s t w, padded s t -> in_small t w ->
  let p := mkParam TBool choices default in
  (In w (map chars ["true"; "yes"; "1"]%string) -> first_read fo p (Some s) = Some (CBool true, GOT_FROM_CFG_SOURCE)) /\
  (In w (map chars ["false"; "no"; "0"]%string) -> first_read fo p (Some s) = Some (CBool false, GOT_FROM_CFG_SOURCE)) /\
  (~ In w (map chars ["true"; "yes"; "1"; "false"; "no"; "0"]%string) -> first_read fo p (Some s) = None).
Proof.
  intros fo ch de s t w P L p. destruct (bool_text fo ch de s) as (t' & w' & P' & L' & E). fold p in E.
  apply strip_padded in P, P'. apply lower_small in L, L'. assert (Z : w' = w) by congruence. rewrite Z in E. clear Z L'. rewrite E.
  assert (A := among_In w (map chars ["true"; "yes"; "1"]%string)). assert (B := among_In w (map chars ["false"; "no"; "0"]%string)).
  destruct (among w (map chars ["true"; "yes"; "1"]%string)); [|destruct (among w (map chars ["false"; "no"; "0"]%string))].
  - split; auto. split; [|intros N; exfalso; apply N; destruct A as [A _]; specialize (A eq_refl); simpl in *; tauto].
    destruct A as [A _]. specialize (A eq_refl). intros I. exfalso.
    destruct A as [<-|[<-|[<-|[]]]]; destruct I as [I|[I|[I|[]]]]; discriminate I.
  - split; [intros I; apply A in I; discriminate|]. split; auto. intros N. exfalso. apply N. destruct B as [B _]. specialize (B eq_refl). simpl in *. tauto.
  - split; [intros I; apply A in I; discriminate|]. split; [intros I; apply B in I; discriminate|auto].
Qed.

Lemma every_text : forall s, exists t w, padded s t /\ in_small t w.
Proof. intros s. exists (strip s), (lower (strip s)). split; [apply padded_strip|apply lower_small; reflexivity]. Qed.

Lemma str_text : forall (fo : text -> option nat) choices default s t w, padded s t -> in_small t w ->
  let p := mkParam TStr choices default in
  accepts fo p (CStr s) = Some (CStr w) /\ first_read fo p (Some s) = Some (CStr w, GOT_FROM_CFG_SOURCE).
Proof. intros fo ch de s t w P L p. apply strip_padded in P. apply lower_small in L. subst. split; reflexivity. Qed.

Lemma exact_text : forall (fo : text -> option nat) choices default s, let p := mkParam TExactStr choices default in
  accepts fo p (CStr s) = Some (CStr s) /\ first_read fo p (Some s) = Some (CStr s, GOT_FROM_CFG_SOURCE).
Proof. intros. split; reflexivity. Qed.

Lemma float_text : forall (fo : text -> option nat) choices default s t, padded s t -> t <> [] -> (forall c, In c t -> 48 <= c <= 57 \/ c = 46) ->
  (exists c, In c t /\ c <> 46) -> let p := mkParam TFloat choices default in
  accepts fo p (CStr s) = option_map CFloat (fo t) /\ first_read fo p (Some s) = option_map (fun x => (CFloat x, GOT_FROM_CFG_SOURCE)) (fo t).
Proof.
  intros fo ch de s t P N D (c & I & Nc) p. apply strip_padded in P. unfold accepts, first_read. simpl. rewrite P.
  assert (E : isdigit (filter (fun c => negb (Nat.eqb c 46)) t) = true).
  { unfold isdigit. destruct (filter (fun c => negb (Nat.eqb c 46)) t) as [|x r] eqn:F.
    - assert (Z : In c (filter (fun c => negb (Nat.eqb c 46)) t)) by (apply filter_In; split; auto; apply negb_true_iff, Nat.eqb_neq; auto). rewrite F in Z. destruct Z.
    - apply forallb_forall. intros y Y. rewrite <- F in Y. apply filter_In in Y as [Y1 Y2]. apply negb_true_iff, Nat.eqb_neq in Y2. destruct (D y Y1) as [Z|Z]; [|contradiction].
      unfold is_digit. apply andb_true_iff. split; apply Nat.leb_le; lia. }
  rewrite E. split; auto. destruct (fo t); reflexivity.
Qed.

(** A value outside the choices is stored all the same. *)
Lemma outside_choices : forall fo l d s t w, padded s t -> in_small t w -> ~ In w l ->
  let p := mkParam TStr (Some l) d in
  exists st, put fo p fresh (CStr s) = (st, true) /\ forall env, get fo p st env = (st, None).
Proof.
  intros fo l d s t w P L N p. apply strip_padded in P. apply lower_small in L. subst. eexists. split; [reflexivity|]. intros env. unfold get. simpl. unfold allowed. simpl.
  destruct (among (lower (strip s)) l) eqn:A; auto. apply among_In in A. contradiction.
Qed.

(** put("false") means True. *)
Lemma false_is_true : forall fo d, put fo (mkParam TBool None d) fresh (CStr t_false) =
  (mkPState (Some (CBool true)) (Some SET_BY_USER), true).
Proof. reflexivity. Qed.

(** The environment is read once. *)
Lemma env_cached : forall fo p env v st env', get fo p fresh env = (st, Some v) ->
  get fo p st env' = (st, Some v).
Proof.
  intros fo p env v st env' H. change fresh with (holds None) in H. rewrite get_holds in H. cbv zeta in H.
  apply pair_inj in H as [<- H]. destruct (first_read fo p env) as [[w s]|]; [|discriminate].
  rewrite get_holds. cbv zeta. now rewrite H.
Qed.

(** MpiPickleThreshold *)
Lemma pickle_threshold : forall fo shared thr p st env os,
  let '(s1, s2, s3) := st in let '(e1, e2, e3) := env in
  s2 = fst (crun fo thr fresh os) ->
  let '((s1', s2', s3'), a) := pickle_get fo shared thr p st env in
  match get fo shared s1 e1 with
  | (_, Some (CBool true)) =>
      a = snd (get fo thr s2 e2) /\ value s3' = value s3 /\
      (a <> None -> snd (get_value_source fo p s3' e3) = snd (get_value_source fo thr s2' e2))
  | (_, Some _) => a = snd (get fo p s3 e3) /\ s2' = s2
  | (_, None) => a = None /\ s2' = s2 /\ s3' = s3
  end.
Proof.
  intros fo shared thr p [[s1 s2] s3] [[e1 e2] e3] os -> . rewrite run_holds. unfold pickle_get.
  destruct (get fo shared s1 e1) as [s1' [v|]]; auto.
  assert (G : forall q a, get fo thr (holds (current fo thr os)) e2 = (q, Some a) ->
    exists x s, q = holds (Some (x, s))).
  { intros q a H. rewrite get_holds in H. cbv zeta in H. apply pair_inj in H as [<- H].
    destruct (match current fo thr os with Some _ => current fo thr os | None => first_read fo thr e2 end) as [[x s]|];
      [eauto|discriminate]. }
  destruct v as [| |[|]| | |].
  1,2,4-7: destruct (get fo p s3 e3); auto.
  destruct (get fo thr (holds (current fo thr os)) e2) as [s2' [w|]] eqn:T.
  - destruct (G _ _ eq_refl) as (x & s & ->). unfold get_value_source at 1. simpl. auto.
  - simpl. split; auto. split; auto. congruence.
Qed.

Lemma text_case : padded (chars " YeS "%string) (chars "YeS"%string) /\ in_small (chars "YeS"%string) (chars "yes"%string) /\
  padded (chars " 1.5"%string) (chars "1.5"%string) /\ (forall c, In c (chars "1.5"%string) -> 48 <= c <= 57 \/ c = 46).
Proof.
  split; [exact (padded_strip (chars " YeS "%string))|]. split; [apply lower_small; reflexivity|]. split; [exact (padded_strip (chars " 1.5"%string))|].
  intros c. change (chars "1.5"%string) with [49; 46; 53]. simpl. lia.
Qed.
