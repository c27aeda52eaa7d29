(** Proofs of C101. *)
From Coq Require Import String Ascii.
From Verif Require Import Lib LogLineModel LogLineSpec.

Lemma op_cases (P : nat -> Prop) : P 1 -> P 2 -> P 3 -> P 4 -> P 5 -> P 6 -> P 7 -> P 8 -> P 9 -> P 10 -> P 11 -> P 12 -> P 13 -> P 14 -> P 15 -> P 16 ->
  forall op, operation op -> P op.
Proof.
  intros. unfold operation in *. do 17 (destruct op as [|op]; [try assumption; try lia|]). lia.
Qed.

Lemma name_some op : operation op -> exists name, get_op_name op = Some name /\ named op name.
Proof.
  intros O. pattern op. revert op O. apply op_cases; eexists; (split; [reflexivity|]); eexists; (split; [|reflexivity]); cbn; tauto.
Qed.
Lemma name_op op name : get_op_name op = Some name -> operation op.
Proof.
  intros E. destruct (le_lt_dec op 16) as [L|L].
  - destruct op; [discriminate E|]. unfold operation. lia.
  - do 17 (destruct op as [|op]; [lia|]). cbn in E. discriminate E.
Qed.
Lemma name_none op : get_op_name op = None <-> ~ operation op.
Proof.
  split.
  - intros E O. destruct (name_some op O) as (n & F & _). congruence.
  - intros N. destruct (get_op_name op) eqn:E; [|reflexivity]. elim N. eapply name_op, E.
Qed.
Lemma name_named op name : get_op_name op = Some name -> named op name.
Proof. intros E. destruct (name_some op (name_op _ _ E)) as (n & F & N). congruence. Qed.

Definition all_names : list (option txt) := map get_op_name (seq 1 16).
Lemma names_nodup : NoDup all_names.
Proof.
  unfold all_names. cbn. repeat constructor; cbn; intuition discriminate.
Qed.
Lemma name_inj op op' name : get_op_name op = Some name -> get_op_name op' = Some name -> op = op'.
Proof.
  intros E E'. pose proof (name_op _ _ E) as O. pose proof (name_op _ _ E') as O'. unfold operation in *.
  assert (X : forall o, 1 <= o <= 16 -> nth_error all_names (o - 1) = Some (get_op_name o)).
  { apply op_cases; reflexivity. }
  pose proof (proj1 (NoDup_nth_error _) names_nodup (op - 1) (op' - 1)) as Y.
  rewrite (X op O), (X op' O'), E, E' in Y. assert (op - 1 = op' - 1); [|lia]. apply Y; [|reflexivity]. unfold all_names. rewrite map_length, seq_length. lia.
Qed.
Lemma name_colon op name : get_op_name op = Some name -> ~ In ":"%char name.
Proof.
  intros E. pose proof (name_op _ _ E) as O. revert E. pattern op. revert op O. apply op_cases; cbn; intros E; injection E as <-; cbn; intuition discriminate.
Qed.

Section Pict.
Variables mk gp : nat -> ascii.
Definition cl k := [mk k; gp k; gp k; gp k].
Lemma before c g m : forall a, (forall k, a <= k < a + m -> mk k = c /\ gp k = g) -> rep m [c; g; g; g] = concat (map cl (seq a m)).
Proof.
  induction m as [|m IH]; intros a H; [reflexivity|]. cbn [rep seq map concat]. rewrite <- (IH (S a)) by (intros k L; apply H; lia).
  unfold cl. destruct (H a) as [-> ->]; [lia|reflexivity].
Qed.
Lemma after c g r : forall a, (forall k, a <= k < a + r -> mk (S k) = c /\ gp k = g) -> mk a :: rep r [g; g; g; c] = concat (map cl (seq a r)) ++ [mk (a + r)].
Proof.
  induction r as [|r IH]; intros a H; [cbn; now rewrite Nat.add_0_r|]. cbn [rep seq map concat]. destruct (H a) as [X Y]; [lia|].
  unfold cl at 1. rewrite Y. cbn [app]. do 4 f_equal. replace (a + S r) with (S a + r) by lia.
  rewrite <- IH by (intros k L; apply H; lia). now rewrite X.
Qed.
End Pict.

Lemma body_picture n s d : s < n -> d < n ->
  rep (min s d) (tx ".   ") ++ (if s <? d then rep ((d - s) + (s - d)) (tx ".---") ++ tx ">" else tx "<" ++ rep ((d - s) + (s - d)) (tx "---.")) ++
  rep (n - max s d - 1) (tx "   .") = picture n s d.
Proof.
  intros Ls Ld. unfold picture. change (cell s d) with (cl (mark s d) (gap s d)).
  assert (E1 : rep (min s d) (tx ".   ") = concat (map (cl (mark s d) (gap s d)) (seq 0 (min s d)))).
  { apply before. intros k L. unfold mark, gap. destruct (Nat.eqb_spec k d); [lia|]. destruct (Nat.leb_spec (min s d) k); [lia|]. split; reflexivity. }
  assert (E3 : mark s d (max s d) :: rep (n - max s d - 1) (tx "   .") =
    concat (map (cl (mark s d) (gap s d)) (seq (max s d) (n - max s d - 1))) ++ [mark s d (n - 1)]).
  { replace (n - 1) with (max s d + (n - max s d - 1)) by lia. apply after. intros k L. unfold mark, gap.
    destruct (Nat.eqb_spec (S k) d); [lia|]. destruct (Nat.ltb_spec k (max s d)); [lia|]. rewrite Bool.andb_false_r. split; reflexivity. }
  assert (E2 : (if s <? d then rep ((d - s) + (s - d)) (tx ".---") ++ tx ">" else tx "<" ++ rep ((d - s) + (s - d)) (tx "---.")) =
    concat (map (cl (mark s d) (gap s d)) (seq (min s d) (max s d - min s d))) ++ [mark s d (max s d)]).
  { destruct (Nat.ltb_spec s d) as [L|L].
    - replace (d - s + (s - d)) with (max s d - min s d) by lia. f_equal.
      + apply before. intros k K. unfold mark, gap. destruct (Nat.eqb_spec k d); [lia|]. destruct (Nat.leb_spec (min s d) k); [|lia].
        destruct (Nat.ltb_spec k (max s d)); [|lia]. split; reflexivity.
      + unfold mark. replace (max s d) with d by lia. rewrite Nat.eqb_refl. destruct (Nat.ltb_spec s d); [reflexivity|lia].
    - replace (d - s + (s - d)) with (max s d - min s d) by lia.
      assert (M : mark s d (min s d) = "<"%char). { unfold mark. replace (min s d) with d by lia. rewrite Nat.eqb_refl. destruct (Nat.ltb_spec s d); [lia|reflexivity]. }
      assert (T : forall r : txt, tx "<" ++ r = mark s d (min s d) :: r) by (intros r; rewrite M; reflexivity). rewrite T.
      replace (mark s d (max s d)) with (mark s d (min s d + (max s d - min s d))) by (f_equal; lia).
      apply (after (mark s d) (gap s d) "."%char "-"%char). intros k K. unfold mark, gap. destruct (Nat.eqb_spec (S k) d); [lia|]. destruct (Nat.leb_spec (min s d) k); [|lia].
      destruct (Nat.ltb_spec k (max s d)); [|lia]. split; reflexivity. }
  rewrite E1, E2, <- app_assoc. cbn [app]. rewrite E3. rewrite !app_assoc. f_equal.
  rewrite <- !concat_app, <- !map_app. f_equal. f_equal.
  replace (n - 1) with (min s d + (max s d - min s d) + (n - max s d - 1)) by lia. rewrite !seq_app. f_equal. f_equal. lia.
Qed.

Lemma line_picture n s d op l : s < n -> d < n -> log_line n s d op = Some l ->
  exists name, named op name /\ l = name ++ tx ":" ++ rep (15 - List.length name) (tx " ") ++ picture n s d.
Proof.
  intros Ls Ld E. unfold log_line in E. destruct (get_op_name op) as [name|] eqn:F; [|discriminate]. exists name. split; [now apply name_named|].
  injection E as <-. rewrite <- body_picture by assumption. reflexivity.
Qed.

Lemma line_some n s d op : log_line n s d op <> None <-> operation op.
Proof.
  unfold log_line. destruct (get_op_name op) eqn:E; split; intros H; try discriminate; try congruence.
  - eapply name_op, E. - apply name_none in E. contradiction.
Qed.

Lemma concat4 {A} (f g : A -> txt) l x y : (forall k, List.length (f k) = 4) -> (forall k, List.length (g k) = 4) ->
  concat (map f l) ++ x = concat (map g l) ++ y -> (forall k, In k l -> f k = g k) /\ x = y.
Proof.
  intros Lf Lg. induction l as [|a l IH]; intros E; [split; [intros k []|exact E]|]. cbn in E. rewrite <- !app_assoc in E.
  assert (X : f a = g a /\ concat (map f l) ++ x = concat (map g l) ++ y).
  { specialize (Lf a). specialize (Lg a). destruct (f a) as [|a1 [|a2 [|a3 [|a4 [|]]]]]; try discriminate Lf.
    destruct (g a) as [|b1 [|b2 [|b3 [|b4 [|]]]]]; try discriminate Lg. cbn in E. injection E as -> -> -> -> E. auto. }
  destruct X as [X Y]. destruct (IH Y) as [Z W]. split; [|exact W]. intros k [->|I]; auto.
Qed.

Lemma picture_inj n s d s' d' : s < n -> d < n -> s' < n -> d' < n -> picture n s d = picture n s' d' -> s = s' /\ d = d'.
Proof.
  intros L1 L2 L3 L4 E. unfold picture in E. apply concat4 in E as [C M]; try reflexivity.
  assert (MK : forall k, k < n -> mark s d k = mark s' d' k).
  { intros k K. destruct (Nat.eq_dec k (n - 1)) as [->|D]; [now injection M|].
    assert (I : In k (seq 0 (n - 1))) by (apply in_seq; lia). apply C in I. now injection I. }
  assert (GP : forall k, k < n - 1 -> gap s d k = gap s' d' k).
  { intros k K. assert (I : In k (seq 0 (n - 1))) by (apply in_seq; lia). apply C in I. now injection I. }
  clear C M. pose proof (MK d L2) as Md. unfold mark in Md. rewrite Nat.eqb_refl in Md.
  destruct (Nat.eqb_spec d d') as [<-|D]; [|destruct (s <? d); discriminate Md]. split; [|reflexivity].
  destruct (Nat.ltb_spec s d) as [A|A], (Nat.ltb_spec s' d) as [B|B]; try discriminate Md; clear Md.
  - destruct (lt_eq_lt_dec s s') as [[Z|Z]|Z]; [|exact Z|].
    + assert (K : s < n - 1) by lia. apply GP in K. unfold gap in K. replace (min s d) with s in K by lia. replace (max s d) with d in K by lia.
      replace (min s' d) with s' in K by lia. rewrite Nat.leb_refl in K. destruct (Nat.ltb_spec s d); [|lia]. destruct (Nat.leb_spec s' s); [lia|discriminate K].
    + assert (K : s' < n - 1) by lia. apply GP in K. unfold gap in K. replace (min s' d) with s' in K by lia. replace (max s' d) with d in K by lia.
      replace (min s d) with s in K by lia. rewrite Nat.leb_refl in K. destruct (Nat.ltb_spec s' d); [|lia]. destruct (Nat.leb_spec s s'); [lia|discriminate K].
  - destruct (lt_eq_lt_dec s s') as [[Z|Z]|Z]; [|exact Z|].
    + assert (K : s < n - 1) by lia. apply GP in K. unfold gap in K. replace (min s d) with d in K by lia. replace (max s d) with s in K by lia.
      replace (min s' d) with d in K by lia. replace (max s' d) with s' in K by lia.
      destruct (Nat.leb_spec d s); [|lia]. destruct (Nat.ltb_spec s s); [lia|]. destruct (Nat.ltb_spec s s'); [discriminate K|lia].
    + assert (K : s' < n - 1) by lia. apply GP in K. unfold gap in K. replace (min s d) with d in K by lia. replace (max s d) with s in K by lia.
      replace (min s' d) with d in K by lia. replace (max s' d) with s' in K by lia.
      destruct (Nat.leb_spec d s'); [|lia]. destruct (Nat.ltb_spec s' s'); [lia|]. destruct (Nat.ltb_spec s' s); [discriminate K|lia].
Qed.

Lemma colon_split (a b x y : txt) : ~ In ":"%char a -> ~ In ":"%char b -> a ++ ":"%char :: x = b ++ ":"%char :: y -> a = b /\ x = y.
Proof.
  revert b. induction a as [|c a IH]; intros [|e b] A B E; cbn in E.
  - injection E as ->. auto.
  - injection E as <- _. elim B. now left.
  - injection E as -> _. elim A. now left.
  - injection E as -> E. apply IH in E as [-> ->]; auto; intros C; [apply A|apply B]; now right.
Qed.

Lemma line_inj n s d op s' d' op' l : s < n -> d < n -> s' < n -> d' < n ->
  log_line n s d op = Some l -> log_line n s' d' op' = Some l -> op = op' /\ s = s' /\ d = d'.
Proof.
  intros L1 L2 L3 L4 E E'. unfold log_line in E, E'. destruct (get_op_name op) as [a|] eqn:A; [|discriminate]. destruct (get_op_name op') as [b|] eqn:B; [|discriminate].
  assert (X : a ++ ":"%char :: rep (op_name_len - List.length a) (tx " ") ++ picture n s d = b ++ ":"%char :: rep (op_name_len - List.length b) (tx " ") ++ picture n s' d').
  { rewrite <- !body_picture by assumption. rewrite <- E in E'. injection E' as E'. symmetry. exact E'. }
  apply colon_split in X as [<- X]; [|eapply name_colon, A|eapply name_colon, B].
  apply app_inv_head in X. split; [eapply name_inj; eassumption|]. now apply picture_inj in X.
Qed.

Lemma rep1_length k c : List.length (rep k [c]) = k.
Proof. induction k; cbn; auto. Qed.

Lemma cells_length s d r : forall a, List.length (concat (map (cell s d) (seq a r))) = 4 * r.
Proof. induction r as [|r IH]; intros a; [reflexivity|]. cbn [seq map concat]. rewrite app_length, IH. cbn [List.length cell]. lia. Qed.

Lemma picture_nth n s d k : k < n -> nth_error (picture n s d) (4 * k) = Some (mark s d k).
Proof.
  intros K. unfold picture. destruct (Nat.eq_dec k (n - 1)) as [->|D].
  - rewrite nth_error_app2; rewrite cells_length; [|lia]. now rewrite Nat.sub_diag.
  - replace (n - 1) with (k + S (n - 2 - k)) at 1 by lia. rewrite seq_app, map_app, concat_app, <- app_assoc.
    rewrite nth_error_app2; rewrite cells_length; [|lia]. rewrite Nat.sub_diag. reflexivity.
Qed.

Lemma line_columns n s d op l name : s < n -> d < n -> log_line n s d op = Some l -> named op name -> List.length name <= 15 ->
  List.length l = 4 * n + 13 /\ forall k, k < n -> nth_error l (16 + 4 * k) = Some (mark s d k).
Proof.
  intros Ls Ld E N L. destruct (line_picture _ _ _ _ _ Ls Ld E) as (nm & N' & ->).
  assert (nm = name) as ->.
  { destruct N as (a & I & ->), N' as (b & I' & ->). cbn in I, I'.
    repeat (destruct I as [I|I]; [injection I as <- <-; repeat (destruct I' as [I'|I']; [injection I' as <-; first [reflexivity|discriminate]|]); destruct I'|]); destruct I. }
  split.
  - rewrite !app_length. change (tx " ") with [" "%char]. rewrite rep1_length. unfold picture. rewrite app_length, cells_length. cbn [List.length tx list_ascii_of_string]. lia.
  - intros k K. rewrite !app_assoc. rewrite nth_error_app2; rewrite !app_length; change (tx " ") with [" "%char]; rewrite rep1_length; cbn [List.length tx list_ascii_of_string]; [|lia].
    replace (16 + 4 * k - (List.length name + 1 + (15 - List.length name))) with (4 * k) by lia. now apply picture_nth.
Qed.

(** The header. *)
Lemma log_all_lines fw n r ops : forall p out, log_all fw n r p ops = Some out ->
  exists ls, Forall2 (fun o l => log_line n (snd o) r (fst o) = Some l) ops ls /\
    out = match ops with [] => [] | _ => (if negb p && Nat.eqb r fw then [Header (seq 0 n)] else []) end ++ map Line ls.
Proof.
  induction ops as [|[op src] ops IH]; intros p out E; cbn [log_all] in E.
  - injection E as <-. exists []. split; [constructor|reflexivity].
  - unfold log_operation in E. destruct (log_line n src r op) as [l|] eqn:F; [|discriminate].
    destruct (negb p && (r =? fw)) eqn:H; destruct (log_all _ _ _ _ ops) as [q|] eqn:G; try discriminate; injection E as <-.
    + destruct (IH _ _ G) as (ls & FL & ->). exists (l :: ls). split; [now constructor|]. cbn. destruct ops; reflexivity.
    + destruct (IH _ _ G) as (ls & FL & ->). exists (l :: ls). split; [now constructor|]. rewrite H. destruct ops; reflexivity.
Qed.
Lemma log_all_some fw n r ops : (forall o, In o ops -> operation (fst o)) -> forall p, log_all fw n r p ops <> None.
Proof.
  induction ops as [|[op src] ops IH]; intros O p; [discriminate|]. cbn. unfold log_operation.
  destruct (log_line n src r op) eqn:F.
  - assert (O' : forall o, In o ops -> operation (fst o)) by (intros o I; apply O; now right).
    destruct (negb p && (r =? fw)); (destruct (log_all _ _ _ _ ops) eqn:G; [discriminate|now apply IH in G]).
  - elim (proj2 (line_some n src r op) (O _ (or_introl eq_refl)) F).
Qed.
