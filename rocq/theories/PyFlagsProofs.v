From Coq Require Import String Ascii.
From Verif Require Import Lib ConfigModel SpawnModel PyFlagsModel.
Local Open Scope list_scope.

Lemma text_eqb_refl t : text_eqb t t = true.
Proof. unfold text_eqb. destruct (list_eq_dec Nat.eq_dec t t); congruence. Qed.

Lemma text_eqb_eq a b : text_eqb a b = true -> a = b.
Proof. unfold text_eqb. destruct (list_eq_dec Nat.eq_dec a b); congruence. Qed.

Notation nub := (fold_left wappend).

Lemma wappend_in acc t : In t acc -> wappend acc t = acc.
Proof.
  intros H. unfold wappend. assert (E : existsb (text_eqb t) acc = true).
  { apply existsb_exists. exists t. split; [exact H|]. apply text_eqb_refl. }
  rewrite E. reflexivity.
Qed.

Lemma wappend_new acc t : ~ In t acc -> wappend acc t = acc ++ [t].
Proof.
  intros H. unfold wappend. destruct (existsb (text_eqb t) acc) eqn:E; [|reflexivity].
  apply existsb_exists in E. destruct E as (x & Hx & Ex). apply text_eqb_eq in Ex. subst x. contradiction.
Qed.

Definition text_dec (a b : text) : {a = b} + {a <> b} := list_eq_dec Nat.eq_dec a b.

Lemma nub_in l : forall acc, (forall t, In t l -> In t acc) -> nub l acc = acc.
Proof.
  induction l as [|t l IH]; intros acc H; [reflexivity|]. cbn [fold_left].
  rewrite wappend_in by (apply H; left; reflexivity). apply IH. intros u Hu. apply H. right. exact Hu.
Qed.

Lemma nub_extends l : forall acc, exists T, nub l acc = acc ++ T /\ NoDup T /\ (forall t, In t T -> ~ In t acc) /\
  (forall t, In t l -> In t (acc ++ T)).
Proof.
  induction l as [|t l IH]; intros acc.
  - exists []. rewrite app_nil_r. split; [reflexivity|]. split; [constructor|]. split; intros u [].
  - cbn [fold_left]. destruct (in_dec text_dec t acc) as [H|H].
    + rewrite wappend_in by exact H. destruct (IH acc) as (T & E & N & D & I). exists T.
      split; [exact E|]. split; [exact N|]. split; [exact D|].
      intros u [Z|Z]; [subst; apply in_or_app; left; exact H|auto].
    + rewrite wappend_new by exact H. destruct (IH (acc ++ [t])) as (T & E & N & D & I). exists (t :: T).
      split; [rewrite E, <- app_assoc; reflexivity|].
      split. { constructor; [|exact N]. intros Z. apply (D t Z). apply in_or_app. right. left. reflexivity. }
      split. { intros u [Z|Z]; [subst; exact H|]. intros A. apply (D u Z). apply in_or_app. left. exact A. }
      intros u [Z|Z]; [subst; apply in_or_app; right; left; reflexivity|].
      specialize (I u Z). rewrite <- app_assoc in I. exact I.
Qed.

Lemma nub_new T : forall acc, NoDup T -> (forall t, In t T -> ~ In t acc) -> nub T acc = acc ++ T.
Proof.
  induction T as [|t T IH]; intros acc N D; [rewrite app_nil_r; reflexivity|].
  cbn [fold_left]. rewrite wappend_new by (apply D; left; reflexivity). inversion N; subst.
  rewrite IH; [rewrite <- app_assoc; reflexivity|assumption|].
  intros u Hu A. apply in_app_or in A. destruct A as [A|[A|[]]]; [|subst; contradiction].
  apply (D u); [right; exact Hu|exact A].
Qed.

Lemma nub_again P R B : (forall t, In t B -> In t (P ++ R)) ->
  nub (P ++ nub (P ++ R) [] ++ B) [] = nub (P ++ R) [].
Proof.
  intros HB. rewrite (fold_left_app wappend P (nub (P ++ R) [] ++ B)). rewrite (fold_left_app wappend (nub (P ++ R) []) B).
  destruct (nub_extends (P ++ R) []) as (W & EW & _ & _ & IW). cbn [app] in EW, IW. rewrite EW.
  destruct (nub_extends P []) as (Q & EQ & _ & _ & IQ). cbn [app] in EQ, IQ. rewrite EQ.
  assert (HW : exists T, W = Q ++ T /\ NoDup T /\ (forall t, In t T -> ~ In t Q)).
  { rewrite fold_left_app, EQ in EW. destruct (nub_extends R Q) as (T & ET & N & D & _). exists T. rewrite <- EW, ET. auto. }
  destruct HW as (T & -> & N & D).
  rewrite fold_left_app. rewrite (nub_in Q Q) by auto. rewrite (nub_new T Q N D). apply nub_in. intros t Ht. apply IW. apply HB. exact Ht.
Qed.

(** ** -X *)

Definition eqs := nat_of_ascii "=".

Lemma split_key t : ~ In eqs (fst (split_eq t)).
Proof.
  induction t as [|c r IH]; cbn [split_eq fst]; [intros []|]. fold eqs.
  destruct (Nat.eqb c eqs) eqn:E; [intros []|]. apply Nat.eqb_neq in E. destruct (split_eq r) as [k v]. cbn [fst In] in *.
  intros [Z|Z]; [congruence|contradiction].
Qed.

Lemma split_plain k : ~ In eqs k -> split_eq k = (k, None).
Proof.
  induction k as [|c r IH]; intros H; [reflexivity|]. cbn [split_eq]. fold eqs.
  destruct (Nat.eqb c eqs) eqn:E; [apply Nat.eqb_eq in E; subst; exfalso; apply H; left; reflexivity|].
  rewrite IH; [reflexivity|]. intros Z. apply H. right. exact Z.
Qed.

Lemma split_value k v : ~ In eqs k -> split_eq (k ++ codes "=" ++ v) = (k, Some v).
Proof.
  induction k as [|c r IH]; intros H; [reflexivity|]. cbn [app split_eq].
  destruct (Nat.eqb c (nat_of_ascii "=")) eqn:E; [apply Nat.eqb_eq in E; subst; exfalso; apply H; left; reflexivity|].
  rewrite IH; [reflexivity|]. intros Z. apply H. right. exact Z.
Qed.

Definition xtext (x : text * option text) : text :=
  match snd x with None => fst x | Some v => fst x ++ codes "=" ++ v end.

Lemma split_xtext x : ~ In eqs (fst x) -> split_eq (xtext x) = x.
Proof.
  destruct x as [k [v|]]; unfold xtext; cbn [fst snd]; intros H; [apply split_value|apply split_plain]; exact H.
Qed.

Definition xgood (d : list (text * option text)) : Prop :=
  NoDup (map fst d) /\ forall x, In x d -> ~ In eqs (fst x).

Lemma xset_keys d k v : map fst (xset d k v) = if existsb (text_eqb k) (map fst d) then map fst d else map fst d ++ [k].
Proof.
  induction d as [|[k' v'] d IH]; [reflexivity|]. cbn [xset map fst existsb].
  destruct (text_eqb k' k) eqn:E.
  - apply text_eqb_eq in E. subst k'. rewrite text_eqb_refl. reflexivity.
  - assert (E2 : text_eqb k k' = false).
    { destruct (text_eqb k k') eqn:Z; [|reflexivity]. apply text_eqb_eq in Z. subst. rewrite text_eqb_refl in E. discriminate. }
    rewrite E2. cbn [orb map fst]. rewrite IH. destruct (existsb (text_eqb k) (map fst d)); reflexivity.
Qed.

Lemma xset_new d k v : ~ In k (map fst d) -> xset d k v = d ++ [(k, v)].
Proof.
  induction d as [|[k' v'] d IH]; intros H; [reflexivity|]. cbn [xset].
  destruct (text_eqb k' k) eqn:E; [apply text_eqb_eq in E; subst; exfalso; apply H; left; reflexivity|].
  rewrite IH; [reflexivity|]. intros Z. apply H. right. exact Z.
Qed.

Lemma xset_good d k v : xgood d -> ~ In eqs k -> xgood (xset d k v).
Proof.
  intros [N G] K. assert (N' : NoDup (map fst (xset d k v))).
  { rewrite xset_keys. destruct (existsb (text_eqb k) (map fst d)) eqn:E; [exact N|].
    apply NoDup_Add with (a := k) (l := map fst d); [rewrite <- (app_nil_r (map fst d)) at 1; apply Add_app|].
    split; [exact N|]. intros Z. assert (T : existsb (text_eqb k) (map fst d) = true)
      by (apply existsb_exists; exists k; split; [exact Z|apply text_eqb_refl]). congruence. }
  split; [exact N'|]. intros x Hx. apply (in_map fst) in Hx. rewrite xset_keys in Hx.
  assert (Q : In (fst x) (map fst d) \/ fst x = k).
  { destruct (existsb (text_eqb k) (map fst d)); [auto|]. apply in_app_or in Hx. destruct Hx as [Hx|[Hx|[]]]; auto. }
  destruct Q as [Q|Q]; [|rewrite Q; exact K]. apply in_map_iff in Q. destruct Q as (y & Ey & Hy). rewrite <- Ey. apply G. exact Hy.
Qed.

Lemma xdict_good_from l : forall d, xgood d -> xgood (fold_left (fun d t => let (k, v) := split_eq t in xset d k v) l d).
Proof.
  induction l as [|t l IH]; intros d G; [exact G|]. cbn [fold_left]. apply IH.
  pose proof (split_key t) as K. destruct (split_eq t) as [k v]. apply xset_good; assumption.
Qed.

Lemma xdict_good l : xgood (xdict l).
Proof. apply xdict_good_from. split; [constructor|intros x []]. Qed.

Lemma xdict_again_from xs : forall d, xgood (d ++ xs) ->
  fold_left (fun d t => let (k, v) := split_eq t in xset d k v) (map xtext xs) d = d ++ xs.
Proof.
  induction xs as [|x xs IH]; intros d [N G]; [rewrite app_nil_r; reflexivity|].
  cbn [map fold_left]. rewrite split_xtext by (apply G; apply in_or_app; right; left; reflexivity).
  destruct x as [k v]. rewrite map_app in N. cbn [map fst] in N.
  rewrite xset_new.
  - replace (d ++ (k, v) :: xs) with ((d ++ [(k, v)]) ++ xs) by (rewrite <- app_assoc; reflexivity). apply IH.
    rewrite <- app_assoc. split; [rewrite map_app; exact N|exact G].
  - apply NoDup_remove_2 in N. intros Z. apply N. apply in_or_app. left. exact Z.
Qed.

Lemma xdict_again xs : xgood xs -> xdict (map xtext xs) = xs.
Proof. intros G. exact (xdict_again_from xs [] G). Qed.

(** ** Reading the arguments *)

Definition handed (f : flag) : bool := negb (Nat.eqb (letter f) (nat_of_ascii "i")).

Lemma scan_repeat f n : handed f = true -> forall o, exists o', scan o (repeat (letter f) n) = More o' /\
  (forall g, count o' g = if flag_eq g f then count o g + n else count o g) /\ o_warn o' = o_warn o /\ o_x o' = o_x o.
Proof.
  intros H. induction n as [|n IH]; intros o.
  - exists o. split; [reflexivity|]. split; [|auto]. intros g. destruct (flag_eq g f); lia.
  - destruct (IH (bump o f)) as (o' & E & C & W & X). exists o'. split.
    + cbn [repeat]. destruct f; try discriminate H; exact E.
    + split; [|split; [exact W|exact X]]. intros g. rewrite C. cbn [bump count]. destruct (flag_eq g f); lia.
Qed.

Definition one (s : pystate) (f : flag) : list text :=
  match (if Nat.eqb (letter f) (nat_of_ascii "i") then 0 else flags s f) with
  | 0 => []
  | S n => [codes "-" ++ repeat (letter f) (S n)]
  end.

Lemma parse_one s rest f o : exists o1, parse o (one s f ++ rest) = parse o1 rest /\
  (forall g, count o1 g = count o g + (if flag_eq g f then (if handed f then flags s f else 0) else 0)) /\
  o_warn o1 = o_warn o /\ o_x o1 = o_x o.
Proof.
  unfold one. destruct (handed f) eqn:H.
  - assert (H' := H). unfold handed in H'. destruct (Nat.eqb (letter f) (nat_of_ascii "i")); [discriminate|].
    destruct (flags s f) as [|n] eqn:V.
    + exists o. split; [reflexivity|]. split; [|auto]. intros g. destruct (flag_eq g f); lia.
    + destruct (scan_repeat f (S n) H o) as (o1 & E & C & W & X). exists o1. split.
      * change (codes "-" ++ repeat (letter f) (S n)) with (nat_of_ascii "-" :: letter f :: repeat (letter f) n).
        cbn [app parse]. rewrite Nat.eqb_refl. cbn [repeat] in E. rewrite E. reflexivity.
      * split; [|auto]. intros g. rewrite C. destruct (flag_eq g f); lia.
  - unfold handed in H. destruct (Nat.eqb (letter f) (nat_of_ascii "i")); [|discriminate].
    exists o. split; [reflexivity|]. split; [|auto]. intros g. destruct (flag_eq g f); lia.
Qed.

Lemma parse_flags s rest fs : NoDup fs -> forall o, exists o',
  parse o (flat_map (one s) fs ++ rest) = parse o' rest /\
  (forall g, count o' g = count o g + (if in_dec flag_eq g fs then if handed g then flags s g else 0 else 0)) /\
  o_warn o' = o_warn o /\ o_x o' = o_x o.
Proof.
  induction fs as [|f fs IH]; intros N o.
  - exists o. split; [reflexivity|]. split; [|auto]. intros g. simpl. lia.
  - inversion N as [|? ? Nf Nfs]; subst. cbn [flat_map]. rewrite <- app_assoc.
    destruct (parse_one s (flat_map (one s) fs ++ rest) f o) as (o1 & E1 & C1 & W1 & X1).
    destruct (IH Nfs o1) as (o' & E & C & W & X). exists o'.
    split; [rewrite E1; exact E|]. split; [|rewrite W, X; auto]. intros g. rewrite C, C1.
    destruct (flag_eq g f) as [->|Ng].
    + destruct (in_dec flag_eq f fs) as [Z|Z]; [contradiction|].
      destruct (in_dec flag_eq f (f :: fs)) as [Y|Y]; [lia|exfalso; apply Y; left; reflexivity].
    + destruct (in_dec flag_eq g fs) as [Z|Z], (in_dec flag_eq g (f :: fs)) as [Y|Y].
      * lia.
      * exfalso. apply Y. right. exact Z.
      * destruct Y as [Y|Y]; [congruence|contradiction].
      * lia.
Qed.

Lemma flag_args_one s : flag_args s = flat_map (one s) all_flags.
Proof.
  unfold flag_args. apply flat_map_ext. intros f. unfold one.
  destruct (if Nat.eqb (letter f) (nat_of_ascii "i") then 0 else flags s f); reflexivity.
Qed.

Lemma parse_warn rest l : ~ In [] l -> forall o, exists o', parse o (map (fun t => codes "-W" ++ t) l ++ rest) = parse o' rest /\
  count o' = count o /\ o_warn o' = o_warn o ++ l /\ o_x o' = o_x o.
Proof.
  induction l as [|t l IH]; intros H o.
  - exists o. rewrite app_nil_r. auto.
  - destruct t as [|c t]; [exfalso; apply H; left; reflexivity|].
    destruct (IH (fun Z => H (or_intror Z)) (add_w o (c :: t))) as (o' & E & C & W & X). exists o'.
    split; [exact E|]. split; [exact C|]. split; [|exact X]. rewrite W. cbn [add_w o_warn]. rewrite <- app_assoc. reflexivity.
Qed.

Lemma parse_xs rest xs : ~ In ([], None) xs -> forall o, exists o', parse o (map xoption_arg xs ++ rest) = parse o' rest /\
  count o' = count o /\ o_warn o' = o_warn o /\ o_x o' = o_x o ++ map xtext xs.
Proof.
  induction xs as [|x xs IH]; intros H o.
  - exists o. cbn [map]. rewrite app_nil_r. auto.
  - destruct (IH (fun Z => H (or_intror Z)) (add_x o (xtext x))) as (o' & E & C & W & X). exists o'.
    split.
    + assert (P : exists c t, xtext x = c :: t).
      { destruct x as [[|c k] [v|]]; unfold xtext; cbn [fst snd app].
        - exists 61, v. reflexivity.
        - exfalso. apply H. left. reflexivity.
        - eauto.
        - eauto. }
      destruct P as (c & t & P). assert (A : xoption_arg x = codes "-X" ++ c :: t).
      { rewrite <- P. destruct x as [k [v|]]; reflexivity. }
      cbn [map]. rewrite A. rewrite P in E. exact E.
    + split; [exact C|]. split; [exact W|]. rewrite X. cbn [add_x o_x map]. rewrite <- app_assoc. reflexivity.
Qed.

Lemma all_flags_in g : In g all_flags.
Proof. destruct g; cbn; auto 20. Qed.

Lemma all_flags_nodup : NoDup all_flags.
Proof. repeat (constructor; [cbn; intuition discriminate|]). constructor. Qed.

Lemma parse_spawn s prog : ~ In [] (warnoptions s) -> ~ In ([], None) (xoptions s) ->
  exists o, parse no_opts (spawn_args s prog) = Some (o, Command prog) /\
    (forall g, count o g = if handed g then flags s g else 0) /\ o_warn o = warnoptions s /\ o_x o = map xtext (xoptions s).
Proof.
  intros HW HX. unfold spawn_args, get_py_flags. rewrite <- !app_assoc, flag_args_one.
  destruct (parse_flags s (map (fun o => codes "-W" ++ o) (warnoptions s) ++ map xoption_arg (xoptions s) ++ [codes "-c"; prog])
    all_flags all_flags_nodup no_opts) as (o1 & E1 & C1 & W1 & X1).
  destruct (parse_warn (map xoption_arg (xoptions s) ++ [codes "-c"; prog]) (warnoptions s) HW o1) as (o2 & E2 & C2 & W2 & X2).
  destruct (parse_xs [codes "-c"; prog] (xoptions s) HX o2) as (o3 & E3 & C3 & W3 & X3).
  exists o3. split; [exact (eq_trans E1 (eq_trans E2 (eq_trans E3 eq_refl)))|].
  split; [|rewrite W3, W2, W1, X3, X2, X1; auto].
  intros g. rewrite C3, C2, C1. cbn [no_opts count].
  destruct (in_dec flag_eq g all_flags) as [Z|Z]; [reflexivity|exfalso; apply Z; apply all_flags_in].
Qed.

(** ** The spawned process *)

Lemma truth_le n : truth n <= 1.
Proof. unfold truth. lia. Qed.

Theorem same_python e e' args s p prog :
  python e args = Some (s, p) -> (e' = e \/ e' = no_env) ->
  ~ In [] (warnoptions s) -> ~ In ([], None) (xoptions s) ->
  exists s', python e' (spawn_args s prog) = Some (s', Command prog) /\
    warnoptions s' = warnoptions s /\ xoptions s' = xoptions s /\
    (forall f, f <> Inspect -> f <> Interactive -> (f <> HashRandom \/ e' = e) -> flags s' f = flags s f) /\
    flags s' Interactive = 0 /\ flags s' Inspect <= e_flag e' Inspect /\
    (e' = e -> (forall n, hash_seed s <> Some (S n)) -> hash_seed s' = hash_seed s).
Proof.
  intros HP He HW HX. unfold python in HP. destruct (parse no_opts args) as [[o q]|]; [|discriminate].
  injection HP as Hs _. destruct (parse_spawn s prog HW HX) as (o' & E & C & W & X).
  exists (settle e' o'). unfold python. rewrite E. split; [reflexivity|].
  assert (FI : flags s Isolated = count o Isolated) by (subst s; reflexivity).
  assert (FE : flags s IgnoreEnv = truth (count o IgnoreEnv + truth (count o Isolated))) by (subst s; reflexivity).
  assert (FB : flags s BytesWarning = count o BytesWarning) by (subst s; reflexivity).
  assert (CI : count o' Isolated = count o Isolated) by (rewrite C; exact FI).
  assert (CE : count o' IgnoreEnv = flags s IgnoreEnv) by (rewrite C; reflexivity).
  assert (CB : count o' BytesWarning = count o BytesWarning) by (rewrite C; exact FB).
  assert (NE : truth (count o' IgnoreEnv + truth (count o' Isolated)) = truth (count o IgnoreEnv + truth (count o Isolated))).
  { rewrite CE, FE, CI. unfold truth. lia. }
  assert (XS : xdict (o_x o') = xdict (o_x o)).
  { rewrite X. subst s. apply xdict_again. apply xdict_good. }
  set (noenv := truth (count o IgnoreEnv + truth (count o Isolated))) in *.
  (* the environments as they are used *)
  assert (EE : (match noenv with 0 => e' | _ => no_env end) = (match noenv with 0 => e | _ => no_env end) \/
               (match noenv with 0 => e' | _ => no_env end) = no_env).
  { destruct noenv; [|auto]. destruct He as [->| ->]; auto. }
  set (u := match noenv with 0 => e | _ => no_env end) in *. set (u' := match noenv with 0 => e' | _ => no_env end) in *.
  assert (Fu : forall f, e_flag u' f = e_flag u f \/ e_flag u' f = 0).
  { intros f. destruct EE as [->| ->]; [left; reflexivity|right; reflexivity]. }
  assert (FS : forall f, f <> HashRandom -> flags s f =
     match f with
     | Debug | Optimize | Verbose | Inspect => Nat.max (count o f) (e_flag u f)
     | Isolated => count o Isolated
     | DontWrite => truth (count o f + e_flag u f)
     | NoUserSite | SafePath => truth (count o f + e_flag u f + truth (count o Isolated))
     | NoSite => truth (count o f)
     | IgnoreEnv => noenv
     | _ => count o f
     end) by (intros f Nf; subst s; destruct f; try reflexivity; contradiction).
  assert (FS' : forall f, f <> HashRandom -> flags (settle e' o') f =
     match f with
     | Debug | Optimize | Verbose | Inspect => Nat.max (count o' f) (e_flag u' f)
     | Isolated => count o' Isolated
     | DontWrite => truth (count o' f + e_flag u' f)
     | NoUserSite | SafePath => truth (count o' f + e_flag u' f + truth (count o' Isolated))
     | NoSite => truth (count o' f)
     | IgnoreEnv => noenv
     | _ => count o' f
     end).
  { intros f Nf. unfold u'. rewrite <- NE. destruct f; try reflexivity. contradiction. }
  assert (WS : warnoptions (settle e' o') = warnoptions s).
  { set (B := match count o BytesWarning with 0 => [] | 1 => [codes "default::BytesWarning"] | _ => [codes "error::BytesWarning"] end).
    set (xd := existsb (fun x => text_eqb (fst x) (codes "dev")) (xdict (o_x o))).
    assert (Ws : warnoptions s = nub (((if e_dev u || xd then [codes "default"] else []) ++ e_warn u) ++ o_warn o ++ B) [])
      by (subst s; rewrite <- app_assoc; reflexivity).
    assert (Ws' : warnoptions (settle e' o') = nub (((if e_dev u' || xd then [codes "default"] else []) ++ e_warn u') ++ warnoptions s ++ B) []).
    { unfold settle; cbn [warnoptions]. rewrite XS, CB, W, NE. rewrite <- app_assoc. reflexivity. }
    rewrite Ws', Ws. set (P := (if e_dev u || xd then [codes "default"] else []) ++ e_warn u) in *.
    assert (HP : exists P2, P = ((if e_dev u' || xd then [codes "default"] else []) ++ e_warn u') ++ P2).
    { destruct EE as [->| ->].
      - exists []. rewrite app_nil_r. reflexivity.
      - unfold P. cbn [no_env e_dev e_warn orb]. destruct xd.
        + rewrite Bool.orb_true_r. exists (e_warn u). reflexivity.
        + exists ((if e_dev u || false then [codes "default"] else []) ++ e_warn u). reflexivity. }
    destruct HP as (P2 & HP). rewrite HP. rewrite <- (app_assoc _ P2). apply nub_again.
    intros t Ht. rewrite !in_app_iff. auto. }
  split; [exact WS|]. split; [exact (eq_trans XS (f_equal xoptions Hs))|].
  split.
  { intros f N1 N2 N3. destruct (flag_eq f HashRandom) as [->|NH].
    - destruct N3 as [N3|N3]; [contradiction|]. subst e'.
      assert (S1 : flags s HashRandom = match hash_seed s with Some 0 => 0 | _ => 1 end) by (subst s; reflexivity).
      assert (S2 : hash_seed s = match count o HashRandom with 0 => e_seed u | _ => None end) by (subst s; reflexivity).
      assert (S3 : flags (settle e o') HashRandom = match hash_seed (settle e o') with Some 0 => 0 | _ => 1 end) by reflexivity.
      assert (S4 : hash_seed (settle e o') = match flags s HashRandom with 0 => e_seed u' | _ => None end).
      { transitivity (match count o' HashRandom with 0 => e_seed u' | _ => None end); [|rewrite C; reflexivity].
        unfold settle; cbn [hash_seed]. rewrite NE. reflexivity. }
      rewrite S3, S4, S1. destruct (hash_seed s) as [[|n]|] eqn:HS; [|reflexivity|reflexivity].
      change u' with u. destruct (count o HashRandom); [rewrite <- S2; reflexivity|discriminate].
    - rewrite (FS' f NH), (FS f NH). pose proof (FS f NH) as A. pose proof (C f) as B. pose proof (Fu f) as D.
      pose proof (truth_le (count o Isolated)) as TI.
      destruct f; try contradiction; cbn [handed letter] in B; change (handed _) with true in B; cbn iota in B;
        rewrite ?CI in *; rewrite ?B, ?A; unfold truth in *; try lia. }
  split; [rewrite FS' by discriminate; rewrite C; reflexivity|].
  split.
  { rewrite FS' by discriminate. rewrite C. cbn [handed]. change (handed Inspect) with false. cbn iota.
    unfold u'. destruct noenv; cbn; lia. }
  intros -> Hn.
  assert (S1 : flags s HashRandom = match hash_seed s with Some 0 => 0 | _ => 1 end) by (subst s; reflexivity).
  assert (S2 : hash_seed s = match count o HashRandom with 0 => e_seed u | _ => None end) by (subst s; reflexivity).
  assert (S4 : hash_seed (settle e o') = match flags s HashRandom with 0 => e_seed u' | _ => None end).
  { transitivity (match count o' HashRandom with 0 => e_seed u' | _ => None end); [|rewrite C; reflexivity].
    unfold settle; cbn [hash_seed]. rewrite NE. reflexivity. }
  rewrite S4, S1. destruct (hash_seed s) as [[|n]|] eqn:HS; [|exfalso; exact (Hn n eq_refl)|reflexivity].
  change u' with u. destruct (count o HashRandom); [symmetry; exact S2|discriminate].
Qed.
