(** Proofs for C76. *)
From Coq Require Import ZArith String Ascii DecimalString DecimalZ.
From Verif Require Import Lib ConfigModel SpawnModel SpawnSpec.
Local Open Scope list_scope.

(** Reading what was printed. *)
Lemma after_app a s : after a (a ++ s) = Some s.
Proof. induction a as [|x a IH]; simpl; [reflexivity|]. rewrite Nat.eqb_refl. exact IH. Qed.

Lemma token_app ok t rest : (forall c, In c t -> ok c = true) -> (forall c r, rest = c :: r -> ok c = false) ->
  token ok (t ++ rest) = (t, rest).
Proof.
  intros A B. induction t as [|c t IH]; simpl.
  - destruct rest as [|c r]; [reflexivity|]. simpl. rewrite (B c r eq_refl). reflexivity.
  - rewrite A by (left; reflexivity). rewrite IH; [reflexivity|]. intros d Hd. apply A. right. exact Hd.
Qed.

Lemma read_str_plain s r : plain s -> read_str (s ++ 39 :: r) = Some (s, r).
Proof.
  induction s as [|c s IH]; intros P; [reflexivity|]. cbn [app read_str].
  destruct (P c (or_introl eq_refl)) as (A & B & C & D & F).
  apply Nat.eqb_neq in A, B, C, D, F.
  rewrite A, B. cbn [existsb]. rewrite C, D, F. cbn [orb].
  rewrite IH; [reflexivity|]. intros d Hd. apply P. right. exact Hd.
Qed.

Lemma codes_string s : string_of (codes s) = s.
Proof.
  unfold string_of, codes. rewrite map_map.
  rewrite <- (string_of_list_ascii_of_string s) at 2. f_equal.
  rewrite <- (map_id (list_ascii_of_string s)) at 2. apply map_ext. intros a. apply ascii_nat_embedding.
Qed.

Definition int_char (c : nat) : bool := is_digit c || Nat.eqb c 45.

Lemma uint_chars u c : In c (codes (NilEmpty.string_of_uint u)) -> is_digit c = true.
Proof.
  induction u; simpl; intros H; try contradiction;
    (destruct H as [<-|H]; [reflexivity|apply IHu, H]).
Qed.

Lemma int_chars z c : In c (show_int z) -> int_char c = true.
Proof.
  unfold show_int, int_char. destruct (Z.to_int z) as [u|u]; simpl.
  - intros H. apply uint_chars in H. rewrite H. reflexivity.
  - intros [<-|H]; [reflexivity|]. apply uint_chars in H. rewrite H. reflexivity.
Qed.

Lemma int_nonempty z : show_int z <> [].
Proof.
  unfold show_int. intros H.
  assert (NilEmpty.string_of_int (Z.to_int z) = EmptyString) as E.
  { rewrite <- (codes_string (NilEmpty.string_of_int (Z.to_int z))). rewrite H. reflexivity. }
  assert (Some (Z.to_int z) = Some (Decimal.Pos Decimal.Nil)) as X.
  { rewrite <- NilEmpty.isi. rewrite E. reflexivity. }
  apply Some_inj in X. destruct z; simpl in X; try discriminate.
  apply (f_equal Z.of_int) in X. change (Decimal.Pos (Pos.to_uint p)) with (Z.to_int (Z.pos p)) in X.
  rewrite DecimalZ.of_to in X. discriminate.
Qed.

Lemma read_int rf z : read_number rf (show_int z) = Some (CInt z).
Proof.
  unfold read_number.
  assert (forallb (fun c => is_digit c || Nat.eqb c 45) (show_int z) = true) as ->
    by (apply forallb_forall; intros c H; exact (int_chars z c H)).
  pose proof (int_nonempty z) as N. destruct (show_int z) as [|c t] eqn:E; [congruence|]. rewrite <- E.
  unfold show_int. rewrite codes_string, NilEmpty.isi. simpl. rewrite DecimalZ.of_to. reflexivity.
Qed.

Lemma number_not c : number_char c = true -> c <> 39 /\ c <> 84 /\ c <> 70 /\ c <> 78 /\ c <> 41.
Proof. intros H. repeat split; intros ->; discriminate H. Qed.

Lemma int_number c : int_char c = true -> number_char c = true.
Proof.
  unfold int_char, number_char. intros H. apply orb_true_iff in H as [H|H]; rewrite ?H; [reflexivity|].
  apply Nat.eqb_eq in H as ->. reflexivity.
Qed.

Section Text.
Variable show_float : nat -> text.
Variable read_float : text -> option nat.
Variable repr_env : list (text * text) -> text.
Variable unrepr_env : text -> option (list (text * text) * text).
Hypothesis contract : repr_contract repr_env unrepr_env.

(** Values that are read as they were. *)
Definition readable (v : cval) : Prop :=
  match v with
  | CNone | CBool _ | CInt _ => True
  | CStr s => plain s
  | CFloat f => literal_float show_float read_float f
  | COther _ => False
  end.

Lemma read_num_lit t r v : (forall c, In c t -> number_char c = true) -> t <> [] ->
  read_number read_float t = Some v -> read_lit read_float (t ++ 41 :: r) = Some (v, 41 :: r).
Proof.
  intros A N H. destruct t as [|c t]; [congruence|].
  destruct (number_not c (A c (or_introl eq_refl))) as (n1 & n2 & n3 & n4 & _).
  assert (token number_char ((c :: t) ++ 41 :: r) = (c :: t, 41 :: r)) as T.
  { apply token_app; [exact A|]. intros d r' E. injection E as <- _. reflexivity. }
  unfold read_lit. cbn [app].
  assert (forall X Y : option (cval * text), (match c with 39 => X | _ => Y end) = Y) as M.
  { intros X Y. do 40 (destruct c as [|c]; [reflexivity || congruence|]). reflexivity. }
  rewrite M. cbn [codes list_ascii_of_string map after nat_of_ascii].
  change (nat_of_ascii "T") with 84. change (nat_of_ascii "F") with 70. change (nat_of_ascii "N") with 78.
  apply Nat.eqb_neq in n2, n3, n4. rewrite (Nat.eqb_sym 84), n2, (Nat.eqb_sym 70), n3, (Nat.eqb_sym 78), n4.
  cbn [app] in T. rewrite T. rewrite H. reflexivity.
Qed.

Lemma read_show v r : readable v -> read_lit read_float (show show_float v ++ 41 :: r) = Some (v, 41 :: r).
Proof.
  destruct v as [|s|b|z|f|n]; simpl readable; intros R.
  - reflexivity.
  - unfold show. change (codes "'") with [39]. rewrite <- app_assoc. cbn [app].
    rewrite <- app_assoc. cbn [app]. cbn [read_lit]. rewrite read_str_plain by exact R. reflexivity.
  - destruct b; reflexivity.
  - apply read_num_lit; [intros c H; apply int_number, (int_chars z), H|apply int_nonempty|apply read_int].
  - destruct R as (A & (c & I & B & C) & E). apply read_num_lit; [exact A| |].
    + intros N. cbn [show] in N. rewrite N in I. exact I.
    + unfold read_number. cbn [show].
      assert (forallb (fun c => is_digit c || Nat.eqb c 45) (show_float f) = false) as ->.
      { destruct (forallb _ _) eqn:X; [|reflexivity]. rewrite forallb_forall in X. specialize (X c I).
        rewrite B in X. apply Nat.eqb_neq in C. rewrite C in X. discriminate. }
      rewrite E. reflexivity.
  - contradiction.
Qed.

Lemma name_chars p c : In c (class_name p) -> name_char c = true.
Proof.
  assert (forallb name_char (class_name p) = true) as H by (destruct p; reflexivity).
  rewrite forallb_forall in H. apply H.
Qed.

Lemma text_eqb_refl t : text_eqb t t = true.
Proof. unfold text_eqb. destruct (list_eq_dec Nat.eq_dec t t); congruence. Qed.

Lemma text_eqb_eq a b : text_eqb a b = true <-> a = b.
Proof. unfold text_eqb. destruct (list_eq_dec Nat.eq_dec a b); intuition congruence. Qed.

Lemma class_of_name p : class_of (class_name p) = Some p.
Proof. destruct p; vm_compute; reflexivity. Qed.

Lemma read_put_show v r : readable v ->
  read_put read_float (codes ".put(" ++ show show_float v ++ codes ")" ++ r) = Some (v, r).
Proof.
  intros R. unfold read_put. rewrite after_app. change (codes ")") with [41]. cbn [app]. rewrite read_show by exact R. reflexivity.
Qed.

Definition print (x : stmt) : text :=
  match x with
  | SImport => codes "import unidist"
  | SImportCfg => codes "import unidist.config as cfg"
  | SBackend v => codes "cfg.Backend.put(" ++ show show_float v ++ codes ")"
  | SPut p v => put_line show_float p v
  | SRuntime l => codes "cfg.MpiRuntimeEnv.put(" ++ repr_env l ++ codes ")"
  | SImportOs => codes "import os"
  | SEnv n v => env_line (n, v)
  | SInit => codes "unidist.init()"
  end.

Definition fine (x : stmt) : Prop :=
  match x with SBackend v | SPut _ v => readable v | SEnv n v => plain n /\ plain v | _ => True end.

Lemma read_cfg_name n s : (forall c, In c n -> name_char c = true) ->
  read_cfg read_float unrepr_env (n ++ codes ".put(" ++ s) =
  if text_eqb n (codes "MpiRuntimeEnv") then
    match unrepr_env s with
    | None => None
    | Some (l, s) => option_map (fun r => (SRuntime l, r)) (after (codes ")") s)
    end
  else if text_eqb n (codes "Backend") then option_map (fun x => (SBackend (fst x), snd x)) (read_put read_float (codes ".put(" ++ s))
  else match class_of n with
       | None => None
       | Some p => option_map (fun x => (SPut p (fst x), snd x)) (read_put read_float (codes ".put(" ++ s))
       end.
Proof.
  intros N. unfold read_cfg. rewrite token_app; [|exact N|intros c r E; injection E as <- _; reflexivity].
  rewrite after_app. reflexivity.
Qed.

Lemma read_printed x rest : fine x -> (rest = [] \/ exists r, rest = codes "; " ++ r) ->
  read_stmt read_float unrepr_env (print x ++ rest) = Some (x, rest).
Proof.
  intros F R. unfold read_stmt. destruct x; simpl fine in F.
  - destruct R as [-> | (r & ->)]; reflexivity.
  - destruct R as [-> | (r & ->)]; reflexivity.
  - cbn [print]. change (codes "cfg.Backend.put(") with (codes "cfg." ++ codes "Backend" ++ codes ".put(").
    rewrite <- !app_assoc, after_app, read_cfg_name.
    + rewrite read_put_show by exact F. reflexivity.
    + apply (proj1 (forallb_forall name_char (codes "Backend"))). reflexivity.
  - cbn [print]. unfold put_line. rewrite <- !app_assoc, after_app, read_cfg_name by apply name_chars.
    rewrite read_put_show by exact F. rewrite class_of_name.
    destruct p; reflexivity.
  - cbn [print]. change (codes "cfg.MpiRuntimeEnv.put(") with (codes "cfg." ++ codes "MpiRuntimeEnv" ++ codes ".put(").
    rewrite <- !app_assoc, after_app, read_cfg_name.
    + rewrite contract. rewrite text_eqb_refl. rewrite after_app. reflexivity.
    + apply (proj1 (forallb_forall name_char (codes "MpiRuntimeEnv"))). reflexivity.
  - destruct R as [-> | (r & ->)]; reflexivity.
  - cbn [print]. unfold env_line. cbn [fst snd]. rewrite <- !app_assoc.
    assert (after (codes "cfg.") (codes "os.environ['" ++ n ++ codes "'] = '" ++ v ++ codes "'" ++ rest) = None) as -> by reflexivity.
    rewrite after_app. unfold read_env. destruct F as [Fn Fv].
    change (codes "'] = '") with (39 :: codes "] = '"). cbn [app]. rewrite read_str_plain by exact Fn.
    rewrite after_app. change (codes "'") with [39]. cbn [app]. rewrite read_str_plain by exact Fv. reflexivity.
  - destruct R as [-> | (r & ->)]; reflexivity.
Qed.

Lemma print_nonempty x : print x <> [].
Proof. destruct x; discriminate. Qed.

Lemma read_join l : l <> [] -> Forall fine l -> forall n, List.length l <= n ->
  read_program read_float unrepr_env n (join (map print l)) = Some l.
Proof.
  induction l as [|x l IH]; intros NE F n L; [congruence|]. inversion F as [|? ? Fx Fl]; subst.
  destruct n as [|n]; [simpl in L; lia|]. cbn [read_program].
  destruct l as [|y l].
  - simpl map. cbn [join]. rewrite <- (app_nil_r (print x)), read_printed by auto. reflexivity.
  - change (join (map print (x :: y :: l))) with (print x ++ codes "; " ++ join (map print (y :: l))).
    rewrite read_printed; [|exact Fx|right; eexists; reflexivity].
    change (codes "; " ++ join (map print (y :: l))) with (59 :: (32 :: join (map print (y :: l)))) at 1.
    cbn match. change (59 :: (32 :: join (map print (y :: l)))) with (codes "; " ++ join (map print (y :: l))).
    rewrite after_app. rewrite IH; [reflexivity|discriminate|exact Fl|simpl in *; lia].
Qed.

Lemma join_length l : Forall (fun s : text => s <> []) l -> List.length l <= List.length (join l).
Proof.
  induction l as [|s l IH]; intros F; [simpl; lia|]. inversion F as [|? ? A B]; subst. specialize (IH B).
  destruct l as [|s' l].
  - cbn [join]. destruct s; [congruence|]. simpl. lia.
  - change (join (s :: s' :: l)) with (s ++ codes "; " ++ join (s' :: l)). rewrite !app_length.
    destruct s; [congruence|]. simpl List.length in *. lia.
Qed.

Lemma read_back l : l <> [] -> Forall fine l ->
  read_program read_float unrepr_env (S (List.length (join (map print l)))) (join (map print l)) = Some l.
Proof.
  intros N F. apply read_join; [exact N|exact F|].
  pose proof (join_length (map print l)) as H. rewrite map_length in H.
  assert (Forall (fun s => s <> []) (map print l)) as G.
  { apply Forall_forall. intros s Hs. apply in_map_iff in Hs as (x & <- & _). apply print_nonempty. }
  specialize (H G). lia.
Qed.
End Text.

(** The configuration. *)
Section Conf.
Variable float_of : text -> option nat.

Definition typed (p : pname) (v : cval) : Prop :=
  match p, v with
  | (Cpus | PickleThr | SharedMemory | ServiceMemory | SharedThr), CInt _ => True
  | (Spawn | Log | Shared), CBool _ => True
  | Hosts, CStr _ => True
  | Backoff, CFloat _ => True
  | _, _ => False
  end.

Lemma cset_same c p st : cset c p st p = st.
Proof. unfold cset. destruct (pname_eq p p); congruence. Qed.

Lemma cset_other c p q st : q <> p -> cset c p st q = c q.
Proof. intros H. unfold cset. destruct (pname_eq q p); congruence. Qed.

Section Root.
Variable cpus : Z.

Definition pinv (p : pname) (st : pstate) : Prop :=
  st = fresh \/ exists v s, st = mkPState (Some v) (Some s) /\
    (s = DEFAULT -> default (param_of cpus p) = Some v) /\ (s <> DEFAULT -> typed p v).

Lemma allowed_all p v : allowed (param_of cpus p) v = true.
Proof. destruct p; reflexivity. Qed.

Lemma decode_typed p raw v : decode float_of (ptype_of (param_of cpus p)) raw = Some v -> typed p v.
Proof.
  destruct p; simpl; intros H; try (injection H as <-; exact Logic.I).
  destruct (float_of (strip raw)); [injection H as <-; exact Logic.I|discriminate].
Qed.

Lemma default_some p : exists d, default (param_of cpus p) = Some d.
Proof. destruct p; eexists; reflexivity. Qed.

(** What reading does to one parameter. *)
Lemma get_spec p st e st' a : pinv p st -> ConfigModel.get float_of (param_of cpus p) st e = (st', a) ->
  pinv p st' /\
  match a with
  | None => st' = st /\ value st = None
  | Some v => value st' = Some v /\ (exists s, value_source st' = Some s) /\
              forall e', ConfigModel.get float_of (param_of cpus p) st' e' = (st', Some v)
  end /\ (value st <> None -> st' = st /\ a = value st).
Proof.
  intros [-> | (v & s & -> & A & B)] H; unfold ConfigModel.get in H; cbn [value value_source fresh] in H.
  - destruct e as [raw|].
    + destruct (verify _ _); [|injection H as <- <-; split; [left; reflexivity|repeat split; congruence]].
      destruct (decode _ _ _) as [v|] eqn:D; [|injection H as <- <-; split; [left; reflexivity|repeat split; congruence]].
      rewrite allowed_all in H. injection H as <- <-.
      split; [right; exists v, GOT_FROM_CFG_SOURCE; repeat split; [discriminate|intros _; eapply decode_typed, D]|].
      split; [|cbn; congruence]. cbn. repeat split; [eexists; reflexivity|]. intros e'. unfold ConfigModel.get. cbn [value]. rewrite allowed_all. reflexivity.
    + destruct (default_some p) as [d Hd]. rewrite Hd in H. rewrite allowed_all in H. injection H as <- <-.
      split; [right; exists d, DEFAULT; repeat split; [intros _; exact Hd|congruence]|].
      split; [|cbn; congruence]. cbn. repeat split; [eexists; reflexivity|]. intros e'. unfold ConfigModel.get. cbn [value]. rewrite allowed_all. reflexivity.
  - rewrite allowed_all in H. injection H as <- <-.
    split; [right; exists v, s; auto|]. split; [|auto]. cbn. repeat split; [eexists; reflexivity|].
    intros e'. unfold ConfigModel.get. cbn [value]. rewrite allowed_all. reflexivity.
Qed.

Lemma put_typed p st v : typed p v -> put float_of (param_of cpus p) st v = (mkPState (Some v) (Some SET_BY_USER), true).
Proof. destruct p, v; simpl; intros H; try contradiction; reflexivity. Qed.

Lemma put_pinv p st v st' ok : put float_of (param_of cpus p) st v = (st', ok) ->
  st' = st \/ exists w, st' = mkPState (Some w) (Some SET_BY_USER) /\ typed p w.
Proof.
  unfold put. destruct (verify _ _) eqn:V; [|intros H; injection H as <- <-; auto].
  destruct (normalize _ _ _) as [w|] eqn:N; intros H; injection H as <- <-; auto.
  right. exists w. split; [reflexivity|].
  destruct p, v; simpl in V, N; try discriminate; try (injection N as <-; exact Logic.I).
  destruct (float_of (strip s)); simpl in N; [injection N as <-; exact Logic.I|discriminate].
Qed.

(** MpiPickleThreshold: its source may be that of another parameter. *)
Definition pk (st : pstate) : Prop := value st = None \/ exists z, value st = Some (CInt z).

Lemma pinv_pk st : pinv PickleThr st -> pk st.
Proof.
  intros [-> | (v & s & -> & A & B)]; [left; reflexivity|right]. simpl.
  assert (typed PickleThr v) as T.
  { destruct s; [|apply B; discriminate|apply B; discriminate]. specialize (A eq_refl). injection A as <-. exact Logic.I. }
  destruct v; try contradiction. eexists; reflexivity.
Qed.

Definition inv (c : conf) : Prop := (forall p, p <> PickleThr -> pinv p (c p)) /\ pk (c PickleThr).

(** A reading leaves alone what has been read or put before. *)
Definition keeps (c c' : conf) : Prop := forall p, p <> PickleThr -> value (c p) <> None -> c' p = c p.

Lemma keeps_refl c : keeps c c.
Proof. intros p _ _. reflexivity. Qed.

Lemma keeps_trans a b c : keeps a b -> keeps b c -> keeps a c.
Proof. intros A B p Hp H. rewrite B; [apply A; auto|auto|]. rewrite A; auto. Qed.

Variable e : environ.

Notation getp p st := (ConfigModel.get float_of (param_of cpus p) st (e (varname p))).

Lemma cfg_get_other c p : p <> PickleThr -> cfg_get float_of cpus c e p = (cset c p (fst (getp p (c p))), snd (getp p (c p))).
Proof. intros H. destruct p; try congruence; unfold cfg_get; destruct (ConfigModel.get _ _ _ _); reflexivity. Qed.

Lemma read_other c p c' a : p <> PickleThr -> inv c -> cfg_get float_of cpus c e p = (c', a) ->
  inv c' /\ keeps c c' /\ (forall q, q <> p -> c' q = c q) /\
  match a with None => True | Some v => value (c' p) = Some v /\ exists s, value_source (c' p) = Some s end.
Proof.
  intros Hp [I K] H. rewrite cfg_get_other in H by exact Hp.
  destruct (getp p (c p)) as [st b] eqn:E. cbn [fst snd] in H. apply pair_inj in H as [<- <-].
  destruct (get_spec p (c p) _ st b (I p Hp) E) as (A & B & C).
  assert (forall q, q <> p -> cset c p st q = c q) as O by (intros q Hq; apply cset_other, Hq).
  split; [split|split; [|split]].
  - intros q Hq. destruct (pname_eq q p) as [-> | N]; [rewrite cset_same; exact A|rewrite O by exact N; apply I, Hq].
  - rewrite O by auto. exact K.
  - intros q Hq V. destruct (pname_eq q p) as [-> | N]; [rewrite cset_same; apply C, V|apply O, N].
  - exact O.
  - destruct b as [v|]; [|exact Logic.I]. rewrite cset_same. destruct B as (B1 & B2 & _). auto.
Qed.

Definition on (c : conf) : Prop := shared_on float_of cpus e c.

Lemma on_keeps c c' : inv c -> keeps c c' -> (value (c Shared) <> None \/ c' Shared = c Shared \/ c' Shared = fst (getp Shared (c Shared))) ->
  (on c' <-> on c).
Proof.
  intros [I _] K H. unfold on, shared_on. rewrite !cfg_get_other by discriminate. cbn [snd].
  destruct H as [H | [H | H]].
  - rewrite (K Shared) by (auto; discriminate). reflexivity.
  - rewrite H. reflexivity.
  - rewrite H. destruct (getp Shared (c Shared)) as [st a] eqn:E. cbn [fst].
    destruct (get_spec Shared (c Shared) _ st a (I Shared ltac:(discriminate)) E) as (A & B & C).
    destruct a as [v|]; [destruct B as (_ & _ & B); rewrite B; reflexivity|]. destruct B as [-> _]. rewrite E. reflexivity.
Qed.

Lemma pickle_true v : v = CBool true \/
  forall (A : Type) (x y : A), match v with CBool true => x | _ => y end = y.
Proof. destruct v as [| | [] | | |]; auto. Qed.

Lemma thr_int st v : pinv SharedThr st -> value st = Some v -> exists z, v = CInt z.
Proof.
  intros [-> | (w & s & -> & A & B)] H; simpl in H; [discriminate|]. injection H as ->.
  assert (typed SharedThr v) as T.
  { destruct s; [|apply B; discriminate|apply B; discriminate]. specialize (A eq_refl). injection A as <-. exact Logic.I. }
  destruct v; try contradiction. eexists; reflexivity.
Qed.

Lemma pickle_plain st e' st' a : pk st -> ConfigModel.get float_of (param_of cpus PickleThr) st e' = (st', a) ->
  pk st' /\ match a with None => True | Some v => exists z, v = CInt z end.
Proof.
  intros K H. unfold ConfigModel.get in H. destruct K as [K | [z K]]; rewrite K in H.
  - destruct e' as [raw|].
    + destruct (verify _ _); [|injection H as <- <-; split; [left; exact K|exact Logic.I]].
      cbn [param_of ptype_of decode] in H. cbn [allowed choices param_of] in H. injection H as <- <-.
      split; [right|]; eexists; reflexivity.
    + cbn in H. injection H as <- <-. split; [right|]; eexists; reflexivity.
  - cbn in H. injection H as <- <-. split; [right|]; eexists; eauto.
Qed.

(** Reading MpiPickleThreshold. *)
Lemma read_pickle c c' a : inv c -> cfg_get float_of cpus c e PickleThr = (c', a) ->
  inv c' /\ keeps c c' /\ (forall q, q <> PickleThr -> q <> Shared -> q <> SharedThr -> c' q = c q) /\ (on c' <-> on c) /\
  match a with None => True | Some v => exists z, v = CInt z end /\
  (~ on c -> pinv PickleThr (c PickleThr) -> pinv PickleThr (c' PickleThr) /\
     (value (c PickleThr) <> None -> c' PickleThr = c PickleThr) /\
     match a with
     | None => True
     | Some v => value (c' PickleThr) = Some v /\ exists s, value_source (c' PickleThr) = Some s
     end).
Proof.
  intros Inv H. pose proof Inv as [I K]. unfold cfg_get in H.
  destruct (pickle_get _ _ _ _ _ _) as [[[s1 s2] s3] b] eqn:E. apply pair_inj in H as [<- <-].
  unfold pickle_get in E.
  destruct (getp Shared (c Shared)) as [t1 a1] eqn:E1.
  destruct (get_spec Shared (c Shared) _ t1 a1 (I Shared ltac:(discriminate)) E1) as (P1 & B1 & C1).
  assert (on c <-> a1 = Some (CBool true)) as On.
  { unfold on, shared_on. rewrite cfg_get_other by discriminate. rewrite E1. reflexivity. }
  set (d := cset (cset (cset c Shared s1) SharedThr s2) PickleThr s3).
  assert (d Shared = s1) as D1 by reflexivity. assert (d SharedThr = s2) as D2 by reflexivity.
  assert (d PickleThr = s3) as D3 by reflexivity.
  assert (forall q, q <> PickleThr -> q <> Shared -> q <> SharedThr -> d q = c q) as D4.
  { intros q A B C. unfold d. rewrite !cset_other by assumption. reflexivity. }
  clearbody d.
  assert (forall x1 x2 x3, pinv Shared x1 -> pinv SharedThr x2 -> pk x3 ->
           d Shared = x1 -> d SharedThr = x2 -> d PickleThr = x3 -> inv d) as Hinv.
  { intros x1 x2 x3 A B C F1 F2 F3. split; [|rewrite F3; exact C]. intros q Hq.
    destruct (pname_eq q Shared) as [-> | N1]; [rewrite F1; exact A|].
    destruct (pname_eq q SharedThr) as [-> | N2]; [rewrite F2; exact B|]. rewrite D4 by assumption. apply I, Hq. }
  assert (forall x1 x2, (value (c Shared) <> None -> x1 = c Shared) -> (value (c SharedThr) <> None -> x2 = c SharedThr) ->
           d Shared = x1 -> d SharedThr = x2 -> keeps c d) as Hk.
  { intros x1 x2 A B F1 F2 q Hq V.
    destruct (pname_eq q Shared) as [-> | N1]; [rewrite F1; auto|].
    destruct (pname_eq q SharedThr) as [-> | N2]; [rewrite F2; auto|]. apply D4; assumption. }
  assert (forall x1, d Shared = x1 -> keeps c d -> x1 = t1 \/ x1 = c Shared -> (on d <-> on c)) as Ho.
  { intros x1 F Kp X. apply on_keeps; [exact Inv|exact Kp|]. rewrite F. right. rewrite E1. destruct X; auto. }
  assert (pinv SharedThr (c SharedThr)) as I2 by (apply I; discriminate).
  destruct a1 as [v1|].
  2: { injection E as <- <- <- <-. destruct B1 as [-> V].
       split; [eapply Hinv; eauto|]. assert (keeps c d) as Kd by (eapply Hk; eauto).
       split; [exact Kd|]. split; [exact D4|]. split; [eapply Ho; eauto|]. split; [exact Logic.I|].
       intros _ Pp. rewrite D3. auto. }
  destruct (pickle_true v1) as [-> | Nv].
  - assert (on c) as Oc by (apply On; reflexivity).
    destruct (getp SharedThr (c SharedThr)) as [t2 a2] eqn:E2.
    destruct (get_spec SharedThr (c SharedThr) _ t2 a2 I2 E2) as (P2 & B2 & C2).
    assert (exists x3, pk x3 /\ s1 = t1 /\ s2 = t2 /\ s3 = x3 /\ match b with None => True | Some v => exists z, v = CInt z end) as (x3 & X1 & -> & -> & -> & X5).
    { destruct a2 as [v2|]; [|injection E as <- <- <- <-; exists (c PickleThr); auto].
      destruct B2 as (V2 & [sr Hsr] & _). unfold get_value_source in E. rewrite Hsr in E. injection E as <- <- <- <-.
      eexists. split; [|repeat split].
      - exact K.
      - eapply thr_int; eauto. }
    assert (keeps c d) as Kd by (apply (Hk t1 t2); [intros V; apply C1, V|intros V; apply C2, V|assumption|assumption]).
    split; [eapply Hinv; eauto|]. split; [exact Kd|]. split; [exact D4|]. split; [eapply Ho; eauto|]. split; [exact X5|].
    intros N. contradiction.
  - assert (exists st3, getp PickleThr (c PickleThr) = (st3, b) /\ s1 = t1 /\ s2 = c SharedThr /\ s3 = st3) as (st3 & E3 & -> & -> & ->).
    { rewrite Nv in E. destruct (getp PickleThr (c PickleThr)) as [st3 a3]. injection E as <- <- <- <-. eexists; repeat split. }
    assert (keeps c d) as Kd by (apply (Hk t1 (c SharedThr)); [intros V; apply C1, V|reflexivity|assumption|assumption]).
    destruct (pickle_plain _ _ _ _ K E3) as [K3 X3].
    split; [eapply Hinv; eauto|]. split; [exact Kd|]. split; [exact D4|]. split; [eapply Ho; eauto|]. split; [exact X3|].
    intros _ Pp. destruct (get_spec PickleThr (c PickleThr) _ st3 b Pp E3) as (P3 & B3 & C3). rewrite D3. split; [exact P3|].
    split; [intros V; apply C3, V|]. destruct b as [v|]; [|exact Logic.I]. destruct B3 as (B3 & B4 & _). auto.
Qed.

(** What any number of readings does. *)
Definition reads (c c' : conf) : Prop :=
  inv c' /\ keeps c c' /\ (on c' <-> on c) /\
  (~ on c -> pinv PickleThr (c PickleThr) ->
     pinv PickleThr (c' PickleThr) /\ (value (c PickleThr) <> None -> c' PickleThr = c PickleThr)).

Lemma reads_refl c : inv c -> reads c c.
Proof. intros I. split; [exact I|]. split; [apply keeps_refl|]. split; [reflexivity|auto]. Qed.

Lemma reads_trans a b c : reads a b -> reads b c -> reads a c.
Proof.
  intros (A1 & A2 & A3 & A4) (B1 & B2 & B3 & B4). split; [exact B1|]. split; [eapply keeps_trans; eauto|].
  split; [rewrite B3; exact A3|]. intros N P. destruct (A4 N P) as [P1 E1].
  destruct (B4 (fun X => N (proj1 A3 X)) P1) as [P2 E2]. split; [exact P2|].
  intros V. rewrite E2; [apply E1, V|]. rewrite E1; exact V.
Qed.

Lemma reads_get c p c' a : inv c -> cfg_get float_of cpus c e p = (c', a) -> reads c c'.
Proof.
  intros I H. destruct (pname_eq p PickleThr) as [-> | N].
  - destruct (read_pickle c c' a I H) as (A & B & _ & C & _ & D). split; [exact A|]. split; [exact B|]. split; [exact C|].
    intros X Y. destruct (D X Y) as (Z1 & Z2 & _). auto.
  - destruct (read_other c p c' a N I H) as (A & B & C & _).
    split; [exact A|]. split; [exact B|]. split.
    + apply on_keeps; [exact I|exact B|]. right. destruct (pname_eq Shared p) as [<- | M].
      * right. rewrite cfg_get_other in H by discriminate. apply pair_inj in H as [<- _]. apply cset_same.
      * left. apply C, M.
    + intros _ P. rewrite C by auto. auto.
Qed.

Lemma reads_source c p c' a : inv c -> cfg_source float_of cpus c e p = (c', a) -> reads c c'.
Proof.
  intros I H. unfold cfg_source in H. destruct (value_source (c p)).
  - apply pair_inj in H as [<- _]. apply reads_refl, I.
  - destruct (cfg_get _ _ _ _ _) as [d b] eqn:G. apply pair_inj in H as [<- _]. eapply reads_get; eauto.
Qed.

(** The parameters whose source can be trusted. *)
Definition sound (c : conf) (p : pname) : Prop := p <> PickleThr \/ (~ on c /\ pinv PickleThr (c PickleThr)).

Lemma sound_pinv c p : inv c -> sound c p -> pinv p (c p).
Proof. intros [I _] [N | [_ P]]; [apply I, N|]. destruct (pname_eq p PickleThr) as [-> | N]; [exact P|apply I, N]. Qed.

Lemma sound_reads c c' p : reads c c' -> sound c p -> sound c' p /\ (value (c p) <> None -> c' p = c p).
Proof.
  intros (A & B & C & D) [N | [O P]].
  - split; [left; exact N|apply B, N].
  - destruct (pname_eq p PickleThr) as [-> | N]; [|split; [left; exact N|apply B, N]].
    destruct (D O P) as [X Y]. split; [right; split; [tauto|exact X]|exact Y].
Qed.

Lemma sound_get c p c' v : inv c -> sound c p -> cfg_get float_of cpus c e p = (c', Some v) ->
  value (c' p) = Some v /\ exists s, value_source (c' p) = Some s.
Proof.
  intros I Q H. destruct (pname_eq p PickleThr) as [-> | N].
  - destruct Q as [Q | [O P]]; [congruence|]. destruct (read_pickle c c' _ I H) as (_ & _ & _ & _ & _ & D).
    destruct (D O P) as (_ & _ & X). exact X.
  - destruct (read_other c p c' _ N I H) as (_ & _ & _ & X). exact X.
Qed.

Lemma sound_source c p c' s : inv c -> sound c p -> cfg_source float_of cpus c e p = (c', Some s) ->
  value_source (c' p) = Some s /\ value (c' p) <> None.
Proof.
  intros I Q H. unfold cfg_source in H. destruct (value_source (c p)) as [s0|] eqn:S0.
  - apply pair_inj in H as [<- E]. apply Some_inj in E. subst s0. split; [exact S0|].
    destruct (sound_pinv c p I Q) as [X | (v & s1 & X & _)]; rewrite X in *; discriminate.
  - destruct (cfg_get _ _ _ _ _) as [d b] eqn:G. apply pair_inj in H as [<- E]. destruct b as [v|]; [|discriminate].
    destruct (sound_get c p d v I Q G) as (A & _). split; [exact E|congruence].
Qed.

(** The lines of the program. *)
Lemma lines_spec sf ps : forall c c1 lines, NoDup ps -> inv c -> put_lines float_of sf cpus e c ps = Some (c1, lines) ->
  reads c c1 /\ exists l, lines = map (fun pv => put_line sf (fst pv) (snd pv)) l /\ incl (map fst l) ps /\ NoDup (map fst l) /\
    Forall (fun pv => typed (fst pv) (snd pv)) l /\
    forall p, In p ps -> sound c p -> exists v s, c1 p = mkPState (Some v) (Some s) /\
      (s = DEFAULT -> ~ In p (map fst l)) /\ (s <> DEFAULT -> In (p, v) l).
Proof.
  induction ps as [|p r IH]; intros c c1 lines N I H; cbn [put_lines] in H.
  - apply Some_inj, pair_inj in H as [<- <-]. split; [apply reads_refl, I|]. exists []. repeat split; try constructor.
    + intros x [].
    + intros x [].
  - inversion N as [|? ? Np Nr]; subst.
    destruct (cfg_source float_of cpus c e p) as [ca os] eqn:Hs. destruct os as [s|]; [|discriminate].
    pose proof (reads_source c p ca _ I Hs) as Ra. pose proof (proj1 Ra) as Ia.
    assert (forall cb, reads ca cb -> sound c p -> exists v, cb p = mkPState (Some v) (Some s) /\ (s <> DEFAULT -> typed p v)) as Hp.
    { intros cb Rb Q. destruct (sound_source c p ca s I Q Hs) as [S1 V1]. destruct (sound_reads c ca p Ra Q) as [Qa _].
      destruct (sound_reads ca cb p Rb Qa) as [_ K]. rewrite (K V1).
      destruct (sound_pinv ca p Ia Qa) as [X | (v & s1 & X & _ & T)]; rewrite X in *; [discriminate|].
      cbn in S1. apply Some_inj in S1. subst s1. exists v. auto. }
    destruct s.
    + destruct (IH ca c1 lines Nr Ia H) as (R1 & l & -> & A & B & T & D). split; [eapply reads_trans; eauto|].
      exists l. split; [reflexivity|]. split; [intros x X; right; apply A, X|]. split; [exact B|]. split; [exact T|].
      intros q [<- | Hq] Q.
      * destruct (Hp c1 R1 Q) as (v & E & _). exists v, DEFAULT. split; [exact E|]. split; [|congruence].
        intros _ X. apply Np, A, X.
      * apply D; [exact Hq|]. eapply sound_reads; eauto.
    + assert (exists cb v l, cfg_get float_of cpus ca e p = (cb, Some v) /\ put_lines float_of sf cpus e cb r = Some (c1, l) /\ lines = put_line sf p v :: l) as (cb & v & l0 & G & P & ->).
      { destruct (cfg_get float_of cpus ca e p) as [cb [v|]]; [|discriminate]. destruct (put_lines float_of sf cpus e cb r) as [[c2 l0]|] eqn:P; [|discriminate].
        apply Some_inj, pair_inj in H as [<- <-]. exists cb, v, l0. auto. }
      clear H. pose proof (reads_get ca p cb _ Ia G) as Rb. pose proof (proj1 Rb) as Ib.
      destruct (IH cb c1 l0 Nr Ib P) as (R1 & l & -> & A & B & T & D). pose proof (reads_trans _ _ _ Rb R1) as R2.
      split; [eapply reads_trans; eauto|].
      assert (typed p v) as Tv.
      { destruct (pname_eq p PickleThr) as [-> | Np'].
        - destruct (read_pickle ca cb _ Ia G) as (_ & _ & _ & _ & [z ->] & _). exact Logic.I.
        - destruct (Hp cb Rb (or_introl Np')) as (w & E & F). assert (sound ca p) as Qa by (left; exact Np').
          destruct (sound_get ca p cb v Ia Qa G) as [V _]. rewrite E in V. cbn in V. apply Some_inj in V. subst w. apply F. discriminate. }
      exists ((p, v) :: l). split; [reflexivity|]. split; [intros x [<- | X]; [left; reflexivity|right; apply A, X]|].
      split; [constructor; [intros X; apply Np, A, X|exact B]|]. split; [constructor; [exact Tv|exact T]|].
      intros q [<- | Hq] Q.
      * destruct (Hp c1 R2 Q) as (w & E & _). exists w, SET_BY_USER. split; [exact E|]. split; [discriminate|]. intros _. left.
        destruct (sound_reads c ca p Ra Q) as [Qa _]. destruct (sound_get ca p cb v Ia Qa G) as [V _].
        destruct (sound_reads ca cb p Rb Qa) as [Qb _]. destruct (sound_reads cb c1 p R1 Qb) as [_ K]. rewrite K in E by congruence.
        rewrite E in V. cbn in V. apply Some_inj in V. congruence.
      * destruct (sound_reads c ca q Ra Q) as [Qa _]. destruct (sound_reads ca cb q Rb Qa) as [Qb _].
        destruct (D q Hq Qb) as (w & s & E & X & Y). exists w, s. split; [exact E|]. split.
        -- intros S [F | F]; [cbn in F; congruence|exact (X S F)].
        -- intros S. right. apply Y, S.
    + assert (exists cb v l, cfg_get float_of cpus ca e p = (cb, Some v) /\ put_lines float_of sf cpus e cb r = Some (c1, l) /\ lines = put_line sf p v :: l) as (cb & v & l0 & G & P & ->).
      { destruct (cfg_get float_of cpus ca e p) as [cb [v|]]; [|discriminate]. destruct (put_lines float_of sf cpus e cb r) as [[c2 l0]|] eqn:P; [|discriminate].
        apply Some_inj, pair_inj in H as [<- <-]. exists cb, v, l0. auto. }
      clear H. pose proof (reads_get ca p cb _ Ia G) as Rb. pose proof (proj1 Rb) as Ib.
      destruct (IH cb c1 l0 Nr Ib P) as (R1 & l & -> & A & B & T & D). pose proof (reads_trans _ _ _ Rb R1) as R2.
      split; [eapply reads_trans; eauto|].
      assert (typed p v) as Tv.
      { destruct (pname_eq p PickleThr) as [-> | Np'].
        - destruct (read_pickle ca cb _ Ia G) as (_ & _ & _ & _ & [z ->] & _). exact Logic.I.
        - destruct (Hp cb Rb (or_introl Np')) as (w & E & F). assert (sound ca p) as Qa by (left; exact Np').
          destruct (sound_get ca p cb v Ia Qa G) as [V _]. rewrite E in V. cbn in V. apply Some_inj in V. subst w. apply F. discriminate. }
      exists ((p, v) :: l). split; [reflexivity|]. split; [intros x [<- | X]; [left; reflexivity|right; apply A, X]|].
      split; [constructor; [intros X; apply Np, A, X|exact B]|]. split; [constructor; [exact Tv|exact T]|].
      intros q [<- | Hq] Q.
      * destruct (Hp c1 R2 Q) as (w & E & _). exists w, GOT_FROM_CFG_SOURCE. split; [exact E|]. split; [discriminate|]. intros _. left.
        destruct (sound_reads c ca p Ra Q) as [Qa _]. destruct (sound_get ca p cb v Ia Qa G) as [V _].
        destruct (sound_reads ca cb p Rb Qa) as [Qb _]. destruct (sound_reads cb c1 p R1 Qb) as [_ K]. rewrite K in E by congruence.
        rewrite E in V. cbn in V. apply Some_inj in V. congruence.
      * destruct (sound_reads c ca q Ra Q) as [Qa _]. destruct (sound_reads ca cb q Rb Qa) as [Qb _].
        destruct (D q Hq Qb) as (w & s & E & X & Y). exists w, s. split; [exact E|]. split.
        -- intros S [F | F]; [cbn in F; congruence|exact (X S F)].
        -- intros S. right. apply Y, S.
Qed.

(** The program's own uses. *)
Lemma put_inv c p v : inv c -> inv (fst (cfg_put float_of cpus c p v)).
Proof.
  intros [I K]. unfold cfg_put. destruct (put _ _ _ _) as [st ok] eqn:P. cbn [fst].
  pose proof (put_pinv p (c p) v st ok P) as H. split.
  - intros q Hq. destruct (pname_eq q p) as [-> | N]; [|rewrite cset_other by exact N; apply I, Hq]. rewrite cset_same.
    destruct H as [-> | (w & -> & T)]; [apply I, Hq|]. right. exists w, SET_BY_USER. repeat split; [discriminate|auto].
  - destruct (pname_eq PickleThr p) as [<- | N]; [|rewrite cset_other by exact N; exact K]. rewrite cset_same.
    destruct H as [-> | (w & -> & T)]; [exact K|]. right. destruct w; try contradiction. eexists; reflexivity.
Qed.

Lemma step_inv c u : inv c -> inv (use_step float_of cpus e c u).
Proof.
  intros I. destruct u as [p|p v|p]; cbn [use_step].
  - destruct (cfg_get _ _ _ _ _) as [d a] eqn:G. eapply reads_get; eauto.
  - apply put_inv, I.
  - destruct (cfg_source _ _ _ _ _) as [d a] eqn:G. eapply reads_source; eauto.
Qed.

Lemma inv0 : inv conf0.
Proof. split; [intros p _; left; reflexivity|left; reflexivity]. Qed.

Lemma uses_snoc us u : uses float_of cpus e (us ++ [u]) = use_step float_of cpus e (uses float_of cpus e us) u.
Proof. unfold uses. rewrite fold_left_app. reflexivity. Qed.

Lemma uses_inv us : inv (uses float_of cpus e us).
Proof. induction us as [|u us IH] using rev_ind; [exact inv0|]. rewrite uses_snoc. apply step_inv, IH. Qed.

Lemma uses_pickle us : not_read_shared float_of cpus e us -> pinv PickleThr (uses float_of cpus e us PickleThr).
Proof.
  induction us as [|u us IH] using rev_ind; intros N; [left; reflexivity|]. rewrite uses_snoc.
  assert (pinv PickleThr (uses float_of cpus e us PickleThr)) as P.
  { apply IH. intros a x b E X. apply (N a x (b ++ [u])); [rewrite E, <- app_assoc; reflexivity|exact X]. }
  pose proof (uses_inv us) as I. specialize (N us u [] eq_refl).
  destruct u as [p|p v|p]; cbn [use_step].
  - destruct (cfg_get _ _ _ _ _) as [d a] eqn:G. cbn [fst]. destruct (pname_eq p PickleThr) as [-> | Np].
    + apply (reads_get _ _ _ _ I G); [apply N; auto|exact P].
    + destruct (read_other _ _ _ _ Np I G) as (_ & _ & O & _). rewrite O by auto. exact P.
  - unfold cfg_put. destruct (put _ _ _ _) as [st ok] eqn:Q. cbn [fst].
    destruct (pname_eq PickleThr p) as [<- | Np]; [|rewrite cset_other by exact Np; exact P]. rewrite cset_same.
    destruct (put_pinv _ _ _ _ _ Q) as [-> | (w & -> & T)]; [exact P|]. right. exists w, SET_BY_USER. repeat split; [discriminate|auto].
  - destruct (cfg_source _ _ _ _ _) as [d a] eqn:G. cbn [fst]. destruct (pname_eq p PickleThr) as [-> | Np].
    + apply (reads_source _ _ _ _ I G); [apply N; auto|exact P].
    + unfold cfg_source in G. destruct (value_source _); [apply pair_inj in G as [<- _]; exact P|].
      destruct (cfg_get _ _ _ _ _) as [d' b] eqn:G'. apply pair_inj in G as [<- _].
      destruct (read_other _ _ _ _ Np I G') as (_ & _ & O & _). rewrite O by auto. exact P.
Qed.

(** Reading MpiPickleThreshold, put together from readings of the parameters themselves. *)
Lemma get_pickle c : inv c ->
  snd (cfg_get float_of cpus c e PickleThr) =
  match snd (getp Shared (c Shared)) with
  | None => None
  | Some (CBool true) => snd (getp SharedThr (c SharedThr))
  | Some _ => snd (getp PickleThr (c PickleThr))
  end.
Proof.
  intros [I _]. unfold cfg_get. destruct (pickle_get _ _ _ _ _ _) as [[[s1 s2] s3] b] eqn:E. cbn [snd].
  unfold pickle_get in E. destruct (getp Shared (c Shared)) as [t1 a1]. cbn [snd].
  destruct a1 as [v1|]; [|congruence].
  destruct (pickle_true v1) as [-> | Nv].
  - destruct (getp SharedThr (c SharedThr)) as [t2 a2] eqn:E2. cbn [snd].
    destruct (get_spec SharedThr (c SharedThr) _ t2 a2 (I SharedThr ltac:(discriminate)) E2) as (P2 & B2 & C2).
    destruct a2 as [v2|]; [|congruence]. destruct B2 as (_ & [sr Hsr] & _). unfold get_value_source in E. rewrite Hsr in E. congruence.
  - rewrite Nv in *. destruct (getp PickleThr (c PickleThr)) as [st3 a3]. cbn [snd]. congruence.
Qed.
End Root.

(** What the spawned process has after the calls of put. *)
Definition putting (c : conf) (l : list (pname * cval)) : conf :=
  fold_left (fun c pv => cset c (fst pv) (mkPState (Some (snd pv)) (Some SET_BY_USER))) l c.

Lemma putting_other l : forall c p, ~ In p (map fst l) -> putting c l p = c p.
Proof.
  induction l as [|[q v] l IH]; intros c p N; [reflexivity|]. cbn [putting fold_left fst snd]. unfold putting in IH. rewrite IH.
  - apply cset_other. intros ->. apply N. left. reflexivity.
  - intros X. apply N. right. exact X.
Qed.

Lemma putting_in l : forall c p v, NoDup (map fst l) -> In (p, v) l -> putting c l p = mkPState (Some v) (Some SET_BY_USER).
Proof.
  induction l as [|[q w] l IH]; intros c p v N Hin; [destruct Hin|]; destruct Hin as [E | H]; cbn [map fst] in N; inversion N as [|? ? Nq Nl]; subst.
  - injection E as -> ->. change (putting (cset c p (mkPState (Some v) (Some SET_BY_USER))) l p = mkPState (Some v) (Some SET_BY_USER)).
    rewrite putting_other by exact Nq. apply cset_same.
  - change (putting (cset c q (mkPState (Some w) (Some SET_BY_USER))) l p = mkPState (Some v) (Some SET_BY_USER)). apply IH; assumption.
Qed.

Lemma execute_puts cp im l : n_cfg im = true -> forall c e r, Forall (fun pv => typed (fst pv) (snd pv)) l ->
  execute float_of cp im c e (map (fun pv => SPut (fst pv) (snd pv)) l ++ r) = execute float_of cp im (putting c l) e r.
Proof.
  intros Im. induction l as [|[p v] l IH]; intros c e r T; [reflexivity|]. inversion T as [|? ? Tp Tl]; subst. cbn [fst snd] in Tp.
  cbn [map app execute fst snd]. unfold cfg_put. rewrite (put_typed cp p (c p) v Tp), Im. cbn [andb]. rewrite IH by exact Tl. reflexivity.
Qed.

Lemma putting_inv cp l : NoDup (map fst l) -> Forall (fun pv => typed (fst pv) (snd pv)) l -> inv cp (putting conf0 l).
Proof.
  intros N T.
  assert (forall p, putting conf0 l p = fresh \/ exists v, putting conf0 l p = mkPState (Some v) (Some SET_BY_USER) /\ typed p v) as A.
  { intros p. destruct (in_dec pname_eq p (map fst l)) as [H | H].
    - right. apply in_map_iff in H as ([q v] & <- & H). exists v. split; [apply putting_in; assumption|].
      rewrite Forall_forall in T. exact (T _ H).
    - left. rewrite putting_other by exact H. reflexivity. }
  split.
  - intros p _. destruct (A p) as [-> | (v & -> & Tv)]; [left; reflexivity|]. right. exists v, SET_BY_USER. repeat split; [discriminate|auto].
  - destruct (A PickleThr) as [-> | (v & -> & Tv)]; [left; reflexivity|]. right. destruct v; try contradiction. eexists; reflexivity.
Qed.

Lemma execute_env cp im l : n_os im = true -> forall c e r,
  execute float_of cp im c e (map (fun nv => SEnv (fst nv) (snd nv)) l ++ r) =
  execute float_of cp im c (fold_left (fun e nv => setenv e (fst nv) (snd nv)) l e) r.
Proof.
  intros Im. induction l as [|[n v] l IH]; intros c e r; [reflexivity|]. cbn [map app execute fst snd fold_left]. rewrite Im. apply IH.
Qed.

Definition runtime_stmts (rt : option (list (text * text))) : list stmt :=
  match rt with None => [] | Some l => SRuntime l :: SImportOs :: map (fun nv => SEnv (fst nv) (snd nv)) l end.

Lemma execute_runtime cp im rt c e : n_unidist im = true -> n_cfg im = true ->
  execute float_of cp im c e (runtime_stmts rt ++ [SInit]) = Some (c, assigned rt e).
Proof.
  intros A B. destruct rt as [l|]; [|cbn; rewrite A; reflexivity]. cbn [runtime_stmts app execute]. rewrite B.
  rewrite execute_env by reflexivity. cbn [execute n_unidist]. rewrite A. reflexivity.
Qed.

(** The spawned process. *)
Section Main.
Variable show_float : nat -> text.
Variable read_float : text -> option nat.
Variable repr_env : list (text * text) -> text.
Variable unrepr_env : text -> option (list (text * text) * text).
Variables root_cpus child_cpus : Z.
Variables e ec : environ.
Variable us : list use.
Variable rt : option (list (text * text)).
Variable root : conf.
Variable prog : text.
Hypothesis R : repr_contract repr_env unrepr_env.
Hypothesis P : program float_of show_float repr_env root_cpus e (uses float_of root_cpus e us) rt = Some (root, prog).
Hypothesis Hh : forall h, value (root Hosts) = Some (CStr h) -> plain h.
Hypothesis Hb : forall f, value (root Backoff) = Some (CFloat f) -> literal_float show_float read_float f.
Hypothesis Hr : forall l n v, rt = Some l -> In (n, v) l -> plain n /\ plain v.

Notation uc := (uses float_of root_cpus e us).
Notation sound0 := (sound root_cpus e uc).

Lemma nodup_handed : NoDup handed_on.
Proof. unfold handed_on. repeat constructor; simpl; intuition discriminate. Qed.

Lemma all_handed p : In p handed_on.
Proof. unfold handed_on. destruct p; simpl; tauto. Qed.

Lemma child_is : reads root_cpus e uc root /\ exists l,
  NoDup (map fst l) /\ Forall (fun pv => typed (fst pv) (snd pv)) l /\
  (forall p, sound0 p -> exists v s, root p = mkPState (Some v) (Some s) /\
     (s = DEFAULT -> ~ In p (map fst l) /\ default (param_of root_cpus p) = Some v) /\ (s <> DEFAULT -> In (p, v) l)) /\
  spawned float_of read_float unrepr_env child_cpus ec prog = Some (putting conf0 l, assigned rt ec).
Proof.
  unfold program in P. destruct (put_lines float_of show_float root_cpus e uc handed_on) as [[c1 lines]|] eqn:L; [|discriminate].
  apply Some_inj, pair_inj in P as [-> Ep].
  destruct (lines_spec root_cpus e show_float handed_on uc root lines nodup_handed (uses_inv root_cpus e us) L) as (Rd & l & -> & _ & N & T & D).
  split; [exact Rd|]. exists l. split; [exact N|]. split; [exact T|].
  assert (forall p, sound0 p -> exists v s, root p = mkPState (Some v) (Some s) /\
     (s = DEFAULT -> ~ In p (map fst l) /\ default (param_of root_cpus p) = Some v) /\ (s <> DEFAULT -> In (p, v) l)) as D'.
  { intros p Q. destruct (D p (all_handed p) Q) as (v & s & E & X & Y). exists v, s. split; [exact E|]. split; [|exact Y].
    intros S. split; [apply X, S|]. destruct (sound_reads root_cpus e _ _ p Rd Q) as [Qr _].
    destruct (sound_pinv root_cpus e root p (proj1 Rd) Qr) as [F | (w & s' & F & G & _)]; rewrite E in F; [discriminate|].
    injection F as <- <-. apply G, S. }
  split; [exact D'|].
  set (stmts := [SImport; SImportCfg; SBackend (CStr (codes "mpi"))] ++ map (fun pv => SPut (fst pv) (snd pv)) l ++ runtime_stmts rt ++ [SInit]).
  assert (prog = join (map (print show_float repr_env) stmts)) as ->.
  { rewrite <- Ep. unfold stmts. rewrite !map_app, !map_map. do 3 f_equal.
    assert (runtime_lines repr_env rt = map (print show_float repr_env) (runtime_stmts rt)) as ->; [|reflexivity].
    destruct rt as [rl|]; [|reflexivity]. cbn [runtime_lines runtime_stmts map print]. rewrite map_map. do 2 f_equal.
    all: try (apply map_ext; intros [n v]; reflexivity). }
  unfold spawned. rewrite (read_back show_float read_float repr_env unrepr_env R stmts).
  - unfold stmts. cbn [app]. cbn [execute]. change (text_eqb (lower (strip (codes "mpi"))) (codes "mpi")) with true. cbn [andb n_unidist n_cfg n_os]. cbn iota.
    rewrite execute_puts by (reflexivity || exact T). apply execute_runtime; reflexivity.
  - discriminate.
  - unfold stmts. apply Forall_app. split.
    + constructor; [exact Logic.I|]. constructor; [exact Logic.I|]. constructor; [|constructor]. cbn [fine readable]. intros c Hc. simpl in Hc. destruct Hc as [<- | [<- | [<- | []]]]; repeat split; discriminate.
    + apply Forall_app. split; [|apply Forall_app; split; [|repeat constructor]].
      * apply Forall_map, Forall_forall. intros [p v] H. cbn [fine fst snd].
        assert (p <> PickleThr -> value (root p) = Some v) as V.
        { intros Np. destruct (D' p (or_introl Np)) as (w & s & E & X & Y). rewrite E. cbn. f_equal.
          assert (s = DEFAULT \/ s <> DEFAULT) as [S | S] by (destruct s; auto; right; discriminate).
          - destruct (X S) as [Z _]. exfalso. apply Z. apply in_map_iff. exists (p, v). auto.
          - specialize (Y S). pose proof (putting_in l conf0 p w N Y) as A. pose proof (putting_in l conf0 p v N H) as B. congruence. }
        rewrite Forall_forall in T. specialize (T _ H). cbn in T.
        destruct p, v; try contradiction; try exact Logic.I; cbn [readable]; [apply Hh|apply Hb]; apply V; discriminate.
      * destruct rt as [rl|]; [|constructor]. repeat constructor. apply Forall_map, Forall_forall. intros [n v] H. cbn [fine fst snd]. eapply Hr; eauto.
Qed.

Notation base cp c e p := (snd (ConfigModel.get float_of (param_of cp p) (c p) (e (varname p)))).

Lemma same_base : exists child, spawned float_of read_float unrepr_env child_cpus ec prog = Some (child, assigned rt ec) /\
  inv child_cpus child /\ reads root_cpus e uc root /\
  forall p, sound0 p -> settled root_cpus child_cpus root (assigned rt ec) p ->
    exists v, base child_cpus child (assigned rt ec) p = Some v /\ base root_cpus root e p = Some v.
Proof.
  destruct child_is as (Rd & l & N & T & D & Sp). exists (putting conf0 l). split; [exact Sp|]. split; [apply putting_inv; assumption|].
  split; [exact Rd|].
  intros p Q St. destruct (D p Q) as (v & s & E & X & Y). exists v.
  assert (s = DEFAULT \/ s <> DEFAULT) as [S | S] by (destruct s; auto; right; discriminate).
  - destruct (X S) as [Z Df]. destruct St as [St | [St1 St2]]; [rewrite E in St; cbn in St; congruence|].
    rewrite putting_other by exact Z. rewrite E, St1. unfold ConfigModel.get. cbn [value conf0 fresh]. rewrite St2, Df, !allowed_all. auto.
  - rewrite (putting_in l conf0 p v N (Y S)), E. unfold ConfigModel.get. cbn [value]. rewrite !allowed_all. auto.
Qed.

Lemma same_values : exists child, spawned float_of read_float unrepr_env child_cpus ec prog = Some (child, assigned rt ec) /\
  forall p, p <> PickleThr -> settled root_cpus child_cpus root (assigned rt ec) p ->
    exists v, snd (cfg_get float_of child_cpus child (assigned rt ec) p) = Some v /\ snd (cfg_get float_of root_cpus root e p) = Some v.
Proof.
  destruct same_base as (child & A & _ & _ & B). exists child. split; [exact A|]. intros p Np St.
  rewrite !cfg_get_other by exact Np. cbn [snd]. apply B; [left; exact Np|exact St].
Qed.

Lemma same_pickle :
  settled root_cpus child_cpus root (assigned rt ec) Shared ->
  (shared_on float_of root_cpus e root -> settled root_cpus child_cpus root (assigned rt ec) SharedThr) ->
  (~ shared_on float_of root_cpus e root -> settled root_cpus child_cpus root (assigned rt ec) PickleThr /\ not_read_shared float_of root_cpus e us) ->
  exists child, spawned float_of read_float unrepr_env child_cpus ec prog = Some (child, assigned rt ec) /\
    exists v, snd (cfg_get float_of child_cpus child (assigned rt ec) PickleThr) = Some v /\
              snd (cfg_get float_of root_cpus root e PickleThr) = Some v.
Proof.
  intros S1 S2 S3. destruct same_base as (child & A & Ic & Rd & B). exists child. split; [exact A|].
  assert (sound0 Shared) as Q1 by (left; discriminate). assert (sound0 SharedThr) as Q2 by (left; discriminate).
  destruct (B Shared Q1 S1) as (v1 & V1 & V2).
  rewrite (get_pickle child_cpus (assigned rt ec) child Ic), (get_pickle root_cpus e root (proj1 Rd)).
  unfold shared_on in S2, S3. rewrite cfg_get_other in S2, S3 by discriminate. cbn [snd] in S2, S3. rewrite V1, V2 in *.
  destruct (pickle_true v1) as [-> | Nv].
  - apply B; [exact Q2|]. apply S2. reflexivity.
  - rewrite !Nv. assert (Some v1 <> Some (CBool true)) as Off.
    { intros F. apply Some_inj in F. subst v1. specialize (Nv bool true false). discriminate. }
    destruct (S3 Off) as [St Nr]. apply B; [|exact St]. right. split.
    + destruct Rd as (_ & _ & O & _). intros F. apply Off. apply O in F. unfold on, shared_on in F.
      rewrite cfg_get_other in F by discriminate. cbn [snd] in F. congruence.
    + apply uses_pickle, Nr.
Qed.
End Main.
End Conf.
