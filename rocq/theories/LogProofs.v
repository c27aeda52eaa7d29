(** Proofs of C100. *)
From Verif Require Import Lib LogModel LogSpec.

Lemma setn_eq {A} (f : nat -> A) k v : setn f k v k = v.
Proof. unfold setn. now rewrite Nat.eqb_refl. Qed.
Lemma setn_ne {A} (f : nat -> A) k v j : j <> k -> setn f k v j = f j.
Proof. intros N. unfold setn. destruct (Nat.eqb_spec j k); congruence. Qed.

Lemma emit_root m hs : forall s, root (fold_left (emit1 m) hs s) = root s.
Proof. induction hs as [|x hs IH]; intros s; [reflexivity|]. cbn. rewrite IH. now destruct x. Qed.
Lemma emit_logs m hs : forall s, logs (fold_left (emit1 m) hs s) = logs s.
Proof. induction hs as [|x hs IH]; intros s; [reflexivity|]. cbn. rewrite IH. now destruct x. Qed.
Lemma emit_file m f hs : forall s, ~ In (HFile f) hs -> files (fold_left (emit1 m) hs s) f = files s f.
Proof.
  induction hs as [|x hs IH]; intros s N; [reflexivity|]. cbn. rewrite IH by (intros C; apply N; now right).
  destruct x as [g|u]; [|reflexivity]. cbn. apply setn_ne. intros ->. apply N. now left.
Qed.

(** Events that keep to the loggers N and files F of the backend. *)
Definition okev (N F : nat -> Prop) (e : lev) : Prop :=
  match e with
  | UImport n f => N n /\ F f
  | ULog n _ _ => N n
  | ARootLevel l => True
  | ARootHandler k => forall f, F f -> k <> HFile f
  | ARootLog _ _ => True
  | ALevel k _ => ~ N k
  | AHandler k x => ~ N k /\ forall f, F f -> x <> HFile f
  | ALog k _ _ => ~ N k
  end.

Lemma okev_all h : backend_ok h -> app_apart h -> Forall (okev (ours h) (our_file h)) h.
Proof.
  intros [B1 _] [A1 A2]. apply Forall_forall. intros e I. destruct e as [n f|n u m|l|k|l m|n l|n k|n l m]; cbn.
  - split; eexists; exact I.
  - eapply B1, I.
  - trivial.
  - intros f Ff. exact (A2 f Ff _ I).
  - trivial.
  - intros O. exact (A1 n O _ I eq_refl).
  - split; [intros O; exact (A1 n O _ I eq_refl)|intros f Ff; exact (A2 f Ff _ I)].
  - intros O. exact (A1 n O _ I eq_refl).
Qed.

Section Off.
Variables N F : nat -> Prop.

Definition OffI (s : lst) : Prop :=
  20 < lvl (root s) /\ (forall n, N n -> lvl (logs s n) = 0) /\
  (forall f, F f -> ~ In (HFile f) (hands (root s))) /\
  (forall n f, ~ N n -> F f -> ~ In (HFile f) (hands (logs s n))) /\
  (forall f, F f -> files s f = []).

Definition quietev (e : lev) : Prop := match e with ARootLevel l => 20 < l | _ => True end.

Lemma off_log s n u m : OffI s -> N n -> log_at n (num u) m s = s.
Proof.
  intros (R & L & _) Nn. unfold log_at, effective. rewrite (L n Nn).
  assert (num u <= 20) by (destruct u; cbn; lia).
  destruct (Nat.leb_spec (lvl (root s)) (num u)); [lia|reflexivity].
Qed.

Lemma off_step s e : OffI s -> okev N F e -> quietev e -> OffI (lstep false s e).
Proof.
  intros O K Q. pose proof O as (R & L & HR & HL & FF). destruct e as [n f|n u m|l|k|l m|n l|n k|n l m]; cbn in K, Q |- *.
  - destruct K as [Nn Ff]. unfold get_logger. repeat split; cbn; auto.
    + intros k Nk. destruct (Nat.eq_dec k n) as [->|D]; [now rewrite setn_eq|rewrite setn_ne by exact D; now apply L].
    + intros k g Nk Fg. destruct (Nat.eq_dec k n) as [->|D]; [contradiction|rewrite setn_ne by exact D; now apply HL].
  - now rewrite (off_log s n u m O K).
  - repeat split; cbn; auto.
  - repeat split; cbn; auto. intros f Ff C. apply in_app_or in C as [C|[C|[]]]; [exact (HR f Ff C)|exact (K f Ff C)].
  - unfold log_root. destruct (_ <=? _); [|exact O]. unfold OffI. rewrite emit_root, emit_logs. repeat split; auto.
    intros f Ff. rewrite emit_file by (now apply HR). now apply FF.
  - repeat split; cbn; auto.
    + intros k Nk. rewrite setn_ne by (intros ->; contradiction). now apply L.
    + intros k g Nk Fg. destruct (Nat.eq_dec k n) as [->|D]; [rewrite setn_eq; cbn; now apply HL|rewrite setn_ne by exact D; now apply HL].
  - destruct K as [Nn K]. repeat split; cbn; auto.
    + intros j Nj. rewrite setn_ne by (intros ->; contradiction). now apply L.
    + intros j g Nj Fg. destruct (Nat.eq_dec j n) as [->|D]; [rewrite setn_eq; cbn|rewrite setn_ne by exact D; now apply HL].
      intros C. apply in_app_or in C as [C|[C|[]]]; [exact (HL n g Nj Fg C)|exact (K g Fg C)].
  - unfold log_at. destruct (_ <=? _); [|exact O]. unfold OffI. rewrite emit_root, emit_logs. repeat split; auto.
    intros f Ff. rewrite emit_file; [now apply FF|]. intros C. apply in_app_or in C as [C|C]; [exact (HL n f K Ff C)|exact (HR f Ff C)].
Qed.

Lemma off_init : OffI linit.
Proof. repeat split; cbn; auto. lia. Qed.

Lemma off_run h : Forall (okev N F) h -> Forall quietev h -> forall s, OffI s -> OffI (fold_left (lstep false) h s).
Proof.
  intros K Q. induction h as [|e h IH]; intros s O; [exact O|]. inversion K; inversion Q; subst. cbn. apply IH; auto. now apply off_step.
Qed.

(** What the application sees is the same without the backend. *)
Definition Alike (s t : lst) : Prop :=
  root s = root t /\ (forall n, ~ N n -> logs s n = logs t n) /\ (forall u, users s u = users t u) /\ (forall f, ~ F f -> files s f = files t f).

Lemma alike_emit m hs : forall s t, Alike s t -> Alike (fold_left (emit1 m) hs s) (fold_left (emit1 m) hs t).
Proof.
  induction hs as [|x hs IH]; intros s t A; [exact A|]. cbn. apply IH. destruct A as (A1 & A2 & A3 & A4).
  destruct x as [g|u]; (split; [exact A1|split; [exact A2|split]]); cbn; auto.
  - intros f Nf. unfold setn. destruct (Nat.eqb_spec f g) as [->|D]; [now rewrite (A4 g Nf)|now apply A4].
  - intros v. unfold setn. destruct (Nat.eqb_spec v u) as [->|D]; [now rewrite A3|apply A3].
Qed.

Lemma alike_app s t e : Alike s t -> okev N F e -> is_app e = true -> Alike (lstep false s e) (lstep false t e).
Proof.
  intros A K P. pose proof A as (A1 & A2 & A3 & A4). destruct e as [n f|n u m|l|k|l m|n l|n k|n l m]; try discriminate P; cbn in K |- *.
  - split; [cbn; now rewrite A1|split; [exact A2|split; [exact A3|exact A4]]].
  - split; [cbn; now rewrite A1|split; [exact A2|split; [exact A3|exact A4]]].
  - unfold log_root. rewrite A1. destruct (_ <=? _); [now apply alike_emit|exact A].
  - split; [exact A1|split; [|split; [exact A3|exact A4]]]. cbn. intros j Nj. rewrite (A2 n K). unfold setn. destruct (_ =? _); auto.
  - destruct K as [K _]. split; [exact A1|split; [|split; [exact A3|exact A4]]]. cbn. intros j Nj. rewrite (A2 n K). unfold setn. destruct (_ =? _); auto.
  - unfold log_at, effective. rewrite A1, (A2 n K). destruct (_ <=? _); [now apply alike_emit|exact A].
Qed.

Lemma alike_run h : Forall (okev N F) h -> Forall quietev h -> forall s t, OffI s -> Alike s t ->
  Alike (fold_left (lstep false) h s) (fold_left (lstep false) (filter is_app h) t).
Proof.
  intros K Q. induction h as [|e h IH]; intros s t O A; [exact A|]. inversion K as [|? ? Ke Kh]; inversion Q as [|? ? Qe Qh]; subst.
  cbn [filter fold_left]. destruct (is_app e) eqn:P.
  - cbn [fold_left]. apply IH; auto. + now apply off_step. + now apply alike_app.
  - apply IH; auto. + now apply off_step.
    + destruct e as [n f|n u m| | | | | | ]; try discriminate P; cbn in Ke |- *.
      * destruct Ke as [Nn Ff]. destruct A as (A1 & A2 & A3 & A4). split; [exact A1|split; [|split; [exact A3|exact A4]]].
        cbn. intros k Nk. rewrite setn_ne by (intros ->; contradiction). now apply A2.
      * now rewrite (off_log s n u m O Ke).
Qed.
End Off.

Lemma quiet_all h : root_quiet h -> Forall quietev h.
Proof. intros Q. apply Forall_forall. intros [] I; cbn; trivial. now apply Q. Qed.

Lemma off_nothing h : backend_ok h -> app_apart h -> root_quiet h -> forall f, our_file h f -> files (lrun false h) f = [].
Proof.
  intros B A Q f Ff. pose proof (off_run _ _ h (okev_all h B A) (quiet_all h Q) linit (off_init _ _)) as (_ & _ & _ & _ & X). now apply X.
Qed.

Lemma off_alike h : backend_ok h -> app_apart h -> root_quiet h ->
  (forall u, users (lrun false h) u = users (lrun false (filter is_app h)) u) /\
  (forall f, ~ our_file h f -> files (lrun false h) f = files (lrun false (filter is_app h)) f).
Proof.
  intros B A Q.
  assert (X : Alike (ours h) (our_file h) linit linit) by (repeat split; auto).
  pose proof (alike_run _ _ h (okev_all h B A) (quiet_all h Q) linit linit (off_init _ _) X) as (_ & _ & Y & Z). now split.
Qed.

Section On.
Variables N F : nat -> Prop.
Variables n f : nat.
Hypothesis Nn : N n.
Hypothesis Ff : F f.

Definition onev (e : lev) : Prop := match e with UImport k g => k = n <-> g = f | _ => True end.
Definition beforeev (e : lev) : Prop := match e with ARootHandler _ => False | UImport k _ => k <> n | ULog k _ _ => k <> n | _ => True end.

Definition PreI (s : lst) : Prop :=
  hands (root s) = [] /\ hands (logs s n) = [] /\ (forall k, ~ In (HFile f) (hands (logs s k))) /\ files s f = [].

Lemma pre_emit s m k : PreI s -> PreI (fold_left (emit1 m) (hands (logs s k) ++ hands (root s)) s).
Proof.
  intros (R & L & H & E). unfold PreI. rewrite emit_root, emit_logs. repeat split; auto. rewrite emit_file; [exact E|].
  rewrite R, app_nil_r. apply H.
Qed.

Lemma pre_step s e : PreI s -> okev N F e -> onev e -> beforeev e -> PreI (lstep true s e).
Proof.
  intros O K W B. pose proof O as (R & L & H & E). destruct e as [k g|k u m|l|k|l m|k l|k x|k l m]; cbn in K, W, B |- *.
  - unfold get_logger. repeat split; cbn; auto.
    + now rewrite setn_ne by congruence.
    + intros j. destruct (Nat.eq_dec j k) as [->|D]; [rewrite setn_eq; cbn|rewrite setn_ne by exact D; apply H].
      destruct (has_handlers s k); [apply H|]. intros C. apply in_app_or in C as [C|[C|[]]]; [exact (H k C)|]. injection C as ->. apply B. now apply W.
  - unfold log_at. destruct (_ <=? _); [now apply pre_emit|exact O].
  - repeat split; cbn; auto.
  - contradiction.
  - unfold log_root. destruct (_ <=? _); [|exact O]. rewrite R. exact O.
  - repeat split; cbn; auto.
    + rewrite setn_ne; [exact L|]. intros <-. contradiction.
    + intros j. destruct (Nat.eq_dec j k) as [->|D]; [rewrite setn_eq; cbn; apply H|rewrite setn_ne by exact D; apply H].
  - destruct K as [K X]. repeat split; cbn; auto.
    + rewrite setn_ne; [exact L|]. intros <-. contradiction.
    + intros j. destruct (Nat.eq_dec j k) as [->|D]; [rewrite setn_eq; cbn|rewrite setn_ne by exact D; apply H].
      intros C. apply in_app_or in C as [C|[C|[]]]; [exact (H k C)|exact (X f Ff C)].
  - unfold log_at. destruct (_ <=? _); [now apply pre_emit|exact O].
Qed.

Lemma pre_run h : Forall (okev N F) h -> Forall onev h -> Forall beforeev h -> forall s, PreI s -> PreI (fold_left (lstep true) h s).
Proof.
  intros K W B. induction h as [|e h IH]; intros s O; [exact O|]. inversion K; inversion W; inversion B; subst. cbn. apply IH; auto. now apply pre_step.
Qed.

Definition OnI (acc : list nat) (s : lst) : Prop :=
  ~ In (HFile f) (hands (root s)) /\ logs s n = mkLg 10 [HFile f] /\ (forall k, k <> n -> ~ In (HFile f) (hands (logs s k))) /\ files s f = acc.

Lemma on_emit acc s m hs : OnI acc s -> ~ In (HFile f) hs -> OnI acc (fold_left (emit1 m) hs s).
Proof.
  intros (R & L & H & E) X. unfold OnI. rewrite emit_root, emit_logs. repeat split; auto. now rewrite emit_file.
Qed.

Lemma on_step acc s e : OnI acc s -> okev N F e -> onev e -> OnI (acc ++ said n [e]) (lstep true s e).
Proof.
  intros O K W. pose proof O as (R & L & H & E). destruct e as [k g|k u m|l|k|l m|k l|k x|k l m]; cbn [okev onev] in K, W; cbn [said lstep]; try rewrite app_nil_r.
  - unfold get_logger. unfold OnI; cbn. destruct (Nat.eq_dec k n) as [->|D].
    + assert (g = f) as -> by now apply W. split; [exact R|]. split; [|split; [|exact E]].
      * rewrite setn_eq. unfold has_handlers. rewrite L. reflexivity.
      * intros j Dj. rewrite setn_ne by exact Dj. now apply H.
    + split; [exact R|]. split; [|split; [|exact E]].
      * rewrite setn_ne by congruence. exact L.
      * intros j Dj. destruct (Nat.eq_dec j k) as [->|Dk]; [rewrite setn_eq; cbn|rewrite setn_ne by exact Dk; now apply H].
        destruct (has_handlers s k); [now apply H|]. intros C. apply in_app_or in C as [C|[C|[]]]; [exact (H k D C)|]. injection C as ->. apply D. now apply W.
  - unfold log_at. destruct (Nat.eqb_spec k n) as [->|D].
    + unfold effective. rewrite L. cbn [lvl hands]. assert ((10 <=? num u) = true) as -> by now destruct u.
      cbn [fold_left app]. apply on_emit; [|exact R]. unfold OnI. cbn. split; [exact R|]. split; [exact L|]. split; [exact H|]. now rewrite setn_eq, E.
    + rewrite app_nil_r. destruct (_ <=? _); [|exact O]. apply on_emit; [exact O|]. intros C. apply in_app_or in C as [C|C]; [exact (H k D C)|exact (R C)].
  - unfold OnI; cbn. auto.
  - unfold OnI; cbn. split; [|auto]. intros C. apply in_app_or in C as [C|[C|[]]]; [exact (R C)|exact (K f Ff C)].
  - unfold log_root. destruct (_ <=? _); [|exact O]. now apply on_emit.
  - assert (D : k <> n) by (intros ->; contradiction). unfold OnI; cbn. split; [exact R|]. split; [|split; [|exact E]].
    + now rewrite setn_ne by congruence.
    + intros j Dj. destruct (Nat.eq_dec j k) as [->|Dk]; [rewrite setn_eq; cbn; now apply H|rewrite setn_ne by exact Dk; now apply H].
  - destruct K as [K X]. assert (D : k <> n) by (intros ->; contradiction). unfold OnI; cbn. split; [exact R|]. split; [|split; [|exact E]].
    + now rewrite setn_ne by congruence.
    + intros j Dj. destruct (Nat.eq_dec j k) as [->|Dk]; [rewrite setn_eq; cbn|rewrite setn_ne by exact Dk; now apply H].
      intros C. apply in_app_or in C as [C|[C|[]]]; [exact (H k D C)|exact (X f Ff C)].
  - assert (D : k <> n) by (intros ->; contradiction). unfold log_at. destruct (_ <=? _); [|exact O]. apply on_emit; [exact O|].
    intros C. apply in_app_or in C as [C|C]; [exact (H k D C)|exact (R C)].
Qed.

Lemma said_cons e h : said n (e :: h) = said n [e] ++ said n h.
Proof. destruct e; cbn; try reflexivity. now destruct (_ =? _). Qed.

Lemma on_run h : Forall (okev N F) h -> Forall onev h -> forall acc s, OnI acc s -> OnI (acc ++ said n h) (fold_left (lstep true) h s).
Proof.
  intros K W. induction h as [|e h IH]; intros acc s O; [cbn; now rewrite app_nil_r|]. inversion K; inversion W; subst.
  rewrite said_cons, app_assoc. cbn [fold_left]. apply IH; auto. now apply on_step.
Qed.
End On.

Lemma said_none n h : said n h = [] -> forall k u m, In (ULog k u m) h -> k <> n.
Proof.
  induction h as [|e h IH]; intros E k u m []; subst; cbn in E.
  - intros ->. now rewrite Nat.eqb_refl in E.
  - destruct e; try (eapply IH; eauto; fail). destruct (_ =? _); [discriminate|eapply IH; eauto].
Qed.

Lemma on_all h1 n f h2 : let h := h1 ++ UImport n f :: h2 in backend_ok h -> app_apart h ->
  (forall k, ~ In (ARootHandler k) h1) -> (forall g, ~ In (UImport n g) h1) -> said n h1 = [] ->
  files (lrun true h) f = said n h2.
Proof.
  intros h B A R U S0. pose proof (okev_all h B A) as K.
  assert (I0 : In (UImport n f) h) by (apply in_or_app; right; now left).
  assert (Nn : ours h n) by (now exists f). assert (Ff : our_file h f) by (now exists n).
  assert (W : Forall (onev n f) h).
  { apply Forall_forall. intros [k g| | | | | | | ] I; cbn; trivial. destruct B as [_ B]. exact (B _ _ _ _ I I0). }
  assert (P : Forall (beforeev n) h1).
  { apply Forall_forall. intros [k g|k u m|l|k|l m|k l|k x|k l m] I; cbn; trivial.
    - intros ->. exact (U g I). - exact (said_none n h1 S0 _ _ _ I). - exact (R k I). }
  unfold lrun. unfold h in K, W |- *. apply Forall_app in K as [K1 K2]. apply Forall_app in W as [W1 W2]. inversion K2; inversion W2; subst.
  rewrite fold_left_app. cbn [fold_left].
  assert (I1 : PreI n f linit) by (repeat split; cbn; auto).
  fold h in Nn, Ff, K1. pose proof (pre_run _ _ n f Nn Ff h1 K1 W1 P linit I1) as (X1 & X2 & X3 & X4).
  set (s := fold_left (lstep true) h1 linit) in *.
  assert (I2 : OnI n f [] (lstep true s (UImport n f))).
  { unfold OnI. cbn. split; [now rewrite X1|]. split; [|split; [|exact X4]].
    - rewrite setn_eq. unfold has_handlers. now rewrite X1, X2.
    - intros k D. rewrite setn_ne by exact D. apply X3. }
  destruct (on_run _ _ n f Nn Ff h2) with (acc := @nil nat) (s := lstep true s (UImport n f)) as (_ & _ & _ & E); eauto.
Qed.
