(** C99: MPI, programs can be run to their end while they wait for each call of a method. *)
From Verif Require Import Lib ValModel ShmModel WorkerModel WorkerSpec ClusterModel ClusterSpec ClusterSeq ClusterCount ActModel ActSpec ActGives ActNet ActEnd ActWaitSpec ActWaitDirect ActHeldDirect ActDone ActDoneDirect.
From Verif Require Import PyseqModel PyseqSpec PortSpec PortHist PortShows PortMpi PortDone ObjSpec ObjHist ObjDoneSpec ObjDone ObjMpiSpec ObjMpi.
From Verif Require PortDoneMpi.

Lemma gsplit {A} (l a b : list A) o x : l ++ [o] = a ++ x :: b -> (exists b', b = b' ++ [o] /\ l = a ++ x :: b') \/ (b = [] /\ a = l /\ x = o).
Proof.
  destruct b as [|y b' _] using rev_ind; intros E.
  - apply app_inj_tail in E as [-> ->]. auto.
  - left. exists b'. assert (X : a ++ x :: b' ++ [y] = (a ++ x :: b') ++ [y]) by now rewrite <- app_assoc. rewrite X in E. apply app_inj_tail in E as [-> ->]. auto.
Qed.

(** An operation after others: tasks on worker 2, actors on the workers from 3 on. *)
Definition fine (n : nat) (a : list gprog) (x : gprog) : Prop :=
  match x with
  | GP (RPut _ v) => refs v = []
  | GP (RSubmit dest q) => dest = 2 /\ (exists fd, q_fn q = FRef fd /\ In fd (puts (map as_task a))) /\ forall d, In d (qrefs q) -> In d (gintroduced a)
  | GP (RGet ds) => exists d, ds = [d] /\ In d (gintroduced a)
  | GP _ => False
  | GC w nd q => In w (seq 3 n) /\ (exists m, q_fn q = FMethod m) /\ In nd (puts (map as_task a)) /\ forall d, In d (qrefs q) -> In d (gintroduced a)
  end.

Record GF (n : nat) (l : list gprog) (k m : nat) : Prop := {
  f_int : gintroduced l = map (pair 0) (seq 0 k);
  f_ids : map (fun x => q_id (snd x)) (gsubmitted l) = seq 0 m;
  f_fine : forall a x b, l = a ++ x :: b -> fine n a x
}.

Lemma gsub_app a b : gsubmitted (a ++ b) = gsubmitted a ++ gsubmitted b.
Proof. unfold gsubmitted. apply flat_map_app. Qed.

Lemma gf_snoc n l k m x k' m' : GF n l k m -> fine n l x -> gcreated x = map (pair 0) (seq k k') -> map (fun x => q_id (snd x)) (gsubmitted [x]) = seq m m' ->
  GF n (l ++ [x]) (k + k') (m + m').
Proof.
  intros [A B C] F Cr Id. split.
  - rewrite gintro_snoc, A, Cr. apply PortDoneMpi.made_snoc.
  - rewrite gsub_app, map_app, B, Id. now rewrite <- List.seq_app.
  - intros a y b E. apply gsplit in E as [(b' & -> & E)|(_ & -> & ->)]; [eauto|exact F].
Qed.

Lemma gf_more n n' l k m : n <= n' -> GF n l k m -> GF n' l k m.
Proof.
  intros L [A B C]. split; auto. intros a x b E. assert (F := C a x b E). destruct x as [o|w nd q]; [exact F|]. destruct F as (I & F). split; [|exact F].
  apply in_seq in I. apply in_seq. lia.
Qed.

Definition each_waits (l : list gprog) : Prop := forall a w nd q b, l = a ++ GC w nd q :: b -> exists x b', b = GP (RGet [x]) :: b' /\ In x (out_ids (q_out q)).

Lemma waits_gp l o : each_waits l -> each_waits (l ++ [GP o]).
Proof.
  intros W a w nd q b E. apply gsplit in E as [(b' & -> & E)|(_ & _ & E)]; [|discriminate]. destruct (W _ _ _ _ _ E) as (x & b2 & -> & I). exists x, (b2 ++ [GP o]). auto.
Qed.

Lemma waits_gc l w nd q x : each_waits l -> In x (out_ids (q_out q)) -> each_waits ((l ++ [GC w nd q]) ++ [GP (RGet [x])]).
Proof.
  intros W I a w' nd' q' b E. apply gsplit in E as [(b' & -> & E)|(_ & _ & E)]; [|discriminate]. apply gsplit in E as [(b2 & -> & E)|(-> & _ & E)].
  - destruct (W _ _ _ _ _ E) as (y & b3 & -> & J). eexists y, _. split; [reflexivity|exact J].
  - injection E as -> -> ->. exists x, []. auto.
Qed.

Record GJ (p : list ocall) (rs : list (list dataid)) (fs : list (dataid * nat)) (l : list gprog) (k m : nat) : Prop := {
  j_plays : gplays p rs fs (seq 3 (makes p)) l;
  j_full : ofull p rs;
  j_gf : GF (makes p) l k m;
  j_refs : forall c i d, ref_at rs c i = Some d -> In d (gintroduced l);
  j_waits : each_waits l;
  j_fun : forall dest q, In (GP (RSubmit dest q)) l -> exists fd f args kw ds, q_fn q = FRef fd /\ In (GP (RPut fd (VLeaf f))) l /\
    q_out q = outputs_of ds /\ In (TFun f args kw (length ds)) p;
  j_meth : forall w nd q, In (GC w nd q) l -> exists a m args kw ds, q_fn q = FMethod m /\ q_out q = outputs_of ds /\ In (TMeth a m args kw (length ds)) p
}.

Lemma in_gput l d v : In (GP (RPut d v)) l -> In d (puts (map as_task l)).
Proof. intros I. unfold puts. apply in_flat_map. exists (RPut d v). split; [apply in_map_iff; exists (GP (RPut d v)); auto|simpl; auto]. Qed.

Lemma gf_put n l k m v : GF n l k m -> refs v = [] -> GF n (l ++ [GP (RPut (0, k) v)]) (S k) m.
Proof. intros G R. replace (S k) with (k + 1) by lia. rewrite <- (Nat.add_0_r m). apply gf_snoc; auto. Qed.

Lemma gf_get n l k m d : GF n l k m -> In d (gintroduced l) -> GF n (l ++ [GP (RGet [d])]) k m.
Proof. intros G R. rewrite <- (Nat.add_0_r k), <- (Nat.add_0_r m). apply gf_snoc; auto. exists d. auto. Qed.

Lemma q_in rs l args kw vs ks q : Forall2 (stands rs) args vs -> Forall2 (stands_kw rs) kw ks -> (forall v, In (AVal v) (args ++ map snd kw) -> PortSpec.plain v) ->
  (forall c i d, ref_at rs c i = Some d -> In d (gintroduced l)) -> q_args q = VList vs -> q_kwargs q = VDict ks ->
  forall d, In d (qrefs q) -> In d (gintroduced l).
Proof.
  intros Fa Fk Pa Rf Qa Qk d I. unfold qrefs in I. rewrite Qa, Qk in I. apply in_app_or in I as [I|I].
  - destruct (stands_refs _ _ _ d Fa) as (c & i & _ & R); [intros v K; apply Pa, in_or_app; auto|exact I|]. eapply Rf; eauto.
  - destruct (stands_kw_refs _ _ _ d Fk) as (c & i & _ & R); [intros v K; apply Pa, in_or_app; auto| |eapply Rf; eauto].
    rewrite PortDoneMpi.refs_kws in I. apply in_flat_map in I as (y & I & K). apply in_flat_map. exists (snd y). split; [now apply in_map|exact K].
Qed.

Lemma mpi_submits body cbody mbody p : oportable body cbody mbody p -> oscoped p -> calls_return p -> exists rs fs l k m, GJ p rs fs l k m.
Proof.
  induction p as [|x p IH] using rev_ind; intros Po Sc Cr.
  - exists [], [], [], 0, 0. split.
    + constructor.
    + constructor.
    + split; [reflexivity|reflexivity|]. intros a x b E. destruct a; discriminate.
    + intros c i d E. destruct c; discriminate.
    + intros a w nd q b E. destruct a; discriminate.
    + intros dest q [].
    + intros w nd q [].
  - destruct IH as (rs & fs & l & k & m & J); [eapply oportable_front; eauto|eapply oscoped_front; eauto|intros y I; apply Cr, in_or_app; auto|].
    destruct J as [Pl Fl Gf Rf Wt Jf Jm]. assert (Ms := makes_snoc p x). destruct (oscoped_last _ _ Sc) as [Sa Sm].
    assert (Jf' : forall dest q, In (GP (RSubmit dest q)) l -> exists fd f args kw ds, q_fn q = FRef fd /\ In (GP (RPut fd (VLeaf f))) l /\ q_out q = outputs_of ds /\ In (TFun f args kw (length ds)) (p ++ [x])).
    { intros dest q I. destruct (Jf dest q I) as (fd & f & args & kw & ds & A1 & A2 & A3 & A4). exists fd, f, args, kw, ds. rewrite in_app_iff. auto. }
    assert (Jm' : forall w nd q, In (GC w nd q) l -> exists a m args kw ds, q_fn q = FMethod m /\ q_out q = outputs_of ds /\ In (TMeth a m args kw (length ds)) (p ++ [x])).
    { intros w nd q I. destruct (Jm w nd q I) as (a & m' & args & kw & ds & A1 & A2 & A3). exists a, m', args, kw, ds. rewrite in_app_iff. auto. }
    clear Jf Jm. destruct x as [v|f args kw n|c0 args kw|a m0 args kw n]; rewrite ?Nat.add_0_r in Ms.
    + exists (rs ++ [[(0, k)]]), fs, (l ++ [GP (RPut (0, k) v)]), (S k), m. split; rewrite ?Ms.
      * apply G_put. exact Pl.
      * now apply ofull_snoc.
      * apply gf_put; auto. destruct Po as (P1 & _). apply (P1 v). apply in_or_app. right. now left.
      * intros c i y R. rewrite gintro_snoc. apply in_or_app. apply ref_cases in R as [[_ R]|[_ R]]; [left; eauto|]. destruct i as [|[|i]]; cbn in R; try discriminate. injection R as <-. right. now left.
      * now apply waits_gp.
      * intros dest q I. apply in_app_or in I as [I|[I|[]]]; [|discriminate]. destruct (Jf' dest q I) as (fd & f & args & kw & ds & A1 & A2 & A3 & A4). exists fd, f, args, kw, ds. rewrite in_app_iff. auto.
      * intros w nd q I. apply in_app_or in I as [I|[I|[]]]; [eauto|discriminate].
    + assert (Pa : forall v, In (AVal v) (args ++ map snd kw) -> PortSpec.plain v). { intros v I. destruct Po as (_ & P2 & _). eapply P2; [apply in_or_app; right; now left|exact I]. }
      destruct (ostand p rs args kw Fl Sa) as (vs & ks & Fa & Fk).
      set (l1 := l ++ [GP (RPut (0, k) (VLeaf f))]). set (ds := map (pair 0) (seq (S k) n) : list dataid).
      set (q := {| q_id := m; q_fn := FRef (0, k); q_args := VList vs; q_kwargs := VDict ks; q_out := outputs_of ds |}).
      assert (Ln : length ds = n) by (unfold ds; now rewrite map_length, seq_length).
      assert (G1 : GF (makes p) l1 (S k) m) by (apply gf_put; auto).
      assert (R1 : forall c i d, ref_at rs c i = Some d -> In d (gintroduced l1)) by (intros c i d R; unfold l1; rewrite gintro_snoc; apply in_or_app; left; eauto).
      exists (rs ++ [ds]), (fs ++ [((0, k), f)]), (l1 ++ [GP (RSubmit 2 q)]), (S k + n), (m + 1). split; rewrite ?Ms.
      * rewrite <- Ln. apply (G_fun p rs (fs ++ [((0, k), f)]) (seq 3 (makes p)) l1 f (0, k) args kw vs ks ds 2 q); auto; [apply G_function; exact Pl|apply in_or_app; right; now left].
      * apply ofull_snoc; [exact Fl|exact Ln].
      * apply gf_snoc; auto.
        -- cbn [fine]. split; [reflexivity|]. split; [exists (0, k); split; [reflexivity|]; apply (in_gput l1 (0, k) (VLeaf f)); unfold l1; apply in_or_app; right; now left|].
           apply (q_in rs l1 args kw vs ks q); auto.
        -- cbn [gcreated created q q_out]. rewrite out_ids_of. reflexivity.
      * intros c i d R. rewrite gintro_snoc. apply in_or_app. apply ref_cases in R as [[_ R]|[_ R]]; [left; eauto|]. right. cbn [gcreated created q q_out]. rewrite out_ids_of. eapply nth_error_In; eauto.
      * apply waits_gp. unfold l1. now apply waits_gp.
      * intros dest q' I. apply in_app_or in I as [I|[I|[]]].
        -- unfold l1 in I. apply in_app_or in I as [I|[I|[]]]; [|discriminate]. destruct (Jf' dest q' I) as (fd & f' & args' & kw' & ds' & A1 & A2 & A3 & A4). exists fd, f', args', kw', ds'. unfold l1. rewrite !in_app_iff. rewrite in_app_iff in A4. auto 6.
        -- injection I as <- <-. exists (0, k), f, args, kw, ds. split; [reflexivity|]. split; [unfold l1; apply in_or_app; left; apply in_or_app; right; now left|]. split; [reflexivity|]. rewrite Ln. apply in_or_app. right. now left.
      * intros w nd q' I. apply in_app_or in I as [I|[I|[]]]; [|discriminate]. unfold l1 in I. apply in_app_or in I as [I|[I|[]]]; [eauto|discriminate].
    + exists (rs ++ [[]]), fs, l, k, m. split; rewrite ?Ms; auto.
      * rewrite Nat.add_1_r, seq_S. apply G_make; [exact Pl|]. intros I. apply in_seq in I. lia.
      * now apply ofull_snoc.
      * apply (gf_more (makes p)); [lia|exact Gf].
      * intros c i y R. apply ref_cases in R as [[_ R]|[_ R]]; [eauto|]. destruct i; discriminate.
    + assert (Pa : forall v, In (AVal v) (args ++ map snd kw) -> PortSpec.plain v). { intros v I. destruct Po as (_ & _ & P2 & _). eapply P2; [apply in_or_app; right; now left|exact I]. }
      destruct (ostand p rs args kw Fl Sa) as (vs & ks & Fa & Fk). assert (La := Sm _ _ _ _ _ eq_refl).
      assert (Ln0 : 0 < n) by (apply (Cr (TMeth a m0 args kw n)); apply in_or_app; right; now left).
      set (l1 := l ++ [GP (RPut (0, k) (VLeaf 0))]). set (ds := map (pair 0) (seq (S k) n) : list dataid).
      set (q := {| q_id := m; q_fn := FMethod m0; q_args := VList vs; q_kwargs := VDict ks; q_out := outputs_of ds |}).
      assert (Ln : length ds = n) by (unfold ds; now rewrite map_length, seq_length).
      assert (G1 : GF (makes p) l1 (S k) m) by (apply gf_put; auto).
      assert (R1 : forall c i d, ref_at rs c i = Some d -> In d (gintroduced l1)) by (intros c i d R; unfold l1; rewrite gintro_snoc; apply in_or_app; left; eauto).
      assert (I0 : In ((0, S k) : dataid) ds) by (unfold ds; destruct n; [lia|now left]).
      assert (I1 : In ((0, S k) : dataid) (gintroduced (l1 ++ [GC (3 + a) (0, k) q]))) by (rewrite gintro_snoc; apply in_or_app; right; cbn [gcreated q q_out]; rewrite out_ids_of; exact I0).
      exists (rs ++ [ds]), fs, ((l1 ++ [GC (3 + a) (0, k) q]) ++ [GP (RGet [(0, S k)])]), (S k + n), (m + 1). split; rewrite ?Ms.
      * apply G_other; [|exact Logic.I]. rewrite <- Ln. apply (G_meth p rs fs (seq 3 (makes p)) l1 a (3 + a) (0, k) m0 args kw vs ks ds q); auto; [apply G_name; exact Pl|].
        rewrite (nth_error_nth' _ 0) by (rewrite seq_length; exact La). now rewrite seq_nth.
      * apply ofull_snoc; [exact Fl|exact Ln].
      * apply gf_get; [|exact I1]. apply gf_snoc; auto.
        -- cbn [fine]. split; [apply in_seq; lia|]. split; [exists m0; reflexivity|]. split; [apply (in_gput l1 (0, k) (VLeaf 0)); unfold l1; apply in_or_app; right; now left|].
           apply (q_in rs l1 args kw vs ks q); auto.
        -- cbn [gcreated q q_out]. rewrite out_ids_of. reflexivity.
      * intros c i d R. rewrite gintro_snoc. cbn [gcreated created]. rewrite app_nil_r, gintro_snoc. apply in_or_app. apply ref_cases in R as [[_ R]|[_ R]]; [left; eauto|]. right. cbn [gcreated q q_out]. rewrite out_ids_of. eapply nth_error_In; eauto.
      * apply waits_gc; [unfold l1; now apply waits_gp|]. cbn [q q_out]. rewrite out_ids_of. exact I0.
      * intros dest q' I. apply in_app_or in I as [I|[I|[]]]; [|discriminate]. apply in_app_or in I as [I|[I|[]]]; [|discriminate]. unfold l1 in I. apply in_app_or in I as [I|[I|[]]]; [|discriminate].
        destruct (Jf' dest q' I) as (fd & f' & args' & kw' & ds' & A1 & A2 & A3 & A4). exists fd, f', args', kw', ds'. unfold l1. rewrite !in_app_iff. rewrite in_app_iff in A4. auto 6.
      * intros w nd q' I. apply in_app_or in I as [I|[I|[]]]; [|discriminate]. apply in_app_or in I as [I|[I|[]]].
        -- unfold l1 in I. apply in_app_or in I as [I|[I|[]]]; [eauto|discriminate].
        -- injection I as <- <- <-. exists a, m0, args, kw, ds. split; [reflexivity|]. split; [reflexivity|]. rewrite Ln. apply in_or_app. right. now left.
Qed.

Section Done.
Variable body : nat -> list val -> kwargs -> res.
Variable cbody : nat -> list val -> kwargs -> res.
Variable mbody : nat -> val -> list val -> kwargs -> res * val.
Variable s0 : val.
Hypothesis plain_ok : plain_bodies body mbody.

Lemma gf_facts n l k m : GF n l k m -> gvalid l /\ valid (2 :: seq 3 n) (map as_task l) /\ tidy (map as_task l) /\ (forall ds, ~ In (GP (RClean ds)) l) /\ separate l.
Proof.
  intros [A B C].
  assert (In' : forall x, In x l -> exists a, fine n a x) by (intros x I; apply in_split in I as (a & b & E); eauto).
  assert (Nd : NoDup (gintroduced l)) by (rewrite A; apply FinFun.Injective_map_NoDup; [intros x y E; now injection E|apply seq_NoDup]).
  assert (Ni : NoDup (map (fun x => q_id (snd x)) (gsubmitted l))) by (rewrite B; apply seq_NoDup).
  assert (Pu : forall d v, In (GP (RPut d v)) l -> refs v = []) by (intros d v I; destruct (In' _ I) as (a & F); exact F).
  assert (Sp : forall a o b, map as_task l = a ++ o :: b -> exists a' x b', l = a' ++ x :: b' /\ map as_task a' = a /\ as_task x = o).
  { clear. induction l as [|y l IH]; intros a o b E; [destruct a; discriminate|]. destruct a as [|z a]; cbn in E.
    - injection E as E1 E2. exists [], y, l. auto.
    - injection E as E1 E2. destruct (IH _ _ _ E2) as (a' & x & b' & -> & E3 & E4). exists (y :: a'), x, b'. cbn. rewrite E1, E3. auto. }
  split; [|split; [|split; [|split]]].
  - split; auto.
    + intros dest q I. destruct (In' _ I) as (a & _ & (fd & F & _) & _). eauto.
    + intros dest nd q I. destruct (In' _ I) as (a & _ & F & _). exact F.
  - assert (Ia := intro_as l). split.
    + rewrite Ia. exact Nd.
    + assert (X : map (fun p => q_id (snd p)) (submitted (map as_task l)) = map (fun x => q_id (snd x)) (gsubmitted l)); [|assert (Y := Ni); rewrite <- X in Y; exact Y].
      clear. induction l as [|[o|w nd q] l IH]; [reflexivity| |simpl; f_equal; exact IH]. destruct o; first [exact IH|simpl; f_equal; exact IH].
    + intros d v I. apply in_map_iff in I as ([o|w nd q] & E & I); cbn in E; [subst o; eauto|discriminate].
    + intros a dest q b E. destruct (Sp _ _ _ E) as (a' & x & b' & El & <- & Ex). assert (F := C _ _ _ El).
      assert (Ia' := intro_as a'). rewrite Ia'. destruct x as [o|w nd q']; cbn in Ex.
      * subst o. destruct F as (-> & F1 & F2). split; [now left|]. auto.
      * injection Ex as <- <-. destruct F as (F1 & F2 & F3 & F4). split; [now right|]. split; [exists nd; auto|exact F4].
  - split.
    + intros a ds b E. destruct (Sp _ _ _ E) as (a' & x & b' & El & <- & Ex). assert (F := C _ _ _ El). assert (Ia' := intro_as a'). rewrite Ia'.
      destruct x as [o|w nd q']; cbn in Ex; [|discriminate]. subst o. destruct F as (d & -> & I). split; [constructor; [intros []|constructor]|]. intros y [<-|[]]. exact I.
    + intros a d b o E. destruct (Sp _ _ _ E) as (a' & x & b' & El & <- & Ex). assert (F := C _ _ _ El). destruct x as [o'|w nd q']; cbn in Ex; [|discriminate]. subst o'. destruct F.
    + intros a ds b d E. destruct (Sp _ _ _ E) as (a' & x & b' & El & <- & Ex). assert (F := C _ _ _ El). destruct x as [o'|w nd q']; cbn in Ex; [|discriminate]. subst o'. destruct F.
  - intros ds I. destruct (In' _ I) as (a & []).
  - intros w q nd q' I I'. destruct (In' _ I) as (a & -> & _). destruct (In' _ I') as (a' & F & _). apply in_seq in F. lia.
Qed.

Lemma gj_enough p rs fs l k m d : oportable body cbody mbody p -> calls_return p -> GJ p rs fs l k m ->
  greturns_enough (as_mpi body) (as_methods mbody s0) (l ++ [GP (RGet [d])]).
Proof.
  intros (_ & _ & _ & P4 & P5 & _) Cr J. destruct (gf_facts _ _ _ _ (j_gf _ _ _ _ _ _ J)) as (_ & V & _). apply v_fresh in V. split.
  - intros dest q fd v a ka I Q P. apply in_app_or in I as [I|[I|[]]]; [|discriminate]. apply in_app_or in P as [P|[P|[]]]; [|discriminate].
    destruct (j_fun _ _ _ _ _ _ J dest q I) as (fd' & f & args & kw & ds & A1 & A2 & A3 & A4). rewrite Q in A1. injection A1 as <-.
    assert (Im : forall u, In (GP (RPut fd u)) l -> In (RPut fd u) (map as_task l)) by (intros u X; apply in_map_iff; exists (GP (RPut fd u)); auto).
    assert (E : VLeaf f = v). { assert (X := seq_put (as_mpi body) _ fd v V (Im _ P)). rewrite (seq_put (as_mpi body) _ fd (VLeaf f) V (Im _ A2)) in X. now injection X. } subst v.
    assert (N := Cr _ A4). cbn in N. rewrite A3. split.
    + destruct ds as [|x [|y ds]]; [cbn in N; lia|discriminate|discriminate].
    + destruct ds as [|x [|y ds]]; cbn [outputs_of WorkerSpec.enough]; auto. destruct (as_mpi body (VLeaf f) a ka) as [r|e] eqn:B; [|exact Logic.I].
      unfold as_mpi in B. destruct a; try discriminate. destruct ka; try discriminate. destruct (body f l0 l1) as [w|e] eqn:W; [|discriminate]. injection B as <-.
      destruct (P4 _ _ _ _ l0 l1 A4 w W) as [X|(items & X & Y)]; [cbn in X; lia|]. exists items. split; [destruct X as [->| ->]; reflexivity|lia].
  - intros dest nd q m' h a ka I Q. apply in_app_or in I as [I|[I|[]]]; [|discriminate].
    destruct (j_meth _ _ _ _ _ _ J dest nd q I) as (o & m2 & args & kw & ds & A1 & A3 & A4). rewrite Q in A1. injection A1 as <-.
    assert (N := Cr _ A4). cbn in N. rewrite A3. split.
    + destruct ds as [|x [|y ds]]; [cbn in N; lia|discriminate|discriminate].
    + destruct ds as [|x [|y ds]]; cbn [outputs_of WorkerSpec.enough]; auto. unfold as_methods, apply_call. cbn [c_args c_kwargs c_method].
      destruct a; try exact Logic.I. destruct ka; try exact Logic.I. destruct (mbody m' (after_calls mbody s0 h) l0 l1) as [[w|e] s'] eqn:W; [|exact Logic.I].
      destruct (P5 _ _ _ _ _ (after_calls mbody s0 h) l0 l1 A4 w) as [X|(items & X & Y)]; [rewrite W; reflexivity|cbn in X; lia|]. exists items. split; [destruct X as [->| ->]; reflexivity|lia].
Qed.

Lemma waits_always l : each_waits l -> forall seen, waits_or_holds l seen.
Proof.
  intros W seen a w nd1 q1 b nd2 q2 d E. left. destruct (W _ _ _ _ _ E) as (x & b' & Eb & I). destruct b as [|y b]; [discriminate|]. injection Eb as -> _.
  exists x, [x]. split; [exact I|]. split; [now left|]. split; [now left|auto].
Qed.

Theorem mpi_done prog : oportable body cbody mbody prog -> oscoped prog -> calls_return prog ->
  (forall c args kw, In (TMake c args kw) prog -> cbody c args kw = Ret s0) ->
  forall c x i, nth_error prog c = Some x -> i < oouts x ->
  exists r, result_of (fst (odirect body cbody mbody prog)) c i = Some r /\
    (oshows_mpi body mbody s0 prog c i r \/ exists e, r = Exn e /\ oshows_mpi body mbody s0 prog c i (Ret (VExc e))).
Proof using plain_ok.
  intros Po Sc Cr Ms c x i N Li. destruct (mpi_submits body cbody mbody prog Po Sc Cr) as (rs & fs & l & k & m & J).
  destruct (ofull_ref _ _ (j_full _ _ _ _ _ _ J) _ _ _ N Li) as (d & D). assert (Id := j_refs _ _ _ _ _ _ J _ _ _ D).
  assert (G := gf_get _ _ _ _ d (j_gf _ _ _ _ _ _ J) Id). destruct (gf_facts _ _ _ _ G) as (V & Vt & Td & Nc & Sp).
  assert (En := gj_enough _ _ _ _ _ _ d Po Cr J). assert (Wt := waits_always _ (waits_gp _ (RGet [d]) (j_waits _ _ _ _ _ _ J))).
  assert (Pl : gplays prog rs fs (seq 3 (makes prog)) (l ++ [GP (RGet [d])])) by (apply G_other; [apply J|exact Logic.I]).
  set (lg := l ++ [GP (RGet [d])]) in *. destruct (no_refs_mpi body mbody s0 plain_ok) as [Nb Nm].
  set (ws := 2 :: seq 3 (makes prog)) in *.
  assert (W0 : ~ In 0 ws) by (intros [X|X]; [discriminate|apply in_seq in X; lia]).
  assert (Wn : NoDup ws) by (constructor; [intros X; apply in_seq in X; lia|apply seq_NoDup]).
  set (mgr := ShmModel.manager_init 100 10).
  destruct (can_be_completed ws (as_mpi body) (as_methods mbody s0) (fun _ => false) Nb Nm (fun _ => eq_refl) W0 Wn mgr [] lg V Vt Td Nc En Sp)
    as (more & E & _ & _ & NE & Gs & _). cbn zeta in *. cbn [app] in *.
  change (g_prog (grun ws (as_mpi body) (as_methods mbody s0) (fun _ => false) mgr []) ++ lg) with lg in *.
  assert (Sd : ActWaitSpec.scoped lg) by (eapply valid_scoped; eauto). assert (Pd : placed ws lg) by (eapply placed_valid; eauto).
  assert (Sh : exists r, oshows_mpi body mbody s0 prog c i r).
  { assert (I : In [d] (gets_over (c_seen (g_c (grun ws (as_mpi body) (as_methods mbody s0) (fun _ => false) mgr more))))).
    { rewrite Gs. unfold lg, gets_of. rewrite map_app, flat_map_app. apply in_or_app. right. now left. }
    unfold gets_over in I. apply in_flat_map in I as (s & I & K).
    destruct s as [ds vs|ds e| |]; try (destruct K as [K|[]]; subst ds); try destruct K.
    - destruct (orderly_direct ws (as_mpi body) (as_methods mbody s0) (fun _ => false) Nb Nm mgr more Wn (fun _ => eq_refl)) as [F _]; try (rewrite E; auto; fail); auto.
      assert (F' := F _ _ I). inversion F' as [|? v ? vs' _ F2]; subst. inversion F2; subst.
      exists (Ret v), ws, mgr, more, rs, fs, (seq 3 (makes prog)), d. cbn zeta. rewrite E. repeat (split; [solve [auto]|]). exists [d], [v], 0. auto.
    - exists (Exn e), ws, mgr, more, rs, fs, (seq 3 (makes prog)), d. cbn zeta. rewrite E. repeat (split; [solve [auto]|]). exact I. }
  destruct Sh as (r & Sh). destruct (mpi_waits_all body cbody mbody s0 plain_ok prog Po Ms c i r Sh) as (r0 & R & [->|(e & -> & ->)]); [eauto|]. exists (Exn e). split; [exact R|]. right. eauto.
Qed.
End Done.
