(** C98, completeness: what the backends need in common; Ray and PySeq. *)
From Verif Require Import Lib ValModel PyseqModel PyseqSpec PyseqProofs PortSpec PortHist PortShows PortDoneSpec PortSeq PortDask RayRunModel RayRunSpec RayRunProofs.

Definition full (prog : list pcall) (rs : list (list dataid)) : Prop := Forall2 (fun x l => length l = outs x) prog rs.

Lemma full_snoc p rs x l : full p rs -> length l = outs x -> full (p ++ [x]) (rs ++ [l]).
Proof. intros F E. apply Forall2_app; [exact F|]. constructor; [exact E|constructor]. Qed.

Lemma full_ref p rs : full p rs -> forall c x i, nth_error p c = Some x -> i < outs x -> exists d, ref_at rs c i = Some d.
Proof.
  intros F. induction F as [|y l p rs E F IH]; intros c x i N L; [destruct c; discriminate|].
  destruct c as [|c]; cbn in N.
  - injection N as <-. unfold ref_at. cbn. destruct (nth_error l i) as [d|] eqn:G; [eauto|]. apply nth_error_None in G. lia.
  - destruct (IH c x i N L) as (d & D). exists d. exact D.
Qed.

Lemma scoped_front p x : scoped (p ++ [x]) -> scoped p.
Proof.
  intros S0 pre f args kw n post c i E I. apply (S0 pre f args kw n (post ++ [x]) c i); [|exact I]. rewrite E, <- app_assoc. reflexivity.
Qed.
Lemma scoped_last p f args kw n : scoped (p ++ [CFun f args kw n]) -> forall c i, In (AOut c i) (args ++ map snd kw) ->
  exists x, nth_error p c = Some x /\ i < outs x.
Proof. intros S0 c i I. exact (S0 p f args kw n [] c i eq_refl I). Qed.

Lemma args_stand rs args : (forall c i, In (AOut c i) args -> exists d, ref_at rs c i = Some d) -> exists vs, Forall2 (stands rs) args vs.
Proof.
  induction args as [|a args IH]; intros H; [exists []; constructor|].
  destruct IH as (vs & F); [intros c i I; apply H; now right|].
  destruct a as [v|c i]; [exists (v :: vs); constructor; [reflexivity|exact F]|].
  destruct (H c i) as (d & D); [now left|]. exists (VRef d :: vs). constructor; [exists d; auto|exact F].
Qed.
Lemma kws_stand rs (kw : list (nat * parg)) : (forall c i, In (AOut c i) (map snd kw) -> exists d, ref_at rs c i = Some d) -> exists ks, Forall2 (stands_kw rs) kw ks.
Proof.
  induction kw as [|[k a] kw IH]; intros H; [exists []; constructor|].
  destruct IH as (ks & F); [intros c i I; apply H; now right|].
  destruct a as [v|c i]; [exists ((k, v) :: ks); constructor; [split; reflexivity|exact F]|].
  destruct (H c i) as (d & D); [now left|]. exists ((k, VRef d) :: ks). constructor; [split; [reflexivity|exists d; auto]|exact F].
Qed.

Lemma stand_call p rs f args kw n : full p rs -> scoped (p ++ [CFun f args kw n]) ->
  exists vs ks, Forall2 (stands rs) args vs /\ Forall2 (stands_kw rs) kw ks.
Proof.
  intros F S0. assert (H : forall c i, In (AOut c i) (args ++ map snd kw) -> exists d, ref_at rs c i = Some d).
  { intros c i I. destruct (scoped_last _ _ _ _ _ S0 c i I) as (x & N & L). exact (full_ref _ _ F _ _ _ N L). }
  destruct (args_stand rs args) as (vs & A); [intros; apply H, in_or_app; auto|].
  destruct (kws_stand rs kw) as (ks & B); [intros; apply H, in_or_app; auto|]. eauto.
Qed.

(** The references among what is handed to a backend. *)
Lemma stands_refs rs args vs d : Forall2 (stands rs) args vs -> (forall v, In (AVal v) args -> refs v = []) -> In d (flat_map refs vs) ->
  exists c i, In (AOut c i) args /\ ref_at rs c i = Some d.
Proof.
  intros F. induction F as [|a v args vs S0 F IH]; intros P I; [destruct I|]. cbn in I. apply in_app_or in I as [I|I].
  - destruct a as [x|c i]; cbn in S0.
    + subst v. rewrite (P x) in I by now left. destruct I.
    + destruct S0 as (e & R & ->). cbn in I. destruct I as [<-|[]]. exists c, i. split; [now left|exact R].
  - destruct IH as (c & i & J & R); auto. { intros v0 J. apply P. now right. } exists c, i. split; [now right|exact R].
Qed.
Lemma stands_kw_refs rs kw ks d : Forall2 (stands_kw rs) kw ks -> (forall v, In (AVal v) (map snd kw) -> refs v = []) ->
  In d (flat_map refs (map snd ks)) -> exists c i, In (AOut c i) (map snd kw) /\ ref_at rs c i = Some d.
Proof.
  intros F P I. apply (stands_refs rs (map snd kw) (map snd ks) d); auto. clear - F. induction F as [|x y kw ks [_ S0] F IH]; cbn; constructor; auto.
Qed.
Lemma top_refs l d : In d (flat_map (fun v => match v with VRef x => [x] | _ => [] end) l) -> In d (flat_map refs l).
Proof.
  intros I. apply in_flat_map in I as (v & J & K). apply in_flat_map. exists v. split; [exact J|]. destruct v; try destruct K. - cbn; auto. - destruct H.
Qed.

Lemma known_call p rs h f args kw n b vs ks : plays p rs h -> Forall2 (stands rs) args vs -> Forall2 (stands_kw rs) kw ks ->
  (forall v, In (AVal v) (args ++ map snd kw) -> plain v) -> known h (QSubmit f vs ks n b).
Proof.
  intros Pl Fa Fk Pv d I. cbn in I. apply in_app_or in I as [I|I]; apply top_refs in I.
  - destruct (stands_refs _ _ _ d Fa) as (c & i & _ & R); auto; [|eapply plays_returned; eauto]. intros v J. apply Pv, in_or_app; auto.
  - destruct (stands_kw_refs _ _ _ d Fk) as (c & i & _ & R); auto; [|eapply plays_returned; eauto]. intros v J. apply Pv, in_or_app; auto.
Qed.

Lemma portable_args body p f args kw n : portable body (p ++ [CFun f args kw n]) -> forall v, In (AVal v) (args ++ map snd kw) -> plain v.
Proof. intros (_ & P2 & _) v I. eapply P2; [|exact I]. apply in_or_app; right; now left. Qed.

(** ** Ray *)
Definition no_c : nat -> list val -> kwargs -> res := fun _ _ _ => Exn 0.
Definition no_m : nat -> val -> list val -> kwargs -> res * val := fun _ s _ _ => (Exn 0, s).

Lemma refs_wrap ds : refs_of (wrap ds) = ds.
Proof. destruct ds as [|a [|b l]]; reflexivity. Qed.
Lemma fresh_length k n : length (fresh_refs k n) = n.
Proof. unfold fresh_refs. now rewrite map_length, seq_length. Qed.

Lemma ray_submits body prog : portable body prog -> scoped prog ->
  exists ops rs, let st := yrun body no_c no_m (fun _ => None) 0 0 ops in legal (y_hist st) /\ plays prog rs (y_hist st) /\ full prog rs.
Proof.
  induction prog as [|x p IH] using rev_ind; intros Po Sc.
  - exists [], []. cbn. repeat split; constructor.
  - destruct IH as (ops & rs & L & Pl & F); [eapply portable_front; eauto|eapply scoped_front; eauto|].
    set (st := yrun body no_c no_m (fun _ => None) 0 0 ops) in *. destruct x as [v|f args kw n].
    + exists (ops ++ [YPut v]), (rs ++ [[(0, y_next st)]]). unfold yrun. rewrite fold_left_app. fold (yrun body no_c no_m (fun _ => None) 0 0 ops). fold st.
      cbn [fold_left ystep called y_hist]. split; [|split].
      * split; [intros d []|exact L].
      * now constructor.
      * now apply full_snoc.
    + destruct (stand_call _ _ _ _ _ _ F Sc) as (vs & ks & Fa & Fk).
      exists (ops ++ [YSubmit f vs ks n false]), (rs ++ [refs_of (wrap (fresh_refs (y_next st) n))]). unfold yrun. rewrite fold_left_app.
      fold (yrun body no_c no_m (fun _ => None) 0 0 ops). fold st. cbn [fold_left ystep enqueue called y_hist]. split; [|split].
      * split; [|exact L]. eapply known_call; eauto. eapply portable_args; eauto.
      * constructor; auto. rewrite refs_wrap. apply fresh_length.
      * apply full_snoc; [exact F|]. rewrite refs_wrap. apply fresh_length.
Qed.

Lemma known_plays p rs h : plays p rs h -> actors_known h.
Proof.
  intros Pl. assert (Ph := pure_hist _ _ _ Pl). clear Pl. induction h as [|[o out] h IH]; simpl; auto. split; [|apply IH; intros o' out' I; apply (Ph o' out'); simpl; auto].
  intros a m args kw n ->. destruct (Ph (QCall a m args kw n) out); simpl; auto.
Qed.

Theorem ray_done body prog : portable body prog -> scoped prog -> forall c x i, nth_error prog c = Some x -> i < outs x -> exists r, shows_ray body prog c i r.
Proof.
  intros Po Sc c x i N Li. destruct (ray_submits body prog Po Sc) as (ops & rs & L & Pl & F). cbn zeta in *.
  destruct (finishes body no_c no_m (fun _ => None) 0 0 ops L (known_plays _ _ _ Pl)) as (k & H & _ & R).
  destruct (full_ref _ _ F _ _ _ N Li) as (d & D). destruct (R d) as (r & G); [eapply plays_returned; eauto|].
  exists r, no_c, no_m, (fun _ => None), 0, 0, (ops ++ repeat (YRun 0) k), rs, d. cbn zeta. rewrite H. auto.
Qed.
