(** What the root sends before a call of a method. *)
From Verif Require Import Lib ValModel ShmModel ShmRaceProofs PushModel PushProofs WorkerModel WorkerSpec WorkerProofs WorkerLog
  WorkerTrace WorkerReady WorkerAnswer WorkerOrder WorkerThms WorkerSends WorkerDone WorkerFew MonModel ShutProofs
  ClusterModel ClusterSpec ClusterSeq ClusterProofs ClusterCount ActModel ActSpec ActGives ActProofs ActCount ActThms.
From Coq Require Import Permutation.

Lemma push_some_sent dest : forall ds p, exists new, p_store (fst (push_some p dest ds)) = p_store p /\
  p_out (fst (push_some p dest ds)) = p_out p ++ new /\
  (forall d r, In (d, r) (p_sent (fst (push_some p dest ds))) ->
     In (d, r) (p_sent p) \/ (In d (p_store p) /\ In (r, MValue d) new)) /\
  (forall d r, In (d, r) (p_sent p) -> In (d, r) (p_sent (fst (push_some p dest ds)))) /\
  (snd (push_some p dest ds) = true -> forall d, In d ds -> In d (p_store p) -> In (d, dest) (p_sent (fst (push_some p dest ds)))).
Proof.
  induction ds as [|d ds IH]; intros p; cbn [push_some].
  - exists []. rewrite app_nil_r. cbn [fst snd]. do 4 (split; [auto|]). intros _ x [].
  - destruct (push_ref p dest d) as [p1|] eqn:E.
    + destruct (IH p1) as (n2 & S2 & O2 & A2 & B2 & C2).
      unfold push_ref in E. destruct (did_in d (p_store p)) eqn:Ed.
      * apply Some_inj in E. apply did_in_In in Ed. unfold push_value in E.
        destruct (is_sent (p_sent p) d dest) eqn:Is.
        -- subst p1. exists n2. do 4 (split; [auto|]). intros T x [<-|X] Xs; auto. apply B2. apply is_sent_In; auto.
        -- subst p1. cbn [p_store p_out p_sent] in *. exists ((dest, MValue d) :: n2). split; [auto|]. split; [rewrite O2, <- app_assoc; auto|].
           split; [|split].
           ++ intros x r X. apply A2 in X as [X|[X Y]]; [|right; simpl; auto].
              apply in_app_or in X as [X|[X|[]]]; auto. injection X as <- <-. right. simpl; auto.
           ++ intros x r X. apply B2. apply in_or_app; auto.
           ++ intros T x [<-|X] Xs; auto. apply B2. apply in_or_app. simpl; auto.
      * destruct (p_owner p d) as [o|]; [|discriminate]. apply Some_inj in E. subst p1. cbn [push_owner p_store p_out p_sent] in *.
        exists ((dest, MOwner d o) :: n2). split; [auto|]. split; [rewrite O2, <- app_assoc; auto|]. split; [|split].
        -- intros x r X. apply A2 in X as [X|[X Y]]; auto. right. simpl; auto.
        -- auto.
        -- intros T x [<-|X] Xs; auto. apply did_in_In in Xs. congruence.
    + exists []. rewrite app_nil_r. cbn [fst snd]. do 4 (split; [auto|]). discriminate.
Qed.

(** A submission: what goes out before the request. *)
Lemma submit_sent p dest n outs f a k : exists new, let p' := pstep p (PSubmit dest n outs f a k) in
  p_store p' = p_store p /\
  (forall d r, In (d, r) (p_sent p') -> In (d, r) (p_sent p) \/ (In d (p_store p) /\ In (r, MValue d) new)) /\
  match submit p dest n outs f a k with
  | Some _ => p_out p' = p_out p ++ new ++ [(dest, MTask n)] /\
      forall d, In d (refs f ++ refs a ++ refs k) -> In d (p_store p) ->
      In (d, dest) (p_sent p) \/ In (dest, MValue d) new
  | None => p_out p' = p_out p ++ new
  end.
Proof.
  cbn [pstep]. fold (with_outputs p dest outs). rewrite submit_refs.
  destruct (push_some_sent dest (refs f ++ refs a ++ refs k) (with_outputs p dest outs)) as (new & S1 & O1 & A1 & B1 & C1).
  exists new. unfold ok_of. destruct (push_some _ dest _) as [p1 []]; cbn [fst snd] in *; cbv zeta.
  - cbn [send_task p_store p_sent p_out]. split; [exact S1|]. split; [exact A1|]. rewrite O1, <- app_assoc. split; [auto|].
    intros d D Ds. destruct (A1 d dest) as [X|[_ X]]; auto.
  - split; [exact S1|]. split; [exact A1|]. exact O1.
Qed.

(** The messages for pushes. *)
Definition conv (vals : dmap val) (t : wmsg) (l : list (rank * msg)) : list (rank * wmsg) :=
  flat_map (fun p => map (fun m => (fst p, m))
    (match snd p with
     | MValue d => match vals d with Some v => [WPut d v] | None => [] end
     | MOwner d o => [WOwner d o]
     | MTask _ => [t] end)) l.

Lemma conv_app vals t a b : conv vals t (a ++ b) = conv vals t a ++ conv vals t b.
Proof. apply flat_map_app. Qed.

Lemma pushed_conv vals q l : pushed vals q l = conv vals (WExec q) l.
Proof. reflexivity. Qed.
Lemma pushed_call_conv vals q l : pushed_call vals q l = conv vals (WActor q) l.
Proof. reflexivity. Qed.

Lemma in_sends w m l : In m (sends_to w l) <-> In (w, m) l.
Proof.
  unfold sends_to. rewrite in_flat_map. split.
  - intros ([r x] & I & X). cbn [fst snd] in X. destruct (Nat.eqb_spec r w) as [->|]; [|destruct X]. destruct X as [<-|[]]. auto.
  - intros I. exists (w, m). split; auto. cbn [fst snd]. rewrite Nat.eqb_refl. simpl; auto.
Qed.

Lemma conv_value vals t l r d v : In (r, MValue d) l -> vals d = Some v -> In (WPut d v) (sends_to r (conv vals t l)).
Proof.
  intros I E. apply in_sends. unfold conv. apply in_flat_map. exists (r, MValue d). split; auto. cbn [fst snd]. rewrite E. simpl; auto.
Qed.

Lemma conv_clean vals t l w ds : In (WClean ds) (sends_to w (conv vals t l)) -> t = WClean ds.
Proof.
  intros I. apply in_sends in I. unfold conv in I. apply in_flat_map in I as ([r m] & _ & I). cbn [fst snd] in I.
  destruct m; cbn [map] in I.
  - destruct (vals d); cbn [map] in I; [|destruct I]. destruct I as [I|[]]. discriminate.
  - destruct I as [I|[]]. discriminate.
  - destruct I as [I|[]]. injection I as _ ->. auto.
Qed.

Lemma read_all st ds vs : read_vals st ds = Some vs -> forall d, In d ds -> st d <> None.
Proof.
  revert vs. induction ds as [|x ds IH]; intros vs R d I; [destruct I|]. cbn [read_vals] in R.
  destruct (st x) eqn:E; [|discriminate]. destruct (read_vals st ds) eqn:R'; [|discriminate].
  destruct I as [<-|I]; [congruence|]. eapply IH; eauto.
Qed.

Lemma error_dec (l : list sight) : In RError l \/ ~ In RError l.
Proof.
  induction l as [|x l [I|N]]; [right; intros []|left; right; auto|].
  destruct x; try (right; intros [X|X]; [discriminate|tauto]). left. left. auto.
Qed.

(** What workers send, or happens by itself. *)
Definition from_worker (m : wmsg) : Prop := match m with WPut _ _ | WGet _ _ _ | WFinish _ => True | _ => False end.

Lemma same_cut q (A B x y : list wmsg) : NoDup (map q_id (requests (A ++ WActor q :: B))) ->
  A ++ WActor q :: B = x ++ WActor q :: y -> A = x.
Proof.
  revert x. induction A as [|m A IH]; intros x N E.
  - destruct x as [|z x]; auto. exfalso. injection E as <- ->. simpl in N. inversion N as [|? ? X _]; subst. apply X.
    apply in_map. rewrite ClusterCount.requests_app. apply in_or_app. right. simpl; auto.
  - destruct x as [|z x].
    + exfalso. injection E as -> <-. simpl in N. inversion N as [|? ? X _]; subst. apply X.
      apply in_map. rewrite ClusterCount.requests_app. apply in_or_app. right. simpl; auto.
    + injection E as -> E. f_equal. apply IH; auto. change (z :: A) with ([z] ++ A) in N. rewrite <- app_assoc, ClusterCount.requests_app, map_app in N.
      eapply nodup_app_r; eauto.
Qed.

Section Order.
Variable workers : list rank.
Variable body : val -> val -> val -> result.
Variable mbody : list call -> call -> result.
Variable is_async : callee -> bool.
Notation grun := (grun workers body mbody is_async).
Notation gstep := (gstep workers body mbody is_async).

Record AO (prog : list gprog) (c : cst) : Prop := {
  ao_store : forall d, In d (p_store (c_push c)) <-> c_vals c d <> None;
  ao_sent : forall d w, In (d, w) (p_sent (c_push c)) -> exists v, In (WPut d v) (sends_to w (c_out c));
  ao_flow : forall w, w <> 0 -> exists lost, sends_to 0 (c_in c w) ++ lost ++ c_chan c 0 w = sends_to w (c_out c) /\
    (c_dead c w = false -> lost = []);
  ao_src : forall w s m, s <> 0 -> In (s, m) (c_in c w) \/ In m (c_chan c s w) -> from_worker m;
  ao_clean : forall w ds, In (WClean ds) (sends_to w (c_out c)) -> In (GP (RClean ds)) prog;
  ao_put : forall d v, In (GP (RPut d v)) prog -> ~ In (GP (RDrop d)) prog -> In d (p_store (c_push c));
  ao_get : forall ds, In (GP (RGet ds)) prog -> In RError (c_seen c) \/ (c_left c <> 0 /\ c_want c = ds) \/
    (exists e, In (RRaised ds e) (c_seen c)) \/ exists vs, In (RGot ds vs) (c_seen c);
  ao_got : forall ds vs d, In (RGot ds vs) (c_seen c) -> In d ds -> ~ In (GP (RDrop d)) prog -> In d (p_store (c_push c));
  ao_call : forall a w nd q b, prog = a ++ GC w nd q :: b -> In RError (c_seen c) \/
    exists x y, sends_to w (c_out c) = x ++ WActor q :: y /\ (forall ds, In (WClean ds) x -> In (GP (RClean ds)) a) /\
      forall d, In d (qrefs q) -> held a (c_seen c) d -> exists v, In (WPut d v) x
}.

Lemma held_store prog c d : AO prog c -> c_left c = 0 -> ~ In RError (c_seen c) -> held prog (c_seen c) d -> In d (p_store (c_push c)).
Proof.
  intros A L E [[(v & P)|(ds & D & G & R)] [N _]].
  - eapply ao_put; eauto.
  - destruct (ao_get _ _ A ds G) as [X|[[X _]|[(e & X)|(vs & X)]]]; [tauto|congruence|destruct (R _ X)|].
    eapply ao_got; eauto.
Qed.

Lemma held_less a s s' d : incl s s' -> held a s' d -> held a s d.
Proof.
  intros I [[X|(ds & D & G & R)] Y]; split; auto. right. exists ds. repeat split; auto. intros e Z. apply (R e). auto.
Qed.

Lemma init_ao mgr : AO [] (cinit mgr).
Proof.
  split; cbn [cinit c_push pinit p_store p_sent c_vals c_out c_in c_chan c_seen c_left c_want]; try (intros; contradiction).
  - intros d. split; [intros []|intros X; destruct X; reflexivity].
  - intros w _. exists []. auto.
  - intros w s m _ [[]|[]].
  - intros a w nd q b E. destruct a; discriminate.
Qed.

(** The root acts. *)
Lemma root_ao prog c p c' seen out : AO prog c ->
  c_in c' = c_in c -> c_dead c' = c_dead c -> c_out c' = c_out c ++ out -> c_seen c' = c_seen c ++ seen ->
  (forall s d, c_chan c' s d = if s =? 0 then c_chan c s d ++ sends_to d out else c_chan c s d) ->
  (forall d, In d (p_store (c_push c')) <-> c_vals c' d <> None) ->
  (forall d w, In (d, w) (p_sent (c_push c')) -> In (d, w) (p_sent (c_push c)) \/ exists v, In (WPut d v) (sends_to w out)) ->
  (forall d, In d (p_store (c_push c)) -> In d (p_store (c_push c')) \/ p = GP (RDrop d)) ->
  (forall w ds, In (WClean ds) (sends_to w out) -> p = GP (RClean ds)) ->
  (forall d v, p = GP (RPut d v) -> In d (p_store (c_push c'))) ->
  (forall ds, p = GP (RGet ds) -> In RError seen \/ (c_left c' <> 0 /\ c_want c' = ds) \/ exists vs, In (RGot ds vs) seen) ->
  c_left c = 0 -> (forall ds vs d, In (RGot ds vs) seen -> In d ds -> In d (p_store (c_push c'))) ->
  (forall w nd q, p = GC w nd q -> In RError seen \/ exists x, sends_to w out = x ++ [WActor q] /\
     (forall ds, ~ In (WClean ds) x) /\
     forall d, In d (qrefs q) -> In d (p_store (c_push c)) -> In (d, w) (p_sent (c_push c)) \/ exists v, In (WPut d v) x) ->
  AO (prog ++ [p]) c'.
Proof.
  intros A Hi Hd Ho Hs Hc St Sn Ke Cl Pu Ge L0 Gt Ca. split.
  - exact St.
  - intros d w I. rewrite Ho, ClusterCount.sends_app. destruct (Sn d w I) as [X|(v & X)].
    + destruct (ao_sent _ _ A d w X) as (v & Y). exists v. apply in_or_app; auto.
    + exists v. apply in_or_app; auto.
  - intros w W0. destruct (ao_flow _ _ A w W0) as (lost & F & Z). exists lost. rewrite Hi, Hd, Hc, Ho, ClusterCount.sends_app. cbn [Nat.eqb].
    rewrite <- F, <- !app_assoc. auto.
  - intros w s m S0 I. rewrite Hi, Hc in I. destruct (Nat.eqb_spec s 0); [congruence|]. eapply ao_src; eauto.
  - intros w ds I. rewrite Ho, ClusterCount.sends_app in I. apply in_app_or in I as [I|I].
    + apply in_or_app. left. eapply ao_clean; eauto.
    + apply Cl in I. subst p. apply in_or_app. simpl; auto.
  - intros d v I N. apply in_app_or in I as [I|[I|[]]].
    + destruct (Ke d) as [X|X]; auto.
      * eapply ao_put; eauto. intros Y. apply N. apply in_or_app; auto.
      * destruct N. subst p. apply in_or_app. simpl; auto.
    + eauto.
  - intros ds I. rewrite Hs. apply in_app_or in I as [I|[I|[]]].
    + destruct (ao_get _ _ A ds I) as [X|[[X _]|[(e & X)|(vs & X)]]].
      * left. apply in_or_app; auto.
      * congruence.
      * right. right. left. exists e. apply in_or_app; auto.
      * right. right. right. exists vs. apply in_or_app; auto.
    + destruct (Ge ds I) as [X|[X|(vs & X)]].
      * left. apply in_or_app; auto.
      * right. left. exact X.
      * right. right. right. exists vs. apply in_or_app; auto.
  - intros ds vs d I D N. rewrite Hs in I. apply in_app_or in I as [I|I]; [|eauto].
    destruct (Ke d) as [X|X]; auto.
    + eapply ao_got; eauto. intros Y. apply N. apply in_or_app; auto.
    + destruct N. subst p. apply in_or_app. simpl; auto.
  - intros a w nd q b E. destruct b as [|z b _] using rev_ind.
    + apply app_inj_tail in E as [<- E]. rewrite Hs.
      destruct (Ca w nd q E) as [X|(x & X1 & X2 & X3)]; [left; apply in_or_app; auto|].
      destruct (error_dec (c_seen c)) as [Er|Er].
      { left. apply in_or_app; auto. }
      right. exists (sends_to w (c_out c) ++ x), []. rewrite Ho, ClusterCount.sends_app, X1, <- !app_assoc. split; [auto|]. split.
      * intros ds I. apply in_app_or in I as [I|I]; [eapply ao_clean; eauto|destruct (X2 _ I)].
      * intros d D H. assert (H' : held prog (c_seen c) d) by (eapply held_less; [|eauto]; apply incl_appl, incl_refl).
        destruct (X3 d D) as [Y|(v & Y)]; [eapply held_store; eauto| |].
        -- destruct (ao_sent _ _ A d w Y) as (v & Z). exists v. apply in_or_app; auto.
        -- exists v. apply in_or_app; auto.
    + change (GC w nd q :: b ++ [z]) with ((GC w nd q :: b) ++ [z]) in E. rewrite app_assoc in E. apply app_inj_tail in E as [E _].
      rewrite Hs. destruct (ao_call _ _ A _ _ _ _ _ E) as [X|(x & y & X1 & X2 & X3)]; [left; apply in_or_app; auto|].
      right. exists x, (y ++ sends_to w out). rewrite Ho, ClusterCount.sends_app, X1, <- !app_assoc. split; [auto|]. split; [auto|].
      intros d D H. apply X3; auto. eapply held_less; [|eauto]; apply incl_appl, incl_refl.
Qed.

Lemma root_step_ao prog c o : c_left c = 0 -> AO prog c -> AO (prog ++ [GP o]) (root_step workers c o).
Proof.
  intros L0 A. destruct o; cbn [root_step]; cbv zeta.
  - apply (root_ao prog c _ _ [] []); auto; try reflexivity; cbn [root_to c_push c_vals pstep p_store p_sent c_chan sends_to flat_map];
      try (intros; contradiction); try (intros; discriminate).
    + intros x. unfold dput. cbn [In]. destruct (did_eqb d x) eqn:E.
      * apply did_eqb_eq in E as ->. split; [intros _ X; discriminate X|auto].
      * rewrite (ao_store _ _ A x). split; [intros [->|X]; auto; rewrite did_eqb_refl in E; discriminate|auto].
    + intros x I. left. right. auto.
    + intros x y E. injection E as -> _. left; auto.
  - destruct (submit_sent (c_push c) dest (q_id q) (out_ids (q_out q)) (fn_val (q_fn q)) (q_args q) (q_kwargs q)) as (new & S1 & S2 & S3).
    set (p' := pstep _ _) in *.
    set (sb := submit _ _ _ _ _ _ _) in *.
    match goal with |- AO _ (root_to _ _ _ _ _ ?sn ?o) => apply (root_ao prog c _ _ sn o) end; auto; try reflexivity;
      cbn [root_to c_push c_vals c_chan]; rewrite ?pushed_conv; try (intros; discriminate).
    + rewrite S1. apply A.
    + intros d w I. apply S2 in I as [I|[I J]]; auto. right.
      apply (ao_store _ _ A) in I. destruct (c_vals c d) as [v|] eqn:Ev; [|congruence]. exists v.
      assert (Cv : conv (c_vals c) (WExec q) (skipn (length (p_out (c_push c))) (p_out p')) =
        conv (c_vals c) (WExec q) new ++ (if sb then [(dest, WExec q)] else [])).
      { destruct sb; [destruct S3 as [S3 _]|]; rewrite S3, skipn_exact; [|rewrite app_nil_r; auto]. rewrite conv_app. auto. }
      rewrite Cv, ClusterCount.sends_app. apply in_or_app. left. eapply conv_value; eauto.
    + intros d I. left. rewrite S1. auto.
    + intros w ds I. apply conv_clean in I. discriminate.
    + destruct sb; [intros; contradiction|]. intros ds vs d [X|[]]. discriminate.
  - destruct (filter _ ds) as [|x r] eqn:F.
    + apply (root_ao prog c _ _ (got (c_vals c) ds) []); auto; try reflexivity; cbn [root_to c_push c_vals c_chan];
        try (intros; contradiction); try (intros; discriminate).
      * apply A.
      * intros ds' E. injection E as <-. unfold got. destruct (read_vals (c_vals c) ds); [right; right; eexists|left]; simpl; auto.
      * intros ds' vs d I D. unfold got in I. destruct (read_vals (c_vals c) ds) eqn:R; destruct I as [I|[]]; [|discriminate].
        injection I as <- <-. apply (ao_store _ _ A). eapply read_all; eauto.
    + destruct (owners _ _) as [l|].
      * apply (root_ao prog c _ _ [] (map (fun p => (fst p, WGet 0 (snd p) true)) l)); auto; try reflexivity;
          cbn [set_get root_to c_push c_vals c_chan c_left c_want]; try (intros; contradiction); try (intros; discriminate).
        -- apply A.
        -- intros w ds' I. apply in_sends in I. apply in_map_iff in I as (y & X & _). discriminate.
        -- intros ds' E. injection E as <-. right. left. split; [discriminate|auto].
      * apply (root_ao prog c _ _ [RError] []); auto; try reflexivity; cbn [root_to c_push c_vals c_chan];
          try (intros; contradiction); try (intros; discriminate).
        -- apply A.
        -- intros. left. simpl; auto.
        -- intros ds' vs d [X|[]]. discriminate.
  - apply (root_ao prog c _ _ [] []); auto; try reflexivity; cbn [root_to c_push c_vals pstep p_store p_sent c_chan sends_to flat_map];
      try (intros; contradiction); try (intros; discriminate).
    + intros x. rewrite filter_In. unfold ddel. rewrite (did_eqb_sym x d). destruct (did_eqb d x) eqn:E; cbn [negb].
      * split; [intros [_ X]; discriminate|intros X; congruence].
      * rewrite (ao_store _ _ A x). tauto.
    + intros x w I. apply filter_In in I as [I _]. auto.
    + intros x I. destruct (did_eqb x d) eqn:E; [right; apply did_eqb_eq in E as ->; auto|].
      left. apply filter_In. rewrite E. auto.
  - destruct (Nat.eqb _ _).
    + apply (root_ao prog c _ _ [RCleaned ds] (map (fun w => (w, WClean ds)) workers)); auto; try reflexivity;
        cbn [root_to c_push c_vals c_chan]; try (intros; contradiction); try (intros; discriminate).
      * apply A.
      * intros w ds' I. apply in_sends in I. apply in_map_iff in I as (y & X & _). injection X as _ ->. auto.
      * intros ds' vs d [X|[]]. discriminate.
    + apply (root_ao prog c _ _ [] []); auto; try reflexivity; cbn [root_to c_push c_vals c_chan];
        try (intros; contradiction); try (intros; discriminate).
      * apply A.
Qed.

Lemma root_call_ao prog c dest nd q : c_left c = 0 -> AO prog c -> AO (prog ++ [GC dest nd q]) (root_call c dest nd q).
Proof.
  intros L0 A. unfold root_call. cbv zeta.
  destruct (submit_sent (c_push c) dest (q_id q) (out_ids (q_out q)) (VRef nd) (q_args q) (q_kwargs q)) as (new & S1 & S2 & S3).
  set (p' := pstep _ _) in *. set (sb := submit _ _ _ _ _ _ _) in *. rewrite pushed_call_conv.
  assert (Cv : conv (c_vals c) (WActor q) (skipn (length (p_out (c_push c))) (p_out p')) =
    conv (c_vals c) (WActor q) new ++ (if sb then [(dest, WActor q)] else [])).
  { destruct sb; [destruct S3 as [S3 _]|]; rewrite S3, skipn_exact; [|rewrite app_nil_r; auto]. rewrite conv_app. auto. }
  rewrite Cv.
  match goal with |- AO _ {| c_seen := _ ++ ?sn; c_out := _ ++ ?o |} => apply (root_ao prog c _ _ sn o) end; auto; try reflexivity;
    cbn [c_push c_vals c_chan]; try (intros; discriminate).
  - rewrite S1. apply A.
  - intros d w I. apply S2 in I as [I|[I J]]; auto. right.
    apply (ao_store _ _ A) in I. destruct (c_vals c d) as [v|] eqn:Ev; [|congruence]. exists v.
    rewrite ClusterCount.sends_app. apply in_or_app. left. eapply conv_value; eauto.
  - intros d I. left. rewrite S1. auto.
  - intros w ds I. rewrite ClusterCount.sends_app in I. apply in_app_or in I as [I|I]; [apply conv_clean in I; discriminate|].
    destruct sb; apply in_sends in I; [destruct I as [I|[]]; discriminate|destruct I].
  - destruct sb; [intros; contradiction|]. intros ds vs d [X|[]]. discriminate.
  - intros w nd' q' E. injection E as <- <- <-. destruct sb as [p1|] eqn:Sb; [right|left; simpl; auto].
    exists (sends_to dest (conv (c_vals c) (WActor q) new)). rewrite ClusterCount.sends_app. split.
    { f_equal. cbn [sends_to flat_map fst snd]. rewrite Nat.eqb_refl. auto. }
    split; [intros ds I; apply conv_clean in I; discriminate|].
    intros d D St. destruct S3 as [_ S3]. destruct (S3 d) as [X|X]; auto.
    { unfold qrefs in D. apply in_app_or in D. rewrite !in_app_iff. tauto. }
    right. apply (ao_store _ _ A) in St. destruct (c_vals c d) as [v|] eqn:Ev; [|congruence]. exists v. eapply conv_value; eauto.
Qed.

(** A worker takes a message, or a coroutine ends. *)
Lemma outgoing_from self l dst m : In m (outgoing self l dst) -> from_worker m.
Proof.
  unfold outgoing. intros I. apply in_flat_map in I as (e & _ & I). destruct e; try (destruct I; fail).
  - destruct (_ =? _); [|destruct I]. destruct I as [<-|[]]. exact Logic.I.
  - destruct (_ =? _); [|destruct I]. destruct I as [<-|[]]. exact Logic.I.
Qed.

Lemma deal_ao prog c src dst m ch : AO prog c -> dst <> 0 -> c_dead c dst = false ->
  (src <> 0 -> from_worker m) ->
  (forall w, c_chan c 0 w = (if (w =? dst) && (src =? 0) then [m] else []) ++ ch 0 w) ->
  (forall s w x, s <> 0 -> In x (ch s w) -> In x (c_chan c s w)) ->
  AO prog (deal body mbody is_async c src dst m ch).
Proof.
  intros A D0 Al Nm H0 Hs. unfold deal. destruct (wstep dst body mbody is_async (c_work c dst) m) as [w'|].
  - cbv zeta. split; cbn [c_push c_vals c_out c_in c_chan c_dead c_seen c_left c_want]; try apply A.
    + intros w W0. destruct (ao_flow _ _ A w W0) as (lost & F & Z). exists lost. split; auto. rewrite <- F, H0.
      replace (0 =? dst) with false by (symmetry; apply Nat.eqb_neq; auto).
      destruct (Nat.eqb_spec w dst) as [->|Nw]; cbn [andb app]; auto. rewrite (Z Al). cbn [app].
      rewrite ClusterCount.sends_app. cbn [sends_to flat_map fst snd]. destruct (src =? 0); rewrite ?app_nil_r, <- ?app_assoc; auto.
    + intros w s x S0 I. destruct I as [I|I].
      * destruct (w =? dst).
        -- apply in_app_or in I as [I|[I|[]]]; [eapply ao_src; eauto|]. injection I as <- <-. auto.
        -- eapply ao_src; eauto.
      * destruct (s =? dst).
        -- apply in_app_or in I as [I|I]; [eapply ao_src; eauto|]. eapply outgoing_from; eauto.
        -- eapply ao_src; eauto.
  - split; cbn [c_push c_vals c_out c_in c_chan c_dead c_seen c_left c_want]; try apply A.
    + intros w W0. destruct (ao_flow _ _ A w W0) as (lost & F & Z). rewrite <- F, H0.
      destruct (Nat.eqb_spec w dst) as [->|Nw]; cbn [andb app].
      * exists (lost ++ (if src =? 0 then [m] else [])). rewrite <- app_assoc. split; [auto|discriminate].
      * exists lost. auto.
    + intros w s x S0 I. destruct I as [I|I]; eapply ao_src; eauto.
Qed.

Lemma gtake_ao prog c src dst : AO prog c -> AO prog (gtake body mbody is_async c src dst).
Proof.
  intros A. unfold gtake. destruct (c_chan c src dst) as [|m l] eqn:Ch; auto.
  destruct (dst =? 0) eqn:D0; cbn [orb]; auto. apply Nat.eqb_neq in D0. destruct (c_dead c dst) eqn:Al; auto.
  apply deal_ao; auto.
  - intros S0. apply (ao_src _ _ A dst src m); auto. rewrite Ch. simpl; auto.
  - intros w. unfold drop_head. rewrite (Nat.eqb_sym src 0), andb_comm. destruct (Nat.eqb_spec 0 src) as [<-|]; cbn [andb app]; auto.
    destruct (Nat.eqb_spec w dst) as [->|]; cbn [app]; auto. rewrite Ch. auto.
  - intros s w x _ I. unfold drop_head in I. destruct (_ && _); auto. destruct (c_chan c s w); simpl in *; auto.
Qed.

Lemma finish_ao prog c dst i : AO prog c -> AO prog (finish body mbody is_async c dst i).
Proof.
  intros A. unfold finish. destruct (nth_error _ _); auto. destruct (dst =? 0) eqn:D0; cbn [orb]; auto.
  destruct (c_dead c dst) eqn:Al; auto. apply deal_ao; auto.
  - apply Nat.eqb_neq; auto.
  - intros _. exact Logic.I.
  - intros w. rewrite D0, andb_false_r. auto.
Qed.

Lemma reply_ao prog c src : AO prog c -> AO prog (reply c src).
Proof.
  intros A. unfold reply. destruct (c_left c) as [|k] eqn:Lf; auto. destruct (c_chan c src 0) as [|m ch] eqn:Ch; auto.
  destruct m; auto. cbv zeta.
  set (ok := did_in d (c_ids c)). set (exc := match c_exc c with Some _ => _ | None => _ end).
  set (sn := if ok then _ else _).
  assert (St : forall x, In x (d :: p_store (c_push c)) <-> dput (c_vals c) d v x <> None).
  { intros x. unfold dput. cbn [In]. destruct (did_eqb d x) eqn:E.
    - apply did_eqb_eq in E as ->. split; [intros _ X; discriminate X|auto].
    - rewrite (ao_store _ _ A x). split; [intros [->|X]; auto; rewrite did_eqb_refl in E; discriminate|auto]. }
  split; cbn [c_push c_vals c_out c_in c_chan c_dead c_seen c_left c_want pstep p_store p_sent]; try apply A.
  - exact St.
  - intros w W0. destruct (ao_flow _ _ A w W0) as (lost & F & Z). exists lost. split; auto. rewrite <- F.
    unfold drop_head. replace (w =? 0) with false by (symmetry; apply Nat.eqb_neq; auto). rewrite andb_false_r. auto.
  - intros w s x S0 I. destruct I as [I|I].
    + destruct (w =? 0); [|eapply ao_src; eauto]. apply in_app_or in I as [I|[I|[]]]; [eapply ao_src; eauto|]. injection I as _ <-. exact Logic.I.
    + apply (ao_src _ _ A w s x); auto. right. unfold drop_head in I. destruct (_ && _); auto. destruct (c_chan c s w); simpl in *; auto.
  - intros x y I N. right. eapply ao_put; eauto.
  - intros ds I. destruct (ao_get _ _ A ds I) as [X|[[_ X]|[(e & X)|(vs & X)]]].
    + left. apply in_or_app; auto.
    + subst sn. destruct ok; [|left; apply in_or_app; simpl; auto]. destruct k as [|k]; [|right; left; split; [discriminate|auto]].
      rewrite X. destruct exc; [right; right; left; eexists; apply in_or_app; simpl; eauto|].
      unfold got. destruct (read_vals _ ds); [right; right; right; eexists|left]; apply in_or_app; simpl; eauto.
    + right. right. left. exists e. apply in_or_app; auto.
    + right. right. right. exists vs. apply in_or_app; auto.
  - intros ds vs x I D N. apply in_app_or in I as [I|I]; [right; eapply ao_got; eauto|].
    subst sn. destruct ok; [|destruct I as [I|[]]; discriminate]. destruct k; [|destruct I].
    destruct exc; [destruct I as [I|[]]; discriminate|]. unfold got in I.
    destruct (read_vals _ (c_want c)) eqn:R; destruct I as [I|[]]; [|discriminate]. injection I as <- <-.
    apply St. eapply read_all; eauto.
  - intros a w nd q b E. destruct (ao_call _ _ A a w nd q b E) as [X|(x & y & X1 & X2 & X3)]; [left; apply in_or_app; auto|].
    right. exists x, y. split; [auto|]. split; [auto|]. intros z Z H. apply X3; auto. eapply held_less; [|eauto]; apply incl_appl, incl_refl.
Qed.

Lemma done_ao prog c src : AO prog c -> AO prog (done workers c src).
Proof. intros A. unfold done. destruct (c_done c src); auto. split; apply A. Qed.

Lemma run_ao mgr ops : AO (g_prog (grun mgr ops)) (g_c (grun mgr ops)).
Proof.
  induction ops as [|o ops IH] using rev_ind; [apply init_ao|]. rewrite grun_snoc. set (g := grun mgr ops) in *. clearbody g.
  destruct o; cbn [ActModel.gstep].
  - destruct (c_left (g_c g)) eqn:L; auto. cbn [g_c g_prog]. destruct p; [apply root_step_ao|apply root_call_ao]; auto.
  - apply gtake_ao; auto.
  - apply reply_ao; auto.
  - apply done_ao; auto.
  - apply finish_ao; auto.
Qed.
End Order.

(** A value that was received and not cleaned up is available. *)
Lemma put_available l d v : In (WPut d v) (inputs l) -> (forall ds, In (WClean ds) (inputs l) -> ~ In d ds) -> available l d = true.
Proof.
  induction l as [|e l IH] using rev_ind; [intros []|]. unfold available in *. rewrite fold_left_app, inputs_app. cbn [fold_left].
  intros I N. assert (N' : forall ds, In (WClean ds) (inputs l) -> ~ In d ds) by (intros ds X; apply N; apply in_or_app; auto).
  apply in_app_or in I as [I|I].
  - rewrite (IH I N'). destruct e; auto; [|destruct (did_eqb _ _); auto]. destruct m; auto; try (destruct (did_eqb _ _); auto; fail).
    destruct (did_in d ds) eqn:E; auto. apply did_in_In in E. exfalso. apply (N ds); auto. apply in_or_app. simpl; auto.
  - destruct e; simpl in I; try tauto. destruct I as [->|[]]. rewrite did_eqb_refl. auto.
Qed.

Section Calls.
Variable workers : list rank.
Variable body : val -> val -> val -> result.
Variable mbody : list call -> call -> result.
Variable is_async : callee -> bool.
Hypothesis body_ok : forall f a k, no_refs_returned (body f a k).
Hypothesis mbody_ok : forall h c, no_refs_returned (mbody h c).
Notation grun := (grun workers body mbody is_async).

(** Order. *)
Lemma held_in_order mgr ops : NoDup workers -> (forall c, is_async c = false) ->
  let g := grun mgr ops in gvalid (g_prog g) -> placed workers (g_prog g) -> ~ In RError (c_seen (g_c g)) ->
  forall a w nd1 q1 b nd2 q2 d, g_prog g = a ++ GC w nd1 q1 :: b ++ GC w nd2 q2 :: d ->
  (forall x, In x (qrefs q1) -> held a (c_seen (g_c g)) x) ->
  (forall env, (forall x, In x (qrefs q1) -> gives body mbody (g_prog g) (history_of g) x (env x)) ->
     first_failure (arguments (subst env (q_args q1)) (subst env (q_kwargs q1))) = None) ->
  In (q_id q2) (map fst (history_of g w)) -> precedes (q_id q1) (q_id q2) (map fst (history_of g w)).
Proof.
  cbv zeta. intros ND Sy V Pl NE a w nd1 q1 b nd2 q2 d E Q1 Ff I2.
  assert (B := run_ab workers body mbody is_async body_ok mbody_ok mgr ops V).
  assert (K := run_ak workers body mbody is_async body_ok mbody_ok ND mgr ops V Pl).
  assert (O := run_ao workers body mbody is_async mgr ops).
  set (g := grun mgr ops) in *. clearbody g.
  assert (W0 : w <> 0).
  { intros ->. unfold history_of in I2. rewrite (ab_zero _ _ _ _ _ B) in I2. destruct I2. }
  assert (Oi : forall m, In m (map snd (c_in (g_c g) w)) -> aokm body mbody is_async (g_prog g) (hist (g_c g)) w m).
  { intros m M. apply in_map_iff in M as ([s y] & <- & M). eapply ab_in; eauto. }
  assert (R := ab_run _ _ _ _ _ B w W0).
  destruct (ainbox body mbody is_async body_ok mbody_ok _ (hist (g_c g)) w _ V Oi) as (N & NC).
  destruct (run_inputs w body mbody is_async body_ok mbody_ok _ winit _ (wi_init _ _) N NC eq_refl R) as [Inp _]. simpl in Inp.
  assert (W : WI body mbody (c_work (g_c g) w)).
  { apply (wrun_wi w body mbody is_async body_ok mbody_ok (map snd (c_in (g_c g) w)) winit); auto. apply wi_init. }
  assert (NF : forall i, ~ In (WFinish i) (map snd (c_in (g_c g) w))).
  { intros i X. apply Oi in X. simpl in X. auto. }
  assert (Once : NoDup (map q_id (requests (map snd (c_in (g_c g) w))))).
  { assert (X := ab_once _ _ _ _ _ B w). rewrite map_app in X. eapply nodup_app_l; eauto. }
  (* the requests sent to w *)
  assert (Sent : for_rank w (gsubmitted (g_prog g)) =
    for_rank w (gsubmitted a) ++ q1 :: for_rank w (gsubmitted b) ++ q2 :: for_rank w (gsubmitted d)).
  { rewrite E. change (GC w nd1 q1 :: b ++ GC w nd2 q2 :: d) with ([GC w nd1 q1] ++ b ++ [GC w nd2 q2] ++ d).
    rewrite !gsub_app, !for_rank_app.
    assert (X : forall nd q, for_rank w (gsubmitted [GC w nd q]) = [q]) by (intros nd q; unfold for_rank; simpl; rewrite Nat.eqb_refl; auto).
    rewrite !X. reflexivity. }
  destruct (ak_sent _ _ _ K w) as (lost & Ls & _). destruct (ak_prog _ _ _ K) as [X|X]; [tauto|].
  assert (Sout := X w). rewrite X, Sent in Ls. clear X.
  assert (Ids : NoDup (map q_id (for_rank w (gsubmitted (g_prog g))))).
  { assert (X := gv_ids _ V). revert X. generalize (gsubmitted (g_prog g)). clear. unfold for_rank.
    induction l as [|[r q] l IH]; simpl; intros X; [constructor|]. inversion X; subst.
    destruct (r =? w); simpl; auto. constructor; auto. intros Y. apply H1. apply in_map_iff in Y as (q' & <- & Y).
    apply in_map_iff in Y as ([r' q''] & <- & Y). apply filter_In in Y as [Y _]. apply in_map_iff. exists (r', q''). auto. }
  (* the second call has been received *)
  assert (Pm := none_lost w body mbody is_async body_ok mbody_ok _ _ N R NC). rewrite received_inputs, Inp in Pm.
  assert (Rq2 : In q2 (requests (map snd (c_in (g_c g) w)))).
  { assert (X : In (q_id q2) (map q_id (requests (map snd (c_in (g_c g) w))))).
    { rewrite Pm. apply in_or_app. left. apply (carried_ended body mbody _ (wi_good _ _ _ W)). exact I2. }
    apply in_map_iff in X as (q' & Eq & X). replace q2 with q'; auto.
    assert (Y : In q' (for_rank w (gsubmitted (g_prog g)))).
    { rewrite Sent, Ls. apply in_or_app; auto. }
    assert (Z : In q2 (for_rank w (gsubmitted (g_prog g)))).
    { rewrite Sent. apply in_or_app. right. right. apply in_or_app. simpl; auto. }
    clear - Ids Eq Y Z. revert Ids Y Z. generalize (for_rank w (gsubmitted (g_prog g))). induction l as [|x l IH]; simpl; [tauto|].
    intros Nd [->|Y] [Z|Z]; inversion Nd; subst; auto.
    - exfalso. apply H1. rewrite Eq. apply in_map; auto.
    - exfalso. apply H1. rewrite <- Eq. apply in_map; auto. }
  assert (Pre : exists s, requests (map snd (c_in (g_c g) w)) =
    (for_rank w (gsubmitted a) ++ q1 :: for_rank w (gsubmitted b)) ++ q2 :: s).
  { apply (prefix_until q2 _ (for_rank w (gsubmitted d)) _ (lost ++ requests (c_chan (g_c g) 0 w))); auto.
    - apply (NoDup_map_inv q_id). rewrite <- app_assoc. simpl. rewrite <- Sent. auto.
    - rewrite <- app_assoc. simpl. auto. }
  destruct Pre as (s & Pre). rewrite <- app_assoc in Pre. simpl in Pre.
  apply requests_split in Pre as (m1 & x1 & m23 & Em & Hx1 & Hm1 & Pre).
  apply requests_split in Pre as (m2 & x2 & m3 & -> & Hx2 & Hm2 & Hm3).
  assert (Act : forall nd q m, In (GC w nd q) (g_prog g) -> requests [m] = [q] -> In m (map snd (c_in (g_c g) w)) -> m = WActor q).
  { intros nd q m P Rm I. destruct m; simpl in Rm; try discriminate; injection Rm as ->; auto.
    apply Oi in I. simpl in I. destruct (gv_task _ V w q I) as (fd & F1), (gv_call _ V w nd q P) as (mm & F2). congruence. }
  rewrite (Act nd1 q1 x1) in Em; auto;
    [|rewrite E; apply in_or_app; simpl; auto | rewrite Em; apply in_or_app; simpl; auto].
  rewrite (Act nd2 q2 x2) in Em; auto;
    [|rewrite E; apply in_or_app; right; right; apply in_or_app; simpl; auto
     |rewrite Em; apply in_or_app; right; right; apply in_or_app; simpl; auto].
  assert (Before : forall y, In y (qrefs q1) -> (exists v, In (WPut y v) m1) /\ forall ds, In (WClean ds) m1 -> ~ In y ds).
  { destruct (ao_call _ _ O a w nd1 q1 _ E) as [X|(x & y & X1 & X2 & X3)]; [tauto|].
    apply map_eq_app in Em as (i1 & i2 & Ei & Ei1 & Ei2). destruct i2 as [|[s0 x0] i2]; [discriminate|]. injection Ei2 as -> Ei2.
    assert (S0 : s0 = 0).
    { destruct (Nat.eq_dec s0 0) as [|N0]; auto. exfalso. apply (ao_src _ _ O w s0 (WActor q1) N0). left. rewrite Ei. apply in_or_app. simpl; auto. }
    subst s0. destruct (ao_flow _ _ O w W0) as (lost' & Fl & _). rewrite Ei, ClusterCount.sends_app in Fl.
    cbn [sends_to flat_map fst snd] in Fl. fold (sends_to 0 i2) in Fl. rewrite Nat.eqb_refl in Fl. cbn [app] in Fl. rewrite <- app_assoc in Fl. cbn [app] in Fl.
    rewrite X1 in Fl.
    assert (Cut : sends_to 0 i1 = x).
    { apply (same_cut q1 _ (sends_to 0 i2 ++ lost' ++ c_chan (g_c g) 0 w) x y); auto. rewrite Fl, <- X1, Sout. exact Ids. }
    intros z Z. split.
    - destruct (X3 z Z (Q1 z Z)) as (v & Y). exists v. rewrite <- Cut in Y. apply in_sends in Y. rewrite <- Ei1. apply in_map_iff. exists (0, WPut z v). auto.
    - intros ds Y. rewrite <- Ei1 in Y. apply in_map_iff in Y as ([s9 y0] & Ey & Y). cbn [snd] in Ey. subst y0.
      destruct (Nat.eq_dec s9 0) as [->|N0].
      + apply in_sends in Y. rewrite Cut in Y. apply X2 in Y. destruct (Q1 z Z) as (_ & _ & H). apply H; auto.
      + exfalso. apply (ao_src _ _ O w s9 (WClean ds) N0). left. rewrite Ei. apply in_or_app; auto. }
  rewrite Em in Inp. apply inputs_split in Inp as (l1 & l23 & El & Hl1 & Inp).
  apply inputs_split in Inp as (l2 & l3 & -> & Hl2 & Hl3).
  destruct (in_order w body mbody is_async body_ok mbody_ok _ _ N R l1 q1 l2 q2 l3 Sy NF) as [A1 A2]; auto.
  { rewrite received_inputs, El, inputs_app. simpl. rewrite inputs_app. simpl. rewrite Hl1, Hl2, Hl3.
    rewrite Em in Once. exact Once. }
  { intros y Y. destruct (Before y Y) as ((v & Bv) & Bc). apply (put_available l1 y v); rewrite Hl1; auto. }
  assert (Gl : Good body mbody (l1 ++ EvIn (WActor q1) :: l2)).
  { eapply good_cut; [apply (wi_good _ _ _ W)|]. rewrite El, <- app_assoc. simpl. reflexivity. }
  set (h1 := carried (l1 ++ EvIn (WActor q1) :: l2)). set (h2 := carried (EvIn (WActor q2) :: l3)).
  assert (Eh : history_of g w = h1 ++ h2).
  { unfold history_of, h1, h2. rewrite <- carried_app, El, <- app_assoc. auto. }
  assert (I1 : In (q_id q1) (map fst h1)).
  { destruct (ended_carried body mbody _ (q_id q1) Gl) as (q & c & args & kwargs & Rq & Eq & C & Fa & Fk & Ra & Rk & Cc).
    { rewrite ended_app. apply in_or_app. right. exact A1. }
    assert (q = q1) as ->.
    { assert (Rw : forall x, In x (received (l1 ++ EvIn (WActor q1) :: l2)) -> In x (requests (map snd (c_in (g_c g) w)))).
      { intros x X. rewrite received_inputs, inputs_app in X. simpl in X. rewrite Hl1, Hl2 in X.
        rewrite Em. rewrite requests_app in *. simpl in *. rewrite requests_app. apply in_app_or in X as [X|[X|X]].
        - apply in_or_app; auto.
        - apply in_or_app. right. simpl. auto.
        - apply in_or_app. right. right. apply in_or_app; auto. }
      assert (Y1 := Rw _ Rq).
      assert (Y2 : In q1 (requests (map snd (c_in (g_c g) w)))).
      { apply Rw. unfold received. rewrite flat_map_app. apply in_or_app. right. simpl; auto. }
      clear - Once Eq Y1 Y2. revert Once Y1 Y2. generalize (requests (map snd (c_in (g_c g) w))). induction l as [|x l IH]; simpl; [tauto|].
      intros Nd [->|Y] [Z|Z]; inversion Nd; subst; auto.
      - exfalso. apply H1. rewrite Eq. apply in_map; auto.
      - exfalso. apply H1. rewrite <- Eq. apply in_map; auto. }
    destruct (gv_call _ V w nd1 q1) as (mm & Fm); [rewrite E; apply in_or_app; simpl; auto|].
    unfold callee_of in C. rewrite Fm in C. eapply Cc; eauto. rewrite <- failure_same.
    assert (NH := hist_once body mbody is_async body_ok mbody_ok _ _ V B).
    destruct (worker_gives body mbody is_async body_ok mbody_ok _ (hist (g_c g)) w _ _ V NH Oi R) as (_ & _ & _ & _ & G).
    { exists []. rewrite app_nil_r. auto. }
    assert (S1 : forall x y, stored (l1 ++ EvIn (WActor q1) :: l2) x y -> gives body mbody (g_prog g) (history_of g) x y).
    { intros x y S. apply G. rewrite El. change (l1 ++ EvIn (WActor q1) :: l2 ++ EvIn (WActor q2) :: l3) with
        (l1 ++ (EvIn (WActor q1) :: l2) ++ EvIn (WActor q2) :: l3). rewrite app_assoc. apply stored_app. auto. }
    destruct (choose (gives body mbody (g_prog g) (history_of g)) (qrefs q1)) as (env & Env).
    { intros x D. unfold qrefs in D. apply in_app_or in D as [D|D];
        [destruct (fill_found _ _ _ Fa Ra x D) as (y & Y) | destruct (fill_found _ _ _ Fk Rk x D) as (y & Y)]; eauto. }
    replace args with (subst env (q_args q1)); [replace kwargs with (subst env (q_kwargs q1)); auto|].
    + symmetry. apply (fill_subst _ _ _ _ Fk Rk). intros x y D S. eapply gives_fun; eauto. apply Env. apply in_or_app; auto.
    + symmetry. apply (fill_subst _ _ _ _ Fa Ra). intros x y D S. eapply gives_fun; eauto. apply Env. apply in_or_app; auto. }
  assert (J2 : ~ In (q_id q2) (map fst h1)).
  { intros X. apply A2. apply (carried_ended body mbody _ Gl). exact X. }
  rewrite Eh, map_app in *. apply in_app_or in I2 as [I2|I2]; [tauto|].
  apply in_split in I1 as (u1 & u2 & ->). apply in_split in I2 as (u3 & u4 & ->).
  exists u1, (u2 ++ u3), u4. rewrite <- !app_assoc. auto.
Qed.
End Calls.
