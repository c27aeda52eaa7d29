(** Whatever a process holds or the program gets is the value of its reference. *)
From Verif Require Import Lib ValModel ShmModel ShmRaceProofs PushModel PushProofs WorkerModel WorkerSpec WorkerLog WorkerAnswer
  WorkerTrace WorkerOrder WorkerThms WorkerSends WorkerDone MonModel ClusterModel ClusterSpec ClusterSeq ClusterProofs ClusterCount
  ActModel ActSpec ActGives.
From Coq Require Import Permutation.

(** Without actors and coroutines the model is ClusterModel. *)
Lemma gtake_plain body c s d : gtake body no_method plain_fn c s d = take body c s d.
Proof. reflexivity. Qed.

Lemma NoDup_drop {A} (a b c : list A) : NoDup (a ++ b ++ c) -> NoDup (a ++ c).
Proof.
  intros N. induction b as [|x b IH]; auto. apply IH. apply NoDup_remove_1 in N. exact N.
Qed.

Section AP.
Variable workers : list rank.
Variable body : val -> val -> val -> result.
Variable mbody : list call -> call -> result.
Variable is_async : callee -> bool.
Hypothesis body_ok : forall f a k, no_refs_returned (body f a k).
Hypothesis mbody_ok : forall h c, no_refs_returned (mbody h c).
Notation gives := (gives body mbody).
Notation grun := (grun workers body mbody is_async).
Notation gstep := (gstep workers body mbody is_async).

(** A message to w that says nothing wrong. *)
Definition aokm (prog : list gprog) (H : rank -> history) (w : rank) (m : wmsg) : Prop :=
  match m with
  | WPut d v => gives prog H d v
  | WExec q => In (GP (RSubmit w q)) prog
  | WActor q => exists nd, In (GC w nd q) prog
  | WGet _ _ _ | WOwner _ _ | WClean _ => True
  | WFinish _ => ~ forall c, is_async c = false
  | WCancel => False
  end.

Definition aok_sight (prog : list gprog) (H : rank -> history) (x : sight) : Prop :=
  match x with
  | RGot ds vs => Forall2 (gives prog H) ds vs
  | RRaised ds e => exists d, In d ds /\ gives prog H d (VExc e)
  | _ => True
  end.

Definition hist (c : cst) (w : rank) : history := carried (log (c_work c w)).

Record AB (prog : list gprog) (c : cst) : Prop := {
  ab_push : Pinv (c_push c);
  ab_zero : c_work c 0 = winit;
  ab_run : forall w, w <> 0 -> wrun w body mbody is_async winit (map snd (c_in c w)) = Some (c_work c w);
  ab_in : forall r s m, In (s, m) (c_in c r) -> aokm prog (hist c) r m;
  ab_chan : forall s d m, In m (c_chan c s d) -> aokm prog (hist c) d m;
  ab_src : forall s d m, s <> 0 -> In m (c_chan c s d) -> requests [m] = [];
  ab_once : forall w, NoDup (map q_id (requests (map snd (c_in c w)) ++ requests (c_chan c 0 w)));
  ab_vals : forall d v, c_vals c d = Some v -> gives prog (hist c) d v;
  ab_ids : incl (c_ids c) (c_want c);
  ab_exc : c_left c <> 0 -> forall e, c_exc c = Some e -> exists d, In d (c_want c) /\ gives prog (hist c) d (VExc e);
  ab_seen : forall x, In x (c_seen c) -> aok_sight prog (hist c) x
}.

Definition grows (H H' : rank -> history) : Prop := forall w, exists l, H' w = H w ++ l.

Lemma grows_refl H : grows H H.
Proof. intros w. exists []. rewrite app_nil_r. auto. Qed.

Lemma aokm_mono a b H H' w m : grows H H' -> aokm a H w m -> aokm (a ++ b) H' w m.
Proof.
  intros G. destruct m; simpl; auto.
  - intros I. apply in_or_app; auto.
  - intros (nd & I). exists nd. apply in_or_app; auto.
  - apply gives_mono; auto.
Qed.

Lemma asight_mono a b H H' x : grows H H' -> aok_sight a H x -> aok_sight (a ++ b) H' x.
Proof.
  intros G. destruct x; simpl; auto.
  - intros F. induction F; constructor; auto. eapply gives_mono; eauto.
  - intros (d & D & X). exists d. split; auto. eapply gives_mono; eauto.
Qed.

Lemma agot_ok prog H st ds x : (forall d v, st d = Some v -> gives prog H d v) -> In x (got st ds) -> aok_sight prog H x.
Proof.
  intros G. unfold got. destruct (read_vals st ds) as [vs|] eqn:R; simpl; intros [<-|[]]; simpl; auto.
  apply read_all in R. induction R; constructor; auto.
Qed.

Lemma requests_in ms q : In q (requests ms) <-> In (WExec q) ms \/ In (WActor q) ms.
Proof.
  clear. unfold requests. rewrite in_flat_map. split.
  - intros (m & M & Q). destruct m; simpl in Q; try tauto; destruct Q as [->|[]]; auto.
  - intros [M|M]; eexists; split; eauto; simpl; auto.
Qed.

Lemma in_gsub prog w q : In (GP (RSubmit w q)) prog \/ (exists nd, In (GC w nd q) prog) -> In (w, q) (gsubmitted prog).
Proof.
  clear. unfold gsubmitted. rewrite in_flat_map. intros [I|(nd & I)]; eexists; split; eauto; simpl; auto.
Qed.

Lemma aokm_request prog H w m q : aokm prog H w m -> In q (requests [m]) -> In (w, q) (gsubmitted prog).
Proof.
  intros O I. apply in_gsub. destruct m; simpl in *; try tauto; destruct I as [<-|[]]; auto.
Qed.

(** The root acts: its store and what it has sent change. *)
Lemma root_ab prog c p c' vals seen out : AB prog c ->
  Pinv (c_push c') -> c_work c' = c_work c -> c_in c' = c_in c ->
  (forall s d, c_chan c' s d = if s =? 0 then c_chan c s d ++ sends_to d out else c_chan c s d) ->
  c_vals c' = vals -> c_seen c' = c_seen c ++ seen -> incl (c_ids c') (c_want c') ->
  (c_left c' <> 0 -> c_exc c' = None) ->
  (forall d v, vals d = Some v -> c_vals c d = Some v \/ gives (prog ++ [p]) (hist c) d v) ->
  (forall x, In x seen -> aok_sight (prog ++ [p]) (hist c) x) ->
  (forall d m, In (d, m) out -> aokm (prog ++ [p]) (hist c) d m) ->
  (forall w, NoDup (map q_id (requests (map snd (c_in c w)) ++ requests (c_chan c 0 w) ++ requests (sends_to w out)))) ->
  AB (prog ++ [p]) c'.
Proof.
  intros [B0 B1 B2 B3 B4 B5 B6 B7 B8 B9 B10] P W I Ch Vv Sn Id Ex Gv Gs Go On.
  assert (Hh : hist c' = hist c) by (unfold hist; rewrite W; auto).
  split; auto.
  - rewrite W. auto.
  - rewrite W, I. auto.
  - rewrite I, Hh. intros r s m X. eapply aokm_mono; eauto. apply grows_refl.
  - intros s d m X. rewrite Hh. rewrite Ch in X. destruct (s =? 0); [apply in_app_or in X as [X|X]|].
    + eapply aokm_mono; eauto. apply grows_refl.
    + apply in_sends in X. auto.
    + eapply aokm_mono; eauto. apply grows_refl.
  - intros s d m N X. rewrite Ch in X. apply Nat.eqb_neq in N. rewrite N in X. apply Nat.eqb_neq in N. eauto.
  - intros w. rewrite I, Ch. simpl. rewrite requests_app. apply On.
  - intros d v X. rewrite Hh. rewrite Vv in X. apply Gv in X as [X|X]; auto. eapply gives_mono; eauto. apply grows_refl.
  - intros L e X. rewrite Ex in X; [discriminate|auto].
  - rewrite Sn, Hh. intros x X. apply in_app_or in X as [X|X]; auto. eapply asight_mono; eauto. apply grows_refl.
Qed.

Lemma to_list vals (mk : request -> wmsg) q l w :
  (forall q, mk q = WExec q \/ mk q = WActor q) ->
  requests (sends_to w (flat_map (fun p => map (fun m => (fst p, m))
    (match snd p with
     | MValue d => match vals d with Some v => [WPut d v] | None => [] end
     | MOwner d o => [WOwner d o]
     | MTask _ => [mk q] end)) l)) =
  flat_map (fun p => match snd p with MTask _ => if fst p =? w then [q] else [] | _ => [] end) (l : list (rank * msg)).
Proof.
  clear. intros K. induction l as [|[r m] l IH]; auto. simpl. rewrite sends_app, requests_app, IH. f_equal.
  destruct m; simpl.
  - destruct (vals d); simpl; auto. destruct (r =? w); auto.
  - destruct (r =? w); auto.
  - destruct (r =? w); simpl; auto. destruct (K q) as [->| ->]; auto.
Qed.

(** What a submission or call sends: the request to dest, or nothing. *)
Lemma sent_requests vals (mk : request -> wmsg) q p dest n outs f a k : Pinv p ->
  (forall q, mk q = WExec q \/ mk q = WActor q) ->
  let new := skipn (length (p_out p)) (p_out (pstep p (PSubmit dest n outs f a k))) in
  let out := flat_map (fun p => map (fun m => (fst p, m))
    (match snd p with
     | MValue d => match vals d with Some v => [WPut d v] | None => [] end
     | MOwner d o => [WOwner d o]
     | MTask _ => [mk q] end)) new in
  (forall w, requests (sends_to w out) = [] \/ w = dest /\ requests (sends_to w out) = [q]) /\
  (forall w m, In (w, m) out -> (exists d v, m = WPut d v /\ vals d = Some v) \/ (exists d o, m = WOwner d o) \/ (w = dest /\ m = mk q)).
Proof.
  clear. intros PI K. simpl. destruct (submit_sends p dest n outs f a k PI) as (new & Q & S).
  simpl pstep in S.
  assert (E : exists tail, (tail = [] \/ tail = [(dest, MTask n)]) /\
    p_out (pstep p (PSubmit dest n outs f a k)) = p_out p ++ new ++ tail).
  { simpl. destruct (submit p dest n outs f a k) as [p'|] eqn:Sb.
    - exists [(dest, MTask n)]. split; auto.
    - exists []. split; auto. rewrite app_nil_r. exact S. }
  destruct E as (tail & T & E). simpl in E. rewrite E, skipn_exact. split.
  - intros w. rewrite to_list by auto. rewrite flat_map_app.
    assert (N : flat_map (fun p0 : rank * msg => match snd p0 with MTask _ => if fst p0 =? w then [q] else [] | _ => [] end) new = []).
    { clear - Q. induction new as [|[r m] new IH]; auto. simpl. rewrite IH.
      - destruct (Q (r, m) (or_introl eq_refl)) as [_ X]. destruct m; auto. destruct X.
      - intros e I. apply Q. simpl; auto. }
    rewrite N. simpl. destruct T as [-> | ->]; simpl; auto.
    destruct (Nat.eqb_spec dest w) as [->|]; simpl; auto.
  - intros w m I. apply in_flat_map in I as ([r x] & I & X). apply in_map_iff in X as (y & Y & X).
    apply pair_inj in Y as [<- <-]. simpl in *.
    destruct x; simpl in X.
    + destruct (vals d) eqn:Vd; [|destruct X]. destruct X as [<-|[]]. left. eauto.
    + destruct X as [<-|[]]. right; left; eauto.
    + destruct X as [<-|[]]. right; right. split; auto. apply in_app_or in I as [I|I].
      * apply Q in I as [I _]. auto.
      * destruct T as [-> | ->]; [destruct I|]. destruct I as [I|[]]. congruence.
Qed.

Lemma fresh_request prog p dest q w (X : list request) : NoDup (map (fun p => q_id (snd p)) (gsubmitted (prog ++ [p]))) ->
  gsubmitted [p] = [(dest, q)] -> (forall x, In x X -> In (w, x) (gsubmitted prog)) ->
  NoDup (map q_id X) -> NoDup (map q_id (X ++ [q])).
Proof.
  clear. intros N E I ND. rewrite map_app. simpl.
  unfold gsubmitted in N. rewrite flat_map_app in N. fold (gsubmitted prog) in N. fold (gsubmitted [p]) in N.
  rewrite E, map_app in N. simpl in N.
  assert (Ni : ~ In (q_id q) (map q_id X)).
  { intros Q. apply in_map_iff in Q as (x & Qx & Q). apply I in Q.
    eapply (nodup_sep _ _ (q_id q) N); simpl; auto. rewrite <- Qx. apply in_map_iff. exists (w, x). auto. }
  clear - ND Ni. induction X as [|x X IH]; simpl in *; [constructor; auto; constructor|].
  inversion ND; subst. constructor.
  - intros J. apply in_app_or in J as [J|[J|[]]]; auto. 
  - apply IH; auto.
Qed.

Lemma queue_known prog c w q : AB prog c -> In q (requests (map snd (c_in c w)) ++ requests (c_chan c 0 w)) ->
  In (w, q) (gsubmitted prog).
Proof.
  intros B I. apply in_gsub.
  assert (X : exists m, aokm prog (hist c) w m /\ In q (requests [m])).
  { apply in_app_or in I as [I|I]; apply requests_in in I.
    - destruct I as [I|I]; apply in_map_iff in I as ([s m] & E & I); simpl in E; subst m;
        (eexists; split; [eapply ab_in; eauto | simpl; auto]).
    - destruct I as [I|I]; (eexists; split; [eapply ab_chan; eauto | simpl; auto]). }
  destruct X as (m & O & X). destruct m; simpl in *; try tauto; destruct X as [<-|[]]; auto.
Qed.

Lemma still_once prog c w : AB prog c ->
  NoDup (map q_id (requests (map snd (c_in c w)) ++ requests (c_chan c 0 w) ++ [])).
Proof. intros B. rewrite app_nil_r. apply B. Qed.

(** What sending one request, or none, leaves. *)
Lemma once_more prog c p dest q w l : AB prog c -> gvalid (prog ++ [p]) -> gsubmitted [p] = [(dest, q)] ->
  (l = [] \/ w = dest /\ l = [q]) ->
  NoDup (map q_id (requests (map snd (c_in c w)) ++ requests (c_chan c 0 w) ++ l)).
Proof.
  intros B V E [->|[-> ->]]; [eapply still_once; eauto|].
  rewrite app_assoc. eapply fresh_request; eauto.
  - apply V.
  - intros x X. eapply queue_known; eauto.
  - apply B.
Qed.

Lemma root_step_ab prog c o : c_left c = 0 -> AB prog c -> gvalid (prog ++ [GP o]) ->
  AB (prog ++ [GP o]) (root_step workers c o).
Proof.
  intros L0 B V.
  assert (Vs : forall d v, c_vals c d = Some v -> gives (prog ++ [GP o]) (hist c) d v).
  { intros d v X. eapply gives_mono; [apply grows_refl|]. apply B; auto. }
  assert (Nil : forall s d, c_chan c s d = if s =? 0 then c_chan c s d ++ sends_to d [] else c_chan c s d).
  { intros s d. simpl. rewrite app_nil_r. destruct (s =? 0); auto. }
  assert (On : forall w, NoDup (map q_id (requests (map snd (c_in c w)) ++ requests (c_chan c 0 w) ++ requests (sends_to w [])))).
  { intros w. eapply still_once; eauto. }
  destruct o; cbn [root_step]; cbv zeta.
  - apply (root_ab prog c _ _ (dput (c_vals c) d v) [] []); auto; try (simpl; tauto); try (apply B); try (simpl; congruence).
    + intros x y. destruct (did_dec d x) as [<-|Nd].
      * rewrite dput_same. intros X. apply Some_inj in X as <-. right. apply gives_put, in_or_app. simpl; auto.
      * rewrite dput_other; auto.
  - destruct (sent_requests (c_vals c) WExec q (c_push c) dest (q_id q) (out_ids (q_out q)) (fn_val (q_fn q))
      (q_args q) (q_kwargs q) (ab_push _ _ B) ltac:(auto)) as [S1 S2].
    match goal with |- AB _ (root_to _ _ _ _ _ ?sn ?o) => apply (root_ab prog c _ _ (c_vals c) sn o) end;
      auto; try reflexivity; try (apply B); try (simpl; congruence).
    + apply pinv_step, B.
    + intros x. destruct (submit _ _ _ _ _ _ _); simpl; [tauto|]. intros [<-|[]]. exact I.
    + intros w m X. apply S2 in X as [(d & v & -> & X)|[(d & r & ->)|[-> ->]]]; simpl; auto.
      apply in_or_app. simpl; auto.
    + intros w. apply (once_more prog c (GP (RSubmit dest q)) dest q w); auto.
  - destruct (filter _ ds) as [|x r] eqn:F.
    + apply (root_ab prog c _ _ (c_vals c) (got (c_vals c) ds) []); auto; try (simpl; tauto); try (apply B); try (simpl; congruence).
      intros x. apply agot_ok; auto.
    + destruct (owners _ _) as [l|].
      * assert (Q : forall w, requests (sends_to w (map (fun p => (fst p, WGet 0 (snd p) true)) l)) = []).
        { clear. intros w. induction l as [|[a b] l IH]; auto. simpl. unfold sends_to in *. simpl.
          destruct (a =? w); auto. }
        apply (root_ab prog c _ _ (c_vals c) [] (map (fun p => (fst p, WGet 0 (snd p) true)) l)); auto; try (simpl; tauto); try (apply B).
        -- simpl. rewrite <- F. intros y Y. apply filter_In in Y. tauto.
        -- intros d m X. apply in_map_iff in X as (y & Y & _). apply pair_inj in Y as [_ <-]. exact I.
        -- intros w. rewrite Q. eapply still_once; eauto.
      * apply (root_ab prog c _ _ (c_vals c) [RError] []); auto; try (simpl; tauto); try (apply B); try (simpl; congruence).
        simpl. intros y [<-|[]]. exact I.
  - apply (root_ab prog c _ _ (ddel (c_vals c) d) [] []); auto; try (simpl; tauto); try (apply B); try (simpl; congruence).
    + exact (pinv_step _ (PForget d) (ab_push _ _ B)).
    + intros x y. destruct (did_dec d x) as [<-|Nd]; [rewrite ddel_same; discriminate | rewrite ddel_other; auto].
  - destruct (Nat.eqb _ _).
    + assert (Q : forall w, requests (sends_to w (map (fun w => (w, WClean ds)) workers)) = []).
      { clear. intros w. induction workers as [|a l IH]; auto. simpl. unfold sends_to in *. simpl.
        destruct (a =? w); auto. }
      apply (root_ab prog c _ _ (c_vals c) [RCleaned ds] (map (fun w => (w, WClean ds)) workers)); auto; try (simpl; tauto); try (apply B); try (simpl; congruence).
      * simpl. intros y [<-|[]]. exact I.
      * intros d m X. apply in_map_iff in X as (y & Y & _). apply pair_inj in Y as [_ <-]. exact I.
      * intros w. rewrite Q. eapply still_once; eauto.
    + apply (root_ab prog c _ _ (c_vals c) [] []); auto; try (simpl; tauto); try (apply B); try (simpl; congruence).
Qed.

Lemma root_call_ab prog c dest nd q : c_left c = 0 -> AB prog c -> gvalid (prog ++ [GC dest nd q]) ->
  AB (prog ++ [GC dest nd q]) (root_call c dest nd q).
Proof.
  intros L0 B V.
  assert (Vs : forall d v, c_vals c d = Some v -> gives (prog ++ [GC dest nd q]) (hist c) d v).
  { intros d v X. eapply gives_mono; [apply grows_refl|]. apply B; auto. }
  destruct (sent_requests (c_vals c) WActor q (c_push c) dest (q_id q) (out_ids (q_out q)) (VRef nd)
    (q_args q) (q_kwargs q) (ab_push _ _ B) ltac:(auto)) as [S1 S2].
  eapply (root_ab prog c _ _ (c_vals c)); auto; try reflexivity; try (apply B); try (simpl; congruence).
  + apply pinv_step, B.
  + intros x. destruct (submit _ _ _ _ _ _ _); simpl; [tauto|]. intros [<-|[]]. exact I.
  + intros w m X. apply S2 in X as [(d & v & -> & X)|[(d & r & ->)|[-> ->]]]; simpl; auto.
    exists nd. apply in_or_app. simpl; auto.
  + intros w. apply (once_more prog c (GC dest nd q) dest q w); auto.
Qed.

(** What a worker has taken determines what it holds. *)
Lemma ainbox prog H self ms : gvalid prog -> (forall m, In m ms -> aokm prog H self m) ->
  no_refs_received ms /\ ~ In WCancel ms.
Proof.
  intros V O. split.
  - intros d v I. apply O in I. simpl in I. eapply gives_clean; eauto.
  - intros I. apply O in I. exact I.
Qed.

Lemma carried_ended l : Good body mbody l -> incl (map fst (carried l)) (ended l) /\
  (NoDup (ended l) -> NoDup (map fst (carried l))).
Proof.
  clear. induction 1 as [|l e Oe G [I N]|l q c args kwargs st G [I N] Q C F1 F2 R1 R2 Rs].
  - split; [intros x []|constructor].
  - rewrite carried_app, ended_app. destruct e; simpl in Oe; try tauto; simpl; rewrite !app_nil_r; auto.
  - rewrite !carried_app, !ended_app, ended_run. simpl.
    fold (ended (ev_stores st)). rewrite ended_stores. fold (carried (ev_stores st)).
    assert (Cs : carried (ev_stores st) = []) by (clear; induction st; auto). rewrite Cs, app_nil_r.
    assert (Cr : map fst (carried (ev_run (q_id q) c args kwargs)) = [] \/
                 map fst (carried (ev_run (q_id q) c args kwargs)) = [q_id q]).
    { unfold ev_run. destruct (failed_arg args kwargs); auto. destruct c; simpl; auto. }
    rewrite map_app. split.
    + intros x X. apply in_app_or in X as [X|X]; apply in_or_app; auto. right.
      destruct Cr as [Cr|Cr]; rewrite Cr in X; simpl in *; tauto.
    + intros Nd. assert (Nl := nodup_app_l _ _ Nd). destruct Cr as [-> | ->]; [rewrite app_nil_r; auto|].
      apply (Permutation_NoDup (l := q_id q :: map fst (carried l))).
      * apply Permutation_cons_append.
      * constructor; auto. intros X. apply I in X. eapply (nodup_sep _ _ _ Nd); eauto. simpl; auto.
Qed.

Lemma worker_gives prog H self ms w : gvalid prog -> (forall w, NoDup (map fst (H w))) ->
  (forall m, In m ms -> aokm prog H self m) ->
  wrun self body mbody is_async winit ms = Some w -> (exists rest, H self = carried (log w) ++ rest) ->
  WI body mbody w /\ SV w /\ inputs (log w) = ms /\ ready w = false /\
  forall d v, stored (log w) d v -> gives prog H d v.
Proof.
  intros V NH O R Hh. destruct (ainbox prog H self ms V O) as (N & NC).
  assert (W : WI body mbody w).
  { apply (wrun_wi self body mbody is_async body_ok mbody_ok ms winit w); auto. apply wi_init. }
  assert (S := sv_run self body mbody is_async body_ok mbody_ok ms winit w (wi_init _ _) N sv_init R).
  destruct (run_inputs self body mbody is_async body_ok mbody_ok ms winit w
              (wi_init _ _) N NC eq_refl R) as [In Rd].
  simpl in In. split; [auto|]. split; [auto|]. split; [auto|]. split; [auto|].
  apply (stores_give body mbody prog H V self (log w)); auto.
  - apply W.
  - intros d v I. apply in_inputs in I. rewrite In in I. apply O in I. exact I.
  - intros q I. rewrite received_inputs, In in I. apply requests_in in I as [I|I]; apply O in I; simpl in I; auto.
Qed.

Lemma once_history prog H self ms w : gvalid prog -> (forall m, In m ms -> aokm prog H self m) ->
  NoDup (map q_id (requests ms)) -> wrun self body mbody is_async winit ms = Some w -> NoDup (map fst (carried (log w))).
Proof.
  intros V O N R. destruct (ainbox prog H self ms V O) as (Nr & NC).
  assert (W : WI body mbody w).
  { apply (wrun_wi self body mbody is_async body_ok mbody_ok ms winit w); auto. apply wi_init. }
  apply (carried_ended _ (wi_good _ _ _ W)).
  assert (P := none_lost self body mbody is_async body_ok mbody_ok ms w Nr R NC).
  destruct (run_inputs self body mbody is_async body_ok mbody_ok ms winit w (wi_init _ _) Nr NC eq_refl R) as [In _].
  simpl in In. rewrite received_inputs, In in P. apply (Permutation_NoDup P) in N. eapply nodup_app_l; eauto.
Qed.

Lemma hist_once prog c : gvalid prog -> AB prog c -> forall w, NoDup (map fst (hist c w)).
Proof.
  intros V B w. unfold hist. destruct (Nat.eq_dec w 0) as [->|Nw].
  - rewrite (ab_zero _ _ B). constructor.
  - apply (once_history prog (hist c) w (map snd (c_in c w))); auto.
    + intros m M. apply in_map_iff in M as ([s x] & <- & M). eapply ab_in; eauto.
    + assert (X := ab_once _ _ B w). rewrite map_app in X. eapply nodup_app_l; eauto.
    + apply B; auto.
Qed.

(** A worker takes a message. *)
Lemma deal_ab prog c src dst m ch : gvalid prog -> AB prog c -> dst <> 0 ->
  aokm prog (hist c) dst m ->
  (forall s d x, In x (ch s d) -> In x (c_chan c s d)) ->
  (forall w, NoDup (map q_id (requests (map snd (c_in c w)) ++ (if w =? dst then requests [m] else []) ++ requests (ch 0 w)))) ->
  AB prog (deal body mbody is_async c src dst m ch).
Proof.
  intros V B D0 Om Hc On. unfold deal.
  destruct (wstep dst body mbody is_async (c_work c dst) m) as [w'|] eqn:St.
  - match goal with |- AB _ ?x => set (c' := x) end.
    assert (R : wrun dst body mbody is_async winit (map snd (c_in c dst ++ [(src, m)])) = Some w').
    { rewrite map_app, wrun_app, (ab_run _ _ B dst D0). simpl. rewrite St. auto. }
    assert (Oi : forall x, In x (map snd (c_in c dst ++ [(src, m)])) -> aokm prog (hist c) dst x).
    { intros x X. apply in_map_iff in X as ([s y] & <- & X). apply in_app_or in X as [X|[X|[]]].
      - eapply ab_in; eauto.
      - apply pair_inj in X as [_ <-]. auto. }
    assert (Lg : exists l, log w' = log (c_work c dst) ++ l).
    { destruct (ainbox prog (hist c) dst (map snd (c_in c dst)) V) as (N & NC).
      { intros x X. apply Oi. rewrite map_app. apply in_or_app; auto. }
      assert (W : WI body mbody (c_work c dst)).
      { apply (wrun_wi dst body mbody is_async body_ok mbody_ok (map snd (c_in c dst)) winit); auto; [apply wi_init | apply B; auto]. }
      assert (Rd := run_inputs dst body mbody is_async body_ok mbody_ok _ winit _ (wi_init _ _) N NC eq_refl (ab_run _ _ B dst D0)).
      destruct (step_own dst body mbody is_async body_ok mbody_ok (c_work c dst) m w' W) as (t & L & _); auto; [|apply Rd|eauto].
      intros d v ->. eapply gives_clean; eauto. }
    assert (Gr : grows (hist c) (hist c')).
    { intros w. unfold hist. simpl. destruct (Nat.eqb_spec w dst) as [->|].
      - destruct Lg as [l ->]. rewrite carried_app. eauto.
      - exists []. rewrite app_nil_r. auto. }
    assert (Mm : forall w x, aokm prog (hist c) w x -> aokm prog (hist c') w x).
    { intros w x X. rewrite <- (app_nil_r prog). eapply aokm_mono; eauto. }
    assert (Mg : forall d v, gives prog (hist c) d v -> gives prog (hist c') d v).
    { intros d v X. rewrite <- (app_nil_r prog). eapply gives_mono; eauto. }
    assert (Oi' : forall x, In x (map snd (c_in c dst ++ [(src, m)])) -> aokm prog (hist c') dst x) by auto.
    assert (No : NoDup (map q_id (requests (map snd (c_in c dst ++ [(src, m)]))))).
    { specialize (On dst). rewrite Nat.eqb_refl, app_assoc, map_app in On. apply nodup_app_l in On.
      rewrite map_app, requests_app. exact On. }
    assert (Nh : forall w, NoDup (map fst (hist c' w))).
    { intros w. unfold hist. simpl. destruct (Nat.eqb_spec w dst) as [->|].
      - eapply once_history; eauto.
      - apply (hist_once prog c); auto. }
    destruct (worker_gives prog (hist c') dst _ w' V Nh Oi' R) as (W & S & _ & _ & Ag).
    { exists []. unfold hist. simpl. rewrite Nat.eqb_refl, app_nil_r. auto. }
    destruct B as [B0 B1 B2 B3 B4 B5 B6 B7 B8 B9 B10]. split; auto.
    + unfold c'. cbn [c_work c_in c_chan]. apply Nat.neq_sym, Nat.eqb_neq in D0. rewrite D0. auto.
    + intros w Nw. unfold c'. simpl. destruct (Nat.eqb_spec w dst) as [->|]; auto.
    + intros r s x. unfold c' at 1. simpl. destruct (Nat.eqb_spec r dst) as [->|]; eauto.
      intros X. apply Oi'. apply in_map_iff. exists (s, x). auto.
    + intros s d x. unfold c' at 1. simpl. destruct (Nat.eqb_spec s dst) as [->|]; [|eauto].
      intros X. apply in_app_or in X as [X|X]; [eauto|].
      apply in_outgoing in X as [(d' & v & b & -> & X)|(d' & -> & X)]; simpl; auto.
      apply Ag. apply (sv_put _ S d d' v b). eapply in_skipn; eauto.
    + intros s d x Ns. unfold c'. simpl. destruct (Nat.eqb_spec s dst) as [->|]; [|eauto].
      intros X. apply in_app_or in X as [X|X]; [eauto|]. eapply outgoing_quiet; eauto.
    + intros w. specialize (On w). unfold c'. cbn [c_work c_in c_chan]. apply Nat.neq_sym, Nat.eqb_neq in D0. rewrite D0.
      destruct (w =? dst) eqn:Ew; auto. apply Nat.eqb_eq in Ew. rewrite Ew in *.
      rewrite (map_app snd), requests_app, <- app_assoc. exact On.
    + intros L e X. destruct (B9 L e X) as (d & D & Y). exists d. auto.
    + intros x X. rewrite <- (app_nil_r prog). eapply asight_mono; eauto.
  - destruct B as [B0 B1 B2 B3 B4 B5 B6 B7 B8 B9 B10]. split; simpl; auto.
    + intros s d x X. apply Hc in X. apply (B4 s d x X).
    + intros s d x Ns X. eauto.
    + intros w. specialize (On w). destruct (w =? dst); auto.
      rewrite !map_app in *. apply NoDup_drop in On. exact On.
Qed.

Lemma gtake_ab prog c src dst : gvalid prog -> AB prog c -> AB prog (gtake body mbody is_async c src dst).
Proof.
  intros V B. unfold gtake. destruct (c_chan c src dst) as [|m l] eqn:Ch; auto.
  destruct (dst =? 0) eqn:D0; simpl; auto. apply Nat.eqb_neq in D0.
  destruct (c_dead c dst); auto. apply deal_ab; auto.
  - apply (ab_chan _ _ B src dst). rewrite Ch. simpl; auto.
  - intros s d x. apply in_drop.
  - intros w. assert (X := ab_once _ _ B w). destruct (Nat.eqb_spec w dst) as [->|Nw].
    + destruct (Nat.eq_dec src 0) as [->|Ns].
      * rewrite (drop_hit _ _ _ _ _ Ch). rewrite Ch in X. rewrite <- requests_app. exact X.
      * rewrite drop_keep by congruence. rewrite (ab_src _ _ B src dst m Ns); auto. rewrite Ch; simpl; auto.
    + rewrite drop_keep by congruence. exact X.
Qed.

Lemma finish_ab prog c dst i : gvalid prog -> AB prog c -> AB prog (finish body mbody is_async c dst i).
Proof.
  intros V B. unfold finish. destruct (nth_error _ _) eqn:Nt; auto.
  destruct (dst =? 0) eqn:D0; simpl; auto. apply Nat.eqb_neq in D0.
  destruct (c_dead c dst); auto. apply deal_ab; simpl; auto.
  - intros Sy. destruct (ainbox prog (hist c) dst (map snd (c_in c dst)) V) as (N & _).
    { intros x X. apply in_map_iff in X as ([s y] & <- & X). eapply ab_in; eauto. }
    destruct (run_blocks dst body mbody is_async body_ok mbody_ok Sy _ _ N (ab_run _ _ B dst D0)) as [_ Rn].
    rewrite Rn in Nt. destruct i; discriminate.
  - intros w. destruct (w =? dst); apply B.
Qed.

Lemma reply_ab prog c src : AB prog c -> AB prog (reply c src).
Proof.
  intros B. unfold reply. destruct (c_left c) as [|k] eqn:Lf; auto.
  destruct (c_chan c src 0) as [|m ch] eqn:Ch; auto. destruct m; auto.
  assert (Om : gives prog (hist c) d v).
  { apply (ab_chan _ _ B src 0 (WPut d v)). rewrite Ch; simpl; auto. }
  destruct B as [B0 B1 B2 B3 B4 B5 B6 B7 B8 B9 B10].
  assert (Vs : forall x y, dput (c_vals c) d v x = Some y -> gives prog (hist c) x y).
  { intros x y. destruct (did_dec d x) as [<-|Nd].
    - rewrite dput_same. intros H. apply Some_inj in H as <-. auto.
    - rewrite dput_other; auto. }
  assert (Ex : did_in d (c_ids c) = true -> forall e,
    match c_exc c with None => match v with VExc e => Some e | _ => None end | x => x end = Some e ->
    exists x, In x (c_want c) /\ gives prog (hist c) x (VExc e)).
  { intros Di e H. destruct (c_exc c) as [e'|].
    - apply Some_inj in H as ->. apply B9; auto. lia.
    - destruct v; try discriminate. apply Some_inj in H as ->. exists d. split; auto.
      apply B8. apply did_in_In; auto. }
  cbv zeta in *. split; simpl; auto.
  - intros w Nw. destruct (Nat.eqb_spec w 0); [lia|auto].
  - intros r s m. destruct (Nat.eqb_spec r 0) as [->|]; [|apply B3].
    intros X. apply in_app_or in X as [X|[X|[]]]; [apply (B3 _ _ _ X)|].
    apply pair_inj in X as [_ <-]. exact Om.
  - intros s x m X. apply in_drop in X. apply (B4 _ _ _ X).
  - intros s x m Ns X. apply in_drop in X. eauto.
  - intros w. assert (X := B6 w). destruct (Nat.eqb_spec w 0) as [->|Nw].
    + rewrite (map_app snd), requests_app. simpl. rewrite app_nil_r.
      destruct (Nat.eq_dec src 0) as [->|Ns].
      * rewrite (drop_hit _ _ _ _ _ Ch). rewrite Ch in X. exact X.
      * rewrite drop_keep by congruence. exact X.
    + rewrite drop_keep by congruence. exact X.
  - destruct (did_in d (c_ids c)); [auto | tauto].
  - intros x X. apply in_app_or in X as [X|X]; [apply (B10 x X)|]. destruct (did_in d (c_ids c)).
    + destruct k; [|destruct X].
      destruct (match c_exc c with None => _ | x => x end) as [e|]; [|eapply agot_ok; eauto].
      destruct X as [<-|[]]. simpl. apply Ex; auto.
    + destruct X as [<-|[]]. exact I.
Qed.

Lemma done_ab prog c src : AB prog c -> AB prog (done workers c src).
Proof.
  intros B. unfold done. destruct (c_done c src); auto.
  destruct B as [B0 B1 B2 B3 B4 B5 B6 B7 B8 B9 B10]. split; simpl; auto.
Qed.

Lemma init_ab mgr : AB [] (cinit mgr).
Proof.
  split; simpl; try tauto; auto; try discriminate.
  - apply (pinv_run []).
  - intros w. constructor.
  - intros x X; destruct X.
Qed.

Lemma gvalid_prefix a b : gvalid (a ++ b) -> gvalid a.
Proof.
  clear. intros [V1 V2 V3 V4 V5]. split.
  - unfold gintroduced in V1. rewrite flat_map_app in V1. eapply nodup_app_l; eauto.
  - unfold gsubmitted in V2. rewrite flat_map_app, map_app in V2. eapply nodup_app_l; eauto.
  - intros d v I. apply (V3 d), in_or_app; auto.
  - intros dest q I. apply (V4 dest), in_or_app; auto.
  - intros dest nd q I. apply (V5 dest nd), in_or_app; auto.
Qed.

Lemma grun_snoc mgr ops o : grun mgr (ops ++ [o]) = gstep (grun mgr ops) o.
Proof. clear. unfold ActModel.grun. rewrite fold_left_app. auto. Qed.

Lemma step_ab g o : AB (g_prog g) (g_c g) -> gvalid (g_prog (gstep g o)) ->
  AB (g_prog (gstep g o)) (g_c (gstep g o)).
Proof.
  intros B V. destruct o; simpl in *.
  - destruct (c_left (g_c g)) eqn:L; auto. simpl in *. destruct p; [apply root_step_ab | apply root_call_ab]; auto.
  - apply gtake_ab; auto.
  - apply reply_ab; auto.
  - apply done_ab; auto.
  - apply finish_ab; auto.
Qed.

Lemma gprog_grows g o : exists l, g_prog (gstep g o) = g_prog g ++ l.
Proof.
  clear. destruct o; simpl; try (exists []; rewrite app_nil_r; auto; fail).
  destruct (c_left (g_c g)); simpl; eauto. exists []. rewrite app_nil_r; auto.
Qed.

Lemma run_ab mgr ops : gvalid (g_prog (grun mgr ops)) -> AB (g_prog (grun mgr ops)) (g_c (grun mgr ops)).
Proof.
  induction ops as [|o ops IH] using rev_ind; intros V.
  - apply init_ab.
  - rewrite grun_snoc in *. destruct (gprog_grows (grun mgr ops) o) as (l & L).
    apply step_ab; auto. apply IH. rewrite L in V. eapply gvalid_prefix; eauto.
Qed.

End AP.
