(** Proofs about serialisation. *)
From Verif Require Import Lib SerialModel SerialSpec.
Require Import String.
Open Scope list_scope.

Section Proofs.
Variable obj : Type.
Variable bytes : Type.
Variable is_pickle5 is_cpkl : obj -> bool.
Variable cpkl_dumps : obj -> bytes.
Variable cpkl_loads : bytes -> option obj.
Variable pkl_dumps : obj -> bytes.
Variable pkl_loads : bytes -> option obj.
Variable p5_buffers : obj -> list (list Z).
Variable p5_dumps : obj -> list bool -> bytes.
Variable p5_loads : bytes -> list (list Z) -> option obj.
Variable threshold : nat.
Hypothesis lib : pickle_contract obj bytes cpkl_dumps cpkl_loads pkl_dumps pkl_loads p5_buffers
                   p5_dumps p5_loads.

Notation value := (value obj bytes).
Notation VAtom := (VAtom obj bytes).
Notation VList := (VList obj bytes).
Notation VDict := (VDict obj bytes).
Notation VObj := (VObj obj bytes).
Notation pack := (pack obj bytes is_pickle5 is_cpkl cpkl_dumps pkl_dumps p5_buffers p5_dumps threshold).
Notation unpack := (unpack obj bytes cpkl_loads pkl_loads p5_loads).
Notation encode_custom := (encode_custom obj bytes is_pickle5 is_cpkl cpkl_dumps pkl_dumps p5_buffers p5_dumps threshold).
Notation decode_custom := (decode_custom obj bytes cpkl_loads pkl_loads p5_loads).
Notation serialize := (serialize obj bytes is_pickle5 is_cpkl cpkl_dumps pkl_dumps p5_buffers p5_dumps threshold).
Notation deserialize := (deserialize obj bytes cpkl_loads pkl_loads p5_loads).
Notation lookup := (lookup obj bytes).

Definition packs : ser -> list value -> list (ntree bytes) * ser :=
  fix go st l := match l with
           | [] => ([], st)
           | v :: r => let (n, st1) := pack st v in
                       let (ns, st2) := go st1 r in (n :: ns, st2)
           end.

Definition packd : ser -> list (value * value) -> list (ntree bytes * ntree bytes) * ser :=
  fix go st l := match l with
           | [] => ([], st)
           | (k, v) :: r => let (k', st1) := pack st k in
                            let (v', st2) := pack st1 v in
                            let (ns, st3) := go st2 r in ((k', v') :: ns, st3)
           end.

Definition unpacks : des -> list (ntree bytes) -> option (list value * des) :=
  fix go st l := match l with
           | [] => Some ([], st)
           | n :: r =>
               match unpack st n with
               | Some (v, st1) =>
                   match go st1 r with Some (vs, st2) => Some (v :: vs, st2) | None => None end
               | None => None
               end
           end.

Definition unpackd : des -> list (ntree bytes * ntree bytes) -> option (list (value * value) * des) :=
  fix go st l := match l with
           | [] => Some ([], st)
           | (k, n) :: r =>
               match unpack st k with
               | Some (k', st1) =>
                   match unpack st1 n with
                   | Some (v, st2) =>
                       match go st2 r with
                       | Some (vs, st3) => Some ((k', v) :: vs, st3) | None => None end
                   | None => None
                   end
               | None => None
               end
           end.

Lemma pack_list st l : pack st (VList l) = let (l', st') := packs st l in (NList _ l', st').
Proof. reflexivity. Qed.
Lemma pack_dict st l : pack st (VDict l) = let (l', st') := packd st l in (NMap _ l', st').
Proof. reflexivity. Qed.
Lemma unpack_list st l : unpack st (NList _ l) =
  match unpacks st l with Some (vs, st') => Some (VList vs, st') | None => None end.
Proof. reflexivity. Qed.
Lemma unpack_map st l : unpack st (NMap _ l) =
  match unpackd st l with Some (vs, st') => decode_custom st' vs | None => None end.
Proof. reflexivity. Qed.

(** [Rt v]: packing adds buffers and counts at the end; unpacking takes them from the front. *)
Definition Rt (v : value) : Prop := forall st n st', s_callback st = 0 -> pack st v = (n, st') ->
  s_callback st' = 0 /\
  exists nb nc, s_buffers st' = s_buffers st ++ nb /\ s_count st' = s_count st ++ nc /\
  forall rb rc, unpack {| d_buffers := nb ++ rb; d_count := nc ++ rc |} n
                = Some (v, {| d_buffers := rb; d_count := rc |}).

Lemma offer_spec : forall bufs st ds st', offer threshold st bufs = (ds, st') ->
  List.length ds = List.length bufs /\ s_count st' = s_count st /\
  s_buffers st' = s_buffers st ++ out_of_band bufs ds /\
  s_callback st' = s_callback st + List.length (out_of_band bufs ds).
Proof.
  induction bufs as [|b bufs IH]; intros st ds st' H; simpl in H.
  - apply pair_inj in H. destruct H as [<- <-]. simpl. rewrite app_nil_r. auto.
  - unfold buffer_callback in H. destruct (threshold <=? List.length b).
    + destruct (offer threshold _ bufs) as [ds2 st2] eqn:E. apply pair_inj in H. destruct H as [<- <-].
      destruct (IH _ _ _ E) as (H1 & H2 & H3 & H4). simpl in *.
      unfold out_of_band in *. simpl. rewrite H1, H2, H3, H4, <- app_assoc. simpl.
      repeat split; lia.
    + destruct (offer threshold _ bufs) as [ds2 st2] eqn:E. apply pair_inj in H. destruct H as [<- <-].
      destruct (IH _ _ _ E) as (H1 & H2 & H3 & H4). simpl in *.
      unfold out_of_band in *. simpl. rewrite H1, H2, H3, H4. auto.
Qed.

Lemma skipn_app_exact {A} (a b : list A) : skipn (List.length a) (a ++ b) = b.
Proof. rewrite skipn_app, skipn_all, Nat.sub_diag. reflexivity. Qed.

Lemma Rt_obj o : Rt (VObj o).
Proof.
  destruct lib as (L1 & L2 & L3).
  intros st n st' H0 H. simpl in H. unfold SerialModel.encode_custom in H.
  destruct (is_pickle5 o) eqn:E5.
  - destruct (offer threshold st (p5_buffers o)) as [ds st1] eqn:Eo.
    apply pair_inj in H. destruct H as [<- <-]. simpl. split; [reflexivity|].
    destruct (offer_spec _ _ _ _ Eo) as (H1 & H2 & H3 & H4).
    exists (out_of_band (p5_buffers o) ds), [List.length (out_of_band (p5_buffers o) ds)].
    split; [exact H3|]. split; [rewrite H2, H4, H0; reflexivity|].
    intros rb rc. unfold tagged. simpl.
    unfold SerialModel.decode_custom. simpl. rewrite (L3 o ds rb H1).
    now rewrite skipn_app_exact.
  - destruct (is_cpkl o).
    + apply pair_inj in H. destruct H as [<- <-]. split; [assumption|].
      exists [], []. rewrite !app_nil_r. repeat split. intros rb rc. simpl.
      unfold SerialModel.decode_custom. simpl. now rewrite L1.
    + apply pair_inj in H. destruct H as [<- <-]. split; [assumption|].
      exists [], []. rewrite !app_nil_r. repeat split. intros rb rc. simpl.
      unfold SerialModel.decode_custom. simpl. now rewrite L2.
Qed.

Lemma lookup_absent name l :
  (forall k v s, In (k, v) l -> k = VAtom (AStr _ s) -> s <> name) -> lookup name l = None.
Proof.
  induction l as [|[k v] l IH]; intros H; [reflexivity|].
  assert (IH' : lookup name l = None) by (apply IH; intros; eapply H; eauto; right; eauto).
  simpl. destruct k; auto. destruct a; auto.
  destruct (String.eqb_spec s name); auto.
  exfalso. eapply (H (VAtom (AStr _ s)) v s); auto. left; reflexivity.
Qed.

Lemma decode_plain st l :
  (forall k v s, In (k, v) l -> k = VAtom (AStr _ s) -> ~ reserved s) ->
  decode_custom st l = Some (VDict l, st).
Proof.
  intros H. unfold SerialModel.decode_custom.
  assert (A : forall m, reserved m -> lookup m l = None).
  { intros m Hm. apply lookup_absent. intros k v s Hin E Hs. subst s.
    apply (H k v m Hin E). assumption. }
  rewrite !A; unfold reserved, marker_c, marker_p, marker5; auto.
Qed.

Lemma Rt_packs l : (forall v, In v l -> Rt v) -> forall st ns st', s_callback st = 0 ->
  packs st l = (ns, st') ->
  s_callback st' = 0 /\
  exists nb nc, s_buffers st' = s_buffers st ++ nb /\ s_count st' = s_count st ++ nc /\
  forall rb rc, unpacks {| d_buffers := nb ++ rb; d_count := nc ++ rc |} ns
                = Some (l, {| d_buffers := rb; d_count := rc |}).
Proof.
  induction l as [|v l IH]; intros Hl st ns st' H0 H; simpl in H.
  - apply pair_inj in H. destruct H as [<- <-]. split; [assumption|]. exists [], [].
    rewrite !app_nil_r. repeat split.
  - destruct (pack st v) as [n st1] eqn:E1.
    destruct (packs st1 l) as [ns2 st2] eqn:E2.
    apply pair_inj in H. destruct H as [<- <-].
    destruct (Hl v (or_introl eq_refl) _ _ _ H0 E1) as (C1 & nb1 & nc1 & A1 & B1 & U1).
    destruct (IH (fun v H => Hl v (or_intror H)) _ _ _ C1 E2) as (C2 & nb2 & nc2 & A2 & B2 & U2).
    split; [assumption|]. exists (nb1 ++ nb2), (nc1 ++ nc2).
    rewrite A2, A1, B2, B1, <- !app_assoc. repeat split.
    intros rb rc. rewrite <- !app_assoc. simpl. rewrite U1. simpl. fold unpacks. now rewrite U2.
Qed.

Lemma Rt_packd l : (forall k v, In (k, v) l -> Rt k /\ Rt v) -> forall st ns st', s_callback st = 0 ->
  packd st l = (ns, st') ->
  s_callback st' = 0 /\
  exists nb nc, s_buffers st' = s_buffers st ++ nb /\ s_count st' = s_count st ++ nc /\
  forall rb rc, unpackd {| d_buffers := nb ++ rb; d_count := nc ++ rc |} ns
                = Some (l, {| d_buffers := rb; d_count := rc |}).
Proof.
  induction l as [|[k v] l IH]; intros Hl st ns st' H0 H; simpl in H.
  - apply pair_inj in H. destruct H as [<- <-]. split; [assumption|]. exists [], [].
    rewrite !app_nil_r. repeat split.
  - destruct (pack st k) as [k' st1] eqn:E1.
    destruct (pack st1 v) as [v' st2] eqn:E2.
    destruct (packd st2 l) as [ns3 st3] eqn:E3.
    apply pair_inj in H. destruct H as [<- <-].
    destruct (Hl k v (or_introl eq_refl)) as (Hk & Hv).
    destruct (Hk _ _ _ H0 E1) as (C1 & nb1 & nc1 & A1 & B1 & U1).
    destruct (Hv _ _ _ C1 E2) as (C2 & nb2 & nc2 & A2 & B2 & U2).
    destruct (IH (fun k v H => Hl k v (or_intror H)) _ _ _ C2 E3) as (C3 & nb3 & nc3 & A3 & B3 & U3).
    split; [assumption|]. exists (nb1 ++ nb2 ++ nb3), (nc1 ++ nc2 ++ nc3).
    rewrite A3, A2, A1, B3, B2, B1, <- !app_assoc. repeat split.
    intros rb rc. rewrite <- !app_assoc. simpl. rewrite U1, U2. fold unpackd. now rewrite U3.
Qed.

Lemma round_trip_inv : forall v, no_reserved_key v -> Rt v.
Proof.
  fix IH 2. intros v H. destruct H as [a|o|l Hl|l Hl Hk].
  - intros st n st' H0 H. simpl in H. apply pair_inj in H. destruct H as [<- <-].
    split; [assumption|]. exists [], []. rewrite !app_nil_r. repeat split.
  - apply Rt_obj.
  - intros st n st' H0 H. rewrite pack_list in H.
    destruct (packs st l) as [ns st2] eqn:E. apply pair_inj in H. destruct H as [<- <-].
    destruct (Rt_packs l (fun v Hv => IH v (Hl v Hv)) _ _ _ H0 E) as (C & nb & nc & A & B & U).
    split; [assumption|]. exists nb, nc. repeat split; auto.
    intros rb rc. rewrite unpack_list, U. reflexivity.
  - intros st n st' H0 H. rewrite pack_dict in H.
    destruct (packd st l) as [ns st2] eqn:E. apply pair_inj in H. destruct H as [<- <-].
    assert (Hall : forall k v, In (k, v) l -> Rt k /\ Rt v).
    { intros k v Hin. destruct (Hl k v Hin) as (H1 & H2). split; apply IH; assumption. }
    destruct (Rt_packd l Hall _ _ _ H0 E) as (C & nb & nc & A & B & U).
    split; [assumption|]. exists nb, nc. repeat split; auto.
    intros rb rc. rewrite unpack_map, U. apply decode_plain. exact Hk.
Qed.

Lemma round_trip v : no_reserved_key v ->
  deserialize (serialize v)
  = Some (v, {| z_data := z_data _ (serialize v); z_raw := []; z_count := z_count _ (serialize v) |}).
Proof.
  intros H. unfold SerialModel.deserialize, SerialModel.serialize.
  destruct (pack _ v) as [n st] eqn:E.
  destruct (round_trip_inv v H {| s_buffers := []; s_count := []; s_callback := 0 |} n st eq_refl E) as (C & nb & nc & A & B & U).
  simpl in *. rewrite A, B.
  specialize (U [] []). rewrite !app_nil_r in U. now rewrite U.
Qed.

Lemma round_trip_value v : no_reserved_key v ->
  exists z, deserialize (serialize v) = Some (v, z).
Proof. intros H. eexists. apply round_trip; assumption. Qed.

(** ** The cache *)
Notation hrun := (hrun obj bytes cpkl_loads pkl_loads p5_loads).
Notation holder := (holder obj bytes).
Notation holding v := (holding obj bytes is_pickle5 is_cpkl cpkl_dumps pkl_dumps p5_buffers p5_dumps threshold v).
Notation HGot := (HGot obj bytes).

Lemma both_good v z : forall ops e,
  In e (hrun {| h_value := Some v; h_cache := z |} ops) -> good_event v z e.
Proof.
  induction ops as [|op ops IH]; intros e H; [destruct H|]. destruct op; simpl in H.
  - destruct H as [<-|H]; [reflexivity|]. apply IH; exact H.
  - destruct H as [<-|H]; [reflexivity|]. apply IH; exact H.
Qed.

(** Gets are always right. *)
Lemma gets_good v : no_reserved_key v -> forall ops e, In e (hrun (holding v) ops) -> good_get v e.
Proof.
  intros Hv. induction ops as [|op ops IH]; intros e H; [destruct H|]. destruct op.
  - cbn [SerialModel.hrun] in H. unfold hstep in H. simpl h_value in H. cbv iota in H.
    simpl h_cache in H. rewrite round_trip in H by assumption.
    destruct H as [<-|H]; [reflexivity|].
    apply both_good in H. destruct e; simpl in *; auto.
  - simpl in H. destruct H as [<-|H]; [exact I|]. apply IH; exact H.
Qed.

(** Sends before the first get are right. *)
Lemma sends_before_get v ops : Forall (fun op => op = HSend) ops ->
  forall e, In e (hrun (holding v) ops) -> good_event v (serialize v) e.
Proof.
  induction 1 as [|op ops -> _ IH]; intros e H; [destruct H|].
  simpl in H. destruct H as [<-|H]; [reflexivity|]. apply IH; exact H.
Qed.

(** Everything is right when nothing was taken out of band. *)
Lemma no_oob_good v : no_reserved_key v -> z_raw _ (serialize v) = [] -> forall ops e,
  In e (hrun (holding v) ops) -> good_event v (serialize v) e.
Proof.
  intros Hv Hz. induction ops as [|op ops IH]; intros e H; [destruct H|]. destruct op.
  - cbn [SerialModel.hrun] in H. unfold hstep in H. simpl h_value in H. cbv iota in H.
    simpl h_cache in H. rewrite round_trip in H by assumption.
    destruct H as [<-|H]; [reflexivity|].
    apply both_good in H. destruct e; simpl in *; auto.
    subst z. destruct (serialize v) as [a b c]; simpl in *. subst b. reflexivity.
  - simpl in H. destruct H as [<-|H]; [reflexivity|]. apply IH; exact H.
Qed.

(** After the first get the cached buffers are gone. *)
Lemma sent_after_get v ops : no_reserved_key v ->
  hrun (holding v) (HGet :: HSend :: ops) =
  HGot v :: HSent _ _ {| z_data := z_data _ (serialize v); z_raw := [];
                        z_count := z_count _ (serialize v) |}
    :: hrun {| h_value := Some v;
               h_cache := {| z_data := z_data _ (serialize v); z_raw := [];
                             z_count := z_count _ (serialize v) |} |} ops.
Proof.
  intros Hv. cbn [SerialModel.hrun]. unfold hstep at 1. simpl h_value. cbv iota. simpl h_cache.
  rewrite round_trip by assumption. reflexivity.
Qed.
End Proofs.
