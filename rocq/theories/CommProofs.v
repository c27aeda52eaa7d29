(** Proofs about the message layer. *)
From Verif Require Import Lib CommModel.

(** ** Blocks *)
Lemma range_done s size block fuel : size <= s -> range_from s size block fuel = [].
Proof.
  intros H. destruct fuel; [reflexivity|]. simpl.
  destruct (Nat.ltb_spec s size); [lia|reflexivity].
Qed.

Lemma range_fuel block : forall fuel fuel' s size, 0 < block -> size - s <= fuel ->
  size - s <= fuel' -> range_from s size block fuel = range_from s size block fuel'.
Proof.
  induction fuel as [|f IH]; intros fuel' s size Hb H H'.
  - rewrite !range_done by lia. reflexivity.
  - destruct (Nat.ltb_spec s size) as [L|L]; [|rewrite !range_done by lia; reflexivity].
    destruct fuel' as [|f']; [lia|]. simpl. destruct (Nat.ltb_spec s size); [|lia].
    f_equal. apply IH; lia.
Qed.

(** The intervals still to come at offset [s]. *)
Definition ivs (s size block : nat) : list (nat * nat) :=
  intervals (range_from s size block size ++ [size]).

Lemma ivs_done s size block : size <= s -> ivs s size block = [].
Proof. intros H. unfold ivs. rewrite range_done by lia. reflexivity. Qed.

Lemma ivs_next s size block : 0 < block -> s < size ->
  ivs s size block = (s, Nat.min (s + block) size) :: ivs (s + block) size block.
Proof.
  intros Hb H. unfold ivs.
  rewrite (range_fuel block size (S size) s size) by lia.
  simpl range_from. destruct (Nat.ltb_spec s size); [|lia].
  destruct (Nat.ltb_spec (s + block) size) as [L|L].
  - assert (E : exists r, range_from (s + block) size block size = s + block :: r).
    { destruct size; [lia|]. simpl. destruct (Nat.ltb_spec (s + block) (S size)); [|lia]. eauto. }
    destruct E as (r & E). rewrite E. simpl. rewrite Nat.min_l by lia. reflexivity.
  - rewrite !range_done by lia. simpl. rewrite Nat.min_r by lia. reflexivity.
Qed.

Lemma ivs_length_bound block size : 0 < block -> forall n s, size - s <= n ->
  Forall (fun ab => fst ab < snd ab /\ snd ab <= size /\ snd ab - fst ab <= block) (ivs s size block).
Proof.
  intros Hb. induction n as [|n IH]; intros s H.
  - rewrite ivs_done by lia. constructor.
  - destruct (Nat.ltb_spec s size) as [L|L]; [|rewrite ivs_done by lia; constructor].
    rewrite ivs_next by lia. constructor; [simpl; lia|]. apply IH; lia.
Qed.

Lemma slice_length {A} (l : list A) a b : a <= b -> b <= length l -> length (slice l a b) = b - a.
Proof. intros. unfold slice. rewrite firstn_length, skipn_length. lia. Qed.

Lemma firstn_slice {A} (l : list A) a b : a <= b -> firstn a l ++ slice l a b = firstn b l.
Proof.
  intros H. unfold slice. replace b with (a + (b - a)) at 2 by lia.
  generalize (b - a). clear H. revert l.
  induction a as [|a IH]; intros l k; simpl; [reflexivity|].
  destruct l; simpl; [now rewrite firstn_nil|]. f_equal. apply IH.
Qed.

Lemma recv_into_exact n b : length b = n -> recv_into n b = Some b.
Proof.
  intros <-. unfold recv_into. rewrite Nat.ltb_irrefl, Nat.sub_diag. simpl.
  now rewrite app_nil_r.
Qed.

Lemma assign_length {A} (l : list A) a b x :
  length x = b - a -> a <= b -> b <= length l -> length (assign l a b x) = length l.
Proof.
  intros H H1 H2. unfold assign. rewrite !app_length, firstn_length, skipn_length. lia.
Qed.

(** Filling in one block extends the agreement of the result with the buffer. *)
Lemma assign_agrees (l bytes : list Z) a b :
  a <= b -> b <= length bytes -> length l = length bytes -> firstn a l = firstn a bytes ->
  firstn b (assign l a b (slice bytes a b)) = firstn b bytes.
Proof.
  intros H1 H2 H3 H4. unfold assign. rewrite H4, app_assoc, firstn_slice by lia.
  rewrite firstn_app, firstn_firstn, Nat.min_id, firstn_length, Nat.min_l by lia.
  rewrite Nat.sub_diag. simpl. now rewrite app_nil_r.
Qed.

Lemma recv_blocks_correct block bytes rest : 0 < block -> forall n s l,
  length bytes - s <= n ->
  length l = length bytes -> firstn s l = firstn s bytes ->
  recv_blocks (ivs s (length bytes) block) l
    (map PBuf (map (fun ab => slice bytes (fst ab) (snd ab)) (ivs s (length bytes) block)) ++ rest)
  = Some (bytes, rest).
Proof.
  intros Hb. induction n as [|n IH]; intros s l Hn Hl Ha.
  - rewrite ivs_done by lia. simpl.
    rewrite !firstn_all2 in Ha by lia. now rewrite Ha.
  - destruct (Nat.ltb_spec s (length bytes)) as [L|L].
    2:{ rewrite ivs_done by lia. simpl. rewrite !firstn_all2 in Ha by lia. now rewrite Ha. }
    rewrite ivs_next by lia. simpl.
    set (e := Nat.min (s + block) (length bytes)).
    rewrite recv_into_exact by (apply slice_length; unfold e; lia).
    assert (Hag : firstn e (assign l s e (slice bytes s e)) = firstn e bytes)
      by (apply assign_agrees; unfold e; auto; lia).
    assert (Hlen : length (assign l s e (slice bytes s e)) = length bytes).
    { rewrite assign_length; auto; unfold e; try lia. apply slice_length; lia. }
    apply IH; auto; try lia.
    destruct (Nat.leb_spec (s + block) (length bytes)) as [Le|Gt].
    + unfold e in *. rewrite Nat.min_l in * by lia. exact Hag.
    + unfold e in *. rewrite Nat.min_r in * by lia.
      rewrite firstn_all in Hag. rewrite firstn_all2 in Hag by lia.
      rewrite !firstn_all2 by lia. exact Hag.
Qed.

Lemma isend_recv block buffer rest : 0 < block ->
  recv_buffer block None (isend_buffer block buffer ++ rest) = Some (buffer, rest).
Proof.
  intros Hb. unfold recv_buffer, isend_buffer. simpl.
  apply (recv_blocks_correct block buffer rest Hb (length buffer) 0); auto; try lia.
  apply repeat_length.
Qed.

Lemma send_recv_given block buffer result rest : 0 < block -> length result = length buffer ->
  recv_buffer block (Some result) (send_buffer block buffer None ++ rest) = Some (buffer, rest).
Proof.
  intros Hb Hl. unfold recv_buffer, send_buffer. rewrite Hl.
  apply (recv_blocks_correct block buffer rest Hb (length buffer) 0); auto; lia.
Qed.

Lemma send_recv_announced block buffer rest : 0 < block -> buffer <> [] ->
  recv_buffer block None (send_buffer block buffer (Some (length buffer)) ++ rest)
  = Some (buffer, rest).
Proof.
  intros Hb Hne. destruct buffer as [|z buffer]; [congruence|].
  apply (isend_recv block (z :: buffer) rest Hb).
Qed.

Lemma skipn_skipn' {A} (l : list A) a b : skipn b (skipn a l) = skipn (a + b) l.
Proof.
  revert l. induction a as [|a IH]; intros l; simpl; [reflexivity|].
  destruct l; simpl; [apply skipn_nil|apply IH].
Qed.

Lemma blocks_small block buffer : 0 < block ->
  Forall (fun b : list Z => 0 < length b /\ length b <= block) (blocks buffer (length buffer) block)
  /\ concat (blocks buffer (length buffer) block) = buffer.
Proof.
  intros Hb.
  assert (H : forall n s, length buffer - s <= n ->
     Forall (fun b : list Z => 0 < length b /\ length b <= block)
       (map (fun ab => slice buffer (fst ab) (snd ab)) (ivs s (length buffer) block))
     /\ concat (map (fun ab => slice buffer (fst ab) (snd ab)) (ivs s (length buffer) block))
        = skipn s buffer).
  { induction n as [|n IH]; intros s Hn.
    - rewrite ivs_done by lia. simpl. split; [constructor|]. rewrite skipn_all2 by lia. reflexivity.
    - destruct (Nat.ltb_spec s (length buffer)) as [L|L].
      2:{ rewrite ivs_done by lia. simpl. split; [constructor|].
          rewrite skipn_all2 by lia. reflexivity. }
      rewrite ivs_next by lia. destruct (IH (s + block) ltac:(lia)) as (F & C).
      split.
      + simpl. constructor; [|exact F]. rewrite slice_length by lia. lia.
      + simpl. rewrite C. unfold slice.
        destruct (Nat.leb_spec (s + block) (length buffer)) as [Le|Gt].
        * rewrite Nat.min_l by lia. replace (s + block - s) with block by lia.
          replace (skipn (s + block) buffer) with (skipn block (skipn s buffer)).
          2:{ apply skipn_skipn'. }
          apply firstn_skipn.
        * rewrite Nat.min_r by lia. rewrite (skipn_all2 (n := s + block)) by lia.
          rewrite app_nil_r. apply firstn_all2. rewrite skipn_length. lia. }
  destruct (H (length buffer) 0 ltac:(lia)) as (F & C). split; [exact F|exact C].
Qed.

(** ** Reassembly *)
Lemma tag_eqb_eq a b : tag_eqb a b = true <-> a = b.
Proof. destruct a, b; simpl; split; congruence. Qed.

Definition only (t : tag) (l : list part) : list part := filter (fun p => tag_eqb (tag_of p) t) l.

Lemma only_app t a b : only t (a ++ b) = only t a ++ only t b.
Proof. apply filter_app. Qed.

Lemma only_cons t p l : only t (p :: l) = if tag_eqb (tag_of p) t then p :: only t l else only t l.
Proof. reflexivity. Qed.

Section Run.
Variable block : nat.
Variable kind_of : nat -> kind.
Hypothesis block_pos : 0 < block.

Notation encode := (encode block).
Notation crun := (crun block kind_of).
Notation cstep := (cstep block kind_of).
Notation got_part := (got_part block).

(** [reads r i m rest]: in state [r] the receiver is in the middle of message [m] of process
    [i], of which the parts [rest] are missing. *)
Inductive reads : rx -> nat -> message -> list part -> Prop :=
| rd_obj i o x : reads (RObj i o) i (MSimple o x) [PObj x]
| rd_meta i o b :
    reads (RMeta i o) i (MComplex o b) (PMeta (meta b) :: map PBuf (b_data b :: b_raws b))
| rd_size i o bytes :
    reads (RSize i o) i (MSerial o bytes)
      (PSize (length bytes) :: map PBuf (blocks bytes (length bytes) block))
| rd_bufs i o b got rest :
    rest <> [] -> got ++ rest = b_data b :: b_raws b ->
    reads (RBufs i o (meta b) (map (@length Z) rest) got) i
      (match o with Some o => MComplex o b | None => MReply b end) (map PBuf rest)
| rd_blocks i o bytes s res :
    s < length bytes -> length res = length bytes -> firstn s res = firstn s bytes ->
    reads (RBlocks i o (ivs s (length bytes) block) res) i (MSerial o bytes)
      (map PBuf (map (fun ab => slice bytes (fst ab) (snd ab)) (ivs s (length bytes) block))).

Lemma finish_ok i o b : finish_bufs i o (meta b) (b_data b :: b_raws b)
  = match o with Some o => MComplex o b | None => MReply b end.
Proof. unfold finish_bufs. destruct o, b; reflexivity. Qed.

Definition goes (res : rx * list (nat * message)) (i : nat) (m : message) (rest : list part) : Prop :=
  (res = (RIdle, [(i, m)]) /\ rest = []) \/ (exists r', res = (r', []) /\ reads r' i m rest).

Lemma bufs_next_goes i o b got rest : got ++ rest = b_data b :: b_raws b ->
  goes (bufs_next i o (meta b) (map (@length Z) rest) got) i
    (match o with Some o => MComplex o b | None => MReply b end) (map PBuf rest).
Proof.
  intros H. destruct rest as [|x rest].
  - left. rewrite app_nil_r in H. subst got. simpl. rewrite finish_ok. auto.
  - right. exists (RBufs i o (meta b) (map (@length Z) (x :: rest)) got). split; [reflexivity|].
    apply rd_bufs; [discriminate|exact H].
Qed.

Lemma blocks_next_goes i o bytes s res :
  length res = length bytes -> firstn s res = firstn s bytes ->
  goes (blocks_next i o (ivs s (length bytes) block) res) i (MSerial o bytes)
    (map PBuf (map (fun ab => slice bytes (fst ab) (snd ab)) (ivs s (length bytes) block))).
Proof.
  intros Hl Ha. destruct (Nat.ltb_spec s (length bytes)) as [L|L].
  - right. exists (RBlocks i o (ivs s (length bytes) block) res). split.
    + rewrite ivs_next by lia. reflexivity.
    + apply rd_blocks; auto.
  - left. rewrite ivs_done by lia. simpl. rewrite !firstn_all2 in Ha by lia. now rewrite Ha.
Qed.

Lemma reads_part r i m p rest : reads r i m (p :: rest) ->
  waiting r = Some (i, tag_of p) /\ goes (got_part r p) i m rest.
Proof.
  intros H. inversion H; subst; clear H.
  - simpl. split; [reflexivity|]. left; auto.
  - simpl. split; [reflexivity|].
    apply (bufs_next_goes i (Some o) b [] (b_data b :: b_raws b)). reflexivity.
  - simpl. split; [reflexivity|].
    apply (blocks_next_goes i o bytes 0); [apply repeat_length|reflexivity].
  - destruct rest0 as [|x rest0]; [discriminate|].
    simpl in *. match goal with H : PBuf _ :: _ = _ :: _ |- _ => injection H as <- <- end.
    split; [reflexivity|]. rewrite recv_into_exact by reflexivity.
    apply (bufs_next_goes i o b (got ++ [x]) rest0). rewrite <- app_assoc. assumption.
  - match goal with H : map PBuf _ = _ |- _ => revert H end.
    rewrite ivs_next by lia. simpl. intros E. injection E as <- <-.
    split; [reflexivity|].
    set (e := Nat.min (s + block) (length bytes)).
    rewrite recv_into_exact by (apply slice_length; unfold e; lia).
    assert (Hag : firstn e (assign res s e (slice bytes s e)) = firstn e bytes)
      by (apply assign_agrees; unfold e; auto; lia).
    assert (Hlen : length (assign res s e (slice bytes s e)) = length bytes).
    { rewrite assign_length; auto; unfold e; try lia. apply slice_length; lia. }
    apply blocks_next_goes; [exact Hlen|].
    destruct (Nat.leb_spec (s + block) (length bytes)) as [Le|Gt].
    + unfold e in *. rewrite Nat.min_l in * by lia. exact Hag.
    + unfold e in *. rewrite Nat.min_r in * by lia.
      rewrite firstn_all in Hag. rewrite firstn_all2 in Hag by lia.
      rewrite !firstn_all2 by lia. exact Hag.
Qed.

Lemma reads_rest r i m rest : reads r i m rest -> rest <> [].
Proof.
  intros H; inversion H; subst; try discriminate.
  - destruct rest0; [congruence|discriminate].
  - rewrite ivs_next by lia. discriminate.
Qed.

Definition is_op (m : message) : Prop :=
  match m with MReply _ | MReplyShared _ => False | _ => True end.
Definition is_reply (m : message) : Prop :=
  match m with MReply _ | MReplyShared _ => True | _ => False end.

Definition op_of (m : message) : nat :=
  match m with MPlain o | MSimple o _ | MComplex o _ | MSerial o _ => o | _ => 0 end.

Lemma encode_op m : is_op m -> exists r, encode m = POp (op_of m) :: r /\ only TagOp r = [] /\ only TagBlk r = [].
Proof.
  assert (B : forall l t, t <> TagBuf -> only t (map PBuf l) = []).
  { intros l t Ht. induction l as [|x l IH]; [reflexivity|].
    simpl map. rewrite only_cons. destruct t; simpl; auto. congruence. }
  destruct m; simpl; intros H; try contradiction; eexists; (split; [reflexivity|]);
    repeat rewrite only_cons; simpl; repeat rewrite only_cons; simpl;
    try (split; apply B; discriminate); split; reflexivity.
Qed.

Lemma encode_reply m : is_reply m ->
  only TagOp (encode m) = [] /\
  exists p r, encode m = PBlk p :: r /\ only TagBlk r = [] /\
    match m with
    | MReply b => p = meta b /\ r = map PBuf (b_data b :: b_raws b)
    | MReplyShared x => p = shared_pack x /\ r = []
    | _ => False end.
Proof.
  assert (B : forall l t, t <> TagBuf -> only t (map PBuf l) = []).
  { intros l t Ht. induction l as [|x l IH]; [reflexivity|].
    simpl map. rewrite only_cons. destruct t; simpl; auto. congruence. }
  destruct m; simpl; intros H; try contradiction.
  - split.
    + repeat rewrite only_cons; simpl. apply B; discriminate.
    + exists (meta b), (map PBuf (b_data b :: b_raws b)). split; [reflexivity|]. split.
      * apply B; discriminate.
      * auto.
  - split; [reflexivity|]. eexists _, _. repeat split; reflexivity.
Qed.

Lemma ops_no_blk l : Forall is_op l -> only TagBlk (flat_map encode l) = [].
Proof.
  induction 1 as [|m l Hm Hl IH]; [reflexivity|]. simpl. rewrite only_app, IH, app_nil_r.
  destruct (encode_op m Hm) as (r & -> & _ & E). exact E.
Qed.

Lemma replies_no_op l : Forall is_reply l -> only TagOp (flat_map encode l) = [].
Proof.
  induction 1 as [|m l Hm Hl IH]; [reflexivity|]. simpl. rewrite only_app, IH, app_nil_r.
  apply encode_reply; assumption.
Qed.

Section Inv.
Variable msgs : nat -> list message.
Hypothesis kinded : forall i, Forall (well_kinded kind_of) (msgs i).
Hypothesis homogeneous : forall i, Forall is_op (msgs i) \/ Forall is_reply (msgs i).

Definition from (i : nat) (l : list (nat * message)) : list message :=
  map snd (filter (fun e => Nat.eqb (fst e) i) l).

Lemma from_app i a b : from i (a ++ b) = from i a ++ from i b.
Proof. unfold from. now rewrite filter_app, map_app. Qed.

Lemma from_one i m : from i [(i, m)] = [m].
Proof. unfold from. simpl. now rewrite Nat.eqb_refl. Qed.

Lemma from_one_other i j m : i <> j -> from i [(j, m)] = [].
Proof. intros H. unfold from. simpl. destruct (Nat.eqb_spec j i); [congruence|reflexivity]. Qed.

(** What is still to come from each process: the rest of the current message, then the messages
    not begun. *)
Definition cur (r : rx) (i : nat) (c : list message) (rest : list part) : Prop :=
  match waiting r with
  | Some (j, _) => if Nat.eqb j i then exists m, c = [m] /\ reads r i m rest else c = [] /\ rest = []
  | None => r = RIdle /\ c = [] /\ rest = []
  end.

Definition CInv (st : cstate) : Prop := forall i, exists c rest l,
  cur (recv st) i c rest /\
  msgs i = from i (delivered st) ++ c ++ l /\
  forall t, queue st i t ++ only t (unsent st i) = only t (rest ++ flat_map encode l).

Lemma cinv_init : CInv (cinit block msgs).
Proof.
  intros i. exists [], [], (msgs i). repeat split; auto.
Qed.

Lemma pop_same q i t x l : q i t = x :: l -> forall u, u <> t -> pop q i t i u = q i u.
Proof.
  intros _ u Hu. unfold pop. rewrite Nat.eqb_refl. simpl.
  destruct (tag_eqb u t) eqn:E; [apply tag_eqb_eq in E; congruence|reflexivity].
Qed.

Lemma pop_hit q i t : pop q i t i t = tl (q i t).
Proof.
  unfold pop. rewrite Nat.eqb_refl. simpl.
  replace (tag_eqb t t) with true by (destruct t; reflexivity). reflexivity.
Qed.

Lemma pop_other q i t j u : j <> i -> pop q i t j u = q j u.
Proof. intros H. unfold pop. destruct (Nat.eqb_spec j i); [congruence|reflexivity]. Qed.

(** Taking the first part [p] of the remaining stream of [i]. *)
Lemma take_part q i p rest u un : 
  (forall t, q i t ++ only t un = only t (p :: rest)) -> q i (tag_of p) = u ->
  u <> [] -> hd p u = p /\ forall t, pop q i (tag_of p) i t ++ only t un = only t rest.
Proof.
  intros H Hu Hne. destruct u as [|x u]; [congruence|].
  pose proof (H (tag_of p)) as Hp. rewrite only_cons, Hu in Hp.
  replace (tag_eqb (tag_of p) (tag_of p)) with true in Hp by (destruct p; reflexivity).
  simpl in Hp. injection Hp as -> Hp. split; [reflexivity|]. intros t.
  destruct (tag_eqb t (tag_of p)) eqn:E.
  - apply tag_eqb_eq in E. subst t. rewrite pop_hit, Hu. exact Hp.
  - specialize (H t). rewrite only_cons in H.
    replace (tag_eqb (tag_of p) t) with false in H
      by (destruct (tag_of p), t; simpl in *; congruence).
    unfold pop. rewrite Nat.eqb_refl, E. simpl. exact H.
Qed.

Lemma cur_idle_other r i j c rest : waiting r = Some (j, c) -> j <> i -> cur r i [] rest -> rest = [].
Proof. unfold cur. intros -> H. destruct (Nat.eqb_spec j i); [congruence|]. tauto. Qed.

Lemma reads_waiting r i m rest : reads r i m rest -> exists t, waiting r = Some (i, t).
Proof. intros H; inversion H; subst; simpl; eauto. Qed.

Lemma cur_reads r i m rest : reads r i m rest -> cur r i [m] rest.
Proof.
  intros H. destruct (reads_waiting _ _ _ _ H) as (t & E). unfold cur. rewrite E, Nat.eqb_refl.
  eauto.
Qed.

Lemma cur_away r i m rest j : reads r i m rest -> j <> i -> cur r j [] [].
Proof.
  intros H Hn. destruct (reads_waiting _ _ _ _ H) as (t & E). unfold cur. rewrite E.
  destruct (Nat.eqb_spec i j); [congruence|auto].
Qed.

(** The common end of every receiving step. *)
Lemma cinv_recv st i t r evs m rest l :
  CInv st -> (forall j, j <> i -> cur (recv st) j [] []  ) ->
  msgs i = from i (delivered st) ++ m :: l ->
  goes (r, evs) i m rest ->
  (forall u, pop (queue st) i t i u ++ only u (unsent st i) = only u (rest ++ flat_map encode l)) ->
  CInv {| unsent := unsent st; queue := pop (queue st) i t; recv := r;
          delivered := delivered st ++ evs |}.
Proof.
  intros HI Haway Hm Hg Hq j. simpl.
  destruct (Nat.eq_dec j i) as [->|Hji].
  - destruct Hg as [(E & ->)|(r' & E & Hr)]; apply pair_inj in E; destruct E as [-> ->].
    + exists [], [], l. rewrite from_app, from_one, <- app_assoc. split; [|split; auto].
      unfold cur; simpl; auto.
    + exists [m], rest, l. rewrite app_nil_r. split; [|split; auto].
      apply cur_reads; assumption.
  - destruct (HI j) as (c & rest' & l' & Hc & Hm' & Hq').
    assert (Hcr : c = [] /\ rest' = []).
    { specialize (Haway j Hji). unfold cur in *.
      destruct (waiting (recv st)) as [(k, u)|]; [|tauto].
      destruct (Nat.eqb k j); [|tauto]. destruct Haway as (m' & E & _). discriminate. }
    destruct Hcr as [-> ->].
    exists [], [], l'. split; [|split].
    + destruct Hg as [(E & ->)|(r' & E & Hr)]; apply pair_inj in E; destruct E as [-> ->].
      * unfold cur; simpl; auto.
      * eapply cur_away; eauto.
    + rewrite from_app. replace (from j evs) with (@nil message).
      2:{ destruct Hg as [(E & _)|(r' & E & _)]; apply pair_inj in E; destruct E as [_ ->].
          - rewrite from_one_other; auto.
          - reflexivity. }
      rewrite app_nil_r. exact Hm'.
    + intros u. rewrite pop_other by assumption. apply Hq'.
Qed.

Lemma in_suffix (P : message -> Prop) i a c m l :
  msgs i = a ++ c ++ m :: l -> Forall P (msgs i) -> P m.
Proof.
  intros E F. rewrite E in F. rewrite Forall_forall in F. apply F.
  rewrite !in_app_iff. simpl. auto.
Qed.

Lemma idle_cur st j : recv st = RIdle -> cur (recv st) j [] [].
Proof. intros ->. unfold cur. simpl. auto. Qed.

Lemma homog_suffix i a l : msgs i = a ++ l -> Forall is_op l \/ Forall is_reply l.
Proof.
  intros E. destruct (homogeneous i) as [F|F]; rewrite E in F; apply Forall_app in F; tauto.
Qed.

Lemma cinv_step st a : CInv st -> CInv (cstep st a).
Proof.
  intros HI. destruct a as [i|i|i|]; simpl.
  - (* send *)
    destruct (unsent st i) as [|p un] eqn:Eu; [exact HI|]. intros j.
    destruct (HI j) as (c & rest & l & Hc & Hm & Hq). exists c, rest, l. simpl.
    split; [exact Hc|]. split; [exact Hm|]. intros t. rewrite <- Hq. unfold push.
    destruct (Nat.eqb_spec j i) as [->|Hji]; simpl.
    + rewrite Eu, only_cons. 
      destruct (tag_eqb t (tag_of p)) eqn:E.
      * apply tag_eqb_eq in E. subst t.
        replace (tag_eqb (tag_of p) (tag_of p)) with true by (destruct p; reflexivity).
        rewrite <- app_assoc. reflexivity.
      * replace (tag_eqb (tag_of p) t) with false; [reflexivity|].
        destruct (tag_of p), t; simpl in *; congruence.
    + reflexivity.
  - (* pick *)
    destruct (recv st) eqn:Er; try exact HI.
    destruct (queue st i TagOp) as [|p q] eqn:Eq; [exact HI|].
    destruct p; try exact HI.
    destruct (HI i) as (c & rest & l & Hc & Hm & Hq).
    unfold cur in Hc. rewrite Er in Hc. simpl in Hc. destruct Hc as (_ & -> & ->).
    simpl in Hm, Hq. pose proof (Hq TagOp) as HqO. rewrite Eq in HqO.
    destruct (homog_suffix i _ l Hm) as [F|F].
    2:{ rewrite replies_no_op in HqO by assumption. discriminate. }
    destruct l as [|m l]; [discriminate|].
    inversion F as [|? ? Fm Fl]; subst.
    destruct (encode_op m Fm) as (r & Ee & HrO & HrB).
    pose proof (in_suffix (well_kinded kind_of) i (from i (delivered st)) [] m l Hm (kinded i)) as Hk.
    simpl in Hq. rewrite Ee in Hq. simpl app in Hq.
    destruct (take_part (queue st) i (POp (op_of m)) (r ++ flat_map encode l) _ (unsent st i)
                Hq Eq ltac:(discriminate)) as (Hhd & Hq').
    simpl in Hhd. injection Hhd as ->.
    destruct (after_op kind_of i (op_of m)) as [r' evs] eqn:Ea.
    apply (cinv_recv st i TagOp r' evs m r l); auto.
    + intros j _. apply idle_cur; assumption.
    + rewrite <- Ea. unfold after_op.
      destruct m; simpl in *; try contradiction; rewrite Hk; injection Ee as <-.
      * left; auto.
      * right. eexists. split; [reflexivity|]. apply rd_obj.
      * right. eexists. split; [reflexivity|]. apply rd_meta.
      * right. eexists. split; [reflexivity|]. apply rd_size.
  - (* pull *)
    destruct (recv st) eqn:Er; try exact HI.
    destruct (queue st i TagBlk) as [|p q] eqn:Eq; [exact HI|].
    destruct p; try exact HI.
    destruct (HI i) as (c & rest & l & Hc & Hm & Hq).
    unfold cur in Hc. rewrite Er in Hc. simpl in Hc. destruct Hc as (_ & -> & ->).
    simpl in Hm, Hq. pose proof (Hq TagBlk) as HqO. rewrite Eq in HqO.
    destruct (homog_suffix i _ l Hm) as [F|F].
    { rewrite ops_no_blk in HqO by assumption. discriminate. }
    destruct l as [|m l]; [discriminate|].
    inversion F as [|? ? Fm Fl]; subst.
    destruct (encode_reply m Fm) as (_ & pk & r & Ee & HrB & Hmm).
    simpl in Hq. rewrite Ee in Hq. simpl app in Hq.
    destruct (take_part (queue st) i (PBlk pk) (r ++ flat_map encode l) _ (unsent st i)
                Hq Eq ltac:(discriminate)) as (Hhd & Hq').
    simpl in Hhd. injection Hhd as ->.
    match goal with |- CInv (let (r, evs) := ?X in _) => destruct X as [r' evs] eqn:Ea end.
    apply (cinv_recv st i TagBlk r' evs m r l); auto.
    + intros j _. apply idle_cur; assumption.
    + rewrite <- Ea. destruct m; try contradiction.
      * destruct Hmm as [-> ->]. simpl pk_shared. cbv iota.
        apply (bufs_next_goes i None b [] (b_data b :: b_raws b)). reflexivity.
      * destruct Hmm as [-> ->]. simpl. left; auto.
  - (* receive *)
    destruct (waiting (recv st)) as [[i t]|] eqn:Ew; [|exact HI].
    destruct (queue st i t) as [|p q] eqn:Eq; [exact HI|].
    destruct (HI i) as (c & rest & l & Hc & Hm & Hq).
    unfold cur in Hc. rewrite Ew, Nat.eqb_refl in Hc. destruct Hc as (m & -> & Hr).
    destruct rest as [|p' rest]; [exfalso; eapply reads_rest; eauto|].
    destruct (reads_part _ _ _ _ _ Hr) as (Hw & Hg).
    rewrite Ew in Hw. injection Hw as ->.
    destruct (take_part (queue st) i p' (rest ++ flat_map encode l) _ (unsent st i)
                Hq Eq ltac:(discriminate)) as (Hhd & Hq').
    simpl in Hhd. subst p'.
    destruct (got_part (recv st) p) as [r' evs] eqn:Ea.
    apply (cinv_recv st i (tag_of p) r' evs m rest l); auto.
    intros j Hj. eapply cur_away; eauto.
Qed.

Lemma cinv_run acts : CInv (crun msgs acts).
Proof.
  unfold crun. generalize (cinv_init). generalize (cinit block msgs).
  induction acts as [|a acts IH]; intros st H; simpl; [exact H|]. apply IH. now apply cinv_step.
Qed.

Lemma delivered_prefix acts i : exists later, msgs i = from i (delivered (crun msgs acts)) ++ later.
Proof. destruct (cinv_run acts i) as (c & rest & l & _ & H & _). eauto. Qed.

Lemma never_fails acts : recv (crun msgs acts) <> RFail.
Proof.
  intros E. destruct (cinv_run acts 0) as (c & rest & l & H & _).
  unfold cur in H. rewrite E in H. simpl in H. destruct H as (H & _). discriminate.
Qed.

Lemma waiting_comes acts i t : waiting (recv (crun msgs acts)) = Some (i, t) ->
  unsent (crun msgs acts) i = [] -> queue (crun msgs acts) i t <> [].
Proof.
  intros Hw Hu. destruct (cinv_run acts i) as (c & rest & l & Hc & _ & Hq).
  unfold cur in Hc. rewrite Hw, Nat.eqb_refl in Hc. destruct Hc as (m & -> & Hr).
  destruct rest as [|p rest]; [exfalso; eapply reads_rest; eauto|].
  destruct (reads_part _ _ _ _ _ Hr) as (Hw' & _). rewrite Hw in Hw'. injection Hw' as ->.
  specialize (Hq (tag_of p)). rewrite Hu, app_nil_r in Hq. rewrite Hq. simpl.
  replace (tag_eqb (tag_of p) (tag_of p)) with true by (destruct p; reflexivity). discriminate.
Qed.

Lemma all_delivered acts i : recv (crun msgs acts) = RIdle -> unsent (crun msgs acts) i = [] ->
  queue (crun msgs acts) i TagOp = [] -> queue (crun msgs acts) i TagBlk = [] ->
  from i (delivered (crun msgs acts)) = msgs i.
Proof.
  intros Hr Hu HO HB. destruct (cinv_run acts i) as (c & rest & l & Hc & Hm & Hq).
  unfold cur in Hc. rewrite Hr in Hc. simpl in Hc. destruct Hc as (_ & -> & ->).
  simpl in Hm, Hq. destruct l as [|m l]; [now rewrite app_nil_r in Hm|exfalso].
  pose proof (Hq TagOp) as H1. pose proof (Hq TagBlk) as H2.
  rewrite HO, Hu in H1. rewrite HB, Hu in H2. simpl in H1, H2.
  destruct (homog_suffix i _ _ Hm) as [F|F]; inversion F as [|? ? Fm Fl]; subst.
  - destruct (encode_op m Fm) as (r & Ee & _). rewrite Ee in H1. discriminate.
  - destruct (encode_reply m Fm) as (_ & pk & r & Ee & _). rewrite Ee in H2. discriminate.
Qed.

End Inv.
End Run.
