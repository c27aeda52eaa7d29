(** Proofs about cleanups that several monitors carry out together. *)
From Verif Require Import Lib ShmModel ShmSpec ShmProofs ShmMgrProofs ShmClusterProofs CollModel CollSpec.
Local Open Scope Z_scope.

Lemma krun_snoc s ops o : krun s (ops ++ [o]) = kstep (krun s ops) o.
Proof. unfold krun. now rewrite fold_left_app. Qed.

Lemma krun_app s a b : krun s (a ++ b) = krun (krun s a) b.
Proof. unfold krun. now rewrite fold_left_app. Qed.

Lemma told_app a b : told (a ++ b) = told a ++ told b.
Proof. induction a as [|o a IH]; [reflexivity|]. destruct o; simpl; rewrite IH; reflexivity. Qed.

Lemma cleanups_app a b : cleanups (a ++ b) = cleanups a ++ cleanups b.
Proof. induction a as [|o a IH]; [reflexivity|]. destruct o; simpl; rewrite IH; reflexivity. Qed.

Lemma crun_app ms a b : crun ms (a ++ b) = crun (crun ms a) b.
Proof. unfold crun. now rewrite fold_left_app. Qed.

Lemma kst_eq s : {| k_hosts := k_hosts s; k_err := k_err s |} = s.
Proof. destruct s; reflexivity. Qed.

Lemma nth_upd_nth {A} (f : A -> A) l : forall n k x', nth_error (upd_nth n f l) k = Some x' ->
  exists x, nth_error l k = Some x /\ (x' = x \/ x' = f x).
Proof.
  induction l as [|a l IH]; intros n k x' H; destruct n, k; simpl in *; try discriminate.
  - injection H as <-. exists a; auto.
  - exists x'; auto.
  - injection H as <-. exists a; auto.
  - exact (IH _ _ _ H).
Qed.

Lemma map_upd_nth {A B} (g : A -> B) f f' l : (forall x, g (f x) = f' (g x)) ->
  forall n, map g (upd_nth n f l) = upd_nth n f' (map g l).
Proof.
  intros H. induction l as [|a l IH]; intros [|n]; simpl; try reflexivity.
  - now rewrite H.
  - now rewrite IH.
Qed.

Lemma map_upd_nth_id {A B} (g : A -> B) f l : (forall x, g (f x) = g x) ->
  forall n, map g (upd_nth n f l) = map g l.
Proof.
  intros H. induction l as [|a l IH]; intros [|n]; simpl; try reflexivity.
  - now rewrite H.
  - now rewrite IH.
Qed.

(** ** Any senders *)

(** What holds of one host, whoever asked for cleanups: [T] are the requests sent so far. *)
Definition hgood (T : list (list dataid)) (x : khost) : Prop :=
  (forall d, In d (pending_cleanup (k_mgr x)) -> exists ids, In ids T /\ In d ids) /\
  (forall r ids, In (KClean ids) (k_in x r) -> In ids T) /\
  (forall refs ids fl, k_mode x = InReduce refs ids fl ->
     fl = has_refs refs (k_mgr x) (cleanup_list (k_mgr x) ids) /\ In ids T).

Lemma hgood_mono T T' x : (forall i, In i T -> In i T') -> hgood T x -> hgood T' x.
Proof.
  intros M (P & Q & R). split; [|split].
  - intros d H. destruct (P d H) as (ids & A & B). eauto.
  - intros r ids H. eauto.
  - intros refs ids fl H. destruct (R refs ids fl H). auto.
Qed.

Lemma tl_In {A} (x : A) l : In x (tl l) -> In x l.
Proof. destruct l; simpl; auto. Qed.

Lemma kpop_In src x r m : In m (kpop src x r) -> In m (k_in x r).
Proof. unfold kpop. destruct (Nat.eqb src r); [apply tl_In | auto]. Qed.

Lemma hgood_take T src refs x : hgood T x -> hgood T (ktake src refs x).
Proof.
  intros (P & Q & R). unfold ktake.
  destruct (k_mode x) eqn:M; try (split; [|split]; assumption || (intros; rewrite M in *; eauto)).
  destruct (k_in x src) as [|[d size|ids] rest] eqn:K.
  - split; [|split]; auto. intros; congruence.
  - split; [|split]; simpl.
    + intros y Hy. rewrite reserve_pending in Hy. auto.
    + intros r ids Hi. apply kpop_In in Hi. eauto.
    + intros. destruct (snd (mgr_reserve (k_mgr x) d size)); discriminate.
  - split; [|split]; simpl; auto.
    + intros r ids' Hi. apply kpop_In in Hi. eauto.
    + intros refs' ids' fl E. injection E as <- <- <-. split; [reflexivity|].
      apply (Q src). rewrite K. left; reflexivity.
Qed.

Lemma clear_loop_pending_In l : forall m d, In d (pending_cleanup (clear_loop m l)) ->
  In d (pending_cleanup m) \/ In d (map fst l).
Proof.
  induction l as [|[a b] l IH]; simpl; intros m d H; [auto|].
  destruct b.
  - destruct (IH _ _ H) as [H1|H1]; [|auto]. simpl in H1. apply in_app_iff in H1. simpl in H1. tauto.
  - destruct (IH _ _ H) as [H1|H1]; [|auto]. unfold mgr_free_one in H1. destruct (resv m a); auto.
Qed.

Lemma combine_fst_In {A B} (l : list A) : forall (k : list B) x, In x (map fst (combine l k)) -> In x l.
Proof. induction l as [|a l IH]; intros [|b k] x; simpl; try tauto. intros [H|H]; eauto. Qed.

Lemma mgr_clear_pending_In m ids fl d : In d (pending_cleanup (mgr_clear m ids fl)) ->
  In d (pending_cleanup m) \/ In d ids.
Proof.
  unfold mgr_clear. intros H. apply clear_loop_pending_In in H. simpl in H. destruct H as [[]|H].
  apply combine_fst_In in H. unfold cleanup_list in H. now apply in_app_iff in H.
Qed.

Lemma hgood_finish T fl x : hgood T x -> hgood T (kfinish fl x).
Proof.
  intros (P & Q & R). unfold kfinish.
  destruct (k_mode x) as [|refs ids fl0|] eqn:M; try (split; [|split]; auto; intros; congruence).
  split; [|split]; simpl; auto.
  - intros d H. apply mgr_clear_pending_In in H. destruct H as [H|H]; [auto|].
    destruct (R refs ids fl0 eq_refl) as (_ & I0). eauto.
  - intros; discriminate.
Qed.

Lemma hgood_push_res T src d size x : hgood T x -> hgood T (kpush src (KReserve d size) x).
Proof.
  intros (P & Q & R). split; [|split]; simpl; auto.
  intros r ids. destruct (Nat.eqb src r); [|eauto]. rewrite in_app_iff. simpl. intros [H|[H|[]]]; [eauto | discriminate].
Qed.

Lemma hgood_push_clean T src ids x : hgood T x -> hgood (T ++ [ids]) (kpush src (KClean ids) x).
Proof.
  intros G. apply (hgood_mono T (T ++ [ids])) in G; [|intros; apply in_app_iff; auto].
  destruct G as (P & Q & R). split; [|split]; simpl; auto.
  intros r ids'. destruct (Nat.eqb src r); [|eauto]. rewrite in_app_iff.
  intros [H|[H|[]]]; [eauto|]. injection H as <-. apply in_app_iff. right; left; reflexivity.
Qed.

Definition good (T : list (list dataid)) (s : kst) : Prop := forall x, In x (k_hosts s) -> hgood T x.

Lemma good_run sizes ops : good (told ops) (krun (kinit sizes) ops).
Proof.
  induction ops as [|o ops IH] using rev_ind.
  - intros x H. simpl in H. apply in_map_iff in H. destruct H as (p & <- & _).
    split; [|split]; simpl; intros; try contradiction; discriminate.
  - rewrite krun_snoc, told_app. set (s := krun (kinit sizes) ops) in *. clearbody s.
    assert (G : forall x, In x (k_hosts s) -> hgood (told ops ++ told [o]) x).
    { intros x H. apply (hgood_mono (told ops)); [intros; apply in_app_iff; auto | auto]. }
    unfold kstep. destruct (k_err s); [exact G|].
    destruct o as [src h d size|src ids|h src refs|]; simpl told in *.
    + intros x H. simpl in H. apply upd_nth_In in H. destruct H as [H|(y & H & ->)]; [auto|].
      apply hgood_push_res; auto.
    + intros x H. simpl in H. apply in_map_iff in H. destruct H as (y & <- & H).
      apply hgood_push_clean; auto.
    + intros x H. simpl in H. apply upd_nth_In in H. destruct H as [H|(y & H & ->)]; [auto|].
      apply hgood_take; auto.
    + destruct (all_given (k_hosts s)) as [fs|]; [|exact G].
      destruct (same_lengths fs); [|exact G].
      intros x H. simpl in H. apply in_map_iff in H. destruct H as (y & <- & H). apply hgood_finish; auto.
Qed.

(** The reduced array has the length of every contribution and is above it. *)
Lemma or_lists_length a : forall b, length a = length b -> length (or_lists a b) = length a.
Proof. induction a as [|x a IH]; intros [|y b] H; simpl in *; try discriminate; [reflexivity|]. rewrite IH; lia. Qed.

Lemma or_lists_nth a : forall b i x y, nth_error a i = Some x -> nth_error b i = Some y ->
  nth_error (or_lists a b) i = Some (x || y).
Proof.
  induction a as [|x0 a IH]; intros [|y0 b] [|i] x y H1 H2; simpl in *; try discriminate.
  - injection H1 as ->. injection H2 as ->. reflexivity.
  - eauto.
Qed.

Lemma allreduce_length fs n : fs <> [] -> (forall f, In f fs -> length f = n) -> length (allreduce_max fs) = n.
Proof.
  induction fs as [|f fs IH]; intros Hn H; [congruence|].
  destruct fs as [|g fs]; [apply H; left; reflexivity|].
  change (allreduce_max (f :: g :: fs)) with (or_lists f (allreduce_max (g :: fs))).
  assert (L : length (allreduce_max (g :: fs)) = n) by (apply IH; [discriminate | intros; apply H; right; assumption]).
  rewrite or_lists_length; [apply H; left; reflexivity|]. rewrite L. apply H; left; reflexivity.
Qed.

Lemma allreduce_above fs n : (forall f, In f fs -> length f = n) ->
  forall f i, In f fs -> nth_error f i = Some true -> nth_error (allreduce_max fs) i = Some true.
Proof.
  induction fs as [|g fs IH]; intros H f i Hf E; [contradiction|].
  destruct fs as [|g2 fs]; [destruct Hf as [->|[]]; exact E|].
  change (allreduce_max (g :: g2 :: fs)) with (or_lists g (allreduce_max (g2 :: fs))).
  assert (L : length (allreduce_max (g2 :: fs)) = n)
    by (apply allreduce_length; [discriminate | intros; apply H; right; assumption]).
  assert (Li : (i < n)%nat) by (rewrite <- (H f Hf); apply nth_error_Some; congruence).
  destruct Hf as [->|Hf].
  - destruct (nth_error (allreduce_max (g2 :: fs)) i) as [y|] eqn:Y; [|apply nth_error_None in Y; lia].
    rewrite (or_lists_nth _ _ _ _ _ E Y). reflexivity.
  - assert (Y : nth_error (allreduce_max (g2 :: fs)) i = Some true)
      by (apply (IH (fun f H' => H f (or_intror H')) f i Hf E)).
    destruct (nth_error g i) as [x|] eqn:X.
    + rewrite (or_lists_nth _ _ _ _ _ X Y). now rewrite orb_true_r.
    + apply nth_error_None in X. rewrite (H g (or_introl eq_refl)) in X. lia.
Qed.

Lemma same_lengths_spec fs : same_lengths fs = true -> exists n, forall f, In f fs -> length f = n.
Proof.
  destruct fs as [|f fs]; intros H; [exists O; simpl; tauto|].
  exists (length f). intros g [<-|Hg]; [reflexivity|].
  simpl in H. rewrite forallb_forall in H. apply Nat.eqb_eq, H, Hg.
Qed.

Lemma all_given_spec l : forall fs, all_given l = Some fs ->
  (forall x, In x l -> exists refs ids fl, k_mode x = InReduce refs ids fl /\ In fl fs) /\
  (forall f, In f fs -> exists x refs ids, In x l /\ k_mode x = InReduce refs ids f).
Proof.
  induction l as [|x l IH]; simpl; intros fs H.
  - injection H as <-. split; simpl; tauto.
  - destruct (given x) as [f|] eqn:Gx; [|discriminate]. destruct (all_given l) as [gs|]; [|discriminate].
    injection H as <-. destruct (IH gs eq_refl) as (A & B).
    unfold given in Gx. destruct (k_mode x) as [|refs ids fl|] eqn:M; try discriminate. injection Gx as ->.
    split.
    + intros y [<-|Hy]; [exists refs, ids, f; split; [exact M | left; reflexivity]|].
      destruct (A y Hy) as (r & i & g & E & I0). exists r, i, g. split; [exact E | right; exact I0].
    + intros g [<-|Hg]; [exists x, refs, ids; auto|].
      destruct (B g Hg) as (y & r & i & I0 & E). exists y, r, i. auto.
Qed.

(** Freeing happens at a position of the list whose flag is off. *)
Lemma clear_loop_freed l : forall m d, resv m d <> None -> resv (clear_loop m l) d = None -> In (d, false) l.
Proof.
  induction l as [|[a b] l IH]; simpl; intros m d H1 H2; [contradiction|].
  destruct b.
  - right. eapply IH; [|exact H2]. exact H1.
  - destruct (did_dec a d) as [->|N]; [left; reflexivity|]. right.
    apply (IH _ _) in H2; [exact H2|]. rewrite free_one_resv. apply did_eqb_neq in N. now rewrite N.
Qed.

Lemma In_combine_nth {A B} (l : list A) : forall (k : list B) a b, In (a, b) (combine l k) ->
  exists i, nth_error l i = Some a /\ nth_error k i = Some b.
Proof.
  induction l as [|x l IH]; intros [|y k] a b; simpl; try tauto.
  intros [H|H]; [injection H as -> ->; exists O; auto|].
  destruct (IH _ _ _ H) as (i & A1 & B1). exists (S i); auto.
Qed.

(** Which step frees something, and what its host had seen. *)
Lemma freed_reduce s o h d : freed_in s o h d ->
  o = KReduce /\ k_err s = false /\ exists x refs ids fl fs,
    nth_error (k_hosts s) h = Some x /\ k_mode x = InReduce refs ids fl /\
    all_given (k_hosts s) = Some fs /\ same_lengths fs = true /\
    resv (k_mgr x) d <> None /\
    exists i, nth_error (cleanup_list (k_mgr x) ids) i = Some d /\ nth_error (allreduce_max fs) i = Some false.
Proof.
  intros (x & x' & Hx & Hx' & R & R'). unfold kstep in Hx'.
  destruct (k_err s) eqn:Er; [congruence|].
  destruct o as [src h0 d0 size|src ids0|h0 src refs|]; simpl in Hx'.
  - apply nth_upd_nth in Hx'. destruct Hx' as (y & Hy & [->| ->]); simpl in R'; congruence.
  - rewrite nth_error_map, Hx in Hx'. simpl in Hx'. injection Hx' as <-. simpl in R'. congruence.
  - apply nth_upd_nth in Hx'. destruct Hx' as (y & Hy & [->| ->]); [congruence|].
    assert (y = x) by congruence. subst y. exfalso. revert R'. unfold ktake.
    destruct (k_mode x); try congruence.
    destruct (k_in x src) as [|[a size|ids] rest]; simpl; try congruence.
    unfold mgr_reserve, mgr_get. destruct (resv (k_mgr x) a) eqn:Ea; [simpl; congruence|].
    unfold mgr_put. destruct (occupy size (free_memory (k_mgr x))) as [fm [[f l]|]];
      destruct (occupy INFO_SIZE (free_service (k_mgr x))) as [fsv [[v v2]|]]; simpl; try congruence.
    unfold dput. destruct (did_eqb a d) eqn:Ed; [discriminate | congruence].
  - split; [reflexivity|]. split; [reflexivity|].
    destruct (all_given (k_hosts s)) as [fs|] eqn:Ag; [|congruence].
    destruct (same_lengths fs) eqn:Sl; [|simpl in Hx'; congruence].
    simpl in Hx'. rewrite nth_error_map, Hx in Hx'. simpl in Hx'. injection Hx' as <-.
    destruct (proj1 (all_given_spec _ _ Ag) x (nth_error_In _ _ Hx)) as (refs & ids & fl & M & _).
    exists x, refs, ids, fl, fs. repeat (split; [first [assumption | reflexivity]|]).
    unfold kfinish in R'. rewrite M in R'. simpl in R'. unfold mgr_clear in R'.
    apply clear_loop_freed in R'; [|exact R]. apply In_combine_nth in R'. exact R'.
Qed.

Lemma has_refs_nth refs m l i d : nth_error l i = Some d -> resv m d <> None ->
  nth_error (has_refs refs m l) i = Some (0 <? refs d).
Proof.
  intros H R. unfold has_refs. rewrite nth_error_map, H. simpl.
  destruct (resv m d); [reflexivity | congruence].
Qed.

(** Whoever sends cleanups: a host frees only what it has seen no references to, and what somebody asked for. *)
Lemma own_host sizes ops o h d :
  let s := krun (kinit sizes) ops in
  freed_in s o h d ->
  o = KReduce /\ ~ saw_references s h d /\ exists ids, In ids (told ops) /\ In d ids.
Proof.
  intros s F. destruct (freed_reduce s o h d F)
    as (-> & _ & x & refs & ids & fl & fs & Hx & M & Ag & Sl & R & i & Hi & Ri).
  split; [reflexivity|].
  assert (G : hgood (told ops) x) by (apply good_run with (sizes := sizes); exact (nth_error_In _ _ Hx)).
  destruct G as (P & Q & RR). destruct (RR refs ids fl M) as (Efl & Iids). split.
  - intros (x2 & refs2 & ids2 & fl2 & Hx2 & M2 & _ & Pos).
    assert (x2 = x) by congruence. subst x2. rewrite M in M2. injection M2 as <- <- <-.
    assert (T : nth_error fl i = Some true).
    { rewrite Efl, (has_refs_nth _ _ _ _ _ Hi R). now rewrite (proj2 (Z.ltb_lt _ _) Pos). }
    destruct (same_lengths_spec fs Sl) as (n & Hn).
    destruct (proj1 (all_given_spec _ _ Ag) x (nth_error_In _ _ Hx)) as (r3 & i3 & f3 & M3 & I3).
    rewrite M in M3. injection M3 as <- <- <-.
    rewrite (allreduce_above fs n Hn fl i I3 T) in Ri. discriminate.
  - apply nth_error_In in Hi. unfold cleanup_list in Hi. apply in_app_iff in Hi. destruct Hi as [Hi|Hi]; [auto | eauto].
Qed.

(** ** One sender *)

Fixpoint cleans (l : list kmsg) : list (list dataid) :=
  match l with [] => [] | KClean ids :: r => ids :: cleans r | _ :: r => cleans r end.

Lemma cleans_app a b : cleans (a ++ b) = cleans a ++ cleans b.
Proof. induction a as [|[]]; simpl; [reflexivity | assumption | now f_equal]. Qed.

(** The cleanups host [x] has not finished. *)
Definition ahead (src : rank) (x : khost) : list (list dataid) :=
  match k_mode x with
  | InReduce _ ids _ => ids :: cleans (k_in x src)
  | _ => cleans (k_in x src)
  end.

Definition hseq (src : rank) (rest : list (list dataid)) (x : khost) : Prop :=
  ahead src x = rest /\
  (forall r, r <> src -> cleans (k_in x r) = []) /\
  (forall refs ids fl, k_mode x = InReduce refs ids fl -> fl = has_refs refs (k_mgr x) (cleanup_list (k_mgr x) ids)).

Definition kinv (src : rank) (sizes : list (Z * Z)) (s : kst) (cops : list cop) (T : list (list dataid)) : Prop :=
  k_err s = false /\
  map k_mgr (k_hosts s) = crun (cluster_init sizes) cops /\
  exists rest, T = cleanups cops ++ rest /\ forall x, In x (k_hosts s) -> hseq src rest x.

Lemma hseq_push_res src rest src' d size x : hseq src rest x -> hseq src rest (kpush src' (KReserve d size) x).
Proof.
  intros (A & B & C). split; [|split]; simpl; auto.
  - rewrite <- A. unfold ahead. simpl.
    destruct (Nat.eqb src' src); [rewrite cleans_app; simpl; now rewrite app_nil_r | reflexivity].
  - intros r N. destruct (Nat.eqb src' r); [rewrite cleans_app, B by assumption; reflexivity | auto].
Qed.

Lemma hseq_push_clean src rest ids x : hseq src rest x -> hseq src (rest ++ [ids]) (kpush src (KClean ids) x).
Proof.
  intros (A & B & C). split; [|split]; simpl; auto.
  - rewrite <- A. unfold ahead. simpl. rewrite Nat.eqb_refl, cleans_app. simpl.
    destruct (k_mode x); reflexivity.
  - intros r N. apply not_eq_sym in N. apply Nat.eqb_neq in N. rewrite N. apply B. apply Nat.eqb_neq in N. congruence.
Qed.

Lemma hseq_take src rest src' refs x : hseq src rest x -> hseq src rest (ktake src' refs x).
Proof.
  intros (A & B & C). unfold ktake.
  destruct (k_mode x) eqn:M; try (split; [|split]; assumption || (intros; rewrite M in *; eauto)).
  destruct (k_in x src') as [|[d size|ids] more] eqn:K.
  - split; [|split]; auto. intros; congruence.
  - split; [|split]; simpl.
    + rewrite <- A. unfold ahead. rewrite M. simpl.
      assert (E : cleans (kpop src' x src) = cleans (k_in x src)).
      { unfold kpop. destruct (Nat.eqb src' src) eqn:Es; [|reflexivity].
        apply Nat.eqb_eq in Es. subst src'. rewrite K. reflexivity. }
      destruct (snd (mgr_reserve (k_mgr x) d size)); exact E.
    + intros r N. unfold kpop. destruct (Nat.eqb src' r) eqn:Es; [|auto].
      apply Nat.eqb_eq in Es. subst r. rewrite K. simpl. specialize (B src' N). now rewrite K in B.
    + intros. destruct (snd (mgr_reserve (k_mgr x) d size)); discriminate.
  - assert (src' = src) as ->.
    { destruct (Nat.eq_dec src' src) as [e|N]; [exact e|]. specialize (B src' N). rewrite K in B. discriminate. }
    split; [|split]; simpl.
    + rewrite <- A. unfold ahead. rewrite M. simpl. unfold kpop. rewrite Nat.eqb_refl, K. reflexivity.
    + intros r N. unfold kpop. destruct (Nat.eqb src r) eqn:Es; [apply Nat.eqb_eq in Es; congruence | auto].
    + intros refs' ids' fl E. injection E as <- <- <-. reflexivity.
Qed.

Lemma ktake_mgr src refs x : k_mgr (ktake src refs x) =
  match k_mode x, k_in x src with
  | Running, KReserve d size :: _ => fst (mgr_reserve (k_mgr x) d size)
  | _, _ => k_mgr x
  end.
Proof. unfold ktake. destruct (k_mode x); try reflexivity. destruct (k_in x src) as [|[]]; reflexivity. Qed.

Lemma upd_nth_mgr src refs l : forall h, map k_mgr (upd_nth h (ktake src refs) l) =
  match nth_error l h with
  | Some x => match k_mode x, k_in x src with
              | Running, KReserve d size :: _ => upd_nth h (fun m => fst (mgr_reserve m d size)) (map k_mgr l)
              | _, _ => map k_mgr l
              end
  | None => map k_mgr l
  end.
Proof.
  induction l as [|x l IH]; intros [|h]; simpl; try reflexivity.
  - rewrite ktake_mgr. destruct (k_mode x); try reflexivity. destruct (k_in x src) as [|[]]; reflexivity.
  - rewrite IH. destruct (nth_error l h) as [y|]; [|reflexivity].
    destruct (k_mode y); try reflexivity. destruct (k_in y src) as [|[]]; reflexivity.
Qed.

(** What the hosts had seen when they entered the reduction. *)
Definition seen (l : list khost) (h : nat) (d : dataid) : Z :=
  match nth_error l h with
  | Some x => match k_mode x with InReduce refs _ _ => refs d | _ => 0 end
  | None => 0
  end.

Lemma has_refs_ext refs refs' m l : (forall d, refs d = refs' d) -> has_refs refs m l = has_refs refs' m l.
Proof. intros H. unfold has_refs. apply map_ext. intros d. now rewrite H. Qed.

Lemma flags_with_refs ids l : forall F k fs,
  all_given l = Some fs ->
  (forall x refs ids' fl, In x l -> k_mode x = InReduce refs ids' fl ->
     ids' = ids /\ fl = has_refs refs (k_mgr x) (cleanup_list (k_mgr x) ids')) ->
  (forall i d, F (k + i)%nat d = seen l i d) ->
  map (fun h => has_refs (snd h) (fst h) (cleanup_list (fst h) ids)) (with_refs F k (map k_mgr l)) = fs.
Proof.
  induction l as [|x l IH]; simpl; intros F k fs H C E.
  - now injection H as <-.
  - destruct (given x) as [f|] eqn:Gx; [|discriminate]. destruct (all_given l) as [gs|]; [|discriminate].
    injection H as <-. f_equal.
    + unfold given in Gx. destruct (k_mode x) as [|refs ids' fl|] eqn:M; try discriminate. injection Gx as <-.
      destruct (C x refs ids' fl (or_introl eq_refl) M) as (-> & ->).
      apply has_refs_ext. intros d. specialize (E O d). rewrite Nat.add_0_r in E. unfold seen in E. simpl in E.
      now rewrite M in E.
    + apply IH; [reflexivity | intros; eapply C; eauto |].
      intros i d. specialize (E (S i) d). replace (S k + i)%nat with (k + S i)%nat by lia. exact E.
Qed.

Lemma finish_mgrs ids fl l : (forall x, In x l -> exists refs f, k_mode x = InReduce refs ids f) ->
  map k_mgr (map (kfinish fl) l) = map (fun m => mgr_clear m ids fl) (map k_mgr l).
Proof.
  intros H. rewrite !map_map. apply map_ext_in. intros x Hx. destruct (H x Hx) as (refs & f & M).
  unfold kfinish. rewrite M. reflexivity.
Qed.

Lemma with_refs_fst_map {B} (f : manager -> B) F k ms :
  map (fun h => f (fst h)) (with_refs F k ms) = map f ms.
Proof. apply map_with_refs. Qed.

Lemma crun_length ms cops : length (crun ms cops) = length ms.
Proof.
  induction cops as [|o cops IH] using rev_ind; [reflexivity|]. rewrite crun_app, <- IH.
  generalize (crun ms cops). intros l. destruct o as [h d n|refs ids]; simpl.
  - revert h. induction l as [|m l IH2]; intros [|h]; simpl; try reflexivity. now rewrite IH2.
  - unfold cluster_clear. rewrite map_length. rewrite <- (map_length fst), with_refs_fst. reflexivity.
Qed.

Lemma kinv_run src sizes ops : sizes <> [] -> one_sender src ops ->
  exists cops, kinv src sizes (krun (kinit sizes) ops) cops (told ops).
Proof.
  intros Hne. induction ops as [|o ops IH] using rev_ind; intros One.
  - exists []. split; [reflexivity|]. split.
    + simpl. unfold cluster_init. rewrite map_map. reflexivity.
    + exists []. split; [reflexivity|]. intros x H. simpl in H. apply in_map_iff in H. destruct H as (p & <- & _).
      split; [reflexivity|]. split; [reflexivity|]. simpl; intros; discriminate.
  - destruct IH as (cops & Er & Mg & rest & HT & Hs).
    { intros src' ids H. apply (One src' ids). apply in_app_iff; auto. }
    rewrite krun_snoc, told_app. set (s := krun (kinit sizes) ops) in *. clearbody s.
    unfold kstep. rewrite Er. destruct o as [src' h d size|src' ids|h src' refs|]; simpl told.
    + exists cops. split; [reflexivity|]. simpl. split.
      * rewrite map_upd_nth_id by reflexivity. exact Mg.
      * exists rest. rewrite app_nil_r. split; [exact HT|]. intros x H. apply upd_nth_In in H.
        destruct H as [H|(y & H & ->)]; [auto|]. apply hseq_push_res; auto.
    + assert (src' = src) as -> by (apply (One src' ids); apply in_app_iff; right; left; reflexivity).
      exists cops. split; [reflexivity|]. simpl. split.
      * rewrite map_map. exact Mg.
      * exists (rest ++ [ids]). rewrite HT, app_assoc. split; [reflexivity|].
        intros x H. apply in_map_iff in H. destruct H as (y & <- & H). apply hseq_push_clean; auto.
    + assert (Hs' : forall x, In x (upd_nth h (ktake src' refs) (k_hosts s)) -> hseq src rest x).
      { intros x H. apply upd_nth_In in H. destruct H as [H|(y & H & ->)]; [auto|]. apply hseq_take; auto. }
      rewrite app_nil_r.
      destruct (nth_error (k_hosts s) h) as [x|] eqn:Hx.
      * destruct (k_mode x) as [|rf0 is0 fl0|] eqn:M, (k_in x src') as [|[d size|is1] more] eqn:K;
          try (exists cops; split; [reflexivity|]; split;
               [simpl; rewrite upd_nth_mgr, Hx, M, ?K; exact Mg | exists rest; auto]).
        exists (cops ++ [CReserve h d size]). split; [reflexivity|]. split.
        -- simpl. rewrite upd_nth_mgr, Hx, M, K, Mg, crun_app. reflexivity.
        -- exists rest. rewrite cleanups_app. simpl. rewrite app_nil_r. auto.
      * exists cops; split; [reflexivity|]; split; [simpl; rewrite upd_nth_mgr, Hx; exact Mg | exists rest; auto].
    + rewrite app_nil_r. destruct (all_given (k_hosts s)) as [fs|] eqn:Ag.
      2:{ exists cops. split; [exact Er|]. split; [exact Mg|]. exists rest; auto. }
      destruct (all_given_spec _ _ Ag) as (A & B).
      destruct (k_hosts s) as [|x0 hosts0] eqn:Eh.
      { exfalso. simpl in Mg. pose proof (crun_length (cluster_init sizes) cops) as L.
        rewrite <- Mg in L. unfold cluster_init in L. rewrite map_length in L. destruct sizes; [congruence | discriminate]. }
      assert (Hin : In x0 (k_hosts s)) by (rewrite Eh; left; reflexivity).
      rewrite <- Eh in *. clear Eh.
      destruct (A x0 Hin) as (r0 & ids & f0 & M0 & _).
      assert (Hrest : exists more, rest = ids :: more).
      { destruct (Hs x0 Hin) as (Ha & _). unfold ahead in Ha. rewrite M0 in Ha. eauto. }
      destruct Hrest as (more & ->).
      assert (All : forall x, In x (k_hosts s) -> exists refs f, k_mode x = InReduce refs ids f).
      { intros x Hx. destruct (A x Hx) as (r & i & f & M & _). destruct (Hs x Hx) as (Ha & _).
        unfold ahead in Ha. rewrite M in Ha. injection Ha as -> _. eauto. }
      destruct (crun_pending sizes cops) as (p & Hp). rewrite <- Mg in Hp.
      assert (Sl : same_lengths fs = true).
      { assert (Ln : forall f, In f fs -> length f = length (p ++ ids)).
        { intros f Hf. destruct (B f Hf) as (x & r & i & Hx & M). destruct (Hs x Hx) as (Ha & _ & Hfl).
          rewrite (Hfl _ _ _ M). unfold has_refs. rewrite map_length. unfold cleanup_list.
          rewrite (Hp (k_mgr x)) by (apply in_map; exact Hx).
          unfold ahead in Ha. rewrite M in Ha. injection Ha as -> _. reflexivity. }
        destruct fs as [|f fs]; [reflexivity|]. simpl. apply forallb_forall. intros g Hg. apply Nat.eqb_eq.
        rewrite (Ln g (or_intror Hg)), (Ln f (or_introl eq_refl)). reflexivity. }
      rewrite Sl. exists (cops ++ [CCleanup (seen (k_hosts s)) ids]). split; [reflexivity|]. split.
      * simpl. rewrite crun_app. simpl. rewrite <- Mg. unfold cluster_clear.
        rewrite (flags_with_refs ids (k_hosts s) (seen (k_hosts s)) 0%nat fs Ag).
        -- rewrite (with_refs_fst_map (fun m => mgr_clear m ids (allreduce_max fs))). apply finish_mgrs. exact All.
        -- intros x r i f Hx M. destruct (Hs x Hx) as (_ & _ & Hfl). split; [|apply (Hfl _ _ _ M)].
           destruct (All x Hx) as (r' & f' & M'). congruence.
        -- reflexivity.
      * exists more. rewrite cleanups_app. simpl. rewrite <- app_assoc. split; [exact HT|].
        intros x H. simpl in H. apply in_map_iff in H. destruct H as (y & <- & Hy).
        destruct (All y Hy) as (r & f & M). destruct (Hs y Hy) as (Ha & Hb & Hc).
        unfold kfinish. rewrite M. split; [|split].
        -- unfold ahead in *. rewrite M in Ha. simpl. now injection Ha.
        -- exact Hb.
        -- simpl; intros; discriminate.
Qed.

(** One sender: what the monitors do is a history of whole cleanups, in the order of the requests. *)
Lemma history src sizes ops : sizes <> [] -> one_sender src ops ->
  let s := krun (kinit sizes) ops in
  k_err s = false /\
  exists cops later, map k_mgr (k_hosts s) = crun (cluster_init sizes) cops /\ told ops = cleanups cops ++ later.
Proof.
  intros Hne One s. destruct (kinv_run src sizes ops Hne One) as (cops & Er & Mg & rest & HT & _).
  split; [exact Er|]. exists cops, rest. auto.
Qed.

(** One sender: a host frees only what no host has seen references to. *)
Lemma agreed src sizes ops o h d : one_sender src ops ->
  let s := krun (kinit sizes) ops in
  freed_in s o h d -> forall h', ~ saw_references s h' d.
Proof.
  intros One s F h' (y & ry & iy & fy & Hy & My & Ry & Pos).
  assert (Hne : sizes <> []).
  { intros ->. destruct F as (x & _ & Hx & _). revert Hx. subst s.
    assert (E : k_hosts (krun (kinit []) ops) = []).
    { clear. induction ops as [|o ops IH] using rev_ind; [reflexivity|]. rewrite krun_snoc. unfold kstep.
      destruct (k_err _); [exact IH|]. destruct o as [a [|b] c e|a b|[|a] b c|]; simpl; rewrite IH; try reflexivity. }
    rewrite E. destruct h; discriminate. }
  destruct (kinv_run src sizes ops Hne One) as (cops & Er & Mg & rest & HT & Hs). fold s in Er, Mg, Hs.
  destruct (freed_reduce s o h d F)
    as (-> & _ & x & refs & ids & fl & fs & Hx & M & Ag & Sl & R & i & Hi & Ri).
  pose proof (nth_error_In _ _ Hx) as Ix. pose proof (nth_error_In _ _ Hy) as Iy.
  destruct (Hs x Ix) as (Ax & _ & Fx). destruct (Hs y Iy) as (Ay & _ & Fy).
  unfold ahead in Ax, Ay. rewrite M in Ax. rewrite My in Ay.
  assert (iy = ids) as -> by congruence.
  destruct (crun_pending sizes cops) as (p & Hp). rewrite <- Mg in Hp.
  assert (C : cleanup_list (k_mgr y) ids = cleanup_list (k_mgr x) ids).
  { unfold cleanup_list. rewrite (Hp (k_mgr x)), (Hp (k_mgr y)) by (apply in_map; assumption). reflexivity. }
  destruct (same_lengths_spec fs Sl) as (n & Hn).
  destruct (proj1 (all_given_spec _ _ Ag) y Iy) as (r3 & i3 & f3 & M3 & I3).
  rewrite My in M3. injection M3 as <- <- <-.
  assert (T : nth_error fy i = Some true).
  { rewrite (Fy _ _ _ My), C, (has_refs_nth _ _ _ _ _ Hi Ry). now rewrite (proj2 (Z.ltb_lt _ _) Pos). }
  rewrite (allreduce_above fs n Hn fy i I3 T) in Ri. discriminate.
Qed.

(** ** Nobody waits for ever *)

Definition csum (L : list rank) (x : khost) : nat := list_sum (map (fun r => length (cleans (k_in x r))) L).
Definition msum (L : list rank) (x : khost) : nat := list_sum (map (fun r => length (k_in x r)) L).
Definition inside (x : khost) : nat := match k_mode x with InReduce _ _ _ => 1 | _ => 0 end.

Lemma sum_upd (f g : rank -> nat) src (k : nat) L : NoDup L -> In src L ->
  (forall r, r <> src -> f r = g r) -> f src = (g src + k)%nat ->
  list_sum (map f L) = (list_sum (map g L) + k)%nat.
Proof.
  induction L as [|a L IH]; intros N I0 E Es; [contradiction|].
  inversion N as [|? ? Na Nl]; subst. simpl. destruct I0 as [->|I0].
  - assert (X : list_sum (map f L) = list_sum (map g L)).
    { f_equal. apply map_ext_in. intros r Hr. apply E. intros ->. contradiction. }
    lia.
  - rewrite (IH Nl I0 E Es). rewrite (E a) by (intros ->; contradiction). lia.
Qed.

Lemma csum_push L src m x : NoDup L -> In src L ->
  csum L (kpush src m x) = (csum L x + length (cleans [m]))%nat.
Proof.
  intros N I0. unfold csum. apply (sum_upd _ _ src); auto; simpl.
  - intros r Nr. assert (Nat.eqb src r = false) as -> by (apply Nat.eqb_neq; congruence). reflexivity.
  - rewrite Nat.eqb_refl, cleans_app, app_length. reflexivity.
Qed.

Lemma csum_pop L src x m more md g : NoDup L -> In src L -> k_in x src = m :: more ->
  csum L x = (csum L {| k_mgr := g; k_mode := md; k_in := kpop src x |} + length (cleans [m]))%nat.
Proof.
  intros N I0 K. unfold csum. apply (sum_upd _ _ src); auto; simpl; unfold kpop.
  - intros r Nr. assert (Nat.eqb src r = false) as -> by (apply Nat.eqb_neq; congruence). reflexivity.
  - rewrite Nat.eqb_refl, K. destruct m; simpl; lia.
Qed.

Lemma msum_pop L src x m more md g : NoDup L -> In src L -> k_in x src = m :: more ->
  msum L x = (msum L {| k_mgr := g; k_mode := md; k_in := kpop src x |} + 1)%nat.
Proof.
  intros N I0 K. unfold msum. apply (sum_upd _ _ src); auto; simpl; unfold kpop.
  - intros r Nr. assert (Nat.eqb src r = false) as -> by (apply Nat.eqb_neq; congruence). reflexivity.
  - rewrite Nat.eqb_refl, K. simpl. lia.
Qed.

(** Every host has the same number of cleanups before it, and all messages are of senders in [L]. *)
Definition bal (L : list rank) (s : kst) : Prop :=
  (forall x r, In x (k_hosts s) -> ~ In r L -> k_in x r = []) /\
  exists n, forall x, In x (k_hosts s) -> (csum L x + inside x)%nat = n.

Definition senders_in (L : list rank) (o : kop) : Prop :=
  match o with KAsk src _ _ _ => In src L | KTell src _ => In src L | _ => True end.

Lemma ktake_bal L src refs x : NoDup L -> (forall r, ~ In r L -> k_in x r = []) ->
  (csum L (ktake src refs x) + inside (ktake src refs x))%nat = (csum L x + inside x)%nat /\
  (forall r, ~ In r L -> k_in (ktake src refs x) r = []).
Proof.
  intros N E. unfold ktake. destruct (k_mode x) eqn:M; try (split; [reflexivity | exact E]).
  destruct (k_in x src) as [|[d size|ids] more] eqn:K; [split; [reflexivity | exact E]| |].
  - assert (I0 : In src L) by (destruct (in_dec Nat.eq_dec src L) as [i|ni]; [exact i | rewrite (E src ni) in K; discriminate]).
    split.
    + rewrite (csum_pop L src x _ more (match snd (mgr_reserve (k_mgr x) d size) with Some _ => Running | None => Dead end)
                 (fst (mgr_reserve (k_mgr x) d size)) N I0 K). unfold inside. rewrite M. simpl.
      destruct (snd (mgr_reserve (k_mgr x) d size)); lia.
    + simpl. intros r Nr. unfold kpop. rewrite (E r Nr). destruct (Nat.eqb src r); reflexivity.
  - assert (I0 : In src L) by (destruct (in_dec Nat.eq_dec src L) as [i|ni]; [exact i | rewrite (E src ni) in K; discriminate]).
    split.
    + rewrite (csum_pop L src x _ more (InReduce refs ids (has_refs refs (k_mgr x) (cleanup_list (k_mgr x) ids)))
                 (k_mgr x) N I0 K). unfold inside. rewrite M. simpl. lia.
    + simpl. intros r Nr. unfold kpop. rewrite (E r Nr). destruct (Nat.eqb src r); reflexivity.
Qed.

Lemma bal_step L s o : NoDup L -> senders_in L o -> bal L s -> bal L (kstep s o).
Proof.
  intros N So (E & n & Hn). unfold kstep. destruct (k_err s); [split; [exact E | exists n; exact Hn]|].
  destruct o as [src h d size|src ids|h src refs|]; simpl in So.
  - split.
    + intros x r H Nr. simpl in H. apply upd_nth_In in H. destruct H as [H|(y & H & ->)]; [auto|].
      simpl. destruct (Nat.eqb src r) eqn:Es; [apply Nat.eqb_eq in Es; subst; contradiction | auto].
    + exists n. intros x H. simpl in H. apply upd_nth_In in H. destruct H as [H|(y & H & ->)]; [auto|].
      rewrite csum_push by assumption. simpl. rewrite <- (Hn y H). unfold inside. simpl. lia.
  - split.
    + intros x r H Nr. simpl in H. apply in_map_iff in H. destruct H as (y & <- & H).
      simpl. destruct (Nat.eqb src r) eqn:Es; [apply Nat.eqb_eq in Es; subst; contradiction | auto].
    + exists (S n). intros x H. simpl in H. apply in_map_iff in H. destruct H as (y & <- & H).
      rewrite csum_push by assumption. simpl. rewrite <- (Hn y H). unfold inside. simpl. lia.
  - split.
    + intros x r H Nr. simpl in H. apply upd_nth_In in H. destruct H as [H|(y & H & ->)]; [auto|].
      apply ktake_bal with (L := L); auto.
    + exists n. intros x H. simpl in H. apply upd_nth_In in H. destruct H as [H|(y & H & ->)]; [auto|].
      rewrite (proj1 (ktake_bal L src refs y N (fun r => E y r H))). auto.
  - destruct (all_given (k_hosts s)) as [fs|] eqn:Ag; [|split; [exact E | exists n; exact Hn]].
    destruct (same_lengths fs); [|split; [exact E | exists n; exact Hn]].
    destruct (all_given_spec _ _ Ag) as (A & _). split.
    + intros x r H Nr. simpl in H. apply in_map_iff in H. destruct H as (y & <- & H).
      unfold kfinish. destruct (k_mode y); simpl; auto.
    + exists (n - 1)%nat. intros x H. simpl in H. apply in_map_iff in H. destruct H as (y & <- & H).
      destruct (A y H) as (r & i & f & M & _). specialize (Hn y H). unfold kfinish, inside in *. rewrite M in *.
      unfold csum in *. simpl. lia.
Qed.

Lemma bal_init L sizes : bal L (kinit sizes).
Proof.
  split.
  - intros x r H _. simpl in H. apply in_map_iff in H. destruct H as (p & <- & _). reflexivity.
  - exists O. intros x H. simpl in H. apply in_map_iff in H. destruct H as (p & <- & _).
    unfold csum, inside. simpl. induction L; simpl; [reflexivity | assumption].
Qed.

Lemma bal_run L ops : NoDup L -> forall s, bal L s -> (forall o, In o ops -> senders_in L o) -> bal L (krun s ops).
Proof.
  intros N. unfold krun. induction ops as [|o ops IH]; intros s B H; [exact B|].
  simpl. apply IH; [|intros; apply H; right; assumption]. apply bal_step; auto. apply H. left; reflexivity.
Qed.

Fixpoint senders (ops : list kop) : list rank :=
  match ops with
  | [] => []
  | KAsk src _ _ _ :: r => src :: senders r
  | KTell src _ :: r => src :: senders r
  | _ :: r => senders r
  end.

Lemma senders_spec ops o : In o ops -> senders_in (senders ops) o.
Proof.
  induction ops as [|a ops IH]; [contradiction|]. intros [->|H].
  - destruct o; simpl; auto.
  - specialize (IH H). destruct o; simpl in *; auto; destruct a; simpl; auto.
Qed.

Lemma bal_reach sizes ops : exists L, NoDup L /\ bal L (krun (kinit sizes) ops).
Proof.
  exists (nodup Nat.eq_dec (senders ops)). split; [apply NoDup_nodup|].
  apply bal_run; [apply NoDup_nodup | apply bal_init|]. intros o H. apply senders_spec in H.
  destruct o; simpl in *; auto; apply nodup_In; exact H.
Qed.

Lemma list_sum_zero (f : rank -> nat) L : list_sum (map f L) = O -> forall r, In r L -> f r = O.
Proof. induction L as [|a L IH]; simpl; intros H r Hr; [contradiction|]. destruct Hr as [->|Hr]; [lia|]. apply IH; [lia | exact Hr]. Qed.

Lemma find_msg L x :
  (forall r, ~ In r L -> k_in x r = []) -> (forall r, k_in x r = []) \/ exists r, In r L /\ k_in x r <> [].
Proof.
  intros E.
  assert (D : (forall r, In r L -> k_in x r = []) \/ exists r, In r L /\ k_in x r <> []).
  { clear E. induction L as [|a L IH]; [left; intros r []|].
    destruct (k_in x a) as [|m more] eqn:K.
    - destruct IH as [H|(r & H1 & H2)]; [|right; exists r; split; [right; exact H1 | exact H2]].
      left. intros r [<-|Hr]; auto.
    - right. exists a. split; [left; reflexivity | congruence]. }
  destruct D as [D|D]; [|auto]. left. intros r. destruct (in_dec Nat.eq_dec r L); auto.
Qed.

Lemma modes l : (forall x : khost, In x l -> k_mode x <> Dead) ->
  (forall x, In x l -> k_mode x = Running) \/
  (forall x, In x l -> exists refs ids fl, k_mode x = InReduce refs ids fl) \/
  (exists x y, In x l /\ In y l /\ k_mode x = Running /\ exists refs ids fl, k_mode y = InReduce refs ids fl).
Proof.
  induction l as [|a l IH]; intros H; [left; intros x []|].
  assert (Hl : forall x, In x l -> k_mode x <> Dead) by (intros; apply H; right; assumption).
  specialize (IH Hl). pose proof (H a (or_introl eq_refl)) as Ha.
  destruct (k_mode a) as [|refs ids fl|] eqn:M; [| |congruence].
  - destruct IH as [IH|[IH|(x & y & X & Y & MX & MY)]].
    + left. intros x [<-|Hx]; auto.
    + destruct l as [|b l]; [left; intros x [<-|[]]; exact M|].
      right; right. exists a, b. simpl. split; [auto|]. split; [auto|]. split; [exact M|]. apply IH. left; reflexivity.
    + right; right. exists x, y. simpl. auto 6.
  - destruct IH as [IH|[IH|(x & y & X & Y & MX & MY)]].
    + destruct l as [|b l]; [right; left; intros x [<-|[]]; eauto|].
      right; right. exists b, a. simpl. split; [auto|]. split; [auto|]. split; [apply IH; left; reflexivity | eauto].
    + right; left. intros x [<-|Hx]; [eauto | auto].
    + right; right. exists x, y. simpl. auto 6.
Qed.

Lemma bal_goes_on L s : bal L s -> (forall x, In x (k_hosts s) -> k_mode x <> Dead) -> drained s \/ can_go_on s.
Proof.
  intros (E & n & Hn) Nd. destruct (modes _ Nd) as [R|[A|(x & y & X & Y & MX & (refs & ids & fl & MY))]].
  - assert (D : (forall x, In x (k_hosts s) -> forall r, k_in x r = []) \/
                exists x r, In x (k_hosts s) /\ k_in x r <> []).
    { clear R Nd Hn. induction (k_hosts s) as [|a l IH]; [left; intros x []|].
      destruct (find_msg L a (fun r => E a r (or_introl eq_refl))) as [Z0|(r & _ & Z0)].
      - destruct IH as [IH|(x & r & IH1 & IH2)]; [intros; apply E; [right|]; assumption | |].
        + left. intros x [<-|Hx]; auto.
        + right. exists x, r. split; [right|]; assumption.
      - right. exists a, r. split; [left; reflexivity | exact Z0]. }
    destruct D as [D|(x & r & X & Kx)].
    + left. intros x Hx. auto.
    + right. left. exists x, r. auto.
  - right. right. exact A.
  - right. left. pose proof (Hn x X) as Nx. pose proof (Hn y Y) as Ny. unfold inside in Nx, Ny. rewrite MX in Nx. rewrite MY in Ny.
    destruct (find_msg L x (fun r => E x r X)) as [Z0|(r & _ & Z0)].
    + exfalso. assert (C : csum L x = O).
      { unfold csum. clear - Z0. induction L as [|a L IH]; simpl; [reflexivity|]. rewrite Z0. exact IH. }
      lia.
    + exists x, r. auto.
Qed.

(** Whoever sends cleanups: while no monitor has died, either all is done or some monitor can go on. *)
Lemma goes_on sizes ops : let s := krun (kinit sizes) ops in
  (forall x, In x (k_hosts s) -> k_mode x <> Dead) -> drained s \/ can_go_on s.
Proof. intros s Nd. destruct (bal_reach sizes ops) as (L & _ & B). exact (bal_goes_on L s B Nd). Qed.

(** What is left to do. *)
Definition work (L : list rank) (l : list khost) : nat :=
  list_sum (map (fun x => 2 * msum L x + inside x)%nat l).

Lemma work_take L src refs x : NoDup L -> (forall r, ~ In r L -> k_in x r = []) ->
  k_mode x = Running -> k_in x src <> [] ->
  (2 * msum L (ktake src refs x) + inside (ktake src refs x) < 2 * msum L x + inside x)%nat.
Proof.
  intros N E M K. unfold ktake. rewrite M. destruct (k_in x src) as [|m more] eqn:Ks; [congruence|].
  assert (I0 : In src L) by (destruct (in_dec Nat.eq_dec src L) as [i|ni]; [exact i | rewrite (E src ni) in Ks; discriminate]).
  destruct m as [d size|ids].
  - rewrite (msum_pop L src x _ more (match snd (mgr_reserve (k_mgr x) d size) with Some _ => Running | None => Dead end)
               (fst (mgr_reserve (k_mgr x) d size)) N I0 Ks). unfold inside. rewrite M. simpl.
    destruct (snd (mgr_reserve (k_mgr x) d size)); lia.
  - rewrite (msum_pop L src x _ more (InReduce refs ids (has_refs refs (k_mgr x) (cleanup_list (k_mgr x) ids)))
               (k_mgr x) N I0 Ks). unfold inside. rewrite M. simpl. lia.
Qed.

Lemma work_upd L f l : forall h x, nth_error l h = Some x ->
  (2 * msum L (f x) + inside (f x) < 2 * msum L x + inside x)%nat -> (work L (upd_nth h f l) < work L l)%nat.
Proof.
  unfold work. induction l as [|a l IH]; intros [|h] x H Lt; simpl in H; try discriminate.
  - injection H as ->. simpl in *; lia.
  - specialize (IH h x H Lt). simpl in *; lia.
Qed.

Lemma work_finish L fl l : l <> [] -> (forall x, In x l -> exists refs ids f, k_mode x = InReduce refs ids f) ->
  (work L (map (kfinish fl) l) < work L l)%nat.
Proof.
  unfold work. induction l as [|a l IH]; intros N H; [congruence|].
  destruct (H a (or_introl eq_refl)) as (r & i & f & M).
  assert (Ea : (2 * msum L (kfinish fl a) + inside (kfinish fl a) < 2 * msum L a + inside a)%nat).
  { unfold kfinish, inside. rewrite M. unfold msum. simpl. lia. }
  destruct l as [|b l]; [clear IH; simpl in *; lia|].
  assert (IH' := IH ltac:(discriminate) (fun x Hx => H x (or_intror Hx))). clear IH.
  set (l' := b :: l) in *. clearbody l'. simpl in *. lia.
Qed.

Lemma all_given_some l : (forall x, In x l -> exists refs ids f, k_mode x = InReduce refs ids f) -> exists fs, all_given l = Some fs.
Proof.
  induction l as [|a l IH]; intros H; [exists []; reflexivity|].
  destruct (H a (or_introl eq_refl)) as (r & i & f & M).
  destruct IH as (fs & Hf); [intros; apply H; right; assumption|].
  exists (f :: fs). simpl. unfold given. now rewrite M, Hf.
Qed.

Lemma dead_dec (l : list khost) : (exists x, In x l /\ k_mode x = Dead) \/ (forall x, In x l -> k_mode x <> Dead).
Proof.
  induction l as [|a l IH]; [right; intros x []|].
  destruct IH as [(x & H1 & H2)|IH]; [left; exists x; split; [right|]; assumption|].
  destruct (k_mode a) eqn:M; try (right; intros x [<-|Hx]; [congruence | auto]).
  left. exists a. split; [left; reflexivity | exact M].
Qed.

Lemma drains_bal look L : NoDup L -> forall n s, (work L (k_hosts s) < n)%nat -> bal L s ->
  exists ops2, (forall o, In o ops2 -> monitor_step look o) /\
    let s' := krun s ops2 in
    k_err s' = true \/ drained s' \/ exists x, In x (k_hosts s') /\ k_mode x = Dead.
Proof.
  intros N. induction n as [|n IH]; intros s W B; [lia|].
  destruct (k_err s) eqn:Er; [exists []; split; [intros o [] | left; exact Er]|].
  destruct (dead_dec (k_hosts s)) as [Dd|Nd]; [exists []; split; [intros o [] | right; right; exact Dd]|].
  destruct (bal_goes_on L s B Nd) as [D|G]; [exists []; split; [intros o [] | right; left; exact D]|].
  assert (Step : forall o, monitor_step look o -> senders_in L o -> (work L (k_hosts (kstep s o)) < work L (k_hosts s))%nat \/ k_err (kstep s o) = true ->
     exists ops2, (forall o, In o ops2 -> monitor_step look o) /\
       let s' := krun s ops2 in k_err s' = true \/ drained s' \/ exists x, In x (k_hosts s') /\ k_mode x = Dead).
  { intros o Mo So [W'|E'].
    - destruct (IH (kstep s o)) as (ops2 & H1 & H2); [lia | apply bal_step; assumption|].
      exists (o :: ops2). split; [intros p [<-|Hp]; auto | exact H2].
    - exists [o]. split; [intros p [<-|[]]; exact Mo | left; exact E']. }
  destruct G as [(x & src & Hx & M & K)|All].
  - destruct (In_nth_error _ _ Hx) as (h & Hh).
    apply (Step (KTake h src (look h))); simpl; auto. left. unfold kstep. rewrite Er. simpl.
    apply (work_upd L _ _ h x Hh). destruct B as (E & _). apply work_take; auto.
  - destruct (k_hosts s) as [|x0 l0] eqn:Eh.
    { exists []. split; [intros o []|]. right; left. intros x Hx. simpl in Hx. rewrite Eh in Hx. contradiction. }
    rewrite <- Eh in *. apply (Step KReduce); simpl; auto. unfold kstep. rewrite Er.
    destruct (all_given_some _ All) as (fs & Ag). rewrite Ag. destruct (same_lengths fs); [left|right; reflexivity].
    simpl. apply work_finish; [rewrite Eh; discriminate | exact All].
Qed.

(** One sender: whatever the monitors see, they can carry out all requests that are under way, unless one of them dies. *)
Lemma drains src sizes ops look : sizes <> [] -> one_sender src ops ->
  let s := krun (kinit sizes) ops in
  exists ops2, (forall o, In o ops2 -> monitor_step look o) /\
    let s' := krun s ops2 in
    (exists x, In x (k_hosts s') /\ k_mode x = Dead) \/
    (drained s' /\ exists cops, map k_mgr (k_hosts s') = crun (cluster_init sizes) cops /\ told ops = cleanups cops).
Proof.
  intros Hne One s. destruct (bal_reach sizes ops) as (L & N & B). fold s in B.
  destruct (drains_bal look L N (S (work L (k_hosts s))) s (Nat.lt_succ_diag_r _) B) as (ops2 & H1 & H2).
  exists ops2. split; [exact H1|]. simpl in H2.
  assert (T2 : told ops2 = []).
  { clear - H1. induction ops2 as [|o ops2 IH]; [reflexivity|].
    pose proof (H1 o (or_introl eq_refl)) as Ho. destruct o; simpl in *; try contradiction; apply IH; auto. }
  assert (One2 : one_sender src (ops ++ ops2)).
  { intros a b H. apply in_app_iff in H. destruct H as [H|H]; [eauto|]. specialize (H1 _ H). contradiction. }
  destruct (kinv_run src sizes (ops ++ ops2) Hne One2) as (cops & Er & Mg & rest & HT & Hs).
  rewrite krun_app in Er, Mg, Hs. fold s in Er, Mg, Hs. rewrite told_app, T2, app_nil_r in HT.
  destruct H2 as [H2|[H2|H2]]; [congruence | | left; exact H2].
  right. split; [exact H2|]. exists cops. split; [exact Mg|].
  assert (rest = []) as ->; [|rewrite app_nil_r in HT; exact HT].
  destruct (k_hosts (krun s ops2)) as [|x l] eqn:Eh.
  - exfalso. pose proof (crun_length (cluster_init sizes) cops) as Ln. rewrite <- Mg in Ln. unfold cluster_init in Ln.
    rewrite map_length in Ln. destruct sizes; [congruence | discriminate].
  - destruct (Hs x (or_introl eq_refl)) as (A & _). destruct (H2 x) as (M & K); [rewrite Eh; left; reflexivity|].
    unfold ahead in A. rewrite M, K in A. symmetry. exact A.
Qed.
