(** The monitor together with workers; concrete histories. *)
From Verif Require Import Lib ShmModel ValModel WorkerModel WorkerSpec WorkerLog WorkerThms WorkerDone WorkerFew WorkerCases MonModel MonSpec MonProofs.
From Coq Require Import Permutation.

Lemma filter_le {A} (p q : A -> bool) l : (forall x, p x = true -> q x = true) -> length (filter p l) <= length (filter q l).
Proof.
  intros H. induction l as [|x l IH]; simpl; auto. destruct (p x) eqn:P.
  - rewrite (H x P). simpl. lia.
  - destruct (q x); simpl; lia.
Qed.

Section Workers.
Variable body : val -> val -> val -> result.
Variable mbody : list call -> call -> result.
Variable is_async : callee -> bool.
Hypothesis body_ok : forall f a k, no_refs_returned (body f a k).
Hypothesis mbody_ok : forall h c, no_refs_returned (mbody h c).
Variable inp : rank -> list wmsg.
Variable wk : rank -> wst.
Hypothesis clean : forall r, no_refs_received (inp r).
Hypothesis runs : forall r, wrun r body mbody is_async winit (inp r) = Some (wk r).
Hypothesis ids : forall r, NoDup (map q_id (received (log (wk r)))).
Variable c : mcfg.
Variable g : manager.

Lemma success_complete r d : succeeded (log (wk r)) d -> exists ds, In ds (reports (log (wk r))) /\ In d ds.
Proof using body_ok mbody_ok clean runs ids.
  intros (n & v & q & E & Q & Id & En & D).
  destruct (success_told r body mbody is_async body_ok mbody_ok (inp r) (wk r) (clean r) (runs r) _ _ E) as (q' & Q2 & Id' & R).
  assert (q' = q).
  { assert (X := ids r). revert X Q Q2 Id Id'. generalize (received (log (wk r))) as L. clear.
    induction L as [|y L IH]; simpl; [tauto|]. intros X [<-|A] [<-|B] I J; auto; inversion X; subst.
    - exfalso. apply H1. rewrite <- J. apply in_map. auto.
    - exfalso. apply H1. rewrite J. apply in_map. auto.
    - auto. }
  subst q'. exact (R En d D).
Qed.

Lemma wait_ends ms1 ds n ms2 s1 s p :
  orderly c (minit g) (ms1 ++ [MWait ds n]) -> waits ms2 = 0 ->
  mon_run c (minit g) ms1 = Some s1 ->
  mon_run c (minit g) (ms1 ++ MWait ds n :: ms2) = Some s -> mstopped s = false ->
  (forall r, In r (c_workers c) -> forall ids, In ids (reports (log (wk r))) -> In (MDone r ids) (ms1 ++ ms2)) ->
  (forall d, p d = true -> exists r, In r (c_workers c) /\ succeeded (log (wk r)) d) ->
  (n <= Z.of_nat (length (filter p ds)))%Z ->
  exists rdy nrdy, answers (mlog s) = answers (mlog s1) ++ [(rdy, nrdy)] /\ Permutation (rdy ++ nrdy) ds /\
    Z.of_nat (length rdy) = n.
Proof using body_ok mbody_ok clean runs ids.
  intros O W H1 H St De Su N. destruct (answered_once c g _ _ _ _ _ _ O W H1 H St) as (new & E & A).
  unfold answer_for in A.
  assert (L : length (filter p ds) <= length (filter (complete (ms1 ++ ms2)) ds)).
  { apply filter_le. intros d P. destruct (Su d P) as (r & I & S). destruct (success_complete _ _ S) as (l & I1 & I2).
    unfold complete. apply existsb_exists. exists (MDone r l). split; [apply De; auto | apply did_in_In; auto]. }
  destruct (Z.ltb_spec (Z.of_nat (length (filter (complete (ms1 ++ ms2)) ds))) n) as [X|X]; [lia|].
  destruct A as (r & nr & -> & P & Ln & _). eauto.
Qed.
End Workers.

(** Task 2 of the worker's history fails; its report names nothing, so a wait for u is never answered. *)
Definition xc : mcfg := {| c_self := 1; c_workers := [2; 3]; c_monitors := [1] |}.
Definition xg : manager := manager_init 100 10.

Lemma failed_never_answered : exists w s d,
  wrun 2 xbody xmbody xsync winit xms = Some w /\ (exists e, stored (log w) d (VExc e)) /\
  mon_run xc (minit xg) (map (MDone 2) (reports (log w)) ++ [MWait [d] 1]) = Some s /\
  mstopped s = false /\ answers (mlog s) = [].
Proof.
  destruct xrun as (w & R & L).
  destruct (mon_run xc (minit xg) (map (MDone 2) (reports xlog) ++ [MWait [u] 1])) as [s|] eqn:E; [|vm_compute in E; discriminate].
  exists w, s, u. split; auto. rewrite L. split.
  - exists 9. unfold stored, xlog. simpl. tauto.
  - split; auto. vm_compute in E. apply Some_inj in E as <-. split; reflexivity.
Qed.

Definition xmon : list mmsg :=
  [MReserve 2 y 60; MDone 2 [z]; MWait [y; z; u; y] 1; MDone 3 []; MCount 0; MWait [u; y; v; y] 3; MDone 2 [v]; MDone 3 [t; y]].

Lemma xorderly : orderly xc (minit xg) xmon.
Proof.
  intros b ds n a E. unfold xmon in E.
  do 8 (destruct b as [|m b]; simpl in E;
    [first [discriminate E |
       injection E as <- <- <-; split; [lia|]; eexists; split; [vm_compute; reflexivity | reflexivity]]
    | injection E as <- E]).
  destruct b; discriminate E.
Qed.

Lemma xanswers : option_map (fun s => (answers (mlog s), mcount s)) (mon_run xc (minit xg) xmon) =
  Some ([([z], [y; u; y]); ([v; y; y], [u])], 4).
Proof. vm_compute. reflexivity. Qed.

Lemma xfinished : wrun 2 xbody xmbody xsync winit xms <> None /\ succeeded xlog z.
Proof.
  split.
  - destruct xrun as (w & R & _). congruence.
  - exists 1. unfold succeeded, xlog. eexists. eexists. cbn [In]. split; [repeat (first [left; reflexivity | right])|].
    split; [vm_compute; left; reflexivity|]. simpl. auto.
Qed.

(** Worker 2 has the history above, worker 3 none; the wait comes before the reports. *)
Definition xinp (r : rank) : list wmsg := if r =? 2 then xms else [].
Definition xmon2 : list mmsg := MDone 3 [] :: map (MDone 2) (reports xlog).

Lemma xwait : exists wk s1 s,
  (forall r, no_refs_received (xinp r)) /\ (forall r, wrun r xbody xmbody xsync winit (xinp r) = Some (wk r)) /\
  (forall r, NoDup (map q_id (received (log (wk r))))) /\
  orderly xc (minit xg) ([MDone 2 []] ++ [MWait [y; z; u] 1]) /\ waits xmon2 = 0 /\
  mon_run xc (minit xg) [MDone 2 []] = Some s1 /\
  mon_run xc (minit xg) ([MDone 2 []] ++ MWait [y; z; u] 1 :: xmon2) = Some s /\ mstopped s = false /\
  (forall r, In r (c_workers xc) -> forall ids, In ids (reports (log (wk r))) -> In (MDone r ids) ([MDone 2 []] ++ xmon2)) /\
  succeeded (log (wk 2)) z /\ answers (mlog s) = [([z], [y; u])].
Proof.
  destruct xrun as (w & R & L).
  destruct (mon_run xc (minit xg) ([MDone 2 []] ++ MWait [y; z; u] 1 :: xmon2)) as [s|] eqn:E; [|vm_compute in E; discriminate].
  destruct (mon_run xc (minit xg) [MDone 2 []]) as [s1|] eqn:E1; [|vm_compute in E1; discriminate].
  exists (fun r => if r =? 2 then w else winit), s1, s.
  split; [intros r; unfold xinp; destruct (r =? 2); [exact xclean | intros m v0 []]|].
  split; [intros r; unfold xinp; destruct (Nat.eqb_spec r 2); [subst; auto | reflexivity]|].
  split; [intros r; destruct (r =? 2); [rewrite L|]; vm_compute; repeat constructor; simpl; intuition discriminate|].
  split; [|split; [reflexivity|split; [auto|split; [auto|]]]].
  - intros b ds n a Eb. destruct b as [|m b]; [discriminate|]. injection Eb as <- Eb. destruct b as [|m b]; [|injection Eb as <- Eb; destruct b; discriminate].
    injection Eb as <- <- <-. split; [lia|]. eexists. split; [vm_compute; reflexivity | reflexivity].
  - split; [vm_compute in E; apply Some_inj in E as <-; reflexivity|]. split; [|split].
    + intros r _ ids I. destruct (Nat.eqb_spec r 2) as [->|]; [|destruct I]. rewrite L in I. apply in_or_app. right. unfold xmon2. right. apply in_map. auto.
    + simpl. rewrite L. exact (proj2 xfinished).
    + vm_compute in E. apply Some_inj in E as <-. reflexivity.
Qed.
