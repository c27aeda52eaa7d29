(** C98, completeness: the backends together; a concrete program. *)
From Verif Require Import Lib ValModel PyseqModel PyseqSpec PortSpec PortHist PortShows PortProofs PortDoneSpec PortDone PortDoneSeq PortDonePymp PortDoneDask PortDoneMpi PortDoneNot PortCases.

Section All.
Variable body : nat -> list val -> kwargs -> res.
Variable prog : list pcall.
Hypothesis plain_body : plain_functions body.
Hypothesis P : portable body prog.
Hypothesis Sc : scoped prog.

Lemma complete b : suits b body prog -> forall c x i, nth_error prog c = Some x -> i < outs x -> exists r, shows b body prog c i r.
Proof.
  intros Su c x i N L. destruct b; cbn in Su |- *.
  - exact (seq_done body prog plain_body P Sc Su c x i N L).
  - exact (pymp_done body prog plain_body P Sc c x i N L).
  - exact (ray_done body prog P Sc c x i N L).
  - exact (dask_done body prog P Sc c x i N L).
  - exact (mpi_done body prog plain_body P Sc Su c x i N L).
Qed.

Lemma exactly b : suits b body prog -> forall c x i v, nth_error prog c = Some x -> i < outs x -> result_of (direct body prog) c i = Some (Ret v) ->
  forall r, shows b body prog c i r <-> r = Ret v.
Proof.
  intros Su c x i v N L D r. split; [apply values; auto|]. intros ->. destruct (complete b Su c x i N L) as (r & S0). now rewrite <- (values body prog plain_body P b c i v r D S0).
Qed.

Lemma raises b : suits b body prog -> forall c x i e, nth_error prog c = Some x -> i < outs x -> result_of (direct body prog) c i = Some (Exn e) ->
  exists e' r, shows b body prog c i r /\ (r = Exn e' \/ b = Mpi /\ r = Ret (VExc e')).
Proof.
  intros Su c x i e N L D. destruct (complete b Su c x i N L) as (r & S0). assert (X := exceptions body prog plain_body P b c i e r D S0).
  destruct b; try (exists e, r; auto; fail).
  - destruct X as (e' & X). eauto 6.
  - exists e, r. destruct X; auto.
Qed.

Lemma everywhere b b' : suits b' body prog -> forall c x i v, nth_error prog c = Some x -> i < outs x -> shows b body prog c i (Ret v) -> is_exc v = false -> shows b' body prog c i (Ret v).
Proof.
  intros Su c x i v N L S0 X. destruct (complete b' Su c x i N L) as (r & S1). now rewrite <- (same body prog plain_body P b b' c i v r S0 X S1).
Qed.
End All.

(** ** A concrete program *)
Lemma p_scoped : scoped pprog.
Proof.
  intros pre f args kw n post c i E I.
  destruct pre as [|x0 pre]; [discriminate|]. injection E as <- E. destruct pre as [|x1 pre].
  - injection E as <- <- <- <- <-. cbn in I. destruct I as [I|[I|[]]]; [|discriminate]. injection I as <- <-. exists (CPut (VLeaf 3)). split; [reflexivity|cbn; lia].
  - injection E as <- E. destruct pre as [|x2 pre].
    + injection E as <- <- <- <- <-. cbn in I. destruct I as [I|[I|[]]]; injection I as <- <-; eexists; (split; [reflexivity|cbn; lia]).
    + injection E as <- E. destruct pre as [|x3 pre]; [injection E as <- <- <- <- <-; destruct I|]. injection E as <- E. destruct pre; discriminate.
Qed.

Lemma p_suits b : suits b zbody pprog.
Proof.
  destruct b; cbn [suits]; auto.
  - intros f args kw n c i I J. cbn in I. destruct I as [I|[I|[I|[I|[]]]]]; try discriminate; injection I as <- <- <- <-; cbn in J.
    + destruct J as [J|[J|[]]]; [|discriminate]. injection J as <- <-. eexists. reflexivity.
    + destruct J as [J|[J|[]]]; injection J as <- <-; eexists; reflexivity.
    + destruct J.
  - intros x I. cbn in I. destruct I as [<-|[<-|[<-|[<-|[]]]]]; cbn; lia.
Qed.

(** The result of a function that raises is handed to another one. *)
Definition rprog : list pcall := [CFun 1 [] [] 1; CFun 0 [AOut 0 0] [] 1].
Lemma r_portable : portable zbody rprog.
Proof.
  split; [|split].
  - intros v [E|[E|[]]]; discriminate.
  - intros f args kw n v [E|[E|[]]] I; injection E as <- <- <- <-; cbn in I; [destruct I|destruct I as [I|[]]; discriminate].
  - intros f args kw n vs ks v [E|[E|[]]] _; injection E as <- <- <- <-; left; lia.
Qed.
Lemma r_scoped : scoped rprog.
Proof.
  intros pre f args kw n post c i E I. destruct pre as [|x0 pre]; [injection E as <- <- <- <- <-; destruct I|]. injection E as <- E. destruct pre as [|x1 pre].
  - injection E as <- <- <- <- <-. cbn in I. destruct I as [I|[]]. injection I as <- <-. eexists. split; [reflexivity|cbn; lia].
  - injection E as <- E. destruct pre; discriminate.
Qed.
Lemma r_never c i r : ~ shows PySeq zbody rprog c i r.
Proof. apply (seq_never zbody rprog r_portable [CFun 1 [] [] 1] 0 [AOut 0 0] [] 1 [] 0 0 9); auto. now left. Qed.
Lemma r_others b : b <> PySeq -> forall c i, c < 2 -> i = 0 -> exists e r, shows b zbody rprog c i r /\ (r = Exn e \/ b = Mpi /\ r = Ret (VExc e)).
Proof.
  intros N c i L ->. assert (Su : suits b zbody rprog). { destruct b; cbn; auto; [congruence|]. intros x [<-|[<-|[]]]; cbn; lia. }
  destruct c as [|[|c]]; [| |lia]; eapply (raises zbody rprog z_plain r_portable r_scoped b Su); try reflexivity; cbn; lia.
Qed.

(** MPI: the state after the whole program has been executed by the root, before a worker takes a message. *)
From Verif Require Import ClusterModel ClusterSpec ClusterSeq ClusterCases.
From Verif Require ClusterClean ClusterRoot.
Definition cc0 : cst := crun [2; 3] WorkerCases.xbody cmgr (map CRoot cprog1).
Lemma cc0_prog : c_prog cc0 = cprog1. Proof. vm_compute. reflexivity. Qed.
Lemma cc0_case : valid [2; 3] (c_prog cc0) /\ tidy (c_prog cc0) /\ returns_enough WorkerCases.xbody (c_prog cc0) /\ ~ idle cc0 /\ c_left cc0 = 2.
Proof.
  assert (E : c_prog cc3 = cprog1 ++ ctail3) by exact cc3_prog. rewrite cc0_prog. split; [|split; [|split; [|split]]].
  - apply (valid_prefix _ cprog1 ctail3). rewrite <- E. exact cc3_valid.
  - apply (ClusterClean.tidy_prefix cprog1 ctail3). rewrite <- E. exact cc3_tidy.
  - apply (ClusterRoot.enough_prefix _ cprog1 ctail3). rewrite <- E. exact cc3_enough.
  - intros Id. assert (X : length (c_chan cc0 0 2) = 0) by (rewrite Id; reflexivity). vm_compute in X. discriminate.
  - vm_compute. reflexivity.
Qed.
