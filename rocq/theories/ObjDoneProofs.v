(** C99, completeness: the backends together. *)
From Verif Require Import Lib ValModel PyseqModel PyseqSpec PyseqCases PortSpec PortHist ObjSpec ObjBack ObjCases ObjDoneSpec ObjDone ObjDonePymp ObjDoneSeq ObjDoneDask.
From Verif Require PortCases PympCases.

Section All.
Variable body cbody : nat -> list val -> kwargs -> res.
Variable mbody : nat -> val -> list val -> kwargs -> res * val.
Variable prog : list ocall.
Hypothesis Pb : plain_bodies body mbody.
Hypothesis Po : oportable body cbody mbody prog.
Hypothesis Sc : oscoped prog.

(** What direct execution gives can be read. *)
Lemma ogives b : osuits b body cbody mbody prog -> forall c x i, nth_error prog c = Some x -> i < oouts x ->
  exists r, result_of (fst (odirect body cbody mbody prog)) c i = Some r /\ oshows b body cbody mbody prog c i r.
Proof.
  intros Su c x i N L. assert (W : forall b', b' <> OnDask -> (exists r, oshows b' body cbody mbody prog c i r) ->
    exists r, result_of (fst (odirect body cbody mbody prog)) c i = Some r /\ oshows b' body cbody mbody prog c i r).
  { intros b' B (r & S0). exists r. split; [|exact S0]. exact (all_direct _ _ _ _ Po _ _ _ _ B S0). }
  destruct b; cbn in Su.
  - apply W; [discriminate|]. now apply (oseq_done body cbody mbody prog Pb Po Sc Su c x i).
  - apply W; [discriminate|]. now apply (opymp_done body cbody mbody prog Pb Po Sc c x i).
  - apply W; [discriminate|]. now apply (oray_done body cbody mbody prog Po Sc c x i).
  - now apply (odask_done body cbody mbody prog Po Sc c x i).
Qed.

Lemma ocomplete b : osuits b body cbody mbody prog -> forall c x i, nth_error prog c = Some x -> i < oouts x -> exists r, oshows b body cbody mbody prog c i r.
Proof. intros Su c x i N L. destruct (ogives b Su c x i N L) as (r & _ & S0). eauto. Qed.

Lemma oexactly b : b <> OnDask -> osuits b body cbody mbody prog -> forall c x i, nth_error prog c = Some x -> i < oouts x ->
  forall r, oshows b body cbody mbody prog c i r <-> result_of (fst (odirect body cbody mbody prog)) c i = Some r.
Proof.
  intros B Su c x i N L r. split; [now apply all_direct|].
  intros E. destruct (ogives b Su c x i N L) as (r' & E' & S0). rewrite E in E'. injection E' as ->. exact S0.
Qed.

Lemma oeverywhere b b' : b <> OnDask -> osuits b' body cbody mbody prog -> forall c x i, nth_error prog c = Some x -> i < oouts x ->
  forall r, oshows b body cbody mbody prog c i r -> oshows b' body cbody mbody prog c i r.
Proof.
  intros B Su c x i N L r S0. destruct (ogives b' Su c x i N L) as (r' & E' & S1). assert (E := all_direct _ _ _ _ Po _ _ _ _ B S0). rewrite E in E'. now injection E' as ->.
Qed.
End All.

Lemma o_plain : plain_bodies zbody zmbody.
Proof.
  split; [exact PortCases.z_plain|]. intros m s vs ks v s' E. unfold PympCases.zmbody in E. destruct m; [|discriminate]. injection E as <- <-. apply PortCases.leaf_plain.
Qed.

Lemma o_scoped : oscoped oprog.
Proof.
  intros pre x post E. unfold oprog in E.
  assert (T : forall c i l, In (AOut c i) l -> forallb (fun y => match y with AOut a b => match nth_error pre a with Some z => Nat.ltb b (oouts z) | None => false end | _ => true end) l = true ->
    exists y, nth_error pre c = Some y /\ i < oouts y).
  { intros c i l I F. apply (proj1 (forallb_forall _ _) F) in I. cbn in I. destruct (nth_error pre c) as [z|]; [|discriminate]. exists z. split; [reflexivity|]. now apply Nat.ltb_lt. }
  assert (Done : forall y, x = y -> forallb (fun y => match y with AOut a b => match nth_error pre a with Some z => Nat.ltb b (oouts z) | None => false end | _ => true end) (oargs y) = true ->
    match y with TMeth a _ _ _ _ => Nat.ltb a (makes pre) | _ => true end = true ->
    (forall c i, In (AOut c i) (oargs x) -> exists y, nth_error pre c = Some y /\ i < oouts y) /\ (forall a m args kw n, x = TMeth a m args kw n -> a < makes pre)).
  { intros y -> F M. split; [intros c i I; exact (T c i _ I F)|]. intros a m args kw n ->. now apply Nat.ltb_lt. }
  destruct pre as [|x0 pre]; [injection E; intros; eapply Done; [symmetry; eassumption|reflexivity|reflexivity]|]. 
  destruct pre as [|x1 pre]; [injection E; intros; subst x0; eapply Done; [symmetry; eassumption|reflexivity|reflexivity]|].
  destruct pre as [|x2 pre]; [injection E; intros; subst x0 x1; eapply Done; [symmetry; eassumption|reflexivity|reflexivity]|].
  destruct pre as [|x3 pre]; [injection E; intros; subst x0 x1 x2; eapply Done; [symmetry; eassumption|reflexivity|reflexivity]|].
  destruct pre as [|x4 pre]; [injection E; intros; subst x0 x1 x2 x3; eapply Done; [symmetry; eassumption|reflexivity|reflexivity]|].
  destruct pre as [|x5 pre]; [injection E; intros; subst x0 x1 x2 x3 x4; eapply Done; [symmetry; eassumption|reflexivity|reflexivity]|].
  injection E. intros H. destruct pre; discriminate.
Qed.

Lemma o_fine : oarguments_fine zbody xcbody zmbody oprog.
Proof.
  intros x c i I J. rewrite o_direct. cbn [fst]. unfold oprog in I.
  repeat (destruct I as [<-|I]; [cbn in J; repeat (destruct J as [J|J]; [try discriminate; injection J as <- <-; eexists; reflexivity|]); destruct J|]). destruct I.
Qed.
