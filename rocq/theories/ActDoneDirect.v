(** Runs can be completed, with the results of direct execution. *)
From Verif Require Import Lib ValModel ShmModel PushModel PushProofs WorkerModel WorkerSpec WorkerCases MonModel ClusterModel ClusterSpec ClusterCases ClusterSeq ClusterProofs
  ClusterCount ClusterRoot ClusterNet ClusterEnd ActModel ActSpec ActGives ActProofs ActCount ActRoot ActNet ActEnd ActCases
  ActWaitSpec ActWaitDirect ActHeldDirect ActHeldCases ActDone.

Lemma valid_scoped workers prog : gvalid prog -> valid workers (map as_task prog) -> scoped prog.
Proof.
  intros G V a p b E d I. subst prog. rewrite (map_app as_task) in V. cbn [map] in V.
  rewrite <- intro_as. destruct p as [o|w nd q]; cbn [gneeds] in I.
  - destruct o; try destruct I. cbn [as_task] in V. destruct (v_sub _ _ V _ _ _ _ eq_refl) as (_ & (fd & F & P) & Q).
    rewrite F in I. destruct I as [<-|I]; auto.
    clear - P. unfold puts in P. apply in_flat_map in P as (o & O & P). apply in_flat_map. exists o. split; auto.
    destruct o; simpl in *; tauto.
  - cbn [as_task] in V. destruct (v_sub _ _ V _ _ _ _ eq_refl) as (_ & _ & Q). apply Q. exact I.
Qed.

Lemma completed_direct workers body mbody is_async :
  (forall f a k, no_refs_returned (body f a k)) -> (forall h c, no_refs_returned (mbody h c)) ->
  (forall c, is_async c = false) -> ~ In 0 workers -> NoDup workers ->
  forall mgr ops r, let prog := g_prog (grun workers body mbody is_async mgr ops) ++ r in
  gvalid prog -> valid workers (map as_task prog) -> tidy (map as_task prog) -> (forall ds, ~ In (GP (RClean ds)) prog) ->
  greturns_enough body mbody prog -> separate prog -> (forall seen, waits_or_holds prog seen) ->
  exists more, let g := grun workers body mbody is_async mgr (ops ++ more) in g_prog g = prog /\ c_left (g_c g) = 0 /\
    gets_over (c_seen (g_c g)) = gets_of (map as_task prog) /\
    (forall ds vs, In (RGot ds vs) (c_seen (g_c g)) -> Forall2 (fun d v => dvals (direct body mbody prog) d = Some v) ds vs) /\
    (forall ds e, In (RRaised ds e) (c_seen (g_c g)) -> exists d, In d ds /\ dvals (direct body mbody prog) d = Some (VExc e)).
Proof.
  cbv zeta. intros Bo Mo Sy N0 ND mgr ops r F1 F2 F3 F4 F5 F6 W.
  destruct (can_be_completed workers body mbody is_async Bo Mo Sy N0 ND mgr ops r F1 F2 F3 F4 F5 F6) as (more & E & _ & L & NE & G & _).
  exists more. cbv zeta in *. rewrite <- E in *. split; [reflexivity|]. split; [exact L|]. split; [exact G|].
  apply (orderly_direct workers body mbody is_async Bo Mo mgr (ops ++ more) ND Sy F1); auto.
  - eapply placed_valid; eauto.
  - eapply valid_scoped; eauto.
Qed.

(** The first five operations of the program, nothing delivered. *)
Definition aopsj : list gop := map GRoot (firstn 5 aprogh).
Notation agj := (grun [2; 3] xbody xmbody xsync cmgr aopsj).

Lemma aprogh_enough : greturns_enough xbody xmbody aprogh.
Proof.
  split.
  - intros dest q fd f a k H _ _. simpl in H.
    repeat (destruct H as [H|H]; [first [discriminate H | injection H as <- <-; split; [discriminate|exact Logic.I]]|]). destruct H.
  - intros dest nd q m h a k H _. simpl in H.
    repeat (destruct H as [H|H]; [first [discriminate H |
      injection H as <- <- <-; split; [discriminate|]; eexists; split; [reflexivity|simpl; auto]]|]). destruct H.
Qed.

Lemma aprogh_separate : separate aprogh.
Proof.
  intros w q nd q' H H'. simpl in H, H'.
  repeat (destruct H as [H|H]; [first [discriminate H | injection H as <- <-;
    repeat (destruct H' as [H'|H']; [discriminate H'|]); destruct H']|]). destruct H.
Qed.

Lemma aprogh_always seen : waits_or_holds aprogh seen.
Proof.
  intros a w nd1 q1 b nd2 q2 d E.
  do 10 (destruct a as [|? a]; [first
    [ discriminate E
    | injection E as <- <- <- E; destruct b as [|p b]; [discriminate|]; injection E as <- E; destruct b; discriminate
    | solve [injection E as <- <- <- E; right; intros x []]
    | solve [injection E as <- <- <- E; right; intros x [<-|[]]; split;
        [left; exists (VLeaf 5); simpl; auto|]; split; [simpl; intuition discriminate|];
        intros ds J; simpl in J; repeat (destruct J as [J|J]; [discriminate|]); destruct J]
    | injection E as <- <- <- E; destruct b as [|p b]; [discriminate|]; injection E as <- _; left; exists v, [v];
        split; [simpl; auto|]; split; [simpl; auto|]; split; [simpl; auto|]; auto ]
    |injection E as <- E]).
  destruct a; discriminate.
Qed.

Lemma agj_facts : g_prog agj = firstn 5 aprogh /\ c_seen (g_c agj) = [] /\ length (c_chan (g_c agj) 0 3) = 4.
Proof. vm_compute. auto. Qed.

Lemma completed_case : let prog := g_prog agj ++ skipn 5 aprogh in
  gvalid prog /\ valid [2; 3] (map as_task prog) /\ tidy (map as_task prog) /\ (forall ds, ~ In (GP (RClean ds)) prog) /\
  greturns_enough xbody xmbody prog /\ separate prog /\ (forall seen, waits_or_holds prog seen) /\
  gets_of (map as_task prog) = [[v]; [y; z; (1, 2); (1, 0)]] /\ c_seen (g_c agj) = [] /\ length (c_chan (g_c agj) 0 3) = 4.
Proof.
  cbv zeta. assert (F := agj_facts). set (g := grun _ _ _ _ _ _) in *. clearbody g. destruct F as (P & Sn & L).
  rewrite P, Sn, L, (firstn_skipn 5 aprogh).
  split; [prove_gvalid|]. split; [unfold aprogh, nm; simpl map; prove_valid|]. split; [prove_tidy|].
  split; [intros ds; simpl; intuition discriminate|]. split; [exact aprogh_enough|]. split; [exact aprogh_separate|].
  split; [exact aprogh_always|]. split; [reflexivity|]. auto.
Qed.
