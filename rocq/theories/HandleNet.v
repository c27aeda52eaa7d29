(** Handles passed between processes: nobody asks for an actor that is not there yet, if calls are licensed. *)
From Verif Require Import Lib ValModel WorkerModel WorkerSpec WorkerLog HandleModel HandleSpec HandleExt HandleProofs HandleThms.

Section Net.
Variable C : classes.
Variable body : val -> val -> val -> result.
Variable fco : val -> bool.

Definition here (x : hst C) (h : dataid) : Prop := In h (map a_handle (hmade x)).

Lemma here_step self x m x' h : hstep C self body fco x m = Lives x' -> here x h -> here x' h.
Proof using Type.
  intros H. destruct m as [m|h' c a k|h' nd q]; simpl in H.
  - destruct (direct m); [injection H as <-; auto|]. unfold inner in H. destruct (wstep _ _ _ _ _ _); [|discriminate].
    injection H as <-. auto.
  - destruct (ready (hw x)); [injection H as <-; auto|]. destruct (construct C c a k); [|discriminate].
    injection H as <-. unfold here. simpl. rewrite map_app, in_app_iff. auto.
  - destruct (ready (hw x)); [injection H as <-; auto|]. destruct (store (hw x) nd) as [[]|]; try discriminate.
    destruct (lookup (hmade x) h' 0); [|discriminate]. destruct (nth_error (hmade x) n0); [|discriminate].
    destruct (has C _ n); [|discriminate]. unfold inner in H. destruct (wstep _ _ _ _ _ _); [|discriminate].
    injection H as <-. auto.
Qed.

Lemma ready_step self x m x' : hstep C self body fco x m = Lives x' -> ready (hw x) = true -> ready (hw x') = true.
Proof using Type.
  intros H R. destruct (ready (hw x')) eqn:R'; auto. rewrite (ready_keeps C self body fco x m x' H R') in R. auto.
Qed.

Lemma create_step self x h c a k x' : hstep C self body fco x (HCreate h c a k) = Lives x' ->
  here x' h \/ ready (hw x') = true.
Proof using Type.
  simpl. destruct (ready (hw x)) eqn:R; [intros H; injection H as <-; auto|].
  destruct (construct C c a k); [|discriminate]. intros H; injection H as <-. left. unfold here. simpl.
  rewrite map_app, in_app_iff. simpl. auto.
Qed.

Lemma dies_handle self x m : hstep C self body fco x m = Dies DHandle ->
  exists h nd q, m = HCall h nd q /\ ready (hw x) = false /\ ~ here x h.
Proof using Type.
  destruct m as [m|h c a k|h nd q]; simpl.
  - destruct (direct m); [discriminate|]. unfold inner. destruct (wstep _ _ _ _ _ _); discriminate.
  - destruct (ready (hw x)); [discriminate|]. destruct (construct C c a k); discriminate.
  - destruct (ready (hw x)) eqn:R; [discriminate|]. destruct (store (hw x) nd) as [[]|]; try discriminate.
    destruct (lookup (hmade x) h 0) as [i|] eqn:L.
    + apply lookup_spec in L as (_ & y & Hy & _). rewrite Nat.sub_0_r in Hy. rewrite Hy.
      destruct (has C _ n); [|discriminate]. unfold inner. destruct (wstep _ _ _ _ _ _); discriminate.
    + intros _. apply lookup_none in L. eauto 6.
Qed.

(** The actor is there, or the worker will not look for it. *)
Definition settled (s : nst C) (w : rank) (h : dataid) : Prop :=
  here (n_work s w) h \/ ready (hw (n_work s w)) = true \/ n_dead s w <> None.

Definition creates_in (h : dataid) (l : list letter) : Prop :=
  exists x c a k, In x l /\ l_msg x = HCreate h c a k.

Record NI (s : nst C) : Prop := {
  ni_maker : forall h p, n_maker s h = Some p -> exists w, n_where s h = Some w /\ w <> 0 /\
    (settled s w h \/ creates_in h (n_chan s p w));
  ni_built : forall p h, In h (n_built s p) -> exists w, n_where s h = Some w /\ w <> 0 /\ settled s w h;
  ni_letters : forall p d x h, In x (n_chan s p d) -> In h (l_built x) -> exists w, n_where s h = Some w /\ w <> 0 /\ settled s w h;
  ni_calls : forall p d a x b h nd q, n_chan s p d = a ++ x :: b -> l_msg x = HCall h nd q ->
    n_where s h = Some d /\ d <> 0 /\ (settled s d h \/ creates_in h a);
  ni_create : forall p d x h c a k, In x (n_chan s p d) -> l_msg x = HCreate h c a k -> n_where s h = Some d /\ d <> 0;
  ni_where : forall h w, n_where s h = Some w -> w <> 0;
  ni_dead : forall d, n_dead s d <> Some DHandle
}.

Lemma ni_init : NI n_init.
Proof using Type.
  clear body fco. split; simpl; try discriminate; try tauto.
  intros p d a x b h nd q H. destruct a; discriminate.
Qed.

(** Only sending: one letter, or two, at the end of a channel. *)
Lemma at_pair_cases {A} (f : rank -> rank -> A) r s a x y :
  (x = r /\ y = s /\ at_pair f r s a x y = a) \/ at_pair f r s a x y = f x y.
Proof using Type.
  unfold at_pair. destruct (Nat.eqb x r) eqn:E1; destruct (Nat.eqb y s) eqn:E2; simpl; auto.
  apply Nat.eqb_eq in E1. apply Nat.eqb_eq in E2. auto.
Qed.
Lemma at_rank_same {A} (f : rank -> A) r a : at_rank f r a r = a.
Proof using Type. unfold at_rank. rewrite Nat.eqb_refl. auto. Qed.
Lemma at_rank_cases {A} (f : rank -> A) r a x : (x = r /\ at_rank f r a x = a) \/ (x <> r /\ at_rank f r a x = f x).
Proof using Type. unfold at_rank. destruct (Nat.eqb x r) eqn:E1; [apply Nat.eqb_eq in E1|apply Nat.eqb_neq in E1]; auto. Qed.

Lemma snoc_split {A} (l : list A) y a x b : l ++ [y] = a ++ x :: b -> (a = l /\ x = y /\ b = []) \/ (exists b', b = b' ++ [y] /\ l = a ++ x :: b').
Proof using Type.
  intros H. destruct b as [|z b] using rev_ind.
  - apply app_inj_tail in H as [-> ->]. auto.
  - right. clear IHb. rewrite app_comm_cons, app_assoc in H. apply app_inj_tail in H as [-> ->]. eauto.
Qed.

Lemma creates_app h l l' : creates_in h l -> creates_in h (l ++ l').
Proof using Type. intros (x & c & a & k & H & E). exists x, c, a, k. split; auto. apply in_or_app; auto. Qed.

(** A letter is added to a channel, nothing else changes but possibly what p knows and a new actor. *)
Lemma ni_add s s' p d x : NI s ->
  n_work s' = n_work s -> n_dead s' = n_dead s -> n_built s' = n_built s -> n_where s' = n_where s -> n_maker s' = n_maker s ->
  n_chan s' = at_pair (n_chan s) p d (n_chan s p d ++ [x]) -> l_built x = n_built s p ->
  (forall h nd q, l_msg x = HCall h nd q -> n_where s h = Some d /\ d <> 0 /\ (settled s d h \/ creates_in h (n_chan s p d))) ->
  (forall h c a k, l_msg x = HCreate h c a k -> n_where s h = Some d /\ d <> 0) ->
  NI s'.
Proof using Type.
  intros [A B L Cl Cr Wh D] Ew Ed Eb Eh Em Ec Xb Xc Xk.
  assert (St : forall w h, settled s' w h <-> settled s w h) by (intros; unfold settled; rewrite Ew, Ed; tauto).
  assert (Ch : forall h p0 w, creates_in h (n_chan s p0 w) -> creates_in h (n_chan s' p0 w)).
  { intros h p0 w H. rewrite Ec. destruct (at_pair_cases (n_chan s) p d (n_chan s p d ++ [x]) p0 w) as [(-> & -> & ->)| ->]; auto.
    apply creates_app; auto. }
  split; rewrite ?Ed, ?Eh, ?Em, ?Eb; auto.
  - intros h p0 H. destruct (A h p0 H) as (w & H1 & H2 & H3). exists w. rewrite St. intuition.
  - intros p0 h H. destruct (B p0 h H) as (w & H1 & H2 & H3). exists w. rewrite St. auto.
  - intros p0 d0 y h Hy Hh. assert (exists w, n_where s h = Some w /\ w <> 0 /\ settled s w h) as (w & H1 & H2 & H3).
    { rewrite Ec in Hy. destruct (at_pair_cases (n_chan s) p d (n_chan s p d ++ [x]) p0 d0) as [(-> & -> & E)| E]; rewrite E in Hy; eauto.
      apply in_app_or in Hy as [Hy|[<-|[]]]; eauto. rewrite Xb in Hh. eauto. }
    exists w. rewrite St. auto.
  - intros p0 d0 a y b h nd q E M. rewrite Ec in E.
    assert (n_where s h = Some d0 /\ d0 <> 0 /\ (settled s d0 h \/ creates_in h a)) as (H1 & H2 & H3).
    { destruct (at_pair_cases (n_chan s) p d (n_chan s p d ++ [x]) p0 d0) as [(-> & -> & E')| E']; rewrite E' in E; [|eapply Cl; eauto].
      apply snoc_split in E as [(-> & -> & ->)|(b' & -> & E)]; [eapply Xc; eauto|eapply Cl; eauto]. }
    rewrite St. auto.
  - intros p0 d0 y h c a k Hy M. rewrite Ec in Hy.
    destruct (at_pair_cases (n_chan s) p d (n_chan s p d ++ [x]) p0 d0) as [(-> & -> & E')| E']; rewrite E' in Hy; [|eapply Cr; eauto].
    apply in_app_or in Hy as [Hy|[<-|[]]]; [eapply Cr; eauto|eapply Xk; eauto].
Qed.

Lemma ni_knows s f : NI s ->
  NI {| n_work := n_work s; n_dead := n_dead s; n_chan := n_chan s; n_knows := f; n_where := n_where s; n_maker := n_maker s; n_built := n_built s |}.
Proof using Type. intros [A B L Cl Cr Wh D]. split; auto. Qed.

Lemma ni_take s src d l r : NI s -> n_chan s src d = l :: r -> n_dead s d = None -> NI (nstep C body fco s (NTake src d)).
Proof using Type.
  intros I Ec Ed. simpl. rewrite Ec, Ed.
  assert (Hl : In l (n_chan s src d)) by (rewrite Ec; simpl; auto).
  assert (Sub : forall p0 d0 x, In x (at_pair (n_chan s) src d r p0 d0) -> In x (n_chan s p0 d0)).
  { intros p0 d0 x H. destruct (at_pair_cases (n_chan s) src d r p0 d0) as [(-> & -> & E)| E]; rewrite E in H; auto.
    rewrite Ec. simpl; auto. }
  (* an actor whose creation was at the head of this channel *)
  assert (Go : forall (s' : nst C), n_where s' = n_where s -> n_maker s' = n_maker s -> n_chan s' = at_pair (n_chan s) src d r ->
    (forall w h, settled s w h -> settled s' w h) ->
    (forall h c a k, l_msg l = HCreate h c a k -> settled s' d h) ->
    (forall p h, In h (n_built s' p) -> In h (n_built s p) \/ (p = d /\ In h (l_built l)) \/
       (p = d /\ d <> 0 /\ n_where s h = Some d /\ settled s' d h)) ->
    (forall x, n_dead s' x <> Some DHandle) -> NI s').
  { intros s' Eh Em Eh' Mono Cd Bd Dd. destruct I as [A B L Cl Cr Wh D].
    assert (Cs : forall p0 d0 h, n_where s h = Some d0 -> creates_in h (n_chan s p0 d0) -> settled s' d0 h \/ creates_in h (n_chan s' p0 d0)).
    { intros p0 d0 h Hw (x & c & a & k & Hx & M). rewrite Eh'.
      destruct (at_pair_cases (n_chan s) src d r p0 d0) as [(-> & -> & E)| E]; rewrite E.
      - rewrite Ec in Hx. destruct Hx as [<-|Hx]; [left; eapply Cd; eauto|]. right. exists x, c, a, k. auto.
      - right. exists x, c, a, k. auto. }
    split; auto.
    - intros h p0 H. rewrite Em in H. destruct (A h p0 H) as (w & H1 & H2 & H3). exists w. rewrite Eh. split; auto. split; auto.
      destruct H3 as [H3|H3]; [left; auto|]. destruct (Cs p0 w h H1 H3); auto.
    - intros p0 h H. rewrite Eh. destruct (Bd p0 h H) as [X|[(-> & X)|(-> & X1 & X2 & X3)]].
      + destruct (B p0 h X) as (w & H1 & H2 & H3). exists w. auto.
      + destruct (L src d l h Hl X) as (w & H1 & H2 & H3). exists w. auto.
      + exists d. auto.
    - intros p0 d0 x h Hx Hh. rewrite Eh. rewrite Eh' in Hx. apply Sub in Hx. destruct (L p0 d0 x h Hx Hh) as (w & H1 & H2 & H3).
      exists w. auto.
    - intros p0 d0 a x b h nd q E M. rewrite Eh. rewrite Eh' in E.
      destruct (at_pair_cases (n_chan s) src d r p0 d0) as [(-> & -> & E')| E']; rewrite E' in E.
      + assert (E2 : n_chan s src d = (l :: a) ++ x :: b) by (rewrite Ec, E; auto).
        destruct (Cl _ _ _ _ _ _ _ _ E2 M) as (H1 & H2 & H3). split; auto. split; auto.
        destruct H3 as [H3|(y & c & a0 & k & [<-|Hy] & M')]; [left; auto|left; eapply Cd; eauto|].
        right. exists y, c, a0, k. auto.
      + destruct (Cl _ _ _ _ _ _ _ _ E M) as (H1 & H2 & H3). intuition.
    - intros p0 d0 x h c a k Hx M. rewrite Eh. rewrite Eh' in Hx. apply Sub in Hx. eapply Cr; eauto.
    - intros h w. rewrite Eh. eauto. }
  destruct (Nat.eqb d 0) eqn:E0.
  - apply Nat.eqb_eq in E0. subst d. apply Go; simpl; auto.
    + intros h c a k M. exfalso. apply (proj2 (ni_create _ I _ _ _ _ _ _ _ Hl M)). auto.
    + intros p h H. destruct (at_rank_cases (n_built s) 0 (n_built s 0 ++ l_built l) p) as [(-> & E)|(Hn & E)]; rewrite E in H; auto.
      apply in_app_or in H as [H|H]; auto.
    + apply I.
  - apply Nat.eqb_neq in E0. destruct (hstep C d body fco (n_work s d) (l_msg l)) as [x|why] eqn:E.
    + apply Go; simpl; auto.
      * intros w h [H|[H|H]]; unfold settled; simpl; auto;
          destruct (at_rank_cases (n_work s) d x w) as [(-> & E')|(Hn & E')]; rewrite E'; auto.
        -- left. eapply here_step; eauto.
        -- right. left. eapply ready_step; eauto.
      * intros h c a k M. rewrite M in E. unfold settled. simpl. rewrite at_rank_same. apply create_step in E. tauto.
      * intros p h H.
        destruct (at_rank_cases (at_rank (n_built s) d (n_built s d ++ l_built l)) d
                    (at_rank (n_built s) d (n_built s d ++ l_built l) d ++ just_built C (n_work s d) (l_msg l)) p) as [(-> & E')|(Hn & E')];
          rewrite E' in H; clear E'.
        -- rewrite at_rank_same in H. apply in_app_or in H as [H|H]; [apply in_app_or in H as [H|H]; auto|].
           right. right. destruct (l_msg l) as [m|h' c a k|h' nd q] eqn:M; simpl in H; try destruct H.
           destruct (ready (hw (n_work s d))) eqn:R; [destruct H|]. destruct H as [<-|[]].
           split; auto. split; auto. split; [eapply ni_create; eauto|].
           unfold settled. simpl. rewrite at_rank_same. apply create_step in E. tauto.
        -- destruct (at_rank_cases (n_built s) d (n_built s d ++ l_built l) p) as [(-> & E2)|(Hn2 & E2)]; rewrite E2 in H; auto; tauto.
      * apply I.
    + apply Go; simpl; auto.
      * intros w h [H|[H|H]]; unfold settled; simpl; auto. right. right.
        destruct (at_rank_cases (n_dead s) d (Some why) w) as [(-> & E')|(Hn & E')]; rewrite E'; auto.
      * intros h c a k M. unfold settled. simpl. rewrite at_rank_same. right. right. discriminate.
      * intros p h H. destruct (at_rank_cases (n_built s) d (n_built s d ++ l_built l) p) as [(-> & E2)|(Hn2 & E2)]; rewrite E2 in H; auto.
        apply in_app_or in H as [H|H]; auto.
      * intros y. destruct (at_rank_cases (n_dead s) d (Some why) y) as [(-> & E')|(Hn & E')]; rewrite E'; [|apply I].
        intros Hw. injection Hw as ->. apply dies_handle in E as (h & nd & q & M & R & Hh).
        destruct (ni_calls _ I src d [] l r h nd q) as (_ & _ & [[X|[X|X]]|(z & _ & _ & _ & [] & _)]); auto; congruence.
Qed.

Lemma ni_step s o : NI s ->
  (forall p h nd n q, o = NCall p h nd n q -> n_maker s h = Some p \/ In h (n_built s p)) ->
  NI (nstep C body fco s o).
Proof using Type.
  intros I Lic. destruct o as [p w h c a k|p h nd n q|p d m hs|src d].
  - simpl. destruct (n_where s h) eqn:Ew; auto. destruct w as [|w]; auto. set (w1 := S w). assert (w1 <> 0) by discriminate.
    set (s0 := {| n_work := n_work s; n_dead := n_dead s; n_chan := n_chan s; n_knows := n_knows s;
                  n_where := dput (n_where s) h w1; n_maker := n_maker s; n_built := n_built s |}).
    assert (Old : forall h' w', n_where s h' = Some w' -> dput (n_where s) h w1 h' = Some w').
    { intros h' w' H'. rewrite dput_other; auto. intros ->. congruence. }
    assert (I0 : NI s0).
    { destruct I as [A B L Cl Cr Wh D]. split; simpl; auto.
      - intros h' p' H'. destruct (A h' p' H') as (w' & H1 & H2 & H3). exists w'. auto.
      - intros p' h' H'. destruct (B p' h' H') as (w' & H1 & H2 & H3). exists w'. auto.
      - intros p' d' x h' H1 H2. destruct (L p' d' x h' H1 H2) as (w' & H3 & H4 & H5). exists w'. auto.
      - intros p' d' a' x b h' nd q H1 H2. destruct (Cl p' d' a' x b h' nd q H1 H2) as (H3 & H4 & H5). auto.
      - intros p' d' x h' c' a' k' H1 H2. destruct (Cr p' d' x h' c' a' k' H1 H2) as (H3 & H4). auto.
      - intros h' w' H'. destruct (did_dec h' h) as [->|Hn]; [rewrite dput_same in H'; apply Some_inj in H' as <-; auto|].
        rewrite dput_other in H' by auto. eauto. }
    set (l := {| l_msg := HCreate h c a k; l_handles := []; l_built := n_built s p |}).
    set (s1 := {| n_work := n_work s; n_dead := n_dead s; n_chan := at_pair (n_chan s) p w1 (n_chan s p w1 ++ [l]); n_knows := n_knows s;
                  n_where := dput (n_where s) h w1; n_maker := n_maker s; n_built := n_built s |}).
    assert (I1 : NI s1).
    { apply (ni_add s0 s1 p w1 l); auto; try discriminate.
      intros h' c' a' k' E. injection E as <- <- <- <-. simpl. rewrite dput_same. auto. }
    destruct I1 as [A B L Cl Cr Wh D]. split; auto. simpl.
    intros h' p' H'. destruct (did_dec h' h) as [->|Hn].
    + rewrite dput_same in H'. apply Some_inj in H' as <-. exists w1. rewrite dput_same. split; auto. split; auto.
      right. unfold n_send, at_pair. rewrite !Nat.eqb_refl. simpl. exists l, c, a, k. split; auto. apply in_or_app. simpl; auto.
    + rewrite dput_other in H' by auto. destruct (A h' p' H') as (w' & H1 & H2 & H3). exists w'. auto.
  - simpl. destruct (n_where s h) as [w|] eqn:Ew; auto. destruct (did_in h (n_knows s p)); auto.
    assert (X : settled s w h \/ creates_in h (n_chan s p w)).
    { destruct (Lic p h nd n q eq_refl) as [M|Bt].
      - destruct (ni_maker _ I h p M) as (w' & H1 & _ & H3). congruence.
      - destruct (ni_built _ I p h Bt) as (w' & H1 & _ & H3). left. congruence. }
    assert (W0 := ni_where _ I h w Ew).
    set (l1 := {| l_msg := HM (WPut nd (VLeaf n)); l_handles := []; l_built := n_built s p |}).
    set (l2 := {| l_msg := HCall h nd q; l_handles := []; l_built := n_built s p |}).
    set (s1 := {| n_work := n_work s; n_dead := n_dead s; n_chan := at_pair (n_chan s) p w (n_chan s p w ++ [l1]); n_knows := n_knows s;
                  n_where := n_where s; n_maker := n_maker s; n_built := n_built s |}).
    assert (I1 : NI s1) by (apply (ni_add s s1 p w l1); auto; discriminate).
    assert (E1 : n_chan s1 p w = n_chan s p w ++ [l1]) by (simpl; unfold at_pair; rewrite !Nat.eqb_refl; auto).
    set (s2 := {| n_work := n_work s; n_dead := n_dead s; n_chan := at_pair (n_chan s1) p w (n_chan s1 p w ++ [l2]); n_knows := n_knows s;
                  n_where := n_where s; n_maker := n_maker s; n_built := n_built s |}).
    assert (I2 : NI s2).
    { apply (ni_add s1 s2 p w l2); auto; try discriminate.
      intros h' nd' q' E. injection E as <- <- <-. split; auto. split; auto. rewrite E1.
      destruct X as [X|X]; [left; exact X|right; apply creates_app; auto]. }
    assert (Ex : forall x y, at_pair (n_chan s) p w (n_chan s p w ++ [l1; l2]) x y = n_chan s2 x y).
    { intros x y. change (n_chan s2) with (at_pair (n_chan s1) p w (n_chan s1 p w ++ [l2])). rewrite E1, <- app_assoc. simpl. unfold at_pair.
      destruct (Nat.eqb x p && Nat.eqb y w); auto. }
    destruct I2 as [A B L Cl Cr Wh D]. split; simpl; auto.
    + intros h' p' H. destruct (A h' p' H) as (w' & H1 & H2 & H3). exists w'. rewrite Ex. auto.
    + intros p' d' x h' Hx. rewrite Ex in Hx. eauto.
    + intros p' d' a x b h' nd' q' E. rewrite Ex in E. eauto.
    + intros p' d' x h' c a k Hx. rewrite Ex in Hx. eauto.
  - simpl. destruct (forallb _ hs); auto.
    eapply (ni_add s _ p d {| l_msg := HM m; l_handles := hs; l_built := n_built s p |}); simpl; auto; discriminate.
  - destruct (n_chan s src d) as [|l r] eqn:Ec; [simpl; rewrite Ec; auto|].
    destruct (n_dead s d) eqn:Ed; [simpl; rewrite Ec, Ed; auto|]. eapply ni_take; eauto.
Qed.

Lemma nrun_snoc ops o : nrun C body fco (ops ++ [o]) = nstep C body fco (nrun C body fco ops) o.
Proof using Type. unfold nrun. rewrite fold_left_app. auto. Qed.

Lemma ni_run ops : licensed C body fco ops -> NI (nrun C body fco ops).
Proof using Type.
  induction ops as [|o ops IH] using rev_ind; intros Lic; [apply ni_init|].
  rewrite nrun_snoc. apply ni_step.
  - apply IH. intros a p h nd n q b E. apply (Lic a p h nd n q (b ++ [o])). rewrite E, <- app_assoc. auto.
  - intros p h nd n q ->. apply (Lic ops p h nd n q []). auto.
Qed.

Lemma never_missing ops w : licensed C body fco ops -> n_dead (nrun C body fco ops) w <> Some DHandle.
Proof using Type. intros Lic. apply (ni_dead _ (ni_run ops Lic)). Qed.
End Net.
