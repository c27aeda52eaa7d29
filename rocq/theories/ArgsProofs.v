(** Proofs for C74 and C75. *)
From Verif Require Import Lib BaseModel ArgsModel ArgsSpec.
From Coq Require Import String List Bool.
Import ListNotations.
Local Open Scope string_scope.

Definition kfilter (l : list string) (kw : akw) : akw := filter (fun p => negb (sin (fst p) l)) kw.

Lemma sin_In k l : sin k l = true <-> In k l.
Proof.
  unfold sin. rewrite existsb_exists. split.
  - intros (x & H & E). apply String.eqb_eq in E as ->. exact H.
  - intros H. exists k. split; [exact H|apply String.eqb_refl].
Qed.

Lemma sin_not k l : sin k l = false <-> ~ In k l.
Proof. rewrite <- sin_In. destruct (sin k l); intuition congruence. Qed.

Lemma sin_app k l l' : sin k (l ++ l')%list = sin k l || sin k l'.
Proof. apply existsb_app. Qed.

Lemma twice_NoDup l : twice l = false <-> NoDup l.
Proof.
  induction l as [|k l IH]; simpl; [split; [constructor|reflexivity]|].
  rewrite orb_false_iff, IH, sin_not. split.
  - intros [A B]. constructor; assumption.
  - intros H. inversion H; subst. split; assumption.
Qed.

Definition clear_of (l : list string) (kw : akw) : Prop := forall k, In k (map fst kw) -> ~ In k l.

Lemma existsb_clear l kw : existsb (fun k => sin k l) (map fst kw) = false <-> clear_of l kw.
Proof.
  unfold clear_of. split.
  - intros H k Hk Hl. enough (existsb (fun k => sin k l) (map fst kw) = true) by congruence.
    apply existsb_exists. exists k. split; [exact Hk|apply sin_In; exact Hl].
  - intros H. destruct (existsb _ _) eqn:E; [|reflexivity].
    apply existsb_exists in E as (k & Hk & Hl). apply sin_In in Hl. destruct (H k Hk Hl).
Qed.

Definition open_sig (sg : sig) : Prop := s_star sg = true /\ s_kwstar sg = true.

Definition the_bound (sg : sig) (args : list aval) (kw : akw) : bound :=
  {| b_star := skipn (List.length (s_pos sg)) args;
     b_opt := fun k => if sin k (s_kwonly sg) then kfind kw k else None;
     b_kw := kfilter (s_pos sg ++ s_kwonly sg)%list kw |}.

Lemma bind_iff sg args kw b : open_sig sg -> List.length (s_pos sg) <= List.length args ->
  (bind sg args kw = Some b <-> NoDup (map fst kw) /\ clear_of (s_pos sg) kw /\ b = the_bound sg args kw).
Proof.
  intros [O1 O2] L. unfold bind. rewrite O1, O2. cbn [negb andb].
  rewrite firstn_all2, skipn_all2 by lia. cbn [forallb negb].
  rewrite <- twice_NoDup, <- existsb_clear.
  destruct (twice (map fst kw)); [split; [discriminate|intros (A & _); discriminate]|].
  destruct (existsb _ _); [split; [discriminate|intros (_ & A & _); discriminate]|].
  split.
  - intros H. apply Some_inj in H. subst b. repeat split.
  - intros (_ & _ & ->). reflexivity.
Qed.

Lemma bindk_reaches sg args kw k a w : open_sig sg -> List.length (s_pos sg) <= List.length args ->
  bindk sg args kw k = Reaches a w -> NoDup (map fst kw) /\ clear_of (s_pos sg) kw /\ k (the_bound sg args kw) = Reaches a w.
Proof.
  intros O L. unfold bindk. destruct (bind sg args kw) as [b|] eqn:E; [|discriminate].
  apply bind_iff in E as (A & B & ->); auto.
Qed.

Lemma bindk_ok sg args kw k : open_sig sg -> List.length (s_pos sg) <= List.length args ->
  NoDup (map fst kw) -> clear_of (s_pos sg) kw -> bindk sg args kw k = k (the_bound sg args kw).
Proof.
  intros O L A B. unfold bindk.
  assert (bind sg args kw = Some (the_bound sg args kw)) as -> by (apply bind_iff; auto). reflexivity.
Qed.

(** Filtering by names. *)
Definition vmap (f : aval -> aval) (kw : akw) : akw := map (fun p => (fst p, f (snd p))) kw.

Lemma kfilter_vmap l f kw : kfilter l (vmap f kw) = vmap f (kfilter l kw).
Proof.
  unfold kfilter, vmap. induction kw as [|[k v] kw IH]; simpl; [reflexivity|].
  destruct (sin k l); simpl; rewrite IH; reflexivity.
Qed.

Lemma vmap_vmap f g kw : vmap f (vmap g kw) = vmap (fun v => f (g v)) kw.
Proof. unfold vmap. rewrite map_map. reflexivity. Qed.

Lemma vmap_ext f g kw : (forall v, f v = g v) -> vmap f kw = vmap g kw.
Proof. intros H. apply map_ext. intros [k v]. simpl. rewrite H. reflexivity. Qed.

Lemma vmap_id kw : vmap (fun v => v) kw = kw.
Proof. unfold vmap. rewrite <- map_id. apply map_ext. intros [k v]. reflexivity. Qed.

Lemma kfilter_kfilter l l' kw : kfilter l (kfilter l' kw) = kfilter (l' ++ l)%list kw.
Proof.
  unfold kfilter. induction kw as [|[k v] kw IH]; simpl; [reflexivity|].
  rewrite sin_app. destruct (sin k l') eqn:E; simpl; [exact IH|].
  destruct (sin k l); simpl; rewrite IH; reflexivity.
Qed.

Lemma kfilter_app l kw kw' : kfilter l (kw ++ kw')%list = (kfilter l kw ++ kfilter l kw')%list.
Proof. apply filter_app. Qed.

Lemma kfilter_ext l l' kw : (forall k, sin k l = sin k l') -> kfilter l kw = kfilter l' kw.
Proof. intros H. apply filter_ext. intros [k v]. simpl. rewrite H. reflexivity. Qed.

Lemma kfilter_in l k v kw : In k l -> kfilter l ((k, v) :: kw) = kfilter l kw.
Proof. intros H. unfold kfilter. simpl. apply sin_In in H. rewrite H. reflexivity. Qed.

Lemma kfilter_clear l kw : clear_of l kw -> kfilter l kw = kw.
Proof.
  unfold clear_of, kfilter. induction kw as [|[k v] kw IH]; simpl; [reflexivity|]. intros H.
  assert (sin k l = false) as -> by (apply sin_not, H; left; reflexivity). simpl.
  rewrite IH; [reflexivity|]. intros k' Hk. apply H. right. exact Hk.
Qed.

Lemma kfilter_same l kw : List.length (kfilter l kw) = List.length kw -> clear_of l kw.
Proof.
  unfold clear_of, kfilter. induction kw as [|[k v] kw IH]; simpl; [tauto|].
  assert (List.length (filter (fun p => negb (sin (fst p) l)) kw) <= List.length kw) as L.
  { clear. induction kw as [|p kw IH]; simpl; [lia|]. destruct (negb _); simpl; lia. }
  destruct (sin k l) eqn:E; simpl; [lia|]. intros H k' [<-|Hk]; [apply sin_not; exact E|].
  apply IH; [lia|exact Hk].
Qed.

Lemma fst_vmap f kw : map fst (vmap f kw) = map fst kw.
Proof. unfold vmap. rewrite map_map. reflexivity. Qed.

Lemma clear_vmap l f kw : clear_of l (vmap f kw) <-> clear_of l kw.
Proof. unfold clear_of. rewrite fst_vmap. reflexivity. Qed.

Lemma filt_kw_vmap kw : filt_kw kw = vmap filt kw.
Proof. reflexivity. Qed.

Lemma mat_kw_vmap content kw : mat_kw content kw = vmap (mat content) kw.
Proof. reflexivity. Qed.

Lemma kfind_clear l kw k : clear_of l kw -> In k l -> kfind kw k = None.
Proof.
  unfold clear_of. induction kw as [|[k' v] kw IH]; simpl; [reflexivity|]. intros H Hk.
  destruct (String.eqb k k') eqn:E.
  - apply String.eqb_eq in E as ->. destruct (H k'); auto.
  - apply IH; auto.
Qed.

Lemma clear_sub l l' kw : clear_of l kw -> (forall k, In k l' -> In k l) -> clear_of l' kw.
Proof. unfold clear_of. eauto. Qed.

Lemma clear_cons l k v kw : ~ In k l -> clear_of l kw -> clear_of l ((k, v) :: kw).
Proof. unfold clear_of. simpl. intros A B k' [<-|H]; auto. Qed.

Lemma clear_app l kw kw' : clear_of l kw -> clear_of l kw' -> clear_of l (kw ++ kw')%list.
Proof. unfold clear_of. intros A B k. rewrite map_app, in_app_iff. intros [H|H]; auto. Qed.

Section Main.
Variable D : list string.
Variable content : nat -> aval.
Hypothesis Dpure : In "pure" D.
Hypothesis Dactor : In "actor" D.

Lemma reaches_inj a w a' w' : Reaches a w = Reaches a' w' -> a = a' /\ w = w'.
Proof. intros H. injection H as -> ->. split; reflexivity. Qed.

Lemma gets_mat e v : (match e with Constructor | ConstructorOptions => False | _ => True end) -> mat content (filt v) = gets content e v.
Proof. destruct e, v; simpl; intuition reflexivity. Qed.

Ltac names :=
  let k := fresh in intros k; unfold reserved, sin; rewrite ?existsb_app; cbn [existsb app]; rewrite ?existsb_app; cbn [existsb];
  repeat match goal with |- context[String.eqb k ?x] => destruct (String.eqb k x); cbn [orb]; try reflexivity end;
  destruct (existsb (String.eqb k) D); reflexivity.

Ltac within := solve [simpl; rewrite ?in_app_iff; simpl; rewrite ?in_app_iff; simpl; tauto].

Ltac layer H := apply bindk_reaches in H; [|split; reflexivity|simpl; rewrite ?map_length; lia];
  destruct H as (_ & _ & H); cbn [the_bound b_star b_kw s_pos s_kwonly List.length skipn] in H.

Lemma reaches_all be e args kw a w : remote_call D content be e args kw = Reaches a w ->
  a = map (gets content e) args /\ w = vmap (gets content e) (kfilter (reserved D be e) kw).
Proof.
  intros H.
  destruct e; cbn [remote_call] in H;
    unfold f_remote_call, f_options_call, m_remote_call, m_options_call, c_remote_call, c_options_call, f_wrapper, c_wrapper in H;
    repeat layer H;
    destruct be; unfold f_backend, m_backend, c_backend in H;
    repeat (first [layer H | match type of H with (if ?c then _ else _) = _ => destruct c; [|discriminate H] end]);
    apply reaches_inj in H as [<- <-].
  all: unfold sg_mpi_submit, sg_func_submit, sg_task, sg_method, sg_mpi_actor, sg_pymp_actor, sg_dask_lambda, sg_dask_submit, sg_remote,
         sg_f_remote, sg_m_remote, sg_c_remote; cbn [s_pos s_kwonly List.length skipn].
  all: rewrite ?map_map; split;
    [ first [ apply map_ext; intros v; apply gets_mat; exact Logic.I | symmetry; etransitivity; [|apply map_id]; apply map_ext; intros [| | |]; reflexivity ] | ].
  all: rewrite ?filt_kw_vmap, ?mat_kw_vmap.
  Opaque kfilter.
  all: repeat first [ rewrite (kfilter_in _ "num_returns") by within | rewrite (kfilter_in _ "num_cpus") by within
    | rewrite (kfilter_in _ "resources") by within | rewrite (kfilter_in _ "pure") by within
    | rewrite (kfilter_in _ "actor") by within | rewrite kfilter_app | rewrite kfilter_vmap | rewrite kfilter_kfilter ].
  Transparent kfilter.
  all: repeat match goal with |- context[kfilter ?l nil] => change (kfilter l nil) with (@nil (string * aval)) end.
  all: rewrite ?app_nil_r, ?app_nil_l; rewrite ?vmap_vmap.
  all: match goal with
       | |- vmap ?f ?x = vmap ?g ?y => rewrite (vmap_ext f g) by (intros v; apply gets_mat; exact Logic.I); apply f_equal; apply kfilter_ext
       | |- ?x = vmap ?g ?y => rewrite (vmap_ext g (fun v => v)) by reflexivity; rewrite vmap_id; apply kfilter_ext end.
  all: names.
Qed.

Lemma clear_kfilter l l' kw : clear_of l kw -> clear_of l (kfilter l' kw).
Proof.
  unfold clear_of, kfilter. intros H k Hk. apply in_map_iff in Hk as (p & <- & Hp). apply filter_In in Hp as [Hp _].
  apply H, in_map, Hp.
Qed.

Lemma NoDup_kfilter l kw : NoDup (map fst kw) -> NoDup (map fst (kfilter l kw)).
Proof.
  unfold kfilter. induction kw as [|[k v] kw IH]; simpl; [auto|]. intros H. inversion H as [|? ? A B]; subst.
  destruct (sin k l); simpl; [auto|]. constructor; [|auto].
  intros C. apply A. apply in_map_iff in C as (p & <- & Hp). apply filter_In in Hp as [Hp _]. apply in_map, Hp.
Qed.

(** The result of a call whose keywords are not reserved. *)
Lemma kfind_app a b k : kfind (a ++ b)%list k = match kfind a k with Some v => Some v | None => kfind b k end.
Proof. induction a as [|[k' v] a IH]; simpl; [reflexivity|]. destruct (String.eqb k k'); auto. Qed.

Lemma kfilter_out l kw : (forall k, In k (map fst kw) -> In k l) -> kfilter l kw = [].
Proof.
  induction kw as [|[k v] kw IH]; intros H; [reflexivity|]. simpl map in H.
  rewrite kfilter_in by (apply H; left; reflexivity). apply IH. intros k' Hk. apply H. right. exact Hk.
Qed.

Lemma NoDup_app_intro {A} (l l' : list A) : NoDup l -> NoDup l' -> (forall x, In x l -> ~ In x l') -> NoDup (l ++ l').
Proof.
  induction l as [|x l IH]; simpl; intros H H' N; [exact H'|]. inversion H as [|? ? X Y]; subst.
  constructor; [rewrite in_app_iff; intros [B|B]; [auto|exact (N x (or_introl eq_refl) B)]|].
  apply IH; [exact Y|exact H'|]. intros y Hy. apply N. right. exact Hy.
Qed.

Lemma bindk_mix sg args w pre kw post k : w = (pre ++ kw ++ post)%list -> open_sig sg -> List.length (s_pos sg) <= List.length args ->
  NoDup (map fst (pre ++ post)%list) ->
  (forall x, In x (map fst (pre ++ post)%list) -> In x (s_kwonly sg) /\ ~ In x (s_pos sg)) ->
  NoDup (map fst kw) -> clear_of (s_pos sg ++ s_kwonly sg)%list kw ->
  exists b, bindk sg args w k = k b /\ b_star b = skipn (List.length (s_pos sg)) args /\ b_kw b = kw /\
    forall x, In x (s_kwonly sg) -> b_opt b x = kfind (pre ++ post)%list x.
Proof.
  intros -> O L N1 F N2 C. exists (the_bound sg args (pre ++ kw ++ post)%list).
  assert (clear_of (s_pos sg) (pre ++ kw ++ post)%list) as C1.
  { intros x. rewrite !map_app, !in_app_iff. intros [H|[H|H]].
    - apply F. rewrite map_app, in_app_iff. tauto.
    - intros Hx. apply (C x H). apply in_or_app. tauto.
    - apply F. rewrite map_app, in_app_iff. tauto. }
  assert (forall x, In x (map fst kw) -> ~ In x (map fst (pre ++ post)%list)) as Dj.
  { intros x Hx Hp. apply (C x Hx). apply in_or_app. right. apply F, Hp. }
  split; [|split; [reflexivity|split]].
  - apply bindk_ok; auto. rewrite !map_app.
    rewrite map_app in N1, Dj.
    apply (Permutation.Permutation_NoDup (l := (map fst kw ++ map fst pre ++ map fst post)%list)).
    + rewrite !app_assoc. apply Permutation.Permutation_app_tail, Permutation.Permutation_app_comm.
    + apply NoDup_app_intro; auto.
  - cbn [the_bound b_kw]. rewrite !kfilter_app. rewrite (kfilter_out _ pre), (kfilter_out _ post).
    + simpl. rewrite app_nil_r. apply kfilter_clear, C.
    + intros x Hx. apply in_or_app. right. apply F. rewrite map_app, in_app_iff. tauto.
    + intros x Hx. apply in_or_app. right. apply F. rewrite map_app, in_app_iff. tauto.
  - intros x Hx. cbn [the_bound b_opt]. apply sin_In in Hx as Hs. rewrite Hs, !kfind_app.
    rewrite (kfind_clear (s_pos sg ++ s_kwonly sg)%list kw); [reflexivity|exact C|apply in_or_app; tauto].
Qed.

Ltac fixed := simpl; repeat constructor; simpl; intuition (try discriminate).
Ltac fixed_in := simpl; let x := fresh in intros x; simpl; intuition (try subst; simpl; intuition (try discriminate; auto)).
Ltac within_clear C := apply (clear_sub _ _ _ C); let k := fresh in intros k; simpl; rewrite ?in_app_iff; simpl; rewrite ?in_app_iff; simpl; tauto.

Ltac pass N C :=
  match goal with |- context[bindk ?sg ?a ?w ?k] =>
    let go pre kw post :=
      (let b := fresh "b" in let E := fresh in let S1 := fresh in let S2 := fresh in let S3 := fresh in
       destruct (bindk_mix sg a w pre kw post k) as (b & E & S1 & S2 & S3);
       [ rewrite ?app_nil_r; reflexivity | split; reflexivity | simpl; rewrite ?map_length; lia | fixed | fixed_in | exact N | within_clear C
       | rewrite E; cbv beta; clear E;
         rewrite ?S1, ?S2; cbn [s_pos List.length skipn];
         rewrite ?S3 by (simpl; tauto); clear b S1 S2 S3 ]) in
    match w with
    | (?p :: ?q :: ?r :: ?kw)%list => go [p; q; r] kw (@nil (string * aval))
    | (?p :: ?kw)%list => go [p] kw (@nil (string * aval))
    | ([?p; ?q; ?r] ++ ?kw)%list => go [p; q; r] kw (@nil (string * aval))
    | (?kw ++ ?post)%list => go (@nil (string * aval)) kw post
    | ?kw => go (@nil (string * aval)) kw (@nil (string * aval))
    end
  end.

Lemma reaches_clear be e args kw : NoDup (map fst kw) -> clear_of (reserved D be e) kw ->
  exists a w, remote_call D content be e args kw = Reaches a w.
Proof.
  intros N C.
  assert (NoDup (map fst (filt_kw kw))) as N' by (rewrite filt_kw_vmap, fst_vmap; exact N).
  assert (clear_of (reserved D be e) (filt_kw kw)) as C' by (apply clear_vmap; exact C).
  destruct e; cbn [remote_call];
    unfold f_remote_call, f_options_call, m_remote_call, m_options_call, c_remote_call, c_options_call, f_wrapper, c_wrapper;
    destruct be; unfold f_backend, m_backend, c_backend.
  all: repeat first [ pass N C | pass N' C' | match goal with |- context[if ?c then _ else _] => change c with true; cbv iota end ].
  all: eexists; eexists; reflexivity.
Qed.

Lemma c74_iff be e args kw : keywords kw ->
  (remote_call D content be e args kw = Reaches (map (gets content e) args) (gets_kw content e kw) <->
   forall k, In k (map fst kw) -> ~ In k (reserved D be e)).
Proof.
  intros N. split.
  - intros H. apply reaches_all in H as [_ H]. apply kfilter_same.
    apply (f_equal (@List.length _)) in H. unfold gets_kw, vmap in H. rewrite !map_length in H. symmetry. exact H.
  - intros C. destruct (reaches_clear be e args kw N C) as (a & w & H).
    pose proof (reaches_all _ _ _ _ _ _ H) as [-> ->]. rewrite H. rewrite kfilter_clear by exact C. reflexivity.
Qed.

Lemma c74_rest be e args kw a w : remote_call D content be e args kw = Reaches a w ->
  a = map (gets content e) args /\ w = gets_kw content e (unreserved D be e kw).
Proof. apply reaches_all. Qed.

End Main.

Lemma c74_constructors D content be n : In "pure" D -> In "actor" D ->
  remote_call D content be Function [ARef n] [] = Reaches [content n] [] /\
  remote_call D content be Method [ARef n] [] = Reaches [content n] [] /\
  remote_call D content be Constructor [ARef n] [] = Reaches [ARef n] [].
Proof.
  intros P A. assert (keywords []) as N by constructor.
  split; [|split]; [apply (proj2 (c74_iff D content P A be Function [ARef n] [] N)) | apply (proj2 (c74_iff D content P A be Method [ARef n] [] N))
    | apply (proj2 (c74_iff D content P A be Constructor [ARef n] [] N))]; intros k [].
Qed.

Lemma kfind_In kw k v : NoDup (map fst kw) -> In (k, v) kw -> kfind kw k = Some v.
Proof.
  induction kw as [|[k' v'] kw IH]; simpl; [intros _ []|]. intros N [H|H].
  - injection H as -> ->. now rewrite String.eqb_refl.
  - inversion N as [|x l N1 N2]; subst. destruct (String.eqb k k') eqn:E.
    + apply String.eqb_eq in E as ->. destruct N1. apply in_map_iff. exists (k', v). auto.
    + now apply IH.
Qed.

Lemma unset_filt v : v <> ANone -> unset (Some (filt v)) = false.
Proof. destruct v; simpl; congruence. Qed.

(** C74: unsupported options. *)
Lemma c74_refused D content be e args kw k v : be <> Ray -> e = Function \/ e = Constructor ->
  k = "num_cpus" \/ k = "resources" -> In (k, v) kw -> v <> ANone ->
  remote_call D content be e args kw = NotImpl \/ remote_call D content be e args kw = TypeErr.
Proof.
  intros Hb He Hk Hin Hv.
  cut (match remote_call D content be e args kw with NotImpl | TypeErr => True | _ => False end).
  { destruct (remote_call D content be e args kw); tauto. }
  assert (open_sig sg_f_remote /\ open_sig sg_c_remote /\ open_sig sg_remote) as (O1 & O2 & O3) by (repeat split).
  destruct He as [Z|Z]; subst e; cbn [remote_call].
  - unfold f_remote_call, f_wrapper, bindk. destruct (bind _ _ _) as [b|] eqn:E; [|exact I].
    apply bind_iff in E as (N & _ & ->); [|exact O1|simpl; lia].
    assert (kfind (filt_kw kw) k = Some (filt v)) as F.
    { apply kfind_In; [exact N|]. unfold filt_kw. apply in_map_iff. exists (k, v). auto. }
    destruct be; try congruence; cbn [the_bound b_opt];
      (destruct Hk as [Z|Z]; subst k;
       [change (if sin "num_cpus" (s_kwonly sg_f_remote) then kfind (filt_kw kw) "num_cpus" else None) with (kfind (filt_kw kw) "num_cpus")
       |change (if sin "resources" (s_kwonly sg_f_remote) then kfind (filt_kw kw) "resources" else None) with (kfind (filt_kw kw) "resources")];
       rewrite F, (unset_filt v Hv), ?andb_false_r; exact I).
  - unfold c_remote_call, bindk at 1. destruct (bind sg_remote _ _) as [b|] eqn:E; [|exact I].
    apply bind_iff in E as (N & _ & ->); [|exact O3|simpl; lia]. cbn [the_bound b_star b_kw].
    set (kw' := kfilter _ kw). assert (In (k, v) kw') as Hin'.
    { apply filter_In. split; [exact Hin|]. destruct Hk as [Z|Z]; subst k; reflexivity. }
    clearbody kw'. unfold c_wrapper, bindk. destruct (bind sg_c_remote _ _) as [b|] eqn:E; [|exact I].
    apply bind_iff in E as (N' & _ & ->); [|exact O2|simpl; lia].
    pose proof (kfind_In _ _ _ N' Hin') as F.
    assert (unset (Some v) = false) as U by (destruct v; simpl; congruence).
    destruct be; try congruence; cbn [the_bound b_opt];
      (destruct Hk as [Z|Z]; subst k;
       [change (if sin "num_cpus" (s_kwonly sg_c_remote) then kfind kw' "num_cpus" else None) with (kfind kw' "num_cpus")
       |change (if sin "resources" (s_kwonly sg_c_remote) then kfind kw' "resources" else None) with (kfind kw' "resources")];
       rewrite F, U, ?andb_false_r; exact I).
Qed.

(** C75. *)
Lemma finds_iff be name : prefix "_" name = false -> (finds_method be name = true <-> ~ (be = PyMp /\ name = "submit")).
Proof.
  intros H. unfold finds_method.
  assert (forall l, forallb (prefix "_") l = true -> sin name l = false) as A.
  { intros l Hl. apply sin_not. intros Hn. rewrite forallb_forall in Hl. specialize (Hl _ Hn). congruence. }
  rewrite (A holder_attrs), (A wrapper_attrs) by reflexivity. rewrite H.
  destruct be; try (rewrite (A (handle_attrs _)) by reflexivity; simpl; intuition discriminate).
  change (handle_attrs PyMp) with (["_worker"; "_worker_id"; "_obj_store"; "_cls_obj"] ++ ["submit"])%list.
  rewrite sin_app, A by reflexivity. cbn [sin existsb orb negb andb]. rewrite orb_false_r, andb_true_r.
  destruct (String.eqb name "submit") eqn:E.
  - apply String.eqb_eq in E as ->. simpl. intuition discriminate.
  - apply String.eqb_neq in E. simpl. intuition.
Qed.

Lemma c75_iff be name : be = Mpi \/ be = PyMp \/ be = PySeq -> prefix "_" name = false ->
  (finds_method be name = true <-> ~ (be = PyMp /\ name = "submit")).
Proof. intros _. apply finds_iff. Qed.
