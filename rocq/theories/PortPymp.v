(** C98: PyMp. *)
From Verif Require Import Lib ValModel PyseqModel PyseqSpec PortSpec PortHist PortShows.
From Verif Require PortSeq RayRunProofs PympModel PympSpec PympProofs PympDirect PympProps.
Import PympModel.

Section Pymp.
Variable nw : nat.
Variable body : nat -> list val -> kwargs -> res.
Variable cbody : nat -> list val -> kwargs -> res.
Variable mbody : nat -> val -> list val -> kwargs -> res * val.
Variable item : val -> nat -> option val.
Variable iterable callable bytes : val -> bool.
Variable dumps : val -> val.
Variable loads : val -> res.
Variable storable : val -> bool.
Notation step := (pstep nw body cbody mbody item iterable callable bytes dumps loads storable).
Notation run := (prun nw body cbody mbody item iterable callable bytes dumps loads storable).

Definition PR (st : pst) (h : hist) : Prop := (forall d, In d (returned h) -> snd d < p_next st) /\ NoDup (returned h).

Lemma ids_in st n d : In d (new_ids st n) -> p_next st <= snd d < p_next st + n.
Proof. unfold new_ids. intros I. apply in_map_iff in I as (k & <- & I). apply in_seq in I. simpl. lia. Qed.

Lemma ids_nodup st n : NoDup (new_ids st n).
Proof. unfold new_ids. apply FinFun.Injective_map_NoDup; [intros a b E; inversion E; auto|apply seq_NoDup]. Qed.

Lemma ids_length st n : length (new_ids st n) = n.
Proof. unfold new_ids. rewrite map_length. apply seq_length. Qed.

Lemma refs_of_out ds : refs_of (refs_out ds) = ds.
Proof. destruct ds as [|a [|b l]]; reflexivity. Qed.

Lemma step_refs st o st' e : step st o = (st', e) -> p_next st <= p_next st' /\
  match e with Some x => NoDup (refs_of (snd x)) /\ forall d, In d (refs_of (snd x)) -> p_next st <= snd d < p_next st' | None => True end.
Proof.
  assert (Z : forall (m n : nat) (l : list dataid), l = [] -> NoDup l /\ forall d : dataid, In d l -> m <= snd d < n) by (intros m n l ->; split; [constructor|simpl; tauto]).
  destruct o; simpl; intros E.
  - apply pair_inj in E as [<- <-]. simpl. split; [lia|]. split; [repeat constructor; auto|]. intros d [<-|[]]. simpl. lia.
  - destruct (pick nw (p_grab st) (p_wid st) nw) as [[w|] wid]; apply pair_inj in E as [<- <-]; simpl; rewrite ?ids_length; (split; [lia|]); [rewrite refs_of_out|split; [constructor|tauto]].
    split; [apply ids_nodup|]. intros d I. apply ids_in in I. lia.
  - destruct (cbody c args kw); [destruct (grab_worker nw (p_grab st))|]; apply pair_inj in E as [<- <-]; simpl; (split; [auto|split; [constructor|tauto]]).
  - destruct (nth_error (p_actors st) a) as [x|]; [destruct (t_live x)|]; apply pair_inj in E as [<- <-]; auto. simpl. rewrite ids_length, refs_of_out. split; [lia|].
    split; [apply ids_nodup|]. intros d I. apply ids_in in I. lia.
  - destruct (nth_error (p_actors st) a) as [x|]; [destruct (t_live x)|]; apply pair_inj in E as [<- <-]; auto.
  - apply pair_inj in E as [<- <-]. unfold take. destruct (p_queue st w) as [|t q]; auto. destruct (p_dead st w || p_taken st w); auto. destruct (gone (p_actors st) t); auto.
  - destruct (work body mbody item iterable bytes loads storable st w) as [s|] eqn:W; apply pair_inj in E as [<- <-]; auto.
    apply PympProofs.work_spec in W as (t & q & r & m & ok & acts & _ & _ & _ & _ & -> & _). auto.
Qed.

Lemma pr_run ops : forall st h st' h', PR st h -> run st h ops = (st', h') -> PR st' h'.
Proof.
  induction ops as [|o ops IH]; intros st h st' h' N E; simpl in E; [apply pair_inj in E as [<- <-]; auto|]. destruct (step st o) as [st1 e] eqn:S1. apply step_refs in S1 as [L F].
  destruct e as [[q out]|]; apply IH in E; auto; destruct N as [A B].
  - destruct F as [N F]. simpl in N, F. split; rewrite returned_of.
    + intros d I. apply in_app_or in I as [I|I]; [apply F in I; lia|apply A in I; lia].
    + apply RayRunProofs.nodup_app'; auto. intros d I J. apply F in I. apply A in J. lia.
  - split; auto. intros d I. apply A in I. lia.
Qed.
End Pymp.

Theorem pymp_direct body prog : portable body prog -> forall c i r, shows_pymp body prog c i r -> result_of (direct body prog) c i = Some r.
Proof.
  intros Po c i r (nw & cbody & mbody & item & iterable & callable & bytes & dumps & loads & storable & ops & st & h & rs & d & Nw & PR' & PK & R & L & PP & ND & Pl & Rf & G).
  assert (N : NoDup (returned h)). { apply (pr_run nw body cbody mbody item iterable callable bytes dumps loads storable ops pinit [] st h); auto. split; [intros x []|constructor]. }
  assert (I : In d (returned h)) by (eapply plays_returned; eauto).
  apply (hist_direct body cbody mbody item prog rs h Pl Po N c i d r Rf).
  apply (PympProps.C55_read_partial nw Nw body cbody mbody item iterable callable bytes dumps loads storable PR' PK ops st h d r R L PP); auto.
  intros pre a post t m E. exfalso. apply (ND a). rewrite E. apply in_or_app. simpl. auto.
Qed.
