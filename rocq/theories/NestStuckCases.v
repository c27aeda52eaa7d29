(** Concrete programs with nested calls that end, that wait for each other, and that use references of others. *)
From Verif Require Import Lib ValModel WorkerModel WorkerSpec ClusterModel NestModel NestSpec NestCases.

Lemma xcall_closed g args k puts outs : incl (refs args) (puts ++ outs) -> (forall p o r, r <> GError -> closed p o (k r)) -> closed puts outs (xcall g args k).
Proof.
  intros I K f. simpl. split; auto. split.
  - rewrite app_nil_r. intros d J. right. auto.
  - intros [|d [|]] E; try discriminate. simpl. split; [|split].
    + intros x [<-|[]]. right. apply in_or_app. simpl. auto.
    + constructor; [intros []|constructor].
    + auto.
Qed.

Lemma nbody_closed f a k : refs a = [] -> refs k = [] -> closed [] [] (nbody f a k).
Proof.
  intros _ _. unfold nbody. destruct f as [[|[|[|[|n]]]]|e|r|l|l|l]; try exact Logic.I.
  - destruct a as [n|e|r|l|[|[n|e|r|l|l|l] [|y l']]|l]; try exact Logic.I. apply xcall_closed; [intros x []|].
    intros p o [[|[m|e|r|m|m|m] [|w vs]]|e|] _; exact Logic.I.
  - destruct a as [n|e|r|l|[|[n|e|r|l|l|l] [|y l']]|l]; simpl; auto.
  - apply xcall_closed; [intros x []|]. intros p o [vs|e|] _; exact Logic.I.
Qed.

Lemma nmain_closed : closed [] [] nmain.
Proof. intros x. apply xcall_closed; [intros d I; exact I|]. intros; exact Logic.I. Qed.

(** Histories in which every task has one reference. *)
Definition ones (h : list (nat * hev)) : bool :=
  forallb (fun e => match snd e with HSubmit _ q => match q_out q with OOne _ => true | _ => false end | _ => true end) h.

Lemma ones_fit h : ones h = true -> results_fit h.
Proof.
  unfold ones. rewrite forallb_forall. intros O t o q t' r I _ _. apply O in I. simpl in I. destruct (q_out q); try discriminate. destruct r; exact Logic.I.
Qed.

Lemma ncase_fits : results_fit (n_hist ncase).
Proof. apply ones_fit. vm_compute. reflexivity. Qed.

Ltac quiet := let r := fresh "r" in intros r; destruct r as [|[|[|[|r]]]]; vm_compute; reflexivity.

Lemma ncase_idle : idle ncase.
Proof.
  intros p. destruct (p_cur (n_proc ncase p)) as [fr|] eqn:E; destruct p as [|[|[|[|p]]]]; vm_compute in E; try discriminate E;
    try (intros _; quiet); apply Some_inj in E as <-; first [left; simpl; split; [reflexivity|split; [reflexivity|eexists; reflexivity]]|right; split; [discriminate|quiet]].
Qed.

Lemma ncase_nobody p : ~ in_get ncase p.
Proof. intros (fr & E & G). destruct p as [|[|[|[|p]]]]; vm_compute in E; try discriminate E. apply Some_inj in E as <-. apply G. reflexivity. Qed.

(** The main program calls outer(5) and outer(6), one on each of the two workers, and returns; each of them calls inner, on the
    other's worker, and waits for it. *)
Definition cmain : act :=
  APut (VLeaf 0) (fun f => ASubmit f (VTuple [VLeaf 5]) (VDict []) 1 (fun _ => ASubmit f (VTuple [VLeaf 6]) (VDict []) 1 (fun _ => ARet (RVal (VLeaf 0))))).

Definition cops : list nop :=
  [NRun 0 0; NRun 0 2; NRun 0 3; NTake 0 2; NTake 0 2; NTake 0 3; NTake 0 3;
   NRun 2 0; NRun 2 3; NRun 2 0; NRun 3 0; NRun 3 2; NRun 3 0].

Notation ccase := (nrun [2; 3] nbody cmain cops).

Lemma cmain_ok : refless cmain.
Proof. simpl. split; auto. Qed.

Lemma cmain_closed : closed [] [] cmain.
Proof. intros f. simpl. split; auto. split; [intros x []|]. intros ds _. split; auto. split; [intros x []|auto]. Qed.

Lemma ccase_hist : n_hist ccase =
  [(0, HPut (0, 0) (VLeaf 0));
   (0, HSubmit 2 {| q_id := 0; q_fn := FRef (0, 0); q_args := VTuple [VLeaf 5]; q_kwargs := VDict []; q_out := OOne (0, 1) |});
   (0, HSubmit 3 {| q_id := 1; q_fn := FRef (0, 0); q_args := VTuple [VLeaf 6]; q_kwargs := VDict []; q_out := OOne (0, 2) |});
   (1, HStart 0); (2, HStart 1); (1, HPut (2, 0) (VLeaf 1));
   (1, HSubmit 3 {| q_id := 2; q_fn := FRef (2, 0); q_args := VTuple [VLeaf 5]; q_kwargs := VDict []; q_out := OOne (2, 1) |});
   (2, HPut (3, 0) (VLeaf 1));
   (2, HSubmit 2 {| q_id := 3; q_fn := FRef (3, 0); q_args := VTuple [VLeaf 6]; q_kwargs := VDict []; q_out := OOne (3, 1) |})].
Proof. vm_compute. reflexivity. Qed.

Lemma ccase_fits : results_fit (n_hist ccase).
Proof. apply ones_fit. vm_compute. reflexivity. Qed.

Lemma ccase_idle : idle ccase.
Proof.
  intros p. destruct (p_cur (n_proc ccase p)) as [fr|] eqn:E; destruct p as [|[|[|[|p]]]]; vm_compute in E; try discriminate E;
    try (intros _; quiet); apply Some_inj in E as <-; first [left; simpl; split; [reflexivity|split; [reflexivity|eexists; reflexivity]]|right; split; [discriminate|quiet]].
Qed.

Lemma ccase_not_done : ~ all_done ccase.
Proof.
  intros [_ D]. rewrite ccase_hist in D. destruct (D 0 2 {| q_id := 0; q_fn := FRef (0, 0); q_args := VTuple [VLeaf 5]; q_kwargs := VDict []; q_out := OOne (0, 1) |}) as (t & r & _ & K).
  - simpl. auto.
  - simpl in K. repeat (destruct K as [K|K]; [discriminate K|]). destruct K.
Qed.

(** The main program puts the function g, calls it, and then calls f; f calls g too, with the reference the main program got
    for g (a remote function that has been called carries its reference). *)
Definition fbody (f args kwargs : val) : act :=
  match f with
  | VLeaf 0 => ASubmit (0, 0) (VTuple []) (VDict []) 1 (fun ds => match ds with Some _ => ARet (RVal (VLeaf 0)) | None => ARet (RExc 4) end)
  | _ => ARet (RVal (VLeaf 7))
  end.

Definition fmain : act :=
  APut (VLeaf 1) (fun g => ASubmit g (VTuple []) (VDict []) 1 (fun _ =>
  APut (VLeaf 0) (fun f => ASubmit f (VTuple []) (VDict []) 1 (fun _ => ARet (RVal (VLeaf 0)))))).

Definition fops : list nop :=
  [NRun 0 0; NRun 0 2; NRun 0 0; NRun 0 3; NTake 0 2; NTake 0 2; NRun 2 0; NTake 0 3; NTake 0 3; NRun 3 2; NRun 3 0].

Notation fcase := (nrun [2; 3] fbody fmain fops).

Lemma fbody_ok f a k : refs a = [] -> refs k = [] -> refless (fbody f a k).
Proof.
  intros _ _. unfold fbody. destruct f as [[|n]|e|r|l|l|l]; simpl; auto. intros [ds|]; simpl; auto. Qed.

Lemma fmain_ok : refless fmain.
Proof. simpl. auto. Qed.

Lemma fmain_closed : closed [] [] fmain.
Proof. intros g. simpl. split; auto. split; [intros x []|]. intros ds _ f. split; auto. split; [intros x []|auto]. Qed.

Lemma fcase_hist : n_hist fcase =
  [(0, HPut (0, 0) (VLeaf 1));
   (0, HSubmit 2 {| q_id := 0; q_fn := FRef (0, 0); q_args := VTuple []; q_kwargs := VDict []; q_out := OOne (0, 1) |});
   (0, HPut (0, 2) (VLeaf 0));
   (0, HSubmit 3 {| q_id := 1; q_fn := FRef (0, 2); q_args := VTuple []; q_kwargs := VDict []; q_out := OOne (0, 3) |});
   (1, HStart 0); (1, HEnd (RVal (VLeaf 7))); (2, HStart 1);
   (2, HRefused (0, 0) (VTuple []) (VDict []) 1); (2, HEnd (RExc 4))].
Proof. vm_compute. reflexivity. Qed.

Lemma fcase_fits : results_fit (n_hist fcase).
Proof. apply ones_fit. vm_compute. reflexivity. Qed.

(** g is called from the main program and from tasks that do not wait for it: nobody but the main program calls get. *)
Definition gbody (f args kwargs : val) : act :=
  match f with
  | VLeaf 0 => APut (VLeaf 1) (fun g => ASubmit g args (VDict []) 1 (fun _ => ARet (RVal (VLeaf 1))))
  | _ => ARet (RVal (VLeaf 7))
  end.

Lemma gbody_ok f a k : refs a = [] -> refs k = [] -> refless (gbody f a k).
Proof.
  intros _ _. unfold gbody. destruct f as [[|n]|e|r|l|l|l]; simpl; auto. Qed.
Lemma gbody_getless f a k : getless (gbody f a k).
Proof. unfold gbody. destruct f as [[|n]|e|r|l|l|l]; simpl; auto. Qed.
Lemma gbody_closed f a k : refs a = [] -> refs k = [] -> closed [] [] (gbody f a k).
Proof.
  intros A _. unfold gbody. destruct f as [[|n]|e|r|l|l|l]; simpl; auto. rewrite A. intros d. split; auto. split; [intros x []|auto].
Qed.

(** The main program calls function 0 twice and gets both results. *)
Definition gmain : act :=
  APut (VLeaf 0) (fun f => ASubmit f (VTuple [VLeaf 5]) (VDict []) 1 (fun x => ASubmit f (VTuple [VLeaf 6]) (VDict []) 1 (fun y =>
  match x, y with Some [a], Some [b] => if did_eqb a b then ARet (RExc 5) else AGet [a; b] (fun _ => ARet (RVal (VLeaf 0))) | _, _ => ARet (RExc 5) end))).

Lemma gmain_ok : refless gmain.
Proof. simpl. split; auto. intros d [[|a [|]]|] [[|b [|]]|]; simpl; auto. destruct (did_eqb a b); simpl; auto. Qed.

Lemma gmain_closed : closed [] [] gmain.
Proof.
  intros f. simpl. split; auto. split; [intros x []|]. intros [|a [|]] E; try discriminate. split; auto. split; [intros x []|].
  intros [|b [|]] E'; try discriminate. destruct (did_eqb a b) eqn:Q; simpl; auto. split; [|split; auto].
  - intros x [<-|[<-|[]]]; simpl; auto.
  - constructor; [|constructor; [intros []|constructor]]. intros [<-|[]]. rewrite did_eqb_refl in Q. discriminate.
Qed.

Definition gops : list nop :=
  [NRun 0 0; NRun 0 2; NRun 0 3; NRun 0 0; NTake 0 2; NTake 0 2; NTake 0 3; NTake 0 3;
   NRun 2 0; NRun 2 3; NRun 2 0; NRun 3 0; NRun 3 2; NRun 3 0;
   NTake 0 2; NTake 0 3; NReply 2 0; NReply 3 0;
   NTake 2 3; NTake 2 3; NRun 3 0; NTake 3 2; NTake 3 2; NRun 2 0].

Notation gcase := (nrun [2; 3] gbody gmain gops).

Lemma gcase_fits : results_fit (n_hist gcase).
Proof. apply ones_fit. vm_compute. reflexivity. Qed.

Lemma gcase_idle : idle gcase.
Proof.
  intros p. destruct (p_cur (n_proc gcase p)) as [fr|] eqn:E; destruct p as [|[|[|[|p]]]]; vm_compute in E; try discriminate E;
    try (intros _; quiet); apply Some_inj in E as <-; first [left; simpl; split; [reflexivity|split; [reflexivity|eexists; reflexivity]]|right; split; [discriminate|quiet]].
Qed.

Lemma two_workers : ~ In 0 [2; 3].
Proof. intros [X|[X|[]]]; discriminate. Qed.

Lemma fcase_refused : In (2, HRefused (0, 0) (VTuple []) (VDict []) 1) (n_hist fcase).
Proof. rewrite fcase_hist. simpl. tauto. Qed.
