From Verif Require Import Lib EncModel EncSpec.

Section Ind.
Variable P : pval -> Prop.
Hypothesis Pa : forall n, P (XAtom n).
Hypothesis Pb : forall n, P (XBytes n).
Hypothesis Pc : forall n, P (XByteArray n).
Hypothesis Pl : forall l, Forall P l -> P (XList l).
Hypothesis Pd : forall l, Forall (fun kv => P (fst kv) /\ P (snd kv)) l -> P (XDict l).
Hypothesis Pt : forall l, Forall P l -> P (XBuiltin l).
Hypothesis Pf : forall b, P (XFun b).
Hypothesis Pk : forall b, P (XClass b).
Hypothesis Pi : forall b l, Forall P l -> P (XInst b l).
Hypothesis Py : forall l, Forall P l -> P (XArray l).
Hypothesis Pv : forall k l, Forall P l -> P (XView k l).
Hypothesis Pn : P XNever.
Fixpoint pval_all (v : pval) : P v :=
  let all := fix all (l : list pval) : Forall P l := match l with [] => Forall_nil _ | x :: r => Forall_cons _ (pval_all x) (all r) end in
  match v with
  | XAtom n => Pa n | XBytes n => Pb n | XByteArray n => Pc n
  | XList l => Pl l (all l)
  | XDict l => Pd l ((fix alld (l : list (pval * pval)) : Forall (fun kv => P (fst kv) /\ P (snd kv)) l :=
                        match l with [] => Forall_nil _ | x :: r => Forall_cons _ (conj (pval_all (fst x)) (pval_all (snd x))) (alld r) end) l)
  | XBuiltin l => Pt l (all l)
  | XFun b => Pf b | XClass b => Pk b
  | XInst b l => Pi b l (all l)
  | XArray l => Py l (all l)
  | XView k l => Pv k l (all l)
  | XNever => Pn
  end.
End Ind.

Lemma forallb_mono {A} (f g : A -> bool) l : Forall (fun x => f x = true -> g x = true) l -> forallb f l = true -> forallb g l = true.
Proof. induction 1 as [|x l H F IH]; cbn; auto. intros E. apply andb_prop in E as [E1 E2]. rewrite (H E1), (IH E2). reflexivity. Qed.

Lemma dict_mono (f g : pval -> bool) l : Forall (fun kv => (f (fst kv) = true -> g (fst kv) = true) /\ (f (snd kv) = true -> g (snd kv) = true)) l ->
  forallb (fun kv : pval * pval => f (fst kv) && f (snd kv)) l = true -> forallb (fun kv => g (fst kv) && g (snd kv)) l = true.
Proof.
  intros F. apply forallb_mono. apply Forall_forall. intros kv I E. apply (proj1 (Forall_forall _ _) F) in I as [A B]. apply andb_prop in E as [E1 E2]. now rewrite (A E1), (B E2).
Qed.

Lemma plain_cloud v : plain v = true -> cloud v = true.
Proof.
  induction v using pval_all; cbn; auto.
  - now apply forallb_mono.
  - now apply dict_mono.
  - now apply forallb_mono.
  - intros E. apply andb_prop in E as [_ E]. revert E. now apply forallb_mono.
  - now apply forallb_mono.
  - discriminate.
Qed.

Theorem plain_sendable v : pickle_can v -> can_be_sent v.
Proof.
  unfold pickle_can, can_be_sent. induction v using pval_all; cbn [sendable]; auto.
  - now apply forallb_mono.
  - now apply dict_mono.
  - intros E. unfold encode_custom. cbn [is_pickle5 is_cpkl]. now apply plain_cloud.
  - discriminate.
Qed.

Theorem sendable_cloud v : can_be_sent v -> cloudpickle_can v.
Proof.
  unfold cloudpickle_can, can_be_sent. induction v using pval_all; cbn [sendable]; auto.
  - now apply forallb_mono.
  - now apply dict_mono.
  - apply (plain_cloud (XBuiltin l)).
  - apply (plain_cloud (XArray l)).
  - destruct k; [auto|discriminate].
Qed.

Theorem list_iff l : can_be_sent (XList l) <-> Forall can_be_sent l.
Proof. unfold can_be_sent. cbn [sendable]. rewrite forallb_forall, Forall_forall. reflexivity. Qed.
Theorem dict_iff l : can_be_sent (XDict l) <-> Forall (fun kv => can_be_sent (fst kv) /\ can_be_sent (snd kv)) l.
Proof.
  unfold can_be_sent. cbn [sendable]. rewrite forallb_forall, Forall_forall. split; intros H x I; specialize (H x I).
  - now apply andb_prop in H.
  - destruct H as [-> ->]. reflexivity.
Qed.

Lemma inside_sendable u v : inside u v -> can_be_sent v -> can_be_sent u.
Proof.
  induction 1 as [|l x I S0 IH|l k x I S0 IH|l k x I S0 IH]; intros C; auto; apply IH.
  - apply list_iff in C. exact (proj1 (Forall_forall _ _) C x I).
  - apply dict_iff in C. apply (proj1 (Forall_forall _ _) C (k, x) I).
  - apply dict_iff in C. apply (proj1 (Forall_forall _ _) C (k, x) I).
Qed.

Theorem exactly v : can_be_sent v <-> cloudpickle_can v /\ forall u, inside u v -> to_pickle u -> pickle_can u.
Proof.
  split.
  - intros C. split; [now apply sendable_cloud|]. intros u I T. apply (inside_sendable u v I) in C. unfold can_be_sent in C. destruct u; try destruct T; try exact C. destruct keys; [destruct T|exact C].
  - unfold cloudpickle_can. induction v using pval_all; intros [C H0]; try reflexivity.
    + apply list_iff. apply Forall_forall. intros x I. apply (proj1 (Forall_forall _ _) H x I). cbn in C. split; [exact (proj1 (forallb_forall _ _) C x I)|].
      intros u J T. apply H0; [|exact T]. eapply I_list; eauto.
    + apply dict_iff. apply Forall_forall. intros [k x] I. destruct (proj1 (Forall_forall _ _) H (k, x) I) as [A B]. cbn in C. assert (D := proj1 (forallb_forall _ _) C (k, x) I). apply andb_prop in D as [D1 D2]. split.
      * apply A. split; [exact D1|]. intros u J T. apply H0; [|exact T]. eapply I_key; eauto.
      * apply B. split; [exact D2|]. intros u J T. apply H0; [|exact T]. eapply I_value; eauto.
    + apply (H0 (XBuiltin l)); [constructor|exact Logic.I].
    + exact C.
    + apply (H0 (XArray l)); [constructor|exact Logic.I].
    + destruct k; [exact C|]. apply (H0 (XView false l)); [constructor|exact Logic.I].
    + discriminate.
Qed.

Theorem wrapped b v : cloudpickle_can v -> can_be_sent (XInst b [v]).
Proof. unfold cloudpickle_can, can_be_sent. cbn. intros ->. reflexivity. Qed.

Theorem arrives v : (forall n, ~ inside (XByteArray n) v) -> received v = v.
Proof.
  induction v using pval_all; intros N; try reflexivity.
  - elim (N n). constructor.
  - cbn. f_equal. assert (X : Forall (fun x => received x = x) l).
    { apply Forall_forall. intros x I. apply (proj1 (Forall_forall _ _) H x I). intros n J. apply (N n). eapply I_list; eauto. }
    clear - X. induction X as [|x l E F IH]; cbn; congruence.
  - cbn. f_equal. assert (X : Forall (fun kv => (received (fst kv), received (snd kv)) = kv) l).
    { apply Forall_forall. intros [k x] I. destruct (proj1 (Forall_forall _ _) H (k, x) I) as [A B]. cbn in *. rewrite A, B; [reflexivity| |].
      - intros n J. apply (N n). eapply I_value; eauto.
      - intros n J. apply (N n). eapply I_key; eauto. }
    clear - X. induction X as [|x l E F IH]; cbn; congruence.
Qed.

Theorem call_iff args kw outs : Forall can_be_sent outs ->
  can_be_sent (operation_data args kw outs) <-> Forall can_be_sent args /\ Forall (fun kv => can_be_sent (fst kv) /\ can_be_sent (snd kv)) kw.
Proof.
  intros O. unfold operation_data. rewrite dict_iff. split.
  - intros F. inversion F as [|? ? _ F1]; subst. inversion F1 as [|? ? [_ A] F2]; subst. inversion F2 as [|? ? [_ B] _]; subst. cbn in A, B. split; [now apply list_iff|now apply dict_iff].
  - intros [A B]. apply list_iff in A. apply dict_iff in B. apply list_iff in O. repeat constructor; auto.
Qed.

Theorem call_arrives args kw outs : Forall (fun x => forall n, ~ inside (XByteArray n) x) args -> exists kw' outs', received (operation_data args kw outs) = operation_data args kw' outs'.
Proof.
  intros F. exists (map (fun kv => (received (fst kv), received (snd kv))) kw), (map received outs). unfold operation_data. cbn. do 4 f_equal. f_equal. f_equal.
  induction F as [|x l N F IH]; cbn; [reflexivity|]. rewrite IH, arrives by exact N. reflexivity.
Qed.

Theorem tuple_not : exists x, can_be_sent x /\ can_be_sent (XList [x]) /\ can_be_sent (XDict [(XAtom 0, x)]) /\
  cloudpickle_can (XBuiltin [x]) /\ ~ can_be_sent (XBuiltin [x]) /\ cloudpickle_can (XArray [x]) /\ ~ can_be_sent (XArray [x]).
Proof. exists (XFun true). repeat (split; [reflexivity|]). split; [discriminate|]. split; [reflexivity|discriminate]. Qed.

Theorem tuple_never x l : In x l -> ~ pickle_can x -> ~ can_be_sent (XBuiltin l) /\ ~ can_be_sent (XArray l).
Proof. intros I N. split; intros C; apply N; exact (proj1 (forallb_forall _ _) C x I). Qed.

Theorem views l : ~ can_be_sent (XView false l) /\ (can_be_sent (XView true l) <-> Forall cloudpickle_can l).
Proof. split; [discriminate|]. unfold can_be_sent. cbn. rewrite forallb_forall, Forall_forall. reflexivity. Qed.

Lemma arrives_case n : ~ inside (XByteArray n) (XList [XBuiltin [XByteArray 4]; XBytes 2]).
Proof. intros H. inversion H as [|l x I J| |]; subst. destruct I as [<-|[<-|[]]]; inversion J. Qed.

Theorem bytearray_not : exists v, can_be_sent v /\ received v <> v /\ received (XBuiltin [v]) = XBuiltin [v].
Proof. exists (XByteArray 0). split; [reflexivity|]. split; [discriminate|reflexivity]. Qed.

Lemma map_same {A} (f : A -> A) l x : In x l -> map f l = l -> f x = x.
Proof. induction l as [|a l IH]; intros I E; [destruct I|]. cbn in E. injection E as E1 E2. destruct I as [<-|I]; auto. Qed.

Theorem arrives_only v n : inside (XByteArray n) v -> received v <> v.
Proof.
  induction 1 as [|l x I S0 IH|l k x I S0 IH|l k x I S0 IH]; intros E.
  - discriminate.
  - cbn in E. injection E as E. now apply IH, (map_same _ l).
  - cbn in E. injection E as E. apply (map_same _ l (k, x) I) in E. injection E as E1 E2. now apply IH.
  - cbn in E. injection E as E. apply (map_same _ l (k, x) I) in E. injection E as E1 E2. now apply IH.
Qed.
