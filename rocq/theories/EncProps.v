(** C103. Whatever can be sent by itself can be sent inside a container. *)
From Verif Require Import Lib EncModel EncSpec EncProofs.

(** A list can be sent exactly if its items can, a dictionary if its keys and values can. *)
Theorem C103_list : forall l, can_be_sent (XList l) <-> Forall can_be_sent l.
Proof. exact list_iff. Qed.
Print Assumptions C103_list.
Theorem C103_dict : forall l, can_be_sent (XDict l) <-> Forall (fun kv => can_be_sent (fst kv) /\ can_be_sent (snd kv)) l.
Proof. exact dict_iff. Qed.
Print Assumptions C103_dict.
(** A list of a dictionary with a lambda and of an instance of a local class that holds a tuple with a lambda. *)
Example C103_list_case : can_be_sent (XList [XDict [(XAtom 1, XFun true)]; XInst true [XBuiltin [XFun true]]]) /\ ~ can_be_sent (XList [XAtom 1; XNever]).
Proof. split; [reflexivity|discriminate]. Qed.

(** A call can be sent exactly if each of its arguments can. *)
Theorem C103_call : forall args kw outs, Forall can_be_sent outs ->
  can_be_sent (operation_data args kw outs) <-> Forall can_be_sent args /\ Forall (fun kv => can_be_sent (fst kv) /\ can_be_sent (snd kv)) kw.
Proof. exact call_iff. Qed.
Print Assumptions C103_call.
Example C103_call_case : Forall can_be_sent [XInst false []] /\ can_be_sent (operation_data [XFun true; XAtom 3] [(XAtom 7, XClass true)] [XInst false []]) /\
  ~ can_be_sent (operation_data [XBuiltin [XFun true]] [] [XInst false []]).
Proof. split; [repeat constructor|split; [reflexivity|discriminate]]. Qed.

(** What pickle can encode can be sent; what can be sent cloudpickle can encode. *)
Theorem C103_at_least : forall v, pickle_can v -> can_be_sent v.
Proof. exact plain_sendable. Qed.
Print Assumptions C103_at_least.
Theorem C103_at_most : forall v, can_be_sent v -> cloudpickle_can v.
Proof. exact sendable_cloud. Qed.
Print Assumptions C103_at_most.
Example C103_at_least_case : pickle_can (XBuiltin [XFun false; XArray [XAtom 1]; XInst false [XBytes 3]]).
Proof. reflexivity. Qed.

(** Exactly which values can be sent: those cloudpickle can encode in which every tuple, set, array, data frame and view of values that lists and
    dictionaries lead to is one that pickle can encode. *)
Theorem C103_exactly_partial : forall v, can_be_sent v <-> cloudpickle_can v /\ forall u, inside u v -> to_pickle u -> pickle_can u.
Proof. exact exactly. Qed.
Print Assumptions C103_exactly_partial.
(** So an instance that holds the value can always be sent. *)
Theorem C103_wrapped : forall b v, cloudpickle_can v -> can_be_sent (XInst b [v]).
Proof. exact wrapped. Qed.
Print Assumptions C103_wrapped.
Example C103_wrapped_case : cloudpickle_can (XBuiltin [XFun true]) /\ inside (XBuiltin [XFun true]) (XList [XAtom 1; XBuiltin [XFun true]]).
Proof. split; [reflexivity|]. eapply I_list; [right; left; reflexivity|constructor]. Qed.

(** A value that can be sent alone, in a list and in a dictionary, but not in a tuple or a set and not in an array or data frame, although cloudpickle,
    which sends it alone, can encode these. *)
Theorem C103_tuple_refuted : exists x, can_be_sent x /\ can_be_sent (XList [x]) /\ can_be_sent (XDict [(XAtom 0, x)]) /\
  cloudpickle_can (XBuiltin [x]) /\ ~ can_be_sent (XBuiltin [x]) /\ cloudpickle_can (XArray [x]) /\ ~ can_be_sent (XArray [x]).
Proof. exact tuple_not. Qed.
Print Assumptions C103_tuple_refuted.
(** This holds for everything that pickle cannot encode. *)
Theorem C103_tuple_never : forall x l, In x l -> ~ pickle_can x -> ~ can_be_sent (XBuiltin l) /\ ~ can_be_sent (XArray l).
Proof. exact tuple_never. Qed.
Print Assumptions C103_tuple_never.
Example C103_tuple_never_case : In (XInst true []) [XAtom 1; XInst true []] /\ ~ pickle_can (XInst true []) /\ can_be_sent (XInst true []).
Proof. split; [right; left; reflexivity|split; [discriminate|reflexivity]]. Qed.

(** The keys of a dictionary can be sent, its values and items never. *)
Theorem C103_views_refuted : forall l, ~ can_be_sent (XView false l) /\ (can_be_sent (XView true l) <-> Forall cloudpickle_can l).
Proof. exact views. Qed.
Print Assumptions C103_views_refuted.

(** What arrives is what was sent, unless there is a bytearray in it that lists and dictionaries lead to: it arrives as bytes. *)
Theorem C103_arrives_partial : forall v, (forall n, ~ inside (XByteArray n) v) -> received v = v.
Proof. exact arrives. Qed.
Print Assumptions C103_arrives_partial.
Example C103_arrives_case : forall n, ~ inside (XByteArray n) (XList [XBuiltin [XByteArray 4]; XBytes 2]).
Proof. exact arrives_case. Qed.
Theorem C103_bytearray_refuted : exists v, can_be_sent v /\ received v <> v /\ received (XBuiltin [v]) = XBuiltin [v].
Proof. exact bytearray_not. Qed.
Print Assumptions C103_bytearray_refuted.
(** Exactly then. *)
Theorem C103_arrives_only : forall v n, inside (XByteArray n) v -> received v <> v.
Proof. exact arrives_only. Qed.
Print Assumptions C103_arrives_only.
