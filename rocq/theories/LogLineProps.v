(** C101: the lines of the communication log. *)
From Coq Require Import String Ascii.
From Verif Require Import Lib LogLineModel LogLineSpec LogLineProofs.

(** Every line is the name of the operation, a colon, and the picture of the message, with any number of processes. *)
Theorem C101_picture : forall size source dest op l, source < size -> dest < size -> log_line size source dest op = Some l ->
  exists name, named op name /\ l = name ++ tx ":" ++ rep (15 - List.length name) (tx " ") ++ picture size source dest.
Proof. exact line_picture. Qed.
Print Assumptions C101_picture.

(** From a line one can tell the operation, the sender and the receiver. *)
Theorem C101_read : forall size source dest op source' dest' op' l, source < size -> dest < size -> source' < size -> dest' < size ->
  log_line size source dest op = Some l -> log_line size source' dest' op' = Some l -> op = op' /\ source = source' /\ dest = dest'.
Proof. exact line_inj. Qed.
Print Assumptions C101_read.

(** Logging never fails for an operation of the protocol, and fails for anything else. *)
Theorem C101_defined : forall size source dest op, log_line size source dest op <> None <-> operation op.
Proof. exact line_some. Qed.
Print Assumptions C101_defined.

(** A process writes one line for each operation it receives, in order; the header comes first, once, from the first worker only. *)
Theorem C101_header : forall first_worker size rank ops, (forall o, In o ops -> operation (fst o)) ->
  exists out, log_all first_worker size rank false ops = Some out /\
    exists ls, Forall2 (fun o l => log_line size (snd o) rank (fst o) = Some l) ops ls /\
    out = match ops with [] => [] | _ => if Nat.eqb rank first_worker then [Header (seq 0 size)] else [] end ++ map Line ls.
Proof.
  intros fw n r ops O. destruct (log_all fw n r false ops) as [out|] eqn:E; [|now apply log_all_some in E].
  exists out. split; [reflexivity|]. exact (log_all_lines fw n r ops false out E).
Qed.
Print Assumptions C101_header.

(** Lines are aligned: process k has column 16 + 4k in every line of an operation whose name has at most 15 letters. *)
Theorem C101_columns_partial : forall size source dest op l name, source < size -> dest < size -> log_line size source dest op = Some l ->
  named op name -> List.length name <= 15 ->
  List.length l = 4 * size + 13 /\ forall k, k < size -> nth_error l (16 + 4 * k) = Some (mark source dest k).
Proof. exact line_columns. Qed.
Print Assumptions C101_columns_partial.

(** They are not for the three operations with longer names. *)
Theorem C101_columns_refuted : exists size source dest op l, source < size /\ dest < size /\ operation op /\ log_line size source dest op = Some l /\
  nth_error l (16 + 4 * dest) <> Some (mark source dest dest).
Proof.
  exists 4, 2, 1, 12. eexists. split; [lia|]. split; [lia|]. split; [unfold operation; lia|]. split; [reflexivity|]. vm_compute. discriminate.
Qed.
Print Assumptions C101_columns_refuted.

(** ** Cases *)
Example C101_picture_case : log_line 5 1 3 2 = Some (tx "GET:            .   .---.--->   .") /\ log_line 5 4 2 9 = Some (tx "CLEANUP:        .   .   <---.---.").
Proof. split; reflexivity. Qed.
Example C101_read_case : named 2 (tx "GET") /\ (forall l, log_line 5 1 3 2 = Some l -> log_line 5 3 1 2 <> Some l).
Proof. split; [exists "GET"%string; cbn; tauto|]. intros l E E'. destruct (C101_read 5 1 3 2 3 1 2 l) as (_ & X & _); auto; try lia; discriminate X. Qed.
Example C101_defined_case : operation 16 /\ ~ operation 17.
Proof. unfold operation. lia. Qed.
Example C101_header_case : log_all 2 4 2 false [(1, 0); (2, 3)] =
  Some [Header [0; 1; 2; 3]; Line (tx "EXECUTE:        .---.--->   ."); Line (tx "GET:            .   .   <---.")].
Proof. reflexivity. Qed.
Example C101_columns_partial_case : exists l, log_line 5 4 2 5 = Some l /\ named 5 (tx "PUT_SHARED_DATA") /\ List.length (tx "PUT_SHARED_DATA") = 15 /\
  nth_error l (16 + 4 * 2) = Some "<"%char.
Proof. eexists. split; [reflexivity|]. split; [exists "PUT_SHARED_DATA"%string; cbn; tauto|]. split; reflexivity. Qed.
