(** Properties C01-C03: the write-ahead log. *)
From Coq Require Import List NArith ZArith Lia Bool.
From Verif Require Import Bytes BytesFacts Value ValueFacts Log LogFacts.
Import ListNotations.
Local Open Scope N_scope.

(** A sample row used by the witnesses below: one negative key, one string key, and a
    null, a decimal, a string and a list value. *)
Definition sample_op : LogOp :=
  Insert [KInt64 (-5); KString [97; 98]]
         [VNull; VDecimal (Some (-150000)%Z); VString (Some [255; 0]);
          VListInt16 (Some [Some (-1)%Z; None]); VBoolean (Some true)].
Definition sample_op2 : LogOp := Insert [KInt64 7; KString []] [VInt8 None; VTimestamp (Some 12%Z)].

Lemma sample_loggable : loggable sample_op.
Proof.
  repeat split; cbn; try lia; repeat (constructor; cbn; unfold int_ok, bytes_ok, is_bytes; cbn; try lia; repeat split);
  try lia; repeat constructor; lia.
Qed.
Lemma sample2_loggable : loggable sample_op2.
Proof.
  repeat split; cbn; try lia; repeat (constructor; cbn; unfold int_ok, bytes_ok, is_bytes; cbn; try lia; repeat split);
  try lia; repeat constructor; lia.
Qed.

(** ** C01: a logged operation is read back unchanged. *)
Theorem C01_log_record_round_trip :
  forall op rest, op_ok op -> deserialize_op (enc_op op ++ rest) = Some op.
Proof. exact (fun op rest => deserialize_enc_op op rest). Qed.
Print Assumptions C01_log_record_round_trip.

Example C01_witness :
  op_ok sample_op /\ deserialize_op (enc_op sample_op) = Some sample_op.
Proof. split; [apply sample_loggable|vm_compute; reflexivity]. Qed.

(** ** C02: reopening a log of complete records yields exactly these records. *)
Theorem C02_reopen_replays_log :
  forall ops, Forall loggable ops ->
    recover_log hash_crc32 (log_file hash_crc32 ops) = Ok ops.
Proof. exact (fun ops H => recover_log_complete hash_crc32 ops (loggable_records ops H)). Qed.
Print Assumptions C02_reopen_replays_log.

Example C02_witness :
  Forall loggable [sample_op; sample_op2; sample_op] /\
  recover_log hash_crc32 (log_file hash_crc32 [sample_op; sample_op2; sample_op])
  = Ok [sample_op; sample_op2; sample_op].
Proof.
  split; [|vm_compute; reflexivity].
  repeat (apply Forall_cons; [first [exact sample_loggable|exact sample2_loggable]|]); apply Forall_nil.
Qed.

(** ** C03: torn last record.
    Full statement (false, see [C03_torn_tail_refuted]): for all [ops], [op] and every
    [k < length (log_record op)], recovery of
    [log_file ops ++ firstn k (log_record op)] is [Ok (ops ++ tail)] with [tail] a prefix of [[op]]. *)

(** Two acknowledged rows and five bytes of a third: the table does not open. *)
Theorem C03_torn_tail_refuted :
  exists ops op k, Forall loggable ops /\ loggable op /\ ops <> [] /\
    (k < length (log_record hash_crc32 op))%nat /\
    recover_log hash_crc32 (log_file hash_crc32 ops ++ firstn k (log_record hash_crc32 op))
    = Err CorruptedLog.
Proof.
  exists [sample_op; sample_op2], sample_op, 5%nat.
  split; [repeat (apply Forall_cons; [first [exact sample_loggable|exact sample2_loggable]|]); apply Forall_nil|].
  split; [apply sample_loggable|]. split; [discriminate|].
  split; [vm_compute; lia|vm_compute; reflexivity].
Qed.
Print Assumptions C03_torn_tail_refuted.

(** Worse: every cut inside the first four bytes of any record makes any log unreadable. *)
Theorem C03_torn_header_never_opens_refuted :
  forall ops op k, Forall loggable ops -> (0 < k <= 4)%nat ->
    exists e,
    recover_log hash_crc32 (log_file hash_crc32 ops ++ firstn k (log_record hash_crc32 op)) = Err e.
Proof.
  intros ops op k H Hk. rewrite recover_log_app by (apply loggable_records; exact H).
  destruct (recover_torn_header hash_crc32 op k Hk) as [e ->]. eauto.
Qed.
Print Assumptions C03_torn_header_never_opens_refuted.

(** What does hold: recovery of a torn log never shows anything but the written records, provided
    the checksum tells the real payload from its zero-padded cuts ([torn_image], the only payloads
    recovery can look at).  Missing from C03: that the table opens. *)
Theorem C03_torn_tail_partial :
  forall ops op k shown,
    Forall loggable ops -> loggable op -> (k < length (log_record hash_crc32 op))%nat ->
    (forall d, torn_image (enc_op op) d -> hash_crc32 d = hash_crc32 (enc_op op) -> d = enc_op op) ->
    recover_log hash_crc32 (log_file hash_crc32 ops ++ firstn k (log_record hash_crc32 op)) = Ok shown ->
    shown = ops \/ shown = ops ++ [op].
Proof. exact torn_tail_shows_only_written. Qed.
Print Assumptions C03_torn_tail_partial.

(** The sample record meets the checksum hypothesis, and both outcomes occur: its last payload byte
    cut off is noticed; [sample_op2] ends in zero bytes, and losing those is harmless. *)
Example C03_witness_hypothesis :
  forall d, torn_image (enc_op sample_op) d ->
    hash_crc32 d = hash_crc32 (enc_op sample_op) -> d = enc_op sample_op.
Proof. apply torn_images_check. vm_compute. reflexivity. Qed.
Example C03_witness_cut :
  recover_log hash_crc32 (log_file hash_crc32 [sample_op2]
    ++ firstn (pred (length (log_record hash_crc32 sample_op2))) (log_record hash_crc32 sample_op2))
  = Ok [sample_op2; sample_op2].
Proof. vm_compute. reflexivity. Qed.
