(** Property C22: table metadata survives being stored. *)
From Coq Require Import List NArith ZArith Lia Bool.
From Verif Require Import Bytes BytesFacts Value ValueFacts Log LogFacts Memtable Proto MdCodec MdFacts.
Import ListNotations.
Local Open Scope N_scope.

(** Metadata a 64-bit process can hold and store: numbers fit their types ([md_rep]),
    names are byte strings ([names_rep]),
    the version fits 32 bits and the encoding is shorter than 2^64 bytes. *)
Definition storable (m : FullMetadata) : Prop :=
  md_rep m /\ names_rep m /\ fm_version m < 2 ^ 32 /\ N.of_nat (length (serialize_md m)) < 2 ^ 64.

(** ** C22: stored metadata is read back unchanged. *)
Theorem C22_metadata_round_trip : forall m, storable m -> deserialize_md (serialize_md m) = Some m.
Proof.
  intros m (R & Nm & V & L). rewrite md_rt by assumption. f_equal.
  rewrite N.mod_small by exact V. now destruct m.
Qed.
Print Assumptions C22_metadata_round_trip.

(** Also through the metadata file: whatever the file held before (bytes of longer
    metadata are not cut off) and however often it was rewritten, reading it gives the
    metadata written last. *)
Theorem C22_metadata_file_holds_last_write :
  forall old earlier m, storable m ->
    read_md_file hash_crc32 (write_md_file hash_crc32 (fold_left (write_md_file hash_crc32) earlier old) m) = Some m.
Proof.
  intros old earlier m St. set (o := fold_left _ _ _). clearbody o.
  unfold write_md_file, read_md_file. set (d := serialize_md m).
  destruct (frame_nonempty hash_crc32 d (skipn (length (frame hash_crc32 d)) o)) as (b & r & E).
  rewrite E, <- E. set (tl := skipn _ o). clearbody tl. clear E b r.
  unfold frame. rewrite <- !app_assoc.
  rewrite (read_buf_app hash_crc32) by apply le_bytes_length.
  rewrite (read_buf_app hash_crc32) by apply le_bytes_length.
  rewrite !of_le_le_bytes. change (256 ^ N.of_nat 4) with (2 ^ 32). change (256 ^ N.of_nat 8) with (2 ^ 64). destruct St as (R & Nm & V & L). fold d in L.
  rewrite !N.mod_small; [|apply hash_crc32_bound; now apply serialize_bytes|exact L].
  rewrite Nat2N.id, (read_buf_app hash_crc32) by reflexivity.
  rewrite N.eqb_refl. cbn [negb]. apply C22_metadata_round_trip. exact (conj R (conj Nm (conj V L))).
Qed.
Print Assumptions C22_metadata_file_holds_last_write.

(** Without the bound on the version the property fails: only 32 bits are stored. *)
Theorem C22_large_version_refuted :
  forall m, md_rep m -> 2 ^ 32 <= fm_version m -> N.of_nat (length (serialize_md m)) < 2 ^ 64 ->
    exists m', deserialize_md (serialize_md m) = Some m' /\ fm_version m' < fm_version m.
Proof.
  intros m R V L. eexists. split; [apply md_rt; assumption|].
  cbn. pose proof (N.mod_upper_bound (fm_version m) (2 ^ 32) ltac:(lia)). lia.
Qed.
Print Assumptions C22_large_version_refuted.

Definition sample_md (v : N) : FullMetadata :=
  mkFullMetadata v 42 [116; 49]
    [mkFullField [105; 100] DInt64 false; mkFullField [97] DDecimal true; mkFullField [] DString true]
    [mkFullLevel 0 [];
     mkFullLevel 3 [mkFullPart 1 5000000000 300 [KInt64 (-7); KString [97]] [KInt64 9; KString [255]];
                    mkFullPart 2 10 1 [KTimestamp (-1)] [KInt8 (-128)]]]
    (mkFullStats 1 2 3 4 5 6 18446744073709551615)
    (mkFullOptions 2 true 7 1 10485760 10 1000000 1048576 1 (Some 0) 1000 10000 1024 64 1048576).
Ltac storable_tac := repeat split; cbn; unfold u64_ok, int_ok, bytes_ok, is_bytes; cbn;
  repeat (constructor; cbn; unfold u64_ok, int_ok, bytes_ok, is_bytes; cbn; repeat split; try lia); try lia; repeat constructor; try lia.
Example C22_witness : storable (sample_md 7) /\ deserialize_md (serialize_md (sample_md 7)) = Some (sample_md 7).
Proof. split; [storable_tac|vm_compute; reflexivity]. Qed.
Example C22_witness_file :
  read_md_file hash_crc32 (fold_left (write_md_file hash_crc32)
    [sample_md 1; mkFullMetadata 2 0 [] [] [] (fm_stats (sample_md 0)) (fm_opts (sample_md 0))] [])
  = Some (mkFullMetadata 2 0 [] [] [] (fm_stats (sample_md 0)) (fm_opts (sample_md 0))).
Proof. vm_compute. reflexivity. Qed.
Example C22_witness_large : md_rep (sample_md (2 ^ 32)) /\
  option_map fm_version (deserialize_md (serialize_md (sample_md (2 ^ 32)))) = Some 0.
Proof. split; [storable_tac|vm_compute; reflexivity]. Qed.
