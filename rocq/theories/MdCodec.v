(** Serialization of table metadata, src/storage/src/table.rs 25-354, and the metadata
    file, src/storage/src/db.rs 281-322. *)
From Coq Require Import List NArith ZArith Bool.
From Verif Require Import Bytes Value Log Memtable Proto.
Import ListNotations.
Local Open Scope N_scope.

Section Codec.
(** table.rs 25-41.  [usize] and [u64] are both [N]; the target is a 64-bit machine. *)
Record FullOptions := mkFullOptions
  { fo_index_cols : N; fo_is_replacing : bool; fo_levels : N; fo_l0_max_parts : N;
    fo_l1_max_size_bytes : N; fo_level_size_multiplier : N; fo_max_log_length_bytes : N;
    fo_merge_max_l1_part_size_bytes : N; fo_merge_part_size_multiplier : N;
    fo_merge_data_page_size_limit_bytes : option N; fo_merge_row_group_values_limit : N;
    fo_merge_array_size : N; fo_merge_chunk_size : N; fo_merge_array_page_size : N;
    fo_merge_max_page_size : N }.
(** lib.rs 119-128 *)
Record FullStats := mkFullStats
  { fs_resident : N; fs_on_disk : N; fs_logged : N; fs_written : N; fs_read : N;
    fs_space_amp : N; fs_write_amp : N }.
Record FullField := mkFullField { ff_name : list N; ff_dt : DType; ff_null : bool }.
(** table.rs 76-83 *)
Record FullPart := mkFullPart
  { fp_id : N; fp_size : N; fp_values : N; fp_min : list KeyValue; fp_max : list KeyValue }.
(** table.rs 85-92 *)
Record FullLevel := mkFullLevel { fl_part_id : N; fl_parts : list FullPart }.
(** table.rs 119-128 *)
Record FullMetadata := mkFullMetadata
  { fm_version : N; fm_log_id : N; fm_table_name : list N; fm_schema : list FullField;
    fm_levels : list FullLevel; fm_stats : FullStats; fm_opts : FullOptions }.

(** table.rs 149-162, the enum of metadata.proto.  [DType] has no time unit, time zone,
    decimal precision or scale: the code writes none and reads back milliseconds
    without zone and the fixed precision 28 and scale 16 (table.rs 272-274). *)
Definition dt_tag (dt : DType) : N :=
  match dt with
  | DString => 1 | DInt8 => 2 | DInt16 => 3 | DInt32 => 4 | DInt64 => 5
  | DDecimal => 6 | DBoolean => 7 | DTimestamp => 8
  end.
(** table.rs 265-276; other numbers panic. *)
Definition dt_of_tag (n : N) : option DType :=
  match n with
  | 1 => Some DString | 2 => Some DInt8 | 3 => Some DInt16 | 4 => Some DInt32 | 5 => Some DInt64
  | 6 => Some DDecimal | 7 => Some DBoolean | 8 => Some DTimestamp
  | _ => None
  end.

(** table.rs 178-203 with the message of metadata.proto *)
Definition put_key (k : KeyValue) : Fields :=
  match k with
  | KInt8 z => put_ouint 1 (Some (to_unsigned 32 z))
  | KInt16 z => put_ouint 2 (Some (to_unsigned 32 z))
  | KInt32 z => put_ouint 3 (Some (to_unsigned 32 z))
  | KInt64 z => put_ouint 4 (Some (to_unsigned 64 z))
  | KString s => put_obytes 5 (Some s)
  | KTimestamp z => put_ouint 6 (Some (to_unsigned 64 z))
  end.
Definition put_part (p : FullPart) : Fields :=
  put_uint 1 (fp_id p) ++ put_uint 2 (fp_size p) ++ put_uint 3 (fp_values p)
  ++ put_rep 4 (map put_key (fp_min p)) ++ put_rep 5 (map put_key (fp_max p)).
Definition put_level (l : FullLevel) : Fields :=
  put_uint 1 (fl_part_id l) ++ put_rep 2 (map put_part (fl_parts l)).
Definition put_field (f : FullField) : Fields :=
  put_bytes 1 (ff_name f) ++ put_uint 2 (dt_tag (ff_dt f)) ++ put_bool 3 (ff_null f).
Definition put_stats (s : FullStats) : Fields :=
  put_uint 1 (fs_resident s) ++ put_uint 2 (fs_on_disk s) ++ put_uint 3 (fs_logged s)
  ++ put_uint 4 (fs_written s) ++ put_uint 5 (fs_read s) ++ put_uint 6 (fs_space_amp s)
  ++ put_uint 7 (fs_write_amp s).
Definition put_opts (o : FullOptions) : Fields :=
  put_uint 1 (fo_index_cols o) ++ put_bool 2 (fo_is_replacing o) ++ put_uint 3 (fo_levels o)
  ++ put_uint 4 (fo_l0_max_parts o) ++ put_uint 5 (fo_l1_max_size_bytes o)
  ++ put_uint 6 (fo_level_size_multiplier o) ++ put_uint 7 (fo_max_log_length_bytes o)
  ++ put_uint 8 (fo_merge_max_l1_part_size_bytes o) ++ put_uint 9 (fo_merge_part_size_multiplier o)
  ++ put_ouint 10 (fo_merge_data_page_size_limit_bytes o)
  ++ put_uint 11 (fo_merge_row_group_values_limit o) ++ put_uint 12 (fo_merge_array_size o)
  ++ put_uint 13 (fo_merge_chunk_size o) ++ put_uint 14 (fo_merge_array_page_size o)
  ++ put_uint 15 (fo_merge_max_page_size o).

(** [serialize_md], table.rs 143-249; [version as u32] keeps the low 32 bits. *)
Definition put_md (m : FullMetadata) : Fields :=
  put_uint 1 (fm_version m mod 2 ^ 32) ++ put_uint 2 (fm_log_id m) ++ put_bytes 3 (fm_table_name m)
  ++ put_msg 4 (put_rep 1 (map put_field (fm_schema m)))
  ++ put_rep 5 (map put_level (fm_levels m))
  ++ put_msg 6 (put_stats (fm_stats m)) ++ put_msg 7 (put_opts (fm_opts m)).
Definition serialize_md (m : FullMetadata) : list N := enc_fields (put_md m).

(** *** Reading *)
Definition obind {A B} (o : option A) (f : A -> option B) : option B :=
  match o with Some a => f a | None => None end.
Fixpoint omap {A B} (f : A -> option B) (l : list A) : option (list B) :=
  match l with
  | [] => Some []
  | a :: r => obind (f a) (fun b => option_map (cons b) (omap f r))
  end.
Local Notation "'do' x <- a ; b" := (obind a (fun x => b)) (at level 200, x name, a at level 100, b at level 200).
Definition u32 (n : N) : N := n mod 2 ^ 32.

(** table.rs 288-304: the first present field decides; none present panics. *)
Definition get_key (b : list N) : option KeyValue :=
  do fs <- dec_fields b;
  do i8 <- get_ouint 1 fs; do i16 <- get_ouint 2 fs; do i32 <- get_ouint 3 fs;
  do i64 <- get_ouint 4 fs; do st <- get_obytes 5 fs; do ts <- get_ouint 6 fs;
  match i8 with Some v => Some (KInt8 (of_unsigned 8 (u32 v mod 2 ^ 8))) | None =>
  match i16 with Some v => Some (KInt16 (of_unsigned 16 (u32 v mod 2 ^ 16))) | None =>
  match i32 with Some v => Some (KInt32 (of_unsigned 32 (u32 v))) | None =>
  match i64 with Some v => Some (KInt64 (of_unsigned 64 v)) | None =>
  match st with Some s => Some (KString s) | None =>
  match ts with Some v => Some (KTimestamp (of_unsigned 64 v)) | None => None
  end end end end end end.
(** table.rs 306-313 *)
Definition get_part (b : list N) : option FullPart :=
  do fs <- dec_fields b;
  do i <- get_uint 1 fs; do s <- get_uint 2 fs; do v <- get_uint 3 fs;
  do mn <- get_rep 4 fs; do mx <- get_rep 5 fs;
  do mnk <- omap get_key mn; do mxk <- omap get_key mx;
  Some (mkFullPart i s v mnk mxk).
(** table.rs 281-318 *)
Definition get_level (b : list N) : option FullLevel :=
  do fs <- dec_fields b;
  do i <- get_uint 1 fs; do ps <- get_rep 2 fs; do parts <- omap get_part ps;
  Some (mkFullLevel i parts).
(** table.rs 264-278 *)
Definition get_field (b : list N) : option FullField :=
  do fs <- dec_fields b;
  do n <- get_bytes 1 fs; do t <- get_uint 2 fs; do nu <- get_bool 3 fs;
  do dt <- dt_of_tag (u32 t);
  Some (mkFullField n dt nu).
(** table.rs 319-327 *)
Definition get_stats (b : list N) : option FullStats :=
  do fs <- dec_fields b;
  do a1 <- get_uint 1 fs; do a2 <- get_uint 2 fs; do a3 <- get_uint 3 fs; do a4 <- get_uint 4 fs;
  do a5 <- get_uint 5 fs; do a6 <- get_uint 6 fs; do a7 <- get_uint 7 fs;
  Some (mkFullStats a1 a2 a3 a4 a5 a6 a7).
(** table.rs 328-350 *)
Definition get_opts (b : list N) : option FullOptions :=
  do fs <- dec_fields b;
  do a1 <- get_uint 1 fs; do a2 <- get_bool 2 fs; do a3 <- get_uint 3 fs; do a4 <- get_uint 4 fs;
  do a5 <- get_uint 5 fs; do a6 <- get_uint 6 fs; do a7 <- get_uint 7 fs; do a8 <- get_uint 8 fs;
  do a9 <- get_uint 9 fs; do a10 <- get_ouint 10 fs; do a11 <- get_uint 11 fs;
  do a12 <- get_uint 12 fs; do a13 <- get_uint 13 fs; do a14 <- get_uint 14 fs; do a15 <- get_uint 15 fs;
  Some (mkFullOptions a1 a2 a3 a4 a5 a6 a7 a8 a9 a10 a11 a12 a13 a14 a15).
(** [deserialize_md], table.rs 251-354; [None] = error or panic ([unwrap] of an absent
    schema, stats or options). *)
Definition deserialize_md (b : list N) : option FullMetadata :=
  do fs <- dec_fields b;
  do v <- get_uint 1 fs; do l <- get_uint 2 fs; do n <- get_bytes 3 fs;
  do sb <- get_msg 4 fs; do sb' <- sb; do sfs <- dec_fields sb'; do sfr <- get_rep 1 sfs;
  do sch <- omap get_field sfr;
  do lv <- get_rep 5 fs; do levels <- omap get_level lv;
  do st <- get_msg 6 fs; do st' <- st; do stats <- get_stats st';
  do op <- get_msg 7 fs; do op' <- op; do opts <- get_opts op';
  Some (mkFullMetadata (u32 v) l n sch levels stats opts).

(** *** The metadata file *)
Variable crc : list N -> N.
(** [write_metadata], db.rs 281-296: rewinds and overwrites; the file is not truncated. *)
Definition write_md_file (old : list N) (m : FullMetadata) : list N :=
  let rec := frame crc (serialize_md m) in rec ++ skipn (length rec) old.
(** db.rs 298-322 *)
Definition read_md_file (file : list N) : option FullMetadata :=
  match file with
  | [] => None
  | _ =>
    let '(crc_b, l1) := read_buf 4 file in
    let '(len_b, l2) := read_buf 8 l1 in
    let '(data, _) := read_buf (N.to_nat (of_le len_b)) l2 in
    if negb (of_le crc_b =? crc data) then None else deserialize_md data
  end.
End Codec.
