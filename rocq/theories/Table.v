(** One table of the storage engine: metadata, memtable, log handle and the files on
    disk, with the operations insert, flush, add_field, gc and reopen.
    src/storage/src/db.rs and src/storage/src/table.rs. *)
From Coq Require Import List NArith ZArith Bool String.
From Verif Require Import Bytes Value Log AMap Memtable.
Import ListNotations.

(** arrow2 field (name, type, nullability) of the table schema. *)
Record Field := mkField { f_name : string; f_dt : DType; f_null : bool }.

(** table.rs 25-41; the options of merging and level sizing belong to compaction. *)
Record Options := mkOptions
  { o_index_cols : nat; o_replacing : bool; o_levels : nat; o_max_log : N }.

(** table.rs 76-108.  File sizes are left out (statistics and level sizing). *)
Record Part := mkPart { p_id : nat; p_values : nat; p_min : list KeyValue; p_max : list KeyValue }.
Record Level := mkLevel { l_next : nat; l_parts : list Part }.

(** table.rs 119-128 without version, table name and statistics.  [logged_bytes], the
    only statistic with behaviour, is a field of the table below, because reopening
    recomputes it (db.rs 383). *)
Record Metadata := mkMd
  { md_log_id : N; md_schema : list Field; md_levels : list Level; md_opts : Options }.

(** A part file: its own schema and its rows. *)
Record PartFile := mkPf { pf_fields : list Field; pf_rows : list Row }.

Definition lp_dec : forall a b : nat * nat, {a = b} + {a <> b}.
Proof. repeat decide equality. Defined.

(** Directory of a table.  [d_md = None]: the metadata file does not pass its checksum
    (torn write).  Logs are byte lists by log id, parts by level and part id. *)
Record Disk := mkDisk
  { d_md : option Metadata;
    d_logs : list (N * list N);
    d_parts : list ((nat * nat) * PartFile) }.

(** table.rs 110-118.  [t_log] is the id of the log file the open handle refers to. *)
Record Table := mkTable
  { t_md : Metadata; t_mem : Memtable; t_logged : N; t_log : N; t_disk : Disk }.

(** *** Files *)
Inductive Effect :=
| CreatePart (lvl id : nat) (pf : PartFile)   (* OpenOptions create_new, db.rs 478-485 *)
| WriteMd (md : Metadata)                     (* write_metadata, db.rs 281-296 *)
| RemoveLog (id : N)                          (* Fs::try_remove_file, db.rs 548 *)
| CreateLog (id : N).                         (* create_new, db.rs 549-553 *)

(** Assumes no scan or backup holds the files open (C19 treats the counters). *)
Definition apply_effect (d : Disk) (e : Effect) : result fault Disk :=
  match e with
  | CreatePart l i pf =>
    match aget lp_dec (l, i) (d_parts d) with
    | Some _ => Err IoError
    | None => Ok (mkDisk (d_md d) (d_logs d) (aset lp_dec (l, i) pf (d_parts d)))
    end
  | WriteMd md => Ok (mkDisk (Some md) (d_logs d) (d_parts d))
  | RemoveLog i =>
    match aget N.eq_dec i (d_logs d) with
    | None => Err IoError
    | Some _ => Ok (mkDisk (d_md d) (adel N.eq_dec i (d_logs d)) (d_parts d))
    end
  | CreateLog i =>
    match aget N.eq_dec i (d_logs d) with
    | Some _ => Err IoError
    | None => Ok (mkDisk (d_md d) (aset N.eq_dec i [] (d_logs d)) (d_parts d))
    end
  end.

(** Effects in order; the disk reached before the first failing one, and the number of
    effects that succeeded. *)
Fixpoint apply_effects (d : Disk) (es : list Effect) : Disk * nat * bool :=
  match es with
  | [] => (d, 0, true)
  | e :: r => match apply_effect d e with
              | Err _ => (d, 0, false)
              | Ok d' => let '(d'', n, ok) := apply_effects d' r in (d'', S n, ok)
              end
  end.

(** *** Flush *)
(** parquet/mod.rs 64-109: key of the first and the last row of a sorted chunk.
    [None] = panic (unsupported key type, empty chunk).  A null key slot reads as the
    default value of the array. *)
Definition key_of_cell (dt : DType) (c : cell) : option KeyValue :=
  match dt with
  | DInt8 => Some (KInt8 (raw_i64 c)) | DInt16 => Some (KInt16 (raw_i64 c))
  | DInt32 => Some (KInt32 (raw_i64 c)) | DInt64 => Some (KInt64 (raw_i64 c))
  | DTimestamp => Some (KTimestamp (raw_i64 c))
  | _ => None
  end.
Fixpoint row_key (dts : list DType) (r : Row) (n : nat) {struct n} : option (list KeyValue) :=
  match n, dts, r with
  | O, _, _ => Some []
  | S n', dt :: dts', c :: r' =>
    match key_of_cell dt c, row_key dts' r' n' with
    | Some k, Some ks => Some (k :: ks)
    | _, _ => None
    end
  | _, _, _ => None
  end.
Definition chunk_min_max (dts : list DType) (rows : list Row) (ic : nat)
  : option (list KeyValue * list KeyValue) :=
  match rows with
  | [] => None
  | r0 :: _ => match row_key dts r0 ic, row_key dts (last rows []) ic with
               | Some a, Some b => Some (a, b)
               | _, _ => None
               end
  end.

Definition dts_of (fs : list Field) : list DType := map f_dt fs.

Section WithSort.
(** [lexsort] is [lexsort_to_indices]; see [lexsort_contract]. *)
Variable lexsort : list (list cell) -> list nat.

(** [write_level0] up to creating the file, db.rs 444-495: the part's metadata and
    contents.  [Panic] for the [unwrap] of an empty memtable, for an empty replacing
    chunk and for unsupported key types. *)
Definition level0_part (md : Metadata) (m : Memtable) : result fault (Part * PartFile) :=
  match mt_chunk lexsort m None (o_index_cols (md_opts md)) (o_replacing (md_opts md)) with
  | Err e => Err e
  | Ok None => Err Panic
  | Ok (Some rows) =>
    match chunk_min_max (map c_dt m) rows (o_index_cols (md_opts md)) with
    | None => Err Panic
    | Some (mn, mx) =>
      match md_levels md with
      | [] => Err Panic                                      (* levels[0] *)
      | l0 :: _ => Ok (mkPart (l_next l0) (List.length rows) mn mx, mkPf (md_schema md) rows)
      end
    end
  end.

(** Metadata after a flush, db.rs 524-532. *)
Definition md_flushed (md : Metadata) (p : Part) : Metadata :=
  mkMd (md_log_id md + 1) (md_schema md)
       (match md_levels md with
        | [] => []
        | l0 :: r => mkLevel (S (l_next l0)) (l_parts l0 ++ [p]) :: r
        end)
       (md_opts md).

(** The file operations of a flush in program order, db.rs 524-553. *)
Definition flush_effects (md : Metadata) (p : Part) (pf : PartFile) : list Effect :=
  [CreatePart 0 (p_id p) pf; WriteMd (md_flushed md p);
   RemoveLog (md_log_id (md_flushed md p) - 1); CreateLog (md_log_id (md_flushed md p))].

(** [flush_log_] and the replacement of the log handle by its callers, db.rs 497-559,
    783-787, 1199-1205.  The memtable is emptied first (513-514); an error leaves
    everything done so far in place. *)
Definition flush_log (t : Table) : Table * result fault unit :=
  let mem' := mt_create_empty (t_mem t) in
  match level0_part (t_md t) (t_mem t) with
  | Err e => (mkTable (t_md t) mem' (t_logged t) (t_log t) (t_disk t), Err e)
  | Ok (p, pf) =>
    let md' := md_flushed (t_md t) p in
    let '(d', n, ok) := apply_effects (t_disk t) (flush_effects (t_md t) p pf) in
    match n with
    | O => (mkTable (t_md t) mem' (t_logged t) (t_log t) d', Err IoError)  (* part file exists *)
    | _ => if ok then (mkTable md' mem' 0%N (md_log_id md') d', Ok tt)
           else (mkTable md' mem' 0%N (t_log t) d', Err IoError)
    end
  end.

(** [OptiDBImpl::flush], db.rs 1188-1206 *)
Definition flush (t : Table) : Table * result fault unit :=
  if Nat.eqb (mt_len (t_mem t)) 0 then (t, Ok tt) else flush_log t.

(** Files left behind when the process dies inside a flush after [k] of its file
    operations. *)
Definition flush_crash (t : Table) (k : nat) : Disk :=
  match level0_part (t_md t) (t_mem t) with
  | Err _ => t_disk t
  | Ok (p, pf) => fst (fst (apply_effects (t_disk t) (firstn k (flush_effects (t_md t) p pf))))
  end.

(** *** Insert *)
Notation NamedValue := (string * Value)%type.

Definition find_field (fs : list Field) (n : string) : option Field :=
  List.find (fun f => String.eqb (f_name f) n) fs.

(** db.rs 722-731 *)
Definition type_ok (v : Value) (dt : DType) : bool :=
  match v, dt with
  | VInt8 _, DInt8 | VInt16 _, DInt16 | VInt32 _, DInt32 | VInt64 _, DInt64
  | VBoolean _, DBoolean | VDecimal _, DDecimal | VString _, DString | VTimestamp _, DTimestamp => true
  | _, _ => false
  end.
(** db.rs 714-741 *)
Fixpoint check_values (fs : list Field) (vals : list NamedValue) : result fault unit :=
  match vals with
  | [] => Ok tt
  | (n, v) :: r => match find_field fs n with
                   | None => Err NoColumn
                   | Some f => if type_ok v (f_dt f) then check_values fs r else Err BadType
                   end
  end.
(** db.rs 743-746; [drain(0..index_cols)] panics on a shorter list, [KeyValue::from] on
    a null. *)
Definition key_values (ic : nat) (vals : list NamedValue) : option (list KeyValue) :=
  if Nat.ltb (List.length vals) ic then None
  else mapM (fun nv => key_of_value (snd nv)) (firstn ic vals).
(** db.rs 747-764 *)
Definition value_for (vals : list NamedValue) (f : Field) : Value :=
  match List.find (fun nv => String.eqb (f_name f) (fst nv)) vals with
  | Some nv => snd nv
  | None => VNull
  end.
Definition final_values (fs : list Field) (ic : nat) (vals : list NamedValue) : list Value :=
  map (value_for (skipn ic vals)) (skipn ic fs).

(** Appending to the open log; a log file that has been unlinked keeps no bytes. *)
Definition append_log (d : Disk) (id : N) (bytes : list N) : Disk :=
  match aget N.eq_dec id (d_logs d) with
  | None => d
  | Some old => mkDisk (d_md d) (aset N.eq_dec id (old ++ bytes) (d_logs d)) (d_parts d)
  end.

(** [OptiDBImpl::insert], db.rs 702-800 *)
Definition insert (t : Table) (vals : list NamedValue) : Table * result fault unit :=
  let md := t_md t in
  let ic := o_index_cols (md_opts md) in
  match check_values (md_schema md) vals with
  | Err e => (t, Err e)
  | Ok _ =>
    match key_values ic vals with
    | None => (t, Err Panic)
    | Some pk =>
      let fv := final_values (md_schema md) ic vals in
      let rec := log_record hash_crc32 (Insert pk fv) in
      let d1 := append_log (t_disk t) (t_log t) rec in
      let logged := (t_logged t + N.of_nat (List.length rec))%N in
      let '(m1, ok1) := push_values (t_mem t) 0 (map value_of_key pk) in
      let '(m2, ok2) := if ok1 then push_values m1 ic fv else (m1, false) in
      let t' := mkTable md m2 logged (t_log t) d1 in
      if ok2 then
        if (Nat.ltb 0 (mt_len m2) && (o_max_log (md_opts md) <? logged)%N)%bool
        then flush_log t' else (t', Ok tt)
      else (t', Err Panic)
    end
  end.

(** *** add_field, db.rs 1233-1273.  The number of missing memtable columns is computed
    (1262-1263), and that many columns of the new type are added. *)
Definition add_field (t : Table) (f : Field) : Table * result fault unit :=
  let md := t_md t in
  if existsb (fun g => String.eqb (f_name g) (f_name f)) (md_schema md) then (t, Err Exists_)
  else
    let md' := mkMd (md_log_id md) (md_schema md ++ [f]) (md_levels md) (md_opts md) in
    let missing := List.length (md_schema md') - List.length (t_mem t) in
    (mkTable md' (Nat.iter missing (fun m => mt_add_column m (f_dt f)) (t_mem t))
       (t_logged t) (t_log t)
       (mkDisk (Some md') (d_logs (t_disk t)) (d_parts (t_disk t))), Ok tt).

(** *** gc, one pass over one table, db.rs 163-221, no file held open *)
Definition referenced (md : Metadata) (k : nat * nat) : bool :=
  match nth_error (md_levels md) (fst k) with
  | None => true           (* only the levels of the table are visited *)
  | Some l => existsb (fun p => Nat.eqb (p_id p) (snd k)) (l_parts l)
  end.
Definition gc (t : Table) : Table :=
  let d := t_disk t in
  mkTable (t_md t) (t_mem t) (t_logged t) (t_log t)
    (mkDisk (d_md d)
       (List.filter (fun e => negb (fst e <? md_log_id (t_md t))%N) (d_logs d))
       (List.filter (fun e => referenced (t_md t) (fst e)) (d_parts d))).

(** *** Reopening, db.rs 298-398 *)
Definition max_id (ids : list N) : option N :=
  fold_right (fun i acc => match acc with None => Some i | Some j => Some (N.max i j) end) None ids.

(** recover_op, db.rs 267-279 *)
Fixpoint replay (m : Memtable) (ops : list LogOp) : option Memtable :=
  match ops with
  | [] => Some m
  | o :: r => let '(m', ok) := push_values m 0 (map value_of_key (op_keys o) ++ op_vals o) in
              if ok then replay m' r else None
  end.

(** The newest log file only is read (db.rs 341); its id is taken from the file name. *)
Definition reopen (d : Disk) : result fault Table :=
  match d_md d with
  | None => Err Invalid                                         (* corrupted metadata *)
  | Some md =>
    match max_id (akeys (d_logs d)) with
    | None => Err Invalid                                       (* no logs found *)
    | Some id =>
      match aget N.eq_dec id (d_logs d) with
      | None => Err IoError
      | Some bytes =>
        match recover_log hash_crc32 bytes with
        | Err _ => Err Invalid
        | Ok ops =>
          match replay (fold_left mt_add_column (dts_of (md_schema md)) mt_new) ops with
          | None => Err Panic
          | Some m => Ok (mkTable md m (N.of_nat (List.length bytes)) id d)
          end
        end
      end
    end
  end.

(** create_table, db.rs 1275-1325 *)
Definition create_table (o : Options) : Table :=
  let md := mkMd 0 [] (repeat (mkLevel 0 []) (o_levels o)) o in
  mkTable md mt_new 0 0 (mkDisk (Some md) [(0%N, [])] []).

(** *** Scan *)
(** Column of a part as seen through the table schema: by name, null if the part was
    written before the column existed (arrow_merger.rs 405-418). *)
Fixpoint field_pos (fs : list Field) (n : string) : option nat :=
  match fs with
  | [] => None
  | f :: r => if String.eqb (f_name f) n then Some 0 else option_map S (field_pos r n)
  end.
Definition view_row (schema : list Field) (pf : PartFile) (r : Row) : Row :=
  map (fun f => match field_pos (pf_fields pf) (f_name f) with
                | Some i => nth i r None
                | None => None
                end) schema.
Definition part_rows (t : Table) (lvl : nat) (p : Part) : result fault (list Row) :=
  match aget lp_dec (lvl, p_id p) (d_parts (t_disk t)) with
  | None => Err IoError
  | Some pf => Ok (map (view_row (md_schema (t_md t)) pf) (pf_rows pf))
  end.

Fixpoint seqR {A} (l : list (result fault A)) : result fault (list A) :=
  match l with
  | [] => Ok []
  | Err e :: _ => Err e
  | Ok a :: r => match seqR r with Ok s => Ok (a :: s) | Err e => Err e end
  end.

(** The inputs of a full-width scan, db.rs 620-699: one stream of rows per part, level
    by level, then the memtable chunk.  How they are merged is modelled in Merge.v. *)
Definition all_parts (md : Metadata) : list (nat * Part) :=
  List.concat (map (fun '(l, lv) => map (pair l) (l_parts lv))
                   (combine (seq 0 (List.length (md_levels md))) (md_levels md))).
Definition scan_streams (t : Table) : result fault (list (list Row)) :=
  match mt_chunk lexsort (t_mem t) (Some (seq 0 (List.length (md_schema (t_md t)))))
          (o_index_cols (md_opts (t_md t))) (o_replacing (md_opts (t_md t))) with
  | Err e => Err e
  | Ok c =>
    match seqR (map (fun lp => part_rows t (fst lp) (snd lp)) (all_parts (t_md t))) with
    | Err e => Err e
    | Ok ps => Ok (ps ++ match c with Some rows => [rows] | None => [] end)
    end
  end.

(** *** Histories *)
Inductive Op :=
| OInsert (vals : list NamedValue)
| OFlush
| OAddField (f : Field)
| OGc
| ORestart.      (* the process ends between operations and the table is reopened *)

(** A table that failed to reopen is [None]. *)
Definition step (t : Table) (o : Op) : option Table * result fault unit :=
  match o with
  | OInsert vals => let '(t', r) := insert t vals in (Some t', r)
  | OFlush => let '(t', r) := flush t in (Some t', r)
  | OAddField f => let '(t', r) := add_field t f in (Some t', r)
  | OGc => (Some (gc t), Ok tt)
  | ORestart => match reopen (t_disk t) with
                | Ok t' => (Some t', Ok tt)
                | Err e => (None, Err e)
                end
  end.

(** Final table and the inserts that were acknowledged, oldest first. *)
Fixpoint run (t : Table) (ops : list Op) : option (Table * list (list NamedValue)) :=
  match ops with
  | [] => Some (t, [])
  | o :: r =>
    match step t o with
    | (None, _) => None
    | (Some t', res) =>
      match run t' r with
      | None => None
      | Some (t'', acks) =>
        Some (t'', match o, res with OInsert vals, Ok _ => vals :: acks | _, _ => acks end)
      end
    end
  end.
End WithSort.
