(** Backup and restore of a database, src/storage/src/db.rs 298-398, 400-442, 1339-1506. *)
From Coq Require Import List NArith ZArith Bool.
From Verif Require Import Bytes Value Log AMap Memtable Table MdCodec.
Import ListNotations.
Local Open Scope N_scope.

Notation name := (list N).
Definition name_dec : forall a b : name, {a = b} + {a <> b} := list_eq_dec N.eq_dec.

(** Directory tables/<name>: metadata (the file's bytes are C22), logs by id, whether the
    directory "levels" exists, part files as bytes by level and part id. *)
Record TableDir := mkTd
  { td_md : option FullMetadata; td_logs : list (N * list N); td_levels : bool;
    td_parts : list ((nat * N) * list N) }.
Definition empty_td : TableDir := mkTd None [] false [].
(** An open table: its metadata and memtable. *)
Record OpenTable := mkOt { ot_name : name; ot_md : FullMetadata; ot_mem : Memtable }.
(** [db_dirs]: directories on disk; [db_tables]: tables the process has open. *)
Record Db := mkDb { db_dirs : list (name * TableDir); db_tables : list OpenTable }.

Definition pid_dec : forall a b : nat * N, {a = b} + {a <> b}.
Proof. decide equality; [apply N.eq_dec|decide equality]. Defined.

(** Parts of a table in the order both loops visit them (db.rs 1410-1411, 1478-1482). *)
Definition parts_of (md : FullMetadata) : list (nat * FullPart) :=
  concat (map (fun '(l, lv) => map (pair l) (fl_parts lv))
              (combine (seq 0 (length (fm_levels md))) (fm_levels md))).

(** db.rs 109-110 *)
Definition backup_version : N := 1.
Definition backup_magic : list N := [1; 2; 3; 4; 5; 6; 7; 8].

Section Backup.
(** [bincode::serialize] and [deserialize] of the table list (db.rs 1391, 1460). *)
Variable enc_tables : list (name * FullMetadata) -> list N.
Variable dec_tables : list N -> option (list (name * FullMetadata)).

(** *** full_backup of a database without concurrent writers, db.rs 1348-1436.
    The stream is what goes into the zlib encoder. *)
Definition backup_part (d : TableDir) (lp : nat * FullPart) : result fault (list N) :=
  match aget pid_dec (fst lp, fp_id (snd lp)) (td_parts d) with
  | Some b => Ok b
  | None => Err Panic                                       (* open(path).unwrap(), 1413 *)
  end.
Definition backup_table (db : Db) (t : OpenTable) : result fault (list N) :=
  match aget name_dec (ot_name t) (db_dirs db) with
  | None => Err IoError
  | Some d =>
    match aget N.eq_dec (fm_log_id (ot_md t)) (td_logs d) with
    | None => Err IoError                                   (* fs::copy, 1401 *)
    | Some log =>
      match seqR (map (backup_part d) (parts_of (ot_md t))) with
      | Err e => Err e
      | Ok ps => Ok (le_bytes 8 (N.of_nat (length log)) ++ log ++ concat ps)
      end
    end
  end.
Definition backup (db : Db) : result fault (list N) :=
  let data := enc_tables (map (fun t => (ot_name t, ot_md t)) (db_tables db)) in
  match seqR (map (backup_table db) (db_tables db)) with
  | Err e => Err e
  | Ok ts => Ok (le_bytes 8 backup_version ++ le_bytes 8 (N.of_nat (length data)) ++ data
                 ++ concat ts ++ backup_magic)
  end.

(** *** full_restore, db.rs 1446-1506 *)
(** [read_exact] *)
Definition read_exact (k : nat) (s : list N) : option (list N * list N) :=
  if Nat.ltb (length s) k then None else Some (firstn k s, skipn k s).
(** [io::copy] of [take(k)]: copies what there is *)
Definition copy_take (k : nat) (s : list N) : list N * list N := (firstn k s, skipn k s).

Definition dir_of (dirs : list (name * TableDir)) (n : name) : TableDir :=
  match aget name_dec n dirs with Some d => d | None => empty_td end.

(** db.rs 1481-1486 *)
Fixpoint restore_parts (d : TableDir) (s : list N) (ps : list (nat * FullPart)) : TableDir * list N :=
  match ps with
  | [] => (d, s)
  | (l, p) :: r =>
    let '(b, s') := copy_take (N.to_nat (fp_size p)) s in
    restore_parts (mkTd (td_md d) (td_logs d) (td_levels d) (aset pid_dec (l, fp_id p) b (td_parts d))) s' r
  end.
(** db.rs 1467-1469: log id and version are reset *)
Definition restored_md (version : N) (m : FullMetadata) : FullMetadata :=
  mkFullMetadata version 0 (fm_table_name m) (fm_schema m) (fm_levels m) (fm_stats m) (fm_opts m).
(** db.rs 1461-1489.  Existing files are overwritten (File::create), but the directory
    "levels" must not exist (fs::create_dir, 1478). *)
Definition restore_table (version : N) (dirs : list (name * TableDir)) (s : list N) (t : name * FullMetadata)
  : list (name * TableDir) * result fault (list N) :=
  let '(n, m) := t in
  let d0 := dir_of dirs n in
  let d1 := mkTd (Some (restored_md version m)) (td_logs d0) (td_levels d0) (td_parts d0) in
  match read_exact 8 s with
  | None => (aset name_dec n d1 dirs, Err IoError)
  | Some (len, s1) =>
    let '(log, s2) := copy_take (N.to_nat (of_le len)) s1 in
    let d2 := mkTd (td_md d1) (aset N.eq_dec 0 log (td_logs d1)) (td_levels d1) (td_parts d1) in
    if td_levels d2 then (aset name_dec n d2 dirs, Err IoError)
    else
      let '(d3, s3) := restore_parts (mkTd (td_md d2) (td_logs d2) true (td_parts d2)) s2 (parts_of m) in
      (aset name_dec n d3 dirs, Ok s3)
  end.
Fixpoint restore_tables (version : N) (dirs : list (name * TableDir)) (s : list N) (ts : list (name * FullMetadata))
  : list (name * TableDir) * result fault (list N) :=
  match ts with
  | [] => (dirs, Ok s)
  | t :: r => match restore_table version dirs s t with
              | (dirs', Ok s') => restore_tables version dirs' s' r
              | (dirs', Err e) => (dirs', Err e)
              end
  end.

(** [try_recover_table] of one directory, db.rs 298-398: the newest log is replayed. *)
Definition open_table (nd : name * TableDir) : result fault OpenTable :=
  let '(n, d) := nd in
  match td_md d with
  | None => Err Invalid
  | Some md =>
    match max_id (akeys (td_logs d)) with
    | None => Err Invalid
    | Some id =>
      match aget N.eq_dec id (td_logs d) with
      | None => Err IoError
      | Some bytes =>
        match recover_log hash_crc32 bytes with
        | Err _ => Err Invalid
        | Ok ops =>
          match replay (fold_left mt_add_column (map ff_dt (fm_schema md)) mt_new) ops with
          | None => Err Panic
          | Some m => Ok (mkOt n md m)
          end
        end
      end
    end
  end.

(** [truncate_all], db.rs 1339-1346: only the open tables are known *)
Definition truncate (db : Db) : list (name * TableDir) :=
  fold_left (fun dirs t => adel name_dec (ot_name t) dirs) (db_tables db) (db_dirs db).

Definition restore (db : Db) (s : list N) : Db * result fault unit :=
  let dirs0 := truncate db in
  match read_exact 8 s with
  | None => (mkDb dirs0 [], Err IoError)
  | Some (v, s1) =>
    match read_exact 8 s1 with
    | None => (mkDb dirs0 [], Err IoError)
    | Some (l, s2) =>
      match read_exact (N.to_nat (of_le l)) s2 with
      | None => (mkDb dirs0 [], Err IoError)
      | Some (data, s3) =>
        match dec_tables data with
        | None => (mkDb dirs0 [], Err Invalid)
        | Some ts =>
          match restore_tables (of_le v) dirs0 s3 ts with
          | (dirs, Err e) => (mkDb dirs [], Err e)
          | (dirs, Ok s4) =>
            match read_exact 8 s4 with
            | None => (mkDb dirs [], Err IoError)
            | Some (footer, _) =>
              if list_eq_dec N.eq_dec footer backup_magic then
                match seqR (map open_table dirs) with
                | Err e => (mkDb dirs [], Err e)
                | Ok tables => (mkDb dirs tables, Ok tt)
                end
              else (mkDb dirs [], Err Invalid)
            end
          end
        end
      end
    end
  end.
End Backup.
