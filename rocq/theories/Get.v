(** Point lookups: [OptiDBImpl::get], src/storage/src/db.rs 864-1161. *)
From Coq Require Import List NArith ZArith Bool String.
From Verif Require Import Bytes Value Log AMap Order Memtable Table.
Import ListNotations.

(** Derived [Ord] of [KeyValue], src/storage/src/lib.rs 37-45: variants in declaration
    order, then the payload. *)
Definition kv_rank (k : KeyValue) : N :=
  match k with
  | KInt8 _ => 0 | KInt16 _ => 1 | KInt32 _ => 2 | KInt64 _ => 3 | KString _ => 4 | KTimestamp _ => 5
  end.
Definition kv_cmp (a b : KeyValue) : comparison :=
  match a, b with
  | KInt8 x, KInt8 y | KInt16 x, KInt16 y | KInt32 x, KInt32 y | KInt64 x, KInt64 y
  | KTimestamp x, KTimestamp y => Z.compare x y
  | KString x, KString y => lex_cmp N.compare x y
  | _, _ => N.compare (kv_rank a) (kv_rank b)
  end.
(** Rust's order of vectors: lexicographic, a proper prefix is smaller. *)
Definition key_le (a b : list KeyValue) : bool :=
  match lex_cmp kv_cmp a b with Gt => false | _ => true end.

(** db.rs 888-890 *)
Definition in_range (key : list KeyValue) (p : Part) : bool := key_le (p_min p) key && key_le key (p_max p).

(** Minimum and maximum of a key column in the statistics of a row group (key cells are
    never null: [KeyValue::from] panics on a null, lib.rs 104-116).  A row group has at
    least one row. *)
Definition col_min (i : nat) (g : list Row) : Z :=
  match g with
  | [] => 0
  | r :: rs => fold_left (fun m x => Z.min m (raw_i64 (nth i x None))) rs (raw_i64 (nth i r None))
  end.
Definition col_max (i : nat) (g : list Row) : Z :=
  match g with
  | [] => 0
  | r :: rs => fold_left (fun m x => Z.max m (raw_i64 (nth i x None))) rs (raw_i64 (nth i r None))
  end.

(** Columns whose statistics are [Int64Array]s (both are arrow2's [PrimitiveArray<i64>]). *)
Definition i64_array (dt : DType) : bool := match dt with DInt64 | DTimestamp => true | _ => false end.

(** db.rs 899-925: does the row group's box admit the key?  [Panic]: the column index
    is out of bounds, the statistics are not 64-bit integers, the key is not [Int64]. *)
Fixpoint admits (fs : list Field) (g : list Row) (key : list KeyValue) (i : nat) : result fault bool :=
  match key with
  | [] => Ok true
  | k :: ks =>
    match nth_error fs i with
    | None => Err Panic
    | Some f =>
      if i64_array (f_dt f) then
        match k with
        | KInt64 v => if ((v <? col_min i g) || (col_max i g <? v))%Z%bool then Ok false
                      else admits fs g ks (S i)
        | _ => Err Panic
        end
      else Err Panic
    end
  end.

(** db.rs 897-929: the first row group that admits the key. *)
Fixpoint find_group (fs : list Field) (gs : list (list Row)) (key : list KeyValue)
  : result fault (option (list Row)) :=
  match gs with
  | [] => Ok None
  | g :: r => match admits fs g key 0 with
              | Err e => Err e
              | Ok true => Ok (Some g)
              | Ok false => find_group fs r key
              end
  end.

(** db.rs 965-977: does a row carry the key?  The key is known to be [Int64] here. *)
Fixpoint row_matches (key : list KeyValue) (r : Row) : bool :=
  match key, r with
  | [], _ => true
  | KInt64 v :: ks, c :: r' => Z.eqb (raw_i64 c) v && row_matches ks r'
  | _, _ => false
  end.

(** db.rs 1005-1064: the value of a cell read through the field's type; [None] = the
    failing downcast. *)
Definition value_of_cell (dt : DType) (c : cell) : option Value :=
  match c with
  | None => Some VNull
  | Some a =>
    match dt, a with
    | DBoolean, ABool b => Some (VBoolean (Some b))
    | DInt8, AInt z => Some (VInt8 (Some z)) | DInt16, AInt z => Some (VInt16 (Some z))
    | DInt32, AInt z => Some (VInt32 (Some z)) | DInt64, AInt z => Some (VInt64 (Some z))
    | DDecimal, AInt z => Some (VDecimal (Some z)) | DTimestamp, AInt z => Some (VTimestamp (Some z))
    | DString, AStr s => Some (VString (Some s))
    | _, _ => None
    end
  end.
(** db.rs 979-1143: one value per field of the table, by position; null past the end of
    the part's columns.  (List types are not modelled.) *)
Fixpoint row_out (schema : list Field) (width : nat) (r : Row) (i : nat) : option (list Value) :=
  match schema with
  | [] => Some []
  | f :: fs =>
    match (if Nat.ltb i width then value_of_cell (f_dt f) (nth i r None) else Some VNull), row_out fs width r (S i) with
    | Some v, Some vs => Some (v :: vs)
    | _, _ => None
    end
  end.

(** Levels in order, the parts of a level from newest to oldest, db.rs 884-887 *)
Definition search_order (md : Metadata) : list (nat * Part) :=
  List.concat (map (fun '(l, lv) => map (pair l) (rev (l_parts lv)))
                   (combine (seq 0 (List.length (md_levels md))) (md_levels md))).

Section WithGroups.
(** Division of a part file into row groups: one for a part written by a flush
    (db.rs 470-475), several for the output of a compaction. *)
Variable groups : PartFile -> list (list Row).

(** db.rs 891-1150: the first part whose range contains the key decides. *)
Definition get_part (schema : list Field) (pf : PartFile) (key : list KeyValue)
  : result fault (option (list Value)) :=
  match find_group (pf_fields pf) (groups pf) key with
  | Err e => Err e
  | Ok None => Ok None
  | Ok (Some g) =>
    match List.find (row_matches key) g with
    | None => Ok None
    | Some r => match row_out schema (List.length (pf_fields pf)) r 0 with
                | Some vs => Ok (Some vs)
                | None => Err Panic
                end
    end
  end.

(** [OptiDBImpl::get], db.rs 864-1161 *)
Definition get (t : Table) (key : list KeyValue) : result fault (option (list Value)) :=
  match mt_get (t_mem t) key with
  | Err e => Err e
  | Ok (Some v) => Ok (Some v)
  | Ok None =>
    match List.find (fun lp => in_range key (snd lp)) (search_order (t_md t)) with
    | None => Ok None
    | Some (l, p) =>
      match aget lp_dec (l, p_id p) (d_parts (t_disk t)) with
      | None => Err IoError
      | Some pf => get_part (md_schema (t_md t)) pf key
      end
    end
  end.
End WithGroups.
