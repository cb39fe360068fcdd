(** A whole scan of one table: its inputs and their merge. *)
From Coq Require Import List NArith ZArith Bool String.
From Verif Require Import Bytes Value Log AMap Order Memtable Table Merge.
Import ListNotations.

(** Inputs of a scan of the columns [cols], db.rs 620-699: per part the projected rows
    (ArrowIteratorImpl with [fields]), then the memtable chunk of the same columns. *)
Definition scan_cols (lexsort : list (list cell) -> list nat) (t : Table) (cols : list nat)
  : result fault (list (list Row)) :=
  match mt_chunk lexsort (t_mem t) (Some cols) (o_index_cols (md_opts (t_md t))) (o_replacing (md_opts (t_md t))) with
  | Err e => Err e
  | Ok c =>
    match seqR (map (fun lp => part_rows t (fst lp) (snd lp)) (all_parts (t_md t))) with
    | Err e => Err e
    | Ok ps => Ok (map (map (fun r => select_from 0 r cols)) ps ++ match c with Some rows => [rows] | None => [] end)
    end
  end.

(** Parts are read in chunks of some size; no chunk is empty. *)
Definition chunked (ss : list (list Row)) (chs : list (list (list Row))) : Prop :=
  Forall2 (fun rows cs => List.concat cs = rows /\ Forall (fun c => c <> []) cs) ss chs.

(** The merge of a table's scan.  Without parts the memtable chunk is passed through
    (db.rs 671-674), which is also what merging a single stream does.  The types are those
    of the scanned columns. *)
Definition table_scan (drain : list (nat * zkey) -> list (nat * zkey))
  (hpush : AChunk -> list AChunk -> list AChunk) (hpop : list AChunk -> option (AChunk * list AChunk))
  (array_size : nat) (t : Table) (cols : list nat) (chs : list (list (list Row))) : list (list Row) * ending :=
  merge_scan (select_from 0 (dts_of (md_schema (t_md t))) cols) (o_index_cols (md_opts (t_md t)))
    (o_replacing (md_opts (t_md t))) array_size drain hpush hpop chs.
