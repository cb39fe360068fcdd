(** What compaction expects of the merge of part files, src/storage/src/parquet/parquet_merger.rs
    782-1030, and what a pass must keep. *)
From Coq Require Import List NArith ZArith Bool Permutation String.
From Verif Require Import Bytes Value Log AMap Order Memtable Table TableSpec TableHistory Compact.
Import ListNotations.

(** A row of an older part in a wider schema: nulls for the newer columns. *)
Definition pad (n : nat) (r : Row) : Row := (r ++ repeat None (n - List.length r))%list.

(** If the merge of files whose schemas are prefixes of the longest one succeeds, the files
    it writes have the longest schema, each is sorted by key, and together they hold exactly
    the rows of the inputs.  Append-only tables. *)
Definition merge_contract (ic : nat) (merge : nat -> list PartFile -> result fault (list MergeOut)) : Prop :=
  forall k files fields outs,
    files <> [] -> NoDup (map f_name fields) ->
    Forall (fun f => exists r, fields = (pf_fields f ++ r)%list) files ->
    Exists (fun f => pf_fields f = fields) files ->
    Forall (fun f => ic <= List.length (pf_fields f)
                     /\ Forall (fun r => List.length r = List.length (pf_fields f)) (pf_rows f)
                     /\ Forall (int_keys ic) (pf_rows f)
                     /\ sorted_by cmp_key (firstn ic) (pf_rows f)) files ->
    merge k files = Ok outs ->
    Forall (fun o => pf_fields (fst o) = fields /\ sorted_by cmp_key (firstn ic) (pf_rows (fst o))) outs
    /\ Permutation (List.concat (map (fun o => pf_rows (fst o)) outs))
                   (List.concat (map (fun f => map (pad (List.length fields)) (pf_rows f)) files)).
