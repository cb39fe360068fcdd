(** What is assumed of the parts of the page merge that are not modelled, and what its input
    files look like. *)
From Coq Require Import List NArith ZArith Bool Permutation String.
From Verif Require Import Bytes Value Log AMap Order Memtable Table TableHistory Compact PageMerge.
Import ListNotations.

(** A binary heap: [pop] takes out a smallest element; nothing is said about which one. *)
Definition heap_contract {A} (le : A -> A -> bool) (pop : list A -> option (A * list A)) : Prop :=
  pop [] = None
  /\ forall h, h <> [] -> exists x r, pop h = Some (x, r) /\ Permutation h (x :: r)
                                  /\ Forall (fun y => le x y = true) r.
Definition chunk_le (a b : Chunk) : bool := vle (ch_min a) (ch_min b).
Definition row_le (a b : nat * list Z) : bool := vle (snd a) (snd b).

(** The writer cuts an array into pages, none of them empty. *)
Definition paginate_contract (paginate : list Z -> list (list Z)) : Prop :=
  forall l, l <> [] -> List.concat (paginate l) = l /\ Forall (fun p => p <> []) (paginate l).

(** The rows of a row group of a file. *)
Definition group_rows (g : Group) : list Row := rows_of None (map (@List.concat cell) g).
(** A row group of [n] columns: no empty page, all columns equally long, at least one row. *)
Definition group_ok (n : nat) (g : Group) : Prop :=
  List.length g = n
  /\ exists len, len <> 0 /\ Forall (fun pages => Forall (fun p => p <> []) pages
                                       /\ List.length (List.concat pages) = len) g.
(** [f] is the file [pf], cut into row groups and pages in some way. *)
Definition lays_out (f : PFile) (pf : PartFile) : Prop :=
  g_fields f = pf_fields pf
  /\ Forall (group_ok (List.length (g_fields f))) (g_groups f)
  /\ List.concat (map group_rows (g_groups f)) = pf_rows pf.

(** The key of a row as integers. *)
Definition key_ints (ic : nat) (r : Row) : list Z := map int_of (firstn ic r).
