(** Merging the parts of a table during a scan, src/storage/src/parquet/arrow_merger.rs. *)
From Coq Require Import List NArith ZArith Bool Permutation.
From Verif Require Import Bytes Value Log Order Memtable.
Import ListNotations.

(** Key of a row: the raw integers of its first columns.  [KeyValue]s of one column all have
    the same variant, so their derived order is the order of the integers. *)
Notation zkey := (list Z).
Definition zcmp : zkey -> zkey -> comparison := lex_cmp Z.compare.
Definition rkey (ic : nat) (r : Row) : zkey := map raw_i64 (firstn ic r).
Definition zle (a b : zkey) : bool := match zcmp a b with Gt => false | _ => true end.

(** arrow_merger.rs 185-240; [new] takes the keys of the first and last row
    (mod.rs 64-109).  A chunk has at least one row; an empty one panics. *)
Record AChunk := mkAc { ac_stream : nat; ac_rows : list Row; ac_min : zkey; ac_max : zkey }.

(** How a scan ends. [Stopped]: an error was turned into the end of the stream
    (`.ok()?`, arrow_merger.rs 430, 447, 462). *)
Inductive ending := Done | Stopped | Panicked.

Section Merge.
Variable dts : list DType.        (* types of the scanned columns *)
Variable ic : nat.                (* key columns *)
Variable replacing : bool.
Variable array_size : nat.        (* merge_array_size *)

Definition mk_chunk (stream : nat) (rows : list Row) : AChunk :=
  mkAc stream rows (rkey ic (hd [] rows)) (rkey ic (last rows [])).

(** *** Heaps.  std's BinaryHeap promises only that [pop] and [peek] give a greatest element
    (here: smallest key, the orders are reversed, arrow_merger.rs 196-226, mod.rs 151-192).
    [drain] is the order in which a heap filled with all rows is emptied. *)
Variable drain : list (nat * zkey) -> list (nat * zkey).
Variable hpush : AChunk -> list AChunk -> list AChunk.
Variable hpop : list AChunk -> option (AChunk * list AChunk).

(** [merge_one_primitive] and [merge_two_primitives], arrow_merger.rs 32-113: for each output
    position the number of the chunk to take a row from; [None] is -1. *)
Fixpoint reorder_of (rows : list (nat * zkey)) : list (option nat) :=
  match rows with
  | [] => []
  | (s, k) :: r =>
    (if (replacing && Nat.eqb ic 2 &&
         match r with [] => false | (_, k') :: _ => Z.eqb (nth 0 k 0%Z) (nth 0 k' 0%Z) end)%bool
     then None else Some s) :: reorder_of r
  end.
Definition entries (chunks : list (list Row)) : list (nat * zkey) :=
  concat (map (fun '(i, rows) => map (fun r => (i, rkey ic r)) rows)
              (combine (seq 0 (length chunks)) chunks)).
(** [merge_chunks], arrow_merger.rs 119-154.  The type of the first column is looked at
    twice; the second is downcast to 64-bit integers with [unwrap]. *)
Definition merge_chunks (chunks : list (list Row)) : result fault (list (option nat)) :=
  match ic, dts with
  | 1, DInt64 :: _ => Ok (reorder_of (drain (entries chunks)))
  | 2, DInt64 :: d1 :: _ => if is_i64 d1 then Ok (reorder_of (drain (entries chunks))) else Err Panic
  | _, _ => Err Invalid
  end.

(** arrow_merger.rs 356-373.  Every column is copied with the same reordering and its own
    cursors starting at 0, so whole rows are copied; a -1 is skipped and moves no cursor.
    The cursors are represented by what is left of each chunk.  [None]: past the end. *)
Fixpoint pop_at (i : nat) (chunks : list (list Row)) : option (Row * list (list Row)) :=
  match chunks, i with
  | [], _ => None
  | c :: r, O => match c with [] => None | x :: c' => Some (x, c' :: r) end
  | c :: r, S i' => match pop_at i' r with Some (x, r') => Some (x, c :: r') | None => None end
  end.
Fixpoint copy_rows (reorder : list (option nat)) (chunks : list (list Row)) : option (list Row) :=
  match reorder with
  | [] => Some []
  | None :: r => copy_rows r chunks
  | Some i :: r => match pop_at i chunks with
                   | None => None
                   | Some (x, chunks') => option_map (cons x) (copy_rows r chunks')
                   end
  end.

(** arrow_merger.rs 375-387: slices of [array_size] rows, as many as the reordering (not the
    result) is long; [sliced] panics when it starts behind the end. *)
Fixpoint slices (fuel i reorder_len len : nat) (rows : list Row) : option (list (list Row)) :=
  match fuel with
  | O => Some []
  | S f =>
    if Nat.ltb i reorder_len then
      let k := Nat.min array_size len in
      if Nat.ltb (length rows) (i + k) then None
      else option_map (cons (firstn k (skipn i rows)))
             (slices f (i + array_size) reorder_len (len - k) rows)
    else Some []
  end.
Definition sliced (reorder_len : nat) (rows : list Row) : option (list (list Row)) :=
  if Nat.eqb array_size 0 then None                               (* step_by(0) *)
  else slices reorder_len 0 reorder_len (length rows) rows.

(** [merge_queue], arrow_merger.rs 346-388 *)
Definition merge_queue (queue : list AChunk) : result fault (list (list Row)) :=
  match merge_chunks (map ac_rows queue) with
  | Err e => Err e
  | Ok reorder =>
    match copy_rows reorder (map ac_rows queue) with
    | None => Err Panic
    | Some rows => match sliced (length reorder) rows with Some cs => Ok cs | None => Err Panic end
    end
  end.

(** arrow_merger.rs 156-183.  [zle] on a full and a shortened key follows the order of
    vectors. *)
Definition check_intersection (queue : list AChunk) (other : AChunk) : bool :=
  let n := if replacing then ic - 1 else ic in
  match queue with
  | [] => false                                                    (* unwrap; never empty *)
  | first :: rest =>
    let mn := fold_left (fun m c => if zle (ac_min c) m then firstn n (ac_min c) else m) rest (firstn n (ac_min first)) in
    let mx := fold_left (fun m c => if zle m (ac_max c) then firstn n (ac_max c) else m) rest (firstn n (ac_max first)) in
    (zle mn (firstn n (ac_max other)) && zle (firstn n (ac_min other)) mx)%bool
  end.

(** [next_stream_chunk], arrow_merger.rs 390-402, together with the push of its result. *)
Definition refill (st : list AChunk * list (list (list Row))) (s : nat) : list AChunk * list (list (list Row)) :=
  let '(heap, streams) := st in
  match nth s streams [] with
  | [] => (heap, streams)
  | c :: _ => (hpush (mk_chunk s c) heap,
               map (fun '(i, l) => if Nat.eqb i s then tl l else l) (combine (seq 0 (length streams)) streams))
  end.

(** The loop of [next], arrow_merger.rs 436-453. *)
Fixpoint gather (fuel : nat) (queue : list AChunk) (st : list AChunk * list (list (list Row)))
  : list AChunk * (list AChunk * list (list (list Row))) :=
  match fuel with
  | O => (queue, st)
  | S f =>
    match hpop (fst st) with
    | None => (queue, st)
    | Some (next, heap') =>
      if check_intersection queue next
      then gather f (queue ++ [next]) (refill (heap', snd st) (ac_stream next))
      else (queue, st)
    end
  end.

(** Number of chunks not yet delivered. *)
Definition chunks_left (st : list AChunk * list (list (list Row))) : nat :=
  length (fst st) + list_sum (map (@length _) (snd st)).

(** Repeated [next], arrow_merger.rs 423-474: all delivered chunks and how it ended. *)
Fixpoint drain_all (fuel : nat) (st : list AChunk * list (list (list Row))) : list (list Row) * ending :=
  match fuel with
  | O => ([], Done)
  | S f =>
    match hpop (fst st) with
    | None => ([], Done)
    | Some (first, heap') =>
      let st1 := refill (heap', snd st) (ac_stream first) in
      let '(queue, st2) := gather (chunks_left st1) [first] st1 in
      match queue with
      | [c] => let '(out, e) := drain_all f st2 in (ac_rows c :: out, e)
      | _ => match merge_queue queue with
             | Err Panic => ([], Panicked)
             | Err _ => ([], Stopped)
             | Ok cs => let '(out, e) := drain_all f st2 in (cs ++ out, e)
             end
      end
    end
  end.

(** [MergingIterator::new], arrow_merger.rs 297-344: the first chunk of every stream.
    A stream is a part, read in chunks of any size, or the memtable chunk. *)
Definition merge_init (streams : list (list (list Row))) : list AChunk * list (list (list Row)) :=
  fold_left (fun st s => refill st s) (seq 0 (length streams)) ([], streams).
Definition merge_scan (streams : list (list (list Row))) : list (list Row) * ending :=
  let st := merge_init streams in drain_all (chunks_left st) st.
End Merge.
