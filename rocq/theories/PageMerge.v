(** The merge of part files page by page, src/storage/src/parquet/parquet_merger.rs,
    merge_data_arrays.rs and mod.rs: which row groups are merged together, how the key columns
    are merged, how the other columns follow, how the result is cut into row groups and files.

    Columns of lists are left out, as in [Memtable.Atom].  Compression and encoding of pages
    are left out: a page is the list of its cells. *)
From Coq Require Import List NArith ZArith Bool String.
From Verif Require Import Bytes Value Log AMap Order Memtable Table Compact.
Import ListNotations.

Notation Page := (list cell).
(** A row group: the pages of each column, in the order of the file's schema. *)
Notation Group := (list (list (list cell))).
Record PFile := mkPFile { g_fields : list Field; g_groups : list Group }.

(** Rows of columns.  The number of rows is that of the first column. *)
Definition rows_of {A} (d : A) (cols : list (list A)) : list (list A) :=
  map (fun i => map (fun c => nth i c d) cols) (seq 0 (List.length (hd [] cols))).

Definition int_of (c : cell) : Z := match c with Some (AInt z) => z | _ => 0%Z end.
Definition cell_of_int (z : Z) : cell := Some (AInt z).

(** [try_merge_arrow_schemas], mod.rs 117-143 *)
Definition DType_eq_dec (a b : DType) : {a = b} + {a <> b}.
Proof. decide equality. Defined.
Definition field_eqb (a b : Field) : bool :=
  String.eqb (f_name a) (f_name b)
  && (if DType_eq_dec (f_dt a) (f_dt b) then true else false)
  && Bool.eqb (f_null a) (f_null b).
Fixpoint add_fields (merged fs : list Field) : result fault (list Field) :=
  match fs with
  | [] => Ok merged
  | f :: r => match find (fun m => String.eqb (f_name m) (f_name f)) merged with
              | None => add_fields (merged ++ [f]) r
              | Some m => if field_eqb m f then add_fields merged r else Err Invalid
              end
  end.
Fixpoint merge_schemas (merged : list Field) (fss : list (list Field)) : result fault (list Field) :=
  match fss with
  | [] => Ok merged
  | fs :: r => match add_fields merged fs with Ok m => merge_schemas m r | Err e => Err e end
  end.

(** [PagesIndexChunk], parquet_merger.rs 246-252: the pages of the key columns of one row
    group.  Keys are integers without nulls here; other key types reach [unimplemented!]
    once two chunks have to be merged ([supported] below). *)
Record Chunk := mkChunk { ch_stream : nat; ch_cols : list (list (list Z)) }.

(** Statistics of a page; the smallest value of the first page and the largest one of the
    last page of each column, mod.rs 472-514, parquet_merger.rs 295-312.  An empty page has no
    statistics ([unwrap] panics); the writer writes none. *)
Definition page_min (p : list Z) : Z := match p with [] => 0%Z | x :: r => fold_left Z.min r x end.
Definition page_max (p : list Z) : Z := match p with [] => 0%Z | x :: r => fold_left Z.max r x end.
Definition ch_min (c : Chunk) : list Z := map (fun pages => page_min (hd [] pages)) (ch_cols c).
Definition ch_max (c : Chunk) : list Z := map (fun pages => page_max (last pages [])) (ch_cols c).
Definition ch_keys (c : Chunk) : list (list Z) := rows_of 0%Z (map (@List.concat Z) (ch_cols c)).

(** Vectors of values are ordered lexicographically; a proper prefix comes first. *)
Definition vle (a b : list Z) : bool := match lex_cmp Z.compare a b with Gt => false | _ => true end.

(** [check_intersection], parquet_merger.rs 208-244.  The running minimum and maximum start cut
    to the compared columns, but are replaced by whole vectors. *)
Definition check_intersection (ic : nat) (replacing : bool) (queue : list Chunk) (other : option Chunk) : bool :=
  match other, queue with
  | Some o, f :: r =>
    let n := ic - (if replacing then 1 else 0) in
    let mn := fold_left (fun m c => if vle (firstn n (ch_min c)) m then ch_min c else m) r (firstn n (ch_min f)) in
    let mx := fold_left (fun m c => if vle m (firstn n (ch_max c)) then ch_max c else m) r (firstn n (ch_max f)) in
    vle mn (firstn n (ch_max o)) && vle (firstn n (ch_min o)) mx
  | _, _ => false
  end.

(** Key types for which two chunks can be merged, parquet_merger.rs 606-713. *)
Definition is64 (d : DType) : bool := match d with DInt64 | DTimestamp => true | _ => false end.
Definition is32 (d : DType) : bool := match d with DInt32 => true | _ => false end.
Definition supported (dts : list DType) : bool :=
  match dts with
  | [a] => is64 a
  | [a; b] => is64 a && (is64 b || is32 b)
  | [a; b; c] => is64 a && is64 b && is64 c
  | _ => false
  end.

(** What becomes of the other columns of a chunk, parquet_merger.rs 762-768.  An entry [None]
    is the code's [-1]: a row that was dropped. *)
Inductive Reorder := PickFrom (stream num : nat) | Reordered (order : list (option nat)) (streams : list nat).
Record MChunk := mkMChunk { m_cols : list (list (list Z)); m_order : Reorder }.
Definition m_num (m : MChunk) : nat := List.length (List.concat (hd [] (m_cols m))).
Definition m_min (m : MChunk) : list Z := ch_min (mkChunk 0 (m_cols m)).
Definition m_max (m : MChunk) : list Z := ch_max (mkChunk 0 (m_cols m)).

Record MOpts := mkMO
  { mo_ic : nat; mo_replacing : bool; mo_limit : nat; mo_array : nat }.

(** Reader of one column of one stream: the row groups not read yet and the buffered pages
    ([CompressedPageIterator], mod.rs 518-627), and what is left of the page that is being
    merged ([tmp_arrays], [tmp_array_idx]). *)
Record Reader := mkReader { rd_left : list (list Page); rd_buf : list Page; rd_tmp : option (list cell) }.
Notation Readers := (nat -> option Reader).
Definition set_reader (s : nat) (r : Reader) (rs : Readers) : Readers :=
  fun s' => if Nat.eqb s' s then Some r else rs s'.

(** mod.rs 598-626 *)
Definition next_page (r : Reader) : option (Page * Reader) :=
  match rd_buf r with
  | p :: ps => Some (p, mkReader (rd_left r) ps (rd_tmp r))
  | [] => match rd_left r with
          | (p :: ps) :: gs => Some (p, mkReader gs ps (rd_tmp r))
          | _ => None
          end
  end.
(** mod.rs 562-596: the buffer is cleared, the whole next row group is returned. *)
Definition next_chunk (r : Reader) : option (list Page * Reader) :=
  match rd_left r with
  | g :: gs => Some (g, mkReader gs [] (rd_tmp r))
  | [] => None
  end.
(** merge_data_arrays.rs 59-91, one row.  [Panic]: no page left, or an index outside of the
    page. *)
Definition take_cell (r : Reader) : result fault (cell * Reader) :=
  let from r' arr := match arr with
                     | [] => Err Panic
                     | [x] => Ok (x, mkReader (rd_left r') (rd_buf r') None)
                     | x :: rest => Ok (x, mkReader (rd_left r') (rd_buf r') (Some rest))
                     end in
  match rd_tmp r with
  | Some arr => from r arr
  | None => match next_page r with Some (p, r') => from r' p | None => Err Panic end
  end.
(** [merge_arrays_inner!], merge_data_arrays.rs 4-106 *)
Fixpoint merge_col (order : list (option nat)) (streams : list nat) (rs : Readers) : result fault (list cell * Readers) :=
  match order with
  | [] => Ok ([], rs)
  | None :: rest => merge_col rest streams rs
  | Some s :: rest =>
    match (if existsb (Nat.eqb s) streams then rs s else None) with
    | None => match merge_col rest streams rs with Ok (cs, rs') => Ok (None :: cs, rs') | Err e => Err e end
    | Some r => match take_cell r with
                | Err e => Err e
                | Ok (c, r') => match merge_col rest streams (set_reader s r' rs) with
                                | Ok (cs, rs') => Ok (c :: cs, rs')
                                | Err e => Err e
                                end
                end
    end
  end.
(** parquet_merger.rs 939-964: the cells of one column for one chunk. *)
Definition chunk_col (m : MChunk) (rs : Readers) : result fault (list cell * Readers) :=
  match m_order m with
  | PickFrom s n =>
    match rs s with
    | None => Ok (repeat None n, rs)
    | Some r => match next_chunk r with
                | None => Err Panic
                | Some (g, r') => Ok (List.concat g, set_reader s r' rs)
                end
    end
  | Reordered order streams => merge_col order streams rs
  end.
Fixpoint chunks_col (ms : list MChunk) (rs : Readers) : result fault (list cell * Readers) :=
  match ms with
  | [] => Ok ([], rs)
  | m :: r => match chunk_col m rs with
              | Err e => Err e
              | Ok (cs, rs') => match chunks_col r rs' with Ok (cs', rs'') => Ok (cs ++ cs', rs'') | Err e => Err e end
              end
  end.
(** parquet_merger.rs 936-978, all columns that are not key columns. *)
Fixpoint data_cols (ms : list MChunk) (cols : list Readers) : result fault (list (list cell) * list Readers) :=
  match cols with
  | [] => Ok ([], [])
  | rs :: r => match chunks_col ms rs with
               | Err e => Err e
               | Ok (cs, rs') => match data_cols ms r with Ok (css, rss) => Ok (cs :: css, rs' :: rss) | Err e => Err e end
               end
  end.
(** The key columns of a row group of the output, parquet_merger.rs 900-918. *)
Definition key_cols (ic : nat) (ms : list MChunk) : list (list cell) :=
  map (fun i => List.concat (map (fun m => map cell_of_int (List.concat (nth i (m_cols m) []))) ms)) (seq 0 ic).

(** Take the next element of source [s] and push it on the heap: [next_stream_index_chunk],
    parquet_merger.rs 839-850, with the push of its result; the iterators of 430-434, 571-577. *)
Fixpoint take_at {A} (s : nat) (srcs : list (list A)) : option A * list (list A) :=
  match srcs, s with
  | [], _ => (None, [])
  | [] :: r, O => (None, [] :: r)
  | (c :: cs) :: r, O => (Some c, cs :: r)
  | cs :: r, S s' => let '(c, r') := take_at s' r in (c, cs :: r')
  end.
Definition push_next {A} (s : nat) (h : list A) (srcs : list (list A)) : list A * list (list A) :=
  let '(c, srcs') := take_at s srcs in
  (match c with Some c => h ++ [c] | None => h end, srcs').
Definition firsts {A} (srcs : list (list A)) : list A :=
  List.concat (map (fun cs => match cs with c :: _ => [c] | [] => [] end) srcs).

Section Merge.
(** [BinaryHeap::pop] of chunks and of rows, as functions of the heap's contents ([HeapSpec]
    in PageMergeSpec.v says what is assumed).  [peek] is the chunk that [pop] would return. *)
Variable pop : list Chunk -> option (Chunk * list Chunk).
Variable pop_row : list (nat * list Z) -> option ((nat * list Z) * list (nat * list Z)).
(** How the writer cuts a merged key array into pages ([array_to_columns]). *)
Variable paginate : list Z -> list (list Z).
(** Is the file with these row groups larger than the limit?  (parquet_merger.rs 982-984) *)
Variable full : list (list Row) -> bool.
Variable mo : MOpts.

Definition peek (h : list Chunk) : option Chunk := option_map fst (pop h).

(** parquet_merger.rs 1314-1329.  [fuel] bounds the number of chunks. *)
Fixpoint gather (fuel : nat) (queue h : list Chunk) (srcs : list (list Chunk))
  : list Chunk * (list Chunk * list (list Chunk)) :=
  match fuel with
  | O => (queue, (h, srcs))
  | S n =>
    if check_intersection (mo_ic mo) (mo_replacing mo) queue (peek h)
    then match pop h with
         | Some (c, h') => let '(h'', srcs') := push_next (ch_stream c) h' srcs in
                           gather n (queue ++ [c]) h'' srcs'
         | None => (queue, (h, srcs))
         end
    else (queue, (h, srcs))
  end.

(** All rows in one heap, parquet_merger.rs 487-505: they leave it in order. *)
Fixpoint drain (fuel : nat) (h : list (nat * list Z)) : list (nat * list Z) :=
  match fuel with
  | O => []
  | S n => match pop_row h with Some (x, h') => x :: drain n h' | None => [] end
  end.
(** One row of each chunk in the heap, parquet_merger.rs 423-434, 560-579. *)
Fixpoint drain_heads (fuel : nat) (h : list (nat * list Z)) (its : list (list (nat * list Z))) : list (nat * list Z) :=
  match fuel with
  | O => []
  | S n => match pop_row h with
           | None => []
           | Some (x, h') => let '(h'', its') := push_next (fst x) h' its in x :: drain_heads n h'' its'
           end
  end.

(** The rows of a merge in order, each with its stream; the arrays they are cut into.  With
    [is_replacing] a row is dropped if the next one has the same first column
    (parquet_merger.rs 506-516); only two-column keys look at it. *)
Fixpoint emit (drop : bool) (n : nat) (rows : list (nat * list Z)) (keys : list (list Z)) (order : list (option nat))
  : list (list (list Z) * list (option nat)) :=
  match rows with
  | [] => match order with [] => [] | _ => [(keys, order)] end
  | (s, k) :: r =>
    if drop && match r with (_, k') :: _ => Z.eqb (hd 0%Z k) (hd 0%Z k') | [] => false end
    then emit drop n r keys (order ++ [None])
    else if Nat.leb n (S (List.length keys))
         then (keys ++ [k], order ++ [Some s]) :: emit drop n r [] []
         else emit drop n r (keys ++ [k]) (order ++ [Some s])
  end.

Definition merged_rows (chunks : list Chunk) : list (nat * list Z) :=
  let rows := mapi (fun i c => map (pair i) (ch_keys c)) 0 chunks in
  let total := List.length (List.concat rows) in
  let ordered :=
    if Nat.eqb (mo_ic mo) 2
    then drain total (List.concat rows)
    else drain_heads total (firsts rows) (map (@tl _) rows) in
  map (fun r => (ch_stream (nth (fst r) chunks (mkChunk 0 [])), snd r)) ordered.

(** [merge_chunks] and [merge_queue], parquet_merger.rs 606-713, 1265-1297.  [streams.dedup()]
    drops repetitions only. *)
Definition merge_queue (dts : list DType) (chunks : list Chunk) : result fault (list MChunk) :=
  if negb (supported dts) then Err Panic
  else Ok (map (fun '(keys, order) =>
                  mkMChunk (map (fun i => paginate (map (fun k => nth i k 0%Z) keys)) (seq 0 (mo_ic mo)))
                           (Reordered order (map ch_stream chunks)))
               (emit (mo_replacing mo && Nat.eqb (mo_ic mo) 2) (mo_array mo) (merged_rows chunks) [] [])).

(** [try_drain_result], parquet_merger.rs 1367-1393 *)
Definition drained (limit : nat) (buf : list MChunk) : bool :=
  Nat.leb limit (list_sum (map m_num buf)) && match buf with [] => false | _ => true end.

(** [next_index_chunk], parquet_merger.rs 1300-1365.  The buffer is empty between calls. *)
Fixpoint next_index (dts : list DType) (fuel total : nat) (h : list Chunk) (srcs : list (list Chunk)) (buf : list MChunk)
  : result fault (option (list MChunk) * (list Chunk * list (list Chunk))) :=
  match fuel with
  | O => Err Panic
  | S n =>
    match pop h with
    | None => Ok (if drained 1 buf then Some buf else None, (h, srcs))
    | Some (c, h1) =>
      let '(h2, srcs2) := push_next (ch_stream c) h1 srcs in
      let '(q, (h3, srcs3)) := gather total [c] h2 srcs2 in
      match (match q with
             | [c] => Ok [mkMChunk (ch_cols c) (PickFrom (ch_stream c) (List.length (List.concat (hd [] (ch_cols c)))))]
             | _ => merge_queue dts q
             end) with
      | Err e => Err e
      | Ok ms => let buf' := buf ++ ms in
                 if drained (mo_limit mo) buf' then Ok (Some buf', (h3, srcs3))
                 else next_index dts n total h3 srcs3 buf'
      end
    end
  end.

(** One file of the output: its row groups and its key range, parquet_merger.rs 771-779. *)
Record OutFile := mkOut { o_groups : list (list Row); o_min : list Z; o_max : list Z }.

(** Main loop, parquet_merger.rs 862-1029.  [cur]: the file being written. *)
Fixpoint files_loop (dts : list DType) (fuel total : nat) (h : list Chunk) (srcs : list (list Chunk)) (cols : list Readers)
    (cur : option OutFile) : result fault (list OutFile) :=
  match fuel with
  | O => Err Panic
  | S n =>
    match next_index dts (S total) total h srcs [] with
    | Err e => Err e
    | Ok (None, _) => Ok (match cur with Some f => [f] | None => [] end)
    | Ok (Some ms, (h', srcs')) =>
      match data_cols ms cols with
      | Err e => Err e
      | Ok (data, cols') =>
        let g := rows_of None (key_cols (mo_ic mo) ms ++ data) in
        let mx := m_max (last ms (mkMChunk [] (PickFrom 0 0))) in
        let f := match cur with
                 | None => mkOut [g] (m_min (hd (mkMChunk [] (PickFrom 0 0)) ms)) mx
                 | Some f => mkOut (o_groups f ++ [g]) (o_min f) mx
                 end in
        if full (o_groups f)
        then match files_loop dts n total h' srcs' cols' None with Ok fs => Ok (f :: fs) | Err e => Err e end
        else files_loop dts n total h' srcs' cols' (Some f)
      end
    end
  end.

(** The pages of a column of each row group, found by name; [None]: the file has no such
    column ([contains_column], mod.rs 551-560). *)
Definition col_groups (f : PFile) (name : string) : option (list (list Page)) :=
  match field_pos (g_fields f) name with
  | None => None
  | Some i => Some (map (fun g => nth i g []) (g_groups f))
  end.
(** The key columns of a stream are those of the merged schema; reading a column that the
    stream lacks, or a file without row groups, panics (mod.rs 567-568). *)
Fixpoint zip_groups (n : nat) (cols : list (list (list Page))) (s : nat) : list Chunk :=
  match n with
  | O => []
  | S n' => mkChunk s (map (fun c => map (map int_of) (hd [] c)) cols) :: zip_groups n' (map (@tl _) cols) s
  end.
Definition source (keys : list Field) (s : nat) (f : PFile) : result fault (list Chunk) :=
  match g_groups f, mapM (fun k => col_groups f (f_name k)) keys with
  | [], _ => Err Panic
  | _, None => Err Panic
  | gs, Some cols => Ok (zip_groups (List.length gs) cols s)
  end.
Fixpoint sources (keys : list Field) (s : nat) (fs : list PFile) : result fault (list (list Chunk)) :=
  match fs with
  | [] => Ok []
  | f :: r => match source keys s f, sources keys (S s) r with
              | Ok c, Ok cs => Ok (c :: cs)
              | Err e, _ | _, Err e => Err e
              end
  end.
Definition readers (fs : list PFile) (name : string) : Readers :=
  fun s => match nth_error fs s with
           | None => None
           | Some f => option_map (fun gs => mkReader gs [] None) (col_groups f name)
           end.

(** [merge], parquet_merger.rs 782-838 and the start of the loop, 863-869.  Indexing the merged
    schema panics if it has fewer columns than the key. *)
Definition page_merge (fs : list PFile) : result fault (list Field * list OutFile) :=
  match merge_schemas [] (map g_fields fs) with
  | Err e => Err e
  | Ok fields =>
    if Nat.ltb (List.length fields) (mo_ic mo) then Err Panic
    else
    let keys := firstn (mo_ic mo) fields in
    match sources keys 0 fs with
    | Err e => Err e
    | Ok srcs =>
      let total := list_sum (map (@List.length Chunk) srcs) in
      match files_loop (map f_dt keys) (S total) total
              (firsts srcs) (map (@tl Chunk) srcs)
              (map (fun f => readers fs (f_name f)) (skipn (mo_ic mo) fields)) None with
      | Err e => Err e
      | Ok outs => Ok (fields, outs)
      end
    end
  end.

(** The entry of a written file in the table metadata, compaction.rs 348-364, lib.rs 47-57:
    64-bit columns and timestamps are [Int64] in parquet, the smaller integers [Int32]. *)
Definition kv_of (d : DType) (z : Z) : KeyValue := if is64 d then KInt64 z else KInt32 z.
Definition kvs_of (dts : list DType) (v : list Z) : list KeyValue := map (fun '(d, z) => kv_of d z) (combine dts v).
Definition merge_out (fields : list Field) (o : OutFile) : MergeOut :=
  let dts := map f_dt (firstn (mo_ic mo) fields) in
  (mkPf fields (List.concat (o_groups o)), (kvs_of dts (o_min o), kvs_of dts (o_max o))).
End Merge.
