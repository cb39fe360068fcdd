(** The last stages of an event report, which turn the aggregated numbers into the table
    shown to the user: src/query/src/physical_plan/{unpivot,pivot,aggregate_and_sort_columns,
    limit_groups,merge}.rs, in the order in which event_segmentation.rs 614-731 chains them.

    Not modelled: column types other than the five below, the split into output partitions
    (these stages run on one), time spent, and the conversion of floating-point columns. *)
From Coq Require Import List ZArith String Bool Arith.
From Verif Require Import AMap.
Import ListNotations.
Local Open Scope Z_scope.
Local Notation length := List.length.

(** Arrow: the types of the columns that reach these stages; [TOther] stands for the types
    for which unpivot.rs 427 and limit_groups.rs 157 stop with unimplemented!. *)
Inductive Ty := TInt | TDec | TText | TTime | TOther.
Definition ty_eqb (a b : Ty) : bool :=
  match a, b with
  | TInt, TInt | TDec, TDec | TText, TText | TTime, TTime | TOther, TOther => true
  | _, _ => false
  end.
(** One non-null value: an integer, a decimal in units of 10^-16, a text, a time. *)
Inductive Cell := CInt (z : Z) | CDec (z : Z) | CText (s : string) | CTime (z : Z).
Definition cell_dec (a b : Cell) : {a = b} + {a <> b}.
Proof. decide equality; try apply Z.eq_dec; apply string_dec. Defined.
Definition ocell_dec (a b : option Cell) : {a = b} + {a <> b}.
Proof. decide equality. apply cell_dec. Defined.

(** arrow::datatypes::Field: name, type, whether nulls are allowed *)
Record Field := mkField { f_name : string; f_ty : Ty; f_null : bool }.
Notation Arr := (list (option Cell)).
(** arrow::record_batch::RecordBatch *)
Record Batch := mkBatch { b_fields : list Field; b_arrs : list Arr }.
Definition num_rows (b : Batch) : nat := match b_arrs b with a :: _ => length a | [] => 0%nat end.
Definition is_some {A} (x : option A) : bool := match x with Some _ => true | None => false end.

(** RecordBatch::try_new (arrow): one array per field, all of one length, no null in a
    column that does not allow it.  The check of array types is not modelled: every array
    below is built for its field. *)
Definition try_new (fs : list Field) (arrs : list Arr) : option Batch :=
  match arrs with
  | [] => None
  | a0 :: _ =>
    if Nat.eqb (length fs) (length arrs)
       && forallb (fun a => Nat.eqb (length a) (length a0)) arrs
       && forallb (fun fa => f_null (fst fa) || forallb is_some (snd fa)) (combine fs arrs)
    then Some (mkBatch fs arrs) else None
  end.

Definition mem (x : string) (l : list string) : bool := if in_dec string_dec x l then true else false.

Fixpoint distinct (l : list string) : bool :=
  match l with [] => true | x :: tl => negb (mem x tl) && distinct tl end.

(** ** unpivot.rs *)
Definition SCALE : Z := 10 ^ 16.
Definition DEC_LIMIT : Z := 10 ^ 28.
(** unpivot.rs 440-452: arrow's cast of a value to a decimal of 28 digits, 16 of them after
    the point; a value that does not fit becomes null.  Only integers and decimals reach it. *)
Definition cast_dec (c : option Cell) : option Cell :=
  match c with
  | Some (CInt z) => if Z.abs (z * SCALE) <? DEC_LIMIT then Some (CDec (z * SCALE)) else None
  | Some (CDec z) => Some (CDec z)
  | _ => None
  end.
(** unpivot.rs 81-108: the columns must be distinct and exist; the others are kept, then
    come the name and the value. *)
Definition unpivot_fields (fs : list Field) (cols : list string) (name_col value_col : string) : option (list Field) :=
  if distinct cols
     && forallb (fun c => mem c (map f_name fs)) cols
  then Some (filter (fun f => negb (mem (f_name f) cols)) fs ++
             [mkField name_col TText false; mkField value_col TDec false])%list
  else None.
(** unpivot.rs 324-496 (fn unpivot) *)
Definition unpivot (b : Batch) (schema : list Field) (cols : list string) : option Batch :=
  let k := length cols in
  let groups := filter (fun fa : Field * Arr => negb (mem (f_name (fst fa)) cols)) (combine (b_fields b) (b_arrs b)) in
  if existsb (fun fa : Field * Arr => ty_eqb (f_ty (fst fa)) TOther) groups then None else
  let group_arrs := map (fun fa : Field * Arr => flat_map (fun v => repeat v k) (snd fa)) groups in
  let values := map (fun fa : Field * Arr => map cast_dec (snd fa))
                  (filter (fun fa : Field * Arr => mem (f_name (fst fa)) cols) (combine (b_fields b) (b_arrs b))) in
  let name_arr := flat_map (fun _ => map (fun c => Some (CText c)) cols) (seq 0 (num_rows b)) in
  match values with
  | [] => None
  | v0 :: _ =>
    let value_arr := flat_map (fun i => map (fun a : Arr => nth i a None) values) (seq 0 (length v0)) in
    try_new schema (group_arrs ++ [name_arr; value_arr])%list
  end.
(** unpivot.rs 81-120, 213-227: the operator over a stream of batches with fields [fs] *)
Fixpoint mapO {A B} (f : A -> option B) (l : list A) : option (list B) :=
  match l with
  | [] => Some []
  | x :: tl => match f x, mapO f tl with Some y, Some ys => Some (y :: ys) | _, _ => None end
  end.
Definition unpivot_exec (fs : list Field) (cols : list string) (name_col value_col : string) (bs : list Batch)
  : option (list Batch) :=
  match unpivot_fields fs cols name_col value_col with
  | None => None
  | Some schema => mapO (fun b => unpivot b schema cols) bs
  end.

(** ** pivot.rs *)
Section Pivot.
(** the text of a value in the column of names: arrow's cast to Utf8, pivot.rs 253 *)
Variable show : Cell -> string.
(** create_hashes over the group columns of a row, pivot.rs 264 *)
Variable hash : list (option Cell) -> Z.
(** pivot.rs 59: BUFFER_LENGTH = 1024 *)
Variable buffer : nat.

(** pivot.rs 199-212: hash of a group -> its number, the groups, one growing array per
    result column *)
Record PivotState := mkPS { ps_map : list (Z * nat); ps_groups : list (list (option Cell)); ps_cols : list (string * Arr) }.
(** pivot.rs 169-175 *)
Definition pivot_init (result_cols : list string) : PivotState :=
  mkPS [] [] (map (fun c => (c, repeat (@None Cell) buffer)) result_cols).
(** [values[i] = x]; the caller has checked the length *)
Fixpoint upd {A} (l : list A) (i : nat) (x : A) : list A :=
  match l, i with
  | [], _ => []
  | _ :: tl, O => x :: tl
  | y :: tl, S j => y :: upd tl j x
  end.
(** pivot.rs 267-303: one row with group values [g], name [n] and value [v].  A null name
    reads as the empty text.  Writing outside of the array is a panic. *)
Definition pivot_row (st : PivotState) (g : list (option Cell)) (n : option Cell) (v : option Cell) : option PivotState :=
  let h := hash g in
  let '(idx, m, gs) :=
    match aget Z.eq_dec h (ps_map st) with
    | Some i => (i, ps_map st, ps_groups st)
    | None => let i := length (ps_groups st) in (i, aset Z.eq_dec h i (ps_map st), ps_groups st ++ [g])%list
    end in
  let name := match n with Some c => show c | None => ""%string end in
  match aget string_dec name (ps_cols st) with
  | None => None
  | Some vs =>
    let vs := if Nat.ltb (length vs - 1) idx then (vs ++ repeat None buffer)%list else vs in
    if Nat.ltb idx (length vs)
    then Some (mkPS m gs (aset string_dec name (upd vs idx v) (ps_cols st)))
    else None
  end.
Fixpoint pivot_rows (st : PivotState) (rows : list (list (option Cell) * option Cell * option Cell)) : option PivotState :=
  match rows with
  | [] => Some st
  | (g, n, v) :: tl => match pivot_row st g n v with Some st' => pivot_rows st' tl | None => None end
  end.
(** index_of: position of the first column of that name *)
Fixpoint index_of (fs : list Field) (name : string) : option nat :=
  match fs with
  | [] => None
  | f :: tl => if string_dec (f_name f) name then Some 0%nat else option_map S (index_of tl name)
  end.
Definition row (arrs : list Arr) (i : nat) : list (option Cell) := map (fun a => nth i a None) arrs.
(** pivot.rs 247-266: the rows of a batch; the group columns are the others (66-77) *)
Definition batch_rows (name_col value_col : string) (b : Batch) : list (list (option Cell) * option Cell * option Cell) :=
  let garrs := map snd (filter (fun fa : Field * Arr =>
                 negb (String.eqb (f_name (fst fa)) name_col || String.eqb (f_name (fst fa)) value_col))
                 (combine (b_fields b) (b_arrs b))) in
  let narr := match index_of (b_fields b) name_col with Some i => nth i (b_arrs b) [] | None => [] end in
  let varr := match index_of (b_fields b) value_col with Some i => nth i (b_arrs b) [] | None => [] end in
  map (fun i => (row garrs i, nth i narr None, nth i varr None)) (seq 0 (num_rows b)).
(** Vec::resize *)
Definition resize (vs : Arr) (n : nat) : Arr := (firstn n vs ++ repeat None (n - length vs))%list.
(** pivot.rs 308-343 (fn finish) and 66-92 for the fields *)
Definition pivot_fields (fs : list Field) (name_col value_col : string) (result_cols : list string) : list Field :=
  let ty := match index_of fs value_col with Some i => f_ty (nth i fs (mkField "" TOther true)) | None => TOther end in
  (filter (fun f => negb (String.eqb (f_name f) name_col || String.eqb (f_name f) value_col)) fs ++
   map (fun c => mkField c ty true) result_cols)%list.
Definition finish (schema : list Field) (ngroups : nat) (result_cols : list string) (st : PivotState) : option Batch :=
  let n := length (ps_groups st) in
  let group_arrs := map (fun j => map (fun g => nth j g None) (ps_groups st)) (seq 0 ngroups) in
  match mapO (fun c => option_map (fun vs => resize vs n) (aget string_dec c (ps_cols st))) result_cols with
  | None => None
  | Some result_arrs => try_new schema (group_arrs ++ result_arrs)%list
  end.
(** pivot.rs 216-240: all batches are read, then one batch comes out, none if no row came
    in; outer [None]: the query fails. *)
Definition pivot (fs : list Field) (name_col value_col : string) (result_cols : list string) (bs : list Batch)
  : option (list Batch) :=
  match pivot_rows (pivot_init result_cols) (flat_map (batch_rows name_col value_col) bs) with
  | None => None
  | Some st =>
    match ps_groups st with
    | [] => Some []
    | _ => option_map (fun b => [b])
             (finish (pivot_fields fs name_col value_col result_cols)
                (length (filter (fun f => negb (String.eqb (f_name f) name_col || String.eqb (f_name f) value_col)) fs))
                result_cols st)
    end
  end.
End Pivot.

(** datafusion-common 39 hash_utils.rs, create_hashes: the columns are folded one after the
    other into a hash that starts as 0; a null leaves the hash as it is, the first column
    sets it, the others are combined with it. *)
Section Hash.
Variable h1 : Cell -> Z.
Variable combine_hashes : Z -> Z -> Z.
Fixpoint rehash (acc : Z) (g : list (option Cell)) : Z :=
  match g with
  | [] => acc
  | None :: tl => rehash acc tl
  | Some c :: tl => rehash (combine_hashes (h1 c) acc) tl
  end.
Definition create_hash (g : list (option Cell)) : Z :=
  match g with
  | [] => 0
  | None :: tl => rehash 0 tl
  | Some c :: tl => rehash (h1 c) tl
  end.
End Hash.

(** ** aggregate_and_sort_columns.rs *)
(** 153-161: the value of a decimal array at a row; a null slot holds 0. *)
Definition dec_value (c : option Cell) : Z := match c with Some (CDec z) => z | _ => 0 end.
(** 153-161: sum over the value columns divided by their number; i128 division truncates,
    division by zero panics *)
Definition row_avg (arrs : list Arr) (i : nat) : option Z :=
  match arrs with
  | [] => None
  | _ => Some (Z.quot (fold_left Z.add (map dec_value (row arrs i)) 0) (Z.of_nat (length arrs)))
  end.
(** 145-199 with the fields of 43-59.  [order] is arrow's sort_to_indices for descending
    order.  A value column that is not decimal panics (150), and so does [groups = 0]. *)
Definition insert_after {A} (n : nat) (x : A) (l : list A) : list A :=
  match n with O => l | _ => if Nat.leb n (length l) then (firstn n l ++ x :: skipn n l)%list else l end.
Definition avg_field : Field := mkField "Average" TDec false.
Definition aggregate_and_sort (order : list Z -> list nat) (groups : nat) (b : Batch) : option Batch :=
  match groups with
  | O => None
  | _ =>
    if forallb (fun f => ty_eqb (f_ty f) TDec) (skipn groups (b_fields b)) then
      match mapO (row_avg (skipn groups (b_arrs b))) (seq 0 (num_rows b)) with
      | None => None
      | Some avg =>
        let idx := order avg in
        try_new (insert_after groups avg_field (b_fields b))
          (map (fun a => map (fun i => nth i a None) idx)
             (insert_after groups (map (fun z => Some (CDec z)) avg) (b_arrs b)))
      end
    else None
  end.

(** ** limit_groups.rs *)
(** 163-177: one row; [counters] has one map per group column.  The second component says
    whether the row is taken.  Counters of the columns before the one that rejects the row
    have been increased. *)
Fixpoint limit_row (limit : nat) (counters : list (list (option Cell * nat))) (r : list (option Cell))
  : list (list (option Cell * nat)) * bool :=
  match counters, r with
  | m :: ms, v :: vs =>
    let cnt := match aget ocell_dec v m with Some c => c | None => 0%nat end in
    if Nat.eqb cnt limit then (aset ocell_dec v cnt m :: ms, false)
    else let '(ms', t) := limit_row limit ms vs in (aset ocell_dec v (S cnt) m :: ms', t)
  | _, _ => (counters, true)
  end.
Fixpoint limit_rows (limit : nat) (counters : list (list (option Cell * nat))) (arrs : list Arr) (is : list nat) : list nat :=
  match is with
  | [] => []
  | i :: tl =>
    let '(c', t) := limit_row limit counters (row arrs i) in
    if t then i :: limit_rows limit c' arrs tl else limit_rows limit c' arrs tl
  end.
Definition countable (f : Field) : bool := match f_ty f with TInt | TDec | TText => true | _ => false end.
(** 126-194: one batch; the group columns are the [groups] columns after the first [skip].
    With fewer columns than that, arrs[group_id] (166) panics. *)
Definition limit_batch (skip groups limit : nat) (b : Batch) : option Batch :=
  match groups with
  | O => Some b
  | _ =>
    let fs := firstn groups (skipn skip (b_fields b)) in
    if forallb countable fs && Nat.leb groups (length fs) then
      let keep := limit_rows limit (repeat [] groups) (firstn groups (skipn skip (b_arrs b))) (seq 0 (num_rows b)) in
      try_new (b_fields b) (map (fun a => map (fun i => nth i a None) keep) (b_arrs b))
    else None
  end.

(** ** The compact format *)
(** event_segmentation.rs 631-731 for one event: in the compact format the table is not turned
    into one column per time (631, 684); its metrics go to the average (717) and the limit (724)
    as they were computed.  [group_len] is the number of breakdowns plus one for the time. *)
Definition compact_event (order : list Z -> list nat) (group_len : nat) (b : Batch) : option Batch :=
  match aggregate_and_sort order (group_len - 1 + 2)%nat b with
  | None => None
  | Some s => limit_batch 1 (group_len - 1) 50 s
  end.

(** ** merge.rs *)
(** Schema::try_merge (arrow): fields by name in order of appearance; the same name with two
    types is an error; nullable if one of the fields is. *)
Fixpoint merge_field (acc : list Field) (f : Field) : option (list Field) :=
  match acc with
  | [] => Some [f]
  | g :: tl =>
    if string_dec (f_name g) (f_name f)
    then if ty_eqb (f_ty g) (f_ty f) then Some (mkField (f_name g) (f_ty g) (f_null g || f_null f) :: tl) else None
    else option_map (cons g) (merge_field tl f)
  end.
Fixpoint merge_fields (acc : list Field) (fs : list Field) : option (list Field) :=
  match fs with
  | [] => Some acc
  | f :: tl => match merge_field acc f with Some acc' => merge_fields acc' tl | None => None end
  end.
(** merge.rs 49-66: the name column comes first *)
Definition merge_schema (label : string) (inputs : list (list Field)) : option (list Field) :=
  option_map (cons (mkField label TText false)) (merge_fields [] (List.concat inputs)).
(** merge.rs 165-189: one batch of the input called [name] *)
Definition merge_batch (schema : list Field) (name : string) (b : Batch) : option Batch :=
  try_new schema
    (map (fun jf : nat * Field =>
       match index_of (b_fields b) (f_name (snd jf)) with
       | Some i => nth i (b_arrs b) []
       | None => if Nat.eqb (fst jf) 0 then repeat (Some (CText name)) (num_rows b) else repeat None (num_rows b)
       end) (combine (seq 0 (length schema)) schema)).
(** merge.rs 155-203: the inputs one after the other.  An input is its fields and batches. *)
Definition merge (label : string) (inputs : list (string * (list Field * list Batch))) : option (list Batch) :=
  match inputs with
  | [] => None
  | _ =>
    match merge_schema label (map (fun i => fst (snd i)) inputs) with
    | None => None
    | Some schema =>
      option_map (@List.concat Batch)
        (mapO (fun i : string * (list Field * list Batch) => mapO (merge_batch schema (fst i)) (snd (snd i))) inputs)
    end
  end.
