(** The table of an event report as it is shown: how the rows are named after the metrics, how
    the columns are put in order and how they are titled.
    src/query/src/event_segmentation.rs 299-453 and 698-713,
    src/query/src/{logical_plan,physical_plan}/{add_string_column,merge,reorder_columns,
    rename_columns,rename_column_rows}.rs, src/query/src/lib.rs 432-446 and
    src/common/src/event_segmentation.rs 80-128.  The stages before are in [Shape].

    Not modelled: the decoding of dictionaries (event_segmentation.rs 347), which replaces
    numbers by texts and leaves rows and columns in their places: the cells here are the decoded
    ones.  The compact format, which returns before any of this (349-351). *)
From Coq Require Import List ZArith NArith String Bool Arith.
From Verif Require Import Kv SavedQuery Shape.
Import ListNotations.
Local Open Scope string_scope.
Local Notation length := List.length.
Notation Input := (string * (list Field * list Batch))%type.

(** ** The names of the metrics *)
(** common/event_segmentation.rs 56-78.  A property is the name the query calls it by
    (query.rs 206-214; custom properties are unimplemented! there). *)
Inductive Query :=
| QCount | QUnique | QDaily | QWeekly | QMonthly
| QPer (a : AggFunction)
| QPropPer (p : string) (per : PartAggFunction) (a : AggFunction)
| QProp (p : string) (a : AggFunction)
| QFormula (f : string).
(** common/event_segmentation.rs 130-134: a metric and the name the user gave to it *)
Record Named := mkNamed { n_query : Query; n_name : option string }.

(** common/query.rs 66-70 and 107-111: the name of the variant in capitals *)
Definition agg_text (a : AggFunction) : string :=
  match a with AfCount => "COUNT" | AfSum => "SUM" | AfMin => "MIN" | AfMax => "MAX" | AfAvg => "AVG" end.
Definition per_text (a : PartAggFunction) : string :=
  match a with PaCount => "COUNT" | PaSum => "SUM" | PaAvg => "AVG" | PaMin => "MIN" | PaMax => "MAX" end.
(** common/event_segmentation.rs 81-93; [None] is unimplemented! *)
Definition initial_name (q : Query) : option string :=
  match q with
  | QCount => Some "count"
  | QUnique | QDaily | QPer _ => Some "partitioned_count"
  | QPropPer _ _ _ => Some "partitioned_agg"
  | QProp _ _ => Some "agg"
  | QWeekly | QMonthly | QFormula _ => None
  end.
(** common/event_segmentation.rs 94-127 *)
Definition query_name (q : Query) : string :=
  match q with
  | QCount => "Count" | QUnique => "Count unique" | QDaily => "Daily active"
  | QWeekly => "Weekly active" | QMonthly => "Monthly active"
  | QPer a => match a with AfCount => "Count" | AfSum => "Sum" | AfMin => "Min" | AfMax => "Max" | AfAvg => "Avg" end
  | QPropPer p per a => agg_text a ++ "(" ++ per_text per ++ "(" ++ p ++ "))"
  | QProp p a => agg_text a ++ "(" ++ p ++ ")"
  | QFormula f => f
  end.
(** query/event_segmentation.rs 633-652: the column of metric [q] of event [e]; it becomes the
    cell in "agg_name" of the rows of that metric (unpivot, [Shape]).  [None] is unimplemented!. *)
Definition metric_col (e q : nat) (m : Query) : option string :=
  option_map (fun s => dec (N.of_nat e) ++ "_" ++ dec (N.of_nat q) ++ "_" ++ s)
    match m with
    | QCount => Some "count"
    | QUnique => Some "partitioned_count"
    | QDaily => Some "partitioned_count"
    | QWeekly | QMonthly => None
    | QPer _ => Some "partitioned_count"
    | QPropPer _ _ _ => Some "partitioned_agg"
    | QProp _ _ => Some "agg"
    | QFormula _ => None
    end.
(** query/event_segmentation.rs 698-705: all metrics of all events.  The name given by the user
    is not used. *)
Definition rename_pair (e q : nat) (m : Named) : option (string * string) :=
  option_map (fun s => (dec (N.of_nat e) ++ "_" ++ dec (N.of_nat q) ++ "_" ++ s, query_name (n_query m)))
    (initial_name (n_query m)).
Fixpoint indexed {A} (k : nat) (l : list A) : list (nat * A) :=
  match l with [] => [] | x :: tl => (k, x) :: indexed (S k) tl end.
Definition rename_list (events : list (list Named)) : option (list (string * string)) :=
  option_map (@List.concat _)
    (mapO (fun ei : nat * list Named => mapO (fun qi : nat * Named => rename_pair (fst ei) (fst qi) (snd qi)) (indexed 0 (snd ei)))
       (indexed 0 events)).

(** physical_plan/rename_column_rows.rs 137-151: one cell; [None] is the failed downcast of 137 *)
Definition rename_cell (ren : list (string * string)) (v : option Cell) : option (option Cell) :=
  match v with
  | None => Some None
  | Some (CText s) =>
    match find (fun p => String.eqb s (fst p)) ren with
    | None => Some v
    | Some p => Some (Some (CText (snd p)))
    end
  | Some _ => None
  end.
(** rename_column_rows.rs 126-165 *)
Definition rename_rows (column : string) (ren : list (string * string)) (b : Batch) : option Batch :=
  match mapO (fun fa : Field * Arr =>
                if String.eqb (f_name (fst fa)) column then mapO (rename_cell ren) (snd fa) else Some (snd fa))
             (combine (b_fields b) (b_arrs b)) with
  | None => None
  | Some arrs => try_new (b_fields b) arrs
  end.

(** ** Order and titles of the columns *)
Definition event_field : Field := mkField "event" TText false.
(** physical_plan/add_string_column.rs 127-141: the name of the only event before the others *)
Definition add_string_column (name : string) (b : Batch) : option Batch :=
  try_new (event_field :: b_fields b) (repeat (Some (CText name)) (num_rows b) :: b_arrs b).

(** DFSchema::merge, used in logical_plan/merge.rs 30-33: a column that is there already is
    skipped.  The logical schemas decide which plans are refused and how the result is read. *)
Definition logical_merge (acc fs : list Field) : list Field :=
  (acc ++ filter (fun f => negb (mem (f_name f) (map f_name acc))) fs)%list.
Definition logical_fields (inputs : list Input) : list Field :=
  match inputs with
  | [(_, (fs, _))] => event_field :: fs
  | _ => event_field :: fold_left logical_merge (map (fun i : Input => fst (snd i)) inputs) []
  end.
(** event_segmentation.rs 299-345: one event gets its name in front, several are merged *)
Definition with_event (inputs : list Input) : option (list Batch) :=
  match inputs with
  | [(name, (_, bs))] => mapO (add_string_column name) bs
  | _ => merge "event" inputs
  end.

(** event_segmentation.rs 400 and 437 *)
Definition numbered (name : string) (k : nat) : string := name ++ " " ++ dec (N.of_nat k).
(** event_segmentation.rs 369-441: the loop over the breakdowns, those of the events before the
    common ones.  A property is its column and its title (properties.rs 610-638).  The state is
    group_cols, display_group_cols and rename_groups. *)
Definition title_step (st : list string * list string * list (string * string)) (p : string * string)
  : list string * list string * list (string * string) :=
  let '(cols, shown, ren) := st in
  if mem (fst p) cols then st
  else
    let found := count_occ string_dec shown (snd p) in
    (cols ++ [fst p], shown ++ [snd p],
     ren ++ [(fst p, if Nat.eqb found 0 then snd p else numbered (snd p) (found + 1))])%list.
(** 352-444: the columns that come first and the titles *)
Definition titles (props : list (string * string)) : list string * list (string * string) :=
  let '(cols, _, ren) := fold_left title_step props
    (["event"; "segment"], [], [("event", "Event"); ("segment", "Segment")]) in
  ((cols ++ ["agg_name"])%list, (ren ++ [("agg_name", "Formula")])%list).

(** logical_plan/reorder_columns.rs 28-37 (and physical 39-50): the named columns, which must
    exist, then the others *)
Definition reorder_fields (cols : list string) (fs : list Field) : option (list Field) :=
  match mapO (fun c => find (fun f => String.eqb (f_name f) c) fs) cols with
  | None => None
  | Some first => Some (first ++ filter (fun f => negb (mem (f_name f) cols)) fs)%list
  end.
(** physical_plan/reorder_columns.rs 129-143; [None] also for the failed unwrap of 136 *)
Definition reorder_batch (cols : list string) (b : Batch) : option Batch :=
  match reorder_fields cols (b_fields b) with
  | None => None
  | Some fs =>
    match mapO (fun f => option_map (fun i => nth i (b_arrs b) []) (index_of (b_fields b) (f_name f))) fs with
    | None => None
    | Some arrs => try_new fs arrs
    end
  end.
(** logical_plan/rename_columns.rs 30-44: the first pair with the name decides.  The batches
    pass unchanged (physical_plan/rename_columns.rs 138-140). *)
Definition rename_field (ren : list (string * string)) (f : Field) : Field :=
  match find (fun p => String.eqb (f_name f) (fst p)) ren with
  | Some p => mkField (snd p) (f_ty f) (f_null f)
  | None => f
  end.
(** lib.rs 440-443: the batches one after the other, columns by position, read with the fields
    of the logical plan *)
Definition concat_tables (fs : list Field) (bs : list Batch) : option Batch :=
  try_new fs (map (fun j => List.concat (map (fun b => nth j (b_arrs b) []) bs)) (seq 0 (length fs))).

(** event_segmentation.rs 299-453, then lib.rs 432-446.  A DFSchema with two columns of one name
    is refused (add_string_column.rs 43, merge.rs 41, reorder_columns.rs 42, rename_columns.rs
    49 of logical_plan). *)
Definition report_table (inputs : list Input) (props : list (string * string)) : option Batch :=
  let lf := logical_fields inputs in
  if negb (distinct (map f_name lf)) then None else
  let '(cols, ren) := titles props in
  match reorder_fields cols lf with
  | None => None
  | Some lf' =>
    if negb (distinct (map f_name lf')) then None else
    let lf'' := map (rename_field ren) lf' in
    if negb (distinct (map f_name lf'')) then None else
    match with_event inputs with
    | None => None
    | Some bs =>
      match mapO (reorder_batch cols) bs with
      | None => None
      | Some bs' => concat_tables lf'' bs'
      end
    end
  end.
