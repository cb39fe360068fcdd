(** The two stages of an event report: src/query/src/physical_plan/segmented_aggregate.rs.
    Every worker aggregates its share of the users for every segment and metric, the final
    stage combines the workers' tables. *)
From Coq Require Import List ZArith QArith Qcanon Bool Arith.
From Verif Require Import AMap Aggregate.
Import ListNotations.

(** a row of a worker's table: segment, breakdown values, one column per metric *)
Record PRow := mkPRow { pr_seg : Z; pr_key : QKey; pr_vals : list Qc }.

Section Report.
Context {R : Type}.
Variables lo hi : Qc.

(** 482-512: a metric's rows have 0 in the columns of the other metrics. *)
Definition one_hot (n i : nat) (v : Qc) : list Qc := map (fun j => if Nat.eqb i j then v else 0%Qc) (seq 0 n).
(** 463-517 for one segment: [ms] are the remaining metrics, from index [i] on *)
Fixpoint partial_metrics (n i : nat) (seg : Z) (ex : option (list Z)) (keep : R -> bool) (ms : list (Columns R * Metric))
  (batches : list (list R)) : option (list PRow) :=
  match ms with
  | [] => Some []
  | (c, m) :: tl =>
    match report_worker c lo hi m keep ex batches, partial_metrics n (S i) seg ex keep tl batches with
    | Some a, Some b => Some (map (fun kv => mkPRow seg (fst kv) (one_hot n i (snd kv))) a ++ b)%list
    | _, _ => None
    end
  end.
(** 433-461, 463-517: the segments one after the other; [segs] is [[None]] for a report
    without segments. *)
Fixpoint partial_segments (seg : Z) (segs : list (option (list Z))) (keep : R -> bool) (ms : list (Columns R * Metric))
  (batches : list (list R)) : option (list PRow) :=
  match segs with
  | [] => Some []
  | ex :: tl =>
    match partial_metrics (length ms) 0 seg ex keep ms batches, partial_segments (seg + 1) tl keep ms batches with
    | Some a, Some b => Some (a ++ b)%list
    | _, _ => None
    end
  end.
Fixpoint all_workers (segs : list (option (list Z))) (keep : R -> bool) (ms : list (Columns R * Metric))
  (workers : list (list (list R))) : option (list (list PRow)) :=
  match workers with
  | [] => Some []
  | w :: ws =>
    match partial_segments 0 segs keep ms w, all_workers segs keep ms ws with
    | Some t, Some ts => Some (t :: ts)
    | _, _ => None
    end
  end.

(** 70-77: the function that combines the workers' values, from [op] of the metric
    (expressions/aggregate: count.rs 268, mod.rs 339, partitioned/count.rs 278, 471,
    partitioned/aggregate.rs 325) *)
Definition op_of (m : Metric) : Fn :=
  match m with
  | CountEvents => Cnt | CountUnique => Cnt | CountPerGroup f => f | AggProperty f => f | AggPerGroup _ f => f
  end.
Definition combine_fn (f : Fn) : Fn := match f with Cnt => Sum | _ => f end.
(** 78-93: the aggregation over the workers' tables, grouped by segment and breakdowns *)
Definition final_cols (i : nat) : Columns PRow :=
  mkCols (fun r => Some (pr_seg r)) (fun _ => 0%Z) (fun r => pr_seg r :: pr_key r) None
         (fun r => Some (nth i (pr_vals r) 0%Qc)) (fun _ => 0%Qc).
(** 94-117, 842-890: the rows of the metrics are merged by taking the largest value, null
    for the metrics a row is not about; so the cell of metric [i] is its combined value. *)
Definition final_cell (m : Metric) (i : nat) (tables : list (list PRow)) (seg : Z) (k : QKey) : option Qc :=
  option_map result (aget qkey_dec (seg :: k) (agg_all (final_cols i) lo hi (combine_fn (op_of m)) None tables [])).
(** The value of metric [i] for a segment and breakdown values; outer [None]: the query fails. *)
Definition report (segs : list (option (list Z))) (keep : R -> bool) (ms : list (Columns R * Metric))
  (workers : list (list (list R))) (i : nat) (seg : Z) (k : QKey) : option (option Qc) :=
  match nth_error ms i, all_workers segs keep ms workers with
  | Some (_, m), Some tables => Some (final_cell m i tables seg k)
  | _, _ => None
  end.
End Report.
