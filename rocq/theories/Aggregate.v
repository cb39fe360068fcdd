(** Aggregations of event reports: src/query/src/physical_plan/expressions/aggregate
    (count.rs, mod.rs, partitioned/count.rs, partitioned/aggregate.rs) and the aggregate
    functions of expressions/segmentation/aggregate.rs.

    Numbers are rationals ([Qc]): integer columns and decimals (integers scaled by 10^16) are
    exact, the rounding of 64-bit floats (averages) and integer overflow are not modelled.
    A hash map of groups is an association list. *)
From Coq Require Import List ZArith QArith Qcanon Bool Arith.
From Verif Require Import AMap.
Import ListNotations.

Notation QKey := (list Z).
Definition qkey_dec : forall a b : QKey, {a = b} + {a <> b} := list_eq_dec Z.eq_dec.
Definition qc_of_nat (n : nat) : Qc := Q2Qc (inject_Z (Z.of_nat n)).
Definition qlt (a b : Qc) : bool := if Qclt_le_dec a b then true else false.

(** segmentation/aggregate.rs 33-42 *)
Inductive Fn := Sum | Min | Max | Avg | Cnt.
Inductive Acc := ASum (s : Qc) | AMin (m : Qc) | AMax (m : Qc) | AAvg (s c : Qc) | ACnt (c : Qc).

Section Functions.
(** T::min_value and T::max_value of the accumulator's type *)
Variables lo hi : Qc.

(** 47-76 [new_*], [make_new]; [reset] (119-131) gives the same states. *)
Definition make_new (f : Fn) : Acc :=
  match f with
  | Sum => ASum 0 | Min => AMin hi | Max => AMax lo | Avg => AAvg 0 0 | Cnt => ACnt 0
  end.
(** 77-107 *)
Definition accumulate (a : Acc) (v : Qc) : Acc :=
  match a with
  | ASum s => ASum (s + v)
  | AMin m => AMin (if qlt v m then v else m)
  | AMax m => AMax (if qlt m v then v else m)
  | AAvg s c => AAvg (s + v) (c + 1)
  | ACnt c => ACnt (c + 1)
  end.
(** 109-117 *)
Definition result (a : Acc) : Qc :=
  match a with ASum s => s | AMin m => m | AMax m => m | AAvg s c => (s / c)%Qc | ACnt c => c end.
(** 119-131 *)
Definition reset (a : Acc) : Acc :=
  match a with
  | ASum _ => ASum 0 | AMin _ => AMin hi | AMax _ => AMax lo | AAvg _ _ => AAvg 0 0 | ACnt _ => ACnt 0
  end.
End Functions.

(** What the expressions of a metric give for a row: the partition column (the user or group
    the rows belong to), the breakdown values, the optional filter (null is [None]) and the
    aggregated column.  [c_pslot] and [c_slot] are what the arrays hold at a null position. *)
Record Columns (R : Type) := mkCols {
  c_part : R -> option Z; c_pslot : R -> Z;
  c_key : R -> QKey;
  c_filter : option (R -> option bool);
  c_val : R -> option Qc; c_slot : R -> Qc
}.
Arguments mkCols {R}. Arguments c_part {R}. Arguments c_pslot {R}. Arguments c_key {R}.
Arguments c_filter {R}. Arguments c_val {R}. Arguments c_slot {R}.

(** expressions/mod.rs 12-17 [check_filter]; no filter lets every row through. *)
Definition passes {R} (c : Columns R) (r : R) : bool :=
  match c_filter c with
  | None => true
  | Some f => match f r with Some b => b | None => false end
  end.
(** [exists.contains_key]; [None]: the report has no segments. *)
Definition in_segment (ex : option (list Z)) (p : Z) : bool :=
  match ex with None => true | Some us => existsb (Z.eqb p) us end.

Definition entry {G} (k : QKey) (new : G) (gs : list (QKey * G)) : G :=
  match aget qkey_dec k gs with Some g => g | None => new end.

Section Evaluate.
Context {R : Type}.
Variable c : Columns R.
Variables lo hi : Qc.

Definition part_value (r : R) : Z := match c_part c r with Some p => p | None => c_pslot c r end.

(** *** Count: count.rs 94-190 (the groups; 268-275 without groups is the group [[]] that is
    there from the start).  [skip] is [skip_partition] while [skip] is set; it does not
    survive the batch. *)
Fixpoint count_rows (ex : option (list Z)) (rows : list R) (skip : option Z) (gs : list (QKey * Qc))
  : list (QKey * Qc) :=
  match rows with
  | [] => gs
  | r :: tl =>
    let p := part_value r in
    if match skip with Some q => Z.eqb p q | None => false end then count_rows ex tl skip gs
    else if negb (in_segment ex p) then count_rows ex tl (Some p) gs
    else if negb (passes c r) then count_rows ex tl None gs
    else match c_val c r with
         | None => count_rows ex tl None gs
         | Some _ => count_rows ex tl None (aset qkey_dec (c_key c r) (entry (c_key c r) 0%Qc gs + 1)%Qc gs)
         end
  end.
Definition count_all (ex : option (list Z)) (batches : list (list R)) (gs : list (QKey * Qc)) : list (QKey * Qc) :=
  fold_left (fun gs b => count_rows ex b None gs) batches gs.

(** *** Aggregate: mod.rs 187-285 *)
Fixpoint agg_rows (f : Fn) (ex : option (list Z)) (rows : list R) (skip : option Z) (gs : list (QKey * Acc))
  : list (QKey * Acc) :=
  match rows with
  | [] => gs
  | r :: tl =>
    let p := part_value r in
    if match skip with Some q => Z.eqb p q | None => false end then agg_rows f ex tl skip gs
    else if negb (in_segment ex p) then agg_rows f ex tl (Some p) gs
    else if negb (passes c r) then agg_rows f ex tl None gs
    else match c_val c r with
         | None => agg_rows f ex tl None gs
         | Some v => agg_rows f ex tl None
                       (aset qkey_dec (c_key c r) (accumulate (entry (c_key c r) (make_new lo hi f) gs) v) gs)
         end
  end.
Definition agg_all (f : Fn) (ex : option (list Z)) (batches : list (list R)) (gs : list (QKey * Acc))
  : list (QKey * Acc) :=
  fold_left (fun gs b => agg_rows f ex b None gs) batches gs.

(** *** PartitionedCount: partitioned/count.rs 35-55 *)
Record PGroup := mkPG { pg_count : Qc; pg_outer : Acc; pg_first : bool; pg_last : Z }.
Definition new_pgroup (f : Fn) : PGroup := mkPG 0 (make_new lo hi f) true 0.
(** 155-205 for one row that was not skipped; 325-390 is the same for decimals
    ([dec128]) except that [distinct] does not stop it from counting up. *)
Definition pgroup_row (distinct dec128 : bool) (r : R) (p : Z) (g : PGroup) : PGroup * bool :=
  let last := if pg_first g then p else pg_last g in
  if negb (passes c r) then (mkPG (pg_count g) (pg_outer g) false last, false)
  else
    let outer := if Z.eqb last p then pg_outer g else accumulate (pg_outer g) (pg_count g) in
    let count := if Z.eqb last p then pg_count g else 0%Qc in
    (mkPG (if (distinct && negb dec128)%bool then 1 else count + 1)%Qc outer false p, distinct).
(** 155-169: [skip_partition] is never assigned and stays 0; a null partition panics. *)
Fixpoint pcount_rows (f : Fn) (distinct dec128 : bool) (ex : option (list Z)) (rows : list R)
  (st : list (QKey * PGroup) * bool) : option (list (QKey * PGroup) * bool) :=
  match rows with
  | [] => Some st
  | r :: tl =>
    match c_part c r with
    | None => None
    | Some p =>
      let '(gs, skip) := st in
      if (skip && Z.eqb p 0)%bool then pcount_rows f distinct dec128 ex tl (gs, true)
      else if negb (in_segment ex p) then pcount_rows f distinct dec128 ex tl (gs, true)
      else
        let '(g, s) := pgroup_row distinct dec128 r p (entry (c_key c r) (new_pgroup f) gs) in
        pcount_rows f distinct dec128 ex tl (aset qkey_dec (c_key c r) g gs, s)
    end
  end.
Fixpoint pcount_all (f : Fn) (distinct dec128 : bool) (ex : option (list Z)) (batches : list (list R))
  (st : list (QKey * PGroup) * bool) : option (list (QKey * PGroup) * bool) :=
  match batches with
  | [] => Some st
  | b :: bs => match pcount_rows f distinct dec128 ex b st with
               | None => None
               | Some st' => pcount_all f distinct dec128 ex bs st'
               end
  end.
(** 212-232 *)
Definition pgroup_result (g : PGroup) : Qc := result (accumulate (pg_outer g) (pg_count g)).

(** *** The partitioned Aggregate: partitioned/aggregate.rs 54-80 *)
Record IGroup := mkIG { ig_inner : Acc; ig_outer : Acc; ig_first : bool; ig_last : Z }.
Definition new_igroup (fi fo : Fn) : IGroup := mkIG (make_new lo hi fi) (make_new lo hi fo) true 0.
(** 199-247: [predicate.value] does not look at the null mask. *)
Definition raw_value (r : R) : Qc := match c_val c r with Some v => v | None => c_slot c r end.
Definition igroup_row (r : R) (p : Z) (g : IGroup) : IGroup :=
  let last := if ig_first g then p else ig_last g in
  if negb (passes c r) then mkIG (ig_inner g) (ig_outer g) false last
  else
    let outer := if Z.eqb last p then ig_outer g else accumulate (ig_outer g) (result (ig_inner g)) in
    let inner := if Z.eqb last p then ig_inner g else reset lo hi (ig_inner g) in
    mkIG (accumulate inner (raw_value r)) outer false p.
Fixpoint pagg_rows (fi fo : Fn) (ex : option (list Z)) (rows : list R)
  (st : list (QKey * IGroup) * bool) : option (list (QKey * IGroup) * bool) :=
  match rows with
  | [] => Some st
  | r :: tl =>
    match c_part c r with
    | None => None
    | Some p =>
      let '(gs, skip) := st in
      if (skip && Z.eqb p 0)%bool then pagg_rows fi fo ex tl (gs, true)
      else if negb (in_segment ex p) then pagg_rows fi fo ex tl (gs, true)
      else pagg_rows fi fo ex tl
             (aset qkey_dec (c_key c r) (igroup_row r p (entry (c_key c r) (new_igroup fi fo) gs)) gs, false)
    end
  end.
Fixpoint pagg_all (fi fo : Fn) (ex : option (list Z)) (batches : list (list R))
  (st : list (QKey * IGroup) * bool) : option (list (QKey * IGroup) * bool) :=
  match batches with
  | [] => Some st
  | b :: bs => match pagg_rows fi fo ex b st with
               | None => None
               | Some st' => pagg_all fi fo ex bs st'
               end
  end.
(** 250-266; with groups the result of the inner function is scaled to the outer type, which
    keeps its meaning. *)
Definition igroup_result (g : IGroup) : Qc := result (accumulate (ig_outer g) (result (ig_inner g))).
End Evaluate.

(** ** A metric of a report, event_segmentation.rs 851-905: [Columns] without a filter.
    The result of one worker: one value per group. *)
Inductive Metric := CountEvents | CountUnique | CountPerGroup (f : Fn) | AggProperty (f : Fn) | AggPerGroup (inner outer : Fn).
(** planner/partitioned_aggregate.rs 115-137, 395-408: the sum of counts is a decimal. *)
Definition is_dec128 (f : Fn) : bool := match f with Sum => true | _ => false end.
Definition group_map {G} (f : G -> Qc) (gs : list (QKey * G)) : list (QKey * Qc) := map (fun kg => (fst kg, f (snd kg))) gs.
Definition metric_worker {R} (c : Columns R) (lo hi : Qc) (m : Metric) (ex : option (list Z)) (batches : list (list R))
  : option (list (QKey * Qc)) :=
  match m with
  | CountEvents => Some (count_all c ex batches [])
  | AggProperty f => Some (group_map result (agg_all c lo hi f ex batches []))
  | CountUnique => option_map (fun st => group_map pgroup_result (fst st)) (pcount_all c lo hi Cnt true false ex batches ([], false))
  | CountPerGroup f => option_map (fun st => group_map pgroup_result (fst st)) (pcount_all c lo hi f false (is_dec128 f) ex batches ([], false))
  | AggPerGroup fi fo => option_map (fun st => group_map igroup_result (fst st)) (pagg_all c lo hi fi fo ex batches ([], false))
  end.
(** event_segmentation.rs 648-665, 735-772: the plan keeps the rows the report's filter holds
    for (project, time range, event, property filters; null drops the row) and then
    aggregates them. *)
Definition report_worker {R} (c : Columns R) (lo hi : Qc) (m : Metric) (keep : R -> bool) (ex : option (list Z)) (batches : list (list R))
  : option (list (QKey * Qc)) :=
  metric_worker c lo hi m ex (map (filter keep) batches).
