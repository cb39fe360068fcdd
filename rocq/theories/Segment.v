(** Behavioural segments: src/query/src/physical_plan/expressions/segmentation
    (count.rs, aggregate.rs, comparison.rs, time_range.rs, boolean_op.rs), physical_plan/segment.rs,
    physical_plan/planner/mod.rs and the segment part of event_segmentation.rs.

    A panic is [None].  Numbers as in Aggregate.v. *)
From Coq Require Import List ZArith QArith Qcanon Bool Arith.
From Verif Require Import Aggregate.
Import ListNotations.

(** time_range.rs 8-13, 42-49 *)
Inductive TimeRange := Between (from to : Z) | From (from : Z) | Last (since start : Z) | AnyTime.
Definition check_bounds (t : TimeRange) (ts : Z) : bool :=
  match t with
  | Between from to => Z.leb from ts && Z.leb ts to
  | From from => Z.leb from ts
  | Last since start => Z.leb (start - since) ts
  | AnyTime => true
  end.

(** boolean_op.rs 4-12 *)
Inductive CmpOp := OpEq | OpNe | OpLt | OpLe | OpGt | OpGe.
(** count.rs 107-114, 138-145 *)
Definition cmp_z (o : CmpOp) (a b : Z) : bool :=
  match o with
  | OpLt => Z.ltb a b | OpLe => Z.leb a b | OpEq => Z.eqb a b | OpNe => negb (Z.eqb a b)
  | OpGt => Z.ltb b a | OpGe => Z.leb b a
  end.
(** boolean_op.rs 14-143 [perform] *)
Definition cmp_q (o : CmpOp) (a b : Qc) : bool :=
  match o with
  | OpLt => qlt a b | OpLe => negb (qlt b a) | OpEq => if Qc_eq_dec a b then true else false
  | OpNe => if Qc_eq_dec a b then false else true
  | OpGt => qlt b a | OpGe => negb (qlt a b)
  end.

(** What the expressions of a condition give for a row: the group column, the time, the filter
    (null is [None]) and the aggregated column; [g_val] of a null position is what the array
    holds there, since nulls are not checked (aggregate.rs 249). *)
Record Cond (R : Type) := mkCond { g_part : R -> option Z; g_ts : R -> Z; g_filter : R -> option bool; g_range : TimeRange }.
Arguments mkCond {R}. Arguments g_part {R}. Arguments g_ts {R}. Arguments g_filter {R}. Arguments g_range {R}.

(** count.rs 22-27 and aggregate.rs 139-147 [Inner] *)
Record Inner (A : Type) := mkInner { n_acc : A; n_last : Z; n_res : list (option Z); n_first : bool }.
Arguments mkInner {A}. Arguments n_acc {A}. Arguments n_last {A}. Arguments n_res {A}. Arguments n_first {A}.

Section Leaf.
Context {R A : Type}.
Variable g : Cond R.
Variables (zero : A) (add : A -> R -> A) (test : A -> bool).

Definition report_user (st : Inner A) : list (option Z) :=
  n_res st ++ [if test (n_acc st) then Some (n_last st) else None].
(** The loop body shared by count.rs 94-130 and aggregate.rs 222-251.  A null group panics
    where it is unwrapped: in the first row, and in rows that count. *)
Definition leaf_row (st : option (Inner A)) (r : R) : option (Inner A) :=
  match st with
  | None => None
  | Some st =>
    match (if n_first st then
             match g_part g r with Some p => Some (mkInner (n_acc st) p (n_res st) false) | None => None end
           else Some st) with
    | None => None
    | Some st =>
      if negb (check_bounds (g_range g) (g_ts g r)) then Some st
      else if negb (match g_filter g r with Some b => b | None => false end) then Some st
      else match g_part g r with
           | None => None
           | Some p =>
             let st := if Z.eqb (n_last st) p then st else mkInner zero p (report_user st) (n_first st) in
             Some (mkInner (add (n_acc st) r) (n_last st) (n_res st) (n_first st))
           end
    end
  end.
(** [evaluate] for every batch (segment.rs 160-170), then [finalize] (count.rs 136-154,
    aggregate.rs 254-266) *)
Definition leaf_run (batches : list (list R)) : option (list (option Z)) :=
  match fold_left (fun st b => fold_left leaf_row b st) batches (Some (mkInner zero 0%Z [] true)) with
  | Some st => Some (report_user st)
  | None => None
  end.
End Leaf.

(** logical_plan/segment.rs 64-88 with the columns replaced by what they give for a row; the
    field time_window is not used (planner/segment.rs 243). *)
Inductive SegExpr (R : Type) :=
| SCount (g : Cond R) (op : CmpOp) (bound : Z)
| SAggregate (g : Cond R) (val : R -> Qc) (f : Fn) (op : CmpOp) (bound : Qc)
| SAnd (l r : SegExpr R)
| SOr (l r : SegExpr R).
Arguments SCount {R}. Arguments SAggregate {R}. Arguments SAnd {R}. Arguments SOr {R}.

(** comparison.rs 28-39 *)
Fixpoint and_arrays (l r : list (option Z)) : list (option Z) :=
  match l, r with
  | a :: l, b :: r => (match a, b with Some u, Some _ => Some u | _, _ => None end) :: and_arrays l r
  | _, _ => []
  end.
(** comparison.rs 70-82 *)
Fixpoint or_arrays (l r : list (option Z)) : list (option Z) :=
  match l, r with
  | a :: l, b :: r => (match a with Some u => Some u | None => b end) :: or_arrays l r
  | _, _ => []
  end.

Section Eval.
Context {R : Type}.
Variables lo hi : Qc.
(** segment.rs 155-190 for any expression: every batch is given to every leaf *)
Fixpoint segment (e : SegExpr R) (batches : list (list R)) : option (list (option Z)) :=
  match e with
  | SCount g op bound => leaf_run g 0%Z (fun n _ => n + 1)%Z (fun n => cmp_z op n bound) batches
  | SAggregate g val f op bound =>
    leaf_run g (make_new lo hi f) (fun a r => accumulate a (val r)) (fun a => cmp_q op (result a) bound) batches
  | SAnd a b =>
    match segment a batches, segment b batches with Some x, Some y => Some (and_arrays x y) | _, _ => None end
  | SOr a b =>
    match segment a batches, segment b batches with Some x, Some y => Some (or_arrays x y) | _, _ => None end
  end.
End Eval.

(** ** Planning a report with segments: event_segmentation.rs 259-294, 456-545 *)
(** common/src/query.rs 314-393; what the conditions name (events, properties, filters) is
    left abstract: [filter_ok] says whether their expressions can be built. *)
Inductive SegTime := TBetween (from to : Z) | TFrom (from : Z) | TLast (n : Z) | TAfterFirstUse (within : Z) | TEach (n : Z).
Inductive DidAgg := DCount (value : Z) (time : SegTime) | DRelativeCount | DAggregate (time : SegTime) | DHistoricalCount.
Inductive SegCond := HasValue | HadValue (filter_ok : bool) (time : SegTime) | Did (filter_ok : bool) (agg : DidAgg).
(** logical_plan/segment.rs 58-62: [todo!()] *)
Definition time_range_of (t : SegTime) : option TimeRange := None.
(** 456-545; [None] is an error or a panic.  [R] rows and the filter are irrelevant to the
    outcome, so a fixed leaf stands for the built expression. *)
Definition build_condition {R} (leaf : TimeRange -> SegExpr R) (c : SegCond) : option (SegExpr R) :=
  match c with
  | HasValue => None
  | HadValue ok t => if ok then option_map leaf (time_range_of t) else None
  | Did ok (DCount _ t) => if ok then option_map leaf (time_range_of t) else None
  | Did ok (DAggregate t) => if ok then option_map leaf (time_range_of t) else None
  | Did _ DRelativeCount => None
  | Did _ DHistoricalCount => None
  end.
(** 263-281: conditions of one alternative are combined with And, alternatives with Or;
    [unwrap] of an empty list panics. *)
Definition join {R} (op : SegExpr R -> SegExpr R -> SegExpr R) (acc : option (SegExpr R)) (e : SegExpr R) : option (SegExpr R) :=
  Some (match acc with None => e | Some a => op a e end).
Fixpoint build_and {R} (leaf : TimeRange -> SegExpr R) (cs : list SegCond) (acc : option (SegExpr R)) : option (SegExpr R) :=
  match cs with
  | [] => acc
  | c :: tl => match build_condition leaf c with None => None | Some e => build_and leaf tl (join SAnd acc e) end
  end.
Fixpoint build_or {R} (leaf : TimeRange -> SegExpr R) (alts : list (list SegCond)) (acc : option (SegExpr R)) : option (SegExpr R) :=
  match alts with
  | [] => acc
  | cs :: tl => match build_and leaf cs None with None => None | Some e => build_or leaf tl (join SOr acc e) end
  end.
(** 259-294: the segments of the request *)
Fixpoint build_segments {R} (leaf : TimeRange -> SegExpr R) (segs : list (list (list SegCond))) : option (list (SegExpr R)) :=
  match segs with
  | [] => Some []
  | s :: tl => match build_or leaf s None with
               | None => None
               | Some e => option_map (cons e) (build_segments leaf tl)
               end
  end.

(** physical_plan/planner/mod.rs 221-226: [physical_inputs[1..c.len()]], where the inputs are
    the rows followed by the [c.len()] segments.  Slicing [1..0] panics. *)
Definition planned_inputs {A} (rows : A) (segs : list A) : option (list A) :=
  if Nat.ltb (length segs) 1 then None else Some (firstn (length segs - 1) (skipn 1 (rows :: segs))).
