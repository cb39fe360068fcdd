(** The number types behind an aggregated property: which machine types the planner chooses for
    a property's column and the functions asked for, how values are converted between them, and
    what the report shows.  src/query/src/physical_plan/planner/partitioned_aggregate.rs (types),
    physical_plan/expressions/aggregate (conversions), logical_plan/partitioned_aggregate.rs
    (declared types), physical_plan/segmented_aggregate.rs 67-118 (combining the workers),
    physical_plan/unpivot.rs 439-458 (all metrics become decimals).

    [Aggregate] models the same expressions with rationals for every number: filters, breakdowns
    and segments are there.  Here are the rows that count for one cell of the report.  Machine
    integers wrap around, as in the release build.  32 and 64-bit floats are rationals: their
    rounding is not modelled. *)
From Coq Require Import List ZArith QArith Qcanon Bool.
From Verif Require Import Aggregate Md.
Import ListNotations.
Local Open Scope Qc_scope.

(** ** Machine numbers *)
Inductive Prim := I8 | I16 | I32 | I64 | I128 | U8 | U16 | U32 | U64 | U128 | F32 | F64.
(** signed?, bits; floats have none *)
Definition width (p : Prim) : option (bool * Z) :=
  match p with
  | I8 => Some (true, 8) | I16 => Some (true, 16) | I32 => Some (true, 32) | I64 => Some (true, 64) | I128 => Some (true, 128)
  | U8 => Some (false, 8) | U16 => Some (false, 16) | U32 => Some (false, 32) | U64 => Some (false, 64) | U128 => Some (false, 128)
  | F32 => None | F64 => None
  end%Z.
Definition of_int (z : Z) : Qc := Q2Qc (inject_Z z).
(** the integer part, towards zero *)
Definition trunc (q : Qc) : Z := Z.quot (Qnum (this q)) (Zpos (Qden (this q))).
(** Rust's Bounded::min_value and max_value *)
Definition least_int (s : bool) (b : Z) : Z := (if s then - 2 ^ (b - 1) else 0)%Z.
Definition greatest_int (s : bool) (b : Z) : Z := (if s then 2 ^ (b - 1) - 1 else 2 ^ b - 1)%Z.
Definition f32_max : Z := ((2 ^ 24 - 1) * 2 ^ 104)%Z.
Definition f64_max : Z := ((2 ^ 53 - 1) * 2 ^ 971)%Z.
Definition float_max (p : Prim) : Z := match p with F32 => f32_max | _ => f64_max end.
Definition least (p : Prim) : Qc :=
  match width p with Some (s, b) => of_int (least_int s b) | None => of_int (- float_max p) end.
Definition greatest (p : Prim) : Qc :=
  match width p with Some (s, b) => of_int (greatest_int s b) | None => of_int (float_max p) end.
(** two's complement *)
Definition wrap (s : bool) (b z : Z) : Z :=
  (if s then (z + 2 ^ (b - 1)) mod 2 ^ b - 2 ^ (b - 1) else z mod 2 ^ b)%Z.
(** the outcome of +, * of the type [p] *)
Definition hold (p : Prim) (q : Qc) : Qc :=
  match width p with Some (s, b) => of_int (wrap s b (trunc q)) | None => q end.
(** Rust's [as]: between integers it wraps, from floats to integers it saturates *)
Definition clamp (lo hi z : Z) : Z := Z.max lo (Z.min hi z).
Definition cast (from to : Prim) (q : Qc) : Qc :=
  match width to, width from with
  | None, _ => q
  | Some (s, b), Some _ => of_int (wrap s b (trunc q))
  | Some (s, b), None => of_int (clamp (least_int s b) (greatest_int s b) (trunc q))
  end.
Definition times (p : Prim) (a b : Qc) : Qc := hold p (a * b).
(** the / of the type *)
Definition over (p : Prim) (a b : Qc) : Qc :=
  match width p with Some _ => of_int (Z.quot (trunc a) (trunc b)) | None => a / b end.

(** expressions/segmentation/aggregate.rs 47-131 for the type [p] *)
Definition hold_acc (p : Prim) (a : Acc) : Acc :=
  match a with
  | ASum s => ASum (hold p s) | AMin m => AMin m | AMax m => AMax m
  | AAvg s c => AAvg (hold p s) (hold p c) | ACnt c => ACnt (hold p c)
  end.
Definition acc_new (p : Prim) (f : Fn) : Acc := make_new (least p) (greatest p) f.
Definition acc_in (p : Prim) (a : Acc) (v : Qc) : Acc := hold_acc p (accumulate a v).
Definition acc_result (p : Prim) (a : Acc) : Qc := match a with AAvg s c => over p s c | _ => result a end.

(** ** Types of columns *)
Inductive DT := DInt8 | DInt16 | DInt32 | DInt64 | DUInt8 | DUInt16 | DUInt32 | DUInt64
  | DFloat32 | DFloat64 | DDec | DUtf8 | DBoolean | DTimestamp | DList.
Definition dt_eq_dec : forall a b : DT, {a = b} + {a <> b}. Proof. decide equality. Defined.
(** metadata/src/properties.rs 303-312: the column of a property with a dictionary holds the
    numbers of its texts ([dict]: the type of those numbers); common/src/types.rs 167-176. *)
Definition base_dt (t : BType) : DT :=
  match t with
  | TString => DUtf8 | TInt8 => DInt8 | TInt16 => DInt16 | TInt32 => DInt32 | TInt64 => DInt64
  | TDecimal => DDec | TBoolean => DBoolean | TTimestamp => DTimestamp
  end.
Definition column_dt (t : BType) (dict : option BType) : DT :=
  match dict with Some d => base_dt d | None => base_dt t end.

(** common/src/types.rs 15, 16 *)
Definition M16 : Qc := of_int (10 ^ 16).

(** ** Planning *)
(** [Refused]: an error is returned; [Stops]: unimplemented!, unreachable! or a failed unwrap
    stops the worker *)
Inductive Outcome (A : Type) := Done (a : A) | Refused | Stops.
Arguments Done {A}. Arguments Refused {A}. Arguments Stops {A}.
Definition bind {A B} (o : Outcome A) (f : A -> Outcome B) : Outcome B :=
  match o with Done a => f a | Refused => Refused | Stops => Stops end.
Definition need {A} (o : option A) : Outcome A := match o with Some a => Done a | None => Stops end.

(** logical_plan/partitioned_aggregate.rs 203-222; [None]: unimplemented! *)
Definition return_type (dt : DT) (f : Fn) : option DT :=
  match f with
  | Avg => Some DFloat64 | Cnt => Some DInt64 | Min | Max => Some dt
  | Sum => match dt with
           | DFloat32 | DFloat64 => Some DFloat64
           | DInt8 | DInt16 | DInt32 => Some DInt64
           | DUInt8 | DUInt16 | DUInt32 => Some DUInt64
           | DInt64 | DUInt64 | DDec | DTimestamp => Some DDec
           | _ => None
           end
  end.
(** planner/partitioned_aggregate.rs 124-143 *)
Definition get_return_type (dt : DT) (f : Fn) : option DT :=
  match f with
  | Avg => Some DFloat64 | Cnt => Some DInt64 | Min | Max => Some dt
  | Sum => match dt with
           | DFloat32 | DFloat64 => Some DFloat64
           | DInt8 | DInt16 | DInt32 => Some DInt64
           | DUInt8 | DUInt16 | DUInt32 => Some DUInt64
           | DInt64 | DUInt64 | DDec => Some DDec
           | _ => None
           end
  end.
Definition is_number (dt : DT) : bool :=
  match dt with DUtf8 | DBoolean | DTimestamp | DList => false | _ => true end.

(** planner/partitioned_aggregate.rs 203-380: the types of [Aggregate] for a column type and a
    result type; [None] is unreachable! *)
Definition simple_arm (dt rt : DT) : option (Prim * Prim) :=
  match dt, rt with
  | DInt8, DFloat64 => Some (I8, F64) | DInt8, DInt64 => Some (I8, I64)
  | DInt8, DInt8 => Some (I8, I8) | DInt16, DFloat64 => Some (I16, F64)
  | DInt16, DInt64 => Some (I16, I64) | DInt16, DInt16 => Some (I16, I16)
  | DInt32, DFloat64 => Some (I32, F64) | DInt32, DInt64 => Some (I32, I64)
  | DInt32, DInt32 => Some (I32, I32) | DInt64, DFloat64 => Some (I64, F64)
  | DInt64, DInt64 => Some (I64, I64) | DInt64, DDec => Some (I64, I128)
  | DUInt8, DFloat64 => Some (U8, F64) | DUInt8, DInt64 => Some (U8, I64)
  | DUInt8, DUInt8 => Some (U8, U8) | DUInt8, DUInt64 => Some (U8, U64)
  | DUInt16, DFloat64 => Some (U16, F64) | DUInt16, DInt64 => Some (U16, I64)
  | DUInt16, DUInt16 => Some (U16, U16) | DUInt16, DUInt64 => Some (U16, U64)
  | DUInt32, DFloat64 => Some (U32, F64) | DUInt32, DInt64 => Some (U32, I64)
  | DUInt32, DUInt32 => Some (U32, U32) | DUInt32, DUInt64 => Some (U32, U64)
  | DUInt64, DFloat64 => Some (U64, F64) | DUInt64, DInt64 => Some (U64, I64)
  | DUInt64, DUInt64 => Some (U64, U64) | DUInt64, DDec => Some (U64, I128)
  | DFloat32, DFloat32 => Some (F32, F32) | DFloat32, DFloat64 => Some (F32, F64)
  | DFloat32, DInt64 => Some (F32, I64) | DFloat64, DFloat64 => Some (F64, F64)
  | DFloat64, DInt64 => Some (F64, I64) | DDec, DFloat64 => Some (I128, F64)
  | DDec, DInt64 => Some (I128, I64) | DDec, DDec => Some (I128, I128)
  | _, _ => None
  end.
(** the same 2246-2294 for the second stage: 381 and 2293 refuse other types *)
Definition final_prim (dt : DT) : option Prim :=
  match dt with
  | DInt8 => Some I8 | DInt16 => Some I16 | DInt32 => Some I32 | DInt64 => Some I64
  | DUInt8 => Some U8 | DUInt16 => Some U16 | DUInt32 => Some U32 | DUInt64 => Some U64
  | DFloat32 => Some F32 | DFloat64 => Some F64 | DDec => Some I128
  | _ => None
  end.
(** expressions/aggregate/mod.rs 347-520: what a value is multiplied with and divided by, and
    the type of the resulting column *)
Definition simple_impl (t ot : Prim) : option (Qc * Qc * DT) :=
  match t, ot with
  | I8, I8 => Some (1, 1, DInt8) | I8, I64 => Some (1, 1, DInt64)
  | I8, F64 => Some (1, 1, DFloat64) | I16, I16 => Some (1, 1, DInt16)
  | I16, I64 => Some (1, 1, DInt64) | I16, F64 => Some (1, 1, DFloat64)
  | I32, I32 => Some (1, 1, DInt32) | I32, I64 => Some (1, 1, DInt64)
  | I32, F64 => Some (1, 1, DFloat64) | I64, I64 => Some (1, 1, DInt64)
  | I64, F64 => Some (1, 1, DFloat64) | I64, I128 => Some (M16, 1, DDec)
  | I128, I64 => Some (1, M16, DInt64) | I128, F64 => Some (1, M16, DFloat64)
  | I128, I128 => Some (1, 1, DDec) | U8, U8 => Some (1, 1, DUInt8)
  | U8, I64 => Some (1, 1, DInt64) | U8, U64 => Some (1, 1, DUInt64)
  | U8, F64 => Some (1, 1, DFloat64) | U16, U16 => Some (1, 1, DUInt16)
  | U16, I64 => Some (1, 1, DInt64) | U16, U64 => Some (1, 1, DUInt64)
  | U16, F64 => Some (1, 1, DFloat64) | U32, I64 => Some (1, 1, DInt64)
  | U32, U32 => Some (1, 1, DUInt32) | U32, U64 => Some (1, 1, DUInt64)
  | U32, F64 => Some (1, 1, DFloat64) | U64, I64 => Some (1, 1, DInt64)
  | U64, U64 => Some (1, 1, DUInt64) | U64, F64 => Some (1, 1, DFloat64)
  | U64, I128 => Some (M16, 1, DDec) | F32, F32 => Some (1, 1, DFloat32)
  | F32, I64 => Some (1, 1, DInt64) | F32, F64 => Some (1, 1, DFloat64)
  | F64, F64 => Some (1, 1, DFloat64) | F64, I64 => Some (1, 1, DInt64)
  | _, _ => None
  end.
(** planner/partitioned_aggregate.rs 427-2079: the types of the column, of the function per user
    and of the function over the users; [None] is unimplemented! *)
Definition per_user_arm (dt t1 t2 : DT) : option (Prim * Prim * Prim) :=
  match dt, t1, t2 with
  | DInt8, DInt8, DInt8 => Some (I8, I8, I8) | DInt8, DInt8, DFloat64 => Some (I8, I8, F64)
  | DInt8, DInt8, DInt64 => Some (I8, I8, I64) | DInt8, DFloat64, DFloat64 => Some (I8, F64, F64)
  | DInt8, DFloat64, DInt64 => Some (I8, F64, I64) | DInt8, DInt64, DInt64 => Some (I8, I64, I64)
  | DInt8, DInt64, DFloat64 => Some (I8, I64, F64) | DInt8, DInt64, DDec => Some (I8, I64, I128)
  | DInt16, DInt16, DInt16 => Some (I16, I16, I16) | DInt16, DInt16, DFloat64 => Some (I16, I16, F64)
  | DInt16, DInt16, DInt64 => Some (I16, I16, I64) | DInt16, DFloat64, DFloat64 => Some (I16, F64, F64)
  | DInt16, DFloat64, DInt64 => Some (I16, F64, I64) | DInt16, DInt64, DInt64 => Some (I16, I64, I64)
  | DInt16, DInt64, DFloat64 => Some (I16, I64, F64) | DInt16, DInt64, DDec => Some (I16, I64, I128)
  | DInt32, DInt32, DInt32 => Some (I32, I32, I32) | DInt32, DInt32, DFloat64 => Some (I32, I32, F64)
  | DInt32, DInt32, DInt64 => Some (I32, I32, I64) | DInt32, DFloat64, DFloat64 => Some (I32, F64, F64)
  | DInt32, DFloat64, DInt64 => Some (I32, F64, I64) | DInt32, DInt64, DInt64 => Some (I32, I64, I64)
  | DInt32, DInt64, DFloat64 => Some (I32, I64, F64) | DInt32, DInt64, DDec => Some (I32, I64, I128)
  | DInt64, DInt64, DInt64 => Some (I64, I64, I64) | DInt64, DInt64, DFloat64 => Some (I64, I64, F64)
  | DInt64, DInt64, DDec => Some (I64, I64, I128) | DInt64, DFloat64, DFloat64 => Some (I64, F64, F64)
  | DInt64, DFloat64, DInt64 => Some (I64, F64, I64) | DInt64, DDec, DDec => Some (I64, I128, I128)
  | DInt64, DDec, DFloat64 => Some (I64, I128, F64) | DInt64, DDec, DInt64 => Some (I64, I128, I64)
  | DUInt8, DUInt8, DUInt8 => Some (U8, U8, U8) | DUInt8, DUInt8, DFloat64 => Some (U8, U8, F64)
  | DUInt8, DUInt8, DUInt64 => Some (U8, U8, U64) | DUInt8, DUInt8, DInt64 => Some (U8, U8, I64)
  | DUInt8, DFloat64, DFloat64 => Some (U8, F64, F64) | DUInt8, DFloat64, DInt64 => Some (U8, F64, I64)
  | DUInt8, DUInt64, DUInt64 => Some (U8, U64, U64) | DUInt8, DUInt64, DFloat64 => Some (U8, U64, F64)
  | DUInt8, DUInt64, DDec => Some (U8, U64, I128) | DUInt8, DUInt64, DInt64 => Some (U8, U64, I64)
  | DUInt8, DInt64, DInt64 => Some (U8, I64, I64) | DUInt8, DInt64, DFloat64 => Some (U8, I64, F64)
  | DUInt8, DInt64, DDec => Some (U8, I64, I128) | DUInt16, DUInt16, DUInt16 => Some (U16, U16, U16)
  | DUInt16, DUInt16, DFloat64 => Some (U16, U16, F64) | DUInt16, DUInt16, DUInt64 => Some (U16, U16, U64)
  | DUInt16, DUInt16, DInt64 => Some (U16, U16, I64) | DUInt16, DFloat64, DFloat64 => Some (U16, F64, F64)
  | DUInt16, DFloat64, DInt64 => Some (U16, F64, I64) | DUInt16, DUInt64, DUInt64 => Some (U16, U64, U64)
  | DUInt16, DUInt64, DFloat64 => Some (U16, U64, F64) | DUInt16, DUInt64, DDec => Some (U16, U64, I128)
  | DUInt16, DUInt64, DInt64 => Some (U16, U64, I64) | DUInt16, DInt64, DInt64 => Some (U16, I64, I64)
  | DUInt16, DInt64, DFloat64 => Some (U16, I64, F64) | DUInt16, DInt64, DDec => Some (U16, I64, I128)
  | DUInt32, DUInt32, DUInt32 => Some (U32, U32, U32) | DUInt32, DUInt32, DFloat64 => Some (U32, U32, F64)
  | DUInt32, DUInt32, DUInt64 => Some (U32, U32, U64) | DUInt32, DUInt32, DInt64 => Some (U32, U32, I64)
  | DUInt32, DFloat64, DFloat64 => Some (U32, F64, F64) | DUInt32, DFloat64, DInt64 => Some (U32, F64, I64)
  | DUInt32, DUInt64, DUInt64 => Some (U32, U64, U64) | DUInt32, DUInt64, DFloat64 => Some (U32, U64, F64)
  | DUInt32, DUInt64, DDec => Some (U32, U64, I128) | DUInt32, DUInt64, DInt64 => Some (U32, U64, I64)
  | DUInt32, DInt64, DInt64 => Some (U32, I64, I64) | DUInt32, DInt64, DFloat64 => Some (U32, I64, F64)
  | DUInt32, DInt64, DDec => Some (U32, I64, I128) | DUInt64, DUInt64, DUInt64 => Some (U64, U64, U64)
  | DUInt64, DUInt64, DFloat64 => Some (U64, U64, F64) | DUInt64, DUInt64, DDec => Some (U64, U64, I128)
  | DUInt64, DUInt64, DInt64 => Some (U64, U64, I64) | DUInt64, DFloat64, DFloat64 => Some (U64, F64, F64)
  | DUInt64, DFloat64, DInt64 => Some (U64, F64, I64) | DUInt64, DDec, DDec => Some (U64, I128, I128)
  | DUInt64, DDec, DFloat64 => Some (U64, U128, F64) | DUInt64, DDec, DInt64 => Some (U64, U128, I64)
  | DUInt64, DInt64, DInt64 => Some (U64, I64, I64) | DUInt64, DInt64, DFloat64 => Some (U64, I64, F64)
  | DUInt64, DInt64, DDec => Some (U64, I64, I128) | DFloat32, DFloat32, DFloat32 => Some (F32, F32, F32)
  | DFloat32, DFloat32, DFloat64 => Some (F32, F32, F64) | DFloat32, DFloat32, DInt64 => Some (F32, F32, I64)
  | DFloat32, DFloat64, DFloat64 => Some (F32, F64, F64) | DFloat32, DFloat64, DInt64 => Some (F32, F64, I64)
  | DFloat32, DInt64, DInt64 => Some (F32, I64, I64) | DFloat32, DInt64, DFloat64 => Some (F32, I64, F64)
  | DFloat32, DInt64, DDec => Some (F32, I64, I128) | DFloat64, DFloat64, DFloat64 => Some (F64, F64, F64)
  | DFloat64, DFloat64, DInt64 => Some (F64, F64, I64) | DFloat64, DInt64, DInt64 => Some (F64, I64, I64)
  | DFloat64, DInt64, DFloat64 => Some (F64, I64, F64) | DFloat64, DInt64, DDec => Some (F64, I64, I128)
  | DDec, DDec, DDec => Some (I128, I128, I128) | DDec, DDec, DFloat64 => Some (I128, I128, F64)
  | DDec, DDec, DInt64 => Some (I128, I128, I64) | DDec, DFloat64, DFloat64 => Some (I128, F64, F64)
  | DDec, DFloat64, DInt64 => Some (I128, F64, I64) | DDec, DInt64, DInt64 => Some (I128, I64, I64)
  | DDec, DInt64, DFloat64 => Some (I128, I64, F64) | DDec, DInt64, DDec => Some (I128, I64, I128)
  | _, _, _ => None
  end.
(** expressions/aggregate/partitioned/aggregate.rs 332-1012 and, for the second stage
    (planner/partitioned_aggregate.rs 2348-2517), the same table with equal types *)
Definition per_user_impl (t it ot : Prim) : option (Qc * DT) :=
  match t, it, ot with
  | I8, I8, I8 => Some (1, DInt8) | I8, I8, F64 => Some (1, DFloat64)
  | I8, I8, I64 => Some (1, DInt64) | I8, F64, F64 => Some (1, DFloat64)
  | I8, F64, I64 => Some (1, DInt64) | I8, I64, I64 => Some (1, DInt64)
  | I8, I64, F64 => Some (1, DFloat64) | I8, I64, I128 => Some (M16, DDec)
  | I16, I16, I16 => Some (1, DInt16) | I16, I16, F64 => Some (1, DFloat64)
  | I16, I16, I64 => Some (1, DInt64) | I16, F64, F64 => Some (1, DFloat64)
  | I16, F64, I64 => Some (1, DInt64) | I16, I64, I64 => Some (1, DInt64)
  | I16, I64, F64 => Some (1, DFloat64) | I16, I64, I128 => Some (M16, DDec)
  | I32, I32, I32 => Some (1, DInt32) | I32, I32, F64 => Some (1, DFloat64)
  | I32, I32, I64 => Some (1, DInt64) | I32, F64, F64 => Some (1, DFloat64)
  | I32, F64, I64 => Some (1, DInt64) | I32, I64, I64 => Some (1, DInt64)
  | I32, I64, F64 => Some (1, DFloat64) | I32, I64, I128 => Some (M16, DDec)
  | I64, I64, I64 => Some (1, DInt64) | I64, I64, F64 => Some (1, DFloat64)
  | I64, I64, I128 => Some (M16, DDec) | I64, F64, F64 => Some (1, DFloat64)
  | I64, F64, I64 => Some (1, DInt64) | I64, I128, I128 => Some (M16, DDec)
  | I64, I128, F64 => Some (1, DFloat64) | I64, I128, I64 => Some (1, DInt64)
  | U8, U8, U8 => Some (1, DUInt8) | U8, U8, F64 => Some (1, DFloat64)
  | U8, U8, U64 => Some (1, DUInt64) | U8, U8, I64 => Some (1, DInt64)
  | U8, F64, F64 => Some (1, DFloat64) | U8, F64, I64 => Some (1, DInt64)
  | U8, U64, U64 => Some (1, DUInt64) | U8, U64, F64 => Some (1, DFloat64)
  | U8, U64, I128 => Some (M16, DDec) | U8, U64, I64 => Some (1, DInt64)
  | U8, I64, I64 => Some (1, DInt64) | U8, I64, F64 => Some (1, DFloat64)
  | U8, I64, I128 => Some (M16, DDec) | U16, U16, U16 => Some (1, DUInt16)
  | U16, U16, F64 => Some (1, DFloat64) | U16, U16, U64 => Some (1, DUInt64)
  | U16, U16, I64 => Some (1, DInt64) | U16, F64, F64 => Some (1, DFloat64)
  | U16, F64, I64 => Some (1, DInt64) | U16, U64, U64 => Some (1, DUInt64)
  | U16, U64, F64 => Some (1, DFloat64) | U16, U64, I128 => Some (M16, DDec)
  | U16, U64, I64 => Some (1, DInt64) | U16, I64, I64 => Some (1, DInt64)
  | U16, I64, F64 => Some (1, DFloat64) | U16, I64, I128 => Some (M16, DDec)
  | U32, U32, U32 => Some (1, DUInt32) | U32, U32, F64 => Some (1, DFloat64)
  | U32, U32, U64 => Some (1, DUInt64) | U32, U32, I64 => Some (1, DInt64)
  | U32, F64, F64 => Some (1, DFloat64) | U32, F64, I64 => Some (1, DInt64)
  | U32, U64, U64 => Some (1, DUInt64) | U32, U64, F64 => Some (1, DFloat64)
  | U32, U64, I128 => Some (M16, DDec) | U32, U64, I64 => Some (1, DInt64)
  | U32, I64, I64 => Some (1, DInt64) | U32, I64, F64 => Some (1, DFloat64)
  | U32, I64, I128 => Some (M16, DDec) | U64, U64, U64 => Some (1, DUInt64)
  | U64, U64, F64 => Some (1, DFloat64) | U64, U64, I128 => Some (M16, DDec)
  | U64, U64, I64 => Some (1, DInt64) | U64, F64, F64 => Some (1, DFloat64)
  | U64, F64, I64 => Some (1, DInt64) | U64, I128, I128 => Some (M16, DDec)
  | U64, U128, F64 => Some (1, DFloat64) | U64, U128, I128 => Some (M16, DDec)
  | U64, U128, I64 => Some (1, DInt64) | U64, I64, I64 => Some (1, DInt64)
  | U64, I64, F64 => Some (1, DFloat64) | U64, I64, I128 => Some (M16, DDec)
  | F32, F32, F32 => Some (1, DFloat32) | F32, F32, F64 => Some (1, DFloat64)
  | F32, F32, I64 => Some (1, DInt64) | F32, F64, F64 => Some (1, DFloat64)
  | F32, F64, I64 => Some (1, DInt64) | F32, I64, I64 => Some (1, DInt64)
  | F32, I64, F64 => Some (1, DFloat64) | F32, I64, I128 => Some (M16, DDec)
  | F64, F64, F64 => Some (1, DFloat64) | F64, F64, I64 => Some (1, DInt64)
  | F64, I64, I64 => Some (1, DInt64) | F64, I64, F64 => Some (1, DFloat64)
  | F64, I64, I128 => Some (M16, DDec) | I128, I128, I128 => Some (1, DDec)
  | I128, I128, F64 => Some ((1 / M16), DFloat64) | I128, I128, I64 => Some (1, DInt64)
  | I128, F64, F64 => Some ((1 / M16), DFloat64) | I128, F64, I64 => Some (1, DInt64)
  | I128, I64, I64 => Some (1, DInt64) | I128, I64, F64 => Some (1, DFloat64)
  | I128, I64, I128 => Some (M16, DDec)
  | _, _, _ => None
  end.

(** DataFusion refuses a physical plan whose columns differ from the logical plan's. *)
Definition same_type (a b : DT) : Outcome unit := if dt_eq_dec a b then Done tt else Refused.
(** planner/partitioned_aggregate.rs 203-381, 2244-2293; segmented_aggregate.rs 712-848: the
    second stage aggregates the column of results with the type of that column on both sides. *)
Definition combine_types (rt : DT) : Outcome Prim :=
  match final_prim rt with
  | None => Refused
  | Some p => bind (need (simple_impl p p)) (fun '(_, _, d) => bind (same_type rt d) (fun _ => Done p))
  end.

Record Simple := mkSimple { sp_t : Prim; sp_ot : Prim; sp_mul : Qc; sp_div : Qc; sp_dt : DT; sp_comb : Prim }.
(** The plan for one aggregated property: logical_plan/partitioned_aggregate.rs 255-281, then
    the planner. *)
Definition plan_simple (dt : DT) (f : Fn) : Outcome Simple :=
  bind (need (return_type dt f)) (fun rt =>
  if negb (is_number dt) then Refused
  else bind (need (get_return_type dt f)) (fun rt' =>
       bind (need (simple_arm dt rt')) (fun '(t, ot) =>
       bind (need (simple_impl t ot)) (fun '(m, d, pdt) =>
       bind (same_type rt pdt) (fun _ =>
       bind (combine_types rt) (fun p =>
       Done (mkSimple t ot m d pdt p))))))).

Record PerUser := mkPerUser { pu_t : Prim; pu_it : Prim; pu_ot : Prim; pu_mul : Qc; pu_dt : DT; pu_comb : Prim }.
(** The plan for a property aggregated per user and then over users: 293-316 of the logical
    plan (306 also looks at the type of the second stage), then the planner, where every type
    without arm is unimplemented! (2079, 2517). *)
Definition plan_per_user (dt : DT) (fi fo : Fn) : Outcome PerUser :=
  bind (need (return_type dt fi)) (fun rt1 =>
  bind (need (return_type rt1 fo)) (fun rt2 =>
  bind (need (return_type rt2 fi)) (fun _ =>
  if negb (is_number dt) then Stops
  else bind (need (get_return_type dt fi)) (fun t1 =>
       bind (need (get_return_type t1 fo)) (fun t2 =>
       bind (need (per_user_arm dt t1 t2)) (fun '(t, it, ot) =>
       bind (need (per_user_impl t it ot)) (fun '(m, pdt) =>
       bind (same_type rt2 pdt) (fun _ =>
       match final_prim rt2 with
       | None => Stops
       | Some p => bind (need (per_user_impl p p p)) (fun '(_, d) => bind (same_type rt2 d) (fun _ =>
                   bind (combine_types d) (fun p => Done (mkPerUser t it ot m pdt p))))
       end)))))))).

Record Counted := mkCounted { pc_ot : Prim; pc_mul : Qc; pc_dt : DT; pc_comb : Prim }.
(** The number of events per user, aggregated over the users: logical plan 283-292,
    planner 396-410 and 2308-2323; expressions/aggregate/partitioned/count.rs 285, 286, 288. *)
Definition plan_counted (fo : Fn) : Outcome Counted :=
  let rt := match fo with Avg => DFloat64 | Cnt => DInt64 | Min | Max => DInt64 | Sum => DDec end in
  bind (need (get_return_type DInt64 fo)) (fun t =>
  bind (match t with
        | DFloat64 => Done (F64, 1, DFloat64) | DInt64 => Done (I64, 1, DInt64) | DDec => Done (I128, M16, DDec)
        | _ => Stops
        end) (fun '(ot, m, pdt) =>
  bind (same_type rt pdt) (fun _ => bind (combine_types rt) (fun p => Done (mkCounted ot m pdt p))))).

(** ** Running *)
(** mod.rs 187-303: the values of the rows that count for a cell *)
Definition convert (s : Simple) (v : Qc) : Qc :=
  over (sp_ot s) (times (sp_ot s) (cast (sp_t s) (sp_ot s) v) (sp_mul s)) (sp_div s).
Definition simple_worker (s : Simple) (f : Fn) (vs : list Qc) : Qc :=
  acc_result (sp_ot s) (fold_left (acc_in (sp_ot s)) (map (convert s) vs) (acc_new (sp_ot s) f)).

(** partitioned/aggregate.rs 199-266, partitioned/count.rs 161-222: the rows of a cell, one
    after the other, each with its user; a change of the user ends the work on the user before. *)
Section Users.
Context {V A O : Type}.
Variables (fresh : A) (add : A -> V -> A) (flush : O -> A -> O).
Record UGroup := mkUG { ug_in : A; ug_out : O; ug_first : bool; ug_last : Z }.
Definition user_row (g : UGroup) (r : Z * V) : UGroup :=
  let last := if ug_first g then fst r else ug_last g in
  if Z.eqb last (fst r) then mkUG (add (ug_in g) (snd r)) (ug_out g) false last
  else mkUG (add fresh (snd r)) (flush (ug_out g) (ug_in g)) false (fst r).
Definition users_result (o : O) (rows : list (Z * V)) : O :=
  let g := fold_left user_row rows (mkUG fresh o true 0%Z) in flush (ug_out g) (ug_in g).
End Users.
Arguments mkUG {A O}. Arguments ug_in {A O}. Arguments ug_out {A O}. Arguments ug_first {A O}. Arguments ug_last {A O}.

Definition per_user_worker (s : PerUser) (fi fo : Fn) (rows : list (Z * Qc)) : Qc :=
  acc_result (pu_ot s)
    (users_result (acc_new (pu_it s) fi)
       (fun a v => acc_in (pu_it s) a (cast (pu_t s) (pu_it s) v))
       (fun o a => acc_in (pu_ot s) o (times (pu_ot s) (cast (pu_it s) (pu_ot s) (acc_result (pu_it s) a)) (pu_mul s)))
       (acc_new (pu_ot s) fo) rows).
(** count.rs 189-222, 381-420: [count] is an i64 *)
Definition counted_worker (s : Counted) (fo : Fn) (rows : list (Z * unit)) : Qc :=
  acc_result (pc_ot s)
    (users_result 0 (fun n _ => hold I64 (n + 1))
       (fun o n => acc_in (pc_ot s) o (times (pc_ot s) (cast I64 (pc_ot s) n) (pc_mul s)))
       (acc_new (pc_ot s) fo) rows).

(** segmented_aggregate.rs 67-93: the workers that have the cell are combined *)
Definition combine_op (f : Fn) : Fn := match f with Cnt => Sum | _ => f end.
Definition combined (p : Prim) (f : Fn) (rs : list Qc) : Qc :=
  acc_result p (fold_left (acc_in p) rs (acc_new p (combine_op f))).
(** unpivot.rs 439-458: decimals are kept, other numbers become decimals, 64-bit unsigned ones
    by way of 64-bit signed ones: arrow gives null for what does not fit, there and where a
    float times 10^16 is no 128-bit integer (and does not check the 28 digits of the type).  A
    decimal is an integer standing for 10^-16 of it; the rounding of floats to it is not
    modelled. *)
Definition shown (dt : DT) (raw : Qc) : option Qc :=
  match dt with
  | DDec => Some (raw / M16)
  | DUInt64 => if qlt (of_int (2 ^ 63 - 1)) raw then None else Some raw
  | DFloat32 | DFloat64 =>
      if qlt (of_int (2 ^ 127 - 1)) (raw * M16) || qlt (raw * M16) (of_int (- 2 ^ 127)) then None else Some raw
  | _ => Some raw
  end.
Definition cell {A} (w : list A -> Qc) (p : Prim) (f : Fn) (dt : DT) (workers : list (list A)) : option (option Qc) :=
  match map w (filter (fun l => match l with [] => false | _ => true end) workers) with
  | [] => None
  | rs => Some (shown dt (combined p f rs))
  end.
(** One cell of a report: the rows of every worker.  Inner [None]: the report has no such cell
    or an empty one. *)
Definition report_property (dt : DT) (f : Fn) (workers : list (list Qc)) : Outcome (option (option Qc)) :=
  bind (plan_simple dt f) (fun s => Done (cell (simple_worker s f) (sp_comb s) f (sp_dt s) workers)).
Definition report_per_user (dt : DT) (fi fo : Fn) (workers : list (list (Z * Qc))) : Outcome (option (option Qc)) :=
  bind (plan_per_user dt fi fo) (fun s => Done (cell (per_user_worker s fi fo) (pu_comb s) fo (pu_dt s) workers)).
Definition report_counted (fo : Fn) (workers : list (list (Z * unit))) : Outcome (option (option Qc)) :=
  bind (plan_counted fo) (fun s => Done (cell (counted_worker s fo) (pc_comb s) fo (pc_dt s) workers)).
