(** The answers of the reports: how computed columns become JSON
    (src/platform/src/lib.rs 158-271, 610-641; event_segmentation.rs 78-91, event_records.rs 86-99,
    group_records.rs 92-105) and how the rows of a funnel become its answer
    (src/query/src/funnel.rs 98-247, src/platform/src/funnel.rs 78-107).

    [None] is a panic.  Floating point columns are not modelled: no column of a report or a
    table is one. *)
From Coq Require Import List ZArith Bool String Ascii Arith.
From Verif Require Import Order Kv Funnel FunnelRatio.
Import ListNotations.
Local Open Scope Z_scope.

(** src/common/src/types.rs 14-17: DECIMAL_SCALE 16, ROUND_DIGITS 3: a stored decimal counts
    units of 10^-16, a shown one thousandths. *)
Definition per_thousandth : Z := 10000000000000.
(** rust_decimal, [from_i128_with_scale]: the mantissa has 96 bits. *)
Definition decimal_limit : Z := 79228162514264337593543950336.

(** rust_decimal, [round_dp]: the nearest, of two the even one; sign and magnitude apart. *)
Definition round_magnitude (a : Z) : Z :=
  let q := a / per_thousandth in
  let r := a mod per_thousandth in
  if 2 * r <? per_thousandth then q
  else if per_thousandth <? 2 * r then q + 1
  else if Z.even q then q else q + 1.
Definition thousandths (m : Z) : option Z :=
  if Z.abs m <? decimal_limit then Some (Z.sgn m * round_magnitude (Z.abs m)) else None.

(** A JSON value.  Numbers are kept as thousandths; that the number written is the double
    nearest to the decimal (to_f64, Number::from_f64) is not modelled. *)
Inductive JV := JNull | JBool (b : bool) | JNum (thousandths : Z) | JText (t : string).

(** A column of the result, by the kind of its type; an absent value is [None]. *)
Inductive Data :=
| DInt (l : list (option Z))
| DDec (l : list (option Z))
| DBool (l : list (option bool))
| DText (l : list (option string))
| DTime (l : list (option Z))
| DOther (n : nat).

(** lib.rs 160-166 *)
Definition keep_null {A} (f : A -> JV) (x : option A) : JV := match x with None => JNull | Some v => f v end.
(** lib.rs 168-178 *)
Definition int_json (x : option Z) : JV := match x with None => JNum 0 | Some v => JNum (1000 * v) end.
(** lib.rs 248-266 *)
Definition dec_json (x : option Z) : option JV :=
  match x with
  | None => Some (JNum 0)
  | Some m => match thousandths m with Some d => Some (JNum d) | None => None end
  end.
Fixpoint all_some {A} (l : list (option A)) : option (list A) :=
  match l with
  | [] => Some []
  | None :: _ => None
  | Some x :: r => match all_some r with Some r' => Some (x :: r') | None => None end
  end.
(** lib.rs 212-271 *)
Definition array_json (d : Data) : option (list JV) :=
  match d with
  | DInt l => Some (map int_json l)
  | DDec l => all_some (map dec_json l)
  | DBool l => Some (map (keep_null JBool) l)
  | DText l => Some (map (keep_null JText) l)
  | DTime l => Some (map (keep_null (fun t => JNum (1000 * t))) l)
  | DOther _ => None
  end.
Definition rows (d : Data) : nat :=
  match d with
  | DInt l => List.length l | DDec l => List.length l | DBool l => List.length l | DText l => List.length l | DTime l => List.length l
  | DOther n => n
  end.

(** query/src/lib.rs, Column; [c_head] stands for the property, the kind and the type of the
    column, which are passed on one to one (lib.rs 617-626). *)
Record Col (Head : Type) := mkCol { c_head : Head; c_name : string; c_data : Data }.
Arguments mkCol {Head}. Arguments c_head {Head}. Arguments c_name {Head}. Arguments c_data {Head}.
Inductive Answer (Head : Type) := Regular (cols : list (Head * string * list JV)) | Compact (data : list (list JV)).
Arguments Regular {Head}. Arguments Compact {Head}.

Section Columns.
Variable Head : Type.
(** lib.rs 611-630 *)
Definition columns_to_json (cols : list (Col Head)) : option (Answer Head) :=
  match all_some (map (fun c => match array_json (c_data c) with Some d => Some (c_head c, c_name c, d) | None => None end) cols) with
  | Some l => Some (Regular l)
  | None => None
  end.
(** lib.rs 632-640 *)
Definition columns_to_json_compact (cols : list (Col Head)) : option (Answer Head) :=
  match all_some (map (fun c => array_json (c_data c)) cols) with Some l => Some (Compact l) | None => None end.
(** event_segmentation.rs 80-91, event_records.rs 88-99, group_records.rs 94-105 *)
Definition emptied (cols : list (Col Head)) : list (Col Head) :=
  match cols with c :: _ => if Nat.eqb (rows (c_data c)) 0 then [] else cols | [] => [] end.
Definition answer (compact : bool) (cols : list (Col Head)) : option (Answer Head) :=
  if compact then columns_to_json_compact (emptied cols) else columns_to_json (emptied cols).
End Columns.

(** lib.rs 180-211, scalar_to_json: one value of a record looked up by its number. *)
Inductive Scalar := ScInt (x : option Z) | ScDec (x : option Z) | ScBool (x : option bool) | ScText (x : option string) | ScTime (x : option Z) | ScOther (null : bool).
Definition scalar_json (v : Scalar) : option JV :=
  match v with
  | ScInt x => Some (keep_null (fun z => JNum (1000 * z)) x)
  | ScDec None => Some JNull
  | ScDec (Some m) => match thousandths m with Some d => Some (JNum d) | None => None end
  | ScBool x => Some (keep_null JBool x)
  | ScText x => Some (keep_null JText x)
  | ScTime x => Some (keep_null (fun z => JNum (1000 * z)) x)
  | ScOther null => if null then Some JNull else None
  end.

(** ** Funnels *)
(** A breakdown value of a row: a decimal (what its slot holds, 0 when it is absent), or any
    other value as the text arrow's cast makes of it. *)
Inductive BV := BDec (x : option Z) | BText (x : option string).
(** The three digits after the point, of [n] below 1000. *)
Definition three (n : Z) : string :=
  let d k := String (ascii_of_nat (48 + Z.to_nat ((n / k) mod 10))) EmptyString in
  String.append (d 100) (String.append (d 10) (d 1)).
(** i64 and Decimal to_string *)
Definition whole_text (z : Z) : string :=
  if z <? 0 then String.append "-" (dec (Z.to_N (- z))) else dec (Z.to_N z).
Definition decimal_text (d : Z) : string :=
  String.append (if d <? 0 then "-" else "")
    (String.append (dec (Z.to_N (Z.abs d / 1000))) (String.append "." (three (Z.abs d mod 1000)))).
(** funnel.rs 133-160, 203 *)
Definition group_text (v : BV) : option string :=
  match v with
  | BDec x =>
      match thousandths (match x with Some m => m | None => 0 end) with
      | None => None
      | Some d => Some (if d mod 1000 =? 0 then whole_text (d / 1000) else decimal_text d)
      end
  | BText x => Some (match x with Some t => t | None => EmptyString end)
  end.

(** A figure of the result: the columns of a row after the breakdown and the time, in the
    order of the schema (partitioned/funnel/funnel.rs 412-447), each with its kind. *)
Inductive Figure := FInt (z : Z) | FDec (m : Z).
Definition figures (s : StepLine) : list Figure :=
  [FInt (l_total s); FDec (l_ratio s); FDec (l_attc s); FDec (l_attcs s); FInt (l_dropped s); FDec (l_dratio s); FInt (l_ttc s); FInt (l_ttcs s)].
(** funnel.rs 166-190: whole numbers and decimals apart *)
Fixpoint ints (l : list Figure) : list Z := match l with [] => [] | FInt z :: r => z :: ints r | FDec _ :: r => ints r end.
Fixpoint decs (l : list Figure) : list Z := match l with [] => [] | FDec z :: r => z :: decs r | FInt _ :: r => decs r end.

(** funnel.rs 467-478, StepData; decimals in thousandths *)
Record StepData := mkSD {
  sd_groups : list string; sd_ts : Z; sd_total : Z; sd_ratio : Z; sd_attc : Z; sd_attcs : Z;
  sd_dropped : Z; sd_dratio : Z; sd_ttc : Z; sd_ttcs : Z
}.
(** A row of the result: the segment and the breakdown values, the time, the figures. *)
Record FRow := mkFRow { fr_groups : list BV; fr_ts : Z; fr_steps : list StepLine }.

Definition obind {A B} (x : option A) (f : A -> option B) : option B := match x with Some a => f a | None => None end.
(** funnel.rs 194-241: step [k] of a row; the columns are found by their places.  [None]:
    a place that is not there, or a decimal beyond 96 bits. *)
Definition step_data (k : nat) (r : FRow) : option StepData :=
  let fs := flat_map figures (fr_steps r) in
  let i n := nth_error (ints fs) (k * 4 + n) in
  let d n := obind (nth_error (decs fs) (k * 4 + n)) thousandths in
  obind (all_some (map group_text (fr_groups r))) (fun gs =>
  obind (i 0%nat) (fun total => obind (d 0%nat) (fun ratio => obind (d 1%nat) (fun attc => obind (d 2%nat) (fun attcs =>
  obind (i 1%nat) (fun dropped => obind (d 3%nat) (fun dratio => obind (i 2%nat) (fun ttc => obind (i 3%nat) (fun ttcs =>
  Some (mkSD gs (fr_ts r) total ratio attc attcs dropped dratio ttc ttcs)))))))))).

(** The first event of a step of the request (funnel.rs 194-199): its name, or [None] for a
    custom event ([unimplemented]) and for a step without events.  The name of an event given
    by number is looked up; that it can be is part of the check of the request. *)
Definition funnel_answer (names : list (option string)) (rs : list FRow) : option (list (string * list StepData)) :=
  all_some (map (fun kn => obind (snd kn) (fun n => obind (all_some (map (step_data (fst kn)) rs)) (fun data => Some (n, data))))
    (combine (seq 0 (List.length names)) names)).
