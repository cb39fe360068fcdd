(** The UTC calendar and the interval arithmetic of reports
    (src/common/src/query.rs, chrono and chronoutil as far as they are used there).

    A time is a number of nanoseconds since 1970-01-01T00:00:00Z.  chrono's limits on years
    (about +-262000) and its leap-second representation are not modelled; formatting of the
    columns as text ("%Y-%m-%dT%H:%M:%S") is not modelled either. *)
From Coq Require Import List ZArith Bool.
Import ListNotations.
Local Open Scope Z_scope.

Definition SEC : Z := 1000000000.
Definition MINUTE : Z := 60 * SEC.
Definition HOUR : Z := 60 * MINUTE.
Definition DAY : Z := 24 * HOUR.

(** chrono: proleptic Gregorian calendar, used by Datelike::year/month0/day0. *)
Definition leap (y : Z) : bool :=
  (y mod 4 =? 0) && (negb (y mod 100 =? 0) || (y mod 400 =? 0)).

(** Day number of 1 January of year [y] (day 0 = 1970-01-01). *)
Definition jan1 (y : Z) : Z :=
  365 * (y - 1) + (y - 1) / 4 - (y - 1) / 100 + (y - 1) / 400 - 719162.

Definition month_lens (y : Z) : list Z :=
  [31; (if leap y then 29 else 28); 31; 30; 31; 30; 31; 31; 30; 31; 30; 31].

Definition zsum (l : list Z) : Z := fold_right Z.add 0 l.

(** Day number of day [d0] of month [m0] (both counted from 0) of year [y]. *)
Definition day_number (y : Z) (m0 : nat) (d0 : Z) : Z :=
  jan1 y + zsum (firstn m0 (month_lens y)) + d0.

Definition year_of (d : Z) : Z :=
  let y := 400 * (d + 719162) / 146097 + 1 in
  if jan1 (y + 1) <=? d then y + 1 else if d <? jan1 y then y - 1 else y.

Fixpoint split_month (lens : list Z) (doy : Z) : nat * Z :=
  match lens with
  | [] => (0%nat, doy)
  | n :: rest =>
      if doy <? n then (0%nat, doy)
      else let '(m, d) := split_month rest (doy - n) in (S m, d)
  end.

(** (year, month0, day0) of a day number. *)
Definition civil (d : Z) : Z * nat * Z :=
  let y := year_of d in
  let '(m, dd) := split_month (month_lens y) (d - jan1 y) in
  (y, m, dd).

Definition day_of (t : Z) : Z := t / DAY.
Definition tod (t : Z) : Z := t mod DAY.

(** chrono Timelike::with_nanosecond(0), with_second(0), with_minute(0), with_hour(0). *)
Definition with_nanosecond0 (t : Z) : Z := t - t mod SEC.
Definition with_second0 (t : Z) : Z := t - (t mod MINUTE) / SEC * SEC.
Definition with_minute0 (t : Z) : Z := t - (t mod HOUR) / MINUTE * MINUTE.
Definition with_hour0 (t : Z) : Z := t - (t mod DAY) / HOUR * HOUR.

(** chrono Datelike::weekday() as i64: Monday = 0; 1970-01-01 was a Thursday. *)
Definition weekday (t : Z) : Z := (day_of t + 3) mod 7.

(** chrono Datelike::with_day0(0), with_month0(0); the first of a month always exists, and
    the code only calls with_month0 on a first day. *)
Definition with_day00 (t : Z) : Z :=
  let '(y, m, _) := civil (day_of t) in day_number y m 0 * DAY + tod t.
Definition with_month00 (t : Z) : Z :=
  let '(y, _, d) := civil (day_of t) in day_number y 0 d * DAY + tod t.

(** common/src/query.rs 425-431 *)
Inductive Unit_ := Hour | Day | Week | Month | Year.

(** common/src/query.rs 434-442: TimeIntervalUnit::duration(n). *)
Definition duration (g : Unit_) (n : Z) : Z :=
  match g with
  | Hour => n * HOUR
  | Day => n * DAY
  | Week => n * (7 * DAY)
  | Month => n * 31 * DAY
  | Year => n * 31 * 12 * DAY
  end.

(** chronoutil shift_months: same day of the month [n] months later, clamped to the length of
    that month; the time of day is kept. *)
Definition shift_months (t n : Z) : Z :=
  let '(y, m, d) := civil (day_of t) in
  let k := 12 * y + Z.of_nat m + n in
  let y' := k / 12 in
  let m' := Z.to_nat (k mod 12) in
  let d' := Z.min d (nth m' (month_lens y') 0 - 1) in
  day_number y' m' d' * DAY + tod t.

(** common/src/query.rs 443-451: DateTime + relative_duration(n). *)
Definition shift (g : Unit_) (t n : Z) : Z :=
  match g with
  | Hour => t + n * HOUR
  | Day => t + n * DAY
  | Week => t + n * (7 * DAY)
  | Month => shift_months t n
  | Year => shift_months t (12 * n)
  end.

(** common/src/query.rs 484-518: date_trunc. *)
Definition date_trunc (g : Unit_) (t : Z) : Z :=
  match g with
  | Hour => with_minute0 (with_second0 (with_nanosecond0 t))
  | Day => with_hour0 (with_minute0 (with_second0 (with_nanosecond0 t)))
  | Week =>
      let d := with_hour0 (with_minute0 (with_second0 (with_nanosecond0 t))) in
      d - 60 * 60 * 24 * weekday d * SEC
  | Month => with_day00 (with_hour0 (with_minute0 (with_second0 (with_nanosecond0 t))))
  | Year =>
      with_month00 (with_day00 (with_hour0 (with_minute0 (with_second0 (with_nanosecond0 t)))))
  end.

(** chronoutil DateRule with an end: the n-th item is start + n * frequency, and iteration
    stops at the first item that is not before the end.  The fuel is the largest number of
    items there can be, since items are at least an hour apart. *)
Fixpoint date_rule (g : Unit_) (start stop : Z) (fuel : nat) (n : Z) : list Z :=
  match fuel with
  | O => []
  | S f =>
      let x := shift g start n in
      if stop <=? x then [] else x :: date_rule g start stop f (n + 1)
  end.

(** common/src/query.rs 464-482: time_columns, before formatting. *)
Definition time_columns (from to : Z) (g : Unit_) : list Z :=
  let from' := date_trunc g from in
  let to' := date_trunc g to in
  let stop := shift g to' 1 in
  date_rule g from' stop (Z.to_nat ((stop - from') / HOUR + 1)) 0.

(** common/src/query.rs 410-418: QueryTime::range. *)
Inductive QueryTime := Between (from to : Z) | From (from : Z) | Last (last : Z) (u : Unit_).
Definition range (q : QueryTime) (now : Z) : Z * Z :=
  match q with
  | Between f t => (f, t)
  | From f => (f, now)
  | Last n u => (shift u now (- n), now)
  end.

(** chrono DateTime::timestamp_millis / from_timestamp_millis *)
Definition MS : Z := 1000000.
Definition millis (t : Z) : Z := t / MS.
Definition of_millis (m : Z) : Z := m * MS.

(** query/.../funnel.rs 309-331: bucket starts (milliseconds) of a funnel report. *)
Definition step_by (from to step : Z) : list Z :=
  map (fun i => from + Z.of_nat i * step) (seq 0 (Z.to_nat ((to - from) / step + 1))).
Definition funnel_buckets (interval : option Unit_) (from to : Z) : list Z :=
  match interval with
  | Some g =>
      let f := millis (date_trunc g from) in
      let b := step_by f (millis (date_trunc g to)) (millis (duration g 1)) in
      match b with [] => [f] | _ => b end
  | None => [millis from]
  end.
