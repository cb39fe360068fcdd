(** Specification of the calendar: where hours, days, weeks, months and years start.
    Times are nanoseconds since 1970-01-01T00:00:00Z, a Thursday. *)
From Coq Require Import ZArith.
From Verif Require Import Calendar.
Local Open Scope Z_scope.

Definition one_hour : Z := 3600 * 1000000000.
Definition one_day : Z := 24 * one_hour.

Definition LeapYear (y : Z) : Prop := ((4 | y) /\ ~ (100 | y)) \/ (400 | y).

(** [YearLength y n]: year [y] has [n] days. *)
Inductive YearLength (y : Z) : Z -> Prop :=
  | leap_year : LeapYear y -> YearLength y 366
  | common_year : ~ LeapYear y -> YearLength y 365.

(** [MonthLength y m n]: month [m] (1 to 12) of year [y] has [n] days. *)
Inductive MonthLength (y : Z) : Z -> Z -> Prop :=
  | len_31 : forall m, m = 1 \/ m = 3 \/ m = 5 \/ m = 7 \/ m = 8 \/ m = 10 \/ m = 12 -> MonthLength y m 31
  | len_30 : forall m, m = 4 \/ m = 6 \/ m = 9 \/ m = 11 -> MonthLength y m 30
  | len_29 : LeapYear y -> MonthLength y 2 29
  | len_28 : ~ LeapYear y -> MonthLength y 2 28.

(** [NewYear y d]: day [d] (0 is 1970-01-01) is 1 January of year [y]. *)
Inductive NewYear : Z -> Z -> Prop :=
  | epoch : NewYear 1970 0
  | year_after : forall y d n, NewYear y d -> YearLength y n -> NewYear (y + 1) (d + n)
  | year_before : forall y d n, NewYear (y + 1) d -> YearLength y n -> NewYear y (d - n).

(** [FirstOf y m d]: day [d] is the first day of month [m] of year [y]. *)
Inductive FirstOf (y : Z) : Z -> Z -> Prop :=
  | january : forall d, NewYear y d -> FirstOf y 1 d
  | next_month : forall m d n, FirstOf y m d -> MonthLength y m n -> m < 12 -> FirstOf y (m + 1) (d + n).

(** [Starts g s]: an hour, day, week (Monday), month or year starts at time [s]. *)
Definition Starts (g : Unit_) (s : Z) : Prop :=
  match g with
  | Hour => exists h, s = h * one_hour
  | Day => exists d, s = d * one_day
  | Week => exists w, s = (4 + 7 * w) * one_day
  | Month => exists y m d, FirstOf y m d /\ s = d * one_day
  | Year => exists y d, NewYear y d /\ s = d * one_day
  end.

(** [Falls g t s]: the interval starting at [s] is the one [t] falls into. *)
Definition Falls (g : Unit_) (t s : Z) : Prop :=
  Starts g s /\ s <= t /\ forall s', Starts g s' -> s' <= t -> s' <= s.
