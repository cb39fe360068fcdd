(** Specification of the text of a time (RFC 3339), in terms of digits, the calendar of
    [CalendarSpec] and the moment, in nanoseconds since 1970-01-01T00:00:00Z. *)
From Coq Require Import List NArith ZArith.
From Verif Require Import CalendarSpec.
Import ListNotations.
Local Open Scope N_scope.

(** The number a text of digits stands for. *)
Definition Digits (l : list N) : Prop := Forall (fun c => 48 <= c <= 57) l.
Definition value (l : list N) : N := fold_left (fun a c => 10 * a + (c - 48)) l 0.
Definition Decimal (k : nat) (x : N) (l : list N) : Prop := Digits l /\ length l = k /\ value l = x.
(** [2024], or a sign and one or more digits: [+12024], [-0044]. *)
Definition YearText (y : Z) (l : list N) : Prop :=
  (exists a, Decimal 4 a l /\ y = Z.of_N a)
  \/ (exists k a r, Decimal (S k) a r /\ ((l = 43 :: r /\ y = Z.of_N a) \/ (l = 45 :: r /\ y = (- Z.of_N a)%Z))).
(** Nothing, or a dot and one to nine digits; [n] nanoseconds. *)
Definition FractionText (n : N) (l : list N) : Prop :=
  (l = [] /\ n = 0) \/ (exists k a r, Decimal k a r /\ l = 46 :: r /\ (1 <= k <= 9)%nat /\ n * 10 ^ N.of_nat k = a * 10 ^ 9).
(** [Z], or how many hours and minutes the clock is ahead or behind: [+02:00]. *)
Definition OffsetText (o : Z) (l : list N) : Prop :=
  (l = [90] /\ o = 0%Z)
  \/ (exists h m th tm, Decimal 2 h th /\ Decimal 2 m tm /\ h < 24 /\ m < 60
      /\ ((l = 43 :: th ++ 58 :: tm /\ o = (Z.of_N h * 60 + Z.of_N m)%Z) \/ (l = 45 :: th ++ 58 :: tm /\ o = (- (Z.of_N h * 60 + Z.of_N m))%Z))).
(** [Names l t]: the text [l] is a date, [T], a time of day and an offset, and names moment [t]. *)
Definition Names (l : list N) (t : Z) : Prop :=
  exists y m d h mi s f o first len ty tm td th tmi ts tf to,
    l = (ty ++ 45 :: tm ++ 45 :: td ++ 84 :: th ++ 58 :: tmi ++ 58 :: ts ++ tf ++ to)%list
    /\ (YearText y ty /\ Decimal 2 m tm /\ Decimal 2 d td /\ Decimal 2 h th /\ Decimal 2 mi tmi /\ Decimal 2 s ts
        /\ FractionText f tf /\ OffsetText o to)
    /\ (-262143 <= y < 262143)%Z /\ FirstOf y (Z.of_N m) first /\ MonthLength y (Z.of_N m) len /\ (1 <= Z.of_N d <= len)%Z
    /\ h < 24 /\ mi < 60 /\ s < 60
    /\ t = ((first + Z.of_N d - 1) * one_day + Z.of_N h * one_hour + (Z.of_N mi - o) * 60 * 10 ^ 9 + Z.of_N s * 10 ^ 9 + Z.of_N f)%Z.
(** The moments of the years chrono holds. *)
Definition Holds (t : Z) : Prop := exists a b, NewYear (-262143) a /\ NewYear 262143 b /\ (a * one_day <= t < b * one_day)%Z.
