(** The text of a time: how serde writes and reads a [DateTime<Utc>] of chrono, in replies and
    requests (common/src/query.rs 312-321, 400-410; platform/src/*.rs [created_at], [updated_at])
    and in the saved queries of reports and bookmarks (metadata/src/reports.rs 216-264,
    bookmarks.rs 89-126).  chrono is not part of the repository: this is its documented RFC 3339
    form, written with [Z] and as few of 0, 3, 6 or 9 digits of a fraction as are exact, with a sign
    for years that are not of four digits; read with [Z] or an offset.

    Not modelled: leap seconds (second 60), a space or small letter in place of [T], more than nine
    digits of a fraction. *)
From Coq Require Import List NArith ZArith Bool.
From Verif Require Import Calendar.
Import ListNotations.
Local Open Scope N_scope.

Notation Text := (list N).
(** Bytes of the signs. *)
Definition PLUS : N := 43. Definition MINUS : N := 45. Definition DOT : N := 46. Definition COLON : N := 58.
Definition LETTER_T : N := 84. Definition LETTER_Z : N := 90.

(** ** Writing *)
(** The last [k] decimal digits of a number. *)
Fixpoint digits (k : nat) (x : N) : Text :=
  match k with
  | O => []
  | S k => (48 + (x / 10 ^ N.of_nat k) mod 10) :: digits k x
  end.
(** chrono, Debug of NaiveDate: four digits for years 0 to 9999, else a sign and at least four. *)
Definition year_digits (a : N) : nat := if a <? 10000 then 4%nat else if a <? 100000 then 5%nat else 6%nat.
Definition put_year (y : Z) : Text :=
  if ((0 <=? y) && (y <? 10000))%Z then digits 4 (Z.to_N y)
  else (if (y <? 0)%Z then MINUS else PLUS) :: digits (year_digits (Z.abs_N y)) (Z.abs_N y).
(** Debug of NaiveTime: nothing, milliseconds, microseconds or nanoseconds. *)
Definition put_fraction (n : N) : Text :=
  if n =? 0 then []
  else if n mod 1000000 =? 0 then DOT :: digits 3 (n / 1000000)
  else if n mod 1000 =? 0 then DOT :: digits 6 (n / 1000)
  else DOT :: digits 9 n.
Definition print_time (t : Z) : Text :=
  let '(y, m0, d0) := civil (day_of t) in
  let s := tod t in
  (put_year y ++ [MINUS] ++ digits 2 (N.of_nat m0 + 1) ++ [MINUS] ++ digits 2 (Z.to_N d0 + 1) ++ [LETTER_T]
   ++ digits 2 (Z.to_N (s / HOUR)) ++ [COLON] ++ digits 2 (Z.to_N (s / MINUTE mod 60)) ++ [COLON]
   ++ digits 2 (Z.to_N (s / SEC mod 60)) ++ put_fraction (Z.to_N (s mod SEC)) ++ [LETTER_Z])%list.

(** ** Reading *)
Definition is_digit (c : N) : bool := (48 <=? c) && (c <=? 57).
(** Exactly [k] digits. *)
Fixpoint get_digits (k : nat) (acc : N) (l : Text) : option (N * Text) :=
  match k, l with
  | O, _ => Some (acc, l)
  | S k, c :: r => if is_digit c then get_digits k (10 * acc + (c - 48)) r else None
  | S _, [] => None
  end.
(** All digits there are, and how many. *)
Fixpoint get_run (acc : N) (n : nat) (l : Text) : N * nat * Text :=
  match l with
  | c :: r => if is_digit c then get_run (10 * acc + (c - 48)) (S n) r else (acc, n, l)
  | [] => (acc, n, [])
  end.
Definition get_sign (c : N) (l : Text) : option Text := match l with x :: r => if x =? c then Some r else None | [] => None end.
(** A year of four digits, or a sign and any number of digits. *)
Definition get_year (l : Text) : option (Z * Text) :=
  match l with
  | c :: r =>
    if (c =? PLUS) || (c =? MINUS) then
      match get_run 0 0 r with
      | (a, S _, r') => Some (if c =? MINUS then (- Z.of_N a)%Z else Z.of_N a, r')
      | _ => None
      end
    else match get_digits 4 0 l with Some (a, r') => Some (Z.of_N a, r') | None => None end
  | [] => None
  end.
(** The nanoseconds of a fraction of one to nine digits. *)
Definition get_fraction (l : Text) : option (N * Text) :=
  match l with
  | c :: r =>
    if c =? DOT then
      match get_run 0 0 r with
      | (a, n, r') => if ((1 <=? n) && (n <=? 9))%nat then Some (a * 10 ^ (9 - N.of_nat n), r') else None
      end
    else Some (0, l)
  | [] => Some (0, l)
  end.
(** [Z] or a sign, two digits, a colon and two digits; in minutes. *)
Definition get_offset (l : Text) : option (Z * Text) :=
  match l with
  | c :: r =>
    if c =? LETTER_Z then Some (0%Z, r)
    else if (c =? PLUS) || (c =? MINUS) then
      match get_digits 2 0 r with
      | Some (h, x :: r') =>
        if x =? COLON then
          match get_digits 2 0 r' with
          | Some (m, r'') =>
            if (h <? 24) && (m <? 60) then Some (((if (c =? MINUS)%N then -1 else 1) * (Z.of_N h * 60 + Z.of_N m))%Z, r'') else None
          | None => None
          end
        else None
      | _ => None
      end
    else None
  | [] => None
  end.
Local Notation "'get' x <- a ; b" := (match a with Some x => b | None => None end) (at level 200, x pattern, a at level 100, b at level 200).
(** chrono: years it can hold. *)
Definition YEARS : Z := 262143.
(** FromStr of DateTime<Utc>: the moment of the local time and its offset. *)
Definition parse_time (l : Text) : option Z :=
  get (y, l) <- get_year l; get l <- get_sign MINUS l; get (m, l) <- get_digits 2 0 l; get l <- get_sign MINUS l;
  get (d, l) <- get_digits 2 0 l; get l <- get_sign LETTER_T l; get (h, l) <- get_digits 2 0 l; get l <- get_sign COLON l;
  get (mi, l) <- get_digits 2 0 l; get l <- get_sign COLON l; get (s, l) <- get_digits 2 0 l; get (f, l) <- get_fraction l;
  get (o, l) <- get_offset l;
  match l with
  | [] =>
    if ((- YEARS <=? y) && (y <? YEARS))%Z && (1 <=? m) && (m <=? 12) && (1 <=? d)
       && (Z.of_N d <=? nth (N.to_nat (m - 1)) (month_lens y) 0)%Z && (h <? 24) && (mi <? 60) && (s <? 60)
    then Some (day_number y (N.to_nat (m - 1)) (Z.of_N d - 1) * DAY + Z.of_N h * HOUR + Z.of_N mi * MINUTE + Z.of_N s * SEC
               + Z.of_N f - o * MINUTE)%Z
    else None
  | _ => None
  end.
