(** Specification of funnels: what the attempts of one user are, and what a report line says
    about a list of attempts. *)
From Coq Require Import List ZArith Bool Arith.
From Verif Require Import Calendar Funnel.
Import ListNotations.
Local Open Scope Z_scope.

(** The row is an event of step [k]; the row is an excluded event. *)
Definition hits (k : nat) (r : Row) : bool := nth k (r_steps r) false.
Definition excluded (r : Row) : bool := existsb (fun b => b) (r_excl r).

(** First event of step [k], with the events after it. *)
Fixpoint first_hit (k : nat) (rows : list Row) : option (Row * list Row) :=
  match rows with
  | [] => None
  | r :: rest => if hits k r then Some (r, rest) else first_hit k rest
  end.

(** Match the [m] steps from [k] on, each by the first event after the previous one: the times
    of the steps reached, and the events left over when all steps are reached. *)
Fixpoint reach (k m : nat) (rows : list Row) : list Z * option (list Row) :=
  match m with
  | O => ([], Some rows)
  | S m' =>
      match first_hit k rows with
      | None => ([], None)
      | Some (r, rest) => let '(ts, lft) := reach (S k) m' rest in (r_ts r :: ts, lft)
      end
  end.

(** Events before the first one satisfying [stop], and the events from it on. *)
Fixpoint until (stop : Row -> bool) (rows : list Row) : list Row * list Row :=
  match rows with
  | [] => ([], [])
  | r :: rest => if stop r then ([], rows)
                 else let '(w, out) := until stop rest in (r :: w, out)
  end.

(** The attempts of one user, as the times of the steps reached.  An attempt starts at an event
    of the first step and ends at the first event outside the window, or when all [n] steps are
    reached.  An excluded event before its end discards it. *)
Fixpoint attempts_fuel (n : nat) (window : Z) (fuel : nat) (rows : list Row) : list (list Z) :=
  match fuel with
  | O => []
  | S f =>
      match first_hit 0 rows with
      | None => []
      | Some (r0, rest) =>
          let '(inside, out) := until (fun r => excluded r || (window <? r_ts r - r_ts r0)) rest in
          let '(ts, lft) := reach 1 (n - 1) inside in
          match lft with
          | Some l => (r_ts r0 :: ts) :: attempts_fuel n window f (l ++ out)
          | None =>
              match out with
              | [] => [r_ts r0 :: ts]
              | r :: _ => if excluded r then attempts_fuel n window f out
                          else (r_ts r0 :: ts) :: attempts_fuel n window f out
              end
          end
      end
  end.
Definition attempts (n : nat) (window : Z) (rows : list Row) : list (list Z) :=
  attempts_fuel n window (length rows) rows.

(** All attempts in the rows of all users, each user on its own. *)
Definition users (rows : list Row) : list Z := nodup Z.eq_dec (map r_part rows).
Definition of_user (u : Z) (rows : list Row) : list Row := filter (fun r => r_part r =? u) rows.
Definition of_key (k : GKey) (rows : list Row) : list Row :=
  filter (fun r => if gkey_dec (r_key r) k then true else false) rows.
Definition all_attempts (n : nat) (window : Z) (rows : list Row) : list (list Z) :=
  flat_map (fun u => attempts n window (of_user u rows)) (users rows).

(** What the line of a bucket says about the attempts in it. *)
Definition sum (l : list Z) : Z := fold_right Z.add 0 l.
Definition reaching (k : nat) (ats : list (list Z)) : list (list Z) :=
  filter (fun a => (k <? length a)%nat) ats.
Definition total (ats : list (list Z)) (k : nat) : Z := Z.of_nat (length (reaching k ats)).
Definition line_step (ats : list (list Z)) (k : nat) : StepResult :=
  match k with
  | O => mkSR (total ats 0) 0 0 0
  | S j => mkSR (total ats k) (total ats j - total ats k)
             (sum (map (fun a => nth k a 0 - nth j a 0) (reaching k ats)))
             (sum (map (fun a => nth k a 0 - nth 0 a 0) (reaching k ats)))
  end.
Definition line (n : nat) (ats : list (list Z)) : list StepResult :=
  map (line_step ats) (seq 0 n).

(** The bucket of an attempt: the interval its first event falls into; without an interval
    there is one bucket. *)
Definition in_bucket (c : Cfg) (b : Z) (a : list Z) : bool :=
  match c_interval c with
  | Some u => millis (date_trunc u (of_millis (nth 0 a 0))) =? b
  | None => match c_buckets c with [] => false | b0 :: _ => b0 =? b end
  end.
