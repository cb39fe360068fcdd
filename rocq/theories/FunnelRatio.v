(** The rest of a funnel request: choosing the rows (src/query/src/funnel.rs 251-423), the ratio
    and average columns of a worker (funnel.rs of the aggregate, 752-812) and putting the lines
    of all workers together (src/query/src/physical_plan/funnel.rs 60-266, 560-735).

    Decimals are integers counting units of 10^-16.  The two floating point expressions are
    parameters: [pct a b] is the decimal made from [a as f64 / b as f64 * 100.] and [rest r] the
    one made from [100. - r].  The theorems say how close to the exact values they must be.
    Decimals too large for 96 bits are not modelled. *)
From Coq Require Import List ZArith Bool Arith.
From Verif Require Import AMap Calendar Funnel.
Import ListNotations.
Local Open Scope Z_scope.

(** DECIMAL_SCALE is 16 (src/common/src/lib.rs); 100. as a mantissa. *)
Definition unit_ : Z := 10000000000000000.
Definition hundred : Z := 100 * unit_.

(** The eight columns of a step (funnel.rs 839-872). *)
Record StepLine := mkSL {
  l_total : Z; l_ratio : Z; l_attc : Z; l_attcs : Z;
  l_dropped : Z; l_dratio : Z; l_ttc : Z; l_ttcs : Z
}.
(** A row of the report: breakdown values, time, the steps. *)
Definition FLine := (GKey * Z * list StepLine)%type.
Definition fkey (l : FLine) : GKey * Z := fst l.
Definition fkey_dec : forall a b : GKey * Z, {a = b} + {a <> b}.
Proof. decide equality; [apply Z.eq_dec|apply gkey_dec]. Defined.

Section Columns.
Variable pct : Z -> Z -> Z.
Variable rest : Z -> Z.

(** funnel.rs 754-812: one step of one bucket; [first] is [bucket.steps[0].total]. *)
Definition share (k : nat) (a b : Z) (t : Z) (at0 : Z) : Z :=
  match k with
  | O => at0
  | S _ => if 0 <? t then pct a b else 0
  end.
Definition step_line (first : Z) (k : nat) (s : StepResult) : StepLine :=
  let scr := share k (s_total s) first (s_total s) hundred in
  mkSL (s_total s) scr
    (share k (s_ttc s) (s_total s) (s_total s) 0)
    (share k (s_ttcs s) (s_total s) (s_total s) 0)
    (s_dropped s) (rest scr) (s_ttc s) (s_ttcs s).
Fixpoint step_lines (first : Z) (k : nat) (l : list StepResult) : list StepLine :=
  match l with
  | [] => []
  | s :: l' => step_line first k s :: step_lines first (S k) l'
  end.
Definition first_total (l : list StepResult) : Z := match l with [] => 0 | s :: _ => s_total s end.
Definition columns (l : Line) : FLine :=
  let '(key, ts, steps) := l in (key, ts, step_lines (first_total steps) 0 steps).

(** physical_plan/funnel.rs 409-520: what one worker emits (no segments: the node is given
    [None], funnel.rs 402-408). *)
Definition worker (c : Cfg) (batches : list (list Row)) : option (list FLine) :=
  match funnel c None batches with
  | None => None
  | Some ls => Some (map columns ls)
  end.

(** physical_plan/funnel.rs 60-266: Agg and aggregate.  Rust's division truncates. *)
Definition zsum (l : list Z) : Z := fold_right Z.add 0 l.
Definition agg_sum (l : list Z) : Z := zsum l.
Definition agg_avg (l : list Z) : Z := Z.quot (zsum l) (Z.of_nat (length l)).
Definition nth_step (k : nat) (l : FLine) : StepLine :=
  nth k (snd l) (mkSL 0 0 0 0 0 0 0 0).
(** 676-711: Sum for counts and times, Avg for ratios and averages. *)
Definition final_step (ls : list FLine) (k : nat) : StepLine :=
  let col (f : StepLine -> Z) := map (fun l => f (nth_step k l)) ls in
  mkSL (agg_sum (col l_total)) (agg_avg (col l_ratio)) (agg_avg (col l_attc))
    (agg_avg (col l_attcs)) (agg_sum (col l_dropped)) (agg_avg (col l_dratio))
    (agg_sum (col l_ttc)) (agg_sum (col l_ttcs)).
(** 714-735: group the rows of all workers by breakdown values and time.  The order of the rows
    is that of a hash map; here it is the order of first appearance. *)
Definition same_key (k : GKey * Z) (ls : list FLine) : list FLine :=
  filter (fun l => if fkey_dec (fkey l) k then true else false) ls.
Definition final (steps : nat) (ls : list FLine) : list FLine :=
  map (fun k => (k, map (final_step (same_key k ls)) (seq 0 steps)))
    (nodup fkey_dec (map fkey ls)).

Fixpoint all_workers (c : Cfg) (ws : list (list (list Row))) : option (list FLine) :=
  match ws with
  | [] => Some []
  | w :: ws' => match worker c w, all_workers c ws' with
                | Some a, Some b => Some (a ++ b)
                | _, _ => None
                end
  end.
(** A whole report on several workers, each with its own batches. *)
Definition report (c : Cfg) (ws : list (list (list Row))) : option (list FLine) :=
  match all_workers c ws with
  | None => None
  | Some ls => Some (final (length (c_orders c)) ls)
  end.
End Columns.

(** *** Choosing the rows *)

(** A row of the events table: the columns a funnel reads. *)
Record Event := mkEvent {
  e_project : Z;
  e_user : Z;           (* the column of the requested group *)
  e_ts : Z;
  e_event : Z;          (* event id *)
  e_props : list Z      (* property columns *)
}.
(** An event of a step or an exclusion: its id and its filters, which look at properties
    (src/query/src/expr.rs 62-110; the filters themselves are in Filter.v). *)
Record EventRef := mkRef { er_id : Z; er_filters : list Z -> bool }.
(** common/src/funnel.rs 13-27: the parts of a request that choose and label rows.  Holding
    constants are left out. *)
Record Request := mkReq {
  q_from : Z; q_to : Z;
  q_filters : list Z -> bool;
  q_steps : list (list EventRef);
  q_excl : list EventRef;
  q_breakdowns : list Z -> GKey
}.
Definition is_event (e : Event) (r : EventRef) : bool :=
  (e_event e =? er_id r) && er_filters r (e_props e).
(** expr.rs 38-58 and query/src/funnel.rs 258-262: time range and filters.  Nothing else
    restricts the rows: the project of the request is not used. *)
Definition chosen (q : Request) (e : Event) : bool :=
  (q_from q <=? e_ts e) && (e_ts e <=? q_to q) && q_filters q (e_props e).
(** query/src/funnel.rs 269-332 and evaluate_batch (funnel/mod.rs 113-205). *)
Definition row_of (q : Request) (e : Event) : Row :=
  mkRow (e_user e) (e_ts e) (q_breakdowns q (e_props e))
    (map (fun refs => existsb (is_event e) refs) (q_steps q))
    (map (is_event e) (q_excl q)) [].
(** query/src/funnel.rs 78-95 and 251-410: the rows a worker works on, out of the rows of the
    table it scans, for a request of project [project]. *)
Definition funnel_rows (project : Z) (q : Request) (table : list Event) : list Row :=
  map (row_of q) (filter (chosen q) table).

(** *** The window of a request: common/src/funnel.rs 42-62 ([None] is unimplemented!()).
    Milliseconds; chrono's limits are not modelled. *)
Inductive WUnit := WHour | WDay | WWeek | WMonth | WYear | WSession.
Definition day_ms : Z := 86400000.
Definition window_ms (u : WUnit) (n : Z) : option Z :=
  match u with
  | WHour => Some (n * 3600000)
  | WDay => Some (n * day_ms)
  | WWeek => Some (n * 7 * day_ms)
  | WMonth => Some (n * 31 * day_ms)
  | WYear => Some (n * 31 * 12 * day_ms)
  | WSession => None
  end.
