(** Funnel reports (src/query/src/physical_plan/expressions/aggregate/partitioned/funnel).

    The boolean arrays of steps and exclusions, the holding-constant values and the breakdown
    values are inputs: they are given per row.  Times are milliseconds.  [None] is a panic.
    Ratios and averages (floating point) are in FunnelRatio.v.  The [touch] option is stored by
    the code and never read; it is left out. *)
From Coq Require Import List ZArith Bool Arith.
From Verif Require Import AMap Calendar.
Import ListNotations.
Local Open Scope Z_scope.

(** Breakdown values of a row; [[]] when the report has no breakdown (then the code uses
    [single_group], funnel.rs 515-522). *)
Notation GKey := (list Z).
Definition gkey_dec : forall a b : GKey, {a = b} + {a <> b} := list_eq_dec Z.eq_dec.

(** One row of a record batch after evaluate_batch (funnel/mod.rs 113-205). *)
Record Row := mkRow {
  r_part : Z;               (* partition column: the user *)
  r_ts : Z;                 (* created_at, milliseconds *)
  r_key : GKey;
  r_steps : list bool;      (* batch.steps[i].value(row) *)
  r_excl : list bool;       (* exclude[i].exists.value(row) *)
  r_consts : list Z         (* constants[i].value(row) *)
}.

(** funnel/mod.rs 21-25 *)
Inductive StepOrder := Exact | AnyOf (pairs : list (nat * nat)).
(** funnel/mod.rs 58-63 *)
Inductive Count := Unique | NonUnique | Session.
(** funnel/mod.rs 72-79 *)
Inductive Filter := DropOffOnAnyStep | DropOffOnStep (n : nat) | TimeToConvert (from to : Z).

(** funnel.rs 284-306; [c_excl] holds the optional step range of every exclusion. *)
Record Cfg := mkCfg {
  c_orders : list StepOrder;
  c_window : Z;
  c_excl : list (option (nat * nat));
  c_consts : bool;          (* at least one holding constant *)
  c_count : Count;
  c_filter : option Filter;
  c_interval : option Unit_;
  c_buckets : list Z
}.

(** funnel.rs 69-75 *)
Record StepResult := mkSR { s_total : Z; s_dropped : Z; s_ttc : Z; s_ttcs : Z }.
Definition sr0 : StepResult := mkSR 0 0 0 0.

(** funnel.rs 84-98; [steps] keeps only the times (row and batch ids are never read back). *)
Record Group := mkGroup {
  g_first : bool;
  g_part : Z;
  g_const : option nat;
  g_cur : nat;
  g_steps : list Z;
  g_buckets : list (Z * list StepResult);
  g_done : nat
}.

Definition steps_len (c : Cfg) : nat := length (c_orders c).

(** funnel.rs 101-142: Group::new *)
Definition new_group (c : Cfg) : Group :=
  mkGroup true 0 None 0 (repeat 0 (steps_len c))
    (map (fun ts => (ts, repeat sr0 (steps_len c))) (c_buckets c)) 0.

(** funnel.rs 145-165: check_exclude.  Note the [break] when the step range matches. *)
Fixpoint check_exclude (excl : list (option (nat * nat))) (vals : list bool) (cur : nat) : bool :=
  match excl, vals with
  | Some (from, to) :: excl', _ :: vals' =>
      if (from <=? cur)%nat && (cur <=? to)%nat then true
      else check_exclude excl' vals' cur
  | None :: excl', v :: vals' => if v then false else check_exclude excl' vals' cur
  | _, _ => true
  end.

(** funnel.rs 167-178: check_constants.  The row remembered when the attempt started is looked
    up by its number in the current batch. *)
Definition check_constants (batch : list Row) (g : Group) (r : Row) : option bool :=
  match g_const g with
  | None => None
  | Some i =>
      match nth_error batch i with
      | None => None
      | Some r0 => Some (if list_eq_dec Z.eq_dec (r_consts r0) (r_consts r) then true else false)
      end
  end.

(** funnel.rs 188-206: is_completed *)
Definition is_completed (c : Cfg) (g : Group) : bool :=
  match c_filter c with
  | None => (g_done g =? steps_len c)%nat
  | Some DropOffOnAnyStep => negb (g_done g =? steps_len c)%nat
  | Some (DropOffOnStep n) => (g_done g - 1 =? n)%nat
  | Some (TimeToConvert from to) =>
      if (g_done g =? steps_len c)%nat then
        let diff := nth (g_cur g) (g_steps g) 0 - nth 0 (g_steps g) 0 in
        (from <=? diff) && (diff <=? to)
      else false
  end.

(** funnel.rs 207-213: the bucket of an attempt *)
Definition bucket_key (c : Cfg) (g : Group) : option Z :=
  match c_interval c with
  | Some u => Some (millis (date_trunc u (of_millis (nth 0 (g_steps g) 0))))
  | None => match g_buckets g with [] => None | (k, _) :: _ => Some k end
  end.

(** funnel.rs 216-233: counting an attempt.  The first loop's drop-off values are all
    overwritten by the second loop, which is [redrop]. *)
Definition bump (times : list Z) (done : nat) (k : nat) (s : StepResult) : StepResult :=
  if (k <? done)%nat then
    match k with
    | O => mkSR (s_total s + 1) (s_dropped s) (s_ttc s) (s_ttcs s)
    | S j => mkSR (s_total s + 1) (s_dropped s)
                  (s_ttc s + (nth k times 0 - nth j times 0))
                  (s_ttcs s + (nth k times 0 - nth 0 times 0))
    end
  else s.
Fixpoint bump_all (times : list Z) (done : nat) (k : nat) (l : list StepResult) : list StepResult :=
  match l with
  | [] => []
  | s :: l' => bump times done k s :: bump_all times done (S k) l'
  end.
Fixpoint redrop (prev : Z) (l : list StepResult) : list StepResult :=
  match l with
  | [] => []
  | s :: l' => mkSR (s_total s) (prev - s_total s) (s_ttc s) (s_ttcs s) :: redrop (s_total s) l'
  end.
Definition count_attempt (times : list Z) (done : nat) (l : list StepResult) : list StepResult :=
  match bump_all times done 0 l with
  | [] => []
  | s :: l' => s :: redrop (s_total s) l'
  end.

(** [buckets.entry(k).and_modify(..)]: nothing happens when the bucket does not exist. *)
Definition modify (k : Z) (f : list StepResult -> list StepResult)
  (b : list (Z * list StepResult)) : list (Z * list StepResult) :=
  map (fun kv => if fst kv =? k then (fst kv, f (snd kv)) else kv) b.

(** funnel.rs 180-236: push_result *)
Definition push_result (c : Cfg) (g : Group) : option (Group * bool) :=
  if (g_done g =? 0)%nat then Some (g, false)
  else
    match bucket_key c g with
    | None => None
    | Some k =>
        Some (mkGroup (g_first g) (g_part g) (g_const g) (g_cur g) (g_steps g)
                (modify k (count_attempt (g_steps g) (g_done g)) (g_buckets g)) (g_done g),
              is_completed c g)
    end.

Definition set_part (g : Group) (p : Z) : Group :=
  mkGroup false p (g_const g) (g_cur g) (g_steps g) (g_buckets g) (g_done g).
Definition set_const (g : Group) (i : nat) : Group :=
  mkGroup (g_first g) (g_part g) (Some i) (g_cur g) (g_steps g) (g_buckets g) (g_done g).
(** steps[0] = steps[cur_step] is not modelled: steps[0] is written again before it is read. *)
Definition reset (g : Group) : Group :=
  mkGroup (g_first g) (g_part g) (g_const g) 0 (g_steps g) (g_buckets g) 0.
Fixpoint upd (l : list Z) (i : nat) (v : Z) : list Z :=
  match l, i with
  | [], _ => []
  | _ :: l', O => v :: l'
  | x :: l', S i' => x :: upd l' i' v
  end.

(** funnel.rs 598-617: does the row match the current step?  For [Any], a later pair
    overwrites the result of an earlier one.  Step numbers beyond the list panic. *)
Definition range_incl (from to : nat) : list nat := seq from (S to - from).
Fixpoint any_in (steps : list bool) (ids : list nat) (m : bool) : option bool :=
  match ids with
  | [] => Some m
  | i :: ids' =>
      match nth_error steps i with
      | None => None
      | Some true => Some true
      | Some false => any_in steps ids' false
      end
  end.
Fixpoint any_pairs (steps : list bool) (pairs : list (nat * nat)) (m : bool) : option bool :=
  match pairs with
  | [] => Some m
  | (from, to) :: ps =>
      match any_in steps (range_incl from to) m with
      | None => None
      | Some m' => any_pairs steps ps m'
      end
  end.
Definition matches (c : Cfg) (r : Row) (cur : nat) : option bool :=
  match nth_error (c_orders c) cur with
  | None => None
  | Some Exact => nth_error (r_steps r) cur
  | Some (AnyOf pairs) => any_pairs (r_steps r) pairs false
  end.

(** funnel.rs 536-559: exclusion and window, only while an attempt is in progress *)
Definition guard_attempt (c : Cfg) (r : Row) (g : Group) : option Group :=
  if (g_cur g =? 0)%nat then Some g
  else if check_exclude (c_excl c) (r_excl r) (g_cur g) then
    if c_window c <? r_ts r - nth 0 (g_steps g) 0 then
      match push_result c g with
      | None => None
      | Some (g', _) => Some (reset g')
      end
    else Some g
  else Some (reset g).

(** funnel.rs 560-583: holding constants.  After an exclusion or a constant violation the code
    [continue]s with the same row and cur_step = 0, which ends here with the row remembered. *)
Definition guard_const (c : Cfg) (batch : list Row) (i : nat) (r : Row) (g : Group)
  : option Group :=
  if c_consts c then
    if (g_cur g =? 0)%nat then Some (set_const g i)
    else
      match check_constants batch g r with
      | None => None
      | Some true => Some g
      | Some false => Some (set_const (reset g) i)
      end
  else Some g.

(** funnel.rs 585-597: a row of another user ends the attempt *)
Definition guard_part (c : Cfg) (r : Row) (g : Group) : option Group :=
  if r_part r =? g_part g then Some g
  else
    match push_result c g with
    | None => None
    | Some (g', _) => Some (reset (set_part g' (r_part r)))
    end.

(** funnel.rs 618-641: advance on a match; the flag asks to skip the rest of the user *)
Definition advance (c : Cfg) (r : Row) (g : Group) : option (Group * bool) :=
  match matches c r (g_cur g) with
  | None => None
  | Some false => Some (g, false)
  | Some true =>
      let g1 := mkGroup (g_first g) (g_part g) (g_const g) (g_cur g)
                  (upd (g_steps g) (g_cur g) (r_ts r)) (g_buckets g) (S (g_done g)) in
      if (g_cur g <? steps_len c - 1)%nat then
        Some (mkGroup (g_first g1) (g_part g1) (g_const g1) (S (g_cur g1)) (g_steps g1)
                (g_buckets g1) (g_done g1), false)
      else
        match push_result c g1 with
        | None => None
        | Some (g2, completed) =>
            Some (reset g2, completed && match c_count c with Unique => true | _ => false end)
        end
  end.

(** One turn of the loop for the group of the row (funnel.rs 523-641). *)
Definition do_row (c : Cfg) (batch : list Row) (i : nat) (r : Row) (g : Group)
  : option (Group * bool) :=
  let g0 := if g_first g then set_part g (r_part r) else g in
  match guard_attempt c r g0 with
  | None => None
  | Some g1 =>
      match guard_const c batch i r g1 with
      | None => None
      | Some g2 =>
          match guard_part c r g2 with
          | None => None
          | Some g3 => advance c r g3
          end
      end
  end.

(** funnel.rs 258-286.  [first] is never cleared, so cur_partition follows the current row. *)
Record Funnel := mkF {
  f_groups : list (GKey * Group);
  f_cur : Z;
  f_skip : bool
}.
Definition funnel0 : Funnel := mkF [] 0 false.

Definition more (l : list Row) : bool := match l with [] => false | _ => true end.

(** funnel.rs 499-652: the loop over the rows of a batch.  Both skipping loops stop at the
    last row of the batch, which is then processed whatever its user. *)
Fixpoint eval_rows (c : Cfg) (exists_ : option (list Z)) (batch : list Row) (i : nat)
  (rows : list Row) (f : Funnel) : option Funnel :=
  match rows with
  | [] => Some f
  | r :: tl =>
      if f_skip f && (f_cur f =? r_part r) && more tl then eval_rows c exists_ batch (S i) tl f
      else
        let f := mkF (f_groups f) (f_cur f) false in
        if match exists_ with
           | None => false
           | Some us => negb (existsb (Z.eqb (r_part r)) us) && more tl
           end
        then eval_rows c exists_ batch (S i) tl f
        else
          let g := match aget gkey_dec (r_key r) (f_groups f) with
                   | Some g => g
                   | None => new_group c
                   end in
          match do_row c batch i r g with
          | None => None
          | Some (g', skip) =>
              eval_rows c exists_ batch (S i) tl
                (mkF (aset gkey_dec (r_key r) g' (f_groups f)) (r_part r) skip)
          end
  end.

(** funnel.rs 457-656: evaluate.  An empty batch panics (funnel/mod.rs 203); a batch starting
    with a smaller user than the last one seen is removed from the buffer before it is used
    (funnel.rs 487-498, 534), which panics too. *)
Definition evaluate (c : Cfg) (exists_ : option (list Z)) (batch : list Row) (f : Funnel)
  : option Funnel :=
  match batch with
  | [] => None
  | r :: _ => if r_part r <? f_cur f then None else eval_rows c exists_ batch 0 batch f
  end.

Fixpoint evaluate_all (c : Cfg) (exists_ : option (list Z)) (batches : list (list Row)) (f : Funnel)
  : option Funnel :=
  match batches with
  | [] => Some f
  | b :: bs => match evaluate c exists_ b f with
               | None => None
               | Some f' => evaluate_all c exists_ bs f'
               end
  end.

(** funnel.rs 699-906: finalize.  One line per breakdown value and bucket with a non-zero
    first step; hash map order is not modelled. *)
Definition Line := (GKey * Z * list StepResult)%type.
Definition counted (steps : list StepResult) : bool :=
  match steps with [] => false | s :: _ => negb (s_total s =? 0) end.
Definition group_lines (kg : GKey * Group) : list Line :=
  map (fun kb => (fst kg, fst kb, snd kb))
    (filter (fun kb => counted (snd kb)) (g_buckets (snd kg))).
Fixpoint push_all (c : Cfg) (gs : list (GKey * Group)) : option (list (GKey * Group)) :=
  match gs with
  | [] => Some []
  | (k, g) :: gs' =>
      match push_result c g, push_all c gs' with
      | Some (g', _), Some r => Some ((k, g') :: r)
      | _, _ => None
      end
  end.
Definition finalize (c : Cfg) (f : Funnel) : option (list Line) :=
  match push_all c (f_groups f) with
  | None => None
  | Some gs => Some (flat_map group_lines gs)
  end.

(** A whole funnel on one worker: all batches, then finalize. *)
Definition funnel (c : Cfg) (exists_ : option (list Z)) (batches : list (list Row))
  : option (list Line) :=
  match evaluate_all c exists_ batches funnel0 with
  | None => None
  | Some f => finalize c f
  end.
