(** What an aggregated property should show, without reference to how it is computed. *)
From Coq Require Import List ZArith QArith Qcanon Qcabs Bool.
From Verif Require Import Aggregate AggSpec Numbers.
Import ListNotations.
Local Open Scope Qc_scope.

(** What a stored value stands for: a decimal column holds integers that count 10^-16. *)
Definition worth (dt : DT) (v : Qc) : Qc := match dt with DDec => v / of_int (10 ^ 16) | _ => v end.

(** The largest number a decimal can stand for. *)
Definition big_decimal : Qc := of_int (2 ^ 127 - 1) / of_int (10 ^ 16).
(** The values a column can hold; of a 64-bit unsigned column those that also fit 64-bit signed
    numbers; of floats those that also fit decimals. *)
Definition int_range (dt : DT) : option (Z * Z) :=
  match dt with
  | DInt8 => Some (- 2 ^ 7, 2 ^ 7 - 1) | DInt16 => Some (- 2 ^ 15, 2 ^ 15 - 1)
  | DInt32 => Some (- 2 ^ 31, 2 ^ 31 - 1) | DInt64 => Some (- 2 ^ 63, 2 ^ 63 - 1)
  | DUInt8 => Some (0, 2 ^ 8 - 1) | DUInt16 => Some (0, 2 ^ 16 - 1)
  | DUInt32 => Some (0, 2 ^ 32 - 1) | DUInt64 => Some (0, 2 ^ 63 - 1)
  | DDec => Some (- (2 ^ 127 - 1), 2 ^ 127 - 1)
  | _ => None
  end%Z.
Definition storable (dt : DT) (v : Qc) : Prop :=
  match int_range dt with
  | Some (lo, hi) => exists z, v = of_int z /\ (lo <= z <= hi)%Z
  | None => Qcabs v <= big_decimal
  end.

(** The type of the numbers an aggregate of such a column gives, and the largest number a sum
    of such a column may reach: 64 bits for small integers, the largest decimal for the others. *)
Definition kind (dt : DT) (f : Fn) : DT :=
  match f with
  | Avg => DFloat64 | Cnt => DInt64 | Min | Max => dt
  | Sum => match dt with
           | DInt8 | DInt16 | DInt32 => DInt64
           | DUInt8 | DUInt16 | DUInt32 => DUInt64
           | DFloat32 | DFloat64 => DFloat64
           | _ => DDec
           end
  end.
Definition biggest (dt : DT) : Qc :=
  match dt with
  | DInt8 | DInt16 | DInt32 | DUInt8 | DUInt16 | DUInt32 => of_int (2 ^ 63 - 1)
  | _ => big_decimal
  end.
(** There is room for the aggregate of these numbers: what is added up stays below that. *)
Definition room (dt : DT) (f : Fn) (ws : list Qc) : Prop :=
  match f with
  | Sum => qsum (map Qcabs ws) <= biggest dt
  | Cnt => qlen ws <= of_int (2 ^ 63 - 1)
  | _ => True
  end.

(** The users of a worker with their values; the rows of a worker, user by user. *)
Definition rows_of_users {V} (us : list (Z * list V)) : list (Z * V) :=
  concat (map (fun u => map (pair (fst u)) (snd u)) us).
(** the workers that have rows of the cell *)
Definition busy {A} (ws : list (list A)) : list (list A) :=
  filter (fun l => match l with [] => false | _ => true end) ws.
