(** What a report should show, without reference to how it is computed: the rows of a group
    that count, who they belong to, and what an aggregate of a list of numbers is. *)
From Coq Require Import List ZArith QArith Qcanon Bool.
From Verif Require Import Aggregate.
Import ListNotations.

Definition qsum (l : list Qc) : Qc := fold_right Qcplus 0%Qc l.
Definition qlen {A} (l : list A) : Qc := qc_of_nat (length l).

(** [v] is the [f] of the numbers [l] *)
Definition is_agg (f : Fn) (l : list Qc) (v : Qc) : Prop :=
  match f with
  | Sum => v = qsum l
  | Cnt => v = qlen l
  | Avg => l <> [] -> (v * qlen l = qsum l)%Qc
  | Min => l <> [] -> In v l /\ forall x, In x l -> (v <= x)%Qc
  | Max => l <> [] -> In v l /\ forall x, In x l -> (x <= v)%Qc
  end.

Section Rows.
Context {R : Type}.
Variable user : R -> Z.
Variable key : R -> QKey.
(** the rows of group [k] *)
Definition of_group (k : QKey) (rows : list R) : list R :=
  filter (fun r => if qkey_dec (key r) k then true else false) rows.
(** the distinct users of some rows, in order of appearance, and the rows of one user *)
Fixpoint distinct_users (rows : list R) : list Z :=
  match rows with
  | [] => []
  | r :: tl => user r :: filter (fun p => negb (Z.eqb p (user r))) (distinct_users tl)
  end.
Definition rows_of (rows : list R) (p : Z) : list R := filter (fun r => Z.eqb (user r) p) rows.
End Rows.

(** the rows of the users of a segment *)
Definition segment_rows {R} (user : R -> Z) (ex : option (list Z)) (rows : list R) : list R :=
  filter (fun r => match ex with None => true | Some us => if in_dec Z.eq_dec (user r) us then true else false end) rows.
