(** What a segment should contain, without reference to how it is computed. *)
From Coq Require Import List ZArith QArith Qcanon Bool.
From Verif Require Import Aggregate AggSpec Segment.
Import ListNotations.

(** the period of a condition *)
Definition in_period (t : TimeRange) (ts : Z) : Prop :=
  match t with
  | Between from to => (from <= ts <= to)%Z
  | From from => (from <= ts)%Z
  | Last since start => (start - since <= ts)%Z
  | AnyTime => True
  end.
(** the comparison of a condition *)
Definition compares_z (o : CmpOp) (a b : Z) : Prop :=
  match o with
  | OpEq => a = b | OpNe => a <> b | OpLt => (a < b)%Z | OpLe => (a <= b)%Z | OpGt => (a > b)%Z | OpGe => (a >= b)%Z
  end.
Definition compares_q (o : CmpOp) (a b : Qc) : Prop :=
  match o with
  | OpEq => a = b | OpNe => a <> b | OpLt => (a < b)%Qc | OpLe => (a <= b)%Qc | OpGt => (b < a)%Qc | OpGe => (b <= a)%Qc
  end.

Section Spec.
Context {R : Type}.
Variable user : R -> Z.
(** a row the condition is about: in the period, and the filter is true *)
Definition about (g : Cond R) (r : R) : Prop := in_period (g_range g) (g_ts g r) /\ g_filter g r = Some true.
(** [ms] are the rows of user [u] the condition is about *)
Inductive picks (g : Cond R) (u : Z) : list R -> list R -> Prop :=
| picks_nil : picks g u [] []
| picks_yes : forall r rows ms, about g r -> user r = u -> picks g u rows ms -> picks g u (r :: rows) (r :: ms)
| picks_no : forall r rows ms, ~ (about g r /\ user r = u) -> picks g u rows ms -> picks g u (r :: rows) ms.
(** a user satisfies a condition *)
Fixpoint sat (e : SegExpr R) (rows : list R) (u : Z) : Prop :=
  match e with
  | SCount g op bound => exists ms, picks g u rows ms /\ compares_z op (Z.of_nat (length ms)) bound
  | SAggregate g val f op bound =>
    exists ms v, ms <> [] /\ picks g u rows ms /\ is_agg f (map val ms) v /\ compares_q op v bound
  | SAnd a b => sat a rows u /\ sat b rows u
  | SOr a b => sat a rows u \/ sat b rows u
  end.
End Spec.

(** the conditions a segment is made of *)
Fixpoint conds {R} (e : SegExpr R) : list (Cond R) :=
  match e with
  | SCount g _ _ => [g]
  | SAggregate g _ _ _ _ => [g]
  | SAnd a b => conds a ++ conds b
  | SOr a b => conds a ++ conds b
  end.
(** the members of a segment: the users in the array the code returns *)
Definition member (res : list (option Z)) (u : Z) : Prop := In (Some u) res.
