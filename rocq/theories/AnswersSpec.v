(** What an answer should show, without the code's way of getting there. *)
From Coq Require Import List ZArith String.
From Verif Require Import Answers FunnelRatio.
Import ListNotations.
Local Open Scope Z_scope.

(** [d] thousandths is the number of thousandths nearest to [m] units of 10^-16; half-way
    between two, the even one. *)
Definition nearest (m d : Z) : Prop :=
  2 * Z.abs (m - d * 10 ^ 13) <= 10 ^ 13 /\ (2 * Z.abs (m - d * 10 ^ 13) = 10 ^ 13 -> Z.even d = true).

(** A cell and what is shown for it: texts, truth values and times as they are, nothing for
    nothing; numbers to the thousandth, a missing one as 0. *)
Definition same_or_null {A} (f : A -> JV) (x : option A) (j : JV) : Prop :=
  match x with Some v => j = f v | None => j = JNull end.
Definition number {A} (R : A -> Z -> Prop) (x : option A) (j : JV) : Prop :=
  exists d, j = JNum d /\ match x with Some v => R v d | None => d = 0 end.
Definition shows (d : Data) (out : list JV) : Prop :=
  match d with
  | DInt l => Forall2 (number (fun z t => t = 1000 * z)) l out
  | DDec l => Forall2 (number nearest) l out
  | DBool l => Forall2 (same_or_null JBool) l out
  | DText l => Forall2 (same_or_null JText) l out
  | DTime l => Forall2 (same_or_null (fun t => JNum (1000 * t))) l out
  | DOther _ => False
  end.
(** Decimals that can be shown at all: below 2^96 units, about 7.9 million millions. *)
Definition showable (d : Data) : Prop :=
  match d with
  | DDec l => Forall (fun x => match x with Some m => Z.abs m < 2 ^ 96 | None => True end) l
  | DOther _ => False
  | _ => True
  end.

(** A step of a row of a funnel and its figures in the answer. *)
Definition step_shown (groups : list string) (ts : Z) (s : StepLine) (x : StepData) : Prop :=
  sd_groups x = groups /\ sd_ts x = ts /\
  sd_total x = l_total s /\ sd_dropped x = l_dropped s /\ sd_ttc x = l_ttc s /\ sd_ttcs x = l_ttcs s /\
  nearest (l_ratio s) (sd_ratio x) /\ nearest (l_attc s) (sd_attc x) /\ nearest (l_attcs s) (sd_attcs x) /\
  nearest (l_dratio s) (sd_dratio x).
Definition step_showable (s : StepLine) : Prop :=
  Z.abs (l_ratio s) < 2 ^ 96 /\ Z.abs (l_attc s) < 2 ^ 96 /\ Z.abs (l_attcs s) < 2 ^ 96 /\ Z.abs (l_dratio s) < 2 ^ 96.
Definition group_showable (v : BV) : Prop := match v with BDec (Some m) => Z.abs m < 2 ^ 96 | _ => True end.
