(** How the statements about report tables speak about tables. *)
From Coq Require Import List ZArith String Permutation Sorted.
From Verif Require Import Shape.
Import ListNotations.
Local Notation length := List.length.

(** Row [i] of the table shows [v] (a value or null) in the column called [name]. *)
Definition shows (b : Batch) (name : string) (i : nat) (v : option Cell) : Prop :=
  exists f a, In (f, a) (combine (b_fields b) (b_arrs b)) /\ f_name f = name /\ nth_error a i = Some v.
(** A table with [n] rows: at least one column, distinct column names, a cell in every row
    of every column, nulls only where the column allows them. *)
Definition table (b : Batch) (n : nat) : Prop :=
  b_arrs b <> [] /\ length (b_fields b) = length (b_arrs b) /\
  Forall (fun a => length a = n) (b_arrs b) /\
  NoDup (map f_name (b_fields b)) /\
  (forall f a, In (f, a) (combine (b_fields b) (b_arrs b)) -> f_null f = false -> ~ In None a).
(** The decimal of 28 digits, 16 of them after the point, that stands for a number. *)
Inductive decimal_of : option Cell -> Z -> Prop :=
| dec_int : forall z, (Z.abs z < 10 ^ 12)%Z -> decimal_of (Some (CInt z)) (z * 10 ^ 16)
| dec_dec : forall d, decimal_of (Some (CDec d)) d.
(** Rows [i] of [b] and [i'] of [b'] agree in all columns except the two named. *)
Definition same_group (nc vc : string) (b : Batch) (i : nat) (b' : Batch) (i' : nat) : Prop :=
  forall c v, c <> nc -> c <> vc -> shows b c i v -> shows b' c i' v.
(** The values of a row in all columns except the two named, in the order of the columns. *)
Definition group_values (nc vc : string) (b : Batch) (i : nat) : list (option Cell) :=
  map (fun fa : Field * Arr => nth i (snd fa) None)
    (filter (fun fa : Field * Arr => negb (String.eqb (f_name (fst fa)) nc || String.eqb (f_name (fst fa)) vc))
       (combine (b_fields b) (b_arrs b))).
(** The value of a row in a column, null if there is no such column. *)
Definition value_at (b : Batch) (c : string) (i : nat) : option Cell :=
  match find (fun fa : Field * Arr => String.eqb (f_name (fst fa)) c) (combine (b_fields b) (b_arrs b)) with
  | Some fa => nth i (snd fa) None
  | None => None
  end.
(** Group and time of every row of the tables [bs], in order. *)
Definition row_keys (nc vc : string) (bs : list Batch) : list (list (option Cell) * option Cell) :=
  flat_map (fun b => map (fun i => (group_values nc vc b i, value_at b nc i)) (seq 0 (num_rows b))) bs.
(** [out] consists of the rows [keep] of [b], in this order. *)
Definition taken (keep : list nat) (b out : Batch) : Prop :=
  table out (length keep) /\
  forall p i, nth_error keep p = Some i -> forall c v, shows out c p v <-> shows b c i v.
(** What a sort in descending order returns: the positions, largest value first. *)
Definition descending (order : list Z -> list nat) : Prop :=
  forall l, Permutation (order l) (seq 0 (length l)) /\
            StronglySorted (fun i j => (nth j l 0 <= nth i l 0)%Z) (order l).

(** The number in a decimal cell; an empty cell counts as zero. *)
Definition amount (v : option Cell) : Z := match v with Some (CDec d) => d | _ => 0%Z end.
(** The average of the columns [cols] in row [i], in units of 10^-16, rounded towards zero. *)
Definition average (b : Batch) (cols : list string) (i : nat) : Z :=
  Z.quot (fold_right Z.add 0%Z (map (fun c => amount (value_at b c i)) cols)) (Z.of_nat (length cols)).
(** [out] lists the rows of [b] in their order, labelled [name] in the column [label];
    columns that [b] does not have are null. *)
Definition labelled (label name : string) (columns : list string) (b out : Batch) : Prop :=
  map f_name (b_fields out) = label :: columns /\ table out (num_rows b) /\
  forall i, i < num_rows b ->
    shows out label i (Some (CText name)) /\
    forall c, In c columns ->
      forall v, shows out c i v <->
        (In c (map f_name (b_fields b)) /\ shows b c i v) \/ (~ In c (map f_name (b_fields b)) /\ v = None).
(** The text of a value in the column of times; null reads as the empty text. *)
Definition text_of (show : Cell -> string) (v : option Cell) : string :=
  match v with Some c => show c | None => ""%string end.
(** How many of the rows [is] have the value [v] in the column [c]. *)
Definition times_in (b : Batch) (c : string) (is : list nat) (v : option Cell) : nat :=
  count_occ ocell_dec (map (value_at b c) is) v.
