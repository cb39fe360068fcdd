(** How the statements about the table of an event report speak: the rows the events bring and
    the titles a reader expects. *)
From Coq Require Import List ZArith NArith String.
From Verif Require Import Kv Shape ShapeSpec.
Import ListNotations.
Local Open Scope string_scope.
Local Notation length := List.length.
Local Notation Input := (string * (list Field * list Batch))%type.

(** The tables of the events: distinct columns, among them the segment and the metric, and
    batches with these columns. *)
Definition event_tables (inputs : list Input) : Prop :=
  forall name fs bs, In (name, (fs, bs)) inputs ->
    NoDup (map f_name fs) /\ In "segment" (map f_name fs) /\ In "agg_name" (map f_name fs) /\
    forall b, In b bs -> b_fields b = fs /\ table b (num_rows b).
(** A column that several events have is of one kind. *)
Definition same_fields (inputs : list Input) : Prop :=
  forall n fs bs n' fs' bs' f f', In (n, (fs, bs)) inputs -> In (n', (fs', bs')) inputs ->
    In f fs -> In f' fs' -> f_name f = f_name f' -> f = f'.
Definition some_event_has (inputs : list Input) (c : string) : Prop :=
  exists name fs bs, In (name, (fs, bs)) inputs /\ In c (map f_name fs).
(** A column that some event with rows lacks may hold nulls. *)
Definition lacking_may_be_null (inputs : list Input) : Prop :=
  forall name fs bs b n' fs' bs' f, In (name, (fs, bs)) inputs -> In b bs -> 0 < num_rows b ->
    In (n', (fs', bs')) inputs -> In f fs' -> ~ In (f_name f) (map f_name fs) -> f_null f = true.
(** All rows of all events in order: the name of the event, the table, the place in it. *)
Definition source_rows (inputs : list Input) : list (string * Batch * nat) :=
  flat_map (fun i : Input => flat_map (fun b => map (fun k => (fst i, b, k)) (seq 0 (num_rows b))) (snd (snd i))) inputs.

(** The properties the report is broken down by: each column once, where it is named first. *)
Fixpoint once (seen : list string) (props : list (string * string)) : list (string * string) :=
  match props with
  | [] => []
  | p :: tl => if in_dec string_dec (fst p) seen then once seen tl else p :: once (fst p :: seen) tl
  end.
Definition broken_down (props : list (string * string)) : list (string * string) := once ["event"; "segment"] props.
(** The title of the [k]-th: its own if no earlier one has it, else with a number. *)
Definition title (ps : list (string * string)) (k : nat) : string :=
  let own := snd (nth k ps ("", "")) in
  match count_occ string_dec (map snd (firstn k ps)) own with
  | O => own
  | S n => own ++ " " ++ dec (N.of_nat (S (S n)))
  end.
(** Columns that come first, with their titles. *)
Definition headings (props : list (string * string)) : list (string * string) :=
  let ps := broken_down props in
  (("event", "Event") :: ("segment", "Segment") ::
   map (fun k => (fst (nth k ps ("", "")), title ps k)) (seq 0 (length ps)) ++ [("agg_name", "Formula")])%list.
