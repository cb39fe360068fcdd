(** What record searches, lookups and value lists are meant to answer. *)
From Coq Require Import List ZArith String Permutation.
From Verif Require Import Filter Records PropsFilter.
Import ListNotations.
Local Open Scope string_scope.

(** the row has the number in the column *)
Definition has (r : Row) (c : string) (z : Z) : Prop := r c = Some (VInt z).
Definition within_ (r : Row) (c : string) (from to : Z) : Prop := exists z, has r c z /\ (from <= z <= to)%Z.

Section Meaning.
Variables like regex : string -> string -> bool.
Variable by_name : string -> option Z.
Variable custom : Z -> option (list Member).

(** the events a search asks for: of the project, in the time range, one of the given events
    with all its filters met, and all filters of the request met *)
Definition wanted (p : Z) (q : SearchReq) (r : Row) : Prop :=
  has r "project_id" p /\ within_ r "created_at" (sr_from q) (sr_to q) /\
  match sr_events q with
  | None => True
  | Some ms => exists m, In m ms /\ is_event like regex by_name custom r (mb_event m) /\
      forall fs f, mb_filters m = Some fs -> In f fs -> meets like regex f r
  end /\
  (forall fs f, sr_filters q = Some fs -> In f fs -> meets like regex f r).

(** the groups a search asks for *)
Definition wanted_group (p : Z) (q : GroupReq) (r : Row) : Prop :=
  has r "project_id" p /\
  (forall from to, gr_time q = Some (from, to) -> within_ r "created_at" from to) /\
  (forall fs f, gr_filters q = Some fs -> In f fs -> meets like regex f r).
End Meaning.

(** [sel] are all rows of [rows] with the property, in order *)
Inductive Selected (P : Row -> Prop) : list Row -> list Row -> Prop :=
| sel_nil : Selected P [] []
| sel_in r rows sel : P r -> Selected P rows sel -> Selected P (r :: rows) (r :: sel)
| sel_out r rows sel : ~ P r -> Selected P rows sel -> Selected P (r :: rows) sel.

(** [top]: of the rows [l] the [k] with the largest number in the column, largest first; all of
    them if there are at most [k] *)
Definition Top (k : nat) (c : string) (l top : list Row) : Prop :=
  exists rest, Permutation l (top ++ rest) /\
    (List.length top <= k)%nat /\ (rest = [] \/ List.length top = k) /\
    (forall i j a b x y, nth_error top i = Some a -> nth_error top j = Some b -> (i < j)%nat ->
       has a c x -> has b c y -> (y <= x)%Z) /\
    (forall a b x y, In a top -> In b rest -> has a c x -> has b c y -> (y <= x)%Z).

(** the columns of an answer: each property's own values under its name *)
Definition answer (ps : list PDef) (rows : list Row) : list Column :=
  map (fun d => mkColumn (d_ref d) (d_name d) (map (shown (d_prop d)) rows)) ps.
