(** What callers may expect of the searches they ask for, in their own terms; the terms for
    events, filters, values and properties are those of [RequestsSpec.v]. *)
From Coq Require Import List NArith ZArith Bool.
From Verif Require Import Bytes Value Memtable SavedQuery Requests RequestsSpec SearchRequests.
Import ListNotations.
Local Open Scope N_scope.

(** ** Searches that are in order *)
Definition grouped_fits (m : Names) (o : option AGrouped) : Prop :=
  forall g, o = Some g -> Forall (fun x => ag_filters x <> [] /\ Forall (filter_fits m) (ag_filters x)) (agd_groups g).
Definition event_search_fits (m : Names) (r : AEventSearch) : Prop :=
  time_fits (aes_time r) /\ aes_events r <> Some []
  /\ Forall (fun e => event_exists m (sev_event e) /\ Forall (filter_fits m) (olist (sev_filters e))) (olist (aes_events r))
  /\ grouped_fits m (aes_filters r)
  /\ Forall (fun p => named_prop m p <> None) (olist (aes_props r)).
Definition group_search_fits (m : Names) (r : AGroupSearch) : Prop :=
  (forall t, ags_time r = Some t -> time_fits t)
  /\ grouped_fits m (ags_filters r)
  /\ ags_props r <> Some [] /\ Forall (fun p => named_prop m p <> None) (olist (ags_props r)).
Definition values_request_fits (m : Names) (r : AValues) : Prop :=
  named_prop m (avs_prop r) <> None
  /\ (forall e, avs_event r = Some e -> event_exists m e)
  /\ (forall op v, avs_filter r = Some (op, v) -> filter_fits m (AFProperty (avs_prop r) op v)).

(** ** The properties a search names *)
Definition filter_ref (f : AFilter) : PropertyRef := match f with AFProperty p _ _ => p end.
Definition grouped_refs (o : option AGrouped) : list PropertyRef :=
  match o with Some g => flat_map (fun x => map filter_ref (ag_filters x)) (agd_groups g) | None => [] end.
Definition event_search_refs (r : AEventSearch) : list PropertyRef :=
  (flat_map (fun e => map filter_ref (olist (sev_filters e))) (olist (aes_events r)) ++ grouped_refs (aes_filters r) ++ olist (aes_props r))%list.
Definition group_search_refs (r : AGroupSearch) : list PropertyRef := (grouped_refs (ags_filters r) ++ olist (ags_props r))%list.

(** ** The values a search compares with *)
Definition event_search_vals (r : AEventSearch) : list JVal :=
  (flat_map (fun e => flat_map filter_vals (olist (sev_filters e))) (olist (aes_events r)) ++ grouped_vals (aes_filters r))%list.
Definition values_vals (r : AValues) : list JVal := match avs_filter r with Some (_, v) => olist v | None => [] end.

(** ** The moment a query is asked for *)
Definition i64 (z : Z) : Prop := (- 2 ^ 63 <= z < 2 ^ 63)%Z.
(** -262143-01-01T00:00:00Z to 262142-12-31T23:59:59Z *)
Definition moment (s : Z) : Prop := (-8334601228800 <= s <= 8210266876799)%Z.
Definition moment_given (timestamp : option Z) : Prop := forall s, timestamp = Some s -> moment s.
(** in milliseconds *)
Definition meant (clock : Z) (timestamp : option Z) : Z := match timestamp with Some s => (1000 * s)%Z | None => clock end.

(** ** A search and the query made of it ask the same; of several groups of filters the first
    one is meant *)
Definition same_event_search (r : AEventSearch) (q : QEventSearch) : Prop :=
  qes_time q = aes_time r
  /\ (qes_events q = None <-> aes_events r = None)
  /\ Forall2 (fun e x => same_event (sev_event e) (fst x) /\ same_filters (olist (sev_filters e)) (snd x)) (olist (aes_events r)) (olist (qes_events q))
  /\ same_filters (group_filters (aes_filters r)) (qes_filters q)
  /\ qes_props q = aes_props r.
Definition same_group_search (r : AGroupSearch) (q : QGroupSearch) : Prop :=
  qgs_time q = ags_time r /\ qgs_group q = ags_group r
  /\ same_filters (group_filters (ags_filters r)) (qgs_filters q)
  /\ qgs_props q = ags_props r.
Definition same_values_request (r : AValues) (q : QValues) : Prop :=
  qvs_prop q = avs_prop r
  /\ match avs_event r, qvs_event q with Some e, Some x => same_event e x | None, None => True | _, _ => False end
  /\ match avs_filter r, qvs_filter q with
     | Some (op, v), Some (op', v') => op' = op /\ (v = None <-> v' = None) /\ Forall2 same_value (olist v) (olist v')
     | None, None => True
     | _, _ => False
     end.
