(** Searches for events and groups and lists of property values as asked for by callers of the
    API: the checks, the conversion to the query that runs, and the moment it is asked for
    (src/platform/src/event_records.rs 56-87, group_records.rs 62-93, properties.rs 136-156).
    What the queries answer is in [Records.v].

    Permissions are checked before ([Access.v]); filters are adjusted to the types of
    their properties after the conversion ([Records.fix_search_request]), which may refuse but
    does not panic. *)
From Coq Require Import List NArith ZArith Bool.
From Verif Require Import Calendar Bytes Value Memtable SavedQuery Requests.
Import ListNotations.
Local Open Scope N_scope.

(** ** Requests *)
(** event_records.rs 135-140 *)
Record ASearchEvent := mkASearchEvent { sev_event : AEvent; sev_filters : option (list AFilter) }.
(** event_records.rs 142-149 *)
Record AEventSearch := mkAEventSearch
  { aes_time : QueryTime; aes_events : option (list ASearchEvent); aes_filters : option AGrouped; aes_props : option (list PropertyRef) }.
(** group_records.rs 213-221; the sorting names a property and a direction (lib.rs 449-468),
    [true]: ascending *)
Record AGroupSearch := mkAGroupSearch
  { ags_time : option QueryTime; ags_group : N; ags_filters : option AGrouped; ags_props : option (list PropertyRef);
    ags_sort : option (PropertyRef * bool) }.
(** properties.rs 341-356 *)
Record AValues := mkAValues { avs_prop : PropertyRef; avs_event : option AEvent; avs_filter : option (PropOp * option (list JVal)) }.

(** ** Queries *)
(** query/src/event_records.rs 618-635 *)
Record QEventSearch := mkQEventSearch
  { qes_time : QueryTime; qes_events : option (list (EventRef * option (list PropFilter))); qes_filters : option (list PropFilter);
    qes_props : option (list PropertyRef) }.
(** query/src/group_records.rs 534-541 *)
Record QGroupSearch := mkQGroupSearch
  { qgs_time : option QueryTime; qgs_group : N; qgs_filters : option (list PropFilter); qgs_props : option (list PropertyRef);
    qgs_sort : option (PropertyRef * bool) }.
(** query/src/properties.rs 198-209 *)
Record QValues := mkQValues { qvs_prop : PropertyRef; qvs_event : option EventRef; qvs_filter : option (PropOp * option (list Scalar)) }.

(** ** Checks *)
(** event_records.rs 241-260, group_records.rs 156-175: the test for an empty list of groups is
    made inside the loop over the groups *)
Definition check_groups (m : Names) (o : option AGrouped) : Verdict :=
  match o with
  | None => Accepted
  | Some g => allv (fun x => andv (refuse_if match agd_groups g with [] => true | _ => false end)
                            (andv (refuse_if match ag_filters x with [] => true | _ => false end)
                                  (allv (check_filter m) (ag_filters x)))) (agd_groups g)
  end.
(** event_records.rs 203-291 *)
Definition check_event_search (m : Names) (r : AEventSearch) : Verdict :=
  andv (check_time (aes_time r))
 (andv match aes_events r with
       | None => Accepted
       | Some es => andv (refuse_if match es with [] => true | _ => false end)
                         (allv (fun e => andv (check_event m (sev_event e)) (check_filters m (sev_filters e))) es)
       end
 (andv (check_groups m (aes_filters r))
       match aes_props r with None => Accepted | Some ps => allv (check_property m) ps end)).
(** group_records.rs 143-211: the group and the sorting are not looked at *)
Definition check_group_search (m : Names) (r : AGroupSearch) : Verdict :=
  andv match ags_time r with Some t => check_time t | None => Accepted end
 (andv (check_groups m (ags_filters r))
       match ags_props r with
       | None => Accepted
       | Some ps => andv (refuse_if match ps with [] => true | _ => false end) (allv (check_property m) ps)
       end).
(** properties.rs 391-443 *)
Definition check_values (m : Names) (r : AValues) : Verdict :=
  andv (check_property m (avs_prop r))
 (andv match avs_event r with Some e => check_event m e | None => Accepted end
       match avs_filter r with Some (op, v) => check_filter m (AFProperty (avs_prop r) op v) | None => Accepted end).

(** ** Conversions; [None]: panic *)
(** event_records.rs 177-193, group_records.rs 116-132: of the groups only the first is used,
    and [v.groups[0]] panics when there is none *)
Definition groups_in (o : option AGrouped) : option (option (list PropFilter)) :=
  match o with
  | None => Some None
  | Some g => match agd_groups g with
              | [] => None
              | g0 :: _ => some_list filter_in (Some (ag_filters g0))
              end
  end.
(** event_records.rs 151-164 *)
Definition search_event_in (e : ASearchEvent) : option (EventRef * option (list PropFilter)) :=
  do fs <- any_list filter_in (sev_filters e); Some (event_in (sev_event e), fs).
(** event_records.rs 166-201 *)
Definition event_search_in (r : AEventSearch) : option QEventSearch :=
  do es <- any_list search_event_in (aes_events r);
  do fs <- groups_in (aes_filters r);
  Some (mkQEventSearch (time_in (aes_time r)) es fs (option_map (map prop_in) (aes_props r))).
(** group_records.rs 110-141: no sorting is passed on *)
Definition group_search_in (r : AGroupSearch) : option QGroupSearch :=
  do fs <- groups_in (ags_filters r);
  Some (mkQGroupSearch (option_map time_in (ags_time r)) (ags_group r) fs (option_map (map prop_in) (ags_props r)) None).
(** properties.rs 358-379 *)
Definition values_in (r : AValues) : option QValues :=
  do f <- opt_map (fun f => do v <- any_list json_value_to_scalar (snd f); Some (op_in (fst f), v)) (avs_filter r);
  Some (mkQValues (prop_in (avs_prop r)) (option_map event_in (avs_event r)) f).

(** ** The moment a query is asked for *)
(** event_records.rs 70-73, group_records.rs 76-79, event_segmentation.rs 62-65,
    funnel.rs 60-63: the clock, or the [timestamp] of the request in seconds (an i64) times
    1000.  A build with overflow checks ([checked]) panics when the product does not fit 64
    bits, a release build goes on with its low 64 bits.  [from_timestamp_millis] knows the years
    -262143 to 262142 (chrono's [NaiveDate::MIN] and [MAX]); its answer is unwrapped. *)
Definition DAY_MS : Z := 86400000.
Definition in_chrono (ms : Z) : bool := (jan1 (-262143) * DAY_MS <=? ms)%Z && (ms <? jan1 262143 * DAY_MS)%Z.
Definition asked_at (checked : bool) (clock : Z) (timestamp : option Z) : option Z :=
  match timestamp with
  | None => Some clock
  | Some s =>
    let ms := (s * 1000)%Z in
    if negb (as_i64 ms =? ms)%Z && checked then None
    else if in_chrono (as_i64 ms) then Some (as_i64 ms) else None
  end.

(** ** A call: checks, conversion, moment *)
Inductive Asked (Q : Type) := Runs (q : Q) | NotRun | Stops.
Arguments Runs {Q}. Arguments NotRun {Q}. Arguments Stops {Q}.
Definition ask {Q} (v : Verdict) (conversion : option Q) (now : option Z) : Asked (Q * Z) :=
  match v with
  | Refused => NotRun
  | Crashed => Stops
  | Accepted => match conversion with
                | None => Stops
                | Some q => match now with Some t => Runs (q, t) | None => Stops end
                end
  end.
(** event_records.rs 68-73 *)
Definition ask_events (checked : bool) (m : Names) (clock : Z) (r : AEventSearch) (timestamp : option Z) : Asked (QEventSearch * Z) :=
  ask (check_event_search m r) (event_search_in r) (asked_at checked clock timestamp).
(** group_records.rs 74-79 *)
Definition ask_groups (checked : bool) (m : Names) (clock : Z) (r : AGroupSearch) (timestamp : option Z) : Asked (QGroupSearch * Z) :=
  ask (check_group_search m r) (group_search_in r) (asked_at checked clock timestamp).
(** properties.rs 148-153; the time is the default one, the epoch (query/src/context.rs 18-23),
    and is not used *)
Definition ask_values (m : Names) (r : AValues) : Asked (QValues * Z) :=
  ask (check_values m r) (values_in r) (Some 0%Z).
