(** The ingester: what [track] and [identify] do to the metadata and to the tables.
    Files: src/ingester/src/executor.rs, lib.rs, destinations/local/{track,identify}.rs,
    transformers/.  The calls of one kind are serialized by a mutex
    (sources/http/mod.rs); a call is modelled as one step. *)
From Coq Require Import List NArith ZArith String Ascii Bool.
From Verif Require Import Kv KvKeys Md.
Import ListNotations.
Local Open Scope string_scope.

(** lib.rs 84-90.  A number is rust_decimal's pair of a mantissa and a scale: mantissa *
    10^-scale; a date is its milliseconds since the epoch (chrono keeps nanoseconds, which
    no modelled function looks at). *)
Inductive PropValue := PVDate (ms : Z) | PVString (v : string) | PVNumber (mantissa : Z) (scale : N) | PVBool (b : bool).
(** storage/src/lib.rs [Value], the variants written by the ingester. *)
Inductive SVal := SInt (t : BType) (z : Z) | SDec (z : Z) | SStr (v : string) | SBool (b : bool) | STime (z : Z) | SNull (t : BType).
Definition sval_type (v : SVal) : BType :=
  match v with
  | SInt t _ | SNull t => t | SDec _ => TDecimal | SStr _ => TString | SBool _ => TBoolean | STime _ => TTimestamp
  end.
(** [NamedValue] together with the type of the column it is meant for. *)
Record Named := mkNamed { nv_col : string; nv_type : BType; nv_val : SVal }.
Notation Row := (list (string * SVal)).
(** The value of a column in a row: storage/src/db.rs 741-759 takes the first value given
    for a column; the key columns are the first two values given (735-738). *)
Fixpoint col (c : string) (r : Row) : option SVal :=
  match r with
  | [] => None
  | (c', v) :: r' => if String.eqb c c' then Some v else col c r'
  end.

(** The state: metadata, the rows of the table of events and the rows of the tables of
    groups (with the group's number), oldest first. *)
Record St := mkSt { st_md : Store; st_events : list Row; st_groups : list (N * Row) }.
Definition M (A : Type) := St -> Res A * St.
Definition ret {A} (x : A) : M A := fun s => (Ok x, s).
Definition fail {A} (e : MdErr) : M A := fun s => (Err e, s).
(** The operator [?]: what was written before an error stays. *)
Definition bind {A B} (m : M A) (f : A -> M B) : M B :=
  fun s => match m s with (Ok x, s') => f x s' | (Err e, s') => (Err e, s') end.
Notation "x <- m ;; k" := (bind m (fun x => k)) (at level 61, m at next level, right associativity).
Definition on_md {A} (f : Store -> Res A * Store) : M A :=
  fun s => let (r, m) := f (st_md s) in (r, mkSt m (st_events s) (st_groups s)).
Definition look {A} (f : Store -> Res A) : M A := fun s => (f (st_md s), s).
Fixpoint each {A B} (f : A -> M B) (l : list A) : M (list B) :=
  match l with
  | [] => ret []
  | x :: r => y <- f x ;; ys <- each f r ;; ret (y :: ys)
  end.

(** common/src/lib.rs 20-22, common/src/types.rs *)
Definition group_col (g : N) : string := "group_" ++ dec g.
Definition GROUP_USER_ID : N := 0.
Definition COLUMN_PROJECT_ID : string := "project_id".
Definition COLUMN_CREATED_AT : string := "created_at".
Definition COLUMN_EVENT_ID : string := "event_id".
Definition COLUMN_IP : string := "ip".
Definition GROUP_COLUMN_ID : string := "id".
Definition GROUP_COLUMN_VERSION : string := "version".
Definition EVENT_SESSION_BEGIN : string := "Session Begin".
Definition DECIMAL_SCALE : N := 16.

(** sources/http: the request; [tr_agent] stands for what the user-agent and geo
    transformers find: property names and their string values; [tr_utm] for the campaign
    (property names and strings). *)
Record Track := mkTrack {
  tr_token : string; tr_user : option string; tr_anon : option string; tr_time : Z (* ms *);
  tr_event : string; tr_props : option (list (string * PropValue)); tr_groups : option (list (string * string));
  tr_agent : list (string * string); tr_utm : list (string * string); tr_ip : string }.
Record Identify := mkIdentify {
  id_token : string; id_time : Z; id_group : string; id_id : string; id_props : option (list (string * PropValue)) }.

Section Ingest.
Variable snake : string -> string.
(** [Property::is_dictionary]; the flag is set when the property is created and no
    reachable call changes it.  The dictionary type of all created properties is Int64. *)
Variable isdict : Property -> bool.
(** metadata/src/groups.rs [Value]: the group's values are kept in the metadata as opaque
    numbers ([Md.GroupValues]). *)
Variables (enc : SVal -> N) (dcv : N -> SVal).

(** executor.rs 46-51 *)
Definition data_type (v : PropValue) : PType :=
  PBase match v with PVDate _ => TInt64 | PVString _ => TString | PVNumber _ _ => TDecimal | PVBool _ => TBoolean end.
(** executor.rs 38-81 *)
Definition resolve_property (p : N) (k : PropKind) (x : string * PropValue) : M (Property * PropValue) :=
  pr <- on_md (prop_get_or_create snake p k (fst x) None (data_type (snd x)) false) ;;
  ret (pr, snd x).
(** executor.rs 83-95; the order of a hash map is the order of the list. *)
Definition resolve_properties (p : N) (k : PropKind) (l : list (string * PropValue)) : M (list (Property * PropValue)) :=
  each (resolve_property p k) l.

(** rust_decimal [to_i8] ... [to_i64]: the integer part, if it fits. *)
Definition int_bits (t : BType) : option Z :=
  match t with TInt8 => Some 7%Z | TInt16 => Some 15%Z | TInt32 => Some 31%Z | TInt64 => Some 63%Z | _ => None end.
Definition to_int (bits : Z) (m : Z) (s : N) : option Z :=
  let q := Z.quot m (10 ^ Z.of_N s) in
  if (Z.leb (- 2 ^ bits) q && Z.ltb q (2 ^ bits))%bool then Some q else None.

(** lib.rs 92-140; [IngesterError::Internal] is shown as [BadRequest]: only the fact that
    the call fails matters. *)
Definition property_to_value (p : N) (tbl : string) (x : Property * PropValue) : M SVal :=
  let (pr, v) := x in
  if isdict pr then
    match v with
    | PVString t => id <- on_md (dict_get_or_create p tbl (column_name snake pr) t) ;; ret (SInt TInt64 (Z.of_N id))
    | _ => fail BadRequest
    end
  else
    match pp_type pr, v with
    | PBase TString, PVString t => ret (SStr t)
    | PBase TDecimal, PVNumber m _ => ret (SDec m)
    | PBase TBoolean, PVBool b => ret (SBool b)
    | PBase TTimestamp, PVDate ms => ret (SInt TInt64 (ms / 1000))
    | PBase t, PVNumber m s =>
      match int_bits t with
      | Some bits => match to_int bits m s with Some z => ret (SInt t z) | None => fail Panicked end
      | None => fail BadRequest
      end
    | _, _ => fail BadRequest
    end.
(** The type of the column of a property (metadata/src/properties.rs 285-312): of a
    dictionary property, the type of the dictionary's numbers. *)
Definition column_type (pr : Property) : BType :=
  if isdict pr then TInt64 else match pp_type pr with PBase t | PList t => t end.

Definition btype_eqb (a b : BType) : bool :=
  match a, b with
  | TString, TString | TInt8, TInt8 | TInt16, TInt16 | TInt32, TInt32 | TInt64, TInt64
  | TDecimal, TDecimal | TBoolean, TBoolean | TTimestamp, TTimestamp => true
  | _, _ => false
  end.
(** storage/src/db.rs 714-733: the types of the values are checked against the columns.
    That the columns exist is taken for granted (see C40 for when they do not), and so is
    that writing to the log succeeds. *)
Definition types_ok (vs : list Named) : bool := forallb (fun n => btype_eqb (sval_type (nv_val n)) (nv_type n)) vs.
Definition row_of (vs : list Named) : Row := map (fun n => (nv_col n, nv_val n)) vs.
Definition insert_event (vs : list Named) : M unit :=
  fun s => if types_ok vs then (Ok tt, mkSt (st_md s) (st_events s ++ [row_of vs])%list (st_groups s))
           else (Err BadRequest, s).
Definition insert_group (g : N) (vs : list Named) : M unit :=
  fun s => if types_ok vs then (Ok tt, mkSt (st_md s) (st_events s) (st_groups s ++ [(g, row_of vs)])%list)
           else (Err BadRequest, s).
Definition int64 (c : string) (n : N) : Named := mkNamed c TInt64 (SInt TInt64 (Z.of_N n)).

(** executor.rs 135-185: the number of the user, and the user's values if the call names a
    user only. *)
Definition who (p : N) (r : Track) : M (N * option GroupValues) :=
  match tr_user r, tr_anon r with
  | Some u, None =>
    g <- on_md (group_get_or_create p GROUP_USER_ID u []) ;;
    _ <- on_md (fun m => (Ok tt, dict_create_key p TABLE_EVENTS (group_col GROUP_USER_ID) (gv_id g) u m)) ;;
    ret (gv_id g, Some g)
  | None, Some a =>
    i <- on_md (anon_get_or_create p GROUP_USER_ID a) ;;
    _ <- on_md (fun m => (Ok tt, dict_create_key p TABLE_EVENTS (group_col GROUP_USER_ID) i a m)) ;;
    ret (i, None)
  | Some aid, Some uid =>
    g <- on_md (merge_with_anonymous p GROUP_USER_ID aid uid []) ;;
    ret (gv_id g, None)
  | None, None => fail BadRequest
  end.

(** executor.rs 196-216 *)
Definition track_group (p : N) (x : string * string) : M (N * GroupValues) :=
  g <- on_md (group_type_get_or_create p (fst x)) ;;
  v <- on_md (group_get_or_create p (gr_id g) (snd x) []) ;;
  _ <- on_md (fun m => (Ok tt, dict_create_key p TABLE_EVENTS (group_col (gr_id g)) (gv_id v) (snd x) m)) ;;
  ret (gr_id g, v).
(** executor.rs 189-218 *)
Definition track_groups (p : N) (user : option GroupValues) (r : Track) : M (option (list (N * GroupValues))) :=
  match tr_groups r with
  | None => ret None
  | Some l =>
    gs <- each (track_group p) l ;;
    ret (Some (match user with Some g => (0%N, g) :: gs | None => gs end))
  end.

(** destinations/local/track.rs 52-77; without groups in the call the list is empty. *)
Definition group_values (gs : option (list (N * GroupValues))) : list Named :=
  let gs := match gs with Some l => l | None => [] end in
  (map (fun x => int64 (group_col (fst x)) (gv_id (snd x))) gs ++
   map (fun g => mkNamed (group_col g) TInt64 (SNull TInt64))
      (filter (fun g => negb (existsb (fun x => N.eqb (fst x) g) gs)) [1; 2; 3; 4]%N))%list.
(** 85-89 *)
Definition named_property (p : N) (x : Property * PropValue) : M Named :=
  v <- property_to_value p TABLE_EVENTS x ;; ret (mkNamed (column_name snake (fst x)) (column_type (fst x)) v).
(** 91-117 (and destinations/local/identify.rs 56-79): the stored values of a group. *)
Definition named_stored (p g : N) (x : N * N) : M Named :=
  pr <- look (prop_by_id p (KGroup g) (fst x)) ;;
  ret (mkNamed (column_name snake pr) (column_type pr) (dcv (snd x))).
(** 119-208: the properties of the campaign. *)
Definition named_by_name (p : N) (x : string * string) : M (Property * PropValue) :=
  pr <- look (prop_by_name p KEvent (fst x)) ;; ret (pr, PVString (snd x)).

(** destinations/local/track.rs 43-300.  [now] is the wall clock. *)
Definition send (now : Z) (p user : N) (ev : N) (gs : option (list (N * GroupValues)))
  (props : list (Property * PropValue)) (r : Track) : M unit :=
  new <- on_md (session_set_time p user now) ;;
  pv <- each (named_property p) props ;;
  gv <- each (fun x => each (named_stored p (fst x)) (gv_values (snd x))) (match gs with Some l => l | None => [] end) ;;
  utm <- each (fun x => y <- named_by_name p x ;; named_property p y) (tr_utm r) ;;
  let values := (pv ++ List.concat gv)%list in
  let keys := ([int64 COLUMN_PROJECT_ID p; int64 (group_col GROUP_USER_ID) user] ++ group_values gs)%list in
  _ <- (if (new : bool) then
          n <- on_md (event_next_record p) ;;
          e <- look (event_by_name p EVENT_SESSION_BEGIN) ;;
          insert_event (keys ++ utm ++
            [mkNamed COLUMN_CREATED_AT TTimestamp (STime (tr_time r / 1000));
             int64 COLUMN_EVENT_ID n; int64 COLUMN_EVENT (ev_id e); mkNamed COLUMN_IP TString (SStr (tr_ip r))] ++ values)%list
        else ret tt) ;;
  n <- on_md (event_next_record p) ;;
  insert_event (keys ++ [mkNamed COLUMN_CREATED_AT TTimestamp (STime (tr_time r));
                         int64 COLUMN_EVENT_ID n; int64 COLUMN_EVENT ev] ++ values)%list.

(** executor.rs 120-263 *)
Definition track (now : Z) (r : Track) : M unit :=
  pj <- look (project_by_token (tr_token r)) ;;
  let p := pr_id pj in
  props <- match tr_props r with
           | None => ret None
           | Some l => x <- resolve_properties p KEvent l ;; ret (Some x)
           end ;;
  w <- who p r ;;
  gs <- track_groups p (snd w) r ;;
  let resolved := match props with Some l => l | None => [] end in
  let ids := map (fun x => pp_id (fst x)) resolved in
  e <- on_md (event_get_or_create p (tr_event r) None ids) ;;
  _ <- match props with Some _ => on_md (event_attach p (ev_id e) ids) | None => ret tt end ;;
  extra <- each (named_by_name p) (tr_agent r) ;;
  _ <- send now p (fst w) (ev_id e) gs (resolved ++ extra)%list r ;;
  on_md (project_count_event p).

(** executor.rs 282-383 and destinations/local/identify.rs 28-87.  The dictionary of the
    values is the one of [group_col req.group_id], where [req.group_id] is still the 0 of
    sources/http/mod.rs (executor.rs 310, set only at 356). *)
Definition identify (r : Identify) : M unit :=
  pj <- look (project_by_token (id_token r)) ;;
  let p := pr_id pj in
  g <- on_md (group_type_get_or_create p (id_group r)) ;;
  props <- match id_props r with
           | None => ret []
           | Some l => resolve_properties p (KGroup (gr_id g)) l
           end ;;
  vals <- each (fun x => v <- property_to_value p (group_col 0) x ;; ret (pp_id (fst x), enc v)) props ;;
  gv <- on_md (group_create_or_update p (gr_id g) (id_id r) vals) ;;
  _ <- on_md (fun m => (Ok tt, dict_create_key p (group_col (gr_id g)) GROUP_COLUMN_ID (gv_id gv) (id_id r) m)) ;;
  v <- on_md (group_next_record p (gr_id g)) ;;
  named <- each (named_stored p (gr_id g)) (gv_values gv) ;;
  insert_group (gr_id g)
    ([int64 COLUMN_PROJECT_ID p; int64 GROUP_COLUMN_ID (gv_id gv); int64 GROUP_COLUMN_VERSION v;
      mkNamed COLUMN_CREATED_AT TTimestamp (STime (id_time r))] ++ named)%list.

(** Histories of calls; each track call carries the wall clock. *)
Inductive Call := CTrack (now : Z) (r : Track) | CIdentify (r : Identify).
Definition call (c : Call) (s : St) : St :=
  match c with CTrack now r => snd (track now r s) | CIdentify r => snd (identify r s) end.
Definition calls (cs : list Call) (s : St) : St := fold_left (fun s c => call c s) cs s.
End Ingest.
