(** What the track and identify calls of the ingester answer: src/ingester/src/error.rs,
    sources/http/mod.rs 103-136, with the reason of each refusal.  The stores and what the calls do
    to them are those of [Ingest], which keeps only that a call fails; here every call says with
    which error it fails and which status the error becomes.

    Not modelled: the texts of messages; failures of the disk, of the transport and of the
    databases of addresses and user agents; that the body is text at all. *)
From Coq Require Import List NArith ZArith String Bool.
From Verif Require Import Kv Md Ingest IngestServer AuthStatus.
Import ListNotations.
Local Open Scope string_scope.

(** ** Errors *)
(** ingester/src/error.rs 13-29, without texts.  [IStopped] is not an error of the program: a
    panic closes the connection without an answer. *)
Inductive IngesterError :=
| IInternal | IBadRequest | IHyper | IMetadata (e : MetadataError) | IStore | IMaxmind | ISerde | IStopped.
(** 32-47; 0 stands for no answer. *)
Definition NO_CONTENT : N := 204.
Definition NO_ANSWER : N := 0.
Definition ingest_status (e : IngesterError) : N :=
  match e with
  | IInternal => INTERNAL | IHyper => INTERNAL
  | IMetadata e => match e with MAlreadyExists => CONFLICT | MNotFound => NOT_FOUND | MInternal => INTERNAL | _ => INTERNAL end
  | IMaxmind => INTERNAL | IBadRequest => BAD_REQUEST | IStore => INTERNAL | ISerde => BAD_REQUEST
  | IStopped => NO_ANSWER
  end.
(** the conversion of 20, 21 *)
Definition of_md (e : MdErr) : IngesterError :=
  match e with
  | AlreadyExists => IMetadata MAlreadyExists | NotFound => IMetadata MNotFound | BadRequest => IMetadata MBadRequest
  | Panicked => IStopped
  end.

(** ** Calls with their errors *)
Definition MI (A : Type) := St -> (A + IngesterError) * St.
Definition ireturn {A} (x : A) : MI A := fun s => (inl x, s).
Definition ifail {A} (e : IngesterError) : MI A := fun s => (inr e, s).
(** The operator [?]: what was written before an error stays. *)
Definition ibind {A B} (m : MI A) (f : A -> MI B) : MI B :=
  fun s => match m s with (inl x, s') => f x s' | (inr e, s') => (inr e, s') end.
Notation "x <~ m ;; k" := (ibind m (fun x => k)) (at level 61, m at next level, right associativity).
(** A call that fails only with errors of the metadata. *)
Definition md {A} (m : M A) : MI A := fun s => match m s with (Ok x, s') => (inl x, s') | (Err e, s') => (inr (of_md e), s') end.
Fixpoint ieach {A B} (f : A -> MI B) (l : list A) : MI (list B) :=
  match l with
  | [] => ireturn []
  | x :: r => y <~ f x ;; ys <~ ieach f r ;; ireturn (y :: ys)
  end.

Section Calls.
Variable snake : string -> string.
Variable isdict : Property -> bool.
Variables (enc : SVal -> N) (dcv : N -> SVal).

(** ingester/src/lib.rs 92-140 *)
Definition to_value (p : N) (tbl : string) (x : Property * PropValue) : MI SVal :=
  let (pr, v) := x in
  if isdict pr then
    match v with
    | PVString t => id <~ md (on_md (dict_get_or_create p tbl (column_name snake pr) t)) ;; ireturn (SInt TInt64 (Z.of_N id))
    | _ => ifail IInternal
    end
  else
    match pp_type pr, v with
    | PBase TString, PVString t => ireturn (SStr t)
    | PBase TDecimal, PVNumber m _ => ireturn (SDec m)
    | PBase TBoolean, PVBool b => ireturn (SBool b)
    | PBase TTimestamp, PVDate ms => ireturn (SInt TInt64 (ms / 1000))
    | PBase t, PVNumber m s =>
      match int_bits t with
      | Some bits => match to_int bits m s with Some z => ireturn (SInt t z) | None => ifail IStopped end
      | None => ifail IInternal
      end
    | _, _ => ifail IInternal
    end.
(** storage/src/db.rs 714-742: a value of the wrong type is an error of the store *)
Definition put_event (vs : list Named) : MI unit :=
  fun s => match insert_event vs s with (Ok x, s') => (inl x, s') | (Err _, s') => (inr IStore, s') end.
Definition put_group (g : N) (vs : list Named) : MI unit :=
  fun s => match insert_group g vs s with (Ok x, s') => (inl x, s') | (Err _, s') => (inr IStore, s') end.
(** executor.rs 135-185: a call without user is the only one refused as a bad request *)
Definition whose (p : N) (r : Track) : MI (N * option GroupValues) :=
  match tr_user r, tr_anon r with
  | None, None => ifail IBadRequest
  | _, _ => md (who p r)
  end.
(** destinations/local/track.rs 85-89 *)
Definition named_value (p : N) (x : Property * PropValue) : MI Named :=
  v <~ to_value p TABLE_EVENTS x ;; ireturn (mkNamed (column_name snake (fst x)) (column_type isdict (fst x)) v).
(** destinations/local/track.rs 43-300 *)
Definition send_event (now : Z) (p user : N) (ev : N) (gs : option (list (N * GroupValues)))
  (props : list (Property * PropValue)) (r : Track) : MI unit :=
  new <~ md (on_md (session_set_time p user now)) ;;
  pv <~ ieach (named_value p) props ;;
  gv <~ ieach (fun x => ieach (fun y => md (named_stored snake isdict dcv p (fst x) y)) (gv_values (snd x)))
          (match gs with Some l => l | None => [] end) ;;
  utm <~ ieach (fun x => y <~ md (named_by_name p x) ;; named_value p y) (tr_utm r) ;;
  let values := (pv ++ List.concat gv)%list in
  let keys := ([int64 COLUMN_PROJECT_ID p; int64 (group_col GROUP_USER_ID) user] ++ group_values gs)%list in
  _ <~ (if (new : bool) then
          n <~ md (on_md (event_next_record p)) ;;
          e <~ md (look (event_by_name p EVENT_SESSION_BEGIN)) ;;
          put_event (keys ++ utm ++
            [mkNamed COLUMN_CREATED_AT TTimestamp (STime (tr_time r / 1000));
             int64 COLUMN_EVENT_ID n; int64 COLUMN_EVENT (ev_id e); mkNamed COLUMN_IP TString (SStr (tr_ip r))] ++ values)%list
        else ireturn tt) ;;
  n <~ md (on_md (event_next_record p)) ;;
  put_event (keys ++ [mkNamed COLUMN_CREATED_AT TTimestamp (STime (tr_time r));
                      int64 COLUMN_EVENT_ID n; int64 COLUMN_EVENT ev] ++ values)%list.
(** executor.rs 120-263 *)
Definition track_call (now : Z) (r : Track) : MI unit :=
  pj <~ md (look (project_by_token (tr_token r))) ;;
  let p := pr_id pj in
  props <~ match tr_props r with
           | None => ireturn None
           | Some l => x <~ md (resolve_properties snake p KEvent l) ;; ireturn (Some x)
           end ;;
  w <~ whose p r ;;
  gs <~ md (track_groups p (snd w) r) ;;
  let resolved := match props with Some l => l | None => [] end in
  let ids := map (fun x => pp_id (fst x)) resolved in
  e <~ md (on_md (event_get_or_create p (tr_event r) None ids)) ;;
  _ <~ match props with Some _ => md (on_md (event_attach p (ev_id e) ids)) | None => ireturn tt end ;;
  extra <~ ieach (fun x => md (named_by_name p x)) (tr_agent r) ;;
  _ <~ send_event now p (fst w) (ev_id e) gs (resolved ++ extra)%list r ;;
  md (on_md (project_count_event p)).
(** executor.rs 282-383 and destinations/local/identify.rs 28-87.  No value is of the kind that
    executor.rs 331-335 refuses. *)
Definition identify_call (r : Identify) : MI unit :=
  pj <~ md (look (project_by_token (id_token r))) ;;
  let p := pr_id pj in
  g <~ md (on_md (group_type_get_or_create p (id_group r))) ;;
  props <~ match id_props r with
           | None => ireturn []
           | Some l => md (resolve_properties snake p (KGroup (gr_id g)) l)
           end ;;
  vals <~ ieach (fun x => v <~ to_value p (group_col 0) x ;; ireturn (pp_id (fst x), enc v)) props ;;
  gv <~ md (on_md (group_create_or_update p (gr_id g) (id_id r) vals)) ;;
  _ <~ md (on_md (fun m => (Ok tt, dict_create_key p (group_col (gr_id g)) GROUP_COLUMN_ID (gv_id gv) (id_id r) m))) ;;
  v <~ md (on_md (group_next_record p (gr_id g))) ;;
  named <~ ieach (fun x => md (named_stored snake isdict dcv p (gr_id g) x)) (gv_values gv) ;;
  put_group (gr_id g)
    ([int64 COLUMN_PROJECT_ID p; int64 GROUP_COLUMN_ID (gv_id gv); int64 GROUP_COLUMN_VERSION v;
      mkNamed COLUMN_CREATED_AT TTimestamp (STime (id_time r))] ++ named)%list.

(** ** Requests *)
(** sources/http/mod.rs 103-136, 192, 236: [None] is a body that is no request of its kind.  The
    body is read before the lock is taken. *)
Inductive Request := QTrack (now : Z) (body : option Track) | QIdentify (body : option Identify).
Definition carried (ok : N) (y : unit + IngesterError) : N := match y with inl _ => ok | inr e => ingest_status e end.
Definition stopped (y : unit + IngesterError) : bool := match y with inr IStopped => true | _ => false end.
Definition answer (q : Request) (sv : Server) : N * Server :=
  match q with
  | QTrack now None => (ingest_status ISerde, sv)
  | QIdentify None => (ingest_status ISerde, sv)
  | QTrack now (Some r) =>
    if sv_track sv then (NO_ANSWER, sv)
    else let (y, s) := track_call now r (sv_st sv) in (carried CREATED y, mkServer s (stopped y) (sv_identify sv))
  | QIdentify (Some r) =>
    if sv_identify sv then (NO_ANSWER, sv)
    else let (y, s) := identify_call r (sv_st sv) in (carried NO_CONTENT y, mkServer s (sv_track sv) (stopped y))
  end.
End Calls.
