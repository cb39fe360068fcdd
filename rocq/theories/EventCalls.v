(** The calls of the API about the events of a project: the handlers
    platform/src/http/events.rs 18-119 and the provider platform/src/events.rs 19-159, from the
    token of the request to the status of the answer.  Tokens and accounts are those of [Auth] and
    [AuthStatus], permissions those of [Access], the stored events those of [Md].

    Not modelled: the fields of an event [Md] leaves out (tags, description, status, who made and
    changed it); numbers in the address that are no numbers; the texts of messages. *)
From Coq Require Import List NArith ZArith String Bool.
From Verif Require Import Kv KvKeys Md MdOps Access Auth AuthStatus.
Import ListNotations.
Local Open Scope N_scope.

Inductive Ask :=
| EvCreate (p : N) (name : string) (display : option string)
| EvGet (p id : N) | EvByName (p : N) (name : string) | EvList (p : N)
| EvUpdate (p id : N) (display : option (option string))
| EvAttach (p id prop : N) | EvDetach (p id prop : N)
| EvDelete (p id : N).
(** A request: when (in seconds), with which token, whether the body is one of its kind, and what. *)
Record ERequest := mkERequest { eq_now : Z; eq_bearer : option nat; eq_parses : bool; eq_ask : Ask }.
Inductive Reply := YEvent (e : Md.Event) | YEvents (l : list Md.Event).

(** The permission each function of platform/src/events.rs asks for first: 29-33, 54-58, 64-68,
    76-80, 94-98, 120-124, 139-143, 152-156 *)
Definition call_for (k : Ask) : Access.Call :=
  match k with
  | EvCreate p _ _ => EventsCreate p | EvGet p _ => EventsGet p | EvByName p _ => EventsGetByName p | EvList p => EventsList p
  | EvUpdate p _ _ => EventsUpdate p | EvAttach p _ _ => EventsAttach p | EvDetach p _ _ => EventsDetach p
  | EvDelete p _ => EventsDelete p
  end.
(** Handlers that take a [Json] body: http/events.rs 18-28, 57-66 *)
Definition takes_body (k : Ask) : bool := match k with EvCreate _ _ _ | EvUpdate _ _ _ => true | _ => false end.
Definition success (k : Ask) : N := match k with EvCreate _ _ _ => CREATED | _ => OK end.
(** metadata/src/events.rs 498-527: an event is read without its lists of properties *)
Definition read_event (p id : N) (s : Md.Store) : Res Md.Event :=
  match event_by_id p id s with Ok e => Ok (stored_event e) | Err x => Err x end.
(** metadata/src/events.rs 62-85 with 350-357.  The lists are [None] when an event is read, which
    is the empty list here. *)
Definition attach_one (p id prop : N) (s : Md.Store) : Res Md.Event * Md.Store :=
  match read_event p id s with
  | Err x => (Err x, s)
  | Ok e =>
    if existsb (N.eqb prop) (ev_props e) then (Err AlreadyExists, s)
    else let e' := mkEvent (ev_id e) (ev_name e) (ev_display e) (ev_props e ++ [prop])%list in
         (Ok e', kput (make_data_value_key (events_ns p) (ev_id e)) (VRec (REvent (stored_event e'))) s)
  end.
(** metadata/src/events.rs 87-115 with 368-375 *)
Definition detach_one (p id prop : N) (s : Md.Store) : Res Md.Event * Md.Store :=
  match read_event p id s with
  | Err x => (Err x, s)
  | Ok e =>
    match ev_props e with
    | [] => (Err NotFound, s)
    | l => if existsb (N.eqb prop) l then
             let e' := mkEvent (ev_id e) (ev_name e) (ev_display e) (filter (fun x => negb (N.eqb prop x)) l) in
             (Ok e', kput (make_data_value_key (events_ns p) (ev_id e)) (VRec (REvent (stored_event e'))) s)
           else (Err AlreadyExists, s)
    end
  end.
(** metadata/src/events.rs 241-263: every value under the prefix is read as an event *)
Fixpoint as_events (l : list (Val Rec)) : Res (list Md.Event) :=
  match l with
  | [] => Ok []
  | VRec (REvent e) :: r => match as_events r with Ok es => Ok (stored_event e :: es) | Err x => Err x end
  | _ => Err Panicked
  end.
Definition lift {A} (f : A -> Reply) (x : Res A * Md.Store) : (Reply + PlatformError) * Md.Store :=
  match x with (Ok a, s) => (inl (f a), s) | (Err e, s) => (inr (from_md e), s) end.
(** platform/src/events.rs 35-50, 60, 70-72, 81-83, 100-111, 126-129, 145-148, 158 *)
Definition event_call (k : Ask) (s : Md.Store) : (Reply + PlatformError) * Md.Store :=
  match k with
  | EvCreate p name d => lift YEvent (event_create p name d [] s)
  | EvGet p id => lift YEvent (read_event p id s, s)
  | EvByName p name => lift YEvent (event_by_name p name s, s)
  | EvList p => lift YEvents (as_events (event_list p s), s)
  | EvUpdate p id d => lift (fun e => YEvent (stored_event e)) (event_update p id None d s)
  | EvAttach p id x => lift YEvent (attach_one p id x s)
  | EvDetach p id x => lift YEvent (detach_one p id x s)
  | EvDelete p id => lift (fun e => YEvent (stored_event e)) (event_delete p id s)
  end.
(** axum evaluates the arguments of a handler in order: the [Context], the path, the body.  The
    handler of a look-up by name, http/events.rs 38-47, takes each of the two parts of the path as
    the only one; axum 0.7 refuses a path of two parts for one value with status 500. *)
Definition path_fits (k : Ask) : bool := match k with EvByName _ _ => false | _ => true end.
Definition event_handle (q : ERequest) (sa : Auth.St) (s : Md.Store) : (Reply + PlatformError) * Md.Store :=
  match context_of (eq_now q) (eq_bearer q) sa with
  | inr e => (inr e, s)
  | inl c =>
    if negb (path_fits (eq_ask q)) then (inr PAxum, s)
    else if negb (takes_body (eq_ask q)) || eq_parses q then
      if allowed c (call_for (eq_ask q)) then event_call (eq_ask q) s
      else (inr PForbidden, s)
    else (inr PBadRequest, s)
  end.
Definition event_respond (q : ERequest) (sa : Auth.St) (s : Md.Store) : (N * option Reply) * Md.Store :=
  match event_handle q sa s with
  | (inl y, s') => ((success (eq_ask q), Some y), s')
  | (inr e, s') => ((fst (api_error e), None), s')
  end.
(** The server.  [Account o]: a call about accounts, or a change of roles, organizations or keys;
    [Other o]: any other call that changes the stored metadata, such as those of tracked events. *)
Inductive Happening := Account (o : Auth.Op) | Asked (q : ERequest) | Other (o : MdOp).
Section Server.
Variable valid_email : string -> bool.
Variable strong : string -> list string -> bool.
Variable ad rd : Z.
Variable snake : string -> string.
Definition serve_one (x : Auth.St * Md.Store) (e : Happening) : Auth.St * Md.Store :=
  match e with
  | Account o => (Auth.step valid_email strong ad rd o (fst x), snd x)
  | Asked q => (fst x, snd (event_respond q (fst x) (snd x)))
  | Other o => (fst x, md_step snake o (snd x))
  end.
Definition event_serve (h : list Happening) (sa : Auth.St) : Auth.St * Md.Store := fold_left serve_one h (sa, []).
End Server.
