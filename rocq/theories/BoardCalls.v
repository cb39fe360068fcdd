(** The calls of the API about dashboards, saved reports and bookmarks: the handlers
    platform/src/http/dashboards.rs 18-67, http/reports.rs 18-63, http/bookmarks.rs 16-34 and the
    providers platform/src/dashboards.rs 23-110, reports.rs 25-111, bookmarks.rs 22-52, from the
    token of the request to the status of the answer.  Tokens and accounts are those of [Auth] and
    [AuthStatus], permissions those of [Access], the stored records those of [Boards].

    Not modelled: numbers in the address that are no numbers; the conversion of queries between
    their form in requests and their stored form ([Requests], C121); the texts of messages. *)
From Coq Require Import List NArith ZArith String Bool.
From Verif Require Import Bytes Value Kv KvKeys SavedQuery RecCodec Boards Md Access Auth AuthStatus TimeText.
Import ListNotations.
Local Open Scope N_scope.

(** What is asked; the account of a record that is made or changed is not part of a request. *)
Inductive Ask :=
| QDashCreate (p : N) (tags : option (list Str)) (name : Str) (descr : option Str) (panels : list FPanel)
| QDashGet (p id : N) | QDashList (p : N)
| QDashUpdate (p id : N) (tags : option (option (list Str))) (name : option Str) (descr : option (option Str)) (panels : option (list FPanel))
| QDashDelete (p id : N)
| QRepCreate (p : N) (tags : option (list Str)) (name : Str) (descr : option Str) (typ : FReportType) (query : SavedQuery)
| QRepGet (p id : N) | QRepList (p : N)
| QRepUpdate (p id : N) (tags : option (option (list Str))) (name : option Str) (descr : option (option Str)) (typ : option FReportType) (query : option SavedQuery)
| QRepDelete (p id : N)
| QBookCreate (p : N) (query : option SavedQuery) (drawn : string)
| QBookGet (p : N) (id : string).
(** A request: when (in nanoseconds; tokens last whole seconds), with which token, whether the body is one of its kind, and what. *)
Record BRequest := mkBRequest { bq_now : Z; bq_bearer : option nat; bq_parses : bool; bq_ask : Ask }.
Inductive Reply :=
| YDash (d : FDashboard) | YDashs (l : list FDashboard) | YRep (r : FReport) | YReps (l : list FReport) | YBook (b : FBookmark).

(** The permission each provider asks for first: dashboards.rs 30-34, 50-54, 60-64, 81-85, 103-107;
    reports.rs 32-36, 53-57, 63-67, 83-87, 104-108; bookmarks.rs 28-32, 45-49 *)
Definition call_for (k : Ask) : Access.Call :=
  match k with
  | QDashCreate p _ _ _ _ => DashboardsCreate p | QDashGet p _ => DashboardsGet p | QDashList p => DashboardsList p
  | QDashUpdate p _ _ _ _ _ => DashboardsUpdate p | QDashDelete p _ => DashboardsDelete p
  | QRepCreate p _ _ _ _ _ => ReportsCreate p | QRepGet p _ => ReportsGet p | QRepList p => ReportsList p
  | QRepUpdate p _ _ _ _ _ _ => ReportsUpdate p | QRepDelete p _ => ReportsDelete p
  | QBookCreate p _ _ => BookmarksCreate p | QBookGet p _ => BookmarksGet p
  end.
(** Handlers that take a [Json] body *)
Definition takes_body (k : Ask) : bool :=
  match k with QDashCreate _ _ _ _ _ | QDashUpdate _ _ _ _ _ _ | QRepCreate _ _ _ _ _ _ | QRepUpdate _ _ _ _ _ _ _ | QBookCreate _ _ _ => true | _ => false end.
(** http/dashboards.rs 24-27, http/reports.rs 24-27, http/bookmarks.rs 22-25 *)
Definition success (k : Ask) : N :=
  match k with QDashCreate _ _ _ _ _ | QRepCreate _ _ _ _ _ _ | QBookCreate _ _ _ => CREATED | _ => OK end.
Definition lift {A} (f : A -> Reply) (x : Res A * BStore) : (Reply + PlatformError) * BStore :=
  match x with (Ok a, s) => (inl (f a), s) | (Err e, s) => (inr (from_md e), s) end.
(** dashboards.rs 36-109, reports.rs 38-110, bookmarks.rs 34-52: the account is the caller's *)
Definition board_call (a : N) (now : Z) (k : Ask) (s : BStore) : (Reply + PlatformError) * BStore :=
  match k with
  | QDashCreate p tags name descr panels => lift YDash (dash_create p (mkDashCreate a tags name descr panels) now s)
  | QDashGet p id => lift YDash (dash_get p id s, s)
  | QDashList p => lift YDashs (dash_list p s, s)
  | QDashUpdate p id tags name descr panels => lift YDash (dash_update p id (mkDashUpdate a tags name descr panels) now s)
  | QDashDelete p id => lift YDash (dash_delete p id s)
  | QRepCreate p tags name descr typ query => lift YRep (rep_create print_time p (mkRepCreate a tags name descr typ query) now s)
  | QRepGet p id => lift YRep (rep_get parse_time p id s, s)
  | QRepList p => lift YReps (rep_list parse_time p s, s)
  | QRepUpdate p id tags name descr typ query => lift YRep (rep_update print_time parse_time p id (mkRepUpdate a tags name descr typ query) now s)
  | QRepDelete p id => lift YRep (rep_delete parse_time p id s)
  | QBookCreate p query drawn => lift YBook (book_create print_time p a query drawn now s)
  | QBookGet p id => lift YBook (book_get parse_time p a id s, s)
  end.
(** axum evaluates the arguments of a handler in order, the [Context] first and the body last. *)
Definition board_handle (q : BRequest) (sa : Auth.St) (s : BStore) : (Reply + PlatformError) * BStore :=
  match context_of (bq_now q / 1000000000) (bq_bearer q) sa with
  | inr e => (inr e, s)
  | inl c =>
    if negb (takes_body (bq_ask q)) || bq_parses q then
      if allowed c (call_for (bq_ask q)) then board_call (cx_account c) (bq_now q) (bq_ask q) s
      else (inr PForbidden, s)
    else (inr PBadRequest, s)
  end.
Definition board_respond (q : BRequest) (sa : Auth.St) (s : BStore) : (N * option Reply) * BStore :=
  match board_handle q sa s with
  | (inl y, s') => ((success (bq_ask q), Some y), s')
  | (inr e, s') => ((fst (api_error e), None), s')
  end.
(** The server: accounts and records, and what happens to them.  [Account o]: a call about accounts,
    or a change of roles, organizations or keys. *)
Inductive Event := Account (o : Auth.Op) | Board (q : BRequest).
Section Server.
Variable valid_email : string -> bool.
Variable strong : string -> list string -> bool.
Variable ad rd : Z.
Definition serve_one (x : Auth.St * BStore) (e : Event) : Auth.St * BStore :=
  match e with
  | Account o => (Auth.step valid_email strong ad rd o (fst x), snd x)
  | Board q => (fst x, snd (board_respond q (fst x) (snd x)))
  end.
Definition board_serve (h : list Event) (sa : Auth.St) : Auth.St * BStore := fold_left serve_one h (sa, []).
End Server.
