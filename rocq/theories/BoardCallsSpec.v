(** What a user is told about a request for dashboards, saved reports or bookmarks, and who may
    make one. *)
From Coq Require Import List NArith ZArith String Bool.
From Verif Require Import Bytes BytesFacts Value Kv SavedQuery SavedQueryFacts RecCodec RecSpec Boards BoardsSpec Md Access Auth AuthSpec AuthStatus AuthStatusSpec
  TimeText TimeTextSpec BoardCalls PropsAccess.
Import ListNotations.
Local Open Scope N_scope.

(** The project a request is about. *)
Definition project_of (k : Ask) : N :=
  match k with
  | QDashCreate p _ _ _ _ | QDashGet p _ | QDashList p | QDashUpdate p _ _ _ _ _ | QDashDelete p _
  | QRepCreate p _ _ _ _ _ | QRepGet p _ | QRepList p | QRepUpdate p _ _ _ _ _ _ | QRepDelete p _
  | QBookCreate p _ _ | QBookGet p _ => p
  end.
(** Looking, and making a bookmark, is for everyone in the project; readers may not do the rest. *)
Definition lowest_role (k : Ask) : ProjRole :=
  match k with
  | QDashGet _ _ | QDashList _ | QRepGet _ _ | QRepList _ | QBookCreate _ _ _ | QBookGet _ _ => JReader
  | _ => JMember
  end.
(** The request carries a good access token of account [id], for organization [org]. *)
Definition token_of (s : Auth.St) (q : BRequest) (id org : N) : Prop :=
  exists k t, bq_bearer q = Some k /\ nth_error (as_issued s) k = Some t /\
    tk_key t = as_akey s /\ (bq_now q / 1000000000 <= tk_exp t + 60)%Z /\ tk_account t = id /\ tk_org t = Some org.
(** ... and that account, with the record [a], is there. *)
Definition asks (s : Auth.St) (q : BRequest) (id org : N) (a : Acc) : Prop := token_of s q id org /\ account_is (as_db s) id a.
(** Administrators of the server, owners and administrators of the organization the token is for,
    and those with at least this role in the project. *)
Definition has_role (a : Acc) (org p : N) (lowest : ProjRole) : Prop :=
  aa_role a = Some GAdmin \/ listed (Some (aa_orgs a)) org OrgOwner \/ listed (Some (aa_orgs a)) org OrgAdmin \/
  exists r, listed (Some (aa_projects a)) p r /\ (proj_rank lowest <= proj_rank r)%nat.
(** What is asked for is not there; a bookmark is looked for among those of the caller. *)
Definition missing (s : BStore) (id : N) (k : Ask) : Prop :=
  match k with
  | QDashGet p i | QDashUpdate p i _ _ _ _ | QDashDelete p i => dash_get p i s = Err NotFound
  | QRepGet p i | QRepUpdate p i _ _ _ _ _ | QRepDelete p i => rep_get parse_time p i s = Err NotFound
  | QBookGet p i => book_get parse_time p id i s = Err NotFound
  | _ => False
  end.
Definition sends (k : Ask) : Prop :=
  match k with QDashCreate _ _ _ _ _ | QDashUpdate _ _ _ _ _ _ | QRepCreate _ _ _ _ _ _ | QRepUpdate _ _ _ _ _ _ _ | QBookCreate _ _ _ => True | _ => False end.
Definition makes (k : Ask) : Prop := match k with QDashCreate _ _ _ _ _ | QRepCreate _ _ _ _ _ _ | QBookCreate _ _ _ => True | _ => False end.
(** Why a request is refused, with the status that tells it. *)
Inductive refused (sa : Auth.St) (s : BStore) (q : BRequest) : N -> Prop :=
| no_token : (forall id org, ~ token_of sa q id org) -> refused sa s q 401
| account_gone : forall id org, token_of sa q id org -> no_account (as_db sa) id -> refused sa s q 404
| bad_body : forall id org a, asks sa q id org a -> sends (bq_ask q) -> bq_parses q = false -> refused sa s q 400
| no_role : forall id org a, asks sa q id org a -> (sends (bq_ask q) -> bq_parses q = true) ->
    ~ has_role a org (project_of (bq_ask q)) (lowest_role (bq_ask q)) -> refused sa s q 403
| not_there : forall id org a, asks sa q id org a -> (sends (bq_ask q) -> bq_parses q = true) ->
    has_role a org (project_of (bq_ask q)) (lowest_role (bq_ask q)) -> missing s id (bq_ask q) -> refused sa s q 404.

(** The record to be stored takes 2^63 bytes or more. *)
Definition too_big (s : BStore) (id : N) (now : Z) (k : Ask) : Prop :=
  match k with
  | QDashCreate p tags name descr panels => exists i,
      2 ^ 63 <= N.of_nat (List.length (write_dashboard (mkFDashboard (mkStamps i now id None None) p tags name descr panels)))
  | QDashUpdate p i tags name descr panels => exists o, dash_get p i s = Ok o /\
      2 ^ 63 <= N.of_nat (List.length (write_dashboard
        (mkFDashboard (mkStamps i (sp_created (fdb_stamps o)) (sp_by (fdb_stamps o)) (Some now) (Some id)) p
           match tags with Some v => v | None => fdb_tags o end match name with Some v => v | None => fdb_name o end
           match descr with Some v => v | None => fdb_descr o end match panels with Some v => v | None => fdb_panels o end)))
  | QRepCreate p tags name descr typ query => exists i,
      2 ^ 63 <= N.of_nat (List.length (write_report print_time (mkFReport (mkStamps i now id None None) p tags name descr typ query)))
  | QRepUpdate p i tags name descr _ query => exists o r, rep_get parse_time p i s = Ok o /\
      2 ^ 63 <= N.of_nat (List.length (write_report print_time r)) /\
      frp_tags r = match tags with Some v => v | None => frp_tags o end /\ frp_name r = match name with Some v => v | None => frp_name o end /\
      frp_descr r = match descr with Some v => v | None => frp_descr o end /\ frp_query r = match query with Some v => v | None => frp_query o end
  | QBookCreate p query drawn => 2 ^ 63 <= N.of_nat (List.length (write_bookmark print_time (mkFBookmark (codes drawn) now id p query)))
  | _ => False
  end.

(** What a client can send: the numbers fit their types, times are times of the calendar. *)
Definition ask_ok (k : Ask) : Prop :=
  match k with
  | QDashCreate p _ _ _ panels => u64 p /\ Forall panel_ok panels
  | QDashUpdate _ _ _ _ _ panels => opt (Forall panel_ok) panels
  | QRepCreate p _ _ _ _ query => u64 p /\ query_ok Holds query
  | QRepUpdate _ _ _ _ _ _ query => opt (query_ok Holds) query
  | QBookCreate p query _ => u64 p /\ opt (query_ok Holds) query
  | _ => True
  end.
Definition event_ok (e : Event) : Prop := match e with Account _ => True | Board q => time_ok (bq_now q) /\ ask_ok (bq_ask q) end.
(** Fewer events than there are numbers. *)
Definition events_ok (h : list Event) : Prop := Forall event_ok h /\ N.of_nat (List.length h) + 1 < 2 ^ 64.

(** What a request that is carried out is answered, by account [id] at time [now]; [s] and [s']:
    the records before and after. *)
Definition answers (s s' : BStore) (id : N) (now : Z) (k : Ask) (y : Reply) : Prop :=
  match k, y with
  | QDashCreate p tags name descr panels, YDash d => exists i,
      d = mkFDashboard (mkStamps i now id None None) p tags name descr panels
      /\ dash_get p i s = Err NotFound /\ dash_get p i s' = Ok (as_read_dashboard d)
  | QDashGet p i, YDash d => dash_get p i s = Ok d
  | QDashList p, YDashs l => NoDup (map dash_id l) /\ forall d, In d l <-> dash_get p (dash_id d) s = Ok d
  | QDashUpdate p i tags name descr panels, YDash d => exists o, dash_get p i s = Ok o
      /\ d = mkFDashboard (mkStamps i (sp_created (fdb_stamps o)) (sp_by (fdb_stamps o)) (Some now) (Some id)) p
           match tags with Some v => v | None => fdb_tags o end match name with Some v => v | None => fdb_name o end
           match descr with Some v => v | None => fdb_descr o end match panels with Some v => v | None => fdb_panels o end
      /\ dash_get p i s' = Ok (as_read_dashboard d)
  | QDashDelete p i, YDash d => dash_get p i s = Ok d /\ dash_get p i s' = Err NotFound
  | QRepCreate p tags name descr typ query, YRep r => exists i,
      r = mkFReport (mkStamps i now id None None) p tags name descr typ query
      /\ rep_get parse_time p i s = Err NotFound /\ rep_get parse_time p i s' = Ok (as_read_report r)
  | QRepGet p i, YRep r => rep_get parse_time p i s = Ok r
  | QRepList p, YReps l => NoDup (map rep_id l) /\ forall r, In r l <-> rep_get parse_time p (rep_id r) s = Ok r
  | QRepUpdate p i tags name descr _ query, YRep r => exists o, rep_get parse_time p i s = Ok o
      /\ r = mkFReport (mkStamps i (sp_created (frp_stamps o)) (sp_by (frp_stamps o)) (Some now) (Some id)) p
           match tags with Some v => v | None => frp_tags o end match name with Some v => v | None => frp_name o end
           match descr with Some v => v | None => frp_descr o end (frp_type o) match query with Some v => v | None => frp_query o end
      /\ rep_get parse_time p i s' = Ok (as_read_report r)
  | QRepDelete p i, YRep r => rep_get parse_time p i s = Ok r /\ rep_get parse_time p i s' = Err NotFound
  | QBookCreate p query drawn, YBook b => b = mkFBookmark (codes drawn) now id p query /\ book_get parse_time p id drawn s' = Ok (as_read_bookmark b)
  | QBookGet p i, YBook b => book_get parse_time p id i s = Ok b
  | _, _ => False
  end.
