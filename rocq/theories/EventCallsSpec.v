(** What a user is told about a request for the events of a project, and who may make one. *)
From Coq Require Import List NArith ZArith String Bool.
From Verif Require Import Kv Md MdOps Access Auth AuthSpec AuthStatus AuthStatusSpec EventCalls PropsAccess.
Import ListNotations.
Local Open Scope N_scope.

(** The events of a project: number, name, display name. *)
Definition is_event (s : Md.Store) (p i : N) (name : string) (display : option string) : Prop :=
  exists e, event_by_id p i s = Ok e /\ ev_name e = name /\ ev_display e = display.
Definition no_event (s : Md.Store) (p i : N) : Prop := forall name display, ~ is_event s p i name display.

Definition project_of (k : Ask) : N :=
  match k with
  | EvCreate p _ _ | EvGet p _ | EvByName p _ | EvList p | EvUpdate p _ _ | EvAttach p _ _ | EvDetach p _ _ | EvDelete p _ => p
  end.
(** Looking is for everyone in the project, changes for all but readers, deleting for owners. *)
Definition lowest_role (k : Ask) : ProjRole :=
  match k with
  | EvGet _ _ | EvByName _ _ | EvList _ => JReader
  | EvCreate _ _ _ | EvUpdate _ _ _ | EvAttach _ _ _ | EvDetach _ _ _ => JMember
  | EvDelete _ _ => JOwner
  end.
(** The request carries a good access token of account [id], for organization [org]. *)
Definition token_of (s : Auth.St) (q : ERequest) (id org : N) : Prop :=
  exists k t, eq_bearer q = Some k /\ nth_error (as_issued s) k = Some t /\
    tk_key t = as_akey s /\ (eq_now q <= tk_exp t + 60)%Z /\ tk_account t = id /\ tk_org t = Some org.
(** ... and that account, with the record [a], is there. *)
Definition asks (s : Auth.St) (q : ERequest) (id org : N) (a : Acc) : Prop := token_of s q id org /\ account_is (as_db s) id a.
Definition has_role (a : Acc) (org p : N) (lowest : ProjRole) : Prop :=
  aa_role a = Some GAdmin \/ listed (Some (aa_orgs a)) org OrgOwner \/ listed (Some (aa_orgs a)) org OrgAdmin \/
  exists r, listed (Some (aa_projects a)) p r /\ (proj_rank lowest <= proj_rank r)%nat.
(** The event asked for is not there. *)
Definition missing (s : Md.Store) (k : Ask) : Prop :=
  match k with
  | EvGet p i | EvUpdate p i _ | EvAttach p i _ | EvDelete p i => no_event s p i
  | EvDetach _ _ _ => True    (* no property is ever attached: [C140_attached_lost_refuted] *)
  | EvCreate _ _ _ | EvByName _ _ | EvList _ => False
  end.
(** Another event of the project has the name or the display name. *)
Definition taken (s : Md.Store) (k : Ask) : Prop :=
  match k with
  | EvCreate p name display => exists i name' display', is_event s p i name' display' /\
      (name' = name \/ exists x, display = Some x /\ display' = Some x)
  | EvUpdate p i (Some (Some x)) => (~ no_event s p i) /\ exists j name', j <> i /\ is_event s p j name' (Some x)
  | _ => False
  end.
Definition sends (k : Ask) : Prop := match k with EvCreate _ _ _ | EvUpdate _ _ _ => True | _ => False end.
(** Who asks may ask, in a body that can be read. *)
Definition may_ask (sa : Auth.St) (q : ERequest) : Prop :=
  exists id org a, asks sa q id org a /\ (sends (eq_ask q) -> eq_parses q = true) /\
    has_role a org (project_of (eq_ask q)) (lowest_role (eq_ask q)).
(** Why a request is refused, with the status that tells it. *)
Inductive refused (sa : Auth.St) (s : Md.Store) (q : ERequest) : N -> Prop :=
| no_token : (forall id org, ~ token_of sa q id org) -> refused sa s q 401
| account_gone : forall id org, token_of sa q id org -> no_account (as_db sa) id -> refused sa s q 404
| bad_body : forall id org a, asks sa q id org a -> sends (eq_ask q) -> eq_parses q = false -> refused sa s q 400
| no_role : forall id org a, asks sa q id org a -> (sends (eq_ask q) -> eq_parses q = true) ->
    ~ has_role a org (project_of (eq_ask q)) (lowest_role (eq_ask q)) -> refused sa s q 403
| not_there : may_ask sa q -> missing s (eq_ask q) -> refused sa s q 404
| name_taken : may_ask sa q -> taken s (eq_ask q) -> refused sa s q 409.

Definition by_name (k : Ask) : Prop := exists p name, k = EvByName p name.
(** What a request that is carried out is answered; [s] and [s']: the events before and after. *)
Definition answers (s s' : Md.Store) (k : Ask) (y : Reply) : Prop :=
  match k, y with
  | EvCreate p name display, YEvent e => exists i, e = mkEvent i name display [] /\ no_event s p i /\ is_event s' p i name display
  | EvGet p i, YEvent e => ev_id e = i /\ is_event s p i (ev_name e) (ev_display e)
  | EvList p, YEvents l => forall i name display, is_event s p i name display <-> In (mkEvent i name display []) l
  | EvUpdate p i d, YEvent e => exists old, is_event s p i (ev_name e) old /\
      ev_id e = i /\ ev_display e = (match d with Some x => x | None => old end) /\ is_event s' p i (ev_name e) (ev_display e)
  | EvAttach p i x, YEvent e => ev_id e = i /\ is_event s p i (ev_name e) (ev_display e) /\ is_event s' p i (ev_name e) (ev_display e)
      /\ ev_props e = [x]
  | EvDelete p i, YEvent e => is_event s p i (ev_name e) (ev_display e) /\ no_event s' p i
  | _, _ => False
  end.
(** What other calls may be: table and column names have no '/' (C28). *)
Definition happening_ok (e : Happening) : Prop := match e with Other o => wf_op o = true | _ => True end.
