(** What a user is told about a request for the properties of a project, and who may make one. *)
From Coq Require Import List NArith ZArith String Bool.
From Verif Require Import Kv Md MdOps Access Auth AuthSpec AuthStatus AuthStatusSpec PropCalls PropsAccess.
Import ListNotations.
Local Open Scope N_scope.

(** The properties of a kind in a project. *)
Definition is_prop (s : Md.Store) (p : N) (k : PropKind) (i : N) (x : Property) : Prop := prop_by_id p k i s = Ok x.
Definition no_prop (s : Md.Store) (p : N) (k : PropKind) (i : N) : Prop := forall x, ~ is_prop s p k i x.

Definition project_of (k : Ask) : N :=
  match k with PrGet p _ _ | PrByName p _ _ | PrList p _ | PrUpdate p _ _ _ | PrDelete p _ _ => p end.
(** Looking is for everyone in the project, changes for all but readers, deleting for owners. *)
Definition lowest_role (k : Ask) : ProjRole :=
  match k with PrGet _ _ _ | PrByName _ _ _ | PrList _ _ => JReader | PrUpdate _ _ _ _ => JMember | PrDelete _ _ _ => JOwner end.
(** The request carries a good access token of account [id], for organization [org]. *)
Definition token_of (s : Auth.St) (q : PRequest) (id org : N) : Prop :=
  exists k t, pq_bearer q = Some k /\ nth_error (as_issued s) k = Some t /\
    tk_key t = as_akey s /\ (pq_now q <= tk_exp t + 60)%Z /\ tk_account t = id /\ tk_org t = Some org.
(** ... and that account, with the record [a], is there. *)
Definition asks (s : Auth.St) (q : PRequest) (id org : N) (a : Acc) : Prop := token_of s q id org /\ account_is (as_db s) id a.
Definition has_role (a : Acc) (org p : N) (lowest : ProjRole) : Prop :=
  aa_role a = Some GAdmin \/ listed (Some (aa_orgs a)) org OrgOwner \/ listed (Some (aa_orgs a)) org OrgAdmin \/
  exists r, listed (Some (aa_projects a)) p r /\ (proj_rank lowest <= proj_rank r)%nat.
(** The property asked for is not there. *)
Definition missing (s : Md.Store) (k : Ask) : Prop :=
  match k with
  | PrGet p k i | PrUpdate p k i _ | PrDelete p k i => no_prop s p k i
  | PrByName p k name => forall i x, is_prop s p k i x -> pp_name x <> name
  | PrList _ _ => False
  end.
(** Another property of the kind has the display name. *)
Definition taken (s : Md.Store) (k : Ask) : Prop :=
  match k with
  | PrUpdate p k i (Some (Some d)) => (~ no_prop s p k i) /\ exists j x, j <> i /\ is_prop s p k j x /\ pp_display x = Some d
  | _ => False
  end.
Definition sends (k : Ask) : Prop := match k with PrUpdate _ _ _ _ => True | _ => False end.
(** There are five kinds of groups. *)
Definition of_group (k : PropKind) : Prop := match k with KEvent => True | KGroup g => g < 5 end.
(** Who asks may ask, in a body that can be read. *)
Definition may_ask (sa : Auth.St) (q : PRequest) : Prop :=
  exists id org a, asks sa q id org a /\ (sends (pq_ask q) -> pq_parses q = true) /\
    has_role a org (project_of (pq_ask q)) (lowest_role (pq_ask q)).
(** Why a request for a kind of properties there is is refused, with the status that tells it. *)
Inductive refused (sa : Auth.St) (s : Md.Store) (q : PRequest) : N -> Prop :=
| no_token : (forall id org, ~ token_of sa q id org) -> refused sa s q 401
| account_gone : forall id org, token_of sa q id org -> no_account (as_db sa) id -> refused sa s q 404
| bad_body : forall id org a, asks sa q id org a -> sends (pq_ask q) -> pq_parses q = false -> refused sa s q 400
| no_role : forall id org a, asks sa q id org a -> (sends (pq_ask q) -> pq_parses q = true) ->
    ~ has_role a org (project_of (pq_ask q)) (lowest_role (pq_ask q)) -> refused sa s q 403
| not_there : may_ask sa q -> missing s (pq_ask q) -> refused sa s q 404
| name_taken : may_ask sa q -> taken s (pq_ask q) -> refused sa s q 409.

(** A property with another display name. *)
Definition displayed (x : Property) (d : option (option string)) : Property :=
  mkProperty (pp_id x) (pp_kind x) (pp_name x) (match d with Some y => y | None => pp_display x end) (pp_order x) (pp_type x) (pp_system x).
(** What a request that is carried out is answered; [s] and [s']: the properties before and after. *)
Definition answers (s s' : Md.Store) (k : Ask) (y : Reply) : Prop :=
  match k, y with
  | PrGet p k i, YProp x => is_prop s p k i x /\ pp_id x = i
  | PrByName p k name, YProp x => is_prop s p k (pp_id x) x /\ pp_name x = name
  | PrList p k, YProps l => forall x, In x l <-> is_prop s p k (pp_id x) x
  | PrUpdate p k i d, YProp x => exists old, is_prop s p k i old /\ x = displayed old d /\ is_prop s' p k i x
  | PrDelete p k i, YProp x => is_prop s p k i x /\ no_prop s' p k i
  | _, _ => False
  end.
(** A request for one property of a kind of groups by its number. *)
Definition group_by_number (k : Ask) : Prop := exists p g i, k = PrGet p (KGroup g) i.
(** What other calls may be: table and column names have no '/' (C28). *)
Definition happening_ok (e : Happening) : Prop := match e with Other o => wf_op o = true | _ => True end.
