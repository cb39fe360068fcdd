(** Access control: common/src/rbac.rs, platform/src/context.rs and platform/src/projects.rs. *)
From Coq Require Import List NArith ZArith String Bool.
From Verif Require Import Kv Md.
Import ListNotations.
Local Open Scope string_scope.

(** ** common/src/rbac.rs *)
(** 6-14, 17-19 *)
Inductive Perm := PAll | PManageAccounts | PViewAccounts | PManageOrgs | PViewOrgs | PManageProjects | PManageServer.
Inductive GRole := GAdmin.
(** 22-29; the organization roles (32-36) are [Md.OrgRole]. *)
Inductive OrgPerm := OViewOrg | OManageOrg | OManageProjects | OExploreProjects | ODeleteOrg | OAll.
(** 39-51, 54-59 *)
Inductive ProjPerm := JManageProject | JDeleteProject | JViewProject | JManageSchema | JDeleteSchema | JViewSchema
  | JInviteMembers | JManageMembers | JExploreReports | JManageReports | JAll.
Inductive ProjRole := JOwner | JAdmin | JMember | JReader.

(** 61-92: the tables, row by row *)
Definition PERMISSIONS : list (GRole * list Perm) := [(GAdmin, [PAll])].
Definition ORGANIZATION_PERMISSIONS : list (OrgRole * list OrgPerm) := [(OrgOwner, [OAll]); (OrgAdmin, [OManageProjects])].
Definition PROJECT_PERMISSIONS : list (ProjRole * list ProjPerm) :=
  [(JOwner, [JAll]);
   (JAdmin, [JManageProject; JInviteMembers; JManageMembers; JExploreReports; JManageReports; JViewSchema; JManageSchema]);
   (JMember, [JExploreReports; JManageReports; JViewSchema; JManageSchema]);
   (JReader, [JExploreReports; JViewSchema])].

Definition perm_dec (a b : Perm) : {a = b} + {a <> b}. Proof. decide equality. Defined.
Definition grole_dec (a b : GRole) : {a = b} + {a <> b}. Proof. decide equality. Defined.
Definition operm_dec (a b : OrgPerm) : {a = b} + {a <> b}. Proof. decide equality. Defined.
Definition orole_dec (a b : OrgRole) : {a = b} + {a <> b}. Proof. decide equality. Defined.
Definition jperm_dec (a b : ProjPerm) : {a = b} + {a <> b}. Proof. decide equality. Defined.
Definition jrole_dec (a b : ProjRole) : {a = b} + {a <> b}. Proof. decide equality. Defined.

(** The loop of context.rs 51-61, 81-91 and 116-126: is there a row of the role that contains
    "all" or the permission? *)
Definition granted {R P} (rdec : forall a b : R, {a = b} + {a <> b}) (pdec : forall a b : P, {a = b} + {a <> b})
  (all : P) (table : list (R * list P)) (r : R) (p : P) : bool :=
  existsb (fun row => if rdec (fst row) r
                      then existsb (fun x => if pdec x all then true else false) (snd row) ||
                           existsb (fun x => if pdec x p then true else false) (snd row)
                      else false) table.

(** ** platform/src/context.rs *)
(** 27-36, without the two force_update flags and the teams, which no check uses. *)
Record Ctx := mkCtx { cx_account : N; cx_org : N; cx_role : option GRole;
                      cx_orgs : option (list (N * OrgRole)); cx_projects : option (list (N * ProjRole)) }.
(** 39-66 *)
Definition check_permission (c : Ctx) (p : Perm) : bool :=
  match cx_role c with
  | Some r => granted grole_dec perm_dec PAll PERMISSIONS r p
  | None => false
  end.
Fixpoint role_in {R} (id : N) (l : list (N * R)) : option R :=
  match l with
  | [] => None
  | (k, r) :: rest => if N.eqb k id then Some r else role_in id rest
  end.
(** 131-141 and 142-152; [None] is the error Forbidden. *)
Definition organization_role (c : Ctx) (org : N) : option OrgRole :=
  match cx_orgs c with Some l => role_in org l | None => None end.
Definition project_role (c : Ctx) (p : N) : option ProjRole :=
  match cx_projects c with Some l => role_in p l | None => None end.
(** 68-94 *)
Definition check_organization_permission (c : Ctx) (org : N) (p : OrgPerm) : bool :=
  if check_permission c PManageOrgs then true
  else match organization_role c org with
       | None => false
       | Some r => granted orole_dec operm_dec OAll ORGANIZATION_PERMISSIONS r p
       end.
(** 96-129 *)
Definition check_project_permission (c : Ctx) (org project : N) (p : ProjPerm) : bool :=
  if check_permission c PManageProjects then true
  else match organization_role c org with
       | Some OrgOwner | Some OrgAdmin => true
       | _ => match project_role c project with
              | None => false
              | Some r => granted jrole_dec jperm_dec JAll PROJECT_PERMISSIONS r p
              end
       end.

(** ** The calls of the platform API and what each one checks first *)
Inductive Call :=
(* accounts.rs 29-96, organizations.rs 24-86, backups.rs 27-50, settings.rs 19-86 *)
| AccountsCreate | AccountsGet | AccountsList | AccountsUpdate | AccountsDelete
| OrgsCreate | OrgsList | OrgsDelete (org : N) | BackupsRun | BackupsGet | BackupsList | SettingsSet | SettingsGet
(* organizations.rs 39-80, auth/provider.rs 322-327, projects.rs 86-90 and 134-138 *)
| OrgsGet (org : N) | OrgsUpdate (org : N) | SwitchOrganization (org : N) | ProjectsCreate | ProjectsList
(* projects.rs 128-131, 164-174, 206-212 *)
| ProjectsGet (p : N) | ProjectsUpdate (p : N) | ProjectsDelete (p : N)
(* bookmarks.rs 22-52, reports.rs 25-112, dashboards.rs 23-110 *)
| BookmarksCreate (p : N) | BookmarksGet (p : N)
| ReportsCreate (p : N) | ReportsGet (p : N) | ReportsList (p : N) | ReportsUpdate (p : N) | ReportsDelete (p : N)
| DashboardsCreate (p : N) | DashboardsGet (p : N) | DashboardsList (p : N) | DashboardsUpdate (p : N) | DashboardsDelete (p : N)
(* group_records.rs 39-76, event_records.rs 39-70, event_segmentation.rs 45-57, funnel.rs 45-57, properties.rs 136-147 *)
| GroupRecordsGet (p : N) | GroupRecordsSearch (p : N) | EventRecordsGet (p : N) | EventRecordsSearch (p : N)
| EventSegmentation (p : N) | Funnel (p : N) | PropertiesValues (p : N)
(* events.rs 23-158, properties.rs 64-132, groups.rs 19-47, custom_events.rs 26-118 *)
| EventsCreate (p : N) | EventsGet (p : N) | EventsGetByName (p : N) | EventsList (p : N) | EventsUpdate (p : N)
| EventsAttach (p : N) | EventsDetach (p : N) | EventsDelete (p : N)
| PropertiesGet (p : N) | PropertiesGetByName (p : N) | PropertiesList (p : N) | PropertiesUpdate (p : N) | PropertiesDelete (p : N)
| GroupsCreate (p : N) | GroupsList (p : N)
| CustomEventsCreate (p : N) | CustomEventsGet (p : N) | CustomEventsList (p : N) | CustomEventsUpdate (p : N) | CustomEventsDelete (p : N).

Definition allowed (c : Ctx) (k : Call) : bool :=
  let proj p x := check_project_permission c (cx_org c) p x in
  match k with
  | AccountsCreate | AccountsGet | AccountsList | AccountsUpdate | AccountsDelete => check_permission c PManageAccounts
  | OrgsCreate | OrgsDelete _ => check_permission c PManageOrgs
  | OrgsList => check_permission c PViewOrgs
  | BackupsRun | BackupsGet | BackupsList | SettingsSet | SettingsGet => check_permission c PManageServer
  | OrgsGet o | SwitchOrganization o => check_organization_permission c o OViewOrg
  | OrgsUpdate o => check_organization_permission c o OManageOrg
  | ProjectsCreate => check_organization_permission c (cx_org c) OManageProjects
  | ProjectsList => check_organization_permission c (cx_org c) OExploreProjects
  | ProjectsGet p => proj p JViewProject
  | ProjectsUpdate p => proj p JManageProject
  | ProjectsDelete p => proj p JDeleteProject
  | BookmarksCreate p | BookmarksGet p | ReportsGet p | ReportsList p | DashboardsGet p | DashboardsList p
  | GroupRecordsGet p | GroupRecordsSearch p | EventRecordsGet p | EventRecordsSearch p
  | EventSegmentation p | Funnel p | PropertiesValues p => proj p JExploreReports
  | ReportsCreate p | ReportsUpdate p | ReportsDelete p | DashboardsCreate p | DashboardsUpdate p | DashboardsDelete p =>
    proj p JManageReports
  | EventsCreate p | EventsUpdate p | EventsAttach p | EventsDetach p | PropertiesUpdate p | GroupsCreate p
  | CustomEventsCreate p | CustomEventsUpdate p => proj p JManageSchema
  | EventsGet p | EventsGetByName p | EventsList p | PropertiesGet p | PropertiesGetByName p | PropertiesList p
  | GroupsList p | CustomEventsGet p | CustomEventsList p => proj p JViewSchema
  | EventsDelete p | PropertiesDelete p | CustomEventsDelete p => proj p JDeleteSchema
  end.

(** ** platform/src/projects.rs *)
(** [None] is the error Forbidden; [Some r] the result of the metadata call. *)
Definition api_project_get (c : Ctx) (id : N) (s : Store) : option (Res Project) :=        (* 128-132 *)
  if allowed c (ProjectsGet id) then Some (project_by_id id s) else None.
(** 134-163 *)
Definition api_project_list (c : Ctx) (s : Store) : option (list Project) :=
  if allowed c ProjectsList then
    let all := flat_map (fun v => match v with VRec (RProject p) => [p] | _ => [] end) (project_list s) in
    Some (filter (fun p => check_project_permission c (cx_org c) (pr_id p) JViewProject)
                 (filter (fun p => N.eqb (pr_org p) (cx_org c)) all))
  else None.
(** 164-204, without the dictionary entries of the name *)
Definition api_project_update (c : Ctx) (id : N) (name token : option string) (s : Store) : option (Res Project * Store) :=
  if allowed c (ProjectsUpdate id) then Some (project_update id name token s) else None.
(** 206-215 *)
Definition api_project_delete (c : Ctx) (id : N) (s : Store) : option (Res Project * Store) :=
  if allowed c (ProjectsDelete id) then Some (project_delete id s) else None.
