(** Properties C41, C42 and C43: access control. *)
From Coq Require Import List NArith ZArith String Bool.
From Verif Require Import AMap Kv KvKeys Md MdOps MdFrame MdIndex MdEntities MdWf Access.
Import ListNotations.
Local Open Scope string_scope.

(** ** Specification: roles and what they include *)
(** The role the caller's list gives for the id: its first entry for it. *)
Definition listed {R} (l : option (list (N * R))) (id : N) (r : R) : Prop :=
  exists a b, l = Some (a ++ (id, r) :: b)%list /\ ~ In id (map fst a).
Definition in_org (c : Ctx) (o : N) (r : OrgRole) : Prop := listed (cx_orgs c) o r.
Definition in_project (c : Ctx) (p : N) (r : ProjRole) : Prop := listed (cx_projects c) p r.
(** Higher roles first. *)
Definition org_rank (r : OrgRole) : nat := match r with OrgOwner => 3 | OrgAdmin => 2 | OrgMember => 1 end.
Definition proj_rank (r : ProjRole) : nat := match r with JOwner => 4 | JAdmin => 3 | JMember => 2 | JReader => 1 end.
(** [c'] has in every organization and project at least the role [c] has, and is a global
    administrator if [c] is. *)
Definition at_least (c' c : Ctx) : Prop :=
  cx_org c' = cx_org c /\ (cx_role c = Some GAdmin -> cx_role c' = Some GAdmin) /\
  (forall o r, in_org c o r -> exists r', in_org c' o r' /\ org_rank r <= org_rank r') /\
  (forall p r, in_project c p r -> exists r', in_project c' p r' /\ proj_rank r <= proj_rank r').

(** ** The code's lookup finds that entry *)
Lemma role_in_listed : forall R (l : list (N * R)) id r, role_in id l = Some r <-> listed (Some l) id r.
Proof.
  intros R l id r. induction l as [|[k x] l IH]; cbn.
  - split; [discriminate|]. intros ([|] & b & H & _); discriminate.
  - destruct (N.eqb k id) eqn:E.
    + apply N.eqb_eq in E. subst k. split.
      * intros [= ->]. exists [], l. split; [reflexivity|intros []].
      * intros ([|y a] & b & H & Ni); [now injection H as [= ->]|]. injection H as <- _. exfalso. apply Ni. now left.
    + apply N.eqb_neq in E. rewrite IH. split.
      * intros (a & b & [= ->] & Ni). exists ((k, x) :: a), b. split; [reflexivity|]. intros [H|H]; [now apply E|now apply Ni].
      * intros ([|y a] & b & H & Ni); [injection H as H1 H2; now exfalso|]. injection H as <- ->. exists a, b. split; [reflexivity|].
        intro H. apply Ni. now right.
Qed.
Lemma org_role_listed : forall c o r, organization_role c o = Some r <-> in_org c o r.
Proof.
  intros c o r. unfold organization_role, in_org. destruct (cx_orgs c) as [l|]; [apply role_in_listed|].
  split; [discriminate|]. intros (a & b & H & _). discriminate.
Qed.
Lemma proj_role_listed : forall c o r, project_role c o = Some r <-> in_project c o r.
Proof.
  intros c o r. unfold project_role, in_project. destruct (cx_projects c) as [l|]; [apply role_in_listed|].
  split; [discriminate|]. intros (a & b & H & _). discriminate.
Qed.
Lemma org_role_none : forall c o, organization_role c o = None <-> forall r, ~ in_org c o r.
Proof.
  intros c o. destruct (organization_role c o) as [r|] eqn:E.
  - split; [discriminate|]. intro H. exfalso. apply (H r). now apply org_role_listed.
  - split; [|auto]. intros _ r H. apply org_role_listed in H. congruence.
Qed.
Lemma proj_role_none : forall c o, project_role c o = None <-> forall r, ~ in_project c o r.
Proof.
  intros c o. destruct (project_role c o) as [r|] eqn:E.
  - split; [discriminate|]. intro H. exfalso. apply (H r). now apply proj_role_listed.
  - split; [|auto]. intros _ r H. apply proj_role_listed in H. congruence.
Qed.

(** ** C41 *)
(** Without any role every call is refused, and each of the three refusals leaves the other
    levels out: a call on a project or organization needs a role there, a global one needs
    the global role. *)
Theorem C41_denied_without_role :
  forall c k,
    cx_role c = None -> (forall o r, ~ in_org c o r) -> (forall p r, ~ in_project c p r) ->
    allowed c k = false.
Proof.
  intros c k R O0 P0. assert (O : forall o, organization_role c o = None) by (intro o; now apply org_role_none).
  assert (P : forall o, project_role c o = None) by (intro o; now apply proj_role_none). destruct k; cbn; unfold check_permission, check_organization_permission, check_project_permission, check_permission;
  rewrite ?R, ?O, ?P; reflexivity.
Qed.
Print Assumptions C41_denied_without_role.
(** A higher role includes everything a lower one may do. *)
Theorem C41_roles_nested :
  forall c c' k, at_least c' c -> allowed c k = true -> allowed c' k = true.
Proof.
  intros c c' k (Eo & G & O0 & P0).
  set (orank := fun x => match x with Some r => org_rank r | None => 0 end).
  set (prank := fun x => match x with Some r => proj_rank r | None => 0 end).
  assert (O : forall o, orank (organization_role c o) <= orank (organization_role c' o)).
  { intro o. destruct (organization_role c o) as [r|] eqn:E; [|apply Nat.le_0_l].
    apply org_role_listed in E. destruct (O0 o r E) as (r' & H & L). apply org_role_listed in H. now rewrite H. }
  assert (P : forall o, prank (project_role c o) <= prank (project_role c' o)).
  { intro o. destruct (project_role c o) as [r|] eqn:E; [|apply Nat.le_0_l].
    apply proj_role_listed in E. destruct (P0 o r E) as (r' & H & L). apply proj_role_listed in H. now rewrite H. }
  assert (HG : forall p, check_permission c p = true -> check_permission c' p = true).
  { intros p. unfold check_permission. destruct (cx_role c) as [[]|]; [|discriminate]. rewrite (G eq_refl). auto. }
  assert (HO : forall o p, check_organization_permission c o p = true -> check_organization_permission c' o p = true).
  { intros o p. unfold check_organization_permission. destruct (check_permission c PManageOrgs) eqn:E; [now rewrite (HG _ E)|].
    destruct (check_permission c' PManageOrgs); [auto|]. specialize (O o).
    destruct (organization_role c o) as [[]|]; try discriminate; destruct (organization_role c' o) as [[]|], p;
      cbn in O |- *; try discriminate; auto; exfalso; repeat (apply le_S_n in O); inversion O. }
  assert (HP : forall o q p, check_project_permission c o q p = true -> check_project_permission c' o q p = true).
  { intros o q p. unfold check_project_permission. destruct (check_permission c PManageProjects) eqn:E; [now rewrite (HG _ E)|].
    destruct (check_permission c' PManageProjects); [auto|]. specialize (O o). specialize (P q).
    destruct (organization_role c o) as [[]|], (organization_role c' o) as [[]|]; cbn in O; auto;
      try (exfalso; repeat (apply le_S_n in O); now inversion O).
    all: destruct (project_role c q) as [[]|], (project_role c' q) as [[]|]; try discriminate; cbn in P;
      try (exfalso; repeat (apply le_S_n in P); now inversion P); destruct p; cbn; auto. }
  destruct k; cbn; rewrite ?Eo; auto.
Qed.
Print Assumptions C41_roles_nested.
(** Exactly who may do what in a project. *)
Definition project_matrix (r : ProjRole) (p : ProjPerm) : bool :=
  match r, p with
  | JOwner, _ => true
  | JAdmin, (JManageProject | JInviteMembers | JManageMembers) => true
  | (JAdmin | JMember), (JManageReports | JManageSchema) => true
  | (JAdmin | JMember | JReader), (JExploreReports | JViewSchema) => true
  | _, _ => false
  end.
Theorem C41_project_access_exact :
  forall c o q p, check_project_permission c o q p = true <->
    cx_role c = Some GAdmin \/ in_org c o OrgOwner \/ in_org c o OrgAdmin \/
    exists r, in_project c q r /\ project_matrix r p = true.
Proof.
  intros c o q p. rewrite <- !org_role_listed. setoid_rewrite <- proj_role_listed. unfold check_project_permission, check_permission. destruct (cx_role c) as [[]|]; [cbn; tauto|].
  assert (Q : match project_role c q with Some r => granted jrole_dec jperm_dec JAll PROJECT_PERMISSIONS r p | None => false end = true
            <-> exists r, project_role c q = Some r /\ project_matrix r p = true).
  { destruct (project_role c q) as [r|].
    - assert (E : granted jrole_dec jperm_dec JAll PROJECT_PERMISSIONS r p = project_matrix r p) by (destruct r, p; reflexivity).
      rewrite E. split; [eauto|]. intros (r' & [= <-] & H). exact H.
    - split; [discriminate|]. intros (r' & H & _). discriminate. }
  destruct (organization_role c o) as [[]|]; [tauto|tauto| |]; rewrite Q;
  (split; [auto|intros [H|[H|[H|H]]]; [discriminate|discriminate|discriminate|exact H]]).
Qed.
Print Assumptions C41_project_access_exact.
Example C41_witness :
  let reader := mkCtx 7 1 None (Some [(1%N, OrgMember)]) (Some [(4%N, JReader)]) in
  let admin := mkCtx 7 1 None (Some [(1%N, OrgMember)]) (Some [(4%N, JAdmin)]) in
  allowed reader (Funnel 4) = true /\ allowed reader (EventsUpdate 4) = false /\ allowed admin (EventsUpdate 4) = true /\
  allowed reader (Funnel 5) = false /\ at_least admin reader /\
  allowed (mkCtx 7 1 None None None) (Funnel 4) = false.
Proof.
  cbn. repeat split; try discriminate.
  - intros o r H. exists r. split; [exact H|apply le_n].
  - intros p r H. apply proj_role_listed in H. unfold project_role in H. cbn in H.
    destruct p as [|[|[|[]|]|]]; try discriminate. injection H as <-. exists JAdmin. split; [now apply proj_role_listed|]. cbn. auto.
Qed.

(** The table of all calls: the lowest role that may make each of them. *)
Inductive Needs := NServer | NOrgOwner (o : N) | NOrgManager (o : N) | NProject (p : N) (lowest : ProjRole).
Definition needs (own : N) (k : Call) : Needs :=
  match k with
  (* only the administrators of the server *)
  | AccountsCreate | AccountsGet | AccountsList | AccountsUpdate | AccountsDelete | OrgsCreate | OrgsList | OrgsDelete _
  | BackupsRun | BackupsGet | BackupsList | SettingsSet | SettingsGet => NServer
  (* the owners of the organization *)
  | OrgsGet o | OrgsUpdate o | SwitchOrganization o => NOrgOwner o
  | ProjectsList => NOrgOwner own
  (* its owners and administrators *)
  | ProjectsCreate => NOrgManager own
  (* the owners of the project *)
  | ProjectsGet p | ProjectsDelete p | EventsDelete p | PropertiesDelete p | CustomEventsDelete p => NProject p JOwner
  | ProjectsUpdate p => NProject p JAdmin
  (* everyone in the project but readers *)
  | ReportsCreate p | ReportsUpdate p | ReportsDelete p | DashboardsCreate p | DashboardsUpdate p | DashboardsDelete p
  | EventsCreate p | EventsUpdate p | EventsAttach p | EventsDetach p | PropertiesUpdate p | GroupsCreate p
  | CustomEventsCreate p | CustomEventsUpdate p => NProject p JMember
  (* everyone in the project *)
  | BookmarksCreate p | BookmarksGet p | ReportsGet p | ReportsList p | DashboardsGet p | DashboardsList p
  | GroupRecordsGet p | GroupRecordsSearch p | EventRecordsGet p | EventRecordsSearch p
  | EventSegmentation p | Funnel p | PropertiesValues p
  | EventsGet p | EventsGetByName p | EventsList p | PropertiesGet p | PropertiesGetByName p | PropertiesList p
  | GroupsList p | CustomEventsGet p | CustomEventsList p => NProject p JReader
  end.
(** Administrators of the server may do everything; owners and administrators of the
    organization the caller acts in count as owners of every project. *)
Definition meets (c : Ctx) (n : Needs) : Prop :=
  cx_role c = Some GAdmin \/
  match n with
  | NServer => False
  | NOrgOwner o => in_org c o OrgOwner
  | NOrgManager o => in_org c o OrgOwner \/ in_org c o OrgAdmin
  | NProject p lowest =>
    in_org c (cx_org c) OrgOwner \/ in_org c (cx_org c) OrgAdmin \/ exists r, in_project c p r /\ proj_rank lowest <= proj_rank r
  end.
Lemma org_exact c o p : check_organization_permission c o p = true <->
  cx_role c = Some GAdmin \/ in_org c o OrgOwner \/ (in_org c o OrgAdmin /\ p = OManageProjects).
Proof.
  rewrite <- !org_role_listed. unfold check_organization_permission, check_permission. destruct (cx_role c) as [[]|]; [cbn; tauto|].
  destruct (organization_role c o) as [[]|]; destruct p; cbn; intuition congruence.
Qed.
Lemma perm_exact c p : check_permission c p = true <-> cx_role c = Some GAdmin.
Proof. unfold check_permission. destruct (cx_role c) as [[]|]; [destruct p; cbn; tauto|split; discriminate]. Qed.
Theorem C41_calls_exact : forall c k, allowed c k = true <-> meets c (needs (cx_org c) k).
Proof.
  intros c k.
  assert (Pr : forall p x lowest, (forall r, project_matrix r x = true <-> proj_rank lowest <= proj_rank r) ->
    (check_project_permission c (cx_org c) p x = true <-> meets c (NProject p lowest))).
  { intros p x lowest H. rewrite C41_project_access_exact. unfold meets. split.
    - intros [E|[E|[E|(r & E & F)]]]; auto. right. right. right. exists r. split; [exact E|now apply H].
    - intros [E|[E|[E|(r & E & F)]]]; auto. right. right. right. exists r. split; [exact E|now apply H]. }
  assert (M : forall n m : nat, n <= m <-> Nat.leb n m = true) by (intros; symmetry; apply Nat.leb_le).
  destruct k; cbn [allowed needs]; try (rewrite perm_exact; unfold meets; tauto);
    try (rewrite org_exact; unfold meets; intuition congruence);
    apply Pr; intros []; cbn; rewrite M; cbn; split; congruence.
Qed.
Print Assumptions C41_calls_exact.
(** The calls on a project record do what the table says. *)
Theorem C41_project_calls_exact : forall c id s,
  (forall r, api_project_get c id s = Some r <-> meets c (NProject id JOwner) /\ r = project_by_id id s)
  /\ (forall name token r, api_project_update c id name token s = Some r <-> meets c (NProject id JAdmin) /\ r = project_update id name token s)
  /\ (forall r, api_project_delete c id s = Some r <-> meets c (NProject id JOwner) /\ r = project_delete id s).
Proof.
  intros c id s. unfold api_project_get, api_project_update, api_project_delete.
  pose proof (C41_calls_exact c (ProjectsGet id)) as G. pose proof (C41_calls_exact c (ProjectsUpdate id)) as U.
  pose proof (C41_calls_exact c (ProjectsDelete id)) as D. cbn [needs] in *. repeat split.
  - apply G. destruct (allowed c (ProjectsGet id)); congruence.
  - destruct (allowed c (ProjectsGet id)); congruence.
  - intros [H ->]. apply G in H. now rewrite H.
  - apply U. destruct (allowed c (ProjectsUpdate id)); congruence.
  - destruct (allowed c (ProjectsUpdate id)); congruence.
  - intros [H ->]. apply U in H. now rewrite H.
  - apply D. destruct (allowed c (ProjectsDelete id)); congruence.
  - destruct (allowed c (ProjectsDelete id)); congruence.
  - intros [H ->]. apply D in H. now rewrite H.
Qed.
Print Assumptions C41_project_calls_exact.
(** Calls that only read, and making a bookmark of one's own. *)
Definition only_reads (k : Call) : bool :=
  match k with
  | AccountsGet | AccountsList | OrgsList | BackupsGet | BackupsList | SettingsGet | OrgsGet _ | SwitchOrganization _ | ProjectsList
  | ProjectsGet _ | BookmarksGet _ | ReportsGet _ | ReportsList _ | DashboardsGet _ | DashboardsList _ | GroupRecordsGet _
  | GroupRecordsSearch _ | EventRecordsGet _ | EventRecordsSearch _ | EventSegmentation _ | Funnel _ | PropertiesValues _
  | EventsGet _ | EventsGetByName _ | EventsList _ | PropertiesGet _ | PropertiesGetByName _ | PropertiesList _
  | GroupsList _ | CustomEventsGet _ | CustomEventsList _ => true
  | BookmarksCreate _ => true
  | _ => false
  end.
Theorem C41_readers_change_nothing : forall c k,
  cx_role c = None -> (forall o r, in_org c o r -> r = OrgMember) -> (forall p r, in_project c p r -> r = JReader) ->
  allowed c k = true -> only_reads k = true.
Proof.
  intros c k G O P A. apply C41_calls_exact in A. destruct A as [A|A]; [congruence|].
  assert (Ow : forall o, ~ in_org c o OrgOwner) by (intros o H; now specialize (O _ _ H)).
  assert (Ad : forall o, ~ in_org c o OrgAdmin) by (intros o H; now specialize (O _ _ H)).
  assert (Pj : forall p, ~ (exists r, in_project c p r /\ 2 <= proj_rank r)).
  { intros p (r & H & L). rewrite (P _ _ H) in L. cbn in L. inversion L. inversion H1. }
  destruct k; cbn in A |- *; try reflexivity; exfalso; try contradiction; try (now apply (Ow _ A));
    try (destruct A as [A|A]; [now apply (Ow _ A)|now apply (Ad _ A)]);
    destruct A as [A|[A|(r & H & L)]]; try (now apply (Ow _ A)); try (now apply (Ad _ A)); apply (Pj p); exists r; (split; [exact H|]);
    (eapply PeanoNat.Nat.le_trans; [|exact L]); auto.
Qed.
Print Assumptions C41_readers_change_nothing.
Example C41_calls_witness :
  let reader := mkCtx 7 1 None (Some [(1%N, OrgMember)]) (Some [(4%N, JReader)]) in
  (forall o r, in_org reader o r -> r = OrgMember) /\ (forall p r, in_project reader p r -> r = JReader)
  /\ allowed reader (ReportsGet 4) = true /\ allowed reader (ReportsUpdate 4) = false /\ meets reader (needs 1 (BookmarksCreate 4)).
Proof.
  split; [|split; [|split; [reflexivity|split; [reflexivity|apply (C41_calls_exact (mkCtx 7 1 None (Some [(1%N, OrgMember)]) (Some [(4%N, JReader)])) (BookmarksCreate 4)); reflexivity]]]].
  - intros o r H. apply org_role_listed in H. unfold organization_role in H. cbn [role_in cx_orgs] in H. destruct (N.eqb 1 o) in H; now inversion H.
  - intros p r H. apply proj_role_listed in H. unfold project_role in H. cbn [role_in cx_projects] in H. destruct (N.eqb 4 p) in H; now inversion H.
Qed.

(** ** C120: whoever has a role can open what it is a role in. *)
(** Owners can. *)
Theorem C120_owners_partial : forall c,
  (forall o, in_org c o OrgOwner -> allowed c (OrgsGet o) = true /\ allowed c (SwitchOrganization o) = true)
  /\ (in_org c (cx_org c) OrgOwner -> allowed c ProjectsList = true)
  /\ (forall p, in_project c p JOwner -> allowed c (ProjectsGet p) = true).
Proof.
  intro c. repeat split; intros; apply C41_calls_exact; right; cbn; auto. right. right. eauto.
Qed.
Print Assumptions C120_owners_partial.
(** Administrators and members of an organization can neither read it, nor switch to it, nor
    list its projects, unless they administer the server. *)
Theorem C120_organization_refuted : forall c o r, cx_role c = None -> in_org c o r -> r <> OrgOwner ->
  allowed c (OrgsGet o) = false /\ allowed c (SwitchOrganization o) = false /\ (o = cx_org c -> allowed c ProjectsList = false).
Proof.
  intros c o r G H Hn.
  assert (X : ~ meets c (NOrgOwner o)).
  { intros [E|E]; [congruence|]. apply org_role_listed in E. apply org_role_listed in H. congruence. }
  repeat split; [| |intros ->]; match goal with |- ?a = false => destruct a eqn:E; [|reflexivity] end; exfalso; apply X; now apply C41_calls_exact in E.
Qed.
Print Assumptions C120_organization_refuted.
(** Administrators, members and readers of a project cannot read its record, although its
    administrators can change it. *)
Theorem C120_project_refuted : forall c p r, cx_role c = None -> ~ in_org c (cx_org c) OrgOwner -> ~ in_org c (cx_org c) OrgAdmin ->
  in_project c p r -> r <> JOwner ->
  allowed c (ProjectsGet p) = false /\ (r = JAdmin -> allowed c (ProjectsUpdate p) = true).
Proof.
  intros c p r G O A H Hn. split.
  - destruct (allowed c (ProjectsGet p)) eqn:E; [|reflexivity]. exfalso. apply C41_calls_exact in E. destruct E as [E|[E|[E|(r' & E & L)]]]; try congruence; auto.
    apply proj_role_listed in E. apply proj_role_listed in H. assert (r' = r) by congruence. subst. destruct r; cbn in L; [congruence| | |]; repeat (apply le_S_n in L); inversion L.
  - intros ->. apply C41_calls_exact. right. right. right. exists JAdmin. auto.
Qed.
Print Assumptions C120_project_refuted.
Example C120_witness :
  let c := mkCtx 7 1 None (Some [(1%N, OrgMember); (2%N, OrgAdmin)]) (Some [(4%N, JAdmin)]) in
  in_org c 1 OrgMember /\ in_org c 2 OrgAdmin /\ in_project c 4 JAdmin /\ allowed c (SwitchOrganization 2) = false
  /\ allowed c (ProjectsGet 4) = false /\ allowed c (ProjectsUpdate 4) = true
  /\ allowed (mkCtx 7 1 None (Some [(1%N, OrgOwner)]) None) (SwitchOrganization 1) = true.
Proof. repeat split; try (apply org_role_listed; reflexivity); apply proj_role_listed; reflexivity. Qed.

(** ** C42 *)
(** A role that entitles to touch the project [p] owned by organization [o]. *)
Definition entitled (c : Ctx) (o p : N) : Prop :=
  cx_role c = Some GAdmin \/ (exists r, in_org c o r) \/ (exists r, in_project c p r).

(** An owner or administrator of any organization may read, change and delete every project
    of every other organization. *)
Theorem C42_other_organization_refuted :
  forall c id s prj,
    in_org c (cx_org c) OrgOwner \/ in_org c (cx_org c) OrgAdmin ->
    project_by_id id s = Ok prj ->
    api_project_get c id s = Some (Ok prj) /\
    api_project_delete c id s = Some (project_delete id s) /\ fst (project_delete id s) = Ok prj /\
    (forall name token, api_project_update c id name token s = Some (project_update id name token s)).
Proof.
  intros c id s prj R H.
  assert (A : forall p, check_project_permission c (cx_org c) id p = true).
  { intro p. apply C41_project_access_exact. destruct R as [R|R]; auto. }
  unfold api_project_get, api_project_delete, api_project_update, allowed. rewrite !A, H. repeat split.
  unfold project_delete. now rewrite H.
Qed.
Print Assumptions C42_other_organization_refuted.
Example C42_other_organization_refuted_witness :
  let s := md_run (fun x => x) [OProjectCreate 1 "mine" "t1" 60; OProjectCreate 2 "theirs" "t2" 60] [] in
  let c := mkCtx 7 1 None (Some [(1%N, OrgAdmin)]) None in
  project_by_id 2 s = Ok (mkProject 2 2 "theirs" "t2" 60 0) /\ ~ entitled c 2 2 /\
  api_project_get c 2 s = Some (Ok (mkProject 2 2 "theirs" "t2" 60 0)).
Proof.
  split; [reflexivity|]. split; [|reflexivity]. intros [H|[(r & H)|(r & H)]]; [discriminate|apply org_role_listed in H; discriminate|apply proj_role_listed in H; discriminate].
Qed.
(** What holds: callers acting in the owning organization, and callers that are neither owner
    nor administrator of the organization they act in, need a role in that organization or in
    the project. *)
Theorem C42_access_needs_role_partial :
  forall c id s prj,
    project_by_id id s = Ok prj ->
    cx_org c = pr_org prj \/ (~ in_org c (cx_org c) OrgOwner /\ ~ in_org c (cx_org c) OrgAdmin) ->
    ~ entitled c (pr_org prj) id ->
    api_project_get c id s = None /\ (forall name token, api_project_update c id name token s = None) /\ api_project_delete c id s = None.
Proof.
  intros c id s prj _ H Ne.
  assert (A : forall p, check_project_permission c (cx_org c) id p = false).
  { intro p. destruct (check_project_permission c (cx_org c) id p) eqn:E; [|reflexivity]. exfalso.
    apply C41_project_access_exact in E. apply Ne. unfold entitled. destruct E as [E|[E|[E|(r & E & _)]]].
    - auto.
    - destruct H as [<-|[H _]]; [right; left; eauto|contradiction].
    - destruct H as [<-|[_ H]]; [right; left; eauto|contradiction].
    - right. right. eauto. }
  unfold api_project_get, api_project_update, api_project_delete, allowed. rewrite !A. auto.
Qed.
Print Assumptions C42_access_needs_role_partial.
Example C42_access_needs_role_partial_witness :
  let s := md_run (fun x => x) [OProjectCreate 1 "mine" "t1" 60; OProjectCreate 2 "theirs" "t2" 60] [] in
  let c := mkCtx 7 1 None (Some [(1%N, OrgMember)]) (Some [(1%N, JOwner)]) in
  project_by_id 2 s = Ok (mkProject 2 2 "theirs" "t2" 60 0) /\ ~ entitled c 2 2 /\
  api_project_get c 1 s = Some (Ok (mkProject 1 1 "mine" "t1" 60 0)).
Proof.
  split; [reflexivity|]. split; [|reflexivity]. intros [H|[(r & H)|(r & H)]]; [discriminate|apply org_role_listed in H; discriminate|apply proj_role_listed in H; discriminate].
Qed.

(** ** C43 *)
(** After any history: a listing that is allowed returns exactly the stored projects of the
    organization the caller acts in; it is allowed exactly for its owners and global
    administrators. *)
Theorem C43_listing_exact :
  forall snake ops c, forallb wf_op ops = true ->
    let s := md_run snake ops [] in
    (api_project_list c s <> None <-> cx_role c = Some GAdmin \/ in_org c (cx_org c) OrgOwner) /\
    (forall l, api_project_list c s = Some l -> forall prj,
       In prj l <-> pr_org prj = cx_org c /\ exists id, kget (make_data_value_key "projects" id) s = Some (VRec (RProject prj))).
Proof.
  intros snake ops c W s.
  assert (A : allowed c ProjectsList = true <-> cx_role c = Some GAdmin \/ in_org c (cx_org c) OrgOwner).
  { rewrite <- org_role_listed. cbn. unfold check_organization_permission, check_permission. destruct (cx_role c) as [[]|]; [cbn; tauto|].
    destruct (organization_role c (cx_org c)) as [[]|]; cbn; intuition congruence. }
  split.
  - unfold api_project_list. destruct (allowed c ProjectsList) eqn:E; split; intro H; try congruence; try (now apply A).
    intro F. apply A in H. discriminate.
  - intros l Hl prj. unfold api_project_list in Hl. destruct (allowed c ProjectsList) eqn:E; [|discriminate]. injection Hl as <-.
    assert (Ok1 : forall p, check_project_permission c (cx_org c) p JViewProject = true).
    { intro p. apply C41_project_access_exact. pose proof (proj1 A eq_refl). tauto. }
    rewrite filter_In, filter_In, Ok1, N.eqb_eq, in_flat_map.
    pose proof (fun v => list_ns snake ops (NRoot RProjects) v W) as L. change (ns_str (NRoot RProjects)) with "projects" in L. fold s in L.
    unfold project_list. split.
    + intros [[(v & Hv & Hp) Ho] _]. split; [exact Ho|]. apply L in Hv as (id & Hv). exists id.
      destruct v as [| |[]]; cbn in Hp; try contradiction. destruct Hp as [->|[]]. exact Hv.
    + intros [Ho (id & Hv)]. split; [|reflexivity]. split; [|exact Ho]. exists (VRec (RProject prj)). split; [|now left].
      apply L. exists id. exact Hv.
Qed.
Print Assumptions C43_listing_exact.
Example C43_witness :
  let s := md_run (fun x => x) [OProjectCreate 1 "a" "t1" 60; OProjectCreate 2 "b" "t2" 60; OProjectCreate 1 "c" "t3" 60] [] in
  api_project_list (mkCtx 7 1 None (Some [(1%N, OrgOwner)]) None) s = Some [mkProject 1 1 "a" "t1" 60 0; mkProject 3 1 "c" "t3" 60 0] /\
  api_project_list (mkCtx 7 1 None (Some [(1%N, OrgAdmin)]) (Some [(1%N, JOwner)])) s = None.
Proof. vm_compute. split; reflexivity. Qed.
