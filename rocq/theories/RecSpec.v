(** What is read back of a metadata record that was stored, and which records the program can
    hold.  Stated without the encoding. *)
From Coq Require Import List NArith ZArith Bool.
From Verif Require Import Bytes BytesFacts Value Memtable SavedQuery SavedQueryFacts RecCodec.
Import ListNotations.
Local Open Scope N_scope.

(** *** Records the program can hold: numbers fit their Rust types. *)
Definition i64_ok (z : Z) : Prop := (- 2 ^ 63 <= z < 2 ^ 63)%Z.
Definition fits (w : Z) (z : Z) : Prop := (- 2 ^ (w - 1) <= z < 2 ^ (w - 1))%Z.
Definition opt {A} (P : A -> Prop) (o : option A) : Prop := match o with Some a => P a | None => True end.
(** A [DateTime<Utc>] in nanoseconds: its seconds fit 64 bits. *)
Definition time_ok (t : Z) : Prop := i64_ok (t / 1000000000).
Definition stamps_ok (s : Stamps) : Prop :=
  u64 (sp_id s) /\ time_ok (sp_created s) /\ u64 (sp_by s) /\ opt time_ok (sp_updated s) /\ opt u64 (sp_updated_by s).
Definition members_ok {R} (l : list (N * R)) : Prop := Forall (fun m => u64 (fst m)) l.

(** *** What reading gives *)
(** The start of the second. *)
Definition whole (t : Z) : Z := (t - t mod 1000000000)%Z.
Definition as_read_stamps (s : Stamps) : Stamps :=
  mkStamps (sp_id s) (whole (sp_created s)) (sp_by s) (option_map whole (sp_updated s)) (sp_updated_by s).
(** A list that is there but empty is read as absent. *)
Definition as_read_list {A} (o : option (list A)) : option (list A) :=
  match o with Some [] => None | _ => o end.

Definition account_ok (a : FAccount) : Prop :=
  stamps_ok (fac_stamps a) /\ opt members_ok (fac_orgs a) /\ opt members_ok (fac_projects a) /\ opt members_ok (fac_teams a).
Definition as_read_account (a : FAccount) : FAccount :=
  mkFAccount (as_read_stamps (fac_stamps a)) (fac_hash a) (fac_email a) (fac_name a) (fac_admin a) (fac_force_password a)
    (fac_force_email a) (as_read_list (fac_orgs a)) (as_read_list (fac_projects a)) (as_read_list (fac_teams a)).

Definition organization_ok (o : FOrganization) : Prop := stamps_ok (fog_stamps o) /\ members_ok (fog_members o).
Definition as_read_organization (o : FOrganization) : FOrganization :=
  mkFOrganization (as_read_stamps (fog_stamps o)) (fog_name o) (fog_members o).

Definition team_ok (t : FTeam) : Prop := stamps_ok (ftm_stamps t) /\ u64 (ftm_org t).
Definition as_read_team (t : FTeam) : FTeam := mkFTeam (as_read_stamps (ftm_stamps t)) (ftm_org t) (ftm_name t).

Definition project_ok (p : FProject) : Prop :=
  stamps_ok (fpj_stamps p) /\ u64 (fpj_org p) /\ u64 (fpj_session p) /\ u64 (fpj_events p).
Definition as_read_project (p : FProject) : FProject :=
  mkFProject (as_read_stamps (fpj_stamps p)) (fpj_org p) (fpj_name p) (fpj_descr p) (as_read_list (fpj_tags p)) (fpj_token p)
    (fpj_session p) (fpj_events p).

Definition session_ok (s : FSession) : Prop := u64 (fse_user s) /\ time_ok (fse_created s).
Definition as_read_session (s : FSession) : FSession := mkFSession (fse_user s) (whole (fse_created s)).

(** The place of a panel is kept modulo 2^32. *)
Definition panel_ok (p : FPanel) : Prop := u64 (fpn_report p).
Definition as_read_panel (p : FPanel) : FPanel :=
  mkFPanel (fpn_report p) (fpn_x p mod 2 ^ 32) (fpn_y p mod 2 ^ 32) (fpn_w p mod 2 ^ 32) (fpn_h p mod 2 ^ 32).
Definition dashboard_ok (d : FDashboard) : Prop :=
  stamps_ok (fdb_stamps d) /\ u64 (fdb_project d) /\ Forall panel_ok (fdb_panels d).
Definition as_read_dashboard (d : FDashboard) : FDashboard :=
  mkFDashboard (as_read_stamps (fdb_stamps d)) (fdb_project d) (as_read_list (fdb_tags d)) (fdb_name d) (fdb_descr d)
    (map as_read_panel (fdb_panels d)).

(** The lists of properties of an event are lost. *)
Definition event_ok (e : FEventRec) : Prop := stamps_ok (fev_stamps e) /\ u64 (fev_project e).
Definition as_read_event (e : FEventRec) : FEventRec :=
  mkFEventRec (as_read_stamps (fev_stamps e)) (fev_project e) (as_read_list (fev_tags e)) (fev_name e) (fev_display e)
    (fev_descr e) (fev_status e) (fev_system e) None None None.

Definition property_ok (p : FProperty) : Prop :=
  stamps_ok (fpr_stamps p) /\ u64 (fpr_project p) /\ u64 (fpr_order p)
  /\ match fpr_kind p with PkEvent => True | PkGroup g => u64 g end.
Definition as_read_property (p : FProperty) : FProperty :=
  mkFProperty (as_read_stamps (fpr_stamps p)) (fpr_project p) (as_read_list (fpr_tags p)) (fpr_name p) (fpr_display p)
    (fpr_descr p) (fpr_order p) (fpr_kind p) (fpr_type p) (fpr_status p) (fpr_system p) (fpr_nullable p) (fpr_hidden p)
    (fpr_array p) (fpr_dictionary p) (fpr_dict_type p).

(** Values of a group's properties that can be stored: not a list, and not absent. *)
Definition gvalue_ok (v : GValue) : Prop :=
  match v with
  | GNull | GString (Some _) | GBool (Some _) => True
  | GInt8 (Some z) => fits 8 z | GInt16 (Some z) => fits 16 z | GInt32 (Some z) => fits 32 z
  | GInt64 (Some z) | GTimestamp (Some z) => fits 64 z | GDecimal (Some z) => fits 128 z
  | _ => False
  end.
Definition group_values_ok (g : FGroupValues) : Prop :=
  u64 (fgv_id g) /\ Forall (fun v => u64 (fst v) /\ gvalue_ok (snd v)) (fgv_values g).
Definition group_ok (g : FGroup) : Prop := u64 (fgr_id g).

Definition backup_ok (b : FBackup) : Prop :=
  u64 (fbk_id b) /\ time_ok (fbk_created b) /\ opt time_ok (fbk_updated b)
  /\ match fbk_status b with BsInProgress n => u64 n | _ => True end.
Definition as_read_backup (b : FBackup) : FBackup :=
  mkFBackup (fbk_id b) (whole (fbk_created b)) (option_map whole (fbk_updated b)) (fbk_provider b) (fbk_status b)
    (fbk_encrypted b) (fbk_password b).

(** A filter value of a custom event: a decimal gets precision 28 and scale 16 whatever it
    had, a timestamp loses its zone. *)
Definition cvalue_ok (v : Scalar) : Prop :=
  match v with
  | SNull | SBoolean None | SDecimal None _ _ | SInt8 None | SInt16 None | SInt32 None | SInt64 None | SUtf8 None
  | STimestampMs None _ => False
  | SBoolean (Some _) | SUtf8 (Some _) => True
  | SInt8 (Some z) => fits 8 z | SInt16 (Some z) => fits 16 z | SInt32 (Some z) => fits 32 z
  | SInt64 (Some z) | STimestampMs (Some z) _ => fits 64 z | SDecimal (Some z) _ _ => fits 128 z
  end.
Definition as_read_cvalue (v : Scalar) : Scalar :=
  match v with
  | SDecimal o _ _ => SDecimal o 28 16
  | STimestampMs o _ => STimestampMs o None
  | v => v
  end.
Definition cfilter_ok (f : PropFilter) : Prop :=
  match f with
  | PFProperty p _ v =>
    match p with PRGroup _ g => u64 g | PREvent _ => True | PRCustom i => u64 i end /\ opt (Forall cvalue_ok) v
  end.
(** A filter without values is read as one with an empty list of values. *)
Definition as_read_cfilter (f : PropFilter) : PropFilter :=
  match f with PFProperty p op v => PFProperty p op (Some (map as_read_cvalue (match v with Some l => l | None => [] end))) end.
Definition cevent_ok (e : CEvent) : Prop :=
  match cev_event e with ERegularName _ => True | ERegular i | ECustom i => u64 i end /\ opt (Forall cfilter_ok) (cev_filters e).
Definition as_read_cevent (e : CEvent) : CEvent :=
  mkCEvent (cev_event e) (as_read_list (option_map (map as_read_cfilter) (cev_filters e))).
Definition custom_ok (c : FCustom) : Prop :=
  stamps_ok (fcu_stamps c) /\ u64 (fcu_project c) /\ Forall cevent_ok (fcu_events c).
Definition as_read_custom (c : FCustom) : FCustom :=
  mkFCustom (as_read_stamps (fcu_stamps c)) (fcu_project c) (as_read_list (fcu_tags c)) (fcu_name c) (fcu_descr c)
    (fcu_status c) (fcu_system c) (map as_read_cevent (fcu_events c)).

Definition report_ok (is_time : Z -> Prop) (r : FReport) : Prop :=
  stamps_ok (frp_stamps r) /\ u64 (frp_project r) /\ query_ok is_time (frp_query r).
Definition as_read_report (r : FReport) : FReport :=
  mkFReport (as_read_stamps (frp_stamps r)) (frp_project r) (as_read_list (frp_tags r)) (frp_name r) (frp_descr r)
    (frp_type r) (frp_query r).
Definition bookmark_ok (is_time : Z -> Prop) (b : FBookmark) : Prop :=
  time_ok (fbm_created b) /\ u64 (fbm_by b) /\ u64 (fbm_project b) /\ opt (query_ok is_time) (fbm_query b).
Definition as_read_bookmark (b : FBookmark) : FBookmark :=
  mkFBookmark (fbm_id b) (whole (fbm_created b)) (fbm_by b) (fbm_project b) (fbm_query b).

(** The encoding is shorter than 2^64 bytes. *)
Definition fits_memory (b : list N) : Prop := N.of_nat (length b) < 2 ^ 64.

(** *** Records that are read back unchanged *)
Definition second_exact (t : Z) : Prop := (t mod 1000000000 = 0)%Z.
Definition stamps_exact (s : Stamps) : Prop := second_exact (sp_created s) /\ opt second_exact (sp_updated s).
Definition list_exact {A} (o : option (list A)) : Prop := o <> Some [].
Definition account_exact (a : FAccount) : Prop :=
  stamps_exact (fac_stamps a) /\ list_exact (fac_orgs a) /\ list_exact (fac_projects a) /\ list_exact (fac_teams a).
Definition project_exact (p : FProject) : Prop := stamps_exact (fpj_stamps p) /\ list_exact (fpj_tags p).
Definition panel_exact (p : FPanel) : Prop := fpn_x p < 2 ^ 32 /\ fpn_y p < 2 ^ 32 /\ fpn_w p < 2 ^ 32 /\ fpn_h p < 2 ^ 32.
Definition dashboard_exact (d : FDashboard) : Prop :=
  stamps_exact (fdb_stamps d) /\ list_exact (fdb_tags d) /\ Forall panel_exact (fdb_panels d).
Definition event_exact (e : FEventRec) : Prop :=
  stamps_exact (fev_stamps e) /\ list_exact (fev_tags e)
  /\ fev_event_props e = None /\ fev_user_props e = None /\ fev_custom_props e = None.
Definition property_exact (p : FProperty) : Prop := stamps_exact (fpr_stamps p) /\ list_exact (fpr_tags p).
Definition backup_exact (b : FBackup) : Prop := second_exact (fbk_created b) /\ opt second_exact (fbk_updated b).
Definition report_exact (r : FReport) : Prop := stamps_exact (frp_stamps r) /\ list_exact (frp_tags r).
(** A decimal has scale 16 and precision 28, a timestamp has no zone, a filter has values. *)
Definition cvalue_exact (v : Scalar) : Prop :=
  match v with SDecimal _ p s => p = 28 /\ s = 16%Z | STimestampMs _ z => z = None | _ => True end.
Definition cfilter_exact (f : PropFilter) : Prop :=
  match f with PFProperty _ _ v => exists l, v = Some l /\ Forall cvalue_exact l end.
Definition cevent_exact (e : CEvent) : Prop := list_exact (cev_filters e) /\ opt (Forall cfilter_exact) (cev_filters e).
Definition custom_exact (c : FCustom) : Prop :=
  stamps_exact (fcu_stamps c) /\ list_exact (fcu_tags c) /\ Forall cevent_exact (fcu_events c).
