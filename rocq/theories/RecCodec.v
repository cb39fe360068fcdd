(** The stored form of the metadata records: the [serialize] and [deserialize] functions of
    src/metadata/src/*.rs over the messages of src/metadata/src/pb/*.proto.

    Strings are byte lists; prost's UTF-8 check is not modelled.  [usize] is [u64].  A time is
    a number of nanoseconds: [timestamp()] gives whole seconds, [from_timestamp(s, 0)] the
    start of a second (its [unwrap] fails only outside chrono's range, where no time that was
    written can be).  Writing gives [None] where the code panics; reading gives [None] where
    it fails or panics. *)
From Coq Require Import List NArith ZArith Bool.
From Verif Require Import Bytes Value Memtable Proto MdCodec SavedQuery.
Import ListNotations.
Local Open Scope N_scope.
Local Notation "'do' x <- a ; b" := (obind a (fun x => b)) (at level 200, x name, a at level 100, b at level 200).

(** *** Fields used by several messages *)
Definition NANOS : Z := 1000000000.
Definition secs (t : Z) : Z := (t / NANOS)%Z.
Definition of_secs (s : Z) : Z := (s * NANOS)%Z.
(** int64 *)
Definition put_int (t : N) (z : Z) : Fields := put_uint t (to_unsigned 64 z).
Definition put_oint (t : N) (o : option Z) : Fields := put_ouint t (option_map (to_unsigned 64) o).
Definition get_int (t : N) (fs : Fields) : option Z := option_map (of_unsigned 64) (get_uint t fs).
Definition get_oint (t : N) (fs : Fields) : option (option Z) := option_map (option_map (of_unsigned 64)) (get_ouint t fs).
(** repeated string *)
Definition put_strs (t : N) (l : list Str) : Fields := map (fun b => (t, WB b)) l.
Definition get_strs (t : N) (fs : Fields) : option (list Str) := all_bytes (occurrences t fs).
(** A list that may be absent is written as if it were empty and read back as absent when it
    is empty, e.g. projects.rs 241-245 and 279-283. *)
Definition or_empty {A} (o : option (list A)) : list A := match o with Some l => l | None => [] end.
Definition unless_empty {A} (l : list A) : option (list A) := match l with [] => None | _ => Some l end.

(** The first five fields of most messages: id, created_at, created_by, updated_at, updated_by. *)
Record Stamps := mkStamps { sp_id : N; sp_created : Z; sp_by : N; sp_updated : option Z; sp_updated_by : option N }.
Definition put_stamps (s : Stamps) : Fields :=
  put_uint 1 (sp_id s) ++ put_int 2 (secs (sp_created s)) ++ put_uint 3 (sp_by s)
  ++ put_oint 4 (option_map secs (sp_updated s)) ++ put_ouint 5 (sp_updated_by s).
Definition get_stamps (fs : Fields) : option Stamps :=
  do i <- get_uint 1 fs; do c <- get_int 2 fs; do b <- get_uint 3 fs; do u <- get_oint 4 fs; do ub <- get_ouint 5 fs;
  Some (mkStamps i (of_secs c) b (option_map of_secs u) ub).

(** *** Accounts, organizations, teams: accounts.rs 243-259 and 310-451, organizations.rs
    231-240 and 260-307, teams.rs 183-192 and 208-236 *)
Inductive FOrgRole := FoOwner | FoAdmin | FoMember.                       (* common/src/rbac.rs 31-36 *)
Inductive FProjRole := FpOwner | FpAdmin | FpMember | FpReader.
Definition org_role_no (r : FOrgRole) : N := match r with FoOwner => 1 | FoAdmin => 2 | FoMember => 3 end.
Definition org_role_of (n : N) : option FOrgRole :=
  match n with 1 => Some FoOwner | 2 => Some FoAdmin | 3 => Some FoMember | _ => None end.
Definition proj_role_no (r : FProjRole) : N := match r with FpOwner => 1 | FpAdmin => 2 | FpMember => 3 | FpReader => 4 end.
Definition proj_role_of (n : N) : option FProjRole :=
  match n with 1 => Some FpOwner | 2 => Some FpAdmin | 3 => Some FpMember | 4 => Some FpReader | _ => None end.
(** [Role] has one value, Admin. *)
Definition role_of (n : N) : option unit := match n with 1 => Some tt | _ => None end.
Definition put_member {R} (no : R -> N) (m : N * R) : Fields := put_uint 1 (fst m) ++ put_uint 2 (no (snd m)).
Definition get_member {R} (of : N -> option R) (b : list N) : option (N * R) :=
  do fs <- dec_fields b; do i <- get_uint 1 fs; do r <- get_uint 2 fs; do r' <- of (u32 r); Some (i, r').

Record FAccount := mkFAccount
  { fac_stamps : Stamps; fac_hash : Str; fac_email : Str; fac_name : option Str; fac_admin : option unit;
    fac_force_password : bool; fac_force_email : bool; fac_orgs : option (list (N * FOrgRole));
    fac_projects : option (list (N * FProjRole)); fac_teams : option (list (N * unit)) }.
(** accounts.rs 310-381 *)
Definition put_account (a : FAccount) : Fields :=
  put_stamps (fac_stamps a) ++ put_bytes 6 (fac_hash a) ++ put_bytes 7 (fac_email a) ++ put_obytes 8 (fac_name a)
  ++ put_ouint 9 (option_map (fun _ => 1) (fac_admin a))
  ++ put_bool 10 (fac_force_password a) ++ put_bool 11 (fac_force_email a)
  ++ put_rep 12 (map (put_member org_role_no) (or_empty (fac_orgs a)))
  ++ put_rep 13 (map (put_member proj_role_no) (or_empty (fac_projects a)))
  ++ put_rep 14 (map (put_member (fun _ : unit => 1)) (or_empty (fac_teams a))).
Definition write_account (a : FAccount) : list N := enc_fields (put_account a).
(** accounts.rs 383-451 *)
Definition read_account (b : list N) : option FAccount :=
  do fs <- dec_fields b; do st <- get_stamps fs;
  do h <- get_bytes 6 fs; do e <- get_bytes 7 fs; do n <- get_obytes 8 fs; do r <- get_ouint 9 fs;
  do ad <- match r with None => Some None | Some v => option_map Some (role_of (u32 v)) end;
  do fp <- get_bool 10 fs; do fe <- get_bool 11 fs;
  do os <- get_rep 12 fs; do orgs <- omap (get_member org_role_of) os;
  do ps <- get_rep 13 fs; do projs <- omap (get_member proj_role_of) ps;
  do ts <- get_rep 14 fs; do teams <- omap (get_member role_of) ts;
  Some (mkFAccount st h e n ad fp fe (unless_empty orgs) (unless_empty projs) (unless_empty teams)).

Record FOrganization := mkFOrganization { fog_stamps : Stamps; fog_name : Str; fog_members : list (N * FOrgRole) }.
(** organizations.rs 260-279; [role.clone() as i32] is the number of common/src/rbac.rs 31-36. *)
Definition put_organization (o : FOrganization) : Fields :=
  put_stamps (fog_stamps o) ++ put_bytes 6 (fog_name o) ++ put_rep 7 (map (put_member org_role_no) (fog_members o)).
Definition write_organization (o : FOrganization) : list N := enc_fields (put_organization o).
(** organizations.rs 282-307 *)
Definition read_organization (b : list N) : option FOrganization :=
  do fs <- dec_fields b; do st <- get_stamps fs; do n <- get_bytes 6 fs;
  do ms <- get_rep 7 fs; do mem <- omap (get_member org_role_of) ms;
  Some (mkFOrganization st n mem).

Record FTeam := mkFTeam { ftm_stamps : Stamps; ftm_org : N; ftm_name : Str }.
(** teams.rs 208-220 *)
Definition put_team (t : FTeam) : Fields := put_stamps (ftm_stamps t) ++ put_uint 6 (ftm_org t) ++ put_bytes 7 (ftm_name t).
Definition write_team (t : FTeam) : list N := enc_fields (put_team t).
(** teams.rs 222-236 *)
Definition read_team (b : list N) : option FTeam :=
  do fs <- dec_fields b; do st <- get_stamps fs; do o <- get_uint 6 fs; do n <- get_bytes 7 fs; Some (mkFTeam st o n).

(** *** Projects: projects.rs 199-214, 240-288 *)
Record FProject := mkFProject
  { fpj_stamps : Stamps; fpj_org : N; fpj_name : Str; fpj_descr : option Str; fpj_tags : option (list Str);
    fpj_token : Str; fpj_session : N; fpj_events : N }.
Definition put_project (p : FProject) : Fields :=
  put_stamps (fpj_stamps p) ++ put_uint 6 (fpj_org p) ++ put_bytes 7 (fpj_name p) ++ put_obytes 8 (fpj_descr p)
  ++ put_strs 9 (or_empty (fpj_tags p)) ++ put_bytes 10 (fpj_token p) ++ put_uint 11 (fpj_session p)
  ++ put_uint 12 (fpj_events p).
Definition write_project (p : FProject) : list N := enc_fields (put_project p).
Definition read_project (b : list N) : option FProject :=
  do fs <- dec_fields b; do st <- get_stamps fs; do o <- get_uint 6 fs; do n <- get_bytes 7 fs; do d <- get_obytes 8 fs;
  do tg <- get_strs 9 fs; do tk <- get_bytes 10 fs; do ss <- get_uint 11 fs; do ev <- get_uint 12 fs;
  Some (mkFProject st o n d (unless_empty tg) tk ss ev).

(** *** Sessions: sessions.rs 135-158 *)
Record FSession := mkFSession { fse_user : N; fse_created : Z }.
Definition put_session (s : FSession) : Fields := put_uint 1 (fse_user s) ++ put_int 2 (secs (fse_created s)).
Definition write_session (s : FSession) : list N := enc_fields (put_session s).
Definition read_session (b : list N) : option FSession :=
  do fs <- dec_fields b; do u <- get_uint 1 fs; do c <- get_int 2 fs; Some (mkFSession u (of_secs c)).

(** *** Dashboards: dashboards.rs 161-191, 213-285.  A panel's type has one value. *)
Record FPanel := mkFPanel { fpn_report : N; fpn_x : N; fpn_y : N; fpn_w : N; fpn_h : N }.
Record FDashboard := mkFDashboard
  { fdb_stamps : Stamps; fdb_project : N; fdb_tags : option (list Str); fdb_name : Str; fdb_descr : option Str;
    fdb_panels : list FPanel }.
(** 220-232: the place of a panel is cut to 32 bits. *)
Definition put_panel (p : FPanel) : Fields :=
  put_uint 1 1 ++ put_uint 2 (fpn_report p) ++ put_uint 3 (u32 (fpn_x p)) ++ put_uint 4 (u32 (fpn_y p))
  ++ put_uint 5 (u32 (fpn_w p)) ++ put_uint 6 (u32 (fpn_h p)).
Definition get_panel (b : list N) : option FPanel :=
  do fs <- dec_fields b; do t <- get_uint 1 fs; do _t <- role_of (u32 t); do r <- get_uint 2 fs;
  do x <- get_uint 3 fs; do y <- get_uint 4 fs; do w <- get_uint 5 fs; do h <- get_uint 6 fs;
  Some (mkFPanel r (u32 x) (u32 y) (u32 w) (u32 h)).
Definition put_dashboard (d : FDashboard) : Fields :=
  put_stamps (fdb_stamps d) ++ put_uint 6 (fdb_project d) ++ put_strs 7 (or_empty (fdb_tags d)) ++ put_bytes 8 (fdb_name d)
  ++ put_obytes 9 (fdb_descr d) ++ put_rep 10 (map put_panel (fdb_panels d)).
Definition write_dashboard (d : FDashboard) : list N := enc_fields (put_dashboard d).
Definition read_dashboard (b : list N) : option FDashboard :=
  do fs <- dec_fields b; do st <- get_stamps fs; do p <- get_uint 6 fs; do tg <- get_strs 7 fs; do n <- get_bytes 8 fs;
  do d <- get_obytes 9 fs; do pr <- get_rep 10 fs; do ps <- omap get_panel pr;
  Some (mkFDashboard st p (unless_empty tg) n d ps).

(** *** Events: events.rs 415-439, 469-527.  The three lists of properties have no field in
    the message. *)
Inductive FStatus := FEnabled | FDisabled.
Definition status_no (s : FStatus) : N := match s with FEnabled => 1 | FDisabled => 2 end.
Definition status_of (n : N) : option FStatus := match n with 1 => Some FEnabled | 2 => Some FDisabled | _ => None end.
Record FEventRec := mkFEventRec
  { fev_stamps : Stamps; fev_project : N; fev_tags : option (list Str); fev_name : Str; fev_display : option Str;
    fev_descr : option Str; fev_status : FStatus; fev_system : bool; fev_event_props : option (list N);
    fev_user_props : option (list N); fev_custom_props : option (list N) }.
Definition put_event (e : FEventRec) : Fields :=
  put_stamps (fev_stamps e) ++ put_uint 6 (fev_project e) ++ put_strs 7 (or_empty (fev_tags e)) ++ put_bytes 8 (fev_name e)
  ++ put_obytes 9 (fev_display e) ++ put_obytes 10 (fev_descr e) ++ put_uint 11 (status_no (fev_status e))
  ++ put_bool 12 (fev_system e).
Definition write_event (e : FEventRec) : list N := enc_fields (put_event e).
Definition read_event (b : list N) : option FEventRec :=
  do fs <- dec_fields b; do st <- get_stamps fs; do p <- get_uint 6 fs; do tg <- get_strs 7 fs; do n <- get_bytes 8 fs;
  do dn <- get_obytes 9 fs; do d <- get_obytes 10 fs; do s <- get_uint 11 fs; do s' <- status_of (u32 s); do sy <- get_bool 12 fs;
  Some (mkFEventRec st p (unless_empty tg) n dn d s' sy None None None).

(** *** Properties: properties.rs 540-607, 692-798 *)
Inductive FPropType := PtBase (d : DType) | PtList (d : DType).             (* common/src/types.rs 126-137 *)
Inductive FDictType := Dict8 | Dict16 | Dict32 | Dict64.
Inductive FPropKind := PkEvent | PkGroup (g : N).
Definition dict_no (d : FDictType) : N := match d with Dict8 => 1 | Dict16 => 2 | Dict32 => 3 | Dict64 => 4 end.
Definition dict_of (n : N) : option FDictType :=
  match n with 1 => Some Dict8 | 2 => Some Dict16 | 3 => Some Dict32 | 4 => Some Dict64 | _ => None end.
Record FProperty := mkFProperty
  { fpr_stamps : Stamps; fpr_project : N; fpr_tags : option (list Str); fpr_name : Str; fpr_display : option Str;
    fpr_descr : option Str; fpr_order : N; fpr_kind : FPropKind; fpr_type : FPropType; fpr_status : FStatus;
    fpr_system : bool; fpr_nullable : bool; fpr_hidden : bool; fpr_array : bool; fpr_dictionary : bool;
    fpr_dict_type : option FDictType }.
(** 692-740; the numbers of the types are those of table metadata ([dt_tag]); 716: a list type
    panics. *)
Definition put_property (p : FProperty) : option Fields :=
  match fpr_type p with
  | PtList _ => None
  | PtBase d => Some
    (put_stamps (fpr_stamps p) ++ put_uint 6 (fpr_project p) ++ put_strs 7 (or_empty (fpr_tags p)) ++ put_bytes 8 (fpr_name p)
     ++ put_obytes 9 (fpr_display p) ++ put_obytes 10 (fpr_descr p) ++ put_uint 11 (fpr_order p)
     ++ put_ouint 12 (match fpr_kind p with PkEvent => Some 1 | PkGroup _ => None end)
     ++ put_ouint 13 (match fpr_kind p with PkEvent => None | PkGroup g => Some g end)
     ++ put_uint 14 (dt_tag d) ++ put_uint 15 (status_no (fpr_status p)) ++ put_bool 16 (fpr_system p)
     ++ put_bool 17 (fpr_nullable p) ++ put_bool 18 (fpr_hidden p) ++ put_bool 19 (fpr_array p) ++ put_bool 20 (fpr_dictionary p)
     ++ put_ouint 21 (option_map dict_no (fpr_dict_type p)))
  end.
Definition write_property (p : FProperty) : option (list N) := option_map enc_fields (put_property p).
(** 743-798 *)
Definition read_property (b : list N) : option FProperty :=
  do fs <- dec_fields b; do st <- get_stamps fs; do p <- get_uint 6 fs; do tg <- get_strs 7 fs; do n <- get_bytes 8 fs;
  do dn <- get_obytes 9 fs; do d <- get_obytes 10 fs; do o <- get_uint 11 fs;
  do te <- get_ouint 12 fs; do tgr <- get_ouint 13 fs;
  do k <- match te with
          | Some 0 | None => option_map PkGroup tgr
          | Some _ => Some PkEvent
          end;
  do dt <- get_uint 14 fs; do dt' <- dt_of_tag (u32 dt); do s <- get_uint 15 fs; do s' <- status_of (u32 s);
  do sy <- get_bool 16 fs; do nu <- get_bool 17 fs; do hi <- get_bool 18 fs; do ar <- get_bool 19 fs; do di <- get_bool 20 fs;
  do dty <- get_ouint 21 fs; do dty' <- match dty with None => Some None | Some v => option_map Some (dict_of (u32 v)) end;
  Some (mkFProperty st p (unless_empty tg) n dn d o k (PtBase dt') s' sy nu hi ar di dty').

(** *** Groups: groups.rs 260-298, 300-399 *)
(** The list values are one constructor: none of them can be written. *)
Inductive GValue :=
| GNull | GInt8 (o : option Z) | GInt16 (o : option Z) | GInt32 (o : option Z) | GInt64 (o : option Z)
| GBool (o : option bool) | GTimestamp (o : option Z) | GDecimal (o : option Z) | GString (o : option Str) | GList.
Definition b2n (b : bool) : N := if b then 1 else 0.
(** [i128::to_le_bytes] *)
Definition dec_bytes (z : Z) : list N := le_bytes 16 (to_unsigned 128 z).
Definition dec_of (b : list N) : option Z :=
  if Nat.eqb (length b) 16 then Some (of_unsigned 128 (of_le b)) else None.
(** 309-338: [v.unwrap()] panics on an absent value, 338 [unimplemented!()] on lists.  The one
    field of a oneof is written also when it has the default value. *)
Definition put_gvalue (v : GValue) : option Fields :=
  match v with
  | GNull => Some (put_ouint 1 (Some 1))
  | GInt8 (Some z) => Some (put_oint 2 (Some z))
  | GInt16 (Some z) => Some (put_oint 3 (Some z))
  | GInt32 (Some z) => Some (put_oint 4 (Some z))
  | GInt64 (Some z) => Some (put_oint 5 (Some z))
  | GBool (Some b) => Some (put_ouint 6 (Some (b2n b)))
  | GTimestamp (Some z) => Some (put_oint 7 (Some z))
  | GDecimal (Some z) => Some (put_obytes 8 (Some (dec_bytes z)))
  | GString (Some s) => Some (put_obytes 9 (Some s))
  | _ => None
  end.
(** 355-367.  Of several fields of a oneof the last one counts. *)
Definition get_gvalue (b : list N) : option GValue :=
  do fs <- dec_fields b;
  match last_opt (filter (fun f => (1 <=? fst f) && (fst f <=? 9)) fs) with
  | Some (1, WV _) => Some GNull
  | Some (2, WV n) => Some (GInt8 (Some (of_unsigned 8 (n mod 2 ^ 8))))
  | Some (3, WV n) => Some (GInt16 (Some (of_unsigned 16 (n mod 2 ^ 16))))
  | Some (4, WV n) => Some (GInt32 (Some (of_unsigned 32 (n mod 2 ^ 32))))
  | Some (5, WV n) => Some (GInt64 (Some (of_unsigned 64 n)))
  | Some (6, WV n) => Some (GBool (Some (negb (n =? 0))))
  | Some (7, WV n) => Some (GTimestamp (Some (of_unsigned 64 n)))
  | Some (8, WB b) => option_map (fun z => GDecimal (Some z)) (dec_of b)
  | Some (9, WB b) => Some (GString (Some b))
  | _ => None
  end.
Record FGroupValues := mkFGroupValues { fgv_id : N; fgv_values : list (N * GValue) }.
Definition put_gprop (v : N * GValue) : option Fields :=
  do m <- put_gvalue (snd v); Some (put_uint 1 (fst v) ++ put_msg 2 m).
Definition get_gprop (b : list N) : option (N * GValue) :=
  do fs <- dec_fields b; do i <- get_uint 1 fs; do m <- get_msg 2 fs; do m' <- m; do v <- get_gvalue m'; Some (i, v).
Definition put_group_values (g : FGroupValues) : option Fields :=
  do vs <- omap put_gprop (fgv_values g); Some (put_uint 1 (fgv_id g) ++ put_rep 2 vs).
Definition write_group_values (g : FGroupValues) : option (list N) := option_map enc_fields (put_group_values g).
Definition read_group_values (b : list N) : option FGroupValues :=
  do fs <- dec_fields b; do i <- get_uint 1 fs; do vs <- get_rep 2 fs; do vs' <- omap get_gprop vs; Some (mkFGroupValues i vs').
Record FGroup := mkFGroup { fgr_id : N; fgr_name : Str; fgr_display : Str }.
Definition put_group (g : FGroup) : Fields := put_uint 1 (fgr_id g) ++ put_bytes 2 (fgr_name g) ++ put_obytes 3 (Some (fgr_display g)).
Definition write_group (g : FGroup) : list N := enc_fields (put_group g).
Definition read_group (b : list N) : option FGroup :=
  do fs <- dec_fields b; do i <- get_uint 1 fs; do n <- get_bytes 2 fs; do d <- get_obytes 3 fs; do d' <- d; Some (mkFGroup i n d').

(** *** Backups: backups.rs 28-66, 237-345 *)
Inductive FProvider := PvLocal (path : Str) | PvS3 (bucket path region : Str) | PvGcp (bucket path : Str).
Inductive FBackupStatus := BsIdle | BsInProgress (n : N) | BsUploading | BsFailed (e : Str) | BsCompleted.
Record FBackup := mkFBackup
  { fbk_id : N; fbk_created : Z; fbk_updated : option Z; fbk_provider : FProvider; fbk_status : FBackupStatus;
    fbk_encrypted : bool; fbk_password : option Str }.
(** 237-309; a path that is not UTF-8 panics (295), not modelled. *)
Definition put_backup (b : FBackup) : Fields :=
  put_uint 1 (fbk_id b) ++ put_int 2 (secs (fbk_created b)) ++ put_oint 3 (option_map secs (fbk_updated b))
  ++ put_uint 4 (match fbk_provider b with PvLocal _ => 1 | PvS3 _ _ _ => 2 | PvGcp _ _ => 3 end)
  ++ put_bytes 5 (match fbk_provider b with PvLocal p => p | _ => [] end)
  ++ put_bytes 6 (match fbk_provider b with PvS3 k _ _ => k | _ => [] end)
  ++ put_bytes 7 (match fbk_provider b with PvS3 _ _ r => r | _ => [] end)
  ++ put_bytes 8 (match fbk_provider b with PvGcp k _ => k | _ => [] end)
  ++ put_uint 9 (match fbk_status b with BsIdle => 1 | BsInProgress _ => 2 | BsUploading => 3 | BsFailed _ => 4 | BsCompleted => 5 end)
  ++ put_bytes 10 (match fbk_status b with BsFailed e => e | _ => [] end)
  ++ put_uint 11 (match fbk_status b with BsInProgress n => n | _ => 0 end)
  ++ put_bool 12 (fbk_encrypted b) ++ put_obytes 13 (fbk_password b)
  ++ put_bytes 14 (match fbk_provider b with PvS3 _ p _ => p | _ => [] end)
  ++ put_bytes 15 (match fbk_provider b with PvGcp _ p => p | _ => [] end).
Definition write_backup (b : FBackup) : list N := enc_fields (put_backup b).
(** 310-345 *)
Definition read_backup (b : list N) : option FBackup :=
  do fs <- dec_fields b; do i <- get_uint 1 fs; do c <- get_int 2 fs; do u <- get_oint 3 fs;
  do pv <- get_uint 4 fs; do lp <- get_bytes 5 fs; do sb <- get_bytes 6 fs; do sr <- get_bytes 7 fs; do gb <- get_bytes 8 fs;
  do st <- get_uint 9 fs; do er <- get_bytes 10 fs; do pr <- get_uint 11 fs;
  do en <- get_bool 12 fs; do pw <- get_obytes 13 fs; do sp <- get_bytes 14 fs; do gp <- get_bytes 15 fs;
  do pv' <- match u32 pv with 1 => Some (PvLocal lp) | 2 => Some (PvS3 sb sp sr) | 3 => Some (PvGcp gb gp) | _ => None end;
  do st' <- match u32 st with 1 => Some BsIdle | 2 => Some (BsInProgress pr) | 3 => Some BsUploading | 4 => Some (BsFailed er)
            | 5 => Some BsCompleted | _ => None end;
  Some (mkFBackup i (of_secs c) (option_map of_secs u) pv' st' en pw).

(** *** Custom events: custom_events.rs 286-313, 337-643 *)
Record CEvent := mkCEvent { cev_event : EventRef; cev_filters : option (list PropFilter) }.
Record FCustom := mkFCustom
  { fcu_stamps : Stamps; fcu_project : N; fcu_tags : option (list Str); fcu_name : Str; fcu_descr : option Str;
    fcu_status : FStatus; fcu_system : bool; fcu_events : list CEvent }.
(** 383-402 *)
Definition op_no (o : PropOp) : N :=
  match o with
  | OpEq => 1 | OpNeq => 2 | OpGt => 3 | OpGte => 4 | OpLt => 5 | OpLte => 6 | OpTrue => 7 | OpFalse => 8
  | OpExists => 9 | OpEmpty => 10 | OpLike => 11 | OpNotLike => 12 | OpRegex => 13 | OpNotRegex => 14
  end.
(** 554-570 *)
Definition op_of_no (n : N) : option PropOp :=
  match n with
  | 1 => Some OpEq | 2 => Some OpNeq | 3 => Some OpGt | 4 => Some OpGte | 5 => Some OpLt | 6 => Some OpLte
  | 7 => Some OpTrue | 8 => Some OpFalse | 9 => Some OpExists | 10 => Some OpEmpty | 11 => Some OpLike
  | 12 => Some OpNotLike | 13 => Some OpRegex | 14 => Some OpNotRegex | _ => None
  end.
(** 405-495: the value of a filter; of a decimal only the digits are written, of a timestamp
    not the zone; an absent value is a message without fields; other scalars panic. *)
Definition put_cvalue (v : Scalar) : option Fields :=
  match v with
  | SUtf8 o => Some (put_obytes 1 o)
  | SInt8 o => Some (put_oint 2 o)
  | SInt16 o => Some (put_oint 3 o)
  | SInt32 o => Some (put_oint 4 o)
  | SInt64 o => Some (put_oint 5 o)
  | SDecimal o _ _ => Some (put_obytes 6 (option_map dec_bytes o))
  | SBoolean o => Some (put_ouint 7 (option_map b2n o))
  | STimestampMs o _ => Some (put_oint 8 o)
  | SNull => None
  end.
(** common/src/types.rs 14-15 *)
Definition DECIMAL_PRECISION : N := 28.
Definition DECIMAL_SCALE : Z := 16.
(** 572-598: the first field present decides; none present panics. *)
Definition get_cvalue (b : list N) : option Scalar :=
  do fs <- dec_fields b;
  do st <- get_obytes 1 fs; do i8 <- get_ouint 2 fs; do i16 <- get_ouint 3 fs; do i32 <- get_ouint 4 fs; do i64 <- get_ouint 5 fs;
  do de <- get_obytes 6 fs; do bo <- get_ouint 7 fs; do ts <- get_ouint 8 fs;
  match st with Some v => Some (SUtf8 (Some v)) | None =>
  match i8 with Some v => Some (SInt8 (Some (of_unsigned 8 (v mod 2 ^ 8)))) | None =>
  match i16 with Some v => Some (SInt16 (Some (of_unsigned 16 (v mod 2 ^ 16)))) | None =>
  match i32 with Some v => Some (SInt32 (Some (of_unsigned 32 (v mod 2 ^ 32)))) | None =>
  match i64 with Some v => Some (SInt64 (Some (of_unsigned 64 v))) | None =>
  match de with Some v => option_map (fun z => SDecimal (Some z) DECIMAL_PRECISION DECIMAL_SCALE) (dec_of v) | None =>
  match bo with Some v => Some (SBoolean (Some (negb (u32 v =? 0)))) | None =>
  match ts with Some v => Some (STimestampMs (Some (of_unsigned 64 v)) None) | None => None
  end end end end end end end end.
(** 357-500 *)
Definition put_cfilter (f : PropFilter) : option Fields :=
  match f with
  | PFProperty p op v =>
    do vs <- omap put_cvalue (or_empty v);
    Some (put_obytes 1 (match p with PRGroup n _ | PREvent n => Some n | PRCustom _ => None end)
       ++ put_ouint 2 (match p with PRGroup _ g => Some g | _ => None end)
       ++ put_ouint 3 (match p with PRCustom i => Some i | _ => None end)
       ++ put_uint 4 (op_no op) ++ put_rep 5 vs)
  end.
(** 543-605 *)
Definition get_cfilter (b : list N) : option PropFilter :=
  do fs <- dec_fields b;
  do n <- get_obytes 1 fs; do g <- get_ouint 2 fs; do c <- get_ouint 3 fs; do o <- get_uint 4 fs; do vs <- get_rep 5 fs;
  do p <- match n with
          | Some n => Some (match g with Some g => PRGroup n g | None => PREvent n end)
          | None => option_map PRCustom c
          end;
  do op <- op_of_no (u32 o); do vs' <- omap get_cvalue vs;
  Some (PFProperty p op (Some vs')).
(** 344-357, 502-503 *)
Definition put_cevent (e : CEvent) : option Fields :=
  do fl <- omap put_cfilter (or_empty (cev_filters e));
  Some (put_obytes 1 (match cev_event e with ERegularName n => Some n | _ => None end)
     ++ put_ouint 2 (match cev_event e with ERegular i => Some i | _ => None end)
     ++ put_ouint 3 (match cev_event e with ECustom i => Some i | _ => None end)
     ++ put_rep 4 fl).
(** 533-541, 606-614 *)
Definition get_cevent (b : list N) : option CEvent :=
  do fs <- dec_fields b;
  do n <- get_obytes 1 fs; do r <- get_ouint 2 fs; do c <- get_ouint 3 fs; do fl <- get_rep 4 fs;
  do er <- match r with Some i => Some (ERegular i) | None =>
           match n with Some n => Some (ERegularName n) | None => option_map ECustom c end end;
  do fl' <- omap get_cfilter fl;
  Some (mkCEvent er (unless_empty fl')).
(** 337-343, 505-526 *)
Definition put_custom (c : FCustom) : option Fields :=
  do evs <- omap put_cevent (fcu_events c);
  Some (put_stamps (fcu_stamps c) ++ put_uint 6 (fcu_project c) ++ put_strs 7 (or_empty (fcu_tags c)) ++ put_bytes 8 (fcu_name c)
     ++ put_obytes 9 (fcu_descr c) ++ put_uint 10 (status_no (fcu_status c)) ++ put_bool 11 (fcu_system c) ++ put_rep 12 evs).
Definition write_custom (c : FCustom) : option (list N) := option_map enc_fields (put_custom c).
(** 528-531, 617-643 *)
Definition read_custom (b : list N) : option FCustom :=
  do fs <- dec_fields b; do st <- get_stamps fs; do p <- get_uint 6 fs; do tg <- get_strs 7 fs; do n <- get_bytes 8 fs;
  do d <- get_obytes 9 fs; do s <- get_uint 10 fs; do s' <- status_of (u32 s); do sy <- get_bool 11 fs;
  do ev <- get_rep 12 fs; do evs <- omap get_cevent ev;
  Some (mkFCustom st p (unless_empty tg) n d s' sy evs).

(** *** Reports and bookmarks: reports.rs 166-192, 216-264, bookmarks.rs 89-126 *)
Section Queries.
(** chrono's [DateTime<Utc>] as serde writes and reads it: RFC 3339 text. *)
Variable print_time : Z -> Str.
Variable parse_time : Str -> option Z.
Inductive FReportType := RtEvents | RtFunnel.
Definition rtype_no (t : FReportType) : N := match t with RtEvents => 1 | RtFunnel => 2 end.
Definition rtype_of (n : N) : option FReportType := match n with 1 => Some RtEvents | 2 => Some RtFunnel | _ => None end.
Record FReport := mkFReport
  { frp_stamps : Stamps; frp_project : N; frp_tags : option (list Str); frp_name : Str; frp_descr : option Str;
    frp_type : FReportType; frp_query : SavedQuery }.
(** reports.rs 216-235 *)
Definition put_report (r : FReport) : Fields :=
  put_stamps (frp_stamps r) ++ put_uint 6 (frp_project r) ++ put_strs 7 (or_empty (frp_tags r)) ++ put_bytes 8 (frp_name r)
  ++ put_obytes 9 (frp_descr r) ++ put_uint 10 (rtype_no (frp_type r)) ++ put_bytes 11 (enc_query print_time (frp_query r)).
Definition write_report (r : FReport) : list N := enc_fields (put_report r).
(** reports.rs 238-264 *)
Definition read_report (b : list N) : option FReport :=
  do fs <- dec_fields b; do st <- get_stamps fs; do p <- get_uint 6 fs; do tg <- get_strs 7 fs; do n <- get_bytes 8 fs;
  do d <- get_obytes 9 fs; do t <- get_uint 10 fs; do t' <- rtype_of (u32 t); do q <- get_bytes 11 fs;
  do q' <- read_query parse_time q;
  Some (mkFReport st p (unless_empty tg) n d t' q').
(** bookmarks.rs 89-96 *)
Record FBookmark := mkFBookmark { fbm_id : Str; fbm_created : Z; fbm_by : N; fbm_project : N; fbm_query : option SavedQuery }.
(** bookmarks.rs 104-114 *)
Definition put_bookmark (b : FBookmark) : Fields :=
  put_bytes 1 (fbm_id b) ++ put_int 2 (secs (fbm_created b)) ++ put_uint 3 (fbm_by b) ++ put_uint 4 (fbm_project b)
  ++ put_obytes 5 (option_map (enc_query print_time) (fbm_query b)).
Definition write_bookmark (b : FBookmark) : list N := enc_fields (put_bookmark b).
(** bookmarks.rs 116-126 *)
Definition read_bookmark (b : list N) : option FBookmark :=
  do fs <- dec_fields b; do i <- get_bytes 1 fs; do c <- get_int 2 fs; do by_ <- get_uint 3 fs; do p <- get_uint 4 fs;
  do q <- get_obytes 5 fs; do q' <- match q with None => Some None | Some x => option_map Some (read_query parse_time x) end;
  Some (mkFBookmark i (of_secs c) by_ p q').
End Queries.
