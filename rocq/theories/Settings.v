(** Server settings: metadata/src/settings.rs, platform/src/settings.rs and the start-up code
    of cmd/src/lib.rs and cmd/src/command/server.rs that writes them.

    Texts are lists of bytes.  The check of the caller's permission (ManageServer) is the
    subject of [Access.v] and is left out here. *)
From Coq Require Import List NArith Bool.
From Verif Require Import Kv Proto MdCodec.
Import ListNotations.
Local Open Scope N_scope.

(** metadata/src/settings.rs 10-26 *)
Inductive Provider := PLocal | PS3 | PGcp.
Inductive Interval := IHourly | IDaily | IWeekly | IMonthly | IYearly.
Notation Text := (list N).

(** 28-49 *)
Record Settings := mkSettings
  { st_access : Text; st_refresh : Text; st_admin_pwd : Text;
    st_enabled : bool; st_enc : bool; st_enc_pwd : Text; st_comp : bool;
    st_prov : Provider; st_local : Text;
    st_s3_bucket : Text; st_s3_path : Text; st_s3_region : Text; st_s3_ak : Text; st_s3_sk : Text;
    st_gcp_bucket : Text; st_gcp_path : Text; st_gcp_key : Text;
    st_interval : Interval; st_hour : N }.
(** 51-75 *)
Definition default_settings : Settings :=
  mkSettings [] [] [] false false [] false PLocal [] [] [] [] [] [] [] [] [] IDaily 0.

Definition is_empty (t : Text) : bool := match t with [] => true | _ => false end.
(** 77-121: [true] is Ok, [false] the error BadRequest. *)
Definition validate (s : Settings) : bool :=
  if st_enc s && is_empty (st_enc_pwd s) then false
  else match st_prov s with
       | PLocal => true
       | PS3 => if is_empty (st_s3_bucket s) then false
                else if is_empty (st_s3_region s) then false
                else if is_empty (st_s3_ak s) then false
                else negb (is_empty (st_s3_sk s))
       | PGcp => if is_empty (st_gcp_bucket s) then false
                 else negb (is_empty (st_gcp_key s))
       end.

(** pb/settings.proto: the numbers of the enumerations. *)
Definition prov_tag (p : Provider) : N := match p with PLocal => 1 | PS3 => 2 | PGcp => 3 end.
Definition interval_tag (i : Interval) : N :=
  match i with IHourly => 1 | IDaily => 2 | IWeekly => 3 | IMonthly => 4 | IYearly => 5 end.
(** 155-193; the start hour is written as 0 (line 189). *)
Definition put_settings (s : Settings) : Fields :=
  put_bytes 1 (st_access s) ++ put_bytes 2 (st_refresh s) ++ put_bytes 3 (st_admin_pwd s)
  ++ put_bool 4 (st_enabled s) ++ put_bool 5 (st_enc s) ++ put_bytes 6 (st_enc_pwd s)
  ++ put_bool 7 (st_comp s) ++ put_uint 8 (prov_tag (st_prov s)) ++ put_bytes 9 (st_local s)
  ++ put_bytes 10 (st_s3_bucket s) ++ put_bytes 11 (st_s3_path s) ++ put_bytes 12 (st_s3_region s)
  ++ put_bytes 13 (st_s3_ak s) ++ put_bytes 14 (st_s3_sk s)
  ++ put_bytes 15 (st_gcp_bucket s) ++ put_bytes 16 (st_gcp_path s) ++ put_bytes 17 (st_gcp_key s)
  ++ put_uint 18 (interval_tag (st_interval s)) ++ put_uint 19 0.
Definition serialize_settings (s : Settings) : list N := enc_fields (put_settings s).

(** 206-211 and 221-228; other numbers panic. *)
Definition prov_of (n : N) : option Provider :=
  match n with 1 => Some PLocal | 2 => Some PS3 | 3 => Some PGcp | _ => None end.
Definition interval_of (n : N) : option Interval :=
  match n with 1 => Some IHourly | 2 => Some IDaily | 3 => Some IWeekly | 4 => Some IMonthly
             | 5 => Some IYearly | _ => None end.
Local Notation "'do' x <- a ; b" := (obind a (fun x => b)) (at level 200, x name, a at level 100, b at level 200).
(** 195-231; [None]: a decoding error or a panic. *)
Definition deserialize_settings (b : list N) : option Settings :=
  do fs <- dec_fields b;
  do a1 <- get_bytes 1 fs; do a2 <- get_bytes 2 fs; do a3 <- get_bytes 3 fs;
  do a4 <- get_bool 4 fs; do a5 <- get_bool 5 fs; do a6 <- get_bytes 6 fs; do a7 <- get_bool 7 fs;
  do a8 <- get_uint 8 fs; do a9 <- get_bytes 9 fs;
  do a10 <- get_bytes 10 fs; do a11 <- get_bytes 11 fs; do a12 <- get_bytes 12 fs;
  do a13 <- get_bytes 13 fs; do a14 <- get_bytes 14 fs;
  do a15 <- get_bytes 15 fs; do a16 <- get_bytes 16 fs; do a17 <- get_bytes 17 fs;
  do a18 <- get_uint 18 fs; do a19 <- get_uint 19 fs;
  do p <- prov_of (u32 a8); do i <- interval_of (u32 a18);
  Some (mkSettings a1 a2 a3 a4 a5 a6 a7 p a9 a10 a11 a12 a13 a14 a15 a16 a17 i (u32 a19)).

(** ** The stored value: the bytes under the key "config", if any (lines 135 and 146). *)
Notation Db := (option (list N)).
(** 133-141 *)
Definition load (db : Db) : Res Settings :=
  match db with
  | None => Err NotFound
  | Some b => match deserialize_settings b with Some s => Ok s | None => Err Panicked end
  end.
(** 143-152 *)
Definition save (s : Settings) (db : Db) : Res unit * Db :=
  if validate s then (Ok tt, Some (serialize_settings s)) else (Err BadRequest, db).

(** ** platform/src/settings.rs *)
(** 161-200: a request, and what a read returns; an absent field is [None]. *)
Record SettingsView := mkView
  { vw_access : option Text; vw_refresh : option Text; vw_admin_pwd : option Text;
    vw_enabled : option bool; vw_enc : option bool; vw_enc_pwd : option Text; vw_comp : option bool;
    vw_prov : option Provider;
    vw_s3_bucket : option Text; vw_s3_path : option Text; vw_s3_region : option Text;
    vw_s3_ak : option Text; vw_s3_sk : option Text;
    vw_gcp_bucket : option Text; vw_gcp_path : option Text; vw_gcp_key : option Text;
    vw_interval : option Interval; vw_hour : option N }.
Definition or_else {A} (o : option A) (a : A) : A := match o with Some x => x | None => a end.
(** 22-81: the fields of the request that are copied *)
Definition merge_request (r : SettingsView) (s : Settings) : Settings :=
  mkSettings (or_else (vw_access r) (st_access s)) (or_else (vw_refresh r) (st_refresh s)) (st_admin_pwd s)
    (or_else (vw_enabled r) (st_enabled s)) (or_else (vw_enc r) (st_enc s))
    (or_else (vw_enc_pwd r) (st_enc_pwd s)) (or_else (vw_comp r) (st_comp s))
    (or_else (vw_prov r) (st_prov s)) (st_local s)
    (or_else (vw_s3_bucket r) (st_s3_bucket s)) (or_else (vw_s3_path r) (st_s3_path s))
    (or_else (vw_s3_region r) (st_s3_region s)) (or_else (vw_s3_ak r) (st_s3_ak s))
    (or_else (vw_s3_sk r) (st_s3_sk s))
    (or_else (vw_gcp_bucket r) (st_gcp_bucket s)) (or_else (vw_gcp_path r) (st_gcp_path s)) (st_gcp_key s)
    (st_interval s) (st_hour s).
(** 88-135 *)
Definition view_of (s : Settings) : SettingsView :=
  mkView None None None (Some (st_enabled s)) (Some (st_enc s)) None (Some (st_comp s)) (Some (st_prov s))
    (Some (st_s3_bucket s)) (Some (st_s3_path s)) (Some (st_s3_region s)) (Some (st_s3_ak s)) None
    (Some (st_gcp_bucket s)) (Some (st_gcp_path s)) None (Some (st_interval s)) (Some (st_hour s)).
Definition settings_get (db : Db) : Res SettingsView :=
  match load db with Ok s => Ok (view_of s) | Err e => Err e end.
(** 19-86 *)
Definition settings_set (r : SettingsView) (db : Db) : Res SettingsView * Db :=
  match load db with
  | Err e => (Err e, db)
  | Ok s => match save (merge_request r s) db with
            | (Ok _, db') => (settings_get db', db')
            | (Err e, db') => (Err e, db')
            end
  end.

(** ** Start-up *)
Definition with_access (t : Text) (s : Settings) : Settings :=
  mkSettings t (st_refresh s) (st_admin_pwd s) (st_enabled s) (st_enc s) (st_enc_pwd s) (st_comp s)
    (st_prov s) (st_local s) (st_s3_bucket s) (st_s3_path s) (st_s3_region s) (st_s3_ak s) (st_s3_sk s)
    (st_gcp_bucket s) (st_gcp_path s) (st_gcp_key s) (st_interval s) (st_hour s).
Definition with_refresh (t : Text) (s : Settings) : Settings :=
  mkSettings (st_access s) t (st_admin_pwd s) (st_enabled s) (st_enc s) (st_enc_pwd s) (st_comp s)
    (st_prov s) (st_local s) (st_s3_bucket s) (st_s3_path s) (st_s3_region s) (st_s3_ak s) (st_s3_sk s)
    (st_gcp_bucket s) (st_gcp_path s) (st_gcp_key s) (st_interval s) (st_hour s).
Definition with_admin_pwd (t : Text) (s : Settings) : Settings :=
  mkSettings (st_access s) (st_refresh s) t (st_enabled s) (st_enc s) (st_enc_pwd s) (st_comp s)
    (st_prov s) (st_local s) (st_s3_bucket s) (st_s3_path s) (st_s3_region s) (st_s3_ak s) (st_s3_sk s)
    (st_gcp_bucket s) (st_gcp_path s) (st_gcp_key s) (st_interval s) (st_hour s).
(** [init_settings], cmd/src/lib.rs 440-463; [k1] and [k2] are the random keys. *)
Definition init_settings (k1 k2 : Text) (db : Db) : Res unit * Db :=
  let start := match load db with
               | Ok s => (Ok s, db)
               | Err NotFound => match save default_settings db with
                                 | (Ok _, db') => (Ok default_settings, db')
                                 | (Err e, db') => (Err e, db')
                                 end
               | Err e => (Err e, db)
               end in
  match start with
  | (Err e, db') => (Err e, db')
  | (Ok s, db') =>
    let s1 := if is_empty (st_access s) then with_access k1 s else s in
    let s2 := if is_empty (st_refresh s1) then with_refresh k2 s1 else s1 in
    save s2 db'
  end.
(** server.rs 75-77: the password of the first account *)
Definition store_admin_password (pwd : Text) (db : Db) : Res unit * Db :=
  match load db with
  | Err e => (Err e, db)
  | Ok s => save (with_admin_pwd pwd s) db
  end.

(** ** Histories *)
Inductive SOp := SStart (k1 k2 : Text) | SAdminPassword (pwd : Text) | SSet (r : SettingsView).
Definition s_step (o : SOp) (db : Db) : Db :=
  match o with
  | SStart k1 k2 => snd (init_settings k1 k2 db)
  | SAdminPassword p => snd (store_admin_password p db)
  | SSet r => snd (settings_set r db)
  end.
Definition s_run (ops : list SOp) (db : Db) : Db := fold_left (fun d o => s_step o d) ops db.
