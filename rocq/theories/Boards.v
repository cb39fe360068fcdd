(** Dashboards, saved reports and bookmarks: the calls of src/metadata/src/dashboards.rs,
    reports.rs and bookmarks.rs on the store of [Kv.v], whose records are bytes here.

    Every call is one transaction, executed alone (concurrent ones: [SeqRace.v]).  The time a
    call reads and the text a bookmark draws are arguments.  A decoding error counts as a
    panic.  [usize] is [u64]. *)
From Coq Require Import List NArith ZArith String Bool.
From Verif Require Import Bytes Value Kv KvKeys SavedQuery RecCodec.
Import ListNotations.
Local Open Scope N_scope.

Notation BStore := (list (string * Val (list N))).
(** A Rust vector holds at most isize::MAX bytes; a longer encoding panics. *)
Definition alloc (b : list N) : option (list N) := if N.of_nat (List.length b) <? 2 ^ 63 then Some b else None.

Section Crud.
Context {R : Type}.
Variable kind : ProjNs.                   (* the namespace: dashboards.rs 25, reports.rs 29 *)
Variable write : R -> list N.
Variable read : list N -> option R.
Variable id_of : R -> N.
Definition crud_ns (p : N) : string := project_ns p (proj_str kind).
(** dashboards.rs 36-50 and 82-86, reports.rs 40-54 and 88-92 *)
Definition crud_get (p id : N) (s : BStore) : Res R :=
  match kget (make_data_value_key (crud_ns p) id) s with
  | None => Err NotFound
  | Some (VRec b) => match read b with Some r => Ok r | None => Err Panicked end
  | Some _ => Err Panicked
  end.
(** dashboards.rs 52-80, reports.rs 56-86; [mk id]: the record made of the request *)
Definition crud_create (p : N) (mk : N -> R) (s : BStore) : Res R * BStore :=
  match next_seq (make_id_seq_key (crud_ns p)) s with
  | (Err e, _) => (Err e, s)
  | (Ok id, s1) =>
    match alloc (write (mk id)) with
    | None => (Err Panicked, s)
    | Some b => (Ok (mk id), kput (make_data_value_key (crud_ns p) (id_of (mk id))) (VRec b) s1)
    end
  end.
(** dashboards.rs 113-146, reports.rs 119-151; [f]: the record after the request *)
Definition crud_update (p id : N) (f : R -> R) (s : BStore) : Res R * BStore :=
  match crud_get p id s with
  | Err e => (Err e, s)
  | Ok r =>
    match alloc (write (f r)) with
    | None => (Err Panicked, s)
    | Some b => (Ok (f r), kput (make_data_value_key (crud_ns p) (id_of (f r))) (VRec b) s)
    end
  end.
(** dashboards.rs 148-157, reports.rs 153-162 *)
Definition crud_delete (p id : N) (s : BStore) : Res R * BStore :=
  match crud_get p id s with
  | Err e => (Err e, s)
  | Ok r => (Ok r, kdel (make_data_value_key (crud_ns p) id) s)
  end.
(** dashboards.rs 88-111, reports.rs 94-117 *)
Fixpoint read_all (l : list (Val (list N))) : Res (list R) :=
  match l with
  | [] => Ok []
  | VRec b :: l' =>
    match read b, read_all l' with
    | Some r, Ok rs => Ok (r :: rs)
    | _, _ => Err Panicked
    end
  | _ :: _ => Err Panicked
  end.
Definition crud_list (p : N) (s : BStore) : Res (list R) := read_all (list_prefix (make_data_key (crud_ns p)) s).
End Crud.

(** *** Dashboards *)
(** dashboards.rs 195-201 *)
Record DashCreate := mkDashCreate
  { dc_by : N; dc_tags : option (list Str); dc_name : Str; dc_descr : option Str; dc_panels : list FPanel }.
(** dashboards.rs 205-211 *)
Record DashUpdate := mkDashUpdate
  { du_by : N; du_tags : option (option (list Str)); du_name : option Str; du_descr : option (option Str);
    du_panels : option (list FPanel) }.
Definition upd {A} (o : option A) (old : A) : A := match o with Some a => a | None => old end.
(** dashboards.rs 60-71 *)
Definition new_dashboard (p : N) (q : DashCreate) (now : Z) (id : N) : FDashboard :=
  mkFDashboard (mkStamps id now (dc_by q) None None) p (dc_tags q) (dc_name q) (dc_descr q) (dc_panels q).
(** dashboards.rs 122-137 *)
Definition changed_dashboard (q : DashUpdate) (now : Z) (d : FDashboard) : FDashboard :=
  let st := fdb_stamps d in
  mkFDashboard (mkStamps (sp_id st) (sp_created st) (sp_by st) (Some now) (Some (du_by q))) (fdb_project d)
    (upd (du_tags q) (fdb_tags d)) (upd (du_name q) (fdb_name d)) (upd (du_descr q) (fdb_descr d)) (upd (du_panels q) (fdb_panels d)).
Definition dash_id (d : FDashboard) : N := sp_id (fdb_stamps d).
Definition dash_get := crud_get PDashboards read_dashboard.
Definition dash_list := crud_list PDashboards read_dashboard.
Definition dash_create (p : N) (q : DashCreate) (now : Z) :=
  crud_create PDashboards write_dashboard dash_id p (new_dashboard p q now).
Definition dash_update (p id : N) (q : DashUpdate) (now : Z) :=
  crud_update PDashboards write_dashboard read_dashboard dash_id p id (changed_dashboard q now).
Definition dash_delete := crud_delete PDashboards read_dashboard.

(** *** Reports *)
(** reports.rs 195-203 *)
Record RepCreate := mkRepCreate
  { rc_by : N; rc_tags : option (list Str); rc_name : Str; rc_descr : option Str; rc_type : FReportType; rc_query : SavedQuery }.
(** reports.rs 206-213 *)
Record RepUpdate := mkRepUpdate
  { ru_by : N; ru_tags : option (option (list Str)); ru_name : option Str; ru_descr : option (option Str);
    ru_type : option FReportType; ru_query : option SavedQuery }.
(** reports.rs 65-77 *)
Definition new_report (p : N) (q : RepCreate) (now : Z) (id : N) : FReport :=
  mkFReport (mkStamps id now (rc_by q) None None) p (rc_tags q) (rc_name q) (rc_descr q) (rc_type q) (rc_query q).
(** reports.rs 127-142: the type in the request is not used *)
Definition changed_report (q : RepUpdate) (now : Z) (r : FReport) : FReport :=
  let st := frp_stamps r in
  mkFReport (mkStamps (sp_id st) (sp_created st) (sp_by st) (Some now) (Some (ru_by q))) (frp_project r)
    (upd (ru_tags q) (frp_tags r)) (upd (ru_name q) (frp_name r)) (upd (ru_descr q) (frp_descr r)) (frp_type r)
    (upd (ru_query q) (frp_query r)).
Definition rep_id (r : FReport) : N := sp_id (frp_stamps r).

Section Queries.
Variable print_time : Z -> Str.
Variable parse_time : Str -> option Z.
Definition rep_get := crud_get PReports (read_report parse_time).
Definition rep_list := crud_list PReports (read_report parse_time).
Definition rep_create (p : N) (q : RepCreate) (now : Z) :=
  crud_create PReports (write_report print_time) rep_id p (new_report p q now).
Definition rep_update (p id : N) (q : RepUpdate) (now : Z) :=
  crud_update PReports (write_report print_time) (read_report parse_time) rep_id p id (changed_report q now).
Definition rep_delete := crud_delete PReports (read_report parse_time).

(** *** Bookmarks *)
(** bookmarks.rs 29-43 and 73-77; platform/src/bookmarks.rs 44-52 asks for the caller's own *)
Definition book_get (p a : N) (id : string) (s : BStore) : Res FBookmark :=
  match kget (bookmark_key p a id) s with
  | None => Err NotFound
  | Some (VRec b) => match read_bookmark parse_time b with Some r => Ok r | None => Err Panicked end
  | Some _ => Err Panicked
  end.
(** bookmarks.rs 45-71; [drawn]: the seven random characters *)
Definition book_create (p a : N) (q : option SavedQuery) (drawn : string) (now : Z) (s : BStore) : Res FBookmark * BStore :=
  let bm := mkFBookmark (codes drawn) now a p q in
  match alloc (write_bookmark print_time bm) with
  | None => (Err Panicked, s)
  | Some b => (Ok bm, kput (bookmark_key p a drawn) (VRec b) s)
  end.
(** bookmarks.rs 79-86 *)
Definition book_delete (p a : N) (id : string) (s : BStore) : Res FBookmark * BStore :=
  match book_get p a id s with
  | Err e => (Err e, s)
  | Ok r => (Ok r, kdel (bookmark_key p a id) s)
  end.

Inductive BoardOp :=
| BDashCreate (p : N) (q : DashCreate) (now : Z) | BDashUpdate (p id : N) (q : DashUpdate) (now : Z) | BDashDelete (p id : N)
| BRepCreate (p : N) (q : RepCreate) (now : Z) | BRepUpdate (p id : N) (q : RepUpdate) (now : Z) | BRepDelete (p id : N)
| BBookCreate (p a : N) (q : option SavedQuery) (drawn : string) (now : Z) | BBookDelete (p a : N) (id : string).
Definition board_step (o : BoardOp) (s : BStore) : BStore :=
  match o with
  | BDashCreate p q now => snd (dash_create p q now s)
  | BDashUpdate p id q now => snd (dash_update p id q now s)
  | BDashDelete p id => snd (dash_delete p id s)
  | BRepCreate p q now => snd (rep_create p q now s)
  | BRepUpdate p id q now => snd (rep_update p id q now s)
  | BRepDelete p id => snd (rep_delete p id s)
  | BBookCreate p a q d now => snd (book_create p a q d now s)
  | BBookDelete p a id => snd (book_delete p a id s)
  end.
Definition board_run (ops : list BoardOp) (s : BStore) : BStore := fold_left (fun s o => board_step o s) ops s.
End Queries.
