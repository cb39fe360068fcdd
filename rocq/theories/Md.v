(** The metadata crate: records, and the API functions that keep them in the store. *)
From Coq Require Import List NArith ZArith String Ascii Bool.
From Verif Require Import AMap Kv KvKeys.
Import ListNotations.
Local Open Scope string_scope.

(** ** Records.  Fields that no modelled function looks at are left out. *)
(** events.rs 422-440 *)
Record Event := mkEvent { ev_id : N; ev_name : string; ev_display : option string; ev_props : list N }.
(** common/src/query.rs EventRef; custom_events.rs 293-313 (filters left out here). *)
Inductive EventRef := RefName (n : string) | RefRegular (id : N) | RefCustom (id : N).
Record CustomEvent := mkCustom { ce_id : N; ce_name : string; ce_events : list EventRef }.
(** common/src/rbac.rs 37-53 *)
Inductive OrgRole := OrgOwner | OrgAdmin | OrgMember.
(** accounts.rs 243-259; [None] and the empty list of organizations are not distinguished. *)
Record Account := mkAccount { ac_id : N; ac_email : string; ac_orgs : list (N * OrgRole) }.
(** organizations.rs 231-240 *)
Record Org := mkOrg { org_id : N; org_name : string; org_members : list (N * OrgRole) }.
(** projects.rs 199-214 *)
Record Project := mkProject { pr_id : N; pr_org : N; pr_name : string; pr_token : string;
                              pr_session_secs : N; pr_events : N }.
(** teams.rs 183-192 *)
Record Team := mkTeam { tm_id : N; tm_org : N; tm_name : string }.
(** groups.rs 281-298; property values are opaque numbers. *)
Record Group := mkGroup { gr_id : N; gr_name : string }.
Record GroupValues := mkGroupValues { gv_id : N; gv_values : list (N * N) }.
(** sessions.rs 135-139; time in seconds (serialize drops the fraction, 142-149). *)
Record Session := mkSession { se_user : N; se_time : Z }.
(** common/src/types.rs 126-137; List is only supported over the base types. *)
Inductive BType := TString | TInt8 | TInt16 | TInt32 | TInt64 | TDecimal | TBoolean | TTimestamp.
Inductive PType := PBase (b : BType) | PList (b : BType).
(** properties.rs 548-552, 584-607; the type is that of the property store. *)
Inductive PropKind := KEvent | KGroup (g : N).
Record Property := mkProperty { pp_id : N; pp_kind : PropKind; pp_name : string;
                                pp_display : option string; pp_order : N;
                                pp_type : PType; pp_system : bool }.

Inductive Rec :=
| REvent (e : Event) | RCustomEvent (c : CustomEvent) | RAccount (a : Account) | ROrg (o : Org)
| RProject (p : Project) | RTeam (t : Team) | RGroup (g : Group) | RGroupValues (g : GroupValues)
| RSession (s : Session) | RProperty (p : Property).
Notation Store := (list (string * Val Rec)).

Definition present {A} (o : option A) : bool := match o with Some _ => true | None => false end.

(** ** Events: events.rs *)
Definition events_ns (p : N) : string := project_ns p "events".
(** 40-61 *)
Definition event_name_key (p : N) (name : string) : option string :=
  Some (make_index_key (events_ns p) "name" name).
Definition event_display_key (p : N) (d : option string) : option string :=
  option_map (make_index_key (events_ns p) "display_name") d.
Definition event_keys (p : N) (name : string) (d : option string) : list (option string) :=
  [event_name_key p name; event_display_key p d].

(** 128-142 *)
Definition event_by_id (p id : N) (s : Store) : Res Event :=
  match kget (make_data_value_key (events_ns p) id) s with
  | Some (VRec (REvent e)) => Ok e
  | Some _ => Err Panicked
  | None => Err NotFound
  end.
(** 195-208 *)
Definition event_by_name (p : N) (name : string) (s : Store) : Res Event :=
  match get_index s (make_index_key (events_ns p) "name" name) with
  | Ok id => event_by_id p id s
  | Err e => Err e
  end.

(** ** Dictionaries: dictionaries.rs *)
(** 61-98 [_get_key_or_create] *)
Definition dict_get_or_create (p : N) (t d value : string) (s : Store) : Res N * Store :=
  match kget (make_value_key p (tbl_dict t d) value) s with
  | Some v => match read_num v with Some n => (Ok n, s) | None => (Err Panicked, s) end
  | None =>
    match next_seq (make_id_seq_key (project_ns p (dict_ns (tbl_dict t d)))) s with
    | (Err e, s1) => (Err e, s)
    | (Ok id, s1) =>
      (Ok id, kput (make_value_key p (tbl_dict t d) value) (VNum id)
                (kput (make_key_key p (tbl_dict t d) id) (VText value) s1))
    end
  end.
(** 100-119 [create_key] *)
Definition dict_create_key (p : N) (t d : string) (key : N) (value : string) (s : Store) : Store :=
  kput (make_value_key p (tbl_dict t d) value) (VNum key)
    (kput (make_key_key p (tbl_dict t d) key) (VText value) s).
(** 134-143 [get_value] *)
Definition dict_value (p : N) (t d : string) (key : N) (s : Store) : Res string :=
  match kget (make_key_key p (tbl_dict t d) key) s with
  | Some (VText v) => Ok v
  | Some _ => Err Panicked
  | None => Err NotFound
  end.
(** 145-155 [get_key] *)
Definition dict_key (p : N) (t d value : string) (s : Store) : Res N :=
  match kget (make_value_key p (tbl_dict t d) value) s with
  | Some v => match read_num v with Some n => Ok n | None => Err Panicked end
  | None => Err NotFound
  end.

(** common/src/types.rs: TABLE_EVENTS, COLUMN_EVENT. *)
Definition TABLE_EVENTS : string := "events".
Definition COLUMN_EVENT : string := "event".

(** events.rs 469-527: the lists of properties are not among the stored fields; an event is
    read back without them. *)
Definition stored_event (e : Event) : Event := mkEvent (ev_id e) (ev_name e) (ev_display e) [].
(** events.rs 144-193 [create_] (210-215 [create] commits in any case: the writes before an
    error are kept). *)
Definition event_create (p : N) (name : string) (d : option string) (props : list N) (s : Store) : Res Event * Store :=
  if check_insert s (event_keys p name d) then
    match next_seq (make_id_seq_key (events_ns p)) s with
    | (Err e, s1) => (Err e, s)
    | (Ok id, s1) =>
      let e := mkEvent id name d props in
      let s2 := kput (make_data_value_key (events_ns p) id) (VRec (REvent (stored_event e))) s1 in
      let s3 := insert_index s2 (event_keys p name d) id in
      match dict_get_or_create p TABLE_EVENTS COLUMN_EVENT name s3 with
      | (Ok _, s4) => (Ok e, s4)
      | (Err x, s4) => (Err x, s4)
      end
    end
  else (Err AlreadyExists, s).
(** 217-228 *)
Definition event_get_or_create (p : N) (name : string) (d : option string) (props : list N) (s : Store) : Res Event * Store :=
  match event_by_name p name s with
  | Ok e => (Ok e, s)
  | Err NotFound => event_create p name d props s
  | Err x => (Err x, s)
  end.
(** 265-317; [name] / [d] are [None] when the request leaves the field alone. *)
Definition event_update (p id : N) (name : option string) (d : option (option string)) (s : Store) : Res Event * Store :=
  match event_by_id p id s with
  | Err x => (Err x, s)
  | Ok prev =>
    let ks := ((match name with Some n => [event_name_key p n] | None => [] end)
               ++ (match d with Some x => [event_display_key p x] | None => [] end))%list in
    let pk := ((match name with Some _ => [event_name_key p (ev_name prev)] | None => [] end)
               ++ (match d with Some _ => [event_display_key p (ev_display prev)] | None => [] end))%list in
    if check_update s ks pk then
      let e := mkEvent (ev_id prev) (match name with Some n => n | None => ev_name prev end)
                       (match d with Some x => x | None => ev_display prev end) (ev_props prev) in
      let s1 := kput (make_data_value_key (events_ns p) (ev_id e)) (VRec (REvent (stored_event e))) s in
      (Ok e, update_index s1 ks pk id)
    else (Err AlreadyExists, s)
  end.
(** 319-348 *)
Definition attach_all (ex new : list N) : list N :=
  fold_left (fun ex x => if existsb (N.eqb x) ex then ex else (ex ++ [x])%list) new ex.
Definition event_attach (p id : N) (props : list N) (s : Store) : Res unit * Store :=
  match event_by_id p id s with
  | Err x => (Err x, s)
  | Ok e =>
    (Ok tt, kput (make_data_value_key (events_ns p) (ev_id e))
              (VRec (REvent (stored_event (mkEvent (ev_id e) (ev_name e) (ev_display e) (attach_all (ev_props e) props))))) s)
  end.
(** 386-400 *)
Definition event_delete (p id : N) (s : Store) : Res Event * Store :=
  match event_by_id p id s with
  | Err x => (Err x, s)
  | Ok e => (Ok e, delete_index (kdel (make_data_value_key (events_ns p) id) s) (event_keys p (ev_name e) (ev_display e)))
  end.
(** 241-263 *)
Definition event_list (p : N) (s : Store) : list (Val Rec) := list_prefix (make_data_key (events_ns p)) s.
(** 402-412 *)
Definition event_next_record (p : N) (s : Store) : Res N * Store :=
  next_seq (make_id_seq_key (project_ns p "events/records")) s.

(** ** Custom events: custom_events.rs *)
Definition custom_ns (p : N) : string := project_ns p "custom_events".
Definition MAX_EVENTS_LEVEL : nat := 3.                                     (* 42 *)
Definition custom_keys (p : N) (name : string) : list (option string) :=    (* 44-50 *)
  [Some (make_index_key (custom_ns p) "name" name)].
(** 113-127 *)
Definition custom_by_id (p id : N) (s : Store) : Res CustomEvent :=
  match kget (make_data_value_key (custom_ns p) id) s with
  | Some (VRec (RCustomEvent c)) => Ok c
  | Some _ => Err Panicked
  | None => Err NotFound
  end.
(** 75-111: returns the ids visited so far.  [fuel] bounds the recursion; the level check
    makes [max_level + 2] enough. *)
Fixpoint validate (max : nat) (p : N) (s : Store) (fuel level : nat) (evs : list EventRef) (ids : list N)
  : Res (list N) :=
  match fuel with
  | O => Err Panicked
  | S fuel' =>
    if Nat.ltb max level then Err BadRequest else
    (fix go (evs : list EventRef) (ids : list N) : Res (list N) :=
       match evs with
       | [] => Ok ids
       | RefName n :: r => match event_by_name p n s with Ok _ => go r ids | Err e => Err e end
       | RefRegular id :: r => match event_by_id p id s with Ok _ => go r ids | Err e => Err e end
       | RefCustom id :: r =>
         if existsb (N.eqb id) ids then Err AlreadyExists else
         match custom_by_id p id s with
         | Err e => Err e
         | Ok c => match validate max p s fuel' (S level) (ce_events c) (ids ++ [ce_id c])%list with
                   | Ok ids' => go r ids'
                   | Err e => Err e
                   end
         end
       end) evs ids
  end.
Definition validate_events (p : N) (evs : list EventRef) (ids : list N) (s : Store) : Res (list N) :=
  validate MAX_EVENTS_LEVEL p s (MAX_EVENTS_LEVEL + 2) 0 evs ids.
(** 129-171 *)
Definition custom_create (p : N) (name : string) (evs : list EventRef) (s : Store) : Res CustomEvent * Store :=
  match evs with
  | [] => (Err BadRequest, s)
  | _ =>
    match validate_events p evs [] s with
    | Err e => (Err e, s)
    | Ok _ =>
      if check_insert s (custom_keys p name) then
        match next_seq (make_id_seq_key (custom_ns p)) s with
        | (Err e, _) => (Err e, s)
        | (Ok id, s1) =>
          let c := mkCustom id name evs in
          (Ok c, insert_index (kput (make_data_value_key (custom_ns p) id) (VRec (RCustomEvent c)) s1)
                              (custom_keys p name) id)
        end
      else (Err AlreadyExists, s)
    end
  end.
(** 214-270 *)
Definition custom_update (p id : N) (name : option string) (evs : option (list EventRef)) (s : Store)
  : Res CustomEvent * Store :=
  match custom_by_id p id s with
  | Err x => (Err x, s)
  | Ok prev =>
    let ks := match name with Some n => custom_keys p n | None => [] end in
    let pk := match name with Some _ => custom_keys p (ce_name prev) | None => [] end in
    if check_update s ks pk then
      let done (es : list EventRef) :=
        let c := mkCustom (ce_id prev) (match name with Some n => n | None => ce_name prev end) es in
        (Ok c, update_index (kput (make_data_value_key (custom_ns p) (ce_id prev)) (VRec (RCustomEvent c)) s) ks pk id) in
      match evs with
      | None => done (ce_events prev)
      | Some [] => (Err BadRequest, s)
      | Some es => match validate_events p es [ce_id prev] s with
                   | Err e => (Err e, s)
                   | Ok _ => done es
                   end
      end
    else (Err AlreadyExists, s)
  end.
(** 272-283 *)
Definition custom_delete (p id : N) (s : Store) : Res CustomEvent * Store :=
  match custom_by_id p id s with
  | Err x => (Err x, s)
  | Ok c => (Ok c, delete_index (kdel (make_data_value_key (custom_ns p) id) s) (custom_keys p (ce_name c)))
  end.

(** ** Accounts: accounts.rs *)
Definition email_key (email : string) : option string := Some (make_index_key "accounts" "email" email).
(** 54-62 *)
Definition account_by_id (id : N) (s : Store) : Res Account :=
  match kget (make_data_value_key "accounts" id) s with
  | Some (VRec (RAccount a)) => Ok a
  | Some _ => Err Panicked
  | None => Err NotFound
  end.
(** 87-95 *)
Definition account_by_email (email : string) (s : Store) : Res Account :=
  match get_index s (make_index_key "accounts" "email" email) with
  | Ok id => account_by_id id s
  | Err e => Err e
  end.
(** 64-80 *)
Definition account_create (email : string) (orgs : list (N * OrgRole)) (s : Store) : Res Account * Store :=
  if check_insert s [email_key email] then
    match next_seq (make_id_seq_key "accounts") s with
    | (Err e, _) => (Err e, s)
    | (Ok id, s1) =>
      let a := mkAccount id email orgs in
      (Ok a, insert_index (kput (make_data_value_key "accounts" id) (VRec (RAccount a)) s1) [email_key email] id)
    end
  else (Err AlreadyExists, s).
(** 121-167; [orgs] as in the request. *)
Definition account_update (id : N) (email : option string) (orgs : option (list (N * OrgRole))) (s : Store)
  : Res Account * Store :=
  match account_by_id id s with
  | Err x => (Err x, s)
  | Ok prev =>
    let ks := match email with Some e => [email_key e] | None => [] end in
    let pk := match email with Some _ => [email_key (ac_email prev)] | None => [] end in
    if check_update s ks pk then
      let a := mkAccount (ac_id prev) (match email with Some e => e | None => ac_email prev end)
                         (match orgs with Some o => o | None => ac_orgs prev end) in
      (Ok a, update_index (kput (make_data_value_key "accounts" (ac_id prev)) (VRec (RAccount a)) s) ks pk id)
    else (Err AlreadyExists, s)
  end.
(** 169-177 *)
Definition account_delete (id : N) (s : Store) : Res Account * Store :=
  match account_by_id id s with
  | Err x => (Err x, s)
  | Ok a => (Ok a, delete_index (kdel (make_data_value_key "accounts" id) s) [email_key (ac_email a)])
  end.
Definition put_account (a : Account) (s : Store) : Store :=
  kput (make_data_value_key "accounts" (ac_id a)) (VRec (RAccount a)) s.
(** 179-198 *)
Definition add_organization (member org : N) (r : OrgRole) (s : Store) : Res unit * Store :=
  match account_by_id member s with
  | Err x => (Err x, s)
  | Ok a =>
    if existsb (fun x => N.eqb (fst x) org) (ac_orgs a) then (Err AlreadyExists, s)
    else (Ok tt, put_account (mkAccount (ac_id a) (ac_email a) (ac_orgs a ++ [(org, r)])) s)
  end.
(** 200-218 *)
Definition remove_organization (member org : N) (s : Store) : Res unit * Store :=
  match account_by_id member s with
  | Err x => (Err x, s)
  | Ok a =>
    if forallb (fun x => negb (N.eqb (fst x) org)) (ac_orgs a) then (Err NotFound, s)
    else (Ok tt, put_account (mkAccount (ac_id a) (ac_email a)
                    (filter (fun x => negb (N.eqb (fst x) org)) (ac_orgs a))) s)
  end.
(** The first entry for [org] gets the role. *)
Fixpoint set_role (k : N) (r : OrgRole) (l : list (N * OrgRole)) : option (list (N * OrgRole)) :=
  match l with
  | [] => None
  | (i, x) :: t => if N.eqb i k then Some ((i, r) :: t) else option_map (cons (i, x)) (set_role k r t)
  end.
(** 220-240 *)
Definition change_organization_role (member org : N) (r : OrgRole) (s : Store) : Res unit * Store :=
  match account_by_id member s with
  | Err x => (Err x, s)
  | Ok a =>
    match set_role org r (ac_orgs a) with
    | None => (Err NotFound, s)
    | Some l => (Ok tt, put_account (mkAccount (ac_id a) (ac_email a) l) s)
    end
  end.

(** ** Organizations: organizations.rs *)
Definition org_name_key (name : string) : option string := Some (make_index_key "organizations" "name" name).
(** 53-62 *)
Definition org_by_id (id : N) (s : Store) : Res Org :=
  match kget (make_data_value_key "organizations" id) s with
  | Some (VRec (ROrg o)) => Ok o
  | Some _ => Err Panicked
  | None => Err NotFound
  end.
Definition put_org (o : Org) (s : Store) : Store :=
  kput (make_data_value_key "organizations" (org_id o)) (VRec (ROrg o)) s.
(** 64-92 *)
Definition org_create (by_ : N) (name : string) (s : Store) : Res Org * Store :=
  if check_insert s [org_name_key name] then
    match next_seq (make_id_seq_key "organizations") s with
    | (Err e, _) => (Err e, s)
    | (Ok id, s1) =>
      let o := mkOrg id name [(by_, OrgOwner)] in
      let s2 := insert_index (put_org o s1) [org_name_key name] id in
      match add_organization by_ id OrgOwner s2 with
      | (Ok _, s3) => (Ok o, s3)
      | (Err x, _) => (Err x, s)
      end
    end
  else (Err AlreadyExists, s).
(** 124-159 *)
Definition org_update (id : N) (name : option string) (s : Store) : Res Org * Store :=
  match org_by_id id s with
  | Err x => (Err x, s)
  | Ok prev =>
    let ks := match name with Some n => [org_name_key n] | None => [] end in
    let pk := match name with Some _ => [org_name_key (org_name prev)] | None => [] end in
    if check_update s ks pk then
      let o := mkOrg (org_id prev) (match name with Some n => n | None => org_name prev end) (org_members prev) in
      (Ok o, update_index (put_org o s) ks pk (org_id prev))
    else (Err AlreadyExists, s)
  end.
(** 161-176 *)
Definition org_add_member (id member : N) (r : OrgRole) (s : Store) : Res unit * Store :=
  match org_by_id id s with
  | Err x => (Err x, s)
  | Ok o =>
    if existsb (fun x => N.eqb (fst x) member) (org_members o) then (Err AlreadyExists, s)
    else match add_organization member id r s with
         | (Err x, _) => (Err x, s)
         | (Ok _, s1) => (Ok tt, put_org (mkOrg (org_id o) (org_name o) (org_members o ++ [(member, r)])) s1)
         end
  end.
(** 178-193 *)
Definition org_remove_member (id member : N) (s : Store) : Res unit * Store :=
  match org_by_id id s with
  | Err x => (Err x, s)
  | Ok o =>
    if negb (existsb (fun x => N.eqb (fst x) member) (org_members o)) then (Err NotFound, s)
    else match remove_organization member id s with
         | (Err x, _) => (Err x, s)
         | (Ok _, s1) => (Ok tt, put_org (mkOrg (org_id o) (org_name o)
                            (filter (fun x => negb (N.eqb (fst x) member)) (org_members o))) s1)
         end
  end.
(** 195-217 *)
Definition org_change_role (id member : N) (r : OrgRole) (s : Store) : Res unit * Store :=
  match org_by_id id s with
  | Err x => (Err x, s)
  | Ok o =>
    match set_role member r (org_members o) with
    | None => (Err NotFound, s)
    | Some l => match change_organization_role member id r s with
                | (Err x, _) => (Err x, s)
                | (Ok _, s1) => (Ok tt, put_org (mkOrg (org_id o) (org_name o) l) s1)
                end
    end
  end.
(** 219-228 *)
Definition org_delete (id : N) (s : Store) : Res Org * Store :=
  match org_by_id id s with
  | Err x => (Err x, s)
  | Ok o => (Ok o, delete_index (kdel (make_data_value_key "organizations" id) s) [org_name_key (org_name o)])
  end.

(** ** Projects: projects.rs *)
(** 34-44: names and tokens are entered in the same index. *)
Definition project_name_key (name : string) : option string := Some (make_index_key "projects" "name" name).
Definition project_token_key (token : string) : option string := Some (make_index_key "projects" "name" token).
(** 55-64 *)
Definition project_by_id (id : N) (s : Store) : Res Project :=
  match kget (make_data_value_key "projects" id) s with
  | Some (VRec (RProject p)) => Ok p
  | Some _ => Err Panicked
  | None => Err NotFound
  end.
(** 101-109 *)
Definition project_by_token (token : string) (s : Store) : Res Project :=
  match get_index s (make_index_key "projects" "name" token) with
  | Ok id => project_by_id id s
  | Err e => Err e
  end.
(** 66-94 *)
Definition project_create (org : N) (name token : string) (secs : N) (s : Store) : Res Project * Store :=
  if check_insert s [project_name_key name; project_token_key token] then
    match next_seq (make_id_seq_key "projects") s with
    | (Err e, _) => (Err e, s)
    | (Ok id, s1) =>
      let p := mkProject id org name token secs 0 in
      (Ok p, insert_index (kput (make_data_value_key "projects" id) (VRec (RProject p)) s1)
                          [project_name_key name; project_token_key token] id)
    end
  else (Err AlreadyExists, s).
(** 135-174 *)
Definition project_update (id : N) (name token : option string) (s : Store) : Res Project * Store :=
  match project_by_id id s with
  | Err x => (Err x, s)
  | Ok prev =>
    let ks := ((match name with Some n => [project_name_key n] | None => [] end)
               ++ (match token with Some t => [project_token_key t] | None => [] end))%list in
    let pk := ((match name with Some _ => [project_name_key (pr_name prev)] | None => [] end)
               ++ (match token with Some _ => [project_token_key (pr_token prev)] | None => [] end))%list in
    if check_update s ks pk then
      let p := mkProject (pr_id prev) (pr_org prev) (match name with Some n => n | None => pr_name prev end)
                         (match token with Some t => t | None => pr_token prev end)
                         (pr_session_secs prev) (pr_events prev) in
      (Ok p, update_index (kput (make_data_value_key "projects" id) (VRec (RProject p)) s) ks pk id)
    else (Err AlreadyExists, s)
  end.
(** 176-186 *)
Definition project_count_event (id : N) (s : Store) : Res unit * Store :=
  match project_by_id id s with
  | Err x => (Err x, s)
  | Ok p => (Ok tt, kput (make_data_value_key "projects" id)
              (VRec (RProject (mkProject (pr_id p) (pr_org p) (pr_name p) (pr_token p) (pr_session_secs p) (pr_events p + 1)%N))) s)
  end.
(** 187-196 *)
Definition project_delete (id : N) (s : Store) : Res Project * Store :=
  match project_by_id id s with
  | Err x => (Err x, s)
  | Ok p => (Ok p, delete_index (kdel (make_data_value_key "projects" id) s)
                     [project_name_key (pr_name p); project_token_key (pr_token p)])
  end.
(** 111-133 *)
Definition project_list (s : Store) : list (Val Rec) := list_prefix (make_data_key "projects") s.

(** ** Teams: teams.rs *)
Definition teams_ns (o : N) : string := org_ns o "teams".
Definition team_name_key (o : N) (name : string) : option string := Some (make_index_key (teams_ns o) "name" name).
(** 55-69 *)
Definition team_by_id (o id : N) (s : Store) : Res Team :=
  match kget (make_data_value_key (teams_ns o) id) s with
  | Some (VRec (RTeam t)) => Ok t
  | Some _ => Err Panicked
  | None => Err NotFound
  end.
(** 71-102 *)
Definition team_create (o : N) (name : string) (s : Store) : Res Team * Store :=
  if check_insert s [team_name_key o name] then
    match next_seq (make_id_seq_key (teams_ns o)) s with
    | (Err e, _) => (Err e, s)
    | (Ok id, s1) =>
      let t := mkTeam id o name in
      (Ok t, insert_index (kput (make_data_value_key (teams_ns o) id) (VRec (RTeam t)) s1) [team_name_key o name] id)
    end
  else (Err AlreadyExists, s).
(** 133-166 *)
Definition team_update (o id : N) (name : option string) (s : Store) : Res Team * Store :=
  match team_by_id o id s with
  | Err x => (Err x, s)
  | Ok prev =>
    let ks := match name with Some n => [team_name_key o n] | None => [] end in
    let pk := match name with Some _ => [team_name_key o (tm_name prev)] | None => [] end in
    if check_update s ks pk then
      let t := mkTeam (tm_id prev) (tm_org prev) (match name with Some n => n | None => tm_name prev end) in
      (Ok t, update_index (kput (make_data_value_key (teams_ns o) id) (VRec (RTeam t)) s) ks pk id)
    else (Err AlreadyExists, s)
  end.
(** 168-180 *)
Definition team_delete (o id : N) (s : Store) : Res Team * Store :=
  match team_by_id o id s with
  | Err x => (Err x, s)
  | Ok t => (Ok t, delete_index (kdel (make_data_value_key (teams_ns o) id) s) [team_name_key o (tm_name t)])
  end.
(** 110-131 *)
Definition team_list (o : N) (s : Store) : list (Val Rec) := list_first (make_data_key (teams_ns o)) s.

(** ** Groups: groups.rs *)
Definition GROUPS_COUNT : N := 5.                            (* common/src/lib.rs *)
Definition group_seq_key (p g : N) : string := make_id_seq_key (project_ns p ("groups/" ++ dec g)).
(** 31-65 *)
Definition anon_get_or_create (p g : N) (key : string) (s : Store) : Res N * Store :=
  match kget (anon_key p g key) s with
  | Some v => match read_num v with Some n => (Ok n, s) | None => (Err Panicked, s) end
  | None =>
    match next_seq (group_seq_key p g) s with
    | (Err e, _) => (Err e, s)
    | (Ok id, s1) => (Ok id, kput (anon_key p g key) (VNum id) s1)
    end
  end.
Definition read_group_values (v : Val Rec) : Res GroupValues :=
  match v with VRec (RGroupValues g) => Ok g | _ => Err Panicked end.
(** 70-101: the anonymous id is allocated in a transaction of its own (83), then the
    sequence is overwritten with the decimal digits of the id (87). *)
Definition merge_with_anonymous (p g : N) (anonymous id : string) (vals : list (N * N)) (s : Store)
  : Res GroupValues * Store :=
  match kget (real_key p g id) s with
  | Some v => (read_group_values v, s)
  | None =>
    match anon_get_or_create p g anonymous s with
    | (Err e, s1) => (Err e, s1)
    | (Ok aid, s1) =>
      let gv := mkGroupValues aid vals in
      (Ok gv, kput (real_key p g id) (VRec (RGroupValues gv)) (kput (group_seq_key p g) (VText (dec aid)) s1))
    end
  end.
(** 103-140 *)
Definition group_get_or_create (p g : N) (key : string) (vals : list (N * N)) (s : Store) : Res GroupValues * Store :=
  match kget (real_key p g key) s with
  | Some v => (read_group_values v, s)
  | None =>
    match next_seq (group_seq_key p g) s with
    | (Err e, _) => (Err e, s)
    | (Ok id, s1) =>
      let gv := mkGroupValues id vals in (Ok gv, kput (real_key p g key) (VRec (RGroupValues gv)) s1)
    end
  end.
(** 164-177: a value replaces the one at the position of its property in the stored values,
    otherwise it is appended. *)
Fixpoint position (pid : N) (l : list (N * N)) : option nat :=
  match l with
  | [] => None
  | (i, _) :: r => if N.eqb i pid then Some O else option_map S (position pid r)
  end.
Fixpoint replace_at {B} (n : nat) (x : B) (l : list B) : list B :=
  match n, l with
  | _, [] => []
  | O, _ :: r => x :: r
  | S n', y :: r => y :: replace_at n' x r
  end.
Definition merge_values (old new : list (N * N)) : list (N * N) :=
  fold_left (fun vals v => match position (fst v) old with
                           | Some i => replace_at i v vals
                           | None => (vals ++ [v])%list
                           end) new old.
(** 142-189 *)
Definition group_create_or_update (p g : N) (key : string) (vals : list (N * N)) (s : Store) : Res GroupValues * Store :=
  match kget (real_key p g key) s with
  | Some v =>
    match read_group_values v with
    | Err e => (Err e, s)
    | Ok old =>
      let gv := mkGroupValues (gv_id old) (merge_values (gv_values old) vals) in
      (Ok gv, kput (real_key p g key) (VRec (RGroupValues gv)) s)
    end
  | None =>
    match next_seq (group_seq_key p g) s with
    | (Err e, _) => (Err e, s)
    | (Ok id, s1) =>
      let gv := mkGroupValues id vals in (Ok gv, kput (real_key p g key) (VRec (RGroupValues gv)) s1)
    end
  end.
(** 211-246 *)
Definition group_type_get_or_create (p : N) (name : string) (s : Store) : Res Group * Store :=
  match kget (group_name_key p name) s with
  | Some (VRec (RGroup g)) => (Ok g, s)
  | Some _ => (Err Panicked, s)
  | None =>
    match next_zero_seq (make_id_seq_key (project_ns p "groups")) s with
    | (Err e, _) => (Err e, s)
    | (Ok id, s1) =>
      if N.leb GROUPS_COUNT id then (Err BadRequest, s)
      else let g := mkGroup id name in (Ok g, kput (group_name_key p name) (VRec (RGroup g)) s1)
    end
  end.
(** 191-209 *)
Definition group_type_list (p : N) (s : Store) : list (Val Rec) :=
  list_prefix ("projects/" ++ dec p ++ "/groups/names") s.
(** 248-257 *)
Definition group_next_record (p g : N) (s : Store) : Res N * Store :=
  next_seq (make_id_seq_key (project_ns p ("groups/" ++ dec g ++ "/records/"))) s.

(** ** Sessions: sessions.rs *)
(** 75-102 *)
Definition session_set_time (p u : N) (t : Z) (s : Store) : Res bool * Store :=
  match kget (session_key p u) s with
  | None => (Ok true, kput (session_key p u) (VRec (RSession (mkSession u t))) s)
  | Some (VRec (RSession se)) => (Ok false, kput (session_key p u) (VRec (RSession (mkSession (se_user se) t))) s)
  | Some _ => (Err Panicked, s)
  end.
(** 37-46 *)
Definition session_by_user (p u : N) (s : Store) : Res Session :=
  match kget (session_key p u) s with
  | Some (VRec (RSession se)) => Ok se
  | Some _ => Err Panicked
  | None => Err NotFound
  end.
(** 104-132: [f] is the callback; it does not fail. *)
Definition session_clean (p : N) (f : Session -> bool) (s : Store) : Store :=
  fold_left (fun s v => match v with
                        | VRec (RSession se) => if f se then kdel (session_key p (se_user se)) s else s
                        | _ => s
                        end) (list_prefix (make_data_key (project_ns p "sessions")) s) s.
(** 48-73 *)
Definition session_clear (p : N) (s : Store) : Store := session_clean p (fun _ => true) s.

(** ** Properties: properties.rs *)
Definition btype_name (b : BType) : string :=                       (* types.rs 140-165 *)
  match b with
  | TString => "str" | TInt8 => "i8" | TInt16 => "i16" | TInt32 => "i32" | TInt64 => "i64"
  | TDecimal => "d" | TBoolean => "b" | TTimestamp => "ts"
  end.
Definition short_name (t : PType) : string :=
  match t with PBase b => btype_name b | PList b => "l_" ++ btype_name b end.
Definition prop_ns (p : N) (k : PropKind) : string :=               (* 554-563 *)
  project_ns p (match k with KEvent => "event_properties" | KGroup g => "group_" ++ dec g ++ "_properties" end).
Definition prop_keys (p : N) (k : PropKind) (name : string) (d : option string) : list (option string) :=
  [Some (make_index_key (prop_ns p k) "name" name);
   option_map (make_index_key (prop_ns p k) "display_name") d].     (* 50-87 *)

(** 609-631.  [snake] is convert_case's [to_case(Case::Snake)] followed by [trim]; the name
    is first stripped of all characters but letters, digits, white space and '_'
    (ASCII only). *)
Definition kept_char (c : ascii) : bool :=
  let n := N_of_ascii c in
  ((65 <=? n) && (n <=? 90) || (97 <=? n) && (n <=? 122) || (48 <=? n) && (n <=? 57)
   || (n =? 32) || (9 <=? n) && (n <=? 13) || (n =? 95))%N.
Fixpoint strip_name (s : string) : string :=
  match s with
  | EmptyString => EmptyString
  | String c r => if kept_char c then String c (strip_name r) else strip_name r
  end.
Definition column_name (snake : string -> string) (pr : Property) : string :=
  if pp_system pr then snake (strip_name (pp_name pr))
  else match pp_kind pr with
       | KEvent => "e_" ++ short_name (pp_type pr) ++ "_" ++ dec (pp_order pr)
       | KGroup g => "g_" ++ dec g ++ "_" ++ short_name (pp_type pr) ++ "_" ++ dec (pp_order pr)
       end.
(** 194-217, without the cache (a copy of the stored record). *)
Definition prop_by_id (p : N) (k : PropKind) (id : N) (s : Store) : Res Property :=
  match kget (make_data_value_key (prop_ns p k) id) s with
  | Some (VRec (RProperty x)) => Ok x
  | Some _ => Err Panicked
  | None => Err NotFound
  end.
Definition prop_by_name (p : N) (k : PropKind) (name : string) (s : Store) : Res Property :=
  match get_index s (make_index_key (prop_ns p k) "name" name) with
  | Ok id => prop_by_id p k id s
  | Err e => Err e
  end.
(** properties.rs 707-717: writing a property whose type is a list panics. *)
Definition storable (t : PType) : bool := match t with PBase _ => true | PList _ => false end.
(** 219-348 up to the columns added to the tables ([add_field], 314-347, taken to succeed). *)
Definition prop_create (snake : string -> string) (p : N) (k : PropKind) (name : string) (d : option string)
  (t : PType) (system : bool) (s : Store) : Res Property * Store :=
  if check_insert s (prop_keys p k name d) then
    match next_seq (make_id_seq_key (prop_ns p k)) s with
    | (Err e, _) => (Err e, s)
    | (Ok id, s1) =>
      match next_zero_seq (make_id_seq_key (project_ns p ("properties/order/" ++ short_name t))) s1 with
      | (Err e, _) => (Err e, s)
      | (Ok order, s2) =>
        let x := mkProperty id k name d order t system in
        if negb (storable t) then (Err Panicked, s) else
        (Ok x, insert_index (kput (make_data_value_key (prop_ns p k) id) (VRec (RProperty x)) s2)
                 (prop_keys p k name d ++ [Some (make_index_key (project_ns p "global") "column_name" (column_name snake x))])
                 id)
      end
    end
  else (Err AlreadyExists, s).
(** 358-370 *)
Definition prop_get_or_create (snake : string -> string) (p : N) (k : PropKind) (name : string) (d : option string)
  (t : PType) (system : bool) (s : Store) : Res Property * Store :=
  match prop_by_name p k name s with
  | Ok x => (Ok x, s)
  | Err NotFound => prop_create snake p k name d t system s
  | Err e => (Err e, s)
  end.
(** 419-516; the name cannot be changed; changing the kind (446-448) is not modelled. *)
Definition prop_update (p : N) (k : PropKind) (id : N) (d : option (option string)) (t : option PType)
  (system : option bool) (s : Store) : Res Property * Store :=
  match prop_by_id p k id s with
  | Err x => (Err x, s)
  | Ok prev =>
    let ks := match d with Some x => [option_map (make_index_key (prop_ns p k) "display_name") x] | None => [] end in
    let pk := match d with Some _ => [option_map (make_index_key (prop_ns p k) "display_name") (pp_display prev)]
                         | None => [] end in
    if check_update s ks pk then
      let x := mkProperty (pp_id prev) (pp_kind prev) (pp_name prev)
                 (match d with Some x => x | None => pp_display prev end) (pp_order prev)
                 (match t with Some t => t | None => pp_type prev end)
                 (match system with Some b => b | None => pp_system prev end) in
      if negb (storable (pp_type x)) then (Err Panicked, s) else
      (Ok x, update_index (kput (make_data_value_key (prop_ns p k) (pp_id prev)) (VRec (RProperty x)) s) ks pk id)
    else (Err AlreadyExists, s)
  end.
(** 511-538 *)
Definition prop_delete (p : N) (k : PropKind) (id : N) (s : Store) : Res Property * Store :=
  match prop_by_id p k id s with
  | Err e => (Err e, s)
  | Ok x => (Ok x, delete_index (kdel (make_data_value_key (prop_ns p k) id) s) (prop_keys p k (pp_name x) (pp_display x)))
  end.
