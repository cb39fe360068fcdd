(** The kinds of keys the metadata crate uses, and their rendering with the functions of
    [Kv.v].  A parser for rendered keys serves to show that rendering is injective. *)
From Coq Require Import List NArith String Ascii Bool DecimalString.
From Verif Require Import Kv.
Import ListNotations.
Local Open Scope string_scope.

(** Namespaces holding entities.  accounts.rs 34, organizations.rs 32, projects.rs 31,
    backups.rs 26; events.rs 35, custom_events.rs 40, dashboards.rs 25, reports.rs 29,
    properties.rs 554-563; teams.rs 28. *)
Inductive RootNs := RAccounts | ROrganizations | RProjects | RBackups.
Inductive ProjNs := PEvents | PCustom | PDashboards | PReports | PEventProps | PGroupProps (g : N).
Inductive Ns := NRoot (r : RootNs) | NProj (p : N) (k : ProjNs) | NTeams (o : N).

Definition root_str (r : RootNs) : string :=
  match r with
  | RAccounts => "accounts" | ROrganizations => "organizations"
  | RProjects => "projects" | RBackups => "system/backups"
  end.
Definition proj_str (k : ProjNs) : string :=
  match k with
  | PEvents => "events" | PCustom => "custom_events" | PDashboards => "dashboards"
  | PReports => "reports" | PEventProps => "event_properties"
  | PGroupProps g => "group_" ++ dec g ++ "_properties"
  end.
Definition ns_str (n : Ns) : string :=
  match n with
  | NRoot r => root_str r
  | NProj p k => project_ns p (proj_str k)
  | NTeams o => org_ns o "teams"
  end.

Inductive Idx := IName | IDisplayName | IEmail.
Definition idx_str (i : Idx) : string :=
  match i with IName => "name" | IDisplayName => "display_name" | IEmail => "email" end.

Inductive Key :=
| KData (ns : Ns) (id : N)
| KIdx (ns : Ns) (i : Idx) (key : string)
| KSeq (ns : Ns)
| KGlobalCol (p : N) (col : string)                       (* properties.rs 292-299 *)
| KRecSeq (p : N)                                         (* events.rs 402-412 *)
| KOrderSeq (p : N) (short : string)                      (* properties.rs 240-249 *)
| KGroupsSeq (p : N)                                      (* groups.rs 221-224 *)
| KGroupSeq (p g : N)                                     (* groups.rs 41-45 *)
| KGroupRecSeq (p g : N)                                  (* groups.rs 248-254 *)
| KAnon (p g : N) (k : string)
| KReal (p g : N) (k : string)
| KGroupName (p : N) (name : string)
| KBookmark (p a : N) (id : string)
| KSession (p u : N)
| KDictKey (p : N) (t d : string) (n : N)
| KDictVal (p : N) (t d v : string)
| KDictSeq (p : N) (t d : string)
| KConfig.                                                (* settings.rs 135 *)

Definition render (k : Key) : string :=
  match k with
  | KData ns id => make_data_value_key (ns_str ns) id
  | KIdx ns i key => make_index_key (ns_str ns) (idx_str i) key
  | KSeq ns => make_id_seq_key (ns_str ns)
  | KGlobalCol p col => make_index_key (project_ns p "global") "column_name" col
  | KRecSeq p => make_id_seq_key (project_ns p "events/records")
  | KOrderSeq p short => make_id_seq_key (project_ns p ("properties/order/" ++ short))
  | KGroupsSeq p => make_id_seq_key (project_ns p "groups")
  | KGroupSeq p g => make_id_seq_key (project_ns p ("groups/" ++ dec g))
  | KGroupRecSeq p g => make_id_seq_key (project_ns p ("groups/" ++ dec g ++ "/records/"))
  | KAnon p g k => anon_key p g k
  | KReal p g k => real_key p g k
  | KGroupName p n => group_name_key p n
  | KBookmark p a id => bookmark_key p a id
  | KSession p u => session_key p u
  | KDictKey p t d n => make_key_key p (tbl_dict t d) n
  | KDictVal p t d v => make_value_key p (tbl_dict t d) v
  | KDictSeq p t d => make_id_seq_key (project_ns p (dict_ns (tbl_dict t d)))
  | KConfig => "config"
  end.

(** Table and column names contain no '/': tables are "events" and "group_N"; columns are
    rendered by properties.rs 610-631, which drops the character. *)
Definition slash : ascii := "/"%char.
Fixpoint no_slash (s : string) : bool :=
  match s with
  | EmptyString => true
  | String c r => negb (Ascii.eqb c slash) && no_slash r
  end.
Definition wf_key (k : Key) : bool :=
  match k with
  | KOrderSeq _ s => no_slash s
  | KDictKey _ t d _ | KDictVal _ t d _ | KDictSeq _ t d => no_slash t && no_slash d
  | _ => true
  end.

(** ** Parsing (used in proofs only) *)
Fixpoint split1 (s : string) : string * option string :=
  match s with
  | EmptyString => (EmptyString, None)
  | String c r => if Ascii.eqb c slash then (EmptyString, Some r)
                  else let (a, b) := split1 r in (String c a, b)
  end.
Definition parse_num (s : string) : option N := option_map N.of_uint (NilZero.uint_of_string s).
Fixpoint drop_prefix (p s : string) : option string :=
  match p, s with
  | EmptyString, _ => Some s
  | String a p', String b s' => if Ascii.eqb a b then drop_prefix p' s' else None
  | _, EmptyString => None
  end.
Definition drop_suffix (x s : string) : option string :=
  let n := String.length s - String.length x in
  if String.eqb (String.substring n (String.length x) s) x then Some (String.substring 0 n s) else None.
Definition obind {A B} (o : option A) (f : A -> option B) : option B :=
  match o with Some a => f a | None => None end.

Definition parse_idx (s : string) : option Idx :=
  if String.eqb s "name" then Some IName
  else if String.eqb s "display_name" then Some IDisplayName
  else if String.eqb s "email" then Some IEmail else None.
(** After "<namespace>/". *)
Definition parse_tail (ns : Ns) (r : string) : option Key :=
  match split1 r with
  | ("data", Some d) => option_map (KData ns) (parse_num d)
  | ("idx", Some x) =>
    match split1 x with
    | (i, Some key) => option_map (fun i => KIdx ns i key) (parse_idx i)
    | _ => None
    end
  | _ => None
  end.
Definition parse_kind (s : string) : option ProjNs :=
  if String.eqb s "events" then Some PEvents
  else if String.eqb s "custom_events" then Some PCustom
  else if String.eqb s "dashboards" then Some PDashboards
  else if String.eqb s "reports" then Some PReports
  else if String.eqb s "event_properties" then Some PEventProps
  else obind (drop_prefix "group_" s) (fun r =>
       obind (drop_suffix "_properties" r) (fun g => option_map PGroupProps (parse_num g))).

Definition parse_groups (p : N) (r : string) : option Key :=
  match split1 r with
  | (a, None) => obind (drop_suffix "id_seq" a) (fun g => option_map (KGroupSeq p) (parse_num g))
  | (a, Some r2) =>
    if String.eqb a "names" then Some (KGroupName p r2)
    else obind (parse_num a) (fun g =>
      match split1 r2 with
      | ("records", Some _) => Some (KGroupRecSeq p g)
      | ("anonymous", Some r3) => match split1 r3 with (_, Some k) => Some (KAnon p g k) | _ => None end
      | ("real", Some r3) => match split1 r3 with (_, Some k) => Some (KReal p g k) | _ => None end
      | _ => None
      end)
  end.
Definition parse_dict (p : N) (r : string) : option Key :=
  match split1 r with
  | ("tables", Some r1) =>
    match split1 r1 with
    | (t, Some r2) =>
      match split1 r2 with
      | (d, Some r3) =>
        match split1 r3 with
        | ("keys", Some n) => option_map (KDictKey p t d) (parse_num n)
        | ("values", Some v) => Some (KDictVal p t d v)
        | ("id_seq", None) => Some (KDictSeq p t d)
        | _ => None
        end
      | _ => None
      end
    | _ => None
    end
  | _ => None
  end.
Definition parse_proj (p : N) (r : string) : option Key :=
  match split1 r with
  | (a, None) =>
    obind (drop_suffix "id_seq" a) (fun b =>
      if String.eqb b "groups" then Some (KGroupsSeq p)
      else option_map (fun k => KSeq (NProj p k)) (parse_kind b))
  | (a, Some r2) =>
    if String.eqb a "groups" then parse_groups p r2
    else if String.eqb a "dictinaries" then parse_dict p r2
    else if String.eqb a "sessions" then
      obind (drop_prefix "data" r2) (fun u => option_map (KSession p) (parse_num u))
    else if String.eqb a "bookmarks" then
      match split1 r2 with
      | (_, Some r3) => match split1 r3 with
                        | (acc, Some id) => option_map (fun x => KBookmark p x id) (parse_num acc)
                        | _ => None
                        end
      | _ => None
      end
    else if String.eqb a "properties" then
      match split1 r2 with
      | (_, Some r3) => option_map (KOrderSeq p) (drop_suffix "id_seq" r3)
      | _ => None
      end
    else if String.eqb a "global" then
      match split1 r2 with
      | (_, Some r3) => match split1 r3 with (_, Some c) => Some (KGlobalCol p c) | _ => None end
      | _ => None
      end
    else if String.eqb a "events" && String.eqb r2 "recordsid_seq" then Some (KRecSeq p)
    else obind (parse_kind a) (fun k => parse_tail (NProj p k) r2)
  end.
Definition parse (s : string) : option Key :=
  match split1 s with
  | (a, None) =>
    if String.eqb a "config" then Some KConfig
    else if String.eqb a "accountsid_seq" then Some (KSeq (NRoot RAccounts))
    else if String.eqb a "organizationsid_seq" then Some (KSeq (NRoot ROrganizations))
    else if String.eqb a "projectsid_seq" then Some (KSeq (NRoot RProjects))
    else None
  | (a, Some r) =>
    if String.eqb a "accounts" then parse_tail (NRoot RAccounts) r
    else if String.eqb a "system" then
      match split1 r with
      | (b, Some r2) => parse_tail (NRoot RBackups) r2
      | (b, None) => Some (KSeq (NRoot RBackups))
      end
    else if String.eqb a "organizations" then
      match split1 r with
      | (b, Some r2) =>
        match parse_num b with
        | None => parse_tail (NRoot ROrganizations) r
        | Some o =>
          match split1 r2 with
          | ("teams", Some r3) => parse_tail (NTeams o) r3
          | ("teamsid_seq", None) => Some (KSeq (NTeams o))
          | _ => None
          end
        end
      | _ => None
      end
    else if String.eqb a "projects" then
      match split1 r with
      | (b, Some r2) =>
        match parse_num b with
        | None => parse_tail (NRoot RProjects) r
        | Some p => parse_proj p r2
        end
      | _ => None
      end
    else None
  end.
