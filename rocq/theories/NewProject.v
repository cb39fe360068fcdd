(** What a new project is furnished with, and the properties the ingester itself adds to a
    call.  src/platform/src/projects.rs 86-126, 164-204 and 275-470; src/metadata/src/util.rs
    39-101; src/ingester/src/transformers; src/ingester/src/destinations/local/track.rs
    118-212. *)
From Coq Require Import List NArith String Bool.
From Verif Require Import Kv Md Ingest.
Import ListNotations.
Local Open Scope string_scope.

(** src/metadata/src/util.rs 39-101: [create_property] and [create_event] get the one of
    that name or create it.  Whether a property is a dictionary, hidden or nullable is not
    modelled (the oracle [isdict] of the ingest model). *)
Inductive Item := IProp (k : PropKind) (n : string) (d : option string) (t : BType) (sys : bool) | IEvent (n : string).
(** projects.rs 348-369; the strings are those of common/src/types.rs 46-65. *)
Definition dict_names : list string :=
  ["Client Family"; "Client Version Minor"; "Client Version Major"; "Version Patch"; "Device Family"; "Device Brand"; "Device Model";
   "OS"; "OS Family"; "OS Version Major"; "OS Version Minor"; "OS Version Patch"; "OS Version Patch Minor"; "Country"; "City";
   "UTM Source"; "UTM Medium"; "UTM Campaign"; "UTM Term"; "UTM Content"].
(** 383-395; common/src/types.rs 33-43. *)
Definition text_names : list string :=
  ["Name"; "Href"; "ID"; "Class"; "Text"; "Element"; "Page Path"; "Page Referer"; "Page Search"; "Page Title"; "Page URL"].
(** 343-347; common/src/types.rs 67-71. *)
Definition first_events : list string := ["Click"; "Page"; "Screen"; "Session Begin"; "Session End"].
Definition kinds : list N := [0; 1; 2; 3; 4]%N.
(** 276-465, in the order of the program. *)
Definition init_items : list Item :=
  ([IProp KEvent "project_id" (Some "Project") TString true] ++
   map (fun g => IProp KEvent (group_col g) (Some ("Group " ++ dec g)%string) TString true) kinds ++
   [IProp KEvent "created_at" (Some "Created At") TTimestamp true; IProp KEvent "event_id" (Some "Event ID") TInt64 true;
    IProp KEvent "event" (Some "Event") TString true; IProp KEvent "ip" (Some "Ip") TString true] ++
   map IEvent first_events ++
   map (fun n => IProp KEvent n None TString false) (dict_names ++ text_names) ++
   [IProp KEvent "Session Length" None TTimestamp false] ++
   flat_map (fun g => [IProp (KGroup g) "project_id" (Some "Project ID") TString true; IProp (KGroup g) "id" (Some "ID") TString true;
                       IProp (KGroup g) "version" (Some "Version") TInt64 true; IProp (KGroup g) "created_at" (Some "Created At") TTimestamp true]) kinds)%list.

(** src/common/src/lib.rs 18 *)
Definition GROUP_USER : string := "user".
Section New.
Variable snake : string -> string.
Definition make_item (p : N) (it : Item) (s : Store) : Res unit * Store :=
  match it with
  | IProp k n d t sys => let (y, s') := prop_get_or_create snake p k n d (PBase t) sys s in (match y with Ok _ => Ok tt | Err e => Err e end, s')
  | IEvent n => let (y, s') := event_get_or_create p n None [] s in (match y with Ok _ => Ok tt | Err e => Err e end, s')
  end.
(** The first failure ends the furnishing; what was made stays. *)
Fixpoint make_items (p : N) (l : list Item) (s : Store) : Res unit * Store :=
  match l with
  | [] => (Ok tt, s)
  | it :: r => match make_item p it s with (Ok _, s1) => make_items p r s1 | (Err e, s1) => (Err e, s1) end
  end.
Definition init_project (p : N) (s : Store) : Res unit * Store :=
  match make_items p init_items s with
  | (Err e, s1) => (Err e, s1)
  | (Ok _, s1) => let (y, s2) := group_type_get_or_create p GROUP_USER s1 in (match y with Ok _ => Ok tt | Err e => Err e end, s2)
  end.
(** 107-122 and 184-199: the name of the project in the dictionaries of the tables. *)
Definition name_in (p : N) (name : string) (s : Store) : Store :=
  fold_left (fun s t => dict_create_key p t "project_id" p name s) (TABLE_EVENTS :: map group_col kinds) s.
(** 86-126, after the check of permissions.  The token is drawn by the caller. *)
Definition new_project (org : N) (name token : string) (secs : N) (s : Store) : Res Project * Store :=
  match project_create org name token secs s with
  | (Err e, s1) => (Err e, s1)
  | (Ok pj, s1) => let (y, s2) := init_project (pr_id pj) (name_in (pr_id pj) name s1) in
                   (match y with Ok _ => Ok pj | Err e => Err e end, s2)
  end.
(** 164-204, after the check of permissions. *)
Definition rename_project (id : N) (name token : option string) (s : Store) : Res Project * Store :=
  match project_update id name token s with
  | (Err e, s1) => (Err e, s1)
  | (Ok pj, s1) => (Ok pj, name_in (pr_id pj) (pr_name pj) s1)
  end.
End New.

(** *** What the ingester adds to a call *)
(** The answer of the uaparser library for the user agent of the call (an oracle). *)
Record Client := mkClient { cl_family : string; cl_major : option string; cl_minor : option string;
  dv_family : string; dv_brand : option string; dv_model : option string;
  os_family : string; os_major : option string; os_minor : option string; os_patch : option string; os_pm : option string }.
Definition opt (n : string) (v : option string) : list (string * string) := match v with Some x => [(n, x)] | None => [] end.
(** transformers/user_agent/mod.rs 115-132 *)
Definition os_text (c : Client) : string :=
  os_family c ++ match os_major c with
    | None => ""
    | Some a => " " ++ a ++ match os_minor c with
       | None => ""
       | Some b => "." ++ b ++ match os_patch c with
          | None => ""
          | Some d => "." ++ d ++ match os_pm c with None => "" | Some e => "." ++ e end
          end
       end
    end.
(** transformers/user_agent/mod.rs 17-191, track.rs 27-43 (nothing without a user agent). *)
Definition agent_props (c : option Client) : list (string * string) :=
  match c with
  | None => []
  | Some c =>
    [("Client Family", cl_family c)] ++ opt "Client Version Major" (cl_major c) ++ opt "Client Version Minor" (cl_minor c) ++
    [("Device Family", dv_family c)] ++ opt "Device Brand" (dv_brand c) ++ opt "Device Model" (dv_model c) ++
    [("OS", os_family c); ("OS Family", os_text c)] ++ opt "OS Version Major" (os_major c) ++ opt "OS Version Minor" (os_minor c) ++
    opt "OS Version Patch" (os_patch c) ++ opt "OS Version Patch Minor" (os_pm c)
  end%list.
(** transformers/geo/track.rs: country and city of the address, English names, if the
    database (an oracle) knows them; an address it does not know adds nothing. *)
Definition geo_props (country city : option string) : list (string * string) := (opt "Country" country ++ opt "City" city)%list.
(** destinations/local/track.rs 118-212 *)
Record Campaign := mkCampaign { cp_source : string; cp_medium : option string; cp_campaign : option string; cp_term : option string; cp_content : option string }.
Definition utm_props (c : option Campaign) : list (string * string) :=
  match c with
  | None => []
  | Some c => [("UTM Source", cp_source c)] ++ opt "UTM Medium" (cp_medium c) ++ opt "UTM Campaign" (cp_campaign c) ++
              opt "UTM Term" (cp_term c) ++ opt "UTM Content" (cp_content c)
  end%list.
