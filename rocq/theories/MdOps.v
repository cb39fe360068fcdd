(** The calls of the metadata API as one type of operations, and their histories. *)
From Coq Require Import List NArith ZArith String Ascii Bool.
From Verif Require Import Kv KvKeys Md.
Import ListNotations.
Local Open Scope string_scope.

(** One constructor per modelled function of [Md.v] that may change the store. *)
Inductive MdOp :=
| OEventCreate (p : N) (name : string) (d : option string) (props : list N)
| OEventGetOrCreate (p : N) (name : string) (d : option string) (props : list N)
| OEventUpdate (p id : N) (name : option string) (d : option (option string))
| OEventAttach (p id : N) (props : list N)
| OEventDelete (p id : N)
| OEventRecord (p : N)
| ODictEncode (p : N) (t d value : string)
| ODictCreateKey (p : N) (t d : string) (key : N) (value : string)
| OCustomCreate (p : N) (name : string) (evs : list EventRef)
| OCustomUpdate (p id : N) (name : option string) (evs : option (list EventRef))
| OCustomDelete (p id : N)
| OAccountCreate (email : string) (orgs : list (N * OrgRole))
| OAccountUpdate (id : N) (email : option string) (orgs : option (list (N * OrgRole)))
| OAccountDelete (id : N)
| OOrgCreate (creator : N) (name : string)
| OOrgUpdate (id : N) (name : option string)
| OOrgAdd (id member : N) (r : OrgRole)
| OOrgRemove (id member : N)
| OOrgRole (id member : N) (r : OrgRole)
| OOrgDelete (id : N)
| OProjectCreate (org : N) (name token : string) (secs : N)
| OProjectUpdate (id : N) (name token : option string)
| OProjectCount (id : N)
| OProjectDelete (id : N)
| OTeamCreate (o : N) (name : string)
| OTeamUpdate (o id : N) (name : option string)
| OTeamDelete (o id : N)
| OAnon (p g : N) (key : string)
| OMerge (p g : N) (anonymous id : string) (vals : list (N * N))
| OGroupGet (p g : N) (key : string) (vals : list (N * N))
| OGroupSet (p g : N) (key : string) (vals : list (N * N))
| OGroupType (p : N) (name : string)
| OGroupRecord (p g : N)
| OSession (p u : N) (t : Z)
| OSessionClean (p : N) (f : Session -> bool)
| OPropCreate (p : N) (k : PropKind) (name : string) (d : option string) (t : PType) (system : bool)
| OPropGetOrCreate (p : N) (k : PropKind) (name : string) (d : option string) (t : PType) (system : bool)
| OPropUpdate (p : N) (k : PropKind) (id : N) (d : option (option string)) (t : option PType) (system : option bool)
| OPropDelete (p : N) (k : PropKind) (id : N).

Definition md_step (snake : string -> string) (o : MdOp) (s : Store) : Store :=
  match o with
  | OEventCreate p name d props => snd (event_create p name d props s)
  | OEventGetOrCreate p name d props => snd (event_get_or_create p name d props s)
  | OEventUpdate p id name d => snd (event_update p id name d s)
  | OEventAttach p id props => snd (event_attach p id props s)
  | OEventDelete p id => snd (event_delete p id s)
  | OEventRecord p => snd (event_next_record p s)
  | ODictEncode p t d v => snd (dict_get_or_create p t d v s)
  | ODictCreateKey p t d k v => dict_create_key p t d k v s
  | OCustomCreate p name evs => snd (custom_create p name evs s)
  | OCustomUpdate p id name evs => snd (custom_update p id name evs s)
  | OCustomDelete p id => snd (custom_delete p id s)
  | OAccountCreate email orgs => snd (account_create email orgs s)
  | OAccountUpdate id email orgs => snd (account_update id email orgs s)
  | OAccountDelete id => snd (account_delete id s)
  | OOrgCreate c name => snd (org_create c name s)
  | OOrgUpdate id name => snd (org_update id name s)
  | OOrgAdd id m r => snd (org_add_member id m r s)
  | OOrgRemove id m => snd (org_remove_member id m s)
  | OOrgRole id m r => snd (org_change_role id m r s)
  | OOrgDelete id => snd (org_delete id s)
  | OProjectCreate org name token secs => snd (project_create org name token secs s)
  | OProjectUpdate id name token => snd (project_update id name token s)
  | OProjectCount id => snd (project_count_event id s)
  | OProjectDelete id => snd (project_delete id s)
  | OTeamCreate o name => snd (team_create o name s)
  | OTeamUpdate o id name => snd (team_update o id name s)
  | OTeamDelete o id => snd (team_delete o id s)
  | OAnon p g key => snd (anon_get_or_create p g key s)
  | OMerge p g a id vals => snd (merge_with_anonymous p g a id vals s)
  | OGroupGet p g key vals => snd (group_get_or_create p g key vals s)
  | OGroupSet p g key vals => snd (group_create_or_update p g key vals s)
  | OGroupType p name => snd (group_type_get_or_create p name s)
  | OGroupRecord p g => snd (group_next_record p g s)
  | OSession p u t => snd (session_set_time p u t s)
  | OSessionClean p f => session_clean p f s
  | OPropCreate p k name d t sys => snd (prop_create snake p k name d t sys s)
  | OPropGetOrCreate p k name d t sys => snd (prop_get_or_create snake p k name d t sys s)
  | OPropUpdate p k id d t sys => snd (prop_update p k id d t sys s)
  | OPropDelete p k id => snd (prop_delete p k id s)
  end.

Definition md_run (snake : string -> string) (ops : list MdOp) (s : Store) : Store :=
  fold_left (fun s o => md_step snake o s) ops s.

(** Table and column names contain no '/' (see [KvKeys.no_slash]). *)
Definition wf_op (o : MdOp) : bool :=
  match o with
  | ODictEncode _ t d _ | ODictCreateKey _ t d _ _ => no_slash t && no_slash d
  | _ => true
  end.
