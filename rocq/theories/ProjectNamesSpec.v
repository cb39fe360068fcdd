(** What a project can be called, and what is left when it is deleted. *)
From Coq Require Import List NArith String.
From Verif Require Import Kv Md MdOps.
Local Open Scope N_scope.

(** The projects of a store: number, organization, name, token. *)
Definition is_project (s : Md.Store) (i org : N) (name token : string) : Prop :=
  exists q, project_by_id i s = Ok q /\ pr_org q = org /\ pr_name q = name /\ pr_token q = token.
Definition no_project (s : Md.Store) (i : N) : Prop := forall org name token, ~ is_project s i org name token.
(** No project has the text, as its name or as its token. *)
Definition unused (s : Md.Store) (x : string) : Prop :=
  forall i org name token, is_project s i org name token -> x <> name /\ x <> token.
(** No project of the organization has the text. *)
Definition unused_in (org : N) (s : Md.Store) (x : string) : Prop :=
  forall i name token, is_project s i org name token -> x <> name /\ x <> token.
(** The new value, if one is given, is the old one or free. *)
Definition open_to (s : Md.Store) (old : string) (new : option string) : Prop :=
  forall x, new = Some x -> x = old \/ unused s x.
(** The value after a change. *)
Definition changed (old : string) (new : option string) : string := match new with Some x => x | None => old end.
