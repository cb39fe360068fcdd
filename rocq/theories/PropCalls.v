(** Requests about the properties of a project's events and groups, from the token to the status of
    the reply: the routes platform/src/http/properties.rs 16-135, 149-177 and the provider
    platform/src/properties.rs 64-136, put together with the token check of [AuthStatus], the
    permission table of [Access] and the stored properties of [Md].
    Simplified: of a property the number, name, display name, order, type and whether it is a
    system one are kept, and a change is one of its display name ([Md]); the numbers in an address
    are numbers; the caches of properties are left out, as in [Md]. *)
From Coq Require Import List NArith ZArith String Bool.
From Verif Require Import Kv KvKeys Md MdOps Access Auth AuthStatus.
Import ListNotations.
Local Open Scope N_scope.

(** [k]: the properties of events, or of the groups of a number. *)
Inductive Ask :=
| PrGet (p : N) (k : PropKind) (id : N) | PrByName (p : N) (k : PropKind) (name : string) | PrList (p : N) (k : PropKind)
| PrUpdate (p : N) (k : PropKind) (id : N) (display : option (option string))
| PrDelete (p : N) (k : PropKind) (id : N).
(** A request: when (in seconds), with which token, whether the body is one of its kind, and what. *)
Record PRequest := mkPRequest { pq_now : Z; pq_bearer : option nat; pq_parses : bool; pq_ask : Ask }.
Inductive Reply := YProp (x : Property) | YProps (l : list Property).

(** The permission each function of platform/src/properties.rs asks for first: 65-69, 75-79, 87-91,
    104-108, 128-132 *)
Definition call_for (k : Ask) : Access.Call :=
  match k with
  | PrGet p _ _ => PropertiesGet p | PrByName p _ _ => PropertiesGetByName p | PrList p _ => PropertiesList p
  | PrUpdate p _ _ _ => PropertiesUpdate p | PrDelete p _ _ => PropertiesDelete p
  end.
(** Handlers that take a [Json] body: http/properties.rs 82-107 *)
Definition takes_body (k : Ask) : bool := match k with PrUpdate _ _ _ _ => true | _ => false end.
(** http/properties.rs 29-39: the address is .../group-properties/:group_id/:prop_id (151, 155), but
    the handler takes its parts for project, property and group, in this order. *)
Definition handled (k : Ask) : Ask :=
  match k with PrGet p (KGroup g) id => PrGet p (KGroup id) g | _ => k end.
(** common/src/lib.rs 16: GROUPS_COUNT; platform/src/lib.rs 123-131: one provider for each; the
    handlers index them without a check, http/properties.rs 35, 60, 79, 103, 125 *)
Definition GROUPS : N := 5.
Definition kind_of (k : Ask) : PropKind :=
  match k with PrGet _ k _ | PrByName _ k _ | PrList _ k | PrUpdate _ k _ _ | PrDelete _ k _ => k end.
Definition group_there (k : Ask) : bool := match kind_of k with KEvent => true | KGroup g => g <? GROUPS end.
(** metadata/src/properties.rs 394-417: every value under the prefix is read as a property *)
Fixpoint as_props (l : list (Val Rec)) : Res (list Property) :=
  match l with
  | [] => Ok []
  | VRec (RProperty x) :: r => match as_props r with Ok xs => Ok (x :: xs) | Err e => Err e end
  | _ => Err Panicked
  end.
Definition lift {A} (f : A -> Reply) (x : Res A * Md.Store) : (Reply + PlatformError) * Md.Store :=
  match x with (Ok a, s) => (inl (f a), s) | (Err e, s) => (inr (from_md e), s) end.
(** platform/src/properties.rs 71, 81-83, 92-94, 110-123, 134 *)
Definition prop_call (k : Ask) (s : Md.Store) : (Reply + PlatformError) * Md.Store :=
  match k with
  | PrGet p k id => lift YProp (prop_by_id p k id s, s)
  | PrByName p k name => lift YProp (prop_by_name p k name s, s)
  | PrList p k => lift YProps (as_props (list_prefix (make_data_key (prop_ns p k)) s), s)
  | PrUpdate p k id d => lift YProp (prop_update p k id d None None s)
  | PrDelete p k id => lift YProp (prop_delete p k id s)
  end.
(** axum evaluates the arguments of a handler in order: the [Context], the path, the body; then the
    handler picks the provider, and the provider asks for the permission. *)
Definition prop_handle (q : PRequest) (sa : Auth.St) (s : Md.Store) : (Reply + PlatformError) * Md.Store :=
  match context_of (pq_now q) (pq_bearer q) sa with
  | inr e => (inr e, s)
  | inl c =>
    let k := handled (pq_ask q) in
    if negb (takes_body k) || pq_parses q then
      if group_there k then
        if allowed c (call_for k) then prop_call k s else (inr PForbidden, s)
      else (inr PStopped, s)
    else (inr PBadRequest, s)
  end.
Definition prop_respond (q : PRequest) (sa : Auth.St) (s : Md.Store) : (N * option Reply) * Md.Store :=
  match prop_handle q sa s with
  | (inl y, s') => ((OK, Some y), s')
  | (inr e, s') => ((fst (api_error e), None), s')
  end.
(** The server, as in [EventCalls]. *)
Inductive Happening := Account (o : Auth.Op) | Asked (q : PRequest) | Other (o : MdOp).
Section Server.
Variable valid_email : string -> bool.
Variable strong : string -> list string -> bool.
Variable ad rd : Z.
Variable snake : string -> string.
Definition serve_one (x : Auth.St * Md.Store) (e : Happening) : Auth.St * Md.Store :=
  match e with
  | Account o => (Auth.step valid_email strong ad rd o (fst x), snd x)
  | Asked q => (fst x, snd (prop_respond q (fst x) (snd x)))
  | Other o => (fst x, md_step snake o (snd x))
  end.
Definition prop_serve (h : list Happening) (sa : Auth.St) : Auth.St * Md.Store := fold_left serve_one h (sa, []).
End Server.
