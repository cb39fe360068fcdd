(** The start of the server, as far as it reads and writes accounts and organizations:
    cmd/src/command/server.rs 64-100. *)
From Coq Require Import List NArith String Bool.
From Verif Require Import Kv Md.
Import ListNotations.
Local Open Scope string_scope.

(** common/src/lib.rs 19 *)
Definition ADMIN_ID : N := 1.
(** 64-100.  Saving the new password in the settings, the role and the two flags of the account
    are left out; each of the two calls is a transaction of its own. *)
Definition server_start (s : Store) : Res unit * Store :=
  match account_by_id ADMIN_ID s with
  | Ok _ => (Ok tt, s)
  | Err NotFound =>
    match account_create "admin@admin.com" [] s with
    | (Err e, s1) => (Err e, s1)
    | (Ok a, s1) => match org_create (ac_id a) "My Organization" s1 with
                    | (Err e, s2) => (Err e, s2)
                    | (Ok _, s2) => (Ok tt, s2)
                    end
    end
  | Err e => (Err e, s)
  end.
(** Starting it [k] times, with no calls in between. *)
Fixpoint starts (k : nat) (s : Store) : Store :=
  match k with O => s | S k' => snd (server_start (starts k' s)) end.
