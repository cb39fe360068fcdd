(** What a user means by the claims about accounts and tokens. *)
From Coq Require Import List NArith ZArith String Bool.
From Verif Require Import Kv Md Access Auth.
Import ListNotations.
Local Open Scope string_scope.

(** In the store [db] there is an account number [id], with this record. *)
Definition account_is (db : Store) (id : N) (a : Acc) : Prop := acc_by_id id db = Ok a.
Definition no_account (db : Store) (id : N) : Prop := acc_by_id id db = Err NotFound.
(** The password that opens an account. *)
Definition password_of (a : Acc) : string := h_password (aa_hash a).
(** The call [o], made when the server is in state [s], proves that the caller owns account [id]:
    it signs the account up, or it names the account by its e-mail address and gives its password. *)
Definition opens (s s' : St) (o : Op) (id : N) : Prop :=
  match o with
  | OSignUp _ email pw _ _ _ =>
      no_account (as_db s) id /\ exists a, account_is (as_db s') id a /\ aa_email a = email /\ password_of a = pw
  | OLogIn _ email pw _ => exists a, account_is (as_db s) id a /\ aa_email a = email /\ password_of a = pw
  | _ => False
  end.
(** The moment a call is made; the calls that do not read the clock have none. *)
Definition op_time (o : Op) : option Z :=
  match o with
  | OSignUp now _ _ _ _ _ | OLogIn now _ _ _ | ORefresh now _ _ | OUpdateName now _ _ | OUpdateEmail now _ _ _
  | OUpdatePassword now _ _ _ _ | OSetPassword now _ _ _ | OSetEmail now _ _ | OSwitch now _ _
  | OAccCreate now _ _ _ | OAccUpdate now _ _ _ _ | OAccDelete now _ _ => Some now
  | OMembership _ _ | OOrganizations _ | OKeys _ _ => None
  end.
(** The caller of [o] may give account [id], whose record is [a], a new password. *)
Definition may_set_password (s : St) (o : Op) (id : N) (a : Acc) : Prop :=
  match o with
  | OUpdatePassword now tok pw _ _ => password_of a = pw /\ exists c, context now tok s = Some c /\ cx_account c = id
  | OSetPassword now tok _ _ => aa_force_pw a = true /\ exists c, context now tok s = Some c /\ cx_account c = id
  | OAccUpdate now tok id' _ _ => id' = id /\ exists c, context now tok s = Some c /\ cx_role c = Some GAdmin
  | _ => False
  end.
