(** What a user is told when an account call is refused: the reasons, with the status and the names
    of the fields that go with each. *)
From Coq Require Import List NArith ZArith String Bool.
From Verif Require Import Kv Md Access Auth AuthSpec AuthStatus.
Import ListNotations.
Local Open Scope string_scope.

(** The calls that anybody may make; all others need an access token. *)
Definition public (k : Call) : Prop :=
  match k with KSignUp _ _ _ _ _ => True | KLogIn _ _ _ => True | _ => False end.
(** The calls that send nothing but their address. *)
Definition bodiless (k : Call) : Prop :=
  match k with KProfile => True | KSwitch _ => True | KGet _ => True | KDelete _ => True | _ => False end.
(** The request carries an access token, of account [id] and for organization [org], that the
    server has handed out under the present key and that has not run out; a minute is allowed. *)
Definition good_token (s : St) (q : Request) (id org : N) : Prop :=
  exists k t, rq_bearer q = Some k /\ nth_error (as_issued s) k = Some t /\
    tk_key t = as_akey s /\ (rq_now q <= tk_exp t + 60)%Z /\ tk_account t = id /\ tk_org t = Some org.
(** The request comes from the owner of account number [id], whose record is [a]. *)
Definition signed_in (s : St) (q : Request) (id : N) (a : Acc) : Prop :=
  exists org, good_token s q id org /\ account_is (as_db s) id a.
(** [k] is the number of a refresh token that is good at [now]. *)
Definition good_refresh (s : St) (now : Z) (k : nat) : Prop :=
  exists t, nth_error (as_issued s) k = Some t /\ tk_key t = as_rkey s /\ (now <= tk_exp t + 60)%Z.
Definition taken (db : Store) (email : string) : Prop := exists id a, account_is db id a /\ aa_email a = email.
Definition taken_by_another (db : Store) (id : N) (email : string) : Prop :=
  exists id' a, id' <> id /\ account_is db id' a /\ aa_email a = email.
Definition organization (s : St) (org : N) : Prop := exists members, In (org, members) (as_orgs s).
Definition administrator (a : Acc) : Prop := aa_role a = Some GAdmin.
(** The account may look at the organization: it is an administrator, or the first role it holds
    there is that of an owner. *)
Definition may_see (a : Acc) (org : N) : Prop :=
  administrator a \/ exists l l', aa_orgs a = (l ++ (org, OrgOwner) :: l')%list /\ ~ In org (map fst l).

Section Reasons.
Variable valid_email : string -> bool.
Variable strong : string -> list string -> bool.

(** The reasons to refuse a call that anybody may make. *)
Inductive public_reason (s : St) : Call -> N -> list string -> Prop :=
| SignUp_address e p p2 n salt : valid_email e = false -> public_reason s (KSignUp e p p2 n salt) 400 ["email"]
| SignUp_weak e p p2 n salt : valid_email e = true -> strong p [e] = false -> public_reason s (KSignUp e p p2 n salt) 400 ["password"]
| SignUp_taken e p p2 n salt : valid_email e = true -> strong p [e] = true -> taken (as_db s) e ->
    public_reason s (KSignUp e p p2 n salt) 409 []
| LogIn_address e p c : valid_email e = false -> public_reason s (KLogIn e p c) 400 ["email"]
| LogIn_wrong e p c : valid_email e = true ->
    (forall id a, account_is (as_db s) id a -> aa_email a = e -> password_of a <> p) -> public_reason s (KLogIn e p c) 401 []
| LogIn_organization e p o id a : valid_email e = true -> account_is (as_db s) id a -> aa_email a = e -> password_of a = p ->
    ~ organization s o -> public_reason s (KLogIn e p (Some o)) 404 [].

(** The reasons to refuse a call of the owner of account [id], whose record is [a]. *)
Inductive own_reason (s : St) (now : Z) (id : N) (a : Acc) : Call -> N -> list string -> Prop :=
| Refresh_none : own_reason s now id a (KRefresh None None) 400 []
| Refresh_cookie k b : ~ good_refresh s now k -> own_reason s now id a (KRefresh (Some k) b) 401 []
| Refresh_body k : ~ good_refresh s now k -> own_reason s now id a (KRefresh None (Some k)) 401 []
| Name_empty : own_reason s now id a (KUpdateName "") 400 ["name"]
| Email_address e p : valid_email e = false -> own_reason s now id a (KUpdateEmail e p) 400 ["email"]
| Email_password e p : valid_email e = true -> password_of a <> p -> own_reason s now id a (KUpdateEmail e p) 400 ["password"]
| Email_taken e p : valid_email e = true -> password_of a = p -> taken_by_another (as_db s) id e ->
    own_reason s now id a (KUpdateEmail e p) 400 ["email"]
| Password_wrong p n salt : password_of a <> p -> own_reason s now id a (KUpdatePassword p n salt) 400 ["password"]
| Password_weak p n salt : password_of a = p -> strong n [] = false -> own_reason s now id a (KUpdatePassword p n salt) 400 ["password"]
| SetPassword_not_asked n salt : aa_force_pw a = false -> own_reason s now id a (KSetPassword n salt) 403 []
| SetPassword_weak n salt : aa_force_pw a = true -> strong n [] = false -> own_reason s now id a (KSetPassword n salt) 400 ["password"]
| SetEmail_not_asked e : aa_force_email a = false -> own_reason s now id a (KSetEmail e) 403 []
| SetEmail_taken e : aa_force_email a = true -> taken_by_another (as_db s) id e -> own_reason s now id a (KSetEmail e) 409 []
| Switch_not_allowed o : ~ may_see a o -> own_reason s now id a (KSwitch o) 403 []
| Switch_missing o : may_see a o -> ~ organization s o -> own_reason s now id a (KSwitch o) 404 []
| Create_not_allowed r salt : ~ administrator a -> own_reason s now id a (KCreate r salt) 403 []
| Create_taken r salt : administrator a -> taken (as_db s) (c_email r) -> own_reason s now id a (KCreate r salt) 409 []
| Get_not_allowed x : ~ administrator a -> own_reason s now id a (KGet x) 403 []
| Get_missing x : administrator a -> no_account (as_db s) x -> own_reason s now id a (KGet x) 404 []
| Update_not_allowed x r salt : ~ administrator a -> own_reason s now id a (KUpdate x r salt) 403 []
| Update_missing x r salt : administrator a -> no_account (as_db s) x -> own_reason s now id a (KUpdate x r salt) 404 []
| Update_taken x r salt b e : administrator a -> account_is (as_db s) x b -> p_email r = Some e -> taken_by_another (as_db s) x e ->
    own_reason s now id a (KUpdate x r salt) 409 []
| Delete_not_allowed x : ~ administrator a -> own_reason s now id a (KDelete x) 403 []
| Delete_missing x : administrator a -> no_account (as_db s) x -> own_reason s now id a (KDelete x) 404 [].

(** The reasons to refuse a request, in the order in which they are looked for. *)
Inductive reason (s : St) (q : Request) : N -> list string -> Prop :=
| No_token : ~ public (rq_call q) -> (forall id org, ~ good_token s q id org) -> reason s q 401 []
| Account_gone id org : ~ public (rq_call q) -> good_token s q id org -> no_account (as_db s) id -> reason s q 404 []
| Body_unreadable : (public (rq_call q) \/ exists id a, signed_in s q id a) ->
    ~ bodiless (rq_call q) -> rq_parses q = false -> reason s q 400 []
| Public_call n fields : (bodiless (rq_call q) \/ rq_parses q = true) ->
    public_reason s (rq_call q) n fields -> reason s q n fields
| Own_call id a n fields : (bodiless (rq_call q) \/ rq_parses q = true) -> signed_in s q id a ->
    own_reason s (rq_now q) id a (rq_call q) n fields -> reason s q n fields.
End Reasons.
