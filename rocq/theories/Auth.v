(** Accounts, passwords and tokens: metadata/src/accounts.rs, platform/src/auth/provider.rs,
    auth/token.rs, auth/password.rs, platform/src/context.rs 155-196, platform/src/accounts.rs
    and the handlers of platform/src/http/auth.rs.

    Cryptography is symbolic.  A hash is the password it was made from, with its salt: checking
    accepts exactly that password (argon2, password.rs 7-23).  A token is its claims together
    with the key it was signed with; a client can present a token only if the server handed it
    out before (HS512 signatures cannot be forged), so a request names a token by its number in
    the list of all tokens handed out.  The store holds accounts only; that the keys of other
    entities do not clash with theirs is the subject of [KvKeys]. *)
From Coq Require Import List NArith ZArith String Bool.
From Verif Require Import Kv Md Access.
Import ListNotations.
Local Open Scope string_scope.

(** ** password.rs *)
Record Hash := mkHash { h_password : string; h_salt : N }.
(** 7-17 *)
Definition make_hash (p : string) (salt : N) : Hash := mkHash p salt.
(** 19-21 *)
Definition verify (p : string) (h : Hash) : bool := String.eqb p (h_password h).

(** ** metadata/src/accounts.rs *)
(** 243-259, without the times, the authors and the teams.  [None] and the empty list of
    organizations or projects are not distinguished: both are read back as [None] (447-449). *)
Record Acc := mkAcc { aa_id : N; aa_hash : Hash; aa_email : string; aa_name : option string;
                      aa_role : option GRole; aa_force_pw : bool; aa_force_email : bool;
                      aa_orgs : list (N * OrgRole); aa_projects : list (N * ProjRole) }.
Notation Store := (list (string * Val Acc)).
Definition akey (id : N) : string := make_data_value_key "accounts" id.
Definition ekey (email : string) : string := make_index_key "accounts" "email" email.
(** 54-62 *)
Definition acc_by_id (id : N) (db : Store) : Res Acc :=
  match kget (akey id) db with
  | Some (VRec a) => Ok a
  | Some _ => Err Panicked
  | None => Err NotFound
  end.
(** 87-95 *)
Definition acc_by_email (email : string) (db : Store) : Res Acc :=
  match get_index db (ekey email) with
  | Ok id => acc_by_id id db
  | Err e => Err e
  end.
(** 64-80; [mk id] is [into_account] (275-294) *)
Definition acc_create (email : string) (mk : N -> Acc) (db : Store) : Res Acc * Store :=
  if check_insert db [Some (ekey email)] then
    match next_seq (make_id_seq_key "accounts") db with
    | (Err e, _) => (Err e, db)
    | (Ok id, db1) => (Ok (mk id), insert_index (kput (akey id) (VRec (mk id)) db1) [Some (ekey email)] id)
    end
  else (Err AlreadyExists, db).
(** 296-308 *)
Record UReq := mkUReq { u_hash : option Hash; u_email : option string; u_name : option (option string);
                        u_force_pw : option bool; u_force_email : option bool; u_role : option (option GRole);
                        u_orgs : option (list (N * OrgRole)); u_projects : option (list (N * ProjRole)) }.
Definition or {A} (o : option A) (x : A) : A := match o with Some y => y | None => x end.
(** 121-167: [u_role] is not looked at *)
Definition updated (r : UReq) (a : Acc) : Acc :=
  mkAcc (aa_id a) (or (u_hash r) (aa_hash a)) (or (u_email r) (aa_email a)) (or (u_name r) (aa_name a))
        (aa_role a) (or (u_force_pw r) (aa_force_pw a)) (or (u_force_email r) (aa_force_email a))
        (or (u_orgs r) (aa_orgs a)) (or (u_projects r) (aa_projects a)).
Definition acc_update (id : N) (r : UReq) (db : Store) : Res Acc * Store :=
  match acc_by_id id db with
  | Err x => (Err x, db)
  | Ok prev =>
    let ks := match u_email r with Some e => [Some (ekey e)] | None => [] end in
    let pk := match u_email r with Some _ => [Some (ekey (aa_email prev))] | None => [] end in
    if check_update db ks pk then
      (Ok (updated r prev), update_index (kput (akey (aa_id prev)) (VRec (updated r prev)) db) ks pk id)
    else (Err AlreadyExists, db)
  end.
(** 169-177 *)
Definition acc_delete (id : N) (db : Store) : Res Acc * Store :=
  match acc_by_id id db with
  | Err x => (Err x, db)
  | Ok a => (Ok a, delete_index (kdel (akey id) db) [Some (ekey (aa_email a))])
  end.

(** ** token.rs *)
(** 13-28; a refresh token has no organization.  Times are Unix seconds. *)
Record Token := mkToken { tk_key : list N; tk_exp : Z; tk_account : N; tk_org : option N }.
(** jsonwebtoken: the default validation allows 60 seconds *)
Definition not_expired (now : Z) (t : Token) : bool := (now - 60 <=? tk_exp t)%Z.
Definition key_dec (a b : list N) : {a = b} + {a <> b}. Proof. repeat decide equality. Defined.
(** 74-82 *)
Definition parse_access (key : list N) (now : Z) (t : Token) : option (N * N) :=
  if key_dec (tk_key t) key then
    if not_expired now t then match tk_org t with Some o => Some (tk_account t, o) | None => None end else None
  else None.
(** 84-92: unknown claims are ignored, so an access token would do if the keys were equal *)
Definition parse_refresh (key : list N) (now : Z) (t : Token) : option N :=
  if key_dec (tk_key t) key then if not_expired now t then Some (tk_account t) else None else None.

(** ** The state of a server *)
(** [as_orgs]: the organizations in the order of their listing, with their members;
    [as_issued]: the tokens handed out so far. *)
Record St := mkSt { as_db : Store; as_orgs : list (N * list N); as_akey : list N; as_rkey : list N;
                    as_issued : list Token }.
Inductive Answer := ATokens (access refresh : nat) | ADone | ARefused.
Definition with_db (db : Store) (s : St) : St := mkSt db (as_orgs s) (as_akey s) (as_rkey s) (as_issued s).

Section Server.
(** validator::validate_email, zxcvbn (password.rs 23-36) and the configured durations. *)
Variable valid_email : string -> bool.
Variable strong : string -> list string -> bool.
Variable access_duration refresh_duration : Z.

(** provider.rs 39-56 *)
Definition make_tokens (now : Z) (account org : N) (s : St) : St * Answer :=
  let n := List.length (as_issued s) in
  (mkSt (as_db s) (as_orgs s) (as_akey s) (as_rkey s)
        (as_issued s ++ [mkToken (as_akey s) (now + access_duration) account (Some org);
                         mkToken (as_rkey s) (now + refresh_duration) account None])%list,
   ATokens n (S n)).
(** context.rs 155-196 *)
Definition some_list {A} (l : list A) : option (list A) := match l with [] => None | _ => Some l end.
Definition context (now : Z) (tok : nat) (s : St) : option Ctx :=
  match nth_error (as_issued s) tok with
  | None => None
  | Some t =>
    match parse_access (as_akey s) now t with
    | None => None
    | Some (id, org) =>
      match acc_by_id id (as_db s) with
      | Err _ => None
      | Ok a => Some (mkCtx (aa_id a) org (aa_role a) (some_list (aa_orgs a)) (some_list (aa_projects a)))
      end
    end
  end.
(** provider.rs 58-94 *)
Definition sign_up (now : Z) (email pw pw_repeat : string) (name : option string) (salt : N) (s : St) : St * Answer :=
  if negb (valid_email email) then (s, ARefused)
  else if negb (strong pw [email]) then (s, ARefused)
  else match acc_create email (fun id => mkAcc id (make_hash pw salt) email name None false false [] []) (as_db s) with
       | (Ok a, db) => make_tokens now (aa_id a) 0 (with_db db s)
       | (Err _, _) => (s, ARefused)
       end.
(** 96-131 and http/auth.rs 86-111 *)
Definition is_member (id : N) (o : N * list N) : bool := existsb (N.eqb id) (snd o).
Definition log_in_org (account : N) (cookie : option N) (s : St) : option N :=
  match cookie with
  | Some o => match find (fun x => N.eqb (fst x) o) (as_orgs s) with
              | None => None
              | Some org => Some (if is_member account org then fst org else 0%N)
              end
  | None => Some (match find (is_member account) (as_orgs s) with Some org => fst org | None => 0%N end)
  end.
Definition log_in (now : Z) (email pw : string) (cookie : option N) (s : St) : St * Answer :=
  if negb (valid_email email) then (s, ARefused)
  else match acc_by_email email (as_db s) with
       | Err _ => (s, ARefused)
       | Ok a => if verify pw (aa_hash a) then
                   match log_in_org (aa_id a) cookie s with
                   | None => (s, ARefused)
                   | Some org => make_tokens now (aa_id a) org s
                   end
                 else (s, ARefused)
       end.
(** 133-140 and http/auth.rs 113-139: the handler needs a context *)
Definition refresh (now : Z) (bearer tok : nat) (s : St) : St * Answer :=
  match context now bearer s with
  | None => (s, ARefused)
  | Some c =>
    match nth_error (as_issued s) tok with
    | None => (s, ARefused)
    | Some t => match parse_refresh (as_rkey s) now t with
                | None => (s, ARefused)
                | Some id => make_tokens now id (cx_org c) s
                end
    end
  end.
(** 152-172, 174-219, 221-260, 262-295, 297-320 *)
Definition no_change : UReq := mkUReq None None None None None None None None.
Definition update_name (now : Z) (tok : nat) (name : string) (s : St) : St * Answer :=
  match context now tok s with
  | None => (s, ARefused)
  | Some c =>
    if String.eqb name "" then (s, ARefused)
    else match acc_update (cx_account c) (mkUReq None None (Some (Some name)) None None None None None) (as_db s) with
         | (Ok _, db) => (with_db db s, ADone)
         | (Err _, _) => (s, ARefused)
         end
  end.
Definition then_tokens (now : Z) (c : Ctx) (r : UReq) (s : St) : St * Answer :=
  match acc_update (cx_account c) r (as_db s) with
  | (Ok _, db) => make_tokens now (cx_account c) (cx_org c) (with_db db s)
  | (Err _, _) => (s, ARefused)
  end.
Definition update_email (now : Z) (tok : nat) (email pw : string) (s : St) : St * Answer :=
  match context now tok s with
  | None => (s, ARefused)
  | Some c =>
    if negb (valid_email email) then (s, ARefused)
    else match acc_by_id (cx_account c) (as_db s) with
         | Err _ => (s, ARefused)
         | Ok a => if verify pw (aa_hash a)
                   then then_tokens now c (mkUReq None (Some email) None None None None None None) s
                   else (s, ARefused)
         end
  end.
Definition update_password (now : Z) (tok : nat) (pw new : string) (salt : N) (s : St) : St * Answer :=
  match context now tok s with
  | None => (s, ARefused)
  | Some c =>
    match acc_by_id (cx_account c) (as_db s) with
    | Err _ => (s, ARefused)
    | Ok a => if verify pw (aa_hash a) then
                if strong new [] then then_tokens now c (mkUReq (Some (make_hash new salt)) None None None None None None None) s
                else (s, ARefused)
              else (s, ARefused)
    end
  end.
Definition set_password (now : Z) (tok : nat) (new : string) (salt : N) (s : St) : St * Answer :=
  match context now tok s with
  | None => (s, ARefused)
  | Some c =>
    match acc_by_id (cx_account c) (as_db s) with
    | Err _ => (s, ARefused)
    | Ok a => if aa_force_pw a then
                if strong new [] then then_tokens now c (mkUReq (Some (make_hash new salt)) None None (Some false) None None None None) s
                else (s, ARefused)
              else (s, ARefused)
    end
  end.
Definition set_email (now : Z) (tok : nat) (email : string) (s : St) : St * Answer :=
  match context now tok s with
  | None => (s, ARefused)
  | Some c =>
    match acc_by_id (cx_account c) (as_db s) with
    | Err _ => (s, ARefused)
    | Ok a => if aa_force_email a
              then then_tokens now c (mkUReq None (Some email) None None (Some false) None None None) s
              else (s, ARefused)
    end
  end.
(** 322-327 *)
Definition switch_organization (now : Z) (tok : nat) (org : N) (s : St) : St * Answer :=
  match context now tok s with
  | None => (s, ARefused)
  | Some c =>
    if check_organization_permission c org OViewOrg then
      if existsb (fun x => N.eqb (fst x) org) (as_orgs s) then make_tokens now (cx_account c) org s else (s, ARefused)
    else (s, ARefused)
  end.

(** ** platform/src/accounts.rs *)
(** 148-160, 29-48 *)
Record CReq := mkCReq { c_password : string; c_email : string; c_name : option string; c_force_pw : bool;
                        c_force_email : bool; c_role : option GRole; c_orgs : list (N * OrgRole);
                        c_projects : list (N * ProjRole) }.
Definition accounts_create (now : Z) (tok : nat) (r : CReq) (salt : N) (s : St) : St * Answer :=
  match context now tok s with
  | None => (s, ARefused)
  | Some c =>
    if check_permission c PManageAccounts then
      match acc_create (c_email r) (fun id => mkAcc id (make_hash (c_password r) salt) (c_email r) (c_name r) (c_role r)
                                                    (c_force_pw r) (c_force_email r) (c_orgs r) (c_projects r)) (as_db s) with
      | (Ok _, db) => (with_db db s, ADone)
      | (Err _, _) => (s, ARefused)
      end
    else (s, ARefused)
  end.
(** 162-174, 62-89 *)
Record PReq := mkPReq { p_password : option string; p_email : option string; p_name : option (option string);
                        p_force_pw : option bool; p_role : option (option GRole);
                        p_orgs : option (list (N * OrgRole)); p_projects : option (list (N * ProjRole)) }.
Definition preq_update (r : PReq) (salt : N) : UReq :=
  mkUReq (option_map (fun p => make_hash p salt) (p_password r)) (p_email r) (p_name r) None None (p_role r)
         (p_orgs r) (p_projects r).
Definition accounts_update (now : Z) (tok : nat) (id : N) (r : PReq) (salt : N) (s : St) : St * Answer :=
  match context now tok s with
  | None => (s, ARefused)
  | Some c =>
    if check_permission c PManageAccounts then
      match acc_update id (preq_update r salt) (as_db s) with
      | (Ok _, db) => (with_db db s, ADone)
      | (Err _, _) => (s, ARefused)
      end
    else (s, ARefused)
  end.
(** 91-95 *)
Definition accounts_delete (now : Z) (tok : nat) (id : N) (s : St) : St * Answer :=
  match context now tok s with
  | None => (s, ARefused)
  | Some c =>
    if check_permission c PManageAccounts then
      match acc_delete id (as_db s) with
      | (Ok _, db) => (with_db db s, ADone)
      | (Err _, _) => (s, ARefused)
      end
    else (s, ARefused)
  end.

(** ** Histories *)
(** [OMembership]: add_member, remove_member and change_member_role of organizations.rs write a
    new list of organizations into the account; [OOrganizations]: the organizations become these;
    [OKeys]: new signing keys are saved in the settings. *)
Inductive Op :=
| OSignUp (now : Z) (email pw pw_repeat : string) (name : option string) (salt : N)
| OLogIn (now : Z) (email pw : string) (cookie : option N)
| ORefresh (now : Z) (bearer tok : nat)
| OUpdateName (now : Z) (tok : nat) (name : string)
| OUpdateEmail (now : Z) (tok : nat) (email pw : string)
| OUpdatePassword (now : Z) (tok : nat) (pw new : string) (salt : N)
| OSetPassword (now : Z) (tok : nat) (new : string) (salt : N)
| OSetEmail (now : Z) (tok : nat) (email : string)
| OSwitch (now : Z) (tok : nat) (org : N)
| OAccCreate (now : Z) (tok : nat) (r : CReq) (salt : N)
| OAccUpdate (now : Z) (tok : nat) (id : N) (r : PReq) (salt : N)
| OAccDelete (now : Z) (tok : nat) (id : N)
| OMembership (id : N) (orgs : list (N * OrgRole))
| OOrganizations (orgs : list (N * list N))
| OKeys (access refresh : list N).
Definition act (o : Op) (s : St) : St * Answer :=
  match o with
  | OSignUp now e p p2 n salt => sign_up now e p p2 n salt s
  | OLogIn now e p c => log_in now e p c s
  | ORefresh now b t => refresh now b t s
  | OUpdateName now t n => update_name now t n s
  | OUpdateEmail now t e p => update_email now t e p s
  | OUpdatePassword now t p n salt => update_password now t p n salt s
  | OSetPassword now t n salt => set_password now t n salt s
  | OSetEmail now t e => set_email now t e s
  | OSwitch now t o => switch_organization now t o s
  | OAccCreate now t r salt => accounts_create now t r salt s
  | OAccUpdate now t id r salt => accounts_update now t id r salt s
  | OAccDelete now t id => accounts_delete now t id s
  | OMembership id l => match acc_update id (mkUReq None None None None None None (Some l) None) (as_db s) with
                        | (Ok _, db) => (with_db db s, ADone)
                        | (Err _, _) => (s, ARefused)
                        end
  | OOrganizations l => (mkSt (as_db s) l (as_akey s) (as_rkey s) (as_issued s), ADone)
  | OKeys a r => (mkSt (as_db s) (as_orgs s) a r (as_issued s), ADone)
  end.
Definition step (o : Op) (s : St) : St := fst (act o s).
Definition run (ops : list Op) (s : St) : St := fold_left (fun s o => step o s) ops s.
End Server.
(** A new server: no tokens; the account of the administrator, number 1, is created at the first
    start (cmd/src/command/server.rs 64-100). *)
Definition fresh (access_key refresh_key : list N) (admin_pw : string) (salt : N) : St :=
  mkSt (snd (acc_create "admin@admin.com" (fun id => mkAcc id (make_hash admin_pw salt) "admin@admin.com" (Some "admin")
                                                     (Some GAdmin) true true [] []) []))
       [] access_key refresh_key [].
