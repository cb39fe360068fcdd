(** What the account calls of the API answer: platform/src/error.rs, auth/provider.rs, accounts.rs,
    context.rs 155-196 and the handlers http/auth.rs and http/accounts.rs, with the reason of each
    refusal.  The store, the tokens and the symbolic cryptography are those of [Auth]; here every
    call says with which error it is refused, which status the error becomes, and which refresh
    token is put into the browser's cookie.

    Not modelled: the texts of messages; failures of the disk, of the random generator and of the
    signing of tokens; the times inside answers; the list of all accounts. *)
From Coq Require Import List NArith ZArith String Bool.
From Verif Require Import Kv Md Access Auth.
Import ListNotations.
Local Open Scope string_scope.

(** ** Errors *)
(** metadata/src/error.rs 8-34, without texts *)
Inductive MetadataError :=
| MAlreadyExists | MNotFound | MBadRequest | MForbidden | MInternal | MStore | MRocksDb | MFromUtf8 | MBincode | MIo
| MProstDecode | MOther.
(** query/src/error.rs 12-34, common/src/error.rs 9-23 *)
Inductive QueryError :=
| QInternal | QPlan | QExecution | QDataFusion | QArrow | QMetadata (e : MetadataError) | QCommon | QStore | QOther | QUnimplemented.
Inductive CommonError := CDataFusion | CJWT | CEntityMapping | CBadRequest | CSerde | CGeneral.
(** platform/src/error.rs 17-33 *)
Inductive AuthError :=
| InvalidCredentials | InvalidRefreshToken | InvalidPasswordHashing | CantMakeAccessToken | CantMakeRefreshToken
| CantParseBearerHeader | CantParseAccessToken.
(** 35-79; of the fields only the names are kept.  [PStopped] is not an error of the program: a
    panic closes the connection without an answer. *)
Inductive PlatformError :=
| PWrapped (inner outer : PlatformError) | PInvalidFields (fields : list string) | PBadRequest | PUnimplemented
| PAlreadyExists | PUnauthorized | PForbidden | PNotFound | PInternal | PEntityMap | PSerde | PPasswordHash
| PJSONWebToken | PDecimal | PMetadata (e : MetadataError) | PQuery (e : QueryError) | PCommon (e : CommonError)
| PAuth (e : AuthError) | PAxum | PHyper | POther | PStopped.
Definition OK : N := 200. Definition CREATED : N := 201. Definition BAD_REQUEST : N := 400. Definition UNAUTHORIZED : N := 401.
Definition FORBIDDEN : N := 403. Definition NOT_FOUND : N := 404. Definition CONFLICT : N := 409.
Definition INTERNAL : N := 500. Definition NOT_IMPLEMENTED : N := 501.
(** 97-110 *)
Definition md_status (e : MetadataError) : N :=
  match e with
  | MAlreadyExists => CONFLICT | MNotFound => NOT_FOUND | MInternal => INTERNAL | MBadRequest => BAD_REQUEST
  | MRocksDb => INTERNAL | MFromUtf8 => INTERNAL | MBincode => INTERNAL | MIo => INTERNAL | MOther => INTERNAL
  | MStore => INTERNAL | MForbidden => FORBIDDEN | MProstDecode => INTERNAL
  end.
(** 111-122 *)
Definition query_status (e : QueryError) : N :=
  match e with QUnimplemented => NOT_IMPLEMENTED | _ => INTERNAL end.
(** 125-132 *)
Definition common_status (e : CommonError) : N :=
  match e with CBadRequest => BAD_REQUEST | CSerde => BAD_REQUEST | _ => INTERNAL end.
(** 133-141 *)
Definition auth_status (e : AuthError) : N :=
  match e with
  | InvalidCredentials => UNAUTHORIZED | InvalidRefreshToken => UNAUTHORIZED | InvalidPasswordHashing => INTERNAL
  | CantMakeAccessToken => INTERNAL | CantMakeRefreshToken => INTERNAL
  | CantParseBearerHeader => UNAUTHORIZED | CantParseAccessToken => UNAUTHORIZED
  end.
(** 93-158: the status and the fields of [into_api_error] *)
Fixpoint api_error (e : PlatformError) : N * list string :=
  match e with
  | PSerde => (BAD_REQUEST, []) | PDecimal => (BAD_REQUEST, [])
  | PMetadata e => (md_status e, []) | PQuery e => (query_status e, [])
  | PBadRequest => (BAD_REQUEST, []) | PInternal => (INTERNAL, [])
  | PCommon e => (common_status e, []) | PAuth e => (auth_status e, [])
  | PUnauthorized => (UNAUTHORIZED, []) | PForbidden => (FORBIDDEN, []) | PPasswordHash => (INTERNAL, [])
  | PJSONWebToken => (INTERNAL, []) | PAxum => (INTERNAL, []) | POther => (INTERNAL, []) | PHyper => (INTERNAL, [])
  | PWrapped _ outer => api_error outer
  | PInvalidFields fields => (BAD_REQUEST, fields)
  | PNotFound => (NOT_FOUND, []) | PEntityMap => (INTERNAL, []) | PAlreadyExists => (CONFLICT, [])
  | PUnimplemented => (NOT_IMPLEMENTED, [])
  | PStopped => (0%N, [])
  end.
(** the conversion of 65-66 *)
Definition from_md (e : MdErr) : PlatformError :=
  match e with
  | AlreadyExists => PMetadata MAlreadyExists | NotFound => PMetadata MNotFound | BadRequest => PMetadata MBadRequest
  | Panicked => PStopped
  end.
(** 82-88 *)
Definition invalid_field (field : string) : PlatformError := PInvalidFields [field].
(** 89-91 *)
Definition wrap_into (inner outer : PlatformError) : PlatformError := PWrapped inner outer.

(** ** Calls *)
(** [bearer]: the token in the Authorization header, by its number; [None]: no such header, or
    one that is no bearer header.  A number that was never handed out stands for any other text.
    [cookie] of a log-in: the organization_id cookie, if it is a number; [cookie] of a renewal: the
    refresh_token cookie.  The names of the fields of an update are those of [Auth]. *)
Inductive Call :=
| KSignUp (email pw pw_repeat : string) (name : option string) (salt : N)
| KLogIn (email pw : string) (cookie : option N)
| KRefresh (cookie body : option nat)
| KProfile
| KUpdateName (name : string)
| KUpdateEmail (email pw : string)
| KUpdatePassword (pw new : string) (salt : N)
| KSetPassword (new : string) (salt : N)
| KSetEmail (email : string)
| KSwitch (org : N)
| KCreate (r : CReq) (salt : N)
| KGet (id : N)
| KUpdate (id : N) (r : PReq) (salt : N)
| KDelete (id : N).
(** [rq_parses]: the body, where the call has one, is the JSON that the handler expects. *)
Record Request := mkRequest { rq_now : Z; rq_bearer : option nat; rq_parses : bool; rq_call : Call }.
Inductive Body := BTokens (access refresh : nat) | BNone | BProfile (a : Acc) | BAccount (a : Acc).
(** [rs_cookie]: the token put into the refresh_token cookie *)
Record Response := mkResponse { rs_status : N; rs_fields : list string; rs_cookie : option nat; rs_body : option Body }.
(** http/auth.rs and http/accounts.rs: the handlers with a [Json] argument.  A GET or DELETE
    request, and the switch to another organization, have none. *)
Definition has_body (c : Call) : bool :=
  match c with KProfile | KSwitch _ | KGet _ | KDelete _ => false | _ => true end.
(** the handlers with a [Context] argument: all but [sign_up] and [log_in] *)
Definition needs_context (c : Call) : bool :=
  match c with KSignUp _ _ _ _ _ | KLogIn _ _ _ => false | _ => true end.

Section Server.
Variable valid_email : string -> bool.
Variable strong : string -> list string -> bool.
Variable access_duration refresh_duration : Z.
Notation make_tokens := (make_tokens access_duration refresh_duration).
Notation Result := (St * (Body + PlatformError))%type.

(** provider.rs 39-56 *)
Definition tokens (now : Z) (account org : N) (s : St) : Result :=
  match make_tokens now account org s with
  | (s', ATokens i j) => (s', inl (BTokens i j))
  | (s', _) => (s', inl BNone)
  end.
(** context.rs 161-196 *)
Definition context_of (now : Z) (bearer : option nat) (s : St) : Ctx + PlatformError :=
  match bearer with
  | None => inr (PAuth CantParseBearerHeader)
  | Some tok =>
    match nth_error (as_issued s) tok with
    | None => inr (wrap_into PJSONWebToken (PAuth CantParseAccessToken))
    | Some t =>
      match parse_access (as_akey s) now t with
      | None => inr (wrap_into PJSONWebToken (PAuth CantParseAccessToken))
      | Some (id, org) =>
        match acc_by_id id (as_db s) with
        | Err e => inr (from_md e)
        | Ok a => inl (mkCtx (aa_id a) org (aa_role a) (some_list (aa_orgs a)) (some_list (aa_projects a)))
        end
      end
    end
  end.
(** password.rs 23-36 *)
Definition check_complexity (pw : string) (inputs : list string) : option PlatformError :=
  if strong pw inputs then None else Some (invalid_field "password").
(** provider.rs 58-94 *)
Definition sign_up (now : Z) (email pw : string) (name : option string) (salt : N) (s : St) : Result :=
  if negb (valid_email email) then (s, inr (invalid_field "email"))
  else match check_complexity pw [email] with
       | Some e => (s, inr e)
       | None =>
         match acc_create email (fun id => mkAcc id (make_hash pw salt) email name None false false [] []) (as_db s) with
         | (Ok a, db) => tokens now (aa_id a) 0 (with_db db s)
         | (Err AlreadyExists, _) => (s, inr PAlreadyExists)
         | (Err e, _) => (s, inr (from_md e))
         end
       end.
(** 96-131 *)
Definition log_in (now : Z) (email pw : string) (cookie : option N) (s : St) : Result :=
  if negb (valid_email email) then (s, inr (invalid_field "email"))
  else match acc_by_email email (as_db s) with
       | Err _ => (s, inr (PAuth InvalidCredentials))
       | Ok a => if verify pw (aa_hash a) then
                   match log_in_org (aa_id a) cookie s with
                   | None => (s, inr (PMetadata MNotFound))
                   | Some org => tokens now (aa_id a) org s
                   end
                 else (s, inr (PAuth InvalidCredentials))
       end.
(** 133-140; http/auth.rs 120-129: the cookie comes first *)
Definition refresh (now : Z) (c : Ctx) (cookie body : option nat) (s : St) : Result :=
  match (match cookie with Some t => Some t | None => body end) with
  | None => (s, inr PBadRequest)
  | Some tok =>
    match nth_error (as_issued s) tok with
    | None => (s, inr (wrap_into PJSONWebToken (PAuth InvalidRefreshToken)))
    | Some t => match parse_refresh (as_rkey s) now t with
                | None => (s, inr (wrap_into PJSONWebToken (PAuth InvalidRefreshToken)))
                | Some id => tokens now id (cx_org c) s
                end
    end
  end.
(** 142-150 *)
Definition get_profile (c : Ctx) (s : St) : Result :=
  match acc_by_id (cx_account c) (as_db s) with
  | Ok a => (s, inl (BProfile a))
  | Err NotFound => (s, inr PNotFound)
  | Err e => (s, inr (from_md e))
  end.
(** 152-172 *)
Definition update_name (c : Ctx) (name : string) (s : St) : Result :=
  if String.eqb name "" then (s, inr (invalid_field "name"))
  else match acc_update (cx_account c) (mkUReq None None (Some (Some name)) None None None None None) (as_db s) with
       | (Ok _, db) => (with_db db s, inl BNone)
       | (Err e, _) => (s, inr (from_md e))
       end.
(** The update and the new tokens that end the next four calls *)
Definition then_tokens (now : Z) (c : Ctx) (r : UReq) (s : St) : Result :=
  match acc_update (cx_account c) r (as_db s) with
  | (Ok _, db) => tokens now (cx_account c) (cx_org c) (with_db db s)
  | (Err e, _) => (s, inr (from_md e))
  end.
(** 174-219: an address that is taken is an invalid field *)
Definition update_email (now : Z) (c : Ctx) (email pw : string) (s : St) : Result :=
  if negb (valid_email email) then (s, inr (invalid_field "email"))
  else match acc_by_id (cx_account c) (as_db s) with
       | Err e => (s, inr (from_md e))
       | Ok a => if verify pw (aa_hash a) then
                   match acc_update (cx_account c) (mkUReq None (Some email) None None None None None None) (as_db s) with
                   | (Ok _, db) => tokens now (aa_id a) (cx_org c) (with_db db s)
                   | (Err AlreadyExists, _) => (s, inr (invalid_field "email"))
                   | (Err e, _) => (s, inr (from_md e))
                   end
                 else (s, inr (invalid_field "password"))
       end.
(** 221-260 *)
Definition update_password (now : Z) (c : Ctx) (pw new : string) (salt : N) (s : St) : Result :=
  match acc_by_id (cx_account c) (as_db s) with
  | Err e => (s, inr (from_md e))
  | Ok a => if verify pw (aa_hash a) then
              match check_complexity new [] with
              | Some e => (s, inr e)
              | None => then_tokens now c (mkUReq (Some (make_hash new salt)) None None None None None None None) s
              end
            else (s, inr (invalid_field "password"))
  end.
(** 262-295 *)
Definition set_password (now : Z) (c : Ctx) (new : string) (salt : N) (s : St) : Result :=
  match acc_by_id (cx_account c) (as_db s) with
  | Err e => (s, inr (from_md e))
  | Ok a => if aa_force_pw a then
              match check_complexity new [] with
              | Some e => (s, inr e)
              | None => then_tokens now c (mkUReq (Some (make_hash new salt)) None None (Some false) None None None None) s
              end
            else (s, inr PForbidden)
  end.
(** 297-320: the address is not looked at *)
Definition set_email (now : Z) (c : Ctx) (email : string) (s : St) : Result :=
  match acc_by_id (cx_account c) (as_db s) with
  | Err e => (s, inr (from_md e))
  | Ok a => if aa_force_email a
            then then_tokens now c (mkUReq None (Some email) None None (Some false) None None None) s
            else (s, inr PForbidden)
  end.
(** 322-327 *)
Definition switch_organization (now : Z) (c : Ctx) (org : N) (s : St) : Result :=
  if check_organization_permission c org OViewOrg then
    if existsb (fun x => N.eqb (fst x) org) (as_orgs s) then tokens now (cx_account c) org s
    else (s, inr (PMetadata MNotFound))
  else (s, inr PForbidden).
(** accounts.rs 29-48 *)
Definition accounts_create (c : Ctx) (r : CReq) (salt : N) (s : St) : Result :=
  if check_permission c PManageAccounts then
    match acc_create (c_email r) (fun id => mkAcc id (make_hash (c_password r) salt) (c_email r) (c_name r) (c_role r)
                                                  (c_force_pw r) (c_force_email r) (c_orgs r) (c_projects r)) (as_db s) with
    | (Ok a, db) => (with_db db s, inl (BAccount a))
    | (Err e, _) => (s, inr (from_md e))
    end
  else (s, inr PForbidden).
(** 50-54 *)
Definition accounts_get (c : Ctx) (id : N) (s : St) : Result :=
  if check_permission c PManageAccounts then
    match acc_by_id id (as_db s) with Ok a => (s, inl (BAccount a)) | Err e => (s, inr (from_md e)) end
  else (s, inr PForbidden).
(** 62-89 *)
Definition accounts_update (c : Ctx) (id : N) (r : PReq) (salt : N) (s : St) : Result :=
  if check_permission c PManageAccounts then
    match acc_update id (preq_update r salt) (as_db s) with
    | (Ok a, db) => (with_db db s, inl (BAccount a))
    | (Err e, _) => (s, inr (from_md e))
    end
  else (s, inr PForbidden).
(** 91-95 *)
Definition accounts_delete (c : Ctx) (id : N) (s : St) : Result :=
  if check_permission c PManageAccounts then
    match acc_delete id (as_db s) with
    | (Ok a, db) => (with_db db s, inl (BAccount a))
    | (Err e, _) => (s, inr (from_md e))
    end
  else (s, inr PForbidden).

(** ** Handlers *)
(** http/auth.rs 50-206, http/accounts.rs 18-56: axum evaluates the arguments of a handler in
    order, the [Context] first and the [Json] body last; a body that does not parse is refused with
    400 and the name of the field, if any (common/src/http.rs 140-184; the name is not modelled). *)
Definition provider (now : Z) (c : option Ctx) (k : Call) (s : St) : Result :=
  match k, c with
  | KSignUp email pw _ name salt, _ => sign_up now email pw name salt s
  | KLogIn email pw cookie, _ => log_in now email pw cookie s
  | _, None => (s, inr (PAuth CantParseBearerHeader))
  | KRefresh cookie body, Some c => refresh now c cookie body s
  | KProfile, Some c => get_profile c s
  | KUpdateName name, Some c => update_name c name s
  | KUpdateEmail email pw, Some c => update_email now c email pw s
  | KUpdatePassword pw new salt, Some c => update_password now c pw new salt s
  | KSetPassword new salt, Some c => set_password now c new salt s
  | KSetEmail email, Some c => set_email now c email s
  | KSwitch org, Some c => switch_organization now c org s
  | KCreate r salt, Some c => accounts_create c r salt s
  | KGet id, Some c => accounts_get c id s
  | KUpdate id r salt, Some c => accounts_update c id r salt s
  | KDelete id, Some c => accounts_delete c id s
  end.
Definition handle (q : Request) (s : St) : Result :=
  let parsed k := if negb (has_body (rq_call q)) || rq_parses q then k else (s, inr PBadRequest) in
  if needs_context (rq_call q) then
    match context_of (rq_now q) (rq_bearer q) s with
    | inr e => (s, inr e)
    | inl c => parsed (provider (rq_now q) (Some c) (rq_call q) s)
    end
  else parsed (provider (rq_now q) None (rq_call q) s).
(** http/auth.rs 83, http/accounts.rs 23: 201 for a new account, 200 otherwise *)
Definition done_status (k : Call) : N := match k with KSignUp _ _ _ _ _ | KCreate _ _ => CREATED | _ => OK end.
(** http/auth.rs 60-64, 77-81, 104-108, 132-136: these four handlers set the cookie *)
Definition sets_cookie (k : Call) : bool :=
  match k with KSignUp _ _ _ _ _ | KLogIn _ _ _ | KRefresh _ _ | KSwitch _ => true | _ => false end.
Definition new_cookie (k : Call) (b : Body) : option nat :=
  match b with BTokens _ r => if sets_cookie k then Some r else None | _ => None end.
(** error.rs 161-166 *)
Definition respond (q : Request) (s : St) : St * Response :=
  match handle q s with
  | (s', inl b) => (s', mkResponse (done_status (rq_call q)) [] (new_cookie (rq_call q) b) (Some b))
  | (s', inr e) => (s', mkResponse (fst (api_error e)) (snd (api_error e)) None None)
  end.
End Server.
