(** C134: what refused account calls say. *)
From Coq Require Import List NArith ZArith String Bool Lia.
From Verif Require Import AMap Kv KvFacts Md Access Auth AuthSpec AuthFacts AuthStatus AuthStatusSpec AuthStatusFacts PropsAuth.
Import ListNotations.
Local Open Scope string_scope.

Section Server.
(** Which e-mail addresses and passwords pass the checks, and how long tokens last. *)
Variable valid_email : string -> bool.
Variable strong : string -> list string -> bool.
Variable ad rd : Z.
(** The server's first keys and the administrator's first password. *)
Variable ak rk : list N.
Variable admin_pw : string.
Variable admin_salt : N.
Notation act := (act valid_email strong ad rd).
Notation step := (step valid_email strong ad rd).
Notation run := (run valid_email strong ad rd).
Notation start := (fresh ak rk admin_pw admin_salt).
Notation respond := (respond valid_email strong ad rd).
Notation reason := (reason valid_email strong).

Lemma respond_cases ops q : let s := run ops start in
  (exists s' b, respond q s = (s', mkResponse (done_status (rq_call q)) [] (new_cookie (rq_call q) b) (Some b)) /\ forall n f, ~ reason s q n f) \/
  (exists n f, respond q s = (s, mkResponse n f None None) /\ forall n' f', reason s q n' f' <-> (n', f') = (n, f)).
Proof.
  intros s. destruct (start_inv valid_email strong ad rd ak rk admin_pw admin_salt ops) as (n & I). fold s in I. unfold AuthStatus.respond.
  destruct (handle_settled valid_email strong ad rd n s q I) as [(s' & b & E & H)|(e & E & H)]; rewrite E.
  - left. exists s', b. split; [reflexivity|exact H].
  - right. exists (fst (api_error e)), (snd (api_error e)). split; [reflexivity|]. intros n' f'. rewrite <- surjective_pairing. apply H.
Qed.

(** The status and the fields of a refusal are those of the reason for it, for every request at
    every moment of every history; a request with no reason against it is carried out. *)
Theorem C134_refusals :
  forall ops q n fields, let s := run ops start in let r := snd (respond q s) in
    (rs_body r = None /\ rs_status r = n /\ rs_fields r = fields) <-> reason s q n fields.
Proof.
  intros ops q n fields s r. unfold r. destruct (respond_cases ops q) as [(s' & b & E & H)|(m & f & E & H)]; fold s in E, H; rewrite E; cbn [snd rs_body rs_status rs_fields].
  - split; [intros (X & _); discriminate|]. intros X. elim (H _ _ X).
  - rewrite H. split; [intros (_ & -> & ->); reflexivity|]. intros X. injection X as -> ->. auto.
Qed.
(** A refused request changes nothing, on the server or in the browser. *)
Theorem C134_refused_changes_nothing :
  forall ops q, let s := run ops start in let r := snd (respond q s) in
    rs_body r = None -> fst (respond q s) = s /\ rs_cookie r = None.
Proof.
  intros ops q s r. unfold r. destruct (respond_cases ops q) as [(s' & b & E & H)|(m & f & E & H)]; fold s in E, H; rewrite E; cbn; [discriminate|auto].
Qed.
(** A request that is carried out is answered 200, or 201 if it makes an account; and the server
    never answers anything but these and 400, 401, 403, 404 and 409. *)
Definition makes_account (k : Call) : Prop :=
  match k with KSignUp _ _ _ _ _ => True | KCreate _ _ => True | _ => False end.
Theorem C134_carried_out :
  forall ops q, let r := snd (respond q (run ops start)) in
    rs_body r <> None -> rs_fields r = [] /\
    (makes_account (rq_call q) /\ rs_status r = 201%N \/ ~ makes_account (rq_call q) /\ rs_status r = 200%N).
Proof.
  intros ops q r. unfold r. destruct (respond_cases ops q) as [(s' & b & E & H)|(m & f & E & H)]; rewrite E; cbn; [|congruence].
  intros _. split; [reflexivity|]. destruct (rq_call q); cbn; auto.
Qed.
Theorem C134_statuses :
  forall ops q, In (rs_status (snd (respond q (run ops start)))) [200; 201; 400; 401; 403; 404; 409]%N.
Proof.
  intros ops q. destruct (respond_cases ops q) as [(s' & b & E & H)|(m & f & E & H)]; rewrite E; cbn [snd rs_status].
  - destruct (rq_call q); cbn; auto.
  - assert (X : reason (run ops start) q m f) by now apply H. clear -X.
    destruct X as [ | | |n f _ X|id a n f _ _ X]; [cbn; tauto|cbn; tauto|cbn; tauto| |]; inversion X; subst; cbn; tauto.
Qed.
(** Nobody learns from a failed log-in whether an address has an account. *)
Theorem C134_log_in_tells_nothing :
  forall ops now bearer bearer' parses email pw email' pw' cookie cookie', let s := run ops start in
    valid_email email = true -> valid_email email' = true ->
    (forall id a, account_is (as_db s) id a -> aa_email a <> email) ->
    (forall id a, account_is (as_db s) id a -> aa_email a = email' -> password_of a <> pw') ->
    respond (mkRequest now bearer parses (KLogIn email pw cookie)) s =
    respond (mkRequest now bearer' parses (KLogIn email' pw' cookie')) s.
Proof.
  intros ops now bearer bearer' parses email pw email' pw' cookie cookie' s V V' U W.
  destruct (start_inv valid_email strong ad rd ak rk admin_pw admin_salt ops) as (n & I). fold s in I.
  unfold AuthStatus.respond, AuthStatus.handle. cbn [rq_call rq_now rq_parses needs_context has_body negb orb]. destruct parses; [|reflexivity].
  cbn [AuthStatus.provider done_status rq_call]. unfold AuthStatus.log_in. rewrite V, V'. cbn [negb].
  destruct (acc_by_email email (as_db s)) as [a|e] eqn:A.
  { apply (by_email_spec n) in A; [|exact I]. destruct A as (A & Ea). elim (U _ _ A Ea). }
  destruct (acc_by_email email' (as_db s)) as [a|e'] eqn:A'; [|reflexivity].
  apply (by_email_spec n) in A'; [|exact I]. destruct A' as (A' & Ea). assert (P := W _ _ A' Ea). apply verify_not in P. now rewrite P.
Qed.
(** The refresh token of an answer goes into the browser's cookie exactly at sign-up, log-in,
    renewal and change of organization; it comes with the access token of the same account. *)
Definition opens_session (k : Call) : Prop :=
  match k with KSignUp _ _ _ _ _ => True | KLogIn _ _ _ => True | KRefresh _ _ => True | KSwitch _ => True | _ => False end.
Theorem C134_cookie :
  forall ops q k, let s := run ops start in let s' := fst (respond q s) in let r := snd (respond q s) in
    rs_cookie r = Some k <-> opens_session (rq_call q) /\ exists i, rs_body r = Some (BTokens i k).
Proof.
  intros ops q k s s' r. unfold r, s'. destruct (respond_cases ops q) as [(s1 & b & E & H)|(m & f & E & H)]; fold s in E, H; rewrite E; cbn [snd rs_cookie rs_body].
  - unfold new_cookie. destruct b as [i j| |a|a]; try (split; [discriminate|intros (_ & i & Z); discriminate Z]).
    destruct (rq_call q); cbn [sets_cookie opens_session]; split; intros Z; try discriminate Z;
      try (injection Z as <-; split; [exact Logic.I|eauto]); destruct Z as (F & i' & Z); try contradiction; injection Z as <- <-; reflexivity.
  - split; [discriminate|intros (_ & i & Z); discriminate Z].
Qed.
Theorem C134_tokens_belong_together :
  forall ops q i j, let s := run ops start in let s' := fst (respond q s) in
    rs_body (snd (respond q s)) = Some (BTokens i j) ->
    exists t t', nth_error (as_issued s') i = Some t /\ nth_error (as_issued s') j = Some t' /\ tk_account t = tk_account t' /\
      tk_key t = as_akey s' /\ tk_key t' = as_rkey s' /\ tk_exp t = (rq_now q + ad)%Z /\ tk_exp t' = (rq_now q + rd)%Z.
Proof.
  intros ops q i j s s'. unfold s'. clear s'. generalize s. clear s. intros s.
  assert (T : forall now a o x i j, snd (tokens ad rd now a o x) = inl (BTokens i j) ->
    exists t t', nth_error (as_issued (fst (tokens ad rd now a o x))) i = Some t /\ nth_error (as_issued (fst (tokens ad rd now a o x))) j = Some t' /\
      tk_account t = tk_account t' /\ tk_key t = as_akey (fst (tokens ad rd now a o x)) /\ tk_key t' = as_rkey (fst (tokens ad rd now a o x)) /\
      tk_exp t = (now + ad)%Z /\ tk_exp t' = (now + rd)%Z).
  { intros now a o x i0 j0 E. cbn in E. injection E as <- <-. unfold tokens, make_tokens. cbn [fst as_issued as_akey as_rkey]. do 2 eexists.
    split; [rewrite nth_error_app2 by lia; rewrite Nat.sub_diag; reflexivity|].
    split; [rewrite nth_error_app2 by lia; replace (S (List.length (as_issued x)) - List.length (as_issued x)) with 1 by lia; reflexivity|]. cbn. auto. }
  assert (Rs : forall p : St * (Body + PlatformError), rs_body (snd (match p with (s', inl b) => (s', mkResponse (done_status (rq_call q)) [] (new_cookie (rq_call q) b) (Some b))
     | (s', inr e) => (s', mkResponse (fst (api_error e)) (snd (api_error e)) None None) end)) = Some (BTokens i j) -> snd p = inl (BTokens i j)).
  { intros (x, [b|e]); cbn; congruence. }
  assert (Fs : forall p : St * (Body + PlatformError), fst (match p with (s', inl b) => (s', mkResponse (done_status (rq_call q)) [] (new_cookie (rq_call q) b) (Some b))
     | (s', inr e) => (s', mkResponse (fst (api_error e)) (snd (api_error e)) None None) end) = fst p) by (intros (x, [b|e]); reflexivity).
  unfold AuthStatus.respond. rewrite Fs. intros H. apply Rs in H. clear Rs Fs. revert H.
  unfold AuthStatus.handle. destruct q as [now bearer parses k]. cbn [rq_call rq_now rq_bearer rq_parses].
  assert (P : forall c, snd (AuthStatus.provider valid_email strong ad rd now c k s) = inl (BTokens i j) ->
    let x := fst (AuthStatus.provider valid_email strong ad rd now c k s) in
    exists t t', nth_error (as_issued x) i = Some t /\ nth_error (as_issued x) j = Some t' /\ tk_account t = tk_account t' /\
      tk_key t = as_akey x /\ tk_key t' = as_rkey x /\ tk_exp t = (now + ad)%Z /\ tk_exp t' = (now + rd)%Z).
  { intros c. destruct k, c as [c|]; cbn [AuthStatus.provider];
      unfold AuthStatus.sign_up, AuthStatus.log_in, AuthStatus.refresh, get_profile, AuthStatus.update_name, AuthStatus.update_email,
        AuthStatus.update_password, AuthStatus.set_password, AuthStatus.set_email, AuthStatus.switch_organization, AuthStatus.accounts_create,
        accounts_get, AuthStatus.accounts_update, AuthStatus.accounts_delete, AuthStatus.then_tokens, check_complexity;
      repeat match goal with
      | |- snd (tokens _ _ _ _ _ _) = _ -> _ => intros E; exact (T _ _ _ _ _ _ E)
      | |- snd (_, _) = _ -> _ => cbn [snd]; discriminate
      | |- context [match ?x with _ => _ end] => match x with context [match _ with _ => _ end] => fail 1 | _ => destruct x end
      end. }
  destruct (needs_context k).
  - destruct (context_of now bearer s) as [c|e]; [|discriminate]. destruct (negb (has_body k) || parses); [apply P|discriminate].
  - destruct (negb (has_body k) || parses); [apply P|discriminate].
Qed.

(** These answers are given by the server of C109-C113: the same calls succeed, with the same
    effect on accounts and tokens. *)
Definition request_of (o : Op) : option Request :=
  match o with
  | OSignUp now e p p2 n salt => Some (mkRequest now None true (KSignUp e p p2 n salt))
  | OLogIn now e p c => Some (mkRequest now None true (KLogIn e p c))
  | ORefresh now b t => Some (mkRequest now (Some b) true (KRefresh None (Some t)))
  | OUpdateName now t n => Some (mkRequest now (Some t) true (KUpdateName n))
  | OUpdateEmail now t e p => Some (mkRequest now (Some t) true (KUpdateEmail e p))
  | OUpdatePassword now t p n salt => Some (mkRequest now (Some t) true (KUpdatePassword p n salt))
  | OSetPassword now t n salt => Some (mkRequest now (Some t) true (KSetPassword n salt))
  | OSetEmail now t e => Some (mkRequest now (Some t) true (KSetEmail e))
  | OSwitch now t o => Some (mkRequest now (Some t) true (KSwitch o))
  | OAccCreate now t r salt => Some (mkRequest now (Some t) true (KCreate r salt))
  | OAccUpdate now t id r salt => Some (mkRequest now (Some t) true (KUpdate id r salt))
  | OAccDelete now t id => Some (mkRequest now (Some t) true (KDelete id))
  | OMembership _ _ | OOrganizations _ | OKeys _ _ => None
  end.
Lemma context_same now tok s : match context now tok s with
  | Some c => context_of now (Some tok) s = inl c
  | None => exists e, context_of now (Some tok) s = inr e
  end.
Proof.
  unfold context, context_of. destruct (nth_error (as_issued s) tok) as [t|]; [|eauto].
  destruct (parse_access (as_akey s) now t) as [(id, org)|]; [|eauto]. destruct (acc_by_id id (as_db s)); eauto.
Qed.
(** The two ways to tell the outcome of a call. *)
Definition agree (r : St * (Body + PlatformError)) (x : St * Answer) : Prop :=
  fst r = fst x /\
  match snd r, snd x with
  | inr _, ARefused => True
  | inl (BTokens i j), ATokens i' j' => i = i' /\ j = j'
  | inl BNone, ADone | inl (BAccount _), ADone => True
  | _, _ => False
  end.
Lemma agree_refused s e : agree (s, inr e) (s, ARefused).
Proof. now split. Qed.
Lemma agree_done s b : match b with BNone | BAccount _ => True | _ => False end -> agree (s, inl b) (s, ADone).
Proof. intros H. split; [reflexivity|]. cbn. destruct b; auto. Qed.
Lemma agree_tokens now id org s : agree (tokens ad rd now id org s) (make_tokens ad rd now id org s).
Proof. now repeat split. Qed.
Ltac both :=
  repeat (cbn [negb]; match goal with
  | |- agree (_, inr _) (_, ARefused) => apply agree_refused
  | |- agree (tokens _ _ _ _ _ _) _ => apply agree_tokens
  | |- agree (_, inl _) (_, ADone) => apply agree_done; exact Logic.I
  | |- agree (match acc_create ?e ?f ?d with _ => _ end) _ => destruct (acc_create e f d) as ([|[]] & ?)
  | |- agree (match acc_update ?e ?f ?d with _ => _ end) _ => destruct (acc_update e f d) as ([|[]] & ?)
  | |- agree (match acc_delete ?e ?d with _ => _ end) _ => destruct (acc_delete e d) as ([|[]] & ?)
  | |- agree (match (if ?b then None else Some _) with _ => _ end) _ => destruct b
  | |- agree (match negb ?x with _ => _ end) _ => destruct x eqn:?
  | |- agree (match ?x with _ => _ end) _ => destruct x eqn:?
  end).
Lemma handle_agrees n o q s : Inv n (as_db s) -> request_of o = Some q -> agree (AuthStatus.handle valid_email strong ad rd q s) (act o s).
Proof.
  intros I E.
  assert (Ctx : forall now tok (f : Ctx -> St * Answer) g,
    (forall c, agree (g c) (f c)) ->
    agree (match context_of now (Some tok) s with inr e => (s, inr e) | inl c => g c end) (match context now tok s with None => (s, ARefused) | Some c => f c end)).
  { intros now tok f g H. pose proof (context_same now tok s) as C. destruct (context now tok s) as [c|]; [rewrite C; apply H|].
    destruct C as (e & C). rewrite C. apply agree_refused. }
  destruct o; cbn [request_of] in E; try discriminate E; injection E as <-; unfold AuthStatus.handle;
    cbn [rq_call rq_now rq_bearer rq_parses needs_context has_body negb orb Auth.act].
  - cbn [AuthStatus.provider]. unfold AuthStatus.sign_up, Auth.sign_up, check_complexity. destruct (valid_email email); [|both]. destruct (strong pw [email]); both.
  - cbn [AuthStatus.provider]. unfold AuthStatus.log_in, Auth.log_in. both.
  - apply Ctx. intros c. cbn [AuthStatus.provider]. unfold AuthStatus.refresh. both.
  - apply Ctx. intros c. cbn [AuthStatus.provider]. unfold AuthStatus.update_name. both.
  - apply Ctx. intros c. cbn [AuthStatus.provider]. unfold AuthStatus.update_email, Auth.then_tokens. destruct (valid_email email); [|both]. cbn [negb].
    destruct (acc_by_id (cx_account c) (as_db s)) as [a|e] eqn:A; [|both]. destruct (verify pw (aa_hash a)); [|both].
    destruct (by_id_range n _ _ _ I A) as (Ea & _). rewrite Ea. both.
  - apply Ctx. intros c. cbn [AuthStatus.provider]. unfold AuthStatus.update_password, Auth.then_tokens, AuthStatus.then_tokens, check_complexity.
    destruct (acc_by_id (cx_account c) (as_db s)) as [a|e]; [|both]. destruct (verify pw (aa_hash a)); [|both]. destruct (strong new []); both.
  - apply Ctx. intros c. cbn [AuthStatus.provider]. unfold AuthStatus.set_password, Auth.then_tokens, AuthStatus.then_tokens, check_complexity.
    destruct (acc_by_id (cx_account c) (as_db s)) as [a|e]; [|both]. destruct (aa_force_pw a); [|both]. destruct (strong new []); both.
  - apply Ctx. intros c. cbn [AuthStatus.provider]. unfold AuthStatus.set_email, Auth.then_tokens, AuthStatus.then_tokens. both.
  - apply Ctx. intros c. cbn [AuthStatus.provider]. unfold AuthStatus.switch_organization. both.
  - apply Ctx. intros c. cbn [AuthStatus.provider]. unfold AuthStatus.accounts_create. destruct (check_permission c PManageAccounts); both.
  - apply Ctx. intros c. cbn [AuthStatus.provider]. unfold AuthStatus.accounts_update. destruct (check_permission c PManageAccounts); both.
  - apply Ctx. intros c. cbn [AuthStatus.provider]. unfold AuthStatus.accounts_delete. destruct (check_permission c PManageAccounts); both.
Qed.
Theorem C134_same_server :
  forall ops o q, let s := run ops start in request_of o = Some q ->
    fst (respond q s) = step o s /\
    (rs_body (snd (respond q s)) = None <-> snd (act o s) = ARefused) /\
    (forall i j, rs_body (snd (respond q s)) = Some (BTokens i j) <-> snd (act o s) = ATokens i j).
Proof.
  intros ops o q s E. destruct (start_inv valid_email strong ad rd ak rk admin_pw admin_salt ops) as (n & I). fold s in I.
  pose proof (handle_agrees n o q s I E) as (A1 & A2). unfold Auth.step, AuthStatus.respond.
  destruct (AuthStatus.handle valid_email strong ad rd q s) as (s', [b|e]), (act o s) as (s2, x); cbn [fst snd rs_body] in *; subst s2.
  - split; [reflexivity|]. destruct b, x; try contradiction; try (destruct A2 as (<- & <-)).
    all: split; [split; discriminate|]; intros i j; split; intros Z; try discriminate Z; injection Z as <- <-; reflexivity.
  - split; [reflexivity|]. destruct x; try contradiction. split; [split; reflexivity|]. intros i j. split; discriminate.
Qed.

(** ** Where the status says something else *)
(** A token that outlives its account is not refused as a token, with 401: everything is missing. *)
Theorem C134_deleted_account_refuted :
  forall ops q id org, let s := run ops start in
    ~ public (rq_call q) -> good_token s q id org -> no_account (as_db s) id ->
    rs_status (snd (respond q s)) = 404%N.
Proof.
  intros ops q id org s P G A. destruct (proj2 (C134_refusals ops q 404%N [])) as (_ & X & _); [|exact X]. now apply (Account_gone _ _ _ _ id org).
Qed.
(** The right address and password are answered 404 in a browser that remembers an organization
    which no longer exists. *)
Theorem C134_remembered_organization_refuted :
  forall ops now bearer id a org, let s := run ops start in
    account_is (as_db s) id a -> valid_email (aa_email a) = true -> ~ organization s org ->
    rs_status (snd (respond (mkRequest now bearer true (KLogIn (aa_email a) (password_of a) (Some org))) s)) = 404%N.
Proof.
  intros ops now bearer id a org s A V O. set (q := mkRequest _ _ _ _).
  destruct (proj2 (C134_refusals ops q 404%N [])) as (_ & X & _); [|exact X].
  apply Public_call; [right; reflexivity|]. now apply (LogIn_organization _ _ _ _ _ _ id a).
Qed.
(** An address that belongs to another account is 409 in four calls and 400 in the fifth. *)
Theorem C134_taken_address_refuted :
  forall ops q id a email, let s := run ops start in
    signed_in s q id a -> rq_parses q = true -> taken_by_another (as_db s) id email -> valid_email email = true ->
    (rq_call q = KUpdateEmail email (password_of a) -> rs_status (snd (respond q s)) = 400%N /\ rs_fields (snd (respond q s)) = ["email"]) /\
    (rq_call q = KSetEmail email -> aa_force_email a = true -> rs_status (snd (respond q s)) = 409%N) /\
    (forall r salt, rq_call q = KCreate r salt -> c_email r = email -> administrator a -> rs_status (snd (respond q s)) = 409%N) /\
    (forall r salt, rq_call q = KUpdate id r salt -> p_email r = Some email -> administrator a -> rs_status (snd (respond q s)) = 409%N).
Proof.
  intros ops q id a email s In1 P T V.
  assert (W : forall n f, own_reason valid_email strong s (rq_now q) id a (rq_call q) n f -> rs_status (snd (respond q s)) = n /\ rs_fields (snd (respond q s)) = f).
  { intros n f X. destruct (proj2 (C134_refusals ops q n f)) as (_ & Y & Z); [|split; [exact Y|exact Z]]. apply (Own_call _ _ _ _ id a); [now right|exact In1|exact X]. }
  assert (T' : taken (as_db s) email) by (destruct T as (i & b & _ & B); exists i, b; exact B).
  assert (A : account_is (as_db s) id a) by now destruct In1 as (org & _ & A).
  split; [intros E; apply W; rewrite E; now apply Email_taken|].
  split; [intros E F; apply (W 409%N []); rewrite E; now apply SetEmail_taken|].
  split; [intros r salt E F G; apply (W 409%N []); rewrite E; apply Create_taken; [exact G|now rewrite F]|].
  intros r salt E F G. apply (W 409%N []). rewrite E. now apply (Update_taken _ _ _ _ _ _ _ _ _ a email).
Qed.
(** A cookie whose token is no longer good hides a good one in the request. *)
Theorem C134_cookie_first_refuted :
  forall ops q id a k body, let s := run ops start in
    signed_in s q id a -> rq_parses q = true -> rq_call q = KRefresh (Some k) body -> ~ good_refresh s (rq_now q) k ->
    rs_status (snd (respond q s)) = 401%N.
Proof.
  intros ops q id a k body s In1 P E B. destruct (proj2 (C134_refusals ops q 401%N [])) as (_ & X & _); [|exact X].
  apply (Own_call _ _ _ _ id a); [now right|exact In1|]. rewrite E. now apply Refresh_cookie.
Qed.
End Server.

(** ** Witnesses *)
(** Ann signs up (account 2, tokens 0 and 1), the administrator logs in (2, 3), creates a second
    administrator (account 3) and deletes Ann's account. *)
Definition answer (ops : list Op) (q : Request) : N * list string :=
  let r := snd (respond any_mail good 900 604800 q (R ops s0)) in (rs_status r, rs_fields r).
Definition ask (tok : nat) (k : Call) : Request := mkRequest 1100 (Some tok) true k.
Example C134_witness :
  answer ann (ask 0 KProfile) = (200%N, []) /\ answer ann (ask 1 KProfile) = (401%N, []) /\
  answer ann (mkRequest 1100 None true KProfile) = (401%N, []) /\ answer ann (mkRequest 1961 (Some 0) true KProfile) = (401%N, []) /\
  answer ann (ask 0 (KGet 1)) = (403%N, []) /\ answer ann (ask 2 (KGet 2)) = (200%N, []) /\ answer ann (ask 2 (KGet 9)) = (404%N, []) /\
  answer ann (ask 0 (KUpdateName "")) = (400%N, ["name"]) /\ answer ann (mkRequest 1100 (Some 0) false (KUpdateName "x")) = (400%N, []) /\
  answer ann (ask 0 (KSignUp "ann@x.org" "pw" "pw" None 0)) = (409%N, []) /\ answer ann (ask 0 (KSignUp "bob@x.org" "weak" "weak" None 0)) = (400%N, ["password"]) /\
  answer ann (ask 0 (KSignUp "bob@x.org" "pw" "pw" None 0)) = (201%N, []) /\
  answer ann (ask 0 (KSetPassword "new" 0)) = (403%N, []) /\ answer ann (ask 2 (KSetPassword "new" 0)) = (200%N, []) /\
  answer ann (ask 0 (KSwitch 5)) = (403%N, []) /\ answer ann (ask 2 (KSwitch 5)) = (404%N, []) /\
  answer ann (ask 2 (KCreate (mkCReq "pw" "ann@x.org" None false false None [] []) 0)) = (409%N, []).
Proof. vm_compute. now repeat split. Qed.
Example C134_log_in_witness :
  let ask e p c := mkRequest 1100 None true (KLogIn e p c) in
  answer ann (ask "ann@x.org" "pw1" None) = (200%N, []) /\ answer ann (ask "ann@x.org" "pw2" None) = (401%N, []) /\
  answer ann (ask "bob@x.org" "pw1" None) = (401%N, []) /\ answer ann (ask "nobody" "pw1" None) = (400%N, ["email"]) /\
  answer ann (ask "ann@x.org" "pw1" (Some 5%N)) = (404%N, []) /\
  snd (respond any_mail good 900 604800 (ask "ann@x.org" "pw1" None) (R ann s0)) = mkResponse 200 [] (Some 5) (Some (BTokens 4 5)).
Proof. vm_compute. now repeat split. Qed.
Example C134_refuted_witness :
  answer (ann ++ [OAccDelete 1050 2 2])%list (ask 0 KProfile) = (404%N, []) /\
  acc_by_id 2 (as_db (R (ann ++ [OAccDelete 1050 2 2])%list s0)) = Err NotFound /\
  answer ann (ask 0 (KUpdateEmail "admin@admin.com" "pw1")) = (400%N, ["email"]) /\
  answer ann (ask 0 (KUpdateEmail "new@x.org" "pw1")) = (200%N, []) /\
  answer ann (ask 2 (KSetEmail "ann@x.org")) = (409%N, []) /\
  answer ann (ask 0 (KRefresh (Some 0) (Some 1))) = (401%N, []) /\ answer ann (ask 0 (KRefresh None (Some 1))) = (200%N, []) /\
  answer ann (ask 0 (KRefresh None None)) = (400%N, []).
Proof. vm_compute. now repeat split. Qed.

Print Assumptions C134_refusals.
Print Assumptions C134_refused_changes_nothing.
Print Assumptions C134_carried_out.
Print Assumptions C134_statuses.
Print Assumptions C134_log_in_tells_nothing.
Print Assumptions C134_cookie.
Print Assumptions C134_tokens_belong_together.
Print Assumptions C134_same_server.
Print Assumptions C134_deleted_account_refuted.
Print Assumptions C134_remembered_organization_refuted.
Print Assumptions C134_taken_address_refuted.
Print Assumptions C134_cookie_first_refuted.
