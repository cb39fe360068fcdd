(** C109-C113: accounts, passwords, tokens. *)
From Coq Require Import List NArith ZArith String Bool Lia.
From Verif Require Import AMap Kv KvFacts Md Access Auth AuthSpec AuthFacts.
Import ListNotations.
Local Open Scope string_scope.

Section Server.
(** Which e-mail addresses and passwords pass the checks, and how long tokens last. *)
Variable valid_email : string -> bool.
Variable strong : string -> list string -> bool.
Variable ad rd : Z.
(** The server's first keys and the administrator's first password. *)
Variable ak rk : list N.
Variable admin_pw : string.
Variable admin_salt : N.
Notation act := (act valid_email strong ad rd).
Notation step := (step valid_email strong ad rd).
Notation run := (run valid_email strong ad rd).
Notation start := (fresh ak rk admin_pw admin_salt).

Lemma start_inv ops : exists n, Inv n (as_db (run ops start)).
Proof. destruct (run_inv valid_email strong ad rd ops 1 start (fresh_inv ak rk admin_pw admin_salt)) as (n & _ & I). eauto. Qed.
Lemma run_snoc ops o s : run (ops ++ [o])%list s = step o (run ops s).
Proof. rewrite run_app. reflexivity. Qed.

(** ** C109 *)
(** Every token ever handed out is for an account that somebody had, by then, signed up or opened
    with its e-mail address and its password. *)
Theorem C109_tokens_need_a_password :
  forall ops i t, nth_error (as_issued (run ops start)) i = Some t ->
    exists pre o post, ops = (pre ++ o :: post)%list /\ opens (run pre start) (step o (run pre start)) o (tk_account t).
Proof.
  induction ops as [|o ops IH] using rev_ind; intros i t H.
  - destruct i; discriminate.
  - rewrite run_snoc in H. destruct (start_inv ops) as (n & I).
    destruct (issued_moves valid_email strong ad rd n _ o I) as [E|(now & id & org & _ & E & Why)].
    + rewrite E in H. destruct (IH i t H) as (pre & o' & post & -> & Op). exists pre, o', (post ++ [o])%list. split; [now rewrite <- app_assoc|exact Op].
    + rewrite E in H. destruct (Nat.lt_ge_cases i (List.length (as_issued (run ops start)))) as [L|G].
      * rewrite nth_error_app1 in H by exact L. destruct (IH i t H) as (pre & o' & post & -> & Op). exists pre, o', (post ++ [o])%list.
        split; [now rewrite <- app_assoc|exact Op].
      * rewrite nth_error_app2 in H by exact G.
        assert (Ht : tk_account t = id).
        { destruct (i - List.length (as_issued (run ops start))) as [|[|k]]; cbn in H; [injection H as <-; reflexivity|injection H as <-; reflexivity|destruct k; discriminate]. }
        destruct Why as [Op|(j & t' & T' & Ea)].
        -- exists ops, o, []. split; [reflexivity|]. now rewrite Ht.
        -- destruct (IH j t' T') as (pre & o' & post & -> & Op). exists pre, o', (post ++ [o])%list.
           split; [now rewrite <- app_assoc|]. now rewrite Ht, <- Ea.
Qed.

(** A request that is let in carries an access token which the server handed out, under the keys
    it has now, not more than the lifetime of an access token and a minute ago; the account
    exists, and the request has exactly the roles that the account has at that moment. *)
Theorem C109_accepted_requests :
  forall ops now tok c, context now tok (run ops start) = Some c ->
    (exists pre o post issued_at,
       ops = (pre ++ o :: post)%list /\ op_time o = Some issued_at /\ (now <= issued_at + ad + 60)%Z /\
       List.length (as_issued (run pre start)) <= tok < List.length (as_issued (step o (run pre start))) /\
       as_akey (run pre start) = as_akey (run ops start)) /\
    (exists a, account_is (as_db (run ops start)) (cx_account c) a /\
       cx_role c = aa_role a /\ cx_orgs c = some_list (aa_orgs a) /\ cx_projects c = some_list (aa_projects a)).
Proof.
  intros ops now tok c C. destruct (start_inv ops) as (n & I).
  destruct (context_spec _ _ _ _ C) as (t & a & T & K & L & O & A & Ea & R1 & R2 & R3). split.
  2:{ exists a. destruct (by_id_range n _ _ a I A) as (E & _). split; [unfold account_is; rewrite Ea, E; exact A|auto]. }
  rewrite <- K. clear C K A R1 R2 R3 Ea a I. revert tok t T L O.
  induction ops as [|o ops IH] using rev_ind; intros tok t T L O; [destruct tok; discriminate|].
  rewrite run_snoc in T. destruct (start_inv ops) as (m & I).
  assert (Old : nth_error (as_issued (run ops start)) tok = Some t ->
    exists pre o0 post issued_at, (ops ++ [o])%list = (pre ++ o0 :: post)%list /\ op_time o0 = Some issued_at /\ (now <= issued_at + ad + 60)%Z /\
      List.length (as_issued (run pre start)) <= tok < List.length (as_issued (step o0 (run pre start))) /\ as_akey (run pre start) = tk_key t).
  { intros H. destruct (IH tok t H L O) as (pre & o' & post & at' & -> & X). exists pre, o', (post ++ [o])%list, at'. split; [now rewrite <- app_assoc|exact X]. }
  destruct (issued_moves valid_email strong ad rd m _ o I) as [E|(at0 & id & org & Ot & E & _)]; [rewrite E in T; now apply Old|].
  rewrite E in T. destruct (Nat.lt_ge_cases tok (List.length (as_issued (run ops start)))) as [Lt|G]; [rewrite nth_error_app1 in T by exact Lt; now apply Old|].
  rewrite nth_error_app2 in T by exact G. exists ops, o, [], at0. split; [reflexivity|]. split; [exact Ot|].
  rewrite E, app_length. cbn [pair_of List.length].
  destruct (tok - List.length (as_issued (run ops start))) as [|[|k]] eqn:D; cbn in T.
  - injection T as <-. cbn [tk_exp tk_key] in *. split; [lia|]. split; [lia|reflexivity].
  - injection T as <-. discriminate O.
  - destruct k; discriminate.
Qed.

(** ** C110 *)
(** Once an account is deleted, no request is let in for it, whatever tokens exist and whatever
    happens afterwards: its number is never given to another account. *)
Theorem C110_deleted_accounts_stay_out :
  forall before now0 admin id after now tok c,
    snd (accounts_delete now0 admin id (run before start)) = ADone ->
    context now tok (run (before ++ OAccDelete now0 admin id :: after) start) = Some c -> cx_account c <> id.
Proof.
  intros before now0 admin id after now tok c D C <-.
  destruct (start_inv before) as (n & I). assert (U := delete_cases n _ (cx_account c) I).
  rewrite run_app in C. change (run (OAccDelete now0 admin (cx_account c) :: after) (run before start))
    with (run after (step (OAccDelete now0 admin (cx_account c)) (run before start))) in C.
  set (s := run before start) in *.
  assert (G : acc_by_id (cx_account c) (as_db (step (OAccDelete now0 admin (cx_account c)) s)) = Err NotFound /\ (cx_account c <= n)%N).
  { unfold Auth.step. cbn [Auth.act]. unfold accounts_delete in *. destruct (context now0 admin s) as [c0|]; [|discriminate].
    destruct (check_permission c0 PManageAccounts); [|discriminate].
    destruct (acc_by_id (cx_account c) (as_db s)) as [a|e] eqn:A; [|rewrite U in D; discriminate].
    destruct U as (db' & X & _ & B). rewrite X in D |- *. cbn. split; [rewrite B, N.eqb_refl; reflexivity|].
    destruct (by_id_range n _ _ a I A) as (_ & L & _). lia. }
  destruct G as (G & L). destruct (step_accounts valid_email strong ad rd n s (OAccDelete now0 admin (cx_account c)) I) as (n1 & L1 & I1 & _).
  assert (Z := gone valid_email strong ad rd after n1 _ (cx_account c) I1 ltac:(lia) G).
  destruct (run_inv valid_email strong ad rd after n1 _ I1) as (n2 & _ & I2).
  destruct (context_spec _ _ _ _ C) as (t & a & _ & _ & _ & _ & A & Ea & _).
  destruct (by_id_range n2 _ _ a I2 A) as (E & _). rewrite Ea, E in Z. congruence.
Qed.
(** Taking an account out of an organization works at once, on every token it holds: unless it is
    an administrator of the server, no permission of the organization is left. *)
Theorem C110_removed_members_lose_the_organization :
  forall ops id orgs org now tok c p,
    snd (act (OMembership id orgs) (run ops start)) = ADone -> (forall r, ~ In (org, r) orgs) ->
    context now tok (run (ops ++ [OMembership id orgs]) start) = Some c -> cx_account c = id -> cx_role c = None ->
    check_organization_permission c org p = false.
Proof.
  intros ops id orgs org now tok c p D Out C Ei R. rewrite run_snoc in C. destruct (start_inv ops) as (n & I).
  set (s := run ops start) in *. assert (U := update_cases n _ id (mkUReq None None None None None None (Some orgs) None) I).
  unfold Auth.step in C. cbn [Auth.act] in C, D.
  destruct (acc_by_id id (as_db s)) as [a|e]; [|rewrite U in D; discriminate].
  destruct U as [(_ & X)|(_ & db' & X & I' & B)]; [rewrite X in D; discriminate|]. rewrite X in C. cbn [fst] in C.
  destruct (context_spec _ _ _ _ C) as (t & b & _ & _ & _ & _ & A & Ea & _ & Eo & _). cbn [with_db as_db] in A.
  destruct (by_id_range n _ _ b I' A) as (Eb & _). assert (A2 : acc_by_id id db' = Ok b) by (rewrite <- Ei, Ea, Eb; exact A).
  rewrite B, N.eqb_refl in A2. injection A2 as <-. cbn in Eo.
  unfold check_organization_permission, check_permission. rewrite R. unfold organization_role. rewrite Eo.
  assert (Z : role_in org orgs = None).
  { clear -Out. induction orgs as [|(k, r) l IH]; [reflexivity|]. cbn. destruct (N.eqb_spec k org) as [->|Dk]; [exfalso; apply (Out r); now left|].
    apply IH. intros r' H. apply (Out r'). now right. }
  destruct orgs as [|x l]; [reflexivity|]. change (some_list (x :: l)) with (Some (x :: l)). cbv iota. now rewrite Z.
Qed.
(** But the role of an account can never be changed.  The call that updates an account accepts a
    role and reports success; in no history does any account ever get another role than the one
    it was created with.  So an administrator can be demoted only by deleting the account. *)
Theorem C110_role_change_refuted :
  forall before after id a a',
    account_is (as_db (run before start)) id a -> account_is (as_db (run (before ++ after) start)) id a' -> aa_role a' = aa_role a.
Proof.
  intros before after id a a' A A'. destruct (start_inv before) as (n & I). unfold account_is in *. rewrite run_app in A'.
  exact (role_kept valid_email strong ad rd after n _ id a a' I A A').
Qed.

(** Every administrator is account number 1, or was created, with that role, by an administrator. *)
Theorem C110_administrators :
  forall ops id a, account_is (as_db (run ops start)) id a -> aa_role a = Some GAdmin ->
    id = 1%N \/ exists pre now tok r salt post c, ops = (pre ++ OAccCreate now tok r salt :: post)%list /\
      context now tok (run pre start) = Some c /\ cx_role c = Some GAdmin /\ c_role r = Some GAdmin /\
      no_account (as_db (run pre start)) id /\
      exists b, account_is (as_db (run (pre ++ [OAccCreate now tok r salt]) start)) id b /\ aa_email b = c_email r.
Proof.
  induction ops as [|o ops IH] using rev_ind; intros id a A R.
  - left. unfold account_is in A. assert (I := fresh_inv ak rk admin_pw admin_salt). destruct (by_id_range 1 _ id a I A) as (_ & L & _). lia.
  - rewrite run_snoc in A. destruct (start_inv ops) as (n & I). unfold account_is in A.
    assert (Old : forall b, acc_by_id id (as_db (run ops start)) = Ok b -> aa_role b = Some GAdmin ->
      id = 1%N \/ exists pre now tok r salt post c, (ops ++ [o])%list = (pre ++ OAccCreate now tok r salt :: post)%list /\
      context now tok (run pre start) = Some c /\ cx_role c = Some GAdmin /\ c_role r = Some GAdmin /\
      no_account (as_db (run pre start)) id /\
      exists b, account_is (as_db (run (pre ++ [OAccCreate now tok r salt]) start)) id b /\ aa_email b = c_email r).
    { intros b B Rb. destruct (IH id b B Rb) as [E|(pre & now & tok & r & salt & post & c & -> & H)]; [now left|]. right.
      exists pre, now, tok, r, salt, (post ++ [o])%list, c. split; [now rewrite <- app_assoc|exact H]. }
    destruct (step_accounts valid_email strong ad rd n _ o I) as (n1 & _ & _ & X).
    destruct (X id) as [E|[(email & mk & Cr & _ & N0 & Mk)|[(r & b & _ & G0 & U)|(? & ? & ? & _ & _ & _ & Dl)]]].
    + apply (Old a); congruence.
    + right. destruct o; cbn [creates] in Cr; try contradiction.
      * destruct Cr as (_ & ->). rewrite Mk in A. injection A as <-. discriminate R.
      * destruct Cr as (_ & -> & c & C & Rc). exists ops, now, tok, r, salt, [], c. split; [reflexivity|]. split; [exact C|]. split; [exact Rc|].
        rewrite Mk in A. injection A as <-. split; [exact R|]. split; [exact N0|]. eexists. rewrite run_snoc. split; [exact Mk|reflexivity].
    + rewrite U in A. injection A as <-. apply (Old b G0). exact R.
    + congruence.
Qed.

(** ** C111 *)
Lemma acts_tokens now id org s : nth_error (as_issued (fst (make_tokens ad rd now id org s))) (List.length (as_issued s)) = Some (mkToken (as_akey s) (now + ad) id (Some org)).
Proof. unfold make_tokens. cbn [fst as_issued]. rewrite nth_error_app2 by lia. now rewrite Nat.sub_diag. Qed.
Lemma new_context n now id org s a : (-60 <= ad)%Z -> Inv n (as_db s) -> acc_by_id id (as_db s) = Ok a ->
  exists i j c, snd (make_tokens ad rd now id org s) = ATokens i j /\
    context now i (fst (make_tokens ad rd now id org s)) = Some c /\ cx_account c = id /\ cx_org c = org.
Proof.
  intros La I A. eexists _, _, (mkCtx (aa_id a) org (aa_role a) (some_list (aa_orgs a)) (some_list (aa_projects a))).
  split; [reflexivity|]. split.
  - unfold context. rewrite acts_tokens. unfold parse_access. cbn [tk_key make_tokens fst as_akey tk_org tk_account as_db].
    destruct (key_dec (as_akey s) (as_akey s)); [|contradiction]. unfold not_expired. cbn [tk_exp].
    destruct (Z.leb_spec (now - 60) (now + ad)); [|lia]. now rewrite A.
  - cbn. split; [|reflexivity]. now destruct (by_id_range n _ id a I A).
Qed.
(** While the access token is still good, its owner can renew the session with the refresh token:
    the new access token is for the same account and the same organization. *)
Theorem C111_renewal_partial :
  forall ops now bearer c tok t, (-60 <= ad)%Z ->
    context now bearer (run ops start) = Some c ->
    nth_error (as_issued (run ops start)) tok = Some t -> tk_account t = cx_account c ->
    tk_key t = as_rkey (run ops start) -> (now <= tk_exp t + 60)%Z ->
    exists i j c', snd (act (ORefresh now bearer tok) (run ops start)) = ATokens i j /\
      context now i (run (ops ++ [ORefresh now bearer tok]) start) = Some c' /\
      cx_account c' = cx_account c /\ cx_org c' = cx_org c.
Proof.
  intros ops now bearer c tok t La C T Et K L. rewrite run_snoc. destruct (start_inv ops) as (n & I).
  unfold Auth.step. cbn [Auth.act]. unfold refresh. rewrite C, T. unfold parse_refresh.
  destruct (key_dec (tk_key t) (as_rkey (run ops start))); [|contradiction]. unfold not_expired.
  destruct (Z.leb_spec (now - 60) (tk_exp t)); [|lia]. rewrite Et.
  destruct (context_spec _ _ _ _ C) as (t0 & a & _ & _ & _ & _ & A & Ea & _). destruct (by_id_range n _ _ a I A) as (E & _).
  rewrite Ea, E. exact (new_context n now _ (cx_org c) _ a La I A).
Qed.
(** Once the access token has expired, the refresh token is of no use, however long it has left:
    every attempt is refused and changes nothing. *)
Theorem C111_renewal_refuted :
  forall ops now bearer tok t,
    nth_error (as_issued (run ops start)) bearer = Some t -> (tk_exp t + 60 < now)%Z ->
    act (ORefresh now bearer tok) (run ops start) = (run ops start, ARefused).
Proof.
  intros ops now bearer tok t T L. cbn [Auth.act]. unfold refresh.
  destruct (context now bearer (run ops start)) as [c|] eqn:C; [|reflexivity].
  destruct (context_spec _ _ _ _ C) as (t' & a & T' & _ & L' & _). assert (t' = t) by congruence. subst t'. lia.
Qed.
(** And the renewed token takes its account from the refresh token but its organization from the
    access token, whoever they belong to. *)
Theorem C111_organization_refuted :
  forall ops now bearer c tok t b, (-60 <= ad)%Z ->
    context now bearer (run ops start) = Some c ->
    nth_error (as_issued (run ops start)) tok = Some t -> account_is (as_db (run ops start)) (tk_account t) b ->
    tk_key t = as_rkey (run ops start) -> (now <= tk_exp t + 60)%Z ->
    exists i j c', snd (act (ORefresh now bearer tok) (run ops start)) = ATokens i j /\
      context now i (run (ops ++ [ORefresh now bearer tok]) start) = Some c' /\
      cx_account c' = tk_account t /\ cx_org c' = cx_org c.
Proof.
  intros ops now bearer c tok t b La C T Et K L. rewrite run_snoc. destruct (start_inv ops) as (n & I).
  unfold Auth.step. cbn [Auth.act]. unfold refresh. rewrite C, T. unfold parse_refresh.
  destruct (key_dec (tk_key t) (as_rkey (run ops start))); [|contradiction]. unfold not_expired.
  destruct (Z.leb_spec (now - 60) (tk_exp t)); [|lia]. exact (new_context n now _ (cx_org c) _ b La I Et).
Qed.

(** ** C112 *)
Lemma log_in_wrong n now e p k s : Inv n (as_db s) -> (forall id a, account_is (as_db s) id a -> aa_email a = e -> password_of a <> p) ->
  log_in valid_email ad rd now e p k s = (s, ARefused).
Proof.
  intros I H. unfold log_in. destruct (negb (valid_email e)); [reflexivity|]. destruct (acc_by_email e (as_db s)) as [a|] eqn:E; [|reflexivity].
  apply (by_email_spec n) in E; [|exact I]. destruct E as (G & Ee). specialize (H _ a G Ee).
  unfold verify. unfold password_of in H. destruct (String.eqb_spec p (h_password (aa_hash a))); [congruence|reflexivity].
Qed.
Lemma log_in_right n now e p s id a : (-60 <= ad)%Z -> Inv n (as_db s) -> account_is (as_db s) id a -> aa_email a = e -> password_of a = p -> valid_email e = true ->
  forall k, (forall o, k = Some o -> exists m, In (o, m) (as_orgs s)) ->
  exists i j c, snd (log_in valid_email ad rd now e p k s) = ATokens i j /\ context now i (fst (log_in valid_email ad rd now e p k s)) = Some c /\ cx_account c = id.
Proof.
  intros La I A Ee Ep V k Hk. unfold log_in. rewrite V. cbn [negb]. destruct (by_id_range n _ id a I A) as (Ei & _ & Be). rewrite Ee in Be. rewrite Be.
  unfold verify, password_of in *. rewrite Ep, String.eqb_refl. rewrite Ei.
  assert (Z : exists org, log_in_org id k s = Some org).
  { destruct k as [o|]; cbn [log_in_org]; [|eauto]. destruct (Hk o eq_refl) as (m & Hm).
    destruct (find (fun x => N.eqb (fst x) o) (as_orgs s)) eqn:F; [eauto|]. apply (find_none _ _ F) in Hm. cbn in Hm. rewrite N.eqb_refl in Hm. discriminate. }
  destruct Z as (org & ->). destruct (new_context n now id org s a La I A) as (i & j & c & X & Y & E & _). exists i, j, c. auto.
Qed.

(** After a user has changed their password, the old one is refused and the new one opens the
    account. *)
Theorem C112_changed_password :
  forall ops now0 tok old new salt i j c a, (-60 <= ad)%Z ->
    snd (act (OUpdatePassword now0 tok old new salt) (run ops start)) = ATokens i j ->
    context now0 tok (run ops start) = Some c -> account_is (as_db (run ops start)) (cx_account c) a ->
    let s' := run (ops ++ [OUpdatePassword now0 tok old new salt]) start in
    (forall now p k, p <> new -> act (OLogIn now (aa_email a) p k) s' = (s', ARefused)) /\
    (forall now, valid_email (aa_email a) = true ->
       exists i' j' c', snd (act (OLogIn now (aa_email a) new None) s') = ATokens i' j' /\
         context now i' (step (OLogIn now (aa_email a) new None) s') = Some c' /\ cx_account c' = cx_account c).
Proof.
  intros ops now0 tok old new salt i j c a La D C A s'. destruct (start_inv ops) as (n & I). set (s := run ops start) in *.
  assert (Es : s' = step (OUpdatePassword now0 tok old new salt) s) by apply run_snoc.
  unfold Auth.step in Es. cbn [Auth.act] in Es, D. unfold update_password in Es, D. rewrite C in Es, D. unfold account_is in A. rewrite A in Es, D.
  destruct (verify old (aa_hash a)); [|discriminate]. destruct (strong new []); [|discriminate]. unfold then_tokens in Es, D.
  assert (U := update_cases n _ (cx_account c) (mkUReq (Some (make_hash new salt)) None None None None None None None) I). rewrite A in U.
  destruct U as [(_ & X)|(_ & db' & X & I' & B)]; [rewrite X in D; discriminate|]. rewrite X in Es. cbn [make_tokens fst] in Es.
  assert (Edb : as_db s' = db') by now rewrite Es.
  assert (I2 : Inv n (as_db s')) by now rewrite Edb. 
  set (a' := updated (mkUReq (Some (make_hash new salt)) None None None None None None None) a) in *.
  assert (A' : account_is (as_db s') (cx_account c) a') by (unfold account_is; rewrite Edb, B, N.eqb_refl; reflexivity).
  split.
  - intros now p k Dp. cbn [Auth.act]. apply (log_in_wrong n); [exact I2|]. intros id b Ab Eb.
    assert (b = a'). { unfold account_is in *. destruct (by_id_range n _ _ _ I2 Ab) as (_ & _ & Q1). destruct (by_id_range n _ _ _ I2 A') as (_ & _ & Q2).
      rewrite Eb in Q1. change (aa_email a') with (aa_email a) in Q2. congruence. }
    subst b. cbn. congruence.
  - intros now V. unfold Auth.step. cbn [Auth.act]. exact (log_in_right n now (aa_email a) new s' _ a' La I2 A' eq_refl eq_refl V None ltac:(discriminate)).
Qed.
(** The password of an account changes only when its owner asks for it and gives the old one, when
    its owner has been told to set a new one, or when an administrator sets it. *)
Theorem C112_who_changes_passwords :
  forall ops o id a a',
    account_is (as_db (run ops start)) id a -> account_is (as_db (run (ops ++ [o]) start)) id a' ->
    aa_hash a' <> aa_hash a -> may_set_password (run ops start) o id a.
Proof.
  intros ops o id a a' A A' D. rewrite run_snoc in A'. destruct (start_inv ops) as (n & I). unfold account_is in *.
  destruct (step_accounts valid_email strong ad rd n _ o I) as (n1 & _ & _ & X).
  destruct (X id) as [E|[(? & ? & _ & _ & N0 & _)|[(r & a0 & Rq & G0 & U)|(? & ? & ? & _ & _ & _ & Dl)]]]; [congruence|congruence| |congruence].
  assert (a0 = a) by congruence. subst a0. rewrite U in A'. injection A' as <-. clear U X.
  destruct o; cbn [requests] in Rq; try contradiction; cbn [may_set_password].
  - destruct Rq as (_ & ->). now elim D.
  - destruct Rq as (_ & ->). now elim D.
  - destruct Rq as ((c & b & C & Ec & Gb & V) & _). assert (b = a) by congruence. subst b. apply String.eqb_eq in V. split; [unfold password_of; congruence|eauto].
  - destruct Rq as ((c & b & C & Ec & Gb & V) & _). assert (b = a) by congruence. subst b. split; [exact V|eauto].
  - destruct Rq as (_ & ->). now elim D.
  - destruct Rq as (-> & _ & c & C & R). split; [reflexivity|eauto].
  - destruct Rq as (_ & ->). now elim D.
Qed.
(** But the tokens handed out before the password was changed go on working until they expire:
    whoever had stolen one is still let in. *)
Theorem C112_sessions_refuted :
  forall ops now0 tok old new salt now stolen c,
    context now stolen (run ops start) = Some c ->
    exists c', context now stolen (run (ops ++ [OUpdatePassword now0 tok old new salt]) start) = Some c' /\
      cx_account c' = cx_account c /\ cx_role c' = cx_role c /\ cx_orgs c' = cx_orgs c /\ cx_projects c' = cx_projects c.
Proof.
  intros ops now0 tok old new salt now stolen c C. rewrite run_snoc. destruct (start_inv ops) as (n & I). set (s := run ops start) in *.
  unfold Auth.step. cbn [Auth.act]. unfold update_password.
  assert (Same : exists c', context now stolen s = Some c' /\ cx_account c' = cx_account c /\ cx_role c' = cx_role c /\ cx_orgs c' = cx_orgs c /\ cx_projects c' = cx_projects c) by (exists c; auto).
  destruct (context now0 tok s) as [c0|]; [|exact Same].
  destruct (acc_by_id (cx_account c0) (as_db s)) as [a|] eqn:A; [|exact Same].
  destruct (verify old (aa_hash a)); [|exact Same]. destruct (strong new []); [|exact Same]. unfold then_tokens.
  set (r := mkUReq (Some (make_hash new salt)) None None None None None None None).
  assert (U := update_cases n _ (cx_account c0) r I). rewrite A in U.
  destruct U as [(_ & X)|(_ & db' & X & I' & B)]; rewrite X; [exact Same|]. clear Same.
  revert C. unfold context. cbn [make_tokens fst as_issued as_akey as_db with_db].
  destruct (nth_error (as_issued s) stolen) as [t|] eqn:T; [|discriminate].
  rewrite nth_error_app1 by (apply nth_error_Some; congruence). rewrite T.
  destruct (parse_access (as_akey s) now t) as [(id, org)|]; [|discriminate]. rewrite B.
  destruct (acc_by_id id (as_db s)) as [b|] eqn:Ab; [|discriminate]. intros H. assert (E : c = mkCtx (aa_id b) org (aa_role b) (some_list (aa_orgs b)) (some_list (aa_projects b))) by congruence.
  destruct (N.eqb_spec id (cx_account c0)) as [->|D].
  - assert (b = a) by congruence. subst b. eexists. split; [reflexivity|]. rewrite E. cbn. auto.
  - eexists. split; [reflexivity|]. rewrite E. cbn. auto.
Qed.

(** And an administrator cannot make a user set a new password: the call that updates an account
    takes that order and reports success, but no history ever gives it to an account that was not
    created with it. *)
Theorem C112_order_refuted :
  forall before after id a a',
    account_is (as_db (run before start)) id a -> account_is (as_db (run (before ++ after) start)) id a' ->
    aa_force_pw a = false -> aa_force_pw a' = false.
Proof.
  intros before after id a a' A A'. destruct (start_inv before) as (n & I). unfold account_is in *. rewrite run_app in A'.
  revert A A'. generalize dependent (run before start). intros s. revert n s a.
  induction after as [|o after IH]; intros n s a I A A' F; [cbn in A'; congruence|].
  change (run (o :: after) s) with (run after (step o s)) in A'.
  destruct (step_accounts valid_email strong ad rd n s o I) as (n1 & L1 & I1 & X).
  destruct (X id) as [E|[(? & ? & _ & Lt & N0 & _)|[(r & a0 & Rq & G0 & U)|(? & ? & ? & _ & _ & _ & D)]]].
  - rewrite A in E. exact (IH n1 _ a I1 E A' F).
  - congruence.
  - assert (a0 = a) by congruence. subst a0. apply (IH n1 _ _ I1 U A'). cbn [updated aa_force_pw].
    assert (Z : u_force_pw r = None \/ u_force_pw r = Some false).
    { destruct o; cbn [requests] in Rq; try contradiction; first [destruct Rq as (_ & ->); cbn; auto; fail|destruct Rq as (_ & -> & _); cbn; auto]. }
    destruct Z as [-> | ->]; [exact F|reflexivity].
  - assert (Rg : (id <= n1)%N). { destruct (by_id_range n _ id a I A) as (_ & Rg & _). lia. }
    rewrite (gone valid_email strong ad rd after n1 _ id I1 Rg D) in A'. discriminate.
Qed.

(** ** C113 *)
(** A log-in with a password that does not belong to the e-mail address is refused and changes
    nothing. *)
Theorem C113_wrong_password :
  forall ops now email pw cookie,
    (forall id a, account_is (as_db (run ops start)) id a -> aa_email a = email -> password_of a <> pw) ->
    act (OLogIn now email pw cookie) (run ops start) = (run ops start, ARefused).
Proof. intros ops now email pw cookie H. destruct (start_inv ops) as (n & I). cbn [Auth.act]. now apply (log_in_wrong n). Qed.
(** A log-in with the right password is let in, if the address is one that the server would accept
    at sign-up and the browser names no organization, or one that exists. *)
Theorem C113_right_password_partial :
  forall ops now cookie id a, (-60 <= ad)%Z ->
    account_is (as_db (run ops start)) id a -> valid_email (aa_email a) = true ->
    (forall o, cookie = Some o -> exists members, In (o, members) (as_orgs (run ops start))) ->
    exists i j c, snd (act (OLogIn now (aa_email a) (password_of a) cookie) (run ops start)) = ATokens i j /\
      context now i (step (OLogIn now (aa_email a) (password_of a) cookie) (run ops start)) = Some c /\ cx_account c = id.
Proof.
  intros ops now cookie id a La A V K. destruct (start_inv ops) as (n & I). unfold Auth.step. cbn [Auth.act].
  exact (log_in_right n now _ _ _ id a La I A eq_refl eq_refl V cookie K).
Qed.
(** The organization a log-in is for: never one that the account is not a member of.  It is the
    remembered one for its members and none (number 0) for others; a browser that remembers none
    gets one of the account's organizations, if there is any. *)
Theorem C113_organization :
  forall ops now cookie id a c i j, (-60 <= ad)%Z ->
    let s := run ops start in
    let member o := exists members, In (o, members) (as_orgs s) /\ In id members in
    NoDup (map fst (as_orgs s)) -> account_is (as_db s) id a ->
    snd (act (OLogIn now (aa_email a) (password_of a) cookie) s) = ATokens i j ->
    context now i (step (OLogIn now (aa_email a) (password_of a) cookie) s) = Some c ->
    (member (cx_org c) \/ cx_org c = 0%N) /\
    (forall o, cookie = Some o -> member o -> cx_org c = o) /\
    (forall o, cookie = Some o -> ~ member o -> cx_org c = 0%N) /\
    (cookie = None -> (exists o, member o) -> member (cx_org c)).
Proof.
  intros ops now cookie id a c i j La s member Nd A T C. destruct (start_inv ops) as (n & I). fold s in I.
  unfold Auth.step in C. cbn [Auth.act] in C, T. unfold log_in in C, T. destruct (negb (valid_email (aa_email a))); [discriminate|].
  destruct (by_id_range n _ id a I A) as (Ei & _ & Be). rewrite Be in C, T.
  unfold verify, password_of in *. rewrite String.eqb_refl, Ei in *.
  destruct (log_in_org id cookie s) as [org|] eqn:O; [|discriminate].
  destruct (new_context n now id org s a La I A) as (i' & j' & c' & X & Y & E & Eo).
  assert (i = i') by congruence. subst i'. assert (c = c') by congruence. subst c'. rewrite Eo. clear C T X Y.
  assert (M : forall x, In x (as_orgs s) -> is_member id x = true <-> member (fst x)).
  { intros [o ms] Hx. cbn [fst]. unfold is_member, member. cbn [snd]. rewrite existsb_exists. split.
    - intros (y & Hy & Ey). apply N.eqb_eq in Ey. subst y. eauto.
    - intros (ms' & H1 & H2). exists id. rewrite N.eqb_refl. split; [|reflexivity].
      assert (ms' = ms); [|subst; exact H2]. clear - Nd Hx H1. induction (as_orgs s) as [|[p q] l IH]; [contradiction|].
      cbn in Nd. inversion Nd as [|? ? Ni Nd']; subst. destruct Hx as [Hx|Hx]; destruct H1 as [H1|H1].
      + congruence.
      + injection Hx as -> ->. elim Ni. apply (in_map fst) in H1. exact H1.
      + injection H1 as -> ->. elim Ni. apply (in_map fst) in Hx. exact Hx.
      + now apply IH. }
  destruct cookie as [o|]; cbn [log_in_org] in O.
  - destruct (find (fun x => N.eqb (fst x) o) (as_orgs s)) as [x|] eqn:F; [|discriminate]. apply find_some in F as (F1 & F2).
    apply N.eqb_eq in F2. specialize (M x F1). rewrite F2 in M. destruct (is_member id x) eqn:Mx; injection O as <-; rewrite ?F2.
    + split; [left; apply M; reflexivity|]. split; [intros o' [= <-] _; reflexivity|]. split; [intros o' [= <-] Nm; elim Nm; apply M; reflexivity|discriminate].
    + split; [now right|]. split; [intros o' [= <-] Hm; apply M in Hm; discriminate|]. split; [reflexivity|discriminate].
  - destruct (find (is_member id) (as_orgs s)) as [x|] eqn:F; injection O as <-.
    + apply find_some in F as (F1 & F2). apply (M x F1) in F2. split; [now left|]. split; [discriminate|]. split; [discriminate|auto].
    + split; [now right|]. split; [discriminate|]. split; [discriminate|]. intros _ (o & ms & H1 & H2). exfalso.
      pose proof (find_none _ _ F _ H1) as Q. assert (Q' : is_member id (o, ms) = true) by (apply (M (o, ms) H1); exists ms; auto). congruence.
Qed.
(** Otherwise the right password is refused: a browser that remembers an organization which has
    been deleted cannot log in to any account. *)
Theorem C113_remembered_organization_refuted :
  forall ops now email pw org,
    (forall members, ~ In (org, members) (as_orgs (run ops start))) ->
    act (OLogIn now email pw (Some org)) (run ops start) = (run ops start, ARefused).
Proof.
  intros ops now email pw org H. cbn [Auth.act]. unfold log_in. destruct (negb (valid_email email)); [reflexivity|].
  destruct (acc_by_email email _) as [a|]; [|reflexivity]. destruct (verify pw (aa_hash a)); [|reflexivity]. cbn [log_in_org].
  destruct (find (fun x => N.eqb (fst x) org) (as_orgs (run ops start))) as [(o, m)|] eqn:F; [|reflexivity].
  apply find_some in F. destruct F as (F & Ef). apply N.eqb_eq in Ef. cbn in Ef. subst o. now elim (H m).
Qed.
(** And an account that an administrator creates, with an address the log-in does not take, can be
    created but never opened. *)
Theorem C113_unusable_account_refuted :
  forall ops now email pw cookie, valid_email email = false ->
    act (OLogIn now email pw cookie) (run ops start) = (run ops start, ARefused).
Proof. intros ops now email pw cookie V. cbn [Auth.act]. unfold log_in. now rewrite V. Qed.
(** Two accounts never share an e-mail address. *)
Theorem C113_addresses_are_unique :
  forall ops id id' a a', account_is (as_db (run ops start)) id a -> account_is (as_db (run ops start)) id' a' ->
    aa_email a = aa_email a' -> id = id'.
Proof.
  intros ops id id' a a' A A' E. destruct (start_inv ops) as (n & I).
  destruct (by_id_range n _ _ _ I A) as (E1 & _ & B1). destruct (by_id_range n _ _ _ I A') as (E2 & _ & B2). congruence.
Qed.
(** Sign-up does not compare the password with its repetition. *)
Theorem C113_repetition_refuted :
  forall now email pw repetition repetition' name salt s,
    act (OSignUp now email pw repetition name salt) s = act (OSignUp now email pw repetition' name salt) s.
Proof. reflexivity. Qed.
End Server.

(** ** Witnesses *)
Definition any_mail (e : string) : bool := negb (String.eqb e "nobody").
Definition good (p : string) (_ : list string) : bool := negb (String.eqb p "weak").
Definition s0 := fresh [1%N] [2%N] "secret" 7.
Definition R := run any_mail good 900 604800.
Definition ann : list Op :=
  [OSignUp 1000 "ann@x.org" "pw1" "pw1" (Some "Ann") 1; OLogIn 1000 "admin@admin.com" "secret" None;
   OAccCreate 1001 2 (mkCReq "pw" "root@x.org" None false false (Some GAdmin) [(5%N, OrgMember)] []) 9].
(** Ann signs up (tokens 0, 1), the administrator logs in (2, 3) and creates another administrator. *)
Example C109_witness :
  context 1100 0 (R ann s0) = Some (mkCtx 2 0 None None None) /\ context 1100 2 (R ann s0) = Some (mkCtx 1 0 (Some GAdmin) None None) /\
  context 1961 0 (R ann s0) = None /\ context 1100 1 (R ann s0) = None /\
  nth_error (as_issued (R ann s0)) 3 = Some (mkToken [2%N] 605800 1 None).
Proof. vm_compute. repeat split; reflexivity. Qed.
Example C110_witness :
  snd (accounts_delete 1100 2 2 (R ann s0)) = ADone /\
  context 1100 0 (R (ann ++ [OAccDelete 1100 2 2; OSignUp 1101 "ann@x.org" "pw1" "" None 3]) s0) = None /\
  snd (act any_mail good 900 604800 (OMembership 3 []) (R ann s0)) = ADone /\
  snd (act any_mail good 900 604800 (OAccUpdate 1100 2 3 (mkPReq None None None None (Some None) None None) 0) (R ann s0)) = ADone /\
  aa_role (match acc_by_id 3 (as_db (R (ann ++ [OAccUpdate 1100 2 3 (mkPReq None None None None (Some None) None None) 0]) s0)) with Ok a => a
           | Err _ => mkAcc 0 (make_hash "" 0) "" None None false false [] [] end) = Some GAdmin.
Proof. vm_compute. repeat split; reflexivity. Qed.
Example C110_membership_witness :
  let ops := (ann ++ [OMembership 2 [(5%N, OrgOwner)]])%list in
  snd (act any_mail good 900 604800 (OMembership 2 []) (R ops s0)) = ADone /\
  (exists c, context 1100 0 (R ops s0) = Some c /\ check_organization_permission c 5 OManageOrg = true) /\
  context 1100 0 (R (ops ++ [OMembership 2 []]) s0) = Some (mkCtx 2 0 None None None).
Proof. vm_compute. split; [reflexivity|]. split; [eexists; split; reflexivity|reflexivity]. Qed.
(** The second administrator of [ann] was created by the first; ordering Ann to set a new password
    is accepted and has no effect. *)
Example C110_administrators_witness :
  (exists b, acc_by_id 3 (as_db (R ann s0)) = Ok b /\ aa_role b = Some GAdmin) /\
  snd (act any_mail good 900 604800 (OAccUpdate 1100 2 2 (mkPReq None None None (Some true) None None None) 0) (R ann s0)) = ADone /\
  exists b, acc_by_id 2 (as_db (R (ann ++ [OAccUpdate 1100 2 2 (mkPReq None None None (Some true) None None None) 0]) s0)) = Ok b /\ aa_force_pw b = false.
Proof. vm_compute. split; [eexists; split; reflexivity|]. split; [reflexivity|]. eexists; split; reflexivity. Qed.
(** At 1950 Ann's access token (900 seconds and a minute from 1000) is still good; at 1961 it is
    not, and the refresh token, good for a week, is refused with it. *)
Example C111_witness :
  snd (act any_mail good 900 604800 (ORefresh 1950 0 1) (R ann s0)) = ATokens 4 5 /\
  snd (act any_mail good 900 604800 (ORefresh 1961 0 1) (R ann s0)) = ARefused /\
  (** with Ann's access token and the administrator's refresh token *)
  context 1950 4 (R (ann ++ [ORefresh 1950 0 3]) s0) = Some (mkCtx 1 0 (Some GAdmin) None None).
Proof. vm_compute. repeat split; reflexivity. Qed.
Example C112_witness :
  snd (act any_mail good 900 604800 (OUpdatePassword 1100 0 "pw1" "pw2" 8) (R ann s0)) = ATokens 4 5 /\
  snd (act any_mail good 900 604800 (OUpdatePassword 1100 0 "pw" "pw2" 8) (R ann s0)) = ARefused /\
  (let s' := R (ann ++ [OUpdatePassword 1100 0 "pw1" "pw2" 8]) s0 in
   snd (act any_mail good 900 604800 (OLogIn 1200 "ann@x.org" "pw1" None) s') = ARefused /\
   snd (act any_mail good 900 604800 (OLogIn 1200 "ann@x.org" "pw2" None) s') = ATokens 6 7 /\
   context 1200 0 s' = Some (mkCtx 2 0 None None None)).
Proof. vm_compute. repeat split; reflexivity. Qed.
Example C113_witness :
  snd (act any_mail good 900 604800 (OLogIn 1200 "ann@x.org" "pw1" None) (R ann s0)) = ATokens 4 5 /\
  snd (act any_mail good 900 604800 (OLogIn 1200 "ann@x.org" "pw1" (Some 9%N)) (R ann s0)) = ARefused /\
  context 1200 4 (R (ann ++ [OOrganizations [(3%N, [1%N]); (4%N, [1%N; 2%N])]; OLogIn 1200 "ann@x.org" "pw1" None]) s0) = Some (mkCtx 2 4 None None None) /\
  snd (act any_mail good 900 604800 (OAccCreate 1100 2 (mkCReq "pw" "nobody" None false false None [] []) 0) (R ann s0)) = ADone.
Proof. vm_compute. repeat split; reflexivity. Qed.

(** Ann, account 2, is a member of organization 4 and not of 3. *)
Example C113_organization_witness :
  let s k := R (ann ++ [OOrganizations [(3%N, [1%N]); (4%N, [1%N; 2%N])]; OLogIn 1200 "ann@x.org" "pw1" k]) s0 in
  context 1200 4 (s (Some 3%N)) = Some (mkCtx 2 0 None None None) /\
  context 1200 4 (s (Some 4%N)) = Some (mkCtx 2 4 None None None) /\
  context 1200 4 (s None) = Some (mkCtx 2 4 None None None).
Proof. vm_compute. repeat split; reflexivity. Qed.

Print Assumptions C113_organization.
Print Assumptions C109_tokens_need_a_password.
Print Assumptions C109_accepted_requests.
Print Assumptions C110_deleted_accounts_stay_out.
Print Assumptions C110_removed_members_lose_the_organization.
Print Assumptions C110_role_change_refuted.
Print Assumptions C110_administrators.
Print Assumptions C112_order_refuted.
Print Assumptions C111_renewal_partial.
Print Assumptions C111_renewal_refuted.
Print Assumptions C111_organization_refuted.
Print Assumptions C112_changed_password.
Print Assumptions C112_who_changes_passwords.
Print Assumptions C112_sessions_refuted.
Print Assumptions C113_wrong_password.
Print Assumptions C113_right_password_partial.
Print Assumptions C113_remembered_organization_refuted.
Print Assumptions C113_unusable_account_refuted.
Print Assumptions C113_addresses_are_unique.
Print Assumptions C113_repetition_refuted.
