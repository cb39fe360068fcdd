(** Facts about the answers of account calls. *)
From Coq Require Import List NArith ZArith String Bool Lia.
From Verif Require Import AMap Kv KvFacts Md Access Auth AuthSpec AuthFacts AuthStatus AuthStatusSpec.
Import ListNotations.
Local Open Scope string_scope.

Lemma missing_is_not_found n db id e : Inv n db -> acc_by_id id db = Err e -> e = NotFound.
Proof.
  intros (_ & R & _). unfold acc_by_id. destruct (kget (akey id) db) as [v|] eqn:G; [|congruence].
  destruct (R id v G) as (a & -> & _). discriminate.
Qed.
Lemma taken_iff n db e : Inv n db -> taken db e <-> exists a, acc_by_email e db = Ok a.
Proof.
  intros I. unfold taken, account_is. split.
  - intros (id & a & G & E). exists a. destruct (by_id_range n _ _ _ I G) as (Ea & _ & B). now rewrite <- E.
  - intros (a & B). apply (by_email_spec n) in B; [|exact I]. exists (aa_id a), a. exact B.
Qed.
Lemma other_iff n db id e : Inv n db -> taken_by_another db id e <-> exists b, acc_by_email e db = Ok b /\ aa_id b <> id.
Proof.
  intros I. unfold taken_by_another, account_is. split.
  - intros (j & b & D & G & E). exists b. destruct (by_id_range n _ _ _ I G) as (Eb & _ & B). rewrite <- E. split; [exact B|congruence].
  - intros (b & B & D). apply (by_email_spec n) in B; [|exact I]. exists (aa_id b), b. tauto.
Qed.
Lemma verify_iff p a : verify p (aa_hash a) = true <-> password_of a = p.
Proof. unfold verify, password_of. rewrite String.eqb_eq. split; congruence. Qed.
Lemma verify_not p a : verify p (aa_hash a) = false <-> password_of a <> p.
Proof. rewrite <- verify_iff. destruct (verify p (aa_hash a)); split; congruence. Qed.
Lemma find_org_iff s o : organization s o <-> exists x, find (fun x => N.eqb (fst x) o) (as_orgs s) = Some x.
Proof.
  unfold organization. split.
  - intros (m & F). destruct (find (fun x => N.eqb (fst x) o) (as_orgs s)) as [x|] eqn:E; [eauto|].
    pose proof (find_none _ _ E _ F) as Z. cbn in Z. now rewrite N.eqb_refl in Z.
  - intros ((o', m) & F). apply find_some in F. destruct F as (F & E). apply N.eqb_eq in E. cbn in E. subst o'. eauto.
Qed.
Lemma exists_org_iff s o : existsb (fun x => N.eqb (fst x) o) (as_orgs s) = true <-> organization s o.
Proof.
  unfold organization. rewrite existsb_exists. split.
  - intros ((o', m) & F & E). apply N.eqb_eq in E. cbn in E. subst o'. eauto.
  - intros (m & F). exists (o, m). split; [exact F|]. apply N.eqb_refl.
Qed.
Lemma log_in_org_none a cookie s : log_in_org a cookie s = None <-> exists o, cookie = Some o /\ ~ organization s o.
Proof.
  unfold log_in_org. destruct cookie as [o|].
  - pose proof (find_org_iff s o) as F. destruct (find (fun x => N.eqb (fst x) o) (as_orgs s)) as [x|].
    + split; [discriminate|]. intros (o' & E & X). injection E as <-. elim X. apply F. eauto.
    + split; [intros _|reflexivity]. exists o. split; [reflexivity|]. rewrite F. intros (x & X). discriminate.
  - split; [discriminate|]. intros (o & E & _). discriminate.
Qed.
Lemma role_in_first {R} (o : N) (r : R) (l : list (N * R)) :
  role_in o l = Some r <-> exists l1 l2, l = (l1 ++ (o, r) :: l2)%list /\ ~ In o (map fst l1).
Proof.
  induction l as [|(i, x) l IH]; cbn [role_in].
  - split; [discriminate|]. intros ([|] & l2 & E & _); discriminate.
  - destruct (N.eqb_spec i o) as [->|D].
    + split.
      * intros E. injection E as ->. exists [], l. split; [reflexivity|intros []].
      * intros ([|y l1] & l2 & E & Nn); cbn in E; injection E as E1 E2; [congruence|]. subst y. elim Nn. now left.
    + rewrite IH. split.
      * intros (l1 & l2 & -> & Nn). exists ((i, x) :: l1), l2. split; [reflexivity|]. cbn. intros [E|E]; [now elim D|now apply Nn].
      * intros ([|y l1] & l2 & E & Nn); cbn in E.
        -- injection E as E1 _ _. now elim D.
        -- injection E as E1 E2. exists l1, l2. split; [exact E2|]. intros Z. apply Nn. now right.
Qed.
Lemma check_admin_iff a o p : check_permission (mkCtx (aa_id a) o (aa_role a) (some_list (aa_orgs a)) (some_list (aa_projects a))) p = true <-> administrator a.
Proof.
  unfold check_permission, administrator. cbn [cx_role]. destruct (aa_role a) as [[]|]; [|split; discriminate].
  split; [reflexivity|]. intros _. now destruct p.
Qed.
Lemma may_see_iff a o org : check_organization_permission (mkCtx (aa_id a) o (aa_role a) (some_list (aa_orgs a)) (some_list (aa_projects a))) org OViewOrg = true <-> may_see a org.
Proof.
  unfold check_organization_permission, may_see. rewrite <- (check_admin_iff a o PManageOrgs).
  destruct (check_permission _ PManageOrgs); [split; auto|]. unfold organization_role. cbn [cx_orgs].
  assert (E : match some_list (aa_orgs a) with Some l => role_in org l | None => None end = role_in org (aa_orgs a)) by (destruct (aa_orgs a); reflexivity).
  rewrite E. rewrite <- role_in_first. destruct (role_in org (aa_orgs a)) as [[]|] eqn:Er; split; intros X; try discriminate X; try (now right); try reflexivity;
    destruct X as [X|X]; discriminate X.
Qed.

Section Calls.
Variable valid_email : string -> bool.
Variable strong : string -> list string -> bool.
Variable ad rd : Z.
Notation act := (act valid_email strong ad rd).
Notation step := (step valid_email strong ad rd).
Notation provider := (provider valid_email strong ad rd).
Notation handle := (handle valid_email strong ad rd).
Notation respond := (respond valid_email strong ad rd).
Notation own_reason := (own_reason valid_email strong).
Notation public_reason := (public_reason valid_email strong).
Notation reason := (reason valid_email strong).

Lemma context_cases n s now bearer parses k : Inv n (as_db s) ->
  let q := mkRequest now bearer parses k in
  ((forall id org, ~ good_token s q id org) /\ exists e, context_of now bearer s = inr e /\ api_error e = (401%N, [])) \/
  (exists id org, good_token s q id org /\ no_account (as_db s) id /\ context_of now bearer s = inr (PMetadata MNotFound)) \/
  (exists id org a, good_token s q id org /\ account_is (as_db s) id a /\ aa_id a = id /\
     context_of now bearer s = inl (mkCtx (aa_id a) org (aa_role a) (some_list (aa_orgs a)) (some_list (aa_projects a)))).
Proof.
  intros I q. unfold context_of, good_token, q. cbn [rq_now rq_bearer].
  destruct bearer as [tok|]; [|left; split; [intros id org (k0 & t & E & _); discriminate|eexists; split; reflexivity]].
  destruct (nth_error (as_issued s) tok) as [t|] eqn:T.
  2:{ left. split; [|eexists; split; reflexivity]. intros id org (k0 & t & E & E1 & _). injection E as <-. congruence. }
  unfold parse_access, not_expired.
  destruct (key_dec (tk_key t) (as_akey s)) as [K|K].
  2:{ left. split; [|eexists; split; reflexivity]. intros id org (k0 & t' & E & E1 & E2 & _). injection E as <-. congruence. }
  destruct (Z.leb_spec (now - 60) (tk_exp t)) as [L|L].
  2:{ left. split; [|eexists; split; reflexivity]. intros id org (k0 & t' & E & E1 & E2 & E3 & _). injection E as <-. assert (t' = t) by congruence. subst t'. lia. }
  destruct (tk_org t) as [org|] eqn:O.
  2:{ left. split; [|eexists; split; reflexivity]. intros id org (k0 & t' & E & E1 & E2 & E3 & _ & E4). injection E as <-. congruence. }
  right. assert (Gt : exists k0 t0, Some tok = Some k0 /\ nth_error (as_issued s) k0 = Some t0 /\ tk_key t0 = as_akey s /\
    (now <= tk_exp t0 + 60)%Z /\ tk_account t0 = tk_account t /\ tk_org t0 = Some org).
  { exists tok, t. repeat split; auto. lia. }
  destruct (acc_by_id (tk_account t) (as_db s)) as [a|e] eqn:A.
  - right. exists (tk_account t), org, a. split; [exact Gt|]. split; [exact A|]. split; [|reflexivity].
    now destruct (by_id_range n _ _ _ I A).
  - assert (e = NotFound) by now apply (missing_is_not_found n (as_db s) (tk_account t)). subst e.
    left. exists (tk_account t), org. split; [exact Gt|]. split; [exact A|reflexivity].
Qed.
(** Every outcome of [tokens] is a pair of tokens. *)
Lemma tokens_done now id org s : exists s' i j, tokens ad rd now id org s = (s', inl (BTokens i j)) /\ as_db s' = as_db s /\
  as_issued s' = (as_issued s ++ pair_of ad rd s now id org)%list /\ i = List.length (as_issued s) /\ j = S i.
Proof. unfold tokens, make_tokens. do 3 eexists. split; [reflexivity|]. cbn. auto. Qed.

(** A call is either carried out, and then there is no reason to refuse it, or refused for the
    reasons of the specification and no others. *)
Definition settled (s : St) (r : St * (Body + PlatformError)) (why : N -> list string -> Prop) : Prop :=
  (exists s' b, r = (s', inl b) /\ forall n f, ~ why n f) \/
  (exists e, r = (s, inr e) /\ forall n f, why n f <-> (n, f) = api_error e).
Lemma settled_refused s e (why : N -> list string -> Prop) :
  why (fst (api_error e)) (snd (api_error e)) -> (forall n f, why n f -> (n, f) = api_error e) -> settled s (s, inr e) why.
Proof.
  intros W U. right. exists e. split; [reflexivity|]. intros n f. split; [apply U|]. intros E. rewrite <- E in W. exact W.
Qed.
Lemma settled_tokens s s' now id org (why : N -> list string -> Prop) : (forall n f, ~ why n f) -> settled s (tokens ad rd now id org s') why.
Proof. intros H. left. destruct (tokens_done now id org s') as (x & i & j & E & _). rewrite E. eauto. Qed.
Lemma settled_done s s' b (why : N -> list string -> Prop) : (forall n f, ~ why n f) -> settled s (s', inl b) why.
Proof. intros H. left. eauto. Qed.

Ltac no := let Y := fresh "Y" in intros ? ? Y; inversion Y; subst; clear Y; try reflexivity; try congruence; try contradiction; try tauto.
Ltac ref := apply settled_refused; cbn [api_error fst snd from_md md_status auth_status invalid_field wrap_into]; [|no].

Lemma public_settled n s now k : Inv n (as_db s) -> public k -> settled s (provider now None k s) (public_reason s k).
Proof.
  intros I. destruct k; cbn [public]; try contradiction; intros _; cbn [AuthStatus.provider].
  - unfold AuthStatus.sign_up, check_complexity. destruct (valid_email email) eqn:V; cbn [negb]; [|ref; now constructor].
    destruct (strong pw [email]) eqn:W; [|ref; now constructor].
    set (mk := fun id => mkAcc id _ _ _ _ _ _ _ _).
    destruct (create_cases n (as_db s) email mk I) as [(T & X)|(T & db' & X & _)]; [intros; split; reflexivity| |]; rewrite X.
    + apply (taken_iff n) in T; [|exact I]. ref. now constructor.
    + apply settled_tokens. no. match goal with H : taken _ _ |- _ => apply (taken_iff n) in H; [|exact I]; destruct H as (b & Hb); exact (T b Hb) end.
  - unfold AuthStatus.log_in. destruct (valid_email email) eqn:V; cbn [negb]; [|ref; now constructor].
    destruct (acc_by_email email (as_db s)) as [a|e] eqn:A.
    + assert (Sp := proj1 (by_email_spec n _ email a I) A). destruct Sp as (Ga & Ea).
      assert (Only : forall id b, account_is (as_db s) id b -> aa_email b = email -> b = a).
      { intros id b Gb Eb. destruct (by_id_range n _ _ _ I Gb) as (_ & _ & B). congruence. }
      destruct (verify pw (aa_hash a)) eqn:P.
      * apply verify_iff in P. destruct (log_in_org (aa_id a) cookie s) as [org|] eqn:O.
        -- apply settled_tokens. no.
           ++ match goal with H : forall id b, @?Q id b |- _ => exact (H _ a Ga eq_refl eq_refl) end.
           ++ assert (Z : log_in_org (aa_id a) (Some o) s = None) by (apply log_in_org_none; eauto). congruence.
        -- apply log_in_org_none in O. destruct O as (o & -> & O). ref; [now apply (LogIn_organization _ _ _ _ _ _ (aa_id a) a)|].
           match goal with H : forall id b, @?Q id b |- _ => elim (H _ a Ga eq_refl eq_refl) end.
      * apply verify_not in P. ref; [constructor; [exact V|]; intros id b Gb Eb; now rewrite (Only id b Gb Eb)|].
        match goal with G : account_is _ ?i ?b, E : aa_email ?b = _ |- _ => rewrite (Only i b G E) in *; contradiction end.
    + assert (Non : forall id b, account_is (as_db s) id b -> aa_email b <> email).
      { intros id b Gb Eb. destruct (by_id_range n _ _ _ I Gb) as (_ & _ & B). congruence. }
      ref; [constructor; [exact V|]; intros id b Gb Eb; elim (Non id b Gb Eb)|].
      match goal with G : account_is _ ?i ?b |- _ => elim (Non i b G eq_refl) end.
Qed.
Lemma own_settled n s now id org a k : Inv n (as_db s) -> account_is (as_db s) id a -> aa_id a = id -> ~ public k ->
  settled s (provider now (Some (mkCtx (aa_id a) org (aa_role a) (some_list (aa_orgs a)) (some_list (aa_projects a)))) k s) (own_reason s now id a k).
Proof.
  intros I A Ea P. unfold account_is in A.
  assert (Up : forall r, settled s (AuthStatus.then_tokens ad rd now (mkCtx (aa_id a) org (aa_role a) (some_list (aa_orgs a)) (some_list (aa_projects a))) r s)
                                 (fun n f => exists e, u_email r = Some e /\ taken_by_another (as_db s) id e /\ n = 409%N /\ f = [])).
  { intros r. unfold AuthStatus.then_tokens. cbn [cx_account cx_org]. rewrite Ea. assert (U := update_cases n (as_db s) id r I). rewrite A in U.
    destruct U as [((e & b & E & B & D) & X)|(U & db' & X & _)]; rewrite X.
    - apply settled_refused; cbn [api_error fst snd from_md md_status].
      + exists e. split; [exact E|]. split; [apply (other_iff n); eauto|]. split; reflexivity.
      + intros m f (e' & _ & _ & -> & ->). reflexivity.
    - apply settled_tokens. intros m f (e' & E & T & _). apply (other_iff n) in T; [|exact I]. destruct T as (b & B & D). exact (D (U e' b E B)). }
  destruct k; try (elim P; exact Logic.I); cbn [AuthStatus.provider].
  - (* refresh *) unfold AuthStatus.refresh. remember (match cookie with Some t => Some t | None => body end) as tok eqn:Etok.
    assert (Gr : forall k t, nth_error (as_issued s) k = Some t -> good_refresh s now k <-> parse_refresh (as_rkey s) now t <> None).
    { intros k t T. unfold good_refresh, parse_refresh, not_expired. split.
      - intros (t' & T' & K & L). assert (t' = t) by congruence. subst t'. destruct (key_dec (tk_key t) (as_rkey s)); [|contradiction].
        destruct (Z.leb_spec (now - 60) (tk_exp t)); [discriminate|lia].
      - destruct (key_dec (tk_key t) (as_rkey s)) as [K|]; [|now intros []]. destruct (Z.leb_spec (now - 60) (tk_exp t)); [|now intros []].
        intros _. exists t. repeat split; auto. lia. }
    assert (Bad : forall k, (forall t, nth_error (as_issued s) k = Some t -> parse_refresh (as_rkey s) now t = None) -> ~ good_refresh s now k).
    { intros k H (t & T & G). assert (Z : good_refresh s now k) by (exists t; auto). apply (Gr k t T) in Z. exact (Z (H t T)). }
    assert (Red : forall k, tok = Some k -> ~ good_refresh s now k -> own_reason s now id a (KRefresh cookie body) 401 []).
    { intros k E B. rewrite Etok in E. destruct cookie as [c|]; [injection E as ->; now apply Refresh_cookie|rewrite E; now apply Refresh_body]. }
    assert (Onl : forall m f, own_reason s now id a (KRefresh cookie body) m f ->
       (tok = None /\ m = 400%N /\ f = []) \/ exists k, tok = Some k /\ ~ good_refresh s now k /\ m = 401%N /\ f = []).
    { intros m f X. rewrite Etok. inversion X; subst; [left; auto|right; eauto 10|right; eauto 10]. }
    destruct tok as [k|] eqn:Et.
    + destruct (nth_error (as_issued s) k) as [t|] eqn:T.
      * destruct (parse_refresh (as_rkey s) now t) as [i|] eqn:Pr.
        -- apply settled_tokens. intros m f X. destruct (Onl m f X) as [(Z & _)|(k' & Z & B & _)]; [discriminate|]. injection Z as <-.
           apply B. apply (Gr k t T). congruence.
        -- apply settled_refused; cbn [api_error fst snd auth_status wrap_into].
           ++ apply (Red k eq_refl). apply Bad. intros t' T'. congruence.
           ++ intros m f X. destruct (Onl m f X) as [(Z & _)|(k' & Z & B & -> & ->)]; [discriminate|reflexivity].
      * apply settled_refused; cbn [api_error fst snd auth_status wrap_into].
        -- apply (Red k eq_refl). apply Bad. intros t' T'. congruence.
        -- intros m f X. destruct (Onl m f X) as [(Z & _)|(k' & Z & B & -> & ->)]; [discriminate|reflexivity].
    + assert (cookie = None /\ body = None) as (-> & ->) by (destruct cookie; [discriminate Etok|auto]).
      apply settled_refused; [constructor|]. no.
  - (* profile *) unfold get_profile. cbn [cx_account]. rewrite Ea, A. apply settled_done. no.
  - (* name *) unfold AuthStatus.update_name. destruct (String.eqb_spec name "") as [->|D]; [ref; constructor|].
    cbn [cx_account]. rewrite Ea. set (r := mkUReq _ _ _ _ _ _ _ _). assert (U := update_cases n (as_db s) id r I). rewrite A in U.
    destruct U as [((e & b & E & _) & _)|(_ & db' & X & _)]; [discriminate E|]. rewrite X. apply settled_done. no.
  - (* email *) unfold AuthStatus.update_email. destruct (valid_email email) eqn:V; cbn [negb]; [|ref; now constructor].
    cbn [cx_account cx_org]. rewrite Ea, A. destruct (verify pw (aa_hash a)) eqn:W; [apply verify_iff in W|apply verify_not in W; ref; now constructor].
    set (r := mkUReq _ _ _ _ _ _ _ _). assert (U := update_cases n (as_db s) id r I). rewrite A in U.
    destruct U as [((e & b & E & B & D) & X)|(U & db' & X & _)]; rewrite X.
    + injection E as <-. assert (T : taken_by_another (as_db s) id email) by (apply (other_iff n); eauto). ref. now apply Email_taken.
    + apply settled_tokens. no. match goal with H : taken_by_another _ _ _ |- _ => apply (other_iff n) in H; [|exact I]; destruct H as (b & B & D); exact (D (U _ b eq_refl B)) end.
  - (* password *) unfold AuthStatus.update_password. cbn [cx_account]. rewrite Ea, A.
    destruct (verify pw (aa_hash a)) eqn:W; [apply verify_iff in W|apply verify_not in W; ref; now constructor].
    unfold check_complexity. destruct (strong new []) eqn:Sg; [|ref; now apply Password_weak].
    destruct (Up (mkUReq (Some (make_hash new salt)) None None None None None None None)) as [(s' & b & E & _)|(e & E & H)]; rewrite Ea in E; cbn [cx_account] in E; try rewrite E.
    + apply settled_done. no.
    + destruct (proj2 (H (fst (api_error e)) (snd (api_error e)))) as (x & Z & _); [apply eq_sym, surjective_pairing|discriminate Z].
  - (* set password *) unfold AuthStatus.set_password. cbn [cx_account]. rewrite Ea, A.
    destruct (aa_force_pw a) eqn:F; [|ref; now constructor]. unfold check_complexity. destruct (strong new []) eqn:Sg; [|ref; now apply SetPassword_weak].
    destruct (Up (mkUReq (Some (make_hash new salt)) None None (Some false) None None None None)) as [(s' & b & E & _)|(e & E & H)]; rewrite Ea in E; cbn [cx_account] in E; try rewrite E.
    + apply settled_done. no.
    + destruct (proj2 (H (fst (api_error e)) (snd (api_error e)))) as (x & Z & _); [apply eq_sym, surjective_pairing|discriminate Z].
  - (* set email *) unfold AuthStatus.set_email. cbn [cx_account]. rewrite Ea, A. destruct (aa_force_email a) eqn:F; [|ref; now constructor].
    destruct (Up (mkUReq None (Some email) None None (Some false) None None None)) as [(s' & b & E & H)|(e & E & H)]; rewrite Ea in E; cbn [cx_account] in E; rewrite E.
    + apply settled_done. no. match goal with T : taken_by_another _ _ _ |- _ => apply (H 409%N []); exists email; cbn; auto end.
    + right. exists e. split; [reflexivity|]. intros m f. rewrite <- H. split.
      * intros X; inversion X; subst; [congruence|]. exists email. cbn. auto.
      * intros (x & Z & T & -> & ->). cbn in Z. injection Z as <-. now apply SetEmail_taken.
  - (* switch *) unfold AuthStatus.switch_organization. pose proof (may_see_iff a org org0) as M.
    destruct (check_organization_permission _ org0 OViewOrg).
    + assert (Ms : may_see a org0) by now apply M. pose proof (exists_org_iff s org0) as Eo. destruct (existsb _ (as_orgs s)).
      * apply settled_tokens. no.
      * assert (~ organization s org0) by (intros Z; apply Eo in Z; discriminate). ref. now apply Switch_missing.
    + assert (~ may_see a org0) by (intros Z; apply M in Z; discriminate). ref. now apply Switch_not_allowed.
  - (* create *) unfold AuthStatus.accounts_create. pose proof (check_admin_iff a org PManageAccounts) as M. destruct (check_permission _ PManageAccounts).
    + assert (Ms : administrator a) by now apply M. set (mk := fun id => mkAcc id _ _ _ _ _ _ _ _).
      destruct (create_cases n (as_db s) (c_email r) mk I) as [(T & X)|(T & db' & X & _)]; [intros; split; reflexivity| |]; rewrite X.
      * apply (taken_iff n) in T; [|exact I]. ref. now constructor.
      * apply settled_done. no. match goal with H : taken _ _ |- _ => apply (taken_iff n) in H; [|exact I]; destruct H as (b & Hb); exact (T b Hb) end.
    + assert (~ administrator a) by (intros Z; apply M in Z; discriminate). ref. now apply Create_not_allowed.
  - (* get *) unfold accounts_get. pose proof (check_admin_iff a org PManageAccounts) as M. destruct (check_permission _ PManageAccounts).
    + assert (Ms : administrator a) by now apply M. destruct (acc_by_id id0 (as_db s)) as [b|e] eqn:G.
      * apply settled_done. no; unfold no_account in *; congruence.
      * assert (e = NotFound) by now apply (missing_is_not_found n (as_db s) id0). subst e. ref. now apply Get_missing.
    + assert (~ administrator a) by (intros Z; apply M in Z; discriminate). ref. now apply Get_not_allowed.
  - (* update *) unfold AuthStatus.accounts_update. pose proof (check_admin_iff a org PManageAccounts) as M. destruct (check_permission _ PManageAccounts).
    + assert (Ms : administrator a) by now apply M. assert (U := update_cases n (as_db s) id0 (preq_update r salt) I).
      destruct (acc_by_id id0 (as_db s)) as [b|e] eqn:G.
      * destruct U as [((e & b' & E & B & D) & X)|(U & db' & X & _)]; rewrite X.
        -- cbn in E. assert (T : taken_by_another (as_db s) id0 e) by (apply (other_iff n); eauto).
           ref. now apply (Update_taken _ _ _ _ _ _ _ _ _ b e).
        -- apply settled_done. no.
           match goal with T : taken_by_another _ _ ?e, P : p_email r = Some ?e |- _ => apply (other_iff n) in T; [|exact I]; destruct T as (b' & B & D); exact (D (U e b' P B)) end.
      * rewrite U. assert (e = NotFound) by now apply (missing_is_not_found n (as_db s) id0). subst e. ref. now apply Update_missing.
    + assert (~ administrator a) by (intros Z; apply M in Z; discriminate). ref. now apply Update_not_allowed.
  - (* delete *) unfold AuthStatus.accounts_delete. pose proof (check_admin_iff a org PManageAccounts) as M. destruct (check_permission _ PManageAccounts).
    + assert (Ms : administrator a) by now apply M. assert (U := delete_cases n (as_db s) id0 I).
      destruct (acc_by_id id0 (as_db s)) as [b|e] eqn:G.
      * destruct U as (db' & X & _). rewrite X. apply settled_done. no; unfold no_account in *; congruence.
      * rewrite U. assert (e = NotFound) by now apply (missing_is_not_found n (as_db s) id0). subst e. ref. now apply Delete_missing.
    + assert (~ administrator a) by (intros Z; apply M in Z; discriminate). ref. now apply Delete_not_allowed.
Qed.
Lemma good_unique s q id org id' org' : good_token s q id org -> good_token s q id' org' -> id = id' /\ org = org'.
Proof.
  intros (k & t & B & T & _ & _ & E1 & E2) (k' & t' & B' & T' & _ & _ & E1' & E2').
  assert (k' = k) by congruence. subst k'. assert (t' = t) by congruence. subst t'. split; congruence.
Qed.
Lemma public_own s now id a k m f : own_reason s now id a k m f -> ~ public k.
Proof. intros X. inversion X; subst; cbn; auto. Qed.
Lemma public_public s k m f : public_reason s k m f -> public k.
Proof. intros X. inversion X; subst; exact Logic.I. Qed.
Lemma needs_iff k : needs_context k = true <-> ~ public k.
Proof. destruct k; cbn; split; try discriminate; try tauto; intros H; elim H; exact Logic.I. Qed.
Lemma has_body_iff k : has_body k = false <-> bodiless k.
Proof. destruct k; cbn; split; try discriminate; try tauto. Qed.

Lemma handle_settled n s q : Inv n (as_db s) -> settled s (handle q s) (reason s q).
Proof.
  intros I. destruct q as [now bearer parses k]. unfold AuthStatus.handle. cbn [rq_call rq_now rq_bearer rq_parses].
  set (q := mkRequest now bearer parses k).
  assert (Read : (negb (has_body k) || parses) = true <-> (bodiless k \/ parses = true)).
  { rewrite orb_true_iff, negb_true_iff, has_body_iff. tauto. }
  assert (Unread : (negb (has_body k) || parses) = false -> ~ bodiless k /\ parses = false).
  { intros F. apply orb_false_iff in F. destruct F as (F1 & F2). split; [|exact F2]. intros Z. apply has_body_iff in Z. rewrite Z in F1. discriminate. }
  assert (Pu := needs_iff k). destruct (needs_context k).
  - assert (Np : ~ public k) by now apply Pu. clear Pu.
    destruct (context_cases n s now bearer parses k I) as [(No & e & C & Ae)|[(id & org & G & Na & C)|(id & org & a & G & A & Ea & C)]]; rewrite C.
    + apply settled_refused; rewrite Ae; cbn [fst snd].
      * now constructor.
      * intros m f X. inversion X; subst; cbn [rq_call rq_parses] in *; try reflexivity.
        -- match goal with H : good_token _ _ _ _ |- _ => elim (No _ _ H) end.
        -- match goal with H : _ \/ (exists i b, @?Q i b) |- _ => destruct H as [H|(? & ? & ? & H & _)]; [elim Np; exact H|elim (No _ _ H)] end.
        -- match goal with H : public_reason _ _ _ _ |- _ => elim Np; exact (public_public _ _ _ _ H) end.
        -- match goal with H : signed_in _ _ _ _ |- _ => destruct H as (? & H & _); elim (No _ _ H) end.
    + apply settled_refused; cbn [api_error fst snd md_status].
      * now apply (Account_gone _ _ _ _ id org).
      * assert (Out : forall id' b, ~ signed_in s q id' b).
        { intros id' b (org' & G' & B). destruct (good_unique _ _ _ _ _ _ G G') as (<- & _). unfold account_is, no_account in *. congruence. }
        intros m f X. inversion X; subst; cbn [rq_call rq_parses] in *; try reflexivity.
        -- match goal with H : forall id org, @?Q id org |- _ => elim (H _ _ G) end.
        -- match goal with H : _ \/ (exists i b, @?Q i b) |- _ => destruct H as [H|(? & ? & H)]; [elim Np; exact H|elim (Out _ _ H)] end.
        -- match goal with H : public_reason _ _ _ _ |- _ => elim Np; exact (public_public _ _ _ _ H) end.
        -- match goal with H : signed_in _ _ _ _ |- _ => elim (Out _ _ H) end.
    + assert (In1 : signed_in s q id a) by (exists org; auto).
      assert (Uni : forall id' b, signed_in s q id' b -> id' = id /\ b = a).
      { intros id' b (org' & G' & B). destruct (good_unique _ _ _ _ _ _ G G') as (<- & _). unfold account_is in *. split; [reflexivity|congruence]. }
      destruct (negb (has_body k) || parses) eqn:F.
      * assert (Ok1 : bodiless k \/ parses = true) by now apply Read.
        assert (Eq : forall m f, reason s q m f <-> own_reason s now id a k m f).
        { intros m f. split.
          - intros X. inversion X; subst; cbn [rq_call rq_parses rq_now] in *.
            + match goal with H : forall id org, @?Q id org |- _ => elim (H _ _ G) end.
            + match goal with H : good_token _ _ _ _, H' : no_account _ _ |- _ => destruct (good_unique _ _ _ _ _ _ G H) as (<- & _); unfold account_is, no_account in *; congruence end.
            + destruct Ok1 as [Z|Z]; [contradiction|unfold q in *; cbn [rq_parses] in *; congruence].
            + match goal with H : public_reason _ _ _ _ |- _ => elim Np; exact (public_public _ _ _ _ H) end.
            + match goal with H : signed_in _ _ _ _ |- _ => destruct (Uni _ _ H) as (-> & ->) end. assumption.
          - intros X. now apply (Own_call _ _ _ _ id a). }
        destruct (own_settled n s now id org a k I A Ea Np) as [(s' & b & E & H)|(e & E & H)]; rewrite E.
        -- apply settled_done. intros m f X. apply Eq in X. exact (H m f X).
        -- right. exists e. split; [reflexivity|]. intros m f. rewrite Eq. apply H.
      * destruct (Unread eq_refl) as (Nb & Np2). apply settled_refused; cbn [api_error fst snd].
        -- apply Body_unreadable; [right; eauto|exact Nb|exact Np2].
        -- intros m f X. inversion X; subst; cbn [rq_call rq_parses] in *; try reflexivity.
           ++ match goal with H : forall id org, @?Q id org |- _ => elim (H _ _ G) end.
           ++ match goal with H : good_token _ _ _ _, H' : no_account _ _ |- _ => destruct (good_unique _ _ _ _ _ _ G H) as (<- & _); unfold account_is, no_account in *; congruence end.
           ++ match goal with H : bodiless _ \/ _ |- _ => destruct H; [contradiction|unfold q in *; cbn [rq_parses] in *; congruence] end.
           ++ match goal with H : bodiless _ \/ _ |- _ => destruct H; [contradiction|unfold q in *; cbn [rq_parses] in *; congruence] end.
  - assert (P : public k) by (destruct k; cbn in *; try exact Logic.I; destruct Pu as (_ & Z); discriminate Z; intros []). clear Pu.
    destruct (negb (has_body k) || parses) eqn:F.
    + assert (Ok1 : bodiless k \/ parses = true) by now apply Read.
      assert (Eq : forall m f, reason s q m f <-> public_reason s k m f).
      { intros m f. split.
        - intros X. inversion X; subst; cbn [rq_call rq_parses rq_now] in *; try contradiction; [destruct Ok1 as [Z|Z]; [contradiction|unfold q in *; cbn [rq_parses] in *; congruence]|assumption|].
          match goal with H : own_reason _ _ _ _ _ _ _ |- _ => elim (public_own _ _ _ _ _ _ _ H P) end.
        - intros X. now apply Public_call. }
      destruct (public_settled n s now k I P) as [(s' & b & E & H)|(e & E & H)]; rewrite E.
      * apply settled_done. intros m f X. apply Eq in X. exact (H m f X).
      * right. exists e. split; [reflexivity|]. intros m f. rewrite Eq. apply H.
    + destruct (Unread eq_refl) as (Nb & Np2). apply settled_refused; cbn [api_error fst snd].
      * apply Body_unreadable; [now left|exact Nb|exact Np2].
      * intros m f X. unfold q in X. inversion X; subst; cbn [rq_call rq_parses] in *; try reflexivity; try contradiction;
          match goal with H : bodiless _ \/ _ |- _ => destruct H; [contradiction|congruence] end.
Qed.
End Calls.
