(** Property C35: accounts and organizations agree on membership. *)
From Coq Require Import List NArith ZArith String Ascii Bool Lia.
From Verif Require Import AMap Kv KvKeys KvKeysFacts KvFacts Md MdOps MdFrame MdIndex MdEntities MdWf PropsNames.
Import ListNotations.
Local Open Scope string_scope.

Notation acc := (NRoot RAccounts).
Notation orgn := (NRoot ROrganizations).
(** What account [a] lists, and what organization [o] lists. *)
Definition account_lists (a o : N) (r : OrgRole) (s : Store) : Prop :=
  exists x, account_by_id a s = Ok x /\ In (o, r) (ac_orgs x).
Definition org_lists (o a : N) (r : OrgRole) (s : Store) : Prop :=
  exists x, org_by_id o s = Ok x /\ In (a, r) (org_members x).

(** Organization and membership calls; account calls that leave the memberships alone. *)
Definition keeps_members (o : MdOp) : bool :=
  match o with
  | OAccountCreate _ (_ :: _) | OAccountUpdate _ _ (Some _) | OAccountDelete _ | OOrgDelete _ => false
  | _ => true
  end.

(** *** The two listings as functions *)
Definition aorgs (a : N) (s : Store) : list (N * OrgRole) :=
  match kg (KData acc a) s with Some (VRec (RAccount x)) => ac_orgs x | _ => [] end.
Definition omem (o : N) (s : Store) : list (N * OrgRole) :=
  match kg (KData orgn o) s with Some (VRec (ROrg x)) => org_members x | _ => [] end.
Lemma account_lists_iff a o r s : account_lists a o r s <-> In (o, r) (aorgs a s).
Proof.
  unfold account_lists, aorgs. split.
  - intros (x & H & Hi). apply account_by_id_spec in H. now rewrite H.
  - destruct (kg (KData acc a) s) as [[| |[]]|] eqn:E; try contradiction. intro H. eexists. split; [|exact H]. now apply account_by_id_spec.
Qed.
Lemma org_lists_iff a o r s : org_lists o a r s <-> In (a, r) (omem o s).
Proof.
  unfold org_lists, omem. split.
  - intros (x & H & Hi). apply org_by_id_spec in H. now rewrite H.
  - destruct (kg (KData orgn o) s) as [[| |[]]|] eqn:E; try contradiction. intro H. eexists. split; [|exact H]. now apply org_by_id_spec.
Qed.

Record Agree (s : Store) : Prop := {
  ag_acc : AccountsOk s;
  ag_org : OrgsOk s;
  ag_iff : forall a o r, In (o, r) (aorgs a s) <-> In (a, r) (omem o s);
  ag_nda : forall a, NoDup (map fst (aorgs a s));
  ag_ndo : forall o, NoDup (map fst (omem o s))
}.

Lemma aorgs_put_account m x l s a : account_by_id m s = Ok x -> ac_id x = m ->
  aorgs a (put_account (mkAccount (ac_id x) (ac_email x) l) s) = if N.eqb a m then l else aorgs a s.
Proof.
  intros H E. unfold put_account, aorgs. cbn [ac_id]. rewrite E.
  change (make_data_value_key "accounts" m) with (render (KData acc m)).
  destruct (N.eqb_spec a m) as [->|Ne]; [now rewrite kg_put_eq|]. rewrite kg_put_ne; auto. congruence.
Qed.
Lemma omem_put_account x s o : omem o (put_account x s) = omem o s.
Proof.
  unfold put_account, omem. change (make_data_value_key "accounts" (ac_id x)) with (render (KData acc (ac_id x))).
  rewrite kg_put_ne; auto. discriminate.
Qed.
Lemma omem_put_org x s o : omem o (put_org x s) = if N.eqb o (org_id x) then org_members x else omem o s.
Proof.
  unfold put_org, omem. change (make_data_value_key "organizations" (org_id x)) with (render (KData orgn (org_id x))).
  destruct (N.eqb_spec o (org_id x)) as [->|Ne]; [now rewrite kg_put_eq|]. rewrite kg_put_ne; auto. congruence.
Qed.
Lemma aorgs_put_org x s a : aorgs a (put_org x s) = aorgs a s.
Proof.
  unfold put_org, aorgs. change (make_data_value_key "organizations" (org_id x)) with (render (KData orgn (org_id x))).
  rewrite kg_put_ne; auto. discriminate.
Qed.

(** *** Lists of (id, role) *)
Lemma existsb_fst k (l : list (N * OrgRole)) : existsb (fun x => N.eqb (fst x) k) l = true <-> exists r, In (k, r) l.
Proof.
  rewrite existsb_exists. split.
  - intros ([i r] & Hi & E). apply N.eqb_eq in E. cbn in E. subst. eauto.
  - intros (r & Hi). exists (k, r). split; [exact Hi|]. apply N.eqb_refl.
Qed.
Lemma nodup_add k r (l : list (N * OrgRole)) : NoDup (map fst l) -> (forall r, ~ In (k, r) l) -> NoDup (map fst (l ++ [(k, r)])%list).
Proof.
  intros H Hn. rewrite map_app. cbn. apply (NoDup_Add (a:=k) (l:=map fst l)).
  - pose proof (Add_app k (map fst l) []) as A. now rewrite app_nil_r in A.
  - split; [exact H|]. rewrite in_map_iff. intros ([i x] & E & Hi). cbn in E. subst. now apply (Hn x).
Qed.
Lemma nodup_remove k (l : list (N * OrgRole)) : NoDup (map fst l) -> NoDup (map fst (filter (fun x => negb (N.eqb (fst x) k)) l)).
Proof.
  induction l as [|[i r] l IH]; cbn; [auto|]. intro H. inversion H; subst. destruct (negb _); cbn; auto. constructor; auto.
  intro Hi. apply H2. apply in_map_iff in Hi as (x & E & Hx). apply filter_In in Hx as [Hx _]. apply in_map_iff. eauto.
Qed.
Lemma in_remove k i r (l : list (N * OrgRole)) : In (i, r) (filter (fun x => negb (N.eqb (fst x) k)) l) <-> In (i, r) l /\ i <> k.
Proof. rewrite filter_In, negb_true_iff. cbn. now rewrite N.eqb_neq. Qed.
Lemma set_role_spec k r (l l' : list (N * OrgRole)) : set_role k r l = Some l' -> NoDup (map fst l) ->
  map fst l' = map fst l /\ (exists r0, In (k, r0) l) /\
  forall i x, In (i, x) l' <-> (i = k /\ x = r) \/ (i <> k /\ In (i, x) l).
Proof.
  revert l'. induction l as [|[i0 x0] l IH]; cbn [set_role map fst]; intros l' H ND; [discriminate|].
  inversion ND as [|? ? Hni ND']; subst. destruct (N.eqb_spec i0 k) as [->|Ne].
  - injection H as <-. split; [reflexivity|]. split; [exists x0; now left|]. intros i x. cbn.
    assert (In (i, x) l -> i <> k) by (intros Hi ->; apply Hni; apply in_map_iff; now exists (k, x)).
    split; [intros [[= <- <-]|Hi]; auto; right; auto|intros [[-> ->]|[Hn [[= <- <-]|Hi]]]; auto; now contradiction Hn].
  - destruct (set_role k r l) as [l1|] eqn:E; [|discriminate]. cbn in H. injection H as <-.
    destruct (IH l1 eq_refl ND') as (E1 & (r0 & Hr0) & E3). split; [cbn; now rewrite E1|]. split; [exists r0; now right|].
    intros i x. cbn. rewrite E3. split.
    + intros [[= <- <-]|[H|[H H0]]]; auto.
    + intros [H|[H [[= <- <-]|H0]]]; auto.
Qed.
Lemma set_role_none k r (l : list (N * OrgRole)) : set_role k r l = None -> forall x, ~ In (k, x) l.
Proof.
  induction l as [|[i0 x0] l IH]; cbn [set_role]; [auto|]. destruct (N.eqb_spec i0 k) as [->|Ne]; [discriminate|].
  destruct (set_role k r l); [discriminate|]. intros _ x [[= -> ->]|H]; [now apply Ne|]. now apply (IH eq_refl x).
Qed.

(** *** Calls that leave both listings alone *)
Lemma Agree_same s s' : Agree s -> AccountsOk s' -> OrgsOk s' ->
  (forall a, aorgs a s' = aorgs a s) -> (forall o, omem o s' = omem o s) -> Agree s'.
Proof.
  intros H H1 H2 Ea Eo. constructor; auto.
  - intros. rewrite Ea, Eo. apply (ag_iff _ H).
  - intro. rewrite Ea. apply (ag_nda _ H).
  - intro. rewrite Eo. apply (ag_ndo _ H).
Qed.
Lemma Agree_frame (P : Key -> Prop) s s' : only P s s' -> (forall id, ~ P (KData acc id)) -> (forall id, ~ P (KData orgn id)) ->
  AccountsOk s' -> OrgsOk s' -> Agree s -> Agree s'.
Proof.
  intros O Na No H1 H2 H. apply (Agree_same s); auto.
  - intro a. unfold aorgs. rewrite (only_kg P s s'); auto.
  - intro a. unfold omem. rewrite (only_kg P s s'); auto.
Qed.
(** *** Calls that change the entry of one account and of one organization *)
Lemma Agree_pair s s' m o la lo : Agree s -> AccountsOk s' -> OrgsOk s' ->
  (forall a, aorgs a s' = if N.eqb a m then la else aorgs a s) ->
  (forall i, omem i s' = if N.eqb i o then lo else omem i s) ->
  NoDup (map fst la) -> NoDup (map fst lo) ->
  (forall i r, i <> o -> In (i, r) la <-> In (i, r) (aorgs m s)) ->
  (forall i r, i <> m -> In (i, r) lo <-> In (i, r) (omem o s)) ->
  (forall r, In (o, r) la <-> In (m, r) lo) -> Agree s'.
Proof.
  intros H H1 H2 Ea Eo Da Do La Lo E. constructor; auto.
  - intros a i r. rewrite Ea, Eo. destruct (N.eqb_spec a m) as [->|Na], (N.eqb_spec i o) as [->|Ni].
    + apply E.
    + rewrite La by exact Ni. apply (ag_iff _ H).
    + rewrite Lo by exact Na. apply (ag_iff _ H).
    + apply (ag_iff _ H).
  - intro a. rewrite Ea. destruct (N.eqb a m); [exact Da|apply (ag_nda _ H)].
  - intro a. rewrite Eo. destruct (N.eqb a o); [exact Do|apply (ag_ndo _ H)].
Qed.

Lemma aorgs_of m x s : account_by_id m s = Ok x -> aorgs m s = ac_orgs x.
Proof. intro H. apply account_by_id_spec in H. unfold aorgs. now rewrite H. Qed.
Lemma omem_of m x s : org_by_id m s = Ok x -> omem m s = org_members x.
Proof. intro H. apply org_by_id_spec in H. unfold omem. now rewrite H. Qed.

Lemma md_step_Agree snake o s : wf_op o = true -> keeps_members o = true -> Agree s -> Agree (md_step snake o s).
Proof.
  intros W K Hx.
  pose proof (md_step_accounts snake o s W (ag_acc _ Hx)) as Ax. pose proof (md_step_orgs snake o s W (ag_org _ Hx)) as Ox.
  assert (F : (forall k, (exists id, k = KData acc id \/ k = KData orgn id) -> ~ touches o k) -> Agree (md_step snake o s)).
  { intro D. eapply Agree_frame; [apply md_frame, W| | |exact Ax|exact Ox|exact Hx]; intro id; apply D; exists id; auto. }
  destruct o; try discriminate K;
   try (apply F; intros k0 (id0 & [->| ->]) Ht; try (match goal with kd : PropKind |- _ => destruct kd end);
        cbn in Ht; unfold in_props, in_ns, in_rec, kind_ns in *; cbn in *; intuition congruence).
  - (* account create *)
    destruct orgs; [|discriminate K]. apply (Agree_same s); auto; cbn [md_step] in *; unfold account_create in *.
    + destruct (check_insert _ _); [|reflexivity]. change (make_id_seq_key "accounts") with (render (KSeq acc)).
      destruct (next_seq (render (KSeq acc)) s) as [r s1] eqn:En. destruct (next_seq_indexed _ _ _ _ _ (ag_acc _ Hx) En) as (id & -> & _ & -> & Hno & _).
      intro a. cbn [snd]. change [email_key email] with (okeys acc [Some (IEmail, email)]).
      unfold aorgs. rewrite kg_insert_out; [|reflexivity|intros; discriminate].
      change (make_data_value_key "accounts" id) with (render (KData acc id)).
      destruct (N.eq_dec a id) as [->|Ne]; [rewrite kg_put_eq, Hno; reflexivity|].
      rewrite kg_put_ne; auto; [|congruence]. rewrite kg_put_ne; auto. discriminate.
    + destruct (check_insert _ _); [|reflexivity]. change (make_id_seq_key "accounts") with (render (KSeq acc)).
      destruct (next_seq (render (KSeq acc)) s) as [r s1] eqn:En. destruct (next_seq_indexed _ _ _ _ _ (ag_acc _ Hx) En) as (id & -> & _ & -> & Hno & _).
      intro a. cbn [snd]. change [email_key email] with (okeys acc [Some (IEmail, email)]).
      unfold omem. rewrite kg_insert_out; [|reflexivity|intros; discriminate].
      change (make_data_value_key "accounts" id) with (render (KData acc id)).
      rewrite kg_put_ne; auto; [|discriminate]. rewrite kg_put_ne; auto. discriminate.
  - (* account update *)
    destruct orgs; [discriminate K|].
    assert (OO : only (in_rec acc) s (md_step snake (OAccountUpdate id email None) s)) by (apply (md_frame snake (OAccountUpdate id email None)); reflexivity).
    apply (Agree_same s); auto.
    + intro a. cbn [md_step]. unfold account_update. destruct (account_by_id id s) as [prev|] eqn:Hb; [|reflexivity]. cbv zeta.
      pose proof (account_by_id_ok _ _ _ (ag_acc _ Hx) Hb) as Hid.
      destruct (check_update _ _ _); [|reflexivity]. cbn [snd]. rewrite Hid.
      assert (U : forall s1, kg (KData acc a) (update_index s1 (match email with Some e => [email_key e] | None => [] end)
         (match email with Some _ => [email_key (ac_email prev)] | None => [] end) id) = kg (KData acc a) s1).
      { intro s1. destruct email as [e|]; [|reflexivity].
        apply (kg_update_out acc [Some (IEmail, e)] [Some (IEmail, ac_email prev)]); auto; discriminate. }
      unfold aorgs at 1. rewrite U. change (make_data_value_key "accounts" id) with (render (KData acc id)).
      destruct (N.eq_dec a id) as [->|Ne]; [rewrite kg_put_eq; cbn [ac_orgs]; symmetry; now apply aorgs_of|].
      rewrite kg_put_ne; auto. congruence.
    + intro i. unfold omem. rewrite (only_kg _ _ _ _ OO); auto. cbn. discriminate.
  - (* organization create *)
    cbn [md_step] in *. unfold org_create in *. destruct (check_insert _ _) eqn:Hc; [|exact Hx].
    change (make_id_seq_key "organizations") with (render (KSeq orgn)) in *.
    destruct (next_seq (render (KSeq orgn)) s) as [r s1] eqn:En.
    destruct (next_seq_indexed _ _ _ _ _ (ag_org _ Hx) En) as (id & -> & _ & -> & Hno & _). cbv zeta in *.
    set (s2 := insert_index _ _ _) in *. unfold add_organization in *.
    assert (A2 : forall a, kg (KData acc a) s2 = kg (KData acc a) s).
    { intro a. unfold s2. change [org_name_key name] with (okeys orgn [Some (IName, name)]).
      rewrite kg_insert_out; [|reflexivity|intros; discriminate]. unfold put_org. cbn [org_id].
      change (make_data_value_key "organizations" id) with (render (KData orgn id)).
      rewrite kg_put_ne; auto; [|discriminate]. rewrite kg_put_ne; auto. discriminate. }
    assert (O2 : forall i, omem i s2 = if N.eqb i id then [(creator, OrgOwner)] else omem i s).
    { intro i. unfold s2. change [org_name_key name] with (okeys orgn [Some (IName, name)]). unfold omem at 1.
      rewrite kg_insert_out; [|reflexivity|intros; discriminate]. fold (omem i (put_org (mkOrg id name [(creator, OrgOwner)]) (kput (render (KSeq orgn)) (VNum id) s))).
      rewrite omem_put_org. cbn [org_id org_members]. destruct (N.eqb i id); [reflexivity|].
      unfold omem. rewrite kg_put_ne; auto. discriminate. }
    assert (Eb : account_by_id creator s2 = account_by_id creator s).
    { unfold account_by_id. change (make_data_value_key "accounts" creator) with (render (KData acc creator)).
      fold (kg (KData acc creator) s2). rewrite A2. reflexivity. }
    rewrite Eb in *. destruct (account_by_id creator s) as [x|] eqn:Hb; [|exact Hx].
    destruct (existsb _ _) eqn:Hex; [exact Hx|]. cbn [snd] in *.
    pose proof (account_by_id_ok _ _ _ (ag_acc _ Hx) Hb) as Hid.
    assert (Fresh : forall r, ~ In (id, r) (ac_orgs x)).
    { intros r Hi. assert (existsb (fun x => N.eqb (fst x) id) (ac_orgs x) = true) by (apply existsb_fst; eauto). congruence. }
    apply (Agree_pair s _ creator id (ac_orgs x ++ [(id, OrgOwner)])%list [(creator, OrgOwner)]); auto.
    + intro a. rewrite (aorgs_put_account creator x); auto. destruct (N.eqb a creator); [reflexivity|].
      unfold aorgs. now rewrite A2.
    + intro i. rewrite omem_put_account. apply O2.
    + apply nodup_add; [|exact Fresh]. rewrite <- (aorgs_of creator x s Hb). apply (ag_nda _ Hx).
    + repeat constructor. auto.
    + intros i r Hi. rewrite (aorgs_of creator x s Hb), in_app_iff. cbn. split; [intros [H|[[= E _]|[]]]; auto; congruence|auto].
    + intros i r Hi. assert (omem id s = []) as -> by (unfold omem; now rewrite Hno). cbn. split; [intros [[= E _]|[]]; congruence|contradiction].
    + intro r. rewrite in_app_iff. cbn. split; [intros [H|[[= ->]|[]]]; [now apply Fresh in H|auto]|intros [[= ->]|[]]; auto].
  - (* organization update *)
    assert (OO : only (in_rec orgn) s (md_step snake (OOrgUpdate id name) s)) by (apply (md_frame snake (OOrgUpdate id name)); reflexivity).
    apply (Agree_same s); auto.
    + intro i. unfold aorgs. rewrite (only_kg _ _ _ _ OO); auto. cbn. discriminate.
    + intro a. cbn [md_step]. unfold org_update. destruct (org_by_id id s) as [prev|] eqn:Hb; [|reflexivity]. cbv zeta.
      pose proof (org_by_id_ok _ _ _ (ag_org _ Hx) Hb) as Hid.
      destruct (check_update _ _ _); [|reflexivity]. cbn [snd]. rewrite Hid.
      assert (U : forall s1, kg (KData orgn a) (update_index s1 (match name with Some e => [org_name_key e] | None => [] end)
         (match name with Some _ => [org_name_key (org_name prev)] | None => [] end) id) = kg (KData orgn a) s1).
      { intro s1. destruct name as [e|]; [|reflexivity].
        apply (kg_update_out orgn [Some (IName, e)] [Some (IName, org_name prev)]); auto; discriminate. }
      unfold omem at 1. rewrite U. match goal with |- match kg _ ?z with _ => _ end = _ => fold (omem a z) end.
      rewrite omem_put_org. cbn [org_id org_members]. destruct (N.eqb_spec a id) as [->|]; [|reflexivity].
      symmetry. now apply omem_of.
  - (* add *)
    cbn [md_step] in *. unfold org_add_member, add_organization in *. destruct (org_by_id id s) as [og|] eqn:Ho; [|exact Hx].
    destruct (existsb _ (org_members og)) eqn:E1; [exact Hx|]. destruct (account_by_id member s) as [x|] eqn:Hb; [|exact Hx].
    destruct (existsb _ (ac_orgs x)) eqn:E2; [exact Hx|]. cbn [snd] in *.
    pose proof (account_by_id_ok _ _ _ (ag_acc _ Hx) Hb) as Hid. pose proof (org_by_id_ok _ _ _ (ag_org _ Hx) Ho) as Hio.
    assert (F1 : forall r, ~ In (member, r) (org_members og)) by (intros r0 Hi; apply not_true_iff_false in E1; apply E1, existsb_fst; eauto).
    assert (F2 : forall r, ~ In (id, r) (ac_orgs x)) by (intros r0 Hi; apply not_true_iff_false in E2; apply E2, existsb_fst; eauto).
    apply (Agree_pair s _ member id (ac_orgs x ++ [(id, r)])%list (org_members og ++ [(member, r)])%list); auto.
    + intro a. rewrite aorgs_put_org. now apply aorgs_put_account.
    + intro i. rewrite omem_put_org. cbn [org_id org_members]. rewrite Hio, omem_put_account. reflexivity.
    + apply nodup_add; auto. rewrite <- (aorgs_of member x s Hb). apply (ag_nda _ Hx).
    + apply nodup_add; auto. rewrite <- (omem_of id og s Ho). apply (ag_ndo _ Hx).
    + intros i r0 Hi. rewrite (aorgs_of member x s Hb), in_app_iff. cbn. split; [intros [H|[[= E _]|[]]]; auto; congruence|auto].
    + intros i r0 Hi. rewrite (omem_of id og s Ho), in_app_iff. cbn. split; [intros [H|[[= E _]|[]]]; auto; congruence|auto].
    + intro r0. rewrite !in_app_iff. cbn. split; (intros [H|[[= <-]|[]]]; [exfalso; first [now apply F1 in H|now apply F2 in H]|auto]).
  - (* remove *)
    cbn [md_step] in *. unfold org_remove_member, remove_organization in *. destruct (org_by_id id s) as [og|] eqn:Ho; [|exact Hx].
    destruct (negb _); [exact Hx|]. destruct (account_by_id member s) as [x|] eqn:Hb; [|exact Hx].
    destruct (forallb _ (ac_orgs x)) eqn:E2; [exact Hx|]. cbn [snd] in *.
    pose proof (account_by_id_ok _ _ _ (ag_acc _ Hx) Hb) as Hid. pose proof (org_by_id_ok _ _ _ (ag_org _ Hx) Ho) as Hio.
    apply (Agree_pair s _ member id (filter (fun x => negb (N.eqb (fst x) id)) (ac_orgs x)) (filter (fun x => negb (N.eqb (fst x) member)) (org_members og))); auto.
    + intro a. rewrite aorgs_put_org. now apply aorgs_put_account.
    + intro i. rewrite omem_put_org. cbn [org_id org_members]. rewrite Hio, omem_put_account. reflexivity.
    + apply nodup_remove. rewrite <- (aorgs_of member x s Hb). apply (ag_nda _ Hx).
    + apply nodup_remove. rewrite <- (omem_of id og s Ho). apply (ag_ndo _ Hx).
    + intros i r0 Hi. rewrite (aorgs_of member x s Hb), in_remove. tauto.
    + intros i r0 Hi. rewrite (omem_of id og s Ho), in_remove. tauto.
    + intro r0. rewrite !in_remove. tauto.
  - (* role *)
    cbn [md_step] in *. unfold org_change_role, change_organization_role in *. destruct (org_by_id id s) as [og|] eqn:Ho; [|exact Hx].
    destruct (set_role member r (org_members og)) as [lo|] eqn:E1; [|exact Hx]. destruct (account_by_id member s) as [x|] eqn:Hb; [|exact Hx].
    destruct (set_role id r (ac_orgs x)) as [la|] eqn:E2; [|exact Hx]. cbn [snd] in *.
    pose proof (account_by_id_ok _ _ _ (ag_acc _ Hx) Hb) as Hid. pose proof (org_by_id_ok _ _ _ (ag_org _ Hx) Ho) as Hio.
    pose proof (ag_nda _ Hx member) as Nx. rewrite (aorgs_of member x s Hb) in Nx.
    pose proof (ag_ndo _ Hx id) as No. rewrite (omem_of id og s Ho) in No.
    destruct (set_role_spec _ _ _ _ E1 No) as (M1 & _ & S1). destruct (set_role_spec _ _ _ _ E2 Nx) as (M2 & _ & S2).
    apply (Agree_pair s _ member id la lo); auto.
    + intro a. rewrite aorgs_put_org. now apply aorgs_put_account.
    + intro i. rewrite omem_put_org. cbn [org_id org_members]. rewrite Hio, omem_put_account. reflexivity.
    + now rewrite M2.
    + now rewrite M1.
    + intros i r0 Hi. rewrite (aorgs_of member x s Hb), S2. tauto.
    + intros i r0 Hi. rewrite (omem_of id og s Ho), S1. tauto.
    + intro r0. rewrite S1, S2. tauto.
Qed.
Lemma Agree_nil : Agree [].
Proof. constructor; [apply Indexed_nil|apply Indexed_nil|cbn; tauto|constructor|constructor]. Qed.

(** ** C35 for histories without deletions and without writing memberships into an account *)
Theorem C35_membership_agrees_partial :
  forall snake ops, forallb wf_op ops = true -> forallb keeps_members ops = true ->
    let s := md_run snake ops [] in
    forall a o r, account_lists a o r s <-> org_lists o a r s.
Proof.
  intros snake ops W K s a o r. rewrite account_lists_iff, org_lists_iff.
  enough (Agree s) as H by apply (ag_iff _ H).
  unfold s, md_run. clear s. revert W K. generalize Agree_nil. generalize (@nil (string * Val Rec)).
  induction ops as [|x l IH]; cbn [forallb fold_left]; intros s Hs W K; [exact Hs|].
  apply andb_prop in W, K. destruct W, K. apply IH; auto. now apply md_step_Agree.
Qed.
Print Assumptions C35_membership_agrees_partial.
Example C35_membership_agrees_partial_witness :
  let ops := [OAccountCreate "a@x" []; OAccountCreate "b@x" []; OOrgCreate 1 "acme"; OOrgAdd 1 2 OrgMember; OOrgRole 1 2 OrgAdmin;
              OOrgRemove 1 1; OAccountUpdate 2 (Some "c@x") None; OOrgCreate 9 "none"] in
  let s := md_run (fun x => x) ops [] in
  forallb keeps_members ops = true /\ account_by_id 2 s = Ok (mkAccount 2 "c@x" [(1%N, OrgAdmin)]) /\
  org_by_id 1 s = Ok (mkOrg 1 "acme" [(2%N, OrgAdmin)]) /\ account_by_id 1 s = Ok (mkAccount 1 "a@x" []).
Proof. vm_compute. repeat split. Qed.

(** Deleting an organization leaves it in the lists of all its members. *)
Theorem C35_deleted_organization_refuted :
  forall o s x a r, org_by_id o s = Ok x -> account_lists a o r s ->
    let s' := snd (org_delete o s) in
    account_lists a o r s' /\ forall r', ~ org_lists o a r' s'.
Proof.
  intros o s x a r H Ha s'. split.
  - apply account_lists_iff. apply account_lists_iff in Ha. unfold aorgs in *.
    assert (OO : only (in_rec orgn) s (md_step (fun x => x) (OOrgDelete o) s)) by (apply (md_frame (fun x => x) (OOrgDelete o)); reflexivity).
    cbn [md_step] in OO. fold s' in OO. rewrite (only_kg _ _ _ _ OO); auto. cbn. discriminate.
  - intros r' Hl. apply org_lists_iff in Hl. unfold s', org_delete in Hl. rewrite H in Hl. cbn [snd] in Hl.
    unfold omem in Hl. change [org_name_key (org_name x)] with (okeys orgn [Some (IName, org_name x)]) in Hl.
    rewrite kg_delete_out in Hl; [|reflexivity|intros; discriminate].
    change (make_data_value_key "organizations" o) with (render (KData orgn o)) in Hl. rewrite kg_del_eq in Hl. exact Hl.
Qed.
Print Assumptions C35_deleted_organization_refuted.
(** Deleting an account leaves it in the lists of its organizations. *)
Theorem C35_deleted_account_refuted :
  forall a s x o r, account_by_id a s = Ok x -> org_lists o a r s ->
    let s' := snd (account_delete a s) in
    org_lists o a r s' /\ forall r', ~ account_lists a o r' s'.
Proof.
  intros a s x o r H Ho s'. split.
  - apply org_lists_iff. apply org_lists_iff in Ho. unfold omem in *.
    assert (OO : only (in_rec acc) s (md_step (fun x => x) (OAccountDelete a) s)) by (apply (md_frame (fun x => x) (OAccountDelete a)); reflexivity).
    cbn [md_step] in OO. fold s' in OO. rewrite (only_kg _ _ _ _ OO); auto. cbn. discriminate.
  - intros r' Hl. apply account_lists_iff in Hl. unfold s', account_delete in Hl. rewrite H in Hl. cbn [snd] in Hl.
    unfold aorgs in Hl. change [email_key (ac_email x)] with (okeys acc [Some (IEmail, ac_email x)]) in Hl.
    rewrite kg_delete_out in Hl; [|reflexivity|intros; discriminate].
    change (make_data_value_key "accounts" a) with (render (KData acc a)) in Hl. rewrite kg_del_eq in Hl. exact Hl.
Qed.
Print Assumptions C35_deleted_account_refuted.
Example C35_deletions_refuted_witness :
  let s := md_run (fun x => x) [OAccountCreate "a@x" []; OOrgCreate 1 "acme"] [] in
  account_lists 1 1 OrgOwner s /\ org_lists 1 1 OrgOwner s /\
  account_by_id 1 s = Ok (mkAccount 1 "a@x" [(1%N, OrgOwner)]) /\ org_by_id 1 s = Ok (mkOrg 1 "acme" [(1%N, OrgOwner)]).
Proof.
  cbn zeta. split; [|split; [|split; reflexivity]]; eexists; (split; [reflexivity|]); cbn; auto.
Qed.
