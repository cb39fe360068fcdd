(** Every metadata call keeps the records of every kind consistent with their index entries. *)
From Coq Require Import List NArith ZArith String Ascii Bool Lia.
From Verif Require Import AMap Kv KvKeys KvKeysFacts KvFacts Md MdOps MdFrame MdIndex.
Import ListNotations.
Local Open Scope string_scope.

Definition event_iks (r : Rec) : option (N * list (option IK)) :=
  match r with
  | REvent e => Some (ev_id e, [Some (IName, ev_name e); option_map (pair IDisplayName) (ev_display e)])
  | _ => None
  end.
Definition custom_iks (r : Rec) : option (N * list (option IK)) :=
  match r with RCustomEvent c => Some (ce_id c, [Some (IName, ce_name c)]) | _ => None end.
Definition account_iks (r : Rec) : option (N * list (option IK)) :=
  match r with RAccount a => Some (ac_id a, [Some (IEmail, ac_email a)]) | _ => None end.
Definition org_iks (r : Rec) : option (N * list (option IK)) :=
  match r with ROrg o => Some (org_id o, [Some (IName, org_name o)]) | _ => None end.
Definition project_iks (r : Rec) : option (N * list (option IK)) :=
  match r with
  | RProject p => if string_dec (pr_name p) (pr_token p) then None
                  else Some (pr_id p, [Some (IName, pr_name p); Some (IName, pr_token p)])
  | _ => None
  end.
Definition team_iks (r : Rec) : option (N * list (option IK)) :=
  match r with RTeam t => Some (tm_id t, [Some (IName, tm_name t)]) | _ => None end.
Definition prop_iks (kd : PropKind) (r : Rec) : option (N * list (option IK)) :=
  match r with
  | RProperty x => if (match pp_kind x, kd with KEvent, KEvent => true | KGroup a, KGroup b => N.eqb a b | _, _ => false end)
                   then Some (pp_id x, [Some (IName, pp_name x); option_map (pair IDisplayName) (pp_display x)]) else None
  | _ => None
  end.

Notation EventsOk p := (Indexed (NProj p PEvents) event_iks).
Notation CustomsOk p := (Indexed (NProj p PCustom) custom_iks).
Notation AccountsOk := (Indexed (NRoot RAccounts) account_iks).
Notation OrgsOk := (Indexed (NRoot ROrganizations) org_iks).
Notation ProjectsOk := (Indexed (NRoot RProjects) project_iks).
Notation TeamsOk o := (Indexed (NTeams o) team_iks).
Notation PropsOk p kd := (Indexed (kind_ns p kd) (prop_iks kd)).

Lemma frame_op snake ns kf o s : wf_op o = true -> (forall k, in_ns ns k -> ~ touches o k) ->
  Indexed ns kf s -> Indexed ns kf (md_step snake o s).
Proof. intros W D H. eapply Indexed_frame; [apply md_frame, W|exact D|exact H]. Qed.

Lemma iks1 (a x : IK) : In x (iks [Some a]) <-> x = a.
Proof. rewrite iks_in. cbn. split; [intros [[= <-]|[]]; reflexivity|intros ->; now left]. Qed.

(** ** Events *)
Lemma event_okeys p name d : event_keys p name d = okeys (NProj p PEvents) [Some (IName, name); option_map (pair IDisplayName) d].
Proof. destruct d; reflexivity. Qed.
Lemma event_by_id_spec p id s e : event_by_id p id s = Ok e <-> kg (KData (NProj p PEvents) id) s = Some (VRec (REvent e)).
Proof.
  unfold event_by_id, kg. change (make_data_value_key (events_ns p) id) with (render (KData (NProj p PEvents) id)).
  destruct (kget _ s) as [[| |[]]|]; split; congruence.
Qed.
Lemma event_by_id_ok p id s e : EventsOk p s -> event_by_id p id s = Ok e -> ev_id e = id.
Proof.
  intros Hx H. apply event_by_id_spec in H. destruct (ix_data _ _ _ Hx _ _ H) as (r & ks & [= <-] & Hk & _).
  cbn in Hk. now injection Hk as ->.
Qed.
Lemma event_not_panicked p id s x : EventsOk p s -> event_by_id p id s = Err x -> x = NotFound /\ kg (KData (NProj p PEvents) id) s = None.
Proof.
  intros Hx. unfold event_by_id. change (kget (make_data_value_key (events_ns p) id) s) with (kg (KData (NProj p PEvents) id) s).
  destruct (kg _ s) as [v|] eqn:E; [|intros [= <-]; auto].
  destruct (ix_data _ _ _ Hx _ _ E) as (r & ks & -> & Hk & _). destruct r; try discriminate.
Qed.

Lemma event_create_ok p name d props s : EventsOk p s -> EventsOk p (snd (event_create p name d props s)).
Proof.
  intro Hx. unfold event_create. destruct (check_insert s (event_keys p name d)) eqn:Hc; [|exact Hx].
  rewrite event_okeys in *. change (make_id_seq_key (events_ns p)) with (render (KSeq (NProj p PEvents))).
  destruct (next_seq (render (KSeq (NProj p PEvents))) s) as [[id|e] s1] eqn:En; [|exact Hx]. cbv zeta.
  change (make_data_value_key (events_ns p) id) with (render (KData (NProj p PEvents) id)).
  set (s3 := insert_index _ _ _).
  assert (H3 : EventsOk p s3).
  { apply (Indexed_create (NProj p PEvents) event_iks s id (REvent (mkEvent id name d []))); auto. }
  assert (H4 : EventsOk p (snd (dict_get_or_create p TABLE_EVENTS COLUMN_EVENT name s3))).
  { eapply Indexed_frame; [apply (dict_frame (in_dict p TABLE_EVENTS COLUMN_EVENT)); auto| |exact H3].
    intros k Hk. destruct k; cbn in *; tauto. }
  destruct (dict_get_or_create p TABLE_EVENTS COLUMN_EVENT name s3) as [[?|?] s4]; exact H4.
Qed.
Lemma event_update_ok p id name d s : EventsOk p s -> EventsOk p (snd (event_update p id name d s)).
Proof.
  intro Hx. unfold event_update. destruct (event_by_id p id s) as [prev|] eqn:Hb; [|exact Hx].
  pose proof (event_by_id_ok _ _ _ _ Hx Hb) as Hid. apply event_by_id_spec in Hb. cbv zeta. rewrite Hid.
  set (ksm := (match name with Some n => [Some (IName, n)] | None => [] end
           ++ match d with Some x => [option_map (pair IDisplayName) x] | None => [] end)%list).
  set (pkm := (match name with Some _ => [Some (IName, ev_name prev)] | None => [] end
           ++ match d with Some _ => [option_map (pair IDisplayName) (ev_display prev)] | None => [] end)%list).
  set (kept := (match name with Some _ => [] | None => [Some (IName, ev_name prev)] end
           ++ match d with Some _ => [] | None => [option_map (pair IDisplayName) (ev_display prev)] end)%list).
  replace (match name with Some n => [event_name_key p n] | None => [] end ++ _)%list with (okeys (NProj p PEvents) ksm)
    by (destruct name, d as [[]|]; reflexivity).
  replace (match name with Some _ => [event_name_key p (ev_name prev)] | None => [] end ++ _)%list with (okeys (NProj p PEvents) pkm)
    by (unfold pkm; destruct name, d as [[]|], (ev_display prev); reflexivity).
  destruct (check_update _ _ _) eqn:Hc; [|exact Hx]. cbn [snd ev_id].
  eapply (Indexed_update (NProj p PEvents) event_iks s id (REvent prev) _ ksm pkm kept); try exact Hc; auto.
  - cbn. now rewrite Hid.
  - reflexivity.
  - unfold ksm, pkm. now destruct name, d.
  - intros i j x. unfold ksm, pkm. destruct name, d as [[]|], (ev_display prev);
    destruct i as [|[|[|i]]], j as [|[|[|j]]]; cbn; congruence.
  - intro x. unfold pkm, kept. rewrite !iks_in. destruct name, d; cbn; tauto.
  - intro x. unfold ksm, kept. rewrite !iks_in. destruct name, d; cbn; tauto.
  - intro x. unfold pkm, kept. rewrite !iks_in. destruct name, d, (ev_display prev); cbn; intuition congruence.
Qed.
Lemma event_attach_ok p id props s : EventsOk p s -> EventsOk p (snd (event_attach p id props s)).
Proof.
  intro Hx. unfold event_attach. destruct (event_by_id p id s) as [prev|] eqn:Hb; [|exact Hx].
  pose proof (event_by_id_ok _ _ _ _ Hx Hb) as Hid. apply event_by_id_spec in Hb. rewrite Hid. cbn [snd].
  eapply (Indexed_put (NProj p PEvents) event_iks s id (REvent prev)); auto; cbn; try rewrite Hid; try reflexivity.
Qed.
Lemma event_delete_ok p id s : EventsOk p s -> EventsOk p (snd (event_delete p id s)).
Proof.
  intro Hx. unfold event_delete. destruct (event_by_id p id s) as [prev|] eqn:Hb; [|exact Hx].
  pose proof (event_by_id_ok _ _ _ _ Hx Hb) as Hid. apply event_by_id_spec in Hb. cbn [snd]. rewrite event_okeys.
  apply (Indexed_delete (NProj p PEvents) event_iks s id (REvent prev)); auto. cbn. now rewrite Hid.
Qed.
Lemma event_get_or_create_ok p name d props s : EventsOk p s -> EventsOk p (snd (event_get_or_create p name d props s)).
Proof.
  intro Hx. unfold event_get_or_create. destruct (event_by_name p name s) as [|[]]; try exact Hx. now apply event_create_ok.
Qed.

Ltac foreign := solve [apply frame_op; [assumption| |assumption];
  let k := fresh "k" in let Hk := fresh "Hk" in
  intros k Hk; try (match goal with kd : PropKind |- _ => destruct kd end); destruct k; cbn in *; try tauto; subst; unfold in_props, in_ns, in_rec, kind_ns; cbn;
  let T := fresh "T" in intro T; repeat (destruct T as [T|T]); first [congruence|tauto|destruct T; congruence]].
Ltac other_p q p := destruct (N.eq_dec q p) as [->|]; [|foreign].

Lemma md_step_events snake p o s : wf_op o = true -> EventsOk p s -> EventsOk p (md_step snake o s).
Proof.
  intros W Hx. destruct o; try foreign.
  - other_p p0 p. now apply event_create_ok.
  - other_p p0 p. now apply event_get_or_create_ok.
  - other_p p0 p. now apply event_update_ok.
  - other_p p0 p. now apply event_attach_ok.
  - other_p p0 p. now apply event_delete_ok.
Qed.

(** ** Custom events *)
Lemma custom_by_id_spec p id s e : custom_by_id p id s = Ok e <-> kg (KData (NProj p PCustom) id) s = Some (VRec (RCustomEvent e)).
Proof.
  unfold custom_by_id, kg. change (make_data_value_key (custom_ns p) id) with (render (KData (NProj p PCustom) id)).
  destruct (kget _ s) as [[| |[]]|]; split; congruence.
Qed.
Lemma custom_by_id_ok p id s e : CustomsOk p s -> custom_by_id p id s = Ok e -> ce_id e = id.
Proof.
  intros Hx H. apply custom_by_id_spec in H. destruct (ix_data _ _ _ Hx _ _ H) as (r & ks & [= <-] & Hk & _).
  cbn in Hk. now injection Hk as ->.
Qed.
Lemma custom_okeys p name : custom_keys p name = okeys (NProj p PCustom) [Some (IName, name)].
Proof. reflexivity. Qed.
Lemma custom_create_ok p name evs s : CustomsOk p s -> CustomsOk p (snd (custom_create p name evs s)).
Proof.
  intro Hx. unfold custom_create. destruct evs as [|e0 er]; [exact Hx|].
  destruct (validate_events _ _ _ _); [|exact Hx].
  destruct (check_insert s (custom_keys p name)) eqn:Hc; [|exact Hx].
  change (make_id_seq_key (custom_ns p)) with (render (KSeq (NProj p PCustom))).
  destruct (next_seq (render (KSeq (NProj p PCustom))) s) as [[id|e] s1] eqn:En; [|exact Hx]. cbn [snd].
  now apply (Indexed_create (NProj p PCustom) custom_iks s id (RCustomEvent (mkCustom id name (e0 :: er))) [Some (IName, name)]).
Qed.
Lemma custom_update_ok p id name evs s : CustomsOk p s -> CustomsOk p (snd (custom_update p id name evs s)).
Proof.
  intro Hx. unfold custom_update. destruct (custom_by_id p id s) as [prev|] eqn:Hb; [|exact Hx].
  pose proof (custom_by_id_ok _ _ _ _ Hx Hb) as Hid. apply custom_by_id_spec in Hb. cbv zeta. rewrite Hid.
  destruct (check_update _ _ _) eqn:Hc; [|exact Hx].
  assert (D : forall es, CustomsOk p (update_index (kput (make_data_value_key (custom_ns p) id)
       (VRec (RCustomEvent (mkCustom id (match name with Some n => n | None => ce_name prev end) es))) s)
     (match name with Some n => custom_keys p n | None => [] end)
     (match name with Some _ => custom_keys p (ce_name prev) | None => [] end) id)).
  { intro es. destruct name as [n|].
    - eapply (Indexed_update (NProj p PCustom) custom_iks s id (RCustomEvent prev) _ [Some (IName, n)] [Some (IName, ce_name prev)] []);
        try exact Hc; auto.
      + cbn. now rewrite Hid.
      + reflexivity.
      + intros [|[|i]] [|[|j]] x; cbn; congruence.
      + intro x. cbn. tauto.
      + intro x. cbn. tauto.
    - eapply (Indexed_put (NProj p PCustom) custom_iks s id (RCustomEvent prev)); auto; cbn; try rewrite Hid; reflexivity. }
  destruct evs as [[|e0 er]|]; cbn [snd]; [exact Hx| |apply D].
  destruct (validate_events _ _ _ _); cbn [snd]; [apply D|exact Hx].
Qed.
Lemma custom_delete_ok p id s : CustomsOk p s -> CustomsOk p (snd (custom_delete p id s)).
Proof.
  intro Hx. unfold custom_delete. destruct (custom_by_id p id s) as [prev|] eqn:Hb; [|exact Hx].
  pose proof (custom_by_id_ok _ _ _ _ Hx Hb) as Hid. apply custom_by_id_spec in Hb. cbn [snd].
  apply (Indexed_delete (NProj p PCustom) custom_iks s id (RCustomEvent prev) [Some (IName, ce_name prev)]); auto. cbn. now rewrite Hid.
Qed.
Lemma md_step_customs snake p o s : wf_op o = true -> CustomsOk p s -> CustomsOk p (md_step snake o s).
Proof.
  intros W Hx. destruct o; try foreign.
  - other_p p0 p. now apply custom_create_ok.
  - other_p p0 p. now apply custom_update_ok.
  - other_p p0 p. now apply custom_delete_ok.
Qed.

(** ** Accounts *)
Lemma account_by_id_spec id s a : account_by_id id s = Ok a <-> kg (KData (NRoot RAccounts) id) s = Some (VRec (RAccount a)).
Proof.
  unfold account_by_id, kg. change (make_data_value_key "accounts" id) with (render (KData (NRoot RAccounts) id)).
  destruct (kget _ s) as [[| |[]]|]; split; congruence.
Qed.
Lemma account_by_id_ok id s e : AccountsOk s -> account_by_id id s = Ok e -> ac_id e = id.
Proof.
  intros Hx H. apply account_by_id_spec in H. destruct (ix_data _ _ _ Hx _ _ H) as (r & ks & [= <-] & Hk & _).
  cbn in Hk. now injection Hk as ->.
Qed.
Lemma account_create_ok email orgs s : AccountsOk s -> AccountsOk (snd (account_create email orgs s)).
Proof.
  intro Hx. unfold account_create. destruct (check_insert _ _) eqn:Hc; [|exact Hx].
  change (make_id_seq_key "accounts") with (render (KSeq (NRoot RAccounts))).
  destruct (next_seq (render (KSeq (NRoot RAccounts))) s) as [[id|e] s1] eqn:En; [|exact Hx]. cbn [snd].
  now apply (Indexed_create (NRoot RAccounts) account_iks s id (RAccount (mkAccount id email orgs)) [Some (IEmail, email)]).
Qed.
Lemma account_update_ok id email orgs s : AccountsOk s -> AccountsOk (snd (account_update id email orgs s)).
Proof.
  intro Hx. unfold account_update. destruct (account_by_id id s) as [prev|] eqn:Hb; [|exact Hx].
  pose proof (account_by_id_ok _ _ _ Hx Hb) as Hid. apply account_by_id_spec in Hb. cbv zeta. rewrite Hid.
  destruct (check_update _ _ _) eqn:Hc; [|exact Hx]. cbn [snd]. destruct email as [n|].
  - eapply (Indexed_update (NRoot RAccounts) account_iks s id (RAccount prev) _ [Some (IEmail, n)] [Some (IEmail, ac_email prev)] []);
      try exact Hc; auto.
    + cbn. now rewrite Hid.
    + reflexivity.
    + intros [|[|i]] [|[|j]] x; cbn; congruence.
    + intro x. cbn. tauto.
    + intro x. cbn. tauto.
  - eapply (Indexed_put (NRoot RAccounts) account_iks s id (RAccount prev)); auto; cbn; try rewrite Hid; reflexivity.
Qed.
Lemma account_delete_ok id s : AccountsOk s -> AccountsOk (snd (account_delete id s)).
Proof.
  intro Hx. unfold account_delete. destruct (account_by_id id s) as [prev|] eqn:Hb; [|exact Hx].
  pose proof (account_by_id_ok _ _ _ Hx Hb) as Hid. apply account_by_id_spec in Hb. cbn [snd].
  apply (Indexed_delete (NRoot RAccounts) account_iks s id (RAccount prev) [Some (IEmail, ac_email prev)]); auto. cbn. now rewrite Hid.
Qed.
Lemma put_account_ok id s a l : AccountsOk s -> account_by_id id s = Ok a -> AccountsOk (put_account (mkAccount (ac_id a) (ac_email a) l) s).
Proof.
  intros Hx Hb. pose proof (account_by_id_ok _ _ _ Hx Hb) as Hid. apply account_by_id_spec in Hb. unfold put_account. cbn [ac_id]. rewrite Hid.
  eapply (Indexed_put (NRoot RAccounts) account_iks s id (RAccount a)); auto; cbn; try rewrite Hid; reflexivity.
Qed.
Lemma add_organization_ok m o r s : AccountsOk s -> AccountsOk (snd (add_organization m o r s)).
Proof.
  intro Hx. unfold add_organization. destruct (account_by_id m s) eqn:Hb; [|exact Hx].
  destruct (existsb _ _); [exact Hx|]. now apply (put_account_ok m).
Qed.
Lemma remove_organization_ok m o s : AccountsOk s -> AccountsOk (snd (remove_organization m o s)).
Proof.
  intro Hx. unfold remove_organization. destruct (account_by_id m s) eqn:Hb; [|exact Hx].
  destruct (forallb _ _); [exact Hx|]. now apply (put_account_ok m).
Qed.
Lemma change_role_ok m o r s : AccountsOk s -> AccountsOk (snd (change_organization_role m o r s)).
Proof.
  intro Hx. unfold change_organization_role. destruct (account_by_id m s) eqn:Hb; [|exact Hx].
  destruct (set_role _ _ _); [|exact Hx]. now apply (put_account_ok m).
Qed.
Definition orgP : Key -> Prop := in_ns (NRoot ROrganizations).
Lemma orgP_rec k : in_rec (NRoot ROrganizations) k -> orgP k.
Proof. unfold orgP. destruct k; cbn; tauto. Qed.
Lemma put_org_accounts o s : AccountsOk s -> AccountsOk (put_org o s).
Proof.
  intro Hx. eapply Indexed_frame; [apply (put_org_frame orgP); [exact orgP_rec|apply only_refl]| |exact Hx].
  intros k Hk. unfold orgP. destruct k; cbn in *; try tauto; congruence.
Qed.
Lemma md_step_accounts snake o s : wf_op o = true -> AccountsOk s -> AccountsOk (md_step snake o s).
Proof.
  intros W Hx. destruct o; try foreign.
  - now apply account_create_ok.
  - now apply account_update_ok.
  - now apply account_delete_ok.
  - cbn [md_step]. unfold org_create. destruct (check_insert _ _); [|exact Hx].
    destruct (next_seq _ s) as [[id|e] s1] eqn:En; [|exact Hx]. cbv zeta. set (s2 := insert_index _ _ _).
    assert (H2 : AccountsOk s2).
    { eapply (Indexed_frame _ _ orgP s); [|intros k Hk; unfold orgP; destruct k; cbn in *; try tauto; congruence|exact Hx].
      unfold s2. apply only_insert; [repeat constructor; cbn; hit; reflexivity|]. apply put_org_frame; [exact orgP_rec|].
      eapply next_seq_only; [exact En|]. hit. reflexivity. }
    pose proof (add_organization_ok creator id OrgOwner s2 H2) as H3.
    destruct (add_organization creator id OrgOwner s2) as [[?|?] s3]; [exact H3|exact Hx].
  - cbn [md_step]. unfold org_add_member. destruct (org_by_id id s); [|exact Hx]. destruct (existsb _ _); [exact Hx|].
    pose proof (add_organization_ok member id r s Hx) as H3. destruct (add_organization member id r s) as [[?|?] s3]; [|exact Hx].
    now apply put_org_accounts.
  - cbn [md_step]. unfold org_remove_member. destruct (org_by_id id s); [|exact Hx]. destruct (negb _); [exact Hx|].
    pose proof (remove_organization_ok member id s Hx) as H3. destruct (remove_organization member id s) as [[?|?] s3]; [|exact Hx].
    now apply put_org_accounts.
  - cbn [md_step]. unfold org_change_role. destruct (org_by_id id s); [|exact Hx]. destruct (set_role _ _ _); [|exact Hx].
    pose proof (change_role_ok member id r s Hx) as H3. destruct (change_organization_role member id r s) as [[?|?] s3]; [|exact Hx].
    now apply put_org_accounts.
Qed.

(** ** Organizations *)
Lemma org_by_id_spec id s o : org_by_id id s = Ok o <-> kg (KData (NRoot ROrganizations) id) s = Some (VRec (ROrg o)).
Proof.
  unfold org_by_id, kg. change (make_data_value_key "organizations" id) with (render (KData (NRoot ROrganizations) id)).
  destruct (kget _ s) as [[| |[]]|]; split; congruence.
Qed.
Lemma org_by_id_ok id s e : OrgsOk s -> org_by_id id s = Ok e -> org_id e = id.
Proof.
  intros Hx H. apply org_by_id_spec in H. destruct (ix_data _ _ _ Hx _ _ H) as (r & ks & [= <-] & Hk & _).
  cbn in Hk. now injection Hk as ->.
Qed.
Definition accP (k : Key) : Prop := exists id, k = KData (NRoot RAccounts) id.
Lemma accP_frame s s' : only accP s s' -> OrgsOk s -> OrgsOk s'.
Proof.
  intros O. apply (Indexed_frame _ _ accP); [exact O|]. intros k Hk (id & ->). cbn in Hk. congruence.
Qed.
Lemma accP_data id : accP (KData (NRoot RAccounts) id). Proof. now exists id. Qed.
Lemma org_put_ok s s' id o l : OrgsOk s -> org_by_id id s = Ok o -> only accP s s' ->
  OrgsOk (put_org (mkOrg (org_id o) (org_name o) l) s').
Proof.
  intros Hx Hb O. pose proof (org_by_id_ok _ _ _ Hx Hb) as Hid. apply org_by_id_spec in Hb. unfold put_org. cbn [org_id]. rewrite Hid.
  eapply (Indexed_put (NRoot ROrganizations) org_iks s' id (ROrg o)).
  - now apply (accP_frame s).
  - rewrite (only_kg accP s s'); [exact Hb|exact O|reflexivity|]. intros (x & E). discriminate.
  - cbn. now rewrite Hid.
  - reflexivity.
  - reflexivity.
Qed.
Lemma md_step_orgs snake o s : wf_op o = true -> OrgsOk s -> OrgsOk (md_step snake o s).
Proof.
  intros W Hx. destruct o; try foreign; cbn [md_step].
  - unfold org_create. destruct (check_insert _ _) eqn:Hc; [|exact Hx].
    change (make_id_seq_key "organizations") with (render (KSeq (NRoot ROrganizations))).
    destruct (next_seq (render (KSeq (NRoot ROrganizations))) s) as [[id|e] s1] eqn:En; [|exact Hx]. cbv zeta. set (s2 := insert_index _ _ _).
    assert (H2 : OrgsOk s2).
    { now apply (Indexed_create (NRoot ROrganizations) org_iks s id (ROrg (mkOrg id name [(creator, OrgOwner)])) [Some (IName, name)]). }
    pose proof (add_organization_frame accP accP_data creator id OrgOwner s2) as H3.
    destruct (add_organization creator id OrgOwner s2) as [[?|?] s3]; [now apply (accP_frame s2)|exact Hx].
  - unfold org_update. destruct (org_by_id id s) as [prev|] eqn:Hb; [|exact Hx].
    pose proof (org_by_id_ok _ _ _ Hx Hb) as Hid. apply org_by_id_spec in Hb. cbv zeta.
    destruct (check_update _ _ _) eqn:Hc; [|exact Hx]. cbn [snd]. unfold put_org. cbn [org_id]. rewrite Hid. destruct name as [n|].
    + eapply (Indexed_update (NRoot ROrganizations) org_iks s id (ROrg prev) _ [Some (IName, n)] [Some (IName, org_name prev)] []);
        try exact Hc; auto.
      * cbn. now rewrite Hid.
      * reflexivity.
      * intros [|[|i]] [|[|j]] x; cbn; congruence.
      * intro x. cbn. tauto.
      * intro x. cbn. tauto.
    + eapply (Indexed_put (NRoot ROrganizations) org_iks s id (ROrg prev)); auto; cbn; try rewrite Hid; reflexivity.
  - unfold org_add_member. destruct (org_by_id id s) as [o|] eqn:Hb; [|exact Hx]. destruct (existsb _ _); [exact Hx|].
    pose proof (add_organization_frame accP accP_data member id r s) as H3. destruct (add_organization member id r s) as [[?|?] s3]; [|exact Hx].
    now apply (org_put_ok s s3 id o).
  - unfold org_remove_member. destruct (org_by_id id s) as [o|] eqn:Hb; [|exact Hx]. destruct (negb _); [exact Hx|].
    pose proof (remove_organization_frame accP accP_data member id s) as H3. destruct (remove_organization member id s) as [[?|?] s3]; [|exact Hx].
    now apply (org_put_ok s s3 id o).
  - unfold org_change_role. destruct (org_by_id id s) as [o|] eqn:Hb; [|exact Hx]. destruct (set_role _ _ _); [|exact Hx].
    pose proof (change_role_frame accP accP_data member id r s) as H3. destruct (change_organization_role member id r s) as [[?|?] s3]; [|exact Hx].
    now apply (org_put_ok s s3 id o).
  - unfold org_delete. destruct (org_by_id id s) as [prev|] eqn:Hb; [|exact Hx].
    pose proof (org_by_id_ok _ _ _ Hx Hb) as Hid. apply org_by_id_spec in Hb. cbn [snd].
    apply (Indexed_delete (NRoot ROrganizations) org_iks s id (ROrg prev) [Some (IName, org_name prev)]); auto. cbn. now rewrite Hid.
Qed.

(** ** Teams *)
Lemma team_by_id_spec o id s t : team_by_id o id s = Ok t <-> kg (KData (NTeams o) id) s = Some (VRec (RTeam t)).
Proof.
  unfold team_by_id, kg. change (make_data_value_key (teams_ns o) id) with (render (KData (NTeams o) id)).
  destruct (kget _ s) as [[| |[]]|]; split; congruence.
Qed.
Lemma team_by_id_ok o id s e : TeamsOk o s -> team_by_id o id s = Ok e -> tm_id e = id.
Proof.
  intros Hx H. apply team_by_id_spec in H. destruct (ix_data _ _ _ Hx _ _ H) as (r & ks & [= <-] & Hk & _).
  cbn in Hk. now injection Hk as ->.
Qed.
Lemma md_step_teams snake o op s : wf_op op = true -> TeamsOk o s -> TeamsOk o (md_step snake op s).
Proof.
  intros W Hx. destruct op; try foreign.
  - other_p o0 o. cbn [md_step]. unfold team_create. destruct (check_insert _ _) eqn:Hc; [|exact Hx].
    change (make_id_seq_key (teams_ns o)) with (render (KSeq (NTeams o))).
    destruct (next_seq (render (KSeq (NTeams o))) s) as [[id|e] s1] eqn:En; [|exact Hx]. cbn [snd].
    now apply (Indexed_create (NTeams o) team_iks s id (RTeam (mkTeam id o name)) [Some (IName, name)]).
  - other_p o0 o. cbn [md_step]. unfold team_update. destruct (team_by_id o id s) as [prev|] eqn:Hb; [|exact Hx].
    pose proof (team_by_id_ok _ _ _ _ Hx Hb) as Hid. apply team_by_id_spec in Hb. cbv zeta. rewrite Hid.
    destruct (check_update _ _ _) eqn:Hc; [|exact Hx]. cbn [snd]. destruct name as [n|].
    + eapply (Indexed_update (NTeams o) team_iks s id (RTeam prev) _ [Some (IName, n)] [Some (IName, tm_name prev)] []);
        try exact Hc; auto.
      * cbn. now rewrite Hid.
      * reflexivity.
      * intros [|[|i]] [|[|j]] x; cbn; congruence.
      * intro x. cbn. tauto.
      * intro x. cbn. tauto.
    + eapply (Indexed_put (NTeams o) team_iks s id (RTeam prev)); auto; cbn; try rewrite Hid; reflexivity.
  - other_p o0 o. cbn [md_step]. unfold team_delete. destruct (team_by_id o id s) as [prev|] eqn:Hb; [|exact Hx].
    pose proof (team_by_id_ok _ _ _ _ Hx Hb) as Hid. apply team_by_id_spec in Hb. cbn [snd].
    apply (Indexed_delete (NTeams o) team_iks s id (RTeam prev) [Some (IName, tm_name prev)]); auto. cbn. now rewrite Hid.
Qed.

(** ** Projects *)
(** Calls that do not give a project the same string as name and token. *)
Definition name_token_differ (o : MdOp) : Prop :=
  match o with
  | OProjectCreate _ n t _ => n <> t
  | OProjectUpdate _ (Some n) (Some t) => n <> t
  | _ => True
  end.
Lemma project_by_id_spec id s o : project_by_id id s = Ok o <-> kg (KData (NRoot RProjects) id) s = Some (VRec (RProject o)).
Proof.
  unfold project_by_id, kg. change (make_data_value_key "projects" id) with (render (KData (NRoot RProjects) id)).
  destruct (kget _ s) as [[| |[]]|]; split; congruence.
Qed.
Lemma project_by_id_ok id s e : ProjectsOk s -> project_by_id id s = Ok e -> pr_id e = id /\ pr_name e <> pr_token e.
Proof.
  intros Hx H. apply project_by_id_spec in H. destruct (ix_data _ _ _ Hx _ _ H) as (r & ks & [= <-] & Hk & _).
  cbn in Hk. destruct (string_dec _ _); [discriminate|]. now injection Hk as ->.
Qed.
Lemma project_iks_eq p : pr_name p <> pr_token p ->
  project_iks (RProject p) = Some (pr_id p, [Some (IName, pr_name p); Some (IName, pr_token p)]).
Proof. intro N. cbn. now destruct (string_dec _ _). Qed.
Lemma project_update_ok id name token s : ProjectsOk s -> name_token_differ (OProjectUpdate id name token) ->
  ProjectsOk (snd (project_update id name token s)).
Proof.
  intros Hx Hd. unfold project_update. destruct (project_by_id id s) as [prev|] eqn:Hb; [|exact Hx].
  pose proof (project_by_id_ok _ _ _ Hx Hb) as [Hid Hnt]. apply project_by_id_spec in Hb. cbv zeta.
  set (ksm := (match name with Some n => [Some (IName, n)] | None => [] end
           ++ match token with Some x => [Some (IName, x)] | None => [] end)%list).
  set (pkm := (match name with Some _ => [Some (IName, pr_name prev)] | None => [] end
           ++ match token with Some _ => [Some (IName, pr_token prev)] | None => [] end)%list).
  set (kept := (match name with Some _ => [] | None => [Some (IName, pr_name prev)] end
           ++ match token with Some _ => [] | None => [Some (IName, pr_token prev)] end)%list).
  replace (match name with Some n => [project_name_key n] | None => [] end ++ _)%list with (okeys (NRoot RProjects) ksm)
    by (destruct name, token; reflexivity).
  replace (match name with Some _ => [project_name_key (pr_name prev)] | None => [] end ++ _)%list with (okeys (NRoot RProjects) pkm)
    by (unfold pkm; destruct name, token; reflexivity).
  destruct (check_update _ _ _) eqn:Hc; [|exact Hx]. cbn [snd pr_id].
  pose proof Hc as Hc'. rewrite check_update_spec in Hc'.
  destruct (ix_data _ _ _ Hx id _ Hb) as (r0 & l0 & [= <-] & Hk0 & Hi0).
  rewrite (project_iks_eq prev Hnt) in Hk0. injection Hk0 as _ <-.
  assert (Tn : kg (kidx (NRoot RProjects) (IName, pr_name prev)) s = Some (VNum id)) by (apply Hi0; cbn; auto).
  assert (Tt : kg (kidx (NRoot RProjects) (IName, pr_token prev)) s = Some (VNum id)) by (apply Hi0; cbn; auto).
  assert (Nn : forall n, name = Some n -> n <> pr_token prev).
  { intros n -> ->. destruct (Hc' 0%nat _ _ eq_refl eq_refl) as [[= E]|E]; congruence. }
  assert (Nt : forall t, token = Some t -> t <> pr_name prev).
  { intros t Et ->. subst token. unfold ksm, pkm in Hc'. destruct name as [n|].
    - destruct (Hc' 1%nat _ _ eq_refl eq_refl) as [[= E]|E]; congruence.
    - destruct (Hc' 0%nat _ _ eq_refl eq_refl) as [[= E]|E]; congruence. }
  assert (Ne : (match name with Some n => n | None => pr_name prev end) <> (match token with Some t => t | None => pr_token prev end)).
  { destruct name as [n|], token as [t|]; auto. intro E. apply (Nt t eq_refl). auto. }
  eapply (Indexed_update (NRoot RProjects) project_iks s id (RProject prev) _ ksm pkm kept); try exact Hc; auto.
  - rewrite project_iks_eq by exact Hnt. now rewrite Hid.
  - rewrite project_iks_eq by exact Ne. cbn [pr_id]. rewrite Hid. reflexivity.
  - unfold ksm, pkm. now destruct name, token.
  - intros i j x. unfold ksm, pkm. destruct name as [n|], token as [t|];
    destruct i as [|[|[|i]]], j as [|[|[|j]]]; cbn; try congruence; intros [= <-] [= E]; exfalso.
    + now apply (Nn n eq_refl).
    + now apply (Nt t eq_refl).
  - intro x. unfold pkm, kept. rewrite !iks_in. destruct name, token; cbn; tauto.
  - intro x. unfold ksm, kept. rewrite !iks_in. destruct name, token; cbn; tauto.
  - intro x. unfold pkm, kept. rewrite !iks_in. destruct name, token; cbn; intuition congruence.
Qed.
Lemma md_step_projects snake o s : wf_op o = true -> name_token_differ o -> ProjectsOk s -> ProjectsOk (md_step snake o s).
Proof.
  intros W D Hx. destruct o; try foreign; cbn [md_step].
  - unfold project_create. destruct (check_insert _ _) eqn:Hc; [|exact Hx].
    change (make_id_seq_key "projects") with (render (KSeq (NRoot RProjects))).
    destruct (next_seq (render (KSeq (NRoot RProjects))) s) as [[id|e] s1] eqn:En; [|exact Hx]. cbn [snd].
    apply (Indexed_create (NRoot RProjects) project_iks s id (RProject (mkProject id org name token secs 0)) [Some (IName, name); Some (IName, token)]); auto.
    now apply project_iks_eq.
  - now apply project_update_ok.
  - unfold project_count_event. destruct (project_by_id id s) as [prev|] eqn:Hb; [|exact Hx].
    pose proof (project_by_id_ok _ _ _ Hx Hb) as [Hid Hnt]. apply project_by_id_spec in Hb. cbn [snd].
    eapply (Indexed_put (NRoot RProjects) project_iks s id (RProject prev)); auto.
    + rewrite project_iks_eq by exact Hnt. now rewrite Hid.
    + rewrite project_iks_eq by exact Hnt. cbn [pr_id]. rewrite Hid. reflexivity.
    + reflexivity.
  - unfold project_delete. destruct (project_by_id id s) as [prev|] eqn:Hb; [|exact Hx].
    pose proof (project_by_id_ok _ _ _ Hx Hb) as [Hid Hnt]. apply project_by_id_spec in Hb. cbn [snd].
    apply (Indexed_delete (NRoot RProjects) project_iks s id (RProject prev) [Some (IName, pr_name prev); Some (IName, pr_token prev)]); auto.
    rewrite project_iks_eq by exact Hnt. now rewrite Hid.
Qed.
