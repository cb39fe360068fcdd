(** What each metadata call may write: everything else in the store is left alone. *)
From Coq Require Import List NArith ZArith String Ascii Bool.
From Verif Require Import AMap Kv KvKeys KvKeysFacts KvFacts Md MdOps.
Import ListNotations.
Local Open Scope string_scope.

#[global] Arguments make_index_key : simpl never.
#[global] Arguments make_data_value_key : simpl never.
#[global] Arguments make_id_seq_key : simpl never.
#[global] Arguments make_key_key : simpl never.
#[global] Arguments make_value_key : simpl never.
#[global] Arguments events_ns : simpl never.
#[global] Arguments custom_ns : simpl never.
#[global] Arguments teams_ns : simpl never.
#[global] Arguments prop_ns : simpl never.
#[global] Arguments project_ns : simpl never.
#[global] Arguments anon_key : simpl never.
#[global] Arguments real_key : simpl never.
#[global] Arguments group_name_key : simpl never.
#[global] Arguments group_seq_key : simpl never.
#[global] Arguments session_key : simpl never.

Definition kg (k : Key) (s : Store) : option (Val Rec) := kget (render k) s.

Definition key_dec : forall a b : Key, {a = b} + {a <> b}.
Proof. repeat decide equality. Defined.
Definition ns_dec : forall a b : Ns, {a = b} + {a <> b}.
Proof. repeat decide equality. Defined.

Lemma kg_put_eq k v s : kg k (kput (render k) v s) = Some v.
Proof. apply kget_kput_eq. Qed.
Lemma kg_put_ne k k' v s : wf_key k = true -> wf_key k' = true -> k <> k' ->
  kg k (kput (render k') v s) = kg k s.
Proof. intros W W' Hn. apply kget_kput_ne. intro E. apply Hn. now apply render_inj. Qed.
Lemma kg_del_eq k s : kg k (kdel (render k) s) = None.
Proof. apply kget_kdel_eq. Qed.
Lemma kg_del_ne k k' s : wf_key k = true -> wf_key k' = true -> k <> k' ->
  kg k (kdel (render k') s) = kg k s.
Proof. intros W W' Hn. apply kget_kdel_ne. intro E. apply Hn. now apply render_inj. Qed.

Definition hits (P : Key -> Prop) (x : string) : Prop :=
  exists k, x = render k /\ wf_key k = true /\ P k.
Definition ohits (P : Key -> Prop) (x : option string) : Prop :=
  match x with Some y => hits P y | None => True end.
(** [only P s s']: from [s] to [s'] nothing changed outside [P]. *)
Definition only (P : Key -> Prop) (s s' : Store) : Prop :=
  forall x, ~ hits P x -> kget x s' = kget x s.

Lemma only_kg P s s' k : only P s s' -> wf_key k = true -> ~ P k -> kg k s' = kg k s.
Proof.
  intros O W N. apply O. intros (k' & E & W' & P'). apply N. now rewrite (render_inj k k' W W' E).
Qed.
Lemma only_refl P s : only P s s. Proof. intros k _. reflexivity. Qed.
Lemma only_trans P a b c : only P a b -> only P b c -> only P a c.
Proof. intros H1 H2 k N. rewrite (H2 k N). now apply H1. Qed.
Lemma only_put P x v s s' : hits P x -> only P s s' -> only P s (kput x v s').
Proof. intros Hx H y N. rewrite kget_kput_ne; auto. intros ->. now apply N. Qed.
Lemma only_del P x s s' : hits P x -> only P s s' -> only P s (kdel x s').
Proof. intros Hx H y N. rewrite kget_kdel_ne; auto. intros ->. now apply N. Qed.
Lemma flat_hits P ks : Forall (ohits P) ks -> Forall (hits P) (flat ks).
Proof. induction 1 as [|[x|] r H F IH]; cbn; [constructor|constructor; auto|exact IH]. Qed.
Lemma only_insert P ks id s s' : Forall (ohits P) ks -> only P s s' -> only P s (insert_index s' ks id).
Proof.
  intros F H. apply flat_hits in F. unfold insert_index.
  revert s' H. induction F as [|x r Hx F IH]; cbn; intros s' H; [exact H|].
  apply IH. now apply only_put.
Qed.
Lemma only_delete P ks s s' : Forall (ohits P) ks -> only P s s' -> only P s (delete_index s' ks).
Proof.
  intros F H. apply flat_hits in F. unfold delete_index.
  revert s' H. induction F as [|x r Hx F IH]; cbn; intros s' H; [exact H|].
  apply IH. now apply only_del.
Qed.
Lemma only_update P ks pk id s s' : Forall (ohits P) ks -> Forall (ohits P) pk -> only P s s' ->
  only P s (update_index s' ks pk id).
Proof.
  unfold update_index. intros F. revert pk s'. induction F as [|x r Hx F IH]; cbn; intros pk s' G H; [exact H|].
  destruct pk as [|y q]; cbn; [exact H|]. inversion G; subst. apply IH; [assumption|].
  unfold update_one; cbn. destruct (okey_eqb x y), x, y; cbn in *; auto using only_put, only_del.
Qed.
Lemma only_next P first x s s' : hits P x -> only P s s' -> only P s (snd (next_from first x s')).
Proof.
  intros Hx H. unfold next_from. destruct (kget x s') as [v|]; [destruct (read_num v)|]; cbn;
  auto using only_put.
Qed.

(** ** The families of keys *)
Definition in_ns (n : Ns) (k : Key) : Prop :=
  match k with KData m _ | KIdx m _ _ | KSeq m => m = n | _ => False end.
(** The same without the sequence. *)
Definition in_rec (n : Ns) (k : Key) : Prop :=
  match k with KData m _ | KIdx m _ _ => m = n | _ => False end.
Definition in_dict (p : N) (t d : string) (k : Key) : Prop :=
  match k with
  | KDictKey q t' d' _ | KDictVal q t' d' _ | KDictSeq q t' d' => q = p /\ t' = t /\ d' = d
  | _ => False
  end.
Definition in_group (p g : N) (k : Key) : Prop :=
  match k with
  | KGroupSeq q h | KAnon q h _ | KReal q h _ => q = p /\ h = g
  | _ => False
  end.
Definition in_group_types (p : N) (k : Key) : Prop :=
  match k with KGroupsSeq q | KGroupName q _ => q = p | _ => False end.
Definition kind_ns (p : N) (k : PropKind) : Ns :=
  NProj p (match k with KEvent => PEventProps | KGroup g => PGroupProps g end).
Definition in_props (p : N) (kd : PropKind) (k : Key) : Prop :=
  in_ns (kind_ns p kd) k \/
  match k with KGlobalCol q _ | KOrderSeq q _ => q = p | _ => False end.
Definition in_sessions (p : N) (k : Key) : Prop :=
  match k with KSession q _ => q = p | _ => False end.

Definition touches (o : MdOp) (k : Key) : Prop :=
  match o with
  | OEventCreate p _ _ _ | OEventGetOrCreate p _ _ _ =>
    in_ns (NProj p PEvents) k \/ in_dict p TABLE_EVENTS COLUMN_EVENT k
  | OEventUpdate p _ _ _ | OEventAttach p _ _ | OEventDelete p _ => in_rec (NProj p PEvents) k
  | OEventRecord p => k = KRecSeq p
  | ODictEncode p t d _ | ODictCreateKey p t d _ _ => in_dict p t d k
  | OCustomCreate p _ _ => in_ns (NProj p PCustom) k
  | OCustomUpdate p _ _ _ | OCustomDelete p _ => in_rec (NProj p PCustom) k
  | OAccountCreate _ _ => in_ns (NRoot RAccounts) k
  | OAccountUpdate _ _ _ | OAccountDelete _ => in_rec (NRoot RAccounts) k
  | OOrgCreate _ _ => in_ns (NRoot ROrganizations) k \/ (exists id, k = KData (NRoot RAccounts) id)
  | OOrgAdd _ _ _ | OOrgRemove _ _ | OOrgRole _ _ _ =>
    in_rec (NRoot ROrganizations) k \/ (exists id, k = KData (NRoot RAccounts) id)
  | OOrgUpdate _ _ | OOrgDelete _ => in_rec (NRoot ROrganizations) k
  | OProjectCreate _ _ _ _ => in_ns (NRoot RProjects) k
  | OProjectUpdate _ _ _ | OProjectCount _ | OProjectDelete _ => in_rec (NRoot RProjects) k
  | OTeamCreate o _ => in_ns (NTeams o) k
  | OTeamUpdate o _ _ | OTeamDelete o _ => in_rec (NTeams o) k
  | OAnon p g _ | OMerge p g _ _ _ | OGroupGet p g _ _ | OGroupSet p g _ _ => in_group p g k
  | OGroupType p _ => in_group_types p k
  | OGroupRecord p g => k = KGroupRecSeq p g
  | OSession p _ _ | OSessionClean p _ => in_sessions p k
  | OPropCreate p kd _ _ _ _ | OPropGetOrCreate p kd _ _ _ _ => in_props p kd k
  | OPropUpdate p kd _ _ _ _ | OPropDelete p kd _ => in_rec (kind_ns p kd) k
  end.

(** ** The written keys are rendered keys of the family *)
Section Hits.
Variable P : Key -> Prop.
Ltac h k := let X := fresh in intro X; exists k; split; [reflexivity|split; [reflexivity|exact X]].
Lemma hits_ns_data n id : P (KData n id) -> hits P (make_data_value_key (ns_str n) id).
Proof. h (KData n id). Qed.
Lemma hits_ns_idx n i x : P (KIdx n i x) -> hits P (make_index_key (ns_str n) (idx_str i) x).
Proof. h (KIdx n i x). Qed.
Lemma hits_ns_seq n : P (KSeq n) -> hits P (make_id_seq_key (ns_str n)).
Proof. h (KSeq n). Qed.
Lemma hits_order p t : P (KOrderSeq p (short_name t)) ->
  hits P (make_id_seq_key (project_ns p ("properties/order/" ++ short_name t))).
Proof. intro H. exists (KOrderSeq p (short_name t)). split; [reflexivity|split; [|exact H]]. now destruct t as [[]|[]]. Qed.
Lemma hits_col p c : P (KGlobalCol p c) -> hits P (make_index_key (project_ns p "global") "column_name" c).
Proof. h (KGlobalCol p c). Qed.
Lemma hits_dkey p t d n : no_slash t && no_slash d = true -> P (KDictKey p t d n) -> hits P (make_key_key p (tbl_dict t d) n).
Proof. intros W H. exists (KDictKey p t d n). repeat split; auto. Qed.
Lemma hits_dval p t d v : no_slash t && no_slash d = true -> P (KDictVal p t d v) -> hits P (make_value_key p (tbl_dict t d) v).
Proof. intros W H. exists (KDictVal p t d v). repeat split; auto. Qed.
Lemma hits_dseq p t d : no_slash t && no_slash d = true -> P (KDictSeq p t d) ->
  hits P (make_id_seq_key (project_ns p (dict_ns (tbl_dict t d)))).
Proof. intros W H. exists (KDictSeq p t d). repeat split; auto. Qed.
End Hits.

Lemma prop_ns_kind p k : prop_ns p k = ns_str (kind_ns p k).
Proof. destruct k; reflexivity. Qed.

Definition only_snd {X} (P : Key -> Prop) (s : Store) (r : X * Store) : Prop := only P s (snd r).

Ltac hit :=
  match goal with
  | |- hits _ (make_data_value_key (events_ns ?p) ?id) => apply (hits_ns_data _ (NProj p PEvents) id)
  | |- hits _ (make_index_key (events_ns ?p) "name" ?x) => apply (hits_ns_idx _ (NProj p PEvents) IName x)
  | |- hits _ (make_index_key (events_ns ?p) "display_name" ?x) => apply (hits_ns_idx _ (NProj p PEvents) IDisplayName x)
  | |- hits _ (make_id_seq_key (events_ns ?p)) => apply (hits_ns_seq _ (NProj p PEvents))
  | |- hits _ (make_data_value_key (custom_ns ?p) ?id) => apply (hits_ns_data _ (NProj p PCustom) id)
  | |- hits _ (make_index_key (custom_ns ?p) "name" ?x) => apply (hits_ns_idx _ (NProj p PCustom) IName x)
  | |- hits _ (make_id_seq_key (custom_ns ?p)) => apply (hits_ns_seq _ (NProj p PCustom))
  | |- hits _ (make_data_value_key "accounts" ?id) => apply (hits_ns_data _ (NRoot RAccounts) id)
  | |- hits _ (make_index_key "accounts" "email" ?x) => apply (hits_ns_idx _ (NRoot RAccounts) IEmail x)
  | |- hits _ (make_id_seq_key "accounts") => apply (hits_ns_seq _ (NRoot RAccounts))
  | |- hits _ (make_data_value_key "organizations" ?id) => apply (hits_ns_data _ (NRoot ROrganizations) id)
  | |- hits _ (make_index_key "organizations" "name" ?x) => apply (hits_ns_idx _ (NRoot ROrganizations) IName x)
  | |- hits _ (make_id_seq_key "organizations") => apply (hits_ns_seq _ (NRoot ROrganizations))
  | |- hits _ (make_data_value_key "projects" ?id) => apply (hits_ns_data _ (NRoot RProjects) id)
  | |- hits _ (make_index_key "projects" "name" ?x) => apply (hits_ns_idx _ (NRoot RProjects) IName x)
  | |- hits _ (make_id_seq_key "projects") => apply (hits_ns_seq _ (NRoot RProjects))
  | |- hits _ (make_data_value_key (teams_ns ?o) ?id) => apply (hits_ns_data _ (NTeams o) id)
  | |- hits _ (make_index_key (teams_ns ?o) "name" ?x) => apply (hits_ns_idx _ (NTeams o) IName x)
  | |- hits _ (make_id_seq_key (teams_ns ?o)) => apply (hits_ns_seq _ (NTeams o))
  | |- hits _ (make_data_value_key (prop_ns ?p ?k) ?id) => rewrite (prop_ns_kind p k); apply hits_ns_data
  | |- hits _ (make_index_key (prop_ns ?p ?k) "name" ?x) => rewrite (prop_ns_kind p k); apply (hits_ns_idx _ _ IName x)
  | |- hits _ (make_index_key (prop_ns ?p ?k) "display_name" ?x) => rewrite (prop_ns_kind p k); apply (hits_ns_idx _ _ IDisplayName x)
  | |- hits _ (make_id_seq_key (prop_ns ?p ?k)) => rewrite (prop_ns_kind p k); apply hits_ns_seq
  | |- hits _ (make_id_seq_key (project_ns _ ("properties/order/" ++ _))) => apply hits_order
  | |- hits _ (make_index_key (project_ns _ "global") "column_name" _) => apply hits_col
  | |- hits _ (make_key_key _ (tbl_dict _ _) _) => apply hits_dkey
  | |- hits _ (make_value_key _ (tbl_dict _ _) _) => apply hits_dval
  | |- hits _ (make_id_seq_key (project_ns _ (dict_ns (tbl_dict _ _)))) => apply hits_dseq
  | |- hits _ (anon_key ?p ?g ?k) => exists (KAnon p g k)
  | |- hits _ (real_key ?p ?g ?k) => exists (KReal p g k)
  | |- hits _ (group_name_key ?p ?k) => exists (KGroupName p k)
  | |- hits _ (group_seq_key ?p ?g) => exists (KGroupSeq p g)
  | |- hits _ (make_id_seq_key (project_ns ?p "groups")) => exists (KGroupsSeq p)
  | |- hits _ (make_id_seq_key (project_ns ?p ("groups/" ++ dec ?g ++ "/records/"))) => exists (KGroupRecSeq p g)
  | |- hits _ (make_id_seq_key (project_ns ?p "events/records")) => exists (KRecSeq p)
  | |- hits _ (session_key ?p ?u) => exists (KSession p u)
  end.

Lemma next_only P first x (s : Store) r s' : hits P x -> next_from first x s = (r, s') -> only P s s'.
Proof. intros H E. replace s' with (snd (next_from first x s)) by now rewrite E. apply only_next; [exact H|apply only_refl]. Qed.
Lemma next_seq_only P x (s : Store) r s' : next_seq x s = (r, s') -> hits P x -> only P s s'.
Proof. intros E H. eapply next_only; eauto. Qed.
Lemma next_zero_only P x (s : Store) r s' : next_zero_seq x s = (r, s') -> hits P x -> only P s s'.
Proof. intros E H. eapply next_only; eauto. Qed.

Lemma hit_okey (P : Key -> Prop) (ns : Ns) i (f : string -> string) d :
  (forall x, f x = render (KIdx ns i x)) -> (forall x, P (KIdx ns i x)) -> ohits P (option_map f d).
Proof. intros F H. destruct d as [x|]; cbn; [|exact Logic.I]. rewrite F. now exists (KIdx ns i x). Qed.

Section Frames.
Variable P : Key -> Prop.

Lemma dict_frame p t d v s : no_slash t && no_slash d = true -> (forall k, in_dict p t d k -> P k) ->
  only P s (snd (dict_get_or_create p t d v s)).
Proof.
  intros W H. unfold dict_get_or_create.
  destruct (kget _ s) as [x|]; [destruct (read_num x); apply only_refl|].
  destruct (next_seq _ s) as [[id|e] s1] eqn:E; [|apply only_refl]. cbn [snd].
  apply only_put; [hit; auto; apply H; cbn; auto|].
  apply only_put; [hit; auto; apply H; cbn; auto|].
  eapply next_seq_only; [exact E|]. hit; auto. apply H; cbn; auto.
Qed.

Section E.
Variable p : N.
Hypothesis HE : forall k, in_rec (NProj p PEvents) k -> P k.
Lemma event_keys_hit name d : Forall (ohits P) (event_keys p name d).
Proof.
  repeat constructor; cbn.
  - hit. now apply HE.
  - apply (hit_okey _ (NProj p PEvents) IDisplayName); [reflexivity|]. intro x. now apply HE.
Qed.
Lemma event_create_frame name d props s : P (KSeq (NProj p PEvents)) -> (forall k, in_dict p TABLE_EVENTS COLUMN_EVENT k -> P k) ->
  only P s (snd (event_create p name d props s)).
Proof.
  intros HS HD. unfold event_create. destruct (check_insert _ _); [|apply only_refl].
  destruct (next_seq _ s) as [[id|e] s1] eqn:E; [|apply only_refl].
  cbv zeta. set (s3 := insert_index _ _ _).
  pose proof (dict_frame p TABLE_EVENTS COLUMN_EVENT name s3 eq_refl HD) as DF.
  destruct (dict_get_or_create p TABLE_EVENTS COLUMN_EVENT name s3) as [[?|?] s4];
  cbn [snd] in *; apply (only_trans _ _ s3); auto;
  unfold s3; (apply only_insert; [apply event_keys_hit|]); (apply only_put; [hit; now apply HE|]);
  (eapply next_seq_only; [exact E|]); hit; exact HS.
Qed.
Lemma event_get_or_create_frame name d props s : P (KSeq (NProj p PEvents)) -> (forall k, in_dict p TABLE_EVENTS COLUMN_EVENT k -> P k) ->
  only P s (snd (event_get_or_create p name d props s)).
Proof.
  intros HS HD. unfold event_get_or_create. destruct (event_by_name p name s) as [|[]]; try apply only_refl.
  now apply event_create_frame.
Qed.
Lemma event_update_frame id name d s : only P s (snd (event_update p id name d s)).
Proof.
  unfold event_update. destruct (event_by_id p id s) as [prev|]; [|apply only_refl].
  destruct (check_update _ _ _); [|apply only_refl]. cbn [snd].
  apply only_update.
  - apply Forall_app. destruct name, d as [o|]; repeat constructor; cbn; try (hit; now apply HE);
    (apply (hit_okey _ (NProj p PEvents) IDisplayName); [reflexivity|]; intro; now apply HE).
  - apply Forall_app. destruct name, d as [o|]; repeat constructor; cbn; try (hit; now apply HE);
    (apply (hit_okey _ (NProj p PEvents) IDisplayName); [reflexivity|]; intro; now apply HE).
  - apply only_put; [hit; now apply HE|apply only_refl].
Qed.
Lemma event_attach_frame id props s : only P s (snd (event_attach p id props s)).
Proof.
  unfold event_attach. destruct (event_by_id p id s) as [prev|]; [|apply only_refl]. cbn [snd].
  apply only_put; [hit; now apply HE|apply only_refl].
Qed.
Lemma event_delete_frame id s : only P s (snd (event_delete p id s)).
Proof.
  unfold event_delete. destruct (event_by_id p id s) as [prev|]; [|apply only_refl]. cbn [snd].
  apply only_delete; [apply event_keys_hit|]. apply only_del; [hit; now apply HE|apply only_refl].
Qed.
End E.

Section C.
Variable p : N.
Hypothesis HC : forall k, in_rec (NProj p PCustom) k -> P k.
Lemma custom_keys_hit name : Forall (ohits P) (custom_keys p name).
Proof. repeat constructor; cbn. hit. now apply HC. Qed.
Lemma custom_create_frame name evs s : P (KSeq (NProj p PCustom)) -> only P s (snd (custom_create p name evs s)).
Proof.
  intro HS. unfold custom_create. destruct evs as [|e0 er]; [apply only_refl|].
  destruct (validate_events _ _ _ _); [|apply only_refl].
  destruct (check_insert _ _); [|apply only_refl].
  destruct (next_seq _ s) as [[id|e] s1] eqn:E; [|apply only_refl]. cbn [snd].
  apply only_insert; [apply custom_keys_hit|]. apply only_put; [hit; now apply HC|].
  eapply next_seq_only; [exact E|]. hit; exact HS.
Qed.
Lemma custom_update_frame id name evs s : only P s (snd (custom_update p id name evs s)).
Proof.
  unfold custom_update. destruct (custom_by_id p id s) as [prev|]; [|apply only_refl].
  destruct (check_update _ _ _); [|apply only_refl].
  assert (D : forall c, only P s (update_index (kput (make_data_value_key (custom_ns p) (ce_id prev)) (VRec (RCustomEvent c)) s)
     (match name with Some n => custom_keys p n | None => [] end)
     (match name with Some _ => custom_keys p (ce_name prev) | None => [] end) id)).
  { intro c. apply only_update.
    - destruct name; [apply custom_keys_hit|constructor].
    - destruct name; [apply custom_keys_hit|constructor].
    - apply only_put; [hit; now apply HC|apply only_refl]. }
  destruct evs as [[|e0 er]|]; cbn [snd]; [apply only_refl| |apply D].
  destruct (validate_events _ _ _ _); cbn [snd]; [apply D|apply only_refl].
Qed.
Lemma custom_delete_frame id s : only P s (snd (custom_delete p id s)).
Proof.
  unfold custom_delete. destruct (custom_by_id p id s) as [prev|]; [|apply only_refl]. cbn [snd].
  apply only_delete; [apply custom_keys_hit|]. apply only_del; [hit; now apply HC|apply only_refl].
Qed.
End C.

Section A.
Hypothesis HA : forall k, in_rec (NRoot RAccounts) k -> P k.
Lemma account_create_frame email orgs s : P (KSeq (NRoot RAccounts)) -> only P s (snd (account_create email orgs s)).
Proof.
  intro HS. unfold account_create. destruct (check_insert _ _); [|apply only_refl].
  destruct (next_seq _ s) as [[id|e] s1] eqn:E; [|apply only_refl]. cbn [snd].
  apply only_insert; [repeat constructor; cbn; hit; now apply HA|]. apply only_put; [hit; now apply HA|].
  eapply next_seq_only; [exact E|]. hit; exact HS.
Qed.
Lemma account_update_frame id email orgs s : only P s (snd (account_update id email orgs s)).
Proof.
  unfold account_update. destruct (account_by_id id s) as [prev|]; [|apply only_refl].
  destruct (check_update _ _ _); [|apply only_refl]. cbn [snd].
  apply only_update; [destruct email; repeat constructor; cbn; hit; now apply HA ..|].
  apply only_put; [hit; now apply HA|apply only_refl].
Qed.
Lemma account_delete_frame id s : only P s (snd (account_delete id s)).
Proof.
  unfold account_delete. destruct (account_by_id id s) as [prev|]; [|apply only_refl]. cbn [snd].
  apply only_delete; [repeat constructor; cbn; hit; now apply HA|]. apply only_del; [hit; now apply HA|apply only_refl].
Qed.
End A.
Section O.
Hypothesis HAD : forall id, P (KData (NRoot RAccounts) id).
Lemma put_account_frame a s s' : only P s s' -> only P s (put_account a s').
Proof. intro H. apply only_put; [hit; apply HAD|exact H]. Qed.
Lemma add_organization_frame m o r s : only P s (snd (add_organization m o r s)).
Proof.
  unfold add_organization. destruct (account_by_id m s); [|apply only_refl].
  destruct (existsb _ _); [apply only_refl|]. apply put_account_frame, only_refl.
Qed.
Lemma remove_organization_frame m o s : only P s (snd (remove_organization m o s)).
Proof.
  unfold remove_organization. destruct (account_by_id m s); [|apply only_refl].
  destruct (forallb _ _); [apply only_refl|]. apply put_account_frame, only_refl.
Qed.
Lemma change_role_frame m o r s : only P s (snd (change_organization_role m o r s)).
Proof.
  unfold change_organization_role. destruct (account_by_id m s); [|apply only_refl].
  destruct (set_role _ _ _); [|apply only_refl]. apply put_account_frame, only_refl.
Qed.
End O.
Section OO.
Hypothesis HO : forall k, in_rec (NRoot ROrganizations) k -> P k.
Lemma put_org_frame o s s' : only P s s' -> only P s (put_org o s').
Proof. intro H. apply only_put; [hit; now apply HO|exact H]. Qed.
Lemma org_update_frame id name s : only P s (snd (org_update id name s)).
Proof.
  unfold org_update. destruct (org_by_id id s) as [prev|]; [|apply only_refl].
  destruct (check_update _ _ _); [|apply only_refl]. cbn [snd].
  apply only_update; [destruct name; repeat constructor; cbn; hit; now apply HO ..|].
  apply put_org_frame, only_refl.
Qed.
Lemma org_delete_frame id s : only P s (snd (org_delete id s)).
Proof.
  unfold org_delete. destruct (org_by_id id s) as [prev|]; [|apply only_refl]. cbn [snd].
  apply only_delete; [repeat constructor; cbn; hit; now apply HO|]. apply only_del; [hit; now apply HO|apply only_refl].
Qed.
Hypothesis HAD : forall id, P (KData (NRoot RAccounts) id).
Lemma org_create_frame c name s : P (KSeq (NRoot ROrganizations)) -> only P s (snd (org_create c name s)).
Proof.
  intro HS. unfold org_create. destruct (check_insert _ _); [|apply only_refl].
  destruct (next_seq _ s) as [[id|e] s1] eqn:E; [|apply only_refl].
  cbv zeta. set (s2 := insert_index _ _ _).
  pose proof (add_organization_frame HAD c id OrgOwner s2) as AF.
  destruct (add_organization c id OrgOwner s2) as [[?|?] s3]; [|apply only_refl].
  cbn [snd] in *. apply (only_trans _ _ s2); [|exact AF]. unfold s2.
  apply only_insert; [repeat constructor; cbn; hit; now apply HO|]. apply put_org_frame.
  eapply next_seq_only; [exact E|]. hit; exact HS.
Qed.
Lemma org_add_frame id m r s : only P s (snd (org_add_member id m r s)).
Proof.
  unfold org_add_member. destruct (org_by_id id s) as [o|]; [|apply only_refl].
  destruct (existsb _ _); [apply only_refl|].
  pose proof (add_organization_frame HAD m id r s) as AF. destruct (add_organization m id r s) as [[?|?] s1]; [|apply only_refl].
  apply put_org_frame. exact AF.
Qed.
Lemma org_remove_frame id m s : only P s (snd (org_remove_member id m s)).
Proof.
  unfold org_remove_member. destruct (org_by_id id s) as [o|]; [|apply only_refl].
  destruct (negb _); [apply only_refl|].
  pose proof (remove_organization_frame HAD m id s) as AF. destruct (remove_organization m id s) as [[?|?] s1]; [|apply only_refl].
  apply put_org_frame. exact AF.
Qed.
Lemma org_role_frame id m r s : only P s (snd (org_change_role id m r s)).
Proof.
  unfold org_change_role. destruct (org_by_id id s) as [o|]; [|apply only_refl].
  destruct (set_role _ _ _); [|apply only_refl].
  pose proof (change_role_frame HAD m id r s) as AF. destruct (change_organization_role m id r s) as [[?|?] s1]; [|apply only_refl].
  apply put_org_frame. exact AF.
Qed.
End OO.
Section Pr.
Hypothesis HP : forall k, in_rec (NRoot RProjects) k -> P k.
Lemma project_create_frame org name token secs s : P (KSeq (NRoot RProjects)) -> only P s (snd (project_create org name token secs s)).
Proof.
  intro HS. unfold project_create. destruct (check_insert _ _); [|apply only_refl].
  destruct (next_seq _ s) as [[id|e] s1] eqn:E; [|apply only_refl]. cbn [snd].
  apply only_insert; [repeat constructor; cbn; hit; now apply HP|]. apply only_put; [hit; now apply HP|].
  eapply next_seq_only; [exact E|]. hit; exact HS.
Qed.
Lemma project_update_frame id name token s : only P s (snd (project_update id name token s)).
Proof.
  unfold project_update. destruct (project_by_id id s) as [prev|]; [|apply only_refl].
  destruct (check_update _ _ _); [|apply only_refl]. cbn [snd].
  apply only_update; [apply Forall_app; destruct name, token; repeat constructor; cbn; hit; now apply HP ..|].
  apply only_put; [hit; now apply HP|apply only_refl].
Qed.
Lemma project_count_frame id s : only P s (snd (project_count_event id s)).
Proof.
  unfold project_count_event. destruct (project_by_id id s) as [prev|]; [|apply only_refl]. cbn [snd].
  apply only_put; [hit; now apply HP|apply only_refl].
Qed.
Lemma project_delete_frame id s : only P s (snd (project_delete id s)).
Proof.
  unfold project_delete. destruct (project_by_id id s) as [prev|]; [|apply only_refl]. cbn [snd].
  apply only_delete; [repeat constructor; cbn; hit; now apply HP|]. apply only_del; [hit; now apply HP|apply only_refl].
Qed.
End Pr.
Section T.
Variable o : N.
Hypothesis HT : forall k, in_rec (NTeams o) k -> P k.
Lemma team_create_frame name s : P (KSeq (NTeams o)) -> only P s (snd (team_create o name s)).
Proof.
  intro HS. unfold team_create. destruct (check_insert _ _); [|apply only_refl].
  destruct (next_seq _ s) as [[id|e] s1] eqn:E; [|apply only_refl]. cbn [snd].
  apply only_insert; [repeat constructor; cbn; hit; now apply HT|]. apply only_put; [hit; now apply HT|].
  eapply next_seq_only; [exact E|]. hit; exact HS.
Qed.
Lemma team_update_frame id name s : only P s (snd (team_update o id name s)).
Proof.
  unfold team_update. destruct (team_by_id o id s) as [prev|]; [|apply only_refl].
  destruct (check_update _ _ _); [|apply only_refl]. cbn [snd].
  apply only_update; [destruct name; repeat constructor; cbn; hit; now apply HT ..|].
  apply only_put; [hit; now apply HT|apply only_refl].
Qed.
Lemma team_delete_frame id s : only P s (snd (team_delete o id s)).
Proof.
  unfold team_delete. destruct (team_by_id o id s) as [prev|]; [|apply only_refl]. cbn [snd].
  apply only_delete; [repeat constructor; cbn; hit; now apply HT|]. apply only_del; [hit; now apply HT|apply only_refl].
Qed.
End T.
Section G.
Variables p g : N.
Hypothesis HG : forall k, in_group p g k -> P k.
Ltac hitg := hit; (split; [reflexivity|split; [reflexivity|apply HG; cbn; auto]]).
Lemma anon_frame key s : only P s (snd (anon_get_or_create p g key s)).
Proof.
  unfold anon_get_or_create. destruct (kget _ s) as [v|]; [destruct (read_num v); apply only_refl|].
  destruct (next_seq _ s) as [[id|e] s1] eqn:E; [|apply only_refl]. cbn [snd].
  apply only_put; [hitg|]. eapply next_seq_only; [exact E|]. hitg.
Qed.
Lemma merge_frame a id vals s : only P s (snd (merge_with_anonymous p g a id vals s)).
Proof.
  unfold merge_with_anonymous. destruct (kget _ s); [apply only_refl|].
  pose proof (anon_frame a s) as AF. destruct (anon_get_or_create p g a s) as [[aid|e] s1]; cbn [snd] in *; [|exact AF].
  apply only_put; [hitg|]. apply only_put; [hitg|exact AF].
Qed.
Lemma group_get_frame key vals s : only P s (snd (group_get_or_create p g key vals s)).
Proof.
  unfold group_get_or_create. destruct (kget _ s); [apply only_refl|].
  destruct (next_seq _ s) as [[id|e] s1] eqn:E; [|apply only_refl]. cbn [snd].
  apply only_put; [hitg|]. eapply next_seq_only; [exact E|]. hitg.
Qed.
Lemma group_set_frame key vals s : only P s (snd (group_create_or_update p g key vals s)).
Proof.
  unfold group_create_or_update. destruct (kget _ s) as [v|].
  - destruct (read_group_values v); [|apply only_refl]. cbn [snd]. apply only_put; [hitg|apply only_refl].
  - destruct (next_seq _ s) as [[id|e] s1] eqn:E; [|apply only_refl]. cbn [snd].
    apply only_put; [hitg|]. eapply next_seq_only; [exact E|]. hitg.
Qed.
End G.
Lemma group_type_frame p name s : (forall k, in_group_types p k -> P k) -> only P s (snd (group_type_get_or_create p name s)).
Proof.
  intro H. unfold group_type_get_or_create. destruct (kget _ s) as [[| |[]]|]; try apply only_refl.
  destruct (next_zero_seq _ s) as [[id|e] s1] eqn:E; [|apply only_refl].
  destruct (_ <=? _)%N; [apply only_refl|]. cbn [snd]. apply only_put.
  - hit. split; [reflexivity|split; [reflexivity|now apply H]].
  - eapply next_zero_only; [exact E|]. hit. split; [reflexivity|split; [reflexivity|now apply H]].
Qed.
Lemma session_frame p u t s : (forall k, in_sessions p k -> P k) -> only P s (snd (session_set_time p u t s)).
Proof.
  intro H. unfold session_set_time. destruct (kget _ s) as [[| |[]]|]; try apply only_refl; cbn [snd];
  (apply only_put; [hit; split; [reflexivity|split; [reflexivity|now apply H]]|apply only_refl]).
Qed.
Lemma session_clean_frame p f s : (forall k, in_sessions p k -> P k) -> only P s (session_clean p f s).
Proof.
  intro H. unfold session_clean. generalize (list_prefix (make_data_key (project_ns p "sessions")) s) as l.
  assert (G : forall l s', only P s s' -> only P s (fold_left (fun s v => match v with
                        | VRec (RSession se) => if f se then kdel (session_key p (se_user se)) s else s
                        | _ => s
                        end) l s')).
  { induction l as [|v l IH]; cbn; intros s' Hs; [exact Hs|]. apply IH.
    destruct v as [| |[]]; try exact Hs. destruct (f s0); [|exact Hs].
    apply only_del; [|exact Hs]. hit. split; [reflexivity|split; [reflexivity|now apply H]]. }
  intro l. apply G, only_refl.
Qed.
Section Pp.
Variables (p : N) (kd : PropKind).
Hypothesis HN : forall k, in_rec (kind_ns p kd) k -> P k.
Lemma prop_keys_hit name d : Forall (ohits P) (prop_keys p kd name d).
Proof.
  repeat constructor; cbn.
  - hit. now apply HN.
  - apply (hit_okey _ (kind_ns p kd) IDisplayName); [intro; now rewrite prop_ns_kind|]. intro x. now apply HN.
Qed.
Lemma prop_update_frame id d t sys s : only P s (snd (prop_update p kd id d t sys s)).
Proof.
  unfold prop_update. destruct (prop_by_id p kd id s) as [prev|]; [|apply only_refl].
  destruct (check_update _ _ _); [|apply only_refl]. cbv zeta. destruct (negb _); [apply only_refl|]. cbn [snd].
  apply only_update.
  1,2: destruct d; repeat constructor;
    (apply (hit_okey _ (kind_ns p kd) IDisplayName); [intro; now rewrite prop_ns_kind|]; intro; now apply HN).
  apply only_put; [hit; now apply HN|apply only_refl].
Qed.
Lemma prop_delete_frame id s : only P s (snd (prop_delete p kd id s)).
Proof.
  unfold prop_delete. destruct (prop_by_id p kd id s) as [prev|]; [|apply only_refl]. cbn [snd].
  apply only_delete; [apply prop_keys_hit|]. apply only_del; [hit; now apply HN|apply only_refl].
Qed.
Hypothesis HP : forall k, in_props p kd k -> P k.
Lemma prop_create_frame snake name d t sys s : only P s (snd (prop_create snake p kd name d t sys s)).
Proof.
  unfold prop_create. destruct (check_insert _ _); [|apply only_refl].
  destruct (next_seq _ s) as [[id|e] s1] eqn:E; [|apply only_refl].
  destruct (next_zero_seq _ s1) as [[o|e] s2] eqn:E2; [|apply only_refl]. destruct (negb _); [apply only_refl|]. cbn [snd].
  apply only_insert.
  { apply Forall_app. split; [apply prop_keys_hit|]. repeat constructor; cbn. hit. apply HP. now right. }
  apply only_put; [hit; now apply HN|].
  apply (only_trans _ _ s1).
  - eapply next_seq_only; [exact E|]. hit. apply HP. now left.
  - eapply next_zero_only; [exact E2|]. hit. apply HP. now right.
Qed.
Lemma prop_get_or_create_frame snake name d t sys s : only P s (snd (prop_get_or_create snake p kd name d t sys s)).
Proof.
  unfold prop_get_or_create. destruct (prop_by_name p kd name s) as [|[]]; try apply only_refl. apply prop_create_frame.
Qed.
End Pp.
End Frames.

(** No call changes a key outside its family. *)
Theorem md_frame snake o s : wf_op o = true -> only (touches o) s (md_step snake o s).
Proof.
  intro W. destruct o; cbn [md_step]; try cbn [wf_op] in W.
  - apply event_create_frame; intros; cbn; auto. left; destruct k; cbn in *; tauto.
  - apply event_get_or_create_frame; intros; cbn; auto. left; destruct k; cbn in *; tauto.
  - apply event_update_frame; intros; cbn; auto.
  - apply event_attach_frame; intros; cbn; auto.
  - apply event_delete_frame; intros; cbn; auto.
  - unfold event_next_record. apply only_next; [hit; repeat split; reflexivity|apply only_refl].
  - apply dict_frame; auto.
  - unfold dict_create_key. apply only_put; [hit; cbn; auto|]. apply only_put; [hit; cbn; auto|apply only_refl].
  - apply custom_create_frame; [intros k Hk; destruct k; cbn in *; tauto|reflexivity].
  - apply custom_update_frame; auto.
  - apply custom_delete_frame; auto.
  - apply account_create_frame; [intros k Hk; destruct k; cbn in *; tauto|reflexivity].
  - apply account_update_frame; auto.
  - apply account_delete_frame; auto.
  - apply org_create_frame; cbn; eauto. intros k Hk; left; destruct k; cbn in *; tauto.
  - apply org_update_frame; cbn; eauto.
  - apply org_add_frame; cbn; eauto.
  - apply org_remove_frame; cbn; eauto.
  - apply org_role_frame; cbn; eauto.
  - apply org_delete_frame; cbn; eauto.
  - apply project_create_frame; [intros k Hk; destruct k; cbn in *; tauto|reflexivity].
  - apply project_update_frame; auto.
  - apply project_count_frame; auto.
  - apply project_delete_frame; auto.
  - apply team_create_frame; [intros k Hk; destruct k; cbn in *; tauto|reflexivity].
  - apply team_update_frame; auto.
  - apply team_delete_frame; auto.
  - apply anon_frame; auto.
  - apply merge_frame; auto.
  - apply group_get_frame; auto.
  - apply group_set_frame; auto.
  - apply group_type_frame; auto.
  - unfold group_next_record. apply only_next; [hit; repeat split; reflexivity|apply only_refl].
  - apply session_frame; auto.
  - apply session_clean_frame; auto.
  - apply prop_create_frame; auto. intros k0 Hk; left. destruct k0; cbn in *; tauto.
  - apply prop_get_or_create_frame; auto. intros k0 Hk; left. destruct k0; cbn in *; tauto.
  - apply prop_update_frame; auto.
  - apply prop_delete_frame; auto.
Qed.

Lemma md_run_frame snake (P : Key -> Prop) ops s :
  Forall (fun o => wf_op o = true /\ (forall k, touches o k -> P k)) ops -> only P s (md_run snake ops s).
Proof.
  intro F. unfold md_run. revert s. induction F as [|o r [W H] F IH]; cbn [fold_left]; intro s; [apply only_refl|].
  eapply only_trans; [|apply IH]. intros x N. apply (md_frame snake o s W x). intros (k & E & Wk & T). apply N. exists k; auto.
Qed.
