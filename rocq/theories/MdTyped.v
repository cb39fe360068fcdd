(** The kind of value each key holds, over every history: what the calls read back is what
    some call wrote there.  The one exception is the sequence of a group after a merge
    (Md.v [merge_with_anonymous]), which is text. *)
From Coq Require Import List NArith ZArith String Ascii Bool Lia.
From Verif Require Import AMap Kv KvKeys KvKeysFacts KvFacts Md MdOps MdFrame.
Import ListNotations.
Local Open Scope string_scope.

Section Typed.
(** The groups merged into so far. *)
Variable merged : N -> N -> Prop.

Definition is_num (v : Val Rec) : Prop := match v with VNum _ => True | _ => False end.
Definition fits (k : Key) (v : Val Rec) : Prop :=
  match k with
  | KData (NRoot RAccounts) _ => match v with VRec (RAccount _) => True | _ => False end
  | KData (NRoot ROrganizations) _ => match v with VRec (ROrg _) => True | _ => False end
  | KData (NRoot RProjects) _ => match v with VRec (RProject _) => True | _ => False end
  | KData (NRoot RBackups) _ => True
  | KData (NProj _ PEvents) _ => match v with VRec (REvent _) => True | _ => False end
  | KData (NProj _ PCustom) _ => match v with VRec (RCustomEvent _) => True | _ => False end
  | KData (NProj _ PEventProps) _ | KData (NProj _ (PGroupProps _)) _ => match v with VRec (RProperty _) => True | _ => False end
  | KData (NProj _ _) _ => True
  | KData (NTeams _) _ => match v with VRec (RTeam _) => True | _ => False end
  | KGroupSeq p g => is_num v \/ (merged p g /\ match v with VText _ => True | _ => False end)
  | KReal _ _ _ => match v with VRec (RGroupValues _) => True | _ => False end
  | KGroupName _ _ => match v with VRec (RGroup _) => True | _ => False end
  | KSession _ _ => match v with VRec (RSession _) => True | _ => False end
  | KDictKey _ _ _ _ => match v with VText _ => True | _ => False end
  | KBookmark _ _ _ | KConfig => True
  | _ => is_num v
  end.
Definition Typed (s : Store) : Prop := forall k v, wf_key k = true -> kg k s = Some v -> fits k v.
(** Keys that hold numbers. *)
Definition numeric (k : Key) : Prop := forall n, fits k (VNum n).

Lemma Typed_nil : Typed []. Proof. intros k v _ H. discriminate. Qed.
Lemma typed_put x v s : hits (fun k => fits k v) x -> Typed s -> Typed (kput x v s).
Proof.
  intros (k & -> & W & F) T k' v' W' H. destruct (key_dec k' k) as [->|Hn].
  - rewrite kg_put_eq in H. now injection H as <-.
  - rewrite kg_put_ne in H by auto. eauto.
Qed.
Lemma typed_del x s : Typed s -> Typed (kdel x s).
Proof.
  intros T k' v' W' H. unfold kg in H. destruct (string_dec x (render k')) as [->|Hn].
  - rewrite kget_kdel_eq in H. discriminate.
  - rewrite kget_kdel_ne in H by congruence. eapply T; eauto.
Qed.
Lemma hits_num x n : hits numeric x -> hits (fun k => fits k (VNum n)) x.
Proof. intros (k & E & W & F). exists k. auto. Qed.
Lemma typed_insert ks id s : Forall (ohits numeric) ks -> Typed s -> Typed (insert_index s ks id).
Proof.
  intros F T. apply flat_hits in F. unfold insert_index. revert s T. induction F as [|x r Hx F IH]; cbn; intros s T; [exact T|].
  apply IH. apply typed_put; [now apply hits_num|exact T].
Qed.
Lemma typed_delete ks s : Typed s -> Typed (delete_index s ks).
Proof. unfold delete_index. generalize (flat ks) as l. intro l. revert s. induction l; cbn; intros; auto using typed_del. Qed.
Lemma typed_update ks pk id s : Forall (ohits numeric) ks -> Typed s -> Typed (update_index s ks pk id).
Proof.
  unfold update_index. intros F. revert pk s. induction F as [|x r Hx F IH]; cbn; intros pk s T; [exact T|].
  destruct pk as [|y q]; cbn; [exact T|]. apply IH.
  unfold update_one; cbn. destruct (okey_eqb x y), x, y; cbn in *; auto using typed_put, typed_del, hits_num.
Qed.
Lemma typed_next first x s r s' : next_from first x s = (r, s') -> hits numeric x -> Typed s -> Typed s'.
Proof.
  unfold next_from. intros E H T. destruct (kget x s) as [v|]; [destruct (read_num v)|]; injection E as _ <-;
    auto using typed_put, hits_num.
Qed.
(** A sequence is a number: asking it never crashes. *)
Lemma seq_ok first k s : wf_key k = true -> (forall v, fits k v -> is_num v) -> Typed s ->
  exists n, fst (next_from first (render k) s) = Ok n.
Proof.
  intros W F T. unfold next_from. change (kget (render k) s) with (kg k s).
  destruct (kg k s) as [v|] eqn:E; [|cbn; eauto]. apply (T _ _ W), F in E. destruct v; try contradiction. cbn. eauto.
Qed.

Ltac brk :=
  match goal with
  | |- context [match ?x with _ => _ end] =>
    lazymatch x with
    | context [match _ with _ => _ end] => fail
    | _ => destruct x eqn:?
    end
  end.
Ltac fit := solve [repeat (split; [reflexivity|]); intro; cbn; auto | repeat (split; [reflexivity|]); cbn; auto | intro; exact Logic.I | exact Logic.I | cbn; auto | cbv [kind_ns]; brk; exact Logic.I].
Ltac onek :=
  unfold event_name_key, event_display_key, email_key, org_name_key, project_name_key, project_token_key, team_name_key;
  match goal with |- ohits _ (option_map _ ?d) => destruct d | _ => idtac end;
  cbn [option_map ohits]; first [exact Logic.I | hit; first [reflexivity | assumption | idtac]; fit].
Ltac keys := repeat (first [apply Forall_nil | apply Forall_cons | apply Forall_app; split]); try onek.
Ltac tw1 :=
  match goal with
  | H : Typed ?s |- Typed ?s => exact H
  | |- Typed (kput _ _ _) => apply typed_put; [hit; first [reflexivity | assumption | idtac]; try fit|]
  | |- Typed (kdel _ _) => apply typed_del
  | |- Typed (insert_index _ _ _) => apply typed_insert; [unfold event_keys, custom_keys, prop_keys; keys|]
  | |- Typed (delete_index _ _) => apply typed_delete
  | |- Typed (update_index _ _ _ _) => apply typed_update; [unfold event_keys, custom_keys, prop_keys; repeat brk; keys|]
  | |- Typed (put_account _ _) => unfold put_account
  | |- Typed (put_org _ _) => unfold put_org
  | E : next_seq _ ?a = (_, ?b) |- Typed ?b => apply (typed_next _ _ _ _ _ E); [hit; first [reflexivity | assumption | idtac]; try fit|]
  | E : next_zero_seq _ ?a = (_, ?b) |- Typed ?b => apply (typed_next _ _ _ _ _ E); [hit; first [reflexivity | assumption | idtac]; try fit|]
  | |- Typed (snd (?a, ?b)) => cbn [snd]
  end.
Ltac tw := repeat (first [tw1 | brk]).

Lemma dict_typed p t d v s : no_slash t && no_slash d = true -> Typed s -> Typed (snd (dict_get_or_create p t d v s)).
Proof. intros W H. unfold dict_get_or_create. tw. Qed.
Lemma add_organization_typed m o r s : Typed s -> Typed (snd (add_organization m o r s)).
Proof. intro H. unfold add_organization. tw. Qed.
Lemma remove_organization_typed m o s : Typed s -> Typed (snd (remove_organization m o s)).
Proof. intro H. unfold remove_organization. tw. Qed.
Lemma change_role_typed m o r s : Typed s -> Typed (snd (change_organization_role m o r s)).
Proof. intro H. unfold change_organization_role. tw. Qed.
Lemma anon_typed p g k s : Typed s -> Typed (snd (anon_get_or_create p g k s)).
Proof. intro H. unfold anon_get_or_create. tw. Qed.
Lemma event_create_typed p n d l s : Typed s -> Typed (snd (event_create p n d l s)).
Proof.
  intro H. unfold event_create. destruct (check_insert _ _); [|exact H].
  destruct (next_seq _ s) as [[id|e] s1] eqn:E; [|exact H]. cbv zeta. set (s3 := insert_index _ _ _).
  assert (K : Typed s3) by (unfold s3; tw). apply (dict_typed p TABLE_EVENTS COLUMN_EVENT n _ eq_refl) in K.
  destruct (dict_get_or_create p TABLE_EVENTS COLUMN_EVENT n s3) as [[?|?] s4]; exact K.
Qed.
Lemma prop_create_typed snake p k n d t b s : Typed s -> Typed (snd (prop_create snake p k n d t b s)).
Proof. intro H. unfold prop_create. tw. Qed.
Lemma session_clean_typed p f s : Typed s -> Typed (session_clean p f s).
Proof.
  intro H. unfold session_clean. revert H. generalize (list_prefix (make_data_key (project_ns p "sessions")) s) as l.
  intro l. revert s. induction l as [|v l IH]; cbn [fold_left]; intros s H; [exact H|].
  apply IH. destruct v as [| |[]]; auto. destruct (f s0); auto using typed_del.
Qed.

Theorem md_typed snake o s : wf_op o = true ->
  match o with OMerge p g _ _ _ => merged p g | _ => True end -> Typed s -> Typed (md_step snake o s).
Proof.
  intros W Hm H. destruct o; cbn [md_step] in *.
  - now apply event_create_typed.
  - unfold event_get_or_create. destruct (event_by_name p name s) as [|[]]; cbn [snd]; auto using event_create_typed.
  - unfold event_update. tw.
  - unfold event_attach. tw.
  - unfold event_delete. tw.
  - unfold event_next_record. destruct (next_seq _ s) as [? s1] eqn:E. tw.
  - now apply dict_typed.
  - unfold dict_create_key. cbn in W. tw.
  - unfold custom_create. tw.
  - unfold custom_update. tw.
  - unfold custom_delete. tw.
  - unfold account_create. tw.
  - unfold account_update. tw.
  - unfold account_delete. tw.
  - unfold org_create. destruct (check_insert _ _); [|exact H].
    destruct (next_seq _ s) as [[id|e] s1] eqn:E; [|exact H]. cbv zeta. set (s2 := insert_index _ _ _).
    assert (K : Typed s2) by (unfold s2; tw). apply (add_organization_typed creator id OrgOwner) in K.
    destruct (add_organization creator id OrgOwner s2) as [[?|?] s3]; [exact K|exact H].
  - unfold org_update. tw.
  - unfold org_add_member. destruct (org_by_id id s); [|exact H]. destruct (existsb _ _); [exact H|].
    pose proof (add_organization_typed member id r s H). destruct (add_organization member id r s) as [[?|?] s3]; tw.
  - unfold org_remove_member. destruct (org_by_id id s); [|exact H]. destruct (negb _); [exact H|].
    pose proof (remove_organization_typed member id s H). destruct (remove_organization member id s) as [[?|?] s3]; tw.
  - unfold org_change_role. destruct (org_by_id id s); [|exact H]. destruct (set_role _ _ _); [|exact H].
    pose proof (change_role_typed member id r s H). destruct (change_organization_role member id r s) as [[?|?] s3]; tw.
  - unfold org_delete. tw.
  - unfold project_create. tw.
  - unfold project_update. tw.
  - unfold project_count_event. tw.
  - unfold project_delete. tw.
  - unfold team_create. tw.
  - unfold team_update. tw.
  - unfold team_delete. tw.
  - now apply anon_typed.
  - unfold merge_with_anonymous. destruct (kget _ s); [exact H|].
    pose proof (anon_typed p g anonymous s H). destruct (anon_get_or_create p g anonymous s) as [[?|?] s1]; tw.
  - unfold group_get_or_create. tw.
  - unfold group_create_or_update. tw.
  - unfold group_type_get_or_create. tw.
  - unfold group_next_record. destruct (next_seq _ s) as [? s1] eqn:E. tw.
  - unfold session_set_time. tw.
  - now apply session_clean_typed.
  - now apply prop_create_typed.
  - unfold prop_get_or_create. destruct (prop_by_name p k name s) as [|[]]; cbn [snd]; auto using prop_create_typed.
  - unfold prop_update. tw.
  - unfold prop_delete. tw.
Qed.
Lemma md_run_typed snake ops s : forallb wf_op ops = true ->
  (forall p g a u v, In (OMerge p g a u v) ops -> merged p g) -> Typed s -> Typed (md_run snake ops s).
Proof.
  unfold md_run. revert s. induction ops as [|o r IH]; cbn [fold_left forallb]; intros s W Hm T; [exact T|].
  apply andb_prop in W as [W1 W2]. apply IH; [exact W2|intros; eapply Hm; right; eauto|].
  apply md_typed; [exact W1| |exact T]. destruct o; auto. eapply Hm. left. reflexivity.
Qed.

(** ** Reading back never crashes *)
Ltac rd k := change (kget _ ?s) with (kg k s).
Lemma index_read ns i x s : Typed s -> get_index s (make_index_key (ns_str ns) (idx_str i) x) <> Err Panicked.
Proof.
  intro T. unfold get_index. change (kget _ s) with (kg (KIdx ns i x) s).
  destruct (kg (KIdx ns i x) s) as [v|] eqn:E; [|discriminate]. apply (T (KIdx ns i x)) in E; [|reflexivity]. destruct v; try contradiction. discriminate.
Qed.
Lemma project_read t s : Typed s -> project_by_token t s <> Err Panicked.
Proof.
  intro T. unfold project_by_token. pose proof (index_read (NRoot RProjects) IName t s T) as H.
  change (make_index_key (ns_str (NRoot RProjects)) (idx_str IName) t) with (make_index_key "projects" "name" t) in H.
  destruct (get_index s _) as [id|e]; [|congruence]. unfold project_by_id. change (kget _ s) with (kg (KData (NRoot RProjects) id) s).
  destruct (kg _ s) as [v|] eqn:E; [|discriminate]. apply (T (KData (NRoot RProjects) id)) in E; [|reflexivity]. destruct v as [| |[]]; try contradiction. discriminate.
Qed.
Lemma project_id_read id s : Typed s -> project_by_id id s <> Err Panicked.
Proof.
  intro T. unfold project_by_id. change (kget _ s) with (kg (KData (NRoot RProjects) id) s).
  destruct (kg _ s) as [v|] eqn:E; [|discriminate]. apply (T (KData (NRoot RProjects) id)) in E; [|reflexivity]. destruct v as [| |[]]; try contradiction. discriminate.
Qed.
Lemma event_id_read p id s : Typed s -> event_by_id p id s <> Err Panicked.
Proof.
  intro T. unfold event_by_id. change (kget _ s) with (kg (KData (NProj p PEvents) id) s).
  destruct (kg _ s) as [v|] eqn:E; [|discriminate]. apply (T (KData (NProj p PEvents) id)) in E; [|reflexivity]. destruct v as [| |[]]; try contradiction. discriminate.
Qed.
Lemma event_name_read p n s : Typed s -> event_by_name p n s <> Err Panicked.
Proof.
  intro T. unfold event_by_name. pose proof (index_read (NProj p PEvents) IName n s T) as H.
  change (make_index_key (ns_str (NProj p PEvents)) (idx_str IName) n) with (make_index_key (events_ns p) "name" n) in H.
  destruct (get_index s _) as [id|e]; [now apply event_id_read|congruence].
Qed.
Lemma prop_id_read p k id s : Typed s -> prop_by_id p k id s <> Err Panicked.
Proof.
  intro T. unfold prop_by_id. rewrite prop_ns_kind. change (kget _ s) with (kg (KData (kind_ns p k) id) s).
  destruct (kg _ s) as [v|] eqn:E; [|discriminate]. apply (T (KData (kind_ns p k) id)) in E; [|reflexivity].
  destruct k; cbn in E; destruct v as [| |[]]; try contradiction; discriminate.
Qed.
Lemma prop_name_read p k n s : Typed s -> prop_by_name p k n s <> Err Panicked.
Proof.
  intro T. unfold prop_by_name. pose proof (index_read (kind_ns p k) IName n s T) as H. rewrite <- prop_ns_kind in H.
  change (idx_str IName) with "name" in H. destruct (get_index s _) as [id|e]; [now apply prop_id_read|congruence].
Qed.
Lemma dict_read p t d v s : no_slash t && no_slash d = true -> Typed s -> exists n, fst (dict_get_or_create p t d v s) = Ok n.
Proof.
  intros W T. unfold dict_get_or_create. change (kget _ s) with (kg (KDictVal p t d v) s).
  destruct (kg (KDictVal p t d v) s) as [x|] eqn:E.
  - apply (T (KDictVal p t d v)) in E; [|exact W]. destruct x; try contradiction. cbn. eauto.
  - change (make_id_seq_key _) with (render (KDictSeq p t d)). destruct (seq_ok 1 (KDictSeq p t d) s W (fun v F => F) T) as (n & En).
    unfold next_seq. destruct (next_from 1 _ s) as [[i|] s1]; [cbn; eauto|discriminate].
Qed.
Lemma event_read p n d l s : Typed s -> fst (event_get_or_create p n d l s) <> Err Panicked.
Proof.
  intro T. unfold event_get_or_create. pose proof (event_name_read p n s T). destruct (event_by_name p n s) as [|[]]; try discriminate; [|congruence].
  unfold event_create. destruct (check_insert _ _); [|discriminate].
  change (make_id_seq_key (events_ns p)) with (render (KSeq (NProj p PEvents))).
  destruct (seq_ok 1 (KSeq (NProj p PEvents)) s eq_refl (fun v F => F) T) as (i & En). unfold next_seq.
  destruct (next_from 1 (render (KSeq (NProj p PEvents))) s) as [[id|] s1] eqn:E; [|discriminate]. cbv zeta. set (s3 := insert_index _ _ _).
  assert (K : Typed s3).
  { unfold s3. change (next_from 1 (render (KSeq (NProj p PEvents))) s) with (next_seq (make_id_seq_key (events_ns p)) s) in E. tw. }
  destruct (dict_read p TABLE_EVENTS COLUMN_EVENT n s3 eq_refl K) as (m & Em). destruct (dict_get_or_create _ _ _ _ s3) as [[]]; [discriminate|].
  cbn in *. congruence.
Qed.
Lemma attach_read p id l s : Typed s -> fst (event_attach p id l s) <> Err Panicked.
Proof. intro T. unfold event_attach. pose proof (event_id_read p id s T). destruct (event_by_id p id s); cbn; congruence. Qed.
Lemma record_read p s : Typed s -> exists n, fst (event_next_record p s) = Ok n.
Proof. intro T. exact (seq_ok 1 (KRecSeq p) s eq_refl (fun v F => F) T). Qed.
Lemma group_record_read p g s : Typed s -> exists n, fst (group_next_record p g s) = Ok n.
Proof. intro T. exact (seq_ok 1 (KGroupRecSeq p g) s eq_refl (fun v F => F) T). Qed.
Lemma count_read p s : Typed s -> fst (project_count_event p s) <> Err Panicked.
Proof. intro T. unfold project_count_event. pose proof (project_id_read p s T). destruct (project_by_id p s); cbn; congruence. Qed.
Lemma session_read p u t s : Typed s -> exists b, fst (session_set_time p u t s) = Ok b.
Proof.
  intro T. unfold session_set_time. change (kget _ s) with (kg (KSession p u) s).
  destruct (kg (KSession p u) s) as [v|] eqn:E; [|cbn; eauto]. apply (T (KSession p u)) in E; [|reflexivity].
  destruct v as [| |[]]; try contradiction. cbn. eauto.
Qed.
Lemma group_type_read p n s : Typed s -> fst (group_type_get_or_create p n s) <> Err Panicked.
Proof.
  intro T. unfold group_type_get_or_create. change (kget _ s) with (kg (KGroupName p n) s).
  destruct (kg (KGroupName p n) s) as [v|] eqn:E.
  - apply (T (KGroupName p n)) in E; [|reflexivity]. destruct v as [| |[]]; try contradiction. discriminate.
  - change (make_id_seq_key _) with (render (KGroupsSeq p)). destruct (seq_ok 0 (KGroupsSeq p) s eq_refl (fun v F => F) T) as (i & En).
    unfold next_zero_seq. destruct (next_from 0 _ s) as [[id|] s1]; [|discriminate]. destruct (N.leb _ _); discriminate.
Qed.
Lemma prop_read snake p k n d b sys s : Typed s -> fst (prop_get_or_create snake p k n d (PBase b) sys s) <> Err Panicked.
Proof.
  intro T. unfold prop_get_or_create. pose proof (prop_name_read p k n s T). destruct (prop_by_name p k n s) as [|[]]; try discriminate; [|congruence].
  unfold prop_create. destruct (check_insert _ _); [|discriminate]. rewrite prop_ns_kind.
  change (make_id_seq_key (ns_str (kind_ns p k))) with (render (KSeq (kind_ns p k))).
  destruct (seq_ok 1 (KSeq (kind_ns p k)) s eq_refl (fun v F => F) T) as (i & En). unfold next_seq.
  destruct (next_from 1 (render (KSeq (kind_ns p k))) s) as [[id|] s1] eqn:E; [|discriminate].
  assert (K : Typed s1).
  { apply (typed_next _ _ _ _ _ E); [|exact T]. exists (KSeq (kind_ns p k)). repeat split. }
  change (make_id_seq_key _) with (render (KOrderSeq p (short_name (PBase b)))).
  assert (Wo : wf_key (KOrderSeq p (short_name (PBase b))) = true) by now destruct b.
  destruct (seq_ok 0 (KOrderSeq p (short_name (PBase b))) s1 Wo (fun v F => F) K) as (o & Eo).
  unfold next_zero_seq. destruct (next_from 0 _ s1) as [[]]; [discriminate|]. discriminate.
Qed.
(** Group values: as long as the sequence of the group is a number. *)
Lemma group_seq_read p g s : ~ merged p g -> Typed s -> exists n, fst (next_seq (group_seq_key p g) s) = Ok n.
Proof.
  intros M T. refine (seq_ok 1 (KGroupSeq p g) s eq_refl _ T). intros v [F|[F _]]; [exact F|contradiction].
Qed.
Lemma anon_read p g k s : ~ merged p g -> Typed s -> exists n, fst (anon_get_or_create p g k s) = Ok n.
Proof.
  intros M T. unfold anon_get_or_create. change (kget _ s) with (kg (KAnon p g k) s).
  destruct (kg (KAnon p g k) s) as [v|] eqn:E.
  - apply (T (KAnon p g k)) in E; [|reflexivity]. destruct v; try contradiction. cbn. eauto.
  - destruct (group_seq_read p g s M T) as (n & En). destruct (next_seq _ s) as [[i|] s1]; [cbn; eauto|discriminate].
Qed.
Lemma real_read p g k l s : ~ merged p g -> Typed s -> exists n, fst (group_get_or_create p g k l s) = Ok n.
Proof.
  intros M T. unfold group_get_or_create. change (kget _ s) with (kg (KReal p g k) s).
  destruct (kg (KReal p g k) s) as [v|] eqn:E.
  - apply (T (KReal p g k)) in E; [|reflexivity]. destruct v as [| |[]]; try contradiction. cbn. eauto.
  - destruct (group_seq_read p g s M T) as (n & En). destruct (next_seq _ s) as [[i|] s1]; [cbn; eauto|discriminate].
Qed.
Lemma set_read p g k l s : ~ merged p g -> Typed s -> exists n, fst (group_create_or_update p g k l s) = Ok n.
Proof.
  intros M T. unfold group_create_or_update. change (kget _ s) with (kg (KReal p g k) s).
  destruct (kg (KReal p g k) s) as [v|] eqn:E.
  - apply (T (KReal p g k)) in E; [|reflexivity]. destruct v as [| |[]]; try contradiction. cbn. eauto.
  - destruct (group_seq_read p g s M T) as (n & En). destruct (next_seq _ s) as [[i|] s1]; [cbn; eauto|discriminate].
Qed.
End Typed.
Lemma typed_more (a b : N -> N -> Prop) s : (forall p g, a p g -> b p g) -> Typed a s -> Typed b s.
Proof.
  intros H T k v W E. specialize (T k v W E). destruct k; try exact T. cbn in *. intuition.
Qed.
