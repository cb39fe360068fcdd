(** Sequences: allocations on any set of sequences, and the ids the create calls hand out. *)
From Coq Require Import List NArith ZArith String Ascii Bool Lia.
From Verif Require Import AMap Kv KvKeys KvKeysFacts KvFacts Md MdOps MdFrame MdIndex MdEntities.
Import ListNotations.
Local Open Scope string_scope.

(** A list of allocations, each naming its sequence; [first k] is the number the sequence
    starts from (1 for next_seq, 0 for next_zero_seq). *)
Fixpoint allocate (first : Key -> N) (l : list Key) (s : Store) : list (Key * Res N) * Store :=
  match l with
  | [] => ([], s)
  | k :: r => let (x, s1) := next_from (first k) (render k) s in
              let (xs, s2) := allocate first r s1 in ((k, x) :: xs, s2)
  end.

(** The numbers given out by sequence [k], in order. *)
Definition given (k : Key) (res : list (Key * Res N)) : list (Res N) :=
  map snd (filter (fun x => if key_dec (fst x) k then true else false) res).
Definition asked (k : Key) (l : list Key) : nat := List.length (filter (fun x => if key_dec x k then true else false) l).

Lemma allocate_from first k l : wf_key k = true -> Forall (fun k => wf_key k = true) l -> forall s v0,
  kg k s = v0 -> (v0 = None \/ exists m, v0 = Some (VNum m)) ->
  given k (fst (allocate first l s)) =
  map (fun i => Ok (match v0 with Some (VNum m) => m + 1 | _ => first k end + N.of_nat i)%N) (seq 0 (asked k l)).
Proof.
  intros W F. induction F as [|x r Wx F IH]; intros s v0 Hv Hn; [reflexivity|].
  cbn [allocate]. destruct (next_from (first x) (render x) s) as [y s1] eqn:E.
  destruct (allocate first r s1) as [ys s2] eqn:Er. cbn [fst]. unfold given, asked. cbn [filter fst].
  assert (Eys : given k ys = given k (fst (allocate first r s1))) by now rewrite Er.
  unfold next_from in E. fold (kg x s) in E.
  destruct (key_dec x k) as [->|Ne].
  - cbn [map snd List.length seq]. fold (given k ys). fold (asked k r). rewrite Eys.
    destruct Hn as [-> | (m & ->)]; rewrite Hv in E; cbn in E; injection E as <- <-.
    + rewrite (IH _ (Some (VNum (first k)))); [|apply kg_put_eq|eauto].
      f_equal; [f_equal; lia|]. rewrite <- seq_shift, map_map. apply map_ext. intro i. f_equal. lia.
    + rewrite (IH _ (Some (VNum (m + 1)%N))); [|apply kg_put_eq|eauto].
      f_equal; [f_equal; lia|]. rewrite <- seq_shift, map_map. apply map_ext. intro i. f_equal. lia.
  - fold (given k ys). fold (asked k r). rewrite Eys. apply IH; [|exact Hn].
    rewrite <- Hv. destruct (kg x s) as [v|]; [destruct (read_num v)|]; injection E as <- <-; try reflexivity;
    (apply kg_put_ne; [exact W|exact Wx|congruence]).
Qed.

(** ** Ids of created records *)
(** The namespace and id of the record a create call made. *)
Definition created (snake : string -> string) (o : MdOp) (s : Store) : option (Ns * N) :=
  match o with
  | OEventCreate p name d props => match fst (event_create p name d props s) with Ok e => Some (NProj p PEvents, ev_id e) | _ => None end
  | OCustomCreate p name evs => match fst (custom_create p name evs s) with Ok e => Some (NProj p PCustom, ce_id e) | _ => None end
  | OAccountCreate email orgs => match fst (account_create email orgs s) with Ok e => Some (NRoot RAccounts, ac_id e) | _ => None end
  | OOrgCreate c name => match fst (org_create c name s) with Ok e => Some (NRoot ROrganizations, org_id e) | _ => None end
  | OProjectCreate org name token secs => match fst (project_create org name token secs s) with Ok e => Some (NRoot RProjects, pr_id e) | _ => None end
  | OTeamCreate o name => match fst (team_create o name s) with Ok e => Some (NTeams o, tm_id e) | _ => None end
  | OPropCreate p k name d t sys => match fst (prop_create snake p k name d t sys s) with Ok e => Some (kind_ns p k, pp_id e) | _ => None end
  | _ => None
  end.

Definition not_seq (ns : Ns) (k : Key) : Prop := k <> KSeq ns.
Lemma next_seq_num ns s id s1 : next_seq (render (KSeq ns)) s = (Ok id, s1) -> kg (KSeq ns) s1 = Some (VNum id).
Proof.
  unfold next_seq, next_from. destruct (kget _ s) as [v|]; [destruct (read_num v)|]; intros [= <- <-]; apply kg_put_eq.
Qed.
Lemma next_seq_gt ns s id s1 m : next_seq (render (KSeq ns)) s = (Ok id, s1) -> kg (KSeq ns) s = Some (VNum m) -> (m < id)%N.
Proof.
  unfold next_seq, next_from. intros E H. fold (kg (KSeq ns) s) in E. rewrite H in E. cbn in E. injection E as <- _. lia.
Qed.
Definition SeqIs (ns : Ns) (m : N) (s : Store) : Prop := kg (KSeq ns) s = Some (VNum m).
Lemma seq_only ns m s s' : only (not_seq ns) s s' -> SeqIs ns m s -> SeqIs ns m s'.
Proof. intros O H. unfold SeqIs. rewrite (only_kg _ _ _ (KSeq ns) O eq_refl); [exact H|]. intro N. now apply N. Qed.

(** Each create call gives its record the next number of the sequence and leaves the sequence there. *)
Definition makes (ns : Ns) (s : Store) (r : option N) (s' : Store) : Prop :=
  match r with
  | Some id => SeqIs ns id s' /\ forall m, SeqIs ns m s -> (m < id)%N
  | None => forall m, SeqIs ns m s -> exists m', SeqIs ns m' s' /\ (m <= m')%N
  end.
Lemma makes_none ns s : makes ns s None s.
Proof. intros m H. exists m. split; [exact H|lia]. Qed.
Ltac nseq := unfold not_seq; intros; try discriminate.

Definition rid {X} (f : X -> N) (r : Res X) : option N := match r with Ok x => Some (f x) | Err _ => None end.

Lemma event_create_makes p name d props s :
  makes (NProj p PEvents) s (rid ev_id (fst (event_create p name d props s))) (snd (event_create p name d props s)).
Proof.
  unfold event_create. destruct (check_insert _ _); [|apply makes_none].
  change (make_id_seq_key (events_ns p)) with (render (KSeq (NProj p PEvents))).
  destruct (next_seq _ s) as [[id|e] s1] eqn:E; [|apply makes_none]. cbv zeta. set (s3 := insert_index _ _ _).
  assert (O3 : only (not_seq (NProj p PEvents)) s1 s3).
  { unfold s3. apply only_insert; [apply event_keys_hit; intros k Hk ->; exact Hk|].
    apply only_put; [hit; nseq|apply only_refl]. }
  assert (O4 : only (not_seq (NProj p PEvents)) s3 (snd (dict_get_or_create p TABLE_EVENTS COLUMN_EVENT name s3))).
  { apply dict_frame; [reflexivity|]. intros k Hk ->. exact Hk. }
  pose proof (next_seq_num _ _ _ _ E) as Hs.
  destruct (dict_get_or_create p TABLE_EVENTS COLUMN_EVENT name s3) as [[?|?] s4]; cbn [fst snd rid makes ev_id] in *.
  - split; [|intros m Hm; eapply next_seq_gt; [exact E|exact Hm]]. eapply seq_only; [exact O4|]. eapply seq_only; [exact O3|]. exact Hs.
  - intros m Hm. exists id. split; [|apply N.lt_le_incl; eapply next_seq_gt; [exact E|exact Hm]].
    eapply seq_only; [exact O4|]. eapply seq_only; [exact O3|]. exact Hs.
Qed.
Ltac mk E ns := split; [|intros m Hm; eapply next_seq_gt; [exact E|exact Hm]];
   (eapply seq_only; [|exact (next_seq_num _ _ _ _ E)]).
Lemma custom_create_makes p name evs s :
  makes (NProj p PCustom) s (rid ce_id (fst (custom_create p name evs s))) (snd (custom_create p name evs s)).
Proof.
  unfold custom_create. destruct evs as [|e0 er]; [apply makes_none|]. destruct (validate_events _ _ _ _); [|apply makes_none].
  destruct (check_insert _ _); [|apply makes_none].
  change (make_id_seq_key (custom_ns p)) with (render (KSeq (NProj p PCustom))).
  destruct (next_seq _ s) as [[id|e] s1] eqn:E; [|apply makes_none]. mk E (NProj p PCustom).
  apply only_insert; [apply custom_keys_hit; intros k Hk ->; exact Hk|]. apply only_put; [hit; nseq|apply only_refl].
Qed.
Lemma account_create_makes email orgs s :
  makes (NRoot RAccounts) s (rid ac_id (fst (account_create email orgs s))) (snd (account_create email orgs s)).
Proof.
  unfold account_create. destruct (check_insert _ _); [|apply makes_none].
  change (make_id_seq_key "accounts") with (render (KSeq (NRoot RAccounts))).
  destruct (next_seq _ s) as [[id|e] s1] eqn:E; [|apply makes_none]. mk E (NRoot RAccounts).
  apply only_insert; [repeat constructor; cbn; hit; nseq|]. apply only_put; [hit; nseq|apply only_refl].
Qed.
Lemma org_create_makes c name s :
  makes (NRoot ROrganizations) s (rid org_id (fst (org_create c name s))) (snd (org_create c name s)).
Proof.
  unfold org_create. destruct (check_insert _ _); [|apply makes_none].
  change (make_id_seq_key "organizations") with (render (KSeq (NRoot ROrganizations))).
  destruct (next_seq _ s) as [[id|e] s1] eqn:E; [|apply makes_none]. cbv zeta. set (s2 := insert_index _ _ _).
  assert (O3 : only (not_seq (NRoot ROrganizations)) s2 (snd (add_organization c id OrgOwner s2))).
  { apply add_organization_frame. nseq. }
  destruct (add_organization c id OrgOwner s2) as [[?|?] s3]; [|apply makes_none]. cbn [fst snd rid makes org_id] in *. mk E (NRoot ROrganizations).
  eapply only_trans; [|exact O3]. unfold s2.
  apply only_insert; [repeat constructor; cbn; hit; nseq|]. apply only_put; [hit; nseq|apply only_refl].
Qed.
Lemma project_create_makes org name token secs s :
  makes (NRoot RProjects) s (rid pr_id (fst (project_create org name token secs s))) (snd (project_create org name token secs s)).
Proof.
  unfold project_create. destruct (check_insert _ _); [|apply makes_none].
  change (make_id_seq_key "projects") with (render (KSeq (NRoot RProjects))).
  destruct (next_seq _ s) as [[id|e] s1] eqn:E; [|apply makes_none]. mk E (NRoot RProjects).
  apply only_insert; [repeat constructor; cbn; hit; nseq|]. apply only_put; [hit; nseq|apply only_refl].
Qed.
Lemma team_create_makes o name s :
  makes (NTeams o) s (rid tm_id (fst (team_create o name s))) (snd (team_create o name s)).
Proof.
  unfold team_create. destruct (check_insert _ _); [|apply makes_none].
  change (make_id_seq_key (teams_ns o)) with (render (KSeq (NTeams o))).
  destruct (next_seq _ s) as [[id|e] s1] eqn:E; [|apply makes_none]. mk E (NTeams o).
  apply only_insert; [repeat constructor; cbn; hit; nseq|]. apply only_put; [hit; nseq|apply only_refl].
Qed.
Lemma prop_create_makes snake p k name d t sys s :
  makes (kind_ns p k) s (rid pp_id (fst (prop_create snake p k name d t sys s))) (snd (prop_create snake p k name d t sys s)).
Proof.
  unfold prop_create. destruct (check_insert _ _); [|apply makes_none].
  replace (make_id_seq_key (prop_ns p k)) with (render (KSeq (kind_ns p k))) by (now rewrite prop_ns_kind).
  destruct (next_seq _ s) as [[id|e] s1] eqn:E; [|apply makes_none].
  destruct (next_zero_seq _ s1) as [[o|e] s2] eqn:E2; [|apply makes_none]. destruct (negb _); [apply makes_none|]. mk E (kind_ns p k).
  cbn [snd]. apply only_insert.
  { apply Forall_app. split; [apply prop_keys_hit; intros k0 Hk ->; exact Hk|]. repeat constructor; cbn. hit. nseq. }
  apply only_put; [hit; nseq|]. eapply next_zero_only; [exact E2|]. hit. nseq.
Qed.

Lemma makes_up ns s r s' m : makes ns s r s' -> SeqIs ns m s -> exists m', SeqIs ns m' s' /\ (m <= m')%N.
Proof. destruct r as [id|]; cbn; intros M Hm; [|auto]. destruct M as [M1 M2]. exists id. specialize (M2 m Hm). split; [exact M1|lia]. Qed.

(** Sequences of records never go back. *)
Lemma md_seq_up snake o s ns m : wf_op o = true -> SeqIs ns m s -> exists m', SeqIs ns m' (md_step snake o s) /\ (m <= m')%N.
Proof.
  intros W Hm.
  assert (F : ~ touches o (KSeq ns) -> exists m', SeqIs ns m' (md_step snake o s) /\ (m <= m')%N).
  { intro N. exists m. split; [|lia]. unfold SeqIs. rewrite (only_kg _ s _ (KSeq ns) (md_frame snake o s W) eq_refl N). exact Hm. }
  destruct o; cbn [md_step];
   try (apply F; cbn; unfold in_props; cbn; first [tauto | congruence | intros [[]|(x & E)]; discriminate]).
  - destruct (ns_dec ns (NProj p PEvents)) as [->|N]; [eapply makes_up; [apply event_create_makes|exact Hm]|apply F; cbn; intuition congruence].
  - destruct (ns_dec ns (NProj p PEvents)) as [->|N]; [|apply F; cbn; intuition congruence].
    unfold event_get_or_create. destruct (event_by_name p name s) as [|[]]; cbn [snd]; try (exists m; split; [exact Hm|lia]).
    eapply makes_up; [apply event_create_makes|exact Hm].
  - destruct (ns_dec ns (NProj p PCustom)) as [->|N]; [eapply makes_up; [apply custom_create_makes|exact Hm]|apply F; cbn; congruence].
  - destruct (ns_dec ns (NRoot RAccounts)) as [->|N]; [eapply makes_up; [apply account_create_makes|exact Hm]|apply F; cbn; congruence].
  - destruct (ns_dec ns (NRoot ROrganizations)) as [->|N]; [eapply makes_up; [apply org_create_makes|exact Hm]|].
    apply F; cbn. intros [E|(x & E)]; congruence.
  - destruct (ns_dec ns (NRoot RProjects)) as [->|N]; [eapply makes_up; [apply project_create_makes|exact Hm]|apply F; cbn; congruence].
  - destruct (ns_dec ns (NTeams o)) as [->|N]; [eapply makes_up; [apply team_create_makes|exact Hm]|apply F; cbn; congruence].
  - destruct (ns_dec ns (kind_ns p k)) as [->|N]; [eapply makes_up; [apply prop_create_makes|exact Hm]|].
    apply F; cbn. unfold in_props; cbn. intuition congruence.
  - destruct (ns_dec ns (kind_ns p k)) as [->|N].
    + unfold prop_get_or_create. destruct (prop_by_name p k name s) as [|[]]; cbn [snd]; try (exists m; split; [exact Hm|lia]).
      eapply makes_up; [apply prop_create_makes|exact Hm].
    + apply F; cbn. unfold in_props; cbn. intuition congruence.
Qed.
Lemma md_run_seq_up snake ops s ns m : forallb wf_op ops = true -> SeqIs ns m s ->
  exists m', SeqIs ns m' (md_run snake ops s) /\ (m <= m')%N.
Proof.
  unfold md_run. revert s m. induction ops as [|o r IH]; cbn [fold_left forallb]; intros s m W H; [exists m; split; [exact H|lia]|].
  apply andb_prop in W as [W1 W2]. destruct (md_seq_up snake o s ns m W1 H) as (m1 & H1 & L1).
  destruct (IH _ m1 W2 H1) as (m2 & H2 & L2). exists m2. split; [exact H2|lia].
Qed.
Lemma created_makes snake o s ns id : created snake o s = Some (ns, id) ->
  SeqIs ns id (md_step snake o s) /\ forall m, SeqIs ns m s -> (m < id)%N.
Proof.
  destruct o; cbn [created md_step]; try discriminate; intro H.
  - pose proof (event_create_makes p name d props s) as M. destruct (fst _); [|discriminate]. injection H as <- <-. exact M.
  - pose proof (custom_create_makes p name evs s) as M. destruct (fst _); [|discriminate]. injection H as <- <-. exact M.
  - pose proof (account_create_makes email orgs s) as M. destruct (fst _); [|discriminate]. injection H as <- <-. exact M.
  - pose proof (org_create_makes creator name s) as M. destruct (fst _); [|discriminate]. injection H as <- <-. exact M.
  - pose proof (project_create_makes org name token secs s) as M. destruct (fst _); [|discriminate]. injection H as <- <-. exact M.
  - pose proof (team_create_makes o name s) as M. destruct (fst _); [|discriminate]. injection H as <- <-. exact M.
  - pose proof (prop_create_makes snake p k name d t system s) as M. destruct (fst _); [|discriminate]. injection H as <- <-. exact M.
Qed.
