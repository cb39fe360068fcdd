(** C143: what projects can be called, and what deleting one does. *)
From Coq Require Import List NArith ZArith String Bool Lia.
From Verif Require Import AMap Kv KvKeys KvKeysFacts KvFacts Md MdOps MdFrame MdIndex MdEntities MdWf PropsNames ProjectNamesSpec.
Import ListNotations.
Local Open Scope string_scope.
Local Open Scope N_scope.

Notation pns := (NRoot RProjects).
Lemma unused_kg s x : ProjectsOk s -> unused s x <-> kg (kidx pns (IName, x)) s = None.
Proof.
  intros I. split.
  - intros U. destruct (kg (kidx pns (IName, x)) s) as [v|] eqn:E; [|reflexivity]. exfalso.
    destruct (ix_idx _ _ _ I _ _ E) as (i & r & ks & -> & D & K & Hi).
    destruct r; cbn in K; try discriminate. destruct (string_dec _ _) as [|Nt]; [discriminate|]. injection K as K <-.
    apply project_by_id_spec in D. destruct (U i _ _ _ (ex_intro _ _ (conj D (conj eq_refl (conj eq_refl eq_refl))))) as (A & B).
    cbn in Hi. destruct Hi as [[= X]|[[= X]|[]]]; congruence.
  - intros E i org name token (q & Q & <- & <- & <-). destruct (project_by_id_ok _ _ _ I Q) as (_ & Nt).
    apply project_by_id_spec in Q. destruct (ix_data _ _ _ I _ _ Q) as (r & ks & [= <-] & K & Hi).
    rewrite project_iks_eq in K by exact Nt. injection K as _ <-.
    split; intros ->; [specialize (Hi (IName, pr_name q))|specialize (Hi (IName, pr_token q))]; rewrite Hi in E by (cbn; auto); discriminate.
Qed.
Lemma no_project_kg s i : ProjectsOk s -> no_project s i <-> kg (KData pns i) s = None.
Proof.
  intros I. split.
  - intros H. destruct (kg (KData pns i) s) as [v|] eqn:E; [|reflexivity]. exfalso.
    destruct (ix_data _ _ _ I _ _ E) as (r & ks & -> & K & _). destruct r; cbn in K; try discriminate.
    apply project_by_id_spec in E. eapply H. eexists. eauto.
  - intros E org n t (q & Q & _). apply project_by_id_spec in Q. congruence.
Qed.
Lemma project_kg_eq s s' i : kg (KData pns i) s' = kg (KData pns i) s -> forall org n t, is_project s' i org n t <-> is_project s i org n t.
Proof. intros E org n t. unfold is_project. setoid_rewrite project_by_id_spec. rewrite E. reflexivity. Qed.
Lemma insert_unused s name token : ProjectsOk s ->
  check_insert s [project_name_key name; project_token_key token] = true <-> unused s name /\ unused s token.
Proof.
  intros I. change [project_name_key name; project_token_key token] with (okeys pns [Some (IName, name); Some (IName, token)]).
  rewrite check_insert_spec, !unused_kg by exact I. cbn [iks flat_map app]. split.
  - intros H. split; apply H; cbn; auto.
  - intros (A & B) ik [<-|[<-|[]]]; assumption.
Qed.
Lemma update_open s q name token : ProjectsOk s ->
  check_update s ((match name with Some n => [project_name_key n] | None => [] end) ++ (match token with Some t => [project_token_key t] | None => [] end))%list
    ((match name with Some _ => [project_name_key (pr_name q)] | None => [] end) ++ (match token with Some _ => [project_token_key (pr_token q)] | None => [] end))%list = true
  <-> open_to s (pr_name q) name /\ open_to s (pr_token q) token.
Proof.
  intros I.
  set (ks := (match name with Some n => [Some (IName, n)] | None => [] end ++ match token with Some x => [Some (IName, x)] | None => [] end)%list).
  set (pk := (match name with Some _ => [Some (IName, pr_name q)] | None => [] end ++ match token with Some _ => [Some (IName, pr_token q)] | None => [] end)%list).
  match goal with |- check_update s ?a ?b = true <-> _ => replace a with (okeys pns ks) by (destruct name, token; reflexivity);
    replace b with (okeys pns pk) by (unfold pk; destruct name, token; reflexivity) end.
  rewrite check_update_spec. unfold open_to. setoid_rewrite (fun x => unused_kg s x I). subst ks pk. split.
  - intros H. split; intros x ->.
    + destruct (H 0%nat (IName, x) (Some (IName, pr_name q))) as [[= E]|E]; auto; now destruct token.
    + destruct name as [n|].
      * destruct (H 1%nat (IName, x) (Some (IName, pr_token q))) as [[= E]|E]; auto.
      * destruct (H 0%nat (IName, x) (Some (IName, pr_token q))) as [[= E]|E]; auto.
  - intros (A & B) i x y X Y. destruct name as [n|], token as [t|]; destruct i as [|[|i]]; cbn in X, Y;
      try discriminate X; try (destruct i; discriminate X); injection X as <-; injection Y as <-;
      first [destruct (A _ eq_refl) as [->|E]; now auto | destruct (B _ eq_refl) as [->|E]; now auto].
Qed.

(** A project is made exactly when no project, of whichever organization, has its name or its token
    as name or token; it then has a number no project had, and the other projects stay as they are.
    In every state reached without giving a project the same text as name and token.  Partial: the
    second part of C143, that only the projects of the own organization count, is false, see below;
    and the table of names the handler fills afterwards is that of C131. *)
Theorem C143_made_iff_partial : forall snake ops org name token secs, forallb wf_op ops = true -> Forall name_token_differ ops ->
  let s := md_run snake ops [] in
  ((exists q s', project_create org name token secs s = (Ok q, s')) <-> unused s name /\ unused s token) /\
  (forall q s', project_create org name token secs s = (Ok q, s') ->
     no_project s (pr_id q) /\ is_project s' (pr_id q) org name token /\
     forall j o n t, j <> pr_id q -> is_project s' j o n t <-> is_project s j o n t) /\
  (forall x s', project_create org name token secs s = (Err x, s') -> x = AlreadyExists /\ s' = s).
Proof.
  intros snake ops org name token secs W D s. assert (I : ProjectsOk s) by (apply projects_reach; assumption). clearbody s.
  pose proof (insert_unused s name token I) as U. unfold project_create.
  destruct (check_insert s _).
  2:{ split; [|split]; [split; [intros (q & s' & X); discriminate|intros X; apply U in X; discriminate]|discriminate|].
      intros x s' [= <- <-]; auto. }
  change (make_id_seq_key "projects") with (render (KSeq pns)). destruct (next_seq (render (KSeq pns)) s) as [r s1] eqn:En.
  destruct (next_seq_indexed _ _ _ _ _ I En) as (i & -> & _ & -> & No & _). split; [|split].
  - split; [intros _; now apply U|intros _; eauto].
  - intros q s' [= <- <-]. cbn [pr_id].
    change [project_name_key name; project_token_key token] with (okeys pns [Some (IName, name); Some (IName, token)]).
    change (make_data_value_key "projects" i) with (render (KData pns i)).
    split; [now apply no_project_kg|]. split.
    + eexists. rewrite project_by_id_spec. rewrite kg_insert_out; [|reflexivity|intros; discriminate]. rewrite kg_put_eq. split; [reflexivity|]. auto.
    + intros j o n t Nj. apply project_kg_eq. rewrite kg_insert_out; [|reflexivity|intros; discriminate].
      change (make_id_seq_key "projects") with (render (KSeq pns)).
      rewrite !kg_put_ne; try reflexivity; try discriminate; try (intros [= X]; subst; contradiction).
  - discriminate.
Qed.
Print Assumptions C143_made_iff_partial.
(** A project is changed exactly when it is there and the new name and token, where given, are the
    old ones or free; it then has them, and the other projects stay as they are. *)
Theorem C143_changed_iff_partial : forall snake ops i name token, forallb wf_op ops = true -> Forall name_token_differ ops ->
  let s := md_run snake ops [] in
  ((exists q s', project_update i name token s = (Ok q, s')) <->
     exists org n t, is_project s i org n t /\ open_to s n name /\ open_to s t token) /\
  (forall q s', project_update i name token s = (Ok q, s') -> exists org n t, is_project s i org n t /\
     is_project s' i org (changed n name) (changed t token) /\
     forall j o n' t', j <> i -> is_project s' j o n' t' <-> is_project s j o n' t') /\
  (forall x s', project_update i name token s = (Err x, s') -> s' = s /\ (x = NotFound /\ no_project s i \/ x = AlreadyExists /\ ~ no_project s i)).
Proof.
  intros snake ops i name token W D s. assert (I : ProjectsOk s) by (apply projects_reach; assumption). clearbody s. unfold project_update.
  destruct (project_by_id i s) as [q|x] eqn:Q.
  2:{ assert (X : x = NotFound /\ no_project s i).
      { rewrite no_project_kg by exact I. unfold project_by_id in Q. change (make_data_value_key "projects" i) with (render (KData pns i)) in Q. fold (kg (KData pns i) s) in Q.
        destruct (kg (KData pns i) s) as [v|] eqn:E; [|split; congruence].
        destruct (ix_data _ _ _ I _ _ E) as (r & ks & -> & K & _). destruct r; discriminate. }
      destruct X as (-> & No). split; [|split]; [|discriminate|intros x s' [= <- <-]; auto].
      split; [intros (q & s' & X); discriminate|]. intros (org & n & t & X & _). now apply No in X. }
  assert (Is : is_project s i (pr_org q) (pr_name q) (pr_token q)) by (exists q; auto).
  cbv zeta. pose proof (update_open s q name token I) as U. destruct (check_update s _ _) eqn:Cu.
  - split; [|split]; [| |discriminate].
    + split; [intros _|intros _; eauto]. exists (pr_org q), (pr_name q), (pr_token q). split; [exact Is|]. now apply U.
    + intros q' s' [= <- <-]. exists (pr_org q), (pr_name q), (pr_token q). split; [exact Is|].
      set (ks := (match name with Some n => [Some (IName, n)] | None => [] end ++ match token with Some x => [Some (IName, x)] | None => [] end)%list).
      set (pk := (match name with Some _ => [Some (IName, pr_name q)] | None => [] end ++ match token with Some _ => [Some (IName, pr_token q)] | None => [] end)%list).
      replace (match name with Some n => [project_name_key n] | None => [] end ++ _)%list with (okeys pns ks) by (destruct name, token; reflexivity).
      replace (match name with Some _ => [project_name_key (pr_name q)] | None => [] end ++ _)%list with (okeys pns pk) by (unfold pk; destruct name, token; reflexivity).
      change (make_data_value_key "projects" i) with (render (KData pns i)).
      assert (L : List.length ks = List.length pk) by (unfold ks, pk; destruct name, token; reflexivity). split.
      * eexists. rewrite project_by_id_spec. rewrite kg_update_out; [|reflexivity|exact L|intros; discriminate|intros; discriminate].
        rewrite kg_put_eq. split; [reflexivity|]. cbn. auto.
      * intros j o n' t' Nj. apply project_kg_eq. rewrite kg_update_out; [|reflexivity|exact L|intros; discriminate|intros; discriminate].
        rewrite kg_put_ne; try reflexivity; try discriminate; try (intros [= X]; subst; contradiction).
  - split; [|split]; [|discriminate|].
    + split; [intros (q' & s' & X); discriminate|]. intros (org & n & t & (q' & Q' & <- & <- & <-) & O). rewrite Q in Q'. injection Q' as <-.
      apply U in O. discriminate.
    + intros x s' [= <- <-]. split; [reflexivity|]. right. split; [reflexivity|]. intros No. now apply No in Is.
Qed.
Print Assumptions C143_changed_iff_partial.
(** A deleted project is gone: it is found neither by its number nor by its token or name, both of
    which are free again, and the other projects stay as they are. *)
Theorem C143_deleted_gone : forall snake ops i org name token, forallb wf_op ops = true -> Forall name_token_differ ops ->
  let s := md_run snake ops [] in is_project s i org name token ->
  exists q s', project_delete i s = (Ok q, s') /\ pr_id q = i /\ pr_name q = name /\ pr_token q = token /\
    no_project s' i /\ unused s' name /\ unused s' token /\
    project_by_token token s' = Err NotFound /\ project_by_token name s' = Err NotFound /\
    forall j o n t, j <> i -> is_project s' j o n t <-> is_project s j o n t.
Proof.
  intros snake ops i org name token W D s (q & Q & <- & <- & <-). assert (I : ProjectsOk s) by (apply projects_reach; assumption).
  assert (I' : ProjectsOk (snd (project_delete i s))).
  { assert (S : snd (project_delete i s) = md_step snake (OProjectDelete i) s) by reflexivity. rewrite S. apply md_step_projects; auto; reflexivity. }
  clearbody s. destruct (project_by_id_ok _ _ _ I Q) as (Ei & Nt). unfold project_delete in *. rewrite Q in *. cbn [snd] in I'.
  eexists. eexists. split; [reflexivity|]. split; [exact Ei|]. split; [reflexivity|]. split; [reflexivity|].
  change [project_name_key (pr_name q); project_token_key (pr_token q)] with (okeys pns [Some (IName, pr_name q); Some (IName, pr_token q)]) in *.
  change (make_data_value_key "projects" i) with (render (KData pns i)) in *.
  set (s' := delete_index _ _) in *.
  assert (Kn : kg (kidx pns (IName, pr_name q)) s' = None) by (apply kg_delete_in; cbn; auto).
  assert (Kt : kg (kidx pns (IName, pr_token q)) s' = None) by (apply kg_delete_in; cbn; auto).
  assert (By : forall x, kg (kidx pns (IName, x)) s' = None -> project_by_token x s' = Err NotFound).
  { intros x K. unfold project_by_token, get_index. change (make_index_key "projects" "name" x) with (render (kidx pns (IName, x))).
    unfold kg in K. now rewrite K. }
  split. { apply no_project_kg; [exact I'|]. unfold s'. rewrite kg_delete_out; [apply kg_del_eq|reflexivity|intros; discriminate]. }
  split; [now apply unused_kg|]. split; [now apply unused_kg|]. split; [now apply By|]. split; [now apply By|].
  intros j o n t Nj. apply project_kg_eq. unfold s'. rewrite kg_delete_out; [|reflexivity|intros; discriminate]. apply kg_del_ne; try reflexivity; try discriminate; try (intros [= X]; subst; contradiction).
Qed.
Print Assumptions C143_deleted_gone.
(** An organization cannot use a name that a project of another organization has, of which its
    members cannot know. *)
Theorem C143_own_names_refuted : ~ (forall snake ops org name token secs, forallb wf_op ops = true -> Forall name_token_differ ops ->
  let s := md_run snake ops [] in unused_in org s name -> unused s token ->
  exists q s', project_create org name token secs s = (Ok q, s')).
Proof.
  intros H. destruct (H (fun x => x) [OProjectCreate 1 "shop" "k1" 60] 2 "shop"%string "k2"%string 60) as (q & s' & E).
  - reflexivity.
  - repeat constructor. discriminate.
  - assert (I : ProjectsOk (md_run (fun x => x) [OProjectCreate 1 "shop" "k1" 60] [])) by (apply projects_reach; [reflexivity|repeat constructor; discriminate]).
    intros i name token (q & Q & O & _). destruct (project_by_id_ok _ _ _ I Q) as (_ & _).
    apply project_by_id_spec in Q. cbn [md_run fold_left md_step] in Q.
    destruct (N.eq_dec i 1) as [->|Ni]; [vm_compute in Q; injection Q as <-; discriminate O|].
    exfalso. destruct (proj1 (proj2 (C143_made_iff_partial (fun x => x) [] 1 "shop" "k1" 60 eq_refl (Forall_nil _))) _ _ eq_refl) as (_ & _ & F).
    apply project_by_id_spec in Q. cbn [pr_id] in F.
    assert (X : is_project (md_run (fun x => x) [] []) i (pr_org q) (pr_name q) (pr_token q)) by (apply F; [exact Ni|exists q; auto]).
    destruct X as (q' & Q' & _). apply project_by_id_spec in Q'. discriminate Q'.
  - assert (I : ProjectsOk (md_run (fun x => x) [OProjectCreate 1 "shop" "k1" 60] [])) by (apply projects_reach; [reflexivity|repeat constructor; discriminate]).
    apply unused_kg; [exact I|]. reflexivity.
  - vm_compute in E. discriminate.
Qed.
Print Assumptions C143_own_names_refuted.
(** The events of a deleted project stay in the store and are still answered by number. *)
Theorem C143_contents_kept_refuted : ~ (forall snake ops p i, forallb wf_op ops = true -> Forall name_token_differ ops ->
  let s := md_run snake ops [] in (exists org name token, is_project s p org name token) ->
  event_by_id p i (snd (project_delete p s)) = Err NotFound).
Proof.
  intros H. specialize (H (fun x => x) [OProjectCreate 1 "shop" "k1" 60; OEventCreate 1 "buy" None []] 1 1 eq_refl).
  assert (D : Forall name_token_differ [OProjectCreate 1 "shop" "k1" 60; OEventCreate 1 "buy" None []]) by (repeat constructor; discriminate).
  specialize (H D). cbv zeta in H.
  assert (X : exists org name token, is_project (md_run (fun x => x) [OProjectCreate 1 "shop" "k1" 60; OEventCreate 1 "buy" None []] []) 1 org name token)
    by (do 3 eexists; eexists; split; [vm_compute; reflexivity|repeat split]).
  specialize (H X). vm_compute in H. discriminate.
Qed.
Print Assumptions C143_contents_kept_refuted.
Example C143_witness :
  let ops := [OProjectCreate 1 "shop" "k1" 60; OProjectCreate 1 "blog" "k2" 60; OProjectUpdate 2 (Some "news") None] in
  let s := md_run (fun x => x) ops [] in
  Forall name_token_differ ops /\ is_project s 1 1 "shop" "k1" /\ is_project s 2 1 "news" "k2" /\
  fst (project_create 2 "blog" "k3" 60 s) = Ok (mkProject 3 2 "blog" "k3" 60 0) /\ fst (project_create 2 "k1" "k3" 60 s) = Err AlreadyExists /\
  fst (project_update 2 (Some "shop") None s) = Err AlreadyExists /\ fst (project_update 3 (Some "x") None s) = Err NotFound /\
  fst (project_create 2 "shop" "k1" 60 (snd (project_delete 1 s))) = Ok (mkProject 3 2 "shop" "k1" 60 0).
Proof.
  split; [repeat constructor; discriminate|]. split; [eexists; split; [vm_compute; reflexivity|repeat split]|].
  split; [eexists; split; [vm_compute; reflexivity|repeat split]|]. vm_compute. repeat split.
Qed.
