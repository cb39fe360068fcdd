(** Properties C30, C36 and C37: names, e-mail addresses and tokens. *)
From Coq Require Import List NArith ZArith String Ascii Bool Lia.
From Verif Require Import AMap Kv KvKeys KvKeysFacts KvFacts Md MdOps MdFrame MdIndex MdEntities MdWf MdDict MdSeq.
Import ListNotations.
Local Open Scope string_scope.

Lemma md_run_inv (I : Store -> Prop) snake : (forall o s, wf_op o = true -> I s -> I (md_step snake o s)) ->
  forall ops s, forallb wf_op ops = true -> I s -> I (md_run snake ops s).
Proof.
  intros H ops. unfold md_run. induction ops as [|o r IH]; cbn [forallb fold_left]; intros s W Hs; [exact Hs|].
  apply andb_prop in W as [W1 W2]. auto.
Qed.
Lemma events_reach snake p ops : forallb wf_op ops = true -> EventsOk p (md_run snake ops []).
Proof. intro W. apply (md_run_inv (fun s => EventsOk p s)); auto using Indexed_nil. intros. now apply md_step_events. Qed.
Lemma accounts_reach snake ops : forallb wf_op ops = true -> AccountsOk (md_run snake ops []).
Proof. intro W. apply (md_run_inv (fun s => AccountsOk s)); auto using Indexed_nil. intros. now apply md_step_accounts. Qed.

(** Reading an index entry of a consistent store. *)
Lemma get_index_ix ns kf s i x : Indexed ns kf s ->
  match get_index s (render (kidx ns (i, x))) with
  | Ok id => kg (kidx ns (i, x)) s = Some (VNum id)
  | Err e => e = NotFound /\ kg (kidx ns (i, x)) s = None
  end.
Proof.
  intro Hx. unfold get_index. fold (kg (kidx ns (i, x)) s). destruct (kg (kidx ns (i, x)) s) as [v|] eqn:E; [|auto].
  destruct (ix_idx _ _ _ Hx _ _ E) as (id & r & ks & -> & _). reflexivity.
Qed.

Lemma event_by_name_iff p s n e : EventsOk p s ->
  event_by_name p n s = Ok e <-> exists id, event_by_id p id s = Ok e /\ ev_name e = n.
Proof.
  intro Hx. unfold event_by_name.
  change (make_index_key (events_ns p) "name" n) with (render (kidx (NProj p PEvents) (IName, n))).
  pose proof (get_index_ix _ _ s IName n Hx) as G. split.
  - destruct (get_index s _) as [id|x]; [|discriminate]. intro H. exists id. split; [exact H|].
    destruct (ix_idx _ _ _ Hx _ _ G) as (id' & r & ks & [= <-] & Hd & Hk & Hi).
    apply event_by_id_spec in H. rewrite Hd in H. injection H as ->. cbn in Hk. injection Hk as _ <-.
    apply iks_in in Hi. cbn in Hi. destruct Hi as [[= E]|[Hi|[]]]; [exact E|]. destruct (ev_display e); discriminate Hi.
  - intros (id & H & <-). pose proof H as H0. apply event_by_id_spec in H.
    destruct (ix_data _ _ _ Hx _ _ H) as (r & ks & [= <-] & Hk & Hi). cbn in Hk. injection Hk as _ <-.
    specialize (Hi (IName, ev_name e)). destruct (get_index s _) as [id'|x].
    + rewrite G in Hi. assert (Some (VNum id') = Some (VNum (A:=Rec) id)) as [= ->] by (apply Hi; cbn; auto). exact H0.
    + destruct G as [_ G]. rewrite G in Hi. discriminate Hi. cbn; auto.
Qed.

(** ** C30 *)
(** No two events of a project share a name; lookup by name finds exactly the event which
    has the name. *)
Theorem C30_event_names_unique :
  forall snake p ops, forallb wf_op ops = true ->
    let s := md_run snake ops [] in
    (forall i j e f, event_by_id p i s = Ok e -> event_by_id p j s = Ok f -> ev_name e = ev_name f -> i = j) /\
    (forall n e, event_by_name p n s = Ok e <-> exists id, event_by_id p id s = Ok e /\ ev_name e = n).
Proof.
  intros snake p ops W s. pose proof (events_reach snake p ops W) as Hx. fold s in Hx. split.
  - intros i j e f He Hf Hn.
    pose proof (event_by_id_ok _ _ _ _ Hx He) as Ei. pose proof (event_by_id_ok _ _ _ _ Hx Hf) as Ej.
    apply event_by_id_spec in He, Hf.
    eapply (Indexed_unique _ _ s i j (REvent e) (REvent f)); eauto; cbn; try rewrite Ei; try rewrite Ej; try reflexivity.
    + left. reflexivity.
    + left. now rewrite Hn.
  - intros n e. now apply event_by_name_iff.
Qed.
Print Assumptions C30_event_names_unique.

(** A name which no event has can be taken (also one that an event had before), and a name
    which an event has is refused without effect. The property list given to create is in
    the answer of create only: it is not stored (C115_event_properties_refuted). *)
Theorem C30_free_name_can_be_taken :
  forall snake p ops n props, forallb wf_op ops = true ->
    existsb (binds p TABLE_EVENTS COLUMN_EVENT) ops = false ->
    let s := md_run snake ops [] in
    let r := event_create p n None props s in
    ((forall id e, event_by_id p id s = Ok e -> ev_name e <> n) ->
       exists id, fst r = Ok (mkEvent id n None props) /\ event_by_name p n (snd r) = Ok (mkEvent id n None [])) /\
    ((exists id e, event_by_id p id s = Ok e /\ ev_name e = n) -> r = (Err AlreadyExists, s)).
Proof.
  intros snake p ops n props W B s r. pose proof (events_reach snake p ops W) as Hx. fold s in Hx.
  assert (Dx : DictOk p TABLE_EVENTS COLUMN_EVENT s) by (apply md_run_dict; auto using DictOk_nil).
  assert (Free : kg (kidx (NProj p PEvents) (IName, n)) s = None <-> (forall id e, event_by_id p id s = Ok e -> ev_name e <> n)).
  { split.
    - intros H id e He Hn. apply event_by_id_spec in He. destruct (ix_data _ _ _ Hx _ _ He) as (r' & ks & [= <-] & Hk & Hi).
      cbn in Hk. injection Hk as _ <-. rewrite Hi in H; [discriminate|]. subst n. cbn; auto.
    - intro H. destruct (kg (kidx _ _) s) as [v|] eqn:E; [|reflexivity]. exfalso.
      destruct (ix_idx _ _ _ Hx _ _ E) as (id & r' & ks & -> & Hd & Hk & Hi). destruct r' as [e| | | | | | | | |]; try discriminate.
      cbn in Hk. injection Hk as Eid <-. apply iks_in in Hi. cbn in Hi. destruct Hi as [[= E']|[Hi|[]]];
      [|destruct (ev_display e); discriminate Hi]. apply (H id e); [|exact E']. apply event_by_id_spec. congruence. }
  split.
  - intro H. apply Free in H.
    pose proof (event_create_ok p n None props s Hx) as Hx'. fold r in Hx'.
    assert (E : exists id, fst r = Ok (mkEvent id n None props) /\ event_by_id p id (snd r) = Ok (mkEvent id n None [])).
    { unfold r, event_create. destruct (check_insert s (event_keys p n None)) eqn:Hc.
      2:{ rewrite event_okeys in Hc. exfalso. apply not_true_iff_false in Hc. apply Hc. apply check_insert_spec.
          intros ik Hi. apply iks_in in Hi. cbn in Hi. destruct Hi as [[= <-]|[Hi|[]]]; [exact H|discriminate]. }
      change (make_id_seq_key (events_ns p)) with (render (KSeq (NProj p PEvents))).
      destruct (next_seq (render (KSeq (NProj p PEvents))) s) as [rr s1] eqn:En.
      destruct (next_seq_indexed _ _ _ _ _ Hx En) as (id & -> & _ & Es1 & _). cbv zeta. set (s3 := insert_index _ _ _).
      assert (O13 : only (in_ns (NProj p PEvents)) s s3).
      { unfold s3. apply only_insert; [apply event_keys_hit; intros k0 Hk; destruct k0; cbn in *; tauto|].
        apply only_put; [hit; reflexivity|]. eapply next_seq_only; [exact En|]. exists (KSeq (NProj p PEvents)). repeat split. }
      assert (D3 : DictOk p TABLE_EVENTS COLUMN_EVENT s3).
      { eapply (DictOk_frame p TABLE_EVENTS COLUMN_EVENT eq_refl); [exact O13|intros k0 Hk; destruct k0; cbn in *; tauto|exact Dx]. }
      assert (Kdat : kg (KData (NProj p PEvents) id) s3 = Some (VRec (REvent (mkEvent id n None [])))).
      { unfold s3. rewrite event_okeys. rewrite kg_insert_out; [apply kg_put_eq|reflexivity|intros; discriminate]. }
      assert (Fr : only (in_dict p TABLE_EVENTS COLUMN_EVENT) s3 (snd (dict_get_or_create p TABLE_EVENTS COLUMN_EVENT n s3)))
        by (apply dict_frame; auto).
      pose proof (only_kg _ _ _ (KData (NProj p PEvents) id) Fr eq_refl (fun x => x)) as Fd. rewrite Kdat in Fd.
      destruct (dict_encode_spec p TABLE_EVENTS COLUMN_EVENT n s3 D3) as [(m & _ & Ed)|(_ & m & _ & _ & _ & Ed)];
      rewrite Ed in Fd |- *; eexists; (split; [reflexivity|]); apply event_by_id_spec; exact Fd. }
    destruct E as (id & E1 & E3). exists id. split; [exact E1|].
    apply event_by_name_iff; [exact Hx'|]. eauto.
  - intros (id & e & He & Hn). unfold r, event_create.
    destruct (check_insert s (event_keys p n None)) eqn:Hc; [|reflexivity]. exfalso.
    rewrite event_okeys, check_insert_spec in Hc. specialize (Hc (IName, n)).
    assert (F : kg (kidx (NProj p PEvents) (IName, n)) s = None) by (apply Hc; cbn; auto).
    apply (proj1 Free F id e He Hn).
Qed.
Print Assumptions C30_free_name_can_be_taken.
Example C30_witness :
  let s := md_run (fun x => x) [OEventCreate 1 "buy" None []; OEventCreate 1 "see" (Some "See") [];
                               OEventUpdate 1 1 (Some "order") None; OEventCreate 1 "buy" None []; OEventDelete 1 2] [] in
  event_by_name 1 "order" s = Ok (mkEvent 1 "order" None []) /\ event_by_name 1 "buy" s = Ok (mkEvent 3 "buy" None []) /\
  event_by_name 1 "see" s = Err NotFound /\ fst (event_create 1 "see" None [] s) = Ok (mkEvent 4 "see" None []) /\
  event_create 1 "buy" None [] s = (Err AlreadyExists, s).
Proof. vm_compute. repeat split. Qed.

(** ** C115 for the property lists of events: attaching properties to an event is answered
    with success and has no effect on what is read. *)
Theorem C115_event_properties_refuted :
  forall snake p ops id props, forallb wf_op ops = true ->
    let s := md_run snake ops [] in
    let r := event_attach p id props s in
    fst r = Ok tt -> exists e, event_by_id p id (snd r) = Ok e /\ ev_props e = [].
Proof.
  intros snake p ops id props W s r H. pose proof (events_reach snake p ops W) as Hx. fold s in Hx.
  unfold r, event_attach in *. destruct (event_by_id p id s) as [e|x] eqn:E; [|discriminate]. cbn [snd].
  rewrite (event_by_id_ok _ _ _ _ Hx E). eexists. split; [apply event_by_id_spec; apply kg_put_eq|reflexivity].
Qed.
Print Assumptions C115_event_properties_refuted.
Example C115_event_properties_witness :
  let s := md_run (fun x => x) [OEventCreate 1 "buy" None [4%N]] [] in
  fst (event_attach 1 1 [5%N; 6%N] s) = Ok tt /\ fst (event_create 1 "see" None [4%N] s) = Ok (mkEvent 2 "see" None [4%N])
  /\ event_by_id 1 1 (snd (event_attach 1 1 [5%N; 6%N] s)) = Ok (mkEvent 1 "buy" None []).
Proof. vm_compute. repeat split. Qed.

(** ** C36 *)
Lemma account_by_email_iff s m a : AccountsOk s ->
  account_by_email m s = Ok a <-> exists id, account_by_id id s = Ok a /\ ac_email a = m.
Proof.
  intro Hx. unfold account_by_email.
  change (make_index_key "accounts" "email" m) with (render (kidx (NRoot RAccounts) (IEmail, m))).
  pose proof (get_index_ix _ _ s IEmail m Hx) as G. split.
  - destruct (get_index s _) as [id|x]; [|discriminate]. intro H. exists id. split; [exact H|].
    destruct (ix_idx _ _ _ Hx _ _ G) as (id' & r & ks & [= <-] & Hd & Hk & Hi).
    apply account_by_id_spec in H. rewrite Hd in H. injection H as ->. cbn in Hk. injection Hk as _ <-.
    apply iks1 in Hi. congruence.
  - intros (id & H & <-). pose proof H as H0. apply account_by_id_spec in H.
    destruct (ix_data _ _ _ Hx _ _ H) as (r & ks & [= <-] & Hk & Hi). cbn in Hk. injection Hk as _ <-.
    specialize (Hi (IEmail, ac_email a)). destruct (get_index s _) as [id'|x].
    + rewrite G in Hi. assert (Some (VNum id') = Some (VNum (A:=Rec) id)) as [= ->] by (apply Hi; cbn; auto). exact H0.
    + destruct G as [_ G]. rewrite G in Hi. discriminate Hi. cbn; auto.
Qed.
Theorem C36_emails_unique :
  forall snake ops, forallb wf_op ops = true ->
    let s := md_run snake ops [] in
    (forall i j a b, account_by_id i s = Ok a -> account_by_id j s = Ok b -> ac_email a = ac_email b -> i = j) /\
    (forall m a, account_by_email m s = Ok a <-> exists id, account_by_id id s = Ok a /\ ac_email a = m).
Proof.
  intros snake ops W s. pose proof (accounts_reach snake ops W) as Hx. fold s in Hx. split.
  - intros i j e f He Hf Hn.
    pose proof (account_by_id_ok _ _ _ Hx He) as Ei. pose proof (account_by_id_ok _ _ _ Hx Hf) as Ej.
    apply account_by_id_spec in He, Hf.
    eapply (Indexed_unique _ _ s i j (RAccount e) (RAccount f)); eauto; cbn; try rewrite Ei; try rewrite Ej; try reflexivity.
    + left. reflexivity.
    + left. now rewrite Hn.
  - intros m a. now apply account_by_email_iff.
Qed.
Print Assumptions C36_emails_unique.
(** Creating or moving an account onto an address in use is refused without effect. *)
Theorem C36_used_email_refused :
  forall snake ops m orgs id other a b, forallb wf_op ops = true ->
    let s := md_run snake ops [] in
    account_by_id other s = Ok b -> ac_email b = m ->
    account_create m orgs s = (Err AlreadyExists, s) /\
    (account_by_id id s = Ok a -> id <> other -> account_update id (Some m) None s = (Err AlreadyExists, s)).
Proof.
  intros snake ops m orgs id other a b W s Hb Hm. pose proof (accounts_reach snake ops W) as Hx. fold s in Hx.
  assert (Used : kg (kidx (NRoot RAccounts) (IEmail, m)) s = Some (VNum other)).
  { apply account_by_id_spec in Hb. destruct (ix_data _ _ _ Hx _ _ Hb) as (r & ks & [= <-] & Hk & Hi).
    cbn in Hk. injection Hk as _ <-. apply Hi. rewrite Hm. cbn; auto. }
  split.
  - unfold account_create. change [email_key m] with (okeys (NRoot RAccounts) [Some (IEmail, m)]).
    destruct (check_insert s _) eqn:Hc; [|reflexivity]. rewrite check_insert_spec in Hc.
    rewrite (Hc (IEmail, m)) in Used; [discriminate|]. cbn; auto.
  - intros Ha Ne. unfold account_update. rewrite Ha. cbv zeta.
    change [email_key m] with (okeys (NRoot RAccounts) [Some (IEmail, m)]).
    change [email_key (ac_email a)] with (okeys (NRoot RAccounts) [Some (IEmail, ac_email a)]).
    destruct (check_update s _ _) eqn:Hc; [|reflexivity]. exfalso. rewrite check_update_spec in Hc.
    destruct (Hc 0%nat (IEmail, m) _ eq_refl eq_refl) as [[= E]|E]; [|congruence].
    apply account_by_id_spec in Ha. destruct (ix_data _ _ _ Hx _ _ Ha) as (r & ks & [= <-] & Hk & Hi).
    cbn in Hk. injection Hk as _ <-. rewrite E in Hi. rewrite Hi in Used; [|cbn; auto]. congruence.
Qed.
Print Assumptions C36_used_email_refused.
Example C36_witness :
  let s := md_run (fun x => x) [OAccountCreate "a@x" []; OAccountCreate "b@x" []; OAccountUpdate 1 (Some "c@x") None; OAccountDelete 2] [] in
  account_by_email "c@x" s = Ok (mkAccount 1 "c@x" []) /\ account_by_email "a@x" s = Err NotFound /\
  account_by_email "b@x" s = Err NotFound /\ fst (account_create "c@x" [] s) = Err AlreadyExists /\
  fst (account_create "b@x" [] s) = Ok (mkAccount 3 "b@x" []).
Proof. vm_compute. repeat split. Qed.

(** ** C37 *)
Lemma projects_reach snake ops : forallb wf_op ops = true -> Forall name_token_differ ops -> ProjectsOk (md_run snake ops []).
Proof.
  intros W D. unfold md_run. generalize (Indexed_nil (NRoot RProjects) project_iks). generalize (@nil (string * Val Rec)).
  revert W. induction D as [|o r Ho D IH]; cbn [forallb fold_left]; intros W s Hs; [exact Hs|].
  apply andb_prop in W as [W1 W2]. apply IH; [exact W2|]. now apply md_step_projects.
Qed.
(** The accepted strings of a project are its token and its name: in every state reached
    without giving a project the same string as both. *)
Theorem C37_accepted_strings_partial :
  forall snake ops, forallb wf_op ops = true -> Forall name_token_differ ops ->
    let s := md_run snake ops [] in
    forall x q, project_by_token x s = Ok q <->
      exists id, project_by_id id s = Ok q /\ (x = pr_token q \/ x = pr_name q).
Proof.
  intros snake ops W D s x q. pose proof (projects_reach snake ops W D) as Hx. fold s in Hx.
  unfold project_by_token. change (make_index_key "projects" "name" x) with (render (kidx (NRoot RProjects) (IName, x))).
  pose proof (get_index_ix _ _ s IName x Hx) as G. split.
  - destruct (get_index s _) as [id|e]; [|discriminate]. intro H. exists id. split; [exact H|].
    destruct (project_by_id_ok _ _ _ Hx H) as [_ Nt].
    destruct (ix_idx _ _ _ Hx _ _ G) as (id' & r & ks & [= <-] & Hd & Hk & Hi).
    apply project_by_id_spec in H. rewrite Hd in H. injection H as ->. rewrite project_iks_eq in Hk by exact Nt. injection Hk as _ <-.
    apply iks_in in Hi. cbn in Hi. destruct Hi as [[= E]|[[= E]|[]]]; auto.
  - intros (id & H & E). pose proof H as H0. destruct (project_by_id_ok _ _ _ Hx H) as [_ Nt]. apply project_by_id_spec in H.
    destruct (ix_data _ _ _ Hx _ _ H) as (r & ks & [= <-] & Hk & Hi). rewrite project_iks_eq in Hk by exact Nt. injection Hk as _ <-.
    specialize (Hi (IName, x)).
    assert (In (IName, x) (iks [Some (IName, pr_name q); Some (IName, pr_token q)])) as Hin by (cbn; destruct E as [->| ->]; auto).
    destruct (get_index s _) as [id'|e].
    + rewrite G in Hi. assert (Some (VNum id') = Some (VNum (A:=Rec) id)) as [= ->] by auto. exact H0.
    + destruct G as [_ G]. rewrite G in Hi. discriminate (Hi Hin).
Qed.
Print Assumptions C37_accepted_strings_partial.
(** So a project's public name always gives the access its token gives, although it is not
    the token. *)
Theorem C37_name_accepted_as_token_refuted :
  forall snake ops id q, forallb wf_op ops = true -> Forall name_token_differ ops ->
    let s := md_run snake ops [] in
    project_by_id id s = Ok q -> project_by_token (pr_name q) s = Ok q /\ pr_name q <> pr_token q.
Proof.
  intros snake ops id q W D s H. split.
  - apply C37_accepted_strings_partial; auto. exists id. auto.
  - pose proof (projects_reach snake ops W D) as Hx. apply (project_by_id_ok _ _ _ Hx H).
Qed.
Print Assumptions C37_name_accepted_as_token_refuted.
Example C37_witness :
  let ops := [OProjectCreate 1 "shop" "secret" 60; OProjectUpdate 1 (Some "store") None] in
  let s := md_run (fun x => x) ops [] in
  Forall name_token_differ ops /\ project_by_token "secret" s = Ok (mkProject 1 1 "store" "secret" 60 0) /\
  project_by_token "store" s = Ok (mkProject 1 1 "store" "secret" 60 0) /\ project_by_token "shop" s = Err NotFound.
Proof. repeat split; repeat constructor. discriminate. Qed.
(** A project whose name equals its token loses its token when renamed. *)
Theorem C37_token_lost_on_rename_refuted :
  forall org x new, x <> new ->
    let s := md_run (fun x => x) [OProjectCreate org x x 60; OProjectUpdate 1 (Some new) None] [] in
    project_by_id 1 s = Ok (mkProject 1 org new x 60 0) /\ project_by_token x s = Err NotFound.
Proof.
  intros org x new Ne s. set (s1 := snd (project_create org x x 60 [])).
  assert (E1 : s1 = insert_index (kput (render (KData (NRoot RProjects) 1)) (VRec (RProject (mkProject 1 org x x 60 0)))
                      (kput (render (KSeq (NRoot RProjects))) (VNum 1) [])) (okeys (NRoot RProjects) [Some (IName, x); Some (IName, x)]) 1).
  { reflexivity. }
  assert (D1 : project_by_id 1 s1 = Ok (mkProject 1 org x x 60 0)).
  { apply project_by_id_spec. rewrite E1, kg_insert_out; [apply kg_put_eq|reflexivity|intros; discriminate]. }
  assert (Es : s = snd (project_update 1 (Some new) None s1)) by reflexivity.
  unfold project_update in Es. rewrite D1 in Es. cbv zeta in Es. cbn [pr_name pr_token app] in Es.
  change [project_name_key new] with (okeys (NRoot RProjects) [Some (IName, new)]) in Es.
  change [project_name_key x] with (okeys (NRoot RProjects) [Some (IName, x)]) in Es.
  assert (Hc : check_update s1 (okeys (NRoot RProjects) [Some (IName, new)]) (okeys (NRoot RProjects) [Some (IName, x)]) = true).
  { apply check_update_spec. intros [|[|i]] a b [= <-] [= <-]. right. rewrite E1, kg_insert_out; [reflexivity|reflexivity|].
    intros ik Hi E. apply kidx_inj in E. apply iks_in in Hi. cbn in Hi. destruct Hi as [Hi|[Hi|[]]]; congruence. }
  rewrite Hc in Es. cbn [snd] in Es. rewrite Es. split.
  - apply project_by_id_spec. rewrite kg_update_out; [apply kg_put_eq|reflexivity|reflexivity|intros; discriminate|intros; discriminate].
  - unfold project_by_token, get_index. change (make_index_key "projects" "name" x) with (render (kidx (NRoot RProjects) (IName, x))).
    match goal with |- context [kget _ ?z] => fold (kg (kidx (NRoot RProjects) (IName, x)) z) end.
    rewrite kg_update_old; [reflexivity|reflexivity| |cbn; auto].
    intro Hi. apply iks1 in Hi. congruence.
Qed.
Print Assumptions C37_token_lost_on_rename_refuted.
