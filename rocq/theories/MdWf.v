(** The store keeps one entry per key. *)
From Coq Require Import List NArith ZArith String Ascii Bool Lia.
From Verif Require Import AMap Kv KvKeys KvKeysFacts KvFacts Md MdOps MdFrame.
Import ListNotations.
Local Open Scope string_scope.

Lemma kwf_insert ks id (s : Store) : kwf s -> kwf (insert_index s ks id).
Proof. unfold insert_index. generalize (flat ks) as l. intro l. revert s. induction l; cbn; intros; auto using kwf_kput. Qed.
Lemma kwf_delete ks (s : Store) : kwf s -> kwf (delete_index s ks).
Proof. unfold delete_index. generalize (flat ks) as l. intro l. revert s. induction l; cbn; intros; auto using kwf_kdel. Qed.
Lemma kwf_update_one id kp (s : Store) : kwf s -> kwf (update_one id s kp).
Proof. intro H. unfold update_one. destruct (okey_eqb _ _), (fst kp), (snd kp); auto using kwf_kput, kwf_kdel. Qed.
Lemma kwf_update ks pk id (s : Store) : kwf s -> kwf (update_index s ks pk id).
Proof. unfold update_index. generalize (combine ks pk) as l. intro l. revert s. induction l; cbn; intros; auto using kwf_update_one. Qed.
Lemma kwf_next f k (s : Store) : kwf s -> kwf (snd (next_from f k s)).
Proof. intro H. unfold next_from. destruct (kget k s) as [v|]; [destruct (read_num v)|]; cbn; auto using kwf_kput. Qed.
Lemma kwf_next_eq f k (s : Store) r s' : next_from f k s = (r, s') -> kwf s -> kwf s'.
Proof. intros E H. pose proof (kwf_next f k s H) as K. now rewrite E in K. Qed.

Ltac kw1 :=
  match goal with
  | H : kwf ?s |- kwf ?s => exact H
  | |- kwf (kput _ _ _) => apply kwf_kput
  | |- kwf (kdel _ _) => apply kwf_kdel
  | |- kwf (insert_index _ _ _) => apply kwf_insert
  | |- kwf (delete_index _ _) => apply kwf_delete
  | |- kwf (update_index _ _ _ _) => apply kwf_update
  | |- kwf (put_account _ _) => unfold put_account
  | |- kwf (put_org _ _) => unfold put_org
  | E : next_seq _ ?a = (_, ?b) |- kwf ?b => apply (kwf_next_eq _ _ _ _ _ E)
  | E : next_zero_seq _ ?a = (_, ?b) |- kwf ?b => apply (kwf_next_eq _ _ _ _ _ E)
  | |- kwf (snd (?a, ?b)) => cbn [snd]
  end.
Ltac kbrk :=
  match goal with
  | |- context [match ?x with _ => _ end] =>
    lazymatch x with
    | context [match _ with _ => _ end] => fail
    | _ => destruct x eqn:?
    end
  end.
Ltac kw := repeat (first [kw1 | kbrk]).

Lemma dict_kwf p t d v s : kwf s -> kwf (snd (dict_get_or_create p t d v s)).
Proof. intro H. unfold dict_get_or_create. kw. Qed.
Lemma add_organization_kwf m o r s : kwf s -> kwf (snd (add_organization m o r s)).
Proof. intro H. unfold add_organization. kw. Qed.
Lemma remove_organization_kwf m o s : kwf s -> kwf (snd (remove_organization m o s)).
Proof. intro H. unfold remove_organization. kw. Qed.
Lemma change_role_kwf m o r s : kwf s -> kwf (snd (change_organization_role m o r s)).
Proof. intro H. unfold change_organization_role. kw. Qed.
Lemma anon_kwf p g k s : kwf s -> kwf (snd (anon_get_or_create p g k s)).
Proof. intro H. unfold anon_get_or_create. kw. Qed.
Lemma event_create_kwf p n d l s : kwf s -> kwf (snd (event_create p n d l s)).
Proof.
  intro H. unfold event_create. destruct (check_insert _ _); [|exact H].
  destruct (next_seq _ s) as [[id|e] s1] eqn:E; [|exact H]. cbv zeta. set (s3 := insert_index _ _ _).
  assert (K : kwf s3) by (unfold s3; kw). apply (dict_kwf p TABLE_EVENTS COLUMN_EVENT n) in K.
  destruct (dict_get_or_create p TABLE_EVENTS COLUMN_EVENT n s3) as [[?|?] s4]; exact K.
Qed.
Lemma prop_create_kwf snake p k n d t b s : kwf s -> kwf (snd (prop_create snake p k n d t b s)).
Proof. intro H. unfold prop_create. kw. Qed.
Lemma session_clean_kwf p f s : kwf s -> kwf (session_clean p f s).
Proof.
  intro H. unfold session_clean. revert H. generalize (list_prefix (make_data_key (project_ns p "sessions")) s) as l.
  intro l. revert s. induction l as [|v l IH]; cbn [fold_left]; intros s H; [exact H|].
  apply IH. destruct v as [| |[]]; auto. destruct (f s0); auto using kwf_kdel.
Qed.

Theorem md_kwf snake o s : kwf s -> kwf (md_step snake o s).
Proof.
  intro H. destruct o; cbn [md_step].
  - now apply event_create_kwf.
  - unfold event_get_or_create. destruct (event_by_name p name s) as [|[]]; cbn [snd]; auto using event_create_kwf.
  - unfold event_update. kw.
  - unfold event_attach. kw.
  - unfold event_delete. kw.
  - apply kwf_next, H.
  - now apply dict_kwf.
  - unfold dict_create_key. kw.
  - unfold custom_create. kw.
  - unfold custom_update. kw.
  - unfold custom_delete. kw.
  - unfold account_create. kw.
  - unfold account_update. kw.
  - unfold account_delete. kw.
  - unfold org_create. destruct (check_insert _ _); [|exact H].
    destruct (next_seq _ s) as [[id|e] s1] eqn:E; [|exact H]. cbv zeta. set (s2 := insert_index _ _ _).
    assert (K : kwf s2) by (unfold s2; kw). apply (add_organization_kwf creator id OrgOwner) in K.
    destruct (add_organization creator id OrgOwner s2) as [[?|?] s3]; [exact K|exact H].
  - unfold org_update. kw.
  - unfold org_add_member. destruct (org_by_id id s); [|exact H]. destruct (existsb _ _); [exact H|].
    pose proof (add_organization_kwf member id r s H). destruct (add_organization member id r s) as [[?|?] s3]; kw.
  - unfold org_remove_member. destruct (org_by_id id s); [|exact H]. destruct (negb _); [exact H|].
    pose proof (remove_organization_kwf member id s H). destruct (remove_organization member id s) as [[?|?] s3]; kw.
  - unfold org_change_role. destruct (org_by_id id s); [|exact H]. destruct (set_role _ _ _); [|exact H].
    pose proof (change_role_kwf member id r s H). destruct (change_organization_role member id r s) as [[?|?] s3]; kw.
  - unfold org_delete. kw.
  - unfold project_create. kw.
  - unfold project_update. kw.
  - unfold project_count_event. kw.
  - unfold project_delete. kw.
  - unfold team_create. kw.
  - unfold team_update. kw.
  - unfold team_delete. kw.
  - now apply anon_kwf.
  - unfold merge_with_anonymous. destruct (kget _ s); [exact H|].
    pose proof (anon_kwf p g anonymous s H). destruct (anon_get_or_create p g anonymous s) as [[?|?] s1]; kw.
  - unfold group_get_or_create. kw.
  - unfold group_create_or_update. kw.
  - unfold group_type_get_or_create. kw.
  - apply kwf_next, H.
  - unfold session_set_time. kw.
  - now apply session_clean_kwf.
  - now apply prop_create_kwf.
  - unfold prop_get_or_create. destruct (prop_by_name p k name s) as [|[]]; cbn [snd]; auto using prop_create_kwf.
  - unfold prop_update. kw.
  - unfold prop_delete. kw.
Qed.
Lemma md_run_kwf snake ops s : kwf s -> kwf (md_run snake ops s).
Proof. unfold md_run. revert s. induction ops; cbn [fold_left]; intros; auto using md_kwf. Qed.

(** Every key ever stored is a rendered key. *)
Definition rendered (s : Store) : Prop := forall x v, kget x s = Some v -> exists k, x = render k /\ wf_key k = true.

Lemma hits_dec P x : hits P x -> exists k, parse x = Some k /\ x = render k /\ wf_key k = true /\ P k.
Proof. intros (k & -> & W & H). exists k. rewrite parse_render by exact W. auto. Qed.
Theorem md_rendered snake o s : wf_op o = true -> rendered s -> rendered (md_step snake o s).
Proof.
  intros W R x v H. destruct (parse x) as [k|] eqn:Ep.
  - destruct (string_dec x (render k)) as [E|E].
    + destruct (wf_key k) eqn:Wk; [exists k; auto|].
      apply (R x v). rewrite <- (md_frame snake o s W x); [exact H|].
      intro Hh. apply hits_dec in Hh as (k' & E' & _ & W' & _). rewrite Ep in E'. injection E' as <-. congruence.
    + apply (R x v). rewrite <- (md_frame snake o s W x); [exact H|].
      intro Hh. apply hits_dec in Hh as (k' & E' & E2 & _). rewrite Ep in E'. injection E' as <-. congruence.
  - apply (R x v). rewrite <- (md_frame snake o s W x); [exact H|].
    intro Hh. apply hits_dec in Hh as (k' & E' & _). congruence.
Qed.
Lemma md_run_rendered snake ops s : forallb wf_op ops = true -> rendered s -> rendered (md_run snake ops s).
Proof.
  unfold md_run. revert s. induction ops as [|o r IH]; cbn [fold_left forallb]; intros s W R; [exact R|].
  apply andb_prop in W as [W1 W2]. apply IH; auto using md_rendered.
Qed.
Lemma rendered_nil : rendered []. Proof. intros x v H. discriminate. Qed.

(** Listing the data of a namespace returns exactly its records. *)
Lemma list_ns snake ops ns v : forallb wf_op ops = true ->
  let s := md_run snake ops [] in
  In v (list_prefix (make_data_key (ns_str ns)) s) <-> exists id, kg (KData ns id) s = Some v.
Proof.
  intros W s. rewrite list_prefix_In by apply md_run_kwf, kwf_nil. split.
  - intros (x & Hx & Hp). destruct (md_run_rendered snake ops [] W rendered_nil x v Hx) as (k & -> & Wk).
    apply data_prefix_key in Hp as (id & ->); [|exact Wk]. exists id. exact Hx.
  - intros (id & H). exists (render (KData ns id)). split; [exact H|].
    apply data_prefix_key; [reflexivity|]. now exists id.
Qed.
Lemma list_sessions snake ops p v : forallb wf_op ops = true ->
  let s := md_run snake ops [] in
  In v (list_prefix (make_data_key (project_ns p "sessions")) s) <-> exists u, kg (KSession p u) s = Some v.
Proof.
  intros W s. rewrite list_prefix_In by apply md_run_kwf, kwf_nil. split.
  - intros (x & Hx & Hp). destruct (md_run_rendered snake ops [] W rendered_nil x v Hx) as (k & -> & Wk).
    apply session_prefix_key in Hp as (id & ->); [|exact Wk]. exists id. exact Hx.
  - intros (id & H). exists (render (KSession p id)). split; [exact H|].
    apply session_prefix_key; [reflexivity|]. now exists id.
Qed.
