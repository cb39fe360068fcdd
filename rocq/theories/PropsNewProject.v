(** Property C131: a new project is ready for use. *)
From Coq Require Import List NArith ZArith String Ascii Bool Lia.
From Verif Require Import AMap Kv KvKeys KvKeysFacts KvFacts Md MdOps MdFrame MdTyped MdIndex MdEntities MdProps PropsNames PropsGroups
  Ingest IngestFacts PropsIngest IngestServer PropsServer PropsLive PropsSpoil PropsFit NewProject.
Import ListNotations.
Local Open Scope string_scope.

(** ** Specification *)
(** The project a metadata call is about. *)
Definition op_project (o : MdOp) : option N :=
  match o with
  | OEventCreate p _ _ _ | OEventGetOrCreate p _ _ _ | OEventUpdate p _ _ _ | OEventAttach p _ _ | OEventDelete p _ | OEventRecord p
  | ODictEncode p _ _ _ | ODictCreateKey p _ _ _ _ | OCustomCreate p _ _ | OCustomUpdate p _ _ _ | OCustomDelete p _
  | OAnon p _ _ | OMerge p _ _ _ _ | OGroupGet p _ _ _ | OGroupSet p _ _ _ | OGroupType p _ | OGroupRecord p _
  | OSession p _ _ | OSessionClean p _ | OPropCreate p _ _ _ _ _ | OPropGetOrCreate p _ _ _ _ _ | OPropUpdate p _ _ _ _ _ | OPropDelete p _ _ => Some p
  | _ => None
  end.

(** ** Nothing is stored about a project nobody spoke of *)
Definition about_p (p : N) (k : Key) : Prop :=
  match k with
  | KData (NProj q _) _ | KIdx (NProj q _) _ _ | KSeq (NProj q _) => q = p
  | KGlobalCol q _ | KRecSeq q | KOrderSeq q _ | KGroupsSeq q | KGroupSeq q _ | KGroupRecSeq q _ | KAnon q _ _ | KReal q _ _ | KGroupName q _
  | KSession q _ | KDictKey q _ _ _ | KDictVal q _ _ _ | KDictSeq q _ _ => q = p
  | _ => False
  end.
Lemma touches_about p o k : about_p p k -> touches o k -> op_project o = Some p.
Proof.
  intros A T. destruct o; cbn in T; unfold in_props, in_ns, in_rec, in_dict, in_group, in_group_types, in_sessions, kind_ns in T; cbn [op_project];
  repeat match goal with H : _ \/ _ |- _ => destruct H as [H|H] | H : exists _, _ |- _ => destruct H as [? H] | H : _ /\ _ |- _ => destruct H as [? H] end;
  try (subst k; cbn in A; first [contradiction|congruence]);
  destruct k as [[]|[]|[]| | | | | | | | | | | | | | |]; cbn in A; try contradiction; try discriminate;
  repeat match goal with H : _ /\ _ |- _ => destruct H end; try congruence;
  try (match goal with k : PropKind |- _ => destruct k; congruence end).
Qed.
Lemma untouched snake p ops : forallb wf_op ops = true -> Forall (fun o => op_project o <> Some p) ops ->
  forall k, about_p p k -> wf_key k = true -> kg k (md_run snake ops []) = None.
Proof.
  intros W F k A Wk. rewrite <- (eq_refl : kg k [] = None). unfold md_run. generalize (@nil (string * Val Rec)). revert W.
  induction F as [|o r Ho F IH]; cbn [forallb fold_left]; intros W s; [reflexivity|]. apply andb_prop in W as [W1 W2].
  rewrite IH by exact W2. apply (only_kg _ _ _ _ (md_frame snake o s W1)); [exact Wk|]. intro T. now apply Ho, (touches_about p o k).
Qed.

Section Furnish.
Variable snake : string -> string.
Variable isdict : Property -> bool.
Variables (enc : SVal -> N) (dcv : N -> SVal).
Hypothesis snake_ok : forall x, no_slash x = true -> no_slash (snake x) = true.
Hypothesis dcv_enc : forall v, dcv (enc v) = v.
Variable p : N.
Notation Fine := (Fine isdict dcv p).

Lemma fine_good s : Fine s -> Good p s. Proof. intros [T P E _ _]. constructor; auto. Qed.
Definition op_of (it : Item) : MdOp :=
  match it with IProp k n d t sys => OPropGetOrCreate p k n d (PBase t) sys | IEvent n => OEventGetOrCreate p n None [] end.
Lemma op_quiet it : quiet_op p (op_of it). Proof. destruct it; now repeat split. Qed.
Definition item_fresh (it : Item) (s : Store) : Prop :=
  match it with
  | IProp k n d _ _ => kg (kidx (kind_ns p k) (IName, n)) s = None /\ forall x, d = Some x -> kg (kidx (kind_ns p k) (IDisplayName, x)) s = None
  | IEvent _ => True
  end.
Definition apart (a b : Item) : Prop :=
  match a, b with
  | IProp k n d _ _, IProp k' n' d' _ _ => (k, n) <> (k', n') /\ (d = None \/ d' = None \/ (k, d) <> (k', d'))
  | _, _ => True
  end.
Definition has (it : Item) (s : Store) : Prop :=
  match it with
  | IProp k n d t sys => exists pr, prop_by_name p k n s = Ok pr /\ pp_type pr = PBase t /\ pp_display pr = d /\ pp_system pr = sys
  | IEvent n => event_known p n s
  end.
Lemma wf_kidx k ik : wf_key (kidx (kind_ns p k) ik) = true. Proof. now destruct k. Qed.
Lemma prop_new k n d b sys s : Fine s -> item_fresh (IProp k n d b sys) s ->
  exists x s', prop_get_or_create snake p k n d (PBase b) sys s = (Ok x, s') /\ pp_type x = PBase b /\ pp_display x = d /\ pp_system x = sys /\
    (forall k' ik, (k', ik) <> (k, (IName, n)) -> (forall y, d = Some y -> (k', ik) <> (k, (IDisplayName, y))) ->
       kg (kidx (kind_ns p k') ik) s' = kg (kidx (kind_ns p k') ik) s).
Proof.
  intros Fs [K Kd]. pose proof (fn_props _ _ _ _ Fs k) as G. pose proof (fn_typed _ _ _ _ Fs) as T.
  assert (E : prop_by_name p k n s = Err NotFound).
  { destruct (name_cases p k n s G) as [(x & E)|(E & _)]; [|exact E]. exfalso. apply prop_by_name_iff in E as (id & E & En); [|exact G].
    destruct (prop_by_id_ok _ _ _ _ _ G E) as [Ei Ek]. apply prop_by_id_spec in E. destruct (ix_data _ _ _ G _ _ E) as (r & ks & [= <-] & Hk & Hi).
    rewrite <- Ek, prop_iks_self in Hk. injection Hk as _ <-. rewrite (Hi (IName, n)) in K; [discriminate K|]. rewrite <- En. cbn. now left. }
  assert (Wk : forall i, wf_key (KData (kind_ns p k) i) = true) by now destruct k.
  assert (Ws : wf_key (KSeq (kind_ns p k)) = true) by now destruct k.
  unfold prop_get_or_create. rewrite E. unfold prop_create. rewrite prop_okeys.
  rewrite (proj2 (check_insert_spec (kind_ns p k) _ s)).
  2: { intros ik Hik. apply iks_in in Hik. cbn in Hik. destruct Hik as [[= <-]|[Hd|[]]]; [exact K|]. destruct d as [y|]; [|discriminate Hd]. injection Hd as <-. now apply Kd. }
  replace (make_id_seq_key (prop_ns p k)) with (render (KSeq (kind_ns p k))) by now destruct k.
  destruct (next_seq (render (KSeq (kind_ns p k))) s) as [rr s1] eqn:Es.
  destruct (next_seq_indexed _ _ _ _ _ G Es) as (id & -> & _ & Es1 & Hno & _).
  assert (T1 : Typed (elsewhere p) s1).
  { eapply typed_next; [exact Es| |exact T]. exists (KSeq (kind_ns p k)). now repeat split. }
  change (make_id_seq_key _) with (render (KOrderSeq p (short_name (PBase b)))).
  assert (Wo : wf_key (KOrderSeq p (short_name (PBase b))) = true) by now destruct b.
  destruct (seq_ok _ 0 (KOrderSeq p (short_name (PBase b))) s1 Wo (fun v F => F) T1) as (o & Eo).
  unfold next_zero_seq. destruct (next_from 0 _ s1) as [ro s2] eqn:E2. cbn [fst] in Eo. subst ro. cbv zeta. cbn [storable negb].
  eexists. eexists. split; [reflexivity|]. split; [reflexivity|]. split; [reflexivity|]. split; [reflexivity|].
  intros k' ik N1 N2. rewrite insert_index_snoc.
  change (make_index_key _ _ _) with (render (KGlobalCol p (column_name snake (mkProperty id k n d o (PBase b) sys)))).
  rewrite kg_put_ne; [|apply wf_kidx|reflexivity|discriminate]. rewrite kg_insert_out; [|apply wf_kidx|].
  2: { intros ik' Hik Eq. apply iks_in in Hik. cbn in Hik.
       assert (k' = k /\ ik = ik') as [-> ->].
       { unfold kidx in Eq. destruct ik, ik'; cbn in Eq. destruct k, k'; cbn in Eq; injection Eq; intros; subst; split; congruence. }
       destruct Hik as [[= <-]|[Hd|[]]]; [now apply N1|]. destruct d as [y|]; [|discriminate Hd]. injection Hd as <-. now apply (N2 y). }
  rewrite prop_data_key. rewrite kg_put_ne; [|apply wf_kidx|apply Wk|discriminate].
  assert (E12 : kg (kidx (kind_ns p k') ik) s2 = kg (kidx (kind_ns p k') ik) s1).
  { unfold next_from in E2. destruct (kget _ s1) as [v|]; [destruct (read_num v); [|discriminate]|]; apply (f_equal snd) in E2; cbn [snd] in E2; subst s2;
    (rewrite kg_put_ne; [reflexivity|apply wf_kidx|exact Wo|discriminate]). }
  rewrite E12, Es1. rewrite kg_put_ne; [reflexivity|apply wf_kidx|exact Ws|discriminate].
Qed.
Lemma fresh_frame it o s : wf_op o = true -> (forall k n d t sys, it = IProp k n d t sys -> forall ik, ~ touches o (kidx (kind_ns p k) ik)) ->
  item_fresh it s -> item_fresh it (md_step snake o s).
Proof.
  intros W H. destruct it as [k n d t sys|n]; [|exact (fun x => x)]. cbn. intros [H1 H2]. pose proof (md_frame snake o s W) as F.
  split; [|intros x Hx]; (rewrite (only_kg _ _ _ _ F); [auto|apply wf_kidx|eapply H; reflexivity]).
Qed.
(** Calls that do not take away an event of the project. *)
Definition keeps_events (o : MdOp) : Prop := match o with OEventUpdate q _ _ _ | OEventDelete q _ => q <> p | _ => True end.
Lemma event_create_known m n d l s : event_known p m s -> event_known p m (snd (event_create p n d l s)).
Proof.
  intro K. unfold event_create. destruct (check_insert _ _); [|exact K]. destruct (next_seq _ s) as [[id|] s1] eqn:En; [|exact K]. cbv zeta.
  set (s3 := insert_index _ _ _).
  assert (K3 : event_known p m s3).
  { unfold event_known, s3. rewrite event_okeys. destruct (in_dec ik_dec (IName, m) (iks [Some (IName, n); option_map (pair IDisplayName) d])) as [Hi|Hi].
    - rewrite kg_insert_in; [discriminate|exact Hi].
    - rewrite kg_insert_out; [|reflexivity|intros ik Hik Eq; apply kidx_inj in Eq; now subst ik].
      change (make_data_value_key (events_ns p) id) with (render (KData (NProj p PEvents) id)). rewrite kg_put_ne; [|reflexivity|reflexivity|discriminate].
      assert (O : only (fun k => k = KSeq (NProj p PEvents)) s s1) by (eapply next_seq_only; [exact En|]; exists (KSeq (NProj p PEvents)); auto).
      rewrite (only_kg _ _ _ _ O); [exact K|reflexivity|discriminate]. }
  assert (Fr : only (in_dict p TABLE_EVENTS COLUMN_EVENT) s3 (snd (dict_get_or_create p TABLE_EVENTS COLUMN_EVENT n s3))) by (apply dict_frame; auto).
  destruct (dict_get_or_create p TABLE_EVENTS COLUMN_EVENT n s3) as [[?|?] s4]; cbn [snd] in *; unfold event_known;
    (rewrite (only_kg _ _ _ _ Fr); [exact K3|reflexivity|exact (fun x => x)]).
Qed.
Lemma event_kept o m s : wf_op o = true -> keeps_events o -> event_known p m s -> event_known p m (md_step snake o s).
Proof.
  intros W Kp K. pose proof (md_frame snake o s W) as F.
  destruct o; try (unfold event_known; rewrite (only_kg _ _ _ _ F); [exact K|reflexivity|unfold kidx; cbn in Kp; repeat match goal with k : PropKind |- _ => destruct k end; off]); cbn [md_step].
  - match goal with |- context [event_create ?q] => destruct (N.eq_dec q p) as [->|Nq] end; [now apply event_create_known|].
    unfold event_known. change (snd (event_create p0 name d props s)) with (md_step snake (OEventCreate p0 name d props) s).
    rewrite (only_kg _ _ _ _ F); [exact K|reflexivity|unfold kidx; cbn; intros [[= X]|X]; auto].
  - match goal with |- context [event_get_or_create ?q] => destruct (N.eq_dec q p) as [->|Nq] end.
    + unfold event_get_or_create. destruct (event_by_name p name s) as [y|[]]; try exact K. now apply event_create_known.
    + unfold event_known. change (snd (event_get_or_create p0 name d props s)) with (md_step snake (OEventGetOrCreate p0 name d props) s).
      rewrite (only_kg _ _ _ _ F); [exact K|reflexivity|unfold kidx; cbn; intros [[= X]|X]; auto].
  - unfold event_attach. destruct (event_by_id _ _ _) as [x|]; [|exact K]. cbn [snd]. unfold event_known.
    change (make_data_value_key (events_ns p0) (ev_id x)) with (render (KData (NProj p0 PEvents) (ev_id x))). rewrite kg_put_ne; [exact K|reflexivity|reflexivity|discriminate].
Qed.

(** ** Furnishing *)
Notation step o s := (md_step snake o s).
Lemma item_made it s : Fine s -> item_fresh it s ->
  make_item snake p it s = (Ok tt, step (op_of it) s) /\ has it (step (op_of it) s) /\
  forall it', apart it it' -> item_fresh it' s -> item_fresh it' (step (op_of it) s).
Proof.
  intros Fs Hf. destruct it as [k n d t sys|n]; cbn [make_item op_of md_step has].
  - destruct (prop_new k n d t sys s Fs Hf) as (x & s' & E & Et & Ed & Es & Fr). rewrite E. cbn [snd]. split; [reflexivity|].
    destruct (prop_get_or_create_spec snake p k _ _ _ _ _ _ _ (fn_props _ _ _ _ Fs k) E) as (Hi & Hn & _).
    assert (P' : PropsOk p k s') by (pose proof (prop_get_or_create_ok snake p k n d (PBase t) sys s (fn_props _ _ _ _ Fs k)) as X; now rewrite E in X).
    split; [exists x; split; [apply prop_by_name_iff; eauto|auto]|].
    intros [k' n' d' t' sys'|n'] A; [|exact (fun z => z)]. cbn in A |- *. destruct A as [A1 A2]. intros [B1 B2].
    split; [|intros y Hy]; rewrite Fr; auto; try congruence.
    intros z Hz X. injection X as -> ->. subst d d'. destruct A2 as [A2|[A2|A2]]; congruence.
  - destruct (event_made p n [] s (fine_good _ Fs)) as (e & s' & E & _ & _). rewrite E. cbn [snd]. split; [reflexivity|]. split.
    + destruct (event_named _ _ _ _ _ _ _ (fn_events _ _ _ _ Fs) E) as (E1 & e' & H1 & _ & H2). unfold event_known.
      apply event_by_id_spec in H1. destruct (ix_data _ _ _ E1 _ _ H1) as (r & ks & [= <-] & Hk & Hi). cbn in Hk. injection Hk as _ <-. 
      rewrite (Hi (IName, n)); [discriminate|]. rewrite <- H2. cbn. now left.
    + intros it' _ F'. assert (s' = step (op_of (IEvent n)) s) as -> by (cbn; now rewrite E). apply fresh_frame; [reflexivity| |exact F'].
      intros k' n' d' t' sys' _ ik. destruct k'; unfold kidx; off.
Qed.
Lemma has_kept it o s : tame p o -> keeps_events o -> (forall k, PropsOk p k s) -> has it s -> has it (step o s).
Proof.
  intros To Ke P. destruct it as [k n d t sys|n]; cbn [has]; [|apply event_kept; [apply To|exact Ke]].
  intros (x & E & H). exists x. split; [|exact H]. apply prop_by_name_iff in E as (id & E & En); [|apply P].
  apply prop_by_name_iff; [apply md_step_props; [apply To|apply P]|]. exists id. split; [|exact En]. now apply prop_kept.
Qed.
Lemma op_keeps it : keeps_events (op_of it). Proof. now destruct it. Qed.
Lemma items_made l : forall s, Fine s -> Forall (fun it => item_fresh it s) l -> ForallOrdPairs apart l ->
  make_items snake p l s = (Ok tt, md_run snake (map op_of l) s) /\ Fine (md_run snake (map op_of l) s) /\
  (forall it, In it l -> has it (md_run snake (map op_of l) s)) /\ (forall it, has it s -> has it (md_run snake (map op_of l) s)).
Proof.
  induction l as [|it r IH]; intros s Fs Hf Ha; cbn [make_items map]; [cbn; split; [reflexivity|split; [exact Fs|split; [intros ? []|auto]]]|].
  inversion Hf as [|? ? Hf1 Hf2]; subst. inversion Ha as [|? ? Ha1 Ha2]; subst. destruct (item_made it s Fs Hf1) as (E & Hh & Hk). rewrite E.
  assert (F1 : Fine (step (op_of it) s)) by (apply fine_step; [apply op_quiet|exact Fs]).
  destruct (IH (step (op_of it) s) F1) as (E' & F' & A' & B').
  { apply Forall_forall. intros y Hy. apply Hk; [exact (proj1 (Forall_forall _ _) Ha1 y Hy)|exact (proj1 (Forall_forall _ _) Hf2 y Hy)]. }
  { exact Ha2. }
  unfold md_run in *. cbn [fold_left]. split; [exact E'|]. split; [exact F'|]. split.
  - intros y [<-|Hy]; [now apply B'|now apply A'].
  - intros y Hy. apply B'. apply has_kept; [apply op_quiet|apply op_keeps|apply Fs|exact Hy].
Qed.

(** *** The starting items do not get in each other's way *)
Definition kindb (a b : PropKind) : bool := match a, b with KEvent, KEvent => true | KGroup x, KGroup y => N.eqb x y | _, _ => false end.
Definition apartb (a b : Item) : bool :=
  match a, b with
  | IProp k n d _ _, IProp k' n' d' _ _ =>
      negb (kindb k k' && String.eqb n n') && match d, d' with Some x, Some y => negb (kindb k k' && String.eqb x y) | _, _ => true end
  | _, _ => true
  end.
Lemma apartb_ok a b : apartb a b = true -> apart a b.
Proof.
  destruct a as [k n d t sys|], b as [k' n' d' t' sys'|]; cbn; auto. intro H. apply andb_prop in H as [H1 H2].
  assert (Kb : forall x y, kindb k k' && String.eqb x y = false -> (k, x) <> (k', y)).
  { intros x y E [= <- <-]. rewrite String.eqb_refl, andb_true_r in E. destruct k; cbn in E; [discriminate|]. now rewrite N.eqb_refl in E. }
  split; [apply Kb; now apply negb_true_iff|]. destruct d as [x|], d' as [y|]; auto. right; right. intros [= <- <-].
  apply negb_true_iff in H2. now apply Kb in H2.
Qed.
Fixpoint all_apart (l : list Item) : bool := match l with [] => true | x :: r => forallb (apartb x) r && all_apart r end.
Lemma all_apart_ok l : all_apart l = true -> ForallOrdPairs apart l.
Proof.
  induction l as [|x r IH]; cbn; [constructor|]. intro H. apply andb_prop in H as [H1 H2]. constructor; [|now apply IH].
  apply Forall_forall. intros y Hy. apply apartb_ok. exact (proj1 (forallb_forall _ _) H1 y Hy).
Qed.
Lemma items_apart : ForallOrdPairs apart init_items. Proof. apply all_apart_ok. vm_compute. reflexivity. Qed.

(** *** The whole creation *)
Definition name_ops (name : string) : list MdOp := map (fun t => ODictCreateKey p t "project_id" p name) (TABLE_EVENTS :: map group_col kinds).
Lemma name_in_ops name s : name_in p name s = md_run snake (name_ops name) s. Proof. reflexivity. Qed.
Lemma name_quiet name : Forall (quiet_op p) (name_ops name).
Proof. apply Forall_forall. intros o H. apply in_map_iff in H as (t & <- & Ht). apply quiet_dict. cbn in Ht. repeat (destruct Ht as [<-|Ht]; [reflexivity|]). contradiction. Qed.
Lemma run_off ops k s : forallb wf_op ops = true -> wf_key k = true -> (forall o, In o ops -> ~ touches o k) -> kg k (md_run snake ops s) = kg k s.
Proof.
  unfold md_run. revert s. induction ops as [|o r IH]; cbn [fold_left forallb]; intros s W Wk H; [reflexivity|]. apply andb_prop in W as [W1 W2].
  rewrite IH; auto with datatypes. apply (only_kg _ _ _ _ (md_frame snake o s W1)); auto with datatypes.
Qed.
Lemma quiet_wf ops : Forall (quiet_op p) ops -> forallb wf_op ops = true.
Proof. induction 1 as [|o r H F IH]; [reflexivity|]. cbn. rewrite IH, andb_true_r. apply H. Qed.
Definition root_key (k : Key) : Prop := match k with KData (NRoot RProjects) _ | KIdx (NRoot RProjects) _ _ => True | _ => False end.
Lemma root_off o k : root_key k -> op_project o = Some p -> ~ touches o k.
Proof.
  intros R E. destruct k; cbn in R; try contradiction; (match goal with n : Ns |- _ => destruct n; try contradiction end); match goal with n : RootNs |- _ => destruct n; try contradiction end; destruct o; try discriminate E;
  repeat match goal with k : PropKind |- _ => destruct k end; off.
Qed.
Definition furnish (name : string) : list MdOp := (name_ops name ++ map op_of init_items ++ [OGroupType p GROUP_USER])%list.
Lemma furnish_about name o : In o (furnish name) -> op_project o = Some p.
Proof.
  unfold furnish, name_ops. rewrite !in_app_iff, !in_map_iff. intros [(t & <- & _)|[(it & <- & _)|[<-|[]]]]; try reflexivity. now destruct it.
Qed.
Lemma group_first s : kg (KGroupName p GROUP_USER) s = None -> kg (KGroupsSeq p) s = None ->
  group_type_get_or_create p GROUP_USER s = (Ok (mkGroup 0 GROUP_USER),
     kput (group_name_key p GROUP_USER) (VRec (RGroup (mkGroup 0 GROUP_USER))) (kput (render (KGroupsSeq p)) (VNum 0) s)).
Proof.
  intros G1 G2. unfold group_type_get_or_create, kg in *. change (group_name_key p GROUP_USER) with (render (KGroupName p GROUP_USER)). rewrite G1.
  change (make_id_seq_key (project_ns p "groups")) with (render (KGroupsSeq p)). unfold next_zero_seq, next_from. now rewrite G2.
Qed.
Lemma furnished name s : Fine s -> (forall k, about_p p k -> wf_key k = true -> kg k s = None) ->
  init_project snake p (name_in p name s) = (Ok tt, md_run snake (furnish name) s) /\
  Fine (md_run snake (furnish name) s) /\ (forall it, In it init_items -> has it (md_run snake (furnish name) s)) /\
  kg (KGroupName p GROUP_USER) (md_run snake (furnish name) s) = Some (VRec (RGroup (mkGroup 0 GROUP_USER))).
Proof.
  intros Fs Ab. set (s1 := name_in p name s).
  assert (F1 : Fine s1) by (unfold s1; rewrite name_in_ops; apply fine_run; [apply name_quiet|exact Fs]).
  assert (Ab1 : forall k, about_p p k -> wf_key k = true -> (forall o, In o (name_ops name) -> ~ touches o k) -> kg k s1 = None).
  { intros k A W H. unfold s1. rewrite name_in_ops, run_off; auto. }
  destruct (items_made init_items s1 F1) as (E & F2 & A & _).
  { apply Forall_forall. intros [k n d t sys|n] _; [|exact Logic.I]. cbn [item_fresh].
    split; [|intros x _]; (apply Ab1; [now destruct k|apply wf_kidx|]); intros o Ho; unfold name_ops in Ho; apply in_map_iff in Ho as (tb & <- & _); destruct k; off. }
  { exact items_apart. }
  set (s2 := md_run snake (map op_of init_items) s1) in *.
  assert (Q2 : forall k, about_p p k -> wf_key k = true -> (forall o, In o (name_ops name) -> ~ touches o k) ->
     (forall it, ~ touches (op_of it) k) -> kg k s2 = None).
  { intros k Ak W H1 H2. unfold s2. rewrite run_off; auto.
    intros o Ho. apply in_map_iff in Ho as (it & <- & _). apply H2. }
  assert (G1 : kg (KGroupName p GROUP_USER) s2 = None).
  { apply Q2; [reflexivity|reflexivity| |]; [intros o Ho; unfold name_ops in Ho; apply in_map_iff in Ho as (tb & <- & _); off|].
    intros [k n d t sys|n]; [destruct k|]; off. }
  assert (G2 : kg (KGroupsSeq p) s2 = None).
  { apply Q2; [reflexivity|reflexivity| |]; [intros o Ho; unfold name_ops in Ho; apply in_map_iff in Ho as (tb & <- & _); off|].
    intros [k n d t sys|n]; [destruct k|]; off. }
  assert (Er : md_run snake (furnish name) s = step (OGroupType p GROUP_USER) s2).
  { unfold furnish, s2, s1. rewrite name_in_ops. unfold md_run. now rewrite !fold_left_app. }
  pose proof (group_first s2 G1 G2) as Eg.
  rewrite Er. split; [|split; [|split]].
  - unfold init_project. fold s1. rewrite E, Eg. cbn [md_step]. rewrite Eg. reflexivity.
  - apply fine_step; [now repeat split|exact F2].
  - intros it Hi. apply has_kept; [now repeat split|exact Logic.I|apply F2|now apply A].
  - cbn [md_step]. rewrite Eg. cbn [snd]. change (group_name_key p GROUP_USER) with (render (KGroupName p GROUP_USER)). apply kg_put_eq. 
Qed.
End Furnish.

(** ** From the creation on *)
Section Created.
Variable snake : string -> string.
Variable isdict : Property -> bool.
Variables (enc : SVal -> N) (dcv : N -> SVal).
Hypothesis snake_ok : forall x, no_slash x = true -> no_slash (snake x) = true.
Hypothesis dcv_enc : forall v, dcv (enc v) = v.
Lemma stranger p o : wf_op o = true -> name_token_differ o -> op_project o <> Some p -> quiet_op p o.
Proof.
  intros W D N. split; [split; [exact W|split; [exact D|]]|]; destruct o; auto; cbn in N; try congruence. all: try (intros ->; congruence).
Qed.
Lemma project_made org name token secs s pj s1 : ProjectsOk s -> name <> token -> project_create org name token secs s = (Ok pj, s1) ->
  pj = mkProject (pr_id pj) org name token secs 0 /\ kg (KData (NRoot RProjects) (pr_id pj)) s1 = Some (VRec (RProject pj)) /\
  kg (kidx (NRoot RProjects) (IName, token)) s1 = Some (VNum (pr_id pj)).
Proof.
  intros Pk Ne E. assert (P1 : ProjectsOk s1) by (pose proof (md_step_projects snake (OProjectCreate org name token secs) s eq_refl Ne Pk) as X; cbn [md_step] in X; now rewrite E in X).
  assert (H : pj = mkProject (pr_id pj) org name token secs 0 /\ kg (KData (NRoot RProjects) (pr_id pj)) s1 = Some (VRec (RProject pj))).
  { revert E. unfold project_create. destruct (check_insert _ _); [|discriminate]. destruct (next_seq _ s) as [[id|] z]; [|discriminate]. cbv zeta. intros [= <- <-].
    cbn [pr_id]. split; [reflexivity|].
    change [project_name_key name; project_token_key token] with (okeys (NRoot RProjects) [Some (IName, name); Some (IName, token)]).
    rewrite kg_insert_out; [|reflexivity|intros; discriminate].
    change (make_data_value_key "projects" id) with (render (KData (NRoot RProjects) id)). apply kg_put_eq. }
  destruct H as [H1 H2]. split; [exact H1|]. split; [exact H2|].
  destruct (ix_data _ _ _ P1 _ _ H2) as (r & ks & [= <-] & Hk & Hi). rewrite H1 in Hk at 1. rewrite project_iks_eq in Hk by exact Ne. injection Hk as <-.
  apply Hi. cbn. auto.
Qed.
Lemma by_token token id pj s : kg (KData (NRoot RProjects) id) s = Some (VRec (RProject pj)) -> kg (kidx (NRoot RProjects) (IName, token)) s = Some (VNum id) ->
  project_by_token token s = Ok pj.
Proof.
  intros H1 H2. unfold project_by_token, get_index. change (make_index_key "projects" "name" token) with (render (kidx (NRoot RProjects) (IName, token))).
  unfold kg in H2. rewrite H2. cbn [read_num]. now apply project_by_id_spec.
Qed.
Lemma created org name token secs before pj :
  forallb wf_op before = true -> Forall name_token_differ before -> name <> token ->
  fst (project_create org name token secs (md_run snake before [])) = Ok pj ->
  Forall (fun o => op_project o <> Some (pr_id pj)) before ->
  let p := pr_id pj in
  exists s1, pj = mkProject p org name token secs 0 /\
    new_project snake org name token secs (md_run snake before []) = (Ok pj, md_run snake (furnish p name) s1) /\
    project_by_token token (md_run snake (furnish p name) s1) = Ok pj /\
    Fine isdict dcv p (md_run snake (furnish p name) s1) /\ (forall it, In it init_items -> has p it (md_run snake (furnish p name) s1)) /\
    kg (KGroupName p GROUP_USER) (md_run snake (furnish p name) s1) = Some (VRec (RGroup (mkGroup 0 GROUP_USER))).
Proof.
  intros W D Ne Ec Ab p. set (m := md_run snake before []) in *. destruct (project_create org name token secs m) as [y s1] eqn:E. cbn [fst] in Ec. subst y.
  assert (Fm : Fine isdict dcv p m).
  { apply fine_run; [|apply fine_nil]. apply Forall_forall. intros o Ho. apply stranger.
    - exact (proj1 (forallb_forall _ _) W o Ho).
    - exact (proj1 (Forall_forall _ _) D o Ho).
    - exact (proj1 (Forall_forall _ _) Ab o Ho). }
  set (oc := OProjectCreate org name token secs). assert (Es : s1 = md_step snake oc m) by (cbn [oc md_step]; now rewrite E).
  assert (F1 : Fine isdict dcv p s1) by (rewrite Es; apply fine_step; [now repeat split|exact Fm]).
  assert (A1 : forall k, about_p p k -> wf_key k = true -> kg k s1 = None).
  { intros k A Wk. rewrite Es, (only_kg _ _ _ _ (md_frame snake oc m eq_refl)); [now apply (untouched snake p)|exact Wk|]. intro T. discriminate (touches_about p oc k A T). }
  destruct (project_made org name token secs m pj s1 (fn_projects _ _ _ _ Fm) Ne E) as (E1 & E2 & E3).
  destruct (furnished snake isdict dcv p name s1 F1 A1) as (I1 & I2 & I3 & I4).
  exists s1. split; [exact E1|]. split.
  { unfold new_project. rewrite E. fold p. now rewrite I1. }
  split; [|auto]. apply by_token with p.
  - rewrite run_off; [exact E2|reflexivity|reflexivity|]. intros o Ho. apply (root_off p); [exact Logic.I|exact (furnish_about p name o Ho)].
  - rewrite run_off; [exact E3|reflexivity|reflexivity|]. intros o Ho. apply (root_off p); [exact Logic.I|exact (furnish_about p name o Ho)].
Qed.
(** *** The name of the project in the dictionaries *)
Lemma named_tables p name ts s : (forall t, In t ts -> no_slash t = true) -> forall t, In t ts \/ kg (KDictKey p t "project_id" p) s = Some (VText name) ->
  no_slash t = true ->
  kg (KDictKey p t "project_id" p) (fold_left (fun s t => dict_create_key p t "project_id" p name s) ts s) = Some (VText name).
Proof.
  revert s. induction ts as [|a r IH]; cbn [fold_left]; intros s W t H Wt; [destruct H as [[]|H]; exact H|].
  assert (Wa : no_slash a = true) by (apply W; now left).
  apply IH; [intros x Hx; apply W; now right| |exact Wt]. destruct H as [[<-|H]|H].
  - right. unfold dict_create_key.
    change (make_value_key p (tbl_dict a "project_id") name) with (render (KDictVal p a "project_id" name)).
    change (make_key_key p (tbl_dict a "project_id") p) with (render (KDictKey p a "project_id" p)).
    rewrite kg_put_ne; [apply kg_put_eq|cbn; now rewrite Wa|cbn; now rewrite Wa|discriminate].
  - now left.
  - right. unfold dict_create_key.
    change (make_value_key p (tbl_dict a "project_id") name) with (render (KDictVal p a "project_id" name)).
    change (make_key_key p (tbl_dict a "project_id") p) with (render (KDictKey p a "project_id" p)).
    rewrite kg_put_ne; [|cbn; now rewrite Wt|cbn; now rewrite Wa|discriminate].
    destruct (string_dec t a) as [->|Nt]; [apply kg_put_eq|]. rewrite kg_put_ne; [exact H|cbn; now rewrite Wt|cbn; now rewrite Wa|congruence].
Qed.
Lemma name_read p name s t : In t (TABLE_EVENTS :: map group_col kinds) -> dict_value p t "project_id" p (name_in p name s) = Ok name.
Proof.
  intro Ht. assert (Wt : no_slash t = true) by (cbn in Ht; repeat (destruct Ht as [<-|Ht]; [reflexivity|]); contradiction).
  unfold dict_value. change (make_key_key p (tbl_dict t "project_id") p) with (render (KDictKey p t "project_id" p)). fold (kg (KDictKey p t "project_id" p) (name_in p name s)).
  unfold name_in. rewrite named_tables; [reflexivity| |now left|exact Wt].
  intros x Hx. cbn in Hx. repeat (destruct Hx as [<-|Hx]; [reflexivity|]). contradiction.
Qed.
Lemma run_app a b s : md_run snake (a ++ b) s = md_run snake b (md_run snake a s). Proof. apply fold_left_app. Qed.
Definition rest_ops (p : N) : list MdOp := (map (op_of p) init_items ++ [OGroupType p GROUP_USER])%list.
Lemma furnish_eq p name s : md_run snake (furnish p name) s = md_run snake (rest_ops p) (name_in p name s).
Proof. exact (eq_trans (run_app (name_ops p name) (rest_ops p) s) (f_equal (md_run snake (rest_ops p)) (eq_sym (name_in_ops snake p name s)))). Qed.
Lemma rest_wf p : forallb wf_op (rest_ops p) = true.
Proof.
  apply (quiet_wf p). apply Forall_app. split; [|repeat constructor]. apply Forall_forall. intros o Ho. apply in_map_iff in Ho as (it & <- & _). apply op_quiet.
Qed.
Lemma rest_off p t o : In o (rest_ops p) -> ~ touches o (KDictKey p t "project_id" p).
Proof.
  intro Ho. apply in_app_or in Ho as [Ho|[<-|[]]]; [|off]. apply in_map_iff in Ho as ([k n d ty sys|n] & <- & _); [destruct k; off|off].
Qed.
Lemma read_same p t (s s' : Store) : kg (KDictKey p t "project_id" p) s' = kg (KDictKey p t "project_id" p) s ->
  dict_value p t "project_id" p s' = dict_value p t "project_id" p s.
Proof.
  intro E. unfold dict_value. change (make_key_key p (tbl_dict t "project_id") p) with (render (KDictKey p t "project_id" p)). unfold kg in E. now rewrite E.
Qed.
Lemma name_stays p name s t : In t (TABLE_EVENTS :: map group_col kinds) -> dict_value p t "project_id" p (md_run snake (furnish p name) s) = Ok name.
Proof.
  intro Ht. rewrite furnish_eq, <- (name_read p name s t Ht). apply read_same. apply run_off; [apply rest_wf| |apply rest_off].
  cbn in Ht. repeat (destruct Ht as [<-|Ht]; [reflexivity|]). contradiction.
Qed.
(** *** What stays through every later history *)
Notation serve := (serve snake isdict enc dcv).
Notation serve_all := (serve_all snake isdict enc dcv).
(** Events that change or take away nothing a call may rely on: metadata calls that leave
    the properties, events and records of the project alone, calls without dates. *)
Definition orderly (p : N) (e : Ev) : Prop := quiet_ev p e /\ match e with EMd o => keeps_events p o | _ => True end.
Definition stands (p : N) (s : Store) : Prop :=
  Fine isdict dcv p s /\ (forall it, In it init_items -> has p it s) /\ kg (KGroupName p GROUP_USER) s = Some (VRec (RGroup (mkGroup 0 GROUP_USER))).
Lemma stands_serve p e sv : orderly p e -> ~ links p e (sv_st sv) -> stands p (st_md (sv_st sv)) -> stands p (st_md (sv_st (snd (serve e sv)))).
Proof.
  intros [Q Ke] L (Fs & A & G). pose proof (fine_serve snake isdict enc dcv snake_ok dcv_enc p e sv Q L Fs) as F1.
  split; [exact F1|]. 
  assert (R : st_md (sv_st (snd (serve e sv))) = st_md (sv_st sv) \/
    exists ops, st_md (sv_st (snd (serve e sv))) = md_run snake ops (st_md (sv_st sv)) /\ Forall (fun o => tame p o /\ keeps_events p o) ops).
  { destruct e as [c|o|]; cbn [IngestServer.serve snd sv_st st_md]; [|right; exists [o]; split; [reflexivity|constructor; [split; [apply Q|exact Ke]|constructor]]|now left].
    destruct (if is_track c then sv_track sv else sv_identify sv); [now left|].
    assert (K : st_md (snd (perform snake isdict enc dcv c (sv_st sv))) = st_md (sv_st sv) \/
      exists ops, st_md (snd (perform snake isdict enc dcv c (sv_st sv))) = md_run snake ops (st_md (sv_st sv)) /\ Forall (fun o => tame p o /\ keeps_events p o) ops).
    { destruct (project_by_token (token_of c) (st_md (sv_st sv))) as [pj|x] eqn:E; [|left; now rewrite (no_token _ _ _ _ _ _ _ E)].
      right. destruct (does_call snake isdict enc dcv snake_ok c pj _ E) as (ops & Er & Fo). exists ops. split; [exact Er|].
      eapply Forall_impl; [|exact Fo]. intros o [W H]. split; [split; [exact W|]|]; destruct o; cbn; auto; try contradiction; split; auto.
      intros ->. destruct H as [Hp Hb]. apply L. cbn. split; [exact Hb|]. exists pj. auto. }
    destruct (perform snake isdict enc dcv c (sv_st sv)) as [y z]. cbn [snd] in *. destruct (is_track c); exact K. }
  destruct R as [->|(ops & -> & Fo)]; [auto|]. pose proof (fn_props _ _ _ _ Fs) as P. clear - A G P Fo. revert A G P. unfold md_run. generalize (st_md (sv_st sv)).
  induction Fo as [|o r [To Ko] Fo IH]; cbn [fold_left]; intros s A G P; [auto|]. apply IH.
  - intros it Hi. apply has_kept; auto.
  - apply type_kept; [apply To|exact G].
  - intro k. apply md_step_props; [apply To|apply P].
Qed.
Definition links_in (p : N) (sv : Server) (es : list Ev) : Prop :=
  exists es1 e es2, es = (es1 ++ e :: es2)%list /\ links p e (sv_st (snd (serve_all es1 sv))).
Lemma stands_all p es : forall sv, Forall (orderly p) es -> ~ links_in p sv es -> stands p (st_md (sv_st sv)) -> stands p (st_md (sv_st (snd (serve_all es sv)))).
Proof.
  induction es as [|e r IH]; intros sv O L Hs; [exact Hs|]. inversion O; subst. cbn [IngestServer.serve_all].
  assert (S1 : stands p (st_md (sv_st (snd (serve e sv))))).
  { apply stands_serve; auto. intro K. apply L. exists [], e, r. auto. }
  destruct (serve e sv) as [a sv1] eqn:E. cbn [snd] in S1. specialize (IH sv1). destruct (serve_all r sv1) as [l sv2] eqn:E2. cbn [snd] in *. apply IH; auto.
  intros (es1 & x & es2 & -> & K). apply L. exists (e :: es1), x, es2. split; [reflexivity|]. cbn [IngestServer.serve_all]. rewrite E.
  destruct (serve_all es1 sv1) as [? ?]. exact K.
Qed.
Lemma text_taken p m n w : stands p m -> In n (dict_names ++ text_names)%list -> takes_text isdict p m (n, w).
Proof.
  intros (_ & A & _) Hn. destruct (A (IProp KEvent n None TString false)) as (pr & E & Et & _).
  { unfold init_items. do 4 (apply in_or_app; right). apply in_or_app; left. apply in_map_iff. eauto. }
  exists pr. split; [exact E|]. unfold accepts. cbn [snd]. destruct (isdict pr); [eauto|exact Et].
Qed.
Lemma created_stands org name token secs before pj :
  forallb wf_op before = true -> Forall name_token_differ before -> name <> token ->
  fst (project_create org name token secs (md_run snake before [])) = Ok pj ->
  Forall (fun o => op_project o <> Some (pr_id pj)) before ->
  exists m1, new_project snake org name token secs (md_run snake before []) = (Ok pj, m1) /\ stands (pr_id pj) m1.
Proof.
  intros W D Ne Ec Ab. destruct (created org name token secs before pj W D Ne Ec Ab) as (s1 & _ & E & _ & H). exists (md_run snake (furnish (pr_id pj) name) s1).
  split; [exact E|exact H].
Qed.
Lemma opt_in n v x : In x (opt n v) -> fst x = n. Proof. destruct v; cbn; [intros [<-|[]]; reflexivity|contradiction]. Qed.
Ltac pick := match goal with H : In _ (_ ++ _)%list |- _ => apply in_app_or in H as [H|H] | H : In _ (opt _ _) |- _ => apply opt_in in H; rewrite H
  | H : In _ (_ :: _) |- _ => destruct H as [<-|H] | H : In _ [] |- _ => contradiction end.
Lemma agent_named c x : In x (agent_props c) -> In (fst x) dict_names.
Proof. destruct c as [c|]; [|contradiction]. cbn [agent_props]. intro H. repeat pick; vm_compute; auto 30. Qed.
Lemma geo_named a b x : In x (geo_props a b) -> In (fst x) dict_names.
Proof. unfold geo_props. intro H. repeat pick; vm_compute; auto 30. Qed.
Lemma utm_named c x : In x (utm_props c) -> In (fst x) dict_names.
Proof. destruct c as [c|]; [|contradiction]. cbn [utm_props]. intro H. repeat pick; vm_compute; auto 30. Qed.
End Created.

(** ** The properties *)
(** The columns every events table and every table of groups starts with: name, what is
    shown, type. *)
Definition event_columns : list (string * string * BType) :=
  [("project_id", "Project", TString); ("group_0", "Group 0", TString); ("group_1", "Group 1", TString); ("group_2", "Group 2", TString);
   ("group_3", "Group 3", TString); ("group_4", "Group 4", TString); ("created_at", "Created At", TTimestamp); ("event_id", "Event ID", TInt64);
   ("event", "Event", TString); ("ip", "Ip", TString)].
Definition group_columns : list (string * string * BType) :=
  [("project_id", "Project ID", TString); ("id", "ID", TString); ("version", "Version", TInt64); ("created_at", "Created At", TTimestamp)].
Definition tables : list string := ["events"; "group_0"; "group_1"; "group_2"; "group_3"; "group_4"].
(** The project has a property of that name, display name and type, reserved by the system
    or not. *)
Definition column (p : N) (k : PropKind) (sys : bool) (m : Store) (n : string) (d : option string) (t : BType) : Prop :=
  exists pr, prop_by_name p k n m = Ok pr /\ pp_display pr = d /\ pp_type pr = PBase t /\ pp_system pr = sys.
Lemma event_cols : Forall (fun x => In (IProp KEvent (fst (fst x)) (Some (snd (fst x))) (snd x) true) init_items) event_columns.
Proof.
  assert (B : forall x, In x event_columns -> existsb (fun it => match it with IProp KEvent n (Some d) t true => String.eqb n (fst (fst x)) && String.eqb d (snd (fst x)) && btype_eqb t (snd x) | _ => false end) init_items = true).
  { apply forallb_forall. vm_compute. reflexivity. }
  apply Forall_forall. intros x Hx. apply B, existsb_exists in Hx as ([[|] n [d|] t []|] & Hi & H); try discriminate.
  apply andb_prop in H as [H H3]. apply andb_prop in H as [H1 H2]. apply String.eqb_eq in H1, H2. assert (t = snd x) by (now destruct t, (snd x)). subst. exact Hi.
Qed.
Lemma group_cols g : In g kinds -> Forall (fun x => In (IProp (KGroup g) (fst (fst x)) (Some (snd (fst x))) (snd x) true) init_items) group_columns.
Proof.
  intro H. repeat (apply Forall_cons; [unfold init_items; do 6 (apply in_or_app; right); apply in_flat_map; exists g; (split; [exact H|]); cbn;
    repeat (first [left; reflexivity|right])|]). apply Forall_nil.
Qed.

(** C131, at once: whenever the metadata accept a new project (its name is not taken), the
    creation of the project as a whole succeeds - none of the more than sixty things it is
    furnished with is refused - and the project has the columns of the events table and of
    the five group tables, the events the SDK reports by itself, the kind "user" as kind 0,
    its token leads to it, and every table's dictionary shows its name for its number. *)
Theorem C131_new_project_ready :
  forall snake org name token secs before pj,
    forallb wf_op before = true -> Forall name_token_differ before -> name <> token ->
    let m := md_run snake before [] in
    fst (project_create org name token secs m) = Ok pj ->
    let p := pr_id pj in
    Forall (fun o => op_project o <> Some p) before ->
    exists m1, new_project snake org name token secs m = (Ok pj, m1) /\
      pj = mkProject p org name token secs 0 /\ project_by_token token m1 = Ok pj /\
      Forall (fun x => let '(n, d, t) := x in column p KEvent true m1 n (Some d) t) event_columns /\
      (forall g, (g < 5)%N -> Forall (fun x => let '(n, d, t) := x in column p (KGroup g) true m1 n (Some d) t) group_columns) /\
      Forall (fun n => column p KEvent false m1 n None TString) (dict_names ++ text_names) /\
      Forall (fun n => exists e, event_by_name p n m1 = Ok e) ["Click"; "Page"; "Screen"; "Session Begin"; "Session End"] /\
      kget (group_name_key p "user") m1 = Some (VRec (RGroup (mkGroup 0 "user"))) /\
      Forall (fun t => dict_value p t "project_id" p m1 = Ok name) tables.
Proof.
  intros snake org name token secs before pj W D Ne m Ec p Ab.
  destruct (created snake (fun _ => false) n_sv org name token secs before pj W D Ne Ec Ab) as (s1 & E1 & E2 & E3 & F & A & G).
  fold p in E1, E2, E3, F, A, G. fold m in E2. pose proof (name_stays snake p name s1) as Nm.
  exists (md_run snake (furnish p name) s1). generalize dependent (md_run snake (furnish p name) s1). intros m1 E2 E3 F A G Nm.
  split; [exact E2|].
  split; [exact E1|].
  split; [exact E3|].
  assert (Col : forall k n d t sys, In (IProp k n d t sys) init_items -> column p k sys m1 n d t).
  { intros k n d t sys H. destruct (A _ H) as (pr & H1 & H2 & H4 & H3). exists pr. auto. }
  split; [|split; [|split; [|split; [|split]]]].
  - apply Forall_forall. intros [[n d] t] Hx. exact (Col _ _ _ _ _ (proj1 (Forall_forall _ _) event_cols _ Hx)).
  - intros g Hg. assert (H : In g kinds) by (unfold kinds; cbn; lia).
    apply Forall_forall. intros [[n d] t] Hx. exact (Col _ _ _ _ _ (proj1 (Forall_forall _ _) (group_cols g H) _ Hx)).
  - apply Forall_forall. intros n Hn. apply Col. unfold init_items. do 4 (apply in_or_app; right). apply in_or_app; left. apply in_map_iff. eauto.
  - apply Forall_forall. intros n Hn. apply event_known_ok; [apply (fine_good (fun _ => false) n_sv), F|]. apply (A (IEvent n)).
    unfold init_items. do 3 (apply in_or_app; right). apply in_or_app; left. apply in_map_iff. eauto.
  - exact G.
  - apply Forall_forall. exact Nm.
Qed.
Print Assumptions C131_new_project_ready.

(** C131, ever after: whatever history follows, as long as it neither takes away events,
    properties or records of the project, nor carries dates in identify calls, nor links
    ids of the project - every call that names one user and kinds of groups that are known or
    that there is room for (five names cover the kinds there are and those in the call), with
    properties that fit, is accepted, whatever the user agent, the place and the campaign
    the ingester adds to it; and every identify call about a user, or about a record of
    another kind that is known or that there is room for, whose properties fit. *)
Theorem C131_calls_accepted :
  forall (snake : string -> string) isdict (enc : SVal -> N) (dcv : N -> SVal),
    (forall x, no_slash x = true -> no_slash (snake x) = true) -> (forall v, dcv (enc v) = v) ->
    (forall pr, isdict pr = true -> pp_type pr = PBase TString) ->
  forall org name token secs before pj,
    forallb wf_op before = true -> Forall name_token_differ before -> name <> token ->
    let m := md_run snake before [] in
    fst (project_create org name token secs m) = Ok pj ->
    let p := pr_id pj in
    Forall (fun o => op_project o <> Some p) before ->
  forall sv es, st_md (sv_st sv) = snd (new_project snake org name token secs m) ->
    Forall (orderly p) es -> ~ links_in snake isdict enc dcv p sv es ->
    let s := sv_st (snd (serve_all snake isdict enc dcv es sv)) in
    (forall now r pj' client country city campaign,
       project_by_token (tr_token r) (st_md s) = Ok pj' -> pr_id pj' = p -> one_id r = true ->
       match tr_groups r with
       | Some l => exists kinds, (List.length kinds <= 5)%nat /\ (forall n g, kget (group_name_key p n) (st_md s) = Some (VRec (RGroup g)) -> In n kinds) /\ incl (map fst l) kinds
       | None => True
       end ->
       match tr_props r with Some l => NoDup (map fst l) /\ Forall (takes isdict p KEvent (st_md s)) l | None => True end ->
       tr_agent r = (agent_props client ++ geo_props country city)%list -> tr_utm r = utm_props campaign ->
       fst (track snake isdict dcv now r s) = Ok tt) /\
    (forall r pj', project_by_token (id_token r) (st_md s) = Ok pj' -> pr_id pj' = p -> id_group r = "user" ->
       match id_props r with Some l => NoDup (map fst l) /\ Forall (takes isdict p (KGroup 0) (st_md s)) l | None => True end ->
       fst (identify snake isdict enc dcv r s) = Ok tt) /\
    (forall r pj' grp, project_by_token (id_token r) (st_md s) = Ok pj' -> pr_id pj' = p ->
       fst (group_type_get_or_create p (id_group r) (st_md s)) = Ok grp ->
       match id_props r with Some l => NoDup (map fst l) /\ Forall (takes isdict p (KGroup (gr_id grp)) (st_md s)) l | None => True end ->
       fst (identify snake isdict enc dcv r s) = Ok tt) /\
    (forall n kinds, (List.length kinds <= 5)%nat -> (forall n' g, kget (group_name_key p n') (st_md s) = Some (VRec (RGroup g)) -> In n' kinds) -> In n kinds ->
       exists grp, fst (group_type_get_or_create p n (st_md s)) = Ok grp).
Proof.
  intros snake isdict enc dcv Sn De Dt org name token secs before pj W D Ne m Ec p Ab sv es Em O L s.
  destruct (created_stands snake isdict dcv org name token secs before pj W D Ne Ec Ab) as (m1 & Em1 & H0).
  assert (E1 : st_md (sv_st sv) = m1) by (rewrite Em; unfold m; rewrite Em1; reflexivity). clear Em Em1. rewrite <- E1 in H0. fold p in H0.
  pose proof (stands_all snake isdict enc dcv Sn De p es sv O L H0) as Hs. fold s in Hs. clearbody s. pose proof Hs as (Fs & As & Gs). split; [|split; [|split]].
  - intros now r pj' cl co ci ca Ep Ei One Hg Hp Ha Hu. apply (track_ready snake isdict enc dcv Sn p Dt now r pj' s); auto.
    + apply (As (IEvent "Session Begin")). unfold init_items. do 3 (apply in_or_app; right). apply in_or_app; left. apply in_map_iff. exists "Session Begin". split; [reflexivity|cbn; tauto].
    + rewrite Ha. apply Forall_forall. intros [n w] Hx. apply text_taken with (dcv := dcv); [exact Hs|]. apply in_or_app; left. apply in_app_or in Hx as [Hx|Hx];
      [exact (agent_named _ _ Hx)|exact (geo_named _ _ _ Hx)].
    + rewrite Hu. apply Forall_forall. intros [n w] Hx. apply text_taken with (dcv := dcv); [exact Hs|]. apply in_or_app; left. exact (utm_named _ _ Hx).
  - intros r pj' Ep Ei Eg Hp. apply (identify_ready snake isdict enc dcv Sn De p Dt r pj' (mkGroup 0 GROUP_USER) s); auto.
    rewrite Eg. unfold group_type_get_or_create. unfold kg in Gs. change (group_name_key p "user") with (render (KGroupName p GROUP_USER)). rewrite Gs. reflexivity.
  - intros r pj' grp Ep Ei Eg Hp. exact (identify_ready snake isdict enc dcv Sn De p Dt r pj' grp s Fs Ep Ei Eg Hp).
  - intros n kinds Hl Hk Hn. pose proof (fn_types _ _ _ _ Fs) as Ty.
    destruct (room p n kinds (st_md s) Ty Hl (proj1 (kinds_typed p kinds _ Ty) Hk) Hn) as (g & s' & E & _). exists g. now rewrite E.
Qed.
Print Assumptions C131_calls_accepted.

(** C131, a changed name: after the name of a project was changed, the project has that name
    and every table's dictionary shows it; the token stays unless it was changed too. *)
Theorem C131_rename_shows :
  forall snake before id name token pj s',
    forallb wf_op before = true -> Forall name_token_differ before ->
    rename_project id name token (md_run snake before []) = (Ok pj, s') ->
    project_by_id id s' = Ok pj /\
    Forall (fun t => dict_value id t "project_id" id s' = Ok (pr_name pj)) tables /\
    (forall n, name = Some n -> pr_name pj = n) /\
    exists old, project_by_id id (md_run snake before []) = Ok old /\ (token = None -> pr_token pj = pr_token old) /\ (name = None -> pr_name pj = pr_name old).
Proof.
  intros snake before id name token pj s' W D. pose proof (projects_reach snake before W D) as Pk. set (s := md_run snake before []) in *. clearbody s.
  unfold rename_project, project_update. destruct (project_by_id id s) as [prev|] eqn:Ep; [|discriminate]. cbv zeta.
  destruct (check_update _ _ _); [|discriminate]. set (pj0 := mkProject _ _ _ _ _ _). set (s1 := update_index _ _ _ _). intros [= <- <-].
  destruct (project_by_id_ok _ _ _ Pk Ep) as [Ei _].
  assert (E1 : pr_id pj0 = id) by exact Ei. split; [|split; [|split; [|exists prev; split; [reflexivity|split; intros ->; reflexivity]]]].
  - first [rewrite E1|rewrite Ei]. apply project_by_id_spec. rewrite (name_in_ops plain), run_off; [|apply (quiet_wf id), name_quiet|reflexivity|].
    2: { intros o Ho. apply (root_off id); [exact Logic.I|]. unfold name_ops in Ho. apply in_map_iff in Ho as (t & <- & _). reflexivity. }
    unfold s1. set (ks := (_ ++ _)%list). set (pk := (_ ++ _)%list).
    assert (Fu : only (fun k => exists ik, k = kidx (NRoot RProjects) ik) (kput (make_data_value_key "projects" id) (VRec (RProject pj0)) s) (update_index (kput (make_data_value_key "projects" id) (VRec (RProject pj0)) s) ks pk id)).
    { assert (Hn : forall n, ohits (fun k => exists ik, k = kidx (NRoot RProjects) ik) (project_name_key n)).
      { intro n. exists (kidx (NRoot RProjects) (IName, n)). split; [reflexivity|split; [reflexivity|eauto]]. }
      apply only_update; [apply Forall_app; split; destruct name, token; constructor; (apply Hn || constructor) ..|apply only_refl]. }
    rewrite (only_kg _ _ _ _ Fu); [|reflexivity|intros (ik & X); discriminate X].
    change (make_data_value_key "projects" id) with (render (KData (NRoot RProjects) id)). apply kg_put_eq.
  - apply Forall_forall. intros t Ht. first [rewrite E1|rewrite Ei]. apply name_read. exact Ht.
  - intros n ->. reflexivity.
Qed.
Print Assumptions C131_rename_shows.

(** *** Concrete cases *)
(** The shop of the other examples, and then a second project. *)
Definition blog : Res Project * Store := new_project plain 1 "Blog" "blog token" 1800 (md_run plain shop []).
Definition firefox : Client := mkClient "Firefox" (Some "120") None "Other" None None "Ubuntu" None None None None.
Definition visit : Track :=
  mkTrack "blog token" (Some "ann") None 1700000000000 "Read" (Some [("Page Path", PVString "/a"); ("stars", PVNumber 5 0)]) (Some [("user", "bob")])
    (agent_props (Some firefox) ++ geo_props (Some "Italy") None) (utm_props (Some (mkCampaign "news" (Some "mail") None None None))) "1.2.3.4".
(** A call, an identify call, a refused one and a restart. *)
Definition readers : list Ev :=
  [ECall (CTrack 7 visit); ECall (CIdentify (mkIdentify "blog token" 0 "user" "ann" (Some [("age", PVNumber 44 0)])));
   ECall (CIdentify (mkIdentify "blog token" 0 "user" "ann" (Some [("age", PVString "old")]))); ERestart; EMd (OEventCreate 2 "Like" None [])].
Definition first_day : Server := snd (serve_all plain (fun _ => false) sv_n n_sv readers (up (mkSt (snd blog) [] []))).
Example C131_witness :
  forallb wf_op shop = true /\ Forall name_token_differ shop /\ Forall (fun o => op_project o <> Some 2%N) shop /\
  fst (project_create 1 "Blog" "blog token" 1800 (md_run plain shop [])) = Ok (mkProject 2 1 "Blog" "blog token" 1800 0) /\
  fst blog = Ok (mkProject 2 1 "Blog" "blog token" 1800 0) /\
  Forall (orderly 2) readers /\ ~ links_in plain (fun _ => false) sv_n n_sv 2 (up (mkSt (snd blog) [] [])) readers /\
  fst (serve_all plain (fun _ => false) sv_n n_sv readers (up (mkSt (snd blog) [] []))) = [Some (Ok tt); Some (Ok tt); Some (Err BadRequest); None; None] /\
  fst (track plain (fun _ => false) n_sv 9 visit (sv_st first_day)) = Ok tt /\
  (* a second kind of groups: there is room for it *)
  (forall n g, kget (group_name_key 2 n) (st_md (sv_st first_day)) = Some (VRec (RGroup g)) -> In n ["user"; "team"]) /\
  fst (track plain (fun _ => false) n_sv 9 (mkTrack "blog token" (Some "ann") None 7 "Read" None (Some [("user", "bob"); ("team", "red")]) [] [] "ip") (sv_st first_day)) = Ok tt /\
  (* without the furniture the same call is refused *)
  fst (track plain (fun _ => false) n_sv 9 visit (mkSt (snd (project_create 1 "Blog" "blog token" 1800 (md_run plain shop []))) [] [])) = Err NotFound /\
  (* the name can be taken already *)
  fst (new_project plain 1 "Blog" "another token" 1800 (snd blog)) = Err AlreadyExists /\
  (exists s', rename_project 2 (Some "Diary") None (snd blog) = (Ok (mkProject 2 1 "Diary" "blog token" 1800 0), s')).
Proof.
  split; [reflexivity|]. split; [repeat (constructor; [cbn; try exact Logic.I; try discriminate|]); constructor|].
  split; [repeat (constructor; [discriminate|]); constructor|]. split; [vm_compute; reflexivity|]. split; [vm_compute; reflexivity|].
  split.
  { repeat (constructor; [split; [cbn; try exact Logic.I; try (intros l [= <-]; repeat constructor); repeat split; try discriminate|exact Logic.I]|]). constructor. }
  split.
  { intros (a & e & b & E & L). destruct e as [c|o|]; cbn in L; [|destruct o; try contradiction|contradiction].
    - destruct L as [B _]. assert (H : In (ECall c) readers) by (rewrite E; apply in_or_app; right; now left). cbn in H.
      repeat (destruct H as [H|H]; [try discriminate H; injection H as <-; discriminate B|]). contradiction.
    - match type of E with readers = (a ++ ?x :: b)%list => assert (H : In x readers) by (rewrite E; apply in_or_app; right; now left) end. cbn in H.
      repeat (destruct H as [H|H]; [discriminate H|]). contradiction. }
  split; [vm_compute; reflexivity|]. split; [vm_compute; reflexivity|]. split; [apply kinds_seen; vm_compute; reflexivity|]. do 3 (split; [vm_compute; reflexivity|]).
  eexists. vm_compute. reflexivity.
Qed.
