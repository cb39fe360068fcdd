(** C115, C116, C117: metadata records and saved queries read back from the store. *)
From Coq Require Import List NArith ZArith Bool Lia.
From Verif Require Import Bytes BytesFacts Value Memtable Proto MdCodec MdFacts SavedQuery SavedQueryFacts RecCodec RecSpec RecFacts.
Import ListNotations.
Local Open Scope N_scope.

(** *** When nothing is lost *)
Lemma whole_id t : whole t = t <-> second_exact t.
Proof. unfold whole, second_exact. lia. Qed.
Lemma whole_whole t : whole (whole t) = whole t.
Proof. unfold whole. replace ((t - t mod 1000000000) mod 1000000000)%Z with 0%Z; [lia|].
  rewrite Zminus_mod, Zmod_mod, Z.sub_diag. reflexivity. Qed.
Lemma owhole_id o : option_map whole o = o <-> opt second_exact o.
Proof.
  destruct o as [t|]; cbn; [|tauto]. rewrite <- whole_id. split; congruence.
Qed.
Lemma owhole_whole o : option_map whole (option_map whole o) = option_map whole o.
Proof. destruct o; cbn; [|reflexivity]. now rewrite whole_whole. Qed.
Lemma stamps_id s : as_read_stamps s = s <-> stamps_exact s.
Proof.
  unfold stamps_exact. rewrite <- whole_id, <- owhole_id. destruct s as [i c b u ub]; unfold as_read_stamps; cbn. split.
  - intro H. split; congruence.
  - intros [H1 H2]. congruence.
Qed.
Lemma stamps_idem s : as_read_stamps (as_read_stamps s) = as_read_stamps s.
Proof. unfold as_read_stamps; cbn. now rewrite whole_whole, owhole_whole. Qed.
Lemma list_id {A} (o : option (list A)) : as_read_list o = o <-> list_exact o.
Proof. unfold list_exact. destruct o as [[|]|]; cbn; split; congruence. Qed.
Lemma list_idem {A} (o : option (list A)) : as_read_list (as_read_list o) = as_read_list o.
Proof. now destruct o as [[|]|]. Qed.
Lemma panel_id p : as_read_panel p = p <-> panel_exact p.
Proof.
  assert (M : forall n, n mod 2 ^ 32 = n <-> n < 2 ^ 32).
  { intro n. split; [intro H; rewrite <- H; apply N.mod_upper_bound; lia|apply N.mod_small]. }
  unfold panel_exact. rewrite <- !M. destruct p as [r x y w h]; unfold as_read_panel; cbn -[N.pow N.modulo]. split.
  - intro H. repeat split; congruence.
  - intros (H1 & H2 & H3 & H4). congruence.
Qed.
Lemma panel_idem p : as_read_panel (as_read_panel p) = as_read_panel p.
Proof. unfold as_read_panel; cbn -[N.pow N.modulo]. now rewrite !N.mod_mod by lia. Qed.
Lemma map_id_iff {A} (f : A -> A) (P : A -> Prop) l : (forall a, f a = a <-> P a) -> (map f l = l <-> Forall P l).
Proof.
  intro H. induction l as [|a l IH]; cbn; [split; constructor|]. rewrite Forall_cons_iff, <- IH, <- H. split.
  - intro E. split; congruence.
  - intros [E1 E2]. congruence.
Qed.
Lemma map_idem {A} (f : A -> A) l : (forall a, f (f a) = f a) -> map f (map f l) = map f l.
Proof. intro H. rewrite map_map. now apply map_ext. Qed.
Lemma cvalue_idem v : as_read_cvalue (as_read_cvalue v) = as_read_cvalue v.
Proof. now destruct v. Qed.
Lemma cvalue_id v : as_read_cvalue v = v <-> cvalue_exact v.
Proof.
  destruct v; cbn; try tauto.
  - split; [intro H; split; congruence|intros [-> ->]; reflexivity].
  - split; [congruence|intros ->; reflexivity].
Qed.
Lemma cfilter_id f : as_read_cfilter f = f <-> cfilter_exact f.
Proof.
  destruct f as [p op v]; cbn. split.
  - intro H. assert (E : v = Some (map as_read_cvalue (match v with Some l => l | None => [] end))) by congruence.
    destruct v as [l|]; [|discriminate]. exists l. split; [reflexivity|]. apply (map_id_iff as_read_cvalue); [apply cvalue_id|]. congruence.
  - intros (l & -> & H). apply (map_id_iff as_read_cvalue) in H; [|apply cvalue_id]. congruence.
Qed.
Lemma cfilter_idem f : as_read_cfilter (as_read_cfilter f) = as_read_cfilter f.
Proof. destruct f as [p op [l|]]; cbn; [|reflexivity]. rewrite map_idem by apply cvalue_idem. reflexivity. Qed.
Lemma cevent_id e : as_read_cevent e = e <-> cevent_exact e.
Proof.
  destruct e as [r o]; unfold cevent_exact, as_read_cevent; cbn [cev_event cev_filters]. destruct o as [[|f l]|]; cbn [option_map map as_read_list opt].
  - split; [discriminate|]. intros [H _]. now contradiction H.
  - unfold list_exact. rewrite <- (map_id_iff as_read_cfilter) by apply cfilter_id. cbn [map]. split.
    + intro H. split; congruence.
    + intros [_ H]. congruence.
  - unfold list_exact. split; [intros _; split; [discriminate|exact I]|reflexivity].
Qed.
Lemma cevent_idem e : as_read_cevent (as_read_cevent e) = as_read_cevent e.
Proof.
  destruct e as [r o]; unfold as_read_cevent; cbn [cev_event cev_filters]. f_equal. destruct o as [[|f l]|]; cbn [option_map map as_read_list]; try reflexivity.
  rewrite cfilter_idem. now rewrite map_idem by apply cfilter_idem.
Qed.
Ltac exact_iff := rewrite <- ?stamps_id, <- ?list_id, <- ?whole_id, <- ?owhole_id; split;
  [intro; repeat split; congruence|intros; repeat match goal with H : _ /\ _ |- _ => destruct H end; congruence].

(** ** C115: a metadata record is read back as it was written, up to what is said here:
    times lose their fraction of a second, a list that is there but empty becomes absent,
    panel places are kept modulo 2^32, and the property lists of an event are not kept.
    Each theorem: what is read back ([as_read_], RecSpec.v); that a second storing changes
    nothing more; and exactly which records come back unchanged. *)
Theorem C115_accounts_partial : forall a, account_ok a -> fits_memory (write_account a) ->
  read_account (write_account a) = Some (as_read_account a) /\ as_read_account (as_read_account a) = as_read_account a
  /\ (read_account (write_account a) = Some a <-> account_exact a).
Proof.
  intros a Ha Hf. rewrite (account_rt a Ha Hf). split; [reflexivity|]. split.
  - unfold as_read_account; cbn. now rewrite stamps_idem, !list_idem.
  - unfold account_exact. destruct a; unfold as_read_account; cbn. exact_iff.
Qed.
Print Assumptions C115_accounts_partial.
Theorem C115_organizations_partial : forall o, organization_ok o -> fits_memory (write_organization o) ->
  read_organization (write_organization o) = Some (as_read_organization o)
  /\ as_read_organization (as_read_organization o) = as_read_organization o
  /\ (read_organization (write_organization o) = Some o <-> stamps_exact (fog_stamps o)).
Proof.
  intros a Ha Hf. rewrite (organization_rt a Ha Hf). split; [reflexivity|]. split.
  - unfold as_read_organization; cbn. now rewrite stamps_idem.
  - destruct a; unfold as_read_organization; cbn. exact_iff.
Qed.
Print Assumptions C115_organizations_partial.
Theorem C115_teams_partial : forall t, team_ok t -> fits_memory (write_team t) ->
  read_team (write_team t) = Some (as_read_team t) /\ as_read_team (as_read_team t) = as_read_team t
  /\ (read_team (write_team t) = Some t <-> stamps_exact (ftm_stamps t)).
Proof.
  intros a Ha Hf. rewrite (team_rt a Ha Hf). split; [reflexivity|]. split.
  - unfold as_read_team; cbn. now rewrite stamps_idem.
  - destruct a; unfold as_read_team; cbn. exact_iff.
Qed.
Print Assumptions C115_teams_partial.
Theorem C115_projects_partial : forall p, project_ok p -> fits_memory (write_project p) ->
  read_project (write_project p) = Some (as_read_project p) /\ as_read_project (as_read_project p) = as_read_project p
  /\ (read_project (write_project p) = Some p <-> project_exact p).
Proof.
  intros a Ha Hf. rewrite (project_rt a Ha Hf). split; [reflexivity|]. split.
  - unfold as_read_project; cbn. now rewrite stamps_idem, list_idem.
  - unfold project_exact. destruct a; unfold as_read_project; cbn. exact_iff.
Qed.
Print Assumptions C115_projects_partial.
Theorem C115_sessions_partial : forall s, session_ok s -> fits_memory (write_session s) ->
  read_session (write_session s) = Some (as_read_session s) /\ as_read_session (as_read_session s) = as_read_session s
  /\ (read_session (write_session s) = Some s <-> second_exact (fse_created s)).
Proof.
  intros a Ha Hf. rewrite (session_rt a Ha Hf). split; [reflexivity|]. split.
  - unfold as_read_session; cbn. now rewrite whole_whole.
  - destruct a; unfold as_read_session; cbn. exact_iff.
Qed.
Print Assumptions C115_sessions_partial.
Theorem C115_dashboards_partial : forall d, dashboard_ok d -> fits_memory (write_dashboard d) ->
  read_dashboard (write_dashboard d) = Some (as_read_dashboard d) /\ as_read_dashboard (as_read_dashboard d) = as_read_dashboard d
  /\ (read_dashboard (write_dashboard d) = Some d <-> dashboard_exact d).
Proof.
  intros a Ha Hf. rewrite (dashboard_rt a Ha Hf). split; [reflexivity|]. split.
  - unfold as_read_dashboard; cbn. now rewrite stamps_idem, list_idem, map_idem by apply panel_idem.
  - unfold dashboard_exact. destruct a; unfold as_read_dashboard; cbn. rewrite <- (map_id_iff as_read_panel) by apply panel_id. exact_iff.
Qed.
Print Assumptions C115_dashboards_partial.
Theorem C115_events_partial : forall e, event_ok e -> fits_memory (write_event e) ->
  read_event (write_event e) = Some (as_read_event e) /\ as_read_event (as_read_event e) = as_read_event e
  /\ (read_event (write_event e) = Some e <-> event_exact e).
Proof.
  intros a Ha Hf. rewrite (event_rt a Ha Hf). split; [reflexivity|]. split.
  - unfold as_read_event; cbn. now rewrite stamps_idem, list_idem.
  - unfold event_exact. destruct a; unfold as_read_event; cbn. exact_iff.
Qed.
Print Assumptions C115_events_partial.
(** Writing a property panics exactly when its type is a list. *)
Theorem C115_properties_partial : forall p, property_ok p ->
  (write_property p = None <-> exists d, fpr_type p = PtList d)
  /\ (forall b, write_property p = Some b -> fits_memory b ->
        read_property b = Some (as_read_property p) /\ as_read_property (as_read_property p) = as_read_property p
        /\ (read_property b = Some p <-> property_exact p)).
Proof.
  intros p Hp. split.
  - unfold write_property, put_property. destruct (fpr_type p) as [d|d]; cbn [option_map]; split; try discriminate; eauto.
    intros [d' H]; discriminate.
  - intros b Hb Hf. rewrite (property_rt p b Hp Hb Hf). split; [reflexivity|]. split.
    + unfold as_read_property; cbn. now rewrite stamps_idem, list_idem.
    + unfold property_exact. destruct p; unfold as_read_property; cbn. exact_iff.
Qed.
Print Assumptions C115_properties_partial.
(** The values of a group member: kept exactly when they can be written, and writing panics
    exactly when some value is absent or a list. *)
Definition absent_or_list (v : GValue) : Prop :=
  match v with
  | GInt8 None | GInt16 None | GInt32 None | GInt64 None | GBool None | GTimestamp None | GDecimal None | GString None | GList => True
  | _ => False
  end.
Lemma omap_none {A B} (f : A -> option B) l : omap f l = None <-> Exists (fun a => f a = None) l.
Proof.
  induction l as [|a l IH]; cbn [omap]; [split; [discriminate|inversion 1]|]. destruct (f a) eqn:E; cbn [obind].
  - rewrite Exists_cons, <- IH. destruct (omap f l); cbn [obind]; split; try discriminate; try tauto; intros [H|H]; congruence.
  - split; auto.
Qed.
Theorem C115_group_values_partial : forall g,
  (write_group_values g = None <-> Exists (fun v => absent_or_list (snd v)) (fgv_values g))
  /\ (forall b, group_values_ok g -> write_group_values g = Some b -> fits_memory b -> read_group_values b = Some g).
Proof.
  intro g. split; [|intro b; apply group_values_rt].
  unfold write_group_values, put_group_values.
  transitivity (omap put_gprop (fgv_values g) = None).
  { destruct (omap put_gprop (fgv_values g)); cbn; split; congruence. }
  rewrite omap_none. rewrite !Exists_exists.
  assert (E : forall x, put_gprop x = None <-> absent_or_list (snd x)).
  { intros [k v]. unfold put_gprop. cbn [fst snd].
    destruct v as [| [z|] | [z|] | [z|] | [z|] | [b|] | [z|] | [z|] | [s|] |]; cbn; split; try discriminate; try contradiction; auto. }
  split; intros (x & Hx & Hp); exists x; split; auto; now apply E.
Qed.
Print Assumptions C115_group_values_partial.
Theorem C115_groups : forall g, group_ok g -> fits_memory (write_group g) -> read_group (write_group g) = Some g.
Proof. exact group_rt. Qed.
Print Assumptions C115_groups.
Theorem C115_backups_partial : forall b, backup_ok b -> fits_memory (write_backup b) ->
  read_backup (write_backup b) = Some (as_read_backup b) /\ as_read_backup (as_read_backup b) = as_read_backup b
  /\ (read_backup (write_backup b) = Some b <-> backup_exact b).
Proof.
  intros a Ha Hf. rewrite (backup_rt a Ha Hf). split; [reflexivity|]. split.
  - unfold as_read_backup; cbn. now rewrite whole_whole, owhole_whole.
  - unfold backup_exact. destruct a; unfold as_read_backup; cbn. exact_iff.
Qed.
Print Assumptions C115_backups_partial.

Ltac oks_ := repeat (lazymatch goal with
  | |- _ /\ _ => split
  | |- Forall _ [] => constructor
  | |- Forall _ (_ :: _) => constructor
  | |- True => exact I
  | |- (_ < _)%N => vm_compute; reflexivity
  | |- (_ < _)%Z => vm_compute; reflexivity
  | |- (_ <= _)%Z => vm_compute; discriminate
  | |- _ => first [progress cbn -[N.pow Z.pow N.lt Z.le Z.lt N.of_nat Z.div]|red]
  end).
Definition C115_stamps : Stamps := mkStamps 3 1700000000123456789 1 (Some 1700000005000000000%Z) (Some 2).
Definition C115_dash : FDashboard :=
  mkFDashboard C115_stamps 7 (Some []) [77; 97] None [mkFPanel 5 0 (2 ^ 32 + 1) 6 4].
Example C115_witness :
  dashboard_ok C115_dash /\ fits_memory (write_dashboard C115_dash)
  /\ read_dashboard (write_dashboard C115_dash)
     = Some (mkFDashboard (mkStamps 3 1700000000000000000 1 (Some 1700000005000000000%Z) (Some 2)) 7 None [77; 97] None [mkFPanel 5 0 1 6 4])
  /\ (let e := mkFEventRec C115_stamps 7 None [66] None None FEnabled false (Some [4; 5]) None None in
      event_ok e /\ read_event (write_event e) = Some (mkFEventRec (as_read_stamps C115_stamps) 7 None [66] None None FEnabled false None None None))
  /\ (let g := mkFGroupValues 9 [(4, GInt8 (Some (-3)%Z)); (5, GDecimal (Some (-100000000000000000000)%Z)); (6, GString (Some [65]))] in
      group_values_ok g /\ exists b, write_group_values g = Some b /\ fits_memory b /\ read_group_values b = Some g)
  /\ write_group_values (mkFGroupValues 9 [(4, GInt8 None)]) = None.
Proof.
  split; [oks_|]. split; [vm_compute; reflexivity|]. split; [vm_compute; reflexivity|]. split.
  { split; [oks_|vm_compute; reflexivity]. }
  split; [|reflexivity]. split; [oks_|]. eexists. split; [vm_compute; reflexivity|]. split; vm_compute; reflexivity.
Qed.

(** The time of creation which a call returns is not the one read later: for every
    dashboard made at a time with a fraction of a second. *)
Theorem C115_times_refuted : forall d, dashboard_ok d -> fits_memory (write_dashboard d) ->
  (sp_created (fdb_stamps d) mod 1000000000 <> 0)%Z ->
  exists d', read_dashboard (write_dashboard d) = Some d' /\ (sp_created (fdb_stamps d') < sp_created (fdb_stamps d))%Z
    /\ (sp_created (fdb_stamps d) < sp_created (fdb_stamps d') + 1000000000)%Z.
Proof.
  intros d Hd Hf Ht. exists (as_read_dashboard d). split; [now apply dashboard_rt|]. cbn. unfold whole.
  pose proof (Z.mod_pos_bound (sp_created (fdb_stamps d)) 1000000000). lia.
Qed.
Print Assumptions C115_times_refuted.

(** ** C116: a saved report or bookmark holds the query that was saved. *)
(** [print], [parse]: chrono's RFC 3339 text of a time, which reads back. *)
Theorem C116_report_fields : forall (print : Z -> Str) parse (is_time : Z -> Prop),
  (forall t, is_time t -> bytes_ok (print t) /\ parse (print t) = Some t) ->
  forall r, report_ok is_time r -> fits_memory (write_report print r) ->
  exists r', read_report parse (write_report print r) = Some r'
    /\ frp_query r' = frp_query r /\ frp_type r' = frp_type r /\ r' = as_read_report r
    /\ (r' = r <-> report_exact r).
Proof.
  intros print parse is_time Ht r Hr Hf. exists (as_read_report r). split; [now apply (report_rt print parse is_time Ht)|].
  repeat split; try reflexivity.
  - destruct r; unfold as_read_report in H; cbn in *. apply stamps_id. congruence.
  - destruct r; unfold as_read_report in H; cbn in *. apply owhole_id. unfold as_read_stamps in H. destruct frp_stamps; cbn in *. congruence.
  - destruct r; unfold as_read_report in H; cbn in *. apply list_id. congruence.
  - intros [H1 H2]. apply stamps_id in H1. apply list_id in H2. destruct r; unfold as_read_report; cbn in *. congruence.
Qed.
Print Assumptions C116_report_fields.
Theorem C116_bookmark_fields : forall (print : Z -> Str) parse (is_time : Z -> Prop),
  (forall t, is_time t -> bytes_ok (print t) /\ parse (print t) = Some t) ->
  forall b, bookmark_ok is_time b -> fits_memory (write_bookmark print b) ->
  exists b', read_bookmark parse (write_bookmark print b) = Some b'
    /\ fbm_query b' = fbm_query b /\ b' = as_read_bookmark b /\ (b' = b <-> second_exact (fbm_created b)).
Proof.
  intros print parse is_time Ht b Hb Hf. exists (as_read_bookmark b). split; [now apply (bookmark_rt print parse is_time Ht)|].
  split; [reflexivity|]. split; [reflexivity|]. rewrite <- whole_id. destruct b; unfold as_read_bookmark; cbn. split; congruence.
Qed.
Print Assumptions C116_bookmark_fields.

(** A time as 8 bytes stands for its text. *)
Definition C116_print (t : Z) : Str := le_bytes 8 (to_unsigned 64 t).
Definition C116_parse (b : Str) : option Z := if Nat.eqb (length b) 8 then Some (of_unsigned 64 (of_le b)) else None.
Definition C116_funnel : SavedQuery :=
  SQFunnel (mkFunnelQuery (QTBetween 1 1700000000000000000) 0
    [mkFStep [mkFEvent (ERegularName [98]) (Some [PFProperty (PREvent [112]) OpEq (Some [SUtf8 (Some [97]); SDecimal (Some 5%Z) 28 0])])] SoExact;
     mkFStep [mkFEvent (ECustom 4) None] (SoAny [(0, 1)])]
    (mkTimeWindow 2 WuDay) FcSteps FcUnique (Some (FfDropOn 1)) None None (Some [mkExclude (ERegular 7) None (Some (ExBetween 0 1))])
    (Some [BProperty (PRGroup [103] 1)]) None None).
Lemma C116_contract : forall t, i64_ok t -> bytes_ok (C116_print t) /\ C116_parse (C116_print t) = Some t.
Proof.
  intros t Ht. unfold C116_print, C116_parse. rewrite le_bytes_length. replace (Nat.eqb 8 8) with true by reflexivity. split.
  - unfold bytes_ok. split; [rewrite le_bytes_length; vm_compute; reflexivity|]. apply le_bytes_byte.
  - rewrite of_le_le_bytes. change (256 ^ N.of_nat 8) with (2 ^ 64). rewrite N.mod_small by apply to_unsigned_bound.
    rewrite of_unsigned_to_unsigned; [reflexivity|lia|exact Ht].
Qed.
Example C116_witness :
  let r := mkFReport C115_stamps 7 None [82] None RtEvents C116_funnel in
  (forall t, i64_ok t -> bytes_ok (C116_print t) /\ C116_parse (C116_print t) = Some t)
  /\ report_ok i64_ok r /\ fits_memory (write_report C116_print r)
  /\ option_map frp_query (read_report C116_parse (write_report C116_print r)) = Some C116_funnel.
Proof.
  split; [exact C116_contract|]. split; [oks_|]. split; vm_compute; reflexivity.
Qed.

(** ** C117: the filters of a custom event are kept. *)
Theorem C117_custom_events_partial : forall c b, custom_ok c -> write_custom c = Some b -> fits_memory b ->
  read_custom b = Some (as_read_custom c) /\ as_read_custom (as_read_custom c) = as_read_custom c
  /\ (read_custom b = Some c <-> custom_exact c).
Proof.
  intros c b Hc Hw Hf. rewrite (custom_rt c b Hc Hw Hf). split; [reflexivity|]. split.
  - unfold as_read_custom; cbn. now rewrite stamps_idem, list_idem, map_idem by apply cevent_idem.
  - unfold custom_exact. destruct c; unfold as_read_custom; cbn. rewrite <- (map_id_iff as_read_cevent) by apply cevent_id. exact_iff.
Qed.
Print Assumptions C117_custom_events_partial.
Theorem C117_can_be_written : forall c,
  write_custom c = None <->
  exists e l f vs v, In e (fcu_events c) /\ cev_filters e = Some l /\ In f l
    /\ f = PFProperty (match f with PFProperty p _ _ => p end) (match f with PFProperty _ o _ => o end) (Some vs)
    /\ In v vs /\ v = SNull.
Proof.
  intro c. unfold write_custom, put_custom. transitivity (omap put_cevent (fcu_events c) = None).
  { destruct (omap put_cevent (fcu_events c)); cbn; split; congruence. }
  rewrite omap_none, Exists_exists. split.
  - intros (e & He & Hp). unfold put_cevent in Hp. destruct (omap put_cfilter (or_empty (cev_filters e))) eqn:Ef; [discriminate|].
    apply omap_none, Exists_exists in Ef. destruct Ef as (f & Hf & Hpf). destruct (cev_filters e) as [l|] eqn:El; [|contradiction].
    destruct f as [p op v]. cbn [put_cfilter] in Hpf. destruct (omap put_cvalue (or_empty v)) eqn:Ev; [discriminate|].
    apply omap_none, Exists_exists in Ev. destruct Ev as (x & Hx & Hpx). destruct v as [vs|]; [|contradiction].
    exists e, l, (PFProperty p op (Some vs)), vs, x. repeat split; auto. now destruct x.
  - intros (e & l & f & vs & v & He & Hl & Hf & Ef & Hv & ->). exists e. split; [exact He|]. unfold put_cevent. rewrite Hl. cbn [or_empty].
    replace (omap put_cfilter l) with (@None (list Fields)); [reflexivity|]. symmetry. apply omap_none, Exists_exists.
    exists f. split; [exact Hf|]. rewrite Ef. cbn [put_cfilter or_empty]. replace (omap put_cvalue vs) with (@None (list Fields)); [reflexivity|].
    symmetry. apply omap_none, Exists_exists. exists SNull. auto.
Qed.
Print Assumptions C117_can_be_written.

(** A number [digits / 10^scale]; two of them are equal when the cross products are. *)
Definition same_number (m1 s1 m2 s2 : Z) : Prop := (m1 * 10 ^ s2 = m2 * 10 ^ s1)%Z.
(** A number in a filter (platform/src/lib.rs 309-315 turns the JSON number into a decimal of
    its own scale, e.g. 5 into digits 5, scale 0) is read back as another number unless it is
    zero or happens to have 16 decimal places: 5 becomes 0.0000000000000005. *)
Theorem C117_numbers_refuted : forall m p s b, fits 128 m -> (0 <= s)%Z -> put_cvalue (SDecimal (Some m) p s) = Some b ->
  fits_memory (enc_fields b) ->
  exists m' s', get_cvalue (enc_fields b) = Some (SDecimal (Some m') 28 s')
    /\ (same_number m s m' s' <-> m = 0%Z \/ s = 16%Z).
Proof.
  intros m p s b Hm Hs Hp Hf. exists m, 16%Z. split.
  - exact (cvalue_rt (SDecimal (Some m) p s) b Hm Hp Hf).
  - unfold same_number. split.
    + intro H. destruct (Z.eq_dec m 0) as [->|Hn]; [now left|right]. apply Z.mul_reg_l in H; [|exact Hn].
      symmetry. apply Z.pow_inj_r in H; lia.
    + intros [->| ->]; reflexivity.
Qed.
Print Assumptions C117_numbers_refuted.
Definition C117_custom : FCustom :=
  mkFCustom C115_stamps 7 None [66] None FEnabled false
    [mkCEvent (ERegularName [98]) (Some [PFProperty (PREvent [112]) OpGt (Some [SDecimal (Some 5%Z) 28 0]); PFProperty (PRGroup [113] 1) OpExists None])].
Example C117_witness :
  custom_ok C117_custom /\ exists b, write_custom C117_custom = Some b /\ fits_memory b
  /\ option_map fcu_events (read_custom b)
     = Some [mkCEvent (ERegularName [98]) (Some [PFProperty (PREvent [112]) OpGt (Some [SDecimal (Some 5%Z) 28 16]); PFProperty (PRGroup [113] 1) OpExists (Some [])])].
Proof.
  split; [oks_|]. eexists. split; [vm_compute; reflexivity|]. split; vm_compute; reflexivity.
Qed.
(** A value of a known type that is absent is written but can never be read again: the whole
    custom event is lost (reading panics). *)
Theorem C117_absent_values_refuted : forall v, match v with
    | SUtf8 None | SInt8 None | SInt16 None | SInt32 None | SInt64 None | SDecimal None _ _ | SBoolean None | STimestampMs None _ => True
    | _ => False end ->
  exists b, put_cvalue v = Some b /\ get_cvalue (enc_fields b) = None.
Proof.
  intros v H. exists []. destruct v as [|[x|]|[x|]|[x|]|[x|]|[x|]|[x|]|[x|]|[x|]]; try contradiction; split; reflexivity.
Qed.
Print Assumptions C117_absent_values_refuted.
