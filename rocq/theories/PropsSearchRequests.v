(** C132: a search is refused or run, and what is run is what was asked for. *)
From Coq Require Import List NArith ZArith Bool Lia.
From Verif Require Import Calendar Bytes Value Memtable MdCodec SavedQuery Requests RequestsSpec RequestsFacts PropsRequests SearchRequests SearchRequestsSpec.
Import ListNotations.
Local Open Scope N_scope.

(** ** The moment *)
Lemma as_i64_id z : i64 z -> as_i64 z = z.
Proof. unfold i64, as_i64. intros H. rewrite Z.mod_small; lia. Qed.
Lemma as_i64_range z : i64 (as_i64 z).
Proof. unfold i64, as_i64. assert (H := Z.mod_pos_bound (z + 2 ^ 63) (2 ^ 64) ltac:(lia)). lia. Qed.
Lemma in_chrono_moment s : in_chrono (s * 1000) = true <-> moment s.
Proof.
  unfold in_chrono, moment.
  change (jan1 (-262143) * DAY_MS)%Z with (-8334601228800000)%Z. change (jan1 262143 * DAY_MS)%Z with (8210266876800000)%Z.
  rewrite andb_true_iff, Z.leb_le, Z.ltb_lt. lia.
Qed.
Lemma moment_i64 s : moment s -> i64 (s * 1000). Proof. unfold moment, i64. lia. Qed.
Lemma asked_moment checked clock s : moment s -> asked_at checked clock (Some s) = Some (1000 * s)%Z.
Proof.
  intros H. unfold asked_at. rewrite (as_i64_id _ (moment_i64 _ H)), Z.eqb_refl. cbn [negb andb].
  rewrite (proj2 (in_chrono_moment s) H). f_equal. lia.
Qed.
(** *** With overflow checks the moment is the one given, and a moment that chrono does not know
    stops the worker ... *)
Theorem C132_moment_exact clock ts t : asked_at true clock ts = Some t <-> moment_given ts /\ t = meant clock ts.
Proof.
  unfold moment_given, meant. destruct ts as [s|].
  - split.
    + unfold asked_at. destruct (Z.eqb_spec (as_i64 (s * 1000)) (s * 1000)) as [E|E]; [|discriminate]. cbn [negb andb]. rewrite E.
      destruct (in_chrono (s * 1000)) eqn:Hc; [|discriminate]. intros [= <-]. split; [|lia]. intros s' [= <-]. now apply in_chrono_moment.
    + intros [H ->]. now apply asked_moment, H.
  - cbn. split; [intros [= <-]; split; [discriminate|reflexivity]|now intros [_ ->]].
Qed.
(** *** ... without them (a release build) a moment that chrono knows is taken as it is ... *)
Theorem C132_moment_partial checked clock ts : moment_given ts -> asked_at checked clock ts = Some (meant clock ts).
Proof. intros H. destruct ts as [s|]; [apply asked_moment, (H s eq_refl)|reflexivity]. Qed.
(** *** ... but each is also what another number far beyond all dates stands for *)
Theorem C132_moment_release_refuted clock s : moment s ->
  exists s', i64 s' /\ s' <> s /\ ~ moment s' /\ asked_at false clock (Some s') = asked_at false clock (Some s).
Proof.
  intros H. exists (s + 2 ^ 61)%Z. unfold moment in *. split; [unfold i64; lia|]. split; [lia|]. split; [lia|].
  unfold asked_at. rewrite !andb_false_r.
  assert (E : as_i64 ((s + 2 ^ 61) * 1000) = as_i64 (s * 1000)).
  { unfold as_i64. f_equal. replace ((s + 2 ^ 61) * 1000 + 2 ^ 63)%Z with (s * 1000 + 2 ^ 63 + 125 * 2 ^ 64)%Z by lia. apply Z.mod_add. lia. }
  now rewrite E.
Qed.

(** ** The checks *)
Lemma groups_accepted m o : check_groups m o = Accepted <-> grouped_fits m o.
Proof.
  unfold check_groups, grouped_fits. destruct o as [g|]; [|split; [discriminate|reflexivity]].
  rewrite allv_accepted. split.
  - intros H g' [= <-]. eapply Forall_impl; [|exact H]. intros x Hx. cbn beta in Hx.
    rewrite !andv_accepted, !refuse_if_accepted, allv_accepted in Hx. destruct Hx as (_ & Hn & Hf). split; [now apply is_nil|].
    eapply Forall_impl; [|exact Hf]. intros f. apply C124_filter_exact.
  - intros H. specialize (H g eq_refl). rewrite Forall_forall in *. intros x Hx. destruct (H x Hx) as [Hn Hf].
    rewrite !andv_accepted, !refuse_if_accepted, allv_accepted. split; [|split; [now apply is_nil|]].
    + destruct (agd_groups g); [destruct Hx|reflexivity].
    + eapply Forall_impl; [|exact Hf]. intros f. apply C124_filter_exact.
Qed.
Theorem C132_event_search_accepted_exact m r : check_event_search m r = Accepted <-> event_search_fits m r.
Proof.
  unfold check_event_search, event_search_fits. rewrite !andv_accepted, time_accepted, groups_accepted.
  rewrite (list_accepted _ _ (aes_props r) (property_accepted m)).
  assert (E : match aes_events r with
       | None => Accepted
       | Some es => andv (refuse_if match es with [] => true | _ => false end)
                         (allv (fun e => andv (check_event m (sev_event e)) (check_filters m (sev_filters e))) es)
       end = Accepted <-> aes_events r <> Some []
       /\ Forall (fun e => event_exists m (sev_event e) /\ Forall (filter_fits m) (olist (sev_filters e))) (olist (aes_events r))).
  { destruct (aes_events r) as [es|]; cbn [olist].
    - rewrite andv_accepted, refuse_if_accepted, is_nil, allv_accepted. split; intros [H1 H2]; (split; [congruence|]);
        (eapply Forall_impl; [|exact H2]); intros e; cbn beta; rewrite andv_accepted, event_accepted, filters_accepted; auto.
    - split; [split; [discriminate|constructor]|reflexivity]. }
  rewrite E. tauto.
Qed.
Theorem C132_group_search_accepted_exact m r : check_group_search m r = Accepted <-> group_search_fits m r.
Proof.
  unfold check_group_search, group_search_fits. rewrite !andv_accepted, groups_accepted.
  assert (E1 : match ags_time r with Some t => check_time t | None => Accepted end = Accepted <-> (forall t, ags_time r = Some t -> time_fits t)).
  { destruct (ags_time r) as [t|]; [|split; [discriminate|reflexivity]]. rewrite time_accepted. split; [intros H t' [= <-]; exact H|auto]. }
  assert (E2 : match ags_props r with
       | None => Accepted
       | Some ps => andv (refuse_if match ps with [] => true | _ => false end) (allv (check_property m) ps)
       end = Accepted <-> ags_props r <> Some [] /\ Forall (fun p => named_prop m p <> None) (olist (ags_props r))).
  { destruct (ags_props r) as [ps|]; cbn [olist].
    - rewrite andv_accepted, refuse_if_accepted, is_nil, allv_accepted. split; intros [H1 H2]; (split; [congruence|]);
        (eapply Forall_impl; [|exact H2]); intros p; apply property_accepted.
    - split; [split; [discriminate|constructor]|reflexivity]. }
  rewrite E1, E2. tauto.
Qed.
Theorem C132_values_accepted_exact m r : check_values m r = Accepted <-> values_request_fits m r.
Proof.
  unfold check_values, values_request_fits. rewrite !andv_accepted, property_accepted.
  assert (E1 : match avs_event r with Some e => check_event m e | None => Accepted end = Accepted <-> (forall e, avs_event r = Some e -> event_exists m e)).
  { destruct (avs_event r) as [e|]; [|split; [discriminate|reflexivity]]. rewrite event_accepted. split; [intros H e' [= <-]; exact H|auto]. }
  assert (E2 : match avs_filter r with Some (op, v) => check_filter m (AFProperty (avs_prop r) op v) | None => Accepted end = Accepted
     <-> (forall op v, avs_filter r = Some (op, v) -> filter_fits m (AFProperty (avs_prop r) op v))).
  { destruct (avs_filter r) as [[op v]|]; [|split; [discriminate|reflexivity]]. rewrite C124_filter_exact. split; [intros H o w [= <- <-]; exact H|auto]. }
  rewrite E1, E2. tauto.
Qed.

(** ** What stops the worker *)
Lemma allv_crashed_in {A} (f : A -> Verdict) l : allv f l = Crashed -> exists a, In a l /\ f a = Crashed.
Proof.
  induction l as [|a l IH]; cbn; [discriminate|]. rewrite andv_crashed. intros [E|[_ E]]; [exists a; auto|].
  destruct (IH E) as (b & Hb & Hf). exists b. auto.
Qed.
Lemma property_crashed m p : check_property m p = Crashed <-> bad_group p.
Proof.
  destruct p as [n g|n|c]; cbn; unfold GROUPS.
  - destruct (N.ltb_spec g 5); [destruct (nm_group_prop m g n)|]; split; try discriminate; try lia; auto.
  - destruct (nm_prop m n); split; try discriminate; tauto.
  - split; [discriminate|tauto].
Qed.
Lemma filter_crashed m f : check_filter m f = Crashed <-> bad_group (filter_ref f).
Proof. rewrite C122_check_group_exact. destruct f. reflexivity. Qed.
Lemma event_crashed m e : check_event m e <> Crashed. Proof. destruct e; apply refuse_if_crashed. Qed.
Lemma time_crashed q : check_time q <> Crashed. Proof. destruct q; cbn; try discriminate. apply refuse_if_crashed. Qed.
Lemma filters_crashed m l : allv (check_filter m) l = Crashed -> exists p, In p (map filter_ref l) /\ bad_group p.
Proof. intros H. apply allv_crashed_in in H as (f & Hf & E). apply filter_crashed in E. exists (filter_ref f). split; [now apply in_map|exact E]. Qed.
Lemma props_crashed m l : allv (check_property m) l = Crashed -> exists p, In p l /\ bad_group p.
Proof. intros H. apply allv_crashed_in in H as (p & Hp & E). apply property_crashed in E. eauto. Qed.
Lemma groups_crashed m o : check_groups m o = Crashed -> exists p, In p (grouped_refs o) /\ bad_group p.
Proof.
  unfold check_groups, grouped_refs. destruct o as [g|]; [|discriminate]. intros H. apply allv_crashed_in in H as (x & Hx & E).
  rewrite !andv_crashed in E. destruct E as [E|[_ [E|[_ E]]]]; try now apply refuse_if_crashed in E.
  apply filters_crashed in E as (p & Hp & Hb). exists p. split; [|exact Hb]. apply in_flat_map. eauto.
Qed.
Lemma event_search_crashed m r : check_event_search m r = Crashed -> exists p, In p (event_search_refs r) /\ bad_group p.
Proof.
  unfold check_event_search, event_search_refs. rewrite !andv_crashed. intros [E|[_ [E|[_ [E|[_ E]]]]]].
  - now apply time_crashed in E.
  - destruct (aes_events r) as [es|]; [|discriminate]. rewrite andv_crashed in E. destruct E as [E|[_ E]]; [now apply refuse_if_crashed in E|].
    apply allv_crashed_in in E as (e & He & E). rewrite andv_crashed in E. destruct E as [E|[_ E]]; [now apply event_crashed in E|].
    unfold check_filters in E. destruct (sev_filters e) as [fs|] eqn:Ef; [|discriminate]. apply filters_crashed in E as (p & Hp & Hb).
    exists p. split; [|exact Hb]. apply in_or_app. left. apply in_flat_map. exists e. split; [exact He|]. now rewrite Ef.
  - apply groups_crashed in E as (p & Hp & Hb). exists p. split; [|exact Hb]. apply in_or_app. right. apply in_or_app. now left.
  - destruct (aes_props r) as [ps|]; [|discriminate]. apply props_crashed in E as (p & Hp & Hb). exists p. split; [|exact Hb].
    apply in_or_app. right. apply in_or_app. now right.
Qed.
Lemma group_search_crashed m r : check_group_search m r = Crashed -> exists p, In p (group_search_refs r) /\ bad_group p.
Proof.
  unfold check_group_search, group_search_refs. rewrite !andv_crashed. intros [E|[_ [E|[_ E]]]].
  - destruct (ags_time r); [now apply time_crashed in E|discriminate].
  - apply groups_crashed in E as (p & Hp & Hb). exists p. split; [|exact Hb]. apply in_or_app. now left.
  - destruct (ags_props r) as [ps|]; [|discriminate]. rewrite andv_crashed in E. destruct E as [E|[_ E]]; [now apply refuse_if_crashed in E|].
    apply props_crashed in E as (p & Hp & Hb). exists p. split; [|exact Hb]. apply in_or_app. now right.
Qed.
Lemma search_event_none e : search_event_in e = None <-> exists v, In v (flat_map filter_vals (olist (sev_filters e))) /\ unusable v.
Proof. unfold search_event_in. rewrite <- afilters_none. destruct (any_list filter_in (sev_filters e)); cbn; split; congruence. Qed.
Lemma event_search_none r : event_search_in r = None <-> (exists v, In v (event_search_vals r) /\ unusable v) \/ no_group (aes_filters r).
Proof.
  unfold event_search_in, event_search_vals.
  assert (H1 := any_none search_event_in _ (aes_events r) search_event_none). assert (H2 := groups_none (aes_filters r)). fold (groups_in (aes_filters r)) in H2.
  destruct (any_list search_event_in (aes_events r)) as [es|]; cbn [obind].
  - destruct (groups_in (aes_filters r)) as [fs|]; cbn [obind].
    + split; [discriminate|]. intros [(v & Hv & Hu)|H]; [|exfalso; discriminate (proj2 H2 (or_intror H))].
      apply in_app_or in Hv as [Hv|Hv]; [|exfalso; assert (Hx : Some fs = None) by (apply H2; left; eauto); discriminate]. apply in_flat_map in Hv as (e & He & Hv).
      assert (Hx : Some es = None) by (apply H1; exists e; eauto). discriminate.
    + split; [|reflexivity]. intros _. destruct (proj1 H2 eq_refl) as [(v & Hv & Hu)|H]; [|now right]. left. exists v. split; [apply in_or_app; now right|exact Hu].
  - split; [|reflexivity]. intros _. destruct (proj1 H1 eq_refl) as (e & He & v & Hv & Hu). left. exists v. split; [|exact Hu].
    apply in_or_app. left. apply in_flat_map. eauto.
Qed.

Lemma ask_stops {Q} v (c : option Q) now : ask v c now = Stops <-> v = Crashed \/ (v = Accepted /\ (c = None \/ now = None)).
Proof.
  unfold ask. destruct v, c, now; split; intros H; try discriminate; try tauto.
  all: destruct H as [H|[H [H'|H']]]; discriminate.
Qed.
Lemma asked_none clock ts : asked_at true clock ts = None <-> ~ moment_given ts.
Proof.
  destruct (asked_at true clock ts) as [t|] eqn:E.
  - apply C132_moment_exact in E as [H _]. split; [discriminate|contradiction].
  - split; [|reflexivity]. intros _ H. now rewrite (C132_moment_partial true clock ts H) in E.
Qed.
(** *** Of the searches that name no property of a group beyond the fifth, exactly these stop the
    worker: those that are in order but compare with null or a number of 2 ^ 96 or more, give an
    empty list of groups of filters, or give a moment chrono does not know. *)
Theorem C132_event_search_stops_exact m clock r ts : Forall (fun p => ~ bad_group p) (event_search_refs r) ->
  ask_events true m clock r ts = Stops
  <-> event_search_fits m r /\ ((exists v, In v (event_search_vals r) /\ unusable v) \/ no_group (aes_filters r) \/ ~ moment_given ts).
Proof.
  intros Hg. unfold ask_events. rewrite ask_stops, C132_event_search_accepted_exact, event_search_none, asked_none. split.
  - intros [H|H]; [|tauto]. apply event_search_crashed in H as (p & Hp & Hb). rewrite Forall_forall in Hg. now apply Hg in Hp.
  - tauto.
Qed.
Lemma group_search_none r : group_search_in r = None <-> (exists v, In v (grouped_vals (ags_filters r)) /\ unusable v) \/ no_group (ags_filters r).
Proof. unfold group_search_in. rewrite <- groups_none. fold (groups_in (ags_filters r)). destruct (groups_in (ags_filters r)); cbn [obind]; split; congruence. Qed.
Theorem C132_group_search_stops_exact m clock r ts : Forall (fun p => ~ bad_group p) (group_search_refs r) ->
  ask_groups true m clock r ts = Stops
  <-> group_search_fits m r /\ ((exists v, In v (grouped_vals (ags_filters r)) /\ unusable v) \/ no_group (ags_filters r) \/ ~ moment_given ts).
Proof.
  intros Hg. unfold ask_groups. rewrite ask_stops, C132_group_search_accepted_exact, group_search_none, asked_none. split.
  - intros [H|H]; [|tauto]. apply group_search_crashed in H as (p & Hp & Hb). rewrite Forall_forall in Hg. now apply Hg in Hp.
  - tauto.
Qed.
Lemma values_none r : values_in r = None <-> exists v, In v (values_vals r) /\ unusable v.
Proof.
  unfold values_in, values_vals. destruct (avs_filter r) as [[op v]|]; cbn [opt_map obind fst snd].
  - assert (H := any_none json_value_to_scalar _ v value_none). destruct (any_list json_value_to_scalar v) as [x|]; cbn [obind option_map]; rewrite <- H; split; congruence.
  - split; [discriminate|]. intros (x & [] & _).
Qed.
Lemma values_crashed m r : check_values m r = Crashed <-> bad_group (avs_prop r).
Proof.
  unfold check_values. rewrite !andv_crashed, property_crashed. split.
  - intros [H|[H [H'|[_ H']]]]; [exact H| |].
    + destruct (avs_event r); [now apply event_crashed in H'|discriminate].
    + destruct (avs_filter r) as [[op v]|]; [now apply filter_crashed in H'|discriminate].
  - now left.
Qed.
Theorem C132_values_stops_exact m r :
  ask_values m r = Stops <-> bad_group (avs_prop r) \/ (values_request_fits m r /\ exists v, In v (values_vals r) /\ unusable v).
Proof.
  unfold ask_values. rewrite ask_stops, values_crashed, C132_values_accepted_exact, values_none. split; [|tauto].
  intros [H|[H1 [H2|H2]]]; [tauto|tauto|discriminate].
Qed.
(** *** So a search in order may stop the worker: any one does once an empty list of groups of
    filters, a property of a sixth group or a far away moment is put into it. *)
Theorem C132_empty_groups_refuted checked m clock r ts c : event_search_fits m r ->
  ask_events checked m clock (mkAEventSearch (aes_time r) (aes_events r) (Some (mkAGrouped c [])) (aes_props r)) ts = Stops.
Proof.
  intros (H1 & H2 & H3 & H4 & H5). unfold ask_events. rewrite ask_stops. right. split.
  - apply C132_event_search_accepted_exact. repeat (split; [assumption|]). split; [|assumption]. intros g [= <-]. constructor.
  - left. apply event_search_none. right. reflexivity.
Qed.
Theorem C132_sixth_group_refuted checked m clock r ts n g : event_search_fits m r -> 5 <= g ->
  ask_events checked m clock (mkAEventSearch (aes_time r) (aes_events r) (aes_filters r) (Some (olist (aes_props r) ++ [PRGroup n g])%list)) ts = Stops.
Proof.
  intros H Hg. unfold ask_events. rewrite ask_stops. left. apply C132_event_search_accepted_exact in H. unfold check_event_search in *.
  cbn [aes_time aes_events aes_filters aes_props]. rewrite !andv_accepted in H. destruct H as (H1 & H2 & H3 & H4).
  rewrite H1, H2, H3. cbn [andv].
  assert (Hl : allv (check_property m) (olist (aes_props r)) = Accepted) by (destruct (aes_props r); [exact H4|reflexivity]).
  induction (olist (aes_props r)) as [|p l IH]; cbn [app allv] in *.
  - assert (E : check_property m (PRGroup n g) = Crashed) by now apply property_crashed. now rewrite E.
  - rewrite andv_accepted in Hl. destruct Hl as [Hp Hl]. rewrite Hp. cbn [andv]. now apply IH.
Qed.
Theorem C132_far_moment_refuted m clock r s : event_search_fits m r -> i64 s -> ~ moment s ->
  ask_events true m clock r (Some s) = Stops.
Proof.
  intros H _ Hs. unfold ask_events. rewrite ask_stops. right. split; [now apply C132_event_search_accepted_exact|]. right. apply asked_none.
  intros Hm. exact (Hs (Hm s eq_refl)).
Qed.

(** ** A search that runs asks what was asked *)
Lemma ask_runs {Q} v (c : option Q) now q t : ask v c now = Runs (q, t) -> v = Accepted /\ c = Some q /\ now = Some t.
Proof. unfold ask. destruct v, c, now; try discriminate. intros [= <- <-]. auto. Qed.
Lemma time_same q : time_in q = q. Proof. destruct q; cbn; now rewrite ?unit_same. Qed.
Lemma props_same o : option_map (map prop_in) o = o.
Proof. destruct o as [l|]; [|reflexivity]. cbn. f_equal. etransitivity; [|apply map_id]. apply map_ext, prop_same. Qed.
Lemma groups_same o fs : groups_in o = Some fs -> same_filters (group_filters o) fs.
Proof.
  unfold groups_in, same_filters, group_filters, first_group. destruct o as [g|]; [|intros [= <-]; constructor].
  destruct (agd_groups g) as [|g0 gs]; [discriminate|]. intros E. exact (some_rel _ _ (Some (ag_filters g0)) _ filter_same E).
Qed.
Lemma any_shape {A B} (f : A -> option B) o o' : any_list f o = Some o' -> (o' = None <-> o = None).
Proof. destruct o as [l|]; cbn [any_list]; [destruct (omap f l); cbn; [|discriminate]|]; intros [= <-]; split; congruence. Qed.
Theorem C132_event_search_asked_partial checked m clock r ts q t : ask_events checked m clock r ts = Runs (q, t) ->
  event_search_fits m r /\ same_event_search r q /\ (checked = true \/ moment_given ts -> t = meant clock ts).
Proof.
  unfold ask_events. intros H. apply ask_runs in H as (H1 & H2 & H3). split; [now apply C132_event_search_accepted_exact|]. split.
  - unfold event_search_in in H2. destruct (any_list search_event_in (aes_events r)) as [es|] eqn:Ee; [|discriminate]. cbn [obind] in H2.
    destruct (groups_in (aes_filters r)) as [fs|] eqn:Ef; [|discriminate]. cbn [obind] in H2. injection H2 as <-.
    unfold same_event_search. cbn [qes_time qes_events qes_filters qes_props]. split; [apply time_same|]. split; [exact (any_shape _ _ _ Ee)|].
    split; [|split; [now apply groups_same|apply props_same]]. refine (any_rel _ _ _ _ _ Ee). intros e [x fx] Ex.
    unfold search_event_in in Ex. destruct (any_list filter_in (sev_filters e)) as [f|] eqn:Eg; [|discriminate]. cbn in Ex. injection Ex as <- <-.
    cbn [fst snd]. split; [apply event_same|]. exact (any_rel _ _ _ _ filter_same Eg).
  - intros [->|Hm]; [now apply C132_moment_exact in H3|]. rewrite (C132_moment_partial checked clock ts Hm) in H3. congruence.
Qed.
Theorem C132_group_search_asked_partial checked m clock r ts q t : ask_groups checked m clock r ts = Runs (q, t) ->
  group_search_fits m r /\ same_group_search r q /\ (checked = true \/ moment_given ts -> t = meant clock ts).
Proof.
  unfold ask_groups. intros H. apply ask_runs in H as (H1 & H2 & H3). split; [now apply C132_group_search_accepted_exact|]. split.
  - unfold group_search_in in H2. destruct (groups_in (ags_filters r)) as [fs|] eqn:Ef; [|discriminate]. cbn [obind] in H2. injection H2 as <-.
    unfold same_group_search. cbn [qgs_time qgs_group qgs_filters qgs_props].
    split; [destruct (ags_time r); cbn; now rewrite ?time_same|]. split; [reflexivity|]. split; [now apply groups_same|apply props_same].
  - intros [->|Hm]; [now apply C132_moment_exact in H3|]. rewrite (C132_moment_partial checked clock ts Hm) in H3. congruence.
Qed.
Theorem C132_values_asked m r q t : ask_values m r = Runs (q, t) -> values_request_fits m r /\ same_values_request r q.
Proof.
  unfold ask_values. intros H. apply ask_runs in H as (H1 & H2 & _). split; [now apply C132_values_accepted_exact|].
  unfold values_in in H2. destruct (avs_filter r) as [[op v]|] eqn:Ef; cbn [opt_map fst snd] in H2.
  - destruct (any_list json_value_to_scalar v) as [x|] eqn:Ex; [|discriminate]. cbn [obind option_map] in H2. injection H2 as <-.
    unfold same_values_request. cbn [qvs_prop qvs_event qvs_filter]. rewrite Ef. split; [apply prop_same|]. split.
    + destruct (avs_event r); cbn [option_map]; [apply event_same|exact Logic.I].
    + split; [apply op_same|]. split; [apply iff_sym; exact (any_shape _ _ _ Ex)|]. exact (any_rel _ _ _ _ value_same Ex).
  - cbn [obind] in H2. injection H2 as <-. unfold same_values_request. cbn [qvs_prop qvs_event qvs_filter]. rewrite Ef. split; [apply prop_same|]. split; [|exact Logic.I].
    destruct (avs_event r); cbn [option_map]; [apply event_same|exact Logic.I].
Qed.
(** *** The sorting that was asked for makes no difference, and neither does any group of filters
    after the first, nor how the groups are combined. *)
Theorem C132_sort_dropped_refuted checked m clock r ts s :
  ask_groups checked m clock (mkAGroupSearch (ags_time r) (ags_group r) (ags_filters r) (ags_props r) s) ts = ask_groups checked m clock r ts.
Proof. reflexivity. Qed.
Theorem C132_later_groups_dropped_refuted checked m clock r ts g gs c gs' c' :
  let with_groups c gs := mkAGroupSearch (ags_time r) (ags_group r) (Some (mkAGrouped c (g :: gs))) (ags_props r) (ags_sort r) in
  group_search_fits m (with_groups c gs) -> group_search_fits m (with_groups c' gs') ->
  ask_groups checked m clock (with_groups c gs) ts = ask_groups checked m clock (with_groups c' gs') ts.
Proof.
  intros w H H'. apply C132_group_search_accepted_exact in H. apply C132_group_search_accepted_exact in H'. unfold ask_groups. rewrite H, H'. reflexivity.
Qed.

(** ** A case: two events, one with a filter, two properties *)
Definition the_names : Names :=
  mkNames (fun n => if list_eq_dec N.eq_dec n [1] then true else false) (fun _ => false)
    (fun n => if list_eq_dec N.eq_dec n [2] then Some (mkPropInfo false DDecimal true) else None)
    (fun g n => if list_eq_dec N.eq_dec n [3] then Some (mkPropInfo false DString false) else None).
Definition the_search : AEventSearch :=
  mkAEventSearch (QTBetween 5 9) (Some [mkASearchEvent (AERegular [1]) None; mkASearchEvent (AERegular [1]) (Some [AFProperty (PREvent [2]) OpGt (Some [JNum 7 0])])])
    (Some (mkAGrouped None [mkAGroup GAnd [AFProperty (PRGroup [3] 4) OpEq (Some [JText [9]])]])) (Some [PREvent [2]; PRGroup [3] 0]).
Example C132_witness :
  Forall (fun p => ~ bad_group p) (event_search_refs the_search) /\ event_search_fits the_names the_search
  /\ ask_events true the_names 77 the_search (Some 1700000000%Z)
     = Runs (mkQEventSearch (QTBetween 5 9)
               (Some [(ERegularName [1], None); (ERegularName [1], Some [PFProperty (PREvent [2]) OpGt (Some [SDecimal (Some 7%Z) 28 0])])])
               (Some [PFProperty (PRGroup [3] 4) OpEq (Some [SUtf8 (Some [9])])]) (Some [PREvent [2]; PRGroup [3] 0]), 1700000000000%Z)
  /\ ask_values the_names (mkAValues (PREvent [2]) None (Some (OpEq, Some [JNull]))) = Stops
  /\ (exists q t, ask_groups true the_names 77 (mkAGroupSearch None 0 None (Some [PRGroup [3] 0]) (Some (PRGroup [3] 0, true))) None = Runs (q, t)).
Proof.
  split; [repeat constructor; cbn; lia|]. split; [apply C132_event_search_accepted_exact; vm_compute; reflexivity|].
  split; [vm_compute; reflexivity|]. split; [vm_compute; reflexivity|]. eexists _, _. vm_compute. reflexivity.
Qed.

Print Assumptions C132_moment_exact.
Print Assumptions C132_moment_partial.
Print Assumptions C132_moment_release_refuted.
Print Assumptions C132_event_search_accepted_exact.
Print Assumptions C132_group_search_accepted_exact.
Print Assumptions C132_values_accepted_exact.
Print Assumptions C132_event_search_stops_exact.
Print Assumptions C132_group_search_stops_exact.
Print Assumptions C132_values_stops_exact.
Print Assumptions C132_empty_groups_refuted.
Print Assumptions C132_sixth_group_refuted.
Print Assumptions C132_far_moment_refuted.
Print Assumptions C132_event_search_asked_partial.
Print Assumptions C132_group_search_asked_partial.
Print Assumptions C132_values_asked.
Print Assumptions C132_sort_dropped_refuted.
Print Assumptions C132_later_groups_dropped_refuted.
Print Assumptions C132_witness.
