(** C121: saved reports come back as they were written; C122: requests and crashes; C123: the
    query that runs is the one asked for; C124: the filters a report accepts. *)
From Coq Require Import List NArith ZArith String Bool Lia ZifyBool.
From Verif Require Import AMap Bytes BytesFacts Value Memtable MdCodec Kv KvKeys SavedQuery SavedQueryFacts RecCodec RecSpec Boards BoardsSpec PropsStored PropsBoards Requests RequestsSpec RequestsFacts.
Import ListNotations.
Local Open Scope N_scope.

(** ** C121 *)
Section Saved.
Variables (print : Z -> Str) (parse : Str -> option Z) (is_time : Z -> Prop).
Hypothesis times : times_ok print parse is_time.
Variable name_of : AEvent -> N -> Str.
Variable checked : bool.
Notation history := (board_history is_time).
Notation run := (board_run print parse).
Notation in_ := (report_in name_of checked).

(** *** After any history of calls, saving a report with the request [r] and reading it gives
    [kept r]: [r] without empty lists, with the first group of filters only, and with the
    steps of exclusions one lower. *)
Theorem C121_given_back_partial ops p by_ tags name descr typ r c now :
  in_ r = Some c -> Forall plain (request_vals r) -> steps_fit r ->
  history (ops ++ [BRepCreate p (mkRepCreate by_ tags name descr typ c) now])%list ->
  let s := run ops [] in
  let a := rep_create print p (mkRepCreate by_ tags name descr typ c) now s in
  a = (Err Panicked, s)
  \/ exists id rep, fst a = Ok rep /\ frp_name rep = name /\ report_out (frp_query rep) = Some (kept r)
      /\ exists rep', rep_get parse p id (snd a) = Ok rep' /\ frp_name rep' = name /\ report_out (frp_query rep') = Some (kept r).
Proof.
  intros Hc Hp Hs Hh s a.
  assert (E : report_out c = Some (kept r)) by (exact (report_rt name_of checked r c Hp Hs Hc)).
  destruct (C118_report_create_partial print parse is_time times ops p (mkRepCreate by_ tags name descr typ c) now Hh) as (id & _ & _ & [[Hf _]|[Hf Hg]]).
  - left. exact Hf.
  - right. exists id. eexists. split; [exact Hf|]. split; [reflexivity|]. split; [exact E|].
    eexists. split; [rewrite Hg, !N.eqb_refl; reflexivity|]. split; [reflexivity|exact E].
Qed.
End Saved.

Lemma filled_nonempty {A} (o : option (list A)) : filled o -> nonempty o = o.
Proof. unfold filled. destruct o as [[|a l]|]; cbn; intros H; [congruence|reflexivity|reflexivity]. Qed.
Lemma map_self {A} (f : A -> A) (P : A -> Prop) l : (forall a, P a -> f a = a) -> Forall P l -> map f l = l.
Proof. intros H HP. induction HP as [|a l Ha _ IH]; [reflexivity|]. cbn. now rewrite IH, (H a Ha). Qed.
Lemma omap_self {A} (f : A -> A) (P : A -> Prop) o : (forall a, P a -> f a = a) -> Forall P (olist o) -> option_map (map f) o = o.
Proof. intros H HP. destruct o as [l|]; [|reflexivity]. cbn. now rewrite (map_self f P l H HP). Qed.
Lemma tidy_filter_kept f : tidy_filter f -> kept_filter f = f.
Proof. destruct f. cbn. intros H. now rewrite (filled_nonempty _ H). Qed.
Lemma tidy_filters_kept o : tidy_filters o -> kept_filters o = o.
Proof. intros [H1 H2]. unfold kept_filters. rewrite (filled_nonempty _ H1). exact (omap_self _ _ o tidy_filter_kept H2). Qed.
Lemma tidy_did_kept d : tidy_did d -> kept_did d = d.
Proof. destruct d; cbn; intros H; try reflexivity. now rewrite (tidy_filters_kept _ H). Qed.
Lemma tidy_condition_kept c : tidy_condition c -> kept_condition c = c.
Proof.
  destruct c; cbn; intros H; try (now rewrite (filled_nonempty _ H)). destruct H as [H1 H2]. now rewrite (tidy_filters_kept _ H1), (tidy_did_kept _ H2).
Qed.
Lemma tidy_segment_kept s : tidy_segment s -> kept_segment s = s.
Proof.
  destruct s as [n c]. unfold tidy_segment, kept_segment. cbn [as_name as_conditions]. intros H. f_equal.
  apply (map_self _ (Forall tidy_condition)); [|exact H]. intros l Hl. exact (map_self _ _ l tidy_condition_kept Hl).
Qed.
(** *** Tidy requests come back unchanged. *)
Theorem C121_unchanged_partial name_of checked r c : tidy r -> Forall plain (request_vals r) -> report_in name_of checked r = Some c -> report_out c = Some r.
Proof.
  intros Ht Hp Hc.
  assert (Hs : steps_fit r).
  { destruct r as [q|q]; [exact Logic.I|]. destruct Ht as (_ & He & _). cbn. eapply Forall_impl; [|exact He]. intros e [_ H]. destruct (aex_steps e) as [[|a b]|]; tauto. }
  rewrite (report_rt name_of checked r c Hp Hs Hc). f_equal. destruct r as [q|q]; cbn [kept tidy] in *.
  - destruct Ht as (He & Hg & Hn & Hb & Hs1 & Hs2). destruct q as [ti gr un ch an co es fs bs ss]. unfold kept_segmentation.
    cbn [asg_time asg_group asg_unit asg_chart asg_analysis asg_compare asg_events asg_filters asg_breakdowns asg_segments] in *.
    rewrite (filled_nonempty _ Hb), (filled_nonempty _ Hs1), (omap_self _ _ ss tidy_segment_kept Hs2). do 2 f_equal.
    + refine (map_self _ _ es _ He). intros [ev f b q] [H1 H2]. cbn in *. now rewrite (tidy_filters_kept _ H1), (filled_nonempty _ H2).
    + destruct fs as [g|]; [|reflexivity]. destruct Hg as (l & -> & Hl). specialize (Hn _ eq_refl). unfold first_group in *. cbn [agd_groups ag_filters] in *.
      destruct l as [|a l]; [congruence|]. rewrite (map_self _ _ _ tidy_filter_kept Hl). reflexivity.
  - destruct Ht as (He & Hx & Hs1 & Hg). destruct q as [ti gr st wi ch co fi to ho ex bs ss fs]. unfold kept_funnel.
    cbn [afn_time afn_group afn_steps afn_window afn_chart afn_count afn_filter afn_touch afn_holding afn_exclude afn_breakdowns afn_segments afn_filters] in *.
    rewrite (omap_self _ _ ss tidy_segment_kept Hs1). do 2 f_equal.
    + refine (map_self _ _ st _ He). intros [ev o] H. cbn [ast_events ast_order] in *. f_equal. refine (map_self _ _ ev _ H).
      intros [e f] Hf. cbn in *. now rewrite (omap_self _ _ f tidy_filter_kept Hf).
    + refine (omap_self _ _ ex _ Hx). intros [e f s] [H1 H2]. unfold kept_exclude. cbn [aex_event aex_filters aex_steps] in *.
      rewrite (omap_self _ _ f tidy_filter_kept H1). f_equal. destruct s as [[|a b]|]; [reflexivity|tauto|reflexivity].
    + destruct fs as [g|]; [|reflexivity]. destruct Hg as (l & -> & Hl). cbn. unfold alone. now rewrite (map_self _ _ _ tidy_filter_kept Hl).
Qed.

(** *** The steps of an exclusion move down by one each time a report is saved. *)
Definition resave (checked : bool) (r : AFunnel) : option AFunnel := obind (funnel_in checked r) funnel_out.
Fixpoint saved_times (checked : bool) (n : nat) (r : AFunnel) : option AFunnel :=
  match n with O => Some r | Datatypes.S k => obind (saved_times checked k r) (resave checked) end.
Definition excluded_between (r : AFunnel) : list (N * N) :=
  flat_map (fun e => match aex_steps e with Some (ExBetween a b) => [(a, b)] | _ => [] end) (olist (afn_exclude r)).
Lemma kept_between r : excluded_between (kept_funnel r) = map (fun ab => (one_lower (fst ab), one_lower (snd ab))) (excluded_between r).
Proof.
  unfold excluded_between. cbn [kept_funnel afn_exclude]. destruct (afn_exclude r) as [l|]; [|reflexivity]. cbn [option_map olist].
  induction l as [|[ev fs st] l IH]; [reflexivity|]. cbn [map flat_map kept_exclude aex_steps]. rewrite IH, map_app. f_equal. destruct st as [[|a b]|]; reflexivity.
Qed.
Lemma one_lower_pos a : 1 <= a -> a < 2 ^ 64 -> one_lower a = a - 1.
Proof. intros H1 H2. unfold one_lower. replace (a + (2 ^ 64 - 1)) with ((a - 1) + 1 * 2 ^ 64) by lia. rewrite N.mod_add by lia. apply N.mod_small. lia. Qed.
Lemma kept_filter_vals f : filter_vals (kept_filter f) = filter_vals f.
Proof. destruct f. cbn. apply nonempty_olist. Qed.
Lemma kept_flat l : flat_map filter_vals (map kept_filter l) = flat_map filter_vals l.
Proof. induction l as [|f l IH]; [reflexivity|]. cbn. now rewrite IH, kept_filter_vals. Qed.
Lemma kept_oflat o : flat_map filter_vals (olist (option_map (map kept_filter) o)) = flat_map filter_vals (olist o).
Proof. destruct o as [l|]; [|reflexivity]. apply kept_flat. Qed.
Lemma kept_sflat o : flat_map filter_vals (olist (kept_filters o)) = flat_map filter_vals (olist o).
Proof. unfold kept_filters. rewrite kept_oflat. now rewrite nonempty_olist. Qed.
Lemma kept_condition_vals c : condition_vals (kept_condition c) = condition_vals c.
Proof.
  destruct c; cbn [kept_condition condition_vals]; try apply nonempty_olist. rewrite kept_sflat. f_equal.
  destruct agg; cbn [kept_did did_vals]; try reflexivity. apply kept_sflat.
Qed.
Lemma flat_map_map {A B C} (f : A -> B) (g : B -> list C) l : flat_map g (map f l) = flat_map (fun a => g (f a)) l.
Proof. induction l as [|a l IH]; [reflexivity|]. cbn. now rewrite IH. Qed.
Lemma flat_map_eq {A B} (f g : A -> list B) l : (forall a, f a = g a) -> flat_map f l = flat_map g l.
Proof. intros H. induction l as [|a l IH]; [reflexivity|]. cbn. now rewrite IH, H. Qed.
Lemma kept_segment_vals s : segment_vals (kept_segment s) = segment_vals s.
Proof.
  unfold segment_vals, kept_segment. cbn [as_conditions]. rewrite flat_map_map. apply flat_map_eq. intros l. rewrite flat_map_map. apply flat_map_eq, kept_condition_vals.
Qed.
Lemma kept_funnel_vals r : funnel_vals (kept_funnel r) = funnel_vals r.
Proof.
  unfold funnel_vals, kept_funnel. cbn [afn_steps afn_exclude afn_segments afn_filters]. f_equal; [|f_equal; [|f_equal]].
  - rewrite flat_map_map. apply flat_map_eq. intros s. cbn [ast_events]. rewrite flat_map_map. apply flat_map_eq. intros e. apply kept_oflat.
  - destruct (afn_exclude r) as [l|]; [|reflexivity]. cbn [option_map olist]. rewrite flat_map_map. apply flat_map_eq. intros e. cbn [kept_exclude aex_filters]. apply kept_oflat.
  - destruct (afn_segments r) as [l|]; [|reflexivity]. cbn [option_map olist]. rewrite flat_map_map. apply flat_map_eq. intros s. apply kept_segment_vals.
  - destruct (afn_filters r) as [g|]; [|reflexivity]. cbn. rewrite app_nil_r || idtac. unfold first_group at 1. cbn. apply kept_flat.
Qed.
Definition in_range (n : N) (ab : N * N) : Prop := n <= fst ab < 2 ^ 64 /\ n <= snd ab < 2 ^ 64.
Lemma resave_ok checked r : Forall plain (funnel_vals r) -> ~ (exists v, In v (funnel_vals r) /\ unusable v) -> ~ no_group (afn_filters r) ->
  Forall (in_range 1) (excluded_between r) -> resave checked r = Some (kept_funnel r).
Proof.
  intros Hp Hu Hg Hx. unfold resave. destruct (funnel_in checked r) as [c|] eqn:Ec.
  - cbn [obind]. apply (funnel_rt (fun _ _ => []) checked r c Hp); [|exact Ec]. apply Forall_forall. intros e He. unfold exsteps_fit.
    destruct (aex_steps e) as [[|a b]|] eqn:Es; try exact Logic.I. rewrite Forall_forall in Hx.
    assert (In (a, b) (excluded_between r)) as Hi by (apply in_flat_map; exists e; split; [exact He|rewrite Es; now left]).
    destruct (Hx _ Hi) as [H1 H2]. cbn in *. lia.
  - apply funnel_none in Ec. destruct Ec as [H|[H|(_ & e & a & b & He & Es & H)]]; try tauto. exfalso. rewrite Forall_forall in Hx.
    assert (In (a, b) (excluded_between r)) as Hi by (apply in_flat_map; exists e; split; [exact He|rewrite Es; now left]).
    destruct (Hx _ Hi) as [H1 H2]. cbn in *. lia.
Qed.
Lemma kept_no_group r : ~ no_group (afn_filters r) -> ~ no_group (afn_filters (kept_funnel r)).
Proof. cbn [kept_funnel afn_filters]. destruct (afn_filters r); cbn; intros H; [discriminate|tauto]. Qed.
Lemma in_range_lower n ab : in_range (n + 1) ab -> in_range n (one_lower (fst ab), one_lower (snd ab)).
Proof. intros [H1 H2]. unfold in_range. cbn [fst snd]. rewrite !one_lower_pos by lia. lia. Qed.
Theorem C121_exclusion_drift_refuted checked n r :
  Forall plain (funnel_vals r) -> ~ (exists v, In v (funnel_vals r) /\ unusable v) -> ~ no_group (afn_filters r) ->
  Forall (in_range (N.of_nat n)) (excluded_between r) ->
  exists r', saved_times checked n r = Some r'
    /\ excluded_between r' = map (fun ab => (fst ab - N.of_nat n, snd ab - N.of_nat n)) (excluded_between r).
Proof.
  intros Hp Hu Hg Hx.
  enough (exists r', saved_times checked n r = Some r' /\ funnel_vals r' = funnel_vals r /\ ~ no_group (afn_filters r')
    /\ excluded_between r' = map (fun ab => (fst ab - N.of_nat n, snd ab - N.of_nat n)) (excluded_between r)) as (r' & H1 & _ & _ & H2) by eauto.
  induction n as [|n IH].
  - exists r. split; [reflexivity|]. split; [reflexivity|]. split; [exact Hg|]. symmetry. etransitivity; [|apply map_id]. apply map_ext. intros [a b]. cbn. now rewrite !N.sub_0_r.
  - assert (Hx' : Forall (in_range (N.of_nat n)) (excluded_between r)).
    { eapply Forall_impl; [|exact Hx]. intros [a b] [H1 H2]. split; lia. }
    destruct (IH Hx') as (r' & E & Ev & Eg & Eb). exists (kept_funnel r'). cbn [saved_times]. rewrite E. cbn [obind].
    assert (Hr : Forall (in_range 1) (excluded_between r')).
    { rewrite Eb. apply Forall_map. eapply Forall_impl; [|exact Hx]. intros [a b] [H1 H2]. unfold in_range. cbn [fst snd] in *. lia. }
    rewrite resave_ok by (rewrite ?Ev; assumption). split; [reflexivity|]. split; [now rewrite kept_funnel_vals|]. split; [now apply kept_no_group|].
    rewrite kept_between, Eb, map_map. apply map_ext_in. intros [a b] Hi. cbn [fst snd].
    rewrite Forall_forall in Hx. destruct (Hx _ Hi) as [H1 H2]. cbn [fst snd] in *. rewrite !one_lower_pos by lia. f_equal; lia.
Qed.
(** One more save of an exclusion from step 0 stops a build with overflow checks; a release
    build keeps the greatest number there is. *)
Theorem C121_exclusion_zero_refuted e a b : aex_steps e = Some (ExBetween a b) -> a = 0 \/ b = 0 ->
  exclude_in true e = None
  /\ (forall x, exclude_in false e = Some x -> exists a' b', ex_steps x = Some (ExBetween a' b') /\ (a = 0 -> a' = 2 ^ 64 - 1) /\ (b = 0 -> b' = 2 ^ 64 - 1)).
Proof.
  intros Es H. split.
  - apply exclude_none. right. split; [reflexivity|]. exists a, b. auto.
  - intros x Hx. unfold exclude_in in Hx. destruct (any_list filter_in (aex_filters e)) as [fs|]; [|discriminate]. cbn [obind] in Hx.
    rewrite Es in Hx. cbn [opt_map exsteps_in] in Hx. unfold less_one in Hx.
    destruct (N.eqb_spec a 0) as [Ha|Ha]; cbn [obind] in Hx; destruct (N.eqb_spec b 0) as [Hb|Hb]; cbn [obind option_map] in Hx; injection Hx as <-; cbn [ex_steps]; eexists; eexists; (split; [reflexivity|]); split; intros; try reflexivity; congruence.
Qed.
(** *** Two requests that differ in their conditions or in the groups after the first become
    the same report. *)
Theorem C121_groups_refuted name_of checked r c1 c2 g gs1 gs2 f1 f2 :
  let q1 := mkAGrouped f1 (mkAGroup c1 g :: gs1) in
  let q2 := mkAGrouped f2 (mkAGroup c2 g :: gs2) in
  (forall s, r = ARSegmentation s ->
     report_in name_of checked (ARSegmentation (mkASegmentation (asg_time s) (asg_group s) (asg_unit s) (asg_chart s) (asg_analysis s) (asg_compare s) (asg_events s) (Some q1) (asg_breakdowns s) (asg_segments s)))
     = report_in name_of checked (ARSegmentation (mkASegmentation (asg_time s) (asg_group s) (asg_unit s) (asg_chart s) (asg_analysis s) (asg_compare s) (asg_events s) (Some q2) (asg_breakdowns s) (asg_segments s))))
  /\ (forall s, r = ARFunnel s ->
     report_in name_of checked (ARFunnel (mkAFunnel (afn_time s) (afn_group s) (afn_steps s) (afn_window s) (afn_chart s) (afn_count s) (afn_filter s) (afn_touch s) (afn_holding s) (afn_exclude s) (afn_breakdowns s) (afn_segments s) (Some q1)))
     = report_in name_of checked (ARFunnel (mkAFunnel (afn_time s) (afn_group s) (afn_steps s) (afn_window s) (afn_chart s) (afn_count s) (afn_filter s) (afn_touch s) (afn_holding s) (afn_exclude s) (afn_breakdowns s) (afn_segments s) (Some q2)))).
Proof. split; intros s _; reflexivity. Qed.
(** *** A number whose digits do not fit 64 bits comes back as another number. *)
Theorem C121_number_refuted m s x : (2 ^ 63 <= Z.abs m < 2 ^ 96)%Z -> m <> (- 2 ^ 63)%Z -> s <= 28 -> json_value_to_scalar (JNum m s) = Some x ->
  exists m' s', scalar_to_json_value x = Some (JNum m' s') /\ JNum m' s' <> JNum m s.
Proof.
  intros Hm Hn Hs E. cbn [json_value_to_scalar] in E. destruct (Z.abs m <? 2 ^ 96)%Z; [|discriminate].
  assert (x = SDecimal (Some m) 28 (Z.of_N s)) by congruence. subst x. cbn [scalar_to_json_value].
  replace ((0 <=? Z.of_N s)%Z && (Z.of_N s <=? 28)%Z) with true by lia. destruct (lowest (as_i64 m) (Z.to_N (Z.of_N s))) as [m' s'] eqn:El.
  exists m', s'. split; [reflexivity|]. intros Eq. injection Eq as -> ->.
  assert (Hb : forall k v v' t, lowest_ v k = (v', t) -> (0 <= v -> 0 <= v' <= v)%Z /\ (v <= 0 -> v <= v' <= 0)%Z).
  { induction k as [|k IH]; intros v v' t; cbn [lowest_].
    - intros H. injection H as <- _. lia.
    - destruct (Z.eqb_spec (v mod 10) 0) as [E0|_].
      + intros H. apply IH in H. assert (v = 10 * (v / 10))%Z by (pose proof (Z.div_mod v 10 ltac:(lia)); lia). lia.
      + intros H. injection H as <- _. lia. }
  unfold lowest in El. apply Hb in El. unfold as_i64 in El. pose proof (Z.mod_pos_bound (m + 2 ^ 63) (2 ^ 64)). lia.
Qed.

(** ** C122: when a request stops a worker *)
(** *** Exactly: a value no filter can use, filters without a group, an aggregate that does
    not exist here, or (in builds with overflow checks) an exclusion from step 0. *)
Theorem C122_conversion_exact name_of checked r : report_in name_of checked r = None <-> crash checked r.
Proof. exact (report_none name_of checked r). Qed.

Lemma andv_accepted a b : andv a b = Accepted <-> a = Accepted /\ b = Accepted.
Proof. destruct a, b; cbn; split; intros H; try discriminate; try tauto; destruct H; congruence. Qed.
Lemma allv_accepted {A} (f : A -> Verdict) l : allv f l = Accepted <-> Forall (fun a => f a = Accepted) l.
Proof.
  induction l as [|a l IH]; cbn; [split; constructor|]. rewrite andv_accepted, IH. split.
  - intros [H1 H2]. now constructor.
  - intros H. inversion H; auto.
Qed.
Lemma refuse_if_accepted b : refuse_if b = Accepted <-> b = false.
Proof. destruct b; cbn; split; congruence. Qed.

(** *** Requests that pass all checks and stop the worker that runs them: whatever report is
    accepted without groups of filters is accepted with an empty list of groups, and
    whatever is accepted is still so with a filter comparing a property that may be null with
    null. *)
Theorem C122_accepted_empty_groups_refuted name_of checked m s f fc :
  (check_segmentation m s = Accepted -> asg_filters s = None ->
     let s' := mkASegmentation (asg_time s) (asg_group s) (asg_unit s) (asg_chart s) (asg_analysis s) (asg_compare s) (asg_events s) (Some (mkAGrouped fc [])) (asg_breakdowns s) (asg_segments s) in
     check_segmentation m s' = Accepted /\ report_in name_of checked (ARSegmentation s') = None)
  /\ (check_funnel m f = Accepted -> afn_filters f = None ->
     let f' := mkAFunnel (afn_time f) (afn_group f) (afn_steps f) (afn_window f) (afn_chart f) (afn_count f) (afn_filter f) (afn_touch f) (afn_holding f) (afn_exclude f) (afn_breakdowns f) (afn_segments f) (Some (mkAGrouped fc [])) in
     check_funnel m f' = Accepted /\ report_in name_of checked (ARFunnel f') = None).
Proof.
  split.
  - intros H E. cbv zeta. split.
    + unfold check_segmentation in *. cbn [asg_group asg_time asg_events asg_filters asg_breakdowns asg_segments]. rewrite E in H. exact H.
    + apply report_none. right. left. reflexivity.
  - intros H E. cbv zeta. split.
    + unfold check_funnel in *. cbn [afn_group afn_time afn_steps afn_exclude afn_breakdowns afn_segments afn_holding afn_filter afn_filters]. rewrite E in H. exact H.
    + apply report_none. right. left. reflexivity.
Qed.
Theorem C122_accepted_null_refuted name_of checked m s n i e es :
  check_segmentation m s = Accepted -> asg_events s = e :: es -> nm_prop m n = Some i -> pi_nullable i = true ->
  let e' := mkASegEvent (ase_event e) (Some (AFProperty (PREvent n) OpEq (Some [JNull]) :: olist (ase_filters e))) (ase_breakdowns e) (ase_queries e) in
  let s' := mkASegmentation (asg_time s) (asg_group s) (asg_unit s) (asg_chart s) (asg_analysis s) (asg_compare s) (e' :: es) (asg_filters s) (asg_breakdowns s) (asg_segments s) in
  check_segmentation m s' = Accepted /\ report_in name_of checked (ARSegmentation s') = None.
Proof.
  intros H Ee Hn Hi. cbv zeta. split.
  - unfold check_segmentation in *. rewrite Ee in H. cbn [asg_group asg_time asg_events asg_filters asg_breakdowns asg_segments].
    repeat rewrite andv_accepted in *. destruct H as (H1 & H2 & H3 & H4 & H5 & H6 & H7). repeat (split; [assumption|]).
    split; [|repeat (split; try assumption)].
    cbn [allv] in *. rewrite !andv_accepted in *. cbn [ase_event ase_filters ase_queries check_filters allv] in *.
    destruct H4 as ((H4 & H5' & H6') & H8). split; [split; [exact H4|split; [|exact H6']]|exact H8]. rewrite andv_accepted. split.
    + cbn [check_filter look_prop]. rewrite Hn. cbn. rewrite Hi. reflexivity.
    + destruct (ase_filters e); [exact H5'|reflexivity].
  - apply report_none. left. exists JNull. split; [|exact Logic.I]. unfold segmentation_vals. apply in_or_app. left. cbn. now left.
Qed.
(** *** The checks themselves stop the worker on a property of a group that does not exist,
    and on nothing else. *)
Definition filter_prop (f : AFilter) : PropertyRef := match f with AFProperty p _ _ => p end.
Lemma andv_crashed a b : andv a b = Crashed <-> a = Crashed \/ (a = Accepted /\ b = Crashed).
Proof. destruct a, b; cbn; split; intros H; try discriminate; try tauto; destruct H as [H|[H H']]; congruence. Qed.
Lemma allv_crashed {A} (f : A -> Verdict) l : (forall a, f a <> Crashed) -> allv f l <> Crashed.
Proof. intros H. induction l as [|a l IH]; cbn; [discriminate|]. rewrite andv_crashed. intros [E|[_ E]]; [exact (H a E)|exact (IH E)]. Qed.
Lemma refuse_if_crashed b : refuse_if b <> Crashed. Proof. destruct b; discriminate. Qed.
Theorem C122_check_group_exact m f : check_filter m f = Crashed <-> bad_group (filter_prop f).
Proof.
  assert (Hok : forall i op v, andv (check_op i op) (match v with
        | None => refuse_if (negb (pi_nullable i))
        | Some vs => andv (refuse_if (negb (allow_empty op) && match vs with [] => true | _ => false end)) (allv (check_value i) vs) end) <> Crashed).
  { intros i op v. rewrite andv_crashed. intros [H|[_ H]].
    - destruct op; cbn [check_op] in H; try discriminate; now apply refuse_if_crashed in H.
    - destruct v as [vs|]; [|now apply refuse_if_crashed in H]. rewrite andv_crashed in H. destruct H as [H|[_ H]]; [now apply refuse_if_crashed in H|].
      revert H. apply allv_crashed. intros [] H; cbn [check_value] in H; try discriminate; now apply refuse_if_crashed in H. }
  destruct f as [p op v]. cbn [check_filter filter_prop]. destruct p as [n g|n|i]; cbn [look_prop bad_group].
  - unfold GROUPS. destruct (N.ltb_spec g 5).
    + destruct (nm_group_prop m g n) as [i|]; split; intros H'; try lia; try discriminate. exfalso. exact (Hok i op v H').
    + split; auto.
  - destruct (nm_prop m n) as [i|]; split; intros H'; try tauto; try discriminate. exfalso. exact (Hok i op v H').
  - split; [discriminate|tauto].
Qed.

(** ** C123: the query that runs asks for what the request asks for *)
Lemma omap_rel {A B} (f : A -> option B) (R : A -> B -> Prop) l l' : (forall a b, f a = Some b -> R a b) -> omap f l = Some l' -> Forall2 R l l'.
Proof.
  intros H. revert l'. induction l as [|a l IH]; intros l' E; cbn in E; [injection E as <-; constructor|].
  destruct (f a) as [b|] eqn:Ef; [|discriminate]. cbn in E. destruct (omap f l) as [r|]; [|discriminate]. cbn in E. injection E as <-. constructor; auto.
Qed.
Lemma some_rel {A B} (f : A -> option B) (R : A -> B -> Prop) o o' : (forall a b, f a = Some b -> R a b) -> some_list f o = Some o' -> Forall2 R (olist o) (olist o').
Proof.
  intros H E. destruct o as [[|a l]|]; cbn [some_list] in E; [injection E as <-; constructor| |injection E as <-; constructor].
  destruct (omap f (a :: l)) as [r|] eqn:Er; [|discriminate]. cbn in E. injection E as <-. exact (omap_rel f R _ _ H Er).
Qed.
Lemma any_rel {A B} (f : A -> option B) (R : A -> B -> Prop) o o' : (forall a b, f a = Some b -> R a b) -> any_list f o = Some o' -> Forall2 R (olist o) (olist o').
Proof.
  intros H E. destruct o as [l|]; cbn [any_list] in E; [|injection E as <-; constructor].
  destruct (omap f l) as [r|] eqn:Er; [|discriminate]. cbn in E. injection E as <-. exact (omap_rel f R _ _ H Er).
Qed.
Lemma value_same v x : json_value_to_scalar v = Some x -> same_value v x.
Proof.
  destruct v as [|b|m s|t| |]; cbn [json_value_to_scalar same_value]; intros E; try discriminate; try congruence.
  destruct (Z.abs m <? 2 ^ 96)%Z; [|discriminate]. exists 28. congruence.
Qed.
Lemma event_same e : same_event e (event_in e). Proof. now destruct e. Qed.
Lemma prop_same p : prop_in p = p. Proof. now destruct p. Qed.
Lemma op_same o : op_in o = o. Proof. now destruct o. Qed.
Lemma unit_same u : unit_in u = u. Proof. now destruct u. Qed.
Lemma breakdown_same b : breakdown_in b = b. Proof. destruct b. cbn. now rewrite prop_same. Qed.
Lemma filter_same f x : filter_in f = Some x -> same_filter f x.
Proof.
  destruct f as [p op v]. cbn [filter_in]. intros E. destruct (some_list json_value_to_scalar v) as [v'|] eqn:Ev; [|discriminate]. cbn in E. injection E as <-.
  cbn. rewrite prop_same, op_same. split; [reflexivity|]. split; [reflexivity|]. exact (some_rel _ _ _ _ value_same Ev).
Qed.
Lemma query_same q x : query_in q = Some x -> same_query q x.
Proof.
  destruct q; cbn [query_in]; intros E; try (injection E as <-; exact Logic.I); try (injection E as <-; reflexivity);
    destruct agg; cbn in E; try discriminate; injection E as <-; cbn; rewrite ?prop_same; unfold same_agg; cbn;
    repeat match goal with |- _ /\ _ => split end; try reflexivity; try tauto; now destruct per.
Qed.
Lemma sbreak_same o b : some_list (total breakdown_in) o = Some b -> olist b = olist o.
Proof.
  destruct o as [[|a l]|]; cbn [some_list]; intros E; [injection E as <-; reflexivity| |injection E as <-; reflexivity].
  rewrite omap_total in E. cbn [option_map] in E. injection E as <-. cbn. rewrite breakdown_same. f_equal. etransitivity; [|apply map_id]. apply map_ext, breakdown_same.
Qed.
Lemma named_agg name_of e i qs : map nq_agg (named name_of e i qs) = qs.
Proof. revert i. induction qs as [|q qs IH]; intros i; [reflexivity|]. cbn. now rewrite IH. Qed.
Theorem C123_segmentation_asked_partial name_of r x : segmentation_in name_of r = Some x -> same_segmentation r x.
Proof.
  unfold segmentation_in. intros E. step E He. step E Hf. step E Hb. step E Hs. injection E as <-. unfold same_segmentation.
  cbn [es_time es_group es_unit es_chart es_analysis es_compare es_events es_filters es_breakdowns].
  split; [destruct (asg_time r); cbn; now rewrite ?unit_same|]. split; [reflexivity|]. split; [apply unit_same|]. split; [now destruct (asg_chart r)|].
  split; [destruct (asg_analysis r); cbn; now rewrite ?unit_same|].
  split; [destruct (asg_compare r) as [[o u]|]; [unfold compare_in; cbn; now rewrite unit_same|reflexivity]|].
  split; [|split].
  - refine (omap_rel _ _ _ _ _ He). intros e y Ey. unfold seg_event_in in Ey. step Ey H1. step Ey H2. step Ey H3. injection Ey as <-.
    cbn [se_event se_filters se_breakdowns se_queries]. split; [apply event_same|]. split; [exact (some_rel _ _ _ _ filter_same H1)|].
    split; [exact (sbreak_same _ _ H2)|]. rewrite named_agg. exact (omap_rel _ _ _ _ query_same H3).
  - unfold same_filters, group_filters, first_group. destruct (asg_filters r) as [g|]; [|injection Hf as <-; constructor].
    destruct (agd_groups g) as [|g0 gs]; [discriminate|]. exact (some_rel _ _ (Some (ag_filters g0)) _ filter_same Hf).
  - exact (sbreak_same _ _ Hb).
Qed.
Theorem C123_funnel_asked_partial checked r x : funnel_in checked r = Some x ->
  Forall (in_range 1) (excluded_between r) -> same_funnel r x.
Proof.
  unfold funnel_in. intros E Hr. step E Hs. step E He. step E Hg. step E Hf. injection E as <-. unfold same_funnel.
  cbn [fq_time fq_group fq_steps fq_window fq_chart fq_count fq_filter fq_touch fq_holding fq_exclude fq_breakdowns fq_segments fq_filters].
  split; [destruct (afn_time r); cbn; now rewrite ?unit_same|]. split; [reflexivity|].
  split; [destruct (afn_window r) as [n u]; unfold window_in; cbn; now destruct u|].
  split; [destruct (afn_chart r); cbn; now rewrite ?unit_same|]. split; [now destruct (afn_count r)|].
  split; [now destruct (afn_filter r) as [[]|]|]. split; [now destruct (afn_touch r) as [[]|]|].
  split; [destruct (afn_holding r) as [l|]; [cbn; f_equal; etransitivity; [|apply map_id]; apply map_ext, prop_same|reflexivity]|].
  split; [destruct (afn_breakdowns r) as [l|]; [cbn; f_equal; etransitivity; [|apply map_id]; apply map_ext, breakdown_same|reflexivity]|].
  split; [|split].
  - refine (omap_rel _ _ _ _ _ Hs). intros s y Ey. unfold step_in in Ey. step Ey H1. injection Ey as <-. cbn [fst_order fst_events].
    split; [now destruct (ast_order s)|]. refine (omap_rel _ _ _ _ _ H1). intros e z Ez. unfold fevent_in in Ez. step Ez H2. injection Ez as <-.
    cbn [fe_event fe_filters]. split; [apply event_same|]. exact (any_rel _ _ _ _ filter_same H2).
  - assert (Hr' : Forall (fun e => forall a b, aex_steps e = Some (ExBetween a b) -> 1 <= a /\ 1 <= b) (olist (afn_exclude r))).
    { apply Forall_forall. intros e Hi a b Eab. rewrite Forall_forall in Hr.
      assert (In (a, b) (excluded_between r)) as Hin by (apply in_flat_map; exists e; split; [exact Hi|rewrite Eab; now left]).
      destruct (Hr _ Hin) as [[H1 _] [H2 _]]. cbn in *. lia. }
    assert (Hrel : forall e z, exclude_in checked e = Some z -> (forall a b, aex_steps e = Some (ExBetween a b) -> 1 <= a /\ 1 <= b) ->
      same_event (aex_event e) (ex_event z) /\ same_filters (olist (aex_filters e)) (ex_filters z) /\ same_steps (aex_steps e) (ex_steps z)).
    { intros e z Ez Hpos. unfold exclude_in in Ez. step Ez H1. step Ez H2. injection Ez as <-. cbn [ex_event ex_filters ex_steps].
      split; [apply event_same|]. split; [exact (any_rel _ _ _ _ filter_same H1)|].
      destruct (aex_steps e) as [[|a b]|]; cbn [opt_map exsteps_in] in H2; [injection H2 as <-; exact Logic.I| |injection H2 as <-; exact Logic.I].
      destruct (Hpos a b eq_refl) as [Ha Hb]. unfold less_one in H2. destruct (N.eqb_spec a 0); [lia|]. destruct (N.eqb_spec b 0); [lia|].
      cbn [obind option_map] in H2. injection H2 as <-. cbn. lia. }
    clear - He Hr' Hrel. destruct (afn_exclude r) as [l|]; cbn [any_list olist] in *.
    + destruct (omap (exclude_in checked) l) as [l'|] eqn:El; [|discriminate]. cbn in He. injection He as <-. cbn [olist].
      revert l' El. induction Hr' as [|e l Hpos _ IH]; intros l' El; cbn in El; [injection El as <-; constructor|].
      destruct (exclude_in checked e) as [z|] eqn:Ez; [|discriminate]. cbn in El. destruct (omap (exclude_in checked) l) as [l2|]; [|discriminate]. cbn in El. injection El as <-.
      constructor; [exact (Hrel e z Ez Hpos)|]. exact (IH l2 eq_refl).
    + injection He as <-. constructor.
  - unfold same_filters, group_filters, first_group. destruct (afn_filters r) as [g|]; [|injection Hf as <-; constructor].
    destruct (agd_groups g) as [|g0 gs]; [discriminate|]. destruct (omap filter_in (ag_filters g0)) as [l'|] eqn:El; [|discriminate].
    cbn in Hf. injection Hf as <-. exact (omap_rel _ _ _ _ filter_same El).
Qed.
(** *** Groups of filters after the first are not applied: a report asked with more groups
    runs as if they had not been given. *)
Theorem C123_groups_refuted name_of checked s f c fc g gs :
  report_in name_of checked (ARSegmentation (mkASegmentation (asg_time s) (asg_group s) (asg_unit s) (asg_chart s) (asg_analysis s) (asg_compare s) (asg_events s) (Some (mkAGrouped fc (mkAGroup c g :: gs))) (asg_breakdowns s) (asg_segments s)))
  = report_in name_of checked (ARSegmentation (mkASegmentation (asg_time s) (asg_group s) (asg_unit s) (asg_chart s) (asg_analysis s) (asg_compare s) (asg_events s) (Some (mkAGrouped None [mkAGroup GAnd g])) (asg_breakdowns s) (asg_segments s)))
  /\ report_in name_of checked (ARFunnel (mkAFunnel (afn_time f) (afn_group f) (afn_steps f) (afn_window f) (afn_chart f) (afn_count f) (afn_filter f) (afn_touch f) (afn_holding f) (afn_exclude f) (afn_breakdowns f) (afn_segments f) (Some (mkAGrouped fc (mkAGroup c g :: gs)))))
  = report_in name_of checked (ARFunnel (mkAFunnel (afn_time f) (afn_group f) (afn_steps f) (afn_window f) (afn_chart f) (afn_count f) (afn_filter f) (afn_touch f) (afn_holding f) (afn_exclude f) (afn_breakdowns f) (afn_segments f) (Some (mkAGrouped None [mkAGroup GAnd g])))).
Proof. split; reflexivity. Qed.

(** ** C124: the filters a report accepts *)
Lemma type_in_spec i l : type_in i l = true <-> pi_list i = false /\ In (pi_type i) l.
Proof.
  unfold type_in. rewrite andb_true_iff, negb_true_iff, existsb_exists. split.
  - intros (H1 & d & Hd & E). split; [exact H1|]. destruct d, (pi_type i); try discriminate; exact Hd.
  - intros (H1 & Hi). split; [exact H1|]. exists (pi_type i). split; [exact Hi|]. now destruct (pi_type i).
Qed.
Lemma op_accepted i op : check_op i op = Accepted <-> op_fits i op.
Proof.
  destruct op; cbn [check_op op_fits]; try (split; [intros _; exact Logic.I|intros _; reflexivity]);
    rewrite refuse_if_accepted, negb_false_iff, ?type_in_spec; unfold is_type; try reflexivity; cbn; intuition congruence.
Qed.
Lemma value_accepted i v : check_value i v = Accepted <-> value_fits i v.
Proof.
  destruct v; cbn [check_value value_fits]; try (split; [discriminate|tauto]);
    rewrite refuse_if_accepted, negb_false_iff, ?type_in_spec; unfold is_type; try reflexivity; cbn; intuition congruence.
Qed.
Theorem C124_filter_exact m f : check_filter m f = Accepted <-> filter_fits m f.
Proof.
  destruct f as [p op v]. cbn [check_filter filter_fits].
  assert (Hi : forall i, andv (check_op i op) (match v with
        | None => refuse_if (negb (pi_nullable i))
        | Some vs => andv (refuse_if (negb (allow_empty op) && match vs with [] => true | _ => false end)) (allv (check_value i) vs) end) = Accepted
      <-> op_fits i op /\ values_fit i op v).
  { intros i. rewrite andv_accepted, op_accepted. enough (match v with
        | None => refuse_if (negb (pi_nullable i))
        | Some vs => andv (refuse_if (negb (allow_empty op) && match vs with [] => true | _ => false end)) (allv (check_value i) vs) end = Accepted <-> values_fit i op v) by tauto.
    destruct v as [[|x l]|]; cbn [values_fit].
    - rewrite andv_accepted, refuse_if_accepted, andb_true_r, negb_false_iff. cbn [allv]. split.
      + intros [H _]. destruct op; cbn in H; try discriminate; cbn; tauto.
      + intros H. split; [|reflexivity]. cbn in H. destruct H as [<-|[<-|[<-|[<-|[]]]]]; reflexivity.
    - rewrite andv_accepted, refuse_if_accepted, andb_false_r, allv_accepted. split.
      + intros [_ H]. eapply Forall_impl; [|exact H]. intros a Ha. now apply value_accepted.
      + intros H. split; [reflexivity|]. eapply Forall_impl; [|exact H]. intros a Ha. now apply value_accepted.
    - rewrite refuse_if_accepted, negb_false_iff. reflexivity. }
  destruct p as [n g|n|c]; cbn [look_prop named_prop]; unfold GROUPS.
  - destruct (g <? 5); [destruct (nm_group_prop m g n) as [i|]|].
    + rewrite Hi. split; [intros H; exists i; auto|]. intros (j & E & H). injection E as <-. exact H.
    + split; [discriminate|]. intros (j & E & _). discriminate.
    + split; [discriminate|]. intros (j & E & _). discriminate.
  - destruct (nm_prop m n) as [i|].
    + rewrite Hi. split; [intros H; exists i; auto|]. intros (j & E & H). injection E as <-. exact H.
    + split; [discriminate|]. intros (j & E & _). discriminate.
  - split; [discriminate|]. intros (j & E & _). discriminate.
Qed.
(** *** A whole request is accepted exactly when it fits what is known of the project. *)
Lemma Forall_iff {A} (P Q : A -> Prop) l : (forall a, P a <-> Q a) -> Forall P l <-> Forall Q l.
Proof. intros H. split; apply Forall_impl; intros a; apply H. Qed.
Lemma and_iff (a b c d : Prop) : (a <-> b) -> (c <-> d) -> (a /\ c <-> b /\ d). Proof. tauto. Qed.
Lemma filters_accepted m fs : check_filters m fs = Accepted <-> Forall (filter_fits m) (olist fs).
Proof. destruct fs as [l|]; cbn [check_filters olist]; [rewrite allv_accepted; apply Forall_iff, C124_filter_exact|split; [constructor|reflexivity]]. Qed.
Lemma event_accepted m e : check_event m e = Accepted <-> event_exists m e.
Proof. destruct e; cbn; rewrite refuse_if_accepted, negb_false_iff; reflexivity. Qed.
Lemma time_accepted q : check_time q = Accepted <-> time_fits q.
Proof. destruct q; cbn [check_time time_fits]; [rewrite refuse_if_accepted; lia| |]; split; auto. Qed.
Lemma property_accepted m p : check_property m p = Accepted <-> named_prop m p <> None.
Proof.
  destruct p as [n g|n|c]; cbn; unfold GROUPS.
  - destruct (g <? 5); [destruct (nm_group_prop m g n)|]; split; congruence.
  - destruct (nm_prop m n); split; congruence.
  - split; congruence.
Qed.
Lemma breakdown_accepted m b : check_breakdown m b = Accepted <-> breakdown_fits m b.
Proof. destruct b. apply property_accepted. Qed.
Lemma list_accepted {A} (f : A -> Verdict) (P : A -> Prop) o : (forall a, f a = Accepted <-> P a) ->
  match o with None => Accepted | Some l => allv f l end = Accepted <-> Forall P (olist o).
Proof. intros H. destruct o as [l|]; cbn; [rewrite allv_accepted; now apply Forall_iff|split; [constructor|reflexivity]]. Qed.
Lemma is_nil {A} (l : list A) : match l with [] => true | _ => false end = false <-> l <> [].
Proof. destruct l; split; congruence. Qed.
Lemma is_none {A} (o : option A) : match o with None => false | Some _ => true end = false <-> o = None.
Proof. destruct o; split; congruence. Qed.
Theorem C124_segmentation_exact m r : check_segmentation m r = Accepted <-> segmentation_fits m r.
Proof.
  unfold check_segmentation, segmentation_fits. rewrite !andv_accepted.
  apply and_iff; [rewrite refuse_if_accepted; unfold GROUPS; lia|].
  apply and_iff; [apply time_accepted|].
  apply and_iff; [rewrite refuse_if_accepted; apply is_nil|].
  apply and_iff; [rewrite allv_accepted; apply Forall_iff; intros e; rewrite !andv_accepted, event_accepted, filters_accepted, refuse_if_accepted, is_nil; reflexivity|].
  apply and_iff.
  { destruct (asg_filters r) as [g|].
    - rewrite allv_accepted. split.
      + intros H g' E. injection E as <-. eapply Forall_impl; [|exact H]. cbv beta. intros x. rewrite andv_accepted, refuse_if_accepted, is_nil, allv_accepted.
        intros [H1 H2]. split; [exact H1|]. eapply Forall_iff; [|exact H2]. intros f. symmetry. apply C124_filter_exact.
      + intros H. eapply Forall_impl; [|exact (H g eq_refl)]. cbv beta. intros x. rewrite andv_accepted, refuse_if_accepted, is_nil, allv_accepted.
        intros [H1 H2]. split; [exact H1|]. eapply Forall_iff; [|exact H2]. intros f. apply C124_filter_exact.
    - split; [discriminate|reflexivity]. }
  apply and_iff; [apply list_accepted, breakdown_accepted|]. rewrite refuse_if_accepted. apply is_none.
Qed.
Lemma str_eqb_spec (x y : Str) : (if list_eq_dec N.eq_dec x y then true else false) = true <-> x = y.
Proof. destruct (list_eq_dec N.eq_dec x y); split; congruence. Qed.
Lemma breakdown_eqb_spec a b : breakdown_eqb a b = true <-> a = b.
Proof.
  destruct a as [p], b as [q]. cbn [breakdown_eqb]. enough (prop_eqb p q = true <-> p = q) by (split; [intros H'; f_equal; tauto|intros H'; injection H'; tauto]).
  destruct p, q; cbn [prop_eqb]; rewrite ?andb_true_iff, ?N.eqb_eq, ?str_eqb_spec; intuition congruence.
Qed.
Lemma distinct_spec bs : N.of_nat (List.length (distinct bs)) = N.of_nat (List.length bs) <-> NoDup bs.
Proof.
  assert (Hle : forall l, (List.length (distinct l) <= List.length l)%nat) by (induction l as [|b l IH]; cbn; [lia|]; destruct (existsb _ _); cbn; lia).
  induction bs as [|b bs IH]; [split; [constructor|reflexivity]|]. cbn [distinct]. destruct (existsb (breakdown_eqb b) bs) eqn:E.
  - apply existsb_exists in E. destruct E as (x & Hx & Ex). apply breakdown_eqb_spec in Ex. subst x. split.
    + specialize (Hle bs). cbn [List.length]. lia.
    + intros H. inversion H; tauto.
  - cbn [List.length]. split.
    + intros H. constructor; [|apply IH; lia]. intros Hi. enough (existsb (breakdown_eqb b) bs = true) by congruence. apply existsb_exists. exists b. split; [exact Hi|]. now apply breakdown_eqb_spec.
    + intros H. inversion H as [|? ? _ Hn]. apply IH in Hn. lia.
Qed.
Theorem C124_funnel_exact m r : check_funnel m r = Accepted <-> funnel_fits m r.
Proof.
  unfold check_funnel, funnel_fits. cbv zeta. rewrite !andv_accepted.
  apply and_iff; [rewrite refuse_if_accepted; unfold GROUPS; lia|].
  apply and_iff; [apply time_accepted|].
  rewrite <- and_assoc. apply and_iff; [rewrite !refuse_if_accepted; lia|].
  apply and_iff.
  { rewrite allv_accepted. apply Forall_iff. intros s. rewrite !andv_accepted, refuse_if_accepted, is_nil, allv_accepted. apply and_iff; [reflexivity|].
    apply and_iff; [apply Forall_iff; intros e; rewrite andv_accepted, event_accepted, filters_accepted; reflexivity|].
    destruct (ast_order s) as [|l]; [split; [discriminate|reflexivity]|]. rewrite allv_accepted. split.
    - intros H l' E. injection E as <-. eapply Forall_impl; [|exact H]. cbv beta. intros ft. rewrite andv_accepted, !refuse_if_accepted. lia.
    - intros H. eapply Forall_impl; [|exact (H l eq_refl)]. cbv beta. intros ft. rewrite andv_accepted, !refuse_if_accepted. lia. }
  apply and_iff.
  { apply list_accepted. intros e. rewrite andv_accepted, event_accepted. apply and_iff; [reflexivity|].
    destruct (aex_steps e) as [[|a b]|]; [split; [discriminate|reflexivity]| |split; [discriminate|reflexivity]].
    rewrite andv_accepted, !refuse_if_accepted. split; [intros H a' b' E; injection E as <- <-; lia|]. intros H. specialize (H a b eq_refl). lia. }
  rewrite <- (and_assoc (NoDup _)). apply and_iff.
  { destruct (afn_breakdowns r) as [bs|]; cbn [olist]; [|split; [intros _; split; constructor|reflexivity]].
    rewrite andv_accepted, refuse_if_accepted, negb_false_iff, N.eqb_eq, distinct_spec, allv_accepted. apply and_iff; [reflexivity|]. apply Forall_iff, breakdown_accepted. }
  apply and_iff; [rewrite refuse_if_accepted; apply is_none|].
  apply and_iff; [apply list_accepted, property_accepted|].
  apply and_iff.
  { destruct (afn_filter r) as [[| |a b]|]; try (split; [discriminate|reflexivity]). rewrite refuse_if_accepted. split.
    - intros H a' b' E. injection E as <- <-. lia.
    - intros H. specialize (H a b eq_refl). lia. }
  destruct (afn_filters r) as [g|]; [|split; [discriminate|reflexivity]]. rewrite allv_accepted. split.
  - intros H g' E. injection E as <-. eapply Forall_iff; [|exact H]. cbv beta. intros x. rewrite allv_accepted. apply Forall_iff. intros f. symmetry. apply C124_filter_exact.
  - intros H. eapply Forall_iff; [|exact (H g eq_refl)]. cbv beta. intros x. rewrite allv_accepted. apply Forall_iff. intros f. apply C124_filter_exact.
Qed.
(** *** A 32 bit whole number can be compared for equality but not for order. *)
Theorem C124_int32_order_refuted m p op v i : named_prop m p = Some i -> pi_type i = DInt32 -> In op [OpGt; OpGte; OpLt; OpLte] ->
  check_filter m (AFProperty p op v) = Refused.
Proof.
  intros Hn Ht Ho.
  assert (Hc : check_op i op = Refused).
  { destruct (check_op i op) eqn:E; [|reflexivity|].
    - apply op_accepted in E. destruct Ho as [<-|[<-|[<-|[<-|[]]]]]; cbn in E; unfold is_type in E; intuition congruence.
    - destruct Ho as [<-|[<-|[<-|[<-|[]]]]]; cbn [check_op] in E; now apply refuse_if_crashed in E. }
  destruct p as [n g|n|c]; cbn [named_prop] in Hn; cbn [check_filter look_prop]; unfold GROUPS.
  - destruct (g <? 5); [|discriminate]. rewrite Hn, Hc. reflexivity.
  - rewrite Hn, Hc. reflexivity.
  - discriminate.
Qed.
(** *** "Is true" asks for no value, yet a yes/no property that is never null must be given an
    (empty) list of values: without one the report is refused. *)
Theorem C124_truth_refuted m p op i : named_prop m p = Some i -> is_type i DBoolean -> pi_nullable i = false -> op = OpTrue \/ op = OpFalse ->
  check_filter m (AFProperty p op None) = Refused /\ check_filter m (AFProperty p op (Some [])) = Accepted.
Proof.
  intros Hn Ht Hf Ho. split.
  - assert (Hx : andv (check_op i op) (refuse_if (negb (pi_nullable i))) = Refused).
    { assert (check_op i op = Accepted) as -> by (apply op_accepted; destruct Ho as [->| ->]; exact Ht). rewrite Hf. reflexivity. }
    destruct p as [n g|n|c]; cbn [named_prop] in Hn; cbn [check_filter look_prop]; unfold GROUPS.
    + destruct (g <? 5); [|discriminate]. rewrite Hn. exact Hx.
    + rewrite Hn. exact Hx.
    + discriminate.
  - apply C124_filter_exact. exists i. split; [exact Hn|]. destruct Ho as [->| ->]; (split; [exact Ht|cbn; tauto]).
Qed.
(** *** Steps of an exclusion count from one, but the last step is refused and step 0 is not. *)
Theorem C124_exclusion_range_refuted m r e a :
  In e (olist (afn_exclude r)) -> aex_steps e = Some (ExBetween a (N.of_nat (List.length (afn_steps r)))) ->
  check_funnel m r <> Accepted.
Proof.
  intros Hi Es. unfold check_funnel. rewrite !andv_accepted. intros (_ & _ & _ & _ & _ & H & _).
  destruct (afn_exclude r) as [l|]; [|destruct Hi]. cbn [olist] in Hi. rewrite allv_accepted, Forall_forall in H.
  specialize (H e Hi). rewrite andv_accepted in H. destruct H as [_ H]. rewrite Es, andv_accepted, !refuse_if_accepted in H. lia.
Qed.

(** ** Concrete cases *)
Section Example_.
Local Open Scope Z_scope.
Definition str_a : Str := [97%N]. Definition str_b : Str := [98%N].
Definition names0 : Names := mkNames (fun _ => true) (fun _ => false)
  (fun n => match n with [97%N] => Some (mkPropInfo false DDecimal true) | [98%N] => Some (mkPropInfo false DInt32 false) | [99%N] => Some (mkPropInfo false DBoolean false) | _ => None end) (fun _ _ => None).
Definition ev0 : ASegEvent := mkASegEvent (AERegular str_a) (Some [AFProperty (PREvent str_a) OpGt (Some [JNum 5 1])]) None [AQCountEvents; AQCountPerGroup AAvg].
Definition seg0 : ASegmentation := mkASegmentation (QTLast 7 UDay) 0 UDay ScLine AnLinear None [ev0] None None None.
Definition fun0 : AFunnel := mkAFunnel (QTLast 7 UDay) 0 [mkAStep [mkAFEvent (AERegular str_a) None] SoExact; mkAStep [mkAFEvent (AERegular str_b) None] SoExact; mkAStep [mkAFEvent (AERegular str_b) None] SoExact]
  (mkTimeWindow 1 WuDay) FcSteps FcUnique None None None (Some [mkAExclude (AERegular str_a) None (Some (ExBetween 2 2))]) None None
  (Some (mkAGrouped (Some GOr) [mkAGroup GOr [AFProperty (PREvent str_a) OpEq (Some [JNum 25 1; JBool true; JText str_b])]; mkAGroup GAnd []])).
Example C121_witness name_of :
  tidy (ARSegmentation seg0) /\ Forall plain (request_vals (ARSegmentation seg0))
  /\ (exists c, report_in name_of true (ARSegmentation seg0) = Some c /\ report_out c = Some (ARSegmentation seg0))
  /\ Forall plain (funnel_vals fun0) /\ Forall (in_range 2) (excluded_between fun0)
  /\ (exists r, saved_times true 2 fun0 = Some r /\ excluded_between r = [(0%N, 0%N)])
  /\ (exists x, json_value_to_scalar (JNum (10 ^ 20) 0) = Some x /\ scalar_to_json_value x = Some (JNum 7766279631452241920 0)).
Proof.
  split.
  { cbn. repeat split; try discriminate; repeat constructor; discriminate. }
  split. { repeat constructor; try lia; try (right; discriminate); discriminate. }
  split. { eexists. split; reflexivity. }
  split. { repeat constructor; try lia; try (right; discriminate); discriminate. }
  split. { repeat constructor; cbn; lia. }
  split. { eexists. split; reflexivity. }
  eexists. split; reflexivity.
Qed.
Example C122_witness name_of :
  check_segmentation names0 seg0 = Accepted /\ asg_filters seg0 = None
  /\ nm_prop names0 str_a = Some (mkPropInfo false DDecimal true)
  /\ check_funnel names0 (mkAFunnel (QTLast 7 UDay) 0 (afn_steps fun0) (afn_window fun0) FcSteps FcUnique None None None (afn_exclude fun0) None None None) = Accepted
  /\ check_filter names0 (AFProperty (PRGroup str_a 9) OpEq None) = Crashed
  /\ report_in name_of true (ARSegmentation (mkASegmentation (QTLast 7 UDay) 0 UDay ScLine AnLinear None [mkASegEvent (AERegular str_a) None None [AQCountPerGroup AApproxMedian]] None None None)) = None.
Proof. repeat split. Qed.
Example C123_witness name_of : exists x y, segmentation_in name_of seg0 = Some x /\ funnel_in true fun0 = Some y /\ Forall (in_range 1) (excluded_between fun0)
  /\ fq_exclude y = Some [mkExclude (ERegularName str_a) None (Some (ExBetween 1 1))].
Proof. eexists. eexists. split; [reflexivity|]. split; [reflexivity|]. split; [|reflexivity]. repeat constructor; cbn; lia. Qed.
Example C124_witness :
  check_filter names0 (AFProperty (PREvent str_a) OpGt (Some [JNum 5 1])) = Accepted
  /\ check_filter names0 (AFProperty (PREvent str_b) OpGt (Some [JNum 5 0])) = Refused
  /\ check_filter names0 (AFProperty (PREvent str_b) OpEq (Some [JNum 5 0])) = Accepted
  /\ check_filter names0 (AFProperty (PREvent [99%N]) OpTrue None) = Refused.
Proof. repeat split. Qed.
End Example_.

Print Assumptions C121_given_back_partial.
Print Assumptions C121_unchanged_partial.
Print Assumptions C121_exclusion_drift_refuted.
Print Assumptions C121_exclusion_zero_refuted.
Print Assumptions C121_groups_refuted.
Print Assumptions C121_number_refuted.
Print Assumptions C122_conversion_exact.
Print Assumptions C122_accepted_empty_groups_refuted.
Print Assumptions C122_accepted_null_refuted.
Print Assumptions C122_check_group_exact.
Print Assumptions C123_segmentation_asked_partial.
Print Assumptions C123_funnel_asked_partial.
Print Assumptions C123_groups_refuted.
Print Assumptions C124_filter_exact.
Print Assumptions C124_segmentation_exact.
Print Assumptions C124_funnel_exact.
Print Assumptions C124_int32_order_refuted.
Print Assumptions C124_truth_refuted.
Print Assumptions C124_exclusion_range_refuted.
