(** Facts on the conversion of requests. *)
From Coq Require Import List NArith ZArith Bool Lia ZifyBool.
From Verif Require Import Bytes Value Memtable MdCodec SavedQuery Requests RequestsSpec.
Import ListNotations.
Local Open Scope N_scope.
Ltac Zify.zify_post_hook ::= Z.div_mod_to_equations.

(** *** Lists *)
Lemma omap_some {A B C} (f : A -> option B) (g : B -> option C) (k : A -> C) (P : A -> Prop) l l' :
  (forall a b, P a -> f a = Some b -> g b = Some (k a)) ->
  Forall P l -> omap f l = Some l' -> omap g l' = Some (map k l).
Proof.
  intros H HP. revert l'. induction HP as [|a l Ha HP IH]; intros l' E; cbn in *.
  - injection E as <-. reflexivity.
  - destruct (f a) as [b|] eqn:Ef; [|discriminate]. cbn in E. destruct (omap f l) as [r|]; [|discriminate].
    cbn in E. assert (l' = b :: r) by congruence. subst l'. cbn. rewrite (H a b Ha Ef). cbn. rewrite (IH r eq_refl). reflexivity.
Qed.
Lemma omap_none {A B} (f : A -> option B) (Bad : A -> Prop) l :
  (forall a, f a = None <-> Bad a) -> (omap f l = None <-> exists a, In a l /\ Bad a).
Proof.
  intros H. induction l as [|a l IH]; cbn.
  - split; [discriminate|intros (a & [] & _)].
  - destruct (f a) as [b|] eqn:Ef; cbn.
    + destruct (omap f l) as [r|]; cbn.
      * split; [discriminate|]. intros (x & [->|Hx] & Hb).
        -- apply H in Hb. congruence.
        -- assert (Some r = None) by (apply IH; eauto). discriminate.
      * split; [|reflexivity]. intros _. destruct (proj1 IH eq_refl) as (x & Hx & Hb). exists x. auto.
    + split; [|reflexivity]. intros _. exists a. split; [now left|now apply H].
Qed.
Lemma omap_total {A B} (f : A -> B) l : omap (total f) l = Some (map f l).
Proof. induction l as [|a l IH]; [reflexivity|]. cbn. rewrite IH. reflexivity. Qed.
Lemma omap_length {A B} (f : A -> option B) l l' : omap f l = Some l' -> List.length l' = List.length l.
Proof.
  revert l'. induction l as [|a l IH]; intros l' E; cbn in E.
  - injection E as <-. reflexivity.
  - destruct (f a); [|discriminate]. cbn in E. destruct (omap f l); [|discriminate]. cbn in E. injection E as <-. cbn. now rewrite (IH _ eq_refl).
Qed.
(** filters of a request, and what [any_list] and [some_list] make of the result *)
Lemma some_any {A B C} (f : A -> option B) (g : B -> option C) (k : A -> C) (P : A -> Prop) o o' :
  (forall a b, P a -> f a = Some b -> g b = Some (k a)) ->
  Forall P (olist o) -> some_list f o = Some o' -> any_list g o' = Some (option_map (map k) (nonempty o)).
Proof.
  intros H HP E. destruct o as [[|a l]|]; cbn in *.
  - injection E as <-. reflexivity.
  - change (option_map Some (omap f (a :: l)) = Some o') in E. destruct (omap f (a :: l)) as [r|] eqn:Er; [|discriminate].
    assert (o' = Some r) by (cbn in E; congruence). subst o'. cbn [any_list]. now rewrite (omap_some f g k P _ _ H HP Er).
  - injection E as <-. reflexivity.
Qed.
Lemma some_some {A B C} (f : A -> option B) (g : B -> option C) (k : A -> C) (P : A -> Prop) o o' :
  (forall a b, P a -> f a = Some b -> g b = Some (k a)) ->
  Forall P (olist o) -> some_list f o = Some o' -> some_list g o' = Some (option_map (map k) (nonempty o)).
Proof.
  intros H HP E. rewrite <- (some_any f g k P o o' H HP E). destruct o' as [[|b l]|]; try reflexivity.
  destruct o as [[|a l]|]; cbn in E; try discriminate.
  destruct (f a); [|discriminate]. cbn in E. destruct (omap f l); discriminate.
Qed.
Lemma any_any {A B C} (f : A -> option B) (g : B -> option C) (k : A -> C) (P : A -> Prop) o o' :
  (forall a b, P a -> f a = Some b -> g b = Some (k a)) ->
  Forall P (olist o) -> any_list f o = Some o' -> any_list g o' = Some (option_map (map k) o).
Proof.
  intros H HP E. destruct o as [l|]; cbn in *.
  - destruct (omap f l) as [r|] eqn:Er; [|discriminate]. assert (o' = Some r) by (cbn in E; congruence). subst o'. cbn [any_list].
    now rewrite (omap_some f g k P _ _ H HP Er).
  - injection E as <-. reflexivity.
Qed.
Lemma some_none {A B} (f : A -> option B) (Bad : A -> Prop) o :
  (forall a, f a = None <-> Bad a) -> (some_list f o = None <-> exists a, In a (olist o) /\ Bad a).
Proof.
  intros H. destruct o as [[|a l]|].
  - cbn. split; [discriminate|intros (x & [] & _)].
  - cbn [some_list olist]. rewrite <- (omap_none f Bad (a :: l) H). destruct (omap f (a :: l)); cbn; split; congruence.
  - cbn. split; [discriminate|intros (x & [] & _)].
Qed.
Lemma any_none {A B} (f : A -> option B) (Bad : A -> Prop) o :
  (forall a, f a = None <-> Bad a) -> (any_list f o = None <-> exists a, In a (olist o) /\ Bad a).
Proof.
  intros H. destruct o as [l|].
  - cbn [any_list olist]. rewrite <- (omap_none f Bad l H). destruct (omap f l); cbn; split; congruence.
  - cbn. split; [discriminate|intros (x & [] & _)].
Qed.
Lemma Forall_flat {A B} (f : A -> list B) (P : B -> Prop) l : Forall P (flat_map f l) <-> Forall (fun a => Forall P (f a)) l.
Proof.
  induction l as [|a l IH]; cbn; [split; constructor|]. rewrite Forall_app, IH. split.
  - intros [H1 H2]. now constructor.
  - intros H. inversion H; subst. now split.
Qed.
Lemma ex_flat {A B} (f : A -> list B) (P : B -> Prop) l :
  (exists a, In a l /\ exists v, In v (f a) /\ P v) <-> (exists v, In v (flat_map f l) /\ P v).
Proof.
  split.
  - intros (a & Ha & v & Hv & Hp). exists v. split; [|exact Hp]. apply in_flat_map. eauto.
  - intros (v & Hv & Hp). apply in_flat_map in Hv as (a & Ha & Hv). eauto.
Qed.
Lemma ex_app {A} (P : A -> Prop) l m : (exists v, In v (l ++ m)%list /\ P v) <-> (exists v, In v l /\ P v) \/ (exists v, In v m /\ P v).
Proof.
  split.
  - intros (v & Hv & Hp). apply in_app_or in Hv as [Hv|Hv]; [left|right]; eauto.
  - intros [(v & Hv & Hp)|(v & Hv & Hp)]; exists v; split; auto; apply in_or_app; auto.
Qed.

(** *** Values *)
Lemma as_i64_id m : (- 2 ^ 63 <= m < 2 ^ 63)%Z -> as_i64 m = m.
Proof. intros H. unfold as_i64. lia. Qed.
Lemma lowest_id m s : s = 0 \/ (m mod 10 <> 0)%Z -> lowest m s = (m, s).
Proof.
  intros H. unfold lowest. destruct (N.to_nat s) as [|n] eqn:En; cbn.
  - f_equal. lia.
  - destruct (Z.eqb_spec (m mod 10) 0) as [E|_]; [lia|]. f_equal. lia.
Qed.
Lemma value_rt v x : plain v -> json_value_to_scalar v = Some x -> scalar_to_json_value x = Some v.
Proof.
  intros Hp E. destruct v as [|b|m s|t| |]; cbn [plain json_value_to_scalar] in *; try discriminate.
  - injection E as <-. reflexivity.
  - destruct Hp as (Hm & Hs & Hl). destruct (Z.abs m <? 2 ^ 96)%Z; [|discriminate].
    assert (x = SDecimal (Some m) 28 (Z.of_N s)) by congruence. subst x. cbn [scalar_to_json_value].
    replace ((0 <=? Z.of_N s)%Z && (Z.of_N s <=? 28)%Z) with true by lia.
    rewrite N2Z.id, (as_i64_id m Hm), (lowest_id m s Hl). reflexivity.
  - injection E as <-. reflexivity.
Qed.
Lemma value_none v : json_value_to_scalar v = None <-> unusable v.
Proof.
  destruct v as [|b|m s|t| |]; cbn [json_value_to_scalar unusable]; try (split; [tauto|reflexivity]).
  - split; [discriminate|tauto].
  - destruct (Z.ltb_spec (Z.abs m) (2 ^ 96)); split; try discriminate; try reflexivity; lia.
  - split; [discriminate|tauto].
Qed.

(** *** Names *)
Lemma op_rt o : op_out (op_in o) = o. Proof. now destruct o. Qed.
Lemma event_rt e : event_out (event_in e) = Some e. Proof. now destruct e. Qed.
Lemma prop_rt p : prop_out (prop_in p) = p. Proof. now destruct p. Qed.
Lemma breakdown_rt b : breakdown_out (breakdown_in b) = b. Proof. destruct b as [p]. cbn. now rewrite prop_rt. Qed.
Lemma unit_rt u : unit_out (unit_in u) = u. Proof. now destruct u. Qed.
Lemma time_rt q : time_out (time_in q) = q. Proof. destruct q; cbn; now rewrite ?unit_rt. Qed.
Lemma stime_rt q : stime_out (stime_in q) = q. Proof. destruct q; cbn; now rewrite ?unit_rt. Qed.
Lemma qagg_rt q : qagg_out (qagg_in q) = q. Proof. now destruct q. Qed.
Lemma agg_rt a b : agg_in a = Some b -> agg_out b = a.
Proof. destruct a; cbn; intros E; try discriminate; injection E as <-; reflexivity. Qed.
Lemma agg_none a : agg_in a = None <-> ~ usable_agg a.
Proof.
  unfold usable_agg. destruct a; cbn; split; try (intros _; reflexivity);
    try (intros E; discriminate E); try (intros H; exfalso; apply H; tauto);
    intros _ H; repeat (destruct H as [H|H]; [discriminate H|]); exact H.
Qed.
Lemma pagg_rt a : pagg_out (pagg_in a) = a. Proof. now destruct a. Qed.
Lemma chart_rt c : chart_out (chart_in c) = c. Proof. now destruct c. Qed.
Lemma analysis_rt c : analysis_out (analysis_in c) = c. Proof. destruct c; cbn; now rewrite ?unit_rt. Qed.
Lemma compare_rt c : compare_out (compare_in c) = c. Proof. destruct c; unfold compare_in, compare_out; cbn. now rewrite unit_rt. Qed.
Lemma ocompare_rt o : option_map compare_out (option_map compare_in o) = o. Proof. destruct o; cbn; now rewrite ?compare_rt. Qed.
Lemma query_rt q x : query_in q = Some x -> query_out x = q.
Proof.
  destruct q; cbn; intros E; try (injection E as <-; reflexivity);
    (destruct (agg_in agg) as [a|] eqn:Ea; [|discriminate]); cbn in E; injection E as <-; cbn;
    rewrite ?prop_rt, ?pagg_rt, (agg_rt _ _ Ea); reflexivity.
Qed.
Lemma query_none q : query_in q = None <-> exists a, query_agg q = Some a /\ ~ usable_agg a.
Proof.
  destruct q as [ | | | | |a|p g a|p a|f]; cbn; try (split; [discriminate|intros (b & E & _); discriminate]);
    (destruct (agg_in a) as [x|] eqn:Ea; cbn; split; [discriminate| | |reflexivity]);
    try (intros (b & E & Hn); injection E as <-; apply agg_none in Hn; congruence);
    intros _; exists a; split; [reflexivity|now apply agg_none | reflexivity|now apply agg_none | reflexivity|now apply agg_none ].
Qed.
Lemma order_rt o : order_out (order_in o) = o. Proof. now destruct o. Qed.
Lemma wunit_rt u : wunit_out (wunit_in u) = u. Proof. now destruct u. Qed.
Lemma window_rt w : window_out (window_in w) = w. Proof. destruct w; unfold window_in, window_out; cbn. now rewrite wunit_rt. Qed.
Lemma count_rt c : count_out (count_in c) = c. Proof. now destruct c. Qed.
Lemma ffilter_rt o : option_map ffilter_out (option_map ffilter_in o) = o. Proof. destruct o as [[]|]; reflexivity. Qed.
Lemma touch_rt o : option_map touch_out (option_map touch_in o) = o. Proof. destruct o as [[]|]; reflexivity. Qed.
Lemma fchart_rt c : fchart_out (fchart_in c) = c. Proof. destruct c; cbn; now rewrite ?unit_rt. Qed.
Lemma props_rt o : option_map (map prop_out) (option_map (map prop_in) o) = o.
Proof. destruct o as [l|]; [|reflexivity]. cbn. f_equal. rewrite map_map. rewrite <- (map_id l) at 2. apply map_ext, prop_rt. Qed.
Lemma breakdowns_rt o : option_map (map breakdown_out) (option_map (map breakdown_in) o) = o.
Proof. destruct o as [l|]; [|reflexivity]. cbn. f_equal. rewrite map_map. rewrite <- (map_id l) at 2. apply map_ext, breakdown_rt. Qed.
Lemma sbreakdowns_rt o : exists b, some_list (total breakdown_in) o = Some b /\ some_list (total breakdown_out) b = Some (nonempty o).
Proof.
  destruct o as [[|a l]|]; cbn [some_list]; [eexists; split; reflexivity| |eexists; split; reflexivity].
  rewrite omap_total. eexists. split; [reflexivity|]. cbn [map some_list nonempty]. rewrite omap_total. cbn [option_map].
  f_equal. f_equal. change (map breakdown_out (map breakdown_in (a :: l)) = a :: l). rewrite map_map. rewrite <- (map_id (a :: l)) at 2. apply map_ext, breakdown_rt.
Qed.

(** *** Filters *)
Lemma nonempty_olist {A} (o : option (list A)) : olist (nonempty o) = olist o.
Proof. now destruct o as [[|a l]|]. Qed.
Lemma map_id_opt {A} (o : option (list A)) : option_map (map (fun x : A => x)) o = o.
Proof. destruct o as [l|]; [|reflexivity]. cbn. now rewrite map_id. Qed.
Lemma filter_rt f x : Forall plain (filter_vals f) -> filter_in f = Some x -> filter_out x = Some (kept_filter f).
Proof.
  destruct f as [p op v]. cbn [filter_vals filter_in kept_filter]. intros Hp E.
  destruct (some_list json_value_to_scalar v) as [v'|] eqn:Ev; [|discriminate]. cbn in E. assert (x = PFProperty (prop_in p) (op_in op) v') by congruence. subst x.
  cbn [filter_out]. rewrite (some_any _ scalar_to_json_value (fun v => v) plain v v' value_rt Hp Ev). cbn [obind].
  now rewrite prop_rt, op_rt, map_id_opt.
Qed.
Lemma filter_none f : filter_in f = None <-> exists v, In v (filter_vals f) /\ unusable v.
Proof.
  destruct f as [p op v]. cbn [filter_vals filter_in]. rewrite <- (some_none json_value_to_scalar unusable v value_none).
  destruct (some_list json_value_to_scalar v); cbn; split; congruence.
Qed.
Lemma sfilters_rt o x : Forall plain (flat_map filter_vals (olist o)) -> some_list filter_in o = Some x ->
  any_list filter_out x = Some (kept_filters o) /\ some_list filter_out x = Some (kept_filters o).
Proof.
  intros Hp E. apply Forall_flat in Hp. split.
  - exact (some_any _ _ kept_filter _ o x filter_rt Hp E).
  - exact (some_some _ _ kept_filter _ o x filter_rt Hp E).
Qed.
Lemma afilters_rt o x : Forall plain (flat_map filter_vals (olist o)) -> any_list filter_in o = Some x ->
  any_list filter_out x = Some (option_map (map kept_filter) o).
Proof. intros Hp E. apply Forall_flat in Hp. exact (any_any _ _ kept_filter _ o x filter_rt Hp E). Qed.
Lemma sfilters_none o : some_list filter_in o = None <-> exists v, In v (flat_map filter_vals (olist o)) /\ unusable v.
Proof. rewrite <- ex_flat. apply some_none, filter_none. Qed.
Lemma afilters_none o : any_list filter_in o = None <-> exists v, In v (flat_map filter_vals (olist o)) /\ unusable v.
Proof. rewrite <- ex_flat. apply any_none, filter_none. Qed.
Lemma values_rt o x : Forall plain (olist o) -> some_list json_value_to_scalar o = Some x -> some_list scalar_to_json_value x = Some (nonempty o).
Proof. intros Hp E. rewrite (some_some _ scalar_to_json_value (fun v => v) plain o x value_rt Hp E). now rewrite map_id_opt. Qed.

(** *** Segments *)
Ltac step E H := match type of E with obind ?a _ = Some _ => destruct a as [?x|] eqn:H; [cbn [obind] in E|discriminate E] end.
Lemma did_rt d x : Forall plain (did_vals d) -> did_in d = Some x -> did_out x = Some (kept_did d).
Proof.
  destruct d as [op v t|e op fs t|p a op v t|op v t]; cbn [did_vals did_in kept_did]; intros Hp E.
  - injection E as <-. cbn. now rewrite op_rt, stime_rt.
  - step E Hf. injection E as <-. cbn [did_out]. rewrite event_rt. cbn [obind].
    destruct (sfilters_rt _ _ Hp Hf) as [_ ->]. cbn [obind]. now rewrite op_rt, stime_rt.
  - destruct v as [v|]; cbn [opt_map] in E.
    + destruct (json_value_to_scalar v) as [y|] eqn:Ev; [|discriminate]. cbn in E. injection E as <-. cbn [did_out opt_map].
      rewrite (value_rt v y (Forall_inv Hp) Ev). cbn. now rewrite prop_rt, qagg_rt, op_rt, stime_rt.
    + cbn in E. injection E as <-. cbn. now rewrite prop_rt, qagg_rt, op_rt, stime_rt.
  - injection E as <-. cbn. now rewrite op_rt, stime_rt.
Qed.
Lemma did_none d : did_in d = None <-> exists v, In v (did_vals d) /\ unusable v.
Proof.
  destruct d as [op v t|e op fs t|p a op v t|op v t]; cbn [did_vals did_in].
  - split; [discriminate|intros (x & [] & _)].
  - rewrite <- sfilters_none. destruct (some_list filter_in fs); cbn; split; congruence.
  - destruct v as [v|]; cbn [opt_map].
    + destruct (json_value_to_scalar v) as [y|] eqn:Ev; cbn.
      * split; [discriminate|]. intros (x & [<-|[]] & Hu). apply value_none in Hu. congruence.
      * split; [|reflexivity]. intros _. exists v. split; [now left|now apply value_none].
    + cbn. split; [discriminate|intros (x & [] & _)].
  - split; [discriminate|intros (x & [] & _)].
Qed.
Lemma condition_rt c x : Forall plain (condition_vals c) -> condition_in c = Some x -> condition_out x = Some (kept_condition c).
Proof.
  destruct c as [p op v|p op v t|e fs a]; cbn [condition_vals condition_in kept_condition]; intros Hp E.
  - step E Hv. injection E as <-. cbn [condition_out]. rewrite (values_rt _ _ Hp Hv). cbn. now rewrite prop_rt, op_rt.
  - step E Hv. injection E as <-. cbn [condition_out]. rewrite (values_rt _ _ Hp Hv). cbn. now rewrite prop_rt, op_rt, stime_rt.
  - apply Forall_app in Hp as [H1 H2]. step E Hv. step E Ha. injection E as <-. cbn [condition_out]. rewrite event_rt. cbn [obind].
    destruct (sfilters_rt _ _ H1 Hv) as [_ ->]. cbn [obind]. rewrite (did_rt _ _ H2 Ha). reflexivity.
Qed.
Lemma condition_none c : condition_in c = None <-> exists v, In v (condition_vals c) /\ unusable v.
Proof.
  destruct c as [p op v|p op v t|e fs a]; cbn [condition_vals condition_in].
  1,2: rewrite <- (some_none json_value_to_scalar unusable v value_none); destruct (some_list json_value_to_scalar v); cbn; split; congruence.
  rewrite ex_app, <- sfilters_none, <- did_none. destruct (some_list filter_in fs); cbn; [|split; auto].
  destruct (did_in a); cbn; split; intros H; try discriminate; auto. destruct H; discriminate.
Qed.
Lemma segment_rt s x : Forall plain (segment_vals s) -> segment_in s = Some x -> segment_out x = Some (kept_segment s).
Proof.
  unfold segment_vals, segment_in. intros Hp E. step E Hc. injection E as <-. unfold segment_out. cbn [ss_conditions ss_name].
  rewrite (omap_some (omap condition_in) (omap condition_out) (map kept_condition) (fun l => Forall plain (flat_map condition_vals l)) _ _) with (2 := proj1 (Forall_flat _ _ _) Hp) (3 := Hc); [reflexivity|].
  intros a b Ha Hb. apply Forall_flat in Ha. exact (omap_some _ _ kept_condition _ a b condition_rt Ha Hb).
Qed.
Lemma segment_none s : segment_in s = None <-> exists v, In v (segment_vals s) /\ unusable v.
Proof.
  unfold segment_vals, segment_in. rewrite <- ex_flat.
  rewrite <- (omap_none (omap condition_in) (fun l => exists v, In v (flat_map condition_vals l) /\ unusable v) (as_conditions s)).
  - destruct (omap (omap condition_in) (as_conditions s)); cbn; split; congruence.
  - intros l. rewrite <- ex_flat. apply omap_none, condition_none.
Qed.

Section Conv.
Variable name_of : AEvent -> N -> Str.
Variable checked : bool.

Lemma named_out e i qs : map (fun q => query_out (nq_agg q)) (named name_of e i qs) = map query_out qs.
Proof. revert i. induction qs as [|q qs IH]; intros i; [reflexivity|]. cbn. now rewrite IH. Qed.
Lemma queries_rt l x : omap query_in l = Some x -> map query_out x = l.
Proof.
  revert x. induction l as [|q l IH]; intros x E; cbn in E; [injection E as <-; reflexivity|].
  destruct (query_in q) as [y|] eqn:Eq; [|discriminate]. cbn in E. destruct (omap query_in l) as [r|]; [|discriminate]. cbn in E.
  injection E as <-. cbn. now rewrite (query_rt _ _ Eq), (IH r eq_refl).
Qed.
Definition kept_seg_event (e : ASegEvent) : ASegEvent := mkASegEvent (ase_event e) (kept_filters (ase_filters e)) (nonempty (ase_breakdowns e)) (ase_queries e).
Lemma seg_event_rt e x : Forall plain (flat_map filter_vals (olist (ase_filters e))) -> seg_event_in name_of e = Some x -> seg_event_out x = Some (kept_seg_event e).
Proof.
  unfold seg_event_in. intros Hp E. step E Hf. destruct (sbreakdowns_rt (ase_breakdowns e)) as (b & Hb & Hb').
  rewrite Hb in E. cbn [obind] in E. step E Hq. injection E as <-. unfold seg_event_out. cbn [se_event se_filters se_breakdowns se_queries].
  rewrite event_rt. cbn [obind]. destruct (sfilters_rt _ _ Hp Hf) as [_ ->]. cbn [obind]. rewrite Hb'. cbn [obind].
  rewrite named_out, (queries_rt _ _ Hq). reflexivity.
Qed.
Lemma seg_event_none e : seg_event_in name_of e = None <->
  (exists v, In v (flat_map filter_vals (olist (ase_filters e))) /\ unusable v)
  \/ (exists q a, In q (ase_queries e) /\ query_agg q = Some a /\ ~ usable_agg a).
Proof.
  unfold seg_event_in. rewrite <- sfilters_none. destruct (some_list filter_in (ase_filters e)) as [f|]; cbn [obind]; [|split; auto].
  destruct (sbreakdowns_rt (ase_breakdowns e)) as (b & -> & _). cbn [obind].
  pose proof (omap_none query_in _ (ase_queries e) query_none) as Hq. destruct (omap query_in (ase_queries e)) as [qs|]; cbn [obind].
  - split; [discriminate|]. intros [H|(q & a & H1 & H2 & H3)]; [discriminate|]. assert (Some qs = None) by (apply Hq; exists q; split; eauto). discriminate.
  - split; [|reflexivity]. intros _. right. destruct (proj1 Hq eq_refl) as (q & H1 & a & H2 & H3). exists q, a. auto.
Qed.

Lemma groups_some (o : option AGrouped) x : Forall plain (grouped_vals o) ->
  match o with None => Some None | Some g => match agd_groups g with [] => None | g0 :: _ => some_list filter_in (Some (ag_filters g0)) end end = Some x ->
  any_list filter_out x = Some (match o with None => None | Some g => match first_group g with [] => None | fs => Some (map kept_filter fs) end end).
Proof.
  destruct o as [g|]; unfold grouped_vals, first_group; intros Hp E.
  - destruct (agd_groups g) as [|g0 r]; [discriminate|]. destruct (sfilters_rt (Some (ag_filters g0)) x Hp E) as [-> _].
    unfold kept_filters. cbn [nonempty]. destruct (ag_filters g0); reflexivity.
  - injection E as <-. reflexivity.
Qed.
Lemma segmentation_rt r x : Forall plain (segmentation_vals r) -> segmentation_in name_of r = Some x -> segmentation_out x = Some (kept_segmentation r).
Proof.
  unfold segmentation_vals, segmentation_in. intros Hp E. apply Forall_app in Hp as [H1 Hp]. apply Forall_app in Hp as [H2 H3].
  step E He. step E Hg. destruct (sbreakdowns_rt (asg_breakdowns r)) as (b & Hb & Hb'). rewrite Hb in E. cbn [obind] in E. step E Hs.
  injection E as <-. unfold segmentation_out. cbn [es_events es_filters es_breakdowns es_segments es_time es_group es_unit es_chart es_analysis es_compare].
  rewrite (omap_some _ seg_event_out kept_seg_event _ _ _ seg_event_rt (proj1 (Forall_flat _ _ _) H1) He). cbn [obind].
  rewrite (groups_some _ _ H2 Hg). cbn [obind]. rewrite Hb'. cbn [obind].
  rewrite (some_any _ segment_out kept_segment _ _ _ segment_rt (proj1 (Forall_flat _ _ _) H3) Hs). cbn [obind].
  unfold kept_segmentation. rewrite time_rt, unit_rt, chart_rt, analysis_rt, ocompare_rt. do 2 f_equal.
  destruct (asg_filters r) as [g|]; [|reflexivity]. destruct (first_group g); reflexivity.
Qed.
Lemma groups_none (o : option AGrouped) :
  match o with None => Some None | Some g => match agd_groups g with [] => None | g0 :: _ => some_list filter_in (Some (ag_filters g0)) end end = None
  <-> (exists v, In v (grouped_vals o) /\ unusable v) \/ no_group o.
Proof.
  destruct o as [g|]; unfold grouped_vals, first_group, no_group.
  - destruct (agd_groups g) as [|g0 r].
    + split; auto.
    + rewrite sfilters_none. cbn [olist]. split; [now left|]. intros [H|H]; [exact H|discriminate].
  - split; [discriminate|]. intros [(v & [] & _)|[]].
Qed.
Lemma segmentation_none r : segmentation_in name_of r = None <-> segmentation_crash r.
Proof.
  unfold segmentation_in, segmentation_crash, segmentation_vals. rewrite !ex_app, <- !ex_flat.
  pose proof (omap_none (seg_event_in name_of) _ (asg_events r) seg_event_none) as He.
  destruct (omap (seg_event_in name_of) (asg_events r)) as [es|]; cbn [obind].
  2:{ split; [|reflexivity]. intros _. destruct (proj1 He eq_refl) as (e & H1 & [H2|(q & a & H2 & H3 & H4)]).
      - left. left. eauto.
      - right. right. exists e, q, a. auto. }
  assert (NE : ~ ((exists e, In e (asg_events r) /\ exists v, In v (flat_map filter_vals (olist (ase_filters e))) /\ unusable v)
                  \/ exists e q a, In e (asg_events r) /\ In q (ase_queries e) /\ query_agg q = Some a /\ ~ usable_agg a)).
  { intros H. assert (Some es = None); [apply He|discriminate]. destruct H as [(e & H1 & H2)|(e & q & a & H1 & H2 & H3 & H4)]; exists e; split; auto. right. exists q, a. auto. }
  pose proof (groups_none (asg_filters r)) as Hg. destruct (match asg_filters r with None => _ | Some _ => _ end) as [f|]; cbn [obind].
  2:{ split; [|reflexivity]. intros _. destruct (proj1 Hg eq_refl) as [H|H]; [left; right; now left|right; now left]. }
  assert (NG : ~ ((exists v, In v (grouped_vals (asg_filters r)) /\ unusable v) \/ no_group (asg_filters r))) by (intros H; apply Hg in H; discriminate).
  destruct (sbreakdowns_rt (asg_breakdowns r)) as (b & -> & _). cbn [obind].
  pose proof (some_none segment_in _ (asg_segments r) segment_none) as Hs. destruct (some_list segment_in (asg_segments r)) as [ss|]; cbn [obind].
  - split; [discriminate|]. intros [[H|[H|H]]|[H|H]]; try tauto. apply Hs in H. discriminate.
  - split; [|reflexivity]. intros _. left. right. right. now apply Hs.
Qed.

(** *** Funnels *)
Definition kept_fevent (e : AFEvent) : AFEvent := mkAFEvent (afe_event e) (option_map (map kept_filter) (afe_filters e)).
Lemma fevent_rt e x : Forall plain (flat_map filter_vals (olist (afe_filters e))) -> fevent_in e = Some x -> fevent_out x = Some (kept_fevent e).
Proof.
  unfold fevent_in. intros Hp E. step E Hf. injection E as <-. unfold fevent_out. cbn [fe_event fe_filters]. rewrite event_rt. cbn [obind].
  rewrite (afilters_rt _ _ Hp Hf). reflexivity.
Qed.
Lemma fevent_none e : fevent_in e = None <-> exists v, In v (flat_map filter_vals (olist (afe_filters e))) /\ unusable v.
Proof. unfold fevent_in. rewrite <- afilters_none. destruct (any_list filter_in (afe_filters e)); cbn; split; congruence. Qed.
Definition kept_step (s : AStep) : AStep := mkAStep (map kept_fevent (ast_events s)) (ast_order s).
Definition step_vals (s : AStep) : list JVal := flat_map (fun e => flat_map filter_vals (olist (afe_filters e))) (ast_events s).
Lemma step_rt s x : Forall plain (step_vals s) -> step_in s = Some x -> step_out x = Some (kept_step s).
Proof.
  unfold step_in. intros Hp E. step E Hf. injection E as <-. unfold step_out. cbn [fst_events fst_order].
  rewrite (omap_some _ fevent_out kept_fevent _ _ _ fevent_rt (proj1 (Forall_flat _ _ _) Hp) Hf). cbn [obind]. now rewrite order_rt.
Qed.
Lemma step_none s : step_in s = None <-> exists v, In v (step_vals s) /\ unusable v.
Proof.
  unfold step_in, step_vals. rewrite <- ex_flat, <- (omap_none fevent_in _ (ast_events s) fevent_none).
  destruct (omap fevent_in (ast_events s)); cbn; split; congruence.
Qed.
Lemma less_one_spec a b : a < 2 ^ 64 -> less_one checked a = Some b -> b = one_lower a.
Proof.
  intros Ha. unfold less_one, one_lower. destruct (N.eqb_spec a 0) as [->|Hn].
  - destruct checked; [discriminate|]. intros E. injection E as <-. reflexivity.
  - intros E. assert (b = a - 1) by congruence. subst b. clear E. replace (a + (2 ^ 64 - 1)) with ((a - 1) + 1 * 2 ^ 64) by lia. rewrite N.mod_add by lia. rewrite N.mod_small; lia.
Qed.
Lemma less_one_none a : less_one checked a = None <-> checked = true /\ a = 0.
Proof. unfold less_one. destruct (N.eqb_spec a 0); destruct checked; split; intros H; try discriminate; try tauto; destruct H; congruence. Qed.
Definition exsteps_fit (o : option ExcludeSteps) : Prop := match o with Some (ExBetween a b) => a < 2 ^ 64 /\ b < 2 ^ 64 | _ => True end.
Lemma exsteps_rt o x : exsteps_fit o -> opt_map (exsteps_in checked) o = Some x -> option_map exsteps_out x = option_map lowered o.
Proof.
  destruct o as [[|a b]|]; cbn [opt_map exsteps_in option_map lowered exsteps_fit]; intros Hf E.
  - injection E as <-. reflexivity.
  - destruct (less_one checked a) as [a'|] eqn:Ea; [|discriminate]. cbn [obind] in E. destruct (less_one checked b) as [b'|] eqn:Eb; [|discriminate].
    cbn [obind option_map] in E. injection E as <-. cbn. now rewrite (less_one_spec a a'), (less_one_spec b b') by tauto.
  - injection E as <-. reflexivity.
Qed.
Definition lost_step (o : option ExcludeSteps) : Prop := checked = true /\ exists a b, o = Some (ExBetween a b) /\ (a = 0 \/ b = 0).
Lemma exsteps_none o : opt_map (exsteps_in checked) o = None <-> lost_step o.
Proof.
  unfold lost_step. destruct o as [[|a b]|]; cbn [opt_map exsteps_in].
  - split; [discriminate|intros (_ & a & b & E & _); discriminate].
  - pose proof (less_one_none a) as Ha. destruct (less_one checked a); cbn [obind].
    + pose proof (less_one_none b) as Hb. destruct (less_one checked b); cbn [obind option_map].
      * split; [discriminate|]. intros (Hc & a' & b' & E & H). injection E as <- <-. destruct H as [H|H].
        -- assert (Some n = None) by (apply Ha; auto). discriminate.
        -- assert (Some n0 = None) by (apply Hb; auto). discriminate.
      * split; [|reflexivity]. intros _. destruct (proj1 Hb eq_refl) as [Hc H0]. split; [exact Hc|]. exists a, b. auto.
    + split; [|reflexivity]. intros _. destruct (proj1 Ha eq_refl) as [Hc H0]. split; [exact Hc|]. exists a, b. auto.
  - split; [discriminate|intros (_ & a & b & E & _); discriminate].
Qed.
Lemma exclude_rt e x : Forall plain (flat_map filter_vals (olist (aex_filters e))) /\ exsteps_fit (aex_steps e) ->
  exclude_in checked e = Some x -> exclude_out x = Some (kept_exclude e).
Proof.
  unfold exclude_in. intros [Hp Hs] E. step E Hf. step E Hx. injection E as <-. unfold exclude_out. cbn [ex_event ex_filters ex_steps].
  rewrite event_rt. cbn [obind]. rewrite (afilters_rt _ _ Hp Hf). cbn [obind]. rewrite (exsteps_rt _ _ Hs Hx). reflexivity.
Qed.
Lemma exclude_none e : exclude_in checked e = None <->
  (exists v, In v (flat_map filter_vals (olist (aex_filters e))) /\ unusable v) \/ lost_step (aex_steps e).
Proof.
  unfold exclude_in. rewrite <- afilters_none, <- exsteps_none. destruct (any_list filter_in (aex_filters e)); cbn [obind]; [|split; auto].
  destruct (opt_map (exsteps_in checked) (aex_steps e)); cbn [obind]; split; intros H; try discriminate; auto. destruct H; discriminate.
Qed.
Lemma fgroups_some (o : option AGrouped) x : Forall plain (grouped_vals o) ->
  match o with None => Some None | Some g => match agd_groups g with [] => None | g0 :: _ => option_map Some (omap filter_in (ag_filters g0)) end end = Some x ->
  any_list filter_out x = Some (option_map (fun g => map kept_filter (first_group g)) o).
Proof.
  destruct o as [g|]; unfold grouped_vals, first_group; intros Hp E.
  - cbn [option_map]. destruct (agd_groups g) as [|g0 r]; [discriminate|]. exact (afilters_rt (Some (ag_filters g0)) x Hp E).
  - injection E as <-. reflexivity.
Qed.
Lemma fgroups_none (o : option AGrouped) :
  match o with None => Some None | Some g => match agd_groups g with [] => None | g0 :: _ => option_map Some (omap filter_in (ag_filters g0)) end end = None
  <-> (exists v, In v (grouped_vals o) /\ unusable v) \/ no_group o.
Proof.
  destruct o as [g|]; unfold grouped_vals, first_group, no_group.
  - destruct (agd_groups g) as [|g0 r].
    + split; auto.
    + rewrite (afilters_none (Some (ag_filters g0))). cbn [olist]. split; [now left|]. intros [H|H]; [exact H|discriminate].
  - split; [discriminate|]. intros [(v & [] & _)|[]].
Qed.
Lemma funnel_rt r x : Forall plain (funnel_vals r) -> Forall (fun e => exsteps_fit (aex_steps e)) (olist (afn_exclude r)) ->
  funnel_in checked r = Some x -> funnel_out x = Some (kept_funnel r).
Proof.
  unfold funnel_vals, funnel_in. intros Hp Hx E. apply Forall_app in Hp as [H1 Hp]. apply Forall_app in Hp as [H2 Hp]. apply Forall_app in Hp as [H3 H4].
  step E Hs. step E He. step E Hg. step E Hf. injection E as <-. unfold funnel_out.
  cbn [fq_time fq_group fq_steps fq_window fq_chart fq_count fq_filter fq_touch fq_holding fq_exclude fq_breakdowns fq_segments fq_filters].
  rewrite (omap_some _ step_out kept_step _ _ _ step_rt (proj1 (Forall_flat _ _ _) H1) Hs). cbn [obind].
  assert (He' : Forall (fun e => Forall plain (flat_map filter_vals (olist (aex_filters e))) /\ exsteps_fit (aex_steps e)) (olist (afn_exclude r))).
  { apply Forall_flat in H2. rewrite Forall_forall in *. auto. }
  rewrite (any_any _ exclude_out kept_exclude _ _ _ exclude_rt He' He). cbn [obind].
  rewrite (any_any _ segment_out kept_segment _ _ _ segment_rt (proj1 (Forall_flat _ _ _) H3) Hg). cbn [obind].
  rewrite (fgroups_some _ _ H4 Hf). cbn [obind]. unfold kept_funnel.
  rewrite time_rt, window_rt, fchart_rt, count_rt, ffilter_rt, touch_rt, props_rt, breakdowns_rt. do 2 f_equal.
  destruct (afn_filters r); reflexivity.
Qed.
Lemma funnel_none r : funnel_in checked r = None <-> funnel_crash checked r.
Proof.
  unfold funnel_in, funnel_crash, funnel_vals. rewrite !ex_app, <- !ex_flat.
  pose proof (omap_none step_in _ (afn_steps r) step_none) as Hs. unfold step_vals in Hs.
  assert (EqS : (exists s, In s (afn_steps r) /\ exists v, In v (flat_map (fun e => flat_map filter_vals (olist (afe_filters e))) (ast_events s)) /\ unusable v) <-> omap step_in (afn_steps r) = None) by (now rewrite Hs).
  rewrite EqS. destruct (omap step_in (afn_steps r)) as [st|]; cbn [obind]; [|split; auto].
  pose proof (any_none (exclude_in checked) _ (afn_exclude r) exclude_none) as He. destruct (any_list (exclude_in checked) (afn_exclude r)) as [ex|]; cbn [obind].
  2:{ split; [|reflexivity]. intros _. destruct (proj1 He eq_refl) as (e & Hi & [H|(Hc & a & b & H)]).
      - left. right. left. eauto.
      - right. right. split; [exact Hc|]. exists e, a, b. tauto. }
  assert (NE : ~ ((exists a, In a (olist (afn_exclude r)) /\ exists v, In v (flat_map filter_vals (olist (aex_filters a))) /\ unusable v)
                  \/ (checked = true /\ exists e a b, In e (olist (afn_exclude r)) /\ aex_steps e = Some (ExBetween a b) /\ (a = 0 \/ b = 0)))).
  { intros H. assert (Some ex = None); [apply He|discriminate]. destruct H as [(e & H1 & H2)|(Hc & e & a & b & H1 & H2 & H3)]; exists e; split; auto.
    right. split; [exact Hc|]. exists a, b. auto. }
  pose proof (any_none segment_in _ (afn_segments r) segment_none) as Hg. destruct (any_list segment_in (afn_segments r)) as [ss|]; cbn [obind].
  2:{ split; [|reflexivity]. intros _. left. right. right. left. now apply Hg. }
  assert (NG : ~ exists s, In s (olist (afn_segments r)) /\ exists v, In v (segment_vals s) /\ unusable v) by (intros H; apply Hg in H; discriminate).
  pose proof (fgroups_none (afn_filters r)) as Hf. destruct (match afn_filters r with None => _ | Some _ => _ end) as [f|]; cbn [obind].
  - assert (NF : ~ ((exists v, In v (grouped_vals (afn_filters r)) /\ unusable v) \/ no_group (afn_filters r))) by (intros H; apply Hf in H; discriminate).
    split; [discriminate|]. intros [[H|[H|[H|H]]]|[H|H]]; try tauto; try discriminate.
  - split; [|reflexivity]. intros _. destruct (proj1 Hf eq_refl) as [H|H]; [left; right; right; now right|right; now left].
Qed.
Lemma report_rt r x : Forall plain (request_vals r) -> steps_fit r -> report_in name_of checked r = Some x -> report_out x = Some (kept r).
Proof.
  destruct r as [r|r]; cbn [request_vals report_in kept]; intros Hp Hs E; step E Hr; injection E as <-; cbn [report_out].
  - now rewrite (segmentation_rt _ _ Hp Hr).
  - now rewrite (funnel_rt _ _ Hp Hs Hr).
Qed.
Lemma report_none r : report_in name_of checked r = None <-> crash checked r.
Proof.
  destruct r as [r|r]; cbn [report_in crash].
  - rewrite <- segmentation_none. destruct (segmentation_in name_of r); cbn; split; congruence.
  - rewrite <- funnel_none. destruct (funnel_in checked r); cbn; split; congruence.
Qed.
End Conv.
