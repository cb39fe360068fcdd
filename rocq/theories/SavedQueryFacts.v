(** Every query decoder of [SavedQuery] inverts its encoder. *)
From Coq Require Import List NArith ZArith Lia Bool.
From Verif Require Import Bytes BytesFacts Value SavedQuery.
Import ListNotations.
Local Open Scope N_scope.

(** *** What the Rust types can hold: strings and lists shorter than 2^64, numbers in range. *)
Definition u64 (n : N) : Prop := n < 2 ^ 64.
Definition i64 (z : Z) : Prop := int_ok 8 z.
Definition pref_ok (p : PropertyRef) : Prop :=
  match p with PRGroup n g => bytes_ok n /\ u64 g | PREvent n => bytes_ok n | PRCustom i => u64 i end.
Definition eref_ok (e : EventRef) : Prop :=
  match e with ERegularName n => bytes_ok n | ERegular i | ECustom i => u64 i end.
Definition scalar_ok (v : Scalar) : Prop :=
  match v with
  | SNull | SBoolean _ => True
  | SDecimal o p s => opt_ok (int_ok 16) o /\ p < 256 /\ int_ok 1 s
  | SInt8 o => opt_ok (int_ok 1) o | SInt16 o => opt_ok (int_ok 2) o
  | SInt32 o => opt_ok (int_ok 4) o | SInt64 o => opt_ok (int_ok 8) o
  | SUtf8 o => opt_ok bytes_ok o
  | STimestampMs o z => opt_ok (int_ok 8) o /\ opt_ok bytes_ok z
  end.
Definition values_ok := opt_ok (vec_ok scalar_ok).
Definition filter_ok (f : PropFilter) : Prop := match f with PFProperty p _ v => pref_ok p /\ values_ok v end.
Definition breakdown_ok (b : Breakdown) : Prop := match b with BProperty p => pref_ok p end.
Definition filters_ok := opt_ok (vec_ok filter_ok).
Definition breakdowns_ok := opt_ok (vec_ok breakdown_ok).
Definition squery_ok (q : SegQuery) : Prop :=
  match q with
  | SqAggregatePerGroup p _ _ | SqAggregate p _ => pref_ok p
  | SqFormula f => bytes_ok f
  | _ => True
  end.
Definition nquery_ok (q : NamedQuery) : Prop := squery_ok (nq_agg q) /\ opt_ok bytes_ok (nq_name q).
Definition sevent_ok (e : SegEvent) : Prop :=
  eref_ok (se_event e) /\ filters_ok (se_filters e) /\ breakdowns_ok (se_breakdowns e) /\ vec_ok nquery_ok (se_queries e).
Definition analysis_ok (a : Analysis) : Prop := match a with AnRolling w _ => u64 w | _ => True end.
Definition compare_ok (c : Compare) : Prop := u64 (cm_offset c).
Definition fevent_ok (e : FEvent) : Prop := eref_ok (fe_event e) /\ filters_ok (fe_filters e).
Definition pair_ok (p : N * N) : Prop := u64 (fst p) /\ u64 (snd p).
Definition order_ok (o : StepOrder) : Prop := match o with SoExact => True | SoAny l => vec_ok pair_ok l end.
Definition fstep_ok (s : FStep) : Prop := vec_ok fevent_ok (fst_events s) /\ order_ok (fst_order s).
Definition window_ok (w : TimeWindow) : Prop := u64 (tw_n w).
Definition exsteps_ok (e : ExcludeSteps) : Prop := match e with ExAll => True | ExBetween a b => u64 a /\ u64 b end.
Definition exclude_ok (e : Exclude) : Prop :=
  eref_ok (ex_event e) /\ filters_ok (ex_filters e) /\ opt_ok exsteps_ok (ex_steps e).
Definition ffilter_ok (f : FFilter) : Prop :=
  match f with FfDropAny => True | FfDropOn s => u64 s | FfTimeToConvert a b => i64 a /\ i64 b end.
Definition touch_ok (t : Touch) : Prop := match t with TStep s => u64 s | _ => True end.
Definition fchart_ok (c : FChart) : Prop := match c with FcTimeToConvert _ a b => i64 a /\ i64 b | _ => True end.

Section Times.
Variable is_time : Z -> Prop.
Definition stime_ok (s : SegmentTime) : Prop :=
  match s with
  | STBetween a b => is_time a /\ is_time b | STFrom a => is_time a
  | STLast n _ | STAfterFirstUse n _ | STEach n _ => i64 n
  end.
Definition qtime_ok (q : QueryTime) : Prop :=
  match q with QTBetween a b => is_time a /\ is_time b | QTFrom a => is_time a | QTLast n _ => i64 n end.
Definition did_ok (d : DidEventAggregate) : Prop :=
  match d with
  | DCount _ v t => i64 v /\ stime_ok t
  | DRelativeCount e _ f t => eref_ok e /\ filters_ok f /\ stime_ok t
  | DAggregateProperty p _ _ v t => pref_ok p /\ opt_ok scalar_ok v /\ stime_ok t
  | DHistoricalCount _ v t => u64 v /\ stime_ok t
  end.
Definition cond_ok (c : SegmentCondition) : Prop :=
  match c with
  | SCHas p _ v => pref_ok p /\ values_ok v
  | SCHad p _ v t => pref_ok p /\ values_ok v /\ stime_ok t
  | SCDid e f a => eref_ok e /\ filters_ok f /\ did_ok a
  end.
Definition segment_ok (s : SavedSegment) : Prop := bytes_ok (ss_name s) /\ vec_ok (vec_ok cond_ok) (ss_conditions s).
Definition segments_ok := opt_ok (vec_ok segment_ok).
Definition segmentation_ok (q : EventSegmentation) : Prop :=
  qtime_ok (es_time q) /\ u64 (es_group q) /\ analysis_ok (es_analysis q) /\ opt_ok compare_ok (es_compare q)
  /\ vec_ok sevent_ok (es_events q) /\ filters_ok (es_filters q) /\ breakdowns_ok (es_breakdowns q)
  /\ segments_ok (es_segments q).
Definition funnel_ok (q : FunnelQuery) : Prop :=
  qtime_ok (fq_time q) /\ u64 (fq_group q) /\ vec_ok fstep_ok (fq_steps q) /\ window_ok (fq_window q)
  /\ fchart_ok (fq_chart q) /\ opt_ok ffilter_ok (fq_filter q) /\ opt_ok touch_ok (fq_touch q)
  /\ opt_ok (vec_ok pref_ok) (fq_holding q) /\ opt_ok (vec_ok exclude_ok) (fq_exclude q)
  /\ breakdowns_ok (fq_breakdowns q) /\ segments_ok (fq_segments q) /\ filters_ok (fq_filters q).
Definition query_ok (q : SavedQuery) : Prop :=
  match q with SQEvents q => segmentation_ok q | SQFunnel q => funnel_ok q end.
End Times.

(** *** Proof machinery *)
Lemma pbind_rt {A B} ok (e : A -> list N) d (k : A -> parser B) x r :
  rt ok e d -> ok x -> pbind d k (e x ++ r) = k x r.
Proof. intros H Hx. unfold pbind. now rewrite H. Qed.
Lemma pbind_rt0 {A B} ok (e : A -> list N) d (k : A -> parser B) x :
  rt ok e d -> ok x -> pbind d k (e x) = k x [].
Proof. intros H Hx. rewrite <- (app_nil_r (e x)). now apply (pbind_rt ok). Qed.
Lemma tagged {B} t (k : N -> parser B) r : t < 2 ^ 32 -> pbind dec_tag k (enc_tag t ++ r) = k t r.
Proof. intros H. apply (pbind_rt (fun n => n < 256 ^ N.of_nat 4)); [apply rt_uint|exact H]. Qed.
Lemma rt_u64 : rt u64 enc_u64 dec_u64. Proof. exact (rt_uint 8). Qed.
Lemma rt_i64 : rt i64 enc_i64 dec_i64. Proof. apply rt_int; lia. Qed.
Lemma rt_int1 : rt (int_ok 1) (enc_int 1) (dec_int 1). Proof. apply rt_int; lia. Qed.
Lemma rt_int2 : rt (int_ok 2) (enc_int 2) (dec_int 2). Proof. apply rt_int; lia. Qed.
Lemma rt_int4 : rt (int_ok 4) (enc_int 4) (dec_int 4). Proof. apply rt_int; lia. Qed.
Lemma rt_int8 : rt (int_ok 8) (enc_int 8) (dec_int 8). Proof. apply rt_int; lia. Qed.
Lemma rt_int16 : rt (int_ok 16) (enc_int 16) (dec_int 16). Proof. apply rt_int; lia. Qed.
Lemma rt_u8 : rt (fun n => n < 256) (enc_uint 1) (dec_uint 1). Proof. exact (rt_uint 1). Qed.
Lemma rt_bool' : rt (fun _ => True) enc_bool dec_bool. Proof. exact rt_bool. Qed.
Lemma rt_enum {A} (no : A -> N) of :
  (forall a, no a < 2 ^ 32) -> (forall a, of (no a) = Some a) ->
  rt (fun _ => True) (fun a => enc_tag (no a)) (dec_enum of).
Proof. intros Hn Ho a rest _. unfold dec_enum. rewrite tagged by apply Hn. now rewrite Ho. Qed.
Ltac enum := apply rt_enum; [intros []; reflexivity | intros []; reflexivity].
Lemma rt_unit : rt (fun _ => True) enc_unit dec_unit. Proof. enum. Qed.
Lemma rt_pop : rt (fun _ => True) enc_pop dec_pop. Proof. enum. Qed.
Lemma rt_qagg : rt (fun _ => True) enc_qagg dec_qagg. Proof. enum. Qed.
Lemma rt_aggf : rt (fun _ => True) enc_aggf dec_aggf. Proof. enum. Qed.
Lemma rt_pagg : rt (fun _ => True) enc_pagg dec_pagg. Proof. enum. Qed.
Lemma rt_schart : rt (fun _ => True) enc_schart dec_schart. Proof. enum. Qed.
Lemma rt_wunit : rt (fun _ => True) enc_wunit dec_wunit. Proof. enum. Qed.
Lemma rt_fcount : rt (fun _ => True) enc_fcount dec_fcount. Proof. enum. Qed.

Create HintDb rtdb.
#[export] Hint Resolve rt_u64 rt_i64 rt_int1 rt_int2 rt_int4 rt_int8 rt_int16 rt_u8 rt_bool' rt_bytes
  rt_unit rt_pop rt_qagg rt_aggf rt_pagg rt_schart rt_wunit rt_fcount rt_option : rtdb.

Lemma len_tag t r : (1 <= length (enc_tag t ++ r))%nat.
Proof. rewrite app_length. unfold enc_tag, enc_uint. rewrite le_bytes_length. lia. Qed.
Lemma len_tag0 t : (1 <= length (enc_tag t))%nat.
Proof. unfold enc_tag, enc_uint. rewrite le_bytes_length. lia. Qed.
Lemma len_vec {A} (e : A -> list N) l : (1 <= length (enc_vec e l))%nat.
Proof. unfold enc_vec, enc_uint. rewrite app_length, le_bytes_length. lia. Qed.
Lemma len_bytes l : (1 <= length (enc_bytes l))%nat.
Proof. unfold enc_bytes, enc_uint. rewrite app_length, le_bytes_length. lia. Qed.
Lemma len_u64 n : (1 <= length (enc_u64 n))%nat.
Proof. unfold enc_u64, enc_uint. rewrite le_bytes_length. lia. Qed.
Lemma len_app {A} (a b : list A) : (1 <= length a)%nat -> (1 <= length (a ++ b))%nat.
Proof. rewrite app_length. lia. Qed.

(** One field: read back by its own round trip. *)
Ltac field :=
  match goal with
  | |- pbind dec_tag _ (enc_tag _ ++ _) = _ => rewrite tagged by reflexivity; cbv beta iota
  | |- pbind _ _ (_ ++ _) = _ =>
      erewrite pbind_rt; [|eauto with rtdb nocore|first [exact I | eassumption]]; cbv beta iota
  end.
Ltac fields := rewrite <- ?app_assoc; repeat field; reflexivity.

Lemma rt_pref : rt pref_ok enc_pref dec_pref.
Proof.
  intros [n g|n|i] rest H; cbn [enc_pref pref_ok] in *; unfold dec_pref; [destruct H|..]; fields.
Qed.
Lemma rt_eref : rt eref_ok enc_eref dec_eref.
Proof. intros [n|i|i] rest H; cbn [enc_eref eref_ok] in *; unfold dec_eref; fields. Qed.
#[export] Hint Resolve rt_pref rt_eref : rtdb.
Lemma rt_scalar : rt scalar_ok enc_scalar dec_scalar.
Proof.
  intros v rest H; destruct v; cbn [enc_scalar scalar_ok] in *; unfold dec_scalar;
    repeat match goal with H : _ /\ _ |- _ => destruct H end;
    try (assert (opt_ok (fun _ : bool => True) o) by (destruct o; exact I)); fields.
Qed.
#[export] Hint Resolve rt_scalar : rtdb.
Lemma len_scalar v : (1 <= length (enc_scalar v))%nat.
Proof. destruct v; cbn [enc_scalar]; first [apply len_tag0 | apply len_tag]. Qed.
Lemma len_pref v : (1 <= length (enc_pref v))%nat.
Proof. destruct v; apply len_tag. Qed.
Lemma len_eref v : (1 <= length (enc_eref v))%nat.
Proof. destruct v; apply len_tag. Qed.
Lemma rt_values : rt values_ok enc_values dec_values.
Proof. apply rt_option, rt_vec; [apply len_scalar|apply rt_scalar]. Qed.
#[export] Hint Resolve rt_values : rtdb.
Ltac opens := repeat match goal with H : _ /\ _ |- _ => destruct H end.
Lemma rt_breakdown : rt breakdown_ok enc_breakdown dec_breakdown.
Proof. intros [p] rest H; cbn [enc_breakdown breakdown_ok] in *; unfold dec_breakdown; fields. Qed.
Lemma rt_breakdowns : rt breakdowns_ok enc_breakdowns dec_breakdowns.
Proof. apply rt_option, rt_vec; [intros []; apply len_tag|apply rt_breakdown]. Qed.
Lemma rt_filter : rt filter_ok enc_filter dec_filter.
Proof. intros [p o v] rest H; cbn [enc_filter filter_ok] in *; unfold dec_filter; opens; fields. Qed.
Lemma rt_filters : rt filters_ok enc_filters dec_filters.
Proof. apply rt_option, rt_vec; [intros []; apply len_tag|apply rt_filter]. Qed.
#[export] Hint Resolve rt_breakdowns rt_filters : rtdb.
Lemma rt_analysis : rt analysis_ok enc_analysis dec_analysis.
Proof. intros [|w u| |] rest H; cbn [enc_analysis analysis_ok] in *; unfold dec_analysis; fields. Qed.
Lemma rt_compare : rt compare_ok enc_compare dec_compare.
Proof. intros [n u] rest H; unfold enc_compare, compare_ok, dec_compare in *; cbn [cm_offset cm_unit] in *; fields. Qed.
Lemma rt_squery : rt squery_ok enc_squery dec_squery.
Proof. intros q rest H; destruct q; cbn [enc_squery squery_ok] in *; unfold dec_squery; fields. Qed.
#[export] Hint Resolve rt_analysis rt_compare rt_squery : rtdb.
Lemma rt_nquery : rt nquery_ok enc_nquery dec_nquery.
Proof. intros [a n] rest [H1 H2]; unfold enc_nquery, dec_nquery; cbn [nq_agg nq_name] in *; fields. Qed.
Lemma len_nquery q : (1 <= length (enc_nquery q))%nat.
Proof. apply len_app. destruct (nq_agg q); cbn [enc_squery]; first [apply len_tag0|apply len_tag]. Qed.
Lemma rt_nqueries : rt (vec_ok nquery_ok) (enc_vec enc_nquery) (dec_vec dec_nquery).
Proof. apply rt_vec; [apply len_nquery|apply rt_nquery]. Qed.
#[export] Hint Resolve rt_nqueries : rtdb.
Lemma rt_sevent : rt sevent_ok enc_sevent dec_sevent.
Proof.
  intros [e f b q] rest H; unfold sevent_ok, enc_sevent, dec_sevent in *;
    cbn [se_event se_filters se_breakdowns se_queries] in *; opens; fields.
Qed.
Lemma rt_sevents : rt (vec_ok sevent_ok) (enc_vec enc_sevent) (dec_vec dec_sevent).
Proof. apply rt_vec; [intros e; apply len_app, len_eref|apply rt_sevent]. Qed.
#[export] Hint Resolve rt_sevents : rtdb.
Lemma rt_fevent : rt fevent_ok enc_fevent dec_fevent.
Proof. intros [e f] rest H; unfold fevent_ok, enc_fevent, dec_fevent in *; cbn [fe_event fe_filters] in *; opens; fields. Qed.
Lemma rt_fevents : rt (vec_ok fevent_ok) (enc_vec enc_fevent) (dec_vec dec_fevent).
Proof. apply rt_vec; [intros e; apply len_app, len_eref|apply rt_fevent]. Qed.
Lemma rt_pair : rt pair_ok enc_pair dec_pair.
Proof. intros [a b] rest H; unfold pair_ok, enc_pair, dec_pair in *; cbn [fst snd] in *; opens; fields. Qed.
Lemma rt_pairs : rt (vec_ok pair_ok) (enc_vec enc_pair) (dec_vec dec_pair).
Proof. apply rt_vec; [intros e; apply len_app, len_u64|apply rt_pair]. Qed.
#[export] Hint Resolve rt_fevents rt_pairs : rtdb.
Lemma rt_order : rt order_ok enc_order dec_order.
Proof. intros [|l] rest H; cbn [order_ok enc_order] in *; unfold dec_order; fields. Qed.
#[export] Hint Resolve rt_order : rtdb.
Lemma rt_fstep : rt fstep_ok enc_fstep dec_fstep.
Proof. intros [e o] rest H; unfold fstep_ok, enc_fstep, dec_fstep in *; cbn [fst_events fst_order] in *; opens; fields. Qed.
Lemma rt_fsteps : rt (vec_ok fstep_ok) (enc_vec enc_fstep) (dec_vec dec_fstep).
Proof. apply rt_vec; [intros e; apply len_app, len_vec|apply rt_fstep]. Qed.
Lemma rt_window : rt window_ok enc_window dec_window.
Proof. intros [n u] rest H; unfold window_ok, enc_window, dec_window in *; cbn [tw_n tw_unit] in *; fields. Qed.
Lemma rt_exsteps : rt exsteps_ok enc_exsteps dec_exsteps.
Proof. intros [|a b] rest H; cbn [exsteps_ok enc_exsteps] in *; unfold dec_exsteps; opens; fields. Qed.
#[export] Hint Resolve rt_fsteps rt_window rt_exsteps : rtdb.
Lemma rt_exclude : rt exclude_ok enc_exclude dec_exclude.
Proof. intros [e f s] rest H; unfold exclude_ok, enc_exclude, dec_exclude in *; cbn [ex_event ex_filters ex_steps] in *; opens; fields. Qed.
Lemma rt_excludes : rt (vec_ok exclude_ok) (enc_vec enc_exclude) (dec_vec dec_exclude).
Proof. apply rt_vec; [intros e; apply len_app, len_eref|apply rt_exclude]. Qed.
Lemma rt_ffilter : rt ffilter_ok enc_ffilter dec_ffilter.
Proof. intros [|s|a b] rest H; cbn [ffilter_ok enc_ffilter] in *; unfold dec_ffilter; opens; fields. Qed.
Lemma rt_touch : rt touch_ok enc_touch dec_touch.
Proof. intros [| |s] rest H; cbn [touch_ok enc_touch] in *; unfold dec_touch; fields. Qed.
Lemma rt_fchart : rt fchart_ok enc_fchart dec_fchart.
Proof. intros [|u|u a b|] rest H; cbn [fchart_ok enc_fchart] in *; unfold dec_fchart; opens; fields. Qed.
Lemma rt_prefs : rt (vec_ok pref_ok) (enc_vec enc_pref) (dec_vec dec_pref).
Proof. apply rt_vec; [apply len_pref|apply rt_pref]. Qed.
#[export] Hint Resolve rt_excludes rt_ffilter rt_touch rt_fchart rt_prefs : rtdb.

Section TimesFacts.
Variable print_time : Z -> Str.
Variable parse_time : Str -> option Z.
Variable is_time : Z -> Prop.
Hypothesis times : forall t, is_time t -> bytes_ok (print_time t) /\ parse_time (print_time t) = Some t.

Lemma rt_time : rt is_time (enc_time print_time) (dec_time parse_time).
Proof.
  intros t rest H. destruct (times t H) as [Hb Hp]. unfold enc_time, dec_time.
  erewrite pbind_rt; [|apply rt_bytes|exact Hb]. now rewrite Hp.
Qed.
Hint Resolve rt_time : rtdb.
Lemma rt_stime : rt (stime_ok is_time) (enc_stime print_time) (dec_stime parse_time).
Proof. intros s rest H; destruct s; cbn [stime_ok enc_stime] in *; unfold dec_stime; opens; fields. Qed.
Lemma rt_qtime : rt (qtime_ok is_time) (enc_qtime print_time) (dec_qtime parse_time).
Proof. intros s rest H; destruct s; cbn [qtime_ok enc_qtime] in *; unfold dec_qtime; opens; fields. Qed.
Hint Resolve rt_stime rt_qtime : rtdb.
Lemma rt_did : rt (did_ok is_time) (enc_did print_time) (dec_did parse_time).
Proof. intros s rest H; destruct s; cbn [did_ok enc_did] in *; unfold dec_did; opens; fields. Qed.
Hint Resolve rt_did : rtdb.
Lemma rt_cond : rt (cond_ok is_time) (enc_cond print_time) (dec_cond parse_time).
Proof. intros s rest H; destruct s; cbn [cond_ok enc_cond] in *; unfold dec_cond; opens; fields. Qed.
Lemma rt_conds : rt (vec_ok (vec_ok (cond_ok is_time))) (enc_vec (enc_vec (enc_cond print_time))) (dec_vec (dec_vec (dec_cond parse_time))).
Proof. apply rt_vec; [apply len_vec|]. apply rt_vec; [intros []; apply len_tag|apply rt_cond]. Qed.
Hint Resolve rt_conds : rtdb.
Lemma rt_segment : rt (segment_ok is_time) (enc_segment print_time) (dec_segment parse_time).
Proof. intros [n c] rest H; unfold segment_ok, enc_segment, dec_segment in *; cbn [ss_name ss_conditions] in *; opens; fields. Qed.
Lemma rt_segments : rt (segments_ok is_time) (enc_segments print_time) (dec_segments parse_time).
Proof. apply rt_option, rt_vec; [intros s; apply len_app, len_bytes|apply rt_segment]. Qed.
Hint Resolve rt_segments : rtdb.
Lemma rt_segmentation : rt (segmentation_ok is_time) (enc_segmentation print_time) (dec_segmentation parse_time).
Proof.
  intros [t g u c a m e f b s] rest H. unfold segmentation_ok, enc_segmentation, dec_segmentation in *.
  cbn [es_time es_group es_unit es_chart es_analysis es_compare es_events es_filters es_breakdowns es_segments] in *.
  opens; fields.
Qed.
Lemma rt_funnel : rt (funnel_ok is_time) (enc_funnel print_time) (dec_funnel parse_time).
Proof.
  intros [t g st w c n f tc h x b s fs] rest H. unfold funnel_ok, enc_funnel, dec_funnel in *.
  cbn [fq_time fq_group fq_steps fq_window fq_chart fq_count fq_filter fq_touch fq_holding fq_exclude fq_breakdowns
       fq_segments fq_filters] in *.
  opens; fields.
Qed.
Hint Resolve rt_segmentation rt_funnel : rtdb.
Lemma rt_query : rt (query_ok is_time) (enc_query print_time) (dec_query parse_time).
Proof. intros q rest H; destruct q; cbn [query_ok enc_query] in *; unfold dec_query; fields. Qed.
End TimesFacts.
