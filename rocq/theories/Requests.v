(** Reports as asked for by callers of the API: the request types of
    src/platform/src/lib.rs, event_segmentation.rs and funnel.rs, their conversion to and from
    the queries of [SavedQuery.v] (used both to run a report and to save one:
    src/platform/src/reports.rs 25-48, 76-101, 146-180) and the checks made before a report is
    run.

    A conversion answers [None] where the code panics.  Enumerations whose constructors have
    the same names on both sides share one Coq type; their conversions are still written out,
    arm by arm.  Reading the JSON text (serde) is not modelled. *)
From Coq Require Import List NArith ZArith Bool.
From Verif Require Import Bytes Value Memtable MdCodec SavedQuery.
Import ListNotations.
Local Open Scope N_scope.

Notation "'do' x <- a ; b" := (obind a (fun x => b)) (at level 200, x name, a at level 100, b at level 200).

(** ** Values *)
(** [serde_json::Value].  A number is [digits * 10 ^ (- scale)] in lowest form: only numbers
    that a double and a [Decimal] hold exactly are represented.  The contents of arrays and
    objects play no role. *)
Inductive JVal := JNull | JBool (b : bool) | JNum (digits : Z) (scale : N) | JText (s : Str) | JArray | JObject.
(** the lowest form of a number: no trailing zero after the point *)
Fixpoint lowest_ (m : Z) (s : nat) : Z * N :=
  match s with
  | O => (m, 0)
  | S s' => if (Z.modulo m 10 =? 0)%Z then lowest_ (Z.div m 10) s' else (m, N.of_nat s)
  end.
Definition lowest (m : Z) (s : N) : Z * N := lowest_ m (N.to_nat s).
(** [as i64] *)
Definition as_i64 (v : Z) : Z := (Z.modulo (v + 2 ^ 63) (2 ^ 64) - 2 ^ 63)%Z.
(** lib.rs 309-319 [json_value_to_scalar].  [Decimal::try_from(f64)] fails from 2 ^ 96 on, and
    the result is unwrapped; DECIMAL_PRECISION is 28 (common/src/types.rs 14). *)
Definition json_value_to_scalar (v : JVal) : option Scalar :=
  match v with
  | JBool b => Some (SBoolean (Some b))
  | JNum m s => if (Z.abs m <? 2 ^ 96)%Z then Some (SDecimal (Some m) 28 (Z.of_N s)) else None
  | JText t => Some (SUtf8 (Some t))
  | JNull | JArray | JObject => None
  end.
(** lib.rs 321-333 [scalar_to_json_value].  [Decimal::new] panics on scales above 28. *)
Definition scalar_to_json_value (v : Scalar) : option JVal :=
  match v with
  | SDecimal None _ _ | SBoolean None | SUtf8 None => Some JNull
  | SDecimal (Some m) _ s =>
    if (0 <=? s)%Z && (s <=? 28)%Z
    then let (m', s') := lowest (as_i64 m) (Z.to_N s) in Some (JNum m' s')
    else None
  | SBoolean (Some b) => Some (JBool b)
  | SUtf8 (Some t) => Some (JText t)
  | _ => None
  end.

(** ** Names of the API *)
(** lib.rs 355-374, 377-396 *)
Definition op_in (o : PropOp) : PropOp :=
  match o with
  | OpEq => OpEq | OpNeq => OpNeq | OpGt => OpGt | OpGte => OpGte | OpLt => OpLt | OpLte => OpLte
  | OpTrue => OpTrue | OpFalse => OpFalse | OpExists => OpExists | OpEmpty => OpEmpty
  | OpRegex => OpRegex | OpLike => OpLike | OpNotLike => OpNotLike | OpNotRegex => OpNotRegex
  end.
Definition op_out (o : PropOp) : PropOp :=
  match o with
  | OpEq => OpEq | OpNeq => OpNeq | OpGt => OpGt | OpGte => OpGte | OpLt => OpLt | OpLte => OpLte
  | OpTrue => OpTrue | OpFalse => OpFalse | OpExists => OpExists | OpEmpty => OpEmpty
  | OpRegex => OpRegex | OpLike => OpLike | OpNotLike => OpNotLike | OpNotRegex => OpNotRegex
  end.
(** lib.rs 400-405 *)
Inductive AEvent := AERegular (name : Str) | AECustom (id : N).
(** lib.rs 418-425 *)
Definition event_in (e : AEvent) : EventRef :=
  match e with AERegular n => ERegularName n | AECustom i => ECustom i end.
(** lib.rs 428-436 *)
Definition event_out (e : EventRef) : option AEvent :=
  match e with ERegularName n => Some (AERegular n) | ERegular _ => None | ECustom i => Some (AECustom i) end.
(** lib.rs 471-484, 487-500 *)
Definition prop_in (p : PropertyRef) : PropertyRef :=
  match p with PRGroup n g => PRGroup n g | PREvent n => PREvent n | PRCustom i => PRCustom i end.
Definition prop_out (p : PropertyRef) : PropertyRef :=
  match p with PRGroup n g => PRGroup n g | PREvent n => PREvent n | PRCustom i => PRCustom i end.
(** lib.rs 809-817, 820-828 *)
Definition breakdown_in (b : Breakdown) : Breakdown := match b with BProperty p => BProperty (prop_in p) end.
Definition breakdown_out (b : Breakdown) : Breakdown := match b with BProperty p => BProperty (prop_out p) end.
(** lib.rs 774-784, 787-797 *)
Definition unit_in (u : TimeUnit) : TimeUnit :=
  match u with UHour => UHour | UDay => UDay | UWeek => UWeek | UMonth => UMonth | UYear => UYear end.
Definition unit_out (u : TimeUnit) : TimeUnit :=
  match u with UHour => UHour | UDay => UDay | UWeek => UWeek | UMonth => UMonth | UYear => UYear end.
(** lib.rs 736-747, 750-761 *)
Definition time_in (q : QueryTime) : QueryTime :=
  match q with QTBetween f t => QTBetween f t | QTFrom f => QTFrom f | QTLast n u => QTLast n (unit_in u) end.
Definition time_out (q : QueryTime) : QueryTime :=
  match q with QTBetween f t => QTBetween f t | QTFrom f => QTFrom f | QTLast n u => QTLast n (unit_out u) end.

(** ** Filters *)
(** lib.rs 504-517 *)
Inductive AFilter := AFProperty (p : PropertyRef) (op : PropOp) (value : option (list JVal)).
(** a list given but empty is taken as not given *)
Definition some_list {A B} (f : A -> option B) (o : option (list A)) : option (option (list B)) :=
  match o with
  | None | Some [] => Some None
  | Some l => option_map Some (omap f l)
  end.
(** a list given is kept, empty or not *)
Definition any_list {A B} (f : A -> option B) (o : option (list A)) : option (option (list B)) :=
  match o with
  | None => Some None
  | Some l => option_map Some (omap f l)
  end.
(** lib.rs 520-543 *)
Definition filter_in (f : AFilter) : option PropFilter :=
  match f with
  | AFProperty p op v => do v' <- some_list json_value_to_scalar v; Some (PFProperty (prop_in p) (op_in op) v')
  end.
(** lib.rs 546-560 *)
Definition filter_out (f : PropFilter) : option AFilter :=
  match f with
  | PFProperty p op v => do v' <- any_list scalar_to_json_value v; Some (AFProperty (prop_out p) (op_out op) v')
  end.
(** lib.rs 674-702: groups of filters with a condition inside each group and one between the
    groups; [GAnd] is the default inside a group (lib.rs 682-686), between groups the
    condition may be left out. *)
Inductive Cond := GAnd | GOr.
Record AGroup := mkAGroup { ag_cond : Cond; ag_filters : list AFilter }.
Record AGrouped := mkAGrouped { agd_cond : option Cond; agd_groups : list AGroup }.

(** ** Segments *)
(** lib.rs 979-1000, 1093-1114 *)
Definition stime_in (t : SegmentTime) : SegmentTime :=
  match t with
  | STBetween f u => STBetween f u
  | STFrom f => STFrom f
  | STLast n u => STLast n (unit_in u)
  | STAfterFirstUse n u => STAfterFirstUse n (unit_in u)
  | STEach n u => STEach n (unit_in u)
  end.
Definition stime_out (t : SegmentTime) : SegmentTime :=
  match t with
  | STBetween f u => STBetween f u
  | STFrom f => STFrom f
  | STLast n u => STLast n (unit_out u)
  | STAfterFirstUse n u => STAfterFirstUse n (unit_out u)
  | STEach n u => STEach n (unit_out u)
  end.
(** lib.rs 1356-1371, 1374-1389 *)
Definition qagg_in (q : QueryAggregate) : QueryAggregate :=
  match q with
  | QaMin => QaMin | QaMax => QaMax | QaSum => QaSum | QaAvg => QaAvg | QaMedian => QaMedian
  | QaDistinctCount => QaDistinctCount | QaP25 => QaP25 | QaP75 => QaP75 | QaP90 => QaP90 | QaP99 => QaP99
  end.
Definition qagg_out (q : QueryAggregate) : QueryAggregate :=
  match q with
  | QaMin => QaMin | QaMax => QaMax | QaSum => QaSum | QaAvg => QaAvg | QaMedian => QaMedian
  | QaDistinctCount => QaDistinctCount | QaP25 => QaP25 | QaP75 => QaP75 | QaP90 => QaP90 | QaP99 => QaP99
  end.
(** lib.rs 869-895 *)
Inductive ADid :=
| ADCount (op : PropOp) (value : Z) (time : SegmentTime)
| ADRelativeCount (e : AEvent) (op : PropOp) (filters : option (list AFilter)) (time : SegmentTime)
| ADAggregateProperty (p : PropertyRef) (agg : QueryAggregate) (op : PropOp) (value : option JVal) (time : SegmentTime)
| ADHistoricalCount (op : PropOp) (value : N) (time : SegmentTime).
Definition opt_map {A B} (f : A -> option B) (o : option A) : option (option B) :=
  match o with None => Some None | Some a => option_map Some (f a) end.
(** lib.rs 898-954 *)
Definition did_in (d : ADid) : option DidEventAggregate :=
  match d with
  | ADCount op v t => Some (DCount (op_in op) v (stime_in t))
  | ADRelativeCount e op fs t =>
    do fs' <- some_list filter_in fs; Some (DRelativeCount (event_in e) (op_in op) fs' (stime_in t))
  | ADAggregateProperty p a op v t =>
    do v' <- opt_map json_value_to_scalar v;
    Some (DAggregateProperty (prop_in p) (qagg_in a) (op_in op) v' (stime_in t))
  | ADHistoricalCount op v t => Some (DHistoricalCount (op_in op) v (stime_in t))
  end.
(** lib.rs 1117-1173 *)
Definition did_out (d : DidEventAggregate) : option ADid :=
  match d with
  | DCount op v t => Some (ADCount (op_out op) v (stime_out t))
  | DRelativeCount e op fs t =>
    do e' <- event_out e; do fs' <- some_list filter_out fs;
    Some (ADRelativeCount e' (op_out op) fs' (stime_out t))
  | DAggregateProperty p a op v t =>
    do v' <- opt_map scalar_to_json_value v;
    Some (ADAggregateProperty (prop_out p) (qagg_out a) (op_out op) v' (stime_out t))
  | DHistoricalCount op v t => Some (ADHistoricalCount (op_out op) v (stime_out t))
  end.
(** lib.rs 1004-1027, 1031-1034 *)
Inductive ACondition :=
| ACHas (p : PropertyRef) (op : PropOp) (value : option (list JVal))
| ACHad (p : PropertyRef) (op : PropOp) (value : option (list JVal)) (time : SegmentTime)
| ACDid (e : AEvent) (filters : option (list AFilter)) (agg : ADid).
Record ASegment := mkASegment { as_name : Str; as_conditions : list (list ACondition) }.
(** lib.rs 1037-1090 *)
Definition condition_in (c : ACondition) : option SegmentCondition :=
  match c with
  | ACHas p op v => do v' <- some_list json_value_to_scalar v; Some (SCHas (prop_in p) (op_in op) v')
  | ACHad p op v t => do v' <- some_list json_value_to_scalar v; Some (SCHad (prop_in p) (op_in op) v' (stime_in t))
  | ACDid e fs a => do fs' <- some_list filter_in fs; do a' <- did_in a; Some (SCDid (event_in e) fs' a')
  end.
(** lib.rs 1176-1237 *)
Definition condition_out (c : SegmentCondition) : option ACondition :=
  match c with
  | SCHas p op v => do v' <- some_list scalar_to_json_value v; Some (ACHas (prop_out p) (op_out op) v')
  | SCHad p op v t => do v' <- some_list scalar_to_json_value v; Some (ACHad (prop_out p) (op_out op) v' (stime_out t))
  | SCDid e fs a =>
    do e' <- event_out e; do fs' <- some_list filter_out fs; do a' <- did_out a; Some (ACDid e' fs' a')
  end.
(** lib.rs 1240-1251, 1254-1265 *)
Definition segment_in (s : ASegment) : option SavedSegment :=
  do c <- omap (omap condition_in) (as_conditions s); Some (mkSavedSegment (as_name s) c).
Definition segment_out (s : SavedSegment) : option ASegment :=
  do c <- omap (omap condition_out) (ss_conditions s); Some (mkASegment (ss_name s) c).

(** ** Event segmentation *)
(** lib.rs 832-865: of these only five can be converted *)
Inductive AAgg :=
| ACount | ASum | AMin | AMax | AAvg | AApproxDistinct | AArrayAgg | AVariance | AVariancePop | AStddev
| AStddevPop | ACovariance | ACovariancePop | ACorrelation | AApproxPercentileCont | AApproxMedian.
(** lib.rs 1268-1279 *)
Definition agg_in (a : AAgg) : option AggFunction :=
  match a with
  | ACount => Some AfCount | ASum => Some AfSum | AMin => Some AfMin | AMax => Some AfMax | AAvg => Some AfAvg
  | _ => None
  end.
(** lib.rs 1282-1292 *)
Definition agg_out (a : AggFunction) : AAgg :=
  match a with AfCount => ACount | AfSum => ASum | AfMin => AMin | AfMax => AMax | AfAvg => AAvg end.
(** lib.rs 1311-1323, 1326-1338 *)
Definition pagg_in (a : PartAggFunction) : PartAggFunction :=
  match a with PaCount => PaCount | PaSum => PaSum | PaAvg => PaAvg | PaMin => PaMin | PaMax => PaMax end.
Definition pagg_out (a : PartAggFunction) : PartAggFunction :=
  match a with PaCount => PaCount | PaSum => PaSum | PaAvg => PaAvg | PaMin => PaMin | PaMax => PaMax end.
(** event_segmentation.rs 105-113, 116-124 *)
Definition chart_in (c : SegChart) : SegChart := match c with ScLine => ScLine | ScColumn => ScColumn | ScPie => ScPie end.
Definition chart_out (c : SegChart) : SegChart := match c with ScLine => ScLine | ScColumn => ScColumn | ScPie => ScPie end.
(** event_segmentation.rs 139-153, 156-170 *)
Definition analysis_in (a : Analysis) : Analysis :=
  match a with AnLinear => AnLinear | AnRolling w u => AnRolling w (unit_in u) | AnLogarithmic => AnLogarithmic | AnCumulative => AnCumulative end.
Definition analysis_out (a : Analysis) : Analysis :=
  match a with AnLinear => AnLinear | AnRolling w u => AnRolling w (unit_out u) | AnLogarithmic => AnLogarithmic | AnCumulative => AnCumulative end.
(** event_segmentation.rs 180-187, 190-197 *)
Definition compare_in (c : Compare) : Compare := mkCompare (cm_offset c) (unit_in (cm_unit c)).
Definition compare_out (c : Compare) : Compare := mkCompare (cm_offset c) (unit_out (cm_unit c)).
(** event_segmentation.rs 245-270 *)
Inductive AQuery :=
| AQCountEvents | AQCountUnique | AQDaily | AQWeekly | AQMonthly
| AQCountPerGroup (agg : AAgg)
| AQAggregatePerGroup (p : PropertyRef) (per : PartAggFunction) (agg : AAgg)
| AQAggregate (p : PropertyRef) (agg : AAgg)
| AQFormula (formula : Str).
(** event_segmentation.rs 273-307 *)
Definition query_in (q : AQuery) : option SegQuery :=
  match q with
  | AQCountEvents => Some SqCountEvents
  | AQCountUnique => Some SqCountUnique
  | AQDaily => Some SqDaily
  | AQWeekly => Some SqWeekly
  | AQMonthly => Some SqMonthly
  | AQCountPerGroup a => do a' <- agg_in a; Some (SqCountPerGroup a')
  | AQAggregatePerGroup p g a => do a' <- agg_in a; Some (SqAggregatePerGroup (prop_in p) (pagg_in g) a')
  | AQAggregate p a => do a' <- agg_in a; Some (SqAggregate (prop_in p) a')
  | AQFormula f => Some (SqFormula f)
  end.
(** event_segmentation.rs 310-344 *)
Definition query_out (q : SegQuery) : AQuery :=
  match q with
  | SqCountEvents => AQCountEvents
  | SqCountUnique => AQCountUnique
  | SqDaily => AQDaily
  | SqWeekly => AQWeekly
  | SqMonthly => AQMonthly
  | SqCountPerGroup a => AQCountPerGroup (agg_out a)
  | SqAggregatePerGroup p g a => AQAggregatePerGroup (prop_out p) (pagg_out g) (agg_out a)
  | SqAggregate p a => AQAggregate (prop_out p) (agg_out a)
  | SqFormula f => AQFormula f
  end.
(** event_segmentation.rs 355-363 *)
Record ASegEvent := mkASegEvent
  { ase_event : AEvent; ase_filters : option (list AFilter); ase_breakdowns : option (list Breakdown);
    ase_queries : list AQuery }.
(** event_segmentation.rs 439-454 *)
Record ASegmentation := mkASegmentation
  { asg_time : QueryTime; asg_group : N; asg_unit : TimeUnit; asg_chart : SegChart; asg_analysis : Analysis;
    asg_compare : option Compare; asg_events : list ASegEvent; asg_filters : option AGrouped;
    asg_breakdowns : option (list Breakdown); asg_segments : option (list ASegment) }.

Section Names.
Variable name_of : AEvent -> N -> Str.    (* lib.rs 407-416: the event's name and the number of the query *)

Fixpoint named (e : AEvent) (i : N) (qs : list SegQuery) : list NamedQuery :=
  match qs with
  | [] => []
  | q :: r => mkNamedQuery q (Some (name_of e i)) :: named e (i + 1) r
  end.
Definition total {A B} (f : A -> B) (a : A) : option B := Some (f a).
(** event_segmentation.rs 366-401 *)
Definition seg_event_in (e : ASegEvent) : option SegEvent :=
  do fs <- some_list filter_in (ase_filters e);
  do bs <- some_list (total breakdown_in) (ase_breakdowns e);
  do qs <- omap query_in (ase_queries e);
  Some (mkSegEvent (event_in (ase_event e)) fs bs (named (ase_event e) 0 qs)).
(** event_segmentation.rs 404-435 *)
Definition seg_event_out (e : SegEvent) : option ASegEvent :=
  do ev <- event_out (se_event e);
  do fs <- some_list filter_out (se_filters e);
  do bs <- some_list (total breakdown_out) (se_breakdowns e);
  Some (mkASegEvent ev fs bs (map (fun q => query_out (nq_agg q)) (se_queries e))).
(** event_segmentation.rs 457-505: of the groups of filters only the first is used, and
    [v.groups[0]] panics when there is none *)
Definition segmentation_in (r : ASegmentation) : option EventSegmentation :=
  do es <- omap seg_event_in (asg_events r);
  do fs <- match asg_filters r with
           | None => Some None
           | Some g => match agd_groups g with
                       | [] => None
                       | g0 :: _ => some_list filter_in (Some (ag_filters g0))
                       end
           end;
  do bs <- some_list (total breakdown_in) (asg_breakdowns r);
  do ss <- some_list segment_in (asg_segments r);
  Some (mkEventSegmentation (time_in (asg_time r)) (asg_group r) (unit_in (asg_unit r)) (chart_in (asg_chart r))
          (analysis_in (asg_analysis r)) (option_map compare_in (asg_compare r)) es fs bs ss).
(** event_segmentation.rs 508-543 *)
Definition segmentation_out (r : EventSegmentation) : option ASegmentation :=
  do es <- omap seg_event_out (es_events r);
  do fs <- any_list filter_out (es_filters r);
  do bs <- some_list (total breakdown_out) (es_breakdowns r);
  do ss <- any_list segment_out (es_segments r);
  Some (mkASegmentation (time_out (es_time r)) (es_group r) (unit_out (es_unit r)) (chart_out (es_chart r))
          (analysis_out (es_analysis r)) (option_map compare_out (es_compare r)) es
          (option_map (fun f => mkAGrouped None [mkAGroup GAnd f]) fs) bs ss).

(** ** Funnels *)
(** funnel.rs 369-374 *)
Record AFEvent := mkAFEvent { afe_event : AEvent; afe_filters : option (list AFilter) }.
(** funnel.rs 310-313 *)
Record AStep := mkAStep { ast_events : list AFEvent; ast_order : StepOrder }.
(** funnel.rs 549-555 *)
Record AExclude := mkAExclude { aex_event : AEvent; aex_filters : option (list AFilter); aex_steps : option ExcludeSteps }.
(** funnel.rs 294-308 *)
Record AFunnel := mkAFunnel
  { afn_time : QueryTime; afn_group : N; afn_steps : list AStep; afn_window : TimeWindow; afn_chart : FChart;
    afn_count : FCount; afn_filter : option FFilter; afn_touch : option Touch;
    afn_holding : option (list PropertyRef); afn_exclude : option (list AExclude);
    afn_breakdowns : option (list Breakdown); afn_segments : option (list ASegment);
    afn_filters : option AGrouped }.
(** funnel.rs 377-386, 389-398 *)
Definition fevent_in (e : AFEvent) : option FEvent :=
  do fs <- any_list filter_in (afe_filters e); Some (mkFEvent (event_in (afe_event e)) fs).
Definition fevent_out (e : FEvent) : option AFEvent :=
  do ev <- event_out (fe_event e); do fs <- any_list filter_out (fe_filters e); Some (mkAFEvent ev fs).
(** funnel.rs 471-478, 481-488 *)
Definition order_in (o : StepOrder) : StepOrder := match o with SoExact => SoExact | SoAny l => SoAny l end.
Definition order_out (o : StepOrder) : StepOrder := match o with SoExact => SoExact | SoAny l => SoAny l end.
(** funnel.rs 316-327, 330-341 *)
Definition step_in (s : AStep) : option FStep :=
  do es <- omap fevent_in (ast_events s); Some (mkFStep es (order_in (ast_order s))).
Definition step_out (s : FStep) : option AStep :=
  do es <- omap fevent_out (fst_events s); Some (mkAStep es (order_out (fst_order s))).
(** funnel.rs 437-448, 451-462 *)
Definition wunit_in (u : WindowUnit) : WindowUnit :=
  match u with WuHour => WuHour | WuDay => WuDay | WuWeek => WuWeek | WuMonth => WuMonth | WuYear => WuYear | WuSession => WuSession end.
Definition wunit_out (u : WindowUnit) : WindowUnit :=
  match u with WuHour => WuHour | WuDay => WuDay | WuWeek => WuWeek | WuMonth => WuMonth | WuYear => WuYear | WuSession => WuSession end.
(** funnel.rs 407-414, 417-424 *)
Definition window_in (w : TimeWindow) : TimeWindow := mkTimeWindow (tw_n w) (wunit_in (tw_unit w)).
Definition window_out (w : TimeWindow) : TimeWindow := mkTimeWindow (tw_n w) (wunit_out (tw_unit w)).
(** [a - 1] on a usize: a build with overflow checks ([checked]) panics on 0, a release build
    (Cargo.toml 1-4 does not ask for the checks) wraps around *)
Variable checked : bool.
Definition less_one (a : N) : option N :=
  if a =? 0 then (if checked then None else Some (2 ^ 64 - 1)) else Some (a - 1).
(** funnel.rs 497-506: steps lose one on the way in ... *)
Definition exsteps_in (e : ExcludeSteps) : option ExcludeSteps :=
  match e with
  | ExAll => Some ExAll
  | ExBetween a b => do a' <- less_one a; do b' <- less_one b; Some (ExBetween a' b')
  end.
(** ... funnel.rs 509-516: and nothing on the way out *)
Definition exsteps_out (e : ExcludeSteps) : ExcludeSteps :=
  match e with ExAll => ExAll | ExBetween a b => ExBetween a b end.
(** funnel.rs 558-568, 571-581 *)
Definition exclude_in (e : AExclude) : option Exclude :=
  do fs <- any_list filter_in (aex_filters e);
  do st <- opt_map exsteps_in (aex_steps e);
  Some (mkExclude (event_in (aex_event e)) fs st).
Definition exclude_out (e : Exclude) : option AExclude :=
  do ev <- event_out (ex_event e);
  do fs <- any_list filter_out (ex_filters e);
  Some (mkAExclude ev fs (option_map exsteps_out (ex_steps e))).
(** funnel.rs 527-546 *)
Definition count_in (c : FCount) : FCount := match c with FcUnique => FcUnique | FcNonUnique => FcNonUnique | FcSession => FcSession end.
Definition count_out (c : FCount) : FCount := match c with FcUnique => FcUnique | FcNonUnique => FcNonUnique | FcSession => FcSession end.
(** funnel.rs 594-613 *)
Definition ffilter_in (f : FFilter) : FFilter := match f with FfDropAny => FfDropAny | FfDropOn n => FfDropOn n | FfTimeToConvert a b => FfTimeToConvert a b end.
Definition ffilter_out (f : FFilter) : FFilter := match f with FfDropAny => FfDropAny | FfDropOn n => FfDropOn n | FfTimeToConvert a b => FfTimeToConvert a b end.
(** funnel.rs 624-643 *)
Definition touch_in (t : Touch) : Touch := match t with TFirst => TFirst | TLast => TLast | TStep n => TStep n end.
Definition touch_out (t : Touch) : Touch := match t with TFirst => TFirst | TLast => TLast | TStep n => TStep n end.
(** funnel.rs 673-718 *)
Definition fchart_in (c : FChart) : FChart :=
  match c with FcSteps => FcSteps | FcOverTime u => FcOverTime (unit_in u) | FcTimeToConvert u a b => FcTimeToConvert (unit_in u) a b | FcFrequency => FcFrequency end.
Definition fchart_out (c : FChart) : FChart :=
  match c with FcSteps => FcSteps | FcOverTime u => FcOverTime (unit_out u) | FcTimeToConvert u a b => FcTimeToConvert (unit_out u) a b | FcFrequency => FcFrequency end.
(** funnel.rs 721-757: here too only the first group of filters is used *)
Definition funnel_in (r : AFunnel) : option FunnelQuery :=
  do st <- omap step_in (afn_steps r);
  do ex <- any_list exclude_in (afn_exclude r);
  do ss <- any_list segment_in (afn_segments r);
  do fs <- match afn_filters r with
           | None => Some None
           | Some g => match agd_groups g with
                       | [] => None
                       | g0 :: _ => option_map Some (omap filter_in (ag_filters g0))
                       end
           end;
  Some (mkFunnelQuery (time_in (afn_time r)) (afn_group r) st (window_in (afn_window r)) (fchart_in (afn_chart r))
          (count_in (afn_count r)) (option_map ffilter_in (afn_filter r)) (option_map touch_in (afn_touch r))
          (option_map (map prop_in) (afn_holding r)) ex (option_map (map breakdown_in) (afn_breakdowns r)) ss fs).
(** funnel.rs 760-799 *)
Definition funnel_out (r : FunnelQuery) : option AFunnel :=
  do st <- omap step_out (fq_steps r);
  do ex <- any_list exclude_out (fq_exclude r);
  do ss <- any_list segment_out (fq_segments r);
  do fs <- any_list filter_out (fq_filters r);
  Some (mkAFunnel (time_out (fq_time r)) (fq_group r) st (window_out (fq_window r)) (fchart_out (fq_chart r))
          (count_out (fq_count r)) (option_map ffilter_out (fq_filter r)) (option_map touch_out (fq_touch r))
          (option_map (map prop_out) (fq_holding r)) ex (option_map (map breakdown_out) (fq_breakdowns r)) ss
          (option_map (fun f => mkAGrouped None [mkAGroup GAnd f]) fs)).

(** reports.rs 141-144, 155-162 and 146-153: the query of a saved report *)
Inductive AReportQuery := ARSegmentation (q : ASegmentation) | ARFunnel (q : AFunnel).
Definition report_in (q : AReportQuery) : option SavedQuery :=
  match q with
  | ARSegmentation q => do q' <- segmentation_in q; Some (SQEvents q')
  | ARFunnel q => do q' <- funnel_in q; Some (SQFunnel q')
  end.
Definition report_out (q : SavedQuery) : option AReportQuery :=
  match q with
  | SQEvents q => do q' <- segmentation_out q; Some (ARSegmentation q')
  | SQFunnel q => do q' <- funnel_out q; Some (ARFunnel q')
  end.
End Names.

(** ** The checks before a report is run *)
Inductive Verdict := Accepted | Refused | Crashed.
Definition andv (a b : Verdict) : Verdict := match a with Accepted => b | _ => a end.
Fixpoint allv {A} (f : A -> Verdict) (l : list A) : Verdict :=
  match l with [] => Accepted | a :: r => andv (f a) (allv f r) end.
Definition refuse_if (b : bool) : Verdict := if b then Refused else Accepted.
(** what the checks read of the project's metadata: properties by name with their type and
    whether they may be null, events by name, custom events by id.  [pi_list]: the
    property is list typed ([DType::List]), [pi_type] is then the type of its elements *)
Record PropInfo := mkPropInfo { pi_list : bool; pi_type : DType; pi_nullable : bool }.
Record Names := mkNames
  { nm_event : Str -> bool; nm_custom : N -> bool; nm_prop : Str -> option PropInfo; nm_group_prop : N -> Str -> option PropInfo }.
(** common/src/lib.rs 16 *)
Definition GROUPS : N := 5.
(** the look-up of lib.rs 1405-1424 and 1436-1452: [md.group_properties] has one entry per
    group and is indexed without a check *)
Definition look_prop {A} (m : Names) (p : PropertyRef) (ok : PropInfo -> A) (refused crashed : A) : A :=
  match p with
  | PRGroup n g =>
    if g <? GROUPS then match nm_group_prop m g n with Some i => ok i | None => refused end else crashed
  | PREvent n => match nm_prop m n with Some i => ok i | None => refused end
  | PRCustom _ => refused
  end.
(** lib.rs 1399-1426 *)
Definition check_property (m : Names) (p : PropertyRef) : Verdict :=
  look_prop m p (fun _ => Accepted) Refused Crashed.
Definition type_in (i : PropInfo) (l : list DType) : bool :=
  negb (pi_list i) && existsb (fun d => match d, pi_type i with
    | DString, DString | DInt8, DInt8 | DInt16, DInt16 | DInt32, DInt32 | DInt64, DInt64 | DDecimal, DDecimal
    | DBoolean, DBoolean | DTimestamp, DTimestamp => true | _, _ => false end) l.
(** lib.rs 1454-1497: what each operation asks of the property *)
Definition check_op (i : PropInfo) (op : PropOp) : Verdict :=
  match op with
  | OpGt | OpGte | OpLt | OpLte => refuse_if (negb (type_in i [DInt8; DInt16; DInt64; DDecimal; DTimestamp]))
  | OpTrue | OpFalse => refuse_if (negb (type_in i [DBoolean]))
  | OpExists | OpEmpty => refuse_if (negb (pi_nullable i))
  | OpRegex | OpLike | OpNotLike | OpNotRegex => refuse_if (negb (type_in i [DString]))
  | OpEq | OpNeq => Accepted
  end.
(** lib.rs 1453, 1474, 1483 *)
Definition allow_empty (op : PropOp) : bool := match op with OpTrue | OpFalse | OpExists | OpEmpty => true | _ => false end.
(** lib.rs 1514-1563 *)
Definition check_value (i : PropInfo) (v : JVal) : Verdict :=
  match v with
  | JNull => refuse_if (negb (pi_nullable i))
  | JBool _ => refuse_if (negb (type_in i [DBoolean]))
  | JNum _ _ => refuse_if (negb (type_in i [DInt8; DInt16; DInt32; DInt64; DDecimal; DTimestamp]))
  | JText _ => refuse_if (negb (type_in i [DString]))
  | JArray | JObject => Refused
  end.
(** lib.rs 1428-1568 *)
Definition check_filter (m : Names) (f : AFilter) : Verdict :=
  match f with
  | AFProperty p op v =>
    look_prop m p
      (fun i => andv (check_op i op)
        match v with
        | None => refuse_if (negb (pi_nullable i))
        | Some vs => andv (refuse_if (negb (allow_empty op) && match vs with [] => true | _ => false end)) (allv (check_value i) vs)
        end)
      Refused Crashed
  end.
(** lib.rs 1570-1591 *)
Definition check_event (m : Names) (e : AEvent) : Verdict :=
  match e with AERegular n => refuse_if (negb (nm_event m n)) | AECustom i => refuse_if (negb (nm_custom m i)) end.
Definition check_filters (m : Names) (fs : option (list AFilter)) : Verdict :=
  match fs with Some l => allv (check_filter m) l | None => Accepted end.
Definition check_time (q : QueryTime) : Verdict :=
  match q with QTBetween f t => refuse_if (t <? f)%Z | _ => Accepted end.
Definition check_breakdown (m : Names) (b : Breakdown) : Verdict := match b with BProperty p => check_property m p end.
(** event_segmentation.rs 545-639.  The breakdowns of an event are not looked at. *)
Definition check_segmentation (m : Names) (r : ASegmentation) : Verdict :=
  andv (refuse_if (GROUPS - 1 <? asg_group r))
 (andv (check_time (asg_time r))
 (andv (refuse_if match asg_events r with [] => true | _ => false end)
 (andv (allv (fun e => andv (check_event m (ase_event e))
                      (andv (check_filters m (ase_filters e))
                            (refuse_if match ase_queries e with [] => true | _ => false end))) (asg_events r))
 (andv match asg_filters r with
       | None => Accepted
       | Some g => allv (fun x => andv (refuse_if match ag_filters x with [] => true | _ => false end)
                                       (allv (check_filter m) (ag_filters x))) (agd_groups g)
       end
 (andv match asg_breakdowns r with None => Accepted | Some bs => allv (check_breakdown m) bs end
       (refuse_if match asg_segments r with None => false | Some _ => true end)))))).
Definition prop_eqb (a b : PropertyRef) : bool :=
  let str_eqb := fun x y : Str => if list_eq_dec N.eq_dec x y then true else false in
  match a, b with
  | PRGroup n g, PRGroup n' g' => str_eqb n n' && (g =? g')
  | PREvent n, PREvent n' => str_eqb n n'
  | PRCustom i, PRCustom i' => i =? i'
  | _, _ => false
  end.
Definition breakdown_eqb (a b : Breakdown) : bool := match a, b with BProperty p, BProperty q => prop_eqb p q end.
(** funnel.rs 223-231: a map holds each breakdown once *)
Fixpoint distinct (l : list Breakdown) : list Breakdown :=
  match l with [] => [] | b :: r => if existsb (breakdown_eqb b) r then distinct r else b :: distinct r end.
(** funnel.rs 111-290.  The filters of an excluded event, the step of a drop-off filter and of
    a touch are not looked at. *)
Definition check_funnel (m : Names) (r : AFunnel) : Verdict :=
  let n := N.of_nat (List.length (afn_steps r)) in
  andv (refuse_if (GROUPS - 1 <? afn_group r))
 (andv (check_time (afn_time r))
 (andv (refuse_if (n =? 0))
 (andv (refuse_if (5 <? n))
 (andv (allv (fun s => andv (refuse_if match ast_events s with [] => true | _ => false end)
                      (andv (allv (fun e => andv (check_event m (afe_event e)) (check_filters m (afe_filters e))) (ast_events s))
                            match ast_order s with
                            | SoExact => Accepted
                            | SoAny l => allv (fun ft => andv (refuse_if (n <=? fst ft)) (refuse_if (n <=? snd ft))) l
                            end)) (afn_steps r))
 (andv match afn_exclude r with
       | None => Accepted
       | Some l => allv (fun e => andv (check_event m (aex_event e))
                          match aex_steps e with
                          | Some (ExBetween a b) => andv (refuse_if (n <=? a)) (refuse_if (n <=? b))
                          | _ => Accepted
                          end) l
       end
 (andv match afn_breakdowns r with
       | None => Accepted
       | Some bs => andv (refuse_if (negb (N.of_nat (List.length (distinct bs)) =? N.of_nat (List.length bs)))) (allv (check_breakdown m) bs)
       end
 (andv (refuse_if match afn_segments r with None => false | Some _ => true end)
 (andv match afn_holding r with None => Accepted | Some ps => allv (check_property m) ps end
 (andv match afn_filter r with Some (FfTimeToConvert a b) => refuse_if (b <? a)%Z | _ => Accepted end
       match afn_filters r with None => Accepted | Some g => allv (fun x => allv (check_filter m) (ag_filters x)) (agd_groups g) end))))))))).
