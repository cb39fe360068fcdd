(** Queries as saved in reports and bookmarks: src/common/src/query.rs,
    src/common/src/event_segmentation.rs, src/common/src/funnel.rs and the bincode form
    written by src/metadata/src/reports.rs 227, 262 and src/metadata/src/bookmarks.rs 110, 124.

    Strings are byte lists; bincode's UTF-8 check is not modelled.  [usize] is [u64]. *)
From Coq Require Import List NArith ZArith Bool.
From Verif Require Import Bytes Value.
Import ListNotations.
Local Open Scope N_scope.

Notation Str := (list N).

(** *** Types *)
(** query.rs 424-431 *)
Inductive TimeUnit := UHour | UDay | UWeek | UMonth | UYear.
(** query.rs 199-204 *)
Inductive PropertyRef := PRGroup (name : Str) (group : N) | PREvent (name : Str) | PRCustom (id : N).
(** query.rs 216-222 *)
Inductive EventRef := ERegularName (name : Str) | ERegular (id : N) | ECustom (id : N).
(** query.rs 234-250 *)
Inductive PropOp :=
| OpEq | OpNeq | OpGt | OpGte | OpLt | OpLte | OpTrue | OpFalse | OpExists | OpEmpty
| OpLike | OpNotLike | OpRegex | OpNotRegex.
(** datafusion's [ScalarValue], the variants the platform creates (platform/src/lib.rs 309-319)
    and the integer and time ones.  A decimal is its digits, precision and scale. *)
Inductive Scalar :=
| SNull
| SBoolean (o : option bool)
| SDecimal (o : option Z) (precision : N) (scale : Z)
| SInt8 (o : option Z) | SInt16 (o : option Z) | SInt32 (o : option Z) | SInt64 (o : option Z)
| SUtf8 (o : option Str)
| STimestampMs (o : option Z) (zone : option Str).
(** query.rs 297-300 *)
Inductive Breakdown := BProperty (p : PropertyRef).
(** query.rs 302-311 *)
Inductive PropFilter := PFProperty (p : PropertyRef) (op : PropOp) (value : option (list Scalar)).
(** query.rs 313-332.  A [DateTime<Utc>] is a number of nanoseconds. *)
Inductive SegmentTime :=
| STBetween (from to : Z) | STFrom (from : Z) | STLast (n : Z) (u : TimeUnit)
| STAfterFirstUse (within : Z) (u : TimeUnit) | STEach (n : Z) (u : TimeUnit).
(** query.rs 20-32 *)
Inductive QueryAggregate :=
| QaMin | QaMax | QaSum | QaAvg | QaMedian | QaDistinctCount | QaP25 | QaP75 | QaP90 | QaP99.
(** query.rs 343-370 *)
Inductive DidEventAggregate :=
| DCount (op : PropOp) (value : Z) (time : SegmentTime)
| DRelativeCount (e : EventRef) (op : PropOp) (filters : option (list PropFilter)) (time : SegmentTime)
| DAggregateProperty (p : PropertyRef) (agg : QueryAggregate) (op : PropOp) (value : option Scalar) (time : SegmentTime)
| DHistoricalCount (op : PropOp) (value : N) (time : SegmentTime).
(** query.rs 372-393 *)
Inductive SegmentCondition :=
| SCHas (p : PropertyRef) (op : PropOp) (value : option (list Scalar))
| SCHad (p : PropertyRef) (op : PropOp) (value : option (list Scalar)) (time : SegmentTime)
| SCDid (e : EventRef) (filters : option (list PropFilter)) (agg : DidEventAggregate).
(** query.rs 395-399 *)
Record SavedSegment := mkSavedSegment { ss_name : Str; ss_conditions : list (list SegmentCondition) }.
(** query.rs 401-412 *)
Inductive QueryTime := QTBetween (from to : Z) | QTFrom (from : Z) | QTLast (last : Z) (u : TimeUnit).
(** query.rs 51-64 *)
Inductive AggFunction := AfCount | AfSum | AfMin | AfMax | AfAvg.
(** query.rs 98-105 *)
Inductive PartAggFunction := PaCount | PaSum | PaAvg | PaMin | PaMax.
(** event_segmentation.rs 17-22 *)
Inductive SegChart := ScLine | ScColumn | ScPie.
(** event_segmentation.rs 24-33 *)
Inductive Analysis := AnLinear | AnRolling (window : N) (u : TimeUnit) | AnLogarithmic | AnCumulative.
(** event_segmentation.rs 35-39 *)
Record Compare := mkCompare { cm_offset : N; cm_unit : TimeUnit }.
(** event_segmentation.rs 56-78 *)
Inductive SegQuery :=
| SqCountEvents | SqCountUnique | SqDaily | SqWeekly | SqMonthly
| SqCountPerGroup (agg : AggFunction)
| SqAggregatePerGroup (p : PropertyRef) (per : PartAggFunction) (agg : AggFunction)
| SqAggregate (p : PropertyRef) (agg : AggFunction)
| SqFormula (formula : Str).
(** event_segmentation.rs 130-134 *)
Record NamedQuery := mkNamedQuery { nq_agg : SegQuery; nq_name : option Str }.
(** event_segmentation.rs 142-148 *)
Record SegEvent := mkSegEvent
  { se_event : EventRef; se_filters : option (list PropFilter); se_breakdowns : option (list Breakdown);
    se_queries : list NamedQuery }.
(** event_segmentation.rs 166-178 *)
Record EventSegmentation := mkEventSegmentation
  { es_time : QueryTime; es_group : N; es_unit : TimeUnit; es_chart : SegChart; es_analysis : Analysis;
    es_compare : option Compare; es_events : list SegEvent; es_filters : option (list PropFilter);
    es_breakdowns : option (list Breakdown); es_segments : option (list SavedSegment) }.
(** funnel.rs 40-44 *)
Record FEvent := mkFEvent { fe_event : EventRef; fe_filters : option (list PropFilter) }.
(** funnel.rs 95-99 *)
Inductive StepOrder := SoExact | SoAny (of : list (N * N)).
(** funnel.rs 30-34 *)
Record FStep := mkFStep { fst_events : list FEvent; fst_order : StepOrder }.
(** funnel.rs 51-59 *)
Inductive WindowUnit := WuHour | WuDay | WuWeek | WuMonth | WuYear | WuSession.
(** funnel.rs 45-49 *)
Record TimeWindow := mkTimeWindow { tw_n : N; tw_unit : WindowUnit }.
(** funnel.rs 100-104, 106-111 *)
Inductive ExcludeSteps := ExAll | ExBetween (a b : N).
Inductive FCount := FcUnique | FcNonUnique | FcSession.
(** funnel.rs 112-117 *)
Record Exclude := mkExclude { ex_event : EventRef; ex_filters : option (list PropFilter); ex_steps : option ExcludeSteps }.
(** funnel.rs 118-125, 127-132, 133-145 *)
Inductive FFilter := FfDropAny | FfDropOn (step : N) | FfTimeToConvert (a b : Z).
Inductive Touch := TFirst | TLast | TStep (step : N).
Inductive FChart := FcSteps | FcOverTime (u : TimeUnit) | FcTimeToConvert (u : TimeUnit) (lo hi : Z) | FcFrequency.
(** funnel.rs 13-28 *)
Record FunnelQuery := mkFunnelQuery
  { fq_time : QueryTime; fq_group : N; fq_steps : list FStep; fq_window : TimeWindow; fq_chart : FChart;
    fq_count : FCount; fq_filter : option FFilter; fq_touch : option Touch;
    fq_holding : option (list PropertyRef); fq_exclude : option (list Exclude);
    fq_breakdowns : option (list Breakdown); fq_segments : option (list SavedSegment);
    fq_filters : option (list PropFilter) }.
(** metadata/src/reports.rs 172-176 *)
Inductive SavedQuery := SQEvents (q : EventSegmentation) | SQFunnel (q : FunnelQuery).

(** *** The bincode form: serde's derive writes a u32 variant index before the fields of an
    enum, structs and tuples are their fields in order. *)
Definition enc_tag (t : N) : list N := enc_uint 4 t.
Definition dec_tag : parser N := dec_uint 4.
Local Notation "x <- p ;; q" := (pbind p (fun x => q)) (at level 100, p at next level, right associativity).
Definition enc_u64 := enc_uint 8. Definition dec_u64 := dec_uint 8.
Definition enc_i64 := enc_int 8. Definition dec_i64 := dec_int 8.

(** A unit-only enum. *)
Definition dec_enum {A} (of : N -> option A) : parser A :=
  t <- dec_tag ;; match of t with Some a => pret a | None => pfail end.

Definition unit_no (u : TimeUnit) : N := match u with UHour => 0 | UDay => 1 | UWeek => 2 | UMonth => 3 | UYear => 4 end.
Definition unit_of (n : N) : option TimeUnit :=
  match n with 0 => Some UHour | 1 => Some UDay | 2 => Some UWeek | 3 => Some UMonth | 4 => Some UYear | _ => None end.
Definition enc_unit u := enc_tag (unit_no u). Definition dec_unit := dec_enum unit_of.

Definition enc_pref (p : PropertyRef) : list N :=
  match p with
  | PRGroup n g => enc_tag 0 ++ enc_bytes n ++ enc_u64 g
  | PREvent n => enc_tag 1 ++ enc_bytes n
  | PRCustom i => enc_tag 2 ++ enc_u64 i
  end.
Definition dec_pref : parser PropertyRef :=
  t <- dec_tag ;;
  match t with
  | 0 => n <- dec_bytes ;; g <- dec_u64 ;; pret (PRGroup n g)
  | 1 => n <- dec_bytes ;; pret (PREvent n)
  | 2 => i <- dec_u64 ;; pret (PRCustom i)
  | _ => pfail
  end.
Definition enc_eref (e : EventRef) : list N :=
  match e with
  | ERegularName n => enc_tag 0 ++ enc_bytes n
  | ERegular i => enc_tag 1 ++ enc_u64 i
  | ECustom i => enc_tag 2 ++ enc_u64 i
  end.
Definition dec_eref : parser EventRef :=
  t <- dec_tag ;;
  match t with
  | 0 => n <- dec_bytes ;; pret (ERegularName n)
  | 1 => i <- dec_u64 ;; pret (ERegular i)
  | 2 => i <- dec_u64 ;; pret (ECustom i)
  | _ => pfail
  end.
Definition op_no (o : PropOp) : N :=
  match o with
  | OpEq => 0 | OpNeq => 1 | OpGt => 2 | OpGte => 3 | OpLt => 4 | OpLte => 5 | OpTrue => 6 | OpFalse => 7
  | OpExists => 8 | OpEmpty => 9 | OpLike => 10 | OpNotLike => 11 | OpRegex => 12 | OpNotRegex => 13
  end.
Definition op_at (n : N) : option PropOp :=
  match n with
  | 0 => Some OpEq | 1 => Some OpNeq | 2 => Some OpGt | 3 => Some OpGte | 4 => Some OpLt | 5 => Some OpLte
  | 6 => Some OpTrue | 7 => Some OpFalse | 8 => Some OpExists | 9 => Some OpEmpty | 10 => Some OpLike
  | 11 => Some OpNotLike | 12 => Some OpRegex | 13 => Some OpNotRegex | _ => None
  end.
Definition enc_pop o := enc_tag (op_no o). Definition dec_pop := dec_enum op_at.

(** scalar.rs 12-46, 85-120: [ScalarValueRef::from] and its derived encoding. *)
Definition enc_scalar (v : Scalar) : list N :=
  match v with
  | SNull => enc_tag 0
  | SBoolean o => enc_tag 1 ++ enc_option enc_bool o
  | SDecimal o p s => enc_tag 4 ++ enc_option (enc_int 16) o ++ enc_uint 1 p ++ enc_int 1 s
  | SInt8 o => enc_tag 5 ++ enc_option (enc_int 1) o
  | SInt16 o => enc_tag 6 ++ enc_option (enc_int 2) o
  | SInt32 o => enc_tag 7 ++ enc_option (enc_int 4) o
  | SInt64 o => enc_tag 8 ++ enc_option (enc_int 8) o
  | SUtf8 o => enc_tag 13 ++ enc_option enc_bytes o
  | STimestampMs o z => enc_tag 25 ++ enc_option (enc_int 8) o ++ enc_option enc_bytes z
  end.
(** scalar.rs 48-83, the same variants.  Not modelled: floats, unsigned integers, binary,
    dates, times and intervals, which the platform does not create in a filter. *)
Definition dec_scalar : parser Scalar :=
  t <- dec_tag ;;
  match t with
  | 0 => pret SNull
  | 1 => o <- dec_option dec_bool ;; pret (SBoolean o)
  | 4 => o <- dec_option (dec_int 16) ;; p <- dec_uint 1 ;; s <- dec_int 1 ;; pret (SDecimal o p s)
  | 5 => o <- dec_option (dec_int 1) ;; pret (SInt8 o)
  | 6 => o <- dec_option (dec_int 2) ;; pret (SInt16 o)
  | 7 => o <- dec_option (dec_int 4) ;; pret (SInt32 o)
  | 8 => o <- dec_option (dec_int 8) ;; pret (SInt64 o)
  | 13 => o <- dec_option dec_bytes ;; pret (SUtf8 o)
  | 25 => o <- dec_option (dec_int 8) ;; z <- dec_option dec_bytes ;; pret (STimestampMs o z)
  | _ => pfail
  end.
Definition enc_values := enc_option (enc_vec enc_scalar).
Definition dec_values := dec_option (dec_vec dec_scalar).

Definition enc_breakdown (b : Breakdown) : list N := match b with BProperty p => enc_tag 0 ++ enc_pref p end.
Definition dec_breakdown : parser Breakdown :=
  t <- dec_tag ;; match t with 0 => p <- dec_pref ;; pret (BProperty p) | _ => pfail end.
Definition enc_filter (f : PropFilter) : list N :=
  match f with PFProperty p o v => enc_tag 0 ++ enc_pref p ++ enc_pop o ++ enc_values v end.
Definition dec_filter : parser PropFilter :=
  t <- dec_tag ;;
  match t with 0 => p <- dec_pref ;; o <- dec_pop ;; v <- dec_values ;; pret (PFProperty p o v) | _ => pfail end.
Definition enc_filters := enc_option (enc_vec enc_filter).
Definition dec_filters := dec_option (dec_vec dec_filter).
Definition enc_breakdowns := enc_option (enc_vec enc_breakdown).
Definition dec_breakdowns := dec_option (dec_vec dec_breakdown).

Section Times.
(** chrono's serde form of a [DateTime<Utc>] is its RFC 3339 string; what it writes and reads
    is a parameter. *)
Variable print_time : Z -> Str.
Variable parse_time : Str -> option Z.
Definition enc_time (t : Z) : list N := enc_bytes (print_time t).
Definition dec_time : parser Z :=
  s <- dec_bytes ;; match parse_time s with Some t => pret t | None => pfail end.

Definition enc_stime (s : SegmentTime) : list N :=
  match s with
  | STBetween a b => enc_tag 0 ++ enc_time a ++ enc_time b
  | STFrom a => enc_tag 1 ++ enc_time a
  | STLast n u => enc_tag 2 ++ enc_i64 n ++ enc_unit u
  | STAfterFirstUse n u => enc_tag 3 ++ enc_i64 n ++ enc_unit u
  | STEach n u => enc_tag 4 ++ enc_i64 n ++ enc_unit u
  end.
Definition dec_stime : parser SegmentTime :=
  t <- dec_tag ;;
  match t with
  | 0 => a <- dec_time ;; b <- dec_time ;; pret (STBetween a b)
  | 1 => a <- dec_time ;; pret (STFrom a)
  | 2 => n <- dec_i64 ;; u <- dec_unit ;; pret (STLast n u)
  | 3 => n <- dec_i64 ;; u <- dec_unit ;; pret (STAfterFirstUse n u)
  | 4 => n <- dec_i64 ;; u <- dec_unit ;; pret (STEach n u)
  | _ => pfail
  end.
Definition qagg_no (q : QueryAggregate) : N :=
  match q with
  | QaMin => 0 | QaMax => 1 | QaSum => 2 | QaAvg => 3 | QaMedian => 4 | QaDistinctCount => 5
  | QaP25 => 6 | QaP75 => 7 | QaP90 => 8 | QaP99 => 9
  end.
Definition qagg_of (n : N) : option QueryAggregate :=
  match n with
  | 0 => Some QaMin | 1 => Some QaMax | 2 => Some QaSum | 3 => Some QaAvg | 4 => Some QaMedian
  | 5 => Some QaDistinctCount | 6 => Some QaP25 | 7 => Some QaP75 | 8 => Some QaP90 | 9 => Some QaP99 | _ => None
  end.
Definition enc_qagg q := enc_tag (qagg_no q). Definition dec_qagg := dec_enum qagg_of.
Definition enc_did (d : DidEventAggregate) : list N :=
  match d with
  | DCount o v t => enc_tag 0 ++ enc_pop o ++ enc_i64 v ++ enc_stime t
  | DRelativeCount e o f t => enc_tag 1 ++ enc_eref e ++ enc_pop o ++ enc_filters f ++ enc_stime t
  | DAggregateProperty p a o v t =>
      enc_tag 2 ++ enc_pref p ++ enc_qagg a ++ enc_pop o ++ enc_option enc_scalar v ++ enc_stime t
  | DHistoricalCount o v t => enc_tag 3 ++ enc_pop o ++ enc_u64 v ++ enc_stime t
  end.
Definition dec_did : parser DidEventAggregate :=
  t <- dec_tag ;;
  match t with
  | 0 => o <- dec_pop ;; v <- dec_i64 ;; s <- dec_stime ;; pret (DCount o v s)
  | 1 => e <- dec_eref ;; o <- dec_pop ;; f <- dec_filters ;; s <- dec_stime ;; pret (DRelativeCount e o f s)
  | 2 => p <- dec_pref ;; a <- dec_qagg ;; o <- dec_pop ;; v <- dec_option dec_scalar ;; s <- dec_stime ;;
         pret (DAggregateProperty p a o v s)
  | 3 => o <- dec_pop ;; v <- dec_u64 ;; s <- dec_stime ;; pret (DHistoricalCount o v s)
  | _ => pfail
  end.
Definition enc_cond (c : SegmentCondition) : list N :=
  match c with
  | SCHas p o v => enc_tag 0 ++ enc_pref p ++ enc_pop o ++ enc_values v
  | SCHad p o v t => enc_tag 1 ++ enc_pref p ++ enc_pop o ++ enc_values v ++ enc_stime t
  | SCDid e f a => enc_tag 2 ++ enc_eref e ++ enc_filters f ++ enc_did a
  end.
Definition dec_cond : parser SegmentCondition :=
  t <- dec_tag ;;
  match t with
  | 0 => p <- dec_pref ;; o <- dec_pop ;; v <- dec_values ;; pret (SCHas p o v)
  | 1 => p <- dec_pref ;; o <- dec_pop ;; v <- dec_values ;; s <- dec_stime ;; pret (SCHad p o v s)
  | 2 => e <- dec_eref ;; f <- dec_filters ;; a <- dec_did ;; pret (SCDid e f a)
  | _ => pfail
  end.
Definition enc_segment (s : SavedSegment) : list N := enc_bytes (ss_name s) ++ enc_vec (enc_vec enc_cond) (ss_conditions s).
Definition dec_segment : parser SavedSegment :=
  n <- dec_bytes ;; c <- dec_vec (dec_vec dec_cond) ;; pret (mkSavedSegment n c).
Definition enc_segments := enc_option (enc_vec enc_segment).
Definition dec_segments := dec_option (dec_vec dec_segment).
Definition enc_qtime (q : QueryTime) : list N :=
  match q with
  | QTBetween a b => enc_tag 0 ++ enc_time a ++ enc_time b
  | QTFrom a => enc_tag 1 ++ enc_time a
  | QTLast n u => enc_tag 2 ++ enc_i64 n ++ enc_unit u
  end.
Definition dec_qtime : parser QueryTime :=
  t <- dec_tag ;;
  match t with
  | 0 => a <- dec_time ;; b <- dec_time ;; pret (QTBetween a b)
  | 1 => a <- dec_time ;; pret (QTFrom a)
  | 2 => n <- dec_i64 ;; u <- dec_unit ;; pret (QTLast n u)
  | _ => pfail
  end.
Definition aggf_no (a : AggFunction) : N := match a with AfCount => 0 | AfSum => 1 | AfMin => 2 | AfMax => 3 | AfAvg => 4 end.
Definition aggf_of (n : N) : option AggFunction :=
  match n with 0 => Some AfCount | 1 => Some AfSum | 2 => Some AfMin | 3 => Some AfMax | 4 => Some AfAvg | _ => None end.
Definition enc_aggf a := enc_tag (aggf_no a). Definition dec_aggf := dec_enum aggf_of.
Definition pagg_no (a : PartAggFunction) : N := match a with PaCount => 0 | PaSum => 1 | PaAvg => 2 | PaMin => 3 | PaMax => 4 end.
Definition pagg_of (n : N) : option PartAggFunction :=
  match n with 0 => Some PaCount | 1 => Some PaSum | 2 => Some PaAvg | 3 => Some PaMin | 4 => Some PaMax | _ => None end.
Definition enc_pagg a := enc_tag (pagg_no a). Definition dec_pagg := dec_enum pagg_of.
Definition schart_no (c : SegChart) : N := match c with ScLine => 0 | ScColumn => 1 | ScPie => 2 end.
Definition schart_of (n : N) : option SegChart :=
  match n with 0 => Some ScLine | 1 => Some ScColumn | 2 => Some ScPie | _ => None end.
Definition enc_schart c := enc_tag (schart_no c). Definition dec_schart := dec_enum schart_of.
Definition enc_analysis (a : Analysis) : list N :=
  match a with
  | AnLinear => enc_tag 0 | AnRolling w u => enc_tag 1 ++ enc_u64 w ++ enc_unit u
  | AnLogarithmic => enc_tag 2 | AnCumulative => enc_tag 3
  end.
Definition dec_analysis : parser Analysis :=
  t <- dec_tag ;;
  match t with
  | 0 => pret AnLinear | 1 => w <- dec_u64 ;; u <- dec_unit ;; pret (AnRolling w u)
  | 2 => pret AnLogarithmic | 3 => pret AnCumulative | _ => pfail
  end.
Definition enc_compare (c : Compare) : list N := enc_u64 (cm_offset c) ++ enc_unit (cm_unit c).
Definition dec_compare : parser Compare := o <- dec_u64 ;; u <- dec_unit ;; pret (mkCompare o u).
Definition enc_squery (q : SegQuery) : list N :=
  match q with
  | SqCountEvents => enc_tag 0 | SqCountUnique => enc_tag 1 | SqDaily => enc_tag 2
  | SqWeekly => enc_tag 3 | SqMonthly => enc_tag 4
  | SqCountPerGroup a => enc_tag 5 ++ enc_aggf a
  | SqAggregatePerGroup p g a => enc_tag 6 ++ enc_pref p ++ enc_pagg g ++ enc_aggf a
  | SqAggregate p a => enc_tag 7 ++ enc_pref p ++ enc_aggf a
  | SqFormula f => enc_tag 8 ++ enc_bytes f
  end.
Definition dec_squery : parser SegQuery :=
  t <- dec_tag ;;
  match t with
  | 0 => pret SqCountEvents | 1 => pret SqCountUnique | 2 => pret SqDaily | 3 => pret SqWeekly | 4 => pret SqMonthly
  | 5 => a <- dec_aggf ;; pret (SqCountPerGroup a)
  | 6 => p <- dec_pref ;; g <- dec_pagg ;; a <- dec_aggf ;; pret (SqAggregatePerGroup p g a)
  | 7 => p <- dec_pref ;; a <- dec_aggf ;; pret (SqAggregate p a)
  | 8 => f <- dec_bytes ;; pret (SqFormula f)
  | _ => pfail
  end.
Definition enc_nquery (q : NamedQuery) : list N := enc_squery (nq_agg q) ++ enc_option enc_bytes (nq_name q).
Definition dec_nquery : parser NamedQuery := a <- dec_squery ;; n <- dec_option dec_bytes ;; pret (mkNamedQuery a n).
Definition enc_sevent (e : SegEvent) : list N :=
  enc_eref (se_event e) ++ enc_filters (se_filters e) ++ enc_breakdowns (se_breakdowns e) ++ enc_vec enc_nquery (se_queries e).
Definition dec_sevent : parser SegEvent :=
  e <- dec_eref ;; f <- dec_filters ;; b <- dec_breakdowns ;; q <- dec_vec dec_nquery ;; pret (mkSegEvent e f b q).
Definition enc_segmentation (q : EventSegmentation) : list N :=
  enc_qtime (es_time q) ++ enc_u64 (es_group q) ++ enc_unit (es_unit q) ++ enc_schart (es_chart q)
  ++ enc_analysis (es_analysis q) ++ enc_option enc_compare (es_compare q) ++ enc_vec enc_sevent (es_events q)
  ++ enc_filters (es_filters q) ++ enc_breakdowns (es_breakdowns q) ++ enc_segments (es_segments q).
Definition dec_segmentation : parser EventSegmentation :=
  t <- dec_qtime ;; g <- dec_u64 ;; u <- dec_unit ;; c <- dec_schart ;; a <- dec_analysis ;;
  m <- dec_option dec_compare ;; e <- dec_vec dec_sevent ;; f <- dec_filters ;; b <- dec_breakdowns ;; s <- dec_segments ;;
  pret (mkEventSegmentation t g u c a m e f b s).

Definition enc_fevent (e : FEvent) : list N := enc_eref (fe_event e) ++ enc_filters (fe_filters e).
Definition dec_fevent : parser FEvent := e <- dec_eref ;; f <- dec_filters ;; pret (mkFEvent e f).
Definition enc_pair (p : N * N) : list N := enc_u64 (fst p) ++ enc_u64 (snd p).
Definition dec_pair : parser (N * N) := a <- dec_u64 ;; b <- dec_u64 ;; pret (a, b).
Definition enc_order (o : StepOrder) : list N := match o with SoExact => enc_tag 0 | SoAny l => enc_tag 1 ++ enc_vec enc_pair l end.
Definition dec_order : parser StepOrder :=
  t <- dec_tag ;; match t with 0 => pret SoExact | 1 => l <- dec_vec dec_pair ;; pret (SoAny l) | _ => pfail end.
Definition enc_fstep (s : FStep) : list N := enc_vec enc_fevent (fst_events s) ++ enc_order (fst_order s).
Definition dec_fstep : parser FStep := e <- dec_vec dec_fevent ;; o <- dec_order ;; pret (mkFStep e o).
Definition wunit_no (u : WindowUnit) : N :=
  match u with WuHour => 0 | WuDay => 1 | WuWeek => 2 | WuMonth => 3 | WuYear => 4 | WuSession => 5 end.
Definition wunit_of (n : N) : option WindowUnit :=
  match n with
  | 0 => Some WuHour | 1 => Some WuDay | 2 => Some WuWeek | 3 => Some WuMonth | 4 => Some WuYear | 5 => Some WuSession
  | _ => None
  end.
Definition enc_wunit u := enc_tag (wunit_no u). Definition dec_wunit := dec_enum wunit_of.
Definition enc_window (w : TimeWindow) : list N := enc_u64 (tw_n w) ++ enc_wunit (tw_unit w).
Definition dec_window : parser TimeWindow := n <- dec_u64 ;; u <- dec_wunit ;; pret (mkTimeWindow n u).
Definition enc_exsteps (e : ExcludeSteps) : list N :=
  match e with ExAll => enc_tag 0 | ExBetween a b => enc_tag 1 ++ enc_u64 a ++ enc_u64 b end.
Definition dec_exsteps : parser ExcludeSteps :=
  t <- dec_tag ;; match t with 0 => pret ExAll | 1 => a <- dec_u64 ;; b <- dec_u64 ;; pret (ExBetween a b) | _ => pfail end.
Definition fcount_no (c : FCount) : N := match c with FcUnique => 0 | FcNonUnique => 1 | FcSession => 2 end.
Definition fcount_of (n : N) : option FCount :=
  match n with 0 => Some FcUnique | 1 => Some FcNonUnique | 2 => Some FcSession | _ => None end.
Definition enc_fcount c := enc_tag (fcount_no c). Definition dec_fcount := dec_enum fcount_of.
Definition enc_exclude (e : Exclude) : list N :=
  enc_eref (ex_event e) ++ enc_filters (ex_filters e) ++ enc_option enc_exsteps (ex_steps e).
Definition dec_exclude : parser Exclude :=
  e <- dec_eref ;; f <- dec_filters ;; s <- dec_option dec_exsteps ;; pret (mkExclude e f s).
Definition enc_ffilter (f : FFilter) : list N :=
  match f with FfDropAny => enc_tag 0 | FfDropOn s => enc_tag 1 ++ enc_u64 s | FfTimeToConvert a b => enc_tag 2 ++ enc_i64 a ++ enc_i64 b end.
Definition dec_ffilter : parser FFilter :=
  t <- dec_tag ;;
  match t with
  | 0 => pret FfDropAny | 1 => s <- dec_u64 ;; pret (FfDropOn s)
  | 2 => a <- dec_i64 ;; b <- dec_i64 ;; pret (FfTimeToConvert a b) | _ => pfail
  end.
Definition enc_touch (t : Touch) : list N :=
  match t with TFirst => enc_tag 0 | TLast => enc_tag 1 | TStep s => enc_tag 2 ++ enc_u64 s end.
Definition dec_touch : parser Touch :=
  t <- dec_tag ;; match t with 0 => pret TFirst | 1 => pret TLast | 2 => s <- dec_u64 ;; pret (TStep s) | _ => pfail end.
Definition enc_fchart (c : FChart) : list N :=
  match c with
  | FcSteps => enc_tag 0 | FcOverTime u => enc_tag 1 ++ enc_unit u
  | FcTimeToConvert u a b => enc_tag 2 ++ enc_unit u ++ enc_i64 a ++ enc_i64 b
  | FcFrequency => enc_tag 3
  end.
Definition dec_fchart : parser FChart :=
  t <- dec_tag ;;
  match t with
  | 0 => pret FcSteps | 1 => u <- dec_unit ;; pret (FcOverTime u)
  | 2 => u <- dec_unit ;; a <- dec_i64 ;; b <- dec_i64 ;; pret (FcTimeToConvert u a b)
  | 3 => pret FcFrequency | _ => pfail
  end.
Definition enc_funnel (q : FunnelQuery) : list N :=
  enc_qtime (fq_time q) ++ enc_u64 (fq_group q) ++ enc_vec enc_fstep (fq_steps q) ++ enc_window (fq_window q)
  ++ enc_fchart (fq_chart q) ++ enc_fcount (fq_count q) ++ enc_option enc_ffilter (fq_filter q)
  ++ enc_option enc_touch (fq_touch q) ++ enc_option (enc_vec enc_pref) (fq_holding q)
  ++ enc_option (enc_vec enc_exclude) (fq_exclude q) ++ enc_breakdowns (fq_breakdowns q)
  ++ enc_segments (fq_segments q) ++ enc_filters (fq_filters q).
Definition dec_funnel : parser FunnelQuery :=
  t <- dec_qtime ;; g <- dec_u64 ;; st <- dec_vec dec_fstep ;; w <- dec_window ;; c <- dec_fchart ;; n <- dec_fcount ;;
  f <- dec_option dec_ffilter ;; tc <- dec_option dec_touch ;; h <- dec_option (dec_vec dec_pref) ;;
  x <- dec_option (dec_vec dec_exclude) ;; b <- dec_breakdowns ;; s <- dec_segments ;; fs <- dec_filters ;;
  pret (mkFunnelQuery t g st w c n f tc h x b s fs).
Definition enc_query (q : SavedQuery) : list N :=
  match q with SQEvents q => enc_tag 0 ++ enc_segmentation q | SQFunnel q => enc_tag 1 ++ enc_funnel q end.
Definition dec_query : parser SavedQuery :=
  t <- dec_tag ;;
  match t with
  | 0 => q <- dec_segmentation ;; pret (SQEvents q) | 1 => q <- dec_funnel ;; pret (SQFunnel q) | _ => pfail
  end.
(** [bincode::deserialize]: bytes after the value are ignored. *)
Definition read_query (b : list N) : option SavedQuery := option_map fst (dec_query b).
End Times.
