(** What callers may expect of the requests they save and run, in their own terms. *)
From Coq Require Import List NArith ZArith Bool.
From Verif Require Import Bytes Value Memtable SavedQuery Requests.
Import ListNotations.
Local Open Scope N_scope.

(** ** What comes back of a saved request *)
(** An empty list of values, filters or segments comes back as no list. *)
Definition nonempty {A} (o : option (list A)) : option (list A) := match o with Some [] => None | _ => o end.
Definition kept_filter (f : AFilter) : AFilter := match f with AFProperty p op v => AFProperty p op (nonempty v) end.
Definition kept_filters (o : option (list AFilter)) : option (list AFilter) := option_map (map kept_filter) (nonempty o).
Definition kept_did (d : ADid) : ADid :=
  match d with
  | ADRelativeCount e op fs t => ADRelativeCount e op (kept_filters fs) t
  | ADCount _ _ _ | ADAggregateProperty _ _ _ _ _ | ADHistoricalCount _ _ _ => d
  end.
Definition kept_condition (c : ACondition) : ACondition :=
  match c with
  | ACHas p op v => ACHas p op (nonempty v)
  | ACHad p op v t => ACHad p op (nonempty v) t
  | ACDid e fs a => ACDid e (kept_filters fs) (kept_did a)
  end.
Definition kept_segment (s : ASegment) : ASegment := mkASegment (as_name s) (map (map kept_condition) (as_conditions s)).
(** Of the groups of filters only the first comes back, and no condition. *)
Definition first_group (g : AGrouped) : list AFilter := match agd_groups g with [] => [] | g0 :: _ => ag_filters g0 end.
Definition alone (fs : list AFilter) : AGrouped := mkAGrouped None [mkAGroup GAnd fs].
Definition kept_segmentation (r : ASegmentation) : ASegmentation :=
  mkASegmentation (asg_time r) (asg_group r) (asg_unit r) (asg_chart r) (asg_analysis r) (asg_compare r)
    (map (fun e => mkASegEvent (ase_event e) (kept_filters (ase_filters e)) (nonempty (ase_breakdowns e)) (ase_queries e)) (asg_events r))
    (match asg_filters r with
     | None => None
     | Some g => match first_group g with [] => None | fs => Some (alone (map kept_filter fs)) end
     end)
    (nonempty (asg_breakdowns r))
    (option_map (map kept_segment) (nonempty (asg_segments r))).
(** In a funnel empty lists of filters stay.  The steps of an exclusion come back one lower,
    in 64 bits. *)
Definition one_lower (a : N) : N := (a + (2 ^ 64 - 1)) mod 2 ^ 64.
Definition lowered (s : ExcludeSteps) : ExcludeSteps :=
  match s with ExAll => ExAll | ExBetween a b => ExBetween (one_lower a) (one_lower b) end.
Definition kept_exclude (e : AExclude) : AExclude :=
  mkAExclude (aex_event e) (option_map (map kept_filter) (aex_filters e)) (option_map lowered (aex_steps e)).
Definition kept_funnel (r : AFunnel) : AFunnel :=
  mkAFunnel (afn_time r) (afn_group r)
    (map (fun s => mkAStep (map (fun e => mkAFEvent (afe_event e) (option_map (map kept_filter) (afe_filters e))) (ast_events s)) (ast_order s)) (afn_steps r))
    (afn_window r) (afn_chart r) (afn_count r) (afn_filter r) (afn_touch r) (afn_holding r)
    (option_map (map kept_exclude) (afn_exclude r)) (afn_breakdowns r) (option_map (map kept_segment) (afn_segments r))
    (option_map (fun g => alone (map kept_filter (first_group g))) (afn_filters r)).
Definition kept (r : AReportQuery) : AReportQuery :=
  match r with ARSegmentation q => ARSegmentation (kept_segmentation q) | ARFunnel q => ARFunnel (kept_funnel q) end.

(** ** All values compared with in a request *)
Definition olist {A} (o : option (list A)) : list A := match o with Some l => l | None => [] end.
Definition filter_vals (f : AFilter) : list JVal := match f with AFProperty _ _ v => olist v end.
Definition did_vals (d : ADid) : list JVal :=
  match d with
  | ADRelativeCount _ _ fs _ => flat_map filter_vals (olist fs)
  | ADAggregateProperty _ _ _ (Some v) _ => [v]
  | _ => []
  end.
Definition condition_vals (c : ACondition) : list JVal :=
  match c with
  | ACHas _ _ v | ACHad _ _ v _ => olist v
  | ACDid _ fs a => (flat_map filter_vals (olist fs) ++ did_vals a)%list
  end.
Definition segment_vals (s : ASegment) : list JVal := flat_map (flat_map condition_vals) (as_conditions s).
Definition grouped_vals (o : option AGrouped) : list JVal :=
  match o with Some g => flat_map filter_vals (first_group g) | None => [] end.
Definition segmentation_vals (r : ASegmentation) : list JVal :=
  (flat_map (fun e => flat_map filter_vals (olist (ase_filters e))) (asg_events r)
   ++ grouped_vals (asg_filters r) ++ flat_map segment_vals (olist (asg_segments r)))%list.
Definition funnel_vals (r : AFunnel) : list JVal :=
  (flat_map (fun s => flat_map (fun e => flat_map filter_vals (olist (afe_filters e))) (ast_events s)) (afn_steps r)
   ++ flat_map (fun e => flat_map filter_vals (olist (aex_filters e))) (olist (afn_exclude r))
   ++ flat_map segment_vals (olist (afn_segments r)) ++ grouped_vals (afn_filters r))%list.
Definition request_vals (r : AReportQuery) : list JVal :=
  match r with ARSegmentation q => segmentation_vals q | ARFunnel q => funnel_vals q end.

(** A number in its lowest form, with at most 28 digits after the point and digits that fit
    64 bits; other values are not restricted. *)
Definition plain (v : JVal) : Prop :=
  match v with JNum m s => (- 2 ^ 63 <= m < 2 ^ 63)%Z /\ s <= 28 /\ (s = 0 \/ (m mod 10 <> 0)%Z) | _ => True end.
Definition steps_fit (r : AReportQuery) : Prop :=
  match r with
  | ARSegmentation _ => True
  | ARFunnel q => Forall (fun e => match aex_steps e with Some (ExBetween a b) => a < 2 ^ 64 /\ b < 2 ^ 64 | _ => True end) (olist (afn_exclude q))
  end.

(** ** What makes a request crash *)
(** null, a list, an object or a number of 2 ^ 96 or more *)
Definition unusable (v : JVal) : Prop :=
  match v with JNull | JArray | JObject => True | JNum m _ => (2 ^ 96 <= Z.abs m)%Z | JBool _ | JText _ => False end.
Definition no_group (o : option AGrouped) : Prop := match o with Some g => agd_groups g = [] | None => False end.
Definition usable_agg (a : AAgg) : Prop := In a [ACount; ASum; AMin; AMax; AAvg].
Definition query_agg (q : AQuery) : option AAgg :=
  match q with AQCountPerGroup a | AQAggregatePerGroup _ _ a | AQAggregate _ a => Some a | _ => None end.
Definition segmentation_crash (r : ASegmentation) : Prop :=
  (exists v, In v (segmentation_vals r) /\ unusable v)
  \/ no_group (asg_filters r)
  \/ (exists e q a, In e (asg_events r) /\ In q (ase_queries e) /\ query_agg q = Some a /\ ~ usable_agg a).
Definition funnel_crash (checked : bool) (r : AFunnel) : Prop :=
  (exists v, In v (funnel_vals r) /\ unusable v)
  \/ no_group (afn_filters r)
  \/ (checked = true /\ exists e a b, In e (olist (afn_exclude r)) /\ aex_steps e = Some (ExBetween a b) /\ (a = 0 \/ b = 0)).
Definition crash (checked : bool) (r : AReportQuery) : Prop :=
  match r with ARSegmentation q => segmentation_crash q | ARFunnel q => funnel_crash checked q end.

(** ** A request and the query made of it ask the same *)
Definition same_value (v : JVal) (x : Scalar) : Prop :=
  match v with
  | JBool b => x = SBoolean (Some b)
  | JNum m s => exists p, x = SDecimal (Some m) p (Z.of_N s)
  | JText t => x = SUtf8 (Some t)
  | JNull | JArray | JObject => False
  end.
Definition same_event (e : AEvent) (x : EventRef) : Prop :=
  match e with AERegular n => x = ERegularName n | AECustom i => x = ECustom i end.
Definition same_filter (f : AFilter) (x : PropFilter) : Prop :=
  match f, x with AFProperty p op v, PFProperty p' op' v' => p' = p /\ op' = op /\ Forall2 same_value (olist v) (olist v') end.
Definition same_filters (fs : list AFilter) (o : option (list PropFilter)) : Prop := Forall2 same_filter fs (olist o).
Definition same_agg (a : AAgg) (x : AggFunction) : Prop := In (a, x) [(ACount, AfCount); (ASum, AfSum); (AMin, AfMin); (AMax, AfMax); (AAvg, AfAvg)].
Definition same_query (q : AQuery) (x : SegQuery) : Prop :=
  match q, x with
  | AQCountEvents, SqCountEvents | AQCountUnique, SqCountUnique | AQDaily, SqDaily | AQWeekly, SqWeekly | AQMonthly, SqMonthly => True
  | AQCountPerGroup a, SqCountPerGroup a' => same_agg a a'
  | AQAggregatePerGroup p g a, SqAggregatePerGroup p' g' a' => p' = p /\ g' = g /\ same_agg a a'
  | AQAggregate p a, SqAggregate p' a' => p' = p /\ same_agg a a'
  | AQFormula f, SqFormula f' => f' = f
  | _, _ => False
  end.
(** Of several groups of filters the first one is meant. *)
Definition group_filters (o : option AGrouped) : list AFilter := match o with Some g => first_group g | None => [] end.
Definition same_segmentation (r : ASegmentation) (x : EventSegmentation) : Prop :=
  es_time x = asg_time r /\ es_group x = asg_group r /\ es_unit x = asg_unit r /\ es_chart x = asg_chart r
  /\ es_analysis x = asg_analysis r /\ es_compare x = asg_compare r
  /\ Forall2 (fun e y => same_event (ase_event e) (se_event y) /\ same_filters (olist (ase_filters e)) (se_filters y)
                         /\ olist (se_breakdowns y) = olist (ase_breakdowns e)
                         /\ Forall2 same_query (ase_queries e) (map nq_agg (se_queries y))) (asg_events r) (es_events x)
  /\ same_filters (group_filters (asg_filters r)) (es_filters x)
  /\ olist (es_breakdowns x) = olist (asg_breakdowns r).
(** Steps of an exclusion are counted from one in a request, from zero in a query. *)
Definition same_steps (s : option ExcludeSteps) (x : option ExcludeSteps) : Prop :=
  match s, x with
  | None, None | Some ExAll, Some ExAll => True
  | Some (ExBetween a b), Some (ExBetween a' b') => a = a' + 1 /\ b = b' + 1
  | _, _ => False
  end.
Definition same_funnel (r : AFunnel) (x : FunnelQuery) : Prop :=
  fq_time x = afn_time r /\ fq_group x = afn_group r /\ fq_window x = afn_window r /\ fq_chart x = afn_chart r
  /\ fq_count x = afn_count r /\ fq_filter x = afn_filter r /\ fq_touch x = afn_touch r
  /\ fq_holding x = afn_holding r /\ fq_breakdowns x = afn_breakdowns r
  /\ Forall2 (fun s y => fst_order y = ast_order s
        /\ Forall2 (fun e z => same_event (afe_event e) (fe_event z) /\ same_filters (olist (afe_filters e)) (fe_filters z)) (ast_events s) (fst_events y))
       (afn_steps r) (fq_steps x)
  /\ Forall2 (fun e z => same_event (aex_event e) (ex_event z) /\ same_filters (olist (aex_filters e)) (ex_filters z) /\ same_steps (aex_steps e) (ex_steps z))
       (olist (afn_exclude r)) (olist (fq_exclude x))
  /\ same_filters (group_filters (afn_filters r)) (fq_filters x).

(** ** Requests that come back as they were written *)
(** no empty list; at most one group of filters, with the conditions left out; no range of
    steps in an exclusion *)
Definition filled {A} (o : option (list A)) : Prop := o <> Some [].
Definition tidy_filter (f : AFilter) : Prop := match f with AFProperty _ _ v => filled v end.
Definition tidy_filters (o : option (list AFilter)) : Prop := filled o /\ Forall tidy_filter (olist o).
Definition tidy_did (d : ADid) : Prop := match d with ADRelativeCount _ _ fs _ => tidy_filters fs | _ => True end.
Definition tidy_condition (c : ACondition) : Prop :=
  match c with ACHas _ _ v | ACHad _ _ v _ => filled v | ACDid _ fs a => tidy_filters fs /\ tidy_did a end.
Definition tidy_segment (s : ASegment) : Prop := Forall (Forall tidy_condition) (as_conditions s).
Definition tidy_grouped (o : option AGrouped) : Prop :=
  match o with None => True | Some g => exists fs, g = mkAGrouped None [mkAGroup GAnd fs] /\ Forall tidy_filter fs end.
Definition tidy (r : AReportQuery) : Prop :=
  match r with
  | ARSegmentation q =>
    Forall (fun e => tidy_filters (ase_filters e) /\ filled (ase_breakdowns e)) (asg_events q)
    /\ tidy_grouped (asg_filters q) /\ (forall g, asg_filters q = Some g -> first_group g <> [])
    /\ filled (asg_breakdowns q) /\ filled (asg_segments q) /\ Forall tidy_segment (olist (asg_segments q))
  | ARFunnel q =>
    Forall (fun s => Forall (fun e => Forall tidy_filter (olist (afe_filters e))) (ast_events s)) (afn_steps q)
    /\ Forall (fun e => Forall tidy_filter (olist (aex_filters e)) /\ match aex_steps e with Some (ExBetween _ _) => False | _ => True end) (olist (afn_exclude q))
    /\ Forall tidy_segment (olist (afn_segments q)) /\ tidy_grouped (afn_filters q)
  end.

(** ** The filters a report accepts *)
(** the property a filter names, and what is known of it *)
Definition named_prop (m : Names) (p : PropertyRef) : option PropInfo :=
  match p with PRGroup n g => if g <? 5 then nm_group_prop m g n else None | PREvent n => nm_prop m n | PRCustom _ => None end.
Definition is_type (i : PropInfo) (d : DType) : Prop := pi_list i = false /\ pi_type i = d.
Definition op_fits (i : PropInfo) (op : PropOp) : Prop :=
  match op with
  | OpEq | OpNeq => True
  | OpGt | OpGte | OpLt | OpLte => is_type i DInt8 \/ is_type i DInt16 \/ is_type i DInt64 \/ is_type i DDecimal \/ is_type i DTimestamp
  | OpTrue | OpFalse => is_type i DBoolean
  | OpExists | OpEmpty => pi_nullable i = true
  | OpLike | OpNotLike | OpRegex | OpNotRegex => is_type i DString
  end.
Definition value_fits (i : PropInfo) (v : JVal) : Prop :=
  match v with
  | JNull => pi_nullable i = true
  | JBool _ => is_type i DBoolean
  | JNum _ _ => is_type i DInt8 \/ is_type i DInt16 \/ is_type i DInt32 \/ is_type i DInt64 \/ is_type i DDecimal \/ is_type i DTimestamp
  | JText _ => is_type i DString
  | JArray | JObject => False
  end.
Definition values_fit (i : PropInfo) (op : PropOp) (v : option (list JVal)) : Prop :=
  match v with
  | None => pi_nullable i = true
  | Some [] => In op [OpTrue; OpFalse; OpExists; OpEmpty]
  | Some l => Forall (value_fits i) l
  end.
Definition filter_fits (m : Names) (f : AFilter) : Prop :=
  match f with AFProperty p op v => exists i, named_prop m p = Some i /\ op_fits i op /\ values_fit i op v end.
(** the property references of groups that do not exist *)
Definition bad_group (p : PropertyRef) : Prop := match p with PRGroup _ g => 5 <= g | _ => False end.

(** ** The requests a report accepts *)
Definition event_exists (m : Names) (e : AEvent) : Prop :=
  match e with AERegular n => nm_event m n = true | AECustom i => nm_custom m i = true end.
Definition time_fits (q : QueryTime) : Prop := match q with QTBetween f t => (f <= t)%Z | _ => True end.
Definition breakdown_fits (m : Names) (b : Breakdown) : Prop := match b with BProperty p => named_prop m p <> None end.
Definition segmentation_fits (m : Names) (r : ASegmentation) : Prop :=
  asg_group r < 5 /\ time_fits (asg_time r) /\ asg_events r <> []
  /\ Forall (fun e => event_exists m (ase_event e) /\ Forall (filter_fits m) (olist (ase_filters e)) /\ ase_queries e <> []) (asg_events r)
  /\ (forall g, asg_filters r = Some g -> Forall (fun x => ag_filters x <> [] /\ Forall (filter_fits m) (ag_filters x)) (agd_groups g))
  /\ Forall (breakdown_fits m) (olist (asg_breakdowns r))
  /\ asg_segments r = None.
Definition funnel_fits (m : Names) (r : AFunnel) : Prop :=
  let n := N.of_nat (List.length (afn_steps r)) in
  afn_group r < 5 /\ time_fits (afn_time r) /\ 1 <= n <= 5
  /\ Forall (fun s => ast_events s <> []
        /\ Forall (fun e => event_exists m (afe_event e) /\ Forall (filter_fits m) (olist (afe_filters e))) (ast_events s)
        /\ (forall l, ast_order s = SoAny l -> Forall (fun ft => fst ft < n /\ snd ft < n) l)) (afn_steps r)
  /\ Forall (fun e => event_exists m (aex_event e) /\ (forall a b, aex_steps e = Some (ExBetween a b) -> a < n /\ b < n)) (olist (afn_exclude r))
  /\ NoDup (olist (afn_breakdowns r)) /\ Forall (breakdown_fits m) (olist (afn_breakdowns r))
  /\ afn_segments r = None
  /\ Forall (fun p => named_prop m p <> None) (olist (afn_holding r))
  /\ (forall a b, afn_filter r = Some (FfTimeToConvert a b) -> (a <= b)%Z)
  /\ (forall g, afn_filters r = Some g -> Forall (fun x => Forall (filter_fits m) (ag_filters x)) (agd_groups g)).
