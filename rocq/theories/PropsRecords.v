(** Record searches, lookups and value lists (C91-C96). *)
From Coq Require Import List ZArith String Bool Arith Permutation Lia.
From Verif Require Import Filter Records PropsFilter RecordsSpec RecordsFacts.
Import ListNotations.
Local Open Scope string_scope.

(** ** What the requests and tables have to be like *)
(** the properties of a list: different columns and different names *)
Definition plain_props (ps : list PDef) : Prop := NoDup (map d_col ps) /\ NoDup (map d_name ps).
(** one column is one property *)
Definition one_prop (FS : list Filter) (ps : list PDef) : Prop :=
  forall f d, In f FS -> In d ps -> p_col (f_prop f) = d_col d -> f_prop f = d_prop d.
(** the system columns hold numbers and are no dictionary columns *)
Definition numbers (cols : list string) (FS : list Filter) (rows : list Row) : Prop :=
  (forall c r x, In c cols -> In r rows -> r c = Some x -> exists z, x = VInt z) /\
  (forall f, In f FS -> In (p_col (f_prop f)) cols -> p_dict (f_prop f) = None).
(** every filter is accepted and is of those the code treats as meant (C58) *)
Definition fair (FS : list Filter) (rows : list Row) : Prop :=
  PropsFilter.combine FS /\ (forall f, In f FS -> accepted f) /\ (forall f r, In f FS -> In r rows -> clear_on f r).
Definition good_rows (ps : list PDef) (rows : list Row) : Prop :=
  forall d r, In d ps -> In r rows -> good_row (d_prop d) r.
(** a plain event that exists *)
Definition plain_event (by_name : string -> option Z) (e : EventRef) : Prop :=
  match e with
  | RName s => exists id, by_name s = Some id
  | RId id => (0 <= id < 65536)%Z
  | RCustom _ => False
  end.
Definition event_filters (ms : list Member) : list Filter := flat_map (fun m => listed (mb_filters m)) ms.
Definition event_sys := ["project_id"; "event"; "created_at"; "event_id"].
Definition group_sys := ["project_id"; "id"; "version"; "created_at"].

(** ** Common parts *)
Lemma present_answer ps FS rows : plain_props ps -> one_prop FS ps -> good_rows ps rows ->
  present (map d_col ps) ps (decode_cols (map fix_filter FS)) (map (decode_row (decode_cols (map fix_filter FS))) rows)
  = Done (answer ps (firstn 100 rows)).
Proof.
  intros [NC NN] O G. unfold present. rewrite (names_of ps NC NN), (proj2 (distinct_NoDup _) NN).
  rewrite (label_all (fun r c => r c)). unfold answer. f_equal. apply map_ext_in. intros d Hd. f_equal.
  rewrite firstn_map, !map_map. apply map_ext_in. intros r Hr.
  assert (Hr' : In r rows) by (rewrite <- (firstn_skipn 100 rows); apply in_or_app; now left).
  set (dec := decode_cols (map fix_filter FS)). specialize (G d r Hd Hr').
  assert (U : forall x, In x ps -> d_col x = d_col d -> x = d).
  { intros x Hx E. clear - NC Hx Hd E. induction ps as [|a ps IH]; [destruct Hx|]. cbn [map] in NC. inversion NC as [|u v N1 N2]; subst.
    destruct Hx as [->|Hx], Hd as [->|Hd]; auto.
    - exfalso. apply N1. rewrite E. now apply in_map.
    - exfalso. apply N1. rewrite <- E. now apply in_map. }
  assert (OUT : forall e, In (d_col d, e) (out_dicts dec ps) -> p_dict (d_prop d) = Some e /\ ~ In (d_col d) (map fst dec)).
  { intros e He. unfold out_dicts in He. apply in_flat_map in He as (x & Hx & He). destruct (p_dict (d_prop x)) as [y|] eqn:P; [|destruct He].
    destruct (mem (d_col x) (map fst dec)) eqn:M; [destruct He|]. destruct He as [He|[]]. injection He as E1 ->. rewrite (U x Hx E1) in *.
    split; [exact P|now apply mem_not]. }
  assert (DEC : forall e, In (d_col d, e) dec -> p_dict (d_prop d) = Some e).
  { intros e He. apply decode_cols_in in He as (f & Hf & _ & C & P). rewrite <- (O f d Hf Hd C). exact P. }
  destruct (in_dec string_dec (d_col d) (map fst dec)) as [M|M].
  - apply in_map_iff in M as ((c & e) & E & He). cbn in E. subst c. pose proof (DEC e He) as P.
    rewrite decode_other.
    2:{ intros X. apply in_map_iff in X as ((c & e') & E & X). cbn in E. subst c. apply OUT in X as [_ X]. apply X.
        apply in_map_iff. exists (d_col d, e). auto. }
    rewrite (decode_in dec r (d_col d) e He); [now apply shown_decoded|]. intros e' He'. apply DEC in He'. congruence.
  - destruct (p_dict (d_prop d)) as [e|] eqn:P.
    + rewrite (decode_in (out_dicts dec ps) _ (d_col d) e).
      * rewrite (decode_other dec r (d_col d) M). now apply shown_decoded.
      * unfold out_dicts. apply in_flat_map. exists d. split; [exact Hd|]. rewrite P, (proj2 (mem_not _ _) M). now left.
      * intros e' He'. apply OUT in He' as [He' _]. congruence.
    + rewrite decode_other, decode_other by
        (try exact M; intros X; apply in_map_iff in X as ((c & e') & E & X); cbn in E; subst c; apply OUT in X as [X _]; congruence).
      unfold shown. now rewrite P.
Qed.

Lemma sys_view FS cols rows r c : numbers cols FS rows -> In c cols ->
  decode_row (decode_cols (map fix_filter FS)) r c = r c.
Proof.
  intros [_ H] Hc. apply decode_other. intros X. apply in_map_iff in X as ((c' & e) & E & X). cbn in E. subst c'.
  apply decode_cols_in in X as (f & Hf & _ & C & P). rewrite (H f Hf) in P; [discriminate|now rewrite C].
Qed.

Section Searches.
Variables like regex : string -> string -> bool.
Variable by_name : string -> option Z.
Variable custom : Z -> option (list Member).
Variable n : nat.
Let ev := eval like regex.

Lemma project_true p v : (forall x, v "project_id" = Some x -> exists z, x = VInt z) ->
  (ev (project_expression p) v = Some true <-> has v "project_id" p).
Proof.
  intros H. unfold ev, project_expression. rewrite (num_cmp like regex FEq _ p v H). split; [intros (k & A & ->); exact A|intros A; exists p; auto].
Qed.
Lemma time_true from to v : (forall x, v "created_at" = Some x -> exists z, x = VInt z) ->
  (ev (time_expression "created_at" from to) v = Some true <-> within_ v "created_at" from to).
Proof.
  intros H. unfold ev, time_expression, within_. cbn [eval]. rewrite and3_true.
  change (match v "created_at" with Some x => eval_cmp like regex FGte x (VInt from) | None => None end) with (ev (ECmp FGte "created_at" (VInt from)) v).
  change (match v "created_at" with Some x => eval_cmp like regex FLte x (VInt to) | None => None end) with (ev (ECmp FLte "created_at" (VInt to)) v).
  unfold ev. rewrite (num_cmp like regex FGte _ from v H), (num_cmp like regex FLte _ to v H). split.
  - intros [(k & A & B) (k' & A' & B')]. unfold has in *. assert (k' = k) by congruence. subst. exists k. auto.
  - intros (k & A & B). split; exists k; (split; [exact A|lia]).
Qed.

(** ** C91: searching events *)
(** the request a search is answered as meant for *)
Definition search_ok (t : Store) (q : SearchReq) (ps : list PDef) : Prop :=
  let FS := event_filters (listed (sr_events q)) in
  sr_props q = Some ps /\ plain_props ps /\ In "event_id" (map d_col ps) /\
  listed (sr_filters q) = [] /\
  (forall ms, sr_events q = Some ms -> ms <> [] /\
     forall m, In m ms -> mb_filters m <> None /\ plain_event by_name (mb_event m)) /\
  (forall f, In f FS -> In (p_col (f_prop f)) (event_sys ++ map d_col ps)) /\
  (forall c, In c (event_sys ++ map d_col ps) -> In c (t_cols t)) /\
  one_prop FS ps /\ numbers event_sys FS (t_rows t) /\ fair FS (t_rows t) /\ good_rows ps (t_rows t).

Lemma fixed_filters ms : (forall m, In m ms -> mb_filters m <> None) ->
  flat_map (fun m => listed (mb_filters m)) (fix_events ms) = map fix_filter (event_filters ms).
Proof.
  induction ms as [|m ms IH]; intros H; [reflexivity|]. unfold fix_events, event_filters in *. cbn [flat_map].
  destruct (mb_filters m) as [fs|] eqn:F; [|destruct (H m (or_introl eq_refl) F)]. cbn [app flat_map mb_filters].
  rewrite IH by (intros x Hx; apply H; now right). rewrite map_app. f_equal. cbn [listed none_if_empty]. destruct fs; reflexivity.
Qed.

Lemma member_true FS m rows : plain_event by_name (mb_event m) -> mb_filters m <> None -> incl (listed (mb_filters m)) FS ->
  numbers event_sys FS rows -> fair FS rows ->
  exists e, member_expression by_name custom n (mkMember (mb_event m) (none_if_empty (option_map (map fix_filter) (mb_filters m)))) = Some e /\
    (forall c, In c (columns_of e) -> c = "event" \/ exists f, In f FS /\ c = p_col (f_prop f)) /\
    forall r, In r rows -> (ev e (decode_row (decode_cols (map fix_filter FS)) r) = Some true <->
      is_event like regex by_name custom r (mb_event m) /\ forall fs f, mb_filters m = Some fs -> In f fs -> meets like regex f r).
Proof.
  intros PE FN I NU (C & A & Cl). unfold member_expression. cbn [mb_event mb_filters].
  assert (EX : exists id, event_expression by_name custom n (mb_event m) = Some (ECmp FEq COLUMN_EVENT (VInt id)) /\
            forall r, is_event like regex by_name custom r (mb_event m) <-> r "event" = Some (VInt id)).
  { destruct (mb_event m) as [s|id|id]; [destruct PE as (id & Hid)| |destruct PE].
    - exists id. split; [destruct n; cbn; now rewrite Hid|]. intros r. split; [|intros X; econstructor; eauto].
      intros X. inversion X; subst. congruence.
    - exists id. cbn in PE. split; [destruct n; cbn; unfold as_u16; now rewrite Z.mod_small|]. intros r. split; [|intros X; now constructor].
      intros X. inversion X; subst. assumption. }
  destruct EX as (id & EX & IS). rewrite EX.
  assert (EV : forall r, In r rows -> (ev (ECmp FEq COLUMN_EVENT (VInt id)) (decode_row (decode_cols (map fix_filter FS)) r) = Some true
             <-> is_event like regex by_name custom r (mb_event m))).
  { intros r Hr. rewrite IS. pose proof (sys_view FS event_sys rows r "event" NU ltac:(cbn; tauto)) as SV.
    unfold ev. rewrite (event_is like regex).
    - now rewrite SV.
    - unfold event_row. rewrite SV. intros x. apply (proj1 NU "event" r x); [cbn; tauto|exact Hr]. }
  destruct (mb_filters m) as [[|f fs]|] eqn:F; [| |congruence].
  - cbn [option_map map none_if_empty]. exists (ECmp FEq COLUMN_EVENT (VInt id)). split; [reflexivity|]. split.
    + intros c [<-|[]]. now left.
    + intros r Hr. rewrite (EV r Hr). split; [intros X; split; [exact X|]|tauto]. intros fs0 f0 [= <-] [].
  - cbn [option_map map none_if_empty]. change (fix_filter f :: map fix_filter fs) with (map fix_filter (f :: fs)).
    cbn [listed] in I. destruct (filters_meaning like regex FS (f :: fs) ltac:(discriminate) I C A) as (e & He & Hc & Ht). rewrite He.
    exists (EAnd (ECmp FEq COLUMN_EVENT (VInt id)) e). split; [reflexivity|]. split.
    + intros c. cbn [columns_of app]. intros [<-|X]; [now left|right]. destruct (Hc c X) as (g & Hg & ->). eauto.
    + intros r Hr. unfold ev. cbn [eval]. rewrite and3_true.
      change (match decode_row (decode_cols (map fix_filter FS)) r COLUMN_EVENT with Some x => eval_cmp like regex FEq x (VInt id) | None => None end)
        with (ev (ECmp FEq COLUMN_EVENT (VInt id)) (decode_row (decode_cols (map fix_filter FS)) r)).
      rewrite (EV r Hr), (Ht r (fun g Hg => Cl g r Hg Hr)). split.
      * intros [X Y]. split; [exact X|]. intros fs0 f0 [= <-]. apply Y.
      * intros [X Y]. split; [exact X|]. intros f0. now apply Y.
Qed.

Lemma search_expression_events p q ms : sr_events q = Some ms -> ms <> [] ->
  search_expression by_name custom n p q =
  match all_some (map (member_expression by_name custom n) ms) with
  | None => None
  | Some es => match multi_or es with
               | Some e => multi_and ([project_expression p; time_expression "created_at" (sr_from q) (sr_to q)] ++ [e])
               | None => None
               end
  end.
Proof. intros E H. unfold search_expression. rewrite E. destruct ms; [congruence|reflexivity]. Qed.
Lemma search_true p t q ps : search_ok t q ps ->
  let FS := event_filters (listed (sr_events q)) in
  exists e, search_expression by_name custom n p (fix_search_request q) = Some e /\
    (forall c, In c (columns_of e) -> In c (event_sys ++ map d_col ps)) /\
    forall r, In r (t_rows t) -> (keeps like regex e (decode_row (decode_cols (map fix_filter FS)) r) = true <->
      wanted like regex by_name custom p q r).
Proof.
  intros (_ & _ & _ & NF & EV & FC & _ & _ & NU & FA & _) FS.
  assert (BASE : forall r, In r (t_rows t) ->
     (ev (project_expression p) (decode_row (decode_cols (map fix_filter FS)) r) = Some true <-> has r "project_id" p) /\
     (ev (time_expression "created_at" (sr_from q) (sr_to q)) (decode_row (decode_cols (map fix_filter FS)) r) = Some true <->
        within_ r "created_at" (sr_from q) (sr_to q))).
  { intros r Hr. pose proof (sys_view FS event_sys (t_rows t) r "project_id" NU ltac:(cbn; tauto)) as S1.
    pose proof (sys_view FS event_sys (t_rows t) r "created_at" NU ltac:(cbn; tauto)) as S2. split.
    - rewrite project_true; [unfold has; now rewrite S1|]. rewrite S1. intros x. apply (proj1 NU); [cbn; tauto|exact Hr].
    - rewrite time_true; [unfold within_, has; now rewrite S2|]. rewrite S2. intros x. apply (proj1 NU); [cbn; tauto|exact Hr]. }
  assert (NOF : forall r fs f, sr_filters q = Some fs -> In f fs -> meets like regex f r).
  { intros r fs f E Hf. rewrite E in NF. cbn in NF. subst. destruct Hf. }
  unfold wanted. destruct (sr_events q) as [ms|] eqn:E.
  2:{ unfold search_expression, fix_search_request. cbn [sr_events sr_from sr_to]. rewrite E. cbn [option_map multi_and fold_left]. eexists. split; [reflexivity|]. split.
      - intros c. cbn. intuition (subst; cbn; tauto).
      - intros r Hr. rewrite keeps_true. cbn [eval]. rewrite and3_true. destruct (BASE r Hr) as [B1 B2]. unfold ev in B1, B2.
        rewrite B1. unfold time_expression in B2 at 1. cbn [eval] in B2. fold (eval like regex) in B2. cbn [eval time_expression]. rewrite B2. intuition eauto. }
  destruct (EV ms eq_refl) as [NE EM].
  assert (FX : fix_events ms = map (fun m => mkMember (mb_event m) (none_if_empty (option_map (map fix_filter) (mb_filters m)))) ms).
  { clear - EM. induction ms as [|m ms IH]; [reflexivity|]. unfold fix_events in *. cbn [flat_map map].
    rewrite IH by (intros x Hx; apply EM; now right). destruct (mb_filters m) as [fs|] eqn:F; [reflexivity|].
    destruct (EM m (or_introl eq_refl)) as [X _]. congruence. }
  rewrite (search_expression_events p _ (fix_events ms)); [|unfold fix_search_request; cbn [sr_events]; now rewrite E|rewrite FX; destruct ms; [congruence|discriminate]].
  unfold fix_search_request. cbn [sr_from sr_to]. rewrite FX.
  rewrite map_map. set (g := fun m => member_expression by_name custom n (mkMember (mb_event m) (none_if_empty (option_map (map fix_filter) (mb_filters m))))).
  assert (IC : forall m, In m ms -> incl (listed (mb_filters m)) FS).
  { intros m Hm f Hf. unfold FS. cbn [listed]. unfold event_filters. apply in_flat_map. eauto. }
  assert (M : forall m, In m ms -> exists e, g m = Some e /\
      (forall c, In c (columns_of e) -> c = "event" \/ exists f, In f FS /\ c = p_col (f_prop f)) /\
      forall r, In r (t_rows t) -> (ev e (decode_row (decode_cols (map fix_filter FS)) r) = Some true <->
      is_event like regex by_name custom r (mb_event m) /\ forall fs f, mb_filters m = Some fs -> In f fs -> meets like regex f r)).
  { intros m Hm. destruct (EM m Hm) as [X Y]. exact (member_true FS m (t_rows t) Y X (IC m Hm) NU FA). }
  destruct (all_some_map g ms) as (es & Ha & Hin & Hn); [intros m Hm; destruct (M m Hm) as (e & He & _); eauto|].
  rewrite Ha. specialize (Hn NE). assert (exists x, multi_or es = Some x) as (x & Hx) by (destruct es; [congruence|eexists; reflexivity]).
  rewrite Hx. cbn [app multi_and fold_left]. eexists. split; [reflexivity|]. split.
  - assert (L : forall l y c, In c (columns_of (fold_left EOr l y)) -> exists z, In z (y :: l) /\ In c (columns_of z)).
    { clear. induction l as [|y l IH]; intros x c H; cbn [fold_left] in H; [exists x; split; [now left|exact H]|].
      apply IH in H as (z & [<-|Hz] & Hc); [|exists z; split; [right; now right|exact Hc]].
      cbn [columns_of] in Hc. apply in_app_or in Hc as [Hc|Hc]; [exists x|exists y]; (split; [cbn; tauto|exact Hc]). }
    intros c. cbn [columns_of]. rewrite !in_app_iff. intros [[X|X]|X].
    + left. cbn in X. cbn. tauto.
    + left. cbn in X. cbn. tauto.
    + destruct es as [|y es]; [discriminate|]. injection Hx as <-. apply L in X as (z & Hz & Hc). apply Hin in Hz as (m & Hm & Hg).
      destruct (M m Hm) as (z' & Hz' & Hcol & _). assert (z' = z) by congruence. subst z'. rewrite <- in_app_iff.
      destruct (Hcol c Hc) as [->|(f & Hf & ->)]; [cbn; tauto|]. apply (FC f). exact Hf.
  - intros r Hr. rewrite keeps_true. cbn [eval]. rewrite !and3_true. destruct (BASE r Hr) as [B1 B2]. unfold ev in B1, B2.
    unfold time_expression in B2 at 1. cbn [eval] in B2. cbn [eval time_expression project_expression] in *. rewrite B1, B2.
    rewrite (multi_or_true like regex es x _ Hx).
    assert (X : (exists y, In y es /\ eval like regex y (decode_row (decode_cols (map fix_filter FS)) r) = Some true) <->
                (exists m, In m ms /\ is_event like regex by_name custom r (mb_event m) /\
                   forall fs f, mb_filters m = Some fs -> In f fs -> meets like regex f r)).
    { split.
      - intros (y & Hy & T). apply Hin in Hy as (m & Hm & Hg). destruct (M m Hm) as (y' & Hy' & _ & Y). assert (y' = y) by congruence. subst y'.
        exists m. split; [exact Hm|]. now apply (Y r Hr).
      - intros (m & Hm & T). destruct (M m Hm) as (y & Hy & _ & Y). exists y. split; [apply Hin; eauto|]. now apply (Y r Hr). }
    rewrite X. intuition eauto.
Qed.

(** The answer has the requested columns of the (at most 100) newest events of the project that
    match, newest first. *)
Theorem C91_search_partial p all t q ps : search_ok t q ps ->
  exists matching top,
    Selected (wanted like regex by_name custom p q) (t_rows t) matching /\
    Top 100 "event_id" matching top /\
    search_events like regex by_name custom n p all t (fix_search_request q) = Done (answer ps top).
Proof.
  intros OK. destruct (search_true p t q ps OK) as (e & He & Hc & Ht).
  destruct OK as (PS & PP & EID & NF & EV & FC & TC & OP & NU & FA & GR).
  set (FS := event_filters (listed (sr_events q))) in *. set (dec := decode_cols (map fix_filter FS)) in *.
  set (kp := fun r => keeps like regex e (decode_row dec r)). exists (filter kp (t_rows t)), (firstn 100 (sort_desc "event_id" (filter kp (t_rows t)))).
  split; [apply selected_filter; intros r Hr; apply Ht, Hr|]. split; [apply top_of_sort|].
  assert (SF : search_filters (fix_search_request q) = map fix_filter FS).
  { unfold search_filters, fix_search_request. cbn [sr_events sr_filters].
    assert (X : listed (option_map (map fix_filter) (none_if_empty (sr_filters q))) = []).
    { destruct (sr_filters q) as [[|a l]|]; [reflexivity|discriminate NF|reflexivity]. }
    rewrite X, app_nil_r. unfold FS. destruct (sr_events q) as [ms|]; [|reflexivity]. cbn [listed option_map]. apply fixed_filters.
    intros m Hm. now apply (EV ms eq_refl). }
  assert (NP : none_if_empty (Some ps) = Some ps) by (destruct ps; [destruct EID|reflexivity]).
  assert (SC : exists avail, search_columns t (fix_search_request q) = Some avail /\ forall c, In c (event_sys ++ map d_col ps) -> In c avail).
  { unfold search_columns, fix_search_request. cbn [sr_props sr_filters]. rewrite PS, NP.
    assert (X : listed (option_map (map fix_filter) (none_if_empty (sr_filters q))) = []).
    { destruct (sr_filters q) as [[|a l]|]; [reflexivity|discriminate NF|reflexivity]. }
    rewrite X. change (map (fun f => p_col (f_prop f)) []) with (@nil string). cbn [app]. change ("project_id" :: "event" :: "created_at" :: "event_id" :: map d_col ps) with (event_sys ++ map d_col ps)%list.
    rewrite (proj2 (forallb_forall _ _)).
    - eexists. split; [reflexivity|]. intros c Hin. apply filter_In. split; [now apply TC|now apply mem_In].
    - intros c Hin. apply mem_In. now apply TC. }
  destruct SC as (avail & SC & AV). unfold search_events. rewrite SC, He, SF. fold dec.
  rewrite (proj2 (forallb_forall _ _)) by (intros c Hin; apply mem_In, AV, Hc, Hin).
  assert (SP : listed (sr_props (fix_search_request q)) = ps) by (unfold fix_search_request; cbn [sr_props]; rewrite PS, NP; reflexivity).
  rewrite SP, (once_NoDup ps []); [|exact (proj1 PP)|intros x _ []].
  assert (RW : sort_desc "event_id" (filter (keeps like regex e) (map (decode_row dec) (t_rows t))) =
               map (decode_row dec) (sort_desc "event_id" (filter kp (t_rows t)))).
  { rewrite filter_map_. apply map_sort. intros r. unfold key_of_row, dec.
    now rewrite (sys_view FS event_sys (t_rows t) r "event_id" NU ltac:(cbn; tauto)). }
  rewrite RW. destruct ps as [|p0 ps0]; [destruct EID|]. cbv zeta. rewrite (proj2 (mem_In _ _) EID). unfold dec. rewrite present_answer; [reflexivity|exact PP|exact OP|].
  intros d r Hd Hr. apply GR; [exact Hd|]. apply (Permutation_in _ (Permutation_sym (sort_perm _ _))) in Hr. now apply filter_In in Hr.
Qed.
(** The filters of the request itself are not applied: the answer is the one without them. *)
Theorem C91_filters_ignored_refuted p all t q fs r :
  sr_filters q = None ->
  (forall f, In f fs -> is_pattern (f_op f) = false /\ In (p_col (f_prop f)) (t_cols t)) ->
  search_events like regex by_name custom n p all t (fix_search_request q) = Done r ->
  search_events like regex by_name custom n p all t
    (fix_search_request (mkSearch (sr_from q) (sr_to q) (sr_events q) (Some fs) (sr_props q))) = Done r.
Proof.
  intros NF HF. destruct q as [from to evs flt props]. cbn [sr_filters sr_from sr_to sr_events sr_props] in *. subst flt.
  unfold fix_search_request. cbn [sr_filters sr_from sr_to sr_events sr_props].
  change (option_map (map fix_filter) (none_if_empty None)) with (@None (list Filter)).
  set (fl := option_map (map fix_filter) (none_if_empty (Some fs))).
  assert (FL : forall f, In f (listed fl) -> is_pattern (f_op f) = false /\ In (p_col (f_prop f)) (t_cols t)).
  { subst fl. destruct fs as [|a l]; [intros f []|]. change (listed (option_map (map fix_filter) (none_if_empty (Some (a :: l))))) with (map fix_filter (a :: l)).
    intros f Hf. apply in_map_iff in Hf as (x & <- & Hx). rewrite fixed_prop, fixed_op. now apply HF. }
  clearbody fl. unfold search_events, search_columns. cbn [sr_filters sr_props].
  assert (SE : forall a b, search_expression by_name custom n p (mkSearch from to (option_map fix_events evs) a b) =
               search_expression by_name custom n p (mkSearch from to (option_map fix_events evs) None b)) by reflexivity.
  assert (SD : decode_cols (search_filters (mkSearch from to (option_map fix_events evs) fl (none_if_empty props))) =
               decode_cols (search_filters (mkSearch from to (option_map fix_events evs) None (none_if_empty props)))).
  { unfold search_filters. cbn [sr_events sr_filters listed]. unfold decode_cols. rewrite app_nil_r, flat_map_app.
    replace (flat_map _ (listed fl)) with (@nil (string * list string)); [apply app_nil_r|].
    induction (listed fl) as [|f l IH]; [reflexivity|]. cbn [flat_map]. destruct (FL f (or_introl eq_refl)) as [-> _].
    rewrite <- IH by (intros x Hx; apply FL; now right). reflexivity. }
  assert (NE : none_if_empty props <> Some []) by (destruct props as [[|d l]|]; discriminate).
  rewrite SD, (SE fl). destruct (none_if_empty props) as [ps|]; [|tauto].
  cbn [listed map app]. intros H.
  destruct (forallb (fun c => mem c (t_cols t)) ("project_id" :: "event" :: "created_at" :: "event_id" :: map d_col ps)) eqn:B; [|discriminate H].
  rewrite forallb_forall in B. rewrite (proj2 (forallb_forall _ _)).
  2:{ intros c Hc. change (In c (event_sys ++ map (fun f => p_col (f_prop f)) (listed fl) ++ map d_col ps)) in Hc. rewrite !in_app_iff in Hc.
      destruct Hc as [Hc|[Hc|Hc]].
      - apply B. change (In c (event_sys ++ map d_col ps)). apply in_or_app. now left.
      - apply in_map_iff in Hc as (f & <- & Hf). apply mem_In. now apply FL.
      - apply B. change (In c (event_sys ++ map d_col ps)). apply in_or_app. now right. }
  destruct (search_expression _ _ _ _ _) as [e|]; [|discriminate H].
  match type of H with context [if ?X then _ else _] => destruct X eqn:B2; [|discriminate H] end.
  rewrite (proj2 (forallb_forall _ _)).
  2:{ rewrite forallb_forall in B2. intros c Hc. specialize (B2 c Hc). apply mem_In in B2. apply filter_In in B2 as [B2 B3]. apply mem_In.
      apply filter_In. split; [exact B2|]. apply mem_In in B3. apply mem_In.
      change (In c (event_sys ++ map d_col ps)) in B3. change (In c (event_sys ++ map (fun f => p_col (f_prop f)) (listed fl) ++ map d_col ps)).
      rewrite !in_app_iff in *. tauto. }
  cbn [sr_props listed] in H |- *. destruct (once [] ps) eqn:O; [|exact H].
  exfalso. destruct ps as [|d ps]; [now apply NE|cbn in O; discriminate O].
Qed.

(** Events given without a list of filters are forgotten: the answer is the one for all events. *)
Theorem C91_events_forgotten_refuted p all t q ms :
  sr_events q = Some ms -> (forall m, In m ms -> mb_filters m = None) ->
  search_events like regex by_name custom n p all t (fix_search_request q) =
  search_events like regex by_name custom n p all t
    (fix_search_request (mkSearch (sr_from q) (sr_to q) None (sr_filters q) (sr_props q))).
Proof.
  intros E H. assert (X : fix_events ms = []).
  { clear E. induction ms as [|m ms IH]; [reflexivity|]. unfold fix_events in *. cbn [flat_map].
    rewrite IH by (intros x Hx; apply H; now right). now rewrite (H m (or_introl eq_refl)). }
  destruct q as [from to evs flt props]. cbn [sr_events] in E. subst evs. unfold fix_search_request. cbn [sr_from sr_to sr_events sr_filters sr_props option_map].
  rewrite X. reflexivity.
Qed.

Lemma label_short cols : forall names ps rows, List.length names = List.length cols -> (List.length ps < List.length cols)%nat ->
  label cols names ps rows = None.
Proof.
  induction cols as [|c cols IH]; intros names ps rows L1 L2; [cbn in L2; lia|].
  destruct names as [|x names]; [discriminate|]. cbn [label]. destruct ps as [|p ps]; [reflexivity|].
  rewrite IH; [reflexivity|cbn in L1; lia|cbn in L2; lia].
Qed.
Lemma present_short cols ps dec rows : (List.length ps < List.length cols)%nat -> forall r, present cols ps dec rows <> Done r.
Proof.
  intros H r. unfold present. destruct (distinct _); [|discriminate]. rewrite label_short; [discriminate| |exact H]. now rewrite map_length.
Qed.
Lemma once_len ps : forall seen, (List.length (once seen ps) <= List.length ps)%nat.
Proof. induction ps as [|p ps IH]; intros seen; [constructor|]. cbn [once]. destruct (mem _ _); cbn [List.length]; [eapply Nat.le_trans; [apply IH|lia]|]. specialize (IH (d_col p :: seen)). lia. Qed.
Lemma once_in ps : forall seen x, In x (once seen ps) -> In x ps.
Proof.
  induction ps as [|p ps IH]; intros seen x H; [destruct H|]. cbn [once] in H. destruct (mem _ _); [right; eauto|]. destruct H as [H|H]; [now left|right; eauto].
Qed.

(** A search that asks for properties but not for the event id gets no answer. *)
Theorem C91_event_id_needed_refuted p all t q ps :
  sr_props q = Some ps -> ps <> [] -> ~ In "event_id" (map d_col ps) ->
  forall r, search_events like regex by_name custom n p all t (fix_search_request q) <> Done r.
Proof.
  intros PS NE NI r. unfold search_events. destruct (search_columns t (fix_search_request q)) as [avail|]; [|discriminate].
  destruct (search_expression _ _ _ _ _) as [e|]; [|discriminate]. destruct (forallb _ _); [|discriminate].
  assert (SP : listed (sr_props (fix_search_request q)) = ps) by (unfold fix_search_request; cbn [sr_props]; rewrite PS; destruct ps; [congruence|reflexivity]).
  rewrite SP. destruct (once [] ps) as [|d l] eqn:O; [destruct ps; [congruence|discriminate O]|]. cbv zeta.
  assert (M : mem "event_id" (map d_col (d :: l)) = false).
  { apply mem_not. intros X. apply NI. apply in_map_iff in X as (y & E & Hy). rewrite <- O in Hy. apply once_in in Hy. rewrite <- E. now apply in_map. }
  rewrite M. apply present_short. cbn [List.length]. rewrite map_length. cbn. lia.
Qed.

Lemma prop_reads f e : prop_expression f = Some e -> In (p_col (f_prop f)) (columns_of e).
Proof.
  assert (O : forall o k vs e0, In k (columns_of e0) -> In k (columns_of (fold_left EOr (map (ECmp o k) vs) e0))).
  { intros o k vs. induction vs as [|v vs IH]; intros e0 H; cbn [map fold_left]; [exact H|]. apply IH. cbn [columns_of]. apply in_or_app. now left. }
  assert (N : forall k o vs e0, named_property_expression k o vs = Some e0 -> In k (columns_of e0)).
  { intros k o vs e0 H. destruct vs as [[|v vs]|]; destruct o; try discriminate H; injection H as <-;
      try (cbn; tauto); apply O; now left. }
  unfold prop_expression. intros H. destruct (f_vals f) as [vs|]; [|eapply N; eauto].
  destruct (f_op f), (p_dict (f_prop f)) as [d|]; try (eapply N; eauto; fail);
    (destruct (encode d vs); [eapply N; eauto|discriminate]).
Qed.

(** A filter of an event on a property that is not requested makes the search fail. *)
Theorem C91_filter_column_refuted p all t q ps ev0 f :
  sr_props q = Some ps -> ps <> [] -> sr_filters q = None ->
  sr_events q = Some [mkMember ev0 (Some [f])] -> plain_event by_name ev0 -> accepted f ->
  ~ In (p_col (f_prop f)) (event_sys ++ map d_col ps) ->
  (forall c, In c (event_sys ++ map d_col ps) -> In c (t_cols t)) ->
  search_events like regex by_name custom n p all t (fix_search_request q) = Refused.
Proof.
  intros PS NE NF E PE A NI TC. destruct q as [from to evs flt props]. cbn [sr_filters sr_props sr_events] in *. subst evs flt props.
  destruct ps as [|d ps]; [congruence|]. set (P := d :: ps) in *.
  unfold search_events. change (search_columns t (fix_search_request (mkSearch from to (Some [mkMember ev0 (Some [f])]) None (Some P)))) with
    (if forallb (fun c => mem c (t_cols t)) (event_sys ++ map d_col P)
     then Some (filter (fun c => mem c (event_sys ++ map d_col P)) (t_cols t)) else None).
  rewrite (proj2 (forallb_forall _ _)) by (intros c Hc; now apply mem_In, TC).
  destruct (accepted_expr f A) as (x & Hx).
  assert (EX : exists id, event_expression by_name custom n ev0 = Some (ECmp FEq COLUMN_EVENT (VInt id))).
  { destruct ev0 as [s|id|id]; [destruct PE as (id & Hid)| |destruct PE]; [exists id|exists id]; destruct n; cbn; rewrite ?Hid; try reflexivity;
    cbn in PE; unfold as_u16; now rewrite Z.mod_small. }
  destruct EX as (id & EX).
  assert (SE : search_expression by_name custom n p (fix_search_request (mkSearch from to (Some [mkMember ev0 (Some [f])]) None (Some P))) =
               Some (EAnd (EAnd (project_expression p) (time_expression "created_at" from to)) (EAnd (ECmp FEq COLUMN_EVENT (VInt id)) x))).
  { unfold search_expression, fix_search_request. cbn [sr_events sr_from sr_to option_map fix_events flat_map mb_filters mb_event map none_if_empty app].
    unfold member_expression. cbn [mb_event mb_filters]. rewrite EX. unfold event_filters_expression. cbn [map]. rewrite Hx. reflexivity. }
  rewrite SE. destruct (forallb _ (columns_of _)) eqn:B; [|reflexivity]. exfalso. rewrite forallb_forall in B.
  specialize (B (p_col (f_prop f))). apply NI. rewrite <- (fixed_prop f) in *. apply mem_In. 
  assert (X : In (p_col (f_prop (fix_filter f))) (columns_of (EAnd (EAnd (project_expression p) (time_expression "created_at" from to)) (EAnd (ECmp FEq COLUMN_EVENT (VInt id)) x)))).
  { cbn [columns_of]. rewrite !in_app_iff. right. right. now apply prop_reads. }
  apply B in X. apply mem_In in X. apply filter_In in X as [_ X]. exact X.
Qed.

(** ** C92: searching groups *)
Definition group_ok (t : Store) (q : GroupReq) (ps : list PDef) : Prop :=
  let FS := listed (gr_filters q) in
  gr_props q = Some ps /\ ps <> [] /\ plain_props ps /\ (gr_time q = None \/ FS = []) /\
  (forall f, In f FS -> In (p_col (f_prop f)) (t_cols t)) /\
  (forall c, In c (group_sys ++ map d_col ps) -> In c (t_cols t)) /\
  one_prop FS ps /\ numbers group_sys FS (t_rows t) /\ fair FS (t_rows t) /\ good_rows ps (t_rows t).

(** The answer has the requested columns of the (first 100) groups that match. *)
Theorem C92_group_search_partial p all t q ps : group_ok t q ps ->
  exists matching,
    Selected (wanted_group like regex p q) (t_rows t) matching /\
    search_groups like regex p all t (fix_group_request q) = Done (answer ps (firstn 100 matching)).
Proof.
  intros (PS & NE & PP & TF & FC & TC & OP & NU & FA & GR). set (FS := listed (gr_filters q)) in *.
  set (dec := decode_cols (map fix_filter FS)).
  assert (LF : listed (gr_filters (fix_group_request q)) = map fix_filter FS).
  { unfold fix_group_request, FS. cbn [gr_filters]. destruct (gr_filters q) as [[|a l]|]; reflexivity. }
  assert (PV : forall r, In r (t_rows t) -> (ev (project_expression p) (decode_row dec r) = Some true <-> has r "project_id" p)).
  { intros r Hr. pose proof (sys_view FS group_sys (t_rows t) r "project_id" NU ltac:(cbn; tauto)) as S1.
    rewrite project_true; [unfold has, dec; now rewrite S1|]. unfold dec. rewrite S1. intros x. apply (proj1 NU); [cbn; tauto|exact Hr]. }
  assert (EX : exists e, group_expression p (fix_group_request q) = Some e /\
     (forall c, In c (columns_of e) -> In c (group_sys ++ map (fun f => p_col (f_prop f)) FS)) /\
     forall r, In r (t_rows t) -> (keeps like regex e (decode_row dec r) = true <-> wanted_group like regex p q r)).
  { unfold group_expression, fix_group_request, wanted_group. cbn [gr_time gr_filters].
    assert (EF : FS = [] \/ FS <> []) by (destruct FS; [now left|right; discriminate]). destruct EF as [EF|EF].
    - assert (X : option_map (map fix_filter) (none_if_empty (gr_filters q)) = None).
      { unfold FS in EF. destruct (gr_filters q) as [[|a l]|]; [reflexivity|discriminate EF|reflexivity]. }
      rewrite X. assert (NOF : forall r fs f, gr_filters q = Some fs -> In f fs -> meets like regex f r).
      { intros r fs f E Hf. unfold FS in EF. rewrite E in EF. cbn in EF. subst. destruct Hf. }
      destruct (gr_time q) as [[from to]|] eqn:T; cbn [multi_and fold_left]; eexists; (split; [reflexivity|]); split.
      + intros c. cbn. intuition (subst; cbn; tauto).
      + intros r Hr. rewrite keeps_true. cbn [eval]. rewrite and3_true. fold ev. fold (ev (project_expression p)). rewrite (PV r Hr).
        pose proof (sys_view FS group_sys (t_rows t) r "created_at" NU ltac:(cbn; tauto)) as S2.
        pose proof (time_true from to (decode_row dec r)) as TT. unfold dec in TT. rewrite S2 in TT.
        unfold within_, has in TT. rewrite S2 in TT. unfold dec. rewrite (TT (fun x => proj1 NU "created_at" r x ltac:(cbn; tauto) Hr)).
        split; [intros [A B]; split; [exact A|]; split; [intros ? ? [= <- <-]; exact B|eauto]|intros (A & B & _); split; [exact A|now apply B]].
      + intros c. cbn. intuition (subst; cbn; tauto).
      + intros r Hr. rewrite keeps_true. fold ev. rewrite (PV r Hr). split; [intros A; split; [exact A|]; split; [discriminate|eauto]|tauto].
    - destruct TF as [TF|TF]; [|congruence].
      assert (X : gr_filters q = Some FS) by (unfold FS in *; destruct (gr_filters q); [reflexivity|destruct (EF eq_refl)]).
      assert (Y : option_map (map fix_filter) (none_if_empty (gr_filters q)) = Some (map fix_filter FS)).
      { rewrite X. clear - EF. clearbody FS. destruct FS; [congruence|reflexivity]. }
      rewrite Y, TF. destruct FA as (C & A & Cl).
      destruct (filters_meaning like regex FS FS EF (incl_refl _) C A) as (e & He & Hc & Ht).
      rewrite He. cbn [multi_and fold_left]. eexists. split; [reflexivity|]. split.
      + intros c. cbn [columns_of]. rewrite !in_app_iff. intros [H|H]; [left; cbn in H; cbn; tauto|right].
        destruct (Hc c H) as (f & Hf & ->). apply in_map_iff. eauto.
      + intros r Hr. rewrite keeps_true. cbn [eval]. rewrite and3_true. fold ev. pose proof (Ht r (fun f Hf => Cl f r Hf Hr)) as T1. fold ev dec in T1. rewrite (PV r Hr), T1.
        split; [intros [P1 P2]; split; [exact P1|]; split; [discriminate|]; intros fs f; rewrite X; intros [= <-]; apply P2
               |intros (P1 & _ & P2); split; [exact P1|]; intros f; now apply P2]. }
  destruct EX as (e & He & Hc & Ht). set (kp := fun r => keeps like regex e (decode_row dec r)).
  exists (filter kp (t_rows t)). split; [apply selected_filter; intros r Hr; now apply Ht|].
  assert (NP : none_if_empty (Some ps) = Some ps) by (destruct ps; [congruence|reflexivity]).
  unfold search_groups, group_columns. assert (GP : gr_props (fix_group_request q) = Some ps) by (unfold fix_group_request; cbn [gr_props]; rewrite PS; exact NP).
  rewrite GP, LF, He. change (["project_id"; "id"; "version"; "created_at"]) with group_sys.
  assert (MM : map (fun f => p_col (f_prop f)) (map fix_filter FS) = map (fun f => p_col (f_prop f)) FS) by (rewrite map_map; apply map_ext; intros f; reflexivity).
  rewrite MM. set (want := (group_sys ++ map (fun f => p_col (f_prop f)) FS ++ map d_col ps)%list).
  assert (W : forall c, In c want -> In c (t_cols t)).
  { intros c H. unfold want in H. rewrite !in_app_iff in H. destruct H as [H|[H|H]].
    - apply TC, in_or_app. now left.
    - apply in_map_iff in H as (f & <- & Hf). now apply FC.
    - apply TC, in_or_app. now right. }
  rewrite (proj2 (forallb_forall _ _)) by (intros c H; now apply mem_In, W).
  rewrite (proj2 (forallb_forall _ _)).
  2:{ intros c H. apply Hc in H. assert (In c want) by (unfold want; rewrite !in_app_iff in *; tauto). apply mem_In, filter_In. split; [now apply W|now apply mem_In]. }
  fold dec. cbn [listed]. rewrite (once_NoDup ps []); [|exact (proj1 PP)|intros x _ []].
  destruct ps as [|d0 ps0]; [congruence|]. cbv zeta. rewrite filter_map_. fold kp. unfold dec. rewrite present_answer; [reflexivity|exact PP|exact OP|].
  intros d r Hd Hr. apply GR; [exact Hd|]. now apply filter_In in Hr.
Qed.

(** With filters the time range is not applied: the answer is the one without it. *)
Theorem C92_time_ignored_refuted p all t q fs range :
  gr_filters q = Some fs -> fs <> [] ->
  search_groups like regex p all t (fix_group_request (mkGroupReq (Some range) (gr_filters q) (gr_props q) (gr_sort q))) =
  search_groups like regex p all t (fix_group_request (mkGroupReq None (gr_filters q) (gr_props q) (gr_sort q))).
Proof.
  intros F NE. rewrite F. destruct fs as [|f fs]; [congruence|]. destruct range. reflexivity.
Qed.

(** ** C93: searching without a list of properties *)
(** One property for every column of the table, in the order of the columns: the answer has all
    of them. *)
Theorem C93_all_properties_partial p all t q :
  sr_props q = None -> sr_filters q = None -> sr_events q = None ->
  map d_col all = t_cols t -> plain_props all -> all <> [] ->
  (forall c, In c event_sys -> In c (t_cols t)) ->
  numbers event_sys [] (t_rows t) -> good_rows all (t_rows t) ->
  exists matching top,
    Selected (wanted like regex by_name custom p q) (t_rows t) matching /\
    Top 100 "event_id" matching top /\
    search_events like regex by_name custom n p all t (fix_search_request q) = Done (answer all top).
Proof.
  intros P F E C PP NE TC NU GR.
  assert (OK : search_ok t (mkSearch (sr_from q) (sr_to q) None None (Some all)) all).
  { unfold search_ok. cbn [sr_props sr_filters sr_events listed event_filters flat_map]. repeat match goal with |- _ /\ _ => split end; try exact PP; try exact NU; try exact GR; try reflexivity.
    - rewrite C. apply TC. cbn. tauto.
    - discriminate.
    - intros f [].
    - intros c Hc. rewrite C in Hc. apply in_app_or in Hc as [Hc|Hc]; [now apply TC|exact Hc].
    - intros f d [].
    - split; [intros f g []|]. split; [intros f []|intros f r []]. }
  destruct (search_true p t _ all OK) as (e & He & Hc & Ht). cbn [sr_events listed event_filters flat_map map] in Ht.
  assert (D0 : forall r, decode_row (decode_cols []) r = r) by reflexivity.
  set (kp := fun r => keeps like regex e r). exists (filter kp (t_rows t)), (firstn 100 (sort_desc "event_id" (filter kp (t_rows t)))).
  destruct q as [from to evs flt props]. cbn [sr_props sr_filters sr_events] in *. subst props flt evs.
  split; [apply selected_filter; intros r Hr; apply (Ht r Hr)|]. split; [apply top_of_sort|].
  unfold search_events. change (search_columns t (fix_search_request (mkSearch from to None None None))) with (Some (t_cols t)).
  change (search_expression by_name custom n p (fix_search_request (mkSearch from to None None None))) with
    (search_expression by_name custom n p (fix_search_request (mkSearch from to None None (Some all)))). 
  cbn [sr_from sr_to] in He. rewrite He.
  rewrite (proj2 (forallb_forall _ _)).
  2:{ intros c H. apply mem_In. specialize (Hc c H). rewrite C in Hc. apply in_app_or in Hc as [X|X]; [now apply TC|exact X]. }
  change (listed (sr_props (fix_search_request (mkSearch from to None None None)))) with (@nil PDef). cbn [once]. rewrite <- C.
  change (decode_cols (search_filters (fix_search_request (mkSearch from to None None None)))) with (decode_cols (map fix_filter [])).
  replace (sort_desc "event_id" (filter (keeps like regex e) (map (decode_row (decode_cols (map fix_filter []))) (t_rows t))))
    with (map (decode_row (decode_cols (map fix_filter []))) (sort_desc "event_id" (filter kp (t_rows t)))).
  - rewrite present_answer; [reflexivity|exact PP|intros f d []|]. intros d r Hd Hr. apply GR; [exact Hd|].
    apply (Permutation_in _ (Permutation_sym (sort_perm _ _))) in Hr. now apply filter_In in Hr.
  - change (decode_row (decode_cols (map fix_filter []))) with (fun r : Row => fun c => r c).
    rewrite filter_map_. rewrite <- (map_sort "event_id" (fun r : Row => fun c => r c)); [reflexivity|reflexivity].
Qed.

(** A table with more columns than the project has properties, for example because another
    project has more: no answer. *)
Theorem C93_other_columns_refuted p all t q :
  sr_props q = None -> (List.length all < List.length (t_cols t))%nat ->
  forall r, search_events like regex by_name custom n p all t (fix_search_request q) <> Done r.
Proof.
  intros P L r. destruct q as [from to evs flt props]. cbn [sr_props] in P. subst props. unfold search_events.
  unfold search_columns, fix_search_request. cbn [sr_props none_if_empty]. destruct (search_expression _ _ _ _ _) as [e|]; [|discriminate].
  destruct (forallb _ _); [|discriminate]. cbn [listed once]. now apply present_short.
Qed.

Lemma label_nth cols : forall names ps rows l i c, label cols names ps rows = Some l -> nth_error l i = Some c ->
  exists d col, nth_error ps i = Some d /\ nth_error cols i = Some col /\ c_ref c = d_ref d /\ nth_error names i = Some (c_name c) /\
    c_data c = map (fun r => r col) rows.
Proof.
  induction cols as [|c0 cols IH]; intros names ps rows l i c H Hi.
  - cbn in H. injection H as <-. destruct i; discriminate.
  - destruct names as [|n0 names]; [cbn in H; injection H as <-; destruct i; discriminate|].
    cbn [label] in H. destruct ps as [|p ps]; [discriminate|]. destruct (label cols names ps rows) as [l'|] eqn:L; [|discriminate].
    injection H as <-. destruct i as [|i].
    + injection Hi as <-. exists p, c0. auto.
    + cbn in Hi. destruct (IH names ps rows l' i c L Hi) as (d & col & H1 & H2 & H3 & H4 & H5). exists d, col. auto.
Qed.

(** Otherwise the columns are labelled by position: the i-th column of the table carries the
    reference of the i-th property of the project, whichever property the column is of.  The
    name is that of the property of the column. *)
Theorem C93_labels_by_position_refuted p all t q r i c d d' :
  sr_props q = None -> plain_props all ->
  search_events like regex by_name custom n p all t (fix_search_request q) = Done r ->
  nth_error r i = Some c -> nth_error all i = Some d' -> In d all -> nth_error (t_cols t) i = Some (d_col d) ->
  c_ref c = d_ref d' /\ c_name c = d_name d.
Proof.
  intros P [NC NN] H Hi Hd' Hd Ht. destruct q as [from to evs flt props]. cbn [sr_props] in P. subst props. revert H. unfold search_events.
  unfold search_columns, fix_search_request. cbn [sr_props none_if_empty]. destruct (search_expression _ _ _ _ _) as [e|]; [|discriminate].
  destruct (forallb _ _); [|discriminate]. cbn [listed once]. unfold present. destruct (distinct _); [|discriminate].
  destruct (label _ _ _ _) as [l|] eqn:L; [|discriminate]. intros H. assert (l = r) by congruence. subst l.
  destruct (label_nth _ _ _ _ _ _ _ L Hi) as (x & col & H1 & H2 & H3 & H4 & _). split; [congruence|].
  assert (col = d_col d) by congruence. subst col. rewrite (map_nth_error (rename (renames all)) i (t_cols t) Ht) in H4.
  assert (X : map (rename (renames all)) (map d_col all) = map d_name all) by now apply names_of.
  rewrite map_map in X. apply In_nth_error in Hd as (j & Hj).
  pose proof (map_nth_error (fun x => rename (renames all) (d_col x)) j all Hj) as X1. rewrite X, (map_nth_error d_name j all Hj) in X1. congruence.
Qed.
End Searches.
Print Assumptions C91_search_partial.
Print Assumptions C91_filters_ignored_refuted.
Print Assumptions C91_events_forgotten_refuted.
Print Assumptions C91_event_id_needed_refuted.
Print Assumptions C91_filter_column_refuted.
Print Assumptions C92_group_search_partial.
Print Assumptions C92_time_ignored_refuted.
Print Assumptions C93_all_properties_partial.
Print Assumptions C93_other_columns_refuted.
Print Assumptions C93_labels_by_position_refuted.
