(** Funnel reports: the buckets of a report over time (C46). *)
From Coq Require Import List ZArith Bool Arith Lia ZifyBool Sorted.
From Verif Require Import AMap Calendar CalendarFacts Funnel FunnelSpec FunnelFacts FunnelRun PropsFunnel PropsFunnelRules.
Import ListNotations.
Local Open Scope Z_scope.
Ltac Zify.zify_post_hook ::= Z.div_mod_to_equations.

Lemma in_step_by : forall f t s x, 0 < s ->
  (In x (step_by f t s) <-> exists i, 0 <= i /\ x = f + i * s /\ x <= t).
Proof.
  intros f t s x P. unfold step_by. rewrite in_map_iff. split.
  - intros (i & <- & Hi). apply in_seq in Hi. exists (Z.of_nat i). split; [lia|]. split; [reflexivity|].
    assert (Z.of_nat i < (t - f) / s + 1) by lia.
    assert ((t - f) / s * s <= t - f) by (rewrite Z.mul_comm; apply Z.mul_div_le; exact P).
    nia.
  - intros (i & Hi & -> & L). exists (Z.to_nat i). split; [rewrite Z2Nat.id by exact Hi; reflexivity|].
    apply in_seq. assert (i <= (t - f) / s) by (apply Z.div_le_lower_bound; lia). lia.
Qed.

(** Length of an interval step in milliseconds. *)
Definition step_ms (g : Unit_) : Z := millis (duration g 1).
Lemma step_pos : forall g, 0 < step_ms g.
Proof. destruct g; reflexivity. Qed.

Lemma millis_istart : forall g k, istart g k = millis (istart g k) * MS.
Proof.
  intros g k. unfold millis. assert (D : (MS | istart g k)).
  { destruct g; unfold istart.
    - exists (k * 3600000). change HOUR with (3600000 * MS). ring.
    - exists (k * 86400000). change DAY with (86400000 * MS). ring.
    - exists ((7 * k - 3) * 86400000). change DAY with (86400000 * MS). ring.
    - exists (month_start k * 86400000). change DAY with (86400000 * MS). ring.
    - exists (jan1 k * 86400000). change DAY with (86400000 * MS). ring. }
  destruct D as (q & E). rewrite E. rewrite Z.div_mul by (unfold MS; lia). reflexivity.
Qed.

(** The buckets of a report, by interval number. *)
Lemma in_buckets : forall g from to k, from <= to ->
  (In (millis (istart g k)) (funnel_buckets (Some g) from to) <->
   exists i, 0 <= i /\ istart g k = istart g (inum g from) + i * (step_ms g * MS) /\ k <= inum g to).
Proof.
  intros g from to k L. unfold funnel_buckets. rewrite !trunc_eq.
  assert (M : inum g from <= inum g to).
  { destruct (Z_le_gt_dec (inum g from) (inum g to)) as [A|A]; [exact A|exfalso].
    assert (F := inum_spec g from). assert (T := inum_spec g to).
    assert (X := istart_mono g (inum g to + 1) (inum g from) ltac:(lia)). lia. }
  assert (ML : millis (istart g (inum g from)) <= millis (istart g (inum g to))).
  { assert (X := istart_mono g _ _ M). unfold millis. apply Z.div_le_mono; [reflexivity|exact X]. }
  assert (NE : step_by (millis (istart g (inum g from))) (millis (istart g (inum g to))) (step_ms g) <> []).
  { intro E. assert (X : In (millis (istart g (inum g from)))
       (step_by (millis (istart g (inum g from))) (millis (istart g (inum g to))) (step_ms g))).
    { apply in_step_by; [apply step_pos|]. exists 0. lia. }
    rewrite E in X. destruct X. }
  fold (step_ms g). destruct (step_by _ _ _) as [|b0 bs] eqn:E; [congruence|]. rewrite <- E. clear NE E b0 bs.
  rewrite in_step_by by apply step_pos.
  assert (K : forall a b, millis (istart g a) <= millis (istart g b) <-> a <= b).
  { intros a b. split; intro H.
    - destruct (Z_le_gt_dec a b) as [A|A]; [exact A|exfalso].
      assert (X := istart_lt g b a ltac:(lia)). rewrite (millis_istart g a), (millis_istart g b) in X.
      unfold MS in X. lia.
    - assert (X := istart_mono g a b H). unfold millis. apply Z.div_le_mono; [reflexivity|exact X]. }
  split; intros (i & Hi & A & B); exists i; (split; [exact Hi|]).
  - split; [|apply K; exact B]. rewrite (millis_istart g k), A, (millis_istart g (inum g from)).
    unfold millis. rewrite Z.div_mul by (unfold MS; lia). ring.
  - split; [|apply K; exact B]. rewrite (millis_istart g k), (millis_istart g (inum g from)) in A.
    assert (MS > 0) by (unfold MS; lia).
    assert (E : (millis (istart g k) - (millis (istart g (inum g from)) + i * step_ms g)) * MS = 0) by (rewrite !Z.mul_sub_distr_r, Z.mul_add_distr_r; lia).
    apply Z.mul_eq_0 in E. lia.
Qed.

Lemma inum_mono : forall g a b, a <= b -> inum g a <= inum g b.
Proof.
  intros g a b L. destruct (Z_le_gt_dec (inum g a) (inum g b)) as [A|A]; [exact A|exfalso].
  assert (F := inum_spec g a). assert (T := inum_spec g b).
  assert (X := istart_mono g (inum g b + 1) (inum g a) ltac:(lia)). lia.
Qed.

Definition regular (g : Unit_) : Prop := g = Hour \/ g = Day \/ g = Week.

Lemma regular_bucket : forall g from to t, regular g -> from <= t <= to ->
  In (millis (date_trunc g t)) (funnel_buckets (Some g) from to).
Proof.
  intros g from to t R (A & B). rewrite trunc_eq. apply in_buckets; [lia|].
  assert (M1 := inum_mono g from t A). assert (M2 := inum_mono g t to B).
  exists (inum g t - inum g from). split; [lia|]. split; [|exact M2].
  destruct R as [->|[->| ->]]; unfold istart;
    generalize (inum Hour t) (inum Hour from) (inum Day t) (inum Day from) (inum Week t) (inum Week from); intros.
  - change (step_ms Hour * MS) with HOUR. ring.
  - change (step_ms Day * MS) with DAY. ring.
  - change (step_ms Week * MS) with (7 * DAY). ring.
Qed.

(** Hours, days and weeks: an attempt whose first step is at a time of the requested range has
    a line of its interval in the report. *)
Theorem C46_regular_intervals_partial : forall c g from to batches key user attempt first,
  regular g -> c_interval c = Some g -> c_buckets c = funnel_buckets (Some g) from to ->
  Ordered c -> Stream c batches -> no_leading_excluded (concat batches) ->
  In user (map r_part (of_key key (concat batches))) ->
  In attempt (attempts (length (c_orders c)) (c_window c) (of_user user (of_key key (concat batches)))) ->
  hd_error attempt = Some first -> from <= of_millis first <= to ->
  exists report s rest, funnel c None batches = Some report /\
    In (key, millis (date_trunc g (of_millis first)), s :: rest) report /\ 1 <= s_total s.
Proof.
  intros c g from to batches key user a first R Ci Cb O S Cl HU HA HF Rg.
  destruct (C49_report_is_specified_partial c batches O S Cl) as (report & E & Spec).
  set (b := millis (date_trunc g (of_millis first))).
  set (ats := filter (in_bucket c b) (all_attempts (length (c_orders c)) (c_window c) (of_key key (concat batches)))).
  assert (Hin : In a ats).
  { apply filter_In. split.
    - unfold all_attempts. apply in_flat_map. exists user. split; [|exact HA]. unfold users. apply nodup_In. exact HU.
    - unfold in_bucket. rewrite Ci. destruct a as [|t a]; [discriminate|]. injection HF as ->.
      cbn [nth]. apply Z.eqb_refl. }
  assert (T : 1 <= total ats 0).
  { unfold total, reaching. assert (X : In a (filter (fun a0 => (0 <? length a0)%nat) ats)).
    { apply filter_In. split; [exact Hin|]. destruct a; [discriminate|reflexivity]. }
    destruct (filter _ ats); [destruct X|]. cbn [length]. lia. }
  assert (Ne := or_steps _ O).
  assert (Ln : exists n, length (c_orders c) = Datatypes.S n).
  { destruct (c_orders c) as [|o os]; [congruence|]. exists (length os). reflexivity. }
  destruct Ln as (n & Ln).
  exists report, (line_step ats 0), (map (line_step ats) (seq 1 n)).
  split; [exact E|]. split; [|exact T]. apply Spec.
  split; [rewrite Cb; apply regular_bucket; assumption|]. split.
  - fold b. fold ats. rewrite Ln. reflexivity.
  - eexists _, _. split; [reflexivity|]. cbn [line_step s_total]. lia.
Qed.
Print Assumptions C46_regular_intervals_partial.

(** Months and years: exactly which intervals of the range have a bucket. *)
Theorem C46_months_refuted : forall from to k, from <= to -> inum Month from <= k <= inum Month to ->
  (In (millis (istart Month k)) (funnel_buckets (Some Month) from to) <->
   exists i, month_start k - month_start (inum Month from) = 31 * i).
Proof.
  intros from to k L (A & B). rewrite in_buckets by exact L. change (step_ms Month * MS) with (31 * DAY).
  assert (Mo := istart_mono Month _ _ A). unfold istart in *. split.
  - intros (i & Hi & E & _). exists i. unfold DAY, HOUR, MINUTE, SEC in *. lia.
  - intros (i & E). exists i. unfold DAY, HOUR, MINUTE, SEC in *. split; [lia|]. split; [lia|exact B].
Qed.
Print Assumptions C46_months_refuted.

(** In particular the month after a month shorter than 31 days has no bucket. *)
Theorem C46_next_month_refuted : forall from to, inum Month from < inum Month to ->
  month_len (inum Month from) <> 31 ->
  ~ In (millis (istart Month (inum Month from + 1))) (funnel_buckets (Some Month) from to).
Proof.
  intros from to A N H. assert (L : from <= to).
  { destruct (Z_le_gt_dec from to) as [X|X]; [exact X|]. assert (Y := inum_mono Month to from ltac:(lia)). lia. }
  apply C46_months_refuted in H; [|exact L|lia]. destruct H as (i & E). rewrite month_start_next in E.
  assert (R := month_len_range (inum Month from)). lia.
Qed.
Print Assumptions C46_next_month_refuted.

(** The year after the first one never has a bucket. *)
Theorem C46_next_year_refuted : forall from to, inum Year from < inum Year to ->
  ~ In (millis (istart Year (inum Year from + 1))) (funnel_buckets (Some Year) from to).
Proof.
  intros from to A H. assert (L : from <= to).
  { destruct (Z_le_gt_dec from to) as [X|X]; [exact X|]. assert (Y := inum_mono Year to from ltac:(lia)). lia. }
  apply in_buckets in H; [|exact L]. destruct H as (i & Hi & E & _).
  change (step_ms Year * MS) with (372 * DAY) in E. unfold istart in E. rewrite jan1_next in E.
  generalize (inum Year from) as y. intro y.
  destruct (year_len_cases (inum Year from)) as [Y|Y]; rewrite Y in E; unfold DAY, HOUR, MINUTE, SEC in E; lia.
Qed.
Print Assumptions C46_next_year_refuted.

(** What has no bucket is lost: when no attempt falls into a bucket, the report is empty. *)
Theorem C46_without_bucket_lost_refuted : forall c batches,
  Ordered c -> Stream c batches -> no_leading_excluded (concat batches) ->
  (forall key user attempt b,
     In attempt (attempts (length (c_orders c)) (c_window c) (of_user user (of_key key (concat batches)))) ->
     In b (c_buckets c) -> in_bucket c b attempt = false) ->
  funnel c None batches = Some [].
Proof.
  intros c batches O S Cl H. destruct (C49_report_is_specified_partial c batches O S Cl) as (report & E & Spec).
  rewrite E. f_equal. destruct report as [|[[key b] steps] report]; [reflexivity|exfalso].
  destruct (proj1 (Spec key b steps) (or_introl eq_refl)) as (Hb & -> & s & rest & Es & NZ).
  assert (F : filter (in_bucket c b) (all_attempts (length (c_orders c)) (c_window c) (of_key key (concat batches))) = []).
  { assert (X : forall l, (forall a, In a l -> in_bucket c b a = false) -> filter (in_bucket c b) l = []).
    { induction l as [|a l IH]; intro Q; [reflexivity|]. cbn [filter]. rewrite (Q a (or_introl eq_refl)).
      apply IH. intros x Hx. apply Q. right. exact Hx. }
    apply X. intros a Ha. unfold all_attempts in Ha. apply in_flat_map in Ha. destruct Ha as (u & _ & Ha).
    exact (H key u a b Ha Hb). }
  rewrite F in Es. unfold line in Es. destruct (length (c_orders c)); [discriminate|].
  cbn [seq map line_step] in Es. injection Es as <- _. apply NZ. reflexivity.
Qed.
Print Assumptions C46_without_bucket_lost_refuted.

(** 31 January to 1 March 2023, by month and by day: the attempt of 10 March is lost by month
    when the range starts in February. *)
Definition day_ms (y : Z) (m0 : nat) (d0 : Z) : Z := day_number y m0 d0 * 86400000.
Example C46_witness :
  let from := of_millis (day_ms 2023 1 5) in let to := of_millis (day_ms 2023 2 20) in
  let c g := mkCfg [Exact; Exact] 100 [] false NonUnique None (Some g) (funnel_buckets (Some g) from to) in
  let rows := [mkRow 1 (day_ms 2023 2 10) [] [true; false] [] []] in
  regular Day /\
  funnel (c Month) None [rows] = Some [] /\
  funnel (c Day) None [rows] = Some [([], day_ms 2023 2 10, [mkSR 1 0 0 0; mkSR 0 1 0 0])] /\
  inum Month from < inum Month to /\ month_len (inum Month from) = 28.
Proof. cbv zeta. split; [right; left; reflexivity|]. vm_compute. repeat split. Qed.
