(** C97-C101: the columns of a funnel report put together from several workers, whose events it
    counts, and the length of its window. *)
From Coq Require Import List ZArith Bool Arith Lia Permutation Sorted.
From Verif Require Import AMap Calendar Funnel FunnelSpec FunnelFacts FunnelRun PropsFunnel
  FunnelRatio FunnelRatioFacts.
Import ListNotations.
Local Open Scope Z_scope.

(** *** Specification *)

(** The counts and times of a step of the report. *)
Definition counts (s : StepLine) : StepResult := mkSR (l_total s) (l_dropped s) (l_ttc s) (l_ttcs s).
Definition counts_of (l : FLine) : Line := (fst l, map counts (snd l)).
(** The rows of one worker, of all workers. *)
Definition rows_of (w : list (list Row)) : list Row := concat w.
Definition all_rows (ws : list (list (list Row))) : list Row := concat (map rows_of ws).
(** All rows of a user are on one worker (the input is partitioned by a hash of the user). *)
Definition Spread (ws : list (list (list Row))) : Prop :=
  forall i j wi wj r r', nth_error ws i = Some wi -> nth_error ws j = Some wj -> i <> j ->
    In r (rows_of wi) -> In r' (rows_of wj) -> r_part r <> r_part r'.
(** The attempts of one line: breakdown value and bucket. *)
Definition line_attempts (c : Cfg) (key : GKey) (bucket : Z) (rows : list Row) : list (list Z) :=
  filter (in_bucket c bucket)
    (all_attempts (length (c_orders c)) (c_window c) (of_key key rows)).
(** A set of workers as the report meets them. *)
Record Workers (c : Cfg) (ws : list (list (list Row))) : Prop := mkWorkers {
  wk_stream : forall w, In w ws -> Stream c w;
  wk_clean : forall w, In w ws -> no_leading_excluded (rows_of w);
  wk_spread : Spread ws
}.
(** [r] units of 10^-16 is [p]/[q] up to one part in 10^12 and one unit. *)
Definition is_quotient (r p q : Z) : Prop :=
  Z.abs (r * q - p * unit_) * 10 ^ 12 <= p * unit_ + 10 ^ 12 * q.
(** What the theorems ask of the floating point expressions. *)
Definition pct_close (pct : Z -> Z -> Z) : Prop :=
  forall a b, 0 <= a -> 0 < b -> is_quotient (pct a b) (100 * a) b.
Definition rest_close (rest : Z -> Z) : Prop :=
  forall r, 0 <= r <= 101 * unit_ -> Z.abs (rest r - (hundred - r)) <= 10000.

(** *** Proofs *)
Section Workers_.
Variable pct : Z -> Z -> Z.
Variable rest : Z -> Z.

Lemma key_columns : forall l, fkey (columns pct rest l) = fst l.
Proof. intros [[k b] s]. reflexivity. Qed.

Lemma same_key_app : forall k a b, same_key k (a ++ b) = same_key k a ++ same_key k b.
Proof. intros. apply filter_app. Qed.

Lemma same_key_once : forall ls k s, NoDup (map fst ls) -> In (k, s) ls ->
  same_key k (map (columns pct rest) ls) = [columns pct rest (k, s)].
Proof.
  intros ls k s. induction ls as [|l ls IH]; intros N0 H; [destruct H|]. cbn [map] in *.
  apply NoDup_cons_iff in N0. destruct N0 as (NI & N0). unfold same_key in *. cbn [filter].
  rewrite key_columns. destruct H as [->|H].
  - cbn [fst]. destruct (fkey_dec k k) as [_|D]; [|congruence]. f_equal.
    cbn [fst] in NI. clear -NI. induction ls as [|l ls IH]; [reflexivity|]. cbn [map filter].
    rewrite key_columns. destruct (fkey_dec (fst l) k) as [E|_].
    + exfalso. apply NI. left. exact E.
    + apply IH. intro X. apply NI. right. exact X.
  - destruct (fkey_dec (fst l) k) as [E|_]; [|exact (IH N0 H)].
    exfalso. apply NI. rewrite E. apply (in_map fst) in H. exact H.
Qed.

Lemma same_key_none : forall ls k, (forall s, ~ In (k, s) ls) ->
  same_key k (map (columns pct rest) ls) = [].
Proof.
  intros ls k. induction ls as [|[k0 s0] ls IH]; intro H; [reflexivity|]. unfold same_key in *.
  cbn [map filter]. rewrite key_columns. cbn [fst]. destruct (fkey_dec k0 k) as [->|_].
  - exfalso. apply (H s0). left. reflexivity.
  - apply IH. intros s X. apply (H s). right. exact X.
Qed.

Lemma line_head : forall n a, (0 < n)%nat ->
  exists s l, line n a = s :: l /\ s_total s = total a 0.
Proof.
  intros [|n] a H; [lia|]. unfold line. cbn [seq map]. eexists. eexists. split; [reflexivity|reflexivity].
Qed.

(** One worker: the lines it contributes. *)
Lemma worker_part : forall c w, Ordered c -> NoDup (c_buckets c) -> Stream c w ->
  no_leading_excluded (rows_of w) ->
  exists ls, worker pct rest c w = Some ls /\
    forall key b, same_key (key, b) ls =
      if in_dec Z.eq_dec b (c_buckets c) then
        if total (line_attempts c key b (rows_of w)) 0 =? 0 then []
        else [columns pct rest (key, b, line (length (c_orders c)) (line_attempts c key b (rows_of w)))]
      else [].
Proof.
  intros c w O NB St Cl. destruct (C49_report_is_specified_partial c w O St Cl) as (ls & E & H).
  assert (ND := lines_once c None w ls E NB).
  assert (PN : (0 < length (c_orders c))%nat).
  { assert (X := or_steps c O). destruct (c_orders c); [congruence|cbn; lia]. }
  unfold worker. rewrite E. eexists. split; [reflexivity|]. intros key b.
  destruct (in_dec Z.eq_dec b (c_buckets c)) as [Hb|Hb].
  - destruct (line_head (length (c_orders c)) (line_attempts c key b (rows_of w)) PN) as (s & l & El & Es).
    destruct (total (line_attempts c key b (rows_of w)) 0 =? 0) eqn:T.
    + apply Z.eqb_eq in T. apply same_key_none. intros s' X. apply H in X.
      destruct X as (_ & E1 & s1 & l1 & E2 & NZ). fold (rows_of w) in E1.
      change (s' = line (length (c_orders c)) (line_attempts c key b (rows_of w))) in E1.
      rewrite E2, El in E1. injection E1 as -> _. congruence.
    + apply Z.eqb_neq in T. apply same_key_once; [exact ND|]. apply H. split; [exact Hb|].
      split; [reflexivity|]. exists s, l. split; [exact El|congruence].
  - apply same_key_none. intros s X. apply H in X. apply Hb. apply X.
Qed.

Definition csum (ls : list FLine) (k : nat) : StepResult := counts (final_step ls k).

Lemma csum_app : forall a b k, csum (a ++ b) k =
  mkSR (s_total (csum a k) + s_total (csum b k)) (s_dropped (csum a k) + s_dropped (csum b k))
    (s_ttc (csum a k) + s_ttc (csum b k)) (s_ttcs (csum a k) + s_ttcs (csum b k)).
Proof.
  intros a b k. assert (Z1 : forall l m, agg_sum (l ++ m) = agg_sum l + agg_sum m).
  { intros l m. unfold agg_sum, zsum. induction l as [|x l IH]; cbn [app fold_right]; lia. }
  unfold csum, final_step, counts. cbn [l_total l_dropped l_ttc l_ttcs s_total s_dropped s_ttc s_ttcs].
  rewrite !map_app, !Z1. reflexivity.
Qed.

Lemma nth_step_lines : forall l f i k, (k < length l)%nat ->
  nth k (step_lines pct rest f i l) (mkSL 0 0 0 0 0 0 0 0) = step_line pct rest f (i + k) (nth k l sr0).
Proof.
  induction l as [|s l IH]; intros f i k H; cbn [length] in H; [lia|]. cbn [step_lines].
  destruct k as [|k]; cbn [nth]; [rewrite Nat.add_0_r; reflexivity|].
  rewrite IH by lia. f_equal. lia.
Qed.

Lemma csum_one : forall key b n a k, (k < n)%nat ->
  csum [columns pct rest (key, b, line n a)] k = line_step a k.
Proof.
  intros key b n a k H. unfold csum, final_step, counts, agg_sum, zsum. cbn [map fold_right].
  unfold nth_step, columns. cbn [snd l_total l_dropped l_ttc l_ttcs].
  rewrite nth_step_lines by (unfold line; rewrite map_length, seq_length; exact H).
  assert (E : nth k (line n a) sr0 = line_step a k).
  { unfold line. rewrite (nth_indep _ sr0 (line_step a 0)) by (rewrite map_length, seq_length; exact H).
    rewrite map_nth. f_equal. rewrite seq_nth by exact H. reflexivity. }
  rewrite E. unfold step_line. cbn [l_total l_dropped l_ttc l_ttcs]. rewrite !Z.add_0_r.
  destruct (line_step a k). reflexivity.
Qed.

Lemma csum_nil : forall k, csum [] k = sr0.
Proof. reflexivity. Qed.

Lemma line_nil : forall k, line_step [] k = sr0.
Proof. intro k. apply line_none. reflexivity. Qed.

(** All workers: the lines of a key and bucket add up to the attempts of all workers. *)
Lemma workers_part : forall c ws, Ordered c -> NoDup (c_buckets c) ->
  (forall w, In w ws -> Stream c w) -> (forall w, In w ws -> no_leading_excluded (rows_of w)) ->
  exists ls, all_workers pct rest c ws = Some ls /\
    forall key b,
      (In b (c_buckets c) ->
        let ats := flat_map (fun w => line_attempts c key b (rows_of w)) ws in
        (forall k, (k < length (c_orders c))%nat -> csum (same_key (key, b) ls) k = line_step ats k) /\
        (same_key (key, b) ls = [] <-> total ats 0 = 0)) /\
      (~ In b (c_buckets c) -> same_key (key, b) ls = []).
Proof.
  intros c ws O NB. induction ws as [|w ws IH]; intros St Cl.
  - exists []. split; [reflexivity|]. intros key b. split; [|reflexivity]. intros _ ats. split.
    + intros k _. unfold ats. cbn [flat_map]. rewrite line_nil. reflexivity.
    + split; reflexivity.
  - destruct IH as (ls & E & H).
    { intros w' Hw. apply St. right. exact Hw. } { intros w' Hw. apply Cl. right. exact Hw. }
    destruct (worker_part c w O NB (St w (or_introl eq_refl)) (Cl w (or_introl eq_refl))) as (lw & Ew & Hw).
    cbn [all_workers]. rewrite Ew, E. eexists. split; [reflexivity|]. intros key b.
    rewrite same_key_app, Hw. destruct (H key b) as (H1 & H2).
    destruct (in_dec Z.eq_dec b (c_buckets c)) as [Hb|Hb].
    + split; [|intro X; contradiction]. intros _. cbv zeta. cbn [flat_map].
      destruct (H1 Hb) as (A & B). cbv zeta in A, B.
      set (aw := line_attempts c key b (rows_of w)) in *.
      set (as' := flat_map (fun w0 => line_attempts c key b (rows_of w0)) ws) in *.
      assert (TA : total (aw ++ as') 0 = total aw 0 + total as' 0).
      { unfold total, reaching. rewrite filter_app, app_length. lia. }
      assert (NN : 0 <= total aw 0 /\ 0 <= total as' 0) by (unfold total; lia).
      destruct (total aw 0 =? 0) eqn:T.
      * apply Z.eqb_eq in T. cbn [app]. split.
        -- intros k Hk. rewrite (A k Hk), line_add, (line_none aw k T). cbn [s_total s_dropped s_ttc s_ttcs sr0].
           rewrite !Z.add_0_l. destruct (line_step as' k). reflexivity.
        -- rewrite B, TA. lia.
      * apply Z.eqb_neq in T. split.
        -- intros k Hk. rewrite csum_app, (csum_one key b _ aw k Hk), (A k Hk), line_add. reflexivity.
        -- split; [discriminate|]. rewrite TA. lia.
    + split; [intro X; contradiction|]. intros _. cbn [app]. exact (H2 Hb).
Qed.

Lemma spread_tail : forall w ws, Spread (w :: ws) ->
  Spread ws /\ forall r r', In r (rows_of w) -> In r' (all_rows ws) -> r_part r <> r_part r'.
Proof.
  intros w ws H. split.
  - intros i j wi wj r r' Hi Hj D Hr Hr'.
    apply (H (S i) (S j) wi wj r r' Hi Hj); [congruence|exact Hr|exact Hr'].
  - intros r r' Hr Hr'. unfold all_rows in Hr'. apply in_concat in Hr'. destruct Hr' as (l & Hl & Hr').
    apply in_map_iff in Hl. destruct Hl as (w' & <- & Hw). apply In_nth_error in Hw. destruct Hw as (j & Hj).
    apply (H 0%nat (S j) w w' r r' eq_refl Hj); [discriminate|exact Hr|exact Hr'].
Qed.

Lemma attempts_spread : forall c key b ws, Spread ws ->
  Permutation (line_attempts c key b (all_rows ws))
    (flat_map (fun w => line_attempts c key b (rows_of w)) ws).
Proof.
  intros c key b ws. induction ws as [|w ws IH]; intro H; [apply Permutation_refl|].
  destruct (spread_tail w ws H) as (H1 & D). cbn [flat_map].
  eapply perm_trans; [|apply Permutation_app_head; exact (IH H1)].
  unfold line_attempts. rewrite <- filter_app. apply filter_perm.
  unfold all_rows. cbn [map concat]. rewrite of_key_app. apply attempts_disjoint.
  intros r r' Hr Hr'. unfold of_key in Hr, Hr'. apply filter_In in Hr, Hr'.
  apply D; [apply Hr|apply Hr'].
Qed.

Lemma final_in : forall n ls k s, In (k, s) (final n ls) <->
  same_key k ls <> [] /\ s = map (final_step (same_key k ls)) (seq 0 n).
Proof.
  intros n ls k s. unfold final. rewrite in_map_iff. split.
  - intros (k' & E & H). injection E as -> <-. apply nodup_In in H. split; [|reflexivity].
    apply in_map_iff in H. destruct H as (l & El & Hl). intro X.
    assert (Y : In l (same_key k ls)).
    { unfold same_key. apply filter_In. split; [exact Hl|]. destruct (fkey_dec (fkey l) k); congruence. }
    rewrite X in Y. destruct Y.
  - intros (H & ->). exists k. split; [reflexivity|]. apply nodup_In.
    destruct (same_key k ls) as [|l r] eqn:E; [congruence|].
    assert (Y : In l (same_key k ls)) by (rewrite E; left; reflexivity).
    unfold same_key in Y. apply filter_In in Y. destruct Y as (Y & D).
    destruct (fkey_dec (fkey l) k) as [<-|_]; [|discriminate]. apply in_map. exact Y.
Qed.

Lemma final_once : forall n ls, NoDup (map fkey (final n ls)).
Proof.
  intros n ls. unfold final. rewrite map_map. unfold fkey at 1. cbn [fst]. rewrite map_id.
  apply NoDup_nodup.
Qed.

(** C97: counts and times do not depend on how the users are spread over the workers: each
    line carries the counts of the attempts of all users. *)
Theorem C97_totals_partial : forall c ws, Ordered c -> NoDup (c_buckets c) -> Workers c ws ->
  exists out, report pct rest c ws = Some out /\ NoDup (map fkey out) /\
    forall key bucket steps, In (key, bucket, steps) (map counts_of out) <->
      In bucket (c_buckets c) /\
      steps = line (length (c_orders c)) (line_attempts c key bucket (all_rows ws)) /\
      total (line_attempts c key bucket (all_rows ws)) 0 <> 0.
Proof.
  intros c ws O NB [St Cl Sp]. destruct (workers_part c ws O NB St Cl) as (ls & E & H).
  unfold report. rewrite E. eexists. split; [reflexivity|]. split; [apply final_once|].
  intros key bucket steps. destruct (H key bucket) as (H1 & H2).
  assert (P := attempts_spread c key bucket ws Sp).
  assert (TP : total (line_attempts c key bucket (all_rows ws)) 0 =
               total (flat_map (fun w => line_attempts c key bucket (rows_of w)) ws) 0).
  { unfold total, reaching. f_equal. apply Permutation_length, filter_perm. exact P. }
  assert (LN : forall s, In (key, bucket, s) (map counts_of (final (length (c_orders c)) ls)) <->
     same_key (key, bucket) ls <> [] /\
     s = map (csum (same_key (key, bucket) ls)) (seq 0 (length (c_orders c)))).
  { intro s. rewrite in_map_iff. split.
    - intros ([k s0] & Ek & Hk). unfold counts_of in Ek. cbn [fst snd] in Ek. injection Ek as -> <-.
      apply final_in in Hk. destruct Hk as (A & ->). split; [exact A|]. rewrite map_map. reflexivity.
    - intros (A & ->). exists ((key, bucket), map (final_step (same_key (key, bucket) ls)) (seq 0 (length (c_orders c)))).
      split; [unfold counts_of; cbn [fst snd]; rewrite map_map; reflexivity|].
      apply final_in. split; [exact A|reflexivity]. }
  rewrite LN. split.
  - intros (A & ->). destruct (in_dec Z.eq_dec bucket (c_buckets c)) as [Hb|Hb]; [|exfalso; exact (A (H2 Hb))].
    destruct (H1 Hb) as (C1 & C2). cbv zeta in C1, C2. split; [exact Hb|]. split.
    + rewrite (line_perm _ _ _ P). unfold line. apply map_ext_in. intros k Hk. apply in_seq in Hk.
      apply C1. lia.
    + rewrite TP. intro X. apply A. apply C2. exact X.
  - intros (Hb & -> & NZ). destruct (H1 Hb) as (C1 & C2). cbv zeta in C1, C2. split.
    + intro X. apply NZ. rewrite TP. apply C2. exact X.
    + rewrite (line_perm _ _ _ P). unfold line. apply map_ext_in. intros k Hk. apply in_seq in Hk.
      symmetry. apply C1. lia.
Qed.

(** Two ways of spreading the same users give the same counts. *)
Theorem C97_any_distribution_partial : forall c ws1 ws2 out1 out2,
  Ordered c -> NoDup (c_buckets c) -> Workers c ws1 -> Workers c ws2 ->
  (forall u, of_user u (all_rows ws1) = of_user u (all_rows ws2)) ->
  report pct rest c ws1 = Some out1 -> report pct rest c ws2 = Some out2 ->
  forall l, In l (map counts_of out1) <-> In l (map counts_of out2).
Proof.
  intros c ws1 ws2 out1 out2 O NB W1 W2 U E1 E2 [[key b] s].
  destruct (C97_totals_partial c ws1 O NB W1) as (o1 & F1 & _ & H1).
  destruct (C97_totals_partial c ws2 O NB W2) as (o2 & F2 & _ & H2).
  rewrite E1 in F1. rewrite E2 in F2. injection F1 as <-. injection F2 as <-.
  assert (UM : forall a b', (forall u, of_user u a = of_user u b') -> forall u, In u (map r_part a) -> In u (map r_part b')).
  { intros a b' X u Hu. apply in_map_iff in Hu. destruct Hu as (r & <- & Hr).
    assert (Y : In r (of_user (r_part r) a)).
    { unfold of_user. apply filter_In. split; [exact Hr|apply Z.eqb_refl]. }
    rewrite X in Y. unfold of_user in Y. apply filter_In in Y. apply in_map. apply Y. }
  assert (UK : forall u, of_user u (of_key key (all_rows ws1)) = of_user u (of_key key (all_rows ws2))).
  { intro u. rewrite <- !of_key_user, U. reflexivity. }
  assert (P : Permutation (line_attempts c key b (all_rows ws1)) (line_attempts c key b (all_rows ws2))).
  { unfold line_attempts. apply filter_perm. unfold all_attempts.
    eapply perm_trans.
    - apply Permutation_flat_map. apply NoDup_Permutation; [apply NoDup_nodup| |].
      + apply (NoDup_nodup Z.eq_dec (map r_part (of_key key (all_rows ws2)))).
      + intro u. unfold users. rewrite !nodup_In. split; apply UM; [exact UK|]. intro v. symmetry. apply UK.
    - change (nodup Z.eq_dec (map r_part (of_key key (all_rows ws2)))) with (users (of_key key (all_rows ws2))).
      rewrite !flat_map_concat_map.
      rewrite (map_ext (fun u => attempts (length (c_orders c)) (c_window c) (of_user u (of_key key (all_rows ws1))))
                 (fun u => attempts (length (c_orders c)) (c_window c) (of_user u (of_key key (all_rows ws2)))));
        [apply Permutation_refl|]. intro u. rewrite UK. reflexivity. }
  rewrite H1, H2, (line_perm _ _ _ P).
  assert (T : total (line_attempts c key b (all_rows ws1)) 0 = total (line_attempts c key b (all_rows ws2)) 0).
  { unfold total, reaching. f_equal. apply Permutation_length, filter_perm. exact P. }
  rewrite T. reflexivity.
Qed.

(** *** One worker: the ratio and average columns *)
Lemma one_line : forall c w out key b steps, Ordered c -> NoDup (c_buckets c) -> Workers c [w] ->
  report pct rest c [w] = Some out -> In (key, b, steps) out ->
  exists ats, steps = map (fun k => step_line pct rest (total ats 0) k (line_step ats k))
                        (seq 0 (length (c_orders c))) /\ total ats 0 <> 0.
Proof.
  intros c w out key b steps O NB [St Cl _] E H.
  destruct (worker_part c w O NB (St w (or_introl eq_refl)) (Cl w (or_introl eq_refl))) as (ls & Ew & Hw).
  unfold report in E. cbn [all_workers] in E. rewrite Ew, app_nil_r in E. injection E as <-.
  apply final_in in H. destruct H as (A & ->). rewrite Hw in *.
  destruct (in_dec Z.eq_dec b (c_buckets c)) as [_|_]; [|congruence].
  set (ats := line_attempts c key b (rows_of w)) in *.
  destruct (total ats 0 =? 0) eqn:T; [congruence|]. apply Z.eqb_neq in T.
  exists ats. split; [|exact T]. apply map_ext_in. intros k Hk. apply in_seq in Hk.
  assert (L : (k < length (line (length (c_orders c)) ats))%nat).
  { unfold line. rewrite map_length, seq_length. lia. }
  assert (N1 : nth_step k (columns pct rest (key, b, line (length (c_orders c)) ats)) =
               step_line pct rest (total ats 0) k (line_step ats k)).
  { unfold nth_step, columns. cbn [snd]. rewrite nth_step_lines by exact L. cbn [Nat.add]. f_equal.
    - destruct (line_head (length (c_orders c)) ats) as (s & l & El & Es); [lia|]. rewrite El. exact Es.
    - unfold line in *. rewrite (nth_indep _ sr0 (line_step ats 0)) by exact L.
      rewrite map_nth. f_equal. rewrite seq_nth; [reflexivity|lia]. }
  unfold final_step. cbn [map]. rewrite N1. unfold agg_sum, agg_avg, zsum. cbn [fold_right length].
  change (Z.of_nat 1) with 1. rewrite !Z.add_0_r, !Z.quot_1_r. destruct (step_line _ _ _ _ _). reflexivity.
Qed.

Lemma total_nonneg : forall a k, 0 <= total a k.
Proof. intros. unfold total. lia. Qed.
Lemma total_le : forall a k, total a k <= total a 0.
Proof.
  intros a k. unfold total, reaching. apply Nat2Z.inj_le. induction a as [|x a IH]; [reflexivity|].
  cbn [filter]. destruct (k <? length x)%nat eqn:A, (0 <? length x)%nat eqn:B; cbn [length]; try lia.
Qed.

Lemma nth_line : forall {B} (f : nat -> B) n k s, nth_error (map f (seq 0 n)) k = Some s -> s = f k.
Proof.
  intros B f n k s H. rewrite nth_error_map in H. destruct (nth_error (seq 0 n) k) as [j|] eqn:E; [|discriminate].
  cbn [option_map] in H. injection H as <-. f_equal.
  assert (L : (k < n)%nat).
  { rewrite <- (seq_length n 0). apply nth_error_Some. congruence. }
  apply (nth_error_nth _ _ 0%nat) in E. rewrite seq_nth in E by exact L. cbn in E. congruence.
Qed.

Lemma quotient_self : forall p q, 0 <= p -> 0 < q -> forall r, r * q = p * unit_ -> is_quotient r p q.
Proof.
  intros p q Hp Hq r E. unfold is_quotient. rewrite E, Z.sub_diag. change (Z.abs 0 * 10 ^ 12) with 0.
  assert (0 < unit_) by reflexivity. assert (0 < 10 ^ 12) by reflexivity. nia.
Qed.

(** C98: with one worker the conversion ratio of a step is 100 * total / total of the first step,
    and the drop-off ratio is what is missing to 100. *)
Theorem C98_one_worker_partial : forall c w out key b steps k s s0,
  pct_close pct -> rest_close rest ->
  Ordered c -> NoDup (c_buckets c) -> Workers c [w] ->
  report pct rest c [w] = Some out -> In (key, b, steps) out ->
  nth_error steps 0 = Some s0 -> nth_error steps k = Some s ->
  is_quotient (l_ratio s) (100 * l_total s) (l_total s0) /\
  Z.abs (l_dratio s - (hundred - l_ratio s)) <= 10000.
Proof.
  intros c w out key b steps k s s0 PC RC O NB W E H H0 Hk.
  destruct (one_line c w out key b steps O NB W E H) as (ats & -> & NZ).
  assert (T0 := total_nonneg ats 0). assert (Tk := total_nonneg ats k). assert (TL := total_le ats k).
  apply nth_line in Hk. apply nth_line in H0. subst s s0.
  assert (ST : forall j, s_total (line_step ats j) = total ats j) by (intros [|j]; reflexivity).
  unfold step_line. cbn [l_ratio l_total l_dratio]. rewrite !ST.
  assert (Q : is_quotient (share pct k (total ats k) (total ats 0) (total ats k) hundred) (100 * total ats k) (total ats 0)).
  { unfold share. destruct k as [|k].
    - apply quotient_self; [lia|lia|]. unfold hundred. lia.
    - destruct (0 <? total ats (S k)) eqn:P; [apply PC; lia|]. apply quotient_self; [lia|lia|].
      apply Z.ltb_ge in P. replace (total ats (S k)) with 0 by lia. reflexivity. }
  split; [exact Q|]. apply RC. clear RC. unfold is_quotient in Q.
  assert (R0 : total ats k = 0 -> share pct k (total ats k) (total ats 0) (total ats k) hundred = 0).
  { intro X. unfold share. destruct k; [congruence|]. rewrite X. reflexivity. }
  set (r := share pct k (total ats k) (total ats 0) (total ats k) hundred) in *.
  set (t0 := total ats 0) in *. set (t := total ats k) in *. clearbody r t0 t.
  change (10 ^ 12) with 1000000000000 in Q. unfold unit_ in *.
  destruct (Z.eq_dec t 0) as [E0|NE]; [rewrite (R0 E0); lia|]. split.
  - destruct (Z.le_gt_cases 0 r) as [L|L]; [exact L|exfalso].
    assert (r * t0 <= - t0) by nia. lia.
  - destruct (Z.le_gt_cases r (101 * 10000000000000000)) as [L|L]; [exact L|exfalso].
    assert (101 * 10000000000000000 * t0 <= r * t0) by (apply Z.mul_le_mono_nonneg_r; lia). lia.
Qed.

(** C99: with one worker the average times are a hundred times the average. *)
Theorem C99_average_time_refuted : forall c w out key b steps k s,
  pct_close pct -> Ordered c -> NoDup (c_buckets c) -> Workers c [w] ->
  report pct rest c [w] = Some out -> In (key, b, steps) out ->
  nth_error steps (S k) = Some s -> 0 < l_total s -> 0 <= l_ttc s -> 0 <= l_ttcs s ->
  is_quotient (l_attc s) (100 * l_ttc s) (l_total s) /\
  is_quotient (l_attcs s) (100 * l_ttcs s) (l_total s) /\
  (l_total s <= 10 ^ 15 * l_ttc s -> ~ is_quotient (l_attc s) (l_ttc s) (l_total s)).
Proof.
  intros c w out key b steps k s PC O NB W E H Hk T A B.
  destruct (one_line c w out key b steps O NB W E H) as (ats & -> & NZ).
  apply nth_line in Hk. subst s. unfold step_line in *. cbn [l_attc l_attcs l_ttc l_ttcs l_total share] in *.
  assert (P : 0 <? s_total (line_step ats (S k)) = true) by lia. rewrite P.
  assert (Q := PC (s_ttc (line_step ats (S k))) _ A T). split; [exact Q|]. split; [apply PC; assumption|].
  intros L X. unfold is_quotient in *. change (10 ^ 12) with 1000000000000 in *.
  change (10 ^ 15) with 1000000000000000 in *. unfold unit_ in *.
  set (t := s_total (line_step ats (S k))) in *. set (d := s_ttc (line_step ats (S k))) in *.
  set (r := pct d t * t) in *. clearbody r t d. lia.
Qed.
End Workers_.

(** Two workers: one with a single user who reached the second step, one with [n] users who
    did not. *)
Definition two_steps (window : Z) : Cfg := mkCfg [Exact; Exact] window [] false NonUnique None None [0].
Definition first_only (t u : Z) : Row := mkRow u t [] [true; false] [] [].
Definition second (t u : Z) : Row := mkRow u t [] [false; true] [] [].
Definition others (t : Z) (n : nat) : list Row := map (fun i => first_only t (Z.of_nat i)) (seq 1 n).
Definition two_workers (t d : Z) (n : nat) : list (list (list Row)) :=
  [[[first_only t 0; second (t + d) 0]]; [others t n]].

Lemma others_attempts : forall w t n,
  total (line_attempts (two_steps w) [] 0 (others t n)) 0 = Z.of_nat n /\
  total (line_attempts (two_steps w) [] 0 (others t n)) 1 = 0.
Proof.
  intros w t n. induction n as [|n (A & B)]; [split; reflexivity|].
  assert (P : Permutation (line_attempts (two_steps w) [] 0 (others t (S n)))
                (line_attempts (two_steps w) [] 0 (others t n) ++ [[t]])).
  { unfold others. rewrite seq_S, map_app. cbn [map]. fold (others t n). unfold line_attempts.
    rewrite of_key_app.
    eapply perm_trans.
    - apply filter_perm. apply attempts_disjoint. intros r r' Hr Hr'. unfold of_key in *.
      apply filter_In in Hr, Hr'. destruct Hr as (Hr & _), Hr' as ([<-|[]] & _).
      unfold others in Hr. apply in_map_iff in Hr. destruct Hr as (i & <- & Hi). apply in_seq in Hi.
      cbn [r_part first_only]. lia.
    - rewrite filter_app. apply Permutation_app_head.
      assert (X : all_attempts (length (c_orders (two_steps w))) (c_window (two_steps w))
                (of_key [] [first_only t (Z.of_nat (1 + n))]) = [[t]]).
      { unfold all_attempts, of_key, users. cbn [filter first_only r_key map r_part].
        destruct (gkey_dec [] []) as [_|D]; [|congruence]. generalize (Z.of_nat (1 + n)). intro u.
        cbn [map nodup]. match goal with |- context [in_dec ?d ?x ?l] => destruct (in_dec d x l) as [[]|_] end.
        cbn [flat_map]. unfold of_user, first_only. cbn [filter r_part]. rewrite Z.eqb_refl. reflexivity. }
      rewrite X. reflexivity. }
  assert (T : forall j, total (line_attempts (two_steps w) [] 0 (others t (S n))) j =
              total (line_attempts (two_steps w) [] 0 (others t n)) j + total [[t]] j).
  { intro j. unfold total, reaching. rewrite (Permutation_length (filter_perm _ _ _ P)), filter_app, app_length. lia. }
  rewrite !T, A, B. split; [|reflexivity]. change (total [[t]] 0) with 1. lia.
Qed.

Lemma converted_attempts : forall w t d, 0 <= d <= w ->
  line_attempts (two_steps w) [] 0 [first_only t 0; second (t + d) 0] = [[t; t + d]].
Proof.
  intros w t d H. unfold line_attempts, two_steps. cbn [c_orders length c_window].
  change (of_key [] [first_only t 0; second (t + d) 0]) with [first_only t 0; second (t + d) 0].
  unfold all_attempts. change (users [first_only t 0; second (t + d) 0]) with [0]. cbn [flat_map].
  change (of_user 0 [first_only t 0; second (t + d) 0]) with [first_only t 0; second (t + d) 0].
  unfold attempts, first_only, second. cbn [length attempts_fuel first_hit hits nth r_steps until excluded existsb r_excl orb r_ts].
  destruct (w <? t + d - t) eqn:E; [apply Z.ltb_lt in E; lia|].
  cbn. reflexivity.
Qed.

Lemma two_ordered : forall w, Ordered (two_steps w).
Proof.
  intro w. constructor; cbn; try discriminate; try reflexivity.
  - intros o [<-|[<-|[]]]; reflexivity.
  - intros e [].
Qed.

Lemma others_sorted : forall t n k, StronglySorted Z.le (map r_part (map (fun i => first_only t (Z.of_nat i)) (seq k n))).
Proof.
  intros t n. induction n as [|n IH]; intro k; cbn [seq map]; constructor.
  - apply IH.
  - rewrite map_map. apply Forall_forall. intros x Hx. apply in_map_iff in Hx.
    destruct Hx as (i & <- & Hi). apply in_seq in Hi. cbn [first_only r_part]. lia.
Qed.

Lemma two_workers_ok : forall w t d n, Workers (two_steps w) (two_workers t d (S n)).
Proof.
  intros w t d n. assert (NE : forall rows, (forall r, In r rows -> r_excl r = []) -> no_leading_excluded rows).
  { intros rows H u k r Hr. unfold excluded. rewrite H; [reflexivity|].
    destruct (of_key k (of_user u rows)) as [|x l] eqn:E; [discriminate|]. cbn in Hr. injection Hr as ->.
    assert (X : In r (of_key k (of_user u rows))) by (rewrite E; left; reflexivity).
    unfold of_key, of_user in X. apply filter_In in X. destruct X as (X & _). apply filter_In in X. apply X. }
  assert (HO : forall r, In r (others t (S n)) -> exists i, (1 <= i)%nat /\ r = first_only t (Z.of_nat i)).
  { intros r H. unfold others in H. apply in_map_iff in H. destruct H as (i & <- & Hi). apply in_seq in Hi.
    exists i. split; [lia|reflexivity]. }
  assert (CO : concat [others t (S n)] = others t (S n)) by (cbn [concat]; apply app_nil_r).
  constructor.
  - intros x [<-|[<-|[]]].
    + constructor; cbn.
      * intros b [<-|[]]. discriminate.
      * repeat constructor; lia.
      * intros r [<-|[<-|[]]]; cbn; lia.
      * intros r [<-|[<-|[]]]; split; reflexivity.
    + constructor; try rewrite CO.
      * intros b [<-|[]]. discriminate.
      * apply others_sorted.
      * intros r Hr. destruct (HO r Hr) as (i & _ & ->). cbn [first_only r_part]. lia.
      * intros r Hr. destruct (HO r Hr) as (i & _ & ->). split; reflexivity.
  - intros x [<-|[<-|[]]]; apply NE; unfold rows_of.
    + intros r [<-|[<-|[]]]; reflexivity.
    + rewrite CO. intros r Hr. destruct (HO r Hr) as (i & _ & ->). reflexivity.
  - assert (D : forall r r', In r (rows_of [[first_only t 0; second (t + d) 0]]) -> In r' (rows_of [others t (S n)]) ->
              r_part r <> r_part r').
    { intros r r' Hr Hr'. unfold rows_of in Hr'. rewrite CO in Hr'. destruct (HO r' Hr') as (i & Hi & ->).
      cbn [first_only r_part]. destruct Hr as [<-|[<-|[]]]; cbn [first_only second r_part]; lia. }
    intros [|[|i]] [|[|j]] wi wj r r' Hi Hj NEq Hr Hr'; try congruence;
      cbn [two_workers nth_error] in Hi, Hj; try (destruct i; discriminate); try (destruct j; discriminate).
    + injection Hi as <-. injection Hj as <-. exact (D r r' Hr Hr').
    + injection Hi as <-. injection Hj as <-. intro X. symmetry in X. exact (D r' r Hr' Hr X).
Qed.

(** C98: with several workers the ratio is not 100 * total / total of the first step: one user in
    [n]+2 converts and the report says 50, up to 10^-10. *)
Theorem C98_several_workers_refuted : forall pct rest w t d n, pct_close pct -> 0 <= d <= w ->
  Workers (two_steps w) (two_workers t d (S n)) /\
  exists out s0 s1, report pct rest (two_steps w) (two_workers t d (S n)) = Some out /\
    out = [([], 0, [s0; s1])] /\
    l_total s0 = Z.of_nat n + 2 /\ l_total s1 = 1 /\
    Z.abs (l_ratio s1 - 50 * unit_) <= 1000000.
Proof.
  intros pct rest w t d n PC Hd. assert (W := two_workers_ok w t d n). split; [exact W|].
  assert (O := two_ordered w). assert (NB : NoDup (c_buckets (two_steps w))).
  { repeat constructor. intros []. }
  destruct (C97_totals_partial pct rest (two_steps w) (two_workers t d (S n)) O NB W) as (out & E & ND & H).
  destruct W as [St Cl Sp].
  destruct (worker_part pct rest (two_steps w) _ O NB (St _ (or_introl eq_refl)) (Cl _ (or_introl eq_refl)))
    as (la & Ea & Ha).
  destruct (worker_part pct rest (two_steps w) _ O NB (St _ (or_intror (or_introl eq_refl)))
    (Cl _ (or_intror (or_introl eq_refl)))) as (lb & Eb & Hb).
  assert (ER : report pct rest (two_steps w) (two_workers t d (S n)) = Some (final 2 (la ++ lb))).
  { unfold report, two_workers. cbn [all_workers]. rewrite Ea, Eb. rewrite app_nil_r. reflexivity. }
  rewrite E in ER. injection ER as ->.
  assert (SA : same_key ([], 0) la = [columns pct rest ([], 0, line 2 [[t; t + d]])]).
  { rewrite Ha. change (rows_of [[first_only t 0; second (t + d) 0]]) with [first_only t 0; second (t + d) 0].
    rewrite converted_attempts by exact Hd. reflexivity. }
  destruct (others_attempts w t (S n)) as (A0 & A1).
  assert (CO : rows_of [others t (S n)] = others t (S n)) by (unfold rows_of; cbn [concat]; apply app_nil_r).
  assert (SB : same_key ([], 0) lb =
     [columns pct rest ([], 0, line 2 (line_attempts (two_steps w) [] 0 (others t (S n))))]).
  { rewrite Hb, CO, A0. reflexivity. }
  assert (OT : forall key b, (key, b) <> ([], 0) -> same_key (key, b) (la ++ lb) = []).
  { intros key b D. rewrite same_key_app. 
    assert (X : forall rows, (forall r, In r rows -> r_key r = []) -> key <> [] ->
      total (line_attempts (two_steps w) key b rows) 0 = 0).
    { intros rows K NK. unfold line_attempts. replace (of_key key rows) with (@nil Row); [reflexivity|].
      unfold of_key. symmetry. induction rows as [|r rows IH]; [reflexivity|]. cbn [filter].
      rewrite (K r (or_introl eq_refl)). destruct (gkey_dec [] key) as [<-|_]; [congruence|].
      apply IH. intros r' Hr'. apply K. right. exact Hr'. }
    rewrite Ha, Hb. destruct (in_dec Z.eq_dec b (c_buckets (two_steps w))) as [[<-|[]]|_]; [|reflexivity].
    assert (NK : key <> []) by congruence.
    rewrite !X; try exact NK; [reflexivity| |].
    - rewrite CO. intros r Hr. unfold others in Hr. apply in_map_iff in Hr. destruct Hr as (i & <- & _). reflexivity.
    - intros r [<-|[<-|[]]]; reflexivity. }
  set (ls := la ++ lb) in *.
  assert (SL : same_key ([], 0) ls = [columns pct rest ([], 0, line 2 [[t; t + d]]);
     columns pct rest ([], 0, line 2 (line_attempts (two_steps w) [] 0 (others t (S n))))]).
  { unfold ls. rewrite same_key_app, SA, SB. reflexivity. }
  assert (ONE : final 2 ls = [(([], 0), map (final_step (same_key ([], 0) ls)) (seq 0 2))]).
  { assert (I1 : In (([], 0), map (final_step (same_key ([], 0) ls)) (seq 0 2)) (final 2 ls)).
    { apply final_in. split; [rewrite SL; discriminate|reflexivity]. }
    assert (I2 : forall x, In x (final 2 ls) -> x = (([], 0), map (final_step (same_key ([], 0) ls)) (seq 0 2))).
    { intros [[key b] s] Hx. apply final_in in Hx. destruct Hx as (X & ->).
      destruct (fkey_dec (key, b) ([], 0)) as [Y|Y]; [rewrite Y; reflexivity|]. exfalso. exact (X (OT key b Y)). }
    clear -ND I1 I2. destruct (final 2 ls) as [|x [|y l]]; [destruct I1| |].
    - rewrite (I2 x (or_introl eq_refl)). reflexivity.
    - exfalso. cbn [map] in ND. apply NoDup_cons_iff in ND. destruct ND as (N1 & _). apply N1. left.
      rewrite (I2 x (or_introl eq_refl)), (I2 y (or_intror (or_introl eq_refl))). reflexivity. }
  exists (final 2 ls), (final_step (same_key ([], 0) ls) 0), (final_step (same_key ([], 0) ls) 1).
  split; [exact E|]. split; [exact ONE|].
  assert (L0 : line_step (line_attempts (two_steps w) [] 0 (others t (S n))) 0 =
     mkSR (total (line_attempts (two_steps w) [] 0 (others t (S n))) 0) 0 0 0) by reflexivity.
  assert (L1 : s_total (line_step (line_attempts (two_steps w) [] 0 (others t (S n))) 1) = 0) by exact A1.
  set (ob := line_attempts (two_steps w) [] 0 (others t (S n))) in *.
  rewrite SL. unfold final_step. cbn [map l_total l_ratio]. unfold nth_step, columns. cbn [snd].
  unfold line. cbn [seq map step_lines nth first_total]. unfold step_line. cbn [l_total l_ratio].
  rewrite L0, L1. cbn [s_total]. rewrite A0.
  change (s_total (line_step [[t; t + d]] 0)) with 1. change (s_total (line_step [[t; t + d]] 1)) with 1.
  unfold agg_sum, agg_avg, zsum. cbn [fold_right length]. unfold share. cbn [Z.ltb Z.compare].
  split; [lia|]. split; [reflexivity|].
  assert (Q := PC 1 1 ltac:(lia) ltac:(lia)). unfold is_quotient in Q.
  change (10 ^ 12) with 1000000000000 in Q. set (p := pct 1 1) in *. clearbody p.
  change (Z.of_nat 2) with 2. replace (p + (0 + 0)) with p by lia.
  unfold unit_ in *. rewrite Z.quot_div_nonneg by lia. 
  assert (DM := Z.div_mod p 2 ltac:(lia)). assert (MB := Z.mod_pos_bound p 2 ltac:(lia)). lia.
Qed.

(** *** C100: whose events a funnel counts *)
Definition move (p : Z) (e : Event) : Event := mkEvent p (e_user e) (e_ts e) (e_event e) (e_props e).

(** The answer is the one the project would get if every event of the database were its own. *)
Theorem C100_project_ignored_refuted : forall project q table,
  funnel_rows project q table = funnel_rows project q (map (move project) table).
Proof.
  intros project q table. unfold funnel_rows. induction table as [|e table IH]; [reflexivity|].
  cbn [map filter]. change (chosen q (move project e)) with (chosen q e).
  destruct (chosen q e); [|exact IH]. cbn [map]. rewrite IH. reflexivity.
Qed.

(** A project without events gets a count for the event of another project. *)
Theorem C100_counted_refuted : forall pct rest project e q c ref,
  e_project e <> project ->
  q_from q <= e_ts e <= q_to q -> q_filters q (e_props e) = true -> q_excl q = [] ->
  q_steps q = [[ref]] -> er_id ref = e_event e -> er_filters ref (e_props e) = true ->
  0 <= e_user e ->
  c = mkCfg [Exact] 0 [] false NonUnique None None [0] ->
  exists s, report pct rest c [[funnel_rows project q [e]]] = Some [(q_breakdowns q (e_props e), 0, [s])] /\
    l_total s = 1.
Proof.
  intros pct rest project e q c ref NP HT HF HX HS HI HR HU ->.
  assert (FR : funnel_rows project q [e] = [mkRow (e_user e) (e_ts e) (q_breakdowns q (e_props e)) [true] [] []]).
  { unfold funnel_rows. cbn [filter]. unfold chosen. rewrite HF.
    assert (A : q_from q <=? e_ts e = true) by lia. assert (B : e_ts e <=? q_to q = true) by lia.
    rewrite A, B. cbn [andb map]. unfold row_of. rewrite HS, HX. cbn [map existsb]. unfold is_event.
    rewrite HI, HR, Z.eqb_refl. reflexivity. }
  rewrite FR. set (key := q_breakdowns q (e_props e)). set (u := e_user e) in *. set (t := e_ts e).
  clearbody key u t. clear -HU.
  assert (F : funnel (mkCfg [Exact] 0 [] false NonUnique None None [0]) None
                [[mkRow u t key [true] [] []]] = Some [(key, 0, [mkSR 1 0 0 0])]).
  { unfold funnel. cbn [evaluate_all]. unfold evaluate. cbn [r_part f_cur funnel0].
    destruct (u <? 0) eqn:L; [lia|]. cbn -[Z.eqb].
    unfold guard_part. cbn [set_part new_group g_part r_part]. rewrite Z.eqb_refl. cbn. reflexivity. }
  unfold report. cbn [all_workers]. unfold worker. rewrite F. cbn [map app columns].
  unfold final. cbn [map nodup seq fkey fst]. cbn [length c_orders].
  match goal with |- context [in_dec ?d ?x ?l] => destruct (in_dec d x l) as [[]|_] end.
  cbn [map seq]. unfold same_key, fkey. cbn [filter fst].
  destruct (fkey_dec (key, 0) (key, 0)) as [_|D]; [|congruence].
  eexists. split; reflexivity.
Qed.

(** *** C101: the window *)
Theorem C101_window_partial : forall n,
  window_ms WHour n = Some (n * 60 * 60 * 1000) /\ window_ms WDay n = Some (n * 24 * 60 * 60 * 1000) /\
  window_ms WWeek n = Some (n * 7 * 24 * 60 * 60 * 1000) /\
  (* a month is its longest form, 31 days *)
  window_ms WMonth n = Some (n * 31 * 24 * 60 * 60 * 1000).
Proof. intro n. unfold window_ms, day_ms. split; [|split; [|split]]; f_equal; lia. Qed.

(** A year is 372 days, more than any calendar year has, so a conversion 370 days after the start
    counts; a session panics. *)
Theorem C101_year_refuted : forall n t d, 0 < n -> n * 366 * day_ms <= d <= n * 372 * day_ms ->
  exists w, window_ms WYear n = Some w /\
    line_attempts (two_steps w) [] 0 [first_only t 0; second (t + d) 0] = [[t; t + d]].
Proof.
  intros n t d Hn Hd. exists (n * 31 * 12 * day_ms). split; [reflexivity|]. apply converted_attempts.
  unfold day_ms in *. lia.
Qed.

Theorem C101_session_refuted : forall n, window_ms WSession n = None.
Proof. reflexivity. Qed.

(** *** Witnesses *)
(** Exact division (rounded down) and subtraction meet what is asked of the floating point
    expressions. *)
Definition exact_pct (a b : Z) : Z := a * hundred / b.
Definition exact_rest (r : Z) : Z := hundred - r.
Lemma exact_pct_close : pct_close exact_pct.
Proof.
  intros a b Ha Hb. unfold is_quotient, exact_pct.
  assert (DM := Z.div_mod (a * hundred) b ltac:(lia)). assert (MB := Z.mod_pos_bound (a * hundred) b Hb).
  replace (100 * a * unit_) with (a * hundred) by (unfold hundred; lia).
  assert (0 <= a * hundred) by (assert (0 < hundred) by reflexivity; nia).
  change (10 ^ 12) with 1000000000000. set (h := a * hundred) in *. clearbody h.
  set (d := h / b) in *. set (m := h mod b) in *. clearbody d m. 
  replace (d * b - h) with (- m) by lia. lia.
Qed.
Lemma exact_rest_close : rest_close exact_rest.
Proof. intros r _. unfold exact_rest. lia. Qed.

(** Users 0 (converted after 5 ms) and 1..3 (not converted) on two workers and on one. *)
Definition ex_two : list (list (list Row)) := two_workers 10 5 3.
Definition ex_one : list (list (list Row)) := [[[first_only 10 0; second 15 0]; others 10 3]].

Example C97_witness :
  Ordered (two_steps 100) /\ NoDup (c_buckets (two_steps 100)) /\ Workers (two_steps 100) ex_two /\
  report exact_pct exact_rest (two_steps 100) ex_two =
    Some [([], 0, [mkSL 4 hundred 0 0 0 0 0 0;
                   mkSL 1 (50 * unit_) (250 * unit_) (250 * unit_) 3 (50 * unit_) 5 5])].
Proof.
  split; [apply two_ordered|]. split; [repeat constructor; intros []|]. split; [apply two_workers_ok|].
  vm_compute. reflexivity.
Qed.

Lemma ex_one_workers : Workers (two_steps 100) ex_one.
Proof.
  constructor.
  - intros w [<-|[]]. constructor; cbn.
    + intros b [<-|[<-|[]]]; discriminate.
    + repeat constructor; lia.
    + intros r H. repeat destruct H as [<-|H]; try (cbn; lia); destruct H.
    + intros r H. repeat destruct H as [<-|H]; try (split; reflexivity); destruct H.
  - intros w [<-|[]] u k r H. unfold excluded.
    destruct (of_key k (of_user u (rows_of [[first_only 10 0; second 15 0]; others 10 3]))) as [|x l] eqn:E;
      [discriminate|]. cbn in H. injection H as ->.
    assert (X : In r (of_key k (of_user u (rows_of [[first_only 10 0; second 15 0]; others 10 3])))).
    { rewrite E. left. reflexivity. }
    unfold of_key, of_user in X. apply filter_In in X. destruct X as (X & _). apply filter_In in X.
    destruct X as (X & _). repeat destruct X as [<-|X]; try reflexivity. destruct X.
  - intros [|i] [|j] wi wj r r' Hi Hj D; try congruence; cbn [ex_one nth_error] in *;
      [destruct j|destruct i|destruct i]; discriminate.
Qed.

(** With one worker the ratio is 25 and the averages are a hundred times too large. *)
Example C98_witness :
  Workers (two_steps 100) ex_one /\ pct_close exact_pct /\ rest_close exact_rest /\
  report exact_pct exact_rest (two_steps 100) ex_one =
    Some [([], 0, [mkSL 4 hundred 0 0 0 0 0 0;
                   mkSL 1 (25 * unit_) (500 * unit_) (500 * unit_) 3 (75 * unit_) 5 5])] /\
  (forall u, of_user u (all_rows ex_one) = of_user u (all_rows ex_two)).
Proof.
  split; [exact ex_one_workers|]. split; [exact exact_pct_close|]. split; [exact exact_rest_close|].
  split; [vm_compute; reflexivity|reflexivity].
Qed.

Example C99_witness : is_quotient (500 * unit_) (100 * 5) 1 /\ ~ is_quotient (500 * unit_) 5 1 /\
  is_quotient (5 * unit_) 5 1.
Proof.
  split; [vm_compute; discriminate|]. split; [|vm_compute; discriminate].
  intro X. revert X. vm_compute. intro X. apply X. reflexivity.
Qed.

(** Project 1 asks, project 2 owns the event. *)
Definition ex_event : Event := mkEvent 2 7 50 1 [].
Definition ex_req : Request :=
  mkReq 0 100 (fun _ => true) [[mkRef 1 (fun _ => true)]] [] (fun _ => []).
Example C100_witness :
  funnel_rows 1 ex_req [ex_event] = [mkRow 7 50 [] [true] [] []] /\
  report exact_pct exact_rest (mkCfg [Exact] 0 [] false NonUnique None None [0])
    [[funnel_rows 1 ex_req [ex_event]]] = Some [([], 0, [mkSL 1 hundred 0 0 0 0 0 0])].
Proof. vm_compute. repeat split; reflexivity. Qed.

Example C101_witness :
  1 * 366 * day_ms <= 370 * day_ms <= 1 * 372 * day_ms /\ window_ms WYear 1 = Some (372 * day_ms).
Proof. vm_compute. repeat split; discriminate. Qed.

Print Assumptions C97_totals_partial.
Print Assumptions C97_any_distribution_partial.
Print Assumptions C98_one_worker_partial.
Print Assumptions C98_several_workers_refuted.
Print Assumptions C99_average_time_refuted.
Print Assumptions C100_project_ignored_refuted.
Print Assumptions C100_counted_refuted.
Print Assumptions C101_window_partial.
Print Assumptions C101_year_refuted.
Print Assumptions C101_session_refuted.

(** The full statement of C97 fails: user [u] starts the funnel, user [v] does an excluded
    event.  On two workers the attempt of [u] is counted, on one it is not. *)
Theorem C97_same_worker_refuted : forall pct rest u v t t' w,
  0 <= u -> u < v ->
  let c := mkCfg [Exact; Exact] w [None] false NonUnique None None [0] in
  let a := mkRow u t [] [true; false] [false] [] in
  let b := mkRow v t' [] [false; false] [true] [] in
  (exists l, report pct rest c [[[a]]; [[b]]] = Some [l] /\ counts_of l = ([], 0, [mkSR 1 0 0 0; mkSR 0 1 0 0])) /\
  report pct rest c [[[a; b]]] = Some [].
Proof.
  intros pct rest u v t t' w Hu Hv c a b. destruct (C49_other_users_refuted u v t t' w Hu Hv) as [E1 E2]. fold c in E1, E2. fold a in E1, E2. fold b in E2.
  assert (E3 : funnel c None [[b]] = Some []).
  { assert (A : (v <? 0) = false) by lia. assert (B : (v =? v) = true) by lia. unfold b, funnel. cbn [evaluate_all evaluate r_part funnel0 f_cur]. rewrite A.
    cbn [eval_rows funnel0 f_skip f_groups f_cur r_key r_part more aget andb]. unfold do_row, guard_attempt, guard_const, guard_part.
    cbn [new_group g_first set_part g_cur Nat.eqb c_consts g_part r_part c]. rewrite B. reflexivity. }
  unfold report. cbn [all_workers]. unfold worker. rewrite E1, E2, E3. split; [|reflexivity].
  cbn [map app]. eexists. split; reflexivity.
Qed.
Print Assumptions C97_same_worker_refuted.
