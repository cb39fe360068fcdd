(** Facts about the two stages of a report. *)
From Coq Require Import List ZArith QArith Qcanon Bool Arith Lia.
From Verif Require Import AMap Aggregate AggSpec AggFacts Report.
Import ListNotations.

(** ** Groups appear once *)
Section Keys.
Context {R : Type}.
Variable c : Columns R.
Variables lo hi : Qc.

Lemma pcount_rows_keys f d e ex rows st st' :
  NoDup (akeys (fst st)) -> pcount_rows c lo hi f d e ex rows st = Some st' -> NoDup (akeys (fst st')).
Proof.
  revert st. induction rows as [|r rows IH]; intros [gs s] H E; cbn [pcount_rows] in E; [now injection E as <-|].
  destruct (c_part c r) as [p|]; [|discriminate].
  destruct (s && Z.eqb p 0)%bool; [eapply IH; [|exact E]; exact H|].
  destruct (negb (in_segment ex p)); [eapply IH; [|exact E]; exact H|].
  destruct (pgroup_row c d e r p _) as [g s']. eapply IH; [|exact E]. cbn [fst]. apply aset_NoDup. exact H.
Qed.
Lemma pcount_all_keys f d e ex bs st st' :
  NoDup (akeys (fst st)) -> pcount_all c lo hi f d e ex bs st = Some st' -> NoDup (akeys (fst st')).
Proof.
  revert st. induction bs as [|b bs IH]; intros st H E; cbn [pcount_all] in E; [now injection E as <-|].
  destruct (pcount_rows c lo hi f d e ex b st) as [s1|] eqn:E1; [|discriminate].
  eapply IH; [|exact E]. eapply pcount_rows_keys; [|exact E1]. exact H.
Qed.
Lemma pagg_rows_keys fi fo ex rows st st' :
  NoDup (akeys (fst st)) -> pagg_rows c lo hi fi fo ex rows st = Some st' -> NoDup (akeys (fst st')).
Proof.
  revert st. induction rows as [|r rows IH]; intros [gs s] H E; cbn [pagg_rows] in E; [now injection E as <-|].
  destruct (c_part c r) as [p|]; [|discriminate].
  destruct (s && Z.eqb p 0)%bool; [eapply IH; [|exact E]; exact H|].
  destruct (negb (in_segment ex p)); [eapply IH; [|exact E]; exact H|].
  eapply IH; [|exact E]. cbn [fst]. apply aset_NoDup. exact H.
Qed.
Lemma pagg_all_keys fi fo ex bs st st' :
  NoDup (akeys (fst st)) -> pagg_all c lo hi fi fo ex bs st = Some st' -> NoDup (akeys (fst st')).
Proof.
  revert st. induction bs as [|b bs IH]; intros st H E; cbn [pagg_all] in E; [now injection E as <-|].
  destruct (pagg_rows c lo hi fi fo ex b st) as [s1|] eqn:E1; [|discriminate].
  eapply IH; [|exact E]. eapply pagg_rows_keys; [|exact E1]. exact H.
Qed.
Lemma worker_keys m keep ex batches res :
  report_worker c lo hi m keep ex batches = Some res -> NoDup (akeys res).
Proof.
  unfold report_worker, metric_worker. destruct m; intros E.
  - injection E as <-. rewrite count_all_fold. apply (group_fold_NoDup (c_key c)). constructor.
  - destruct (pcount_all c lo hi Cnt true false ex (map (filter keep) batches) ([], false)) as [st|] eqn:E1; [|discriminate].
    cbn in E. injection E as <-. rewrite akeys_group_map. eapply pcount_all_keys; [|exact E1]. constructor.
  - destruct (pcount_all c lo hi f false (is_dec128 f) ex (map (filter keep) batches) ([], false)) as [st|] eqn:E1; [|discriminate].
    cbn in E. injection E as <-. rewrite akeys_group_map. eapply pcount_all_keys; [|exact E1]. constructor.
  - injection E as <-. rewrite akeys_group_map, agg_all_fold. apply (group_fold_NoDup (c_key c)). constructor.
  - destruct (pagg_all c lo hi inner outer ex (map (filter keep) batches) ([], false)) as [st|] eqn:E1; [|discriminate].
    cbn in E. injection E as <-. rewrite akeys_group_map. eapply pagg_all_keys; [|exact E1]. constructor.
Qed.
End Keys.

Lemma of_group_app {R} (key : R -> QKey) k a b : of_group key k (a ++ b) = (of_group key k a ++ of_group key k b)%list.
Proof. unfold of_group. apply filter_app. Qed.
Lemma of_group_concat {R} (key : R -> QKey) k ls : of_group key k (concat ls) = concat (map (of_group key k) ls).
Proof. induction ls as [|l ls IH]; [reflexivity|]. cbn [concat map]. now rewrite of_group_app, IH. Qed.

(** ** The final stage *)
Definition fkey (r : PRow) : QKey := pr_seg r :: pr_key r.
Definition column (i : nat) (rows : list PRow) : list Qc := map (fun r => nth i (pr_vals r) 0%Qc) rows.

Lemma final_cell_eq lo hi m i tables seg k :
  final_cell lo hi m i tables seg k =
  match column i (of_group fkey (seg :: k) (concat tables)) with
  | [] => None
  | vs => Some (result (acc_all (make_new lo hi (combine_fn (op_of m))) vs))
  end.
Proof.
  unfold final_cell. rewrite agg_all_fold. rewrite filter_id by reflexivity.
  unfold agg_step. rewrite group_fold. change (c_key (final_cols i)) with fkey.
  destruct (of_group fkey (seg :: k) (concat tables)) as [|r rs]; [reflexivity|].
  cbn [column map]. cbn [option_map]. f_equal. f_equal. unfold entry. cbn [aget].
  change (nth i (pr_vals r) 0%Qc :: map (fun r0 => nth i (pr_vals r0) 0%Qc) rs) with (column i (r :: rs)).
  generalize (make_new lo hi (combine_fn (op_of m))) as a. generalize (r :: rs) as l. clear.
  induction l as [|x l IH]; intros a; [reflexivity|]. cbn [fold_left column map acc_all]. apply IH.
Qed.

Lemma of_group_result (mk : QKey * Qc -> PRow) seg k a :
  (forall kv, pr_seg (mk kv) = seg /\ pr_key (mk kv) = fst kv) -> NoDup (akeys a) ->
  of_group fkey (seg :: k) (map mk a) = match aget qkey_dec k a with None => [] | Some v => [mk (k, v)] end.
Proof.
  intros Hmk. induction a as [|[k1 v1] a IH]; intros H; [reflexivity|].
  cbn in H. inversion H; subst. cbn [map]. rewrite of_group_cons. unfold fkey at 1.
  destruct (Hmk (k1, v1)) as [S1 K1]. cbn [fst] in K1. cbn [aget].
  destruct (qkey_dec (pr_seg (mk (k1, v1)) :: pr_key (mk (k1, v1))) (seg :: k)) as [X|X]; rewrite S1, K1 in X.
  - injection X as X. subst k1. destruct (qkey_dec k k) as [_|Y]; [|congruence]. rewrite IH by assumption. f_equal.
    destruct (aget qkey_dec k a) eqn:E; [|reflexivity]. exfalso. apply H2.
    change (In k (akeys a)). apply (aget_In qkey_dec). eauto.
  - destruct (qkey_dec k k1) as [Y|_]; [congruence|]. now apply IH.
Qed.
Lemma of_group_other (mk : QKey * Qc -> PRow) seg seg' k a :
  (forall kv, pr_seg (mk kv) = seg) -> seg' <> seg -> of_group fkey (seg' :: k) (map mk a) = [].
Proof.
  intros Hmk N. induction a as [|x a IH]; [reflexivity|]. cbn [map]. rewrite of_group_cons. unfold fkey at 1.
  destruct (qkey_dec (pr_seg (mk x) :: pr_key (mk x)) (seg' :: k)) as [X|_]; [|exact IH].
  injection X as X _. rewrite Hmk in X. congruence.
Qed.
Lemma nth_one_hot n i p v : (p < n)%nat -> nth p (one_hot n i v) 0%Qc = if Nat.eqb i p then v else 0%Qc.
Proof.
  intros H. unfold one_hot. set (f := fun j => if Nat.eqb i j then v else 0%Qc).
  rewrite (nth_indep _ 0%Qc (f 0%nat)) by (rewrite map_length, seq_length; exact H).
  rewrite (map_nth f), seq_nth by exact H. reflexivity.
Qed.

(** what the column of metric [p] gets from the results [ress] of the metrics from [j] on *)
Fixpoint cells (p : nat) (k : QKey) (j : nat) (ress : list (list (QKey * Qc))) : list Qc :=
  match ress with
  | [] => []
  | res :: tl =>
    (match aget qkey_dec k res with None => [] | Some v => [if Nat.eqb j p then v else 0%Qc] end
     ++ cells p k (S j) tl)%list
  end.

Section Stage.
Context {R : Type}.
Variables lo hi : Qc.
Notation results ex keep ms w := (Forall2 (fun cm res => report_worker (fst cm) lo hi (snd cm) keep ex w = Some res) ms).

Lemma partial_metrics_spec n ex keep (ms : list (Columns R * Metric)) w seg :
  forall i t, partial_metrics lo hi n i seg ex keep ms w = Some t -> (i + length ms <= n)%nat ->
  exists ress, results ex keep ms w ress /\
    (forall p k, (p < n)%nat -> column p (of_group fkey (seg :: k) t) = cells p k i ress) /\
    (forall seg' k, seg' <> seg -> of_group fkey (seg' :: k) t = []).
Proof.
  induction ms as [|[c m] ms IH]; intros i t E Hn; cbn [partial_metrics] in E.
  - injection E as <-. exists []. split; [constructor|]. split; reflexivity.
  - destruct (report_worker c lo hi m keep ex w) as [a|] eqn:Ea; [|discriminate].
    destruct (partial_metrics lo hi n (S i) seg ex keep ms w) as [b|] eqn:Eb; [|discriminate].
    injection E as <-. cbn [length] in Hn.
    destruct (IH (S i) b Eb) as (ress & HR & HC & HO); [lia|].
    exists (a :: ress). split; [constructor; [exact Ea|exact HR]|]. split.
    + intros p k Hp. rewrite of_group_app. unfold column. rewrite map_app.
      change (map (fun r => nth p (pr_vals r) 0%Qc) (of_group fkey (seg :: k) b)) with (column p (of_group fkey (seg :: k) b)).
      rewrite (HC p k Hp). cbn [cells]. f_equal.
      rewrite of_group_result; [|intros kv; split; reflexivity|eapply worker_keys; exact Ea].
      destruct (aget qkey_dec k a) as [v|]; [|reflexivity]. cbn [map pr_vals snd]. now rewrite nth_one_hot.
    + intros seg' k N. rewrite of_group_app, (HO seg' k N), app_nil_r. now apply (of_group_other _ seg).
Qed.
Lemma partial_segments_spec keep (ms : list (Columns R * Metric)) w segs :
  forall s t, partial_segments lo hi s segs keep ms w = Some t ->
  (forall seg' k, (seg' < s)%Z -> of_group fkey (seg' :: k) t = []) /\
  forall j ex, nth_error segs j = Some ex ->
  exists ress, results ex keep ms w ress /\
    forall p k, (p < length ms)%nat -> column p (of_group fkey ((s + Z.of_nat j)%Z :: k) t) = cells p k 0 ress.
Proof.
  induction segs as [|e segs IH]; intros s t E; cbn [partial_segments] in E.
  - injection E as <-. split; [reflexivity|]. intros [|j] ex H; discriminate.
  - destruct (partial_metrics lo hi (length ms) 0 s e keep ms w) as [a|] eqn:Ea; [|discriminate].
    destruct (partial_segments lo hi (s + 1) segs keep ms w) as [b|] eqn:Eb; [|discriminate].
    injection E as <-. destruct (IH (s + 1)%Z b Eb) as [Hlow Hseg].
    destruct (partial_metrics_spec (length ms) e keep ms w s 0 a Ea) as (ress & HR & HC & HO); [lia|].
    split.
    + intros seg' k L. rewrite of_group_app, HO by lia. rewrite Hlow by lia. reflexivity.
    + intros [|j] ex Hj; cbn [nth_error] in Hj.
      * injection Hj as ->. exists ress. split; [exact HR|]. intros p k Hp.
        replace (s + Z.of_nat 0)%Z with s by lia. rewrite of_group_app, (Hlow s k) by lia. rewrite app_nil_r. now apply HC.
      * destruct (Hseg j ex Hj) as (ress2 & HR2 & HC2). exists ress2. split; [exact HR2|]. intros p k Hp.
        replace (s + Z.of_nat (S j))%Z with (s + 1 + Z.of_nat j)%Z by lia.
        rewrite of_group_app, HO by lia. cbn [app]. now apply HC2.
Qed.
Lemma all_workers_spec segs keep (ms : list (Columns R * Metric)) j ex :
  nth_error segs j = Some ex ->
  forall workers tables, all_workers lo hi segs keep ms workers = Some tables ->
  exists resss, Forall2 (fun w ress => results ex keep ms w ress) workers resss /\
    forall p k, (p < length ms)%nat ->
      column p (of_group fkey (Z.of_nat j :: k) (concat tables)) = flat_map (cells p k 0) resss.
Proof.
  intros Hj. induction workers as [|w ws IH]; intros tables E; cbn [all_workers] in E.
  - injection E as <-. exists []. split; [constructor|reflexivity].
  - destruct (partial_segments lo hi 0 segs keep ms w) as [t|] eqn:Et; [|discriminate].
    destruct (all_workers lo hi segs keep ms ws) as [ts|] eqn:Ets; [|discriminate]. injection E as <-.
    destruct (IH ts eq_refl) as (resss & HR & HC).
    destruct (proj2 (partial_segments_spec keep ms w segs 0%Z t Et) j ex Hj) as (ress & HR1 & HC1).
    exists (ress :: resss). split; [now constructor|]. intros p k Hp. cbn [concat flat_map].
    rewrite of_group_app. unfold column. rewrite map_app. f_equal; [apply (HC1 p k Hp)|apply (HC p k Hp)].
Qed.
Lemma report_spec segs keep (ms : list (Columns R * Metric)) workers i c m j ex k cell :
  nth_error ms i = Some (c, m) -> nth_error segs j = Some ex ->
  report lo hi segs keep ms workers i (Z.of_nat j) k = Some cell ->
  exists resss, Forall2 (fun w ress => results ex keep ms w ress) workers resss /\
    cell = match flat_map (cells i k 0) resss with
           | [] => None
           | vs => Some (result (acc_all (make_new lo hi (combine_fn (op_of m))) vs))
           end.
Proof.
  intros Hi Hj E. unfold report in E. rewrite Hi in E.
  destruct (all_workers lo hi segs keep ms workers) as [tables|] eqn:Et; [|discriminate]. injection E as <-.
  destruct (all_workers_spec segs keep ms j ex Hj workers tables Et) as (resss & HR & HC).
  exists resss. split; [exact HR|]. rewrite final_cell_eq, HC; [reflexivity|].
  apply nth_error_Some. congruence.
Qed.

(** the report succeeds when every worker can compute every metric for every segment *)
Lemma report_succeeds segs keep (ms : list (Columns R * Metric)) workers i seg k :
  (i < length ms)%nat ->
  (forall cm ex w, In cm ms -> In ex segs -> In w workers -> exists res, report_worker (fst cm) lo hi (snd cm) keep ex w = Some res) ->
  exists cell, report lo hi segs keep ms workers i seg k = Some cell.
Proof.
  intros Hi H. unfold report. destruct (nth_error ms i) as [[c m]|] eqn:Em.
  2:{ apply nth_error_None in Em. lia. }
  assert (PM : forall ex w ms0 n i0 s, (forall cm, In cm ms0 -> exists res, report_worker (fst cm) lo hi (snd cm) keep ex w = Some res) ->
            exists t, partial_metrics lo hi n i0 s ex keep ms0 w = Some t).
  { intros ex w. induction ms0 as [|[c0 m0] ms0 IH]; intros n i0 s H0; cbn [partial_metrics]; [eauto|].
    destruct (H0 (c0, m0) (or_introl eq_refl)) as [a Ha]. cbn [fst snd] in Ha. rewrite Ha.
    destruct (IH n (S i0) s) as [b Hb]; [intros cm Hcm; apply H0; now right|]. rewrite Hb. eauto. }
  assert (PS : forall w, In w workers -> forall segs0 s, incl segs0 segs -> exists t, partial_segments lo hi s segs0 keep ms w = Some t).
  { intros w Hw. induction segs0 as [|e segs0 IH]; intros s HI; cbn [partial_segments]; [eauto|].
    destruct (PM e w ms (length ms) 0%nat s) as [a Ha]; [intros cm Hcm; apply H; [exact Hcm|apply HI; now left|exact Hw]|]. rewrite Ha.
    destruct (IH (s + 1)%Z) as [b Hb]; [intros x Hx; apply HI; now right|]. rewrite Hb. eauto. }
  assert (AW : forall ws, incl ws workers -> exists ts, all_workers lo hi segs keep ms ws = Some ts).
  { induction ws as [|w ws IH]; intros HI; cbn [all_workers]; [eauto|].
    destruct (PS w (HI w (or_introl eq_refl)) segs 0%Z (incl_refl _)) as [t Ht]. rewrite Ht.
    destruct IH as [ts Hts]; [intros x Hx; apply HI; now right|]. rewrite Hts. eauto. }
  destruct (AW workers (incl_refl _)) as [ts ->]. eauto.
Qed.
(** and fails otherwise *)
Lemma report_needs segs keep (ms : list (Columns R * Metric)) workers i seg k cell :
  report lo hi segs keep ms workers i seg k = Some cell ->
  forall cm ex w, In cm ms -> In ex segs -> In w workers -> exists res, report_worker (fst cm) lo hi (snd cm) keep ex w = Some res.
Proof.
  unfold report. destruct (nth_error ms i) as [[c m]|]; [|discriminate].
  destruct (all_workers lo hi segs keep ms workers) as [ts|] eqn:E; [|discriminate]. intros _ cm ex w Hcm Hex Hw.
  apply In_nth_error in Hex. destruct Hex as [j Hj].
  destruct (all_workers_spec segs keep ms j ex Hj workers ts E) as (resss & HR & _).
  clear -HR Hw Hcm. induction HR as [|w0 ress ws resss H HR IH]; [destruct Hw|].
  destruct Hw as [->|Hw]; [|auto]. clear -H Hcm. induction H as [|cm0 res ms ress H HR IH]; [destruct Hcm|].
  destruct Hcm as [->|Hcm]; [eauto|auto].
Qed.
End Stage.

(** ** Combining *)
Lemma qsum_app a b : qsum (a ++ b) = (qsum a + qsum b)%Qc.
Proof.
  induction a as [|x a IH]; cbn [app]; [change (qsum []) with 0%Qc; ring|].
  change (qsum (x :: (a ++ b)%list)) with (x + qsum (a ++ b))%Qc. change (qsum (x :: a)) with (x + qsum a)%Qc.
  rewrite IH. ring.
Qed.
Lemma qlen_app {A} (a b : list A) : qlen (a ++ b) = (qlen a + qlen b)%Qc.
Proof. unfold qlen. now rewrite app_length, qc_nat_add. Qed.

Lemma acc_is_agg_sel lo hi f l :
  (f = Min \/ f = Max -> forall x, In x l -> (lo <= x)%Qc /\ (x <= hi)%Qc) ->
  is_agg f l (result (acc_all (make_new lo hi f) l)).
Proof.
  intros B. destruct f.
  - cbn [make_new is_agg]. rewrite acc_sum. cbn [result]. ring.
  - apply acc_is_agg. apply B. now left.
  - apply acc_is_agg. apply B. now right.
  - cbn [make_new is_agg]. intros Hne. rewrite acc_avg. cbn [result]. apply qlen_nonzero in Hne. field.
    replace (0 + qlen l)%Qc with (qlen l) by ring. exact Hne.
  - cbn [make_new is_agg]. rewrite acc_cnt. cbn [result]. ring.
Qed.

(** aggregates of parts combine to the aggregate of the whole, except for averages *)
Lemma combine_agg f ls vs v :
  f <> Avg -> Forall2 (fun l x => l <> [] /\ is_agg f l x) ls vs -> is_agg (combine_fn f) vs v -> is_agg f (concat ls) v.
Proof.
  intros Hf H. destruct f; [| | |congruence|]; cbn [combine_fn is_agg].
  - intros ->. clear Hf. induction H as [|l x ls vs (_ & H) HF IH]; [reflexivity|]. cbn [concat].
    change (qsum (x :: vs)) with (x + qsum vs)%Qc. cbn [is_agg] in H. now rewrite qsum_app, IH, H.
  - intros Hv Hne. assert (Hvs : vs <> []) by (intros ->; inversion H; subst; now apply Hne).
    destruct (Hv Hvs) as [Hin Hle]. clear Hv Hvs Hne.
    split.
    + clear Hle. induction H as [|l x ls vs0 (N & H) HF IH]; [destruct Hin|]. cbn [concat]. apply in_or_app.
      destruct Hin as [<-|Hin]; [left; apply (H N)|right; auto].
    + intros x Hx. apply in_concat in Hx. destruct Hx as (l & Hl & Hx).
      clear Hin. revert Hle. induction H as [|l0 x0 ls vs0 (N & H) HF IH]; intros Hle; [destruct Hl|].
      destruct Hl as [->|Hl].
      * apply Qcle_trans with x0; [apply Hle; now left|]. now apply (H N).
      * apply IH; [exact Hl|]. intros y Hy. apply Hle. now right.
  - intros Hv Hne. assert (Hvs : vs <> []) by (intros ->; inversion H; subst; now apply Hne).
    destruct (Hv Hvs) as [Hin Hle]. clear Hv Hvs Hne.
    split.
    + clear Hle. induction H as [|l x ls vs0 (N & H) HF IH]; [destruct Hin|]. cbn [concat]. apply in_or_app.
      destruct Hin as [<-|Hin]; [left; apply (H N)|right; auto].
    + intros x Hx. apply in_concat in Hx. destruct Hx as (l & Hl & Hx).
      clear Hin. revert Hle. induction H as [|l0 x0 ls vs0 (N & H) HF IH]; intros Hle; [destruct Hl|].
      destruct Hl as [->|Hl].
      * apply Qcle_trans with x0; [|apply Hle; now left]. now apply (H N).
      * apply IH; [exact Hl|]. intros y Hy. apply Hle. now right.
  - intros ->. clear Hf. induction H as [|l x ls vs (_ & H) HF IH]; [reflexivity|]. cbn [concat].
    change (qsum (x :: vs)) with (x + qsum vs)%Qc. cbn [is_agg] in H. now rewrite qlen_app, IH, H.
Qed.

(** A report with one metric over any number of workers. *)
Lemma combine_single {R} lo hi (c : Columns R) m keep segs j ex workers k (L : list (list R) -> list Qc) cell :
  op_of m <> Avg ->
  nth_error segs j = Some ex ->
  (forall w res, In w workers -> report_worker c lo hi m keep ex w = Some res ->
     match L w with
     | [] => aget qkey_dec k res = None
     | l => exists v, aget qkey_dec k res = Some v /\ is_agg (op_of m) l v
     end) ->
  (op_of m = Min \/ op_of m = Max -> forall w x, In w workers -> In x (L w) -> (lo <= x)%Qc /\ (x <= hi)%Qc) ->
  report lo hi segs keep [(c, m)] workers 0 (Z.of_nat j) k = Some cell ->
  match concat (map L workers) with
  | [] => cell = None
  | l => exists v, cell = Some v /\ is_agg (op_of m) l v
  end.
Proof.
  intros Hm Hj HL HB HE.
  destruct (report_spec lo hi segs keep [(c, m)] workers 0 c m j ex k cell eq_refl Hj HE) as (resss & HR & ->).
  clear HE. set (vs := flat_map (cells 0 k 0) resss).
  assert (X : Forall2 (fun l x => l <> [] /\ is_agg (op_of m) l x)
                (filter (fun l => match l with [] => false | _ => true end) (map L workers)) vs).
  { unfold vs. clear vs HB. revert HL. induction HR as [|w ress ws resss H HR IH]; intros HL; [constructor|].
    inversion H as [|? res ? ress' Hres HN]; subst. inversion HN; subst. clear H HN. cbn [fst snd] in Hres.
    specialize (IH (fun w' res' Hw' => HL w' res' (or_intror Hw'))).
    specialize (HL w res (or_introl eq_refl) Hres).
    cbn [map filter flat_map cells]. rewrite app_nil_r. destruct (L w) as [|x l].
    - rewrite HL. exact IH.
    - destruct HL as (v & -> & Hv). cbn [Nat.eqb app]. constructor; [|exact IH]. split; [discriminate|exact Hv]. }
  assert (CC : forall ls : list (list Qc), concat (filter (fun l => match l with [] => false | _ => true end) ls) = concat ls).
  { induction ls as [|[|x l] ls IH]; [reflexivity|exact IH|]. cbn. now rewrite IH. }
  assert (B : combine_fn (op_of m) = Min \/ combine_fn (op_of m) = Max -> forall x, In x vs -> (lo <= x)%Qc /\ (x <= hi)%Qc).
  { intros Hf x Hx. assert (Hf' : op_of m = Min \/ op_of m = Max) by (destruct (op_of m); cbn in Hf; destruct Hf; try discriminate; auto).
    assert (Hs : forall l, In l (filter (fun l => match l with [] => false | _ => true end) (map L workers)) -> forall y, In y l -> (lo <= y)%Qc /\ (y <= hi)%Qc).
    { intros l Hl y Hy. apply filter_In in Hl. destruct Hl as [Hl _]. apply in_map_iff in Hl. destruct Hl as (w & <- & Hw). eauto. }
    clear -X Hx Hf' Hs. induction X as [|l y ls vs (N & H) HF IH]; [destruct Hx|]. destruct Hx as [->|Hx].
    - apply (Hs l (or_introl eq_refl)). destruct Hf' as [E|E]; rewrite E in H; apply (H N).
    - apply IH; [exact Hx|]. intros l' Hl'. apply Hs. now right. }
  pose proof (acc_is_agg_sel lo hi (combine_fn (op_of m)) vs B) as A.
  pose proof (combine_agg (op_of m) _ vs _ Hm X A) as G. rewrite CC in G.
  destruct (concat (map L workers)) as [|y ys] eqn:EC.
  - destruct vs as [|v0 vs']; [reflexivity|]. exfalso. inversion X as [|l x ls vs0 (N & _) HF EL]; subst.
    rewrite <- CC, <- EL in EC. cbn in EC. destruct l; [congruence|discriminate].
  - destruct vs as [|v0 vs'].
    + exfalso. inversion X as [EL|]; subst. rewrite <- CC, <- EL in EC. discriminate.
    + eexists. split; [reflexivity|exact G].
Qed.
