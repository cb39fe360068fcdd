(** C52-C54, C77-C79: what the metrics of an event report count. *)
From Coq Require Import List ZArith QArith Qcanon Bool Arith Lia Sorting.Sorted.
From Verif Require Import AMap Aggregate AggSpec AggFacts.
Import ListNotations.

Lemma concat_map_filter {R} (f : R -> bool) bs : concat (map (filter f) bs) = filter f (concat bs).
Proof. induction bs as [|b bs IH]; [reflexivity|]. cbn. now rewrite filter_app, IH. Qed.
Lemma in_segment_spec ex p : in_segment ex p = true <-> forall us, ex = Some us -> In p us.
Proof.
  unfold in_segment. destruct ex as [us|]; [|split; [discriminate|reflexivity]].
  rewrite existsb_exists. split.
  - intros (x & Hx & E) us' [= <-]. apply Z.eqb_eq in E. now subst.
  - intros H. exists p. split; [now apply H|apply Z.eqb_refl].
Qed.
Lemma passes_spec {R} (c : Columns R) r : passes c r = true <-> forall f, c_filter c = Some f -> f r = Some true.
Proof.
  unfold passes. destruct (c_filter c) as [f|]; [|split; [discriminate|reflexivity]]. split.
  - intros H g [= <-]. destruct (f r) as [[]|]; congruence.
  - intros H. now rewrite (H f eq_refl).
Qed.
Lemma segment_rows_filter {R} (user : R -> Z) ex rows : segment_rows user ex rows = filter (in_seg user ex) rows.
Proof.
  unfold segment_rows. apply filter_ext. intros r. unfold in_seg, in_segment. destruct ex as [us|]; [|reflexivity].
  destruct (in_dec Z.eq_dec (user r) us) as [H|H].
  - symmetry. apply existsb_exists. exists (user r). split; [exact H|apply Z.eqb_refl].
  - symmetry. apply not_true_iff_false. rewrite existsb_exists. intros (x & Hx & E). apply Z.eqb_eq in E. congruence.
Qed.
Lemma filter_ext_in_ {A} (f g : A -> bool) l : (forall x, In x l -> f x = g x) -> filter f l = filter g l.
Proof.
  induction l as [|x l IH]; intros H; [reflexivity|]. cbn. rewrite (H x (or_introl eq_refl)).
  rewrite IH; [reflexivity|]. intros y Hy. apply H. now right.
Qed.
Lemma bool_iff a b : (a = true <-> b = true) -> a = b.
Proof. destruct a, b; intros [X Y]; auto; try (symmetry; now auto); now (rewrite X || rewrite Y). Qed.

Section Counted.
Context {R : Type}.
Variable c : Columns R.
Variables (keep : R -> bool) (ex : option (list Z)) (batches : list (list R)) (user : R -> Z) (matching : R -> bool).
Hypothesis HU : ex = None \/ forall r, In r (concat batches) -> c_part c r = Some (user r).
Hypothesis HM : forall r, matching r = true <->
  keep r = true /\ (forall us, ex = Some us -> In (user r) us) /\
  (forall f, c_filter c = Some f -> f r = Some true) /\ c_val c r <> None.

Lemma counted_rows : filter (counted c ex) (concat (map (filter keep) batches)) = filter matching (concat batches).
Proof.
  rewrite concat_map_filter, filter_filter. apply filter_ext_in_. intros r Hr. apply bool_iff.
  rewrite HM. unfold counted. rewrite !andb_true_iff, passes_spec, in_segment_spec.
  assert (E : (match c_val c r with Some _ => true | None => false end = true) <-> c_val c r <> None).
  { destruct (c_val c r); split; congruence. }
  rewrite E. destruct HU as [->|HU'].
  - split; [|].
    + intros (((A & B) & C) & D). repeat split; auto. discriminate.
    + intros (A & B & C & D). repeat split; auto. discriminate.
  - unfold part_value. rewrite (HU' r Hr). tauto.
Qed.
End Counted.

(** *** C52 *)
Theorem C52_event_counts_exact :
  forall R (c : Columns R) lo hi keep ex batches (user : R -> Z) matching k,
    (ex = None \/ forall r, In r (concat batches) -> c_part c r = Some (user r)) ->
    (forall r, matching r = true <->
       keep r = true /\ (forall us, ex = Some us -> In (user r) us) /\
       (forall f, c_filter c = Some f -> f r = Some true) /\ c_val c r <> None) ->
    exists res,
      report_worker c lo hi CountEvents keep ex batches = Some res /\
      NoDup (map fst res) /\
      aget qkey_dec k res =
        match of_group (c_key c) k (filter matching (concat batches)) with [] => None | rs => Some (qlen rs) end.
Proof.
  intros R c lo hi keep ex batches user matching k HU HM. unfold report_worker, metric_worker.
  eexists. split; [reflexivity|]. rewrite count_all_fold, (counted_rows c keep ex batches user matching HU HM). split.
  - unfold count_step. apply (group_fold_NoDup (c_key c)). constructor.
  - unfold count_step. rewrite group_fold. destruct (of_group (c_key c) k (filter matching (concat batches))) as [|r rs]; [reflexivity|].
    f_equal. unfold entry. cbn [aget]. generalize (r :: rs) as l. clear.
    assert (G : forall (l : list R) n, fold_left (fun g _ => (g + 1)%Qc) l n = (n + qlen l)%Qc).
    { induction l as [|x l IH]; intros n; cbn [fold_left]; unfold qlen; cbn [length]; [rewrite qc_nat_0; ring|].
      rewrite IH. unfold qlen. rewrite qc_nat_S. ring. }
    intros l. rewrite G. ring.
Qed.
Print Assumptions C52_event_counts_exact.

(** Two batches, two breakdown values, a segment of users 1 and 3, and a filter: group [7]
    counts rows 1 and 5, group [8] only row 4. *)
Definition c52_rows : list (list (Z * Z * bool)) :=
  [[(1, 7, true); (1, 7, false); (2, 7, true)]; [(3, 8, true); (3, 7, true)]]%Z.
Definition c52_cols : Columns (Z * Z * bool) :=
  mkCols (fun r => Some (fst (fst r))) (fun _ => 0%Z) (fun r => [snd (fst r)]) None (fun _ => Some 1%Qc) (fun _ => 0%Qc).
Example C52_witness :
  option_map (fun l => (aget qkey_dec [7%Z] l, aget qkey_dec [8%Z] l, aget qkey_dec [9%Z] l))
    (report_worker c52_cols 0 0 CountEvents snd (Some [1; 3]%Z) c52_rows)
  = Some (Some (qc_of_nat 2), Some (qc_of_nat 1), None)
  /\ (forall r, In r (concat c52_rows) -> c_part c52_cols r = Some (fst (fst r))).
Proof. split; [vm_compute; reflexivity|reflexivity]. Qed.

(** *** C54 *)
Theorem C54_aggregates_exact :
  forall R (c : Columns R) lo hi f keep ex batches (user : R -> Z) matching k,
    (ex = None \/ forall r, In r (concat batches) -> c_part c r = Some (user r)) ->
    (forall r, matching r = true <->
       keep r = true /\ (forall us, ex = Some us -> In (user r) us) /\
       (forall f, c_filter c = Some f -> f r = Some true) /\ c_val c r <> None) ->
    (forall r v, In r (concat batches) -> c_val c r = Some v -> (lo <= v)%Qc /\ (v <= hi)%Qc) ->
    exists res,
      report_worker c lo hi (AggProperty f) keep ex batches = Some res /\
      NoDup (map fst res) /\
      match of_group (c_key c) k (filter matching (concat batches)) with
      | [] => aget qkey_dec k res = None
      | rs => exists v vals, aget qkey_dec k res = Some v /\ map (c_val c) rs = map Some vals /\ is_agg f vals v
      end.
Proof.
  intros R c lo hi f keep ex batches user matching k HU HM HB. unfold report_worker, metric_worker.
  eexists. split; [reflexivity|]. rewrite agg_all_fold, (counted_rows c keep ex batches user matching HU HM). split.
  - change (map fst ?x) with (akeys x). rewrite akeys_group_map. unfold agg_step. apply (group_fold_NoDup (c_key c)). constructor.
  - rewrite aget_group_map. unfold agg_step. rewrite group_fold.
    destruct (of_group (c_key c) k (filter matching (concat batches))) as [|r rs] eqn:E; [reflexivity|].
    cbn [option_map]. unfold entry. cbn [aget]. rewrite <- E.
    set (l := of_group (c_key c) k (filter matching (concat batches))) in *.
    assert (HV : forall x, In x l -> In x (concat batches) /\ exists v, c_val c x = Some v).
    { intros x Hx. unfold l, of_group in Hx. rewrite !filter_In in Hx. destruct Hx as ((Hx & Hm) & _).
      split; [exact Hx|]. apply HM in Hm. destruct Hm as (_ & _ & _ & Hm). destruct (c_val c x); [eauto|congruence]. }
    exists (result (acc_all (make_new lo hi f) (map (val_of c) l))), (map (val_of c) l). split; [|split].
    + f_equal. f_equal. clear. generalize (make_new lo hi f) as a. induction l as [|x l IH]; intros a; [reflexivity|].
      cbn [fold_left map acc_all]. apply IH.
    + rewrite map_map. apply map_ext_in. intros x Hx. destruct (HV x Hx) as (_ & v & Ev). unfold val_of. now rewrite Ev.
    + apply acc_is_agg. intros x Hx. apply in_map_iff in Hx. destruct Hx as (y & <- & Hy).
      destruct (HV y Hy) as (Hi & v & Ev). unfold val_of. rewrite Ev. now apply (HB y v).
Qed.
Print Assumptions C54_aggregates_exact.

(** Values 5, null, 2 and 9 (another breakdown value): the minimum is 2, the average 7/2. *)
Definition c54_rows : list (list (Z * option Qc)) :=
  [[(1, Some (qc_of_nat 5)); (1, None)]; [(1, Some (qc_of_nat 2)); (2, Some (qc_of_nat 9))]]%Z.
Definition c54_cols : Columns (Z * option Qc) :=
  mkCols (fun _ => Some 1%Z) (fun _ => 0%Z) (fun r => [fst r]) None snd (fun _ => 0%Qc).
Example C54_witness :
  option_map (aget qkey_dec [1%Z]) (report_worker c54_cols 0 (qc_of_nat 100) (AggProperty Min) (fun _ => true) None c54_rows)
    = Some (Some (qc_of_nat 2)) /\
  option_map (aget qkey_dec [1%Z]) (report_worker c54_cols 0 (qc_of_nat 100) (AggProperty Avg) (fun _ => true) None c54_rows)
    = Some (Some (qc_of_nat 7 / qc_of_nat 2)%Qc) /\
  Forall (fun r => match snd r with None => True | Some v => qlt v 0 = false /\ qlt (qc_of_nat 100) v = false end) (concat c54_rows).
Proof. repeat split; try (vm_compute; reflexivity). repeat constructor. Qed.

(** *** Users *)
Section ByUser.
Context {R : Type}.
Variable c : Columns R.
Variables lo hi : Qc.
Variable user : R -> Z.
Variables (keep : R -> bool) (ex : option (list Z)) (batches : list (list R)).
Hypothesis HU : forall r, In r (concat batches) -> c_part c r = Some (user r) /\ user r <> 0%Z.
Hypothesis HS : StronglySorted Z.le (map user (concat batches)).

Let kept := concat (map (filter keep) batches).
Lemma kept_users : forall r, In r kept -> c_part c r = Some (user r) /\ user r <> 0%Z.
Proof. unfold kept. rewrite concat_map_filter. intros r Hr. apply filter_In in Hr. apply HU, Hr. Qed.

Definition shown (k : QKey) : list R := of_group (c_key c) k (segment_rows user ex (filter keep (concat batches))).
Lemma shown_eq k : of_group (c_key c) k (filter (in_seg user ex) kept) = shown k.
Proof. unfold shown, kept. now rewrite concat_map_filter, segment_rows_filter. Qed.
Lemma shown_sorted k : by_user user (shown k).
Proof. unfold shown, of_group, segment_rows. now repeat apply by_user_filter. Qed.

Lemma pcount_report f distinct dec128 k :
  exists res,
    option_map (fun st => group_map pgroup_result (fst st))
      (pcount_all c lo hi f distinct dec128 ex (map (filter keep) batches) ([], false)) = Some res /\
    NoDup (map fst res) /\
    match shown k with
    | [] => aget qkey_dec k res = None
    | rs => aget qkey_dec k res =
        Some (result (acc_all (make_new lo hi f)
          ((if phantom user (passes c) rs then [0%Qc] else []) ++
           map (inner_of user (cnt_step distinct dec128) (filter (passes c) rs) 0%Qc)
               (distinct_users user (filter (passes c) rs)))))
    end.
Proof.
  destruct (pcount_all_fold c lo hi user f distinct dec128 ex (map (filter keep) batches) [] false kept_users) as [s Hs].
  rewrite Hs. cbn [option_map fst]. eexists. split; [reflexivity|]. split.
  - change (map fst ?x) with (akeys x). rewrite akeys_group_map. unfold pcount_step. apply (group_fold_NoDup (c_key c)). constructor.
  - rewrite aget_group_map. unfold pcount_step. rewrite group_fold.
    fold kept. rewrite shown_eq. pose proof (shown_sorted k) as HSk.
    destruct (shown k) as [|r rs] eqn:E; [reflexivity|]. cbn [option_map]. unfold entry. cbn [aget]. f_equal.
    rewrite pgroup_runs by discriminate. f_equal. f_equal. now apply run_all_spec.
Qed.

Lemma pagg_report fi fo k :
  exists res,
    option_map (fun st => group_map igroup_result (fst st))
      (pagg_all c lo hi fi fo ex (map (filter keep) batches) ([], false)) = Some res /\
    NoDup (map fst res) /\
    match shown k with
    | [] => aget qkey_dec k res = None
    | rs => aget qkey_dec k res =
        Some (result (acc_all (make_new lo hi fo)
          (map result ((if phantom user (passes c) rs then [make_new lo hi fi] else []) ++
           map (inner_of user (fun a r => accumulate a (raw_value c r)) (filter (passes c) rs) (make_new lo hi fi))
               (distinct_users user (filter (passes c) rs))))))
    end.
Proof.
  destruct (pagg_all_fold c lo hi user fi fo ex (map (filter keep) batches) [] false kept_users) as [s Hs].
  rewrite Hs. cbn [option_map fst]. eexists. split; [reflexivity|]. split.
  - change (map fst ?x) with (akeys x). rewrite akeys_group_map. unfold pagg_step. apply (group_fold_NoDup (c_key c)). constructor.
  - rewrite aget_group_map. unfold pagg_step. rewrite group_fold.
    fold kept. rewrite shown_eq. pose proof (shown_sorted k) as HSk.
    destruct (shown k) as [|r rs] eqn:E; [reflexivity|]. cbn [option_map]. unfold entry. cbn [aget]. f_equal.
    rewrite igroup_runs by discriminate. f_equal. f_equal. f_equal. now apply run_all_spec.
Qed.

Lemma no_phantom rs : c_filter c = None -> phantom user (passes c) rs = false /\ filter (passes c) rs = rs.
Proof.
  intros HF. assert (P : forall r, passes c r = true) by (intros r; unfold passes; now rewrite HF).
  assert (E : filter (passes c) rs = rs) by (apply filter_id; auto). split; [|exact E].
  unfold phantom. destruct rs as [|r rs]; [reflexivity|]. rewrite E. cbn. now rewrite Z.eqb_refl.
Qed.
End ByUser.

Lemma cnt_inner {R} (user : R -> Z) dec128 rs p : inner_of user (cnt_step false dec128) rs 0%Qc p = qlen (rows_of user rs p).
Proof.
  unfold inner_of. generalize (rows_of user rs p) as l. intros l. replace (qlen l) with (0 + qlen l)%Qc by ring.
  generalize 0%Qc as n. induction l as [|x l IH]; intros n.
  - unfold qlen. cbn [fold_left length]. rewrite qc_nat_0. ring.
  - cbn [fold_left]. rewrite IH. unfold cnt_step. cbn [andb]. unfold qlen. cbn [length]. rewrite qc_nat_S. ring.
Qed.

(** *** C53 *)
Theorem C53_unique_counts_exact :
  forall R (c : Columns R) lo hi keep ex batches (user : R -> Z) k,
    c_filter c = None ->
    (forall r, In r (concat batches) -> c_part c r = Some (user r) /\ user r <> 0%Z) ->
    StronglySorted Z.le (map user (concat batches)) ->
    exists res,
      report_worker c lo hi CountUnique keep ex batches = Some res /\
      NoDup (map fst res) /\
      let rs := of_group (c_key c) k (segment_rows user ex (filter keep (concat batches))) in
      aget qkey_dec k res =
        match nodup Z.eq_dec (map user rs) with [] => None | us => Some (qlen us) end.
Proof.
  intros R c lo hi keep ex batches user k HF HU HS.
  destruct (pcount_report c lo hi user keep ex batches HU HS Cnt true false k) as (res & Hres & Hnd & Hk).
  exists res. split; [exact Hres|]. split; [exact Hnd|]. cbv zeta. fold (shown c user keep ex batches k).
  destruct (shown c user keep ex batches k) as [|r rs] eqn:E; [exact Hk|].
  rewrite Hk. clear Hk. set (rs1 := r :: rs). destruct (no_phantom c user rs1 HF) as [-> ->]. cbn [app make_new].
  rewrite acc_cnt. cbn [result].
  assert (L : length (distinct_users user rs1) = length (nodup Z.eq_dec (map user rs1))) by apply distinct_users_len.
  destruct (nodup Z.eq_dec (map user rs1)) as [|u us] eqn:EN.
  - exfalso. cbn in L. discriminate.
  - f_equal. unfold qlen. rewrite map_length, L. ring.
Qed.
Print Assumptions C53_unique_counts_exact.

(** Users 1, 1, 2, 5: three distinct users, two of them with breakdown value 7. *)
Definition c53_rows : list (list (Z * Z)) := [[(1, 7); (1, 7)]; [(1, 8); (2, 8)]; [(5, 7)]]%Z.
Definition c53_cols : Columns (Z * Z) :=
  mkCols (fun r => Some (fst r)) (fun _ => 0%Z) (fun r => [snd r]) None (fun _ => Some 1%Qc) (fun _ => 0%Qc).
Ltac sorted_by_hand := repeat constructor; try lia.
Example C53_witness :
  option_map (fun l => (aget qkey_dec [7%Z] l, aget qkey_dec [8%Z] l))
    (report_worker c53_cols 0 0 CountUnique (fun _ => true) None c53_rows)
  = Some (Some (qc_of_nat 2), Some (qc_of_nat 2))
  /\ StronglySorted Z.le (map fst (concat c53_rows))
  /\ forall r, In r (concat c53_rows) -> c_part c53_cols r = Some (fst r) /\ fst r <> 0%Z.
Proof.
  split; [vm_compute; reflexivity|]. split; [cbn; sorted_by_hand|].
  intros r Hr. split; [reflexivity|]. cbn in Hr. repeat (destruct Hr as [<-|Hr]; [cbn; discriminate|]). destruct Hr.
Qed.

(** A unique count with a filter of its own (which reports do not use) counts one user too
    many as soon as the first user of a group has no matching row. *)
Theorem C53_own_filter_refuted :
  forall R (c : Columns R) lo hi keep ex batches (user : R -> Z) k f r0 rs,
    c_filter c = Some f ->
    (forall r, In r (concat batches) -> c_part c r = Some (user r) /\ user r <> 0%Z) ->
    StronglySorted Z.le (map user (concat batches)) ->
    of_group (c_key c) k (segment_rows user ex (filter keep (concat batches))) = r0 :: rs ->
    (forall r, In r (r0 :: rs) -> user r = user r0 -> f r <> Some true) ->
    exists res,
      report_worker c lo hi CountUnique keep ex batches = Some res /\
      aget qkey_dec k res =
        Some (1 + qlen (nodup Z.eq_dec (map user (filter (passes c) (r0 :: rs)))))%Qc.
Proof.
  intros R c lo hi keep ex batches user k f r0 rs HF HU HS HE HN.
  destruct (pcount_report c lo hi user keep ex batches HU HS Cnt true false k) as (res & Hres & Hnd & Hk).
  exists res. split; [exact Hres|]. unfold shown in Hk. rewrite HE in Hk. rewrite Hk. f_equal.
  assert (P : phantom user (passes c) (r0 :: rs) = true).
  { unfold phantom. apply negb_true_iff, not_true_iff_false. rewrite existsb_exists. intros (x & Hx & Ex).
    apply filter_In in Hx. apply Z.eqb_eq in Ex. destruct Hx as [Hx Hp]. apply (HN x Hx Ex).
    rewrite passes_spec in Hp. now apply Hp. }
  rewrite P. cbn [make_new]. rewrite acc_cnt. cbn [result app]. unfold qlen at 1. cbn [length].
  rewrite map_length, distinct_users_len, qc_nat_S. unfold qlen. ring.
Qed.
Print Assumptions C53_own_filter_refuted.

Example C53_own_filter_refuted_witness :
  let c := mkCols (fun r => Some (fst r)) (fun _ => 0%Z) (fun _ => []) (Some (fun r => Some (Z.eqb (snd r) 8))) (fun _ => Some 1%Qc) (fun _ => 0%Qc) in
  option_map (aget qkey_dec []) (report_worker c 0 0 CountUnique (fun _ => true) None [[(1, 7); (2, 8)]]%Z)
  = Some (Some (qc_of_nat 2)).
Proof. vm_compute. reflexivity. Qed.

(** *** C77: counts per user *)
Theorem C77_counts_per_user_exact :
  forall R (c : Columns R) lo hi f keep ex batches (user : R -> Z) k,
    c_filter c = None ->
    (lo <= 0)%Qc -> (qlen (concat batches) <= hi)%Qc ->
    (forall r, In r (concat batches) -> c_part c r = Some (user r) /\ user r <> 0%Z) ->
    StronglySorted Z.le (map user (concat batches)) ->
    exists res,
      report_worker c lo hi (CountPerGroup f) keep ex batches = Some res /\
      NoDup (map fst res) /\
      let rs := of_group (c_key c) k (segment_rows user ex (filter keep (concat batches))) in
      match rs with
      | [] => aget qkey_dec k res = None
      | _ => exists v, aget qkey_dec k res = Some v /\
               is_agg f (map (fun p => qlen (rows_of user rs p)) (distinct_users user rs)) v
      end.
Proof.
  intros R c lo hi f keep ex batches user k HF Hlo Hhi HU HS.
  destruct (pcount_report c lo hi user keep ex batches HU HS f false (is_dec128 f) k) as (res & Hres & Hnd & Hk).
  exists res. split; [exact Hres|]. split; [exact Hnd|]. cbv zeta. fold (shown c user keep ex batches k).
  destruct (shown c user keep ex batches k) as [|r rs] eqn:E; [exact Hk|].
  cbv beta iota in Hk. set (rs1 := r :: rs) in *. destruct (no_phantom c user rs1 HF) as [P1 P2].
  cbv zeta in Hk. rewrite P1, P2 in Hk. cbn [app] in Hk.
  eexists. split; [exact Hk|].
  rewrite (map_ext _ _ (cnt_inner user (is_dec128 f) rs1)).
  apply acc_is_agg. intros x Hx. apply in_map_iff in Hx. destruct Hx as (p & <- & _). split.
  - apply Qcle_trans with 0%Qc; [exact Hlo|]. change 0%Qc with (qc_of_nat 0). apply qc_nat_le. lia.
  - apply Qcle_trans with (qlen (concat batches)); [|exact Hhi]. apply qc_nat_le. rewrite <- E.
    assert (FL : forall A (g : A -> bool) l, (length (filter g l) <= length l)%nat).
    { intros A g l. induction l as [|y l IH]; [auto|]. cbn. destruct (g y); cbn; lia. }
    unfold shown, rows_of, of_group, segment_rows.
    repeat (etransitivity; [apply FL|]). reflexivity.
Qed.
Print Assumptions C77_counts_per_user_exact.

Example C77_witness :
  option_map (fun l => (aget qkey_dec [7%Z] l, aget qkey_dec [8%Z] l))
    (report_worker c53_cols 0 (qc_of_nat 100) (CountPerGroup Max) (fun _ => true) None c53_rows)
  = Some (Some (qc_of_nat 2), Some (qc_of_nat 1))
  /\ option_map (aget qkey_dec [7%Z]) (report_worker c53_cols 0 (qc_of_nat 100) (CountPerGroup Avg) (fun _ => true) None c53_rows)
  = Some (Some (qc_of_nat 3 / qc_of_nat 2)%Qc).
Proof. vm_compute. split; reflexivity. Qed.

(** *** C78: a property aggregated per user, then over users *)
Theorem C78_property_per_user_partial :
  forall R (c : Columns R) lo hi fi fo keep ex batches (user : R -> Z) (num : R -> Qc) k,
    c_filter c = None ->
    (forall r, In r (concat batches) -> c_part c r = Some (user r) /\ user r <> 0%Z) ->
    (forall r, In r (concat batches) -> c_val c r = Some (num r) /\ (lo <= num r)%Qc /\ (num r <= hi)%Qc) ->
    StronglySorted Z.le (map user (concat batches)) ->
    let rs := of_group (c_key c) k (segment_rows user ex (filter keep (concat batches))) in
    (forall p w, In p (map user rs) -> is_agg fi (map num (rows_of user rs p)) w -> (lo <= w)%Qc /\ (w <= hi)%Qc) ->
    exists res,
      report_worker c lo hi (AggPerGroup fi fo) keep ex batches = Some res /\
      NoDup (map fst res) /\
      match rs with
      | [] => aget qkey_dec k res = None
      | _ => exists v per_user, aget qkey_dec k res = Some v /\
               Forall2 (fun p w => is_agg fi (map num (rows_of user rs p)) w) (distinct_users user rs) per_user /\
               is_agg fo per_user v
      end.
Proof.
  intros R c lo hi fi fo keep ex batches user num k HF HU HV HS rs HB.
  destruct (pagg_report c lo hi user keep ex batches HU HS fi fo k) as (res & Hres & Hnd & Hk).
  exists res. split; [exact Hres|]. split; [exact Hnd|]. unfold shown in Hk. fold rs in Hk.
  assert (Hin : forall r, In r rs -> In r (concat batches)).
  { intros r Hr. unfold rs, of_group, segment_rows in Hr. rewrite !filter_In in Hr. tauto. }
  clearbody rs. destruct rs as [|r rs0]; [exact Hk|]. cbv beta iota zeta in Hk. set (rs := r :: rs0) in *.
  destruct (no_phantom c user rs HF) as [P1 P2]. rewrite P1, P2 in Hk. cbn [app] in Hk. rewrite map_map in Hk.
  assert (HI : forall p, In p (distinct_users user rs) ->
     is_agg fi (map num (rows_of user rs p)) (result (inner_of user (fun a r => accumulate a (raw_value c r)) rs (make_new lo hi fi) p))).
  { intros p Hp. unfold inner_of.
    replace (fold_left (fun a r => accumulate a (raw_value c r)) (rows_of user rs p) (make_new lo hi fi))
      with (acc_all (make_new lo hi fi) (map num (rows_of user rs p))).
    - apply acc_is_agg. intros x Hx. apply in_map_iff in Hx. destruct Hx as (y & <- & Hy).
      unfold rows_of in Hy. apply filter_In in Hy. now apply HV, Hin.
    - assert (HR : forall y, In y (rows_of user rs p) -> raw_value c y = num y).
      { intros y Hy. unfold rows_of in Hy. apply filter_In in Hy. unfold raw_value.
        now rewrite (proj1 (HV y (Hin y (proj1 Hy)))). }
      clear -HR. revert HR. generalize (make_new lo hi fi) as a. induction (rows_of user rs p) as [|y l IH]; intros a HR; [reflexivity|].
      cbn [fold_left map acc_all]. rewrite (HR y (or_introl eq_refl)). apply IH. intros z Hz. apply HR. now right. }
  eexists. exists (map (fun p => result (inner_of user (fun a r => accumulate a (raw_value c r)) rs (make_new lo hi fi) p)) (distinct_users user rs)).
  split; [exact Hk|]. split.
  - revert HI. generalize (distinct_users user rs) as l. induction l as [|p l IH]; intros HI; [constructor|].
    cbn [map]. constructor; [apply HI; now left|]. apply IH. intros q Hq. apply HI. now right.
  - apply acc_is_agg. intros x Hx. apply in_map_iff in Hx. destruct Hx as (p & <- & Hp).
    apply (HB p); [now apply distinct_users_in|now apply HI].
Qed.
Print Assumptions C78_property_per_user_partial.

(** User 1 spent 5 and 2, user 2 spent 4: the average of the users' maxima is 9/2. *)
Definition c78_rows : list (list (Z * option Qc)) :=
  [[(1, Some (qc_of_nat 5))]; [(1, Some (qc_of_nat 2)); (2, Some (qc_of_nat 4))]]%Z.
Definition c78_cols : Columns (Z * option Qc) :=
  mkCols (fun r => Some (fst r)) (fun _ => 0%Z) (fun _ => []) None snd (fun _ => 0%Qc).
Example C78_witness :
  option_map (aget qkey_dec []) (report_worker c78_cols 0 (qc_of_nat 100) (AggPerGroup Max Avg) (fun _ => true) None c78_rows)
  = Some (Some (qc_of_nat 9 / qc_of_nat 2)%Qc).
Proof. vm_compute. reflexivity. Qed.

(** An event without the property is not left out: with the value in the empty slot being 0,
    the minimum of a user whose values are all positive becomes 0. *)
Theorem C78_missing_property_refuted :
  forall R (c : Columns R) lo hi (r1 r2 : R) u v,
    c_filter c = None -> c_key c r1 = c_key c r2 ->
    c_part c r1 = Some u -> c_part c r2 = Some u -> u <> 0%Z ->
    c_val c r1 = Some v -> c_val c r2 = None -> c_slot c r2 = 0%Qc ->
    (0 < v)%Qc -> (v <= hi)%Qc ->
    exists res,
      report_worker c lo hi (AggPerGroup Min Sum) (fun _ => true) None [[r1; r2]] = Some res /\
      aget qkey_dec (c_key c r1) res = Some 0%Qc /\
      is_agg Min [v] v.
Proof.
  intros R c lo hi r1 r2 u v HF HK H1 H2 H0 V1 V2 S2 Hv Hhi.
  assert (E0 : Z.eqb u 0 = false) by now apply Z.eqb_neq.
  unfold report_worker, metric_worker. cbn [map filter pagg_all pagg_rows]. rewrite H1, H2.
  cbn [andb in_segment negb]. rewrite <- HK. unfold entry. rewrite aget_aset_eq. cbn [aget].
  unfold igroup_row at 2. cbn [ig_first new_igroup ig_inner ig_outer ig_last].
  assert (P : forall r, passes c r = true) by (intros r; unfold passes; now rewrite HF).
  rewrite P. cbn [negb]. rewrite Z.eqb_refl. unfold igroup_row. cbn [ig_first ig_last]. rewrite P, Z.eqb_refl. cbn [negb ig_inner ig_outer option_map fst].
  eexists. split; [reflexivity|]. split.
  - rewrite aget_group_map, aget_aset_eq. cbn [option_map]. f_equal. unfold igroup_result, raw_value.
    rewrite V1, V2, S2. cbn [ig_inner ig_outer make_new accumulate result].
    assert (Q : qlt 0 (if qlt v hi then v else hi) = true).
    { apply qlt_spec. destruct (qlt v hi); [exact Hv|]. now apply Qclt_le_trans with v. }
    rewrite Q. ring.
  - cbn. intros _. split; [now left|]. intros x [<-|[]]. apply Qcle_refl.
Qed.
Print Assumptions C78_missing_property_refuted.
Example C78_missing_property_refuted_witness :
  option_map (aget qkey_dec []) (report_worker c78_cols 0 (qc_of_nat 100) (AggPerGroup Min Sum) (fun _ => true) None
    [[(1%Z, Some (qc_of_nat 5)); (1%Z, None)]]) = Some (Some 0%Qc).
Proof. vm_compute. reflexivity. Qed.

(** *** C79: one event outside the reported group type ends the report *)
Theorem C79_missing_group_refuted :
  forall R (c : Columns R) lo hi m keep ex batches r,
    In r (concat batches) -> keep r = true -> c_part c r = None ->
    m = CountUnique \/ (exists f, m = CountPerGroup f) \/ (exists fi fo, m = AggPerGroup fi fo) ->
    report_worker c lo hi m keep ex batches = None.
Proof.
  intros R c lo hi m keep ex batches r Hin Hk Hp Hm.
  assert (X : Exists (fun r => c_part c r = None) (concat (map (filter keep) batches))).
  { apply Exists_exists. exists r. rewrite concat_map_filter. split; [|exact Hp]. now apply filter_In. }
  unfold report_worker, metric_worker.
  destruct Hm as [->|[[f ->]|(fi & fo & ->)]]; rewrite ?pcount_all_null, ?pagg_all_null by exact X; reflexivity.
Qed.
Print Assumptions C79_missing_group_refuted.

(** When every event has the group, the same reports are answered. *)
Theorem C79_groups_everywhere_partial :
  forall R (c : Columns R) lo hi m keep ex batches,
    (forall r, In r (concat batches) -> keep r = true -> c_part c r <> None) ->
    exists res, report_worker c lo hi m keep ex batches = Some res.
Proof.
  intros R c lo hi m keep ex batches H. unfold report_worker, metric_worker.
  assert (HK : forall b, In b (map (filter keep) batches) -> forall r, In r b -> c_part c r <> None).
  { intros b Hb r Hr. apply in_map_iff in Hb. destruct Hb as (b0 & <- & Hb0). apply filter_In in Hr. destruct Hr as [Hr1 Hr2].
    apply H; [|exact Hr2]. apply in_concat. eauto. }
  assert (PC : forall f d e bs st, (forall b, In b bs -> forall r, In r b -> c_part c r <> None) ->
     exists x, pcount_all c lo hi f d e ex bs st = Some x).
  { intros f d e. induction bs as [|b bs IH]; intros st Hb; [eexists; reflexivity|]. cbn [pcount_all].
    assert (Q : forall rows st, (forall r, In r rows -> c_part c r <> None) -> exists x, pcount_rows c lo hi f d e ex rows st = Some x).
    { clear. induction rows as [|r rows IH]; intros [gs s] Hr; [eexists; reflexivity|]. cbn [pcount_rows].
      destruct (c_part c r) as [p|] eqn:E; [|exfalso; exact (Hr r (or_introl eq_refl) E)].
      assert (Hr' : forall x, In x rows -> c_part c x <> None) by (intros x Hx; apply Hr; now right).
      destruct (s && Z.eqb p 0)%bool; [now apply IH|]. destruct (negb (in_segment ex p)); [now apply IH|].
      destruct (pgroup_row c d e r p _). now apply IH. }
    destruct (Q b st (Hb b (or_introl eq_refl))) as [x ->]. apply IH. intros b' Hb'. apply Hb. now right. }
  assert (PA : forall fi fo bs st, (forall b, In b bs -> forall r, In r b -> c_part c r <> None) ->
     exists x, pagg_all c lo hi fi fo ex bs st = Some x).
  { intros fi fo. induction bs as [|b bs IH]; intros st Hb; [eexists; reflexivity|]. cbn [pagg_all].
    assert (Q : forall rows st, (forall r, In r rows -> c_part c r <> None) -> exists x, pagg_rows c lo hi fi fo ex rows st = Some x).
    { clear. induction rows as [|r rows IH]; intros [gs s] Hr; [eexists; reflexivity|]. cbn [pagg_rows].
      destruct (c_part c r) as [p|] eqn:E; [|exfalso; exact (Hr r (or_introl eq_refl) E)].
      assert (Hr' : forall x, In x rows -> c_part c x <> None) by (intros x Hx; apply Hr; now right).
      destruct (s && Z.eqb p 0)%bool; [now apply IH|]. destruct (negb (in_segment ex p)); now apply IH. }
    destruct (Q b st (Hb b (or_introl eq_refl))) as [x ->]. apply IH. intros b' Hb'. apply Hb. now right. }
  destruct m; try (eexists; reflexivity).
  - destruct (PC Cnt true false _ ([], false) HK) as [x ->]. eexists. reflexivity.
  - destruct (PC f false (is_dec128 f) _ ([], false) HK) as [x ->]. eexists. reflexivity.
  - destruct (PA inner outer _ ([], false) HK) as [x ->]. eexists. reflexivity.
Qed.
Print Assumptions C79_groups_everywhere_partial.
Example C79_witness :
  let c := mkCols fst (fun _ => 0%Z) (fun _ => []) None (fun _ => Some 1%Qc) (fun _ => 0%Qc) in
  report_worker c 0 0 CountUnique (fun _ => true) None [[(Some 1, 7); (None, 8)]]%Z = None /\
  option_map (aget qkey_dec []) (report_worker c 0 0 CountEvents (fun _ => true) None [[(Some 1, 7); (None, 8)]]%Z) = Some (Some (qc_of_nat 2)) /\
  option_map (aget qkey_dec []) (report_worker c 0 0 CountUnique (fun r => Z.eqb (snd r) 7) None [[(Some 1, 7); (None, 8)]]%Z) = Some (Some (qc_of_nat 1)).
Proof. vm_compute. repeat split. Qed.
