(** Facts about the aggregations of reports. *)
From Coq Require Import List ZArith QArith Qcanon Bool Arith Lia Permutation Sorting.Sorted.
From Verif Require Import AMap Aggregate AggSpec.
Import ListNotations.

(** ** Numbers *)
Lemma qc_nat_0 : qc_of_nat 0 = 0%Qc. Proof. reflexivity. Qed.
Lemma qc_nat_S n : qc_of_nat (S n) = (qc_of_nat n + 1)%Qc.
Proof.
  apply Qc_is_canon. unfold qc_of_nat. unfold Qcplus. cbn [this Q2Qc].
  rewrite !Qred_correct. rewrite Nat2Z.inj_succ, <- Z.add_1_r, inject_Z_plus. reflexivity.
Qed.
Lemma qc_nat_add a b : qc_of_nat (a + b) = (qc_of_nat a + qc_of_nat b)%Qc.
Proof.
  induction a as [|a IH]; cbn [Nat.add]; [rewrite qc_nat_0; ring|].
  rewrite !qc_nat_S, IH. ring.
Qed.
Lemma qc_nat_le a b : (a <= b)%nat -> (qc_of_nat a <= qc_of_nat b)%Qc.
Proof.
  intros H. unfold Qcle, qc_of_nat. cbn [this Q2Qc]. rewrite !Qred_correct.
  unfold Qle. cbn. lia.
Qed.
Lemma qc_nat_inj a b : qc_of_nat a = qc_of_nat b -> a = b.
Proof.
  intros H. apply (f_equal (fun q => this q)) in H. unfold qc_of_nat in H. cbn [this Q2Qc] in H.
  assert (E : inject_Z (Z.of_nat a) == inject_Z (Z.of_nat b)).
  { rewrite <- (Qred_correct (inject_Z (Z.of_nat a))), <- (Qred_correct (inject_Z (Z.of_nat b))), H. reflexivity. }
  unfold Qeq in E. cbn in E. lia.
Qed.
Lemma qc_nat_nonzero n : n <> 0%nat -> qc_of_nat n <> 0%Qc.
Proof. intros H E. apply H. apply (qc_nat_inj n 0). exact E. Qed.

Lemma qlt_spec a b : qlt a b = true <-> (a < b)%Qc.
Proof.
  unfold qlt. destruct (Qclt_le_dec a b) as [H|H]; split; intros G; try reflexivity; try discriminate; auto.
  exfalso. exact (Qclt_not_le _ _ G H).
Qed.
Lemma qlt_false a b : qlt a b = false <-> (b <= a)%Qc.
Proof.
  unfold qlt. destruct (Qclt_le_dec a b) as [H|H]; split; intros G; try reflexivity; try discriminate; auto.
  exfalso. exact (Qclt_not_le _ _ H G).
Qed.

(** ** The functions *)
Definition acc_all (a : Acc) (l : list Qc) : Acc := fold_left accumulate l a.

Lemma acc_sum l s : acc_all (ASum s) l = ASum (s + qsum l).
Proof.
  revert s. induction l as [|x l IH]; intros s; [unfold acc_all; cbn [fold_left qsum fold_right]; f_equal; ring|].
  change (acc_all (ASum (s + x)) l = ASum (s + qsum (x :: l))). rewrite IH. f_equal. change (qsum (x :: l)) with (x + qsum l)%Qc. ring.
Qed.
Lemma acc_cnt l s : acc_all (ACnt s) l = ACnt (s + qlen l).
Proof.
  revert s. induction l as [|x l IH]; intros s; [unfold qlen, acc_all; cbn [length fold_left]; rewrite qc_nat_0; f_equal; ring|].
  change (acc_all (ACnt (s + 1)) l = ACnt (s + qlen (x :: l))). rewrite IH. f_equal. unfold qlen. cbn [length]. rewrite qc_nat_S. ring.
Qed.
Lemma acc_avg l s n : acc_all (AAvg s n) l = AAvg (s + qsum l) (n + qlen l).
Proof.
  revert s n. induction l as [|x l IH]; intros s n; [unfold qlen, acc_all; cbn [length fold_left qsum fold_right]; rewrite qc_nat_0; f_equal; ring|].
  change (acc_all (AAvg (s + x) (n + 1)) l = AAvg (s + qsum (x :: l)) (n + qlen (x :: l))). rewrite IH. f_equal; [change (qsum (x :: l)) with (x + qsum l)%Qc; ring|]. unfold qlen. cbn [length]. rewrite qc_nat_S. ring.
Qed.
Lemma acc_min l m :
  exists v, acc_all (AMin m) l = AMin v /\ (v = m \/ In v l) /\ (v <= m)%Qc /\ forall x, In x l -> (v <= x)%Qc.
Proof.
  revert m. induction l as [|x l IH]; intros m.
  - exists m. repeat split; auto using Qcle_refl. intros x [].
  - cbn [acc_all fold_left accumulate]. destruct (qlt x m) eqn:E.
    + destruct (IH x) as (v & Hv & Hin & Hle & Hall). exists v. split; [exact Hv|].
      apply qlt_spec in E. split; [|split].
      * right. destruct Hin as [->|Hin]; [now left|now right].
      * apply Qcle_trans with x; [exact Hle|]. now apply Qclt_le_weak.
      * intros y [<-|Hy]; auto.
    + destruct (IH m) as (v & Hv & Hin & Hle & Hall). exists v. split; [exact Hv|].
      apply qlt_false in E. split; [|split].
      * destruct Hin as [->|Hin]; [now left|right; now right].
      * exact Hle.
      * intros y [<-|Hy]; auto. now apply Qcle_trans with m.
Qed.
Lemma acc_max l m :
  exists v, acc_all (AMax m) l = AMax v /\ (v = m \/ In v l) /\ (m <= v)%Qc /\ forall x, In x l -> (x <= v)%Qc.
Proof.
  revert m. induction l as [|x l IH]; intros m.
  - exists m. repeat split; auto using Qcle_refl. intros x [].
  - cbn [acc_all fold_left accumulate]. destruct (qlt m x) eqn:E.
    + destruct (IH x) as (v & Hv & Hin & Hle & Hall). exists v. split; [exact Hv|].
      apply qlt_spec in E. split; [|split].
      * right. destruct Hin as [->|Hin]; [now left|now right].
      * apply Qcle_trans with x; [|exact Hle]. now apply Qclt_le_weak.
      * intros y [<-|Hy]; auto.
    + destruct (IH m) as (v & Hv & Hin & Hle & Hall). exists v. split; [exact Hv|].
      apply qlt_false in E. split; [|split].
      * destruct Hin as [->|Hin]; [now left|right; now right].
      * exact Hle.
      * intros y [<-|Hy]; auto. now apply Qcle_trans with m.
Qed.

Lemma qlen_nonzero {A} (l : list A) : l <> [] -> qlen l <> 0%Qc.
Proof. intros H. apply qc_nat_nonzero. destruct l; [congruence|discriminate]. Qed.

Lemma acc_is_agg lo hi f l :
  (forall x, In x l -> (lo <= x)%Qc /\ (x <= hi)%Qc) ->
  is_agg f l (result (acc_all (make_new lo hi f) l)).
Proof.
  intros B. destruct f; cbn [make_new is_agg].
  - rewrite acc_sum. cbn [result]. ring.
  - intros Hne. destruct (acc_min l hi) as (v & Hv & Hin & Hle & Hall). rewrite Hv. cbn. split; [|exact Hall].
    destruct Hin as [->|Hin]; [|exact Hin]. destruct l as [|x l]; [congruence|].
    assert (E : hi = x). { apply Qcle_antisym; [apply Hall; now left|apply B; now left]. }
    left. now symmetry.
  - intros Hne. destruct (acc_max l lo) as (v & Hv & Hin & Hle & Hall). rewrite Hv. cbn. split; [|exact Hall].
    destruct Hin as [->|Hin]; [|exact Hin]. destruct l as [|x l]; [congruence|].
    assert (E : lo = x). { apply Qcle_antisym; [apply B; now left|apply Hall; now left]. }
    left. now symmetry.
  - intros Hne. rewrite acc_avg. cbn [result]. apply qlen_nonzero in Hne. field.
    replace (0 + qlen l)%Qc with (qlen l) by ring. exact Hne.
  - rewrite acc_cnt. cbn [result]. ring.
Qed.

(** ** Groups *)
Section Groups.
Context {R : Type}.
Variable key : R -> QKey.

Lemma of_group_cons k r rows :
  of_group key k (r :: rows) = if qkey_dec (key r) k then r :: of_group key k rows else of_group key k rows.
Proof. unfold of_group. cbn. destruct (qkey_dec (key r) k); reflexivity. Qed.

Definition group_step {G} (new : G) (upd : R -> G -> G) (gs : list (QKey * G)) (r : R) : list (QKey * G) :=
  aset qkey_dec (key r) (upd r (entry (key r) new gs)) gs.
Lemma entry_aset {G} (new : G) k k' v gs :
  entry k new (aset qkey_dec k' v gs) = if qkey_dec k k' then v else entry k new gs.
Proof. unfold entry. rewrite aget_aset. destruct (qkey_dec k k'); reflexivity. Qed.

Lemma group_fold {G} (new : G) upd rows gs k :
  aget qkey_dec k (fold_left (group_step new upd) rows gs) =
  match of_group key k rows with
  | [] => aget qkey_dec k gs
  | rs => Some (fold_left (fun g r => upd r g) rs (entry k new gs))
  end.
Proof.
  revert gs. induction rows as [|r rows IH]; intros gs; [reflexivity|].
  cbn [fold_left]. rewrite IH, of_group_cons. unfold group_step at 1 2.
  rewrite entry_aset, aget_aset.
  destruct (qkey_dec (key r) k) as [E|E].
  - subst k. destruct (qkey_dec (key r) (key r)) as [_|X]; [|congruence].
    cbn [fold_left]. destruct (of_group key (key r) rows); reflexivity.
  - destruct (qkey_dec k (key r)) as [X|X]; [congruence|]. reflexivity.
Qed.
End Groups.

Lemma aset_NoDup {G} k (v : G) gs : NoDup (akeys gs) -> NoDup (akeys (aset qkey_dec k v gs)).
Proof.
  intros H. change (NoDup (k :: akeys (adel qkey_dec k gs))). constructor.
  - rewrite akeys_adel. apply remove_In.
  - rewrite akeys_adel. clear -H. induction (akeys gs) as [|x l IH]; [constructor|].
    inversion H; subst. cbn. destruct (qkey_dec k x); [auto|].
    constructor; [|auto]. intros X. apply in_remove in X. tauto.
Qed.
Lemma group_fold_NoDup {R G} (key : R -> QKey) (new : G) upd rows gs :
  NoDup (akeys gs) -> NoDup (akeys (fold_left (group_step key new upd) rows gs)).
Proof.
  revert gs. induction rows as [|r rows IH]; intros gs H; [exact H|].
  cbn. apply IH. now apply aset_NoDup.
Qed.
Lemma aget_group_map {G} (f : G -> Qc) gs k : aget qkey_dec k (group_map f gs) = option_map f (aget qkey_dec k gs).
Proof.
  induction gs as [|[k' g] gs IH]; [reflexivity|]. cbn. destruct (qkey_dec k k'); [reflexivity|exact IH].
Qed.
Lemma akeys_group_map {G} (f : G -> Qc) gs : akeys (group_map f gs) = akeys gs.
Proof. unfold akeys, group_map. rewrite map_map. reflexivity. Qed.

(** ** Skipping does not change what is counted *)
Section Skip.
Context {R : Type}.
Variable c : Columns R.
Variables lo hi : Qc.

Definition counted (ex : option (list Z)) (r : R) : bool :=
  (in_segment ex (part_value c r) && passes c r && match c_val c r with Some _ => true | None => false end)%bool.
Definition count_step := group_step (c_key c) 0%Qc (fun _ n => (n + 1)%Qc).
Definition val_of (r : R) : Qc := match c_val c r with Some v => v | None => 0%Qc end.
Definition agg_step (f : Fn) := group_step (c_key c) (make_new lo hi f) (fun r a => accumulate a (val_of r)).

Lemma count_rows_fold ex rows skip gs :
  (forall q, skip = Some q -> in_segment ex q = false) ->
  count_rows c ex rows skip gs = fold_left count_step (filter (counted ex) rows) gs.
Proof.
  revert skip gs. induction rows as [|r rows IH]; intros skip gs Hs; [reflexivity|].
  cbn [count_rows]. cbn [filter]. unfold counted at 1.
  destruct (match skip with Some q => Z.eqb (part_value c r) q | None => false end) eqn:E.
  - destruct skip as [q|]; [|discriminate]. apply Z.eqb_eq in E. subst q.
    rewrite (Hs _ eq_refl). cbn [andb]. now apply IH.
  - destruct (in_segment ex (part_value c r)) eqn:Ei; cbn [negb andb].
    + destruct (passes c r) eqn:Ep; cbn [negb andb].
      * destruct (c_val c r) eqn:Ev; cbn [fold_left].
        -- rewrite IH by discriminate. reflexivity.
        -- now rewrite IH by discriminate.
      * now rewrite IH by discriminate.
    + rewrite IH; [reflexivity|]. intros q [= <-]. exact Ei.
Qed.
Lemma count_all_fold ex batches gs :
  count_all c ex batches gs = fold_left count_step (filter (counted ex) (concat batches)) gs.
Proof.
  unfold count_all. revert gs. induction batches as [|b bs IH]; intros gs; [reflexivity|].
  cbn [fold_left concat]. rewrite IH, filter_app, fold_left_app, count_rows_fold by discriminate. reflexivity.
Qed.
Lemma agg_rows_fold f ex rows skip gs :
  (forall q, skip = Some q -> in_segment ex q = false) ->
  agg_rows c lo hi f ex rows skip gs = fold_left (agg_step f) (filter (counted ex) rows) gs.
Proof.
  revert skip gs. induction rows as [|r rows IH]; intros skip gs Hs; [reflexivity|].
  cbn [agg_rows]. cbn [filter]. unfold counted at 1.
  destruct (match skip with Some q => Z.eqb (part_value c r) q | None => false end) eqn:E.
  - destruct skip as [q|]; [|discriminate]. apply Z.eqb_eq in E. subst q.
    rewrite (Hs _ eq_refl). cbn [andb]. now apply IH.
  - destruct (in_segment ex (part_value c r)) eqn:Ei; cbn [negb andb].
    + destruct (passes c r) eqn:Ep; cbn [negb andb].
      * destruct (c_val c r) eqn:Ev; cbn [fold_left].
        -- rewrite IH by discriminate. f_equal. unfold agg_step, group_step, val_of. now rewrite Ev.
        -- now rewrite IH by discriminate.
      * now rewrite IH by discriminate.
    + rewrite IH; [reflexivity|]. intros q [= <-]. exact Ei.
Qed.
Lemma agg_all_fold f ex batches gs :
  agg_all c lo hi f ex batches gs = fold_left (agg_step f) (filter (counted ex) (concat batches)) gs.
Proof.
  unfold agg_all. revert gs. induction batches as [|b bs IH]; intros gs; [reflexivity|].
  cbn [fold_left concat]. rewrite IH, filter_app, fold_left_app, agg_rows_fold by discriminate. reflexivity.
Qed.

Variable user : R -> Z.
Definition in_seg ex (r : R) : bool := in_segment ex (user r).
Definition pcount_step f distinct dec128 :=
  group_step (c_key c) (new_pgroup lo hi f) (fun r g => fst (pgroup_row c distinct dec128 r (user r) g)).
Definition pagg_step fi fo :=
  group_step (c_key c) (new_igroup lo hi fi fo) (fun r g => igroup_row c lo hi r (user r) g).

Lemma pcount_rows_fold f distinct dec128 ex rows gs skip :
  (forall r, In r rows -> c_part c r = Some (user r) /\ user r <> 0%Z) ->
  exists skip', pcount_rows c lo hi f distinct dec128 ex rows (gs, skip) =
    Some (fold_left (pcount_step f distinct dec128) (filter (in_seg ex) rows) gs, skip').
Proof.
  revert gs skip. induction rows as [|r rows IH]; intros gs skip H; [eexists; reflexivity|].
  destruct (H r (or_introl eq_refl)) as [Hp H0]. cbn [pcount_rows]. rewrite Hp.
  apply Z.eqb_neq in H0. rewrite H0, andb_false_r. cbn [filter]. unfold in_seg at 1.
  destruct (in_segment ex (user r)) eqn:Ei; cbn [negb].
  - destruct (pgroup_row c distinct dec128 r (user r) (entry (c_key c r) (new_pgroup lo hi f) gs)) as [g s] eqn:Eg.
    cbn [fold_left].
    assert (E2 : pcount_step f distinct dec128 gs r = aset qkey_dec (c_key c r) g gs).
    { unfold pcount_step, group_step. now rewrite Eg. }
    rewrite E2. apply IH. intros x Hx. apply H. now right.
  - apply IH. intros x Hx. apply H. now right.
Qed.
Lemma pcount_all_fold f distinct dec128 ex batches gs skip :
  (forall r, In r (concat batches) -> c_part c r = Some (user r) /\ user r <> 0%Z) ->
  exists skip', pcount_all c lo hi f distinct dec128 ex batches (gs, skip) =
    Some (fold_left (pcount_step f distinct dec128) (filter (in_seg ex) (concat batches)) gs, skip').
Proof.
  revert gs skip. induction batches as [|b bs IH]; intros gs skip H; [eexists; reflexivity|].
  cbn [pcount_all concat] in *.
  destruct (pcount_rows_fold f distinct dec128 ex b gs skip) as [s Hs].
  { intros r Hr. apply H. apply in_or_app. now left. }
  rewrite Hs, filter_app, fold_left_app. apply IH. intros r Hr. apply H. apply in_or_app. now right.
Qed.
Lemma pagg_rows_fold fi fo ex rows gs skip :
  (forall r, In r rows -> c_part c r = Some (user r) /\ user r <> 0%Z) ->
  exists skip', pagg_rows c lo hi fi fo ex rows (gs, skip) =
    Some (fold_left (pagg_step fi fo) (filter (in_seg ex) rows) gs, skip').
Proof.
  revert gs skip. induction rows as [|r rows IH]; intros gs skip H; [eexists; reflexivity|].
  destruct (H r (or_introl eq_refl)) as [Hp H0]. cbn [pagg_rows]. rewrite Hp.
  apply Z.eqb_neq in H0. rewrite H0, andb_false_r. cbn [filter]. unfold in_seg at 1.
  destruct (in_segment ex (user r)) eqn:Ei; cbn [negb].
  - cbn [fold_left]. apply IH. intros x Hx. apply H. now right.
  - apply IH. intros x Hx. apply H. now right.
Qed.
Lemma pagg_all_fold fi fo ex batches gs skip :
  (forall r, In r (concat batches) -> c_part c r = Some (user r) /\ user r <> 0%Z) ->
  exists skip', pagg_all c lo hi fi fo ex batches (gs, skip) =
    Some (fold_left (pagg_step fi fo) (filter (in_seg ex) (concat batches)) gs, skip').
Proof.
  revert gs skip. induction batches as [|b bs IH]; intros gs skip H; [eexists; reflexivity|].
  cbn [pagg_all concat] in *.
  destruct (pagg_rows_fold fi fo ex b gs skip) as [s Hs].
  { intros r Hr. apply H. apply in_or_app. now left. }
  rewrite Hs, filter_app, fold_left_app. apply IH. intros r Hr. apply H. apply in_or_app. now right.
Qed.

(** a null partition *)
Lemma pcount_rows_null f distinct dec128 ex rows st :
  Exists (fun r => c_part c r = None) rows -> pcount_rows c lo hi f distinct dec128 ex rows st = None.
Proof.
  intros H. revert st. induction H as [r rows H|r rows H IH]; intros st; cbn [pcount_rows]; [now rewrite H|].
  destruct (c_part c r) as [p|]; [|reflexivity]. destruct st as [gs skip].
  destruct (skip && Z.eqb p 0)%bool; [apply IH|]. destruct (negb (in_segment ex p)); [apply IH|].
  destruct (pgroup_row c distinct dec128 r p _). apply IH.
Qed.
Lemma pcount_all_null f distinct dec128 ex batches st :
  Exists (fun r => c_part c r = None) (concat batches) -> pcount_all c lo hi f distinct dec128 ex batches st = None.
Proof.
  revert st. induction batches as [|b bs IH]; intros st H; cbn [pcount_all concat] in *; [inversion H|].
  apply Exists_app in H. destruct H as [H|H]; [now rewrite pcount_rows_null|].
  destruct (pcount_rows c lo hi f distinct dec128 ex b st); [now apply IH|reflexivity].
Qed.
Lemma pagg_rows_null fi fo ex rows st :
  Exists (fun r => c_part c r = None) rows -> pagg_rows c lo hi fi fo ex rows st = None.
Proof.
  intros H. revert st. induction H as [r rows H|r rows H IH]; intros st; cbn [pagg_rows]; [now rewrite H|].
  destruct (c_part c r) as [p|]; [|reflexivity]. destruct st as [gs skip].
  destruct (skip && Z.eqb p 0)%bool; [apply IH|]. destruct (negb (in_segment ex p)); apply IH.
Qed.
Lemma pagg_all_null fi fo ex batches st :
  Exists (fun r => c_part c r = None) (concat batches) -> pagg_all c lo hi fi fo ex batches st = None.
Proof.
  revert st. induction batches as [|b bs IH]; intros st H; cbn [pagg_all concat] in *; [inversion H|].
  apply Exists_app in H. destruct H as [H|H]; [now rewrite pagg_rows_null|].
  destruct (pagg_rows c lo hi fi fo ex b st); [now apply IH|reflexivity].
Qed.
End Skip.

(** ** Users of rows *)
Section Users.
Context {R : Type}.
Variable user : R -> Z.
Definition by_user (rows : list R) : Prop := StronglySorted Z.le (map user rows).
Lemma distinct_users_in rows p : In p (distinct_users user rows) <-> In p (map user rows).
Proof.
  induction rows as [|r rows IH]; cbn; [tauto|].
  rewrite filter_In, IH. split.
  - tauto.
  - intros [<-|H]; [now left|]. destruct (Z.eqb p (user r)) eqn:E.
    + left. symmetry. now apply Z.eqb_eq.
    + right. auto.
Qed.
Lemma rows_of_none rows p : ~ In p (map user rows) -> rows_of user rows p = [].
Proof.
  intros H. unfold rows_of. induction rows as [|r rows IH]; [reflexivity|]. cbn in *.
  destruct (Z.eqb (user r) p) eqn:E; [apply Z.eqb_eq in E; exfalso; auto|]. apply IH. auto.
Qed.
Lemma filter_id {A} (f : A -> bool) l : (forall x, In x l -> f x = true) -> filter f l = l.
Proof.
  induction l as [|x l IH]; intros H; [reflexivity|]. cbn. rewrite (H x (or_introl eq_refl)).
  f_equal. apply IH. intros y Hy. apply H. now right.
Qed.
Lemma filter_filter {A} (f g : A -> bool) l : filter f (filter g l) = filter (fun x => f x && g x)%bool l.
Proof.
  induction l as [|x l IH]; [reflexivity|]. cbn. destruct (g x) eqn:G; cbn; [|rewrite andb_false_r; exact IH].
  rewrite andb_true_r. destruct (f x); [f_equal|]; exact IH.
Qed.

Lemma by_user_head r rows : by_user (r :: rows) -> forall x, In x (r :: rows) -> (user r <= user x)%Z.
Proof.
  intros H x [<-|Hx]; [lia|]. cbn in H. inversion H; subst. rewrite Forall_forall in H3. apply H3. now apply in_map.
Qed.
Lemma by_user_filter f rows : by_user rows -> by_user (filter f rows).
Proof.
  unfold by_user. induction rows as [|r rows IH]; intros H; [exact H|]. cbn in H. inversion H; subst. cbn.
  destruct (f r); [|auto]. cbn. constructor; [auto|]. rewrite Forall_forall in *. intros x Hx.
  apply H3. apply in_map_iff in Hx. destruct Hx as (y & <- & Hy). apply filter_In in Hy. now apply in_map.
Qed.

End Users.

(** ** Runs of the rows of one user *)
Section Runs.
Context {R I : Type}.
Variable user : R -> Z.
Variable pass : R -> bool.
Variable i0 : I.
Variable stp : I -> R -> I.

(** the inner states handed over so far, the current one and the current user *)
Definition run_row (st : list I * I * Z) (r : R) : list I * I * Z :=
  let '(l, i, u) := st in
  if negb (pass r) then st
  else if Z.eqb u (user r) then (l, stp i r, u)
  else ((l ++ [i])%list, stp i0 r, user r).
Definition run_out (st : list I * I * Z) : list I := let '(l, i, _) := st in (l ++ [i])%list.

Definition inner_of (rows : list R) (i : I) (p : Z) : I := fold_left stp (rows_of user rows p) i.

Lemma run_fold rows l i u :
  by_user user rows -> (forall r, In r rows -> (u <= user r)%Z) ->
  run_out (fold_left run_row rows (l, i, u)) =
  (l ++ inner_of (filter pass rows) i u ::
     map (inner_of (filter pass rows) i0)
       (filter (fun p => negb (Z.eqb p u)) (distinct_users user (filter pass rows))))%list.
Proof.
  revert l i u. induction rows as [|r rows IH]; intros l i u HS Hu; [reflexivity|].
  cbn in HS. inversion HS as [|x y HS' Hall]; subst.
  assert (Hge : forall x, In x rows -> (user r <= user x)%Z).
  { intros x Hx. rewrite Forall_forall in Hall. apply Hall. now apply in_map. }
  cbn [fold_left filter run_row]. destruct (pass r) eqn:Ep; cbn [negb].
  2:{ apply IH; [exact HS'|]. intros x Hx. apply Hu. now right. }
  destruct (Z.eqb u (user r)) eqn:E.
  - apply Z.eqb_eq in E. rewrite IH; [|exact HS'|intros x Hx; apply Hu; now right].
    f_equal. f_equal.
    + unfold inner_of, rows_of. cbn [filter]. rewrite E, Z.eqb_refl. reflexivity.
    + cbn [distinct_users filter]. rewrite <- E, Z.eqb_refl. cbn [negb].
      rewrite filter_filter.
      rewrite (filter_ext (fun x => negb (Z.eqb x u) && negb (Z.eqb x u))%bool (fun p => negb (Z.eqb p u)))
        by (intros a; destruct (Z.eqb a u); reflexivity).
      apply map_ext_in. intros p Hp. apply filter_In in Hp. destruct Hp as [_ Hp].
      unfold inner_of, rows_of. cbn [filter]. rewrite <- E. rewrite Z.eqb_sym.
      apply negb_true_iff in Hp. now rewrite Hp.
  - apply Z.eqb_neq in E. assert (Hlt : (u < user r)%Z). { specialize (Hu r (or_introl eq_refl)). lia. }
    rewrite IH; [|exact HS'|exact Hge].
    assert (Hnone : forall p, (p < user r)%Z -> ~ In p (map user (filter pass rows))).
    { intros p Hp X. apply in_map_iff in X. destruct X as (x & Ex & Hx). apply filter_In in Hx.
      specialize (Hge x (proj1 Hx)). lia. }
    rewrite <- app_assoc. cbn [app]. f_equal. f_equal.
    + unfold inner_of, rows_of. cbn [filter]. replace (Z.eqb (user r) u) with false by (symmetry; apply Z.eqb_neq; lia).
      change (filter (fun r0 => Z.eqb (user r0) u) (filter pass rows)) with (rows_of user (filter pass rows) u).
      rewrite rows_of_none by now apply Hnone. reflexivity.
    + cbn [distinct_users filter]. replace (Z.eqb (user r) u) with false by (symmetry; apply Z.eqb_neq; lia).
      cbn [negb map]. f_equal.
      * unfold inner_of, rows_of. cbn [filter]. rewrite Z.eqb_refl. reflexivity.
      * rewrite filter_id with (l := filter _ _).
        2:{ intros p Hp. apply filter_In in Hp. destruct Hp as [Hp _]. apply distinct_users_in in Hp.
            apply negb_true_iff, Z.eqb_neq. intros ->. now apply (Hnone u). }
        apply map_ext_in. intros p Hp. apply filter_In in Hp. destruct Hp as [_ Hp].
        unfold inner_of, rows_of. cbn [filter]. rewrite Z.eqb_sym. apply negb_true_iff in Hp. now rewrite Hp.
Qed.

(** The first row sets the current user. *)
Definition run_all (rows : list R) : list I :=
  match rows with [] => [] | r :: _ => run_out (fold_left run_row rows ([], i0, user r)) end.
Definition phantom (rows : list R) : bool :=
  match rows with [] => false | r :: _ => negb (existsb (fun x => Z.eqb (user x) (user r)) (filter pass rows)) end.

Theorem run_all_spec rows :
  by_user user rows ->
  run_all rows =
  ((if phantom rows then [i0] else []) ++
     map (inner_of (filter pass rows) i0) (distinct_users user (filter pass rows)))%list.
Proof.
  intros HS. destruct rows as [|r0 rows]; [reflexivity|]. unfold run_all. set (rows1 := r0 :: rows) in *.
  rewrite run_fold; [|exact HS|now apply (by_user_head user)]. cbn [app].
  unfold phantom, rows1. fold rows1.
  destruct (existsb (fun x => Z.eqb (user x) (user r0)) (filter pass rows1)) eqn:E; cbn [negb].
  - cbn [app]. pose proof (by_user_filter user pass rows1 HS) as HF.
    assert (Hh : exists x l, filter pass rows1 = x :: l /\ user x = user r0).
    { apply existsb_exists in E. destruct E as (x & Hx & Ex). apply Z.eqb_eq in Ex.
      destruct (filter pass rows1) as [|y l] eqn:EF; [destruct Hx|]. exists y, l. split; [reflexivity|].
      assert (Hy : In y rows1). { apply (proj1 (filter_In pass y rows1)). rewrite EF. now left. }
      pose proof (by_user_head user _ _ HS y Hy). pose proof (by_user_head user _ _ HF x Hx). lia. }
    destruct Hh as (x & l & EF & Ex). rewrite EF. cbn [distinct_users filter map].
    rewrite Ex, Z.eqb_refl. cbn [negb]. f_equal.
    f_equal. rewrite filter_filter. apply filter_ext. intros a. destruct (Z.eqb a (user r0)); reflexivity.
  - cbn [app]. rewrite (filter_id _ (distinct_users user (filter pass rows1))).
    2:{ intros p Hp. apply distinct_users_in in Hp. apply negb_true_iff, Z.eqb_neq. intros ->.
        apply in_map_iff in Hp. destruct Hp as (x & Ex & Hx).
        assert (X : existsb (fun x => Z.eqb (user x) (user r0)) (filter pass rows1) = true).
        { apply existsb_exists. exists x. split; [exact Hx|]. now apply Z.eqb_eq. }
        congruence. }
    unfold inner_of at 1. rewrite rows_of_none; [reflexivity|]. intros Hp.
    apply in_map_iff in Hp. destruct Hp as (x & Ex & Hx).
    assert (X : existsb (fun x => Z.eqb (user x) (user r0)) (filter pass rows1) = true).
    { apply existsb_exists. exists x. split; [exact Hx|]. now apply Z.eqb_eq. }
    congruence.
Qed.
End Runs.

Lemma distinct_users_NoDup {R} (user : R -> Z) rows : NoDup (distinct_users user rows).
Proof.
  induction rows as [|r rows IH]; cbn; constructor.
  - rewrite filter_In, Z.eqb_refl. cbn. intros [_ X]. discriminate.
  - now apply NoDup_filter.
Qed.
Lemma distinct_users_len {R} (user : R -> Z) rows :
  length (distinct_users user rows) = length (nodup Z.eq_dec (map user rows)).
Proof.
  apply Permutation_length. apply NoDup_Permutation; [apply distinct_users_NoDup|apply NoDup_nodup|].
  intros p. rewrite distinct_users_in, nodup_In. tauto.
Qed.

(** ** The partitioned groups as runs *)
Section Partitioned.
Context {R : Type}.
Variable c : Columns R.
Variables lo hi : Qc.
Variable user : R -> Z.

Definition cnt_step (distinct dec128 : bool) (n : Qc) (_ : R) : Qc := (if (distinct && negb dec128)%bool then 1 else n + 1)%Qc.

Lemma pgroup_runs f distinct dec128 rows :
  rows <> [] ->
  pgroup_result (fold_left (fun g r => fst (pgroup_row c distinct dec128 r (user r) g)) rows (new_pgroup lo hi f)) =
  result (acc_all (make_new lo hi f) (run_all user (passes c) 0%Qc (cnt_step distinct dec128) rows)).
Proof.
  intros Hne. destruct rows as [|r0 rows]; [congruence|]. clear Hne. unfold run_all.
  assert (G : forall rows g l i u,
    pg_first g = false -> pg_last g = u -> pg_count g = i -> pg_outer g = acc_all (make_new lo hi f) l ->
    pgroup_result (fold_left (fun g r => fst (pgroup_row c distinct dec128 r (user r) g)) rows g) =
    result (acc_all (make_new lo hi f) (run_out (fold_left (run_row user (passes c) 0%Qc (cnt_step distinct dec128)) rows (l, i, u))))).
  { clear r0 rows. induction rows as [|r rows IH]; intros g l i u Hf Hl Hc Ho.
    - cbn [fold_left run_out]. unfold pgroup_result. rewrite Ho, Hc. unfold acc_all. rewrite fold_left_app. reflexivity.
    - cbn [fold_left run_row]. unfold pgroup_row at 2. rewrite Hf, Hl. destruct (passes c r); cbn [negb].
      + destruct (Z.eqb u (user r)) eqn:E; cbn [fst].
        * apply IH; cbn [pg_first pg_last pg_count pg_outer]; auto.
          -- apply Z.eqb_eq in E. auto.
          -- unfold cnt_step. destruct (distinct && negb dec128)%bool; [reflexivity|]. now rewrite Hc.
        * apply IH; cbn [pg_first pg_last pg_count pg_outer]; auto.
          rewrite Ho, Hc. unfold acc_all. rewrite fold_left_app. reflexivity.
      + cbn [fst]. apply IH; cbn [pg_first pg_last pg_count pg_outer]; auto. }
  cbn [fold_left].
  replace (fst (pgroup_row c distinct dec128 r0 (user r0) (new_pgroup lo hi f)))
    with (fst (pgroup_row c distinct dec128 r0 (user r0) (mkPG 0 (make_new lo hi f) false (user r0)))) by reflexivity.
  apply (G (r0 :: rows) (mkPG 0 (make_new lo hi f) false (user r0)) [] 0%Qc (user r0)); reflexivity.
Qed.

Lemma reset_new f l : reset lo hi (acc_all (make_new lo hi f) l) = make_new lo hi f.
Proof.
  destruct f; cbn [make_new]; rewrite ?acc_sum, ?acc_cnt, ?acc_avg; try reflexivity.
  - destruct (acc_min l hi) as (v & -> & _). reflexivity.
  - destruct (acc_max l lo) as (v & -> & _). reflexivity.
Qed.
Lemma reset_same f a : (exists l, a = acc_all (make_new lo hi f) l) -> reset lo hi a = make_new lo hi f.
Proof. intros [l ->]. apply reset_new. Qed.

Lemma igroup_runs fi fo rows :
  rows <> [] ->
  igroup_result (fold_left (fun g r => igroup_row c lo hi r (user r) g) rows (new_igroup lo hi fi fo)) =
  result (acc_all (make_new lo hi fo)
    (map result (run_all user (passes c) (make_new lo hi fi) (fun a r => accumulate a (raw_value c r)) rows))).
Proof.
  intros Hne. destruct rows as [|r0 rows]; [congruence|]. clear Hne. unfold run_all.
  set (stp := fun a r => accumulate a (raw_value c r)).
  assert (G : forall rows g l i u,
    ig_first g = false -> ig_last g = u -> ig_inner g = i -> (exists vs, i = acc_all (make_new lo hi fi) vs) ->
    ig_outer g = acc_all (make_new lo hi fo) (map result l) ->
    igroup_result (fold_left (fun g r => igroup_row c lo hi r (user r) g) rows g) =
    result (acc_all (make_new lo hi fo) (map result (run_out (fold_left (run_row user (passes c) (make_new lo hi fi) stp) rows (l, i, u)))))).
  { clear r0 rows. induction rows as [|r rows IH]; intros g l i u Hf Hl Hc Hv Ho.
    - cbn [fold_left run_out]. unfold igroup_result. rewrite Ho, Hc. unfold acc_all. rewrite map_app, fold_left_app. reflexivity.
    - cbn [fold_left run_row]. unfold igroup_row at 2. rewrite Hf, Hl. destruct (passes c r); cbn [negb].
      + destruct (Z.eqb u (user r)) eqn:E.
        * apply IH; cbn [ig_first ig_last ig_inner ig_outer]; auto.
          -- apply Z.eqb_eq in E. auto.
          -- rewrite Hc. reflexivity.
          -- destruct Hv as [vs ->]. exists (vs ++ [raw_value c r])%list. unfold acc_all. rewrite fold_left_app. reflexivity.
        * apply IH; cbn [ig_first ig_last ig_inner ig_outer]; auto.
          -- rewrite Hc, (reset_same fi _ Hv). reflexivity.
          -- exists [raw_value c r]. reflexivity.
          -- rewrite Ho, Hc. unfold acc_all. rewrite map_app, fold_left_app. reflexivity.
      + apply IH; cbn [ig_first ig_last ig_inner ig_outer]; auto. }
  cbn [fold_left].
  replace (igroup_row c lo hi r0 (user r0) (new_igroup lo hi fi fo))
    with (igroup_row c lo hi r0 (user r0) (mkIG (make_new lo hi fi) (make_new lo hi fo) false (user r0))) by reflexivity.
  apply (G (r0 :: rows) (mkIG (make_new lo hi fi) (make_new lo hi fo) false (user r0)) [] (make_new lo hi fi) (user r0)); try reflexivity.
  exists []. reflexivity.
Qed.
End Partitioned.
