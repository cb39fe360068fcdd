(** Facts about machine numbers and the aggregates kept in them. *)
From Coq Require Import List ZArith QArith Qcanon Qcabs Bool Lia.
From Verif Require Import Aggregate AggSpec AggFacts Numbers NumbersSpec.
Import ListNotations.
Local Open Scope Qc_scope.

(** ** Integers among the rationals *)
Lemma of_int_q z : (this (of_int z) == inject_Z z)%Q.
Proof. unfold of_int. cbn [this Q2Qc]. apply Qred_correct. Qed.
Lemma of_int_add a b : of_int (a + b) = of_int a + of_int b.
Proof. apply Qc_is_canon. rewrite of_int_q, inject_Z_plus. unfold Qcplus. cbn [this Q2Qc]. rewrite Qred_correct, !of_int_q. reflexivity. Qed.
Lemma of_int_mul a b : of_int (a * b) = of_int a * of_int b.
Proof. apply Qc_is_canon. rewrite of_int_q, inject_Z_mult. unfold Qcmult. cbn [this Q2Qc]. rewrite Qred_correct, !of_int_q. reflexivity. Qed.
Lemma of_int_opp a : of_int (- a) = - of_int a.
Proof. apply Qc_is_canon. rewrite of_int_q, inject_Z_opp. unfold Qcopp. cbn [this Q2Qc]. rewrite Qred_correct, !of_int_q. reflexivity. Qed.
Lemma of_int_le a b : (a <= b)%Z <-> of_int a <= of_int b.
Proof. unfold Qcle. rewrite !of_int_q, <- Zle_Qle. reflexivity. Qed.
Lemma of_int_lt a b : (a < b)%Z <-> of_int a < of_int b.
Proof. unfold Qclt. rewrite !of_int_q, <- Zlt_Qlt. reflexivity. Qed.
Lemma le_int a b : (a <= b)%Z -> of_int a <= of_int b. Proof. intros H. exact (proj1 (of_int_le a b) H). Qed.
Lemma int_le a b : of_int a <= of_int b -> (a <= b)%Z. Proof. intros H. exact (proj2 (of_int_le a b) H). Qed.
Lemma of_int_inj a b : of_int a = of_int b -> a = b.
Proof. intros H. apply Z.le_antisymm; apply int_le; rewrite H; apply Qcle_refl. Qed.
Lemma of_int_0 : of_int 0 = 0. Proof. reflexivity. Qed.
Lemma of_int_1 : of_int 1 = 1. Proof. reflexivity. Qed.
Lemma of_int_nat n : of_int (Z.of_nat n) = qc_of_nat n. Proof. reflexivity. Qed.
Lemma trunc_int z : trunc (of_int z) = z.
Proof.
  unfold trunc. pose proof (of_int_q z) as E. unfold Qeq in E. cbn [inject_Z Qnum Qden] in E.
  rewrite Z.mul_1_r in E. rewrite E. apply Z.quot_mul. discriminate.
Qed.
Lemma of_int_abs z : Qcabs (of_int z) = of_int (Z.abs z).
Proof.
  destruct (Z.le_gt_cases 0 z) as [H|H].
  - rewrite Z.abs_eq by exact H. apply Qcabs_pos. change 0 with (of_int 0). apply le_int; exact H.
  - rewrite Z.abs_neq by lia. rewrite Qcabs_neg; [symmetry; apply of_int_opp|]. change 0 with (of_int 0). apply le_int. lia.
Qed.
Lemma m16_pos : 0 < M16. Proof. change 0 with (of_int 0). apply (proj1 (of_int_lt 0 (10 ^ 16))). reflexivity. Qed.
Lemma m16_nz : M16 <> 0. Proof. intros E. exact (Qclt_not_eq _ _ m16_pos (eq_sym E)). Qed.

(** ** Numbers a type can hold *)
Definition in_int (s : bool) (b z : Z) : Prop := (least_int s b <= z <= greatest_int s b)%Z.
Definition exact (p : Prim) (q : Qc) : Prop :=
  match width p with Some (s, b) => exists z, q = of_int z /\ in_int s b z | None => True end.
Lemma wrap_in s b z : (0 < b)%Z -> in_int s b z -> wrap s b z = z.
Proof.
  unfold in_int, wrap, least_int, greatest_int. intros Hb H. destruct s.
  - assert (E : (2 ^ b = 2 * 2 ^ (b - 1))%Z) by (rewrite <- Z.pow_succ_r by lia; f_equal; lia).
    rewrite Z.mod_small; lia.
  - apply Z.mod_small. lia.
Qed.
Lemma width_pos p s b : width p = Some (s, b) -> (0 < b)%Z.
Proof. destruct p; cbn; intros [= <- <-]; reflexivity. Qed.
Lemma hold_exact p q : exact p q -> hold p q = q.
Proof.
  unfold exact, hold. destruct (width p) as [[s b]|] eqn:E; [|reflexivity].
  intros (z & -> & H). rewrite trunc_int, wrap_in; auto. eapply width_pos; eauto.
Qed.
Lemma cast_exact t p q : exact p q -> width t <> None \/ width p = None -> cast t p q = q.
Proof.
  unfold exact, cast. destruct (width p) as [[s b]|] eqn:E; [|reflexivity].
  intros (z & -> & H) [N|[=]]. destruct (width t) as [[s' b']|]; [|congruence].
  rewrite trunc_int, wrap_in; auto. eapply width_pos; eauto.
Qed.
Lemma over_one p q : exact p q -> over p q 1 = q.
Proof.
  unfold exact, over. destruct (width p) as [[s b]|]; [|intros _; field; discriminate].
  intros (z & -> & _). change 1 with (of_int 1). rewrite !trunc_int. now rewrite Z.quot_1_r.
Qed.

(** ** Accumulating *)
Fixpoint smooth (p : Prim) (a : Acc) (l : list Qc) : Prop :=
  match l with [] => True | x :: t => hold_acc p (accumulate a x) = accumulate a x /\ smooth p (accumulate a x) t end.
Lemma smooth_run p l : forall a, smooth p a l -> fold_left (acc_in p) l a = acc_all a l.
Proof.
  induction l as [|x l IH]; intros a H; [reflexivity|]. destruct H as [H1 H2]. cbn [fold_left].
  unfold acc_in at 2. rewrite H1. rewrite (IH _ H2). reflexivity.
Qed.
Definition within (p : Prim) (q : Qc) : Prop :=
  match width p with None => True | Some (s, b) => q <= of_int (greatest_int s b) end.
Definition runs (p : Prim) (f : Fn) (l : list Qc) : Prop :=
  match f with
  | Sum => (forall x, In x l -> exact p x) /\ within p (qsum (map Qcabs l))
  | Min | Max => forall x, In x l -> least p <= x /\ x <= greatest p
  | Avg => width p = None
  | Cnt => within p (qlen l)
  end.
Lemma qsum_cons x l : qsum (x :: l) = x + qsum l. Proof. reflexivity. Qed.
Lemma qlen_cons {A} (x : A) l : qlen (x :: l) = qlen l + 1.
Proof. unfold qlen. cbn [length]. apply qc_nat_S. Qed.
Lemma qsum_app a b : qsum (a ++ b) = qsum a + qsum b.
Proof. induction a as [|x a IH]; cbn [app]; [cbn; ring|]. rewrite !qsum_cons, IH. ring. Qed.
Lemma qlen_app {A} (a b : list A) : qlen (a ++ b) = qlen a + qlen b.
Proof. unfold qlen. rewrite app_length. apply qc_nat_add. Qed.
Lemma qlen_nonneg {A} (l : list A) : 0 <= qlen l.
Proof. change 0 with (qc_of_nat 0). apply qc_nat_le. lia. Qed.
Lemma qlen_int {A} (l : list A) : qlen l = of_int (Z.of_nat (length l)). Proof. reflexivity. Qed.
Lemma abs_sum_nonneg l : 0 <= qsum (map Qcabs l).
Proof.
  induction l as [|x l IH]; [apply Qcle_refl|]. cbn [map]. rewrite qsum_cons. change 0 with (0 + 0).
  apply Qcplus_le_compat; [apply Qcabs_nonneg|exact IH].
Qed.
Lemma le_add_l a b c : 0 <= b -> a <= c -> a <= b + c.
Proof. intros H H'. replace a with (0 + a) by ring. now apply Qcplus_le_compat. Qed.
Lemma abs_le_sum x l : In x l -> Qcabs x <= qsum (map Qcabs l).
Proof.
  induction l as [|y l IH]; [intros []|]. cbn [map In]. rewrite qsum_cons. intros [-> |H].
  - rewrite Qcplus_comm. apply le_add_l; [apply abs_sum_nonneg|apply Qcle_refl].
  - apply le_add_l; [apply Qcabs_nonneg|auto].
Qed.
Lemma abs_qsum l : Qcabs (qsum l) <= qsum (map Qcabs l).
Proof.
  induction l as [|x l IH]; [vm_compute; discriminate|]. cbn [map]. rewrite !qsum_cons.
  eapply Qcle_trans; [apply Qcabs_triangle|]. apply Qcplus_le_compat; [apply Qcle_refl|exact IH].
Qed.
Lemma abs_range z m : Qcabs (of_int z) <= of_int m <-> (- m <= z <= m)%Z.
Proof. rewrite of_int_abs, <- of_int_le. lia. Qed.

Lemma exact_add p x y bound : exact p x -> exact p y -> within p bound -> Qcabs (x + y) <= bound -> exact p (x + y).
Proof.
  unfold exact, within. destruct (width p) as [[s b]|] eqn:E; [|auto].
  intros (z & -> & H1) (z' & -> & H2) W B. exists (z + z')%Z. rewrite of_int_add. split; [reflexivity|].
  rewrite <- of_int_add in B. assert (C : Qcabs (of_int (z + z')) <= of_int (greatest_int s b)) by (eapply Qcle_trans; eauto).
  apply abs_range in C. unfold in_int, least_int, greatest_int in *. destruct s; lia.
Qed.
Lemma smooth_sum p l : forall s, exact p s -> (forall x, In x l -> exact p x) ->
  within p (Qcabs s + qsum (map Qcabs l)) -> smooth p (ASum s) l.
Proof.
  induction l as [|x l IH]; intros s Hs Hl W; [exact Logic.I|]. cbn [smooth accumulate hold_acc].
  assert (B : Qcabs (s + x) <= Qcabs s + qsum (map Qcabs (x :: l))).
  { eapply Qcle_trans; [apply Qcabs_triangle|]. apply Qcplus_le_compat; [apply Qcle_refl|]. apply abs_le_sum. now left. }
  assert (E : exact p (s + x)) by (apply exact_add with (bound := Qcabs s + qsum (map Qcabs (x :: l))); auto; apply Hl; now left).
  split; [now rewrite hold_exact|]. apply IH; [exact E|intros y Hy; apply Hl; now right|].
  unfold within in *. destruct (width p) as [[sg b]|]; [|auto]. eapply Qcle_trans; [|exact W].
  cbn [map]. rewrite qsum_cons, Qcplus_assoc. apply Qcplus_le_compat; [apply Qcabs_triangle|apply Qcle_refl].
Qed.
Lemma exact_0 p : exact p 0.
Proof.
  unfold exact. destruct p; cbn [width]; try exact Logic.I; (exists 0%Z; split; [reflexivity|]; unfold in_int; cbn; lia).
Qed.
Lemma smooth_cnt p l : forall n, within p (qc_of_nat n + qlen l) -> smooth p (ACnt (qc_of_nat n)) l.
Proof.
  induction l as [|x l IH]; intros n W; [exact Logic.I|]. cbn [smooth accumulate hold_acc]. rewrite <- qc_nat_S. split.
  - rewrite hold_exact; [reflexivity|]. unfold exact, within in *. destruct (width p) as [[s b]|] eqn:E; [|exact Logic.I].
    exists (Z.of_nat (S n)). rewrite of_int_nat. split; [reflexivity|].
    rewrite qlen_cons in W. unfold qlen in W. rewrite <- qc_nat_S, <- qc_nat_add, <- of_int_nat, <- of_int_le in W.
    unfold in_int, least_int. pose proof (Z.pow_nonneg 2 (b - 1)). unfold greatest_int in *. destruct s; lia.
  - apply IH. rewrite qlen_cons in W. rewrite qc_nat_S. now replace (qc_of_nat n + 1 + qlen l) with (qc_of_nat n + (qlen l + 1)) by ring.
Qed.
Lemma smooth_m p l : (forall m, smooth p (AMin m) l) /\ (forall m, smooth p (AMax m) l).
Proof. induction l as [|x l [H1 H2]]; split; intros m; cbn [smooth accumulate hold_acc]; auto. Qed.
Lemma smooth_avg p l : width p = None -> forall s n, smooth p (AAvg s n) l.
Proof.
  intros W. induction l as [|x l IH]; intros s n; [exact Logic.I|]. cbn [smooth accumulate hold_acc]. unfold hold. rewrite W. auto.
Qed.
Lemma acc_shape f lo hi l : match acc_all (make_new lo hi f) l with AAvg _ _ => f = Avg | _ => f <> Avg end.
Proof.
  destruct f; cbn [make_new]; [rewrite acc_sum|destruct (acc_min l hi) as (v & -> & _)|destruct (acc_max l lo) as (v & -> & _)|rewrite acc_avg|rewrite acc_cnt]; congruence.
Qed.
Lemma stage_run p f l : runs p f l ->
  acc_result p (fold_left (acc_in p) l (acc_new p f)) = result (acc_all (acc_new p f) l).
Proof.
  intros R. rewrite smooth_run.
  - unfold acc_result. pose proof (acc_shape f (least p) (greatest p) l) as S. unfold acc_new. destruct (acc_all _ l) eqn:E; try reflexivity.
    subst f. cbn [runs] in R. unfold over. now rewrite R.
  - unfold acc_new. destruct f; cbn [make_new runs] in *.
    + destruct R as [R1 R2]. apply smooth_sum; auto using exact_0. rewrite (Qcabs_pos 0) by apply Qcle_refl. now rewrite Qcplus_0_l.
    + apply smooth_m.
    + apply smooth_m.
    + now apply smooth_avg.
    + change 0 with (qc_of_nat 0). apply smooth_cnt. now rewrite qc_nat_0, Qcplus_0_l.
Qed.
Lemma result_sum_cnt lo hi f l : f = Sum \/ f = Avg \/ f = Cnt -> is_agg f l (result (acc_all (make_new lo hi f) l)).
Proof.
  intros H. replace (acc_all (make_new lo hi f) l) with (acc_all (make_new 0 0 f) l) by (destruct H as [-> |[-> | ->]]; reflexivity).
  destruct H as [-> |[-> | ->]]; cbn [make_new is_agg].
  - rewrite acc_sum. cbn [result]. ring.
  - intros Hne. rewrite acc_avg. cbn [result]. apply qlen_nonzero in Hne. field.
    replace (0 + qlen l)%Qc with (qlen l) by ring. exact Hne.
  - rewrite acc_cnt. cbn [result]. ring.
Qed.
Lemma stage p f l : runs p f l -> is_agg f l (acc_result p (fold_left (acc_in p) l (acc_new p f))).
Proof.
  intros R. rewrite (stage_run p f l R). unfold acc_new. destruct f; cbn [runs] in R; try (apply result_sum_cnt; now auto); now apply acc_is_agg.
Qed.

(** ** Several workers *)
Lemma within_mono p a b : a <= b -> within p b -> within p a.
Proof. unfold within. destruct (width p) as [[s w]|]; [|auto]. intros H1 H2. eapply Qcle_trans; eauto. Qed.
Lemma exact_qsum p l : (forall x, In x l -> exact p x) -> within p (qsum (map Qcabs l)) -> exact p (qsum l).
Proof.
  induction l as [|x l IH]; intros H W; [apply exact_0|].
  pose proof W as W'. cbn [map] in W'. rewrite qsum_cons in W'.
  apply exact_add with (bound := qsum (map Qcabs (x :: l))); auto.
  - apply H. now left.
  - apply IH; [intros y Hy; apply H; now right|]. eapply within_mono; [|exact W']. apply le_add_l; [apply Qcabs_nonneg|apply Qcle_refl].
  - rewrite <- qsum_cons. apply abs_qsum.
Qed.
Lemma qsum_concat ls : qsum (concat ls) = qsum (map qsum ls).
Proof. induction ls as [|l ls IH]; [reflexivity|]. cbn [concat map]. now rewrite qsum_app, qsum_cons, IH. Qed.
Lemma qlen_concat {A} (ls : list (list A)) : qlen (concat ls) = qsum (map qlen ls).
Proof. induction ls as [|l ls IH]; [reflexivity|]. cbn [concat map]. now rewrite qlen_app, qsum_cons, IH. Qed.
Lemma part_le (g : list Qc -> Qc) ls l : (forall l, 0 <= g l) -> In l ls -> g l <= qsum (map g ls).
Proof.
  intros Hg. induction ls as [|l' ls IH]; [intros []|]. cbn [map In]. rewrite qsum_cons. intros [-> |H].
  - rewrite Qcplus_comm. apply le_add_l; [|apply Qcle_refl]. clear IH. induction ls as [|a ls IH]; [apply Qcle_refl|].
    cbn [map]. rewrite qsum_cons. apply le_add_l; auto.
  - apply le_add_l; auto.
Qed.
Lemma runs_part p f ls l : runs p f (concat ls) -> In l ls -> runs p f l.
Proof.
  intros R H. destruct f; cbn [runs] in *; auto.
  - destruct R as [R1 R2]. split; [intros x Hx; apply R1; apply in_concat; eauto|].
    eapply within_mono; [|exact R2]. rewrite concat_map, qsum_concat, map_map.
    apply (part_le (fun l => qsum (map Qcabs l)) ls l); auto using abs_sum_nonneg.
  - intros x Hx. apply R. apply in_concat. eauto.
  - intros x Hx. apply R. apply in_concat. eauto.
  - eapply within_mono; [|exact R]. rewrite qlen_concat. apply (part_le qlen); auto. intros; apply qlen_nonneg.
Qed.
Lemma abs_sums_le ls : qsum (map Qcabs (map qsum ls)) <= qsum (map Qcabs (concat ls)).
Proof.
  induction ls as [|l ls IH]; [apply Qcle_refl|]. cbn [map concat]. rewrite qsum_cons, map_app, qsum_app.
  apply Qcplus_le_compat; [apply abs_qsum|exact IH].
Qed.
Lemma abs_lens (ls : list (list Qc)) : map Qcabs (map qlen ls) = map qlen ls.
Proof. rewrite map_map. apply map_ext. intros l. apply Qcabs_pos, qlen_nonneg. Qed.
Definition run_all (p : Prim) (f : Fn) (l : list Qc) : Qc := acc_result p (fold_left (acc_in p) l (acc_new p f)).
Lemma combine_ok p f ls : runs p f (concat ls) -> (forall l, In l ls -> l <> []) -> ls <> [] -> (f = Avg -> length ls = 1%nat) ->
  is_agg f (concat ls) (combined p f (map (run_all p f) ls)).
Proof.
  intros R Hne Hls Havg.
  assert (A : forall l, In l ls -> is_agg f l (run_all p f l)) by (intros l Hl; apply stage; eapply runs_part; eauto).
  change (combined p f (map (run_all p f) ls)) with (run_all p (combine_op f) (map (run_all p f) ls)).
  destruct f; cbn [combine_op].
  - assert (E : map (run_all p Sum) ls = map qsum ls) by (apply map_ext_in; intros l Hl; exact (A l Hl)).
    rewrite E. cbn [is_agg]. rewrite qsum_concat. apply (stage p Sum). destruct R as [R1 R2]. split.
    + intros x Hx. apply in_map_iff in Hx. destruct Hx as (l & <- & Hl). pose proof (runs_part p Sum ls l (conj R1 R2) Hl) as [Q1 Q2].
      now apply exact_qsum.
    + eapply within_mono; [|exact R2]. apply abs_sums_le.
  - intros _. assert (S : is_agg Min (map (run_all p Min) ls) (run_all p Min (map (run_all p Min) ls))).
    { apply stage. intros x Hx. apply in_map_iff in Hx. destruct Hx as (l & <- & Hl). apply R. apply in_concat. exists l. split; [exact Hl|]. apply (A l Hl (Hne l Hl)). }
    destruct S as [S1 S2]; [destruct ls; [congruence|discriminate]|]. split.
    + apply in_map_iff in S1. destruct S1 as (l & E & Hl). rewrite <- E. apply in_concat. exists l. split; [exact Hl|]. apply (A l Hl (Hne l Hl)).
    + intros x Hx. apply in_concat in Hx. destruct Hx as (l & Hl & Hx). eapply Qcle_trans; [apply (S2 (run_all p Min l)); now apply in_map|].
      now apply (A l Hl (Hne l Hl)).
  - intros _. assert (S : is_agg Max (map (run_all p Max) ls) (run_all p Max (map (run_all p Max) ls))).
    { apply stage. intros x Hx. apply in_map_iff in Hx. destruct Hx as (l & <- & Hl). apply R. apply in_concat. exists l. split; [exact Hl|]. apply (A l Hl (Hne l Hl)). }
    destruct S as [S1 S2]; [destruct ls; [congruence|discriminate]|]. split.
    + apply in_map_iff in S1. destruct S1 as (l & E & Hl). rewrite <- E. apply in_concat. exists l. split; [exact Hl|]. apply (A l Hl (Hne l Hl)).
    + intros x Hx. apply in_concat in Hx. destruct Hx as (l & Hl & Hx). eapply Qcle_trans; [|apply (S2 (run_all p Max l)); now apply in_map].
      now apply (A l Hl (Hne l Hl)).
  - specialize (Havg eq_refl). destruct ls as [|l [|l' ls]]; try discriminate. cbn [map concat]. rewrite app_nil_r.
    assert (S : is_agg Avg [run_all p Avg l] (run_all p Avg [run_all p Avg l])) by (apply stage; exact R).
    intros Hl. rewrite <- (A l (or_introl eq_refl) Hl). f_equal.
    specialize (S ltac:(discriminate)). unfold qlen in S. cbn [length] in S. rewrite qc_nat_S, qc_nat_0 in S.
    remember (run_all p Avg [run_all p Avg l]) as v eqn:Ev. clear Ev. cbn [qsum fold_right] in S.
    transitivity (v * (0 + 1)); [ring|]. rewrite S. ring.
  - assert (E : map (run_all p Cnt) ls = map qlen ls) by (apply map_ext_in; intros l Hl; exact (A l Hl)).
    rewrite E. cbn [is_agg]. rewrite qlen_concat. apply (stage p Sum). cbn [runs] in R. rewrite qlen_concat in R. split.
    + intros x Hx. apply in_map_iff in Hx. destruct Hx as (l & <- & Hl). pose proof (part_le qlen ls l (fun l => qlen_nonneg l) Hl) as B.
      unfold exact, within in *. destruct (width p) as [[s b]|]; [|exact Logic.I]. exists (Z.of_nat (length l)). split; [reflexivity|].
      assert (C : qlen l <= of_int (greatest_int s b)) by (eapply Qcle_trans; eauto). rewrite qlen_int in C. apply int_le in C.
      unfold in_int, least_int. pose proof (Z.pow_nonneg 2 (b - 1)). destruct s; lia.
    + now rewrite abs_lens.
Qed.

(** ** Scales *)
Definition scale (dt : DT) : Qc := match dt with DDec => M16 | _ => 1 end.
Lemma scale_pos dt : 0 < scale dt. Proof. destruct dt; reflexivity. Qed.
Lemma pos_nz k : 0 < k -> k <> 0. Proof. intros H E. exact (Qclt_not_eq _ _ H (eq_sym E)). Qed.
Lemma scale_nz dt : scale dt <> 0. Proof. apply pos_nz, scale_pos. Qed.
Lemma worth_scale dt v : worth dt v * scale dt = v.
Proof. destruct dt; cbn [worth scale]; try ring. unfold M16. field. exact m16_nz. Qed.
Lemma qsum_scale k l : qsum (map (fun x => x * k) l) = qsum l * k.
Proof. induction l as [|x l IH]; [cbn; ring|]. cbn [map]. rewrite !qsum_cons, IH. ring. Qed.
Lemma qlen_map {A B} (g : A -> B) l : qlen (map g l) = qlen l.
Proof. unfold qlen. now rewrite map_length. Qed.
Lemma map_nil {A B} (g : A -> B) l : map g l <> [] <-> l <> [].
Proof. destruct l; cbn; split; congruence. Qed.
Lemma is_agg_scale f k l v : 0 < k -> f <> Cnt -> is_agg f (map (fun x => x * k) l) v -> is_agg f l (v / k).
Proof.
  intros K F H. pose proof (pos_nz k K) as NZ.
  assert (B : forall a b, a * k <= b * k -> a <= b).
  { intros a b L. destruct (Qclt_le_dec b a) as [C|C]; [|exact C]. exfalso. apply (Qcle_not_lt _ _ L). now apply Qcmult_lt_compat_r. }
  destruct f; cbn [is_agg] in *.
  - rewrite H, qsum_scale. field. exact NZ.
  - intros Hl. destruct H as [H1 H2]; [now apply map_nil|]. apply in_map_iff in H1. destruct H1 as (x & <- & Hx).
    replace (x * k / k) with x by (field; exact NZ). split; [exact Hx|]. intros y Hy. apply B. apply H2. apply in_map_iff. eauto.
  - intros Hl. destruct H as [H1 H2]; [now apply map_nil|]. apply in_map_iff in H1. destruct H1 as (x & <- & Hx).
    replace (x * k / k) with x by (field; exact NZ). split; [exact Hx|]. intros y Hy. apply B. apply H2. apply in_map_iff. eauto.
  - intros Hl. assert (E := H (proj2 (map_nil _ _) Hl)). rewrite qlen_map, qsum_scale in E.
    replace (qsum l) with (qsum l * k / k) by (field; exact NZ). rewrite <- E. field. exact NZ.
  - congruence.
Qed.
