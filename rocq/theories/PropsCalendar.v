(** Theorems for C44 and C45: report intervals. *)
From Coq Require Import List ZArith Bool Lia ZifyBool Sorted.
From Verif Require Import Calendar CalendarFacts CalendarSpec.
Import ListNotations.
Local Open Scope Z_scope.
Ltac Zify.zify_post_hook ::= Z.div_mod_to_equations.

Lemma leap_spec : forall y, leap y = true <-> LeapYear y.
Proof.
  intro y. unfold leap, LeapYear. rewrite andb_true_iff, orb_true_iff, negb_true_iff.
  rewrite !Z.eqb_eq, Z.eqb_neq. rewrite !Z.mod_divide by lia. split.
  - intros [A [B|B]]; [left; split; assumption|right; exact B].
  - intros [[A B]|B]; [split; [exact A|left; exact B]|]. split; [|right; exact B].
    destruct B as [k E]. exists (100 * k). lia.
Qed.

Lemma year_length_iff : forall y n, YearLength y n <-> n = year_len y.
Proof.
  intros y n. assert (L := leap_spec y). unfold year_len. split.
  - intros [H|H].
    + rewrite (proj2 L H). reflexivity.
    + destruct (leap y); [exfalso; apply H, L; reflexivity|reflexivity].
  - intro E. subst n. destruct (leap y).
    + apply leap_year. apply L. reflexivity.
    + apply common_year. intro H. apply L in H. discriminate.
Qed.

Lemma newyear_iff : forall y d, NewYear y d <-> d = jan1 y.
Proof.
  assert (A : forall y d, NewYear y d -> d = jan1 y).
  { induction 1 as [|y d n _ IH Y|y d n _ IH Y].
    - reflexivity.
    - apply year_length_iff in Y. rewrite jan1_next. lia.
    - apply year_length_iff in Y. rewrite jan1_next in IH. lia. }
  intros y d. split; [apply A|]. intro E. subst d.
  assert (F : forall k, 0 <= k -> NewYear (1970 + k) (jan1 (1970 + k))).
  { intros k Hk. pattern k. apply natlike_ind; [constructor| |exact Hk].
    intros x Hx IH. unfold Z.succ. replace (1970 + (x + 1)) with (1970 + x + 1) by lia.
    rewrite jan1_next. apply year_after; [exact IH|]. apply year_length_iff. reflexivity. }
  assert (B : forall k, 0 <= k -> NewYear (1970 - k) (jan1 (1970 - k))).
  { intros k Hk. pattern k. apply natlike_ind; [constructor| |exact Hk].
    intros x Hx IH. unfold Z.succ.
    replace (jan1 (1970 - (x + 1))) with (jan1 (1970 - (x + 1) + 1) - year_len (1970 - (x + 1)))
      by (rewrite jan1_next; lia).
    apply year_before; [|apply year_length_iff; reflexivity].
    replace (1970 - (x + 1) + 1) with (1970 - x) by lia. exact IH. }
  destruct (Z_le_gt_dec 1970 y) as [H|H].
  - replace y with (1970 + (y - 1970)) by lia. apply F. lia.
  - replace y with (1970 - (1970 - y)) by lia. apply B. lia.
Qed.

Lemma month_length_iff : forall y m n, 1 <= m <= 12 ->
  (MonthLength y m n <-> n = month_len (12 * y + (m - 1))).
Proof.
  intros y m n Hm. assert (L := leap_spec y). unfold month_len.
  replace ((12 * y + (m - 1)) / 12) with y by lia.
  replace ((12 * y + (m - 1)) mod 12) with (m - 1) by lia.
  assert (C : m = 1 \/ m = 2 \/ m = 3 \/ m = 4 \/ m = 5 \/ m = 6 \/ m = 7 \/ m = 8 \/ m = 9 \/
              m = 10 \/ m = 11 \/ m = 12) by lia.
  unfold month_lens. split.
  - intro H. inversion H as [m' M|m' M|M|M]; subst.
    + repeat (destruct M as [M|M]; [subst; reflexivity|]). subst. reflexivity.
    + repeat (destruct M as [M|M]; [subst; reflexivity|]). subst. reflexivity.
    + cbn. rewrite (proj2 L M). reflexivity.
    + cbn. destruct (leap y); [exfalso; apply M, L; reflexivity|reflexivity].
  - intro E. subst n.
    destruct C as [C|[C|C]].
    + subst. apply len_31. lia.
    + subst. cbn. destruct (leap y).
      * apply len_29, L. reflexivity.
      * apply len_28. intro H. apply L in H. discriminate.
    + repeat (destruct C as [C|C]; [subst; cbn; first [apply len_31; lia|apply len_30; lia]|]).
      subst. cbn. apply len_31. lia.
Qed.

Lemma first_of_iff : forall y m d,
  FirstOf y m d <-> 1 <= m <= 12 /\ d = month_start (12 * y + (m - 1)).
Proof.
  assert (A : forall y m d, FirstOf y m d -> 1 <= m <= 12 /\ d = month_start (12 * y + (m - 1))).
  { intros y m d H. induction H as [d N|m d n _ IH M Hm].
    - split; [lia|]. replace (12 * y + (1 - 1)) with (12 * y) by lia.
      rewrite month_start_jan. apply newyear_iff. exact N.
    - destruct IH as (R & E). split; [lia|]. apply month_length_iff in M; [|lia].
      replace (12 * y + (m + 1 - 1)) with (12 * y + (m - 1) + 1) by lia.
      rewrite month_start_next. lia. }
  intros y m d. split; [apply A|]. intros (R & E). subst d.
  assert (F : forall k, 0 <= k -> k <= 11 -> FirstOf y (k + 1) (month_start (12 * y + k))).
  { intros k Hk. pattern k. apply natlike_ind; [| |exact Hk].
    - intros _. replace (12 * y + 0) with (12 * y) by lia. rewrite month_start_jan.
      apply (january y). apply newyear_iff. reflexivity.
    - intros x Hx IH L. unfold Z.succ. replace (12 * y + (x + 1)) with (12 * y + x + 1) by lia.
      rewrite month_start_next. apply next_month; [apply IH; lia| |lia].
      apply month_length_iff; [lia|]. f_equal. lia. }
  replace m with (m - 1 + 1) at 1 by lia. apply F; lia.
Qed.

Lemma starts_iff : forall g s, Starts g s <-> exists k, s = istart g k.
Proof.
  intros g s. destruct g; unfold Starts, istart.
  - split; intros (k & E); exists k; exact E.
  - split; intros (k & E); exists k; exact E.
  - split; intros (k & E).
    + exists (k + 1). rewrite E. replace (7 * (k + 1) - 3) with (4 + 7 * k) by lia. reflexivity.
    + exists (k - 1). rewrite E. replace (4 + 7 * (k - 1)) with (7 * k - 3) by lia. reflexivity.
  - split.
    + intros (y & m & d & F & E). apply first_of_iff in F. destruct F as (_ & F).
      exists (12 * y + (m - 1)). rewrite E, F. reflexivity.
    + intros (k & E). exists (k / 12), (k mod 12 + 1), (month_start k). split; [|exact E].
      apply first_of_iff. split; [lia|]. f_equal. lia.
  - split.
    + intros (y & d & F & E). apply newyear_iff in F. exists y. rewrite E, F. reflexivity.
    + intros (k & E). exists k, (jan1 k). split; [apply newyear_iff; reflexivity|exact E].
Qed.

Lemma falls_trunc : forall g t s, Falls g t s <-> s = date_trunc g t.
Proof.
  intros g t s. rewrite trunc_eq. assert (S1 := inum_spec g t). unfold Falls. split.
  - intros (A & B & M). apply starts_iff in A. destruct A as (k & E).
    assert (K : k = inum g t); [|subst k; exact E].
    assert (k < inum g t + 1) by (apply (istart_lt_inv g); lia).
    destruct (Z_lt_le_dec k (inum g t)) as [L|L]; [|lia].
    specialize (M (istart g (inum g t)) (proj2 (starts_iff _ _) (ex_intro _ _ eq_refl))
                  ltac:(lia)).
    apply (istart_lt g) in L. lia.
  - intro E. split; [apply starts_iff; eexists; exact E|]. split; [lia|].
    intros s' A B. apply starts_iff in A. destruct A as (k & K). subst s' s.
    apply istart_mono. assert (k < inum g t + 1) by (apply (istart_lt_inv g); lia). lia.
Qed.

(** C44: truncation returns the start of the hour, day, week, month or year the time falls
    into: the latest start that is not after it. *)
Theorem C44_trunc_is_interval_start : forall g t s, date_trunc g t = s <-> Falls g t s.
Proof. intros g t s. rewrite falls_trunc. split; intro E; symmetry; exact E. Qed.
Print Assumptions C44_trunc_is_interval_start.

Theorem C44_trunc_idempotent : forall g t, date_trunc g (date_trunc g t) = date_trunc g t.
Proof. intros g t. rewrite !trunc_eq, inum_istart. reflexivity. Qed.
Print Assumptions C44_trunc_idempotent.

(** Two times share a bucket exactly when no interval starts between them. *)
Theorem C44_same_bucket_iff_same_interval : forall g t u,
  date_trunc g t = date_trunc g u <->
  (forall s, Starts g s -> (s <= t <-> s <= u)).
Proof.
  intros g t u. split.
  - intros E s St. destruct (proj2 (falls_trunc g t _) eq_refl) as (A & B & M).
    destruct (proj2 (falls_trunc g u _) eq_refl) as (A' & B' & M').
    split; intro L.
    + specialize (M s St L). lia.
    + specialize (M' s St L). lia.
  - intro H. destruct (proj2 (falls_trunc g t _) eq_refl) as (A & B & M).
    apply falls_trunc. split; [exact A|]. split; [apply H; assumption|].
    intros s' St L. apply M; [exact St|]. apply H; assumption.
Qed.
Print Assumptions C44_same_bucket_iff_same_interval.

Theorem C44_trunc_monotone : forall g t u, t <= u -> date_trunc g t <= date_trunc g u.
Proof.
  intros g t u H. destruct (proj2 (falls_trunc g t _) eq_refl) as (A & B & _).
  destruct (proj2 (falls_trunc g u _) eq_refl) as (_ & _ & M). apply M; [exact A|lia].
Qed.
Print Assumptions C44_trunc_monotone.

(** 29 February 2000, 12:34:56.789 and 31 December 1969, 23:59:59.999 *)
Example C44_witness :
  let leap_day := day_number 2000 1 28 * DAY + (12 * 3600 + 34 * 60 + 56) * SEC + 789 * MS in
  let before := -1 * MS in
  map (fun g => date_trunc g leap_day) [Hour; Day; Week; Month; Year] =
    [11016 * DAY + 12 * HOUR; 11016 * DAY; 11015 * DAY; 10988 * DAY; 10957 * DAY] /\
  map (fun g => date_trunc g before) [Hour; Day; Week; Month; Year] =
    [-1 * HOUR; -1 * DAY; -3 * DAY; -31 * DAY; -365 * DAY].
Proof. vm_compute. split; reflexivity. Qed.

(** C45: the time columns increase strictly, every time of the range falls into exactly one
    of them, and every column is the interval of some time of the range. *)
Theorem C45_columns_cover_range : forall g from to,
  StronglySorted Z.lt (time_columns from to g) /\
  (forall t, from <= t <= to -> exists! c, In c (time_columns from to g) /\ Falls g t c) /\
  (from <= to -> forall c, In c (time_columns from to g) ->
     exists t, from <= t <= to /\ Falls g t c).
Proof.
  intros g from to. rewrite time_columns_eq. split; [|split].
  - set (n := Z.to_nat _). clearbody n. generalize 0%nat as a.
    induction n as [|n IH]; intro a; cbn [seq map]; constructor.
    + apply IH.
    + apply Forall_forall. intros x Hx. apply in_map_iff in Hx. destruct Hx as (i & E & Hi).
      subst x. apply in_seq in Hi. apply istart_lt. lia.
  - intros t Ht.
    assert (M1 : inum g from <= inum g t).
    { assert (A := inum_spec g from). assert (B := inum_spec g t).
      assert (inum g from < inum g t + 1) by (apply (istart_lt_inv g); lia). lia. }
    assert (M2 : inum g t <= inum g to).
    { assert (A := inum_spec g to). assert (B := inum_spec g t).
      assert (inum g t < inum g to + 1) by (apply (istart_lt_inv g); lia). lia. }
    exists (date_trunc g t). split.
    + split; [|apply falls_trunc; reflexivity]. apply in_map_iff.
      exists (Z.to_nat (inum g t - inum g from)). split.
      * rewrite trunc_eq. f_equal. lia.
      * apply in_seq. lia.
    + intros c (_ & F). symmetry. apply falls_trunc. exact F.
  - intros Hft c Hc. apply in_map_iff in Hc. destruct Hc as (i & E & Hi). apply in_seq in Hi.
    assert (A := inum_spec g from). assert (B := inum_spec g to).
    exists (Z.max from c). 
    assert (C1 : c <= to).
    { subst c. assert (M := istart_mono g (inum g from + Z.of_nat i) (inum g to) ltac:(lia)). lia. }
    split; [lia|]. apply falls_trunc. rewrite trunc_eq. subst c. f_equal. symmetry.
    apply inum_unique. assert (G := istart_gap g (inum g from + Z.of_nat i)).
    split; [lia|]. destruct i as [|i].
    + replace (inum g from + Z.of_nat 0) with (inum g from) in * by lia. units; lia.
    + assert (M := istart_mono g (inum g from + 1) (inum g from + Z.of_nat (S i)) ltac:(lia)).
      units; lia.
Qed.
Print Assumptions C45_columns_cover_range.

(** 30 January to 1 April 2023 by month. *)
Example C45_witness :
  time_columns (day_number 2023 0 29 * DAY) (day_number 2023 3 0 * DAY + HOUR) Month =
  map (fun m => day_number 2023 m 0 * DAY) [0; 1; 2; 3]%nat.
Proof. vm_compute. reflexivity. Qed.
