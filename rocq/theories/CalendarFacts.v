(** Facts about the calendar: every unit has an increasing sequence of interval starts, and
    truncation finds the last one not after the given time. *)
From Coq Require Import List ZArith Bool Lia ZifyBool.
From Verif Require Import Calendar.
Import ListNotations.
Local Open Scope Z_scope.
Ltac Zify.zify_post_hook ::= Z.div_mod_to_equations.

Definition year_len (y : Z) : Z := if leap y then 366 else 365.

Lemma jan1_next : forall y, jan1 (y + 1) = jan1 y + year_len y.
Proof.
  intro y. unfold jan1, year_len, leap.
  replace (y + 1 - 1) with y by lia.
  destruct (y mod 4 =? 0) eqn:A; cbn [andb].
  - destruct (y mod 100 =? 0) eqn:B; cbn [negb orb].
    + destruct (y mod 400 =? 0) eqn:C; lia.
    + lia.
  - lia.
Qed.

Lemma year_len_cases : forall y, year_len y = 365 \/ year_len y = 366.
Proof. intro y. unfold year_len. destruct (leap y); lia. Qed.

Lemma jan1_1970 : jan1 1970 = 0.
Proof. reflexivity. Qed.

Lemma jan1_step : forall y k, 0 <= k -> jan1 y + 365 * k <= jan1 (y + k).
Proof.
  intros y k Hk. pattern k. apply natlike_ind; [| |exact Hk].
  - replace (y + 0) with y by lia. lia.
  - intros x Hx IH. unfold Z.succ. replace (y + (x + 1)) with (y + x + 1) by lia.
    rewrite jan1_next. destruct (year_len_cases (y + x)); lia.
Qed.

Lemma jan1_mono : forall a b, a < b -> jan1 a + 365 <= jan1 b.
Proof.
  intros a b H. assert (S1 := jan1_step a (b - a) ltac:(lia)).
  replace (a + (b - a)) with b in S1 by lia. lia.
Qed.

Lemma jan1_bounds : forall y,
  146097 * (y - 1) - 800 <= 400 * (jan1 y + 719162) <= 146097 * (y - 1) + 800.
Proof. intro y. unfold jan1. lia. Qed.

Lemma year_of_spec : forall d, jan1 (year_of d) <= d < jan1 (year_of d + 1).
Proof.
  intro d. unfold year_of.
  set (y := 400 * (d + 719162) / 146097 + 1).
  assert (Y : 146097 * (y - 1) <= 400 * (d + 719162) < 146097 * y) by (unfold y; lia).
  clearbody y.
  assert (B0 := jan1_bounds (y - 1)). assert (B1 := jan1_bounds y).
  assert (B2 := jan1_bounds (y + 1)). assert (B3 := jan1_bounds (y + 1 + 1)).
  destruct (jan1 (y + 1) <=? d) eqn:A.
  - lia.
  - destruct (d <? jan1 y) eqn:C.
    + replace (y - 1 + 1) with y by lia. lia.
    + lia.
Qed.

Lemma year_of_unique : forall d y, jan1 y <= d < jan1 (y + 1) -> year_of d = y.
Proof.
  intros d y H. assert (S1 := year_of_spec d).
  destruct (Z.lt_trichotomy (year_of d) y) as [L|[E|G]]; [|exact E|].
  - assert (M := jan1_mono (year_of d + 1) y).
    destruct (Z.eq_dec (year_of d + 1) y) as [E|NE]; [rewrite E in S1; lia|].
    specialize (M ltac:(lia)). lia.
  - assert (M := jan1_mono (y + 1) (year_of d)).
    destruct (Z.eq_dec (y + 1) (year_of d)) as [E|NE]; [rewrite E in H; lia|].
    specialize (M ltac:(lia)). lia.
Qed.

(** Months *)
Lemma month_lens_length : forall y, length (month_lens y) = 12%nat.
Proof. reflexivity. Qed.

Lemma month_lens_sum : forall y, zsum (month_lens y) = year_len y.
Proof. intro y. unfold month_lens, year_len, zsum. destruct (leap y); reflexivity. Qed.

Lemma month_lens_ok : forall y n, In n (month_lens y) -> 28 <= n <= 31.
Proof.
  intros y n H. unfold month_lens in H. cbn in H.
  destruct (leap y); repeat (destruct H as [H|H]; [lia|]); contradiction.
Qed.

Lemma split_month_spec : forall lens doy,
  (forall n, In n lens -> 0 < n) -> 0 <= doy < zsum lens ->
  let '(m, d) := split_month lens doy in
  (m < length lens)%nat /\ 0 <= d < nth m lens 0 /\ zsum (firstn m lens) + d = doy.
Proof.
  induction lens as [|n rest IH]; intros doy P H; cbn [zsum fold_right] in H; [lia|].
  cbn [split_month]. destruct (doy <? n) eqn:A.
  - cbn. lia.
  - specialize (IH (doy - n) (fun x Hx => P x (or_intror Hx))).
    unfold zsum in IH at 1. specialize (IH ltac:(lia)).
    destruct (split_month rest (doy - n)) as [m d].
    destruct IH as (L & D & E). cbn [length nth firstn zsum fold_right].
    unfold zsum in E. split; [lia|]. split; [exact D|]. lia.
Qed.

Lemma split_month_unique : forall lens m d,
  (forall n, In n lens -> 0 < n) ->
  (m < length lens)%nat -> 0 <= d < nth m lens 0 ->
  split_month lens (zsum (firstn m lens) + d) = (m, d).
Proof.
  induction lens as [|n rest IH]; intros m d P L D; cbn [length] in L; [lia|].
  destruct m as [|m].
  - cbn [firstn zsum fold_right nth] in *. cbn [split_month].
    replace (0 + d) with d by lia. destruct (d <? n) eqn:A; [reflexivity|lia].
  - cbn [nth] in D. cbn [firstn zsum fold_right split_month].
    assert (0 <= fold_right Z.add 0 (firstn m rest)).
    { assert (F : forall l, (forall x, In x l -> 0 < x) -> 0 <= fold_right Z.add 0 l).
      { induction l as [|x l I2]; intro Q; cbn; [lia|].
        assert (0 < x) by (apply Q; left; reflexivity).
        specialize (I2 (fun z Hz => Q z (or_intror Hz))). lia. }
      apply F. intros x Hx. apply P. right.
      rewrite <- (firstn_skipn m rest). apply in_or_app. left. exact Hx. }
    assert (0 < n) by (apply P; left; reflexivity).
    match goal with |- context [?z <? n] => destruct (z <? n) eqn:A end; [lia|].
    replace (n + fold_right Z.add 0 (firstn m rest) + d - n)
      with (zsum (firstn m rest) + d) by (unfold zsum; lia).
    rewrite (IH m d (fun x Hx => P x (or_intror Hx)) ltac:(lia) D). reflexivity.
Qed.

Lemma lens_pos : forall y n, In n (month_lens y) -> 0 < n.
Proof. intros y n H. apply month_lens_ok in H. lia. Qed.

Lemma civil_spec : forall d,
  let '(y, m, dd) := civil d in
  (m < 12)%nat /\ 0 <= dd < nth m (month_lens y) 0 /\ day_number y m dd = d.
Proof.
  intro d. unfold civil, day_number.
  assert (Y := year_of_spec d). rewrite jan1_next in Y.
  assert (S1 := split_month_spec (month_lens (year_of d)) (d - jan1 (year_of d))
                  (lens_pos _)).
  rewrite month_lens_sum in S1. specialize (S1 ltac:(lia)).
  destruct (split_month (month_lens (year_of d)) (d - jan1 (year_of d))) as [m dd].
  destruct S1 as (L & D & E). rewrite month_lens_length in L. split; [exact L|].
  split; [exact D|]. lia.
Qed.

Lemma sum_month_next : forall y m, (m < 12)%nat ->
  zsum (firstn (S m) (month_lens y)) = zsum (firstn m (month_lens y)) + nth m (month_lens y) 0.
Proof.
  intros y m H. unfold month_lens, zsum. generalize (if leap y then 29 else 28). intro f.
  do 12 (destruct m as [|m]; [cbn [firstn nth fold_right]; lia|]). lia.
Qed.

Lemma sum_firstn_range : forall y m, (m <= 12)%nat ->
  0 <= zsum (firstn m (month_lens y)) <= year_len y.
Proof.
  intros y m H. rewrite <- month_lens_sum. unfold month_lens, zsum.
  destruct (leap y); do 13 (destruct m as [|m]; [cbn; lia|]); lia.
Qed.

Lemma civil_day_number : forall y m dd,
  (m < 12)%nat -> 0 <= dd < nth m (month_lens y) 0 -> civil (day_number y m dd) = (y, m, dd).
Proof.
  intros y m dd L D. unfold civil.
  assert (YE : year_of (day_number y m dd) = y).
  { apply year_of_unique. rewrite jan1_next. unfold day_number.
    assert (R := sum_firstn_range y m ltac:(lia)).
    assert (R' := sum_firstn_range y (S m) ltac:(lia)).
    rewrite sum_month_next in R' by exact L. lia. }
  rewrite YE. unfold day_number.
  replace (jan1 y + zsum (firstn m (month_lens y)) + dd - jan1 y)
    with (zsum (firstn m (month_lens y)) + dd) by lia.
  rewrite (split_month_unique (month_lens y) m dd (lens_pos y)); [reflexivity|exact L|exact D].
Qed.

(** Month number [k] = 12 * year + month0. *)
Definition month_start (k : Z) : Z := day_number (k / 12) (Z.to_nat (k mod 12)) 0.
Definition month_len (k : Z) : Z := nth (Z.to_nat (k mod 12)) (month_lens (k / 12)) 0.
Definition month_of (d : Z) : Z := let '(y, m, _) := civil d in 12 * y + Z.of_nat m.

Lemma month_len_range : forall k, 28 <= month_len k <= 31.
Proof.
  intro k. unfold month_len. apply (month_lens_ok (k / 12)). apply nth_In.
  rewrite month_lens_length. lia.
Qed.

Lemma month_start_next : forall k, month_start (k + 1) = month_start k + month_len k.
Proof.
  intro k. unfold month_start, month_len, day_number.
  assert (S1 := sum_month_next (k / 12) (Z.to_nat (k mod 12)) ltac:(lia)).
  destruct (Z.eq_dec (k mod 12) 11) as [E|NE].
  - replace ((k + 1) / 12) with (k / 12 + 1) by lia.
    replace (Z.to_nat ((k + 1) mod 12)) with 0%nat by lia.
    rewrite jan1_next. rewrite E in *. change (Z.to_nat 11) with 11%nat in *.
    rewrite <- month_lens_sum.
    replace (firstn 12 (month_lens (k / 12))) with (month_lens (k / 12)) in S1
      by reflexivity.
    rewrite S1. change (zsum (firstn 0 (month_lens (k / 12 + 1)))) with 0.
    generalize (zsum (firstn 11 (month_lens (k / 12)))) (nth 11 (month_lens (k / 12)) 0).
    intros. lia.
  - replace ((k + 1) / 12) with (k / 12) by lia.
    replace (Z.to_nat ((k + 1) mod 12)) with (S (Z.to_nat (k mod 12))) by lia.
    rewrite S1. generalize (zsum (firstn (Z.to_nat (k mod 12)) (month_lens (k / 12))))
      (nth (Z.to_nat (k mod 12)) (month_lens (k / 12)) 0). intros. lia.
Qed.

Lemma month_of_spec : forall d,
  month_start (month_of d) <= d < month_start (month_of d + 1).
Proof.
  intro d. rewrite month_start_next. unfold month_of, month_start, month_len.
  assert (C := civil_spec d). destruct (civil d) as [[y m] dd]. destruct C as (L & D & E).
  replace ((12 * y + Z.of_nat m) / 12) with y by lia.
  replace (Z.to_nat ((12 * y + Z.of_nat m) mod 12)) with m by lia.
  unfold day_number in *. lia.
Qed.

Lemma month_start_jan : forall y, month_start (12 * y) = jan1 y.
Proof.
  intro y. unfold month_start, day_number. replace (12 * y / 12) with y by lia.
  replace ((12 * y) mod 12) with 0 by lia. cbn [Z.to_nat firstn]. change (zsum []) with 0. lia.
Qed.

(** Clock fields *)
Ltac units := unfold DAY, HOUR, MINUTE, SEC, MS in *.

Lemma drop_part : forall u n q, 0 < u -> 0 < n ->
  q * u - (q * u) mod (n * u) / u * u = q / n * (n * u).
Proof.
  intros u n q Hu Hn.
  rewrite Z.mul_mod_distr_r by lia. rewrite Z.div_mul by lia.
  assert (D := Z.div_mod q n ltac:(lia)). nia.
Qed.

Lemma trunc_sec_eq : forall t, with_nanosecond0 t = t / SEC * SEC.
Proof.
  intro t. unfold with_nanosecond0. assert (D := Z.div_mod t SEC ltac:(units; lia)). lia.
Qed.

Lemma trunc_min_eq : forall t, with_second0 (with_nanosecond0 t) = t / MINUTE * MINUTE.
Proof.
  intro t. rewrite trunc_sec_eq. unfold with_second0.
  change MINUTE with (60 * SEC). rewrite drop_part by (units; lia).
  rewrite Z.div_div by (units; lia). reflexivity.
Qed.

Lemma trunc_hour_eq : forall t,
  with_minute0 (with_second0 (with_nanosecond0 t)) = t / HOUR * HOUR.
Proof.
  intro t. rewrite trunc_min_eq. unfold with_minute0.
  change HOUR with (60 * MINUTE). rewrite drop_part by (units; lia).
  rewrite Z.div_div by (units; lia). reflexivity.
Qed.

Lemma trunc_day_eq : forall t,
  with_hour0 (with_minute0 (with_second0 (with_nanosecond0 t))) = t / DAY * DAY.
Proof.
  intro t. rewrite trunc_hour_eq. unfold with_hour0.
  change DAY with (24 * HOUR). rewrite drop_part by (units; lia).
  rewrite Z.div_div by (units; lia). reflexivity.
Qed.

(** * The interval starts of a unit, numbered by the integers *)
Definition istart (g : Unit_) (k : Z) : Z :=
  match g with
  | Hour => k * HOUR
  | Day => k * DAY
  | Week => (7 * k - 3) * DAY
  | Month => month_start k * DAY
  | Year => jan1 k * DAY
  end.
Definition inum (g : Unit_) (t : Z) : Z :=
  match g with
  | Hour => t / HOUR
  | Day => t / DAY
  | Week => (t / DAY + 3) / 7
  | Month => month_of (t / DAY)
  | Year => year_of (t / DAY)
  end.

Lemma istart_gap : forall g k, istart g k + HOUR <= istart g (k + 1).
Proof.
  intros g k. destruct g; unfold istart.
  - lia.
  - units; lia.
  - units; lia.
  - rewrite month_start_next. assert (R := month_len_range k). units. lia.
  - rewrite jan1_next. destruct (year_len_cases k) as [E|E]; rewrite E; units; lia.
Qed.

Lemma istart_step : forall g k n, 0 <= n -> istart g k + HOUR * n <= istart g (k + n).
Proof.
  intros g k n Hn. pattern n. apply natlike_ind; [| |exact Hn].
  - replace (k + 0) with k by lia. lia.
  - intros x Hx IH. unfold Z.succ. replace (k + (x + 1)) with (k + x + 1) by lia.
    assert (G := istart_gap g (k + x)). lia.
Qed.

Lemma istart_mono : forall g a b, a <= b -> istart g a <= istart g b.
Proof.
  intros g a b H. assert (S1 := istart_step g a (b - a) ltac:(lia)).
  replace (a + (b - a)) with b in S1 by lia. units; lia.
Qed.

Lemma istart_lt : forall g a b, a < b -> istart g a < istart g b.
Proof.
  intros g a b H. assert (S1 := istart_step g a (b - a) ltac:(lia)).
  replace (a + (b - a)) with b in S1 by lia. units; lia.
Qed.

Lemma istart_lt_inv : forall g a b, istart g a < istart g b -> a < b.
Proof.
  intros g a b H. destruct (Z_lt_le_dec a b) as [L|L]; [exact L|].
  apply (istart_mono g) in L. lia.
Qed.

Lemma inum_spec : forall g t, istart g (inum g t) <= t < istart g (inum g t + 1).
Proof.
  intros g t. destruct g; unfold istart, inum.
  - units; lia.
  - units; lia.
  - units; lia.
  - assert (M := month_of_spec (t / DAY)). units; lia.
  - assert (M := year_of_spec (t / DAY)). units; lia.
Qed.

Lemma inum_unique : forall g t k, istart g k <= t < istart g (k + 1) -> inum g t = k.
Proof.
  intros g t k H. assert (S1 := inum_spec g t).
  assert (inum g t < k + 1) by (apply (istart_lt_inv g); lia).
  assert (k < inum g t + 1) by (apply (istart_lt_inv g); lia). lia.
Qed.

Lemma inum_istart : forall g k, inum g (istart g k) = k.
Proof.
  intros g k. apply inum_unique. assert (G := istart_gap g k). units; lia.
Qed.

Lemma day_mul : forall x, x * DAY / DAY = x.
Proof. intro x. apply Z.div_mul. units; lia. Qed.
Lemma tod_mul : forall x, tod (x * DAY) = 0.
Proof. intro x. unfold tod. apply Z.mod_mul. units; lia. Qed.

Lemma with_day00_eq : forall d, with_day00 (d * DAY) = month_start (month_of d) * DAY.
Proof.
  intro d. unfold with_day00, day_of. rewrite day_mul, tod_mul.
  unfold month_of. assert (C := civil_spec d). destruct (civil d) as [[y m] dd].
  destruct C as (L & _ & _). unfold month_start.
  replace ((12 * y + Z.of_nat m) / 12) with y by lia.
  replace (Z.to_nat ((12 * y + Z.of_nat m) mod 12)) with m by lia. lia.
Qed.

Lemma civil_month_start : forall k,
  civil (month_start k) = (k / 12, Z.to_nat (k mod 12), 0).
Proof.
  intro k. unfold month_start. apply civil_day_number; [lia|].
  assert (R := month_len_range k). unfold month_len in R. lia.
Qed.

Lemma with_month00_eq : forall k, with_month00 (month_start k * DAY) = jan1 (k / 12) * DAY.
Proof.
  intro k. unfold with_month00, day_of. rewrite day_mul, tod_mul, civil_month_start.
  unfold day_number. cbn [firstn]. change (zsum []) with 0. lia.
Qed.

Lemma month_year : forall d, month_of d / 12 = year_of d.
Proof.
  intro d. assert (C := civil_spec d). unfold month_of.
  unfold civil in *. destruct (split_month _ _) as [m dd]. lia.
Qed.

Lemma trunc_eq : forall g t, date_trunc g t = istart g (inum g t).
Proof.
  intros g t. destruct g; unfold date_trunc, istart, inum.
  - apply trunc_hour_eq.
  - apply trunc_day_eq.
  - cbv zeta. rewrite trunc_day_eq. unfold weekday, day_of. rewrite day_mul. units. lia.
  - rewrite trunc_day_eq. apply with_day00_eq.
  - rewrite trunc_day_eq, with_day00_eq, with_month00_eq, month_year. reflexivity.
Qed.

Lemma shift_months_start : forall k n,
  shift_months (month_start k * DAY) n = month_start (k + n) * DAY.
Proof.
  intros k n. unfold shift_months, day_of. rewrite day_mul, tod_mul, civil_month_start.
  replace (12 * (k / 12) + Z.of_nat (Z.to_nat (k mod 12)) + n) with (k + n) by lia.
  assert (R := month_len_range (k + n)). unfold month_len in R.
  rewrite Z.min_l by lia. unfold month_start. lia.
Qed.

Lemma shift_istart : forall g k n, shift g (istart g k) n = istart g (k + n).
Proof.
  intros g k n. destruct g; unfold shift, istart.
  - units; lia.
  - units; lia.
  - units; lia.
  - apply shift_months_start.
  - rewrite <- !month_start_jan. rewrite shift_months_start. f_equal. f_equal. lia.
Qed.

(** * Columns *)
Lemma date_rule_eq : forall g k stop fuel n,
  0 <= n ->
  date_rule g (istart g k) stop fuel n =
  filter (fun x => x <? stop)
    (map (fun i => istart g (k + n + Z.of_nat i)) (seq 0 fuel)).
Proof.
  intros g k stop fuel. induction fuel as [|f IH]; intros n Hn; [reflexivity|].
  cbn [date_rule]. rewrite shift_istart.
  cbn [seq map filter]. replace (k + n + Z.of_nat 0) with (k + n) by lia.
  destruct (stop <=? istart g (k + n)) eqn:A.
  - replace (istart g (k + n) <? stop) with false by lia.
    symmetry. rewrite <- seq_shift, map_map.
    assert (F : forall l, (forall x, In x l -> stop <= x) -> filter (fun x => x <? stop) l = []).
    { induction l as [|x l I2]; intro Q; [reflexivity|]. cbn [filter].
      assert (stop <= x) by (apply Q; left; reflexivity).
      replace (x <? stop) with false by lia. apply I2. intros z Hz. apply Q. right. exact Hz. }
    apply F. intros x Hx. apply in_map_iff in Hx. destruct Hx as (i & E & _). subst x.
    assert (M := istart_mono g (k + n) (k + n + Z.of_nat (S i)) ltac:(lia)). lia.
  - replace (istart g (k + n) <? stop) with true by lia. f_equal.
    rewrite (IH (n + 1)) by lia. rewrite <- seq_shift, map_map. f_equal.
    apply map_ext. intro i. f_equal. lia.
Qed.

Lemma time_columns_eq : forall from to g,
  time_columns from to g =
  map (fun i => istart g (inum g from + Z.of_nat i))
      (seq 0 (Z.to_nat (inum g to + 1 - inum g from))).
Proof.
  intros from to g. unfold time_columns. rewrite !trunc_eq, shift_istart, date_rule_eq by lia.
  replace (inum g from + 0) with (inum g from) by lia.
  set (a := inum g from). set (b := inum g to + 1).
  set (fuel := Z.to_nat _). set (n := Z.to_nat (b - a)).
  assert (LE : (n <= fuel)%nat).
  { unfold n, fuel. destruct (Z_lt_le_dec b a) as [L|L]; [lia|].
    assert (S1 := istart_step g a (b - a) ltac:(lia)).
    replace (a + (b - a)) with b in S1 by lia.
    assert (HP : 0 < HOUR) by (units; lia).
    assert (b - a <= (istart g b - istart g a) / HOUR)
      by (apply Z.div_le_lower_bound; lia).
    lia. }
  replace fuel with (n + (fuel - n))%nat by lia. rewrite seq_app, map_app, filter_app.
  assert (F1 : forall l, (forall x, In x l -> x < istart g b) ->
               filter (fun x => x <? istart g b) l = l).
  { induction l as [|x l I2]; intro Q; [reflexivity|]. cbn [filter].
    assert (x < istart g b) by (apply Q; left; reflexivity).
    replace (x <? istart g b) with true by lia. f_equal. apply I2.
    intros z Hz. apply Q. right. exact Hz. }
  assert (F2 : forall l, (forall x, In x l -> istart g b <= x) ->
               filter (fun x => x <? istart g b) l = []).
  { induction l as [|x l I2]; intro Q; [reflexivity|]. cbn [filter].
    assert (istart g b <= x) by (apply Q; left; reflexivity).
    replace (x <? istart g b) with false by lia. apply I2.
    intros z Hz. apply Q. right. exact Hz. }
  rewrite F1, F2, app_nil_r; [reflexivity| |].
  - intros x Hx. apply in_map_iff in Hx. destruct Hx as (i & E & Hi). subst x.
    apply in_seq in Hi. apply istart_mono. lia.
  - intros x Hx. apply in_map_iff in Hx. destruct Hx as (i & E & Hi). subst x.
    apply in_seq in Hi. apply istart_lt. lia.
Qed.
