(** C137: the text of a time names its moment, both ways; C116 without a contract on chrono. *)
From Coq Require Import List NArith ZArith Bool Lia.
From Verif Require Import Calendar CalendarSpec CalendarFacts PropsCalendar TimeText TimeTextSpec.
Import ListNotations.
Local Open Scope N_scope.

(** ** Digits *)
Definition val (acc : N) (l : list N) : N := fold_left (fun a c => 10 * a + (c - 48)) l acc.
Lemma is_digit_iff c : is_digit c = true <-> 48 <= c <= 57.
Proof. unfold is_digit. rewrite andb_true_iff, !N.leb_le. tauto. Qed.
Lemma get_digits_iff k : forall acc l a r, get_digits k acc l = Some (a, r) <-> exists p, l = (p ++ r)%list /\ List.length p = k /\ Digits p /\ a = val acc p.
Proof.
  induction k as [|k IH]; intros acc l a r; cbn [get_digits].
  - split; [intro E|intros (p & -> & Lp & _ & ->)].
    + injection E as -> ->. exists []. repeat split. constructor.
    + destruct p; [|discriminate Lp]. reflexivity.
  - destruct l as [|c l].
    + split; [discriminate|]. intros (p & E & Lp & _). destruct p; discriminate.
    + split.
      * destruct (is_digit c) eqn:Ec; [|discriminate]. intro E. apply IH in E as (p & -> & Lp & Dp & ->).
        exists (c :: p). cbn. repeat split; [now f_equal|]. constructor; [now apply is_digit_iff|exact Dp].
      * intros (p & E & Lp & Dp & ->). destruct p as [|c' p]; [discriminate|]. injection E as <- ->. inversion Dp; subst.
        rewrite (proj2 (is_digit_iff c)) by assumption. apply IH. exists p. injection Lp as Lp. auto.
Qed.
Definition no_digit (l : list N) : Prop := match l with c :: _ => is_digit c = false | [] => True end.
Lemma get_run_iff l : forall acc n a n' r, get_run acc n l = (a, n', r) <->
  exists p, l = (p ++ r)%list /\ n' = (n + List.length p)%nat /\ Digits p /\ a = val acc p /\ no_digit r.
Proof.
  induction l as [|c l IH]; intros acc n a n' r; cbn [get_run].
  - split; [intro E; injection E as <- <- <-|intros (p & E & -> & _ & -> & _)].
    + exists []. cbn. split; [reflexivity|]. split; [lia|]. split; [constructor|]. now split.
    + symmetry in E. apply app_eq_nil in E as [-> ->]. cbn. now rewrite Nat.add_0_r.
  - destruct (is_digit c) eqn:Ec.
    + rewrite IH. split; intros (p & E & -> & Dp & -> & Hr).
      * exists (c :: p). cbn. rewrite E. repeat split; [lia| |exact Hr]. constructor; [now apply is_digit_iff|exact Dp].
      * destruct p as [|c' p].
        { cbn in E. subst r. cbn in Hr. congruence. }
        injection E as <- ->. inversion Dp; subst. exists p. cbn. repeat split; auto; lia.
    + split.
      * intro E; injection E as <- <- <-. exists []. cbn. split; [reflexivity|]. split; [lia|]. split; [constructor|]. now split.
      * intros (p & E & -> & Dp & -> & Hr). destruct p as [|c' p].
        { cbn in E. subst r. cbn. now rewrite Nat.add_0_r. }
        injection E as <- ->. inversion Dp; subst. apply is_digit_iff in H1. congruence.
Qed.
Lemma get_sign_iff c l r : get_sign c l = Some r <-> l = c :: r.
Proof.
  unfold get_sign. destruct l as [|x l]; [now split|]. destruct (N.eqb_spec x c); split; intro E; try congruence.
Qed.
(** *** Parts *)
Lemma decimal_get k a l r : get_digits k 0 l = Some (a, r) <-> exists p, l = (p ++ r)%list /\ Decimal k a p.
Proof.
  rewrite get_digits_iff. unfold Decimal, value. split; intros (p & E & H); exists p; split; auto.
  - destruct H as (H1 & H2 & H3). auto.
  - destruct H as (H1 & H2 & H3). auto.
Qed.
Lemma decimal_no_sign k a p c r : Decimal (S k) a (c :: p) -> (c =? PLUS) || (c =? MINUS) = r -> r = false.
Proof.
  intros (D & _) <-. inversion D; subst. apply orb_false_iff. unfold PLUS, MINUS. split; apply N.eqb_neq; lia.
Qed.
Lemma get_year_iff y l r : no_digit r -> (get_year l = Some (y, r) <-> exists p, l = (p ++ r)%list /\ YearText y p).
Proof.
  intro Hr. unfold get_year. destruct l as [|c l].
  - split; [discriminate|]. intros (p & E & Y). symmetry in E. apply app_eq_nil in E as [-> ->]. exfalso.
    destruct Y as [(a & (_ & H & _) & _)|(k & a & r & _ & [[H _]|[H _]])]; discriminate.
  - destruct ((c =? PLUS) || (c =? MINUS)) eqn:Es.
    + destruct (get_run 0 0 l) as [[a n] r'] eqn:Er. split.
      * destruct n as [|n]; [discriminate|]. intro E. injection E as Ey ->. apply get_run_iff in Er as (p & -> & En & Dp & -> & _).
        exists (c :: p). split; [reflexivity|]. right. exists n, (value p), p. cbn in En. split; [split; [exact Dp|split; [congruence|reflexivity]]|].
        destruct (N.eqb_spec c MINUS) as [->|Hm]; [right; auto|]. left. rewrite orb_false_r in Es. apply N.eqb_eq in Es as ->. auto.
      * intros (p & E & Y). destruct Y as [(a' & D & _)|(k & a' & q & (Dq & Lq & Vq) & Hq)].
        { destruct p as [|c' p]; [destruct D as (_ & D & _); discriminate D|]. injection E as <- _. now rewrite (decimal_no_sign _ _ _ _ _ D eq_refl) in Es. }
        assert (Er' : get_run 0 0 l = (a', S k, r)).
        { apply get_run_iff. exists q. assert (El : l = (q ++ r)%list) by (destruct Hq as [[-> _]|[-> _]]; now injection E). repeat split; auto. }
        rewrite Er in Er'. injection Er' as -> -> ->. destruct Hq as [[-> ->]|[-> ->]]; injection E as -> _; reflexivity.
    + split.
      * destruct (get_digits 4 0 (c :: l)) as [[a r']|] eqn:Eg; [|discriminate]. intro E. injection E as <- ->. apply decimal_get in Eg as (p & E & D).
        exists p. split; [exact E|]. left. eauto.
      * intros (p & E & Y). destruct Y as [(a' & D & ->)|(k & a' & q & _ & [[-> _]|[-> _]])].
        -- rewrite (proj2 (decimal_get 4 a' (c :: l) r)) by eauto. reflexivity.
        -- injection E as -> _. discriminate Es.
        -- injection E as -> _. discriminate Es.
Qed.
Lemma fraction_value n k a : (1 <= k <= 9)%nat -> (n * 10 ^ N.of_nat k = a * 10 ^ 9 <-> n = a * 10 ^ (9 - N.of_nat k)).
Proof.
  intro Hk. replace (10 ^ 9) with (10 ^ (9 - N.of_nat k) * 10 ^ N.of_nat k).
  2: { rewrite <- N.pow_add_r. f_equal. lia. }
  rewrite N.mul_assoc, N.mul_cancel_r; [tauto|]. apply N.pow_nonzero. lia.
Qed.
Definition plain_end (r : list N) : Prop := match r with c :: _ => is_digit c = false /\ c <> 46 | [] => True end.
Lemma get_fraction_iff n l r : plain_end r -> (get_fraction l = Some (n, r) <-> exists p, l = (p ++ r)%list /\ FractionText n p).
Proof.
  intro Hr. unfold get_fraction. destruct l as [|c l].
  - split.
    + intro E. injection E as <- <-. exists []. split; [reflexivity|now left].
    + intros (p & E & F). symmetry in E. apply app_eq_nil in E as [-> ->]. destruct F as [[_ ->]|(k & a & q & _ & H & _)]; [reflexivity|discriminate].
  - destruct (N.eqb_spec c DOT) as [->|Hc].
    + destruct (get_run 0 0 l) as [[a k] r'] eqn:Er. split.
      * destruct ((1 <=? k) && (k <=? 9))%nat eqn:Ek; [|discriminate]. intro E. injection E as <- ->. apply andb_true_iff in Ek as [K1 K2]. apply Nat.leb_le in K1, K2.
        apply get_run_iff in Er as (p & -> & -> & Dp & -> & _). exists (DOT :: p). split; [reflexivity|]. right. exists (List.length p), (value p), p.
        repeat split; auto; try (cbn in *; lia). apply fraction_value; [cbn in *; lia|]. reflexivity.
      * intros (p & E & F). destruct F as [[-> _]|(k' & a' & q & (Dq & Lq & Vq) & -> & Hk & Hn)].
        { cbn in E. subst r. destruct Hr as [_ Hr]. now contradiction Hr. }
        injection E as El. assert (Er' : get_run 0 0 l = (a', k', r)).
        { apply get_run_iff. exists q. repeat split; auto. destruct r; [exact Logic.I|apply Hr]. }
        rewrite Er in Er'. injection Er' as -> -> ->. apply fraction_value in Hn; [|exact Hk]. subst n.
        rewrite (proj2 (Nat.leb_le 1 k')), (proj2 (Nat.leb_le k' 9)) by lia. reflexivity.
    + split.
      * intro E. injection E as <- <-. exists []. split; [reflexivity|now left].
      * intros (p & E & F). destruct F as [[-> ->]|(k' & a' & q & _ & -> & _)]; [cbn in E; now subst r|]. now injection E as ->.
Qed.
Lemma get_offset_iff o l r : get_offset l = Some (o, r) <-> exists p, l = (p ++ r)%list /\ OffsetText o p.
Proof.
  unfold get_offset. destruct l as [|c l].
  - split; [discriminate|]. intros (p & E & F). symmetry in E. apply app_eq_nil in E as [-> ->].
    destruct F as [[H _]|(h & m & th & tm & _ & _ & _ & _ & [[H _]|[H _]])]; discriminate.
  - destruct (N.eqb_spec c LETTER_Z) as [->|Hz].
    + split.
      * intro E. injection E as <- <-. exists [LETTER_Z]. split; [reflexivity|now left].
      * intros (p & E & F). destruct F as [[-> ->]|(h & m & th & tm & _ & _ & _ & _ & [[-> _]|[-> _]])]; [now injection E as ->|discriminate..].
    + destruct ((c =? PLUS) || (c =? MINUS)) eqn:Es.
      * split.
        -- destruct (get_digits 2 0 l) as [[h [|x r1]]|] eqn:E1; try discriminate. destruct (N.eqb_spec x COLON) as [->|]; [|discriminate].
           destruct (get_digits 2 0 r1) as [[m r2]|] eqn:E2; [|discriminate]. destruct ((h <? 24) && (m <? 60)) eqn:E3; [|discriminate].
           intro E. injection E as <- ->. apply andb_true_iff in E3 as [H1 H2]. apply N.ltb_lt in H1, H2.
           apply decimal_get in E1 as (th & -> & Dh). apply decimal_get in E2 as (tm & -> & Dm).
           exists (c :: th ++ COLON :: tm)%list. split; [cbn; now rewrite <- app_assoc|]. right. exists h, m, th, tm. repeat (split; [assumption|]).
           destruct (N.eqb_spec c MINUS) as [->|Hm]; [right; split; [reflexivity|lia]|]. left. rewrite orb_false_r in Es. apply N.eqb_eq in Es as ->. split; [reflexivity|lia].
        -- intros (p & E & F). destruct F as [[-> _]|(h & m & th & tm & Dh & Dm & H1 & H2 & Hq)]; [now injection E as ->|].
           assert (El : l = (th ++ COLON :: tm ++ r)%list) by (destruct Hq as [[-> _]|[-> _]]; injection E as _ ->; cbn; now rewrite <- app_assoc).
           rewrite (proj2 (decimal_get 2 h l (COLON :: tm ++ r)%list)) by eauto. rewrite N.eqb_refl. rewrite (proj2 (decimal_get 2 m _ r)) by eauto.
           rewrite (proj2 (N.ltb_lt h 24)), (proj2 (N.ltb_lt m 60)) by assumption. cbn [andb]. do 2 f_equal.
           destruct Hq as [[-> ->]|[-> ->]]; injection E as -> _; [replace (43 =? MINUS) with false by reflexivity|replace (45 =? MINUS) with true by reflexivity]; lia.
      * split; [discriminate|]. intros (p & E & F). destruct F as [[-> _]|(h & m & th & tm & _ & _ & _ & _ & [[-> _]|[-> _]])]; injection E as -> _; [contradiction|discriminate..].
Qed.
Lemma offset_end o p r : OffsetText o p -> plain_end (p ++ r).
Proof. intros [[-> _]|(h & m & th & tm & _ & _ & _ & _ & [[-> _]|[-> _]])]; cbn; split; (reflexivity || lia). Qed.

(** ** Dates *)
Lemma day_number_0 y m d : day_number y m d = (day_number y m 0 + d)%Z.
Proof. unfold day_number. lia. Qed.
Lemma first_day y m first : FirstOf y (Z.of_N m) first <-> 1 <= m <= 12 /\ first = day_number y (N.to_nat (m - 1)) 0.
Proof.
  rewrite first_of_iff. unfold month_start.
  assert (K : 1 <= m <= 12 -> day_number ((12 * y + (Z.of_N m - 1)) / 12) (Z.to_nat ((12 * y + (Z.of_N m - 1)) mod 12)) 0 = day_number y (N.to_nat (m - 1)) 0).
  { intro Hm. replace ((12 * y + (Z.of_N m - 1)) / 12)%Z with y by lia. replace ((12 * y + (Z.of_N m - 1)) mod 12)%Z with (Z.of_N m - 1)%Z by lia. f_equal. lia. }
  split; intros (Hm & ->); (split; [lia|]); [|symmetry]; apply K; lia.
Qed.
Lemma days_in y m len : 1 <= m <= 12 -> (MonthLength y (Z.of_N m) len <-> len = nth (N.to_nat (m - 1)) (month_lens y) 0%Z).
Proof.
  intro Hm. rewrite month_length_iff by lia. unfold month_len. replace ((12 * y + (Z.of_N m - 1)) / 12)%Z with y by lia.
  replace ((12 * y + (Z.of_N m - 1)) mod 12)%Z with (Z.of_N m - 1)%Z by lia. replace (Z.to_nat (Z.of_N m - 1)) with (N.to_nat (m - 1)) by lia. tauto.
Qed.

(** ** C137 *)
(** A text is read exactly if it names a moment, and then as that moment. *)
Theorem C137_read : forall l t, parse_time l = Some t <-> Names l t.
Proof.
  intros l t. split.
  - unfold parse_time. intro H.
    destruct (get_year l) as [[y l1]|] eqn:Ey; [|discriminate H]. destruct (get_sign MINUS l1) as [l2|] eqn:E1; [|discriminate H].
    destruct (get_digits 2 0 l2) as [[m l3]|] eqn:Em; [|discriminate H]. destruct (get_sign MINUS l3) as [l4|] eqn:E2; [|discriminate H].
    destruct (get_digits 2 0 l4) as [[d l5]|] eqn:Ed; [|discriminate H]. destruct (get_sign LETTER_T l5) as [l6|] eqn:E3; [|discriminate H].
    destruct (get_digits 2 0 l6) as [[h l7]|] eqn:Eh; [|discriminate H]. destruct (get_sign COLON l7) as [l8|] eqn:E4; [|discriminate H].
    destruct (get_digits 2 0 l8) as [[mi l9]|] eqn:Emi; [|discriminate H]. destruct (get_sign COLON l9) as [l10|] eqn:E5; [|discriminate H].
    destruct (get_digits 2 0 l10) as [[s l11]|] eqn:Es; [|discriminate H]. destruct (get_fraction l11) as [[f l12]|] eqn:Ef; [|discriminate H].
    destruct (get_offset l12) as [[o l13]|] eqn:Eo; [|discriminate H]. destruct l13; [|discriminate H].
    destruct (((- YEARS <=? y) && (y <? YEARS))%Z && _ && _ && _ && _ && _ && _ && _) eqn:B; [|discriminate H]. injection H as <-.
    rewrite !andb_true_iff, !N.leb_le, !N.ltb_lt, !Z.leb_le, Z.ltb_lt in B. unfold YEARS in B.
    destruct B as (((((((By & Bm1) & Bm2) & Bd1) & Bd2) & Bh) & Bmi) & Bs).
    apply get_sign_iff in E1, E2, E3, E4, E5. subst l1 l3 l5 l7 l9.
    apply get_offset_iff in Eo as (to & -> & Fo). apply get_fraction_iff in Ef as (tf & -> & Ff); [|apply (offset_end _ _ _ Fo)].
    apply get_year_iff in Ey as (ty & -> & Fy); [|reflexivity]. apply decimal_get in Em as (tm & -> & Fm). apply decimal_get in Ed as (td & -> & Fd).
    apply decimal_get in Eh as (th & -> & Fh). apply decimal_get in Emi as (tmi & -> & Fmi). apply decimal_get in Es as (ts & -> & Fs).
    exists y, m, d, h, mi, s, f, o, (day_number y (N.to_nat (m - 1)) 0), (nth (N.to_nat (m - 1)) (month_lens y) 0%Z), ty, tm, td, th, tmi, ts, tf, to.
    split; [now rewrite app_nil_r|]. split; [exact (conj Fy (conj Fm (conj Fd (conj Fh (conj Fmi (conj Fs (conj Ff Fo)))))))|]. split; [lia|]. split; [now apply first_day|]. split; [now apply days_in|].
    split; [lia|]. split; [lia|]. split; [lia|]. split; [lia|]. rewrite day_number_0. unfold one_day, one_hour, DAY, HOUR, MINUTE, SEC. lia.
  - intros (y & m & d & h & mi & s & f & o & first & len & ty & tm & td & th & tmi & ts & tf & to & -> & (Fy & Fm & Fd & Fh & Fmi & Fs & Ff & Fo) & By & D1 & D2 & Bd & Bh & Bmi & Bs & ->).
    apply first_day in D1 as (Bm & ->). apply days_in in D2; [|exact Bm]. subst len.
    unfold parse_time.
    rewrite (proj2 (get_year_iff y (ty ++ 45 :: tm ++ 45 :: td ++ 84 :: th ++ 58 :: tmi ++ 58 :: ts ++ tf ++ to) (45 :: tm ++ 45 :: td ++ 84 :: th ++ 58 :: tmi ++ 58 :: ts ++ tf ++ to) eq_refl))%list by eauto.
    rewrite (proj2 (get_sign_iff MINUS _ _)) by reflexivity. rewrite (proj2 (decimal_get 2 m _ _)) by eauto.
    rewrite (proj2 (get_sign_iff MINUS _ _)) by reflexivity. rewrite (proj2 (decimal_get 2 d _ _)) by eauto.
    rewrite (proj2 (get_sign_iff LETTER_T _ _)) by reflexivity. rewrite (proj2 (decimal_get 2 h _ _)) by eauto.
    rewrite (proj2 (get_sign_iff COLON _ _)) by reflexivity. rewrite (proj2 (decimal_get 2 mi _ _)) by eauto.
    rewrite (proj2 (get_sign_iff COLON _ _)) by reflexivity. rewrite (proj2 (decimal_get 2 s _ _)) by eauto.
    assert (Pe : plain_end to) by (pose proof (offset_end o to [] Fo) as K; now rewrite app_nil_r in K).
    rewrite (proj2 (get_fraction_iff f (tf ++ to) to Pe))%list by eauto.
    rewrite (proj2 (get_offset_iff o to [])) by (exists to; now rewrite app_nil_r).
    assert (B : ((- YEARS <=? y) && (y <? YEARS))%Z && (1 <=? m) && (m <=? 12) && (1 <=? d)
       && (Z.of_N d <=? nth (N.to_nat (m - 1)) (month_lens y) 0)%Z && (h <? 24) && (mi <? 60) && (s <? 60) = true).
    { rewrite !andb_true_iff, !N.leb_le, !N.ltb_lt, !Z.leb_le, Z.ltb_lt. unfold YEARS. repeat split; lia. }
    rewrite B. f_equal. rewrite day_number_0. unfold one_day, one_hour, DAY, HOUR, MINUTE, SEC. lia.
Qed.
Print Assumptions C137_read.

(** *** Writing *)
Lemma digits_decimal k : forall x acc, val acc (digits k x) = acc * 10 ^ N.of_nat k + x mod 10 ^ N.of_nat k /\ Digits (digits k x) /\ List.length (digits k x) = k.
Proof.
  induction k as [|k IH]; intros x acc; cbn [digits].
  - cbn. rewrite N.mod_1_r. repeat split; [lia|constructor].
  - assert (Hp : 10 ^ N.of_nat k <> 0) by (apply N.pow_nonzero; lia).
    pose proof (N.mod_lt (x / 10 ^ N.of_nat k) 10 ltac:(lia)) as Hd.
    destruct (IH x (10 * acc + (48 + (x / 10 ^ N.of_nat k) mod 10 - 48))) as (E & D & L). split; [|split].
    + unfold val in *. cbn [fold_left]. rewrite E. rewrite (N.add_comm 48), N.add_sub. replace (N.of_nat (S k)) with (N.succ (N.of_nat k)) by lia.
      rewrite N.pow_succ_r', (N.mul_comm 10 (10 ^ N.of_nat k)), N.mod_mul_r by lia. ring.
    + constructor; [clear - Hd; generalize dependent ((x / 10 ^ N.of_nat k) mod 10); intros; lia|exact D].
    + cbn. now f_equal.
Qed.
Lemma decimal_digits k x : x < 10 ^ N.of_nat k -> Decimal k x (digits k x).
Proof.
  intro H. destruct (digits_decimal k x 0) as (E & D & L). split; [exact D|]. split; [exact L|]. change (val 0 (digits k x) = x). rewrite E, N.mod_small by exact H. lia.
Qed.
Lemma put_year_text y : (-262143 <= y < 262143)%Z -> YearText y (put_year y).
Proof.
  intro H. unfold put_year. destruct ((0 <=? y) && (y <? 10000))%Z eqn:B.
  - apply andb_true_iff in B as [B1 B2]. apply Z.leb_le in B1. apply Z.ltb_lt in B2. left. exists (Z.to_N y). split; [apply decimal_digits; cbn; lia|lia].
  - right. assert (K : exists k, year_digits (Z.abs_N y) = S k /\ Z.abs_N y < 10 ^ N.of_nat (S k)).
    { unfold year_digits. destruct (N.ltb_spec (Z.abs_N y) 10000); [exists 3%nat; split; [reflexivity|cbn; lia]|].
      destruct (N.ltb_spec (Z.abs_N y) 100000); [exists 4%nat; split; [reflexivity|cbn; lia]|]. exists 5%nat. split; [reflexivity|cbn; lia]. }
    destruct K as (k & -> & K). exists k, (Z.abs_N y), (digits (S k) (Z.abs_N y)). split; [now apply decimal_digits|].
    destruct (Z.ltb_spec y 0); [right|left]; (split; [reflexivity|lia]).
Qed.
Lemma put_fraction_text n : n < 10 ^ 9 -> FractionText n (put_fraction n).
Proof.
  intro H. unfold put_fraction. destruct (N.eqb_spec n 0) as [->|]; [now left|]. right.
  destruct (N.eqb_spec (n mod 1000000) 0) as [E|_]; [|destruct (N.eqb_spec (n mod 1000) 0) as [E|_]].
  - exists 3%nat, (n / 1000000), (digits 3 (n / 1000000)). apply N.div_exact in E; [|lia].
    split; [apply decimal_digits; cbn in *; apply N.div_lt_upper_bound; lia|]. split; [reflexivity|]. split; [lia|]. change (10 ^ N.of_nat 3) with 1000. change (10 ^ 9) with 1000000000. lia.
  - exists 6%nat, (n / 1000), (digits 6 (n / 1000)). apply N.div_exact in E; [|lia].
    split; [apply decimal_digits; cbn in *; apply N.div_lt_upper_bound; lia|]. split; [reflexivity|]. split; [lia|]. change (10 ^ N.of_nat 6) with 1000000. change (10 ^ 9) with 1000000000. lia.
  - exists 9%nat, n, (digits 9 n). split; [apply decimal_digits; exact H|]. split; [reflexivity|]. split; [lia|]. reflexivity.
Qed.
Lemma holds_year t : Holds t <-> (-262143 <= year_of (day_of t) < 262143)%Z.
Proof.
  unfold Holds. pose proof (year_of_spec (day_of t)) as Y. unfold day_of in *. assert (Dv : DAY = one_day) by reflexivity. rewrite Dv in *.
  assert (P : (0 < one_day)%Z) by reflexivity. pose proof (Z.div_mod t one_day ltac:(lia)) as E. pose proof (Z.mod_pos_bound t one_day P) as Bn. split.
  - intros (a & b & A & B & H1 & H2). apply newyear_iff in A, B. subst a b.
    assert (Q1 : (jan1 (-262143) <= t / one_day)%Z) by (apply Z.div_le_lower_bound; lia).
    assert (Q2 : (t / one_day < jan1 262143)%Z) by (apply Z.div_lt_upper_bound; lia).
    split.
    + destruct (Z_lt_le_dec (year_of (t / one_day)) (-262143)) as [L|L]; [|exact L]. exfalso.
      destruct (Z.eq_dec (year_of (t / one_day) + 1) (-262143)) as [K|K]; [rewrite K in Y; lia|]. pose proof (jan1_mono (year_of (t / one_day) + 1) (-262143) ltac:(lia)). lia.
    + destruct (Z_lt_le_dec (year_of (t / one_day)) 262143) as [L|L]; [exact L|]. exfalso.
      destruct (Z.eq_dec (year_of (t / one_day)) 262143) as [K|K]; [rewrite K in Y; lia|]. pose proof (jan1_mono 262143 (year_of (t / one_day)) ltac:(lia)). lia.
  - intros [H1 H2]. exists (jan1 (-262143)), (jan1 262143). split; [now apply newyear_iff|]. split; [now apply newyear_iff|].
    assert (Q1 : (jan1 (-262143) <= t / one_day)%Z).
    { destruct (Z.eq_dec (year_of (t / one_day)) (-262143)) as [K|K]; [rewrite <- K; lia|]. pose proof (jan1_mono (-262143) (year_of (t / one_day)) ltac:(lia)). lia. }
    assert (Q2 : (t / one_day < jan1 262143)%Z).
    { destruct (Z.eq_dec (year_of (t / one_day) + 1) 262143) as [K|K]; [rewrite <- K; lia|]. pose proof (jan1_mono (year_of (t / one_day) + 1) 262143 ltac:(lia)). lia. }
    nia.
Qed.
Lemma clock_parts u : (0 <= u < one_day)%Z ->
  (u = u / HOUR * HOUR + (u / MINUTE mod 60) * MINUTE + (u / SEC mod 60) * SEC + u mod SEC)%Z /\
  (0 <= u / HOUR < 24)%Z /\ (0 <= u / MINUTE mod 60 < 60)%Z /\ (0 <= u / SEC mod 60 < 60)%Z /\ (0 <= u mod SEC < SEC)%Z.
Proof. unfold one_day, one_hour, HOUR, MINUTE, SEC. intro H. repeat split; lia. Qed.
(** The text of every moment names it, and says so in the time of Greenwich. *)
Theorem C137_written : forall t, Holds t -> Names (print_time t) t /\ last (print_time t) 0 = 90.
Proof.
  intros t Ht. apply holds_year in Ht. unfold print_time. pose proof (civil_spec (day_of t)) as C.
  assert (Y : fst (fst (civil (day_of t))) = year_of (day_of t)) by (unfold civil; now destruct (split_month _ _)).
  destruct (civil (day_of t)) as [[y m0] d0]. cbn [fst] in Y. subst y. destruct C as (C1 & C2 & C3).
  pose proof (Z.mod_pos_bound t one_day eq_refl) as Bt. destruct (clock_parts _ Bt) as (E & B1 & B2 & B3 & B4). change (t mod one_day)%Z with (tod t) in *.
  assert (Bl : (28 <= nth m0 (month_lens (year_of (day_of t))) 0 <= 31)%Z) by (apply (month_lens_ok (year_of (day_of t))), nth_In; now rewrite month_lens_length).
  split.
  - exists (year_of (day_of t)), (N.of_nat m0 + 1), (Z.to_N d0 + 1), (Z.to_N (tod t / HOUR)), (Z.to_N (tod t / MINUTE mod 60)), (Z.to_N (tod t / SEC mod 60)), (Z.to_N (tod t mod SEC)), 0%Z.
    exists (day_number (year_of (day_of t)) m0 0), (nth m0 (month_lens (year_of (day_of t))) 0%Z).
    exists (put_year (year_of (day_of t))), (digits 2 (N.of_nat m0 + 1)), (digits 2 (Z.to_N d0 + 1)), (digits 2 (Z.to_N (tod t / HOUR))), (digits 2 (Z.to_N (tod t / MINUTE mod 60))),
      (digits 2 (Z.to_N (tod t / SEC mod 60))), (put_fraction (Z.to_N (tod t mod SEC))), [90]. split; [reflexivity|].
    assert (K : N.to_nat (N.of_nat m0 + 1 - 1) = m0) by lia.
    split.
    { split; [now apply put_year_text|]. do 5 (split; [apply decimal_digits; change (10 ^ N.of_nat 2) with 100; lia|]). split; [apply put_fraction_text; change (10 ^ 9) with 1000000000; unfold SEC in *; lia|]. now left. }
    split; [lia|]. split; [apply first_day; rewrite K; split; [lia|reflexivity]|]. split; [apply days_in; [lia|]; now rewrite K|]. split; [lia|].
    split; [lia|]. split; [lia|]. split; [lia|].
    rewrite day_number_0 in C3. rewrite !N2Z.inj_add, !Z2N.id by lia. change (Z.of_N 1) with 1%Z.
    assert (T : t = (day_of t * one_day + tod t)%Z). { unfold day_of, tod. change DAY with one_day. pose proof (Z.div_mod t one_day ltac:(discriminate)). lia. }
    rewrite T at 1. rewrite E at 1. unfold one_day, one_hour, HOUR, MINUTE, SEC in *. lia.
  - rewrite !app_assoc. apply last_last.
Qed.
Print Assumptions C137_written.
(** So it reads back, and different moments have different texts. *)
Theorem C137_round_trip : forall t, Holds t -> parse_time (print_time t) = Some t.
Proof. intros t Ht. apply C137_read. now apply C137_written. Qed.
Print Assumptions C137_round_trip.
