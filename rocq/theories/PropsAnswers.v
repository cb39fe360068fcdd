(** Properties C128 and C129: what the answers of reports show. *)
From Coq Require Import List NArith ZArith String Ascii Bool Arith Lia.
From Verif Require Import Kv KvKeys KvKeysFacts Funnel FunnelRatio Answers AnswersSpec.
Import ListNotations.
Local Open Scope Z_scope.

(** ** Rounding *)
Lemma round_nearest a : 0 <= a -> nearest a (round_magnitude a).
Proof.
  intro H. unfold nearest, round_magnitude. change (10 ^ 13) with per_thousandth.
  pose proof (Z.div_mod a per_thousandth ltac:(discriminate)) as E. pose proof (Z.mod_pos_bound a per_thousandth ltac:(reflexivity)) as B.
  cbv zeta. set (q := a / per_thousandth) in *. set (r := a mod per_thousandth) in *. change per_thousandth with 10000000000000 in *.
  destruct (Z.ltb_spec (2 * r) 10000000000000); [split; lia|]. destruct (Z.ltb_spec 10000000000000 (2 * r)); [split; lia|].
  destruct (Z.even q) eqn:Ev; [split; [lia|auto]|]. split; [lia|]. intros _. rewrite Z.even_add, Ev. reflexivity.
Qed.
Lemma nearest_opp m d : nearest m d -> nearest (- m) (- d).
Proof.
  unfold nearest. replace (- m - - d * 10 ^ 13) with (- (m - d * 10 ^ 13)) by ring. rewrite Z.abs_opp, Z.even_opp. auto.
Qed.
Lemma thousandths_nearest m d : thousandths m = Some d -> nearest m d.
Proof.
  unfold thousandths. destruct (_ <? _); [|discriminate]. intros [= <-].
  destruct (Z.lt_trichotomy m 0) as [H|[->|H]].
  - rewrite (Z.sgn_neg m), (Z.abs_neq m) by lia. replace (-1 * round_magnitude (- m)) with (- round_magnitude (- m)) by ring.
    replace m with (- - m) at 1 by ring. apply nearest_opp, round_nearest. lia.
  - unfold nearest. cbn. split; [lia|auto].
  - rewrite (Z.sgn_pos m), (Z.abs_eq m), Z.mul_1_l by lia. apply round_nearest. lia.
Qed.
Lemma nearest_unique m d d' : nearest m d -> nearest m d' -> d = d'.
Proof.
  unfold nearest. change (10 ^ 13) with 10000000000000. intros [A B] [A' B'].
  destruct (Z.eq_dec d d') as [|Ne]; [assumption|exfalso].
  assert (T : 2 * Z.abs (m - d * 10000000000000) = 10000000000000 /\ 2 * Z.abs (m - d' * 10000000000000) = 10000000000000 /\ (d' = d + 1 \/ d = d' + 1)) by lia.
  destruct T as (T1 & T2 & T3). specialize (B T1). specialize (B' T2).
  destruct T3 as [-> | ->]; rewrite Z.even_add in *; rewrite ?B, ?B' in *; discriminate.
Qed.
Lemma nearest_mono m m' d d' : m <= m' -> nearest m d -> nearest m' d' -> d <= d'.
Proof.
  intros L N1 N2. destruct (Z.eq_dec m m') as [->|Ne]; [rewrite (nearest_unique _ _ _ N1 N2); lia|].
  destruct N1 as [A _], N2 as [A' _]. change (10 ^ 13) with 10000000000000 in *. lia.
Qed.
Lemma thousandths_none m : thousandths m = None <-> 2 ^ 96 <= Z.abs m.
Proof.
  unfold thousandths. change (2 ^ 96) with decimal_limit. destruct (Z.ltb_spec (Z.abs m) decimal_limit); split; intro; try discriminate; try reflexivity; lia.
Qed.
Lemma thousandths_some m : Z.abs m < 2 ^ 96 -> exists d, thousandths m = Some d /\ nearest m d.
Proof.
  intro H. destruct (thousandths m) as [d|] eqn:E; [exists d; split; [reflexivity|now apply thousandths_nearest]|].
  apply thousandths_none in E. lia.
Qed.

(** ** Columns *)
Lemma all_some_iff {A} (l : list (option A)) r : all_some l = Some r <-> l = map Some r.
Proof.
  revert r. induction l as [|[x|] l IH]; intro r; cbn.
  - split; [now intros [= <-]|]. now destruct r.
  - destruct (all_some l) as [r'|].
    + split; [intros [= <-]; cbn; f_equal; now apply IH|]. destruct r as [|y r]; [discriminate|]. intros [= -> E]. apply IH in E. congruence.
    + split; [discriminate|]. destruct r as [|y r]; [discriminate|]. intros [= -> E]. apply IH in E. discriminate.
  - split; [discriminate|]. now destruct r.
Qed.
Lemma all_some_none {A} (l : list (option A)) : all_some l = None <-> In None l.
Proof.
  induction l as [|[x|] l IH]; cbn; [split; [discriminate|intros []]| |split; auto].
  destruct (all_some l); split; intros H; try discriminate.
  - exfalso. destruct H as [H|H]; [discriminate|]. apply IH in H. discriminate.
  - right. now apply IH.
  - reflexivity.
Qed.
Lemma Forall2_map_r {A B} (R : A -> B -> Prop) f l : (forall x, In x l -> R x (f x)) -> Forall2 R l (map f l).
Proof. induction l; cbn; intros H; constructor; auto. Qed.
Lemma array_shows d out : array_json d = Some out -> shows d out.
Proof.
  destruct d; cbn [array_json shows]; try (intros [= <-]; apply Forall2_map_r; intros [x|] _; cbn; eauto; fail).
  - intros [= <-]; apply Forall2_map_r; intros [x|] _; unfold number, int_json; eauto.
  - intro H. apply all_some_iff in H. revert out H. induction l as [|x l IH]; intros [|j out]; cbn; try discriminate; intro H; [constructor|].
    injection H as Hx Hl. constructor; [|now apply IH]. unfold dec_json in Hx. unfold number.
    destruct x as [m|]; [|injection Hx as <-; eauto]. destruct (thousandths m) as [t|] eqn:E; [|discriminate]. injection Hx as <-.
    exists t. split; [reflexivity|now apply thousandths_nearest].
Qed.
Lemma array_none d : array_json d = None <-> ~ showable d.
Proof.
  destruct d; cbn [array_json showable]; try (split; [discriminate|intro H; exfalso; apply H; exact I]).
  - rewrite all_some_none. rewrite in_map_iff. split.
    + intros (x & E & Hx) F. rewrite Forall_forall in F. specialize (F x Hx). unfold dec_json in E. destruct x as [m|]; [|discriminate].
      destruct (thousandths m) eqn:Et; [discriminate|]. apply thousandths_none in Et. lia.
    + intro H. apply Exists_Forall_neg in H; [|intros [m|]; [destruct (Z_lt_dec (Z.abs m) (2 ^ 96)); [now left|now right]|now left]].
      apply Exists_exists in H as (x & Hx & N). exists x. split; [|exact Hx]. destruct x as [m|]; [|now destruct N].
      unfold dec_json. assert (thousandths m = None) as ->; [|reflexivity]. apply thousandths_none. lia.
  - split; [auto|reflexivity].
Qed.

(** The data of an answer. *)
Definition data {Head} (a : Answer Head) : list (list JV) := match a with Regular l => map snd l | Compact l => l end.
(** As many rows in every column. *)
Definition rectangular {Head} (n : nat) (cols : list (Col Head)) : Prop := Forall (fun c => rows (c_data c) = n) cols.

Lemma compact_of_regular {Head} (cols : list (Col Head)) l :
  all_some (map (fun c => match array_json (c_data c) with Some d => Some (c_head c, c_name c, d) | None => None end) cols) = Some l <->
  map (fun x => fst x) l = map (fun c => (c_head c, c_name c)) cols /\ all_some (map (fun c => array_json (c_data c)) cols) = Some (map snd l).
Proof.
  rewrite !all_some_iff. revert l. induction cols as [|c cols IH]; intros [|x l]; cbn; try (split; [discriminate|intros [? ?]; discriminate]); [tauto|].
  destruct (array_json (c_data c)) as [d|]; [|split; [discriminate|intros [_ H]; discriminate]].
  split.
  - intros [= <- E]. apply IH in E as [E1 E2]. cbn. now rewrite E1, E2.
  - intros [E1 E2]. injection E1 as E1 E1'. injection E2 as E2 E2'. destruct x as [[h n] d']. cbn in *. injection E1 as -> ->. subst d'. f_equal. apply IH. auto.
Qed.

(** C128: an answer has the columns of the result in their order, regular answers with their
    names, and shows every cell: texts, truth values and times as they are, numbers to the
    nearest thousandth.  If there are no rows the answer has no columns.  Partial: a missing
    number is shown as 0 (see the refutation below), and that the number written down is the
    double nearest to the decimal is not modelled. *)
Theorem C128_answer_shows_partial :
  forall Head compact (cols : list (Col Head)) n a,
    rectangular n cols -> answer Head compact cols = Some a ->
    (n = 0%nat -> data a = []) /\
    (n <> 0%nat -> Forall2 shows (map c_data cols) (data a)) /\
    match a with
    | Regular l => compact = false /\ (n <> 0%nat -> map (fun x => fst x) l = map (fun c => (c_head c, c_name c)) cols)
    | Compact _ => compact = true
    end.
Proof.
  intros Head compact cols n a R H.
  assert (E : emptied Head cols = if Nat.eqb n 0 then [] else cols).
  { destruct cols as [|c r]; cbn; [now destruct (Nat.eqb n 0)|]. inversion R as [|? ? Hc]. now rewrite Hc. }
  unfold answer in H. rewrite E in H. clear E R.
  assert (Sh : forall l out, all_some (map (fun c : Col Head => array_json (c_data c)) l) = Some out -> Forall2 shows (map c_data l) out).
  { intros l out Hl. apply all_some_iff in Hl. revert out Hl. induction l as [|c l IH]; intros [|o out]; cbn; try discriminate; [constructor|].
    intros [= E1 E2]. constructor; [now apply array_shows|now apply IH]. }
  destruct compact; cbn in H.
  - unfold columns_to_json_compact in H. destruct (all_some _) as [l|] eqn:El; [|discriminate]. injection H as <-. cbn [data].
    split; [|split; [|reflexivity]].
    + intros ->. cbn in El. congruence.
    + intro Hn. apply Nat.eqb_neq in Hn. rewrite Hn in El. now apply Sh.
  - unfold columns_to_json in H. destruct (all_some _) as [l|] eqn:El; [|discriminate]. injection H as <-. cbn [data].
    apply compact_of_regular in El as [En Ed].
    split; [|split; [|split; [reflexivity|]]].
    + intros ->. cbn in Ed. injection Ed as Ed. auto.
    + intro Hn. apply Nat.eqb_neq in Hn. rewrite Hn in Ed. now apply Sh.
    + intro Hn. apply Nat.eqb_neq in Hn. now rewrite Hn in En.
Qed.
Print Assumptions C128_answer_shows_partial.

(** The two formats hold the same data. *)
Theorem C128_formats_agree :
  forall Head (cols : list (Col Head)),
    match answer Head false cols, answer Head true cols with
    | Some a, Some b => data a = data b
    | None, None => True
    | _, _ => False
    end.
Proof.
  intros Head cols. unfold answer, columns_to_json, columns_to_json_compact. cbn beta iota zeta.
  destruct (all_some _) as [l|] eqn:E.
  - apply compact_of_regular in E as [_ ->]. reflexivity.
  - destruct (all_some (map (fun c => array_json (c_data c)) _)) as [l|] eqn:E2; [|exact I].
    apply all_some_none in E. apply in_map_iff in E as (c & Ec & Hc). apply all_some_iff in E2.
    assert (In (array_json (c_data c)) (map Some l)) by (rewrite <- E2; now apply (in_map (fun c => array_json (c_data c)))).
    destruct (array_json (c_data c)); [discriminate|]. apply in_map_iff in H as (y & Ey & _). discriminate Ey.
Qed.
Print Assumptions C128_formats_agree.

(** Making the answer crashes exactly when there are rows and a column that cannot be shown. *)
Theorem C128_crash_exact :
  forall Head compact (cols : list (Col Head)) n,
    rectangular n cols ->
    (answer Head compact cols = None <-> n <> 0%nat /\ exists c, In c cols /\ ~ showable (c_data c)).
Proof.
  intros Head compact cols n R.
  assert (E : emptied Head cols = if Nat.eqb n 0 then [] else cols).
  { destruct cols as [|c r]; cbn; [now destruct (Nat.eqb n 0)|]. inversion R as [|? ? Hc]. now rewrite Hc. }
  assert (K : answer Head compact cols = None <-> In None (map (fun c => array_json (c_data c)) (emptied Head cols))).
  { rewrite <- all_some_none. pose proof (C128_formats_agree Head cols) as F. destruct compact; unfold answer in *; cbn beta iota in *;
      unfold columns_to_json, columns_to_json_compact in *; repeat destruct (all_some _); split; try discriminate; try reflexivity; contradiction. }
  rewrite K, E, in_map_iff. clear. destruct (Nat.eqb_spec n 0) as [->|Hn].
  - split; [intros (c & _ & [])|]. intros [H _]. congruence.
  - split; [intros (c & E & Hc); apply array_none in E; eauto|]. intros (_ & c & Hc & N). exists c. split; [now apply array_none|exact Hc].
Qed.
Print Assumptions C128_crash_exact.

(** Larger figures are not shown as smaller ones. *)
Theorem C128_order_kept :
  forall m m' d d', m <= m' -> dec_json (Some m) = Some (JNum d) -> dec_json (Some m') = Some (JNum d') -> d <= d'.
Proof.
  intros m m' d d' L H H'. cbn in *. destruct (thousandths m) eqn:E; [|discriminate]. destruct (thousandths m') eqn:E'; [|discriminate].
  injection H as ->. injection H' as ->. apply (nearest_mono m m'); auto using thousandths_nearest.
Qed.
Print Assumptions C128_order_kept.

(** Refuted: a number that is not there is shown as the number 0 - filling every missing
    number with 0 gives the same answer - although the same column type shows nothing for a
    missing text; and a lookup of the same value shows null. *)
Definition filled (d : Data) : Data :=
  let f x := match x with None => Some 0 | Some v => Some v end in
  match d with DInt l => DInt (map f l) | DDec l => DDec (map f l) | _ => d end.
Theorem C128_missing_number_refuted :
  (forall Head compact (cols : list (Col Head)),
     answer Head compact (map (fun c => mkCol (c_head c) (c_name c) (filled (c_data c))) cols) = answer Head compact cols) /\
  (forall x, scalar_json (ScInt x) = Some JNull <-> x = None) /\ (forall x, scalar_json (ScDec x) = Some JNull <-> x = None).
Proof.
  assert (A : forall d, array_json (filled d) = array_json d).
  { destruct d; cbn; try reflexivity; rewrite map_map; f_equal; apply map_ext; now intros []. }
  assert (Rw : forall d, rows (filled d) = rows d) by (destruct d; cbn; rewrite ?map_length; reflexivity).
  split; [|split].
  - intros Head compact cols. unfold answer, columns_to_json, columns_to_json_compact, emptied.
    destruct cols as [|c r]; [reflexivity|]. cbn [map c_data]. rewrite Rw. destruct (Nat.eqb _ 0); [reflexivity|].
    set (cs := c :: r). change (mkCol (c_head c) (c_name c) (filled (c_data c)) :: map (fun c => mkCol (c_head c) (c_name c) (filled (c_data c))) r)
      with (map (fun c => mkCol (c_head c) (c_name c) (filled (c_data c))) cs). rewrite !map_map. cbn [c_data c_head c_name].
    rewrite (map_ext (fun x : Col Head => array_json (filled (c_data x))) (fun c => array_json (c_data c))) by (intro; apply A).
    rewrite (map_ext (fun x : Col Head => match array_json (filled (c_data x)) with Some d => Some (c_head x, c_name x, d) | None => None end)
      (fun c => match array_json (c_data c) with Some d => Some (c_head c, c_name c, d) | None => None end)) by (intro; now rewrite A).
    reflexivity.
  - intros [x|]; cbn; split; congruence.
  - intros [x|]; cbn; [destruct (thousandths x)|]; split; congruence.
Qed.
Print Assumptions C128_missing_number_refuted.

Example C128_witness :
  let cols := [mkCol tt "Country"%string (DText [Some "NL"%string; None]); mkCol tt "Price"%string (DDec [Some 12345000000000000; Some (-25000000000000)]);
               mkCol tt "Visits"%string (DInt [Some 7; None])] in
  rectangular 2 cols /\
  answer unit false cols = Some (Regular [(tt, "Country"%string, [JText "NL"%string; JNull]); (tt, "Price"%string, [JNum 1234; JNum (-2)]);
     (tt, "Visits"%string, [JNum 7000; JNum 0])]) /\
  nearest 12345000000000000 1234 /\
  answer unit true [mkCol tt "Sum"%string (DDec [Some (2 ^ 96)])] = None.
Proof. cbv zeta. split; [repeat constructor|]. split; [reflexivity|]. split; [|reflexivity]. unfold nearest. cbn. split; [lia|auto]. Qed.

(** ** Funnels *)
(** Reading back the text of a number of thousandths. *)
Fixpoint plain_digits (s : string) : bool :=
  match s with EmptyString => true | String c r => negb (Ascii.eqb c "."%char) && negb (Ascii.eqb c "-"%char) && plain_digits r end.
Fixpoint cut (s : string) : string * option string :=
  match s with
  | EmptyString => (EmptyString, None)
  | String c r => if Ascii.eqb c "."%char then (EmptyString, Some r) else let '(a, b) := cut r in (String c a, b)
  end.
Definition read_plain (s : string) : option Z :=
  match cut s with
  | (a, None) => option_map (fun n => 1000 * Z.of_N n) (parse_num a)
  | (a, Some b) => match parse_num a, parse_num b with Some x, Some y => Some (1000 * Z.of_N x + Z.of_N y) | _, _ => None end
  end.
Definition read_text (s : string) : option Z :=
  match s with String c r => if Ascii.eqb c "-"%char then option_map Z.opp (read_plain r) else read_plain s | _ => None end.
Definition number_text (d : Z) : string := if d mod 1000 =? 0 then whole_text (d / 1000) else decimal_text d.

Lemma cut_plain a : plain_digits a = true -> cut a = (a, None).
Proof.
  induction a as [|c a IH]; cbn; [reflexivity|]. intro H. apply andb_true_iff in H as [H Ha]. apply andb_true_iff in H as [Hc _].
  apply negb_true_iff in Hc. now rewrite Hc, (IH Ha).
Qed.
Lemma cut_point a b : plain_digits a = true -> cut (String.append a (String "."%char b)) = (a, Some b).
Proof.
  induction a as [|c a IH]; cbn; [reflexivity|]. intro H. apply andb_true_iff in H as [H Ha]. apply andb_true_iff in H as [Hc _].
  apply negb_true_iff in Hc. now rewrite Hc, (IH Ha).
Qed.
Lemma digits_plain d : plain_digits (DecimalString.NilEmpty.string_of_uint d) = true.
Proof. induction d; cbn; auto. Qed.
Lemma dec_plain n : plain_digits (dec n) = true.
Proof. unfold dec, DecimalString.NilZero.string_of_uint. destruct (N.to_uint n); [reflexivity|..]; apply digits_plain. Qed.
Lemma dec_some n : exists c r, dec n = String c r.
Proof.
  unfold dec, DecimalString.NilZero.string_of_uint. destruct (N.to_uint n); cbn; eauto.
Qed.
Lemma three_read n : 0 <= n < 1000 -> parse_num (three n) = Some (Z.to_N n).
Proof.
  intro H. assert (A : forallb (fun k => match parse_num (three (Z.of_nat k)) with Some x => N.eqb x (N.of_nat k) | None => false end) (seq 0 1000) = true) by (vm_compute; reflexivity).
  rewrite forallb_forall in A. specialize (A (Z.to_nat n)). rewrite Z2Nat.id in A by lia.
  assert (In (Z.to_nat n) (seq 0 1000)) as Hi by (apply in_seq; lia). specialize (A Hi).
  destruct (parse_num (three n)) as [x|]; [|discriminate]. apply N.eqb_eq in A. subst x. f_equal. lia.
Qed.
Lemma read_sign (neg : bool) s d : plain_digits s = true -> (exists c r, s = String c r) -> forall t, read_plain (String.append s t) = Some d ->
  read_text (String.append (if neg then "-" else "")%string (String.append s t)) = Some (if neg then - d else d).
Proof.
  intros P (c & r & ->) t H. destruct neg; cbn [String.append read_text].
  - change (Ascii.eqb "-" "-") with true. cbn [read_text]. cbn iota. cbn [String.append] in H. now rewrite H.
  - cbn [plain_digits] in P. apply andb_true_iff in P as [P _]. apply andb_true_iff in P as [_ P]. apply negb_true_iff in P. rewrite P. exact H.
Qed.
Lemma number_text_read d : read_text (number_text d) = Some d.
Proof.
  unfold number_text. pose proof (Z.div_mod d 1000 ltac:(discriminate)) as E. destruct (Z.eqb_spec (d mod 1000) 0) as [H|H].
  - set (q := d / 1000) in *. replace d with (1000 * q) by lia. clear E H. unfold whole_text.
    assert (R : forall n, read_plain (String.append (dec n) "") = Some (1000 * Z.of_N n)).
    { intro n. rewrite app_nil_s. unfold read_plain. rewrite (cut_plain _ (dec_plain n)), parse_dec. reflexivity. }
    destruct (Z.ltb_spec q 0).
    + pose proof (read_sign true (dec (Z.to_N (- q))) _ (dec_plain _) (dec_some _) _ (R (Z.to_N (- q)))) as X. rewrite app_nil_s in X. cbn [String.append] in X |- *.
      rewrite X. f_equal. lia.
    + pose proof (read_sign false (dec (Z.to_N q)) _ (dec_plain _) (dec_some _) _ (R (Z.to_N q))) as X. rewrite app_nil_s in X. cbn [String.append] in X |- *.
      rewrite X. f_equal. lia.
  - unfold decimal_text. pose proof (Z.div_mod (Z.abs d) 1000 ltac:(discriminate)) as E2. pose proof (Z.mod_pos_bound (Z.abs d) 1000 ltac:(reflexivity)) as B2.
    assert (P : 0 <= Z.abs d / 1000) by (apply Z.div_pos; lia).
    pose proof (read_sign (d <? 0) (dec (Z.to_N (Z.abs d / 1000))) (Z.abs d) (dec_plain _) (dec_some _) (String.append "." (three (Z.abs d mod 1000)))) as X.
    rewrite X.
    + f_equal. destruct (Z.ltb_spec d 0); lia.
    + unfold read_plain. cbn [String.append]. rewrite cut_point by apply dec_plain. rewrite parse_dec, three_read by exact B2. f_equal. lia.
Qed.

(** C129: different breakdown texts have different names, and different decimals too unless
    they round to the same thousandth. *)
Theorem C129_group_names_partial :
  (forall s t, group_text (BText (Some s)) = group_text (BText (Some t)) -> s = t) /\
  (forall m m' t, group_text (BDec (Some m)) = Some t -> group_text (BDec (Some m')) = Some t ->
     exists d, nearest m d /\ nearest m' d) /\
  (forall m, group_text (BDec (Some m)) = None <-> 2 ^ 96 <= Z.abs m).
Proof.
  split; [|split].
  - intros s t [= ->]. reflexivity.
  - intros m m' t H H'. cbn [group_text] in *. destruct (thousandths m) as [d|] eqn:E; [|discriminate]. destruct (thousandths m') as [d'|] eqn:E'; [|discriminate].
    injection H as H. injection H' as H'. fold (number_text d) in H. fold (number_text d') in H'.
    assert (d = d').
    { pose proof (number_text_read d) as X. pose proof (number_text_read d') as Y. rewrite H in X. rewrite H' in Y. congruence. }
    subst d'. exists d. auto using thousandths_nearest.
  - intro m. cbn [group_text]. rewrite <- thousandths_none. destruct (thousandths m); split; congruence.
Qed.
Print Assumptions C129_group_names_partial.

(** Refuted: rows of different groups carry the same names - a missing number and zero, a
    missing text and the empty one, numbers closer than half a thousandth to the same one. *)
Theorem C129_group_names_refuted :
  group_text (BDec None) = group_text (BDec (Some 0)) /\
  group_text (BText None) = group_text (BText (Some EmptyString)) /\
  (forall m m' d, Z.abs m < 2 ^ 96 -> Z.abs m' < 2 ^ 96 -> nearest m d -> nearest m' d -> group_text (BDec (Some m)) = group_text (BDec (Some m'))).
Proof.
  split; [reflexivity|]. split; [reflexivity|]. intros m m' d L L' H H'. cbn [group_text].
  destruct (thousandths_some m L) as (x & -> & Nx). destruct (thousandths_some m' L') as (y & -> & Ny).
  rewrite (nearest_unique _ _ _ Nx H), (nearest_unique _ _ _ Ny H'). reflexivity.
Qed.
Print Assumptions C129_group_names_refuted.

Lemma ints_app a b : ints (a ++ b) = (ints a ++ ints b)%list.
Proof. induction a as [|[]]; cbn; [reflexivity|f_equal; assumption|assumption]. Qed.
Lemma decs_app a b : decs (a ++ b) = (decs a ++ decs b)%list.
Proof. induction a as [|[]]; cbn; [reflexivity|assumption|f_equal; assumption]. Qed.
Lemma ints_at ls : forall k s n, nth_error ls k = Some s -> (n < 4)%nat -> nth_error (ints (flat_map figures ls)) (k * 4 + n) = nth_error (ints (figures s)) n.
Proof.
  induction ls as [|x ls IH]; intros k s n H L; [destruct k; discriminate|]. cbn [flat_map]. rewrite ints_app.
  destruct k as [|k]; cbn [nth_error] in H.
  - injection H as ->. apply nth_error_app1. exact L.
  - rewrite nth_error_app2 by (cbn; lia). replace (S k * 4 + n - List.length (ints (figures x)))%nat with (k * 4 + n)%nat by (cbn; lia). now apply IH.
Qed.
Lemma decs_at ls : forall k s n, nth_error ls k = Some s -> (n < 4)%nat -> nth_error (decs (flat_map figures ls)) (k * 4 + n) = nth_error (decs (figures s)) n.
Proof.
  induction ls as [|x ls IH]; intros k s n H L; [destruct k; discriminate|]. cbn [flat_map]. rewrite decs_app.
  destruct k as [|k]; cbn [nth_error] in H.
  - injection H as ->. apply nth_error_app1. exact L.
  - rewrite nth_error_app2 by (cbn; lia). replace (S k * 4 + n - List.length (decs (figures x)))%nat with (k * 4 + n)%nat by (cbn; lia). now apply IH.
Qed.
Lemma step_data_exact k r s : nth_error (fr_steps r) k = Some s ->
  step_data k r = obind (all_some (map group_text (fr_groups r))) (fun gs =>
    obind (thousandths (l_ratio s)) (fun a => obind (thousandths (l_attc s)) (fun b => obind (thousandths (l_attcs s)) (fun c => obind (thousandths (l_dratio s)) (fun d =>
    Some (mkSD gs (fr_ts r) (l_total s) a b c (l_dropped s) d (l_ttc s) (l_ttcs s))))))).
Proof.
  intro H. unfold step_data. cbv zeta. rewrite !(ints_at _ _ _ _ H), !(decs_at _ _ _ _ H) by lia. cbn [figures ints decs nth_error obind].
  destruct (all_some _); [|reflexivity]. cbn [obind]. destruct (thousandths (l_ratio s)); [|reflexivity]. cbn [obind]. destruct (thousandths (l_attc s)); [|reflexivity]. cbn [obind].
  destruct (thousandths (l_attcs s)); [|reflexivity]. cbn [obind]. destruct (thousandths (l_dratio s)); reflexivity.
Qed.

(** C129: in the answer of a funnel every step has its name, and in the order of the rows
    every figure of that step under its own name: counts and times as they are, ratios and
    averages to the nearest thousandth, with the row's time and the texts of its breakdown. *)
Theorem C129_figures :
  forall names rs ans,
    Forall (fun r => List.length (fr_steps r) = List.length names) rs ->
    funnel_answer names rs = Some ans ->
    map (fun x => Some (fst x)) ans = names /\
    forall k x, nth_error ans k = Some x ->
      Forall2 (fun r y => exists s gs, nth_error (fr_steps r) k = Some s /\ Forall2 (fun v t => group_text v = Some t) (fr_groups r) gs /\
                                    step_shown gs (fr_ts r) s y) rs (snd x).
Proof.
  intros names rs ans L H. unfold funnel_answer in H. apply all_some_iff in H.
  assert (G : forall (names : list (option string)) off (ans : list (string * list StepData)), map (fun kn => obind (snd kn) (fun n => obind (all_some (map (step_data (fst kn)) rs)) (fun data => Some (n, data))))
      (combine (seq off (List.length names)) names) = map Some ans ->
    map (fun x => Some (fst x)) ans = names /\ forall k x, nth_error ans k = Some x -> all_some (map (step_data (off + k)) rs) = Some (snd x)).
  { clear. induction names as [|n names IH]; intros off ans; cbn; [destruct ans; [|discriminate]; intros _; split; [reflexivity|]; intros []; discriminate|].
    destruct ans as [|x ans]; [discriminate|]. cbn. intros E. injection E as E1 E2. destruct (IH _ _ E2) as [I1 I2].
    destruct n as [n|]; [|discriminate]. cbn in E1. destruct (all_some _) as [d|] eqn:Ed; [|discriminate]. cbn in E1. injection E1 as <-. split; [cbn; now f_equal|].
    intros [|k] y; cbn; [intros [= <-]; now rewrite Nat.add_0_r|]. intro Hy. rewrite <- (I2 _ _ Hy). do 2 f_equal. f_equal. lia. }
  destruct (G _ _ _ H) as [G1 G2]. split; [exact G1|]. intros k x Hx. specialize (G2 k x Hx). cbn in G2. apply all_some_iff in G2.
  assert (Lk : (k < List.length names)%nat). { rewrite <- G1, map_length. apply nth_error_Some. congruence. }
  clear G G1 H Hx. revert G2. generalize (snd x). induction L as [|r rs Hr L IH]; intros [|y ys]; cbn; try discriminate; [constructor|].
  intros E. injection E as Ey Eys. constructor; [|now apply IH].
  destruct (nth_error (fr_steps r) k) as [s|] eqn:Es; [|apply nth_error_None in Es; lia]. rewrite (step_data_exact k r s Es) in Ey.
  destruct (all_some (map group_text (fr_groups r))) as [gs|] eqn:Eg; [|discriminate]. cbn in Ey.
  destruct (thousandths (l_ratio s)) eqn:E1; [|discriminate]. cbn in Ey. destruct (thousandths (l_attc s)) eqn:E2; [|discriminate]. cbn in Ey.
  destruct (thousandths (l_attcs s)) eqn:E3; [|discriminate]. cbn in Ey. destruct (thousandths (l_dratio s)) eqn:E4; [|discriminate]. cbn in Ey.
  injection Ey as <-. exists s, gs. split; [reflexivity|]. split.
  - apply all_some_iff in Eg. revert gs Eg. generalize (fr_groups r). induction l as [|v l IHl]; intros [|g gs]; cbn; try discriminate; [constructor|].
    intros [= A B]. constructor; auto.
  - unfold step_shown. cbn. repeat (split; [reflexivity|]). auto 10 using thousandths_nearest.
Qed.
Print Assumptions C129_figures.

(** Making the answer crashes exactly when a step begins with a custom event, or a figure or
    a breakdown value is too large to be shown. *)
Theorem C129_crash_exact :
  forall names rs,
    Forall (fun r => List.length (fr_steps r) = List.length names) rs ->
    (funnel_answer names rs = None <->
     In None names \/ (names <> [] /\ exists r, In r rs /\ (Exists (fun v => ~ group_showable v) (fr_groups r) \/ Exists (fun s => ~ step_showable s) (fr_steps r)))).
Proof.
  intros names rs L. unfold funnel_answer. rewrite all_some_none.
  assert (D : forall k r s, nth_error (fr_steps r) k = Some s ->
     step_data k r = None <-> Exists (fun v => ~ group_showable v) (fr_groups r) \/ ~ step_showable s).
  { intros k r s Es. rewrite (step_data_exact k r s Es).
    assert (Gs : all_some (map group_text (fr_groups r)) = None <-> Exists (fun v => ~ group_showable v) (fr_groups r)).
    { rewrite all_some_none, in_map_iff, Exists_exists. split; intros (v & A & B); exists v; split; auto.
      - destruct v as [[m|]|[t|]]; try discriminate A. apply (proj2 (proj2 C129_group_names_partial)) in A. cbn. lia.
      - destruct v as [[m|]|[t|]]; cbn in B; try (exfalso; apply B; exact I). apply (proj2 (proj2 C129_group_names_partial)). lia. }
    destruct (all_some (map group_text (fr_groups r))) as [gs|]; cbn [obind].
    - assert (~ Exists (fun v => ~ group_showable v) (fr_groups r)) by (intro X; apply Gs in X; discriminate).
      unfold step_showable. pose proof (thousandths_none (l_ratio s)). pose proof (thousandths_none (l_attc s)). pose proof (thousandths_none (l_attcs s)). pose proof (thousandths_none (l_dratio s)).
      destruct (thousandths (l_ratio s)); cbn [obind]; [|split; [right; destruct H0 as [H0 _]; specialize (H0 eq_refl); lia|reflexivity]].
      destruct (thousandths (l_attc s)); cbn [obind]; [|split; [right; destruct H1 as [H1 _]; specialize (H1 eq_refl); lia|reflexivity]].
      destruct (thousandths (l_attcs s)); cbn [obind]; [|split; [right; destruct H2 as [H2 _]; specialize (H2 eq_refl); lia|reflexivity]].
      destruct (thousandths (l_dratio s)); cbn [obind]; [|split; [right; destruct H3 as [H3 _]; specialize (H3 eq_refl); lia|reflexivity]].
      split; [discriminate|]. intros [X|X]; [contradiction|]. exfalso. apply X.
      assert (forall m (z : Z), (Some z = None <-> 2 ^ 96 <= Z.abs m) -> Z.abs m < 2 ^ 96) as K.
      { intros m zz [_ Y]. destruct (Z_lt_dec (Z.abs m) (2 ^ 96)) as [|n]; [assumption|]. assert (Some zz = None) by (apply Y; lia). discriminate. }
      repeat split; eapply K; eauto.
    - split; [|reflexivity]. intros _. left. now apply Gs. }
  rewrite in_map_iff. split.
  - intros ([k n] & E & Hin). cbn [fst snd] in E. destruct n as [n|]; [|left; now apply in_combine_r in Hin]. cbn [obind] in E. right.
    destruct (all_some (map (step_data k) rs)) as [d|] eqn:Ed; [discriminate|]. apply all_some_none, in_map_iff in Ed as (r & Er & Hr).
    apply in_combine_l, in_seq in Hin as Hk. rewrite Forall_forall in L. specialize (L r Hr).
    destruct (nth_error (fr_steps r) k) as [s|] eqn:Es; [|apply nth_error_None in Es; lia].
    split; [intros ->; cbn in Hk; lia|]. exists r. split; [exact Hr|]. apply (D _ _ _ Es) in Er as [Er|Er]; [now left|]. right. apply Exists_exists. exists s. split; [eapply nth_error_In; eassumption|exact Er].
  - intros [Hn|(Hn & r & Hr & X)].
    + apply In_nth_error in Hn as (k & Hk). exists (k, None). split; [reflexivity|].
      assert (Lk : (k < List.length names)%nat) by (apply nth_error_Some; congruence).
      replace (k, @None string) with (nth k (combine (seq 0 (List.length names)) names) (0%nat, None)).
      * apply nth_In. rewrite combine_length, seq_length. lia.
      * rewrite combine_nth by apply seq_length. rewrite seq_nth by exact Lk. f_equal. now apply nth_error_nth.
    + rewrite Forall_forall in L. specialize (L r Hr).
      assert (exists k s, nth_error (fr_steps r) k = Some s /\ step_data k r = None) as (k & s & Es & Ed).
      { destruct X as [X|X].
        - destruct (fr_steps r) as [|s l] eqn:Ef; [destruct names; [congruence|discriminate]|]. exists 0%nat, s. split; [reflexivity|].
          apply (D 0%nat r s); [now rewrite Ef|now left].
        - apply Exists_exists in X as (s & Hs & Ns). apply In_nth_error in Hs as (k & Hk). exists k, s. split; [exact Hk|]. apply (D k r s Hk). now right. }
      assert (Lk : (k < List.length names)%nat) by (rewrite <- L; apply nth_error_Some; congruence).
      exists (nth k (combine (seq 0 (List.length names)) names) (0%nat, None)). split.
      * rewrite combine_nth by apply seq_length. rewrite seq_nth by exact Lk. cbn [fst snd plus]. destruct (nth k names None); [|reflexivity]. cbn [obind].
        assert (all_some (map (step_data k) rs) = None) as ->; [|reflexivity]. apply all_some_none, in_map_iff. exists r. auto.
      * apply nth_In. rewrite combine_length, seq_length. lia.
Qed.
Print Assumptions C129_crash_exact.

Example C129_witness :
  let r := mkFRow [BText (Some "all"%string); BDec (Some 15000000000000000)] 1700000000000
     [mkSL 3 1000000000000000000 0 0 1 0 0 0; mkSL 2 666666666666666667 45000000000000000 45000000000000000 2 333333333333333333 9 9] in
  funnel_answer [Some "Visit"%string; Some "Buy"%string] [r] =
    Some [("Visit"%string, [mkSD ["all"; "1.500"]%string 1700000000000 3 100000 0 0 1 0 0 0]);
          ("Buy"%string, [mkSD ["all"; "1.500"]%string 1700000000000 2 66667 4500 4500 2 33333 9 9])] /\
  List.length (fr_steps r) = 2%nat /\ funnel_answer [Some "Visit"%string; None] [r] = None.
Proof. vm_compute. auto. Qed.
