(** Funnel reports: buckets, unique counting and exclusions (C46, C50, C51). *)
From Coq Require Import List ZArith Bool Arith Lia ZifyBool Sorted.
From Verif Require Import AMap Calendar CalendarFacts Funnel FunnelSpec FunnelFacts FunnelRun PropsFunnel.
Import ListNotations.
Local Open Scope Z_scope.

(** * C51 *)
(** Exclusions limited to a range of steps never have any effect. *)
Definition with_excl (c : Cfg) (x : list (option (nat * nat))) : Cfg :=
  mkCfg (c_orders c) (c_window c) x (c_consts c) (c_count c) (c_filter c) (c_interval c) (c_buckets c).

Lemma check_ranged : forall excl vals cur, (forall e, In e excl -> e <> None) ->
  check_exclude excl vals cur = true.
Proof.
  induction excl as [|e excl IH]; intros vals cur H; [reflexivity|].
  destruct e as [[from to]|]; [|exfalso; exact (H None (or_introl eq_refl) eq_refl)].
  destruct vals as [|v vals]; [reflexivity|]. cbn [check_exclude].
  destruct (_ && _); [reflexivity|]. apply IH. intros e He. apply H. right. exact He.
Qed.

Lemma guard_attempt_excl : forall c x r g,
  (forall cur, check_exclude x (r_excl r) cur = check_exclude (c_excl c) (r_excl r) cur) ->
  guard_attempt (with_excl c x) r g = guard_attempt c r g.
Proof.
  intros c x r g H. unfold guard_attempt. cbn [with_excl c_excl c_window].
  destruct (_ =? _)%nat; [reflexivity|]. rewrite H. reflexivity.
Qed.
Lemma do_row_excl : forall c x b i r g,
  (forall cur, check_exclude x (r_excl r) cur = check_exclude (c_excl c) (r_excl r) cur) ->
  do_row (with_excl c x) b i r g = do_row c b i r g.
Proof. intros c x b i r g H. unfold do_row. rewrite guard_attempt_excl by exact H. reflexivity. Qed.

Lemma eval_rows_excl : forall c x ex batch rows i f,
  (forall r cur, check_exclude x (r_excl r) cur = check_exclude (c_excl c) (r_excl r) cur) ->
  eval_rows (with_excl c x) ex batch i rows f = eval_rows c ex batch i rows f.
Proof.
  intros c x ex batch rows. induction rows as [|r rows IH]; intros i f H; [reflexivity|].
  cbn [eval_rows]. destruct (_ && _ && _); [apply IH; exact H|].
  destruct (match ex with None => false | _ => _ end); [apply IH; exact H|].
  change (new_group (with_excl c x)) with (new_group c).
  rewrite do_row_excl by (intro; apply H). destruct (do_row _ _ _ _ _) as [[g s]|]; [|reflexivity].
  apply IH. exact H.
Qed.

Lemma funnel_excl : forall c x ex batches,
  (forall r cur, check_exclude x (r_excl r) cur = check_exclude (c_excl c) (r_excl r) cur) ->
  funnel (with_excl c x) ex batches = funnel c ex batches.
Proof.
  intros c x ex batches H. unfold funnel.
  assert (E : forall bs f, evaluate_all (with_excl c x) ex bs f = evaluate_all c ex bs f).
  { induction bs as [|b bs IH]; intro f; [reflexivity|]. cbn [evaluate_all]. unfold evaluate.
    destruct b as [|r b]; [reflexivity|]. destruct (_ <? _); [reflexivity|].
    rewrite eval_rows_excl by exact H. destruct (eval_rows _ _ _ _ _ _); [apply IH|reflexivity]. }
  rewrite E. apply (same_finalize (with_excl c x) c); [reflexivity|].
  destruct (evaluate_all c ex batches funnel0); [split; reflexivity|exact I].
Qed.

(** When every exclusion carries a step range, the report is the one without exclusions. *)
Theorem C51_ranged_exclusions_refuted : forall c segments batches,
  (forall e, In e (c_excl c) -> e <> None) ->
  funnel c segments batches = funnel (with_excl c []) segments batches.
Proof.
  intros c segs batches H. symmetry. apply funnel_excl. intros r cur.
  rewrite (check_ranged (c_excl c)) by exact H. reflexivity.
Qed.
Print Assumptions C51_ranged_exclusions_refuted.

(** An exclusion covering all steps also switches off the exclusions listed after it. *)
Lemma check_hidden : forall n l vals cur, (cur <= n)%nat ->
  check_exclude (Some (0%nat, n) :: l) vals cur = true.
Proof.
  intros n l vals cur H. destruct vals as [|v vals]; [reflexivity|]. cbn [check_exclude].
  replace ((0 <=? cur)%nat && (cur <=? n)%nat) with true by lia. reflexivity.
Qed.

(** Exclusions without a range: none of the attempts counted (C49) has an excluded event
    between its first and its last step. *)
Lemma until_in : forall stop rows a b, until stop rows = (a, b) ->
  rows = a ++ b /\ Forall (fun r => stop r = false) a.
Proof.
  intros stop rows. induction rows as [|r rows IH]; intros a b H.
  - injection H as <- <-. split; [reflexivity|constructor].
  - cbn [until] in H. destruct (stop r) eqn:E; [injection H as <- <-; split; [reflexivity|constructor]|].
    destruct (until stop rows) as [a0 b0]. injection H as <- <-.
    destruct (IH a0 b0 eq_refl) as (-> & F). split; [reflexivity|constructor; assumption].
Qed.
Lemma first_hit_in : forall k rows r rest, first_hit k rows = Some (r, rest) ->
  exists before, rows = before ++ r :: rest.
Proof.
  intros k rows. induction rows as [|x rows IH]; intros r rest H; [discriminate|].
  cbn [first_hit] in H. destruct (hits k x).
  - injection H as <- <-. exists []. reflexivity.
  - destruct (IH r rest H) as (b & ->). exists (x :: b). reflexivity.
Qed.
Lemma reach_in : forall m k rows ts lft, reach k m rows = (ts, lft) ->
  (forall t, In t ts -> exists r, In r rows /\ r_ts r = t) /\
  match lft with Some l => exists before, rows = before ++ l | None => True end.
Proof.
  induction m as [|m IH]; intros k rows ts lft H.
  - injection H as <- <-. split; [intros t []|exists []; reflexivity].
  - cbn [reach] in H. destruct (first_hit k rows) as [[r rest]|] eqn:F.
    + destruct (reach (S k) m rest) as [ts0 l0] eqn:R. injection H as <- <-.
      destruct (first_hit_in _ _ _ _ F) as (b & ->). destruct (IH _ _ _ _ R) as (A & B). split.
      * intros t [<-|Ht].
        -- exists r. split; [apply in_or_app; right; left; reflexivity|reflexivity].
        -- destruct (A t Ht) as (x & Hx & E). exists x. split; [|exact E].
           apply in_or_app. right. right. exact Hx.
      * destruct l0 as [l0|]; [|exact I]. destruct B as (b2 & ->). exists (b ++ r :: b2).
        rewrite <- app_assoc. reflexivity.
    + injection H as <- <-. split; [intros t []|exact I].
Qed.

Definition in_time (rows : list Row) : Prop := StronglySorted Z.le (map r_ts rows).
Lemma in_time_app : forall a b, in_time (a ++ b) ->
  in_time a /\ in_time b /\ (forall x y, In x a -> In y b -> r_ts x <= r_ts y).
Proof.
  unfold in_time. induction a as [|r a IH]; intros b H.
  - split; [constructor|]. split; [exact H|]. intros x y [].
  - cbn [app map] in H. apply StronglySorted_inv in H. destruct H as (H & F).
    destruct (IH b H) as (A & B & C). rewrite map_app in F. apply Forall_app in F. destruct F as (F1 & F2).
    split; [cbn [map]; constructor; assumption|]. split; [exact B|].
    intros x y [<-|Hx] Hy; [|exact (C x y Hx Hy)]. rewrite Forall_map in F2. rewrite Forall_forall in F2.
    exact (F2 y Hy).
Qed.

Lemma attempts_from : forall n w fuel rows a, in_time rows ->
  In a (attempts_fuel n w fuel rows) ->
  forall t, In t a -> exists r, In r rows /\ r_ts r = t.
Proof.
  intros n w fuel. induction fuel as [|f IH]; intros rows a S H t Ht; [destruct H|].
  cbn [attempts_fuel] in H. destruct (first_hit 0 rows) as [[r0 rest]|] eqn:F; [|destruct H].
  destruct (first_hit_in _ _ _ _ F) as (b & ->).
  destruct (until _ rest) as [inside out] eqn:U. destruct (until_in _ _ _ _ U) as (-> & _).
  destruct (reach 1 (n - 1) inside) as [ts lft] eqn:R. destruct (reach_in _ _ _ _ _ R) as (Rt & Rl).
  assert (Here : In t (r_ts r0 :: ts) -> exists r, In r (b ++ r0 :: inside ++ out) /\ r_ts r = t).
  { intros [<-|X].
    - exists r0. split; [apply in_or_app; right; left; reflexivity|reflexivity].
    - destruct (Rt t X) as (x & Hx & E). exists x. split; [|exact E]. apply in_or_app. right. right.
      apply in_or_app. left. exact Hx. }
  destruct (in_time_app _ _ S) as (_ & S1 & _).
  unfold in_time in S1. cbn [map] in S1. apply StronglySorted_inv in S1. destruct S1 as (S1 & _).
  destruct (in_time_app inside out S1) as (S2 & S3 & _).
  assert (There : In a (attempts_fuel n w f out) -> exists r, In r (b ++ r0 :: inside ++ out) /\ r_ts r = t).
  { intro X. destruct (IH out a S3 X t Ht) as (x & Hx & E). exists x. split; [|exact E].
    apply in_or_app. right. right. apply in_or_app. right. exact Hx. }
  destruct lft as [l|].
  - destruct Rl as (b2 & ->). destruct H as [<-|H]; [exact (Here Ht)|].
    rewrite <- app_assoc in S1. destruct (in_time_app b2 (l ++ out) S1) as (_ & S4 & _).
    destruct (IH (l ++ out) a S4 H t Ht) as (x & Hx & E). exists x. split; [|exact E].
    apply in_or_app. right. right. rewrite <- app_assoc. apply in_or_app. right. exact Hx.
  - destruct out as [|r out]; [destruct H as [<-|[]]; exact (Here Ht)|].
    destruct (excluded r); [exact (There H)|]. destruct H as [<-|H]; [exact (Here Ht)|exact (There H)].
Qed.

Lemma attempts_clean : forall n w fuel rows a, in_time rows ->
  In a (attempts_fuel n w fuel rows) ->
  forall x t1 t2, In x rows -> excluded x = true -> hd_error a = Some t1 -> In t2 a ->
  ~ (t1 < r_ts x < t2).
Proof.
  intros n w fuel. induction fuel as [|f IH]; intros rows a S H x t1 t2 Hx Ex H1 H2 L; [destruct H|].
  cbn [attempts_fuel] in H. destruct (first_hit 0 rows) as [[r0 rest]|] eqn:F; [|destruct H].
  destruct (first_hit_in _ _ _ _ F) as (b & ->).
  destruct (until _ rest) as [inside out] eqn:U. destruct (until_in _ _ _ _ U) as (-> & In_).
  destruct (reach 1 (n - 1) inside) as [ts lft] eqn:R. destruct (reach_in _ _ _ _ _ R) as (Rt & Rl).
  destruct (in_time_app _ _ S) as (_ & S1 & Sb).
  assert (S1' := S1). unfold in_time in S1'. cbn [map] in S1'. apply StronglySorted_inv in S1'.
  destruct S1' as (S2 & Fa). rewrite Forall_map in Fa. rewrite Forall_forall in Fa, In_.
  destruct (in_time_app inside out S2) as (Si & So & Sio).
  (* an attempt of the rows after [r0] *)
  assert (Rec : forall pre post, inside ++ out = pre ++ post -> In a (attempts_fuel n w f post) -> False).
  { intros pre post E HA. rewrite E in S2. destruct (in_time_app pre post S2) as (_ & Sp & Spp).
    assert (T1 : exists r, In r post /\ r_ts r = t1).
    { apply (attempts_from n w f post a Sp HA). destruct a; [discriminate|]. injection H1 as ->. left. reflexivity. }
    destruct T1 as (y & Hy & Ey).
    assert (NP : In x post -> False).
    { intro Hp. exact (IH post a Sp HA x t1 t2 Hp Ex H1 H2 L). }
    apply in_app_or in Hx. destruct Hx as [Hx|[<-|Hx]].
    - assert (Q : In y (r0 :: inside ++ out)) by (right; rewrite E; apply in_or_app; right; exact Hy).
      specialize (Sb x y Hx Q). lia.
    - assert (Q : In y (inside ++ out)) by (rewrite E; apply in_or_app; right; exact Hy).
      specialize (Fa y Q). lia.
    - rewrite E in Hx. apply in_app_or in Hx. destruct Hx as [Hx|Hx]; [|exact (NP Hx)].
      specialize (Spp x y Hx Hy). lia. }
  (* the attempt starting at [r0] *)
  assert (Here : a = r_ts r0 :: ts -> False).
  { intros ->. injection H1 as <-. destruct H2 as [<-|H2]; [lia|].
    destruct (Rt t2 H2) as (y & Hy & <-).
    apply in_app_or in Hx. destruct Hx as [Hx|[<-|Hx]].
    - specialize (Sb x r0 Hx (or_introl eq_refl)). lia.
    - lia.
    - apply in_app_or in Hx. destruct Hx as [Hx|Hx].
      + specialize (In_ x Hx). cbn in In_. rewrite Ex in In_. discriminate.
      + specialize (Sio y x Hy Hx). lia. }
  destruct lft as [l|].
  - destruct Rl as (b2 & E). destruct H as [H|H]; [exact (Here (eq_sym H))|].
    apply (Rec b2 (l ++ out)); [rewrite E, <- app_assoc; reflexivity|exact H].
  - destruct out as [|r out]; [destruct H as [H|[]]; exact (Here (eq_sym H))|].
    destruct (excluded r).
    + apply (Rec inside (r :: out)); [reflexivity|exact H].
    + destruct H as [H|H]; [exact (Here (eq_sym H))|].
      apply (Rec inside (r :: out)); [reflexivity|exact H].
Qed.

Theorem C51_no_excluded_event_inside_partial : forall c batches key user attempt x first later,
  StronglySorted Z.le (map r_ts (of_user user (of_key key (concat batches)))) ->
  (* an attempt of the user, as counted by the report (C49) *)
  In attempt (attempts (length (c_orders c)) (c_window c) (of_user user (of_key key (concat batches)))) ->
  (* [x] is an excluded event of the same user *)
  In x (concat batches) -> r_part x = user -> r_key x = key -> excluded x = true ->
  hd_error attempt = Some first -> In later attempt ->
  ~ (first < r_ts x < later).
Proof.
  intros c batches key user a x first later S H Hx Hu Hk Ex H1 H2.
  apply (attempts_clean _ _ _ _ _ S H x first later); try assumption.
  unfold of_user, of_key. apply filter_In. split; [|lia]. apply filter_In. split; [exact Hx|].
  destruct (gkey_dec (r_key x) key); [reflexivity|congruence].
Qed.
Print Assumptions C51_no_excluded_event_inside_partial.

Example C51_witness :
  (* the attempt 30 is interrupted by the excluded event at 40 and does not appear *)
  attempts 2 100 (of_user 1 (of_key [6] ex_rows2)) = [] /\
  (* with the exclusion limited to steps 0..1 it is counted *)
  funnel (with_excl ex_cfg2 [Some (0%nat, 1%nat)]) None [firstn 4 ex_rows2] =
    Some [([6], 0, [mkSR 1 0 0 0; mkSR 0 1 0 0]); ([5], 0, [mkSR 1 0 0 0; mkSR 1 0 10 10])] /\
  funnel ex_cfg2 None [firstn 4 ex_rows2] = Some [([5], 0, [mkSR 1 0 0 0; mkSR 1 0 10 10])].
Proof. repeat split. Qed.

(** * C50 *)
(** Where no event of the last step occurs, unique counting changes nothing. *)
Lemma push_fields : forall c g g' s, push_result c g = Some (g', s) ->
  g_cur g' = g_cur g /\ g_done g' = g_done g /\ map fst (g_buckets g') = map fst (g_buckets g).
Proof.
  intros c g g' s H. unfold push_result in H. destruct (_ =? _)%nat; [injection H as <- _; auto|].
  destruct (bucket_key c g) as [k|]; [|discriminate]. injection H as <- _. cbn.
  split; [reflexivity|]. split; [reflexivity|]. unfold modify. rewrite map_map. apply map_ext.
  intros [b l]. cbn [fst snd]. destruct (b =? k); reflexivity.
Qed.

(** Conversions booked in a group. *)
Definition last_total (c : Cfg) (l : list StepResult) : Z := s_total (nth (steps_len c - 1) l sr0).
Definition booked (c : Cfg) (g : Group) : Z := sum (map (fun kb => last_total c (snd kb)) (g_buckets g)).

Record Sane (c : Cfg) (g : Group) : Prop := mkSane {
  sa_cur : (g_cur g < steps_len c)%nat;
  sa_done : g_done g = g_cur g;
  sa_keys : map fst (g_buckets g) = c_buckets c
}.

Lemma s_total_redrop : forall p l i,
  s_total (nth i (redrop p l) sr0) = s_total (nth i l sr0).
Proof.
  intros p l. revert p. induction l as [|s l IH]; intros p i; [destruct i; reflexivity|].
  destruct i; [reflexivity|]. cbn [redrop nth]. apply IH.
Qed.
Lemma s_total_bump_all : forall t d l k i,
  s_total (nth i (bump_all t d k l) sr0) <=
    s_total (nth i l sr0) + (if (k + i <? d)%nat then 1 else 0).
Proof.
  intros t d l. induction l as [|s l IH]; intros k i; [destruct i; cbn [bump_all nth]; destruct (_ <? _)%nat; cbn; lia|].
  destruct i as [|i].
  - cbn [bump_all nth]. rewrite s_total_bump, Nat.add_0_r. lia.
  - cbn [bump_all nth]. replace (k + S i)%nat with (S k + i)%nat by lia. apply IH.
Qed.
Lemma last_count : forall c t d l,
  last_total c (count_attempt t d l) <= last_total c l + (if (steps_len c - 1 <? d)%nat then 1 else 0).
Proof.
  intros c t d l. unfold last_total, count_attempt.
  assert (B := s_total_bump_all t d l 0 (steps_len c - 1)). cbn [plus] in B.
  destruct (bump_all t d 0 l) as [|s l']; [exact B|].
  destruct (steps_len c - 1)%nat as [|i]; [exact B|]. cbn [nth] in B |- *. rewrite s_total_redrop. exact B.
Qed.

Lemma booked_modify : forall c k t d b, NoDup (map fst b) ->
  sum (map (fun kb => last_total c (snd kb)) (modify k (count_attempt t d) b)) <=
  sum (map (fun kb => last_total c (snd kb)) b) + (if (steps_len c - 1 <? d)%nat then 1 else 0).
Proof.
  intros c k t d b ND. induction b as [|[b0 l0] b IH].
  - unfold sum. cbn [map modify fold_right]. destruct (_ <? _)%nat; lia.
  - cbn [map fst] in ND. inversion ND as [|x y NI ND']; subst. specialize (IH ND').
    cbn [modify map fst snd]. fold (modify k (count_attempt t d) b).
    unfold sum in *. cbn [fold_right]. destruct (b0 =? k) eqn:E; cbn [fst snd].
    + assert (b0 = k) by lia. subst k. assert (L := last_count c t d l0).
      replace (modify b0 (count_attempt t d) b) with b; [lia|].
      clear -NI. unfold modify. induction b as [|[b1 l1] b IHb]; [reflexivity|].
      cbn [map fst snd] in *. replace (b1 =? b0) with false.
      * f_equal. apply IHb. intro X. apply NI. right. exact X.
      * symmetry. apply Z.eqb_neq. intro X. apply NI. left. exact X.
    + lia.
Qed.

Lemma push_booked : forall c g g' s, NoDup (c_buckets c) -> map fst (g_buckets g) = c_buckets c ->
  push_result c g = Some (g', s) ->
  booked c g' <= booked c g + (if (steps_len c - 1 <? g_done g)%nat then 1 else 0).
Proof.
  intros c g g' s ND K H. unfold push_result in H.
  destruct (g_done g =? 0)%nat; [injection H as <- _; destruct (_ <? _)%nat; lia|].
  destruct (bucket_key c g) as [k|]; [|discriminate]. injection H as <- _. unfold booked. cbn [g_buckets].
  apply booked_modify. rewrite K. exact ND.
Qed.

Lemma do_row_booked : forall c b i r g g' s,
  NoDup (c_buckets c) -> (0 < steps_len c)%nat -> c_filter c = None -> c_count c = Unique ->
  Sane c g -> do_row c b i r g = Some (g', s) ->
  Sane c g' /\ booked c g' <= booked c g + (if s then 1 else 0) /\
  (s = true -> matches c r (steps_len c - 1) = Some true).
Proof.
  intros c b i r g g' s ND Pos Fi Un Sg H. unfold do_row in H.
  set (g0 := if g_first g then set_part g (r_part r) else g) in H.
  assert (S0 : Sane c g0 /\ booked c g0 = booked c g).
  { unfold g0. destruct (g_first g); (split; [destruct Sg; constructor; assumption|reflexivity]). }
  destruct S0 as (S0 & B0). clearbody g0.
  destruct (guard_attempt c r g0) as [g1|] eqn:E1; [|discriminate].
  assert (S1 : Sane c g1 /\ booked c g1 <= booked c g0).
  { unfold guard_attempt in E1. destruct (_ =? _)%nat; [injection E1 as <-; split; [exact S0|lia]|].
    destruct (check_exclude _ _ _).
    2:{ injection E1 as <-. split; [|apply Z.le_refl]. destruct S0. constructor; cbn; auto. }
    destruct (_ <? _); [|injection E1 as <-; split; [exact S0|lia]].
    destruct (push_result c g0) as [[gx bx]|] eqn:P; [|discriminate]. injection E1 as <-.
    assert (Q := push_booked c g0 gx bx ND (sa_keys _ _ S0) P). destruct (push_fields _ _ _ _ P) as (P1 & P2 & P3).
    destruct S0 as [Sc Sd Sk]. split; [constructor; cbn; auto; congruence|].
    unfold booked in *. cbn [reset g_buckets]. replace (steps_len c - 1 <? g_done g0)%nat with false in Q by lia. lia. }
  destruct S1 as (S1 & B1). clear E1.
  destruct (guard_const c b i r g1) as [g2|] eqn:E2; [|discriminate].
  assert (S2 : Sane c g2 /\ booked c g2 = booked c g1).
  { unfold guard_const in E2. destruct (c_consts c); [|injection E2 as <-; split; [exact S1|reflexivity]].
    destruct S1 as [Sc Sd Sk].
    destruct (_ =? _)%nat; [injection E2 as <-; split; [constructor; cbn; auto|reflexivity]|].
    destruct (check_constants _ _ _) as [[|]|]; try discriminate; injection E2 as <-;
      (split; [constructor; cbn; auto|reflexivity]). }
  destruct S2 as (S2 & B2). clear E2.
  destruct (guard_part c r g2) as [g3|] eqn:E3; [|discriminate].
  assert (S3 : Sane c g3 /\ booked c g3 <= booked c g2).
  { unfold guard_part in E3. destruct (_ =? _); [injection E3 as <-; split; [exact S2|lia]|].
    destruct (push_result c g2) as [[gx bx]|] eqn:P; [|discriminate]. injection E3 as <-.
    assert (Q := push_booked c g2 gx bx ND (sa_keys _ _ S2) P). destruct (push_fields _ _ _ _ P) as (P1 & P2 & P3).
    destruct S2 as [Sc Sd Sk]. split; [constructor; cbn; auto; congruence|].
    unfold booked in *. cbn [reset set_part g_buckets]. replace (steps_len c - 1 <? g_done g2)%nat with false in Q by lia. lia. }
  destruct S3 as (S3 & B3). clear E3. destruct S3 as [Sc Sd Sk].
  unfold advance in H. destruct (matches c r (g_cur g3)) as [[|]|] eqn:M; [| |discriminate].
  - destruct (g_cur g3 <? steps_len c - 1)%nat eqn:L.
    + injection H as <- <-. split; [constructor; cbn; auto; lia|]. split; [unfold booked in *; cbn [g_buckets]; lia|discriminate].
    + match type of H with context [push_result c ?y] => set (h := y) in H end.
      destruct (push_result c h) as [[g4 s4]|] eqn:P; [|discriminate]. injection H as <- <-.
      assert (Q := push_booked c h g4 s4 ND Sk P). destruct (push_fields _ _ _ _ P) as (P1 & P2 & P3).
      assert (S4 : s4 = true).
      { unfold push_result in P. cbn [h g_done] in P. cbn [Nat.eqb] in P.
        destruct (bucket_key c h); [|discriminate]. injection P as _ <-. unfold is_completed. rewrite Fi.
        cbn [h g_done]. apply Nat.eqb_eq. lia. }
      rewrite S4, Un. cbn [andb].
      split; [constructor; cbn; auto; rewrite P3; exact Sk|].
      assert (booked c h = booked c g3) by reflexivity.
      split; [|intros _; replace (steps_len c - 1)%nat with (g_cur g3) by lia; exact M].
      match goal with X : booked c h = _ |- _ => rewrite X in Q end.
      change (booked c g4 <= booked c g + 1). destruct (steps_len c - 1 <? g_done h)%nat; lia.
  - injection H as <- <-. split; [constructor; auto|]. split; [lia|discriminate].
Qed.

Definition all_booked (c : Cfg) (gs : list (GKey * Group)) : Z := sum (map (fun kg => booked c (snd kg)) gs).
Record FSane (c : Cfg) (gs : list (GKey * Group)) : Prop := mkFSane {
  fs_keys : NoDup (akeys gs);
  fs_groups : forall k g, In (k, g) gs -> Sane c g
}.

Lemma sum_zero : forall (A : Type) (f : A -> Z) l, (forall x, In x l -> f x = 0) -> sum (map f l) = 0.
Proof.
  intros A f l H. induction l as [|x l IH]; [reflexivity|]. unfold sum in *. cbn [map fold_right].
  rewrite (H x (or_introl eq_refl)). rewrite IH; [reflexivity|]. intros y Hy. apply H. right. exact Hy.
Qed.

Lemma new_sane : forall c, (0 < steps_len c)%nat -> Sane c (new_group c) /\ booked c (new_group c) = 0.
Proof.
  intros c P. split.
  - constructor; cbn; [exact P|reflexivity|]. rewrite map_map. apply map_id.
  - unfold booked. apply sum_zero. intros [b l] H. cbn [new_group g_buckets] in H. apply in_map_iff in H.
    destruct H as (x & E & _). injection E as <- <-. cbn [snd]. unfold last_total.
    generalize (steps_len c - 1)%nat. intro i. revert i. clear P. induction (steps_len c) as [|n IH]; intro i.
    + destruct i; reflexivity.
    + destruct i; [reflexivity|]. cbn [repeat nth]. apply IH.
Qed.

Lemma adel_booked : forall c k gs, NoDup (akeys gs) ->
  all_booked c (adel gkey_dec k gs) +
    (match aget gkey_dec k gs with Some g => booked c g | None => 0 end) = all_booked c gs.
Proof.
  intros c k gs ND. unfold all_booked, sum. induction gs as [|[k0 g0] gs IH]; [reflexivity|].
  cbn [akeys map fst] in ND. inversion ND as [|x y NI ND']; subst. specialize (IH ND').
  cbn [adel aget]. destruct (gkey_dec k k0) as [->|NE].
  - cbn [map fold_right snd]. assert (A : aget gkey_dec k0 gs = None) by (apply aget_None; exact NI).
    rewrite A in IH. lia.
  - cbn [map fold_right snd]. lia.
Qed.

Lemma fsane_aset : forall c k g gs, FSane c gs -> Sane c g -> FSane c (aset gkey_dec k g gs).
Proof.
  intros c k g gs [K G] S. constructor.
  - unfold aset. cbn [akeys map fst]. fold (akeys (adel gkey_dec k gs)). rewrite akeys_adel.
    constructor; [apply remove_In|]. clear -K. induction (akeys gs) as [|x l IHl]; [constructor|].
    inversion K; subst. cbn [remove]. destruct (gkey_dec k x); [exact (IHl H2)|].
    constructor; [|exact (IHl H2)]. intro X. apply in_remove in X. apply H1. apply X.
  - intros k1 g1 H. apply in_aset in H. destruct H as [E|H]; [injection E as -> ->; exact S|exact (G _ _ H)].
Qed.

(** Users who may still convert. *)
Definition open_users (f : Funnel) (rows : list Row) : list Z :=
  filter (fun u => negb (f_skip f && (u =? f_cur f))) (users rows).

Lemma users_cons : forall r rows, users (r :: rows) =
  if in_dec Z.eq_dec (r_part r) (map r_part rows) then users rows else r_part r :: users rows.
Proof. reflexivity. Qed.

Lemma filter_all : forall (A : Type) (f : A -> bool) l, (forall x, In x l -> f x = true) -> filter f l = l.
Proof.
  intros A f l H. induction l as [|x l IH]; [reflexivity|]. cbn [filter].
  rewrite (H x (or_introl eq_refl)). f_equal. apply IH. intros y Hy. apply H. right. exact Hy.
Qed.

Lemma filter_len : forall (A : Type) (f : A -> bool) l, (length (filter f l) <= length l)%nat.
Proof.
  intros A f l. induction l as [|x l IH]; [apply le_n|]. cbn [filter length].
  destruct (f x); cbn [length]; lia.
Qed.

Lemma in_users : forall u rows, In u (users rows) <-> exists r, In r rows /\ r_part r = u.
Proof.
  intros u rows. unfold users. rewrite nodup_In, in_map_iff. split; intros (r & A & B); exists r; tauto.
Qed.

Lemma without_user : forall p rows,
  S (length (filter (fun u => negb (u =? p)) (users rows))) =
  length (users (mkRow p 0 [] [] [] [] :: rows)).
Proof.
  intros p rows. rewrite users_cons. cbn [r_part].
  assert (ND : NoDup (users rows)) by apply NoDup_nodup.
  destruct (in_dec Z.eq_dec p (map r_part rows)) as [H|H].
  - assert (Hu : In p (users rows)) by (unfold users; apply nodup_In; exact H).
    revert Hu ND. generalize (users rows) as l. induction l as [|x l IH]; intros Hu ND; [destruct Hu|].
    inversion ND as [|y z NI ND']; subst. cbn [filter length]. destruct (x =? p) eqn:E; cbn [negb].
    + assert (x = p) by lia. subst x. f_equal. f_equal. apply filter_all. intros y Hy.
      destruct (y =? p) eqn:Y; [|reflexivity]. exfalso. apply NI. replace p with y by lia. exact Hy.
    + cbn [length]. f_equal. destruct Hu as [Hu|Hu]; [lia|]. exact (IH Hu ND').
  - cbn [length]. f_equal. f_equal. apply filter_all. intros x Hx.
    destruct (x =? p) eqn:E; [|reflexivity]. exfalso. apply H. replace p with x by lia.
    unfold users in Hx. apply nodup_In in Hx. exact Hx.
Qed.

Lemma eval_rows_booked : forall c ex batch rows i f f',
  NoDup (c_buckets c) -> (0 < steps_len c)%nat -> c_filter c = None -> c_count c = Unique ->
  by_user rows -> (forall r, In r rows -> f_cur f <= r_part r) ->
  (forall l r, rows = l ++ [r] -> matches c r (steps_len c - 1) <> Some true) ->
  FSane c (f_groups f) -> eval_rows c ex batch i rows f = Some f' ->
  FSane c (f_groups f') /\
  all_booked c (f_groups f') <= all_booked c (f_groups f) + Z.of_nat (length (open_users f rows)).
Proof.
  intros c ex batch rows. induction rows as [|r rows IH]; intros i f f' ND Pos Fi Un Srt Cur Lst FS H.
  - injection H as <-. split; [exact FS|lia].
  - assert (Srt' := Srt). unfold by_user in Srt'. cbn [map] in Srt'. apply StronglySorted_inv in Srt'.
    destruct Srt' as (S1 & Fa). rewrite Forall_map in Fa. rewrite Forall_forall in Fa.
    assert (L1 : forall l x, rows = l ++ [x] -> matches c x (steps_len c - 1) <> Some true).
    { intros l x E. apply (Lst (r :: l) x). rewrite E. reflexivity. }
    cbn [eval_rows] in H.
    destruct (f_skip f && (f_cur f =? r_part r) && more rows) eqn:Sk.
    { assert (C1 : forall x, In x rows -> f_cur f <= r_part x).
      { intros x Hx. apply Cur. right. exact Hx. }
      destruct (IH _ _ _ ND Pos Fi Un S1 C1 L1 FS H) as (A & B). split; [exact A|].
      assert (length (open_users f rows) <= length (open_users f (r :: rows)))%nat; [|lia].
      unfold open_users. rewrite users_cons. destruct (in_dec _ _ _); [lia|]. cbn [filter].
      destruct (negb _); cbn [length]; lia. }
    (* no skipping: the flag is cleared *)
    set (f0 := mkF (f_groups f) (f_cur f) false) in H.
    assert (Last : f_skip f && (f_cur f =? r_part r) = true -> rows = []).
    { intro X. rewrite X in Sk. cbn [andb] in Sk. destruct rows; [reflexivity|discriminate]. }
    (* when the flag was set for another user, every user of the rows is open *)
    assert (Open : f_skip f && (f_cur f =? r_part r) = false -> open_users f (r :: rows) = users (r :: rows)).
    { intro X. unfold open_users. apply filter_all. intros u Hu. apply in_users in Hu.
      destruct Hu as (x & Hx & <-). destruct (f_skip f); [|reflexivity]. cbn [andb] in *.
      specialize (Cur r (or_introl eq_refl)).
      assert (r_part r <= r_part x) by (destruct Hx as [<-|Hx]; [lia|apply Fa; exact Hx]). lia. }
    assert (Sub : (length (users rows) <= length (users (r :: rows)))%nat).
    { rewrite users_cons. destruct (in_dec _ _ _); cbn [length]; lia. }
    destruct (match ex with None => false | Some us => negb (existsb (Z.eqb (r_part r)) us) && more rows end) eqn:Seg.
    { assert (C1 : forall x, In x rows -> f_cur f0 <= r_part x).
      { intros x Hx. apply Cur. right. exact Hx. }
      destruct (IH _ _ _ ND Pos Fi Un S1 C1 L1 FS H) as (A & B). split; [exact A|].
      assert (O : (length (open_users f0 rows) <= length (users rows))%nat)
        by apply filter_len.
      cbn [f0 f_groups] in B.
      destruct (f_skip f && (f_cur f =? r_part r)) eqn:Y.
      - rewrite (Last eq_refl) in B. change (length (open_users f0 [])) with 0%nat in B. lia.
      - rewrite (Open eq_refl). lia. }
    cbn [f0 f_groups f_cur] in H.
    set (g := match aget gkey_dec (r_key r) (f_groups f) with Some g => g | None => new_group c end) in H.
    assert (SG : Sane c g /\ booked c g = match aget gkey_dec (r_key r) (f_groups f) with
                                          | Some g => booked c g | None => 0 end).
    { unfold g. destruct (aget gkey_dec (r_key r) (f_groups f)) as [g0|] eqn:A; [|apply new_sane; exact Pos].
      split; [|reflexivity]. apply aget_pair in A. exact (fs_groups _ _ FS _ _ A). }
    destruct SG as (SG & BG).
    destruct (do_row c batch i r g) as [[g' s]|] eqn:D; [|discriminate].
    destruct (do_row_booked _ _ _ _ _ _ _ ND Pos Fi Un SG D) as (SG' & B' & Ms).
    set (f1 := mkF (aset gkey_dec (r_key r) g' (f_groups f)) (r_part r) s) in H.
    assert (C1 : forall x, In x rows -> f_cur f1 <= r_part x) by (intros x Hx; apply Fa; exact Hx).
    assert (FS1 : FSane c (f_groups f1)) by (apply fsane_aset; assumption).
    destruct (IH _ _ _ ND Pos Fi Un S1 C1 L1 FS1 H) as (A & B). split; [exact A|].
    assert (BB : all_booked c (f_groups f1) <= all_booked c (f_groups f) + (if s then 1 else 0)).
    { cbn [f1 f_groups]. assert (Q := adel_booked c (r_key r) (f_groups f) (fs_keys _ _ FS)).
      unfold aset, all_booked in *. cbn [map snd]. unfold sum in *. cbn [fold_right]. lia. }
    destruct s; cbv beta iota in BB.
    + assert (W := without_user (r_part r) rows).
      change (users (mkRow (r_part r) 0 [] [] [] [] :: rows)) with (users (r :: rows)) in W.
      change (open_users f1 rows) with (filter (fun u => negb (u =? r_part r)) (users rows)) in B.
      destruct (f_skip f && (f_cur f =? r_part r)) eqn:Y.
      * exfalso. rewrite (Last eq_refl) in Lst. exact (Lst [] r eq_refl (Ms eq_refl)).
      * rewrite (Open eq_refl). lia.
    + assert (O : (length (open_users f1 rows) <= length (users rows))%nat)
        by apply filter_len.
      destruct (f_skip f && (f_cur f =? r_part r)) eqn:Y.
      * rewrite (Last eq_refl) in B. change (length (open_users f1 [])) with 0%nat in B. lia.
      * rewrite (Open eq_refl). lia.
Qed.

Lemma sum_filter_le : forall (A : Type) (f : A -> Z) (p : A -> bool) l,
  (forall x, In x l -> 0 <= f x) -> sum (map f (filter p l)) <= sum (map f l).
Proof.
  intros A f p l H. induction l as [|x l IH]; [cbn; lia|].
  assert (0 <= f x) by (apply H; left; reflexivity).
  assert (sum (map f (filter p l)) <= sum (map f l)) by (apply IH; intros y Hy; apply H; right; exact Hy).
  unfold sum in *. cbn [filter]. destruct (p x); cbn [map fold_right]; lia.
Qed.

Lemma stairs_last : forall l i, stairs l -> 0 <= s_total (nth i l sr0).
Proof.
  intros l i H. destruct l as [|s l]; [destruct i; cbn; lia|]. destruct H as (A & _ & B).
  destruct i as [|i]; [exact A|]. cbn [nth]. revert i B. generalize (s_total s) as p.
  induction l as [|x l IH]; intros p i B; [destruct i; cbn; lia|]. destruct B as (B1 & _ & B2).
  destruct i; [cbn [nth]; lia|]. cbn [nth]. exact (IH _ i B2).
Qed.

(** The conversions of a unique funnel over all lines of the report, when all rows are in one
    batch whose last row is not an event of the last step: at most one per user. *)
Theorem C50_conversions_at_most_users_partial : forall c segments rows report,
  c_count c = Unique -> c_filter c = None -> c_orders c <> [] -> NoDup (c_buckets c) ->
  StronglySorted Z.le (map r_part rows) ->
  (forall before r, rows = before ++ [r] -> matches c r (length (c_orders c) - 1) <> Some true) ->
  funnel c segments [rows] = Some report ->
  sum (map (fun ln => s_total (nth (length (c_orders c) - 1) (snd ln) sr0)) report) <=
    Z.of_nat (length (nodup Z.eq_dec (map r_part rows))).
Proof.
  intros c segs rows report Un Fi Ne ND Srt Lst H.
  assert (Pos : (0 < steps_len c)%nat) by (unfold steps_len; destruct (c_orders c); [congruence|cbn; lia]).
  unfold funnel in H. destruct (evaluate_all c segs [rows] funnel0) as [f|] eqn:E; [|discriminate].
  assert (F : fstairs f) by (apply (fstairs_all _ _ _ _ _ E); intros k g []).
  cbn [evaluate_all] in E. unfold evaluate in E. destruct rows as [|r0 rows0]; [discriminate|].
  destruct (r_part r0 <? f_cur funnel0) eqn:Neg; [discriminate|]. set (rows := r0 :: rows0) in *.
  destruct (eval_rows c segs rows 0 rows funnel0) as [f1|] eqn:R; [|discriminate]. injection E as ->.
  assert (B : FSane c (f_groups f) /\ all_booked c (f_groups f) <=
              all_booked c (f_groups funnel0) + Z.of_nat (length (open_users funnel0 rows))).
  { apply (eval_rows_booked c segs rows rows 0 funnel0 f ND Pos Fi Un Srt); try assumption.
    - intros r Hr. cbn [f_cur funnel0] in *. assert (S' := Srt). cbn [rows map] in S'.
      apply StronglySorted_inv in S'. destruct S' as (_ & Fa). rewrite Forall_map, Forall_forall in Fa.
      destruct Hr as [<-|Hr]; [lia|]. specialize (Fa r Hr). lia.
    - constructor; [constructor|intros k g []]. }
  destruct B as (FS & B). change (all_booked c (f_groups funnel0)) with 0 in B.
  assert (O : (length (open_users funnel0 rows) <= length (users rows))%nat)
    by apply filter_len.
  unfold finalize in H. destruct (push_all c (f_groups f)) as [gs|] eqn:P; [|discriminate]. injection H as <-.
  enough (Q : sum (map (fun ln => s_total (nth (length (c_orders c) - 1) (snd ln) sr0))
                (flat_map group_lines gs)) <= all_booked c (f_groups f)).
  { unfold users in O. lia. }
  clear -P F FS ND. destruct FS as [_ G].
  assert (Gen : forall l gs, push_all c l = Some gs -> (forall k g, In (k, g) l -> gstairs g) ->
     (forall k g, In (k, g) l -> Sane c g) ->
     sum (map (fun ln => s_total (nth (length (c_orders c) - 1) (snd ln) sr0)) (flat_map group_lines gs))
       <= all_booked c l).
  { clear gs P F G. induction l as [|[k g] l IH]; intros gs P F G.
    - injection P as <-. cbn. lia.
    - cbn [push_all] in P. destruct (push_result c g) as [[g' s]|] eqn:PR; [|discriminate].
      destruct (push_all c l) as [gs0|]; [|discriminate]. injection P as <-.
      assert (IH' := IH gs0 eq_refl (fun k0 g0 H => F k0 g0 (or_intror H)) (fun k0 g0 H => G k0 g0 (or_intror H))).
      cbn [flat_map]. rewrite map_app, sum_app.
      destruct (G k g (or_introl eq_refl)) as [Sc Sd Sk].
      assert (Q := push_booked c g g' s ND Sk PR). replace (steps_len c - 1 <? g_done g)%nat with false in Q by lia.
      cbv beta iota in Q.
      assert (GS := gstairs_push _ _ _ _ PR (F k g (or_introl eq_refl))).
      unfold all_booked, sum in *. cbn [map fold_right snd].
      apply Z.add_le_mono; [|exact IH']. apply Z.le_trans with (booked c g'); [|lia].
      unfold group_lines. cbn [fst snd]. rewrite map_map. cbn [snd]. unfold booked.
      apply (sum_filter_le _ (fun kb => last_total c (snd kb))).
      intros [b0 l0] Hb. cbn [snd]. apply stairs_last. exact (GS _ _ Hb). }
  exact (Gen _ gs P F G).
Qed.
Print Assumptions C50_conversions_at_most_users_partial.

Example C50_witness :
  (* users 1 (twice in the stream, converting twice) and 2; one conversion counted *)
  funnel (ex_cfg Unique false) None [ex_rows] = Some [([], 0, [mkSR 2 0 0 0; mkSR 1 1 10 10])] /\
  matches (ex_cfg Unique false) (ev_x 3 60 7) 1 = Some false /\
  (* when the batch ends with an event of the last step the bound can fail *)
  funnel (ex_cfg Unique false) None [[ev_a 1 10 7; ev_b 1 20 7; ev_a 1 30 7]; [ev_b 1 40 7]] =
    Some [([], 0, [mkSR 2 0 0 0; mkSR 2 0 20 20])].
Proof. repeat split. Qed.

(** Without events of the last step, unique counting changes nothing at all. *)
Lemma do_row_quiet : forall c b i r g g' s, (0 < steps_len c)%nat ->
  matches c r (steps_len c - 1) <> Some true -> (g_cur g < steps_len c)%nat ->
  do_row c b i r g = Some (g', s) -> (g_cur g' < steps_len c)%nat /\ s = false.
Proof.
  intros c b i r g g' s Pos M L H. unfold do_row in H.
  set (g0 := if g_first g then set_part g (r_part r) else g) in H.
  assert (L0 : (g_cur g0 < steps_len c)%nat) by (unfold g0; destruct (g_first g); exact L). clearbody g0.
  destruct (guard_attempt c r g0) as [g1|] eqn:E1; [|discriminate].
  assert (L1 : (g_cur g1 < steps_len c)%nat).
  { unfold guard_attempt in E1. destruct (_ =? _)%nat; [injection E1 as <-; exact L0|].
    destruct (check_exclude _ _ _); [|injection E1 as <-; exact Pos].
    destruct (_ <? _); [|injection E1 as <-; exact L0].
    destruct (push_result c g0) as [[gx bx]|]; [|discriminate]. injection E1 as <-. exact Pos. }
  destruct (guard_const c b i r g1) as [g2|] eqn:E2; [|discriminate].
  assert (L2 : (g_cur g2 < steps_len c)%nat).
  { unfold guard_const in E2. destruct (c_consts c); [|injection E2 as <-; exact L1].
    destruct (_ =? _)%nat; [injection E2 as <-; exact L1|].
    destruct (check_constants _ _ _) as [[|]|]; try discriminate; injection E2 as <-; [exact L1|exact Pos]. }
  destruct (guard_part c r g2) as [g3|] eqn:E3; [|discriminate].
  assert (L3 : (g_cur g3 < steps_len c)%nat).
  { unfold guard_part in E3. destruct (_ =? _); [injection E3 as <-; exact L2|].
    destruct (push_result c g2) as [[gx bx]|]; [|discriminate]. injection E3 as <-. exact Pos. }
  unfold advance in H. destruct (matches c r (g_cur g3)) as [[|]|] eqn:Mt; [| |discriminate].
  - destruct (g_cur g3 <? steps_len c - 1)%nat eqn:B.
    + injection H as <- <-. cbn [g_cur]. split; [lia|reflexivity].
    + exfalso. apply M. replace (steps_len c - 1)%nat with (g_cur g3) by lia. exact Mt.
  - injection H as <- <-. split; [exact L3|reflexivity].
Qed.

Definition low (c : Cfg) (f : Funnel) : Prop :=
  forall k g, In (k, g) (f_groups f) -> (g_cur g < steps_len c)%nat.

Lemma eval_rows_quiet : forall c k ex batch rows i f, (0 < steps_len c)%nat ->
  (forall r, In r rows -> matches c r (steps_len c - 1) <> Some true) ->
  low c f -> f_skip f = false ->
  match eval_rows c ex batch i rows f with
  | None => eval_rows (with_count c k) ex batch i rows f = None
  | Some f' => eval_rows (with_count c k) ex batch i rows f = Some f' /\ low c f' /\ f_skip f' = false
  end.
Proof.
  intros c k ex batch rows. induction rows as [|r rows IH]; intros i f Pos M Lo Sk.
  - cbn. auto.
  - assert (M' : forall x, In x rows -> matches c x (steps_len c - 1) <> Some true)
      by (intros x Hx; apply M; right; exact Hx).
    cbn [eval_rows]. rewrite Sk. cbn [andb f_groups f_cur].
    destruct (match ex with None => false | _ => _ end).
    { apply IH; try assumption; reflexivity. }
    change (new_group (with_count c k)) with (new_group c).
    set (g := match aget gkey_dec (r_key r) (f_groups f) with Some g => g | None => new_group c end).
    assert (Lg : (g_cur g < steps_len c)%nat).
    { unfold g. destruct (aget gkey_dec (r_key r) (f_groups f)) eqn:A; [|exact Pos].
      apply aget_pair in A. exact (Lo _ _ A). }
    assert (D := do_row_count c k batch i r g).
    destruct (do_row c batch i r g) as [[g1 s1]|] eqn:D1;
      destruct (do_row (with_count c k) batch i r g) as [[g2 s2]|] eqn:D2; try discriminate D; [|reflexivity].
    injection D as ->. assert (Mr := M r (or_introl eq_refl)).
    destruct (do_row_quiet _ _ _ _ _ _ _ Pos Mr Lg D1) as (Q1 & ->).
    destruct (do_row_quiet (with_count c k) _ _ _ _ _ _ Pos Mr Lg D2) as (_ & ->).
    apply IH; try assumption; [|reflexivity]. intros k0 g0 H0. cbn [f_groups] in H0. apply in_aset in H0.
    destruct H0 as [E|H0]; [injection E as -> ->; exact Q1|exact (Lo _ _ H0)].
Qed.

Lemma funnel_quiet : forall c k ex batches, (0 < steps_len c)%nat ->
  (forall r, In r (concat batches) -> matches c r (steps_len c - 1) <> Some true) ->
  funnel (with_count c k) ex batches = funnel c ex batches.
Proof.
  intros c k ex batches Pos M. unfold funnel.
  assert (E : forall bs f, (forall r, In r (concat bs) -> matches c r (steps_len c - 1) <> Some true) ->
    low c f -> f_skip f = false -> evaluate_all (with_count c k) ex bs f = evaluate_all c ex bs f).
  { induction bs as [|b bs IH]; intros f Mb Lo Sk; [reflexivity|]. cbn [evaluate_all]. unfold evaluate.
    destruct b as [|r b]; [reflexivity|]. destruct (_ <? _); [reflexivity|].
    assert (Q := eval_rows_quiet c k ex (r :: b) (r :: b) 0 f Pos).
    assert (Mb1 : forall x, In x (r :: b) -> matches c x (steps_len c - 1) <> Some true)
      by (intros x Hx; apply Mb; cbn [concat]; apply in_or_app; left; exact Hx).
    specialize (Q Mb1 Lo Sk). destruct (eval_rows c ex (r :: b) 0 (r :: b) f) as [f'|].
    - destruct Q as (Q1 & Q2 & Q3). rewrite Q1. apply IH; try assumption.
      intros x Hx. apply Mb. cbn [concat]. apply in_or_app. right. exact Hx.
    - rewrite Q. reflexivity. }
  rewrite E; [|exact M|intros k0 g []|reflexivity].
  apply (same_finalize (with_count c k) c); [reflexivity|].
  destruct (evaluate_all c ex batches funnel0); [split; reflexivity|exact I].
Qed.

(** [m] first-step events of one user, each outside the window of the one before. *)
Definition restarts (n m : nat) (w u : Z) : list Row :=
  map (fun i => mkRow u (Z.of_nat i * (w + 1)) [] (true :: repeat false (S n)) [] []) (seq 0 m).

Lemma run_restarts : forall n w u m i,
  run_user (S (S n)) w [Z.of_nat i * (w + 1)]
    (map (fun i => mkRow u (Z.of_nat i * (w + 1)) [] (true :: repeat false (S n)) [] []) (seq (S i) m)) =
  map (fun i => [Z.of_nat i * (w + 1)]) (seq i (S m)).
Proof.
  intros n w u m. induction m as [|m IH]; intro i; [reflexivity|].
  cbn [seq map run_user]. unfold step_user. cbn [excluded r_excl existsb r_ts].
  replace (w <? Z.of_nat (S i) * (w + 1) - Z.of_nat i * (w + 1)) with true by lia.
  cbn [length hits r_steps nth Nat.ltb Nat.leb]. cbn [hits nth r_steps].
  change (S (S n) - 1)%nat with (S n). cbn [Nat.ltb Nat.leb app].
  f_equal. rewrite IH. reflexivity.
Qed.

Lemma restarts_attempts : forall n m w u,
  attempts (S (S n)) w (restarts n m w u) = map (fun i => [Z.of_nat i * (w + 1)]) (seq 0 m).
Proof.
  intros n m w u. rewrite attempts_run by lia. unfold restarts. destruct m as [|m]; [reflexivity|].
  cbn [seq map run_user]. unfold step_user. cbn [length hits r_steps nth].
  change (S (S n) - 1)%nat with (S n). cbn [Nat.ltb Nat.leb app r_ts].
  rewrite run_restarts. reflexivity.
Qed.

(** The full statement fails: with unique counting, a single user is counted any number of
    times, in any funnel with two or more steps and any window. *)
Theorem C50_user_counted_again_refuted : forall n m w u, 0 <= u -> 0 <= w -> (0 < m)%nat ->
  let c := mkCfg (repeat Exact (S (S n))) w [] false Unique None None [0] in
  exists rest report,
    funnel c None [restarts n m w u] = Some report /\
    In ([], 0, mkSR (Z.of_nat m) 0 0 0 :: rest) report.
Proof.
  intros n m w u Hu Hw Hm c.
  set (cn := with_count c NonUnique).
  assert (SL : steps_len cn = S (S n)) by (unfold steps_len, cn, c; cbn; rewrite repeat_length; reflexivity).
  assert (RowsIn : forall r, In r (restarts n m w u) -> r_part r = u /\ r_key r = [] /\
    r_steps r = true :: repeat false (S n) /\ r_excl r = []).
  { intros r Hr. unfold restarts in Hr. apply in_map_iff in Hr. destruct Hr as (i & <- & _). auto. }
  assert (Ck : concat [restarts n m w u] = restarts n m w u) by (cbn [concat]; apply app_nil_r).
  assert (Quiet : funnel c None [restarts n m w u] = funnel cn None [restarts n m w u]).
  { change c with (with_count cn Unique). apply funnel_quiet; [rewrite SL; lia|].
    rewrite Ck, SL. intros r Hr. destruct (RowsIn r Hr) as (_ & _ & Es & _).
    unfold matches. change (S (S n) - 1)%nat with (S n).
    destruct (nth_error (c_orders cn) (S n)) as [o|] eqn:Eo; [|discriminate].
    assert (o = Exact) by (apply nth_error_In in Eo; apply (repeat_spec (S (S n)) Exact); exact Eo).
    subst o. rewrite Es. cbn [nth_error].
    destruct (nth_error (repeat false (S n)) n) as [b|] eqn:Eb; [|discriminate].
    apply nth_error_In in Eb. apply repeat_spec in Eb. subst b. discriminate. }
  assert (Fk : of_key [] (restarts n m w u) = restarts n m w u).
  { unfold of_key. apply filter_all. intros r Hr. destruct (RowsIn r Hr) as (_ & -> & _).
    destruct (gkey_dec [] []); [reflexivity|congruence]. }
  assert (All : Forall (fun r => r_part r = u) (restarts n m w u)).
  { apply Forall_forall. intros r Hr. apply RowsIn. exact Hr. }
  destruct (C49_report_is_specified_partial cn [restarts n m w u]) as (report & R & Spec).
  - constructor; cbn; try discriminate; try reflexivity; [|tauto].
    intros o Ho. apply (repeat_spec (S (S n)) Exact). exact Ho.
  - constructor; rewrite ?Ck.
    + intros b [<-|[]]. unfold restarts. destruct m; [lia|discriminate].
    + clear -All. induction (restarts n m w u) as [|r l IH]; [constructor|].
      inversion All as [|x y A B]; subst. cbn [map]. constructor; [exact (IH B)|].
      rewrite Forall_map. rewrite Forall_forall in *. intros z Hz. rewrite (B z Hz). lia.
    + intros r Hr. destruct (RowsIn r Hr) as (-> & _). exact Hu.
    + intros r Hr. destruct (RowsIn r Hr) as (_ & _ & -> & ->). cbn. rewrite !repeat_length. auto.
  - intros v k r Hr. assert (Hin : In r (restarts n m w u)).
    { rewrite Ck in Hr. destruct (of_key k (of_user v (restarts n m w u))) as [|x l] eqn:E; [discriminate|].
      injection Hr as ->. assert (X : In r (of_key k (of_user v (restarts n m w u)))) by (rewrite E; left; reflexivity).
      unfold of_key, of_user in X. apply filter_In in X. destruct X as (X & _). apply filter_In in X. apply X. }
    destruct (RowsIn r Hin) as (_ & _ & _ & E). unfold excluded. rewrite E. reflexivity.
  - rewrite Quiet. rewrite Ck in Spec.
    assert (AA : all_attempts (S (S n)) w (restarts n m w u) = map (fun i => [Z.of_nat i * (w + 1)]) (seq 0 m)).
    { unfold all_attempts. assert (U := users_app u (restarts n m w u) []). rewrite app_nil_r in U.
      rewrite U; [|unfold restarts; destruct m; [lia|discriminate]|exact All|constructor].
      cbn [users map nodup flat_map]. rewrite app_nil_r, (of_user_all u _ All). apply restarts_attempts. }
    assert (LO : length (c_orders cn) = S (S n)) by exact SL.
    set (ats := map (fun i => [Z.of_nat i * (w + 1)]) (seq 0 m)) in *.
    assert (FB : filter (in_bucket cn 0) ats = ats) by (apply filter_all; reflexivity).
    assert (TT : total ats 0 = Z.of_nat m).
    { unfold total, reaching. rewrite (filter_all _ (fun a => (0 <? length a)%nat) ats).
      - unfold ats. rewrite map_length, seq_length. reflexivity.
      - intros a Ha. unfold ats in Ha. apply in_map_iff in Ha. destruct Ha as (i & <- & _). reflexivity. }
    exists (map (line_step ats) (seq 1 (S n))), report. split; [exact R|]. apply Spec.
    split; [left; reflexivity|]. split.
    + rewrite Fk, LO. change (c_window cn) with w. rewrite AA, FB. unfold line. cbn [seq map line_step].
      rewrite TT. reflexivity.
    + eexists _, _. split; [reflexivity|]. cbn [s_total]. lia.
Qed.
Print Assumptions C50_user_counted_again_refuted.
