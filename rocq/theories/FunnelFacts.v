(** Facts about the funnel machine. *)
From Coq Require Import List ZArith Bool Arith Lia ZifyBool Sorted.
From Verif Require Import AMap Calendar Funnel FunnelSpec.
Import ListNotations.
Local Open Scope Z_scope.

(** * Counting: buckets as a function of the attempts counted *)
Definition key_of (c : Cfg) (a : list Z) : option Z :=
  match c_interval c with
  | Some u => Some (millis (date_trunc u (of_millis (nth 0 a 0))))
  | None => match c_buckets c with [] => None | b :: _ => Some b end
  end.

Definition book (c : Cfg) (ats : list (list Z)) : list (Z * list StepResult) :=
  map (fun b => (b, line (steps_len c) (filter (in_bucket c b) ats))) (c_buckets c).

Lemma redrop_map : forall prev f m k,
  (forall j, s_dropped (f j) = s_dropped (f j)) ->
  redrop prev (map f (seq k m)) =
  map (fun j => mkSR (s_total (f j))
                  ((if (j =? k)%nat then prev else s_total (f (j - 1)%nat)) - s_total (f j))
                  (s_ttc (f j)) (s_ttcs (f j))) (seq k m).
Proof.
  intros prev f m. revert prev. induction m as [|m IH]; intros prev k H; [reflexivity|].
  cbn [seq map redrop]. rewrite Nat.eqb_refl. f_equal. rewrite IH by exact H.
  apply map_ext_in. intros j Hj. apply in_seq in Hj.
  replace (j =? k)%nat with false by lia.
  destruct (j =? S k)%nat eqn:E; [|reflexivity].
  apply Nat.eqb_eq in E. subst j. replace (S k - 1)%nat with k by lia. reflexivity.
Qed.

Lemma bump_all_map : forall times done f m k,
  bump_all times done k (map f (seq k m)) = map (fun j => bump times done j (f j)) (seq k m).
Proof.
  intros times done f m. induction m as [|m IH]; intro k; [reflexivity|].
  cbn [seq map bump_all]. f_equal. apply IH.
Qed.

Lemma reaching_app : forall k a b, reaching k (a ++ b) = reaching k a ++ reaching k b.
Proof. intros. unfold reaching. apply filter_app. Qed.

Lemma reaching_one : forall k a, reaching k [a] = if (k <? length a)%nat then [a] else [].
Proof. reflexivity. Qed.

Lemma total_snoc : forall ats a k,
  total (ats ++ [a]) k = total ats k + (if (k <? length a)%nat then 1 else 0).
Proof.
  intros ats a k. unfold total. rewrite reaching_app, app_length, reaching_one. destruct (k <? length a)%nat; cbn [length]; lia.
Qed.

Lemma sum_app : forall a b, sum (a ++ b) = sum a + sum b.
Proof. unfold sum. induction a as [|x a IH]; intro b; cbn [app fold_right]; [reflexivity|]. rewrite IH. lia. Qed.

Lemma sum_snoc : forall (f : list Z -> Z) ats a k,
  sum (map f (reaching k (ats ++ [a]))) =
  sum (map f (reaching k ats)) + (if (k <? length a)%nat then f a else 0).
Proof.
  intros f ats a k. rewrite reaching_app, map_app, sum_app, reaching_one. destruct (k <? length a)%nat; cbn; lia.
Qed.

(** Counting one more attempt. *)
Lemma count_attempt_line : forall n ats a, (length a <= n)%nat ->
  count_attempt a (length a) (line n ats) = line n (ats ++ [a]).
Proof.
  intros n ats a L. unfold count_attempt, line. rewrite bump_all_map.
  destruct n as [|n]; [reflexivity|]. cbn [seq map].
  f_equal.
  - unfold bump, line_step. rewrite !total_snoc.
    destruct (0 <? length a)%nat; cbn [s_total s_dropped s_ttc s_ttcs]; [reflexivity|].
    f_equal. lia.
  - rewrite redrop_map by reflexivity. apply map_ext_in. intros j Hj. apply in_seq in Hj.
    destruct j as [|j]; [lia|].
    assert (TJ : forall i, s_total (bump a (length a) i (line_step ats i)) = total (ats ++ [a]) i).
    { intro i. rewrite total_snoc. unfold bump, line_step.
      destruct i as [|i]; destruct (_ <? length a)%nat; cbn [s_total]; lia. }
    rewrite !TJ.
    assert (P : (if (S j =? 1)%nat then total (ats ++ [a]) 0 else total (ats ++ [a]) (S j - 1)) =
                total (ats ++ [a]) j).
    { destruct (S j =? 1)%nat eqn:E.
      - replace j with 0%nat by lia. reflexivity.
      - replace (S j - 1)%nat with j by lia. reflexivity. }
    rewrite P. cbn [line_step]. rewrite !sum_snoc.
    unfold bump. destruct (S j <? length a)%nat; cbn [s_ttc s_ttcs line_step]; f_equal; lia.
Qed.

Lemma bump_ext : forall t1 t2 done k s,
  (forall i, (i < done)%nat -> nth i t1 0 = nth i t2 0) -> bump t1 done k s = bump t2 done k s.
Proof.
  intros t1 t2 done k s H. unfold bump. destruct (k <? done)%nat eqn:E; [|reflexivity].
  destruct k as [|k]; [reflexivity|]. rewrite !H by lia. reflexivity.
Qed.
Lemma bump_all_ext : forall t1 t2 done l k,
  (forall i, (i < done)%nat -> nth i t1 0 = nth i t2 0) ->
  bump_all t1 done k l = bump_all t2 done k l.
Proof.
  intros t1 t2 done l. induction l as [|s l IH]; intros k H; [reflexivity|].
  cbn [bump_all]. rewrite (bump_ext t1 t2) by exact H. f_equal. apply IH. exact H.
Qed.
Lemma count_attempt_ext : forall t1 t2 done l,
  (forall i, (i < done)%nat -> nth i t1 0 = nth i t2 0) ->
  count_attempt t1 done l = count_attempt t2 done l.
Proof. intros t1 t2 done l H. unfold count_attempt. now rewrite (bump_all_ext t1 t2). Qed.

Lemma in_bucket_key : forall c b a k, key_of c a = Some k -> in_bucket c b a = (b =? k).
Proof.
  intros c b a k H. unfold key_of, in_bucket in *. destruct (c_interval c).
  - injection H as E. rewrite E. apply Z.eqb_sym.
  - destruct (c_buckets c); [discriminate|]. injection H as E. subst. apply Z.eqb_sym.
Qed.

Lemma book_snoc : forall c ats a k, (length a <= steps_len c)%nat -> key_of c a = Some k ->
  modify k (count_attempt a (length a)) (book c ats) = book c (ats ++ [a]).
Proof.
  intros c ats a k L K. unfold modify, book. rewrite map_map. apply map_ext. intro b.
  cbn [fst snd]. rewrite filter_app. cbn [filter]. rewrite (in_bucket_key c b a k K).
  destruct (b =? k).
  - rewrite count_attempt_line by exact L. reflexivity.
  - rewrite app_nil_r. reflexivity.
Qed.

(** * The machine on the rows of one breakdown value, as attempts *)
Definition step_user (n : nat) (w : Z) (a : list Z) (r : Row) : list (list Z) * list Z :=
  let '(e1, a1) :=
    match a with
    | [] => ([], [])
    | t0 :: _ => if excluded r then ([], [])
                 else if w <? r_ts r - t0 then ([a], []) else ([], a)
    end in
  if hits (length a1) r then
    if (length a1 <? n - 1)%nat then (e1, a1 ++ [r_ts r]) else (e1 ++ [a1 ++ [r_ts r]], [])
  else (e1, a1).

Definition fin (a : list Z) : list (list Z) := match a with [] => [] | _ => [a] end.

Fixpoint run_user (n : nat) (w : Z) (a : list Z) (rows : list Row) : list (list Z) :=
  match rows with
  | [] => fin a
  | r :: rest => let '(e, a') := step_user n w a r in e ++ run_user n w a' rest
  end.

Lemma run_user_reset : forall n w a r rest, a <> [] ->
  (excluded r || (w <? r_ts r - nth 0 a 0)) = true ->
  run_user n w a (r :: rest) =
  (if excluded r then [] else [a]) ++ run_user n w [] (r :: rest).
Proof.
  intros n w a r rest A H. destruct a as [|t0 a]; [congruence|]. cbn [nth] in H.
  cbn [run_user]. unfold step_user.
  destruct (excluded r).
  - reflexivity.
  - cbn [orb] in H. rewrite H. cbn [length].
    destruct (hits 0 r).
    + destruct (0 <? n - 1)%nat; reflexivity.
    + reflexivity.
Qed.

Lemma run_user_attempt : forall n w rest a,
  a <> [] -> (length a < n)%nat ->
  run_user n w a rest =
  let '(inside, out) := until (fun r => excluded r || (w <? r_ts r - nth 0 a 0)) rest in
  let '(ts, lft) := reach (length a) (n - length a) inside in
  match lft with
  | Some l => (a ++ ts) :: run_user n w [] (l ++ out)
  | None => match out with
            | [] => [a ++ ts]
            | r :: _ => if excluded r then run_user n w [] out
                        else (a ++ ts) :: run_user n w [] out
            end
  end.
Proof.
  intros n w rest. induction rest as [|r rest IH]; intros a A L.
  - cbn [until]. destruct (n - length a)%nat as [|m] eqn:E; [lia|]. cbn [reach first_hit run_user].
    rewrite app_nil_r. destruct a; [congruence|reflexivity].
  - cbn [until]. destruct (excluded r || (w <? r_ts r - nth 0 a 0)) eqn:St.
    + rewrite run_user_reset by assumption.
      destruct (n - length a)%nat as [|m] eqn:E; [lia|]. cbn [reach first_hit].
      rewrite app_nil_r. destruct (excluded r); reflexivity.
    + destruct (until _ rest) as [inside out] eqn:U.
      cbn [run_user]. unfold step_user at 1.
      destruct a as [|t0 a0] eqn:Ea; [congruence|]. rewrite <- Ea in *.
      apply orb_false_iff in St. destruct St as (X & W).
      replace (nth 0 a 0) with t0 in W by (rewrite Ea; reflexivity).
      rewrite X, W.
      destruct (n - length a)%nat as [|m] eqn:E; [lia|]. cbn [reach first_hit].
      destruct (hits (length a) r) eqn:Hh.
      * destruct (length a <? n - 1)%nat eqn:Lt.
        -- cbn [app]. rewrite (IH (a ++ [r_ts r])).
           2:{ destruct a; discriminate. }
           2:{ rewrite app_length. cbn [length]. lia. }
           replace (nth 0 (a ++ [r_ts r]) 0) with (nth 0 a 0) by (rewrite Ea; reflexivity).
           rewrite U. rewrite app_length. cbn [length].
           replace (n - (length a + 1))%nat with m by lia.
           replace (length a + 1)%nat with (S (length a)) by lia.
           destruct (reach (S (length a)) m inside) as [ts lft].
           rewrite <- app_assoc. cbn [app]. reflexivity.
        -- cbn [app]. assert (m = 0)%nat by lia. subst m. cbn [reach].
           f_equal. f_equal. clear -U. revert inside out U.
           induction rest as [|x rest IH2]; intros inside out U; cbn [until] in U.
           ++ injection U as U1 U2. subst. reflexivity.
           ++ destruct (excluded x || (w <? r_ts x - nth 0 a 0)).
              ** injection U as U1 U2. subst. reflexivity.
              ** destruct (until _ rest) as [w' o'] eqn:U'. injection U as U1 U2. subst.
                 cbn [app]. f_equal. apply IH2. reflexivity.
      * cbn [app]. rewrite (IH a) by assumption. rewrite U, E. cbn [reach].
        destruct (first_hit (length a) inside) as [[r' rest']|]; reflexivity.
Qed.

Lemma until_len : forall p rows inside out, until p rows = (inside, out) ->
  rows = inside ++ out /\ match out with [] => True | r :: _ => p r = true end.
Proof.
  intros p rows. induction rows as [|r rows IH]; intros inside out U; cbn [until] in U.
  - injection U as U1 U2. subst. split; [reflexivity|exact I].
  - destruct (p r) eqn:P.
    + injection U as U1 U2. subst. split; [reflexivity|exact P].
    + destruct (until p rows) as [w o] eqn:U'. injection U as U1 U2. subst.
      destruct (IH w out eq_refl) as (A & B). split; [cbn; f_equal; exact A|exact B].
Qed.

Lemma first_hit_len : forall k rows r rest, first_hit k rows = Some (r, rest) ->
  (length rest < length rows)%nat.
Proof.
  intros k rows. induction rows as [|x rows IH]; intros r rest H; cbn [first_hit] in H; [discriminate|].
  destruct (hits k x).
  - injection H as H1 H2. subst. cbn. lia.
  - apply IH in H. cbn. lia.
Qed.

Lemma reach_len : forall m k rows ts l, reach k m rows = (ts, Some l) ->
  (length l <= length rows)%nat.
Proof.
  induction m as [|m IH]; intros k rows ts l H; cbn [reach] in H.
  - injection H as H1 H2. subst. lia.
  - destruct (first_hit k rows) as [[r rest]|] eqn:F; [|discriminate].
    destruct (reach (S k) m rest) as [ts' lft] eqn:R. injection H as H1 H2. subst.
    apply IH in R. apply first_hit_len in F. lia.
Qed.

Lemma run_user_skip : forall n w rows, first_hit 0 rows = None -> run_user n w [] rows = [].
Proof.
  intros n w rows. induction rows as [|r rows IH]; intro H; [reflexivity|].
  cbn [first_hit] in H. destruct (hits 0 r) eqn:Hh; [discriminate|].
  cbn [run_user]. unfold step_user. cbn [length]. rewrite Hh. cbn [app]. apply IH. exact H.
Qed.

Lemma run_user_first : forall n w rows r0 rest, first_hit 0 rows = Some (r0, rest) ->
  run_user n w [] rows =
  if (0 <? n - 1)%nat then run_user n w [r_ts r0] rest else [r_ts r0] :: run_user n w [] rest.
Proof.
  intros n w rows. induction rows as [|r rows IH]; intros r0 rest H; [discriminate|].
  cbn [first_hit] in H. cbn [run_user]. unfold step_user at 1. cbn [length].
  destruct (hits 0 r) eqn:Hh.
  - injection H as H1 H2. subst. destruct (0 <? n - 1)%nat; reflexivity.
  - cbn [app]. apply IH. exact H.
Qed.

Lemma attempts_fuel_run : forall n w fuel rows, (0 < n)%nat -> (length rows <= fuel)%nat ->
  attempts_fuel n w fuel rows = run_user n w [] rows.
Proof.
  intros n w fuel. induction fuel as [|f IH]; intros rows Hn L.
  - destruct rows; [reflexivity|cbn in L; lia].
  - cbn [attempts_fuel]. destruct (first_hit 0 rows) as [[r0 rest]|] eqn:F.
    + rewrite (run_user_first n w rows r0 rest F). assert (FL := first_hit_len _ _ _ _ F).
      destruct (0 <? n - 1)%nat eqn:N1.
      * rewrite run_user_attempt; [|discriminate|cbn [length]; lia]. cbn [length nth].
        destruct (until _ rest) as [inside out] eqn:U.
        destruct (until_len _ _ _ _ U) as (E & _).
        assert (EL : length rest = (length inside + length out)%nat)
          by (rewrite E, app_length; reflexivity).
        destruct (reach 1 (n - 1) inside) as [ts lft] eqn:R. destruct lft as [l|].
        -- apply reach_len in R. cbn [app]. f_equal. apply IH; [exact Hn|].
           rewrite app_length. lia.
        -- destruct out as [|r out]; [reflexivity|].
           destruct (excluded r); cbn [app]; [|f_equal]; apply IH; try exact Hn; lia.
      * assert (n = 1)%nat by lia. subst n. cbn [Nat.sub reach].
        destruct (until _ rest) as [inside out] eqn:U.
        destruct (until_len _ _ _ _ U) as (E & _). rewrite <- E. f_equal. apply IH; lia.
    + symmetry. apply run_user_skip. exact F.
Qed.

Lemma attempts_run : forall n w rows, (0 < n)%nat -> attempts n w rows = run_user n w [] rows.
Proof. intros. apply attempts_fuel_run; [assumption|lia]. Qed.
