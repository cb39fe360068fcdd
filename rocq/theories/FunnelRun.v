(** The funnel machine refines the specification, batch by batch. *)
From Coq Require Import List ZArith Bool Arith Lia ZifyBool Sorted.
From Verif Require Import AMap Calendar Funnel FunnelSpec FunnelFacts.
Import ListNotations.
Local Open Scope Z_scope.

(** * Independence of batches (without holding constants, segments and unique counting) *)
Definition streaming (c : Cfg) : Prop := c_consts c = false /\ c_count c <> Unique.

Lemma do_row_batch : forall c b1 i1 b2 i2 r g, c_consts c = false ->
  do_row c b1 i1 r g = do_row c b2 i2 r g.
Proof. intros c b1 i1 b2 i2 r g H. unfold do_row, guard_const. rewrite H. reflexivity. Qed.

Lemma do_row_noskip : forall c b i r g g' s, c_count c <> Unique ->
  do_row c b i r g = Some (g', s) -> s = false.
Proof.
  intros c b i r g g' s U H. unfold do_row in H.
  destruct (guard_attempt _ _ _) as [g1|]; [|discriminate].
  destruct (guard_const _ _ _ _ _) as [g2|]; [|discriminate].
  destruct (guard_part _ _ _) as [g3|]; [|discriminate].
  unfold advance in H. destruct (matches _ _ _) as [[|]|]; try discriminate.
  - destruct (_ <? _)%nat; [injection H as _ E; congruence|].
    destruct (push_result _ _) as [[g4 comp]|]; [|discriminate].
    injection H as _ E. subst s. destruct (c_count c); [congruence| |]; apply andb_false_r.
  - injection H as _ E. congruence.
Qed.

Definition one_row (c : Cfg) (r : Row) (f : Funnel) : option Funnel :=
  match do_row c [] 0 r (match aget gkey_dec (r_key r) (f_groups f) with
                         | Some g => g | None => new_group c end) with
  | None => None
  | Some (g', _) => Some (mkF (aset gkey_dec (r_key r) g' (f_groups f)) (r_part r) false)
  end.
Fixpoint rows_run (c : Cfg) (rows : list Row) (f : Funnel) : option Funnel :=
  match rows with
  | [] => Some f
  | r :: rest => match one_row c r f with None => None | Some f' => rows_run c rest f' end
  end.

Lemma eval_rows_run : forall c rows batch i f, streaming c -> f_skip f = false ->
  eval_rows c None batch i rows f = rows_run c rows f.
Proof.
  intros c rows. induction rows as [|r rows IH]; intros batch i f (C & U) S; [reflexivity|].
  cbn [eval_rows rows_run]. rewrite S. cbn [andb f_groups f_cur]. unfold one_row.
  rewrite (do_row_batch c batch i [] 0) by exact C.
  destruct (do_row c [] 0 r _) as [[g' s]|] eqn:D; [|reflexivity].
  rewrite (do_row_noskip _ _ _ _ _ _ _ U D). apply IH; [split; assumption|reflexivity].
Qed.

Lemma rows_run_app : forall c a b f,
  rows_run c (a ++ b) f = match rows_run c a f with None => None | Some f' => rows_run c b f' end.
Proof.
  intros c a. induction a as [|r a IH]; intros b f; [reflexivity|].
  cbn [app rows_run]. destruct (one_row c r f); [apply IH|reflexivity].
Qed.

Lemma rows_run_cur : forall c rows f f', rows_run c rows f = Some f' -> f_skip f = false ->
  f_cur f' = last (map r_part rows) (f_cur f) /\ f_skip f' = false.
Proof.
  intros c rows. induction rows as [|r rows IH]; intros f f' H S.
  - injection H as H. subst. split; [reflexivity|exact S].
  - cbn [rows_run] in H. unfold one_row in H.
    destruct (do_row _ _ _ _ _) as [[g' s]|]; [|discriminate].
    apply IH in H; [|reflexivity]. cbn [f_cur] in H. destruct H as (A & B). split; [|exact B].
    rewrite A. cbn [map]. destruct rows as [|r2 rows]; [reflexivity|].
    cbn [map]. clear. generalize (r_part r2) as x. induction (map r_part rows) as [|y l IHl]; intro x;
      [reflexivity|]. cbn [last] in *. destruct l; [reflexivity|]. apply (IHl y).
Qed.

Definition by_user (rows : list Row) : Prop := StronglySorted Z.le (map r_part rows).

Lemma sorted_last : forall (l : list Z) x y, StronglySorted Z.le (l ++ x :: y) ->
  Forall (fun z => 0 <= z) (l ++ x :: y) -> last l 0 <= x.
Proof.
  intros l x y H N. destruct l as [|a l] using rev_ind.
  - cbn [last]. rewrite Forall_forall in N. apply N. left. reflexivity.
  - rewrite last_last. clear IHl N. rewrite <- app_assoc in H.
    induction l as [|z l IH]; cbn [app] in H.
    + apply StronglySorted_inv in H. destruct H as (_ & F). rewrite Forall_forall in F.
      apply F. left. reflexivity.
    + apply StronglySorted_inv in H. apply IH. apply H.
Qed.

Lemma evaluate_all_run : forall c batches before f,
  streaming c -> Forall (fun b => b <> []) batches ->
  by_user (before ++ concat batches) ->
  Forall (fun r => 0 <= r_part r) (before ++ concat batches) ->
  f_cur f = last (map r_part before) 0 -> f_skip f = false ->
  evaluate_all c None batches f = rows_run c (concat batches) f.
Proof.
  intros c batches. induction batches as [|b batches IH]; intros before f St NE Srt Pos Cur S;
    [reflexivity|].
  cbn [evaluate_all concat]. inversion NE as [|b0 bs0 NB NE']; subst.
  rewrite rows_run_app. unfold evaluate. destruct b as [|r b]; [congruence|].
  assert (L : f_cur f <= r_part r).
  { rewrite Cur. unfold by_user in Srt. cbn [concat] in Srt.
    rewrite map_app in Srt. cbn [app map] in Srt.
    apply (sorted_last _ _ _ Srt). apply Forall_forall. intros z Hz.
    rewrite Forall_forall in Pos. apply in_app_or in Hz. destruct Hz as [Hz|Hz].
    - apply in_map_iff in Hz. destruct Hz as (x & E & Hx). subst z. apply Pos.
      apply in_or_app. left. exact Hx.
    - change (r_part r :: map r_part (b ++ concat batches))
        with (map r_part ((r :: b) ++ concat batches)) in Hz.
      apply in_map_iff in Hz. destruct Hz as (x & E & Hx). subst z. apply Pos.
      apply in_or_app. right. exact Hx. }
  replace (r_part r <? f_cur f) with false by lia.
  rewrite eval_rows_run by assumption.
  destruct (rows_run c (r :: b) f) as [f'|] eqn:R; [|reflexivity].
  destruct (rows_run_cur _ _ _ _ R S) as (C' & S').
  apply (IH (before ++ r :: b)).
  - exact St.
  - exact NE'.
  - rewrite <- app_assoc. exact Srt.
  - rewrite <- app_assoc. exact Pos.
  - rewrite C', map_app. clear. destruct (map r_part (r :: b)) as [|x l] eqn:E; [discriminate|].
    clear E. generalize (f_cur f) as d. generalize (map r_part before) as m.
    intros m d. destruct (exists_last (l := x :: l)) as (l' & y & E); [discriminate|].
    rewrite E, app_assoc, !last_last. reflexivity.
  - exact S'.
Qed.

(** * One breakdown value *)
Definition key_rows (k : GKey) (rows : list Row) : list Row := of_key k rows.

Fixpoint group_run (c : Cfg) (rows : list Row) (g : Group) : option Group :=
  match rows with
  | [] => Some g
  | r :: rest => match do_row c [] 0 r g with None => None | Some (g', _) => group_run c rest g' end
  end.

Lemma rows_run_group : forall c k rows f f', rows_run c rows f = Some f' ->
  match of_key k rows with
  | [] => aget gkey_dec k (f_groups f') = aget gkey_dec k (f_groups f)
  | _ => exists g', aget gkey_dec k (f_groups f') = Some g' /\
         group_run c (of_key k rows)
           (match aget gkey_dec k (f_groups f) with Some g => g | None => new_group c end) = Some g'
  end.
Proof.
  intros c k rows. induction rows as [|r rows IH]; intros f f' H.
  - injection H as H. subst. reflexivity.
  - cbn [rows_run] in H. unfold one_row in H.
    destruct (do_row c [] 0 r _) as [[g1 s]|] eqn:D; [|discriminate].
    apply IH in H. cbn [f_groups] in H. unfold of_key in *. cbn [filter].
    destruct (gkey_dec (r_key r) k) as [E|NE].
    + subst k. rewrite aget_aset_eq in H. cbn [group_run]. rewrite D.
      destruct (filter _ rows) as [|x l] eqn:Fl.
      * exists g1. split; [exact H|reflexivity].
      * exact H.
    + rewrite aget_aset_ne in H by congruence. exact H.
Qed.

(** Every group present belongs to some row, and the machine runs through if every group does. *)
Lemma rows_run_total : forall c rows f,
  (forall k, of_key k rows <> [] ->
     exists g', group_run c (of_key k rows)
       (match aget gkey_dec k (f_groups f) with Some g => g | None => new_group c end) = Some g') ->
  exists f', rows_run c rows f = Some f'.
Proof.
  intros c rows. induction rows as [|r rows IH]; intros f H; [eexists; reflexivity|].
  cbn [rows_run]. unfold one_row.
  assert (K : exists g', group_run c (of_key (r_key r) (r :: rows))
       (match aget gkey_dec (r_key r) (f_groups f) with Some g => g | None => new_group c end) = Some g').
  { apply H. unfold of_key. cbn [filter]. destruct (gkey_dec (r_key r) (r_key r)); [discriminate|congruence]. }
  destruct K as (g' & K). unfold of_key in K. cbn [filter] in K.
  destruct (gkey_dec (r_key r) (r_key r)) as [_|N]; [|congruence]. cbn [group_run] in K.
  destruct (do_row c [] 0 r _) as [[g1 s]|] eqn:D; [|discriminate].
  apply IH. intros k NEk. cbn [f_groups]. destruct (gkey_dec (r_key r) k) as [E|NE].
  - subst k. rewrite aget_aset_eq. exists g'. exact K.
  - rewrite aget_aset_ne by congruence. specialize (H k). unfold of_key in H. cbn [filter] in H.
    destruct (gkey_dec (r_key r) k); [congruence|]. apply H. exact NEk.
Qed.

(** * The machine of one breakdown value computes the attempts *)
Definition plain (c : Cfg) : Prop :=
  c_consts c = false /\ (forall o, In o (c_orders c) -> o = Exact) /\
  (forall e, In e (c_excl c) -> e = None) /\ (0 < steps_len c)%nat /\ c_buckets c <> [].
Definition fits (c : Cfg) (r : Row) : Prop :=
  length (r_steps r) = steps_len c /\ length (r_excl r) = length (c_excl c).

Record Tracks (c : Cfg) (g : Group) (a : list Z) (ats : list (list Z)) : Prop := mkTracks {
  tr_cur : g_cur g = length a;
  tr_done : g_done g = length a;
  tr_steps : firstn (length a) (g_steps g) = a;
  tr_len : length (g_steps g) = steps_len c;
  tr_short : (length a < steps_len c)%nat;
  tr_buckets : g_buckets g = book c ats
}.

Lemma nth_firstn_ : forall (l : list Z) m i d, (i < m)%nat -> nth i (firstn m l) d = nth i l d.
Proof.
  induction l as [|x l IH]; intros m i d H; destruct m as [|m]; try lia.
  - reflexivity.
  - cbn [firstn]. destruct i as [|i]; [reflexivity|]. cbn [nth]. apply IH. lia.
Qed.

Lemma key_of_some : forall c a, plain c -> exists k, key_of c a = Some k.
Proof.
  intros c a (_ & _ & _ & _ & B). unfold key_of. destruct (c_interval c); [eexists; reflexivity|].
  destruct (c_buckets c); [congruence|eexists; reflexivity].
Qed.

Lemma push_spec : forall c g a ats, plain c ->
  g_done g = length a -> a <> [] -> firstn (length a) (g_steps g) = a ->
  (length a <= steps_len c)%nat -> g_buckets g = book c ats ->
  push_result c g =
  Some (mkGroup (g_first g) (g_part g) (g_const g) (g_cur g) (g_steps g) (book c (ats ++ [a]))
          (g_done g), is_completed c g).
Proof.
  intros c g a ats P D A F L B. unfold push_result. rewrite D.
  destruct a as [|t a]; [congruence|]. remember (t :: a) as x.
  assert (LX : (0 < length x)%nat) by (subst x; cbn; lia).
  replace (length x =? 0)%nat with false by lia.
  assert (N : forall i, (i < length x)%nat -> nth i (g_steps g) 0 = nth i x 0).
  { intros i Hi. rewrite <- (nth_firstn_ (g_steps g) (length x) i 0 Hi). rewrite F. reflexivity. }
  destruct (key_of_some c x P) as (k & K).
  assert (BK : bucket_key c g = Some k).
  { unfold bucket_key, key_of in *. destruct (c_interval c).
    - rewrite N by exact LX. exact K.
    - rewrite B. unfold book. destruct (c_buckets c); [discriminate|]. exact K. }
  rewrite BK, B.
  replace (modify k (count_attempt (g_steps g) (length x)) (book c ats)) with (book c (ats ++ [x])).
  2:{ rewrite <- (book_snoc c ats x k L K). unfold modify. apply map_ext. intro kv.
      rewrite (count_attempt_ext x (g_steps g)); [reflexivity|]. intros i Hi. symmetry.
      apply N. exact Hi. }
  reflexivity.
Qed.

Lemma check_exclude_plain : forall excl vals cur,
  (forall e, In e excl -> e = None) -> length vals = length excl ->
  check_exclude excl vals cur = negb (existsb (fun b => b) vals).
Proof.
  induction excl as [|e excl IH]; intros vals cur H L; destruct vals as [|v vals]; try discriminate.
  - reflexivity.
  - rewrite (H e (or_introl eq_refl)). cbn [check_exclude existsb].
    destruct v; [reflexivity|]. cbn [orb]. apply IH; [|cbn in L; lia].
    intros x Hx. apply H. right. exact Hx.
Qed.

Lemma matches_plain : forall c r k, plain c -> fits c r -> (k < steps_len c)%nat ->
  matches c r k = Some (hits k r).
Proof.
  intros c r k (_ & O & _) (L & _) H. unfold matches, hits.
  destruct (nth_error (c_orders c) k) as [o|] eqn:E.
  - rewrite (O o (nth_error_In _ _ E)). rewrite (nth_error_nth' _ false) by lia. reflexivity.
  - apply nth_error_None in E. unfold steps_len in H. lia.
Qed.

Lemma firstn_upd : forall (l : list Z) i v, (i < length l)%nat ->
  firstn (S i) (upd l i v) = firstn i l ++ [v].
Proof.
  induction l as [|x l IH]; intros i v H; [cbn in H; lia|].
  destruct i as [|i]; [reflexivity|].
  change (upd (x :: l) (S i) v) with (x :: upd l i v).
  change (firstn (S (S i)) (x :: upd l i v)) with (x :: firstn (S i) (upd l i v)).
  rewrite IH by (cbn in H; lia). reflexivity.
Qed.
Lemma length_upd : forall (l : list Z) i v, length (upd l i v) = length l.
Proof.
  induction l as [|x l IH]; intros i v; [reflexivity|]. destruct i; cbn; [reflexivity|].
  f_equal. apply IH.
Qed.

Definition adv (n : nat) (a : list Z) (r : Row) : list (list Z) * list Z :=
  if hits (length a) r then
    if (length a <? n - 1)%nat then ([], a ++ [r_ts r]) else ([a ++ [r_ts r]], [])
  else ([], a).

Lemma advance_spec : forall c r g a ats, plain c -> fits c r -> Tracks c g a ats ->
  let '(e, a') := adv (steps_len c) a r in
  exists g' s, advance c r g = Some (g', s) /\ Tracks c g' a' (ats ++ e) /\
    g_first g' = g_first g /\ g_part g' = g_part g.
Proof.
  intros c r g a ats P F T. destruct T as [Tc Td Ts Tl Tsh Tb].
  unfold adv, advance. rewrite Tc. rewrite (matches_plain c r (length a) P F Tsh).
  destruct (hits (length a) r).
  - destruct (length a <? steps_len c - 1)%nat eqn:L.
    + eexists _, _. split; [reflexivity|]. split; [|split; reflexivity].
      assert (EL : length (a ++ [r_ts r]) = S (length a)) by (rewrite app_length; cbn; lia).
      constructor; cbn [g_cur g_done g_steps g_buckets]; rewrite ?EL.
      * reflexivity.
      * rewrite Td. reflexivity.
      * rewrite firstn_upd by lia. rewrite Ts. reflexivity.
      * rewrite length_upd. exact Tl.
      * lia.
      * rewrite app_nil_r. exact Tb.
    + set (x := a ++ [r_ts r]).
      assert (EL : length x = S (length a)) by (unfold x; rewrite app_length; cbn; lia).
      rewrite (push_spec c _ x ats P).
      * eexists _, _. split; [reflexivity|]. split; [|split; reflexivity].
        constructor; cbn [reset g_cur g_done g_steps g_buckets length firstn]; try reflexivity.
        -- rewrite length_upd. exact Tl.
        -- destruct P as (_ & _ & _ & P & _). exact P.
      * cbn [g_done]. rewrite Td, EL. reflexivity.
      * unfold x. destruct a; discriminate.
      * cbn [g_steps]. rewrite EL. rewrite firstn_upd by lia. rewrite Ts. reflexivity.
      * lia.
      * exact Tb.
  - eexists _, _. split; [reflexivity|]. split; [|split; reflexivity].
    rewrite app_nil_r. constructor; assumption.
Qed.

Lemma step_user_adv : forall n w a r,
  step_user n w a r =
  let '(e1, a1) := match a with
    | [] => ([], [])
    | t0 :: _ => if excluded r then ([], [])
                 else if w <? r_ts r - t0 then ([a], []) else ([], a)
    end in let '(e, a') := adv n a1 r in (e1 ++ e, a').
Proof.
  intros n w a r. unfold step_user, adv. destruct (match a with [] => _ | _ => _ end) as [e1 a1].
  destruct (hits (length a1) r); [destruct (_ <? _)%nat|]; rewrite ?app_nil_r; reflexivity.
Qed.

Lemma tracks_reset : forall c g g' ats, plain c ->
  g_steps g' = g_steps g -> length (g_steps g) = steps_len c -> g_buckets g' = book c ats ->
  Tracks c (reset g') [] ats.
Proof.
  intros c g g' ats P S L B. constructor; cbn [reset g_cur g_done g_steps g_buckets length firstn];
    try reflexivity.
  - rewrite S. exact L.
  - destruct P as (_ & _ & _ & P & _). exact P.
  - exact B.
Qed.

Definition step_row (n : nat) (w : Z) (p : option Z) (a : list Z) (r : Row)
  : list (list Z) * list Z :=
  if match p with Some p => r_part r =? p | None => true end then step_user n w a r
  else let '(e, a') := step_user n w [] r in (fin a ++ e, a').
Definition cur_user (g : Group) : option Z := if g_first g then None else Some (g_part g).

Lemma do_row_spec : forall c r g a ats,
  plain c -> fits c r -> Tracks c g a ats ->
  (g_first g = true -> a = []) ->
  (g_first g = false -> r_part r <> g_part g -> a <> [] -> excluded r = false) ->
  let '(e, a') := step_row (steps_len c) (c_window c) (cur_user g) a r in
  exists g' s, do_row c [] 0 r g = Some (g', s) /\ Tracks c g' a' (ats ++ e) /\
    g_first g' = false /\ g_part g' = r_part r.
Proof.
  intros c r g a ats P F T Fst Ex. unfold do_row, step_row, cur_user.
  set (g0 := if g_first g then set_part g (r_part r) else g).
  assert (T0 : Tracks c g0 a ats).
  { unfold g0. destruct (g_first g); [|exact T]. destruct T. constructor; assumption. }
  assert (F0 : g_first g0 = false) by (unfold g0; destruct (g_first g) eqn:E; [reflexivity|exact E]).
  assert (P0 : g_part g0 = if g_first g then r_part r else g_part g)
    by (unfold g0; destruct (g_first g); reflexivity).
  assert (Pc : c_consts c = false) by apply P.
  (* the guard on an attempt in progress *)
  assert (G : let '(e1, a1) := match a with
      | [] => ([], [])
      | t0 :: _ => if excluded r then ([], [])
                   else if c_window c <? r_ts r - t0 then ([a], []) else ([], a)
      end in
      exists g1, guard_attempt c r g0 = Some g1 /\ Tracks c g1 a1 (ats ++ e1) /\
        g_first g1 = false /\ g_part g1 = g_part g0).
  { unfold guard_attempt. assert (T1 := T0). destruct T1 as [Tc Td Ts Tl Tsh Tb]. rewrite Tc.
    destruct a as [|t0 a0] eqn:Ea.
    - cbn [length Nat.eqb]. exists g0. split; [reflexivity|]. rewrite app_nil_r.
      split; [exact T0|]. split; [exact F0|reflexivity].
    - cbn [length Nat.eqb].
      rewrite check_exclude_plain; [|apply P|apply F]. fold (excluded r).
      destruct (excluded r); cbn [negb].
      + exists (reset g0). split; [reflexivity|]. rewrite app_nil_r. split; [|split; [exact F0|reflexivity]].
        apply (tracks_reset c g0 g0 ats P eq_refl Tl Tb).
      + assert (N0 : nth 0 (g_steps g0) 0 = t0).
        { cbn [length firstn] in Ts. destruct (g_steps g0) as [|y l]; [discriminate|].
          cbn [firstn] in Ts. injection Ts as E _. subst. reflexivity. }
        rewrite N0. destruct (c_window c <? r_ts r - t0).
        * rewrite (push_spec c g0 (t0 :: a0) ats P); [| exact Td | discriminate | exact Ts | lia | exact Tb].
          eexists. split; [reflexivity|]. split; [|split; [exact F0|reflexivity]].
          apply (tracks_reset c g0 _ _ P); [reflexivity|exact Tl|reflexivity].
        * exists g0. split; [reflexivity|]. rewrite app_nil_r. split; [exact T0|].
          split; [exact F0|reflexivity]. }
  destruct (match a with [] => _ | _ => _ end) as [e1 a1] eqn:GA.
  destruct G as (g1 & G1 & T1 & F1 & P1). rewrite G1.
  unfold guard_const. rewrite Pc. unfold guard_part. rewrite P1, P0.
  destruct (match (if g_first g then None else Some (g_part g)) with
            | Some p => r_part r =? p | None => true end) eqn:Same.
  - replace (r_part r =? (if g_first g then r_part r else g_part g)) with true
      by (destruct (g_first g); [symmetry; apply Z.eqb_refl|symmetry; exact Same]).
    assert (SU := step_user_adv (steps_len c) (c_window c) a r). rewrite GA in SU. rewrite SU.
    assert (A := advance_spec c r g1 a1 (ats ++ e1) P F T1).
    destruct (adv (steps_len c) a1 r) as [e a']. destruct A as (g' & s & A & T' & F' & P').
    exists g', s. split; [exact A|]. rewrite app_assoc. split; [exact T'|].
    split; [congruence|]. rewrite P', P1, P0. destruct (g_first g); [reflexivity|lia].
  - destruct (g_first g) eqn:Gf; [discriminate|]. cbn [negb].
    replace (r_part r =? g_part g) with false by (symmetry; exact Same).
    specialize (Ex eq_refl ltac:(lia)).
    assert (E1 : e1 ++ fin a1 = fin a).
    { destruct a as [|t0 a0].
      - injection GA as <- <-. reflexivity.
      - rewrite Ex in GA by discriminate. destruct (_ <? _); injection GA as <- <-; reflexivity. }
    assert (Gp : exists g2, (match push_result c g1 with
               | None => None
               | Some (g', _) => Some (reset (set_part g' (r_part r)))
               end) = Some g2 /\ Tracks c g2 [] (ats ++ fin a) /\ g_first g2 = false /\
               g_part g2 = r_part r).
    { rewrite <- E1, app_assoc. destruct a1 as [|t1 a1'].
      - destruct T1 as [Tc Td Ts Tl Tsh Tb]. unfold push_result. rewrite Td. cbn [length Nat.eqb].
        eexists. split; [reflexivity|]. cbn [fin]. rewrite app_nil_r. split; [|split; reflexivity].
        apply (tracks_reset c g1 _ _ P); [reflexivity|exact Tl|exact Tb].
      - destruct T1 as [Tc Td Ts Tl Tsh Tb].
        rewrite (push_spec c g1 (t1 :: a1') _ P Td ltac:(discriminate) Ts ltac:(lia) Tb).
        eexists. split; [reflexivity|]. split; [|split; reflexivity].
        apply (tracks_reset c g1 _ _ P); [reflexivity|exact Tl|reflexivity]. }
    destruct Gp as (g2 & Gp & T2 & F2 & P2).
    destruct (push_result c g1) as [[gx bx]|]; [|discriminate]. injection Gp as Gp. rewrite Gp.
    assert (SU := step_user_adv (steps_len c) (c_window c) [] r). cbn zeta in SU. rewrite SU.
    assert (A := advance_spec c r g2 [] (ats ++ fin a) P F T2).
    destruct (adv (steps_len c) [] r) as [e a']. destruct A as (g' & s & A & T' & F' & P').
    exists g', s. split; [exact A|]. cbn [app]. rewrite app_assoc. split; [exact T'|].
    split; congruence.
Qed.

(** A whole list of rows *)
Fixpoint run_rows (n : nat) (w : Z) (p : option Z) (a : list Z) (rows : list Row)
  : list (list Z) * list Z :=
  match rows with
  | [] => ([], a)
  | r :: rest =>
      let '(e, a') := step_row n w p a r in
      let '(e', a'') := run_rows n w (Some (r_part r)) a' rest in (e ++ e', a'')
  end.

(** The first row of a user after other users' rows is not an excluded one. *)
Fixpoint clean_from (p : option Z) (rows : list Row) : Prop :=
  match rows with
  | [] => True
  | r :: rest => (match p with Some p => r_part r = p \/ excluded r = false | None => True end) /\
                 clean_from (Some (r_part r)) rest
  end.

Lemma group_run_spec : forall c rows g a ats,
  plain c -> Forall (fits c) rows -> Tracks c g a ats -> (g_first g = true -> a = []) ->
  clean_from (cur_user g) rows ->
  let '(e, a') := run_rows (steps_len c) (c_window c) (cur_user g) a rows in
  exists g', group_run c rows g = Some g' /\ Tracks c g' a' (ats ++ e).
Proof.
  intros c rows. induction rows as [|r rows IH]; intros g a ats P F T Fst Cl.
  - cbn. exists g. rewrite app_nil_r. split; [reflexivity|exact T].
  - cbn [run_rows group_run]. inversion F as [|r0 l0 Fr Fl]; subst.
    cbn [clean_from] in Cl. destruct Cl as (Cr & Cl).
    assert (D := do_row_spec c r g a ats P Fr T Fst).
    assert (D' : g_first g = false -> r_part r <> g_part g -> a <> [] -> excluded r = false).
    { intros E NE _. unfold cur_user in Cr. rewrite E in Cr. destruct Cr; [congruence|assumption]. }
    specialize (D D'). destruct (step_row _ _ _ a r) as [e a'].
    destruct D as (g' & s & D & T' & F' & P'). rewrite D.
    assert (CU : cur_user g' = Some (r_part r)) by (unfold cur_user; rewrite F', P'; reflexivity).
    specialize (IH g' a' (ats ++ e) P Fl T' ltac:(congruence)). rewrite CU in IH.
    specialize (IH Cl). destruct (run_rows _ _ _ a' rows) as [e' a''].
    destruct IH as (g'' & R & T''). exists g''. split; [exact R|]. rewrite app_assoc. exact T''.
Qed.

Lemma run_rows_same : forall n w p rows rest a,
  Forall (fun r => r_part r = p) rows ->
  run_rows n w (Some p) a (rows ++ rest) =
  let '(e, a') := run_rows n w (Some p) a rows in
  let '(e', a'') := run_rows n w (Some p) a' rest in (e ++ e', a'').
Proof.
  intros n w p rows. induction rows as [|r rows IH]; intros rest a H.
  - cbn. destruct (run_rows n w (Some p) a rest). reflexivity.
  - inversion H as [|x l Hr Hl]; subst. cbn [app run_rows].
    destruct (step_row n w _ a r) as [e a']. rewrite IH by exact Hl.
    destruct (run_rows n w _ a' rows) as [e1 a1]. destruct (run_rows n w _ a1 rest) as [e2 a2].
    rewrite app_assoc. reflexivity.
Qed.

Lemma run_rows_user : forall n w p rows a,
  Forall (fun r => r_part r = p) rows ->
  run_user n w a rows = let '(e, a') := run_rows n w (Some p) a rows in e ++ fin a'.
Proof.
  intros n w p rows. induction rows as [|r rows IH]; intros a H; [reflexivity|].
  inversion H as [|x l Hr Hl]; subst. cbn [run_user run_rows]. unfold step_row.
  rewrite Z.eqb_refl. destruct (step_user n w a r) as [e a']. rewrite (IH a' Hl).
  destruct (run_rows n w _ a' rows) as [e1 a1]. rewrite app_assoc. reflexivity.
Qed.

Lemma run_rows_switch : forall n w p a r rest, r_part r <> p ->
  run_rows n w (Some p) a (r :: rest) =
  let '(e, a') := run_rows n w None [] (r :: rest) in (fin a ++ e, a').
Proof.
  intros n w p a r rest H. cbn [run_rows]. unfold step_row.
  replace (r_part r =? p) with false by lia.
  destruct (step_user n w [] r) as [e a']. destruct (run_rows n w _ a' rest) as [e1 a1].
  rewrite app_assoc. reflexivity.
Qed.

Lemma split_user : forall rows p, by_user rows ->
  Forall (fun r => p <= r_part r) rows ->
  exists mine rest, rows = mine ++ rest /\ Forall (fun r => r_part r = p) mine /\
    Forall (fun r => p < r_part r) rest.
Proof.
  induction rows as [|r rows IH]; intros p Srt H.
  - exists [], []. repeat split; constructor.
  - inversion H as [|x l Hr Hl]; subst. unfold by_user in Srt. cbn [map] in Srt.
    apply StronglySorted_inv in Srt. destruct Srt as (Srt & Fa).
    destruct (Z.eq_dec (r_part r) p) as [E|NE].
    + destruct (IH p Srt Hl) as (mine & rest & A & B & C). exists (r :: mine), rest.
      split; [cbn; f_equal; exact A|]. split; [constructor; assumption|exact C].
    + exists [], (r :: rows). split; [reflexivity|]. split; [constructor|].
      constructor; [lia|]. rewrite Forall_map in Fa. rewrite Forall_forall in *.
      intros x Hx. specialize (Fa x Hx). lia.
Qed.

Lemma of_user_all : forall p rows, Forall (fun r => r_part r = p) rows -> of_user p rows = rows.
Proof.
  intros p rows. unfold of_user. induction rows as [|r rows IH]; intro H; [reflexivity|].
  inversion H as [|x l Hr Hl]; subst. cbn [filter]. rewrite Z.eqb_refl. f_equal. apply IH. exact Hl.
Qed.
Lemma of_user_none : forall p rows, Forall (fun r => r_part r <> p) rows -> of_user p rows = [].
Proof.
  intros p rows. unfold of_user. induction rows as [|r rows IH]; intro H; [reflexivity|].
  inversion H as [|x l Hr Hl]; subst. cbn [filter]. replace (r_part r =? p) with false by lia.
  apply IH. exact Hl.
Qed.
Lemma of_user_app : forall p a b, of_user p (a ++ b) = of_user p a ++ of_user p b.
Proof. intros. unfold of_user. apply filter_app. Qed.

Lemma users_app : forall p mine rest, mine <> [] -> Forall (fun r => r_part r = p) mine ->
  Forall (fun r => r_part r <> p) rest -> users (mine ++ rest) = p :: users rest.
Proof.
  intros p mine rest NE H R. unfold users. rewrite map_app.
  assert (NI : ~ In p (map r_part rest)).
  { intro X. apply in_map_iff in X. destruct X as (x & E & Hx). rewrite Forall_forall in R.
    exact (R x Hx E). }
  induction mine as [|r mine IH]; [congruence|]. inversion H as [|x l Hr Hl]; subst.
  cbn [map app nodup]. destruct mine as [|r2 mine].
  - cbn [map app]. destruct (in_dec _ _ _) as [X|X]; [contradiction|reflexivity].
  - destruct (in_dec _ _ _) as [X|X].
    + apply IH; [discriminate|exact Hl].
    + exfalso. apply X. inversion Hl as [|y l2 Hy Hl2]; subst. cbn [map app]. left. exact Hy.
Qed.

Lemma run_rows_all : forall n w m rows, (0 < n)%nat -> (length rows <= m)%nat -> by_user rows ->
  (let '(e, a') := run_rows n w None [] rows in e ++ fin a') = all_attempts n w rows.
Proof.
  intros n w m. induction m as [|m IH]; intros rows Hn L Srt.
  - destruct rows; [reflexivity|cbn in L; lia].
  - destruct rows as [|r rows]; [reflexivity|].
    assert (Srt' := Srt). unfold by_user in Srt'. cbn [map] in Srt'.
    apply StronglySorted_inv in Srt'. destruct Srt' as (S1 & Fa). rewrite Forall_map in Fa.
    destruct (split_user rows (r_part r) S1 Fa) as (mine & rest & E & Mi & Re).
    set (p := r_part r) in *.
    assert (Rn : Forall (fun x => r_part x <> p) rest).
    { rewrite Forall_forall in *. intros x Hx. specialize (Re x Hx). lia. }
    assert (M1 : Forall (fun x => r_part x = p) (r :: mine)) by (constructor; [reflexivity|exact Mi]).
    unfold all_attempts. rewrite E, app_comm_cons.
    rewrite (users_app p (r :: mine) rest ltac:(discriminate) M1 Rn).
    cbn [flat_map]. rewrite of_user_app, (of_user_all p _ M1), (of_user_none p _ Rn), app_nil_r.
    rewrite attempts_run by exact Hn. rewrite (run_rows_user n w p (r :: mine) [] M1).
    replace (run_rows n w None [] ((r :: mine) ++ rest))
      with (run_rows n w (Some p) [] ((r :: mine) ++ rest)).
    2:{ cbn [app run_rows]. unfold step_row. fold p. rewrite Z.eqb_refl. reflexivity. }
    rewrite (run_rows_same n w p (r :: mine) rest [] M1).
    destruct (run_rows n w (Some p) [] (r :: mine)) as [e a'].
    assert (Lr : (length rest <= m)%nat).
    { rewrite E in L. cbn [length] in L. rewrite app_length in L. lia. }
    assert (Sr : by_user rest).
    { unfold by_user. rewrite E, map_app in S1. clear -S1. induction (map r_part mine) as [|x l IHl].
      - exact S1.
      - cbn [app] in S1. apply StronglySorted_inv in S1. apply IHl. apply S1. }
    specialize (IH rest Hn Lr Sr).
    assert (Rest : flat_map (fun u => attempts n w (of_user u ((r :: mine) ++ rest))) (users rest) =
                   all_attempts n w rest).
    { unfold all_attempts. rewrite !flat_map_concat_map. f_equal. apply map_ext_in.
      intros u Hu. f_equal. rewrite of_user_app. rewrite (of_user_none u (r :: mine)); [reflexivity|].
      unfold users in Hu. rewrite nodup_In in Hu. apply in_map_iff in Hu.
      destruct Hu as (x & Ex & Hx). rewrite Forall_forall in *. intros y Hy.
      specialize (M1 y Hy). specialize (Re x Hx). lia. }
    rewrite Rest, <- IH.
    destruct rest as [|r2 rest].
    + cbn [run_rows fin]. rewrite !app_nil_r. reflexivity.
    + inversion Rn as [|x l Hx Hl]; subst.
      rewrite (run_rows_switch n w p a' r2 rest Hx).
      destruct (run_rows n w None [] (r2 :: rest)) as [e2 a2].
      rewrite !app_assoc. reflexivity.
Qed.

Lemma new_group_tracks : forall c, plain c -> Tracks c (new_group c) [] [].
Proof.
  intros c P. constructor; cbn [new_group g_cur g_done g_steps g_buckets length firstn]; try reflexivity.
  - apply repeat_length.
  - destruct P as (_ & _ & _ & P & _). exact P.
  - unfold book. apply map_ext. intro b. f_equal. unfold line.
    generalize 0%nat as k. induction (steps_len c) as [|n IH]; intro k; [reflexivity|].
    cbn [repeat seq map]. f_equal; [|apply IH]. destruct k; reflexivity.
Qed.
