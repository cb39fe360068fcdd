(** C60, C61, C62, C89, C90: the last stages of an event report.  The model is in [Shape],
    the vocabulary of the statements in [ShapeSpec]. *)
From Coq Require Import List ZArith String Permutation Sorted Lia Bool Arith.
From Verif Require Import AMap TableUse Shape ShapeSpec ShapeFacts ShapePivot ShapeRows.
Import ListNotations.
Local Open Scope nat_scope.
Local Notation length := List.length.

(** ** C60: limiting the number of rows per breakdown value *)
Lemma values_range b k g i : length (b_fields b) = length (b_arrs b) -> NoDup (map f_name (b_fields b)) ->
  map (fun c => value_at b c i) (map f_name (firstn g (skipn k (b_fields b)))) = row (firstn g (skipn k (b_arrs b))) i.
Proof.
  intros L D. pose proof (values_skip i (b_fields b) (b_arrs b) k L D) as E. destruct b as [fs l]. cbn [b_fields b_arrs] in *.
  unfold row in *. rewrite <- !firstn_map, E. reflexivity.
Qed.
Lemma nth_range b k g i j c : length (b_fields b) = length (b_arrs b) -> NoDup (map f_name (b_fields b)) ->
  nth_error (map f_name (firstn g (skipn k (b_fields b)))) j = Some c ->
  nth j (row (firstn g (skipn k (b_arrs b))) i) None = value_at b c i.
Proof.
  intros L D H. rewrite <- (values_range b k g i L D). apply nth_error_nth. exact (map_nth_error (fun c => value_at b c i) _ _ H).
Qed.
Lemma occ_times b k g j c v is : length (b_fields b) = length (b_arrs b) -> NoDup (map f_name (b_fields b)) ->
  nth_error (map f_name (firstn g (skipn k (b_fields b)))) j = Some c ->
  occ j v (map (row (firstn g (skipn k (b_arrs b)))) is) = times_in b c is v.
Proof.
  intros L D H. unfold occ, times_in. rewrite map_map. f_equal. apply map_ext. intros i. apply nth_range; assumption.
Qed.
Lemma seq_split_at n i : i < n -> seq 0 n = (seq 0 i ++ i :: seq (S i) (n - S i))%list.
Proof. intros H. replace n with (i + S (n - S i)) at 1 by lia. rewrite seq_app. reflexivity. Qed.

(** [columns] are the breakdown columns of the report. *)
Definition breakdowns (skip groups : nat) (b : Batch) : list string := map f_name (firstn groups (skipn skip (b_fields b))).

Lemma limit_core skip groups limit b n :
  table b n -> 0 < groups -> skip + groups <= length (b_fields b) ->
  (forall f, In f (firstn groups (skipn skip (b_fields b))) -> f_ty f = TInt \/ f_ty f = TDec \/ f_ty f = TText) ->
  exists out, limit_batch skip groups limit b = Some out /\
    taken (limit_rows limit (repeat [] groups) (firstn groups (skipn skip (b_arrs b))) (seq 0 n)) b out.
Proof.
  intros T Hg Hs Hc. pose proof T as (Ne & L & F & D & Z0).
  unfold limit_batch. destruct groups as [|g']; [lia|]. set (g := S g') in *.
  assert (Lf : length (firstn g (skipn skip (b_fields b))) = g) by (rewrite firstn_length, skipn_length; lia).
  assert (E : forallb countable (firstn g (skipn skip (b_fields b))) && Nat.leb g (length (firstn g (skipn skip (b_fields b)))) = true).
  { rewrite andb_true_iff. split; [|rewrite Lf; apply Nat.leb_refl]. apply forallb_forall. intros f Hf. unfold countable.
    destruct (Hc f Hf) as [->|[->| ->]]; reflexivity. }
  rewrite E, (table_rows _ _ T). clear E.
  assert (Hk : forall i, In i (limit_rows limit (repeat [] g) (firstn g (skipn skip (b_arrs b))) (seq 0 n)) -> i < n).
  { intros i Hi. apply limit_rows_incl in Hi. apply in_seq in Hi. lia. }
  destruct (take_taken _ b n T Hk) as [TN TK]. cbv zeta. rewrite TN. eexists. split; [reflexivity|]. exact TK.
Qed.
Lemma seq_sorted n : forall s, StronglySorted lt (seq s n).
Proof.
  induction n as [|n IH]; intros s; cbn; constructor; [apply IH|].
  apply Forall_forall. intros x Hx. apply in_seq in Hx. lia.
Qed.

Theorem C60_limit_partial : forall skip groups limit b n,
  table b n -> 0 < groups -> skip + groups <= length (b_fields b) ->
  (forall f, In f (firstn groups (skipn skip (b_fields b))) -> f_ty f = TInt \/ f_ty f = TDec \/ f_ty f = TText) ->
  exists out keep, limit_batch skip groups limit b = Some out /\ taken keep b out /\
    StronglySorted lt keep /\ (forall i, In i keep -> i < n) /\
    (** never more than the limit *)
    (forall c v, In c (breakdowns skip groups b) -> times_in out c (seq 0 (num_rows out)) v <= limit) /\
    (** a row stays if fewer than [limit] rows before it share any of its values *)
    (forall i, i < n -> (forall c, In c (breakdowns skip groups b) -> times_in b c (seq 0 i) (value_at b c i) < limit) -> In i keep).
Proof.
  intros skip groups limit b n T Hg Hs Hc. pose proof T as (Ne & L & F & D & Z0).
  set (g := groups) in *.
  assert (Lf : length (firstn g (skipn skip (b_fields b))) = g) by (rewrite firstn_length, skipn_length; unfold g; lia).
  assert (La : length (firstn g (skipn skip (b_arrs b))) = g) by (rewrite firstn_length, skipn_length, <- L; unfold g; lia).
  destruct (limit_core skip groups limit b n T Hg Hs Hc) as (out & E & TK). fold g in E, TK. rewrite E.
  set (arrs := firstn g (skipn skip (b_arrs b))) in *.
  set (keep := limit_rows limit (repeat [] g) arrs (seq 0 n)) in *.
  assert (Hk : forall i, In i keep -> i < n).
  { intros i Hi. apply limit_rows_incl in Hi. apply in_seq in Hi. lia. }
  exists out, keep. split; [reflexivity|]. split; [exact TK|].
  assert (Hnth : forall c, In c (breakdowns skip g b) -> exists j, j < g /\ nth_error (map f_name (firstn g (skipn skip (b_fields b)))) j = Some c).
  { intros c Hin. apply In_nth_error in Hin as (j & Hj). exists j. split; [|exact Hj].
    apply (f_equal (fun x => x)) in Hj. assert (j < length (map f_name (firstn g (skipn skip (b_fields b))))) by (apply nth_error_Some; unfold breakdowns in Hj; congruence).
    now rewrite map_length, Lf in H. }
  split; [|split; [exact Hk|split]].
  - unfold keep. apply limit_rows_sorted, seq_sorted.
  - intros c v Hin. destruct (Hnth c Hin) as (j & Hj & Hn).
    pose proof (limit_rows_bound limit arrs j v (seq 0 n) (repeat [] g)) as B. rewrite repeat_length, La in B.
    specialize (B eq_refl Hj). rewrite cnt_empty in B. specialize (B ltac:(lia)). fold keep in B.
    unfold arrs in B. rewrite (occ_times b skip g j c v keep L D Hn) in B.
    destruct TK as [To TS]. rewrite (table_rows _ _ To). unfold times_in in *.
    replace (map (value_at _ c) (seq 0 (length keep))) with (map (value_at b c) keep); [lia|].
    apply nth_error_ext_. intros p. destruct (nth_error keep p) as [i|] eqn:Ep.
    + rewrite (map_nth_error (value_at b c) _ _ Ep).
      assert (Hp : p < length keep) by (apply nth_error_Some; congruence).
      rewrite (map_nth_error (value_at _ c) p _ (nth_error_seq_ _ p 0 Hp)). cbn [plus]. f_equal. symmetry.
      eapply shows_value; [exact To|]. apply (TS _ _ Ep).
      apply (value_shows b n); [exact T| |exact (Hk _ (nth_error_In _ _ Ep))]. unfold breakdowns in Hin. apply in_map_iff in Hin as (f & <- & Hf). apply in_map.
      rewrite <- (firstn_skipn skip (b_fields b)). apply in_app_iff. right. rewrite <- (firstn_skipn g (skipn skip _)). apply in_app_iff. now left.
    + apply nth_error_None in Ep. rewrite (proj2 (nth_error_None _ _)) by (now rewrite map_length).
      symmetry. apply nth_error_None. now rewrite map_length, seq_length.
  - intros i Hi Hv. unfold keep. rewrite (seq_split_at n i Hi). apply limit_kept; [now rewrite repeat_length|].
    intros j Hj. rewrite La in Hj. rewrite cnt_empty.
    destruct (nth_error (map f_name (firstn g (skipn skip (b_fields b)))) j) as [c|] eqn:Ej.
    2:{ apply nth_error_None in Ej. rewrite map_length, Lf in Ej. lia. }
    unfold arrs. rewrite (nth_range b skip g i j c L D Ej), (occ_times b skip g j c _ _ L D Ej). cbn [plus]. apply Hv.
    exact (nth_error_In _ _ Ej).
Qed.
Print Assumptions C60_limit_partial.

(** With one breakdown column: exactly the first [limit] rows of every value. *)
Theorem C60_one_breakdown : forall skip limit b n c,
  table b n -> skip < length (b_fields b) -> breakdowns skip 1 b = [c] ->
  (forall f, In f (firstn 1 (skipn skip (b_fields b))) -> f_ty f = TInt \/ f_ty f = TDec \/ f_ty f = TText) ->
  exists out keep, limit_batch skip 1 limit b = Some out /\ taken keep b out /\ StronglySorted lt keep /\
    forall i, In i keep <-> i < n /\ times_in b c (seq 0 i) (value_at b c i) < limit.
Proof.
  intros skip limit b n c T Hs Ec Hty.
  destruct (limit_core skip 1 limit b n T ltac:(lia) ltac:(lia) Hty) as (out & E & TK).
  pose proof T as (Ne & L & F & D & Z0).
  eexists out, _. split; [exact E|]. split; [exact TK|]. split; [apply limit_rows_sorted, seq_sorted|].
  assert (Hn : nth_error (map f_name (firstn 1 (skipn skip (b_fields b)))) 0 = Some c) by (unfold breakdowns in Ec; now rewrite Ec).
  assert (Ea : exists a, firstn 1 (skipn skip (b_arrs b)) = [a]).
  { assert (length (skipn skip (b_arrs b)) > 0) by (rewrite skipn_length, <- L; lia).
    destruct (skipn skip (b_arrs b)) as [|a l]; cbn in *; [lia|]. eauto. }
  destruct Ea as (a & Ea). intros i.
  assert (K : i < n -> In i (limit_rows limit (repeat [] 1) (firstn 1 (skipn skip (b_arrs b))) (seq 0 n)) <->
                       times_in b c (seq 0 i) (value_at b c i) < limit).
  { intros Hi. rewrite (seq_split_at n i Hi). pose proof (one_exact limit a (seq 0 i) i (seq (S i) (n - S i))) as X.
    rewrite <- (seq_split_at n i Hi) in X at 1. specialize (X (seq_NoDup _ _)).
    pose proof (nth_range b skip 1 i 0 c L D Hn) as V. rewrite Ea in V. cbn in V. rewrite V in X.
    rewrite <- (occ_times b skip 1 0 c _ _ L D Hn). rewrite Ea. exact X. }
  split.
  - intros H. assert (Hi : i < n) by (apply limit_rows_incl in H; apply in_seq in H; lia). split; [exact Hi|]. now apply K.
  - intros [Hi H]. now apply K.
Qed.
Print Assumptions C60_one_breakdown.

(** Two breakdown columns: rows that are dropped for a frequent value of one column use up
    the quota of their value in the column before it, so that later a value of which not a
    single row is in the result has none left. *)
Section TwoColumns.
Variable limit : nat.
Let A := Some (CText "a"). Let B := Some (CText "b"). Let X := Some (CText "x"). Let Y := Some (CText "y").
Definition two : Batch := mkBatch [mkField "city" TText true; mkField "plan" TText true]
  [repeat A limit ++ repeat B limit ++ [B]; repeat X limit ++ repeat X limit ++ [Y]]%list.
Local Notation st k :=  (if Nat.eqb k 0 then [[]; []] else [[(A, k%nat)]; [(X, k%nat)]]).
Lemma phase1 is : forall k, (forall i, In i is -> row (b_arrs two) i = [A; X]) -> k + length is <= limit ->
  limit_rows limit (st k) (b_arrs two) is = is /\ limit_state limit (st k) (b_arrs two) is = st (k + length is).
Proof.
  induction is as [|i is IH]; intros k H Hl; cbn [limit_rows limit_state length] in *.
  - rewrite Nat.add_0_r. auto.
  - rewrite (H i (or_introl eq_refl)).
    assert (E : limit_row limit (st k) [A; X] = ([[(A, S k)]; [(X, S k)]], true)).
    { assert (Ne : Nat.eqb k limit = false) by (apply Nat.eqb_neq; lia).
      destruct k as [|k]; [change (Nat.eqb 0 0) with true|change (Nat.eqb (S k) 0) with false]; unfold limit_row; cbn -[Nat.eqb]; rewrite !Ne; cbn -[Nat.eqb]; rewrite ?Ne; reflexivity. }
    rewrite E. specialize (IH (S k)). cbn [Nat.eqb] in IH. cbn [fst].
    destruct (IH ltac:(intros; apply H; now right) ltac:(lia)) as [I1 I2]. rewrite I1, I2.
    rewrite Nat.add_succ_r. cbn. auto.
Qed.
Local Notation st2 k := (if Nat.eqb k 0 then [[(A, limit)]; [(X, limit)]] else [[(B, k%nat); (A, limit)]; [(X, limit)]]).
Lemma phase2 is : forall k, (forall i, In i is -> row (b_arrs two) i = [B; X]) -> k + length is <= limit ->
  limit_rows limit (st2 k) (b_arrs two) is = [] /\ limit_state limit (st2 k) (b_arrs two) is = st2 (k + length is).
Proof.
  induction is as [|i is IH]; intros k H Hl; cbn [limit_rows limit_state length] in *.
  - rewrite Nat.add_0_r. auto.
  - rewrite (H i (or_introl eq_refl)).
    assert (E : limit_row limit (st2 k) [B; X] = ([[(B, S k); (A, limit)]; [(X, limit)]], false)).
    { assert (Ne : Nat.eqb k limit = false) by (apply Nat.eqb_neq; lia).
      destruct k as [|k]; [change (Nat.eqb 0 0) with true|change (Nat.eqb (S k) 0) with false]; unfold limit_row; cbn -[Nat.eqb]; rewrite !Ne; cbn -[Nat.eqb];
        rewrite Nat.eqb_refl; cbn -[Nat.eqb]; reflexivity. }
    rewrite E. specialize (IH (S k)). cbn [Nat.eqb] in IH. cbn [fst].
    destruct (IH ltac:(intros; apply H; now right) ltac:(lia)) as [I1 I2]. rewrite I1, I2.
    rewrite Nat.add_succ_r. cbn. auto.
Qed.
Lemma nth_three (x y z : option Cell) i :
  nth i (repeat x limit ++ repeat y limit ++ [z])%list None =
    if i <? limit then x else if i <? 2 * limit then y else if i =? 2 * limit then z else None.
Proof.
  destruct (Nat.ltb_spec i limit).
  { rewrite app_nth1 by (now rewrite repeat_length). apply nth_error_nth. now apply nth_error_repeat_. }
  rewrite app_nth2 by (now rewrite repeat_length). rewrite repeat_length.
  destruct (Nat.ltb_spec i (2 * limit)).
  { rewrite app_nth1 by (rewrite repeat_length; lia). apply nth_error_nth. apply nth_error_repeat_. lia. }
  rewrite app_nth2 by (rewrite repeat_length; lia). rewrite repeat_length.
  destruct (Nat.eqb_spec i (2 * limit)) as [->|N].
  - now replace (2 * limit - limit - limit) with 0 by lia.
  - apply nth_overflow. cbn. lia.
Qed.
Lemma two_row i : row (b_arrs two) i = [nth i (repeat A limit ++ repeat B limit ++ [B])%list None; nth i (repeat X limit ++ repeat X limit ++ [Y])%list None].
Proof. reflexivity. Qed.
Lemma two_keeps : 0 < limit -> limit_rows limit [[]; []] (b_arrs two) (seq 0 (2 * limit + 1)) = seq 0 limit.
Proof.
  intros Hl. replace (2 * limit + 1) with (limit + (limit + 1)) by lia. rewrite !seq_app. cbn [plus seq].
  destruct (phase1 (seq 0 limit) 0) as [P1 S1].
  { intros i Hi. apply in_seq in Hi. rewrite two_row, !nth_three. destruct (Nat.ltb_spec i limit); [reflexivity|lia]. }
  { rewrite seq_length. lia. }
  cbn [Nat.eqb plus] in P1, S1. rewrite seq_length in S1.
  destruct (phase2 (seq limit limit) 0) as [P2 S2].
  { intros i Hi. apply in_seq in Hi. rewrite two_row, !nth_three.
    destruct (Nat.ltb_spec i limit); [lia|]. destruct (Nat.ltb_spec i (2 * limit)); [reflexivity|lia]. }
  { rewrite seq_length. lia. }
  cbn [Nat.eqb plus] in P2, S2. rewrite seq_length in S2.
  destruct (Nat.eqb_spec limit 0) as [|_]; [lia|].
  rewrite !limit_rows_app, S1, P1, P2, S2. cbn [limit_rows app].
  rewrite two_row, !nth_three. replace (limit + limit) with (2 * limit) by lia.
  destruct (Nat.ltb_spec (2 * limit) limit); [lia|]. destruct (Nat.ltb_spec (2 * limit) (2 * limit)); [lia|].
  rewrite Nat.eqb_refl. unfold limit_row. cbn -[Nat.eqb]. rewrite Nat.eqb_refl. cbn. apply app_nil_r.
Qed.
Lemma two_table : table two (2 * limit + 1).
Proof.
  split; [discriminate|]. split; [reflexivity|]. split; [|split].
  - repeat constructor; rewrite !app_length, !repeat_length; cbn; lia.
  - repeat constructor; cbn; intuition discriminate.
  - intros f a [H|[H|[]]] E; injection H as <- _; discriminate E.
Qed.
End TwoColumns.

Theorem C60_quota_used_by_dropped_rows_refuted : forall limit, 0 < limit ->
  exists b out, table b (2 * limit + 1) /\ limit_batch 0 2 limit b = Some out /\
    shows b "city" (2 * limit) (Some (CText "b")) /\ shows b "plan" (2 * limit) (Some (CText "y")) /\
    forall p, ~ shows out "city" p (Some (CText "b")) /\ ~ shows out "plan" p (Some (CText "y")).
Proof.
  intros limit Hl. pose proof (two_table limit) as T.
  destruct (limit_core 0 2 limit (two limit) _ T ltac:(lia) (le_n 2)) as (out & E & TK).
  { intros f [<-|[<-|[]]]; auto. }
  exists (two limit), out. split; [exact T|]. split; [exact E|].
  change (firstn 2 (skipn 0 (b_arrs (two limit)))) with (b_arrs (two limit)) in TK. change (repeat [] 2) with ([[]; []] : list (list (option Cell * nat))) in TK.
  rewrite two_keeps in TK by exact Hl. destruct TK as [To TS]. rewrite seq_length in To.
  assert (V : forall c x y z i, In (mkField c TText true, repeat x limit ++ repeat y limit ++ [z])%list (combine (b_fields (two limit)) (b_arrs (two limit))) ->
    i < 2 * limit + 1 -> shows (two limit) c i (if i <? limit then x else if i <? 2 * limit then y else if i =? 2 * limit then z else None)).
  { intros c x y z i Hin Hi. eexists _, _. split; [exact Hin|]. split; [reflexivity|].
    rewrite <- nth_three. apply nth_error_of_nth. rewrite !app_length, !repeat_length. cbn. lia. }
  assert (Vc := fun i => V "city"%string _ _ _ i (or_introl eq_refl)).
  assert (Vp := fun i => V "plan"%string _ _ _ i (or_intror (or_introl eq_refl))).
  split; [|split].
  - specialize (Vc (2 * limit) ltac:(lia)). destruct (Nat.ltb_spec (2 * limit) limit); [lia|].
    destruct (Nat.ltb_spec (2 * limit) (2 * limit)); [lia|]. now rewrite Nat.eqb_refl in Vc.
  - specialize (Vp (2 * limit) ltac:(lia)). destruct (Nat.ltb_spec (2 * limit) limit); [lia|].
    destruct (Nat.ltb_spec (2 * limit) (2 * limit)); [lia|]. now rewrite Nat.eqb_refl in Vp.
  - intros p. split; intros H; pose proof (shows_lt _ _ _ _ _ To H) as Hp;
      apply (TS p p (nth_error_seq_ _ p 0 Hp)) in H; destruct (Nat.ltb_spec p limit) as [Hpl|]; try lia.
    + specialize (Vc p ltac:(lia)). destruct (Nat.ltb_spec p limit); [|lia]. pose proof (shows_fun _ _ _ _ _ _ T H Vc). discriminate.
    + specialize (Vp p ltac:(lia)). destruct (Nat.ltb_spec p limit); [|lia]. pose proof (shows_fun _ _ _ _ _ _ T H Vp). discriminate.
Qed.
Print Assumptions C60_quota_used_by_dropped_rows_refuted.

Definition breakdown_table : Batch := mkBatch
  [mkField "segment" TText true; mkField "city" TText true; mkField "plan" TText true; mkField "value" TDec true]
  [[Some (CText "s"); Some (CText "s"); Some (CText "s"); Some (CText "s")];
   [Some (CText "a"); None; Some (CText "a"); Some (CText "a")];
   [Some (CText "x"); Some (CText "x"); None; Some (CText "y")];
   [Some (CDec 4); Some (CDec 3); None; Some (CDec 1)]].
Example breakdown_table_ok : table breakdown_table 4.
Proof.
  split; [discriminate|]. split; [reflexivity|]. split; [repeat constructor|]. split; [repeat constructor; cbn; intuition discriminate|].
  intros f a H E. cbn in H. intuition (match goal with X : _ = (f, a) |- _ => injection X as <- <- end; discriminate).
Qed.
Example C60_witness : exists out keep, limit_batch 1 2 2 breakdown_table = Some out /\ taken keep breakdown_table out /\ keep = [0; 1; 2] /\
  table breakdown_table 4 /\ 1 + 2 <= length (b_fields breakdown_table).
Proof.
  destruct (limit_core 1 2 2 breakdown_table 4 breakdown_table_ok ltac:(lia) ltac:(cbn; lia)) as (out & E & T).
  { intros f [<-|[<-|[]]]; auto. }
  exists out, [0; 1; 2]. split; [exact E|]. split; [exact T|]. split; [reflexivity|]. split; [exact breakdown_table_ok|cbn; lia].
Qed.

(** ** C61: columns into rows and back *)
(** Unpivoting the columns [cols], listed in the order in which the table has them: one row
    per row and metric. *)
Theorem C61_unpivot_partial : forall fs cols nc vc bs,
  cols <> [] -> filter (fun c => mem c cols) (map f_name fs) = cols ->
  ~ In nc (map f_name fs) -> ~ In vc (map f_name fs) -> nc <> vc ->
  (forall f, In f fs -> ~ In (f_name f) cols -> f_ty f <> TOther) ->
  NoDup (map f_name fs) ->
  (forall b, In b bs -> b_fields b = fs /\ table b (num_rows b) /\
     forall c i v, In c cols -> shows b c i v -> exists d, decimal_of v d) ->
  exists outs, unpivot_exec fs cols nc vc bs = Some outs /\
    Forall2 (fun b out =>
      table out (num_rows b * length cols) /\
      map f_name (b_fields out) = (filter (fun c => negb (mem c cols)) (map f_name fs) ++ [nc; vc])%list /\
      forall i j c, i < num_rows b -> nth_error cols j = Some c ->
        let r := i * length cols + j in
        shows out nc r (Some (CText c)) /\
        (forall v d, shows b c i v -> decimal_of v d -> shows out vc r (Some (CDec d))) /\
        (forall g v, ~ In g cols -> shows b g i v -> shows out g r v)) bs outs.
Proof.
  intros fs cols nc vc bs Hne Hord Hnc Hvc Hd Hty ND Hb.
  assert (Hin : forall c, In c cols -> In c (map f_name fs)).
  { intros c Hc. rewrite <- Hord in Hc. now apply filter_In in Hc. }
  assert (EF : unpivot_fields fs cols nc vc = Some (filter (fun f => negb (mem (f_name f) cols)) fs ++
             [mkField nc TText false; mkField vc TDec false])%list).
  { unfold unpivot_fields. rewrite (proj2 (distinct_spec cols)).
    - rewrite (proj2 (forallb_forall _ _)); [reflexivity|]. intros c Hc. apply mem_spec. auto.
    - rewrite <- Hord. now apply NoDup_filter. }
  unfold unpivot_exec. rewrite EF.
  induction bs as [|b bs IH]; [exists []; split; [reflexivity|constructor]|].
  destruct IH as (outs & E & F); [intros; apply Hb; now right|].
  destruct (Hb b (or_introl eq_refl)) as (Ef & T & Hn).
  assert (U := unpivot_ok b (num_rows b) cols nc vc T Hne). rewrite Ef in U.
  specialize (U Hin Hnc Hvc Hd Hty Hord Hn). destruct U as (U0 & U1 & U2).
  assert (EU : u_fields b cols nc vc = (filter (fun f => negb (mem (f_name f) cols)) fs ++
             [mkField nc TText false; mkField vc TDec false])%list) by (unfold u_fields; now rewrite Ef).
  rewrite EU in U1. cbn [mapO]. rewrite U1, E. eexists. split; [reflexivity|]. constructor; [|exact F].
  rewrite <- EU. split; [exact U2|]. split.
  { cbn [b_fields]. rewrite EU, map_app. cbn. f_equal. clear. induction fs as [|f fs IH]; cbn; [reflexivity|].
    destruct (mem (f_name f) cols); cbn; now rewrite IH. }
  intros i j c Hi Hj.
  pose proof (unpivot_shows b (num_rows b) cols nc vc T) as S1. rewrite Ef in S1.
  exact (S1 Hord i j c Hi Hj).
Qed.
Print Assumptions C61_unpivot_partial.
Definition metrics_table : Batch := mkBatch
  [mkField "city" TText true; mkField "0_0_count" TInt false; mkField "0_1_agg" TDec false]
  [[Some (CText "a"); None]; [Some (CInt 4); Some (CInt 2)]; [Some (CDec 15); Some (CDec 7)]].
Example C61_unpivot_witness :
  filter (fun c => mem c ["0_0_count"; "0_1_agg"]%string) (map f_name (b_fields metrics_table)) = ["0_0_count"; "0_1_agg"]%string /\
  unpivot_exec (b_fields metrics_table) ["0_0_count"; "0_1_agg"]%string "agg_name" "value" [metrics_table] =
  Some [mkBatch [mkField "city" TText true; mkField "agg_name" TText false; mkField "value" TDec false]
          [[Some (CText "a"); Some (CText "a"); None; None];
           [Some (CText "0_0_count"); Some (CText "0_1_agg"); Some (CText "0_0_count"); Some (CText "0_1_agg")];
           [Some (CDec (4 * 10 ^ 16)); Some (CDec 15); Some (CDec (2 * 10 ^ 16)); Some (CDec 7)]]].
Proof. split; vm_compute; reflexivity. Qed.

Lemma filter_none_ {A} (f : A -> bool) l : (forall x, In x l -> f x = false) -> filter f l = [].
Proof. induction l as [|x l IH]; intros H; cbn; [reflexivity|]. rewrite (H x (or_introl eq_refl)). apply IH. intros; apply H; now right. Qed.
(** The names follow the order in which the columns are asked for, the values the order in
    which the table has them: in another order, values come under a wrong name. *)
Theorem C61_unpivot_order_refuted : forall b n m1 m2 nc vc,
  table b n -> m1 <> m2 -> map f_name (b_fields b) = [m1; m2] -> ~ In nc [m1; m2] -> ~ In vc [m1; m2] -> nc <> vc ->
  (forall c i v, shows b c i v -> exists d, decimal_of v d) ->
  exists out, unpivot_exec (b_fields b) [m2; m1] nc vc [b] = Some [out] /\
    forall i v d, i < n -> shows b m1 i v -> decimal_of v d ->
      shows out nc (2 * i) (Some (CText m2)) /\ shows out vc (2 * i) (Some (CDec d)).
Proof.
  intros b n m1 m2 nc vc T Hm En Hnc Hvc Hd Hnum.
  destruct (C61_unpivot_partial (b_fields b) [m1; m2] nc vc [b]) as (outs & E & F).
  { discriminate. }
  { rewrite En. cbn [filter]. rewrite !(proj2 (mem_spec _ _)) by (cbn; auto). reflexivity. }
  { now rewrite En. } { now rewrite En. } { exact Hd. }
  { intros f Hf Hn. exfalso. apply Hn. rewrite <- En. now apply in_map. }
  { apply T. }
  { intros b' [<-|[]]. rewrite (table_rows _ _ T). eauto. }
  inversion F as [|? out ? ? H1 H2 E1 E2]. subst. inversion H2; subst. clear H2 F. destruct H1 as (To & _ & HS).
  rewrite (table_rows _ _ T) in To, HS. cbn [length] in HS, To.
  assert (Mem : forall c, mem c [m2; m1] = mem c [m1; m2]).
  { intros c. destruct (mem c [m1; m2]) eqn:Ec.
    - apply mem_spec in Ec. apply mem_spec. cbn in *. tauto.
    - apply mem_false in Ec. apply mem_false. cbn in *. tauto. }
  assert (In1 : forall f, In f (b_fields b) -> mem (f_name f) [m1; m2] = true).
  { intros f Hf. apply mem_spec. rewrite <- En. now apply in_map. }
  assert (Gn : filter (fun fa : Field * Arr => negb (mem (f_name (fst fa)) [m1; m2])) (combine (b_fields b) (b_arrs b)) = []).
  { apply filter_none_. intros [f a] Hx. apply in_combine_l in Hx. cbn. now rewrite (In1 _ Hx). }
  assert (Fn : filter (fun f => negb (mem (f_name f) [m1; m2])) (b_fields b) = []).
  { apply filter_none_. intros f Hx. now rewrite (In1 _ Hx). }
  set (schema := [mkField nc TText false; mkField vc TDec false]).
  assert (UF : forall x y, (x = m1 /\ y = m2) \/ (x = m2 /\ y = m1) -> unpivot_fields (b_fields b) [x; y] nc vc = Some schema).
  { intros x y Hxy. unfold unpivot_fields. rewrite (proj2 (distinct_spec _)).
    - rewrite (proj2 (forallb_forall _ _)).
      + cbn [andb]. unfold schema. destruct Hxy as [[-> ->]|[-> ->]].
        * now rewrite Fn.
        * rewrite (filter_ext _ (fun f => negb (mem (f_name f) [m1; m2]))) by (intros; now rewrite Mem). now rewrite Fn.
      + intros c Hc. apply mem_spec. rewrite En. destruct Hxy as [[-> ->]|[-> ->]]; cbn in *; tauto.
    - destruct Hxy as [[-> ->]|[-> ->]]; repeat constructor; cbn; intuition congruence. }
  set (Vs := map (fun fa : Field * Arr => map cast_dec (snd fa)) (filter (fun fa : Field * Arr => mem (f_name (fst fa)) [m1; m2]) (combine (b_fields b) (b_arrs b)))).
  assert (UU : forall x y, (x = m1 /\ y = m2) \/ (x = m2 /\ y = m1) -> unpivot b schema [x; y] =
     match Vs with [] => None | v0 :: _ => try_new schema [flat_map (fun _ => [Some (CText x); Some (CText y)]) (seq 0 n);
       flat_map (fun i => map (fun a : Arr => nth i a None) Vs) (seq 0 (length v0))] end).
  { intros x y Hxy. unfold unpivot. rewrite (table_rows _ _ T). cbn [map].
    destruct Hxy as [[-> ->]|[-> ->]].
    - rewrite Gn. cbn [existsb map app]. fold Vs. reflexivity.
    - rewrite (filter_ext (fun fa : Field * Arr => negb (mem (f_name (fst fa)) [m2; m1])) (fun fa => negb (mem (f_name (fst fa)) [m1; m2]))) by (intros; now rewrite Mem).
      rewrite (filter_ext (fun fa : Field * Arr => mem (f_name (fst fa)) [m2; m1]) (fun fa => mem (f_name (fst fa)) [m1; m2])) by (intros; now rewrite Mem).
      rewrite Gn. cbn [existsb map app]. fold Vs. reflexivity. }
  unfold unpivot_exec in *. rewrite (UF m1 m2) in E by auto. rewrite (UF m2 m1) by auto. cbn [mapO] in *.
  rewrite (UU m1 m2) in E by auto. rewrite (UU m2 m1) by auto.
  destruct Vs as [|v0 Vr] eqn:EV; [discriminate|]. rewrite <- EV in *.
  set (V := flat_map (fun i => map (fun a : Arr => nth i a None) Vs) (seq 0 (length v0))) in *.
  destruct (try_new schema [flat_map (fun _ => [Some (CText m1); Some (CText m2)]) (seq 0 n); V]) as [o|] eqn:Eo; [|discriminate].
  assert (o = out) by congruence. subst o. apply try_new_inv in Eo. subst out. clear E.
  destruct To as (_ & _ & Fo & _ & Zo). cbn [b_arrs b_fields] in Fo, Zo. inversion Fo as [|? ? F1 F2]; subst. inversion F2 as [|? ? F3 _]; subst.
  assert (LN : forall x y, length (flat_map (fun _ : nat => [Some (CText x); Some (CText y)]) (seq 0 n)) = n * 2).
  { intros. rewrite (length_blocks _ 2) by reflexivity. now rewrite seq_length. }
  destruct (try_new_table schema [flat_map (fun _ => [Some (CText m2); Some (CText m1)]) (seq 0 n); V] (n * 2)) as [TN TT].
  { discriminate. } { reflexivity. } { repeat constructor; auto. }
  { repeat constructor; cbn; intuition congruence. }
  { intros f a [H|[H|[]]] Hf Hx; injection H as <- <-.
    - apply in_flat_map in Hx as (? & _ & [Hx|[Hx|[]]]); discriminate.
    - apply (Zo (mkField vc TDec false) V); [right; now left|reflexivity|exact Hx]. }
  rewrite TN. eexists. split; [reflexivity|]. intros i v d Hi Hs Hdec. split.
  - exists (mkField nc TText false), (flat_map (fun _ : nat => [Some (CText m2); Some (CText m1)]) (seq 0 n)).
    split; [now left|]. split; [reflexivity|]. replace (2 * i) with (i * 2 + 0) by lia.
    rewrite (nth_error_blocks _ 2) by (intros; reflexivity || lia). rewrite nth_error_seq_ by exact Hi. reflexivity.
  - destruct (HS i 0 m1 Hi eq_refl) as (_ & Hv & _). destruct (Hv v d Hs Hdec) as (f & a & Hin & Ef & Ea).
    exists f, a. replace (2 * i) with (i * 2 + 0) by lia. split; [|split; assumption].
    cbn [b_fields b_arrs combine schema] in *. destruct Hin as [H|[H|[]]]; [|right; left; exact H].
    exfalso. injection H as <- <-. cbn in Ef. congruence.
Qed.
Print Assumptions C61_unpivot_order_refuted.

(** Pivoting by time: each value is in the cell of its group and time, each row of the result
    is a group of the input, no cell holds anything else, and no group has two rows.
    [_partial]: under a hash without collisions on the groups that occur (see
    [C61_null_groups_merged_refuted]), with at most [2 * buffer] groups (see
    [C61_many_groups_refuted]), and with one value per group and time. *)
Theorem C61_pivot_places_values_partial : forall show hash buffer fs nc vc result_cols bs D,
  0 < buffer -> In nc (map f_name fs) -> In vc (map f_name fs) ->
  (forall b, In b bs -> b_fields b = fs /\ exists n, table b n) ->
  NoDup result_cols ->
  (forall c, In c result_cols -> In c (map f_name fs) -> c = nc \/ c = vc) ->
  (forall b i v, In b bs -> shows b nc i v -> In (text_of show v) result_cols) ->
  (forall g n g' n', In (g, n) (row_keys nc vc bs) -> In (g', n') (row_keys nc vc bs) -> hash g = hash g' -> g = g') ->
  length D <= 2 * buffer -> (forall g n, In (g, n) (row_keys nc vc bs) -> In g D) ->
  NoDup (map (fun r => (fst r, text_of show (snd r))) (row_keys nc vc bs)) ->
  exists outs, pivot show hash buffer fs nc vc result_cols bs = Some outs /\ length outs <= 1 /\
    Forall (fun out => exists n, table out n) outs /\
    (forall b i, In b bs -> i < num_rows b -> exists out j, In out outs /\ j < num_rows out /\ same_group nc vc b i out j /\
       shows out (text_of show (value_at b nc i)) j (value_at b vc i)) /\
    (forall out j, In out outs -> j < num_rows out -> exists b i, In b bs /\ i < num_rows b /\ same_group nc vc b i out j /\
       forall c v, In c result_cols -> shows out c j (Some v) ->
         exists b' i', In b' bs /\ i' < num_rows b' /\ same_group nc vc b' i' out j /\
           text_of show (value_at b' nc i') = c /\ value_at b' vc i' = Some v) /\
    (forall out j j', In out outs -> j < num_rows out -> j' < num_rows out -> j <> j' ->
       exists c v v', c <> nc /\ c <> vc /\ In c (map f_name fs) /\ shows out c j v /\ shows out c j' v' /\ v <> v').
Proof.
  intros show hash buffer fs nc vc result_cols bs D H1 H2 H3 H4 H5 H6 H7 H8 H9 H10 H11.
  exact (pivot_main show hash buffer fs nc vc result_cols bs H1 H2 H4 H5 H6 H7 H8 D H9 H10 H11).
Qed.
Print Assumptions C61_pivot_places_values_partial.

Definition long_table : Batch := mkBatch
  [mkField "city" TText true; mkField "created_at" TTime true; mkField "value" TDec false]
  [[Some (CText "a"); None; Some (CText "a")]; [Some (CTime 1); Some (CTime 1); Some (CTime 2)];
   [Some (CDec 5); Some (CDec 6); Some (CDec 7)]].
Definition day (c : Cell) : string := match c with CTime 1 => "mon" | _ => "tue" end.
Definition group_hash (g : list (option Cell)) : Z := match g with [None] => 0 | _ => 1 end.
Example C61_pivot_witness :
  pivot day group_hash 1 (b_fields long_table) "created_at" "value" ["mon"; "tue"]%string [long_table] =
    Some [mkBatch [mkField "city" TText true; mkField "mon" TDec true; mkField "tue" TDec true]
            [[Some (CText "a"); None]; [Some (CDec 5); Some (CDec 6)]; [Some (CDec 7); None]]] /\
  (forall g n g' n', In (g, n) (row_keys "created_at" "value" [long_table]) -> In (g', n') (row_keys "created_at" "value" [long_table]) ->
     group_hash g = group_hash g' -> g = g') /\
  (forall g n, In (g, n) (row_keys "created_at" "value" [long_table]) -> In g [[None]; [Some (CText "a")]]) /\
  NoDup (map (fun r => (fst r, text_of day (snd r))) (row_keys "created_at" "value" [long_table])) /\
  table long_table 3.
Proof.
  split; [vm_compute; reflexivity|]. split; [|split; [|split]].
  - intros g n g' n' H H'. vm_compute in H, H'.
    repeat match goal with X : _ \/ _ |- _ => destruct X as [X|X] | X : False |- _ => destruct X | X : (_, _) = _ |- _ => injection X as <- <- end;
    cbn; intros; congruence.
  - intros g n H. vm_compute in H. cbn. intuition congruence.
  - vm_compute. repeat constructor; cbn; intuition discriminate.
  - split; [discriminate|]. split; [reflexivity|]. split; [repeat constructor|]. split; [repeat constructor; cbn; intuition discriminate|].
    intros f a H E. cbn in H. intuition (match goal with X : _ = (f, a) |- _ => injection X as <- <- end; try discriminate).
    cbn in *. intuition discriminate.
Qed.

(** A null leaves the hash of a row unchanged, so two groups that differ by the column in
    which a value stands are one: the report has one row for both, and the second value
    replaces the first. *)
Theorem C61_null_groups_collide : forall h1 comb pre x post, pre <> [] ->
  create_hash h1 comb (pre ++ None :: Some x :: post) = create_hash h1 comb (pre ++ Some x :: None :: post).
Proof.
  intros h1 comb pre x post H. destruct pre as [|p pre]; [congruence|].
  assert (K : forall pre acc, rehash h1 comb acc (pre ++ None :: Some x :: post) = rehash h1 comb acc (pre ++ Some x :: None :: post)).
  { clear. induction pre as [|[c|] pre IH]; intros acc; cbn; auto. }
  destruct p; cbn; apply K.
Qed.
Print Assumptions C61_null_groups_collide.
Lemma pivot_row_new show hash buffer st g c v vs : aget Z.eq_dec (hash g) (ps_map st) = None ->
  aget string_dec (show c) (ps_cols st) = Some vs -> length (ps_groups st) < length vs ->
  pivot_row show hash buffer st g (Some c) v =
    Some (mkPS (aset Z.eq_dec (hash g) (length (ps_groups st)) (ps_map st)) (ps_groups st ++ [g])
            (aset string_dec (show c) (upd vs (length (ps_groups st)) v) (ps_cols st))).
Proof.
  intros E1 E2 H. unfold pivot_row. rewrite E1, E2. cbv zeta.
  destruct (Nat.ltb_spec (length vs - 1) (length (ps_groups st))); [lia|]. destruct (Nat.ltb_spec (length (ps_groups st)) (length vs)); [reflexivity|lia].
Qed.
Lemma pivot_row_old show hash buffer st g c v i vs : aget Z.eq_dec (hash g) (ps_map st) = Some i ->
  aget string_dec (show c) (ps_cols st) = Some vs -> i < length vs ->
  pivot_row show hash buffer st g (Some c) v = Some (mkPS (ps_map st) (ps_groups st) (aset string_dec (show c) (upd vs i v) (ps_cols st))).
Proof.
  intros E1 E2 H. unfold pivot_row. rewrite E1, E2. cbv zeta.
  destruct (Nat.ltb_spec (length vs - 1) i); [lia|]. destruct (Nat.ltb_spec i (length vs)); [reflexivity|lia].
Qed.
Theorem C61_null_groups_merged_refuted : forall show h1 comb buffer s x t v1 v2, 0 < buffer -> show t <> "segment"%string -> show t <> "city"%string -> show t <> "plan"%string ->
  let fs := [mkField "segment" TText false; mkField "city" TText true; mkField "plan" TText true; mkField "created_at" TTime true; mkField "value" TDec false] in
  let b := mkBatch fs [[Some s; Some s]; [None; Some x]; [Some x; None]; [Some t; Some t]; [Some (CDec v1); Some (CDec v2)]] in
  table b 2 /\
  exists out, pivot show (create_hash h1 comb) buffer fs "created_at" "value" [show t] [b] = Some [out] /\ num_rows out = 1 /\
    shows out "city" 0 None /\ shows out "plan" 0 (Some x) /\ shows out (show t) 0 (Some (CDec v2)).
Proof.
  intros show h1 comb buffer s x t v1 v2 Hb N1 N2 N3 fs b. split.
  { split; [discriminate|]. split; [reflexivity|]. split; [repeat constructor|]. split; [repeat constructor; cbn; intuition discriminate|].
    intros f a H E. cbn in H. intuition (match goal with X : _ = (f, a) |- _ => injection X as <- <- end; try discriminate);
    cbn in *; intuition discriminate. }
  destruct buffer as [|k]; [lia|].
  set (arrs := [[Some s]; [None]; [Some x]; [Some (CDec v2)]]).
  exists (mkBatch [mkField "segment" TText false; mkField "city" TText true; mkField "plan" TText true; mkField (show t) TDec true] arrs).
  split; [|split; [reflexivity|]].
  - unfold pivot. cbn [flat_map b fs]. rewrite app_nil_r.
    set (h := create_hash h1 comb [Some s; None; Some x]).
    assert (Eh : create_hash h1 comb [Some s; Some x; None] = h) by reflexivity.
    change (batch_rows "created_at" "value" b) with [([Some s; None; Some x], Some t, Some (CDec v1)); ([Some s; Some x; None], Some t, Some (CDec v2))].
    cbn [pivot_rows]. unfold pivot_init. cbn [map].
    rewrite (pivot_row_new _ _ _ _ _ _ _ (repeat None (S k))); [|reflexivity|cbn; destruct (string_dec (show t) (show t)); congruence|cbn; lia].
    erewrite (pivot_row_old _ _ _ _ _ _ _ 0); [|cbn [ps_map]; rewrite Eh; apply aget_aset_eq|cbn [ps_cols]; apply aget_aset_eq|cbn; lia].
    cbn [ps_groups app length].
    unfold finish, pivot_fields. cbn [mapO ps_cols ps_groups]. rewrite aget_aset_eq. cbn. reflexivity.
  - split; [|split].
    + exists (mkField "city" TText true), [None]. split; [right; left; reflexivity|auto].
    + exists (mkField "plan" TText true), [Some x]. split; [right; right; left; reflexivity|auto].
    + exists (mkField (show t) TDec true), [Some (CDec v2)]. split; [right; right; right; left; reflexivity|auto].
Qed.
Print Assumptions C61_null_groups_merged_refuted.

(** The column of a time grows by one [buffer] per write, so the first value in it must not
    belong to a group with number [2 * buffer] or more: a report over [2 * buffer + 1] groups
    of which the last has its only value at a time at which the others have none, fails. *)
Section ManyGroups.
Variable show : Cell -> string.
Variable hash : list (option Cell) -> Z.
Variable buffer : nat.
Variables (t1 t2 : Cell) (v : Z).
Let grp_of (i : nat) : list (option Cell) := [Some (CInt (Z.of_nat i))].
Hypothesis Hb : 0 < buffer.
Hypothesis Ht : show t1 <> show t2.
Hypothesis Hh : forall i j, i <= 2 * buffer -> j <= 2 * buffer -> hash (grp_of i) = hash (grp_of j) -> i = j.
Definition many_fields : list Field := [mkField "city" TInt false; mkField "created_at" TTime false; mkField "value" TDec false].
Definition many : Batch := mkBatch many_fields
  [map (fun i => Some (CInt (Z.of_nat i))) (seq 0 (2 * buffer + 1));
   (repeat (Some t1) (2 * buffer) ++ [Some t2])%list; repeat (Some (CDec v)) (2 * buffer + 1)].
Lemma many_table : table many (2 * buffer + 1).
Proof.
  split; [discriminate|]. split; [reflexivity|]. split; [|split].
  - repeat constructor; rewrite ?map_length, ?app_length, ?seq_length, ?repeat_length; cbn; lia.
  - repeat constructor; cbn; intuition discriminate.
  - intros f a [H|[H|[H|[]]]] _ X; injection H as <- <-.
    + apply in_map_iff in X as (? & X & _). discriminate.
    + apply in_app_iff in X as [X|[X|[]]]; [apply repeat_spec in X|]; discriminate.
    + apply repeat_spec in X. discriminate.
Qed.
Let prow (i : nat) (t : Cell) : list (option Cell) * option Cell * option Cell := (grp_of i, Some t, Some (CDec v)).
Lemma many_rows : batch_rows "created_at" "value" many = (map (fun i => prow i t1) (seq 0 (2 * buffer)) ++ [prow (2 * buffer) t2])%list.
Proof.
  change (batch_rows "created_at" "value" many) with
    (map (fun i => (row [map (fun i => Some (CInt (Z.of_nat i))) (seq 0 (2 * buffer + 1))] i,
                    nth i (repeat (Some t1) (2 * buffer) ++ [Some t2])%list None, nth i (repeat (Some (CDec v)) (2 * buffer + 1)) None))
       (seq 0 (num_rows many))).
  rewrite (table_rows _ _ many_table).
  assert (Hca : forall i, i < 2 * buffer + 1 -> nth i (map (fun i => Some (CInt (Z.of_nat i))) (seq 0 (2 * buffer + 1))) None = Some (CInt (Z.of_nat i))).
  { intros i Hi. exact (nth_error_nth _ _ None (map_nth_error (fun i => Some (CInt (Z.of_nat i))) i _ (nth_error_seq_ (2 * buffer + 1) i 0 Hi))). }
  revert Hca. generalize (map (fun i => Some (CInt (Z.of_nat i))) (seq 0 (2 * buffer + 1))) as ca. intros ca Hca.
  rewrite seq_app, map_app. cbn [seq map plus]. f_equal.
  - apply map_ext_in. intros i Hi. apply in_seq in Hi. unfold prow, row, grp_of. cbn [map]. rewrite Hca by lia.
    rewrite app_nth1 by (rewrite repeat_length; lia).
    rewrite (nth_error_nth _ _ _ (nth_error_repeat_ (Some t1) (2 * buffer) i ltac:(lia))).
    rewrite (nth_error_nth _ _ _ (nth_error_repeat_ (Some (CDec v)) (2 * buffer + 1) i ltac:(lia))). reflexivity.
  - unfold prow, row, grp_of. cbn [map]. rewrite Hca by lia.
    rewrite app_nth2 by (rewrite repeat_length; lia). rewrite repeat_length, Nat.sub_diag.
    rewrite (nth_error_nth _ _ _ (nth_error_repeat_ (Some (CDec v)) (2 * buffer + 1) (2 * buffer) ltac:(lia))). reflexivity.
Qed.
Definition many_inv (j : nat) (st : PivotState) : Prop :=
  length (ps_groups st) = j /\ (forall i, j <= i -> i <= 2 * buffer -> aget Z.eq_dec (hash (grp_of i)) (ps_map st) = None) /\
  aget string_dec (show t2) (ps_cols st) = Some (repeat None buffer) /\
  exists vs, aget string_dec (show t1) (ps_cols st) = Some vs /\ ((length vs = buffer /\ j <= buffer) \/ length vs = 2 * buffer).
Lemma many_step j st : j < 2 * buffer -> many_inv j st ->
  exists st', pivot_row show hash buffer st (grp_of j) (Some t1) (Some (CDec v)) = Some st' /\ many_inv (S j) st'.
Proof.
  intros Hj (L & M & C2 & vs & C1 & Lv). unfold pivot_row. rewrite (M j) by lia. rewrite C1. cbv zeta. rewrite L.
  set (vs' := if length vs - 1 <? j then (vs ++ repeat None buffer)%list else vs).
  assert (Lv' : (length vs' = buffer /\ S j <= buffer) \/ (length vs' = 2 * buffer)).
  { unfold vs'. destruct (Nat.ltb_spec (length vs - 1) j); [rewrite app_length, repeat_length|]; lia. }
  destruct (Nat.ltb_spec j (length vs')); [|lia].
  eexists. split; [reflexivity|]. split; [cbn; rewrite app_length; cbn; lia|]. split; [|split].
  - intros i H1 H2. cbn [ps_map]. rewrite aget_aset_ne by (intros E; apply Hh in E; lia). apply M; lia.
  - cbn [ps_cols]. rewrite aget_aset_ne by congruence. exact C2.
  - exists (upd vs' j (Some (CDec v))). cbn [ps_cols]. rewrite aget_aset_eq. split; [reflexivity|].
    assert (LU : forall (l : Arr) i x, length (upd l i x) = length l) by (induction l; intros [|] ?; cbn; auto).
    now rewrite LU.
Qed.
Lemma many_fails : pivot show hash buffer many_fields "created_at" "value" [show t1; show t2] [many] = None.
Proof.
  unfold pivot. cbn [flat_map]. rewrite app_nil_r, many_rows.
  assert (K : forall n j st, j + n = 2 * buffer -> many_inv j st ->
    pivot_rows show hash buffer st (map (fun i => prow i t1) (seq j n) ++ [prow (2 * buffer) t2]) = None).
  { induction n as [|n IH]; intros j st E I.
    - cbn [seq map app pivot_rows prow]. destruct I as (L & M & C2 & _). unfold pivot_row. rewrite (M (2 * buffer)) by lia. rewrite C2. cbv zeta.
      rewrite repeat_length, L. destruct (Nat.ltb_spec (buffer - 1) j); [|lia].
      destruct (Nat.ltb_spec j (length (repeat None buffer ++ repeat (@None Cell) buffer))) as [H0|]; [|reflexivity].
      rewrite app_length, !repeat_length in H0. lia.
    - cbn [seq map app pivot_rows prow]. destruct (many_step j st ltac:(lia) I) as (st' & E' & I'). rewrite E'.
      apply IH; [lia|exact I']. }
  rewrite (K (2 * buffer) 0); [reflexivity|lia|].
  split; [reflexivity|]. split; [reflexivity|]. unfold pivot_init. cbn [ps_cols map aget].
  destruct (string_dec (show t2) (show t1)); [congruence|]. destruct (string_dec (show t2) (show t2)); [|congruence].
  destruct (string_dec (show t1) (show t1)); [|congruence]. split; [reflexivity|]. eexists. split; [reflexivity|]. left.
  split; [apply repeat_length|lia].
Qed.
End ManyGroups.
Theorem C61_many_groups_refuted : forall show hash buffer t1 t2 v, 0 < buffer -> show t1 <> show t2 ->
  (forall i j, i <= 2 * buffer -> j <= 2 * buffer -> hash [Some (CInt (Z.of_nat i))] = hash [Some (CInt (Z.of_nat j))] -> i = j) ->
  let b := many buffer t1 t2 v in
  table b (2 * buffer + 1) /\
  (forall i w, shows b "created_at" i w -> In (text_of show w) [show t1; show t2]) /\
  NoDup (map (fun r => (fst r, text_of show (snd r))) (row_keys "created_at" "value" [b])) /\
  pivot show hash buffer many_fields "created_at" "value" [show t1; show t2] [b] = None.
Proof.
  intros show hash buffer t1 t2 v Hb Ht Hh b. assert (T : table b (2 * buffer + 1)) by (eapply many_table; eassumption). split; [exact T|].
  split; [|split; [|apply many_fails; assumption]].
  - intros i w (f & a & Hin & E & X). apply nth_error_In in X.
    destruct Hin as [H|[H|[H|[]]]]; injection H as <- <-; try discriminate E.
    apply in_app_iff in X as [X|[<-|[]]]; [apply repeat_spec in X; subst w; now left|right; now left].
  - assert (ER : map fst (row_keys "created_at" "value" [b]) = map (fun i => [Some (CInt (Z.of_nat i))]) (seq 0 (2 * buffer + 1))).
    { unfold row_keys. cbn [flat_map]. rewrite app_nil_r, map_map. cbn [fst]. rewrite (table_rows _ _ T). apply map_ext_in.
      intros i Hi. apply in_seq in Hi. unfold group_values.
      cbn [b many many_fields b_fields b_arrs combine filter f_name fst snd map String.eqb Ascii.eqb Bool.eqb negb orb].
      rewrite (nth_error_nth _ _ _ (map_nth_error (fun i => Some (CInt (Z.of_nat i))) i _ (nth_error_seq_ (2 * buffer + 1) i 0 ltac:(lia)))). reflexivity. }
    apply (NoDup_map_inv fst). rewrite map_map. cbn [fst].
    change (map (fun x => fst x) (row_keys "created_at" "value" [b])) with (map fst (row_keys "created_at" "value" [b])). rewrite ER.
    apply FinFun.Injective_map_NoDup; [|apply seq_NoDup]. intros i j E. injection E as E. lia.
Qed.
Print Assumptions C61_many_groups_refuted.

(** ** C62: one report out of the reports of several events *)
Notation Input := (string * (list Field * list Batch))%type.
(** The inputs are named streams of tables with the fields they announce. *)
Definition well_formed (inputs : list Input) : Prop :=
  forall name fs bs, In (name, (fs, bs)) inputs -> forall b, In b bs -> b_fields b = fs /\ table b (num_rows b).
(** The same column has one type in all inputs. *)
Definition agree (inputs : list Input) : Prop :=
  forall n fs bs n' fs' bs' f f', In (n, (fs, bs)) inputs -> In (n', (fs', bs')) inputs -> In f fs -> In f' fs' ->
    f_name f = f_name f' -> f_ty f = f_ty f'.
Definition has_column (inputs : list Input) (c : string) : Prop :=
  exists name fs bs, In (name, (fs, bs)) inputs /\ In c (map f_name fs).
(** Some input allows nulls in the column. *)
Definition nullable_in (inputs : list Input) (c : string) : Prop :=
  exists name fs bs f, In (name, (fs, bs)) inputs /\ In f fs /\ f_name f = c /\ f_null f = true.

Lemma in_all (inputs : list Input) f : In f (List.concat (map (fun i : Input => fst (snd i)) inputs)) <->
  exists name fs bs, In (name, (fs, bs)) inputs /\ In f fs.
Proof.
  rewrite in_concat. split.
  - intros (l & Hl & Hf). apply in_map_iff in Hl as ((name & fs & bs) & <- & H). eauto.
  - intros (name & fs & bs & H & Hf). exists fs. split; [|exact Hf]. apply in_map_iff. exists (name, (fs, bs)). auto.
Qed.
Lemma merged_all label inputs : agree inputs -> exists acc,
  merge_schema label (map (fun i : Input => fst (snd i)) inputs) = Some (mkField label TText false :: acc) /\
  merged_from acc (List.concat (map (fun i : Input => fst (snd i)) inputs)).
Proof.
  intros Ag. destruct (merge_fields_ok (List.concat (map (fun i : Input => fst (snd i)) inputs)) [] [] merged_nil) as (acc & E & M).
  - cbn [app]. intros f f' Hf Hf' E. apply in_all in Hf as (n & fs & bs & H & Hf). apply in_all in Hf' as (n' & fs' & bs' & H' & Hf'). eauto.
  - exists acc. unfold merge_schema. rewrite E. auto.
Qed.

Theorem C62_merge_partial : forall label inputs, inputs <> [] -> well_formed inputs -> agree inputs ->
  ~ has_column inputs label ->
  (forall name fs bs b c, In (name, (fs, bs)) inputs -> In b bs -> 0 < num_rows b -> has_column inputs c ->
     ~ In c (map f_name fs) -> nullable_in inputs c) ->
  exists outs outss columns, merge label inputs = Some outs /\ outs = List.concat outss /\
    (forall c, In c columns <-> has_column inputs c) /\ NoDup columns /\
    Forall2 (fun (i : Input) os => Forall2 (labelled label (fst i) columns) (snd (snd i)) os) inputs outss.
Proof.
  intros label inputs Hne Wf Ag Hlab Hlack.
  destruct (merged_all label inputs Ag) as (acc & E & (D & Nm & Ty & Nu)).
  assert (Hcol : forall c, In c (map f_name acc) <-> has_column inputs c).
  { intros c. rewrite Nm. split.
    - intros H. apply in_map_iff in H as (f & <- & H). apply in_all in H as (n & fs & bs & H & Hf). exists n, fs, bs. split; [exact H|]. now apply in_map.
    - intros (n & fs & bs & H & Hf). apply in_map_iff in Hf as (f & <- & Hf). apply in_map. apply in_all. eauto. }
  assert (K : forall i, In i inputs -> exists os, mapO (merge_batch (mkField label TText false :: acc) (fst i)) (snd (snd i)) = Some os /\
            Forall2 (labelled label (fst i) (map f_name acc)) (snd (snd i)) os).
  { intros (name & fs & bs) Hi. cbn [fst snd].
    assert (Hb : forall b, In b bs -> exists out, merge_batch (mkField label TText false :: acc) name b = Some out /\ labelled label name (map f_name acc) b out).
    { intros b Hb. destruct (Wf _ _ _ Hi b Hb) as [Ef T]. apply merge_batch_ok; auto.
      - rewrite Ef. intros H. apply Hlab. exists name, fs, bs. auto.
      - rewrite Hcol. exact Hlab.
      - intros f g Hf Hg En Hn. rewrite Ef in Hf. apply (Ty f g); auto. apply in_all. eauto.
      - intros g Hg Hng. destruct (Nat.eq_dec (num_rows b) 0) as [Z1|Z1]; [now right|]. left. rewrite Ef in Hng.
        destruct (Hlack name fs bs b (f_name g) Hi Hb ltac:(lia)) as (n' & fs' & bs' & f & H' & Hf & En & Hn).
        + apply Hcol. now apply in_map.
        + exact Hng.
        + apply (Ty f g); auto. apply in_all. eauto. }
    clear Hi. induction bs as [|b bs IH]; [exists []; split; [reflexivity|constructor]|].
    destruct IH as (os & E1 & F1); [intros; apply Hb; now right|]. destruct (Hb b (or_introl eq_refl)) as (o & E0 & F0).
    exists (o :: os). cbn [mapO]. rewrite E0, E1. split; [reflexivity|constructor; assumption]. }
  assert (K2 : exists oss, mapO (fun i : Input => mapO (merge_batch (mkField label TText false :: acc) (fst i)) (snd (snd i))) inputs = Some oss /\
            Forall2 (fun (i : Input) os => Forall2 (labelled label (fst i) (map f_name acc)) (snd (snd i)) os) inputs oss).
  { clear - K. induction inputs as [|i inputs IH]; [exists []; split; [reflexivity|constructor]|].
    destruct IH as (oss & E1 & F1); [intros; apply K; now right|]. destruct (K i (or_introl eq_refl)) as (os & E0 & F0).
    exists (os :: oss). cbn [mapO]. rewrite E0, E1. split; [reflexivity|constructor; assumption]. }
  destruct K2 as (oss & E2 & F2). exists (List.concat oss), oss, (map f_name acc).
  split; [|split; [reflexivity|split; [exact Hcol|split; [exact D|exact F2]]]].
  unfold merge. destruct inputs as [|i0 ir]; [congruence|]. rewrite E, E2. reflexivity.
Qed.
Print Assumptions C62_merge_partial.

Definition visits : Input := ("visit"%string, ([mkField "city" TText true; mkField "mon" TDec true],
  [mkBatch [mkField "city" TText true; mkField "mon" TDec true] [[Some (CText "a"); None]; [Some (CDec 5); Some (CDec 6)]]])).
Definition orders : Input := ("order"%string, ([mkField "plan" TText true; mkField "mon" TDec true],
  [mkBatch [mkField "plan" TText true; mkField "mon" TDec true] [[Some (CText "x")]; [None]];
   mkBatch [mkField "plan" TText true; mkField "mon" TDec true] [[Some (CText "y")]; [Some (CDec 1)]]])).
Example C62_witness :
  merge "event" [visits; orders] =
    Some (let fs := [mkField "event" TText false; mkField "city" TText true; mkField "mon" TDec true; mkField "plan" TText true] in
      [mkBatch fs [[Some (CText "visit"); Some (CText "visit")]; [Some (CText "a"); None]; [Some (CDec 5); Some (CDec 6)]; [None; None]];
       mkBatch fs [[Some (CText "order")]; [None]; [None]; [Some (CText "x")]];
       mkBatch fs [[Some (CText "order")]; [None]; [Some (CDec 1)]; [Some (CText "y")]]]) /\
  well_formed [visits; orders] /\ agree [visits; orders] /\ ~ has_column [visits; orders] "event" /\
  nullable_in [visits; orders] "plan" /\ nullable_in [visits; orders] "city" /\ nullable_in [visits; orders] "mon".
Proof.
  split; [vm_compute; reflexivity|]. split; [|split; [|split]].
  - intros name fs bs H b Hb. destruct H as [H|[H|[]]]; injection H as <- <- <-; cbn in Hb;
      repeat match goal with X : _ \/ _ |- _ => destruct X as [X|X] | X : False |- _ => destruct X end; subst b; (split; [reflexivity|]);
      (split; [discriminate|]; split; [reflexivity|]; split; [repeat constructor|]; split; [repeat constructor; cbn; intuition discriminate|]);
      intros f a H E; cbn in H; intuition (match goal with X : _ = (f, a) |- _ => injection X as <- <- end; discriminate).
  - intros n fs bs n' fs' bs' f f' H H'. destruct H as [H|[H|[]]], H' as [H'|[H'|[]]]; injection H as <- <- <-; injection H' as <- <- <-;
      cbn; intuition (subst; cbn in *; congruence).
  - intros (n & fs & bs & H & Hc). destruct H as [H|[H|[]]]; injection H as <- <- <-; cbn in Hc; intuition discriminate.
  - split; [|split]; unfold nullable_in.
    + eexists _, _, _, (mkField "plan" TText true). split; [right; left; reflexivity|cbn; auto].
    + eexists _, _, _, (mkField "city" TText true). split; [left; reflexivity|cbn; auto].
    + eexists _, _, _, (mkField "mon" TDec true). split; [left; reflexivity|cbn; auto].
Qed.

(** A column that no input allows to be null makes the whole query fail as soon as another
    input without it has a row. *)
Theorem C62_lacking_column_refuted : forall label inputs name fs bs b c,
  agree inputs -> In (name, (fs, bs)) inputs -> In b bs -> b_fields b = fs -> 0 < num_rows b ->
  has_column inputs c -> ~ In c (map f_name fs) -> ~ nullable_in inputs c ->
  merge label inputs = None.
Proof.
  intros label inputs name fs bs b c Ag Hi Hb Ef Hn Hc Hnc Hnn.
  destruct (merged_all label inputs Ag) as (acc & E & (D & Nm & Ty & Nu)).
  unfold merge. destruct inputs as [|i0 ir] eqn:EI; [contradiction|]. rewrite <- EI in *. rewrite E.
  destruct (mapO _ inputs) as [oss|] eqn:EM; [|reflexivity]. exfalso.
  apply mapO_inv in EM.
  assert (Hx : exists os, mapO (merge_batch (mkField label TText false :: acc) name) bs = Some os).
  { clear - EM Hi. induction EM as [|i os l l' H _ IH]; [contradiction|]. destruct Hi as [->|Hi]; [cbn in H; eauto|auto]. }
  destruct Hx as (os & Hx). apply mapO_inv in Hx.
  assert (Ho : exists o, merge_batch (mkField label TText false :: acc) name b = Some o).
  { clear - Hx Hb. induction Hx as [|b' o l l' H _ IH]; [contradiction|]. destruct Hb as [->|Hb]; [eauto|auto]. }
  destruct Ho as (o & Ho).
  assert (Hg : exists j g, nth_error acc j = Some g /\ f_name g = c /\ f_null g = false).
  { assert (Hin : In c (map f_name acc)).
    { apply Nm. destruct Hc as (n & fs' & bs' & H & Hf). apply in_map_iff in Hf as (f & <- & Hf). apply in_map. apply in_all. eauto. }
    apply in_map_iff in Hin as (g & En & Hg). apply In_nth_error in Hg as (j & Hj). exists j, g. split; [exact Hj|]. split; [exact En|].
    destruct (f_null g) eqn:Eg; [|reflexivity]. exfalso. apply Hnn.
    destruct (Nu g (nth_error_In _ _ Hj) Eg) as (f & Hf & E1 & E2). apply in_all in Hf as (n & fs' & bs' & H & Hf). exists n, fs', bs', f. repeat split; auto. congruence. }
  destruct Hg as (j & g & Hj & En & Eg).
  unfold merge_batch in Ho. set (schema := mkField label TText false :: acc) in *.
  set (h := fun jf : nat * Field => match index_of (b_fields b) (f_name (snd jf)) with
       | Some i => nth i (b_arrs b) []
       | None => if Nat.eqb (fst jf) 0 then repeat (Some (CText name)) (num_rows b) else repeat None (num_rows b)
       end) in Ho.
  assert (Hp : In (g, repeat None (num_rows b)) (combine schema (map h (combine (seq 0 (length schema)) schema)))).
  { apply (in_combine_at _ _ (S j)); [exact Hj|].
    assert (Hj' : nth_error (combine (seq 0 (length schema)) schema) (S j) = Some (S j, g)).
    { assert (Hjs : nth_error schema (S j) = Some g) by exact Hj. revert Hjs. generalize schema. clear. intros l.
      assert (X : forall l s k, nth_error l k = Some g -> nth_error (combine (seq s (length l)) l) k = Some (s + k, g)).
      { clear. induction l as [|x l IH]; intros s [|k] H; cbn in *; try discriminate; [rewrite Nat.add_0_r; congruence|].
        rewrite (IH (S s) k H). f_equal. f_equal. lia. }
      intros H. exact (X l 0 (S j) H). }
    rewrite (map_nth_error h _ _ Hj'). unfold h. cbn [snd fst]. rewrite En, Ef, (index_of_none _ _ Hnc). reflexivity. }
  unfold try_new in Ho. destruct (map h _) as [|a0 ar] eqn:EA; [discriminate|].
  match type of Ho with (if ?x then _ else _) = _ => destruct x eqn:EX; [|discriminate] end.
  apply andb_true_iff in EX as [_ EX]. rewrite forallb_forall in EX. specialize (EX _ Hp). cbn [fst snd] in EX. rewrite Eg in EX. cbn [orb] in EX.
  rewrite forallb_forall in EX. specialize (EX None). destruct (num_rows b); [lia|]. specialize (EX (or_introl eq_refl)). discriminate.
Qed.
Print Assumptions C62_lacking_column_refuted.
Example C62_lacking_witness :
  let plan : Input := ("order"%string, ([mkField "plan" TText false], [])) in
  agree [visits; plan] /\ has_column [visits; plan] "plan" /\ ~ nullable_in [visits; plan] "plan" /\ merge "event" [visits; plan] = None.
Proof.
  split; [|split; [|split; [|vm_compute; reflexivity]]].
  - intros n fs bs n' fs' bs' f f' H H'. destruct H as [H|[H|[]]], H' as [H'|[H'|[]]]; injection H as <- <- <-; injection H' as <- <- <-;
      cbn; intuition (subst; cbn in *; congruence).
  - eexists _, _, _. split; [right; left; reflexivity|cbn; auto].
  - intros (n & fs & bs & f & H & Hf & E & Hn). destruct H as [H|[H|[]]]; injection H as <- <- <-; cbn in Hf; intuition (subst; discriminate).
Qed.

(** ** C89: every row carries its average and the rows are sorted by it *)
Theorem C89_sorted_by_average : forall order groups b n,
  descending order -> table b n -> 0 < groups -> groups < length (b_fields b) ->
  ~ In "Average"%string (map f_name (b_fields b)) ->
  (forall f, In f (skipn groups (b_fields b)) -> f_ty f = TDec) ->
  let values := map f_name (skipn groups (b_fields b)) in
  exists out keep, aggregate_and_sort order groups b = Some out /\ table out n /\
    (** all rows of the input, each once *)
    Permutation keep (seq 0 n) /\
    (forall p i, nth_error keep p = Some i ->
       (forall c v, In c (map f_name (b_fields b)) -> (shows out c p v <-> shows b c i v)) /\
       shows out "Average" p (Some (CDec (average b values i)))) /\
    (** largest average first *)
    StronglySorted (fun i j => (average b values j <= average b values i)%Z) keep.
Proof.
  intros order groups b n Hd T Hg Hl Ha Hty values.
  destruct (sort_ok order groups b n Hd T Hg Hl Ha) as (out & keep & E & P & TK & T2 & So); [now apply Forall_forall|].
  exists out, keep. split; [exact E|]. destruct TK as [To TS].
  assert (Lk : length keep = n) by (rewrite (Permutation_length P); apply seq_length).
  split; [now rewrite <- Lk|]. split; [exact P|]. split; [|exact So].
  pose proof T as (Ne & L & F & D & Z0).
  intros p i Hp. split.
  - intros c v Hc. rewrite (TS p i Hp c v). unfold shows. cbn [b_fields b_arrs]. split.
    + intros (f & a & Hin & En & X). apply firstn_skipn_combine in Hin; auto; [|lia]. destruct Hin as [Hin|Hin]; [|eauto].
      assert (f = avg_field) by congruence. subst f. cbn in En. subst c. contradiction.
    + intros (f & a & Hin & En & X). exists f, a. split; [|auto]. apply firstn_skipn_combine; auto. lia.
  - apply (TS p i Hp). exists avg_field, (map (fun i => Some (CDec (average b values i))) (seq 0 n)). cbn [b_fields b_arrs].
    split; [apply firstn_skipn_combine; auto; lia|]. split; [reflexivity|].
    assert (Hi : i < n).
    { assert (In i (seq 0 n)) by (eapply Permutation_in; [exact P|exact (nth_error_In _ _ Hp)]). apply in_seq in H. lia. }
    exact (map_nth_error (fun i => Some (CDec (average b values i))) i _ (nth_error_seq_ n i 0 Hi)).
Qed.
Print Assumptions C89_sorted_by_average.

(** A sort that meets the contract: insertion of positions. *)
Fixpoint put (l : list Z) (i : nat) (is : list nat) : list nat :=
  match is with
  | [] => [i]
  | j :: tl => if (nth j l 0 <=? nth i l 0)%Z then i :: is else j :: put l i tl
  end.
Definition by_size (l : list Z) : list nat := fold_right (put l) [] (seq 0 (length l)).
Lemma put_perm l i is : Permutation (put l i is) (i :: is).
Proof. induction is as [|j is IH]; cbn; [auto|]. destruct (_ <=? _)%Z; [auto|]. rewrite IH. apply perm_swap. Qed.
Lemma by_size_descending : descending by_size.
Proof.
  intros l. unfold by_size. generalize (seq 0 (length l)) as is. intros is. split.
  - induction is as [|i is IH]; cbn; [auto|]. rewrite put_perm. now constructor.
  - induction is as [|i is IH]; cbn; [constructor|]. revert IH. generalize (fold_right (put l) [] is) as js. clear.
    induction js as [|j js IH]; intros S1; cbn; [repeat constructor|]. inversion S1 as [|? ? S2 F]; subst.
    destruct (Z.leb_spec (nth j l 0%Z) (nth i l 0%Z)).
    + constructor; [exact S1|]. constructor; [exact H|]. rewrite Forall_forall in *. intros x Hx. specialize (F x Hx). lia.
    + constructor; [auto|]. rewrite Forall_forall in *. intros x Hx. eapply Permutation_in in Hx; [|apply put_perm].
      destruct Hx as [<-|Hx]; [lia|auto].
Qed.
Definition wide_table : Batch := mkBatch
  [mkField "segment" TText false; mkField "mon" TDec true; mkField "tue" TDec true]
  [[Some (CText "s"); Some (CText "t"); Some (CText "u")]; [Some (CDec 1); Some (CDec 8); None]; [Some (CDec 2); None; Some (CDec (-3))]].
Example C89_witness : aggregate_and_sort by_size 1 wide_table =
  Some (mkBatch [mkField "segment" TText false; mkField "Average" TDec false; mkField "mon" TDec true; mkField "tue" TDec true]
    [[Some (CText "t"); Some (CText "s"); Some (CText "u")]; [Some (CDec 4); Some (CDec 1); Some (CDec (-1))];
     [Some (CDec 8); Some (CDec 1); None]; [None; Some (CDec 2); Some (CDec (-3))]]) /\ table wide_table 3.
Proof.
  split; [vm_compute; reflexivity|].
  split; [discriminate|]. split; [reflexivity|]. split; [repeat constructor|]. split; [repeat constructor; cbn; intuition discriminate|].
  intros f a H E. cbn in H. intuition (match goal with X : _ = (f, a) |- _ => injection X as <- <- end; try discriminate).
  cbn in *. intuition discriminate.
Qed.

(** ** C90: the compact format *)
(** An event count is an integer column (aggregate/count.rs 94), which only the step that the
    compact format skips turns into a decimal: such a report fails whatever the data and the
    breakdowns. *)
Theorem C90_compact_count_refuted : forall order group_len b n metric,
  table b n -> 0 < group_len ->
  nth_error (b_fields b) (group_len + 1) = Some metric -> f_ty metric = TInt ->
  compact_event order group_len b = None.
Proof.
  intros order group_len b n metric T Hg Hm Ht. unfold compact_event, aggregate_and_sort.
  replace (group_len - 1 + 2) with (S group_len) by lia. replace (group_len + 1) with (S group_len) in Hm by lia.
  assert (E : forallb (fun f => ty_eqb (f_ty f) TDec) (skipn (S group_len) (b_fields b)) = false).
  { destruct (forallb _ _) eqn:E; [|reflexivity]. rewrite forallb_forall in E. specialize (E metric). rewrite Ht in E. exfalso.
    enough (X : ty_eqb TInt TDec = true) by discriminate. apply E.
    apply nth_error_split in Hm as (l1 & l2 & El & Ll). rewrite El, <- Ll, skipn_app, skipn_all, Nat.sub_diag. now left. }
  rewrite E. reflexivity.
Qed.
Print Assumptions C90_compact_count_refuted.
(** Reports whose metrics are all decimals are answered, sorted, without losing a row. *)
Theorem C90_compact_decimal_partial : forall order group_len b n,
  descending order -> table b n -> group_len = 1 -> 2 < length (b_fields b) ->
  ~ In "Average"%string (map f_name (b_fields b)) ->
  (forall f, In f (skipn 2 (b_fields b)) -> f_ty f = TDec) ->
  exists out keep, compact_event order group_len b = Some out /\ table out n /\ Permutation keep (seq 0 n) /\
    forall p i, nth_error keep p = Some i ->
      forall c v, In c (map f_name (b_fields b)) -> (shows out c p v <-> shows b c i v).
Proof.
  intros order group_len b n Hd T -> Hl Ha Hty.
  destruct (C89_sorted_by_average order 2 b n Hd T ltac:(lia) Hl Ha Hty) as (out & keep & E & To & P & H & _).
  exists out, keep. unfold compact_event. cbn [Nat.sub Nat.add]. rewrite E. cbn. split; [reflexivity|]. split; [exact To|]. split; [exact P|].
  intros p i Hp. apply (proj1 (H p i Hp)).
Qed.
Print Assumptions C90_compact_decimal_partial.
(** With a breakdown, the limit of 50 rows per value counts points in time: a value that has
    more loses the others. *)
Theorem C90_compact_long_period_refuted : forall order b n city v,
  descending order -> table b n -> 3 < length (b_fields b) ->
  ~ In "Average"%string (map f_name (b_fields b)) ->
  (forall f, In f (skipn 3 (b_fields b)) -> f_ty f = TDec) ->
  nth_error (b_fields b) 1 = Some city -> f_ty city = TText ->
  (forall i, i < n -> shows b (f_name city) i v) ->
  exists out, compact_event order 2 b = Some out /\ num_rows out <= 50.
Proof.
  intros order b n city v Hd T Hl Ha Hty Hc Hct Hv.
  destruct (C89_sorted_by_average order 3 b n Hd T ltac:(lia) Hl Ha Hty) as (s & keep & E & Ts & P & HS & _).
  assert (EF : b_fields s = insert_after 3 avg_field (b_fields b)).
  { unfold aggregate_and_sort in E. destruct (forallb _ _); [|discriminate]. destruct (mapO _ _); [|discriminate].
    apply try_new_inv in E. now subst s. }
  assert (EB : firstn 1 (skipn 1 (b_fields s)) = [city] /\ 2 <= length (b_fields s)).
  { rewrite EF. destruct (b_fields b) as [|f0 [|f1 [|f2 fr]]]; cbn in *; try lia; injection Hc as ->; split; cbn; lia || reflexivity. }
  destruct EB as [EB Lb].
  destruct (C60_limit_partial 1 1 50 s n Ts ltac:(lia) ltac:(lia)) as (out & kp & E2 & TK & _ & Hk & Hb & _).
  { rewrite EB. intros f [<-|[]]. auto. }
  exists out. unfold compact_event. cbn [Nat.sub Nat.add]. rewrite E. split; [exact E2|].
  specialize (Hb (f_name city) v). unfold breakdowns in Hb. rewrite EB in Hb. specialize (Hb (or_introl eq_refl)).
  destruct TK as [To TS]. rewrite (table_rows _ _ To) in *. unfold times_in in Hb.
  replace (map (value_at out (f_name city)) (seq 0 (length kp))) with (repeat v (length kp)) in Hb.
  - rewrite count_occ_repeat_eq in Hb by reflexivity. exact Hb.
  - apply nth_error_ext_. intros p. destruct (nth_error kp p) as [i|] eqn:Ep.
    + assert (Hp : p < length kp) by (apply nth_error_Some; congruence).
      rewrite (nth_error_repeat_ v _ p Hp), (map_nth_error (value_at out (f_name city)) p _ (nth_error_seq_ _ p 0 Hp)). cbn [plus].
      f_equal. symmetry. eapply shows_value; [exact To|]. apply (TS p i Ep).
      assert (Hi : i < n) by (apply Hk; exact (nth_error_In _ _ Ep)).
      assert (Lk : length keep = n) by (rewrite (Permutation_length P); apply seq_length).
      destruct (nth_error keep i) as [q|] eqn:Eq; [|apply nth_error_None in Eq; lia].
      apply (proj1 (HS i q Eq)); [apply in_map; exact (nth_error_In _ _ Hc)|]. apply Hv.
      assert (In q (seq 0 n)) by (eapply Permutation_in; [exact P|exact (nth_error_In _ _ Eq)]). apply in_seq in H. lia.
    + apply nth_error_None in Ep. rewrite (proj2 (nth_error_None _ _)) by (now rewrite repeat_length).
      symmetry. apply nth_error_None. now rewrite map_length, seq_length.
Qed.
Print Assumptions C90_compact_long_period_refuted.
Definition compact_table (ty : Ty) (x y : Cell) : Batch := mkBatch
  [mkField "segment" TText false; mkField "created_at" TTime true; mkField "0_0_count" ty false]
  [[Some (CText "s"); Some (CText "s")]; [Some (CTime 1); Some (CTime 2)]; [Some x; Some y]].
Example C90_witness :
  compact_event by_size 1 (compact_table TInt (CInt 3) (CInt 4)) = None /\
  compact_event by_size 1 (compact_table TDec (CDec 3) (CDec 4)) =
    Some (mkBatch [mkField "segment" TText false; mkField "created_at" TTime true; mkField "Average" TDec false; mkField "0_0_count" TDec false]
      [[Some (CText "s"); Some (CText "s")]; [Some (CTime 2); Some (CTime 1)]; [Some (CDec 4); Some (CDec 3)]; [Some (CDec 4); Some (CDec 3)]]).
Proof. split; vm_compute; reflexivity. Qed.
Definition long_compact : Batch := mkBatch
  [mkField "segment" TText false; mkField "city" TText true; mkField "created_at" TTime true; mkField "0_0_agg" TDec false]
  [repeat (Some (CText "s")) 60; repeat (Some (CText "a")) 60; map (fun i => Some (CTime (Z.of_nat i))) (seq 0 60); repeat (Some (CDec 7)) 60].
Example C90_long_period_witness :
  match compact_event by_size 2 long_compact with Some out => num_rows out = 50 | None => False end /\ num_rows long_compact = 60.
Proof. split; vm_compute; reflexivity. Qed.
