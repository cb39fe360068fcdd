(** Projection of the memtable: [chunk (Some cols)] seen row by row. *)
From Coq Require Import List NArith ZArith Lia Bool Permutation Sorted.
From Verif Require Import Bytes Value Log Order Memtable ListFacts MemtableFacts.
Import ListNotations.

Lemma cols_of_cons d dts rows :
  cols_of (d :: dts) rows = mkColumn d (map (fun r => hd VNull r) rows) :: cols_of dts (map (@tl Value) rows).
Proof.
  unfold cols_of. cbn [length seq combine map]. f_equal.
  - f_equal. apply map_ext. intros r. now destruct r.
  - rewrite <- seq_shift. rewrite combine_map_l, map_map.
    apply map_ext. intros [j t]. f_equal. rewrite map_map. apply map_ext. intros r.
    destruct r; [now destruct j|reflexivity].
Qed.

Lemma select_from_cols_of i dts rows cs :
  Forall (width (length dts)) rows ->
  select_from i (cols_of dts rows) cs
  = cols_of (select_from i dts cs) (map (fun r => select_from i r cs) rows).
Proof.
  revert i rows; induction dts as [|d dts IH]; intros i rows Hw; [reflexivity|].
  rewrite cols_of_cons. cbn [select_from].
  assert (Ht : Forall (width (length dts)) (map (@tl Value) rows)).
  { rewrite Forall_map. eapply Forall_impl; [|exact Hw]. intros r Hr. unfold width in *. destruct r; cbn in *; lia. }
  rewrite (IH (S i) _ Ht), map_map.
  destruct (existsb (Nat.eqb i) cs) eqn:E.
  - rewrite cols_of_cons. f_equal.
    + f_equal. rewrite map_map. apply map_ext_in. intros r Hr.
      rewrite Forall_forall in Hw. specialize (Hw r Hr). destruct r as [|v r]; [discriminate|].
      cbn [select_from]. now rewrite E.
    + f_equal. rewrite map_map. apply map_ext_in. intros r Hr.
      rewrite Forall_forall in Hw. specialize (Hw r Hr). destruct r as [|v r]; [discriminate|].
      cbn [select_from tl]. now rewrite E.
  - f_equal. apply map_ext_in. intros r Hr.
    rewrite Forall_forall in Hw. specialize (Hw r Hr). destruct r as [|v r]; [discriminate|].
    cbn [select_from tl]. now rewrite E.
Qed.

(** For an ascending request, selecting by membership is selecting in request order. *)
Lemma select_from_none {A} (l : list A) i cs : (forall c, In c cs -> c < i) -> select_from i l cs = [].
Proof.
  revert i; induction l as [|x l IH]; intros i H; [reflexivity|]. cbn [select_from].
  destruct (existsb (Nat.eqb i) cs) eqn:E.
  - apply existsb_exists in E as (c & Hc & Ec). apply Nat.eqb_eq in Ec. subst. specialize (H _ Hc). lia.
  - apply IH. intros c Hc. specialize (H _ Hc). lia.
Qed.

Lemma select_from_drop {A} (l : list A) i c cs : c < i -> select_from i l (c :: cs) = select_from i l cs.
Proof.
  revert i; induction l as [|x l IH]; intros i H; [reflexivity|]. cbn [select_from existsb].
  destruct (Nat.eqb_spec i c); [lia|]. cbn [orb]. rewrite IH by lia. reflexivity.
Qed.

Lemma select_ascending {A} (l : list A) d : forall i cs,
  StronglySorted lt cs -> (forall c, In c cs -> i <= c < i + length l) ->
  select_from i l cs = map (fun c => nth (c - i) l d) cs.
Proof.
  induction l as [|x l IH]; intros i cs SS H.
  - destruct cs as [|c cs]; [reflexivity|]. specialize (H c (or_introl eq_refl)). cbn in H. lia.
  - cbn [select_from]. destruct cs as [|c cs].
    + cbn. now rewrite select_from_none.
    + inversion SS as [|? ? S' F]; subst. rewrite Forall_forall in F.
      destruct (Nat.eq_dec c i) as [->|Hne].
      * cbn [existsb]. rewrite Nat.eqb_refl. cbn [orb map]. rewrite Nat.sub_diag. cbn [nth]. f_equal.
        rewrite select_from_drop by lia. rewrite (IH (S i) cs S').
        -- apply map_ext_in. intros k Hk. specialize (F k Hk).
           replace (k - i) with (S (k - S i)) by lia. reflexivity.
        -- intros k Hk. specialize (F k Hk). specialize (H k (or_intror Hk)). cbn in H. lia.
      * assert (Hi : i < c) by (specialize (H c (or_introl eq_refl)); lia).
        assert (E : existsb (Nat.eqb i) (c :: cs) = false).
        { apply not_true_is_false. intros E. apply existsb_exists in E as (k & Hk & Ek).
          apply Nat.eqb_eq in Ek. subst k. destruct Hk as [<-|Hk]; [lia|]. specialize (F i Hk). lia. }
        rewrite E. rewrite (IH (S i) (c :: cs) SS).
        -- apply map_ext_in. intros k Hk.
           assert (i < k) by (destruct Hk as [<-|Hk]; [lia|specialize (F k Hk); lia]).
           replace (k - i) with (S (k - S i)) by lia. reflexivity.
        -- intros k Hk.
           assert (i < k) by (destruct Hk as [<-|Hk]; [lia|specialize (F k Hk); lia]).
           specialize (H k Hk). cbn in H. lia.
Qed.

Lemma row_cells_list_select dts rows crows cs :
  mapM (row_cells dts) rows = Some crows ->
  mapM (row_cells (select_from 0 dts cs)) (map (fun r => select_from 0 r cs) rows)
  = Some (map (fun r => select_from 0 r cs) crows).
Proof.
  revert crows; induction rows as [|r rows IH]; cbn; intros crows H.
  - injection H as <-. reflexivity.
  - destruct (row_cells dts r) eqn:E; [|discriminate]. destruct (mapM _ rows) eqn:E2; [|discriminate].
    injection H as <-. cbn. rewrite (row_cells_select 0 _ _ _ cs E). now rewrite (IH _ eq_refl).
Qed.

Lemma row_cells_widths dts rows crows :
  mapM (row_cells dts) rows = Some crows ->
  Forall (width (length dts)) rows /\ Forall (fun r => length r = length dts) crows.
Proof.
  revert crows; induction rows as [|r rows IH]; cbn; intros crows H.
  - injection H as <-. split; constructor.
  - destruct (row_cells dts r) eqn:E; [|discriminate]. destruct (mapM _ rows) eqn:E2; [|discriminate].
    injection H as <-. destruct (IH _ eq_refl). apply row_cells_length in E as [E3 E4].
    split; constructor; auto.
Qed.

(** Sorting a projected table that keeps the index columns in front equals projecting
    the sorted table. *)
Lemma sorted_rows_map lexsort ic crows (f : Row -> Row) :
  (forall r, In r crows -> firstn ic (f r) = firstn ic r) -> lexsort_contract lexsort ->
  sorted_rows lexsort ic (map f crows) = map f (sorted_rows lexsort ic crows).
Proof.
  intros Hf HS. unfold sorted_rows. rewrite map_map.
  assert (E : map (fun x => firstn ic (f x)) crows = map (firstn ic) crows).
  { apply map_ext_in. exact Hf. }
  rewrite map_map, E.
  apply map_ext_in. intros i Hi.
  destruct (HS (map (firstn ic) crows)) as [P _].
  eapply Permutation_in in Hi; [|exact P]. apply in_seq in Hi. rewrite map_length in Hi.
  rewrite (nth_indep _ [] (f [])) by (rewrite map_length; lia). apply map_nth.
Qed.

Lemma mt_chunk_some lexsort dts rows crows ic cs :
  lexsort_contract lexsort ->
  mapM (row_cells dts) rows = Some crows -> rows <> [] -> 0 < ic ->
  StronglySorted lt cs -> (forall c, In c cs -> c < length dts) -> firstn ic cs = seq 0 ic ->
  mt_chunk lexsort (cols_of dts rows) (Some cs) ic false
  = Ok (Some (map (fun r => map (fun j => nth j r None) cs) (sorted_rows lexsort ic crows))).
Proof.
  intros HS H Hne Hic S Hcs Hpre.
  destruct (row_cells_widths _ _ _ H) as [Hw Hcw].
  assert (Hsel : forall r : Row, length r = length dts -> select_from 0 r cs = map (fun j => nth j r None) cs).
  { intros r Hr. rewrite (select_ascending r None 0 cs S).
    - apply map_ext. intros c. now rewrite Nat.sub_0_r.
    - intros c Hc. specialize (Hcs c Hc). lia. }
  assert (Hlcs : ic <= length cs).
  { assert (length (firstn ic cs) = ic) by (rewrite Hpre; apply seq_length).
    rewrite firstn_length in H0. lia. }
  assert (Hd0 : ic <= length dts).
  { destruct (le_lt_dec ic (length dts)); [auto|].
    assert (In (pred ic) cs).
    { rewrite <- (firstn_skipn ic cs), Hpre. apply in_or_app. left. apply in_seq. lia. }
    specialize (Hcs _ H0). lia. }
  assert (E : mt_chunk lexsort (cols_of dts rows) (Some cs) ic false
            = mt_chunk lexsort (cols_of (select_from 0 dts cs) (map (fun r => select_from 0 r cs) rows)) None ic false).
  { unfold mt_chunk. cbn [project]. rewrite select_from_cols_of by exact Hw.
    assert (Ls : length (select_from 0 dts cs) = length cs).
    { rewrite (select_ascending dts DInt8 0 cs S).
      - apply map_length.
      - intros c Hc. specialize (Hcs c Hc). lia. }
    rewrite !mt_len_cols_of.
    - now rewrite map_length.
    - destruct (select_from 0 dts cs); [cbn in Ls; lia|discriminate].
    - destruct dts; [cbn in Hd0; lia|discriminate]. }
  rewrite E. rewrite (mt_chunk_all lexsort HS _ _ _ _ (row_cells_list_select _ _ _ cs H)).
  - f_equal. f_equal. rewrite sorted_rows_map; [| |exact HS].
    + apply map_ext_in. intros r Hr. apply Hsel. rewrite Forall_forall in Hcw. apply Hcw.
      eapply Permutation_in; [apply (sorted_rows_perm lexsort HS)|exact Hr].
    + intros r Hr. rewrite Forall_forall in Hcw. rewrite Hsel by auto.
      rewrite firstn_map, Hpre. rewrite <- (Hcw r Hr) in Hd0. clear - Hd0.
      transitivity (firstn ic (map (fun j => nth j r None) (seq 0 (length r)))).
      * rewrite firstn_map, firstn_seq by exact Hd0. reflexivity.
      * now rewrite map_nth_seq.
  - intros E0. apply map_eq_nil in E0. contradiction.
  - rewrite (select_ascending dts DInt8 0 cs S); [rewrite map_length; lia|].
    intros c Hc. specialize (Hcs c Hc). lia.
Qed.
