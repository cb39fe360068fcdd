(** Scans of reachable tables: their inputs are sorted by key. *)
From Coq Require Import List NArith ZArith Lia Bool Permutation Sorted String.
From Verif Require Import Bytes BytesFacts Value ValueFacts Log LogFacts AMap Order
  Memtable ListFacts MemtableFacts ReplacingFacts MemtableProject Table TableSpec TableFacts TableHistory TableUse
  Merge MergeFacts Scan.
Import ListNotations.

(** ** Integer keys *)
Lemma cmp_int_key a b : Forall int_cell a -> Forall int_cell b ->
  cmp_key a b = zcmp (map raw_i64 a) (map raw_i64 b).
Proof.
  intros Ha. revert b. induction Ha as [|c a [z ->] Ha IH]; intros b Hb; [now destruct Hb|].
  destruct Hb as [|c' b [z' ->] Hb]; [reflexivity|].
  cbn [map raw_i64]. unfold cmp_key, zcmp. cbn [lex_cmp]. unfold cmp_cell. cbn [cell_code lex_cmp].
  change (Z.compare 0 0) with Eq. cbv iota beta.
  destruct (Z.compare z z'); try reflexivity. apply IH. exact Hb.
Qed.
Lemma sorted_int_rows ic rows : Forall (int_keys ic) rows ->
  sorted_by cmp_key (firstn ic) rows -> sorted_by zcmp (rkey ic) rows.
Proof.
  intros F. unfold sorted_by. rewrite Forall_forall in F. intros H.
  induction H as [|x l H IH Hf]; [constructor|]. constructor; [apply IH; intros; apply F; now right|].
  rewrite Forall_forall in *. intros y Hy. specialize (Hf y Hy). unfold cle in *.
  rewrite cmp_int_key in Hf; [exact Hf| |]; apply F; [now left|now right].
Qed.

(** ** Projection keeps the key columns *)
Lemma select_keys {A} ic (r : list A) cols off :
  (forall i, i < ic -> In (off + i) cols) -> firstn ic (select_from off r cols) = firstn ic r.
Proof.
  revert off ic. induction r as [|x r IH]; intros off ic H; [reflexivity|]. destruct ic as [|ic]; [reflexivity|].
  cbn [select_from]. replace (existsb (Nat.eqb off) cols) with true.
  - cbn [firstn]. f_equal. apply IH. intros i Hi. specialize (H (S i) ltac:(lia)).
    now replace (S off + i) with (off + S i) by lia.
  - symmetry. apply existsb_exists. exists off. split; [|apply Nat.eqb_refl].
    specialize (H 0 ltac:(lia)). now rewrite Nat.add_0_r in H.
Qed.
Lemma rkey_select ic cols r : (forall i, i < ic -> In i cols) -> rkey ic (select_from 0 r cols) = rkey ic r.
Proof. intros H. unfold rkey. f_equal. now apply select_keys. Qed.
Lemma sorted_select ic cols rows : (forall i, i < ic -> In i cols) ->
  sorted_by zcmp (rkey ic) rows -> sorted_by zcmp (rkey ic) (map (fun r => select_from 0 r cols) rows).
Proof.
  intros H Hs. unfold sorted_by in *. induction Hs as [|x l Hs IH Hf]; cbn; constructor; [exact IH|].
  rewrite Forall_map. eapply Forall_impl; [|exact Hf]. intros y. cbv beta. now rewrite !rkey_select.
Qed.
Lemma select_length {A} ic (r : list A) cols off : (forall i, i < ic -> In (off + i) cols) -> ic <= List.length r ->
  ic <= List.length (select_from off r cols).
Proof.
  intros H L. rewrite <- (firstn_length_le r L) at 1. rewrite <- (select_keys ic r cols off H). rewrite firstn_length. lia.
Qed.

(** ** Part files *)
Lemma field_pos_nth fs : NoDup (map f_name fs) -> forall i f, nth_error fs i = Some f -> field_pos fs (f_name f) = Some i.
Proof.
  induction fs as [|g fs IH]; intros ND i f H; [destruct i; discriminate|].
  cbn in ND. inversion ND as [|? ? N ND']; subst. cbn [field_pos].
  destruct i as [|i]; cbn in H.
  - injection H as ->. now rewrite String.eqb_refl.
  - destruct (String.eqb_spec (f_name g) (f_name f)) as [E|_].
    + exfalso. apply N. rewrite E. apply in_map. eapply nth_error_In; exact H.
    + now rewrite (IH ND' i f H).
Qed.
Lemma view_keys ic sch pf s1 r : NoDup (map f_name sch) -> sch = pf_fields pf ++ s1 ->
  ic <= List.length (pf_fields pf) -> List.length r = List.length (pf_fields pf) ->
  firstn ic (view_row sch pf r) = firstn ic r.
Proof.
  intros ND E Hic Hr. apply nth_error_ext_. intros i.
  destruct (Nat.lt_ge_cases i ic) as [Hi|Hi].
  2:{ transitivity (@None cell); [|symmetry]; apply nth_error_None; rewrite firstn_length; lia. }
  assert (G : forall l : Row, nth_error (firstn ic l) i = nth_error l i).
  { intros l. rewrite <- (firstn_skipn ic l) at 2. destruct (Nat.lt_ge_cases i (List.length (firstn ic l))) as [H|H].
    - now rewrite nth_error_app1.
    - assert (List.length l <= i) by (rewrite firstn_length in H; lia).
      rewrite firstn_skipn. transitivity (@None cell); [|symmetry]; apply nth_error_None; [exact H|assumption]. }
  rewrite !G. destruct (nth_error (pf_fields pf) i) as [f|] eqn:Ef; [|apply nth_error_None in Ef; lia].
  assert (Es : nth_error sch i = Some f) by (rewrite E, nth_error_app1; [exact Ef|lia]).
  unfold view_row. rewrite (map_nth_error _ _ _ Es).
  rewrite (field_pos_nth (pf_fields pf)) with (i := i); [|rewrite E, map_app in ND; now apply NoDup_app_left in ND|exact Ef].
  symmetry. apply nth_error_Some_nth. lia.
Qed.

Section WithSort.
Variable lexsort : list (list cell) -> list nat.
Hypothesis HS : lexsort_contract lexsort.

(** The memtable chunk of any columns that include the key. *)
Lemma inv_chunk_cols o t mvals p d cols :
  Inv o t mvals p d -> mvals <> [] -> (forall i, i < o_index_cols o -> In i cols) ->
  o_index_cols o <= List.length (md_schema (t_md t)) ->
  mt_chunk lexsort (t_mem t) (Some cols) (o_index_cols o) false
  = Ok (Some (sorted_rows lexsort (o_index_cols o)
      (map (fun v => select_from 0 (acked_row (md_schema (t_md t)) v) cols) mvals))).
Proof.
  intros I Hne Hc Hic. pose proof (i_ic _ _ _ _ _ I) as H0. set (ic := o_index_cols o) in *. set (sch := md_schema (t_md t)) in *.
  rewrite (i_mem _ _ _ _ _ I). fold sch.
  set (rows := map (row_of sch) mvals).
  assert (Hw : Forall (width (List.length (dts_of sch))) rows).
  { unfold rows. rewrite Forall_map. apply Forall_forall. intros v _. unfold width, row_of, dts_of. now rewrite !map_length. }
  pose proof (rows_cells_accepted sch mvals (i_names _ _ _ _ _ I) (i_acc _ _ _ _ _ I)) as Hrc.
  assert (Hrc' : mapM (row_cells (select_from 0 (dts_of sch) cols)) (map (fun r => select_from 0 r cols) rows)
                 = Some (map (fun v => select_from 0 (acked_row sch v) cols) mvals)).
  { unfold rows. rewrite map_map, mapM_map. apply mapM_Some_map. intros v Hv.
    apply row_cells_select. apply row_cells_accepted; [exact (i_names _ _ _ _ _ I)|].
    pose proof (i_acc _ _ _ _ _ I) as A. rewrite Forall_forall in A. auto. }
  assert (Hrne : map (fun r => select_from 0 r cols) rows <> []).
  { unfold rows. destruct mvals; [easy|discriminate]. }
  assert (Hsl : ic <= List.length (select_from 0 (dts_of sch) cols)).
  { apply select_length; [exact Hc|]. unfold dts_of. now rewrite map_length. }
  pose proof (mt_chunk_all lexsort HS _ _ _ ic Hrc' Hrne (conj H0 Hsl) false) as E. cbv iota in E.
  rewrite <- E. unfold mt_chunk. cbn [project]. rewrite select_from_cols_of by exact Hw.
  rewrite !mt_len_cols_of.
  - rewrite map_length. reflexivity.
  - intros X. rewrite X in Hsl. cbn in Hsl. lia.
  - intros X. unfold dts_of in X. apply map_eq_nil in X. rewrite X in Hic. cbn in Hic. lia.
Qed.

(** The inputs of a scan are sorted by key and are the acknowledged rows. *)
Lemma scan_cols_sorted o t mvals p d acks cols :
  Inv o t mvals p d -> Acks (o_index_cols o) t acks mvals -> o_replacing o = false ->
  (forall i, i < o_index_cols o -> In i cols) ->
  exists ss, scan_cols lexsort t cols = Ok ss
    /\ Permutation (List.concat ss) (map (fun v => select_from 0 (acked_row (md_schema (t_md t)) v) cols) acks)
    /\ Forall (sorted_by zcmp (rkey (o_index_cols o))) ss.
Proof.
  intros I (pvals & F2 & P & K) Hr Hc. set (sch := md_schema (t_md t)).
  pose proof (i_parts _ _ _ _ _ I) as PO.
  assert (EP : exists ps, seqR (map (fun lp => part_rows t (fst lp) (snd lp)) (all_parts (t_md t))) = Ok ps
                /\ Permutation (List.concat ps) (map (acked_row sch) (List.concat pvals))
                /\ Forall (sorted_by zcmp (rkey (o_index_cols o))) ps).
  { clear P. induction F2 as [|lp pv lps pvals H _ IH]; [exists []; split; [reflexivity|split; constructor]|].
    inversion PO as [|? ? PO1 PO2]; subst.
    destruct IH as (ps & E & Pm & Ps); [exact PO2|]. destruct H as (pf & G & A & Pp & Hic & Hk & Hs).
    destruct PO1 as (pf' & s1 & G' & Esch & Hw). rewrite G in G'. injection G' as <-.
    exists (map (view_row sch pf) (pf_rows pf) :: ps). cbn [map seqR]. unfold part_rows at 1. rewrite G.
    fold sch. rewrite E. split; [reflexivity|]. split.
    - cbn [List.concat]. rewrite map_app. apply Permutation_app; [|exact Pm].
      rewrite (Permutation_map (view_row sch pf) Pp). rewrite map_map.
      erewrite map_ext_in; [reflexivity|]. intros v Hv. cbv beta. apply view_acked.
      rewrite Forall_forall in A. auto.
    - constructor; [|exact Ps].
      pose proof (sorted_int_rows _ _ Hk Hs) as Sz. rewrite Forall_forall in Hw.
      assert (Vk : forall r, In r (pf_rows pf) -> rkey (o_index_cols o) (view_row sch pf r) = rkey (o_index_cols o) r).
      { intros r Hin. unfold rkey. f_equal. eapply view_keys; [exact (i_names _ _ _ _ _ I)|exact Esch|exact Hic|auto]. }
      clear - Sz Vk. unfold sorted_by in *. induction Sz as [|x l Hs IH Hf]; cbn; constructor.
      + apply IH. intros; apply Vk; now right.
      + rewrite Forall_map. rewrite Forall_forall in *. intros y Hy.
        rewrite !Vk by ((now left) || (now right)). auto. }
  destruct EP as (ps & Eps & Pps & Sps).
  assert (Pm : Permutation (List.concat (map (map (fun r => select_from 0 r cols)) ps))
            (map (fun v => select_from 0 (acked_row sch v) cols) (List.concat pvals))).
  { rewrite <- concat_map. rewrite (Permutation_map _ Pps). now rewrite map_map. }
  assert (Sm : Forall (sorted_by zcmp (rkey (o_index_cols o))) (map (map (fun r => select_from 0 r cols)) ps)).
  { rewrite Forall_map. eapply Forall_impl; [|exact Sps]. intros rows. now apply sorted_select. }
  unfold scan_cols. rewrite (i_opts _ _ _ _ _ I), Hr, Eps.
  destruct mvals as [|v0 mv] eqn:Emv.
  - unfold mt_chunk. rewrite (inv_mem_empty _ _ _ _ I). cbn [Nat.eqb]. rewrite app_nil_r.
    eexists. split; [reflexivity|]. split; [|exact Sm]. rewrite Pm. apply Permutation_map. rewrite app_nil_r in P. now symmetry.
  - rewrite <- Emv in *. assert (Hne : mvals <> []) by (rewrite Emv; discriminate).
    rewrite (inv_chunk_cols _ _ _ _ _ _ I Hne Hc (i_wide _ _ _ _ _ I Hne)). fold sch.
    set (mr := map (fun v => select_from 0 (acked_row sch v) cols) mvals).
    eexists. split; [reflexivity|]. split.
    + rewrite concat_app. cbn [List.concat]. rewrite app_nil_r.
      rewrite Pm. rewrite (sorted_rows_perm lexsort HS). unfold mr. rewrite <- map_app. apply Permutation_map. now symmetry.
    + apply Forall_app. split; [exact Sm|]. constructor; [|constructor]. apply sorted_int_rows.
      * rewrite (sorted_rows_perm lexsort HS). unfold mr. rewrite Forall_map. eapply Forall_impl; [|exact K].
        intros v Hv. unfold int_keys in *. rewrite select_keys by exact Hc. exact Hv.
      * apply (sorted_rows_sorted lexsort HS).
Qed.
End WithSort.
