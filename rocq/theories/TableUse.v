(** Consequences of the invariants for usable tables, append-only and replacing. *)
From Coq Require Import List NArith ZArith Lia Bool Permutation Sorted String.
From Verif Require Import Bytes BytesFacts Value ValueFacts Log LogFacts AMap Order
  Memtable ListFacts MemtableFacts ReplacingFacts MemtableProject Table TableSpec TableFacts TableHistory.
Import ListNotations.

Lemma NoDup_app_left {A} (a b : list A) : NoDup (a ++ b) -> NoDup a.
Proof.
  induction a as [|x a IH]; cbn; intros H; [constructor|]. inversion H as [|? ? N H']; subst.
  constructor; [|auto]. intros Hin. apply N. apply in_or_app. now left.
Qed.
Lemma cols_of_dts dts rows : map c_dt (cols_of dts rows) = dts.
Proof.
  unfold cols_of. rewrite map_map. rewrite map_ext with (g := snd) by (now intros [j d]).
  assert (G : forall (l : list DType) off, map snd (combine (seq off (List.length l)) l) = l).
  { induction l; intros; cbn; f_equal; auto. } apply G.
Qed.
Lemma nth_error_ext_ {A} (a b : list A) : (forall i, nth_error a i = nth_error b i) -> a = b.
Proof.
  revert b; induction a as [|x a IH]; intros [|y b] H; [reflexivity|specialize (H 0); discriminate|specialize (H 0); discriminate|].
  pose proof (H 0) as H0. injection H0 as ->. f_equal. apply IH. intros i. exact (H (S i)).
Qed.

Lemma acks_keep ic t t' acks mvals : t_md t' = t_md t ->
  (forall lp, In lp (all_parts (t_md t)) ->
     aget lp_dec (fst lp, p_id (snd lp)) (d_parts (t_disk t')) = aget lp_dec (fst lp, p_id (snd lp)) (d_parts (t_disk t))) ->
  Acks ic t acks mvals -> Acks ic t' acks mvals.
Proof.
  intros Emd Keep (pvals & F2 & P). exists pvals. rewrite Emd. split; [|exact P]. clear P.
  induction F2 as [|lp pv lps pvals H F2 IH2]; constructor.
  - eapply part_has_disk; [|exact H]. intros pf. rewrite Keep; [auto|]. now left.
  - apply IH2. intros lp' Hlp'. apply Keep. now right.
Qed.

(** *** New tables *)
Lemma table_with_inv o fs :
  0 < o_index_cols o -> 0 < o_levels o -> NoDup (map f_name fs) ->
  Inv o (table_with o fs) [] false false /\ md_schema (t_md (table_with o fs)) = fs
  /\ all_parts (t_md (table_with o fs)) = [].
Proof.
  intros Hic Hl. unfold table_with.
  induction fs as [|f fs IH] using rev_ind; intros ND.
  - split; [now apply create_table_inv|]. split; [reflexivity|].
    unfold all_parts. cbn [fold_left create_table t_md md_levels]. rewrite repeat_length. apply all_parts_empty.
  - rewrite map_app in ND. cbn [map] in ND.
    assert (ND1 : NoDup (map f_name fs)) by (eapply NoDup_app_left; exact ND).
    destruct (IH ND1) as (I & E & P). rewrite fold_left_app. cbn [fold_left].
    set (t := fold_left _ fs _) in *.
    destruct (add_field t f) as [t' res] eqn:Ea. cbn [fst].
    destruct (add_field_inv _ _ _ _ _ _ _ _ I Ea) as [(_ & _ & Hin)|(_ & I' & E' & _ & El & _)].
    + exfalso. rewrite E in Hin. eapply NoDup_app_disjoint; [exact ND|exact Hin|now left].
    + split; [exact I'|]. rewrite E', E. split; [reflexivity|]. unfold all_parts in *. now rewrite El.
Qed.

Lemma usable_int o fs : usable o fs ->
  Forall (fun x => int_dt x = true) (firstn (o_index_cols o) (dts_of fs)).
Proof.
  intros (_ & _ & _ & F & _). unfold dts_of. rewrite firstn_map, Forall_map.
  eapply Forall_impl; [|exact F]. intros f Hf. exact Hf.
Qed.
Lemma usable_app o fs r : usable o fs -> NoDup (map f_name (fs ++ r)) -> usable o (fs ++ r).
Proof.
  intros (ND & Hic & Hl & F & R) ND'. split; [exact ND'|].
  split; [rewrite app_length; lia|]. split; [exact Hl|].
  split; [rewrite firstn_prefix by lia; exact F|].
  intros Er. destruct (R Er) as [E2 F2]. split; [exact E2|]. rewrite E2 in Hic. rewrite firstn_prefix by lia. exact F2.
Qed.

Section WithSort.
Variable lexsort : list (list cell) -> list nat.
Hypothesis HS : lexsort_contract lexsort.

(** The chunk written by a flush, in either mode. *)
Lemma inv_chunk_any o t mvals p d :
  Inv o t mvals p d -> usable o (md_schema (t_md t)) -> mvals <> [] ->
  exists rows, mt_chunk lexsort (t_mem t) None (o_index_cols o) (o_replacing o) = Ok (Some rows)
    /\ rows <> [] /\ Forall (fun r => List.length r = List.length (md_schema (t_md t))) rows
    /\ incl rows (map (acked_row (md_schema (t_md t))) mvals)
    /\ (o_replacing o = false -> Permutation rows (map (acked_row (md_schema (t_md t))) mvals)).
Proof.
  intros I U Hne. pose proof U as (_ & Hic & _ & _ & R).
  destruct (o_replacing o) eqn:Er.
  - destruct (R eq_refl) as [E2 F2]. set (sch := md_schema (t_md t)) in *.
    rewrite E2 in *. destruct sch as [|f0 [|f1 sch']] eqn:Es; cbn in Hic; [lia|lia|].
    cbn in F2. inversion F2 as [|? ? H0 F2']; subst. inversion F2' as [|? ? H1 _]; subst.
    assert (B0 : is_i64 (f_dt f0) = true) by (destruct H0 as [-> | ->]; reflexivity).
    assert (B1 : is_i64 (f_dt f1) = true) by (destruct H1 as [-> | ->]; reflexivity).
    pose proof (sorted_rows_perm lexsort HS 2 (map (acked_row (f0 :: f1 :: sch')) mvals)) as P.
    set (srt := sorted_rows lexsort 2 (map (acked_row (f0 :: f1 :: sch')) mvals)) in *.
    assert (Sne : srt <> []).
    { intros E. rewrite E in P. apply Permutation_nil in P. apply map_eq_nil in P. contradiction. }
    exists (keep_last srt). split; [|split; [|split; [|split]]].
    + rewrite (i_mem _ _ _ _ _ I).
      pose proof (i_names _ _ _ _ _ I) as Nm. pose proof (i_acc _ _ _ _ _ I) as Ac. fold sch in Nm, Ac |- *. rewrite Es in *.
      rewrite (mt_chunk_all lexsort HS _ _ _ 2 (rows_cells_accepted _ _ Nm Ac)).
      * fold srt. rewrite (replace_rows_keep_last _ srt (f_dt f0) (f_dt f1) (dts_of sch')); auto.
      * intros E. apply map_eq_nil in E. contradiction.
      * cbn. lia.
    + destruct srt as [|r0 rs] eqn:E0; [contradiction|].
      destruct (keep_last_cover (r0 :: rs) r0 (or_introl eq_refl)) as (r' & Hr' & _). intros E. rewrite E in Hr'. contradiction.
    + apply Forall_forall. intros r Hr. apply keep_last_In in Hr.
      pose proof (acked_rows_width (f0 :: f1 :: sch') mvals) as W. rewrite <- P in W. rewrite Forall_forall in W. auto.
    + intros r Hr. apply keep_last_In in Hr. eapply Permutation_in; [exact P|exact Hr].
    + discriminate.
  - destruct (inv_chunk_props lexsort HS _ _ _ _ _ I Hne ltac:(lia)) as (rows & EC & P & Nn & W).
    exists rows. split; [exact EC|]. split; [exact Nn|]. split; [exact W|]. split.
    + intros r Hr. eapply Permutation_in; [exact P|exact Hr].
    + auto.
Qed.

(** A flush that reached disk completely. *)
Lemma flush_any o t mvals p d :
  Inv o t mvals p d -> usable o (md_schema (t_md t)) ->
  exists t', flush lexsort t = (t', Ok tt) /\ Inv o t' [] false false
    /\ md_schema (t_md t') = md_schema (t_md t)
    /\ (mvals = [] /\ t' = t \/
        exists rows pt A B, mt_chunk lexsort (t_mem t) None (o_index_cols o) (o_replacing o) = Ok (Some rows)
          /\ Forall (fun r => List.length r = List.length (md_schema (t_md t))) rows
          /\ all_parts (t_md t) = A ++ B /\ all_parts (t_md t') = A ++ [(0, pt)] ++ B
          /\ aget lp_dec (0, p_id pt) (d_parts (t_disk t)) = None
          /\ d_parts (t_disk t') = aset lp_dec (0, p_id pt) (mkPf (md_schema (t_md t)) rows) (d_parts (t_disk t))).
Proof.
  intros I U. unfold flush. rewrite (inv_mem_len _ _ _ _ _ I).
  destruct mvals as [|v0 mv] eqn:Emv.
  - exists t. split; [reflexivity|]. split; [|split; [reflexivity|now left]].
    destruct I. constructor; auto.
    destruct i_log as [E (ops0 & L0 & F0 & G0)]. split; [exact E|]. exists ops0. split; [exact L0|].
    split; [exact F0|]. inversion G0. constructor.
  - rewrite <- Emv in *. assert (Hne : mvals <> []) by (rewrite Emv; discriminate).
    destruct (Nat.eqb_spec (List.length mvals) 0) as [E0|_]; [rewrite Emv in E0; discriminate|].
    destruct (inv_chunk_any _ _ _ _ _ I U Hne) as (rows & EC & Nn & W & _ & _).
    pose proof U as (_ & Hic & _ & _ & _).
    destruct (flush_log_ok lexsort _ _ _ _ _ _ I ltac:(lia) (usable_int _ _ U) EC Nn W)
      as (t' & pt & A & B & Ef & I' & Es & EA & EA' & Fresh & Ed).
    exists t'. split; [exact Ef|]. split; [exact I'|]. split; [exact Es|]. right.
    exists rows, pt, A, B. auto 10.
Qed.

(** *** Flush and scans *)
Lemma seqR_app {A} (a b : list (result fault A)) :
  seqR (a ++ b) = match seqR a with
                  | Err e => Err e
                  | Ok xs => match seqR b with Ok ys => Ok (xs ++ ys) | Err e => Err e end
                  end.
Proof.
  induction a as [|[x|e] a IH]; cbn [seqR app].
  - now destruct (seqR b).
  - rewrite IH. destruct (seqR a); [|reflexivity]. now destruct (seqR b).
  - reflexivity.
Qed.

Lemma field_pos_nth fs i f : NoDup (map f_name fs) -> nth_error fs i = Some f -> field_pos fs (f_name f) = Some i.
Proof.
  revert i; induction fs as [|g fs IH]; intros i ND H; [destruct i; discriminate|].
  cbn [map] in ND. inversion ND as [|? ? N ND']; subst. destruct i as [|i]; cbn in H |- *.
  - injection H as ->. now rewrite String.eqb_refl.
  - destruct (String.eqb_spec (f_name g) (f_name f)) as [E|E].
    + exfalso. apply N. rewrite E. apply in_map. eapply nth_error_In; exact H.
    + now rewrite (IH i ND' H).
Qed.
Lemma view_row_self sch rows r : NoDup (map f_name sch) -> List.length r = List.length sch ->
  view_row sch (mkPf sch rows) r = r.
Proof.
  intros ND L. apply nth_error_ext_. intros i. unfold view_row. rewrite nth_error_map. cbn [pf_fields].
  destruct (nth_error sch i) as [f|] eqn:E.
  - cbn. rewrite (field_pos_nth _ _ _ ND E).
    assert (i < List.length r) by (rewrite L; apply nth_error_Some; congruence).
    symmetry. now apply nth_error_nth'.
  - cbn. symmetry. apply nth_error_None. rewrite L. now apply nth_error_None.
Qed.

Lemma flush_scan o t mvals p d ss :
  Inv o t mvals p d -> usable o (md_schema (t_md t)) -> scan_streams lexsort t = Ok ss ->
  exists t' ss', flush lexsort t = (t', Ok tt) /\ scan_streams lexsort t' = Ok ss'
    /\ Permutation (List.concat ss') (List.concat ss).
Proof.
  intros I U Hs. destruct (flush_any _ _ _ _ _ I U) as (t' & Ef & I' & Es & [(-> & ->)|D]).
  - exists t, ss. auto.
  - destruct D as (rows & pt & A & B & EC & W & EA & EA' & Fresh & Ed).
    exists t'. unfold scan_streams in Hs |- *.
    rewrite (i_opts _ _ _ _ _ I) in Hs. rewrite (i_opts _ _ _ _ _ I').
    rewrite chunk_full_projection in Hs by (symmetry; eapply inv_mem_length; exact I).
    rewrite EC in Hs. rewrite EA, map_app, seqR_app in Hs.
    destruct (seqR (map _ A)) as [xa|] eqn:EAs; [|discriminate].
    destruct (seqR (map _ B)) as [xb|] eqn:EBs; [|discriminate]. injection Hs as <-.
    unfold mt_chunk. rewrite (inv_mem_empty _ _ _ _ I'). cbn [Nat.eqb].
    assert (Old : forall l xs, seqR (map (fun lp => part_rows t (fst lp) (snd lp)) l) = Ok xs ->
                   seqR (map (fun lp => part_rows t' (fst lp) (snd lp)) l) = Ok xs).
    { induction l as [|lp l IH]; intros xs; [auto|]. cbn [map seqR].
      destruct (part_rows t (fst lp) (snd lp)) as [rs|] eqn:Er; [|discriminate].
      intros E. destruct (seqR (map (fun lp => part_rows t (fst lp) (snd lp)) l)) as [ys|] eqn:Ey; [|discriminate].
      injection E as <-. rewrite (IH _ eq_refl).
      assert (part_rows t' (fst lp) (snd lp) = Ok rs) as ->; [|reflexivity].
      unfold part_rows in *. rewrite Ed, Es. rewrite aget_aset_ne; [exact Er|].
      intros C. rewrite C, Fresh in Er. discriminate. }
    rewrite EA', !map_app, !seqR_app, (Old _ _ EAs). cbn [map seqR].
    assert (part_rows t' (fst (0, pt)) (snd (0, pt)) = Ok rows) as ->.
    { unfold part_rows. cbn [fst snd]. rewrite Ed, aget_aset_eq, Es. f_equal. cbn [pf_rows].
      transitivity (map (fun r : Row => r) rows); [|apply map_id]. apply map_ext_in. intros r Hr. apply view_row_self.
      - exact (i_names _ _ _ _ _ I).
      - rewrite Forall_forall in W. auto. }
    rewrite (Old _ _ EBs). eexists. split; [exact Ef|]. split; [reflexivity|].
    rewrite app_nil_r, !concat_app. cbn [List.concat]. rewrite !app_nil_r, <- app_assoc.
    apply Permutation_app_head, Permutation_app_comm.
Qed.

(** *** Histories in either mode keep the invariant *)
Lemma insert_any o t mvals p d vals :
  Inv o t mvals p d -> usable o (md_schema (t_md t)) ->
  keys_first (o_index_cols o) (md_schema (t_md t)) vals ->
  (forall pk, key_values (o_index_cols o) vals = Some pk ->
     loggable (Insert pk (final_values (md_schema (t_md t)) (o_index_cols o) vals))) ->
  exists t' res mvals', insert lexsort t vals = (t', res) /\ Inv o t' mvals' true d
    /\ md_schema (t_md t') = md_schema (t_md t)
    /\ (forall e, res = Err e -> t' = t).
Proof.
  intros I U KF HL.
  destruct (check_values (md_schema (t_md t)) vals) as [[]|e] eqn:CV.
  2:{ rewrite (insert_rejected lexsort _ _ _ CV). exists t, (Err e), mvals. split; [reflexivity|].
      split; [eapply inv_weaken; eauto; discriminate|]. auto. }
  destruct (key_values (o_index_cols o) vals) as [pk|] eqn:KV.
  2:{ rewrite <- (i_opts _ _ _ _ _ I) in KV. rewrite (insert_bad_key lexsort _ _ CV KV).
      exists t, (Err Panic), mvals. split; [reflexivity|].
      split; [eapply inv_weaken; eauto; discriminate|]. auto. }
  specialize (HL pk eq_refl).
  rewrite (insert_unfold lexsort _ _ _ _ _ _ _ I KF CV KV HL).
  destruct (insert_state_inv _ _ _ _ _ _ _ I KF CV KV HL) as [EP I1].
  set (t1 := insert_state _ _ _ _) in *.
  destruct (o_max_log o <? t_logged t1)%N.
  - destruct (flush_any _ _ _ _ _ I1 U) as (t' & Ef & I' & Es & _).
    unfold flush in Ef. rewrite (inv_mem_len _ _ _ _ _ I1) in Ef.
    rewrite app_length in Ef. cbn [List.length] in Ef. rewrite Nat.add_comm in Ef. cbn [Nat.add Nat.eqb] in Ef.
    exists t', (Ok tt), []. split; [exact Ef|]. split; [eapply inv_weaken; eauto; discriminate|].
    split; [now rewrite Es|]. discriminate.
  - exists t1, (Ok tt), (mvals ++ [vals]). split; [reflexivity|]. split; [exact I1|]. split; [reflexivity|discriminate].
Qed.

Lemma schema_after_names ops : forall fs, NoDup (map f_name fs) -> NoDup (map f_name (schema_after fs ops)).
Proof.
  induction ops as [|o ops IH]; intros fs ND; [exact ND|].
  destruct o as [vals| |f| |]; try (apply IH; exact ND).
  change (schema_after fs (OAddField f :: ops)) with (schema_after (add_new fs f) ops). apply IH.
  unfold add_new. destruct (existsb _ fs) eqn:X; [exact ND|].
  rewrite map_app. apply NoDup_app_comm_snoc; [exact ND|].
  intros Hin. apply in_map_iff in Hin as (g & Eg & Hg).
  assert (existsb (fun g => String.eqb (f_name g) (f_name f)) fs = true); [|congruence].
  apply existsb_exists. exists g. split; [exact Hg|]. now apply String.eqb_eq.
Qed.

Lemma run_inv o ops :
  forall t mvals p d,
  Inv o t mvals p d -> usable o (md_schema (t_md t)) ->
  Forall (wf_op (o_index_cols o) (schema_after (md_schema (t_md t)) ops)) ops ->
  restart_safe p d ops ->
  exists t' new mvals' p' d', run lexsort t ops = Some (t', new)
    /\ Inv o t' mvals' p' d' /\ md_schema (t_md t') = schema_after (md_schema (t_md t)) ops
    /\ usable o (md_schema (t_md t'))
    /\ (restart_safe p d (ops ++ [ORestart]) -> d' = false).
Proof.
  induction ops as [|op ops IH]; intros t mvals p d I U W RS.
  - exists t, [], mvals, p, d. cbn [app restart_safe]. split; [reflexivity|]. split; [exact I|].
    split; [reflexivity|]. split; [exact U|]. tauto.
  - inversion W as [|? ? W1 W2]; subst.
    assert (Hfin : exists r, schema_after (md_schema (t_md t)) (op :: ops) = md_schema (t_md t) ++ r) by apply schema_after_prefix.
    destruct Hfin as (rest & Efin). pose proof U as (ND & Hic & _).
    destruct op as [vals| |f| |]; cbn [run step].
    + cbn [wf_op] in W1. rewrite Efin in W1. destruct W1 as [K L].
      rewrite firstn_prefix in K by lia.
      destruct (insert_any _ _ _ _ _ _ I U K) as (t1 & res & mv1 & E1 & I1 & S1 & _).
      { intros pk KV. specialize (L (List.length (md_schema (t_md t))) pk KV).
        rewrite firstn_prefix, firstn_all in L by lia. exact L. }
      rewrite E1. cbn [restart_safe app] in RS |- *. 
      destruct (IH t1 mv1 true d I1) as (t' & new & mv' & p' & d' & R & I' & S' & U' & D').
      * now rewrite S1.
      * rewrite S1. exact W2.
      * exact RS.
      * rewrite R. rewrite S1 in S'. destruct res as [[]|e]; eexists t', _, mv', p', d';
          (split; [reflexivity|]); auto.
    + destruct (flush_any _ _ _ _ _ I U) as (t1 & E1 & I1 & S1 & _). rewrite E1. cbn [restart_safe app] in RS |- *.
      destruct (IH t1 [] false false I1) as (t' & new & mv' & p' & d' & R & I' & S' & U' & D').
      * now rewrite S1.
      * rewrite S1. exact W2.
      * exact RS.
      * rewrite R. rewrite S1 in S'. exists t', new, mv', p', d'. auto.
    + destruct (add_field t f) as [t1 res] eqn:E1. cbn [restart_safe app] in RS |- *.
      change (schema_after (md_schema (t_md t)) (OAddField f :: ops))
        with (schema_after (add_new (md_schema (t_md t)) f) ops) in *.
      destruct (add_field_inv _ _ _ _ _ _ _ _ I E1) as [(-> & -> & Hin)|(-> & I1 & S1 & Nin & El & Ep)].
      * assert (E2 : add_new (md_schema (t_md t)) f = md_schema (t_md t)).
        { unfold add_new. replace (existsb _ _) with true; [reflexivity|]. symmetry.
          apply existsb_exists. apply in_map_iff in Hin as (g & Eg & Hg). exists g. split; [exact Hg|]. now apply String.eqb_eq. }
        rewrite E2 in *.
        assert (I2 : Inv o t mvals p (p || d)) by (eapply inv_weaken; [exact I|auto|destruct p, d; cbn; auto]).
        destruct (IH t mvals p (p || d) I2 U W2 RS) as (t' & new & mv' & p' & d' & R & I' & S' & U' & D').
        rewrite R. exists t', new, mv', p', d'. auto.
      * assert (E2 : add_new (md_schema (t_md t)) f = md_schema (t_md t1)).
        { unfold add_new. rewrite S1. replace (existsb _ _) with false; [reflexivity|]. symmetry.
          apply not_true_is_false. intros X. apply existsb_exists in X as (g & Hg & Eg). apply Nin.
          apply String.eqb_eq in Eg. rewrite <- Eg. now apply in_map. }
        rewrite E2 in *.
        destruct (IH t1 mvals p (p || d) I1) as (t' & new & mv' & p' & d' & R & I' & S' & U' & D').
        -- rewrite S1. apply usable_app; [exact U|]. rewrite <- S1. exact (i_names _ _ _ _ _ I1).
        -- exact W2.
        -- exact RS.
        -- rewrite R. exists t', new, mv', p', d'. auto.
    + cbn [restart_safe app] in RS |- *. destruct (gc_inv _ _ _ _ _ I) as (I1 & Emd & _ & _).
      destruct (IH (gc t) mvals p d I1) as (t' & new & mv' & p' & d' & R & I' & S' & U' & D').
      * now rewrite Emd.
      * rewrite Emd. exact W2.
      * exact RS.
      * rewrite R. exists t', new, mv', p', d'. auto.
    + cbn [restart_safe app] in RS |- *. destruct RS as [-> RS].
      destruct (reopen_inv _ _ _ _ I) as (t1 & E1 & I1 & Emd & Edisk & Emem). rewrite E1.
      destruct (IH t1 mvals p false I1) as (t' & new & mv' & p' & d' & R & I' & S' & U' & D').
      * now rewrite Emd.
      * rewrite Emd. exact W2.
      * exact RS.
      * rewrite R. rewrite Emd in S'. exists t', new, mv', p', d'. tauto.
Qed.

(** *** Crash after the part file was created *)
Lemma scan_gc t : scan_streams lexsort (gc t) = scan_streams lexsort t.
Proof.
  unfold scan_streams. cbn [gc t_md t_mem]. destruct (mt_chunk _ _ _ _ _); [|reflexivity].
  assert (forall l, incl l (all_parts (t_md t)) ->
    seqR (map (fun lp => part_rows (gc t) (fst lp) (snd lp)) l) = seqR (map (fun lp => part_rows t (fst lp) (snd lp)) l)) as H.
  { induction l as [|lp l IH]; intros Hi; [reflexivity|]. cbn [map seqR]. rewrite IH by (intros x Hx; apply Hi; now right).
    assert (part_rows (gc t) (fst lp) (snd lp) = part_rows t (fst lp) (snd lp)) as ->; [|reflexivity].
    unfold part_rows, gc. cbn [t_disk t_md d_parts]. rewrite (aget_filter (referenced (t_md t))).
    now rewrite all_parts_referenced by (apply Hi; now left). }
  unfold gc in H. cbn [t_md t_mem] in H. now rewrite H by apply incl_refl.
Qed.

Lemma level0_part_inv o t mvals p d :
  Inv o t mvals p d -> usable o (md_schema (t_md t)) -> mvals <> [] ->
  exists pt pf, level0_part lexsort (t_md t) (t_mem t) = Ok (pt, pf)
    /\ aget lp_dec (0, p_id pt) (d_parts (t_disk t)) = None.
Proof.
  intros I U Hne. destruct (inv_chunk_any _ _ _ _ _ I U Hne) as (rows & EC & Nn & W & _).
  pose proof U as (_ & Hic & _).
  destruct (i_lv _ _ _ _ _ I) as (l0 & r & El & Hl).
  unfold level0_part. rewrite (i_opts _ _ _ _ _ I), EC.
  assert (Ed : map c_dt (t_mem t) = dts_of (md_schema (t_md t))).
  { rewrite (i_mem _ _ _ _ _ I). apply cols_of_dts. }
  rewrite Ed.
  destruct (chunk_min_max_some (dts_of (md_schema (t_md t))) rows (o_index_cols o) Nn) as (a & b & ->).
  - unfold dts_of. rewrite map_length. lia.
  - unfold dts_of. rewrite map_length. exact W.
  - now apply usable_int.
  - rewrite El. eexists _, _. split; [reflexivity|]. cbn [p_id].
    destruct (aget _ _ _) eqn:E; [|reflexivity]. apply Hl in E. lia.
Qed.

Lemma crash_orphan o t mvals p :
  Inv o t mvals p false -> usable o (md_schema (t_md t)) -> mvals <> [] ->
  exists t1, reopen (flush_crash lexsort t 1) = Ok t1
    /\ t_md t1 = t_md t /\ t_mem t1 = t_mem t
    /\ scan_streams lexsort t1 = scan_streams lexsort t
    /\ Inv o (gc t1) mvals p false
    /\ (forall lp, In lp (all_parts (t_md t)) ->
        aget lp_dec (fst lp, p_id (snd lp)) (d_parts (t_disk (gc t1)))
        = aget lp_dec (fst lp, p_id (snd lp)) (d_parts (t_disk t))).
Proof.
  intros I U Hne. destruct (level0_part_inv _ _ _ _ _ I U Hne) as (pt & pf & E0 & Fresh).
  assert (Ec : flush_crash lexsort t 1
    = mkDisk (d_md (t_disk t)) (d_logs (t_disk t)) (aset lp_dec (0, p_id pt) pf (d_parts (t_disk t)))).
  { unfold flush_crash. rewrite E0. cbn [firstn flush_effects apply_effects apply_effect]. rewrite Fresh. reflexivity. }
  destruct (reopen_inv _ _ _ _ I) as (t0 & R0 & I0 & Emd & Edisk & Emem).
  assert (R1 : reopen (flush_crash lexsort t 1)
     = Ok (mkTable (t_md t0) (t_mem t0) (t_logged t0) (t_log t0) (flush_crash lexsort t 1))).
  { rewrite Ec. unfold reopen in R0 |- *. cbn [d_md d_logs].
    destruct (d_md (t_disk t)); [|discriminate]. destruct (max_id _); [|discriminate].
    destruct (aget N.eq_dec _ _); [|discriminate]. destruct (recover_log _ _); [|discriminate].
    destruct (replay _ _); [|discriminate]. injection R0 as <-. reflexivity. }
  eexists. split; [exact R1|]. cbn [t_md t_mem]. split; [exact Emd|]. split; [exact Emem|].
  assert (Keep : forall lp, In lp (all_parts (t_md t)) ->
     aget lp_dec (fst lp, p_id (snd lp)) (d_parts (flush_crash lexsort t 1))
     = aget lp_dec (fst lp, p_id (snd lp)) (d_parts (t_disk t))).
  { intros lp Hlp. rewrite Ec. cbn [d_parts]. rewrite aget_aset_ne; [reflexivity|].
    pose proof (i_parts _ _ _ _ _ I) as F. rewrite Forall_forall in F. destruct (F _ Hlp) as (x & s & Hx & _).
    intros C. rewrite C in Hx. congruence. }
  split; [|split].
  - unfold scan_streams. cbn [t_mem t_md]. rewrite Emd, Emem.
    destruct (mt_chunk _ _ _ _ _); [|reflexivity].
    match goal with |- match seqR ?a with _ => _ end = match seqR ?b with _ => _ end => assert (a = b) as -> end; [|reflexivity].
    apply map_ext_in. intros lp Hlp. unfold part_rows. cbn [t_disk t_md]. now rewrite (Keep _ Hlp).
  - assert (Hrefs : forall k, referenced (t_md t) k = true -> fst k = 0 ->
              aget lp_dec k (d_parts (t_disk t)) <> None).
    { intros [l i] Hr E. cbn in E. subst l. unfold referenced in Hr. cbn [fst snd] in Hr.
      destruct (i_lv _ _ _ _ _ I) as (l0 & r & El & Hl). rewrite El in Hr. cbn [nth_error] in Hr.
      apply existsb_exists in Hr as (q & Hq & Eq). apply Nat.eqb_eq in Eq. subst i.
      pose proof (i_parts _ _ _ _ _ I) as F. rewrite Forall_forall in F.
      destruct (F (0, q)) as (x & s & Hx & _).
      { rewrite (all_parts_cons _ _ _ El). apply in_or_app. left. now apply in_map. }
      cbn [fst snd] in Hx. congruence. }
    destruct I0. rewrite Emd, Emem in *. constructor; cbn [gc t_md t_mem t_log t_disk d_md d_logs d_parts]; auto; rewrite ?Ec; cbn [d_md d_logs d_parts]; auto.
    + rewrite Edisk in i_md. exact i_md.
    + rewrite Edisk in i_log. destruct i_log as [E (ops & L & F & G)]. split; [exact E|]. exists ops. rewrite L. cbn [List.filter fst].
      rewrite N.ltb_irrefl. cbn. auto.
    + destruct (TableFacts.i_lv _ _ _ _ _ I) as (l0 & r & El & Hl). exists l0, r. split; [exact El|]. intros i pf'.
      rewrite (aget_filter (referenced (t_md t))). destruct (referenced (t_md t) (0, i)) eqn:Hr; [|discriminate].
      intros _. specialize (Hrefs _ Hr eq_refl). destruct (aget lp_dec (0, i) (d_parts (t_disk t))) eqn:E; [|congruence].
      eapply Hl; exact E.
    + rewrite Forall_forall in *. intros lp Hlp. apply part_ok_disk with (d := t_disk t0); [|now apply i_parts].
      intros pf'. rewrite Edisk. cbn [d_parts]. rewrite (aget_filter (referenced (t_md t))), (all_parts_referenced _ _ Hlp).
      specialize (Keep _ Hlp). rewrite Ec in Keep. cbn [d_parts] in Keep. now rewrite Keep.
  - intros lp Hlp. cbn [gc t_disk t_md d_parts]. rewrite (aget_filter (referenced (t_md t0))), Emd.
    rewrite (all_parts_referenced _ _ Hlp). now apply Keep.
Qed.
End WithSort.
