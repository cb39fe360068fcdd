(** Histories of operations and compaction passes. *)
From Coq Require Import List NArith ZArith Lia Bool Permutation String.
From Verif Require Import Bytes Value Log AMap Order Memtable MemtableFacts Table TableSpec TableFacts TableHistory TableUse Get
  Compact CompactSpec CompactFacts CompactRun CompactIds.
Import ListNotations.

(** The table operations of a history, in order, without the passes. *)
Definition base (h : HOp) : list Op := match h with HBase o => [o] | HPass during _ => during end.
Definition bases (hs : list HOp) : list Op := flat_map base hs.

Lemma wf_op_shorter ic s r op : ic <= List.length s -> wf_op ic (s ++ r) op -> wf_op ic s op.
Proof.
  intros Hic W. destruct op as [vals| |f| |]; [|exact W..]. cbn [wf_op] in *. destruct W as [K Lg].
  rewrite firstn_prefix in K by exact Hic. split; [exact K|]. intros n pk KV.
  specialize (Lg (Nat.min n (List.length s)) pk KV). rewrite firstn_prefix in Lg by lia.
  destruct (Nat.le_gt_cases n (List.length s)) as [H|H]; [rewrite Nat.min_l in Lg by lia; exact Lg|].
  rewrite Nat.min_r, firstn_all in Lg by lia. rewrite firstn_all2 by lia. exact Lg.
Qed.
Lemma schema_after_app s a b : schema_after s (a ++ b) = schema_after (schema_after s a) b.
Proof. unfold schema_after. apply fold_left_app. Qed.
Lemma restart_safe_prefix a b : forall p d, restart_safe p d (a ++ b) -> restart_safe p d a.
Proof.
  induction a as [|o a IH]; intros p d H; [exact Logic.I|]. destruct o; cbn [app restart_safe] in *; eauto.
  destruct H; eauto.
Qed.

Lemma loop_len psize merge co d ks : forall w w', compact_loop psize merge co d w ks = Ok w' ->
  List.length (w_levels w') = List.length (w_levels w).
Proof.
  induction ks as [|k ks IH]; intros w w' H; cbn [compact_loop] in H; [apply Ok_inj_ in H; now subst|].
  unfold compact_level in H.
  destruct (nth_error (w_levels w) k) as [l|] eqn:Ek; [|discriminate].
  destruct (nth_error (w_levels w) (S k)) as [ln|] eqn:En; [|discriminate].
  destruct (determine psize co k l ln) as [tc|] eqn:Ed; [|apply Ok_inj_ in H; now subst].
  assert (Em : forall w1, merge_parts merge d w k tc = Ok w1 -> List.length (w_levels w1) = List.length (w_levels w)).
  { intros w1 E. unfold merge_parts in E. destruct (mapM _ tc); [|discriminate]. rewrite En in E. destruct (merge k l0); [|discriminate].
    apply Ok_inj_ in E. subst w1. apply mapi_length. }
  assert (Ev : forall w1 id, move_part w k id = Ok w1 -> List.length (w_levels w1) = List.length (w_levels w)).
  { intros w1 id E. unfold move_part in E. rewrite Ek, En in E. destruct (find _ _); [|discriminate].
    apply Ok_inj_ in E. subst w1. apply mapi_length. }
  destruct tc as [|[k' id] [|q tc]].
  - destruct (merge_parts _ _ _ _ _) as [w1|]; [|discriminate]. rewrite (IH _ _ H). now apply Em.
  - destruct (move_part w k id) as [w1|] eqn:E; [|discriminate]. rewrite (IH _ _ H). eapply Ev; eauto.
  - destruct (merge_parts _ _ _ _ _) as [w1|]; [|discriminate]. rewrite (IH _ _ H). now apply Em.
Qed.
Lemma compact_len psize merge co ls d w : compact psize merge co ls d = Ok w -> List.length (w_levels w) = List.length ls.
Proof. unfold compact. destruct (Nat.ltb _ _); [discriminate|]. apply loop_len. Qed.
Lemma publish_len psize merge co ls d held t t' w : md_levels (t_md t) <> [] ->
  compact psize merge co ls d = Ok w -> List.length (md_levels (t_md t)) = List.length ls ->
  publish held t w = Ok t' -> List.length (md_levels (t_md t')) = List.length ls.
Proof.
  intros Ne HC El HP. pose proof (compact_len _ _ _ _ _ _ HC) as Ew. unfold publish in HP.
  destruct (fs_ops _ _ _); [|discriminate]. apply Ok_inj_ in HP. subst t'. cbn [t_md]. unfold md_compacted. cbn [md_levels].
  destruct (md_levels (t_md t)); [contradiction|]. destruct (w_levels w); [cbn in *; lia|]. cbn [List.length] in *. lia.
Qed.

Lemma some_inj {A} (a b : A) : Some a = Some b -> a = b.
Proof. congruence. Qed.
(** A plan for level 0 selects no part twice. *)
Lemma level0_plan psize co l ln tc : NoDup (map p_id (l_parts l)) -> NoDup (map p_id (l_parts ln)) ->
  determine psize co 0 l ln = Some tc -> NoDup tc.
Proof.
  intros N0 N1 H. unfold determine in H. destruct (selected psize co 0 (l_parts l)) as [|s sel] eqn:Es; [discriminate|]. rewrite <- Es in H.
  destruct (range_of _) as [mn mx]. apply some_inj in H. subst tc.
  assert (A : NoDup (map (pair 0) (selected psize co 0 (l_parts l)))).
  { apply FinFun.Injective_map_NoDup; [intros a b E; congruence|]. unfold selected. destruct (Nat.ltb _ _); [exact N0|constructor]. }
  assert (B : NoDup (map (fun p => (1, p_id p)) (List.filter (overlaps mn mx) (l_parts ln)))).
  { rewrite <- (map_map p_id (pair 1)). apply FinFun.Injective_map_NoDup; [intros a b E; congruence|].
    clear - N1. induction (l_parts ln) as [|q ps IH]; cbn; [constructor|]. inversion N1 as [|? ? H1 H2]; subst. destruct (overlaps mn mx q); cbn; [|auto].
    constructor; [|auto]. intros Hin. apply H1. apply in_map_iff in Hin as (z & E & Hz). apply filter_In in Hz as [Hz _]. rewrite <- E. now apply in_map. }
  revert A B. generalize (selected psize co 0 (l_parts l)) (List.filter (overlaps mn mx) (l_parts ln)). clear. intros a b A B.
  induction a as [|x a IH]; cbn [map app]; [exact B|]. cbn [map] in A. inversion A as [|? ? H1 H2]; subst. constructor; [|auto].
  rewrite in_app_iff. intros [G|G]; [auto|]. apply in_map_iff in G as (q & E & _). discriminate.
Qed.
Lemma short_plans psize merge co ls d w : NoDup (map lp_path (parts_at 0 ls)) -> List.length ls <= 3 ->
  compact psize merge co ls d = Ok w -> Forall (@NoDup _) (w_plans w).
Proof.
  intros ND Hl H. unfold compact in H. destruct (Nat.ltb_spec (List.length ls) 2) as [|G]; [discriminate|].
  assert (List.length ls - 2 = 0 \/ List.length ls - 2 = 1) as [E|E] by lia; rewrite E in H; cbn [seq compact_loop] in H.
  { apply Ok_inj_ in H. subst w. constructor. }
  unfold compact_level in H. cbn [w_levels] in H. destruct (nth_error ls 0) as [l|] eqn:E0; [|discriminate]. destruct (nth_error ls 1) as [ln|] eqn:E1; [|discriminate].
  destruct (determine psize co 0 l ln) as [tc|] eqn:Ed; [|apply Ok_inj_ in H; subst w; constructor].
  pose proof (level0_plan _ _ _ _ _ (level_ids_nd _ _ _ ND E0) (level_ids_nd _ _ _ ND E1) Ed) as NT.
  assert (M : forall w1, merge_parts merge d (mkCW ls [] [] [] []) 0 tc = Ok w1 -> Forall (@NoDup _) (w_plans w1)).
  { intros w1 Em. unfold merge_parts in Em. destruct (mapM _ tc); [|discriminate]. destruct (nth_error (w_levels _) 1); [|discriminate].
    destruct (merge 0 l0); [|discriminate]. apply Ok_inj_ in Em. subst w1. cbn [w_plans app]. constructor; [exact NT|constructor]. }
  destruct tc as [|[k' id] [|q tc]].
  - destruct (merge_parts _ _ _ _ _) as [w1|]; [|discriminate]. apply Ok_inj_ in H. subst w. now apply M.
  - unfold move_part in H. cbn [w_levels w_plans] in H. rewrite E0, E1 in H. destruct (find _ _); [|discriminate].
    apply Ok_inj_ in H. subst w. cbn [w_plans app]. repeat constructor. intros [].
  - destruct (merge_parts _ _ _ _ _) as [w1|]; [|discriminate]. apply Ok_inj_ in H. subst w. now apply M.
Qed.

Section Histories.
Variable psize : nat -> Part -> N.
Variable merge : nat -> list PartFile -> result fault (list MergeOut).
Variable co : COpts.
Variable lexsort : list (list cell) -> list nat.

Lemma run_h_ids hs : forall t t' acks ws, FInv t -> run_h psize merge co lexsort t hs = Some (t', acks, ws) -> FInv t'.
Proof.
  induction hs as [|h hs IH]; intros t t' acks ws I R; cbn [run_h] in R; [injection R as <- _ _; exact I|].
  destruct h as [o|during held].
  - destruct (run lexsort t [o]) as [[t1 a]|] eqn:R1; [|discriminate].
    destruct (run_h psize merge co lexsort t1 hs) as [[[t2 b] ws2]|] eqn:R2; [|discriminate]. assert (t2 = t') as -> by congruence.
    eapply IH; [|exact R2]. eapply run_ids; eauto.
  - destruct (run lexsort t during) as [[t1 a]|] eqn:R1; [|discriminate].
    destruct (compact _ _ _ _ _) as [w|] eqn:EC; [|discriminate]. destruct (publish held t1 w) as [t2|] eqn:EP; [|discriminate].
    destruct (run_h psize merge co lexsort t2 hs) as [[[t3 b] ws2]|] eqn:R2; [|discriminate]. assert (t3 = t') as -> by congruence.
    eapply IH; [|exact R2]. pose proof (run_ids _ _ _ _ _ I R1) as I1. pose proof (run_deep _ _ _ _ _ I R1) as D1.
    destruct I as (Em & Ne & B). eapply (publish_ids psize merge co held t); eauto.
    eapply bounded_sub; [exact B|]. intros p Hp. now cbn in Hp.
Qed.

Lemma used_run_h hs p : forall t t' acks ws, FInv t -> run_h psize merge co lexsort t hs = Some (t', acks, ws) ->
  used (md_levels (t_md t)) p -> used (md_levels (t_md t')) p.
Proof.
  induction hs as [|h hs IH]; intros t t' acks ws I R U; cbn [run_h] in R; [injection R as <- _ _; exact U|].
  destruct h as [o|during held].
  - destruct (run lexsort t [o]) as [[t1 a]|] eqn:R1; [|discriminate].
    destruct (run_h psize merge co lexsort t1 hs) as [[[t2 b] ws2]|] eqn:R2; [|discriminate]. assert (t2 = t') as -> by congruence.
    eapply IH; [|exact R2|]; [eapply run_ids; eauto|eapply used_run; eauto].
  - destruct (run lexsort t during) as [[t1 a]|] eqn:R1; [|discriminate].
    destruct (compact _ _ _ _ _) as [w|] eqn:EC; [|discriminate]. destruct (publish held t1 w) as [t2|] eqn:EP; [|discriminate].
    destruct (run_h psize merge co lexsort t2 hs) as [[[t3 b] ws2]|] eqn:R2; [|discriminate]. assert (t3 = t') as -> by congruence.
    pose proof (run_ids _ _ _ _ _ I R1) as I1. pose proof (run_deep _ _ _ _ _ I R1) as D1.
    pose proof (used_run _ _ _ _ _ _ I R1 U) as U1. pose proof I1 as (_ & Ne1 & _).
    destruct I as (Em & Ne & B). assert (B0 : bounded (md_levels (t_md t)) []) by (eapply bounded_sub; [exact B|]; intros q Hq; now cbn in Hq).
    eapply IH; [|exact R2|].
    + eapply (publish_ids psize merge co held t); eauto.
    + eapply (used_publish psize merge co held t); eauto.
Qed.

Hypothesis HS : lexsort_contract lexsort.

Lemma run_h_acks o hs : o_replacing o = false -> merge_contract (o_index_cols o) merge -> 0 < c_l0_max co ->
  forall t mvals p d acks t' new ws,
  Inv o t mvals p d -> Acks (o_index_cols o) t acks mvals -> LInv t ->
  o_index_cols o <= List.length (md_schema (t_md t)) ->
  Forall (fun x => int_dt x = true) (firstn (o_index_cols o) (dts_of (md_schema (t_md t)))) ->
  Forall (wf_op (o_index_cols o) (schema_after (md_schema (t_md t)) (bases hs))) (bases hs) ->
  restart_safe p d (bases hs) -> run_h psize merge co lexsort t hs = Some (t', new, ws) ->
  List.length (md_levels (t_md t)) <= 3 \/ Forall (fun w => Forall (@NoDup _) (w_plans w)) ws ->
  exists mv' p' d', Inv o t' mv' p' d' /\ Acks (o_index_cols o) t' (acks ++ new) mv' /\ LInv t'
    /\ md_schema (t_md t') = schema_after (md_schema (t_md t)) (bases hs)
    /\ (forall rest, restart_safe p d (bases hs ++ rest) -> restart_safe p' d' rest).
Proof.
  intros Hr HM H0. induction hs as [|h hs IH]; intros t mvals p d acks t' new ws I A L Hic F W RS R NP.
  - cbn in R. injection R as <- <- <-. exists mvals, p, d. rewrite app_nil_r. cbn [bases flat_map app schema_after fold_left]. auto 6.
  - unfold bases in *. cbn [flat_map] in *. fold (bases hs) in *.
    rewrite schema_after_app in W. apply Forall_app in W as [W1 W2].
    destruct (schema_after_prefix (base h) (md_schema (t_md t))) as (x & Ex).
    destruct (schema_after_prefix (bases hs) (schema_after (md_schema (t_md t)) (base h))) as (y & Ey).
    assert (Hic' : o_index_cols o <= List.length (schema_after (md_schema (t_md t)) (base h))) by (rewrite Ex, app_length; lia).
    assert (W0 : Forall (wf_op (o_index_cols o) (schema_after (md_schema (t_md t)) (base h))) (base h)).
    { eapply Forall_impl; [|exact W1]. intros op. rewrite Ey. now apply wf_op_shorter. }
    pose proof (restart_safe_prefix _ _ _ _ RS) as RS0.
    destruct (run_acks_rest lexsort HS o (base h) Hr t mvals p d acks I A Hic F W0 RS0) as (t1 & new1 & mv1 & p1 & d1 & R1 & I1 & A1 & S1 & D1).
    destruct (run_grows lexsort HS o (base h) Hr t mvals p d acks t1 new1 I A Hic F W0 RS0 R1 L) as [G1 L1].
    assert (F1 : Forall (fun x => int_dt x = true) (firstn (o_index_cols o) (dts_of (md_schema (t_md t1))))).
    { rewrite S1, Ex. unfold dts_of. rewrite map_app, firstn_prefix by (rewrite map_length; exact Hic). exact F. }
    assert (Glen : List.length (md_levels (t_md t1)) = List.length (md_levels (t_md t)) /\ md_levels (t_md t1) <> []).
    { destruct G1 as (a & a' & r & z & Ea & Ea' & _). rewrite Ea, Ea'. split; [reflexivity|discriminate]. }
    destruct Glen as [Glen Gne].
    assert (E : exists t2, Inv o t2 mv1 p1 d1 /\ Acks (o_index_cols o) t2 (acks ++ new1) mv1 /\ LInv t2
       /\ md_schema (t_md t2) = md_schema (t_md t1)
       /\ exists b ws2, run_h psize merge co lexsort t2 hs = Some (t', b, ws2) /\ new = new1 ++ b
            /\ (List.length (md_levels (t_md t2)) <= 3 \/ Forall (fun w => Forall (@NoDup _) (w_plans w)) ws2)).
    { destruct h as [op|during held]; cbn [run_h base] in *.
      - rewrite R1 in R. destruct (run_h psize merge co lexsort t1 hs) as [[[t2 b] ws2]|] eqn:R2; [|discriminate].
        injection R as -> <- <-. exists t1. split; [exact I1|]. split; [exact A1|]. split; [exact L1|]. split; [reflexivity|].
        exists b, ws2. rewrite Glen. auto.
      - rewrite R1 in R. destruct (compact psize merge co (md_levels (t_md t)) (t_disk t1)) as [w|] eqn:EC; [|discriminate].
        destruct (publish held t1 w) as [t2|] eqn:EP; [|discriminate].
        destruct (run_h psize merge co lexsort t2 hs) as [[[t3 b] ws2]|] eqn:R2; [|discriminate].
        injection R as -> <- <-.
        assert (NP1 : Forall (@NoDup _) (w_plans w)).
        { destruct NP as [NP|NP]; [|now inversion NP]. eapply short_plans; [|exact NP|exact EC]. rewrite <- all_parts_at. apply L. }
        assert (NP2 : List.length (md_levels (t_md t2)) <= 3 \/ Forall (fun w => Forall (@NoDup _) (w_plans w)) ws2).
        { destruct NP as [NP|NP]; [left|right; now inversion NP]. rewrite (publish_len _ _ _ _ _ _ _ _ _ Gne EC Glen EP). exact NP. }
        destruct (pass_ok psize merge co o t t1 mv1 p1 d1 (acks ++ new1) held w HM H0 I1 A1 L1 G1 EC NP1) as (t2' & EP' & I2 & A2 & L2 & S2).
        { intros l0 r q El Hq. exact (inv_l0_ids _ _ _ _ _ _ _ _ I El Hq). }
        assert (t2' = t2) as -> by congruence. exists t2. split; [exact I2|]. split; [exact A2|]. split; [exact L2|].
        split; [exact S2|]. exists b, ws2. auto. }
    destruct E as (t2 & I2 & A2 & L2 & S2 & b & ws2 & R2 & -> & NP2).
    destruct (IH t2 mv1 p1 d1 (acks ++ new1) t' b ws2 I2 A2 L2) as (mv' & p' & d' & I3 & A3 & L3 & S3 & D3); rewrite ?S2, ?S1; auto.
    { rewrite <- S1. exact F1. }
    exists mv', p', d'. rewrite app_assoc. split; [exact I3|]. split; [exact A3|]. split; [exact L3|].
    split; [rewrite S3, S2, S1, schema_after_app; reflexivity|].
    intros rest Hrest. apply D3. apply D1. now rewrite app_assoc.
Qed.
End Histories.

Lemma new_disk o fs : d_parts (t_disk (table_with o fs)) = [] /\ md_levels (t_md (table_with o fs)) = repeat (mkLevel 0 []) (o_levels o).
Proof.
  unfold table_with. generalize (create_table o) (eq_refl : d_parts (t_disk (create_table o)) = [])
      (eq_refl : md_levels (t_md (create_table o)) = repeat (mkLevel 0 []) (o_levels o)).
  induction fs as [|f fs IH]; intros t E1 E2; cbn [fold_left]; [auto|]. apply IH; unfold add_field; destruct (existsb _ _); cbn; assumption.
Qed.
Lemma new_levels o fs : md_levels (t_md (table_with o fs)) = repeat (mkLevel 0 []) (o_levels o).
Proof. apply new_disk. Qed.
Lemma new_linv o fs : 0 < o_index_cols o -> 0 < o_levels o -> NoDup (map f_name fs) -> LInv (table_with o fs) /\ FInv (table_with o fs).
Proof.
  intros Hi Hl ND. destruct (table_with_inv o fs Hi Hl ND) as (I0 & Es & Ep).
  assert (P : d_parts (t_disk (table_with o fs)) = [] /\ md_levels (t_md (table_with o fs)) = repeat (mkLevel 0 []) (o_levels o)).
  { clear. unfold table_with. generalize (create_table o) (eq_refl : d_parts (t_disk (create_table o)) = [])
      (eq_refl : md_levels (t_md (create_table o)) = repeat (mkLevel 0 []) (o_levels o)).
    induction fs as [|f fs IH]; intros t E1 E2; cbn [fold_left]; [auto|]. apply IH; unfold add_field; destruct (existsb _ _); cbn; assumption. }
  destruct P as [P1 P2]. split; [split|split; [|split]].
  - rewrite Ep. constructor.
  - intros k l i _ H. rewrite P1 in H. now cbn in H.
  - apply (i_md _ _ _ _ _ I0).
  - rewrite P2. destruct (o_levels o); [lia|discriminate].
  - rewrite P1, P2. intros k l i E [H|H]; [now cbn in H|]. apply nth_error_In, repeat_spec in E. subst l. destruct H.
Qed.
