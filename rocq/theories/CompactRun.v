(** Histories with compaction: invariants of tables across passes. *)
From Coq Require Import List NArith ZArith Lia Bool Permutation Sorted String.
From Verif Require Import Bytes BytesFacts Value ValueFacts Log LogFacts AMap Order
  Memtable ListFacts MemtableFacts MemtableProject Table TableSpec TableFacts TableHistory TableUse Get
  Compact CompactSpec CompactFacts.
Import ListNotations.

(** *** File operations and the files they leave *)
Lemma fs_ops_untouched held ops p : (forall o, In o ops -> ~ touches o p) ->
  forall m m', fs_ops held m ops = Some m' -> aget lp_dec p m' = aget lp_dec p m.
Proof.
  induction ops as [|o ops IH]; intros HT m m' H; cbn [fs_ops] in H; [injection H as <-; reflexivity|].
  destruct (fs_op held m o) as [m1|] eqn:E; [|discriminate].
  rewrite (IH ltac:(intros; apply HT; now right) _ _ H). pose proof (HT o (or_introl eq_refl)) as Ho.
  destruct o as [a b|a]; cbn [fs_op touches] in *.
  - destruct (aget lp_dec a m); [|discriminate]. injection E as <-. rewrite aget_aset_ne by tauto. apply aget_adel_ne. tauto.
  - destruct (held a); injection E as <-; [reflexivity|]. now apply aget_adel_ne.
Qed.
Lemma fs_ops_keys held ops p : forall m m', fs_ops held m ops = Some m' -> aget lp_dec p m' <> None ->
  aget lp_dec p m <> None \/ exists o, In o ops /\ touches o p.
Proof.
  induction ops as [|o ops IH]; intros m m' H Hp; cbn [fs_ops] in H; [injection H as <-; now left|].
  destruct (fs_op held m o) as [m1|] eqn:E; [|discriminate].
  destruct (IH _ _ H Hp) as [G|(o' & Ho & Ht)]; [|right; exists o'; split; [now right|exact Ht]].
  assert (D : touches o p \/ ~ touches o p).
  { destruct o as [a b|a]; cbn; destruct (lp_dec p a); [now left; left|destruct (lp_dec p b); [now left; right|right; tauto]|now left|now right]. }
  destruct D as [D|D]; [right; exists o; split; [now left|exact D]|]. left.
  assert (aget lp_dec p m1 = aget lp_dec p m) as <-; [|exact G].
  apply (fs_ops_untouched held [o]); [intros x [<-|[]]; exact D|]. cbn [fs_ops]. now rewrite E.
Qed.
Lemma fs_ops_shrink held ops p : (forall o, In o ops -> touches o p -> o = Delete p) ->
  forall m m', fs_ops held m ops = Some m' -> aget lp_dec p m' <> None -> aget lp_dec p m' = aget lp_dec p m.
Proof.
  induction ops as [|o ops IH]; intros HT m m' H Hp; cbn [fs_ops] in H; [injection H as <-; reflexivity|].
  destruct (fs_op held m o) as [m1|] eqn:E; [|discriminate].
  assert (HT' : forall o, In o ops -> touches o p -> o = Delete p) by (intros; apply HT; [now right|assumption]).
  pose proof (IH HT' _ _ H Hp) as E1. rewrite E1 in *.
  pose proof (HT o (or_introl eq_refl)) as Ho. destruct o as [a b|a]; cbn [fs_op touches] in *.
  - destruct (aget lp_dec a m); [|discriminate]. injection E as <-.
    destruct (lp_dec p b) as [->|Nb]; [specialize (Ho ltac:(auto)); discriminate|].
    destruct (lp_dec p a) as [->|Na]; [specialize (Ho ltac:(auto)); discriminate|].
    rewrite aget_aset_ne by exact Nb. now apply aget_adel_ne.
  - destruct (held a); injection E as <-; [reflexivity|].
    destruct (lp_dec p a) as [->|Na]; [rewrite aget_adel_eq in Hp; contradiction|]. now apply aget_adel_ne.
Qed.

Lemma pair_fst {A B} (a c : A) (b d : B) : (a, b) = (c, d) -> a = c.
Proof. congruence. Qed.

(** *** What the other operations do to the levels *)
Definition grows (t t' : Table) : Prop :=
  exists l0 l0' r extra, md_levels (t_md t) = l0 :: r /\ md_levels (t_md t') = l0' :: r
    /\ l_parts l0' = l_parts l0 ++ extra /\ l_next l0 <= l_next l0'
    /\ NoDup (map p_id extra) /\ Forall (fun p => l_next l0 <= p_id p < l_next l0') extra
    /\ forall k i, aget lp_dec (S k, i) (d_parts (t_disk t')) <> None ->
         aget lp_dec (S k, i) (d_parts (t_disk t')) = aget lp_dec (S k, i) (d_parts (t_disk t)).

Lemma grows_same t t' : md_levels (t_md t) <> [] -> md_levels (t_md t') = md_levels (t_md t) ->
  (forall k i, aget lp_dec (S k, i) (d_parts (t_disk t')) <> None ->
         aget lp_dec (S k, i) (d_parts (t_disk t')) = aget lp_dec (S k, i) (d_parts (t_disk t))) -> grows t t'.
Proof.
  intros Hne E H. destruct (md_levels (t_md t)) as [|l0 r] eqn:El; [contradiction|]. exists l0, l0, r, [].
  rewrite app_nil_r. repeat split; auto. constructor.
Qed.
Lemma grows_trans a b c : grows a b -> grows b c -> grows a c.
Proof.
  intros (l0 & l1 & r & x & A1 & A2 & A3 & A4 & A5 & A6 & A7) (l1' & l2 & r' & y & B1 & B2 & B3 & B4 & B5 & B6 & B7).
  assert (l1' = l1 /\ r' = r) as [-> ->] by (split; congruence).
  exists l0, l2, r, (x ++ y). split; [exact A1|]. split; [exact B2|]. split; [rewrite B3, A3; now rewrite <- app_assoc|].
  split; [lia|]. split; [|split].
  - rewrite map_app. clear - A5 A6 B5 B6. induction x as [|p x IH]; cbn; [exact B5|].
    cbn in A5. inversion A5 as [|? ? N A5']; subst. apply Forall_cons_iff in A6 as [H A6]. constructor; [|auto].
    rewrite in_app_iff. intros [Hi|Hi]; [auto|]. apply in_map_iff in Hi as (q & E & Hq). rewrite Forall_forall in B6. specialize (B6 q Hq). lia.
  - apply Forall_app. split; [eapply Forall_impl; [|exact A6]; intros q Hq; cbv beta in *; lia|eapply Forall_impl; [|exact B6]; intros q Hq; cbv beta in *; lia].
  - intros k i H. rewrite B7 by exact H. apply A7. rewrite <- B7 by exact H. exact H.
Qed.

Section WithSort.
Variable lexsort : list (list cell) -> list nat.

Lemma flush_log_grows t t' res l0 r : md_levels (t_md t) = l0 :: r -> flush_log lexsort t = (t', res) -> grows t t'.
Proof.
  intros El H. unfold flush_log in H.
  destruct (level0_part lexsort (t_md t) (t_mem t)) as [[pt pf]|e] eqn:E0.
  2:{ injection H as <- _. apply grows_same; cbn [t_md t_disk]; [congruence|reflexivity|reflexivity]. }
  assert (Eid : p_id pt = l_next l0).
  { unfold level0_part in E0. destruct (mt_chunk _ _ _ _ _) as [[rows|]|]; try discriminate.
    destruct (chunk_min_max _ _ _) as [[a b]|]; [|discriminate]. rewrite El in E0. injection E0 as <- _. reflexivity. }
  unfold flush_effects in H. cbn [apply_effects apply_effect] in H.
  destruct (aget lp_dec (0, p_id pt) (d_parts (t_disk t))) eqn:Ea.
  { injection H as <- _. apply grows_same; cbn [t_md t_disk]; [congruence|reflexivity|reflexivity]. }
  cbn [d_logs d_md d_parts] in H.
  assert (G : forall d', d_parts d' = aset lp_dec (0, p_id pt) pf (d_parts (t_disk t)) -> forall mem lg lid,
     grows t (mkTable (md_flushed (t_md t) pt) mem lg lid d')).
  { intros d' Ed mem lg lid. exists l0, (mkLevel (S (l_next l0)) (l_parts l0 ++ [pt])), r, [pt].
    cbn [t_md t_disk]. split; [exact El|]. split; [unfold md_flushed; cbn [md_levels]; now rewrite El|].
    cbn [l_parts l_next map]. split; [reflexivity|]. split; [lia|]. split; [repeat constructor; intros []|].
    split; [constructor; [lia|constructor]|].
    intros k i _. rewrite Ed. now rewrite aget_aset_ne by discriminate. }
  destruct (aget N.eq_dec _ (d_logs (t_disk t))); cbn [apply_effects apply_effect d_logs d_md d_parts] in H.
  - destruct (aget N.eq_dec _ (adel _ _ _)); cbn [apply_effects] in H; injection H as <- _; now apply G.
  - injection H as <- _. now apply G.
Qed.

Lemma step_grows o t mvals p d op t' res :
  Inv o t mvals p d -> step lexsort t op = (Some t', res) -> grows t t'.
Proof.
  intros I H. destruct (i_lv _ _ _ _ _ I) as (l0 & r & El & _).
  assert (Hne : md_levels (t_md t) <> []) by (rewrite El; discriminate).
  destruct op as [vals| |f| |]; cbn [step] in H.
  - destruct (insert lexsort t vals) as [t1 r1] eqn:E. injection H as -> _. unfold insert in E.
    destruct (check_values _ _); [|apply pair_fst in E; subst t'; now apply grows_same].
    destruct (key_values _ _); [|apply pair_fst in E; subst t'; now apply grows_same].
    destruct (push_values (t_mem t) 0 _) as [m1 ok1]. destruct (if ok1 then _ else _) as [m2 ok2].
    assert (G : forall m lg lid bytes, grows t (mkTable (t_md t) m lg lid (append_log (t_disk t) (t_log t) bytes))).
    { intros m lg lid bytes. apply grows_same; cbn [t_md t_disk]; [exact Hne|reflexivity|].
      intros k i _. unfold append_log. now destruct (aget N.eq_dec _ _). }
    destruct ok2; [|apply pair_fst in E; subst t'; apply G].
    destruct (_ && _)%bool; [|apply pair_fst in E; subst t'; apply G].
    eapply grows_trans; [|eapply flush_log_grows; [|exact E]; cbn [t_md]; exact El]. apply G.
  - destruct (flush lexsort t) as [t1 r1] eqn:E. injection H as -> _. unfold flush in E.
    destruct (Nat.eqb _ 0); [apply pair_fst in E; subst t'; now apply grows_same|]. eapply flush_log_grows; eauto.
  - destruct (add_field t f) as [t1 r1] eqn:E. injection H as -> _. unfold add_field in E.
    destruct (existsb _ _); apply pair_fst in E; subst t'; now apply grows_same.
  - injection H as <- _. apply grows_same; [exact Hne|reflexivity|]. intros k i. cbn [gc t_disk d_parts].
    rewrite (aget_filter (referenced (t_md t))). now destruct (referenced _ _).
  - destruct (reopen (t_disk t)) as [t1|] eqn:E; [|discriminate]. injection H as -> _. unfold reopen in E.
    rewrite (i_md _ _ _ _ _ I) in E. destruct (max_id _); [|discriminate]. destruct (aget N.eq_dec _ _); [|discriminate].
    destruct (recover_log _ _); [|discriminate]. destruct (replay _ _); [|discriminate]. injection E as <-. now apply grows_same.
Qed.

(** *** Invariant of the levels *)
Definition LInv (t : Table) : Prop :=
  NoDup (map lp_path (all_parts (t_md t))) /\
  forall k l i, nth_error (md_levels (t_md t)) (S k) = Some l ->
    aget lp_dec (S k, i) (d_parts (t_disk t)) <> None -> i <= l_next l.

Lemma inv_l0_ids o t mvals p d l0 r q : Inv o t mvals p d -> md_levels (t_md t) = l0 :: r -> In q (l_parts l0) -> p_id q < l_next l0.
Proof.
  intros I El Hq. destruct (i_lv _ _ _ _ _ I) as (l0' & r' & El' & H). assert (l0' = l0) as -> by congruence.
  pose proof (i_parts _ _ _ _ _ I) as P. rewrite Forall_forall in P.
  destruct (P (0, q)) as (pf & s1 & E & _).
  { rewrite all_parts_at. apply parts_0_In. exists l0. rewrite El. auto. }
  exact (H _ _ E).
Qed.
Lemma grows_linv o t mvals p d t' : Inv o t mvals p d -> LInv t -> grows t t' -> LInv t'.
Proof.
  intros I [ND B] (l0 & l0' & r & x & E1 & E2 & E3 & E4 & E5 & E6 & E7). split.
  - rewrite all_parts_at, E2, parts_at_cons. rewrite all_parts_at, E1, parts_at_cons in ND. rewrite E3, map_app, !map_app.
    rewrite map_app in ND.
    assert (Hx : NoDup (map lp_path (map (pair 0) x))).
    { rewrite map_map. unfold lp_path. cbn. rewrite <- (map_map p_id (pair 0)). apply FinFun.Injective_map_NoDup; [intros a b E; congruence|exact E5]. }
    assert (Dis : forall z, In z (map lp_path (map (pair 0) (l_parts l0)) ++ map lp_path (parts_at 1 r)) -> ~ In z (map lp_path (map (pair 0) x))).
    { intros z Hz Hx'. apply in_map_iff in Hx' as ([k q] & <- & Hq). apply in_map_iff in Hq as (q' & E & Hq). injection E as <- <-.
      rewrite Forall_forall in E6. specialize (E6 q' Hq). apply in_app_or in Hz as [Hz|Hz].
      - apply in_map_iff in Hz as ([k2 q2] & E & Hz). apply in_map_iff in Hz as (q3 & E' & Hz). injection E' as <- <-.
        unfold lp_path in E. cbn in E. injection E as E. pose proof (inv_l0_ids _ _ _ _ _ _ _ _ I E1 Hz). lia.
      - apply in_map_iff in Hz as ([k2 q2] & E & Hz). apply parts_at_In in Hz as [H1 _]. unfold lp_path in E. cbn in E. injection E as E _. lia. }
    revert ND Hx Dis. generalize (map lp_path (map (pair 0) (l_parts l0))) (map lp_path (map (pair 0) x)) (map lp_path (parts_at 1 r)).
    clear. intros a b c ND Nb Dis. rewrite <- app_assoc.
    eapply Permutation_NoDup with (l := b ++ a ++ c); [rewrite !app_assoc; apply Permutation_app_tail, Permutation_app_comm|].
    clear - ND Nb Dis. induction b as [|z b IH]; cbn; [exact ND|]. inversion Nb as [|? ? Nz Nb']; subst. constructor.
    + rewrite in_app_iff. intros [H|H]; [auto|]. apply (Dis z H). now left.
    + apply IH; [exact Nb'|]. intros y Hy Hb. apply (Dis y Hy). now right.
  - intros k l i El Hi. rewrite E2 in El. cbn [nth_error] in El. pose proof (E7 k i Hi) as E. rewrite E in Hi.
    apply (B k l i); [rewrite E1; exact El|exact Hi].
Qed.

Hypothesis HS : lexsort_contract lexsort.

Lemma run_grows o ops : o_replacing o = false ->
  forall t mvals p d acks t' new,
  Inv o t mvals p d -> Acks (o_index_cols o) t acks mvals ->
  o_index_cols o <= List.length (md_schema (t_md t)) ->
  Forall (fun x => int_dt x = true) (firstn (o_index_cols o) (dts_of (md_schema (t_md t)))) ->
  Forall (wf_op (o_index_cols o) (schema_after (md_schema (t_md t)) ops)) ops ->
  restart_safe p d ops -> run lexsort t ops = Some (t', new) -> LInv t -> grows t t' /\ LInv t'.
Proof.
  intros Hr. induction ops as [|op ops IH]; intros t mvals p d acks t' new I A Hic F W RS R L.
  - cbn in R. injection R as <- _. split; [|exact L]. destruct (i_lv _ _ _ _ _ I) as (l0 & r & El & _). apply grows_same; [congruence|reflexivity|reflexivity].
  - inversion W as [|? ? W1 W2]; subst.
    assert (W0 : Forall (wf_op (o_index_cols o) (schema_after (md_schema (t_md t)) [op])) [op]).
    { constructor; [|constructor]. destruct op as [vals| |f| |]; try exact Logic.I. cbn [wf_op schema_after fold_left] in *.
      destruct (schema_after_prefix ops (md_schema (t_md t))) as (rest & Er).
      change (fold_left _ ops _) with (schema_after (md_schema (t_md t)) ops) in W1. rewrite Er in W1. destruct W1 as [K Lg].
      rewrite firstn_prefix in K by exact Hic. split; [exact K|]. intros n pk KV.
      specialize (Lg (Nat.min n (List.length (md_schema (t_md t)))) pk KV). rewrite firstn_prefix in Lg by lia.
      destruct (Nat.le_gt_cases n (List.length (md_schema (t_md t)))) as [H|H]; [rewrite Nat.min_l in Lg by lia; exact Lg|].
      rewrite Nat.min_r, firstn_all in Lg by lia. rewrite firstn_all2 by lia. exact Lg. }
    assert (RS0 : restart_safe p d [op]).
    { destruct op; cbn in *; auto. destruct RS; auto. }
    destruct (run_acks_rest lexsort HS o [op] Hr t mvals p d acks I A Hic F W0 RS0)
      as (t1 & new1 & mv1 & p1 & d1 & R1 & I1 & A1 & S1 & D1).
    assert (ES : schema_after (md_schema (t_md t)) (op :: ops) = schema_after (md_schema (t_md t1)) ops).
    { rewrite S1. reflexivity. }
    cbn [run] in R, R1. destruct (step lexsort t op) as [[t1'|] res] eqn:Es; [|discriminate].
    assert (t1' = t1) as -> by congruence.
    pose proof (step_grows _ _ _ _ _ _ _ _ I Es) as G1.
    pose proof (grows_linv _ _ _ _ _ _ I L G1) as L1.
    destruct (run lexsort t1 ops) as [[t2 new2]|] eqn:R2; [|discriminate]. assert (t2 = t') as -> by congruence.
    destruct (IH t1 mv1 p1 d1 _ t' new2 I1 A1) as [G2 L2].
    + destruct (schema_after_prefix [op] (md_schema (t_md t))) as (x & Ex). rewrite S1, Ex, app_length. lia.
    + destruct (schema_after_prefix [op] (md_schema (t_md t))) as (x & Ex). rewrite S1, Ex. unfold dts_of.
      rewrite map_app, firstn_prefix by (rewrite map_length; exact Hic). exact F.
    + rewrite <- ES. exact W2.
    + exact (D1 ops RS).
    + exact R2.
    + exact L1.
    + split; [|exact L2]. eapply grows_trans; eassumption.
Qed.
End WithSort.

(** *** One pass *)
Lemma acks_good o t mvals p d pv : Inv o t mvals p d ->
  Forall2 (part_has (o_index_cols o) (t_disk t)) (all_parts (t_md t)) pv -> 
  Forall2 (good (md_schema (t_md t)) (o_index_cols o) (d_parts (t_disk t))) (all_parts (t_md t)) pv.
Proof.
  intros I F. pose proof (i_parts _ _ _ _ _ I) as P. revert P.
  induction F as [|lp x lps pv H F IH]; intros P; constructor.
  - apply Forall_cons_iff in P as [(pf & s1 & A & B & C) _]. destruct H as (pf' & A' & H). assert (pf' = pf) as -> by congruence.
    exists pf, s1. unfold lp_path. tauto.
  - apply IH. now inversion P.
Qed.

Lemma good_has sch ic m d lp pv : d_parts d = m -> good sch ic m lp pv -> part_has ic d lp pv /\ part_ok sch d lp.
Proof.
  intros E (pf & s1 & A & B & C & D & F). rewrite <- E in A. split; [exists pf; unfold lp_path in A; tauto|exists pf, s1; auto].
Qed.

Section Pass.
Variable psize : nat -> Part -> N.
Variable merge : nat -> list PartFile -> result fault (list MergeOut).
Variable co : COpts.

Theorem pass_ok o t0 t1 mvals p d acks held w :
  merge_contract (o_index_cols o) merge -> 0 < c_l0_max co ->
  Inv o t1 mvals p d -> Acks (o_index_cols o) t1 acks mvals -> LInv t1 -> grows t0 t1 -> 
  compact psize merge co (md_levels (t_md t0)) (t_disk t1) = Ok w -> Forall (@NoDup _) (w_plans w) ->
  (forall l0 r q, md_levels (t_md t0) = l0 :: r -> In q (l_parts l0) -> p_id q < l_next l0) ->
  exists t2, publish held t1 w = Ok t2 /\ Inv o t2 mvals p d /\ Acks (o_index_cols o) t2 acks mvals /\ LInv t2
    /\ md_schema (t_md t2) = md_schema (t_md t1).
Proof.
  intros HM H0 I A [ND B] (l0 & l0' & r & x & E1 & E2 & E3 & E4 & E5 & E6 & E7) HC NP Hids.
  set (sch := md_schema (t_md t1)). set (ic := o_index_cols o) in *. set (D := d_parts (t_disk t1)).
  destruct A as (pvals & F2 & PA & K).
  pose proof (acks_good _ _ _ _ _ _ I F2) as FG. fold sch ic D in FG.
  assert (Pall : Permutation (all_parts (t_md t1)) (parts_at 0 (l0 :: r) ++ map (pair 0) x)).
  { rewrite all_parts_at, E2, !parts_at_cons, E3, map_app, <- !app_assoc. apply Permutation_app_head, Permutation_app_comm. }
  destruct (Permutation_Forall2_ _ _ _ Pall _ FG) as (pv2 & Ppv & FG2).
  apply Forall2_app_inv_l in FG2 as (pv0 & pe & G0 & Ge & ->).
  assert (NDall : NoDup (map lp_path (parts_at 0 (l0 :: r) ++ map (pair 0) x))) by (eapply Permutation_NoDup; [apply Permutation_map; exact Pall|exact ND]).
  assert (C0 : CInv sch ic held D (l0 :: r) (List.concat pv0) (mkCW (l0 :: r) [] [] [] [])).
  { constructor; cbn [w_levels w_ops w_l0 w_new w_plans app].
    - reflexivity.
    - rewrite map_app in NDall. eapply NoDup_app_left. exact NDall.
    - intros k l q El Hq. assert (Hin : In (S k, q) (parts_at 0 (l0 :: r))) by (apply parts_0_In; eauto).
      apply (B k l (p_id q)); [rewrite E2; exact El|].
      assert (exists v, good sch ic D (S k, q) v) as (v & pf & s1 & Eg & _).
      { clear - G0 Hin. induction G0 as [|a b l m H G IH]; [contradiction|]. destruct Hin as [->|Hin]; eauto. }
      unfold lp_path in Eg. cbn in Eg. unfold D in Eg. congruence.
    - intros k l i El [Hi|(o' & [] & _)]. apply (B k l i); [rewrite E2; exact El|exact Hi].
    - exists D, pv0. split; [reflexivity|]. split; [exact G0|]. split; [reflexivity|]. auto.
    - exists l0, r, l0, r. split; [reflexivity|]. split; [reflexivity|]. split; [reflexivity|]. split; [|intros z []].
      cbn. clear. induction (l_parts l0) as [|z zs IH]; cbn; [reflexivity|]. now f_equal.
    - split; [reflexivity|]. intros o' i []. }
  unfold compact in HC. rewrite E1 in HC. destruct (Nat.ltb_spec (List.length (l0 :: r)) 2) as [|_]; [discriminate|].
  pose proof (loop_inv sch ic held D (l0 :: r) _ psize merge co HM (i_names _ _ _ _ _ I) (t_disk t1) _ eq_refl H0 _ _ C0 HC NP) as CI.
  destruct CI as [Clen Cnd Cids Cbound Cm Cl0 Clv0].
  destruct Cm as (m & pvw & Efs & FW & PW & Raw).
  destruct Cl0 as (l00 & r0 & wl0 & wr & Ea & Ew & En & Ep & Hi). injection Ea as <- <-.
  destruct Clv0 as [New0 Touch0].
  unfold publish. fold D. rewrite Efs. eexists. split; [reflexivity|].
  set (md' := md_compacted (t_md t1) w).
  assert (Elev : md_levels md' = mkLevel (l_next l0') (l_parts wl0 ++ x) :: wr).
  { unfold md', md_compacted. cbn [md_levels]. rewrite E2, Ew. do 2 f_equal. rewrite E3, filter_app, <- Ep. f_equal.
    clear - E6 Hi Hids E1. assert (G : forall q, In q x -> negb (existsb (Nat.eqb (p_id q)) (w_l0 w)) = true).
    { intros q Hq. apply Bool.negb_true_iff, Bool.not_true_is_false. intros H. apply existsb_exists in H as (i & Hin & E).
      apply Nat.eqb_eq in E. subst i. apply Hi in Hin. apply in_map_iff in Hin as (q' & E & Hq').
      rewrite Forall_forall in E6. specialize (E6 q Hq). pose proof (Hids _ _ _ E1 Hq'). lia. }
    induction x as [|q x IH]; cbn; [reflexivity|]. rewrite (G q) by now left. f_equal. apply IH; [now inversion E6|]. intros; apply G; now right. }
  assert (Pall' : Permutation (all_parts md') (parts_at 0 (w_levels w) ++ map (pair 0) x)).
  { rewrite all_parts_at, Elev, Ew, !parts_at_cons. cbn [l_parts]. rewrite map_app, <- !app_assoc. apply Permutation_app_head, Permutation_app_comm. }
  assert (Keep0 : forall i, ~ In i (w_l0 w) -> aget lp_dec (0, i) m = aget lp_dec (0, i) D).
  { intros i Hn. rewrite (fs_ops_untouched held (w_ops w) (0, i) ltac:(intros o' Ho Ht; destruct (Touch0 o' i Ho Ht); contradiction) _ _ Efs).
    now rewrite aget_app_, New0. }
  assert (Ge' : Forall2 (good sch ic m) (map (pair 0) x) pe).
  { assert (Gx : forall q, In q x -> ~ In (p_id q) (w_l0 w)).
    { intros q Hq Hin. apply Hi in Hin. apply in_map_iff in Hin as (q' & E & Hq').
      rewrite Forall_forall in E6. specialize (E6 q Hq). pose proof (Hids _ _ _ E1 Hq'). lia. }
    clear - Ge Gx Keep0. revert pe Ge. induction x as [|q x IH]; cbn [map]; intros pe G; [inversion G; constructor|]. destruct pe as [|v pe]; [now inversion G|].
    apply F2cons in G as [Ga Gb]. constructor.
    - eapply good_ext; [|exact Ga]. unfold lp_path. cbn. apply Keep0, Gx. now left.
    - apply IH; [|exact Gb]. intros; apply Gx; now right. }
  symmetry in Pall'.
  destruct (Permutation_Forall2_ _ _ _ Pall' (pvw ++ pe) (Forall2_app FW Ge')) as (pf & Ppf & FF).
  split; [|split; [|split]].
  - destruct I. constructor; cbn [t_md t_mem t_log t_disk d_md d_logs d_parts]; fold md'; auto.
    + exists (mkLevel (l_next l0') (l_parts wl0 ++ x)), wr. split; [exact Elev|]. cbn [l_next].
      intros i pf0 Hi0. destruct i_lv as (a & b & Eab & Hab). rewrite E2 in Eab. injection Eab as <- <-.
      assert (Hs : aget lp_dec (0, i) m = aget lp_dec (0, i) (w_new w ++ D)).
      { apply (fs_ops_shrink held (w_ops w)); [|exact Efs|congruence]. intros o' Ho Ht. now destruct (Touch0 o' i Ho Ht). }
      rewrite aget_app_, New0 in Hs. apply (Hab i pf0). fold D. congruence.
    + apply Forall_forall. intros lp Hlp.
      assert (exists v, good sch ic m lp v) as (v & Hg).
      { clear - FF Hlp. induction FF as [|a b l m0 H G IH]; [contradiction|]. destruct Hlp as [->|Hlp]; eauto. }
      change (md_schema md') with sch. eapply good_has; [|exact Hg]. reflexivity.
  - exists pf. cbn [t_md t_disk]. fold md'. split; [|split; [|exact K]].
    + eapply Forall2_impl_; [|exact FF]. intros lp v Hg. eapply good_has; [|exact Hg]. reflexivity.
    + rewrite PA. apply Permutation_app_tail. rewrite <- (Permutation_concat _ _ Ppf), (Permutation_concat _ _ Ppv), !concat_app.
      apply Permutation_app_tail. now symmetry.
  - split; cbn [t_md t_disk d_parts]; fold md'.
    + eapply Permutation_NoDup; [apply Permutation_map; exact Pall'|]. rewrite map_app.
      assert (Nx : NoDup (map lp_path (map (pair 0) x))).
      { rewrite map_app in NDall. revert NDall. generalize (map lp_path (parts_at 0 (l0 :: r))). clear. intros a. induction a as [|z a IH]; cbn; [auto|]. intros H. inversion H; auto. }
      assert (Dis : forall z, In z (map lp_path (parts_at 0 (w_levels w))) -> ~ In z (map lp_path (map (pair 0) x))).
      { intros z Hz Hx. apply in_map_iff in Hx as ([k q] & <- & Hq). apply in_map_iff in Hq as (q' & E & Hq). injection E as <- <-.
        apply in_map_iff in Hz as ([k2 q2] & E & Hz). unfold lp_path in E. cbn in E. injection E as -> E.
        apply parts_0_In in Hz as (lz & Ez & Hz). rewrite Ew in Ez. cbn in Ez. injection Ez as <-. rewrite Ep in Hz. apply filter_In in Hz as [Hz _].
        rewrite Forall_forall in E6. specialize (E6 q' Hq). pose proof (Hids _ _ _ E1 Hz). lia. }
      revert Cnd Nx Dis. generalize (map lp_path (parts_at 0 (w_levels w))) (map lp_path (map (pair 0) x)). clear.
      intros a b Na Nb Dis. induction a as [|z a IH]; cbn; [exact Nb|]. inversion Na as [|? ? Nz Na']; subst. constructor.
      * rewrite in_app_iff. intros [H|H]; [auto|]. apply (Dis z); [now left|exact H].
      * apply IH; [exact Na'|]. intros y Hy. apply Dis. now right.
    + intros k l i El Hm. rewrite Elev in El. cbn [nth_error] in El.
      apply (Cbound k l i); [rewrite Ew; exact El|]. apply (fs_ops_keys held (w_ops w) (S k, i) _ _ Efs Hm).
  - reflexivity.
Qed.
End Pass.
