(** Durability of concurrent inserts when the log is not changed under another thread's
    feet: the log file holds the unflushed rows in the order of their records. *)
From Coq Require Import List NArith ZArith Lia Bool Permutation Sorted String.
From Verif Require Import Bytes BytesFacts Value ValueFacts Log LogFacts AMap Order
  Memtable ListFacts MemtableFacts MemtableProject Table TableSpec TableFacts TableHistory TableUse Conc ConcFacts.
Import ListNotations.

Section WithSort.
Variable lexsort : list (list cell) -> list nat.

(** No record is appended while a flushing thread has yet to replace the handle, and no
    flush happens while another thread stands between its record and its push. *)
Definition undisturbed (s : CState) (a : Act) : Prop :=
  match a with
  | AppendLog _ => held s = None
  | Push i | BeginFlush i =>
    forall s', act lexsort s a = Some s' -> md_log_id (t_md (sh s')) <> md_log_id (t_md (sh s)) ->
    forall j vals pk fv, j <> i -> pcs s j <> Logged vals pk fv
  | _ => True
  end.
Fixpoint undisturbed_run (s : CState) (l : list Act) : Prop :=
  match l with
  | [] => True
  | a :: r => undisturbed s a /\ match act lexsort s a with Some s' => undisturbed_run s' r | None => True end
  end.

Lemma flush_files_logs t t' x : flush_files lexsort t = (t', Ok tt) ->
  d_logs (t_disk t) = [(md_log_id (t_md t), x)] ->
  md_log_id (t_md t') = (md_log_id (t_md t) + 1)%N /\ d_logs (t_disk t') = [(md_log_id (t_md t'), [])].
Proof.
  unfold flush_files, flush_log. intros E L.
  destruct (level0_part lexsort (t_md t) (t_mem t)) as [[p pf]|]; [|discriminate].
  unfold flush_effects in E. cbn [apply_effects apply_effect] in E.
  destruct (aget lp_dec (0, p_id p) (d_parts (t_disk t))); [discriminate|].
  cbn [apply_effects apply_effect d_md d_logs d_parts md_flushed md_log_id] in E.
  replace (md_log_id (t_md t) + 1 - 1)%N with (md_log_id (t_md t)) in E by lia.
  rewrite L in E. cbn [aget] in E. destruct (N.eq_dec (md_log_id (t_md t)) (md_log_id (t_md t))) as [_|C]; [|congruence].
  cbn [adel filter fst] in E.
  cbn [d_logs] in E.
  unfold adel in E. cbn in E.
  destruct (N.eq_dec (md_log_id (t_md t)) (md_log_id (t_md t))) as [_|C]; [|congruence]. cbn in E.
  injection E as <-. cbn. split; reflexivity.
Qed.

Hypothesis HS : lexsort_contract lexsort.
Variable o : Options.
Variable fs : list Field.
Hypothesis HU : usable o fs.
Hypothesis Happ : o_replacing o = false.
Notation ic := (o_index_cols o).

Definition logged_rows (s : CState) (lvals : list (list NamedValue)) : Table :=
  mkTable (t_md (sh s)) (cols_of (dts_of fs) (map (row_of fs) lvals)) 0 (md_log_id (t_md (sh s))) (t_disk (sh s)).

Record CQ (s : CState) (mvals lvals : list (list NamedValue)) (pend : list (nat * list NamedValue)) : Prop := {
  q_inv : Inv o (logged_rows s lvals) lvals true false;
  q_perm : Permutation lvals (mvals ++ map snd pend);
  q_nodup : NoDup (map fst pend);
  q_pend : forall i vals, In (i, vals) pend <-> exists pk fv, pcs s i = Logged vals pk fv;
  q_log : held s = None -> t_log (sh s) = md_log_id (t_md (sh s));
  q_keys : Forall (fun v => int_keys ic (acked_row fs v)) lvals
}.

(** [Inv] of the log's rows depends only on metadata and files. *)
Lemma inv_files s s' lvals : t_md (sh s') = t_md (sh s) -> t_disk (sh s') = t_disk (sh s) ->
  Inv o (logged_rows s lvals) lvals true false -> Inv o (logged_rows s' lvals) lvals true false.
Proof. unfold logged_rows. intros -> ->. auto. Qed.

(** After a flush the log is empty again. *)
Lemma inv_flushed s tq x t0 : CI o fs false s tq [] -> flush_files lexsort t0 = (sh s, Ok tt) ->
  d_logs (t_disk t0) = [(md_log_id (t_md t0), x)] ->
  Inv o (logged_rows s []) [] true false.
Proof.
  intros C E L. destruct (flush_files_logs _ _ _ E L) as [_ L'].
  destruct C. destruct ci_sim as (M & Em & _ & D1 & D2 & _). destruct ci_inv.
  assert (Emp : log_file hash_crc32 [] = []) by reflexivity.
  constructor; cbn [logged_rows t_md t_disk t_mem t_log]; rewrite ?M, ?D1, ?D2; auto.
  - split; [reflexivity|]. exists []. rewrite L', M, Emp. split; [reflexivity|]. split; constructor.
  - rewrite ci_sch. reflexivity.
  - clear - i_parts D2. revert i_parts. apply Forall_impl. intros lp (pf & s1 & A & B). exists pf, s1. rewrite D2. auto.
Qed.

Lemma NoDup_fst_unique {A B} (l : list (A * B)) a b c :
  NoDup (map fst l) -> In (a, b) l -> In (a, c) l -> b = c.
Proof.
  induction l as [|[x y] l IH]; cbn; intros ND H1 H2; [contradiction|]. inversion ND; subst.
  destruct H1 as [H1|H1], H2 as [H2|H2].
  - congruence.
  - injection H1 as -> ->. exfalso. apply H3. change a with (fst (a, c)). now apply in_map.
  - injection H2 as -> ->. exfalso. apply H3. change a with (fst (a, b)). now apply in_map.
  - eauto.
Qed.

Lemma act_cq s tq mvals lvals pend a s' tq' mvals' :
  CI o fs false s tq mvals -> CQ s mvals lvals pend -> good_act o fs a -> undisturbed s a ->
  act lexsort s a = Some s' -> CI o fs false s' tq' mvals' -> AbsStep lexsort s s' a tq mvals tq' mvals' ->
  exists lvals' pend', CQ s' mvals' lvals' pend'.
Proof.
  intros C Q G U E C' AS. pose proof (ci_opts _ _ _ _ _ _ C) as Eo. pose proof (ci_schema _ _ _ _ _ _ C) as Esc.
  assert (Live : exists x, d_logs (t_disk (sh s)) = [(md_log_id (t_md (sh s)), x)]).
  { destruct (i_log _ _ _ _ _ (q_inv _ _ _ _ Q)) as [_ (ops & L & _)]. eexists. exact L. }
  destruct Live as (x & Live).
  destruct AS as [a tq mvals Emd Np Nf|i vals pk fv tq mvals Hp Hh Ed Emd Es'|i vals pk fv tq mvals tq' Hp Hh Ef Es'|i tq mvals tq' Hp Hh Ef Es'].
  - (* steps that push nothing *)
    destruct a as [i vals|i|i|i|i|i|i|f]; [| |now elim (Np i)| | | | |contradiction].
    + (* Begin *)
      cbn [act] in E. destruct (held s) eqn:Hh; [discriminate|]. destruct (pcs s i) eqn:Hp; try discriminate.
      exists lvals, pend.
      assert (K : s' = s \/ exists pk fv, s' = mkCS (sh s) (set_pc (pcs s) i (Prepared vals pk fv)) None (acked s)).
      { destruct (check_values _ vals) as [u|]; [|injection E as <-; auto].
        destruct (key_values _ vals); injection E as <-; eauto. }
      destruct K as [->|(pk & fv & ->)]; [exact Q|]. destruct Q. constructor; auto.
      intros j v. rewrite q_pend0. cbn [pcs]. destruct (Nat.eq_dec j i) as [->|Ne].
      * rewrite set_pc_same, Hp. split; intros (? & ? & ?); discriminate.
      * rewrite set_pc_other by exact Ne. tauto.
    + (* AppendLog *)
      cbn [undisturbed] in U. cbn [act] in E.
      destruct (pcs s i) as [|vals pk fv| | |] eqn:Hp; try discriminate.
      assert (PR : prepared o fs vals pk fv).
      { pose proof (ci_pcs _ _ _ _ _ _ C i) as X. unfold pc_ok in X. now rewrite Hp in X. }
      destruct PR as ((KF & HL) & CV & KV & Efv). subst fv. specialize (HL pk KV).
      destruct Q. specialize (q_log0 U). rewrite q_log0 in E. injection E as <-.
      assert (Esl : md_schema (t_md (logged_rows s lvals)) = fs) by exact Esc.
      destruct (insert_state_inv o (logged_rows s lvals) lvals true false vals pk q_inv0) as [EP I1];
        rewrite ?Esl; auto.
      rewrite Esl in EP, I1.
      exists (lvals ++ [vals]), (pend ++ [(i, vals)]). constructor; cbn [sh pcs held acked].
      * clear - I1 EP. unfold insert_state in I1. rewrite EP in I1. cbn [fst logged_rows t_md t_log t_disk t_logged] in I1.
        destruct I1. constructor; auto.
      * rewrite q_perm0, map_app, app_assoc. reflexivity.
      * rewrite map_app. cbn [map fst]. apply NoDup_app_comm_snoc; [exact q_nodup0|].
        intros Hin. apply in_map_iff in Hin as ([j v] & Ej & Hj). cbn in Ej. subst j.
        apply q_pend0 in Hj as (? & ? & Hj). congruence.
      * intros j v. rewrite in_app_iff, q_pend0. cbn [In].
        destruct (Nat.eq_dec j i) as [->|Ne].
        -- rewrite set_pc_same. split.
           ++ intros [(? & ? & Z)|[Z|[]]]; [congruence|]. injection Z as <-. eauto.
           ++ intros (? & ? & Z). injection Z as <- _ _. right. now left.
        -- rewrite set_pc_other by exact Ne. split; [|tauto]. intros [Z|[Z|[]]]; [exact Z|congruence].
      * intros _. reflexivity.
      * apply Forall_app. split; [exact q_keys0|]. constructor; [|constructor].
        eapply acked_int_keys; [apply HU|now apply usable_int|exact KF|now apply check_values_accepted|exact KV].
    + (* SwapHandle *)
      cbn [act] in E. destruct (pcs s i) as [| | |row|] eqn:Hp; try discriminate. injection E as <-.
      exists lvals, pend. destruct Q. constructor; cbn [sh pcs held acked]; auto.
      intros j v. rewrite q_pend0. destruct (Nat.eq_dec j i) as [->|Ne].
      * rewrite set_pc_same, Hp. split; intros (? & ? & ?); discriminate.
      * rewrite set_pc_other by exact Ne. tauto.
    + (* BeginFlush with nothing to flush *)
      rewrite (Nf i eq_refl). eauto.
    + (* BeginScan *)
      cbn [act] in E. destruct (held s) eqn:Hh; [discriminate|]. destruct (pcs s i) eqn:Hp; try discriminate. injection E as <-.
      exists lvals, pend. destruct Q. constructor; cbn [sh pcs held acked]; auto.
      intros j v. rewrite q_pend0. destruct (Nat.eq_dec j i) as [->|Ne].
      -- rewrite set_pc_same, Hp. split; intros (? & ? & ?); discriminate.
      -- rewrite set_pc_other by exact Ne. tauto.
    + (* EndScan *)
      cbn [act] in E. destruct (held s) eqn:Hh; [discriminate|]. destruct (pcs s i) eqn:Hp; try discriminate. injection E as <-.
      exists lvals, pend. destruct Q. constructor; cbn [sh pcs held acked]; auto.
      intros j v. rewrite q_pend0. destruct (Nat.eq_dec j i) as [->|Ne].
      -- rewrite set_pc_same, Hp. split; intros (? & ? & ?); discriminate.
      -- rewrite set_pc_other by exact Ne. tauto.
  - (* push without a flush *)
    destruct Q.
    assert (Hin : In (i, vals) pend) by (apply q_pend0; eauto).
    apply in_split in Hin as (pa & pb & ->).
    exists lvals, (pa ++ pb). subst s'. rewrite map_app in q_nodup0. cbn [map fst] in q_nodup0.
    constructor; cbn [sh pcs held acked]; auto.
    + rewrite q_perm0, !map_app. cbn [map snd]. rewrite <- (app_assoc mvals [vals]). apply Permutation_app_head.
      cbn [app]. symmetry. apply Permutation_middle.
    + rewrite map_app. eapply NoDup_remove_1. exact q_nodup0.
    + intros j v. specialize (q_pend0 j v). rewrite in_app_iff in *. cbn [In] in q_pend0.
      destruct (Nat.eq_dec j i) as [->|Ne].
      * rewrite set_pc_same. split; [|intros (? & ? & ?); discriminate].
        intros H. exfalso. apply NoDup_remove_2 in q_nodup0. apply q_nodup0. rewrite <- map_app.
        apply in_map_iff. exists (i, v). rewrite in_app_iff. auto.
      * rewrite set_pc_other by exact Ne. rewrite <- q_pend0. split; [tauto|].
        intros [H|[H|H]]; [tauto|congruence|tauto].
  - (* push with a flush *)
    assert (Only : pend = [(i, vals)]).
    { pose proof (flush_files_logs _ _ x Ef Live) as [X _]. cbn [pushed t_md] in X.
      assert (Hin : In (i, vals) pend) by (apply (q_pend _ _ _ _ Q); eauto).
      cbn [undisturbed] in U. specialize (U s' E ltac:(lia)).
      pose proof (q_nodup _ _ _ _ Q) as ND. pose proof (q_pend _ _ _ _ Q) as QP. clear - Hin U ND QP.
      assert (All : forall j v, In (j, v) pend -> j = i).
      { intros j v Hj. destruct (Nat.eq_dec j i) as [|Ne]; [assumption|]. apply QP in Hj as (pk & fv & Hj).
        exfalso. exact (U j v pk fv Ne Hj). }
      destruct pend as [|[j v] [|[k w] r]]; [contradiction| |].
      - destruct Hin as [H|[]]. congruence.
      - exfalso. pose proof (All j v ltac:(now left)). pose proof (All k w ltac:(right; now left)). subst.
        cbn in ND. inversion ND. apply H1. now left. }
    exists [], []. constructor; auto.
    + eapply inv_flushed; [exact C'|exact Ef|exact Live].
    + constructor.
    + intros j v. split; [intros []|]. intros (pk' & fv' & Hj). exfalso. rewrite Es' in Hj. cbn [pcs] in Hj.
      destruct (Nat.eq_dec j i) as [->|Ne]; [rewrite set_pc_same in Hj; discriminate|].
      rewrite set_pc_other in Hj by exact Ne.
      assert (In (j, v) pend) as Hjp by (apply (q_pend _ _ _ _ Q); eauto).
      rewrite Only in Hjp. destruct Hjp as [Z|[]]. congruence.
    + rewrite Es'. discriminate.
  - (* flush *)
    exists [], []. constructor; auto.
    + eapply inv_flushed; [exact C'|exact Ef|exact Live].
    + constructor.
    + intros j v. split; [intros []|]. intros (pk' & fv' & Hj). exfalso. rewrite Es' in Hj. cbn [pcs] in Hj.
      destruct (Nat.eq_dec j i) as [->|Ne]; [rewrite set_pc_same in Hj; discriminate|].
      rewrite set_pc_other in Hj by exact Ne.
      pose proof (flush_files_logs _ _ x Ef Live) as [X _].
      cbn [undisturbed] in U. exact (U s' E ltac:(lia) j v pk' fv' Ne Hj).
    + rewrite Es'. discriminate.
Qed.

Lemma start_cq : CQ (start (table_with o fs)) [] [] [].
Proof.
  pose proof (start_ci o fs HU) as C. destruct C. cbn [start sh] in *.
  destruct ci_inv. constructor; auto.
  - constructor; cbn [logged_rows sh start t_md t_mem t_log t_disk]; auto; [split; [reflexivity|apply i_log]|]. rewrite ci_sch. reflexivity.
  - constructor.
  - intros i vals. split; [intros []|]. intros (? & ? & H). discriminate.
  - intros _. apply i_log.
Qed.

Lemma exec_cq l : forall s tq mvals lvals pend s',
  CI o fs false s tq mvals -> CQ s mvals lvals pend -> Forall (good_act o fs) l -> undisturbed_run s l ->
  exec lexsort s l = Some s' ->
  exists tq' mvals' lvals' pend', CI o fs false s' tq' mvals' /\ CQ s' mvals' lvals' pend'.
Proof.
  induction l as [|a l IH]; intros s tq mvals lvals pend s' C Q G U E; cbn [exec undisturbed_run] in *.
  - injection E as <-. eauto 10.
  - inversion G; subst. destruct U as [U1 U2]. destruct (act lexsort s a) as [s1|] eqn:Ea; [|discriminate].
    destruct (act_ci lexsort HS o fs HU Happ _ _ _ _ _ _ C H1 Ea) as (tq1 & mv1 & C1 & AS).
    destruct (act_cq _ _ _ _ _ _ _ _ _ C Q H1 U1 Ea C1 AS) as (lv1 & p1 & Q1). eauto.
Qed.

(** Rows of inserts that have started but not returned, by thread. *)
Definition in_progress (s : CState) (pend : list (nat * list NamedValue)) : Prop :=
  NoDup (map fst pend) /\
  forall i v, In (i, v) pend -> (exists pk fv, pcs s i = Logged v pk fv) \/ pcs s i = Flushed (Some v).

Lemma cq_crash s tq mvals lvals pend : CI o fs false s tq mvals -> CQ s mvals lvals pend ->
  exists t ss rest, reopen (t_disk (sh s)) = Ok t /\ md_schema (t_md t) = fs
    /\ scan_streams lexsort t = Ok ss
    /\ in_progress s rest
    /\ Permutation (List.concat ss) (map (acked_row fs) (acked s ++ map snd rest)).
Proof.
  intros C Q. pose proof (ci_schema _ _ _ _ _ _ C) as Esc. destruct Q.
  destruct (reopen_inv _ _ _ _ q_inv0) as (t & Er & I & Emd & Ed & _).
  cbn [logged_rows t_md t_disk] in Er, Emd, Ed.
  assert (A : Acks ic t ((acked s ++ inflight s) ++ map snd pend) lvals).
  { destruct C. destruct ci_acks as (pvals & F2 & P & K). destruct ci_sim as (M & _ & _ & _ & D2 & _).
    exists pvals. rewrite Emd, M. split; [|split].
    - eapply Forall2_impl_; [|exact F2]. intros lp pv. apply part_has_disk. rewrite Ed, D2. auto.
    - rewrite P, q_perm0, app_assoc. reflexivity.
    - rewrite ci_sch. exact q_keys0. }
  destruct (scan_acks lexsort HS _ _ _ _ _ _ I A Happ) as (ss & Es & P).
  set (hl := match held s with Some i => match pcs s i with Flushed (Some v) => [(i, v)] | _ => [] end | None => [] end).
  exists t, ss, (hl ++ pend). split; [exact Er|]. rewrite Emd in P |- *. rewrite Esc in P. split; [exact Esc|]. split; [exact Es|].
  split.
  - split.
    + unfold hl. destruct (held s) as [i|] eqn:Hh; [|exact q_nodup0].
      destruct (pcs s i) as [| | |[v|]|] eqn:Hp; try exact q_nodup0.
      cbn [app map fst]. constructor; [|exact q_nodup0].
      intros Hin. apply in_map_iff in Hin as ([j w] & Ej & Hj). cbn in Ej. subst j.
      apply q_pend0 in Hj as (? & ? & Hj). congruence.
    + intros i v Hin. apply in_app_or in Hin as [Hin|Hin].
      * right. unfold hl in Hin. destruct (held s) as [h|]; [|contradiction].
        destruct (pcs s h) as [| | |[w|]|] eqn:Hp; try contradiction. destruct Hin as [Z|[]].
        injection Z as -> ->. exact Hp.
      * left. now apply q_pend0.
  - rewrite P. apply Permutation_map. rewrite map_app, <- app_assoc.
    apply Permutation_app_head. apply Permutation_app_tail.
    unfold hl, inflight. destruct (held s) as [h|]; [|reflexivity].
    destruct (pcs s h) as [| | |[w|]|]; reflexivity.
Qed.
End WithSort.
