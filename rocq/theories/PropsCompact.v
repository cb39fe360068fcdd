(** Properties of compaction: C17, C18, C87, C88. *)
From Coq Require Import List NArith ZArith Lia Bool Permutation Sorted String.
From Verif Require Import Bytes BytesFacts Value ValueFacts Log LogFacts AMap Order
  Memtable ListFacts MemtableFacts MemtableProject Table TableSpec TableFacts TableHistory TableUse PropsTable Get
  Compact CompactSpec CompactFacts CompactRun CompactIds CompactHistory.
Import ListNotations.
Local Open Scope string_scope.

(** ** A merge that meets the contract, used by the witnesses *)
Definition longest (files : list PartFile) : list Field :=
  fold_left (fun m f => if Nat.ltb (List.length m) (List.length (pf_fields f)) then pf_fields f else m) files [].
Definition ref_merge (ic : nat) (k : nat) (files : list PartFile) : result fault (list MergeOut) :=
  let fields := longest files in
  let rows := sort_by cmp_key (firstn ic) (List.concat (map (fun f => map (pad (List.length fields)) (pf_rows f)) files)) in
  Ok [(mkPf fields rows, match chunk_min_max (dts_of fields) rows ic with Some r => r | None => ([], []) end)].

Lemma longest_is fields files :
  Forall (fun f => exists r, fields = (pf_fields f ++ r)%list) files -> Exists (fun f => pf_fields f = fields) files ->
  longest files = fields.
Proof.
  intros P E. unfold longest.
  assert (G : forall l m, Forall (fun f => exists r, fields = (pf_fields f ++ r)%list) l -> (exists r, fields = (m ++ r)%list) ->
    let x := fold_left (fun m f => if Nat.ltb (List.length m) (List.length (pf_fields f)) then pf_fields f else m) l m in
    (exists r, fields = (x ++ r)%list) /\ List.length m <= List.length x /\ Forall (fun f => List.length (pf_fields f) <= List.length x) l).
  { induction l as [|f l IH]; intros m Pl Pm; cbn [fold_left]; [cbn; auto|].
    apply Forall_cons_iff in Pl as [Pf Pl]. destruct (Nat.ltb_spec (List.length m) (List.length (pf_fields f))) as [H|H].
    - destruct (IH _ Pl Pf) as (A & B & C). split; [exact A|]. split; [lia|]. constructor; [lia|exact C].
    - destruct (IH _ Pl Pm) as (A & B & C). split; [exact A|]. split; [lia|]. constructor; [lia|exact C]. }
  destruct (G files [] P (ex_intro _ fields eq_refl)) as ((r & A) & _ & C). cbn zeta in *.
  apply Exists_exists in E as (f & Hf & Ef). rewrite Forall_forall in C. specialize (C f Hf). rewrite Ef in C.
  rewrite A in C at 1. rewrite app_length in C. destruct r; [now rewrite app_nil_r in A|cbn in C; lia].
Qed.
Lemma ref_merge_contract ic : merge_contract ic (ref_merge ic).
Proof.
  intros k files fields outs Hne ND HP HE HF H. unfold ref_merge in H. rewrite (longest_is fields files HP HE) in H.
  apply Ok_inj_ in H. subst outs. split.
  - constructor; [|constructor]. cbn [fst pf_fields pf_rows]. split; [reflexivity|]. apply sort_by_sorted. apply cmp_key_total.
  - cbn [map fst pf_rows List.concat]. rewrite app_nil_r. symmetry. apply sort_by_perm.
Qed.
Print Assumptions ref_merge_contract.

(** A table with four levels, compacted from the first as soon as it has two parts. *)
Definition o_four := mkOptions 1 false 4 100000.
Definition o_three := mkOptions 1 false 3 100000.
Lemma usable_four : usable o_four [fK; fV].
Proof.
  split; [repeat constructor; cbn; intuition discriminate|]. split; [cbn; lia|]. split; [cbn; lia|].
  split; [repeat constructor|discriminate].
Qed.
Definition row_count (k : nat) (p : Part) : N := N.of_nat (p_values p).
Definition nobody (p : nat * nat) : bool := false.
(** Level 1 may hold 2 rows, parts of level 1 up to 100. *)
Definition co_wide := mkCO 1 2 10 100 10.
(** Both limits are 2 rows at level 1. *)
Definition co_equal := mkCO 1 2 10 2 1.
Definition four_parts : list HOp :=
  [HBase (OInsert (ins 1 "a")); HBase OFlush; HBase (OInsert (ins 5 "b")); HBase OFlush;
   HPass [OInsert (ins 9 "z"); OFlush] nobody;
   HBase (OInsert (ins 3 "c")); HBase OFlush;
   HBase (OAddField fW); HBase (OInsert (insw 4 4)); HBase OFlush; HBase ORestart].

(** ** C17: compaction preserves table contents *)
(** Every history of operations with passes running beside them, in which no pass selects a
    part twice (when that happens: [C17_selection_repeats_iff]). *)
Theorem C17_passes_preserve_contents_partial :
  forall psize merge co lexsort o fs hs t acks ws,
  lexsort_contract lexsort -> merge_contract (o_index_cols o) merge -> 0 < c_l0_max co ->
  usable o fs -> o_replacing o = false ->
  Forall (wf_op (o_index_cols o) (schema_after fs (bases hs))) (bases hs) -> restart_safe false false (bases hs) ->
  run_h psize merge co lexsort (table_with o fs) hs = Some (t, acks, ws) ->
  Forall (fun w => Forall (@NoDup _) (w_plans w)) ws ->
  exists ss, scan_streams lexsort t = Ok ss
    /\ Permutation (List.concat ss) (map (acked_row (schema_after fs (bases hs))) acks).
Proof.
  intros psize merge co lexsort o fs hs t acks ws HS HM H0 U Hr W RS R NP. pose proof U as (ND & Hic & Hl & _).
  destruct (table_with_inv o fs ltac:(lia) Hl ND) as (I0 & Es & Ep).
  destruct (new_linv o fs ltac:(lia) Hl ND) as [L0 _].
  destruct (run_h_acks psize merge co lexsort HS o hs Hr HM H0 (table_with o fs) [] false false [] t acks ws I0)
    as (mv & p & d & I1 & A1 & L1 & S1 & _); rewrite ?Es; auto.
  { exists []. rewrite Ep. split; [constructor|split; constructor]. }
  { lia. }
  { now apply usable_int. }
  destruct (scan_acks lexsort HS _ _ _ _ _ _ I1 A1 Hr) as (ss & E & P). exists ss. split; [exact E|].
  rewrite S1, Es in P. exact P.
Qed.
Print Assumptions C17_passes_preserve_contents_partial.

(** Tables with at most three levels need no condition on the selections. *)
Theorem C17_three_levels_partial :
  forall psize merge co lexsort o fs hs t acks ws,
  lexsort_contract lexsort -> merge_contract (o_index_cols o) merge -> 0 < c_l0_max co ->
  usable o fs -> o_replacing o = false -> o_levels o <= 3 ->
  Forall (wf_op (o_index_cols o) (schema_after fs (bases hs))) (bases hs) -> restart_safe false false (bases hs) ->
  run_h psize merge co lexsort (table_with o fs) hs = Some (t, acks, ws) ->
  exists ss, scan_streams lexsort t = Ok ss
    /\ Permutation (List.concat ss) (map (acked_row (schema_after fs (bases hs))) acks).
Proof.
  intros psize merge co lexsort o fs hs t acks ws HS HM H0 U Hr H3 W RS R. pose proof U as (ND & Hic & Hl & _).
  destruct (table_with_inv o fs ltac:(lia) Hl ND) as (I0 & Es & Ep).
  destruct (new_linv o fs ltac:(lia) Hl ND) as [L0 _].
  destruct (run_h_acks psize merge co lexsort HS o hs Hr HM H0 (table_with o fs) [] false false [] t acks ws I0)
    as (mv & p & d & I1 & A1 & L1 & S1 & _); rewrite ?Es; auto.
  { exists []. rewrite Ep. split; [constructor|split; constructor]. }
  { lia. }
  { now apply usable_int. }
  { left. rewrite new_levels, repeat_length. exact H3. }
  destruct (scan_acks lexsort HS _ _ _ _ _ _ I1 A1 Hr) as (ss & E & P). exists ss. split; [exact E|].
  rewrite S1, Es in P. exact P.
Qed.
Print Assumptions C17_three_levels_partial.

(** One pass on any such table: the scan before and the scan after return the same rows. *)
Theorem C17_pass_changes_no_scan_partial :
  forall psize merge co lexsort o fs hs t acks ws held t' acks' ws',
  lexsort_contract lexsort -> merge_contract (o_index_cols o) merge -> 0 < c_l0_max co ->
  usable o fs -> o_replacing o = false ->
  Forall (wf_op (o_index_cols o) (schema_after fs (bases hs))) (bases hs) -> restart_safe false false (bases hs) ->
  run_h psize merge co lexsort (table_with o fs) hs = Some (t, acks, ws) ->
  run_h psize merge co lexsort t [HPass [] held] = Some (t', acks', ws') ->
  Forall (fun w => Forall (@NoDup _) (w_plans w)) (ws ++ ws') ->
  exists ss ss', scan_streams lexsort t = Ok ss /\ scan_streams lexsort t' = Ok ss'
    /\ Permutation (List.concat ss) (List.concat ss').
Proof.
  intros psize merge co lexsort o fs hs t acks ws held t' acks' ws' HS HM H0 U Hr W RS R R' NP. pose proof U as (ND & Hic & Hl & _).
  apply Forall_app in NP as [NP NP'].
  destruct (table_with_inv o fs ltac:(lia) Hl ND) as (I0 & Es & Ep).
  destruct (new_linv o fs ltac:(lia) Hl ND) as [L0 _].
  destruct (run_h_acks psize merge co lexsort HS o hs Hr HM H0 (table_with o fs) [] false false [] t acks ws I0)
    as (mv & p & d & I1 & A1 & L1 & S1 & _); rewrite ?Es; auto.
  { exists []. rewrite Ep. split; [constructor|split; constructor]. }
  { lia. }
  { now apply usable_int. }
  destruct (schema_after_prefix (bases hs) fs) as (x & Ex).
  destruct (run_h_acks psize merge co lexsort HS o [HPass [] held] Hr HM H0 t mv p d acks t' acks' ws' I1 A1 L1)
    as (mv' & p' & d' & I2 & A2 & L2 & S2 & _); rewrite ?S1, ?Es; auto.
  { rewrite Ex, app_length. lia. }
  { rewrite Ex. unfold dts_of. rewrite map_app, firstn_prefix by (rewrite map_length; lia). now apply usable_int. }
  { constructor. }
  { exact Logic.I. }
  destruct (scan_acks lexsort HS _ _ _ _ _ _ I1 A1 Hr) as (ss & E & P).
  destruct (scan_acks lexsort HS _ _ _ _ _ _ I2 A2 Hr) as (ss' & E' & P').
  exists ss, ss'. split; [exact E|]. split; [exact E'|].
  assert (acks' = []) as ->.
  { cbn [run_h run] in R'. destruct (compact _ _ _ _ _); [|discriminate]. destruct (publish _ _ _); [|discriminate].
    injection R' as _ <- _. reflexivity. }
  rewrite P, P', S2, app_nil_r. reflexivity.
Qed.
Print Assumptions C17_pass_changes_no_scan_partial.

(** Five acknowledged rows, some written while a pass was running; the second pass merges
    four parts of levels 0 and 1 and then moves the result on. *)
Example C17_witness :
  match run_h row_count (ref_merge 1) co_wide stable_lexsort (table_with o_four [fK; fV]) (four_parts ++ [HPass [] nobody]) with
  | Some (t, acks, ws) =>
      List.length acks = 5
      /\ map w_plans ws = [[[(0, 0); (0, 1)]]; [[(0, 2); (0, 3); (0, 4); (1, 1)]; [(1, 2)]]]
      /\ map (fun l => List.length (l_parts l)) (md_levels (t_md t)) = [0; 0; 1; 0]
      /\ match scan_streams stable_lexsort t with Ok ss => map (@List.length _) ss = [5] | Err _ => False end
  | None => False
  end.
Proof. vm_compute. repeat split; reflexivity. Qed.
Example C17_witness_hyps :
  Forall (wf_op 1 (schema_after [fK; fV] (bases four_parts))) (bases four_parts) /\ restart_safe false false (bases four_parts).
Proof. split; [unfold four_parts, bases, ins, insw; cbn [flat_map base app]; wf_tac|cbn; tauto]. Qed.

(** Level 0 is never selected twice; at a deeper level a selection names a part twice exactly
    if the parts of that level together exceed the limit for one part. *)
Fixpoint total (f : Part -> N) (ps : list Part) : N := match ps with [] => 0%N | p :: r => (f p + total f r)%N end.
Lemma over_empty psize k limit ps : forall acc, (acc + total (psize k) ps <= limit)%N -> over psize k limit acc ps = [].
Proof.
  induction ps as [|p ps IH]; intros acc H; cbn [over total] in *; [reflexivity|].
  destruct (N.ltb_spec limit (acc + psize k p)); [lia|]. apply IH. lia.
Qed.
Lemma over_last psize k limit ps p : forall acc, (limit < acc + total (psize k) (ps ++ [p]))%N ->
  exists l, over psize k limit acc (ps ++ [p]) = (l ++ [p])%list.
Proof.
  induction ps as [|q ps IH]; intros acc H; cbn [over total app] in *.
  - destruct (N.ltb_spec limit (acc + psize k p)); [|lia]. now exists [].
  - destruct (IH (acc + psize k q)%N) as (l & ->); [lia|]. destruct (N.ltb _ _); [now exists (q :: l)|now exists l].
Qed.
Lemma over_nodup psize k limit ps : forall acc, NoDup (map p_id ps) -> NoDup (map p_id (over psize k limit acc ps)).
Proof.
  induction ps as [|p ps IH]; intros acc H; cbn [over map] in *; [constructor|]. inversion H as [|? ? H1 H2]; subst.
  destruct (N.ltb _ _); cbn [map]; [|auto]. constructor; [|auto]. intros G. apply H1.
  apply in_map_iff in G as (q & E & G). rewrite <- E. apply in_map. eapply over_incl; exact G.
Qed.
Lemma flat_single (l : list Part) : flat_map (fun p => [p_id p]) l = map p_id l.
Proof. induction l; cbn; congruence. Qed.
Lemma nodup_map_inv {A B} (f : A -> B) l : NoDup (map f l) -> NoDup l.
Proof.
  induction l as [|x l IH]; cbn; intros H; [constructor|]. inversion H as [|? ? H1 H2]; subst.
  constructor; [|auto]. intros G. apply H1. now apply in_map.
Qed.

Theorem C17_selection_repeats_iff :
  forall psize co k level next tc,
  NoDup (map p_id (l_parts level)) -> NoDup (map p_id (l_parts next)) ->
  determine psize co (S k) level next = Some tc ->
  NoDup tc <-> (total (psize (S k)) (l_parts level) <= part_limit co (S k))%N.
Proof.
  intros psize co k level next tc N1 N2 H. unfold determine in H.
  destruct (selected psize co (S k) (l_parts level)) as [|s sel] eqn:Es; [discriminate|]. rewrite <- Es in H.
  destruct (range_of _) as [mn mx]. apply some_inj in H. subst tc.
  assert (Nb : NoDup (map (fun p => (S (S k), p_id p)) (List.filter (overlaps mn mx) (l_parts next)))).
  { rewrite <- (map_map p_id (pair (S (S k)))). apply FinFun.Injective_map_NoDup; [intros a b E; congruence|].
    clear - N2. induction (l_parts next) as [|q ps IH]; cbn; [constructor|]. inversion N2 as [|? ? H1 H2]; subst. destruct (overlaps mn mx q); cbn; [|auto].
    constructor; [|auto]. intros Hin. apply H1. apply in_map_iff in Hin as (z & E & Hz). apply filter_In in Hz as [Hz _]. rewrite <- E. now apply in_map. }
  assert (G : NoDup (map (pair (S k)) (selected psize co (S k) (l_parts level)) ++ map (fun p => (S (S k), p_id p)) (List.filter (overlaps mn mx) (l_parts next)))
     <-> NoDup (selected psize co (S k) (l_parts level))).
  { split.
    - intros X. apply NoDup_app_left in X. now apply nodup_map_inv in X.
    - revert Nb. generalize (selected psize co (S k) (l_parts level)) (List.filter (overlaps mn mx) (l_parts next)). clear. intros a b B.
      induction a as [|x a IH]; cbn [map app]; [auto|]. intros A. inversion A as [|? ? H1 H2]; subst. constructor; [|auto].
      rewrite in_app_iff. intros [X|X]; apply in_map_iff in X as (q & E & Hq); [injection E as ->; auto|injection E as E _; lia]. }
  rewrite G. clear G Nb. unfold selected in *.
  destruct (N.le_gt_cases (total (psize (S k)) (l_parts level)) (part_limit co (S k))) as [Hle|Hgt].
  - split; [auto|]. intros _. rewrite (over_empty psize (S k) (part_limit co (S k)) (l_parts level) 0) by lia.
    cbn [map app]. rewrite flat_single. now apply over_nodup.
  - split; [|lia]. intros X. exfalso.
    destruct (l_parts level) as [|p0 ps0] eqn:El; [cbn in Hgt; lia|].
    destruct (@exists_last _ (p0 :: ps0)) as (ps & p & E); [discriminate|]. rewrite E in *.
    destruct (over_last psize (S k) (part_limit co (S k)) ps p 0) as (a & Ea); [lia|]. rewrite Ea in *.
    destruct (over psize (S k) (level_limit co (S k)) 0 (ps ++ [p])) as [|q b] eqn:Eb; [discriminate|].
    assert (T : (level_limit co (S k) < 0 + total (psize (S k)) (ps ++ [p]))%N).
    { destruct (N.le_gt_cases (0 + total (psize (S k)) (ps ++ [p])) (level_limit co (S k))) as [C|C]; [|exact C].
      rewrite over_empty in Eb by exact C. discriminate. }
    destruct (over_last psize (S k) (level_limit co (S k)) ps p 0 T) as (c & Ec). rewrite Eb in Ec. rewrite Ec in X.
    rewrite flat_map_app in X. cbn [flat_map] in X. rewrite app_nil_r, map_app in X. cbn [map] in X.
    assert (Y : NoDup ((map p_id a ++ [p_id p]) ++ [p_id p])).
    { revert X. generalize ((map p_id a ++ [p_id p]) ++ [p_id p])%list (flat_map (fun p0 => (map p_id a ++ [p_id p]) ++ [p_id p0])%list c).
      clear. intros x y. induction y as [|z y IH]; cbn; [auto|]. intros H. inversion H; auto. }
    apply NoDup_remove_2 in Y. apply Y. rewrite app_nil_r. apply in_or_app. right. now left.
Qed.
Print Assumptions C17_selection_repeats_iff.
Theorem C17_level0_selects_once :
  forall psize co level next tc,
  NoDup (map p_id (l_parts level)) -> NoDup (map p_id (l_parts next)) ->
  determine psize co 0 level next = Some tc -> NoDup tc.
Proof. exact level0_plan. Qed.
Print Assumptions C17_level0_selects_once.
Example C17_selection_witness :
  let p i := mkPart i 2 [KInt64 (Z.of_nat i)] [KInt64 (Z.of_nat i)] in
  determine row_count co_wide 1 (mkLevel 2 [p 1; p 2]) (mkLevel 0 []) = Some [(1, 2)]
  /\ determine row_count co_equal 1 (mkLevel 2 [p 1; p 2]) (mkLevel 0 []) = Some [(1, 2); (1, 2)].
Proof. vm_compute. split; reflexivity. Qed.

(** Refuted when the limits are exceeded: with equal limits for a level and for its parts
    (as in the tests of the code base) five acknowledged rows become ten. *)
Theorem C17_repeated_selection_refuted :
  exists t acks ws ss,
    run_h row_count (ref_merge 1) co_equal stable_lexsort (table_with o_four [fK; fV]) (four_parts ++ [HPass [] nobody]) = Some (t, acks, ws)
    /\ scan_streams stable_lexsort t = Ok ss
    /\ List.length acks = 5 /\ List.length (List.concat ss) = 10.
Proof.
  eexists _, _, _, _. split; [vm_compute; reflexivity|]. split; [vm_compute; reflexivity|]. split; vm_compute; reflexivity.
Qed.
Print Assumptions C17_repeated_selection_refuted.
(** In general: a merge of a selection writes the rows of every part as often as the part is
    named in it. *)
Theorem C17_merge_writes_each_mention_refuted :
  forall ic merge d w k tc w' files fields,
  merge_contract ic merge -> merge_parts merge d w k tc = Ok w' ->
  Forall2 (fun p f => read_part (w_new w) d p = Some f) tc files -> tc <> [] -> NoDup (map f_name fields) ->
  Forall (fun f => pf_fields f = fields /\ ic <= List.length fields
      /\ Forall (fun r => List.length r = List.length fields) (pf_rows f)
      /\ Forall (int_keys ic) (pf_rows f) /\ sorted_by cmp_key (firstn ic) (pf_rows f)) files ->
  exists outs, w_new w' = (outs ++ w_new w)%list
    /\ Permutation (List.concat (map (fun o => pf_rows (snd o)) outs)) (List.concat (map pf_rows files)).
Proof.
  intros ic merge d w k tc w' files fields HM H F2 Hne ND HF. unfold merge_parts in H.
  assert (Em : mapM (read_part (w_new w) d) tc = Some files).
  { clear - F2. induction F2 as [|p f tc files E F2 IH]; cbn [mapM]; [reflexivity|]. now rewrite E, IH. }
  rewrite Em in H. destruct (nth_error (w_levels w) (S k)) as [ln|]; [|discriminate].
  destruct (merge k files) as [outs|] eqn:Emg; [|discriminate]. apply Ok_inj_ in H. subst w'. cbn [w_new].
  eexists. split; [reflexivity|].
  destruct (HM k files fields outs) as [_ P]; auto.
  { intros ->. inversion F2. now subst. }
  { eapply Forall_impl; [|exact HF]. intros f (E & _). exists []. now rewrite app_nil_r. }
  { destruct files as [|f fl]; [inversion F2; now subst|]. constructor. now inversion HF. }
  { eapply Forall_impl; [|exact HF]. intros f (E & A & B & C & D). rewrite E. auto. }
  assert (EL : map (fun o : nat * nat * PartFile => pf_rows (snd o)) (map (fun '(id, o) => ((S k, id), fst o)) (combine (seq (S (l_next ln)) (List.length outs)) outs))
     = map (fun o => pf_rows (fst o)) outs).
  { rewrite map_map. generalize (S (l_next ln)). clear. induction outs as [|o outs IH]; intros n; cbn; [reflexivity|]. now rewrite IH. }
  rewrite EL, P. clear - HF. induction HF as [|f fl (E & A & B & _) HF IH]; cbn [map List.concat]; [reflexivity|].
  apply Permutation_app; [|exact IH]. replace (map (pad (List.length fields)) (pf_rows f)) with (pf_rows f); [reflexivity|].
  rewrite <- (map_id (pf_rows f)) at 1. apply map_ext_in. intros r Hr. rewrite Forall_forall in B. unfold pad. rewrite (B r Hr), Nat.sub_diag.
  cbn. now rewrite app_nil_r.
Qed.
Print Assumptions C17_merge_writes_each_mention_refuted.

(** Refuted for [l0_max_parts = 0]: in any table with three levels whose only part of level
    0 overlaps no part of level 1, the pass renames the file of that part but leaves the part
    in the published level 0, so every later scan fails. *)
Lemma seqR_err {A} (l : list (result fault A)) : (exists e, In (Err e) l) -> exists e, seqR l = Err e.
Proof.
  induction l as [|x l IH]; [intros (e & [])|]. intros (e & [E|E]); cbn [seqR].
  - subst x. eauto.
  - destruct x as [a|e']; [|eauto]. destruct IH as (e2 & E2); [eauto|]. rewrite E2. eauto.
Qed.
Lemma scan_missing lexsort t lp : In lp (all_parts (t_md t)) -> aget lp_dec (lp_path lp) (d_parts (t_disk t)) = None ->
  exists e, scan_streams lexsort t = Err e.
Proof.
  intros Hin Hn. unfold scan_streams. destruct (mt_chunk _ _ _ _ _) as [c|e]; [|eauto].
  destruct (seqR_err (map (fun lp => part_rows t (fst lp) (snd lp)) (all_parts (t_md t)))) as (e & ->); [|eauto].
  exists IoError. apply in_map_iff. exists lp. split; [|exact Hin]. unfold part_rows. unfold lp_path in Hn. now rewrite Hn.
Qed.
Theorem C17_lone_part_moved_refuted :
  forall psize merge co lexsort held t l0 l1 l2 q t',
  c_l0_max co = 0 -> md_levels (t_md t) = [l0; l1; l2] -> l_parts l0 = [q] ->
  List.filter (overlaps (p_min q) (p_max q)) (l_parts l1) = [] ->
  run_h psize merge co lexsort t [HPass [] held] = Some t' ->
  exists e, scan_streams lexsort (fst (fst t')) = Err e.
Proof.
  intros psize merge co lexsort held t l0 l1 l2 q t' H0 El E0 EF R. cbn [run_h run] in R.
  destruct (compact _ _ _ _ _) as [w|] eqn:EC; [|discriminate]. destruct (publish held t w) as [t1|] eqn:EP; [|discriminate].
  apply some_inj in R. subst t'. cbn [fst].
  assert (Ew : w = mkCW [mkLevel (l_next l0) []; mkLevel (S (l_next l1)) (l_parts l1 ++ [mkPart (S (l_next l1)) (p_values q) (p_min q) (p_max q)]); l2]
     [Rename (0, p_id q) (1, S (l_next l1))] [] [] [[(0, p_id q)]]).
  { unfold compact in EC. rewrite El in EC. cbn [List.length Nat.ltb Nat.leb Nat.sub seq compact_loop] in EC. unfold compact_level in EC.
    cbn [w_levels nth_error] in EC. unfold determine, selected in EC. rewrite E0, H0 in EC. cbn [List.length Nat.ltb Nat.leb map] in EC.
    unfold get_parts in EC. cbn [flat_map] in EC. rewrite E0 in EC. cbn [find] in EC. rewrite Nat.eqb_refl in EC. cbn [app range_of fold_left] in EC.
    rewrite EF in EC. cbn [map app] in EC. unfold move_part in EC. cbn [w_levels nth_error] in EC. rewrite E0 in EC. cbn [find] in EC. rewrite Nat.eqb_refl in EC.
    apply Ok_inj_ in EC. subst w. cbn [mapi Nat.eqb w_ops w_l0 w_new w_plans app]. rewrite E0. cbn [remove_id]. now rewrite Nat.eqb_refl. }
  subst w. unfold publish in EP. cbn [w_new w_ops app fs_ops fs_op] in EP.
  destruct (aget lp_dec (0, p_id q) (d_parts (t_disk t))) as [pf|]; [|discriminate]. apply Ok_inj_ in EP. subst t1.
  apply (scan_missing _ _ (0, q)); cbn [t_md t_disk d_parts lp_path fst snd].
  - rewrite all_parts_at. apply parts_0_In. unfold md_compacted. cbn [md_levels]. rewrite El. cbn [w_levels nth_error w_l0 existsb negb].
    eexists. split; [reflexivity|]. cbn [l_parts]. rewrite E0. now left.
  - rewrite aget_aset_ne by discriminate. apply aget_adel_eq.
Qed.
Print Assumptions C17_lone_part_moved_refuted.
Example C17_lone_part_witness :
  match run_h row_count (ref_merge 1) (mkCO 0 2 10 100 10) stable_lexsort (table_with o_three [fK; fV])
    [HBase (OInsert (ins 1 "a")); HBase OFlush; HPass [] nobody] with
  | Some (t, acks, _) => List.length acks = 1 /\ scan_streams stable_lexsort t = Err IoError
  | None => False
  end.
Proof. vm_compute. split; reflexivity. Qed.

(** ** C18: part identifiers are never reused *)
(** A path the table lists or has a file at. *)
Definition refers (t : Table) (p : nat * nat) : Prop :=
  In p (map lp_path (all_parts (t_md t))) \/ aget lp_dec p (d_parts (t_disk t)) <> None.
Lemma refers_used t p : FInv t -> fst p < List.length (md_levels (t_md t)) -> refers t p -> used (md_levels (t_md t)) p.
Proof.
  intros (_ & _ & B) Hk [H|H].
  - apply in_map_iff in H as ([k q] & <- & Hq). rewrite all_parts_at in Hq. apply parts_0_In in Hq as (l & El & Hq).
    exists l. split; [exact El|]. unfold lp_path. cbn [fst snd]. apply (B k l); [exact El|]. right. now apply in_map.
  - destruct p as [k i]. cbn [fst] in Hk. destruct (nth_error (md_levels (t_md t)) k) as [l|] eqn:El; [|apply nth_error_None in El; lia].
    exists l. split; [exact El|]. cbn [fst snd]. apply (B k l); [exact El|]. now left.
Qed.
Lemma step_len lexsort t op t' res : FInv t -> step lexsort t op = (Some t', res) ->
  List.length (md_levels (t_md t')) = List.length (md_levels (t_md t)).
Proof.
  intros I H. pose proof (step_deep _ _ _ _ _ I H) as D. pose proof (step_ids _ _ _ _ _ I H) as (_ & Ne' & _). destruct I as (_ & Ne & _).
  destruct (md_levels (t_md t)); [contradiction|]. destruct (md_levels (t_md t')); [contradiction|]. cbn [tl] in D. now subst.
Qed.
Lemma run_len lexsort ops : forall t t' a, FInv t -> run lexsort t ops = Some (t', a) ->
  List.length (md_levels (t_md t')) = List.length (md_levels (t_md t)).
Proof.
  intros t t' a I H. pose proof (run_deep _ _ _ _ _ I H) as D. pose proof (run_ids _ _ _ _ _ I H) as (_ & Ne' & _). destruct I as (_ & Ne & _).
  destruct (md_levels (t_md t)); [contradiction|]. destruct (md_levels (t_md t')); [contradiction|]. cbn [tl] in D. now subst.
Qed.
Lemma run_h_len psize merge co lexsort hs : forall t t' a ws, FInv t -> run_h psize merge co lexsort t hs = Some (t', a, ws) ->
  List.length (md_levels (t_md t')) = List.length (md_levels (t_md t)).
Proof.
  induction hs as [|h hs IH]; intros t t' acks ws I R; cbn [run_h] in R; [injection R as <- _ _; reflexivity|].
  destruct h as [o|during held].
  - destruct (run lexsort t [o]) as [[t1 a]|] eqn:R1; [|discriminate].
    destruct (run_h psize merge co lexsort t1 hs) as [[[t2 b] ws2]|] eqn:R2; [|discriminate]. assert (t2 = t') as -> by congruence.
    rewrite (IH _ _ _ _ (run_ids _ _ _ _ _ I R1) R2). eapply run_len; eauto.
  - destruct (run lexsort t during) as [[t1 a]|] eqn:R1; [|discriminate].
    destruct (compact _ _ _ _ _) as [w|] eqn:EC; [|discriminate]. destruct (publish held t1 w) as [t2|] eqn:EP; [|discriminate].
    destruct (run_h psize merge co lexsort t2 hs) as [[[t3 b] ws2]|] eqn:R2; [|discriminate]. assert (t3 = t') as -> by congruence.
    pose proof (run_ids _ _ _ _ _ I R1) as I1. pose proof (run_deep _ _ _ _ _ I R1) as D1. pose proof (run_len _ _ _ _ _ I R1) as L1.
    pose proof I1 as (_ & Ne1 & _). destruct I as (Em & Ne & B).
    assert (B0 : bounded (md_levels (t_md t)) []) by (eapply bounded_sub; [exact B|]; intros q Hq; now cbn in Hq).
    rewrite (IH _ _ _ _ (publish_ids psize merge co held t t1 w t2 I1 B0 Ne D1 EC EP) R2).
    exact (publish_len _ _ _ _ _ _ _ _ _ Ne1 EC L1 EP).
Qed.

(** Whatever path a table refers to at some moment of a history (so also what a scan started
    then reads), no operation and no pass that comes later writes a file at that path: files
    there are only ever left alone or removed. *)
Theorem C18_paths_never_reused :
  forall psize merge co lexsort o fs hs0 hs1 t0 a0 ws0 t a1 ws1 p,
  0 < o_index_cols o -> 0 < o_levels o -> NoDup (map f_name fs) ->
  run_h psize merge co lexsort (table_with o fs) hs0 = Some (t0, a0, ws0) ->
  run_h psize merge co lexsort t0 hs1 = Some (t, a1, ws1) ->
  refers t0 p ->
  (forall op t' r pf, step lexsort t op = (Some t', r) ->
     aget lp_dec p (d_parts (t_disk t')) = Some pf -> aget lp_dec p (d_parts (t_disk t)) = Some pf)
  /\ (forall during t1 a w, run lexsort t during = Some (t1, a) ->
        compact psize merge co (md_levels (t_md t)) (t_disk t1) = Ok w ->
        ~ In p (created w) /\ NoDup (created w)).
Proof.
  intros psize merge co lexsort o fs hs0 hs1 t0 a0 ws0 t a1 ws1 p Hi Hl ND R0 R1 Hp.
  destruct (new_linv o fs Hi Hl ND) as [_ F0].
  pose proof (run_h_ids _ _ _ _ _ _ _ _ _ F0 R0) as I0. pose proof (run_h_ids _ _ _ _ _ _ _ _ _ I0 R1) as I1.
  assert (U : fst p < List.length (md_levels (t_md t0)) -> used (md_levels (t_md t)) p).
  { intros Hk. eapply used_run_h; [exact I0|exact R1|]. now apply refers_used. }
  rewrite <- (run_h_len _ _ _ _ _ _ _ _ _ I0 R1) in U.
  split.
  - intros op t' r pf Hs Hg. destruct (step_next _ _ _ _ _ I1 Hs) as [_ Hn]. destruct (Hn p pf Hg) as [G| ->]; [exact G|].
    exfalso. pose proof I1 as (_ & Ne & _). unfold next0 in U. destruct (md_levels (t_md t)) as [|l0 r0]; [contradiction|].
    destruct U as (l & El & P); [cbn; lia|]. cbn in El, P. injection El as <-. lia.
  - intros during t1 a w Hd HC. pose proof I1 as (_ & Ne & B).
    assert (B0 : bounded (md_levels (t_md t)) []) by (eapply bounded_sub; [exact B|]; intros q Hq; now cbn in Hq).
    pose proof (compact_ids _ _ _ _ _ _ B0 HC) as [Cl Cm Cp Cn Cd]. split; [|exact Cd].
    intros Hin. destruct p as [k i]. destruct (Cn k i Hin) as (Hk & l0 & l & E0 & El & Hb).
    destruct U as (lu & Eu & P).
    { cbn [fst]. apply nth_error_Some. congruence. }
    cbn [fst snd] in Eu, P. assert (lu = l0) as -> by congruence. destruct k; [contradiction|]. cbn [passed] in P. lia.
Qed.
Print Assumptions C18_paths_never_reused.

(** After two passes a table whose first three parts are gone again creates new paths only. *)
Example C18_witness :
  match run_h row_count (ref_merge 1) co_wide stable_lexsort (table_with o_four [fK; fV]) four_parts with
  | Some (t0, _, _) =>
    map lp_path (all_parts (t_md t0)) = [(0, 2); (0, 3); (0, 4); (1, 1)]
    /\ match run_h row_count (ref_merge 1) co_wide stable_lexsort t0 [HPass [] nobody; HBase (OInsert (ins 7 "x")); HBase OFlush; HBase (OInsert (ins 8 "y")); HBase OFlush] with
       | Some (t, _, _) =>
         map fst (d_parts (t_disk t)) = [(0, 6); (0, 5); (2, 1)]
         /\ match compact row_count (ref_merge 1) co_wide (md_levels (t_md t)) (t_disk t) with
            | Ok w => created w = [(1, 3)]
            | Err _ => False
            end
       | None => False
       end
  | None => False
  end.
Proof. vm_compute. repeat split; reflexivity. Qed.

(** ** C87: a crash during a compaction loses and duplicates nothing *)
Lemma reopen_swap d d' t : reopen d = Ok t -> d_md d' = d_md d -> d_logs d' = d_logs d ->
  reopen d' = Ok (mkTable (t_md t) (t_mem t) (t_logged t) (t_log t) d').
Proof.
  intros H E1 E2. unfold reopen in *. rewrite E1, E2. destruct (d_md d); [|discriminate]. destruct (max_id _); [|discriminate].
  destruct (aget N.eq_dec _ _); [|discriminate]. destruct (recover_log _ _); [|discriminate]. destruct (replay _ _); [|discriminate].
  apply Ok_inj_ in H. now subst t.
Qed.
Lemma scan_same_files lexsort t t' : t_md t' = t_md t -> t_mem t' = t_mem t ->
  (forall p, In p (map lp_path (all_parts (t_md t))) ->
     aget lp_dec p (d_parts (t_disk t')) = aget lp_dec p (d_parts (t_disk t))) ->
  scan_streams lexsort t' = scan_streams lexsort t.
Proof.
  intros E1 E2 H. unfold scan_streams. rewrite E1, E2.
  replace (map (fun lp => part_rows t' (fst lp) (snd lp)) (all_parts (t_md t)))
     with (map (fun lp => part_rows t (fst lp) (snd lp)) (all_parts (t_md t))); [reflexivity|].
  apply map_ext_in. intros lp Hlp. unfold part_rows. rewrite E1. specialize (H (lp_path lp) (in_map _ _ _ Hlp)). unfold lp_path in H. now rewrite H.
Qed.

(** Before the metadata is written: any of the files the merges were writing may exist, with
    any contents (also half written). *)
Theorem C87_crash_before_publishing :
  forall psize merge co lexsort o fs hs t acks ws during t1 a1 w new,
  lexsort_contract lexsort -> merge_contract (o_index_cols o) merge -> 0 < c_l0_max co ->
  usable o fs -> o_replacing o = false ->
  Forall (wf_op (o_index_cols o) (schema_after fs (bases hs ++ during))) (bases hs ++ during) ->
  restart_safe false false (bases hs ++ during ++ [ORestart]) ->
  run_h psize merge co lexsort (table_with o fs) hs = Some (t, acks, ws) ->
  Forall (fun w => Forall (@NoDup _) (w_plans w)) ws ->
  run lexsort t during = Some (t1, a1) ->
  compact psize merge co (md_levels (t_md t)) (t_disk t1) = Ok w -> incl (map fst new) (map fst (w_new w)) ->
  exists t' ss, reopen (mkDisk (d_md (t_disk t1)) (d_logs (t_disk t1)) (new ++ d_parts (t_disk t1))) = Ok t'
    /\ scan_streams lexsort t' = Ok ss
    /\ Permutation (List.concat ss) (map (acked_row (schema_after fs (bases hs ++ during))) (acks ++ a1)).
Proof.
  intros psize merge co lexsort o fs hs t acks ws during t1 a1 w new HS HM H0 U Hr W RS R NP Rd HC Hn.
  pose proof U as (ND & Hic & Hl & _).
  destruct (table_with_inv o fs ltac:(lia) Hl ND) as (I0 & Es & Ep). destruct (new_linv o fs ltac:(lia) Hl ND) as [L0 F0].
  rewrite schema_after_app in *. apply Forall_app in W as [W1 W2].
  destruct (schema_after_prefix during (schema_after fs (bases hs))) as (y & Ey).
  destruct (schema_after_prefix (bases hs) fs) as (x & Ex).
  assert (W0 : Forall (wf_op (o_index_cols o) (schema_after fs (bases hs))) (bases hs)).
  { eapply Forall_impl; [|exact W1]. intros op. rewrite Ey. apply wf_op_shorter. rewrite Ex, app_length. lia. }
  assert (A0 : Acks (o_index_cols o) (table_with o fs) [] []) by (exists []; rewrite Ep; split; [constructor|split; constructor]).
  pose proof (run_h_acks psize merge co lexsort HS o hs Hr HM H0 (table_with o fs) [] false false [] t acks ws I0 A0 L0) as X.
  rewrite Es in X. destruct (X ltac:(lia) (usable_int _ _ U) W0 (restart_safe_prefix _ _ _ _ RS) R (or_intror NP)) as (mv & p & d & I1 & A1 & L1 & S1 & D1).
  clear X.
  apply D1 in RS.
  assert (Hic1 : o_index_cols o <= List.length (md_schema (t_md t))) by (rewrite S1, Ex, app_length; lia).
  assert (Fi : Forall (fun x => int_dt x = true) (firstn (o_index_cols o) (dts_of (md_schema (t_md t))))).
  { rewrite S1, Ex. unfold dts_of. rewrite map_app, firstn_prefix by (rewrite map_length; lia). now apply usable_int. }
  assert (RS1 := restart_safe_prefix _ _ _ _ RS). rewrite <- S1 in W2.
  destruct (run_acks_rest lexsort HS o during Hr t mv p d acks I1 A1 Hic1 Fi W2 RS1) as (t1' & new1 & mv1 & p1 & d1 & R1 & I2 & A2 & S2 & D2).
  rewrite Rd in R1. injection R1 as <- <-. rewrite S1 in S2. apply D2 in RS. cbn [restart_safe] in RS. destruct RS as [-> _].
  destruct (reopen_inv _ _ _ _ I2) as (t2 & E2 & I3 & Emd & Edisk & Emem).
  destruct (scan_acks lexsort HS _ _ _ _ _ _ I2 A2 Hr) as (ss & E & P).
  eexists _, ss. split; [eapply reopen_swap; [exact E2|reflexivity|reflexivity]|]. split; [|rewrite S2 in P; exact P].
  rewrite <- E. apply scan_same_files; cbn [t_md t_mem t_disk d_parts]; auto.
  intros q Hq. rewrite aget_app_. destruct (aget lp_dec q new) as [pf|] eqn:En; [|reflexivity]. exfalso.
  assert (Hc : In q (created w)).
  { unfold created. rewrite in_app_iff. left. apply Hn. apply aget_keys. congruence. }
  destruct (run_h_ids _ _ _ _ _ _ _ _ _ F0 R) as (Fm & Fne & FB).
  pose proof (run_ids _ _ _ _ _ (conj Fm (conj Fne FB)) Rd) as (F1m & F1ne & F1B).
  pose proof (run_deep _ _ _ _ _ (conj Fm (conj Fne FB)) Rd) as Dp.
  assert (B0 : bounded (md_levels (t_md t)) []) by (eapply bounded_sub; [exact FB|]; intros z Hz; now cbn in Hz).
  destruct q as [k i]. destruct (ci_new _ _ (compact_ids _ _ _ _ _ _ B0 HC) k i Hc) as (Hk & l0 & l & E0 & El & Hb).
  destruct k as [|k]; [contradiction|].
  apply in_map_iff in Hq as ([k' q] & Eq & Hq). unfold lp_path in Eq. cbn [fst snd] in Eq. injection Eq as -> <-.
  rewrite all_parts_at in Hq. apply parts_0_In in Hq as (lq & Elq & Hq).
  pose proof (F1B (S k) lq (p_id q) Elq (or_intror (in_map _ _ _ Hq))) as Hp. cbn [passed] in Hp.
  assert (lq = l0); [|subst; lia].
  destruct (md_levels (t_md t)) as [|x0 r0]; [contradiction|]. destruct (md_levels (t_md t1)) as [|x1 r1]; [contradiction|].
  cbn [tl nth_error] in *. congruence.
Qed.
Print Assumptions C87_crash_before_publishing.

(** After the metadata was written, for a pass without moves: any number of the old files may
    have been deleted. *)
Definition no_moves (ops : list FsOp) : Prop := forall a b, ~ In (Rename a b) ops.
Lemma deletes_some held ops : no_moves ops -> forall m, exists m', fs_ops held m ops = Some m'
  /\ forall p pf, aget lp_dec p m' = Some pf -> aget lp_dec p m = Some pf.
Proof.
  induction ops as [|o ops IH]; intros N m; cbn [fs_ops]; [exists m; auto|].
  assert (N' : no_moves ops) by (intros a b H; apply (N a b); now right).
  destruct o as [a b|a]; [exfalso; apply (N a b); now left|]. cbn [fs_op].
  destruct (held a); destruct (IH N' (if held a then m else adel lp_dec a m)) as (m' & E & H).
  - destruct (IH N' m) as (m2 & E2 & H2). eauto.
  - destruct (IH N' (adel lp_dec a m)) as (m2 & E2 & H2). exists m2. split; [exact E2|]. intros p pf G. apply H2 in G.
    destruct (lp_dec p a) as [->|Np]; [rewrite aget_adel_eq in G; discriminate|]. now rewrite aget_adel_ne in G by exact Np.
Qed.
Theorem C87_crash_after_publishing_partial :
  forall psize merge co lexsort o fs hs t acks ws during t1 a1 w held j,
  lexsort_contract lexsort -> merge_contract (o_index_cols o) merge -> 0 < c_l0_max co ->
  usable o fs -> o_replacing o = false ->
  Forall (wf_op (o_index_cols o) (schema_after fs (bases hs ++ during))) (bases hs ++ during) ->
  restart_safe false false (bases hs ++ during ++ [ORestart]) ->
  run_h psize merge co lexsort (table_with o fs) hs = Some (t, acks, ws) ->
  run lexsort t during = Some (t1, a1) ->
  compact psize merge co (md_levels (t_md t)) (t_disk t1) = Ok w ->
  Forall (fun w => Forall (@NoDup _) (w_plans w)) (w :: ws) -> no_moves (w_ops w) ->
  exists d' t' ss, publish_crash held t1 w j = Some d' /\ reopen d' = Ok t' /\ scan_streams lexsort t' = Ok ss
    /\ Permutation (List.concat ss) (map (acked_row (schema_after fs (bases hs ++ during))) (acks ++ a1)).
Proof.
  intros psize merge co lexsort o fs hs t acks ws during t1 a1 w held j HS HM H0 U Hr W RS R Rd HC NPs Hn.
  apply Forall_cons_iff in NPs as [NPw NP]. pose proof U as (ND & Hic & Hl & _).
  destruct (table_with_inv o fs ltac:(lia) Hl ND) as (I0 & Es & Ep). destruct (new_linv o fs ltac:(lia) Hl ND) as [L0 _].
  rewrite schema_after_app in *. apply Forall_app in W as [W1 W2].
  destruct (schema_after_prefix during (schema_after fs (bases hs))) as (y & Ey).
  destruct (schema_after_prefix (bases hs) fs) as (x & Ex).
  assert (W0 : Forall (wf_op (o_index_cols o) (schema_after fs (bases hs))) (bases hs)).
  { eapply Forall_impl; [|exact W1]. intros op. rewrite Ey. apply wf_op_shorter. rewrite Ex, app_length. lia. }
  assert (A0 : Acks (o_index_cols o) (table_with o fs) [] []) by (exists []; rewrite Ep; split; [constructor|split; constructor]).
  pose proof (run_h_acks psize merge co lexsort HS o hs Hr HM H0 (table_with o fs) [] false false [] t acks ws I0 A0 L0) as X.
  rewrite Es in X. destruct (X ltac:(lia) (usable_int _ _ U) W0 (restart_safe_prefix _ _ _ _ RS) R (or_intror NP)) as (mv & p & d & I1 & A1 & L1 & S1 & D1).
  clear X.
  apply D1 in RS.
  assert (Hic1 : o_index_cols o <= List.length (md_schema (t_md t))) by (rewrite S1, Ex, app_length; lia).
  assert (Fi : Forall (fun x => int_dt x = true) (firstn (o_index_cols o) (dts_of (md_schema (t_md t))))).
  { rewrite S1, Ex. unfold dts_of. rewrite map_app, firstn_prefix by (rewrite map_length; lia). now apply usable_int. }
  assert (RS1 := restart_safe_prefix _ _ _ _ RS). rewrite <- S1 in W2.
  destruct (run_acks_rest lexsort HS o during Hr t mv p d acks I1 A1 Hic1 Fi W2 RS1) as (t1' & new1 & mv1 & p1 & d1 & R1 & I2 & A2 & S2 & D2).
  rewrite Rd in R1. injection R1 as <- <-. rewrite S1 in S2.
  destruct (run_grows lexsort HS o during Hr t mv p d acks t1 a1 I1 A1 Hic1 Fi W2 RS1 Rd L1) as [G1 L2].
  apply D2 in RS. cbn [restart_safe] in RS. destruct RS as [-> _].
  destruct (pass_ok psize merge co o t t1 mv1 p1 false (acks ++ a1) held w HM H0 I2 A2 L2 G1 HC NPw) as (t2 & EP & I3 & A3 & L3 & S3).
  { intros l0 r q El Hq. exact (inv_l0_ids _ _ _ _ _ _ _ _ I1 El Hq). }
  destruct (reopen_inv _ _ _ _ I3) as (t3 & E3 & _ & Emd & Edisk & Emem).
  destruct (scan_acks lexsort HS _ _ _ _ _ _ I3 A3 Hr) as (ss & E & P).
  unfold publish in EP. destruct (fs_ops held (w_new w ++ d_parts (t_disk t1)) (w_ops w)) as [m|] eqn:Efs; [|discriminate].
  apply Ok_inj_ in EP. unfold publish_crash.
  rewrite <- (firstn_skipn j (w_ops w)) in Efs, Hn. rewrite fs_ops_app in Efs.
  destruct (fs_ops held (w_new w ++ d_parts (t_disk t1)) (firstn j (w_ops w))) as [mj|] eqn:Ej; [|discriminate].
  assert (Nj : no_moves (skipn j (w_ops w))) by (intros a b H; apply (Hn a b); rewrite in_app_iff; now right).
  destruct (deletes_some held _ Nj mj) as (m' & Em' & Sub). assert (m' = m) as -> by congruence.
  eexists _, _, ss. split; [reflexivity|]. split; [eapply reopen_swap; [exact E3| |]; subst t2; reflexivity|].
  split; [|rewrite S3, S2 in P; exact P].
  rewrite <- E. apply scan_same_files; cbn [t_md t_mem t_disk d_parts]; auto.
  intros q Hq. apply in_map_iff in Hq as (lp & <- & Hlp). pose proof (i_parts _ _ _ _ _ I3) as Pt. rewrite Forall_forall in Pt.
  destruct (Pt lp Hlp) as (pf & s1 & Eg & _). unfold lp_path. rewrite Eg. subst t2. cbn [t_disk d_parts] in Eg. now apply Sub.
Qed.
Print Assumptions C87_crash_after_publishing_partial.

Example C87_witness :
  match run_h row_count (ref_merge 1) co_wide stable_lexsort (table_with o_three [fK; fV]) four_parts with
  | Some (t, acks, ws) =>
    match run stable_lexsort t [OInsert (ins 7 "q"); OFlush] with
    | Some (t1, _) =>
      match compact row_count (ref_merge 1) co_wide (md_levels (t_md t)) (t_disk t1) with
      | Ok w => w_ops w = map Delete [(0, 2); (0, 3); (0, 4); (1, 1)] /\ map fst (w_new w) = [(1, 2)]
      | Err _ => False
      end
    | None => False
    end
  | None => False
  end
  /\ restart_safe false false (bases four_parts ++ [OInsert (ins 7 "q"); OFlush] ++ [ORestart]).
Proof. split; [vm_compute; split; reflexivity|cbn; tauto]. Qed.

(** Refuted with moves: as long as the rename of a moved part that the published metadata
    lists is still to be done, scans fail, and after a crash at that point every scan of the
    reopened table fails. *)
Lemma targets_In a b ops : In (Rename a b) ops -> In b (targets ops).
Proof. intros H. unfold targets. apply in_flat_map. exists (Rename a b). split; [exact H|now left]. Qed.
Theorem C87_crash_before_rename_refuted :
  forall psize merge co lexsort o fs hs t acks ws during t1 a1 w held j a b d',
  0 < o_index_cols o -> 0 < o_levels o -> NoDup (map f_name fs) ->
  run_h psize merge co lexsort (table_with o fs) hs = Some (t, acks, ws) ->
  run lexsort t during = Some (t1, a1) ->
  compact psize merge co (md_levels (t_md t)) (t_disk t1) = Ok w ->
  In (Rename a b) (skipn j (w_ops w)) -> In b (map lp_path (all_parts (md_compacted (t_md t1) w))) ->
  publish_crash held t1 w j = Some d' ->
  (exists e, scan_streams lexsort (mkTable (md_compacted (t_md t1) w) (t_mem t1) (t_logged t1) (t_log t1) d') = Err e)
  /\ (forall t', reopen d' = Ok t' -> exists e, scan_streams lexsort t' = Err e).
Proof.
  intros psize merge co lexsort o fs hs t acks ws during t1 a1 w held j a b d' Hi Hl ND R Rd HC Hin Hb HP.
  destruct (new_linv o fs Hi Hl ND) as [_ F0].
  destruct (run_h_ids _ _ _ _ _ _ _ _ _ F0 R) as (Fm & Fne & FB).
  pose proof (run_ids _ _ _ _ _ (conj Fm (conj Fne FB)) Rd) as (F1m & F1ne & F1B).
  pose proof (run_deep _ _ _ _ _ (conj Fm (conj Fne FB)) Rd) as Dp.
  assert (B0 : bounded (md_levels (t_md t)) []) by (eapply bounded_sub; [exact FB|]; intros z Hz; now cbn in Hz).
  pose proof (compact_ids _ _ _ _ _ _ B0 HC) as [Cl Cm Cp Cn Cd].
  unfold publish_crash in HP. destruct (fs_ops held _ (firstn j (w_ops w))) as [mj|] eqn:Ej; [|discriminate]. apply some_inj in HP. subst d'.
  assert (Hmiss : aget lp_dec b mj = None).
  { destruct (aget lp_dec b mj) as [pf|] eqn:Eb; [|reflexivity]. exfalso.
    assert (In b (map fst (w_new w)) \/ In b (targets (firstn j (w_ops w))) \/ aget lp_dec b (d_parts (t_disk t1)) <> None) as X.
    { destruct (fs_ops_targets held (firstn j (w_ops w)) b _ _ Ej ltac:(congruence)) as [G|G]; [|auto].
      rewrite aget_app_ in G. destruct (aget lp_dec b (w_new w)) eqn:En; [left; apply aget_keys; congruence|auto]. }
    unfold created in Cd, Cn. rewrite <- (firstn_skipn j (w_ops w)), targets_app in Cd, Cn.
    assert (Hc : In b (map fst (w_new w) ++ targets (firstn j (w_ops w)) ++ targets (skipn j (w_ops w)))).
    { rewrite !in_app_iff. right. right. eapply targets_In; exact Hin. }
    apply targets_In in Hin. rewrite app_assoc in Cd.
    destruct X as [X|[X|X]].
    - eapply NoDup_app_disjoint; [exact Cd| |exact Hin]. rewrite in_app_iff. now left.
    - eapply NoDup_app_disjoint; [exact Cd| |exact Hin]. rewrite in_app_iff. now right.
    - destruct b as [k i]. destruct (Cn k i Hc) as (Hk & l0 & l & E0 & El & Hbd). destruct k as [|k]; [contradiction|].
      assert (exists lr, nth_error (md_levels (t_md t1)) (S k) = Some lr /\ lr = l0) as (lr & Er & ->).
      { destruct (md_levels (t_md t)) as [|x0 r0]; [contradiction|]. destruct (md_levels (t_md t1)) as [|x1 r1]; [contradiction|].
        cbn [tl nth_error] in *. subst r1. eauto. }
      pose proof (F1B (S k) l0 i Er (or_introl X)) as Hp. cbn [passed] in Hp. lia. }
  apply in_map_iff in Hb as (lp & <- & Hlp).
  split; [|intros t' Hr]; apply (scan_missing lexsort _ lp).
  - exact Hlp.
  - exact Hmiss.
  - unfold reopen in Hr. cbn [d_md] in Hr. destruct (max_id _); [|discriminate]. destruct (aget N.eq_dec _ _); [|discriminate].
    destruct (recover_log _ _); [|discriminate]. destruct (replay _ _); [|discriminate]. apply Ok_inj_ in Hr. subst t'. exact Hlp.
  - unfold reopen in Hr. cbn [d_md] in Hr. destruct (max_id _); [|discriminate]. destruct (aget N.eq_dec _ _); [|discriminate].
    destruct (recover_log _ _); [|discriminate]. destruct (replay _ _); [|discriminate]. apply Ok_inj_ in Hr. subst t'. exact Hmiss.
Qed.
Print Assumptions C87_crash_before_rename_refuted.
Example C87_rename_witness :
  match run_h row_count (ref_merge 1) co_wide stable_lexsort (table_with o_four [fK; fV]) four_parts with
  | Some (t, acks, ws) =>
    match compact row_count (ref_merge 1) co_wide (md_levels (t_md t)) (t_disk t) with
    | Ok w => skipn 4 (w_ops w) = [Rename (1, 2) (2, 1)] /\ map lp_path (all_parts (md_compacted (t_md t) w)) = [(2, 1)]
              /\ match publish_crash nobody t w 4 with Some d' => match reopen d' with Ok _ => True | Err _ => False end | None => False end
    | Err _ => False
    end
  | None => False
  end.
Proof. vm_compute. repeat split; reflexivity. Qed.

(** ** C88: a compaction pass always completes *)
(** With two or three levels, and if merging files does not fail, every pass completes. *)
Theorem C88_three_levels_complete_partial :
  forall psize merge co lexsort o fs hs t acks ws during t1 a1,
  lexsort_contract lexsort -> merge_contract (o_index_cols o) merge -> (forall k files e, merge k files <> Err e) -> 0 < c_l0_max co ->
  usable o fs -> o_replacing o = false -> 2 <= o_levels o <= 3 ->
  Forall (wf_op (o_index_cols o) (schema_after fs (bases hs ++ during))) (bases hs ++ during) ->
  restart_safe false false (bases hs ++ during) ->
  run_h psize merge co lexsort (table_with o fs) hs = Some (t, acks, ws) ->
  run lexsort t during = Some (t1, a1) ->
  exists w, compact psize merge co (md_levels (t_md t)) (t_disk t1) = Ok w /\ forall held, exists t2, publish held t1 w = Ok t2.
Proof.
  intros psize merge co lexsort o fs hs t acks ws during t1 a1 HS HM Hok H0 U Hr Hlev W RS R Rd.
  pose proof U as (ND & Hic & Hl & _).
  destruct (table_with_inv o fs ltac:(lia) Hl ND) as (I0 & Es & Ep). destruct (new_linv o fs ltac:(lia) Hl ND) as [L0 F0].
  rewrite schema_after_app in *. apply Forall_app in W as [W1 W2].
  destruct (schema_after_prefix during (schema_after fs (bases hs))) as (y & Ey).
  destruct (schema_after_prefix (bases hs) fs) as (x & Ex).
  assert (H3 : List.length (md_levels (t_md (table_with o fs))) <= 3) by (rewrite new_levels, repeat_length; lia).
  assert (W0 : Forall (wf_op (o_index_cols o) (schema_after fs (bases hs))) (bases hs)).
  { eapply Forall_impl; [|exact W1]. intros op. rewrite Ey. apply wf_op_shorter. rewrite Ex, app_length. lia. }
  assert (A0 : Acks (o_index_cols o) (table_with o fs) [] []) by (exists []; rewrite Ep; split; [constructor|split; constructor]).
  pose proof (run_h_acks psize merge co lexsort HS o hs Hr HM H0 (table_with o fs) [] false false [] t acks ws I0 A0 L0) as X.
  rewrite Es in X. destruct (X ltac:(lia) (usable_int _ _ U) W0 (restart_safe_prefix _ _ _ _ RS) R (or_introl H3)) as (mv & p & d & I1 & A1 & L1 & S1 & D1).
  clear X.
  apply D1 in RS.
  assert (Hic1 : o_index_cols o <= List.length (md_schema (t_md t))) by (rewrite S1, Ex, app_length; lia).
  assert (Fi : Forall (fun x => int_dt x = true) (firstn (o_index_cols o) (dts_of (md_schema (t_md t))))).
  { rewrite S1, Ex. unfold dts_of. rewrite map_app, firstn_prefix by (rewrite map_length; lia). now apply usable_int. }
  rewrite <- S1 in W2.
  destruct (run_acks_rest lexsort HS o during Hr t mv p d acks I1 A1 Hic1 Fi W2 RS) as (t1' & new1 & mv1 & p1 & d1 & R1 & I2 & A2 & S2 & _).
  rewrite Rd in R1. injection R1 as <- <-.
  destruct (run_grows lexsort HS o during Hr t mv p d acks t1 a1 I1 A1 Hic1 Fi W2 RS Rd L1) as [G1 L2].
  assert (Len : List.length (md_levels (t_md t)) = o_levels o).
  { rewrite (run_h_len _ _ _ _ _ _ _ _ _ F0 R), new_levels, repeat_length. reflexivity. }
  assert (Files : forall q, In q (map lp_path (parts_at 0 (md_levels (t_md t)))) -> exists pf, aget lp_dec q (d_parts (t_disk t1)) = Some pf).
  { intros q Hq. apply in_map_iff in Hq as ([k z] & <- & Hz). pose proof (i_parts _ _ _ _ _ I2) as Pt. rewrite Forall_forall in Pt.
    destruct (Pt (k, z)) as (pf & s1 & Eg & _); [|unfold lp_path; cbn [fst snd] in *; eauto].
    rewrite all_parts_at. apply parts_0_In in Hz as (l & El & Hz). apply parts_0_In.
    destruct G1 as (l0 & l0' & r & ex & E1 & E2 & E3 & _). rewrite E1 in El. rewrite E2. destruct k as [|k]; cbn [nth_error] in *.
    - injection El as <-. exists l0'. split; [reflexivity|]. rewrite E3, in_app_iff. now left.
    - exists l. auto. }
  assert (EC : exists w, compact psize merge co (md_levels (t_md t)) (t_disk t1) = Ok w).
  { unfold compact. destruct (Nat.ltb_spec (List.length (md_levels (t_md t))) 2); [lia|].
    assert (o_levels o - 2 = 0 \/ o_levels o - 2 = 1) as [E|E] by lia; rewrite Len, E; cbn [seq compact_loop]; [eauto|].
    unfold compact_level. cbn [w_levels].
    destruct (nth_error (md_levels (t_md t)) 0) as [l|] eqn:E0; [|apply nth_error_None in E0; lia].
    destruct (nth_error (md_levels (t_md t)) 1) as [ln|] eqn:E1; [|apply nth_error_None in E1; lia].
    destruct (determine psize co 0 l ln) as [tc|] eqn:Ed; [|eauto].
    destruct (determine_paths psize co _ _ _ _ _ E0 E1 Ed) as (Hincl & Hne & H2 & _). specialize (H2 eq_refl H0).
    assert (M : exists w, merge_parts merge (t_disk t1) (mkCW (md_levels (t_md t)) [] [] [] []) 0 tc = Ok w).
    { unfold merge_parts. cbn [w_levels w_new]. rewrite E1.
      assert (exists files, mapM (read_part [] (t_disk t1)) tc = Some files) as (files & ->).
      { clear - Hincl Files. induction tc as [|q tc IH]; cbn [mapM]; [eauto|].
        destruct (Files q) as (pf & Ef); [apply Hincl; now left|]. unfold read_part at 1. cbn [aget]. rewrite Ef.
        destruct IH as (fl & ->); [intros z Hz; apply Hincl; now right|]. eauto. }
      destruct (merge 0 files) as [outs|e] eqn:Em; [eauto|]. exfalso. exact (Hok _ _ _ Em). }
    destruct M as (w & Ew). destruct tc as [|[k' id] [|q tc]]; [contradiction|cbn in H2; lia|]. rewrite Ew. eauto. }
  destruct EC as (w & EC).
  assert (NPw : Forall (@NoDup _) (w_plans w)).
  { eapply short_plans; [|rewrite Len; lia|exact EC]. rewrite <- all_parts_at. apply L1. }
  exists w. split; [exact EC|]. intros held.
  destruct (pass_ok psize merge co o t t1 mv1 p1 d1 (acks ++ a1) held w HM H0 I2 A2 L2 G1 EC NPw) as (t2 & EP & _).
  { intros l0 r q El Hq. exact (inv_l0_ids _ _ _ _ _ _ _ _ I1 El Hq). }
  exists t2. exact EP.
Qed.
Print Assumptions C88_three_levels_complete_partial.
Example C88_witness :
  match run_h row_count (ref_merge 1) co_wide stable_lexsort (table_with o_three [fK; fV]) (four_parts ++ [HPass [OInsert (ins 7 "q")] nobody]) with
  | Some (t, acks, ws) => List.length ws = 2 /\ List.length acks = 6
  | None => False
  end /\ forall k files e, ref_merge 1 k files <> Err e.
Proof. split; [vm_compute; split; reflexivity|discriminate]. Qed.

(** Refuted for fewer than two levels: the pass panics whatever the table holds. *)
Theorem C88_one_level_refuted :
  forall psize merge co levels d, List.length levels < 2 -> compact psize merge co levels d = Err Panic.
Proof. intros psize merge co levels d H. unfold compact. destruct (Nat.ltb_spec (List.length levels) 2); [reflexivity|lia]. Qed.
Print Assumptions C88_one_level_refuted.
(** Refuted for deeper tables: a pass that moves a part and then selects it again together
    with another one reads the file under its new name, which does not exist yet. *)
Definition o_five := mkOptions 1 false 5 100000.
Definition co_zero := mkCO 1 0 10 100 10.
Theorem C88_moved_part_merged_refuted :
  exists t acks ws,
    run_h row_count (ref_merge 1) co_zero stable_lexsort (table_with o_five [fK; fV])
      [HBase (OInsert (ins 1 "a")); HBase OFlush; HBase (OInsert (ins 5 "b")); HBase OFlush; HPass [] nobody;
       HBase (OInsert (ins 2 "a")); HBase OFlush; HBase (OInsert (ins 6 "b")); HBase OFlush] = Some (t, acks, ws)
    /\ List.length acks = 4
    /\ compact row_count (ref_merge 1) co_zero (md_levels (t_md t)) (t_disk t) = Err Panic.
Proof.
  eexists _, _, _. split; [vm_compute; reflexivity|]. split; vm_compute; reflexivity.
Qed.
Print Assumptions C88_moved_part_merged_refuted.
