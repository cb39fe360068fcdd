(** Properties of one table over its lifetime: C05, C06, C07, C08, C23, C68. *)
From Coq Require Import List NArith ZArith Lia Bool Permutation Sorted String.
From Verif Require Import Bytes BytesFacts Value ValueFacts Log LogFacts AMap Order
  Memtable ListFacts MemtableFacts ReplacingFacts MemtableProject Table TableSpec TableFacts TableHistory TableUse.
Import ListNotations.
Local Open Scope string_scope.

(** ** Sample tables used by the witnesses *)
Definition fK := mkField "k" DInt64 false.
Definition fT := mkField "t" DTimestamp false.
Definition fV := mkField "v" DString true.
Definition fW := mkField "w" DInt64 true.
Definition o_log := mkOptions 1 false 2 100000.
Definition o_small := mkOptions 1 false 2 60.
Definition o_rep := mkOptions 2 true 2 100000.
Definition ins (k : Z) (v : string) : list NamedValue :=
  [("k", VInt64 (Some k)); ("v", VString (Some (map (fun c => Ascii.N_of_ascii c) (list_ascii_of_string v))))].
Definition insw (k w : Z) : list NamedValue := [("k", VInt64 (Some k)); ("w", VInt64 (Some w))].
Definition insr (k t : Z) : list NamedValue := [("k", VInt64 (Some k)); ("t", VTimestamp (Some t)); ("w", VInt64 (Some t))].

Lemma usable_log : usable o_log [fK; fV].
Proof.
  split; [repeat constructor; cbn; intuition discriminate|]. split; [cbn; lia|]. split; [cbn; lia|].
  split; [repeat constructor|discriminate].
Qed.
Lemma usable_small : usable o_small [fK; fV].
Proof.
  split; [repeat constructor; cbn; intuition discriminate|]. split; [cbn; lia|]. split; [cbn; lia|].
  split; [repeat constructor|discriminate].
Qed.
Lemma usable_rep : usable o_rep [fK; fT; fW].
Proof.
  split; [repeat constructor; cbn; intuition discriminate|]. split; [cbn; lia|]. split; [cbn; lia|].
  split; [repeat constructor|]. intros _. split; [reflexivity|].
  apply Forall_cons; [now left|]. apply Forall_cons; [now right|]. constructor.
Qed.

Ltac loggable_tac :=
  repeat split; cbn; try lia; repeat (constructor; cbn; unfold int_ok, bytes_ok, is_bytes; cbn; try lia; repeat split);
  try lia; repeat constructor; lia.
Ltac wf_tac :=
  repeat (apply Forall_cons || apply Forall_nil); cbn [wf_op];
  first [ exact Logic.I
        | split; [reflexivity|];
          let n := fresh "n" in let pk := fresh "pk" in let H := fresh "H" in
          intros n pk H; vm_compute in H; injection H as <-;
          destruct n as [|[|[|[|n]]]]; cbn [firstn]; rewrite ?firstn_nil; loggable_tac ].

(** A history with an automatic flush, explicit flushes, garbage collection and restarts. *)
Definition sample_history : list Op :=
  [OInsert (ins 5 "a"); OInsert (ins 3 "bc"); ORestart; OInsert (ins 5 "d"); OFlush; OGc;
   OInsert (ins 4 "e"); OInsert (ins 1 "f"); ORestart; OInsert [("k", VInt64 (Some 9%Z))]].
Lemma sample_history_wf : Forall (wf_op 1 (schema_after [fK; fV] sample_history)) sample_history.
Proof. unfold sample_history, ins. wf_tac. Qed.

Lemma restart_safe_app ops : forall p d, restart_safe p d (ops ++ [ORestart]) -> restart_safe p d ops.
Proof.
  induction ops as [|o ops IH]; intros p d; cbn; [auto|]. destruct o; auto. intros [H1 H2]. auto.
Qed.
(** Without added columns every history is safe to restart. *)
Lemma restart_safe_fixed ops : (forall f, ~ In (OAddField f) ops) -> forall p, restart_safe p false ops.
Proof.
  induction ops as [|o ops IH]; intros H p; cbn; [auto|].
  assert (H' : forall f, ~ In (OAddField f) ops) by (intros f Hf; apply (H f); now right).
  destruct o; auto. exfalso. apply (H f). now left.
Qed.
Lemma schema_after_fixed ops fs : (forall f, ~ In (OAddField f) ops) -> schema_after fs ops = fs.
Proof.
  revert fs. induction ops as [|o ops IH]; intros fs H; [reflexivity|].
  assert (H' : forall f, ~ In (OAddField f) ops) by (intros f Hf; apply (H f); now right).
  destruct o as [vals| |f| |]; try (apply IH; exact H'). exfalso. apply (H f). now left.
Qed.

(** ** C05: reopening *)
(** Full statement (refuted below): for every reachable table, closing and reopening
    reproduces the unflushed rows.  Proved: when every unflushed row was written after
    the last column was added. *)
Theorem C05_reopen_same_rows_partial :
  forall lexsort o fs ops t acks,
  lexsort_contract lexsort -> usable o fs ->
  Forall (wf_op (o_index_cols o) (schema_after fs ops)) ops ->
  restart_safe false false (ops ++ [ORestart]) ->
  run lexsort (table_with o fs) ops = Some (t, acks) ->
  exists t', reopen (t_disk t) = Ok t' /\ t_mem t' = t_mem t /\ t_md t' = t_md t
    /\ scan_streams lexsort t' = scan_streams lexsort t.
Proof.
  intros lexsort o fs ops t acks HS U W RS R. pose proof U as (ND & Hic & Hl & _).
  destruct (table_with_inv o fs ltac:(lia) Hl ND) as (I0 & Es & _).
  destruct (run_inv lexsort HS o ops (table_with o fs) [] false false I0)
    as (t1 & new & mv & p & d & R1 & I1 & _ & _ & D); rewrite ?Es; auto.
  { now apply restart_safe_app. }
  rewrite R in R1. injection R1 as <- <-. rewrite (D RS) in I1.
  destruct (reopen_inv _ _ _ _ I1) as (t' & E & _ & Emd & Ed & Em).
  exists t'. split; [exact E|]. split; [exact Em|]. split; [exact Emd|].
  unfold scan_streams. rewrite Em, Emd. unfold part_rows. rewrite Emd, Ed. reflexivity.
Qed.
Print Assumptions C05_reopen_same_rows_partial.

Example C05_witness : exists t acks,
  usable o_log [fK; fV] /\ Forall (wf_op 1 (schema_after [fK; fV] sample_history)) sample_history
  /\ restart_safe false false (sample_history ++ [ORestart])
  /\ run stable_lexsort (table_with o_log [fK; fV]) sample_history = Some (t, acks)
  /\ mt_len (t_mem t) = 3.
Proof.
  eexists _, _. split; [exact usable_log|]. split; [exact sample_history_wf|].
  split; [cbn; tauto|]. split; vm_compute; reflexivity.
Qed.

(** A column added between an insert and a restart: after reopening, the row written
    before the column was added has taken the new column's value of the row written
    after it, and no scan of the table succeeds. *)
Definition late_column : list Op :=
  [OInsert (insw 1 10); OAddField (mkField "x" DInt64 true);
   OInsert [("k", VInt64 (Some 2%Z)); ("w", VInt64 (Some 20%Z)); ("x", VInt64 (Some 7%Z))]].
Theorem C05_added_column_refuted :
  exists t acks t', run stable_lexsort (table_with o_log [fK; fW]) late_column = Some (t, acks)
    /\ scan_streams stable_lexsort t
       = Ok [[[Some (AInt 1); Some (AInt 10); None]; [Some (AInt 2); Some (AInt 20); Some (AInt 7)]]]%Z
    /\ reopen (t_disk t) = Ok t'
    /\ (forall ss, scan_streams stable_lexsort t' <> Ok ss)
    /\ mt_get (t_mem t') [KInt64 1%Z] = Ok (Some [VInt64 (Some 1); VInt64 (Some 10); VInt64 (Some 7)]%Z).
Proof.
  eexists _, _, _. split; [vm_compute; reflexivity|]. split; [vm_compute; reflexivity|].
  split; [vm_compute; reflexivity|]. split; [|vm_compute; reflexivity].
  intros ss H. vm_compute in H. discriminate.
Qed.
Print Assumptions C05_added_column_refuted.

(** ** C06: flush *)
Theorem C06_flush_preserves_contents :
  forall lexsort o fs ops t acks ss,
  lexsort_contract lexsort -> usable o fs ->
  Forall (wf_op (o_index_cols o) (schema_after fs ops)) ops -> restart_safe false false ops ->
  run lexsort (table_with o fs) ops = Some (t, acks) ->
  scan_streams lexsort t = Ok ss ->
  exists t' ss', flush lexsort t = (t', Ok tt) /\ scan_streams lexsort t' = Ok ss'
    /\ Permutation (List.concat ss') (List.concat ss) /\ mt_len (t_mem t') = 0.
Proof.
  intros lexsort o fs ops t acks ss HS U W RS R S. pose proof U as (ND & Hic & Hl & _).
  destruct (table_with_inv o fs ltac:(lia) Hl ND) as (I0 & Es & _).
  destruct (run_inv lexsort HS o ops (table_with o fs) [] false false I0)
    as (t1 & new & mv & p & d & R1 & I1 & _ & U1 & _); rewrite ?Es; auto.
  rewrite R in R1. injection R1 as <- <-.
  destruct (flush_scan lexsort HS _ _ _ _ _ _ I1 U1 S) as (t' & ss' & E & S' & P).
  exists t', ss'. split; [exact E|]. split; [exact S'|]. split; [exact P|].
  destruct (flush_any lexsort HS _ _ _ _ _ I1 U1) as (t2 & E2 & I2 & _). rewrite E in E2. injection E2 as <-.
  eapply inv_mem_empty. exact I2.
Qed.
Print Assumptions C06_flush_preserves_contents.

Definition rep_history : list Op := [OInsert (insr 1 5); OInsert (insr 1 5); OFlush; OInsert (insr 2 4); OInsert (insr 1 5)].
Example C06_witness :
  usable o_rep [fK; fT; fW] /\ Forall (wf_op 2 (schema_after [fK; fT; fW] rep_history)) rep_history
  /\ restart_safe false false rep_history
  /\ exists t acks ss, run stable_lexsort (table_with o_rep [fK; fT; fW]) rep_history = Some (t, acks)
    /\ scan_streams stable_lexsort t = Ok ss /\ List.length (List.concat ss) = 3.
Proof.
  split; [exact usable_rep|]. split; [unfold rep_history, insr; wf_tac|]. split; [cbn; tauto|].
  eexists _, _, _. split; [vm_compute; reflexivity|]. split; vm_compute; reflexivity.
Qed.

(** ** C07: acknowledged inserts of an append-only table *)
Theorem C07_acknowledged_inserts_survive :
  forall lexsort o fs ops,
  lexsort_contract lexsort -> usable o fs -> o_replacing o = false ->
  (forall f, ~ In (OAddField f) ops) -> Forall (wf_op (o_index_cols o) fs) ops ->
  exists t acks ss, run lexsort (table_with o fs) ops = Some (t, acks)
    /\ scan_streams lexsort t = Ok ss
    /\ Permutation (List.concat ss) (map (acked_row fs) acks).
Proof.
  intros lexsort o fs ops HS U Hr Hf W. pose proof U as (ND & Hic & Hl & _).
  destruct (table_with_inv o fs ltac:(lia) Hl ND) as (I0 & Es & Ep).
  destruct (run_acks lexsort HS o ops Hr (table_with o fs) [] false false [] I0)
    as (t & new & mv & p & d & R & I1 & A1 & S1 & _); rewrite ?Es.
  - exists []. rewrite Ep. split; [constructor|split; constructor].
  - lia.
  - now apply usable_int.
  - now rewrite schema_after_fixed.
  - now apply restart_safe_fixed.
  - destruct (scan_acks lexsort HS _ _ _ _ _ _ I1 A1 Hr) as (ss & E & P).
    exists t, new, ss. split; [exact R|]. split; [exact E|].
    rewrite S1, Es, schema_after_fixed in P by exact Hf. exact P.
Qed.
Print Assumptions C07_acknowledged_inserts_survive.

(** The same when columns are added, provided rows older than the newest column are
    flushed before a restart. *)
Theorem C07_with_added_columns :
  forall lexsort o fs ops,
  lexsort_contract lexsort -> usable o fs -> o_replacing o = false ->
  Forall (wf_op (o_index_cols o) (schema_after fs ops)) ops -> restart_safe false false ops ->
  exists t acks ss, run lexsort (table_with o fs) ops = Some (t, acks)
    /\ scan_streams lexsort t = Ok ss
    /\ Permutation (List.concat ss) (map (acked_row (schema_after fs ops)) acks).
Proof.
  intros lexsort o fs ops HS U Hr W RS. pose proof U as (ND & Hic & Hl & _).
  destruct (table_with_inv o fs ltac:(lia) Hl ND) as (I0 & Es & Ep).
  destruct (run_acks lexsort HS o ops Hr (table_with o fs) [] false false [] I0)
    as (t & new & mv & p & d & R & I1 & A1 & S1 & _); rewrite ?Es; auto.
  - exists []. rewrite Ep. split; [constructor|split; constructor].
  - lia.
  - now apply usable_int.
  - destruct (scan_acks lexsort HS _ _ _ _ _ _ I1 A1 Hr) as (ss & E & P).
    exists t, new, ss. split; [exact R|]. split; [exact E|]. now rewrite S1, Es in P.
Qed.
Print Assumptions C07_with_added_columns.

(** Every insert of the sample is acknowledged, so the theorem speaks about six rows. *)
Example C07_witness :
  usable o_small [fK; fV] /\ o_replacing o_small = false /\ (forall f, ~ In (OAddField f) sample_history)
  /\ Forall (wf_op 1 [fK; fV]) sample_history
  /\ exists t acks ss, run stable_lexsort (table_with o_small [fK; fV]) sample_history = Some (t, acks)
    /\ List.length acks = 6 /\ scan_streams stable_lexsort t = Ok ss /\ List.length ss = 4
    /\ In [Some (AInt 9); None]%Z (List.concat ss).
Proof.
  split; [exact usable_small|]. split; [reflexivity|].
  split; [intros f H; cbn in H; intuition discriminate|]. split; [exact sample_history_wf|].
  eexists _, _, _. split; [vm_compute; reflexivity|]. split; [reflexivity|]. split; [vm_compute; reflexivity|].
  split; [reflexivity|]. cbn. auto 10.
Qed.
Example C07_added_witness :
  let ops := [OInsert (ins 1 "a"); OAddField fW; OInsert (insw 2 7); OFlush; ORestart; OInsert (insw 3 8)] in
  Forall (wf_op 1 (schema_after [fK; fV] ops)) ops /\ restart_safe false false ops /\
  exists t acks, run stable_lexsort (table_with o_log [fK; fV]) ops = Some (t, acks) /\ List.length acks = 3.
Proof.
  split; [unfold ins, insw; wf_tac|]. split; [cbn; auto|].
  eexists _, _. split; vm_compute; reflexivity.
Qed.

(** ** C08: crash inside a flush *)
(** Full statement (refuted below): for every reachable table and every crash point [k],
    the table reopens and a scan returns the acknowledged rows, each once. *)
(** Proved: a crash that leaves only the new part file behind is harmless.  The scan is
    unchanged, and once the garbage collector has removed the orphan, every later
    history behaves as if the crash had not happened. *)
Theorem C08_crash_before_metadata_partial :
  forall lexsort o fs ops t acks later,
  lexsort_contract lexsort -> usable o fs -> o_replacing o = false ->
  Forall (wf_op (o_index_cols o) (schema_after fs ops)) ops ->
  restart_safe false false (ops ++ [ORestart]) ->
  run lexsort (table_with o fs) ops = Some (t, acks) -> mt_len (t_mem t) <> 0 ->
  (forall f, ~ In (OAddField f) later) ->
  Forall (wf_op (o_index_cols o) (schema_after fs ops)) later ->
  exists t1 t2 acks2 ss, reopen (flush_crash lexsort t 1) = Ok t1
    /\ scan_streams lexsort t1 = scan_streams lexsort t
    /\ run lexsort (gc t1) later = Some (t2, acks2)
    /\ scan_streams lexsort t2 = Ok ss
    /\ Permutation (List.concat ss) (map (acked_row (schema_after fs ops)) (acks ++ acks2)).
Proof.
  intros lexsort o fs ops t acks later HS U Hr W RS R Hne Hf WL. pose proof U as (ND & Hic & Hl & _).
  destruct (table_with_inv o fs ltac:(lia) Hl ND) as (I0 & Es & Ep).
  assert (RS0 := restart_safe_app _ _ _ RS).
  destruct (run_acks lexsort HS o ops Hr (table_with o fs) [] false false [] I0)
    as (t0 & new & mv & p & d & R1 & I1 & A1 & S1 & D); rewrite ?Es; auto.
  { exists []. rewrite Ep. split; [constructor|split; constructor]. }
  { lia. }
  { now apply usable_int. }
  rewrite R in R1. injection R1 as <- <-. cbn [app] in A1. rewrite (D RS) in I1. rewrite Es in S1.
  assert (U1 : usable o (md_schema (t_md t))).
  { destruct (schema_after_prefix ops fs) as [r Er]. rewrite S1, Er. apply usable_app; [exact U|].
    rewrite <- Er. now apply schema_after_names. }
  assert (Mne : mv <> []).
  { intros ->. apply Hne. eapply inv_mem_empty. exact I1. }
  destruct (crash_orphan lexsort HS _ _ _ _ I1 U1 Mne) as (t1 & Rc & Emd & Emem & Sc & Ig & Kp).
  destruct (run_acks lexsort HS o later Hr (gc t1) mv p false acks Ig)
    as (t2 & new2 & mv2 & p2 & d2 & R2 & I2 & A2 & S2 & _).
  - eapply acks_keep; [exact Emd|exact Kp|exact A1].
  - change (t_md (gc t1)) with (t_md t1). rewrite Emd. destruct U1 as (_ & H & _). lia.
  - change (t_md (gc t1)) with (t_md t1). rewrite Emd. now apply usable_int.
  - change (t_md (gc t1)) with (t_md t1). rewrite Emd, S1, schema_after_fixed by exact Hf. exact WL.
  - now apply restart_safe_fixed.
  - destruct (scan_acks lexsort HS _ _ _ _ _ _ I2 A2 Hr) as (ss & E & P).
    exists t1, t2, new2, ss. split; [exact Rc|]. split; [exact Sc|]. split; [exact R2|]. split; [exact E|].
    change (t_md (gc t1)) with (t_md t1) in S2. rewrite S2, Emd, S1, schema_after_fixed in P by exact Hf. exact P.
Qed.
Print Assumptions C08_crash_before_metadata_partial.

Example C08_witness : exists t acks,
  restart_safe false false (sample_history ++ [ORestart])
  /\ run stable_lexsort (table_with o_log [fK; fV]) sample_history = Some (t, acks) /\ mt_len (t_mem t) = 3
  /\ Forall (wf_op 1 (schema_after [fK; fV] sample_history)) [OInsert (ins 8 "z"); OFlush; ORestart]
  /\ List.length (d_parts (flush_crash stable_lexsort t 1)) = 2.
Proof.
  eexists _, _. split; [cbn; tauto|]. split; [vm_compute; reflexivity|]. split; [reflexivity|].
  split; [unfold ins; wf_tac|vm_compute; reflexivity].
Qed.

(** Crash after the metadata write: every unflushed row is returned twice. *)
Theorem C08_crash_after_metadata_refuted :
  exists t acks t', run stable_lexsort (table_with o_log [fK; fV]) [OInsert (ins 1 "a"); OInsert (ins 2 "b")] = Some (t, acks)
    /\ reopen (flush_crash stable_lexsort t 2) = Ok t'
    /\ List.length acks = 2
    /\ exists ss, scan_streams stable_lexsort t' = Ok ss /\ List.length (List.concat ss) = 4.
Proof.
  eexists _, _, _. split; [vm_compute; reflexivity|]. split; [vm_compute; reflexivity|]. split; [reflexivity|].
  eexists. split; vm_compute; reflexivity.
Qed.
Print Assumptions C08_crash_after_metadata_refuted.

(** Crash after the old log was removed, or in the middle of writing the metadata file:
    the table cannot be opened any more, for every table that can be flushed. *)
Theorem C08_crash_after_log_removal_refuted :
  forall lexsort o fs ops t acks,
  lexsort_contract lexsort -> usable o fs ->
  Forall (wf_op (o_index_cols o) (schema_after fs ops)) ops -> restart_safe false false ops ->
  run lexsort (table_with o fs) ops = Some (t, acks) -> mt_len (t_mem t) <> 0 ->
  (exists e, reopen (flush_crash lexsort t 3) = Err e)
  /\ (exists e, reopen (mkDisk None (d_logs (t_disk t)) (d_parts (t_disk t))) = Err e).
Proof.
  intros lexsort o fs ops t acks HS U W RS R Hne. pose proof U as (ND & Hic & Hl & _).
  destruct (table_with_inv o fs ltac:(lia) Hl ND) as (I0 & Es & Ep).
  destruct (run_inv lexsort HS o ops (table_with o fs) [] false false I0)
    as (t1 & new & mv & p & d & R1 & I1 & S1 & U1 & D); rewrite ?Es; auto.
  rewrite R in R1. injection R1 as <- <-.
  assert (Mne : mv <> []).
  { intros ->. apply Hne. eapply inv_mem_empty. exact I1. }
  destruct (level0_part_inv lexsort HS _ _ _ _ _ I1 U1 Mne) as (pt & pf & E0 & Fresh).
  split; [|eexists; reflexivity].
  destruct (i_log _ _ _ _ _ I1) as [_ (lops & L & _ & _)].
  unfold flush_crash. rewrite E0. cbn [firstn flush_effects apply_effects apply_effect]. rewrite Fresh.
  cbn [d_logs d_md d_parts md_flushed md_log_id]. rewrite L.
  replace (md_log_id (t_md t) + 1 - 1)%N with (md_log_id (t_md t)) by lia.
  cbn [aget]. destruct (N.eq_dec (md_log_id (t_md t)) (md_log_id (t_md t))) as [_|C]; [|congruence].
  cbn [fst]. unfold reopen. cbn [d_md d_logs].
  cbn [adel]. destruct (N.eq_dec (md_log_id (t_md t)) (md_log_id (t_md t))) as [_|C]; [|congruence].
  cbn. eauto.
Qed.
Print Assumptions C08_crash_after_log_removal_refuted.

(** Crash after the part file was created, reopen, and a flush before the garbage
    collector has run: the flush fails, the unflushed rows disappear from scans; after
    garbage collection and one more insert and flush they are gone for good. *)
Theorem C08_orphan_part_loses_rows_refuted :
  exists t acks t1 t2 r t3 acks3, run stable_lexsort (table_with o_log [fK; fV]) [OInsert (ins 1 "a"); OInsert (ins 2 "b")] = Some (t, acks)
    /\ reopen (flush_crash stable_lexsort t 1) = Ok t1
    /\ flush stable_lexsort t1 = (t2, Err r) /\ scan_streams stable_lexsort t2 = Ok []
    /\ run stable_lexsort t2 [OGc; OInsert (ins 3 "c"); OFlush; ORestart] = Some (t3, acks3)
    /\ scan_streams stable_lexsort t3 = Ok [[[Some (AInt 3); Some (AStr [99%N])]]]%Z.
Proof.
  eexists _, _, _, _, _, _, _. split; [vm_compute; reflexivity|]. split; [vm_compute; reflexivity|].
  split; [vm_compute; reflexivity|]. split; [vm_compute; reflexivity|].
  split; vm_compute; reflexivity.
Qed.
Print Assumptions C08_orphan_part_loses_rows_refuted.

(** ** C23: validation *)
Definition names_column (fs : list Field) (nv : NamedValue) : Prop :=
  exists f, In f fs /\ f_name f = fst nv /\ type_ok (snd nv) (f_dt f) = true.

(** An insert with an unknown column or a wrongly typed value is refused and changes
    nothing; so does (by a panic) one with too few values or a null key. *)
Theorem C23_rejected_insert_has_no_effect :
  forall lexsort t vals nv,
  NoDup (map f_name (md_schema (t_md t))) ->
  In nv vals -> ~ names_column (md_schema (t_md t)) nv ->
  exists e, insert lexsort t vals = (t, Err e).
Proof.
  intros lexsort t vals nv ND Hin Hn.
  destruct (check_values (md_schema (t_md t)) vals) as [[]|e] eqn:CV.
  - exfalso. apply Hn. apply check_values_accepted in CV. unfold accepted in CV. rewrite Forall_forall in CV.
    exact (CV nv Hin).
  - exists e. now apply insert_rejected.
Qed.
Print Assumptions C23_rejected_insert_has_no_effect.

Example C23_rejected_witness :
  ~ names_column [fK; fV] ("zzz", VInt64 (Some 1%Z)) /\ ~ names_column [fK; fV] ("v", VInt64 (Some 1%Z))
  /\ insert stable_lexsort (table_with o_log [fK; fV]) [("k", VInt64 (Some 1%Z)); ("v", VInt64 (Some 1%Z))]
     = (table_with o_log [fK; fV], Err BadType).
Proof.
  split; [|split; [|vm_compute; reflexivity]];
  intros (f & Hf & E & T); cbn in Hf; destruct Hf as [<-|[<-|[]]]; discriminate.
Qed.

(** An acknowledged insert that lists the key columns first adds exactly its own row,
    nulls for the columns it does not name. *)
Theorem C23_accepted_insert_adds_one_row_partial :
  forall lexsort o fs ops t acks ss vals t',
  lexsort_contract lexsort -> usable o fs -> o_replacing o = false ->
  Forall (wf_op (o_index_cols o) (schema_after fs ops)) (ops ++ [OInsert vals]) ->
  restart_safe false false ops ->
  run lexsort (table_with o fs) ops = Some (t, acks) -> scan_streams lexsort t = Ok ss ->
  insert lexsort t vals = (t', Ok tt) ->
  exists ss', scan_streams lexsort t' = Ok ss'
    /\ Permutation (List.concat ss') (acked_row (schema_after fs ops) vals :: List.concat ss).
Proof.
  intros lexsort o fs ops t acks ss vals t' HS U Hr W RS R Hs Hi. pose proof U as (ND & Hic & Hl & _).
  apply Forall_app in W as [W1 W2]. inversion W2 as [|? ? W3 _]; subst. clear W2.
  destruct (table_with_inv o fs ltac:(lia) Hl ND) as (I0 & Es & Ep).
  destruct (run_acks lexsort HS o ops Hr (table_with o fs) [] false false [] I0)
    as (t0 & new & mv & p & d & R1 & I1 & A1 & S1 & _); rewrite ?Es.
  { exists []. rewrite Ep. split; [constructor|split; constructor]. }
  { lia. }
  { now apply usable_int. }
  { exact W1. }
  { exact RS. }
  rewrite R in R1. injection R1 as <- <-. cbn [app] in A1. rewrite Es in S1.
  assert (U1 : usable o (md_schema (t_md t))).
  { destruct (schema_after_prefix ops fs) as [r Er]. rewrite S1, Er. apply usable_app; [exact U|].
    rewrite <- Er. now apply schema_after_names. }
  pose proof U1 as (_ & Hic1 & _).
  cbn [wf_op] in W3. destruct W3 as [K L]. rewrite <- S1 in K, L.
  destruct (insert_acks lexsort HS _ _ _ _ _ _ vals I1 A1 Hr ltac:(lia) (usable_int _ _ U1) K) as (t1 & res & mv1 & E1 & I2 & A2 & S2).
  { intros pk KV. specialize (L (List.length (md_schema (t_md t))) pk KV). now rewrite firstn_all in L. }
  rewrite Hi in E1. injection E1 as <- <-.
  destruct (scan_acks lexsort HS _ _ _ _ _ _ I1 A1 Hr) as (ss0 & E0 & P0). rewrite Hs in E0. injection E0 as <-.
  destruct (scan_acks lexsort HS _ _ _ _ _ _ I2 A2 Hr) as (ss' & E' & P').
  exists ss'. split; [exact E'|]. rewrite P', S2, S1, map_app. cbn [map].
  rewrite <- Permutation_cons_append. constructor. rewrite P0, S1. reflexivity.
Qed.
Print Assumptions C23_accepted_insert_adds_one_row_partial.

Example C23_accepted_witness : exists t acks ss t',
  run stable_lexsort (table_with o_small [fK; fV]) sample_history = Some (t, acks)
  /\ Forall (wf_op 1 (schema_after [fK; fV] sample_history)) (sample_history ++ [OInsert [("k", VInt64 (Some 7%Z))]])
  /\ scan_streams stable_lexsort t = Ok ss
  /\ insert stable_lexsort t [("k", VInt64 (Some 7%Z))] = (t', Ok tt).
Proof.
  eexists _, _, _, _. split; [vm_compute; reflexivity|]. split.
  - apply Forall_app. split; [exact sample_history_wf|]. wf_tac.
  - split; vm_compute; reflexivity.
Qed.

(** Key columns are taken by position without looking at their names: an accepted
    insert that names the key second stores the value of [v] in the key column, and the
    table can then be neither scanned nor flushed. *)
Theorem C23_misplaced_key_refuted :
  exists t r, insert stable_lexsort (table_with o_log [fK; fV])
                [("v", VString (Some [97%N])); ("k", VInt64 (Some 1%Z))] = (t, Ok tt)
    /\ (forall ss, scan_streams stable_lexsort t <> Ok ss)
    /\ snd (flush stable_lexsort t) = Err r.
Proof.
  eexists _, _. split; [vm_compute; reflexivity|]. split; [|vm_compute; reflexivity].
  intros ss H. vm_compute in H. discriminate.
Qed.
Print Assumptions C23_misplaced_key_refuted.

(** ** C68: every accepted key type can be flushed *)
(** Refuted: a table with a string key accepts and acknowledges inserts, but its flush
    panics after the memtable was emptied, and the row is no longer returned. *)
Definition fS := mkField "s" DString false.
Theorem C68_string_key_refuted :
  exists t acks t', run stable_lexsort (table_with o_log [fS; fW]) [OInsert [("s", VString (Some [97%N])); ("w", VInt64 (Some 1%Z))]]
      = Some (t, acks)
    /\ List.length acks = 1
    /\ scan_streams stable_lexsort t = Ok [[[Some (AStr [97%N]); Some (AInt 1%Z)]]]
    /\ flush stable_lexsort t = (t', Err Panic)
    /\ scan_streams stable_lexsort t' = Ok [].
Proof.
  eexists _, _, _. split; [vm_compute; reflexivity|]. split; [reflexivity|].
  split; [vm_compute; reflexivity|]. split; vm_compute; reflexivity.
Qed.
Print Assumptions C68_string_key_refuted.

(** Likewise a replacing table whose number of key columns is not two. *)
Theorem C68_replacing_key_count_refuted :
  exists t acks t', run stable_lexsort (table_with (mkOptions 1 true 2 100000) [fK; fW]) [OInsert (insw 1 2)] = Some (t, acks)
    /\ List.length acks = 1
    /\ flush stable_lexsort t = (t', Err Panic)
    /\ scan_streams stable_lexsort t' = Ok [].
Proof.
  eexists _, _, _. split; [vm_compute; reflexivity|]. split; [reflexivity|].
  split; vm_compute; reflexivity.
Qed.
Print Assumptions C68_replacing_key_count_refuted.

(** Proved: with integer and timestamp keys (two 64-bit ones if replacing) a flush of
    any reachable table succeeds. *)
Theorem C68_integer_keys_flush_partial :
  forall lexsort o fs ops t acks,
  lexsort_contract lexsort -> usable o fs ->
  Forall (wf_op (o_index_cols o) (schema_after fs ops)) ops -> restart_safe false false ops ->
  run lexsort (table_with o fs) ops = Some (t, acks) ->
  exists t', flush lexsort t = (t', Ok tt).
Proof.
  intros lexsort o fs ops t acks HS U W RS R. pose proof U as (ND & Hic & Hl & _).
  destruct (table_with_inv o fs ltac:(lia) Hl ND) as (I0 & Es & _).
  destruct (run_inv lexsort HS o ops (table_with o fs) [] false false I0)
    as (t1 & new & mv & p & d & R1 & I1 & _ & U1 & _); rewrite ?Es; auto.
  rewrite R in R1. injection R1 as <- <-.
  destruct (flush_any lexsort HS _ _ _ _ _ I1 U1) as (t2 & E2 & _). eauto.
Qed.
Print Assumptions C68_integer_keys_flush_partial.
Example C68_witness := C06_witness.
