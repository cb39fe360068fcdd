(** Properties of scans over many parts: C15, C16, C72, C73, C74. *)
From Coq Require Import List NArith ZArith Lia Bool Permutation Sorted String.
From Verif Require Import Bytes BytesFacts Value ValueFacts Log LogFacts AMap Order
  Memtable ListFacts MemtableFacts ReplacingFacts MemtableProject Table TableSpec TableFacts TableHistory TableUse
  PropsTable Merge MergeFacts Scan ScanFacts.
Import ListNotations.
Local Open Scope string_scope.

(** ** Specification *)
(** Rows in ascending order of their first [ic] columns. *)
Definition in_key_order (ic : nat) (rows : list Row) : Prop :=
  StronglySorted (fun a b => zcmp (rkey ic a) (rkey ic b) <> Gt) rows.
(** What a reader of the columns [cols] (table order) sees of an acknowledged insert. *)
Definition seen (schema : list Field) (cols : list nat) (vals : list NamedValue) : Row :=
  select_from 0 (acked_row schema vals) cols.
(** The key types the merge is written for: one or two 64-bit integer columns. *)
Definition mergeable (fs : list Field) (ic : nat) : Prop :=
  merge_supported (dts_of fs) ic.

(** ** C15 *)
(** Merging any sorted inputs, however they are cut into chunks. *)
Theorem C15_merge_returns_every_row_once_in_order :
  forall dts ic array_size drain hpush hpop streams,
  drain_contract drain -> heap_contract hpush hpop ->
  merge_supported dts ic -> array_size <> 0 ->
  Forall (fun cs => in_key_order ic (List.concat cs) /\ Forall (fun c => c <> []) cs) streams ->
  exists out, merge_scan dts ic false array_size drain hpush hpop streams = (out, Done)
    /\ Permutation (List.concat out) (List.concat (map (@List.concat Row) streams))
    /\ in_key_order ic (List.concat out).
Proof.
  intros dts ic asz drain hpush hpop streams HD HH Sup Ha F.
  apply (merge_scan_append dts ic asz drain hpush hpop HD HH streams Sup Ha);
    intros s; destruct (nth_in_or_default s streams []) as [Hi| ->]; try constructor;
    rewrite Forall_forall in F; apply (F _ Hi).
Qed.
Print Assumptions C15_merge_returns_every_row_once_in_order.

Lemma select_supported fs ic cols : mergeable fs ic -> (forall i, i < ic -> In i cols) ->
  merge_supported (select_from 0 (dts_of fs) cols) ic.
Proof.
  intros M H. pose proof (select_keys ic (dts_of fs) cols 0 H) as E.
  destruct M as [(-> & r & Hd)|(-> & d & r & Hd & B)].
  - left. split; [reflexivity|]. rewrite Hd in *. destruct (select_from 0 (DInt64 :: r) cols) as [|d l]; [discriminate|].
    injection E as ->. eauto.
  - right. split; [reflexivity|]. rewrite Hd in *. destruct (select_from 0 (DInt64 :: d :: r) cols) as [|d0 [|d1 l]];
      try discriminate. injection E as -> ->. eauto.
Qed.

(** End to end: after any history of an append-only table, a scan of any columns that include
    the key returns each acknowledged row exactly once, with the values that were inserted
    together, in key order. *)
Theorem C15_scan_after_history :
  forall lexsort drain hpush hpop o fs ops cols array_size,
  lexsort_contract lexsort -> drain_contract drain -> heap_contract hpush hpop ->
  usable o fs -> o_replacing o = false -> mergeable fs (o_index_cols o) -> array_size <> 0 ->
  Forall (wf_op (o_index_cols o) (schema_after fs ops)) ops -> restart_safe false false ops ->
  (forall i, i < o_index_cols o -> In i cols) ->
  exists t acks ss, run lexsort (table_with o fs) ops = Some (t, acks)
    /\ scan_cols lexsort t cols = Ok ss
    /\ forall chs, chunked ss chs ->
       exists out, table_scan drain hpush hpop array_size t cols chs = (out, Done)
         /\ Permutation (List.concat out) (map (seen (schema_after fs ops) cols) acks)
         /\ in_key_order (o_index_cols o) (List.concat out).
Proof.
  intros lexsort drain hpush hpop o fs ops cols asz HS HD HH U Hr Mg Ha W RS Hc. pose proof U as (ND & Hic & Hl & _).
  destruct (table_with_inv o fs ltac:(lia) Hl ND) as (I0 & Es & Ep).
  destruct (run_acks lexsort HS o ops Hr (table_with o fs) [] false false [] I0)
    as (t & new & mv & p & d & R & I1 & A1 & S1 & _); rewrite ?Es; auto.
  - exists []. rewrite Ep. split; [constructor|split; constructor].
  - lia.
  - now apply usable_int.
  - destruct (scan_cols_sorted lexsort HS _ _ _ _ _ _ cols I1 A1 Hr Hc) as (ss & E & P & So).
    exists t, new, ss. split; [exact R|]. split; [exact E|]. intros chs Hch. rewrite S1, Es in P.
    unfold table_scan. rewrite (i_opts _ _ _ _ _ I1), Hr, S1, Es.
    assert (Ec : List.concat (map (@List.concat Row) chs) = List.concat ss).
    { f_equal. clear - Hch. induction Hch as [|rows cs ss chs [H _] _ IH]; cbn; congruence. }
    destruct (C15_merge_returns_every_row_once_in_order (select_from 0 (dts_of (schema_after fs ops)) cols)
      (o_index_cols o) asz drain hpush hpop chs HD HH) as (out & H1 & H2 & H3).
    + apply select_supported; [|exact Hc]. destruct (schema_after_prefix ops fs) as [r ->].
      unfold mergeable in *. unfold dts_of in *. rewrite map_app.
      destruct Mg as [(-> & r' & Hd)|(-> & d' & r' & Hd & B)]; rewrite Hd; [left|right]; cbn; eauto 6.
    + exact Ha.
    + clear - Hch So. induction Hch as [|rows cs ss chs [<- Hne] _ IH]; constructor; inversion So; subst; auto.
    + exists out. split; [exact H1|]. split; [|exact H3]. rewrite H2, Ec. exact P.
Qed.
Print Assumptions C15_scan_after_history.

(** The sample history leaves three parts and a memtable whose key ranges overlap; here is
    its scan, cut into chunks of one or two rows, with a concrete heap. *)
Example C15_witness :
  exists t acks ss chs out,
    usable o_small [fK; fV] /\ mergeable [fK; fV] 1
    /\ run stable_lexsort (table_with o_small [fK; fV]) sample_history = Some (t, acks)
    /\ scan_cols stable_lexsort t [0; 1] = Ok ss /\ chunked ss chs
    /\ table_scan list_drain list_push list_pop 2 t [0; 1] chs = (out, Done)
    /\ map (rkey 1) (List.concat out) = [[1]; [3]; [4]; [5]; [5]; [9]]%Z.
Proof.
  eexists _, _, _, _, _. split; [exact usable_small|]. split; [left; split; [reflexivity|eexists; reflexivity]|].
  split; [vm_compute; reflexivity|]. split; [vm_compute; reflexivity|].
  split.
  { instantiate (1 := [ [ [ _ ]; [ _ ] ]; [ [ _ ] ]; [ [ _ ; _ ] ]; [ [ _ ] ] ]).
    repeat (apply Forall2_cons; [split; [cbn [List.concat app]; reflexivity|repeat constructor; discriminate]|]). constructor. }
  split; [vm_compute; reflexivity|vm_compute; reflexivity].
Qed.

(** ** C16: replacing tables *)
(** Full statement (refuted below): a scan returns exactly one row per key, an inserted one. *)
(** Proved: whatever the overlaps, returned rows are stored rows, none more often than stored. *)
Theorem C16_returned_rows_are_stored_partial :
  forall lexsort drain hpush hpop t cols array_size ss chs out e,
  heap_contract hpush hpop ->
  scan_cols lexsort t cols = Ok ss -> chunked ss chs ->
  table_scan drain hpush hpop array_size t cols chs = (out, e) ->
  exists missing, Permutation (List.concat out ++ missing) (List.concat ss).
Proof.
  intros lexsort drain hpush hpop t cols asz ss chs out e HH E Hch H.
  assert (Ec : List.concat (map (@List.concat Row) chs) = List.concat ss).
  { f_equal. clear - Hch. induction Hch as [|rows cs ss chs [H _] _ IH]; cbn; congruence. }
  rewrite <- Ec. unfold table_scan in H. eapply merge_scan_sub in H; [exact H|exact HH].
Qed.
Print Assumptions C16_returned_rows_are_stored_partial.

(** Proved: if no key value occurs twice in the merged inputs, every row is returned once. *)
Theorem C16_distinct_keys_partial :
  forall dts ic array_size drain hpush hpop streams out,
  drain_contract drain -> heap_contract hpush hpop ->
  Forall (fun cs => in_key_order ic (List.concat cs) /\ Forall (fun c => c <> []) cs) streams ->
  NoDup (map (fun r => nth 0 (rkey ic r) 0%Z) (List.concat (map (@List.concat Row) streams))) ->
  merge_scan dts ic true array_size drain hpush hpop streams = (out, Done) ->
  Permutation (List.concat out) (List.concat (map (@List.concat Row) streams)).
Proof.
  intros dts ic asz drain hpush hpop streams out HD HH F ND H.
  eapply (merge_scan_distinct dts ic asz drain hpush hpop HD HH); [|exact ND|exact H].
  split; intros s; (destruct (nth_in_or_default s streams []) as [Hi| ->]; [|constructor]);
    rewrite Forall_forall in F; apply (F _ Hi).
Qed.
Print Assumptions C16_distinct_keys_partial.

(** Two flushed parts: the first holds keys 1 and 2, the second a newer row for key 1.
    The scan returns key 1 twice, once with the superseded row, and key 2 not at all. *)
Definition superseded : list Op :=
  [OInsert (insr 1 1); OInsert (insr 2 1); OFlush; OInsert (insr 1 2); OFlush].
Definition one_chunk_each (ss : list (list Row)) : list (list (list Row)) := map (fun rows => [rows]) ss.
Theorem C16_superseded_row_returned_refuted :
  exists t acks ss out,
    usable o_rep [fK; fT; fW]
    /\ run stable_lexsort (table_with o_rep [fK; fT; fW]) superseded = Some (t, acks) /\ List.length acks = 3
    /\ scan_cols stable_lexsort t [0; 1; 2] = Ok ss /\ chunked ss (one_chunk_each ss)
    /\ table_scan list_drain list_push list_pop 1000 t [0; 1; 2] (one_chunk_each ss) = (out, Done)
    /\ List.concat out = [[Some (AInt 1); Some (AInt 2); Some (AInt 2)]; [Some (AInt 1); Some (AInt 1); Some (AInt 1)]]%Z.
Proof.
  eexists _, _, _, _. split; [exact usable_rep|]. split; [vm_compute; reflexivity|]. split; [reflexivity|].
  split; [vm_compute; reflexivity|]. split.
  { repeat (apply Forall2_cons; [split; [cbn; reflexivity|repeat constructor; discriminate]|]). constructor. }
  split; vm_compute; reflexivity.
Qed.
Print Assumptions C16_superseded_row_returned_refuted.

Example C16_distinct_witness :
  let A := [[[Some (AInt 1); Some (AInt 5)]; [Some (AInt 4); Some (AInt 5)]]] in
  let B := [[[Some (AInt 2); Some (AInt 7)]]; [[Some (AInt 3); Some (AInt 1)]]] in
  Forall (fun cs => in_key_order 2 (List.concat cs) /\ Forall (fun c => c <> []) cs) [A; B]%Z
  /\ NoDup (map (fun r => nth 0 (rkey 2 r) 0%Z) (List.concat (map (@List.concat Row) [A; B]%Z)))
  /\ exists out, merge_scan [DInt64; DTimestamp] 2 true 1 list_drain list_push list_pop [A; B]%Z = (out, Done)
     /\ map (fun r => nth 0 (rkey 2 r) 0%Z) (List.concat out) = [1; 2; 3; 4]%Z.
Proof.
  cbv zeta. split.
  { apply Forall_cons; [|apply Forall_cons; [|constructor]]; (split; [|repeat constructor; discriminate]);
      unfold in_key_order; cbn; repeat constructor; discriminate. }
  split; [repeat constructor; cbn; intuition discriminate|].
  eexists. split; vm_compute; reflexivity.
Qed.

(** ** C72: a scan returns all rows or reports an error *)
(** Full statement (refuted below).  Proved: an append-only scan that runs to its regular end
    has returned everything, for every key type. *)
Theorem C72_regular_end_is_complete_partial :
  forall dts ic array_size drain hpush hpop streams out,
  drain_contract drain -> heap_contract hpush hpop ->
  Forall (fun cs => in_key_order ic (List.concat cs) /\ Forall (fun c => c <> []) cs) streams ->
  merge_scan dts ic false array_size drain hpush hpop streams = (out, Done) ->
  Permutation (List.concat out) (List.concat (map (@List.concat Row) streams)).
Proof.
  intros dts ic asz drain hpush hpop streams out HD HH F H.
  eapply (merge_scan_done dts ic asz drain hpush hpop HD HH); [|exact H].
  split; intros s; (destruct (nth_in_or_default s streams []) as [Hi| ->]; [|constructor]);
    rewrite Forall_forall in F; apply (F _ Hi).
Qed.
Print Assumptions C72_regular_end_is_complete_partial.

(** A table keyed by a timestamp: two overlapping parts cannot be merged; the consumer of the
    scan is told that there are no more rows. *)
Definition o_ts := mkOptions 1 false 2 100000.
Definition inst (t w : Z) : list NamedValue := [("t", VTimestamp (Some t)); ("w", VInt64 (Some w))].
Definition overlapping_times : list Op :=
  [OInsert (inst 1 10); OInsert (inst 4 11); OFlush; OInsert (inst 2 12); OInsert (inst 3 13); OFlush].
Theorem C72_unsupported_key_type_refuted :
  exists t acks ss,
    usable o_ts [fT; fW]
    /\ run stable_lexsort (table_with o_ts [fT; fW]) overlapping_times = Some (t, acks) /\ List.length acks = 4
    /\ scan_cols stable_lexsort t [0; 1] = Ok ss /\ chunked ss (one_chunk_each ss)
    /\ table_scan list_drain list_push list_pop 1000 t [0; 1] (one_chunk_each ss) = ([], Stopped).
Proof.
  eexists _, _, _. split.
  { split; [repeat constructor; cbn; intuition discriminate|]. split; [cbn; lia|]. split; [cbn; lia|].
    split; [repeat constructor|discriminate]. }
  split; [vm_compute; reflexivity|]. split; [reflexivity|]. split; [vm_compute; reflexivity|]. split.
  { repeat (apply Forall2_cons; [split; [cbn; reflexivity|repeat constructor; discriminate]|]). constructor. }
  vm_compute. reflexivity.
Qed.
Print Assumptions C72_unsupported_key_type_refuted.

(** ** C73: scans do not panic *)
(** Full statement (refuted below).  Proved: append-only scans never panic (C15 gives [Done]),
    and no scan of supported key types does when [merge_array_size] is at least the number of rows. *)
Theorem C73_large_array_size_partial :
  forall dts ic replacing array_size drain hpush hpop streams out e,
  drain_contract drain -> heap_contract hpush hpop -> merge_supported dts ic -> array_size <> 0 ->
  List.length (List.concat (map (@List.concat Row) streams)) <= array_size ->
  merge_scan dts ic replacing array_size drain hpush hpop streams = (out, e) -> e = Done.
Proof.
  intros dts ic repl asz drain hpush hpop streams out e HD HH Sup Ha Hl H.
  eapply (merge_scan_no_panic dts ic asz drain hpush hpop HD HH); eauto.
Qed.
Print Assumptions C73_large_array_size_partial.

(** Three versions of a row in one part, a fourth in another, slices of one row. *)
Definition many_versions : list Op :=
  [OInsert (insr 1 1); OInsert (insr 1 2); OInsert (insr 1 3); OFlush; OInsert (insr 1 4); OFlush].
Theorem C73_replacing_scan_panics_refuted :
  exists t acks ss,
    usable o_rep [fK; fT; fW]
    /\ run stable_lexsort (table_with o_rep [fK; fT; fW]) many_versions = Some (t, acks) /\ List.length acks = 4
    /\ scan_cols stable_lexsort t [0; 1; 2] = Ok ss /\ chunked ss (one_chunk_each ss)
    /\ table_scan list_drain list_push list_pop 1 t [0; 1; 2] (one_chunk_each ss) = ([], Panicked).
Proof.
  eexists _, _, _. split; [exact usable_rep|]. split; [vm_compute; reflexivity|]. split; [reflexivity|].
  split; [vm_compute; reflexivity|]. split.
  { repeat (apply Forall2_cons; [split; [cbn; reflexivity|repeat constructor; discriminate]|]). constructor. }
  vm_compute; reflexivity.
Qed.
Print Assumptions C73_replacing_scan_panics_refuted.

(** ** C74: scanning fewer columns returns the same rows *)
(** Full statement (refuted below): for all column sets.  Proved for those that include the
    key: the rows of any two such scans agree on the common columns. *)
Theorem C74_projection_with_key_partial :
  forall lexsort drain hpush hpop o fs ops cols array_size,
  lexsort_contract lexsort -> drain_contract drain -> heap_contract hpush hpop ->
  usable o fs -> o_replacing o = false -> mergeable fs (o_index_cols o) -> array_size <> 0 ->
  Forall (wf_op (o_index_cols o) (schema_after fs ops)) ops -> restart_safe false false ops ->
  (forall i, i < o_index_cols o -> In i cols) ->
  exists t acks ss fss, run lexsort (table_with o fs) ops = Some (t, acks)
    /\ scan_cols lexsort t cols = Ok ss
    /\ scan_cols lexsort t (seq 0 (List.length (schema_after fs ops))) = Ok fss
    /\ forall chs fchs, chunked ss chs -> chunked fss fchs ->
       exists out fout, table_scan drain hpush hpop array_size t cols chs = (out, Done)
         /\ table_scan drain hpush hpop array_size t (seq 0 (List.length (schema_after fs ops))) fchs = (fout, Done)
         /\ Permutation (List.concat out) (map (fun r => select_from 0 r cols) (List.concat fout)).
Proof.
  intros lexsort drain hpush hpop o fs ops cols asz HS HD HH U Hr Mg Ha W RS Hc.
  destruct (C15_scan_after_history lexsort drain hpush hpop o fs ops cols asz HS HD HH U Hr Mg Ha W RS Hc)
    as (t & acks & ss & R & E & H).
  destruct (C15_scan_after_history lexsort drain hpush hpop o fs ops (seq 0 (List.length (schema_after fs ops))) asz HS HD HH U Hr Mg Ha W RS)
    as (t' & acks' & fss & R' & E' & H').
  { intros i Hi. apply in_seq. destruct (schema_after_prefix ops fs) as [r ->]. rewrite app_length.
    destruct U as (_ & Hic & _). lia. }
  rewrite R in R'. injection R' as <- <-. exists t, acks, ss, fss. split; [exact R|]. split; [exact E|]. split; [exact E'|].
  intros chs fchs C1 C2. destruct (H chs C1) as (out & H1 & H2 & _). destruct (H' fchs C2) as (fout & H3 & H4 & _).
  exists out, fout. split; [exact H1|]. split; [exact H3|]. rewrite H2, (Permutation_map _ H4), map_map.
  erewrite map_ext; [reflexivity|]. intros v. unfold seen.
  replace (List.length (schema_after fs ops)) with (List.length (acked_row (schema_after fs ops) v)) by apply map_length.
  now rewrite select_all.
Qed.
Print Assumptions C74_projection_with_key_partial.

(** With fewer columns than key columns every scan of a table with unflushed rows panics. *)
Theorem C74_fewer_columns_than_key_refuted :
  forall lexsort t cols,
  mt_len (t_mem t) <> 0 -> mapM into_array (select_from 0 (t_mem t) cols) <> None ->
  List.length (select_from 0 (t_mem t) cols) < o_index_cols (md_opts (t_md t)) ->
  scan_cols lexsort t cols = Err Panic.
Proof.
  intros lexsort t cols Hl Hm Hc. unfold scan_cols, mt_chunk.
  destruct (Nat.eqb_spec (mt_len (t_mem t)) 0); [contradiction|]. cbn [project].
  destruct (mapM into_array (select_from 0 (t_mem t) cols)) as [arrs|] eqn:E; [|congruence].
  apply mapM_length in E. destruct (Nat.ltb_spec (List.length arrs) (o_index_cols (md_opts (t_md t)))); [reflexivity|lia].
Qed.
Print Assumptions C74_fewer_columns_than_key_refuted.
Example C74_refuted_witness :
  exists t acks, run stable_lexsort (table_with o_rep [fK; fT; fW]) [OInsert (insr 1 1)] = Some (t, acks)
    /\ mt_len (t_mem t) <> 0 /\ mapM into_array (select_from 0 (t_mem t) [2]) <> None
    /\ List.length (select_from 0 (t_mem t) [2]) < o_index_cols (md_opts (t_md t)).
Proof.
  eexists _, _. split; [vm_compute; reflexivity|]. split; [vm_compute; discriminate|].
  split; [vm_compute; discriminate|vm_compute; lia].
Qed.
