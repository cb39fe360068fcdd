(** Properties of the page merge of part files: C102, C103. *)
From Coq Require Import List NArith ZArith Bool String Permutation Sorted Lia Arith.
From Verif Require Import Bytes Value Log AMap Order ListFacts Memtable MergeFacts Table TableSpec TableHistory TableUse GetFacts PropsTable
  Compact CompactFacts CompactSpec CompactHistory PropsCompact
  PageMerge PageMergeSpec PageMergeTags PageMergeIndex PageMergeBatch PageMergeData PageMergeRun PageMergeStart.
Import ListNotations.
Local Notation length := List.length.
Local Notation concat := List.concat.

(** ** Heaps, pages and layouts that meet the assumptions, for the witnesses *)
Definition ref_pop (h : list Chunk) : option (Chunk * list Chunk) :=
  match sort_by (lex_cmp Z.compare) ch_min h with [] => None | x :: r => Some (x, r) end.
Definition ref_pop_row (h : list (nat * list Z)) : option ((nat * list Z) * list (nat * list Z)) :=
  match sort_by (lex_cmp Z.compare) snd h with [] => None | x :: r => Some (x, r) end.
Fixpoint pairs_of (fuel : nat) (l : list Z) : list (list Z) :=
  match fuel, l with
  | S n, x :: y :: r => [x; y] :: pairs_of n r
  | _, [] => []
  | _, _ => [l]
  end.
Definition ref_paginate (l : list Z) : list (list Z) := pairs_of (length l) l.
Lemma sorted_heap {A} (key : A -> list Z) (le : A -> A -> bool) : (forall a b, le a b = vle (key a) (key b)) ->
  heap_contract le (fun h => match sort_by (lex_cmp Z.compare) key h with [] => None | x :: r => Some (x, r) end).
Proof.
  intros E. split; [reflexivity|]. intros h N. pose proof (sort_by_perm (lex_cmp Z.compare) key h) as P.
  pose proof (sort_by_sorted (lex_cmp Z.compare) key VT h) as SO.
  destruct (sort_by (lex_cmp Z.compare) key h) as [|x r]; [apply Permutation_sym, Permutation_nil in P; congruence|].
  exists x, r. split; [reflexivity|]. split; [exact P|]. inversion SO as [|? ? _ F]; subst. eapply Forall_impl; [|exact F].
  cbn. intros y H. rewrite E. now apply vle_iff.
Qed.
Lemma ref_pop_ok : heap_contract chunk_le ref_pop.
Proof. exact (sorted_heap ch_min chunk_le (fun _ _ => eq_refl)). Qed.
Lemma ref_pop_row_ok : heap_contract row_le ref_pop_row.
Proof. exact (sorted_heap snd row_le (fun _ _ => eq_refl)). Qed.
Lemma ref_paginate_ok : paginate_contract ref_paginate.
Proof.
  intros l _. unfold ref_paginate.
  assert (G : forall n l, concat (pairs_of n l) = l /\ Forall (fun p => p <> []) (pairs_of n l)).
  { induction n as [|n IH]; intros [|x [|y r]]; cbn; try (rewrite ?app_nil_r; split; [reflexivity|repeat constructor; discriminate]).
    destruct (IH r) as [I1 I2]. rewrite I1. split; [reflexivity|]. constructor; [discriminate|exact I2]. }
  apply G.
Qed.
(** All rows in one row group, each column in one page. *)
Definition one_group (pf : PartFile) : PFile :=
  mkPFile (pf_fields pf)
    (match pf_rows pf with
     | [] => []
     | rows => [map (fun i => [map (fun r => nth i r None) rows]) (seq 0 (length (pf_fields pf)))]
     end).
Lemma one_group_ok pf : pf_fields pf <> [] -> Forall (fun r => length r = length (pf_fields pf)) (pf_rows pf) -> lays_out (one_group pf) pf.
Proof.
  intros N.
  assert (G : forall n rows, n <> 0 -> rows <> [] -> Forall (fun r : Row => length r = n) rows ->
            let g := map (fun i => [map (fun r => nth i r None) rows]) (seq 0 n) in group_ok n g /\ group_rows g = rows).
  { intros n rows Hn Nr F g. split.
    - split; [unfold g; now rewrite map_length, seq_length|]. exists (length rows). split; [destruct rows; [congruence|discriminate]|].
      apply Forall_forall. intros pg Hp. apply in_map_iff in Hp as (i & <- & _). cbn [concat]. rewrite app_nil_r, map_length. split; [|reflexivity].
      constructor; [|constructor]. destruct rows; [congruence|discriminate].
    - unfold group_rows, g. rewrite map_map.
      rewrite (map_ext _ (fun i => map (fun r => nth i r None) rows)) by (intros i; cbn [concat]; apply app_nil_r).
      now apply rows_of_cols. }
  intros F. unfold lays_out, one_group. cbn [g_fields g_groups]. split; [reflexivity|].
  assert (Hn : length (pf_fields pf) <> 0) by (destruct (pf_fields pf); [congruence|discriminate]).
  destruct (pf_rows pf) as [|r0 rs]; [split; [constructor|reflexivity]|].
  destruct (G _ (r0 :: rs) Hn ltac:(discriminate) F) as [G1 G2]. split; [constructor; [exact G1|constructor]|].
  cbn [map concat]. rewrite app_nil_r. exact G2.
Qed.

(** ** C102: merging part files of an append-only table *)
(** However the files are cut into row groups and pages, and whichever of equal elements the
    heaps return first: the merge succeeds, what it writes is sorted by key from the first row
    of the first file to the last row of the last file, it holds exactly the rows of the
    inputs, each with its own values and nulls for newer columns, and the recorded key range
    of a file bounds its rows. *)
Theorem C102_append_merge :
  forall pop pop_row paginate full mo fields fs pfs,
  heap_contract chunk_le pop -> heap_contract row_le pop_row -> paginate_contract paginate ->
  mo_replacing mo = false -> mo_ic mo <> 0 -> NoDup (map f_name fields) ->
  Forall2 lays_out fs pfs ->
  Forall (fun f => exists r, fields = pf_fields f ++ r) pfs -> Exists (fun f => pf_fields f = fields) pfs ->
  Forall (fun f => mo_ic mo <= length (pf_fields f) /\ pf_rows f <> []
                   /\ Forall (int_keys (mo_ic mo)) (pf_rows f)
                   /\ sorted_by cmp_key (firstn (mo_ic mo)) (pf_rows f)) pfs ->
  supported (map f_dt (firstn (mo_ic mo) fields)) = true ->
  exists outs, page_merge pop pop_row paginate full mo fs = Ok (fields, outs)
    /\ Permutation (concat (map (fun o => concat (o_groups o)) outs))
                   (concat (map (fun f => map (pad (length fields)) (pf_rows f)) pfs))
    /\ sorted_by cmp_key (firstn (mo_ic mo)) (concat (map (fun o => concat (o_groups o)) outs))
    /\ Forall (fun o => concat (o_groups o) <> []
                 /\ Forall (fun r => cle (lex_cmp Z.compare) (o_min o) (key_ints (mo_ic mo) r)
                                  /\ cle (lex_cmp Z.compare) (key_ints (mo_ic mo) r) (o_max o)) (concat (o_groups o))) outs.
Proof.
  intros pop pop_row paginate full mo fields fs pfs HP HR HG NR IC ND LO PR EX WF SU.
  assert (EQ : map file_rows fs = map pf_rows pfs /\ map g_fields fs = map pf_fields pfs).
  { clear -LO. induction LO as [|f p fs pfs (H1 & _ & H2) F [I1 I2]]; [auto|]. cbn. unfold file_rows at 1. rewrite H2, H1, I1, I2. auto. }
  destruct EQ as [EQ EF].
  assert (IN : forall f, In f fs -> exists p, In p pfs /\ lays_out f p).
  { clear -LO. induction LO as [|f p fs pfs H F IH]; intros g Hg; [contradiction|]. destruct Hg as [<-|Hg].
    - exists p. split; [now left|exact H].
    - destruct (IH g Hg) as (q & Hq & Lq). exists q. split; [now right|exact Lq]. }
  assert (NF : fs <> []). { apply Exists_exists in EX as (p & Hp & _). destruct LO; [contradiction|discriminate]. }
  rewrite Forall_forall in PR, WF.
  destruct (page_merge_spec pop pop_row paginate full HP HR HG mo NR IC fields ND fs NF) as [[H _]|(outs & E & P & SO & RG & _)].
  - apply Forall_forall. intros f Hf. destruct (IN f Hf) as (p & Hp & H1 & H2 & H3). split; [rewrite H1; now apply PR|].
    split; [rewrite H1; now apply WF|exact H2].
  - apply Forall_forall. intros f Hf E. destruct (IN f Hf) as (p & Hp & H1 & H2 & H3). rewrite E in H3. cbn in H3.
    destruct (WF p Hp) as (_ & N & _). congruence.
  - apply Exists_exists in EX as (p & Hp & Ep). apply Exists_exists.
    assert (H : In (pf_fields p) (map g_fields fs)) by (rewrite EF; now apply in_map). apply in_map_iff in H as (f & Ef & Hf).
    exists f. split; [exact Hf|congruence].
  - apply Forall_forall. intros f Hf. destruct (IN f Hf) as (p & Hp & H1 & H2 & H3). unfold file_rows. rewrite H3. destruct (WF p Hp) as (_ & _ & W1 & W2). auto.
  - congruence.
  - exists outs. split; [exact E|]. change (fun o => concat (o_groups o)) with out_rows. split; [|split; [exact SO|]].
    + rewrite P. apply Permutation_refl'. f_equal.
      rewrite <- (map_map file_rows (map (pad (length fields)))), <- (map_map pf_rows (map (pad (length fields)))). congruence.
    + eapply Forall_impl; [|exact RG]. intros o (R1 & _ & _ & R2). split; [exact R1|]. eapply Forall_impl; [|exact R2].
      cbn. intros r [R3 R4]. split; now apply vle_iff.
Qed.
Print Assumptions C102_append_merge.

(** The merge that compaction calls: the files of its parts, in whatever layout they were
    written, merged page by page. *)
Definition compact_merge pop pop_row paginate full (mo : MOpts) (layout : nat -> list PartFile -> list PFile)
    (k : nat) (files : list PartFile) : result fault (list MergeOut) :=
  match page_merge pop pop_row paginate full mo (layout k files) with
  | Ok (fields, outs) => Ok (map (merge_out mo fields) outs)
  | Err e => Err e
  end.
Definition layout_contract (layout : nat -> list PartFile -> list PFile) : Prop :=
  forall k files, Forall (fun f => pf_fields f <> [] /\ Forall (fun r => length r = length (pf_fields f)) (pf_rows f)) files ->
    Forall2 lays_out (layout k files) files.

(** What the properties of compaction (C17, C87, C88) assume of the merge holds of it, for
    all key types: with other key types it writes the right files or panics. *)
Theorem C102_meets_the_contract :
  forall pop pop_row paginate full mo layout,
  heap_contract chunk_le pop -> heap_contract row_le pop_row -> paginate_contract paginate -> layout_contract layout ->
  mo_replacing mo = false -> mo_ic mo <> 0 ->
  merge_contract (mo_ic mo) (compact_merge pop pop_row paginate full mo layout).
Proof.
  intros pop pop_row paginate full mo layout HP HR HG HL NR IC k files fields outs NE ND PR EX WF H.
  unfold compact_merge in H.
  assert (LO : Forall2 lays_out (layout k files) files).
  { apply HL. eapply Forall_impl; [|exact WF]. cbn. intros f (L & W & _). split; [|exact W]. destruct (pf_fields f); [cbn in L; lia|discriminate]. }
  set (fs := layout k files) in *. clearbody fs.
  assert (EQ : map file_rows fs = map pf_rows files /\ map g_fields fs = map pf_fields files).
  { clear -LO. induction LO as [|f p fs pfs (H1 & _ & H2) F [I1 I2]]; [auto|]. cbn. unfold file_rows at 1. rewrite H2, H1, I1, I2. auto. }
  destruct EQ as [EQ EF].
  assert (IN : forall f, In f fs -> exists p, In p files /\ lays_out f p).
  { clear -LO. induction LO as [|f p fs pfs H F IH]; intros g Hg; [contradiction|]. destruct Hg as [<-|Hg].
    - exists p. split; [now left|exact H].
    - destruct (IH g Hg) as (q & Hq & Lq). exists q. split; [now right|exact Lq]. }
  rewrite Forall_forall in PR, WF.
  assert (PR' : Forall (fun l => exists r, fields = l ++ r) (map g_fields fs)).
  { apply Forall_forall. intros l Hl. apply in_map_iff in Hl as (f & <- & Hf). destruct (IN f Hf) as (p & Hp & H1 & _). rewrite H1. now apply PR. }
  assert (INF : In fields (map g_fields fs)).
  { apply Exists_exists in EX as (p & Hp & Ep). rewrite EF, <- Ep. now apply in_map. }
  assert (LI : mo_ic mo <= length fields).
  { apply Exists_exists in EX as (p & Hp & Ep). rewrite <- Ep. now apply WF. }
  assert (NG : Forall (fun f => g_groups f <> []) fs).
  { apply Forall_forall. intros f Hf E. pose proof (page_merge_empty pop pop_row paginate full mo fields fs LI (schemas_longest fields _ ND PR' INF)) as X.
    destruct (page_merge pop pop_row paginate full mo fs) as [o|]; [|discriminate]. apply (X ltac:(apply Exists_exists; eauto) o). reflexivity. }
  destruct (page_merge_spec pop pop_row paginate full HP HR HG mo NR IC fields ND fs) as [[_ E]|(os & E & P & SO & RG & RW)].
  - intros ->. contradiction.
  - apply Forall_forall. intros f Hf. destruct (IN f Hf) as (p & Hp & H1 & H2 & H3). split; [rewrite H1; now apply PR|].
    split; [rewrite H1; now apply WF|exact H2].
  - exact NG.
  - apply in_map_iff in INF as (f & Ef & Hf). apply Exists_exists. eauto.
  - apply Forall_forall. intros f Hf. destruct (IN f Hf) as (p & Hp & H1 & H2 & H3). unfold file_rows. rewrite H3. destruct (WF p Hp) as (_ & _ & W1 & W2). auto.
  - rewrite E in H. discriminate.
  - rewrite E in H. apply Ok_inj_ in H. subst outs. split.
    + apply Forall_forall. intros o Ho. apply in_map_iff in Ho as (x & <- & Hx). cbn. split; [reflexivity|].
      clear -SO Hx. induction os as [|y os IH]; [contradiction|]. cbn in SO. apply StronglySorted_app in SO as (S1 & S2 & _).
      destruct Hx as [<-|Hx]; [exact S1|now apply IH].
    + rewrite map_map. change (fun x => pf_rows (fst (merge_out mo fields x))) with out_rows. rewrite P. apply Permutation_refl'. f_equal.
      rewrite <- (map_map file_rows (map (pad (length fields)))), <- (map_map pf_rows (map (pad (length fields)))). congruence.
Qed.
Print Assumptions C102_meets_the_contract.

(** So C17 holds of tables compacted page by page, with no assumption on the merge. *)
Theorem C17_page_merge_preserves_contents_partial :
  forall pop pop_row paginate full mo layout psize co lexsort o fs hs t acks ws,
  heap_contract chunk_le pop -> heap_contract row_le pop_row -> paginate_contract paginate -> layout_contract layout ->
  mo_replacing mo = false -> mo_ic mo = o_index_cols o -> o_index_cols o <> 0 ->
  lexsort_contract lexsort -> 0 < c_l0_max co ->
  usable o fs -> o_replacing o = false ->
  Forall (wf_op (o_index_cols o) (schema_after fs (bases hs))) (bases hs) -> restart_safe false false (bases hs) ->
  run_h psize (compact_merge pop pop_row paginate full mo layout) co lexsort (table_with o fs) hs = Some (t, acks, ws) ->
  Forall (fun w => Forall (@NoDup _) (w_plans w)) ws ->
  exists ss, scan_streams lexsort t = Ok ss
    /\ Permutation (concat ss) (map (acked_row (schema_after fs (bases hs))) acks).
Proof.
  intros pop pop_row paginate full mo layout psize co lexsort o fs hs t acks ws HP HR HG HL NR EI IC HS H0 U Hr W RS R NP.
  eapply C17_passes_preserve_contents_partial; eauto. rewrite <- EI. apply C102_meets_the_contract; auto. congruence.
Qed.
Print Assumptions C17_page_merge_preserves_contents_partial.

(** What the table metadata records for a written file: as many key values as there are key
    columns, each the recorded bound in the integer type of its column. *)
Theorem C102_recorded_range :
  forall mo fields o, mo_ic mo <= length fields -> length (o_min o) = mo_ic mo -> length (o_max o) = mo_ic mo ->
  let lo := fst (snd (merge_out mo fields o)) in let hi := snd (snd (merge_out mo fields o)) in
  length lo = mo_ic mo /\ length hi = mo_ic mo
  /\ pf_rows (fst (merge_out mo fields o)) = concat (o_groups o) /\ pf_fields (fst (merge_out mo fields o)) = fields
  /\ forall i f a b, i < mo_ic mo -> nth_error fields i = Some f ->
       nth_error (o_min o) i = Some a -> nth_error (o_max o) i = Some b ->
       let kv z := match f_dt f with DInt64 | DTimestamp => KInt64 z | _ => KInt32 z end in
       nth_error lo i = Some (kv a) /\ nth_error hi i = Some (kv b).
Proof.
  intros mo fields o L A B. cbn [merge_out fst snd pf_rows pf_fields].
  assert (G : forall n fs (v : list Z), n <= length fs -> length v = n -> length (kvs_of (map f_dt (firstn n fs)) v) = n
    /\ forall i f z, i < n -> nth_error fs i = Some f -> nth_error v i = Some z ->
         nth_error (kvs_of (map f_dt (firstn n fs)) v) i = Some (match f_dt f with DInt64 | DTimestamp => KInt64 z | _ => KInt32 z end)).
  { clear. induction n as [|n IH]; intros fs v L E; destruct fs as [|f0 fs], v as [|z0 v]; cbn in L, E; try lia; cbn; split; auto; try lia.
    - f_equal. apply IH; lia.
    - intros [|i] f z Hi Hf Hz; cbn in *.
      + injection Hf as <-. injection Hz as <-. unfold kv_of. now destruct (f_dt f0).
      + apply IH; auto; lia. }
  destruct (G _ fields (o_min o) L A) as [G1 G2]. destruct (G _ fields (o_max o) L B) as [G3 G4].
  repeat (split; [assumption || reflexivity|]). intros i f a b Hi Hf Ha Hb. split; auto.
Qed.
Print Assumptions C102_recorded_range.

(** Two files, the newer one with a column more; row groups and pages cut differently.  Rows
    with equal keys in both files; the result is two files. *)
Definition fP := mkField "p" DInt64 false.
Definition fU := mkField "u" DInt64 false.
Definition mo_events := mkMO 2 false 3 2.
Definition ci (z : Z) : cell := Some (AInt z).
Definition cs (n : N) : cell := Some (AStr [n]).
Definition old_part := mkPf [fP; fU; fV]
  [[ci 1; ci 1; cs 97]; [ci 1; ci 4; cs 98]; [ci 1; ci 4; None]; [ci 2; ci 1; cs 99]; [ci 9; ci 1; cs 102]].
Definition new_part := mkPf [fP; fU; fV; fW]
  [[ci 1; ci 4; cs 100; ci 7]; [ci 1; ci 5; cs 101; None]; [ci 3; ci 0; None; ci 9]].
Definition old_file := mkPFile [fP; fU; fV]
  [[[[ci 1; ci 1]; [ci 1]]; [[ci 1; ci 4; ci 4]]; [[cs 97]; [cs 98; None]]]; [[[ci 2]]; [[ci 1]]; [[cs 99]]]; [[[ci 9]]; [[ci 1]]; [[cs 102]]]].
Definition new_file := mkPFile [fP; fU; fV; fW]
  [[[[ci 1]; [ci 1; ci 3]]; [[ci 4; ci 5]; [ci 0]]; [[cs 100; cs 101; None]]; [[ci 7; None; ci 9]]]].
Definition one_row_group (gs : list (list Row)) : bool := Nat.leb 1 (length gs).
Example C102_witness :
  (match page_merge ref_pop ref_pop_row ref_paginate one_row_group mo_events [old_file; new_file] with
   | Ok (fields, outs) =>
       map f_name fields = ["p"; "u"; "v"; "w"]%string
       /\ map o_groups outs =
            [[[[ci 1; ci 1; cs 97; None]; [ci 1; ci 4; cs 98; None]; [ci 1; ci 4; None; None]; [ci 1; ci 4; cs 100; ci 7];
               [ci 1; ci 5; cs 101; None]; [ci 2; ci 1; cs 99; None]; [ci 3; ci 0; None; ci 9]]];
             [[[ci 9; ci 1; cs 102; None]]]]
       /\ map o_min outs = [[1; 1]; [9; 1]]%Z /\ map o_max outs = [[3; 0]; [9; 1]]%Z
   | Err _ => False
   end).
Proof. vm_compute. repeat split; reflexivity. Qed.
Example C102_recorded_range_witness :
  snd (merge_out mo_events [fP; fU; fV; fW] (mkOut [[[ci 1; ci 1; None; None]]; [[ci 3; ci 0; None; ci 9]]] [1; 1] [3; 0])%Z)
  = ([KInt64 1; KInt64 1], [KInt64 3; KInt64 0])%Z.
Proof. reflexivity. Qed.
Example C102_witness_hyps :
  Forall2 lays_out [old_file; new_file] [old_part; new_part]
  /\ Forall (fun f => exists r, [fP; fU; fV; fW] = pf_fields f ++ r) [old_part; new_part]
  /\ Forall (fun f => 2 <= length (pf_fields f) /\ pf_rows f <> [] /\ Forall (int_keys 2) (pf_rows f)
                     /\ sorted_by cmp_key (firstn 2) (pf_rows f)) [old_part; new_part]
  /\ supported (map f_dt (firstn 2 [fP; fU; fV; fW])) = true.
Proof.
  split; [|split; [|split; [|reflexivity]]].
  - constructor; [|constructor; [|constructor]]; (split; [reflexivity|split; [|reflexivity]]); repeat (apply Forall_cons; [|]); try apply Forall_nil;
      (split; [reflexivity|]); [exists 3|exists 1|exists 1|exists 3]; (split; [discriminate|]);
      repeat (apply Forall_cons; [|]); try apply Forall_nil; (split; [|reflexivity]); repeat (apply Forall_cons; [discriminate|]); apply Forall_nil.
  - constructor; [exists [fW]; reflexivity|]. constructor; [exists []; reflexivity|constructor].
  - assert (K : forall a b l, int_keys 2 (ci a :: ci b :: l)).
    { intros a b l. constructor; [eexists; reflexivity|]. constructor; [eexists; reflexivity|constructor]. }
    constructor; [|constructor; [|constructor]]; (split; [cbn; lia|]); (split; [discriminate|]); (split; [repeat (constructor; [apply K|]); constructor|]);
      repeat (constructor; [|repeat (constructor; [intro; discriminate|]); constructor]); constructor.
Qed.

(** *** Key types without a merge *)
(** As soon as two parts share a key, merging them panics unless the key has one, two or three
    columns of the types of [supported]; flushing and scanning such a table work. *)
Lemma heap_two {A} (le : A -> A -> bool) pop a b : heap_contract le pop -> pop [a; b] = Some (a, [b]) \/ pop [a; b] = Some (b, [a]).
Proof.
  intros [_ H]. destruct (H [a; b]) as (x & r & E & P & _); [discriminate|]. rewrite E. apply Permutation_length_2_inv in P as [P|P]; injection P as -> ->; auto.
Qed.
Lemma heap_one {A} (le : A -> A -> bool) pop a : heap_contract le pop -> pop [a] = Some (a, []).
Proof.
  intros [_ H]. destruct (H [a]) as (x & r & E & P & _); [discriminate|]. apply Permutation_length_1_inv in P. injection P as -> ->. exact E.
Qed.
Lemma intersect_panic pop pop_row paginate mo dts c c' t u h1 :
  heap_contract chunk_le pop -> supported dts = false ->
  pop [c; c'] = Some h1 -> (h1 = (c, [c']) \/ h1 = (c', [c])) -> ch_stream c < 2 -> ch_stream c' < 2 ->
  check_intersection (mo_ic mo) (mo_replacing mo) [c] (Some c') = true ->
  check_intersection (mo_ic mo) (mo_replacing mo) [c'] (Some c) = true ->
  next_index pop pop_row paginate mo dts (S u) (S (S t)) [c; c'] [[]; []] [] = Err Panic.
Proof.
  intros HP HS E D Lc Lc' X1 X2.
  assert (TA : forall x, x < 2 -> forall h, push_next x h ([[]; []] : list (list Chunk)) = (h, [[]; []])).
  { intros [|[|x]] Hx h; [reflexivity|reflexivity|lia]. }
  assert (EP : pop [] = None) by apply HP.
  assert (MQ : forall q, merge_queue pop_row paginate mo dts q = Err Panic) by (intros q; unfold merge_queue; now rewrite HS).
  cbn [next_index]. rewrite E. destruct D as [-> | ->].
  - rewrite (TA _ Lc). cbn [gather]. unfold peek at 1. rewrite (heap_one _ _ _ HP). cbn [option_map fst]. rewrite X1, (TA _ Lc').
    unfold peek. rewrite EP. cbn [option_map check_intersection app]. now rewrite MQ.
  - rewrite (TA _ Lc'). cbn [gather]. unfold peek at 1. rewrite (heap_one _ _ _ HP). cbn [option_map fst]. rewrite X2, (TA _ Lc).
    unfold peek. rewrite EP. cbn [option_map check_intersection app]. now rewrite MQ.
Qed.
Theorem C102_other_key_types_refuted :
  forall pop pop_row paginate full mo fields f1 f2 p1 p2 k,
  heap_contract chunk_le pop -> mo_replacing mo = false -> mo_ic mo <> 0 -> NoDup (map f_name fields) ->
  lays_out f1 p1 -> lays_out f2 p2 -> length (g_groups f1) = 1 -> length (g_groups f2) = 1 ->
  Forall (fun p => pf_fields p = fields /\ mo_ic mo <= length fields /\ Forall (int_keys (mo_ic mo)) (pf_rows p)
                   /\ sorted_by cmp_key (firstn (mo_ic mo)) (pf_rows p)
                   /\ exists r, In r (pf_rows p) /\ firstn (mo_ic mo) r = k) [p1; p2] ->
  supported (map f_dt (firstn (mo_ic mo) fields)) = false ->
  page_merge pop pop_row paginate full mo [f1; f2] = Err Panic.
Proof.
  intros pop pop_row paginate full mo fields f1 f2 p1 p2 k HP NR IC ND (A1 & A2 & A3) (B1 & B2 & B3) G1 G2 F HS.
  inversion F as [|? ? (P1 & LI & P2 & P3 & r1 & P4 & P5) F']; subst. inversion F' as [|? ? (Q1 & _ & Q2 & Q3 & r2 & Q4 & Q5) _]; subst.
  assert (WF : Forall (wf_file mo (pf_fields p1)) [f1; f2]).
  { constructor; [|constructor; [|constructor]].
    - split; [exists []; now rewrite app_nil_r, A1|]. rewrite A1 in *. auto.
    - split; [exists []; rewrite app_nil_r; congruence|]. rewrite B1, Q1 in *. auto. }
  unfold page_merge. rewrite (schemas_longest (pf_fields p1)); [|exact ND| |].
  2:{ constructor; [exists []; rewrite app_nil_r; congruence|]. constructor; [exists []; rewrite app_nil_r; congruence|constructor]. }
  2:{ left. congruence. }
  destruct (Nat.ltb_spec (length (pf_fields p1)) (mo_ic mo)) as [X|_]; [lia|].
  rewrite (sources_spec mo IC (pf_fields p1) ND [f1; f2] WF); [| |exact LI].
  2:{ constructor; [|constructor; [|constructor]]; intros E; [rewrite E in G1|rewrite E in G2]; discriminate. }
  destruct (g_groups f1) as [|g1 [|? ?]] eqn:E1; try discriminate. destruct (g_groups f2) as [|g2 [|? ?]] eqn:E2; try discriminate.
  cbn [mapi]. rewrite E1, E2. cbn [map tl firsts concat app length list_sum fold_right].
  set (c := key_chunk (mo_ic mo) 0 g1). set (c' := key_chunk (mo_ic mo) 1 g2).
  cbn [map concat app] in A3, B3. rewrite app_nil_r in A3, B3. inversion A2 as [|? ? A4 _]; subst. inversion B2 as [|? ? B4 _]; subst.
  assert (Lf1 : mo_ic mo <= length (g_fields f1)) by (rewrite A1; exact LI).
  assert (Lf2 : mo_ic mo <= length (g_fields f2)) by (rewrite B1, Q1; exact LI).
  pose proof (key_chunk_wf _ 0 _ g1 A4 Lf1) as W1. pose proof (key_chunk_wf _ 1 _ g2 B4 Lf2) as W2. fold c in W1. fold c' in W2.
  pose proof (key_chunk_keys _ 0 _ g1 A4 Lf1 IC) as K1. pose proof (key_chunk_keys _ 1 _ g2 B4 Lf2 IC) as K2. fold c in K1. fold c' in K2.
  rewrite A3 in K1. rewrite B3 in K2.
  assert (S1 : vsorted (ch_keys c)) by (rewrite K1; now apply sorted_keys). assert (S2 : vsorted (ch_keys c')) by (rewrite K2; now apply sorted_keys).
  assert (I1 : In (key_ints (mo_ic mo) r1) (ch_keys c)) by (rewrite K1; now apply in_map).
  assert (I2 : In (key_ints (mo_ic mo) r1) (ch_keys c')).
  { unfold key_ints in *. rewrite <- Q5, K2. apply in_map_iff. exists r2. auto. }
  pose proof (chunk_bounds _ _ W1 IC S1) as B5. pose proof (chunk_bounds _ _ W2 IC S2) as B6. rewrite Forall_forall in B5, B6.
  destruct (B5 _ I1) as [B7 B8]. destruct (B6 _ I2) as [B9 B10].
  destruct (ch_keys_len _ _ W1 IC) as (_ & _ & L1 & L2). destruct (ch_keys_len _ _ W2 IC) as (_ & _ & L3 & L4).
  assert (FN : forall l : list Z, length l = mo_ic mo -> firstn (mo_ic mo) l = l) by (intros l <-; apply firstn_all).
  cbn [files_loop]. rewrite intersect_panic with (h1 := match pop [c; c'] with Some h => h | None => (c, [c']) end).
  1: reflexivity.
  all: auto.
  - destruct (heap_two _ _ c c' HP) as [E | E]; now rewrite E.
  - destruct (heap_two _ _ c c' HP) as [E | E]; rewrite E; auto.
  - unfold check_intersection. cbn [fold_left]. rewrite NR, Nat.sub_0_r. rewrite !FN by assumption. now rewrite (vle_trans _ _ _ B7 B10), (vle_trans _ _ _ B9 B8).
  - unfold check_intersection. cbn [fold_left]. rewrite NR, Nat.sub_0_r. rewrite !FN by assumption. now rewrite (vle_trans _ _ _ B7 B10), (vle_trans _ _ _ B9 B8).
Qed.
Print Assumptions C102_other_key_types_refuted.
Example C102_other_key_types_witness :
  let fk := mkField "k" DInt32 false in
  let p1 := mkPf [fk; fV] [[ci 1; cs 97]; [ci 5; cs 98]] in
  let p2 := mkPf [fk; fV] [[ci 5; None]] in
  page_merge ref_pop ref_pop_row ref_paginate one_row_group (mkMO 1 false 3 2) [one_group p1; one_group p2] = Err Panic.
Proof. reflexivity. Qed.

(** ** C103: merging part files of a replacing table *)
(** The tables of groups are replacing tables whose key is project and record
    (cmd/src/lib.rs 251-281).  A row of such a table is the state of one record. *)
Section Replacing.
Variable pop : list Chunk -> option (Chunk * list Chunk).
Variable pop_row : list (nat * list Z) -> option ((nat * list Z) * list (nat * list Z)).
Variable paginate : list Z -> list (list Z).
Variable full : list (list Row) -> bool.
Hypothesis HP : heap_contract chunk_le pop.
Hypothesis HR : heap_contract row_le pop_row.
Hypothesis HG : paginate_contract paginate.
Variables limit array : nat.
Let mo := mkMO 2 true limit array.

(** One element below all others leaves the heap first. *)
Lemma heap_least {A} (le : A -> A -> bool) pp h a r : heap_contract le pp -> Permutation h (a :: r) ->
  Forall (fun y => le y a = false) r -> exists r', pp h = Some (a, r') /\ Permutation r r'.
Proof.
  intros [_ H] P F. destruct (H h) as (x & r' & E & P' & F').
  { intros ->. now apply Permutation_nil in P. }
  assert (x = a).
  { assert (Hx : In x (a :: r)) by (rewrite <- P, P'; now left). destruct Hx as [Hx|Hx]; [congruence|].
    assert (Ha : In a (x :: r')) by (rewrite <- P', P; now left). destruct Ha as [Ha|Ha]; [congruence|].
    rewrite Forall_forall in F, F'. specialize (F x Hx). specialize (F' a Ha). congruence. }
  subst x. exists r'. split; [exact E|]. apply Permutation_cons_inv with (a := a). now rewrite <- P, <- P'.
Qed.
Lemma vle_hd_lt a l b m : (a < b)%Z -> vle (b :: m) (a :: l) = false.
Proof. intros H. unfold vle. cbn. now apply Z.compare_gt_iff in H as ->. Qed.
Lemma vle_hd_le a l b m : (a < b)%Z -> vle (a :: l) (b :: m) = true.
Proof. intros H. unfold vle. cbn. now rewrite H. Qed.
Lemma vle_hd_eq a l m : vle (a :: l) (a :: m) = vle l m.
Proof. unfold vle. cbn. now rewrite Z.compare_refl. Qed.
Lemma paginate_one x : paginate [x] = [[x]].
Proof.
  destruct (HG [x]) as [E F]; [discriminate|]. destruct (paginate [x]) as [|p ps]; [discriminate|]. inversion F as [|? ? Np Fp]; subst.
  destruct p as [|y p]; [congruence|]. cbn in E. injection E as -> E. apply app_eq_nil in E as [-> E].
  destruct ps as [|q ps]; [reflexivity|]. inversion Fp as [|? ? Nq _]; subst. now destruct q.
Qed.
(** Rows leave the row heap in the order of their keys if these are different. *)
Lemma drain_is l n h : Permutation h l -> length h <= n -> StronglySorted (fun a b => row_le b a = false) l -> drain pop_row n h = l.
Proof.
  intros P L SO. revert n h P L. induction SO as [|x l SO IH F]; intros n h P L.
  - apply Permutation_sym, Permutation_nil in P. subst h. destruct n; [reflexivity|]. cbn. now rewrite (proj1 HR).
  - destruct n as [|n]; [rewrite (Permutation_length P) in L; cbn in L; lia|]. cbn.
    destruct (heap_least row_le pop_row h x l HR P F) as (r' & E & P'). rewrite E. f_equal. apply IH; [now symmetry|].
    rewrite (Permutation_length P) in L. rewrite <- (Permutation_length P'). cbn in L. lia.
Qed.

(** The last chunks, merged. *)
Lemma merged_all dts n total h srcs c h1 h2 srcs2 c' r srcs3 ms :
  pop h = Some (c, h1) -> push_next (ch_stream c) h1 srcs = (h2, srcs2) ->
  gather pop mo total [c] h2 srcs2 = (c :: c' :: r, ([], srcs3)) ->
  merge_queue pop_row paginate mo dts (c :: c' :: r) = Ok ms -> ms <> [] -> 1 <= list_sum (map m_num ms) ->
  next_index pop pop_row paginate mo dts (S (S n)) total h srcs [] = Ok (Some ms, ([], srcs3)).
Proof.
  intros E1 E2 E3 E4 N L. cbn [next_index]. rewrite E1, E2, E3, E4. cbn [app]. destruct (drained (mo_limit mo) ms); [reflexivity|].
  rewrite (proj1 HP). unfold drained. apply Nat.leb_le in L. rewrite L. now destruct ms.
Qed.

Definition rp_fields := [fP; fU; fW].
Definition rp_file (groups : list (list Row)) : PFile :=
  mkPFile rp_fields (map (fun rows => map (fun i => [map (fun r => nth i r None) rows]) (seq 0 3)) groups).
Definition rp_row (p i d : Z) : Row := [ci p; ci i; ci d].

(** Two records of one project in two parts: the merge keeps one of them. *)
Theorem C103_other_records_dropped_refuted : forall p i1 i2 d1 d2, (i1 < i2)%Z ->
  exists o, page_merge pop pop_row paginate full mo [rp_file [[rp_row p i1 d1]]; rp_file [[rp_row p i2 d2]]] = Ok (rp_fields, [o])
    /\ concat (o_groups o) = [rp_row p i2 d2].
Proof.
  intros p i1 i2 d1 d2 Hi. unfold page_merge. cbn [merge_schemas map g_fields rp_file].
  change (add_fields [] rp_fields) with (Ok rp_fields : result fault (list Field)). cbn [merge_schemas].
  change (add_fields rp_fields rp_fields) with (Ok rp_fields : result fault (list Field)).
  cbn [List.length Nat.ltb Nat.leb mo_ic mo rp_fields].
  set (c1 := mkChunk 0 [[[p]]; [[i1]]]). set (c2 := mkChunk 1 [[[p]]; [[i2]]]).
  match goal with |- context [sources ?k 0 ?fs] => replace (sources k 0 fs) with (Ok [[c1]; [c2]] : result fault (list (list Chunk))) by reflexivity end.
  cbn [map tl firsts concat app list_sum length fold_right Nat.add].
  assert (MQ : merge_queue pop_row paginate mo [DInt64; DInt64] [c1; c2] = Ok [mkMChunk [[[p]]; [[i2]]] (Reordered [None; Some 1] [0; 1])]).
  { unfold merge_queue. cbn [supported is64 negb andb orb].
    replace (merged_rows pop_row mo [c1; c2]) with [(0, [p; i1]); (1, [p; i2])].
    2:{ symmetry. unfold merged_rows.
        change (mapi (fun i c => map (pair i) (ch_keys c)) 0 [c1; c2]) with [[(0, [p; i1])]; [(1, [p; i2])]].
        cbn [mo_ic mo Nat.eqb concat app length].
        rewrite (drain_is [(0, [p; i1]); (1, [p; i2])]); [reflexivity|reflexivity|cbn; lia|].
        constructor; [repeat constructor|]. constructor; [|constructor]. unfold row_le. cbn [snd]. rewrite vle_hd_eq. now apply vle_hd_lt. }
    cbn -[Z.eqb Nat.leb]. rewrite Z.eqb_refl. cbn -[Nat.leb].
    destruct (Nat.leb array 1); cbn; now rewrite !paginate_one. }
  assert (NI : forall n, next_index pop pop_row paginate mo [DInt64; DInt64] (S (S n)) 2 [c1; c2] [[]; []] []
      = Ok (Some [mkMChunk [[[p]]; [[i2]]] (Reordered [None; Some 1] [0; 1])], ([], [[]; []]))).
  { intros n. destruct (heap_least chunk_le pop [c1; c2] c1 [c2] HP) as (r' & E & P); [reflexivity| |].
    { constructor; [|constructor]. unfold chunk_le. cbn. rewrite vle_hd_eq. now apply vle_hd_lt. }
    apply Permutation_length_1_inv in P. subst r'.
    apply merged_all with (c := c1) (h1 := [c2]) (h2 := [c2]) (srcs2 := [[]; []]) (c' := c2) (r := []); auto; [|discriminate].
    cbn [gather]. unfold peek at 1. rewrite (heap_one _ _ c2 HP). cbn [option_map fst].
    replace (check_intersection (mo_ic mo) (mo_replacing mo) [c1] (Some c2)) with true by (cbn; now rewrite !vle_refl).
    cbn [push_next take_at ch_stream c2]. unfold peek. rewrite (proj1 HP). reflexivity. }
  cbn [files_loop]. change (map f_dt (firstn (mo_ic mo) [fP; fU; fW])) with [DInt64; DInt64]. rewrite NI.
  cbn. destruct (full _); rewrite (proj1 HP); eexists; (split; [reflexivity|]); reflexivity.
Qed.

(** Rows of a stream after a dropped one get the values of the dropped one: record [(k2, w)]
    is written with the value of record [(k, v1)]. *)
Theorem C103_values_shifted_refuted : forall k v1 v2 k2 w d1 d2 d3, (k < k2)%Z -> (v1 < v2)%Z ->
  exists o, page_merge pop pop_row paginate full mo
              [rp_file [[rp_row k v1 d1; rp_row k2 w d2]]; rp_file [[rp_row k v2 d3]]] = Ok (rp_fields, [o])
    /\ concat (o_groups o) = [rp_row k v2 d3; rp_row k2 w d1].
Proof.
  intros k v1 v2 k2 w d1 d2 d3 Hk Hv. unfold page_merge. cbn [merge_schemas map g_fields rp_file].
  change (add_fields [] rp_fields) with (Ok rp_fields : result fault (list Field)). cbn [merge_schemas].
  change (add_fields rp_fields rp_fields) with (Ok rp_fields : result fault (list Field)).
  cbn [List.length Nat.ltb Nat.leb mo_ic mo rp_fields].
  set (c1 := mkChunk 0 [[[k; k2]]; [[v1; w]]]). set (c2 := mkChunk 1 [[[k]]; [[v2]]]).
  match goal with |- context [sources ?k 0 ?fs] => replace (sources k 0 fs) with (Ok [[c1]; [c2]] : result fault (list (list Chunk))) by reflexivity end.
  cbn [map tl firsts concat app list_sum length fold_right Nat.add].
  assert (MQ : exists ms, merge_queue pop_row paginate mo [DInt64; DInt64] [c1; c2] = Ok ms
     /\ ((ms = [mkMChunk [[[k]]; [[v2]]] (Reordered [None; Some 1] [0; 1]); mkMChunk [[[k2]]; [[w]]] (Reordered [Some 0] [0; 1])])
        \/ ms = [mkMChunk [paginate [k; k2]; paginate [v2; w]] (Reordered [None; Some 1; Some 0] [0; 1])])).
  { unfold merge_queue. cbn [supported is64 negb andb orb].
    replace (merged_rows pop_row mo [c1; c2]) with [(0, [k; v1]); (1, [k; v2]); (0, [k2; w])].
    2:{ symmetry. unfold merged_rows.
        change (mapi (fun i c => map (pair i) (ch_keys c)) 0 [c1; c2]) with [[(0, [k; v1]); (0, [k2; w])]; [(1, [k; v2])]].
        cbn [mo_ic mo Nat.eqb concat app length].
        rewrite (drain_is [(0, [k; v1]); (1, [k; v2]); (0, [k2; w])]); [reflexivity| |cbn; lia|].
        - constructor. apply perm_swap.
        - constructor; [constructor; [repeat constructor|]|].
          + constructor; [|constructor]. now apply vle_hd_lt.
          + constructor; [|constructor; [|constructor]]; unfold row_le; cbn [snd]; [rewrite vle_hd_eq|]; now apply vle_hd_lt. }
    cbn -[Z.eqb Nat.leb]. rewrite Z.eqb_refl. replace (k =? k2)%Z with false by (symmetry; apply Z.eqb_neq; lia). cbn -[Nat.leb].
    eexists. split; [reflexivity|].
    destruct (Nat.leb array 1); cbn -[Nat.leb]; [|destruct (Nat.leb array 2); now right]. left. rewrite !paginate_one. reflexivity. }
  destruct MQ as (ms & MQ & MS).
  assert (PG : forall x y, concat (paginate [x; y]) = [x; y]) by (intros x y; apply HG; discriminate).
  assert (NI : forall n, next_index pop pop_row paginate mo [DInt64; DInt64] (S (S n)) 2 [c1; c2] [[]; []] [] = Ok (Some ms, ([], [[]; []]))).
  { intros n. assert (Mn : ch_min c1 = [k; Z.min v1 w]) by (cbn; now rewrite Z.min_l by lia).
    assert (Mx : ch_max c1 = [k2; Z.max v1 w]) by (cbn; now rewrite Z.max_r by lia).
    destruct (heap_least chunk_le pop [c1; c2] c1 [c2] HP) as (r' & E & P); [reflexivity| |].
    { constructor; [|constructor]. unfold chunk_le. rewrite Mn. cbn. rewrite vle_hd_eq. apply vle_hd_lt. lia. }
    apply Permutation_length_1_inv in P. subst r'.
    apply merged_all with (c := c1) (h1 := [c2]) (h2 := [c2]) (srcs2 := [[]; []]) (c' := c2) (r := []); auto.
    - cbn [gather]. unfold peek at 1. rewrite (heap_one _ _ c2 HP). cbn [option_map fst].
      replace (check_intersection (mo_ic mo) (mo_replacing mo) [c1] (Some c2)) with true.
      2:{ unfold check_intersection. rewrite Mn, Mx. cbn. rewrite vle_refl. symmetry. now apply vle_hd_le. }
      cbn [push_next take_at ch_stream c2]. unfold peek. rewrite (proj1 HP). reflexivity.
    - destruct MS as [-> | ->]; discriminate.
    - destruct MS as [-> | ->]; cbn; [lia|]. unfold m_num. cbn. rewrite PG. cbn. lia. }
  cbn [files_loop]. change (map f_dt (firstn (mo_ic mo) [fP; fU; fW])) with [DInt64; DInt64]. rewrite NI.
  destruct MS as [-> | ->]; cbn; rewrite ?PG; cbn; (destruct (full _); rewrite (proj1 HP); eexists; (split; [reflexivity|]); reflexivity).
Qed.

(** A third part with rows of the same project is not merged with the others: the file that is
    written is not sorted by key. *)
Theorem C103_unsorted_refuted : forall p a b c d e1 e2 e3 e4, (a < b < c)%Z -> (c < d)%Z ->
  full = (fun _ => false) ->
  exists o, page_merge pop pop_row paginate full mo
              [rp_file [[rp_row p a e1; rp_row p d e2]]; rp_file [[rp_row p b e3]]; rp_file [[rp_row p c e4]]] = Ok (rp_fields, [o])
    /\ map (firstn 2) (concat (o_groups o)) = [[ci p; ci d]; [ci p; ci c]].
Proof.
  intros p a b c d e1 e2 e3 e4 Hab Hcd HF. unfold page_merge. cbn [merge_schemas map g_fields rp_file].
  change (add_fields [] rp_fields) with (Ok rp_fields : result fault (list Field)). cbn [merge_schemas].
  change (add_fields rp_fields rp_fields) with (Ok rp_fields : result fault (list Field)). cbn [merge_schemas].
  change (add_fields rp_fields rp_fields) with (Ok rp_fields : result fault (list Field)).
  cbn [List.length Nat.ltb Nat.leb mo_ic mo rp_fields].
  set (c1 := mkChunk 0 [[[p; p]]; [[a; d]]]). set (c2 := mkChunk 1 [[[p]]; [[b]]]). set (c3 := mkChunk 2 [[[p]]; [[c]]]).
  match goal with |- context [sources ?k 0 ?fs] => replace (sources k 0 fs) with (Ok [[c1]; [c2]; [c3]] : result fault (list (list Chunk))) by reflexivity end.
  cbn [map tl firsts concat app list_sum length fold_right Nat.add].
  assert (MQ : merge_queue pop_row paginate mo [DInt64; DInt64] [c1; c2] = Ok [mkMChunk [[[p]]; [[d]]] (Reordered [None; None; Some 0] [0; 1])]).
  { unfold merge_queue. cbn [supported is64 negb andb orb].
    replace (merged_rows pop_row mo [c1; c2]) with [(0, [p; a]); (1, [p; b]); (0, [p; d])].
    2:{ symmetry. unfold merged_rows.
        change (mapi (fun i c => map (pair i) (ch_keys c)) 0 [c1; c2]) with [[(0, [p; a]); (0, [p; d])]; [(1, [p; b])]].
        cbn [mo_ic mo Nat.eqb concat app length].
        rewrite (drain_is [(0, [p; a]); (1, [p; b]); (0, [p; d])]); [reflexivity| |cbn; lia|].
        - constructor. apply perm_swap.
        - constructor; [constructor; [repeat constructor|]|].
          + constructor; [|constructor]. unfold row_le. cbn [snd]. rewrite vle_hd_eq. apply vle_hd_lt. lia.
          + constructor; [|constructor; [|constructor]]; unfold row_le; cbn [snd]; rewrite vle_hd_eq; apply vle_hd_lt; lia. }
    cbn -[Z.eqb Nat.leb]. rewrite Z.eqb_refl. cbn -[Nat.leb]. destruct (Nat.leb array 1); cbn; now rewrite !paginate_one. }
  assert (Mn : ch_min c1 = [p; a]) by (cbn; rewrite !Z.min_l by lia; reflexivity).
  assert (Mx : ch_max c1 = [p; d]) by (cbn; rewrite !Z.max_r by lia; reflexivity).
  set (m1 := mkMChunk [[[p]]; [[d]]] (Reordered [None; None; Some 0] [0; 1])) in *.
  set (m2 := mkMChunk [[[p]]; [[c]]] (PickFrom 2 1)).
  (* the first batch is [m1]; what follows is [m2] *)
  assert (POP : exists r, pop [c1; c2; c3] = Some (c1, r) /\ exists r2, pop r = Some (c2, r2) /\ r2 = [c3] /\ r <> []).
  { destruct (heap_least chunk_le pop [c1; c2; c3] c1 [c2; c3] HP) as (r & E & P); [reflexivity| |].
    { constructor; [|constructor; [|constructor]]; unfold chunk_le; rewrite Mn; cbn; rewrite vle_hd_eq; apply vle_hd_lt; lia. }
    exists r. split; [exact E|]. destruct (heap_least chunk_le pop r c2 [c3] HP) as (r2 & E2 & P2); [now symmetry| |].
    { constructor; [|constructor]. unfold chunk_le. cbn. rewrite vle_hd_eq. apply vle_hd_lt. lia. }
    apply Permutation_length_1_inv in P2. exists r2. split; [exact E2|]. split; [exact P2|]. intros ->. apply Permutation_length in P. discriminate. }
  destruct POP as (r & P1 & r2 & P2 & -> & NR).
  assert (GA : gather pop mo 3 [c1] r [[]; []; []] = ([c1; c2], ([c3], [[]; []; []]))).
  { cbn [gather]. unfold peek at 1. rewrite P2. cbn [option_map fst].
    replace (check_intersection (mo_ic mo) (mo_replacing mo) [c1] (Some c2)) with true.
    2:{ unfold check_intersection. rewrite Mn, Mx. cbn. now rewrite !vle_refl. }
    cbn [push_next take_at ch_stream c2]. unfold peek at 1. rewrite (heap_one _ _ c3 HP). cbn [option_map fst app].
    replace (check_intersection (mo_ic mo) (mo_replacing mo) [c1; c2] (Some c3)) with false; [reflexivity|].
    unfold check_intersection. rewrite Mn, Mx. cbn. rewrite vle_refl. unfold vle. cbn. now rewrite Z.compare_refl. }
  assert (N3 : forall n buf, buf = [] \/ buf = [m1] -> next_index pop pop_row paginate mo [DInt64; DInt64] (S (S n)) 3 [c3] [[]; []; []] buf = Ok (Some (buf ++ [m2]), ([], [[]; []; []]))).
  { intros n buf Hb. cbn [next_index]. rewrite (heap_one _ _ c3 HP). cbn [push_next take_at ch_stream c3].
    replace (gather pop mo 3 [c3] [] [[]; []; []]) with ([c3], (@nil Chunk, [[]; []; []] : list (list Chunk))).
    2:{ cbn [gather]. unfold peek. now rewrite (proj1 HP). }
    cbn [ch_cols c3 ch_stream hd concat app length]. fold m2. destruct (drained _ _); [reflexivity|]. rewrite (proj1 HP).
    replace (drained 1 (buf ++ [m2])) with true; [reflexivity|]. destruct Hb as [-> | ->]; reflexivity. }
  assert (NI : next_index pop pop_row paginate mo [DInt64; DInt64] 4 3 [c1; c2; c3] [[]; []; []] []
       = Ok (Some [m1], ([c3], [[]; []; []])) \/
     next_index pop pop_row paginate mo [DInt64; DInt64] 4 3 [c1; c2; c3] [[]; []; []] [] = Ok (Some [m1; m2], ([], [[]; []; []]))).
  { remember 3 as n3 eqn:E3. cbn [next_index]. rewrite P1. cbn [push_next take_at ch_stream c1]. subst n3. rewrite GA, MQ. cbn [app].
    destruct (drained (mo_limit mo) [m1]); [now left|]. right. apply N3. now right. }
  remember 4 as n4 eqn:E4. remember 3 as n3 eqn:E3 in *. subst n4. cbn [files_loop]. subst n3.
  change (map f_dt (firstn 2 rp_fields)) with [DInt64; DInt64].
  destruct NI as [-> | ->].
  - cbn [data_cols]. cbn -[next_index]. rewrite HF. cbn -[next_index]. rewrite (N3 _ [] (or_introl eq_refl)).
    cbn. rewrite (proj1 HP). eexists. split; reflexivity.
  - cbn -[next_index]. rewrite HF. cbn. rewrite (proj1 HP). eexists. split; reflexivity.
Qed.
End Replacing.
Print Assumptions C103_other_records_dropped_refuted.
Print Assumptions C103_values_shifted_refuted.
Print Assumptions C103_unsorted_refuted.

(** The three cases with a heap and pages of our own: project 7 with records 1 and 2 in two
    parts; a record of project 8 that gets the value 100 of a dropped record of project 7;
    four records of project 7 in three parts. *)
Definition mo_groups := mkMO 2 true 3 2.
Definition rows_written (r : result fault (list Field * list OutFile)) : option (list Row) :=
  match r with Ok (_, outs) => Some (concat (map (fun o => concat (o_groups o)) outs)) | Err _ => None end.
Definition never_full (gs : list (list Row)) : bool := false.
Example C103_witness :
  rows_written (page_merge ref_pop ref_pop_row ref_paginate never_full mo_groups
     [rp_file [[rp_row 7 1 100]]; rp_file [[rp_row 7 2 200]]])
  = Some [rp_row 7 2 200]
  /\ rows_written (page_merge ref_pop ref_pop_row ref_paginate never_full mo_groups
     [rp_file [[rp_row 7 1 100; rp_row 8 1 300]]; rp_file [[rp_row 7 2 200]]])
  = Some [rp_row 7 2 200; rp_row 8 1 100]
  /\ rows_written (page_merge ref_pop ref_pop_row ref_paginate never_full mo_groups
     [rp_file [[rp_row 7 1 100; rp_row 7 9 300]]; rp_file [[rp_row 7 2 200]]; rp_file [[rp_row 7 4 400]]])
  = Some [rp_row 7 9 100; rp_row 7 4 400].
Proof. vm_compute. repeat split; reflexivity. Qed.
