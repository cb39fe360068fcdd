(** Properties of the in-memory table: C04, C11, C13, C14, C63. *)
From Coq Require Import List NArith ZArith Lia Bool Permutation Sorted.
From Verif Require Import Bytes Value Log Order Memtable ListFacts MemtableFacts ReplacingFacts MemtableProject.
Import ListNotations.

(** ** Specification side: what was inserted, and which columns exist. *)
Inductive MemOp := MRow (r : list Value) | MCol (dt : DType).

(** Rows given to the table, in order. *)
Definition rows_in (ops : list MemOp) : list (list Value) :=
  flat_map (fun o => match o with MRow r => [r] | MCol _ => [] end) ops.
(** Column types, in order of addition. *)
Definition cols_in (ops : list MemOp) : list DType :=
  flat_map (fun o => match o with MRow _ => [] | MCol d => [d] end) ops.
(** Every inserted row has one value per column existing at that time, and there is a
    column (this is what insert guarantees, see C23). *)
Fixpoint legal (w : nat) (ops : list MemOp) : Prop :=
  match ops with
  | [] => True
  | MCol _ :: t => legal (S w) t
  | MRow r :: t => 0 < w /\ length r = w /\ legal w t
  end.
(** A row as a reader of the final table must see it. *)
Definition padded (w : nat) (r : list Value) : list Value := r ++ repeat VNull (w - length r).
Definition table_rows (ops : list MemOp) : list (list Value) :=
  map (padded (length (cols_in ops))) (rows_in ops).

(** ** Model side: the same history run on the memtable. *)
Definition mem_step (m : option Memtable) (o : MemOp) : option Memtable :=
  match m with
  | None => None
  | Some m => match o with
              | MCol dt => Some (mt_add_column m dt)
              | MRow r => let '(m', ok) := push_values m 0 r in if ok then Some m' else None
              end
  end.
Definition mem_run (ops : list MemOp) : option Memtable := fold_left mem_step ops (Some mt_new).

Lemma legal_snoc ops : forall w o, legal w (ops ++ [o]) ->
  legal w ops /\ match o with MRow r => 0 < w + length (cols_in ops) /\ length r = w + length (cols_in ops) | _ => True end.
Proof.
  induction ops as [|a ops IH]; intros w o H.
  - cbn in *. destruct o; [|auto]. rewrite Nat.add_0_r. tauto.
  - cbn [app legal] in H. destruct a as [r|d].
    + destruct H as (H1 & H2 & H). apply IH in H as [H3 H4]. split; [cbn; auto|exact H4].
    + apply IH in H as [H3 H4]. split; [exact H3|].
      cbn. destruct o; [|auto]. rewrite Nat.add_succ_r. exact H4.
Qed.

Lemma rows_in_width ops : legal 0 ops -> Forall (fun r => length r <= length (cols_in ops)) (rows_in ops)
  /\ (cols_in ops = [] -> rows_in ops = []).
Proof.
  induction ops as [|o ops IH] using rev_ind; intros H.
  - split; constructor.
  - apply legal_snoc in H as [H Ho]. destruct (IH H) as [F E].
    unfold rows_in, cols_in in *. rewrite !flat_map_app, !app_length.
    destruct o as [r|d]; cbn [flat_map app length] in *; rewrite ?app_nil_r, ?Nat.add_0_r.
    + destruct Ho as [Ho1 Ho2]. split.
      * apply Forall_app. split; [exact F|]. constructor; [lia|constructor].
      * intros E'. rewrite E' in Ho1. cbn in Ho1. lia.
    + split.
      * eapply Forall_impl; [|exact F]. cbn. intros; lia.
      * intros E'. destruct (flat_map _ ops) in E'; discriminate.
Qed.

Lemma mem_run_cols_of ops : legal 0 ops -> mem_run ops = Some (cols_of (cols_in ops) (table_rows ops)).
Proof.
  induction ops as [|o ops IH] using rev_ind; intros H; [reflexivity|].
  apply legal_snoc in H as [H Ho]. specialize (IH H). destruct (rows_in_width ops H) as [F E].
  unfold mem_run in *. rewrite fold_left_app, IH. cbn [fold_left mem_step].
  assert (W : Forall (width (length (cols_in ops))) (table_rows ops)).
  { unfold table_rows. rewrite Forall_map. eapply Forall_impl; [|exact F].
    cbn. intros r Hr. unfold width, padded. rewrite app_length, repeat_length. lia. }
  destruct o as [r|d].
  - cbn in Ho. rewrite push_row_cols_of by lia. f_equal.
    unfold table_rows, rows_in, cols_in. rewrite !flat_map_app. cbn [flat_map app].
    rewrite !app_nil_r, map_app. cbn [map]. f_equal. f_equal. f_equal.
    unfold padded. destruct Ho as [_ ->]. unfold cols_in. rewrite Nat.sub_diag. cbn. now rewrite app_nil_r.
  - rewrite add_column_cols_of; [|intros E'; unfold table_rows; now rewrite (E E')|exact W].
    unfold table_rows, rows_in, cols_in. rewrite !flat_map_app. cbn [flat_map app].
    rewrite !app_nil_r, map_map. do 2 f_equal. apply map_ext_in. intros r Hr.
    rewrite Forall_forall in F. specialize (F r Hr).
    unfold padded. fold (cols_in ops). rewrite app_length. cbn [length].
    rewrite <- app_assoc. f_equal.
    replace (length (cols_in ops) + 1 - length r) with (length (cols_in ops) - length r + 1) by lia.
    now rewrite repeat_app.
Qed.

(** ** C04 *)
Theorem C04_memtable_is_row_list :
  forall ops, legal 0 ops ->
  exists m, mem_run ops = Some m
    /\ mt_len m = length (rows_in ops)
    /\ map c_dt m = cols_in ops
    /\ forall i r, nth_error (rows_in ops) i = Some r ->
         row_values m i = Some (r ++ repeat VNull (length (cols_in ops) - length r)).
Proof.
  intros ops H. exists (cols_of (cols_in ops) (table_rows ops)).
  destruct (rows_in_width ops H) as [F E].
  split; [now apply mem_run_cols_of|]. split; [|split].
  - destruct (cols_in ops) eqn:D.
    + rewrite (E eq_refl). reflexivity.
    + rewrite mt_len_cols_of by discriminate. unfold table_rows. apply map_length.
  - unfold cols_of. rewrite map_map. rewrite map_ext with (g := snd) by (now intros [j d]).
    clear. assert (G : forall (l : list DType) off, map snd (combine (seq off (length l)) l) = l).
    { induction l; intros; cbn; f_equal; auto. } apply G.
  - intros i r Hi.
    assert (Hl : i < length (rows_in ops)) by (apply nth_error_Some; congruence).
    rewrite row_values_cols_of.
    + f_equal. unfold table_rows. rewrite (nth_indep _ [] (padded (length (cols_in ops)) [])) by (now rewrite map_length).
      rewrite map_nth. unfold padded. rewrite (nth_error_nth _ _ _ Hi). reflexivity.
    + unfold table_rows. now rewrite map_length.
    + unfold table_rows. rewrite Forall_map. eapply Forall_impl; [|exact F].
      cbn. intros q Hq. unfold width, padded. rewrite app_length, repeat_length. lia.
Qed.
Print Assumptions C04_memtable_is_row_list.

Definition sample_ops : list MemOp :=
  [MCol DInt64; MCol DTimestamp; MRow [VInt64 (Some 2%Z); VTimestamp (Some 5%Z)];
   MCol DString; MRow [VInt64 (Some 1%Z); VTimestamp (Some 5%Z); VString (Some [97%N])];
   MRow [VInt64 (Some 2%Z); VTimestamp (Some 5%Z); VNull]].
Example C04_witness :
  legal 0 sample_ops /\
  exists m, mem_run sample_ops = Some m /\ row_values m 0 = Some [VInt64 (Some 2%Z); VTimestamp (Some 5%Z); VNull].
Proof. split; [cbn; repeat split; lia|eexists; split; vm_compute; reflexivity]. Qed.

(** ** C11: lookup in memory returns the last row with the key *)
(** [r] starts with the requested key. *)
Definition row_has_key (key : list KeyValue) (r : list Value) : Prop :=
  firstn (length key) r = map value_of_key key.

Theorem C11_memory_lookup_last_write :
  forall ops key, legal 0 ops -> cols_in ops <> [] -> length key <= length (cols_in ops) ->
  exists m res, mem_run ops = Some m /\ mt_get m key = Ok res /\
  match res with
  | Some row => exists before after, table_rows ops = before ++ row :: after
                  /\ row_has_key key row /\ Forall (fun r => ~ row_has_key key r) after
  | None => Forall (fun r => ~ row_has_key key r) (table_rows ops)
  end.
Proof.
  intros ops key H Hc Hk. destruct (rows_in_width ops H) as [F E].
  exists (cols_of (cols_in ops) (table_rows ops)), (last_with (map value_of_key key) (table_rows ops)).
  split; [now apply mem_run_cols_of|]. split.
  - apply mt_get_cols_of; auto. unfold table_rows. rewrite Forall_map. eapply Forall_impl; [|exact F].
    cbn. intros q Hq. unfold width, padded. rewrite app_length, repeat_length. lia.
  - assert (HK : forall r, has_key (map value_of_key key) r = true <-> row_has_key key r).
    { intros r. unfold has_key, row_has_key. rewrite map_length.
      destruct (list_eq_dec _ _ _); split; intros; congruence. }
    unfold last_with. generalize (table_rows ops) as rows. clear - HK.
    induction rows as [|r rows IH] using rev_ind; [constructor|].
    rewrite rev_app_distr. cbn [rev app find].
    destruct (has_key (map value_of_key key) r) eqn:Er.
    + exists rows, []. split; [reflexivity|]. split; [now apply HK|constructor].
    + assert (N : ~ row_has_key key r) by (intros C; apply HK in C; congruence).
      destruct (find _ (rev rows)) as [row|] eqn:Fd.
      * destruct IH as (b & a & -> & K & FA). exists b, (a ++ [r]).
        split; [now rewrite <- app_assoc|]. split; [exact K|]. apply Forall_app. auto.
      * apply Forall_app. auto.
Qed.
Print Assumptions C11_memory_lookup_last_write.

Example C11_witness :
  legal 0 sample_ops /\ cols_in sample_ops <> [] /\
  exists m, mem_run sample_ops = Some m /\
    mt_get m [KInt64 2%Z; KTimestamp 5%Z] = Ok (Some [VInt64 (Some 2%Z); VTimestamp (Some 5%Z); VNull]) /\
    mt_get m [KInt64 3%Z] = Ok None.
Proof.
  split; [cbn; repeat split; lia|]. split; [discriminate|].
  eexists; split; [vm_compute; reflexivity|]. split; vm_compute; reflexivity.
Qed.

(** ** Typed rows: what part files and scans contain *)
(** Stored content of a value, independent of the declared width. *)
Definition payload (v : Value) : cell :=
  match v with
  | VBoolean o => option_map ABool o
  | VInt8 o | VInt16 o | VInt32 o | VInt64 o | VTimestamp o | VDecimal o => option_map AInt o
  | VString o => option_map AStr o
  | _ => None
  end.
Definition has_type (d : DType) (v : Value) : Prop :=
  match d, v with
  | _, VNull => True
  | DString, VString _ | DInt8, VInt8 _ | DInt16, VInt16 _ | DInt32, VInt32 _ | DInt64, VInt64 _
  | DDecimal, VDecimal _ | DBoolean, VBoolean _ | DTimestamp, VTimestamp _ => True
  | _, _ => False
  end.
Definition typed_row (dts : list DType) (r : list Value) : Prop := Forall2 has_type dts r.

Lemma cell_of_payload d v : has_type d v -> cell_of d v = Some (payload v).
Proof. destruct d, v; cbn; intros H; try contradiction; reflexivity. Qed.
Lemma row_cells_payload dts r : typed_row dts r -> row_cells dts r = Some (map payload r).
Proof. intros H; induction H as [|d v dts r Hv _ IH]; cbn; [reflexivity|]. now rewrite (cell_of_payload _ _ Hv), IH. Qed.
Lemma rows_cells_payload dts rows : Forall (typed_row dts) rows ->
  mapM (row_cells dts) rows = Some (map (map payload) rows).
Proof. intros H. apply mapM_Some_map. rewrite Forall_forall in H. intros r Hr. apply row_cells_payload; auto. Qed.

(** The contents of the table in stored form. *)
Definition stored_rows (ops : list MemOp) : list Row := map (map payload) (table_rows ops).
Definition typed_ops (ops : list MemOp) : Prop := Forall (typed_row (cols_in ops)) (table_rows ops).

(** ** C13: writing out of memory sorts and changes nothing *)
Theorem C13_written_rows_sorted_permutation :
  forall lexsort ops index_cols,
  lexsort_contract lexsort -> legal 0 ops -> typed_ops ops -> rows_in ops <> [] ->
  0 < index_cols <= length (cols_in ops) ->
  exists m out, mem_run ops = Some m
    /\ mt_chunk lexsort m None index_cols false = Ok (Some out)
    /\ Permutation out (stored_rows ops)
    /\ StronglySorted (fun a b => cmp_key (firstn index_cols a) (firstn index_cols b) <> Gt) out.
Proof.
  intros lexsort ops ic HS HL HT Hne Hic.
  exists (cols_of (cols_in ops) (table_rows ops)), (sorted_rows lexsort ic (stored_rows ops)).
  split; [now apply mem_run_cols_of|]. split; [|split].
  - rewrite (mt_chunk_all lexsort HS _ _ _ ic (rows_cells_payload _ _ HT)); auto.
    intros E. unfold table_rows in E. apply map_eq_nil in E. contradiction.
  - now apply sorted_rows_perm.
  - now apply sorted_rows_sorted.
Qed.
Print Assumptions C13_written_rows_sorted_permutation.

Lemma sample_typed : typed_ops sample_ops.
Proof. repeat constructor. Qed.
Example C13_witness :
  lexsort_contract stable_lexsort /\ legal 0 sample_ops /\ typed_ops sample_ops /\
  exists m, mem_run sample_ops = Some m /\
  mt_chunk stable_lexsort m None 2 false
  = Ok (Some [[Some (AInt 1); Some (AInt 5); Some (AStr [97%N])];
              [Some (AInt 2); Some (AInt 5); None]; [Some (AInt 2); Some (AInt 5); None]]%Z).
Proof.
  split; [exact stable_lexsort_contract|]. split; [cbn; repeat split; lia|]. split; [exact sample_typed|].
  eexists; split; vm_compute; reflexivity.
Qed.

(** ** C14: replacing tables *)
(** Full statement (refuted below): for every [index_cols], exactly one row per key is
    written and it is the most recently inserted one. *)
Definition int_key_values (r : list Value) : Prop :=
  exists a b rest, map payload r = Some (AInt a) :: Some (AInt b) :: rest.

(** Two 64-bit key columns: exactly one row per key, each of them an inserted row. *)
Theorem C14_one_row_per_key_partial :
  forall lexsort ops d0 d1 rest,
  lexsort_contract lexsort -> legal 0 ops -> typed_ops ops -> rows_in ops <> [] ->
  cols_in ops = d0 :: d1 :: rest -> is_i64 d0 = true -> is_i64 d1 = true ->
  Forall int_key_values (table_rows ops) ->
  exists m out, mem_run ops = Some m
    /\ mt_chunk lexsort m None 2 true = Ok (Some out)
    /\ incl out (stored_rows ops)
    /\ NoDup (map (firstn 2) out)
    /\ (forall r, In r (stored_rows ops) -> exists r', In r' out /\ firstn 2 r' = firstn 2 r).
Proof.
  intros lexsort ops d0 d1 rest HS HL HT Hne Hc H0 H1 HK.
  assert (K : Forall int_keyed (stored_rows ops)).
  { unfold stored_rows. rewrite Forall_map. exact HK. }
  assert (K' : Forall int_keyed (sorted_rows lexsort 2 (stored_rows ops))).
  { rewrite (sorted_rows_perm lexsort HS). exact K. }
  assert (Hne' : table_rows ops <> []) by (intros E; apply map_eq_nil in E; contradiction).
  exists (cols_of (cols_in ops) (table_rows ops)), (keep_last (sorted_rows lexsort 2 (stored_rows ops))).
  split; [now apply mem_run_cols_of|]. split; [|split; [|split]].
  - rewrite (mt_chunk_all lexsort HS _ _ _ 2 (rows_cells_payload _ _ HT)); auto; [|rewrite Hc; cbn; lia].
    fold (stored_rows ops).
    rewrite (replace_rows_keep_last _ _ d0 d1 rest Hc H0 H1); [reflexivity|].
    intros E. pose proof (sorted_rows_perm lexsort HS 2 (stored_rows ops)) as P. rewrite E in P.
    apply Permutation_nil in P. unfold stored_rows in P. apply map_eq_nil in P. contradiction.
  - intros r Hr. apply keep_last_In in Hr. eapply Permutation_in; [|exact Hr]. now apply sorted_rows_perm.
  - pose proof (keep_last_sorted_nodup _ K' (sorted_rows_sorted lexsort HS 2 _)) as ND.
    assert (KI : forall r, In r (keep_last (sorted_rows lexsort 2 (stored_rows ops))) -> int_keyed r).
    { intros r Hr. apply keep_last_In in Hr. rewrite Forall_forall in K'. auto. }
    revert ND KI. generalize (keep_last (sorted_rows lexsort 2 (stored_rows ops))) as l.
    induction l as [|r l IH]; cbn [map]; intros ND KI; [constructor|].
    inversion ND as [|? ? Nin ND']; subst. constructor.
    + intros Hin. apply Nin. apply in_map_iff in Hin as (s & Es & Hs). apply in_map_iff. exists s.
      split; [|exact Hs]. apply int_keyed_key; auto; apply KI; cbn; auto.
    + apply IH; auto. intros; apply KI; now right.
  - intros r Hr.
    assert (Hr' : In r (sorted_rows lexsort 2 (stored_rows ops))).
    { eapply Permutation_in; [symmetry; apply (sorted_rows_perm lexsort HS)|exact Hr]. }
    destruct (keep_last_cover _ _ Hr') as (r' & Hin & E). exists r'. split; [exact Hin|].
    rewrite Forall_forall in K'. apply int_keyed_key; auto. apply K'. now apply keep_last_In.
Qed.
Print Assumptions C14_one_row_per_key_partial.

(** If the sort keeps equal keys in insertion order, the kept row is the newest. *)
Theorem C14_newest_if_sort_stable_partial :
  forall lexsort ops d0 d1 rest,
  stable_contract lexsort -> legal 0 ops -> typed_ops ops -> rows_in ops <> [] ->
  cols_in ops = d0 :: d1 :: rest -> is_i64 d0 = true -> is_i64 d1 = true ->
  Forall int_key_values (table_rows ops) ->
  exists m out, mem_run ops = Some m
    /\ mt_chunk lexsort m None 2 true = Ok (Some out)
    /\ forall r, In r out -> exists older newer, stored_rows ops = older ++ r :: newer
         /\ Forall (fun s => firstn 2 s <> firstn 2 r) newer.
Proof.
  intros lexsort ops d0 d1 rest HS HL HT Hne Hc H0 H1 HK.
  assert (K : Forall int_keyed (stored_rows ops)).
  { unfold stored_rows. rewrite Forall_map. exact HK. }
  assert (Hne' : table_rows ops <> []) by (intros E; apply map_eq_nil in E; contradiction).
  exists (cols_of (cols_in ops) (table_rows ops)), (keep_last (sorted_rows lexsort 2 (stored_rows ops))).
  split; [now apply mem_run_cols_of|]. split.
  - rewrite (mt_chunk_all lexsort (proj1 HS) _ _ _ 2 (rows_cells_payload _ _ HT)); auto; [|rewrite Hc; cbn; lia].
    fold (stored_rows ops).
    rewrite (replace_rows_keep_last _ _ d0 d1 rest Hc H0 H1); [reflexivity|].
    intros E. pose proof (sorted_rows_perm lexsort (proj1 HS) 2 (stored_rows ops)) as P. rewrite E in P.
    apply Permutation_nil in P. unfold stored_rows in P. apply map_eq_nil in P. contradiction.
  - intros r Hr. pose proof (keep_last_newest lexsort _ r HS K Hr) as L.
    assert (Hin : In r (stored_rows ops)).
    { apply keep_last_In in Hr. eapply Permutation_in; [|exact Hr]. apply (sorted_rows_perm lexsort (proj1 HS)). }
    revert L Hin. generalize (stored_rows ops) as l. clear. induction l as [|s l IH] using rev_ind; intros L Hin.
    + contradiction.
    + rewrite filter_app in L. cbn [filter] in L. destruct (same_key (firstn 2 r) s) eqn:Es.
      * rewrite last_last in L. subst s. exists l, []. split; [reflexivity|constructor].
      * rewrite app_nil_r in L. apply in_app_or in Hin as [Hin|[->|[]]].
        -- destruct (IH L Hin) as (o & n & -> & Fn). exists o, (n ++ [s]).
           split; [now rewrite <- app_assoc|]. apply Forall_app. split; [exact Fn|].
           constructor; [|constructor]. intros Es'. unfold same_key in Es. rewrite Es' in Es.
           rewrite (tc_refl _ cmp_key_total) in Es. discriminate.
        -- unfold same_key in Es. rewrite (tc_refl _ cmp_key_total) in Es. discriminate.
Qed.
Print Assumptions C14_newest_if_sort_stable_partial.

Definition two_versions : list MemOp :=
  [MCol DInt64; MCol DTimestamp; MCol DInt64;
   MRow [VInt64 (Some 1%Z); VTimestamp (Some 1%Z); VInt64 (Some 10%Z)];
   MRow [VInt64 (Some 1%Z); VTimestamp (Some 2%Z); VInt64 (Some 15%Z)];
   MRow [VInt64 (Some 1%Z); VTimestamp (Some 1%Z); VInt64 (Some 20%Z)]].
Example C14_witness :
  stable_contract stable_lexsort /\ legal 0 two_versions /\ typed_ops two_versions /\
  Forall int_key_values (table_rows two_versions) /\
  exists m, mem_run two_versions = Some m /\
   mt_chunk stable_lexsort m None 2 true
   = Ok (Some [[Some (AInt 1); Some (AInt 1); Some (AInt 20)]; [Some (AInt 1); Some (AInt 2); Some (AInt 15)]]%Z).
Proof.
  split; [exact stable_lexsort_stable|]. split; [cbn; repeat split; lia|]. split; [repeat constructor|].
  split; [repeat constructor; cbn; unfold int_key_values; cbn; do 3 eexists; reflexivity|].
  eexists; split; vm_compute; reflexivity.
Qed.

(** A sort that meets the documented contract but visits equal keys last-first. *)
Definition rev_lexsort (keys : list (list cell)) : list nat :=
  sort_by cmp_key (fun i => nth i keys []) (rev (seq 0 (length keys))).
Lemma rev_lexsort_contract : lexsort_contract rev_lexsort.
Proof.
  intros keys. split.
  - transitivity (rev (seq 0 (length keys))); [symmetry; apply sort_by_perm|symmetry; apply Permutation_rev].
  - apply sort_by_sorted. exact cmp_key_total.
Qed.

(** The sort used is documented as unstable: some legal result keeps the older row. *)
Theorem C14_newest_refuted :
  exists lexsort ops m out older newer,
    lexsort_contract lexsort /\ legal 0 ops /\ typed_ops ops /\ mem_run ops = Some m /\
    mt_chunk lexsort m None 2 true = Ok (Some out) /\
    In older out /\ ~ In newer out /\ firstn 2 older = firstn 2 newer /\
    exists a b c, stored_rows ops = a ++ older :: b ++ newer :: c.
Proof.
  exists rev_lexsort, two_versions. do 2 eexists.
  exists [Some (AInt 1); Some (AInt 1); Some (AInt 10)]%Z, [Some (AInt 1); Some (AInt 1); Some (AInt 20)]%Z.
  split; [exact rev_lexsort_contract|]. split; [cbn; repeat split; lia|]. split; [repeat constructor|].
  split; [vm_compute; reflexivity|]. split; [vm_compute; reflexivity|].
  split; [left; reflexivity|]. split; [intros [H|[H|[]]]; discriminate|]. split; [reflexivity|].
  exists [], [[Some (AInt 1); Some (AInt 2); Some (AInt 15)]%Z], []. vm_compute. reflexivity.
Qed.
Print Assumptions C14_newest_refuted.

(** With a number of key columns other than two every row is dropped. *)
Theorem C14_other_key_widths_refuted :
  forall lexsort ops index_cols,
  lexsort_contract lexsort -> legal 0 ops -> typed_ops ops -> rows_in ops <> [] ->
  0 < index_cols <= length (cols_in ops) -> index_cols <> 2 ->
  exists m, mem_run ops = Some m /\ mt_chunk lexsort m None index_cols true = Ok (Some []).
Proof.
  intros lexsort ops ic HS HL HT Hne Hic H2.
  exists (cols_of (cols_in ops) (table_rows ops)). split; [now apply mem_run_cols_of|].
  rewrite (mt_chunk_all lexsort HS _ _ _ ic (rows_cells_payload _ _ HT)); auto.
  - unfold replace_rows. destruct (Nat.eqb_spec ic 2); [contradiction|]. reflexivity.
  - intros E. apply map_eq_nil in E. contradiction.
Qed.
Print Assumptions C14_other_key_widths_refuted.

(** ** C63: projection
    Full statement (refuted): for every request [cols] of existing columns, a scan
    returns for each row the values of the requested columns in the requested order. *)
Theorem C63_projection_partial :
  forall lexsort ops index_cols cols,
  lexsort_contract lexsort -> legal 0 ops -> typed_ops ops -> rows_in ops <> [] -> 0 < index_cols ->
  StronglySorted lt cols -> (forall c, In c cols -> c < length (cols_in ops)) ->
  firstn index_cols cols = seq 0 index_cols ->
  exists m out, mem_run ops = Some m
    /\ mt_chunk lexsort m (Some cols) index_cols false = Ok (Some out)
    /\ Permutation out (map (fun r => map (fun c => nth c r None) cols) (stored_rows ops))
    /\ StronglySorted (fun a b => cmp_key (firstn index_cols a) (firstn index_cols b) <> Gt) out.
Proof.
  intros lexsort ops ic cols HS HL HT Hne Hic SS Hc Hp.
  exists (cols_of (cols_in ops) (table_rows ops)),
    (map (fun r => map (fun c => nth c r None) cols) (sorted_rows lexsort ic (stored_rows ops))).
  split; [now apply mem_run_cols_of|]. split; [|split].
  - apply mt_chunk_some; auto; [now apply rows_cells_payload|].
    intros E. apply map_eq_nil in E. contradiction.
  - apply Permutation_map. now apply sorted_rows_perm.
  - apply StronglySorted_map. eapply StronglySorted_weaken_in; [| |apply (sorted_rows_sorted lexsort HS ic)].
    + apply Forall_forall. intros r Hr. exact (Permutation_in _ (sorted_rows_perm lexsort HS ic _) Hr).
    + assert (W : Forall (fun r => length r = length (cols_in ops)) (stored_rows ops)).
      { exact (proj2 (row_cells_widths _ _ _ (rows_cells_payload _ _ HT))). }
      rewrite Forall_forall in W.
      assert (G : forall r, In r (stored_rows ops) -> firstn ic (map (fun c => nth c r None) cols) = firstn ic r).
      { intros r Hr. rewrite firstn_map, Hp. specialize (W r Hr).
        assert (ic <= length r).
        { destruct (le_lt_dec ic (length r)); [auto|].
          assert (In (pred ic) cols).
          { rewrite <- (firstn_skipn ic cols), Hp. apply in_or_app. left. apply in_seq. lia. }
          specialize (Hc _ H). lia. }
        transitivity (firstn ic (map (fun j => nth j r None) (seq 0 (length r)))).
        - now rewrite firstn_map, firstn_seq.
        - now rewrite map_nth_seq. }
      intros a b Ha Hb. cbv beta. unfold cle. rewrite !G by assumption. auto.
Qed.
Print Assumptions C63_projection_partial.

Example C63_witness :
  StronglySorted lt [0; 1; 2] /\ firstn 1 [0; 2] = seq 0 1 /\
  exists m, mem_run two_versions = Some m /\
   mt_chunk stable_lexsort m (Some [0; 2]) 1 false
   = Ok (Some [[Some (AInt 1); Some (AInt 10)]; [Some (AInt 1); Some (AInt 15)]; [Some (AInt 1); Some (AInt 20)]]%Z).
Proof.
  split; [repeat constructor|]. split; [reflexivity|]. eexists; split; vm_compute; reflexivity.
Qed.

(** Requesting columns [1; 0] (both 64-bit, so no type error shows it) returns them as
    [0; 1]: the caller labels column 0 with the name of column 1 and vice versa
    (src/query/src/physical_plan/db_parquet.rs 46 against memtable.rs 137-143). *)
Theorem C63_request_order_refuted :
  exists ops m out r,
    legal 0 ops /\ typed_ops ops /\ rows_in ops = [r] /\ mem_run ops = Some m /\
    mt_chunk stable_lexsort m (Some [1; 0]) 1 false = Ok (Some out) /\
    out <> [map (fun c => nth c (map payload r) None) [1; 0]].
Proof.
  exists [MCol DInt64; MCol DInt64; MRow [VInt64 (Some 1%Z); VInt64 (Some 2%Z)]]. do 3 eexists.
  split; [cbn; repeat split; lia|]. split; [repeat constructor|]. split; [reflexivity|].
  split; [vm_compute; reflexivity|]. split; [vm_compute; reflexivity|]. vm_compute. discriminate.
Qed.
Print Assumptions C63_request_order_refuted.

(** On a replacing table, reading only non-key columns silently drops rows: two rows
    with different keys but equal values in the requested columns become one. *)
Theorem C63_replacing_projection_drops_rows_refuted :
  exists ops m out,
    legal 0 ops /\ typed_ops ops /\ mem_run ops = Some m /\
    NoDup (map (firstn 2) (stored_rows ops)) /\ length (rows_in ops) = 2 /\
    mt_chunk stable_lexsort m (Some [2; 3]) 2 true = Ok (Some out) /\ length out = 1.
Proof.
  exists [MCol DInt64; MCol DInt64; MCol DInt64; MCol DInt64;
          MRow [VInt64 (Some 1%Z); VInt64 (Some 1%Z); VInt64 (Some 7%Z); VInt64 (Some 8%Z)];
          MRow [VInt64 (Some 1%Z); VInt64 (Some 2%Z); VInt64 (Some 7%Z); VInt64 (Some 8%Z)]].
  do 2 eexists.
  split; [cbn; repeat split; lia|]. split; [repeat constructor|]. split; [vm_compute; reflexivity|].
  split; [|split; [reflexivity|split; vm_compute; reflexivity]].
  vm_compute. repeat constructor; cbn; intuition discriminate.
Qed.
Print Assumptions C63_replacing_projection_drops_rows_refuted.
