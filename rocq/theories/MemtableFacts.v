(** The columnar memtable refines a plain list of rows. *)
From Coq Require Import List NArith ZArith Lia Bool Permutation Sorted.
From Verif Require Import Bytes Value Log Order Memtable ListFacts.
Import ListNotations.

(** ** Specification: the table as a list of rows. *)
Definition cols_of (dts : list DType) (rows : list (list Value)) : Memtable :=
  map (fun '(j, dt) => mkColumn dt (map (fun r => nth j r VNull) rows))
      (combine (seq 0 (length dts)) dts).

Definition width (n : nat) (r : list Value) : Prop := length r = n.

(** ** Order facts *)
Lemma cell_code_inj a b : cell_code a = cell_code b -> a = b.
Proof.
  destruct a as [[z|x|s]|], b as [[z'|x'|s']|]; cbn; intros H; try discriminate; try congruence.
  - injection H as H. destruct x, x'; congruence.
  - injection H as H. do 2 f_equal.
    revert s' H; induction s as [|c s IH]; destruct s' as [|c' s']; cbn; intros H; try discriminate; auto.
    injection H as H1 H2. f_equal; [now apply N2Z.inj|auto].
Qed.
Lemma cmp_cell_total : TotalCmp cmp_cell.
Proof. exact (code_total _ cell_code (lex_total _ Zcmp_total) cell_code_inj). Qed.
Lemma cmp_key_total : TotalCmp cmp_key.
Proof. exact (lex_total _ cmp_cell_total). Qed.

(** The contract is satisfiable: a stable sort meets it. *)
Definition stable_lexsort (keys : list (list cell)) : list nat :=
  sort_by cmp_key (fun i => nth i keys []) (seq 0 (length keys)).
Lemma stable_lexsort_contract : lexsort_contract stable_lexsort.
Proof.
  intros keys. split.
  - symmetry. apply sort_by_perm.
  - apply sort_by_sorted. exact cmp_key_total.
Qed.

(** ** push / add *)
Lemma push_value_app pre c post v :
  push_value (pre ++ c :: post) (length pre) v
  = Some (pre ++ mkColumn (c_dt c) (c_vals c ++ [v]) :: post).
Proof. induction pre as [|p pre IH]; cbn; [reflexivity|]. now rewrite IH. Qed.

Lemma push_value_oob m i v : length m <= i -> push_value m i v = None.
Proof.
  revert i; induction m as [|c m IH]; intros i H; cbn in *; [reflexivity|].
  destruct i; [lia|]. rewrite IH by lia. reflexivity.
Qed.

Definition push_col (c : Column) (v : Value) : Column := mkColumn (c_dt c) (c_vals c ++ [v]).

Lemma push_values_app pre cols vs :
  length vs <= length cols ->
  push_values (pre ++ cols) (length pre) vs
  = (pre ++ map (fun '(c, v) => push_col c v) (combine cols vs) ++ skipn (length vs) cols, true).
Proof.
  revert pre cols; induction vs as [|v vs IH]; intros pre cols H; cbn [push_values length skipn].
  - destruct cols; reflexivity.
  - destruct cols as [|c cols]; cbn [length] in H; [lia|].
    rewrite push_value_app.
    specialize (IH (pre ++ [push_col c v]) cols ltac:(lia)).
    rewrite app_length in IH. cbn [length] in IH. rewrite Nat.add_1_r in IH.
    rewrite <- !app_assoc in IH. cbn [app] in IH. unfold push_col in IH at 1.
    rewrite IH. reflexivity.
Qed.

Lemma combine_map_l {A B C} (f : A -> C) (a : list A) (b : list B) :
  combine (map f a) b = map (fun '(x, y) => (f x, y)) (combine a b).
Proof. revert b; induction a; destruct b; cbn; f_equal; auto. Qed.

Lemma cols_of_length dts rows : length (cols_of dts rows) = length dts.
Proof. unfold cols_of. rewrite map_length, combine_length, seq_length. lia. Qed.

Lemma cols_from_push (off : nat) dts rows (row tailr : list Value) :
  skipn off row = tailr -> length tailr = length dts ->
  map (fun '(c, v) => push_col c v)
    (combine (map (fun '(j, dt) => mkColumn dt (map (fun r => nth j r VNull) rows))
       (combine (seq off (length dts)) dts)) tailr)
  = map (fun '(j, dt) => mkColumn dt (map (fun r => nth j r VNull) (rows ++ [row])))
       (combine (seq off (length dts)) dts).
Proof.
  revert off tailr; induction dts as [|dt dts IH]; intros off tailr Hs Hl; cbn; [reflexivity|].
  destruct tailr as [|v tailr]; [discriminate|]. cbn in Hl. injection Hl as Hl.
  cbn [combine map]. f_equal.
  - unfold push_col. cbn. f_equal. rewrite map_app. cbn. do 2 f_equal.
    rewrite <- (firstn_skipn off row), Hs.
    assert (length (firstn off row) = off).
    { rewrite firstn_length. assert (L := skipn_length off row). rewrite Hs in L. cbn in L. lia. }
    rewrite app_nth2 by lia. rewrite H, Nat.sub_diag. reflexivity.
  - apply IH; [|exact Hl].
    replace (S off) with (1 + off) by lia.
    rewrite <- (firstn_skipn off row) at 1. rewrite Hs.
    assert (length (firstn off row) = off).
    { rewrite firstn_length. assert (L := skipn_length off row). rewrite Hs in L. cbn in L. lia. }
    rewrite skipn_app, H. rewrite skipn_all2 by lia.
    replace (1 + off - off) with 1 by lia. reflexivity.
Qed.

Lemma push_row_cols_of dts rows row :
  length row = length dts ->
  push_values (cols_of dts rows) 0 row = (cols_of dts (rows ++ [row]), true).
Proof.
  intros H. change 0 with (length (@nil Column)).
  change (cols_of dts rows) with ([] ++ cols_of dts rows) at 1.
  rewrite push_values_app by (rewrite cols_of_length; lia).
  cbn [app]. unfold cols_of at 1 2. rewrite (cols_from_push 0) with (row := row) by auto.
  fold (cols_of dts (rows ++ [row])).
  rewrite skipn_all2 by (rewrite map_length, combine_length, seq_length; lia).
  now rewrite app_nil_r.
Qed.

Lemma mt_len_cols_of dts rows : dts <> [] -> mt_len (cols_of dts rows) = length rows.
Proof. destruct dts; [congruence|]. intros _. cbn. apply map_length. Qed.

Lemma add_column_cols_of dts dt rows :
  (dts = [] -> rows = []) -> Forall (width (length dts)) rows ->
  mt_add_column (cols_of dts rows) dt = cols_of (dts ++ [dt]) (map (fun r => r ++ [VNull]) rows).
Proof.
  intros H0 Hw. unfold mt_add_column.
  assert (mt_len (cols_of dts rows) = length rows) as ->.
  { destruct dts; [rewrite H0 by reflexivity; reflexivity|]. apply mt_len_cols_of. discriminate. }
  unfold cols_of. rewrite app_length. cbn [length]. rewrite seq_app. cbn [seq].
  assert (E : forall (a : list nat) (b : list DType) x y, length a = length b ->
     combine (a ++ [x]) (b ++ [y]) = combine a b ++ [(x, y)]).
  { intros a; induction a; destruct b; cbn; intros; try discriminate; auto. f_equal. auto. }
  rewrite E by apply seq_length. rewrite map_app. cbn [map]. f_equal.
  - apply map_ext_in. intros [j t] Hj. f_equal. rewrite map_map.
    apply map_ext_in. intros r Hr. rewrite Forall_forall in Hw. specialize (Hw r Hr).
    apply in_combine_l, in_seq in Hj. unfold width in Hw. rewrite app_nth1; [reflexivity|lia].
  - f_equal. f_equal. rewrite map_map.
    clear - Hw. induction Hw as [|r rows Hr _ IH]; cbn; [reflexivity|].
    f_equal; [|exact IH]. unfold width in Hr. rewrite app_nth2 by lia.
    cbn [Nat.add]. rewrite Hr, Nat.sub_diag. reflexivity.
Qed.

Lemma create_empty_cols_of dts rows : mt_create_empty (cols_of dts rows) = cols_of dts [].
Proof. unfold mt_create_empty, cols_of. rewrite map_map. apply map_ext. now intros [j dt]. Qed.

Lemma cols_of_nil_dts rows : cols_of [] rows = [].
Proof. reflexivity. Qed.

(** ** Typed rows and their arrow form *)
Fixpoint row_cells (dts : list DType) (r : list Value) : option Row :=
  match dts, r with
  | [], [] => Some []
  | dt :: dts', v :: r' =>
    match cell_of dt v, row_cells dts' r' with
    | Some c, Some cs => Some (c :: cs)
    | _, _ => None
    end
  | _, _ => None
  end.

Lemma row_cells_length dts r c : row_cells dts r = Some c -> length r = length dts /\ length c = length dts.
Proof.
  revert r c; induction dts as [|dt dts IH]; destruct r as [|v r]; cbn; intros c H; try discriminate.
  - injection H as <-. auto.
  - destruct (cell_of dt v); [|discriminate]. destruct (row_cells dts r) eqn:E; [|discriminate].
    injection H as <-. destruct (IH _ _ E). cbn. lia.
Qed.

Lemma row_cells_nth dts r c j :
  row_cells dts r = Some c -> j < length dts ->
  cell_of (nth j dts DInt8) (nth j r VNull) = Some (nth j c None).
Proof.
  revert r c j; induction dts as [|dt dts IH]; destruct r as [|v r]; cbn; intros c j H Hj; try discriminate; try lia.
  destruct (cell_of dt v) eqn:E1; [|discriminate]. destruct (row_cells dts r) eqn:E2; [|discriminate].
  injection H as <-. destruct j; cbn; [exact E1|]. eapply IH; eauto. lia.
Qed.

(** Column-major arrays of a list of rows of width [w]. *)
Definition arrs_of (w : nat) (crows : list Row) : list (list cell) :=
  map (fun j => map (fun r => nth j r None) crows) (seq 0 w).

Lemma into_arrays_cols_of dts rows crows :
  mapM (row_cells dts) rows = Some crows ->
  mapM into_array (cols_of dts rows) = Some (arrs_of (length dts) crows).
Proof.
  intros H. unfold cols_of, arrs_of. rewrite mapM_map.
  assert (G : forall dt0 off, (forall j, j < length dt0 -> nth j dt0 DInt8 = nth (off + j) dts DInt8) ->
     off + length dt0 <= length dts ->
     mapM (fun x => into_array (let '(j, dt) := x in mkColumn dt (map (fun r => nth j r VNull) rows)))
       (combine (seq off (length dt0)) dt0)
     = Some (map (fun j => map (fun r => nth j r None) crows) (seq off (length dt0)))).
  { induction dt0 as [|dt dt0 IH]; intros off Hn Hle; cbn [length seq combine mapM map]; [reflexivity|].
    rewrite IH.
    - assert (E : into_array (mkColumn dt (map (fun r => nth off r VNull) rows))
                  = Some (map (fun r => nth off r None) crows)).
      { unfold into_array; cbn [c_dt c_vals]. rewrite mapM_map.
        specialize (Hn 0 ltac:(cbn; lia)). rewrite Nat.add_0_r in Hn. cbn in Hn. subst dt.
        cbn [length] in Hle. clear IH. revert crows H.
        induction rows as [|r rows IHr]; cbn; intros crows H.
        - injection H as <-. reflexivity.
        - destruct (row_cells dts r) eqn:Er; [|discriminate].
          destruct (mapM (row_cells dts) rows) eqn:Ers; [|discriminate].
          injection H as <-. cbn. rewrite (row_cells_nth _ _ _ off Er) by lia.
          rewrite (IHr _ eq_refl). reflexivity. }
      rewrite E. reflexivity.
    - intros j Hj. specialize (Hn (S j) ltac:(cbn; lia)). cbn in Hn. rewrite Hn. f_equal. lia.
    - cbn [length] in Hle. lia. }
  apply (G dts 0); [reflexivity|lia].
Qed.

Lemma take_row_arrs w crows i :
  i < length crows -> Forall (fun r => length r = w) crows ->
  take_row (arrs_of w crows) i = Some (nth i crows []).
Proof.
  intros Hi Hw. unfold take_row, arrs_of. rewrite mapM_map.
  rewrite (mapM_Some_map _ (fun j => nth j (nth i crows []) None)).
  - f_equal. rewrite Forall_forall in Hw.
    rewrite <- (Hw (nth i crows [])) by (apply nth_In; exact Hi). apply map_nth_seq.
  - intros j _. cbv beta.
    rewrite (nth_error_Some_nth (A:=cell) _ i (nth j (@nil cell) None)) by (rewrite map_length; exact Hi).
    rewrite map_nth with (d := []). reflexivity.
Qed.

Lemma firstn_seq n w : n <= w -> firstn n (seq 0 w) = seq 0 n.
Proof.
  intros. replace w with (n + (w - n)) by lia. rewrite seq_app, firstn_app, seq_length, Nat.sub_diag.
  rewrite firstn_all2 by (rewrite seq_length; lia). cbn. apply app_nil_r.
Qed.

Lemma firstn_arrs n w crows : n <= w -> Forall (fun r => length r = w) crows ->
  firstn n (arrs_of w crows) = arrs_of n (map (firstn n) crows).
Proof.
  intros Hn Hw. unfold arrs_of. rewrite firstn_map, firstn_seq by lia.
  apply map_ext_in. intros j Hj. apply in_seq in Hj. rewrite map_map.
  apply map_ext. intros r. symmetry. apply nth_firstn. lia.
Qed.

(** ** chunk *)
Section Chunk.
Variable lexsort : list (list cell) -> list nat.
Hypothesis HS : lexsort_contract lexsort.

(** The sorted rows computed by [mt_chunk] before the replacing pass. *)
Definition sorted_rows (index_cols : nat) (crows : list Row) : list Row :=
  map (fun i => nth i crows []) (lexsort (map (firstn index_cols) crows)).

Lemma sorted_rows_perm ic crows : Permutation (sorted_rows ic crows) crows.
Proof.
  unfold sorted_rows. destruct (HS (map (firstn ic) crows)) as [P _].
  rewrite map_length in P. now apply Permutation_map_nth.
Qed.

Lemma sorted_rows_sorted ic crows : sorted_by cmp_key (firstn ic) (sorted_rows ic crows).
Proof.
  unfold sorted_by, sorted_rows. apply StronglySorted_map with (R := fun a b => cle cmp_key (firstn ic a) (firstn ic b)).
  destruct (HS (map (firstn ic) crows)) as [P S].
  unfold sorted_by in S. eapply StronglySorted_weaken_in with (P := fun i => i < length crows); [| |exact S].
  - rewrite P. apply Forall_forall. intros x Hx. apply in_seq in Hx.
    rewrite map_length in Hx. lia.
  - intros a b Ha Hb H.
    cbv beta in H.
    assert (E : forall k, nth k (map (firstn ic) crows) [] = firstn ic (nth k crows [])).
    { intros k. replace (@nil cell) with (firstn ic (@nil cell)) at 1 by (now destruct ic).
      apply map_nth. }
    now rewrite !E in H.
Qed.

Lemma mt_chunk_all dts rows crows ic :
  mapM (row_cells dts) rows = Some crows -> rows <> [] -> 0 < ic <= length dts ->
  forall repl,
  mt_chunk lexsort (cols_of dts rows) None ic repl =
  if repl then match replace_rows dts ic (sorted_rows ic crows) with Ok rs => Ok (Some rs) | Err e => Err e end
  else Ok (Some (sorted_rows ic crows)).
Proof.
  intros H Hne Hic repl. unfold mt_chunk.
  assert (Hd : dts <> []) by (destruct dts; cbn in Hic; [lia|discriminate]).
  rewrite mt_len_cols_of by exact Hd.
  destruct (Nat.eqb_spec (length rows) 0) as [E0|_]; [destruct rows; [congruence|discriminate]|].
  cbn [project]. rewrite (into_arrays_cols_of _ _ _ H).
  assert (Hw : Forall (fun r => length r = length dts) crows).
  { apply Forall_forall. intros c Hc. destruct (In_nth_error _ _ Hc) as [i Hi].
    assert (Hl := mapM_length _ _ _ H).
    destruct (nth_error rows i) as [r|] eqn:Er.
    - destruct (mapM_nth _ _ _ _ _ H Er) as (y & Hy & Hf). rewrite Hi in Hy. injection Hy as <-.
      now apply row_cells_length in Hf.
    - apply nth_error_None in Er. assert (nth_error crows i <> None) by congruence.
      apply nth_error_Some in H0. lia. }
  assert (La : length (arrs_of (length dts) crows) = length dts).
  { unfold arrs_of. now rewrite map_length, seq_length. }
  rewrite La. destruct (Nat.ltb_spec (length dts) ic); [lia|].
  destruct (Nat.eqb_spec ic 0); [lia|].
  assert (Ln : length (nth 0 (arrs_of (length dts) crows) []) = length crows).
  { destruct dts; [congruence|]. cbn. apply map_length. }
  rewrite Ln, firstn_arrs by (try lia; exact Hw).
  rewrite (mapM_Some_map _ (fun i => nth i (map (firstn ic) crows) [])).
  2:{ intros i Hi. apply in_seq in Hi. apply take_row_arrs; [rewrite map_length; lia|].
      rewrite Forall_map. eapply Forall_impl; [|exact Hw]. cbn. intros r Hr. rewrite firstn_length. lia. }
  assert (Ek : map (fun i => nth i (map (firstn ic) crows) []) (seq 0 (length crows)) = map (firstn ic) crows).
  { rewrite <- (map_length (firstn ic) crows). apply map_nth_seq. }
  rewrite Ek.
  rewrite (mapM_Some_map _ (fun i => nth i crows [])).
  2:{ intros i Hi. destruct (HS (map (firstn ic) crows)) as [P _].
      eapply Permutation_in in Hi; [|exact P]. apply in_seq in Hi. rewrite map_length in Hi.
      apply take_row_arrs; [lia|exact Hw]. }
  fold (sorted_rows ic crows).
  assert (map c_dt (cols_of dts rows) = dts) as ->.
  { unfold cols_of. rewrite map_map. rewrite map_ext with (g := snd) by (now intros [j d]).
    clear. assert (G : forall (l : list DType) off, map snd (combine (seq off (length l)) l) = l).
    { induction l; intros; cbn; f_equal; auto. } apply G. }
  reflexivity.
Qed.
End Chunk.

(** ** Projection commutes with the row view *)
Lemma row_cells_select i dts r c cols :
  row_cells dts r = Some c ->
  row_cells (select_from i dts cols) (select_from i r cols) = Some (select_from i c cols).
Proof.
  revert i r c; induction dts as [|dt dts IH]; destruct r as [|v r]; cbn; intros c H; try discriminate.
  - injection H as <-. reflexivity.
  - destruct (cell_of dt v) eqn:E1; [|discriminate]. destruct (row_cells dts r) eqn:E2; [|discriminate].
    injection H as <-. cbn. destruct (existsb _ _); [|auto].
    cbn. rewrite E1. erewrite IH by exact E2. reflexivity.
Qed.

Lemma nth_app_off {A} (p : list A) x l d j : j = length p -> nth j (p ++ x :: l) d = x.
Proof. intros ->. rewrite app_nth2, Nat.sub_diag by lia. reflexivity. Qed.

(** ** get *)
Lemma row_values_cols_of dts rows i :
  i < length rows -> Forall (width (length dts)) rows ->
  row_values (cols_of dts rows) i = Some (nth i rows []).
Proof.
  intros Hi Hw. unfold row_values, cols_of. rewrite mapM_map.
  rewrite (mapM_Some_map _ (fun '(j, _) => nth j (nth i rows []) VNull)).
  - f_equal. rewrite Forall_forall in Hw.
    assert (L : length (nth i rows []) = length dts) by (apply Hw, nth_In, Hi).
    transitivity (map (fun j => nth j (nth i rows []) VNull) (map fst (combine (seq 0 (length dts)) dts))).
    { rewrite map_map. apply map_ext. now intros [j d]. }
    assert (map fst (combine (seq 0 (length dts)) dts) = seq 0 (length dts)) as ->.
    { clear. assert (G : forall (l : list DType) off, map fst (combine (seq off (length l)) l) = seq off (length l)).
      { induction l; intros; cbn; f_equal; auto. } apply G. }
    rewrite <- L. apply map_nth_seq.
  - intros [j d] _. cbv beta. cbn [c_vals].
    rewrite (nth_error_Some_nth _ i (nth j (@nil Value) VNull)) by (rewrite map_length; exact Hi).
    rewrite map_nth with (d := []). reflexivity.
Qed.

Definition has_key (key : list Value) (r : list Value) : bool :=
  if list_eq_dec Value_eq_dec (firstn (length key) r) key then true else false.

Lemma key_matches_from off dts rows key i :
  i < length rows -> length key <= length dts ->
  (forall r, In r rows -> length r = off + length dts) ->
  key_matches (map (fun '(j, dt) => mkColumn dt (map (fun r => nth j r VNull) rows))
                 (combine (seq off (length dts)) dts)) key i
  = Some (if list_eq_dec Value_eq_dec (firstn (length key) (skipn off (nth i rows []))) key then true else false).
Proof.
  revert off key; induction dts as [|dt dts IH]; intros off key Hi Hk Hw.
  - destruct key; [|cbn in Hk; lia]. cbn [length firstn key_matches]. destruct (list_eq_dec _ _ _); [reflexivity|congruence].
  - destruct key as [|k key].
    + cbn [length firstn key_matches]. destruct (list_eq_dec _ _ _); [reflexivity|congruence].
    + cbn [length seq combine map key_matches c_vals].
      assert (Hin : In (nth i rows []) rows) by (apply nth_In; exact Hi).
      assert (L := Hw _ Hin). cbn [length] in L.
      rewrite (nth_error_Some_nth _ i (nth off (@nil Value) VNull)) by (rewrite map_length; exact Hi).
      rewrite map_nth with (d := []).
      assert (S : skipn off (nth i rows []) = nth off (nth i rows []) VNull :: skipn (S off) (nth i rows [])).
      { clear - L. remember (nth i rows []) as r. clear Heqr. revert r L.
        induction off; intros r L; destruct r; cbn in L; try lia; [reflexivity|].
        cbn [skipn nth]. rewrite IHoff by lia. reflexivity. }
      rewrite S. cbn [firstn].
      destruct (Value_eq_dec (nth off (nth i rows []) VNull) k) as [E|E].
      * rewrite IH; [|exact Hi|cbn in Hk; lia|intros r Hr; rewrite (Hw r Hr); cbn; lia].
        f_equal. destruct (list_eq_dec _ _ key) as [E'|E'];
          destruct (list_eq_dec _ (_ :: _) (k :: key)) as [E''|E'']; try reflexivity; congruence.
      * destruct (list_eq_dec _ (_ :: _) (k :: key)) as [E''|E'']; [congruence|reflexivity].
Qed.

(** Spec: last row with the key. *)
Definition last_with (key : list Value) (rows : list (list Value)) : option (list Value) :=
  find (has_key key) (rev rows).

Lemma find_last_spec dts rows key n i acc :
  length key <= length dts -> Forall (width (length dts)) rows ->
  i + n = length rows ->
  find_last (cols_of dts rows) key n i acc
  = Some (fold_left (fun a j => if has_key key (nth j rows []) then Some j else a) (seq i n) acc).
Proof.
  intros Hk Hw. revert i acc; induction n as [|n IH]; intros i acc Hn; cbn [find_last seq fold_left]; [reflexivity|].
  unfold cols_of at 1. rewrite key_matches_from; [|lia|exact Hk|].
  2:{ intros r Hr. rewrite Forall_forall in Hw. rewrite (Hw r Hr). lia. }
  cbn [skipn]. fold (has_key key (nth i rows [])).
  destruct (has_key key (nth i rows [])); apply IH; lia.
Qed.

Lemma fold_last_find (p : list Value -> bool) rows :
  match fold_left (fun a j => if p (nth j rows []) then Some j else a) (seq 0 (length rows)) None with
  | Some j => Some (nth j rows [])
  | None => None
  end = find p (rev rows)
  /\ forall j, fold_left (fun a j => if p (nth j rows []) then Some j else a) (seq 0 (length rows)) None = Some j
     -> j < length rows.
Proof.
  induction rows as [|r rows IH] using rev_ind; [cbn; split; [reflexivity|discriminate]|].
  rewrite app_length, seq_app, fold_left_app. cbn [length seq fold_left Nat.add].
  rewrite rev_app_distr. cbn [rev app find].
  rewrite app_nth2, Nat.sub_diag by lia. cbn [nth].
  assert (E : forall acc l, (forall x, In x l -> x < length rows) ->
    fold_left (fun a j => if p (nth j (rows ++ [r]) []) then Some j else a) l acc
    = fold_left (fun a j => if p (nth j rows []) then Some j else a) l acc).
  { intros acc l; revert acc; induction l as [|x l IHl]; intros acc Hl; cbn; [reflexivity|].
    rewrite app_nth1 by (apply Hl; now left). apply IHl. intros; apply Hl; now right. }
  rewrite E by (intros x Hx; apply in_seq in Hx; lia).
  destruct IH as [IH1 IH2].
  destruct (p r).
  - split; [|intros j Hj; injection Hj as <-; lia].
    rewrite app_nth2, Nat.sub_diag by lia. reflexivity.
  - split.
    + rewrite <- IH1. destruct (fold_left _ _ _) as [j|]; [|reflexivity].
      rewrite app_nth1 by (now apply IH2). reflexivity.
    + intros j Hj. apply IH2 in Hj. lia.
Qed.

Lemma mt_get_cols_of dts rows key :
  dts <> [] -> length key <= length dts -> Forall (width (length dts)) rows ->
  mt_get (cols_of dts rows) key = Ok (last_with (map value_of_key key) rows).
Proof.
  intros Hd Hk Hw. unfold mt_get. rewrite mt_len_cols_of by exact Hd.
  rewrite find_last_spec; [|now rewrite map_length|exact Hw|lia].
  unfold last_with.
  destruct (fold_last_find (has_key (map value_of_key key)) rows) as [E1 E2].
  destruct (fold_left _ _ None) as [j|] eqn:F.
  - rewrite row_values_cols_of by (auto; now apply E2). rewrite <- E1. reflexivity.
  - rewrite <- E1. reflexivity.
Qed.
