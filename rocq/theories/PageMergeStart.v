(** The start of the page merge: schemas, row groups and readers of the input files. *)
From Coq Require Import List NArith ZArith Bool String Permutation Sorted Lia Arith.
From Verif Require Import Bytes Value Log AMap Order ListFacts Memtable MergeFacts Table TableHistory TableUse GetFacts Compact CompactFacts CompactSpec
  PageMerge PageMergeSpec PageMergeTags PageMergeIndex PageMergeBatch PageMergeData PageMergeRun.
Import ListNotations.
Local Notation length := List.length.
Local Notation concat := List.concat.

(** *** Schemas *)
Lemma field_eqb_refl f : field_eqb f f = true.
Proof. unfold field_eqb. rewrite String.eqb_refl, Bool.eqb_reflx. now destruct (DType_eq_dec (f_dt f) (f_dt f)). Qed.
Lemma find_name fs f : NoDup (map f_name fs) -> In f fs -> find (fun m => String.eqb (f_name m) (f_name f)) fs = Some f.
Proof.
  induction fs as [|g fs IH]; intros ND H; [contradiction|]. cbn [map] in ND. inversion ND as [|? ? N ND']; subst. cbn.
  destruct H as [->|H]; [now rewrite String.eqb_refl|].
  destruct (String.eqb_spec (f_name g) (f_name f)) as [E|_]; [|now apply IH]. exfalso. apply N. rewrite E. now apply in_map.
Qed.
Lemma find_no_name fs f : ~ In (f_name f) (map f_name fs) -> find (fun m => String.eqb (f_name m) (f_name f)) fs = None.
Proof.
  induction fs as [|g fs IH]; intros N; [reflexivity|]. cbn in *. destruct (String.eqb_spec (f_name g) (f_name f)) as [E|_].
  - exfalso. apply N. now left.
  - apply IH. intros H. apply N. now right.
Qed.
Lemma add_slice fields : NoDup (map f_name fields) -> forall l a r m mr,
  fields = a ++ l ++ r -> fields = m ++ mr -> length a <= length m ->
  exists m' mr', add_fields m l = Ok m' /\ fields = m' ++ mr' /\ length m <= length m' /\ length a + length l <= length m'.
Proof.
  intros ND. induction l as [|f l IH]; intros a r m mr E EM L.
  - exists m, mr. cbn. split; [reflexivity|]. split; [exact EM|]. lia.
  - cbn [add_fields]. destruct (Nat.eq_dec (length a) (length m)) as [EL|NL].
    + assert (a = m).
      { pose proof (f_equal (firstn (length a)) E) as H1. rewrite firstn_app, firstn_all, Nat.sub_diag, app_nil_r in H1.
        pose proof (f_equal (firstn (length m)) EM) as H2. rewrite firstn_app, firstn_all, Nat.sub_diag, app_nil_r in H2.
        congruence. }
      subst m. rewrite find_no_name.
      * destruct (IH (a ++ [f]) r (a ++ [f]) (l ++ r)) as (m' & mr' & I1 & I2 & I3 & I4).
        -- now rewrite <- app_assoc.
        -- now rewrite <- app_assoc.
        -- lia.
        -- exists m', mr'. rewrite app_length in I3, I4. cbn in *. repeat split; auto; lia.
      * rewrite E, map_app in ND. cbn in ND. apply NoDup_remove_2 in ND. intros H. apply ND. apply in_or_app. now left.
    + assert (IN : In f m).
      { assert (H : nth_error fields (length a) = Some f).
        { rewrite E, nth_error_app2, Nat.sub_diag by lia. reflexivity. }
        rewrite EM, nth_error_app1 in H by lia. now apply nth_error_In in H. }
      rewrite find_name; [|rewrite EM, map_app in ND; now apply NoDup_app_inv in ND|exact IN].
      rewrite field_eqb_refl. destruct (IH (a ++ [f]) r m mr) as (m' & mr' & I1 & I2 & I3 & I4).
      * now rewrite <- app_assoc.
      * exact EM.
      * rewrite app_length. cbn. lia.
      * exists m', mr'. rewrite app_length in I4. cbn in *. repeat split; auto; lia.
Qed.
Lemma schemas_prefix fields fss : NoDup (map f_name fields) -> Forall (fun l => exists r, fields = l ++ r) fss ->
  forall m mr, fields = m ++ mr ->
  exists m' mr', merge_schemas m fss = Ok m' /\ fields = m' ++ mr' /\ length m <= length m'
    /\ Forall (fun l => length l <= length m') fss.
Proof.
  intros ND. induction 1 as [|l fss (r & E) F IH]; intros m mr EM.
  - exists m, mr. cbn. auto.
  - cbn. destruct (add_slice fields ND l [] r m mr E EM) as (m1 & mr1 & A1 & A2 & A3 & A4); [cbn; lia|]. rewrite A1.
    destruct (IH m1 mr1 A2) as (m2 & mr2 & B1 & B2 & B3 & B4). exists m2, mr2. split; [exact B1|]. split; [exact B2|].
    split; [lia|]. constructor; [cbn in A4; lia|exact B4].
Qed.
Lemma schemas_longest fields fss : NoDup (map f_name fields) -> Forall (fun l => exists r, fields = l ++ r) fss ->
  In fields fss -> merge_schemas [] fss = Ok fields.
Proof.
  intros ND F IN. destruct (schemas_prefix fields fss ND F [] fields eq_refl) as (m & mr & E1 & E2 & _ & L). rewrite E1.
  rewrite Forall_forall in L. specialize (L _ IN). pose proof (f_equal (@length _) E2) as E3. rewrite app_length in E3.
  destruct mr; [|cbn in E3; lia]. rewrite app_nil_r in E2. congruence.
Qed.

(** *** Keys *)
Lemma int_row_key ic r : int_keys ic r -> firstn ic r = map (fun z => Some (AInt z)) (key_ints ic r).
Proof.
  unfold int_keys, key_ints. generalize (firstn ic r) as l. induction 1 as [|c l (z & ->) F IH]; [reflexivity|]. cbn. now rewrite <- IH.
Qed.
Lemma key_le ic a b : int_keys ic a -> int_keys ic b ->
  (cle cmp_key (firstn ic a) (firstn ic b) <-> vle (key_ints ic a) (key_ints ic b) = true).
Proof.
  intros A B. rewrite vle_iff. unfold cle. rewrite (int_row_key ic a A), (int_row_key ic b B). unfold cmp_key. now rewrite cell_cmp_ints.
Qed.
Lemma sorted_keys ic rows : Forall (int_keys ic) rows ->
  (sorted_by cmp_key (firstn ic) rows <-> vsorted (map (key_ints ic) rows)).
Proof.
  unfold sorted_by, vsorted. induction 1 as [|r rows K F IH]; [split; constructor|]. cbn. split; intros H; inversion H as [|? ? H1 H2]; subst; constructor.
  - now apply IH.
  - apply Forall_forall. intros k Hk. apply in_map_iff in Hk as (b & <- & Hb). rewrite Forall_forall in H2, F. apply key_le; auto.
  - now apply IH.
  - apply Forall_forall. intros b Hb. rewrite Forall_forall in H2, F. apply key_le; auto. apply H2. now apply in_map.
Qed.
Lemma firstn_pad ic w r : ic <= length r -> firstn ic (pad w r) = firstn ic r.
Proof. intros L. unfold pad. rewrite firstn_app. replace (ic - length r) with 0 by lia. now rewrite app_nil_r. Qed.
Lemma nth_pad w r i : nth i (pad w r) None = nth i r None.
Proof.
  unfold pad. destruct (Nat.lt_ge_cases i (length r)) as [H|H]; [now rewrite app_nth1|].
  rewrite app_nth2, (nth_overflow r) by lia. apply nth_repeat.
Qed.
Lemma pad_len w r : length r <= w -> length (pad w r) = w.
Proof. intros L. unfold pad. rewrite app_length, repeat_length. lia. Qed.

(** *** Row groups *)
Definition key_chunk (ic s : nat) (g : Group) : Chunk :=
  mkChunk s (map (fun i => map (map int_of) (nth i g [])) (seq 0 ic)).
Lemma nth_key_ints ic r i : i < ic -> nth i (key_ints ic r) 0%Z = int_of (nth i r None).
Proof.
  unfold key_ints. revert r i. induction ic as [|ic IH]; intros r i H; [lia|]. destruct r as [|c r]; [now destruct i|].
  destruct i as [|i]; [reflexivity|]. cbn. apply IH. lia.
Qed.
Lemma group_col n g i : group_ok n g -> i < n -> concat (nth i g []) = map (fun r => nth i r None) (group_rows g).
Proof.
  intros (L & len & N & F) Hi. unfold group_rows. rewrite rows_of_col.
  - exact (eq_sym (map_nth (@concat cell) g [] i)).
  - destruct g as [|p r]; [constructor|]. cbn [map hd]. inversion F as [|? ? [_ E] F2]; subst.
    constructor; [reflexivity|]. apply Forall_forall. intros c Hc. apply in_map_iff in Hc as (pg & <- & Hp).
    rewrite Forall_forall in F2. now apply F2.
  - now rewrite map_length, L.
Qed.
Lemma group_rows_width n g : group_ok n g -> Forall (fun r => length r = n) (group_rows g).
Proof. intros (L & _). unfold group_rows. eapply Forall_impl; [|apply rows_of_width]. cbn. intros r. rewrite map_length. congruence. Qed.
Lemma key_chunk_keys ic s n g : group_ok n g -> ic <= n -> ic <> 0 ->
  ch_keys (key_chunk ic s g) = map (key_ints ic) (group_rows g).
Proof.
  intros G L N. unfold ch_keys, key_chunk. cbn [ch_cols]. rewrite map_map.
  rewrite <- (rows_of_cols 0%Z ic (map (key_ints ic) (group_rows g))).
  - f_equal. apply map_ext_in. intros i Hi. apply in_seq in Hi. rewrite map_map, <- concat_map, (group_col n g i G) by lia.
    rewrite map_map. apply map_ext. intros r. symmetry. apply nth_key_ints. lia.
  - exact N.
  - apply Forall_forall. intros k Hk. apply in_map_iff in Hk as (r & <- & Hr). pose proof (group_rows_width n g G) as W.
    rewrite Forall_forall in W. unfold key_ints. rewrite map_length, firstn_length, (W r Hr). lia.
Qed.
Lemma key_chunk_wf ic s n g : group_ok n g -> ic <= n -> wf_chunk ic (key_chunk ic s g).
Proof.
  intros (L & len & N & F) H. split; [cbn; now rewrite map_length, seq_length|]. exists len. split; [exact N|]. cbn.
  apply Forall_forall. intros pg Hp. apply in_map_iff in Hp as (i & <- & Hi). apply in_seq in Hi.
  rewrite Forall_forall in F. destruct (F (nth i g [])) as [F1 F2]; [apply nth_In; lia|]. split.
  - apply Forall_forall. intros p Hp. apply in_map_iff in Hp as (p0 & <- & Hp0). rewrite Forall_forall in F1. specialize (F1 _ Hp0).
    now destruct p0.
  - now rewrite <- concat_map, map_length.
Qed.
Lemma zip_spec ic s gs : zip_groups (length gs) (map (fun i => map (fun g => nth i g []) gs) (seq 0 ic)) s = map (key_chunk ic s) gs.
Proof.
  induction gs as [|g gs IH]; [reflexivity|]. cbn [length zip_groups map]. f_equal.
  - unfold key_chunk. f_equal. rewrite map_map. reflexivity.
  - rewrite <- IH. f_equal. rewrite map_map. reflexivity.
Qed.
Lemma mapM_all {A B} (f : A -> option B) (g : A -> B) l : (forall x, In x l -> f x = Some (g x)) -> mapM f l = Some (map g l).
Proof.
  induction l as [|x l IH]; intros H; cbn; [reflexivity|]. rewrite (H x (or_introl eq_refl)), IH; [reflexivity|].
  intros y Hy. apply H. now right.
Qed.
Lemma mapM_nth {A B} (f : A -> option B) (d : B) (cols : nat -> B) l : forall a,
  (forall i x, nth_error l i = Some x -> f x = Some (cols (a + i))) -> mapM f l = Some (map cols (seq a (length l))).
Proof.
  induction l as [|x l IH]; intros a H; cbn; [reflexivity|]. rewrite (H 0 x eq_refl), (IH (S a)), Nat.add_0_r; [reflexivity|].
  intros i y Hy. rewrite (H (S i) y Hy). f_equal. f_equal. lia.
Qed.

Section Start.
Variable pop : list Chunk -> option (Chunk * list Chunk).
Variable pop_row : list (nat * list Z) -> option ((nat * list Z) * list (nat * list Z)).
Variable paginate : list Z -> list (list Z).
Variable full : list (list Row) -> bool.
Hypothesis HP : heap_contract chunk_le pop.
Hypothesis HR : heap_contract row_le pop_row.
Hypothesis HG : paginate_contract paginate.
Variable mo : MOpts.
Hypothesis NR : mo_replacing mo = false.
Hypothesis IC : mo_ic mo <> 0.
Notation ic := (mo_ic mo).
Variable fields : list Field.
Hypothesis ND : NoDup (map f_name fields).

Definition wf_file (f : PFile) : Prop :=
  (exists r, fields = g_fields f ++ r) /\ ic <= length (g_fields f)
  /\ Forall (group_ok (length (g_fields f))) (g_groups f).
Definition file_rows (f : PFile) : list Row := concat (map group_rows (g_groups f)).

Lemma col_of f i fd : wf_file f -> nth_error fields i = Some fd ->
  col_groups f (f_name fd) = if Nat.ltb i (length (g_fields f)) then Some (map (fun g => nth i g []) (g_groups f)) else None.
Proof.
  intros ((r & E) & _ & _) H. unfold col_groups. destruct (Nat.ltb_spec i (length (g_fields f))) as [L|L].
  - rewrite (field_pos_nth (g_fields f) i fd); [reflexivity| |].
    + rewrite E, map_app in ND. now apply NoDup_app_inv in ND.
    + now rewrite E, nth_error_app1 in H.
  - destruct (field_pos (g_fields f) (f_name fd)) as [j|] eqn:P; [|reflexivity]. exfalso.
    apply field_pos_some in P as (fd' & Hj & Ej).
    assert (Lj : j < length (g_fields f)) by (apply nth_error_Some; congruence).
    assert (J : nth_error fields j = Some fd') by (rewrite E, nth_error_app1; auto).
    pose proof (field_pos_nth fields i fd ND H) as F1. pose proof (field_pos_nth fields j fd' ND J) as F2.
    rewrite Ej in F2. rewrite F1 in F2. injection F2 as ->. lia.
Qed.
Lemma source_spec f s : wf_file f -> g_groups f <> [] -> ic <= length fields ->
  source (firstn ic fields) s f = Ok (map (key_chunk ic s) (g_groups f)).
Proof.
  intros W N LI. unfold source.
  rewrite (mapM_nth (fun k => col_groups f (f_name k)) [] (fun i => map (fun g => nth i g []) (g_groups f)) (firstn ic fields) 0).
  - rewrite firstn_length, Nat.min_l by lia. destruct (g_groups f) as [|g gs] eqn:E; [congruence|]. now rewrite zip_spec.
  - intros i fd H. assert (Hi : i < ic).
    { assert (i < length (firstn ic fields)) by (apply nth_error_Some; congruence). rewrite firstn_length in H0. lia. }
    assert (H' : nth_error fields i = Some fd).
    { rewrite <- (firstn_skipn ic fields). rewrite nth_error_app1; [exact H|]. apply nth_error_Some. congruence. }
    rewrite (col_of f i fd W H'). destruct W as (_ & L & _). destruct (Nat.ltb_spec i (length (g_fields f))); [reflexivity|lia].
Qed.
Lemma sources_spec fs : Forall wf_file fs -> Forall (fun f => g_groups f <> []) fs -> ic <= length fields -> forall s,
  sources (firstn ic fields) s fs = Ok (mapi (fun s f => map (key_chunk ic s) (g_groups f)) s fs).
Proof.
  intros W N LI. induction W as [|f fs Wf F IH]; intros s; [reflexivity|]. inversion N as [|? ? Nf Ns]; subst. cbn.
  rewrite (source_spec f s Wf Nf LI), (IH Ns). reflexivity.
Qed.
Lemma sources_empty fs : forall s, Exists (fun f => g_groups f = []) fs -> forall c, sources (firstn ic fields) s fs <> Ok c.
Proof.
  intros s H. revert s. induction H as [f fs E|f fs H IH]; intros s c; cbn.
  - unfold source. rewrite E. discriminate.
  - destruct (source (firstn ic fields) s f); [|discriminate]. specialize (IH (S s)). destruct (sources (firstn ic fields) (S s) fs); [|discriminate].
    exfalso. now eapply IH.
Qed.

Theorem page_merge_spec fs : fs <> [] -> Forall wf_file fs -> Forall (fun f => g_groups f <> []) fs ->
  Exists (fun f => g_fields f = fields) fs ->
  Forall (fun f => Forall (int_keys ic) (file_rows f) /\ sorted_by cmp_key (firstn ic) (file_rows f)) fs ->
  (supported (map f_dt (firstn ic fields)) = false /\ page_merge pop pop_row paginate full mo fs = Err Panic) \/
  exists outs, page_merge pop pop_row paginate full mo fs = Ok (fields, outs)
    /\ Permutation (concat (map out_rows outs)) (concat (map (fun f => map (pad (length fields)) (file_rows f)) fs))
    /\ sorted_by cmp_key (firstn ic) (concat (map out_rows outs))
    /\ Forall (in_range mo) outs
    /\ Forall (fun r => length r = length fields /\ int_keys ic r) (concat (map out_rows outs)).
Proof.
  intros NF WF NG EX KS. unfold page_merge.
  rewrite (schemas_longest fields); [|exact ND| |].
  2:{ apply Forall_forall. intros l Hl. apply in_map_iff in Hl as (f & <- & Hf). rewrite Forall_forall in WF. apply (WF f Hf). }
  2:{ apply Exists_exists in EX as (f & Hf & <-). now apply in_map. }
  assert (LI : ic <= length fields).
  { destruct fs as [|f fs]; [congruence|]. inversion WF as [|? ? ((r & E) & L & _) _]; subst. rewrite E, app_length. lia. }
  destruct (Nat.ltb_spec (length fields) ic) as [X|_]; [lia|].
  rewrite (sources_spec fs WF NG LI 0). set (srcs := mapi (fun s f => map (key_chunk ic s) (g_groups f)) 0 fs).
  assert (NTH : forall s, nth s srcs [] = match nth_error fs s with Some f => map (key_chunk ic s) (g_groups f) | None => [] end).
  { intros s. unfold srcs. destruct (nth_error fs s) as [f|] eqn:E.
    - apply nth_error_nth. rewrite nth_error_mapi, E. reflexivity.
    - apply nth_overflow. rewrite mapi_length. now apply nth_error_None. }
  destruct (fed_firsts ch_stream srcs) as (FD & PE & LO & _).
  { intros s x. rewrite NTH. destruct (nth_error fs s); [|contradiction]. intros H. now apply in_map_iff in H as (g & <- & _). }
  set (cols := map (fun f => readers fs (f_name f)) (skipn ic fields)).
  set (RR := fun s => match nth_error fs s with Some f => map (pad (length fields)) (file_rows f) | None => [] end).
  assert (FW : forall f, In f fs -> Forall (fun r => length r = length (g_fields f)) (file_rows f) /\ length (g_fields f) <= length fields).
  { intros f Hf. rewrite Forall_forall in WF. destruct (WF f Hf) as ((r & E) & L & G). split.
    - unfold file_rows. apply Forall_concat. apply Forall_forall. intros rs Hr. apply in_map_iff in Hr as (g & <- & Hg).
      rewrite Forall_forall in G. now apply group_rows_width, G.
    - rewrite E, app_length. lia. }
  assert (KEYS : forall s f, In f fs -> keys_of (map (key_chunk ic s) (g_groups f)) = map (key_ints ic) (file_rows f)).
  { intros s f Hf. rewrite Forall_forall in WF. destruct (WF f Hf) as (_ & L & G). unfold keys_of, file_rows. rewrite concat_map, !map_map.
    f_equal. apply map_ext_in. intros g Hg. rewrite Forall_forall in G. apply key_chunk_keys with (n := length (g_fields f)); auto. }
  assert (KP : forall f, In f fs -> map (key_ints ic) (map (pad (length fields)) (file_rows f)) = map (key_ints ic) (file_rows f)).
  { intros f Hf. rewrite map_map. apply map_ext_in. intros r Hr. unfold key_ints. destruct (FW f Hf) as [F _].
    rewrite Forall_forall in F, WF. rewrite firstn_pad; [reflexivity|]. rewrite (F r Hr). apply (WF f Hf). }
  assert (I : inv mo (firsts srcs) (map (@tl Chunk) srcs) cols RR).
  { constructor.
    - split; [exact FD|]. split; intros s; rewrite PE, NTH; (destruct (nth_error fs s) as [f|] eqn:E; [|constructor]); apply nth_error_In in E.
      + apply Forall_forall. intros c Hc. apply in_map_iff in Hc as (g & <- & Hg). rewrite Forall_forall in WF.
        destruct (WF f E) as (_ & L & G). rewrite Forall_forall in G. eapply key_chunk_wf; [apply G; exact Hg|exact L].
      + rewrite (KEYS s f E). rewrite Forall_forall in KS. destruct (KS f E) as [K1 K2]. now apply sorted_keys.
    - intros s. rewrite PE, NTH. unfold RR. destruct (nth_error fs s) as [f|] eqn:E; [|reflexivity]. apply nth_error_In in E.
      now rewrite (KEYS s f E), (KP f E).
    - intros s. unfold RR. destruct (nth_error fs s) as [f|] eqn:E; [|constructor]. apply nth_error_In in E.
      apply Forall_forall. intros r Hr. apply in_map_iff in Hr as (r0 & <- & Hr0). destruct (FW f E) as [F L].
      rewrite Forall_forall in F, KS, WF. destruct (KS f E) as [K1 _]. destruct (WF f E) as (_ & L2 & _). rewrite Forall_forall in K1. split.
      + rewrite pad_len by (rewrite (F r0 Hr0); exact L). unfold cols. rewrite map_length, skipn_length. lia.
      + unfold int_keys. rewrite firstn_pad by (rewrite (F r0 Hr0); exact L2). now apply K1.
    - apply Forall_forall. intros rs Hrs. unfold cols in Hrs. apply In_nth_error in Hrs as (j & Hj). rewrite nth_error_map in Hj.
      destruct (nth_error (skipn ic fields) j) as [fd|] eqn:Ej; [|discriminate]. injection Hj as <-.
      assert (Hd : nth_error fields (ic + j) = Some fd).
      { rewrite <- (firstn_skipn ic fields), nth_error_app2; rewrite firstn_length, Nat.min_l by lia; [|lia]. now replace (ic + j - ic) with j by lia. }
      intros s r. unfold readers. rewrite PE, NTH. destruct (nth_error fs s) as [f|] eqn:E; [|discriminate]. apply nth_error_In in E.
      rewrite Forall_forall in WF. pose proof (WF f E) as Wf. rewrite (col_of f _ fd Wf Hd).
      destruct (Nat.ltb_spec (ic + j) (length (g_fields f))) as [Lj|Lj]; [|discriminate]. cbn. intros H. injection H as <-. cbn.
      split; [reflexivity|]. split; [reflexivity|]. destruct Wf as (_ & L2 & G).
      revert G. generalize (g_groups f) as gs. induction 1 as [|g gs Gg Gs IH]; cbn; constructor; [|exact IH].
      pose proof Gg as (Lg & len & Nl & Fl). rewrite Forall_forall in Fl. destruct (Fl (nth (ic + j) g [])) as [F1 F2]; [apply nth_In; lia|].
      split; [exact F1|]. rewrite (key_chunk_keys ic s _ g Gg L2 IC). split.
      + rewrite map_length. rewrite (group_col _ g (ic + j) Gg Lj), map_length. reflexivity.
      + intros H. rewrite H in F2. now apply Nl.
    - intros j rs s Hj. unfold cols in Hj. rewrite nth_error_map in Hj.
      destruct (nth_error (skipn ic fields) j) as [fd|] eqn:Ej; [|discriminate]. injection Hj as <-.
      assert (Hd : nth_error fields (ic + j) = Some fd).
      { rewrite <- (firstn_skipn ic fields), nth_error_app2; rewrite firstn_length, Nat.min_l by lia; [|lia]. now replace (ic + j - ic) with j by lia. }
      unfold readers, RR. destruct (nth_error fs s) as [f|] eqn:E; [|constructor]. apply nth_error_In in E.
      rewrite Forall_forall in WF. pose proof (WF f E) as Wf. rewrite (col_of f _ fd Wf Hd). destruct Wf as (_ & L2 & G).
      destruct (Nat.ltb_spec (ic + j) (length (g_fields f))) as [Lj|Lj]; cbn.
      + unfold cells. cbn. rewrite map_map. rewrite map_map.
        rewrite (map_ext (fun r => nth (ic + j) (pad (length fields) r) None) (fun r => nth (ic + j) r None)) by (intros r; apply nth_pad).
        unfold file_rows. rewrite concat_map, map_map. f_equal. apply map_ext_in. intros g Hg. rewrite Forall_forall in G.
        apply group_col with (n := length (g_fields f)); auto.
      + apply Forall_forall. intros r Hr. apply in_map_iff in Hr as (r0 & <- & Hr0). rewrite nth_pad. apply nth_overflow.
        destruct (FW f E) as [F _]. rewrite Forall_forall in F. rewrite (F r0 Hr0). exact Lj. }
  destruct (files_loop_spec pop pop_row paginate full HP HR HG mo NR IC (map f_dt (firstn ic fields)) (list_sum (map (@length Chunk) srcs))
              (S (list_sum (map (@length Chunk) srcs))) _ _ cols None RR I) as [(HS & E)|(outs & TL & E & Q0 & Q1 & Q2 & Q3 & _ & Q5)].
  - rewrite LO. lia.
  - rewrite LO. lia.
  - constructor.
  - intros k s o k' [].
  - left. split; [exact HS|]. now rewrite E.
  - right. exists outs. rewrite E. split; [reflexivity|]. cbn in Q0.
    assert (PM : Permutation (concat (map out_rows outs)) (concat (map (fun f => map (pad (length fields)) (file_rows f)) fs))).
    { rewrite Q0. rewrite (tagged_perm (length (map (@tl Chunk) srcs)) TL Q2). apply Permutation_refl'. f_equal.
      rewrite (map_ext _ RR) by exact Q1. rewrite map_length. unfold srcs. rewrite mapi_length.
      apply nth_error_ext_. intros i. rewrite !nth_error_map.
      destruct (nth_error fs i) as [f|] eqn:Ei.
      - rewrite (nth_error_nth' (seq 0 (length fs)) 0), seq_nth; rewrite ?seq_length; try (apply nth_error_Some; congruence).
        cbn. unfold RR. now rewrite Ei.
      - apply nth_error_None in Ei. assert (En : nth_error (seq 0 (length fs)) i = None) by (apply nth_error_None; rewrite seq_length; lia).
        now rewrite En. }
    assert (IN : Forall (fun r => length r = length fields /\ int_keys ic r) (concat (map out_rows outs))).
    { apply Forall_forall. intros r Hr. rewrite PM in Hr. apply in_concat in Hr as (l & Hl & Hr). apply in_map_iff in Hl as (f & <- & Hf).
      apply In_nth_error in Hf as (s & Hs). pose proof (i_rows _ _ _ _ _ I s) as F. unfold RR in F. rewrite Hs in F. rewrite Forall_forall in F.
      destruct (F r Hr) as [F1 F2]. split; [|exact F2]. rewrite F1. unfold cols. rewrite map_length, skipn_length. lia. }
    split; [exact PM|]. split; [|split; [exact Q5|exact IN]].
    apply sorted_keys; [|rewrite Q0; exact Q3]. eapply Forall_impl; [|exact IN]. now intros r [_ H].
Qed.

Lemma page_merge_empty fs : ic <= length fields -> merge_schemas [] (map g_fields fs) = Ok fields -> Exists (fun f => g_groups f = []) fs ->
  forall o, page_merge pop pop_row paginate full mo fs <> Ok o.
Proof.
  intros L E X o. unfold page_merge. rewrite E. destruct (Nat.ltb _ _); [discriminate|].
  pose proof (sources_empty fs 0 X) as H. destruct (sources (firstn ic fields) 0 fs); [exfalso; now eapply H|discriminate].
Qed.
End Start.
