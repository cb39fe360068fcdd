(** Invariants of the table state machine. *)
From Coq Require Import List NArith ZArith Lia Bool Permutation Sorted String.
From Verif Require Import Bytes BytesFacts Value ValueFacts Log LogFacts AMap Order
  Memtable ListFacts MemtableFacts MemtableProject Table TableSpec.
Import ListNotations.

Definition accepted (sch : list Field) (vals : list NamedValue) : Prop :=
  Forall (fun nv => exists f, In f sch /\ f_name f = fst nv /\ type_ok (snd nv) (f_dt f) = true) vals.

Lemma accepted_app sch r vals : accepted sch vals -> accepted (sch ++ r) vals.
Proof.
  unfold accepted. intros H. eapply Forall_impl; [|exact H]. intros nv (f & Hf & E & T).
  exists f. rewrite in_app_iff. auto.
Qed.

Lemma find_field_spec fs n f : find_field fs n = Some f -> In f fs /\ f_name f = n.
Proof. intros H. apply find_some in H as [H E]. apply String.eqb_eq in E. auto. Qed.

Lemma check_values_accepted sch vals : check_values sch vals = Ok tt -> accepted sch vals.
Proof.
  induction vals as [|[n v] r IH]; intros H; [constructor|]. cbn in H.
  destruct (find_field sch n) as [f|] eqn:F; [|discriminate].
  destruct (type_ok v (f_dt f)) eqn:T; [|discriminate].
  apply find_field_spec in F as [Hf E]. constructor; [|now apply IH].
  exists f. cbn. auto.
Qed.

(** *** Values by name *)
Lemma value_for_unnamed vals f : (forall nv, In nv vals -> fst nv <> f_name f) -> value_for vals f = VNull.
Proof.
  intros H. unfold value_for. destruct (List.find _ vals) as [nv|] eqn:F; [|reflexivity].
  apply find_some in F as [F E]. apply String.eqb_eq in E. exfalso. now apply (H nv F).
Qed.
Lemma value_for_new sch vals f :
  accepted sch vals -> ~ In (f_name f) (map f_name sch) -> value_for vals f = VNull.
Proof.
  intros A N. apply value_for_unnamed. intros nv Hnv E. unfold accepted in A. rewrite Forall_forall in A.
  destruct (A nv Hnv) as (g & Hg & Eg & _). apply N. rewrite <- E, <- Eg. now apply in_map.
Qed.
Lemma value_for_typed sch vals f :
  NoDup (map f_name sch) -> accepted sch vals -> In f sch ->
  cell_of (f_dt f) (value_for vals f) = Some (content (value_for vals f)).
Proof.
  intros ND A Hf. unfold value_for. destruct (List.find _ vals) as [nv|] eqn:F.
  - apply find_some in F as [F E]. apply String.eqb_eq in E.
    unfold accepted in A. rewrite Forall_forall in A. destruct (A nv F) as (g & Hg & Eg & T).
    assert (g = f).
    { clear - ND Hf Hg Eg E. induction sch as [|h sch IH]; [contradiction|].
      cbn in ND. inversion ND as [|? ? N ND']; subst.
      destruct Hf as [->|Hf], Hg as [->|Hg]; auto.
      - exfalso. apply N. rewrite E, <- Eg. now apply in_map.
      - exfalso. apply N. rewrite Eg, <- E. now apply in_map. }
    subst g. destruct (snd nv), (f_dt f); try discriminate; reflexivity.
  - destruct (f_dt f); reflexivity.
Qed.
Lemma content_value_for vals f : content (value_for vals f) = supplied vals (f_name f).
Proof. unfold value_for, supplied. now destruct (List.find _ vals). Qed.

Lemma row_cells_accepted sch vals :
  NoDup (map f_name sch) -> accepted sch vals ->
  row_cells (dts_of sch) (map (value_for vals) sch) = Some (acked_row sch vals).
Proof.
  intros ND A.
  assert (G : forall l, incl l sch ->
     row_cells (dts_of l) (map (value_for vals) l) = Some (acked_row l vals)).
  { induction l as [|f l IH]; intros Hi; [reflexivity|].
    cbn [dts_of map row_cells acked_row].
    rewrite (value_for_typed sch vals f ND A) by (apply Hi; now left).
    unfold dts_of in IH. rewrite IH by (intros x Hx; apply Hi; now right).
    now rewrite content_value_for. }
  apply G, incl_refl.
Qed.
Lemma rows_cells_accepted sch mvals :
  NoDup (map f_name sch) -> Forall (accepted sch) mvals ->
  mapM (row_cells (dts_of sch)) (map (fun v => map (value_for v) sch) mvals)
  = Some (map (acked_row sch) mvals).
Proof.
  intros ND A. rewrite mapM_map. apply mapM_Some_map. intros v Hv.
  rewrite Forall_forall in A. apply row_cells_accepted; auto.
Qed.

(** *** What an accepted, well-formed insert builds *)
Definition keys_first (ic : nat) (sch : list Field) (vals : list NamedValue) : Prop :=
  map fst (firstn ic vals) = map f_name (firstn ic sch).

Lemma key_of_value_inv v k : key_of_value v = Some k -> value_of_key k = v.
Proof.
  destruct v as [|o|o|o|o|o|o|o|o|o|o|o|o|o|o|o|o]; try discriminate; destruct o; try discriminate;
  intros E; injection E as <-; reflexivity.
Qed.
Lemma mapM_key_values l pk :
  mapM (fun nv : NamedValue => key_of_value (snd nv)) l = Some pk -> map value_of_key pk = map snd l.
Proof.
  revert pk; induction l as [|nv l IH]; cbn; intros pk H.
  - injection H as <-. reflexivity.
  - destruct (key_of_value (snd nv)) eqn:E; [|discriminate]. destruct (mapM _ l) eqn:E2; [|discriminate].
    injection H as <-. cbn. rewrite (key_of_value_inv _ _ E). f_equal. auto.
Qed.

Lemma supplied_keys (vals : list NamedValue) (sch : list Field) :
  map fst vals = map f_name sch -> NoDup (map f_name sch) -> forall rest,
  map snd vals = map (value_for (vals ++ rest)) sch.
Proof.
  revert vals. induction sch as [|f sch IH]; destruct vals as [|nv vals]; cbn [map]; intros E ND rest;
    try discriminate; [reflexivity|].
  injection E as E1 E2. inversion ND as [|? ? N ND']; subst. f_equal.
  - unfold value_for. cbn [app List.find]. rewrite E1, String.eqb_refl. reflexivity.
  - rewrite (IH vals E2 ND' rest). apply map_ext_in. intros g Hg.
    unfold value_for. cbn [app List.find].
    destruct (String.eqb_spec (f_name g) (fst nv)) as [Eg|_]; [|reflexivity].
    exfalso. apply N. rewrite <- E1, <- Eg. now apply in_map.
Qed.

Lemma find_app_none {A} (p : A -> bool) a b : (forall x, In x a -> p x = false) -> List.find p (a ++ b) = List.find p b.
Proof.
  induction a as [|x a IH]; intros H; cbn; [reflexivity|].
  rewrite (H x (or_introl eq_refl)). apply IH. intros; apply H; now right.
Qed.

Lemma NoDup_app_disjoint {A} (a b : list A) x : NoDup (a ++ b) -> In x a -> In x b -> False.
Proof.
  induction a as [|y a IH]; cbn; intros ND Ha Hb; [contradiction|].
  inversion ND as [|? ? N ND']; subst. destruct Ha as [->|Ha]; [|eauto].
  apply N. apply in_or_app. now right.
Qed.

Lemma insert_row sch ic vals pk :
  NoDup (map f_name sch) -> keys_first ic sch vals -> key_values ic vals = Some pk ->
  map value_of_key pk ++ final_values sch ic vals = map (value_for vals) sch
  /\ List.length pk = ic /\ ic <= List.length sch.
Proof.
  intros ND KF KV. unfold key_values in KV.
  destruct (Nat.ltb_spec (List.length vals) ic) as [|Hl]; [discriminate|].
  assert (Lpk : List.length pk = ic).
  { rewrite (mapM_length _ _ _ KV), firstn_length. lia. }
  apply mapM_key_values in KV. unfold keys_first in KF.
  assert (Lic : ic <= List.length sch).
  { assert (L : List.length (map fst (firstn ic vals)) = ic) by (rewrite map_length, firstn_length; lia).
    rewrite KF, map_length, firstn_length in L. lia. }
  split; [|auto].
  rewrite <- (firstn_skipn ic sch) at 2. rewrite map_app, KV. f_equal.
  - rewrite <- (firstn_skipn ic vals) at 2. apply supplied_keys; [exact KF|].
    rewrite <- firstn_map. clear - ND. revert ic. induction ND as [|x l N ND IH]; intros [|ic]; cbn; constructor.
    + intros H. apply N. rewrite <- (firstn_skipn ic l). apply in_or_app. now left.
    + apply IH.
  - unfold final_values. apply map_ext_in. intros f Hf. unfold value_for.
    rewrite <- (firstn_skipn ic vals) at 2. rewrite find_app_none; [reflexivity|].
    intros nv Hnv. apply String.eqb_neq. intros E.
    assert (In (fst nv) (map f_name (firstn ic sch))) by (rewrite <- KF; now apply in_map).
    rewrite <- E in H. rewrite <- (firstn_skipn ic sch), map_app in ND.
    apply (NoDup_app_disjoint _ _ (f_name f) ND); [exact H|now apply in_map].
Qed.

(** *** Invariant *)
Lemma Forall2_impl_ {A B} (P Q : A -> B -> Prop) l l' :
  (forall a b, P a b -> Q a b) -> Forall2 P l l' -> Forall2 Q l l'.
Proof. intros H F; induction F; constructor; auto. Qed.
Lemma NoDup_app_comm_snoc {A} (l : list A) x : NoDup l -> ~ In x l -> NoDup (l ++ [x]).
Proof.
  induction l as [|y l IH]; cbn; intros ND N; [repeat constructor; auto|].
  inversion ND as [|? ? Ny ND']; subst. constructor.
  - rewrite in_app_iff. cbn. intros [H|[->|[]]]; [auto|]. apply N. now left.
  - apply IH; auto.
Qed.

Definition row_of (sch : list Field) (v : list NamedValue) : list Value := map (value_for v) sch.

Definition op_from (sch : list Field) (dirty : bool) (op : LogOp) (vals : list NamedValue) : Prop :=
  exists s0 s1, sch = s0 ++ s1 /\ map value_of_key (op_keys op) ++ op_vals op = row_of s0 vals
    /\ accepted s0 vals /\ (dirty = false -> s1 = []).

Definition part_ok (sch : list Field) (d : Disk) (lp : nat * Part) : Prop :=
  exists pf s1, aget lp_dec (fst lp, p_id (snd lp)) (d_parts d) = Some pf /\ sch = pf_fields pf ++ s1
    /\ Forall (fun r => List.length r = List.length (pf_fields pf)) (pf_rows pf).

Record Inv (o : Options) (t : Table) (mvals : list (list NamedValue)) (pending dirty : bool) : Prop := {
  i_opts : md_opts (t_md t) = o;
  i_ic : 0 < o_index_cols o;
  i_names : NoDup (map f_name (md_schema (t_md t)));
  i_md : d_md (t_disk t) = Some (t_md t);
  i_log : t_log t = md_log_id (t_md t) /\
          exists ops, d_logs (t_disk t) = [(md_log_id (t_md t), log_file hash_crc32 ops)]
            /\ Forall loggable ops /\ Forall2 (op_from (md_schema (t_md t)) dirty) ops mvals;
  i_mem : t_mem t = cols_of (dts_of (md_schema (t_md t))) (map (row_of (md_schema (t_md t))) mvals);
  i_acc : Forall (accepted (md_schema (t_md t))) mvals;
  i_wide : mvals <> [] -> o_index_cols o <= List.length (md_schema (t_md t));
  i_pend : pending = false -> mvals = [];
  i_lv : exists l0 r, md_levels (t_md t) = l0 :: r /\
         forall i pf, aget lp_dec (0, i) (d_parts (t_disk t)) = Some pf -> i < l_next l0;
  i_parts : Forall (part_ok (md_schema (t_md t)) (t_disk t)) (all_parts (t_md t))
}.

Lemma inv_weaken o t mvals p d p' d' :
  Inv o t mvals p d -> (p' = false -> p = false) -> (d' = false -> d = false) -> Inv o t mvals p' d'.
Proof.
  intros [] Hp Hd. constructor; auto; [].
  destruct i_log0 as [E (ops & L & F & G)]. split; [exact E|]. exists ops. split; [exact L|]. split; [exact F|].
  eapply Forall2_impl_; [|exact G]. intros op v (s0 & s1 & A & B & C & D). exists s0, s1. repeat split; auto.
Qed.

(** create_table *)
Lemma all_parts_empty n : forall k, List.concat (map (fun '(l, lv) => map (pair l) (l_parts lv))
   (combine (seq k n) (repeat (mkLevel 0 []) n))) = [].
Proof. induction n; intros k; cbn; auto. Qed.

Lemma create_table_inv o :
  0 < o_index_cols o -> 0 < o_levels o -> Inv o (create_table o) [] false false.
Proof.
  intros Hic Hl. constructor; cbn [create_table t_md t_mem t_log t_disk d_md d_logs d_parts md_opts md_schema md_levels md_log_id]; auto.
  - constructor.
  - split; [reflexivity|]. exists []. split; [reflexivity|]. split; constructor.
  - intros; contradiction.
  - destruct (o_levels o) as [|n]; [lia|]. cbn. exists (mkLevel 0 []), (repeat (mkLevel 0 []) n).
    split; [reflexivity|]. intros; discriminate.
  - unfold all_parts. cbn [md_levels]. rewrite repeat_length. rewrite all_parts_empty. constructor.
Qed.

(** add_field *)
Lemma row_of_snoc sch v f :
  accepted sch v -> ~ In (f_name f) (map f_name sch) -> row_of (sch ++ [f]) v = row_of sch v ++ [VNull].
Proof.
  intros A N. unfold row_of. rewrite map_app. cbn. now rewrite (value_for_new sch v f A N).
Qed.

Lemma add_field_inv o t mvals p d f t' res :
  Inv o t mvals p d -> add_field t f = (t', res) ->
  (res = Err Exists_ /\ t' = t /\ In (f_name f) (map f_name (md_schema (t_md t))) \/
   res = Ok tt /\ Inv o t' mvals p (p || d) /\ md_schema (t_md t') = md_schema (t_md t) ++ [f]
     /\ ~ In (f_name f) (map f_name (md_schema (t_md t)))
     /\ md_levels (t_md t') = md_levels (t_md t) /\ d_parts (t_disk t') = d_parts (t_disk t)).
Proof.
  intros I H. unfold add_field in H. set (sch := md_schema (t_md t)) in *.
  destruct (existsb _ sch) eqn:X.
  - injection H as <- <-. left. split; [reflexivity|]. split; [reflexivity|].
    apply existsb_exists in X as (g & Hg & Eg). apply String.eqb_eq in Eg. rewrite <- Eg. now apply in_map.
  - assert (N : ~ In (f_name f) (map f_name sch)).
    { intros Hin. apply in_map_iff in Hin as (g & Eg & Hg).
      assert (existsb (fun g => String.eqb (f_name g) (f_name f)) sch = true).
      { apply existsb_exists. exists g. split; [exact Hg|]. now apply String.eqb_eq. }
      congruence. }
    right. destruct I. injection H as <- <-. split; [reflexivity|].
    fold sch in i_mem0, i_acc0, i_names0, i_wide0, i_parts0, i_log0.
    assert (W : Forall (width (List.length (dts_of sch))) (map (row_of sch) mvals)).
    { rewrite Forall_map. apply Forall_forall. intros v _. unfold width, row_of, dts_of. now rewrite !map_length. }
    assert (E0 : dts_of sch = [] -> map (row_of sch) mvals = []).
    { intros E. destruct mvals; [reflexivity|]. exfalso.
      assert (0 < List.length sch) by (specialize (i_wide0 ltac:(discriminate)); lia).
      destruct sch; cbn in *; [lia|discriminate]. }
    assert (Lm : List.length (t_mem t) = List.length sch).
    { rewrite i_mem0, cols_of_length. unfold dts_of. apply map_length. }
    split; [|split; [reflexivity|split; [exact N|split; reflexivity]]].
    constructor; cbn [t_md t_mem t_log t_disk d_md d_logs d_parts md_opts md_schema md_levels md_log_id]; auto.
    + rewrite map_app. cbn. apply NoDup_app_comm_snoc; assumption.
    + destruct i_log0 as [E (ops & L & F & G)]. split; [exact E|]. exists ops.
      split; [exact L|]. split; [exact F|]. destruct p.
      * eapply Forall2_impl_; [|exact G].
        intros op v (s0 & s1 & A & B & C & D). exists s0, (s1 ++ [f]). split; [rewrite A; now rewrite app_assoc|].
        split; [exact B|]. split; [exact C|]. discriminate.
      * rewrite (i_pend0 eq_refl) in *. inversion G. constructor.
    + rewrite Lm, app_length. cbn [List.length].
      replace (List.length sch + 1 - List.length sch) with 1 by lia. cbn [Nat.iter nat_rect].
      rewrite i_mem0, add_column_cols_of by assumption.
      unfold dts_of. rewrite map_app. cbn [map]. f_equal. rewrite map_map.
      apply map_ext_in. intros v Hv. rewrite Forall_forall in i_acc0. symmetry. apply row_of_snoc; auto.
    + eapply Forall_impl; [|exact i_acc0]. intros v. apply accepted_app.
    + intros Hm. specialize (i_wide0 Hm). rewrite app_length. lia.
    + eapply Forall_impl; [|exact i_parts0]. intros lp (pf & s1 & A & B & C). exists pf, (s1 ++ [f]).
      split; [exact A|]. split; [rewrite B; now rewrite app_assoc|exact C].
Qed.


(** *** Flush *)
Definition int_dt (dt : DType) : bool :=
  match dt with DInt8 | DInt16 | DInt32 | DInt64 | DTimestamp => true | _ => false end.

Lemma row_key_some ic : forall dts r,
  ic <= List.length dts -> List.length r = List.length dts -> Forall (fun d => int_dt d = true) (firstn ic dts) ->
  exists k, row_key dts r ic = Some k.
Proof.
  induction ic as [|ic IH]; intros dts r Hd Hr F; [cbn; eauto|].
  destruct dts as [|dt dts]; cbn in Hd; [lia|]. destruct r as [|c r]; [discriminate|].
  cbn in F. inversion F as [|? ? F1 F2]; subst. cbn.
  destruct (IH dts r ltac:(lia) ltac:(cbn in Hr; lia) F2) as [k ->].
  destruct dt; try discriminate; cbn; eauto.
Qed.

Lemma chunk_min_max_some dts rows ic :
  rows <> [] -> ic <= List.length dts -> Forall (fun r => List.length r = List.length dts) rows ->
  Forall (fun d => int_dt d = true) (firstn ic dts) ->
  exists a b, chunk_min_max dts rows ic = Some (a, b).
Proof.
  intros Hne Hic Hw F. unfold chunk_min_max. destruct rows as [|r0 rows]; [congruence|].
  assert (L : In (last (r0 :: rows) []) (r0 :: rows)).
  { destruct (exists_last Hne) as (l & x & E). rewrite E, last_last. apply in_or_app. right. now left. }
  rewrite Forall_forall in Hw.
  destruct (row_key_some ic dts r0 Hic (Hw _ (or_introl eq_refl)) F) as [a ->].
  destruct (row_key_some ic dts _ Hic (Hw _ L) F) as [b ->]. eauto.
Qed.

Lemma all_parts_cons md l0 r : md_levels md = l0 :: r ->
  all_parts md = map (pair 0) (l_parts l0) ++
    List.concat (map (fun '(l, lv) => map (pair l) (l_parts lv)) (combine (seq 1 (List.length r)) r)).
Proof. intros E. unfold all_parts. rewrite E. reflexivity. Qed.

Lemma part_ok_disk sch d d' lp :
  (forall pf, aget lp_dec (fst lp, p_id (snd lp)) (d_parts d) = Some pf ->
              aget lp_dec (fst lp, p_id (snd lp)) (d_parts d') = Some pf) ->
  part_ok sch d lp -> part_ok sch d' lp.
Proof. intros H (pf & s1 & A & B & C). exists pf, s1. auto. Qed.

Section WithSort.
Variable lexsort : list (list cell) -> list nat.

Lemma flush_log_ok o t mvals p d rows :
  Inv o t mvals p d ->
  o_index_cols o <= List.length (md_schema (t_md t)) ->
  Forall (fun x => int_dt x = true) (firstn (o_index_cols o) (dts_of (md_schema (t_md t)))) ->
  mt_chunk lexsort (t_mem t) None (o_index_cols o) (o_replacing o) = Ok (Some rows) -> rows <> [] ->
  Forall (fun r => List.length r = List.length (md_schema (t_md t))) rows ->
  exists t' pt A B,
    flush_log lexsort t = (t', Ok tt) /\ Inv o t' [] false false
    /\ md_schema (t_md t') = md_schema (t_md t)
    /\ all_parts (t_md t) = A ++ B /\ all_parts (t_md t') = A ++ [(0, pt)] ++ B
    /\ aget lp_dec (0, p_id pt) (d_parts (t_disk t)) = None
    /\ d_parts (t_disk t') = aset lp_dec (0, p_id pt) (mkPf (md_schema (t_md t)) rows) (d_parts (t_disk t)).
Proof.
  intros I Hic F HC Hne Hw. destruct I. set (sch := md_schema (t_md t)) in *.
  destruct i_lv0 as (l0 & lr & El & Hnext).
  assert (Ldt : List.length (dts_of sch) = List.length sch) by apply map_length.
  destruct (chunk_min_max_some (dts_of sch) rows (o_index_cols o) Hne
              ltac:(rewrite Ldt; exact Hic) ltac:(rewrite Ldt; exact Hw) F) as (a & b & Emm).
  assert (Edt : map c_dt (t_mem t) = dts_of sch).
  { rewrite i_mem0. unfold cols_of. rewrite map_map. rewrite map_ext with (g := snd) by (now intros [j x]).
    generalize (dts_of sch). clear. intros l.
    assert (G : forall (l : list DType) off, map snd (combine (seq off (List.length l)) l) = l).
    { induction l0; intros; cbn; f_equal; auto. } apply G. }
  set (pt := mkPart (l_next l0) (List.length rows) a b).
  assert (E0 : level0_part lexsort (t_md t) (t_mem t) = Ok (pt, mkPf sch rows)).
  { unfold level0_part. rewrite i_opts0, HC, Edt, Emm, El. reflexivity. }
  assert (Fresh : aget lp_dec (0, l_next l0) (d_parts (t_disk t)) = None).
  { destruct (aget lp_dec (0, l_next l0) (d_parts (t_disk t))) eqn:G; [|reflexivity].
    apply Hnext in G. lia. }
  destruct i_log0 as [Et (ops & L & FL & G2)].
  set (md' := md_flushed (t_md t) pt).
  assert (Elid : (md_log_id md' - 1 = md_log_id (t_md t))%N) by (unfold md'; cbn [md_flushed md_log_id]; lia).
  set (d1 := aset lp_dec (0, l_next l0) (mkPf sch rows) (d_parts (t_disk t))).
  set (t' := mkTable md' (mt_create_empty (t_mem t)) 0%N (md_log_id md')
              (mkDisk (Some md') [(md_log_id md', [])] d1)).
  exists t', pt, (map (pair 0) (l_parts l0)),
    (List.concat (map (fun '(l, lv) => map (pair l) (l_parts lv)) (combine (seq 1 (List.length lr)) lr))).
  assert (Ef : flush_log lexsort t = (t', Ok tt)).
  { unfold flush_log. rewrite E0. unfold flush_effects. fold md'.
    cbn [apply_effects apply_effect pt p_id]. rewrite Fresh. cbn [d_logs d_md d_parts].
    rewrite Elid, L. cbn [aget]. destruct (N.eq_dec _ _) as [_|C]; [|contradiction].
    cbn [apply_effects apply_effect d_logs d_md d_parts adel].
    destruct (N.eq_dec (md_log_id (t_md t)) (md_log_id (t_md t))) as [_|C]; [|contradiction].
    cbn [aget]. reflexivity. }
  split; [exact Ef|].
  assert (Eall : all_parts md' = map (pair 0) (l_parts l0) ++ [(0, pt)] ++
    List.concat (map (fun '(l, lv) => map (pair l) (l_parts lv)) (combine (seq 1 (List.length lr)) lr))).
  { rewrite (all_parts_cons md' (mkLevel (S (l_next l0)) (l_parts l0 ++ [pt])) lr).
    - cbn [l_parts]. rewrite map_app. now rewrite <- app_assoc.
    - unfold md', md_flushed. cbn [md_levels]. now rewrite El. }
  assert (Hpold : Forall (part_ok sch (mkDisk (Some md') [(md_log_id md', [])] d1)) (all_parts (t_md t))).
  { eapply Forall_impl; [|exact i_parts0]. intros lp. apply part_ok_disk. cbn [d_parts]. intros pf Hpf.
    unfold d1. rewrite aget_aset_ne; [exact Hpf|]. intros C. rewrite C in Hpf. congruence. }
  rewrite (all_parts_cons (t_md t) l0 lr El) in *.
  split; [|split; [reflexivity|split; [reflexivity|split; [exact Eall|split; [exact Fresh|reflexivity]]]]].
  constructor; cbn [t' t_md t_mem t_log t_disk d_md d_logs d_parts]; auto.
  - split; [reflexivity|]. exists []. split; [reflexivity|]. split; constructor.
  - rewrite i_mem0, create_empty_cols_of. reflexivity.
  - exists (mkLevel (S (l_next l0)) (l_parts l0 ++ [pt])), lr. split.
    + unfold md', md_flushed. cbn [md_levels]. now rewrite El.
    + intros i pf. unfold d1. rewrite aget_aset. cbn [l_next].
      destruct (lp_dec (0, i) (0, l_next l0)) as [E|N]; intros H.
      * injection E as ->. lia.
      * apply Hnext in H. lia.
  - rewrite Eall. change (md_schema md') with sch.
    apply Forall_app in Hpold as [H1 H2]. apply Forall_app. split; [exact H1|]. constructor; [|exact H2].
    exists (mkPf sch rows), []. cbn [fst snd pt p_id pf_fields pf_rows d_parts]. split; [|split].
    + unfold d1. now rewrite aget_aset_eq.
    + now rewrite app_nil_r.
    + exact Hw.
Qed.

(** An append-only chunk of the invariant's memtable. *)
Hypothesis HS : lexsort_contract lexsort.

Lemma inv_chunk o t mvals p d :
  Inv o t mvals p d -> mvals <> [] -> o_index_cols o <= List.length (md_schema (t_md t)) ->
  mt_chunk lexsort (t_mem t) None (o_index_cols o) false
  = Ok (Some (sorted_rows lexsort (o_index_cols o) (map (acked_row (md_schema (t_md t))) mvals))).
Proof.
  intros [] Hne Hic. rewrite i_mem0.
  rewrite (mt_chunk_all lexsort HS _ _ _ (o_index_cols o) (rows_cells_accepted _ _ i_names0 i_acc0)).
  - reflexivity.
  - intros E. apply map_eq_nil in E. contradiction.
  - unfold dts_of. rewrite map_length. lia.
Qed.

Lemma acked_rows_width sch mvals :
  Forall (fun r => List.length r = List.length sch) (map (acked_row sch) mvals).
Proof. rewrite Forall_map. apply Forall_forall. intros v _. apply map_length. Qed.

Lemma inv_chunk_props o t mvals p d :
  Inv o t mvals p d -> mvals <> [] -> o_index_cols o <= List.length (md_schema (t_md t)) ->
  exists rows, mt_chunk lexsort (t_mem t) None (o_index_cols o) false = Ok (Some rows)
    /\ Permutation rows (map (acked_row (md_schema (t_md t))) mvals) /\ rows <> []
    /\ Forall (fun r => List.length r = List.length (md_schema (t_md t))) rows.
Proof.
  intros I Hne Hic. eexists. split; [eapply inv_chunk; eassumption|].
  pose proof (sorted_rows_perm lexsort HS (o_index_cols o) (map (acked_row (md_schema (t_md t))) mvals)) as P.
  split; [exact P|]. split.
  - intros E. rewrite E in P. apply Permutation_nil in P. apply map_eq_nil in P. contradiction.
  - rewrite P. apply acked_rows_width.
Qed.

Lemma inv_chunk_sorted o t mvals p d rows :
  Inv o t mvals p d -> mvals <> [] -> o_index_cols o <= List.length (md_schema (t_md t)) ->
  mt_chunk lexsort (t_mem t) None (o_index_cols o) false = Ok (Some rows) ->
  sorted_by cmp_key (firstn (o_index_cols o)) rows.
Proof.
  intros I Hne Hic E. rewrite (inv_chunk _ _ _ _ _ I Hne Hic) in E. injection E as <-.
  apply (sorted_rows_sorted lexsort HS).
Qed.

(** *** Insert up to the automatic flush *)
Definition insert_state (t : Table) (pk : list KeyValue) (fv : list Value) (vals : list NamedValue) : Table :=
  mkTable (t_md t) (fst (push_values (t_mem t) 0 (map value_of_key pk ++ fv)))
    (t_logged t + N.of_nat (List.length (log_record hash_crc32 (Insert pk fv))))%N (t_log t)
    (append_log (t_disk t) (t_log t) (log_record hash_crc32 (Insert pk fv))).

Lemma push_values_split m a b :
  let '(m1, ok1) := push_values m 0 a in
  (if ok1 then push_values m1 (List.length a) b else (m1, false)) = push_values m 0 (a ++ b).
Proof.
  assert (G : forall a m k, let '(m1, ok1) := push_values m k a in
     (if ok1 then push_values m1 (k + List.length a) b else (m1, false)) = push_values m k (a ++ b)).
  { clear. induction a as [|v a IH]; intros m k.
    - cbn. now rewrite Nat.add_0_r.
    - cbn [push_values app List.length]. destruct (push_value m k v) as [m'|]; [|reflexivity].
      specialize (IH m' (S k)). rewrite Nat.add_succ_comm in IH. exact IH. }
  apply (G a m 0).
Qed.

Lemma insert_state_inv o t mvals p d vals pk :
  Inv o t mvals p d -> keys_first (o_index_cols o) (md_schema (t_md t)) vals ->
  check_values (md_schema (t_md t)) vals = Ok tt ->
  key_values (o_index_cols o) vals = Some pk ->
  loggable (Insert pk (final_values (md_schema (t_md t)) (o_index_cols o) vals)) ->
  let fv := final_values (md_schema (t_md t)) (o_index_cols o) vals in
  push_values (t_mem t) 0 (map value_of_key pk ++ fv)
    = (cols_of (dts_of (md_schema (t_md t))) (map (row_of (md_schema (t_md t))) (mvals ++ [vals])), true)
  /\ Inv o (insert_state t pk fv vals) (mvals ++ [vals]) true d.
Proof.
  intros I KF CV KV HL fv. pose proof I as I'. destruct I. set (sch := md_schema (t_md t)) in *.
  destruct (insert_row sch (o_index_cols o) vals pk i_names0 KF KV) as (ER & Lpk & Lic).
  assert (EP : push_values (t_mem t) 0 (map value_of_key pk ++ fv)
    = (cols_of (dts_of sch) (map (row_of sch) (mvals ++ [vals])), true)).
  { unfold fv. rewrite ER, i_mem0. rewrite push_row_cols_of.
    - rewrite map_app. reflexivity.
    - unfold dts_of. now rewrite !map_length. }
  split; [exact EP|]. unfold insert_state. rewrite EP. cbn [fst].
  pose proof (check_values_accepted sch vals CV) as AC.
  destruct i_log0 as [Et (ops & L & FL & G2)].
  assert (EA : append_log (t_disk t) (t_log t) (log_record hash_crc32 (Insert pk fv))
     = mkDisk (d_md (t_disk t)) [(md_log_id (t_md t), log_file hash_crc32 (ops ++ [Insert pk fv]))] (d_parts (t_disk t))).
  { unfold append_log. rewrite Et, L. cbn [aget]. destruct (N.eq_dec _ _) as [_|C]; [|contradiction].
    unfold aset. cbn [adel]. destruct (N.eq_dec _ _) as [_|C]; [|contradiction].
    unfold log_file. rewrite map_app, concat_app. cbn [map List.concat]. now rewrite app_nil_r. }
  rewrite EA.
  constructor; cbn [t_md t_mem t_log t_disk d_md d_logs d_parts]; auto.
  - split; [exact Et|]. exists (ops ++ [Insert pk fv]). split; [reflexivity|]. split.
    + apply Forall_app. auto.
    + apply Forall2_app; [exact G2|]. constructor; [|constructor].
      exists sch, []. rewrite app_nil_r. split; [reflexivity|]. cbn [op_keys op_vals].
      split; [exact ER|]. auto.
  - apply Forall_app. auto.
  - discriminate.
Qed.

Lemma insert_unfold o t mvals p d vals pk :
  Inv o t mvals p d -> keys_first (o_index_cols o) (md_schema (t_md t)) vals ->
  check_values (md_schema (t_md t)) vals = Ok tt ->
  key_values (o_index_cols o) vals = Some pk ->
  loggable (Insert pk (final_values (md_schema (t_md t)) (o_index_cols o) vals)) ->
  let t1 := insert_state t pk (final_values (md_schema (t_md t)) (o_index_cols o) vals) vals in
  insert lexsort t vals
  = if (o_max_log o <? t_logged t1)%N then flush_log lexsort t1 else (t1, Ok tt).
Proof.
  intros I KF CV KV HL. destruct (insert_state_inv _ _ _ _ _ _ _ I KF CV KV HL) as [EP I1].
  unfold insert. rewrite (i_opts _ _ _ _ _ I), CV, KV.
  set (fv := final_values (md_schema (t_md t)) (o_index_cols o) vals) in *.
  pose proof (push_values_split (t_mem t) (map value_of_key pk) fv) as SP.
  destruct (push_values (t_mem t) 0 (map value_of_key pk)) as [m1 ok1].
  destruct (insert_row _ _ _ _ (i_names _ _ _ _ _ I) KF KV) as (_ & Lpk & Lic).
  rewrite map_length, Lpk in SP. rewrite SP, EP.
  assert (Lm : 0 < mt_len (cols_of (dts_of (md_schema (t_md t))) (map (row_of (md_schema (t_md t))) (mvals ++ [vals])))).
  { rewrite mt_len_cols_of.
    - rewrite map_length, app_length. cbn. lia.
    - pose proof (i_ic _ _ _ _ _ I). destruct (md_schema (t_md t)); [cbn in Lic; lia|discriminate]. }
  apply Nat.ltb_lt in Lm. rewrite Lm. cbn [andb].
  unfold insert_state. rewrite EP. cbn [fst t_logged]. reflexivity.
Qed.

(** A rejected insert. *)
Lemma insert_rejected t vals e : check_values (md_schema (t_md t)) vals = Err e -> insert lexsort t vals = (t, Err e).
Proof. intros H. unfold insert. now rewrite H. Qed.
Lemma insert_bad_key t vals :
  check_values (md_schema (t_md t)) vals = Ok tt ->
  key_values (o_index_cols (md_opts (t_md t))) vals = None -> insert lexsort t vals = (t, Err Panic).
Proof. intros H K. unfold insert. now rewrite H, K. Qed.
End WithSort.

(** *** gc *)
Lemma aget_filter {V} (q : nat * nat -> bool) k (m : list ((nat * nat) * V)) :
  aget lp_dec k (List.filter (fun e => q (fst e)) m) = if q k then aget lp_dec k m else None.
Proof.
  induction m as [|[k' v] r IH]; cbn; [now destruct (q k)|].
  destruct (q k') eqn:Q; cbn.
  - rewrite IH. destruct (lp_dec k k') as [->|]; [now rewrite Q|reflexivity].
  - rewrite IH. destruct (lp_dec k k') as [->|]; [now rewrite Q|reflexivity].
Qed.

Lemma all_parts_referenced md lp : In lp (all_parts md) -> referenced md (fst lp, p_id (snd lp)) = true.
Proof.
  unfold all_parts. intros H. apply in_concat in H as (x & Hx & Hlp).
  apply in_map_iff in Hx as ([l lv] & <- & Hc).
  apply in_map_iff in Hlp as (pt & <- & Hpt). cbn [fst snd].
  assert (E : nth_error (md_levels md) l = Some lv).
  { clear - Hc. revert Hc.
    assert (G : forall ls off, In (l, lv) (combine (seq off (List.length ls)) ls) ->
       off <= l /\ nth_error ls (l - off) = Some lv).
    { induction ls as [|a ls IH]; intros off H; [contradiction|]. cbn in H. destruct H as [E|H].
      - injection E as -> ->. rewrite Nat.sub_diag. auto.
      - apply IH in H as [H1 H2]. split; [lia|]. replace (l - off) with (S (l - S off)) by lia. exact H2. }
    intros H. apply G in H as [_ H]. now rewrite Nat.sub_0_r in H. }
  unfold referenced. cbn [fst snd]. rewrite E. apply existsb_exists. exists pt. split; [exact Hpt|]. apply Nat.eqb_refl.
Qed.

Lemma gc_inv o t mvals p d : Inv o t mvals p d -> Inv o (gc t) mvals p d /\
  t_md (gc t) = t_md t /\ t_mem (gc t) = t_mem t /\
  forall lp, In lp (all_parts (t_md t)) ->
    aget lp_dec (fst lp, p_id (snd lp)) (d_parts (t_disk (gc t))) = aget lp_dec (fst lp, p_id (snd lp)) (d_parts (t_disk t)).
Proof.
  intros []. split; [|split; [reflexivity|split; [reflexivity|]]].
  - constructor; cbn [gc t_md t_mem t_log t_disk d_md d_logs d_parts]; auto.
    + destruct i_log0 as [E (ops & L & F & G)]. split; [exact E|]. exists ops. rewrite L. cbn [List.filter fst].
      rewrite N.ltb_irrefl. cbn. auto.
    + destruct i_lv0 as (l0 & r & El & H). exists l0, r. split; [exact El|]. intros i pf.
      rewrite (aget_filter (referenced (t_md t))). destruct (referenced _ _); [apply H|discriminate].
    + rewrite Forall_forall in *. intros lp Hlp. apply part_ok_disk with (d := t_disk t); [|now apply i_parts0].
      intros pf. cbn [d_parts]. rewrite (aget_filter (referenced (t_md t))), (all_parts_referenced _ _ Hlp). auto.
  - intros lp Hlp. cbn [gc t_disk d_parts].
    rewrite (aget_filter (referenced (t_md t))), (all_parts_referenced _ _ Hlp). reflexivity.
Qed.

(** *** Reopen *)
Lemma fold_add_columns dts : fold_left mt_add_column dts mt_new = cols_of dts [].
Proof.
  induction dts as [|dt dts IH] using rev_ind; [reflexivity|].
  rewrite fold_left_app, IH. cbn [fold_left].
  rewrite add_column_cols_of; [reflexivity|auto|constructor].
Qed.

Lemma replay_cols_of dts ops rows0 :
  Forall (fun o => List.length (map value_of_key (op_keys o) ++ op_vals o) = List.length dts) ops ->
  replay (cols_of dts rows0) ops
  = Some (cols_of dts (rows0 ++ map (fun o => map value_of_key (op_keys o) ++ op_vals o) ops)).
Proof.
  intros F. revert rows0. induction F as [|op ops Ho F IH]; intros rows0; cbn [replay map].
  - now rewrite app_nil_r.
  - rewrite push_row_cols_of by exact Ho. rewrite IH, <- app_assoc. reflexivity.
Qed.

Lemma reopen_inv o t mvals p :
  Inv o t mvals p false ->
  exists t', reopen (t_disk t) = Ok t' /\ Inv o t' mvals p false
    /\ t_md t' = t_md t /\ t_disk t' = t_disk t /\ t_mem t' = t_mem t.
Proof.
  intros I. pose proof I as I'. destruct I. set (sch := md_schema (t_md t)) in *.
  destruct i_log0 as [Et (ops & L & FL & G2)].
  assert (Erows : map (fun o => map value_of_key (op_keys o) ++ op_vals o) ops = map (row_of sch) mvals).
  { clear - G2. induction G2 as [|op v ops mvals H _ IH]; [reflexivity|]. cbn [map]. rewrite IH. f_equal.
    destruct H as (s0 & s1 & A & B & C & D). rewrite (D eq_refl), app_nil_r in A. now rewrite A. }
  assert (W : Forall (fun o => List.length (map value_of_key (op_keys o) ++ op_vals o) = List.length (dts_of sch)) ops).
  { clear - G2. induction G2 as [|op v ops mvals H _ IH]; constructor; [|exact IH].
    destruct H as (s0 & s1 & A & B & C & D). rewrite (D eq_refl), app_nil_r in A. rewrite B, A.
    unfold row_of, dts_of. now rewrite !map_length. }
  assert (ER : reopen (t_disk t) = Ok (mkTable (t_md t) (t_mem t)
     (N.of_nat (List.length (log_file hash_crc32 ops))) (md_log_id (t_md t)) (t_disk t))).
  { unfold reopen. rewrite i_md0, L. cbn [akeys map fst max_id fold_right aget].
    destruct (N.eq_dec _ _) as [_|C]; [|contradiction].
    rewrite recover_log_complete by (apply loggable_records; exact FL).
    fold sch. rewrite fold_add_columns, replay_cols_of by exact W.
    cbn [app]. rewrite Erows, <- i_mem0. reflexivity. }
  eexists. split; [exact ER|]. split; [|split; [reflexivity|split; reflexivity]].
  constructor; cbn [t_md t_mem t_log t_disk]; auto.
  split; [reflexivity|]. exists ops. auto.
Qed.
