(** C12: point lookups. *)
From Coq Require Import List NArith ZArith Bool String Lia Permutation Sorted.
From Verif Require Import Bytes Value ValueFacts Log LogFacts AMap Order Memtable ListFacts MemtableFacts
  Table TableSpec TableFacts TableHistory TableUse Get GetFacts PropsTable.
Import ListNotations.

(** A part written by a flush is one row group. *)
Definition one_group (pf : PartFile) : list (list Row) := [pf_rows pf].

Lemma row_key_ints ic : forall dts r ks,
  Forall (fun d => d = DInt64) (firstn ic dts) -> ic <= List.length dts -> List.length ks = ic -> has_int_key ks r ->
  row_key dts r ic = Some (int_key ks).
Proof.
  induction ic as [|ic IH]; intros dts r ks F L E K.
  - destruct ks; [reflexivity|discriminate].
  - destruct ks as [|z ks]; [discriminate|]. destruct dts as [|dt dts]; [cbn in L; lia|].
    unfold has_int_key in K. cbn in K. destruct r as [|c r]; [discriminate|]. injection K as -> K.
    cbn in F. inversion F as [|? ? -> F2]; subst. cbn.
    rewrite (IH dts r ks F2 ltac:(cbn in L; lia) ltac:(cbn in E; lia) K). reflexivity.
Qed.

Lemma key_le_ints a b : key_le (int_key a) (int_key b) = true <-> cle (lex_cmp Z.compare) a b.
Proof. unfold key_le, cle. rewrite key_cmp_ints. destruct (lex_cmp Z.compare a b); split; congruence. Qed.

Lemma sorted_last {A} (R : A -> A -> Prop) l (d : A) x : (forall a, R a a) -> StronglySorted R l -> In x l -> R x (last l d).
Proof.
  intros Rf H. induction H as [|a l S IH F]; [intros []|]. destruct l as [|b l].
  - intros [<-|[]]. cbn. apply Rf.
  - intros [<-|Hx].
    + change (last (a :: b :: l) d) with (last (b :: l) d).
      rewrite Forall_forall in F. apply F. assert (Hne : b :: l <> []) by discriminate.
      destruct (exists_last Hne) as (m & y & ->). rewrite last_last. apply in_or_app. right. now left.
    + change (last (a :: b :: l) d) with (last (b :: l) d). now apply IH.
Qed.

Lemma bounded_of_range ic p pf :
  sorted_by cmp_key (firstn ic) (pf_rows pf) -> Forall (int_keys ic) (pf_rows pf) ->
  Forall (fun d => d = DInt64) (firstn ic (dts_of (pf_fields pf))) -> ic <= List.length (pf_fields pf) ->
  Forall (fun r => List.length r = List.length (pf_fields pf)) (pf_rows pf) ->
  chunk_min_max (dts_of (pf_fields pf)) (pf_rows pf) ic = Some (p_min p, p_max p) ->
  bounded ic p pf.
Proof.
  intros So Ik Fd Hic Wd C r ks Hr Lk K.
  assert (KO : forall x, In x (pf_rows pf) -> exists kx, List.length kx = ic /\ has_int_key kx x
     /\ row_key (dts_of (pf_fields pf)) x ic = Some (int_key kx)).
  { intros x Hx. rewrite Forall_forall in Ik, Wd.
    destruct (int_keys_list ic x (Ik x Hx)) as (kx & L & E); [rewrite (Wd x Hx); exact Hic|].
    exists kx. split; [exact L|]. assert (H : has_int_key kx x) by (unfold has_int_key; now rewrite L).
    split; [exact H|]. apply row_key_ints; auto. unfold dts_of. now rewrite map_length. }
  assert (Le : forall x y kx ky, List.length kx = ic -> List.length ky = ic -> has_int_key kx x -> has_int_key ky y ->
     cle cmp_key (firstn ic x) (firstn ic y) -> cle (lex_cmp Z.compare) kx ky).
  { intros x y kx ky Lx Ly Hx Hy. unfold has_int_key in *. rewrite Lx in Hx. rewrite Ly in Hy. rewrite Hx, Hy.
    unfold cle, cmp_key. rewrite cell_cmp_ints. auto. }
  unfold chunk_min_max in C. destruct (pf_rows pf) as [|r0 rs] eqn:Er; [discriminate|].
  destruct (KO r0 (or_introl eq_refl)) as (k0 & L0 & K0 & E0).
  assert (Hl : In (last (r0 :: rs) []) (r0 :: rs)).
  { assert (Hne : r0 :: rs <> []) by discriminate. destruct (exists_last Hne) as (m & y & ->).
    rewrite last_last. apply in_or_app. right. now left. }
  destruct (KO _ Hl) as (k1 & L1 & K1 & E1).
  rewrite E0, E1 in C. injection C as C0 C1. unfold in_range. rewrite <- C0, <- C1.
  apply andb_true_iff. split; apply key_le_ints.
  - apply (Le r0 r); auto. unfold sorted_by in So. inversion So as [|? ? S F]; subst. destruct Hr as [<-|Hr].
    + apply (cle_refl _ cmp_key_total).
    + rewrite Forall_forall in F. now apply F.
  - apply (Le r (last (r0 :: rs) [])); auto.
    apply sorted_last with (R := fun a b => cle cmp_key (firstn ic a) (firstn ic b)); auto.
    intros a. apply (cle_refl _ cmp_key_total).
Qed.

(** ** C12 *)
(** Keys of one table, as the API takes them: as many 64-bit integers as the table has
    key columns. *)

(** Rows not yet flushed are the latest acknowledged ones, and a key among them is
    answered with its newest row, wherever else the key is stored. *)
Theorem C12_unflushed_newest :
  forall groups lexsort o fs ops t acks key,
  lexsort_contract lexsort -> usable o fs ->
  Forall (wf_op (o_index_cols o) (schema_after fs ops)) ops -> restart_safe false false ops ->
  run lexsort (table_with o fs) ops = Some (t, acks) ->
  List.length key <= List.length (md_schema (t_md t)) ->
  exists flushed unflushed, acks = flushed ++ unflushed /\ List.length unflushed = mt_len (t_mem t) /\
  forall before vals after, unflushed = before ++ vals :: after ->
    map (value_for vals) (firstn (List.length key) (md_schema (t_md t))) = map value_of_key key ->
    (forall v, In v after -> map (value_for v) (firstn (List.length key) (md_schema (t_md t))) <> map value_of_key key) ->
    get groups t key = Ok (Some (map (value_for vals) (md_schema (t_md t)))).
Proof.
  intros groups lexsort o fs ops t acks key HS U W RS R Lk. pose proof U as (ND & Hic & Hl & _).
  destruct (table_with_inv o fs ltac:(lia) Hl ND) as (I0 & Es & Ep).
  destruct (run_lookup lexsort HS o ops (table_with o fs) [] false false [] I0)
    as (t1 & new & mv & p & d & pre & R1 & I1 & _ & E); rewrite ?Es; auto.
  { unfold ranged. rewrite Ep. constructor. }
  rewrite R in R1. injection R1 as <- <-. cbn [app] in E.
  exists pre, mv. split; [exact E|]. split; [symmetry; eapply inv_mem_len; exact I1|].
  intros before vals after Em HK HN. unfold get.
  assert (Hd : dts_of (md_schema (t_md t)) <> []).
  { pose proof (i_wide _ _ _ _ _ I1) as Hw. assert (mv <> []) by (rewrite Em; destruct before; discriminate).
    specialize (Hw H). destruct (md_schema (t_md t)); [cbn in Hw; lia|discriminate]. }
  rewrite (i_mem _ _ _ _ _ I1), mt_get_cols_of; [|exact Hd|unfold dts_of; rewrite map_length; exact Lk|].
  2:{ rewrite Forall_map. apply Forall_forall. intros v _. unfold width, row_of, dts_of. now rewrite !map_length. }
  assert (HKe : forall v, has_key (map value_of_key key) (row_of (md_schema (t_md t)) v) = true <->
     map (value_for v) (firstn (List.length key) (md_schema (t_md t))) = map value_of_key key).
  { intros v. unfold has_key, row_of. rewrite map_length, firstn_map.
    destruct (list_eq_dec _ _ _); split; congruence. }
  unfold last_with. rewrite Em, map_app. cbn [map]. rewrite rev_app_distr. cbn [rev]. rewrite <- app_assoc.
  assert (F : List.find (has_key (map value_of_key key)) (rev (map (row_of (md_schema (t_md t))) after) ++
       [row_of (md_schema (t_md t)) vals] ++ rev (map (row_of (md_schema (t_md t))) before))
       = Some (row_of (md_schema (t_md t)) vals)).
  { rewrite find_app_none.
    - cbn [app List.find]. now rewrite (proj2 (HKe vals) HK).
    - intros x Hx. apply in_rev in Hx. apply in_map_iff in Hx as (v & <- & Hv).
      apply not_true_is_false. intros X. apply (HN v Hv). now apply HKe. }
  rewrite F. reflexivity.
Qed.
Print Assumptions C12_unflushed_newest.

(** Full statement (refuted below): [get] answers with the newest stored row of the key.
    Proved: for an append-only table with 64-bit integer keys, when at most one part's
    range contains the key, [get] answers with a stored row of the key if there is one
    and with nothing if there is none. *)
Theorem C12_lookup_partial :
  forall lexsort o fs ops t acks key,
  lexsort_contract lexsort -> usable o fs -> o_replacing o = false ->
  Forall (fun f => f_dt f = DInt64) (firstn (o_index_cols o) fs) ->
  Forall (wf_op (o_index_cols o) (schema_after fs ops)) ops -> restart_safe false false ops ->
  run lexsort (table_with o fs) ops = Some (t, acks) ->
  List.length key = o_index_cols o ->
  (forall a b, In a (all_parts (t_md t)) -> In b (all_parts (t_md t)) ->
     in_range (int_key key) (snd a) = true -> in_range (int_key key) (snd b) = true -> a = b) ->
  exists res, get one_group t (int_key key) = Ok res /\
  match res with
  | Some row => exists vals, In vals acks /\ has_int_key key (acked_row (md_schema (t_md t)) vals)
                  /\ map content row = acked_row (md_schema (t_md t)) vals
  | None => forall vals, In vals acks -> ~ has_int_key key (acked_row (md_schema (t_md t)) vals)
  end.
Proof.
  intros lexsort o fs ops t acks key HS U Hr F64 W RS R Lk Uniq. pose proof U as (ND & Hic & Hl & _).
  destruct (table_with_inv o fs ltac:(lia) Hl ND) as (I0 & Es & Ep).
  destruct (run_lookup lexsort HS o ops (table_with o fs) [] false false [] I0)
    as (t1 & new1 & mv1 & p1 & d1 & pre & R1 & _ & Rg & _); rewrite ?Es; auto.
  { unfold ranged. rewrite Ep. constructor. }
  rewrite R in R1. injection R1 as <- <-.
  destruct (run_acks lexsort HS o ops Hr (table_with o fs) [] false false [] I0)
    as (t1 & new & mv & p & d & R1 & I1 & (pvals & F2 & P & K) & Sch & _); rewrite ?Es; auto.
  { exists []. rewrite Ep. split; [constructor|]. split; [reflexivity|constructor]. }
  { lia. }
  { now apply usable_int. }
  rewrite R in R1. injection R1 as <- <-. cbn [app] in P. rewrite Es in Sch.
  destruct (schema_after_prefix ops fs) as (rest & Er). rewrite Er in Sch.
  set (sch := md_schema (t_md t)) in *.
  assert (Hs : o_index_cols o <= List.length sch) by (rewrite Sch, app_length; lia).
  assert (F64' : Forall (fun f => f_dt f = DInt64) (firstn (o_index_cols o) sch)) by (rewrite Sch, firstn_prefix by lia; exact F64).
  assert (Hd : dts_of sch <> []) by (destruct sch; [cbn in Hs; lia|discriminate]).
  assert (EM : mt_get (t_mem t) (int_key key) = Ok (last_with (map value_of_key (int_key key)) (map (row_of sch) mv))).
  { rewrite (i_mem _ _ _ _ _ I1). fold sch. apply mt_get_cols_of; [exact Hd|unfold int_key, dts_of; rewrite !map_length, Lk; exact Hs|].
    rewrite Forall_map. apply Forall_forall. intros v _. unfold width, row_of, dts_of. now rewrite !map_length. }
  assert (CR : forall v, map content (row_of sch v) = acked_row sch v).
  { intros v. unfold row_of, acked_row. rewrite map_map. apply map_ext. intros f. apply content_value_for. }
  (* the key of an unflushed row, as values and as cells *)
  assert (VK : forall v, In v mv -> has_key (map value_of_key (int_key key)) (row_of sch v) = true <-> has_int_key key (acked_row sch v)).
  { intros v Hv. unfold has_key, has_int_key. replace (List.length (map value_of_key (int_key key))) with (List.length key) by (unfold int_key; now rewrite !map_length).
    rewrite <- CR, firstn_map.
    assert (T : Forall (fun x => exists z, x = VInt64 (Some z)) (firstn (List.length key) (row_of sch v))).
    { rewrite Forall_forall in K. specialize (K v Hv). fold sch in K.
      pose proof (i_acc _ _ _ _ _ I1) as Ac. rewrite Forall_forall in Ac. specialize (Ac v Hv). fold sch in Ac.
      pose proof (i_names _ _ _ _ _ I1) as Nm. fold sch in Nm.
      unfold int_keys in K. rewrite <- CR in K. rewrite Lk. unfold row_of in *.
      rewrite firstn_map in *. rewrite firstn_map in K. rewrite Forall_map in K. rewrite Forall_map in K. rewrite Forall_map.
      rewrite Forall_forall in *. intros f Hf. specialize (K f Hf). specialize (F64' f Hf).
      assert (Hf' : In f sch) by (rewrite <- (firstn_skipn (o_index_cols o) sch); apply in_or_app; now left).
      pose proof (value_for_typed sch v f Nm Ac Hf') as E. rewrite F64' in E. destruct K as (z & K). rewrite K in E.
      destruct (value_for v f); cbn in E; try discriminate E. cbn in K.
      match goal with x : option Z |- _ => destruct x; [|discriminate] end. eauto. }
    clear - T. unfold int_key. rewrite map_map. cbn [value_of_key].
    set (l := firstn (List.length key) (row_of sch v)) in *. clearbody l.
    destruct (list_eq_dec Value_eq_dec l (map (fun x => VInt64 (Some x)) key)) as [E|E].
    - split; [intros _|reflexivity]. rewrite E, map_map. reflexivity.
    - split; [discriminate|]. intros C. exfalso. apply E. clear E. revert key C.
      induction T as [|x l (z & ->) T IH]; intros [|k key] C; cbn in *; try discriminate; [reflexivity|].
      injection C as -> C. f_equal. now apply IH. }
  destruct (last_with (map value_of_key (int_key key)) (map (row_of sch) mv)) as [row|] eqn:EL.
  - exists (Some row). unfold get. rewrite EM. split; [reflexivity|].
    unfold last_with in EL. apply find_some in EL as [Hin HK]. apply in_rev in Hin.
    apply in_map_iff in Hin as (v & <- & Hv). exists v. split; [|split; [now apply VK|apply CR]].
    eapply Permutation_in; [symmetry; exact P|]. apply in_or_app. now right.
  - assert (NM : forall v, In v mv -> ~ has_int_key key (acked_row sch v)).
    { intros v Hv C. unfold last_with in EL.
      pose proof (find_none _ _ EL (row_of sch v)) as X. rewrite (proj2 (VK v Hv) C) in X.
      assert (true = false); [|discriminate]. apply X. apply -> in_rev. now apply in_map. }
    assert (PP : forall lp, In lp (all_parts (t_md t)) -> exists pf pv,
       aget lp_dec (fst lp, p_id (snd lp)) (d_parts (t_disk t)) = Some pf /\ In pv pvals
       /\ readable sch (o_index_cols o) pf /\ bounded (o_index_cols o) (snd lp) pf
       /\ Permutation (pf_rows pf) (map (acked_row (pf_fields pf)) pv)
       /\ (forall v, In v pv -> acked_row sch v = acked_row (pf_fields pf) v ++ repeat None (List.length sch - List.length (pf_fields pf)))).
    { intros lp Hlp.
      assert (X : exists pv, In pv pvals /\ part_has (o_index_cols o) (t_disk t) lp pv).
      { clear - F2 Hlp. induction F2 as [|x y l l' Hxy F2 IH]; [contradiction|]. destruct Hlp as [->|Hlp].
        - exists y. split; [now left|exact Hxy].
        - destruct (IH Hlp) as (pv & A & B). exists pv. split; [now right|exact B]. }
      destruct X as (pv & Hpv & (pf & Epf & Ac & Pm & Hw & Ik & So)).
      pose proof (i_parts _ _ _ _ _ I1) as IP. rewrite Forall_forall in IP.
      destruct (IP lp Hlp) as (pf' & s1 & Epf' & Es1 & Wd). assert (pf' = pf) by congruence. subst pf'. fold sch in Es1.
      unfold ranged in Rg. rewrite Forall_forall in Rg. destruct (Rg lp Hlp) as (pf' & Epf2 & Cm).
      assert (pf' = pf) by congruence. subst pf'. rewrite (i_opts _ _ _ _ _ I1) in Cm.
      assert (ND' : NoDup (map f_name (pf_fields pf))).
      { pose proof (i_names _ _ _ _ _ I1) as Nm. fold sch in Nm. rewrite Es1, map_app in Nm. eapply NoDup_app_left; exact Nm. }
      assert (F64p : Forall (fun f => f_dt f = DInt64) (firstn (o_index_cols o) (pf_fields pf))).
      { rewrite Es1, firstn_prefix in F64' by exact Hw. exact F64'. }
      exists pf, pv. split; [exact Epf|]. split; [exact Hpv|]. split; [|split; [|split; [exact Pm|]]].
      - constructor.
        + exists s1. exact Es1.
        + exact Hw.
        + intros j f Hj Ej. rewrite Forall_forall in F64p. rewrite (F64p f); [reflexivity|].
          rewrite <- (firstn_skipn (o_index_cols o) (pf_fields pf)) in Ej.
          rewrite nth_error_app1 in Ej by (rewrite firstn_length; lia). eapply nth_error_In; exact Ej.
        + exact Ik.
        + rewrite Pm, Forall_map. rewrite Forall_forall in Ac |- *. intros v Hv. specialize (Ac v Hv).
          unfold acked_row. assert (G : forall l, incl l (pf_fields pf) ->
             Forall2 (fun f c => fits (f_dt f) c) l (map (fun f => supplied v (f_name f)) l)).
          { induction l as [|f l IHl]; intros Hl'; cbn; constructor.
            - eapply fits_supplied; [exact Ac| |exact ND']. apply Hl'. now left.
            - apply IHl. intros x Hx. apply Hl'. now right. }
          apply G. apply incl_refl.
      - apply bounded_of_range; auto.
        unfold dts_of. rewrite firstn_map, Forall_map. exact F64p.
      - intros v Hv. unfold acked_row. rewrite Es1, map_app. f_equal. rewrite app_length.
        replace (List.length (pf_fields pf) + List.length s1 - List.length (pf_fields pf)) with (List.length s1) by lia.
        rewrite Forall_forall in Ac. specialize (Ac v Hv).
        pose proof (i_names _ _ _ _ _ I1) as Nm. fold sch in Nm. rewrite Es1, map_app in Nm.
        assert (G : forall l, incl l s1 -> map (fun f => supplied v (f_name f)) l = repeat None (List.length l)).
        { induction l as [|f l IHl]; intros Hl'; cbn; [reflexivity|]. f_equal.
          - eapply supplied_unnamed; [exact Ac|]. intros g Hg Eg.
            eapply NoDup_app_disjoint; [exact Nm|apply in_map; exact Hg|]. rewrite Eg. apply in_map. apply Hl'. now left.
          - apply IHl. intros x Hx. apply Hl'. now right. }
        apply G. apply incl_refl. }
    destruct (get_spec one_group t (o_index_cols o) key EM Lk) as (res & E & S).
    + intros lp Hlp. destruct (PP lp Hlp) as (pf & pv & Epf & _ & Rd & Bd & _). exists pf.
      split; [exact Epf|]. split; [exact Rd|]. split; [exact Bd|]. split; [cbn; now rewrite app_nil_r|].
      intros a b g h Eab Ha Hb _ _. unfold one_group in Eab.
      destruct a as [|x [|y a]]; [contradiction| |discriminate]. cbn in Eab. injection Eab as _ <-. contradiction.
    + exact Uniq.
    + exists res. split; [exact E|]. destruct res as [row|].
      * destruct S as (lp & pf & r & Hlp & Epf & Hr' & Hk & Ec).
        destruct (PP lp Hlp) as (pf' & pv & Epf' & Hpv & Rd & _ & Pm & Ext). assert (pf' = pf) by congruence. subst pf'.
        assert (Hr2 : In r (map (acked_row (pf_fields pf)) pv)) by (eapply Permutation_in; [exact Pm|exact Hr']).
        apply in_map_iff in Hr2 as (v & <- & Hv). exists v. rewrite (Ext v Hv). split; [|split].
        -- eapply Permutation_in; [symmetry; exact P|]. apply in_or_app. left. apply in_concat. eauto.
        -- unfold has_int_key in *. rewrite firstn_prefix; [exact Hk|].
           unfold acked_row. rewrite map_length. rewrite Lk. exact (rd_ic _ _ _ Rd).
        -- exact Ec.
      * intros v Hv C. assert (Hv' : In v (List.concat pvals ++ mv)) by (eapply Permutation_in; [exact P|exact Hv]).
        apply in_app_or in Hv' as [Hv'|Hv']; [|exact (NM v Hv' C)].
        apply in_concat in Hv' as (pv & Hpv & Hvp).
        assert (X : exists lp, In lp (all_parts (t_md t)) /\ part_has (o_index_cols o) (t_disk t) lp pv).
        { clear - F2 Hpv. induction F2 as [|x y l l' Hxy F2 IH]; [contradiction|]. destruct Hpv as [->|Hpv].
          - exists x. split; [now left|exact Hxy].
          - destruct (IH Hpv) as (lp & A & B). exists lp. split; [now right|exact B]. }
        destruct X as (lp & Hlp & (pf & Epf & Ac & Pm & Hw & _)).
        pose proof (i_parts _ _ _ _ _ I1) as IP. rewrite Forall_forall in IP.
        destruct (IP lp Hlp) as (pf' & s1 & Epf' & Es1 & _). assert (pf' = pf) by congruence. subst pf'. fold sch in Es1.
        apply (S lp pf (acked_row (pf_fields pf) v) Hlp Epf).
        -- eapply Permutation_in; [symmetry; exact Pm|]. now apply in_map.
        -- unfold has_int_key, acked_row in *. rewrite Es1, map_app, firstn_prefix in C by (rewrite map_length; lia). exact C.
Qed.
Print Assumptions C12_lookup_partial.

(** A value a column of the type may hold. *)
Definition of_type (dt : DType) (v : Value) : Prop :=
  v = VNull \/
  match dt with
  | DString => exists s, v = VString s
  | DInt8 => exists z, v = VInt8 z | DInt16 => exists z, v = VInt16 z
  | DInt32 => exists z, v = VInt32 z | DInt64 => exists z, v = VInt64 z
  | DDecimal => exists z, v = VDecimal z
  | DBoolean => exists b, v = VBoolean b
  | DTimestamp => exists z, v = VTimestamp z
  end.
(** A row answered has one value for each column of the table, in the columns' order, and
    each is null or of its column's type: whatever the key columns are, however the key is
    spread over parts and however a part is divided. *)
Theorem C12_types :
  forall groups lexsort o fs ops t acks key row,
  lexsort_contract lexsort -> usable o fs ->
  Forall (wf_op (o_index_cols o) (schema_after fs ops)) ops -> restart_safe false false ops ->
  run lexsort (table_with o fs) ops = Some (t, acks) ->
  List.length key <= List.length (md_schema (t_md t)) ->
  get groups t key = Ok (Some row) ->
  Forall2 (fun f v => of_type (f_dt f) v) (md_schema (t_md t)) row.
Proof.
  intros groups lexsort o fs ops t acks key row HS U W RS R Lk G. pose proof U as (ND & Hic & Hl & _).
  destruct (table_with_inv o fs ltac:(lia) Hl ND) as (I0 & Es & Ep).
  destruct (run_lookup lexsort HS o ops (table_with o fs) [] false false [] I0)
    as (t1 & new & mv & p & d & pre & R1 & I1 & _ & E); rewrite ?Es; auto.
  { unfold ranged. rewrite Ep. constructor. }
  rewrite R in R1. injection R1 as <- <-.
  set (sch := md_schema (t_md t)) in *.
  assert (OUT : forall r w l i vs, row_out l w r i = Some vs -> Forall2 (fun f v => of_type (f_dt f) v) l vs).
  { intros r w. induction l as [|f l IH]; intros i vs; cbn [row_out]; [intros [= <-]; constructor|].
    destruct (if Nat.ltb i w then value_of_cell (f_dt f) (nth i r None) else Some VNull) as [v|] eqn:Ev; [|discriminate].
    destruct (row_out l w r (S i)) as [vs'|] eqn:Er; [|discriminate]. intros [= <-]. constructor; [|eapply IH; exact Er].
    destruct (Nat.ltb i w); [|injection Ev as <-; now left].
    unfold value_of_cell in Ev. destruct (nth i r None) as [[z|b|s]|]; [| | |injection Ev as <-; now left];
      right; destruct (f_dt f); try discriminate; injection Ev as <-; eauto. }
  unfold get in G. destruct (mt_get (t_mem t) key) as [[v|]|e] eqn:EM; [| |discriminate].
  - injection G as <-. destruct mv as [|x mv'].
    { rewrite (i_mem _ _ _ _ _ I1) in EM. fold sch in EM. cbn [map] in EM.
      destruct sch as [|f sch'] eqn:Esch.
      - destruct key; [|cbn in Lk; lia]. vm_compute in EM. congruence.
      - rewrite <- Esch in *. rewrite mt_get_cols_of in EM; [|rewrite Esch; discriminate|unfold dts_of; now rewrite map_length|constructor].
        discriminate. }
    assert (Hd : dts_of sch <> []).
    { pose proof (i_wide _ _ _ _ _ I1) as Hw. specialize (Hw ltac:(discriminate)). fold sch in Hw.
      destruct sch; [cbn in Hw; lia|discriminate]. }
    rewrite (i_mem _ _ _ _ _ I1) in EM. fold sch in EM. rewrite mt_get_cols_of in EM; [|exact Hd|unfold dts_of; now rewrite map_length|].
    2:{ rewrite Forall_map. apply Forall_forall. intros u _. unfold width, row_of, dts_of. now rewrite !map_length. }
    injection EM as EM. unfold last_with in EM. apply find_some in EM as [Hin _]. apply in_rev in Hin.
    change (In v (map (row_of sch) (x :: mv'))) in Hin. apply in_map_iff in Hin as (u & <- & Hu).
    pose proof (i_acc _ _ _ _ _ I1) as Ac. rewrite Forall_forall in Ac. specialize (Ac u Hu). fold sch in Ac.
    pose proof (i_names _ _ _ _ _ I1) as Nm. fold sch in Nm.
    assert (K : forall l, incl l sch -> Forall2 (fun f v => of_type (f_dt f) v) l (row_of l u)).
    { induction l as [|f l IH]; intros Hi; unfold row_of; cbn [map]; constructor; [|apply IH; intros y Hy; apply Hi; now right].
      pose proof (value_for_typed sch u f Nm Ac (Hi f (or_introl eq_refl))) as T.
      destruct (value_for u f); [..|]; destruct (f_dt f); cbn in T; try discriminate T; try (now left); right; eauto. }
    apply K. apply incl_refl.
  - destruct (List.find _ (search_order (t_md t))) as [[l pt]|]; [|discriminate].
    destruct (aget lp_dec (l, p_id pt) (d_parts (t_disk t))) as [pf|]; [|discriminate].
    unfold get_part in G. destruct (find_group (pf_fields pf) (groups pf) key) as [[g|]|]; try discriminate.
    destruct (List.find (row_matches key) g) as [r|]; [|discriminate].
    fold sch in G. destruct (row_out sch (List.length (pf_fields pf)) r 0) as [vs|] eqn:Er; [|discriminate].
    injection G as <-. eapply OUT; exact Er.
Qed.
Print Assumptions C12_types.

(** Two flushed parts with disjoint ranges, a column added later and unflushed rows. *)
Definition lookup_history : list Op :=
  [OInsert (ins 5 "a"); OInsert (ins 3 "b"); OFlush; OInsert (ins 9 "c"); OInsert (ins 7 "d"); OFlush;
   OAddField fW; OInsert (ins 4 "e"); OInsert (ins 4 "f")]%string.
Example C12_witness : exists t acks,
  usable o_log [fK; fV] /\ Forall (wf_op 1 (schema_after [fK; fV] lookup_history)) lookup_history
  /\ restart_safe false false lookup_history
  /\ run stable_lexsort (table_with o_log [fK; fV]) lookup_history = Some (t, acks)
  /\ (forall a b, In a (all_parts (t_md t)) -> In b (all_parts (t_md t)) ->
       in_range (int_key [7%Z]) (snd a) = true -> in_range (int_key [7%Z]) (snd b) = true -> a = b)
  /\ List.length (all_parts (t_md t)) = 2
  /\ get one_group t (int_key [7%Z]) = Ok (Some [VInt64 (Some 7%Z); VString (Some [100%N]); VNull])
  /\ get one_group t (int_key [4%Z]) = Ok (Some [VInt64 (Some 4%Z); VString (Some [102%N]); VNull])
  /\ get one_group t (int_key [8%Z]) = Ok None.
Proof.
  eexists _, _. split; [exact usable_log|]. split; [unfold lookup_history, ins; wf_tac|].
  split; [cbn; tauto|]. split; [vm_compute; reflexivity|].
  split; [|split; [vm_compute; reflexivity|split; [vm_compute; reflexivity|split; vm_compute; reflexivity]]].
  intros a b Ha Hb. vm_compute in Ha, Hb.
  destruct Ha as [<-|[<-|[]]], Hb as [<-|[<-|[]]]; vm_compute; intros; try reflexivity; discriminate.
Qed.

(** The first part whose range contains the key decides, even if it does not hold the
    key: other parts are not opened. *)
Theorem C12_first_range_decides_partial :
  forall groups t key l p pf res,
  mt_get (t_mem t) key = Ok None ->
  List.find (fun lp => in_range key (snd lp)) (search_order (t_md t)) = Some (l, p) ->
  aget lp_dec (l, p_id p) (d_parts (t_disk t)) = Some pf ->
  (forall r, In r (List.concat (groups pf)) -> row_matches key r = false) ->
  get groups t key = Ok res -> res = None.
Proof.
  intros groups t key l p pf res Em Ef Ep HN. unfold get. rewrite Em, Ef, Ep. unfold get_part.
  destruct (find_group (pf_fields pf) (groups pf) key) as [[g|]|] eqn:Eg; [|congruence|discriminate].
  assert (Hg : In g (groups pf)).
  { revert Eg. generalize (groups pf). induction l0 as [|x l0 IH]; cbn; [discriminate|].
    destruct (admits _ x key 0) as [[|]|]; [|intros H; right; now apply IH|discriminate].
    intros H. injection H as ->. now left. }
  destruct (List.find (row_matches key) g) as [r|] eqn:Er; [|congruence].
  apply find_some in Er as [Hr Er]. rewrite HN in Er; [discriminate|]. apply in_concat. eauto.
Qed.
Print Assumptions C12_first_range_decides_partial.

(** So a stored key is missed when a newer part spans it: 5 is stored, a later part holds
    1 and 9. *)
Definition spanned : list Op := [OInsert (ins 5 "a"); OFlush; OInsert (ins 1 "b"); OInsert (ins 9 "c"); OFlush]%string.
Theorem C12_spanned_key_refuted :
  exists t acks, run stable_lexsort (table_with o_log [fK; fV]) spanned = Some (t, acks)
    /\ In (ins 5 "a"%string) acks /\ get one_group t (int_key [5%Z]) = Ok None.
Proof. eexists _, _. split; [vm_compute; reflexivity|]. split; [now left|]. vm_compute. reflexivity. Qed.
Print Assumptions C12_spanned_key_refuted.

(** Flushing changes the answer from the newest row of a key to its oldest. *)
Definition twice : list Op := [OInsert (ins 1 "a"); OInsert (ins 1 "b")]%string.
Theorem C12_oldest_after_flush_refuted :
  exists t acks t' acks', run stable_lexsort (table_with o_log [fK; fV]) twice = Some (t, acks)
    /\ get one_group t (int_key [1%Z]) = Ok (Some [VInt64 (Some 1%Z); VString (Some [98%N])])
    /\ run stable_lexsort (table_with o_log [fK; fV]) (twice ++ [OFlush]) = Some (t', acks')
    /\ get one_group t' (int_key [1%Z]) = Ok (Some [VInt64 (Some 1%Z); VString (Some [97%N])]).
Proof.
  eexists _, _, _, _. split; [vm_compute; reflexivity|]. split; [vm_compute; reflexivity|].
  split; vm_compute; reflexivity.
Qed.
Print Assumptions C12_oldest_after_flush_refuted.

(** A key shorter than the table's (such as the key of a replacing table without its
    version) is never found in a part whose smallest key starts with it. *)
Theorem C12_smallest_prefix_refuted :
  forall groups t key, mt_get (t_mem t) key = Ok None ->
  (forall lp, In lp (all_parts (t_md t)) -> exists k rest, p_min (snd lp) = key ++ k :: rest) ->
  get groups t key = Ok None.
Proof.
  intros groups t key Em H. unfold get. rewrite Em.
  destruct (List.find _ (search_order (t_md t))) as [[l p]|] eqn:E; [|reflexivity].
  apply find_some in E as [Hin Hr]. apply search_order_in in Hin. destruct (H _ Hin) as (k & rest & Ek).
  cbn [snd] in *. unfold in_range in Hr. apply andb_true_iff in Hr as [Hr _]. exfalso. revert Hr. unfold key_le. rewrite Ek.
  assert (G : forall a, lex_cmp kv_cmp (a ++ k :: rest) a = Gt).
  { induction a as [|x a IH]; cbn; [reflexivity|].
    replace (kv_cmp x x) with Eq; [exact IH|]. symmetry. destruct x; cbn; try apply Z.compare_refl.
    apply (tc_refl _ (lex_total _ Ncmp_total)). }
  rewrite G. discriminate.
Qed.
Print Assumptions C12_smallest_prefix_refuted.
Example C12_smallest_prefix_witness : exists t acks,
  run stable_lexsort (table_with o_rep [fK; fT; fW]) [OInsert (insr 1 10); OInsert (insr 2 10); OFlush] = Some (t, acks)
  /\ mt_get (t_mem t) (int_key [1%Z]) = Ok None
  /\ (forall lp, In lp (all_parts (t_md t)) -> exists k rest, p_min (snd lp) = int_key [1%Z] ++ k :: rest)
  /\ In (insr 1 10) acks
  /\ get one_group t (int_key [2%Z]) = Ok (Some [VInt64 (Some 2); VTimestamp (Some 10); VInt64 (Some 10)])%Z.
Proof.
  eexists _, _. split; [vm_compute; reflexivity|]. split; [vm_compute; reflexivity|]. split; [|split].
  - intros lp [<-|[]]. cbn. eexists _, []. reflexivity.
  - now left.
  - vm_compute. reflexivity.
Qed.

(** Looking up a key with a component that is not a 64-bit integer ends the process as
    soon as it falls into a part's range. *)
Theorem C12_other_key_types_refuted :
  forall groups t k ks l p pf g gs,
  mt_get (t_mem t) (k :: ks) = Ok None ->
  (forall z, k <> KInt64 z) ->
  List.find (fun lp => in_range (k :: ks) (snd lp)) (search_order (t_md t)) = Some (l, p) ->
  aget lp_dec (l, p_id p) (d_parts (t_disk t)) = Some pf -> groups pf = g :: gs ->
  get groups t (k :: ks) = Err Panic.
Proof.
  intros groups t k ks l p pf g gs Em Hk Ef Ep Eg. unfold get. rewrite Em, Ef, Ep. unfold get_part. rewrite Eg.
  cbn [find_group admits nth_error]. destruct (pf_fields pf) as [|f fs]; [reflexivity|].
  destruct (i64_array (f_dt f)); [|reflexivity]. destruct k as [| | |z| |]; try reflexivity. exfalso. now apply (Hk z).
Qed.
Print Assumptions C12_other_key_types_refuted.
Definition fTk := mkField "t" DTimestamp false.
Example C12_other_key_types_witness : exists t acks,
  run stable_lexsort (table_with o_log [fTk; fW])
    [OInsert [("t", VTimestamp (Some 1%Z))]; OInsert [("t", VTimestamp (Some 3%Z))]; OFlush]%string = Some (t, acks)
  /\ get one_group t [KTimestamp 1%Z] = Err Panic /\ get one_group t [KTimestamp 4%Z] = Ok None.
Proof. eexists _, _. split; [vm_compute; reflexivity|]. split; vm_compute; reflexivity. Qed.

(** In a compacted part with several row groups only the first one whose per-column
    ranges admit the key is read: the row (2,5) of the second group is missed. *)
Theorem C12_row_group_box_refuted :
  exists pf groups, List.concat (groups pf) = pf_rows pf
    /\ sorted_by cmp_key (firstn 2) (pf_rows pf)
    /\ readable (pf_fields pf) 2 pf
    /\ (exists r, In r (pf_rows pf) /\ has_int_key [2; 5]%Z r)
    /\ get_part groups (pf_fields pf) pf (int_key [2; 5]%Z) = Ok None.
Proof.
  set (row := fun a b : Z => [Some (AInt a); Some (AInt b)]).
  exists (mkPf [fK; fW] [row 1 9; row 2 4; row 2 5; row 3 0])%Z,
         (fun _ => [[row 1 9; row 2 4]; [row 2 5; row 3 0]])%Z.
  split; [reflexivity|]. split.
  { repeat constructor; vm_compute; discriminate. }
  split.
  { constructor; cbn [pf_fields pf_rows].
    - exists []. reflexivity.
    - cbn. lia.
    - intros j f Hj E. destruct j as [|[|j]]; [injection E as <-; reflexivity|injection E as <-; reflexivity|lia].
    - unfold row. repeat (apply Forall_cons; [unfold int_keys; cbn; repeat (constructor; [eexists; reflexivity|]); constructor|]). constructor.
    - unfold row. repeat (apply Forall_cons; [repeat (constructor; [eexists; reflexivity|]); constructor|]). constructor. }
  split; [exists (row 2 5)%Z; split; [cbn; tauto|reflexivity]|]. vm_compute. reflexivity.
Qed.
Print Assumptions C12_row_group_box_refuted.
