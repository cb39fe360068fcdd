(** Facts about point lookups. *)
From Coq Require Import List NArith ZArith Bool String Lia Permutation Sorted.
From Verif Require Import Bytes Value ValueFacts Log LogFacts AMap Order Memtable ListFacts MemtableFacts
  Table TableSpec TableFacts TableHistory TableUse Get.
Import ListNotations.

(** The row starts with the integer key. *)
Definition has_int_key (key : list Z) (r : Row) : Prop :=
  firstn (List.length key) r = map (fun z => Some (AInt z)) key.
Definition int_key (key : list Z) : list KeyValue := map KInt64 key.

Lemma key_cmp_ints a : forall b, lex_cmp kv_cmp (int_key a) (int_key b) = lex_cmp Z.compare a b.
Proof. induction a as [|x a IH]; intros [|y b]; cbn; try reflexivity. fold (int_key a) (int_key b). now rewrite IH. Qed.
Lemma cell_cmp_ints a : forall b,
  lex_cmp cmp_cell (map (fun z => Some (AInt z)) a) (map (fun z => Some (AInt z)) b) = lex_cmp Z.compare a b.
Proof.
  induction a as [|x a IH]; intros [|y b]; cbn; try reflexivity. rewrite IH.
  unfold cmp_cell. cbn. destruct (x ?= y)%Z; reflexivity.
Qed.

Lemma int_keys_list n r : int_keys n r -> n <= List.length r -> exists ks, List.length ks = n /\ firstn n r = map (fun z => Some (AInt z)) ks.
Proof.
  revert r; induction n as [|n IH]; intros r H L; [exists []; auto|].
  destruct r as [|c r]; [cbn in L; lia|]. unfold int_keys in H. cbn in H. inversion H as [|? ? (z & ->) H2]; subst.
  destruct (IH r H2 ltac:(cbn in L; lia)) as (ks & E & F). exists (z :: ks). cbn. rewrite E, F. auto.
Qed.

(** *** Matching rows *)
Lemma row_matches_iff zs : forall r, int_keys (List.length zs) r ->
  row_matches (int_key zs) r = true <-> has_int_key zs r.
Proof.
  unfold has_int_key, int_keys. induction zs as [|z zs IH]; intros r H; cbn; [tauto|].
  destruct r as [|c r]; [split; discriminate|]. cbn in H. inversion H as [|? ? (x & ->) H2]; subst. cbn.
  rewrite andb_true_iff, (IH r H2), Z.eqb_eq. split.
  - intros [-> ->]. reflexivity.
  - intros E. injection E as -> ->. auto.
Qed.

Lemma fold_min_le i rs m : (fold_left (fun m x => Z.min m (raw_i64 (nth i x None))) rs m <= m)%Z
  /\ forall r, In r rs -> (fold_left (fun m x => Z.min m (raw_i64 (nth i x None))) rs m <= raw_i64 (nth i r None))%Z.
Proof.
  revert m; induction rs as [|x rs IH]; intros m; cbn [fold_left]; [split; [lia|intros r []]|].
  destruct (IH (Z.min m (raw_i64 (nth i x None)))) as [A B]. split; [lia|].
  intros r [<-|Hr]; [lia|]. now apply B.
Qed.
Lemma fold_max_ge i rs m : (m <= fold_left (fun m x => Z.max m (raw_i64 (nth i x None))) rs m)%Z
  /\ forall r, In r rs -> (raw_i64 (nth i r None) <= fold_left (fun m x => Z.max m (raw_i64 (nth i x None))) rs m)%Z.
Proof.
  revert m; induction rs as [|x rs IH]; intros m; cbn [fold_left]; [split; [lia|intros r []]|].
  destruct (IH (Z.max m (raw_i64 (nth i x None)))) as [A B]. split; [lia|].
  intros r [<-|Hr]; [lia|]. now apply B.
Qed.
Lemma col_bounds i g r : In r g -> (col_min i g <= raw_i64 (nth i r None) <= col_max i g)%Z.
Proof.
  destruct g as [|r0 g]; [intros []|]. cbn [col_min col_max].
  destruct (fold_min_le i g (raw_i64 (nth i r0 None))) as [A B], (fold_max_ge i g (raw_i64 (nth i r0 None))) as [C D].
  intros [<-|H]; [lia|]. split; auto.
Qed.

(** A box question about integer columns has an answer, and a row group that contains
    the key says yes. *)
Lemma admits_ok fs g zs : forall i, i + List.length zs <= List.length fs ->
  (forall j f, j < i + List.length zs -> nth_error fs j = Some f -> i64_array (f_dt f) = true) ->
  exists b, admits fs g (int_key zs) i = Ok b.
Proof.
  induction zs as [|z zs IH]; intros i L H; cbn [int_key map admits]; [eauto|]. cbn [List.length] in *.
  destruct (nth_error fs i) as [f|] eqn:E; [|apply nth_error_None in E; lia].
  rewrite (H i f ltac:(lia) E). destruct (_ || _)%bool; [eauto|]. apply IH; [lia|]. intros j f' Hj. apply H. lia.
Qed.
Lemma admits_member fs g r zs : forall i, In r g -> i + List.length zs <= List.length fs ->
  (forall j f, j < i + List.length zs -> nth_error fs j = Some f -> i64_array (f_dt f) = true) ->
  firstn (List.length zs) (skipn i r) = map (fun z => Some (AInt z)) zs ->
  admits fs g (int_key zs) i = Ok true.
Proof.
  induction zs as [|z zs IH]; intros i Hr L H E; cbn [int_key map admits]; [reflexivity|]. cbn [List.length] in *.
  destruct (nth_error fs i) as [f|] eqn:Ef; [|apply nth_error_None in Ef; lia].
  rewrite (H i f ltac:(lia) Ef).
  assert (X : nth i r None = Some (AInt z) /\ firstn (List.length zs) (skipn (S i) r) = map (fun z => Some (AInt z)) zs).
  { clear - E. revert r E; induction i as [|i IH]; intros r E.
    - destruct r as [|c r]; cbn in E; [discriminate|]. injection E as -> E. cbn. auto.
    - destruct r as [|c r]; cbn [skipn] in *; [rewrite firstn_nil in E; discriminate|]. cbn [nth]. now apply IH. }
  destruct X as [Ec E']. pose proof (col_bounds i g r Hr) as B. rewrite Ec in B. cbn [raw_i64] in B.
  replace ((z <? col_min i g) || (col_max i g <? z))%Z%bool with false.
  - apply IH; [exact Hr|lia|intros j f' Hj; apply H; lia|exact E'].
  - symmetry. apply orb_false_iff. split; apply Z.ltb_ge; lia.
Qed.

(** *** Output *)
Definition fits (dt : DType) (c : cell) : Prop := exists v, value_of_cell dt c = Some v.
Lemma value_of_cell_content dt c v : value_of_cell dt c = Some v -> content v = c.
Proof.
  destruct c as [[z|b|s]|]; destruct dt; cbn; intros H; try discriminate; injection H as <-; reflexivity.
Qed.
Lemma fits_supplied sch vals f : accepted sch vals -> In f sch -> NoDup (map f_name sch) ->
  fits (f_dt f) (supplied vals (f_name f)).
Proof.
  intros A Hf ND. unfold supplied.
  destruct (List.find (fun nv => String.eqb (f_name f) (fst nv)) vals) as [nv|] eqn:E; [|exists VNull; reflexivity].
  apply find_some in E as [Hin En]. apply String.eqb_eq in En.
  unfold accepted in A. rewrite Forall_forall in A. destruct (A nv Hin) as (g & Hg & Eg & T).
  assert (f = g).
  { clear - Hf Hg ND En Eg. assert (E : f_name f = f_name g) by congruence. clear En Eg.
    induction sch as [|x sch IH]; [contradiction|]. cbn in ND. inversion ND as [|? ? Nx ND']; subst.
    destruct Hf as [->|Hf], Hg as [->|Hg]; auto.
    - exfalso. apply Nx. rewrite E. now apply in_map.
    - exfalso. apply Nx. rewrite <- E. now apply in_map. }
  subst g. destruct (snd nv); try match goal with x : option _ |- _ => destruct x end;
    destruct (f_dt f); cbn in T |- *; try discriminate; eexists; reflexivity.
Qed.

Lemma row_out_spec fs1 : forall fs2 r i w, Forall2 (fun f c => fits (f_dt f) c) fs1 (skipn i r) -> w = i + List.length fs1 ->
  exists vs, row_out (fs1 ++ fs2) w r i = Some vs /\ map content vs = skipn i r ++ repeat None (List.length fs2).
Proof.
  induction fs1 as [|f fs1 IH]; intros fs2 r i w F ->.
  - inversion F as [E|]. rewrite app_nil_l, Nat.add_0_r. clear F E.
    assert (G : forall fs k, i <= k -> exists vs, row_out fs i r k = Some vs /\ map content vs = [] ++ repeat None (List.length fs)).
    { induction fs as [|g fs IHf]; intros k Hk; cbn [row_out]; [exists []; auto|].
      destruct (Nat.ltb_spec k i); [lia|]. destruct (IHf (S k) ltac:(lia)) as (vs & -> & E). exists (VNull :: vs). cbn in *. now rewrite E. }
    apply G. lia.
  - inversion F as [|? c ? r' (v & Ev) F' E1 E2]; subst. cbn [app row_out List.length].
    destruct (Nat.ltb_spec i (i + S (List.length fs1))); [|lia].
    assert (N1 : nth i r None = c /\ skipn (S i) r = r').
    { clear - E2. revert r E2; induction i as [|i IH]; intros r E; destruct r as [|x r]; cbn in *; try discriminate; [injection E as <- <-; auto|now apply IH]. }
    destruct N1 as [-> N2]. rewrite Ev.
    destruct (IH fs2 r (S i) (i + S (List.length fs1))) as (vs & -> & E); [now rewrite N2|lia|].
    exists (v :: vs). split; [reflexivity|]. cbn [map]. rewrite E, (value_of_cell_content _ _ _ Ev), N2. reflexivity.
Qed.

(** *** One part *)
Section Groups.
Variable groups : PartFile -> list (list Row).

(** Every row carries an integer key, every cell fits its column. *)
Record readable (schema : list Field) (ic : nat) (pf : PartFile) : Prop := {
  rd_fields : exists rest, schema = pf_fields pf ++ rest;
  rd_ic : ic <= List.length (pf_fields pf);
  rd_ints : forall j f, j < ic -> nth_error (pf_fields pf) j = Some f -> i64_array (f_dt f) = true;
  rd_keys : Forall (int_keys ic) (pf_rows pf);
  rd_cells : Forall (fun r => Forall2 (fun f c => fits (f_dt f) c) (pf_fields pf) r) (pf_rows pf)
}.

Lemma find_group_spec fs gs key :
  (forall g, In g gs -> exists b, admits fs g key 0 = Ok b) ->
  exists res, find_group fs gs key = Ok res /\
  match res with
  | Some g => exists a b, gs = a ++ g :: b /\ admits fs g key 0 = Ok true /\ Forall (fun x => admits fs x key 0 = Ok false) a
  | None => Forall (fun x => admits fs x key 0 = Ok false) gs
  end.
Proof.
  induction gs as [|g gs IH]; intros H; cbn [find_group]; [exists None; auto|].
  destruct (H g (or_introl eq_refl)) as ([|] & E); rewrite E.
  - exists (Some g). split; [reflexivity|]. exists [], gs. auto.
  - destruct IH as (res & -> & S); [intros; apply H; now right|]. exists res. split; [reflexivity|].
    destruct res as [x|].
    + destruct S as (a & b & -> & A & F). exists (g :: a), b. auto.
    + constructor; auto.
Qed.

Lemma get_part_spec schema ic pf zs :
  readable schema ic pf -> List.concat (groups pf) = pf_rows pf -> List.length zs = ic ->
  (forall a b g h, groups pf = a ++ b -> In g a -> In h b ->
     admits (pf_fields pf) g (int_key zs) 0 = Ok true -> admits (pf_fields pf) h (int_key zs) 0 = Ok true -> False) ->
  exists res, get_part groups schema pf (int_key zs) = Ok res /\
  match res with
  | Some v => exists r, In r (pf_rows pf) /\ has_int_key zs r
                /\ map content v = r ++ repeat None (List.length schema - List.length (pf_fields pf))
  | None => forall r, In r (pf_rows pf) -> ~ has_int_key zs r
  end.
Proof.
  intros R EC Lz U. destruct R as [(rest & Es) Hic Hi Hk Hc]. unfold get_part.
  assert (A : forall g, In g (groups pf) -> exists b, admits (pf_fields pf) g (int_key zs) 0 = Ok b).
  { intros g _. apply admits_ok; cbn; [lia|]. intros j f Hj. apply Hi. lia. }
  assert (M : forall g r, In g (groups pf) -> In r g -> has_int_key zs r -> admits (pf_fields pf) g (int_key zs) 0 = Ok true).
  { intros g r Hg Hr K. apply admits_member with (r := r); cbn; [exact Hr|lia|intros j f Hj; apply Hi; lia|exact K]. }
  assert (Gin : forall g r, In g (groups pf) -> In r g -> In r (pf_rows pf)).
  { intros g r Hg Hr. rewrite <- EC. apply in_concat. eauto. }
  rewrite Forall_forall in Hk, Hc.
  assert (RM : forall r, In r (pf_rows pf) -> row_matches (int_key zs) r = true <-> has_int_key zs r).
  { intros r Hr. apply row_matches_iff. rewrite Lz. now apply Hk. }
  destruct (find_group_spec (pf_fields pf) (groups pf) (int_key zs) A) as (res & -> & S).
  destruct res as [g|].
  - destruct S as (a & b & Eg & Ag & Fa).
    assert (Hg : In g (groups pf)) by (rewrite Eg; apply in_or_app; right; now left).
    destruct (List.find (row_matches (int_key zs)) g) as [r|] eqn:E.
    + apply find_some in E as [Hr Er]. pose proof (Gin g r Hg Hr) as Hr'.
      destruct (row_out_spec (pf_fields pf) rest r 0 (List.length (pf_fields pf))) as (vs & Ev & Ec); [exact (Hc r Hr')|reflexivity|].
      rewrite Es, Ev. exists (Some vs). split; [reflexivity|]. exists r. split; [exact Hr'|]. split; [now apply RM|].
      rewrite Ec. cbn [skipn]. rewrite app_length. f_equal. f_equal. lia.
    + exists None. split; [reflexivity|]. intros r Hr K.
      rewrite <- EC in Hr. apply in_concat in Hr as (h & Hh & Hrh).
      assert (Ah : admits (pf_fields pf) h (int_key zs) 0 = Ok true) by (eapply M; eauto).
      rewrite Eg in Hh. apply in_app_or in Hh as [Hh|[<-|Hh]].
      * rewrite Forall_forall in Fa. rewrite (Fa h Hh) in Ah. discriminate.
      * pose proof (find_none _ _ E r Hrh) as X. rewrite (proj2 (RM r (Gin g r Hg Hrh)) K) in X. discriminate.
      * apply (U (a ++ [g]) b g h); auto; [rewrite Eg, <- app_assoc; reflexivity|apply in_or_app; right; now left].
  - exists None. split; [reflexivity|]. intros r Hr K.
    rewrite <- EC in Hr. apply in_concat in Hr as (h & Hh & Hrh).
    rewrite Forall_forall in S. pose proof (S h Hh) as X. rewrite (M h r Hh Hrh K) in X. discriminate.
Qed.

(** *** All parts *)
Lemma search_order_in md lp : In lp (search_order md) <-> In lp (all_parts md).
Proof.
  unfold search_order, all_parts. rewrite !in_concat. split; intros (x & Hx & Hlp); apply in_map_iff in Hx as ((l, lv) & <- & Hc).
  - exists (map (pair l) (l_parts lv)). split; [apply in_map_iff; exists (l, lv); auto|].
    apply in_map_iff in Hlp as (p & <- & Hp). apply in_map. now apply in_rev.
  - exists (map (pair l) (rev (l_parts lv))). split; [apply in_map_iff; exists (l, lv); auto|].
    apply in_map_iff in Hlp as (p & <- & Hp). apply in_map. now apply -> in_rev.
Qed.

(** A part's entry bounds the keys of the part's rows. *)
Definition bounded (ic : nat) (p : Part) (pf : PartFile) : Prop :=
  forall r ks, In r (pf_rows pf) -> List.length ks = ic -> has_int_key ks r -> in_range (int_key ks) p = true.

Lemma get_spec t ic zs :
  mt_get (t_mem t) (int_key zs) = Ok None -> List.length zs = ic ->
  (forall lp, In lp (all_parts (t_md t)) -> exists pf,
     aget lp_dec (fst lp, p_id (snd lp)) (d_parts (t_disk t)) = Some pf
     /\ readable (md_schema (t_md t)) ic pf /\ bounded ic (snd lp) pf /\ List.concat (groups pf) = pf_rows pf
     /\ (forall a b g h, groups pf = a ++ b -> In g a -> In h b ->
           admits (pf_fields pf) g (int_key zs) 0 = Ok true -> admits (pf_fields pf) h (int_key zs) 0 = Ok true -> False)) ->
  (forall a b, In a (all_parts (t_md t)) -> In b (all_parts (t_md t)) ->
     in_range (int_key zs) (snd a) = true -> in_range (int_key zs) (snd b) = true -> a = b) ->
  exists res, get groups t (int_key zs) = Ok res /\
  match res with
  | Some v => exists lp pf r, In lp (all_parts (t_md t))
                /\ aget lp_dec (fst lp, p_id (snd lp)) (d_parts (t_disk t)) = Some pf
                /\ In r (pf_rows pf) /\ has_int_key zs r
                /\ map content v = r ++ repeat None (List.length (md_schema (t_md t)) - List.length (pf_fields pf))
  | None => forall lp pf r, In lp (all_parts (t_md t)) ->
              aget lp_dec (fst lp, p_id (snd lp)) (d_parts (t_disk t)) = Some pf -> In r (pf_rows pf) -> ~ has_int_key zs r
  end.
Proof.
  intros Em Lz HP U. unfold get. rewrite Em.
  destruct (List.find _ (search_order (t_md t))) as [[l p]|] eqn:E.
  - apply find_some in E as [Hin Hr]. cbn [snd] in Hr. apply search_order_in in Hin.
    destruct (HP _ Hin) as (pf & Epf & R & B & C & G). cbn [fst snd] in Epf. rewrite Epf.
    destruct (get_part_spec (md_schema (t_md t)) ic pf zs R C Lz G) as (res & -> & S).
    exists res. split; [reflexivity|]. destruct res as [v|].
    + destruct S as (r & H1 & H2 & H3). exists (l, p), pf, r. auto.
    + intros lp pf' r Hlp Epf' Hr' K.
      destruct (HP _ Hlp) as (pf2 & Epf2 & _ & B2 & _). assert (pf2 = pf') by congruence. subst pf2.
      assert (X : lp = (l, p)) by (apply U; auto; now apply (B2 r zs)). subst lp. cbn [fst snd] in Epf'.
      assert (pf' = pf) by congruence. subst pf'. exact (S r Hr' K).
  - exists None. split; [reflexivity|]. intros lp pf r Hlp Epf Hr K.
    destruct (HP _ Hlp) as (pf2 & Epf2 & _ & B2 & _). assert (pf2 = pf) by congruence. subst pf2.
    pose proof (find_none _ _ E lp (proj2 (search_order_in _ _) Hlp)) as X. cbv beta in X.
    rewrite (B2 r zs Hr Lz K) in X. discriminate.
Qed.
End Groups.

(** *** Ranges of the parts of a history *)
Definition ranged (md : Metadata) (d : Disk) : Prop :=
  Forall (fun lp => exists pf, aget lp_dec (fst lp, p_id (snd lp)) (d_parts d) = Some pf /\
    chunk_min_max (dts_of (pf_fields pf)) (pf_rows pf) (o_index_cols (md_opts md)) = Some (p_min (snd lp), p_max (snd lp)))
    (all_parts md).

Lemma ranged_keep md d d' :
  (forall lp pf, In lp (all_parts md) -> aget lp_dec (fst lp, p_id (snd lp)) (d_parts d) = Some pf ->
                 aget lp_dec (fst lp, p_id (snd lp)) (d_parts d') = Some pf) ->
  ranged md d -> ranged md d'.
Proof.
  unfold ranged. rewrite !Forall_forall. intros H R lp Hlp. destruct (R lp Hlp) as (pf & E & C). exists pf. auto.
Qed.

Section WithSort.
Variable lexsort : list (list cell) -> list nat.
Hypothesis HS : lexsort_contract lexsort.

Lemma flush_ranged t t' :
  flush_log lexsort t = (t', Ok tt) -> map c_dt (t_mem t) = dts_of (md_schema (t_md t)) ->
  ranged (t_md t) (t_disk t) -> ranged (t_md t') (t_disk t').
Proof.
  unfold flush_log. intros H Em R. destruct (level0_part lexsort (t_md t) (t_mem t)) as [[p pf]|] eqn:L; [|discriminate].
  unfold level0_part in L. destruct (mt_chunk _ _ _ _ _) as [[rows|]|]; try discriminate.
  destruct (chunk_min_max _ _ _) as [[mn mx]|] eqn:C; [|discriminate].
  destruct (md_levels (t_md t)) as [|l0 ls] eqn:El; [discriminate|]. injection L as <- <-.
  cbn [flush_effects apply_effects apply_effect p_id] in H.
  destruct (aget lp_dec (0, l_next l0) (d_parts (t_disk t))) eqn:Fresh; [discriminate|].
  cbn [d_logs d_md d_parts] in H.
  set (md' := md_flushed _ _) in *. set (pf := mkPf (md_schema (t_md t)) rows) in *.
  assert (G : ranged md' (mkDisk (Some md') [] (aset lp_dec (0, l_next l0) pf (d_parts (t_disk t))))).
  { unfold ranged in *. rewrite Forall_forall in *. intros lp Hlp.
    assert (X : lp = (0, mkPart (l_next l0) (List.length rows) mn mx) \/ In lp (all_parts (t_md t))).
    { rewrite (all_parts_cons (t_md t) l0 ls El).
      rewrite (all_parts_cons md' (mkLevel (S (l_next l0)) (l_parts l0 ++ [mkPart (l_next l0) (List.length rows) mn mx])) ls) in Hlp
        by (unfold md', md_flushed; cbn [md_levels]; now rewrite El).
      cbn [l_parts] in Hlp. rewrite map_app in Hlp. cbn [map] in Hlp.
      rewrite in_app_iff, in_app_iff in Hlp. rewrite in_app_iff. cbn [In] in Hlp. intuition. }
    cbn [d_parts]. destruct X as [->|X].
    - exists pf. cbn [fst snd p_id p_min p_max]. rewrite aget_aset_eq. split; [reflexivity|].
      unfold pf, md', md_flushed. cbn [pf_fields pf_rows md_opts]. rewrite <- Em. exact C.
    - destruct (R lp X) as (pf0 & E0 & C0). exists pf0. split; [|exact C0].
      rewrite aget_aset_ne; [exact E0|]. intros Ek. rewrite Ek in E0. congruence. }
  destruct (aget N.eq_dec _ (d_logs (t_disk t))); cbn [d_logs d_md d_parts] in H; [|discriminate].
  destruct (aget N.eq_dec _ (adel _ _ _)); cbn [d_logs d_md d_parts] in H; [discriminate|].
  injection H as <-. cbn [t_md t_disk]. exact G.
Qed.

Lemma inv_cdts o t mvals p d : Inv o t mvals p d -> map c_dt (t_mem t) = dts_of (md_schema (t_md t)).
Proof. intros I. rewrite (i_mem _ _ _ _ _ I). apply cols_of_dts. Qed.

(** A flush through the invariant. *)
Lemma flush_log_any o t mvals p d :
  Inv o t mvals p d -> usable o (md_schema (t_md t)) -> mvals <> [] -> ranged (t_md t) (t_disk t) ->
  exists t', flush_log lexsort t = (t', Ok tt) /\ Inv o t' [] false false
    /\ md_schema (t_md t') = md_schema (t_md t) /\ ranged (t_md t') (t_disk t').
Proof.
  intros I U Hne R. destruct (flush_any lexsort HS _ _ _ _ _ I U) as (t' & Ef & I' & Es & _).
  unfold flush in Ef. rewrite (inv_mem_len _ _ _ _ _ I) in Ef.
  destruct (Nat.eqb_spec (List.length mvals) 0) as [E0|_]; [destruct mvals; [congruence|discriminate]|].
  exists t'. split; [exact Ef|]. split; [exact I'|]. split; [exact Es|].
  eapply flush_ranged; [exact Ef|eapply inv_cdts; exact I|exact R].
Qed.

(** Along a history: every part's entry carries the keys of its first and last row, and
    the unflushed rows are the latest acknowledged ones. *)
Lemma run_lookup o ops : forall t mvals p d pre,
  Inv o t mvals p d -> usable o (md_schema (t_md t)) -> ranged (t_md t) (t_disk t) ->
  Forall (wf_op (o_index_cols o) (schema_after (md_schema (t_md t)) ops)) ops ->
  restart_safe p d ops ->
  exists t' new mvals' p' d' pre', run lexsort t ops = Some (t', new)
    /\ Inv o t' mvals' p' d' /\ ranged (t_md t') (t_disk t') /\ (pre ++ mvals) ++ new = pre' ++ mvals'.
Proof.
  induction ops as [|op ops IH]; intros t mvals p d pre I U R W RS.
  - exists t, [], mvals, p, d, pre. rewrite app_nil_r. auto.
  - inversion W as [|? ? W1 W2]; subst.
    assert (Hfin : exists r, schema_after (md_schema (t_md t)) (op :: ops) = md_schema (t_md t) ++ r) by apply schema_after_prefix.
    destruct Hfin as (rest & Efin). pose proof U as (ND & Hic & _).
    destruct op as [vals| |f| |]; cbn [run step].
    + cbn [wf_op] in W1. rewrite Efin in W1. destruct W1 as [K L].
      rewrite firstn_prefix in K by lia.
      assert (HL : forall pk, key_values (o_index_cols o) vals = Some pk ->
        loggable (Insert pk (final_values (md_schema (t_md t)) (o_index_cols o) vals))).
      { intros pk KV. specialize (L (List.length (md_schema (t_md t))) pk KV).
        rewrite firstn_prefix, firstn_all in L by lia. exact L. }
      cbn [restart_safe] in RS.
      assert (Rej : forall e, insert lexsort t vals = (t, Err e) ->
        exists t' new mvals' p' d' pre', run lexsort t (OInsert vals :: ops) = Some (t', new)
          /\ Inv o t' mvals' p' d' /\ ranged (t_md t') (t_disk t') /\ (pre ++ mvals) ++ new = pre' ++ mvals').
      { intros e E. cbn [run step]. rewrite E.
        assert (I2 : Inv o t mvals true d) by (eapply inv_weaken; eauto; discriminate).
        destruct (IH t mvals true d pre I2 U R W2 RS) as (t' & new & mv' & p' & d' & pre' & Rn & I' & R' & E').
        rewrite Rn. exists t', new, mv', p', d', pre'. auto. }
      change (exists t' new mvals' p' d' pre', run lexsort t (OInsert vals :: ops) = Some (t', new)
          /\ Inv o t' mvals' p' d' /\ ranged (t_md t') (t_disk t') /\ (pre ++ mvals) ++ new = pre' ++ mvals').
      destruct (check_values (md_schema (t_md t)) vals) as [[]|e] eqn:CV.
      2:{ exact (Rej e (insert_rejected lexsort _ _ _ CV)). }
      destruct (key_values (o_index_cols o) vals) as [pk|] eqn:KV.
      2:{ rewrite <- (i_opts _ _ _ _ _ I) in KV. exact (Rej Panic (insert_bad_key lexsort _ _ CV KV)). }
      specialize (HL pk eq_refl). cbn [run step].
      rewrite (insert_unfold lexsort _ _ _ _ _ _ _ I K CV KV HL).
      destruct (insert_state_inv _ _ _ _ _ _ _ I K CV KV HL) as [EP I1].
      set (t1 := insert_state _ _ _ _) in *.
      assert (R1 : ranged (t_md t1) (t_disk t1)).
      { unfold t1, insert_state. cbn [t_md t_disk]. eapply ranged_keep; [|exact R]. intros lp pf _. unfold append_log.
        destruct (aget N.eq_dec _ _); auto. }
      destruct (o_max_log o <? t_logged t1)%N.
      * destruct (flush_log_any _ _ _ _ _ I1 U) as (t2 & Ef & I2 & Es & R2); [destruct mvals; discriminate|exact R1|].
        rewrite Ef. assert (I3 : Inv o t2 [] true d) by (eapply inv_weaken; eauto; discriminate).
        change (md_schema (t_md t1)) with (md_schema (t_md t)) in Es.
        destruct (IH t2 [] true d (pre ++ mvals ++ [vals]) I3) as (t' & new & mv' & p' & d' & pre' & Rn & I' & R' & E').
        -- now rewrite Es.
        -- exact R2.
        -- rewrite Es. exact W2.
        -- exact RS.
        -- rewrite Rn. exists t', (vals :: new), mv', p', d', pre'. split; [reflexivity|]. split; [exact I'|]. split; [exact R'|].
           rewrite <- E'. rewrite app_nil_r, <- !app_assoc. reflexivity.
      * destruct (IH t1 (mvals ++ [vals]) true d pre I1 U R1 W2 RS) as (t' & new & mv' & p' & d' & pre' & Rn & I' & R' & E').
        rewrite Rn. exists t', (vals :: new), mv', p', d', pre'. split; [reflexivity|]. split; [exact I'|]. split; [exact R'|].
        rewrite <- E'. rewrite <- !app_assoc. reflexivity.
    + cbn [restart_safe] in RS. unfold flush. rewrite (inv_mem_len _ _ _ _ _ I).
      destruct (Nat.eqb_spec (List.length mvals) 0) as [E0|N0].
      * destruct mvals; [|discriminate].
        assert (I0 : Inv o t [] false false).
        { destruct I. constructor; auto.
          destruct i_log as [E (ops0 & L0 & F0 & G0)]. split; [exact E|]. exists ops0. split; [exact L0|].
          split; [exact F0|]. inversion G0. constructor. }
        destruct (IH t [] false false pre I0 U R W2 RS) as (t' & new & mv' & p' & d' & pre' & Rn & I' & R' & E').
        rewrite Rn. exists t', new, mv', p', d', pre'. auto.
      * destruct (flush_log_any _ _ _ _ _ I U) as (t2 & Ef & I2 & Es & R2); [intros ->; contradiction|exact R|]. rewrite Ef.
        destruct (IH t2 [] false false (pre ++ mvals) I2) as (t' & new & mv' & p' & d' & pre' & Rn & I' & R' & E').
        -- now rewrite Es.
        -- exact R2.
        -- rewrite Es. exact W2.
        -- exact RS.
        -- rewrite Rn. exists t', new, mv', p', d', pre'. rewrite app_nil_r in E'. auto.
    + cbn [restart_safe] in RS. destruct (add_field t f) as [t1 res] eqn:E1.
      change (schema_after (md_schema (t_md t)) (OAddField f :: ops))
        with (schema_after (add_new (md_schema (t_md t)) f) ops) in *.
      destruct (add_field_inv _ _ _ _ _ _ _ _ I E1) as [(-> & -> & Hin)|(-> & I1 & S1 & Nin & El & Ep)].
      * assert (E2 : add_new (md_schema (t_md t)) f = md_schema (t_md t)).
        { unfold add_new. replace (existsb _ _) with true; [reflexivity|]. symmetry.
          apply existsb_exists. apply in_map_iff in Hin as (g & Eg & Hg). exists g. split; [exact Hg|]. now apply String.eqb_eq. }
        rewrite E2 in *.
        assert (I2 : Inv o t mvals p (p || d)) by (eapply inv_weaken; [exact I|auto|destruct p, d; cbn; auto]).
        destruct (IH t mvals p (p || d) pre I2 U R W2 RS) as (t' & new & mv' & p' & d' & pre' & Rn & I' & R' & E').
        rewrite Rn. exists t', new, mv', p', d', pre'. auto.
      * assert (E2 : add_new (md_schema (t_md t)) f = md_schema (t_md t1)).
        { unfold add_new. rewrite S1. replace (existsb _ _) with false; [reflexivity|]. symmetry.
          apply not_true_is_false. intros X. apply existsb_exists in X as (g & Hg & Eg). apply Nin.
          apply String.eqb_eq in Eg. rewrite <- Eg. now apply in_map. }
        rewrite E2 in *.
        assert (R1 : ranged (t_md t1) (t_disk t1)).
        { unfold ranged, all_parts in *. rewrite El, Ep.
          rewrite (i_opts _ _ _ _ _ I1), <- (i_opts _ _ _ _ _ I). exact R. }
        destruct (IH t1 mvals p (p || d) pre I1) as (t' & new & mv' & p' & d' & pre' & Rn & I' & R' & E').
        -- rewrite S1. apply usable_app; [exact U|]. rewrite <- S1. exact (i_names _ _ _ _ _ I1).
        -- exact R1.
        -- exact W2.
        -- exact RS.
        -- rewrite Rn. exists t', new, mv', p', d', pre'. auto.
    + cbn [restart_safe] in RS. destruct (gc_inv _ _ _ _ _ I) as (I1 & Emd & _ & Ek).
      destruct (IH (gc t) mvals p d pre I1) as (t' & new & mv' & p' & d' & pre' & Rn & I' & R' & E').
      * now rewrite Emd.
      * rewrite Emd. eapply ranged_keep; [|exact R]. intros lp pf Hlp. now rewrite Ek.
      * rewrite Emd. exact W2.
      * exact RS.
      * rewrite Rn. exists t', new, mv', p', d', pre'. auto.
    + cbn [restart_safe] in RS. destruct RS as [-> RS].
      destruct (reopen_inv _ _ _ _ I) as (t1 & E1 & I1 & Emd & Edisk & Emem). rewrite E1.
      destruct (IH t1 mvals p false pre I1) as (t' & new & mv' & p' & d' & pre' & Rn & I' & R' & E').
      * now rewrite Emd.
      * now rewrite Emd, Edisk.
      * rewrite Emd. exact W2.
      * exact RS.
      * rewrite Rn. exists t', new, mv', p', d', pre'. auto.
Qed.
End WithSort.
