(** Histories of a table: the contents seen by a scan are the acknowledged inserts. *)
From Coq Require Import List NArith ZArith Lia Bool Permutation Sorted String.
From Verif Require Import Bytes BytesFacts Value ValueFacts Log LogFacts AMap Order
  Memtable ListFacts MemtableFacts MemtableProject Table TableSpec TableFacts.
Import ListNotations.

(** *** Scan results *)
Lemma field_pos_some fs n i : field_pos fs n = Some i -> exists f, nth_error fs i = Some f /\ f_name f = n.
Proof.
  revert i; induction fs as [|f fs IH]; intros i H; [discriminate|]. cbn in H.
  destruct (String.eqb_spec (f_name f) n) as [E|E].
  - injection H as <-. exists f. auto.
  - destruct (field_pos fs n) as [j|] eqn:F; [|discriminate]. injection H as <-. cbn. now apply IH.
Qed.
Lemma field_pos_none fs n : field_pos fs n = None -> forall f, In f fs -> f_name f <> n.
Proof.
  induction fs as [|f fs IH]; intros H g Hg; [contradiction|]. cbn in H.
  destruct (String.eqb_spec (f_name f) n) as [E|E]; [discriminate|].
  destruct (field_pos fs n) eqn:F; [discriminate|]. destruct Hg as [<-|Hg]; auto.
Qed.
Lemma supplied_unnamed fs vals n : accepted fs vals -> (forall f, In f fs -> f_name f <> n) -> supplied vals n = None.
Proof.
  intros A H. unfold supplied. destruct (List.find _ vals) as [nv|] eqn:F; [|reflexivity].
  apply find_some in F as [F E]. apply String.eqb_eq in E. subst n.
  unfold accepted in A. rewrite Forall_forall in A. destruct (A nv F) as (g & Hg & Eg & _).
  exfalso. exact (H g Hg Eg).
Qed.
Lemma view_acked sch pf vals : accepted (pf_fields pf) vals ->
  view_row sch pf (acked_row (pf_fields pf) vals) = acked_row sch vals.
Proof.
  intros A. unfold view_row, acked_row at 2. apply map_ext. intros f.
  destruct (field_pos (pf_fields pf) (f_name f)) as [i|] eqn:P.
  - apply field_pos_some in P as (g & Hg & Eg). unfold acked_row.
    erewrite nth_error_nth by (apply map_nth_error; exact Hg). now rewrite Eg.
  - symmetry. eapply supplied_unnamed; [exact A|]. now apply field_pos_none.
Qed.

(** Key cells of acknowledged rows are integers. *)
Definition int_cell (c : cell) : Prop := exists z, c = Some (AInt z).
Definition int_keys (ic : nat) (r : Row) : Prop := Forall int_cell (firstn ic r).

Definition part_has (ic : nat) (d : Disk) (lp : nat * Part) (pv : list (list NamedValue)) : Prop :=
  exists pf, aget lp_dec (fst lp, p_id (snd lp)) (d_parts d) = Some pf
    /\ Forall (accepted (pf_fields pf)) pv
    /\ Permutation (pf_rows pf) (map (acked_row (pf_fields pf)) pv)
    /\ ic <= List.length (pf_fields pf)
    /\ Forall (int_keys ic) (pf_rows pf) /\ sorted_by cmp_key (firstn ic) (pf_rows pf).

Definition Acks (ic : nat) (t : Table) (acks mvals : list (list NamedValue)) : Prop :=
  exists pvals, Forall2 (part_has ic (t_disk t)) (all_parts (t_md t)) pvals
    /\ Permutation acks (List.concat pvals ++ mvals)
    /\ Forall (fun v => int_keys ic (acked_row (md_schema (t_md t)) v)) mvals.

Lemma seqR_Forall2 {A B} (f : A -> result fault B) (P : A -> B -> Prop) l :
  (forall a, In a l -> exists b, f a = Ok b /\ P a b) ->
  exists bs, seqR (map f l) = Ok bs /\ Forall2 P l bs.
Proof.
  induction l as [|a l IH]; intros H; cbn; [eauto|].
  destruct (H a (or_introl eq_refl)) as (b & -> & Pb).
  destruct IH as (bs & -> & Pbs); [intros; apply H; now right|]. eauto.
Qed.

Lemma select_all {A} (l : list A) : select_from 0 l (seq 0 (List.length l)) = l.
Proof.
  assert (G : forall (l : list A) i k, i + List.length l <= k -> select_from i l (seq 0 k) = l).
  { clear. induction l as [|x l IH]; intros i k H; cbn in *; [reflexivity|].
    assert (E : existsb (Nat.eqb i) (seq 0 k) = true).
    { apply existsb_exists. exists i. split; [apply in_seq; lia|apply Nat.eqb_refl]. }
    rewrite E. f_equal. apply IH. lia. }
  apply G. lia.
Qed.
Lemma chunk_full_projection lexsort m n ic repl :
  n = List.length m -> mt_chunk lexsort m (Some (seq 0 n)) ic repl = mt_chunk lexsort m None ic repl.
Proof. intros ->. unfold mt_chunk. cbn [project]. now rewrite select_all. Qed.

Lemma inv_mem_length o t mvals p d : Inv o t mvals p d -> List.length (t_mem t) = List.length (md_schema (t_md t)).
Proof. intros I. rewrite (i_mem _ _ _ _ _ I), cols_of_length. apply map_length. Qed.

Section WithSort.
Variable lexsort : list (list cell) -> list nat.
Hypothesis HS : lexsort_contract lexsort.

Lemma inv_mem_empty o t p d : Inv o t [] p d -> mt_len (t_mem t) = 0.
Proof.
  intros I. rewrite (i_mem _ _ _ _ _ I). cbn [map]. unfold cols_of. destruct (dts_of (md_schema (t_md t))); reflexivity.
Qed.
Lemma inv_mem_len o t mvals p d : Inv o t mvals p d -> mt_len (t_mem t) = List.length mvals.
Proof.
  intros I. destruct mvals as [|v mvals]; [cbn; eapply inv_mem_empty; exact I|].
  pose proof (i_wide _ _ _ _ _ I ltac:(discriminate)) as W. pose proof (i_ic _ _ _ _ _ I) as Z.
  rewrite (i_mem _ _ _ _ _ I), mt_len_cols_of; [apply map_length|].
  destruct (md_schema (t_md t)); cbn in *; [lia|discriminate].
Qed.

Lemma scan_acks o t mvals p d acks :
  Inv o t mvals p d -> Acks (o_index_cols o) t acks mvals -> o_replacing o = false ->
  exists ss, scan_streams lexsort t = Ok ss
    /\ Permutation (List.concat ss) (map (acked_row (md_schema (t_md t))) acks).
Proof.
  intros I (pvals & F2 & P & _) Hr. set (sch := md_schema (t_md t)).
  assert (EP : exists ps, seqR (map (fun lp => part_rows t (fst lp) (snd lp)) (all_parts (t_md t))) = Ok ps
                /\ Permutation (List.concat ps) (map (acked_row sch) (List.concat pvals))).
  { clear P. induction F2 as [|lp pv lps pvals H _ IH]; [exists []; split; [reflexivity|constructor]|].
    destruct IH as (ps & E & Pm). destruct H as (pf & G & A & Pp & _).
    exists (map (view_row sch pf) (pf_rows pf) :: ps). cbn [map seqR]. unfold part_rows at 1. rewrite G.
    fold sch. rewrite E. split; [reflexivity|]. cbn [List.concat]. rewrite map_app. apply Permutation_app; [|exact Pm].
    rewrite (Permutation_map (view_row sch pf) Pp). rewrite map_map.
    erewrite map_ext_in; [reflexivity|]. intros v Hv. cbv beta. apply view_acked.
    rewrite Forall_forall in A. auto. }
  destruct EP as (ps & Eps & Pps).
  unfold scan_streams. rewrite (i_opts _ _ _ _ _ I), Hr.
  rewrite chunk_full_projection by (symmetry; eapply inv_mem_length; exact I).
  destruct mvals as [|v0 mv] eqn:Emv.
  - unfold mt_chunk. rewrite (inv_mem_empty _ _ _ _ I). cbn [Nat.eqb]. rewrite Eps, app_nil_r.
    exists ps. split; [reflexivity|]. rewrite Pps. apply Permutation_map. rewrite app_nil_r in P. now symmetry.
  - rewrite <- Emv in *. assert (Hne : mvals <> []) by (rewrite Emv; discriminate).
    destruct (inv_chunk_props lexsort HS _ _ _ _ _ I Hne (i_wide _ _ _ _ _ I Hne)) as (rows & EC & PC & _ & _).
    rewrite EC, Eps. eexists. split; [reflexivity|]. rewrite concat_app. cbn [List.concat]. rewrite app_nil_r.
    transitivity (map (acked_row sch) (List.concat pvals ++ mvals)).
    + rewrite map_app. apply Permutation_app; assumption.
    + apply Permutation_map. now symmetry.
Qed.

(** *** Steps *)
Lemma int_value_content dt k :
  int_dt dt = true -> type_ok (value_of_key k) dt = true -> int_cell (content (value_of_key k)).
Proof. destruct dt, k; cbn; try discriminate; intros _ _; eexists; reflexivity. Qed.

Lemma acked_int_keys ic sch vals pk :
  NoDup (map f_name sch) -> Forall (fun x => int_dt x = true) (firstn ic (dts_of sch)) ->
  keys_first ic sch vals -> accepted sch vals -> key_values ic vals = Some pk ->
  int_keys ic (acked_row sch vals).
Proof.
  intros ND F KF A KV. destruct (insert_row _ _ _ _ ND KF KV) as (ER & Lpk & Lic).
  unfold int_keys. apply Forall_forall. intros c Hc. apply In_nth_error in Hc as (i & Hi).
  assert (Hlt : i < ic).
  { assert (i < List.length (firstn ic (acked_row sch vals))) by (apply nth_error_Some; congruence).
    rewrite firstn_length in *. lia. }
  assert (Es : exists f, nth_error sch i = Some f).
  { destruct (nth_error sch i) eqn:E; [eauto|]. apply nth_error_None in E. lia. }
  destruct Es as (f & Ef).
  assert (Ec : c = content (value_for vals f)).
  { rewrite content_value_for. unfold acked_row in Hi. rewrite firstn_map in Hi.
    assert (nth_error (firstn ic sch) i = Some f) as G.
    { rewrite <- (firstn_skipn ic sch) in Ef. rewrite nth_error_app1 in Ef; [exact Ef|]. rewrite firstn_length. lia. }
    rewrite (map_nth_error _ _ _ G) in Hi. congruence. }
  assert (Ek : exists k, nth_error pk i = Some k).
  { destruct (nth_error pk i) eqn:E; [eauto|]. apply nth_error_None in E. lia. }
  destruct Ek as (k & Ek).
  assert (Ev : value_for vals f = value_of_key k).
  { assert (nth_error (map (value_for vals) sch) i = Some (value_for vals f)) by now apply map_nth_error.
    rewrite <- ER, nth_error_app1 in H by (rewrite map_length; lia).
    rewrite (map_nth_error _ _ _ Ek) in H. congruence. }
  assert (Hf : In f sch) by (eapply nth_error_In; exact Ef).
  assert (Hdt : int_dt (f_dt f) = true).
  { rewrite Forall_forall in F. apply F. unfold dts_of. rewrite firstn_map. apply in_map.
    rewrite <- (firstn_skipn ic sch) in Ef. rewrite nth_error_app1 in Ef by (rewrite firstn_length; lia).
    eapply nth_error_In; exact Ef. }
  subst c. rewrite Ev. apply (int_value_content (f_dt f)); [exact Hdt|].
  assert (Hv : exists nv, In nv vals /\ fst nv = f_name f /\ snd nv = value_for vals f).
  { revert Ev. unfold value_for. destruct (List.find _ vals) as [nv|] eqn:E.
    - intros _. apply find_some in E as [E1 E2]. apply String.eqb_eq in E2. eauto.
    - destruct k; discriminate. }
  destruct Hv as (nv & Hnv & En & Esnd). unfold accepted in A. rewrite Forall_forall in A.
  destruct (A nv Hnv) as (g & Hg & Eg & T).
  assert (g = f) as ->.
  { clear - ND Hf Hg Eg En. induction sch as [|h sch IH]; [contradiction|].
    cbn in ND. inversion ND as [|? ? N ND']; subst.
    destruct Hf as [->|Hf], Hg as [->|Hg]; auto.
    - exfalso. apply N. rewrite <- En, <- Eg. now apply in_map.
    - exfalso. apply N. rewrite Eg, En. now apply in_map. }
  rewrite <- Ev, <- Esnd. exact T.
Qed.

Lemma firstn_prefix {A} (a b : list A) n : n <= List.length a -> firstn n (a ++ b) = firstn n a.
Proof. intros H. rewrite firstn_app. replace (n - List.length a) with 0 by lia. cbn. apply app_nil_r. Qed.
Lemma part_has_disk ic d d' lp pv :
  (forall pf, aget lp_dec (fst lp, p_id (snd lp)) (d_parts d) = Some pf ->
              aget lp_dec (fst lp, p_id (snd lp)) (d_parts d') = Some pf) ->
  part_has ic d lp pv -> part_has ic d' lp pv.
Proof. intros H (pf & A & B & C & D). exists pf. split; [auto|]. split; [exact B|]. split; [exact C|exact D]. Qed.

Lemma flush_acks o t mvals p d acks :
  Inv o t mvals p d -> Acks (o_index_cols o) t acks mvals -> o_replacing o = false -> mvals <> [] ->
  o_index_cols o <= List.length (md_schema (t_md t)) ->
  Forall (fun x => int_dt x = true) (firstn (o_index_cols o) (dts_of (md_schema (t_md t)))) ->
  exists t', flush_log lexsort t = (t', Ok tt) /\ Inv o t' [] false false /\ Acks (o_index_cols o) t' acks []
    /\ md_schema (t_md t') = md_schema (t_md t).
Proof.
  intros I (pvals & F2 & P & K) Hr Hne Hic F.
  destruct (inv_chunk_props lexsort HS _ _ _ _ _ I Hne Hic) as (rows & EC & PC & Hrows & Hw).
  rewrite <- Hr in EC.
  destruct (flush_log_ok lexsort _ _ _ _ _ _ I Hic F EC Hrows Hw)
    as (t' & pt & A & B & Ef & I' & Es & EA & EA' & Fresh & Ed).
  exists t'. split; [exact Ef|]. split; [exact I'|]. split; [|exact Es].
  rewrite EA in F2. apply Forall2_app_inv_l in F2 as (pa & pb & FA & FB & ->).
  assert (Old : forall lp pv, part_has (o_index_cols o) (t_disk t) lp pv -> part_has (o_index_cols o) (t_disk t') lp pv).
  { intros lp pv. apply part_has_disk. intros pf Hpf. rewrite Ed, aget_aset_ne; [exact Hpf|].
    intros C. rewrite C in Hpf. congruence. }
  exists (pa ++ [mvals] ++ pb). split.
  - rewrite EA'. apply Forall2_app; [eapply Forall2_impl_; [|exact FA]; auto|].
    constructor; [|eapply Forall2_impl_; [|exact FB]; auto].
    exists (mkPf (md_schema (t_md t)) rows). cbn [fst snd pf_fields pf_rows].
    split; [rewrite Ed; apply aget_aset_eq|]. split; [exact (i_acc _ _ _ _ _ I)|]. split; [exact PC|].
    split; [exact Hic|]. split.
    + rewrite PC. rewrite Forall_map. exact K.
    + rewrite Hr in EC. eapply inv_chunk_sorted; [exact HS|exact I|exact Hne|exact Hic|exact EC].
  - split; [|constructor]. rewrite P, app_nil_r, !concat_app. cbn [List.concat]. rewrite app_nil_r, <- !app_assoc.
    apply Permutation_app_head. apply Permutation_app_comm.
Qed.

Lemma insert_acks o t mvals p d acks vals :
  Inv o t mvals p d -> Acks (o_index_cols o) t acks mvals -> o_replacing o = false ->
  o_index_cols o <= List.length (md_schema (t_md t)) ->
  Forall (fun x => int_dt x = true) (firstn (o_index_cols o) (dts_of (md_schema (t_md t)))) ->
  keys_first (o_index_cols o) (md_schema (t_md t)) vals ->
  (forall pk, key_values (o_index_cols o) vals = Some pk ->
     loggable (Insert pk (final_values (md_schema (t_md t)) (o_index_cols o) vals))) ->
  exists t' res mvals', insert lexsort t vals = (t', res) /\ Inv o t' mvals' true d
    /\ Acks (o_index_cols o) t' (match res with Ok _ => acks ++ [vals] | Err _ => acks end) mvals'
    /\ md_schema (t_md t') = md_schema (t_md t).
Proof.
  intros I HA Hr Hic F KF HL.
  destruct (check_values (md_schema (t_md t)) vals) as [[]|e] eqn:CV.
  2:{ rewrite (insert_rejected lexsort _ _ _ CV). exists t, (Err e), mvals. split; [reflexivity|].
      split; [eapply inv_weaken; eauto; discriminate|]. auto. }
  destruct (key_values (o_index_cols o) vals) as [pk|] eqn:KV.
  2:{ rewrite <- (i_opts _ _ _ _ _ I) in KV. rewrite (insert_bad_key lexsort _ _ CV KV).
      exists t, (Err Panic), mvals. split; [reflexivity|].
      split; [eapply inv_weaken; eauto; discriminate|]. auto. }
  specialize (HL pk eq_refl).
  rewrite (insert_unfold lexsort _ _ _ _ _ _ _ I KF CV KV HL).
  destruct (insert_state_inv _ _ _ _ _ _ _ I KF CV KV HL) as [EP I1].
  set (t1 := insert_state _ _ _ _) in *.
  assert (A1 : Acks (o_index_cols o) t1 (acks ++ [vals]) (mvals ++ [vals])).
  { destruct HA as (pvals & F2 & P & K). exists pvals. split; [|split].
    - unfold t1, insert_state. cbn [t_md t_disk]. eapply Forall2_impl_; [|exact F2].
      intros lp pv. apply part_has_disk. intros pf. unfold append_log.
      destruct (aget N.eq_dec _ _); auto.
    - rewrite P, app_assoc. reflexivity.
    - unfold t1, insert_state. cbn [t_md]. apply Forall_app. split; [exact K|]. constructor; [|constructor].
      eapply acked_int_keys; [exact (i_names _ _ _ _ _ I)|exact F|exact KF|now apply check_values_accepted|exact KV]. }
  destruct (o_max_log o <? t_logged t1)%N.
  - destruct (flush_acks _ _ _ _ _ _ I1 A1 Hr) as (t' & Ef & I' & A' & Es); [destruct mvals; discriminate|exact Hic|exact F|].
    exists t', (Ok tt), []. split; [exact Ef|]. split; [eapply inv_weaken; eauto; discriminate|]. split; [exact A'|].
    rewrite Es. reflexivity.
  - exists t1, (Ok tt), (mvals ++ [vals]). auto.
Qed.

Lemma schema_after_prefix ops : forall fs, exists r, schema_after fs ops = fs ++ r.
Proof.
  induction ops as [|o ops IH]; intros fs; [exists []; now rewrite app_nil_r|].
  destruct o as [vals| |f| |]; try apply IH.
  change (schema_after fs (OAddField f :: ops)) with (schema_after (add_new fs f) ops).
  unfold add_new. destruct (existsb _ fs); [apply IH|].
  destruct (IH (fs ++ [f])) as [r E]. exists ([f] ++ r). rewrite E. now rewrite <- app_assoc.
Qed.

Lemma run_acks_rest o ops : o_replacing o = false ->
  forall t mvals p d acks,
  Inv o t mvals p d -> Acks (o_index_cols o) t acks mvals ->
  o_index_cols o <= List.length (md_schema (t_md t)) ->
  Forall (fun x => int_dt x = true) (firstn (o_index_cols o) (dts_of (md_schema (t_md t)))) ->
  Forall (wf_op (o_index_cols o) (schema_after (md_schema (t_md t)) ops)) ops ->
  restart_safe p d ops ->
  exists t' new mvals' p' d', run lexsort t ops = Some (t', new)
    /\ Inv o t' mvals' p' d' /\ Acks (o_index_cols o) t' (acks ++ new) mvals'
    /\ md_schema (t_md t') = schema_after (md_schema (t_md t)) ops
    /\ (forall rest, restart_safe p d (ops ++ rest) -> restart_safe p' d' rest).
Proof.
  intros Hr. induction ops as [|op ops IH]; intros t mvals p d acks I A Hic F W RS.
  - exists t, [], mvals, p, d. rewrite app_nil_r. cbn [app restart_safe]. split; [reflexivity|]. split; [exact I|].
    split; [exact A|]. split; [reflexivity|tauto].
  - inversion W as [|? ? W1 W2]; subst.
    assert (Hfin : exists r, schema_after (md_schema (t_md t)) (op :: ops) = md_schema (t_md t) ++ r) by apply schema_after_prefix.
    destruct Hfin as (rest & Efin).
    destruct op as [vals| |f| |]; cbn [run step].
    + (* insert *)
      cbn [wf_op] in W1. rewrite Efin in W1. destruct W1 as [K L].
      rewrite firstn_prefix in K by exact Hic.
      destruct (insert_acks _ _ _ _ _ _ _ I A Hr Hic F K) as (t1 & res & mv1 & E1 & I1 & A1 & S1).
      { intros pk KV. specialize (L (List.length (md_schema (t_md t))) pk KV).
        rewrite firstn_prefix, firstn_all in L by lia. exact L. }
      rewrite E1. cbn [restart_safe] in RS.
      destruct (IH t1 mv1 true d _ I1 A1) as (t' & new & mv' & p' & d' & R & I' & A' & S' & D').
      * now rewrite S1.
      * now rewrite S1.
      * rewrite S1. exact W2.
      * exact RS.
      * rewrite R. rewrite S1 in S'. destruct res as [[]|e]; eexists t', _, mv', p', d'; (split; [reflexivity|]);
          (split; [exact I'|]); (split; [|split; [exact S'|exact D']]).
        -- rewrite <- app_assoc in A'. exact A'.
        -- exact A'.
    + (* flush *)
      cbn [restart_safe] in RS. unfold flush. rewrite (inv_mem_len _ _ _ _ _ I).
      destruct mvals as [|v0 mv] eqn:Emv.
      * cbn [List.length Nat.eqb].
        assert (I0 : Inv o t [] false false).
        { destruct I. constructor; auto.
          destruct i_log as [E (ops0 & L0 & F0 & G0)]. split; [exact E|]. exists ops0. split; [exact L0|].
          split; [exact F0|]. inversion G0. constructor. }
        destruct (IH t [] false false acks I0 A Hic F W2 RS) as (t' & new & mv' & p' & d' & R & I' & A' & S' & D').
        rewrite R. exists t', new, mv', p', d'. auto.
      * rewrite <- Emv in *. assert (Hne : mvals <> []) by (rewrite Emv; discriminate).
        destruct (Nat.eqb_spec (List.length mvals) 0) as [E0|_]; [rewrite Emv in E0; discriminate|].
        destruct (flush_acks _ _ _ _ _ _ I A Hr Hne Hic F) as (t1 & E1 & I1 & A1 & S1). rewrite E1.
        destruct (IH t1 [] false false acks I1 A1) as (t' & new & mv' & p' & d' & R & I' & A' & S' & D').
        -- now rewrite S1.
        -- now rewrite S1.
        -- rewrite S1. exact W2.
        -- exact RS.
        -- rewrite R. exists t', new, mv', p', d'. rewrite S1 in S'. auto.
    + (* add_field *)
      cbn [restart_safe] in RS. destruct (add_field t f) as [t1 res] eqn:E1.
      destruct (add_field_inv _ _ _ _ _ _ _ _ I E1) as [(-> & -> & Hin)|(-> & I1 & S1 & Nin & El & Ep)].
      * assert (E2 : add_new (md_schema (t_md t)) f = md_schema (t_md t)).
        { unfold add_new. replace (existsb _ _) with true; [reflexivity|]. symmetry.
          apply existsb_exists. apply in_map_iff in Hin as (g & Eg & Hg). exists g. split; [exact Hg|]. now apply String.eqb_eq. }
        change (schema_after (md_schema (t_md t)) (OAddField f :: ops)) with (schema_after (add_new (md_schema (t_md t)) f) ops) in W2. rewrite E2 in W2.
        assert (I2 : Inv o t mvals p (p || d)) by (eapply inv_weaken; [exact I|auto|destruct p, d; cbn; auto]).
        destruct (IH t mvals p (p || d) acks I2 A Hic F W2 RS)
          as (t' & new & mv' & p' & d' & R & I' & A' & S' & D').
        rewrite R. exists t', new, mv', p', d'. split; [reflexivity|]. split; [exact I'|]. split; [exact A'|].
        change (schema_after (md_schema (t_md t)) (OAddField f :: ops)) with (schema_after (add_new (md_schema (t_md t)) f) ops). rewrite E2. split; [exact S'|exact D'].
      * assert (E2 : add_new (md_schema (t_md t)) f = md_schema (t_md t1)).
        { unfold add_new. rewrite S1. replace (existsb _ _) with false; [reflexivity|]. symmetry.
          apply not_true_is_false. intros X. apply existsb_exists in X as (g & Hg & Eg). apply Nin.
          apply String.eqb_eq in Eg. rewrite <- Eg. now apply in_map. }
        change (schema_after (md_schema (t_md t)) (OAddField f :: ops)) with (schema_after (add_new (md_schema (t_md t)) f) ops) in W2. rewrite E2 in W2.
        assert (A1 : Acks (o_index_cols o) t1 acks mvals).
        { destruct A as (pvals & F2 & P & K). exists pvals. split; [|split; [exact P|]].
          2:{ rewrite S1. eapply Forall_impl; [|exact K]. intros v Hv. unfold int_keys, acked_row in *.
              rewrite map_app, firstn_prefix by (rewrite map_length; exact Hic). exact Hv. }
          unfold all_parts in *. rewrite El. eapply Forall2_impl_; [|exact F2]. intros lp pv.
          apply part_has_disk. rewrite Ep. auto. }
        destruct (IH t1 mvals p (p || d) acks I1 A1) as (t' & new & mv' & p' & d' & R & I' & A' & S' & D').
        -- rewrite S1, app_length. lia.
        -- rewrite S1. unfold dts_of. rewrite map_app, firstn_prefix by (rewrite map_length; exact Hic). exact F.
        -- exact W2.
        -- exact RS.
        -- rewrite R. exists t', new, mv', p', d'. split; [reflexivity|]. split; [exact I'|]. split; [exact A'|].
           change (schema_after (md_schema (t_md t)) (OAddField f :: ops)) with (schema_after (add_new (md_schema (t_md t)) f) ops). rewrite E2. split; [exact S'|exact D'].
    + (* gc *)
      cbn [restart_safe] in RS. destruct (gc_inv _ _ _ _ _ I) as (I1 & Emd & Emem & Eparts).
      assert (A1 : Acks (o_index_cols o) (gc t) acks mvals).
      { destruct A as (pvals & F2 & P & K). exists pvals. split; [|rewrite Emd; split; [exact P|exact K]]. rewrite Emd.
        clear P K. induction F2 as [|lp pv lps pvals H F2 IH2]; constructor.
        - eapply part_has_disk; [|exact H]. intros pf. rewrite Eparts; [auto|]. now left.
        - apply IH2. intros lp' Hlp'. apply Eparts. now right. }
      destruct (IH (gc t) mvals p d acks I1 A1) as (t' & new & mv' & p' & d' & R & I' & A' & S' & D').
      * now rewrite Emd.
      * now rewrite Emd.
      * rewrite Emd. exact W2.
      * exact RS.
      * rewrite R. exists t', new, mv', p', d'. auto.
    + (* restart *)
      cbn [restart_safe] in RS. destruct RS as [-> RS].
      destruct (reopen_inv _ _ _ _ I) as (t1 & E1 & I1 & Emd & Edisk & Emem). rewrite E1.
      destruct (IH t1 mvals p false acks I1) as (t' & new & mv' & p' & d' & R & I' & A' & S' & D').
      * destruct A as (pvals & F2 & P & K). exists pvals. rewrite Emd, Edisk. auto.
      * now rewrite Emd.
      * now rewrite Emd.
      * rewrite Emd. exact W2.
      * exact RS.
      * rewrite R. rewrite Emd in S'. exists t', new, mv', p', d'. cbn [app restart_safe]. split; [reflexivity|]. split; [exact I'|]. split; [exact A'|]. split; [exact S'|]. intros rst [_ H]. exact (D' rst H).
Qed.

Lemma run_acks o ops : o_replacing o = false ->
  forall t mvals p d acks,
  Inv o t mvals p d -> Acks (o_index_cols o) t acks mvals ->
  o_index_cols o <= List.length (md_schema (t_md t)) ->
  Forall (fun x => int_dt x = true) (firstn (o_index_cols o) (dts_of (md_schema (t_md t)))) ->
  Forall (wf_op (o_index_cols o) (schema_after (md_schema (t_md t)) ops)) ops ->
  restart_safe p d ops ->
  exists t' new mvals' p' d', run lexsort t ops = Some (t', new)
    /\ Inv o t' mvals' p' d' /\ Acks (o_index_cols o) t' (acks ++ new) mvals'
    /\ md_schema (t_md t') = schema_after (md_schema (t_md t)) ops
    /\ (restart_safe p d (ops ++ [ORestart]) -> d' = false).
Proof.
  intros Hr t mvals p d acks I A Hic F W RS.
  destruct (run_acks_rest o ops Hr t mvals p d acks I A Hic F W RS) as (t' & new & mv' & p' & d' & R & I' & A' & S' & D').
  exists t', new, mv', p', d'. split; [exact R|]. split; [exact I'|]. split; [exact A'|]. split; [exact S'|].
  intros H. exact (proj1 (D' [ORestart] H)).
Qed.
End WithSort.
