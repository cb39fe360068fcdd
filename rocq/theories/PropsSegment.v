(** Properties C56, C57, C80 and C81: behavioural segments. *)
From Coq Require Import List ZArith QArith Qcanon Bool Arith Lia Sorted.
From Verif Require Import Aggregate AggSpec AggFacts Segment SegmentSpec SegmentFacts Report.
Import ListNotations.

(** The rows come ordered by user and each belongs to one. *)
Definition ordered_rows {R} (user : R -> Z) (rows : list R) : Prop := StronglySorted Z.le (map user rows).
Definition all_grouped {R} (user : R -> Z) (e : SegExpr R) (rows : list R) : Prop :=
  forall g r, In g (conds e) -> In r rows -> g_part g r = Some (user r).
(** the user has a row the condition is about *)
Definition did {R} (user : R -> Z) (g : Cond R) (rows : list R) (u : Z) : Prop :=
  exists r, In r rows /\ about g r /\ user r = u.
Definition first_user {R} (user : R -> Z) (rows : list R) (u : Z) : Prop := exists r tl, rows = r :: tl /\ user r = u.

Lemma count_fold {R} (l : list R) n : fold_left (fun m _ => m + 1)%Z l n = (n + Z.of_nat (length l))%Z.
Proof. revert n. induction l as [|x l IH]; intro n; cbn; [lia|]. rewrite IH. cbn. lia. Qed.
Lemma did_rows {R} (user : R -> Z) g rows u : did user g rows u <-> rows_of user (filter (matchb g) rows) u <> [].
Proof.
  split.
  - intros (r & Hr & Ha & Hu) E. assert (X : In r (rows_of user (filter (matchb g) rows) u)).
    { apply filter_In. split; [apply filter_In; split; [exact Hr|now apply matchb_spec]|now apply Z.eqb_eq]. }
    rewrite E in X. destruct X.
  - intros H. destruct (rows_of user (filter (matchb g) rows) u) as [|r l] eqn:E; [congruence|].
    assert (X : In r (rows_of user (filter (matchb g) rows) u)) by (rewrite E; now left).
    apply filter_In in X as [X Hu]. apply filter_In in X as [X Hm]. exists r. split; [exact X|].
    split; [now apply matchb_spec|now apply Z.eqb_eq].
Qed.

Section Count.
Context {R : Type}.
Variable user : R -> Z.
Variables lo hi : Qc.

Lemma count_members g op bound batches :
  let rows := concat batches in
  ordered_rows user rows -> all_grouped user (SCount g op bound) rows ->
  exists res, segment lo hi (SCount g op bound) batches = Some res /\
    forall u, member res u <-> In u (entries g user rows) /\ sat user (SCount g op bound) rows u.
Proof.
  intros rows HS HG. eexists. split.
  - cbn [segment]. apply (leaf_run_spec g user); [intros r Hr; apply HG; [now left|exact Hr]|exact HS].
  - intros u. rewrite member_mask. fold rows. apply and_iff_compat_l. cbn [sat]. unfold total. rewrite count_fold, Z.add_0_l, cmp_z_spec. split.
    + intros H. eexists. split; [apply picks_fun; reflexivity|exact H].
    + intros (ms & Hp & H). apply picks_fun in Hp. now subst ms.
Qed.

(** ** C56 *)
(** For comparisons zero does not satisfy (at least n, more than n, exactly n > 0 ...) the
    segment contains exactly the users whose number of matching events in the period
    satisfies the comparison. *)
Theorem C56_did_event_exact_partial :
  forall g op bound batches,
    let rows := concat batches in
    ordered_rows user rows -> all_grouped user (SCount g op bound) rows ->
    ~ compares_z op 0 bound ->
    exists res, segment lo hi (SCount g op bound) batches = Some res /\
      forall u, member res u <-> sat user (SCount g op bound) rows u.
Proof.
  intros g op bound batches rows HS HG Hz. destruct (count_members g op bound batches HS HG) as (res & E & M). fold rows in M.
  exists res. split; [exact E|]. intros u. rewrite M. split; [tauto|]. intros Hs. split; [|exact Hs].
  cbn [sat] in Hs. destruct Hs as (ms & Hp & Hc).
  assert (Hne : ms <> []) by (intros ->; now apply Hz). apply picks_fun in Hp. subst ms. apply did_rows in Hne.
  apply entries_in; [|right; exact Hne]. destruct Hne as (r & Hr & _). intros X. rewrite X in Hr. destruct Hr.
Qed.
(** For every comparison: users with a matching event are judged correctly. *)
Theorem C56_users_with_event_partial :
  forall g op bound batches,
    let rows := concat batches in
    ordered_rows user rows -> all_grouped user (SCount g op bound) rows ->
    exists res, segment lo hi (SCount g op bound) batches = Some res /\
      forall u, did user g rows u -> (member res u <-> sat user (SCount g op bound) rows u).
Proof.
  intros g op bound batches rows HS HG. destruct (count_members g op bound batches HS HG) as (res & E & M). fold rows in M.
  exists res. split; [exact E|]. intros u Hd. rewrite M. split; [tauto|]. intros Hs. split; [|exact Hs].
  apply entries_in; [|right; exact Hd]. destruct Hd as (r & Hr & _). intros X. rewrite X in Hr. destruct Hr.
Qed.
(** A user without matching event is missing although zero satisfies the comparison
    ("did it less than n times", "never did it"), unless the first row happens to be theirs. *)
Theorem C56_users_without_event_refuted :
  forall g op bound batches u,
    let rows := concat batches in
    ordered_rows user rows -> all_grouped user (SCount g op bound) rows ->
    compares_z op 0 bound -> In u (map user rows) -> ~ did user g rows u -> ~ first_user user rows u ->
    exists res, segment lo hi (SCount g op bound) batches = Some res /\
      sat user (SCount g op bound) rows u /\ ~ member res u.
Proof.
  intros g op bound batches u rows HS HG Hz Hin Hd Hf. destruct (count_members g op bound batches HS HG) as (res & E & M). fold rows in M.
  exists res. split; [exact E|]. split.
  - cbn [sat]. exists []. split; [|exact Hz]. apply picks_fun. rewrite did_rows in Hd.
    destruct (rows_of user (filter (matchb g) rows) u); [reflexivity|]. exfalso. now apply Hd.
  - rewrite M. intros [X _]. apply entries_in in X; [|intros Y; rewrite Y in Hin; destruct Hin].
    destruct X as [X|X]; [now apply Hf|now apply Hd].
Qed.
(** A segment over no rows at all contains the user with id 0 in that case. *)
Theorem C56_no_rows_refuted :
  forall (g : Cond R) op bound, compares_z op 0 bound ->
    exists res, segment lo hi (SCount g op bound) [] = Some res /\ member res 0.
Proof.
  intros g op bound Hz. eexists. split; [reflexivity|]. cbn. apply cmp_z_spec in Hz. rewrite Hz. now left.
Qed.
(** A matching event without group stops the query. *)
Theorem C56_missing_group_refuted :
  forall (g : Cond R) op bound batches r,
    In r (concat batches) -> about g r -> g_part g r = None ->
    segment lo hi (SCount g op bound) batches = None.
Proof.
  intros g op bound batches r Hr Ha Hp. cbn [segment]. unfold leaf_run. rewrite fold_concat.
  rewrite (leaf_missing g _ _ _ (concat batches) _ r); [reflexivity|exact Hr|exact Hp|now apply matchb_spec].
Qed.
End Count.
Print Assumptions C56_did_event_exact_partial.
Print Assumptions C56_users_with_event_partial.
Print Assumptions C56_users_without_event_refuted.
Print Assumptions C56_no_rows_refuted.
Print Assumptions C56_missing_group_refuted.

(** Rows of the examples: user, time, event. *)
Definition ev (e : Z) : Cond (Z * Z * Z) :=
  mkCond (fun r => Some (fst (fst r))) (fun r => snd (fst r)) (fun r => Some (Z.eqb (snd r) e)) (Between 1 9).
Definition usr (r : Z * Z * Z) : Z := fst (fst r).
Definition days : list (list (Z * Z * Z)) := [[(1, 1, 7); (1, 2, 7); (2, 3, 8)]; [(2, 9, 7); (3, 12, 7); (3, 2, 8); (4, 9, 7)]]%Z.
Example C56_witness :
  ordered_rows usr (concat days) /\ all_grouped usr (SCount (ev 7) OpGe 1) (concat days) /\ ~ compares_z OpGe 0 1 /\
  segment 0%Qc 0%Qc (SCount (ev 7) OpGe 1) days = Some [Some 1; Some 2; Some 4]%Z /\
  segment 0%Qc 0%Qc (SCount (ev 7) OpGt 1) days = Some [Some 1; None; None]%Z /\
  (* user 3 did not do event 7 in the period *)
  segment 0%Qc 0%Qc (SCount (ev 7) OpEq 0) days = Some [None; None; None]%Z /\
  ~ did usr (ev 7) (concat days) 3 /\ ~ first_user usr (concat days) 3 /\ In 3%Z (map usr (concat days)).
Proof.
  split; [repeat (first [progress cbn; lia | lia | constructor])|].
  split. { intros g r [<-|[]] _. reflexivity. }
  split; [cbn; lia|]. split; [reflexivity|]. split; [reflexivity|]. split; [reflexivity|].
  split.
  { intros (r & Hr & (Hp & Hf) & Hu). cbn in Hr. repeat destruct Hr as [<-|Hr]; cbn in *; try discriminate; try lia; try contradiction. }
  split; [intros (r & tl & [= <- _] & Hu); discriminate|]. cbn. tauto.
Qed.

(** ** C81 *)
Section Agg.
Context {R : Type}.
Variable user : R -> Z.
Variables lo hi : Qc.

Lemma agg_members g val f op bound batches :
  let rows := concat batches in
  ordered_rows user rows -> all_grouped user (SAggregate g val f op bound) rows ->
  (forall r, In r rows -> (lo <= val r)%Qc /\ (val r <= hi)%Qc) ->
  exists res, segment lo hi (SAggregate g val f op bound) batches = Some res /\
    (forall u, did user g rows u -> (member res u <-> sat user (SAggregate g val f op bound) rows u)) /\
    (forall u, ~ did user g rows u -> rows <> [] ->
       (member res u <-> first_user user rows u /\ compares_q op (result (make_new lo hi f)) bound)).
Proof.
  intros rows HS HG HB. eexists. split; [|split].
  - cbn [segment]. apply (leaf_run_spec g user); [intros r Hr; apply HG; [now left|exact Hr]|exact HS].
  - intros u Hd. rewrite member_mask. fold rows. unfold total.
    assert (He : In u (entries g user rows)).
    { apply entries_in; [|right; exact Hd]. destruct Hd as (r & Hr & _). intros X. rewrite X in Hr. destruct Hr. }
    apply did_rows in Hd. set (ms := rows_of user (filter (matchb g) rows) u) in *.
    assert (Ef : fold_left (fun a r => accumulate a (val r)) ms (make_new lo hi f) = acc_all (make_new lo hi f) (map val ms)).
    { unfold acc_all. generalize (make_new lo hi f). clearbody ms. clear. induction ms as [|x ms IH]; intros a; [reflexivity|]. cbn. apply IH. }
    rewrite Ef, cmp_q_spec.
    assert (A : is_agg f (map val ms) (result (acc_all (make_new lo hi f) (map val ms)))).
    { apply acc_is_agg. intros x Hx. apply in_map_iff in Hx as (r & <- & Hr). apply HB.
      apply filter_In in Hr as [Hr _]. now apply filter_In in Hr as [Hr _]. }
    assert (Hm : map val ms <> []) by (intros X; apply map_eq_nil in X; contradiction).
    cbn [sat]. split.
    + intros [_ H]. exists ms. eexists. split; [exact Hd|]. split; [now apply picks_fun|]. split; [exact A|exact H].
    + intros (ms' & v & _ & Hp & Hv & Hc). split; [exact He|]. apply picks_fun in Hp. fold ms in Hp. subst ms'.
      now rewrite (is_agg_unique f _ _ v Hm A Hv).
  - intros u Hd Hne. rewrite member_mask. fold rows. rewrite entries_in by exact Hne. unfold total.
    fold (did user g rows u).
    assert (X : rows_of user (filter (matchb g) rows) u = []).
    { rewrite did_rows in Hd. destruct (rows_of user (filter (matchb g) rows) u); [reflexivity|]. exfalso. now apply Hd. }
    rewrite X. cbn [fold_left]. rewrite cmp_q_spec. unfold first_user. tauto.
Qed.

(** Users who did the event are in the segment exactly when the aggregate of their values
    satisfies the comparison; nobody else is, except possibly the user of the first row. *)
Theorem C81_users_with_event_partial :
  forall g val f op bound batches,
    let rows := concat batches in
    ordered_rows user rows -> all_grouped user (SAggregate g val f op bound) rows ->
    (forall r, In r rows -> (lo <= val r)%Qc /\ (val r <= hi)%Qc) -> rows <> [] ->
    exists res, segment lo hi (SAggregate g val f op bound) batches = Some res /\
      forall u, ~ first_user user rows u \/ did user g rows u ->
        (member res u <-> sat user (SAggregate g val f op bound) rows u).
Proof.
  intros g val f op bound batches rows HS HG HB Hne. destruct (agg_members g val f op bound batches HS HG HB) as (res & E & M1 & M2).
  fold rows in M1, M2. exists res. split; [exact E|]. intros u Hu.
  assert (D : did user g rows u \/ ~ did user g rows u).
  { rewrite did_rows. destruct (rows_of user (filter (matchb g) rows) u); [right; now intros X|left; discriminate]. }
  destruct D as [D|D]; [now apply M1|]. destruct Hu as [Hu|Hu]; [|contradiction]. rewrite (M2 u D Hne). split; [tauto|].
  cbn [sat]. intros (ms & v & Hm & Hp & _). exfalso. apply D. apply did_rows. apply picks_fun in Hp. now rewrite <- Hp.
Qed.
(** The user of the first row is in the segment without having done the event, whenever the
    empty aggregate (sum 0, largest number for a minimum ...) satisfies the comparison. *)
Theorem C81_first_user_refuted :
  forall g val f op bound batches u,
    let rows := concat batches in
    ordered_rows user rows -> all_grouped user (SAggregate g val f op bound) rows ->
    (forall r, In r rows -> (lo <= val r)%Qc /\ (val r <= hi)%Qc) ->
    first_user user rows u -> ~ did user g rows u -> compares_q op (result (make_new lo hi f)) bound ->
    exists res, segment lo hi (SAggregate g val f op bound) batches = Some res /\
      member res u /\ ~ sat user (SAggregate g val f op bound) rows u.
Proof.
  intros g val f op bound batches u rows HS HG HB Hf D Hc. destruct (agg_members g val f op bound batches HS HG HB) as (res & E & M1 & M2).
  fold rows in M1, M2. exists res. split; [exact E|].
  assert (Hne : rows <> []) by (destruct Hf as (r & tl & X & _); rewrite X; discriminate).
  split; [now apply M2|]. cbn [sat]. intros (ms & v & Hm & Hp & _). apply D. apply did_rows. apply picks_fun in Hp. now rewrite <- Hp.
Qed.
End Agg.
Print Assumptions C81_users_with_event_partial.
Print Assumptions C81_first_user_refuted.
Definition amount (r : Z * Z * Z) : Qc := Q2Qc (inject_Z (snd (fst r))).
Example C81_witness :
  let q z := Q2Qc (inject_Z z) in
  segment (q (-99)%Z) (q 99%Z) (SAggregate (ev 7) amount Sum OpGe (q 3%Z)) days = Some [Some 1; Some 2; Some 4]%Z /\
  segment (q (-99)%Z) (q 99%Z) (SAggregate (ev 7) amount Max OpGt (q 3%Z)) days = Some [None; Some 2; Some 4]%Z /\
  (* user 1 never did event 8, user 4 neither *)
  segment (q (-99)%Z) (q 99%Z) (SAggregate (ev 8) amount Sum OpLt (q 3%Z)) days = Some [Some 1; None; Some 3]%Z /\
  ~ did usr (ev 8) (concat days) 1 /\ first_user usr (concat days) 1.
Proof.
  split; [vm_compute; reflexivity|]. split; [vm_compute; reflexivity|]. split; [vm_compute; reflexivity|]. split.
  - intros (r & Hr & (Hp & Hf) & Hu). cbn in Hr. repeat destruct Hr as [<-|Hr]; cbn in *; try discriminate; try contradiction.
  - eexists. eexists. split; reflexivity.
Qed.

(** ** C57 *)
Section Tree.
Context {R : Type}.
Variable user : R -> Z.
Variables lo hi : Qc.

Fixpoint values_within (e : SegExpr R) (rows : list R) : Prop :=
  match e with
  | SCount _ _ _ => True
  | SAggregate _ val _ _ _ => forall r, In r rows -> (lo <= val r)%Qc /\ (val r <= hi)%Qc
  | SAnd a b | SOr a b => values_within a rows /\ values_within b rows
  end.

Lemma sorted_strict_ext (l m : list Z) :
  StronglySorted Z.lt l -> StronglySorted Z.lt m -> (forall x, In x l <-> In x m) -> l = m.
Proof.
  revert m. induction l as [|x l IH]; intros m Hl Hm H.
  - destruct m as [|y m]; [reflexivity|]. exfalso. apply (H y). now left.
  - destruct m as [|y m]; [exfalso; apply (H x); now left|].
    inversion Hl as [|? ? Hl1 Hl2]; subst. inversion Hm as [|? ? Hm1 Hm2]; subst. rewrite Forall_forall in Hl2, Hm2.
    assert (x = y).
    { pose proof (proj1 (H x) (or_introl eq_refl)) as [E|E]; [now symmetry|].
      pose proof (proj2 (H y) (or_introl eq_refl)) as [E2|E2]; [assumption|].
      apply Hm2 in E. apply Hl2 in E2. lia. }
    subst y. f_equal. apply IH; [assumption|assumption|]. intros z. split; intros Hz.
    + destruct (proj1 (H z) (or_intror Hz)) as [E|E]; [|exact E]. subst z. apply Hl2 in Hz. lia.
    + destruct (proj2 (H z) (or_intror Hz)) as [E|E]; [|exact E]. subst z. apply Hm2 in Hz. lia.
Qed.
Lemma distinct_sorted rows : ordered_rows user rows -> StronglySorted Z.lt (distinct_users user rows).
Proof.
  induction rows as [|r rows IH]; intros H; [constructor|]. unfold ordered_rows in H. cbn in H. inversion H as [|? ? H1 H2]; subst.
  specialize (IH H1). cbn [distinct_users]. constructor.
  - clear - IH. induction IH as [|x l Hl IHl Hf]; [constructor|]. cbn. destruct (negb (Z.eqb x (user r))); [|exact IHl].
    constructor; [exact IHl|]. rewrite Forall_forall in *. intros y Hy. apply filter_In in Hy. now apply Hf.
  - rewrite Forall_forall in *. intros x Hx. apply filter_In in Hx as [Hx Hn]. apply distinct_users_in in Hx. apply H2 in Hx.
    apply negb_true_iff, Z.eqb_neq in Hn. lia.
Qed.
Lemma entries_sorted g rows : ordered_rows user rows -> StronglySorted Z.lt (entries g user rows).
Proof.
  intros H. destruct rows as [|r rows]; [repeat constructor|]. unfold entries. set (all := r :: rows) in *.
  pose proof (by_user_filter user (matchb g) all H) as HF. pose proof (distinct_sorted _ HF) as HD.
  constructor.
  - clear - HD. induction HD as [|x l Hl IHl Hf]; [constructor|]. cbn. destruct (negb (Z.eqb x (user r))); [|exact IHl].
    constructor; [exact IHl|]. rewrite Forall_forall in *. intros y Hy. apply filter_In in Hy. now apply Hf.
  - apply Forall_forall. intros x Hx. apply filter_In in Hx as [Hx Hn]. apply distinct_users_in in Hx.
    apply in_map_iff in Hx as (y & <- & Hy). apply filter_In in Hy as [Hy _]. pose proof (by_user_head user _ _ H y Hy).
    apply negb_true_iff, Z.eqb_neq in Hn. lia.
Qed.

Lemma tree_mask e batches (M : Z -> Prop) :
  let rows := concat batches in
  ordered_rows user rows -> all_grouped user e rows -> values_within e rows -> rows <> [] ->
  (forall u, first_user user rows u -> M u) ->
  (forall g u, In g (conds e) -> (did user g rows u <-> M u)) ->
  forall g0, In g0 (conds e) ->
  exists P, segment lo hi e batches = Some (mask (entries g0 user rows) P) /\
    forall u, M u -> (P u = true <-> sat user e rows u).
Proof.
  intros rows HS HG HV Hne HF HM.
  assert (EQ : forall g g', In g (conds e) -> In g' (conds e) -> entries g user rows = entries g' user rows).
  { intros g g' Hg Hg'. apply sorted_strict_ext; [now apply entries_sorted|now apply entries_sorted|]. intros x.
    rewrite !entries_in by exact Hne. fold (did user g rows x) (did user g' rows x). rewrite (HM g x Hg), (HM g' x Hg'). tauto. }
  intros g0 Hg0.
  assert (G : forall e', incl (conds e') (conds e) -> values_within e' rows ->
    exists P, segment lo hi e' batches = Some (mask (entries g0 user rows) P) /\ forall u, M u -> (P u = true <-> sat user e' rows u)).
  { induction e' as [g op bound|g val f op bound|a IHa b IHb|a IHa b IHb]; intros I V.
    - assert (Hg : In g (conds e)) by (apply I; now left).
      destruct (count_members user lo hi g op bound batches HS) as (res & E & Mb).
      { intros g1 r [<-|[]] Hr. now apply HG. }
      assert (ES := leaf_run_spec g user 0%Z (fun n _ => n + 1)%Z (fun n => cmp_z op n bound) batches (fun r Hr => HG g r Hg Hr) HS).
      eexists. split; [cbn [segment]; rewrite ES; fold rows; rewrite (EQ g g0 Hg Hg0); reflexivity|].
      intros u Hu. cbn [segment] in E. rewrite ES in E. injection E as <-. fold rows in Mb. specialize (Mb u). rewrite member_mask in Mb.
      assert (He : In u (entries g user rows)) by (apply entries_in; [exact Hne|right; now apply HM]). cbn beta. tauto.
    - assert (Hg : In g (conds e)) by (apply I; now left).
      destruct (agg_members user lo hi g val f op bound batches HS) as (res & E & Mb & _).
      { intros g1 r [<-|[]] Hr. now apply HG. }
      { exact V. }
      assert (ES := leaf_run_spec g user (make_new lo hi f) (fun a r => accumulate a (val r)) (fun a => cmp_q op (result a) bound) batches (fun r Hr => HG g r Hg Hr) HS).
      eexists. split; [cbn [segment]; rewrite ES; fold rows; rewrite (EQ g g0 Hg Hg0); reflexivity|].
      intros u Hu. cbn [segment] in E. rewrite ES in E. injection E as <-. fold rows in Mb. specialize (Mb u (proj2 (HM g u Hg) Hu)). rewrite member_mask in Mb.
      assert (He : In u (entries g user rows)) by (apply entries_in; [exact Hne|right; now apply HM]). cbn beta. tauto.
    - destruct V as [Va Vb]. destruct (IHa (fun x Hx => I x (in_or_app _ _ _ (or_introl Hx))) Va) as (P & Ea & Ha).
      destruct (IHb (fun x Hx => I x (in_or_app _ _ _ (or_intror Hx))) Vb) as (Q & Eb & Hb).
      exists (fun u => P u && Q u). cbn [segment]. rewrite Ea, Eb, and_mask. split; [reflexivity|].
      intros u Hu. rewrite andb_true_iff, (Ha u Hu), (Hb u Hu). reflexivity.
    - destruct V as [Va Vb]. destruct (IHa (fun x Hx => I x (in_or_app _ _ _ (or_introl Hx))) Va) as (P & Ea & Ha).
      destruct (IHb (fun x Hx => I x (in_or_app _ _ _ (or_intror Hx))) Vb) as (Q & Eb & Hb).
      exists (fun u => P u || Q u). cbn [segment]. rewrite Ea, Eb, or_mask. split; [reflexivity|].
      intros u Hu. rewrite orb_true_iff, (Ha u Hu), (Hb u Hu). reflexivity. }
  now apply G; [apply incl_refl|].
Qed.

(** Any combination of conditions is judged correctly when all conditions are about the same
    users ([M]: those with at least one row the condition is about), the first one included. *)
Theorem C57_same_users_partial :
  forall e batches (M : Z -> Prop),
    let rows := concat batches in
    ordered_rows user rows -> all_grouped user e rows -> values_within e rows -> rows <> [] ->
    (forall u, first_user user rows u -> M u) ->
    (forall g u, In g (conds e) -> (did user g rows u <-> M u)) ->
    exists res, segment lo hi e batches = Some res /\
      forall u, member res u <-> M u /\ sat user e rows u.
Proof.
  intros e batches M rows HS HG HV Hne HF HM.
  assert (C : exists g0, In g0 (conds e)).
  { clear. induction e as [g|g|a [x IHa] b _|a [x IHa] b _]; cbn; try (exists g; now left); exists x; apply in_or_app; now left. }
  destruct C as (g0 & Hg0). destruct (tree_mask e batches M HS HG HV Hne HF HM g0 Hg0) as (P & E & HP). fold rows in E, HP.
  eexists. split; [exact E|]. intros u. rewrite member_mask, entries_in by exact Hne. fold (did user g0 rows u). fold (first_user user rows u).
  rewrite (HM g0 u Hg0). split.
  - intros [[H|H] Hp]; [apply HF in H|]; (split; [exact H|]); now apply HP.
  - intros [H Hs]. split; [now right|]. now apply HP.
Qed.
End Tree.
Print Assumptions C57_same_users_partial.
Example C57_same_users_partial_witness :
  let rows := [[(1, 1, 7); (1, 2, 8); (2, 3, 8)]; [(2, 9, 7); (2, 9, 7); (3, 1, 9)]]%Z in
  let e := SAnd (SCount (ev 7) OpGe 1) (SOr (SCount (ev 8) OpGt 1) (SCount (ev 7) OpGe 2)) in
  let M := fun u => u = 1%Z \/ u = 2%Z in
  ordered_rows usr (concat rows) /\ all_grouped usr e (concat rows) /\
  (forall u, first_user usr (concat rows) u -> M u) /\
  (forall g u, In g (conds e) -> (did usr g (concat rows) u <-> M u)) /\
  segment 0%Qc 0%Qc e rows = Some [None; Some 2]%Z.
Proof.
  intros rows e M. split; [repeat (first [progress cbn; lia | lia | constructor])|].
  split. { intros g r H _. cbn in H. repeat destruct H as [<-|H]; try reflexivity. destruct H. }
  split. { intros u (r & tl & [= <- _] & <-). now left. }
  split; [|reflexivity].
  assert (D : forall e u, e = 7%Z \/ e = 8%Z -> (did usr (ev e) (concat rows) u <-> M u)).
  { intros e0 u He. split.
    - intros (r & Hr & (Hp & Hf) & Hu). cbn in Hr. unfold M. repeat destruct Hr as [<-|Hr]; cbn in *; destruct He; subst e0; cbn in *; try discriminate; try contradiction; try tauto; try lia.
    - destruct He; subst e0; intros [->| ->]; [exists (1, 1, 7)%Z|exists (2, 9, 7)%Z|exists (1, 2, 8)%Z|exists (2, 3, 8)%Z];
        (split; [cbn; tauto|split; [split; [cbn; lia|reflexivity]|reflexivity]]). }
  intros g u H. cbn in H. destruct H as [<-|[<-|[<-|[]]]]; apply D; tauto.
Qed.

(** Otherwise the positions of the two arrays belong to different users: somebody who meets
    only one of two required conditions is in the segment, and somebody who meets one of two
    alternatives is not. *)
Ltac red1 := change (Z.eqb 1 1) with true; change (Z.eqb 2 2) with true; change (Z.eqb 1 2) with false; change (Z.eqb 2 1) with false; cbn -[Z.eqb].
Theorem C57_different_users_refuted :
  forall lo hi (a b c t : Z), (a < b < c)%Z ->
    let g e := mkCond (fun r : Z * Z => Some (fst r)) (fun _ => t) (fun r => Some (Z.eqb (snd r) e)) AnyTime in
    let did1 := SCount (g 1%Z) OpGe 1 in
    let did2 := SCount (g 2%Z) OpGe 1 in
    let rows := [(a, 1); (a, 2); (b, 1); (c, 2)]%Z in
    ordered_rows fst rows /\
    (exists res, segment lo hi (SAnd did1 did2) [rows] = Some res /\ member res b /\ ~ sat fst (SAnd did1 did2) rows b) /\
    (exists res, segment lo hi (SOr did1 did2) [rows] = Some res /\ ~ member res c /\ sat fst (SOr did1 did2) rows c).
Proof.
  intros lo hi a b c t Hl g did1 did2 rows.
  assert (Eab : Z.eqb a b = false) by (apply Z.eqb_neq; lia). assert (Ebc : Z.eqb b c = false) by (apply Z.eqb_neq; lia).
  assert (Eac : Z.eqb a c = false) by (apply Z.eqb_neq; lia).
  assert (S1 : segment lo hi did1 [rows] = Some [Some a; Some b]).
  { unfold did1, did2. cbn [segment]. unfold leaf_run, rows, leaf_row, g. cbn -[Z.eqb]. red1. rewrite Z.eqb_refl. cbn -[Z.eqb]. rewrite Eab. reflexivity. }
  assert (S2 : segment lo hi did2 [rows] = Some [Some a; Some c]).
  { unfold did1, did2. cbn [segment]. unfold leaf_run, rows, leaf_row, g. cbn -[Z.eqb]. red1. rewrite Z.eqb_refl. cbn -[Z.eqb]. rewrite Eac. reflexivity. }
  split; [|split].
  - unfold ordered_rows. cbn. repeat constructor; lia.
  - exists [Some a; Some b]. cbn [segment]. fold did1 did2. rewrite S1, S2. split; [reflexivity|]. split; [right; now left|].
    cbn [sat]. intros [_ (ms & Hp & Hc)]. apply picks_fun in Hp. subst ms. revert Hc. cbn -[Z.eqb]. red1.
    cbn -[Z.eqb]. rewrite Eab, (Z.eqb_sym c b), Ebc. cbn. lia.
  - exists [Some a; Some b]. cbn [segment]. fold did1 did2. rewrite S1, S2. split; [reflexivity|]. split.
    + intros [[= H]|[[= H]|[]]]; lia.
    + cbn [sat]. right. eexists. split; [apply picks_fun; reflexivity|]. cbn -[Z.eqb]. red1. cbn -[Z.eqb]. rewrite Eac, Z.eqb_refl. cbn. lia.
Qed.
Print Assumptions C57_different_users_refuted.
Example C57_different_users_refuted_witness : (1 < 2 < 3)%Z. Proof. lia. Qed.

(** ** C80 *)
(** A report that names a segment fails while it is planned, whatever the segment. *)
Theorem C80_segments_refuted :
  forall R (leaf : TimeRange -> SegExpr R) segs, segs <> [] -> build_segments leaf segs = None.
Proof.
  intros R leaf [|s segs] H; [congruence|]. cbn. replace (build_or leaf s None) with (@None (SegExpr R)); [reflexivity|].
  destruct s as [|cs s]; [reflexivity|]. cbn. replace (build_and leaf cs None) with (@None (SegExpr R)); [reflexivity|].
  destruct cs as [|c cs]; [reflexivity|]. cbn. replace (build_condition leaf c) with (@None (SegExpr R)); [reflexivity|].
  destruct c as [|[] ?|[] []]; reflexivity.
Qed.
Print Assumptions C80_segments_refuted.
(** A request with an empty list of segments fails too; a planned report with segments gets
    all of them but the last. *)
Theorem C80_last_segment_refuted :
  forall A (rows : A) segs,
    planned_inputs rows [] = None /\ (forall s, planned_inputs rows (segs ++ [s]) = Some segs).
Proof.
  intros A rows segs. split; [reflexivity|]. intros s. unfold planned_inputs. rewrite app_length. cbn [length].
  replace (Nat.ltb (length segs + 1) 1) with false by (symmetry; apply Nat.ltb_ge; lia).
  cbn [skipn]. replace (length segs + 1 - 1)%nat with (length segs) by lia. now rewrite firstn_app, firstn_all, Nat.sub_diag, app_nil_r.
Qed.
Print Assumptions C80_last_segment_refuted.
Example C80_witness :
  build_segments (fun t => SCount (mkCond (fun _ : Z => Some 1%Z) (fun _ => 0%Z) (fun _ => Some true) t) OpGe 1)
    [[[Did true (DCount 1 (TFrom 5))]]] = None /\
  planned_inputs 0%nat [1; 2; 3]%nat = Some [1; 2]%nat /\ planned_inputs 0%nat [1]%nat = Some [].
Proof. repeat split. Qed.
