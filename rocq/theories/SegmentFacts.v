(** Facts about Segment.v. *)
From Coq Require Import List ZArith QArith Qcanon Bool Arith Lia Sorted.
From Verif Require Import Aggregate AggSpec AggFacts Segment SegmentSpec.
Import ListNotations.

Lemma check_bounds_spec t ts : check_bounds t ts = true <-> in_period t ts.
Proof.
  destruct t; cbn; rewrite ?andb_true_iff, ?Z.leb_le; [lia|lia|lia|tauto].
Qed.
Lemma cmp_z_spec o a b : cmp_z o a b = true <-> compares_z o a b.
Proof.
  destruct o; cbn; rewrite ?negb_true_iff, ?Z.eqb_eq, ?Z.eqb_neq, ?Z.ltb_lt, ?Z.leb_le; lia.
Qed.
Lemma cmp_q_spec o a b : cmp_q o a b = true <-> compares_q o a b.
Proof.
  destruct o; cbn; rewrite ?negb_true_iff, ?qlt_spec, ?qlt_false; try tauto;
  destruct (Qc_eq_dec a b) as [H|H]; split; intro X; congruence.
Qed.
Definition matchb {R} (g : Cond R) (r : R) : bool :=
  check_bounds (g_range g) (g_ts g r) && match g_filter g r with Some b => b | None => false end.
Lemma matchb_spec R (g : Cond R) r : matchb g r = true <-> about g r.
Proof.
  unfold matchb, about. rewrite andb_true_iff, check_bounds_spec. destruct (g_filter g r) as [[]|]; intuition congruence.
Qed.

Lemma fold_concat {A B} (f : A -> B -> A) bs a : fold_left (fun st b => fold_left f b st) bs a = fold_left f (concat bs) a.
Proof. revert a. induction bs as [|b bs IH]; intro a; [reflexivity|]. cbn. now rewrite IH, fold_left_app. Qed.

Section LeafRun.
Context {R A : Type}.
Variable g : Cond R.
Variable user : R -> Z.
Variables (zero : A) (add : A -> R -> A) (test : A -> bool).

Definition out (x : A * Z) : option Z := if test (fst x) then Some (snd x) else None.
Definition stp (x : A * Z) (r : R) : A * Z := (add (fst x) r, user r).

Lemma leaf_sim rows l a u :
  (forall r, In r rows -> g_part g r = Some (user r)) ->
  match fold_left (leaf_row g zero add test) rows (Some (mkInner a u (map out l) false)) with
  | Some st => report_user test st = map out (run_out (fold_left (run_row user (matchb g) (zero, 0%Z) stp) rows (l, (a, u), u)))
  | None => False
  end.
Proof.
  revert l a u. induction rows as [|r rows IH]; intros l a u P.
  - cbn. unfold report_user. cbn. rewrite map_app. reflexivity.
  - assert (Pr : g_part g r = Some (user r)) by (apply P; now left).
    assert (P' : forall x, In x rows -> g_part g x = Some (user x)) by (intros x Hx; apply P; now right).
    cbn [fold_left]. cbn [leaf_row n_first]. rewrite Pr.
    unfold run_row at 2. unfold matchb at 2.
    destruct (check_bounds (g_range g) (g_ts g r)); cbn [negb andb]; [|now apply IH].
    destruct (match g_filter g r with Some b => b | None => false end); cbn [negb]; [|now apply IH].
    cbn [n_last]. destruct (Z.eqb u (user r)) eqn:E.
    + apply Z.eqb_eq in E. cbn [n_acc n_res n_last n_first]. unfold stp at 2. cbn [fst]. rewrite <- E. now apply IH.
    + cbn [n_acc n_res n_last n_first]. unfold report_user at 1. cbn [n_acc n_last n_res].
      specialize (IH (l ++ [(a, u)])%list (add zero r) (user r) P'). rewrite map_app in IH. exact IH.
Qed.

Definition entries (rows : list R) : list Z :=
  match rows with
  | [] => [0%Z]
  | r :: _ => user r :: filter (fun p => negb (Z.eqb p (user r))) (distinct_users user (filter (matchb g) rows))
  end.
Definition total (rows : list R) (u : Z) : A := fold_left add (rows_of user (filter (matchb g) rows) u) zero.
Definition mask (es : list Z) (P : Z -> bool) : list (option Z) := map (fun u => if P u then Some u else None) es.

Lemma stp_fold rows a u : (forall r, In r rows -> user r = u) -> fold_left stp rows (a, u) = (fold_left add rows a, u).
Proof.
  revert a. induction rows as [|r rows IH]; intros a H; [reflexivity|]. cbn [fold_left]. unfold stp at 2. cbn [fst].
  rewrite (H r (or_introl eq_refl)). apply IH. intros x Hx. apply H. now right.
Qed.
Lemma inner_user rows a u0 u :
  u = u0 \/ In u (map user rows) ->
  inner_of user stp rows (a, u0) u = (fold_left add (rows_of user rows u) a, u).
Proof.
  intros H. unfold inner_of.
  assert (Hu : forall r, In r (rows_of user rows u) -> user r = u).
  { intros r Hr. apply filter_In in Hr. apply Z.eqb_eq, Hr. }
  destruct (rows_of user rows u) as [|r l] eqn:E.
  - destruct H as [->|H]; [reflexivity|]. exfalso. apply in_map_iff in H as (r & <- & Hr).
    assert (X : In r (rows_of user rows (user r))) by (apply filter_In; split; [exact Hr|apply Z.eqb_refl]).
    rewrite E in X. destruct X.
  - cbn [fold_left]. unfold stp at 2. cbn [fst]. rewrite (Hu r (or_introl eq_refl)). apply stp_fold.
    intros x Hx. apply Hu. now right.
Qed.

Theorem leaf_run_spec batches :
  (forall r, In r (concat batches) -> g_part g r = Some (user r)) -> by_user user (concat batches) ->
  leaf_run g zero add test batches = Some (mask (entries (concat batches)) (fun u => test (total (concat batches) u))).
Proof.
  intros P HS. unfold leaf_run. rewrite fold_concat. set (rows := concat batches) in *. clearbody rows.
  destruct rows as [|r0 rows0]; [reflexivity|]. set (rows := r0 :: rows0) in *.
  assert (F : fold_left (leaf_row g zero add test) rows (Some (mkInner zero 0%Z [] true)) =
              fold_left (leaf_row g zero add test) rows (Some (mkInner zero (user r0) (map out []) false))).
  { unfold rows. cbn [fold_left]. f_equal. cbn [leaf_row n_first]. rewrite (P r0 (or_introl eq_refl)). reflexivity. }
  rewrite F. pose proof (leaf_sim rows [] zero (user r0) P) as L.
  destruct (fold_left (leaf_row g zero add test) rows (Some (mkInner zero (user r0) (map out []) false))) as [st|]; [|destruct L].
  f_equal. rewrite L. rewrite run_fold; [|exact HS|now apply (by_user_head user)].
  cbn [app map]. unfold mask, entries. change (match rows with [] => [0%Z] | r :: _ => _ end) with
    (user r0 :: filter (fun p => negb (Z.eqb p (user r0))) (distinct_users user (filter (matchb g) rows))).
  cbn [map]. f_equal.
  - rewrite inner_user by now left. reflexivity.
  - rewrite map_map. apply map_ext_in. intros u Hu. apply filter_In in Hu as [Hu _]. apply distinct_users_in in Hu.
    rewrite inner_user by now right. reflexivity.
Qed.

(** A row without group that is looked at stops the query. *)
Lemma leaf_none rows : fold_left (leaf_row g zero add test) rows None = None.
Proof. induction rows; auto. Qed.
Lemma leaf_missing rows st r :
  In r rows -> g_part g r = None -> matchb g r = true ->
  fold_left (leaf_row g zero add test) rows st = None.
Proof.
  revert st. induction rows as [|x rows IH]; intros st []; intros.
  - subst x. cbn [fold_left]. replace (leaf_row g zero add test st r) with (@None (Inner A)); [apply leaf_none|].
    destruct st as [st|]; [|reflexivity]. cbn [leaf_row]. rewrite H0. destruct (n_first st); [reflexivity|].
    unfold matchb in H1. apply andb_true_iff in H1 as [-> ->]. reflexivity.
  - cbn [fold_left]. now apply IH.
Qed.
End LeafRun.

Lemma and_mask es P Q : and_arrays (mask es P) (mask es Q) = mask es (fun u => P u && Q u).
Proof. induction es as [|u es IH]; [reflexivity|]. cbn. fold (mask es P) (mask es Q). rewrite IH. destruct (P u), (Q u); reflexivity. Qed.
Lemma or_mask es P Q : or_arrays (mask es P) (mask es Q) = mask es (fun u => P u || Q u).
Proof. induction es as [|u es IH]; [reflexivity|]. cbn. fold (mask es P) (mask es Q). rewrite IH. destruct (P u), (Q u); reflexivity. Qed.
Lemma member_mask es P u : member (mask es P) u <-> In u es /\ P u = true.
Proof.
  unfold member, mask. rewrite in_map_iff. split.
  - intros (x & H & Hx). destruct (P x) eqn:E; [|discriminate]. injection H as ->. auto.
  - intros [H E]. exists u. rewrite E. auto.
Qed.

Section Picks.
Context {R : Type}.
Variable user : R -> Z.
Lemma picks_fun (g : Cond R) u rows ms : picks user g u rows ms <-> ms = rows_of user (filter (matchb g) rows) u.
Proof.
  split.
  - intros H. induction H as [|r rows ms Ha Hu _ IH|r rows ms Hn _ IH]; [reflexivity| |]; cbn [filter].
    + apply matchb_spec in Ha. rewrite Ha. unfold rows_of. cbn [filter]. subst u. rewrite Z.eqb_refl. now f_equal.
    + destruct (matchb g r) eqn:E; [|exact IH]. unfold rows_of. cbn [filter].
      destruct (Z.eqb (user r) u) eqn:E2; [|exact IH]. exfalso. apply Hn. split; [now apply matchb_spec|now apply Z.eqb_eq].
  - intros ->. induction rows as [|r rows IH]; [constructor|]. cbn [filter]. destruct (matchb g r) eqn:E.
    + unfold rows_of. cbn [filter]. destruct (Z.eqb (user r) u) eqn:E2.
      * apply picks_yes; [now apply matchb_spec|now apply Z.eqb_eq|exact IH].
      * apply picks_no; [|exact IH]. intros [_ H]. apply Z.eqb_neq in E2. contradiction.
    + apply picks_no; [|exact IH]. intros [H _]. apply matchb_spec in H. congruence.
Qed.
Lemma entries_in (g : Cond R) rows u : rows <> [] ->
  (In u (entries g user rows) <->
   (exists r tl, rows = r :: tl /\ user r = u) \/ (exists r, In r rows /\ about g r /\ user r = u)).
Proof.
  intros Hne. destruct rows as [|r0 rows0]; [congruence|]. unfold entries. cbn [In]. rewrite filter_In, distinct_users_in, negb_true_iff, Z.eqb_neq.
  rewrite in_map_iff. split.
  - intros [H|[(r & H & Hr) _]]; [left; now exists r0, rows0|]. right. apply filter_In in Hr as [Hr Hm]. exists r.
    split; [exact Hr|]. split; [now apply matchb_spec|exact H].
  - intros [(r & tl & [= <- <-] & H)|(r & Hr & Ha & H)]; [now left|].
    destruct (Z.eq_dec u (user r0)) as [->|Ne]; [now left|]. right. split; [|exact Ne].
    exists r. split; [exact H|]. apply filter_In. split; [exact Hr|now apply matchb_spec].
Qed.
End Picks.

Lemma is_agg_unique f l v w : l <> [] -> is_agg f l v -> is_agg f l w -> v = w.
Proof.
  intros Hne Hv Hw. destruct f; cbn in *.
  - congruence.
  - specialize (Hv Hne). specialize (Hw Hne). apply Qcle_antisym; [apply Hv, Hw|apply Hw, Hv].
  - specialize (Hv Hne). specialize (Hw Hne). apply Qcle_antisym; [apply Hw, Hv|apply Hv, Hw].
  - specialize (Hv Hne). specialize (Hw Hne). apply qlen_nonzero in Hne.
    assert (E : (v * qlen l = w * qlen l)%Qc) by congruence.
    apply (f_equal (fun x => x / qlen l)%Qc) in E. rewrite !Qcdiv_mult_l in E by exact Hne. exact E.
  - congruence.
Qed.
