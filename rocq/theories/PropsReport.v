(** C55: a report gives the same numbers whatever the number of workers and metrics. *)
From Coq Require Import List ZArith QArith Qcanon Bool Arith Lia Sorting.Sorted.
From Verif Require Import AMap Aggregate AggSpec AggFacts Report ReportFacts PropsCounts.
Import ListNotations.

(** The function that a metric asks to apply over users, or over rows. *)
Definition asks (m : Metric) : Fn :=
  match m with
  | CountEvents => Cnt | CountUnique => Cnt | CountPerGroup over_users => over_users
  | AggProperty over_rows => over_rows | AggPerGroup per_user over_users => over_users
  end.
Lemma asks_op m : asks m = op_of m. Proof. now destruct m. Qed.

Definition all_rows {R} (workers : list (list (list R))) : list R := concat (concat workers).

Lemma all_rows_cons {R} (w : list (list R)) ws : all_rows (w :: ws) = (concat w ++ all_rows ws)%list.
Proof. unfold all_rows. cbn [concat]. now rewrite concat_app. Qed.
Lemma in_all_rows {R} (w : list (list R)) ws r : In w ws -> In r (concat w) -> In r (all_rows ws).
Proof.
  intros Hw Hr. unfold all_rows. induction ws as [|x ws IH]; [destruct Hw|]. cbn [concat]. rewrite concat_app. apply in_or_app.
  destruct Hw as [->|Hw]; auto.
Qed.
Lemma option_cases (cell : option Qc) f l :
  match l with [] => cell = None | _ => exists v, cell = Some v /\ is_agg f l v end ->
  (forall v, is_agg f l v -> v = qlen l) ->
  cell = match l with [] => None | _ => Some (qlen l) end.
Proof. destruct l; intros H G; [exact H|]. destruct H as (v & -> & Hv). now rewrite (G v Hv). Qed.

(** *** Event counts *)
Theorem C55_counts_any_workers :
  forall R (c : Columns R) lo hi keep segs j ex workers (user : R -> Z) matching k,
    nth_error segs j = Some ex ->
    (ex = None \/ forall r, In r (all_rows workers) -> c_part c r = Some (user r)) ->
    (forall r, matching r = true <->
       keep r = true /\ (forall us, ex = Some us -> In (user r) us) /\
       (forall f, c_filter c = Some f -> f r = Some true) /\ c_val c r <> None) ->
    report lo hi segs keep [(c, CountEvents)] workers 0 (Z.of_nat j) k =
    Some (match of_group (c_key c) k (filter matching (all_rows workers)) with [] => None | rs => Some (qlen rs) end).
Proof.
  intros R c lo hi keep segs j ex workers user matching k Hj HU HM.
  destruct (report_succeeds lo hi segs keep [(c, CountEvents)] workers 0 (Z.of_nat j) k) as [cell HC].
  { cbn. lia. }
  { intros cm ex' w [<-|[]] _ _. cbn [fst snd]. unfold report_worker, metric_worker. eauto. }
  rewrite HC. f_equal.
  pose (L := fun w : list (list R) => map (fun _ => 0%Qc) (of_group (c_key c) k (filter matching (concat w)))).
  pose proof (combine_single lo hi c CountEvents keep segs j ex workers k L cell) as G. cbn [op_of] in G.
  assert (EL : concat (map L workers) = map (fun _ => 0%Qc) (of_group (c_key c) k (filter matching (all_rows workers)))).
  { unfold L. clear. induction workers as [|w ws IH]; [reflexivity|]. cbn [map concat].
    rewrite IH, all_rows_cons, filter_app, of_group_app, map_app. reflexivity. }
  rewrite EL in G.
  assert (X : match map (fun _ => 0%Qc) (of_group (c_key c) k (filter matching (all_rows workers))) with
              | [] => cell = None | l => exists v, cell = Some v /\ is_agg Cnt l v end).
  { apply G; [discriminate|exact Hj| |intros [|]; discriminate|exact HC].
    intros w res Hw Hres.
    destruct (C52_event_counts_exact R c lo hi keep ex w user matching k) as (res' & Hres' & _ & Hk).
    - destruct HU as [->|HU]; [now left|right]. intros r Hr. apply HU. now apply (in_all_rows w).
    - exact HM.
    - rewrite Hres in Hres'. injection Hres' as <-. rewrite Hk. unfold L.
      destruct (of_group (c_key c) k (filter matching (concat w))) as [|r rs]; [reflexivity|].
      cbn [map]. eexists. split; [reflexivity|]. cbn [is_agg]. unfold qlen. cbn [length]. now rewrite map_length. }
  destruct (of_group (c_key c) k (filter matching (all_rows workers))) as [|r rs]; [exact X|].
  destruct X as (v & -> & Hv). cbn [is_agg map] in Hv. f_equal. rewrite Hv. unfold qlen. cbn [length]. now rewrite map_length.
Qed.
Print Assumptions C55_counts_any_workers.

(** *** Aggregated properties *)
Theorem C55_aggregates_any_workers_partial :
  forall R (c : Columns R) lo hi f keep segs j ex workers (user : R -> Z) matching k,
    f <> Avg ->
    nth_error segs j = Some ex ->
    (ex = None \/ forall r, In r (all_rows workers) -> c_part c r = Some (user r)) ->
    (forall r, matching r = true <->
       keep r = true /\ (forall us, ex = Some us -> In (user r) us) /\
       (forall f, c_filter c = Some f -> f r = Some true) /\ c_val c r <> None) ->
    (forall r v, In r (all_rows workers) -> c_val c r = Some v -> (lo <= v)%Qc /\ (v <= hi)%Qc) ->
    exists cell vals,
      report lo hi segs keep [(c, AggProperty f)] workers 0 (Z.of_nat j) k = Some cell /\
      map (c_val c) (of_group (c_key c) k (filter matching (all_rows workers))) = map Some vals /\
      match vals with
      | [] => cell = None
      | _ => exists v, cell = Some v /\ is_agg f vals v
      end.
Proof.
  intros R c lo hi f keep segs j ex workers user matching k Hf Hj HU HM HB.
  destruct (report_succeeds lo hi segs keep [(c, AggProperty f)] workers 0 (Z.of_nat j) k) as [cell HC].
  { cbn. lia. }
  { intros cm ex' w [<-|[]] _ _. cbn [fst snd]. unfold report_worker, metric_worker. eauto. }
  pose (L := fun w : list (list R) => map (val_of c) (of_group (c_key c) k (filter matching (concat w)))).
  assert (EL : concat (map L workers) = map (val_of c) (of_group (c_key c) k (filter matching (all_rows workers)))).
  { unfold L. clear. induction workers as [|w ws IH]; [reflexivity|]. cbn [map concat].
    rewrite IH, all_rows_cons, filter_app, of_group_app, map_app. reflexivity. }
  assert (HV : forall x rows, In x (of_group (c_key c) k (filter matching rows)) -> In x rows /\ c_val c x = Some (val_of c x)).
  { intros x rows Hx. unfold of_group in Hx. rewrite !filter_In in Hx. destruct Hx as ((Hx & Hm) & _).
    split; [exact Hx|]. apply HM in Hm. destruct Hm as (_ & _ & _ & Hm). unfold val_of. destruct (c_val c x); congruence. }
  exists cell, (concat (map L workers)). split; [exact HC|]. split.
  - rewrite EL, map_map. apply map_ext_in. intros x Hx. now apply HV in Hx.
  - assert (X : match concat (map L workers) with
                | [] => cell = None | l => exists v, cell = Some v /\ is_agg f l v end); [|destruct (concat (map L workers)); exact X].
    apply (combine_single lo hi c (AggProperty f) keep segs j ex workers k L cell); auto.
    + intros w res Hw Hres.
      destruct (C54_aggregates_exact R c lo hi f keep ex w user matching k) as (res' & Hres' & _ & Hk).
      * destruct HU as [->|HU]; [now left|right]. intros r Hr. apply HU. now apply (in_all_rows w).
      * exact HM.
      * intros r v Hr. apply HB. now apply (in_all_rows w).
      * rewrite Hres in Hres'. injection Hres' as <-. unfold L.
        destruct (of_group (c_key c) k (filter matching (concat w))) as [|r rs] eqn:E; [exact Hk|].
        destruct Hk as (v & vals & Hv & Hvals & Ha).
        assert (EV : vals = map (val_of c) (r :: rs)).
        { assert (Q : map Some vals = map Some (map (val_of c) (r :: rs))).
          { rewrite <- Hvals, map_map. apply map_ext_in. intros x Hx. apply (HV x (concat w)). now rewrite E. }
          revert Q. generalize (map (val_of c) (r :: rs)) as b. generalize vals as a. clear.
          induction a as [|x a IH]; intros [|y b] Q; try discriminate; [reflexivity|]. injection Q as -> Q. f_equal. auto. }
        subst vals. cbn [map]. cbn [map] in Ha. exists v. split; [exact Hv|exact Ha].
    + intros _ w x Hw Hx. unfold L in Hx. apply in_map_iff in Hx. destruct Hx as (y & <- & Hy).
      apply HV in Hy. apply (HB y); [now apply (in_all_rows w)|apply Hy].
Qed.
Print Assumptions C55_aggregates_any_workers_partial.

(** *** Users: every user's rows are on one worker *)
Definition users_apart {R} (user : R -> Z) (workers : list (list (list R))) : Prop :=
  ForallOrdPairs (fun w w' => forall r r', In r (concat w) -> In r' (concat w') -> user r <> user r') workers.

Section Apart.
Context {R : Type}.
Variable user : R -> Z.
Lemma distinct_users_app (a b : list R) :
  (forall r r', In r a -> In r' b -> user r <> user r') ->
  distinct_users user (a ++ b) = (distinct_users user a ++ distinct_users user b)%list.
Proof.
  induction a as [|x a IH]; intros H; [reflexivity|]. cbn [distinct_users app].
  rewrite IH by (intros r r' Hr; apply H; now right). rewrite filter_app. f_equal. f_equal.
  apply filter_id. intros p Hp. apply distinct_users_in in Hp. apply in_map_iff in Hp. destruct Hp as (y & <- & Hy).
  apply negb_true_iff, Z.eqb_neq. intros E. apply (H x y (or_introl eq_refl) Hy). congruence.
Qed.
Lemma rows_of_app (a b : list R) p : rows_of user (a ++ b) p = (rows_of user a p ++ rows_of user b p)%list.
Proof. unfold rows_of. apply filter_app. Qed.

Variable shown : list R -> list R.
Hypothesis shown_app : forall a b, shown (a ++ b) = (shown a ++ shown b)%list.
Hypothesis shown_in : forall a r, In r (shown a) -> In r a.
Lemma shown_apart w ws :
  users_apart user (w :: ws) ->
  forall r r', In r (shown (concat w)) -> In r' (shown (all_rows ws)) -> user r <> user r'.
Proof.
  intros H r r' Hr Hr'. inversion H as [|? ? HF HP]; subst. rewrite Forall_forall in HF.
  apply shown_in in Hr, Hr'. unfold all_rows in Hr'. apply in_concat in Hr'. destruct Hr' as (b & Hb & Hr').
  apply in_concat in Hb. destruct Hb as (w' & Hw' & Hb). apply (HF w' Hw' r r' Hr). apply in_concat. eauto.
Qed.
Lemma distinct_workers workers :
  users_apart user workers ->
  distinct_users user (shown (all_rows workers)) = concat (map (fun w => distinct_users user (shown (concat w))) workers).
Proof.
  induction workers as [|w ws IH]; intros H.
  - unfold all_rows. cbn. assert (E : shown [] = []).
    { destruct (shown []) as [|x l] eqn:E; [reflexivity|]. exfalso. apply (shown_in [] x). rewrite E. now left. }
    now rewrite E.
  - cbn [map concat]. rewrite all_rows_cons, shown_app. rewrite distinct_users_app by now apply shown_apart.
    f_equal. apply IH. now inversion H.
Qed.
Lemma per_user_workers workers (g : list R -> Qc) :
  users_apart user workers ->
  map (fun p => g (rows_of user (shown (all_rows workers)) p)) (distinct_users user (shown (all_rows workers))) =
  concat (map (fun w => map (fun p => g (rows_of user (shown (concat w)) p)) (distinct_users user (shown (concat w)))) workers).
Proof.
  induction workers as [|w ws IH]; intros H.
  - unfold all_rows. cbn. assert (E : shown [] = []).
    { destruct (shown []) as [|x l] eqn:E; [reflexivity|]. exfalso. apply (shown_in [] x). rewrite E. now left. }
    now rewrite E.
  - cbn [map concat]. rewrite all_rows_cons, shown_app. pose proof (shown_apart w ws H) as HA.
    rewrite distinct_users_app by exact HA. rewrite map_app. f_equal.
    + apply map_ext_in. intros p Hp. apply distinct_users_in in Hp. apply in_map_iff in Hp. destruct Hp as (x & <- & Hx).
      rewrite rows_of_app. rewrite (rows_of_none user (shown (all_rows ws))); [now rewrite app_nil_r|].
      intros X. apply in_map_iff in X. destruct X as (y & Ey & Hy). apply (HA x y Hx Hy). congruence.
    + rewrite <- IH by now inversion H. apply map_ext_in. intros p Hp. apply distinct_users_in in Hp.
      apply in_map_iff in Hp. destruct Hp as (x & <- & Hx).
      rewrite rows_of_app. rewrite (rows_of_none user (shown (concat w))); [reflexivity|].
      intros X. apply in_map_iff in X. destruct X as (y & Ey & Hy). apply (HA y x Hy Hx). congruence.
Qed.
End Apart.

(** the rows of the report: kept by the filter, in the segment, in the group *)
Definition report_rows {R} (c : Columns R) (user : R -> Z) keep ex k (rows : list R) : list R :=
  of_group (c_key c) k (segment_rows user ex (filter keep rows)).
Lemma report_rows_app {R} (c : Columns R) user keep ex k a b :
  report_rows c user keep ex k (a ++ b) = (report_rows c user keep ex k a ++ report_rows c user keep ex k b)%list.
Proof. unfold report_rows, segment_rows, of_group. now rewrite !filter_app. Qed.
Lemma report_rows_in {R} (c : Columns R) user keep ex k a r : In r (report_rows c user keep ex k a) -> In r a.
Proof. unfold report_rows, segment_rows, of_group. rewrite !filter_In. tauto. Qed.

Lemma worker_parts {R} (c : Columns R) lo hi m keep (user : R -> Z) workers segs :
  (forall r, In r (all_rows workers) -> c_part c r = Some (user r) /\ user r <> 0%Z) ->
  forall cm ex w, In cm [(c, m)] -> In ex segs -> In w workers -> exists res, report_worker (fst cm) lo hi (snd cm) keep ex w = Some res.
Proof.
  intros H cm ex w [<-|[]] _ Hw. cbn [fst snd].
  apply C79_groups_everywhere_partial. intros r Hr _ E. destruct (H r (in_all_rows w workers r Hw Hr)). congruence.
Qed.

Theorem C55_unique_any_workers :
  forall R (c : Columns R) lo hi keep segs j ex workers (user : R -> Z) k,
    nth_error segs j = Some ex ->
    c_filter c = None ->
    (forall r, In r (all_rows workers) -> c_part c r = Some (user r) /\ user r <> 0%Z) ->
    Forall (fun w => StronglySorted Z.le (map user (concat w))) workers ->
    users_apart user workers ->
    report lo hi segs keep [(c, CountUnique)] workers 0 (Z.of_nat j) k =
    Some (match nodup Z.eq_dec (map user (report_rows c user keep ex k (all_rows workers))) with
          | [] => None | us => Some (qlen us) end).
Proof.
  intros R c lo hi keep segs j ex workers user k Hj HF HU HS HA.
  destruct (report_succeeds lo hi segs keep [(c, CountUnique)] workers 0 (Z.of_nat j) k) as [cell HC];
    [cbn; lia|now apply (worker_parts c lo hi CountUnique keep user)|].
  rewrite HC. f_equal.
  pose (L := fun w : list (list R) => map (fun _ => 0%Qc) (distinct_users user (report_rows c user keep ex k (concat w)))).
  assert (EL : concat (map L workers) = map (fun _ => 0%Qc) (distinct_users user (report_rows c user keep ex k (all_rows workers)))).
  { rewrite (distinct_workers user (report_rows c user keep ex k)).
    - unfold L. rewrite concat_map, map_map. reflexivity.
    - apply report_rows_app.
    - apply report_rows_in.
    - exact HA. }
  assert (X : match concat (map L workers) with
              | [] => cell = None | l => exists v, cell = Some v /\ is_agg Cnt l v end).
  { apply (combine_single lo hi c CountUnique keep segs j ex workers k L cell); auto; [discriminate| |intros [|]; discriminate].
    intros w res Hw Hres.
    destruct (C53_unique_counts_exact R c lo hi keep ex w user k) as (res' & Hres' & _ & Hk).
    - exact HF.
    - intros r Hr. apply HU. now apply (in_all_rows w).
    - rewrite Forall_forall in HS. now apply HS.
    - rewrite Hres in Hres'. injection Hres' as <-. cbv zeta in Hk.
      change (of_group (c_key c) k (segment_rows user ex (filter keep (concat w)))) with (report_rows c user keep ex k (concat w)) in Hk.
      rewrite Hk. unfold L. pose proof (distinct_users_len user (report_rows c user keep ex k (concat w))) as LN.
      destruct (distinct_users user (report_rows c user keep ex k (concat w))) as [|p ps] eqn:ED;
        destruct (nodup Z.eq_dec (map user (report_rows c user keep ex k (concat w)))) as [|u us] eqn:EN; try discriminate LN; [reflexivity|].
      cbn [map]. eexists. split; [reflexivity|]. cbn [op_of is_agg]. unfold qlen. rewrite <- LN. cbn [length]. now rewrite map_length. }
  rewrite EL in X. pose proof (distinct_users_len user (report_rows c user keep ex k (all_rows workers))) as LN.
  destruct (distinct_users user (report_rows c user keep ex k (all_rows workers))) as [|p ps];
    destruct (nodup Z.eq_dec (map user (report_rows c user keep ex k (all_rows workers)))) as [|u us]; try discriminate LN; [exact X|].
  cbn [map] in X. destruct X as (v & -> & Hv). cbn [is_agg] in Hv. f_equal. rewrite Hv. unfold qlen. rewrite <- LN.
  cbn [length]. now rewrite map_length.
Qed.
Print Assumptions C55_unique_any_workers.

Theorem C55_counts_per_user_any_workers_partial :
  forall R (c : Columns R) lo hi f keep segs j ex workers (user : R -> Z) k,
    f <> Avg ->
    nth_error segs j = Some ex ->
    c_filter c = None ->
    (lo <= 0)%Qc -> (qlen (all_rows workers) <= hi)%Qc ->
    (forall r, In r (all_rows workers) -> c_part c r = Some (user r) /\ user r <> 0%Z) ->
    Forall (fun w => StronglySorted Z.le (map user (concat w))) workers ->
    users_apart user workers ->
    exists cell,
      report lo hi segs keep [(c, CountPerGroup f)] workers 0 (Z.of_nat j) k = Some cell /\
      let rs := report_rows c user keep ex k (all_rows workers) in
      match rs with
      | [] => cell = None
      | _ => exists v, cell = Some v /\ is_agg f (map (fun p => qlen (rows_of user rs p)) (distinct_users user rs)) v
      end.
Proof.
  intros R c lo hi f keep segs j ex workers user k Hf Hj HF Hlo Hhi HU HS HA.
  destruct (report_succeeds lo hi segs keep [(c, CountPerGroup f)] workers 0 (Z.of_nat j) k) as [cell HC];
    [cbn; lia|now apply (worker_parts c lo hi (CountPerGroup f) keep user)|].
  exists cell. split; [exact HC|]. cbv zeta.
  pose (sh := report_rows c user keep ex k).
  pose (L := fun w : list (list R) => map (fun p => qlen (rows_of user (sh (concat w)) p)) (distinct_users user (sh (concat w)))).
  assert (EL : concat (map L workers) = map (fun p => qlen (rows_of user (sh (all_rows workers)) p)) (distinct_users user (sh (all_rows workers)))).
  { rewrite (per_user_workers user sh (report_rows_app c user keep ex k)
       (fun a r => report_rows_in c user keep ex k a r) workers qlen HA). reflexivity. }
  assert (SM : forall w, In w workers -> (length (concat w) <= length (all_rows workers))%nat).
  { intros w Hw. clear -Hw. induction workers as [|x ws IH]; [destruct Hw|]. rewrite all_rows_cons, app_length.
    destruct Hw as [->|Hw]; [lia|]. specialize (IH Hw). lia. }
  assert (X : match concat (map L workers) with
              | [] => cell = None | l => exists v, cell = Some v /\ is_agg f l v end).
  { apply (combine_single lo hi c (CountPerGroup f) keep segs j ex workers k L cell); auto.
    - intros w res Hw Hres.
      destruct (C77_counts_per_user_exact R c lo hi f keep ex w user k) as (res' & Hres' & _ & Hk); auto.
      + apply Qcle_trans with (qlen (all_rows workers)); [|exact Hhi]. apply qc_nat_le. auto.
      + intros r Hr. apply HU. now apply (in_all_rows w).
      + rewrite Forall_forall in HS. now apply HS.
      + rewrite Hres in Hres'. injection Hres' as <-. cbv zeta in Hk.
        change (of_group (c_key c) k (segment_rows user ex (filter keep (concat w)))) with (sh (concat w)) in Hk.
        unfold L. destruct (sh (concat w)) as [|r rs]; [exact Hk|]. exact Hk.
    - intros _ w x Hw Hx. unfold L in Hx. apply in_map_iff in Hx. destruct Hx as (p & <- & _). split.
      + apply Qcle_trans with 0%Qc; [exact Hlo|]. change 0%Qc with (qc_of_nat 0). apply qc_nat_le. lia.
      + apply Qcle_trans with (qlen (all_rows workers)); [|exact Hhi]. apply qc_nat_le. specialize (SM w Hw).
        assert (FL : forall A (g : A -> bool) l, (length (filter g l) <= length l)%nat).
        { intros A g l. induction l as [|y l IH]; [auto|]. cbn. destruct (g y); cbn; lia. }
        etransitivity; [|exact SM]. unfold sh, report_rows, rows_of, of_group, segment_rows.
        repeat (etransitivity; [apply FL|]). reflexivity. }
  rewrite EL in X. fold sh. destruct (sh (all_rows workers)) as [|r rs]; exact X.
Qed.
Print Assumptions C55_counts_per_user_any_workers_partial.

(** A property aggregated per user and then over users. *)
Lemma is_agg_unique f l v w : l <> [] -> is_agg f l v -> is_agg f l w -> v = w.
Proof.
  intros N. destruct f; cbn [is_agg]; intros A B; try congruence.
  - specialize (A N). specialize (B N). apply Qcle_antisym; [apply A, B|apply B, A].
  - specialize (A N). specialize (B N). apply Qcle_antisym; [apply B, A|apply A, B].
  - specialize (A N). specialize (B N).
    assert (Z : qlen l <> 0%Qc).
    { destruct l as [|x l]; [congruence|]. unfold qlen. cbn [length]. intros E. assert (H : (qc_of_nat 1 <= qc_of_nat (S (length l)))%Qc) by (apply qc_nat_le; lia).
      rewrite E in H. vm_compute in H. congruence. }
    transitivity (v * qlen l / qlen l)%Qc; [field; exact Z|]. rewrite A, <- B. field. exact Z.
Qed.
Lemma map_unique {A B} (P : A -> B -> Prop) ds (pu : list B) (g : A -> B) :
  Forall2 P ds pu -> (forall p, In p ds -> P p (g p)) -> (forall p v w, In p ds -> P p v -> P p w -> v = w) -> pu = map g ds.
Proof.
  intros F. induction F as [|d x ds pu H F IH]; intros G U; [reflexivity|]. cbn [map]. f_equal.
  - apply (U d); [now left|exact H|]. apply G. now left.
  - apply IH; [intros p Hp; apply G; now right|intros p v w Hp; apply U; now right].
Qed.
Lemma rows_of_worker {R} (user : R -> Z) (sh : list R -> list R) (Ha : forall a b, sh (a ++ b)%list = (sh a ++ sh b)%list)
  (Hi : forall a r, In r (sh a) -> In r a) workers : users_apart user workers ->
  forall w p, In w workers -> In p (map user (sh (concat w))) -> rows_of user (sh (all_rows workers)) p = rows_of user (sh (concat w)) p.
Proof.
  induction workers as [|w0 ws IH]; intros H w p Hw Hp; [destruct Hw|]. rewrite all_rows_cons, Ha, rows_of_app.
  pose proof (shown_apart user sh Hi w0 ws H) as HA. apply in_map_iff in Hp. destruct Hp as (x & <- & Hx). destruct Hw as [->|Hw].
  - rewrite (rows_of_none user (sh (all_rows ws))); [now rewrite app_nil_r|].
    intros X. apply in_map_iff in X. destruct X as (y & Ey & Hy). apply (HA x y Hx Hy). congruence.
  - rewrite (IH ltac:(now inversion H) w (user x) Hw) by now apply in_map. rewrite (rows_of_none user (sh (concat w0))); [reflexivity|].
    intros X. apply in_map_iff in X. destruct X as (y & Ey & Hy).
    assert (Hx' : In x (sh (all_rows ws))).
    { clear -Hx Hw Ha. induction ws as [|v vs IHv]; [destruct Hw|]. rewrite all_rows_cons, Ha. apply in_or_app. destruct Hw as [->|Hw]; [now left|right; auto]. }
    apply (HA y x Hy Hx'). congruence.
Qed.
Theorem C55_property_per_user_any_workers_partial :
  forall R (c : Columns R) lo hi fi fo keep segs j ex workers (user : R -> Z) (num : R -> Qc) k,
    fo <> Avg ->
    nth_error segs j = Some ex ->
    c_filter c = None ->
    (forall r, In r (all_rows workers) -> c_part c r = Some (user r) /\ user r <> 0%Z) ->
    (forall r, In r (all_rows workers) -> c_val c r = Some (num r) /\ (lo <= num r)%Qc /\ (num r <= hi)%Qc) ->
    Forall (fun w => StronglySorted Z.le (map user (concat w))) workers ->
    users_apart user workers ->
    let rs := report_rows c user keep ex k (all_rows workers) in
    (forall p w, In p (map user rs) -> is_agg fi (map num (rows_of user rs p)) w -> (lo <= w)%Qc /\ (w <= hi)%Qc) ->
    exists cell,
      report lo hi segs keep [(c, AggPerGroup fi fo)] workers 0 (Z.of_nat j) k = Some cell /\
      match rs with
      | [] => cell = None
      | _ => exists v per_user, cell = Some v /\
               Forall2 (fun p w => is_agg fi (map num (rows_of user rs p)) w) (distinct_users user rs) per_user /\
               is_agg fo per_user v
      end.
Proof.
  intros R c lo hi fi fo keep segs j ex workers user num k Hf Hj HF HU HV HS HA rs HB.
  destruct (report_succeeds lo hi segs keep [(c, AggPerGroup fi fo)] workers 0 (Z.of_nat j) k) as [cell HC];
    [cbn; lia|now apply (worker_parts c lo hi (AggPerGroup fi fo) keep user)|].
  exists cell. split; [exact HC|].
  pose (sh := report_rows c user keep ex k). change rs with (sh (all_rows workers)) in *. clear rs.
  pose (val := fun l : list R => result (acc_all (make_new lo hi fi) (map num l))).
  pose (L := fun w : list (list R) => map (fun p => val (rows_of user (sh (concat w)) p)) (distinct_users user (sh (concat w)))).
  assert (Sa : forall a b, sh (a ++ b)%list = (sh a ++ sh b)%list) by apply report_rows_app.
  assert (Si : forall a r, In r (sh a) -> In r a) by (intros a r; apply report_rows_in).
  assert (EL : concat (map L workers) = map (fun p => val (rows_of user (sh (all_rows workers)) p)) (distinct_users user (sh (all_rows workers)))).
  { rewrite (per_user_workers user sh Sa Si workers val HA). reflexivity. }
  assert (IV : forall rows p, (forall r, In r rows -> In r (all_rows workers)) -> is_agg fi (map num (rows_of user rows p)) (val (rows_of user rows p))).
  { intros rows p Hr. apply acc_is_agg. intros x Hx. apply in_map_iff in Hx. destruct Hx as (y & <- & Hy). unfold rows_of in Hy. apply filter_In in Hy. now apply HV, Hr. }
  assert (NE : forall rows p, In p (distinct_users user rows) -> map num (rows_of user rows p) <> []).
  { intros rows p Hp E. apply distinct_users_in in Hp. apply in_map_iff in Hp. destruct Hp as (y & <- & Hy).
    assert (X : In (num y) (map num (rows_of user rows (user y)))) by (apply in_map; unfold rows_of; apply filter_In; split; [exact Hy|apply Z.eqb_refl]).
    rewrite E in X. destruct X. }
  assert (SW : forall w, In w workers -> forall r, In r (sh (concat w)) -> In r (sh (all_rows workers))).
  { intros w Hw r Hr. clear -Hw Hr Sa. induction workers as [|v vs IHv]; [destruct Hw|]. rewrite all_rows_cons, Sa. apply in_or_app. destruct Hw as [->|Hw]; [now left|right; auto]. }
  assert (X : match concat (map L workers) with
              | [] => cell = None | l => exists v, cell = Some v /\ is_agg fo l v end).
  { apply (combine_single lo hi c (AggPerGroup fi fo) keep segs j ex workers k L cell); auto.
    - intros w res Hw Hres.
      assert (SWw := SW w Hw).
      destruct (C78_property_per_user_partial R c lo hi fi fo keep ex w user num k) as (res' & Hres' & _ & Hk); auto.
      + intros r Hr. apply HU. now apply (in_all_rows w).
      + intros r Hr. apply HV. now apply (in_all_rows w).
      + rewrite Forall_forall in HS. now apply HS.
      + change (of_group (c_key c) k (segment_rows user ex (filter keep (concat w)))) with (sh (concat w)).
        intros p x Hp Hx. apply (HB p x).
        * apply in_map_iff in Hp. destruct Hp as (y & <- & Hy). apply in_map, SWw, Hy.
        * now rewrite (rows_of_worker user sh Sa Si workers HA w p Hw Hp).
      + rewrite Hres in Hres'. injection Hres' as <-. cbv zeta in Hk.
        change (of_group (c_key c) k (segment_rows user ex (filter keep (concat w)))) with (sh (concat w)) in Hk.
        assert (PU : forall per_user, Forall2 (fun p w0 => is_agg fi (map num (rows_of user (sh (concat w)) p)) w0) (distinct_users user (sh (concat w))) per_user -> per_user = L w).
        { intros pu F. apply (map_unique _ _ _ _ F).
          - intros p _. apply IV. intros r Hr. apply Si in Hr. now apply (in_all_rows w).
          - intros p x y Hp. apply is_agg_unique, NE, Hp. }
        unfold L at 1. unfold L in PU. destruct (sh (concat w)) as [|r rs]; [exact Hk|]. destruct Hk as (v & pu & Hv & F & G).
        rewrite (PU pu F) in G. exists v. split; [exact Hv|exact G].
    - intros _ w x Hw Hx. unfold L in Hx. apply in_map_iff in Hx. destruct Hx as (p & <- & Hp).
      assert (Hp' : In p (map user (sh (concat w)))) by now apply distinct_users_in. apply (HB p).
      + apply in_map_iff in Hp'. destruct Hp' as (y & <- & Hy). apply in_map, (SW w Hw), Hy.
      + rewrite (rows_of_worker user sh Sa Si workers HA w p Hw Hp'). apply IV. intros r Hr. apply Si in Hr. now apply (in_all_rows w). }
  rewrite EL in X.
  assert (F : Forall2 (fun p w => is_agg fi (map num (rows_of user (sh (all_rows workers)) p)) w) (distinct_users user (sh (all_rows workers)))
     (map (fun p => val (rows_of user (sh (all_rows workers)) p)) (distinct_users user (sh (all_rows workers))))).
  { generalize (distinct_users user (sh (all_rows workers))). intros ds. induction ds as [|d ds IHd]; constructor; [|exact IHd].
    apply IV. intros r Hr. now apply Si in Hr. }
  destruct (sh (all_rows workers)) as [|r rs]; [exact X|]. destruct X as (v & Hv & G). eexists v, _. split; [exact Hv|]. split; [exact F|exact G].
Qed.
Print Assumptions C55_property_per_user_any_workers_partial.

(** Three rows on two workers; users 1 and 3 on the first one. *)
Definition c55_workers : list (list (list (Z * Z))) := [[[(1, 7)]; [(3, 7); (3, 8)]]; [[(2, 7); (2, 7)]]]%Z.
Example C55_workers_witness :
  report 0 (qc_of_nat 100) [None] (fun _ => true) [(c53_cols, CountEvents)] c55_workers 0 0 [7%Z] = Some (Some (qc_of_nat 4)) /\
  report 0 (qc_of_nat 100) [None] (fun _ => true) [(c53_cols, CountUnique)] c55_workers 0 0 [7%Z] = Some (Some (qc_of_nat 3)) /\
  report 0 (qc_of_nat 100) [None] (fun _ => true) [(c53_cols, CountPerGroup Max)] c55_workers 0 0 [7%Z] = Some (Some (qc_of_nat 2)) /\
  users_apart fst c55_workers /\ Forall (fun w => StronglySorted Z.le (map fst (concat w))) c55_workers.
Proof.
  split; [vm_compute; reflexivity|]. split; [vm_compute; reflexivity|]. split; [vm_compute; reflexivity|]. split.
  - repeat constructor. intros r r' Hr Hr'. cbn in Hr, Hr'.
    repeat destruct Hr as [<-|Hr]; repeat destruct Hr' as [<-|Hr']; cbn; try discriminate; contradiction.
  - unfold c55_workers. cbn [concat app map fst]. repeat (first [progress cbn [fst]; lia | lia | constructor]).
Qed.

(** The sum per user, the least of those over the users of both workers: 12, 5 and 9. *)
Definition c55_prop_cols : Columns (Z * Z) := mkCols (fun r => Some (fst r)) (fun r => fst r) (fun _ => [7%Z]) None
  (fun r => Some (qc_of_nat (Z.to_nat (snd r)))) (fun r => qc_of_nat (Z.to_nat (snd r))).
Definition c55_prop_workers : list (list (list (Z * Z))) := [[[(1, 5); (1, 7)]; [(3, 5)]]; [[(2, 9)]]]%Z.
Example C55_property_per_user_witness :
  report 0 (qc_of_nat 100) [None] (fun _ => true) [(c55_prop_cols, AggPerGroup Sum Min)] c55_prop_workers 0 0 [7%Z] = Some (Some (qc_of_nat 5)) /\
  report 0 (qc_of_nat 100) [None] (fun _ => true) [(c55_prop_cols, AggPerGroup Sum Max)] c55_prop_workers 0 0 [7%Z] = Some (Some (qc_of_nat 12)) /\
  users_apart fst c55_prop_workers /\ Forall (fun w => StronglySorted Z.le (map fst (concat w))) c55_prop_workers.
Proof.
  split; [vm_compute; reflexivity|]. split; [vm_compute; reflexivity|]. split.
  - repeat constructor. intros r r' Hr Hr'. cbn in Hr, Hr'.
    repeat destruct Hr as [<-|Hr]; repeat destruct Hr' as [<-|Hr']; cbn; try discriminate; contradiction.
  - unfold c55_prop_workers. cbn [concat app map fst]. repeat (first [progress cbn [fst]; lia | lia | constructor]).
Qed.

(** *** Averages depend on how the users are spread over the workers *)
Lemma single_cells {R} lo hi (c : Columns R) m keep ex k workers resss :
  Forall2 (fun w ress => Forall2 (fun cm res => report_worker (fst cm) lo hi (snd cm) keep ex w = Some res) [(c, m)] ress) workers resss ->
  Forall2 (fun w vs => exists res, report_worker c lo hi m keep ex w = Some res /\
             vs = match aget qkey_dec k res with None => [] | Some v => [v] end) workers (map (cells 0 k 0) resss).
Proof.
  induction 1 as [|w ress ws resss H HR IH]; cbn [map]; constructor; [|exact IH].
  inversion H as [|? res ? ress' Hres HN]; subst. inversion HN; subst. exists res. split; [exact Hres|].
  cbn [cells Nat.eqb]. now rewrite app_nil_r.
Qed.

Theorem C55_average_workers_refuted :
  forall R (c : Columns R) lo hi m keep ex w1 w2 k res1 res2 v1 v2 l1 l2,
    asks m = Avg ->
    report_worker c lo hi m keep ex w1 = Some res1 -> aget qkey_dec k res1 = Some v1 ->
    report_worker c lo hi m keep ex w2 = Some res2 -> aget qkey_dec k res2 = Some v2 ->
    l1 <> [] -> l2 <> [] -> is_agg Avg l1 v1 -> is_agg Avg l2 v2 ->
    v1 <> v2 -> length l1 <> length l2 ->
    exists v,
      report lo hi [ex] keep [(c, m)] [w1; w2] 0 0 k = Some (Some v) /\
      (v * (1 + 1) = v1 + v2)%Qc /\
      ~ is_agg Avg (l1 ++ l2)%list v.
Proof.
  intros R c lo hi m keep ex w1 w2 k res1 res2 v1 v2 l1 l2 Hm E1 A1 E2 A2 N1 N2 G1 G2 Hne Hlen. rewrite asks_op in Hm.
  destruct (report_succeeds lo hi [ex] keep [(c, m)] [w1; w2] 0 0 k) as [cell HC].
  { cbn. lia. }
  { intros cm ex' w [<-|[]] [<-|[]] [<-|[<-|[]]]; cbn [fst snd]; eauto. }
  destruct (report_spec lo hi [ex] keep [(c, m)] [w1; w2] 0 c m 0 ex k cell eq_refl eq_refl HC) as (resss & HR & Hc).
  pose proof (single_cells lo hi c m keep ex k _ _ HR) as HS. rewrite flat_map_concat_map in Hc.
  inversion HS as [|? vs1 ? t1 (r1 & Er1 & Hv1) HS1 Q1 Q2]; subst. inversion HS1 as [|? vs2 ? t2 (r2 & Er2 & Hv2) HS2 Q3 Q4]; subst. inversion HS2; subst.
  rewrite E1 in Er1. injection Er1 as <-. rewrite E2 in Er2. injection Er2 as <-. rewrite A1 in *. rewrite A2 in *.
  rewrite <- Q2 in HC. cbn [concat app] in HC. rewrite Hm in HC. cbn [combine_fn make_new] in HC. rewrite acc_avg in HC. cbn [result] in HC.
  eexists. split; [exact HC|].
  assert (T : (1 + 1)%Qc <> 0%Qc). { change (1 + 1)%Qc with (qc_of_nat 2). now apply qc_nat_nonzero. }
  assert (EV : ((0 + qsum [v1; v2]) / (0 + qlen [v1; v2]))%Qc = ((v1 + v2) / (1 + 1))%Qc).
  { change (qsum [v1; v2]) with (v1 + (v2 + 0))%Qc. unfold qlen. cbn [length]. rewrite !qc_nat_S, qc_nat_0. field;
    repeat split; first [exact T | intros X; apply T; rewrite <- X; ring]. }
  rewrite EV. split; [field; exact T|].
  cbn [is_agg] in *. intros H. specialize (G1 N1). specialize (G2 N2).
  assert (NE : (l1 ++ l2)%list <> []) by (destruct l1; [congruence|discriminate]).
  specialize (H NE). rewrite qlen_app, qsum_app, <- G1, <- G2 in H.
  assert (H2 : ((v1 - v2) * (qlen l2 - qlen l1) = 0)%Qc).
  { apply (f_equal (fun x => (x * (1 + 1))%Qc)) in H.
    replace ((v1 + v2) / (1 + 1) * (qlen l1 + qlen l2) * (1 + 1))%Qc with ((v1 + v2) * (qlen l1 + qlen l2))%Qc in H by (field; exact T).
    replace ((v1 - v2) * (qlen l2 - qlen l1))%Qc with ((v1 + v2) * (qlen l1 + qlen l2) - (v1 * qlen l1 + v2 * qlen l2) * (1 + 1))%Qc by ring.
    rewrite H. ring. }
  apply Qcmult_integral in H2. destruct H2 as [H2|H2].
  - apply Hne. replace v1 with (v1 - v2 + v2)%Qc by ring. rewrite H2. ring.
  - apply Hlen. unfold qlen in H2. symmetry. apply qc_nat_inj.
    replace (qc_of_nat (length l2)) with (qc_of_nat (length l2) - qc_of_nat (length l1) + qc_of_nat (length l1))%Qc by ring.
    rewrite H2. ring.
Qed.
Print Assumptions C55_average_workers_refuted.

(** Values 1 and 1 on one worker, 4 on the other: 5/2 instead of 2. *)
Example C55_average_workers_refuted_witness :
  report 0 (qc_of_nat 100) [None] (fun _ => true) [(c78_cols, AggProperty Avg)]
    [[[(1%Z, Some (qc_of_nat 1)); (1%Z, Some (qc_of_nat 1))]]; [[(2%Z, Some (qc_of_nat 4))]]] 0 0 []
  = Some (Some (qc_of_nat 5 / qc_of_nat 2)%Qc) /\
  report 0 (qc_of_nat 100) [None] (fun _ => true) [(c78_cols, AggProperty Avg)]
    [[[(1%Z, Some (qc_of_nat 1)); (1%Z, Some (qc_of_nat 1)); (2%Z, Some (qc_of_nat 4))]]] 0 0 []
  = Some (Some (qc_of_nat 2)).
Proof. vm_compute. split; reflexivity. Qed.

(** *** Several metrics *)
Lemma cells_single {R} lo hi keep ex w k (ms : list (Columns R * Metric)) i c m :
  nth_error ms i = Some (c, m) ->
  forall ress, Forall2 (fun cm res => report_worker (fst cm) lo hi (snd cm) keep ex w = Some res) ms ress ->
  exists res, report_worker c lo hi m keep ex w = Some res /\
    forall j p, p = (j + i)%nat ->
      exists a b za zb, cells p k j ress = (a ++ match aget qkey_dec k res with None => [] | Some v => [v] end ++ b)%list /\
        a = repeat 0%Qc za /\ b = repeat 0%Qc zb.
Proof.
  intros Hi ress HF. revert i Hi. induction HF as [|cm res0 ms ress H HF IH]; intros i Hi; [destruct i; discriminate|].
  assert (ZZ : forall (rs : list (list (QKey * Qc))) j p, (p < j)%nat -> exists z, cells p k j rs = repeat 0%Qc z).
  { clear. induction rs as [|r rs IH]; intros j p Hp; [exists 0%nat; reflexivity|]. cbn [cells].
    destruct (IH (S j) p) as [z Hz]; [lia|]. rewrite Hz. destruct (aget qkey_dec k r); [|exists z; reflexivity].
    exists (S z). cbn. destruct (Nat.eqb j p) eqn:E; [apply Nat.eqb_eq in E; lia|reflexivity]. }
  destruct i as [|i]; cbn [nth_error] in Hi.
  - injection Hi as ->. exists res0. split; [exact H|]. intros j p ->. cbn [cells].
    destruct (ZZ ress (S j) (j + 0)%nat) as [z Hz]; [lia|]. rewrite Hz.
    exists [], (repeat 0%Qc z), 0%nat, z. repeat split. cbn [app]. f_equal.
    replace (j + 0)%nat with j by lia. now rewrite Nat.eqb_refl.
  - destruct (IH i Hi) as (res & Hres & HC). exists res. split; [exact Hres|]. intros j p ->.
    destruct (HC (S j) (j + S i)%nat) as (a & b & za & zb & E & -> & ->); [lia|]. cbn [cells]. rewrite E.
    destruct (aget qkey_dec k res0) as [v|].
    + exists (repeat 0%Qc (S za)), (repeat 0%Qc zb), (S za), zb. split; [|split; reflexivity].
      destruct (Nat.eqb j (j + S i)) eqn:EQ; [apply Nat.eqb_eq in EQ; lia|]. reflexivity.
    + exists (repeat 0%Qc za), (repeat 0%Qc zb), za, zb. repeat split.
Qed.

Lemma qsum_zeros n : qsum (repeat 0%Qc n) = 0%Qc.
Proof. induction n as [|n IH]; [reflexivity|]. cbn [repeat]. change (0 + qsum (repeat 0%Qc n) = 0)%Qc. rewrite IH. ring. Qed.

(** Counts and sums are the same alone or beside other metrics, except that a missing cell may
    become 0. *)
Theorem C55_counts_and_sums_partial :
  forall R lo hi keep segs j ex (ms : list (Columns R * Metric)) i c m workers k cell,
    nth_error ms i = Some (c, m) -> asks m = Cnt \/ asks m = Sum ->
    nth_error segs j = Some ex ->
    report lo hi segs keep ms workers i (Z.of_nat j) k = Some cell ->
    exists alone,
      report lo hi segs keep [(c, m)] workers 0 (Z.of_nat j) k = Some alone /\
      match alone with
      | Some v => cell = Some v
      | None => cell = None \/ cell = Some 0%Qc
      end.
Proof.
  intros R lo hi keep segs j ex ms i c m workers k cell Hi Hop Hj HC. rewrite asks_op in Hop.
  destruct (report_succeeds lo hi segs keep [(c, m)] workers 0 (Z.of_nat j) k) as [alone HA].
  { cbn. lia. }
  { intros cm ex' w [<-|[]] He Hw. apply (report_needs lo hi segs keep ms workers i (Z.of_nat j) k cell HC (c, m) ex' w); auto.
    now apply nth_error_In with i. }
  exists alone. split; [exact HA|].
  destruct (report_spec lo hi segs keep ms workers i c m j ex k cell Hi Hj HC) as (resss & HR & ->).
  destruct (report_spec lo hi segs keep [(c, m)] workers 0 c m j ex k alone eq_refl Hj HA) as (rs1 & HR1 & ->).
  assert (EF : combine_fn (op_of m) = Sum) by (destruct Hop as [-> | ->]; reflexivity). rewrite EF. cbn [make_new].
  assert (Q : qsum (flat_map (cells i k 0) resss) = qsum (flat_map (cells 0 k 0) rs1) /\
              (flat_map (cells i k 0) resss = [] -> flat_map (cells 0 k 0) rs1 = [])).
  { pose proof (single_cells lo hi c m keep ex k _ _ HR1) as HS. clear HR1 HC HA.
    revert rs1 HS. induction HR as [|w ress ws resss H HR IH]; intros rs1 HS.
    - destruct rs1; [split; auto|]. inversion HS.
    - destruct rs1 as [|r1 rs1]; [inversion HS|]. cbn [map] in HS. inversion HS as [|? ? ? ? (res & Hres & E) HS']; subst.
      destruct (IH rs1 HS') as [IS IE]. cbn [flat_map]. rewrite !qsum_app, IS, E.
      destruct (cells_single lo hi keep ex w k ms i c m Hi ress H) as (res' & Hres' & HC').
      rewrite Hres in Hres'. injection Hres' as <-.
      destruct (HC' 0%nat i) as (a & b & za & zb & -> & -> & ->); [reflexivity|].
      rewrite !qsum_app, !qsum_zeros. split; [ring|].
      intros Z0. apply app_eq_nil in Z0. destruct Z0 as [Z1 Z2]. apply app_eq_nil in Z1. destruct Z1 as [_ Z1].
      apply app_eq_nil in Z1. destruct Z1 as [Z1 _]. rewrite Z1, (IE Z2). reflexivity. }
  destruct Q as [QS QE].
  destruct (flat_map (cells 0 k 0) rs1) as [|v vs].
  - destruct (flat_map (cells i k 0) resss) as [|u us]; [now left|]. right. f_equal. rewrite acc_sum. cbn [result].
    rewrite QS. change (qsum []) with 0%Qc. ring.
  - destruct (flat_map (cells i k 0) resss) as [|u us]; [discriminate (QE eq_refl)|].
    f_equal. rewrite !acc_sum. cbn [result]. now rewrite QS.
Qed.
Print Assumptions C55_counts_and_sums_partial.

(** A minimum beside another metric that has a value for the group is never positive. *)
Theorem C55_minimum_beside_others_refuted :
  forall R lo hi keep segs j ex (ms : list (Columns R * Metric)) i c m i2 c2 m2 workers k cell v v2,
    nth_error ms i = Some (c, m) -> asks m = Min ->
    nth_error ms i2 = Some (c2, m2) -> i2 <> i ->
    nth_error segs j = Some ex ->
    report lo hi segs keep [(c, m)] workers 0 (Z.of_nat j) k = Some (Some v) ->
    report lo hi segs keep [(c2, m2)] workers 0 (Z.of_nat j) k = Some (Some v2) ->
    report lo hi segs keep ms workers i (Z.of_nat j) k = Some cell ->
    (0 < v)%Qc -> cell = Some 0%Qc.
Proof.
  intros R lo hi keep segs j ex ms i c m i2 c2 m2 workers k cell v v2 Hi Hop Hi2 Hne Hj HA HA2 HC Hv. rewrite asks_op in Hop.
  destruct (report_spec lo hi segs keep ms workers i c m j ex k cell Hi Hj HC) as (resss & HR & ->).
  destruct (report_spec lo hi segs keep [(c, m)] workers 0 c m j ex k _ eq_refl Hj HA) as (rs1 & HR1 & E1).
  destruct (report_spec lo hi segs keep [(c2, m2)] workers 0 c2 m2 j ex k _ eq_refl Hj HA2) as (rs2 & HR2 & E2).
  assert (EF : combine_fn (op_of m) = Min) by now rewrite Hop. rewrite EF in *. cbn [make_new] in *.
  set (vsM := flat_map (cells i k 0) resss). set (vs1 := flat_map (cells 0 k 0) rs1) in *.
  assert (H1 : vs1 <> [] /\ exists m1, acc_all (AMin hi) vs1 = AMin m1 /\ m1 = v).
  { destruct vs1 as [|a l] eqn:EV; [discriminate|]. split; [discriminate|].
    destruct (acc_min (a :: l) hi) as (x & Hx & _). exists x. split; [exact Hx|]. rewrite Hx in E1. cbn in E1. congruence. }
  destruct H1 as (N1 & m1 & Hm1 & ->). destruct (acc_min vs1 hi) as (x & Hx & Hin & Hle & Hall).
  rewrite Hx in Hm1. injection Hm1 as ->.
  (* the zero of the other metric *)
  assert (Z0 : In 0%Qc vsM).
  { pose proof (single_cells lo hi c2 m2 keep ex k _ _ HR2) as HS. clear HR1 HR2 HC HA HA2 E1.
    unfold vsM. clear vsM. revert rs2 HS E2. induction HR as [|w ress ws resss H HR IH]; intros rs2 HS E2.
    - destruct rs2; [discriminate|inversion HS].
    - destruct rs2 as [|r2 rs2]; [inversion HS|]. cbn [map] in HS. inversion HS as [|? ? ? ? (res & Hres & E) HS']; subst.
      cbn [flat_map] in *. apply in_or_app.
      destruct (aget qkey_dec k res) as [u|] eqn:EU.
      + left. clear -H Hi2 Hne Hres EU. assert (G : forall jj p, p <> (jj + i2)%nat -> In 0%Qc (cells p k jj ress)).
        { clear Hne. revert i2 Hi2. induction H as [|cm r0 ms ress H HF IH]; intros i2 Hi2 jj p Hp; [destruct i2; discriminate|].
          destruct i2 as [|i2]; cbn [nth_error] in Hi2.
          - injection Hi2 as ->. cbn [fst snd] in H. rewrite Hres in H. injection H as <-. cbn [cells]. rewrite EU.
            apply in_or_app. left. left. destruct (Nat.eqb jj p) eqn:EQ; [apply Nat.eqb_eq in EQ; lia|reflexivity].
          - cbn [cells]. apply in_or_app. right. apply (IH i2 Hi2). lia. }
        apply (G 0%nat i). lia.
      + right. apply (IH rs2 HS'). rewrite E in E2. exact E2. }
  (* everything else comes from the metric itself *)
  assert (SUB : forall y, In y vsM -> y = 0%Qc \/ In y vs1).
  { pose proof (single_cells lo hi c m keep ex k _ _ HR1) as HS. clear HR1 HR2 HC HA HA2 E1 E2 Z0 Hall Hin Hx N1.
    unfold vsM, vs1. clear vsM vs1. revert rs1 HS. induction HR as [|w ress ws resss H HR IH]; intros rs1 HS y Hy; [destruct Hy|].
    destruct rs1 as [|r1 rs1]; [inversion HS|]. cbn [map] in HS. inversion HS as [|? ? ? ? (res & Hres & E) HS']; subst.
    cbn [flat_map] in *. apply in_app_or in Hy. destruct Hy as [Hy|Hy].
    - destruct (cells_single lo hi keep ex w k ms i c m Hi ress H) as (res' & Hres' & HC').
      rewrite Hres in Hres'. injection Hres' as <-.
      destruct (HC' 0%nat i) as (a & b & za & zb & Ec & -> & ->); [reflexivity|]. rewrite Ec in Hy.
      apply in_app_or in Hy. destruct Hy as [Hy|Hy]; [left; now apply repeat_spec in Hy|].
      apply in_app_or in Hy. destruct Hy as [Hy|Hy]; [|left; now apply repeat_spec in Hy].
      right. apply in_or_app. left. rewrite E. exact Hy.
    - destruct (IH rs1 HS' y Hy) as [->|G]; [now left|right]. apply in_or_app. now right. }
  clearbody vsM. destruct (acc_min vsM hi) as (y & Hy & Hyin & Hyle & Hyall).
  assert (Ey : y = 0%Qc).
  { specialize (Hyall 0%Qc Z0). destruct Hyin as [->|Hyin].
    - exfalso. apply (Qclt_not_le 0 hi); [|exact Hyall]. now apply Qclt_le_trans with v.
    - destruct (SUB y Hyin) as [->|G]; [reflexivity|]. exfalso. apply (Qclt_not_le 0 y); [|exact Hyall].
      apply Qclt_le_trans with v; [exact Hv|]. now apply Hall. }
  subst y. destruct vsM as [|a l]; [destruct Z0|]. rewrite Hy. reflexivity.
Qed.
Print Assumptions C55_minimum_beside_others_refuted.

(** An average beside one other metric is halved. *)
Theorem C55_average_beside_others_refuted :
  forall R lo hi keep ex (c c2 : Columns R) m m2 w k res res2 v v2,
    asks m = Avg ->
    report_worker c lo hi m keep ex w = Some res -> aget qkey_dec k res = Some v ->
    report_worker c2 lo hi m2 keep ex w = Some res2 -> aget qkey_dec k res2 = Some v2 ->
    report lo hi [ex] keep [(c, m)] [w] 0 0 k = Some (Some v) /\
    report lo hi [ex] keep [(c, m); (c2, m2)] [w] 0 0 k = Some (Some (v / (1 + 1))%Qc).
Proof.
  intros R lo hi keep ex c c2 m m2 w k res res2 v v2 Hm E1 A1 E2 A2. rewrite asks_op in Hm. split.
  - destruct (report_succeeds lo hi [ex] keep [(c, m)] [w] 0 0 k) as [cell HC].
    { cbn. lia. }
    { intros cm ex' w' [<-|[]] [<-|[]] [<-|[]]; cbn [fst snd]; eauto. }
    rewrite HC. f_equal.
    destruct (report_spec lo hi [ex] keep [(c, m)] [w] 0 c m 0 ex k cell eq_refl eq_refl HC) as (resss & HR & ->).
    inversion HR as [|? ress ? t H HR1]; subst. inversion HR1; subst. inversion H as [|? r ? t Hr HN]; subst. inversion HN; subst.
    cbn [fst snd] in Hr. rewrite E1 in Hr. injection Hr as <-. cbn [flat_map cells Nat.eqb]. rewrite A1. cbn [app].
    f_equal. rewrite Hm. cbn [combine_fn make_new]. rewrite acc_avg. cbn [result].
    change (qsum [v]) with (v + 0)%Qc. unfold qlen. cbn [length]. rewrite qc_nat_S, qc_nat_0. field;
    discriminate.
  - destruct (report_succeeds lo hi [ex] keep [(c, m); (c2, m2)] [w] 0 0 k) as [cell HC].
    { cbn. lia. }
    { intros cm ex' w' [<-|[<-|[]]] [<-|[]] [<-|[]]; cbn [fst snd]; eauto. }
    rewrite HC. f_equal.
    destruct (report_spec lo hi [ex] keep [(c, m); (c2, m2)] [w] 0 c m 0 ex k cell eq_refl eq_refl HC) as (resss & HR & ->).
    inversion HR as [|? ress ? t H HR1]; subst. inversion HR1; subst. inversion H as [|? r ? t Hr HN]; subst.
    inversion HN as [|? r2 ? t2 Hr2 HN2]; subst. inversion HN2; subst.
    cbn [fst snd] in Hr, Hr2. rewrite E1 in Hr. injection Hr as <-. rewrite E2 in Hr2. injection Hr2 as <-.
    cbn [flat_map cells Nat.eqb]. rewrite A1, A2. cbn [app].
    f_equal. rewrite Hm. cbn [combine_fn make_new]. rewrite acc_avg. cbn [result].
    change (qsum [v; 0%Qc]) with (v + (0 + 0))%Qc. unfold qlen. cbn [length]. rewrite !qc_nat_S, qc_nat_0.
    assert (T : (1 + 1)%Qc <> 0%Qc). { change (1 + 1)%Qc with (qc_of_nat 2). now apply qc_nat_nonzero. }
    field; repeat split; first [exact T | intros X; apply T; rewrite <- X; ring].
Qed.
Print Assumptions C55_average_beside_others_refuted.

(** Values 5 and 2: the minimum alone is 2 and the average 7/2; beside the number of events
    the minimum is 0 and the average 7/4, while the number of events stays 2. *)
Definition c55_two : list (list (list (Z * option Qc))) := [[[(1%Z, Some (qc_of_nat 5)); (1%Z, Some (qc_of_nat 2))]]].
Example C55_metrics_witness :
  report 0 (qc_of_nat 100) [None] (fun _ => true) [(c78_cols, AggProperty Min)] c55_two 0 0 [] = Some (Some (qc_of_nat 2)) /\
  report 0 (qc_of_nat 100) [None] (fun _ => true) [(c78_cols, AggProperty Min); (c78_cols, CountEvents)] c55_two 0 0 [] = Some (Some 0%Qc) /\
  report 0 (qc_of_nat 100) [None] (fun _ => true) [(c78_cols, AggProperty Avg); (c78_cols, CountEvents)] c55_two 0 0 []
    = Some (Some (qc_of_nat 7 / qc_of_nat 4)%Qc) /\
  report 0 (qc_of_nat 100) [None] (fun _ => true) [(c78_cols, AggProperty Min); (c78_cols, CountEvents)] c55_two 1 0 [] = Some (Some (qc_of_nat 2)).
Proof. vm_compute. repeat split. Qed.
