(** C135: the number types behind aggregated properties. *)
From Coq Require Import List ZArith QArith Qcanon Bool Lia.
From Verif Require Import Aggregate AggSpec AggFacts Md Numbers NumbersSpec NumbersFacts NumbersCells NumbersUsers.
Import ListNotations.
Local Open Scope Qc_scope.

(** The aggregate of a property with a column of numbers, computed by any number of workers,
    each in the machine types the planner chose, is the aggregate of what the stored values
    stand for, as long as sums and counts have room.  (Averages: one worker.) *)
Theorem C135_property_partial dt f workers :
  is_number dt = true ->
  (forall v, In v (concat workers) -> storable dt v) ->
  busy workers <> [] ->
  (f = Avg -> length (busy workers) = 1%nat) ->
  room dt f (map (worth dt) (concat workers)) ->
  exists v, report_property dt f workers = Done (Some (Some v)) /\ is_agg f (map (worth dt) (concat workers)) v.
Proof. apply property_ok. Qed.
Print Assumptions C135_property_partial.

(** The sum of 1.5, 2.25 and -1 over two workers that hold decimals. *)
Example C135_property_witness :
  let ws := [[of_int 15000000000000000; of_int 22500000000000000]; []; [of_int (- 10000000000000000)]] in
  (forall v, In v (concat ws) -> storable DDec v) /\ room DDec Sum (map (worth DDec) (concat ws)) /\
  report_property DDec Sum ws = Done (Some (Some (Q2Qc (11 # 4)))) /\
  report_property DDec Max ws = Done (Some (Some (Q2Qc (9 # 4)))) /\
  report_property DDec Cnt ws = Done (Some (Some (Q2Qc 3))).
Proof.
  cbv zeta. split; [|split; [vm_compute; discriminate|]].
  - intros v [<- |[<- |[<- |[]]]]; (eexists; split; [reflexivity|split; vm_compute; discriminate]).
  - split; [|split]; vm_compute; do 3 f_equal; now apply Qc_is_canon.
Qed.

(** The same for a property aggregated per user and then over the users: every user's rows lie
    together and with one worker. *)
Theorem C135_per_user_partial dt fi fo users :
  is_number dt = true ->
  NoDup (map fst (concat users)) ->
  (forall u, In u (concat users) ->
     snd u <> [] /\ (forall v, In v (snd u) -> storable dt v) /\ room dt fi (map (worth dt) (snd u))) ->
  busy users <> [] ->
  (fo = Avg -> length (busy users) = 1%nat) ->
  (forall ws, Forall2 (fun u w => is_agg fi (map (worth dt) (snd u)) w) (concat users) ws -> room (kind dt fi) fo ws) ->
  exists ws v,
    Forall2 (fun u w => is_agg fi (map (worth dt) (snd u)) w) (concat users) ws /\
    report_per_user dt fi fo (map rows_of_users users) = Done (Some (Some v)) /\ is_agg fo ws v.
Proof. apply per_user_ok. Qed.
Print Assumptions C135_per_user_partial.

(** Three users with 64-bit integers on two workers: the largest sum of a user is 12, the
    average of the first worker's sums 9/2 + 3 = 15/2. *)
Example C135_per_user_witness :
  let us := [[(1%Z, [of_int 5; of_int 7]); (2%Z, [of_int 3])]; [(4%Z, [of_int 1; of_int 1])]] in
  NoDup (map fst (concat us)) /\
  (forall u, In u (concat us) -> snd u <> [] /\ (forall v, In v (snd u) -> storable DInt64 v) /\ room DInt64 Sum (map (worth DInt64) (snd u))) /\
  (forall ws, Forall2 (fun u w => is_agg Sum (map (worth DInt64) (snd u)) w) (concat us) ws -> room (kind DInt64 Sum) Max ws) /\
  report_per_user DInt64 Sum Max (map rows_of_users us) = Done (Some (Some (Q2Qc 12))) /\
  report_per_user DInt64 Sum Avg (map rows_of_users (firstn 1 us)) = Done (Some (Some (Q2Qc (15 # 2)))).
Proof.
  cbv zeta. split; [|split; [|split]].
  - cbn. repeat constructor; cbn; intuition discriminate.
  - intros u [<- |[<- |[<- |[]]]]; (split; [discriminate|split; [|vm_compute; discriminate]]); intros v Hv; cbn [snd In] in Hv;
      repeat (destruct Hv as [<- |Hv]; [eexists; split; [reflexivity|split; vm_compute; discriminate]|]); destruct Hv.
  - intros ws _. exact Logic.I.
  - split; vm_compute; do 3 f_equal; now apply Qc_is_canon.
Qed.

(** The number of events per user, aggregated over the users. *)
Theorem C135_counted_partial fo (users : list (list (Z * list unit))) :
  NoDup (map fst (concat users)) ->
  (forall u, In u (concat users) -> snd u <> [] /\ qlen (snd u) <= of_int (2 ^ 63 - 1)) ->
  busy users <> [] ->
  (fo = Avg -> length (busy users) = 1%nat) ->
  room DInt64 fo (map (fun u => qlen (snd u)) (concat users)) ->
  exists v, report_counted fo (map rows_of_users users) = Done (Some (Some v)) /\
    is_agg fo (map (fun u => qlen (snd u)) (concat users)) v.
Proof. apply counted_ok. Qed.
Print Assumptions C135_counted_partial.

Example C135_counted_witness :
  let us := [[(1%Z, [tt; tt; tt]); (2%Z, [tt])]; [(4%Z, [tt; tt])]] in
  NoDup (map fst (concat us)) /\ room DInt64 Sum (map (fun u => qlen (snd u)) (concat us)) /\
  report_counted Sum (map rows_of_users us) = Done (Some (Some (Q2Qc 6))) /\
  report_counted Min (map rows_of_users us) = Done (Some (Some (Q2Qc 1))).
Proof.
  cbv zeta. split; [cbn; repeat constructor; cbn; intuition discriminate|]. split; [vm_compute; discriminate|].
  split; vm_compute; do 3 f_equal; now apply Qc_is_canon.
Qed.

(** Exactly the properties with a column of numbers are answered. *)
Theorem C135_answered dt f fi fo ws us cs :
  ((exists r, report_property dt f ws = Done r) <-> is_number dt = true) /\
  ((exists r, report_per_user dt fi fo us = Done r) <-> is_number dt = true) /\
  (exists r, report_counted fo cs = Done r).
Proof.
  split; [|split].
  - split.
    + intros (r & H). destruct (is_number dt) eqn:E; [reflexivity|]. unfold report_property, plan_simple in H. rewrite E in H.
      destruct (return_type dt f); discriminate.
    + intros E. destruct (plan_simple_ok dt f E) as (s & Hs & _). unfold report_property. rewrite Hs. now eexists.
  - split.
    + intros (r & H). destruct (is_number dt) eqn:E; [reflexivity|]. unfold report_per_user, plan_per_user in H. rewrite E in H.
      destruct dt; try discriminate E; destruct fi; try discriminate H; destruct fo; discriminate.
    + intros E. destruct (plan_per_user_ok dt fi fo E) as (s & Hs & _). unfold report_per_user. rewrite Hs. now eexists.
  - destruct (plan_counted_ok fo) as (s & Hs & _). unfold report_counted. rewrite Hs. now eexists.
Qed.
Print Assumptions C135_answered.
Example C135_answered_witness : is_number DDec = true /\ is_number DTimestamp = false. Proof. now split. Qed.

(** Not every report a user may ask for is answered: how many values a text, boolean or time
    property has is refused, and asking for the sum of texts, or for anything per user, stops
    the worker.  The request for it is not refused beforehand. *)
Theorem C135_counts_of_texts_refuted dt ws us f fi fo :
  is_number dt = false ->
  report_property dt Cnt ws = Refused /\
  (dt <> DTimestamp -> report_property dt Sum ws = Stops) /\
  (f <> Sum -> report_property dt f ws = Refused) /\
  report_per_user dt fi fo us = Stops.
Proof.
  intros Nm. split; [|split; [|split]].
  - now destruct dt.
  - intros H. destruct dt; try discriminate Nm; try reflexivity. congruence.
  - intros H. destruct dt; try discriminate Nm; destruct f; try reflexivity; congruence.
  - destruct dt; try discriminate Nm; destruct fi; try reflexivity; now destruct fo.
Qed.
Print Assumptions C135_counts_of_texts_refuted.
Example C135_counts_of_texts_witness : is_number (column_dt TBoolean None) = false /\ is_number (column_dt TTimestamp None) = false /\ is_number (column_dt TString None) = false.
Proof. now repeat split. Qed.

(** A text property with a dictionary is answered: the report aggregates the numbers under
    which the dictionary keeps the texts. *)
Theorem C135_texts_are_summed_refuted d f workers :
  d = TInt8 \/ d = TInt16 \/ d = TInt32 \/ d = TInt64 ->
  (forall v, In v (concat workers) -> storable (base_dt d) v) -> busy workers <> [] ->
  (f = Avg -> length (busy workers) = 1%nat) -> room (base_dt d) f (concat workers) ->
  exists v, report_property (column_dt TString (Some d)) f workers = Done (Some (Some v)) /\ is_agg f (concat workers) v.
Proof.
  intros D G Hb Ha R. assert (E : map (worth (base_dt d)) (concat workers) = concat workers).
  { rewrite <- (map_id (concat workers)) at 2. apply map_ext. intros v. now destruct D as [-> |[-> |[-> | ->]]]. }
  cbn [column_dt]. rewrite <- E. apply property_ok; auto; [now destruct D as [-> |[-> |[-> | ->]]]|now rewrite E].
Qed.
Print Assumptions C135_texts_are_summed_refuted.
(** texts number 4 and 7 of the dictionary: their "average" is 11/2 *)
Example C135_texts_are_summed_witness : report_property (column_dt TString (Some TInt8)) Avg [[of_int 4; of_int 7]] = Done (Some (Some (Q2Qc (11 # 2)))).
Proof. vm_compute. reflexivity. Qed.

(** Sums of 64-bit integers are kept as 128-bit integers counting 10^-16.  Beyond, the report
    shows a wrong number and no error; a little beyond, a negative one for a positive sum. *)
Theorem C135_big_sums_refuted zss :
  (forall z, In z (concat zss) -> - 2 ^ 63 <= z <= 2 ^ 63 - 1)%Z -> busy zss <> [] ->
  (2 ^ 127 <= fold_right Z.add 0 (concat zss) * 10 ^ 16 < 2 ^ 128)%Z ->
  exists v, report_property DInt64 Sum (map (map of_int) zss) = Done (Some (Some v)) /\ v < 0 /\
    v = of_int (fold_right Z.add 0%Z (concat zss)) - of_int (2 ^ 128) / of_int (10 ^ 16) /\ qsum (map of_int (concat zss)) = of_int (fold_right Z.add 0%Z (concat zss)).
Proof.
  intros H Hb R. rewrite int64_sum_wraps by assumption. eexists. split; [reflexivity|].
  set (t := fold_right Z.add 0%Z (concat zss)) in *.
  assert (W : wrap true 128 (t * 10 ^ 16) = (t * 10 ^ 16 - 2 ^ 128)%Z).
  { unfold wrap. replace (t * 10 ^ 16 + 2 ^ (128 - 1))%Z with ((t * 10 ^ 16 + 2 ^ 127 - 2 ^ 128) + 1 * 2 ^ 128)%Z by (change (128 - 1)%Z with 127%Z; ring).
    rewrite Z_mod_plus_full, Z.mod_small by lia. change (128 - 1)%Z with 127%Z. ring. }
  rewrite W. split; [|split].
  - destruct (Qclt_le_dec (of_int (t * 10 ^ 16 - 2 ^ 128) / of_int (10 ^ 16)) 0) as [C|C]; [exact C|exfalso].
    apply (mul_le _ _ (of_int (10 ^ 16)) m16_pos) in C. rewrite div_mul, Qcmult_0_l, <- of_int_0 in C by exact m16_nz. apply int_le in C. lia.
  - replace (t * 10 ^ 16 - 2 ^ 128)%Z with (t * 10 ^ 16 + - 2 ^ 128)%Z by ring. rewrite of_int_add, of_int_opp, of_int_mul. field. exact m16_nz.
  - subst t. clear. induction (concat zss) as [|z zs IH]; [reflexivity|]. cbn [map fold_right]. now rewrite qsum_cons, IH, of_int_add.
Qed.
Print Assumptions C135_big_sums_refuted.
(** two thousand events with the largest value *)
Example C135_big_sums_witness :
  let zss := [repeat (2 ^ 63 - 1)%Z 2000] in
  (forall z, In z (concat zss) -> - 2 ^ 63 <= z <= 2 ^ 63 - 1)%Z /\ (2 ^ 127 <= fold_right Z.add 0 (concat zss) * 10 ^ 16 < 2 ^ 128)%Z.
Proof.
  cbv zeta. split; [|split; [vm_compute; discriminate|reflexivity]]. cbn [concat]. rewrite app_nil_r. intros z Hz. apply repeat_spec in Hz. subst z. lia.
Qed.
