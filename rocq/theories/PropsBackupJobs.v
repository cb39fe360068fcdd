(** Properties C106, C107 and C108: backup records, the schedule and restarts. *)
From Coq Require Import List NArith ZArith String Bool Lia Permutation Sorted.
From Verif Require Import AMap Kv KvFacts Calendar CalendarSpec CalendarFacts PropsCalendar Settings BackupJobs BackupJobsSpec BackupJobsFacts.
Import ListNotations.
Local Open Scope string_scope.

Lemma run_good set ops : Good (run ops (fresh set)).
Proof. apply Good_run, Good_fresh. Qed.
Lemma rec_get s b : Good s -> recorded s b <-> backup_get (bk_id b) (bs_db s) = Ok b.
Proof. intros (n & I & _). now apply (list_In n). Qed.
Lemma no_find s : (forall b, recorded s b -> bk_status b <> Idle) ->
  find (fun b => is_idle (bk_status b)) (backups_list (bs_db s)) = None.
Proof.
  intros H. destruct (find _ _) as [b|] eqn:F; [|reflexivity]. apply find_some in F as (F1 & F2).
  specialize (H b F1). now destruct (bk_status b).
Qed.
Lemma the_idle s b : Good s -> recorded s b -> bk_status b = Idle ->
  find (fun b => is_idle (bk_status b)) (backups_list (bs_db s)) = Some b.
Proof.
  intros G R Sb. destruct (find _ _) as [b'|] eqn:F.
  - destruct (find_idle_get s b' G F) as (G' & S'). apply (rec_get s b G) in R. assert (G0 := G). destruct G0 as (n & _ & O).
    pose proof (O b b' R G' Sb S') as E. rewrite E in R. congruence.
  - exfalso. pose proof (find_none _ _ F b R) as X. cbn in X. now rewrite Sb in X.
Qed.
Lemma tick_idle now oc s b : Good s -> bs_alive s = true -> st_enabled (bs_set s) = true -> recorded s b -> bk_status b = Idle ->
  tick now oc s = apply_all (run_effects s b oc) s.
Proof. intros G A E R Sb. unfold tick, tick_effects. rewrite A, E. cbn [negb]. now rewrite (the_idle s b G R Sb). Qed.

(** ** C106: a completed backup can be restored from *)
(** In every history of scheduler rounds, crashes at any point, restarts, requests for backups
    and changes of settings: if the storage engine never failed, and no two backups were created
    in the same hour, then whatever local or Google Cloud backup is shown as completed has its
    complete archive in the backup directory or in a bucket.
    Missing: engines that fail, S3, and backups of the same hour, for which it is false (below). *)
Theorem C106_completed_is_stored_partial : forall set ops,
  Forall op_complete ops -> hours_differ (run ops (fresh set)) ->
  forall b, recorded (run ops (fresh set)) b -> bk_status b = Completed -> not_s3 b ->
  stored (run ops (fresh set)) b.
Proof.
  intros set ops F D b R C N3. assert (G := run_good set ops).
  apply (Kp_history ops (fresh set)); auto.
  - apply Good_fresh.
  - intros x Hx. discriminate.
  - intros x y Hx Hy. apply D; now apply rec_get.
  - now apply rec_get.
Qed.

(** A backup whose dump failed is shown as completed all the same, whatever the engine had
    written by then is kept under its name, and the error is not kept anywhere. *)
Theorem C106_failed_dump_completed_refuted : forall set ops now oc e b,
  let s := run ops (fresh set) in
  bs_alive s = true -> st_enabled (bs_set s) = true ->
  recorded s b -> bk_status b = Idle -> local b ->
  oc_file oc = true -> oc_error oc = Some e -> oc_ship oc = ShipOk ->
  recorded (tick now oc s) (with_status Completed b) /\
  dir_get (hour_of b) (tick now oc s) = Some (oc_bytes oc) /\
  made_get (bk_id b) (tick now oc s) = made_get (bk_id b) s.
Proof.
  intros set ops now oc e b s A En R Sb L F E Sh. assert (G : Good s) by apply run_good.
  assert (T := tick_idle now oc s b G A En R Sb).
  assert (Gb : backup_get (bk_id b) (bs_db s) = Ok b) by now apply rec_get.
  unfold local in L. destruct (bk_prov b) as [p| |] eqn:Pb; try contradiction.
  assert (X : run_effects s b oc = (dump_effects (bk_id b) oc ++ [ERename (bk_id b) (hour_of b); EStatus (bk_id b) Completed])%list).
  { unfold run_effects, ship_effects. rewrite Pb, F, Sh. cbn [orb dies existsb app]. reflexivity. }
  assert (Gt : Good (tick now oc s)) by (apply (Good_step (OTick now oc) s G)).
  split; [|split].
  - apply rec_get; [exact Gt|]. change (bk_id (with_status Completed b)) with (bk_id b).
    rewrite T, X, apply_app. cbn [apply_all fold_left apply_eff].
    pose proof (dump_not_idle (bk_id b) oc) as ND. assert (G1 := Good_all _ s ND G).
    destruct (Persist_all _ s ND G _ _ Gb) as (b1 & Gb1 & (C1 & C2 & C3 & C4)).
    assert (Q : forall t db, bs_db t = db -> Good t -> backup_get (bk_id b) db = Ok b1 ->
              backup_get (bk_id b) (update_status (bk_id b) Completed db) = Ok (with_status Completed b)).
    { intros t db <- (n & I & _) Gx. rewrite (get_update n) by exact I. rewrite Gx, N.eqb_refl. unfold with_status. congruence. }
    change (fold_left (fun s e => apply_eff e s) (dump_effects (bk_id b) oc) s) with (apply_all (dump_effects (bk_id b) oc) s).
    destruct (tmp_get (bk_id b) (apply_all (dump_effects (bk_id b) oc) s)); cbn [bs_db]; eapply Q; eauto.
  - rewrite T, X, apply_app. unfold dump_effects. rewrite F, E, apply_app. cbn [apply_all fold_left apply_eff bs_tmp].
    rewrite aget_aset. destruct (N.eq_dec (bk_id b) (bk_id b)); [|congruence]. cbn [bs_dir]. rewrite aget_aset.
    destruct (Z.eq_dec _ _); [reflexivity|congruence].
  - rewrite T, X, apply_app. unfold dump_effects. rewrite F, E, apply_app. cbn [apply_all fold_left apply_eff bs_tmp].
    rewrite aget_aset. destruct (N.eq_dec (bk_id b) (bk_id b)); [|congruence]. cbn [bs_made].
    change (made_get (bk_id b) (apply_all (map (fun p => EStatus (bk_id b) (InProgress p)) (oc_progress oc)) (apply_eff (ETmp (bk_id b) []) s)) = made_get (bk_id b) s).
    assert (Q : forall l t, bs_made (apply_all (map (fun p => EStatus (bk_id b) (InProgress p)) l) t) = bs_made t).
    { induction l as [|x l IH]; intros t; [reflexivity|]. cbn [map apply_all fold_left]. etransitivity; [apply IH|reflexivity]. }
    now rewrite Q.
Qed.

(** A backup asked for with an S3 destination is shown as completed although nothing is stored
    outside the temporary directory. *)
Lemma dir_dump id oc s : bs_dir (apply_all (dump_effects id oc) s) = bs_dir s /\ bs_cloud (apply_all (dump_effects id oc) s) = bs_cloud s.
Proof.
  assert (Q : forall l t, bs_dir (apply_all (map (fun p => EStatus id (InProgress p)) l) t) = bs_dir t /\
                          bs_cloud (apply_all (map (fun p => EStatus id (InProgress p)) l) t) = bs_cloud t).
  { induction l as [|x l IH]; intros t; [split; reflexivity|]. cbn [map apply_all fold_left]. destruct (IH (apply_eff (EStatus id (InProgress x)) t)) as (I1 & I2).
    split; [etransitivity; [exact I1|reflexivity]|etransitivity; [exact I2|reflexivity]]. }
  unfold dump_effects. destruct (oc_file oc); [|split; reflexivity]. rewrite apply_app.
  destruct (Q (oc_progress oc) (apply_eff (ETmp id []) s)) as (Q1 & Q2).
  destruct (oc_error oc); cbn [apply_all fold_left apply_eff bs_dir bs_cloud]; split; [exact Q1|exact Q2|exact Q1|exact Q2].
Qed.
Theorem C106_s3_stores_nothing_refuted : forall set ops now oc b,
  let s := run ops (fresh set) in
  bs_alive s = true -> st_enabled (bs_set s) = true ->
  recorded s b -> bk_status b = Idle -> ~ not_s3 b ->
  recorded (tick now oc s) (with_status Completed b) /\
  bs_dir (tick now oc s) = bs_dir s /\ bs_cloud (tick now oc s) = bs_cloud s.
Proof.
  intros set ops now oc b s A En R Sb L. assert (G : Good s) by apply run_good.
  assert (T := tick_idle now oc s b G A En R Sb).
  assert (Gb : backup_get (bk_id b) (bs_db s) = Ok b) by now apply rec_get.
  unfold not_s3 in L. destruct (bk_prov b) as [p|bu p|bu p] eqn:Pb; try tauto.
  assert (X : run_effects s b oc = (dump_effects (bk_id b) oc ++ [EStatus (bk_id b) Completed])%list).
  { unfold run_effects, ship_effects. now rewrite Pb. }
  assert (Gt : Good (tick now oc s)) by (apply (Good_step (OTick now oc) s G)).
  split.
  - apply rec_get; [exact Gt|]. change (bk_id (with_status Completed b)) with (bk_id b). rewrite T, X, apply_app.
    cbn [apply_all fold_left apply_eff bs_db].
    pose proof (dump_not_idle (bk_id b) oc) as ND. assert (G1 := Good_all _ s ND G).
    destruct (Persist_all _ s ND G _ _ Gb) as (b1 & Gb1 & (C1 & C2 & C3 & C4)).
    destruct G1 as (n & I & _). rewrite (get_update n) by exact I. rewrite Gb1, N.eqb_refl. unfold with_status. congruence.
  - rewrite T, X, apply_app. cbn [apply_all fold_left apply_eff bs_dir bs_cloud]. apply dir_dump.
Qed.

(** A local or Google Cloud backup whose archive was shipped leaves no temporary file. *)
Lemma tmp_after_dump id oc s : tmp_get id (apply_all (dump_effects id oc) s) =
  if oc_file oc then Some (oc_bytes oc) else tmp_get id s.
Proof.
  unfold dump_effects. destruct (oc_file oc); [|reflexivity]. rewrite apply_app.
  destruct (oc_error oc); cbn [apply_all fold_left apply_eff bs_tmp]; rewrite aget_aset; (destruct (N.eq_dec id id); [reflexivity|congruence]).
Qed.
Theorem C106_no_leftovers : forall set ops now oc b,
  let s := run ops (fresh set) in
  bs_alive s = true -> st_enabled (bs_set s) = true -> recorded s b -> bk_status b = Idle -> not_s3 b ->
  oc_ship oc = ShipOk -> tmp_get (bk_id b) (tick now oc s) = None.
Proof.
  intros set ops now oc b s A En R Sb L Sh. assert (G : Good s) by apply run_good.
  rewrite (tick_idle now oc s b G A En R Sb). unfold run_effects. set (f := oc_file oc || _).
  pose proof (tmp_after_dump (bk_id b) oc s) as T. unfold ship_effects, not_s3 in *. rewrite Sh.
  assert (F : f = match tmp_get (bk_id b) (apply_all (dump_effects (bk_id b) oc) s) with Some _ => true | None => false end).
  { rewrite T. unfold f. destruct (oc_file oc); reflexivity. }
  clear T. revert F. destruct (bk_prov b) as [p|bu p|bu p]; [|contradiction|]; intros F; destruct f; cbn [dies existsb orb];
    rewrite !apply_app; revert F; generalize (apply_all (dump_effects (bk_id b) oc) s) as t; intros t F;
    destruct (tmp_get (bk_id b) t) as [x|] eqn:T; try discriminate; cbn [apply_all fold_left apply_eff bs_tmp]; rewrite ?T; cbn [bs_tmp];
    solve [apply aget_adel_eq|exact T|reflexivity].
Qed.
(** The temporary file of an S3 backup stays. *)
Theorem C106_s3_leaves_file_refuted : forall set ops now oc b,
  let s := run ops (fresh set) in
  bs_alive s = true -> st_enabled (bs_set s) = true -> recorded s b -> bk_status b = Idle -> ~ not_s3 b ->
  oc_file oc = true -> tmp_get (bk_id b) (tick now oc s) = Some (oc_bytes oc).
Proof.
  intros set ops now oc b s A En R Sb L F. assert (G : Good s) by apply run_good.
  rewrite (tick_idle now oc s b G A En R Sb). unfold run_effects, ship_effects. unfold not_s3 in L.
  destruct (bk_prov b) as [p|bu p|bu p]; try tauto. cbn [app dies existsb].
  pose proof (tmp_after_dump (bk_id b) oc s) as T. rewrite F in T. rewrite apply_app, <- T. reflexivity.
Qed.

(** A later backup of the same hour replaces the archive of an earlier one, whose record stays
    completed. *)
Theorem C106_same_hour_overwritten_refuted : forall set ops now oc old b,
  let s := run ops (fresh set) in
  bs_alive s = true -> st_enabled (bs_set s) = true ->
  recorded s old -> bk_status old = Completed -> local old ->
  recorded s b -> bk_status b = Idle -> local b -> hour_of b = hour_of old ->
  complete oc -> oc_ship oc = ShipOk ->
  recorded (tick now oc s) old /\ dir_get (hour_of old) (tick now oc s) = Some (oc_bytes oc).
Proof.
  intros set ops now oc old b s A En Ro So Lo R Sb L H Co Sh. assert (G : Good s) by apply run_good.
  assert (T := tick_idle now oc s b G A En R Sb).
  assert (Gt : Good (tick now oc s)) by (apply (Good_step (OTick now oc) s G)).
  split.
  - apply rec_get; [exact Gt|]. apply (step_settled (OTick now oc) s old G); [now apply rec_get|]. now rewrite So.
  - unfold local in L. destruct (bk_prov b) as [p| |] eqn:Pb; try contradiction.
    assert (Cf := proj1 Co).
    assert (X : run_effects s b oc = (dump_effects (bk_id b) oc ++ [ERename (bk_id b) (hour_of b); EStatus (bk_id b) Completed])%list).
    { unfold run_effects, ship_effects. rewrite Pb, Cf, Sh. reflexivity. }
    rewrite T, X, apply_app. destruct (dump_result (bk_id b) oc s Co) as (T1 & _).
    cbn [apply_all fold_left apply_eff]. rewrite T1. cbn [bs_dir]. rewrite aget_aset.
    destruct (Z.eq_dec _ _); [reflexivity|congruence].
Qed.

(** ** C107: a scheduled minute starts one backup *)
Ltac Zify.zify_post_hook ::= Z.div_mod_to_equations.
Lemma minute_mult t s k : s = (60 * k)%Z -> (s <= t < s + 60)%Z -> minute_of t = s.
Proof. unfold minute_of. intros; subst; lia. Qed.
Lemma first_month y m d : FirstOf y m d <-> (1 <= m <= 12)%Z /\ civil d = (y, Z.to_nat (m - 1), 0%Z).
Proof.
  rewrite first_of_iff. split.
  - intros (Hm & ->). split; [exact Hm|]. unfold month_start.
    replace ((12 * y + (m - 1)) / 12)%Z with y by lia. replace ((12 * y + (m - 1)) mod 12)%Z with (m - 1)%Z by lia.
    apply civil_day_number; [lia|]. split; [lia|].
    assert (H : In (nth (Z.to_nat (m - 1)) (month_lens y) 0%Z) (month_lens y)) by (apply nth_In; rewrite month_lens_length; lia).
    apply month_lens_ok in H. lia.
  - intros (Hm & E). split; [exact Hm|]. pose proof (civil_spec d) as C. rewrite E in C. destruct C as (_ & _ & <-).
    unfold month_start. replace ((12 * y + (m - 1)) / 12)%Z with y by lia.
    now replace ((12 * y + (m - 1)) mod 12)%Z with (m - 1)%Z by lia.
Qed.
Lemma new_year_first y d : NewYear y d <-> FirstOf y 1 d.
Proof. rewrite newyear_iff, first_of_iff. replace (12 * y + (1 - 1))%Z with (12 * y)%Z by lia. rewrite month_start_jan. intuition lia. Qed.
Lemma due_hour i h t : due i h t = None <-> i <> IHourly /\ (24 <= h)%N.
Proof.
  unfold due. destruct (civil _) as [[y m] d]. destruct i; destruct (N.leb_spec 24 h); split; intros; try discriminate; try tauto; try lia;
    try (split; [discriminate|assumption]); destruct H0; congruence || lia.
Qed.
(** The test the scheduler makes is the schedule. *)
Lemma due_iff i h t : due i h t = Some true <-> (i = IHourly \/ (h < 24)%N) /\ scheduled i h t.
Proof.
  assert (Dy : forall a, day_of (a * SEC) = (a / 86400)%Z).
  { intros a. unfold day_of. change DAY with (86400 * SEC)%Z. rewrite Z.div_mul_cancel_r; [reflexivity|lia|discriminate]. }
  unfold due, scheduled, weekday. rewrite Dy. set (s := minute_of t).
  assert (Hs : (s <= t < s + 60)%Z /\ (s mod 60 = 0)%Z) by (unfold s, minute_of; lia). destruct Hs as (Hs & Hm).
  assert (Un : forall x k, (x <= t < x + 60)%Z -> x = (60 * k)%Z -> x = s) by (intros x k H E; symmetry; eapply minute_mult; eauto).
  destruct (civil (s / 86400)) as [[y mo] da] eqn:Ci.
  assert (Day : forall d h0, (0 <= h0 < 24)%Z -> s = (86400 * d + 3600 * h0)%Z <-> ((s mod 3600 = 0)%Z /\ ((s mod 86400) / 3600 = h0)%Z) /\ d = (s / 86400)%Z) by (intros; lia).
  destruct i.
  - split.
    + intros H. split; [auto|]. exists s. split; [exact Hs|]. exists (s / 3600)%Z. injection H as H. apply Z.eqb_eq in H. lia.
    + intros (_ & x & Hx & k & E). f_equal. apply Z.eqb_eq. rewrite <- (Un x (60 * k)%Z Hx) by lia. lia.
  - destruct (N.leb_spec 24 h) as [L|L]; [split; [discriminate|]; intros ([E|E] & _); [discriminate|lia]|]. rewrite andb_true_r. split.
    + intros H. split; [auto|]. injection H as H. apply andb_prop in H as (H1 & H2). apply Z.eqb_eq in H1, H2. exists s. split; [exact Hs|].
      exists (s / 86400)%Z. lia.
    + intros (_ & x & Hx & d & E). assert (Xs : x = s) by (apply (Un x (1440 * d + 60 * Z.of_N h)%Z Hx); lia). rewrite Xs in E.
      apply Day in E; [|lia]. destruct E as ((E1 & E2) & _). f_equal. rewrite E1, E2, !Z.eqb_refl. reflexivity.
  - destruct (N.leb_spec 24 h) as [L|L]; [split; [discriminate|]; intros ([E|E] & _); [discriminate|lia]|]. split.
    + intros H. split; [auto|]. injection H as H. apply andb_prop in H as (H & H3). apply andb_prop in H as (H1 & H2). apply Z.eqb_eq in H1, H2, H3.
      exists s. split; [exact Hs|]. exists ((s / 86400 - 3) / 7)%Z. lia.
    + intros (_ & x & Hx & w & E). assert (Xs : x = s) by (apply (Un x (1440 * (3 + 7 * w) + 60 * Z.of_N h)%Z Hx); lia). rewrite Xs in E.
      apply Day in E; [|lia]. destruct E as ((E1 & E2) & E3). f_equal. rewrite E1, E2, !Z.eqb_refl, <- E3. cbn [andb]. apply Z.eqb_eq. lia.
  - destruct (N.leb_spec 24 h) as [L|L]; [split; [discriminate|]; intros ([E|E] & _); [discriminate|lia]|]. split.
    + intros H. split; [auto|]. injection H as H. apply andb_prop in H as (H & H3). apply andb_prop in H as (H1 & H2). apply Z.eqb_eq in H1, H2, H3. subst da.
      exists s. split; [exact Hs|]. exists y, (Z.of_nat mo + 1)%Z, (s / 86400)%Z.
      pose proof (civil_spec (s / 86400)) as C. rewrite Ci in C. destruct C as (C & _). split; [|lia].
      apply first_month. split; [lia|]. rewrite Ci. now replace (Z.to_nat (Z.of_nat mo + 1 - 1)) with mo by lia.
    + intros (_ & x & Hx & y' & m' & d & F & E). assert (Xs : x = s) by (apply (Un x (1440 * d + 60 * Z.of_N h)%Z Hx); lia). rewrite Xs in E.
      apply Day in E; [|lia]. destruct E as ((E1 & E2) & E3). apply first_month in F as (_ & F). rewrite E3, Ci in F. injection F as _ _ ->.
      f_equal. rewrite E1, E2, !Z.eqb_refl. reflexivity.
  - destruct (N.leb_spec 24 h) as [L|L]; [split; [discriminate|]; intros ([E|E] & _); [discriminate|lia]|]. split.
    + intros H. split; [auto|]. injection H as H. apply andb_prop in H as (H & H3). apply andb_prop in H as (H1 & H2). apply andb_prop in H3 as (H3 & H4).
      apply Z.eqb_eq in H1, H2, H4. apply Nat.eqb_eq in H3. subst da mo.
      exists s. split; [exact Hs|]. exists y, (s / 86400)%Z. split; [|lia]. apply new_year_first, first_month. split; [lia|exact Ci].
    + intros (_ & x & Hx & y' & d & F & E). assert (Xs : x = s) by (apply (Un x (1440 * d + 60 * Z.of_N h)%Z Hx); lia). rewrite Xs in E.
      apply Day in E; [|lia]. destruct E as ((E1 & E2) & E3). apply new_year_first, first_month in F as (_ & F). rewrite E3, Ci in F. injection F as _ -> ->.
      f_equal. rewrite E1, E2, !Z.eqb_refl. reflexivity.
Qed.
Lemma not_due set now : hour_exists set -> ~ scheduled (st_interval set) (st_hour set) now ->
  due (st_interval set) (st_hour set) now = Some false.
Proof.
  intros H N. destruct (due _ _ now) as [[]|] eqn:E; [|reflexivity|].
  - apply due_iff in E as (_ & E). contradiction.
  - apply due_hour in E. destruct H as [H|H]; [now elim (proj1 E)|lia].
Qed.
Ltac Zify.zify_post_hook ::= idtac.
Lemma prov_destination set : destination set (prov_from set).
Proof. unfold destination, prov_from. destruct (st_prov set); auto. Qed.
Lemma count_inv n s : Inv n (bs_db s) -> count s = N.to_nat n.
Proof. apply list_count. Qed.
Lemma minute_last s l now : last_opt (backups_list (bs_db s)) = l ->
  match l with Some l => Z.eqb (minute_of (bk_created l)) (minute_of now) | None => false end = true ->
  exists b, recorded s b /\ minute_of (bk_created b) = minute_of now.
Proof.
  intros E H. destruct l as [b|]; [|discriminate]. exists b. split; [|now apply Z.eqb_eq]. unfold last_opt in E. now apply nth_error_In in E.
Qed.
(** A due round that starts a backup: one record more, created at that time. *)
Lemma starts now oc s : Good s -> schedule_due now s -> st_prov (bs_set s) <> PS3 ->
  match last_opt (backups_list (bs_db s)) with Some l => Z.eqb (minute_of (bk_created l)) (minute_of now) | None => false end = false ->
  count (tick now oc s) = S (count s) /\
  (forall b, recorded s b -> recorded (tick now oc s) b) /\
  (exists b, recorded (tick now oc s) b /\ bk_created b = now /\ destination (bs_set s) (bk_prov b) /\ bk_enc b = st_enc (bs_set s) /\
             ~ (exists b', recorded s b' /\ bk_id b' = bk_id b) /\
             (oc_ship oc <> ShipPanic -> finished (bk_status b) /\ bs_alive (tick now oc s) = true)).
Proof.
  intros G (A & En & NoI & Du) NS3 Last. apply due_iff in Du. assert (Gt : Good (tick now oc s)) by (apply (Good_step (OTick now oc) s G)).
  assert (G0 := G). destruct G0 as (n & I & _).
  destruct (create_cases n now (prov_from (bs_set s)) (st_enc (bs_set s)) _ I) as [((b & Hb & Sb) & _)|(_ & db' & E & I' & Gget)].
  { exfalso. exact (NoI b Hb Sb). }
  set (b0 := mkBackup (n + 1) now (prov_from (bs_set s)) Idle (st_enc (bs_set s))) in *.
  assert (Nb : new_backup now s = Some b0) by (unfold new_backup; now rewrite E).
  assert (T : tick now oc s = apply_all (run_effects s b0 oc) (apply_eff (ECreate now) s)).
  { unfold tick, tick_effects. rewrite A, En. cbn [negb]. rewrite (no_find s NoI), Du, Last, Nb.
    destruct (st_prov (bs_set s)); [reflexivity|congruence|reflexivity]. }
  destruct (new_backup_get now s b0 G Nb) as (Gb0 & Sb0 & Cb0 & Pb0 & Ot & Fr).
  assert (G1 : Good (apply_eff (ECreate now) s)) by (apply Good_eff; [exact Logic.I|exact G]).
  split; [|split].
  - rewrite T. rewrite (count_inv (n + 1)), (count_inv n s I); [lia|]. apply Inv_all; [apply run_no_create|].
    rewrite db_eff, E. exact I'.
  - intros b R. apply rec_get in R; [|exact G]. apply rec_get; [exact Gt|]. rewrite T.
    assert (D : bk_id b <> bk_id b0) by (intros Q; rewrite Q in R; congruence).
    rewrite (other_kept (bk_id b0)); [rewrite Ot; assumption|exact G1|apply run_not_idle|apply run_touches|exact D].
  - destruct (Persist_all _ _ (run_not_idle s b0 oc) G1 _ _ Gb0) as (b1 & Gb1 & (C1 & C2 & C3 & C4)).
    exists b1. split; [apply rec_get; [exact Gt|]; rewrite T, <- C1; exact Gb1|]. split; [congruence|].
    split; [rewrite <- C3, Pb0; apply prov_destination|]. split; [rewrite <- C4; reflexivity|]. split.
    + intros (b' & R & Q). apply rec_get in R; [|exact G]. rewrite Q, <- C1 in R. congruence.
    + intros Hp. destruct (run_finishes s _ b0 oc G1 Gb0 Hp) as (Al & x & Fx & Gx). rewrite T. split.
      * assert (b1 = with_status x b0) as -> by congruence. exact Fx.
      * rewrite Al. exact A.
Qed.
(** As long as at most nine backups are recorded and the clock does not go back, a round in a
    scheduled minute starts a backup exactly if none was created in that minute, and then
    exactly one; at other times a round starts nothing.
    Missing: ten backups and more, and S3, for which it is false (below). *)
Theorem C107_scheduled_once_partial : forall set ops now oc,
  let s := run ops (fresh set) in
  StronglySorted Z.le (times ops ++ [now]) -> (count s <= 9)%nat ->
  (schedule_due now s -> st_prov (bs_set s) <> PS3 ->
     ((exists b, recorded s b /\ minute_of (bk_created b) = minute_of now) -> tick now oc s = s) /\
     ((forall b, recorded s b -> minute_of (bk_created b) <> minute_of now) ->
        count (tick now oc s) = S (count s) /\
        (forall b, recorded s b -> recorded (tick now oc s) b) /\
        exists b, recorded (tick now oc s) b /\ bk_created b = now /\ destination (bs_set s) (bk_prov b) /\ bk_enc b = st_enc (bs_set s) /\
                  ~ (exists b', recorded s b' /\ bk_id b' = bk_id b) /\
                  (oc_ship oc <> ShipPanic -> finished (bk_status b)))) /\
  ((forall b, recorded s b -> bk_status b <> Idle) ->
   hour_exists (bs_set s) -> ~ scheduled (st_interval (bs_set s)) (st_hour (bs_set s)) now -> tick now oc s = s).
Proof.
  intros set ops now oc s So Cn. assert (G : Good s) by apply run_good. split.
  - intros D NS3. split.
    + intros (b & R & Hm). assert (Gb := R). apply rec_get in Gb; [|exact G]. destruct D as (A & En & NoI & Du). apply due_iff in Du.
      unfold tick, tick_effects. rewrite A, En. cbn [negb]. rewrite (no_find s NoI), Du.
      assert (G0 := G). destruct G0 as (n & I & _). rewrite (count_inv n s I) in Cn.
      destruct (get_range _ _ _ _ I Gb) as (Rb & _).
      destruct (get_ok n (bs_db s) n I) as (l & Gl & El); [lia|]. rewrite (last_small n _ l I); [|lia|exact Gl].
      destruct (sorted_last _ _ So) as (So1 & Le). destruct (Mono_run set ops So1) as (M1 & M2). fold s in M1, M2.
      assert (L1 : (bk_created b <= bk_created l)%Z) by (apply M2; [exact Gb|now rewrite El|lia]).
      assert (L2 : (bk_created l <= now)%Z) by (rewrite Forall_forall in Le; apply Le, M1; now rewrite El).
      apply minute_mono in L1, L2. replace (Z.eqb _ _) with true; [reflexivity|]. symmetry. apply Z.eqb_eq. lia.
    + intros No.
      destruct (match last_opt (backups_list (bs_db s)) with Some l => Z.eqb (minute_of (bk_created l)) (minute_of now) | None => false end) eqn:La.
      * destruct (minute_last s _ now eq_refl La) as (b & R & E). exfalso. exact (No b R E).
      * destruct (starts now oc s G D NS3 La) as (H1 & H2 & b & H3 & H4 & H5 & He & H6 & H7). split; [exact H1|]. split; [exact H2|].
        exists b. split; [exact H3|]. split; [exact H4|]. split; [exact H5|]. split; [exact He|]. split; [exact H6|]. intros Hp. apply H7, Hp.
  - intros NoI Hh Ns. pose proof (not_due _ now Hh Ns) as Du. unfold tick, tick_effects. destruct (bs_alive s); [|reflexivity]. destruct (st_enabled (bs_set s)); [|reflexivity].
    cbn [negb]. rewrite (no_find s NoI), Du. reflexivity.
Qed.

(** A start hour that no day has ends the scheduler at the next round with nothing waiting. *)
Theorem C107_hour_stops_scheduler_refuted : forall set ops now oc,
  let s := run ops (fresh set) in
  bs_alive s = true -> st_enabled (bs_set s) = true -> (forall b, recorded s b -> bk_status b <> Idle) ->
  ~ hour_exists (bs_set s) -> bs_alive (tick now oc s) = false /\ bs_db (tick now oc s) = bs_db s.
Proof.
  intros set ops now oc s A En No H. unfold tick, tick_effects. rewrite A, En. cbn [negb]. rewrite (no_find s No).
  assert (D : due (st_interval (bs_set s)) (st_hour (bs_set s)) now = None); [|rewrite D; split; reflexivity].
  apply due_hour. unfold hour_exists in H. split; [intros E; apply H; now left|]. destruct (N.le_gt_cases 24 (st_hour (bs_set s))); [assumption|]. exfalso. apply H. now right.
Qed.

(** From nine backups on, and until the ninetieth, every single round of a scheduled minute
    starts another backup (rounds come every ten seconds), unless the ninth recorded backup
    was created in that very minute. *)
Fixpoint rounds (ticks : list (Z * Outcome)) (s : St) : St :=
  match ticks with [] => s | (now, oc) :: r => rounds r (tick now oc s) end.
Theorem C107_repeated_refuted : forall set ops ticks m ninth,
  let s := run ops (fresh set) in
  (9 <= count s)%nat -> (count s + List.length ticks <= 90)%nat ->
  recorded s ninth -> bk_id ninth = 9%N -> minute_of (bk_created ninth) <> minute_of m ->
  schedule_due m s -> st_prov (bs_set s) <> PS3 ->
  Forall (fun t => minute_of (fst t) = minute_of m /\ oc_ship (snd t) <> ShipPanic) ticks ->
  count (rounds ticks s) = (count s + List.length ticks)%nat.
Proof.
  intros set ops ticks m ninth s Lo Hi R9 I9 Mn D NS3 F. assert (G : Good s) by apply run_good.
  revert Lo Hi R9 D NS3 G. generalize s as t. clear s. induction F as [|[now oc] r (Hm & Hp) F IH]; intros t Lo Hi R9 D NS3 G.
  - cbn. lia.
  - cbn [rounds List.length fst snd] in *.
    assert (Gt : Good (tick now oc t)) by (apply (Good_step (OTick now oc) t G)).
    assert (D' : schedule_due now t).
    { destruct D as (A & En & NoI & Du). split; [exact A|]. split; [exact En|]. split; [exact NoI|].
      apply due_iff. apply due_iff in Du. unfold due in *. rewrite Hm. exact Du. }
    assert (G0 := G). destruct G0 as (n & I & _). rewrite (count_inv n t I) in Lo, Hi.
    assert (La : last_opt (backups_list (bs_db t)) = Some ninth).
    { apply (last_nine n); [exact I|lia|]. rewrite <- I9. now apply rec_get. }
    destruct (starts now oc t G D' NS3) as (H1 & H2 & b & H3 & H4 & H5 & He & H6 & H7).
    { rewrite La. apply Z.eqb_neq. now rewrite Hm. }
    rewrite IH; [rewrite H1; lia|rewrite H1, (count_inv n t I); lia|rewrite H1, (count_inv n t I); lia|now apply H2| | |exact Gt].
    + destruct D as (A & En & NoI & Du). split; [apply H7; exact Hp|].
      assert (Es : bs_set (tick now oc t) = bs_set t) by apply set_all. rewrite Es. split; [exact En|]. split; [|exact Du].
      intros x Rx Sx. destruct (N.eq_dec (bk_id x) (bk_id b)) as [Ex|Nx].
      * apply rec_get in Rx; [|exact Gt]. apply rec_get in H3; [|exact Gt]. rewrite Ex in Rx. assert (x = b) by congruence. subst x.
        destruct (H7 Hp) as (Fb & _). rewrite Sx in Fb. contradiction.
      * (* every other record was there before *)
        assert (G1 := Gt). destruct G1 as (n1 & I1 & _). pose proof (count_inv n1 _ I1) as Cn. rewrite H1, (count_inv n t I) in Cn.
        apply rec_get in Rx; [|exact Gt]. apply rec_get in H3; [|exact Gt].
        destruct (get_range _ _ _ _ I1 Rx) as (Lx & _). destruct (get_range _ _ _ _ I1 H3) as (Lb & _).
        assert (Eb : bk_id b = (n + 1)%N).
        { destruct (N.eq_dec (bk_id b) (n + 1)) as [Q|Q]; [exact Q|exfalso]. apply H6.
          destruct (get_ok n (bs_db t) (bk_id b) I) as (b' & Gb' & Eb'); [lia|]. exists b'. split; [|exact Eb'].
          apply rec_get; [exact G|]. now rewrite Eb'. }
        destruct (get_ok n (bs_db t) (bk_id x) I) as (x' & Gx' & Ex'); [lia|].
        assert (Rx' : recorded t x') by (apply rec_get; [exact G|now rewrite Ex']).
        pose proof (H2 x' Rx') as Rx2. apply rec_get in Rx2; [|exact Gt]. rewrite Ex' in Rx2. assert (x = x') by congruence. subst x'.
        exact (NoI x Rx' Sx).
    + assert (Es : bs_set (tick now oc t) = bs_set t) by apply set_all. now rewrite Es.
Qed.

(** With S3 as destination the first scheduled minute ends the scheduler: no backup is created,
    and until the next restart no round does anything, whatever the settings become and
    whatever backups are asked for. *)
Definition no_restart (o : Op) : Prop := match o with OCrash _ _ _ | ORestart => False | _ => True end.
Lemma dead_step o s : bs_alive s = false -> no_restart o ->
  bs_alive (step o s) = false /\ forall b, Good s -> recorded s b -> recorded (step o s) b.
Proof.
  intros A NR. destruct o; cbn [step no_restart] in *; try contradiction.
  - unfold tick, tick_effects. rewrite A. auto.
  - unfold ask. destruct (st_enabled (bs_set s)) eqn:En; [|auto]. split; [rewrite alive_eff; [exact A|discriminate]|]. intros b G R.
    assert (Gs : Good (apply_eff (ECreate now) s)) by (apply Good_eff; [exact I|exact G]).
    apply rec_get; [exact Gs|]. apply rec_get in R; [|exact G]. rewrite db_eff. destruct G as (n & In_ & _).
    destruct (create_cases n now (prov_from (bs_set s)) (st_enc (bs_set s)) _ In_) as [(_ & E)|(_ & db' & E & I' & Gg)]; rewrite E; cbn [snd]; [exact R|].
    rewrite Gg. destruct (N.eqb_spec (bk_id b) (n + 1)) as [Q|D]; [|exact R]. destruct (get_range _ _ _ _ In_ R) as (L & _). lia.
  - auto.
Qed.
Theorem C107_s3_stops_scheduler_refuted : forall set ops now oc later,
  let s := run ops (fresh set) in
  schedule_due now s -> st_prov (bs_set s) = PS3 ->
  (forall b, recorded s b -> minute_of (bk_created b) <> minute_of now) -> Forall no_restart later ->
  bs_db (tick now oc s) = bs_db s /\
  let s' := run later (tick now oc s) in
  (forall b, recorded s b -> recorded s' b) /\
  (forall t oc', tick t oc' s' = s').
Proof.
  intros set ops now oc later s (A & En & NoI & Du) P3 No F. apply due_iff in Du. assert (G : Good s) by apply run_good.
  assert (T : tick now oc s = apply_eff EDie s).
  { unfold tick, tick_effects. rewrite A, En. cbn [negb]. rewrite (no_find s NoI), Du, P3.
    destruct (match last_opt (backups_list (bs_db s)) with Some l => Z.eqb (minute_of (bk_created l)) (minute_of now) | None => false end) eqn:La; [|reflexivity].
    destruct (minute_last s _ now eq_refl La) as (b & R & E). exfalso. exact (No b R E). }
  rewrite T. split; [reflexivity|].
  assert (Q : forall l t, Forall no_restart l -> Good t -> bs_alive t = false ->
            bs_alive (run l t) = false /\ forall b, recorded t b -> recorded (run l t) b).
  { induction l as [|o l IH]; intros t Fl Gt At; [split; [exact At|auto]|]. inversion Fl; subst. cbn.
    destruct (dead_step o t At H1) as (A1 & R1). destruct (IH (step o t) H2 (Good_step o t Gt) A1) as (A2 & R2).
    split; [exact A2|]. intros b Rb. apply R2, R1; auto. }
  destruct (Q later (apply_eff EDie s)) as (Al & Rc); [exact F|apply Good_eff; [exact I|exact G]|reflexivity|].
  split; [intros b Rb; now apply Rc|]. intros t oc'. unfold tick, tick_effects. rewrite Al. reflexivity.
Qed.

(** ** C108: what a restart and the next rounds do to a record *)
(** After a restart no backup is shown as in progress: those that were are failed, every other
    record is as it was. *)
Theorem C108_restart_ends_running : forall set ops,
  let s := run ops (fresh set) in
  (forall b, recorded s b -> recorded (restart s) (after_restart b)) /\
  (forall b', recorded (restart s) b' -> exists b, recorded s b /\ b' = after_restart b) /\
  (forall b' p, recorded (restart s) b' -> bk_status b' <> InProgress p).
Proof.
  intros set ops s. assert (G : Good s) by apply run_good. assert (Gr := Good_restart s G).
  assert (H1 : forall b, recorded s b -> recorded (restart s) (after_restart b)).
  { intros b R. apply rec_get; [exact Gr|]. apply rec_get in R; [|exact G].
    replace (bk_id (after_restart b)) with (bk_id b) by (unfold after_restart; destruct (bk_status b); reflexivity).
    now apply restart_get. }
  assert (H2 : forall b', recorded (restart s) b' -> exists b, recorded s b /\ b' = after_restart b).
  { intros b' R. apply rec_get in R; [|exact Gr]. assert (G0 := G). destruct G0 as (n & I & _).
    assert (Ir : Inv n (bs_db (restart s))).
    { unfold restart. cbn [bs_db]. generalize (backups_list (bs_db s)) as l. revert I. generalize s as t. intros t It l. revert t It.
      induction l as [|x l IH]; intros t It; [exact It|]. cbn. apply IH. unfold reset_one. destruct (bk_status x); try exact It.
      apply Inv_all; [repeat constructor|exact It]. }
    destruct (get_range _ _ _ _ Ir R) as (L & _). destruct (get_ok n _ _ I L) as (b & Gb & Eb). exists b.
    assert (Rb : recorded s b) by (apply rec_get; [exact G|now rewrite Eb]). split; [exact Rb|].
    pose proof (restart_get s b G) as Q. rewrite Eb in Q. specialize (Q Gb). congruence. }
  split; [exact H1|]. split; [exact H2|]. intros b' p R E. destruct (H2 b' R) as (b & _ & ->). unfold after_restart in E.
  destruct (bk_status b) eqn:Sb; cbn in E; congruence.
Qed.
(** At most one backup is waiting at any time, and the next round finishes it if the scheduler
    is running and backups are enabled. *)
Theorem C108_waiting_is_run : forall set ops,
  let s := run ops (fresh set) in
  (forall a b, recorded s a -> recorded s b -> bk_status a = Idle -> bk_status b = Idle -> a = b) /\
  (forall now oc b, bs_alive s = true -> st_enabled (bs_set s) = true -> oc_ship oc <> ShipPanic ->
     recorded s b -> bk_status b = Idle ->
     bs_alive (tick now oc s) = true /\
     exists x, finished x /\ recorded (tick now oc s) (with_status x b)).
Proof.
  intros set ops s. assert (G : Good s) by apply run_good. split.
  - intros a b Ra Rb Sa Sb. apply rec_get in Ra; [|exact G]. apply rec_get in Rb; [|exact G].
    assert (G0 := G). destruct G0 as (n & _ & O). pose proof (O a b Ra Rb Sa Sb) as E. rewrite E in Ra. congruence.
  - intros now oc b A En Hp R Sb. assert (Gt : Good (tick now oc s)) by (apply (Good_step (OTick now oc) s G)).
    pose proof (tick_idle now oc s b G A En R Sb) as T. apply rec_get in R; [|exact G].
    destruct (run_finishes s s b oc G R Hp) as (Al & x & Fx & Gx). rewrite <- T in Al, Gx. split; [congruence|].
    exists x. split; [exact Fx|]. apply rec_get; [exact Gt|exact Gx].
Qed.
(** A request for a backup while backups are switched off, or while one is waiting, changes
    nothing; otherwise it records one waiting backup, with the destination of the settings. *)
Theorem C108_asked : forall set ops now,
  let s := run ops (fresh set) in
  (st_enabled (bs_set s) = false \/ (exists b, recorded s b /\ bk_status b = Idle) -> step (OAsk now) s = s) /\
  (st_enabled (bs_set s) = true -> (forall b, recorded s b -> bk_status b <> Idle) ->
     count (step (OAsk now) s) = S (count s) /\
     (forall b, recorded s b -> recorded (step (OAsk now) s) b) /\
     exists b, recorded (step (OAsk now) s) b /\ bk_status b = Idle /\ bk_created b = now /\
               destination (bs_set s) (bk_prov b) /\ bk_enc b = st_enc (bs_set s) /\
               ~ (exists b', recorded s b' /\ bk_id b' = bk_id b)).
Proof.
  intros set ops now s. assert (G : Good s) by apply run_good. assert (Ga : Good (step (OAsk now) s)) by now apply Good_step.
  cbn [step] in *. unfold ask in *. assert (G0 := G). destruct G0 as (n & I & O). split.
  - intros H. destruct (st_enabled (bs_set s)); [|reflexivity]. destruct H as [H|(b & R & Sb)]; [discriminate|].
    destruct (create_cases n now (prov_from (bs_set s)) (st_enc (bs_set s)) _ I) as [(_ & E)|(No & _)].
    + unfold apply_eff. rewrite E. cbn [snd]. now destruct s.
    + exfalso. exact (No b R Sb).
  - intros En No. rewrite En in *.
    destruct (create_cases n now (prov_from (bs_set s)) (st_enc (bs_set s)) _ I) as [((b & Hb & Sb) & _)|(_ & db' & E & I' & Gget)]; [exfalso; exact (No b Hb Sb)|].
    assert (Nb : new_backup now s = Some (mkBackup (n + 1) now (prov_from (bs_set s)) Idle (st_enc (bs_set s)))) by (unfold new_backup; now rewrite E).
    destruct (new_backup_get now s _ G Nb) as (Gb0 & Sb0 & Cb0 & Pb0 & Ot & Fr).
    split; [|split].
    + rewrite (count_inv (n + 1)), (count_inv n s I); [lia|]. rewrite db_eff, E. exact I'.
    + intros b R. apply rec_get in R; [|exact G]. apply rec_get; [exact Ga|]. rewrite Ot; [exact R|]. intros Q. rewrite Q in R. congruence.
    + eexists. split; [apply rec_get; [exact Ga|exact Gb0]|]. split; [reflexivity|]. split; [reflexivity|].
      split; [apply prov_destination|]. split; [reflexivity|]. intros (b' & R & Q). apply rec_get in R; [|exact G]. rewrite Q in R. congruence.
Qed.
(** A completed or failed backup keeps its record for ever. *)
Theorem C108_finished_stays : forall set ops later b,
  recorded (run ops (fresh set)) b -> finished (bk_status b) -> recorded (run later (run ops (fresh set))) b.
Proof.
  intros set ops later b R F. assert (G := run_good set ops). apply rec_get; [now apply Good_run|]. apply run_settled; [exact G|now apply rec_get|].
  destruct (bk_status b); cbn in *; auto.
Qed.
(** A backup that was being uploaded when the server stopped is shown as uploading for ever:
    no round, restart or change of settings ever touches it. *)
Theorem C108_uploading_forever_refuted : forall set ops later b,
  recorded (run ops (fresh set)) b -> bk_status b = Uploading -> recorded (run later (run ops (fresh set))) b.
Proof.
  intros set ops later b R F. assert (G := run_good set ops). apply rec_get; [now apply Good_run|]. apply run_settled; [exact G|now apply rec_get|].
  rewrite F. exact I.
Qed.

(** ** Witnesses *)
Definition w_set (p : Provider) : Settings :=
  mkSettings [1%N] [2%N] [] true false [] false p [] [66%N] [] [82%N] [1%N] [1%N] [71%N] [3%N] [4%N] IDaily 0.
Definition w_ok : Outcome := mkOutcome true [10%N; 50%N] [7%N; 8%N; 9%N] None ShipOk.
Definition w_ok2 : Outcome := mkOutcome true [] [5%N] None ShipOk.
Definition w_bad : Outcome := mkOutcome true [10%N] [7%N] (Some "disk full") ShipOk.
(** 3 January 1970, midnight *)
Definition w_mid : Z := (2 * 86400)%Z.
(** A scheduled backup, one asked for an hour later, a crash in the middle of a third; all
    completed ones are stored. *)
Definition w_ops : list Op :=
  [OTick (w_mid + 5) w_ok; OTick (w_mid + 15) w_ok2; OAsk (w_mid + 4000); OTick (w_mid + 4010) w_ok2;
   OAsk (w_mid + 8000); OCrash (w_mid + 8010) w_ok 2].
Lemma hours_differ_list s l : backups_list (bs_db s) = l ->
  (forall a b, In a l -> In b l -> hour_of a = hour_of b -> bk_id a = bk_id b) -> hours_differ s.
Proof. intros E H a b. unfold recorded. rewrite E. apply H. Qed.
Example C106_witness :
  Forall op_complete w_ops /\ hours_differ (run w_ops (fresh (w_set PLocal))) /\
  map (fun b => (bk_id b, bk_status b)) (backups_list (bs_db (run w_ops (fresh (w_set PLocal))))) =
    [(1%N, Completed); (2%N, Completed); (3%N, Failed "server restarted")] /\
  map fst (bs_dir (run w_ops (fresh (w_set PLocal)))) = [49%Z; 48%Z].
Proof.
  split; [repeat (constructor; [vm_compute; auto|]); constructor|]. split; [|split; vm_compute; reflexivity].
  apply (hours_differ_list _ [mkBackup 1 172805 (BLocal []) Completed false; mkBackup 2 176800 (BLocal []) Completed false;
     mkBackup 3 180800 (BLocal []) (Failed "server restarted") false]); [vm_compute; reflexivity|].
  intros a b Ha Hb. cbn in Ha, Hb. destruct Ha as [<-|[<-|[<-|[]]]]; destruct Hb as [<-|[<-|[<-|[]]]]; vm_compute; congruence.
Qed.
Example C106_witness_gcp :
  let s := run [OTick (w_mid + 5) w_ok] (fresh (w_set PGcp)) in
  map bk_status (backups_list (bs_db s)) = [Completed] /\ cloud_get ([71%N], [3%N], 48%Z) s = Some [7%N; 8%N; 9%N].
Proof. vm_compute. split; reflexivity. Qed.
Example C106_witness_refuted :
  let s := run [OAsk w_mid; OTick (w_mid + 10) w_ok; OAsk (w_mid + 20)] (fresh (w_set PLocal)) in
  bs_alive s = true /\ map bk_status (backups_list (bs_db s)) = [Completed; Idle] /\
  map hour_of (backups_list (bs_db s)) = [48%Z; 48%Z] /\
  map bk_status (backups_list (bs_db (tick (w_mid + 30) w_bad s))) = [Completed; Completed] /\
  dir_get 48%Z (tick (w_mid + 30) w_bad s) = Some [7%N].
Proof. vm_compute. repeat split; reflexivity. Qed.
Example C106_witness_s3 :
  let s := run [OAsk w_mid] (fresh (w_set PS3)) in
  map bk_status (backups_list (bs_db (tick (w_mid + 10) w_ok s))) = [Completed] /\ bs_dir (tick (w_mid + 10) w_ok s) = [] /\
  bs_cloud (tick (w_mid + 10) w_ok s) = [].
Proof. vm_compute. repeat split; reflexivity. Qed.
(** Midnight: the first round starts a backup, the next does not. *)
Example C107_witness :
  let s := fresh (w_set PLocal) in
  due IDaily 0 (w_mid + 5) = Some true /\ due IDaily 0 (w_mid + 65) = Some false /\
  count s = 0%nat /\ count (tick (w_mid + 5) w_ok s) = 1%nat /\
  tick (w_mid + 15) w_ok2 (tick (w_mid + 5) w_ok s) = tick (w_mid + 5) w_ok s /\
  StronglySorted Z.le (times [OTick (w_mid + 5) w_ok] ++ [(w_mid + 15)%Z]).
Proof. vm_compute. repeat split; repeat constructor; discriminate. Qed.
(** Ten backups asked for on the day before; then the six rounds of the midnight minute. *)
Definition w_ten : list Op :=
  flat_map (fun k => [OAsk (w_mid - 40000 + Z.of_nat k * 3600); OTick (w_mid - 39990 + Z.of_nat k * 3600) w_ok]) (seq 0 10).
Example C107_witness_repeated :
  let s := run w_ten (fresh (w_set PLocal)) in
  count s = 10%nat /\ bs_alive s = true /\
  count (rounds (map (fun k => ((w_mid + 5 + 10 * Z.of_nat k)%Z, w_ok)) (seq 0 5)) s) = 15%nat.
Proof. vm_compute. repeat split; reflexivity. Qed.
Example C107_witness_s3 :
  let s := fresh (w_set PS3) in
  bs_alive (tick (w_mid + 5) w_ok s) = false /\
  map bk_status (backups_list (bs_db (run [OTick (w_mid + 5) w_ok; OAsk (w_mid + 100); OTick (w_mid + 110) w_ok] s))) = [Idle].
Proof. vm_compute. repeat split; reflexivity. Qed.
Example C108_witness :
  let s := run [OAsk w_mid; OCrash (w_mid + 10) w_ok 4; OAsk (w_mid + 20)] (fresh (w_set PGcp)) in
  map bk_status (backups_list (bs_db s)) = [Failed "server restarted"; Idle] /\
  map bk_status (backups_list (bs_db (tick (w_mid + 30) w_ok s))) = [Failed "server restarted"; Completed].
Proof. vm_compute. repeat split; reflexivity. Qed.
Example C108_witness_uploading :
  let s := run [OAsk w_mid; OCrash (w_mid + 10) w_ok 5] (fresh (w_set PGcp)) in
  map bk_status (backups_list (bs_db s)) = [Uploading] /\
  map bk_status (backups_list (bs_db (run [OTick (w_mid + 30) w_ok; ORestart] s))) = [Uploading].
Proof. vm_compute. repeat split; reflexivity. Qed.

Definition w_hour (i : Interval) (h : N) : Settings :=
  mkSettings [1%N] [2%N] [] true false [] false PLocal [] [66%N] [] [82%N] [1%N] [1%N] [71%N] [3%N] [4%N] i h.
(** Sunday, 4 January 1970, 5 o'clock; 1 February; 1 January 1971; and a second too late. *)
Example C107_witness_schedule :
  scheduled IWeekly 5 (3 * 86400 + 5 * 3600 + 59) /\ ~ scheduled IWeekly 5 (3 * 86400 + 5 * 3600 + 60) /\
  ~ scheduled IWeekly 5 (4 * 86400 + 5 * 3600) /\ scheduled IMonthly 5 (31 * 86400 + 5 * 3600) /\
  scheduled IYearly 0 (365 * 86400) /\ ~ scheduled IYearly 0 (366 * 86400) /\
  count (tick (3 * 86400 + 5 * 3600 + 59) w_ok (fresh (w_hour IWeekly 5))) = 1%nat.
Proof.
  assert (H : forall i h t, due i h t = Some true -> scheduled i h t) by (intros; now apply due_iff).
  assert (N : forall i h t, (h < 24)%N -> due i h t = Some false -> ~ scheduled i h t).
  { intros i h t L E Q. assert (X : due i h t = Some true) by (apply due_iff; auto). congruence. }
  split; [apply H; reflexivity|]. split; [apply N; reflexivity|]. split; [apply N; reflexivity|].
  split; [apply H; reflexivity|]. split; [apply H; reflexivity|]. split; [apply N; reflexivity|reflexivity].
Qed.
Example C107_witness_hour : bs_alive (tick 7 w_ok (fresh (w_hour IDaily 24))) = false.
Proof. reflexivity. Qed.
Example C106_witness_leftovers :
  let s := run [OAsk w_mid] (fresh (w_set PGcp)) in let s3 := run [OAsk w_mid] (fresh (w_set PS3)) in
  map bk_status (backups_list (bs_db s)) = [Idle] /\ tmp_get 1%N (tick (w_mid + 5) w_ok s) = None /\
  tmp_get 1%N (tick (w_mid + 5) w_ok s3) = Some [7%N; 8%N; 9%N].
Proof. vm_compute. repeat split; reflexivity. Qed.
Example C108_witness_asked :
  let s := run [OAsk w_mid] (fresh (w_set PGcp)) in
  backups_list (bs_db s) = [mkBackup 1 w_mid (BGcp [71%N] [3%N]) Idle false] /\ step (OAsk (w_mid + 1)) s = s.
Proof. vm_compute. split; reflexivity. Qed.

Print Assumptions C106_no_leftovers.
Print Assumptions C106_s3_leaves_file_refuted.
Print Assumptions C107_hour_stops_scheduler_refuted.
Print Assumptions C108_asked.
Print Assumptions C106_completed_is_stored_partial.
Print Assumptions C106_failed_dump_completed_refuted.
Print Assumptions C106_s3_stores_nothing_refuted.
Print Assumptions C106_same_hour_overwritten_refuted.
Print Assumptions C107_scheduled_once_partial.
Print Assumptions C107_repeated_refuted.
Print Assumptions C107_s3_stops_scheduler_refuted.
Print Assumptions C108_restart_ends_running.
Print Assumptions C108_waiting_is_run.
Print Assumptions C108_finished_stays.
Print Assumptions C108_uploading_forever_refuted.
