(** Properties C104 and C105: server settings. *)
From Coq Require Import List NArith PeanoNat Lia Bool.
From Verif Require Import Kv Proto MdCodec MdFacts Settings.
Import ListNotations.
Local Open Scope N_scope.

(** ** Specification *)
(** What the documentation of the settings asks for. *)
Definition acceptable (s : Settings) : Prop :=
  (st_enc s = true -> st_enc_pwd s <> []) /\
  (st_prov s = PS3 -> st_s3_bucket s <> [] /\ st_s3_region s <> [] /\ st_s3_ak s <> [] /\ st_s3_sk s <> []) /\
  (st_prov s = PGcp -> st_gcp_bucket s <> [] /\ st_gcp_key s <> []).
(** The encoding is shorter than 2^64 bytes. *)
Definition fits (s : Settings) : Prop := N.of_nat (length (serialize_settings s)) < 2 ^ 64.
Definition with_hour (h : N) (s : Settings) : Settings :=
  mkSettings (st_access s) (st_refresh s) (st_admin_pwd s) (st_enabled s) (st_enc s) (st_enc_pwd s) (st_comp s)
    (st_prov s) (st_local s) (st_s3_bucket s) (st_s3_path s) (st_s3_region s) (st_s3_ak s) (st_s3_sk s)
    (st_gcp_bucket s) (st_gcp_path s) (st_gcp_key s) (st_interval s) h.
(** The value of a setting after a request that may name a new one. *)
Definition changed {A} (requested : option A) (before after : A) : Prop :=
  match requested with Some v => after = v | None => after = before end.

(** ** Facts *)
Lemma is_empty_false t : is_empty t = false <-> t <> [].
Proof. destruct t; cbn; split; congruence. Qed.
Lemma validate_iff s : validate s = true <-> acceptable s.
Proof.
  unfold validate, acceptable.
  destruct (st_enc s); destruct (st_enc_pwd s); destruct (st_prov s); cbn [andb is_empty];
    destruct (st_s3_bucket s), (st_s3_region s), (st_s3_ak s), (st_s3_sk s), (st_gcp_bucket s), (st_gcp_key s);
    cbn; split; try congruence; try tauto; intros; repeat split; try congruence; try (intros; congruence);
    try (exfalso; intuition congruence).
Qed.

Lemma settings_rt s : fits s -> deserialize_settings (serialize_settings s) = Some (with_hour 0 s).
Proof.
  intros F. unfold deserialize_settings, serialize_settings in *.
  rewrite dec_fields_enc; [|unfold put_settings; oks; destruct (st_prov s), (st_interval s); cbn; lia|exact F].
  clear F. unfold put_settings. cbn [obind].
  rewrite (get_bytes_occ 1 _ (st_access s)) by occ. cbn [obind].
  rewrite (get_bytes_occ 2 _ (st_refresh s)) by occ. cbn [obind].
  rewrite (get_bytes_occ 3 _ (st_admin_pwd s)) by occ. cbn [obind].
  rewrite (get_bool_occ 4 _ (st_enabled s)) by occ. cbn [obind].
  rewrite (get_bool_occ 5 _ (st_enc s)) by occ. cbn [obind].
  rewrite (get_bytes_occ 6 _ (st_enc_pwd s)) by occ. cbn [obind].
  rewrite (get_bool_occ 7 _ (st_comp s)) by occ. cbn [obind].
  rewrite (get_uint_occ 8 _ (prov_tag (st_prov s))) by occ. cbn [obind].
  rewrite (get_bytes_occ 9 _ (st_local s)) by occ. cbn [obind].
  rewrite (get_bytes_occ 10 _ (st_s3_bucket s)) by occ. cbn [obind].
  rewrite (get_bytes_occ 11 _ (st_s3_path s)) by occ. cbn [obind].
  rewrite (get_bytes_occ 12 _ (st_s3_region s)) by occ. cbn [obind].
  rewrite (get_bytes_occ 13 _ (st_s3_ak s)) by occ. cbn [obind].
  rewrite (get_bytes_occ 14 _ (st_s3_sk s)) by occ. cbn [obind].
  rewrite (get_bytes_occ 15 _ (st_gcp_bucket s)) by occ. cbn [obind].
  rewrite (get_bytes_occ 16 _ (st_gcp_path s)) by occ. cbn [obind].
  rewrite (get_bytes_occ 17 _ (st_gcp_key s)) by occ. cbn [obind].
  rewrite (get_uint_occ 18 _ (interval_tag (st_interval s))) by occ. cbn [obind].
  rewrite (get_uint_occ 19 _ 0) by occ. cbn [obind].
  assert (P : prov_of (u32 (prov_tag (st_prov s))) = Some (st_prov s)) by (destruct (st_prov s); reflexivity).
  assert (Q : interval_of (u32 (interval_tag (st_interval s))) = Some (st_interval s)) by (destruct (st_interval s); reflexivity).
  rewrite P, Q. reflexivity.
Qed.

(** ** C104: saved settings are the settings in force, also after a restart. *)
(** Missing from the full statement: the hour at which backups start. *)
Theorem C104_settings_kept_partial : forall s db, fits s ->
  (acceptable s -> exists db', save s db = (Ok tt, db') /\ load db' = Ok (with_hour 0 s)) /\
  (~ acceptable s -> save s db = (Err BadRequest, db)).
Proof.
  intros s db F. unfold save. destruct (validate s) eqn:V.
  - apply validate_iff in V. split; [intros _|tauto].
    eexists. split; [reflexivity|]. cbn [load]. now rewrite settings_rt.
  - split; [|reflexivity]. intros A. apply validate_iff in A. congruence.
Qed.
Print Assumptions C104_settings_kept_partial.
(** Whatever else is set, a start hour other than midnight is not kept. *)
Theorem C104_start_hour_refuted : forall s db, fits s -> acceptable s -> st_hour s <> 0 ->
  exists db' s', save s db = (Ok tt, db') /\ load db' = Ok s' /\ st_hour s' = 0 /\ s' <> s.
Proof.
  intros s db F A H. destruct (proj1 (C104_settings_kept_partial s db F) A) as (db' & E & L).
  exists db', (with_hour 0 s). repeat split; auto. intros X. apply H. now rewrite <- X.
Qed.
Print Assumptions C104_start_hour_refuted.

Definition sample_settings : Settings :=
  mkSettings [1; 2] [3] [] true true [9; 9] false PS3 [4] [5] [] [6] [7] [8] [] [] [] IWeekly 5.
Example C104_witness : fits sample_settings /\ acceptable sample_settings /\ st_hour sample_settings <> 0 /\
  load (snd (save sample_settings None)) = Ok (with_hour 0 sample_settings).
Proof.
  split; [vm_compute; reflexivity|]. split; [apply validate_iff; reflexivity|]. split; [discriminate|].
  vm_compute. reflexivity.
Qed.
Example C104_witness_refused : ~ acceptable (with_refresh [] (mkSettings [] [] [] true true [] false PLocal [] [] [] [] [] [] [] [] [] IDaily 0)).
Proof. intros (H & _). now apply H. Qed.

(** ** C105: an accepted change of settings is in force afterwards. *)
(** A stored value that can be read, and the settings it stands for. *)
Lemma set_cases r db s : load db = Ok s -> fits (merge_request r s) ->
  settings_set r db = if validate (merge_request r s)
                      then (Ok (view_of (with_hour 0 (merge_request r s))), Some (serialize_settings (merge_request r s)))
                      else (Err BadRequest, db).
Proof.
  intros L F. unfold settings_set. rewrite L. unfold save.
  destruct (validate (merge_request r s)); [|reflexivity].
  unfold settings_get. cbn [load]. now rewrite settings_rt.
Qed.
(** Missing from the full statement: the schedule, the key of the Google Cloud bucket and the
    password of the first account. *)
Theorem C105_changes_applied_partial : forall r db before view db',
  load db = Ok before -> fits (merge_request r before) ->
  settings_set r db = (Ok view, db') ->
  exists after, load db' = Ok after /\ view = view_of after /\ acceptable after /\
    changed (vw_access r) (st_access before) (st_access after) /\
    changed (vw_refresh r) (st_refresh before) (st_refresh after) /\
    changed (vw_enabled r) (st_enabled before) (st_enabled after) /\
    changed (vw_enc r) (st_enc before) (st_enc after) /\
    changed (vw_enc_pwd r) (st_enc_pwd before) (st_enc_pwd after) /\
    changed (vw_comp r) (st_comp before) (st_comp after) /\
    changed (vw_prov r) (st_prov before) (st_prov after) /\
    changed (vw_s3_bucket r) (st_s3_bucket before) (st_s3_bucket after) /\
    changed (vw_s3_path r) (st_s3_path before) (st_s3_path after) /\
    changed (vw_s3_region r) (st_s3_region before) (st_s3_region after) /\
    changed (vw_s3_ak r) (st_s3_ak before) (st_s3_ak after) /\
    changed (vw_s3_sk r) (st_s3_sk before) (st_s3_sk after) /\
    changed (vw_gcp_bucket r) (st_gcp_bucket before) (st_gcp_bucket after) /\
    changed (vw_gcp_path r) (st_gcp_path before) (st_gcp_path after) /\
    st_local after = st_local before.
Proof.
  intros r db s v db' L F E. assert (F' := F).
  rewrite (set_cases r db s L F') in E. destruct (validate (merge_request r s)) eqn:V; [|discriminate].
  assert (E1 : v = view_of (with_hour 0 (merge_request r s))) by congruence.
  assert (E2 : db' = Some (serialize_settings (merge_request r s))) by congruence.
  exists (with_hour 0 (merge_request r s)). subst v db'. cbn [load]. rewrite settings_rt by exact F'.
  split; [reflexivity|]. split; [reflexivity|].
  split; [apply validate_iff in V; exact V|].
  unfold changed, merge_request; destruct r; cbn.
  repeat match goal with |- _ /\ _ => split end;
    match goal with
    | |- match ?o with Some _ => _ | None => _ end => destruct o; reflexivity
    | |- _ => reflexivity
    end.
Qed.
Print Assumptions C105_changes_applied_partial.

(** A request is accepted and its schedule, cloud key and password are dropped, whatever they are. *)
Theorem C105_schedule_ignored_refuted : forall r db before view db',
  load db = Ok before -> fits (merge_request r before) -> settings_set r db = (Ok view, db') ->
  exists after, load db' = Ok after /\
    st_interval after = st_interval before /\ st_hour after = 0 /\
    st_gcp_key after = st_gcp_key before /\ st_admin_pwd after = st_admin_pwd before /\
    vw_interval view = Some (st_interval before) /\ vw_hour view = Some 0.
Proof.
  intros r db s v db' L F E.
  rewrite (set_cases r db s L F) in E. destruct (validate (merge_request r s)) eqn:V; [|discriminate].
  assert (E1 : v = view_of (with_hour 0 (merge_request r s))) by congruence.
  assert (E2 : db' = Some (serialize_settings (merge_request r s))) by congruence.
  exists (with_hour 0 (merge_request r s)). subst v db'. cbn [load]. rewrite settings_rt by exact F.
  cbn. repeat split.
Qed.
Print Assumptions C105_schedule_ignored_refuted.

(** A request that is refused changes nothing. *)
Theorem C105_refused_changes_nothing : forall r db e db',
  settings_set r db = (Err e, db') -> (forall before, load db = Ok before -> fits (merge_request r before)) ->
  db' = db.
Proof.
  intros r db e db' E F. destruct (load db) as [s|e'] eqn:L.
  - rewrite (set_cases r db s L (F s eq_refl)) in E. destruct (validate _); congruence.
  - unfold settings_set in E. rewrite L in E. congruence.
Qed.
Print Assumptions C105_refused_changes_nothing.

(** No history of starts and changes of settings, from the first start on, leads to another
    schedule than daily at midnight, and none to backups in the Google Cloud: a request for
    them is refused for want of a key that no request can set. *)
Definition reached (db : Db) : Prop :=
  match db with
  | None => True
  | Some b => exists s, deserialize_settings b = Some s /\ validate s = true /\
                        st_interval s = IDaily /\ st_hour s = 0 /\ st_gcp_key s = []
  end.
Definition plain (s : Settings) : Prop := st_interval s = IDaily /\ st_hour s = 0 /\ st_gcp_key s = [].
Lemma validate_hour h s : validate (with_hour h s) = validate s.
Proof. reflexivity. Qed.
Lemma load_reached db s : reached db -> load db = Ok s -> plain s.
Proof.
  intros R L. destruct db as [b|]; [|discriminate]. destruct R as (s' & D & _ & P). cbn in L. rewrite D in L.
  assert (s = s') by congruence. subst s'. exact P.
Qed.
Lemma save_reached s db r db' : reached db -> plain s ->
  (forall b, db' = Some b -> N.of_nat (length b) < 2 ^ 64) -> save s db = (r, db') -> reached db'.
Proof.
  intros R P F E. unfold save in E. destruct (validate s) eqn:V; [|injection E as _ <-; exact R].
  injection E as _ <-. specialize (F _ eq_refl). cbn [reached]. exists (with_hour 0 s).
  rewrite settings_rt by exact F. destruct P as (P1 & P2 & P3). repeat split; try assumption. 
Qed.
Lemma step_reached o db : reached db ->
  (forall b, s_step o db = Some b -> N.of_nat (length b) < 2 ^ 64) -> reached (s_step o db).
Proof.
  intros R F. destruct o as [k1 k2|p|r]; cbn [s_step] in *.
  - unfold init_settings in *. destruct (load db) as [s|e] eqn:L.
    + pose proof (load_reached db s R L) as P.
      destruct (save _ db) as [x db'] eqn:E. eapply save_reached in E; eauto.
      destruct P as (P1 & P2 & P3). destruct (is_empty (st_access s)); cbn -[is_empty];
        destruct (is_empty (st_refresh s)); repeat split; assumption.
    + destruct e; try exact R.
      change (save default_settings db) with (@Ok unit tt, Some (serialize_settings default_settings)) in *.
      cbv iota beta in *. destruct (save _ (Some (serialize_settings default_settings))) as [x db'] eqn:E.
      eapply save_reached in E; eauto.
      * cbn [reached]. exists default_settings. vm_compute. repeat split.
      * cbn. repeat split.
  - unfold store_admin_password in *. destruct (load db) as [s|e] eqn:L; [|exact R].
    pose proof (load_reached db s R L) as P.
    destruct (save _ db) as [x db'] eqn:E. eapply save_reached in E; eauto.
  - unfold settings_set in *. destruct (load db) as [s|e] eqn:L; [|exact R].
    pose proof (load_reached db s R L) as P.
    destruct (save (merge_request r s) db) as [x db'] eqn:E.
    assert (Q : reached db').
    { eapply save_reached in E; eauto. destruct x; exact F. }
    destruct x; exact Q.
Qed.
Lemma run_reached ops : (forall n b, s_run (firstn n ops) None = Some b -> N.of_nat (length b) < 2 ^ 64) ->
  reached (s_run ops None).
Proof.
  induction ops as [|o ops IH] using rev_ind; intros F; [exact I|].
  unfold s_run. rewrite fold_left_app. cbn [fold_left]. fold (s_run ops None). apply step_reached.
  - apply IH. intros n b E. destruct (Compare_dec.le_gt_dec n (length ops)) as [H|H].
    + apply (F n). rewrite firstn_app. replace (n - length ops)%nat with 0%nat by lia. cbn. now rewrite app_nil_r.
    + apply (F (length ops)). rewrite firstn_app, Nat.sub_diag. cbn. rewrite app_nil_r.
      rewrite firstn_all2 in E by lia. now rewrite firstn_all.
  - intros b E. apply (F (length (ops ++ [o]))). rewrite firstn_all. unfold s_run. rewrite fold_left_app. exact E.
Qed.
Theorem C105_schedule_fixed_refuted : forall ops,
  (forall n b, s_run (firstn n ops) None = Some b -> N.of_nat (length b) < 2 ^ 64) ->
  let db := s_run ops None in
  (forall s, load db = Ok s -> st_interval s = IDaily /\ st_hour s = 0) /\
  (forall r s, load db = Ok s -> vw_prov r = Some PGcp -> settings_set r db = (Err BadRequest, db)).
Proof.
  intros ops F db. pose proof (run_reached ops F) as R. fold db in R. split.
  - intros s L. destruct (load_reached db s R L) as (P1 & P2 & _). auto.
  - intros r s L E. destruct (load_reached db s R L) as (_ & _ & P3).
    unfold settings_set. rewrite L. unfold save.
    assert (V : validate (merge_request r s) = false).
    { unfold validate. cbn. rewrite E, P3. cbn.
      destruct (or_else (vw_enc r) (st_enc s) && is_empty (or_else (vw_enc_pwd r) (st_enc_pwd s))); [reflexivity|].
      destruct (is_empty _); reflexivity. }
    now rewrite V.
Qed.
Print Assumptions C105_schedule_fixed_refuted.

Definition no_change : SettingsView :=
  mkView None None None None None None None None None None None None None None None None None None.
Definition ask_weekly : SettingsView :=
  mkView None (Some [7]) None (Some true) None None None None None None None None None None None (Some [1]) (Some IWeekly) (Some 4).
Definition ask_gcp : SettingsView :=
  mkView None None None None None None None (Some PGcp) None None None None None (Some [1]) (Some []) (Some [2]) None None.
Definition first_start : Db := s_run [SStart [1] [2]; SAdminPassword [3]] None.
Example C105_witness : exists before view db',
  load first_start = Ok before /\ fits (merge_request ask_weekly before) /\
  settings_set ask_weekly first_start = (Ok view, db') /\
  vw_enabled view = Some true /\ vw_interval view = Some IDaily /\ vw_hour view = Some 0.
Proof.
  exists (mkSettings [1] [2] [3] false false [] false PLocal [] [] [] [] [] [] [] [] [] IDaily 0).
  do 2 eexists. split; [vm_compute; reflexivity|]. split; [vm_compute; reflexivity|].
  split; [vm_compute; reflexivity|]. vm_compute. repeat split; reflexivity.
Qed.
Example C105_witness_history :
  let ops := [SStart [1] [2]; SAdminPassword [3]; SSet ask_weekly] in
  (forall n b, s_run (firstn n ops) None = Some b -> N.of_nat (length b) < 2 ^ 64) /\
  settings_set ask_gcp (s_run ops None) = (Err BadRequest, s_run ops None).
Proof.
  split; [|vm_compute; reflexivity].
  intros [|[|[|[|n]]]] b E; vm_compute in E; try discriminate; injection E as <-; vm_compute; reflexivity.
Qed.

(** Reading the settings shows every setting that is not a secret, as it is stored. *)
Theorem C105_shown : forall db s, load db = Ok s ->
  exists view, settings_get db = Ok view /\
    vw_enabled view = Some (st_enabled s) /\ vw_enc view = Some (st_enc s) /\ vw_comp view = Some (st_comp s) /\
    vw_prov view = Some (st_prov s) /\
    vw_s3_bucket view = Some (st_s3_bucket s) /\ vw_s3_path view = Some (st_s3_path s) /\
    vw_s3_region view = Some (st_s3_region s) /\ vw_s3_ak view = Some (st_s3_ak s) /\
    vw_gcp_bucket view = Some (st_gcp_bucket s) /\ vw_gcp_path view = Some (st_gcp_path s) /\
    vw_interval view = Some (st_interval s) /\ vw_hour view = Some (st_hour s).
Proof. intros db s L. unfold settings_get. rewrite L. eexists. split; [reflexivity|]. cbn. repeat split. Qed.
Print Assumptions C105_shown.
(** Two servers whose settings differ in secrets only: the keys that sign tokens, the password of
    the first account, the password of encrypted backups and the keys of the clouds. *)
Definition same_but_secrets (a b : Settings) : Prop :=
  st_enabled a = st_enabled b /\ st_enc a = st_enc b /\ st_comp a = st_comp b /\ st_prov a = st_prov b /\
  st_local a = st_local b /\
  st_s3_bucket a = st_s3_bucket b /\ st_s3_path a = st_s3_path b /\ st_s3_region a = st_s3_region b /\
  st_s3_ak a = st_s3_ak b /\ st_gcp_bucket a = st_gcp_bucket b /\ st_gcp_path a = st_gcp_path b /\
  st_interval a = st_interval b /\ st_hour a = st_hour b.
(** Reading the settings shows no secret: such servers answer alike. *)
Theorem C105_secrets_not_shown : forall db1 db2 s1 s2, load db1 = Ok s1 -> load db2 = Ok s2 ->
  same_but_secrets s1 s2 -> settings_get db1 = settings_get db2.
Proof.
  intros db1 db2 s1 s2 L1 L2 H. unfold settings_get. rewrite L1, L2. unfold same_but_secrets in H.
  destruct s1, s2. cbn in H. unfold view_of. cbn. intuition congruence.
Qed.
Print Assumptions C105_secrets_not_shown.

(** ** Starts *)
(** Except for the lost hour (above), a start keeps all settings; the keys that sign tokens are
    made by the first start, and by a later one only if they are empty. *)
Definition keys_filled (k1 k2 : Text) (before after : Settings) : Prop :=
  (st_access before <> [] -> st_access after = st_access before) /\ (st_access before = [] -> st_access after = k1) /\
  (st_refresh before <> [] -> st_refresh after = st_refresh before) /\ (st_refresh before = [] -> st_refresh after = k2).
Definition same_but_keys (a b : Settings) : Prop :=
  with_hour 0 (with_access [] (with_refresh [] a)) = with_hour 0 (with_access [] (with_refresh [] b)).
Definition filled (k1 k2 : Text) (s : Settings) : Settings :=
  let s1 := if is_empty (st_access s) then with_access k1 s else s in
  if is_empty (st_refresh s1) then with_refresh k2 s1 else s1.
Theorem C104_starts_partial : forall k1 k2 db,
  (forall b, s_step (SStart k1 k2) db = Some b -> N.of_nat (length b) < 2 ^ 64) ->
  (db = None -> exists after, load (s_step (SStart k1 k2) db) = Ok after /\
     st_access after = k1 /\ st_refresh after = k2 /\ same_but_keys default_settings after) /\
  (forall before, load db = Ok before -> acceptable before ->
     exists after, load (s_step (SStart k1 k2) db) = Ok after /\
       keys_filled k1 k2 before after /\ same_but_keys before after).
Proof.
  intros k1 k2 db F.
  assert (G : forall s db0, acceptable s -> (forall b, snd (save (filled k1 k2 s) db0) = Some b -> N.of_nat (length b) < 2 ^ 64) ->
    exists after, load (snd (save (filled k1 k2 s) db0)) = Ok after /\ keys_filled k1 k2 s after /\ same_but_keys s after).
  { intros s db0 A. set (s2 := filled k1 k2 s). intros Fs.
    assert (V : validate s2 = true).
    { apply validate_iff in A. rewrite <- A. unfold s2, filled. destruct (is_empty (st_access s)); cbn -[is_empty]; destruct (is_empty (st_refresh s)); reflexivity. }
    unfold save in *. rewrite V in *. cbn [snd] in *. specialize (Fs _ eq_refl). cbn [load]. rewrite settings_rt by exact Fs.
    exists (with_hour 0 s2). split; [reflexivity|]. unfold keys_filled, same_but_keys, s2, filled. clear.
    destruct s as [a r w1 w2 w3 w4 w5 w6 w7 w8 w9 w10 w11 w12 w13 w14 w15 w16 w17].
    destruct a, r; (split; [|vm_compute; reflexivity]); vm_compute; repeat split; intros H; try reflexivity; solve [discriminate H|now elim H]. }
  cbn [s_step] in *. split.
  - intros ->. cbn [s_step load] in *. unfold init_settings in *. cbn [load] in *.
    change (save default_settings None) with (@Ok unit tt, Some (serialize_settings default_settings)) in *. cbv iota beta in *.
    destruct (G default_settings (Some (serialize_settings default_settings))) as (after & L & (_ & K1 & _ & K2) & Q).
    + apply validate_iff. reflexivity.
    + exact F.
    + exists after. split; [exact L|]. split; [now apply K1|]. split; [now apply K2|exact Q].
  - intros before L A. unfold init_settings in *. rewrite L in *. now apply G.
Qed.
Print Assumptions C104_starts_partial.
(** The password of the first account is stored, and nothing else changes. *)
Theorem C104_admin_password_partial : forall pwd db before,
  (forall b, s_step (SAdminPassword pwd) db = Some b -> N.of_nat (length b) < 2 ^ 64) ->
  load db = Ok before -> acceptable before ->
  exists after, load (s_step (SAdminPassword pwd) db) = Ok after /\ st_admin_pwd after = pwd /\
    with_hour 0 (with_admin_pwd [] after) = with_hour 0 (with_admin_pwd [] before).
Proof.
  intros pwd db s F L A. cbn [s_step] in *. unfold store_admin_password, save in *. rewrite L in *.
  assert (V : validate (with_admin_pwd pwd s) = true) by (apply validate_iff in A; rewrite <- A; reflexivity).
  rewrite V in *. cbn [snd] in *. specialize (F _ eq_refl). cbn [load]. rewrite settings_rt by exact F.
  eexists. split; [reflexivity|]. split; reflexivity.
Qed.
Print Assumptions C104_admin_password_partial.
Example C104_witness_starts :
  load (s_run [SStart [1] [2]; SStart [8] [9]; SAdminPassword [3]] None) =
    Ok (mkSettings [1] [2] [3] false false [] false PLocal [] [] [] [] [] [] [] [] [] IDaily 0).
Proof. vm_compute. reflexivity. Qed.
Example C105_witness_secrets :
  let a := s_run [SStart [1] [2]] None in let b := s_run [SStart [8] [9]; SAdminPassword [3]] None in
  a <> b /\ settings_get a = settings_get b.
Proof. split; [vm_compute; discriminate|]. vm_compute. reflexivity. Qed.
