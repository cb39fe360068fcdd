(** Properties C20, C21 and C70: backup and restore. *)
From Coq Require Import List NArith ZArith Bool Lia Permutation.
From Verif Require Import Bytes BytesFacts Value Log LogFacts AMap Memtable Table MdCodec Backup BackupFacts.
Import ListNotations.
Local Open Scope N_scope.

(** What a user sees of a table. *)
Definition visible (t : OpenTable) :=
  (ot_name t, fm_table_name (ot_md t), fm_schema (ot_md t), fm_levels (ot_md t), fm_opts (ot_md t), ot_mem t).
(** Bytes of a part file and of the current log of an open table. *)
Definition part_file (db : Db) (t : OpenTable) (k : nat * N) : option (list N) :=
  match aget name_dec (ot_name t) (db_dirs db) with Some d => aget pid_dec k (td_parts d) | None => None end.
Definition log_of (db : Db) (t : OpenTable) : option (list N) :=
  match aget name_dec (ot_name t) (db_dirs db) with
  | Some d => aget N.eq_dec (fm_log_id (ot_md t)) (td_logs d) | None => None end.

Definition table_list (db : Db) := map (fun t => (ot_name t, ot_md t)) (db_tables db).
(** [dec] undoes [enc] on the table list of this database (the contract of bincode), and
    the encoding is shorter than 2^64 bytes. *)
Definition codec_ok (enc : list (name * FullMetadata) -> list N) (dec : list N -> option (list (name * FullMetadata))) (db : Db) :=
  dec (enc (table_list db)) = Some (table_list db) /\ N.of_nat (length (enc (table_list db))) < 2 ^ 64.

Lemma ready_files db : Forall (table_ready db) (db_tables db) ->
  exists files, Forall2 (fun t lb => table_files db t (fst lb) (snd lb) /\ N.of_nat (length (fst lb)) < 2 ^ 64 /\
     Forall2 (fun lp b => N.of_nat (length b) = fp_size (snd lp)) (parts_of (ot_md t)) (snd lb) /\
     NoDup (map pkey (parts_of (ot_md t))) /\
     exists ops, recover_log hash_crc32 (fst lb) = Ok ops /\
       replay (fold_left mt_add_column (map ff_dt (fm_schema (ot_md t))) mt_new) ops = Some (ot_mem t))
    (db_tables db) files.
Proof.
  induction 1 as [|t ts (log & bs & ops & H1 & H2 & H3 & H4 & H5 & H6) F (files & IH)].
  - exists []. constructor.
  - exists ((log, bs) :: files). constructor; [|exact IH]. cbn [fst snd]. eauto 10.
Qed.
Lemma Forall2_weaken {A B} (P Q : A -> B -> Prop) l m :
  (forall a b, P a b -> Q a b) -> Forall2 P l m -> Forall2 Q l m.
Proof. intros H. induction 1; constructor; auto. Qed.
Lemma Forall2_len {A B} (P : A -> B -> Prop) l m : Forall2 P l m -> length l = length m.
Proof. induction 1; cbn; congruence. Qed.
Lemma Ok_inj {E A} (a b : A) : @Ok E A a = Ok b -> a = b.
Proof. congruence. Qed.
Lemma backup_stream enc db files :
  Forall2 (fun t lb => table_files db t (fst lb) (snd lb)) (db_tables db) files ->
  backup enc db = Ok (le_bytes 8 backup_version ++ le_bytes 8 (N.of_nat (length (enc (table_list db))))
     ++ enc (table_list db) ++ concat (map (fun lb => stream_of (fst lb) (snd lb)) files) ++ backup_magic).
Proof.
  intros F. unfold backup, table_list.
  replace (seqR (map (backup_table db) (db_tables db)))
    with (@Ok fault _ (map (fun lb => stream_of (fst lb) (snd lb)) files)); [reflexivity|].
  symmetry. apply seqR_ok. induction F as [|t lb ts fs Hf F IH]; cbn; [reflexivity|].
  now rewrite (backup_table_ok _ _ _ _ Hf), IH.
Qed.
Lemma aget_rev_combine ns : forall ds n (d : TableDir),
  NoDup ns -> length ds = length ns -> In (n, d) (combine ns ds) ->
  aget name_dec n (rev (combine ns ds)) = Some d.
Proof.
  intros ds n d ND L I.
  assert (K : NoDup (akeys (rev (combine ns ds)))).
  { unfold akeys. rewrite map_rev. apply NoDup_rev.
    replace (map fst (combine ns ds)) with ns; [exact ND|].
    clear ND I. revert ds L. induction ns as [|a ns IH]; intros [|d' ds] L; cbn in *; try lia; [reflexivity|].
    f_equal. apply IH. lia. }
  apply in_rev in I. revert K I. generalize (rev (combine ns ds)) as m.
  induction m as [|[k v] m IH]; intros K I; [contradiction|]. cbn in *. inversion K as [|? ? Nin K']; subst.
  destruct I as [E|I].
  - inversion E; subst. destruct (name_dec n n); [reflexivity|contradiction].
  - destruct (name_dec n k) as [->|_]; [|now apply IH].
    exfalso. apply Nin. apply in_map_iff. exists (k, d). auto.
Qed.

(** ** C20: restoring the backup of a quiescent database, over any database whose table
    directories are all open, yields the same tables, with the same files. *)
Theorem C20_restore_reproduces_database :
  forall enc dec src tgt,
    codec_ok enc dec src ->
    quiescent src -> all_open tgt ->
    exists stream db', backup enc src = Ok stream /\ restore dec tgt stream = (db', Ok tt) /\
      Permutation (map visible (db_tables db')) (map visible (db_tables src)) /\
      forall t, In t (db_tables src) -> exists t', In t' (db_tables db') /\ ot_name t' = ot_name t /\
        log_of db' t' = log_of src t /\
        forall l p, In (l, p) (parts_of (ot_md t)) ->
          part_file db' t' (l, fp_id p) = part_file src t (l, fp_id p)
          /\ part_file src t (l, fp_id p) <> None.
Proof.
  intros enc dec src tgt (Hc & Hl) (ND & Q) Ho.
  destruct (ready_files src Q) as (files & F).
  assert (Ff : Forall2 (fun t lb => table_files src t (fst lb) (snd lb)) (db_tables src) files)
    by (eapply Forall2_weaken; [|exact F]; cbn; tauto).
  pose proof (backup_stream enc src files Ff) as Eb.
  destruct (restore_tables_ok (db_tables src) [] backup_magic files) as (ds & Er & Rd & Ld).
  { eapply Forall2_weaken; [|exact F]. cbn. tauto. }
  { exact ND. }
  { intros n _ []. }
  rewrite app_nil_r in Er.
  set (opened := map (fun t => mkOt (ot_name t) (restored_md backup_version (ot_md t)) (ot_mem t)) (db_tables src)).
  assert (Eo : seqR (map open_table (rev (combine (map ot_name (db_tables src)) ds))) = Ok (rev opened)).
  { apply seqR_ok. rewrite !map_rev. f_equal. subst opened. clear - F Rd.
    revert ds Rd. induction F as [|t lb ts fs Ht F IH]; intros ds Rd; cbn in *; [reflexivity|].
    inversion Rd as [|? d ? ds' R1 R2]; subst. cbn [combine map]. f_equal; [|now apply IH].
    destruct Ht as (_ & _ & _ & _ & ops & O1 & O2). cbn in R1. eapply open_restored; eauto. }
  eexists. exists (mkDb (rev (combine (map ot_name (db_tables src)) ds)) (rev opened)).
  split; [exact Eb|]. split; [|split].
  - unfold restore. rewrite truncate_nil by exact Ho. rewrite !read_exact_le8.
    rewrite !of_le_le_bytes. change (256 ^ N.of_nat 8) with (2 ^ 64). rewrite (N.mod_small _ _ Hl).
    rewrite Nat2N.id, read_exact_app, Hc. change (backup_version mod 2 ^ 64) with backup_version.
    unfold table_list. rewrite Er. cbn [read_exact length backup_magic Nat.ltb Nat.leb firstn skipn].
    destruct (list_eq_dec N.eq_dec _ _) as [_|Ne]; [|exfalso; apply Ne; reflexivity].
    now rewrite Eo.
  - cbn [db_tables]. rewrite map_rev. eapply perm_trans; [apply Permutation_sym, Permutation_rev|].
    subst opened. rewrite map_map. reflexivity.
  - intros t It. destruct (In_nth_error _ _ It) as [i Hi].
    assert (exists lb, nth_error files i = Some lb) as [lb Hlb].
    { destruct (nth_error files i) as [lb|] eqn:E; [eauto|]. apply nth_error_None in E.
      rewrite <- (Forall2_len _ _ _ F) in E. apply nth_error_None in E. congruence. }
    assert (exists d, nth_error ds i = Some d) as [d Hd].
    { destruct (nth_error ds i) as [d|] eqn:E; [eauto|]. apply nth_error_None in E.
      rewrite Ld in E. apply nth_error_None in E. congruence. }
    assert (HF : table_files src t (fst lb) (snd lb)).
    { clear - Ff Hi Hlb. revert i Hi Hlb. induction Ff; intros [|i] Hi Hlb; cbn in *; try discriminate; [congruence|eauto]. }
    assert (HR : restored_dir t (fst lb) (snd lb) d).
    { clear - Rd Hi Hlb Hd F. revert i ds Rd Hi Hlb Hd. induction F as [|t' lb' ts fs Ht F IH]; intros [|i] ds Rd Hi Hlb Hd;
        cbn in *; try discriminate; inversion Rd as [|? d' ? ds' R1 R2]; subst; cbn in *.
      - inversion Hi; inversion Hlb; inversion Hd; subst. exact R1.
      - eauto. }
    exists (mkOt (ot_name t) (restored_md backup_version (ot_md t)) (ot_mem t)).
    assert (HA : aget name_dec (ot_name t) (rev (combine (map ot_name (db_tables src)) ds)) = Some d).
    { apply aget_rev_combine; [exact ND|now rewrite map_length|].
      apply nth_error_In with i. revert Hi Hd. generalize (db_tables src) as ts. clear.
      intros ts. revert ds i. induction ts as [|t' ts IH]; intros [|d' ds] [|i] Hi Hd; cbn in *; try discriminate; auto.
      congruence. }
    split; [apply -> in_rev; unfold opened; apply in_map_iff; eauto|]. split; [reflexivity|].
    destruct HF as (d0 & D0 & L0 & P0). destruct HR as (_ & L1 & P1). split.
    + unfold log_of. cbn [db_dirs ot_name ot_md fm_log_id restored_md]. rewrite HA, D0, L0, L1. reflexivity.
    + intros l p Ip. unfold part_file. cbn [db_dirs ot_name]. rewrite HA, D0.
      clear - P0 P1 Ip. revert Ip. generalize (parts_of (ot_md t)) (snd lb) P0 P1. intros lps bs A.
      induction A as [|[l' p'] b lps bs Hb A IH]; intros B Ip; [contradiction|].
      inversion B as [|? ? ? ? Hb' B']; subst. unfold pkey in Hb, Hb'. cbn [fst snd] in Hb, Hb'. destruct Ip as [E|Ip]; [|now apply IH].
      inversion E; subst. rewrite Hb, Hb'. split; [reflexivity|discriminate].
Qed.
Print Assumptions C20_restore_reproduces_database.

(** ** C21: a failed restore should leave the tables as they were.  It never does: whatever
    the stream, after an error no table is left. *)
Theorem C21_failed_restore_loses_all_tables_refuted :
  forall dec db stream db' e, restore dec db stream = (db', Err e) -> db_tables db' = [].
Proof.
  intros dec db stream db' e. unfold restore.
  repeat match goal with
  | |- context [match ?x with _ => _ end] => destruct x eqn:?
  end; intros H; inversion H; reflexivity.
Qed.
Print Assumptions C21_failed_restore_loses_all_tables_refuted.

(** Proved: a truncated backup is always rejected. *)
Theorem C21_truncated_backup_is_rejected_partial :
  forall enc dec src tgt stream k,
    codec_ok enc dec src ->
    quiescent src -> backup enc src = Ok stream -> (k < length stream)%nat ->
    exists db' e, restore dec tgt (firstn k stream) = (db', Err e).
Proof.
  intros enc dec src tgt stream k (Hc & Hl) (ND & Q) Eb Hk.
  destruct (ready_files src Q) as (files & F).
  assert (Ff : Forall2 (fun t lb => table_files src t (fst lb) (snd lb)) (db_tables src) files)
    by (eapply Forall2_weaken; [|exact F]; cbn; tauto).
  rewrite (backup_stream enc src files Ff) in Eb. apply Ok_inj in Eb as Es. clear Eb.
  assert (P : proper_prefix (firstn k stream) stream).
  { exists (skipn k stream). split; [|symmetry; apply firstn_skipn].
    intros E. apply (f_equal (@length N)) in E. rewrite skipn_length in E. cbn in E. lia. }
  rewrite <- Es in P at 2. revert P. generalize (firstn k stream) as a0. clear Es Hk. intros a0 P. unfold restore.
  destruct (prefix_app_cases _ _ _ P) as [P1|(a1 & -> & P1)]; clear P.
  { apply read_exact_short in P1. rewrite le_bytes_length in P1. rewrite P1. eauto. }
  rewrite read_exact_le8.
  destruct (prefix_app_cases _ _ _ P1) as [P2|(a2 & -> & P2)]; clear P1.
  { apply read_exact_short in P2. rewrite le_bytes_length in P2. rewrite P2. eauto. }
  rewrite read_exact_le8, !of_le_le_bytes. change (256 ^ N.of_nat 8) with (2 ^ 64). rewrite (N.mod_small _ _ Hl), Nat2N.id.
  destruct (prefix_app_cases _ _ _ P2) as [P3|(a3 & -> & P3)]; clear P2.
  { apply read_exact_short in P3. rewrite P3. eauto. }
  rewrite read_exact_app, Hc.
  destruct (restore_tables_cut (backup_version mod 2 ^ 64) (db_tables src) (truncate tgt) backup_magic files a3)
    as (dirs' & r & Er & Pr); [discriminate|eapply Forall2_weaken; [|exact F]; cbn; tauto|exact P3|].
  unfold table_list. rewrite Er. destruct r as [a4|e]; [|eauto].
  apply read_exact_short in Pr. cbn [length backup_magic] in Pr. rewrite Pr. eauto.
Qed.
Print Assumptions C21_truncated_backup_is_rejected_partial.

(** A stream that does not contain the footer is refused. *)
Lemma read_exact_split k s a b : read_exact k s = Some (a, b) -> s = a ++ b.
Proof.
  unfold read_exact. destruct (Nat.ltb (length s) k); [discriminate|]. intros [= <- <-].
  symmetry. apply firstn_skipn.
Qed.
Lemma restore_parts_suffix lps : forall d s d' s', restore_parts d s lps = (d', s') -> exists a, s = a ++ s'.
Proof.
  induction lps as [|[l p] r IH]; intros d s d' s'; cbn [restore_parts].
  - intros [= <- <-]. now exists [].
  - unfold copy_take. intros H. destruct (IH _ _ _ _ H) as [a E].
    exists (firstn (N.to_nat (fp_size p)) s ++ a). rewrite <- app_assoc, <- E. symmetry. apply firstn_skipn.
Qed.
Lemma restore_tables_suffix v ts : forall dirs s dirs' s',
  restore_tables v dirs s ts = (dirs', Ok s') -> exists a, s = a ++ s'.
Proof.
  induction ts as [|[n m] r IH]; intros dirs s dirs' s'; cbn [restore_tables].
  - intros [= <- <-]. now exists [].
  - unfold restore_table. destruct (read_exact 8 s) as [[len s1]|] eqn:E1; [|discriminate].
    unfold copy_take. cbn [td_levels].
    destruct (td_levels (dir_of dirs n)); [discriminate|].
    destruct (restore_parts _ _ _) as [d3 s3] eqn:E2. intros H.
    destruct (restore_parts_suffix _ _ _ _ _ E2) as [a2 A2]. destruct (IH _ _ _ _ H) as [a3 A3].
    apply read_exact_split in E1. subst s.
    exists (len ++ firstn (N.to_nat (of_le len)) s1 ++ a2 ++ a3).
    rewrite <- !app_assoc. f_equal. rewrite <- A3, <- A2. symmetry. apply firstn_skipn.
Qed.
Theorem C21_stream_without_footer_is_rejected_partial :
  forall dec tgt stream db',
    restore dec tgt stream = (db', Ok tt) ->
    exists before after, stream = before ++ backup_magic ++ after.
Proof.
  intros dec tgt stream db'. unfold restore.
  destruct (read_exact 8 stream) as [[v s1]|] eqn:E1; [|discriminate].
  destruct (read_exact 8 s1) as [[l s2]|] eqn:E2; [|discriminate].
  destruct (read_exact _ s2) as [[data s3]|] eqn:E3; [|discriminate].
  destruct (dec data) as [ts|]; [|discriminate].
  destruct (restore_tables _ _ s3 ts) as [dirs [s4|e]] eqn:E4; [|discriminate].
  destruct (read_exact 8 s4) as [[footer s5]|] eqn:E5; [|discriminate].
  destruct (list_eq_dec N.eq_dec footer backup_magic) as [->|]; [|discriminate]. intros _.
  apply read_exact_split in E1, E2, E3, E5. destruct (restore_tables_suffix _ _ _ _ _ _ E4) as [a A].
  exists (v ++ l ++ data ++ a), s5. rewrite <- !app_assoc. now subst.
Qed.
Print Assumptions C21_stream_without_footer_is_rejected_partial.

(** ** C70: after a failed restore, restoring a good backup works.  Refuted: once a failed
    restore got as far as the parts of a table, that table's directory stays on disk but is
    no longer known, and every later restore of a backup containing the table fails. *)
Theorem C70_restore_after_failure_refuted :
  forall enc dec src db stream n m ts,
    codec_ok enc dec src ->
    db_tables db = [] -> (exists d, aget name_dec n (db_dirs db) = Some d /\ td_levels d = true) ->
    table_list src = (n, m) :: ts -> backup enc src = Ok stream ->
    exists db' e, restore dec db stream = (db', Err e) /\ db_tables db' = [].
Proof.
  intros enc dec src db stream n m ts (Hc & Hl) Et (d & Ed & Lv) El Eb.
  assert (K : exists db' e, restore dec db stream = (db', Err e)).
  2:{ destruct K as (db' & e & K). exists db', e. split; [exact K|].
      eapply C21_failed_restore_loses_all_tables_refuted; exact K. }
  unfold backup in Eb. destruct (seqR _) as [s|] eqn:Es; [|discriminate]. apply Ok_inj in Eb. subst stream.
  fold (table_list src). unfold restore. rewrite !read_exact_le8, !of_le_le_bytes. change (256 ^ N.of_nat 8) with (2 ^ 64).
  rewrite (N.mod_small _ _ Hl), Nat2N.id, read_exact_app, Hc, El. cbn [restore_tables restore_table].
  unfold truncate. rewrite Et. cbn [fold_left]. unfold dir_of. rewrite Ed.
  destruct (read_exact 8 _) as [[len s1]|]; [|eauto].
  destruct (copy_take _ s1) as [log s2]. cbn [td_levels td_md td_logs td_parts]. rewrite Lv. eauto.
Qed.
Print Assumptions C70_restore_after_failure_refuted.

(** The directory left by a restore that is cut inside the last part has this shape: *)
Section Witness.
Definition sample_opts := mkFullOptions 1 false 2 4 100 10 1000 100 1 None 10 10 10 10 10.
Definition sample_stats := mkFullStats 0 0 0 0 0 0 0.
Definition sample_tmd : FullMetadata :=
  mkFullMetadata 5 3 [116] [mkFullField [105] DInt64 false; mkFullField [97] DString true]
    [mkFullLevel 1 [mkFullPart 0 3 1 [KInt64 1] [KInt64 1]]; mkFullLevel 2 [mkFullPart 2 4 2 [KInt64 2] [KInt64 9]]]
    sample_stats sample_opts.
Definition sample_log : list N := log_file hash_crc32 [Insert [KInt64 7] [VString (Some [120])]].
Definition sample_mem : Memtable :=
  match recover_log hash_crc32 sample_log with
  | Ok ops => match replay (fold_left mt_add_column [DInt64; DString] mt_new) ops with Some m => m | None => [] end
  | Err _ => []
  end.
Definition sample_db : Db :=
  mkDb [([116], mkTd (Some sample_tmd) [(3, sample_log)] true [((0%nat, 0), [10; 11; 12]); ((1%nat, 2), [1; 2; 3; 4])])]
       [mkOt [116] sample_tmd sample_mem].
(** A codec for this list. *)
Definition enc1 (ts : list (name * FullMetadata)) : list N := [9].

Example C20_witness_source :
  codec_ok enc1 (fun _ => Some (table_list sample_db)) sample_db /\ quiescent sample_db /\ all_open sample_db.
Proof.
  split; [split; reflexivity|]. split; [split|].
  - repeat constructor. intros [].
  - constructor; [|constructor]. exists sample_log, [[10; 11; 12]; [1; 2; 3; 4]].
    eexists. split; [|split; [|split; [|split; [|split]]]].
    + eexists. split; [reflexivity|]. split; [reflexivity|]. repeat constructor.
    + vm_compute. reflexivity.
    + repeat constructor.
    + cbn. constructor; [intros [E|[]]; discriminate E|]. constructor; [intros []|constructor].
    + vm_compute. reflexivity.
    + vm_compute. reflexivity.
  - intros n. cbn. tauto.
Qed.
Example C20_witness_run :
  match backup enc1 sample_db with
  | Ok s => let '(db, r) := restore (fun _ => Some (table_list sample_db)) sample_db s in
            r = Ok tt /\ map ot_mem (db_tables db) = map ot_mem (db_tables sample_db)
            /\ length (db_dirs db) = 1%nat
  | Err _ => False
  end.
Proof. vm_compute. auto. Qed.
(** Cut one byte before the end: error, tables gone, and the next restore of the complete
    backup fails as well. *)
Example C21_C70_witness :
  match backup enc1 sample_db with
  | Ok s => let '(db, r) := restore (fun _ => Some (table_list sample_db)) sample_db (removelast s) in
            let '(db2, r2) := restore (fun _ => Some (table_list sample_db)) db s in
            r = Err IoError /\ db_tables db = [] /\ r2 = Err IoError /\ db_tables db2 = []
  | Err _ => False
  end.
Proof. vm_compute. auto. Qed.
End Witness.
