(** What the properties of backups are stated with. *)
From Coq Require Import List NArith ZArith String Bool.
From Verif Require Import AMap Kv CalendarSpec Settings BackupJobs.
Import ListNotations.
Local Open Scope string_scope.

(** The records a user is shown. *)
Definition recorded (s : St) (b : Backup) : Prop := In b (backups_list (bs_db s)).
(** The complete archive of the backup is where its record says. *)
Definition stored (s : St) (b : Backup) : Prop :=
  exists bytes, made_get (bk_id b) s = Some bytes /\
    match bk_prov b with
    | BLocal _ => dir_get (hour_of b) s = Some bytes
    | BGcp _ path => exists bucket, cloud_get (bucket, path, hour_of b) s = Some bytes
    | BS3 _ _ => False
    end.
Definition not_s3 (b : Backup) : Prop := match bk_prov b with BS3 _ _ => False | _ => True end.
Definition local (b : Backup) : Prop := match bk_prov b with BLocal _ => True | _ => False end.
(** A dump is complete if the file could be created and the storage engine reports no error. *)
Definition complete (oc : Outcome) : Prop := oc_file oc = true /\ oc_error oc = None.
(** Every dump of the history is complete. *)
Definition op_complete (o : Op) : Prop :=
  match o with OTick _ oc => complete oc | OCrash _ oc _ => complete oc | _ => True end.
(** No two backups were created in the same hour. *)
Definition hours_differ (s : St) : Prop :=
  forall a b, recorded s a -> recorded s b -> hour_of a = hour_of b -> bk_id a = bk_id b.
(** The backup has ended, *)
Definition finished (x : Status) : Prop := match x with Completed | Failed _ => True | _ => False end.
(** or has at least left the hands of the storage engine. *)
Definition settled (x : Status) : Prop := match x with Idle | InProgress _ => False | _ => True end.
(** The times at which the operations of a history take place. *)
Definition time_of (o : Op) : list Z := match o with OTick t _ | OCrash t _ _ | OAsk t => [t] | _ => [] end.
Definition times (ops : list Op) : list Z := flat_map time_of ops.
(** What a restart does to a record. *)
Definition after_restart (b : Backup) : Backup :=
  match bk_status b with InProgress _ => with_status (Failed "server restarted") b | _ => b end.
(** The minute that [t] falls into is one at which a backup is scheduled: the first of an hour, or
    of hour [h] of every day, of every Sunday (1970-01-04 was one), of the first day of a month or
    of a year. *)
Definition scheduled (i : Interval) (h : N) (t : Z) : Prop :=
  exists s, (s <= t < s + 60)%Z /\
    match i with
    | IHourly => exists k, s = (3600 * k)%Z
    | IDaily => exists d, s = (86400 * d + 3600 * Z.of_N h)%Z
    | IWeekly => exists w, s = (86400 * (3 + 7 * w) + 3600 * Z.of_N h)%Z
    | IMonthly => exists y m d, FirstOf y m d /\ s = (86400 * d + 3600 * Z.of_N h)%Z
    | IYearly => exists y d, NewYear y d /\ s = (86400 * d + 3600 * Z.of_N h)%Z
    end.
(** The hour of the settings is one of the 24 of a day, or plays no part. *)
Definition hour_exists (set : Settings) : Prop := st_interval set = IHourly \/ (st_hour set < 24)%N.
(** Where the settings say that backups go. *)
Definition destination (set : Settings) (p : BProv) : Prop :=
  match p with
  | BLocal path => st_prov set = PLocal /\ path = st_local set
  | BS3 bucket path => st_prov set = PS3 /\ bucket = st_s3_bucket set /\ path = st_s3_path set
  | BGcp bucket path => st_prov set = PGcp /\ bucket = st_gcp_bucket set /\ path = st_gcp_path set
  end.
(** The scheduler runs, is switched on, has nothing waiting, and the minute is a scheduled one. *)
Definition schedule_due (now : Z) (s : St) : Prop :=
  bs_alive s = true /\ st_enabled (bs_set s) = true /\ (forall b, recorded s b -> bk_status b <> Idle) /\
  hour_exists (bs_set s) /\ scheduled (st_interval (bs_set s)) (st_hour (bs_set s)) now.
Definition count (s : St) : nat := List.length (backups_list (bs_db s)).
