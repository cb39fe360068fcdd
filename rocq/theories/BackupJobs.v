(** Backup records and the backup scheduler: metadata/src/backups.rs, platform/src/backups.rs
    and cmd/src/backup.rs.  What a backup contains is the subject of [Backup.v]; here an
    archive is a list of bytes produced by the storage engine.

    Times are Unix seconds: records keep whole seconds (backups.rs 291) and the scheduler
    cuts times to minutes.  A tick reads the clock once. *)
From Coq Require Import List NArith ZArith String Bool.
From Verif Require Import AMap Kv Calendar Settings.
Import ListNotations.
Local Open Scope string_scope.

(** ** metadata/src/backups.rs *)
(** 28-57; the region of an S3 destination is left out. *)
Inductive BProv := BLocal (path : Text) | BS3 (bucket path : Text) | BGcp (bucket path : Text).
Inductive Status := Idle | InProgress (pct : N) | Uploading | Failed (e : string) | Completed.
(** 59-68; without updated_at and the password *)
Record Backup := mkBackup { bk_id : N; bk_created : Z; bk_prov : BProv; bk_status : Status; bk_enc : bool }.
Notation Store := (list (string * Val Backup)).
Definition NS : string := "system/backups".                                        (* 26 *)
Definition bkey (id : N) : string := make_data_value_key NS id.

Definition is_idle (s : Status) : bool := match s with Idle => true | _ => false end.
(** 101-109 *)
Definition backup_get (id : N) (db : Store) : Res Backup :=
  match kget (bkey id) db with
  | Some (VRec b) => Ok b
  | Some _ => Err Panicked
  | None => Err NotFound
  end.
(** 147-174: in the byte order of the keys *)
Definition backups_list (db : Store) : list Backup :=
  flat_map (fun v => match v with VRec b => [b] | _ => [] end) (list_prefix (make_data_key NS) db).
(** 111-142, for a request in state Idle, the only one made *)
Definition backup_create (now : Z) (p : BProv) (enc : bool) (db : Store) : Res Backup * Store :=
  if existsb (fun b => is_idle (bk_status b)) (backups_list db) then (Err AlreadyExists, db)
  else match next_seq (make_id_seq_key NS) db with
       | (Err e, _) => (Err e, db)
       | (Ok id, db1) => let b := mkBackup id now p Idle enc in
                         (Ok b, kput (bkey id) (VRec b) db1)
       end.
(** 176-188 *)
Definition with_status (s : Status) (b : Backup) : Backup :=
  mkBackup (bk_id b) (bk_created b) (bk_prov b) s (bk_enc b).
Definition update_status (id : N) (s : Status) (db : Store) : Store :=
  match backup_get id db with
  | Ok b => kput (bkey (bk_id b)) (VRec (with_status s b)) db
  | Err _ => db
  end.
(** 208-235 *)
Definition prov_from (s : Settings) : BProv :=
  match st_prov s with
  | PLocal => BLocal (st_local s)
  | PS3 => BS3 (st_s3_bucket s) (st_s3_path s)
  | PGcp => BGcp (st_gcp_bucket s) (st_gcp_path s)
  end.
(** The file name is the hour of creation, [%Y-%m-%dT%H:00:00.zip] (72, 79, 86 and
    cmd/src/backup.rs 282-286): two backups have the same name exactly if they were created in
    the same hour, so the hour stands for the name. *)
Definition hour_of (b : Backup) : Z := (bk_created b / 3600)%Z.

(** ** The state of a server *)
(** [bs_tmp]: files of the temporary directory, named by id; [bs_dir]: files of the backup
    directory; [bs_cloud]: objects in Google Cloud buckets; [bs_alive]: the scheduler task has
    not panicked.  [bs_made] is not part of the program: it notes the complete archive the
    storage engine produced for a backup. *)
Record St := mkSt { bs_db : Store; bs_set : Settings;
                    bs_tmp : list (N * list N); bs_dir : list (Z * list N);
                    bs_cloud : list ((Text * Text * Z) * list N); bs_alive : bool;
                    bs_made : list (N * list N) }.
Definition cloud_dec (a b : Text * Text * Z) : {a = b} + {a <> b}.
Proof. repeat decide equality. Defined.
Notation tmp_get id st := (aget N.eq_dec id (bs_tmp st)).
Notation dir_get h st := (aget Z.eq_dec h (bs_dir st)).
Notation cloud_get k st := (aget cloud_dec k (bs_cloud st)).
Notation made_get id st := (aget N.eq_dec id (bs_made st)).

(** ** What a run does to the state, one effect after the other (a crash can hit in between) *)
Inductive Eff :=
| ECreate (now : Z)                          (* create_backup *)
| EStatus (id : N) (s : Status)
| ETmp (id : N) (bytes : list N)             (* the temporary file has these bytes *)
| EDone (id : N) (bytes : list N)            (* ... and they are the complete archive *)
| ERename (id : N) (hour : Z)
| EUpload (id : N) (bucket path : Text) (hour : Z)
| ERemove (id : N)
| EDie.                                      (* the scheduler task panics *)
Definition apply_eff (e : Eff) (s : St) : St :=
  match e with
  | ECreate now =>
    mkSt (snd (backup_create now (prov_from (bs_set s)) (st_enc (bs_set s)) (bs_db s)))
         (bs_set s) (bs_tmp s) (bs_dir s) (bs_cloud s) (bs_alive s) (bs_made s)
  | EStatus id x =>
    mkSt (update_status id x (bs_db s)) (bs_set s) (bs_tmp s) (bs_dir s) (bs_cloud s) (bs_alive s) (bs_made s)
  | ETmp id b =>
    mkSt (bs_db s) (bs_set s) (aset N.eq_dec id b (bs_tmp s)) (bs_dir s) (bs_cloud s) (bs_alive s) (bs_made s)
  | EDone id b =>
    mkSt (bs_db s) (bs_set s) (aset N.eq_dec id b (bs_tmp s)) (bs_dir s) (bs_cloud s) (bs_alive s)
         (aset N.eq_dec id b (bs_made s))
  | ERename id h =>
    match tmp_get id s with
    | Some b => mkSt (bs_db s) (bs_set s) (adel N.eq_dec id (bs_tmp s)) (aset Z.eq_dec h b (bs_dir s))
                     (bs_cloud s) (bs_alive s) (bs_made s)
    | None => s
    end
  | EUpload id bk p h =>
    match tmp_get id s with
    | Some b => mkSt (bs_db s) (bs_set s) (bs_tmp s) (bs_dir s) (aset cloud_dec (bk, p, h) b (bs_cloud s))
                     (bs_alive s) (bs_made s)
    | None => s
    end
  | ERemove id =>
    mkSt (bs_db s) (bs_set s) (adel N.eq_dec id (bs_tmp s)) (bs_dir s) (bs_cloud s) (bs_alive s) (bs_made s)
  | EDie => mkSt (bs_db s) (bs_set s) (bs_tmp s) (bs_dir s) (bs_cloud s) false (bs_made s)
  end.
Definition apply_all (es : list Eff) (s : St) : St := fold_left (fun s e => apply_eff e s) es s.

(** ** cmd/src/backup.rs *)
(** How the outside world answers during one run: whether the temporary file can be created,
    the progress the storage engine reports, the bytes it writes, its error if it fails, and how
    moving or uploading the file ends ([w.finish().await.unwrap()], line 317, can panic). *)
Inductive Ship := ShipOk | ShipErr (e : string) | ShipPanic.
Record Outcome := mkOutcome { oc_file : bool; oc_progress : list N; oc_bytes : list N;
                              oc_error : option string; oc_ship : Ship }.
(** [backup_to_tmp] and the task around it, 189-211, 242-275: an error is recorded in the
    status and otherwise ignored. *)
Definition dump_effects (id : N) (oc : Outcome) : list Eff :=
  if oc_file oc then
    ((ETmp id [] :: map (fun p => EStatus id (InProgress p)) (oc_progress oc)) ++
     match oc_error oc with
     | None => [EDone id (oc_bytes oc)]
     | Some e => [ETmp id (oc_bytes oc); EStatus id (Failed e)]
     end)%list
  else [EStatus id (Failed (match oc_error oc with Some e => e | None => "" end))].
(** 213-223, 277-321: [None] is Ok, [Some e] an error; [EDie] ends the task. *)
Definition ship_effects (set : Settings) (b : Backup) (has_file : bool) (ship : Ship) : list Eff * option string :=
  match bk_prov b with
  | BLocal _ =>
    match ship with
    | ShipOk => if has_file then ([ERename (bk_id b) (hour_of b)], None) else ([], Some "rename")
    | ShipErr e => ([], Some e)
    | ShipPanic => ([], Some "rename")
    end
  | BGcp _ path =>
    match ship with
    | ShipOk => if has_file
                then ([EStatus (bk_id b) Uploading;
                       EUpload (bk_id b) (st_gcp_bucket set) path (hour_of b); ERemove (bk_id b)], None)
                else ([EStatus (bk_id b) Uploading], Some "open")
    | ShipErr e => ([EStatus (bk_id b) Uploading], Some e)
    | ShipPanic => ([EStatus (bk_id b) Uploading; EDie], None)
    end
  | BS3 _ _ => ([], None)
  end.
(** [run_backup], 175-226, and the status written after it, 87-108 and 150-168 *)
Definition dies (es : list Eff) : bool := existsb (fun e => match e with EDie => true | _ => false end) es.
Definition run_effects (s : St) (b : Backup) (oc : Outcome) : list Eff :=
  let has_file := oc_file oc || match tmp_get (bk_id b) s with Some _ => true | None => false end in
  let '(es, err) := ship_effects (bs_set s) b has_file (oc_ship oc) in
  (dump_effects (bk_id b) oc ++ es ++
   (if dies es then []
    else match err with
         | None => [EStatus (bk_id b) Completed]
         | Some e => [EStatus (bk_id b) (Failed e)]
         end))%list.

(** truncate_to_minute, 38-44 *)
Definition minute_of (t : Z) : Z := (t - t mod 60)%Z.
(** 112-143: does the cron expression match the minute?  Trusted of croner: the next occurrence
    from a time on, that time included, is the time itself exactly if it matches.  [None]: the
    expression does not parse. *)
Definition due (i : Interval) (start : N) (t : Z) : option bool :=
  let m := minute_of t in
  let full := (m mod 3600 =? 0)%Z in
  let at_hour := ((m mod 86400) / 3600 =? Z.of_N start)%Z in
  let '(_, month0, day0) := civil (day_of (m * SEC)) in
  match i with
  | IHourly => Some full
  | _ =>
    if (24 <=? start)%N then None
    else Some (full && at_hour &&
               match i with
               | IWeekly => (weekday (m * SEC) =? 6)%Z
               | IMonthly => (day0 =? 0)%Z
               | IYearly => Nat.eqb month0 0 && (day0 =? 0)%Z
               | _ => true
               end)
  end.
Definition last_opt {A} (l : list A) : option A := nth_error l (List.length l - 1).
(** The record a scheduled run creates (228-239). *)
Definition new_backup (now : Z) (s : St) : option Backup :=
  match fst (backup_create now (prov_from (bs_set s)) (st_enc (bs_set s)) (bs_db s)) with
  | Ok b => Some b
  | Err _ => None
  end.
(** One round of the loop, 71-171. *)
Definition tick_effects (now : Z) (oc : Outcome) (s : St) : list Eff :=
  if negb (bs_alive s) then []
  else if negb (st_enabled (bs_set s)) then []
  else match find (fun b => is_idle (bk_status b)) (backups_list (bs_db s)) with
  | Some b => run_effects s b oc
  | None =>
    match due (st_interval (bs_set s)) (st_hour (bs_set s)) now with
    | None => [EDie]
    | Some false => []
    | Some true =>
      if match last_opt (backups_list (bs_db s)) with
         | Some l => Z.eqb (minute_of (bk_created l)) (minute_of now)
         | None => false
         end
      then []
      else match st_prov (bs_set s) with
           | PS3 => [EDie]
           | _ => match new_backup now s with
                  | None => [EDie]
                  | Some b => ECreate now :: run_effects s b oc
                  end
           end
    end
  end.
Definition tick (now : Z) (oc : Outcome) (s : St) : St := apply_all (tick_effects now oc s) s.

(** [init], 46-64: what happens to one record when the server starts *)
Definition reset_one (s : St) (b : Backup) : St :=
  match bk_status b with
  | InProgress _ => apply_all [ERemove (bk_id b); EStatus (bk_id b) (Failed "server restarted")] s
  | _ => s
  end.
Definition restart (s : St) : St :=
  let s1 := fold_left reset_one (backups_list (bs_db s)) s in
  mkSt (bs_db s1) (bs_set s1) (bs_tmp s1) (bs_dir s1) (bs_cloud s1) true (bs_made s1).

(** ** Histories *)
Inductive Op :=
| OTick (now : Z) (oc : Outcome)
| OCrash (now : Z) (oc : Outcome) (k : nat)       (* the process dies after k effects of a tick *)
| ORestart
| OAsk (now : Z)                                  (* platform/src/backups.rs 27-38 *)
| OSettings (set : Settings).
Definition ask (now : Z) (s : St) : St :=
  if st_enabled (bs_set s) then apply_eff (ECreate now) s else s.
Definition step (o : Op) (s : St) : St :=
  match o with
  | OTick now oc => tick now oc s
  | OCrash now oc k => restart (apply_all (firstn k (tick_effects now oc s)) s)
  | ORestart => restart s
  | OAsk now => ask now s
  | OSettings set => mkSt (bs_db s) set (bs_tmp s) (bs_dir s) (bs_cloud s) (bs_alive s) (bs_made s)
  end.
Definition run (ops : list Op) (s : St) : St := fold_left (fun s o => step o s) ops s.
Definition fresh (set : Settings) : St := mkSt [] set [] [] [] true [].
