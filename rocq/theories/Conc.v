(** Threads inserting into, flushing and scanning one table: the lock-protected steps of
    [insert], [flush] and [scan], src/storage/src/db.rs 616-800, 1188-1206.
    A step is what a thread does between taking and releasing a lock.  [insert] takes the
    metadata lock for a snapshot (712-713), then the log lock to append its record
    (765-770), then the metadata and memtable locks to push the row and possibly flush
    (771-784), and while still holding both the log lock to replace the handle (785-786).
    [add_field] holds the metadata lock throughout (1240-1268), so it is one step.
    Compaction and gc are not among the steps. *)
From Coq Require Import List NArith ZArith Bool String.
From Verif Require Import Bytes Value Log AMap Memtable Table TableSpec.
Import ListNotations.

(** Where a thread stands. *)
Inductive PC :=
| Idle
| Prepared (vals : list NamedValue) (pk : list KeyValue) (fv : list Value)   (* before log_op *)
| Logged (vals : list NamedValue) (pk : list KeyValue) (fv : list Value)     (* before the push *)
| Flushed (row : option (list NamedValue))  (* files written, handle not replaced; both locks held *)
| Scanning (md : Metadata).                 (* snapshot taken, memtable not yet read *)

Record CState := mkCS
  { sh : Table;                         (* shared table; [t_log] = the file the handle refers to *)
    pcs : nat -> PC;
    held : option nat;                  (* owner of the metadata and memtable locks *)
    acked : list (list NamedValue) }.   (* inserts that have returned Ok *)

Definition set_pc (f : nat -> PC) (i : nat) (x : PC) : nat -> PC := fun j => if Nat.eqb j i then x else f j.
Definition start (t : Table) : CState := mkCS t (fun _ => Idle) None [].

Inductive Act :=
| Begin (i : nat) (vals : list NamedValue)
| AppendLog (i : nat)
| Push (i : nat)
| SwapHandle (i : nat)
| BeginFlush (i : nat)
| BeginScan (i : nat)
| EndScan (i : nat)
| AddColumn (f : Field).

Section WithSort.
Variable lexsort : list (list cell) -> list nat.

(** [flush_log_] alone, db.rs 497-559: the handle is replaced by the caller afterwards. *)
Definition flush_files (t : Table) : Table * result fault unit :=
  let '(t', r) := flush_log lexsort t in
  (mkTable (t_md t') (t_mem t') (t_logged t') (t_log t) (t_disk t'), r).

(** The streams a scan reads once it has the memtable lock, db.rs 634-660, with the
    metadata it copied before. *)
Definition scan_result (s : CState) (i : nat) : option (result fault (list (list Row))) :=
  match pcs s i with
  | Scanning md => Some (scan_streams lexsort (mkTable md (t_mem (sh s)) (t_logged (sh s)) (t_log (sh s)) (t_disk (sh s))))
  | _ => None
  end.

(** One step; [None]: the thread is not there, or waits for a lock. *)
Definition act (s : CState) (a : Act) : option CState :=
  let t := sh s in let md := t_md t in let ic := o_index_cols (md_opts md) in
  match a with
  | Begin i vals =>                                            (* db.rs 712-764 *)
    match held s, pcs s i with
    | None, Idle =>
      match check_values (md_schema md) vals, key_values ic vals with
      | Ok _, Some pk => Some (mkCS t (set_pc (pcs s) i (Prepared vals pk (final_values (md_schema md) ic vals))) None (acked s))
      | _, _ => Some s                                         (* the call fails *)
      end
    | _, _ => None
    end
  | AppendLog i =>                                             (* db.rs 765-770 *)
    match pcs s i with
    | Prepared vals pk fv =>
      Some (mkCS (mkTable md (t_mem t) (t_logged t) (t_log t)
                    (append_log (t_disk t) (t_log t) (log_record hash_crc32 (Insert pk fv))))
              (set_pc (pcs s) i (Logged vals pk fv)) (held s) (acked s))
    | _ => None
    end
  | Push i =>                                                  (* db.rs 771-784 *)
    match held s, pcs s i with
    | None, Logged vals pk fv =>
      let logged := (t_logged t + N.of_nat (List.length (log_record hash_crc32 (Insert pk fv))))%N in
      let '(m1, ok1) := push_values (t_mem t) 0 (map value_of_key pk) in
      let '(m2, ok2) := if ok1 then push_values m1 ic fv else (m1, false) in
      let t1 := mkTable md m2 logged (t_log t) (t_disk t) in
      if ok2 then
        if (Nat.ltb 0 (mt_len m2) && (o_max_log (md_opts md) <? logged)%N)%bool
        then match flush_files t1 with
             | (t2, Ok _) => Some (mkCS t2 (set_pc (pcs s) i (Flushed (Some vals))) (Some i) (acked s))
             | (t2, Err _) => Some (mkCS t2 (set_pc (pcs s) i Idle) None (acked s))
             end
        else Some (mkCS t1 (set_pc (pcs s) i Idle) None (acked s ++ [vals]))
      else Some (mkCS t1 (set_pc (pcs s) i Idle) None (acked s))
    | _, _ => None
    end
  | SwapHandle i =>                                            (* db.rs 785-786, 1202-1203 *)
    match pcs s i with
    | Flushed row => Some (mkCS (mkTable md (t_mem t) (t_logged t) (md_log_id md) (t_disk t))
                             (set_pc (pcs s) i Idle) None
                             (acked s ++ match row with Some v => [v] | None => [] end))
    | _ => None
    end
  | BeginFlush i =>                                            (* db.rs 1195-1201 *)
    match held s, pcs s i with
    | None, Idle =>
      if Nat.eqb (mt_len (t_mem t)) 0 then Some s
      else match flush_files t with
           | (t2, Ok _) => Some (mkCS t2 (set_pc (pcs s) i (Flushed None)) (Some i) (acked s))
           | (t2, Err _) => Some (mkCS t2 (set_pc (pcs s) i Idle) None (acked s))
           end
    | _, _ => None
    end
  | BeginScan i =>                                             (* db.rs 626-628 *)
    match held s, pcs s i with
    | None, Idle => Some (mkCS t (set_pc (pcs s) i (Scanning md)) None (acked s))
    | _, _ => None
    end
  | EndScan i =>                                               (* db.rs 630-697 *)
    match held s, pcs s i with
    | None, Scanning _ => Some (mkCS t (set_pc (pcs s) i Idle) None (acked s))
    | _, _ => None
    end
  | AddColumn f =>                                             (* db.rs 1233-1273 *)
    match held s with
    | None => Some (mkCS (fst (add_field t f)) (pcs s) None (acked s))
    | Some _ => None
    end
  end.

(** An execution: every step is possible when it is taken. *)
Fixpoint exec (s : CState) (l : list Act) : option CState :=
  match l with
  | [] => Some s
  | a :: r => match act s a with Some s' => exec s' r | None => None end
  end.
End WithSort.
