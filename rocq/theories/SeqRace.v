(** Concurrent requests that take a number from one sequence.

    metadata/src/index.rs 92-101 [next_seq] runs inside a transaction of a pessimistic RocksDB
    transaction database opened with default options (metadata/src/rocksdb.rs): [tx.get] reads
    the last committed value and takes no lock; [tx.put] waits for the exclusive lock of the
    key and, as the transaction has no snapshot, does not compare with what was read;
    [tx.commit] writes the value and releases the lock.  A transaction that waits too long for
    the lock fails.  RocksDB is trusted to behave so. *)
From Coq Require Import List NArith Bool Arith.
Import ListNotations.

Inductive Stage :=
| Idle                    (* not started *)
| Got (v : option N)      (* after index.rs 93: has read [v] *)
| Pending (n : N)         (* after 98: has the lock, [n] not yet visible *)
| Done (n : N)            (* committed; the caller has the number [n] *)
| Failed.                 (* gave up waiting for the lock *)

Record Race := mkRace { rc_val : option N; rc_lock : option nat; rc_tx : nat -> Stage }.

Inductive Step := Read (i : nat) | Put (i : nat) | Commit (i : nat) | GiveUp (i : nat).

(** index.rs 93-97: the number taken after reading [v]. *)
Definition next_of (v : option N) : N := match v with None => 1 | Some n => n + 1 end.

Definition set_tx (f : nat -> Stage) (i : nat) (x : Stage) : nat -> Stage := fun j => if Nat.eqb j i then x else f j.

(** A step that is not possible changes nothing. *)
Definition race_step (r : Race) (a : Step) : Race :=
  match a with
  | Read i => match rc_tx r i with
              | Idle => mkRace (rc_val r) (rc_lock r) (set_tx (rc_tx r) i (Got (rc_val r)))
              | _ => r
              end
  | Put i => match rc_tx r i, rc_lock r with
             | Got v, None => mkRace (rc_val r) (Some i) (set_tx (rc_tx r) i (Pending (next_of v)))
             | _, _ => r
             end
  | Commit i => match rc_tx r i with
                | Pending n => mkRace (Some n) None (set_tx (rc_tx r) i (Done n))
                | _ => r
                end
  | GiveUp i => match rc_tx r i with
                | Got _ => mkRace (rc_val r) (rc_lock r) (set_tx (rc_tx r) i Failed)
                | _ => r
                end
  end.
Definition race_run (l : list Step) (r : Race) : Race := fold_left race_step l r.
Definition race_start (v : option N) : Race := mkRace v None (fun _ => Idle).
