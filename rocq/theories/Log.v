(** Write-ahead log: framing of records and the recovery loop. *)
From Coq Require Import List NArith ZArith Bool.
From Verif Require Import Bytes Value.
Import ListNotations.
Local Open Scope N_scope.

(** Outcome of a fallible storage call. *)
Inductive result (E A : Type) := Ok (a : A) | Err (e : E).
Arguments Ok {E A}. Arguments Err {E A}.

Inductive LogError :=
| CorruptedLog       (* crc mismatch, db.rs 371-376 *)
| DecodeError        (* bincode error, db.rs 377 *)
| OutOfFuel.         (* never returned: the fuel below always suffices *)

Section WithCrc.
(** [crc] stands for [hash_crc32] (Bytes.v); nothing below depends on which function it is. *)
Variable crc : list N -> N.

(** [log_op], src/storage/src/db.rs 251-265: crc (u32), length (u64), payload. *)
Definition frame (data : list N) : list N :=
  le_bytes 4 (crc data) ++ le_bytes 8 (N.of_nat (length data)) ++ data.
Definition log_record (o : LogOp) : list N := frame (enc_op o).

(** [File::read] into a zeroed buffer of [k] bytes: a short read leaves zeros behind.
    (A regular file returns all remaining bytes up to [k].) *)
Definition read_buf (k : nat) (l : list N) : list N * list N :=
  (firstn k l ++ repeat 0 (k - length l), skipn k l).

(** Recovery loop, src/storage/src/db.rs 354-380; the loop ends when reading the crc
    returns zero bytes.  [fuel] bounds the number of records; [recover_log] supplies
    one more than the file has bytes and every record consumes at least one byte. *)
Fixpoint recover_loop (fuel : nat) (l : list N) : result LogError (list LogOp) :=
  match fuel with
  | O => Err OutOfFuel
  | S fuel' =>
    match l with
    | [] => Ok []
    | _ =>
      let '(crc_b, l1) := read_buf 4 l in
      let '(len_b, l2) := read_buf 8 l1 in
      let '(data, l3) := read_buf (N.to_nat (of_le len_b)) l2 in
      if negb (of_le crc_b =? crc data) then Err CorruptedLog
      else match deserialize_op data with
           | None => Err DecodeError
           | Some op =>
             match recover_loop fuel' l3 with
             | Ok ops => Ok (op :: ops)
             | Err e => Err e
             end
           end
    end
  end.
Definition recover_log (l : list N) : result LogError (list LogOp) :=
  recover_loop (S (length l)) l.

(** The log file after the given inserts: records appended one after another. *)
Definition log_file (ops : list LogOp) : list N := concat (map log_record ops).
End WithCrc.
