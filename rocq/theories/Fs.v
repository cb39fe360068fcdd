(** Open-file counters, src/storage/src/lib.rs 130-195, and the sequences of counter
    calls made by scans, flush, compaction, backup and gc. *)
From Coq Require Import List NArith Bool Lia.
From Verif Require Import AMap.
Import ListNotations.
Local Open Scope N_scope.

Section Fs.
(** Paths are compared as strings; any type with decidable equality will do. *)
Variable path : Type.
Variable pdec : forall a b : path, {a = b} + {a <> b}.

(** [fs_count] is the map behind the lock (lib.rs 131); [fs_files] the existing files. *)
Record FsState := mkFs { fs_count : list (path * N); fs_files : list path }.

Inductive FsCall :=
| FOpen (p : path)         (* lib.rs 147-154 *)
| FClose (p : path)        (* lib.rs 156-163 *)
| FTryRemove (p : path)    (* lib.rs 172-177 *)
| FCreate (p : path).      (* a file is written, not through [Fs] *)

(** lib.rs 148-151: [entry(..).or_insert(0)] *)
Definition count_of (s : FsState) (p : path) : N :=
  match aget pdec p (fs_count s) with None => 0 | Some c => c end.
(** lib.rs 165-171 *)
Definition is_opened (s : FsState) (p : path) : bool :=
  match aget pdec p (fs_count s) with None => false | Some c => negb (c =? 0) end.

(** [None]: the subtraction at line 161 underflows (panic in builds with overflow
    checks).  Removing a file that does not exist is an error without effect. *)
Definition fs_step (s : FsState) (c : FsCall) : option FsState :=
  match c with
  | FOpen p => Some (mkFs (aset pdec p (count_of s p + 1) (fs_count s)) (fs_files s))
  | FClose p => if count_of s p =? 0 then None
                else Some (mkFs (aset pdec p (count_of s p - 1) (fs_count s)) (fs_files s))
  | FTryRemove p => if is_opened s p then Some s
                    else Some (mkFs (fs_count s) (remove pdec p (fs_files s)))
  | FCreate p => Some (mkFs (fs_count s) (p :: fs_files s))
  end.
Fixpoint fs_run (s : FsState) (cs : list FsCall) : option FsState :=
  match cs with
  | [] => Some s
  | c :: r => match fs_step s c with Some s' => fs_run s' r | None => None end
  end.

(** *** Call sequences of the engine *)
(** scan, db.rs 655-664, and the end of its stream, db.rs 596-599 *)
Definition scan_begin (ps : list path) : list FsCall := map FOpen ps.
Definition scan_end (ps : list path) : list FsCall := map FClose ps.
(** A file produced by a compaction: opened by the merger (parquet_merger.rs 886) and by
    [compact] (compaction.rs 354); no call closes either. *)
Definition compaction_output (p : path) : list FsCall := [FOpen p; FCreate p; FOpen p].
(** A file replaced by a compaction: compaction.rs 376-378, 170-173 *)
Definition compaction_input (p : path) : list FsCall := [FOpen p; FClose p; FTryRemove p].
(** A part written by flush, db.rs 520-532 *)
Definition flush_output (p : path) : list FsCall := [FOpen p; FCreate p; FClose p].
(** gc finds a file that metadata does not mention, db.rs 213 *)
Definition gc_removes (p : path) : list FsCall := [FTryRemove p].

(** After [full_restore] a second garbage collector runs for ever with counters of its own:
    [recover] (db.rs 400-442) creates a new [Fs] and starts [gc] with it, the recovered
    tables are copied into the running database (db.rs 1500-1504), and the thread is never
    stopped.  [true] marks the calls of that second collector; files are shared. *)
Definition step2 (s : FsState * list (path * N)) (c : bool * FsCall) : option (FsState * list (path * N)) :=
  let '(m, other) := s in
  if fst c then
    match fs_step (mkFs other (fs_files m)) (snd c) with
    | Some r => Some (mkFs (fs_count m) (fs_files r), fs_count r)
    | None => None
    end
  else match fs_step m (snd c) with Some r => Some (r, other) | None => None end.
Fixpoint run2 (s : FsState * list (path * N)) (cs : list (bool * FsCall)) : option (FsState * list (path * N)) :=
  match cs with
  | [] => Some s
  | c :: r => match step2 s c with Some s' => run2 s' r | None => None end
  end.
End Fs.
Arguments FOpen {path}. Arguments FClose {path}. Arguments FTryRemove {path}. Arguments FCreate {path}.
Arguments mkFs {path}. Arguments fs_count {path}. Arguments fs_files {path}.
Arguments scan_begin {path}. Arguments scan_end {path}.
Arguments compaction_output {path}. Arguments compaction_input {path}.
Arguments flush_output {path}. Arguments gc_removes {path}.
