(** Small specification of a table, used by the statements about histories: what a row
    must look like to a reader, and which histories are considered. *)
From Coq Require Import List NArith ZArith Bool String.
From Verif Require Import Bytes Value ValueFacts Log LogFacts Memtable Table.
Import ListNotations.

Notation NamedValue := (string * Value)%type.

(** Stored content of a value. *)
Definition content (v : Value) : cell :=
  match v with
  | VBoolean o => option_map ABool o
  | VInt8 o | VInt16 o | VInt32 o | VInt64 o | VTimestamp o | VDecimal o => option_map AInt o
  | VString o => option_map AStr o
  | _ => None
  end.
(** The value an insert supplies for a column: null if it does not name the column. *)
Definition supplied (vals : list NamedValue) (n : string) : cell :=
  match List.find (fun nv => String.eqb n (fst nv)) vals with
  | Some nv => content (snd nv)
  | None => None
  end.
Definition acked_row (schema : list Field) (vals : list NamedValue) : Row :=
  map (fun f => supplied vals (f_name f)) schema.

(** Schema after a history that starts with schema [fs]: [add_field] with a name in use
    is refused. *)
Definition add_new (fs : list Field) (f : Field) : list Field :=
  if existsb (fun g => String.eqb (f_name g) (f_name f)) fs then fs else fs ++ [f].
Definition schema_after (fs : list Field) (ops : list Op) : list Field :=
  fold_left (fun s o => match o with OAddField f => add_new s f | _ => s end) ops fs.

(** Rows written before a column was added must be flushed before the table is
    reopened: [pending] = unflushed rows may exist, [stale] = some of them may be older
    than the newest column. *)
Fixpoint restart_safe (pending stale : bool) (ops : list Op) : Prop :=
  match ops with
  | [] => True
  | OInsert _ :: r => restart_safe true stale r
  | OFlush :: r => restart_safe false false r
  | OAddField _ :: r => restart_safe pending (pending || stale) r
  | OGc :: r => restart_safe pending stale r
  | ORestart :: r => stale = false /\ restart_safe pending stale r
  end.

(** Inserts list the key columns first, in schema order, and their log record is a
    representable one (integers in range, fewer than 2^64 bytes). *)
Definition wf_op (ic : nat) (final : list Field) (o : Op) : Prop :=
  match o with
  | OInsert vals =>
    map fst (firstn ic vals) = map f_name (firstn ic final) /\
    forall n pk, key_values ic vals = Some pk ->
      loggable (Insert pk (final_values (firstn n final) ic vals))
  | _ => True
  end.

(** A new table with the given columns. *)
Definition table_with (o : Options) (fs : list Field) : Table :=
  fold_left (fun t f => fst (add_field t f)) fs (create_table o).

(** Options and columns of a table that can be flushed: at least one key column, all of
    integer or timestamp type; replacing tables have exactly two, 64 bits wide. *)
Definition key_type (dt : DType) : bool :=
  match dt with DInt8 | DInt16 | DInt32 | DInt64 | DTimestamp => true | _ => false end.
Definition usable (o : Options) (fs : list Field) : Prop :=
  NoDup (map f_name fs) /\ 0 < o_index_cols o <= List.length fs /\ 0 < o_levels o
  /\ Forall (fun f => key_type (f_dt f) = true) (firstn (o_index_cols o) fs)
  /\ (o_replacing o = true -> o_index_cols o = 2 /\
      Forall (fun f => f_dt f = DInt64 \/ f_dt f = DTimestamp) (firstn 2 fs)).
