(** Optimistic replace: [get_cas] and [replace], src/storage/src/db.rs 802-862. *)
From Coq Require Import List NArith ZArith Bool String.
From Verif Require Import Bytes Value Log AMap Order Memtable Table TableSpec Get.
Import ListNotations.

(** [LruCache] of capacity 10 (db.rs 396), most recently used first. *)
Notation Cache := (list (list Value * Z)).
Definition vkey_dec : forall a b : list Value, {a = b} + {a <> b} := list_eq_dec Value_eq_dec.
Definition capacity := 10.
(** [LruCache::put]: an existing entry is renewed; a full cache drops its last entry. *)
Definition cache_put (k : list Value) (c : Z) (m : Cache) : Cache :=
  match aget vkey_dec k m with
  | Some _ => (k, c) :: adel vkey_dec k m
  | None => (k, c) :: firstn (capacity - 1) m
  end.
(** [LruCache::pop] *)
Definition cache_pop (k : list Value) (m : Cache) : option Z * Cache := (aget vkey_dec k m, adel vkey_dec k m).

(** A table with its cache. *)
Record CTable := mkC { ct : Table; cc : Cache }.

Section WithOracles.
Variable groups : PartFile -> list (list Row).
Variable lexsort : list (list cell) -> list nat.

(** db.rs 802-831.  [Panic]: the version column of the row is not a non-null [Int64]. *)
Definition get_cas (s : CTable) (key : list KeyValue) : CTable * result fault (option (list Value)) :=
  match get groups (ct s) key with
  | Err e => (s, Err e)
  | Ok None => (s, Ok None)
  | Ok (Some row) =>
    let ic := o_index_cols (md_opts (t_md (ct s))) in
    match nth_error row (ic - 1) with
    | Some (VInt64 (Some c)) => (mkC (ct s) (cache_put (firstn (ic - 1) row) c (cc s)), Ok (Some row))
    | _ => (s, Err Panic)
    end
  end.

(** Outcome of [replace]: refused with "cas mismatch", or the outcome of the insert. *)
Inductive Replaced := Mismatch | Inserted (r : result fault unit).

(** db.rs 833-862.  The cached version is removed before it is compared. *)
Definition replace (s : CTable) (vals : list NamedValue) : CTable * Replaced :=
  let ic := o_index_cols (md_opts (t_md (ct s))) in
  match nth_error vals (ic - 1) with
  | Some (_, VInt64 (Some c)) =>
    let '(found, cache') := cache_pop (map snd (firstn (ic - 1) vals)) (cc s) in
    let go := let '(t', r) := insert lexsort (ct s) vals in (mkC t' cache', Inserted r) in
    match found with
    | Some c0 => if Z.eqb c0 c then go else (mkC (ct s) cache', Mismatch)
    | None => go
    end
  | _ => (s, Inserted (Err Panic))
  end.

(** Calls on one table.  Reopening starts with an empty cache (db.rs 386-397). *)
Inductive COp :=
| CGet (key : list KeyValue)
| CReplace (vals : list NamedValue)
| CTableOp (o : Op).
Inductive CRes :=
| RGet (r : result fault (option (list Value)))
| RReplace (r : Replaced)
| RTable (r : result fault unit).

Definition cstep (s : CTable) (o : COp) : option CTable * CRes :=
  match o with
  | CGet key => let '(s', r) := get_cas s key in (Some s', RGet r)
  | CReplace vals => let '(s', r) := replace s vals in (Some s', RReplace r)
  | CTableOp o =>
    match step lexsort (ct s) o with
    | (Some t', r) => (Some (mkC t' (match o with ORestart => [] | _ => cc s end)), RTable r)
    | (None, r) => (None, RTable r)
    end
  end.
Fixpoint crun (s : CTable) (ops : list COp) : option (CTable * list CRes) :=
  match ops with
  | [] => Some (s, [])
  | o :: r => match cstep s o with
              | (None, _) => None
              | (Some s', x) => match crun s' r with
                                | Some (s'', xs) => Some (s'', x :: xs)
                                | None => None
                                end
              end
  end.
End WithOracles.
