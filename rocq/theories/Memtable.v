(** In-memory columnar table. *)
From Coq Require Import List NArith ZArith Bool Permutation.
From Verif Require Import Bytes Value Log Order.
Import ListNotations.

(** src/common/src/types.rs 126-137.  [List] is left out: [Memtable] refuses it
    ([unimplemented!], memtable.rs 112) and converting it to an arrow type already
    drops the list (types.rs 236-247). *)
Inductive DType := DString | DInt8 | DInt16 | DInt32 | DInt64 | DDecimal | DBoolean | DTimestamp.

(** Errors of storage calls.  [Panic] is any Rust panic (index out of bounds,
    [unreachable!], [unimplemented!], [unwrap] on [None]). *)
Inductive fault := Panic | NoColumn | BadType | Exists_ | IoError | Invalid.

(** One slot of an arrow array: [None] is a null slot. *)
Inductive Atom := AInt (z : Z) | ABool (b : bool) | AStr (s : list N).
Notation cell := (option Atom).
Notation Row := (list cell).

(** memtable.rs 35-39 and 270-273 *)
Record Column := mkColumn { c_dt : DType; c_vals : list Value }.
Notation Memtable := (list Column).

(** memtable.rs 21-33, 60-115: [Column::into_array], slot by slot. *)
Definition cell_of (dt : DType) (v : Value) : option cell :=
  match dt, v with
  | _, VNull => Some None
  | DBoolean, VBoolean o => Some (option_map ABool o)
  | DInt8, VInt8 o | DInt16, VInt16 o | DInt32, VInt32 o | DInt64, VInt64 o
  | DTimestamp, VTimestamp o | DDecimal, VDecimal o => Some (option_map AInt o)
  | DString, VString o => Some (option_map AStr o)
  | _, _ => None
  end.

Fixpoint mapM {A B} (f : A -> option B) (l : list A) : option (list B) :=
  match l with
  | [] => Some []
  | x :: r => match f x, mapM f r with Some y, Some ys => Some (y :: ys) | _, _ => None end
  end.

Definition into_array (c : Column) : option (list cell) := mapM (cell_of (c_dt c)) (c_vals c).

(** memtable.rs 119-121, 244-268 *)
Definition mt_new : Memtable := [].
Definition mt_len (m : Memtable) : nat :=
  match m with [] => 0 | c :: _ => length (c_vals c) end.
Definition mt_add_column (m : Memtable) (dt : DType) : Memtable :=
  m ++ [mkColumn dt (repeat VNull (mt_len m))].
Definition mt_create_empty (m : Memtable) : Memtable :=
  map (fun c => mkColumn (c_dt c) []) m.

(** memtable.rs 206-208; [None] = index out of bounds *)
Fixpoint push_value (m : Memtable) (col : nat) (v : Value) : option Memtable :=
  match m, col with
  | [], _ => None
  | c :: r, O => Some (mkColumn (c_dt c) (c_vals c ++ [v]) :: r)
  | c :: r, S i => match push_value r i v with Some r' => Some (c :: r') | None => None end
  end.

(** Consecutive [push_value] calls starting at column [col]: the loops of insert
    (db.rs 775-780) and recover_op (db.rs 272-274).  On a panic the columns pushed so
    far have been changed. *)
Fixpoint push_values (m : Memtable) (col : nat) (vs : list Value) : Memtable * bool :=
  match vs with
  | [] => (m, true)
  | v :: r => match push_value m col v with
              | Some m' => push_values m' (S col) r
              | None => (m, false)
              end
  end.

(** Order of sort keys: ascending, nulls last (memtable.rs 146-154). Codes of different
    constructors never meet in one column. *)
Definition cell_code (c : cell) : list Z :=
  match c with
  | Some (AInt z) => [0; z]
  | Some (ABool b) => [1; if b then 1 else 0]
  | Some (AStr s) => 2 :: map Z.of_N s
  | None => [3]
  end%Z.
Definition cmp_cell (a b : cell) : comparison := lex_cmp Z.compare (cell_code a) (cell_code b).
Definition cmp_key : list cell -> list cell -> comparison := lex_cmp cmp_cell.

(** Contract of [lexsort_to_indices] (memtable.rs 156) on the list of row keys: the
    returned indices are a permutation of the row numbers and visit the keys in
    ascending order.  Nothing is promised about the order of equal keys. *)
Definition lexsort_contract (lexsort : list (list cell) -> list nat) : Prop :=
  forall keys,
    Permutation (lexsort keys) (seq 0 (length keys)) /\
    sorted_by cmp_key (fun i => nth i keys []) (lexsort keys).

(** Row [i] of a list of arrays; [None] if some array is too short ([take] panics). *)
Definition take_row (arrs : list (list cell)) (i : nat) : option Row :=
  mapM (fun a => nth_error a i) arrs.

(** memtable.rs 131-144: selected columns, in table order. *)
Fixpoint select_from {A} (i : nat) (l : list A) (cols : list nat) : list A :=
  match l with
  | [] => []
  | x :: r => if existsb (Nat.eqb i) cols then x :: select_from (S i) r cols
              else select_from (S i) r cols
  end.
Definition project {A} (l : list A) (cols : option (list nat)) : list A :=
  match cols with None => l | Some cs => select_from 0 l cs end.

(** Raw i64 of a slot: [Int64Array::value], 0 for a null slot. *)
Definition raw_i64 (c : cell) : Z := match c with Some (AInt z) => z | _ => 0%Z end.

(** memtable.rs 176-187: indices kept by the replacing pass over sorted rows; [key r]
    is the pair of raw values of row [r]. *)
Fixpoint dedup_idx (keys : list (Z * Z)) (row_id : nat) (last : option (Z * Z)) : list nat :=
  match keys with
  | [] => [pred row_id]                     (* indices.push(len - 1) *)
  | k :: r =>
    match last with
    | None => dedup_idx r (S row_id) (Some k)
    | Some l =>
      if (Z.eqb (fst l) (fst k) && Z.eqb (snd l) (snd k))%bool
      then dedup_idx r (S row_id) last
      else pred row_id :: dedup_idx r (S row_id) (Some k)
    end
  end.

(** Is the arrow array of a column an [Int64Array]? (Int64 and Timestamp are.) *)
Definition is_i64 (dt : DType) : bool :=
  match dt with DInt64 | DTimestamp => true | _ => false end.

Section Chunk.
Variable lexsort : list (list cell) -> list nat.

(** memtable.rs 163-200.  With a number of index columns other than two, no index is
    kept at all. *)
Definition replace_rows (dts : list DType) (index_cols : nat) (rows : list Row)
  : result fault (list Row) :=
  if Nat.eqb index_cols 2 then
    match dts with
    | d0 :: d1 :: _ =>
      if (is_i64 d0 && is_i64 d1)%bool then
        let keys := map (fun r => (raw_i64 (nth 0 r None), raw_i64 (nth 1 r None))) rows in
        match mapM (nth_error rows) (dedup_idx keys 0 None) with
        | Some rs => Ok rs
        | None => Err Panic
        end
      else Err Panic
    | _ => Err Panic
    end
  else Ok [].

(** memtable.rs 122-204.  [Ok None] = no rows. *)
Definition mt_chunk (m : Memtable) (cols : option (list nat)) (index_cols : nat) (is_replacing : bool)
  : result fault (option (list Row)) :=
  if Nat.eqb (mt_len m) 0 then Ok None else
  let sel := project m cols in
  match mapM into_array sel with
  | None => Err Panic
  | Some arrs =>
    if Nat.ltb (length arrs) index_cols then Err Panic       (* arrs[v] *)
    else if Nat.eqb index_cols 0 then Err Invalid            (* lexsort of no columns *)
    else
      let n := length (nth 0 arrs []) in
      match mapM (take_row (firstn index_cols arrs)) (seq 0 n) with
      | None => Err Invalid                                  (* sort columns of unequal length *)
      | Some keys =>
        match mapM (take_row arrs) (lexsort keys) with
        | None => Err Panic
        | Some rows =>
          if is_replacing
          then match replace_rows (map c_dt sel) index_cols rows with
               | Ok rs => Ok (Some rs)
               | Err e => Err e
               end
          else Ok (Some rows)
        end
      end
  end.
End Chunk.

(** memtable.rs 216-243.  [None] inside [Ok] = not found; the key must not be longer
    than the row ([cols[kid]] panics). *)
Definition row_values (m : Memtable) (i : nat) : option (list Value) :=
  mapM (fun c => nth_error (c_vals c) i) m.
Fixpoint key_matches (m : Memtable) (key : list Value) (i : nat) : option bool :=
  match key, m with
  | [], _ => Some true
  | _ :: _, [] => None
  | k :: ks, c :: cs =>
    match nth_error (c_vals c) i with
    | None => None
    | Some v => if Value_eq_dec v k then key_matches cs ks i else Some false
    end
  end.
Fixpoint find_last (m : Memtable) (key : list Value) (n i : nat) (acc : option nat) : option (option nat) :=
  match n with
  | O => Some acc
  | S n' => match key_matches m key i with
            | None => None
            | Some true => find_last m key n' (S i) (Some i)
            | Some false => find_last m key n' (S i) acc
            end
  end.
Definition mt_get (m : Memtable) (key : list KeyValue) : result fault (option (list Value)) :=
  match find_last m (map value_of_key key) (mt_len m) 0 None with
  | None => Err Panic
  | Some None => Ok None
  | Some (Some i) => match row_values m i with Some r => Ok (Some r) | None => Err Panic end
  end.
