(** Values, keys and log operations of the storage engine, and their bincode form. *)
From Coq Require Import List NArith ZArith Bool.
From Verif Require Import Bytes.
Import ListNotations.
Local Open Scope N_scope.

(** src/storage/src/lib.rs 37-44.  Integers are [Z] constrained by [kv_ok] below;
    strings are byte lists. *)
Inductive KeyValue :=
| KInt8 (z : Z) | KInt16 (z : Z) | KInt32 (z : Z) | KInt64 (z : Z)
| KString (s : list N) | KTimestamp (z : Z).

(** src/storage/src/lib.rs 70-89 *)
Inductive Value :=
| VNull
| VInt8 (o : option Z) | VInt16 (o : option Z) | VInt32 (o : option Z) | VInt64 (o : option Z)
| VBoolean (o : option bool)
| VTimestamp (o : option Z)
| VDecimal (o : option Z)
| VString (o : option (list N))
| VListInt8 (o : option (list (option Z))) | VListInt16 (o : option (list (option Z)))
| VListInt32 (o : option (list (option Z))) | VListInt64 (o : option (list (option Z)))
| VListBoolean (o : option (list (option bool)))
| VListTimestamp (o : option (list (option Z)))
| VListDecimal (o : option (list (option Z)))
| VListString (o : option (list (option (list N)))).

(** [From<&KeyValue> for Value], src/storage/src/lib.rs 91-102 *)
Definition value_of_key (k : KeyValue) : Value :=
  match k with
  | KInt8 v => VInt8 (Some v) | KInt16 v => VInt16 (Some v)
  | KInt32 v => VInt32 (Some v) | KInt64 v => VInt64 (Some v)
  | KString s => VString (Some s) | KTimestamp v => VTimestamp (Some v)
  end.

(** [From<&Value> for KeyValue], src/storage/src/lib.rs 104-116; [None] = the
    [unreachable!] panic. *)
Definition key_of_value (v : Value) : option KeyValue :=
  match v with
  | VInt8 (Some v) => Some (KInt8 v) | VInt16 (Some v) => Some (KInt16 v)
  | VInt64 (Some v) => Some (KInt64 v) | VString (Some v) => Some (KString v)
  | VInt32 (Some v) => Some (KInt32 v) | VTimestamp (Some v) => Some (KTimestamp v)
  | _ => None
  end.

(** Derived equality of [Value] and [KeyValue] (lib.rs 37, 70). *)
Definition Value_eq_dec (a b : Value) : {a = b} + {a <> b}.
Proof. repeat decide equality. Defined.
Definition KeyValue_eq_dec (a b : KeyValue) : {a = b} + {a <> b}.
Proof. repeat decide equality. Defined.

(** [LogOp::Insert(keys, values)], src/storage/src/db.rs 223-226 *)
Record LogOp := Insert { op_keys : list KeyValue; op_vals : list Value }.

(** serde's derived enum layout under bincode 1.3: u32 variant index, then fields. *)
Definition enc_key (k : KeyValue) : list N :=
  match k with
  | KInt8 z => enc_uint 4 0 ++ enc_int 1 z
  | KInt16 z => enc_uint 4 1 ++ enc_int 2 z
  | KInt32 z => enc_uint 4 2 ++ enc_int 4 z
  | KInt64 z => enc_uint 4 3 ++ enc_int 8 z
  | KString s => enc_uint 4 4 ++ enc_bytes s
  | KTimestamp z => enc_uint 4 5 ++ enc_int 8 z
  end.

Definition pmap {A B} (f : A -> B) (p : parser A) : parser B :=
  pbind p (fun x => pret (f x)).

Definition dec_key : parser KeyValue :=
  pbind (dec_uint 4) (fun t =>
    match t with
    | 0 => pmap KInt8 (dec_int 1)
    | 1 => pmap KInt16 (dec_int 2)
    | 2 => pmap KInt32 (dec_int 4)
    | 3 => pmap KInt64 (dec_int 8)
    | 4 => pmap KString dec_bytes
    | 5 => pmap KTimestamp (dec_int 8)
    | _ => pfail
    end).

Definition enc_olist {A} (e : A -> list N) := enc_option (enc_vec (enc_option e)).
Definition dec_olist {A} (d : parser A) := dec_option (dec_vec (dec_option d)).

Definition enc_value (v : Value) : list N :=
  match v with
  | VNull => enc_uint 4 0
  | VInt8 o => enc_uint 4 1 ++ enc_option (enc_int 1) o
  | VInt16 o => enc_uint 4 2 ++ enc_option (enc_int 2) o
  | VInt32 o => enc_uint 4 3 ++ enc_option (enc_int 4) o
  | VInt64 o => enc_uint 4 4 ++ enc_option (enc_int 8) o
  | VBoolean o => enc_uint 4 5 ++ enc_option enc_bool o
  | VTimestamp o => enc_uint 4 6 ++ enc_option (enc_int 8) o
  | VDecimal o => enc_uint 4 7 ++ enc_option (enc_int 16) o
  | VString o => enc_uint 4 8 ++ enc_option enc_bytes o
  | VListInt8 o => enc_uint 4 9 ++ enc_olist (enc_int 1) o
  | VListInt16 o => enc_uint 4 10 ++ enc_olist (enc_int 2) o
  | VListInt32 o => enc_uint 4 11 ++ enc_olist (enc_int 4) o
  | VListInt64 o => enc_uint 4 12 ++ enc_olist (enc_int 8) o
  | VListBoolean o => enc_uint 4 13 ++ enc_olist enc_bool o
  | VListTimestamp o => enc_uint 4 14 ++ enc_olist (enc_int 8) o
  | VListDecimal o => enc_uint 4 15 ++ enc_olist (enc_int 16) o
  | VListString o => enc_uint 4 16 ++ enc_olist enc_bytes o
  end.

Definition dec_value : parser Value :=
  pbind (dec_uint 4) (fun t =>
    match t with
    | 0 => pret VNull
    | 1 => pmap VInt8 (dec_option (dec_int 1))
    | 2 => pmap VInt16 (dec_option (dec_int 2))
    | 3 => pmap VInt32 (dec_option (dec_int 4))
    | 4 => pmap VInt64 (dec_option (dec_int 8))
    | 5 => pmap VBoolean (dec_option dec_bool)
    | 6 => pmap VTimestamp (dec_option (dec_int 8))
    | 7 => pmap VDecimal (dec_option (dec_int 16))
    | 8 => pmap VString (dec_option dec_bytes)
    | 9 => pmap VListInt8 (dec_olist (dec_int 1))
    | 10 => pmap VListInt16 (dec_olist (dec_int 2))
    | 11 => pmap VListInt32 (dec_olist (dec_int 4))
    | 12 => pmap VListInt64 (dec_olist (dec_int 8))
    | 13 => pmap VListBoolean (dec_olist dec_bool)
    | 14 => pmap VListTimestamp (dec_olist (dec_int 8))
    | 15 => pmap VListDecimal (dec_olist (dec_int 16))
    | 16 => pmap VListString (dec_olist dec_bytes)
    | _ => pfail
    end).

(** [bincode::serialize(&LogOp)] / [deserialize::<LogOp>] (trailing bytes allowed),
    src/storage/src/db.rs 252, 377. *)
Definition enc_op (o : LogOp) : list N :=
  enc_uint 4 0 ++ enc_vec enc_key (op_keys o) ++ enc_vec enc_value (op_vals o).
Definition dec_op : parser LogOp :=
  pbind (dec_uint 4) (fun t =>
    match t with
    | 0 => pbind (dec_vec dec_key) (fun ks => pbind (dec_vec dec_value) (fun vs => pret (Insert ks vs)))
    | _ => pfail
    end).
Definition deserialize_op (l : list N) : option LogOp :=
  match dec_op l with Some (o, _) => Some o | None => None end.
