(** Byte strings, little-endian integers, and the primitive bincode 1.3 layout
    used by the write-ahead log and the backup stream.

    A byte string is a [list N] whose elements are below 256. *)
From Coq Require Import List NArith ZArith Lia Bool.
Import ListNotations.
Local Open Scope N_scope.

(** [to_le_bytes] of an unsigned integer of [k] bytes.
    src/storage/src/db.rs 255-258 (u32, u64), 1372-1395 (u64). *)
Fixpoint le_bytes (k : nat) (n : N) : list N :=
  match k with
  | O => []
  | S k' => (n mod 256) :: le_bytes k' (n / 256)
  end.

(** [from_le_bytes], src/storage/src/db.rs 309-312, 360-365, 1454-1458. *)
Fixpoint of_le (l : list N) : N :=
  match l with
  | [] => 0
  | b :: r => b + 256 * of_le r
  end.

(** Two's complement of [w] bits: Rust's [as u8/u16/u32/u64/u128]. *)
Definition to_unsigned (w : N) (z : Z) : N := Z.to_N (z mod 2 ^ Z.of_N w).

(** Two's complement back: Rust's [as i8/.../i128]. *)
Definition of_unsigned (w : N) (n : N) : Z :=
  if n <? 2 ^ (w - 1) then Z.of_N n else (Z.of_N n - 2 ^ Z.of_N w)%Z.

(** A parser consumes a prefix of its input or fails. *)
Definition parser (A : Type) := list N -> option (A * list N).

Definition pbind {A B} (p : parser A) (f : A -> parser B) : parser B :=
  fun l => match p l with None => None | Some (x, r) => f x r end.
Definition pret {A} (x : A) : parser A := fun l => Some (x, l).
Definition pfail {A} : parser A := fun _ => None.

(** Fixed-width little-endian integers: bincode's fixint encoding (the default of
    [bincode::serialize]). *)
Definition enc_uint (k : nat) (n : N) : list N := le_bytes k n.
Definition dec_uint (k : nat) : parser N :=
  fun l => if Nat.ltb (length l) k then None else Some (of_le (firstn k l), skipn k l).

Definition enc_int (k : nat) (z : Z) : list N := le_bytes k (to_unsigned (8 * N.of_nat k) z).
Definition dec_int (k : nat) : parser Z :=
  pbind (dec_uint k) (fun n => pret (of_unsigned (8 * N.of_nat k) n)).

(** [bool]: one byte, 0 or 1; anything else is a decode error. *)
Definition enc_bool (b : bool) : list N := [if b then 1 else 0].
Definition dec_bool : parser bool :=
  fun l => match l with
           | 0 :: r => Some (false, r)
           | 1 :: r => Some (true, r)
           | _ => None
           end.

(** [Option<T>]: tag byte 0 / 1. *)
Definition enc_option {A} (e : A -> list N) (o : option A) : list N :=
  match o with None => [0] | Some x => 1 :: e x end.
Definition dec_option {A} (d : parser A) : parser (option A) :=
  fun l => match l with
           | 0 :: r => Some (None, r)
           | 1 :: r => match d r with None => None | Some (x, r') => Some (Some x, r') end
           | _ => None
           end.

(** [Vec<T>]: u64 length then the elements.  Every element type used here takes at
    least one byte, so a length above the number of remaining bytes always ends in
    bincode's end-of-input error; it is reported at once. *)
Fixpoint dec_n {A} (d : parser A) (n : nat) : parser (list A) :=
  match n with
  | O => pret []
  | S n' => pbind d (fun x => pbind (dec_n d n') (fun xs => pret (x :: xs)))
  end.
Definition enc_vec {A} (e : A -> list N) (xs : list A) : list N :=
  enc_uint 8 (N.of_nat (length xs)) ++ concat (map e xs).
Definition dec_vec {A} (d : parser A) : parser (list A) :=
  pbind (dec_uint 8) (fun n l =>
    if N.of_nat (length l) <? n then None else dec_n d (N.to_nat n) l).

(** [String] (and byte buffers): u64 length then the bytes.  UTF-8 validation is not
    modelled: strings are arbitrary byte lists. *)
Definition enc_bytes (s : list N) : list N := enc_uint 8 (N.of_nat (length s)) ++ s.
Definition dec_bytes : parser (list N) :=
  pbind (dec_uint 8) (fun n l =>
    if N.of_nat (length l) <? n then None
    else Some (firstn (N.to_nat n) l, skipn (N.to_nat n) l)).

(** CRC-32 (IEEE, reflected), bit by bit: what [crc32fast::Hasher] computes. *)
Definition crc_bit (c : N) : N :=
  if N.odd c then N.lxor (N.shiftr c 1) 0xEDB88320 else N.shiftr c 1.
Definition crc_byte (c b : N) : N := Nat.iter 8 crc_bit (N.lxor c b).
Definition crc32 (l : list N) : N :=
  N.lxor (fold_left crc_byte l 0xFFFFFFFF) 0xFFFFFFFF.
(** src/storage/src/db.rs 228-235 *)
Definition hash_crc32 (l : list N) : N := N.lxor (crc32 l) 0xFF.

(** Check value of the CRC catalogue: crc32("123456789") = 0xCBF43926. *)
Example crc32_check :
  crc32 [49;50;51;52;53;54;55;56;57] = 0xCBF43926.
Proof. vm_compute. reflexivity. Qed.
