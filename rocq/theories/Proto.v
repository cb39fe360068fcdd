(** Protocol buffers wire format as used by prost (proto3), the encoding of table
    metadata: src/storage/src/pb/metadata.proto and the generated code called in
    src/storage/src/table.rs 248 ([encode_to_vec]) and 252 ([decode]).
    Strings are byte lists; prost's UTF-8 check is not modelled. *)
From Coq Require Import List NArith ZArith Bool.
From Verif Require Import Bytes.
Import ListNotations.
Local Open Scope N_scope.

(** Base-128 varint, at most ten bytes. *)
Fixpoint enc_varint_ (fuel : nat) (n : N) : list N :=
  match fuel with
  | O => []
  | S f => if n <? 128 then [n] else (n mod 128 + 128) :: enc_varint_ f (n / 128)
  end.
Definition enc_varint (n : N) : list N := enc_varint_ 10 n.

Fixpoint dec_varint_ (fuel : nat) (l : list N) : option (N * list N) :=
  match fuel, l with
  | S f, b :: r =>
    if b <? 128 then Some (b, r)
    else match dec_varint_ f r with
         | Some (v, r') => Some (b - 128 + 128 * v, r')
         | None => None
         end
  | _, _ => None
  end.
(** A varint that does not fit 64 bits is an error. *)
Definition dec_varint (l : list N) : option (N * list N) :=
  match dec_varint_ 10 l with
  | Some (v, r) => if v <? 2 ^ 64 then Some (v, r) else None
  | None => None
  end.

(** A field on the wire: varint, length-delimited, or a fixed-width one (never written
    here, skipped when read). *)
Inductive wire := WV (n : N) | WB (b : list N) | WF (b : list N).
Definition Fields := list (N * wire).

Definition enc_field (f : N * wire) : list N :=
  match snd f with
  | WV n => enc_varint (fst f * 8) ++ enc_varint n
  | WB b => enc_varint (fst f * 8 + 2) ++ enc_varint (N.of_nat (length b)) ++ b
  | WF b => enc_varint (fst f * 8 + if Nat.eqb (length b) 8 then 1 else 5) ++ b
  end.
Definition enc_fields (fs : Fields) : list N := concat (map enc_field fs).

Definition take_bytes (k : nat) (l : list N) : option (list N * list N) :=
  if Nat.ltb (length l) k then None else Some (firstn k l, skipn k l).

(** One field: key, then the value.  Groups (wire types 3 and 4) are not modelled. *)
Definition dec_field (l : list N) : option ((N * wire) * list N) :=
  match dec_varint l with
  | None => None
  | Some (key, r) =>
    let t := key / 8 in
    if t =? 0 then None else
    match key mod 8 with
    | 0 => match dec_varint r with Some (v, r') => Some ((t, WV v), r') | None => None end
    | 2 => match dec_varint r with
           | Some (n, r') => if N.of_nat (length r') <? n then None
                             else match take_bytes (N.to_nat n) r' with
                                  | Some (b, r'') => Some ((t, WB b), r'') | None => None end
           | None => None
           end
    | 1 => match take_bytes 8 r with Some (b, r') => Some ((t, WF b), r') | None => None end
    | 5 => match take_bytes 4 r with Some (b, r') => Some ((t, WF b), r') | None => None end
    | _ => None
    end
  end.
(** Every field has at least one byte, so the length of the input is enough fuel. *)
Fixpoint dec_fields_ (fuel : nat) (l : list N) : option Fields :=
  match l with
  | [] => Some []
  | _ => match fuel with
         | O => None
         | S f => match dec_field l with
                  | None => None
                  | Some (x, r) => match dec_fields_ f r with Some xs => Some (x :: xs) | None => None end
                  end
         end
  end.
Definition dec_fields (l : list N) : option Fields := dec_fields_ (length l) l.

(** *** Reading known fields.  The last occurrence of a scalar wins, a wrong wire type
    is an error, an absent scalar is zero. *)
Definition occurrences (t : N) (fs : Fields) : list wire :=
  map snd (filter (fun f => fst f =? t) fs).
Fixpoint all_varints (ws : list wire) : option (list N) :=
  match ws with
  | [] => Some []
  | WV n :: r => option_map (cons n) (all_varints r)
  | _ :: _ => None
  end.
Fixpoint all_bytes (ws : list wire) : option (list (list N)) :=
  match ws with
  | [] => Some []
  | WB b :: r => option_map (cons b) (all_bytes r)
  | _ :: _ => None
  end.
Definition last_opt {A} (l : list A) : option A :=
  match rev l with [] => None | x :: _ => Some x end.

(** [optional uint64] *)
Definition get_ouint (t : N) (fs : Fields) : option (option N) :=
  option_map last_opt (all_varints (occurrences t fs)).
(** [uint64] *)
Definition get_uint (t : N) (fs : Fields) : option N :=
  option_map (fun o => match o with Some n => n | None => 0 end) (get_ouint t fs).
(** [bool] *)
Definition get_bool (t : N) (fs : Fields) : option bool :=
  option_map (fun n => negb (n =? 0)) (get_uint t fs).
(** [optional string] *)
Definition get_obytes (t : N) (fs : Fields) : option (option (list N)) :=
  option_map last_opt (all_bytes (occurrences t fs)).
(** [string] *)
Definition get_bytes (t : N) (fs : Fields) : option (list N) :=
  option_map (fun o => match o with Some n => n | None => [] end) (get_obytes t fs).
(** Embedded message: several occurrences are merged, i.e. read as one. *)
Definition get_msg (t : N) (fs : Fields) : option (option (list N)) :=
  option_map (fun bs => match bs with [] => None | _ => Some (concat bs) end) (all_bytes (occurrences t fs)).
(** [repeated] message *)
Definition get_rep (t : N) (fs : Fields) : option (list (list N)) := all_bytes (occurrences t fs).

(** *** Writing: prost leaves out scalars that have the default value. *)
Definition put_uint (t n : N) : Fields := if n =? 0 then [] else [(t, WV n)].
Definition put_bool (t : N) (b : bool) : Fields := if b then [(t, WV 1)] else [].
Definition put_ouint (t : N) (o : option N) : Fields := match o with None => [] | Some n => [(t, WV n)] end.
Definition put_bytes (t : N) (b : list N) : Fields := match b with [] => [] | _ => [(t, WB b)] end.
Definition put_obytes (t : N) (o : option (list N)) : Fields := match o with None => [] | Some b => [(t, WB b)] end.
Definition put_msg (t : N) (m : Fields) : Fields := [(t, WB (enc_fields m))].
Definition put_rep (t : N) (ms : list Fields) : Fields := map (fun m => (t, WB (enc_fields m))) ms.
