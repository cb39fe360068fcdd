(** The metadata store: a RocksDB transaction database, and the keys under which the
    metadata crate keeps its entities.

    A transaction reads its own writes and is applied as a whole by [commit]; a call that
    fails before [commit] leaves the store unchanged.  Every API call of the crate is
    modelled as a function from the store to a result and the store after it; calls are
    executed one after the other (concurrent transactions: see [SeqRace.v]). *)
From Coq Require Import List NArith String Ascii Bool DecimalString.
From Verif Require Import AMap Order Bytes.
Import ListNotations.
Local Open Scope string_scope.

(** Outcome of a call: a value, an error returned to the caller, or a panic.
    src/metadata/src/error.rs. *)
Inductive MdErr := AlreadyExists | NotFound | BadRequest | Panicked.
Inductive Res (A : Type) := Ok (a : A) | Err (e : MdErr).
Arguments Ok {A} _.
Arguments Err {A} _.

(** [u64::to_string]. *)
Definition dec (n : N) : string := NilZero.string_of_uint (N.to_uint n).

(** ** Keys: src/metadata/src/lib.rs 94-122. *)
Definition project_ns (p : N) (ns : string) : string := "projects/" ++ dec p ++ "/" ++ ns.
Definition org_ns (o : N) (ns : string) : string := "organizations/" ++ dec o ++ "/" ++ ns.
Definition make_data_value_key (ns : string) (id : N) : string := ns ++ "/data/" ++ dec id.
Definition make_data_key (ns : string) : string := ns ++ "/data".
Definition make_index_key (ns idx key : string) : string := ns ++ "/idx/" ++ idx ++ "/" ++ key.
Definition make_id_seq_key (ns : string) : string := ns ++ "id_seq".

(** dictionaries.rs 16-38, 56-58. *)
Definition dict_ns (d : string) : string := "dictinaries" ++ "/" ++ d.
Definition tbl_dict (tbl d : string) : string := "tables/" ++ tbl ++ "/" ++ d ++ "/".
Definition make_key_key (p : N) (d : string) (key : N) : string :=
  project_ns p (dict_ns d) ++ "keys/" ++ dec key.
Definition make_value_key (p : N) (d value : string) : string :=
  project_ns p (dict_ns d) ++ "values/" ++ value.

(** sessions.rs 19-26. *)
Definition session_key (p u : N) : string := project_ns p "sessions" ++ "/data" ++ dec u.

(** groups.rs 38, 79, 111, 218; bookmarks.rs 36. *)
Definition anon_key (p g : N) (k : string) : string :=
  "projects/" ++ dec p ++ "/groups/" ++ dec g ++ "/anonymous/keys/" ++ k.
Definition real_key (p g : N) (k : string) : string :=
  "projects/" ++ dec p ++ "/groups/" ++ dec g ++ "/real/keys/" ++ k.
Definition group_name_key (p : N) (name : string) : string :=
  "projects/" ++ dec p ++ "/groups/names/" ++ name.
Definition bookmark_key (p a : N) (id : string) : string :=
  "projects/" ++ dec p ++ "/bookmarks/accounts/" ++ dec a ++ "/" ++ id.

(** ** Stored values *)
(** The value bytes of the store are opaque except where the code reads one kind of value
    as another: [VNum] is the 8 little-endian bytes of a number, [VText] raw text bytes,
    [VRec] the protobuf encoding of a record ([A]: the records of one module), standing for
    what is read back from it: what reading loses is in [RecCodec.v], and dropped by the
    functions of [Md.v] when they write. *)
Inductive Val (A : Type) := VNum (n : N) | VText (s : string) | VRec (a : A).
Arguments VNum {A} _.
Arguments VText {A} _.
Arguments VRec {A} _.

Section Store.
Context {A : Type}.
Notation Store := (list (string * Val A)).

Definition kget (k : string) (s : Store) : option (Val A) := aget string_dec k s.
Definition kput (k : string) (v : Val A) (s : Store) : Store := aset string_dec k v s.
Definition kdel (k : string) (s : Store) : Store := adel string_dec k s.

(** [u64::from_le_bytes(v.try_into().unwrap())]: panics unless the value has 8 bytes. *)
Definition read_num (v : Val A) : option N :=
  match v with
  | VNum n => Some n
  | VText s => if Nat.eqb (String.length s) 8
               then Some (of_le (map N_of_ascii (list_ascii_of_string s))) else None
  | VRec _ => None
  end.

(** ** index.rs *)
Definition flat (ks : list (option string)) : list string :=
  List.concat (map (fun k => match k with Some x => [x] | None => [] end) ks).

(** 7-19 *)
Definition check_insert (s : Store) (ks : list (option string)) : bool :=
  forallb (fun k => match kget k s with None => true | Some _ => false end) (flat ks).
(** 21-30 *)
Definition insert_index (s : Store) (ks : list (option string)) (id : N) : Store :=
  fold_left (fun s k => kput k (VNum id) s) (flat ks) s.
Definition okey_eqb (a b : option string) : bool :=
  match a, b with
  | None, None => true
  | Some x, Some y => String.eqb x y
  | _, _ => false
  end.
(** 32-48 *)
Definition check_update (s : Store) (ks prev : list (option string)) : bool :=
  forallb (fun kp => match fst kp with
                     | None => true
                     | Some k => okey_eqb (fst kp) (snd kp)
                                 || match kget k s with None => true | Some _ => false end
                     end) (combine ks prev).
(** 50-69 *)
Definition update_one (id : N) (s : Store) (kp : option string * option string) : Store :=
  let s1 := if okey_eqb (fst kp) (snd kp) then s
            else match snd kp with Some p => kdel p s | None => s end in
  match fst kp with Some k => kput k (VNum id) s1 | None => s1 end.
Definition update_index (s : Store) (ks prev : list (option string)) (id : N) : Store :=
  fold_left (update_one id) (combine ks prev) s.
(** 71-76 *)
Definition delete_index (s : Store) (ks : list (option string)) : Store :=
  fold_left (fun s k => kdel k s) (flat ks) s.
(** 78-90 *)
Definition get_index (s : Store) (k : string) : Res N :=
  match kget k s with
  | None => Err NotFound
  | Some v => match read_num v with Some n => Ok n | None => Err Panicked end
  end.
(** 92-112; [first] is 1 for next_seq and 0 for next_zero_seq.  Numbers are unbounded: the
    overflow of u64 after 2^64 allocations is not modelled. *)
Definition next_from (first : N) (k : string) (s : Store) : Res N * Store :=
  match kget k s with
  | None => (Ok first, kput k (VNum first) s)
  | Some v => match read_num v with
              | Some n => (Ok (n + 1)%N, kput k (VNum (n + 1)%N) s)
              | None => (Err Panicked, s)
              end
  end.
Definition next_seq := next_from 1.
Definition next_zero_seq := next_from 0.

(** ** Iteration *)
(** RocksDB iterates in the byte order of the keys. *)
Definition codes (k : string) : list N := map N_of_ascii (list_ascii_of_string k).
Definition key_cmp (a b : string) : comparison := lex_cmp N.compare (codes a) (codes b).
Definition key_leb (a b : string) : bool := match key_cmp a b with Gt => false | _ => true end.
Definition ordered (s : Store) : Store := sort_by key_cmp fst s.

Fixpoint take_while {B} (f : B -> bool) (l : list B) : list B :=
  match l with
  | [] => []
  | x :: r => if f x then x :: take_while f r else []
  end.
(** [tx.prefix_iterator(prefix)]: without a prefix extractor, everything from the first key
    not below the prefix. *)
Definition seek (prefix : string) (s : Store) : Store :=
  filter (fun kv => key_leb prefix (fst kv)) (ordered s).
(** The listing loop of most modules (events.rs 241-263, accounts.rs 97-119, ...): stop at
    the first key without the prefix. *)
Definition list_prefix (prefix : string) (s : Store) : list (Val A) :=
  map snd (take_while (fun kv => String.prefix prefix (fst kv)) (seek prefix s)).
(** lib.rs 124-144: filter all keys. *)
Definition list_data (ns : string) (s : Store) : list (Val A) :=
  map snd (filter (fun kv => String.prefix (make_data_key ns) (fst kv)) (seek "" s)).
(** teams.rs 110-131: the loop ends after the first match. *)
Fixpoint first_match {B} (f : B -> bool) (l : list B) : list B :=
  match l with
  | [] => []
  | x :: r => if f x then [x] else first_match f r
  end.
Definition list_first (prefix : string) (s : Store) : list (Val A) :=
  map snd (first_match (fun kv => String.prefix prefix (fst kv)) (seek prefix s)).
End Store.
