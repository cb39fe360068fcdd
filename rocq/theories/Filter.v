(** Filters and events of queries: src/query/src/expr.rs, logical_plan/expr.rs, the dictionary
    decoding of src/query/src/lib.rs 448-503 and physical_plan/dictionary_decode.rs, and
    fix_filter (lib.rs 563-622).

    DataFusion's evaluation of the built expressions is modelled by [eval]: SQL's three-valued
    logic, [None] for null.  Comparing a text with a whole number compares the texts, which is
    DataFusion's coercion.  Other comparisons across types, which DataFusion rejects when
    planning, are null here.  Pattern matching is a parameter. *)
From Coq Require Import List ZArith String Bool DecimalString.
Import ListNotations.
Local Open Scope string_scope.

(** Values in columns and literals: whole numbers (ids, dictionary keys, timestamps), texts,
    booleans and decimals (mantissa and scale). *)
Inductive V := VInt (z : Z) | VStr (s : string) | VBool (b : bool) | VDec (m : Z) (scale : nat).
Definition show (z : Z) : string := NilZero.string_of_int (Z.to_int z).
Definition dec_cmp (m : Z) (a : nat) (n : Z) (b : nat) : comparison :=
  Z.compare (m * 10 ^ Z.of_nat b) (n * 10 ^ Z.of_nat a).
Definition bool_cmp (a b : bool) : comparison :=
  match a, b with false, true => Lt | true, false => Gt | _, _ => Eq end.
Definition vcmp (a b : V) : option comparison :=
  match a, b with
  | VInt x, VInt y => Some (Z.compare x y)
  | VStr x, VStr y => Some (String.compare x y)
  | VBool x, VBool y => Some (bool_cmp x y)
  | VDec m a, VDec n b => Some (dec_cmp m a n b)
  | VStr x, VInt y => Some (String.compare x (show y))
  | VInt x, VStr y => Some (String.compare (show x) y)
  | _, _ => None
  end.

(** common/src/query.rs 235-250 *)
Inductive FOp := FEq | FNeq | FGt | FGte | FLt | FLte | FTrue | FFalse | FExists | FEmpty | FLike | FNotLike | FRegex | FNotRegex.

(** The expressions the query builder makes *)
Inductive Expr :=
| ECmp (o : FOp) (col : string) (v : V)
| EIsTrue (col : string) | EIsFalse (col : string) | ENull (col : string) | ENotNull (col : string)
| EAnd (a b : Expr) | EOr (a b : Expr).

(** ** DataFusion's evaluation *)
Section Eval.
Variables like regex : string -> string -> bool.
Definition and3 (a b : option bool) : option bool :=
  match a, b with
  | Some false, _ | _, Some false => Some false
  | Some true, Some true => Some true
  | _, _ => None
  end.
Definition or3 (a b : option bool) : option bool :=
  match a, b with
  | Some true, _ | _, Some true => Some true
  | Some false, Some false => Some false
  | _, _ => None
  end.
Definition cmp_holds (o : FOp) (c : comparison) : bool :=
  match o, c with
  | FEq, Eq => true | FNeq, (Lt | Gt) => true
  | FGt, Gt => true | FGte, (Gt | Eq) => true | FLt, Lt => true | FLte, (Lt | Eq) => true
  | _, _ => false
  end.
Definition eval_cmp (o : FOp) (x y : V) : option bool :=
  match o with
  | FLike => match x, y with VStr a, VStr p => Some (like a p) | _, _ => None end
  | FNotLike => match x, y with VStr a, VStr p => Some (negb (like a p)) | _, _ => None end
  | FRegex => match x, y with VStr a, VStr p => Some (regex a p) | _, _ => None end
  | FNotRegex => match x, y with VStr a, VStr p => Some (negb (regex a p)) | _, _ => None end
  | _ => option_map (cmp_holds o) (vcmp x y)
  end.
Fixpoint eval (e : Expr) (row : string -> option V) : option bool :=
  match e with
  | ECmp o c v => match row c with Some x => eval_cmp o x v | None => None end
  | EIsTrue c => Some (match row c with Some (VBool true) => true | _ => false end)
  | EIsFalse c => Some (match row c with Some (VBool false) => true | _ => false end)
  | ENull c => Some (match row c with None => true | Some _ => false end)
  | ENotNull c => Some (match row c with None => false | Some _ => true end)
  | EAnd a b => and3 (eval a row) (eval b row)
  | EOr a b => or3 (eval a row) (eval b row)
  end.
(** A Filter node keeps the rows for which its expression is true. *)
Definition keeps (e : Expr) (row : string -> option V) : bool :=
  match eval e row with Some true => true | _ => false end.
End Eval.

(** ** logical_plan/expr.rs *)
(** 15-29; indexing an empty vector panics: [None] *)
Definition multi_or (es : list Expr) : option Expr :=
  match es with
  | [] => None
  | e :: tl => Some (fold_left EOr tl e)
  end.
(** 31-42 *)
Definition multi_and (es : list Expr) : option Expr :=
  match es with
  | [] => None
  | e :: tl => Some (fold_left EAnd tl e)
  end.

(** ** expr.rs *)
(** What the metadata say about a property: its column, and for dictionary properties the
    values of the dictionary, the n-th having key n (dictionaries.rs; proved in PropsDict.v).
    [p_time]: data type Timestamp. *)
Record FProp := mkFProp { p_col : string; p_dict : option (list string); p_time : bool }.
Record Filter := mkFilter { f_prop : FProp; f_op : FOp; f_vals : option (list V) }.

Fixpoint key_of (d : list string) (s : string) (n : Z) : option Z :=
  match d with
  | [] => None
  | x :: tl => if String.eqb x s then Some n else key_of tl s (n + 1)
  end.
(** 168-204: [None] is the error of a value that is no text or not in the dictionary *)
Fixpoint encode (d : list string) (vs : list V) : option (list V) :=
  match vs with
  | [] => Some []
  | VStr s :: tl =>
    match key_of d s 1, encode d tl with Some k, Some l => Some (VInt k :: l) | _, _ => None end
  | _ :: _ => None
  end.
(** 300-391 *)
Definition named_property_expression (col : string) (o : FOp) (vals : option (list V)) : option Expr :=
  match o with
  | FTrue => Some (EIsTrue col)
  | FFalse => Some (EIsFalse col)
  | FEmpty => Some (ENull col)
  | FExists => Some (ENotNull col)
  | _ => match vals with None => None | Some vs => multi_or (map (ECmp o col) vs) end
  end.
(** 206-246 *)
Definition prop_expression (f : Filter) : option Expr :=
  let p := f_prop f in
  match f_vals f with
  | None => named_property_expression (p_col p) (f_op f) None
  | Some vs =>
    match f_op f with
    | FLike | FNotLike | FRegex | FNotRegex => named_property_expression (p_col p) (f_op f) (Some vs)
    | _ =>
      match p_dict p with
      | Some d => match encode d vs with
                  | None => None
                  | Some ks => named_property_expression (p_col p) (f_op f) (Some ks)
                  end
      | None => named_property_expression (p_col p) (f_op f) (Some vs)
      end
    end
  end.
Fixpoint all_some {A} (l : list (option A)) : option (list A) :=
  match l with
  | [] => Some []
  | None :: _ => None
  | Some x :: tl => option_map (cons x) (all_some tl)
  end.
(** 117-152 *)
Definition event_filters_expression (fs : list Filter) : option Expr :=
  match all_some (map prop_expression fs) with
  | None => None
  | Some es => multi_and es
  end.

(** ** lib.rs 563-622 [fix_filter]: numbers given for a time property become whole numbers,
    once for every value; no values become an empty list. *)
Definition to_time (v : V) : V := match v with VDec m _ => VInt m | x => x end.
Definition fix_filter (f : Filter) : Filter :=
  let vs := match f_vals f with Some vs => vs | None => [] end in
  mkFilter (f_prop f) (f_op f)
    (Some (flat_map (fun v => match p_time (f_prop f), v with
                              | true, VDec _ _ => map to_time vs
                              | _, _ => [v]
                              end) vs)).

(** ** lib.rs 448-503, physical_plan/dictionary_decode.rs 156-200: the columns of dictionary
    properties some filter compares with a pattern are replaced by their texts for the whole
    report. *)
Definition is_pattern (o : FOp) : bool :=
  match o with FLike | FNotLike | FRegex | FNotRegex => true | _ => false end.
Definition decode_cols (fs : list Filter) : list (string * list string) :=
  flat_map (fun f => match is_pattern (f_op f), p_dict (f_prop f) with
                     | true, Some d => [(p_col (f_prop f), d)]
                     | _, _ => []
                     end) fs.
Definition decode_value (d : list string) (v : V) : V :=
  match v with
  | VInt k => VStr (nth (Z.to_nat (k - 1)) d "")
  | x => x
  end.
Fixpoint find_dict (c : string) (ds : list (string * list string)) : option (list string) :=
  match ds with
  | [] => None
  | (x, d) :: tl => if String.eqb x c then Some d else find_dict c tl
  end.
Definition decode_row (ds : list (string * list string)) (row : string -> option V) (c : string) : option V :=
  match find_dict c ds with
  | Some d => option_map (decode_value d) (row c)
  | None => row c
  end.

(** The filters of a report, global and of one event (event_segmentation.rs 298, 735-772, and
    fix_request 962-1000, which removes empty lists): [None] when the report is refused. *)
Definition filtered (like regex : string -> string -> bool) (fs : list Filter) (row : string -> option V) : option bool :=
  match fs with
  | [] => Some true
  | _ => let fs := map fix_filter fs in
         match event_filters_expression fs with
         | None => None
         | Some e => Some (keeps like regex e (decode_row (decode_cols fs) row))
         end
  end.

(** ** Events: expr.rs 59-112 *)
Inductive EventRef := RName (name : string) | RId (id : Z) | RCustom (id : Z).
Record Member := mkMember { mb_event : EventRef; mb_filters : option (list Filter) }.
Section Events.
(** the event of a name, and the members of a custom event; [None] when there is none *)
Variable by_name : string -> option Z.
Variable custom : Z -> option (list Member).
Definition COLUMN_EVENT := "event".
(** [id as u16] *)
Definition as_u16 (id : Z) : Z := id mod 65536.
(** [n] bounds the nesting; running out of it stands for the stack overflow of a cycle *)
Fixpoint event_expression (n : nat) (e : EventRef) : option Expr :=
  match e with
  | RName name => match by_name name with Some id => Some (ECmp FEq COLUMN_EVENT (VInt id)) | None => None end
  | RId id => Some (ECmp FEq COLUMN_EVENT (VInt (as_u16 id)))
  | RCustom id =>
    match n with
    | O => None
    | S n =>
      match custom id with
      | None => None
      | Some ms =>
        match all_some (map (fun m =>
                match event_expression n (mb_event m) with
                | None => None
                | Some x => match mb_filters m with
                            | None => Some x
                            | Some fs => option_map (EAnd x) (event_filters_expression fs)
                            end
                end) ms) with
        | None => None
        | Some es => multi_or es
        end
      end
    end
  end.
End Events.
