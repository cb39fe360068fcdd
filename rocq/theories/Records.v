(** Record searches and lookups and the list of property values: src/query/src/event_records.rs,
    group_records.rs and properties.rs, with the request translation of src/platform/src.

    A table row gives a value, or none, for a column name.  Properties arrive resolved: a
    request that names an unknown property is refused before (get_by_name, not modelled here).
    DataFusion's planning is modelled by two rules: an expression over a column that is not in
    its input is refused, and so is a schema in which a name occurs twice. *)
From Coq Require Import List ZArith String Bool Arith.
From Verif Require Import Filter.
Import ListNotations.
Local Open Scope string_scope.

Inductive Out (A : Type) := Done (a : A) | Refused | Crashed.
Arguments Done {A} a. Arguments Refused {A}. Arguments Crashed {A}.

Notation Row := (string -> option V).

(** metadata/src/properties.rs 609-654: reference, shown name, column and dictionary *)
Record PDef := mkPDef { d_ref : string; d_name : string; d_prop : FProp }.
Definition d_col (p : PDef) : string := p_col (d_prop p).

(** A table: its columns in schema order and the rows of a scan *)
Record Store := mkStore { t_cols : list string; t_rows : list Row }.

(** query/src/lib.rs 376-385, Column: the property the column is labelled with, its name and
    its values *)
Record Column := mkColumn { c_ref : string; c_name : string; c_data : list (option V) }.

Definition mem (c : string) (l : list string) : bool := existsb (String.eqb c) l.
Fixpoint distinct (l : list string) : bool :=
  match l with [] => true | x :: tl => negb (mem x tl) && distinct tl end.

(** Columns an expression reads *)
Fixpoint columns_of (e : Expr) : list string :=
  match e with
  | ECmp _ c _ | EIsTrue c | EIsFalse c | ENull c | ENotNull c => [c]
  | EAnd a b | EOr a b => (columns_of a ++ columns_of b)%list
  end.

(** query/src/expr.rs 37-57 *)
Definition time_expression (col : string) (from to : Z) : Expr :=
  EAnd (ECmp FGte col (VInt from)) (ECmp FLte col (VInt to)).
Definition project_expression (p : Z) : Expr := ECmp FEq "project_id" (VInt p).

(** event_records.rs 230-257, group_records.rs 227-252: properties whose column was named before
    are left out *)
Fixpoint once (seen : list string) (ps : list PDef) : list PDef :=
  match ps with
  | [] => []
  | p :: tl => if mem (d_col p) seen then once seen tl else p :: once (d_col p :: seen) tl
  end.

(** event_records.rs 390-411, group_records.rs 336-357: names of the columns; the n-th property
    of the same name gets the number n *)
Fixpoint new_names (before : list string) (ps : list PDef) : list string :=
  match ps with
  | [] => []
  | p :: tl =>
    let found := count_occ string_dec before (d_name p) in
    (match found with
     | O => d_name p
     | S _ => d_name p ++ " " ++ show (Z.of_nat (found + 1))
     end) :: new_names (d_name p :: before) tl
  end.
Definition renames (ps : list PDef) : list (string * string) := combine (map d_col ps) (new_names [] ps).
(** logical_plan/rename_columns.rs 30-42: the first entry for the column counts *)
Fixpoint rename (rs : list (string * string)) (c : string) : string :=
  match rs with
  | [] => c
  | (from, to) :: tl => if String.eqb c from then to else rename tl c
  end.

(** event_records.rs 352-388, group_records.rs 305-334: dictionary columns among the
    properties, except those decoded for the filters *)
Definition out_dicts (decoded : list (string * list string)) (ps : list PDef) : list (string * list string) :=
  flat_map (fun p => match p_dict (d_prop p) with
                     | Some d => if mem (d_col p) (map fst decoded) then [] else [(d_col p, d)]
                     | None => []
                     end) ps.

(** event_records.rs 200-219, group_records.rs 196-216: the column with index n is labelled with
    the n-th property; [None] when there is no n-th property *)
Fixpoint label (cols : list string) (names : list string) (ps : list PDef) (rows : list Row) : option (list Column) :=
  match cols, names with
  | c :: cols', n :: names' =>
    match ps with
    | [] => None
    | p :: ps' =>
      match label cols' names' ps' rows with
      | None => None
      | Some l => Some (mkColumn (d_ref p) n (map (fun r => r c) rows) :: l)
      end
    end
  | _, _ => Some []
  end.
(** The end of both searches: limit 100, decode, rename, label. *)
Definition present (cols : list string) (ps : list PDef) (decoded : list (string * list string))
  (rows : list Row) : Out (list Column) :=
  let names := map (rename (renames ps)) cols in
  if distinct names then
    match label cols names ps (map (decode_row (out_dicts decoded ps)) (firstn 100 rows)) with
    | Some l => Done l
    | None => Crashed
    end
  else Refused.

(** event_records.rs 331-337: sort by a column, largest first, rows without a value last *)
Definition key_of_row (c : string) (r : Row) : option Z :=
  match r c with Some (VInt z) => Some z | _ => None end.
Definition key_before (a b : option Z) : bool :=
  match a, b with
  | Some x, Some y => Z.leb y x
  | Some _, None => true
  | None, Some _ => false
  | None, None => true
  end.
Fixpoint insert_desc (c : string) (r : Row) (l : list Row) : list Row :=
  match l with
  | [] => [r]
  | x :: tl => if key_before (key_of_row c r) (key_of_row c x) then r :: l else x :: insert_desc c r tl
  end.
Definition sort_desc (c : string) (l : list Row) : list Row := fold_right (insert_desc c) [] l.

Section Queries.
Variables like regex : string -> string -> bool.
Variable by_name : string -> option Z.
Variable custom : Z -> option (list Member).
(** nesting of custom events, see [Filter.event_expression] *)
Variable n : nat.

(** ** Searching events *)
(** event_records.rs 628-634; [time.range] gives the bounds (Calendar.v) *)
Record SearchReq := mkSearch {
  sr_from : Z; sr_to : Z;
  sr_events : option (list Member);
  sr_filters : option (list Filter);
  sr_props : option (list PDef)
}.

Definition none_if_empty {A} (o : option (list A)) : option (list A) :=
  match o with Some [] => None | x => x end.
(** 562-613: an event whose filters are not given is not pushed *)
Definition fix_events (es : list Member) : list Member :=
  flat_map (fun m => match mb_filters m with
                     | None => []
                     | Some fs => [mkMember (mb_event m) (none_if_empty (Some (map fix_filter fs)))]
                     end) es.
Definition fix_search_request (q : SearchReq) : SearchReq :=
  mkSearch (sr_from q) (sr_to q) (option_map fix_events (sr_events q))
    (option_map (map fix_filter) (none_if_empty (sr_filters q))) (none_if_empty (sr_props q)).

(** 281-302 *)
Definition member_expression (m : Member) : option Expr :=
  match event_expression by_name custom n (mb_event m) with
  | None => None
  | Some x =>
    match mb_filters m with
    | Some (f :: fs) => option_map (EAnd x) (event_filters_expression (f :: fs))
    | _ => Some x
    end
  end.
(** 268-308 *)
Definition search_expression (p : Z) (q : SearchReq) : option Expr :=
  let base := [project_expression p; time_expression "created_at" (sr_from q) (sr_to q)] in
  match sr_events q with
  | Some (m :: ms) =>
    match all_some (map member_expression (m :: ms)) with
    | None => None
    | Some es => match multi_or es with Some e => multi_and (base ++ [e]) | None => None end
    end
  | _ => multi_and base
  end.

Definition listed {A} (o : option (list A)) : list A := match o with Some l => l | None => [] end.
(** 485-532: event filters first, then the filters of the request *)
Definition search_filters (q : SearchReq) : list Filter :=
  (flat_map (fun m => listed (mb_filters m)) (listed (sr_events q)) ++ listed (sr_filters q))%list.

(** 179-186, 534-560: columns read from the table; [None]: a column the table does not have *)
Definition search_columns (t : Store) (q : SearchReq) : option (list string) :=
  match sr_props q with
  | None => Some (t_cols t)
  | Some ps =>
    let want := (["project_id"; "event"; "created_at"; "event_id"]
                 ++ map (fun f => p_col (f_prop f)) (listed (sr_filters q)) ++ map d_col ps)%list in
    if forallb (fun c => mem c (t_cols t)) want then Some (filter (fun c => mem c want) (t_cols t)) else None
  end.

(** 172-221 and 223-419; [all]: the event properties of the project, then its group properties *)
Definition search_events (p : Z) (all : list PDef) (t : Store) (q : SearchReq) : Out (list Column) :=
  match search_columns t q with
  | None => Crashed
  | Some avail =>
    match search_expression p q with
    | None => Refused
    | Some e =>
      if forallb (fun c => mem c avail) (columns_of e) then
        let decoded := decode_cols (search_filters q) in
        let rows := sort_desc "event_id" (filter (keeps like regex e) (map (decode_row decoded) (t_rows t))) in
        match once [] (listed (sr_props q)) with
        | [] => present avail all decoded rows
        | ps =>
          let cols := map d_col ps in
          present (if mem "event_id" cols then cols else "event_id" :: cols) ps decoded rows
        end
      else Refused
    end
  end.

(** ** Searching groups *)
(** group_records.rs 531-538; [gr_sort]: property and ascending *)
Record GroupReq := mkGroupReq {
  gr_time : option (Z * Z);
  gr_filters : option (list Filter);
  gr_props : option (list PDef);
  gr_sort : option (PDef * bool)
}.
(** 488-524 *)
Definition fix_group_request (q : GroupReq) : GroupReq :=
  mkGroupReq (gr_time q) (option_map (map fix_filter) (none_if_empty (gr_filters q)))
    (none_if_empty (gr_props q)) (gr_sort q).
(** 256-277: the filters replace everything but the first expression *)
Definition group_expression (p : Z) (q : GroupReq) : option Expr :=
  let base := project_expression p ::
    match gr_time q with Some (from, to) => [time_expression "created_at" from to] | None => [] end in
  match gr_filters q with
  | None => multi_and base
  | Some fs => match event_filters_expression fs with
               | None => None
               | Some e => multi_and [EAnd (project_expression p) e]
               end
  end.
(** 172-183, 460-486 *)
Definition group_columns (t : Store) (q : GroupReq) : option (list string) :=
  match gr_props q with
  | None => Some (t_cols t)
  | Some ps =>
    let want := (["project_id"; "id"; "version"; "created_at"]
                 ++ map (fun f => p_col (f_prop f)) (listed (gr_filters q)) ++ map d_col ps)%list in
    if forallb (fun c => mem c (t_cols t)) want then Some (filter (fun c => mem c want) (t_cols t)) else None
  end.
(** 165-218 and 220-363 for a request without sort (the platform always sends none) *)
Definition search_groups (p : Z) (all : list PDef) (t : Store) (q : GroupReq) : Out (list Column) :=
  match group_columns t q with
  | None => Crashed
  | Some avail =>
    match group_expression p q with
    | None => Refused
    | Some e =>
      if forallb (fun c => mem c avail) (columns_of e) then
        let decoded := decode_cols (listed (gr_filters q)) in
        let rows := filter (keeps like regex e) (map (decode_row decoded) (t_rows t)) in
        match once [] (listed (gr_props q)) with
        | [] => present avail all decoded rows
        | ps => present (map d_col ps) ps decoded rows
        end
      else Refused
    end
  end.

(** ** Looking up one record *)
(** What the column's buffer holds where there is no value: zeros, no characters, false. *)
Variable blank : string -> V.
(** event_records.rs 97-168 and 421-483, group_records.rs 79-163 and 365-444: the rows with the
    id, all columns; of the first row every column that is the column of a property of the
    project.  [value(0)] does not look at nulls, and fails when there is no row.  Reading the
    dictionary entry of the id, which refuses an unknown text id, is not modelled: [id] is the
    number. *)
Definition find_prop (all : list PDef) (c : string) : option PDef := find (fun p => String.eqb (d_col p) c) all.
Definition value0 (c : string) (r : Row) : V := match r c with Some v => v | None => blank c end.
Definition lookup (idcol : string) (p : Z) (all : list PDef) (t : Store) (id : Z) : Out (list (string * V)) :=
  let e := EAnd (project_expression p) (ECmp FEq idcol (VInt id)) in
  let rows := map (decode_row (out_dicts [] all)) (filter (keeps like regex e) (t_rows t)) in
  let found := flat_map (fun c => match find_prop all c with Some d => [(d, c)] | None => [] end) (t_cols t) in
  match found, rows with
  | [], _ => Done []
  | _, [] => Crashed
  | _, r :: _ => Done (map (fun dc => (d_ref (fst dc), value0 (snd dc) r)) found)
  end.

(** ** Values of a property *)
(** properties.rs 196-212: the property with the dictionary of its own table; [vr_enc]: the texts
    known for its column in the dictionary of the events table, which is the one the filter is
    encoded with (166-178) *)
Record ValuesReq := mkValues {
  vr_prop : FProp;
  vr_enc : list string;
  vr_event : option EventRef;
  vr_filter : option (FOp * option (list V))
}.
(** group by the column: each value once, absence counts as a value *)
Definition v_eqb (a b : V) : bool :=
  match a, b with
  | VInt x, VInt y => Z.eqb x y
  | VStr x, VStr y => String.eqb x y
  | VBool x, VBool y => Bool.eqb x y
  | VDec m s, VDec m' s' => Z.eqb m m' && Nat.eqb s s'
  | _, _ => false
  end.
Definition o_eqb (a b : option V) : bool :=
  match a, b with Some x, Some y => v_eqb x y | None, None => true | _, _ => false end.
Fixpoint group_values (l : list (option V)) : list (option V) :=
  match l with
  | [] => []
  | x :: tl => if existsb (o_eqb x) tl then group_values tl else x :: group_values tl
  end.
(** 185-192: ascending, absence last *)
Definition v_leb (a b : V) : bool := match vcmp a b with Some Gt => false | _ => true end.
Definition o_leb (a b : option V) : bool :=
  match a, b with
  | Some x, Some y => v_leb x y
  | Some _, None => true
  | None, Some _ => false
  | None, None => true
  end.
Fixpoint insert_asc (x : option V) (l : list (option V)) : list (option V) :=
  match l with
  | [] => [x]
  | y :: tl => if o_leb x y then x :: l else y :: insert_asc x tl
  end.
Definition sort_asc (l : list (option V)) : list (option V) := fold_right insert_asc [] l.
(** 118-200 and 58-82 *)
Definition values (p : Z) (t : Store) (q : ValuesReq) : Out (list (option V)) :=
  let c := p_col (vr_prop q) in
  match (match vr_event q with
         | None => Some (project_expression p)
         | Some ev => option_map (EAnd (project_expression p)) (event_expression by_name custom n ev)
         end) with
  | None => Refused
  | Some e =>
    if negb (mem c (t_cols t)) then Crashed
    else if forallb (fun x => mem x ["project_id"; "event"; c]) (columns_of e) then
      let vals := group_values (map (fun r => r c) (filter (keeps like regex e) (t_rows t))) in
      let shown := match p_dict (vr_prop q) with
                   | Some d => map (option_map (decode_value d)) vals
                   | None => vals
                   end in
      let kept := match vr_filter q with
                  | None => Some shown
                  | Some (o, vs) =>
                    let f := mkFilter (mkFProp c (option_map (fun _ => vr_enc q) (p_dict (vr_prop q)))
                                         (p_time (vr_prop q))) o vs in
                    match prop_expression f with
                    | None => None
                    | Some x => Some (filter (fun v => keeps like regex x (fun _ => v)) shown)
                    end
                  end in
      match kept with
      | None => Refused
      | Some l => Done (firstn 1000 (sort_asc l))
      end
    else Refused
  end.
End Queries.

(** ** The filters of a request (platform/src/lib.rs 672-708; event_segmentation.rs 467-484,
    funnel.rs 748-754, event_records.rs 177-194, group_records.rs 116-133) *)
Inductive Cond := CAnd | COr.
Record FGroup := mkFGroup { fg_cond : Cond; fg_filters : list Filter }.
Record FGroups := mkFGroups { fgs_cond : Cond; fgs_groups : list FGroup }.
(** [Crashed]: indexing an empty list.  The validation refuses a group without filters; its
    test for an empty list of groups is inside the loop over the groups. *)
Definition request_filters (o : option FGroups) : Out (option (list Filter)) :=
  match o with
  | None => Done None
  | Some gs =>
    if existsb (fun g => match fg_filters g with [] => true | _ => false end) (fgs_groups gs) then Refused
    else match fgs_groups gs with
         | [] => Crashed
         | g :: _ => Done (none_if_empty (Some (fg_filters g)))
         end
  end.
