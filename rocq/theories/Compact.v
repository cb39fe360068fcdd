(** Compaction of one table, src/storage/src/compaction.rs: which parts are selected, how
    they are merged or moved to the next level, and how the result is published. *)
From Coq Require Import List NArith ZArith Bool String.
From Verif Require Import Bytes Value Log AMap Order Memtable Table Get.
Import ListNotations.

(** The options of compaction, table.rs 25-41: [l0_max_parts], [l1_max_size_bytes],
    [level_size_multiplier], [merge_max_l1_part_size_bytes], [merge_part_size_multiplier].
    Products and powers are unbounded here; in the code they wrap (release build). *)
Record COpts := mkCO
  { c_l0_max : nat; c_l1_max : N; c_level_mult : N; c_l1_part : N; c_part_mult : N }.

Notation path := (nat * nat)%type (only parsing).
Definition lp_path (lp : nat * Part) : nat * nat := (fst lp, p_id (snd lp)).
Definition path_eqb (a b : nat * nat) : bool := if lp_dec a b then true else false.

(** compaction.rs 37-47 *)
Inductive FsOp := Rename (from to_ : nat * nat) | Delete (p : nat * nat).

Fixpoint mapi {A B} (f : nat -> A -> B) (i : nat) (l : list A) : list B :=
  match l with
  | [] => []
  | x :: r => f i x :: mapi f (S i) r
  end.

(** *** Selection, [determine_compaction], compaction.rs 197-253 *)
Section Select.
(** Size in bytes of a part file, any numbers.  [Part] leaves [size_bytes] out. *)
Variable psize : nat -> Part -> N.
Variable co : COpts.

Definition level_limit (lvl : nat) : N := (c_l1_max co * c_level_mult co ^ N.of_nat (lvl - 1))%N.
Definition part_limit (lvl : nat) : N := (c_l1_part co * c_part_mult co ^ N.of_nat lvl)%N.

(** The parts at which the running total of the sizes is above the limit; the loops of
    compaction.rs 218-231. *)
Fixpoint over (lvl : nat) (limit acc : N) (ps : list Part) : list Part :=
  match ps with
  | [] => []
  | p :: r => let acc' := (acc + psize lvl p)%N in
              if (limit <? acc')%N then p :: over lvl limit acc' r else over lvl limit acc' r
  end.
Definition selected (lvl : nat) (ps : list Part) : list nat :=
  match lvl with
  | O => if Nat.ltb (c_l0_max co) (List.length ps) then map p_id ps else []
  | _ => flat_map (fun p => map p_id (over lvl (part_limit lvl) 0 ps) ++ [p_id p])
                  (over lvl (level_limit lvl) 0 ps)
  end.

(** Key vectors are compared lexicographically (derived [Ord] of [Vec]). *)
Definition kmin (a b : list KeyValue) : list KeyValue := if key_le a b then a else b.
Definition kmax (a b : list KeyValue) : list KeyValue := if key_le a b then b else a.
(** [Level::get_part], table.rs 100-108, on ids of the level. *)
Definition get_parts (l : Level) (ids : list nat) : list Part :=
  flat_map (fun i => match find (fun p => Nat.eqb (p_id p) i) (l_parts l) with
                     | Some p => [p] | None => [] end) ids.
Definition range_of (ps : list Part) : list KeyValue * list KeyValue :=
  match ps with
  | [] => ([], [])
  | p :: r => (fold_left (fun m q => kmin m (p_min q)) r (p_min p),
               fold_left (fun m q => kmax m (p_max q)) r (p_max p))
  end.
(** compaction.rs 247-251: the smaller end lies strictly above the larger start. *)
Definition overlaps (mn mx : list KeyValue) (p : Part) : bool :=
  negb (key_le (kmin (p_max p) mx) (kmax (p_min p) mn)).

Definition determine (lvl : nat) (level next : Level) : option (list (nat * nat)) :=
  match selected lvl (l_parts level) with
  | [] => None
  | sel => let '(mn, mx) := range_of (get_parts level sel) in
           Some (map (pair lvl) sel ++
                 map (fun p => (S lvl, p_id p)) (List.filter (overlaps mn mx) (l_parts next)))
  end.
End Select.

(** *** One pass, [compact], compaction.rs 255-400 *)
(** State of the loop: the working copy of the levels, the file operations to be done after
    publishing, the level-0 parts to be taken out of the metadata, and the files written by
    merges.  [w_plans] remembers the selections (not in the code). *)
Record CW := mkCW
  { w_levels : list Level; w_ops : list FsOp; w_l0 : list nat;
    w_new : list ((nat * nat) * PartFile); w_plans : list (list (nat * nat)) }.

Definition read_part (new : list ((nat * nat) * PartFile)) (d : Disk) (p : nat * nat) : option PartFile :=
  match aget lp_dec p new with
  | Some pf => Some pf
  | None => aget lp_dec p (d_parts d)
  end.

(** compaction.rs 309-317 *)
Definition drop_parts (tc : list (nat * nat)) (k : nat) (l : Level) : Level :=
  mkLevel (l_next l) (List.filter (fun p => negb (existsb (path_eqb (k, p_id p)) tc)) (l_parts l)).
(** compaction.rs 281-287 *)
Fixpoint remove_id (i : nat) (ps : list Part) : list Part :=
  match ps with
  | [] => []
  | p :: r => if Nat.eqb (p_id p) i then r else p :: remove_id i r
  end.

Definition MergeOut := (PartFile * (list KeyValue * list KeyValue))%type.
Section Pass.
Variable psize : nat -> Part -> N.
(** [parquet_merger::merge] of the given files for a level: the contents and the key range
    of each file it writes. *)
Variable merge : nat -> list PartFile -> result fault (list MergeOut).
Variable co : COpts.

Definition out_part (id : nat) (o : MergeOut) : Part :=
  mkPart id (List.length (pf_rows (fst o))) (fst (snd o)) (snd (snd o)).

(** compaction.rs 276-297: one part only, it is moved.  [w_l0] is left as it is. *)
Definition move_part (w : CW) (k id : nat) : result fault CW :=
  match nth_error (w_levels w) k, nth_error (w_levels w) (S k) with
  | Some l, Some ln =>
    match find (fun p => Nat.eqb (p_id p) id) (l_parts l) with
    | None => Err Panic
    | Some p =>
      let id' := S (l_next ln) in
      let p' := mkPart id' (p_values p) (p_min p) (p_max p) in
      Ok (mkCW (mapi (fun i lv => if Nat.eqb i k then mkLevel (l_next lv) (remove_id id (l_parts lv))
                                  else if Nat.eqb i (S k) then mkLevel id' (l_parts lv ++ [p'])
                                  else lv) 0 (w_levels w))
               (w_ops w ++ [Rename (k, id) (S k, id')]) (w_l0 w) (w_new w)
               (w_plans w ++ [[(k, id)]]))
    end
  | _, _ => Err Panic
  end.

(** compaction.rs 298-383.  [File::open] of the inputs is unwrapped.  The outputs get the ids
    after the counter of the next level. *)
Definition merge_parts (d : Disk) (w : CW) (k : nat) (tc : list (nat * nat)) : result fault CW :=
  match mapM (read_part (w_new w) d) tc, nth_error (w_levels w) (S k) with
  | Some files, Some ln =>
    match merge k files with
    | Err e => Err e
    | Ok outs =>
      let numbered := combine (seq (S (l_next ln)) (List.length outs)) outs in
      Ok (mkCW (mapi (fun i lv =>
                  let lv' := drop_parts tc i lv in
                  if Nat.eqb i (S k)
                  then mkLevel (l_next lv' + List.length outs)
                         (l_parts lv' ++ map (fun '(id, o) => out_part id o) numbered)
                  else lv') 0 (w_levels w))
               (w_ops w ++ map Delete tc)
               (w_l0 w ++ map snd (List.filter (fun p => Nat.eqb (fst p) 0) tc))
               (map (fun '(id, o) => ((S k, id), fst o)) numbered ++ w_new w)
               (w_plans w ++ [tc]))
    end
  | _, _ => Err Panic
  end.

(** One turn of the loop; [None] = nothing selected, the loop ends. *)
Definition compact_level (d : Disk) (w : CW) (k : nat) : result fault (option CW) :=
  match nth_error (w_levels w) k, nth_error (w_levels w) (S k) with
  | Some l, Some ln =>
    match determine psize co k l ln with
    | None => Ok None
    | Some [(_, id)] => match move_part w k id with Ok w' => Ok (Some w') | Err e => Err e end
    | Some tc => match merge_parts d w k tc with Ok w' => Ok (Some w') | Err e => Err e end
    end
  | _, _ => Err Panic
  end.
Fixpoint compact_loop (d : Disk) (w : CW) (ks : list nat) : result fault CW :=
  match ks with
  | [] => Ok w
  | k :: r => match compact_level d w k with
              | Err e => Err e
              | Ok None => Ok w
              | Ok (Some w') => compact_loop d w' r
              end
  end.
(** [0..len - 2] underflows for fewer than two levels (debug: panic).  The code returns
    [None] if nothing was selected at level 0: nothing is then published; publishing the
    unchanged levels, as here, rewrites the metadata file with the same contents. *)
Definition compact (levels : list Level) (d : Disk) : result fault CW :=
  if Nat.ltb (List.length levels) 2 then Err Panic
  else compact_loop d (mkCW levels [] [] [] []) (seq 0 (List.length levels - 2)).

(** *** Publishing, [Compactor::run], compaction.rs 137-171 *)
(** The metadata may have changed since the pass began; the code removes parts from the
    level 0 of now and overwrites all other levels. *)
Definition md_compacted (md : Metadata) (w : CW) : Metadata :=
  mkMd (md_log_id md) (md_schema md)
       (match md_levels md, w_levels w with
        | l0 :: _, _ :: r =>
          mkLevel (l_next l0) (List.filter (fun p => negb (existsb (Nat.eqb (p_id p)) (w_l0 w))) (l_parts l0)) :: r
        | ls, _ => ls
        end)
       (md_opts md).

(** compaction.rs 153-171.  [Fs::rename] of a missing file is an error and panics; it
    replaces an existing target.  A [Delete] leaves a file that somebody holds open (the
    deleted files exist: they were opened for the merge). *)
Definition fs_op (held : nat * nat -> bool) (m : list ((nat * nat) * PartFile)) (o : FsOp)
  : option (list ((nat * nat) * PartFile)) :=
  match o with
  | Rename a b => match aget lp_dec a m with
                  | None => None
                  | Some pf => Some (aset lp_dec b pf (adel lp_dec a m))
                  end
  | Delete a => if held a then Some m else Some (adel lp_dec a m)
  end.
Fixpoint fs_ops (held : nat * nat -> bool) (m : list ((nat * nat) * PartFile)) (os : list FsOp)
  : option (list ((nat * nat) * PartFile)) :=
  match os with
  | [] => Some m
  | o :: r => match fs_op held m o with None => None | Some m' => fs_ops held m' r end
  end.

(** Disk with the files the merges have written (before the metadata is). *)
Definition disk_merged (d : Disk) (w : CW) : Disk := mkDisk (d_md d) (d_logs d) (w_new w ++ d_parts d).
Definition publish (held : nat * nat -> bool) (t : Table) (w : CW) : result fault Table :=
  let md' := md_compacted (t_md t) w in
  match fs_ops held (w_new w ++ d_parts (t_disk t)) (w_ops w) with
  | None => Err Panic
  | Some parts => Ok (mkTable md' (t_mem t) (t_logged t) (t_log t)
                        (mkDisk (Some md') (d_logs (t_disk t)) parts))
  end.
(** What is on disk when the process dies after the metadata was written and [j] of the
    file operations were done. *)
Definition publish_crash (held : nat * nat -> bool) (t : Table) (w : CW) (j : nat) : option Disk :=
  match fs_ops held (w_new w ++ d_parts (t_disk t)) (firstn j (w_ops w)) with
  | None => None
  | Some parts => Some (mkDisk (Some (md_compacted (t_md t) w)) (d_logs (t_disk t)) parts)
  end.

(** *** Histories with compaction.  [HPass during held]: a pass starts, the operations
    [during] run while it works, then it is published; [held]: files held open by scans.
    The levels are those of the start; part files never change, they are read at the end. *)
Inductive HOp :=
| HBase (o : Op)
| HPass (during : list Op) (held : nat * nat -> bool).

Variable lexsort : list (list cell) -> list nat.
(** [None]: a restart failed or the compaction thread died. *)
Fixpoint run_h (t : Table) (hs : list HOp) : option (Table * list (list (string * Value)) * list CW) :=
  match hs with
  | [] => Some (t, [], [])
  | h :: r =>
    match h with
    | HBase o =>
      match run lexsort t [o] with
      | None => None
      | Some (t', a) =>
        match run_h t' r with
        | None => None
        | Some (t'', b, ws) => Some (t'', a ++ b, ws)
        end
      end
    | HPass during held =>
      match run lexsort t during with
      | None => None
      | Some (t1, a) =>
        match compact (md_levels (t_md t)) (t_disk t1) with
        | Err _ => None
        | Ok w =>
          match publish held t1 w with
          | Err _ => None
          | Ok t2 =>
            match run_h t2 r with
            | None => None
            | Some (t3, b, ws) => Some (t3, a ++ b, w :: ws)
            end
          end
        end
      end
    end
  end.
End Pass.
