(** The replacing pass of [Memtable::chunk]: last row of every run of equal keys. *)
From Coq Require Import List NArith ZArith Lia Bool Permutation Sorted.
From Verif Require Import Bytes Value Log Order Memtable ListFacts MemtableFacts.
Import ListNotations.

Definition zpair_eqb (a b : Z * Z) : bool := (Z.eqb (fst a) (fst b) && Z.eqb (snd a) (snd b))%bool.
Lemma zpair_eqb_spec a b : reflect (a = b) (zpair_eqb a b).
Proof.
  destruct a as [a1 a2], b as [b1 b2]. unfold zpair_eqb; cbn.
  destruct (Z.eqb_spec a1 b1), (Z.eqb_spec a2 b2); cbn; constructor; congruence.
Qed.

Definition raw_key (r : Row) : Z * Z := (raw_i64 (nth 0 r None), raw_i64 (nth 1 r None)).

Fixpoint keep_last (l : list Row) : list Row :=
  match l with
  | [] => []
  | r :: t => match t with
              | [] => [r]
              | r2 :: _ => if zpair_eqb (raw_key r) (raw_key r2) then keep_last t else r :: keep_last t
              end
  end.

Lemma dedup_idx_spec suf : forall pre x,
  mapM (nth_error (pre ++ x :: suf)) (dedup_idx (map raw_key suf) (S (length pre)) (Some (raw_key x)))
  = Some (keep_last (x :: suf)).
Proof.
  assert (Hn : forall (pre : list Row) x t, nth_error (pre ++ x :: t) (length pre) = Some x).
  { intros. rewrite nth_error_app2, Nat.sub_diag by lia. reflexivity. }
  induction suf as [|y suf IH]; intros pre x.
  - cbn [map dedup_idx pred mapM keep_last]. rewrite Hn. reflexivity.
  - cbn [map dedup_idx pred].
    specialize (IH (pre ++ [x]) y). rewrite app_length in IH. cbn [length] in IH.
    rewrite Nat.add_1_r, <- app_assoc in IH. cbn [app] in IH.
    fold (zpair_eqb (raw_key x) (raw_key y)).
    change (keep_last (x :: y :: suf)) with
      (if zpair_eqb (raw_key x) (raw_key y) then keep_last (y :: suf) else x :: keep_last (y :: suf)).
    destruct (zpair_eqb_spec (raw_key x) (raw_key y)) as [E|E].
    + rewrite E. exact IH.
    + cbn [mapM]. rewrite Hn, IH. reflexivity.
Qed.

Lemma replace_rows_keep_last dts rows d0 d1 rest :
  dts = d0 :: d1 :: rest -> is_i64 d0 = true -> is_i64 d1 = true -> rows <> [] ->
  replace_rows dts 2 rows = Ok (keep_last rows).
Proof.
  intros -> H0 H1 Hne. unfold replace_rows. cbn [Nat.eqb]. rewrite H0, H1. cbn [andb].
  destruct rows as [|x rows]; [congruence|].
  change (map (fun r => (raw_i64 (nth 0 r None), raw_i64 (nth 1 r None))) (x :: rows))
    with (raw_key x :: map raw_key rows).
  cbn [dedup_idx]. pose proof (dedup_idx_spec rows [] x) as H. cbn [app length] in H. now rewrite H.
Qed.

(** Facts about [keep_last]. *)
Lemma keep_last_In r l : In r (keep_last l) -> In r l.
Proof.
  induction l as [|x l IH]; [auto|]. cbn [keep_last]. destruct l as [|y l]; [auto|].
  destruct (zpair_eqb _ _); cbn [In]; intuition.
Qed.

Lemma keep_last_cover l r : In r l -> exists r', In r' (keep_last l) /\ raw_key r' = raw_key r.
Proof.
  revert r. induction l as [|x l IH]; intros r H; [contradiction|]. cbn [keep_last].
  destruct l as [|y l].
  - destruct H as [->|[]]. exists r. cbn; auto.
  - destruct H as [->|H].
    + destruct (zpair_eqb_spec (raw_key r) (raw_key y)) as [E|E].
      * destruct (IH y (or_introl eq_refl)) as (r' & H' & E'). exists r'. split; [exact H'|congruence].
      * exists r. cbn; auto.
    + destruct (IH r H) as (r' & H' & E'). exists r'. split; [|exact E'].
      destruct (zpair_eqb _ _); cbn; auto.
Qed.

(** Rows with two non-null integer key cells, as in a replacing table. *)
Definition int_keyed (r : Row) : Prop :=
  exists a b rest, r = Some (AInt a) :: Some (AInt b) :: rest.

Lemma int_keyed_key r s : int_keyed r -> int_keyed s ->
  (raw_key r = raw_key s <-> firstn 2 r = firstn 2 s).
Proof.
  intros (a & b & t & ->) (a' & b' & t' & ->). unfold raw_key; cbn.
  split; intros H; injection H as -> ->; reflexivity.
Qed.

Lemma keep_last_sorted_nodup l :
  Forall int_keyed l -> sorted_by cmp_key (firstn 2) l -> NoDup (map raw_key (keep_last l)).
Proof.
  intros F S. induction l as [|x l IH]; [constructor|].
  inversion F as [|? ? Fx Fl]; subst. inversion S as [|? ? Sl Sx]; subst.
  specialize (IH Fl Sl). cbn [keep_last]. destruct l as [|y l].
  - repeat constructor; auto.
  - destruct (zpair_eqb_spec (raw_key x) (raw_key y)) as [E|E]; [exact IH|].
    cbn [map]. constructor; [|exact IH]. intros Hin.
    apply in_map_iff in Hin as (z & Ez & Hz). apply keep_last_In in Hz.
    (* x <= y <= z and key z = key x, so key y = key x *)
    assert (Kz : int_keyed z) by (rewrite Forall_forall in Fl; auto).
    assert (Ky : int_keyed y) by (inversion Fl; auto).
    apply (proj1 (int_keyed_key _ _ Kz Fx)) in Ez.
    apply E. apply (proj2 (int_keyed_key _ _ Fx Ky)).
    apply (cle_antisym cmp_key cmp_key_total).
    + inversion Sx; auto.
    + rewrite <- Ez. destruct Hz as [->|Hz]; [apply (cle_refl _ cmp_key_total)|].
      inversion Sl as [|? ? _ Sy]; subst. rewrite Forall_forall in Sy. now apply Sy.
Qed.

(** The kept row is the last one with its key, in sorted order. *)
Lemma keep_last_is_last l r :
  Forall int_keyed l -> sorted_by cmp_key (firstn 2) l -> In r (keep_last l) ->
  exists a b, l = a ++ r :: b /\ Forall (fun s => raw_key s <> raw_key r) b.
Proof.
  intros F S. induction l as [|x l IH]; [contradiction|].
  inversion F as [|? ? Fx Fl]; subst. inversion S as [|? ? Sl Sx]; subst.
  specialize (IH Fl Sl). cbn [keep_last]. destruct l as [|y l].
  - intros [<-|[]]. exists [], []. split; [reflexivity|constructor].
  - destruct (zpair_eqb_spec (raw_key x) (raw_key y)) as [E|E].
    + intros H. destruct (IH H) as (a & b & Eq & Hb). exists (x :: a), b. rewrite Eq. auto.
    + intros [<-|H].
      * exists [], (y :: l). split; [reflexivity|].
        apply Forall_forall. intros z Hz Ez.
        assert (Kz : int_keyed z) by (rewrite Forall_forall in Fl; auto).
        assert (Ky : int_keyed y) by (inversion Fl; auto).
        apply (proj1 (int_keyed_key _ _ Kz Fx)) in Ez.
        apply E. apply (proj2 (int_keyed_key _ _ Fx Ky)).
        apply (cle_antisym cmp_key cmp_key_total).
        -- inversion Sx; auto.
        -- rewrite <- Ez. destruct Hz as [->|Hz]; [apply (cle_refl _ cmp_key_total)|].
           inversion Sl as [|? ? _ Sy]; subst. rewrite Forall_forall in Sy. now apply Sy.
      * destruct (IH H) as (a & b & Eq & Hb). exists (x :: a), b. rewrite Eq. auto.
Qed.

(** Stability: equal keys keep their original order. *)
Definition stable_contract (lexsort : list (list cell) -> list nat) : Prop :=
  lexsort_contract lexsort /\
  forall keys k, filter (fun i => match cmp_key (nth i keys []) k with Eq => true | _ => false end) (lexsort keys)
               = filter (fun i => match cmp_key (nth i keys []) k with Eq => true | _ => false end) (seq 0 (length keys)).

(** Insertion sort is stable. *)
Lemma insert_by_filter (keys : list (list cell)) k x l :
  filter (fun i => match cmp_key (nth i keys []) k with Eq => true | _ => false end)
    (insert_by cmp_key (fun i => nth i keys []) x l)
  = filter (fun i => match cmp_key (nth i keys []) k with Eq => true | _ => false end) (x :: l).
Proof.
  induction l as [|y l IH]; [reflexivity|].
  cbn [insert_by]. destruct (cmp_key (nth x keys []) (nth y keys [])) eqn:C; try reflexivity.
  cbn [filter]. rewrite IH. cbn [filter].
  destruct (cmp_key (nth x keys []) k) eqn:C1; destruct (cmp_key (nth y keys []) k) eqn:C2; try reflexivity.
  apply (tc_eq _ cmp_key_total) in C1, C2. rewrite C1, C2, (tc_refl _ cmp_key_total) in C. discriminate.
Qed.
Lemma stable_lexsort_stable : stable_contract stable_lexsort.
Proof.
  split; [exact stable_lexsort_contract|]. intros keys k. unfold stable_lexsort.
  generalize (seq 0 (length keys)). induction l as [|x l IH]; [reflexivity|].
  cbn [sort_by fold_right]. fold (sort_by cmp_key (fun i => nth i keys []) l).
  rewrite insert_by_filter. cbn [filter]. now rewrite IH.
Qed.

(** With a stable sort, the rows of one key appear in insertion order. *)
Lemma filter_map_comm {A B} (f : A -> B) (p : B -> bool) l :
  filter p (map f l) = map f (filter (fun x => p (f x)) l).
Proof. induction l as [|x l IH]; cbn; [reflexivity|]. destruct (p (f x)); cbn; now rewrite IH. Qed.

Lemma filter_seq_nth {A} (l : list A) d p :
  map (fun i => nth i l d) (filter (fun i => p (nth i l d)) (seq 0 (length l))) = filter p l.
Proof.
  transitivity (filter p (map (fun i => nth i l d) (seq 0 (length l)))).
  - now rewrite filter_map_comm.
  - now rewrite map_nth_seq.
Qed.

Definition same_key (k : list cell) (r : Row) : bool :=
  match cmp_key (firstn 2 r) k with Eq => true | _ => false end.

Lemma stable_sorted_rows lexsort crows k :
  stable_contract lexsort ->
  filter (same_key k) (sorted_rows lexsort 2 crows) = filter (same_key k) crows.
Proof.
  intros [HC HS]. unfold sorted_rows. rewrite filter_map_comm.
  assert (E : forall i, nth i (map (firstn 2) crows) [] = firstn 2 (nth i crows [])).
  { intros i. replace (@nil cell) with (firstn 2 (@nil cell)) at 1 by reflexivity. apply map_nth. }
  specialize (HS (map (firstn 2) crows) k).
  assert (E2 : forall l, filter (fun i => match cmp_key (nth i (map (firstn 2) crows) []) k with Eq => true | _ => false end) l
     = filter (fun i => same_key k (nth i crows [])) l).
  { intros l. apply filter_ext. intros i. unfold same_key. now rewrite E. }
  rewrite !E2 in HS.
  rewrite HS, map_length. apply filter_seq_nth.
Qed.

Lemma last_filter_split (p : Row -> bool) a r b :
  p r = true -> Forall (fun s => p s = false) b -> last (filter p (a ++ r :: b)) [] = r.
Proof.
  intros Hr Hb. rewrite filter_app. cbn [filter]. rewrite Hr.
  assert (filter p b = []) as ->.
  { induction Hb as [|s b Hs _ IH]; cbn; [reflexivity|]. now rewrite Hs. }
  apply last_last.
Qed.

Lemma keep_last_newest lexsort crows r :
  stable_contract lexsort -> Forall int_keyed crows ->
  In r (keep_last (sorted_rows lexsort 2 crows)) ->
  last (filter (same_key (firstn 2 r)) crows) [] = r.
Proof.
  intros HS F Hin.
  assert (F' : Forall int_keyed (sorted_rows lexsort 2 crows)).
  { rewrite (sorted_rows_perm lexsort (proj1 HS)). exact F. }
  destruct (keep_last_is_last _ _ F' (sorted_rows_sorted lexsort (proj1 HS) 2 crows) Hin)
    as (a & b & E & Hb).
  rewrite <- (stable_sorted_rows lexsort crows _ HS), E.
  apply last_filter_split.
  - unfold same_key. now rewrite (tc_refl _ cmp_key_total).
  - rewrite E in F'. apply Forall_app in F' as [_ F']. inversion F' as [|? ? Kr Kb]; subst.
    rewrite Forall_forall in *. intros s Hs. unfold same_key.
    destruct (cmp_key (firstn 2 s) (firstn 2 r)) eqn:C; try reflexivity.
    exfalso. apply (Hb s Hs). apply (proj2 (int_keyed_key _ _ (Kb s Hs) Kr)).
    now apply (tc_eq _ cmp_key_total).
Qed.
