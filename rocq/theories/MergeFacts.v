(** Facts about merging. *)
From Coq Require Import List NArith ZArith Lia Bool Sorted Permutation.
From Verif Require Import Bytes Value Log Order Memtable Merge ListFacts.
Import ListNotations.

Lemma zcmp_total : TotalCmp zcmp.
Proof. apply lex_total, Zcmp_total. Qed.
Lemma zle_iff a b : zle a b = true <-> cle zcmp a b.
Proof. unfold zle, cle. destruct (zcmp a b); split; congruence. Qed.
Lemma zle_false a b : zle a b = false -> clt zcmp b a.
Proof. intros H. apply (not_cle zcmp zcmp_total). unfold zle in H. destruct (zcmp a b); congruence. Qed.

Notation sortedk ic := (sorted_by zcmp (rkey ic)).

(** The promises of std's BinaryHeap that the merge uses. *)
Definition drain_contract (drain : list (nat * zkey) -> list (nat * zkey)) : Prop :=
  forall l, Permutation (drain l) l /\ sorted_by zcmp snd (drain l).
Record heap_contract (hpush : AChunk -> list AChunk -> list AChunk)
                     (hpop : list AChunk -> option (AChunk * list AChunk)) : Prop := {
  hc_push : forall c h, Permutation (hpush c h) (c :: h);
  hc_pop : forall h c h', hpop h = Some (c, h') ->
    Permutation h (c :: h') /\ Forall (fun d => cle zcmp (ac_min c) (ac_min d)) h';
  hc_pop_none : forall h, hpop h = None -> h = []
}.

(** ** Sorted lists *)
Lemma StronglySorted_app {A} (R : A -> A -> Prop) a b :
  StronglySorted R (a ++ b) <->
  StronglySorted R a /\ StronglySorted R b /\ (forall x y, In x a -> In y b -> R x y).
Proof.
  induction a as [|x a IH]; cbn.
  - split; [intros H; split; [constructor|split; [exact H|easy]]|tauto].
  - split.
    + intros H; inversion H as [|? ? H1 H2]; subst. apply IH in H1 as (Sa & Sb & C).
      apply Forall_app in H2 as [F1 F2]. split; [now constructor|split; [exact Sb|]].
      intros u v [<-|Hu] Hv; [rewrite Forall_forall in F2; auto|auto].
    + intros (Sa & Sb & C). inversion Sa as [|? ? H1 H2]; subst. constructor.
      * apply IH. split; [exact H1|split; [exact Sb|]]. auto.
      * apply Forall_app. split; [exact H2|]. apply Forall_forall. auto.
Qed.
Lemma StronglySorted_filter {A} (R : A -> A -> Prop) p l :
  StronglySorted R l -> StronglySorted R (filter p l).
Proof.
  induction 1 as [|x l H IH F]; cbn; [constructor|]. destruct (p x); [|exact IH].
  constructor; [exact IH|]. apply Forall_forall. intros y Hy. apply filter_In in Hy as [Hy _].
  rewrite Forall_forall in F. auto.
Qed.
Lemma sorted_perm_eq {K} (cmp : K -> K -> comparison) (T : TotalCmp cmp) (a b : list K) :
  StronglySorted (cle cmp) a -> StronglySorted (cle cmp) b -> Permutation a b -> a = b.
Proof.
  revert b. induction a as [|x a IH]; intros b Sa Sb P.
  - apply Permutation_nil in P. now subst.
  - destruct b as [|y b]; [symmetry in P; apply Permutation_nil in P; discriminate|].
    inversion Sa as [|? ? Sa' Fa]; inversion Sb as [|? ? Sb' Fb]; subst.
    assert (x = y).
    { apply (cle_antisym cmp T).
      - assert (In y (x :: a)) as [->|H] by (rewrite P; now left); [apply (cle_refl cmp T)|].
        rewrite Forall_forall in Fa. auto.
      - assert (In x (y :: b)) as [->|H] by (rewrite <- P; now left); [apply (cle_refl cmp T)|].
        rewrite Forall_forall in Fb. auto. }
    subst y. f_equal. apply IH; auto. now apply Permutation_cons_inv in P.
Qed.

Lemma StronglySorted_map_inv {A B} (f : A -> B) (R : B -> B -> Prop) l :
  StronglySorted R (map f l) -> StronglySorted (fun a b => R (f a) (f b)) l.
Proof.
  induction l as [|x l IH]; intros H; [constructor|]. inversion H as [|? ? H1 H2]; subst.
  constructor; [auto|]. rewrite Forall_map in H2. exact H2.
Qed.

(** ** Copying rows *)
Lemma pop_at_nth s x c' chunks :
  nth s chunks [] = x :: c' ->
  exists chunks', pop_at s chunks = Some (x, chunks') /\ nth s chunks' [] = c' /\
    (forall j, j <> s -> nth j chunks' [] = nth j chunks []) /\
    Permutation (concat chunks) (x :: concat chunks').
Proof.
  revert s. induction chunks as [|c r IH]; intros [|s]; cbn; try discriminate.
  - intros ->. exists (c' :: r). repeat split; auto. intros [|j] H; cbn; [lia|reflexivity].
  - intros H. destruct (IH s H) as (r' & -> & H1 & H2 & H3). exists (c :: r').
    split; [reflexivity|]. split; [exact H1|]. split.
    + intros [|j] Hj; cbn; [reflexivity|]. apply H2. lia.
    + cbn. rewrite H3. rewrite <- Permutation_middle. reflexivity.
Qed.
Lemma pop_at_perm s chunks x chunks' :
  pop_at s chunks = Some (x, chunks') -> Permutation (concat chunks) (x :: concat chunks').
Proof.
  revert s chunks'. induction chunks as [|c r IH]; intros [|s] chunks'; cbn; try discriminate.
  - destruct c as [|y c]; [discriminate|]. intros [= <- <-]. reflexivity.
  - destruct (pop_at s r) as [[y r']|] eqn:E; [|discriminate]. intros [= <- <-].
    cbn. rewrite (IH _ _ E). rewrite <- Permutation_middle. reflexivity.
Qed.
Lemma copy_rows_sub ro chunks out :
  copy_rows ro chunks = Some out -> exists rest, Permutation (out ++ rest) (concat chunks).
Proof.
  revert chunks out. induction ro as [|[i|] ro IH]; cbn; intros chunks out.
  - intros [= <-]. now exists (concat chunks).
  - destruct (pop_at i chunks) as [[x ch']|] eqn:E; [|discriminate].
    destruct (copy_rows ro ch') as [o|] eqn:E'; [|discriminate]. intros [= <-].
    destruct (IH _ _ E') as [rest P]. exists rest. cbn. rewrite P. symmetry. now apply (pop_at_perm i).
  - apply IH.
Qed.
Lemma copy_rows_length ro chunks out :
  copy_rows ro chunks = Some out -> length out <= length ro.
Proof.
  revert chunks out. induction ro as [|[i|] ro IH]; cbn; intros chunks out.
  - intros [= <-]. reflexivity.
  - destruct (pop_at i chunks) as [[x ch']|]; [|discriminate].
    destruct (copy_rows ro ch') as [o|] eqn:E'; [|discriminate]. intros [= <-].
    specialize (IH _ _ E'). cbn. lia.
  - intros H. specialize (IH _ _ H). lia.
Qed.
Lemma concat_all_nil {A} (l : list (list A)) : (forall i, nth i l [] = []) -> concat l = [].
Proof.
  induction l as [|x l IH]; intros H; [reflexivity|]. cbn.
  pose proof (H 0) as H0. cbn in H0. rewrite H0. apply IH. intros i. apply (H (S i)).
Qed.

Lemma copy_rows_ok ic (d : list (nat * zkey)) chunks :
  (forall i, map snd (filter (fun e => Nat.eqb (fst e) i) d) = map (rkey ic) (nth i chunks [])) ->
  exists out, copy_rows (map (fun e => Some (fst e)) d) chunks = Some out /\
    map (rkey ic) out = map snd d /\ Permutation out (concat chunks).
Proof.
  revert chunks. induction d as [|[s k] d IH]; intros chunks H.
  - exists []. repeat split. rewrite concat_all_nil; [reflexivity|]. intros i.
    specialize (H i). cbn in H. destruct (nth i chunks []); [reflexivity|discriminate].
  - pose proof (H s) as Hs. cbn in Hs. rewrite Nat.eqb_refl in Hs. cbn in Hs.
    destruct (nth s chunks []) as [|x c'] eqn:E; [discriminate|]. injection Hs as Hk Hs.
    destruct (pop_at_nth _ _ _ _ E) as (ch' & P & N1 & N2 & Pm).
    destruct (IH ch') as (out & Ho & Hk' & Hp).
    { intros i. destruct (Nat.eq_dec i s) as [->|Hi].
      - now rewrite N1.
      - rewrite N2 by exact Hi. rewrite <- (H i). cbn.
        destruct (Nat.eqb_spec s i); [congruence|reflexivity]. }
    exists (x :: out). cbn. rewrite P, Ho. cbn. repeat split; [now rewrite Hk', Hk|].
    rewrite Pm. now constructor.
Qed.

Lemma filter_map_fst_eq {A} (i j : nat) (f : A -> zkey) (l : list A) :
  filter (fun e : nat * zkey => Nat.eqb (fst e) i) (map (fun r => (j, f r)) l) =
  if Nat.eqb j i then map (fun r => (j, f r)) l else [].
Proof.
  induction l as [|x l IH]; cbn; [now destruct (Nat.eqb j i)|].
  rewrite IH. destruct (Nat.eqb j i); reflexivity.
Qed.
Lemma entries_filter ic chunks i :
  filter (fun e => Nat.eqb (fst e) i) (entries ic chunks) = map (fun r => (i, rkey ic r)) (nth i chunks []).
Proof.
  unfold entries.
  assert (G : forall off, filter (fun e : nat * zkey => Nat.eqb (fst e) (off + i))
     (concat (map (fun '(j, rows) => map (fun r => (j, rkey ic r)) rows)
              (combine (seq off (length chunks)) chunks)))
     = map (fun r => (off + i, rkey ic r)) (nth i chunks [])).
  { revert i. induction chunks as [|c r IH]; intros i off; [now destruct i|].
    cbn [length seq combine map concat]. rewrite filter_app, filter_map_fst_eq.
    destruct i as [|i].
    - rewrite Nat.add_0_r, Nat.eqb_refl. cbn [nth].
      assert (Z : forall (l : list (list Row)) o, off < o ->
        filter (fun e : nat * zkey => Nat.eqb (fst e) off)
         (concat (map (fun '(j, rows) => map (fun r => (j, rkey ic r)) rows) (combine (seq o (length l)) l))) = []).
      { induction l as [|y l IHl]; intros o Ho; [reflexivity|].
        cbn [length seq combine map concat]. rewrite filter_app, filter_map_fst_eq.
        destruct (Nat.eqb_spec o off); [lia|]. cbn. apply IHl. lia. }
      rewrite Z by lia. now rewrite app_nil_r.
    - destruct (Nat.eqb_spec off (off + S i)); [lia|]. cbn [nth app].
      specialize (IH i (S off)). replace (S off + i) with (off + S i) in IH by lia. exact IH. }
  apply (G 0).
Qed.

Lemma reorder_append ic d : reorder_of ic false d = map (fun e => Some (fst e)) d.
Proof. induction d as [|[s k] d IH]; cbn; [reflexivity|now rewrite IH]. Qed.
Lemma reorder_length ic b d : length (reorder_of ic b d) = length d.
Proof. induction d as [|[s k] d IH]; cbn; [reflexivity|now rewrite IH]. Qed.

Lemma entries_keys ic chunks : map snd (entries ic chunks) = map (rkey ic) (concat chunks).
Proof.
  unfold entries. generalize 0. induction chunks as [|c r IH]; intros off; [reflexivity|].
  cbn [length seq combine map concat]. rewrite !map_app, IH. f_equal. rewrite map_map. reflexivity.
Qed.

(** Copying in drained order merges sorted chunks. *)
Lemma merge_rows_ok ic drain chunks :
  drain_contract drain -> Forall (sortedk ic) chunks ->
  exists out, copy_rows (reorder_of ic false (drain (entries ic chunks))) chunks = Some out /\
    sortedk ic out /\ Permutation out (concat chunks).
Proof.
  intros D S. destruct (D (entries ic chunks)) as [P Sd]. rewrite reorder_append.
  destruct (copy_rows_ok ic (drain (entries ic chunks)) chunks) as (out & H1 & H2 & H3).
  - intros i. apply (sorted_perm_eq zcmp zcmp_total).
    + apply (StronglySorted_map snd (cle zcmp)). now apply StronglySorted_filter.
    + apply (StronglySorted_map (rkey ic) (cle zcmp)).
      destruct (nth_in_or_default i chunks []) as [H| ->]; [|constructor].
      rewrite Forall_forall in S. now apply S.
    + rewrite (Permutation_map snd (Permutation_filter _ _ _ P)), entries_filter, map_map. reflexivity.
  - exists out. split; [exact H1|split; [|exact H3]].
    apply (StronglySorted_map_inv (rkey ic) (cle zcmp)). rewrite H2.
    now apply (StronglySorted_map snd (cle zcmp)).
Qed.

(** ** Slicing *)
Lemma skipn_skipn_ {A} a b (l : list A) : skipn a (skipn b l) = skipn (b + a) l.
Proof.
  revert l. induction b as [|b IH]; intros l; [reflexivity|]. destruct l; cbn; [now destruct a|apply IH].
Qed.
Lemma slices_ok array_size (rows : list Row) n fuel : 1 <= array_size ->
  forall i, n - i <= fuel -> i <= length rows -> length rows <= n ->
  forall cs, slices array_size fuel i n (length rows - i) rows = Some cs -> concat cs = skipn i rows.
Proof.
  intros Ha. induction fuel as [|f IH]; intros i Hf Hi Hn cs; cbn [slices].
  - intros [= <-]. cbn. symmetry. apply skipn_all2. lia.
  - destruct (Nat.ltb_spec i n) as [Hlt|Hge].
    2:{ intros [= <-]. cbn. symmetry. apply skipn_all2. lia. }
    destruct (Nat.ltb_spec (length rows) (i + Nat.min array_size (length rows - i))) as [?|Hk]; [discriminate|].
    destruct (Nat.le_gt_cases array_size (length rows - i)) as [Hc|Hc].
    + rewrite Nat.min_l by lia.
      replace (length rows - i - array_size) with (length rows - (i + array_size)) by lia.
      destruct (slices array_size f (i + array_size) n _ rows) as [cs'|] eqn:E; [|discriminate].
      intros [= <-]. cbn [concat]. rewrite (IH (i + array_size)) with (cs := cs'); [|lia|lia|lia|exact E].
      rewrite <- (firstn_skipn array_size (skipn i rows)) at 2. f_equal.
      now rewrite skipn_skipn_.
    + rewrite Nat.min_r by lia. rewrite Nat.sub_diag.
      destruct (slices array_size f (i + array_size) n 0 rows) as [cs'|] eqn:E; [|discriminate].
      intros [= <-]. cbn [concat].
      assert (cs' = []).
      { destruct f; cbn [slices] in E; [congruence|]. destruct (Nat.ltb_spec (i + array_size) n); [|congruence].
        rewrite Nat.min_0_r in E. destruct (Nat.ltb_spec (length rows) (i + array_size + 0)); [discriminate|lia]. }
      subst. cbn. rewrite app_nil_r. rewrite firstn_all2; [reflexivity|]. rewrite skipn_length. lia.
Qed.
Lemma slices_total array_size (rows : list Row) fuel : 1 <= array_size ->
  forall i, i <= length rows + array_size - 1 ->
  exists cs, slices array_size fuel i (length rows) (length rows - i) rows = Some cs.
Proof.
  intros Ha. induction fuel as [|f IH]; intros i Hi; cbn [slices]; [eauto|].
  destruct (Nat.ltb_spec i (length rows)) as [Hlt|Hge]; [|eauto].
  destruct (Nat.ltb_spec (length rows) (i + Nat.min array_size (length rows - i))) as [Hk|Hk]; [lia|].
  destruct (IH (i + array_size)) as [cs H]; [lia|].
  replace (length rows - i - Nat.min array_size (length rows - i)) with (length rows - (i + array_size)) by lia.
  rewrite H. cbn. eauto.
Qed.
Lemma sliced_concat array_size n rows cs :
  length rows <= n -> sliced array_size n rows = Some cs -> concat cs = rows.
Proof.
  unfold sliced. intros Hn. destruct (Nat.eqb_spec array_size 0); [discriminate|].
  intros H. rewrite <- (Nat.sub_0_r (length rows)) in H.
  apply slices_ok in H; try lia. now rewrite skipn_O in H.
Qed.
Lemma sliced_total array_size rows : array_size <> 0 ->
  exists cs, sliced array_size (length rows) rows = Some cs.
Proof.
  intros H. unfold sliced. destruct (Nat.eqb_spec array_size 0); [congruence|].
  destruct (slices_total array_size rows (length rows) ltac:(lia) 0 ltac:(lia)) as [cs E].
  rewrite Nat.sub_0_r in E. eauto.
Qed.

(** ** The iterator *)
Section Iter.
Variable dts : list DType.
Variable ic : nat.
Variable array_size : nat.
Variable drain : list (nat * zkey) -> list (nat * zkey).
Variable hpush : AChunk -> list AChunk -> list AChunk.
Variable hpop : list AChunk -> option (AChunk * list AChunk).
Hypothesis HD : drain_contract drain.
Hypothesis HH : heap_contract hpush hpop.
Notation st_t := (list AChunk * list (list (list Row)))%type.

Definition remaining (st : st_t) : list Row :=
  concat (map ac_rows (fst st)) ++ concat (map (@concat Row) (snd st)).

Lemma nth_upd (streams : list (list (list Row))) s j :
  nth j (map (fun '(i, l) => if Nat.eqb i s then tl l else l) (combine (seq 0 (length streams)) streams)) [] =
  if Nat.eqb j s then tl (nth s streams []) else nth j streams [].
Proof.
  assert (G : forall off j, nth j (map (fun '(i, l) => if Nat.eqb i s then tl l else l)
     (combine (seq off (length streams)) streams)) [] =
     if Nat.eqb (off + j) s then tl (nth j streams []) else nth j streams []).
  { induction streams as [|x l IH]; intros off k; [now destruct k, (Nat.eqb _ s)|].
    cbn [length seq combine map]. destruct k as [|k]; cbn [nth].
    - now rewrite Nat.add_0_r.
    - rewrite IH. replace (S off + k) with (off + S k) by lia. reflexivity. }
  rewrite G. cbn. destruct (Nat.eqb_spec j s) as [->|]; reflexivity.
Qed.
Lemma upd_concat (streams : list (list (list Row))) s c r :
  nth s streams [] = c :: r ->
  Permutation (concat (map (@concat Row) streams))
    (c ++ concat (map (@concat Row) (map (fun '(i, l) => if Nat.eqb i s then tl l else l)
                       (combine (seq 0 (length streams)) streams)))) /\
  list_sum (map (@length _) streams) =
  S (list_sum (map (@length _) (map (fun '(i, l) => if Nat.eqb i s then tl l else l)
                       (combine (seq 0 (length streams)) streams)))).
Proof.
  assert (Id : forall (l : list (list (list Row))) off, s < off ->
    map (fun '(i, l) => if Nat.eqb i s then tl l else l) (combine (seq off (length l)) l) = l).
  { induction l as [|x l IH]; intros off Ho; [reflexivity|]. cbn [length seq combine map].
    rewrite IH by lia. destruct (Nat.eqb_spec off s); [lia|reflexivity]. }
  assert (G : forall (l : list (list (list Row))) off j, off + j = s -> nth j l [] = c :: r ->
    Permutation (concat (map (@concat Row) l))
    (c ++ concat (map (@concat Row) (map (fun '(i, l) => if Nat.eqb i s then tl l else l)
                       (combine (seq off (length l)) l)))) /\
    list_sum (map (@length _) l) =
    S (list_sum (map (@length _) (map (fun '(i, l) => if Nat.eqb i s then tl l else l)
                       (combine (seq off (length l)) l))))).
  { induction l as [|x l IH]; intros off j Hj Hn; [destruct j; discriminate|].
    cbn [length seq combine map concat]. destruct j as [|j]; cbn in Hn.
    - subst x. rewrite Nat.add_0_r in Hj. subst off. rewrite Nat.eqb_refl. cbn [tl concat length map list_sum fold_right].
      rewrite Id by lia. split; [now rewrite app_assoc|reflexivity].
    - destruct (Nat.eqb_spec off s); [lia|].
      destruct (IH (S off) j) as [P L]; [lia|exact Hn|]. split.
      + rewrite P. rewrite !app_assoc. apply Permutation_app_tail. apply Permutation_app_comm.
      + change (list_sum (?a :: ?b)) with (a + list_sum b). cbn [map list_sum fold_right] in *.
        unfold list_sum in *. lia. }
  intros H. apply (G streams 0 s eq_refl H).
Qed.

Lemma refill_remaining (st : st_t) s : Permutation (remaining (refill ic hpush st s)) (remaining st).
Proof.
  destruct st as [heap streams]. unfold refill, remaining.
  destruct (nth s streams []) as [|c r] eqn:E; [reflexivity|]. cbn [fst snd].
  rewrite (Permutation_map ac_rows (hc_push _ _ HH _ _)). cbn [map concat].
  rewrite (proj1 (upd_concat _ _ _ _ E)). cbn [ac_rows mk_chunk].
  rewrite !app_assoc. apply Permutation_app_tail. apply Permutation_app_comm.
Qed.
Lemma refill_left (st : st_t) s : chunks_left (refill ic hpush st s) = chunks_left st.
Proof.
  destruct st as [heap streams]. unfold refill, chunks_left.
  destruct (nth s streams []) as [|c r] eqn:E; [reflexivity|]. cbn [fst snd].
  rewrite (Permutation_length (hc_push _ _ HH _ _)). rewrite (proj2 (upd_concat _ _ _ _ E)). cbn [length]. lia.
Qed.

Lemma pop_remaining heap streams c heap' :
  hpop heap = Some (c, heap') ->
  Permutation (remaining (heap, streams)) (ac_rows c ++ remaining (heap', streams)) /\
  chunks_left (heap, streams) = S (chunks_left (heap', streams)).
Proof.
  intros H. destruct (hc_pop _ _ HH _ _ _ H) as [P _]. unfold remaining, chunks_left. cbn [fst snd].
  rewrite (Permutation_map ac_rows P), (Permutation_length P). cbn. rewrite <- app_assoc. split; reflexivity.
Qed.

Section AnyKind.
Variable replacing : bool.
Lemma gather_remaining fuel queue (st : st_t) q' st' :
  gather ic replacing hpush hpop fuel queue st = (q', st') ->
  Permutation (concat (map ac_rows q') ++ remaining st') (concat (map ac_rows queue) ++ remaining st) /\
  length q' + chunks_left st' = length queue + chunks_left st /\ exists q2, q' = queue ++ q2.
Proof.
  revert queue st. induction fuel as [|f IH]; intros queue st; cbn [gather].
  - intros [= <- <-]. split; [reflexivity|split; [reflexivity|]]. exists []. now rewrite app_nil_r.
  - destruct (hpop (fst st)) as [[next heap']|] eqn:E.
    2:{ intros [= <- <-]. split; [reflexivity|split; [reflexivity|]]. exists []. now rewrite app_nil_r. }
    destruct (check_intersection ic replacing queue next).
    2:{ intros [= <- <-]. split; [reflexivity|split; [reflexivity|]]. exists []. now rewrite app_nil_r. }
    intros H. destruct (IH _ _ H) as (P & L & q2 & Hq).
    destruct st as [heap streams]. cbn [fst snd] in *.
    destruct (pop_remaining _ streams _ _ E) as [P1 L1]. split; [|split].
    + rewrite P, refill_remaining, P1. rewrite map_app, concat_app. cbn. rewrite app_nil_r, <- app_assoc. reflexivity.
    + rewrite refill_left in L. rewrite app_length in L. cbn [length] in L. lia.
    + exists (next :: q2). rewrite Hq, <- app_assoc. reflexivity.
Qed.

Lemma merge_queue_sub queue cs :
  merge_queue dts ic replacing array_size drain queue = Ok cs ->
  exists rest, Permutation (concat cs ++ rest) (concat (map ac_rows queue)).
Proof.
  unfold merge_queue. destruct (merge_chunks dts ic replacing drain (map ac_rows queue)) as [ro|] eqn:E; [|discriminate].
  destruct (copy_rows ro (map ac_rows queue)) as [rows|] eqn:C; [|discriminate].
  destruct (sliced array_size (length ro) rows) as [cs'|] eqn:Sl; [|discriminate]. intros [= <-].
  rewrite (sliced_concat _ _ _ _ (copy_rows_length _ _ _ C) Sl). now apply copy_rows_sub in C.
Qed.

(** No scan returns a row more often than it is stored. *)
Lemma drain_all_sub fuel (st : st_t) out e :
  drain_all dts ic replacing array_size drain hpush hpop fuel st = (out, e) ->
  exists rest, Permutation (concat out ++ rest) (remaining st).
Proof.
  revert st out e. induction fuel as [|f IH]; intros st out e; cbn [drain_all].
  - intros [= <- <-]. now exists (remaining st).
  - destruct (hpop (fst st)) as [[first heap']|] eqn:E.
    2:{ intros [= <- <-]. now exists (remaining st). }
    set (st1 := refill ic hpush (heap', snd st) (ac_stream first)).
    destruct (gather ic replacing hpush hpop (chunks_left st1) [first] st1) as [queue st2] eqn:G.
    destruct (gather_remaining _ _ _ _ _ G) as (P & _ & _).
    destruct st as [heap streams]. cbn [fst snd] in *.
    destruct (pop_remaining _ streams _ _ E) as [P1 _].
    assert (PA : Permutation (concat (map ac_rows queue) ++ remaining st2) (remaining (heap, streams))).
    { rewrite P, P1. unfold st1. rewrite refill_remaining. cbn. now rewrite app_nil_r. }
    assert (K : forall cs, (exists rest, Permutation (concat cs ++ rest) (concat (map ac_rows queue))) ->
      (let '(out0, e0) := drain_all dts ic replacing array_size drain hpush hpop f st2 in (cs ++ out0, e0)) = (out, e) ->
      exists rest, Permutation (concat out ++ rest) (remaining (heap, streams))).
    { intros cs [r1 Pr] H. destruct (drain_all dts ic replacing array_size drain hpush hpop f st2) as [o e'] eqn:Dr.
      injection H as <- <-. destruct (IH _ _ _ Dr) as [r2 P2]. exists (r1 ++ r2).
      rewrite <- PA, <- Pr, <- P2, concat_app. rewrite <- !app_assoc. apply Permutation_app_head.
      rewrite !app_assoc. apply Permutation_app_tail. apply Permutation_app_comm. }
    assert (M : (match merge_queue dts ic replacing array_size drain queue with
             | Err Panic => ([], Panicked)
             | Err _ => ([], Stopped)
             | Ok cs => let '(out, e) := drain_all dts ic replacing array_size drain hpush hpop f st2 in (cs ++ out, e)
             end) = (out, e) -> exists rest, Permutation (concat out ++ rest) (remaining (heap, streams))).
    { destruct (merge_queue dts ic replacing array_size drain queue) as [cs|er] eqn:MQ.
      - intros H. eapply (K cs); [|exact H]. eapply merge_queue_sub; eauto.
      - intros H. assert (out = []) by (destruct er; congruence). subst. now exists (remaining (heap, streams)). }
    destruct queue as [|c [|c2 q]]; [exact M| |exact M].
    intros H. apply (K [ac_rows c]); [|exact H]. exists []. cbn. now rewrite app_nil_r.
Qed.
Lemma init_remaining streams :
  Permutation (remaining (merge_init ic hpush streams)) (concat (map (@concat Row) streams)).
Proof.
  unfold merge_init. set (st := ([] : list AChunk, streams)).
  change (concat (map (@concat Row) streams)) with (remaining st).
  generalize (seq 0 (length streams)) as l. generalize st. clear st.
  intros st l. revert st. induction l as [|s l IH]; intros st; cbn; [reflexivity|].
  rewrite IH. apply refill_remaining.
Qed.
End AnyKind.

(** ** Append-only tables *)
Definition chunk_ok (c : AChunk) : Prop :=
  ac_rows c <> [] /\ ac_min c = rkey ic (hd [] (ac_rows c)) /\
  ac_max c = rkey ic (last (ac_rows c) []) /\ sortedk ic (ac_rows c).
Record WF (n : nat) (st : st_t) : Prop := {
  wf_chunk : forall c, In c (fst st) -> chunk_ok c;
  wf_next : forall c, In c (fst st) -> sortedk ic (ac_rows c ++ concat (nth (ac_stream c) (snd st) []));
  wf_cover : forall s, s < n -> nth s (snd st) [] <> [] -> exists c, In c (fst st) /\ ac_stream c = s;
  wf_rest : forall s, sortedk ic (concat (nth s (snd st) []));
  wf_ne : forall s, Forall (fun ch => ch <> []) (nth s (snd st) [])
}.

Lemma rkey_length r : length (rkey ic r) <= ic.
Proof. unfold rkey. rewrite map_length. apply firstn_le_length. Qed.
Lemma chunk_min_len c : chunk_ok c -> firstn ic (ac_min c) = ac_min c /\ firstn ic (ac_max c) = ac_max c.
Proof. intros (_ & -> & -> & _). split; apply firstn_all2, rkey_length. Qed.

Lemma sorted_hd (rows : list Row) r : sortedk ic rows -> In r rows -> cle zcmp (rkey ic (hd [] rows)) (rkey ic r).
Proof.
  intros H; inversion H as [|x l Hs Hf]; subst; [easy|]. intros [->|Hi]; cbn; [apply (cle_refl _ zcmp_total)|].
  rewrite Forall_forall in Hf. auto.
Qed.
Lemma sorted_last (rows : list Row) r : sortedk ic rows -> In r rows -> cle zcmp (rkey ic r) (rkey ic (last rows [])).
Proof.
  induction 1 as [|x l Hs IH Hf]; [easy|]. destruct l as [|y l].
  - intros [->|[]]. cbn. apply (cle_refl _ zcmp_total).
  - change (last (x :: y :: l) []) with (last (y :: l) []). intros [->|Hi]; [|auto].
    rewrite Forall_forall in Hf. apply Hf.
    destruct (exists_last (l := y :: l)) as (l' & z & ->); [discriminate|].
    rewrite last_last. apply in_or_app. right. now left.
Qed.
Lemma chunk_le c : chunk_ok c -> cle zcmp (ac_min c) (ac_max c).
Proof.
  intros (N & -> & -> & Hs). apply sorted_last; [exact Hs|]. destruct (ac_rows c); [easy|now left].
Qed.
Lemma mk_chunk_ok s rows : rows <> [] -> sortedk ic rows -> chunk_ok (mk_chunk ic s rows).
Proof. intros N Hs. now repeat split. Qed.

(** Every remaining row is at or above the smallest chunk in the heap. *)
Lemma remaining_ge n (st : st_t) b r : WF n st -> length (snd st) <= n ->
  (forall c, In c (fst st) -> cle zcmp b (ac_min c)) -> In r (remaining st) -> cle zcmp b (rkey ic r).
Proof.
  intros W Hn Hb Hi. unfold remaining in Hi. apply in_app_or in Hi as [Hi|Hi].
  - apply in_concat in Hi as (rows & H1 & H2). apply in_map_iff in H1 as (c & <- & Hc).
    eapply (cle_trans _ zcmp_total); [apply Hb, Hc|].
    destruct (wf_chunk _ _ W _ Hc) as (_ & -> & _ & Hs). now apply sorted_hd.
  - apply in_concat in Hi as (rows & H1 & H2). apply in_map_iff in H1 as (str & <- & Hs).
    apply In_nth with (d := []) in Hs as (s & Hlt & <-).
    destruct (wf_cover _ _ W s) as (c & Hc & <-); [lia| |].
    { intros E. rewrite E in H2. easy. }
    eapply (cle_trans _ zcmp_total); [apply Hb, Hc|].
    destruct (wf_chunk _ _ W _ Hc) as (Hne & -> & _ & _).
    pose proof (wf_next _ _ W _ Hc) as Hst. apply StronglySorted_app in Hst as (_ & _ & C).
    apply C; [|exact H2]. destruct (ac_rows c); [easy|now left].
Qed.

(** Taking the next chunk of a stream. *)
Lemma refill_WF n (st : st_t) s b :
  (forall c, In c (fst st) -> chunk_ok c) ->
  (forall c, In c (fst st) -> sortedk ic (ac_rows c ++ concat (nth (ac_stream c) (snd st) []))) ->
  (forall s', s' < n -> s' <> s -> nth s' (snd st) [] <> [] -> exists c, In c (fst st) /\ ac_stream c = s') ->
  (forall s, sortedk ic (concat (nth s (snd st) []))) ->
  (forall s, Forall (fun ch => ch <> []) (nth s (snd st) [])) ->
  (forall c, In c (fst st) -> cle zcmp b (ac_min c)) ->
  (forall r, In r (concat (nth s (snd st) [])) -> cle zcmp b (rkey ic r)) ->
  WF n (refill ic hpush st s) /\
  (forall c, In c (fst (refill ic hpush st s)) -> cle zcmp b (ac_min c)) /\
  length (snd (refill ic hpush st s)) = length (snd st).
Proof.
  destruct st as [heap streams]. cbn [fst snd]. intros H1 H2 H3 H4 H5 Hb Hr. unfold refill.
  destruct (nth s streams []) as [|c rest] eqn:E; cbn [fst snd].
  - split; [|now split]. split; cbn [fst snd]; auto.
    intros s' Hs' Hne. apply H3; auto. congruence.
  - pose proof (hc_push _ _ HH (mk_chunk ic s c) heap) as P.
    assert (Hc : c <> []). { specialize (H5 s). rewrite E in H5. now inversion H5. }
    assert (Sc : sortedk ic (c ++ concat rest)). { specialize (H4 s). now rewrite E in H4. }
    split; [split; cbn [fst snd]|split].
    + intros d Hd. rewrite P in Hd. destruct Hd as [<-|Hd]; [|auto].
      apply mk_chunk_ok; [exact Hc|]. now apply StronglySorted_app in Sc.
    + intros d Hd. rewrite nth_upd. rewrite P in Hd. destruct Hd as [<-|Hd].
      * cbn [ac_stream mk_chunk ac_rows]. rewrite Nat.eqb_refl, E. exact Sc.
      * specialize (H2 d Hd). destruct (Nat.eqb_spec (ac_stream d) s) as [Hs|]; [|exact H2].
        rewrite Hs in H2. rewrite E in *. cbn [tl] in *. cbn [concat] in H2.
        apply StronglySorted_app in H2 as (A1 & A2 & A3). apply StronglySorted_app in A2 as (A4 & A5 & A6).
        apply StronglySorted_app. split; [exact A1|split; [exact A5|]].
        intros x y Hx Hy. apply A3; [exact Hx|]. apply in_or_app. now right.
    + intros s' Hs'. rewrite nth_upd. destruct (Nat.eqb_spec s' s) as [->|Hd].
      * intros _. exists (mk_chunk ic s c). split; [rewrite P; now left|reflexivity].
      * intros Hne. destruct (H3 s' Hs' Hd Hne) as (d & Hd1 & Hd2). exists d. split; [|exact Hd2].
        rewrite P. now right.
    + intros s'. rewrite nth_upd. destruct (Nat.eqb_spec s' s) as [->|]; [|auto].
      rewrite E. cbn [tl]. now apply StronglySorted_app in Sc.
    + intros s'. rewrite nth_upd. destruct (Nat.eqb_spec s' s) as [->|]; [|auto].
      rewrite E. cbn [tl]. specialize (H5 s). rewrite E in H5. now inversion H5.
    + intros d Hd. rewrite P in Hd. destruct Hd as [<-|Hd]; [|auto].
      cbn [ac_min mk_chunk]. apply Hr. cbn [concat]. apply in_or_app. left. destruct c; [easy|now left].
    + rewrite map_length, combine_length, seq_length. lia.
Qed.

(** Taking the smallest chunk and refilling from its stream. *)
Lemma pop_refill_WF n heap streams c heap' :
  WF n (heap, streams) -> hpop heap = Some (c, heap') ->
  WF n (refill ic hpush (heap', streams) (ac_stream c)) /\ chunk_ok c /\
  (forall d, In d (fst (refill ic hpush (heap', streams) (ac_stream c))) -> cle zcmp (ac_min c) (ac_min d)) /\
  length (snd (refill ic hpush (heap', streams) (ac_stream c))) = length streams.
Proof.
  intros W E. destruct (hc_pop _ _ HH _ _ _ E) as [P F]. rewrite Forall_forall in F.
  assert (Ic : In c heap) by (rewrite P; now left).
  assert (Ih : forall d, In d heap' -> In d heap) by (intros d Hd; rewrite P; now right).
  destruct (refill_WF n (heap', streams) (ac_stream c) (ac_min c)) as (R1 & R2 & R3); cbn [fst snd].
  - intros d Hd. apply (wf_chunk _ _ W). auto.
  - intros d Hd. apply (wf_next _ _ W). auto.
  - intros s' Hs' Hd Hne. destruct (wf_cover _ _ W s' Hs' Hne) as (d & Hd1 & Hd2). cbn [fst] in Hd1.
    rewrite P in Hd1. destruct Hd1 as [<-|Hd1]; [congruence|eauto].
  - apply (wf_rest _ _ W).
  - apply (wf_ne _ _ W).
  - exact F.
  - intros r Hr. destruct (wf_chunk _ _ W _ Ic) as (Hne & -> & _ & _).
    pose proof (wf_next _ _ W _ Ic) as Hst. apply StronglySorted_app in Hst as (_ & _ & C).
    apply C; [|exact Hr]. destruct (ac_rows c); [easy|now left].
  - split; [exact R1|split; [apply (wf_chunk _ _ W _ Ic)|split; [exact R2|exact R3]]].
Qed.

Lemma fold_max_ge l m :
  (forall c, In c l -> chunk_ok c) ->
  let mx := fold_left (fun m c => if zle m (ac_max c) then firstn ic (ac_max c) else m) l m in
  cle zcmp m mx /\ forall c, In c l -> cle zcmp (ac_max c) mx.
Proof.
  revert m. induction l as [|c l IH]; intros m Hok; cbn [fold_left].
  - split; [apply (cle_refl _ zcmp_total)|easy].
  - rewrite (proj2 (chunk_min_len c (Hok c (or_introl eq_refl)))).
    destruct (IH (if zle m (ac_max c) then ac_max c else m)) as [A B]; [intros; apply Hok; now right|].
    cbv zeta in *. destruct (zle m (ac_max c)) eqn:Z.
    + apply zle_iff in Z. split; [eapply (cle_trans _ zcmp_total); eauto|].
      intros d [<-|Hd]; [exact A|auto].
    + apply zle_false in Z. split; [exact A|].
      intros d [<-|Hd]; [|auto]. eapply (cle_trans _ zcmp_total); [apply clt_le; exact Z|exact A].
Qed.
Lemma fold_min_le l m :
  (forall c, In c l -> chunk_ok c) ->
  cle zcmp (fold_left (fun m c => if zle (ac_min c) m then firstn ic (ac_min c) else m) l m) m.
Proof.
  revert m. induction l as [|c l IH]; intros m Hok; cbn [fold_left]; [apply (cle_refl _ zcmp_total)|].
  rewrite (proj1 (chunk_min_len c (Hok c (or_introl eq_refl)))).
  eapply (cle_trans _ zcmp_total); [apply IH; intros; apply Hok; now right|].
  destruct (zle (ac_min c) m) eqn:Z; [now apply zle_iff|apply (cle_refl _ zcmp_total)].
Qed.

Lemma check_false first rest other :
  (forall c, In c (first :: rest) -> chunk_ok c) -> chunk_ok other ->
  cle zcmp (ac_min first) (ac_min other) ->
  check_intersection ic false (first :: rest) other = false ->
  forall c, In c (first :: rest) -> clt zcmp (ac_max c) (ac_min other).
Proof.
  intros Hq Ho Hle. unfold check_intersection. cbv zeta.
  destruct (chunk_min_len _ (Hq first (or_introl eq_refl))) as [-> ->].
  destruct (chunk_min_len _ Ho) as [-> ->].
  assert (Hr : forall c, In c rest -> chunk_ok c) by (intros; apply Hq; now right).
  pose proof (fold_min_le rest (ac_min first) Hr) as Mn.
  destruct (fold_max_ge rest (ac_max first) Hr) as [Mx1 Mx2]. cbv zeta in *.
  intros H. apply andb_false_iff in H as [H|H].
  - exfalso. apply zle_false in H. revert H. intros H. apply (clt_not_le _ zcmp_total) in H. apply H.
    eapply (cle_trans _ zcmp_total); [exact Mn|]. eapply (cle_trans _ zcmp_total); [exact Hle|]. now apply chunk_le.
  - apply zle_false in H. intros c [<-|Hc]; eapply (cle_lt_trans _ zcmp_total); eauto.
Qed.

Lemma gather_WF n fuel first rest (st : st_t) q' st' :
  WF n st -> length (snd st) <= n -> chunks_left st <= fuel ->
  (forall c, In c (first :: rest) -> chunk_ok c) ->
  (forall c, In c (fst st) -> cle zcmp (ac_min first) (ac_min c)) ->
  gather ic false hpush hpop fuel (first :: rest) st = (q', st') ->
  WF n st' /\ length (snd st') <= n /\ (forall c, In c q' -> chunk_ok c) /\
  (forall c d, In c q' -> In d (fst st') -> clt zcmp (ac_max c) (ac_min d)).
Proof.
  revert rest st. induction fuel as [|f IH]; intros rest st W Hn Hf Hq Hlo; cbn [gather].
  - intros [= <- <-]. split; [exact W|split; [exact Hn|split; [exact Hq|]]]. intros c d _ Hd. exfalso.
    unfold chunks_left in Hf. destruct (fst st); [easy|cbn in Hf; lia].
  - destruct (hpop (fst st)) as [[next heap']|] eqn:E.
    2:{ intros [= <- <-]. split; [exact W|split; [exact Hn|split; [exact Hq|]]]. apply (hc_pop_none _ _ HH) in E. rewrite E. easy. }
    destruct st as [heap streams]. cbn [fst snd] in *.
    destruct (pop_refill_WF _ _ _ _ _ W E) as (W' & Hok & Hmin & Hl).
    destruct (hc_pop _ _ HH _ _ _ E) as [P F]. rewrite Forall_forall in F.
    assert (Lo : cle zcmp (ac_min first) (ac_min next)) by (apply Hlo; rewrite P; now left).
    destruct (check_intersection ic false (first :: rest) next) eqn:C.
    + intros H. cbn [app] in H. eapply IH in H; eauto.
      * lia.
      * rewrite refill_left. destruct (pop_remaining _ streams _ _ E) as [_ L]. lia.
      * intros c Hc. change (In c ((first :: rest) ++ [next])) in Hc. apply in_app_or in Hc as [Hc|[<-|[]]]; auto.
      * intros c Hc. eapply (cle_trans _ zcmp_total); [exact Lo|]. auto.
    + intros [= <- <-]. cbn [fst snd]. split; [exact W|split; [exact Hn|split; [exact Hq|]]].
      intros c d Hc Hd. pose proof (check_false _ _ _ Hq Hok Lo C c Hc) as Hlt.
      rewrite P in Hd. destruct Hd as [<-|Hd]; [exact Hlt|].
      eapply (clt_le_trans _ zcmp_total); [exact Hlt|auto].
Qed.

(** The key types for which [merge_chunks] is implemented. *)
Definition merge_supported : Prop :=
  (ic = 1 /\ exists r, dts = DInt64 :: r) \/
  (ic = 2 /\ exists d r, dts = DInt64 :: d :: r /\ is_i64 d = true).

Lemma merge_queue_ok queue : merge_supported -> array_size <> 0 ->
  (forall c, In c queue -> chunk_ok c) ->
  exists cs, merge_queue dts ic false array_size drain queue = Ok cs /\
    sortedk ic (concat cs) /\ Permutation (concat cs) (concat (map ac_rows queue)).
Proof.
  intros Sup Ha Hq. unfold merge_queue.
  assert (merge_chunks dts ic false drain (map ac_rows queue)
          = Ok (reorder_of ic false (drain (entries ic (map ac_rows queue))))) as ->.
  { unfold merge_chunks. destruct Sup as [(-> & r & ->)|(-> & d & r & -> & B)]; [reflexivity|]. now rewrite B. }
  destruct (merge_rows_ok ic drain (map ac_rows queue) HD) as (out & -> & So & Po).
  { apply Forall_forall. intros rows Hr. apply in_map_iff in Hr as (c & <- & Hc).
    apply (Hq c Hc). }
  rewrite reorder_length.
  destruct (HD (entries ic (map ac_rows queue))) as [Pd _].
  assert (L : length (drain (entries ic (map ac_rows queue))) = length out).
  { rewrite (Permutation_length Pd), (Permutation_length Po).
    rewrite <- (map_length snd), entries_keys, map_length. reflexivity. }
  rewrite L. destruct (sliced_total array_size out Ha) as [cs Hc]. rewrite Hc.
  exists cs. pose proof (sliced_concat _ _ _ _ (le_n _) Hc) as ->. now repeat split.
Qed.

Lemma remaining_empty n (st : st_t) : WF n st -> length (snd st) <= n -> fst st = [] -> remaining st = [].
Proof.
  intros W Hn E. unfold remaining. rewrite E. cbn. apply concat_all_nil. intros i.
  destruct (Nat.lt_ge_cases i (length (snd st))) as [Hi|Hi].
  - change (@nil Row) with (@concat Row []). rewrite map_nth.
    destruct (nth i (snd st) []) as [|c r] eqn:En; [reflexivity|].
    destruct (wf_cover _ _ W i ltac:(lia)) as (d & Hd & _); [congruence|]. rewrite E in Hd. easy.
  - apply nth_overflow. now rewrite map_length.
Qed.

Lemma drain_all_append n fuel (st : st_t) : merge_supported -> array_size <> 0 ->
  WF n st -> length (snd st) <= n -> chunks_left st <= fuel ->
  exists out, drain_all dts ic false array_size drain hpush hpop fuel st = (out, Done) /\
    Permutation (concat out) (remaining st) /\ sortedk ic (concat out).
Proof.
  intros Sup Ha. revert st. induction fuel as [|f IH]; intros st W Hn Hf; cbn [drain_all].
  - exists []. split; [reflexivity|]. split; [|constructor].
    rewrite (remaining_empty _ _ W Hn); [reflexivity|].
    unfold chunks_left in Hf. destruct (fst st); [reflexivity|cbn in Hf; lia].
  - destruct (hpop (fst st)) as [[first heap']|] eqn:E.
    2:{ exists []. split; [reflexivity|]. split; [|constructor].
        rewrite (remaining_empty _ _ W Hn); [reflexivity|]. now apply (hc_pop_none _ _ HH). }
    destruct st as [heap streams]. cbn [fst snd] in *.
    set (st1 := refill ic hpush (heap', streams) (ac_stream first)).
    destruct (pop_refill_WF _ _ _ _ _ W E) as (W1 & Hok & Hmin & Hl). fold st1 in W1, Hmin, Hl.
    destruct (pop_remaining _ streams _ _ E) as [P1 L1].
    destruct (gather ic false hpush hpop (chunks_left st1) [first] st1) as [queue st2] eqn:G.
    destruct (gather_remaining _ _ _ _ _ _ G) as (P & L & q2 & Hq2).
    destruct (gather_WF n _ first [] st1 _ _ W1 ltac:(lia) (le_n _) ltac:(intros ? [<-|[]]; exact Hok) Hmin G)
      as (W2 & Hn2 & Hq & Hlt).
    assert (PA : Permutation (concat (map ac_rows queue) ++ remaining st2) (remaining (heap, streams))).
    { rewrite P, P1. unfold st1. rewrite refill_remaining. cbn. now rewrite app_nil_r. }
    destruct (IH st2 W2 Hn2) as (out2 & -> & P2 & S2).
    { assert (L' : chunks_left st1 = chunks_left (heap', streams)) by apply refill_left.
      rewrite Hq2 in L. rewrite app_length in L. cbn [length] in L. lia. }
    assert (Fin : forall cs, Permutation (concat cs) (concat (map ac_rows queue)) -> sortedk ic (concat cs) ->
      Permutation (concat (cs ++ out2)) (remaining (heap, streams)) /\ sortedk ic (concat (cs ++ out2))).
    { intros cs Pc Sc. rewrite concat_app. split; [now rewrite Pc, P2|].
      apply StronglySorted_app. split; [exact Sc|split; [exact S2|]]. intros x y Hx Hy.
      rewrite Pc in Hx. rewrite P2 in Hy. apply in_concat in Hx as (rows & H1 & H2).
      apply in_map_iff in H1 as (c & <- & Hc).
      destruct (Hq c Hc) as (_ & _ & Emax & Sc').
      eapply (cle_trans _ zcmp_total); [apply (sorted_last _ _ Sc' H2)|]. rewrite <- Emax.
      eapply (remaining_ge n st2); eauto. intros d Hd. apply clt_le. auto. }
    destruct queue as [|c [|c2 q]].
    + symmetry in Hq2. destruct q2; discriminate.
    + exists (ac_rows c :: out2). split; [reflexivity|]. apply (Fin [ac_rows c]).
      * cbn. reflexivity.
      * cbn. rewrite app_nil_r. apply (Hq c). now left.
    + destruct (merge_queue_ok (c :: c2 :: q) Sup Ha Hq) as (cs & -> & Sc & Pc).
      exists (cs ++ out2). split; [reflexivity|]. now apply Fin.
Qed.

Lemma init_WF streams :
  (forall s, sortedk ic (concat (nth s streams []))) ->
  (forall s, Forall (fun ch => ch <> []) (nth s streams [])) ->
  WF (length streams) (merge_init ic hpush streams) /\
  length (snd (merge_init ic hpush streams)) = length streams.
Proof.
  intros Hs Hne. unfold merge_init.
  assert (G : forall l n (st : st_t), WF n st -> length (snd st) = length streams ->
     l = seq n (length streams - n) -> n <= length streams ->
     WF (length streams) (fold_left (fun st s => refill ic hpush st s) l st) /\
     length (snd (fold_left (fun st s => refill ic hpush st s) l st)) = length streams).
  { induction l as [|s l IH]; intros n st W Hl El Hn.
    - cbn. assert (En : n = length streams).
      { destruct (length streams - n) eqn:D; [lia|discriminate]. } rewrite <- En. split; [exact W|lia].
    - cbn [fold_left]. destruct (length streams - n) as [|k] eqn:D; [discriminate|].
      cbn in El. injection El as -> El.
      destruct (refill_WF (S n) st n []) as (R1 & _ & R3).
      + apply W.
      + apply W.
      + intros s' H1 H2. apply (wf_cover _ _ W). lia.
      + apply W.
      + apply W.
      + intros c _. unfold cle. destruct (ac_min c); discriminate.
      + intros r _. unfold cle. destruct (rkey ic r); discriminate.
      + apply (IH (S n)); [exact R1|congruence| |lia]. rewrite El. f_equal. lia. }
  apply (G _ 0); cbn; [|reflexivity|now rewrite Nat.sub_0_r|lia].
  split; cbn; auto; easy.
Qed.

(** *** Any key types: a scan that ends normally has delivered everything *)
Lemma merge_queue_all queue cs :
  (forall c, In c queue -> chunk_ok c) ->
  merge_queue dts ic false array_size drain queue = Ok cs ->
  Permutation (concat cs) (concat (map ac_rows queue)).
Proof.
  intros Hq. unfold merge_queue.
  destruct (merge_chunks dts ic false drain (map ac_rows queue)) as [ro|] eqn:E; [|discriminate].
  assert (ro = reorder_of ic false (drain (entries ic (map ac_rows queue)))) as ->.
  { unfold merge_chunks in E. destruct ic as [|[|[|?]]]; try discriminate; destruct dts as [|[] ?]; try discriminate.
    - congruence.
    - destruct l; [discriminate|]. destruct (is_i64 d); congruence. }
  destruct (merge_rows_ok ic drain (map ac_rows queue) HD) as (out & -> & _ & Po).
  { apply Forall_forall. intros rows Hr. apply in_map_iff in Hr as (c & <- & Hc). apply (Hq c Hc). }
  destruct (sliced array_size _ out) as [cs'|] eqn:Sl; [|discriminate]. intros [= <-].
  rewrite (sliced_concat array_size (length (reorder_of ic false (drain (entries ic (map ac_rows queue))))) out cs'); [exact Po| |exact Sl].
  rewrite reorder_length, (Permutation_length (proj1 (HD _))), (Permutation_length Po).
  rewrite <- (map_length snd (entries _ _)), entries_keys, map_length. reflexivity.
Qed.

Lemma drain_all_done n fuel (st : st_t) out :
  WF n st -> length (snd st) <= n -> chunks_left st <= fuel ->
  drain_all dts ic false array_size drain hpush hpop fuel st = (out, Done) ->
  Permutation (concat out) (remaining st).
Proof.
  revert st out. induction fuel as [|f IH]; intros st out W Hn Hf; cbn [drain_all].
  - intros [= <-]. rewrite (remaining_empty _ _ W Hn); [reflexivity|].
    unfold chunks_left in Hf. destruct (fst st); [reflexivity|cbn in Hf; lia].
  - destruct (hpop (fst st)) as [[first heap']|] eqn:E.
    2:{ intros [= <-]. rewrite (remaining_empty _ _ W Hn); [reflexivity|]. now apply (hc_pop_none _ _ HH). }
    destruct st as [heap streams]. cbn [fst snd] in *.
    set (st1 := refill ic hpush (heap', streams) (ac_stream first)).
    destruct (pop_refill_WF _ _ _ _ _ W E) as (W1 & Hok & Hmin & Hl). fold st1 in W1, Hmin, Hl.
    destruct (pop_remaining _ streams _ _ E) as [P1 L1].
    destruct (gather ic false hpush hpop (chunks_left st1) [first] st1) as [queue st2] eqn:G.
    destruct (gather_remaining _ _ _ _ _ _ G) as (P & L & q2 & Hq2).
    destruct (gather_WF n _ first [] st1 _ _ W1 ltac:(lia) (le_n _) ltac:(intros ? [<-|[]]; exact Hok) Hmin G)
      as (W2 & Hn2 & Hq & Hlt).
    assert (PA : Permutation (concat (map ac_rows queue) ++ remaining st2) (remaining (heap, streams))).
    { rewrite P, P1. unfold st1. rewrite refill_remaining. cbn. now rewrite app_nil_r. }
    assert (L2 : chunks_left st2 <= f).
    { assert (L' : chunks_left st1 = chunks_left (heap', streams)) by apply refill_left.
      rewrite Hq2 in L. rewrite app_length in L. cbn [length] in L. lia. }
    destruct (drain_all dts ic false array_size drain hpush hpop f st2) as [out2 e2] eqn:D.
    assert (Fin : forall cs, Permutation (concat cs) (concat (map ac_rows queue)) ->
       (cs ++ out2, e2) = (out, Done) -> Permutation (concat out) (remaining (heap, streams))).
    { intros cs Pc [= <- ->]. rewrite concat_app, Pc, (IH _ _ W2 Hn2 L2 D). exact PA. }
    assert (M : match merge_queue dts ic false array_size drain queue with
             | Err Panic => ([], Panicked) | Err _ => ([], Stopped) | Ok cs => (cs ++ out2, e2) end = (out, Done) ->
             Permutation (concat out) (remaining (heap, streams))).
    { destruct (merge_queue dts ic false array_size drain queue) as [cs|er] eqn:MQ; [|destruct er; discriminate].
      apply Fin. now apply merge_queue_all. }
    destruct queue as [|c [|c2 q]]; [exact M| |exact M].
    apply (Fin [ac_rows c]). cbn. reflexivity.
Qed.

(** *** Replacing tables *)
Definition count_some (i : nat) (ro : list (option nat)) : nat :=
  length (filter (fun x => match x with Some j => Nat.eqb j i | None => false end) ro).
Lemma pop_at_some s chunks : nth s chunks [] <> [] -> exists x c' chunks',
  nth s chunks [] = x :: c' /\ pop_at s chunks = Some (x, chunks') /\ nth s chunks' [] = c' /\
    (forall j, j <> s -> nth j chunks' [] = nth j chunks []).
Proof.
  intros H. destruct (nth s chunks []) as [|x c'] eqn:E; [easy|].
  destruct (pop_at_nth _ _ _ _ E) as (ch & P & N1 & N2 & _). exists x, c', ch. auto.
Qed.
Lemma copy_rows_total ro chunks :
  (forall i, count_some i ro <= length (nth i chunks [])) -> exists out, copy_rows ro chunks = Some out.
Proof.
  revert chunks. induction ro as [|[s|] ro IH]; intros chunks H; cbn [copy_rows]; [eauto| |].
  - pose proof (H s) as Hs. unfold count_some in Hs. cbn [filter] in Hs. rewrite Nat.eqb_refl in Hs. cbn [length] in Hs.
    destruct (pop_at_some s chunks) as (x & c' & ch & E & -> & N1 & N2).
    { intros E. rewrite E in Hs. cbn in Hs. lia. }
    destruct (IH ch) as [out ->]; [|cbn; eauto].
    intros i. destruct (Nat.eq_dec i s) as [->|Hi].
    + rewrite N1, E in *. cbn [length] in Hs. unfold count_some. lia.
    + rewrite N2 by exact Hi. specialize (H i). unfold count_some in *. cbn [filter] in H.
      destruct (Nat.eqb_spec s i); [congruence|exact H].
  - apply IH. intros i. exact (H i).
Qed.
Lemma reorder_count b d i : count_some i (reorder_of ic b d) <= length (filter (fun e : nat * zkey => Nat.eqb (fst e) i) d).
Proof.
  induction d as [|[s k] d IH]; [cbn; lia|]. unfold count_some in *. cbn [reorder_of filter fst].
  destruct (b && Nat.eqb ic 2 && _)%bool; destruct (Nat.eqb s i); cbn [length]; lia.
Qed.
Lemma copy_reorder_total b chunks :
  exists out, copy_rows (reorder_of ic b (drain (entries ic chunks))) chunks = Some out.
Proof.
  apply copy_rows_total. intros i. etransitivity; [apply reorder_count|].
  rewrite (Permutation_length (Permutation_filter _ _ _ (proj1 (HD (entries ic chunks))))).
  rewrite entries_filter, map_length. reflexivity.
Qed.
Lemma sliced_one n (rows : list Row) : array_size <> 0 -> length rows <= n <= array_size ->
  exists cs, sliced array_size n rows = Some cs.
Proof.
  intros Ha H. unfold sliced. destruct (Nat.eqb_spec array_size 0); [congruence|].
  destruct n as [|n]; [cbn; eauto|]. cbn [slices].
  destruct (Nat.ltb_spec 0 (S n)); [|lia]. rewrite Nat.min_r by lia. cbn [Nat.add].
  destruct (Nat.ltb_spec (length rows) (length rows)); [lia|].
  destruct n as [|n]; [cbn; eauto|]. cbn [slices].
  destruct (Nat.ltb_spec array_size (S (S n))); [lia|]. cbn. eauto.
Qed.

Lemma entries_length chunks : length (entries ic chunks) = length (concat chunks).
Proof. rewrite <- (map_length snd), entries_keys. apply map_length. Qed.

(** With slices as long as the whole table no scan panics. *)
Lemma drain_all_no_panic replacing fuel (st : st_t) out e :
  merge_supported -> array_size <> 0 -> length (remaining st) <= array_size ->
  drain_all dts ic replacing array_size drain hpush hpop fuel st = (out, e) -> e = Done.
Proof.
  intros Sup Ha. revert st out e. induction fuel as [|f IH]; intros st out e Hlen; cbn [drain_all].
  - now intros [= _ <-].
  - destruct (hpop (fst st)) as [[first heap']|] eqn:E; [|now intros [= _ <-]].
    destruct st as [heap streams]. cbn [fst snd] in *.
    set (st1 := refill ic hpush (heap', streams) (ac_stream first)).
    destruct (pop_remaining _ streams _ _ E) as [P1 L1].
    destruct (gather ic replacing hpush hpop (chunks_left st1) [first] st1) as [queue st2] eqn:G.
    destruct (gather_remaining _ _ _ _ _ _ G) as (P & L & q2 & Hq2).
    assert (PA : Permutation (concat (map ac_rows queue) ++ remaining st2) (remaining (heap, streams))).
    { rewrite P, P1. unfold st1. rewrite refill_remaining. cbn. now rewrite app_nil_r. }
    apply Permutation_length in PA. rewrite app_length in PA.
    destruct (drain_all dts ic replacing array_size drain hpush hpop f st2) as [out2 e2] eqn:D.
    assert (E2 : e2 = Done) by (eapply IH; [|exact D]; lia). subst e2.
    assert (MQ : exists cs, merge_queue dts ic replacing array_size drain queue = Ok cs).
    { unfold merge_queue.
      assert (merge_chunks dts ic replacing drain (map ac_rows queue)
          = Ok (reorder_of ic replacing (drain (entries ic (map ac_rows queue))))) as ->.
      { unfold merge_chunks. destruct Sup as [(-> & r & ->)|(-> & d & r & -> & B)]; [reflexivity|]. now rewrite B. }
      destruct (copy_reorder_total replacing (map ac_rows queue)) as [rows Er]. rewrite Er.
      destruct (sliced_one (length (reorder_of ic replacing (drain (entries ic (map ac_rows queue))))) rows Ha) as [cs ->]; [|eauto].
      split; [now apply copy_rows_length in Er|].
      rewrite reorder_length, (Permutation_length (proj1 (HD _))), entries_length. lia. }
    destruct MQ as [cs ->]. destruct queue as [|c [|c2 q]]; now intros [= _ <-].
Qed.

(** No key in two rows: a replacing scan returns every row. *)
Definition key0 (r : Row) : Z := nth 0 (rkey ic r) 0%Z.
Lemma reorder_distinct d : NoDup (map (fun e : nat * zkey => nth 0 (snd e) 0%Z) d) ->
  reorder_of ic true d = map (fun e => Some (fst e)) d.
Proof.
  induction d as [|[s k] d IH]; intros ND; cbn [reorder_of map fst]; [reflexivity|].
  cbn [map snd] in ND. inversion ND as [|? ? N ND']; subst. rewrite IH by exact ND'.
  destruct d as [|[s' k'] d]; [now rewrite andb_false_r|].
  destruct (Z.eqb_spec (nth 0 k 0%Z) (nth 0 k' 0%Z)) as [E|_]; [|now rewrite andb_false_r].
  exfalso. apply N. cbn [map snd]. now left.
Qed.
Lemma NoDup_app_inv {A} (a b : list A) : NoDup (a ++ b) -> NoDup a /\ NoDup b.
Proof.
  induction a as [|x a IH]; cbn; intros H; [split; [constructor|exact H]|].
  inversion H as [|? ? N H']; subst. destruct (IH H'). split; [|assumption].
  constructor; [|assumption]. intros X. apply N. apply in_or_app. now left.
Qed.
Lemma merge_queue_distinct queue cs :
  (forall c, In c queue -> chunk_ok c) -> NoDup (map key0 (concat (map ac_rows queue))) ->
  merge_queue dts ic true array_size drain queue = Ok cs ->
  Permutation (concat cs) (concat (map ac_rows queue)).
Proof.
  intros Hq ND. unfold merge_queue.
  destruct (merge_chunks dts ic true drain (map ac_rows queue)) as [ro|] eqn:E; [|discriminate].
  assert (ro = reorder_of ic true (drain (entries ic (map ac_rows queue)))) as ->.
  { unfold merge_chunks in E. destruct ic as [|[|[|?]]]; try discriminate; destruct dts as [|[] ?]; try discriminate.
    - congruence.
    - destruct l; [discriminate|]. destruct (is_i64 d); congruence. }
  rewrite reorder_distinct.
  2:{ eapply Permutation_NoDup; [symmetry; apply Permutation_map, (proj1 (HD _))|].
      rewrite <- (map_map snd (fun k => nth 0 k 0%Z)), entries_keys, map_map. exact ND. }
  rewrite <- (reorder_append ic).
  destruct (merge_rows_ok ic drain (map ac_rows queue) HD) as (out & -> & _ & Po).
  { apply Forall_forall. intros rows Hr. apply in_map_iff in Hr as (c & <- & Hc). apply (Hq c Hc). }
  destruct (sliced array_size _ out) as [cs'|] eqn:Sl; [|discriminate]. intros [= <-].
  rewrite (sliced_concat array_size (length (reorder_of ic false (drain (entries ic (map ac_rows queue))))) out cs'); [exact Po| |exact Sl].
  rewrite reorder_length, (Permutation_length (proj1 (HD _))), (Permutation_length Po), entries_length. reflexivity.
Qed.
Lemma gather_WF_any n replacing fuel first rest (st : st_t) q' st' :
  WF n st -> length (snd st) <= n ->
  (forall c, In c (first :: rest) -> chunk_ok c) ->
  gather ic replacing hpush hpop fuel (first :: rest) st = (q', st') ->
  WF n st' /\ length (snd st') <= n /\ (forall c, In c q' -> chunk_ok c).
Proof.
  revert rest st. induction fuel as [|f IH]; intros rest st W Hn Hq; cbn [gather].
  - intros [= <- <-]. auto.
  - destruct (hpop (fst st)) as [[next heap']|] eqn:E; [|intros [= <- <-]; auto].
    destruct st as [heap streams]. cbn [fst snd] in *.
    destruct (pop_refill_WF _ _ _ _ _ W E) as (W' & Hok & _ & Hl).
    destruct (check_intersection ic replacing (first :: rest) next); [|intros [= <- <-]; auto].
    intros H. cbn [app] in H. eapply IH in H; eauto; [lia|].
    intros c Hc. change (In c ((first :: rest) ++ [next])) in Hc. apply in_app_or in Hc as [Hc|[<-|[]]]; auto.
Qed.
Lemma drain_all_distinct n fuel (st : st_t) out :
  WF n st -> length (snd st) <= n -> chunks_left st <= fuel -> NoDup (map key0 (remaining st)) ->
  drain_all dts ic true array_size drain hpush hpop fuel st = (out, Done) ->
  Permutation (concat out) (remaining st).
Proof.
  revert st out. induction fuel as [|f IH]; intros st out W Hn Hf ND; cbn [drain_all].
  - intros [= <-]. rewrite (remaining_empty _ _ W Hn); [reflexivity|].
    unfold chunks_left in Hf. destruct (fst st); [reflexivity|cbn in Hf; lia].
  - destruct (hpop (fst st)) as [[first heap']|] eqn:E.
    2:{ intros [= <-]. rewrite (remaining_empty _ _ W Hn); [reflexivity|]. now apply (hc_pop_none _ _ HH). }
    destruct st as [heap streams]. cbn [fst snd] in *.
    set (st1 := refill ic hpush (heap', streams) (ac_stream first)).
    destruct (pop_refill_WF _ _ _ _ _ W E) as (W1 & Hok & Hmin & Hl). fold st1 in W1, Hmin, Hl.
    destruct (pop_remaining _ streams _ _ E) as [P1 L1].
    destruct (gather ic true hpush hpop (chunks_left st1) [first] st1) as [queue st2] eqn:G.
    destruct (gather_remaining _ _ _ _ _ _ G) as (P & L & q2 & Hq2).
    destruct (gather_WF_any n true _ first [] st1 _ _ W1 ltac:(lia) ltac:(intros ? [<-|[]]; exact Hok) G)
      as (W2 & Hn2 & Hq).
    assert (PA : Permutation (concat (map ac_rows queue) ++ remaining st2) (remaining (heap, streams))).
    { rewrite P, P1. unfold st1. rewrite refill_remaining. cbn. now rewrite app_nil_r. }
    assert (L2 : chunks_left st2 <= f).
    { assert (L' : chunks_left st1 = chunks_left (heap', streams)) by apply refill_left.
      rewrite Hq2 in L. rewrite app_length in L. cbn [length] in L. lia. }
    assert (ND2 : NoDup (map key0 (concat (map ac_rows queue))) /\ NoDup (map key0 (remaining st2))).
    { apply NoDup_app_inv. rewrite <- map_app. eapply Permutation_NoDup; [|exact ND]. apply Permutation_map. now symmetry. }
    destruct (drain_all dts ic true array_size drain hpush hpop f st2) as [out2 e2] eqn:D.
    assert (Fin : forall cs, Permutation (concat cs) (concat (map ac_rows queue)) ->
       (cs ++ out2, e2) = (out, Done) -> Permutation (concat out) (remaining (heap, streams))).
    { intros cs Pc [= <- ->]. rewrite concat_app, Pc, (IH _ _ W2 Hn2 L2 (proj2 ND2) D). exact PA. }
    assert (M : match merge_queue dts ic true array_size drain queue with
             | Err Panic => ([], Panicked) | Err _ => ([], Stopped) | Ok cs => (cs ++ out2, e2) end = (out, Done) ->
             Permutation (concat out) (remaining (heap, streams))).
    { destruct (merge_queue dts ic true array_size drain queue) as [cs|er] eqn:MQ; [|destruct er; discriminate].
      apply Fin. apply merge_queue_distinct; [exact Hq|apply ND2|exact MQ]. }
    destruct queue as [|c [|c2 q]]; [exact M| |exact M].
    apply (Fin [ac_rows c]). cbn. reflexivity.
Qed.

(** A scan of an append-only table delivers all rows in key order. *)
Theorem merge_scan_append streams : merge_supported -> array_size <> 0 ->
  (forall s, sortedk ic (concat (nth s streams []))) ->
  (forall s, Forall (fun ch => ch <> []) (nth s streams [])) ->
  exists out, merge_scan dts ic false array_size drain hpush hpop streams = (out, Done) /\
    Permutation (concat out) (concat (map (@concat Row) streams)) /\ sortedk ic (concat out).
Proof.
  intros Sup Ha Hs Hne. destruct (init_WF streams Hs Hne) as [W L].
  destruct (drain_all_append _ (chunks_left (merge_init ic hpush streams)) _ Sup Ha W ltac:(lia) (le_n _))
    as (out & H1 & H2 & H3).
  exists out. unfold merge_scan. split; [exact H1|]. split; [|exact H3]. now rewrite H2, init_remaining.
Qed.
Definition good_streams (streams : list (list (list Row))) : Prop :=
  (forall s, sortedk ic (concat (nth s streams []))) /\ (forall s, Forall (fun ch => ch <> []) (nth s streams [])).
Theorem merge_scan_done streams out : good_streams streams ->
  merge_scan dts ic false array_size drain hpush hpop streams = (out, Done) ->
  Permutation (concat out) (concat (map (@concat Row) streams)).
Proof.
  intros [Hs Hne] H. destruct (init_WF streams Hs Hne) as [W L]. unfold merge_scan in H.
  apply (drain_all_done _ _ _ _ W ltac:(lia) (le_n _)) in H. now rewrite H, init_remaining.
Qed.
Theorem merge_scan_distinct streams out : good_streams streams ->
  NoDup (map key0 (concat (map (@concat Row) streams))) ->
  merge_scan dts ic true array_size drain hpush hpop streams = (out, Done) ->
  Permutation (concat out) (concat (map (@concat Row) streams)).
Proof.
  intros [Hs Hne] ND H. destruct (init_WF streams Hs Hne) as [W L]. unfold merge_scan in H.
  apply (drain_all_distinct _ _ _ _ W ltac:(lia) (le_n _)) in H; [now rewrite H, init_remaining|].
  eapply Permutation_NoDup; [|exact ND]. apply Permutation_map. symmetry. apply init_remaining.
Qed.
Theorem merge_scan_no_panic replacing streams out e :
  merge_supported -> array_size <> 0 -> length (concat (map (@concat Row) streams)) <= array_size ->
  merge_scan dts ic replacing array_size drain hpush hpop streams = (out, e) -> e = Done.
Proof.
  intros Sup Ha Hl H. eapply drain_all_no_panic; [exact Sup|exact Ha| |exact H].
  now rewrite (Permutation_length (init_remaining streams)).
Qed.
Theorem merge_scan_sub replacing streams out e :
  merge_scan dts ic replacing array_size drain hpush hpop streams = (out, e) ->
  exists rest, Permutation (concat out ++ rest) (concat (map (@concat Row) streams)).
Proof.
  intros H. apply drain_all_sub in H as [rest P]. exists rest. now rewrite P, init_remaining.
Qed.
End Iter.

(** ** A concrete heap *)
Definition list_drain (l : list (nat * zkey)) : list (nat * zkey) := sort_by zcmp snd l.
Definition list_push (c : AChunk) (h : list AChunk) : list AChunk := insert_by zcmp ac_min c h.
(** the heap is kept sorted by [list_push], and [list_pop] sorts whatever it is given *)
Definition list_pop (h : list AChunk) : option (AChunk * list AChunk) :=
  match sort_by zcmp ac_min h with [] => None | c :: r => Some (c, r) end.
Lemma list_drain_contract : drain_contract list_drain.
Proof.
  intros l. split; [symmetry; apply sort_by_perm|apply sort_by_sorted, zcmp_total].
Qed.
Lemma list_heap_contract : heap_contract list_push list_pop.
Proof.
  split.
  - intros c h. symmetry. apply insert_by_perm.
  - intros h c h'. unfold list_pop. pose proof (sort_by_perm zcmp ac_min h) as P.
    pose proof (sort_by_sorted zcmp ac_min zcmp_total h) as Hs.
    destruct (sort_by zcmp ac_min h) as [|d r]; [discriminate|]. intros [= -> ->].
    split; [exact P|]. now inversion Hs.
  - intros h. unfold list_pop. pose proof (sort_by_perm zcmp ac_min h) as P.
    destruct (sort_by zcmp ac_min h) as [|d r]; [|discriminate]. intros _.
    symmetry in P. now apply Permutation_nil in P.
Qed.
