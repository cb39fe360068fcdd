(** The key columns of the page merge: what one call of [next_index] delivers. *)
From Coq Require Import List NArith ZArith Bool Permutation Sorted Lia Arith.
From Verif Require Import Order ListFacts Memtable MergeFacts Compact PageMerge PageMergeSpec PageMergeTags.
Import ListNotations.

(** *** Merging the rows of some chunks *)
Section Rows.
Variable pop_row : list (nat * list Z) -> option ((nat * list Z) * list (nat * list Z)).
Hypothesis HP : heap_contract row_le pop_row.
Notation rsorted := (StronglySorted (fun a b => row_le a b = true)).

Lemma row_le_trans a b c : row_le a b = true -> row_le b c = true -> row_le a c = true.
Proof. apply vle_trans. Qed.

Lemma drain_spec fuel : forall h, length h <= fuel ->
  Permutation h (drain pop_row fuel h) /\ rsorted (drain pop_row fuel h).
Proof.
  induction fuel as [|fuel IH]; intros h L.
  - destruct h; [|cbn in L; lia]. split; constructor.
  - cbn. destruct (pop_cases row_le pop_row HP h) as [[-> ->]|(x & r & -> & P & M)]; [split; constructor|].
    destruct (IH r) as [P' S']. { rewrite (Permutation_length P) in L. cbn in L. lia. }
    split; [now rewrite P, <- P'|]. constructor; [exact S'|]. now rewrite <- P'.
Qed.

Lemma in_pend {A} (id : A -> nat) h srcs y : fed id h srcs ->
  In y (h ++ concat srcs) -> In y (pend id h srcs (id y)).
Proof.
  intros (F1 & F2 & F3 & F4) H. unfold pend. apply in_or_app. apply in_app_or in H as [H|H].
  - left. unfold mine. apply filter_In. split; [exact H|apply Nat.eqb_refl].
  - right. apply in_concat in H as (l & Hl & Hy). apply (In_nth _ _ []) in Hl as (s & Hs & E).
    rewrite (F4 s y); rewrite E; exact Hy.
Qed.
Lemma pend_head {A} (id : A -> nat) h srcs s y : fed id h srcs -> In y (pend id h srcs s) ->
  exists z r, pend id h srcs s = z :: r /\ In z h /\ id z = s.
Proof.
  intros (F1 & F2 & F3 & F4) H. unfold pend in *. destruct (mine id s h) as [|z r] eqn:E.
  - rewrite (F3 s E) in H. contradiction.
  - exists z, (r ++ nth s srcs []). split; [reflexivity|].
    assert (Hz : In z (mine id s h)) by (rewrite E; now left). unfold mine in Hz. apply filter_In in Hz as [Hz Ez].
    split; [exact Hz|]. now apply Nat.eqb_eq.
Qed.

Lemma drain_heads_spec fuel : forall h its, fed fst h its -> (forall s, rsorted (pend fst h its s)) ->
  left_over h its <= fuel ->
  Permutation (h ++ concat its) (drain_heads pop_row fuel h its) /\ rsorted (drain_heads pop_row fuel h its).
Proof.
  induction fuel as [|fuel IH]; intros h its F S L.
  - unfold left_over in L. destruct h; [|cbn in L; lia]. cbn. split; [|constructor].
    assert (E : forall s, nth s its [] = []) by (intros s; now apply (fed_empty fst)).
    clear -E. induction its as [|l its IH]; [constructor|]. cbn. rewrite (E 0 : l = []). apply IH. intros s. exact (E (Datatypes.S s)).
  - cbn. destruct (pop_cases row_le pop_row HP h) as [[-> ->]|(x & r & EP & P & M)].
    + split; [|constructor]. cbn.
      assert (E : forall s, nth s its [] = []) by (intros s; now apply (fed_empty fst)).
      clear -E. induction its as [|l its IH]; [constructor|]. cbn. rewrite (E 0 : l = []). apply IH. intros s. exact (E (Datatypes.S s)).
    + rewrite EP. destruct (push_next (fst x) r its) as [h2 its2] eqn:E2.
      destruct (feed_step fst row_le pop_row HP h its x r h2 its2 F EP E2) as (F' & L2 & Hx & PE & LO & PM & _ & _).
      destruct (IH h2 its2) as [P' S'].
      * exact F'.
      * intros s. specialize (S s). rewrite PE in S. now apply StronglySorted_app in S.
      * lia.
      * split; [now rewrite PM, P'|]. constructor; [exact S'|]. rewrite <- P'. apply Forall_forall. intros y Hy.
        apply (in_pend fst _ _ _ F') in Hy. pose proof (S (fst y)) as Sy. rewrite PE in Sy.
        destruct (Nat.eqb_spec (fst x) (fst y)) as [E|N].
        -- cbn in Sy. inversion Sy as [|? ? _ Fy]; subst. rewrite Forall_forall in Fy. now apply Fy.
        -- pose proof (PE (fst y)) as PEy. destruct (Nat.eqb_spec (fst x) (fst y)); [contradiction|]. cbn in PEy, Sy.
           rewrite <- PEy in Hy, Sy. destruct (pend_head fst h its (fst y) y F Hy) as (z & q & Ez & Hz & Iz).
           rewrite Ez in Hy, Sy. rewrite P in Hz. destruct Hz as [->|Hz]; [congruence|].
           rewrite Forall_forall in M. specialize (M z Hz). destruct Hy as [->|Hy]; [exact M|].
           inversion Sy as [|? ? _ Fy]; subst. rewrite Forall_forall in Fy. exact (row_le_trans _ _ _ M (Fy y Hy)).
Qed.
End Rows.

(** *** Cutting the merged rows *)
Lemma emit_keep n rows : forall keys order, length keys = length order ->
  let ps := emit false n rows keys order in
  concat (map fst ps) = keys ++ map snd rows
  /\ concat (map snd ps) = order ++ map (fun r => Some (fst r)) rows
  /\ Forall (fun p => length (fst p) = length (snd p) /\ fst p <> []) ps.
Proof.
  induction rows as [|[s k] rows IH]; intros keys order L; cbn.
  - destruct order as [|o order]; cbn; rewrite !app_nil_r.
    + apply length_zero_iff_nil in L. subst. auto.
    + repeat split; auto. constructor; [|constructor]. split; [exact L|]. destruct keys; [discriminate|discriminate].
  - destruct (Nat.leb n (S (length keys))).
    + destruct (IH [] [] eq_refl) as (I1 & I2 & I3). cbn in *. rewrite I1, I2, <- !app_assoc. repeat split.
      constructor; [|exact I3]. cbn. rewrite !app_length. split; [cbn; lia|]. now destruct keys.
    + destruct (IH (keys ++ [k]) (order ++ [Some s])) as (I1 & I2 & I3); [rewrite !app_length; cbn; lia|].
      cbn in *. rewrite I1, I2, <- !app_assoc. auto.
Qed.

(** *** Chunks *)
Definition wf_chunk (ic : nat) (c : Chunk) : Prop :=
  length (ch_cols c) = ic
  /\ exists len, len <> 0 /\ Forall (fun pages => Forall (fun p => p <> []) pages
                                       /\ length (concat pages) = len) (ch_cols c).

Lemma page_min_le p x : In x p -> (page_min p <= x)%Z.
Proof.
  destruct p as [|y p]; [contradiction|]. cbn.
  assert (G : forall p y x, (x = y \/ In x p -> fold_left Z.min p y <= x)%Z).
  { clear. induction p as [|z p IH]; intros y x; cbn; [intros [->|[]]; lia|].
    intros [->|[->|H]].
    - specialize (IH (Z.min y z) (Z.min y z) (or_introl eq_refl)). lia.
    - specialize (IH (Z.min y x) (Z.min y x) (or_introl eq_refl)). lia.
    - apply IH. now right. }
  intros [->|H]; apply G; auto.
Qed.
Lemma page_max_ge p x : In x p -> (x <= page_max p)%Z.
Proof.
  destruct p as [|y p]; [contradiction|]. cbn.
  assert (G : forall p y x, (x = y \/ In x p -> x <= fold_left Z.max p y)%Z).
  { clear. induction p as [|z p IH]; intros y x; cbn; [intros [->|[]]; lia|].
    intros [->|[->|H]].
    - specialize (IH (Z.max y z) (Z.max y z) (or_introl eq_refl)). lia.
    - specialize (IH (Z.max y x) (Z.max y x) (or_introl eq_refl)). lia.
    - apply IH. now right. }
  intros [->|H]; apply G; auto.
Qed.

Lemma nth_last_ {A} (l : list A) d : nth (length l - 1) l d = last l d.
Proof.
  induction l as [|x [|y l] IH]; [reflexivity|reflexivity|]. cbn [length last] in *. rewrite <- IH. cbn.
  now rewrite Nat.sub_0_r.
Qed.
Lemma last_concat {A} (ps : list (list A)) d : Forall (fun p => p <> []) ps -> ps <> [] ->
  last (concat ps) d = last (last ps []) d /\ last ps [] <> [].
Proof.
  intros F N. destruct (exists_last N) as (q & p & ->). rewrite concat_app, last_last. cbn. rewrite app_nil_r.
  apply Forall_app in F as [_ F]. inversion F; subst. split; [|assumption].
  destruct (@exists_last _ p) as (u & v & ->); [assumption|]. now rewrite app_assoc, !last_last.
Qed.

Lemma ch_keys_len ic c : wf_chunk ic c -> ic <> 0 ->
  ch_keys c <> [] /\ Forall (fun k => length k = ic) (ch_keys c) /\ length (ch_min c) = ic /\ length (ch_max c) = ic.
Proof.
  intros (L & len & N & F) Hic. unfold ch_min, ch_max. rewrite !map_length. repeat split; auto.
  - intros E. apply (f_equal (@length _)) in E. unfold ch_keys in E. rewrite rows_of_len in E.
    destruct (ch_cols c) as [|p r]; [cbn in L; congruence|]. cbn in E. inversion F as [|? ? [_ Fp] _]; subst. congruence.
  - unfold ch_keys. eapply Forall_impl; [|apply rows_of_width]. cbn. intros k. rewrite map_length. congruence.
Qed.

Lemma chunk_first ic c : wf_chunk ic c -> ic <> 0 -> vle (ch_min c) (hd [] (ch_keys c)) = true.
Proof.
  intros (L & len & N & F) Hic. apply vle_pointwise. unfold ch_keys, rows_of.
  destruct (ch_cols c) as [|p0 r] eqn:EC; [cbn in L; congruence|]. rewrite <- EC in *.
  assert (EL : length (hd [] (map (@concat Z) (ch_cols c))) = len).
  { rewrite EC. cbn. rewrite EC in F. apply Forall_inv in F. apply F. }
  rewrite EL. destruct len as [|len]; [congruence|]. cbn [seq map hd]. unfold ch_min. rewrite map_map.
  clear EC EL L. induction (ch_cols c) as [|pages cs IH]; cbn; constructor; inversion F as [|? ? [F1 F2] F3]; subst.
  - destruct pages as [|p ps]; [discriminate|]. inversion F1; subst. destruct p as [|x p]; [congruence|]. cbn [hd concat app nth].
    apply page_min_le. now left.
  - now apply IH.
Qed.
Lemma chunk_last ic c : wf_chunk ic c -> ic <> 0 -> vle (last (ch_keys c) []) (ch_max c) = true.
Proof.
  intros (L & len & N & F) Hic. apply vle_pointwise. rewrite <- nth_last_. unfold ch_keys. rewrite rows_of_len. unfold rows_of.
  destruct (ch_cols c) as [|p0 r] eqn:EC; [cbn in L; congruence|]. rewrite <- EC in *.
  assert (EL : length (hd [] (map (@concat Z) (ch_cols c))) = len).
  { rewrite EC. cbn. rewrite EC in F. apply Forall_inv in F. apply F. }
  rewrite EL. rewrite (nth_indep _ [] ((fun i => map (fun c => nth i c 0%Z) (map (@concat Z) (ch_cols c))) 0)) by (rewrite map_length, seq_length; lia).
  rewrite (map_nth (fun i => map (fun c => nth i c 0%Z) (map (@concat Z) (ch_cols c)))), seq_nth by lia. unfold ch_max. rewrite map_map. cbn [Nat.add].
  clear EC EL L. induction (ch_cols c) as [|pages cs IH]; cbn; constructor; inversion F as [|? ? [F1 F2] F3]; subst.
  - rewrite nth_last_. destruct (last_concat pages 0%Z F1) as [E E2]. { intros ->. now apply N. }
    rewrite E. apply page_max_ge. destruct (exists_last E2) as (u & v & ->). rewrite last_last. apply in_or_app. right. now left.
  - now apply IH.
Qed.
Lemma chunk_bounds ic c : wf_chunk ic c -> ic <> 0 -> vsorted (ch_keys c) ->
  Forall (fun k => vle (ch_min c) k = true /\ vle k (ch_max c) = true) (ch_keys c).
Proof.
  intros W Hic Hs. pose proof (chunk_first ic c W Hic) as H1. pose proof (chunk_last ic c W Hic) as H2.
  apply Forall_forall. intros k Hk. split.
  - destruct (ch_keys c) as [|k0 ks]; [contradiction|]. cbn in H1. destruct Hk as [->|Hk]; [exact H1|].
    inversion Hs as [|? ? _ Fy]; subst. rewrite Forall_forall in Fy. exact (vle_trans _ _ _ H1 (Fy _ Hk)).
  - destruct (@exists_last _ (ch_keys c)) as (u & v & E); [now intros E; rewrite E in Hk|]. rewrite E in *. rewrite last_last in H2.
    apply in_app_or in Hk as [Hk|[->|[]]]; [|exact H2]. apply StronglySorted_app in Hs as (_ & _ & Hs).
    refine (vle_trans _ _ _ (Hs _ _ Hk _) H2). now left.
Qed.

(** *** Which chunks are merged together *)
Section Gather.
Variable pop : list Chunk -> option (Chunk * list Chunk).
Hypothesis HP : heap_contract chunk_le pop.
Variable mo : MOpts.
Hypothesis NR : mo_replacing mo = false.
Hypothesis IC : mo_ic mo <> 0.
Notation ic := (mo_ic mo).
Notation pendc := (pend ch_stream).
Notation minec := (mine ch_stream).

Definition keys_of (cs : list Chunk) : list (list Z) := concat (map ch_keys cs).
Lemma keys_of_app a b : keys_of (a ++ b) = keys_of a ++ keys_of b.
Proof. unfold keys_of. now rewrite map_app, concat_app. Qed.
Definition good (h : list Chunk) (srcs : list (list Chunk)) : Prop :=
  fed ch_stream h srcs
  /\ (forall s, Forall (wf_chunk ic) (pendc h srcs s))
  /\ (forall s, vsorted (keys_of (pendc h srcs s))).

Lemma good_step h srcs c h1 h2 srcs2 : good h srcs -> pop h = Some (c, h1) ->
  push_next (ch_stream c) h1 srcs = (h2, srcs2) ->
  good h2 srcs2 /\ length srcs2 = length srcs /\ ch_stream c < length srcs
  /\ (forall s, pendc h srcs s = minec s [c] ++ pendc h2 srcs2 s)
  /\ S (left_over h2 srcs2) = left_over h srcs
  /\ wf_chunk ic c /\ vsorted (ch_keys c)
  /\ Permutation h (c :: h1) /\ Forall (fun y => chunk_le c y = true) h1.
Proof.
  intros (F & W & V) EP E.
  destruct (feed_step ch_stream chunk_le pop HP h srcs c h1 h2 srcs2 F EP E) as (F' & L & Hc & PE & LO & _ & P & M).
  assert (PE' : forall s, pendc h srcs s = minec s [c] ++ pendc h2 srcs2 s).
  { intros s. rewrite PE. unfold mine. cbn. now destruct (Nat.eqb (ch_stream c) s). }
  assert (Ec : pendc h srcs (ch_stream c) = c :: pendc h2 srcs2 (ch_stream c)) by (rewrite PE, Nat.eqb_refl; reflexivity).
  assert (G2 : good h2 srcs2).
  { split; [exact F'|]. split; intros s.
    - specialize (W s). rewrite PE' in W. now apply Forall_app in W.
    - specialize (V s). rewrite PE', keys_of_app in V. now apply StronglySorted_app in V. }
  split; [exact G2|]. split; [exact L|]. split; [exact Hc|]. split; [exact PE'|]. split; [exact LO|].
  split; [|split; [|split; [exact P|exact M]]].
  - specialize (W (ch_stream c)). rewrite Ec in W. now inversion W.
  - specialize (V (ch_stream c)). rewrite Ec in V. change (c :: ?l) with ([c] ++ l) in V. rewrite keys_of_app in V.
    apply StronglySorted_app in V as (V & _ & _). unfold keys_of in V. cbn in V. now rewrite app_nil_r in V.
Qed.

Lemma good_bounds h srcs s o k : good h srcs -> In o (pendc h srcs s) -> In k (ch_keys o) ->
  vle (ch_min o) k = true /\ vle k (ch_max o) = true.
Proof.
  intros (F & W & V) Ho Hk.
  assert (Wo : wf_chunk ic o) by (specialize (W s); rewrite Forall_forall in W; auto).
  assert (So : vsorted (ch_keys o)).
  { specialize (V s). apply in_split in Ho as (a & b & E). rewrite E in V. rewrite keys_of_app in V.
    apply StronglySorted_app in V as (_ & V & _). change (o :: b) with ([o] ++ b) in V. rewrite keys_of_app in V.
    apply StronglySorted_app in V as (V & _ & _). unfold keys_of in V. cbn in V. now rewrite app_nil_r in V. }
  pose proof (chunk_bounds ic o Wo IC So) as B. rewrite Forall_forall in B. now apply B.
Qed.
Lemma has_key o : wf_chunk ic o -> exists k, In k (ch_keys o).
Proof. intros W. destruct (ch_keys_len ic o W IC) as (N & _). destruct (ch_keys o) as [|k r]; [congruence|]. exists k. now left. Qed.

(** A smallest chunk of the heap starts before all that is left. *)
Lemma peek_least h srcs o h1 s y k : good h srcs -> pop h = Some (o, h1) -> In y (pendc h srcs s) -> In k (ch_keys y) ->
  vle (ch_min o) k = true.
Proof.
  intros G EP Hy Hk. pose proof G as (F & W & V).
  destruct (pop_cases chunk_le pop HP h) as [[-> E0]|(x & r & E & P & M)]; [congruence|]. rewrite E in EP. injection EP as -> ->.
  destruct (pend_head ch_stream h srcs s y F Hy) as (z & q & Ez & Hz & _).
  assert (Oz : vle (ch_min o) (ch_min z) = true).
  { rewrite P in Hz. destruct Hz as [->|Hz]; [apply vle_refl|]. rewrite Forall_forall in M. exact (M z Hz). }
  assert (Iz : In z (pendc h srcs s)) by (rewrite Ez; now left).
  assert (Wz : wf_chunk ic z) by (specialize (W s); rewrite Forall_forall in W; auto).
  rewrite Ez in Hy. destruct Hy as [->|Hy].
  - destruct (good_bounds h srcs s y k G Iz Hk) as [B _]. exact (vle_trans _ _ _ Oz B).
  - destruct (has_key z Wz) as (k0 & Hk0). destruct (good_bounds h srcs s z k0 G Iz Hk0) as [B _].
    refine (vle_trans _ _ _ Oz (vle_trans _ _ _ B _)). specialize (V s). rewrite Ez in V. change (z :: q) with ([z] ++ q) in V.
    rewrite keys_of_app in V. apply StronglySorted_app in V as (_ & _ & V). apply V.
    + unfold keys_of. cbn. now rewrite app_nil_r.
    + unfold keys_of. apply in_concat. exists (ch_keys y). split; [now apply in_map|exact Hk].
Qed.

(** [check_intersection] finds no gap that is not one. *)
Lemma fold_min_le r : forall m0, length m0 = ic -> Forall (wf_chunk ic) r ->
  let mn := fold_left (fun m c => if vle (firstn ic (ch_min c)) m then ch_min c else m) r m0 in
  vle mn m0 = true /\ Forall (fun c => vle mn (ch_min c) = true) r.
Proof.
  induction r as [|c r IH]; intros m0 L W; cbn; [split; [apply vle_refl|constructor]|].
  inversion W as [|? ? Wc Wr]; subst. destruct (ch_keys_len ic c Wc IC) as (_ & _ & L1 & _).
  rewrite firstn_all2 by lia.
  destruct (vle (ch_min c) m0) eqn:E.
  - destruct (IH (ch_min c) L1 Wr) as [I1 I2]. split; [exact (vle_trans _ _ _ I1 E)|]. constructor; assumption.
  - destruct (IH m0 L Wr) as [I1 I2]. split; [exact I1|]. constructor; [|exact I2].
    exact (vle_trans _ _ _ I1 (vle_of_false _ _ E)).
Qed.
Lemma fold_max_ge r : forall m0, length m0 = ic -> Forall (wf_chunk ic) r ->
  let mx := fold_left (fun m c => if vle m (firstn ic (ch_max c)) then ch_max c else m) r m0 in
  vle m0 mx = true /\ Forall (fun c => vle (ch_max c) mx = true) r.
Proof.
  induction r as [|c r IH]; intros m0 L W; cbn; [split; [apply vle_refl|constructor]|].
  inversion W as [|? ? Wc Wr]; subst. destruct (ch_keys_len ic c Wc IC) as (_ & _ & _ & L1).
  rewrite firstn_all2 by lia.
  destruct (vle m0 (ch_max c)) eqn:E.
  - destruct (IH (ch_max c) L1 Wr) as [I1 I2]. split; [exact (vle_trans _ _ _ E I1)|]. constructor; assumption.
  - destruct (IH m0 L Wr) as [I1 I2]. split; [exact I1|]. constructor; [|exact I2].
    exact (vle_trans _ _ _ (vle_of_false _ _ E) I1).
Qed.
Lemma no_intersection q o : Forall (wf_chunk ic) q -> wf_chunk ic o ->
  (exists c, In c q /\ vle (ch_min c) (ch_max o) = true) ->
  check_intersection ic false q (Some o) = false ->
  Forall (fun c => vle (ch_max c) (ch_min o) = true) q.
Proof.
  intros W Wo (c & Hc & B) E. destruct q as [|f r]; [contradiction|].
  inversion W as [|? ? Wf Wr]; subst. unfold check_intersection in E. rewrite Nat.sub_0_r in E.
  destruct (ch_keys_len ic f Wf IC) as (_ & _ & L1 & L2). destruct (ch_keys_len ic o Wo IC) as (_ & _ & L3 & L4).
  rewrite !(firstn_all2 (n := ic)) in E by lia.
  destruct (fold_min_le r (ch_min f) L1 Wr) as [M1 M2]. destruct (fold_max_ge r (ch_max f) L2 Wr) as [X1 X2].
  cbv zeta in *.
  assert (T : vle (fold_left (fun m c => if vle (firstn ic (ch_min c)) m then ch_min c else m) r (ch_min f)) (ch_max o) = true).
  { refine (vle_trans _ _ _ _ B). destruct Hc as [->|Hc]; [exact M1|]. rewrite Forall_forall in M2. now apply M2. }
  rewrite T in E. cbn in E. apply vle_of_false in E.
  constructor; [exact (vle_trans _ _ _ X1 E)|]. eapply Forall_impl; [|exact X2]. cbn. intros c0 H. exact (vle_trans _ _ _ H E).
Qed.

Definition before (K : list (list Z)) (h : list Chunk) (srcs : list (list Chunk)) : Prop :=
  forall k s o k', In k K -> In o (pendc h srcs s) -> In k' (ch_keys o) -> vle k k' = true.

Lemma gather_spec fuel : forall q h srcs q' h' srcs',
  good h srcs -> left_over h srcs <= fuel -> q <> [] ->
  Forall (fun c => wf_chunk ic c /\ vsorted (ch_keys c)) q ->
  (forall s o, In o (pendc h srcs s) -> exists c, In c q /\ vle (ch_min c) (ch_max o) = true) ->
  gather pop mo fuel q h srcs = (q', (h', srcs')) ->
  exists more, q' = q ++ more /\ good h' srcs' /\ length srcs' = length srcs
    /\ (forall s, pendc h srcs s = minec s more ++ pendc h' srcs' s)
    /\ left_over h' srcs' + length more = left_over h srcs
    /\ Forall (fun c => wf_chunk ic c /\ vsorted (ch_keys c) /\ ch_stream c < length srcs) more
    /\ before (keys_of q') h' srcs'.
Proof.
  assert (STOP : forall q h srcs, good h srcs -> q <> [] ->
    Forall (fun c => wf_chunk ic c /\ vsorted (ch_keys c)) q ->
    (forall s o, In o (pendc h srcs s) -> exists c, In c q /\ vle (ch_min c) (ch_max o) = true) ->
    check_intersection ic (mo_replacing mo) q (peek pop h) = false ->
    before (keys_of q) h srcs).
  { intros q h srcs G Q W J E k s o k' Hk Ho Hk'. unfold peek in E. rewrite NR in E.
    destruct (pop_cases chunk_le pop HP h) as [[-> E0]|(x & r & E0 & P & M)].
    - rewrite (fed_empty ch_stream) in Ho by apply G. contradiction.
    - rewrite E0 in E. cbn [option_map fst] in E.
      assert (Hx : In x h) by (rewrite P; now left).
      pose proof G as (F & Wf & V).
      assert (Px : In x (pendc h srcs (ch_stream x))) by (apply in_pend; [exact F|apply in_or_app; now left]).
      assert (NI : Forall (fun c => vle (ch_max c) (ch_min x) = true) q).
      { apply no_intersection; [| | |exact E].
        - eapply Forall_impl; [|exact W]. now intros c [H _].
        - specialize (Wf (ch_stream x)). rewrite Forall_forall in Wf. now apply Wf.
        - apply (J (ch_stream x)). exact Px. }
      unfold keys_of in Hk. apply in_concat in Hk as (ks & Hks & Hk). apply in_map_iff in Hks as (c & <- & Hc).
      rewrite Forall_forall in W, NI. destruct (W c Hc) as [Wc Sc].
      pose proof (chunk_bounds ic c Wc IC Sc) as B. rewrite Forall_forall in B. destruct (B k Hk) as [_ B2].
      refine (vle_trans _ _ _ B2 (vle_trans _ _ _ (NI c Hc) _)).
      exact (peek_least h srcs x r s o k' G E0 Ho Hk'). }
  induction fuel as [|fuel IH]; intros q h srcs q' h' srcs' G L Q W J E.
  - cbn in E. injection E as <- <- <-. exists []. rewrite app_nil_r. split; [reflexivity|]. split; [exact G|]. split; [reflexivity|].
    split; [reflexivity|]. split; [cbn; lia|]. split; [constructor|].
    intros k s o k' _ Ho _. exfalso. unfold left_over in L. destruct h; [|cbn in L; lia].
      rewrite (fed_empty ch_stream) in Ho by apply G. contradiction.
  - cbn in E. destruct (check_intersection ic (mo_replacing mo) q (peek pop h)) eqn:CI.
    + destruct (pop h) as [[c h1]|] eqn:EP.
      2: { unfold peek in CI. rewrite EP in CI. cbn in CI. discriminate. }
      destruct (push_next (ch_stream c) h1 srcs) as [h2 srcs2] eqn:E2.
      destruct (good_step h srcs c h1 h2 srcs2 G EP E2) as (G2 & L2 & Hc & PE & LO & Wc & Sc & _ & _).
      apply IH in E; auto.
      * destruct E as (more & -> & G' & L' & PE' & LO' & W' & B'). exists (c :: more).
        split; [now rewrite <- app_assoc|]. split; [exact G'|]. split; [lia|].
        split; [|split; [cbn; lia|split; [|exact B']]].
        -- intros s. rewrite PE, PE', app_assoc. f_equal. unfold mine. cbn. now destruct (Nat.eqb (ch_stream c) s).
        -- constructor; [auto|]. rewrite <- L2. exact W'.
      * lia.
      * now destruct q.
      * apply Forall_app. auto.
      * intros s o Ho. destruct (J s o) as (c' & Hc' & B); [rewrite PE; apply in_or_app; now right|].
        exists c'. split; [apply in_or_app; now left|exact B].
    + injection E as <- <- <-. exists []. rewrite app_nil_r. split; [reflexivity|]. split; [exact G|]. split; [reflexivity|].
      split; [reflexivity|]. split; [cbn; lia|]. split; [constructor|]. now apply STOP.
Qed.
End Gather.
