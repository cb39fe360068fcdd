(** Facts about rows tagged with their stream, about transposing columns, and about heaps fed
    from sorted sources. *)
From Coq Require Import List NArith ZArith Bool Permutation Sorted Lia Arith.
From Verif Require Import Order ListFacts Memtable MergeFacts Compact PageMerge PageMergeSpec.
Import ListNotations.

Definition cnt (tags : list nat) (s : nat) : nat := length (filter (fun t => Nat.eqb t s) tags).
Definition proj {A} (s : nat) (L : list (nat * A)) : list A :=
  map snd (filter (fun p => Nat.eqb (fst p) s) L).
Lemma proj_app {A} s (a b : list (nat * A)) : proj s (a ++ b) = proj s a ++ proj s b.
Proof. unfold proj. now rewrite filter_app, map_app. Qed.
Lemma proj_map {A B} (f : A -> B) s (L : list (nat * A)) :
  proj s (map (fun p => (fst p, f (snd p))) L) = map f (proj s L).
Proof.
  unfold proj. induction L as [|[t a] L IH]; cbn; [reflexivity|].
  destruct (Nat.eqb t s); cbn; now rewrite IH.
Qed.
Lemma proj_len {A} s (L : list (nat * A)) : length (proj s L) = cnt (map fst L) s.
Proof.
  unfold proj, cnt. rewrite map_length. induction L as [|[t a] L IH]; cbn; [reflexivity|].
  destruct (Nat.eqb t s); cbn; now rewrite IH.
Qed.
Lemma proj_tag {A} s t (l : list A) : proj s (map (pair t) l) = if Nat.eqb t s then l else [].
Proof.
  unfold proj. induction l as [|x l IH]; cbn; [now destruct (Nat.eqb t s)|].
  destruct (Nat.eqb t s); cbn; now rewrite IH.
Qed.
Lemma proj_in {A} s (x : A) L : In x (proj s L) -> In (s, x) L.
Proof.
  unfold proj. intros H. apply in_map_iff in H as ([t y] & <- & H). apply filter_In in H as [H E].
  cbn in *. apply Nat.eqb_eq in E as ->. exact H.
Qed.
Lemma in_proj {A} s (x : A) L : In (s, x) L -> In x (proj s L).
Proof.
  intros H. unfold proj. apply in_map_iff. exists (s, x). split; [reflexivity|].
  apply filter_In. split; [exact H|]. cbn. apply Nat.eqb_refl.
Qed.

Lemma tagged_eq {A} (L1 L2 : list (nat * A)) :
  map fst L1 = map fst L2 -> (forall s, proj s L1 = proj s L2) -> L1 = L2.
Proof.
  revert L2. induction L1 as [|[t a] L1 IH]; intros [|[u b] L2] E P; cbn in E; try discriminate; [reflexivity|].
  injection E as <- E. pose proof (P t) as Pt. unfold proj in Pt. cbn in Pt. rewrite Nat.eqb_refl in Pt. cbn in Pt.
  injection Pt as <- Pt. f_equal. apply IH; [exact E|]. intros s. pose proof (P s) as Ps. unfold proj in Ps |- *.
  cbn in Ps. destruct (Nat.eqb_spec t s) as [->|]; [|exact Ps]. cbn in Ps. congruence.
Qed.
Lemma tagged_exists {A} tags : forall (src : nat -> list A),
  (forall s, length (src s) = cnt tags s) ->
  exists L, map fst L = tags /\ forall s, proj s L = src s.
Proof.
  induction tags as [|t tags IH]; intros src H.
  - exists []. split; [reflexivity|]. intros s. specialize (H s). cbn in *. symmetry. now apply length_zero_iff_nil.
  - pose proof (H t) as Ht. unfold cnt in Ht. cbn in Ht. rewrite Nat.eqb_refl in Ht.
    destruct (src t) as [|x r] eqn:E; [discriminate|]. cbn in Ht.
    destruct (IH (fun s => if Nat.eqb s t then r else src s)) as (L & EL & PL).
    { intros s. specialize (H s). unfold cnt in *. cbn in H. rewrite (Nat.eqb_sym t s) in H.
      destruct (Nat.eqb_spec s t) as [E2|N]; [rewrite E2; lia|exact H]. }
    exists ((t, x) :: L). split; [cbn; congruence|]. intros s. specialize (PL s). unfold proj in *. cbn.
    rewrite Nat.eqb_sym. destruct (Nat.eqb_spec s t) as [E2|N]; cbn; rewrite PL; congruence.
Qed.
Lemma concat_insert {A} (f : nat -> list A) x t l : NoDup l -> In t l ->
  Permutation (concat (map (fun s => if Nat.eqb t s then x :: f s else f s) l)) (x :: concat (map f l)).
Proof.
  induction l as [|s l IH]; intros ND I; [contradiction|]. inversion ND as [|? ? N ND']; subst. cbn.
  destruct (Nat.eqb_spec t s) as [->|E].
  - cbn. constructor. apply Permutation_app_head. erewrite map_ext_in; [reflexivity|].
    intros u Hu. cbn. destruct (Nat.eqb_spec s u) as [->|]; [contradiction|reflexivity].
  - destruct I as [->|I]; [congruence|]. rewrite (IH ND' I). symmetry. apply Permutation_middle.
Qed.
Lemma tagged_perm {A} n (L : list (nat * A)) : Forall (fun p => fst p < n) L ->
  Permutation (map snd L) (concat (map (fun s => proj s L) (seq 0 n))).
Proof.
  induction 1 as [|[t x] L Ht HL IH].
  - cbn. induction (seq 0 n); cbn; auto.
  - cbn [map snd]. rewrite IH. cbn in Ht.
    rewrite <- (concat_insert (fun s => proj s L) x t) by (try apply seq_NoDup; apply in_seq; lia).
    erewrite map_ext; [reflexivity|]. intros s. unfold proj. cbn. now destruct (Nat.eqb t s).
Qed.

(** *** Columns and rows *)
Lemma nth_seq_map {A} (l : list A) d : map (fun i => nth i l d) (seq 0 (length l)) = l.
Proof.
  induction l as [|x l IH]; cbn; [reflexivity|]. f_equal. rewrite <- seq_shift, map_map. exact IH.
Qed.
Lemma rows_of_cols {A} (d : A) n (rows : list (list A)) : n <> 0 -> Forall (fun r => length r = n) rows ->
  rows_of d (map (fun j => map (fun r => nth j r d) rows) (seq 0 n)) = rows.
Proof.
  intros N F. unfold rows_of. destruct n as [|n]; [congruence|]. cbn [seq map hd]. rewrite map_length.
  transitivity (map (fun i => nth i rows []) (seq 0 (length rows))); [|apply nth_seq_map].
  apply map_ext_in. intros i Hi. apply in_seq in Hi.
  set (r := nth i rows []). assert (L : length r = S n).
  { rewrite Forall_forall in F. apply F. apply nth_In. lia. }
  transitivity (map (fun j => nth j r d) (seq 0 (length r))); [|apply nth_seq_map].
  rewrite L. cbn [seq map].
  assert (H : forall j, nth i (map (fun r => nth j r d) rows) d = nth j r d).
  { intros j. rewrite (nth_indep _ d ((fun r => nth j r d) [])) by (rewrite map_length; lia).
    now rewrite (map_nth (fun r => nth j r d)). }
  rewrite H. f_equal. rewrite map_map. apply map_ext. intros j. apply H.
Qed.
Lemma rows_of_len {A} (d : A) cols : length (rows_of d cols) = length (hd [] cols).
Proof. unfold rows_of. now rewrite map_length, seq_length. Qed.
Lemma rows_of_width {A} (d : A) cols : Forall (fun r => length r = length cols) (rows_of d cols).
Proof. unfold rows_of. apply Forall_forall. intros r Hr. apply in_map_iff in Hr as (i & <- & _). apply map_length. Qed.
(** A column of the rows, when all columns are equally long. *)
Lemma rows_of_col {A} (d : A) cols j : Forall (fun c => length c = length (hd [] cols)) cols -> j < length cols ->
  map (fun r => nth j r d) (rows_of d cols) = nth j cols [].
Proof.
  intros F Hj. unfold rows_of. rewrite map_map.
  rewrite Forall_forall in F. assert (L : length (nth j cols []) = length (hd [] cols)) by (apply F; now apply nth_In).
  rewrite <- L.
  transitivity (map (fun i => nth i (nth j cols []) d) (seq 0 (length (nth j cols [])))); [|apply nth_seq_map].
  apply map_ext. intros i.
  rewrite (nth_indep _ d ((fun c => nth i c d) [])) by (rewrite map_length; exact Hj).
  now rewrite (map_nth (fun c => nth i c d)).
Qed.

(** *** Sorting by vectors *)
Lemma vle_iff a b : vle a b = true <-> cle (lex_cmp Z.compare) a b.
Proof. unfold vle, cle. destruct (lex_cmp Z.compare a b); split; congruence. Qed.
Lemma vle_false a b : vle a b = false <-> clt (lex_cmp Z.compare) b a.
Proof.
  unfold vle, clt. rewrite (tc_anti _ (lex_total _ Zcmp_total) a b). destruct (lex_cmp Z.compare a b); cbn; split; congruence.
Qed.
Definition VT := lex_total _ Zcmp_total.
Lemma vle_refl a : vle a a = true.
Proof. apply vle_iff, (cle_refl _ VT). Qed.
Lemma vle_trans a b c : vle a b = true -> vle b c = true -> vle a c = true.
Proof. rewrite !vle_iff. apply (cle_trans _ VT). Qed.
Lemma vle_total a b : vle a b = true \/ vle b a = true.
Proof. rewrite !vle_iff. apply (cle_total _ VT). Qed.
Lemma vle_anti a b : vle a b = true -> vle b a = true -> a = b.
Proof. rewrite !vle_iff. apply (cle_antisym _ VT). Qed.
Lemma vle_of_false a b : vle a b = false -> vle b a = true.
Proof. destruct (vle_total a b); congruence. Qed.
Lemma vle_pointwise a b : Forall2 Z.le a b -> vle a b = true.
Proof.
  induction 1 as [|x y a b H F IH]; [reflexivity|]. unfold vle in *. cbn.
  destruct (Z.compare_spec x y); [exact IH|reflexivity|lia].
Qed.
Definition vsorted : list (list Z) -> Prop := StronglySorted (fun a b => vle a b = true).
Lemma vsorted_perm a b : vsorted a -> vsorted b -> Permutation a b -> a = b.
Proof.
  intros Sa Sb. apply (sorted_perm_eq _ VT).
  - clear Sb. induction Sa as [|x l Sl IH Fx]; constructor; [exact IH|]. eapply Forall_impl; [|exact Fx]. intros y. apply vle_iff.
  - clear Sa. induction Sb as [|x l Sl IH Fx]; constructor; [exact IH|]. eapply Forall_impl; [|exact Fx]. intros y. apply vle_iff.
Qed.

(** *** A heap fed from sources *)
Section Feed.
Context {A : Type} (id : A -> nat) (le : A -> A -> bool) (pop : list A -> option (A * list A)).
Hypothesis HP : heap_contract le pop.

Definition mine (s : nat) (l : list A) : list A := filter (fun x => Nat.eqb (id x) s) l.
Definition pend (h : list A) (srcs : list (list A)) (s : nat) : list A := mine s h ++ nth s srcs [].
(** At most one element of each source is in the heap, and one is if the source has more. *)
Definition fed (h : list A) (srcs : list (list A)) : Prop :=
  Forall (fun x => id x < length srcs) h
  /\ (forall s, length (mine s h) <= 1)
  /\ (forall s, mine s h = [] -> nth s srcs [] = [])
  /\ (forall s x, In x (nth s srcs []) -> id x = s).
Definition left_over (h : list A) (srcs : list (list A)) : nat := length h + list_sum (map (@length A) srcs).

Lemma take_at_spec s srcs : s < length srcs ->
  match nth s srcs [] with
  | [] => take_at s srcs = (None, srcs)
  | x :: r => exists srcs', take_at s srcs = (Some x, srcs') /\ length srcs' = length srcs
              /\ (forall t, nth t srcs' [] = if Nat.eqb t s then r else nth t srcs [])
              /\ S (list_sum (map (@length A) srcs')) = list_sum (map (@length A) srcs)
              /\ Permutation (concat srcs) (x :: concat srcs')
  end.
Proof.
  revert s; induction srcs as [|l srcs IH]; intros s Hs; [cbn in Hs; lia|].
  destruct s as [|s]; cbn [nth].
  - destruct l as [|x r]; [reflexivity|]. exists (r :: srcs). cbn. split; [reflexivity|]. split; [reflexivity|].
    split; [|split; [lia|reflexivity]]. intros [|t]; reflexivity.
  - cbn in Hs. specialize (IH s ltac:(lia)). destruct (nth s srcs []) as [|x r].
    + cbn. rewrite IH. now destruct l.
    + destruct IH as (srcs' & E & L & N & M & P). exists (l :: srcs'). cbn. rewrite E.
      split; [now destruct l|]. split; [cbn; lia|]. split; [|split; [unfold list_sum in *; lia|]].
      * intros [|t]; [reflexivity|]. apply N.
      * rewrite P. symmetry. apply Permutation_middle.
Qed.
Lemma mine_perm s a b : Permutation a b -> length (mine s a) <= 1 -> mine s a = mine s b.
Proof.
  intros P L. assert (Q : Permutation (mine s a) (mine s b)) by (unfold mine; now apply Permutation_filter).
  destruct (mine s a) as [|x [|y r]]; [now apply Permutation_nil in Q|now apply Permutation_length_1_inv in Q|cbn in L; lia].
Qed.
Lemma pop_cases h : (h = [] /\ pop h = None) \/
  exists x r, pop h = Some (x, r) /\ Permutation h (x :: r) /\ Forall (fun y => le x y = true) r.
Proof.
  destruct HP as [H0 H1]. destruct h as [|y h]; [left; auto|]. right. apply H1. discriminate.
Qed.
Lemma feed_step h srcs x h1 h2 srcs2 : fed h srcs -> pop h = Some (x, h1) ->
  push_next (id x) h1 srcs = (h2, srcs2) ->
  fed h2 srcs2 /\ length srcs2 = length srcs /\ id x < length srcs
  /\ (forall s, pend h srcs s = (if Nat.eqb (id x) s then [x] else []) ++ pend h2 srcs2 s)
  /\ S (left_over h2 srcs2) = left_over h srcs
  /\ Permutation (h ++ concat srcs) (x :: h2 ++ concat srcs2)
  /\ Permutation h (x :: h1) /\ Forall (fun y => le x y = true) h1.
Proof.
  intros (F1 & F2 & F3 & F4) EP E.
  destruct (pop_cases h) as [[-> E0]|(x' & r & E' & P & M)]; [congruence|].
  rewrite E' in EP. injection EP as -> ->.
  assert (Hx : id x < length srcs) by (rewrite P in F1; now inversion F1).
  assert (F1' : Forall (fun y => id y < length srcs) h1) by (rewrite P in F1; now inversion F1).
  assert (MH : forall s, mine s h = (if Nat.eqb (id x) s then [x] else []) ++ mine s h1).
  { intros s. rewrite (mine_perm s _ _ P (F2 s)). unfold mine. cbn. now destruct (Nat.eqb (id x) s). }
  assert (M1 : mine (id x) h1 = []).
  { specialize (MH (id x)). rewrite Nat.eqb_refl in MH. pose proof (F2 (id x)) as L. rewrite MH in L. cbn in L.
    apply length_zero_iff_nil. lia. }
  pose proof (take_at_spec (id x) srcs Hx) as TA. unfold push_next in E.
  destruct (nth (id x) srcs []) as [|y r] eqn:EN.
  - rewrite TA in E. injection E as <- <-. repeat apply conj; auto.
    + intros s. specialize (F2 s). rewrite MH, app_length in F2. lia.
    + intros s Hs. destruct (Nat.eqb_spec (id x) s) as [<-|N]; [exact EN|].
      apply F3. rewrite MH. apply Nat.eqb_neq in N. now rewrite N.
    + intros s. unfold pend. rewrite MH. now rewrite <- app_assoc.
    + unfold left_over. rewrite (Permutation_length P). cbn. lia.
    + rewrite P. reflexivity.
  - destruct TA as (srcs' & TE & L & NT & SM & PM). rewrite TE in E. injection E as <- <-.
    assert (Iy : id y = id x) by (apply F4; rewrite EN; now left).
    assert (MH2 : forall s, mine s (h1 ++ [y]) = mine s h1 ++ (if Nat.eqb (id x) s then [y] else [])).
    { intros s. unfold mine. rewrite filter_app. cbn. rewrite Iy. now destruct (Nat.eqb (id x) s). }
    repeat apply conj; auto.
    + rewrite L. apply Forall_app. split; [exact F1'|]. constructor; [now rewrite Iy|constructor].
    + intros s. rewrite MH2, app_length. specialize (F2 s). rewrite MH, app_length in F2.
      destruct (Nat.eqb (id x) s); cbn in *; lia.
    + intros s Hs. rewrite MH2 in Hs. rewrite NT. apply app_eq_nil in Hs as [Hs1 Hs2].
      rewrite Nat.eqb_sym. destruct (Nat.eqb (id x) s) eqn:Es; [discriminate|].
      apply F3. rewrite MH, Es. exact Hs1.
    + intros s z. rewrite NT. destruct (Nat.eqb_spec s (id x)) as [->|N].
      * intros Hz. apply F4. rewrite EN. now right.
      * intros Hz. now apply F4.
    + intros s. unfold pend. rewrite MH, MH2, NT. rewrite (Nat.eqb_sym s). destruct (Nat.eqb_spec (id x) s) as [<-|N].
      * rewrite EN, M1. reflexivity.
      * rewrite !app_nil_r. reflexivity.
    + unfold left_over. rewrite (Permutation_length P), app_length. cbn. lia.
    + rewrite P, PM. cbn. rewrite <- app_assoc. cbn. reflexivity.
Qed.
Lemma fed_empty srcs s : fed [] srcs -> pend [] srcs s = [].
Proof. intros (_ & _ & F & _). unfold pend. cbn. now apply F. Qed.

(** The first element of each source in the heap. *)
Lemma fed_firsts (srcs : list (list A)) : (forall s x, In x (nth s srcs []) -> id x = s) ->
  fed (firsts srcs) (map (@tl A) srcs) /\ (forall s, pend (firsts srcs) (map (@tl A) srcs) s = nth s srcs [])
  /\ left_over (firsts srcs) (map (@tl A) srcs) = list_sum (map (@length A) srcs)
  /\ Permutation (firsts srcs ++ concat (map (@tl A) srcs)) (concat srcs).
Proof.
  intros H.
  assert (G : forall n l, (forall s x, In x (nth s l []) -> id x = n + s) ->
            (forall s, mine (n + s) (firsts l) = match nth s l [] with x :: _ => [x] | [] => [] end)
            /\ (forall t, t < n -> mine t (firsts l) = [])
            /\ Forall (fun x => n <= id x < n + length l) (firsts l)).
  { intros n l; revert n; induction l as [|a l IH]; intros n Hl.
    - cbn. repeat split; auto. now intros [|s].
    - destruct (IH (S n)) as (I1 & I2 & I3).
      { intros s x Hx. specialize (Hl (S s) x Hx). lia. }
      assert (Ha : forall x, In x a -> id x = n) by (intros x Hx; specialize (Hl 0 x Hx); lia).
      assert (EF : firsts (a :: l) = (match a with c :: _ => [c] | [] => [] end) ++ firsts l) by reflexivity.
      repeat split.
      + intros [|s]; rewrite EF; unfold mine in *; rewrite filter_app.
        * cbn [nth]. rewrite Nat.add_0_r. rewrite (I2 n) by lia. rewrite app_nil_r.
          destruct a as [|c a]; [reflexivity|]. cbn. rewrite (Ha c) by now left. now rewrite Nat.eqb_refl.
        * cbn [nth]. replace (n + S s) with (S n + s) by lia. rewrite I1.
          destruct a as [|c a]; [reflexivity|]. cbn [filter]. rewrite (Ha c) by now left.
          destruct (Nat.eqb_spec n (S n + s)); [lia|reflexivity].
      + intros t Ht. rewrite EF. unfold mine in *. rewrite filter_app, I2 by lia. rewrite app_nil_r.
        destruct a as [|c a]; [reflexivity|]. cbn. rewrite (Ha c) by now left. destruct (Nat.eqb_spec n t); [lia|reflexivity].
      + rewrite EF. apply Forall_app. split.
        * destruct a as [|c a]; constructor; [|constructor]. rewrite (Ha c) by now left. cbn. lia.
        * eapply Forall_impl; [|exact I3]. cbn. intros x Hx. lia. }
  destruct (G 0 srcs) as (I1 & _ & I3); [exact H|]. cbn in I1.
  assert (NT : forall s, nth s (map (@tl A) srcs) [] = tl (nth s srcs [])).
  { intros s. change (@nil A) with (@tl A []) at 1. now rewrite map_nth. }
  split; [repeat split|split; [|split]].
  - rewrite map_length. eapply Forall_impl; [|exact I3]. cbn. intros x Hx. lia.
  - intros s. rewrite I1. destruct (nth s srcs []); cbn; lia.
  - intros s. rewrite I1, NT. destruct (nth s srcs []); [reflexivity|discriminate].
  - intros s x. rewrite NT. intros Hx. apply H. destruct (nth s srcs []); [contradiction|now right].
  - intros s. unfold pend. rewrite I1, NT. now destruct (nth s srcs []).
  - unfold left_over. clear. induction srcs as [|l srcs IH]; [reflexivity|]. unfold firsts, list_sum in *. cbn [map List.concat fold_right].
    rewrite app_length. destruct l; cbn [length tl] in *; lia.
  - clear. induction srcs as [|l srcs IH]; [reflexivity|]. unfold firsts in *. cbn.
    destruct l as [|x l]; cbn; [exact IH|]. constructor. rewrite <- IH. rewrite !app_assoc. apply Permutation_app_tail. apply Permutation_app_comm.
Qed.
End Feed.
