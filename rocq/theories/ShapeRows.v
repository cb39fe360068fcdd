(** Facts about limiting, sorting and merging report tables. *)
From Coq Require Import List ZArith String Bool Arith Lia Permutation Sorted.
From Verif Require Import AMap Shape ShapeSpec ShapeFacts ShapePivot.
Import ListNotations.
Local Notation length := List.length.

(** *** Taking rows *)
Lemma take_taken keep b n : table b n -> (forall i, In i keep -> i < n) ->
  let arrs := map (fun a : Arr => map (fun i => nth i a None) keep) (b_arrs b) in
  try_new (b_fields b) arrs = Some (mkBatch (b_fields b) arrs) /\ taken keep b (mkBatch (b_fields b) arrs).
Proof.
  intros T Hk arrs. pose proof T as (N & L & F & D & Z0).
  assert (EC : combine (b_fields b) arrs = map (fun fa : Field * Arr => (fst fa, map (fun i => nth i (snd fa) None) keep)) (combine (b_fields b) (b_arrs b))).
  { unfold arrs. clear - L. revert L. generalize (b_arrs b). induction (b_fields b) as [|f fs IH]; intros [|a l]; cbn; intros; try discriminate; [reflexivity|].
    f_equal. apply IH. lia. }
  assert (TN : try_new (b_fields b) arrs = Some (mkBatch (b_fields b) arrs) /\ table (mkBatch (b_fields b) arrs) (length keep)).
  { apply try_new_table; auto.
    - unfold arrs. destruct (b_arrs b); [congruence|discriminate].
    - unfold arrs. now rewrite map_length.
    - unfold arrs. apply Forall_forall. intros x Hx. apply in_map_iff in Hx as (a & <- & _). now rewrite map_length.
    - rewrite EC. intros f a H Ef Hx. apply in_map_iff in H as ([f' a'] & E & H). cbn in E. injection E as <- <-.
      apply in_map_iff in Hx as (i & E & Hi). apply (Z0 f' a' H Ef).
      rewrite <- E. apply nth_In. rewrite (table_col _ _ _ _ T H). auto. }
  split; [apply TN|]. split; [apply TN|].
  intros p i Hp c v. unfold shows. cbn [b_fields b_arrs]. rewrite EC.
  assert (Hi : i < n) by (apply Hk; eapply nth_error_In; eauto). split.
  - intros (f & a & H & E & X). apply in_map_iff in H as ([f' a'] & E' & H). cbn in E'. injection E' as <- <-.
    exists f', a'. split; [exact H|]. split; [exact E|]. rewrite (map_nth_error _ _ _ Hp) in X.
    rewrite (nth_error_of_nth a' i None) by (rewrite (table_col _ _ _ _ T H); exact Hi). exact X.
  - intros (f & a & H & E & X). exists f, (map (fun i => nth i a None) keep). split; [|split; [exact E|]].
    + apply in_map_iff. exists (f, a). auto.
    + rewrite (map_nth_error _ _ _ Hp). f_equal. now apply nth_error_nth_.
Qed.

(** *** Counters *)
Notation Counters := (list (list (option Cell * nat))).
Definition cnt (c : Counters) (g : nat) (v : option Cell) : nat :=
  match aget ocell_dec v (nth g c []) with Some k => k | None => 0 end.
Definition occ (g : nat) (v : option Cell) (rs : list (list (option Cell))) : nat :=
  count_occ ocell_dec (map (fun r => nth g r None) rs) v.

Lemma cnt_cons_S m c g v : cnt (m :: c) (S g) v = cnt c g v.
Proof. reflexivity. Qed.
Lemma limit_row_facts limit : forall c r, length c = length r ->
  let '(c', t) := limit_row limit c r in
  length c' = length c /\
  (forall g v, cnt c g v <= limit -> cnt c' g v <= limit) /\
  (forall g v, g < length c -> cnt c g v <= cnt c' g v <= cnt c g v + (if ocell_dec (nth g r None) v then 1 else 0)) /\
  (t = true -> forall g, g < length c -> cnt c' g (nth g r None) = cnt c g (nth g r None) + 1) /\
  (t = false -> exists g, g < length c /\ cnt c g (nth g r None) = limit).
Proof.
  induction c as [|m c IH]; intros [|v r]; cbn [length]; try discriminate; intros L.
  - cbn. repeat split; intros; try lia; try discriminate. 
  - cbn [limit_row]. set (k := match aget ocell_dec v m with Some x => x | None => 0 end).
    assert (E0 : cnt (m :: c) 0 v = k) by reflexivity.
    assert (EV : forall x m', cnt (aset ocell_dec v x m :: m') 0 v = x).
    { intros. unfold cnt. cbn [nth]. rewrite aget_aset_eq. reflexivity. }
    assert (EW : forall x m' w, w <> v -> cnt (aset ocell_dec v x m :: m') 0 w = cnt (m :: c) 0 w).
    { intros x m' w Hw. unfold cnt. cbn [nth]. now rewrite aget_aset_ne. }
    destruct (Nat.eqb_spec k limit) as [Ek|Nk].
    + split; [reflexivity|]. split; [|split; [|split]].
      * intros [|g] w H; [|exact H]. destruct (ocell_dec w v) as [->|Nw]; [rewrite EV; lia|now rewrite EW].
      * intros [|g] w H; [|rewrite !cnt_cons_S; lia].
        destruct (ocell_dec w v) as [->|Nw]; [rewrite EV, E0; lia|rewrite EW by exact Nw; lia].
      * discriminate.
      * intros _. exists 0. split; [lia|]. cbn [nth]. now rewrite E0.
    + specialize (IH r ltac:(congruence)). destruct (limit_row limit c r) as [c1 t]. destruct IH as (L1 & B1 & M1 & T1 & F1).
      split; [cbn; congruence|]. split; [|split; [|split]].
      * intros [|g] w H; [|rewrite !cnt_cons_S in *; auto].
        destruct (ocell_dec w v) as [->|Nw]; [rewrite EV; rewrite E0 in H; lia|now rewrite EW].
      * intros [|g] w H.
        -- cbn [nth]. destruct (ocell_dec v w) as [<-|Nw]; [rewrite EV, E0; lia|]. rewrite EW by congruence. lia.
        -- rewrite !cnt_cons_S. cbn [nth]. apply M1. lia.
      * intros Ht [|g] H; cbn [nth]; [rewrite EV, E0; lia|]. rewrite !cnt_cons_S. apply T1; [exact Ht|lia].
      * intros Ht. destruct (F1 Ht) as (g & Hg & E). exists (S g). split; [lia|]. cbn [nth]. now rewrite cnt_cons_S.
Qed.

Fixpoint limit_state (limit : nat) (c : Counters) (arrs : list Arr) (is : list nat) : Counters :=
  match is with [] => c | i :: tl => limit_state limit (fst (limit_row limit c (row arrs i))) arrs tl end.
Lemma row_length arrs i : length (row arrs i) = length arrs.
Proof. apply map_length. Qed.
Lemma limit_rows_app limit arrs is1 is2 : forall c,
  limit_rows limit c arrs (is1 ++ is2) = (limit_rows limit c arrs is1 ++ limit_rows limit (limit_state limit c arrs is1) arrs is2)%list.
Proof.
  induction is1 as [|i is1 IH]; intros c; cbn; [reflexivity|].
  destruct (limit_row limit c (row arrs i)) as [c' t]. cbn. rewrite IH. now destruct t.
Qed.
Lemma limit_rows_incl limit arrs is : forall c, incl (limit_rows limit c arrs is) is.
Proof.
  induction is as [|i is IH]; intros c; cbn; [intros x []|].
  destruct (limit_row limit c (row arrs i)) as [c' [|]]; intros x.
  - intros [<-|H]; [now left|right; eapply IH; eauto].
  - intros H. right. eapply IH; eauto.
Qed.
Lemma limit_rows_sorted limit arrs is : forall c, StronglySorted lt is -> StronglySorted lt (limit_rows limit c arrs is).
Proof.
  induction is as [|i is IH]; intros c H; cbn; [constructor|]. inversion H as [|? ? H1 H2]; subst.
  destruct (limit_row limit c (row arrs i)) as [c' [|]]; [|auto]. constructor; [auto|].
  rewrite Forall_forall in *. intros x Hx. apply H2. eapply limit_rows_incl; eauto.
Qed.
(** at most [limit] *)
Lemma limit_rows_bound limit arrs g v is : forall c, length c = length arrs -> g < length arrs -> cnt c g v <= limit ->
  occ g v (map (row arrs) (limit_rows limit c arrs is)) + cnt c g v <= limit.
Proof.
  induction is as [|i is IH]; intros c L Hg B; cbn [limit_rows]; [cbn; lia|].
  pose proof (limit_row_facts limit c (row arrs i) ltac:(now rewrite row_length)) as F.
  destruct (limit_row limit c (row arrs i)) as [c' t]. destruct F as (L' & B' & M & T & _).
  specialize (IH c' ltac:(congruence) Hg (B' _ _ B)). specialize (M g v ltac:(congruence)).
  destruct t; [|lia]. unfold occ in *. cbn [map count_occ].
  destruct (ocell_dec (nth g (row arrs i) None) v) as [<-|N]; [|lia].
  rewrite (T eq_refl) in IH by congruence. lia.
Qed.
(** counters never exceed the occurrences *)
Lemma limit_state_bound limit arrs g v is : forall c, length c = length arrs -> g < length arrs ->
  length (limit_state limit c arrs is) = length arrs /\
  cnt (limit_state limit c arrs is) g v <= cnt c g v + occ g v (map (row arrs) is).
Proof.
  induction is as [|i is IH]; intros c L Hg; cbn [limit_state]; [split; [exact L|cbn; lia]|].
  pose proof (limit_row_facts limit c (row arrs i) ltac:(now rewrite row_length)) as F.
  destruct (limit_row limit c (row arrs i)) as [c' t]. destruct F as (L' & _ & M & _).
  cbn [fst]. destruct (IH c' ltac:(congruence) Hg) as [IH1 IH2]. split; [exact IH1|].
  specialize (M g v ltac:(congruence)). unfold occ in *. cbn [map count_occ].
  destruct (ocell_dec (nth g (row arrs i) None) v); lia.
Qed.
Lemma limit_kept limit arrs pre i post c : length c = length arrs ->
  (forall g, g < length arrs -> cnt c g (nth g (row arrs i) None) + occ g (nth g (row arrs i) None) (map (row arrs) pre) < limit) ->
  In i (limit_rows limit c arrs (pre ++ i :: post)).
Proof.
  intros L H. rewrite limit_rows_app. apply in_app_iff. right. cbn [limit_rows].
  set (s := limit_state limit c arrs pre).
  assert (Ls : length s = length arrs).
  { destruct arrs as [|a l].
    - unfold s. clear - L. revert c L. induction pre as [|j pre IH]; intros c L; [exact L|]. cbn. apply IH. now destruct c.
    - apply (limit_state_bound limit (a :: l) 0 None pre c L). cbn. lia. }
  pose proof (limit_row_facts limit s (row arrs i) ltac:(now rewrite row_length)) as F.
  destruct (limit_row limit s (row arrs i)) as [c' t]. destruct F as (_ & _ & _ & _ & F).
  destruct t; [now left|]. exfalso. destruct (F eq_refl) as (g & Hg & E). rewrite Ls in Hg.
  destruct (limit_state_bound limit arrs g (nth g (row arrs i) None) pre c L Hg) as [_ B]. fold s in B.
  specialize (H g Hg). lia.
Qed.
Lemma cnt_empty k g v : cnt (repeat [] k) g v = 0.
Proof.
  unfold cnt. replace (nth g (repeat [] k) []) with (@nil (option Cell * nat)); [reflexivity|].
  symmetry. apply nth_repeat_.
Qed.
(** one group column: exactly the first [limit] rows of each value *)
Lemma one_state limit a v is : forall m, cnt [m] 0 v <= limit ->
  cnt (limit_state limit [m] [a] is) 0 v = Nat.min limit (cnt [m] 0 v + occ 0 v (map (row [a]) is)).
Proof.
  induction is as [|i is IH]; intros m B; cbn [limit_state]; [cbn [map]; change (occ 0 v []) with 0; lia|].
  pose proof (limit_row_facts limit [m] (row [a] i) eq_refl) as F.
  destruct (limit_row limit [m] (row [a] i)) as [c' t] eqn:Ec. destruct F as (L' & B' & M & T & F).
  destruct c' as [|m' [|]]; try discriminate. cbn [fst].
  rewrite IH by now apply B'. specialize (M 0 v ltac:(cbn; lia)). unfold occ in *. cbn [map count_occ].
  destruct (ocell_dec (nth 0 (row [a] i) None) v) as [<-|N]; [|lia].
  destruct t.
  - rewrite (T eq_refl 0) by (cbn; lia). lia.
  - destruct (F eq_refl) as (g & Hg & E). cbn in Hg. assert (g = 0) by lia. subst g. lia.
Qed.
Lemma one_exact limit a pre i post : NoDup (pre ++ i :: post) ->
  In i (limit_rows limit [[]] [a] (pre ++ i :: post)) <-> occ 0 (nth i a None) (map (row [a]) pre) < limit.
Proof.
  intros ND. assert (Hd : ~ In i pre /\ ~ In i post).
  { apply NoDup_remove_2 in ND. rewrite in_app_iff in ND. tauto. }
  rewrite limit_rows_app, in_app_iff.
  pose proof (one_state limit a (nth i a None) pre [] ltac:(cbn; lia)) as S1. change (cnt [[]] 0 (nth i a None)) with 0 in S1.
  cbn [limit_rows]. set (s := limit_state limit [[]] [a] pre) in *.
  assert (Ls : length s = 1).
  { apply (limit_state_bound limit [a] 0 None pre [[]] eq_refl). cbn. lia. }
  pose proof (limit_row_facts limit s (row [a] i) Ls) as F.
  destruct (limit_row limit s (row [a] i)) as [c' t]. destruct F as (L' & B' & M & T & F). cbn [row map nth] in *.
  split.
  - intros [H|H]; [apply limit_rows_incl in H; tauto|]. destruct t.
    + assert (Hb : cnt c' 0 (nth i a None) <= limit) by (apply B'; lia).
      rewrite (T eq_refl 0) in Hb by lia. lia.
    + apply limit_rows_incl in H. tauto.
  - intros H. right. destruct t; [now left|]. exfalso. destruct (F eq_refl) as (g & Hg & E).
    rewrite Ls in Hg. assert (g = 0) by lia. subst g. cbn in E. lia.
Qed.

(** *** Averages and sorting *)
Lemma firstn_skipn_combine {A B} (l : list A) (l' : list B) k x y : length l = length l' -> 0 < k -> k <= length l ->
  forall p, In p (combine (insert_after k x l) (insert_after k y l')) <-> p = (x, y) \/ In p (combine l l').
Proof.
  intros L Hk Hl p. unfold insert_after. destruct k as [|k]; [lia|].
  destruct (Nat.leb_spec (S k) (length l)); [|lia]. destruct (Nat.leb_spec (S k) (length l')); [|lia].
  rewrite combine_app_ by (rewrite !firstn_length; lia). cbn [combine]. rewrite in_app_iff. cbn [In].
  rewrite <- (firstn_skipn (S k) l) at 3. rewrite <- (firstn_skipn (S k) l') at 3.
  rewrite combine_app_ by (rewrite !firstn_length; lia). rewrite in_app_iff. intuition congruence.
Qed.
Lemma insert_after_perm {A} k (x : A) l : 0 < k -> k <= length l -> Permutation (insert_after k x l) (x :: l).
Proof.
  intros Hk Hl. unfold insert_after. destruct k; [lia|]. destruct (Nat.leb_spec (S k) (length l)); [|lia].
  rewrite <- (firstn_skipn (S k) l) at 3. symmetry. apply Permutation_middle.
Qed.
Lemma insert_after_map {A B} (f : A -> B) k x l : insert_after k (f x) (map f l) = map f (insert_after k x l).
Proof.
  unfold insert_after. destruct k; [reflexivity|]. rewrite map_length. destruct (Nat.leb (S k) (length l)); [|reflexivity].
  now rewrite map_app, <- firstn_map, map_cons, <- skipn_map.
Qed.
Lemma table_insert b n k f a : table b n -> 0 < k -> k <= length (b_fields b) -> ~ In (f_name f) (map f_name (b_fields b)) ->
  length a = n -> (f_null f = false -> ~ In None a) ->
  table (mkBatch (insert_after k f (b_fields b)) (insert_after k a (b_arrs b))) n.
Proof.
  intros (N & L & F & D & Z0) Hk Hl Hf Ha Hn. split; [|split; [|split; [|split]]]; cbn [b_fields b_arrs].
  - intros E. pose proof (insert_after_perm k a (b_arrs b) Hk ltac:(lia)) as P. rewrite E in P. apply Permutation_nil in P. discriminate.
  - rewrite (Permutation_length (insert_after_perm k f (b_fields b) Hk Hl)),
      (Permutation_length (insert_after_perm k a (b_arrs b) Hk ltac:(lia))). cbn. lia.
  - eapply Permutation_Forall; [symmetry; apply insert_after_perm; lia|]. constructor; assumption.
  - eapply Permutation_NoDup; [symmetry; apply Permutation_map; apply insert_after_perm; lia|]. cbn. constructor; assumption.
  - intros f' a' H. apply firstn_skipn_combine in H; auto. destruct H as [H|H]; [injection H as <- <-; exact Hn|exact (Z0 _ _ H)].
Qed.
Lemma fold_sum l z : fold_left Z.add l z = (z + fold_right Z.add 0 l)%Z.
Proof. revert z; induction l as [|x l IH]; intros z; cbn; [lia|]. rewrite IH. lia. Qed.

(** *** Merging schemas *)
Definition fields_agree (fs : list Field) : Prop :=
  forall f f', In f fs -> In f' fs -> f_name f = f_name f' -> f_ty f = f_ty f'.
Lemma ty_eqb_spec a b : ty_eqb a b = true <-> a = b.
Proof. destruct a, b; cbn; split; congruence. Qed.
(** the merged fields: one per name, with its type, nullable iff one of them is *)
Definition merged_from (acc : list Field) (all : list Field) : Prop :=
  NoDup (map f_name acc) /\ (forall c, In c (map f_name acc) <-> In c (map f_name all)) /\
  (forall f g, In f all -> In g acc -> f_name f = f_name g -> f_ty f = f_ty g /\ (f_null f = true -> f_null g = true)) /\
  (forall g, In g acc -> f_null g = true -> exists f, In f all /\ f_name f = f_name g /\ f_null f = true).
Lemma merge_field_ok f : forall acc all, merged_from acc all -> fields_agree (all ++ [f]) ->
  exists acc', merge_field acc f = Some acc' /\ merged_from acc' (all ++ [f]).
Proof.
  intros acc all (D & Nm & Ty & Nu) Ag.
  assert (K : forall acc1, (forall g, In g acc1 -> In g acc) -> NoDup (map f_name acc1) ->
    (~ In (f_name f) (map f_name acc1) /\ merge_field acc1 f = Some (acc1 ++ [f])%list) \/
    (exists g x y, acc1 = (x ++ g :: y)%list /\ f_name g = f_name f /\
       merge_field acc1 f = Some (x ++ mkField (f_name g) (f_ty g) (f_null g || f_null f) :: y)%list)).
  { induction acc1 as [|g acc1 IH]; intros Sub ND; [left; split; [intros []|reflexivity]|].
    cbn [merge_field]. destruct (string_dec (f_name g) (f_name f)) as [E|N].
    - right. assert (Et : f_ty g = f_ty f).
      { assert (In (f_name g) (map f_name all)) as Hg by (apply Nm, in_map, Sub; now left).
        apply in_map_iff in Hg as (f0 & E0 & H0). destruct (Ty f0 g H0 (Sub g (or_introl eq_refl)) E0) as [E1 _].
        rewrite <- E1. apply Ag; [apply in_app_iff; now left|apply in_app_iff; right; now left|congruence]. }
      rewrite (proj2 (ty_eqb_spec _ _) Et). exists g, [], acc1. auto.
    - inversion ND as [|? ? Hn ND']; subst. destruct (IH ltac:(intros; apply Sub; now right) ND') as [[H1 H2]|(g' & x & y & -> & H1 & H2)].
      + left. rewrite H2. split; [|reflexivity]. cbn. intros [H|H]; [congruence|contradiction].
      + right. exists g', (g :: x), y. rewrite H2. auto. }
  destruct (K acc (fun g H => H) D) as [[Hnew E]|(g & x & y & -> & En & E)]; rewrite E; eexists; (split; [reflexivity|]).
  - split; [|split; [|split]].
    + rewrite map_app. apply NoDup_app_intro; [exact D|constructor; [intros []|constructor]|]. intros z Hz [<-|[]]. contradiction.
    + intros c. rewrite !map_app, !in_app_iff, Nm. reflexivity.
    + intros f' g' Hf Hg E'. apply in_app_iff in Hf, Hg. destruct Hf as [Hf|[<-|[]]], Hg as [Hg|[<-|[]]]; auto.
      * exfalso. apply Hnew. rewrite <- E'. apply Nm. now apply in_map.
      * exfalso. apply Hnew. rewrite E'. now apply in_map.
    + intros g' Hg Hn. apply in_app_iff in Hg as [Hg|[<-|[]]].
      * destruct (Nu g' Hg Hn) as (f0 & H0 & E0). exists f0. split; [apply in_app_iff; now left|exact E0].
      * exists f. split; [apply in_app_iff; right; now left|auto].
  - set (g2 := mkField (f_name g) (f_ty g) (f_null g || f_null f)).
    assert (EM : map f_name (x ++ g2 :: y) = map f_name (x ++ g :: y)) by now rewrite !map_app.
    assert (Hfn : In (f_name f) (map f_name all)).
    { apply Nm. rewrite <- En. apply in_map, in_app_iff. right. now left. }
    assert (Hother : forall g', In g' (x ++ y) -> f_name g' <> f_name g).
    { intros g' Hg' E'. rewrite map_app in D. cbn in D. apply NoDup_remove_2 in D. apply D. rewrite <- E', <- map_app. now apply in_map. }
    assert (Hg : In g (x ++ g :: y)) by (apply in_app_iff; right; now left).
    split; [|split; [|split]].
    + now rewrite EM.
    + intros c. rewrite EM, Nm, map_app, in_app_iff. cbn. split; [auto|]. intros [H|[<-|[]]]; auto.
    + intros f' g' Hf Hg' E'. apply in_app_iff in Hg'. cbn [In] in Hg'.
      assert (Hc : g' = g2 \/ In g' (x ++ y)) by (rewrite in_app_iff; intuition auto). clear Hg'.
      apply in_app_iff in Hf. destruct Hc as [->|Hc].
      * unfold g2 in *. cbn [f_name f_ty f_null] in *. destruct Hf as [Hf|[<-|[]]].
        -- destruct (Ty f' g Hf Hg E') as [A B]. split; [exact A|]. intros H. now rewrite (B H).
        -- split; [|intros ->; apply orb_true_r]. apply in_map_iff in Hfn as (f0 & E0 & H0).
           destruct (Ty f0 g H0 Hg ltac:(congruence)) as [E1 _]. rewrite <- E1.
           apply Ag; [apply in_app_iff; right; now left|apply in_app_iff; now left|congruence].
      * assert (Hc' : In g' (x ++ g :: y)) by (rewrite in_app_iff in *; cbn; tauto). destruct Hf as [Hf|[<-|[]]]; [auto|].
        exfalso. apply (Hother g' Hc). congruence.
    + intros g' Hg' Hn. apply in_app_iff in Hg'. cbn [In] in Hg'.
      assert (Hc : g' = g2 \/ In g' (x ++ y)) by (rewrite in_app_iff; intuition auto). clear Hg'. destruct Hc as [->|Hc].
      * unfold g2 in *. cbn [f_name f_null] in *. apply orb_true_iff in Hn as [Hn|Hn].
        -- destruct (Nu g Hg Hn) as (f0 & H0 & E0). exists f0. split; [apply in_app_iff; now left|exact E0].
        -- exists f. split; [apply in_app_iff; right; now left|auto].
      * destruct (Nu g') as (f0 & H0 & E0); [rewrite in_app_iff in *; cbn; tauto|exact Hn|].
        exists f0. split; [apply in_app_iff; now left|exact E0].
Qed.
Lemma merge_fields_ok fs : forall acc all, merged_from acc all -> fields_agree (all ++ fs) ->
  exists acc', merge_fields acc fs = Some acc' /\ merged_from acc' (all ++ fs).
Proof.
  induction fs as [|f fs IH]; intros acc all M Ag; cbn; [exists acc; rewrite app_nil_r; auto|].
  assert (Ag1 : fields_agree (all ++ [f])).
  { intros a b Ha Hb. apply Ag; rewrite in_app_iff in *; cbn in *; tauto. }
  destruct (merge_field_ok f acc all M Ag1) as (acc1 & E1 & M1). rewrite E1.
  destruct (IH acc1 (all ++ [f])%list M1) as (acc2 & E2 & M2); [now rewrite <- app_assoc|].
  exists acc2. rewrite <- app_assoc in M2. auto.
Qed.
Lemma merged_nil : merged_from [] [].
Proof. split; [constructor|]. split; [tauto|]. split; [intros ? ? []|intros ? []]. Qed.
Lemma index_of_some fs c : In c (map f_name fs) -> exists i f, index_of fs c = Some i /\ nth_error fs i = Some f /\ f_name f = c.
Proof.
  induction fs as [|g fs IH]; cbn; [contradiction|]. intros H. destruct (string_dec (f_name g) c) as [E|N].
  - exists 0, g. auto.
  - destruct IH as (i & f & E & H1 & H2); [destruct H; [contradiction|assumption]|]. exists (S i), f. rewrite E. auto.
Qed.
Lemma index_of_none fs c : ~ In c (map f_name fs) -> index_of fs c = None.
Proof.
  induction fs as [|g fs IH]; cbn; [reflexivity|]. intros H. destruct (string_dec (f_name g) c); [exfalso; apply H; auto|].
  rewrite IH; auto.
Qed.

(** *** Facts about averages and sorting *)
Lemma mapO_total {A B} (f : A -> option B) (g : A -> B) l : (forall x, In x l -> f x = Some (g x)) -> mapO f l = Some (map g l).
Proof.
  induction l as [|x l IH]; intros H; cbn; [reflexivity|]. rewrite (H x (or_introl eq_refl)), IH; [reflexivity|].
  intros y Hy. apply H. now right.
Qed.
Lemma value_at_cons f fs a l i c : f_name f <> c -> value_at (mkBatch (f :: fs) (a :: l)) c i = value_at (mkBatch fs l) c i.
Proof.
  intros N. unfold value_at. cbn. apply String.eqb_neq in N. now rewrite N.
Qed.
Lemma values_skip i : forall fs l k, length fs = length l -> NoDup (map f_name fs) ->
  map (fun c => value_at (mkBatch fs l) c i) (map f_name (skipn k fs)) = row (skipn k l) i.
Proof.
  induction fs as [|f fs IH]; intros [|a l] k L D; try discriminate; [destruct k; reflexivity|].
  cbn in D. inversion D as [|? ? Hn D']; subst.
  assert (EX : forall j, map (fun c => value_at (mkBatch (f :: fs) (a :: l)) c i) (map f_name (skipn j fs)) = row (skipn j l) i).
  { intros j. rewrite <- (IH l j); [|cbn in L; lia|exact D']. apply map_ext_in. intros c Hc. apply value_at_cons. intros <-. apply Hn.
    apply in_map_iff in Hc as (f' & <- & Hf). apply in_map. rewrite <- (firstn_skipn j fs). apply in_app_iff. now right. }
  destruct k as [|k]; cbn [skipn map row].
  - f_equal; [|exact (EX 0)]. unfold value_at. cbn. now rewrite String.eqb_refl.
  - exact (EX k).
Qed.
Lemma row_avg_average b k i : length (b_fields b) = length (b_arrs b) -> NoDup (map f_name (b_fields b)) -> k < length (b_fields b) ->
  row_avg (skipn k (b_arrs b)) i = Some (average b (map f_name (skipn k (b_fields b))) i).
Proof.
  intros L D H. unfold row_avg, average.
  replace (length (map f_name (skipn k (b_fields b)))) with (length (skipn k (b_arrs b))) by (rewrite map_length, !skipn_length; lia).
  assert (ES : map (fun c => amount (value_at b c i)) (map f_name (skipn k (b_fields b))) = map dec_value (row (skipn k (b_arrs b)) i)).
  { rewrite <- (values_skip i (b_fields b) (b_arrs b) k L D). destruct b as [fs l]. cbn. now rewrite !map_map. }
  rewrite ES. rewrite fold_sum. cbn [Z.add].
  destruct (skipn k (b_arrs b)) eqn:E; [|reflexivity].
  exfalso. apply (f_equal (@length _)) in E. rewrite skipn_length in E. cbn in E. lia.
Qed.
Lemma sort_ok order k b n : descending order -> table b n -> 0 < k -> k < length (b_fields b) ->
  ~ In "Average"%string (map f_name (b_fields b)) ->
  Forall (fun f => f_ty f = TDec) (skipn k (b_fields b)) ->
  let vals := map f_name (skipn k (b_fields b)) in
  exists out keep, aggregate_and_sort order k b = Some out /\ Permutation keep (seq 0 n) /\
    taken keep (mkBatch (insert_after k avg_field (b_fields b)) (insert_after k (map (fun i => Some (CDec (average b vals i))) (seq 0 n)) (b_arrs b))) out /\
    table (mkBatch (insert_after k avg_field (b_fields b)) (insert_after k (map (fun i => Some (CDec (average b vals i))) (seq 0 n)) (b_arrs b))) n /\
    StronglySorted (fun i j => (average b vals j <= average b vals i)%Z) keep.
Proof.
  intros Hd T Hk Hl Ha Ht vals. pose proof T as (Ne & L & F & D & Z0).
  unfold aggregate_and_sort. destruct k as [|k']; [lia|]. set (k := S k') in *.
  assert (E1 : forallb (fun f => ty_eqb (f_ty f) TDec) (skipn k (b_fields b)) = true).
  { apply forallb_forall. intros f Hf. rewrite Forall_forall in Ht. apply ty_eqb_spec. auto. }
  rewrite E1. rewrite (table_rows _ _ T).
  rewrite (mapO_total _ (average b vals)) by (intros; apply row_avg_average; assumption).
  set (avg := map (average b vals) (seq 0 n)). destruct (Hd avg) as [P So].
  assert (La : length avg = n) by (unfold avg; now rewrite map_length, seq_length).
  rewrite La in P.
  assert (EA : map (fun z => Some (CDec z)) avg = map (fun i => Some (CDec (average b vals i))) (seq 0 n)) by (unfold avg; now rewrite map_map).
  rewrite EA.
  assert (T2 : table (mkBatch (insert_after k avg_field (b_fields b)) (insert_after k (map (fun i => Some (CDec (average b vals i))) (seq 0 n)) (b_arrs b))) n).
  { apply table_insert; auto; try lia.
    - now rewrite map_length, seq_length.
    - intros _ H. apply in_map_iff in H as (i & H & _). discriminate. }
  assert (Hlt : forall i, In i (order avg) -> i < n).
  { intros i Hi. eapply Permutation_in in Hi; [|exact P]. apply in_seq in Hi. lia. }
  destruct (take_taken (order avg) _ n T2 Hlt) as [TN TK].
  cbn [b_fields b_arrs] in TN, TK. cbv zeta. rewrite TN. eexists _, _. split; [reflexivity|]. split; [exact P|]. split; [exact TK|].
  split; [exact T2|].
  assert (EN : forall i, In i (order avg) -> nth i avg 0%Z = average b vals i).
  { intros i Hi. apply nth_error_nth. unfold avg. rewrite (map_nth_error (average b vals) i (seq 0 n) (d := i)); [reflexivity|].
    rewrite nth_error_seq_ by auto. reflexivity. }
  clear - So EN. revert EN. induction So as [|i l H IH H']; intros EN; constructor.
  - apply IH. intros j Hj. apply EN. now right.
  - rewrite Forall_forall in *. intros j Hj. rewrite <- (EN i (or_introl eq_refl)), <- (EN j (or_intror Hj)). auto.
Qed.

(** *** Facts about merging *)
Lemma index_of_shows b n c i f k : table b n -> index_of (b_fields b) c = Some k -> nth_error (b_fields b) k = Some f -> f_name f = c ->
  i < n -> shows b c i (nth i (nth k (b_arrs b) []) None).
Proof.
  intros T _ Hf <- Hi. pose proof T as (_ & L & F & _).
  assert (Hk : k < length (b_arrs b)) by (rewrite <- L; apply nth_error_Some; congruence).
  assert (Ha : nth_error (b_arrs b) k = Some (nth k (b_arrs b) [])) by (now apply nth_error_of_nth).
  exists f, (nth k (b_arrs b) []). split; [exact (in_combine_at _ _ _ _ _ Hf Ha)|]. split; [reflexivity|].
  apply nth_error_of_nth. rewrite Forall_forall in F. rewrite (F _ (nth_error_In _ _ Ha)). exact Hi.
Qed.
Definition merge_arr (b : Batch) (name : string) (j : nat) (c : string) : Arr :=
  match index_of (b_fields b) c with
  | Some i => nth i (b_arrs b) []
  | None => if Nat.eqb j 0 then repeat (Some (CText name)) (num_rows b) else repeat None (num_rows b)
  end.
Lemma merge_batch_ok label name acc b :
  let schema := mkField label TText false :: acc in
  table b (num_rows b) -> ~ In label (map f_name (b_fields b)) -> ~ In label (map f_name acc) -> NoDup (map f_name acc) ->
  (forall f g, In f (b_fields b) -> In g acc -> f_name f = f_name g -> f_null f = true -> f_null g = true) ->
  (forall g, In g acc -> ~ In (f_name g) (map f_name (b_fields b)) -> f_null g = true \/ num_rows b = 0) ->
  exists out, merge_batch schema name b = Some out /\ labelled label name (map f_name acc) b out.
Proof.
  intros schema T Hl Hla D Hnull Hlack. pose proof T as (Ne & L & F & Db & Z0).
  unfold merge_batch.
  set (g := fun jf : nat * Field => merge_arr b name (fst jf) (f_name (snd jf))).
  change (map _ (combine (seq 0 (length schema)) schema)) with (map g (combine (seq 0 (length schema)) schema)).
  set (arrs := map g (combine (seq 0 (length schema)) schema)).
  assert (La : length arrs = length schema) by (unfold arrs; rewrite map_length, combine_length, seq_length; lia).
  assert (Har : forall j f, nth_error schema j = Some f -> nth_error arrs j = Some (merge_arr b name j (f_name f))).
  { intros j f Hj. unfold arrs. rewrite (map_nth_error g j _ (d := (j, f))); [reflexivity|].
    assert (Hjl : j < length schema) by (apply nth_error_Some; congruence). revert Hj Hjl.
    generalize schema. clear. intros l Hj Hjl.
    assert (K : forall s, nth_error (combine (seq s (length l)) l) j = Some (s + j, f)).
    { revert j Hj Hjl. induction l as [|x l IH]; intros [|j] Hj Hjl s; cbn in *; try discriminate; try lia.
      - rewrite Nat.add_0_r. congruence.
      - rewrite IH by (auto; lia). f_equal. f_equal. lia. }
    exact (K 0). }
  assert (Hin : forall f a, In (f, a) (combine schema arrs) -> exists j, nth_error schema j = Some f /\ a = merge_arr b name j (f_name f)).
  { intros f a H. apply In_nth_error in H as (j & Hj). exists j.
    assert (Hf : nth_error schema j = Some f) by (rewrite <- (combine_fst schema arrs) by (now rewrite La); exact (map_nth_error fst _ _ Hj)).
    split; [exact Hf|]. assert (Ha : nth_error arrs j = Some a) by (rewrite <- (combine_snd schema arrs) by (now rewrite La); exact (map_nth_error snd _ _ Hj)).
    rewrite (Har _ _ Hf) in Ha. congruence. }
  assert (Hlen : forall j c, length (merge_arr b name j c) = num_rows b).
  { intros j c. unfold merge_arr. destruct (index_of (b_fields b) c) as [k|] eqn:E.
    - destruct (in_dec string_dec c (map f_name (b_fields b))) as [H|H].
      + destruct (index_of_some _ _ H) as (k' & f & E' & Hk & _). rewrite E in E'. injection E' as <-.
        assert (Hkl : k < length (b_arrs b)) by (rewrite <- L; apply nth_error_Some; congruence).
        rewrite Forall_forall in F. apply F. now apply nth_In.
      + rewrite (index_of_none _ _ H) in E. discriminate.
    - destruct (Nat.eqb j 0); apply repeat_length. }
  assert (TN : try_new schema arrs = Some (mkBatch schema arrs) /\ table (mkBatch schema arrs) (num_rows b)).
  { apply try_new_table.
    - intros E. rewrite E in La. discriminate.
    - now symmetry.
    - unfold arrs. apply Forall_forall. intros a Ha. apply in_map_iff in Ha as ((j & f) & <- & _). apply Hlen.
    - cbn. now constructor.
    - intros f a H Ef Hx. apply Hin in H as (j & Hj & ->). unfold merge_arr in Hx.
      destruct (index_of (b_fields b) (f_name f)) as [k|] eqn:E.
      + destruct (in_dec string_dec (f_name f) (map f_name (b_fields b))) as [H|H]; [|rewrite (index_of_none _ _ H) in E; discriminate].
        destruct (index_of_some _ _ H) as (k' & f' & E' & Hk & En). rewrite E in E'. injection E' as <-.
        assert (Ha : nth_error (b_arrs b) k = Some (nth k (b_arrs b) [])).
        { apply nth_error_of_nth. rewrite <- L. apply nth_error_Some. congruence. }
        apply (Z0 f' _ (in_combine_at _ _ _ _ _ Hk Ha)); [|exact Hx].
        destruct (f_null f') eqn:E2; [|reflexivity]. exfalso.
        apply nth_error_In in Hj. destruct Hj as [<-|Hj]; [cbn in H; contradiction|].
        rewrite (Hnull f' f (nth_error_In _ _ Hk) Hj En E2) in Ef. discriminate.
      + destruct (Nat.eqb_spec j 0) as [->|Nj].
        * apply repeat_spec in Hx. discriminate.
        * destruct j as [|j]; [lia|]. cbn in Hj. apply nth_error_In in Hj.
          destruct (Hlack f Hj) as [H|H]; [|congruence|rewrite H in Hx; exact Hx].
          intros H. destruct (index_of_some _ _ H) as (k & ? & E' & _). congruence. }
  exists (mkBatch schema arrs). split; [exact (proj1 TN)|]. split; [reflexivity|]. split; [exact (proj2 TN)|].
  intros i Hi.
  assert (HS : forall j f, nth_error schema j = Some f -> shows (mkBatch schema arrs) (f_name f) i (nth i (merge_arr b name j (f_name f)) None)).
  { intros j f Hj. exists f, (merge_arr b name j (f_name f)). cbn [b_fields b_arrs].
    split; [exact (in_combine_at _ _ _ _ _ Hj (Har _ _ Hj))|]. split; [reflexivity|]. apply nth_error_of_nth. now rewrite Hlen. }
  split.
  - pose proof (HS 0 _ eq_refl) as H. cbn [f_name] in H. unfold merge_arr in H. rewrite (index_of_none _ _ Hl) in H. cbn [Nat.eqb] in H.
    erewrite nth_error_nth in H by (apply nth_error_repeat_; exact Hi). exact H.
  - intros c Hc v. apply in_map_iff in Hc as (f & <- & Hf). apply In_nth_error in Hf as (j & Hj).
    pose proof (HS (S j) f Hj) as H.
    assert (Ev : shows (mkBatch schema arrs) (f_name f) i v <-> v = nth i (merge_arr b name (S j) (f_name f)) None).
    { split; [intros H'; exact (shows_fun _ _ _ _ _ _ (proj2 TN) H' H)|intros ->; exact H]. }
    rewrite Ev. unfold merge_arr. destruct (in_dec string_dec (f_name f) (map f_name (b_fields b))) as [Hb|Hb].
    + destruct (index_of_some _ _ Hb) as (k & f' & E & Hk & En). rewrite E.
      pose proof (index_of_shows b _ _ i _ _ T E Hk En Hi) as Hs. split.
      * intros ->. left. auto.
      * intros [[_ H']|[H' _]]; [|contradiction]. exact (shows_fun _ _ _ _ _ _ T H' Hs).
    + rewrite (index_of_none _ _ Hb). cbn [Nat.eqb].
      erewrite nth_error_nth by (apply nth_error_repeat_; exact Hi). split; [intros ->; right; auto|]. intros [[H' _]|[_ H']]; [contradiction|exact H'].
Qed.
