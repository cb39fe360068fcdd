(** Facts about record searches. *)
From Coq Require Import List ZArith String Bool Arith Permutation Lia.
From Verif Require Import Filter Records PropsFilter RecordsSpec.
Import ListNotations.
Local Open Scope string_scope.

Lemma mem_In c l : mem c l = true <-> In c l.
Proof.
  unfold mem. rewrite existsb_exists. split.
  - intros (x & H & E). apply String.eqb_eq in E. now subst.
  - intros H. exists c. split; [exact H|apply String.eqb_refl].
Qed.
Lemma mem_not c l : mem c l = false <-> ~ In c l.
Proof. rewrite <- mem_In. destruct (mem c l); split; congruence. Qed.
Lemma distinct_NoDup l : distinct l = true <-> NoDup l.
Proof.
  induction l as [|x l IH]; cbn [distinct]; [split; [constructor|reflexivity]|].
  rewrite andb_true_iff, negb_true_iff, mem_not, IH. split.
  - intros [A B]. now constructor.
  - intros H. inversion H; subst. now split.
Qed.
Lemma once_NoDup ps : forall seen, NoDup (map d_col ps) -> (forall p, In p ps -> ~ In (d_col p) seen) -> once seen ps = ps.
Proof.
  induction ps as [|p ps IH]; intros seen N H; [reflexivity|]. cbn [map] in N. inversion N as [|a b N1 N2]; subst. cbn [once].
  assert (M : mem (d_col p) seen = false) by (apply mem_not, H; now left). rewrite M. f_equal. apply IH; [exact N2|].
  intros q Hq [E|E]; [|apply (H q (or_intror Hq) E)]. apply N1. rewrite E. now apply in_map.
Qed.
Lemma new_names_NoDup ps : forall before, NoDup (map d_name ps) -> (forall p, In p ps -> ~ In (d_name p) before) ->
  new_names before ps = map d_name ps.
Proof.
  induction ps as [|p ps IH]; intros before N H; [reflexivity|]. cbn [map] in N. inversion N as [|a b N1 N2]; subst.
  cbn [new_names map]. rewrite (proj1 (count_occ_not_In string_dec before (d_name p))) by (apply H; now left).
  f_equal. apply IH; [exact N2|]. intros q Hq [E|E]; [|apply (H q (or_intror Hq) E)]. apply N1. rewrite E. now apply in_map.
Qed.
Lemma rename_map ks : forall ns, NoDup ks -> List.length ns = List.length ks ->
  map (rename (List.combine ks ns)) ks = ns.
Proof.
  induction ks as [|k ks IH]; intros ns N L; destruct ns as [|n ns]; try discriminate; [reflexivity|].
  inversion N as [|a b N1 N2]; subst. cbn [List.combine map rename]. rewrite String.eqb_refl. f_equal.
  transitivity (map (rename (List.combine ks ns)) ks); [|apply IH; [exact N2|cbn in L; lia]]. apply map_ext_in. intros c Hc.
  cbn [rename].
  destruct (String.eqb c k) eqn:E; [|reflexivity]. apply String.eqb_eq in E. subst. contradiction.
Qed.
Lemma names_of ps : NoDup (map d_col ps) -> NoDup (map d_name ps) ->
  map (rename (renames ps)) (map d_col ps) = map d_name ps.
Proof.
  intros NC NN. unfold renames. rewrite (new_names_NoDup ps []); [|exact NN|intros p _ []].
  apply rename_map; [exact NC|]. now rewrite !map_length.
Qed.
Lemma label_all (vals : Row -> string -> option V) ps rows :
  label (map d_col ps) (map d_name ps) ps rows =
  Some (map (fun d => mkColumn (d_ref d) (d_name d) (map (fun r => r (d_col d)) rows)) ps).
Proof.
  induction ps as [|p ps IH]; [reflexivity|]. cbn [map label]. rewrite IH. reflexivity.
Qed.

(** ** Sorting *)
Lemma insert_perm c r l : Permutation (r :: l) (insert_desc c r l).
Proof.
  induction l as [|x l IH]; [reflexivity|]. cbn [insert_desc]. destruct (key_before _ _); [reflexivity|].
  transitivity (x :: r :: l); [constructor|]. now constructor.
Qed.
Lemma sort_perm c l : Permutation l (sort_desc c l).
Proof.
  induction l as [|x l IH]; [constructor|]. cbn [sort_desc fold_right]. rewrite <- insert_perm. now constructor.
Qed.
Definition kle (c : string) (a b : Row) : Prop := key_before (key_of_row c a) (key_of_row c b) = true.
Lemma kle_total c a b : key_before (key_of_row c a) (key_of_row c b) = false -> kle c b a.
Proof.
  unfold kle. destruct (key_of_row c a), (key_of_row c b); cbn; intros H; try discriminate; try reflexivity.
  apply Z.leb_gt in H. apply Z.leb_le. lia.
Qed.
Lemma kle_trans c x y z : kle c x y -> kle c y z -> kle c x z.
Proof.
  unfold kle. destruct (key_of_row c x), (key_of_row c y), (key_of_row c z); cbn; intros; try discriminate; try reflexivity.
  rewrite Z.leb_le in *. lia.
Qed.
Definition desc (c : string) (l : list Row) : Prop := ForallOrdPairs (kle c) l.
Lemma insert_in c r l x : In x (insert_desc c r l) -> x = r \/ In x l.
Proof.
  intros H. apply (Permutation_in _ (Permutation_sym (insert_perm c r l))) in H. destruct H; [left|right]; auto.
Qed.
Lemma insert_sorted c r l : desc c l -> desc c (insert_desc c r l).
Proof.
  induction l as [|x l IH]; intros H; cbn [insert_desc]; [repeat constructor|].
  inversion H as [|a b F G]; subst. destruct (key_before (key_of_row c r) (key_of_row c x)) eqn:E.
  - constructor; [|exact H]. constructor; [exact E|]. rewrite Forall_forall in *. intros y Hy. apply (kle_trans c r x y); [exact E|]. now apply F.
  - constructor; [|now apply IH]. rewrite Forall_forall in *. intros y Hy. apply insert_in in Hy as [->|Hy]; [now apply kle_total|now apply F].
Qed.
Lemma sort_sorted c l : desc c (sort_desc c l).
Proof. induction l as [|x l IH]; [constructor|]. cbn [sort_desc fold_right]. now apply insert_sorted. Qed.

Lemma desc_app c a b : desc c (a ++ b) -> desc c a /\ forall x y, In x a -> In y b -> kle c x y.
Proof.
  induction a as [|x a IH]; intros H; [split; [constructor|intros ? ? []]|].
  inversion H as [|u v F G]; subst. apply IH in G as [G1 G2]. rewrite Forall_forall in F. split.
  - constructor; [|exact G1]. apply Forall_forall. intros y Hy. apply F, in_or_app. now left.
  - intros u v [<-|Hu] Hv; [apply F, in_or_app; now right|now apply G2].
Qed.
Lemma desc_nth c l : desc c l -> forall i j a b, nth_error l i = Some a -> nth_error l j = Some b -> (i < j)%nat -> kle c a b.
Proof.
  induction 1 as [|x l F G IH]; intros i j a b Hi Hj L; [destruct i; discriminate|].
  destruct j as [|j]; [lia|]. cbn in Hj. destruct i as [|i].
  - injection Hi as <-. rewrite Forall_forall in F. apply F. eapply nth_error_In; eauto.
  - cbn in Hi. apply (IH i j); [assumption|assumption|lia].
Qed.
Lemma kle_has c a b x y : kle c a b -> has a c x -> has b c y -> (y <= x)%Z.
Proof.
  unfold kle, has, key_of_row. intros H A B. rewrite A, B in H. now apply Z.leb_le in H.
Qed.
Lemma top_of_sort c k l : Top k c l (firstn k (sort_desc c l)).
Proof.
  exists (skipn k (sort_desc c l)). pose proof (sort_sorted c l) as S0.
  rewrite <- (firstn_skipn k (sort_desc c l)) in S0. apply desc_app in S0 as [S1 S2].
  split; [rewrite firstn_skipn; apply sort_perm|]. split; [apply firstn_le_length|]. split.
  - destruct (le_lt_dec (List.length (sort_desc c l)) k) as [H|H]; [left; now apply skipn_all2|right]. rewrite firstn_length. lia.
  - split.
    + intros i j a b x y Hi Hj L. apply kle_has. eapply desc_nth; eauto.
    + intros a b x y Ha Hb. apply kle_has. now apply S2.
Qed.
Lemma map_insert c (v : Row -> Row) r l : (forall x, key_of_row c (v x) = key_of_row c x) ->
  insert_desc c (v r) (map v l) = map v (insert_desc c r l).
Proof.
  intros H. induction l as [|x l IH]; [reflexivity|]. cbn [map insert_desc]. rewrite !H. destruct (key_before _ _); [reflexivity|].
  cbn [map]. now rewrite IH.
Qed.
Lemma map_sort c (v : Row -> Row) l : (forall x, key_of_row c (v x) = key_of_row c x) ->
  sort_desc c (map v l) = map v (sort_desc c l).
Proof.
  intros H. induction l as [|x l IH]; [reflexivity|]. cbn [map sort_desc fold_right]. fold (sort_desc c l).
  fold (sort_desc c (map v l)). rewrite IH. now apply map_insert.
Qed.

(** ** Selecting *)
Lemma filter_map_ {A B} (f : A -> B) (g : B -> bool) l : filter g (map f l) = map f (filter (fun x => g (f x)) l).
Proof.
  induction l as [|x l IH]; [reflexivity|]. cbn [map filter]. destruct (g (f x)); [cbn [map]; now rewrite IH|exact IH].
Qed.
Lemma selected_filter (P : Row -> Prop) g rows : (forall r, In r rows -> (g r = true <-> P r)) -> Selected P rows (filter g rows).
Proof.
  induction rows as [|r rows IH]; intros H; [constructor|]. cbn [filter].
  assert (T : Selected P rows (filter g rows)) by (apply IH; intros x Hx; apply H; now right).
  destruct (g r) eqn:E; constructor; try exact T.
  - apply H; [now left|exact E].
  - intros X. apply H in X; [congruence|now left].
Qed.

(** ** Filters of a request *)
(** the request passes the validation and names texts that occurred *)
Definition accepted (f : Filter) : Prop :=
  well_typed f (fun _ => None) /\ (forall d, p_dict (f_prop f) = Some d -> is_pattern (f_op f) = false -> known d f).
(** the row is as the filter expects and the filter is one the code treats as meant (C58) *)
Definition clear_on (f : Filter) (r : Row) : Prop := well_typed f r /\ good_row (f_prop f) r /\ simple f r.

Lemma accepted_expr f : accepted f -> exists e, prop_expression (fix_filter f) = Some e.
Proof.
  intros (W & K). unfold prop_expression. rewrite fixed_prop, fixed_op, fixed_some.
  destruct (needs_values (f_op f)) eqn:NV.
  2:{ assert (N : forall o vs, o = f_op f -> exists e, named_property_expression (p_col (f_prop f)) o vs = Some e)
        by (intros o vs ->; destruct (f_op f); try discriminate NV; cbn; eauto).
      assert (P : is_pattern (f_op f) = false) by (destruct (f_op f); try discriminate NV; reflexivity).
      destruct (f_op f) eqn:O; try discriminate NV; destruct (p_dict (f_prop f)) as [d|] eqn:D; try (apply N; reflexivity);
        (destruct (encode d (fixed_vals f)) as [ks|] eqn:E; [apply N; reflexivity|]); exfalso;
        unfold well_typed in W; rewrite O in W; unfold fixed_vals, fix_filter in E; cbn [f_vals] in E;
        (destruct (f_vals f) as [[|v vs]|]; [discriminate E| |discriminate E]);
        destruct W as [[_ W] _]; specialize (W ltac:(discriminate)); discriminate W. }
  unfold well_typed in W. destruct (f_vals f) as [vs|] eqn:V; [|congruence]. destruct W as [[W1 _] W2]. specialize (W1 NV).
  assert (FN : fixed_vals f <> []).
  { unfold fixed_vals, fix_filter. cbn [f_vals]. rewrite V. destruct vs as [|v vs]; [congruence|]. cbn [flat_map].
    destruct (p_time (f_prop f)), v; cbn; discriminate. }
  destruct (is_pattern (f_op f)) eqn:P.
  - destruct (named_some (p_col (f_prop f)) (f_op f) _ FN) as (e & He). exists e. destruct (f_op f); try discriminate P; exact He.
  - assert (G : exists ks, (match p_dict (f_prop f) with
              | Some d => encode d (fixed_vals f) | None => Some (fixed_vals f) end) = Some ks /\ ks <> []).
    { destruct (p_dict (f_prop f)) as [d|] eqn:D; [|eauto]. destruct W2 as [T W2].
      assert (FV : fixed_vals f = vs).
      { unfold fixed_vals, fix_filter. cbn [f_vals]. rewrite V, T. clear. induction vs as [|v l IH]; [reflexivity|]. cbn [flat_map app]. now rewrite IH. }
      rewrite FV. destruct (encode_spec d vs) as (ks & Ek & Lk & _).
      { intros v Hv. destruct (W2 v Hv) as (s & ->). exists s. split; [reflexivity|]. apply (K d eq_refl eq_refl vs s V Hv). }
      exists ks. split; [exact Ek|]. intros ->. destruct vs; [congruence|discriminate]. }
    destruct G as (ks & E & KN). destruct (named_some (p_col (f_prop f)) (f_op f) _ KN) as (e & He). exists e.
    destruct (p_dict (f_prop f)) as [d|]; destruct (f_op f); try discriminate P; try (rewrite E; exact He);
      injection E as ->; exact He.
Qed.

Lemma prop_columns f e : prop_expression f = Some e -> forall c, In c (columns_of e) -> c = p_col (f_prop f).
Proof.
  assert (O : forall o k vs e0 c, (forall x, In x (columns_of e0) -> x = k) -> In c (columns_of (fold_left EOr (map (ECmp o k) vs) e0)) -> c = k).
  { intros o k vs. induction vs as [|v vs IH]; intros e0 c H; cbn [map fold_left]; [apply H|].
    apply IH. intros x Hx. cbn [columns_of] in Hx. apply in_app_or in Hx as [Hx|[Hx|[]]]; [now apply H|now symmetry]. }
  assert (N : forall k o vs e0 c, named_property_expression k o vs = Some e0 -> In c (columns_of e0) -> c = k).
  { intros k o vs e0 c H Hc. destruct vs as [[|v vs]|]; destruct o; try discriminate H; injection H as <-;
      try (destruct Hc as [<-|[]]; reflexivity); eapply O; try exact Hc; intros x [<-|[]]; reflexivity. }
  unfold prop_expression. intros H c Hc.
  destruct (f_vals f) as [vs|]; [|eapply N; eauto].
  destruct (f_op f), (p_dict (f_prop f)) as [d|]; try (eapply N; eauto; fail);
    (destruct (encode d vs); [eapply N; eauto|discriminate]).
Qed.

Section WithPatterns.
Variables like regex : string -> string -> bool.
Let ev := eval like regex.

(** all filters [fs] of a list that belongs to the filters [FS] of the request *)
Lemma filters_meaning FS fs : fs <> [] -> incl fs FS -> PropsFilter.combine FS ->
  (forall f, In f FS -> accepted f) ->
  exists e, event_filters_expression (map fix_filter fs) = Some e /\
    (forall c, In c (columns_of e) -> exists f, In f fs /\ c = p_col (f_prop f)) /\
    forall r, (forall f, In f FS -> clear_on f r) ->
      (ev e (decode_row (decode_cols (map fix_filter FS)) r) = Some true <-> forall f, In f fs -> meets like regex f r).
Proof.
  intros Hne I C A. destruct (all_some_map (fun f => prop_expression (fix_filter f)) fs) as (es & Ha & Hin & Hn).
  { intros f Hf. apply accepted_expr, A, I, Hf. }
  specialize (Hn Hne). assert (exists e, multi_and es = Some e) as (e & He) by (destruct es; [congruence|eexists; reflexivity]).
  exists e. split; [unfold event_filters_expression; rewrite map_map, Ha; exact He|]. split.
  - assert (L : forall l x c, In c (columns_of (fold_left EAnd l x)) -> exists y, In y (x :: l) /\ In c (columns_of y)).
    { induction l as [|y l IH]; intros x c H; cbn [fold_left] in H; [exists x; split; [now left|exact H]|].
      apply IH in H as (z & [<-|Hz] & Hc); [|exists z; split; [right; now right|exact Hc]].
      cbn [columns_of] in Hc. apply in_app_or in Hc as [Hc|Hc]; [exists x|exists y]; (split; [cbn; tauto|exact Hc]). }
    intros c Hc. destruct es as [|x es]; [discriminate|]. injection He as <-. apply L in Hc as (y & Hy & Hc).
    apply Hin in Hy as (f & Hf & E). exists f. split; [exact Hf|]. rewrite <- (fixed_prop f). eapply prop_columns; eauto.
  - intros r Cl. unfold ev. rewrite (multi_and_true like regex es e _ He). split.
    + intros X f Hf. destruct (Cl f (I f Hf)) as (W & G & S0).
      destruct (filter_meets like regex f r _ W G S0 (sees_decoded FS f r C (I f Hf))) as (x & Hx & M). apply M, X, Hin. eauto.
    + intros X x Hx. apply Hin in Hx as (f & Hf & E). destruct (Cl f (I f Hf)) as (W & G & S0).
      destruct (filter_meets like regex f r _ W G S0 (sees_decoded FS f r C (I f Hf))) as (x' & Hx' & M).
      assert (x' = x) by congruence. subst. apply M. now apply X.
Qed.

Lemma num_cmp o c z (r : Row) : (forall x, r c = Some x -> exists k, x = VInt k) ->
  (ev (ECmp o c (VInt z)) r = Some true <-> exists k, has r c k /\
     match o with FEq => k = z | FGte => (z <= k)%Z | FLte => (k <= z)%Z | FNeq => k <> z | FGt => (z < k)%Z | FLt => (k < z)%Z | _ => False end).
Proof.
  intros H. unfold ev, has. cbn [eval]. destruct (r c) as [x|] eqn:E.
  - destruct (H x eq_refl) as (k & ->). split.
    + intros X. exists k. split; [reflexivity|]. destruct o; cbn in X; try discriminate X;
        injection X as X; destruct (Z.compare_spec k z); cbn in X; try discriminate X; lia.
    + intros (k' & [= <-] & X). destruct o; cbn in *; try contradiction; destruct (Z.compare_spec k z); cbn; try reflexivity; lia.
  - split; [discriminate|]. intros (k & X & _). discriminate.
Qed.
End WithPatterns.

Lemma decode_other ds r c : ~ In c (map fst ds) -> decode_row ds r c = r c.
Proof.
  intros H. unfold decode_row. destruct (find_dict c ds) as [d|] eqn:F; [|reflexivity].
  apply find_dict_some in F. exfalso. apply H. apply in_map_iff. exists (c, d). auto.
Qed.
Lemma decode_in ds r c d : In (c, d) ds -> (forall d', In (c, d') ds -> d' = d) -> decode_row ds r c = option_map (decode_value d) (r c).
Proof.
  intros H U. unfold decode_row. destruct (find_dict c ds) as [d'|] eqn:F; [|exfalso; eapply find_dict_none; eauto].
  apply find_dict_some in F. now rewrite (U _ F).
Qed.
Lemma shown_decoded p d r : p_dict p = Some d -> good_row p r -> option_map (decode_value d) (r (p_col p)) = shown p r.
Proof.
  intros D G. unfold shown. rewrite D. destruct (r (p_col p)) as [x|] eqn:E; [|reflexivity].
  unfold good_row in G. rewrite D in G. destruct G as (ND & G). destruct (G x E) as (k & -> & Hk). cbn [option_map decode_value].
  destruct (nth_error d (Z.to_nat (k - 1))) as [s|] eqn:Hn; [|apply nth_error_None in Hn; lia]. cbn. do 2 f_equal. now apply nth_error_nth.
Qed.
