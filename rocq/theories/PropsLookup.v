(** Lookups of one record, the filter groups of a request and the values of a property
    (C94-C96). *)
From Coq Require Import List ZArith String Bool Arith Permutation Lia.
From Verif Require Import Filter Records PropsFilter RecordsSpec RecordsFacts PropsRecords.
Import ListNotations.
Local Open Scope string_scope.

(** ** C94 *)
(** the row is the record with the number in the project *)
Definition is_record (idcol : string) (p id : Z) (r : Row) : Prop := has r "project_id" p /\ has r idcol id.

Lemma same_col ps x d : NoDup (map d_col ps) -> In x ps -> In d ps -> d_col x = d_col d -> x = d.
Proof.
  intros NC Hx Hd E. induction ps as [|a ps IH]; [destruct Hx|]. cbn [map] in NC. inversion NC as [|u v N1 N2]; subst.
  destruct Hx as [->|Hx], Hd as [->|Hd]; auto.
  - exfalso. apply N1. rewrite E. now apply in_map.
  - exfalso. apply N1. rewrite <- E. now apply in_map.
Qed.
Lemma shown_out all d r : NoDup (map d_col all) -> In d all -> good_row (d_prop d) r ->
  decode_row (out_dicts [] all) r (d_col d) = shown (d_prop d) r.
Proof.
  intros NC Hd G.
  assert (OUT : forall e, In (d_col d, e) (out_dicts [] all) -> p_dict (d_prop d) = Some e).
  { intros e He. unfold out_dicts in He. apply in_flat_map in He as (x & Hx & He). destruct (p_dict (d_prop x)) as [y|] eqn:P; [|destruct He].
    cbn [mem existsb map fst] in He. destruct He as [He|[]]. injection He as E1 ->. rewrite (same_col all x d NC Hx Hd E1) in *. exact P. }
  destruct (p_dict (d_prop d)) as [e|] eqn:P.
  - rewrite (decode_in _ r (d_col d) e).
    + now apply shown_decoded.
    + unfold out_dicts. apply in_flat_map. exists d. split; [exact Hd|]. rewrite P. now left.
    + intros e' He'. apply OUT in He'. congruence.
  - rewrite decode_other; [unfold shown; now rewrite P|]. intros X. apply in_map_iff in X as ((c & e') & E & X). cbn in E. subst c. apply OUT in X. discriminate.
Qed.

Section Lookups.
Variables like regex : string -> string -> bool.
Variable blank : string -> V.

Lemma record_true idcol p id r :
  (forall c x, In c ["project_id"; idcol] -> r c = Some x -> exists z, x = VInt z) ->
  (keeps like regex (EAnd (project_expression p) (ECmp FEq idcol (VInt id))) r = true <-> is_record idcol p id r).
Proof.
  intros H. rewrite keeps_true. cbn [eval]. rewrite and3_true.
  change (eval like regex (project_expression p) r = Some true /\ eval like regex (ECmp FEq idcol (VInt id)) r = Some true <-> is_record idcol p id r).
  rewrite (project_true like regex p r) by (intros x; apply H; now left). rewrite (num_cmp like regex FEq idcol id r) by (intros x; apply H; right; now left).
  unfold is_record. split; [intros (A & k & B & ->); auto|intros [A B]; eauto].
Qed.
Lemma find_prop_some all c d : find_prop all c = Some d -> In d all /\ d_col d = c.
Proof. intros H. apply find_some in H as [A B]. apply String.eqb_eq in B. auto. Qed.
Lemma find_prop_in all d : NoDup (map d_col all) -> In d all -> find_prop all (d_col d) = Some d.
Proof.
  intros N H. destruct (find_prop all (d_col d)) as [x|] eqn:F.
  - apply find_prop_some in F as [A B]. f_equal. eapply same_col; eauto.
  - exfalso. apply (find_none _ _ F d) in H. cbn in H. rewrite String.eqb_refl in H. discriminate.
Qed.
Lemma found_in all cols d c : NoDup (map d_col all) ->
  (In (d, c) (flat_map (fun c => match find_prop all c with Some d => [(d, c)] | None => [] end) cols) <->
   In d all /\ In c cols /\ d_col d = c).
Proof.
  intros N. rewrite in_flat_map. split.
  - intros (x & Hx & H). destruct (find_prop all x) as [y|] eqn:F; [|destruct H]. destruct H as [[= -> ->]|[]].
    apply find_prop_some in F as [A B]. auto.
  - intros (A & B & <-). exists (d_col d). split; [exact B|]. rewrite (find_prop_in all d N A). now left.
Qed.

(** A record that exists and has every property is returned with exactly its properties, as the
    user knows them. *)
Theorem C94_lookup_partial idcol p all t id :
  NoDup (map d_col all) -> good_rows all (t_rows t) ->
  (forall c r x, In c ["project_id"; idcol] -> In r (t_rows t) -> r c = Some x -> exists z, x = VInt z) ->
  (exists r, In r (t_rows t) /\ is_record idcol p id r) ->
  (forall r d, In r (t_rows t) -> is_record idcol p id r -> In d all -> In (d_col d) (t_cols t) -> r (d_col d) <> None) ->
  exists r l, In r (t_rows t) /\ is_record idcol p id r /\
    lookup like regex blank idcol p all t id = Done l /\
    forall ref v, In (ref, v) l <->
      exists d, In d all /\ In (d_col d) (t_cols t) /\ ref = d_ref d /\ shown (d_prop d) r = Some v.
Proof.
  intros NC GR NU (r0 & Hr0 & R0) FULL. unfold lookup.
  set (e := EAnd (project_expression p) (ECmp FEq idcol (VInt id))).
  set (found := flat_map (fun c => match find_prop all c with Some d => [(d, c)] | None => [] end) (t_cols t)).
  assert (K : forall r, In r (t_rows t) -> (keeps like regex e r = true <-> is_record idcol p id r)).
  { intros r Hr. apply record_true. intros c x Hc. now apply NU. }
  destruct (filter (keeps like regex e) (t_rows t)) as [|r rs] eqn:F.
  - exfalso. assert (X : In r0 (filter (keeps like regex e) (t_rows t))) by (apply filter_In; split; [exact Hr0|now apply K]). rewrite F in X. destruct X.
  - assert (Hr : In r (filter (keeps like regex e) (t_rows t))) by (rewrite F; now left). apply filter_In in Hr as [Hr Kr]. apply (K r Hr) in Kr.
    exists r. cbn [map]. exists (map (fun dc => (d_ref (fst dc), value0 blank (snd dc) (decode_row (out_dicts [] all) r))) found).
    split; [exact Hr|]. split; [exact Kr|]. split; [destruct found; reflexivity|].
    intros ref v. rewrite in_map_iff. split.
    + intros ((d & c) & E & H). unfold found in H. apply (found_in all _ d c NC) in H as (A & B & <-). cbn [fst snd] in E. injection E as <- <-.
      exists d. split; [exact A|]. split; [exact B|]. split; [reflexivity|]. unfold value0. rewrite (shown_out all d r NC A (GR d r A Hr)).
      destruct (shown (d_prop d) r) as [v|] eqn:Sh; [reflexivity|]. exfalso.
      pose proof (FULL r d Hr Kr A B) as X. pose proof (GR d r A Hr) as G. unfold shown in Sh. unfold good_row in G. change (r (p_col (d_prop d)) <> None) in X.
      destruct (p_dict (d_prop d)) as [di|]; [|congruence]. destruct G as [_ G]. destruct (r (p_col (d_prop d))) as [x|]; [|congruence].
      destruct (G x eq_refl) as (k & -> & Hk). destruct (nth_error di (Z.to_nat (k - 1))) eqn:Hn; [discriminate|]. apply nth_error_None in Hn. lia.
    + intros (d & A & B & -> & Sh). exists (d, d_col d). split; [|apply found_in; auto]. cbn [fst snd]. f_equal.
      unfold value0. now rewrite (shown_out all d r NC A (GR d r A Hr)), Sh.
Qed.

(** A property the record does not have is returned with the blank value of its column, as if it
    were one. *)
Theorem C94_absent_value_refuted idcol p all t id l d :
  NoDup (map d_col all) -> good_rows all (t_rows t) ->
  (forall c r x, In c ["project_id"; idcol] -> In r (t_rows t) -> r c = Some x -> exists z, x = VInt z) ->
  lookup like regex blank idcol p all t id = Done l ->
  In d all -> In (d_col d) (t_cols t) -> (forall r, In r (t_rows t) -> is_record idcol p id r -> r (d_col d) = None) ->
  In (d_ref d, blank (d_col d)) l.
Proof.
  intros NC GR NU H Hd Hc NV. unfold lookup in H.
  set (e := EAnd (project_expression p) (ECmp FEq idcol (VInt id))) in *.
  set (found := flat_map (fun c => match find_prop all c with Some d => [(d, c)] | None => [] end) (t_cols t)) in *.
  assert (IN : In (d, d_col d) found) by (apply found_in; auto).
  destruct (filter (keeps like regex e) (t_rows t)) as [|r rs] eqn:F; [cbn [map] in H; destruct found; [destruct IN|discriminate]|].
  assert (Hr : In r (filter (keeps like regex e) (t_rows t))) by (rewrite F; now left). apply filter_In in Hr as [Hr Kr].
  assert (R : is_record idcol p id r) by (apply (record_true idcol p id r); [intros c x Hc'; now apply NU|exact Kr]).
  cbn [map] in H. assert (E : l = map (fun dc => (d_ref (fst dc), value0 blank (snd dc) (decode_row (out_dicts [] all) r))) found) by (destruct found; [destruct IN|]; congruence).
  subst l. apply in_map_iff. exists (d, d_col d). split; [|exact IN]. cbn [fst snd]. f_equal. unfold value0.
  rewrite (shown_out all d r NC Hd (GR d r Hd Hr)). unfold shown. change (p_col (d_prop d)) with (d_col d). rewrite (NV r Hr R). destruct (p_dict (d_prop d)); reflexivity.
Qed.

(** Asking for a record that does not exist is not answered with an error: the server fails. *)
Theorem C94_missing_record_refuted idcol p all t id d :
  (forall c r x, In c ["project_id"; idcol] -> In r (t_rows t) -> r c = Some x -> exists z, x = VInt z) ->
  NoDup (map d_col all) -> In d all -> In (d_col d) (t_cols t) ->
  (forall r, In r (t_rows t) -> ~ is_record idcol p id r) ->
  lookup like regex blank idcol p all t id = Crashed.
Proof.
  intros NU NC Hd Hc NR. unfold lookup. set (e := EAnd _ _).
  assert (F : filter (keeps like regex e) (t_rows t) = []).
  { destruct (filter (keeps like regex e) (t_rows t)) as [|r rs] eqn:F; [reflexivity|]. exfalso.
    assert (Hr : In r (filter (keeps like regex e) (t_rows t))) by (rewrite F; now left). apply filter_In in Hr as [Hr Kr].
    apply (NR r Hr). apply (record_true idcol p id r); [intros c x Hc'; now apply NU|exact Kr]. }
  rewrite F. cbn [map]. assert (IN : In (d, d_col d) (flat_map (fun c => match find_prop all c with Some d => [(d, c)] | None => [] end) (t_cols t))) by (apply found_in; auto).
  destruct (flat_map _ _); [destruct IN|reflexivity].
Qed.
End Lookups.
Print Assumptions C94_lookup_partial.
Print Assumptions C94_absent_value_refuted.
Print Assumptions C94_missing_record_refuted.

(** ** C95 *)
Section Groups.
Variables like regex : string -> string -> bool.
(** the filters of a group, and the groups, combined as the request says *)
Definition holds_for {A} (c : Cond) (P : A -> Prop) (l : list A) : Prop :=
  match c with CAnd => forall x, In x l -> P x | COr => exists x, In x l /\ P x end.
Definition allowed (gs : FGroups) (r : Row) : Prop :=
  holds_for (fgs_cond gs) (fun g => holds_for (fg_cond g) (fun f => meets like regex f r) (fg_filters g)) (fgs_groups gs).
(** what the query does with the filters it is given (C58, C92) *)
Definition considered (fs : list Filter) (r : Row) : Prop := forall f, In f fs -> meets like regex f r.

(** One group, whose filters must all hold, is applied as it is. *)
Theorem C95_one_group_partial gs g :
  fgs_groups gs = [g] -> fg_filters g <> [] -> (fg_cond g = CAnd \/ List.length (fg_filters g) = 1%nat) ->
  exists fs, request_filters (Some gs) = Done (Some fs) /\ forall r, considered fs r <-> allowed gs r.
Proof.
  intros G NE C. exists (fg_filters g). unfold request_filters. rewrite G. cbn [existsb].
  destruct (fg_filters g) as [|f fs] eqn:F; [congruence|]. split; [reflexivity|]. intros r. unfold considered, allowed. rewrite G.
  assert (X : holds_for (fg_cond g) (fun f => meets like regex f r) (fg_filters g) <-> forall x, In x (f :: fs) -> meets like regex x r).
  { rewrite F. destruct C as [-> | L]; [reflexivity|]. destruct fs; [|discriminate L]. destruct (fg_cond g); cbn; [reflexivity|].
    split; [intros (x & [->|[]] & H) y [->|[]]; exact H|intros H; exists f; auto]. }
  destruct (fgs_cond gs); cbn [holds_for].
  - split; [intros H x [<-|[]]; now apply X|]. intros H. apply X, H. now left.
  - split; [intros H; exists g; split; [now left|now apply X]|]. intros (x & [<-|[]] & H). now apply X.
Qed.

(** Of several groups only the first is applied, and all its filters must hold whatever the
    request says: the same filters reach the query. *)
Theorem C95_only_first_group_refuted c g rest :
  (forall x, In x (g :: rest) -> fg_filters x <> []) ->
  request_filters (Some (mkFGroups c (g :: rest))) = request_filters (Some (mkFGroups CAnd [mkFGroup CAnd (fg_filters g)])).
Proof.
  intros H. unfold request_filters. cbn [fgs_groups].
  assert (X : forall l, (forall x, In x l -> fg_filters x <> []) -> existsb (fun g => match fg_filters g with [] => true | _ => false end) l = false).
  { clear. induction l as [|x l IH]; intros H; [reflexivity|]. cbn [existsb]. rewrite IH by (intros y Hy; apply H; now right).
    specialize (H x (or_introl eq_refl)). destruct (fg_filters x); [congruence|reflexivity]. }
  rewrite (X (g :: rest) H), (X [mkFGroup CAnd (fg_filters g)]); [reflexivity|]. intros x [<-|[]]. cbn. apply (H g). now left.
Qed.
(** So a row that fails the second of two required groups is considered, and one that meets one
    of two alternatives is not. *)
Theorem C95_meaning_lost_refuted f1 f2 r :
  meets like regex f1 r -> ~ meets like regex f2 r ->
  (exists fs, request_filters (Some (mkFGroups CAnd [mkFGroup CAnd [f1]; mkFGroup CAnd [f2]])) = Done (Some fs) /\
     considered fs r /\ ~ allowed (mkFGroups CAnd [mkFGroup CAnd [f1]; mkFGroup CAnd [f2]]) r) /\
  (exists fs, request_filters (Some (mkFGroups CAnd [mkFGroup COr [f1; f2]])) = Done (Some fs) /\
     ~ considered fs r /\ allowed (mkFGroups CAnd [mkFGroup COr [f1; f2]]) r) /\
  (exists fs, request_filters (Some (mkFGroups COr [mkFGroup CAnd [f2]; mkFGroup CAnd [f1]])) = Done (Some fs) /\
     ~ considered fs r /\ allowed (mkFGroups COr [mkFGroup CAnd [f2]; mkFGroup CAnd [f1]]) r).
Proof.
  intros H1 H2. split; [|split]; eexists; (split; [reflexivity|]); split.
  - intros f [<-|[]]. exact H1.
  - intros X. apply H2. apply (X (mkFGroup CAnd [f2])); cbn; tauto.
  - intros X. apply H2, X. cbn. tauto.
  - intros g [<-|[]]. exists f1. cbn. tauto.
  - intros X. apply H2, X. cbn. tauto.
  - exists (mkFGroup CAnd [f1]). split; [cbn; tauto|]. intros f [<-|[]]. exact H1.
Qed.
End Groups.
Print Assumptions C95_one_group_partial.
Print Assumptions C95_only_first_group_refuted.
Print Assumptions C95_meaning_lost_refuted.

(** ** C96 *)
Lemma v_eqb_eq a b : v_eqb a b = true <-> a = b.
Proof.
  destruct a, b; cbn; try (split; [discriminate|congruence]).
  - rewrite Z.eqb_eq. split; congruence.
  - rewrite String.eqb_eq. split; congruence.
  - rewrite Bool.eqb_true_iff. split; congruence.
  - rewrite andb_true_iff, Z.eqb_eq, Nat.eqb_eq. split; [intros [-> ->]; reflexivity|intros [= -> ->]; auto].
Qed.
Lemma o_eqb_eq a b : o_eqb a b = true <-> a = b.
Proof. destruct a, b; cbn; try rewrite v_eqb_eq; split; congruence. Qed.
Lemma group_in l v : In v (group_values l) <-> In v l.
Proof.
  induction l as [|x l IH]; [tauto|]. cbn [group_values]. destruct (existsb (o_eqb x) l) eqn:E.
  - rewrite IH. split; [now right|]. intros [<-|H]; [|exact H]. apply existsb_exists in E as (y & Hy & E). apply o_eqb_eq in E. now subst.
  - cbn [In]. now rewrite IH.
Qed.
Lemma group_nodup l : NoDup (group_values l).
Proof.
  induction l as [|x l IH]; [constructor|]. cbn [group_values]. destruct (existsb (o_eqb x) l) eqn:E; [exact IH|]. constructor; [|exact IH].
  rewrite group_in. intros H. assert (X : existsb (o_eqb x) l = true) by (apply existsb_exists; exists x; split; [exact H|now apply o_eqb_eq]). congruence.
Qed.
Lemma insert_asc_perm x l : Permutation (x :: l) (insert_asc x l).
Proof.
  induction l as [|y l IH]; [reflexivity|]. cbn [insert_asc]. destruct (o_leb x y); [reflexivity|]. transitivity (y :: x :: l); [constructor|now constructor].
Qed.
Lemma sort_asc_perm l : Permutation l (sort_asc l).
Proof. induction l as [|x l IH]; [constructor|]. cbn [sort_asc fold_right]. rewrite <- insert_asc_perm. now constructor. Qed.

(** values in order, absence last *)
Definition in_order (a b : option V) : Prop :=
  match a, b with
  | Some x, Some y => before x y \/ same x y
  | Some _, None => True
  | None, Some _ => False
  | None, None => True
  end.
Definition one_kind (l : list (option V)) : Prop := forall a b, In (Some a) l -> In (Some b) l -> same_kind a b.

Lemma leb_order a b : (forall x y, a = Some x -> b = Some y -> same_kind x y) -> (o_leb a b = true <-> in_order a b).
Proof.
  intros K. destruct a as [x|], b as [y|]; cbn [o_leb in_order]; try tauto; try (split; [discriminate|contradiction]).
  unfold v_leb. destruct (same_kind_cmp x y (K x y eq_refl eq_refl)) as (c & -> & A & B & C). destruct c.
  - split; [intros _; right; now apply A|reflexivity].
  - split; [intros _; left; now apply B|reflexivity].
  - split; [discriminate|]. intros [H|H]; [apply B in H|apply A in H]; discriminate.
Qed.
Lemma order_total a b : (forall x y, a = Some x -> b = Some y -> same_kind x y) -> ~ in_order a b -> in_order b a.
Proof.
  intros K H. destruct a as [x|], b as [y|]; cbn [in_order] in *; try tauto.
  destruct (same_kind_cmp x y (K x y eq_refl eq_refl)) as (c & _ & A & B & C). destruct c; [exfalso; apply H; right; now apply A|exfalso; apply H; left; now apply B|left; now apply C].
Qed.
Lemma str_lt_trans : forall x y z, String.compare x y = Lt -> String.compare y z = Lt -> String.compare x z = Lt.
Proof.
  induction x as [|a x IH]; intros [|b y] [|c z]; cbn; try discriminate; try reflexivity. unfold Ascii.compare.
  destruct (N.compare_spec (Ascii.N_of_ascii a) (Ascii.N_of_ascii b)) as [E1|E1|E1]; [| |discriminate];
  destruct (N.compare_spec (Ascii.N_of_ascii b) (Ascii.N_of_ascii c)) as [E2|E2|E2]; try discriminate; intros H1 H2.
  - rewrite E1, E2, N.compare_refl. eauto.
  - rewrite E1. apply N.compare_lt_iff in E2. now rewrite E2.
  - rewrite <- E2. apply N.compare_lt_iff in E1. now rewrite E1.
  - assert (L : (Ascii.N_of_ascii a < Ascii.N_of_ascii c)%N) by lia. apply N.compare_lt_iff in L. now rewrite L.
Qed.
Lemma le_trans_scaled m n k a b c : (0 < a)%Z -> (0 < b)%Z -> (0 < c)%Z -> (m * b <= n * a)%Z -> (n * c <= k * b)%Z -> (m * c <= k * a)%Z.
Proof.
  intros A B C H1 H2. apply (Zmult_le_reg_r _ _ b); [lia|].
  assert (X : (m * b * c <= n * a * c)%Z) by (apply Z.mul_le_mono_nonneg_r; lia).
  assert (Y : (n * c * a <= k * b * a)%Z) by (apply Z.mul_le_mono_nonneg_r; lia). lia.
Qed.
Lemma pow10 s : (0 < 10 ^ Z.of_nat s)%Z. Proof. apply Z.pow_pos_nonneg; lia. Qed.
Lemma order_trans a b c : (forall x y, a = Some x -> b = Some y -> same_kind x y) ->
  (forall x y, b = Some x -> c = Some y -> same_kind x y) -> in_order a b -> in_order b c -> in_order a c.
Proof.
  intros K1 K2. destruct a as [x|], b as [y|], c as [z|]; cbn [in_order]; try tauto. specialize (K1 x y eq_refl eq_refl). specialize (K2 y z eq_refl eq_refl).
  destruct x as [x|x|x|m s], y as [y|y|y|m' s'], z as [z|z|z|m'' s'']; try contradiction; cbn [before same].
  - intros [H|H] [G|G]; try injection H as ->; try injection G as ->; auto; left; lia.
  - intros [H|H] [G|G]; try injection H as ->; try injection G as ->; auto. left. eapply str_lt_trans; eauto.
  - intros [[-> ->]|H] [[G ->]|G]; try injection H as ->; try injection G as ->; auto; discriminate.
  - pose proof (le_trans_scaled m m' m'' _ _ _ (pow10 s) (pow10 s') (pow10 s'')) as T. intros H G.
    assert (X : (m * 10 ^ Z.of_nat s'' <= m'' * 10 ^ Z.of_nat s)%Z) by (apply T; lia). lia.
Qed.
Lemma sort_asc_ordered l : one_kind l -> ForallOrdPairs in_order (sort_asc l).
Proof.
  induction l as [|x l IH]; intros K; [constructor|]. cbn [sort_asc fold_right]. fold (sort_asc l).
  assert (K0 : forall y z, In y (x :: l) -> In z (x :: l) -> forall u v, y = Some u -> z = Some v -> same_kind u v) by (intros y z Hy Hz u v -> ->; now apply K).
  assert (IH' : ForallOrdPairs in_order (sort_asc l)) by (apply IH; intros u v Hu Hv; apply K; now right).
  assert (IN : forall y, In y (sort_asc l) -> In y (x :: l)) by (intros y Hy; right; apply (Permutation_in _ (Permutation_sym (sort_asc_perm l)) Hy)).
  clear IH K. induction (sort_asc l) as [|y s IHs]; [repeat constructor|]. inversion IH' as [|u v F G]; subst. cbn [insert_asc].
  pose proof (leb_order x y (K0 x y (or_introl eq_refl) (IN y (or_introl eq_refl)))) as LO. rewrite Forall_forall in F. destruct (o_leb x y) eqn:E.
  - constructor; [|exact IH']. constructor; [now apply LO|]. apply Forall_forall. intros z Hz.
    apply (order_trans x y z); [apply K0|apply K0| |]; auto; try (now left); try (apply IN; cbn; tauto). now apply LO.
  - constructor; [|apply IHs; [exact G|intros z Hz; apply IN; now right]]. apply Forall_forall. intros z Hz.
    apply (Permutation_in _ (Permutation_sym (insert_asc_perm x s))) in Hz. destruct Hz as [<-|Hz]; [|now apply F].
    apply (order_total x y); [apply K0; [now left|apply IN; now left]|]. intros X. apply LO in X. discriminate.
Qed.
Lemma NoDup_map_on {A B} (f : A -> B) l : (forall x y, In x l -> In y l -> f x = f y -> x = y) -> NoDup l -> NoDup (map f l).
Proof.
  intros I N. induction N as [|x l H N IH]; [constructor|]. cbn [map]. constructor.
  - intros X. apply in_map_iff in X as (y & E & Hy). apply H. rewrite (I x y); [exact Hy|now left|now right|now symmetry].
  - apply IH. intros y z Hy Hz. apply I; now right.
Qed.

Lemma Done_inj {A} (a b : A) : Done a = Done b -> a = b. Proof. congruence. Qed.
Lemma firstn_in {A} k (l : list A) x : In x (firstn k l) -> In x l.
Proof. intros H. rewrite <- (firstn_skipn k l). apply in_or_app. now left. Qed.

Section Values.
Variables like regex : string -> string -> bool.
Variable by_name : string -> option Z.
Variable custom : Z -> option (list Member).
Variable n : nat.

(** the events the request is about *)
Definition about (p : Z) (o : option EventRef) (r : Row) : Prop :=
  has r "project_id" p /\ match o with Some e => is_event like regex by_name custom r e | None => True end.
(** the value passes the filter of the request *)
Definition passes (q : ValuesReq) (r : Row) : Prop :=
  match vr_filter q with None => True | Some (o, vs) => meets like regex (mkFilter (vr_prop q) o vs) r end.
(** the answer: the different values of the property on these events, in order, at most 1000 *)
Definition lists (p : Z) (t : Store) (q : ValuesReq) (answer : list (option V)) : Prop :=
  exists full, NoDup full /\ ForallOrdPairs in_order full /\ answer = firstn 1000 full /\
    forall v, In v full <-> exists r, In r (t_rows t) /\ about p (vr_event q) r /\ passes q r /\ shown (vr_prop q) r = v.

Definition values_ok (t : Store) (q : ValuesReq) : Prop :=
  In (p_col (vr_prop q)) (t_cols t) /\
  (forall e, vr_event q = Some e -> plain_event by_name e) /\
  (forall c r x, In c ["project_id"; "event"] -> In r (t_rows t) -> r c = Some x -> exists z, x = VInt z) /\
  (forall r, In r (t_rows t) -> good_row (vr_prop q) r) /\
  (forall r r' a b, In r (t_rows t) -> In r' (t_rows t) -> shown (vr_prop q) r = Some a -> shown (vr_prop q) r' = Some b -> same_kind a b).

Lemma about_expression p o :
  (forall e, o = Some e -> plain_event by_name e) ->
  exists e, (match o with
             | None => Some (project_expression p)
             | Some ev => option_map (EAnd (project_expression p)) (event_expression by_name custom n ev)
             end) = Some e /\
    forall c, (forallb (fun x => mem x ["project_id"; "event"; c]) (columns_of e) = true) /\
    forall r, (forall c x, In c ["project_id"; "event"] -> r c = Some x -> exists z, x = VInt z) ->
      (keeps like regex e r = true <-> about p o r).
Proof.
  intros PE. unfold about. destruct o as [ev0|].
  - specialize (PE ev0 eq_refl).
    assert (EX : exists id, event_expression by_name custom n ev0 = Some (ECmp FEq COLUMN_EVENT (VInt id)) /\
              forall r, is_event like regex by_name custom r ev0 <-> r "event" = Some (VInt id)).
    { destruct ev0 as [s|id|id]; [destruct PE as (id & Hid)| |destruct PE].
      - exists id. split; [destruct n; cbn; now rewrite Hid|]. intros r. split; [|intros X; econstructor; eauto].
        intros X. inversion X; subst. congruence.
      - exists id. cbn in PE. split; [destruct n; cbn; unfold as_u16; now rewrite Z.mod_small|]. intros r. split; [|intros X; now constructor].
        intros X. inversion X; subst. assumption. }
    destruct EX as (id & EX & IS). rewrite EX. cbn [option_map]. eexists. split; [reflexivity|]. intros c. split.
    + reflexivity.
    + intros r H. rewrite keeps_true. cbn [eval]. rewrite and3_true, IS.
      change (eval like regex (project_expression p) r = Some true /\ eval like regex (ECmp FEq COLUMN_EVENT (VInt id)) r = Some true <-> has r "project_id" p /\ r "event" = Some (VInt id)).
      rewrite (project_true like regex p r) by (intros x; apply H; now left). rewrite (event_is like regex); [reflexivity|].
      intros x. apply H. cbn. tauto.
  - eexists. split; [reflexivity|]. intros c. split; [reflexivity|]. intros r H. rewrite keeps_true.
    rewrite (project_true like regex p r) by (intros x; apply H; now left). tauto.
Qed.

Lemma shown_back pr r v : good_row pr r -> r (p_col pr) = v ->
  shown pr r = match p_dict pr with Some d => option_map (decode_value d) v | None => v end.
Proof.
  intros G E. destruct (p_dict pr) as [d|] eqn:D.
  - rewrite <- E. symmetry. now apply shown_decoded.
  - unfold shown. now rewrite D.
Qed.

Lemma listed_values p t q e : values_ok t q ->
  (forall r, In r (t_rows t) -> (keeps like regex e r = true <-> about p (vr_event q) r)) ->
  let c := p_col (vr_prop q) in
  let vals := group_values (map (fun r => r c) (filter (keeps like regex e) (t_rows t))) in
  let sh := match p_dict (vr_prop q) with Some d => map (option_map (decode_value d)) vals | None => vals end in
  NoDup sh /\ forall v, In v sh <-> exists r, In r (t_rows t) /\ about p (vr_event q) r /\ shown (vr_prop q) r = v.
Proof.
  intros (_ & _ & _ & GR & _) K c vals sh.
  assert (VI : forall v, In v vals <-> exists r, In r (t_rows t) /\ about p (vr_event q) r /\ r c = v).
  { intros v. unfold vals. rewrite group_in, in_map_iff. split.
    - intros (r & E & H). apply filter_In in H as [H1 H2]. exists r. split; [exact H1|]. split; [now apply K|exact E].
    - intros (r & H1 & H2 & E). exists r. split; [exact E|]. apply filter_In. split; [exact H1|now apply K]. }
  unfold sh. destruct (p_dict (vr_prop q)) as [d|] eqn:D.
  - split.
    + apply NoDup_map_on; [|apply group_nodup]. intros x y Hx Hy E. apply VI in Hx as (r & Hr & _ & Ex). apply VI in Hy as (r' & Hr' & _ & Ey).
      pose proof (GR r Hr) as G. pose proof (GR r' Hr') as G'. unfold good_row in G, G'. rewrite D in G, G'. fold c in G, G'.
      destruct G as [ND G], G' as [_ G']. rewrite Ex in G. rewrite Ey in G'. destruct x as [x|], y as [y|]; try discriminate; [|reflexivity].
      destruct (G x eq_refl) as (k & -> & Hk). destruct (G' y eq_refl) as (k' & -> & Hk'). cbn in E. injection E as E.
      apply (proj1 (NoDup_nth d "") ND) in E; [|lia|lia]. do 2 f_equal. lia.
    + intros v. rewrite in_map_iff. split.
      * intros (x & <- & Hx). apply VI in Hx as (r & Hr & A & E). exists r. split; [exact Hr|]. split; [exact A|].
        rewrite (shown_back (vr_prop q) r x (GR r Hr) E), D. reflexivity.
      * intros (r & Hr & A & <-). exists (r c). split; [|apply VI; eauto]. rewrite (shown_back (vr_prop q) r (r c) (GR r Hr) eq_refl), D. reflexivity.
  - split; [apply group_nodup|]. intros v. rewrite VI. split; intros (r & Hr & A & E); exists r; (split; [exact Hr|]; split; [exact A|]);
      unfold shown in *; rewrite ?D in *; exact E.
Qed.

(** Without a filter, for every property; with a filter the code treats as meant, for properties
    that are neither texts in a dictionary nor times. *)
Theorem C96_values_partial p t q : values_ok t q ->
  (forall o vs, vr_filter q = Some (o, vs) ->
     p_dict (vr_prop q) = None /\ p_time (vr_prop q) = false /\ accepted (mkFilter (vr_prop q) o vs) /\
     forall r, In r (t_rows t) -> clear_on (mkFilter (vr_prop q) o vs) r) ->
  exists l, values like regex by_name custom n p t q = Done l /\ lists p t q l.
Proof.
  intros OK HF. pose proof OK as (TC & PE & NU & GR & KI).
  destruct (about_expression p (vr_event q) PE) as (e & He & Hc). destruct (Hc (p_col (vr_prop q))) as [Hcol Hk].
  assert (K : forall r, In r (t_rows t) -> (keeps like regex e r = true <-> about p (vr_event q) r)).
  { intros r Hr. apply Hk. intros c x H. now apply NU. }
  destruct (listed_values p t q e OK K) as [ND IN]. unfold values. rewrite He, (proj2 (mem_In _ _) TC). cbn [negb]. rewrite Hcol.
  set (c := p_col (vr_prop q)) in *. set (vals := group_values (map (fun r => r c) (filter (keeps like regex e) (t_rows t)))) in *.
  set (sh := match p_dict (vr_prop q) with Some d => map (option_map (decode_value d)) vals | None => vals end) in *.
  assert (FIN : forall l, NoDup l -> (forall v, In v l <-> exists r, In r (t_rows t) /\ about p (vr_event q) r /\ passes q r /\ shown (vr_prop q) r = v) ->
            lists p t q (firstn 1000 (sort_asc l))).
  { intros l NDl Il. exists (sort_asc l). split; [apply (Permutation_NoDup (sort_asc_perm l)), NDl|]. split.
    - apply sort_asc_ordered. intros a b Ha Hb. apply Il in Ha as (r & Hr & _ & _ & Ea). apply Il in Hb as (r' & Hr' & _ & _ & Eb). eapply KI; [exact Hr|exact Hr'|exact Ea|exact Eb].
    - split; [reflexivity|]. intros v. rewrite <- Il. split; apply Permutation_in; [apply Permutation_sym|]; apply sort_asc_perm. }
  destruct (vr_filter q) as [[o vs]|] eqn:F.
  - destruct (HF o vs eq_refl) as (D & T & A & Cl). rewrite D. cbn [option_map].
    replace (mkFProp c None (p_time (vr_prop q))) with (vr_prop q) by (destruct (vr_prop q); cbn in *; subst; reflexivity).
    set (f := mkFilter (vr_prop q) o vs) in *.
    assert (ME : exists x, prop_expression f = Some x /\ forall r, In r (t_rows t) -> (keeps like regex x (fun _ => r c) = true <-> meets like regex f r)).
    { destruct (accepted_expr f A) as (x & Hx). exists x.
      assert (PX : prop_expression f = Some x).
      { destruct A as [W _]. destruct (needs_values (f_op f)) eqn:NV; [now rewrite <- (fix_same (fun _ => None) f NV T W)|].
        unfold well_typed in W. unfold prop_expression in Hx |- *. rewrite fixed_prop, fixed_op, fixed_some in Hx.
        assert (FV : f_vals f = None \/ f_vals f = Some []).
        { destruct (f_vals f) as [[|v l]|]; auto. destruct W as [[_ W] _]. rewrite NV in W. discriminate W. discriminate. }
        assert (FX : fixed_vals f = []) by (unfold fixed_vals, fix_filter; cbn [f_vals]; destruct FV as [E| E]; rewrite E; reflexivity). rewrite FX in Hx.
        destruct FV as [E| E]; rewrite E; destruct (f_op f); try discriminate NV; destruct (p_dict (f_prop f)); exact Hx. }
      split; [exact PX|]. intros r Hr. destruct (Cl r Hr) as (W & G & S0).
      assert (SE : sees f r (fun _ => r c)) by (unfold sees, f; cbn [f_prop]; rewrite D; reflexivity).
      destruct (filter_meets like regex f r _ W G S0 SE) as (x' & Hx' & M). assert (x' = x) by congruence. subst x'. rewrite keeps_true. exact M. }
    destruct ME as (x & Hx & M). rewrite Hx. eexists. split; [reflexivity|]. unfold sh in *. rewrite D in *. apply FIN; [now apply NoDup_filter|].
    intros v. rewrite filter_In. unfold passes. rewrite F. fold f. split.
    + intros [Hv Kv]. apply IN in Hv as (r & Hr & Ab & Sv). exists r. split; [exact Hr|]. split; [exact Ab|]. split; [|exact Sv].
      apply (M r Hr). unfold shown in Sv. rewrite D in Sv. fold c in Sv. now rewrite Sv.
    + intros (r & Hr & Ab & Ps & Sv). split; [apply IN; eauto|]. unfold shown in Sv. rewrite D in Sv. fold c in Sv. rewrite <- Sv. now apply M.
  - eexists. split; [reflexivity|]. apply FIN; [exact ND|]. intros v. rewrite IN. unfold passes. rewrite F. split.
    + intros (r & A & B & C). eauto.
    + intros (r & A & B & _ & C). eauto.
Qed.

(** Looking for the values equal to a text among a dictionary property's values compares the
    texts with the text's number: the text itself is not listed although events have it. *)
Theorem C96_dictionary_filter_refuted p t q d s k l :
  p_dict (vr_prop q) = Some d -> vr_filter q = Some (FEq, Some [VStr s]) -> key_of (vr_enc q) s 1 = Some k -> s <> show k ->
  (forall r, In r (t_rows t) -> good_row (vr_prop q) r) ->
  values like regex by_name custom n p t q = Done l ->
  ~ In (Some (VStr s)) l.
Proof.
  intros D F E NE GR H X. unfold values in H. rewrite D, F in H. cbn [option_map] in H.
  destruct (match vr_event q with Some _ => _ | None => _ end) as [e|]; [|discriminate H].
  destruct (negb _); [discriminate H|]. destruct (forallb _ _); [|discriminate H].
  unfold prop_expression in H. cbn [f_vals f_op f_prop p_dict p_col encode] in H. rewrite E in H. cbn [named_property_expression map multi_or fold_left] in H.
  apply Done_inj in H. rewrite <- H in X. apply firstn_in in X as Y.
  apply (Permutation_in _ (Permutation_sym (sort_asc_perm _))) in Y. apply filter_In in Y as [_ Y]. apply keeps_true in Y. cbn [eval eval_cmp vcmp option_map] in Y.
  injection Y as Y. destruct (String.compare s (show k)) eqn:C; try discriminate Y. apply str_cmp_eq in C. contradiction.
Qed.
(** Values on the events of a custom event that filters by another property: refused. *)
Theorem C96_custom_event_refuted m p t q id ev0 f :
  vr_event q = Some (RCustom id) -> custom id = Some [mkMember ev0 (Some [f])] -> n = S m ->
  ~ In (p_col (f_prop f)) ["project_id"; "event"; p_col (vr_prop q)] -> In (p_col (vr_prop q)) (t_cols t) ->
  values like regex by_name custom n p t q = Refused.
Proof.
  intros E C -> NI TC. unfold values. rewrite E. cbn [event_expression]. rewrite C. cbn [map mb_event mb_filters].
  destruct (event_expression by_name custom m ev0) as [x|]; [|reflexivity]. unfold event_filters_expression. cbn [map].
  destruct (prop_expression f) as [y|] eqn:P; [|reflexivity]. cbn [all_some option_map multi_and multi_or fold_left]. rewrite (proj2 (mem_In _ _) TC). cbn [negb].
  destruct (forallb _ _) eqn:B; [|reflexivity]. exfalso. apply NI. rewrite forallb_forall in B. apply mem_In. apply B.
  cbn [columns_of]. rewrite !in_app_iff. right. right. now apply prop_reads.
Qed.
End Values.
Print Assumptions C96_values_partial.
Print Assumptions C96_dictionary_filter_refuted.
Print Assumptions C96_custom_event_refuted.

(** ** Witnesses *)
Module Example94.
Fixpoint row_of (l : list (string * V)) (c : string) : option V :=
  match l with [] => None | (k, v) :: tl => if String.eqb k c then Some v else row_of tl c end.
Definition pre (a p : string) : bool := String.prefix p a.
Definition by_name (s : string) : option Z := if String.eqb s "buy" then Some 3%Z else None.
Definition custom (i : Z) : option (list Member) := None.
Definition cities := ["rome"; "paris"; "athens"].
Definition city := mkPDef "event:City" "City" (mkFProp "e_string_1" (Some cities) false).
Definition price := mkPDef "event:Price" "Price" (mkFProp "e_decimal_1" None false).
Definition eid := mkPDef "event:Event ID" "Event ID" (mkFProp "event_id" None false).
Definition r1 := row_of [("project_id", VInt 1); ("event", VInt 3); ("created_at", VInt 10); ("event_id", VInt 1); ("e_string_1", VInt 2); ("e_decimal_1", VDec 5 0)].
Definition r2 := row_of [("project_id", VInt 1); ("event", VInt 3); ("created_at", VInt 20); ("event_id", VInt 2); ("e_string_1", VInt 1)].
Definition r3 := row_of [("project_id", VInt 2); ("event", VInt 3); ("created_at", VInt 21); ("event_id", VInt 3); ("e_string_1", VInt 2)].
Definition r4 := row_of [("project_id", VInt 1); ("event", VInt 3); ("created_at", VInt 22); ("event_id", VInt 4); ("e_string_1", VInt 2); ("e_decimal_1", VDec 7 0)].
Definition r5 := row_of [("project_id", VInt 1); ("event", VInt 8); ("created_at", VInt 22); ("event_id", VInt 5); ("e_string_1", VInt 3); ("e_decimal_1", VDec 5 0)].
Definition t := mkStore ["project_id"; "event"; "created_at"; "event_id"; "e_string_1"; "e_decimal_1"] [r1; r2; r3; r4; r5].
Definition paris := mkFilter (d_prop city) FEq (Some [VStr "paris"]).
Definition q := mkSearch 5 30 (Some [mkMember (RName "buy") (Some [paris])]) None (Some [eid; city; price]).

Lemma cities_nodup : NoDup cities.
Proof. repeat (constructor; [cbn; intuition discriminate|]). constructor. Qed.
Lemma keys c d : c = "e_string_1" -> d = cities -> forall r, In r (t_rows t) -> NoDup d /\ forall x, r c = Some x -> exists k, x = VInt k /\ (1 <= k <= Z.of_nat (List.length d))%Z.
Proof.
  intros -> -> r Hr. split; [exact cities_nodup|]. cbn in Hr.
  destruct Hr as [<-|[<-|[<-|[<-|[<-|[]]]]]]; intros x [= <-]; eexists; (split; [reflexivity|cbn; lia]).
Qed.
Lemma ints : forall c r x, In c event_sys -> In r (t_rows t) -> r c = Some x -> exists z, x = VInt z.
Proof.
  intros c r x Hc Hr. cbn in Hc, Hr.
  destruct Hc as [<-|[<-|[<-|[<-|[]]]]]; destruct Hr as [<-|[<-|[<-|[<-|[<-|[]]]]]]; intros [= <-]; eauto.
Qed.
Lemma paris_ok : accepted paris /\ forall r, In r (t_rows t) -> clear_on paris r.
Proof.
  assert (W : forall r, well_typed paris r).
  { intros r. split; [split; [discriminate|reflexivity]|]. split; [reflexivity|]. intros v [<-|[]]. eauto. }
  assert (K : forall d, p_dict (f_prop paris) = Some d -> is_pattern (f_op paris) = false -> known d paris).
  { intros d [= <-] _ vs s [= <-] [[= <-]|[]]. cbn. tauto. }
  split; [split; [apply W|exact K]|]. intros r Hr. split; [apply W|]. split; [exact (keys _ _ eq_refl eq_refl r Hr)|]. split; [reflexivity|]. split; [exact K|discriminate].
Qed.
Lemma good ps : (forall d, In d ps -> d = eid \/ d = city \/ d = price) -> good_rows ps (t_rows t).
Proof. intros H d r Hd Hr. destruct (H d Hd) as [->|[->| ->]]; [exact I|exact (keys _ _ eq_refl eq_refl r Hr)|exact I]. Qed.
Lemma plain : plain_props [eid; city; price].
Proof. split; repeat (constructor; [cbn; intuition discriminate|]); constructor. Qed.
Lemma paris_fair : fair [paris] (t_rows t).
Proof.
  split; [intros f g [<-|[]] [<-|[]] _; split; [reflexivity|discriminate]|].
  split; [intros f [<-|[]]; apply paris_ok|intros f r [<-|[]]; apply paris_ok].
Qed.

(** the two purchases from paris in project 1, the newest first *)
Example C91_witness :
  search_ok by_name t q [eid; city; price] /\
  search_events pre pre by_name custom 3 1 [eid; city; price] t (fix_search_request q) =
  Done [mkColumn "event:Event ID" "Event ID" [Some (VInt 4); Some (VInt 1)];
        mkColumn "event:City" "City" [Some (VStr "paris"); Some (VStr "paris")];
        mkColumn "event:Price" "Price" [Some (VDec 7 0); Some (VDec 5 0)]].
Proof.
  split; [|vm_compute; reflexivity]. split; [reflexivity|]. split; [exact plain|]. split; [cbn; tauto|]. split; [reflexivity|]. split.
  { intros ms [= <-]. split; [discriminate|]. intros m [<-|[]]. split; [discriminate|]. exists 3%Z. reflexivity. }
  split; [intros f [<-|[]]; cbn; tauto|]. split; [intros c H; cbn in *; intuition subst; tauto|].
  split; [intros f d [<-|[]] [<-|[<-|[<-|[]]]]; cbn; congruence|]. split; [split; [exact ints|]|].
  { intros f [<-|[]] H. cbn in H. intuition discriminate. }
  split; [exact paris_fair|]. apply good. intros d [<-|[<-|[<-|[]]]]; auto.
Qed.
(** the same search with the filter on the request, with the event without filters, without the
    event id, and with a filter on a column that is not asked for *)
Example C91_refuted_witness :
  search_events pre pre by_name custom 3 1 [] t (fix_search_request (mkSearch 5 30 (Some [mkMember (RId 8) (Some [])]) (Some [paris]) (Some [eid; city]))) =
  Done [mkColumn "event:Event ID" "Event ID" [Some (VInt 5)]; mkColumn "event:City" "City" [Some (VStr "athens")]] /\
  search_events pre pre by_name custom 3 1 [] t (fix_search_request (mkSearch 5 30 (Some [mkMember (RId 8) None]) None (Some [eid]))) =
  Done [mkColumn "event:Event ID" "Event ID" [Some (VInt 5); Some (VInt 4); Some (VInt 2); Some (VInt 1)]] /\
  search_events pre pre by_name custom 3 1 [] t (fix_search_request (mkSearch 5 30 None None (Some [city]))) = Crashed /\
  search_events pre pre by_name custom 3 1 [] t (fix_search_request (mkSearch 5 30 (Some [mkMember (RName "buy") (Some [paris])]) None (Some [eid]))) = Refused.
Proof. vm_compute. repeat split; reflexivity. Qed.

(** groups *)
Definition name := mkPDef "group:Name" "Name" (mkFProp "g_0_string_1" (Some cities) false).
Definition idp := mkPDef "group:ID" "ID" (mkFProp "id" None false).
Definition g1 := row_of [("project_id", VInt 1); ("id", VInt 1); ("version", VInt 1); ("created_at", VInt 10); ("g_0_string_1", VInt 2)].
Definition g2 := row_of [("project_id", VInt 1); ("id", VInt 2); ("version", VInt 1); ("created_at", VInt 20); ("g_0_string_1", VInt 2)].
Definition g3 := row_of [("project_id", VInt 2); ("id", VInt 3); ("version", VInt 1); ("created_at", VInt 20); ("g_0_string_1", VInt 2)].
Definition tg := mkStore ["project_id"; "id"; "version"; "created_at"; "g_0_string_1"] [g1; g2; g3].
Definition named_paris := mkFilter (d_prop name) FEq (Some [VStr "paris"]).
Definition gq := mkGroupReq None (Some [named_paris]) (Some [idp; name]) None.
Lemma gkeys : forall r, In r (t_rows tg) -> good_row (d_prop name) r.
Proof.
  intros r Hr. split; [exact cities_nodup|]. cbn in Hr. destruct Hr as [<-|[<-|[<-|[]]]]; intros x [= <-]; eexists; (split; [reflexivity|cbn; lia]).
Qed.
Example C92_witness :
  group_ok tg gq [idp; name] /\
  search_groups pre pre 1 [] tg (fix_group_request gq) =
  Done [mkColumn "group:ID" "ID" [Some (VInt 1); Some (VInt 2)]; mkColumn "group:Name" "Name" [Some (VStr "paris"); Some (VStr "paris")]] /\
  (* the time range 15-30 is not applied *)
  search_groups pre pre 1 [] tg (fix_group_request (mkGroupReq (Some (15, 30)%Z) (gr_filters gq) (gr_props gq) None)) =
  search_groups pre pre 1 [] tg (fix_group_request gq) /\
  search_groups pre pre 1 [] tg (fix_group_request (mkGroupReq (Some (15, 30)%Z) None (Some [idp]) None)) =
  Done [mkColumn "group:ID" "ID" [Some (VInt 2)]].
Proof.
  split; [|vm_compute; repeat split; reflexivity]. split; [reflexivity|]. split; [discriminate|]. split.
  { split; repeat (constructor; [cbn; intuition discriminate|]); constructor. }
  split; [now left|]. split; [intros f [<-|[]]; cbn; tauto|]. split; [intros c H; cbn in *; intuition subst; tauto|].
  split; [intros f d [<-|[]] [<-|[<-|[]]]; cbn; congruence|]. split; [split|].
  { intros c r x Hc Hr. cbn in Hc, Hr. destruct Hc as [<-|[<-|[<-|[<-|[]]]]]; destruct Hr as [<-|[<-|[<-|[]]]]; intros [= <-]; eauto. }
  { intros f [<-|[]] H. cbn in H. intuition discriminate. }
  split; [|intros d r [<-|[<-|[]]] Hr; [exact I|now apply gkeys]].
  assert (W : forall r, well_typed named_paris r).
  { intros r. split; [split; [discriminate|reflexivity]|]. split; [reflexivity|]. intros v [<-|[]]. eauto. }
  assert (K : forall d, p_dict (f_prop named_paris) = Some d -> is_pattern (f_op named_paris) = false -> known d named_paris).
  { intros d [= <-] _ vs s [= <-] [[= <-]|[]]. cbn. tauto. }
  split; [intros f g [<-|[]] [<-|[]] _; split; [reflexivity|discriminate]|]. split; [intros f [<-|[]]; split; [apply W|exact K]|].
  intros f r [<-|[]] Hr. split; [apply W|]. split; [now apply gkeys|]. split; [reflexivity|]. split; [exact K|discriminate].
Qed.

(** no list of properties: two columns are labelled crosswise, one column too many fails *)
Definition sysp c := mkPDef c c (mkFProp c None false).
Definition sys4 := map sysp event_sys.
Definition all_q := mkSearch 5 30 None None None.
Example C93_witness :
  map d_col (sys4 ++ [city; price])%list = t_cols t /\ plain_props (sys4 ++ [city; price])%list /\ numbers event_sys [] (t_rows t) /\
  good_rows (sys4 ++ [city; price])%list (t_rows t) /\
  (exists r, search_events pre pre by_name custom 3 1 (sys4 ++ [city; price])%list t (fix_search_request all_q) = Done r /\ List.length r = 6%nat) /\
  search_events pre pre by_name custom 3 1 (sys4 ++ [city])%list t (fix_search_request all_q) = Crashed /\
  (exists r, search_events pre pre by_name custom 3 1 (sys4 ++ [price; city])%list t (fix_search_request all_q) = Done r /\
     nth_error r 4 = Some (mkColumn "event:Price" "City" [Some (VStr "athens"); Some (VStr "paris"); Some (VStr "rome"); Some (VStr "paris")])).
Proof.
  split; [reflexivity|]. split; [split; repeat (constructor; [cbn; intuition discriminate|]); constructor|].
  split; [split; [exact ints|intros f []]|]. split.
  { intros d r Hd Hr. apply in_app_or in Hd as [Hd|[<-|[<-|[]]]]; [|exact (keys _ _ eq_refl eq_refl r Hr)|exact I].
    apply in_map_iff in Hd as (c & <- & _). exact I. }
  split; [eexists; split; vm_compute; reflexivity|]. split; [vm_compute; reflexivity|]. eexists; split; vm_compute; reflexivity.
Qed.

Definition blank (c : string) : V := if String.eqb c "e_decimal_1" then VDec 0 0 else VStr "".
Example C94_witness :
  is_record "event_id" 1 4 r4 /\
  lookup pre pre blank "event_id" 1 [eid; city; price] t 4 =
    Done [("event:Event ID", VInt 4); ("event:City", VStr "paris"); ("event:Price", VDec 7 0)] /\
  lookup pre pre blank "event_id" 1 [eid; city; price] t 2 =
    Done [("event:Event ID", VInt 2); ("event:City", VStr "rome"); ("event:Price", VDec 0 0)] /\
  lookup pre pre blank "event_id" 1 [eid; city; price] t 9 = Crashed.
Proof. vm_compute. repeat split; reflexivity. Qed.

Example C95_witness :
  meets pre pre paris r4 /\ ~ meets pre pre paris r5 /\
  exists fs, request_filters (Some (mkFGroups COr [mkFGroup CAnd [paris]])) = Done (Some fs) /\ fs = [paris] /\
  request_filters (Some (mkFGroups COr [])) = Crashed.
Proof.
  split; [exists (VStr "paris"), (VStr "paris"); vm_compute; auto|]. split.
  - intros (a & b & A & [<-|[]] & B). vm_compute in A. injection A as <-. discriminate B.
  - eexists. repeat split.
Qed.

Definition vq f := mkValues (d_prop city) cities (Some (RName "buy")) f.
Definition vp f := mkValues (d_prop price) [] None f.
Example C96_witness :
  values_ok by_name t (vq None) /\
  values pre pre by_name custom 3 1 t (vq None) = Done [Some (VStr "paris"); Some (VStr "rome")] /\
  values pre pre by_name custom 3 1 t (vp None) = Done [Some (VDec 5 0); Some (VDec 7 0); None] /\
  values pre pre by_name custom 3 1 t (vp (Some (FGt, Some [VDec 55 1]))) = Done [Some (VDec 7 0)] /\
  (* paris is not among the values equal to paris *)
  values pre pre by_name custom 3 1 t (vq (Some (FEq, Some [VStr "paris"]))) = Done [].
Proof.
  split; [|vm_compute; repeat split; reflexivity]. split; [cbn; tauto|]. split; [intros e [= <-]; exists 3%Z; reflexivity|].
  split; [intros c r x Hc; apply ints; cbn in *; tauto|]. split; [intros r Hr; exact (keys _ _ eq_refl eq_refl r Hr)|].
  intros r r' a b Hr Hr'. cbn in Hr, Hr'.
  destruct Hr as [<-|[<-|[<-|[<-|[<-|[]]]]]]; intros A; destruct Hr' as [<-|[<-|[<-|[<-|[<-|[]]]]]]; intros B; vm_compute in A, B; injection A as <-; injection B as <-; exact I.
Qed.
End Example94.
