(** Facts about funnel reports put together from several workers. *)
From Coq Require Import List ZArith Bool Arith Lia Permutation Sorted.
From Verif Require Import AMap Calendar Funnel FunnelSpec FunnelFacts FunnelRun PropsFunnel
  FunnelRatio.
Import ListNotations.
Local Open Scope Z_scope.

(** *** One line per breakdown value and bucket *)
Definition keeps (c : Cfg) (g : Group) : Prop := map fst (g_buckets g) = c_buckets c.

Lemma modify_keys : forall k f b, map fst (modify k f b) = map fst b.
Proof.
  intros k f b. unfold modify. rewrite map_map. apply map_ext. intros [x y]. cbn [fst].
  destruct (x =? k); reflexivity.
Qed.

Lemma push_keeps : forall c g g' b, push_result c g = Some (g', b) -> keeps c g -> keeps c g'.
Proof.
  intros c g g' b H K. unfold push_result in H. destruct (g_done g =? 0)%nat; [congruence|].
  destruct (bucket_key c g); [|discriminate]. injection H as <- _. unfold keeps. cbn [g_buckets].
  rewrite modify_keys. exact K.
Qed.

Lemma attempt_keeps : forall c r g g', guard_attempt c r g = Some g' -> keeps c g -> keeps c g'.
Proof.
  intros c r g g' H K. unfold guard_attempt in H. destruct (g_cur g =? 0)%nat; [congruence|].
  destruct (check_exclude _ _ _); [|injection H as <-; exact K].
  destruct (_ <? _); [|congruence].
  destruct (push_result c g) as [[g1 b]|] eqn:E; [|discriminate]. injection H as <-.
  exact (push_keeps c g g1 b E K).
Qed.

Lemma const_keeps : forall c bt i r g g', guard_const c bt i r g = Some g' -> keeps c g -> keeps c g'.
Proof.
  intros c bt i r g g' H K. unfold guard_const in H. destruct (c_consts c); [|congruence].
  destruct (g_cur g =? 0)%nat; [injection H as <-; exact K|].
  destruct (check_constants bt g r) as [[|]|]; [| |discriminate]; [congruence|injection H as <-; exact K].
Qed.

Lemma part_keeps : forall c r g g', guard_part c r g = Some g' -> keeps c g -> keeps c g'.
Proof.
  intros c r g g' H K. unfold guard_part in H. destruct (_ =? _); [congruence|].
  destruct (push_result c g) as [[g1 b]|] eqn:E; [|discriminate]. injection H as <-.
  exact (push_keeps c g g1 b E K).
Qed.

Lemma advance_keeps : forall c r g g' b, advance c r g = Some (g', b) -> keeps c g -> keeps c g'.
Proof.
  intros c r g g' b H K. unfold advance in H.
  destruct (matches c r (g_cur g)) as [[|]|]; [| |discriminate]; [|congruence].
  destruct (_ <? _)%nat; [injection H as <- _; exact K|].
  match type of H with context [push_result c ?x] => destruct (push_result c x) as [[g1 b1]|] eqn:E end;
    [|discriminate].
  injection H as <- _. apply push_keeps in E; exact E || exact K.
Qed.

Lemma row_keeps : forall c bt i r g g' b, do_row c bt i r g = Some (g', b) -> keeps c g -> keeps c g'.
Proof.
  intros c bt i r g g' b H K. unfold do_row in H.
  set (g0 := if g_first g then set_part g (r_part r) else g) in H.
  assert (K0 : keeps c g0) by (unfold g0; destruct (g_first g); exact K).
  destruct (guard_attempt c r g0) as [g1|] eqn:E1; [|discriminate].
  destruct (guard_const c bt i r g1) as [g2|] eqn:E2; [|discriminate].
  destruct (guard_part c r g2) as [g3|] eqn:E3; [|discriminate].
  exact (advance_keeps _ _ _ _ _ H (part_keeps _ _ _ _ E3
           (const_keeps _ _ _ _ _ _ E2 (attempt_keeps _ _ _ _ E1 K0)))).
Qed.

Definition one_each (c : Cfg) (f : Funnel) : Prop :=
  NoDup (akeys (f_groups f)) /\ forall k g, In (k, g) (f_groups f) -> keeps c g.

Lemma in_adel : forall (k x : GKey) (g : Group) m, In (x, g) (adel gkey_dec k m) -> In (x, g) m /\ x <> k.
Proof.
  intros k x g m. induction m as [|[y h] m IH]; cbn [adel]; [intros []|].
  destruct (gkey_dec k y) as [->|D]; intro H.
  - destruct (IH H) as (A & B). split; [right; exact A|exact B].
  - destruct H as [E|H].
    + injection E as -> ->. split; [left; reflexivity|congruence].
    + destruct (IH H) as (A & B). split; [right; exact A|exact B].
Qed.

Lemma one_each_set : forall c f k g x b, one_each c f -> keeps c g ->
  one_each c (mkF (aset gkey_dec k g (f_groups f)) x b).
Proof.
  intros c f k g x b (ND & KS) K. split; cbn [f_groups aset].
  - cbn [akeys map fst]. constructor.
    + intro X. unfold akeys in X. apply in_map_iff in X. destruct X as ([y h] & E & Hin). cbn in E.
      subst y. apply in_adel in Hin. destruct Hin as (_ & N). congruence.
    + change (NoDup (akeys (adel gkey_dec k (f_groups f)))). rewrite akeys_adel.
      assert (R : forall l, NoDup l -> NoDup (remove gkey_dec k l)).
      { induction l as [|y l IH]; intro N0; [constructor|]. apply NoDup_cons_iff in N0. destruct N0 as (A & B).
        cbn [remove]. destruct (gkey_dec k y); [exact (IH B)|]. constructor; [|exact (IH B)].
        intro X. apply in_remove in X. apply A. apply X. }
      apply R. exact ND.
  - intros y h [E|H].
    + injection E as <- <-. exact K.
    + apply in_adel in H. exact (KS y h (proj1 H)).
Qed.

Lemma new_keeps : forall c, keeps c (new_group c).
Proof. intro c. unfold keeps, new_group. cbn [g_buckets]. rewrite map_map. cbn [fst]. apply map_id. Qed.

Lemma rows_keep : forall c e bt rows i f f', eval_rows c e bt i rows f = Some f' ->
  one_each c f -> one_each c f'.
Proof.
  intros c e bt rows. induction rows as [|r rows IH]; intros i f f' H K; cbn [eval_rows] in H.
  - congruence.
  - destruct (_ && _ && _); [exact (IH _ _ _ H K)|].
    destruct (match e with None => false | Some us => _ end);
      [exact (IH _ (mkF (f_groups f) (f_cur f) false) _ H K)|].
    cbn [f_groups] in H.
    set (g := match aget gkey_dec (r_key r) (f_groups f) with Some g => g | None => new_group c end) in H.
    assert (Kg : keeps c g).
    { unfold g. destruct (aget gkey_dec (r_key r) (f_groups f)) as [h|] eqn:A; [|apply new_keeps].
      destruct K as (_ & KS). apply (KS (r_key r)).
      clear -A. induction (f_groups f) as [|[y h'] l IH']; [discriminate|]. cbn [aget] in A.
      destruct (gkey_dec (r_key r) y) as [->|_]; [injection A as ->; left; reflexivity|right; exact (IH' A)]. }
    destruct (do_row c bt i r g) as [[g' skip]|] eqn:D; [|discriminate].
    apply (IH _ _ _ H). apply one_each_set; [exact K|exact (row_keeps _ _ _ _ _ _ _ D Kg)].
Qed.

Lemma run_keeps : forall c e bs f f', evaluate_all c e bs f = Some f' -> one_each c f -> one_each c f'.
Proof.
  intros c e bs. induction bs as [|b bs IH]; intros f f' H K; cbn [evaluate_all] in H; [congruence|].
  destruct (evaluate c e b f) as [f1|] eqn:E; [|discriminate]. apply (IH _ _ H).
  unfold evaluate in E. destruct b; [discriminate|]. destruct (_ <? _); [discriminate|].
  exact (rows_keep _ _ _ _ _ _ _ E K).
Qed.

Lemma push_all_keeps : forall c gs gs', push_all c gs = Some gs' ->
  (forall k g, In (k, g) gs -> keeps c g) ->
  map fst gs' = map fst gs /\ forall k g, In (k, g) gs' -> keeps c g.
Proof.
  intros c gs. induction gs as [|[k g] gs IH]; intros gs' H K; cbn [push_all] in H.
  - injection H as <-. split; [reflexivity|intros k g []].
  - destruct (push_result c g) as [[g1 b]|] eqn:E; [|discriminate].
    destruct (push_all c gs) as [r|]; [|discriminate]. injection H as <-.
    destruct (IH r eq_refl) as (A & B); [intros k0 g0 H0; apply (K k0); right; exact H0|].
    split; [cbn [map fst]; rewrite A; reflexivity|].
    intros k0 g0 [X|X]; [|exact (B _ _ X)]. injection X as <- <-.
    apply (push_keeps _ _ _ _ E). apply (K k). left. reflexivity.
Qed.

Lemma NoDup_filter_map : forall {A B} (f : A -> B) p l, NoDup (map f l) -> NoDup (map f (filter p l)).
Proof.
  intros A B f p l. induction l as [|x l IH]; intro H; [constructor|]. cbn [map] in H.
  apply NoDup_cons_iff in H. destruct H as (N & H). cbn [filter]. destruct (p x); [|exact (IH H)].
  cbn [map]. constructor; [|exact (IH H)]. intro X. apply N. apply in_map_iff in X.
  destruct X as (y & E & Hy). apply filter_In in Hy. rewrite <- E. apply in_map. apply Hy.
Qed.

Lemma NoDup_app_two : forall {A} (l m : list A), NoDup l -> NoDup m ->
  (forall x, In x l -> ~ In x m) -> NoDup (l ++ m).
Proof.
  intros A l m Hl Hm D. induction l as [|x l IH]; [exact Hm|]. apply NoDup_cons_iff in Hl.
  destruct Hl as (N & Hl). cbn [app]. constructor.
  - intro X. apply in_app_iff in X. destruct X as [X|X]; [exact (N X)|]. exact (D x (or_introl eq_refl) X).
  - apply IH; [exact Hl|]. intros y Hy. apply D. right. exact Hy.
Qed.

Lemma lines_once : forall c e bs ls, funnel c e bs = Some ls -> NoDup (c_buckets c) -> NoDup (map fst ls).
Proof.
  intros c e bs ls H NB. unfold funnel in H.
  destruct (evaluate_all c e bs funnel0) as [f|] eqn:E; [|discriminate].
  assert (O : one_each c f).
  { apply (run_keeps _ _ _ _ _ E). split; [constructor|intros k g []]. }
  destruct O as (ND & KS). unfold finalize in H.
  destruct (push_all c (f_groups f)) as [gs|] eqn:P; [|discriminate]. injection H as <-.
  destruct (push_all_keeps c _ _ P KS) as (A & B). unfold akeys in ND. rewrite <- A in ND.
  clear -ND B NB. induction gs as [|[k g] gs IH]; [constructor|]. cbn [flat_map map fst] in *.
  apply NoDup_cons_iff in ND. destruct ND as (NI & ND).
  rewrite map_app. apply NoDup_app_two.
  - unfold group_lines. cbn [fst snd]. rewrite map_map. cbn [fst].
    assert (Kg := B k g (or_introl eq_refl)). unfold keeps in Kg. rewrite <- Kg in NB.
    apply (NoDup_filter_map fst (fun kb => counted (snd kb))) in NB.
    revert NB. generalize (filter (fun kb : Z * list StepResult => counted (snd kb)) (g_buckets g)).
    intros l NB. induction l as [|x l IHl]; [constructor|]. cbn [map] in *.
    apply NoDup_cons_iff in NB. destruct NB as (N1 & N2). constructor; [|exact (IHl N2)].
    intro X. apply in_map_iff in X. destruct X as (y & Ey & Hy). injection Ey as Ey. apply N1.
    rewrite <- Ey. apply in_map. exact Hy.
  - apply IH; [exact ND|]. intros k0 g0 H0. apply (B k0). right. exact H0.
  - intros x Hx Hy. apply in_map_iff in Hx. destruct Hx as (l1 & <- & H1).
    unfold group_lines in H1. apply in_map_iff in H1. destruct H1 as (kb & <- & _). cbn [fst] in Hy.
    apply in_map_iff in Hy. destruct Hy as (l2 & E2 & H2). apply in_flat_map in H2.
    destruct H2 as ([k2 g2] & Hk & H2). unfold group_lines in H2. apply in_map_iff in H2.
    destruct H2 as (kb2 & <- & _). cbn [fst] in E2. injection E2 as E2 _. subst k2.
    apply NI. apply (in_map fst) in Hk. exact Hk.
Qed.

(** *** Attempts of several workers *)
Lemma line_add : forall a b k, line_step (a ++ b) k =
  mkSR (s_total (line_step a k) + s_total (line_step b k))
    (s_dropped (line_step a k) + s_dropped (line_step b k))
    (s_ttc (line_step a k) + s_ttc (line_step b k))
    (s_ttcs (line_step a k) + s_ttcs (line_step b k)).
Proof.
  intros a b k.
  assert (T : forall j, total (a ++ b) j = total a j + total b j).
  { intro j. unfold total, reaching. rewrite filter_app, app_length. lia. }
  assert (SA : forall l m, sum (l ++ m) = sum l + sum m).
  { intros l m. unfold sum. induction l as [|x l IH]; cbn [fold_right app]; lia. }
  unfold line_step. destruct k as [|j]; cbn [s_total s_dropped s_ttc s_ttcs].
  - rewrite T. reflexivity.
  - rewrite !T. unfold reaching. rewrite filter_app, !map_app, !SA. f_equal; lia.
Qed.

Lemma line_none : forall a k, total a 0 = 0 -> line_step a k = sr0.
Proof.
  intros a k H. assert (Z0 : forall j, reaching j a = []).
  { intro j. unfold total in H. destruct (reaching 0 a) as [|x l] eqn:E; [|cbn [length] in H; lia].
    clear H. unfold reaching in *. induction a as [|y a IH]; [reflexivity|]. cbn [filter] in *.
    destruct (0 <? length y)%nat eqn:L; [discriminate|]. apply Nat.ltb_ge in L.
    destruct (j <? length y)%nat eqn:L2; [apply Nat.ltb_lt in L2; lia|]. exact (IH E). }
  unfold line_step, total. destruct k; rewrite !Z0; reflexivity.
Qed.

Lemma sum_perm : forall l m, Permutation l m -> sum l = sum m.
Proof. intros l m H. unfold sum. induction H; cbn [fold_right]; lia. Qed.

Lemma filter_perm : forall {A} (p : A -> bool) l m, Permutation l m -> Permutation (filter p l) (filter p m).
Proof.
  intros A p l m H. induction H; cbn [filter].
  - constructor.
  - destruct (p x); [constructor; exact IHPermutation|exact IHPermutation].
  - destruct (p x), (p y); try apply Permutation_refl; apply perm_swap.
  - eapply perm_trans; eassumption.
Qed.

Lemma line_perm : forall n a b, Permutation a b -> line n a = line n b.
Proof.
  intros n a b H. unfold line. apply map_ext. intro k. unfold line_step, total, reaching.
  destruct k as [|j].
  - rewrite (Permutation_length (filter_perm _ _ _ H)). reflexivity.
  - rewrite (Permutation_length (filter_perm (fun a0 => (S j <? length a0)%nat) _ _ H)).
    rewrite (Permutation_length (filter_perm (fun a0 => (j <? length a0)%nat) _ _ H)).
    f_equal; apply sum_perm, Permutation_map, filter_perm; exact H.
Qed.

(** Users in no common row. *)
Lemma of_user_app : forall u a b, of_user u (a ++ b) = of_user u a ++ of_user u b.
Proof. intros. apply filter_app. Qed.
Lemma of_key_app : forall u a b, of_key u (a ++ b) = of_key u a ++ of_key u b.
Proof. intros. apply filter_app. Qed.

Lemma of_user_none : forall u a, ~ In u (map r_part a) -> of_user u a = [].
Proof.
  intros u a H. unfold of_user. induction a as [|r a IH]; [reflexivity|]. cbn [map filter] in *.
  destruct (r_part r =? u) eqn:E; [apply Z.eqb_eq in E; exfalso; apply H; left; exact E|].
  apply IH. intro X. apply H. right. exact X.
Qed.

Lemma attempts_disjoint : forall n w a b,
  (forall r r', In r a -> In r' b -> r_part r <> r_part r') ->
  Permutation (all_attempts n w (a ++ b)) (all_attempts n w a ++ all_attempts n w b).
Proof.
  intros n w a b D. unfold all_attempts.
  assert (P : Permutation (users (a ++ b)) (users a ++ users b)).
  { apply NoDup_Permutation.
    - apply NoDup_nodup.
    - apply NoDup_app_two; try apply NoDup_nodup. intros x Hx Hy. unfold users in *.
      apply nodup_In in Hx, Hy. apply in_map_iff in Hx, Hy.
      destruct Hx as (r & E & Hr), Hy as (r' & E' & Hr'). apply (D r r' Hr Hr'). congruence.
    - intro x. unfold users. rewrite in_app_iff, !nodup_In, map_app, in_app_iff. tauto. }
  eapply perm_trans; [apply Permutation_flat_map; exact P|]. rewrite flat_map_app.
  assert (L : forall l (f g : Z -> list (list Z)), (forall x, In x l -> f x = g x) -> flat_map f l = flat_map g l).
  { intros l f g. induction l as [|x l IH]; intro H; [reflexivity|]. cbn [flat_map].
    rewrite (H x (or_introl eq_refl)), IH; [reflexivity|]. intros y Hy. apply H. right. exact Hy. }
  rewrite (L (users a) _ (fun u => attempts n w (of_user u a))),
    (L (users b) _ (fun u => attempts n w (of_user u b))); [apply Permutation_refl| |].
  - intros u Hu. f_equal. rewrite of_user_app, (of_user_none u a); [reflexivity|].
    intro X. unfold users in Hu. apply nodup_In in Hu. apply in_map_iff in Hu, X.
    destruct Hu as (r & E & Hr), X as (r' & E' & Hr'). apply (D r' r Hr' Hr). congruence.
  - intros u Hu. f_equal. rewrite of_user_app, (of_user_none u b); [apply app_nil_r|].
    intro X. unfold users in Hu. apply nodup_In in Hu. apply in_map_iff in Hu, X.
    destruct Hu as (r & E & Hr), X as (r' & E' & Hr'). apply (D r r' Hr Hr'). congruence.
Qed.
