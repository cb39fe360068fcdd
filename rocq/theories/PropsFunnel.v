(** Funnel reports: monotone steps, batch boundaries, what is counted (C47, C48, C49). *)
From Coq Require Import List ZArith Bool Arith Lia ZifyBool Sorted.
From Verif Require Import AMap Calendar Funnel FunnelSpec FunnelFacts FunnelRun.
Import ListNotations.
Local Open Scope Z_scope.

(** * C47 *)
(** Totals never grow from one step to the next, the drop-off of a step is the difference. *)
Fixpoint ladder (prev : Z) (l : list StepResult) : Prop :=
  match l with
  | [] => True
  | s :: l' => 0 <= s_total s <= prev /\ s_dropped s = prev - s_total s /\ ladder (s_total s) l'
  end.
Definition stairs (l : list StepResult) : Prop :=
  match l with
  | [] => True
  | s :: l' => 0 <= s_total s /\ s_dropped s = 0 /\ ladder (s_total s) l'
  end.

Lemma s_total_bump : forall t d k s,
  s_total (bump t d k s) = s_total s + (if (k <? d)%nat then 1 else 0).
Proof. intros. unfold bump. destruct (k <? d)%nat; [destruct k|]; cbn [s_total]; lia. Qed.

Lemma ladder_bump : forall t d l k p p',
  ladder p l -> p <= p' -> ((k < d)%nat -> p + 1 <= p') ->
  ladder p' (redrop p' (bump_all t d k l)).
Proof.
  intros t d l. induction l as [|s l IH]; intros k p p' H Le Lt; [exact I|].
  cbn [ladder] in H. destruct H as (A & B & C).
  cbn [bump_all redrop ladder s_total s_dropped]. rewrite s_total_bump.
  destruct (k <? d)%nat eqn:E.
  - assert (p + 1 <= p') by (apply Lt; lia).
    split; [lia|]. split; [reflexivity|]. apply (IH (S k) (s_total s)); [exact C|lia|lia].
  - split; [lia|]. split; [reflexivity|]. apply (IH (S k) (s_total s)); [exact C|lia|lia].
Qed.

Lemma stairs_count : forall t d l, stairs l -> stairs (count_attempt t d l).
Proof.
  intros t d l H. destruct l as [|s l]; [exact I|]. destruct H as (A & B & C).
  unfold count_attempt. cbn [bump_all stairs]. rewrite s_total_bump.
  split; [destruct (0 <? d)%nat; lia|]. split.
  - unfold bump. destruct (0 <? d)%nat; exact B.
  - apply (ladder_bump t d l 1 (s_total s)); [exact C| |]; destruct (0 <? d)%nat eqn:E; lia.
Qed.

Definition gstairs (g : Group) : Prop := forall b l, In (b, l) (g_buckets g) -> stairs l.

Lemma gstairs_push : forall c g g' s, push_result c g = Some (g', s) -> gstairs g -> gstairs g'.
Proof.
  intros c g g' s H G. unfold push_result in H. destruct (_ =? _)%nat; [injection H as <- _; exact G|].
  destruct (bucket_key c g) as [k|]; [|discriminate]. injection H as <- _.
  intros b l Hl. cbn [g_buckets] in Hl. unfold modify in Hl. apply in_map_iff in Hl.
  destruct Hl as ((b0 & l0) & E & Hl). cbn [fst snd] in E. apply G in Hl.
  destruct (b0 =? k); injection E as <- <-; [apply stairs_count|]; exact Hl.
Qed.

Lemma gstairs_do_row : forall c b i r g g' s, do_row c b i r g = Some (g', s) -> gstairs g -> gstairs g'.
Proof.
  intros c b i r g g' s H G. unfold do_row in H.
  set (g0 := if g_first g then set_part g (r_part r) else g) in H.
  assert (G0 : gstairs g0) by (unfold g0; destruct (g_first g); exact G).
  destruct (guard_attempt c r g0) as [g1|] eqn:E1; [|discriminate].
  assert (G1 : gstairs g1).
  { unfold guard_attempt in E1. destruct (_ =? _)%nat; [injection E1 as <-; exact G0|].
    destruct (check_exclude _ _ _); [|injection E1 as <-; exact G0].
    destruct (_ <? _); [|injection E1 as <-; exact G0].
    destruct (push_result c g0) as [[gx bx]|] eqn:P; [|discriminate]. injection E1 as <-.
    exact (gstairs_push _ _ _ _ P G0). }
  destruct (guard_const c b i r g1) as [g2|] eqn:E2; [|discriminate].
  assert (G2 : gstairs g2).
  { unfold guard_const in E2. destruct (c_consts c); [|injection E2 as <-; exact G1].
    destruct (_ =? _)%nat; [injection E2 as <-; exact G1|].
    destruct (check_constants _ _ _) as [[|]|]; try discriminate; injection E2 as <-; exact G1. }
  destruct (guard_part c r g2) as [g3|] eqn:E3; [|discriminate].
  assert (G3 : gstairs g3).
  { unfold guard_part in E3. destruct (_ =? _); [injection E3 as <-; exact G2|].
    destruct (push_result c g2) as [[gx bx]|] eqn:P; [|discriminate]. injection E3 as <-.
    exact (gstairs_push _ _ _ _ P G2). }
  unfold advance in H. destruct (matches _ _ _) as [[|]|]; try discriminate.
  - destruct (_ <? _)%nat; [injection H as <- _; exact G3|].
    destruct (push_result c _) as [[gx bx]|] eqn:P; [|discriminate]. injection H as <- _.
    exact (gstairs_push _ _ _ _ P G3).
  - injection H as <- _. exact G3.
Qed.

Lemma gstairs_new : forall c, gstairs (new_group c).
Proof.
  intros c b l H. cbn [new_group g_buckets] in H. apply in_map_iff in H.
  destruct H as (b0 & E & _). injection E as <- <-.
  destruct (steps_len c) as [|n]; [exact I|]. cbn. repeat split; try lia.
  induction n as [|n IH]; [exact I|]. cbn. repeat split; try lia. exact IH.
Qed.

Definition fstairs (f : Funnel) : Prop := forall k g, In (k, g) (f_groups f) -> gstairs g.

Lemma in_aset : forall (k : GKey) (v : Group) m k1 v1,
  In (k1, v1) (aset gkey_dec k v m) -> (k1, v1) = (k, v) \/ In (k1, v1) m.
Proof.
  intros k v m k1 v1 H. unfold aset in H. destruct H as [H|H]; [left; congruence|].
  right. induction m as [|[k2 v2] m IH]; [destruct H|]. cbn [adel] in H.
  destruct (gkey_dec k k2); [right; exact (IH H)|]. destruct H as [H|H]; [left; exact H|right; exact (IH H)].
Qed.

Lemma aget_pair : forall k gs (g : Group), aget gkey_dec k gs = Some g -> In (k, g) gs.
Proof.
  intros k gs g. induction gs as [|[k0 g0] gs IH]; intro H; [discriminate|].
  cbn in H. destruct (gkey_dec k k0) as [->|_]; [injection H as ->; left; reflexivity|right; exact (IH H)].
Qed.

Lemma fstairs_rows : forall c ex batch rows i f f',
  eval_rows c ex batch i rows f = Some f' -> fstairs f -> fstairs f'.
Proof.
  intros c ex batch rows. induction rows as [|r rows IH]; intros i f f' H F.
  - injection H as <-. exact F.
  - cbn [eval_rows] in H. destruct (_ && _ && _); [exact (IH _ _ _ H F)|].
    destruct (match ex with None => false | _ => _ end); [exact (IH _ _ _ H F)|].
    cbn [f_groups f_cur] in H.
    destruct (do_row _ _ _ _ _) as [[g' s]|] eqn:D; [|discriminate].
    apply IH in H; [exact H|]. intros k g Hg. cbn [f_groups] in Hg. apply in_aset in Hg.
    destruct Hg as [E|Hg]; [|exact (F k g Hg)]. injection E as -> ->.
    apply (gstairs_do_row _ _ _ _ _ _ _ D).
    destruct (aget gkey_dec (r_key r) (f_groups f)) as [g0|] eqn:A; [|apply gstairs_new].
    apply aget_pair in A. exact (F _ _ A).
Qed.

Lemma fstairs_all : forall c ex batches f f', evaluate_all c ex batches f = Some f' ->
  fstairs f -> fstairs f'.
Proof.
  intros c ex batches. induction batches as [|b bs IH]; intros f f' H F.
  - injection H as <-. exact F.
  - cbn [evaluate_all] in H. unfold evaluate in H. destruct b as [|r b]; [discriminate|].
    destruct (_ <? _); [discriminate|].
    destruct (eval_rows _ _ _ _ _ f) as [f1|] eqn:E; [|discriminate].
    apply (IH _ _ H). exact (fstairs_rows _ _ _ _ _ _ _ E F).
Qed.

Lemma push_all_in : forall c gs gs' k g', push_all c gs = Some gs' -> In (k, g') gs' ->
  exists g s, In (k, g) gs /\ push_result c g = Some (g', s).
Proof.
  intros c gs. induction gs as [|[k0 g0] gs IH]; intros gs' k g' H Hin.
  - injection H as <-. destruct Hin.
  - cbn [push_all] in H. destruct (push_result c g0) as [[g1 s1]|] eqn:P; [|discriminate].
    destruct (push_all c gs) as [l|]; [|discriminate]. injection H as <-.
    destruct Hin as [E|Hin].
    + injection E as <- <-. exists g0, s1. split; [left; reflexivity|exact P].
    + destruct (IH l k g' eq_refl Hin) as (g & s & A & B). exists g, s. split; [right; exact A|exact B].
Qed.

Lemma ladder_nth : forall l p k s t, ladder p l -> nth_error l k = Some s ->
  nth_error l (S k) = Some t ->
  0 <= s_total t <= s_total s /\ s_dropped t = s_total s - s_total t.
Proof.
  intros l. induction l as [|x l IH]; intros p k s t H A B; [destruct k; discriminate|].
  destruct H as (_ & _ & H). destruct k as [|k].
  - injection A as <-. destruct l as [|y l]; [discriminate|]. injection B as <-.
    destruct H as (H1 & H2 & _). split; assumption.
  - exact (IH _ k s t H A B).
Qed.

(** The report of every funnel, over every batch sequence, with or without segments: *)
Theorem C47_steps_never_increase : forall c segments batches report key bucket steps,
  funnel c segments batches = Some report -> In (key, bucket, steps) report ->
  (forall s, nth_error steps 0 = Some s -> 0 <= s_total s /\ s_dropped s = 0) /\
  (forall k s t, nth_error steps k = Some s -> nth_error steps (S k) = Some t ->
     0 <= s_total t <= s_total s /\ s_dropped t = s_total s - s_total t).
Proof.
  intros c segs batches report key bucket steps H Hin. unfold funnel in H.
  destruct (evaluate_all c segs batches funnel0) as [f|] eqn:E; [|discriminate].
  assert (F : fstairs f) by (apply (fstairs_all _ _ _ _ _ E); intros k g []).
  unfold finalize in H. destruct (push_all c (f_groups f)) as [gs|] eqn:P; [|discriminate].
  injection H as <-. apply in_flat_map in Hin. destruct Hin as ((k & g') & Hg & Hl).
  unfold group_lines in Hl. cbn [fst snd] in Hl. apply in_map_iff in Hl.
  destruct Hl as ((b0 & l0) & El & Hb). cbn [fst snd] in El. injection El as <- <- <-.
  apply filter_In in Hb. destruct Hb as (Hb & _).
  destruct (push_all_in _ _ _ _ _ P Hg) as (g & s & A & B).
  assert (G := gstairs_push _ _ _ _ B (F _ _ A) _ _ Hb).
  destruct l0 as [|x l0].
  - split; [intros y Hy; discriminate|intros i y z Hy; destruct i; discriminate].
  - destruct G as (G1 & G2 & G3). split.
    + intros y Hy. injection Hy as <-. split; assumption.
    + intros i y z Hy Hz. destruct i as [|i].
      * injection Hy as <-. cbn in Hz. destruct l0 as [|w l0]; [discriminate|].
        injection Hz as <-. destruct G3 as (G3 & G4 & _). split; assumption.
      * exact (ladder_nth l0 _ i y z G3 Hy Hz).
Qed.
Print Assumptions C47_steps_never_increase.

(** * C48 *)
(** Two ways of cutting the same stream into batches, sorted by user as the store returns it. *)
Theorem C48_batches_do_not_matter_partial : forall c batches batches',
  c_consts c = false -> c_count c <> Unique ->
  (forall b, In b batches -> b <> []) -> (forall b, In b batches' -> b <> []) ->
  concat batches = concat batches' ->
  StronglySorted Z.le (map r_part (concat batches)) ->
  (forall r, In r (concat batches) -> 0 <= r_part r) ->
  funnel c None batches = funnel c None batches'.
Proof.
  intros c b1 b2 C U N1 N2 E S P. unfold funnel.
  rewrite (evaluate_all_run c b1 [] funnel0), (evaluate_all_run c b2 [] funnel0); try reflexivity.
  - rewrite E. reflexivity.
  - split; assumption.
  - apply Forall_forall. exact N2.
  - unfold by_user. cbn [app]. rewrite <- E. exact S.
  - apply Forall_forall. cbn [app]. rewrite <- E. exact P.
  - split; assumption.
  - apply Forall_forall. exact N1.
  - exact S.
  - apply Forall_forall. exact P.
Qed.
Print Assumptions C48_batches_do_not_matter_partial.

Definition with_count (c : Cfg) (k : Count) : Cfg :=
  mkCfg (c_orders c) (c_window c) (c_excl c) (c_consts c) k (c_filter c) (c_interval c) (c_buckets c).
Definition without_consts (c : Cfg) : Cfg :=
  mkCfg (c_orders c) (c_window c) (c_excl c) false (c_count c) (c_filter c) (c_interval c) (c_buckets c).
Definition singles (rows : list Row) : list (list Row) := map (fun r => [r]) rows.

Lemma do_row_count : forall c k b i r g,
  option_map fst (do_row (with_count c k) b i r g) = option_map fst (do_row c b i r g).
Proof.
  intros c k b i r g. unfold do_row.
  change (guard_attempt (with_count c k)) with (guard_attempt c).
  change (guard_const (with_count c k)) with (guard_const c).
  change (guard_part (with_count c k)) with (guard_part c).
  destruct (guard_attempt c r _) as [g1|]; [|reflexivity].
  destruct (guard_const c b i r g1) as [g2|]; [|reflexivity].
  destruct (guard_part c r g2) as [g3|]; [|reflexivity].
  unfold advance. change (matches (with_count c k)) with (matches c).
  destruct (matches c r (g_cur g3)) as [[|]|]; try reflexivity.
  change (steps_len (with_count c k)) with (steps_len c).
  destruct (_ <? _)%nat; [reflexivity|].
  change (push_result (with_count c k)) with (push_result c).
  destruct (push_result c _) as [[g4 s]|]; reflexivity.
Qed.

(** The state a run leaves, up to the request to skip. *)
Definition same_state (a b : option Funnel) : Prop :=
  match a, b with
  | Some f, Some f' => f_groups f = f_groups f' /\ f_cur f = f_cur f'
  | None, None => True
  | _, _ => False
  end.

Lemma same_finalize : forall c c' a b, push_result c = push_result c' -> same_state a b ->
  match a with None => None | Some f => finalize c f end =
  match b with None => None | Some f => finalize c' f end.
Proof.
  intros c c' a b P H. destruct a as [f|], b as [f'|]; try destruct H; [|reflexivity].
  unfold finalize. rewrite H.
  assert (E : forall gs, push_all c gs = push_all c' gs).
  { induction gs as [|[k g] gs IH]; [reflexivity|]. cbn [push_all]. rewrite P, IH. reflexivity. }
  rewrite E. reflexivity.
Qed.

(** (1) Unique counting is not applied to a stream delivered row by row. *)
Lemma unique_singles : forall c k ex rows f f',
  f_groups f = f_groups f' -> f_cur f = f_cur f' ->
  same_state (evaluate_all (with_count c k) ex (singles rows) f) (evaluate_all c ex (singles rows) f').
Proof.
  intros c k ex rows. induction rows as [|r rows IH]; intros f f' Eg Ec.
  - split; assumption.
  - cbn [singles map evaluate_all evaluate]. rewrite Ec. destruct (_ <? _); [exact I|].
    cbn [eval_rows more]. rewrite !andb_false_r. cbn [f_groups f_cur].
    rewrite Eg.
    set (g := match aget gkey_dec (r_key r) (f_groups f') with Some g => g | None => new_group c end).
    change (match aget gkey_dec (r_key r) (f_groups f') with
            | Some g => g | None => new_group (with_count c k) end) with g.
    assert (D := do_row_count c k [r] 0 r g).
    destruct ex as [us|]; rewrite ?andb_false_r;
      destruct (do_row (with_count c k) [r] 0 r g) as [[g1 s1]|],
               (do_row c [r] 0 r g) as [[g2 s2]|]; cbn in D; try discriminate D; try exact I;
      injection D as <-; apply IH; reflexivity.
Qed.

Theorem C48_unique_refuted : forall c segments rows,
  funnel (with_count c Unique) segments (singles rows) =
  funnel (with_count c NonUnique) segments (singles rows).
Proof.
  intros c segs rows. unfold funnel.
  apply (same_finalize (with_count c Unique) (with_count c NonUnique)); [reflexivity|].
  change (with_count c Unique) with (with_count (with_count c NonUnique) Unique).
  apply unique_singles; reflexivity.
Qed.
Print Assumptions C48_unique_refuted.

(** (2) Holding constants are not applied to a stream delivered row by row. *)
Definition const0 (f : Funnel) : Prop :=
  forall k g, In (k, g) (f_groups f) -> g_cur g <> O -> g_const g = Some O.

Lemma push_const : forall c g g' s, push_result c g = Some (g', s) ->
  g_const g' = g_const g /\ g_cur g' = g_cur g.
Proof.
  intros c g g' s H. unfold push_result in H. destruct (_ =? _)%nat; [injection H as <- _; auto|].
  destruct (bucket_key c g); [|discriminate]. injection H as <- _. auto.
Qed.

Definition forget (g : Group) : Group :=
  mkGroup (g_first g) (g_part g) None (g_cur g) (g_steps g) (g_buckets g) (g_done g).

Lemma push_forget : forall c g,
  push_result (without_consts c) (forget g) =
  option_map (fun x => (forget (fst x), snd x)) (push_result c g).
Proof.
  intros c g. unfold push_result. cbn [forget g_done]. destruct (_ =? _)%nat; [reflexivity|].
  change (bucket_key (without_consts c) (forget g)) with (bucket_key c g).
  destruct (bucket_key c g); reflexivity.
Qed.

Lemma do_row_forget : forall c r g, c_consts c = true ->
  (g_cur g <> O -> g_const g = Some O) ->
  match do_row c [r] 0 r g with
  | None => do_row (without_consts c) [r] 0 r (forget g) = None
  | Some (g', s) => do_row (without_consts c) [r] 0 r (forget g) = Some (forget g', s) /\
                    (g_cur g' <> O -> g_const g' = Some O)
  end.
Proof.
  intros c r g C K. unfold do_row.
  replace (if g_first (forget g) then set_part (forget g) (r_part r) else forget g)
    with (forget (if g_first g then set_part g (r_part r) else g))
    by (cbn [forget g_first]; destruct (g_first g); reflexivity).
  set (g0 := if g_first g then set_part g (r_part r) else g).
  assert (K0 : g_cur g0 <> O -> g_const g0 = Some O)
    by (unfold g0; destruct (g_first g); exact K).
  clearbody g0. clear K g.
  assert (G1 : guard_attempt (without_consts c) r (forget g0) = option_map forget (guard_attempt c r g0)).
  { unfold guard_attempt. cbn [forget g_cur c_excl without_consts g_steps c_window].
    destruct (_ =? _)%nat; [reflexivity|]. destruct (check_exclude _ _ _); [|reflexivity].
    destruct (_ <? _); [|reflexivity]. fold (forget g0). rewrite push_forget.
    destruct (push_result c g0) as [[gx bx]|]; reflexivity. }
  rewrite G1. destruct (guard_attempt c r g0) as [g1|] eqn:E1; cbn [option_map]; [|reflexivity].
  assert (K1 : g_cur g1 <> O -> g_const g1 = Some O).
  { unfold guard_attempt in E1. destruct (_ =? _)%nat; [injection E1 as <-; exact K0|].
    destruct (check_exclude _ _ _); [|injection E1 as <-; cbn; congruence].
    destruct (_ <? _); [|injection E1 as <-; exact K0].
    destruct (push_result c g0) as [[gx bx]|]; [|discriminate]. injection E1 as <-. cbn. congruence. }
  clear E1 G1 K0 g0.
  change (guard_const (without_consts c) [r] 0 r (forget g1)) with (Some (forget g1)).
  assert (G2 : exists g2, guard_const c [r] 0 r g1 = Some g2 /\ forget g2 = forget g1 /\
                          g_const g2 = Some O /\ g_cur g2 = g_cur g1).
  { unfold guard_const. rewrite C. destruct (g_cur g1 =? 0)%nat eqn:Z.
    - exists (set_const g1 0). repeat split.
    - unfold check_constants. rewrite K1 by lia. cbn [nth_error].
      destruct (list_eq_dec _ _ _) as [_|X]; [|congruence].
      exists g1. split; [reflexivity|]. split; [reflexivity|]. split; [apply K1; lia|reflexivity]. }
  destruct G2 as (g2 & -> & F2 & K2 & _). rewrite <- F2. clear F2 K1 g1.
  assert (G3 : guard_part (without_consts c) r (forget g2) = option_map forget (guard_part c r g2)).
  { unfold guard_part. cbn [forget g_part]. destruct (_ =? _); [reflexivity|].
    fold (forget g2). rewrite push_forget. destruct (push_result c g2) as [[gx bx]|]; reflexivity. }
  rewrite G3. destruct (guard_part c r g2) as [g3|] eqn:E3; cbn [option_map]; [|reflexivity].
  assert (K3 : g_const g3 = Some O).
  { unfold guard_part in E3. destruct (_ =? _); [injection E3 as <-; exact K2|].
    destruct (push_result c g2) as [[gx bx]|] eqn:P; [|discriminate]. injection E3 as <-.
    apply push_const in P. cbn. destruct P as (-> & _). exact K2. }
  clear E3 G3 K2 g2. unfold advance. cbn [forget g_cur].
  change (matches (without_consts c)) with (matches c).
  destruct (matches c r (g_cur g3)) as [[|]|]; [| split; [reflexivity|intros _; exact K3] |reflexivity].
  change (steps_len (without_consts c)) with (steps_len c).
  destruct (_ <? _)%nat; [split; [reflexivity|intros _; exact K3]|].
  match goal with |- context [push_result c ?y] =>
    set (h := y);
    match goal with |- context [push_result (without_consts c) ?z] => change z with (forget h) end end.
  rewrite push_forget. destruct (push_result c h) as [[g4 s4]|]; cbn [option_map fst snd]; [|reflexivity].
  split; [reflexivity|]. cbn. congruence.
Qed.

Definition forget_all (gs : list (GKey * Group)) : list (GKey * Group) :=
  map (fun kg => (fst kg, forget (snd kg))) gs.

Lemma aget_forget : forall k gs, aget gkey_dec k (forget_all gs) = option_map forget (aget gkey_dec k gs).
Proof.
  intros k gs. induction gs as [|[k0 g0] gs IH]; [reflexivity|].
  cbn. destruct (gkey_dec k k0); [reflexivity|exact IH].
Qed.
Lemma aset_forget : forall k g gs, aset gkey_dec k (forget g) (forget_all gs) = forget_all (aset gkey_dec k g gs).
Proof.
  intros k g gs. unfold aset. cbn [forget_all map fst snd]. f_equal.
  induction gs as [|[k0 g0] gs IH]; [reflexivity|]. cbn.
  destruct (gkey_dec k k0); cbn; [exact IH|f_equal; exact IH].
Qed.

Lemma consts_singles : forall c ex rows f f', c_consts c = true ->
  const0 f -> f_groups f' = forget_all (f_groups f) -> f_cur f' = f_cur f ->
  match evaluate_all c ex (singles rows) f, evaluate_all (without_consts c) ex (singles rows) f' with
  | Some f1, Some f2 => f_groups f2 = forget_all (f_groups f1)
  | None, None => True
  | _, _ => False
  end.
Proof.
  intros c ex rows. induction rows as [|r rows IH]; intros f f' C K Eg Ec.
  - exact Eg.
  - cbn [singles map evaluate_all evaluate]. rewrite Ec. destruct (_ <? _); [exact I|].
    cbn [eval_rows more]. rewrite !andb_false_r. cbn [f_groups f_cur]. rewrite Eg, aget_forget.
    set (g := match aget gkey_dec (r_key r) (f_groups f) with Some g => g | None => new_group c end).
    replace (match option_map forget (aget gkey_dec (r_key r) (f_groups f)) with
             | Some g => g | None => new_group (without_consts c) end) with (forget g)
      by (unfold g; destruct (aget gkey_dec (r_key r) (f_groups f)); reflexivity).
    assert (Kg : g_cur g <> O -> g_const g = Some O).
    { unfold g. destruct (aget gkey_dec (r_key r) (f_groups f)) eqn:A; [|cbn; congruence].
      apply aget_pair in A. exact (K _ _ A). }
    assert (D := do_row_forget c r g C Kg).
    destruct (do_row c [r] 0 r g) as [[g1 s1]|].
    + destruct D as (D & K1). destruct ex as [us|]; rewrite ?andb_false_r; rewrite D;
        (apply IH; [exact C| | |reflexivity]);
        cbn [f_groups]; try apply aset_forget;
        intros k x Hx; apply in_aset in Hx; (destruct Hx as [E|Hx]; [injection E as -> ->; exact K1|exact (K k x Hx)]).
    + destruct ex as [us|]; rewrite ?andb_false_r; rewrite D; exact I.
Qed.

Theorem C48_constants_refuted : forall c segments rows,
  funnel c segments (singles rows) = funnel (without_consts c) segments (singles rows).
Proof.
  intros c segs rows. destruct (c_consts c) eqn:C.
  2:{ f_equal. unfold without_consts. rewrite <- C. destruct c; reflexivity. }
  unfold funnel. assert (H := consts_singles c segs rows funnel0 funnel0 C).
  destruct (evaluate_all c segs (singles rows) funnel0) as [f1|],
           (evaluate_all (without_consts c) segs (singles rows) funnel0) as [f2|];
    try (exfalso; apply H; [intros k g []|reflexivity|reflexivity]); [|reflexivity].
  assert (E : f_groups f2 = forget_all (f_groups f1)) by (apply H; [intros k g []|reflexivity|reflexivity]).
  clear H. unfold finalize. rewrite E.
  assert (P : forall gs, push_all (without_consts c) (forget_all gs) = option_map forget_all (push_all c gs)).
  { induction gs as [|[k g] gs IH]; [reflexivity|]. cbn [forget_all map push_all fst snd].
    rewrite push_forget. fold (forget_all gs). rewrite IH.
    destruct (push_result c g) as [[g1 s1]|]; [|reflexivity]. cbn [option_map fst snd].
    destruct (push_all c gs); reflexivity. }
  rewrite P. destruct (push_all c (f_groups f1)) as [gs|]; [|reflexivity]. cbn [option_map].
  f_equal. unfold forget_all. rewrite !flat_map_concat_map, map_map. f_equal.
Qed.
Print Assumptions C48_constants_refuted.

(** (3) Segments are not applied to a stream delivered row by row. *)
Theorem C48_segments_refuted : forall c users rows,
  funnel c (Some users) (singles rows) = funnel c None (singles rows).
Proof.
  intros c us rows. unfold funnel.
  assert (E : forall rs f, evaluate_all c (Some us) (singles rs) f = evaluate_all c None (singles rs) f).
  { induction rs as [|r rs IH]; intro f; [reflexivity|].
    cbn [singles map evaluate_all evaluate]. destruct (_ <? _); [reflexivity|].
    cbn [eval_rows more]. rewrite !andb_false_r. destruct (do_row _ _ _ _ _) as [[g s]|]; [|reflexivity].
    apply IH. }
  rewrite E. reflexivity.
Qed.
Print Assumptions C48_segments_refuted.

(** Two steps; events A (step 0), B (step 1), other; one bucket. *)
Definition ex_cfg (k : Count) (consts : bool) : Cfg :=
  mkCfg [Exact; Exact] 100 [] consts k None None [0].
Definition ev_a (u t v : Z) : Row := mkRow u t [] [true; false] [] [v].
Definition ev_b (u t v : Z) : Row := mkRow u t [] [false; true] [] [v].
Definition ev_x (u t v : Z) : Row := mkRow u t [] [false; false] [] [v].

(** User 1 converts twice, user 2 starts, user 3 does something else. *)
Definition ex_rows : list Row :=
  [ev_a 1 10 7; ev_b 1 20 8; ev_a 1 30 7; ev_b 1 45 7; ev_a 2 50 7; ev_x 3 60 7].

Example C47_witness :
  funnel (ex_cfg NonUnique false) None [ex_rows] =
  Some [([], 0, [mkSR 3 0 0 0; mkSR 2 1 25 25])].
Proof. reflexivity. Qed.

(** The streams of C48 are not empty of consequences: delivered in one batch, unique counting,
    constants and segments make a difference; delivered row by row, none. *)
Example C48_witness :
  funnel (ex_cfg NonUnique false) None [[ev_a 1 10 7]; [ev_b 1 20 8; ev_a 1 30 7]; [ev_b 1 45 7]] =
  funnel (ex_cfg NonUnique false) None [[ev_a 1 10 7; ev_b 1 20 8; ev_a 1 30 7]; [ev_b 1 45 7]] /\
  (* unique *)
  funnel (ex_cfg Unique false) None [ex_rows] = Some [([], 0, [mkSR 2 0 0 0; mkSR 1 1 10 10])] /\
  funnel (ex_cfg Unique false) None (singles ex_rows) =
    Some [([], 0, [mkSR 3 0 0 0; mkSR 2 1 25 25])] /\
  (* constants *)
  funnel (ex_cfg NonUnique true) None [ex_rows] = Some [([], 0, [mkSR 2 0 0 0; mkSR 1 1 15 15])] /\
  funnel (ex_cfg NonUnique true) None (singles ex_rows) =
    Some [([], 0, [mkSR 3 0 0 0; mkSR 2 1 25 25])] /\
  (* constants: a batch shorter than the row number remembered is a panic *)
  funnel (ex_cfg NonUnique true) None [[ev_x 1 5 7; ev_a 1 10 7]; [ev_b 1 20 7]] = None /\
  (* a segment containing user 2 only *)
  funnel (ex_cfg NonUnique false) (Some [2]) [ex_rows] = Some [([], 0, [mkSR 1 0 0 0; mkSR 0 1 0 0])] /\
  funnel (ex_cfg NonUnique false) (Some [2]) (singles ex_rows) =
    Some [([], 0, [mkSR 3 0 0 0; mkSR 2 1 25 25])].
Proof. repeat split. Qed.

(** * C49 *)
(** A funnel with ordered steps and a window; exclusions without a step range. *)
Record Ordered (c : Cfg) : Prop := mkOrdered {
  or_exact : forall o, In o (c_orders c) -> o = Exact;
  or_steps : c_orders c <> [];
  or_excl : forall e, In e (c_excl c) -> e = None;
  or_consts : c_consts c = false;
  or_count : c_count c <> Unique;
  or_buckets : c_buckets c <> []
}.
(** The stream the report reads: cut into non-empty batches, sorted by user, one value per
    step and exclusion in each row. *)
Record Stream (c : Cfg) (batches : list (list Row)) : Prop := mkStream {
  st_batches : forall b, In b batches -> b <> [];
  st_sorted : StronglySorted Z.le (map r_part (concat batches));
  st_users : forall r, In r (concat batches) -> 0 <= r_part r;
  st_steps : forall r, In r (concat batches) ->
    length (r_steps r) = length (c_orders c) /\ length (r_excl r) = length (c_excl c)
}.
(** No user's events begin with an excluded one. *)
Definition no_leading_excluded (rows : list Row) : Prop :=
  forall u k r, hd_error (of_key k (of_user u rows)) = Some r -> excluded r = false.

Lemma ordered_plain : forall c, Ordered c -> plain c.
Proof.
  intros c [A B C D E F]. split; [exact D|]. split; [exact A|]. split; [exact C|]. split; [|exact F].
  unfold steps_len. destruct (c_orders c); [congruence|cbn; lia].
Qed.

Lemma of_key_user : forall k u rows, of_key k (of_user u rows) = of_user u (of_key k rows).
Proof.
  intros k u rows. unfold of_key, of_user. induction rows as [|r rows IH]; [reflexivity|].
  cbn [filter]. destruct (r_part r =? u) eqn:A, (gkey_dec (r_key r) k) as [B|B]; cbn [filter];
    rewrite ?A; destruct (gkey_dec (r_key r) k); try contradiction; rewrite IH; reflexivity.
Qed.

Lemma clean_sorted : forall rows p, by_user rows -> Forall (fun r => p <= r_part r) rows ->
  (forall u r, hd_error (of_user u rows) = Some r -> u <> p -> excluded r = false) ->
  clean_from (Some p) rows.
Proof.
  induction rows as [|r rows IH]; intros p S G H; [exact I|].
  cbn [clean_from]. inversion G as [|x l Gr Gl]; subst.
  assert (S' := S). unfold by_user in S'. cbn [map] in S'. apply StronglySorted_inv in S'.
  destruct S' as (S1 & Fa). rewrite Forall_map in Fa.
  split.
  - destruct (Z.eq_dec (r_part r) p) as [E|NE]; [left; exact E|right].
    apply (H (r_part r) r); [|exact NE]. unfold of_user. cbn [filter]. rewrite Z.eqb_refl. reflexivity.
  - apply (IH (r_part r) S1 Fa). intros u x Hx NE. apply (H u x).
    + unfold of_user. cbn [filter]. replace (r_part r =? u) with false by lia. exact Hx.
    + assert (Hin : In x (of_user u rows)).
      { destruct (of_user u rows) as [|y l]; [discriminate|]. injection Hx as ->. left. reflexivity. }
      unfold of_user in Hin. apply filter_In in Hin. destruct Hin as (Hin & Hu).
      rewrite Forall_forall in Fa. specialize (Fa x Hin). lia.
Qed.

Lemma clean_none : forall rows, by_user rows ->
  (forall u r, hd_error (of_user u rows) = Some r -> excluded r = false) ->
  clean_from None rows.
Proof.
  intros rows S H. destruct rows as [|r rows]; [exact I|]. cbn [clean_from]. split; [exact I|].
  assert (S' := S). unfold by_user in S'. cbn [map] in S'. apply StronglySorted_inv in S'.
  destruct S' as (S1 & Fa). rewrite Forall_map in Fa.
  apply (clean_sorted rows (r_part r) S1 Fa). intros u x Hx NE. apply (H u x).
  unfold of_user. cbn [filter]. replace (r_part r =? u) with false by lia. exact Hx.
Qed.

Lemma sorted_filter_rows : forall f rows, by_user rows -> by_user (filter f rows).
Proof.
  intros f rows. unfold by_user. induction rows as [|r rows IH]; intro H; [constructor|].
  cbn [map] in H. apply StronglySorted_inv in H. destruct H as (H & Fa).
  cbn [filter]. destruct (f r); [|exact (IH H)]. cbn [map]. constructor; [exact (IH H)|].
  rewrite Forall_map in *. rewrite Forall_forall in *. intros x Hx. apply filter_In in Hx.
  apply Fa. apply Hx.
Qed.

Lemma rows_run_keys : forall c rows f f', rows_run c rows f = Some f' ->
  NoDup (akeys (f_groups f)) ->
  NoDup (akeys (f_groups f')) /\
  (forall k, In k (akeys (f_groups f')) <-> In k (akeys (f_groups f)) \/ of_key k rows <> []).
Proof.
  intros c rows. induction rows as [|r rows IH]; intros f f' H ND.
  - injection H as <-. split; [exact ND|]. intro k. cbn. tauto.
  - cbn [rows_run] in H. unfold one_row in H.
    destruct (do_row _ _ _ _ _) as [[g' s]|]; [|discriminate].
    apply IH in H; cbn [f_groups] in *.
    + destruct H as (A & B). split; [exact A|]. intro k. rewrite B. unfold aset.
      cbn [akeys map fst]. fold (akeys (adel gkey_dec (r_key r) (f_groups f))).
      rewrite akeys_adel. unfold of_key. cbn [filter].
      destruct (gkey_dec (r_key r) k) as [E|NE].
      * subst k. split; intro H; [right; discriminate|left; left; reflexivity].
      * split; intro H.
        -- destruct H as [[H|H]|H]; [congruence| |right; exact H]. left. apply in_remove in H. apply H.
        -- destruct H as [H|H]; [|right; exact H]. left. right. apply in_in_remove; [congruence|exact H].
    + unfold aset. cbn [akeys map fst]. fold (akeys (adel gkey_dec (r_key r) (f_groups f))).
      rewrite akeys_adel. constructor; [apply remove_In|]. clear -ND.
      induction (akeys (f_groups f)) as [|x l IHl]; [constructor|]. inversion ND; subst.
      cbn [remove]. destruct (gkey_dec (r_key r) x); [exact (IHl H2)|]. constructor; [|exact (IHl H2)].
      intro X. apply in_remove in X. apply H1. apply X.
Qed.

Lemma finalize_tracked : forall c gs (post : GKey -> list (list Z)), plain c ->
  (forall k g, In (k, g) gs -> exists a ats, Tracks c g a ats /\ ats ++ fin a = post k) ->
  exists gs', push_all c gs = Some gs' /\
    map (fun kg => (fst kg, g_buckets (snd kg))) gs' =
    map (fun kg => (fst kg, book c (post (fst kg)))) gs.
Proof.
  intros c gs post P. induction gs as [|[k g] gs IH]; intro H.
  - exists []. split; reflexivity.
  - destruct IH as (gs' & A & B); [intros k0 g0 H0; apply H; right; exact H0|].
    destruct (H k g (or_introl eq_refl)) as (a & ats & T & E).
    cbn [push_all]. rewrite A. destruct T as [Tc Td Ts Tl Tsh Tb]. destruct a as [|t a].
    + unfold push_result. rewrite Td. cbn [length Nat.eqb]. exists ((k, g) :: gs').
      split; [reflexivity|]. cbn [map fst snd]. rewrite B. cbn [fin] in E. rewrite app_nil_r in E.
      rewrite Tb, E. reflexivity.
    + rewrite (push_spec c g (t :: a) ats P Td ltac:(discriminate) Ts ltac:(lia) Tb).
      eexists. split; [reflexivity|]. cbn [map fst snd g_buckets]. rewrite B.
      cbn [fin] in E. rewrite E. reflexivity.
Qed.

Lemma flat_lines : forall gs,
  flat_map group_lines gs =
  flat_map (fun kb => map (fun x => (fst kb, fst x, snd x)) (filter (fun x => counted (snd x)) (snd kb)))
    (map (fun kg => (fst kg, g_buckets (snd kg))) gs).
Proof. intro gs. rewrite !flat_map_concat_map, map_map. reflexivity. Qed.

(** The report consists exactly of the lines the specification gives: for each breakdown value
    and each bucket, the counts of the attempts of all users, each matched on its own events. *)
Theorem C49_report_is_specified_partial : forall c batches,
  Ordered c -> Stream c batches -> no_leading_excluded (concat batches) ->
  exists report, funnel c None batches = Some report /\
    forall key bucket steps, In (key, bucket, steps) report <->
      In bucket (c_buckets c) /\
      steps = line (length (c_orders c))
                (filter (in_bucket c bucket)
                  (all_attempts (length (c_orders c)) (c_window c) (of_key key (concat batches)))) /\
      exists s rest, steps = s :: rest /\ s_total s <> 0.
Proof.
  intros c batches O S Cl. assert (P := ordered_plain c O).
  assert (PN : (0 < steps_len c)%nat) by apply P.
  set (rows := concat batches) in *.
  assert (SR : by_user rows) by apply S.
  assert (FA : Forall (fits c) rows).
  { apply Forall_forall. intros r Hr. apply (st_steps _ _ S r Hr). }
  unfold funnel. rewrite (evaluate_all_run c batches [] funnel0).
  2: split; apply O. 2: apply Forall_forall; apply S. 2: exact SR.
  2: apply Forall_forall; apply S. 2,3: reflexivity.
  fold rows.
  (* every breakdown value runs through *)
  assert (G : forall k, exists g' a, group_run c (of_key k rows) (new_group c) = Some g' /\
     exists ats, Tracks c g' a ats /\ ats ++ fin a = all_attempts (steps_len c) (c_window c) (of_key k rows)).
  { intro k. assert (Sk : by_user (of_key k rows)) by (apply sorted_filter_rows; exact SR).
    assert (Ck : clean_from None (of_key k rows)).
    { apply clean_none; [exact Sk|]. intros u r Hr. apply (Cl u k r). rewrite of_key_user. exact Hr. }
    assert (Fk : Forall (fits c) (of_key k rows)).
    { rewrite Forall_forall in *. intros r Hr. apply FA. unfold of_key in Hr. apply filter_In in Hr. apply Hr. }
    assert (R := group_run_spec c (of_key k rows) (new_group c) [] [] P Fk (new_group_tracks c P)
                   (fun _ => eq_refl) Ck).
    assert (L := run_rows_all (steps_len c) (c_window c) (length (of_key k rows)) (of_key k rows)
                   PN (le_n _) Sk).
    change (cur_user (new_group c)) with (@None Z) in R.
    destruct (run_rows _ _ None [] (of_key k rows)) as [e a]. destruct R as (g' & R & T).
    exists g', a. split; [exact R|]. exists e. split; [exact T|exact L]. }
  destruct (rows_run_total c rows funnel0) as (f & RR).
  { intros k _. destruct (G k) as (g' & a & A & _). exists g'. exact A. }
  rewrite RR. unfold finalize.
  destruct (rows_run_keys c rows funnel0 f RR (NoDup_nil _)) as (ND & KS).
  set (post := fun k => all_attempts (steps_len c) (c_window c) (of_key k rows)).
  assert (TG : forall k g, In (k, g) (f_groups f) -> exists a ats, Tracks c g a ats /\ ats ++ fin a = post k).
  { intros k g Hg.
    assert (Hk : In k (akeys (f_groups f))) by (unfold akeys; apply (in_map fst) in Hg; exact Hg).
    assert (Ag : aget gkey_dec k (f_groups f) = Some g).
    { clear -Hg ND. induction (f_groups f) as [|[k0 g0] l IH]; [destruct Hg|].
      cbn [akeys map fst] in ND. inversion ND as [|x y NI ND']; subst. cbn [aget].
      destruct Hg as [E|Hg].
      - injection E as -> ->. destruct (gkey_dec k k); [reflexivity|congruence].
      - destruct (gkey_dec k k0) as [->|_]; [|exact (IH ND' Hg)]. exfalso. apply NI.
        apply (in_map fst) in Hg. exact Hg. }
    apply KS in Hk. destruct Hk as [Hk|Hk]; [destruct Hk|].
    assert (RG := rows_run_group c k rows funnel0 f RR). cbn [funnel0 f_groups aget] in RG.
    destruct (G k) as (g' & a & A & ats & T & E).
    destruct (of_key k rows) as [|r l] eqn:OK; [congruence|].
    destruct RG as (g2 & A2 & B2). rewrite Ag in A2. injection A2 as <-. rewrite A in B2.
    injection B2 as <-. exists a, ats. split; [exact T|]. unfold post. rewrite OK. exact E. }
  destruct (finalize_tracked c (f_groups f) post P TG) as (gs' & PA & B). rewrite PA.
  eexists. split; [reflexivity|]. intros key bucket steps.
  rewrite flat_lines, B, in_flat_map. split.
  - intros ((k & bs) & Hk & Hl). apply in_map_iff in Hk. destruct Hk as ((k0 & g0) & Ek & Hg).
    cbn [fst snd] in Ek. injection Ek as <- <-. cbn [fst snd] in Hl.
    apply in_map_iff in Hl. destruct Hl as ((b0 & l0) & El & Hb). cbn [fst snd] in El.
    injection El as <- <- <-. apply filter_In in Hb. destruct Hb as (Hb & Cn). cbn [snd] in Cn.
    unfold book in Hb. apply in_map_iff in Hb. destruct Hb as (b1 & Eb & Hb). injection Eb as <- <-.
    split; [exact Hb|]. split; [reflexivity|].
    unfold counted in Cn. destruct (line _ _) as [|s rest]; [discriminate|].
    exists s, rest. split; [reflexivity|]. lia.
  - intros (Hb & El & s & rest & Es & NZ).
    assert (Hk : In key (akeys (f_groups f))).
    { apply KS. right. intro X. unfold rows in *. rewrite X in El. rewrite Es in El.
      unfold line in El. destruct (length (c_orders c)); [discriminate|]. cbn [seq map] in El.
      injection El as El _. subst s. cbn in NZ. congruence. }
    unfold akeys in Hk. apply in_map_iff in Hk. destruct Hk as ((k0 & g0) & Ek & Hg). cbn [fst] in Ek.
    subst k0. exists (key, book c (post key)). split.
    { apply in_map_iff. exists (key, g0). split; [reflexivity|exact Hg]. }
    cbn [fst snd]. apply in_map_iff. exists (bucket, steps). split; [reflexivity|].
    apply filter_In. split.
    + unfold book. apply in_map_iff. exists bucket. split; [|exact Hb]. f_equal. symmetry. exact El.
    + cbn [snd]. rewrite Es. unfold counted. lia.
Qed.
Print Assumptions C49_report_is_specified_partial.

(** A stream with three users, a breakdown and an excluded event in the middle of an attempt. *)
Definition ex_cfg2 : Cfg := mkCfg [Exact; Exact] 100 [None] false NonUnique None None [0].
Definition ev (u t k : Z) (a b x : bool) : Row := mkRow u t [k] [a; b] [x] [].
Definition ex_rows2 : list Row :=
  [ev 1 10 5 true false false; ev 1 20 5 false true false; ev 1 30 6 true false false;
   ev 1 40 6 false false true; ev 2 50 5 true false false; ev 2 70 6 true false false;
   ev 2 500 6 false true false; ev 3 80 5 false true false].

Example C49_witness :
  Ordered ex_cfg2 /\ Stream ex_cfg2 [firstn 2 ex_rows2; skipn 2 ex_rows2] /\
  no_leading_excluded (concat [firstn 2 ex_rows2; skipn 2 ex_rows2]) /\
  all_attempts 2 100 (of_key [5] ex_rows2) = [[10; 20]; [50]] /\
  all_attempts 2 100 (of_key [6] ex_rows2) = [[70]] /\
  funnel ex_cfg2 None [firstn 2 ex_rows2; skipn 2 ex_rows2] =
    Some [([5], 0, [mkSR 2 0 0 0; mkSR 1 1 10 10]); ([6], 0, [mkSR 1 0 0 0; mkSR 0 1 0 0])].
Proof.
  split. { constructor; cbn; try discriminate; intuition congruence. }
  split.
  { constructor; cbn.
    - intros b [<-|[<-|[]]]; discriminate.
    - repeat constructor; lia.
    - intros r H. repeat destruct H as [<-|H]; try (cbn; lia); destruct H.
    - intros r H. repeat destruct H as [<-|H]; try (split; reflexivity); destruct H. }
  split.
  { intros u k r H. rewrite of_key_user in H.
    destruct (list_eq_dec Z.eq_dec k [5]) as [->|N5]; [|destruct (list_eq_dec Z.eq_dec k [6]) as [->|N6]].
    - cbn in H. destruct u as [|u|u]; try discriminate H.
      destruct u as [u|u|]; [destruct u|destruct u|]; try discriminate H; injection H as <-; reflexivity.
    - cbn in H. destruct u as [|u|u]; try discriminate H.
      destruct u as [u|u|]; [destruct u|destruct u|]; try discriminate H; injection H as <-; reflexivity.
    - exfalso. unfold of_key in H.
      assert (E : filter (fun r => if gkey_dec (r_key r) k then true else false)
                    (concat [firstn 2 ex_rows2; skipn 2 ex_rows2]) = []).
      { cbn [ex_rows2 firstn skipn concat app filter ev r_key].
        destruct (gkey_dec [5] k); [congruence|]. destruct (gkey_dec [6] k); [congruence|]. reflexivity. }
      rewrite E in H. discriminate. }
  repeat split.
Qed.

(** The full statement fails: an event of another user changes what is counted.  User [u] starts
    the funnel; when the next user in the stream begins with an excluded event, the attempt of
    [u] disappears from the report. *)
Theorem C49_other_users_refuted : forall u v t t' w,
  0 <= u -> u < v ->
  let c := mkCfg [Exact; Exact] w [None] false NonUnique None None [0] in
  funnel c None [[mkRow u t [] [true; false] [false] []]] =
    Some [([], 0, [mkSR 1 0 0 0; mkSR 0 1 0 0])] /\
  funnel c None [[mkRow u t [] [true; false] [false] []; mkRow v t' [] [false; false] [true] []]] =
    Some [].
Proof.
  intros u v t t' w Hu Hv c.
  assert (A : (u <? 0) = false) by lia. assert (B : (u =? u) = true) by lia.
  assert (C : (v =? u) = false) by lia.
  unfold funnel. cbn [evaluate_all evaluate r_part funnel0 f_cur]. rewrite A.
  cbn [eval_rows funnel0 f_skip f_groups f_cur r_key r_part more aget andb].
  unfold do_row, guard_attempt, guard_const, guard_part.
  cbn [new_group g_first set_part g_cur Nat.eqb c_consts g_part r_part c]. rewrite B.
  cbn. rewrite C. cbn. split; reflexivity.
Qed.
Print Assumptions C49_other_users_refuted.
