(** Identifiers of part files: every file and every listed part has an id that the counter
    of its level has already passed. *)
From Coq Require Import List NArith ZArith Lia Bool Permutation String.
From Verif Require Import Bytes Value Log AMap Order Memtable Table TableFacts TableSpec TableUse Get
  Compact CompactFacts CompactRun.
Import ListNotations.

Definition passed (k i next : nat) : Prop := match k with O => i < next | S _ => i <= next end.
Definition bounded (ls : list Level) (parts : list ((nat * nat) * PartFile)) : Prop :=
  forall k l i, nth_error ls k = Some l ->
    aget lp_dec (k, i) parts <> None \/ In i (map p_id (l_parts l)) -> passed k i (l_next l).
Definition FInv (t : Table) : Prop :=
  d_md (t_disk t) = Some (t_md t) /\ md_levels (t_md t) <> [] /\ bounded (md_levels (t_md t)) (d_parts (t_disk t)).

Lemma bounded_sub ls parts parts' : bounded ls parts ->
  (forall p, aget lp_dec p parts' <> None -> aget lp_dec p parts <> None) -> bounded ls parts'.
Proof. intros B H k l i E [G|G]; apply (B k l i E); [left; now apply H|now right]. Qed.

Lemma bounded_flush l0 r parts pt pf : bounded (l0 :: r) parts -> p_id pt = l_next l0 ->
  bounded (mkLevel (S (l_next l0)) (l_parts l0 ++ [pt]) :: r) (aset lp_dec (0, p_id pt) pf parts).
Proof.
  intros B E k l i El H. destruct k as [|k]; cbn [nth_error] in El.
  - injection El as <-. cbn [passed l_next l_parts] in *. destruct (Nat.eq_dec i (p_id pt)) as [->|N]; [lia|].
    assert (i < l_next l0); [|lia]. apply (B 0 l0 i eq_refl). destruct H as [H|H].
    + left. rewrite aget_aset_ne in H by congruence. exact H.
    + right. rewrite map_app, in_app_iff in H. destruct H as [H|[H|[]]]; [exact H|congruence].
  - apply (B (S k) l i El). destruct H as [H|H]; [left|now right]. rewrite aget_aset_ne in H by discriminate. exact H.
Qed.

Section WithSort.
Variable lexsort : list (list cell) -> list nat.

Lemma level0_id md m pt pf l0 r : md_levels md = l0 :: r -> level0_part lexsort md m = Ok (pt, pf) -> p_id pt = l_next l0.
Proof.
  intros El E0. unfold level0_part in E0. destruct (mt_chunk _ _ _ _ _) as [[rows|]|]; try discriminate.
  destruct (chunk_min_max _ _ _) as [[a b]|]; [|discriminate]. rewrite El in E0. injection E0 as <- _. reflexivity.
Qed.

Lemma flush_log_ids t t' res : FInv t -> flush_log lexsort t = (t', res) -> FInv t'.
Proof.
  intros (Em & Ne & B) H. destruct (md_levels (t_md t)) as [|l0 r] eqn:El; [contradiction|]. unfold flush_log in H.
  destruct (level0_part lexsort (t_md t) (t_mem t)) as [[pt pf]|e] eqn:E0.
  2:{ apply pair_fst in H. subst t'. split; [exact Em|]. cbn [t_md t_disk]. rewrite El. split; [discriminate|exact B]. }
  pose proof (level0_id _ _ _ _ _ _ El E0) as Eid.
  unfold flush_effects in H. cbn [apply_effects apply_effect] in H.
  destruct (aget lp_dec (0, p_id pt) (d_parts (t_disk t))) eqn:Ea.
  { apply pair_fst in H. subst t'. split; [exact Em|]. cbn [t_md t_disk]. rewrite El. split; [discriminate|exact B]. }
  cbn [d_logs d_md d_parts] in H.
  assert (G : forall d' mem lg lid, d_parts d' = aset lp_dec (0, p_id pt) pf (d_parts (t_disk t)) ->
     d_md d' = Some (md_flushed (t_md t) pt) -> FInv (mkTable (md_flushed (t_md t) pt) mem lg lid d')).
  { intros d' mem lg lid Ed Emd. split; [exact Emd|]. cbn [t_md t_disk]. unfold md_flushed. cbn [md_levels]. rewrite El.
    split; [discriminate|]. rewrite Ed. now apply bounded_flush. }
  destruct (aget N.eq_dec _ (d_logs (t_disk t))); cbn [apply_effects apply_effect d_logs d_md d_parts] in H.
  - destruct (aget N.eq_dec _ (adel _ _ _)); cbn [apply_effects] in H; apply pair_fst in H; subst t'; now apply G.
  - apply pair_fst in H; subst t'. now apply G.
Qed.

Lemma step_ids t op t' res : FInv t -> step lexsort t op = (Some t', res) -> FInv t'.
Proof.
  intros I H. pose proof I as (Em & Ne & B).
  destruct op as [vals| |f| |]; cbn [step] in H.
  - destruct (insert lexsort t vals) as [t1 r1] eqn:E. injection H as -> _. unfold insert in E.
    destruct (check_values _ _); [|apply pair_fst in E; now subst t'].
    destruct (key_values _ _); [|apply pair_fst in E; now subst t'].
    destruct (push_values (t_mem t) 0 _) as [m1 ok1]. destruct (if ok1 then _ else _) as [m2 ok2].
    assert (G : forall m lg lid bytes, FInv (mkTable (t_md t) m lg lid (append_log (t_disk t) (t_log t) bytes))).
    { intros m lg lid bytes. unfold append_log. destruct (aget N.eq_dec _ _); split; cbn [t_md t_disk d_md d_parts]; auto. }
    destruct ok2; [|apply pair_fst in E; subst t'; apply G].
    destruct (_ && _)%bool; [|apply pair_fst in E; subst t'; apply G].
    eapply flush_log_ids; [apply G|exact E].
  - destruct (flush lexsort t) as [t1 r1] eqn:E. injection H as -> _. unfold flush in E.
    destruct (Nat.eqb _ 0); [apply pair_fst in E; now subst t'|]. eapply flush_log_ids; eauto.
  - destruct (add_field t f) as [t1 r1] eqn:E. injection H as -> _. unfold add_field in E.
    destruct (existsb _ _); apply pair_fst in E; subst t'; [exact I|]. split; [reflexivity|]. cbn. auto.
  - injection H as <- _. split; [exact Em|]. split; [exact Ne|]. cbn [gc t_md t_disk d_parts]. eapply bounded_sub; [exact B|].
    intros p. rewrite (aget_filter (referenced (t_md t))). destruct (referenced _ _); [auto|congruence].
  - destruct (reopen (t_disk t)) as [t1|] eqn:E; [|discriminate]. injection H as -> _. unfold reopen in E.
    rewrite Em in E. destruct (max_id _); [|discriminate]. destruct (aget N.eq_dec _ _); [|discriminate].
    destruct (recover_log _ _); [|discriminate]. destruct (replay _ _); [|discriminate]. injection E as <-. split; auto.
Qed.
Lemma run_ids ops : forall t t' acks, FInv t -> run lexsort t ops = Some (t', acks) -> FInv t'.
Proof.
  induction ops as [|op ops IH]; intros t t' acks I R; cbn [run] in R; [injection R as <- _; exact I|].
  destruct (step lexsort t op) as [[t1|] res] eqn:Es; [|discriminate].
  destruct (run lexsort t1 ops) as [[t2 new]|] eqn:R2; [|discriminate]. assert (t2 = t') as -> by congruence.
  eapply IH; [|exact R2]. eapply step_ids; eauto.
Qed.
(** Levels below the first, and their files, are left alone by everything but compaction. *)
Lemma flush_log_deep t t' res : md_levels (t_md t) <> [] -> flush_log lexsort t = (t', res) ->
  tl (md_levels (t_md t')) = tl (md_levels (t_md t)) /\ md_levels (t_md t') <> []
  /\ forall k i, aget lp_dec (S k, i) (d_parts (t_disk t')) = aget lp_dec (S k, i) (d_parts (t_disk t)).
Proof.
  intros Ne H. destruct (md_levels (t_md t)) as [|l0 r] eqn:El; [contradiction|]. unfold flush_log in H.
  destruct (level0_part lexsort (t_md t) (t_mem t)) as [[pt pf]|e] eqn:E0.
  2:{ apply pair_fst in H. subst t'. cbn [t_md t_disk]. rewrite El. split; [reflexivity|]. split; [discriminate|reflexivity]. }
  unfold flush_effects in H. cbn [apply_effects apply_effect] in H.
  destruct (aget lp_dec (0, p_id pt) (d_parts (t_disk t))) eqn:Ea.
  { apply pair_fst in H. subst t'. cbn [t_md t_disk]. rewrite El. split; [reflexivity|]. split; [discriminate|reflexivity]. }
  cbn [d_logs d_md d_parts] in H.
  assert (G : forall d' mem lg lid, d_parts d' = aset lp_dec (0, p_id pt) pf (d_parts (t_disk t)) ->
     let t' := mkTable (md_flushed (t_md t) pt) mem lg lid d' in
     tl (md_levels (t_md t')) = r /\ md_levels (t_md t') <> []
     /\ forall k i, aget lp_dec (S k, i) (d_parts (t_disk t')) = aget lp_dec (S k, i) (d_parts (t_disk t))).
  { intros d' mem lg lid Ed. cbn [t_md t_disk]. unfold md_flushed. cbn [md_levels]. rewrite El. cbn [tl].
    split; [reflexivity|]. split; [discriminate|]. intros k i. rewrite Ed. now rewrite aget_aset_ne by discriminate. }
  cbn [tl].
  destruct (aget N.eq_dec _ (d_logs (t_disk t))); cbn [apply_effects apply_effect d_logs d_md d_parts] in H.
  - destruct (aget N.eq_dec _ (adel _ _ _)); cbn [apply_effects] in H; apply pair_fst in H; subst t'; now apply G.
  - apply pair_fst in H; subst t'. now apply G.
Qed.
Lemma step_deep t op t' res : FInv t -> step lexsort t op = (Some t', res) ->
  tl (md_levels (t_md t')) = tl (md_levels (t_md t)).
Proof.
  intros I H. pose proof I as (Em & Ne & B).
  destruct op as [vals| |f| |]; cbn [step] in H.
  - destruct (insert lexsort t vals) as [t1 r1] eqn:E. injection H as -> _. unfold insert in E.
    destruct (check_values _ _); [|apply pair_fst in E; now subst t'].
    destruct (key_values _ _); [|apply pair_fst in E; now subst t'].
    destruct (push_values (t_mem t) 0 _) as [m1 ok1]. destruct (if ok1 then _ else _) as [m2 ok2].
    destruct ok2; [|apply pair_fst in E; now subst t'].
    destruct (_ && _)%bool; [|apply pair_fst in E; now subst t'].
    now apply flush_log_deep in E as [E _].
  - destruct (flush lexsort t) as [t1 r1] eqn:E. injection H as -> _. unfold flush in E.
    destruct (Nat.eqb _ 0); [apply pair_fst in E; now subst t'|]. now apply flush_log_deep in E as [E _].
  - destruct (add_field t f) as [t1 r1] eqn:E. injection H as -> _. unfold add_field in E.
    destruct (existsb _ _); apply pair_fst in E; now subst t'.
  - injection H as <- _. reflexivity.
  - destruct (reopen (t_disk t)) as [t1|] eqn:E; [|discriminate]. injection H as -> _. unfold reopen in E.
    rewrite Em in E. destruct (max_id _); [|discriminate]. destruct (aget N.eq_dec _ _); [|discriminate].
    destruct (recover_log _ _); [|discriminate]. destruct (replay _ _); [|discriminate]. now injection E as <-.
Qed.
Lemma run_deep ops : forall t t' acks, FInv t -> run lexsort t ops = Some (t', acks) ->
  tl (md_levels (t_md t')) = tl (md_levels (t_md t)).
Proof.
  induction ops as [|op ops IH]; intros t t' acks I R; cbn [run] in R; [injection R as <- _; reflexivity|].
  destruct (step lexsort t op) as [[t1|] res] eqn:Es; [|discriminate].
  destruct (run lexsort t1 ops) as [[t2 new]|] eqn:R2; [|discriminate]. assert (t2 = t') as -> by congruence.
  rewrite (IH _ _ _ (step_ids _ _ _ _ I Es) R2). eapply step_deep; eauto.
Qed.
Definition next0 (t : Table) : nat := match md_levels (t_md t) with l0 :: _ => l_next l0 | [] => 0 end.
Lemma flush_log_next t t' res : FInv t -> flush_log lexsort t = (t', res) ->
  next0 t <= next0 t' /\ forall p pf, aget lp_dec p (d_parts (t_disk t')) = Some pf ->
     aget lp_dec p (d_parts (t_disk t)) = Some pf \/ p = (0, next0 t).
Proof.
  intros (Em & Ne & B) H. unfold next0. destruct (md_levels (t_md t)) as [|l0 r] eqn:El; [contradiction|]. unfold flush_log in H.
  destruct (level0_part lexsort (t_md t) (t_mem t)) as [[pt pf]|e] eqn:E0.
  2:{ apply pair_fst in H. subst t'. cbn [t_md t_disk]. rewrite El. auto. }
  pose proof (level0_id _ _ _ _ _ _ El E0) as Eid.
  unfold flush_effects in H. cbn [apply_effects apply_effect] in H.
  destruct (aget lp_dec (0, p_id pt) (d_parts (t_disk t))) eqn:Ea.
  { apply pair_fst in H. subst t'. cbn [t_md t_disk]. rewrite El. auto. }
  cbn [d_logs d_md d_parts] in H.
  assert (G : forall d' mem lg lid, d_parts d' = aset lp_dec (0, p_id pt) pf (d_parts (t_disk t)) ->
     let t' := mkTable (md_flushed (t_md t) pt) mem lg lid d' in
     l_next l0 <= match md_levels (t_md t') with l0 :: _ => l_next l0 | [] => 0 end /\
     forall p pf, aget lp_dec p (d_parts (t_disk t')) = Some pf ->
     aget lp_dec p (d_parts (t_disk t)) = Some pf \/ p = (0, l_next l0)).
  { intros d' mem lg lid Ed. cbn [t_md t_disk]. unfold md_flushed. cbn [md_levels]. rewrite El. cbn [l_next].
    split; [lia|]. intros p pf0. rewrite Ed. destruct (lp_dec p (0, p_id pt)) as [->|N]; [right; congruence|].
    rewrite aget_aset_ne by exact N. now left. }
  destruct (aget N.eq_dec _ (d_logs (t_disk t))); cbn [apply_effects apply_effect d_logs d_md d_parts] in H.
  - destruct (aget N.eq_dec _ (adel _ _ _)); cbn [apply_effects] in H; apply pair_fst in H; subst t'; now apply G.
  - apply pair_fst in H; subst t'. now apply G.
Qed.
Lemma step_next t op t' res : FInv t -> step lexsort t op = (Some t', res) ->
  next0 t <= next0 t' /\ forall p pf, aget lp_dec p (d_parts (t_disk t')) = Some pf ->
     aget lp_dec p (d_parts (t_disk t)) = Some pf \/ p = (0, next0 t).
Proof.
  intros I H. pose proof I as (Em & Ne & B).
  destruct op as [vals| |f| |]; cbn [step] in H.
  - destruct (insert lexsort t vals) as [t1 r1] eqn:E. injection H as -> _. unfold insert in E.
    destruct (check_values _ _); [|apply pair_fst in E; subst t'; auto].
    destruct (key_values _ _); [|apply pair_fst in E; subst t'; auto].
    destruct (push_values (t_mem t) 0 _) as [m1 ok1]. destruct (if ok1 then _ else _) as [m2 ok2].
    assert (G : forall m lg lid bytes, let t0 := (mkTable (t_md t) m lg lid (append_log (t_disk t) (t_log t) bytes)) in
      FInv t0 /\ next0 t0 = next0 t /\ d_parts (t_disk t0) = d_parts (t_disk t)).
    { intros m lg lid bytes. cbn zeta. unfold append_log. destruct (aget N.eq_dec _ _); split; (split; [|split]) || split; auto. }
    assert (G' : forall m lg lid bytes, let t0 := (mkTable (t_md t) m lg lid (append_log (t_disk t) (t_log t) bytes)) in
      next0 t <= next0 t0 /\ forall p pf, aget lp_dec p (d_parts (t_disk t0)) = Some pf ->
       aget lp_dec p (d_parts (t_disk t)) = Some pf \/ p = (0, next0 t)).
    { intros m lg lid bytes. destruct (G m lg lid bytes) as (_ & E1 & E2). cbn zeta in *. rewrite E1, E2. auto. }
    destruct ok2; [|apply pair_fst in E; subst t'; apply G'].
    destruct (_ && _)%bool; [|apply pair_fst in E; subst t'; apply G'].
    match type of E with flush_log _ (mkTable _ ?m ?lg ?lid (append_log _ _ ?b)) = _ => destruct (G m lg lid b) as (I0 & E1 & E2) end.
    apply flush_log_next in E as [A C]; [|exact I0]. cbn zeta in *. rewrite E1 in A, C. rewrite E2 in C. auto.
  - destruct (flush lexsort t) as [t1 r1] eqn:E. injection H as -> _. unfold flush in E.
    destruct (Nat.eqb _ 0); [apply pair_fst in E; subst t'; auto|]. eapply flush_log_next; eauto.
  - destruct (add_field t f) as [t1 r1] eqn:E. injection H as -> _. unfold add_field in E.
    destruct (existsb _ _); apply pair_fst in E; subst t'; auto.
  - injection H as <- _. split; [reflexivity|]. intros p pf. cbn [gc t_disk d_parts].
    rewrite (aget_filter (referenced (t_md t))). destruct (referenced _ _); [auto|discriminate].
  - destruct (reopen (t_disk t)) as [t1|] eqn:E; [|discriminate]. injection H as -> _. unfold reopen in E.
    rewrite Em in E. destruct (max_id _); [|discriminate]. destruct (aget N.eq_dec _ _); [|discriminate].
    destruct (recover_log _ _); [|discriminate]. destruct (replay _ _); [|discriminate]. injection E as <-. auto.
Qed.

(** Counters only grow. *)
Definition used (ls : list Level) (p : nat * nat) : Prop :=
  exists l, nth_error ls (fst p) = Some l /\ passed (fst p) (snd p) (l_next l).
Lemma used_step t op t' res p : FInv t -> step lexsort t op = (Some t', res) ->
  used (md_levels (t_md t)) p -> used (md_levels (t_md t')) p.
Proof.
  intros I H (l & E & P). destruct (step_next _ _ _ _ I H) as [Hn _]. pose proof (step_deep _ _ _ _ I H) as Hd.
  pose proof (step_ids _ _ _ _ I H) as (_ & Ne' & _). destruct I as (_ & Ne & _). unfold next0 in Hn.
  destruct (md_levels (t_md t)) as [|l0 r]; [contradiction|]. destruct (md_levels (t_md t')) as [|l0' r']; [contradiction|].
  cbn [tl] in Hd. subst r'. destruct p as [[|k] i]; cbn [fst snd nth_error passed] in *.
  - injection E as ->. exists l0'. cbn. split; [reflexivity|lia].
  - exists l. auto.
Qed.
Lemma used_run ops p : forall t t' acks, FInv t -> run lexsort t ops = Some (t', acks) ->
  used (md_levels (t_md t)) p -> used (md_levels (t_md t')) p.
Proof.
  induction ops as [|op ops IH]; intros t t' acks I R U; cbn [run] in R; [injection R as <- _; exact U|].
  destruct (step lexsort t op) as [[t1|] res] eqn:Es; [|discriminate].
  destruct (run lexsort t1 ops) as [[t2 new]|] eqn:R2; [|discriminate]. assert (t2 = t') as -> by congruence.
  eapply IH; [|exact R2|]; [eapply step_ids; eauto|eapply used_step; eauto].
Qed.
End WithSort.

(** *** The files of a pass *)
Definition targets (ops : list FsOp) : list (nat * nat) :=
  flat_map (fun o => match o with Rename _ b => [b] | Delete _ => [] end) ops.
(** Paths of the files a pass creates: outputs of merges and targets of moves. *)
Definition created (w : CW) : list (nat * nat) := map fst (w_new w) ++ targets (w_ops w).

Lemma fs_ops_targets held ops p : forall m m', fs_ops held m ops = Some m' -> aget lp_dec p m' <> None ->
  aget lp_dec p m <> None \/ In p (targets ops).
Proof.
  induction ops as [|o ops IH]; intros m m' H Hp; cbn [fs_ops] in H; [injection H as <-; now left|].
  destruct (fs_op held m o) as [m1|] eqn:E; [|discriminate]. unfold targets. cbn [flat_map]. rewrite in_app_iff.
  destruct (IH _ _ H Hp) as [G|G]; [|now right; right]. destruct o as [a b|a]; cbn [fs_op] in E.
  - destruct (aget lp_dec a m) eqn:Ea; [|discriminate]. injection E as <-.
    destruct (lp_dec p b) as [->|Nb]; [right; left; now left|]. rewrite aget_aset_ne in G by exact Nb.
    destruct (lp_dec p a) as [->|Na]; [rewrite aget_adel_eq in G; contradiction|]. rewrite aget_adel_ne in G by exact Na. now left.
  - destruct (held a); injection E as <-; [now left|].
    destruct (lp_dec p a) as [->|Na]; [rewrite aget_adel_eq in G; contradiction|]. rewrite aget_adel_ne in G by exact Na. now left.
Qed.
Lemma aget_keys {V} p (m : list ((nat * nat) * V)) : aget lp_dec p m <> None -> In p (map fst m).
Proof.
  induction m as [|[q v] m IH]; cbn [aget map fst]; [congruence|]. destruct (lp_dec p q) as [->|N]; [now left|].
  intros H. right. now apply IH.
Qed.

Record CIds (ls0 : list Level) (w : CW) : Prop := {
  ci_len : List.length (w_levels w) = List.length ls0;
  ci_mono : forall k l0 l, nth_error ls0 k = Some l0 -> nth_error (w_levels w) k = Some l ->
     l_next l0 <= l_next l /\ (k = 0 -> l_next l = l_next l0);
  ci_parts : forall k l i, nth_error (w_levels w) k = Some l -> In i (map p_id (l_parts l)) -> passed k i (l_next l);
  ci_new : forall k i, In (k, i) (created w) ->
     k <> 0 /\ exists l0 l, nth_error ls0 k = Some l0 /\ nth_error (w_levels w) k = Some l /\ l_next l0 < i <= l_next l;
  ci_nd : NoDup (created w)
}.

Lemma targets_app a b : targets (a ++ b) = targets a ++ targets b.
Proof. apply flat_map_app. Qed.
Lemma targets_deletes tc : targets (map Delete tc) = [].
Proof. induction tc; cbn; auto. Qed.

Section Pass.
Variable psize : nat -> Part -> N.
Variable merge : nat -> list PartFile -> result fault (list MergeOut).
Variable co : COpts.

Lemma find_id id ps p : find (fun p => Nat.eqb (p_id p) id) ps = Some p -> In p ps /\ p_id p = id.
Proof. intros H. apply find_some in H as [H1 H2]. apply Nat.eqb_eq in H2. auto. Qed.
Lemma remove_id_incl id ps : incl (remove_id id ps) ps.
Proof. induction ps as [|p ps IH]; cbn; [auto using incl_refl|]. destruct (Nat.eqb _ _); intros x H; [now right|]. destruct H; [now left|right; auto]. Qed.

Lemma nth_error_ex {A B} (a : list A) (b : list B) k x : List.length a = List.length b -> nth_error a k = Some x -> exists y, nth_error b k = Some y.
Proof.
  intros E H. destruct (nth_error b k) as [y|] eqn:Eb; [eauto|]. apply nth_error_None in Eb.
  assert (nth_error a k <> None) by congruence. apply nth_error_Some in H0. lia.
Qed.

Lemma move_ids ls0 w w' k id : CIds ls0 w -> move_part w k id = Ok w' -> CIds ls0 w'.
Proof.
  intros C H. unfold move_part in H.
  destruct (nth_error (w_levels w) k) as [l|] eqn:Ek; [|discriminate].
  destruct (nth_error (w_levels w) (S k)) as [ln|] eqn:En; [|discriminate].
  destruct (find _ (l_parts l)) as [p|] eqn:Ef; [|discriminate]. apply Ok_inj_ in H. subst w'.
  destruct C as [Cl Cm Cp Cn Cd].
  set (f := fun i lv => _ : Level).
  assert (Fn : forall j, nth_error (mapi f 0 (w_levels w)) j = option_map (f j) (nth_error (w_levels w) j)) by (intros j; apply (nth_error_mapi f _ 0 j)).
  assert (Fm : forall j lv, nth_error (w_levels w) j = Some lv -> l_next lv <= l_next (f j lv) /\ (j <> S k -> l_next (f j lv) = l_next lv)).
  { intros j lv Ej. unfold f. destruct (Nat.eqb_spec j k); [cbn [l_next]; lia|]. destruct (Nat.eqb_spec j (S k)); [|lia].
    cbn [l_next]. subst j. assert (lv = ln) as -> by congruence. lia. }
  assert (New : In (S k, S (l_next ln)) (created w) -> False).
  { intros H. destruct (Cn _ _ H) as (_ & a & b & _ & Eb & Hb). assert (b = ln) as -> by congruence. lia. }
  assert (Ecr : created (mkCW (mapi f 0 (w_levels w)) (w_ops w ++ [Rename (k, id) (S k, S (l_next ln))]) (w_l0 w) (w_new w)
               (w_plans w ++ [[(k, id)]])) = created w ++ [(S k, S (l_next ln))]).
  { unfold created. cbn [w_new w_ops]. rewrite targets_app. cbn. now rewrite app_assoc. }
  constructor; rewrite ?Ecr; cbn [w_levels].
  - rewrite mapi_length. exact Cl.
  - intros j l1 l2 E1 E2. rewrite Fn in E2. destruct (nth_error (w_levels w) j) as [lv|] eqn:Ej; [|discriminate].
    cbn in E2. injection E2 as <-. destruct (Cm j l1 lv E1 Ej) as [A B]. destruct (Fm j lv Ej) as [A' B'].
    split; [lia|]. intros ->. rewrite B' by discriminate. auto.
  - intros j l2 i E2 Hi. rewrite Fn in E2. destruct (nth_error (w_levels w) j) as [lv|] eqn:Ej; [|discriminate].
    cbn in E2. injection E2 as <-. pose proof (Cp j lv i Ej) as P. destruct (Fm j lv Ej) as [A' _].
    revert Hi A'. unfold f. destruct (Nat.eqb_spec j k); cbn [l_parts l_next].
    { intros Hi _. apply P. apply in_map_iff in Hi as (q & <- & Hq). apply in_map, (remove_id_incl _ _ _ Hq). }
    destruct (Nat.eqb_spec j (S k)); [|intros; apply P; assumption]. cbn [l_parts l_next]. subst j.
    rewrite map_app, in_app_iff. cbn [map p_id In]. intros [Hi|[Hi|[]]] _; cbn [passed]; [|lia].
    specialize (P Hi). cbn [passed] in P. assert (lv = ln) as -> by congruence. lia.
  - intros j i Hi. apply in_app_or in Hi as [Hi|[Hi|[]]].
    + destruct (Cn _ _ Hi) as (H0 & a & b & Ea & Eb & Hb). split; [exact H0|]. exists a, (f j b). split; [exact Ea|].
      rewrite Fn, Eb. split; [reflexivity|]. destruct (Fm j b Eb). lia.
    + injection Hi as <- <-. split; [discriminate|]. destruct (nth_error_ex _ _ _ _ Cl En) as (a & Ea). exists a, (f (S k) ln).
      split; [exact Ea|]. rewrite Fn, En. split; [reflexivity|]. unfold f. destruct (Nat.eqb_spec (S k) k); [lia|].
      rewrite Nat.eqb_refl. cbn [l_next]. destruct (Cm _ _ _ Ea En). lia.
  - apply NoDup_app_comm_snoc; [exact Cd|exact New].
Qed.

Lemma merge_ids ls0 d w w' k tc : CIds ls0 w -> merge_parts merge d w k tc = Ok w' -> CIds ls0 w'.
Proof.
  intros C H. unfold merge_parts in H. destruct (mapM _ tc) as [files|]; [|discriminate].
  destruct (nth_error (w_levels w) (S k)) as [ln|] eqn:En; [|discriminate].
  destruct (merge k files) as [outs|]; [|discriminate]. apply Ok_inj_ in H. subst w'.
  destruct C as [Cl Cm Cp Cn Cd].
  set (nb := combine (seq (S (l_next ln)) (List.length outs)) outs).
  set (f := fun i lv => _ : Level).
  assert (Fn : forall j, nth_error (mapi f 0 (w_levels w)) j = option_map (f j) (nth_error (w_levels w) j)) by (intros j; apply (nth_error_mapi f _ 0 j)).
  assert (Fm : forall j lv, l_next lv <= l_next (f j lv) /\ (j <> S k -> l_next (f j lv) = l_next lv)).
  { intros j lv. unfold f. cbn zeta. destruct (Nat.eqb_spec j (S k)); cbn [l_next drop_parts]; lia. }
  assert (Nb : map fst nb = seq (S (l_next ln)) (List.length outs)).
  { unfold nb. generalize (S (l_next ln)). clear. induction outs as [|o outs IH]; intros n; cbn; [reflexivity|]. now rewrite IH. }
  assert (Ecr : created (mkCW (mapi f 0 (w_levels w)) (w_ops w ++ map Delete tc) (w_l0 w ++ map snd (List.filter (fun p => Nat.eqb (fst p) 0) tc))
      (map (fun '(id, o) => ((S k, id), fst o)) nb ++ w_new w) (w_plans w ++ [tc]))
      = map (pair (S k)) (seq (S (l_next ln)) (List.length outs)) ++ created w).
  { unfold created. cbn [w_new w_ops]. rewrite targets_app, targets_deletes, app_nil_r, map_app, <- app_assoc. f_equal.
    rewrite <- Nb, !map_map. apply map_ext. intros [a b]. reflexivity. }
  constructor; rewrite ?Ecr; cbn [w_levels].
  - rewrite mapi_length. exact Cl.
  - intros j l1 l2 E1 E2. rewrite Fn in E2. destruct (nth_error (w_levels w) j) as [lv|] eqn:Ej; [|discriminate].
    cbn in E2. injection E2 as <-. destruct (Cm j l1 lv E1 Ej) as [A B]. destruct (Fm j lv) as [A' B'].
    split; [lia|]. intros ->. rewrite B' by discriminate. auto.
  - intros j l2 i E2 Hi. rewrite Fn in E2. destruct (nth_error (w_levels w) j) as [lv|] eqn:Ej; [|discriminate].
    cbn in E2. injection E2 as <-. pose proof (Cp j lv i Ej) as P.
    assert (Q : In i (map p_id (l_parts (drop_parts tc j lv))) -> passed j i (l_next lv)).
    { intros G. apply P. apply in_map_iff in G as (q & <- & Hq). cbn [drop_parts l_parts] in Hq. apply filter_In in Hq as [Hq _]. now apply in_map. }
    revert Hi. unfold f. cbn zeta. destruct (Nat.eqb_spec j (S k)); [|exact Q]. cbn [l_parts l_next]. subst j.
    assert (lv = ln) as -> by congruence.
    rewrite map_app, in_app_iff. intros [Hi|Hi]; cbn [passed drop_parts l_next].
    + specialize (Q Hi). cbn [passed] in Q. lia.
    + rewrite map_map in Hi. assert (In i (map fst nb)) as Hi2.
      { erewrite map_ext; [exact Hi|]. intros [a b]. reflexivity. }
      rewrite Nb in Hi2. apply in_seq in Hi2. lia.
  - intros j i Hi. apply in_app_or in Hi as [Hi|Hi].
    + apply in_map_iff in Hi as (q & E & Hq). injection E as <- <-. apply in_seq in Hq. split; [discriminate|].
      destruct (nth_error_ex _ _ _ _ Cl En) as (a & Ea). exists a, (f (S k) ln).
      split; [exact Ea|]. rewrite Fn, En. split; [reflexivity|]. unfold f. cbn zeta.
      rewrite Nat.eqb_refl. cbn [l_next drop_parts]. destruct (Cm _ _ _ Ea En). lia.
    + destruct (Cn _ _ Hi) as (H0 & a & b & Ea & Eb & Hb). split; [exact H0|]. exists a, (f j b). split; [exact Ea|].
      rewrite Fn, Eb. split; [reflexivity|]. destruct (Fm j b). lia.
  - assert (ND1 : NoDup (map (pair (S k)) (seq (S (l_next ln)) (List.length outs)))).
    { apply FinFun.Injective_map_NoDup; [intros a b E; congruence|apply seq_NoDup]. }
    assert (Dis : forall z, In z (map (pair (S k)) (seq (S (l_next ln)) (List.length outs))) -> ~ In z (created w)).
    { intros z Hz Hc. apply in_map_iff in Hz as (q & <- & Hq). apply in_seq in Hq.
      destruct (Cn _ _ Hc) as (_ & a & b & _ & Eb & Hb). assert (b = ln) as -> by congruence. lia. }
    revert ND1 Dis. generalize (map (pair (S k)) (seq (S (l_next ln)) (List.length outs))). intros a Na Dis.
    induction a as [|z a IH]; cbn; [exact Cd|]. inversion Na as [|? ? Nz Na']; subst. constructor.
    + rewrite in_app_iff. intros [X|X]; [auto|]. apply (Dis z); [now left|exact X].
    + apply IH; [exact Na'|]. intros y Hy. apply Dis. now right.
Qed.

Lemma loop_ids ls0 d ks : forall w w', CIds ls0 w -> compact_loop psize merge co d w ks = Ok w' -> CIds ls0 w'.
Proof.
  induction ks as [|k ks IH]; intros w w' C H; cbn [compact_loop] in H; [apply Ok_inj_ in H; now subst|].
  unfold compact_level in H.
  destruct (nth_error (w_levels w) k) as [l|] eqn:Ek; [|discriminate].
  destruct (nth_error (w_levels w) (S k)) as [ln|] eqn:En; [|discriminate].
  destruct (determine psize co k l ln) as [tc|] eqn:Ed; [|apply Ok_inj_ in H; now subst].
  assert (M : match match merge_parts merge d w k tc with Ok w' => Ok (Some w') | Err e => Err e end with
      | Err e => Err e | Ok None => Ok w | Ok (Some w1) => compact_loop psize merge co d w1 ks end = Ok w' -> CIds ls0 w').
  { destruct (merge_parts merge d w k tc) as [w1|] eqn:Em; [|discriminate]. intros X. eapply IH; [|exact X]. eapply merge_ids; eauto. }
  destruct tc as [|[k' id] [|q tc]]; [exact (M H)| |exact (M H)].
  destruct (move_part w k id) as [w1|] eqn:Em; [|discriminate]. eapply IH; [|exact H]. eapply move_ids; eauto.
Qed.

Lemma compact_ids ls d w : bounded ls [] -> compact psize merge co ls d = Ok w -> CIds ls w.
Proof.
  intros B H. unfold compact in H. destruct (Nat.ltb _ _); [discriminate|]. eapply loop_ids; [|exact H].
  constructor; cbn [w_levels created w_new w_ops targets map flat_map app].
  - reflexivity.
  - intros k a b E1 E2. assert (a = b) as -> by congruence. lia.
  - intros k l i E Hi. apply (B k l i E). now right.
  - intros k i [].
  - constructor.
Qed.

Lemma used_publish held t t1 w t2 p : bounded (md_levels (t_md t)) [] -> md_levels (t_md t1) <> [] ->
  md_levels (t_md t) <> [] -> tl (md_levels (t_md t1)) = tl (md_levels (t_md t)) ->
  compact psize merge co (md_levels (t_md t)) (t_disk t1) = Ok w -> publish held t1 w = Ok t2 ->
  used (md_levels (t_md t1)) p -> used (md_levels (t_md t2)) p.
Proof.
  intros B Ne Ne0 ET HC HP (l & E & P). pose proof (compact_ids _ _ _ B HC) as [Cl Cm Cp Cn Cd].
  unfold publish in HP. destruct (fs_ops _ _ _) as [m|] eqn:Efs; [|discriminate]. apply Ok_inj_ in HP. subst t2. cbn [t_md].
  unfold md_compacted, used. cbn [md_levels].
  destruct (md_levels (t_md t)) as [|l0 r] eqn:E0; [contradiction|]. destruct (md_levels (t_md t1)) as [|l1 r1] eqn:E1; [contradiction|].
  cbn [tl] in ET. subst r1. destruct (w_levels w) as [|wl0 wr] eqn:Ew; [discriminate|].
  destruct p as [[|k] i]; cbn [fst snd nth_error passed] in *.
  - injection E as ->. eexists. split; [reflexivity|]. exact P.
  - destruct (nth_error_ex r wr k l ltac:(cbn in Cl; lia) E) as (lw & Elw). exists lw. split; [exact Elw|].
    destruct (Cm (S k) l lw E Elw). lia.
Qed.

(** Publishing on top of a table whose deeper levels are those of the snapshot. *)
Lemma publish_ids held t t1 w t2 : FInv t1 -> bounded (md_levels (t_md t)) [] ->
  md_levels (t_md t) <> [] -> tl (md_levels (t_md t1)) = tl (md_levels (t_md t)) ->
  compact psize merge co (md_levels (t_md t)) (t_disk t1) = Ok w -> publish held t1 w = Ok t2 -> FInv t2.
Proof.
  intros (Em & Ne & B1) B Ne0 ET HC HP. pose proof (compact_ids _ _ _ B HC) as [Cl Cm Cp Cn Cd].
  unfold publish in HP. destruct (fs_ops _ _ _) as [m|] eqn:Efs; [|discriminate]. apply Ok_inj_ in HP. subst t2.
  split; [reflexivity|]. cbn [t_md t_disk d_parts].
  destruct (md_levels (t_md t)) as [|l0 r] eqn:E0; [contradiction|]. destruct (md_levels (t_md t1)) as [|l1 r1] eqn:E1; [contradiction|].
  cbn [tl] in ET. subst r1. destruct (w_levels w) as [|wl0 wr] eqn:Ew; [discriminate|].
  assert (El : md_levels (md_compacted (t_md t1) w) = mkLevel (l_next l1) (List.filter (fun p => negb (existsb (Nat.eqb (p_id p)) (w_l0 w))) (l_parts l1)) :: wr).
  { unfold md_compacted. cbn [md_levels]. now rewrite E1, Ew. }
  rewrite El. split; [discriminate|].
  assert (Key : forall k i, aget lp_dec (k, i) m <> None -> aget lp_dec (k, i) (d_parts (t_disk t1)) <> None \/ In (k, i) (created w)).
  { intros k i Hm. destruct (fs_ops_targets _ _ _ _ _ Efs Hm) as [G|G]; [|right; unfold created; rewrite in_app_iff; auto].
    rewrite aget_app_ in G. destruct (aget lp_dec (k, i) (w_new w)) as [pf|] eqn:En; [|now left].
    right. unfold created. rewrite in_app_iff. left. apply aget_keys. congruence. }
  intros k l i Ek H. destruct k as [|k]; cbn [nth_error] in Ek.
  - injection Ek as <-. cbn [passed l_next l_parts] in *. apply (B1 0 l1 i eq_refl). destruct H as [H|H].
    + left. destruct (Key _ _ H) as [G|G]; [exact G|]. destruct (Cn _ _ G) as [G0 _]. contradiction.
    + right. apply in_map_iff in H as (q & <- & Hq). apply filter_In in Hq as [Hq _]. now apply in_map.
  - cbn [passed]. destruct H as [H|H]; [|exact (Cp (S k) l i Ek H)]. destruct (Key _ _ H) as [G|G].
    + assert (exists lr, nth_error r k = Some lr) as (lr & Er).
      { cbn [List.length] in Cl. apply (nth_error_ex wr r k l); [lia|exact Ek]. }
      pose proof (B1 (S k) lr i Er (or_introl G)) as P. cbn [passed] in P.
      destruct (Cm (S k) lr l Er Ek). lia.
    + destruct (Cn _ _ G) as (_ & a & b & _ & Eb & Hb). cbn [nth_error] in Eb. assert (b = l) as -> by congruence. lia.
Qed.
End Pass.
