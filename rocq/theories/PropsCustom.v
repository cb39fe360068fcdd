(** Property C32: custom events are never cyclic; their nesting. *)
From Coq Require Import List NArith ZArith String Ascii Bool Lia.
From Verif Require Import AMap Kv KvKeys KvKeysFacts KvFacts Md MdOps MdFrame MdIndex MdEntities MdWf PropsNames.
Import ListNotations.
Local Open Scope string_scope.

Notation cns p := (NProj p PCustom).
(** Custom event [i] of project [p] uses custom event [j]. *)
Definition uses (p : N) (s : Store) (i j : N) : Prop :=
  exists c, custom_by_id p i s = Ok c /\ In (RefCustom j) (ce_events c).
(** [i] uses [j] through one or more custom events. *)
Inductive reaches (p : N) (s : Store) : N -> N -> Prop :=
| reach1 i j : uses p s i j -> reaches p s i j
| reachS i k j : uses p s i k -> reaches p s k j -> reaches p s i j.
(** There is a chain of [n] uses starting at [i]. *)
Inductive nested (p : N) (s : Store) : nat -> N -> Prop :=
| nest0 i : nested p s 0 i
| nestS n i j : uses p s i j -> nested p s n j -> nested p s (S n) i.

Lemma reaches_trans p s i j k : reaches p s i j -> reaches p s j k -> reaches p s i k.
Proof. induction 1; intro; [eapply reachS; eauto|eapply reachS; eauto]. Qed.

(** *** What an accepted validation says *)
Lemma validate_ok max p s : CustomsOk p s -> forall fuel level evs ids ids',
  validate max p s fuel level evs ids = Ok ids' ->
  (forall x, In x ids -> In x ids') /\
  (forall j, In (RefCustom j) evs -> ~ In j ids /\ (exists c, custom_by_id p j s = Ok c) /\
     (forall k, reaches p s j k -> ~ In k ids) /\ (forall n, nested p s n j -> level + 1 + n <= max)%nat).
Proof.
  intro Hx. induction fuel as [|fuel IH]; intros level evs ids ids' H; [discriminate|]. cbn [validate] in H.
  destruct (Nat.ltb max level) eqn:Hl; [discriminate|]. apply Nat.ltb_ge in Hl.
  revert ids H. induction evs as [|e r IHe]; intros ids H.
  { injection H as <-. split; [auto|]. intros j []. }
  destruct e as [n|id|id].
  - destruct (event_by_name p n s); [|discriminate]. destruct (IHe ids H) as [A B]. split; [exact A|].
    intros j [E|Hj]; [discriminate|auto].
  - destruct (event_by_id p id s); [|discriminate]. destruct (IHe ids H) as [A B]. split; [exact A|].
    intros j [E|Hj]; [discriminate|auto].
  - destruct (existsb (N.eqb id) ids) eqn:Hin; [discriminate|].
    assert (Nin : ~ In id ids).
    { intro Hi. apply not_true_iff_false in Hin. apply Hin. apply existsb_exists. exists id. split; [exact Hi|apply N.eqb_refl]. }
    destruct (custom_by_id p id s) as [c|] eqn:Hc; [|discriminate].
    destruct (validate max p s fuel (S level) (ce_events c) (ids ++ [ce_id c])%list) as [ids1|] eqn:Hv; [|discriminate].
    destruct (IH _ _ _ _ Hv) as [A1 B1]. destruct (IHe ids1 H) as [A2 B2].
    assert (Sub : forall x, In x ids -> In x ids1) by (intros; apply A1, in_app_iff; auto).
    assert (Lv : (S level <= max)%nat).
    { destruct fuel; [discriminate|]. cbn [validate] in Hv. destruct (Nat.ltb max (S level)) eqn:E; [discriminate|].
      now apply Nat.ltb_ge in E. }
    split; [auto|]. intros j [[= <-]|Hj].
    + split; [exact Nin|]. split; [eauto|]. split.
      * intros k Hk Hik. inversion Hk as [i j (c' & Hc' & Hj')|i k' j (c' & Hc' & Hj') Hr]; subst; rewrite Hc in Hc'; injection Hc' as <-;
        destruct (B1 _ Hj') as (N1 & _ & N2 & _); [apply N1|apply (N2 k Hr)]; apply in_app_iff; auto.
      * intros n Hn. inversion Hn as [|n' i j (c' & Hc' & Hj') Hn']; subst; [lia|]. rewrite Hc in Hc'. injection Hc' as <-.
        destruct (B1 _ Hj') as (_ & _ & _ & N3). specialize (N3 _ Hn'). lia.
    + destruct (B2 _ Hj) as (N1 & E & N2 & N3). split; [|split; [exact E|split; [|exact N3]]].
      * intro Hi. apply N1. auto.
      * intros k Hk Hi. apply (N2 k Hk). auto.
Qed.

(** *** The graph after each call *)
(** The graph changed at most at [x]. *)
Definition changed_at (p : N) (x : N) (c : option (list EventRef)) (s s' : Store) : Prop :=
  (forall i j, i <> x -> uses p s' i j <-> uses p s i j) /\
  (forall j, uses p s' x j <-> exists l, c = Some l /\ In (RefCustom j) l).

Lemma custom_create_graph p name evs s c s' : CustomsOk p s -> custom_create p name evs s = (Ok c, s') ->
  ce_events c = evs /\ (forall j, kg (KData (cns p) j) s <> None -> (j < ce_id c)%N) /\
  kg (KSeq (cns p)) s' = Some (VNum (ce_id c)) /\ kg (KData (cns p) (ce_id c)) s = None /\
  (exists ids, validate_events p evs [] s = Ok ids) /\
  changed_at p (ce_id c) (Some evs) s s'.
Proof.
  intros Hx H. unfold custom_create in H. destruct evs as [|e0 er]; [discriminate|].
  destruct (validate_events p (e0 :: er) [] s) as [ids|] eqn:Hv; [|discriminate].
  destruct (check_insert s (custom_keys p name)) eqn:Hc; [|discriminate].
  change (make_id_seq_key (custom_ns p)) with (render (KSeq (cns p))) in H.
  destruct (next_seq (render (KSeq (cns p))) s) as [r s1] eqn:En.
  destruct (next_seq_indexed _ _ _ _ _ Hx En) as (id & -> & _ & -> & Hno & Hlt & _). injection H as <- <-. cbn [ce_id ce_events].
  split; [reflexivity|]. split; [intros j Hj; apply Hlt in Hj; lia|].
  set (s' := insert_index _ _ _).
  change (make_data_value_key (custom_ns p) id) with (render (KData (cns p) id)) in s'.
  assert (Ks : kg (KSeq (cns p)) s' = Some (VNum id)).
  { unfold s'. rewrite custom_okeys, kg_insert_out; [|reflexivity|intros; discriminate].
    rewrite kg_put_ne; [apply kg_put_eq|reflexivity|reflexivity|discriminate]. }
  assert (Ki : kg (KData (cns p) id) s' = Some (VRec (RCustomEvent (mkCustom id name (e0 :: er))))).
  { unfold s'. rewrite custom_okeys, kg_insert_out; [apply kg_put_eq|reflexivity|intros; discriminate]. }
  assert (Ko : forall i, i <> id -> kg (KData (cns p) i) s' = kg (KData (cns p) i) s).
  { intros i Hi. unfold s'. rewrite custom_okeys, kg_insert_out; [|reflexivity|intros; discriminate].
    rewrite kg_put_ne; [|reflexivity|reflexivity|congruence]. apply (kg_put_ne _ (KSeq (cns p))); [reflexivity|reflexivity|discriminate]. }
  split; [exact Ks|]. split; [exact Hno|]. split; [eauto|]. split.
  - intros i j Hi. unfold uses. split; intros (c & E & Hj); exists c; split; auto; apply custom_by_id_spec; apply custom_by_id_spec in E.
    + now rewrite <- Ko.
    + now rewrite Ko.
  - intro j. unfold uses. split.
    + intros (c & E & Hj). apply custom_by_id_spec in E. rewrite Ki in E. injection E as <-. eauto.
    + intros (l & [= <-] & Hj). exists (mkCustom id name (e0 :: er)). split; [now apply custom_by_id_spec|exact Hj].
Qed.

Lemma custom_update_graph p id name evs s c s' : CustomsOk p s -> custom_update p id name evs s = (Ok c, s') ->
  exists prev, custom_by_id p id s = Ok prev /\ ce_id prev = id /\ ce_id c = id /\
  kg (KSeq (cns p)) s' = kg (KSeq (cns p)) s /\
  ce_events c = match evs with Some es => es | None => ce_events prev end /\
  match evs with Some es => exists ids, validate_events p es [id] s = Ok ids | None => True end /\
  changed_at p id (Some (ce_events c)) s s'.
Proof.
  intros Hx H. unfold custom_update in H. destruct (custom_by_id p id s) as [prev|] eqn:Hb; [|discriminate].
  pose proof (custom_by_id_ok _ _ _ _ Hx Hb) as Hid. cbv zeta in H. rewrite Hid in H.
  destruct (check_update _ _ _); [|discriminate].
  assert (D : forall es s', s' = update_index (kput (make_data_value_key (custom_ns p) id)
       (VRec (RCustomEvent (mkCustom id (match name with Some n => n | None => ce_name prev end) es))) s)
     (match name with Some n => custom_keys p n | None => [] end)
     (match name with Some _ => custom_keys p (ce_name prev) | None => [] end) id ->
     kg (KSeq (cns p)) s' = kg (KSeq (cns p)) s /\ changed_at p id (Some es) s s').
  { intros es s2 ->. match goal with |- context [update_index ?a ?b ?c ?d] => set (s2 := update_index a b c d) end.
    assert (U : forall k, match k with KIdx _ _ _ => False | _ => True end -> wf_key k = true -> kg k s2 = kg k (kput (render (KData (cns p) id))
       (VRec (RCustomEvent (mkCustom id (match name with Some n => n | None => ce_name prev end) es))) s)).
    { intros k Hk Wk. unfold s2. destruct name as [n|]; [|reflexivity].
      apply (kg_update_out (cns p) [Some (IName, n)] [Some (IName, ce_name prev)]); auto; intros ik _ ->; exact Hk. }
    split; [rewrite U by (cbn; auto); apply kg_put_ne; [reflexivity|reflexivity|discriminate]|].
    split.
    - intros i j Hi. unfold uses. split; intros (c0 & E & Hj); exists c0; split; auto; apply custom_by_id_spec; apply custom_by_id_spec in E.
      + rewrite U in E by (cbn; auto). rewrite kg_put_ne in E; [exact E|reflexivity|reflexivity|congruence].
      + rewrite U by (cbn; auto). rewrite kg_put_ne; [exact E|reflexivity|reflexivity|congruence].
    - intro j. unfold uses. split.
      + intros (c0 & E & Hj). apply custom_by_id_spec in E. rewrite U in E by (cbn; auto). rewrite kg_put_eq in E. injection E as <-. eauto.
      + intros (l & [= <-] & Hj). eexists. split; [apply custom_by_id_spec; rewrite U by (cbn; auto); apply kg_put_eq|exact Hj]. }
  exists prev. split; [reflexivity|]. split; [exact Hid|].
  destruct evs as [[|e0 er]|]; [discriminate| |].
  - destruct (validate_events p (e0 :: er) [id] s) as [ids|] eqn:Hv; [|discriminate]. injection H as <- Es. cbn [ce_id ce_events].
    destruct (D _ _ (eq_sym Es)) as [D1 D2].
    split; [reflexivity|]. split; [exact D1|]. split; [reflexivity|]. split; [eauto|exact D2].
  - injection H as <- Es. cbn [ce_id ce_events]. destruct (D _ _ (eq_sym Es)) as [D1 D2].
    split; [reflexivity|]. split; [exact D1|]. split; [reflexivity|]. split; [eauto|exact D2].
Qed.

Lemma custom_delete_graph p id s : CustomsOk p s ->
  let s' := snd (custom_delete p id s) in
  kg (KSeq (cns p)) s' = kg (KSeq (cns p)) s /\ forall i j, uses p s' i j -> uses p s i j.
Proof.
  intros Hx s'. unfold s', custom_delete. destruct (custom_by_id p id s) as [prev|] eqn:Hb; [|auto]. cbn [snd].
  rewrite custom_okeys. change (make_data_value_key (custom_ns p) id) with (render (KData (cns p) id)). split.
  - rewrite kg_delete_out; [|reflexivity|intros; discriminate]. apply kg_del_ne; [reflexivity|reflexivity|discriminate].
  - intros i j (c & E & Hj). exists c. split; [|exact Hj]. apply custom_by_id_spec in E. apply custom_by_id_spec.
    rewrite kg_delete_out in E; [|reflexivity|intros; discriminate].
    destruct (N.eq_dec i id) as [->|Ne]; [rewrite kg_del_eq in E; discriminate|]. rewrite kg_del_ne in E; auto. congruence.
Qed.

(** *** Invariant *)
Record Acyclic (p : N) (s : Store) : Prop := {
  ac_ok : CustomsOk p s;
  ac_no : forall i, ~ reaches p s i i;
  ac_old : forall i j, uses p s i j -> match kg (KSeq (cns p)) s with Some (VNum m) => (j <= m)%N | _ => False end
}.
Lemma uses_frame (P : Key -> Prop) p s s' : only P s s' -> (forall k, in_ns (cns p) k -> ~ P k) ->
  forall i j, uses p s' i j <-> uses p s i j.
Proof.
  intros O D i j. assert (E : kg (KData (cns p) i) s' = kg (KData (cns p) i) s) by (apply (only_kg P); auto; apply D; reflexivity).
  unfold uses. split; intros (c & H & Hj); exists c; split; auto; apply custom_by_id_spec; apply custom_by_id_spec in H; congruence.
Qed.
Lemma reaches_sub p s s' : (forall i j, uses p s' i j -> uses p s i j) -> forall i j, reaches p s' i j -> reaches p s i j.
Proof. intros H i j R. induction R; [apply reach1; auto|eapply reachS; eauto]. Qed.
Lemma nested_sub p s s' : (forall i j, uses p s' i j -> uses p s i j) -> forall n i, nested p s' n i -> nested p s n i.
Proof. intros H n i R. induction R; [apply nest0|eapply nestS; eauto]. Qed.
Lemma Acyclic_sub p s s' : Acyclic p s -> CustomsOk p s' -> (forall i j, uses p s' i j -> uses p s i j) ->
  kg (KSeq (cns p)) s' = kg (KSeq (cns p)) s -> Acyclic p s'.
Proof.
  intros H H1 H2 H3. constructor; [exact H1| |].
  - intros i R. apply (ac_no _ _ H i). eapply reaches_sub; eauto.
  - intros i j U. rewrite H3. apply (ac_old _ _ H i). auto.
Qed.
(** Changing the graph at [x] to edges from which [x] cannot be reached makes no cycle. *)
Lemma changed_reaches p x l s s' : changed_at p x (Some l) s s' ->
  forall a b, reaches p s' a b -> a <> x -> reaches p s a b \/ (reaches p s a x /\ (b = x \/ reaches p s' x b)).
Proof.
  intros [C1 C2] a b R. induction R as [i j U|i k j U R IH]; intro Ni.
  - left. apply reach1. now apply C1.
  - apply C1 in U; [|exact Ni]. destruct (N.eq_dec k x) as [->|Nk].
    + right. split; [now apply reach1|now right].
    + destruct (IH Nk) as [H|[H1 H2]]; [left; eapply reachS; eauto|right; split; [eapply reachS; eauto|exact H2]].
Qed.
Lemma changed_acyclic p x l s s' : changed_at p x (Some l) s s' -> (forall i, ~ reaches p s i i) ->
  (forall j, In (RefCustom j) l -> j <> x /\ ~ reaches p s j x) -> forall i, ~ reaches p s' i i.
Proof.
  intros C Ac Hl.
  assert (X : ~ reaches p s' x x).
  { intro R. inversion R as [i j U|i k j U R']; subst; apply C in U as (l' & [= <-] & Hj); destruct (Hl _ Hj) as [N1 N2]; [congruence|].
    destruct (changed_reaches _ _ _ _ _ C _ _ R' N1) as [H|[H _]]; auto. }
  intros i R. destruct (N.eq_dec i x) as [->|Ni]; [auto|].
  destruct (changed_reaches _ _ _ _ _ C _ _ R Ni) as [H|[H1 [H2|H2]]]; [now apply (Ac i)|congruence|].
  (* from x to i in the new graph and from i to x in the old one *)
  apply X. clear X.
  assert (T : forall a, reaches p s' a i -> reaches p s' a x).
  { intros a Ra. eapply reaches_trans; [exact Ra|]. clear R Ra H2 a. revert Ni.
    induction H1 as [i j U|i k j U R1 IH]; intro Ni.
    - apply reach1. now apply C.
    - apply C in U; [|exact Ni]. destruct (N.eq_dec k j) as [->|Nk]; [now apply reach1|]. eapply reachS; [exact U|]. now apply IH. }
  now apply T.
Qed.

Lemma md_step_Acyclic snake p o s : wf_op o = true -> Acyclic p s -> Acyclic p (md_step snake o s).
Proof.
  intros W Hx. pose proof (md_step_customs snake p o s W (ac_ok _ _ Hx)) as Cx.
  assert (F : (forall k, in_ns (cns p) k -> ~ touches o k) -> Acyclic p (md_step snake o s)).
  { intro D. apply (Acyclic_sub p s); [exact Hx|exact Cx| |].
    - intros i j. exact (proj1 (uses_frame (touches o) p s _ (md_frame snake o s W) D i j)).
    - apply (only_kg (touches o)); [apply md_frame, W|reflexivity|apply D; reflexivity]. }
  assert (FP : forall q, q <> p -> (forall k, touches o k -> in_ns (cns q) k) -> Acyclic p (md_step snake o s)).
  { intros q Nq T. apply F. intros k Hk Ht. apply T in Ht. destruct k; cbn in *; congruence. }
  destruct o; try (apply F; intros k0 Hk Ht; try (match goal with kd : PropKind |- _ => destruct kd end);
        destruct k0; cbn in *; try tauto; unfold in_props, in_ns, in_rec, kind_ns in *; cbn in *;
        first [intuition congruence | destruct Ht as [Ht|(x & Ht)]; intuition congruence]).
  - destruct (N.eq_dec p0 p) as [->|Np]; [|apply (FP p0 Np); auto].
    cbn [md_step] in *. destruct (custom_create p name evs s) as [[c|e] s'] eqn:E.
    2:{ replace s' with s in *; [exact Hx|]. clear -E. unfold custom_create in E. destruct evs; [congruence|].
        destruct (validate_events _ _ _ _); [|congruence]. destruct (check_insert _ _); [|congruence].
        destruct (next_seq _ _) as [[?|?] ?]; congruence. }
    cbn [snd] in *. destruct (custom_create_graph _ _ _ _ _ _ (ac_ok _ _ Hx) E) as (Ee & Hlt & Hs & Hno & (ids & Hv) & C).
    destruct (validate_ok _ _ _ (ac_ok _ _ Hx) _ _ _ _ _ Hv) as [_ V].
    assert (Fresh : forall i, ~ uses p s i (ce_id c)).
    { intros i U. pose proof (ac_old _ _ Hx _ _ U) as Hm. 
      unfold custom_create in E. destruct evs; [discriminate|]. rewrite Hv in E. destruct (check_insert _ _); [|discriminate].
      change (make_id_seq_key (custom_ns p)) with (render (KSeq (cns p))) in E.
      destruct (next_seq (render (KSeq (cns p))) s) as [r s1] eqn:En.
      destruct (next_seq_indexed _ _ _ _ _ (ac_ok _ _ Hx) En) as (id & -> & _ & _ & _ & _ & Hid). injection E as Ec Es.
      rewrite <- Ec in Hm. cbn [ce_id] in Hm. destruct (kg (KSeq (cns p)) s) as [[m| |]|]; try contradiction. lia. }
    constructor; [exact Cx| |].
    + apply (changed_acyclic p (ce_id c) evs s s' C (ac_no _ _ Hx)). intros j Hj. destruct (V j Hj) as (_ & (cj & Hcj) & _).
      split.
      * intros ->. apply custom_by_id_spec in Hcj. congruence.
      * intro R. clear -R Fresh. induction R as [i j U|i k j U R IH]; [now apply (Fresh i)|auto].
    + intros i j U. rewrite Hs. destruct (N.eq_dec i (ce_id c)) as [->|Ni].
      * apply C in U as (l & [= <-] & Hj). destruct (V j Hj) as (_ & (cj & Hcj) & _). apply custom_by_id_spec in Hcj.
        assert (j < ce_id c)%N by (apply Hlt; congruence). lia.
      * apply C in U; [|exact Ni]. pose proof (ac_old _ _ Hx _ _ U) as Hm.
        destruct U as (ci & Hci & Hj). apply custom_by_id_spec in Hci.
        pose proof (ix_seq _ _ _ (ac_ok _ _ Hx)) as Sq. pose proof (ix_seq _ _ _ Cx) as Sq'. rewrite Hs in Sq'.
        unfold custom_create in E. destruct evs; [discriminate|]. rewrite Hv in E. destruct (check_insert _ _); [|discriminate].
        change (make_id_seq_key (custom_ns p)) with (render (KSeq (cns p))) in E.
        destruct (next_seq (render (KSeq (cns p))) s) as [r s1] eqn:En.
        destruct (next_seq_indexed _ _ _ _ _ (ac_ok _ _ Hx) En) as (id & -> & _ & _ & _ & _ & Hid). injection E as Ec Es.
        rewrite <- Ec. cbn [ce_id]. destruct (kg (KSeq (cns p)) s) as [[m| |]|]; try contradiction. lia.
  - destruct (N.eq_dec p0 p) as [->|Np]; [|apply (FP p0 Np); intros k Hk; destruct k; cbn in *; tauto].
    cbn [md_step] in *. destruct (custom_update p id name evs s) as [[c|e] s'] eqn:E.
    2:{ replace s' with s in *; [exact Hx|]. clear -E. unfold custom_update in E. destruct (custom_by_id p id s); [|congruence].
        cbv zeta in E. destruct (check_update _ _ _); [|congruence]. destruct evs as [[|]|]; try congruence.
        destruct (validate_events _ _ _ _); congruence. }
    cbn [snd] in *. destruct (custom_update_graph _ _ _ _ _ _ _ (ac_ok _ _ Hx) E) as (prev & Hb & Hid & Hc & Hs & Ee & Hv & C).
    destruct evs as [es|].
    + destruct Hv as (ids & Hv). destruct (validate_ok _ _ _ (ac_ok _ _ Hx) _ _ _ _ _ Hv) as [_ V]. rewrite Ee in C.
      constructor; [exact Cx| |].
      * apply (changed_acyclic p id es s s' C (ac_no _ _ Hx)). intros j Hj. destruct (V j Hj) as (N1 & _ & N2 & _). split.
        -- intros ->. apply N1. now left.
        -- intro R. apply (N2 _ R). now left.
      * intros i j U. rewrite Hs. destruct (N.eq_dec i id) as [->|Ni].
        -- apply C in U as (l & [= <-] & Hj). destruct (V j Hj) as (_ & (cj & Hcj) & _). apply custom_by_id_spec in Hcj.
           pose proof (ix_seq _ _ _ (ac_ok _ _ Hx)) as Sq. destruct (kg (KSeq (cns p)) s) as [[m| |]|]; try contradiction.
           ++ apply Sq. congruence.
           ++ rewrite Sq in Hcj. discriminate.
        -- apply C in U; [|exact Ni]. apply (ac_old _ _ Hx _ _ U).
    + apply (Acyclic_sub p s); auto. intros i j U. destruct (N.eq_dec i id) as [->|Ni]; [|now apply C in U].
      apply C in U as (l & [= <-] & Hj). rewrite Ee in Hj. exists prev. auto.
  - destruct (N.eq_dec p0 p) as [->|Np]; [|apply (FP p0 Np); intros k Hk; destruct k; cbn in *; tauto].
    destruct (custom_delete_graph p id s (ac_ok _ _ Hx)) as [D1 D2]. apply (Acyclic_sub p s); auto.
Qed.
Lemma Acyclic_reach snake p ops : forallb wf_op ops = true -> Acyclic p (md_run snake ops []).
Proof.
  intro W. apply (md_run_inv (Acyclic p)); auto.
  - intros. now apply md_step_Acyclic.
  - constructor; [apply Indexed_nil| |]; intros i H.
    + inversion H as [? ? (c & E & _)|? ? ? (c & E & _)]; discriminate E.
    + intros (c & E & _). discriminate E.
Qed.

(** ** C32 *)
Theorem C32_no_cycles :
  forall snake p ops, forallb wf_op ops = true -> forall i, ~ reaches p (md_run snake ops []) i i.
Proof. intros snake p ops W. apply (ac_no _ _ (Acyclic_reach snake p ops W)). Qed.
Print Assumptions C32_no_cycles.

(** An accepted creation or change of its parts leaves the event itself nested at most
    [MAX_EVENTS_LEVEL] = 3 levels. *)
Theorem C32_accepted_event_depth_partial :
  forall snake p ops c, forallb wf_op ops = true ->
    let s := md_run snake ops [] in
    (forall name evs s', custom_create p name evs s = (Ok c, s') -> forall n, nested p s' n (ce_id c) -> (n <= 3)%nat) /\
    (forall id name es s', custom_update p id name (Some es) s = (Ok c, s') -> forall n, nested p s' n (ce_id c) -> (n <= 3)%nat).
Proof.
  intros snake p ops c W s. pose proof (Acyclic_reach snake p ops W) as Hx. fold s in Hx.
  assert (G : forall x l s' k, changed_at p x (Some l) s s' ->
    (forall j, In (RefCustom j) l -> j <> x /\ ~ reaches p s j x /\ (forall n, nested p s n j -> 0 + 1 + n <= k)%nat) ->
    forall n, nested p s' n x -> (n <= k)%nat).
  { intros x l s' k C V n Hn. inversion Hn as [|n' i j U Hn']; subst; [lia|]. apply C in U as (l' & [= <-] & Hj).
    destruct (V j Hj) as (N1 & N2 & N3).
    assert (nested p s n' j) as Ho.
    { clear -Hn' N1 N2 C. revert N1 N2. induction Hn' as [|n i j U Hn IH]; intros N1 N2; [apply nest0|].
      apply C in U; [|exact N1]. eapply nestS; [exact U|]. apply IH.
      - intros ->. apply N2. now apply reach1.
      - intro R. apply N2. eapply reachS; eauto. }
    specialize (N3 _ Ho). lia. }
  split.
  - intros name evs s' E. destruct (custom_create_graph _ _ _ _ _ _ (ac_ok _ _ Hx) E) as (Ee & Hlt & Hs & Hno & (ids & Hv) & C).
    destruct (validate_ok _ _ _ (ac_ok _ _ Hx) _ _ _ _ _ Hv) as [_ V]. apply (G _ _ _ 3%nat C).
    intros j Hj. destruct (V j Hj) as (_ & (cj & Hcj) & _ & N3). apply custom_by_id_spec in Hcj. split; [congruence|]. split; [|exact N3].
    intro R. assert (U : exists i, uses p s i (ce_id c)) by (clear -R; induction R; eauto).
    destruct U as (i & U). pose proof (ac_old _ _ Hx _ _ U) as Hm.
    unfold custom_create in E. destruct evs; [discriminate|]. rewrite Hv in E. destruct (check_insert _ _); [|discriminate].
    change (make_id_seq_key (custom_ns p)) with (render (KSeq (cns p))) in E.
    destruct (next_seq (render (KSeq (cns p))) s) as [r s1] eqn:En.
    destruct (next_seq_indexed _ _ _ _ _ (ac_ok _ _ Hx) En) as (id & -> & _ & _ & _ & _ & Hid). injection E as Ec Es.
    rewrite <- Ec in Hm. cbn [ce_id] in Hm. destruct (kg (KSeq (cns p)) s) as [[m| |]|]; try contradiction. lia.
  - intros id name es s' E. destruct (custom_update_graph _ _ _ _ _ _ _ (ac_ok _ _ Hx) E) as (prev & Hb & Hid & Hc & Hs & Ee & (ids & Hv) & C).
    destruct (validate_ok _ _ _ (ac_ok _ _ Hx) _ _ _ _ _ Hv) as [_ V]. rewrite Ee in C. rewrite Hc. apply (G _ _ _ 3%nat C).
    intros j Hj. destruct (V j Hj) as (N1 & _ & N2 & N3). split; [|split; [|exact N3]].
    + intros ->. apply N1. now left.
    + intro R. apply (N2 _ R). now left.
Qed.
Print Assumptions C32_accepted_event_depth_partial.

(** Without changes to the parts of existing events, no event is ever nested deeper. *)
Definition keeps_parts (p : N) (o : MdOp) : bool :=
  match o with OCustomUpdate q _ _ (Some _) => negb (N.eqb q p) | _ => true end.
Theorem C32_depth_without_updates_partial :
  forall snake p ops, forallb wf_op ops = true -> forallb (keeps_parts p) ops = true ->
    forall n i, nested p (md_run snake ops []) n i -> (n <= 3)%nat.
Proof.
  intros snake p ops. induction ops as [|o ops IH] using rev_ind; intros W K n i Hn.
  { inversion Hn as [|? ? ? (c & E & _)]; [lia|discriminate E]. }
  rewrite forallb_app in W, K. apply andb_prop in W as [W Wo], K as [K Ko]. cbn in Wo, Ko. rewrite andb_true_r in Wo, Ko.
  pose proof (Acyclic_reach snake p ops W) as Hx. pose proof (C32_accepted_event_depth_partial snake p ops) as Dp.
  specialize (IH W K). unfold md_run in *. rewrite fold_left_app in Hn. cbn [fold_left] in Hn.
  set (s := fold_left _ ops []) in *. cbn zeta in Dp.
  assert (F : (forall a b, uses p (md_step snake o s) a b -> uses p s a b) -> (n <= 3)%nat).
  { intro U. apply (IH n i). eapply nested_sub; [exact U|exact Hn]. }
  assert (FF : (forall k, in_ns (cns p) k -> ~ touches o k) -> (n <= 3)%nat).
  { intro D. apply F. intros a b. exact (proj1 (uses_frame (touches o) p s _ (md_frame snake o s Wo) D a b)). }
  assert (FP : forall q, q <> p -> (forall k, touches o k -> in_ns (cns q) k) -> (n <= 3)%nat).
  { intros q Nq T. apply FF. intros k Hk Ht. apply T in Ht. destruct k; cbn in *; congruence. }
  destruct o; try (apply FF; intros k0 Hk Ht; try (match goal with kd : PropKind |- _ => destruct kd end);
        destruct k0; cbn in *; try tauto; unfold in_props, in_ns, in_rec, kind_ns in *; cbn in *;
        first [intuition congruence | destruct Ht as [Ht|(x & Ht)]; intuition congruence]).
  - destruct (N.eq_dec p0 p) as [->|Np]; [|apply (FP p0 Np); auto].
    cbn [md_step] in *. destruct (custom_create p name evs s) as [[c|e] s'] eqn:E.
    2:{ apply F. replace s' with s; [auto|]. clear -E. unfold custom_create in E. destruct evs; [congruence|].
        destruct (validate_events _ _ _ _); [|congruence]. destruct (check_insert _ _); [|congruence].
        destruct (next_seq _ _) as [[?|?] ?]; congruence. }
    cbn [snd] in *. destruct (custom_create_graph _ _ _ _ _ _ (ac_ok _ _ Hx) E) as (Ee & Hlt & Hs & Hno & _ & C).
    destruct (N.eq_dec i (ce_id c)) as [->|Ni]; [eapply (proj1 (Dp c W)); eauto|].
    apply (IH n i). clear F FF FP. revert Ni. induction Hn as [|n i j U Hn IHn]; intro Ni; [apply nest0|].
    apply C in U; [|exact Ni]. eapply nestS; [exact U|]. apply IHn. intros ->.
    pose proof (ac_old _ _ Hx _ _ U) as Hm.
    unfold custom_create in E. destruct evs; [discriminate|]. destruct (validate_events _ _ _ _); [|discriminate].
    destruct (check_insert _ _); [|discriminate]. change (make_id_seq_key (custom_ns p)) with (render (KSeq (cns p))) in E.
    destruct (next_seq (render (KSeq (cns p))) s) as [r s1] eqn:En.
    destruct (next_seq_indexed _ _ _ _ _ (ac_ok _ _ Hx) En) as (id & -> & _ & _ & _ & _ & Hid). injection E as Ec Es.
    rewrite <- Ec in Hm. cbn [ce_id] in Hm. destruct (kg (KSeq (cns p)) s) as [[m| |]|]; try contradiction. lia.
  - destruct (N.eq_dec p0 p) as [->|Np]; [|apply (FP p0 Np); intros k Hk; destruct k; cbn in *; tauto].
    destruct evs as [es|]; [cbn in Ko; rewrite N.eqb_refl in Ko; discriminate|].
    apply F. cbn [md_step]. destruct (custom_update p id name None s) as [[c|e] s'] eqn:E.
    2:{ replace s' with s; [auto|]. clear -E. unfold custom_update in E. destruct (custom_by_id p id s); [|congruence].
        cbv zeta in E. destruct (check_update _ _ _); congruence. }
    cbn [snd]. destruct (custom_update_graph _ _ _ _ _ _ _ (ac_ok _ _ Hx) E) as (prev & Hb & Hid & Hc & Hs & Ee & _ & C).
    intros a b U. destruct (N.eq_dec a id) as [->|Ni]; [|now apply C in U].
    apply C in U as (l & [= <-] & Hj). rewrite Ee in Hj. exists prev. auto.
  - destruct (N.eq_dec p0 p) as [->|Np]; [|apply (FP p0 Np); intros k Hk; destruct k; cbn in *; tauto].
    apply F. apply (custom_delete_graph p id s (ac_ok _ _ Hx)).
Qed.
Print Assumptions C32_depth_without_updates_partial.

(** A change is not checked against the events that use the changed one: ten events made
    one by one and then put into a chain from the outside in. *)
Definition ten : list N := [1; 2; 3; 4; 5; 6; 7; 8; 9; 10]%N.
Definition deep_ops : list MdOp :=
  (OEventCreate 1 "e" None [] :: map (fun i => OCustomCreate 1 (dec i) [RefRegular 1]) ten
   ++ map (fun i => OCustomUpdate 1 i None (Some [RefCustom (i + 1)])) (firstn 9 ten))%list.
Theorem C32_depth_refuted : nested 1 (md_run (fun x => x) deep_ops []) 9 1.
Proof.
  assert (U : forall i, In i (firstn 9 ten) -> uses 1 (md_run (fun x => x) deep_ops []) i (i + 1)).
  { intros i Hi. exists (mkCustom i (dec i) [RefCustom (i + 1)]). split; [|now left].
    cbn in Hi. repeat (destruct Hi as [<-|Hi]; [vm_compute; reflexivity|]). destruct Hi. }
  repeat (eapply nestS; [apply U; cbn; tauto|]; cbn [N.add Pos.add Pos.add_carry Pos.succ]). apply nest0.
Qed.
Print Assumptions C32_depth_refuted.
Example C32_witness :
  let s := md_run (fun x => x) [OEventCreate 1 "e" None []; OCustomCreate 1 "a" [RefRegular 1]; OCustomCreate 1 "b" [RefCustom 1];
     OCustomCreate 1 "c" [RefCustom 2; RefName "e"]; OCustomCreate 1 "d" [RefCustom 3]] [] in
  fst (custom_create 1 "x" [RefCustom 4] s) = Err BadRequest /\ fst (custom_update 1 1 None (Some [RefCustom 3]) s) = Err AlreadyExists /\
  fst (custom_create 1 "x" [RefCustom 3] s) = Ok (mkCustom 5 "x" [RefCustom 3]).
Proof. vm_compute. repeat split. Qed.
