(** C142: which custom events are accepted. *)
From Coq Require Import List NArith ZArith String Bool Lia.
From Verif Require Import AMap Kv KvKeys KvKeysFacts KvFacts Md MdOps MdFrame MdIndex MdEntities MdWf CustomSpec.
Import ListNotations.
Local Open Scope N_scope.

(** ** The check of the parts *)
Definition walk (f : list EventRef -> list N -> Res (list N)) (p : N) (s : Md.Store) :=
  fix go (evs : list EventRef) (ids : list N) : Res (list N) :=
    match evs with
    | [] => Ok ids
    | RefName n :: r => match event_by_name p n s with Ok _ => go r ids | Err e => Err e end
    | RefRegular id :: r => match event_by_id p id s with Ok _ => go r ids | Err e => Err e end
    | RefCustom id :: r =>
      if existsb (N.eqb id) ids then Err AlreadyExists else
      match custom_by_id p id s with
      | Err e => Err e
      | Ok c => match f (ce_events c) (ids ++ [ce_id c])%list with Ok ids' => go r ids' | Err e => Err e end
      end
    end.
Lemma validate_S max p s fuel level evs ids : validate max p s (S fuel) level evs ids =
  if Nat.ltb max level then Err BadRequest else walk (validate max p s fuel (S level)) p s evs ids.
Proof. reflexivity. Qed.
Lemma seen i ids : existsb (N.eqb i) ids = true <-> In i ids.
Proof. rewrite existsb_exists. split; [intros (x & H & E); apply N.eqb_eq in E; now subst|intros H; exists i; split; [exact H|apply N.eqb_refl]]. Qed.
Lemma NoDup_snoc (i : N) ids : NoDup ids -> ~ In i ids -> NoDup (ids ++ [i]).
Proof. intros N H. apply NoDup_rev in N. rewrite <- (rev_involutive (ids ++ [i])). apply NoDup_rev. rewrite rev_app_distr. constructor; [now rewrite <- in_rev|exact N]. Qed.
Lemma regroup (ids : list N) i l1 l2 : (ids ++ i :: l1 ++ l2 = ((ids ++ [i]) ++ l1) ++ l2)%list.
Proof. now rewrite <- !app_assoc. Qed.
Lemma NoDup_left (a b : list N) : NoDup (a ++ b) -> NoDup a.
Proof. induction a as [|x a IH]; cbn; intros H; [constructor|]. inversion H as [|? ? Hn Hr]; subst. constructor; [intros X; apply Hn, in_or_app; now left|auto]. Qed.

Section Check.
Variables (p : N) (s : Md.Store).
Hypothesis numbers : forall i c, custom_by_id p i s = Ok c -> ce_id c = i.
Lemma validate_parts n : (n <= 3)%nat -> forall evs ids ids', NoDup ids ->
  validate 3 p s (S (S n)) (3 - n) evs ids = Ok ids' <-> exists l, parts p s n evs l /\ ids' = (ids ++ l)%list /\ NoDup (ids ++ l).
Proof.
  induction n as [|n IH]; intros Ln; (induction evs as [|e evs IHe]; intros ids ids' Nd; rewrite validate_S;
    match goal with |- context [Nat.ltb 3 ?x] => replace (Nat.ltb 3 x) with false by (symmetry; apply Nat.ltb_ge; lia) end; cbn [walk]).
  - split; [intros [= <-]; exists []; rewrite app_nil_r; split; [constructor|auto]|]. intros (l & P & -> & _). inversion P. now rewrite app_nil_r.
  - specialize (fun ids' => IHe ids ids' Nd). rewrite validate_S in IHe. replace (Nat.ltb 3 (3 - 0)) with false in IHe by reflexivity.
    destruct e as [x|i|i].
    + destruct (event_by_name p x s) as [ev|] eqn:E.
      * change ((walk (validate 3 p s 1 4) p s) evs ids = Ok ids' <-> exists l, parts p s 0 (RefName x :: evs) l /\ ids' = (ids ++ l)%list /\ NoDup (ids ++ l)).
        rewrite IHe. split; intros (l & P & X); [exists l; split; [econstructor; eauto|exact X]|]. inversion P; subst. eauto.
      * split; [discriminate|]. intros (l & P & _). inversion P; congruence.
    + destruct (event_by_id p i s) as [ev|] eqn:E.
      * change ((walk (validate 3 p s 1 4) p s) evs ids = Ok ids' <-> exists l, parts p s 0 (RefRegular i :: evs) l /\ ids' = (ids ++ l)%list /\ NoDup (ids ++ l)).
        rewrite IHe. split; intros (l & P & X); [exists l; split; [econstructor; eauto|exact X]|]. inversion P; subst. eauto.
      * split; [discriminate|]. intros (l & P & _). inversion P; congruence.
    + split; [|intros (l & P & _); inversion P]. destruct (existsb _ _); [discriminate|]. destruct (custom_by_id p i s); [|discriminate]. cbn. discriminate.
  - split; [intros [= <-]; exists []; rewrite app_nil_r; split; [constructor|auto]|]. intros (l & P & -> & _). inversion P. now rewrite app_nil_r.
  - assert (IHw : forall ids ids', NoDup ids -> walk (validate 3 p s (S (S n)) (S (3 - S n))) p s evs ids = Ok ids' <->
      exists l, parts p s (S n) evs l /\ ids' = (ids ++ l)%list /\ NoDup (ids ++ l)).
    { intros a b Na. rewrite <- (IHe a b Na), validate_S. replace (Nat.ltb 3 (3 - S n)) with false by (symmetry; apply Nat.ltb_ge; lia). reflexivity. }
    replace (S (3 - S n)) with (3 - n)%nat in * by lia. specialize (IH ltac:(lia)).
    set (w := walk (validate 3 p s (S (S n)) (3 - n)) p s) in *.
    destruct e as [x|i|i].
    + destruct (event_by_name p x s) as [ev|] eqn:E.
      * change (w evs ids = Ok ids' <-> exists l, parts p s (S n) (RefName x :: evs) l /\ ids' = (ids ++ l)%list /\ NoDup (ids ++ l)).
        rewrite IHw by exact Nd. split; intros (l & P & X); [exists l; split; [econstructor; eauto|exact X]|]. inversion P; subst. eauto.
      * split; [discriminate|]. intros (l & P & _). inversion P; congruence.
    + destruct (event_by_id p i s) as [ev|] eqn:E.
      * change (w evs ids = Ok ids' <-> exists l, parts p s (S n) (RefRegular i :: evs) l /\ ids' = (ids ++ l)%list /\ NoDup (ids ++ l)).
        rewrite IHw by exact Nd. split; intros (l & P & X); [exists l; split; [econstructor; eauto|exact X]|]. inversion P; subst. eauto.
      * split; [discriminate|]. intros (l & P & _). inversion P; congruence.
    + destruct (existsb (N.eqb i) ids) eqn:Se.
      { split; [discriminate|]. intros (l & P & _ & N). inversion P; subst. apply seen in Se. exfalso. apply NoDup_remove_2 in N. apply N, in_or_app. now left. }
      assert (Ni : ~ In i ids) by (intros H; apply seen in H; congruence).
      destruct (custom_by_id p i s) as [c|] eqn:E.
      2:{ split; [discriminate|]. intros (l & P & _). inversion P; congruence. }
      rewrite (numbers _ _ E). pose proof (IH (ce_events c) (ids ++ [i])%list) as IHc. specialize (fun z => IHc z (NoDup_snoc i ids Nd Ni)).
      change ((match validate 3 p s (S (S n)) (3 - n) (ce_events c) (ids ++ [i])%list with Ok ids'0 => w evs ids'0 | Err e => Err e end) = Ok ids'
        <-> exists l, parts p s (S n) (RefCustom i :: evs) l /\ ids' = (ids ++ l)%list /\ NoDup (ids ++ l)).
      destruct (validate 3 p s (S (S n)) (3 - n) (ce_events c) (ids ++ [i])) as [ids1|er] eqn:Ev.
      * destruct (proj1 (IHc ids1) eq_refl) as (l1 & P1 & E1 & N1). rewrite IHw by (now rewrite E1). split.
        -- intros (l2 & P2 & E2 & N2). exists (i :: l1 ++ l2)%list. split; [econstructor; eauto|]. rewrite regroup, <- E1. auto.
        -- intros (l & P & El & Nl). inversion P as [| | |? ? c' ? l1' l2 Ec P1' P2]; subst. assert (c' = c) by congruence. subst c'.
           rewrite regroup in Nl. assert (Q : Ok (((ids ++ [i]) ++ l1)%list : list N) = Ok ((ids ++ [i]) ++ l1')%list).
           { apply IHc. exists l1'. split; [exact P1'|]. split; [reflexivity|]. exact (NoDup_left _ _ Nl). }
           injection Q as Q. apply app_inv_head in Q. subst l1'. exists l2. rewrite regroup. auto.
      * split; [discriminate|]. intros (l & P & El & Nl). exfalso. inversion P as [| | |? ? c' ? l1' l2 Ec P1' P2]; subst. assert (c' = c) by congruence. subst c'.
        rewrite regroup in Nl. assert (Q : Err er = Ok ((ids ++ [i]) ++ l1')%list) by (apply IHc; exists l1'; split; [exact P1'|]; split; [reflexivity|]; exact (NoDup_left _ _ Nl)). discriminate.
Qed.
End Check.
Lemma valid_parts p s evs ids : CustomsOk p s -> NoDup ids ->
  (exists r, validate_events p evs ids s = Ok r) <-> exists l, parts p s 3 evs l /\ NoDup (ids ++ l).
Proof.
  intros I Nd. assert (Nm : forall i c, custom_by_id p i s = Ok c -> ce_id c = i).
  { intros i c H. apply custom_by_id_spec in H. destruct (ix_data _ _ _ I _ _ H) as (r & ks & [= <-] & K & _). cbn in K. now injection K as -> _. }
  unfold validate_events. change (MAX_EVENTS_LEVEL + 2)%nat with 5%nat. change MAX_EVENTS_LEVEL with 3%nat. split.
  - intros (r & H). apply (validate_parts p s Nm 3 (le_n 3) evs ids r Nd) in H as (l & P & _ & N). eauto.
  - intros (l & P & N). exists (ids ++ l)%list. apply (validate_parts p s Nm 3 (le_n 3) evs ids _ Nd). eauto.
Qed.
(** ** The name *)
Lemma name_indexed p s n : CustomsOk p s ->
  kg (kidx (NProj p PCustom) (IName, n)) s <> None <-> exists i c, custom_by_id p i s = Ok c /\ ce_name c = n.
Proof.
  intros I. split.
  - intros H. destruct (kg _ s) as [v|] eqn:E; [|congruence]. destruct (ix_idx _ _ _ I _ _ E) as (i & r & ks & -> & D & K & Hin). destruct r; try discriminate. injection K as _ <-.
    apply iks_in in Hin. cbn in Hin. destruct Hin as [[= X]|[]]. exists i. eexists. split; [apply custom_by_id_spec; exact D|congruence].
  - intros (i & c & H & <-). apply custom_by_id_spec in H. destruct (ix_data _ _ _ I _ _ H) as (r & ks & [= <-] & K & All). injection K as _ <-.
    rewrite (All (IName, ce_name c)); [discriminate|]. apply iks_in. cbn. auto.
Qed.
Lemma insert_free p s n : CustomsOk p s -> check_insert s (custom_keys p n) = true <-> free_name p s None n.
Proof.
  intros I. rewrite custom_okeys, check_insert_spec. split.
  - intros H j c _ E En. apply (name_indexed p s n I); [eauto|]. apply H. apply iks_in. cbn. auto.
  - intros H ik Hk. apply iks_in in Hk. cbn in Hk. destruct Hk as [[= <-]|[]].
    destruct (kg (kidx (NProj p PCustom) (IName, n)) s) eqn:E; [|reflexivity].
    assert (X : kg (kidx (NProj p PCustom) (IName, n)) s <> None) by congruence. apply (name_indexed p s n I) in X as (i & c & Hc & En). exfalso. eapply H; eauto. discriminate.
Qed.
Lemma update_free p s i o n : CustomsOk p s -> custom_by_id p i s = Ok o ->
  check_update s (custom_keys p n) (custom_keys p (ce_name o)) = true <-> free_name p s (Some i) n.
Proof.
  intros I Eo. rewrite !custom_okeys, check_update_spec. split.
  - intros H j c Nj E En. destruct (H 0%nat (IName, n) _ eq_refl eq_refl) as [X|X].
    + apply Nj. f_equal. apply custom_by_id_spec in E, Eo. injection X as X. destruct (ix_data _ _ _ I _ _ E) as (r1 & k1 & [= <-] & K1 & _), (ix_data _ _ _ I _ _ Eo) as (r2 & k2 & [= <-] & K2 & _).
      eapply (Indexed_unique _ _ s j i _ _ _ _ (IName, n) I E Eo K1 K2); injection K1 as _ <-; injection K2 as _ <-; apply iks_in; cbn; left; congruence.
    + apply (name_indexed p s n I); eauto.
  - intros H [|[|j]] a b; cbn; try discriminate. intros [= <-] [= <-].
    destruct (kg (kidx (NProj p PCustom) (IName, n)) s) eqn:E; [|now right].
    assert (X : kg (kidx (NProj p PCustom) (IName, n)) s <> None) by congruence. apply (name_indexed p s n I) in X as (j & c & Hc & En).
    left. destruct (N.eq_dec j i) as [->|Nj]; [congruence|]. exfalso. apply (H j c); congruence.
Qed.

Lemma customs_reach snake p ops : forallb wf_op ops = true -> CustomsOk p (md_run snake ops []).
Proof.
  unfold md_run. assert (X : forall s, CustomsOk p s -> forallb wf_op ops = true -> CustomsOk p (fold_left (fun s o => md_step snake o s) ops s)).
  { induction ops as [|o r IH]; cbn [forallb fold_left]; intros s I W; [exact I|]. apply andb_prop in W as (W1 & W2). apply IH; [now apply md_step_customs|exact W2]. }
  intros W. apply X; [apply Indexed_nil|exact W].
Qed.

(** ** C142 *)
(** Full statement: a custom event is made of any events and custom events of the project that
    are at most three levels deep and not made of it, if its name is free.  Proved: exactly when,
    besides, no custom event is met twice among its parts and theirs ([C142_shared_refuted]). *)
Theorem C142_made_iff_partial : forall snake p ops name evs, forallb wf_op ops = true ->
  let s := md_run snake ops [] in
  (exists c s', custom_create p name evs s = (Ok c, s')) <->
  evs <> [] /\ (exists l, parts p s 3 evs l /\ NoDup l) /\ free_name p s None name.
Proof.
  intros snake p ops name evs W s. assert (I : CustomsOk p s) by (apply customs_reach; exact W).
  pose proof (valid_parts p s evs [] I (NoDup_nil _)) as V. pose proof (insert_free p s name I) as F. unfold custom_create.
  destruct evs as [|e evs]; [split; [intros (c & s' & X); discriminate|intros (X & _); congruence]|].
  destruct (validate_events p (e :: evs) [] s) as [r|x].
  2:{ split; [intros (c & s' & X); discriminate|]. intros (_ & P & _). apply V in P as (? & P). discriminate. }
  destruct (check_insert s (custom_keys p name)).
  2:{ split; [intros (c & s' & X); discriminate|]. intros (_ & _ & X). apply F in X. discriminate. }
  change (make_id_seq_key (custom_ns p)) with (render (KSeq (NProj p PCustom))). destruct (next_seq (render (KSeq (NProj p PCustom))) s) as [q s1] eqn:En.
  destruct (next_seq_indexed (NProj p PCustom) custom_iks s q s1 I En) as (i & -> & _). split.
  - intros _. split; [discriminate|]. split; [apply V; eauto|now apply F].
  - intros _. eexists. eexists. reflexivity.
Qed.
(** A change is accepted exactly when the custom event is there, the new name, if any, is free and
    the new parts, if any, are such parts, none of which is or is made of the event itself. *)
Theorem C142_changed_iff_partial : forall snake p ops i name evs, forallb wf_op ops = true ->
  let s := md_run snake ops [] in
  (exists c s', custom_update p i name evs s = (Ok c, s')) <->
  (exists old, custom_by_id p i s = Ok old) /\ (forall n, name = Some n -> free_name p s (Some i) n) /\
  (forall es, evs = Some es -> es <> [] /\ exists l, parts p s 3 es l /\ NoDup (i :: l)).
Proof.
  intros snake p ops i name evs W s. assert (I : CustomsOk p s) by (apply customs_reach; exact W).
  unfold custom_update. destruct (custom_by_id p i s) as [old|x] eqn:Eo.
  2:{ split; [intros (c & s' & X); discriminate|]. intros ((o & X) & _). discriminate. }
  assert (Ei : ce_id old = i).
  { apply custom_by_id_spec in Eo. destruct (ix_data _ _ _ I _ _ Eo) as (r & ks & [= <-] & K & _). cbn in K. now injection K as -> _. }
  assert (F : check_update s (match name with Some n => custom_keys p n | None => [] end) (match name with Some _ => custom_keys p (ce_name old) | None => [] end) = true
    <-> forall n, name = Some n -> free_name p s (Some i) n).
  { destruct name as [n|]; [|split; [discriminate|reflexivity]]. rewrite (update_free p s i old n I Eo). split; [intros H m [= <-]; exact H|auto]. }
  cbv zeta. destruct (check_update _ _ _).
  2:{ split; [intros (c & s' & X); discriminate|]. intros (_ & X & _). apply F in X. discriminate. }
  assert (F' : forall n, name = Some n -> free_name p s (Some i) n) by now apply F.
  destruct evs as [[|e es]|].
  - split; [intros (c & s' & X); discriminate|]. intros (_ & _ & X). destruct (X [] eq_refl) as (Y & _). congruence.
  - assert (N1 : NoDup [i]) by (constructor; [intros []|constructor]). pose proof (valid_parts p s (e :: es) [i] I N1) as V. cbn [app] in V. rewrite Ei.
    destruct (validate_events p (e :: es) [i] s) as [r|x].
    + split; [|intros _; do 2 eexists; reflexivity]. intros _. split; [eauto|]. split; [exact F'|]. intros z [= <-]. split; [discriminate|]. apply V. eauto.
    + split; [intros (c & s' & X); discriminate|]. intros (_ & _ & X). destruct (X _ eq_refl) as (_ & Y). apply V in Y as (? & Y). discriminate.
  - split; [|intros _; do 2 eexists; reflexivity]. intros _. split; [eauto|]. split; [exact F'|discriminate].
Qed.
(** A custom event cannot be made of another and of something the other is made of already,
    although nothing is made of itself: whatever else is stored, the request is refused. *)
Theorem C142_shared_refuted : forall snake p ops name a b ca, forallb wf_op ops = true ->
  let s := md_run snake ops [] in
  custom_by_id p a s = Ok ca -> In (RefCustom b) (ce_events ca) ->
  forall c s', custom_create p name [RefCustom a; RefCustom b] s <> (Ok c, s') /\ custom_create p name [RefCustom b; RefCustom a] s <> (Ok c, s').
Proof.
  intros snake p ops name a b ca W s Ea Hb c s'.
  assert (Met : forall n evs l, parts p s n evs l -> In (RefCustom b) evs -> In b l).
  { intros n evs l P. induction P; intros Hi; simpl in Hi; try contradiction; (destruct Hi as [Hi|Hi]; [try discriminate|auto]).
    - injection Hi as ->. now left.
    - right. apply in_or_app. auto. }
  split; intros X.
  - destruct (proj1 (C142_made_iff_partial snake p ops name [RefCustom a; RefCustom b] W) (ex_intro _ c (ex_intro _ s' X))) as (_ & (l & P & N) & _).
    inversion P as [| | |? ? c1 ? l1 l2 E1 P1 P2]; subst. inversion P2 as [| | |? ? c2 ? l3 l4 E2 P3 P4]; subst.
    fold s in E1, P1. assert (c1 = ca) by congruence. subst c1. pose proof (Met _ _ _ P1 Hb) as M1.
    inversion N as [|? ? _ N']; subst. apply NoDup_remove_2 in N'. apply N', in_or_app. now left.
  - destruct (proj1 (C142_made_iff_partial snake p ops name [RefCustom b; RefCustom a] W) (ex_intro _ c (ex_intro _ s' X))) as (_ & (l & P & N) & _).
    inversion P as [| | |? ? c1 ? l1 l2 E1 P1 P2]; subst. inversion P2 as [| | |? ? c2 ? l3 l4 E2 P3 P4]; subst.
    fold s in E2, P3. assert (c2 = ca) by congruence. subst c2. pose proof (Met _ _ _ P3 Hb) as M1.
    inversion N as [|? ? N0 _]; subst. apply N0, in_or_app. right. right. apply in_or_app. now left.
Qed.
(** Witness: project 1 has the event 1; custom event 1 is made of it, 2 of 1 and the event. *)
Definition C142_ops : list MdOp := [OEventCreate 1 "Buy" None []; OCustomCreate 1 "A" [RefRegular 1]; OCustomCreate 1 "B" [RefCustom 1; RefName "Buy"]].
Example C142_witness : forallb wf_op C142_ops = true
  /\ (exists c s', custom_create 1 "C" [RefCustom 2; RefRegular 1] (md_run (fun x => x) C142_ops []) = (Ok c, s'))
  /\ fst (custom_create 1 "A" [RefRegular 1] (md_run (fun x => x) C142_ops [])) = Err AlreadyExists
  /\ fst (custom_create 1 "C" [RefRegular 2] (md_run (fun x => x) C142_ops [])) = Err NotFound
  /\ fst (custom_update 1 1 None (Some [RefCustom 2]) (md_run (fun x => x) C142_ops [])) = Err AlreadyExists
  /\ (exists c s', custom_update 1 2 (Some "B"%string) (Some [RefCustom 1]) (md_run (fun x => x) C142_ops []) = (Ok c, s'))
  /\ fst (custom_create 1 "C" [RefCustom 2; RefCustom 1] (md_run (fun x => x) C142_ops [])) = Err AlreadyExists
  /\ (exists ca, custom_by_id 1 2 (md_run (fun x => x) C142_ops []) = Ok ca /\ In (RefCustom 1) (ce_events ca)).
Proof.
  split; [reflexivity|]. split; [do 2 eexists; vm_compute; reflexivity|]. split; [vm_compute; reflexivity|]. split; [vm_compute; reflexivity|]. split; [vm_compute; reflexivity|].
  split; [do 2 eexists; vm_compute; reflexivity|]. split; [vm_compute; reflexivity|]. eexists. split; [vm_compute; reflexivity|]. now left.
Qed.
Print Assumptions C142_made_iff_partial.
Print Assumptions C142_changed_iff_partial.
Print Assumptions C142_shared_refuted.
