(** Facts about one compaction pass: the contents of the parts are preserved. *)
From Coq Require Import List NArith ZArith Lia Bool Permutation Sorted String.
From Verif Require Import Bytes BytesFacts Value ValueFacts Log LogFacts AMap Order
  Memtable ListFacts MemtableFacts MemtableProject Table TableSpec TableFacts TableHistory Get Compact CompactSpec.
Import ListNotations.

(** *** Lists *)
Lemma Permutation_Forall2_ {A B} (P : A -> B -> Prop) l l' : Permutation l l' ->
  forall m, Forall2 P l m -> exists m', Permutation m m' /\ Forall2 P l' m'.
Proof.
  induction 1 as [|x l l' _ IH|x y l|l l1 l2 _ IH1 _ IH2]; intros m H.
  - inversion H. exists []. auto.
  - inversion H as [|? b ? m0 Hb Hm]; subst. destruct (IH _ Hm) as (m' & Pm & F). exists (b :: m'). auto.
  - inversion H as [|? b ? m0 Hb Hm]; subst. inversion Hm as [|? c ? m1 Hc Hm1]; subst.
    exists (c :: b :: m1). split; [constructor|]. auto.
  - destruct (IH1 _ H) as (m1 & P1 & F1). destruct (IH2 _ F1) as (m2 & P2 & F2).
    exists m2. split; [now transitivity m1|exact F2].
Qed.
Lemma Permutation_concat {A} (l l' : list (list A)) : Permutation l l' -> Permutation (List.concat l) (List.concat l').
Proof.
  induction 1 as [|x l l' _ IH|x y l|l l1 l2 _ IH1 _ IH2]; cbn; auto.
  - now apply Permutation_app_head.
  - rewrite !app_assoc. apply Permutation_app_tail, Permutation_app_comm.
  - now transitivity (List.concat l1).
Qed.
Lemma filter_partition {A} (q : A -> bool) l :
  Permutation l (List.filter q l ++ List.filter (fun x => negb (q x)) l).
Proof.
  induction l as [|x l IH]; cbn; [constructor|]. destruct (q x); cbn.
  - now constructor.
  - now apply Permutation_cons_app.
Qed.
Lemma map_split {A B} (f : A -> B) rowss : forall vs, List.concat rowss = map f vs ->
  exists vss, Forall2 (fun rows v => rows = map f v) rowss vss /\ List.concat vss = vs.
Proof.
  induction rowss as [|r rowss IH]; cbn; intros vs H.
  - destruct vs; [|discriminate]. exists []. auto.
  - symmetry in H. apply map_eq_app in H as (a & b & -> & <- & E2). symmetry in E2. destruct (IH _ E2) as (vss & F & <-).
    exists (a :: vss). auto.
Qed.
Lemma perm_split {A B} (f : A -> B) rowss vs : Permutation (List.concat rowss) (map f vs) ->
  exists vss, Forall2 (fun rows v => rows = map f v) rowss vss /\ Permutation (List.concat vss) vs.
Proof.
  intros H. apply Permutation_map_inv in H as (l3 & E & P). destruct (map_split f rowss l3 E) as (vss & F & <-).
  exists vss. split; [exact F|]. now symmetry.
Qed.
Lemma aget_app_ {V} (p : nat * nat) (a b : list ((nat * nat) * V)) :
  aget lp_dec p (a ++ b) = match aget lp_dec p a with Some x => Some x | None => aget lp_dec p b end.
Proof. induction a as [|[k v] a IH]; cbn; [reflexivity|]. now destruct (lp_dec p k). Qed.
Lemma read_part_app new d p : read_part new d p = aget lp_dec p (new ++ d_parts d).
Proof. unfold read_part. now rewrite aget_app_. Qed.
Lemma mapM_Forall2 {A B} (f : A -> option B) l ys : mapM f l = Some ys -> Forall2 (fun x y => f x = Some y) l ys.
Proof.
  revert ys; induction l as [|x l IH]; cbn; intros ys H; [injection H as <-; constructor|].
  destruct (f x) eqn:E; [|discriminate]. destruct (mapM f l) eqn:E2; [|discriminate]. injection H as <-. auto.
Qed.
Lemma path_eqb_spec a b : path_eqb a b = true <-> a = b.
Proof. unfold path_eqb. destruct (lp_dec a b); split; congruence. Qed.
Lemma inb_path p l : existsb (path_eqb p) l = true <-> In p l.
Proof.
  rewrite existsb_exists. split.
  - intros (x & Hx & E). apply path_eqb_spec in E. now subst.
  - intros H. exists p. split; [exact H|]. now apply path_eqb_spec.
Qed.

Lemma Ok_inj_ {E A} (a b : A) : @Ok E A a = Ok b -> a = b.
Proof. congruence. Qed.
Lemma filter_filter_ {A} (p q : A -> bool) l : List.filter p (List.filter q l) = List.filter (fun x => (q x && p x)%bool) l.
Proof. induction l as [|x l IH]; cbn; [reflexivity|]. destruct (q x); cbn; [destruct (p x)|]; now rewrite IH. Qed.

Lemma F2cons {A B} (P : A -> B -> Prop) a l b m : Forall2 P (a :: l) (b :: m) -> P a b /\ Forall2 P l m.
Proof. intros H. inversion H; auto. Qed.

(** *** Levels as one list of parts *)
Definition parts_at (i : nat) (ls : list Level) : list (nat * Part) :=
  List.concat (mapi (fun i l => map (pair i) (l_parts l)) i ls).
Lemma all_parts_at md : all_parts md = parts_at 0 (md_levels md).
Proof.
  unfold all_parts, parts_at. f_equal. generalize 0 as i. induction (md_levels md) as [|l ls IH]; intros i; cbn; [reflexivity|].
  f_equal. apply IH.
Qed.
Lemma parts_at_cons i l ls : parts_at i (l :: ls) = map (pair i) (l_parts l) ++ parts_at (S i) ls.
Proof. reflexivity. Qed.
Lemma parts_at_In i ls k p :
  In (k, p) (parts_at i ls) <-> i <= k /\ exists l, nth_error ls (k - i) = Some l /\ In p (l_parts l).
Proof.
  revert i; induction ls as [|l ls IH]; intros i.
  - cbn. split; [contradiction|]. intros (_ & l & E & _). destruct (k - i); discriminate.
  - rewrite parts_at_cons, in_app_iff, IH. split.
    + intros [H|(H & l' & E & Hp)].
      * apply in_map_iff in H as (q & E & Hq). injection E as -> ->. split; [lia|]. rewrite Nat.sub_diag. cbn. eauto.
      * split; [lia|]. replace (k - i) with (S (k - S i)) by lia. cbn. eauto.
    + intros (H & l' & E & Hp). destruct (Nat.eq_dec i k) as [->|Hne].
      * rewrite Nat.sub_diag in E. cbn in E. injection E as ->. left. now apply in_map.
      * right. split; [lia|]. replace (k - i) with (S (k - S i)) in E by lia. cbn in E. eauto.
Qed.
Lemma parts_0_In ls k p : In (k, p) (parts_at 0 ls) <-> exists l, nth_error ls k = Some l /\ In p (l_parts l).
Proof. rewrite parts_at_In, Nat.sub_0_r. split; [intros [_ H]; exact H|]. intros H. split; [lia|exact H]. Qed.
Lemma mapi_length {A B} (f : nat -> A -> B) l : forall i, List.length (mapi f i l) = List.length l.
Proof. induction l; intros i; cbn; auto. Qed.
Lemma nth_error_mapi {A B} (f : nat -> A -> B) l : forall i k,
  nth_error (mapi f i l) k = option_map (f (i + k)) (nth_error l k).
Proof.
  induction l as [|x l IH]; intros i k; destruct k as [|k]; cbn; try reflexivity.
  - now rewrite Nat.add_0_r.
  - rewrite IH. now rewrite <- plus_n_Sm.
Qed.

Lemma mapi_mapi {A B C} (g : nat -> B -> C) (f : nat -> A -> B) l : forall i,
  mapi g i (mapi f i l) = mapi (fun i x => g i (f i x)) i l.
Proof. induction l as [|x l IH]; intros i; cbn; [reflexivity|]. now rewrite IH. Qed.
Lemma mapi_ext {A B} (g f : nat -> A -> B) l : (forall i x, g i x = f i x) -> forall i, mapi g i l = mapi f i l.
Proof. intros H. induction l as [|x l IH]; intros i; cbn; [reflexivity|]. now rewrite IH, H. Qed.

Definition in_tc (tc : list (nat * nat)) (lp : nat * Part) : bool := existsb (path_eqb (lp_path lp)) tc.
Lemma filter_map_ {A B} (f : A -> B) (q : B -> bool) l : List.filter q (map f l) = map f (List.filter (fun x => q (f x)) l).
Proof. induction l as [|x l IH]; cbn; [reflexivity|]. destruct (q (f x)); cbn; now rewrite IH. Qed.
Lemma parts_drop tc ls : forall i, parts_at i (mapi (drop_parts tc) i ls) = List.filter (fun lp => negb (in_tc tc lp)) (parts_at i ls).
Proof.
  induction ls as [|l ls IH]; intros i; [reflexivity|].
  cbn [mapi]. rewrite !parts_at_cons, filter_app, IH. f_equal. cbn [drop_parts l_parts].
  rewrite filter_map_. reflexivity.
Qed.
(** Adding parts to one level. *)
Definition push_at (k add : nat) (new : list Part) (i : nat) (l : Level) : Level :=
  if Nat.eqb i k then mkLevel (l_next l + add) (l_parts l ++ new) else l.
Lemma parts_push_out k add new ls : forall i, k < i \/ i + List.length ls <= k ->
  parts_at i (mapi (push_at k add new) i ls) = parts_at i ls.
Proof.
  induction ls as [|l ls IH]; intros i H; [reflexivity|]. cbn [mapi]. rewrite !parts_at_cons.
  cbn [List.length] in H. f_equal; [|apply IH; lia]. unfold push_at. destruct (Nat.eqb_spec i k); [lia|reflexivity].
Qed.
Lemma parts_push k add new ls : forall i, i <= k < i + List.length ls ->
  Permutation (parts_at i (mapi (push_at k add new) i ls)) (parts_at i ls ++ map (pair k) new).
Proof.
  induction ls as [|l ls IH]; intros i H; cbn [List.length] in H; [lia|]. cbn [mapi]. rewrite !parts_at_cons.
  destruct (Nat.eq_dec i k) as [->|Hne].
  - rewrite parts_push_out by lia. unfold push_at at 1. rewrite Nat.eqb_refl. cbn [l_parts].
    rewrite map_app, <- !app_assoc. apply Permutation_app_head, Permutation_app_comm.
  - rewrite IH by lia. unfold push_at at 1. destruct (Nat.eqb_spec i k); [contradiction|]. now rewrite app_assoc.
Qed.

(** *** File operations *)
Definition touches (o : FsOp) (p : nat * nat) : Prop :=
  match o with Rename a b => p = a \/ p = b | Delete a => p = a end.
Lemma fs_ops_app held a : forall m b,
  fs_ops held m (a ++ b) = match fs_ops held m a with Some m' => fs_ops held m' b | None => None end.
Proof. induction a as [|o a IH]; intros m b; cbn; [reflexivity|]. destruct (fs_op held m o); [apply IH|reflexivity]. Qed.
Lemma fs_ops_overlay held N ops : (forall o p, In o ops -> touches o p -> aget lp_dec p N = None) ->
  forall m1 m2 m2',
  (forall p, aget lp_dec p m1 = match aget lp_dec p N with Some x => Some x | None => aget lp_dec p m2 end) ->
  fs_ops held m2 ops = Some m2' ->
  exists m1', fs_ops held m1 ops = Some m1' /\
   (forall p, aget lp_dec p m1' = match aget lp_dec p N with Some x => Some x | None => aget lp_dec p m2' end).
Proof.
  induction ops as [|o ops IH]; intros HT m1 m2 m2' R H.
  - cbn in H. injection H as <-. exists m1. auto.
  - cbn [fs_ops] in *. destruct (fs_op held m2 o) as [m3|] eqn:E; [|discriminate].
    assert (HT' : forall o p, In o ops -> touches o p -> aget lp_dec p N = None) by (intros; eapply HT; [right; eassumption|assumption]).
    assert (G : exists m3', fs_op held m1 o = Some m3' /\
      forall p, aget lp_dec p m3' = match aget lp_dec p N with Some x => Some x | None => aget lp_dec p m3 end).
    { specialize (HT o). destruct o as [a b|a]; cbn [fs_op] in *.
      - rewrite R, (HT a) by (cbn; auto). destruct (aget lp_dec a m2) as [pf|]; [|discriminate]. injection E as <-.
        eexists. split; [reflexivity|]. intros p. rewrite !aget_aset, !aget_adel.
        destruct (lp_dec p b) as [->|]; [rewrite (HT b) by (cbn; auto); reflexivity|].
        destruct (lp_dec p a) as [->|]; [rewrite (HT a) by (cbn; auto); reflexivity|]. apply R.
      - destruct (held a); injection E as <-; [exists m1; auto|].
        eexists. split; [reflexivity|]. intros p. rewrite !aget_adel.
        destruct (lp_dec p a) as [->|]; [rewrite (HT a) by (cbn; auto); reflexivity|]. apply R. }
    destruct G as (m3' & -> & R3). exact (IH HT' m3' m3 m2' R3 H).
Qed.
Lemma fs_ops_ext held ops m1 m2 m2' :
  (forall p, aget lp_dec p m1 = aget lp_dec p m2) -> fs_ops held m2 ops = Some m2' ->
  exists m1', fs_ops held m1 ops = Some m1' /\ (forall p, aget lp_dec p m1' = aget lp_dec p m2').
Proof.
  intros R H. destruct (fs_ops_overlay held [] ops ltac:(reflexivity) m1 m2 m2') as (m1' & E & R'); eauto.
Qed.
Lemma fs_ops_deletes held tc : forall m, exists m', fs_ops held m (map Delete tc) = Some m' /\
  forall p, ~ In p tc -> aget lp_dec p m' = aget lp_dec p m.
Proof.
  induction tc as [|a tc IH]; intros m; cbn [map fs_ops fs_op]; [eauto|].
  destruct (held a).
  - destruct (IH m) as (m' & E & H). exists m'. split; [exact E|]. intros p Hp. apply H. cbn in Hp. tauto.
  - destruct (IH (adel lp_dec a m)) as (m' & E & H). exists m'. split; [exact E|]. intros p Hp. cbn in Hp.
    rewrite H by tauto. apply aget_adel_ne. intros ->. tauto.
Qed.

(** *** Padding *)
Lemma pad_acked f1 r v : accepted f1 v -> NoDup (map f_name (f1 ++ r)) ->
  pad (List.length (f1 ++ r)) (acked_row f1 v) = acked_row (f1 ++ r) v.
Proof.
  intros A ND. unfold pad, acked_row. rewrite map_app, map_length, app_length.
  f_equal. replace (List.length f1 + List.length r - List.length f1) with (List.length r) by lia.
  rewrite map_app in ND.
  assert (H : forall g, In g r -> supplied v (f_name g) = None).
  { intros g Hg. apply (supplied_unnamed f1); [exact A|]. intros f Hf E.
    eapply NoDup_app_disjoint; [exact ND|apply in_map; exact Hf|rewrite E; apply in_map; exact Hg]. }
  clear - H. induction r as [|g r IH]; cbn; [reflexivity|]. rewrite (H g) by now left. f_equal.
  apply IH. intros; apply H; now right.
Qed.

(** The longest of several schemas that are all prefixes of one. *)
Lemma longest_prefix (sch : list Field) (files : list PartFile) : files <> [] ->
  Forall (fun f => exists r, sch = pf_fields f ++ r) files ->
  exists fields, Exists (fun f => pf_fields f = fields) files
    /\ Forall (fun f => exists r, fields = pf_fields f ++ r) files /\ exists r, sch = fields ++ r.
Proof.
  induction files as [|f files IH]; intros Hne H; [contradiction|]. apply Forall_cons_iff in H as [(r & E) H'].
  destruct files as [|f2 files'] eqn:Ef.
  - exists (pf_fields f). split; [now constructor|]. split; [|eauto]. constructor; [|constructor].
    exists []. now rewrite app_nil_r.
  - rewrite <- Ef in *. destruct (IH ltac:(rewrite Ef; discriminate) H') as (fields & X & P & (r' & E')).
    destruct (Nat.le_gt_cases (List.length (pf_fields f)) (List.length fields)) as [L|L].
    + exists fields. split; [now right|]. split; [|eauto]. constructor; [|exact P].
      exists (skipn (List.length (pf_fields f)) fields).
      assert (firstn (List.length (pf_fields f)) fields = pf_fields f) as <-; [|now rewrite firstn_length, Nat.min_l, firstn_skipn].
      transitivity (firstn (List.length (pf_fields f)) sch).
      * rewrite E', firstn_prefix by lia. reflexivity.
      * rewrite E. rewrite firstn_prefix by lia. apply firstn_all.
    + exists (pf_fields f). split; [now left|]. split; [|eauto].
      assert (Ep : exists q, pf_fields f = fields ++ q).
      { exists (skipn (List.length fields) (pf_fields f)).
        rewrite <- (firstn_skipn (List.length fields) (pf_fields f)) at 1. f_equal.
        transitivity (firstn (List.length fields) sch).
        - rewrite E. symmetry. apply firstn_prefix. lia.
        - rewrite E', firstn_prefix by lia. apply firstn_all. }
      constructor; [exists []; now rewrite app_nil_r|].
      eapply Forall_impl; [|exact P]. intros g (q & Eq). destruct Ep as (q' & Ep). exists (q ++ q'). now rewrite Ep, Eq, <- app_assoc.
Qed.

(** *** The invariant of the loop *)
Definition good (sch : list Field) (ic : nat) (m : list ((nat * nat) * PartFile)) (lp : nat * Part) (pv : list (list NamedValue)) : Prop :=
  exists pf s1, aget lp_dec (lp_path lp) m = Some pf /\ sch = pf_fields pf ++ s1
    /\ Forall (fun r => List.length r = List.length (pf_fields pf)) (pf_rows pf)
    /\ Forall (accepted (pf_fields pf)) pv
    /\ Permutation (pf_rows pf) (map (acked_row (pf_fields pf)) pv)
    /\ ic <= List.length (pf_fields pf)
    /\ Forall (int_keys ic) (pf_rows pf) /\ sorted_by cmp_key (firstn ic) (pf_rows pf).

Lemma good_ext sch ic m m' lp pv :
  aget lp_dec (lp_path lp) m' = aget lp_dec (lp_path lp) m -> good sch ic m lp pv -> good sch ic m' lp pv.
Proof. intros E (pf & s1 & A & R). exists pf, s1. rewrite E. auto. Qed.

Record CInv (sch : list Field) (ic : nat) (held : nat * nat -> bool) (D : list ((nat * nat) * PartFile))
  (ls0 : list Level) (T : list (list NamedValue)) (w : CW) : Prop := {
  c_len : List.length (w_levels w) = List.length ls0;
  c_nd : NoDup (map lp_path (parts_at 0 (w_levels w)));
  c_ids : forall k l p, nth_error (w_levels w) (S k) = Some l -> In p (l_parts l) -> p_id p <= l_next l;
  c_bound : forall k l i, nth_error (w_levels w) (S k) = Some l ->
     aget lp_dec (S k, i) (w_new w ++ D) <> None \/ (exists o, In o (w_ops w) /\ touches o (S k, i)) ->
     i <= l_next l;
  c_m : exists m pvals, fs_ops held (w_new w ++ D) (w_ops w) = Some m
     /\ Forall2 (good sch ic m) (parts_at 0 (w_levels w)) pvals
     /\ Permutation (List.concat pvals) T
     /\ forall lp pf, In lp (parts_at 0 (w_levels w)) -> aget lp_dec (lp_path lp) (w_new w ++ D) = Some pf ->
          aget lp_dec (lp_path lp) m = Some pf;
  c_l0 : exists l00 r0 l0 r, ls0 = l00 :: r0 /\ w_levels w = l0 :: r /\ l_next l0 = l_next l00
     /\ l_parts l0 = List.filter (fun p => negb (existsb (Nat.eqb (p_id p)) (w_l0 w))) (l_parts l00)
     /\ incl (w_l0 w) (map p_id (l_parts l00));
  c_lv0 : (forall i, aget lp_dec (0, i) (w_new w) = None)
     /\ forall o i, In o (w_ops w) -> touches o (0, i) -> In i (w_l0 w) /\ o = Delete (0, i)
}.

Lemma compact_loop_plans psize merge co d ks : forall w w', compact_loop psize merge co d w ks = Ok w' ->
  exists more, w_plans w' = w_plans w ++ more.
Proof.
  induction ks as [|k ks IH]; intros w w' H; cbn [compact_loop] in H.
  - apply Ok_inj_ in H. subst. exists []. now rewrite app_nil_r.
  - unfold compact_level in H.
    destruct (nth_error (w_levels w) k) as [l|] eqn:Ek; [|discriminate].
    destruct (nth_error (w_levels w) (S k)) as [ln|] eqn:El; [|discriminate].
    destruct (determine psize co k l ln) as [tc|] eqn:Ed; [|apply Ok_inj_ in H; subst; exists []; now rewrite app_nil_r].
    assert (G : forall w1 pl, w_plans w1 = w_plans w ++ pl -> compact_loop psize merge co d w1 ks = Ok w' ->
      exists more, w_plans w' = w_plans w ++ more).
    { intros w1 pl E1 E2. destruct (IH _ _ E2) as (more & ->). rewrite E1, <- app_assoc. eauto. }
    assert (Gm : forall w1, merge_parts merge d w k tc = Ok w1 -> w_plans w1 = w_plans w ++ [tc]).
    { intros w1 E1. unfold merge_parts in E1. destruct (mapM _ tc); [|discriminate]. rewrite El in E1. destruct (merge k l0); [|discriminate].
      apply Ok_inj_ in E1. now subst w1. }
    destruct tc as [|[a b] [|c tc']].
    + destruct (merge_parts merge d w k []) as [w1|]; [|discriminate]. eapply G; [now apply Gm|exact H].
    + destruct (move_part w k b) as [w1|] eqn:E1; [|discriminate]. eapply G; [|exact H].
      unfold move_part in E1. rewrite Ek, El in E1. destruct (find _ _); [|discriminate]. apply Ok_inj_ in E1. subst w1. reflexivity.
    + destruct (merge_parts merge d w k ((a, b) :: c :: tc')) as [w1|]; [|discriminate]. eapply G; [now apply Gm|exact H].
Qed.

Section Step.
Variable sch : list Field.
Variable ic : nat.
Variable held : nat * nat -> bool.
Variable D : list ((nat * nat) * PartFile).
Variable ls0 : list Level.
Variable T : list (list NamedValue).
Variable psize : nat -> Part -> N.
Variable merge : nat -> list PartFile -> result fault (list MergeOut).
Variable co : COpts.
Hypothesis HM : merge_contract ic merge.
Hypothesis Hsch : NoDup (map f_name sch).

Lemma parts_pick (ps : list (nat * Part)) (tc : list (nat * nat)) :
  NoDup (map lp_path ps) -> NoDup tc -> incl tc (map lp_path ps) ->
  exists tp, tc = map lp_path tp /\ Permutation ps (tp ++ List.filter (fun lp => negb (in_tc tc lp)) ps).
Proof.
  intros ND NT I.
  assert (P : Permutation (map lp_path (List.filter (in_tc tc) ps)) tc).
  { apply NoDup_Permutation.
    - clear - ND. induction ps as [|x ps IH]; cbn; [constructor|]. inversion ND as [|? ? N ND']; subst.
      destruct (in_tc tc x); [|auto]. cbn. constructor; [|auto]. intros H. apply N.
      apply in_map_iff in H as (y & Ey & Hy). apply filter_In in Hy as [Hy _]. rewrite <- Ey. now apply in_map.
    - exact NT.
    - intros p. split.
      + intros H. apply in_map_iff in H as (y & <- & Hy). apply filter_In in Hy as [_ Hy]. now apply inb_path.
      + intros H. pose proof (I p H) as Hp. apply in_map_iff in Hp as (y & <- & Hy). apply in_map. apply filter_In.
        split; [exact Hy|]. now apply inb_path. }
  symmetry in P. apply Permutation_map_inv in P as (tp & E & P). exists tp. split; [exact E|].
  rewrite (filter_partition (in_tc tc) ps) at 1. now apply Permutation_app_tail.
Qed.

Lemma merged_values files ptc fields m tp :
  NoDup (map f_name fields) ->
  Forall (fun f => exists r, fields = pf_fields f ++ r) files ->
  Forall2 (fun lp f => aget lp_dec (lp_path lp) m = Some f) tp files -> Forall2 (good sch ic m) tp ptc ->
  Permutation (List.concat (map (fun f => map (pad (List.length fields)) (pf_rows f)) files))
              (map (acked_row fields) (List.concat ptc))
  /\ Forall (accepted fields) (List.concat ptc).
Proof.
  intros ND P F. revert ptc. induction F as [|lp f tp files E F IH]; intros ptc G.
  - inversion G. split; constructor.
  - inversion G as [|? pv ? ptc' G1 G2]; subst. apply Forall_cons_iff in P as [(r & Er) P'].
    destruct (IH P' _ G2) as (A & B). cbn [map List.concat]. rewrite map_app.
    destruct G1 as (pf & s1 & Em & Es & W & Ac & Pr & _).
    assert (pf = f) as -> by congruence. split.
    + apply Permutation_app; [|exact A]. rewrite Pr, map_map.
      rewrite (map_ext_in _ (acked_row fields)); [reflexivity|]. intros v Hv. rewrite Forall_forall in Ac.
      rewrite Er. apply pad_acked; [auto|]. rewrite <- Er. exact ND.
    + apply Forall_app. split; [|exact B]. eapply Forall_impl; [|exact Ac]. intros v Hv. rewrite Er. now apply accepted_app.
Qed.

Lemma acked_int_prefix f1 r v : ic <= List.length f1 ->
  firstn ic (acked_row (f1 ++ r) v) = firstn ic (acked_row f1 v).
Proof. intros L. unfold acked_row. rewrite map_app, firstn_prefix; [reflexivity|]. now rewrite map_length. Qed.

Lemma merge_inv (d : Disk) w w' k tc : d_parts d = D ->
  CInv sch ic held D ls0 T w -> NoDup tc -> incl tc (map lp_path (parts_at 0 (w_levels w))) -> tc <> [] ->
  merge_parts merge d w k tc = Ok w' -> CInv sch ic held D ls0 T w' /\ w_plans w' = w_plans w ++ [tc].
Proof.
  intros HD I NT Hincl Hne H. unfold merge_parts in H.
  destruct (mapM (read_part (w_new w) d) tc) as [files|] eqn:Ef; [|discriminate].
  destruct (nth_error (w_levels w) (S k)) as [ln|] eqn:El; [|discriminate].
  destruct (merge k files) as [outs|] eqn:Em; [|discriminate]. apply Ok_inj_ in H. subst w'. split; [|reflexivity].
  destruct I as [Clen Cnd Cids Cbound Cm Cl0 Clv0].
  destruct Cm as (m & pvals & Efs & F2 & PT & Raw).
  destruct (parts_pick _ _ Cnd NT Hincl) as (tp & Etc & Pp).
  set (kept := List.filter (fun lp => negb (in_tc tc lp)) (parts_at 0 (w_levels w))) in *.
  destruct (Permutation_Forall2_ _ _ _ Pp _ F2) as (pv2 & Ppv & F2').
  apply Forall2_app_inv_l in F2' as (ptc & pk & Gt & Gk & ->).
  assert (Hfiles : Forall2 (fun lp f => aget lp_dec (lp_path lp) m = Some f) tp files).
  { apply mapM_Forall2 in Ef. rewrite Etc in Ef. clear - Ef Raw Pp HD.
    assert (Hin : incl tp (parts_at 0 (w_levels w))).
    { intros x Hx. eapply Permutation_in; [symmetry; exact Pp|]. apply in_or_app. now left. }
    clear Pp. revert files Ef. induction tp as [|lp tp IH]; cbn [map]; intros files Ef; inversion Ef as [|? f ? fs E1 E2]; subst; constructor.
    - apply Raw; [apply Hin; now left|]. rewrite <- read_part_app. exact E1.
    - apply IH; [intros x Hx; apply Hin; now right|exact E2]. }
  assert (Hfg : Forall (fun f => (exists r, sch = pf_fields f ++ r) /\ ic <= List.length (pf_fields f)
      /\ Forall (fun r => List.length r = List.length (pf_fields f)) (pf_rows f)
      /\ Forall (int_keys ic) (pf_rows f) /\ sorted_by cmp_key (firstn ic) (pf_rows f)) files).
  { clear - Hfiles Gt. revert ptc Gt. induction Hfiles as [|lp f tp files E F IH]; intros ptc G; constructor;
      inversion G as [|? pv ? ptc' G1 G2]; subst; [|eauto].
    destruct G1 as (pf & s1 & Em & Es & W & Ac & Pr & L & K & So). assert (pf = f) as -> by congruence. eauto 10. }
  assert (Hfne : files <> []).
  { intros ->. inversion Hfiles; subst. cbn in Hne. contradiction. }
  destruct (longest_prefix sch files Hfne) as (fields & X & Pfx & (s1 & Es1)).
  { eapply Forall_impl; [|exact Hfg]. intros f (A & _). exact A. }
  assert (NDf : NoDup (map f_name fields)).
  { rewrite Es1, map_app in Hsch. clear - Hsch. induction (map f_name fields) as [|x l IH]; cbn in *; [constructor|].
    inversion Hsch as [|? ? N ND]; subst. constructor; [|auto]. intros Hx. apply N. apply in_or_app. now left. }
  destruct (HM k files fields outs Hfne NDf Pfx X) as (Hout & Pout); [|exact Em|].
  { eapply Forall_impl; [|exact Hfg]. intros f (_ & A). exact A. }
  destruct (merged_values _ _ _ _ _ NDf Pfx Hfiles Gt) as (Pval & Acc).
  rewrite Pval in Pout. destruct (perm_split _ _ _ Pout) as (vss & Fv & Pv).
  set (next := l_next ln) in *.
  set (numbered := combine (seq (S next) (List.length outs)) outs) in *.
  set (N := map (fun '(id, o) => ((S k, id), fst o)) numbered) in *.
  set (newp := map (fun '(id, o) => out_part id o) numbered) in *.
  assert (Knum : map fst numbered = seq (S next) (List.length outs)).
  { unfold numbered. generalize (S next). clear. induction outs as [|o outs IH]; intros a; cbn; [reflexivity|]. f_equal. apply IH. }
  assert (KN : akeys N = map (fun i => (S k, i)) (seq (S next) (List.length outs))).
  { unfold akeys, N. rewrite map_map, <- Knum, map_map. apply map_ext. now intros [a b]. }
  assert (Knew : map lp_path (map (pair (S k)) newp) = akeys N).
  { unfold newp, akeys, N. rewrite !map_map. apply map_ext. now intros [a b]. }
  assert (Fresh : forall i, next < i -> aget lp_dec (S k, i) (w_new w ++ D) = None
                         /\ forall o, In o (w_ops w) -> ~ touches o (S k, i)).
  { intros i Hi. split.
    - destruct (aget lp_dec (S k, i) (w_new w ++ D)) eqn:E; [|reflexivity].
      assert (i <= l_next ln); [|unfold next in Hi; lia]. apply (Cbound k ln i El). left. congruence.
    - intros o Ho Ht. assert (i <= l_next ln); [|unfold next in Hi; lia]. apply (Cbound k ln i El). right. eauto. }
  assert (KNin : forall p, aget lp_dec p N <> None -> exists i, p = (S k, i) /\ next < i <= next + List.length outs).
  { intros p Hp. destruct (aget lp_dec p N) eqn:E; [|contradiction].
    assert (In p (akeys N)) as Hin by (apply (aget_In lp_dec); eauto). rewrite KN in Hin.
    apply in_map_iff in Hin as (i & <- & Hi). apply in_seq in Hi. exists i. split; [reflexivity|lia]. }
  (* files after the pending operations, with the new files *)
  destruct (fs_ops_overlay held N (w_ops w)) with (m1 := N ++ w_new w ++ D) (m2 := w_new w ++ D) (m2' := m)
    as (m1 & Em1 & R1).
  { intros o p Ho Ht. destruct (aget lp_dec p N) eqn:E; [|reflexivity]. exfalso.
    destruct (KNin p ltac:(congruence)) as (i & -> & Hi). exact (proj2 (Fresh i ltac:(lia)) o Ho Ht). }
  { intros p. apply aget_app_. }
  { exact Efs. }
  destruct (fs_ops_deletes held tc m1) as (m2 & Em2 & R2).
  assert (Kept_not_new : forall lp, In lp (parts_at 0 (w_levels w)) -> aget lp_dec (lp_path lp) N = None).
  { intros [kk p] Hlp. destruct (aget lp_dec (lp_path (kk, p)) N) eqn:E; [|reflexivity]. exfalso.
    destruct (KNin _ ltac:(rewrite E; discriminate)) as (i & Ei & Hi). unfold lp_path in Ei. cbn in Ei. injection Ei as -> Epi.
    apply parts_0_In in Hlp as (l & Enl & Hp). rewrite El in Enl. injection Enl as <-.
    pose proof (Cids k ln p El Hp). unfold next in Hi. lia. }
  assert (Hkept : forall lp, In lp kept -> In lp (parts_at 0 (w_levels w)) /\ ~ In (lp_path lp) tc).
  { intros lp Hlp. apply filter_In in Hlp as [H1 H2]. split; [exact H1|]. intros Hin. apply inb_path in Hin.
    unfold in_tc in H2. rewrite Hin in H2. discriminate. }
  assert (Mk : forall lp, In lp kept -> aget lp_dec (lp_path lp) m2 = aget lp_dec (lp_path lp) m).
  { intros lp Hlp. destruct (Hkept lp Hlp) as [H1 H2]. rewrite R2 by exact H2. rewrite R1, Kept_not_new by exact H1. reflexivity. }
  assert (Mn : forall p, In p (akeys N) -> aget lp_dec p m2 = aget lp_dec p N).
  { intros p Hp. rewrite R2.
    - rewrite R1. apply (aget_In lp_dec) in Hp as (v & ->). reflexivity.
    - intros Hin. pose proof (Hincl p Hin) as Hq. apply in_map_iff in Hq as (lp & <- & Hlp).
      apply (aget_In lp_dec) in Hp as (v & Ev). rewrite (Kept_not_new lp Hlp) in Ev. discriminate. }
  set (levels' := mapi _ 0 (w_levels w)).
  assert (Elv : levels' = mapi (push_at (S k) (List.length outs) newp) 0 (mapi (drop_parts tc) 0 (w_levels w))).
  { unfold levels'. symmetry. apply mapi_mapi. }
  assert (Pparts : Permutation (parts_at 0 levels') (kept ++ map (pair (S k)) newp)).
  { rewrite Elv, parts_push.
    - rewrite parts_drop. reflexivity.
    - rewrite mapi_length. split; [lia|]. cbn. apply nth_error_Some. rewrite El. discriminate. }
  assert (NDnew : NoDup (akeys N)).
  { rewrite KN. apply FinFun.Injective_map_NoDup; [intros a b E; congruence|apply seq_NoDup]. }
  assert (Gn : Forall2 (good sch ic m2) (map (pair (S k)) newp) vss).
  { assert (G : forall outs' vss' a, Forall2 (fun rows v => rows = map (acked_row fields) v) (map (fun o : MergeOut => pf_rows (fst o)) outs') vss' ->
        Forall (fun o => pf_fields (fst o) = fields /\ sorted_by cmp_key (firstn ic) (pf_rows (fst o))) outs' ->
        Forall (accepted fields) (List.concat vss') ->
        (forall v, In v (List.concat vss') -> int_keys ic (acked_row fields v)) ->
        (forall id o, In (id, o) (combine (seq a (List.length outs')) outs') -> aget lp_dec (S k, id) m2 = Some (fst o)) ->
        Forall2 (good sch ic m2) (map (pair (S k)) (map (fun '(id, o) => out_part id o) (combine (seq a (List.length outs')) outs'))) vss').
    { clear - Es1 X Pfx Hfg. induction outs' as [|o outs' IH]; intros vss' a Hv Ho Ha Hi Hm; 
        (destruct vss' as [|v vs]; [try (now inversion Hv)|try (now inversion Hv)]); [constructor|]. cbn [map] in Hv.
      apply F2cons in Hv as [E1 E2]. cbn. constructor.
      - apply Forall_cons_iff in Ho as [[Eo So] Ho']. cbn [List.concat] in Ha, Hi. apply Forall_app in Ha as [Ha _].
        exists (fst o), s1. split; [apply (Hm a o); cbn; now left|]. rewrite Eo. split; [exact Es1|]. rewrite E1.
        split; [apply Forall_map, Forall_forall; intros; apply map_length|]. split; [exact Ha|]. split; [reflexivity|].
        split; [|split].
        + apply Exists_exists in X as (f & Hf & <-). rewrite Forall_forall in Hfg. now destruct (Hfg f Hf) as (_ & L & _).
        + apply Forall_map, Forall_forall. intros x Hx. apply Hi. apply in_or_app. now left.
        + rewrite <- E1. exact So.
      - apply Forall_cons_iff in Ho as [_ Ho']. cbn [List.concat] in Ha, Hi. apply Forall_app in Ha as [_ Ha].
        apply (IH vs (S a)); auto.
        + intros x Hx. apply Hi. apply in_or_app. now right.
        + intros id x Hx. apply Hm. cbn. now right. }
    apply (G outs vss (S next)).
    - exact Fv.
    - exact Hout.
    - rewrite Pv. exact Acc.
    - intros v Hv. assert (In v (List.concat ptc)) as Hv' by (eapply Permutation_in; [exact Pv|exact Hv]).
      clear - Hv' Hfiles Gt Pfx. revert ptc Gt Hv'. induction Hfiles as [|lp f tp files E F IH]; intros ptc G Hv'.
      + inversion G; subst. contradiction.
      + inversion G as [|? pv ? ptc' G1 G2]; subst. apply Forall_cons_iff in Pfx as [(r & Er) Pfx'].
        cbn [List.concat] in Hv'. apply in_app_or in Hv' as [Hv'|Hv']; [|eauto].
        destruct G1 as (pf & s1 & Em & Es & W & Ac & Pr & L & K & So). assert (pf = f) as -> by congruence.
        unfold int_keys. rewrite Er, acked_int_prefix by exact L.
        rewrite Pr, Forall_map, Forall_forall in K. apply (K v Hv').
    - intros id o Hin. rewrite Mn.
      + assert (Hin' : In ((S k, id), fst o) N) by (unfold N; apply in_map_iff; exists (id, o); auto).
        clear - Hin' NDnew. revert Hin' NDnew. unfold akeys. induction N as [|[k' v] N' IH]; cbn [In map fst aget]; [contradiction|].
        intros [E|H] ND; inversion ND as [|? ? Nn ND']; subst.
        * injection E as -> ->. now destruct (lp_dec (S k, id) (S k, id)).
        * destruct (lp_dec (S k, id) k') as [<-|]; [|auto]. exfalso. apply Nn. apply in_map_iff. exists ((S k, id), fst o). auto.
      + rewrite KN. apply in_map. unfold numbered in *. apply in_combine_l in Hin. exact Hin. }
  assert (Gk' : Forall2 (good sch ic m2) kept pk).
  { clear - Gk Mk. revert Mk. induction Gk as [|lp pv kept pk G1 G2 IH]; intros Mk; constructor.
    - eapply good_ext; [|exact G1]. apply Mk. now left.
    - apply IH. intros; apply Mk; now right. }
  symmetry in Pparts.
  destruct (Permutation_Forall2_ _ _ _ Pparts (pk ++ vss) (Forall2_app Gk' Gn)) as (pfin & Pfin & Ffin).
  constructor; cbn [w_levels w_ops w_l0 w_new w_plans]; fold levels'.
  - unfold levels'. now rewrite mapi_length.
  - eapply Permutation_NoDup; [apply Permutation_map; exact Pparts|]. rewrite map_app, Knew.
    assert (NDk : NoDup (map lp_path kept)).
    { eapply Permutation_NoDup with (l' := map lp_path (tp ++ kept)) in Cnd; [|now apply Permutation_map].
      rewrite map_app in Cnd. clear - Cnd. induction (map lp_path tp) as [|x l IH]; [exact Cnd|]. inversion Cnd; auto. }
    revert NDk. assert (Dis : forall p, In p (map lp_path kept) -> ~ In p (akeys N)).
    { intros p Hp Hq. apply in_map_iff in Hp as (lp & <- & Hlp). destruct (Hkept lp Hlp) as [H1 _].
      apply (aget_In lp_dec) in Hq as (v & Ev). rewrite (Kept_not_new lp H1) in Ev. discriminate. }
    revert Dis NDnew. generalize (map lp_path kept) (akeys N). clear. intros a b Dis Nb. induction a as [|x a IH]; cbn; intros Na; [exact Nb|].
    inversion Na as [|? ? Nx Na']; subst. constructor.
    + rewrite in_app_iff. intros [H|H]; [auto|]. apply (Dis x); [now left|exact H].
    + apply IH; [|exact Na']. intros p Hp. apply Dis. now right.
  - intros kk l p Enl Hp. unfold levels' in Enl. rewrite nth_error_mapi in Enl. cbn [Nat.add] in Enl.
    destruct (nth_error (w_levels w) (S kk)) as [lo|] eqn:Elo; [|discriminate]. cbn [option_map] in Enl. injection Enl as <-.
    destruct (Nat.eqb_spec kk k) as [->|Hk]; cbn [l_parts l_next drop_parts] in *.
    + assert (lo = ln) as -> by congruence. apply in_app_or in Hp as [Hp|Hp].
      * apply filter_In in Hp as [Hp _]. pose proof (Cids k ln p El Hp). lia.
      * apply in_map_iff in Hp as ([id o] & <- & Hin). unfold numbered in Hin. apply in_combine_l, in_seq in Hin. cbn. fold next. lia.
    + apply filter_In in Hp as [Hp _]. exact (Cids kk lo p Elo Hp).
  - intros kk l i Enl Hi. unfold levels' in Enl. rewrite nth_error_mapi in Enl. cbn [Nat.add] in Enl.
    destruct (nth_error (w_levels w) (S kk)) as [lo|] eqn:Elo; [|discriminate]. cbn [option_map] in Enl. injection Enl as <-.
    assert (Hold : aget lp_dec (S kk, i) (w_new w ++ D) <> None \/ (exists o, In o (w_ops w) /\ touches o (S kk, i)) -> i <= l_next lo)
      by (intros; eapply Cbound; eauto).
    assert (Htc : In (S kk, i) tc -> i <= l_next lo).
    { intros Hin. apply Hincl in Hin. apply in_map_iff in Hin as ([k2 p2] & E2 & Hin). unfold lp_path in E2. cbn in E2. injection E2 as -> <-.
      apply parts_0_In in Hin as (l2 & E2 & Hp2). rewrite Elo in E2. injection E2 as <-. exact (Cids kk lo p2 Elo Hp2). }
    assert (Hmain : i <= l_next lo \/ (kk = k /\ i <= next + List.length outs)).
    { destruct Hi as [Hi|(o & Ho & Ht)].
      - rewrite <- app_assoc, aget_app_ in Hi. destruct (aget lp_dec (S kk, i) N) eqn:EN.
        + right. destruct (KNin (S kk, i) ltac:(congruence)) as (j & Ej & Hj). injection Ej as -> ->. split; [reflexivity|lia].
        + left. apply Hold. now left.
      - apply in_app_or in Ho as [Ho|Ho].
        + left. apply Hold. right. eauto.
        + left. apply in_map_iff in Ho as (q & <- & Hq). cbn in Ht. subst q. auto. }
    destruct (Nat.eqb_spec kk k) as [->|Hk]; cbn [l_parts l_next drop_parts].
    + assert (lo = ln) as -> by congruence. fold next in Hmain |- *. lia.
    + destruct Hmain as [H|[H _]]; [exact H|contradiction].
  - exists m2, pfin. split; [rewrite <- app_assoc, fs_ops_app, Em1; exact Em2|]. split; [exact Ffin|]. split.
    + rewrite <- Pfin, concat_app, Pv, <- PT, Ppv, concat_app. apply Permutation_app_comm.
    + intros lp pf Hlp Hraw. assert (In lp (kept ++ map (pair (S k)) newp)) as Hlp' by (eapply Permutation_in; [symmetry; exact Pparts|exact Hlp]).
      rewrite <- app_assoc, aget_app_ in Hraw. apply in_app_or in Hlp' as [Hl|Hl].
      * destruct (Hkept lp Hl) as [H1 H2]. rewrite (Kept_not_new lp H1) in Hraw. rewrite Mk by exact Hl. now apply Raw.
      * assert (In (lp_path lp) (akeys N)) as Hk by (rewrite <- Knew; now apply in_map). rewrite Mn by exact Hk.
        apply (aget_In lp_dec) in Hk as (v & Ev). rewrite Ev in *. exact Hraw.
  - destruct Cl0 as (l00 & r0 & l0 & r & E1 & E2 & En & Ep & Hi). exists l00, r0.
    unfold levels'. rewrite E2. cbn [mapi Nat.eqb]. eexists _, _. split; [exact E1|]. split; [reflexivity|]. cbn [drop_parts l_next l_parts].
    split; [exact En|]. split.
    + rewrite Ep, filter_filter_. apply filter_ext. intros p. rewrite existsb_app. rewrite negb_orb. f_equal. f_equal.
      clear. induction tc as [|[a b] tc IH]; cbn; [reflexivity|]. rewrite IH.
      unfold path_eqb. destruct (lp_dec (0, p_id p) (a, b)) as [E|N].
      * injection E as <- <-. cbn. now rewrite Nat.eqb_refl.
      * destruct (Nat.eqb_spec a 0) as [->|Ha]; cbn; [|reflexivity].
        destruct (Nat.eqb_spec (p_id p) b) as [<-|]; [contradiction|reflexivity].
    + apply incl_app; [exact Hi|]. intros i Hin. apply in_map_iff in Hin as ([a b] & <- & Hin). apply filter_In in Hin as [Hin Ha].
      cbn in Ha. apply Nat.eqb_eq in Ha. subst a. cbn [snd]. apply Hincl in Hin. apply in_map_iff in Hin as ([k2 p2] & Ek & Hin).
      unfold lp_path in Ek. cbn in Ek. injection Ek as -> <-. apply parts_0_In in Hin as (l2 & E3 & Hp). rewrite E2 in E3. cbn in E3. injection E3 as <-.
      rewrite Ep in Hp. apply filter_In in Hp as [Hp _]. now apply in_map.
  - destruct Clv0 as [A B]. split.
    + intros i. rewrite aget_app_, A. destruct (aget lp_dec (0, i) N) eqn:E; [|reflexivity].
      destruct (KNin (0, i) ltac:(congruence)) as (j & Ej & _). discriminate.
    + intros o i Ho Ht. rewrite in_app_iff. apply in_app_or in Ho as [Ho|Ho].
      * destruct (B o i Ho Ht). auto.
      * apply in_map_iff in Ho as (q & <- & Hq). cbn in Ht. subst q. split; [|reflexivity]. right.
        apply in_map_iff. exists (0, i). split; [reflexivity|]. now apply filter_In.
Qed.

Lemma remove_id_filter id ps : NoDup (map p_id ps) ->
  remove_id id ps = List.filter (fun p => negb (Nat.eqb (p_id p) id)) ps.
Proof.
  induction ps as [|p ps IH]; cbn; intros ND; [reflexivity|]. inversion ND as [|? ? N ND']; subst.
  destruct (Nat.eqb_spec (p_id p) id) as [<-|]; cbn; [|now rewrite IH].
  clear - N. induction ps as [|q ps IH]; cbn in *; [reflexivity|].
  destruct (Nat.eqb_spec (p_id q) (p_id p)); [tauto|]. cbn. f_equal. apply IH. tauto.
Qed.
Lemma level_ids_nd ls k l : NoDup (map lp_path (parts_at 0 ls)) -> nth_error ls k = Some l -> NoDup (map p_id (l_parts l)).
Proof.
  assert (G : forall ls i k, NoDup (map lp_path (parts_at i ls)) -> nth_error ls k = Some l -> NoDup (map p_id (l_parts l))).
  { clear. induction ls as [|a ls IH]; intros i k ND E; [destruct k; discriminate|].
    rewrite parts_at_cons, map_app in ND. destruct k as [|k]; cbn in E.
    - injection E as ->. assert (NoDup (map lp_path (map (pair i) (l_parts l)))) as N1.
      { revert ND. generalize (map lp_path (map (pair i) (l_parts l))). clear. intros a. induction a as [|x a IH]; cbn; [constructor|].
        intros H. inversion H as [|? ? N H']; subst. constructor; [|auto]. intros Hx. apply N, in_or_app. now left. }
      rewrite map_map in N1. unfold lp_path in N1. cbn in N1. rewrite <- (map_map p_id (pair i)) in N1. eapply NoDup_map_inv. exact N1.
    - apply (IH (S i) k); [|exact E]. revert ND. generalize (map lp_path (map (pair i) (l_parts a))). clear. intros b.
      induction b as [|x b IH]; cbn; [auto|]. intros H. inversion H; auto. }
  intros ND E. exact (G ls 0 k ND E).
Qed.

Lemma move_inv w w' k id :
  CInv sch ic held D ls0 T w -> move_part w (S k) id = Ok w' ->
  CInv sch ic held D ls0 T w' /\ w_plans w' = w_plans w ++ [[(S k, id)]].
Proof.
  intros I H. unfold move_part in H.
  destruct (nth_error (w_levels w) (S k)) as [l|] eqn:Ek; [|discriminate].
  destruct (nth_error (w_levels w) (S (S k))) as [ln|] eqn:El; [|discriminate].
  destruct (find (fun p => Nat.eqb (p_id p) id) (l_parts l)) as [p|] eqn:Ep; [|discriminate].
  apply Ok_inj_ in H. subst w'. split; [|reflexivity].
  apply find_some in Ep as [Hp Eid]. apply Nat.eqb_eq in Eid. subst id.
  destruct I as [Clen Cnd Cids Cbound Cm Cl0 Clv0].
  destruct Cm as (m & pvals & Efs & F2 & PT & Raw).
  set (K := S k) in *. set (a := (K, p_id p)). set (id' := S (l_next ln)). set (b := (S K, id')).
  set (p' := mkPart id' (p_values p) (p_min p) (p_max p)).
  assert (Hin : In (K, p) (parts_at 0 (w_levels w))) by (apply parts_0_In; eauto).
  destruct (parts_pick _ [a] Cnd) as (tp & Etp & Pp).
  { repeat constructor. intros []. }
  { intros x [<-|[]]. exact (in_map lp_path _ _ Hin). }
  set (kept := List.filter (fun lp => negb (in_tc [a] lp)) (parts_at 0 (w_levels w))) in *.
  destruct tp as [|[k0 q] [|? ?]]; try discriminate. cbn [map] in Etp. 
  destruct (Permutation_Forall2_ _ _ _ Pp _ F2) as (pv2 & Ppv & F2').
  cbn [app] in F2'. destruct pv2 as [|pa pk]; [inversion F2'|]. apply F2cons in F2' as [Ga Gk].
  assert (Ea : lp_path (k0, q) = a) by congruence.
  set (levels' := mapi _ 0 (w_levels w)).
  assert (Elv : levels' = mapi (push_at (S K) 1 [p']) 0 (mapi (drop_parts [a]) 0 (w_levels w))).
  { unfold levels'. rewrite mapi_mapi.
    assert (G : forall ls i, (forall j x, nth_error ls j = Some x -> nth_error (w_levels w) (i + j) = Some x) ->
      mapi (fun i lv => if Nat.eqb i K then mkLevel (l_next lv) (remove_id (p_id p) (l_parts lv))
        else if Nat.eqb i (S K) then mkLevel id' (l_parts lv ++ [p']) else lv) i ls =
      mapi (fun i x => push_at (S K) 1 [p'] i (drop_parts [a] i x)) i ls).
    { induction ls as [|x ls IH]; intros i Hn; cbn [mapi]; [reflexivity|].
      rewrite (IH (S i)) by (intros j y Hy; rewrite Nat.add_succ_comm; now apply Hn). f_equal.
      pose proof (Hn 0 x eq_refl) as Hx. rewrite Nat.add_0_r in Hx. unfold push_at, drop_parts, path_eqb. cbn [existsb l_next l_parts].
      destruct (Nat.eqb_spec i K) as [->|N1].
      - destruct (Nat.eqb_spec K (S K)); [lia|]. f_equal.
        rewrite remove_id_filter by (eapply level_ids_nd; [exact Cnd|exact Hx]). apply filter_ext. intros z. f_equal.
        unfold a. destruct (lp_dec (K, p_id z) (K, p_id p)) as [E|N].
        + injection E as ->. now rewrite Nat.eqb_refl.
        + destruct (Nat.eqb_spec (p_id z) (p_id p)) as [E|]; [rewrite E in N; contradiction|reflexivity].
      - assert (Ef : forall zs, List.filter (fun z => negb ((if lp_dec (i, p_id z) a then true else false) || false)) zs = zs).
        { induction zs as [|z zs IHz]; cbn [List.filter]; [reflexivity|]. unfold a at 1.
          destruct (lp_dec (i, p_id z) (K, p_id p)) as [E|]; [congruence|]. cbn [orb negb]. now rewrite IHz. }
        rewrite Ef. destruct (Nat.eqb_spec i (S K)) as [->|N2].
        + assert (x = ln) as -> by congruence. f_equal. unfold id'. lia.
        + now destruct x. }
    apply G. auto. }
  assert (Pparts : Permutation (parts_at 0 levels') (kept ++ [(S K, p')])).
  { rewrite Elv, parts_push.
    - rewrite parts_drop. reflexivity.
    - rewrite mapi_length. split; [lia|]. cbn. apply nth_error_Some. rewrite El. discriminate. }
  assert (Hkept : forall lp, In lp kept -> In lp (parts_at 0 (w_levels w)) /\ lp_path lp <> a).
  { intros lp Hlp. apply filter_In in Hlp as [H1 H2]. split; [exact H1|]. intros E. unfold in_tc, path_eqb in H2. cbn [existsb] in H2.
    rewrite E in H2. destruct (lp_dec a a); [discriminate|contradiction]. }
  assert (Hb : forall lp, In lp (parts_at 0 (w_levels w)) -> lp_path lp <> b).
  { intros [k2 q2] H E. unfold lp_path, b in E. cbn in E. injection E as -> Eq. apply parts_0_In in H as (l2 & E2 & H2).
    assert (l2 = ln) as -> by congruence. pose proof (Cids K ln q2 El H2). unfold id' in Eq. lia. }
  destruct Ga as (pf & s1 & Gm & Gr). rewrite Ea in Gm.
  set (m2 := aset lp_dec b pf (adel lp_dec a m)).
  assert (Mk : forall lp, In lp kept -> aget lp_dec (lp_path lp) m2 = aget lp_dec (lp_path lp) m).
  { intros lp Hlp. destruct (Hkept lp Hlp) as [H1 H2]. unfold m2. rewrite aget_aset_ne by (now apply Hb). now apply aget_adel_ne. }
  assert (Gk' : Forall2 (good sch ic m2) kept pk).
  { clear - Gk Mk. clearbody kept m2. revert Mk. induction Gk as [|lp pv kept pk G1 G2 IH]; intros Mk; constructor.
    - eapply good_ext; [|exact G1]. apply Mk. now left.
    - apply IH. intros; apply Mk; now right. }
  assert (Gn : good sch ic m2 (S K, p') pa).
  { exists pf, s1. split; [|exact Gr]. change (lp_path (S K, p')) with b. unfold m2. apply aget_aset_eq. }
  symmetry in Pparts.
  destruct (Permutation_Forall2_ (good sch ic m2) _ _ Pparts (pk ++ [pa])) as (pfin & Pfin & Ffin).
  { apply Forall2_app; [exact Gk'|]. constructor; [exact Gn|constructor]. }
  constructor; cbn [w_levels w_ops w_l0 w_new w_plans]; fold levels'.
  - unfold levels'. now rewrite mapi_length.
  - eapply Permutation_NoDup; [apply Permutation_map; exact Pparts|]. rewrite map_app. cbn [map].
    apply NoDup_app_comm_snoc.
    + eapply Permutation_NoDup with (l' := map lp_path ((k0, q) :: kept)) in Cnd; [|now apply Permutation_map].
      cbn [map] in Cnd. now inversion Cnd.
    + change (lp_path (S K, p')) with b. intros Hi. apply in_map_iff in Hi as (lp & E & Hlp). destruct (Hkept lp Hlp) as [H1 _]. exact (Hb lp H1 E).
  - intros kk lx q0 Enl Hq. unfold levels' in Enl. rewrite nth_error_mapi in Enl. cbn [Nat.add] in Enl.
    destruct (nth_error (w_levels w) (S kk)) as [lo|] eqn:Elo; [|discriminate]. cbn [option_map] in Enl. injection Enl as <-.
    destruct (Nat.eqb_spec kk k) as [E1|N1]; [|destruct (Nat.eqb_spec kk K) as [E2|N2]]; cbn [l_parts l_next] in *.
    + apply (Cids kk lo q0 Elo). clear - Hq. induction (l_parts lo) as [|z zs IH]; cbn in *; [contradiction|].
      destruct (Nat.eqb (p_id z) (p_id p)); cbn in *; [now right|]. destruct Hq as [->|Hq]; auto.
    + subst kk. assert (lo = ln) as -> by congruence. apply in_app_or in Hq as [Hq|[<-|[]]].
      * pose proof (Cids K ln q0 El Hq). unfold id'. lia.
      * cbn. lia.
    + exact (Cids kk lo q0 Elo Hq).
  - intros kk lx i Enl Hi. unfold levels' in Enl. rewrite nth_error_mapi in Enl. cbn [Nat.add] in Enl.
    destruct (nth_error (w_levels w) (S kk)) as [lo|] eqn:Elo; [|discriminate]. cbn [option_map] in Enl. injection Enl as <-.
    assert (Hold : aget lp_dec (S kk, i) (w_new w ++ D) <> None \/ (exists o, In o (w_ops w) /\ touches o (S kk, i)) -> i <= l_next lo)
      by (intros; eapply Cbound; eauto).
    assert (Hmain : i <= l_next lo \/ (kk = K /\ i <= id')).
    { destruct Hi as [Hi|(o & Ho & Ht)]; [left; apply Hold; now left|].
      apply in_app_or in Ho as [Ho|[<-|[]]]; [left; apply Hold; right; eauto|].
      cbn [touches] in Ht. destruct Ht as [Ht|Ht].
      - left. unfold a in Ht. injection Ht as E1 ->. unfold K in *. assert (kk = k) as -> by lia. assert (lo = l) as -> by congruence. exact (Cids k l p Ek Hp).
      - right. unfold b in Ht. injection Ht as -> ->. auto. }
    destruct (Nat.eqb_spec kk k) as [E1|N1]; [|destruct (Nat.eqb_spec kk K) as [E2|N2]]; cbn [l_parts l_next].
    + destruct Hmain as [Hm|[Hm _]]; [exact Hm|unfold K in Hm; lia].
    + subst kk. assert (lo = ln) as -> by congruence. unfold id' in *. lia.
    + destruct Hmain as [Hm|[Hm _]]; [exact Hm|lia].
  - exists m2, pfin. split; [rewrite fs_ops_app, Efs; cbn [fs_ops fs_op]; fold a; rewrite Gm; reflexivity|].
    split; [exact Ffin|]. split.
    + rewrite <- Pfin, concat_app, <- PT, Ppv. cbn [List.concat]. rewrite app_nil_r. apply Permutation_app_comm.
    + intros lp pf0 Hlp Hraw. assert (In lp (kept ++ [(S K, p')])) as Hlp' by (eapply Permutation_in; [symmetry; exact Pparts|exact Hlp]).
      apply in_app_or in Hlp' as [Hl|[<-|[]]].
      * destruct (Hkept lp Hl) as [H1 H2]. rewrite Mk by exact Hl. now apply Raw.
      * exfalso. change (lp_path (S K, p')) with (S K, id') in Hraw.
        assert (id' <= l_next ln); [|unfold id' in *; lia]. apply (Cbound K ln id' El). left. congruence.
  - destruct Cl0 as (l00 & r0 & l0 & r & E1 & E2 & En & Ep & Hi). exists l00, r0.
    unfold levels'. rewrite E2. cbn [mapi Nat.eqb]. exists l0. eexists. split; [exact E1|]. split; [|auto]. unfold K. cbn [Nat.eqb]. reflexivity.
  - destruct Clv0 as [A B]. split; [exact A|]. intros o i Ho Ht. apply in_app_or in Ho as [Ho|[<-|[]]]; [auto|].
    destruct Ht as [Ht|Ht]; discriminate.
Qed.

(** *** Selections *)
Lemma over_incl lvl limit ps : forall acc, incl (over psize lvl limit acc ps) ps.
Proof.
  induction ps as [|p ps IH]; intros acc x; cbn; [auto|].
  destruct (_ <? _)%N; cbn; [intros [->|H]; [now left|]|intros H]; right; eapply IH; exact H.
Qed.
Lemma selected_incl lvl ps : incl (selected psize co lvl ps) (map p_id ps).
Proof.
  intros x. unfold selected. destruct lvl as [|lvl].
  - destruct (Nat.ltb _ _); [auto|contradiction].
  - intros H. apply in_flat_map in H as (p & Hp & H). apply in_app_or in H as [H|[<-|[]]].
    + apply in_map_iff in H as (q & <- & Hq). apply in_map. eapply over_incl; exact Hq.
    + apply in_map. eapply over_incl; exact Hp.
Qed.
Lemma determine_paths ls k l ln tc : nth_error ls k = Some l -> nth_error ls (S k) = Some ln ->
  determine psize co k l ln = Some tc ->
  incl tc (map lp_path (parts_at 0 ls)) /\ tc <> [] /\ (k = 0 -> 0 < c_l0_max co -> 2 <= List.length tc)
  /\ (forall a b, tc = [(a, b)] -> a = k).
Proof.
  intros Ek El H. unfold determine in H. pose proof (selected_incl k (l_parts l)) as Hs.
  destruct (selected psize co k (l_parts l)) as [|s sel] eqn:Es; [discriminate|]. rewrite <- Es in *.
  destruct (range_of _) as [mn mx]. injection H as <-. split; [|split; [|split]].
  - intros x Hx. apply in_app_or in Hx as [Hx|Hx].
    + apply in_map_iff in Hx as (i & <- & Hi). apply Hs in Hi. apply in_map_iff in Hi as (p & <- & Hp).
      apply (in_map lp_path _ (k, p)). apply parts_0_In. eauto.
    + apply in_map_iff in Hx as (p & <- & Hp). apply filter_In in Hp as [Hp _].
      apply (in_map lp_path _ (S k, p)). apply parts_0_In. eauto.
  - rewrite Es. discriminate.
  - intros -> H0. rewrite app_length, map_length. unfold selected in *.
    destruct (Nat.ltb_spec (c_l0_max co) (List.length (l_parts l))); [|discriminate]. rewrite map_length. lia.
  - intros a b E. rewrite Es in E. cbn in E. congruence.
Qed.

Lemma loop_inv (d : Disk) ks : d_parts d = D -> 0 < c_l0_max co -> forall w w',
  CInv sch ic held D ls0 T w -> compact_loop psize merge co d w ks = Ok w' ->
  Forall (@NoDup _) (w_plans w') ->
  CInv sch ic held D ls0 T w'.
Proof.
  intros HD H0. induction ks as [|k ks IH]; intros w w' I H NP; [apply Ok_inj_ in H; now subst|].
  cbn [compact_loop] in H. unfold compact_level in H.
  destruct (nth_error (w_levels w) k) as [l|] eqn:Ek; [|discriminate].
  destruct (nth_error (w_levels w) (S k)) as [ln|] eqn:El; [|discriminate].
  destruct (determine psize co k l ln) as [tc|] eqn:Ed; [|apply Ok_inj_ in H; now subst].
  destruct (determine_paths _ _ _ _ _ Ek El Ed) as (Hincl & Hne & H2 & H1).
  assert (Gm : forall w1, merge_parts merge d w k tc = Ok w1 -> compact_loop psize merge co d w1 ks = Ok w' -> CInv sch ic held D ls0 T w').
  { intros w1 E1 E2. assert (NoDup tc).
    { destruct (compact_loop_plans _ _ _ _ _ _ _ E2) as (more & Em). rewrite Em in NP.
      unfold merge_parts in E1. destruct (mapM _ tc); [|discriminate]. rewrite El in E1. destruct (merge k l0); [|discriminate].
      apply Ok_inj_ in E1. subst w1. cbn [w_plans] in NP. apply Forall_app in NP as [NP _]. apply Forall_app in NP as [_ NP]. now inversion NP. }
    destruct (merge_inv d w w1 k tc HD I H3 Hincl Hne E1) as [I1 _]. exact (IH w1 w' I1 E2 NP). }
  destruct tc as [|[a b] [|c tc']]; [contradiction| |].
  - assert (a = k) as -> by (eapply H1; reflexivity). destruct k as [|k].
    + specialize (H2 eq_refl H0). cbn in H2. lia.
    + destruct (move_part w (S k) b) as [w1|] eqn:E1; [|discriminate].
      destruct (move_inv _ _ _ _ I E1) as [I1 _]. exact (IH w1 w' I1 H NP).
  - destruct (merge_parts merge d w k ((a, b) :: c :: tc')) as [w1|] eqn:E1; [|discriminate]. exact (Gm w1 eq_refl H).
Qed.
End Step.
