(** Facts about the pivot of a report. *)
From Coq Require Import List ZArith String Bool Arith Lia.
From Verif Require Import AMap Shape ShapeSpec ShapeFacts.
Import ListNotations.
Local Notation length := List.length.
Local Notation PRow := (list (option Cell) * option Cell * option Cell)%type.

Lemma upd_length {A} (l : list A) i x : length (upd l i x) = length l.
Proof. revert i; induction l; intros [|i]; cbn; auto. Qed.
Lemma nth_upd {A} (l : list A) i x d j : i < length l -> nth j (upd l i x) d = if Nat.eqb j i then x else nth j l d.
Proof.
  revert i j; induction l as [|y l IH]; intros [|i] [|j] H; cbn in *; try lia; try reflexivity.
  apply IH. lia.
Qed.
Lemma nth_repeat_ {A} (x : A) n i : nth i (repeat x n) x = x.
Proof. revert i; induction n; intros [|i]; cbn; auto. Qed.
Lemma nth_app_none (l : Arr) n i : nth i (l ++ repeat None n) None = nth i l None.
Proof.
  destruct (Nat.lt_ge_cases i (length l)); [now rewrite app_nth1|].
  rewrite app_nth2 by lia. rewrite nth_repeat_. symmetry. now apply nth_overflow.
Qed.
Lemma resize_length vs n : length (resize vs n) = n.
Proof. unfold resize. rewrite app_length, firstn_length, repeat_length. lia. Qed.
Lemma nth_resize vs n i : i < n -> nth i (resize vs n) None = nth i vs None.
Proof.
  intros H. unfold resize. rewrite nth_app_none.
  revert n i H; induction vs as [|v vs IH]; intros [|n] [|i] H; cbn; try lia; try reflexivity. apply IH. lia.
Qed.
Lemma nth_error_snoc {A} (l : list A) x i y : nth_error (l ++ [x]) i = Some y <->
  nth_error l i = Some y \/ (i = length l /\ y = x).
Proof.
  destruct (Nat.lt_total i (length l)) as [H|[H|H]].
  - rewrite nth_error_app1 by lia. split; [auto|]. intros [E|[E _]]; [exact E|lia].
  - subst i. rewrite nth_error_app2, Nat.sub_diag by lia. cbn. split.
    + intros [= <-]. auto.
    + intros [E|[_ ->]]; [|reflexivity]. assert (nth_error l (length l) = None) by now apply nth_error_None. congruence.
  - assert (nth_error (l ++ [x]) i = None) as ->.
    { apply nth_error_None. rewrite app_length. cbn. lia. }
    split; [discriminate|]. intros [E|[E _]]; [|lia].
    assert (nth_error l i = None) by (apply nth_error_None; lia). congruence.
Qed.

Section Run.
Variable show : Cell -> string.
Variable hash : list (option Cell) -> Z.
Variable buffer : nat.
Variable result_cols : list string.

Definition nm (n : option Cell) : string := match n with Some c => show c | None => ""%string end.
Definition grp (r : PRow) : list (option Cell) := fst (fst r).
Definition key_dec : forall a b : list (option Cell), {a = b} + {a <> b} := list_eq_dec ocell_dec.
Definition pick (g : list (option Cell)) (c : string) (acc : option Cell) (r : PRow) : option Cell :=
  if key_dec (grp r) g then if string_dec (nm (snd (fst r))) c then snd r else acc else acc.
Definition last_val (rs : list PRow) (g : list (option Cell)) (c : string) : option Cell := fold_left (pick g c) rs None.

Lemma last_snoc rs r g c : last_val (rs ++ [r]) g c = pick g c (last_val rs g c) r.
Proof. unfold last_val. now rewrite fold_left_app. Qed.
Lemma last_none rs g c : (forall r, In r rs -> grp r = g -> nm (snd (fst r)) <> c) -> last_val rs g c = None.
Proof.
  induction rs as [|r rs IH] using rev_ind; intros H; [reflexivity|].
  rewrite last_snoc. unfold pick. rewrite IH by (intros; apply H; auto; apply in_app_iff; auto).
  destruct (key_dec (grp r) g) as [E|]; [|reflexivity].
  destruct (string_dec (nm (snd (fst r))) c) as [E'|]; [|reflexivity].
  exfalso. apply (H r); auto. apply in_app_iff. right. now left.
Qed.
Lemma last_from rs g c v : last_val rs g c = Some v -> exists r, In r rs /\ grp r = g /\ nm (snd (fst r)) = c /\ snd r = Some v.
Proof.
  induction rs as [|r rs IH] using rev_ind; [discriminate|]. rewrite last_snoc. unfold pick.
  destruct (key_dec (grp r) g) as [E|]; [destruct (string_dec (nm (snd (fst r))) c) as [E'|]|]; intros H.
  - exists r. repeat split; auto. apply in_app_iff. right. now left.
  - destruct (IH H) as (r' & ? & ?). exists r'. split; [apply in_app_iff; now left|auto].
  - destruct (IH H) as (r' & ? & ?). exists r'. split; [apply in_app_iff; now left|auto].
Qed.
(** the only row of its group and name decides *)
Lemma last_unique a r b : (forall r', In r' (a ++ b) -> grp r' = grp r -> nm (snd (fst r')) <> nm (snd (fst r))) ->
  last_val (a ++ r :: b) (grp r) (nm (snd (fst r))) = snd r.
Proof.
  induction b as [|r' b IH] using rev_ind; intros H.
  - rewrite last_snoc. unfold pick. destruct (key_dec (grp r) (grp r)); [|congruence].
    destruct (string_dec _ _); [reflexivity|congruence].
  - rewrite app_comm_cons, app_assoc, last_snoc. unfold pick at 1. rewrite IH.
    + destruct (key_dec (grp r') (grp r)) as [E|]; [|reflexivity].
      destruct (string_dec (nm (snd (fst r'))) (nm (snd (fst r)))) as [E'|]; [|reflexivity].
      exfalso. apply (H r'); auto. rewrite !in_app_iff. right. right. now left.
    + intros x Hx. apply H. rewrite !in_app_iff in *. tauto.
Qed.

Variable U : list (option Cell) -> Prop.
Hypothesis Uinj : forall g g', U g -> U g' -> hash g = hash g' -> g = g'.

Record PInv (rs : list PRow) (st : PivotState) : Prop := mkPInv {
  pi_nd : NoDup (ps_groups st);
  pi_in : forall g, In g (ps_groups st) <-> In g (map grp rs);
  pi_map : forall g i, U g -> (aget Z.eq_dec (hash g) (ps_map st) = Some i <-> nth_error (ps_groups st) i = Some g);
  pi_cols : forall c, In c result_cols -> exists vs, aget string_dec c (ps_cols st) = Some vs /\ buffer <= length vs /\
              forall i, nth i vs None = match nth_error (ps_groups st) i with Some g => last_val rs g c | None => None end
}.

Lemma init_cols c : In c result_cols -> aget string_dec c (map (fun c => (c, repeat (@None Cell) buffer)) result_cols) = Some (repeat None buffer).
Proof.
  induction result_cols as [|x l IH]; cbn; [contradiction|]. intros [->|H].
  - destruct (string_dec c c); [reflexivity|congruence].
  - destruct (string_dec c x); [reflexivity|auto].
Qed.
Lemma init_inv : PInv [] (pivot_init buffer result_cols).
Proof.
  split.
  - constructor.
  - intros g; reflexivity.
  - intros g i _. cbn. destruct i; split; discriminate.
  - intros c Hc. exists (repeat None buffer). split; [now apply init_cols|]. split; [now rewrite repeat_length|].
    intros i. rewrite nth_repeat_. cbn. now destruct i.
Qed.

Lemma row_inv rs st g n v : PInv rs st -> (forall r, In r rs -> U (grp r)) -> U g -> In (nm n) result_cols ->
  0 < buffer -> (In g (ps_groups st) -> length (ps_groups st) <= 2 * buffer) ->
  (~ In g (ps_groups st) -> length (ps_groups st) < 2 * buffer) ->
  exists st', pivot_row show hash buffer st g n v = Some st' /\ PInv (rs ++ [(g, n, v)]) st' /\
    length (ps_groups st') <= 2 * buffer.
Proof.
  intros [ND IN MP CO] HU Ug Hn Hb B1 B2.
  set (idx := match aget Z.eq_dec (hash g) (ps_map st) with Some i => i | None => length (ps_groups st) end).
  set (m' := match aget Z.eq_dec (hash g) (ps_map st) with Some i => ps_map st
             | None => aset Z.eq_dec (hash g) (length (ps_groups st)) (ps_map st) end).
  set (gs' := match aget Z.eq_dec (hash g) (ps_map st) with Some i => ps_groups st | None => (ps_groups st ++ [g])%list end).
  assert (Eq : (match aget Z.eq_dec (hash g) (ps_map st) with
    | Some i => (i, ps_map st, ps_groups st)
    | None => let i := length (ps_groups st) in (i, aset Z.eq_dec (hash g) i (ps_map st), ps_groups st ++ [g])%list
    end) = (idx, m', gs')).
  { unfold idx, m', gs'. destruct (aget Z.eq_dec (hash g) (ps_map st)); reflexivity. }
  assert (Hidx : nth_error gs' idx = Some g).
  { unfold gs', idx. destruct (aget Z.eq_dec (hash g) (ps_map st)) as [i|] eqn:E.
    - now apply (MP g i Ug).
    - apply nth_error_snoc. auto. }
  assert (Hnew : aget Z.eq_dec (hash g) (ps_map st) = None -> ~ In g (ps_groups st)).
  { intros E Hg. apply In_nth_error in Hg as (i & Hi). apply (MP g i Ug) in Hi. congruence. }
  assert (HND : NoDup gs').
  { unfold gs'. destruct (aget Z.eq_dec (hash g) (ps_map st)) eqn:E; [exact ND|].
    apply NoDup_app_intro; [exact ND|constructor; [intros []|constructor]|].
    intros x Hx [<-|[]]. exact (Hnew eq_refl Hx). }
  assert (Hlen : length gs' <= 2 * buffer).
  { unfold gs'. destruct (aget Z.eq_dec (hash g) (ps_map st)) as [i|] eqn:E.
    - apply B1. apply (MP g i Ug) in E. eapply nth_error_In; eauto.
    - rewrite app_length. cbn. specialize (B2 (Hnew eq_refl)). lia. }
  assert (Hil : idx < 2 * buffer).
  { assert (idx < length gs') by (apply nth_error_Some; rewrite Hidx; discriminate). lia. }
  assert (Hgs : forall x, In x gs' <-> In x (map grp (rs ++ [(g, n, v)]))).
  { intros x. rewrite map_app, in_app_iff. cbn [map grp fst In]. unfold gs'.
    destruct (aget Z.eq_dec (hash g) (ps_map st)) as [i|] eqn:E.
    - rewrite IN. split; [auto|]. intros [H|[<-|[]]]; [exact H|].
      apply IN. apply (MP g i Ug) in E. eapply nth_error_In; eauto.
    - rewrite in_app_iff, IN. cbn. tauto. }
  assert (Hold : forall i x, i <> idx -> nth_error gs' i = Some x -> nth_error (ps_groups st) i = Some x /\ x <> g).
  { intros i x Hi E. split.
    - revert E. unfold gs', idx in *. destruct (aget Z.eq_dec (hash g) (ps_map st)); [auto|].
      intros E. apply nth_error_snoc in E as [E|[E _]]; [exact E|contradiction].
    - intros ->. apply Hi. eapply NoDup_nth_error; eauto.
      + apply nth_error_Some. rewrite E. discriminate.
      + now rewrite E, Hidx. }
  destruct (CO _ Hn) as (vs & Ev & Lv & Cv).
  set (vs1 := if Nat.ltb (length vs - 1) idx then (vs ++ repeat None buffer)%list else vs).
  assert (L1 : idx < length vs1 /\ buffer <= length vs1).
  { unfold vs1. destruct (Nat.ltb_spec (length vs - 1) idx); [rewrite app_length, repeat_length|]; lia. }
  assert (C1 : forall i, nth i vs1 None = nth i vs None).
  { intros i. unfold vs1. destruct (Nat.ltb (length vs - 1) idx); [apply nth_app_none|reflexivity]. }
  exists (mkPS m' gs' (aset string_dec (nm n) (upd vs1 idx v) (ps_cols st))).
  split; [|split; [|exact Hlen]].
  - unfold pivot_row. cbv zeta in Eq |- *. rewrite Eq. fold (nm n). rewrite Ev. fold vs1.
    destruct (Nat.ltb_spec idx (length vs1)); [reflexivity|lia].
  - split; cbn [ps_groups ps_map ps_cols].
    + exact HND.
    + exact Hgs.
    + intros x i Ux. unfold m', gs'. destruct (aget Z.eq_dec (hash g) (ps_map st)) as [i0|] eqn:E; [apply (MP x i Ux)|].
      rewrite aget_aset, nth_error_snoc. destruct (Z.eq_dec (hash x) (hash g)) as [Eh|Nh].
      * apply Uinj in Eh; auto. subst x. split.
        -- intros [= <-]. auto.
        -- intros [Hi|[-> _]]; [|reflexivity]. exfalso. apply (Hnew eq_refl). eapply nth_error_In; eauto.
      * rewrite (MP x i Ux). split; [auto|]. intros [Hi|[_ ->]]; [exact Hi|congruence].
    + intros c Hc. rewrite aget_aset. destruct (string_dec c (nm n)) as [->|Nc].
      * exists (upd vs1 idx v). split; [reflexivity|]. split; [rewrite upd_length; lia|].
        intros i. rewrite nth_upd by lia. destruct (Nat.eqb_spec i idx) as [->|Ni].
        -- rewrite Hidx, last_snoc. unfold pick. cbn [grp fst snd].
           destruct (key_dec g g); [|congruence]. destruct (string_dec (nm n) (nm n)); [reflexivity|congruence].
        -- rewrite C1, Cv. destruct (nth_error gs' i) as [x|] eqn:Ex.
           ++ destruct (Hold i x Ni Ex) as [-> Hx]. rewrite last_snoc. unfold pick. cbn [grp fst].
              destruct (key_dec g x); [congruence|reflexivity].
           ++ destruct (nth_error (ps_groups st) i) eqn:Eo; [|reflexivity]. exfalso.
              revert Ex. unfold gs'. destruct (aget Z.eq_dec (hash g) (ps_map st)); [congruence|].
              assert (nth_error (ps_groups st ++ [g]) i = Some l) by (apply nth_error_snoc; auto). congruence.
      * destruct (CO _ Hc) as (ws & Ew & Lw & Cw). exists ws. split; [exact Ew|]. split; [exact Lw|].
        intros i. rewrite Cw. destruct (nth_error gs' i) as [x|] eqn:Ex.
        -- rewrite last_snoc. unfold pick. cbn [grp fst snd].
           destruct (nth_error (ps_groups st) i) as [y|] eqn:Ey.
           ++ assert (y = x) as ->.
              { revert Ex. unfold gs'. destruct (aget Z.eq_dec (hash g) (ps_map st)); [congruence|].
                assert (nth_error (ps_groups st ++ [g]) i = Some y) by (apply nth_error_snoc; auto). congruence. }
              destruct (key_dec g x); [|reflexivity]. destruct (string_dec (nm n) c); [congruence|reflexivity].
           ++ assert (x = g /\ ~ In g (ps_groups st)) as [-> Hx].
              { revert Ex. unfold gs'. destruct (aget Z.eq_dec (hash g) (ps_map st)) eqn:E; [congruence|].
                intros Ex. apply nth_error_snoc in Ex as [Ex|[_ ->]]; [congruence|]. auto. }
              destruct (key_dec g g); [|congruence]. destruct (string_dec (nm n) c); [congruence|].
              symmetry. apply last_none. intros r Hr Hg. exfalso. apply Hx. apply IN. rewrite <- Hg. now apply in_map.
        -- destruct (nth_error (ps_groups st) i) as [y|] eqn:Ey; [|reflexivity]. exfalso.
           revert Ex. unfold gs'. destruct (aget Z.eq_dec (hash g) (ps_map st)); [congruence|].
           assert (nth_error (ps_groups st ++ [g]) i = Some y) by (apply nth_error_snoc; auto). congruence.
Qed.

Lemma rows_inv D : NoDup D -> length D <= 2 * buffer -> 0 < buffer -> forall rs2 rs1 st,
  PInv rs1 st -> (forall r, In r (rs1 ++ rs2) -> U (grp r) /\ In (grp r) D) ->
  (forall r, In r rs2 -> In (nm (snd (fst r))) result_cols) ->
  exists st', pivot_rows show hash buffer st rs2 = Some st' /\ PInv (rs1 ++ rs2) st'.
Proof.
  intros ND BD Hb. induction rs2 as [|[[g n] v] rs2 IH]; intros rs1 st I HU HN.
  - exists st. rewrite app_nil_r. auto.
  - destruct (row_inv rs1 st g n v I) as (st1 & E1 & I1 & _).
    + intros r Hr. apply HU. apply in_app_iff. now left.
    + apply (HU (g, n, v)). apply in_app_iff. right. now left.
    + apply (HN (g, n, v)). now left.
    + exact Hb.
    + intros Hg. enough (length (ps_groups st) <= length D) by lia. apply NoDup_incl_length; [apply I|].
      intros x Hx. apply (pi_in _ _ I) in Hx. apply in_map_iff in Hx as (r & <- & Hr). apply HU. apply in_app_iff. now left.
    + intros Hg. enough (length (g :: ps_groups st) <= length D) by (cbn in *; lia). apply NoDup_incl_length.
      * constructor; [exact Hg|apply I].
      * intros x [<-|Hx]; [apply (HU (g, n, v)); apply in_app_iff; right; now left|].
        apply (pi_in _ _ I) in Hx. apply in_map_iff in Hx as (r & <- & Hr). apply HU. apply in_app_iff. now left.
    + destruct (IH (rs1 ++ [(g, n, v)])%list st1 I1) as (st' & E' & I').
      * intros r Hr. apply HU. rewrite <- app_assoc in Hr. exact Hr.
      * intros r Hr. apply HN. now right.
      * exists st'. cbn [pivot_rows]. rewrite E1. split; [exact E'|]. rewrite <- app_assoc in I'. exact I'.
Qed.
End Run.

(** *** From tables to rows *)
Definition gpred (nc vc : string) (f : Field) : bool := negb (String.eqb (f_name f) nc || String.eqb (f_name f) vc).
Lemma gpred_spec nc vc f : gpred nc vc f = true <-> f_name f <> nc /\ f_name f <> vc.
Proof.
  unfold gpred. rewrite negb_true_iff, orb_false_iff, !String.eqb_neq. tauto.
Qed.
Lemma lookup_value b n c i : table b n ->
  nth i (match index_of (b_fields b) c with Some k => nth k (b_arrs b) [] | None => [] end) None = value_at b c i.
Proof.
  intros (_ & L & _). unfold value_at. revert L. generalize (b_arrs b). induction (b_fields b) as [|f fs IH]; intros [|a l] L; cbn in *; try discriminate; [now destruct i|].
  destruct (string_dec (f_name f) c) as [->|Hne].
  - now rewrite String.eqb_refl.
  - apply String.eqb_neq in Hne. rewrite Hne. rewrite <- (IH l) by lia. now destruct (index_of fs c).
Qed.
Lemma batch_rows_eq nc vc b n : table b n ->
  batch_rows nc vc b = map (fun i => (group_values nc vc b i, value_at b nc i, value_at b vc i)) (seq 0 n).
Proof.
  intros T. unfold batch_rows. rewrite (table_rows _ _ T). apply map_ext. intros i.
  f_equal; [f_equal|]; try (now rewrite (lookup_value b n)).
  unfold row, group_values. now rewrite map_map.
Qed.
Lemma value_shows b n c i : table b n -> In c (map f_name (b_fields b)) -> i < n -> shows b c i (value_at b c i).
Proof.
  intros T Hc Hi. destruct (shows_ex _ _ _ _ T Hc Hi) as (v & f & a & H & E & X). unfold value_at.
  destruct (find _ _) as [fa|] eqn:F.
  - apply find_some in F as [F1 F2]. apply String.eqb_eq in F2.
    assert (Q : fa = (f, a)).
    { destruct fa as [f' a']. symmetry. eapply table_inj; eauto. cbn in F2. congruence. }
    subst fa. exists f, a. cbn [snd]. split; [exact H|]. split; [exact E|]. now rewrite (nth_error_nth_ _ _ _ _ X).
  - exfalso. pose proof (find_none _ _ F _ H) as N. cbn in N. apply String.eqb_neq in N. contradiction.
Qed.
Lemma shows_value b n c i v : table b n -> shows b c i v -> value_at b c i = v.
Proof.
  intros T H. eapply shows_fun; eauto. apply (value_shows b n); [exact T|eapply shows_name; eauto|eapply shows_lt; eauto].
Qed.
Lemma gfields b n nc vc : table b n ->
  map fst (filter (fun fa : Field * Arr => gpred nc vc (fst fa)) (combine (b_fields b) (b_arrs b))) = filter (gpred nc vc) (b_fields b).
Proof. intros T. symmetry. apply filter_fst. apply T. Qed.
(** position of a group column *)
Lemma group_pos b n nc vc c i v : table b n -> c <> nc -> c <> vc -> shows b c i v ->
  exists p f, nth_error (filter (gpred nc vc) (b_fields b)) p = Some f /\ f_name f = c /\
    nth p (group_values nc vc b i) None = v /\ p < length (group_values nc vc b i).
Proof.
  intros T N1 N2 (f & a & H & E & X).
  assert (Hf : In (f, a) (filter (fun fa : Field * Arr => gpred nc vc (fst fa)) (combine (b_fields b) (b_arrs b)))).
  { apply filter_In. split; [exact H|]. apply gpred_spec. cbn. subst c. auto. }
  apply In_nth_error in Hf as (p & Hp). exists p, f. split; [|split; [exact E|split]].
  - rewrite <- (gfields b n nc vc T). now apply (map_nth_error fst) in Hp.
  - apply nth_error_nth_. unfold group_values.
    erewrite map_nth_error by exact Hp. cbn. f_equal. now apply nth_error_nth_.
  - unfold group_values. rewrite map_length. apply nth_error_Some. unfold gpred in Hp. rewrite Hp. discriminate.
Qed.
Lemma group_len b n nc vc i : table b n -> length (group_values nc vc b i) = length (filter (gpred nc vc) (b_fields b)).
Proof. intros T. unfold group_values. rewrite map_length, <- (gfields b n nc vc T), map_length. reflexivity. Qed.
Lemma group_at b n nc vc p f i : table b n -> i < n -> nth_error (filter (gpred nc vc) (b_fields b)) p = Some f ->
  shows b (f_name f) i (nth p (group_values nc vc b i) None).
Proof.
  intros T Hi H. rewrite <- (gfields b n nc vc T) in H.
  set (l := filter (fun fa : Field * Arr => gpred nc vc (fst fa)) (combine (b_fields b) (b_arrs b))) in *.
  destruct (nth_error l p) as [[f' a]|] eqn:E.
  - rewrite (map_nth_error fst _ _ E) in H. cbn in H. injection H as <-.
    exists f', a. split; [|split; [reflexivity|]].
    + apply nth_error_In in E. apply filter_In in E. tauto.
    + unfold group_values. fold (gpred nc vc). change (filter _ _) with l.
      erewrite nth_error_nth_ by (apply map_nth_error; exact E). cbn.
      apply nth_error_of_nth. apply nth_error_In in E. apply filter_In in E as [E _]. now rewrite (table_col _ _ _ _ T E).
  - apply nth_error_None in E. assert (nth_error (map fst l) p = None) by (apply nth_error_None; rewrite map_length; lia). congruence.
Qed.

Lemma in_combine_at {A B} (l : list A) (l' : list B) p x y : nth_error l p = Some x -> nth_error l' p = Some y -> In (x, y) (combine l l').
Proof.
  revert l' p; induction l as [|a l IH]; intros [|c l'] [|p] Hp Ha; cbn in *; try discriminate; [left; congruence|right; eauto].
Qed.
Lemma diff_at (g g' : list (option Cell)) m : g <> g' -> length g = m -> length g' = m ->
  exists p, p < m /\ nth p g None <> nth p g' None.
Proof.
  revert g' m; induction g as [|x g IH]; intros [|y g'] m N L1 L2; cbn in *; try lia; [congruence|].
  destruct m as [|m]; [discriminate|]. destruct (ocell_dec x y) as [->|Nx].
  - destruct (IH g' m) as (p & Hp & Hd); [congruence|lia|lia|]. exists (S p). split; [lia|exact Hd].
  - exists 0. split; [lia|exact Nx].
Qed.
Section Pivot.
Variable show : Cell -> string.
Variable hash : list (option Cell) -> Z.
Variable buffer : nat.
Variables (fs : list Field) (nc vc : string) (result_cols : list string) (bs : list Batch).
Local Notation text := (nm show).
Hypothesis Hb : 0 < buffer.
Hypothesis Hnc : In nc (map f_name fs).
Hypothesis Hvc : In vc (map f_name fs).
Hypothesis Hbs : forall b, In b bs -> b_fields b = fs /\ exists n, table b n.
Hypothesis Hres : NoDup result_cols.
Hypothesis Hdis : forall c, In c result_cols -> In c (map f_name fs) -> c = nc \/ c = vc.
Hypothesis Htimes : forall b i v, In b bs -> shows b nc i v -> In (text v) result_cols.
Hypothesis Hhash : forall g n g' n', In (g, n) (row_keys nc vc bs) -> In (g', n') (row_keys nc vc bs) -> hash g = hash g' -> g = g'.
Variable D : list (list (option Cell)).
Hypothesis HD : length D <= 2 * buffer.
Hypothesis Hin : forall g n, In (g, n) (row_keys nc vc bs) -> In g D.
Hypothesis Huniq : NoDup (map (fun r => (fst r, text (snd r))) (row_keys nc vc bs)).

Let rows := flat_map (batch_rows nc vc) bs.
Lemma rows_eq : rows = flat_map (fun b => map (fun i => (group_values nc vc b i, value_at b nc i, value_at b vc i)) (seq 0 (num_rows b))) bs.
Proof.
  unfold rows. clear - Hbs. induction bs as [|b l IH]; cbn; [reflexivity|]. rewrite IH by (intros; apply Hbs; now right).
  destruct (Hbs b (or_introl eq_refl)) as (_ & n & T). rewrite (batch_rows_eq _ _ _ _ T), (table_rows _ _ T). reflexivity.
Qed.
Lemma rows_keys : map fst rows = row_keys nc vc bs.
Proof.
  rewrite rows_eq. unfold row_keys. clear. induction bs as [|b l IH]; cbn; [reflexivity|].
  now rewrite map_app, IH, map_map.
Qed.
Lemma in_rows r : In r rows <-> exists b i, In b bs /\ i < num_rows b /\ r = (group_values nc vc b i, value_at b nc i, value_at b vc i).
Proof.
  rewrite rows_eq, in_flat_map. split.
  - intros (b & H & H'). apply in_map_iff in H' as (i & <- & Hi). apply in_seq in Hi. exists b, i. repeat split; auto. lia.
  - intros (b & i & H & Hi & ->). exists b. split; [exact H|]. apply in_map_iff. exists i. split; [reflexivity|]. apply in_seq. lia.
Qed.
Lemma in_keys r : In r rows -> In (grp r, snd (fst r)) (row_keys nc vc bs).
Proof. intros H. rewrite <- rows_keys. apply (in_map fst) in H. destruct r as [[g n] v]. exact H. Qed.
Lemma row_table b : In b bs -> table b (num_rows b) /\ b_fields b = fs.
Proof. intros H. destruct (Hbs b H) as (E & n & T). rewrite (table_rows _ _ T). auto. Qed.

Lemma pivot_state : exists st, pivot_rows show hash buffer (pivot_init buffer result_cols) rows = Some st /\
  PInv show hash buffer result_cols (fun g => exists n, In (g, n) (row_keys nc vc bs)) rows st.
Proof.
  destruct (rows_inv show hash buffer result_cols (fun g => exists n, In (g, n) (row_keys nc vc bs)))
    with (D := nodup key_dec D) (rs2 := rows) (rs1 := @nil PRow) (st := pivot_init buffer result_cols) as (st & E & I); auto.
  - intros g g' (n & H) (n' & H'). eauto.
  - apply NoDup_nodup.
  - enough (length (nodup key_dec D) <= length D) by lia. apply NoDup_incl_length; [apply NoDup_nodup|].
    intros x Hx. now apply nodup_In in Hx.
  - apply init_inv.
  - cbn [app]. intros r Hr. apply in_keys in Hr. split; [eauto|]. apply nodup_In. eauto.
  - intros r Hr. apply in_rows in Hr as (b & i & H & Hi & ->). cbn [fst snd].
    destruct (row_table b H) as [T Ef]. eapply Htimes; [exact H|]. apply (value_shows b (num_rows b)); auto. now rewrite Ef.
  - exists st. auto.
Qed.

Let GF := filter (gpred nc vc) fs.
Lemma finish_ok st : PInv show hash buffer result_cols (fun g => exists n, In (g, n) (row_keys nc vc bs)) rows st ->
  ps_groups st <> [] ->
  let N := length (ps_groups st) in
  exists out, finish (pivot_fields fs nc vc result_cols) (length GF) result_cols st = Some out /\ table out N /\
    (forall p f j g, nth_error GF p = Some f -> nth_error (ps_groups st) j = Some g -> shows out (f_name f) j (nth p g None)) /\
    (forall c j g, In c result_cols -> nth_error (ps_groups st) j = Some g -> shows out c j (last_val show rows g c)).
Proof.
  intros I HG N.
  set (GA := map (fun j => map (fun g => nth j g None) (ps_groups st)) (seq 0 (length GF))).
  assert (HR : exists ras, Forall2 (fun c ra => option_map (fun vs => resize vs N) (aget string_dec c (ps_cols st)) = Some ra) result_cols ras).
  { apply Forall2_build. intros c Hc. destruct (pi_cols _ _ _ _ _ _ _ I c Hc) as (vs & E & _). exists (resize vs N). now rewrite E. }
  destruct HR as (RA & HR).
  assert (Hrl : length RA = length result_cols) by (clear - HR; induction HR; cbn; congruence).
  set (ty := match index_of fs vc with Some i => f_ty (nth i fs (mkField "" TOther true)) | None => TOther end).
  set (RF := map (fun c => mkField c ty true) result_cols).
  assert (EF : pivot_fields fs nc vc result_cols = (GF ++ RF)%list) by reflexivity.
  assert (Hgl : length GF = length GA) by (unfold GA; now rewrite map_length, seq_length).
  assert (EC : combine (GF ++ RF) (GA ++ RA) = (combine GF GA ++ combine RF RA)%list) by now apply combine_app_.
  assert (Hga : forall p f, nth_error GF p = Some f -> nth_error GA p = Some (map (fun g => nth p g None) (ps_groups st))).
  { intros p f Hp. unfold GA. assert (p < length GF) by (apply nth_error_Some; congruence).
    erewrite map_nth_error by (apply nth_error_seq_; eassumption). reflexivity. }
  assert (Hcg : forall f a, In (f, a) (combine GF GA) -> exists p, nth_error GF p = Some f /\ a = map (fun g => nth p g None) (ps_groups st)).
  { intros f a H. apply In_nth_error in H as (p & Hp). exists p.
    assert (E1 : nth_error GF p = Some f) by (rewrite <- (combine_fst GF GA Hgl); now apply (map_nth_error fst) in Hp).
    split; [exact E1|]. apply Hga in E1. rewrite <- (combine_snd GF GA Hgl) in E1. rewrite (map_nth_error snd _ _ Hp) in E1.
    cbn in E1. congruence. }
  assert (Hgrow : forall g, In g (ps_groups st) -> exists b i, In b bs /\ i < num_rows b /\ g = group_values nc vc b i).
  { intros g Hg. apply (pi_in _ _ _ _ _ _ _ I) in Hg. apply in_map_iff in Hg as (r & <- & Hr).
    apply in_rows in Hr as (b & i & H & Hi & ->). exists b, i. auto. }
  assert (Hgshow : forall p f g, nth_error GF p = Some f -> In g (ps_groups st) ->
            exists b i, In b bs /\ shows b (f_name f) i (nth p g None)).
  { intros p f g Hp Hg. apply Hgrow in Hg as (b & i & H & Hi & ->). destruct (row_table b H) as [T Ef].
    exists b, i. split; [exact H|]. apply (group_at b (num_rows b)); auto. now rewrite Ef. }
  assert (Hfs : NoDup (map f_name fs)).
  { assert (exists g0, In g0 (ps_groups st)) as (g0 & Hg0) by (destruct (ps_groups st) as [|g0 ?]; [congruence|exists g0; now left]).
    destruct (Hgrow g0 Hg0) as (b & i & H & _). destruct (row_table b H) as [T Ef]. rewrite <- Ef. apply T. }
  assert (TN : try_new (GF ++ RF) (GA ++ RA) = Some (mkBatch (GF ++ RF) (GA ++ RA)) /\ table (mkBatch (GF ++ RF) (GA ++ RA)) N).
  { apply try_new_table.
    - intros E. apply app_eq_nil in E as [E1 E2].
      destruct (ps_groups st) as [|g0 gr] eqn:Eg; [congruence|].
      assert (Hc0 : result_cols <> []).
      { intros E0. destruct (Hgrow g0 (or_introl eq_refl)) as (b & i & H & Hi & _). destruct (row_table b H) as [T Ef].
        destruct (shows_ex b _ nc i T) as (v & Hv); [now rewrite Ef|exact Hi|].
        specialize (Htimes _ _ _ H Hv). rewrite E0 in Htimes. exact Htimes. }
      subst RA. destruct result_cols; [congruence|discriminate].
    - rewrite !app_length. unfold RF. rewrite map_length. lia.
    - apply Forall_app. split.
      + unfold GA. apply Forall_forall. intros x Hx. apply in_map_iff in Hx as (j & <- & _). now rewrite map_length.
      + clear - HR. induction HR as [|c ra l l' H _ IH]; constructor; auto.
        destruct (aget string_dec c (ps_cols st)); [|discriminate]. injection H as <-. apply resize_length.
    - rewrite map_app. apply NoDup_app_intro.
      + unfold GF. now apply NoDup_map_filter.
      + unfold RF. rewrite map_map. cbn. now rewrite map_id.
      + intros x Hx Hx'. unfold RF in Hx'. rewrite map_map in Hx'. cbn in Hx'. rewrite map_id in Hx'.
        apply in_map_iff in Hx as (f & <- & Hf). unfold GF in Hf. apply filter_In in Hf as [Hf G]. apply gpred_spec in G.
        destruct (Hdis _ Hx' (in_map f_name _ _ Hf)); tauto.
    - rewrite EC. intros f a H Ef Hx. apply in_app_iff in H as [H|H].
      + apply Hcg in H as (p & Hp & ->). apply in_map_iff in Hx as (g & E & Hg).
        destruct (Hgshow p f g Hp Hg) as (b & i & H & (f' & a' & H' & E' & X')).
        destruct (row_table b H) as [T Ef'].
        assert (f' = f).
        { assert (Hff : In f (b_fields b)) by (rewrite Ef'; apply nth_error_In in Hp; unfold GF in Hp; apply filter_In in Hp; tauto).
          destruct (in_combine_ex _ (b_arrs b) _ (proj1 (proj2 T)) Hff) as (a2 & Ha2).
          assert (Q : (f', a') = (f, a2)) by (eapply table_inj; eauto). congruence. }
        subst f'. rewrite E in X'. destruct T as (_ & _ & _ & _ & Z0). exact (Z0 _ _ H' Ef (nth_error_In _ _ X')).
      + apply in_combine_l in H. unfold RF in H. apply in_map_iff in H as (c & <- & _). discriminate. }
  exists (mkBatch (GF ++ RF) (GA ++ RA)). split; [|split; [exact (proj2 TN)|split]].
  - unfold finish. rewrite EF. fold N. erewrite mapO_Forall2 by exact HR. exact (proj1 TN).
  - intros p f j g Hp Hj. exists f, (map (fun g => nth p g None) (ps_groups st)). cbn [b_fields b_arrs]. rewrite EC.
    split; [|split; [reflexivity|]].
    + apply in_app_iff. left. exact (in_combine_at _ _ _ _ _ Hp (Hga _ _ Hp)).
    + exact (map_nth_error (fun g => nth p g None) _ _ Hj).
  - intros c j g Hc Hj.
    assert (exists ra, In (mkField c ty true, ra) (combine RF RA) /\ nth_error ra j = Some (last_val show rows g c)) as (ra & Hra & Hj').
    { destruct (pi_cols _ _ _ _ _ _ _ I c Hc) as (vs & E & _ & Cv).
      exists (resize vs N). split.
      - unfold RF. clear - HR Hc E. induction HR as [|c' ra l l' H _ IH]; [contradiction|]. cbn. destruct Hc as [->|Hc]; [|right; auto].
        left. rewrite E in H. cbn in H. congruence.
      - assert (Hj2 : j < N) by (apply nth_error_Some; rewrite Hj; discriminate).
        erewrite nth_error_of_nth with (d := None) by (now rewrite resize_length).
        rewrite nth_resize by exact Hj2. now rewrite Cv, Hj. }
    exists (mkField c ty true), ra. cbn [b_fields b_arrs]. rewrite EC. split; [|split; [reflexivity|exact Hj']].
    apply in_app_iff. now right.
Qed.

Lemma key_same b i b' i' : In b bs -> In b' bs -> i < num_rows b -> i' < num_rows b' ->
  group_values nc vc b i = group_values nc vc b' i' -> same_group nc vc b i b' i'.
Proof.
  intros H H' Hi Hi' E c v N1 N2 Hs. destruct (row_table b H) as [T Ef], (row_table b' H') as [T' Ef'].
  destruct (group_pos _ _ nc vc _ _ _ T N1 N2 Hs) as (p & f & Hp & <- & <- & _). rewrite E.
  apply (group_at b' (num_rows b')); auto. now rewrite Ef', <- Ef.
Qed.

Lemma pivot_main : exists outs, pivot show hash buffer fs nc vc result_cols bs = Some outs /\ length outs <= 1 /\
  Forall (fun out => exists n, table out n) outs /\
  (forall b i, In b bs -> i < num_rows b -> exists out j, In out outs /\ j < num_rows out /\ same_group nc vc b i out j /\
     shows out (text (value_at b nc i)) j (value_at b vc i)) /\
  (forall out j, In out outs -> j < num_rows out -> exists b i, In b bs /\ i < num_rows b /\ same_group nc vc b i out j /\
     forall c v, In c result_cols -> shows out c j (Some v) ->
       exists b' i', In b' bs /\ i' < num_rows b' /\ same_group nc vc b' i' out j /\ text (value_at b' nc i') = c /\ value_at b' vc i' = Some v) /\
  (forall out j j', In out outs -> j < num_rows out -> j' < num_rows out -> j <> j' ->
     exists c v v', c <> nc /\ c <> vc /\ In c (map f_name fs) /\ shows out c j v /\ shows out c j' v' /\ v <> v').
Proof.
  destruct pivot_state as (st & E & I). unfold pivot. fold rows. rewrite E. fold (gpred nc vc).
  change (filter (fun f => negb (String.eqb (f_name f) nc || String.eqb (f_name f) vc)) fs) with GF.
  destruct (ps_groups st) as [|g0 gr] eqn:Eg.
  - exists []. split; [reflexivity|]. split; [cbn; lia|]. split; [constructor|]. split; [|split; [intros ? ? []|intros ? ? ? []]].
    intros b i H Hi. exfalso. assert (Hx : In (group_values nc vc b i) (ps_groups st)).
      { apply (pi_in _ _ _ _ _ _ _ I). apply in_map_iff.
        exists (group_values nc vc b i, value_at b nc i, value_at b vc i). split; [reflexivity|]. apply in_rows. eauto. }
      rewrite Eg in Hx. exact Hx.
  - assert (HG : ps_groups st <> []) by (rewrite Eg; discriminate). clear g0 gr Eg.
    destruct (finish_ok st I HG) as (out & Ef & T & S1 & S2). fold GF. rewrite Ef.
    exists [out]. split; [reflexivity|]. split; [cbn; lia|]. split; [constructor; eauto|].
    pose proof (table_rows _ _ T) as Nr.
    assert (P1 : forall b i j, In b bs -> i < num_rows b -> nth_error (ps_groups st) j = Some (group_values nc vc b i) ->
               same_group nc vc b i out j).
    { intros b i j H Hi Hj c v N1 N2 Hs. destruct (row_table b H) as [Tb Fb].
      destruct (group_pos _ _ nc vc _ _ _ Tb N1 N2 Hs) as (p & f & Hp & <- & <- & _).
      rewrite Fb in Hp. exact (S1 p f j _ Hp Hj). }
    split; [|split].
    + intros b i H Hi.
      assert (Hr : In (group_values nc vc b i, value_at b nc i, value_at b vc i) rows) by (apply in_rows; eauto).
      assert (Hx : In (group_values nc vc b i) (ps_groups st)).
      { apply (pi_in _ _ _ _ _ _ _ I). apply in_map_iff. eexists. split; [|exact Hr]. reflexivity. }
      apply In_nth_error in Hx as (j & Hj). exists out, j. split; [now left|]. split; [rewrite Nr; apply nth_error_Some; congruence|].
      split; [eauto|].
      destruct (row_table b H) as [Tb Fb].
      assert (Hc : In (text (value_at b nc i)) result_cols).
      { eapply Htimes; [exact H|]. apply (value_shows b (num_rows b)); auto. now rewrite Fb. }
      pose proof (S2 _ j _ Hc Hj) as Hs.
      apply in_split in Hr as (x & y & Hr). rewrite Hr in Hs.
      pose proof (last_unique show x (group_values nc vc b i, value_at b nc i, value_at b vc i) y) as LU.
      cbn [grp fst snd] in LU. rewrite LU in Hs; [exact Hs|].
      intros r' Hr' Eg En. pose proof Huniq as NU. rewrite <- rows_keys, Hr, map_map, map_app in NU. cbn [map fst snd] in NU.
      apply NoDup_remove_2 in NU. apply NU. rewrite <- map_app. apply in_map_iff. exists r'.
      split; [|exact Hr']. destruct r' as [[g' n'] v']. cbn in *. congruence.
    + intros o j [<-|[]] Hj. rewrite Nr in Hj. destruct (nth_error (ps_groups st) j) as [g|] eqn:Ej.
      2:{ apply nth_error_None in Ej. lia. }
      assert (Hg : exists b i, In b bs /\ i < num_rows b /\ g = group_values nc vc b i).
      { apply nth_error_In in Ej. apply (pi_in _ _ _ _ _ _ _ I) in Ej. apply in_map_iff in Ej as (r & <- & Hr).
        apply in_rows in Hr as (b & i & H & Hi & ->). exists b, i. auto. }
      destruct Hg as (b & i & H & Hi & ->). exists b, i. split; [exact H|]. split; [exact Hi|]. split; [eauto|].
      intros c v Hc Hv. pose proof (S2 c j _ Hc Ej) as Hs.
      assert (El : last_val show rows (group_values nc vc b i) c = Some v) by (eapply shows_fun; eauto).
      apply last_from in El as (r & Hr & Eg & En & Ev). apply in_rows in Hr as (b' & i' & H' & Hi' & ->). cbn in *.
      exists b', i'. split; [exact H'|]. split; [exact Hi'|]. split; [|auto]. apply P1; auto. now rewrite Eg.
    + intros o j j' [<-|[]] Hj Hj' Hne. rewrite Nr in Hj, Hj'.
      destruct (nth_error (ps_groups st) j) as [g|] eqn:Ej; [|apply nth_error_None in Ej; lia].
      destruct (nth_error (ps_groups st) j') as [g'|] eqn:Ej'; [|apply nth_error_None in Ej'; lia].
      assert (Hgg : g <> g').
      { intros ->. apply Hne. eapply NoDup_nth_error; [apply I|apply nth_error_Some; congruence|congruence]. }
      assert (Lg : forall x, In x (ps_groups st) -> length x = length GF).
      { intros x Hx. apply (pi_in _ _ _ _ _ _ _ I) in Hx. apply in_map_iff in Hx as (r & <- & Hr).
        apply in_rows in Hr as (b & i & H & Hi & ->). destruct (row_table b H) as [Tb Fb]. cbn.
        rewrite (group_len b _ nc vc i Tb), Fb. reflexivity. }
      pose proof (Lg g (nth_error_In _ _ Ej)) as L1. pose proof (Lg g' (nth_error_In _ _ Ej')) as L2.
      assert (exists p, p < length GF /\ nth p g None <> nth p g' None) as (p & Hp & Hd).
      { exact (diff_at _ _ _ Hgg L1 L2). }
      destruct (nth_error GF p) as [f|] eqn:Ep; [|apply nth_error_None in Ep; lia].
      assert (HF : In f fs /\ gpred nc vc f = true) by (apply nth_error_In in Ep; unfold GF in Ep; now apply filter_In in Ep).
      destruct HF as [HF HP]. apply gpred_spec in HP as [N1 N2].
      exists (f_name f), (nth p g None), (nth p g' None). repeat split; auto. now apply in_map.
Qed.
End Pivot.
