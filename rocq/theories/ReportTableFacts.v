(** Facts about the table of an event report (model: [ReportTable]). *)
From Coq Require Import List ZArith NArith String Bool Arith Lia.
From Verif Require Import Kv KvKeysFacts Shape ShapeSpec ShapeFacts ShapePivot ShapeRows ReportTable ReportTableSpec.
Import ListNotations.
Local Open Scope string_scope.
Local Notation length := List.length.

(** ** Titles *)
Definition paired (ps : list (string * string)) : list (string * string) :=
  map (fun k => (fst (nth k ps ("", "")), title ps k)) (seq 0 (length ps)).
Lemma paired_fst ps : map fst (paired ps) = map fst ps.
Proof.
  unfold paired. rewrite map_map. cbn [fst]. change (fun x => fst (nth x ps ("", ""))) with (fun x => (fun p => fst (nth p ps ("", ""))) x).
  rewrite <- (map_map (fun k => nth k ps ("", "")) fst). f_equal.
  assert (X : forall (l pre : list (string * string)) d, map (fun k => nth k (pre ++ l)%list d) (seq (length pre) (length l)) = l).
  { induction l as [|x l IH]; intros pre d; cbn; [reflexivity|]. f_equal.
    - rewrite app_nth2, Nat.sub_diag by lia. reflexivity.
    - specialize (IH (pre ++ [x])%list d). rewrite <- app_assoc, app_length in IH. cbn in IH.
      replace (length pre + 1) with (S (length pre)) in IH by lia. exact IH. }
  exact (X ps [] ("", "")).
Qed.
Lemma paired_snoc ps p : paired (ps ++ [p]) = (paired ps ++
  [(fst p, let found := count_occ string_dec (map snd ps) (snd p) in if Nat.eqb found 0 then snd p else numbered (snd p) (found + 1))])%list.
Proof.
  unfold paired. rewrite app_length. cbn [length]. rewrite seq_app, map_app. cbn [seq map Nat.add]. f_equal.
  - apply map_ext_in. intros k Hk. apply in_seq in Hk. unfold title. rewrite app_nth1 by lia. rewrite firstn_app.
    replace (k - length ps) with 0 by lia. cbn [firstn]. rewrite app_nil_r. reflexivity.
  - unfold title. rewrite app_nth2, Nat.sub_diag by lia. cbn [nth].
    rewrite firstn_app, Nat.sub_diag, firstn_all. cbn [firstn]. rewrite app_nil_r.
    destruct (count_occ string_dec (map snd ps) (snd p)) as [|n]; [reflexivity|]. cbn [Nat.eqb]. unfold numbered.
    replace (S n + 1) with (S (S n)) by lia. reflexivity.
Qed.
Definition base := ["event"; "segment"].
Lemma once_ext props : forall s s', (forall x, In x s <-> In x s') -> once s props = once s' props.
Proof.
  induction props as [|p tl IH]; intros s s' E; cbn [once]; [reflexivity|].
  destruct (in_dec string_dec (fst p) s) as [H|H], (in_dec string_dec (fst p) s') as [H'|H'].
  - now apply IH.
  - exfalso. apply H', E, H.
  - exfalso. apply H, E, H'.
  - f_equal. apply IH. intros x. cbn. rewrite E. reflexivity.
Qed.
Lemma loop_titles props : forall ps,
  fold_left title_step props ((base ++ map fst ps)%list, map snd ps, ([("event", "Event"); ("segment", "Segment")] ++ paired ps)%list) =
  let qs := (ps ++ once (base ++ map fst ps) props)%list in
  ((base ++ map fst qs)%list, map snd qs, ([("event", "Event"); ("segment", "Segment")] ++ paired qs)%list).
Proof.
  induction props as [|p tl IH]; intros ps; cbn [fold_left once].
  - cbn zeta. rewrite app_nil_r. reflexivity.
  - unfold title_step at 2. unfold mem.
    destruct (in_dec string_dec (fst p) (base ++ map fst ps)) as [H|H]; [apply IH|].
    specialize (IH (ps ++ [p])%list).
    assert (E1 : once (base ++ map fst (ps ++ [p])) tl = once (fst p :: base ++ map fst ps) tl).
    { apply once_ext. intros x. rewrite map_app, !in_app_iff. cbn [In map]. rewrite ?in_app_iff. tauto. }
    rewrite E1 in IH. cbn zeta in IH |- *. rewrite <- app_assoc in IH. change ([p] ++ once (fst p :: base ++ map fst ps) tl)%list with (p :: once (fst p :: base ++ map fst ps) tl) in IH. rewrite <- IH. f_equal.
    rewrite paired_snoc, !map_app. cbn [map]. rewrite !app_assoc. reflexivity.
Qed.
Lemma titles_spec props : titles props = (map fst (headings props), headings props).
Proof.
  unfold titles. pose proof (loop_titles props []) as E. cbn [map app] in E. rewrite !app_nil_r in E. unfold paired at 1 in E.
  cbn [length seq map] in E. unfold base in E. cbn [app] in E. rewrite E. cbn zeta. unfold headings, broken_down. fold (paired (once ["event"; "segment"] props)).
  cbn [map app fst]. rewrite map_app, paired_fst. cbn [map fst]. reflexivity.
Qed.
Lemma once_seen props : forall seen c, In c (map fst (once seen props)) -> ~ In c seen.
Proof.
  induction props as [|p tl IH]; intros seen c; cbn [once]; [contradiction|].
  destruct (in_dec string_dec (fst p) seen) as [H|H]; [apply IH|].
  cbn [map]. intros [<-|K]; [exact H|]. apply IH in K. intros X. apply K. now right.
Qed.
Lemma once_nodup props : forall seen, NoDup (map fst (once seen props)).
Proof.
  induction props as [|p tl IH]; intros seen; cbn [once]; [constructor|].
  destruct (in_dec string_dec (fst p) seen) as [H|H]; [apply IH|].
  cbn [map]. constructor; [|apply IH]. intros K. apply once_seen in K. apply K. now left.
Qed.
Lemma headings_fst props : map fst (headings props) = (base ++ map fst (broken_down props) ++ ["agg_name"])%list.
Proof. unfold headings. cbn [map app fst]. rewrite map_app. fold (paired (broken_down props)). rewrite paired_fst. reflexivity. Qed.
Lemma headings_nodup props : ~ In "agg_name" (map fst (broken_down props)) -> NoDup (map fst (headings props)).
Proof.
  intros Hn. rewrite headings_fst. unfold base. apply NoDup_app_intro.
  - repeat constructor; cbn; intuition discriminate.
  - apply NoDup_app_intro; [apply once_nodup|repeat constructor; intros []|]. intros x Hx [<-|[]]. auto.
  - intros x Hx Hy. apply in_app_iff in Hy as [Hy|[<-|[]]].
    + apply once_seen in Hy. auto.
    + cbn in Hx. intuition discriminate.
Qed.

(** ** Schemas *)
Lemma merge_field_in acc f : NoDup (map f_name acc) -> In f acc -> merge_field acc f = Some acc.
Proof.
  induction acc as [|g tl IH]; cbn [merge_field map]; [contradiction|]. intros D H. inversion D as [|? ? D1 D2]; subst.
  destruct (string_dec (f_name g) (f_name f)) as [E|E].
  - destruct H as [->|H]; [|exfalso; apply D1; rewrite E; now apply in_map].
    rewrite (proj2 (ty_eqb_spec _ _) eq_refl), orb_diag. destruct f; reflexivity.
  - destruct H as [->|H]; [congruence|]. rewrite (IH D2 H). reflexivity.
Qed.
Lemma merge_field_new acc f : ~ In (f_name f) (map f_name acc) -> merge_field acc f = Some (acc ++ [f])%list.
Proof.
  induction acc as [|g tl IH]; cbn [merge_field map]; [reflexivity|]. intros H.
  destruct (string_dec (f_name g) (f_name f)) as [E|E]; [exfalso; apply H; left; exact E|].
  rewrite IH; [reflexivity|]. intros K. apply H. now right.
Qed.
Lemma NoDup_app_parts {A} (a b : list A) : NoDup (a ++ b) -> NoDup a /\ NoDup b.
Proof.
  induction a as [|x a IH]; cbn; [split; [constructor|assumption]|]. intros H. inversion H as [|? ? H1 H2]; subst.
  destruct (IH H2) as [P Q]. split; [|exact Q]. constructor; [|exact P]. intros K. apply H1. apply in_app_iff. now left.
Qed.
Lemma logical_merge_nodup acc fs : NoDup (map f_name acc) -> NoDup (map f_name fs) -> NoDup (map f_name (logical_merge acc fs)).
Proof.
  intros D1 D2. unfold logical_merge. rewrite map_app. apply NoDup_app_intro; [exact D1|now apply NoDup_map_filter|].
  intros x Hx Hy. apply in_map_iff in Hy as (f & <- & Hf). apply filter_In in Hf as [_ Hf].
  apply negb_true_iff, mem_false in Hf. contradiction.
Qed.
(** The physical schema is the logical one, when the same column is the same everywhere. *)
Lemma merge_fields_logical fs : forall acc, NoDup (map f_name acc) -> NoDup (map f_name fs) ->
  (forall f g, In f fs -> In g acc -> f_name f = f_name g -> f = g) -> merge_fields acc fs = Some (logical_merge acc fs).
Proof.
  induction fs as [|f tl IH]; intros acc D1 D2 Ag; cbn [merge_fields].
  - unfold logical_merge. cbn. now rewrite app_nil_r.
  - cbn [map] in D2. inversion D2 as [|? ? N1 D3]; subst.
    destruct (in_dec string_dec (f_name f) (map f_name acc)) as [H|H].
    + apply in_map_iff in H as (g & E & Hg). assert (f = g) by (apply Ag; auto; now left). subst g.
      rewrite (merge_field_in _ _ D1 Hg). rewrite IH; auto.
      * unfold logical_merge. cbn [filter]. replace (mem (f_name f) (map f_name acc)) with true; [reflexivity|].
        symmetry. apply mem_spec. now apply in_map.
      * intros f' g Hf Hg' E'. apply Ag; auto. now right.
    + rewrite (merge_field_new _ _ H). rewrite IH; auto.
      * unfold logical_merge. cbn [filter]. replace (mem (f_name f) (map f_name acc)) with false.
        2:{ symmetry. now apply mem_false. }
        cbn [negb]. rewrite <- app_assoc. cbn [app]. do 2 f_equal. f_equal. apply filter_ext_in. intros x Hx. f_equal.
        rewrite map_app. cbn [map]. destruct (mem (f_name x) (map f_name acc)) eqn:E.
        -- apply mem_spec. apply mem_spec in E. apply in_app_iff. now left.
        -- apply mem_false. apply mem_false in E. intros K. apply in_app_iff in K as [K|[K|[]]]; [contradiction|].
           apply N1. rewrite K. now apply in_map.
      * rewrite map_app. cbn [map]. apply NoDup_app_intro; [exact D1|repeat constructor; intros []|]. intros x Hx [<-|[]]. contradiction.
      * intros f' g Hf Hg E. apply in_app_iff in Hg as [Hg|[<-|[]]]; [apply Ag; auto; now right|].
        exfalso. apply N1. rewrite <- E. now apply in_map.
Qed.
Lemma merge_fields_app a : forall acc b, merge_fields acc (a ++ b) = match merge_fields acc a with Some x => merge_fields x b | None => None end.
Proof. induction a as [|f a IH]; intros acc b; cbn [app merge_fields]; [reflexivity|]. destruct (merge_field acc f); [apply IH|reflexivity]. Qed.
Lemma in_logical_merge acc fs f : In f (logical_merge acc fs) -> In f acc \/ In f fs.
Proof. unfold logical_merge. rewrite in_app_iff, filter_In. tauto. Qed.
Lemma name_logical_merge acc fs c : In c (map f_name (logical_merge acc fs)) <-> In c (map f_name acc) \/ In c (map f_name fs).
Proof.
  unfold logical_merge. rewrite map_app, in_app_iff. split.
  - intros [H|H]; [now left|right]. apply in_map_iff in H as (f & <- & H). apply filter_In in H as [H _]. now apply in_map.
  - intros [H|H]; [now left|]. apply in_map_iff in H as (f & <- & H).
    destruct (mem (f_name f) (map f_name acc)) eqn:E; [left; now apply mem_spec|right]. apply in_map. apply filter_In. now rewrite E.
Qed.
Lemma name_logical_all fss : forall acc c, In c (map f_name (fold_left logical_merge fss acc)) <->
  In c (map f_name acc) \/ exists fs, In fs fss /\ In c (map f_name fs).
Proof.
  induction fss as [|fs fss IH]; intros acc c; cbn [fold_left].
  - split; [now left|]. intros [H|(fs & [] & _)]. exact H.
  - rewrite IH, name_logical_merge. split.
    + intros [[H|H]|(fs' & H & Hc)]; [now left|right; exists fs; split; [now left|exact H]|right; exists fs'; split; [now right|exact Hc]].
    + intros [H|(fs' & [<-|H] & Hc)]; [left; now left|left; now right|right; eauto].
Qed.
Lemma logical_all_nodup fss : forall acc, NoDup (map f_name acc) -> (forall fs, In fs fss -> NoDup (map f_name fs)) ->
  NoDup (map f_name (fold_left logical_merge fss acc)).
Proof.
  induction fss as [|fs fss IH]; intros acc D H; cbn [fold_left]; [exact D|]. apply IH; [|intros; apply H; now right].
  apply logical_merge_nodup; [exact D|]. apply H. now left.
Qed.
Lemma merge_fields_all fss : forall acc, NoDup (map f_name acc) -> (forall fs, In fs fss -> NoDup (map f_name fs)) ->
  (forall f g, In f (acc ++ List.concat fss)%list -> In g (acc ++ List.concat fss)%list -> f_name f = f_name g -> f = g) ->
  merge_fields acc (List.concat fss) = Some (fold_left logical_merge fss acc).
Proof.
  induction fss as [|fs fss IH]; intros acc D H Ag; cbn [List.concat fold_left]; [reflexivity|].
  rewrite merge_fields_app, merge_fields_logical; auto.
  - apply IH.
    + apply logical_merge_nodup; [exact D|]. apply H. now left.
    + intros; apply H; now right.
    + intros f g Hf Hg. apply Ag; cbn [List.concat]; rewrite !in_app_iff in *.
      * destruct Hf as [Hf|Hf]; [apply in_logical_merge in Hf; tauto|tauto].
      * destruct Hg as [Hg|Hg]; [apply in_logical_merge in Hg; tauto|tauto].
  - apply H. now left.
  - intros f g Hf Hg. apply Ag; cbn [List.concat]; rewrite !in_app_iff; tauto.
Qed.
Lemma in_fields_all fss : forall acc f, In f (fold_left logical_merge fss acc) -> In f acc \/ exists fs, In fs fss /\ In f fs.
Proof.
  induction fss as [|fs fss IH]; intros acc f; cbn [fold_left]; [now left|]. intros H. apply IH in H as [H|(fs' & H & Hf)].
  - apply in_logical_merge in H as [H|H]; [now left|right; exists fs; split; [now left|exact H]].
  - right. exists fs'. split; [now right|exact Hf].
Qed.

Lemma logical_names inputs c : In c (map f_name (logical_fields inputs)) <-> c = "event" \/ some_event_has inputs c.
Proof.
  unfold logical_fields.
  assert (X : In c (map f_name (event_field :: fold_left logical_merge (map (fun i : Input => fst (snd i)) inputs) [])) <-> c = "event" \/ some_event_has inputs c).
  { cbn [map]. change (f_name event_field) with "event". cbn [In]. rewrite name_logical_all. cbn [map In]. split.
    - intros [<-|[[]|(fs & H & Hc)]]; [now left|right]. apply in_map_iff in H as ((n & fs' & bs) & <- & H). exists n, fs', bs. auto.
    - intros [->|(n & fs & bs & H & Hc)]; [now left|right; right]. exists fs. split; [|exact Hc]. apply in_map_iff. exists (n, (fs, bs)). auto. }
  destruct inputs as [|(n & fs & bs) [|j r]]; [exact X| |exact X].
  cbn [map]. change (f_name event_field) with "event". cbn [In]. split.
  - intros [<-|H]; [now left|right]. exists n, fs, bs. split; [now left|exact H].
  - intros [->|(n' & fs' & bs' & [E|[]] & Hc)]; [now left|right]. injection E as <- <- <-. exact Hc.
Qed.

(** ** The rows under the names of their events *)
Definition named (lf : list Field) (src : string * Batch) (out : Batch) : Prop :=
  b_fields out = lf /\ table out (num_rows (snd src)) /\
  forall i, i < num_rows (snd src) ->
    shows out "event" i (Some (CText (fst src))) /\
    forall c, In c (map f_name lf) -> c <> "event" -> shows out c i (value_at (snd src) c i).
Definition sources (inputs : list Input) : list (string * Batch) :=
  flat_map (fun i : Input => map (fun b => (fst i, b)) (snd (snd i))) inputs.
Lemma shows_cons f a fs l c i v : c <> f_name f -> shows (mkBatch (f :: fs) (a :: l)) c i v <-> shows (mkBatch fs l) c i v.
Proof.
  intros Hc. unfold shows. cbn [b_fields b_arrs combine]. split; intros (f' & a' & H & E & X).
  - destruct H as [H|H]; [injection H as -> ->; congruence|]. eauto.
  - exists f', a'. split; [now right|auto].
Qed.
Lemma add_named name b : table b (num_rows b) -> ~ In "event" (map f_name (b_fields b)) ->
  exists out, add_string_column name b = Some out /\ named (event_field :: b_fields b) (name, b) out.
Proof.
  intros T Hn. pose proof T as (Ne & L & F & D & Z0). unfold add_string_column.
  destruct (try_new_table (event_field :: b_fields b) (repeat (Some (CText name)) (num_rows b) :: b_arrs b) (num_rows b)) as [E T'].
  - discriminate.
  - cbn. now rewrite L.
  - constructor; [apply repeat_length|exact F].
  - cbn [map]. constructor; [exact Hn|exact D].
  - intros f a H Ef. cbn [combine] in H. destruct H as [H|H]; [|now apply (Z0 f a)].
    injection H as <- <-. intros K. apply repeat_spec in K. discriminate.
  - eexists. split; [exact E|]. split; [reflexivity|]. split; [exact T'|]. cbn [fst snd]. intros i Hi. split.
    + exists event_field, (repeat (Some (CText name)) (num_rows b)). split; [now left|]. split; [reflexivity|]. now apply nth_error_repeat_.
    + intros c Hc Ne'. cbn [map] in Hc. destruct Hc as [Hc|Hc]; [cbn in Hc; congruence|].
      apply shows_cons; [exact Ne'|]. destruct b as [fs arrs]. now apply (value_shows _ (num_rows (mkBatch fs arrs))).
Qed.
Lemma value_absent b c i : ~ In c (map f_name (b_fields b)) -> value_at b c i = None.
Proof.
  intros H. unfold value_at. destruct (find _ _) as [[f a]|] eqn:E; [|reflexivity]. apply find_some in E as [E1 E2].
  cbn in E2. apply String.eqb_eq in E2. exfalso. apply H. rewrite <- E2. apply in_map. now apply in_combine_l in E1.
Qed.
Lemma mapO_rel {A B} (f : A -> option B) (R : A -> B -> Prop) l : (forall x, In x l -> exists y, f x = Some y /\ R x y) ->
  exists l', mapO f l = Some l' /\ Forall2 R l l'.
Proof.
  induction l as [|x l IH]; intros H; [exists []; split; [reflexivity|constructor]|].
  destruct IH as (l' & E & F); [intros; apply H; now right|]. destruct (H x (or_introl eq_refl)) as (y & Ey & Ry).
  exists (y :: l'). cbn [mapO]. rewrite Ey, E. split; [reflexivity|now constructor].
Qed.
Lemma Forall2_map_l {A B C} (g : A -> B) (R : B -> C -> Prop) l l' : Forall2 (fun x y => R (g x) y) l l' -> Forall2 R (map g l) l'.
Proof. induction 1; cbn; constructor; auto. Qed.
Lemma Forall2_concat {A B C} (g : A -> list B) (R : B -> C -> Prop) l ls : Forall2 (fun x ys => Forall2 R (g x) ys) l ls ->
  Forall2 R (flat_map g l) (List.concat ls).
Proof. induction 1; cbn; [constructor|]. apply Forall2_app; assumption. Qed.

Lemma with_event_ok inputs : inputs <> [] -> event_tables inputs -> same_fields inputs -> lacking_may_be_null inputs ->
  ~ some_event_has inputs "event" ->
  NoDup (map f_name (logical_fields inputs)) /\
  exists bs, with_event inputs = Some bs /\ Forall2 (named (logical_fields inputs)) (sources inputs) bs.
Proof.
  intros Ne Et Sf La Hev.
  assert (Many : merge_schema "event" (map (fun i : Input => fst (snd i)) inputs) = Some (event_field :: fold_left logical_merge (map (fun i : Input => fst (snd i)) inputs) []) ->
    NoDup (map f_name (event_field :: fold_left logical_merge (map (fun i : Input => fst (snd i)) inputs) [])) /\
    exists bs, merge "event" inputs = Some bs /\
      Forall2 (named (event_field :: fold_left logical_merge (map (fun i : Input => fst (snd i)) inputs) [])) (sources inputs) bs).
  { set (acc := fold_left logical_merge (map (fun i : Input => fst (snd i)) inputs) []). intros ES.
    assert (Hnames : forall c, In c (map f_name acc) <-> some_event_has inputs c).
    { intros c. unfold acc. rewrite name_logical_all. cbn [map In]. split.
      - intros [[]|(fs & H & Hc)]. apply in_map_iff in H as ((n & fs' & bs) & <- & H). exists n, fs', bs. auto.
      - intros (n & fs & bs & H & Hc). right. exists fs. split; [|exact Hc]. apply in_map_iff. exists (n, (fs, bs)). auto. }
    assert (D : NoDup (map f_name acc)).
    { unfold acc. apply logical_all_nodup; [constructor|]. intros fs H. apply in_map_iff in H as ((n & fs' & bs) & <- & H).
      exact (proj1 (Et _ _ _ H)). }
    assert (Hacc : forall g, In g acc -> exists n fs bs, In (n, (fs, bs)) inputs /\ In g fs).
    { intros g Hg. unfold acc in Hg. apply in_fields_all in Hg as [[]|(fs & H & Hg)].
      apply in_map_iff in H as ((n & fs' & bs) & <- & H). exists n, fs', bs. auto. }
    split. { cbn [map]. constructor; [|exact D]. change (f_name event_field) with "event". now rewrite Hnames. }
    unfold merge. destruct inputs as [|i0 ir] eqn:EI; [congruence|]. rewrite <- EI in *. rewrite ES.
    destruct (mapO_rel (fun i : Input => mapO (merge_batch (event_field :: acc) (fst i)) (snd (snd i)))
      (fun i os => Forall2 (named (event_field :: acc)) (map (fun b => (fst i, b)) (snd (snd i))) os) inputs) as (oss & E & F).
    - intros (name & fs & bs) Hi. cbn [fst snd]. destruct (Et _ _ _ Hi) as (_ & _ & _ & Hb).
      destruct (mapO_rel (merge_batch (event_field :: acc) name) (fun b o => named (event_field :: acc) (name, b) o) bs) as (os & E & F).
      + intros b Hbi. destruct (Hb b Hbi) as [Ef T].
        destruct (merge_batch_ok "event" name acc b) as (out & E & (Nm & T' & R)).
        * exact T.
        * rewrite Ef. intros H. apply Hev. exists name, fs, bs. auto.
        * now rewrite Hnames.
        * exact D.
        * intros f g Hf Hg En Hnull. destruct (Hacc g Hg) as (n' & fs' & bs' & H' & Hg'). rewrite Ef in Hf.
          rewrite <- (Sf _ _ _ _ _ _ f g Hi H' Hf Hg' En). exact Hnull.
        * intros g Hg Hng. destruct (Nat.eq_dec (num_rows b) 0) as [Z1|Z1]; [now right|left].
          destruct (Hacc g Hg) as (n' & fs' & bs' & H' & Hg'). rewrite Ef in Hng.
          exact (La _ _ _ b _ _ _ g Hi Hbi ltac:(lia) H' Hg' Hng).
        * exists out. split; [exact E|]. unfold merge_batch in E. pose proof (try_new_inv _ _ _ E) as EO.
          split; [now rewrite EO|]. split; [exact T'|]. cbn [fst snd]. intros i Hi'. destruct (R i Hi') as [R1 R2]. split; [exact R1|].
          intros c Hc Hne. cbn [map] in Hc. destruct Hc as [Hc|Hc]; [cbn in Hc; congruence|]. apply (R2 c Hc).
          destruct (in_dec string_dec c (map f_name (b_fields b))) as [Hin|Hin].
          -- left. split; [exact Hin|]. now apply (value_shows _ (num_rows b)).
          -- right. split; [exact Hin|]. now apply value_absent.
      + exists os. split; [exact E|]. now apply Forall2_map_l.
    - exists (List.concat oss). rewrite E. split; [reflexivity|]. unfold sources. now apply Forall2_concat. }
  assert (ES : merge_schema "event" (map (fun i : Input => fst (snd i)) inputs) = Some (event_field :: fold_left logical_merge (map (fun i : Input => fst (snd i)) inputs) [])).
  { unfold merge_schema. rewrite merge_fields_all; [reflexivity|constructor| |].
    - intros fs H. apply in_map_iff in H as ((n & fs' & bs) & <- & H). exact (proj1 (Et _ _ _ H)).
    - cbn [app]. intros f g Hf Hg. apply in_concat in Hf as (fs & H & Hf), Hg as (fs' & H' & Hg).
      apply in_map_iff in H as ((n & fs1 & bs1) & <- & H), H' as ((n' & fs2 & bs2) & <- & H'). exact (Sf _ _ _ _ _ _ f g H H' Hf Hg). }
  specialize (Many ES). unfold logical_fields, with_event.
  destruct inputs as [|(n & fs & bs) [|j r]]; [congruence| |exact Many].
  destruct (Et n fs bs (or_introl eq_refl)) as (D & _ & _ & Hb).
  assert (He : ~ In "event" (map f_name fs)) by (intros H; apply Hev; exists n, fs, bs; split; [now left|exact H]).
  split; [cbn [map]; now constructor|].
  destruct (mapO_rel (add_string_column n) (fun b o => named (event_field :: fs) (n, b) o) bs) as (os & E & F).
  - intros b H. destruct (Hb b H) as [Ef T]. rewrite <- Ef. apply add_named; [exact T|now rewrite Ef].
  - exists os. split; [exact E|]. unfold sources. cbn [flat_map fst snd]. rewrite app_nil_r. now apply Forall2_map_l.
Qed.

(** ** Order of the columns *)
Lemma find_name fs c : In c (map f_name fs) -> exists f, find (fun f => String.eqb (f_name f) c) fs = Some f /\ f_name f = c /\ In f fs.
Proof.
  intros H. destruct (find (fun f => String.eqb (f_name f) c) fs) as [f|] eqn:E.
  - apply find_some in E as [E1 E2]. apply String.eqb_eq in E2. eauto.
  - apply in_map_iff in H as (f & <- & H). apply (find_none _ _ E) in H. rewrite String.eqb_refl in H. discriminate.
Qed.
Lemma find_name_none fs c : ~ In c (map f_name fs) -> find (fun f => String.eqb (f_name f) c) fs = None.
Proof.
  intros H. destruct (find _ fs) as [f|] eqn:E; [|reflexivity]. apply find_some in E as [E1 E2]. apply String.eqb_eq in E2.
  exfalso. apply H. rewrite <- E2. now apply in_map.
Qed.
Definition others (cols : list string) (fs : list Field) : list Field := filter (fun f => negb (mem (f_name f) cols)) fs.
Lemma in_others cols fs c : In c (map f_name (others cols fs)) <-> In c (map f_name fs) /\ ~ In c cols.
Proof.
  unfold others. split.
  - intros H. apply in_map_iff in H as (f & <- & H). apply filter_In in H as [H K]. apply negb_true_iff, mem_false in K. split; [now apply in_map|exact K].
  - intros [H K]. apply in_map_iff in H as (f & <- & H). apply in_map. apply filter_In. split; [exact H|]. now apply negb_true_iff, mem_false.
Qed.
Lemma reorder_ok cols fs : (forall c, In c cols -> In c (map f_name fs)) ->
  exists first, reorder_fields cols fs = Some (first ++ others cols fs)%list /\ map f_name first = cols /\ incl first fs.
Proof.
  intros H. unfold reorder_fields.
  destruct (mapO_rel (fun c => find (fun f => String.eqb (f_name f) c) fs) (fun c f => f_name f = c /\ In f fs) cols) as (first & E & F).
  { intros c Hc. destruct (find_name fs c (H c Hc)) as (f & E & En & Hf). eauto. }
  exists first. rewrite E. split; [reflexivity|]. clear E H. induction F as [|c f l l' [E Hf] _ [IH1 IH2]].
  - split; [reflexivity|intros x []].
  - cbn [map]. split; [now rewrite E, IH1|]. intros x [<-|Hx]; auto.
Qed.
Lemma reorder_names cols fs lf : reorder_fields cols fs = Some lf -> map f_name lf = (cols ++ map f_name (others cols fs))%list /\
  (forall c, In c cols -> In c (map f_name fs)).
Proof.
  unfold reorder_fields. destruct (mapO _ cols) as [first|] eqn:E; [|discriminate]. intros [= <-]. apply mapO_inv in E. rewrite map_app.
  assert (X : map f_name first = cols /\ forall c, In c cols -> In c (map f_name fs)).
  { induction E as [|c f l l' Ef _ [IH1 IH2]]; [split; [reflexivity|intros c []]|]. apply find_some in Ef as [E1 E2]. apply String.eqb_eq in E2.
    cbn [map]. split; [now rewrite E2, IH1|]. intros x [<-|Hx]; [rewrite <- E2; now apply in_map|auto]. }
  destruct X as [-> X]. auto.
Qed.
Lemma reorder_batch_ok cols b n lf : table b n -> NoDup cols -> reorder_fields cols (b_fields b) = Some lf ->
  exists out, reorder_batch cols b = Some out /\ b_fields out = lf /\ table out n /\ forall c i v, shows out c i v <-> shows b c i v.
Proof.
  intros T Dc E. pose proof T as (Ne & L & F & D & Z0). pose proof (reorder_names _ _ _ E) as [Nm Hc].
  assert (Hincl : incl lf (b_fields b)).
  { destruct (reorder_ok cols (b_fields b) Hc) as (first & E' & _ & I1). rewrite E in E'. injection E' as ->.
    intros f Hf. apply in_app_iff in Hf as [Hf|Hf]; [auto|]. unfold others in Hf. now apply filter_In in Hf as [Hf _]. }
  assert (Dl : NoDup (map f_name lf)).
  { rewrite Nm. apply NoDup_app_intro; [exact Dc|unfold others; now apply NoDup_map_filter|].
    intros x Hx Hy. apply in_others in Hy as [_ Hy]. auto. }
  unfold reorder_batch. rewrite E.
  destruct (mapO_rel (fun f => option_map (fun i => nth i (b_arrs b) []) (index_of (b_fields b) (f_name f)))
    (fun f a => In (f, a) (combine (b_fields b) (b_arrs b))) lf) as (arrs & EA & FA).
  { intros f Hf. apply Hincl in Hf. destruct (index_of_some (b_fields b) (f_name f) (in_map _ _ _ Hf)) as (k & f' & Ek & Hk & En).
    rewrite Ek. cbn [option_map]. eexists. split; [reflexivity|].
    assert (f = f').
    { apply In_nth_error in Hf as (k2 & Hk2). assert (k2 = k).
      { apply (proj1 (NoDup_nth_error (map f_name (b_fields b))) D).
        - rewrite map_length. apply nth_error_Some. congruence.
        - rewrite (map_nth_error f_name _ _ Hk2), (map_nth_error f_name _ _ Hk). congruence. }
      subst. congruence. }
    subst f'. apply (in_combine_at _ _ k); [exact Hk|]. apply nth_error_of_nth. rewrite <- L. apply nth_error_Some. congruence. }
  rewrite EA.
  assert (Lf : length lf = length arrs) by (clear - FA; induction FA; cbn; congruence).
  assert (Hin : forall f a, In (f, a) (combine lf arrs) -> In (f, a) (combine (b_fields b) (b_arrs b))).
  { clear - FA. induction FA as [|f a l l' H _ IH]; cbn [combine]; [contradiction|]. intros f' a' [[= <- <-]|H']; auto. }
  destruct (try_new_table lf arrs n) as [ET TT].
  - intros ->. apply Ne. destruct lf; [|discriminate]. destruct (b_fields b) as [|f0 fr] eqn:EB; [destruct (b_arrs b); [reflexivity|discriminate]|].
    exfalso. assert (X : In (f_name f0) (map f_name (@nil Field))); [|destruct X]. rewrite Nm.
    destruct (in_dec string_dec (f_name f0) cols) as [K|K]; apply in_app_iff; [now left|right]. apply in_others. split; [now left|exact K].
  - exact Lf.
  - apply Forall_forall. intros a Ha. apply In_nth_error in Ha as (k & Hk).
    assert (Hk' : k < length lf) by (rewrite Lf; apply nth_error_Some; congruence).
    destruct (nth_error lf k) as [f|] eqn:Ek; [|apply nth_error_None in Ek; lia].
    apply (table_col b n f a T). apply Hin. exact (in_combine_at _ _ _ _ _ Ek Hk).
  - exact Dl.
  - intros f a H. apply (Z0 f a). now apply Hin.
  - eexists. split; [exact ET|]. split; [reflexivity|]. split; [exact TT|]. intros c i v. split.
    + intros (f & a & H & En & X). exists f, a. auto.
    + intros H. pose proof (shows_name _ _ _ _ H) as Hn. pose proof (shows_lt _ _ _ _ _ T H) as Hi.
      assert (Hl : In c (map f_name lf)).
      { rewrite Nm. apply in_app_iff. destruct (in_dec string_dec c cols) as [K|K]; [now left|right]. apply in_others. auto. }
      destruct (shows_ex _ _ c i TT Hl Hi) as (v' & Hv). assert (v' = v); [|subst; exact Hv].
      destruct Hv as (f & a & Hfa & En & X). apply (shows_fun b n c i); auto. exists f, a. auto.
Qed.

(** ** Titles put on *)
Lemma rename_first (ren : list (string * string)) first : NoDup (map fst ren) -> map f_name first = map fst ren ->
  map f_name (map (rename_field ren) first) = map snd ren.
Proof.
  intros D E. rewrite map_map.
  assert (X : forall f, In (f_name f) (map fst ren) -> In (f_name f, f_name (rename_field ren f)) ren).
  { intros f H. unfold rename_field. destruct (find _ ren) as [p|] eqn:Ef.
    - apply find_some in Ef as [E1 E2]. apply String.eqb_eq in E2. cbn [f_name]. rewrite E2. now destruct p.
    - apply in_map_iff in H as (p & E1 & H). apply (find_none _ _ Ef) in H. rewrite E1, String.eqb_refl in H. discriminate. }
  assert (Y : forall first ren', incl ren' ren -> map f_name first = map fst ren' ->
             map (fun f => f_name (rename_field ren f)) first = map snd ren').
  { clear first E. induction first as [|f fs IH]; intros [|p r] Hi E; cbn [map] in *; try discriminate; [reflexivity|]. injection E as E1 E2.
    f_equal; [|apply IH; [intros x Hx; apply Hi; now right|exact E2]].
    assert (Hp : In p ren) by (apply Hi; now left).
    assert (Hf : In (f_name f, f_name (rename_field ren f)) ren) by (apply X; rewrite E1; now apply in_map).
    assert (Q : (f_name f, f_name (rename_field ren f)) = p) by (apply (NoDup_fst_inj (fun x => x) ren); auto).
    rewrite <- Q. reflexivity. }
  apply Y; [apply incl_refl|exact E].
Qed.
Lemma rename_other ren f : ~ In (f_name f) (map fst ren) -> rename_field ren f = f.
Proof.
  intros H. unfold rename_field. destruct (find _ ren) as [p|] eqn:E; [|reflexivity]. apply find_some in E as [E1 E2].
  apply String.eqb_eq in E2. exfalso. apply H. rewrite E2. now apply in_map.
Qed.
Lemma rename_others ren fs : map (rename_field ren) (others (map fst ren) fs) = others (map fst ren) fs.
Proof.
  rewrite <- (map_id (others _ _)) at 2. apply map_ext_in. intros f Hf. apply rename_other.
  assert (H : In (f_name f) (map f_name (others (map fst ren) fs))) by now apply in_map. now apply in_others in H.
Qed.
Lemma rename_kind ren f : f_null (rename_field ren f) = f_null f.
Proof. unfold rename_field. destruct (find _ ren); reflexivity. Qed.

(** ** One table out of the batches *)
Definition column (j : nat) (bs : list Batch) : Arr := List.concat (map (fun b => nth j (b_arrs b) []) bs).
Lemma column_rows lf j f : nth_error lf j = Some f -> forall (srcs : list (string * Batch)) bs,
  Forall2 (fun src out => b_fields out = lf /\ table out (num_rows (snd src))) srcs bs ->
  length (column j bs) = length (flat_map (fun s => map (fun k => (fst s, snd s, k)) (seq 0 (num_rows (snd s)))) srcs) /\
  (forall v, In v (column j bs) -> exists out a, In out bs /\ In (f, a) (combine (b_fields out) (b_arrs out)) /\ In v a) /\
  forall p name b i, nth_error (flat_map (fun s => map (fun k => (fst s, snd s, k)) (seq 0 (num_rows (snd s)))) srcs) p = Some (name, b, i) ->
    exists out a, In ((name, b), out) (combine srcs bs) /\ In (f, a) (combine (b_fields out) (b_arrs out)) /\ i < num_rows b /\ nth_error (column j bs) p = nth_error a i.
Proof.
  intros Hj. induction 1 as [|[name b] out srcs bs [Ef T] _ (IH1 & IH2 & IH3)].
  - cbn. split; [reflexivity|]. split; [contradiction|]. intros [|p] ? ? ? E; discriminate.
  - cbn [snd fst] in *. pose proof T as (Ne & L & F & _).
    assert (Hjl : j < length (b_arrs out)) by (rewrite <- L, Ef; apply nth_error_Some; congruence).
    assert (Ha : In (f, nth j (b_arrs out) []) (combine (b_fields out) (b_arrs out))).
    { apply (in_combine_at _ _ j); [now rewrite Ef|]. now apply nth_error_of_nth. }
    assert (La : length (nth j (b_arrs out) []) = num_rows b) by (exact (table_col _ _ _ _ T Ha)).
    unfold column. cbn [map List.concat flat_map]. fold (column j bs). split; [|split].
    + rewrite !app_length, map_length, seq_length, La. now rewrite IH1.
    + intros v Hv. apply in_app_iff in Hv as [Hv|Hv].
      * exists out, (nth j (b_arrs out) []). split; [now left|auto].
      * destruct (IH2 v Hv) as (o & a & H1 & H2). exists o, a. split; [now right|exact H2].
    + intros p nm b' i E. cbn [fst snd] in E.
      destruct (Nat.lt_ge_cases p (num_rows b)) as [Hp|Hp].
      * rewrite nth_error_app1 in E by (rewrite map_length, seq_length; exact Hp).
        rewrite (map_nth_error _ _ _ (nth_error_seq_ (num_rows b) p 0 Hp)) in E. injection E as <- <- <-. cbn [Nat.add].
        exists out, (nth j (b_arrs out) []). split; [now left|]. split; [exact Ha|]. split; [exact Hp|]. rewrite nth_error_app1 by lia. reflexivity.
      * rewrite nth_error_app2 in E by (rewrite map_length, seq_length; exact Hp). rewrite map_length, seq_length in E.
        destruct (IH3 _ _ _ _ E) as (o & a & H1 & H2 & H3 & H4). exists o, a. split; [now right|]. split; [exact H2|]. split; [exact H3|].
        rewrite nth_error_app2 by lia. rewrite La. exact H4.
Qed.
Lemma source_rows_flat inputs : source_rows inputs = flat_map (fun s => map (fun k => (fst s, snd s, k)) (seq 0 (num_rows (snd s)))) (sources inputs).
Proof.
  unfold source_rows, sources. induction inputs as [|(n & fs & bs) r IH]; cbn [flat_map fst snd]; [reflexivity|].
  rewrite IH, flat_map_app. f_equal. clear IH r fs. induction bs as [|b bs IH]; cbn [map flat_map]; [reflexivity|]. now rewrite IH.
Qed.
