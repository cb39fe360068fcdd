(** C133: the table of an event report has the columns asked for, under titles of their own, and
    every row of every event under the name of the event and of its metric.  The model is in
    [ReportTable], the rows and titles expected in [ReportTableSpec]. *)
From Coq Require Import List ZArith NArith Ascii String Bool Arith Lia.
From Verif Require Import Kv KvKeysFacts PropsColumns SavedQuery Shape ShapeSpec ShapeFacts ShapePivot ShapeRows ReportTable ReportTableSpec ReportTableFacts.
Import ListNotations.
Local Open Scope string_scope.
Local Notation length := List.length.

(** ** The table *)
(** The table begins with the columns Event, Segment, the properties of the breakdowns each once
    and Formula, in this order, and goes on with the other columns.  Its rows are those of the
    events, one after the other, and every cell stands under the title of its column; a column
    that an event lacks is null in its rows.  Missing: reports whose titles collide, see
    [C133_collision_refuted] and [C133_lost_column_refuted]. *)
Theorem C133_table_partial : forall inputs props,
  inputs <> [] -> event_tables inputs -> same_fields inputs -> lacking_may_be_null inputs ->
  ~ some_event_has inputs "event" -> ~ In "agg_name" (map fst (broken_down props)) ->
  (forall c, In c (map fst (broken_down props)) -> some_event_has inputs c) ->
  NoDup (map snd (headings props)) ->
  (forall c, some_event_has inputs c -> In c (map snd (headings props)) -> In c (map fst (headings props))) ->
  exists out rest, report_table inputs props = Some out /\
    map f_name (b_fields out) = (map snd (headings props) ++ rest)%list /\
    (forall c, In c rest <-> some_event_has inputs c /\ ~ In c (map fst (headings props))) /\
    table out (length (source_rows inputs)) /\
    forall p name b i, nth_error (source_rows inputs) p = Some (name, b, i) ->
      shows out "Event" p (Some (CText name)) /\
      (forall c t, In (c, t) (headings props) -> c <> "event" -> shows out t p (value_at b c i)) /\
      (forall c, In c rest -> shows out c p (value_at b c i)).
Proof.
  intros inputs props Ne Et Sf La Hev Hagg Hcols Dt Hclash.
  destruct (with_event_ok inputs Ne Et Sf La Hev) as (Dl & bs & EW & FW).
  set (hs := headings props) in *. set (lf := logical_fields inputs) in *.
  assert (Dh : NoDup (map fst hs)) by now apply headings_nodup.
  assert (Hseg : some_event_has inputs "segment" /\ some_event_has inputs "agg_name").
  { destruct inputs as [|(n & fs & b0) r]; [congruence|]. destruct (Et n fs b0 (or_introl eq_refl)) as (_ & H1 & H2 & _).
    split; exists n, fs, b0; (split; [now left|assumption]). }
  assert (Hin : forall c, In c (map fst hs) -> In c (map f_name lf)).
  { intros c Hc. apply logical_names. unfold hs in Hc. rewrite headings_fst in Hc. unfold base in Hc.
    rewrite !in_app_iff in Hc. destruct Hc as [[<-|[<-|[]]]|[Hc|[<-|[]]]]; [now left|right; tauto|right; auto|right; tauto]. }
  destruct (reorder_ok (map fst hs) lf Hin) as (first & ER & Nf & _).
  set (lf' := (first ++ others (map fst hs) lf)%list) in *.
  destruct (reorder_names _ _ _ ER) as [Nm _].
  assert (Dl' : NoDup (map f_name lf')).
  { rewrite Nm. apply NoDup_app_intro; [exact Dh|unfold others; now apply NoDup_map_filter|].
    intros x Hx Hy. apply in_others in Hy as [_ Hy]. auto. }
  set (lf'' := map (rename_field hs) lf').
  assert (Nm'' : map f_name lf'' = (map snd hs ++ map f_name (others (map fst hs) lf))%list).
  { unfold lf'', lf'. rewrite !map_app. rewrite rename_first by assumption. now rewrite rename_others. }
  assert (Hrest : forall c, In c (map f_name (others (map fst hs) lf)) <-> some_event_has inputs c /\ ~ In c (map fst hs)).
  { intros c. rewrite in_others. unfold lf. rewrite logical_names. split.
    - intros [[->|H] K]; [|auto]. exfalso. apply K. unfold hs. rewrite headings_fst. now left.
    - intros [H K]. auto. }
  assert (Dl'' : NoDup (map f_name lf'')).
  { rewrite Nm''. apply NoDup_app_intro; [exact Dt|unfold others; now apply NoDup_map_filter|].
    intros x Hx Hy. apply Hrest in Hy as [H1 H2]. apply H2. now apply Hclash. }
  (* the batches in their new order *)
  destruct (mapO_rel (reorder_batch (map fst hs)) (fun b o => b_fields b = lf -> table b (num_rows b) ->
      b_fields o = lf' /\ table o (num_rows b) /\ forall c i v, shows o c i v <-> shows b c i v) bs) as (bs' & EB & FB).
  { intros b Hb. assert (Hx : exists src, named lf src b).
    { clear - FW Hb. induction FW as [|s o l l' H _ IH]; [contradiction|]. destruct Hb as [<-|Hb]; [eauto|auto]. }
    destruct Hx as ((nm & sb) & Ef & T & _). cbn [snd] in T. rewrite <- Ef in ER.
    destruct (reorder_batch_ok _ _ _ _ T Dh ER) as (o & EO & Efo & To & Sh). exists o. split; [exact EO|]. intros _ T2.
    rewrite (table_rows _ _ T). auto. }
  assert (F2 : Forall2 (fun src o => b_fields o = lf' /\ table o (num_rows (snd src)) /\ forall i, i < num_rows (snd src) ->
      shows o "event" i (Some (CText (fst src))) /\
      forall c, In c (map f_name lf) -> c <> "event" -> shows o c i (value_at (snd src) c i)) (sources inputs) bs').
  { clear - FW FB. revert bs' FB. induction FW as [|s b l l' (H1 & H2 & H3) _ IH]; intros bs' FB; inversion FB as [|? o ? ? P Q]; subst; constructor; [|auto].
    pose proof (table_rows _ _ H2) as Er. rewrite <- Er in H2. destruct (P H1 H2) as (P1 & P2 & P3). rewrite Er in P2.
    split; [exact P1|]. split; [exact P2|]. intros i Hi. destruct (H3 i Hi) as [K1 K2]. split; [now apply P3|]. intros c Hc Hne. apply P3. auto. }
  assert (F3 : Forall2 (fun src o => b_fields o = lf' /\ table o (num_rows (snd src))) (sources inputs) bs').
  { clear - F2. induction F2 as [|? ? ? ? (H1 & H2 & _) _ IH]; constructor; auto. }
  assert (F4 : forall s o, In (s, o) (combine (sources inputs) bs') -> b_fields o = lf' /\ table o (num_rows (snd s)) /\ forall i, i < num_rows (snd s) ->
      shows o "event" i (Some (CText (fst s))) /\
      forall c, In c (map f_name lf) -> c <> "event" -> shows o c i (value_at (snd s) c i)).
  { clear - F2. induction F2 as [|s' o' l l' H _ IH]; cbn [combine]; [contradiction|]. intros s o [[= <- <-]|H']; auto. }
  (* one table *)
  set (arrs := map (fun j => column j bs') (seq 0 (length lf''))).
  assert (Ll : length lf'' = length lf') by (unfold lf''; apply map_length).
  assert (Hpos : forall f a, In (f, a) (combine lf'' arrs) -> exists j g, nth_error lf' j = Some g /\ f = rename_field hs g /\ a = column j bs').
  { intros f a H. apply In_nth_error in H as (j & Hj).
    assert (La' : length lf'' = length arrs) by (unfold arrs; now rewrite map_length, seq_length).
    pose proof (map_nth_error fst _ _ Hj) as H1. pose proof (map_nth_error snd _ _ Hj) as H2. rewrite combine_fst in H1 by assumption. rewrite combine_snd in H2 by assumption. cbn [fst snd] in *.
    assert (Hjl : j < length lf'') by (apply nth_error_Some; congruence). unfold lf'' in H1.
    destruct (nth_error lf' j) as [g|] eqn:Eg; [|apply nth_error_None in Eg; lia]. exists j, g. split; [exact Eg|].
    rewrite (map_nth_error (rename_field hs) _ _ Eg) in H1. split; [congruence|]. unfold arrs in H2.
    rewrite (map_nth_error (fun j => column j bs') _ _ (nth_error_seq_ _ _ 0 Hjl)) in H2. cbn [Nat.add] in H2. congruence. }
  destruct (try_new_table lf'' arrs (length (source_rows inputs))) as [ET TT].
  - intros X. apply (f_equal (@length _)) in X. unfold arrs in X. rewrite map_length, seq_length in X. apply (f_equal (@length _)) in Nm''.
    rewrite map_length, X, app_length, map_length in Nm''. unfold hs, headings in Nm''. cbn [length] in Nm''. lia.
  - unfold arrs. now rewrite map_length, seq_length.
  - apply Forall_forall. intros a Ha. unfold arrs in Ha. apply in_map_iff in Ha as (j & <- & Hj). apply in_seq in Hj.
    destruct (nth_error lf' j) as [g|] eqn:Eg; [|apply nth_error_None in Eg; lia].
    rewrite source_rows_flat. exact (proj1 (column_rows lf' j g Eg _ _ F3)).
  - exact Dl''.
  - intros f a H Ef. apply Hpos in H as (j & g & Eg & -> & ->). rewrite rename_kind in Ef. intros K.
    apply (proj1 (proj2 (column_rows lf' j g Eg _ _ F3))) in K as (o & a & Ho & Ha & Hv).
    assert (Hx : exists s, In (s, o) (combine (sources inputs) bs')).
    { clear - F3 Ho. induction F3 as [|s o' l l' _ _ IH]; [contradiction|]. destruct Ho as [<-|Ho]; [exists s; now left|]. destruct (IH Ho) as (s' & H). exists s'. now right. }
    destruct Hx as (s & Hs). destruct (F4 _ _ Hs) as (_ & (_ & _ & _ & _ & Z0) & _). exact (Z0 g a Ha Ef Hv).
  - exists (mkBatch lf'' arrs), (map f_name (others (map fst hs) lf)). split; [|split; [exact Nm''|split; [exact Hrest|split; [exact TT|]]]].
    + unfold report_table. rewrite titles_spec. fold lf. fold hs. rewrite (proj2 (distinct_spec _) Dl). cbn [negb].
      rewrite ER. fold lf'. rewrite (proj2 (distinct_spec _) Dl'). cbn [negb]. fold lf''. rewrite (proj2 (distinct_spec _) Dl''). cbn [negb].
      rewrite EW, EB. unfold concat_tables. fold (column). exact ET.
    + intros p name b i Hp.
      assert (Main : forall c g j, nth_error lf' j = Some g -> f_name g = c -> forall v, (forall o, In ((name, b), o) (combine (sources inputs) bs') -> i < num_rows b -> shows o c i v) ->
                shows (mkBatch lf'' arrs) (f_name (rename_field hs g)) p v).
      { intros c g j Eg Ec v Hv. rewrite source_rows_flat in Hp.
        destruct (proj2 (proj2 (column_rows lf' j g Eg _ _ F3)) _ _ _ _ Hp) as (o & a & Ho & Ha & Hi & En).
        exists (rename_field hs g), (column j bs'). cbn [b_fields b_arrs]. split; [|split; [reflexivity|]].
        - apply (in_combine_at _ _ j); [unfold lf''; now apply map_nth_error|]. unfold arrs.
          assert (Hjl : j < length lf'') by (rewrite Ll; apply nth_error_Some; congruence).
          exact (map_nth_error (fun j => column j bs') _ _ (nth_error_seq_ _ _ 0 Hjl)).
        - rewrite En. specialize (Hv o Ho Hi). destruct (F4 _ _ Ho) as (Efo & To & _).
          destruct Hv as (f & a' & Hfa & Enf & X). assert (Q : (f, a') = (g, a)) by (apply (table_inj _ _ _ _ _ _ To Hfa Ha); congruence).
          injection Q as -> ->. exact X. }
      assert (Htit : forall c t g, In (c, t) hs -> f_name g = c -> f_name (rename_field hs g) = t).
      { intros c t g Hct Eg. pose proof (rename_first hs first Dh Nf) as RF. unfold rename_field.
        destruct (find (fun p0 => String.eqb (f_name g) (fst p0)) hs) as [q|] eqn:Ef.
        - apply find_some in Ef as [E1 E2]. apply String.eqb_eq in E2. cbn [f_name].
          assert (Q : q = (c, t)) by (apply (NoDup_fst_inj (fun x => x) hs); auto; cbn [fst]; congruence). now rewrite Q.
        - apply (find_none _ _ Ef) in Hct. cbn [fst] in Hct. rewrite Eg, String.eqb_refl in Hct. discriminate. }
      assert (Hpos' : forall c, In c (map f_name lf') -> exists j g, nth_error lf' j = Some g /\ f_name g = c).
      { intros c Hc. apply in_map_iff in Hc as (g & Eg & Hg). apply In_nth_error in Hg as (j & Hj). eauto. }
      assert (Hlf' : forall c, In c (map fst hs) \/ In c (map f_name (others (map fst hs) lf)) -> In c (map f_name lf')).
      { intros c H. rewrite Nm. apply in_app_iff. exact H. }
      split; [|split].
      * assert (He : In ("event", "Event") hs) by now left.
        destruct (Hpos' "event") as (j & g & Ej & Eg); [apply Hlf'; left; exact (in_map fst _ _ He)|].
        rewrite <- (Htit _ _ g He Eg). apply (Main _ g j Ej Eg). intros o Ho Hi. destruct (F4 _ _ Ho) as (_ & _ & R). exact (proj1 (R i Hi)).
      * intros c t Hct Hne. assert (Hc : In c (map fst hs)) by exact (in_map fst _ _ Hct).
        destruct (Hpos' c) as (j & g & Ej & Eg); [apply Hlf'; now left|].
        rewrite <- (Htit _ _ g Hct Eg). apply (Main _ g j Ej Eg). intros o Ho Hi. destruct (F4 _ _ Ho) as (_ & _ & R). apply (R i Hi); [now apply Hin|exact Hne].
      * intros c Hc. destruct (Hpos' c) as (j & g & Ej & Eg); [apply Hlf'; now right|].
        assert (Hn : ~ In c (map fst hs)) by now apply in_others in Hc.
        assert (Er : f_name (rename_field hs g) = c) by (rewrite rename_other by (now rewrite Eg); exact Eg). rewrite <- Er at 1.
        apply (Main _ g j Ej Eg). intros o Ho Hi. destruct (F4 _ _ Ho) as (_ & _ & R). apply (R i Hi); [now apply in_others in Hc|].
        intros ->. apply Hn. now left.
Qed.
Print Assumptions C133_table_partial.

(** An example: two events, one broken down by city, both by plan; two properties are titled
    "Plan", so that the second is numbered. *)
Definition visit_fields := [mkField "segment" TText false; mkField "e_string_0" TText true; mkField "e_string_1" TText true;
  mkField "agg_name" TText false; avg_field; mkField "2024-01-01T00:00:00" TDec true].
Definition order_fields := [mkField "segment" TText false; mkField "e_string_1" TText true; mkField "g_0_string_0" TText true;
  mkField "agg_name" TText false; avg_field; mkField "2024-01-01T00:00:00" TDec true].
Definition shop : list Input :=
  [("visit", (visit_fields, [mkBatch visit_fields
     [[Some (CText "All"); Some (CText "All")]; [Some (CText "Rome"); None]; [Some (CText "pro"); Some (CText "free")];
      [Some (CText "Count"); Some (CText "Count")]; [Some (CDec 7); Some (CDec 5)]; [Some (CDec 7); Some (CDec 5)]]]));
   ("order", (order_fields, [mkBatch order_fields
     [[Some (CText "All")]; [Some (CText "pro")]; [Some (CText "gold")]; [Some (CText "Count")]; [Some (CDec 1)]; [None]]]))].
Definition shop_props := [("e_string_0", "City"); ("g_0_string_0", "Plan"); ("e_string_1", "Plan")].
Example C133_witness :
  option_map (fun b => map f_name (b_fields b)) (report_table shop shop_props) =
    Some ["Event"; "Segment"; "City"; "Plan"; "Plan 2"; "Formula"; "Average"; "2024-01-01T00:00:00"] /\
  option_map b_arrs (report_table shop shop_props) =
    Some [[Some (CText "visit"); Some (CText "visit"); Some (CText "order")];
          [Some (CText "All"); Some (CText "All"); Some (CText "All")];
          [Some (CText "Rome"); None; None];
          [None; None; Some (CText "gold")];
          [Some (CText "pro"); Some (CText "free"); Some (CText "pro")];
          [Some (CText "Count"); Some (CText "Count"); Some (CText "Count")];
          [Some (CDec 7); Some (CDec 5); Some (CDec 1)];
          [Some (CDec 7); Some (CDec 5); None]] /\
  event_tables shop /\ same_fields shop /\ lacking_may_be_null shop /\
  NoDup (map snd (headings shop_props)).
Proof.
  split; [vm_compute; reflexivity|]. split; [vm_compute; reflexivity|]. split; [|split; [|split]].
  - intros name fs bs H. destruct H as [H|[H|[]]]; injection H as <- <- <-;
      (split; [repeat constructor; cbn; intuition discriminate|]; split; [cbn; tauto|]; split; [cbn; tauto|]);
      intros b [<-|[]]; (split; [reflexivity|]); (split; [discriminate|]; split; [reflexivity|]; split; [repeat constructor|]; split; [repeat constructor; cbn; intuition discriminate|]);
      intros f a H E; cbn in H; intuition (match goal with X : _ = (f, a) |- _ => injection X as <- <- end; cbn in *; intuition discriminate).
  - intros n fs bs n' fs' bs' f f' H H'. destruct H as [H|[H|[]]], H' as [H'|[H'|[]]]; injection H as <- <- <-; injection H' as <- <- <-;
      cbn; intuition (subst; cbn in *; congruence).
  - intros n fs bs b n' fs' bs' f H Hb Hr H' Hf. destruct H as [H|[H|[]]], H' as [H'|[H'|[]]]; injection H as <- <- <-; injection H' as <- <- <-;
      cbn in Hf |- *; intuition (subst; cbn in *; try reflexivity; intuition congruence).
  - assert (E : map snd (headings shop_props) = ["Event"; "Segment"; "City"; "Plan"; "Plan 2"; "Formula"]) by (vm_compute; reflexivity).
    rewrite E. repeat constructor; cbn; intuition discriminate.
Qed.

(** ** Reports that are refused *)
(** A report is refused as a whole when two titles are the same, or when a title is the name of
    another column of the table: the average or one of the times.  A user gets there by giving a
    property the display name "Event", "Segment", "Formula" or "Average". *)
Theorem C133_collision_refuted : forall inputs props,
  ~ NoDup (map snd (headings props)) \/
  (exists c, some_event_has inputs c /\ In c (map snd (headings props)) /\ ~ In c (map fst (headings props))) ->
  report_table inputs props = None.
Proof.
  intros inputs props H. unfold report_table. rewrite titles_spec. set (hs := headings props) in *. set (lf := logical_fields inputs).
  destruct (distinct (map f_name lf)) eqn:D0; [|reflexivity]. cbn [negb].
  destruct (reorder_fields (map fst hs) lf) as [lf'|] eqn:ER; [|reflexivity].
  destruct (distinct (map f_name lf')) eqn:D1; [|reflexivity]. cbn [negb].
  destruct (distinct (map f_name (map (rename_field hs) lf'))) eqn:D2; [|reflexivity]. exfalso.
  apply distinct_spec in D1, D2. destruct (reorder_names _ _ _ ER) as [Nm Hin].
  destruct (reorder_ok _ _ Hin) as (first & ER' & Nf & _). rewrite ER in ER'. injection ER' as ->.
  rewrite Nm in D1. destruct (NoDup_app_parts _ _ D1) as [Dh _].
  rewrite map_app, map_app in D2. rewrite (rename_first hs first) in D2 by assumption. fold (others (map fst hs) lf) in D2. rewrite rename_others in D2.
  destruct H as [H|(c & H1 & H2 & H3)]; [apply H; now destruct (NoDup_app_parts _ _ D2)|].
  assert (Hc : In c (map f_name (others (map fst hs) lf))).
  { apply in_others. split; [|exact H3]. apply logical_names. now right. }
  clear - D2 H2 Hc. induction (map snd hs) as [|x l IH]; [contradiction|]. cbn in D2. inversion D2 as [|? ? N1 N2]; subst.
  destruct H2 as [->|H2]; [apply N1; apply in_app_iff; now right|auto].
Qed.
Print Assumptions C133_collision_refuted.
Example C133_collision_witness :
  report_table shop [("e_string_0", "City"); ("e_string_1", "Average")] = None /\
  report_table shop [("e_string_0", "Formula")] = None /\
  report_table shop [("e_string_0", "2024-01-01T00:00:00")] = None /\
  report_table shop [("e_string_0", "Plan 2"); ("e_string_1", "Plan"); ("g_0_string_0", "Plan")] = None /\
  report_table shop [("e_string_0", "Plan 3"); ("e_string_1", "Plan"); ("g_0_string_0", "Plan")] <> None.
Proof. repeat split; vm_compute; congruence. Qed.

(** A report broken down by a property whose column is used up on the way, as that of the time of
    the event is (pivot.rs), is refused, and so is one whose events bring a column "event" of
    their own, as the system property of that column does. *)
Theorem C133_lost_column_refuted : forall inputs props c,
  (In c (map fst (broken_down props)) /\ ~ some_event_has inputs c) \/ some_event_has inputs "event" /\ inputs <> [] ->
  report_table inputs props = None.
Proof.
  intros inputs props c H. unfold report_table. rewrite titles_spec. set (hs := headings props) in *. set (lf := logical_fields inputs).
  destruct (distinct (map f_name lf)) eqn:D0; [|reflexivity]. cbn [negb]. apply distinct_spec in D0.
  destruct H as [[Hc Hn]|[Hev Hne]].
  - destruct (reorder_fields (map fst hs) lf) as [lf'|] eqn:ER; [|reflexivity]. exfalso.
    destruct (reorder_names _ _ _ ER) as [_ Hin]. assert (K : In c (map f_name lf)).
    { apply Hin. unfold hs. rewrite headings_fst. rewrite !in_app_iff. auto. }
    apply logical_names in K as [->|K]; [|contradiction]. apply once_seen in Hc. apply Hc. now left.
  - exfalso. assert (X : exists l, lf = event_field :: l /\ In "event" (map f_name l)).
    { destruct Hev as (n & fs & bs & H & Hc). unfold lf, logical_fields.
      assert (Y : exists l, event_field :: fold_left logical_merge (map (fun i : Input => fst (snd i)) inputs) [] = event_field :: l /\ In "event" (map f_name l)).
      { eexists. split; [reflexivity|]. apply name_logical_all. right. exists fs. split; [|exact Hc]. apply in_map_iff. exists (n, (fs, bs)). auto. }
      destruct inputs as [|(n' & fs' & bs') [|j r]]; [contradiction| |exact Y].
      destruct H as [H|[]]. injection H as -> -> ->. eauto. }
    destruct X as (l & E & Hl). rewrite E in D0. inversion D0 as [|? ? N1 _]; subst. contradiction.
Qed.
Print Assumptions C133_lost_column_refuted.
Example C133_lost_witness :
  report_table shop [("created_at", "Created At")] = None /\ ~ some_event_has shop "created_at" /\
  report_table [("visit", (mkField "event" TText false :: visit_fields, []))] [] = None.
Proof.
  split; [vm_compute; reflexivity|]. split; [|vm_compute; reflexivity].
  intros (n & fs & bs & H & Hc). destruct H as [H|[H|[]]]; injection H as <- <- <-; cbn in Hc; intuition discriminate.
Qed.

(** ** Titles of the breakdowns *)
Lemma dec_no_space n : forall a b, dec n <> a ++ String " "%char b.
Proof.
  intros a b. unfold dec.
  assert (H : forall d a, DecimalString.NilEmpty.string_of_uint d <> a ++ String " "%char b).
  { induction d as [|d IH|d IH|d IH|d IH|d IH|d IH|d IH|d IH|d IH|d IH]; intros [|x a'] E; cbn in E; try discriminate; injection E as _ E; exact (IH _ E). }
  unfold DecimalString.NilZero.string_of_uint. destruct (N.to_uint n); [destruct a as [|x [|y a]]; cbn; discriminate|..]; apply H.
Qed.
Lemma numbered_inj a k a' k' : numbered a k = numbered a' k' -> a = a' /\ k = k'.
Proof.
  unfold numbered. revert a'. induction a as [|x a IH]; intros [|x' a'] E; cbn [append] in E.
  - split; [reflexivity|]. injection E as E. apply dec_inj in E. lia.
  - exfalso. injection E as _ E. exact (dec_no_space _ _ _ E).
  - exfalso. injection E as _ E. symmetry in E. exact (dec_no_space _ _ _ E).
  - injection E as -> E. apply IH in E as [-> ->]. auto.
Qed.
Lemma count_firstn_le (l : list string) x : forall k, count_occ string_dec (firstn k l) x <= count_occ string_dec l x.
Proof. induction l as [|y l IH]; intros [|k]; cbn; try lia. specialize (IH k). destruct (string_dec y x); lia. Qed.
Lemma count_grows (l : list string) x : forall i j, i < j -> nth_error l i = Some x ->
  S (count_occ string_dec (firstn i l) x) <= count_occ string_dec (firstn j l) x.
Proof.
  induction l as [|y l IH]; intros [|i] [|j] Hlt Hi; cbn in *; try discriminate; try lia.
  - injection Hi as ->. destruct (string_dec x x); [lia|congruence].
  - specialize (IH i j ltac:(lia) Hi). destruct (string_dec y x); lia.
Qed.
Lemma nth_occurrence (l : list string) x : forall n, n < count_occ string_dec l x -> exists k, nth_error l k = Some x /\ count_occ string_dec (firstn k l) x = n.
Proof.
  induction l as [|y l IH]; intros n Hn; cbn in Hn; [lia|]. destruct (string_dec y x) as [->|E].
  - destruct n as [|n]; [exists 0; auto|]. destruct (IH n ltac:(lia)) as (k & H1 & H2). exists (S k). cbn. destruct (string_dec x x); [|congruence]. auto.
  - destruct (IH n Hn) as (k & H1 & H2). exists (S k). cbn. destruct (string_dec y x); [congruence|]. auto.
Qed.
Lemma title_at ps k x : nth_error (map snd ps) k = Some x -> title ps k =
  match count_occ string_dec (firstn k (map snd ps)) x with O => x | S n => numbered x (S (S n)) end.
Proof.
  intros H. unfold title. assert (E : snd (nth k ps ("", "")) = x).
  { rewrite <- (map_nth snd). apply nth_error_nth. exact H. }
  rewrite E, firstn_map. destruct (count_occ _ _ x); reflexivity.
Qed.
(** Different properties get different titles, even if they have the same name, as long as no
    name is another one with a space and a number behind it. *)
Theorem C133_titles_distinct_partial : forall props,
  (forall x y n, In x (map snd (broken_down props)) -> In y (map snd (broken_down props)) -> x <> y ++ " " ++ dec n) ->
  NoDup (map (title (broken_down props)) (seq 0 (length (broken_down props)))).
Proof.
  intros props Hx. set (ps := broken_down props) in *.
  apply NoDup_nth_error. intros i j Hi E. rewrite map_length, seq_length in Hi.
  assert (Hi0 : exists x, nth_error (map snd ps) i = Some x).
  { destruct (nth_error (map snd ps) i) eqn:E0; [eauto|]. apply nth_error_None in E0. rewrite map_length in E0. lia. }
  rewrite (map_nth_error _ _ _ (nth_error_seq_ _ _ 0 Hi)) in E. symmetry in E.
  assert (Hj : j < length ps).
  { rewrite <- (seq_length (length ps) 0), <- (map_length (title ps)). apply nth_error_Some. congruence. }
  rewrite (map_nth_error _ _ _ (nth_error_seq_ _ _ 0 Hj)) in E. injection E as E. cbn [Nat.add] in E.
  assert (Hj0 : exists x, nth_error (map snd ps) j = Some x).
  { destruct (nth_error (map snd ps) j) eqn:E0; [eauto|]. apply nth_error_None in E0. rewrite map_length in E0. lia. }
  destruct Hi0 as (x & Hxi), Hj0 as (y & Hyj). rewrite (title_at _ _ _ Hxi), (title_at _ _ _ Hyj) in E.
  pose proof (nth_error_In _ _ Hxi) as Ix. pose proof (nth_error_In _ _ Hyj) as Iy.
  destruct (count_occ string_dec (firstn i (map snd ps)) x) as [|ci] eqn:Ci, (count_occ string_dec (firstn j (map snd ps)) y) as [|cj] eqn:Cj.
  - subst y. destruct (Nat.lt_trichotomy i j) as [L|[L|L]]; [|exact L|].
    + pose proof (count_grows _ _ _ _ L Hxi). lia.
    + pose proof (count_grows _ _ _ _ L Hyj). lia.
  - exfalso. symmetry in E. exact (Hx x y _ Ix Iy E).
  - exfalso. exact (Hx y x _ Iy Ix E).
  - apply numbered_inj in E as [E1 E2]. rewrite E1 in *. destruct (Nat.lt_trichotomy i j) as [L|[L|L]]; [|exact L|].
    + pose proof (count_grows _ _ _ _ L Hxi). lia.
    + pose proof (count_grows _ _ _ _ L Hyj). lia.
Qed.
Print Assumptions C133_titles_distinct_partial.
(** Two properties of one name and a third that is called the same with " 2" behind it cannot
    be in one report. *)
Theorem C133_numbered_name_refuted : forall inputs props x,
  2 <= count_occ string_dec (map snd (broken_down props)) x -> In (x ++ " 2") (map snd (broken_down props)) ->
  report_table inputs props = None.
Proof.
  intros inputs props x H2 Hx. apply C133_collision_refuted. left. set (ps := broken_down props) in *.
  destruct (nth_occurrence _ _ 1 H2) as (i & Hi & Ci).
  destruct (nth_occurrence (map snd ps) (x ++ " 2") 0) as (j & Hj & Cj). { apply (count_occ_In string_dec) in Hx. lia. }
  intros D. unfold headings in D. fold ps in D. cbn [map app] in D. inversion D as [|? ? _ D1]; subst. inversion D1 as [|? ? _ D2]; subst.
  rewrite map_app in D2. apply NoDup_app_parts in D2 as [D2 _]. rewrite map_map in D2. cbn [snd] in D2.
  assert (Li : i < length ps) by (rewrite <- (map_length snd); apply nth_error_Some; congruence).
  assert (Lj : j < length ps) by (rewrite <- (map_length snd); apply nth_error_Some; congruence).
  assert (E : i = j).
  { apply (proj1 (NoDup_nth_error _) D2); [rewrite map_length, seq_length; exact Li|].
    rewrite (map_nth_error _ _ _ (nth_error_seq_ _ _ 0 Li)), (map_nth_error _ _ _ (nth_error_seq_ _ _ 0 Lj)). cbn [Nat.add].
    rewrite (title_at _ _ _ Hi), (title_at _ _ _ Hj), Ci, Cj. reflexivity. }
  subst j. rewrite Hi in Hj. injection Hj as Hj. apply (f_equal String.length) in Hj. rewrite length_app_s in Hj. cbn in Hj. lia.
Qed.
Print Assumptions C133_numbered_name_refuted.
Example C133_numbered_witness :
  let props := [("e_string_0", "Plan 2"); ("e_string_1", "Plan"); ("g_0_string_0", "Plan")] in
  2 <= count_occ string_dec (map snd (broken_down props)) "Plan" /\ In ("Plan" ++ " 2") (map snd (broken_down props)) /\
  map (title (broken_down props)) [0; 1; 2] = ["Plan 2"; "Plan"; "Plan 2"].
Proof. vm_compute. repeat split; auto. Qed.

(** ** The names of the metrics *)
Lemma in_indexed {A} (l : list A) : forall s k x, In (k, x) (indexed s l) <-> exists j, k = s + j /\ nth_error l j = Some x.
Proof.
  induction l as [|y l IH]; intros s k x; cbn [indexed].
  - split; [intros []|intros ([|j] & _ & H); discriminate].
  - cbn [In]. rewrite IH. split.
    + intros [[= <- <-]|(j & -> & H)]; [exists 0; split; [lia|reflexivity]|exists (S j); split; [lia|exact H]].
    + intros ([|j] & -> & H); [left; cbn in H; injection H as ->; f_equal; lia|right; exists j; split; [lia|exact H]].
Qed.
Lemma initial_metric e q m : option_map (fun s => dec (N.of_nat e) ++ "_" ++ dec (N.of_nat q) ++ "_" ++ s) (initial_name m) = metric_col e q m.
Proof. destruct m; reflexivity. Qed.
Lemma pair_metric e q m p : rename_pair e q m = Some p <-> metric_col e q (n_query m) = Some (fst p) /\ snd p = query_name (n_query m).
Proof.
  rewrite <- initial_metric. unfold rename_pair. destruct (initial_name (n_query m)) as [s|]; cbn [option_map].
  - destruct p as [p1 p2]. cbn [fst snd]. split; [intros E; injection E as <- <-; auto|intros [E ->]; injection E as <-; reflexivity].
  - split; [discriminate|intros [E _]; discriminate].
Qed.
Lemma col_inj e q m e' q' m' c : metric_col e q m = Some c -> metric_col e' q' m' = Some c -> e = e' /\ q = q'.
Proof.
  unfold metric_col. intros H H'.
  match type of H with option_map _ ?x = _ => destruct x as [s|]; [|discriminate] end.
  match type of H' with option_map _ ?x = _ => destruct x as [s'|]; [|discriminate] end.
  cbn [option_map] in H, H'. injection H as H. rewrite <- H in H'. injection H' as E. cbn [append] in E.
  apply first_us in E as [E1 E]; [|apply dec_no_us|apply dec_no_us]. apply first_us in E as [E2 E]; [|apply dec_no_us|apply dec_no_us].
  apply dec_inj in E1, E2. lia.
Qed.
Lemma in_rename events ren p : rename_list events = Some ren ->
  (In p ren <-> exists e qs q m, nth_error events e = Some qs /\ nth_error qs q = Some m /\ rename_pair e q m = Some p).
Proof.
  unfold rename_list. destruct (mapO _ _) as [ls|] eqn:E; [|discriminate]. cbn [option_map]. intros [= <-]. rewrite in_concat.
  apply mapO_inv in E.
  assert (X : forall (idx : list (nat * list Named)) ls0, Forall2 (fun (ei : nat * list Named) l => mapO (fun qi : nat * Named => rename_pair (fst ei) (fst qi) (snd qi)) (indexed 0 (snd ei)) = Some l) idx ls0 ->
    ((exists l, In l ls0 /\ In p l) <-> exists e qs q m, In (e, qs) idx /\ nth_error qs q = Some m /\ rename_pair e q m = Some p)).
  { clear. induction 1 as [|[e qs] l idx ls0 H _ IH]; cbn [fst snd] in *.
    - split; [intros (l & [] & _)|intros (e & qs & q & m & [] & _)].
    - apply mapO_inv in H.
      assert (Y : In p l <-> exists q m, nth_error qs q = Some m /\ rename_pair e q m = Some p).
      { assert (Z0 : forall (qx : list (nat * Named)) l0, Forall2 (fun (qi : nat * Named) y => rename_pair e (fst qi) (snd qi) = Some y) qx l0 ->
          (In p l0 <-> exists q m, In (q, m) qx /\ rename_pair e q m = Some p)).
        { clear. induction 1 as [|[q m] y qx l0 H _ IH]; cbn [fst snd] in *; [split; [intros []|intros (q & m & [] & _)]|].
          cbn [In]. rewrite IH. split.
          - intros [<-|(q' & m' & H1 & H2)]; [exists q, m; auto|exists q', m'; auto].
          - intros (q' & m' & [[= <- <-]|H1] & H2); [left; congruence|right; eauto]. }
        rewrite (Z0 _ _ H). split.
        - intros (q & m & H1 & H2). apply in_indexed in H1 as (j & -> & H1). exists j, m. auto.
        - intros (q & m & H1 & H2). exists q, m. split; [|exact H2]. apply in_indexed. exists q. auto. }
      split.
      + intros (l0 & [<-|Hl] & Hp); [apply Y in Hp as (q & m & H1 & H2); exists e, qs, q, m; split; [now left|auto]|].
        destruct (proj1 IH (ex_intro _ l0 (conj Hl Hp))) as (e' & qs' & q & m & H1 & H2). exists e', qs', q, m. split; [now right|exact H2].
      + intros (e' & qs' & q & m & [[= <- <-]|H1] & H2 & H3); [exists l; split; [now left|apply Y; eauto]|].
        destruct (proj2 IH (ex_intro _ e' (ex_intro _ qs' (ex_intro _ q (ex_intro _ m (conj H1 (conj H2 H3))))))) as (l0 & H4 & H5).
        exists l0. split; [now right|exact H5]. }
  rewrite (X _ _ E). split.
  - intros (e & qs & q & m & H1 & H2). apply in_indexed in H1 as (j & -> & H1). exists j, qs, q, m. auto.
  - intros (e & qs & q & m & H1 & H2). exists e, qs, q, m. split; [|exact H2]. apply in_indexed. exists e. auto.
Qed.
Lemma rename_list_some events : (forall qs m, In qs events -> In m qs -> metric_col 0 0 (n_query m) <> None) -> exists ren, rename_list events = Some ren.
Proof.
  intros H. unfold rename_list.
  destruct (mapO_rel (fun ei : nat * list Named => mapO (fun qi : nat * Named => rename_pair (fst ei) (fst qi) (snd qi)) (indexed 0 (snd ei)))
    (fun _ _ => True) (indexed 0 events)) as (ls & E & _); [|rewrite E; cbn; eauto].
  intros [e qs] He. apply in_indexed in He as (j & _ & He). apply nth_error_In in He. cbn [fst snd].
  destruct (mapO_rel (fun qi : nat * Named => rename_pair e (fst qi) (snd qi)) (fun _ _ => True) (indexed 0 qs)) as (l & E & _); [|eauto].
  intros [q m] Hq. apply in_indexed in Hq as (k & _ & Hq). apply nth_error_In in Hq. cbn [fst snd].
  specialize (H qs m He Hq). unfold rename_pair. destruct (n_query m); cbn in *; try congruence; eauto.
Qed.
(** What the table of one event shows in the column of the metrics: the text, or nothing. *)
Definition metrics_named (b : Batch) : Prop :=
  forall i v, shows b "agg_name" i v -> v = None \/ exists s, v = Some (CText s).
(** Every row of a metric is called by the name of that metric, of all the metrics of all the
    events, and the other columns stay as they are. *)
Theorem C133_formula : forall events, (forall qs m, In qs events -> In m qs -> metric_col 0 0 (n_query m) <> None) ->
  exists ren, rename_list events = Some ren /\
  forall b n, table b n -> metrics_named b ->
  exists out, rename_rows "agg_name" ren b = Some out /\ table out n /\ b_fields out = b_fields b /\
    (forall c i v, c <> "agg_name" -> (shows out c i v <-> shows b c i v)) /\
    forall e qs q m col i, nth_error events e = Some qs -> nth_error qs q = Some m -> metric_col e q (n_query m) = Some col ->
      shows b "agg_name" i (Some (CText col)) -> shows out "agg_name" i (Some (CText (query_name (n_query m)))).
Proof.
  intros events Hs. destruct (rename_list_some events Hs) as (ren & ER). exists ren. split; [exact ER|].
  intros b n T Mn. pose proof T as (Ne & L & F & D & Z0). unfold rename_rows.
  set (g := fun v : option Cell => match rename_cell ren v with Some w => w | None => v end).
  set (h := fun fa : Field * Arr => if String.eqb (f_name (fst fa)) "agg_name" then map g (snd fa) else snd fa).
  assert (EM : mapO (fun fa : Field * Arr => if String.eqb (f_name (fst fa)) "agg_name" then mapO (rename_cell ren) (snd fa) else Some (snd fa))
             (combine (b_fields b) (b_arrs b)) = Some (map h (combine (b_fields b) (b_arrs b)))).
  { apply mapO_total. intros [f a] Hfa. unfold h. cbn [fst snd]. destruct (String.eqb (f_name f) "agg_name") eqn:Ef; [|reflexivity].
    apply String.eqb_eq in Ef. apply mapO_total. intros v Hv. apply In_nth_error in Hv as (i & Hi).
    unfold g. destruct (Mn i v) as [->|(s & ->)]; [exists f, a; auto|reflexivity|]. cbn [rename_cell]. destruct (find _ ren); reflexivity. }
  rewrite EM. set (arrs := map h (combine (b_fields b) (b_arrs b))).
  assert (Cmb : combine (b_fields b) arrs = map (fun fa => (fst fa, h fa)) (combine (b_fields b) (b_arrs b))).
  { unfold arrs. rewrite <- (combine_fst (b_fields b) (b_arrs b) L) at 1. apply combine_map2. }
  assert (Gn : forall v, g v = None -> v = None).
  { intros [[z|z|s|z]|]; unfold g; cbn [rename_cell]; try discriminate; [|auto]. destruct (find _ ren); discriminate. }
  destruct (try_new_table (b_fields b) arrs n) as [ET TT].
  - unfold arrs. destruct (b_fields b), (b_arrs b); cbn in *; try congruence; discriminate.
  - unfold arrs. rewrite map_length, combine_length. lia.
  - apply Forall_forall. intros a Ha. unfold arrs in Ha. apply in_map_iff in Ha as ([f a0] & <- & Hfa). unfold h. cbn [fst snd].
    destruct (String.eqb _ _); [rewrite map_length|]; exact (table_col _ _ _ _ T Hfa).
  - exact D.
  - intros f a H Ef. rewrite Cmb in H. apply in_map_iff in H as ([f0 a0] & [= <- <-] & Hfa). cbn [fst] in Ef. unfold h. cbn [fst snd].
    intros K. apply (Z0 f0 a0 Hfa Ef). destruct (String.eqb _ _); [|exact K]. apply in_map_iff in K as (v & Ev & Hv). apply Gn in Ev. now subst.
  - exists (mkBatch (b_fields b) arrs). split; [exact ET|]. split; [exact TT|]. split; [reflexivity|]. split.
    + intros c i v Hc. unfold shows. cbn [b_fields b_arrs]. rewrite Cmb. split.
      * intros (f & a & H & En & X). apply in_map_iff in H as ([f0 a0] & [= <- <-] & Hfa). cbn [fst] in *. exists f0, a0. split; [exact Hfa|]. split; [exact En|].
        unfold h in X. cbn [fst snd] in X. apply String.eqb_neq in Hc. rewrite <- En in Hc. rewrite Hc in X. exact X.
      * intros (f & a & H & En & X). exists f, (h (f, a)). split; [apply in_map_iff; exists (f, a); auto|]. split; [exact En|].
        unfold h. cbn [fst snd]. apply String.eqb_neq in Hc. rewrite <- En in Hc. now rewrite Hc.
    + intros e qs q m col i He Hq Hcol (f & a & H & En & X). exists f, (h (f, a)). cbn [b_fields b_arrs]. rewrite Cmb.
      split; [apply in_map_iff; exists (f, a); auto|]. split; [exact En|]. unfold h. cbn [fst snd]. rewrite En, String.eqb_refl.
      rewrite (map_nth_error g _ _ X). f_equal. unfold g. cbn [rename_cell].
      destruct (find (fun p => String.eqb col (fst p)) ren) as [p|] eqn:Ef.
      * apply find_some in Ef as [Ef1 Ef2]. apply String.eqb_eq in Ef2. apply (in_rename _ _ _ ER) in Ef1 as (e' & qs' & q' & m' & He' & Hq' & Hp).
        apply pair_metric in Hp as [Hp1 Hp2]. rewrite <- Ef2 in Hp1. destruct (col_inj _ _ _ _ _ _ _ Hcol Hp1) as [-> ->].
        rewrite He in He'. injection He' as <-. rewrite Hq in Hq'. injection Hq' as <-. now rewrite Hp2.
      * exfalso. assert (K : In (col, query_name (n_query m)) ren).
        { apply (in_rename _ _ _ ER). exists e, qs, q, m. split; [exact He|]. split; [exact Hq|]. apply pair_metric. auto. }
        apply (find_none _ _ Ef) in K. cbn [fst] in K. rewrite String.eqb_refl in K. discriminate.
Qed.
Print Assumptions C133_formula.
Definition two_metrics : list (list Named) :=
  [[mkNamed QCount None; mkNamed (QProp "Price" AfSum) (Some "Revenue")]; [mkNamed QUnique None]].
Example C133_formula_witness :
  (forall qs m, In qs two_metrics -> In m qs -> metric_col 0 0 (n_query m) <> None) /\
  exists ren, rename_list two_metrics = Some ren /\
  option_map b_arrs (rename_rows "agg_name" ren (mkBatch [mkField "segment" TText false; mkField "agg_name" TText false]
     [[Some (CText "0_1_agg"); Some (CText "All")]; [Some (CText "0_1_agg"); Some (CText "1_0_partitioned_count")]])) =
  Some [[Some (CText "0_1_agg"); Some (CText "All")]; [Some (CText "SUM(Price)"); Some (CText "Count unique")]].
Proof.
  split.
  - intros qs m H Hm. destruct H as [<-|[<-|[]]]; cbn in Hm; intuition (subst; discriminate).
  - eexists. split; [vm_compute; reflexivity|]. vm_compute. reflexivity.
Qed.

(** The name the user gave to a metric is not shown: only the name made from the function and the
    property is. *)
Theorem C133_given_name_refuted : forall events ren b n out e qs q m col i given,
  rename_list events = Some ren -> table b n -> metrics_named b -> rename_rows "agg_name" ren b = Some out ->
  (forall qs m, In qs events -> In m qs -> metric_col 0 0 (n_query m) <> None) ->
  nth_error events e = Some qs -> nth_error qs q = Some m -> metric_col e q (n_query m) = Some col ->
  shows b "agg_name" i (Some (CText col)) -> n_name m = Some given -> given <> query_name (n_query m) ->
  ~ shows out "agg_name" i (Some (CText given)).
Proof.
  intros events ren b n out e qs q m col i given ER T Mn EO Hs He Hq Hc Hsh Hg Hne K.
  destruct (C133_formula events Hs) as (ren' & ER' & H). rewrite ER in ER'. injection ER' as <-.
  destruct (H b n T Mn) as (out' & EO' & T' & _ & _ & R). rewrite EO in EO'. injection EO' as <-.
  pose proof (R _ _ _ _ _ _ He Hq Hc Hsh) as K'. pose proof (shows_fun _ _ _ _ _ _ T' K K') as E. injection E as E. congruence.
Qed.
Print Assumptions C133_given_name_refuted.
(** Two metrics of one event can bear the same name, and their rows cannot be told apart by it:
    counting events and counting per group with the function "count" are one example, two
    properties of the same name, one of the event and one of a group, another. *)
Theorem C133_same_formula_refuted : forall events ren b n out e qs q m col i q' m' col' i',
  rename_list events = Some ren -> table b n -> metrics_named b -> rename_rows "agg_name" ren b = Some out ->
  (forall qs m, In qs events -> In m qs -> metric_col 0 0 (n_query m) <> None) ->
  nth_error events e = Some qs -> nth_error qs q = Some m -> metric_col e q (n_query m) = Some col ->
  nth_error qs q' = Some m' -> metric_col e q' (n_query m') = Some col' ->
  query_name (n_query m) = query_name (n_query m') ->
  shows b "agg_name" i (Some (CText col)) -> shows b "agg_name" i' (Some (CText col')) ->
  exists v, shows out "agg_name" i v /\ shows out "agg_name" i' v.
Proof.
  intros events ren b n out e qs q m col i q' m' col' i' ER T Mn EO Hs He Hq Hc Hq' Hc' En Hi Hi'.
  destruct (C133_formula events Hs) as (ren' & ER' & H). rewrite ER in ER'. injection ER' as <-.
  destruct (H b n T Mn) as (out' & EO' & T' & _ & _ & R). rewrite EO in EO'. injection EO' as <-.
  eexists. split; [exact (R _ _ _ _ _ _ He Hq Hc Hi)|]. rewrite En. exact (R _ _ _ _ _ _ He Hq' Hc' Hi').
Qed.
Print Assumptions C133_same_formula_refuted.
Example C133_same_formula_witness :
  QCount <> QPer AfCount /\ query_name QCount = query_name (QPer AfCount) /\
  metric_col 0 0 QCount <> metric_col 0 1 (QPer AfCount).
Proof. vm_compute. repeat split; congruence. Qed.
