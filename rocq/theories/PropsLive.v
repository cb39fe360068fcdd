(** Property C127: calls that are in order are accepted.  And the rest of C125: two calls
    that stop the server. *)
From Coq Require Import List NArith ZArith String Ascii Bool Lia.
From Verif Require Import AMap Kv KvKeys KvKeysFacts KvFacts Md MdOps MdFrame MdTyped MdIndex MdEntities MdProps PropsNames PropsGroups
  Ingest IngestFacts PropsIngest IngestServer PropsServer.
Import ListNotations.
Local Open Scope string_scope.

(** ** What a call finds in a project whose ids were never linked *)
Section Good.
Variables (snake : string -> string) (p : N).
Definition elsewhere (q _ : N) : Prop := q <> p.
Record Good (s : Store) : Prop := { gd_typed : Typed elsewhere s; gd_props : PropsOk p KEvent s; gd_events : EventsOk p s }.
Definition no_link (o : MdOp) : Prop := wf_op o = true /\ match o with OMerge q _ _ _ _ => q <> p | _ => True end.
Lemma good_step o s : no_link o -> Good s -> Good (md_step snake o s).
Proof.
  intros [W L] [T P E]. constructor; [|now apply md_step_props|now apply md_step_events]. apply md_typed; auto.
Qed.
Lemma good_run ops s : Forall no_link ops -> Good s -> Good (md_run snake ops s).
Proof. unfold md_run. intro F. revert s. induction F as [|o r Ho F IH]; cbn [fold_left]; intros s G; [exact G|]. apply IH. now apply good_step. Qed.
Lemma good_nil : Good []. Proof. constructor; [apply Typed_nil|apply Indexed_nil|apply Indexed_nil]. Qed.

(** Names. *)
Definition event_known (n : string) (s : Store) : Prop := kg (kidx (NProj p PEvents) (IName, n)) s <> None.
Lemma event_known_ok n s : Good s -> event_known n s -> exists e, event_by_name p n s = Ok e.
Proof.
  intros G K. unfold event_known in K. destruct (kg _ s) as [v|] eqn:E; [|contradiction].
  destruct (ix_idx _ _ _ (gd_events _ G) _ _ E) as (id & r & ks & -> & Hd & Hk & Hi). destruct r; try discriminate.
  unfold event_by_name. change (make_index_key (events_ns p) "name" n) with (render (kidx (NProj p PEvents) (IName, n))).
  unfold get_index. fold (kg (kidx (NProj p PEvents) (IName, n)) s). rewrite E. cbn [read_num]. eexists. apply event_by_id_spec. exact Hd.
Qed.
Lemma event_known_iff n s : Good s -> event_known n s <-> exists e, event_by_name p n s = Ok e.
Proof.
  intro G. split; [now apply event_known_ok|]. intros (e & H). unfold event_by_name in H.
  change (make_index_key (events_ns p) "name" n) with (render (kidx (NProj p PEvents) (IName, n))) in H.
  pose proof (get_index_ix _ _ s IName n (gd_events _ G)) as X. destruct (get_index _ _); [|discriminate]. unfold event_known. now rewrite X.
Qed.
Lemma event_made n l s : Good s -> exists e s', event_get_or_create p n None l s = (Ok e, s') /\ (forall m, event_known m s -> event_known m s') /\
  exists x, event_by_id p (ev_id e) s' = Ok x.
Proof.
  intro G. pose proof (event_read _ p n None l s (gd_typed _ G)) as NP.
  destruct (event_get_or_create p n None l s) as [[e|x] s'] eqn:E.
  - exists e, s'. split; [reflexivity|]. split; [|destruct (event_named _ _ _ _ _ _ _ (gd_events _ G) E) as (_ & e' & H & _); eauto].
    intros m K. revert E. unfold event_get_or_create. destruct (event_by_name p n s) as [y|[]]; try discriminate; [intros [= _ <-]; exact K|].
    unfold event_create. destruct (check_insert _ _); [|discriminate]. destruct (next_seq _ s) as [[id|] s1] eqn:En; [|discriminate]. cbv zeta.
    set (s3 := insert_index _ _ _).
    assert (K3 : event_known m s3).
    { unfold event_known, s3. rewrite event_okeys. destruct (in_dec ik_dec (IName, m) (iks [Some (IName, n); option_map (pair IDisplayName) None])) as [Hi|Hi].
      - rewrite kg_insert_in; [discriminate|exact Hi].
      - rewrite kg_insert_out; [|reflexivity|intros ik Hik Eq; apply kidx_inj in Eq; now subst ik].
        change (make_data_value_key (events_ns p) id) with (render (KData (NProj p PEvents) id)). rewrite kg_put_ne; [|reflexivity|reflexivity|discriminate].
        assert (O : only (fun k => k = KSeq (NProj p PEvents)) s s1) by (eapply next_seq_only; [exact En|]; exists (KSeq (NProj p PEvents)); auto).
        rewrite (only_kg _ _ _ _ O); [exact K|reflexivity|discriminate]. }
    assert (Fr : only (in_dict p TABLE_EVENTS COLUMN_EVENT) s3 (snd (dict_get_or_create p TABLE_EVENTS COLUMN_EVENT n s3))) by (apply dict_frame; auto).
    destruct (dict_get_or_create p TABLE_EVENTS COLUMN_EVENT n s3) as [[?|?] s4]; [|discriminate]. intros [= _ <-]. unfold event_known.
    cbn [snd] in Fr. rewrite (only_kg _ _ _ _ Fr); [exact K3|reflexivity|exact (fun x => x)].
  - exfalso. cbn [fst] in NP. revert E. unfold event_get_or_create. destruct (event_by_name p n s) as [y|z] eqn:En; [discriminate|].
    pose proof (event_name_read _ p n s (gd_typed _ G)) as NR. rewrite En in NR.
    assert (z = NotFound) as ->.
    { revert En NR. unfold event_by_name. change (make_index_key (events_ns p) "name" n) with (render (kidx (NProj p PEvents) (IName, n))).
      pose proof (get_index_ix _ _ s IName n (gd_events _ G)) as X. destruct (get_index _ _) as [id|]; [|destruct X; congruence].
      unfold event_by_id. destruct (kget _ s) as [[| |[]]|]; congruence. }
    assert (K : kg (kidx (NProj p PEvents) (IName, n)) s = None).
    { destruct (kg (kidx (NProj p PEvents) (IName, n)) s) as [v|] eqn:Ek; [|reflexivity]. exfalso.
      destruct (event_known_ok n s G) as (e & He); [unfold event_known; congruence|congruence]. }
    unfold event_create. rewrite event_okeys. destruct (check_insert s _) eqn:Ec.
    2: { intros _. rewrite (proj2 (check_insert_spec _ _ s)) in Ec; [discriminate|]. intros ik Hik. apply iks_in in Hik; cbn in Hik; destruct Hik as [[= <-]|[Hd|[]]]; [exact K|discriminate]. }
    change (make_id_seq_key (events_ns p)) with (render (KSeq (NProj p PEvents))).
    destruct (next_seq (render (KSeq (NProj p PEvents))) s) as [[id|w] s1] eqn:Es.
    2: { destruct (next_seq_indexed _ _ _ _ _ (gd_events _ G) Es) as (id & [=] & _). }
    intro E. apply NP. revert NP E. unfold event_get_or_create. cbv zeta. set (s3 := insert_index _ _ _). intros NP E.
    destruct (dict_get_or_create p TABLE_EVENTS COLUMN_EVENT n s3) as [[?|w] s4] eqn:Ed; [discriminate|]. injection E as <- _.
    revert Ed. unfold dict_get_or_create. destruct (kget _ s3) as [v|]; [destruct (read_num v); intros [=]; congruence|].
    unfold next_seq, next_from. destruct (kget _ s3) as [v|]; [destruct (read_num v); intros [=]; congruence|intros [=]].
Qed.
Lemma attach_known id x l s : event_by_id p id s = Ok x -> exists s', event_attach p id l s = (Ok tt, s') /\ forall m, event_known m s -> event_known m s'.
Proof.
  intro E. unfold event_attach. rewrite E. eexists. split; [reflexivity|]. intros m K. unfold event_known.
  change (make_data_value_key (events_ns p) (ev_id x)) with (render (KData (NProj p PEvents) (ev_id x))). rewrite kg_put_ne; [exact K|reflexivity|reflexivity|discriminate].
Qed.
(** The property of a name, or none. *)
Lemma prop_name_cases n s : Good s -> (exists x, prop_by_name p KEvent n s = Ok x) \/
  (prop_by_name p KEvent n s = Err NotFound /\ kg (kidx (NProj p PEventProps) (IName, n)) s = None).
Proof.
  intro G. unfold prop_by_name. change (make_index_key (prop_ns p KEvent) "name" n) with (render (kidx (NProj p PEventProps) (IName, n))).
  pose proof (get_index_ix _ _ s IName n (gd_props _ G)) as X. change (kind_ns p KEvent) with (NProj p PEventProps) in X.
  destruct (get_index _ _) as [id|e]; [|destruct X as [-> X]; auto].
  destruct (ix_idx _ _ _ (gd_props _ G) _ _ X) as (id' & r & ks & [= <-] & Hd & Hk & _). destruct r; try discriminate.
  left. eexists. apply prop_by_id_spec. exact Hd.
Qed.
Lemma prop_made n b s : Good s ->
  exists x s', prop_get_or_create snake p KEvent n None (PBase b) false s = (Ok x, s') /\
    prop_by_name p KEvent n s' = Ok x /\
    (prop_by_name p KEvent n s = Ok x \/ prop_by_name p KEvent n s = Err NotFound /\ pp_type x = PBase b) /\
    (forall m, m <> n -> prop_by_name p KEvent m s' = prop_by_name p KEvent m s).
Proof.
  intro G. destruct (prop_name_cases n s G) as [(x & E)|(E & K)].
  - exists x, s. unfold prop_get_or_create. rewrite E. auto.
  - pose proof (prop_get_or_create_ok snake p KEvent n None (PBase b) false s (gd_props _ G)) as Ok'.
    pose proof (prop_get_or_create_spec snake p KEvent n None (PBase b) false s) as Spec.
    assert (Tot : exists x s', prop_get_or_create snake p KEvent n None (PBase b) false s = (Ok x, s') /\ pp_type x = PBase b /\
       forall id y, pp_name y <> n -> prop_by_id p KEvent id s' = Ok y <-> prop_by_id p KEvent id s = Ok y).
    { unfold prop_get_or_create. rewrite E. unfold prop_create. rewrite prop_okeys.
      rewrite (proj2 (check_insert_spec (kind_ns p KEvent) _ s)).
      2: { intros ik Hik. apply iks_in in Hik. cbn in Hik. destruct Hik as [[= <-]|[Hd|[]]]; [exact K|discriminate]. }
      change (make_id_seq_key (prop_ns p KEvent)) with (render (KSeq (kind_ns p KEvent))).
      destruct (next_seq (render (KSeq (kind_ns p KEvent))) s) as [rr s1] eqn:Es.
      destruct (next_seq_indexed _ _ _ _ _ (gd_props _ G) Es) as (id & -> & _ & Es1 & Hno & _).
      assert (T1 : Typed elsewhere s1).
      { eapply typed_next; [exact Es| |exact (gd_typed _ G)]. exists (KSeq (kind_ns p KEvent)). repeat split. }
      change (make_id_seq_key _) with (render (KOrderSeq p (short_name (PBase b)))).
      assert (Wo : wf_key (KOrderSeq p (short_name (PBase b))) = true) by now destruct b.
      destruct (seq_ok _ 0 (KOrderSeq p (short_name (PBase b))) s1 Wo (fun v F => F) T1) as (o & Eo).
      unfold next_zero_seq. destruct (next_from 0 _ s1) as [ro s2] eqn:E2. cbn [fst] in Eo. subst ro. cbv zeta. cbn [storable negb].
      eexists. eexists. split; [reflexivity|]. split; [reflexivity|]. intros i y Hy. rewrite !prop_by_id_spec.
      rewrite insert_index_snoc. change (make_index_key _ _ _) with (render (KGlobalCol p (column_name snake (mkProperty id KEvent n None o (PBase b) false)))).
      rewrite kg_put_ne; [|reflexivity|reflexivity|discriminate]. rewrite kg_insert_out; [|reflexivity|intros; discriminate].
      rewrite prop_data_key. destruct (N.eq_dec i id) as [->|Hi].
      - rewrite kg_put_eq. split; [intros [= <-]; now destruct Hy|]. rewrite Hno. discriminate.
      - rewrite kg_put_ne; [|reflexivity|reflexivity|congruence].
        assert (E12 : kg (KData (kind_ns p KEvent) i) s2 = kg (KData (kind_ns p KEvent) i) s1).
        { unfold next_from in E2. destruct (kget _ s1) as [v|]; [destruct (read_num v); [|discriminate]|]; apply (f_equal snd) in E2; cbn [snd] in E2; subst s2;
          (rewrite kg_put_ne; [reflexivity|reflexivity|exact Wo|discriminate]). }
        rewrite E12, Es1. rewrite kg_put_ne; [reflexivity|reflexivity|reflexivity|discriminate]. }
    destruct Tot as (x & s' & Ec & Et & Other). rewrite Ec in Ok'. cbn [snd] in Ok'. destruct (Spec x s' (gd_props _ G) Ec) as (Hid & Hn & Hkd).
    exists x, s'. split; [exact Ec|]. split; [apply prop_by_name_iff; [exact Ok'|]; eauto|]. split; [auto|].
    intros m Hm.
    assert (G' : Good s').
    { replace s' with (md_step snake (OPropGetOrCreate p KEvent n None (PBase b) false) s) by (cbn [md_step]; now rewrite Ec). apply good_step; [now split|exact G]. }
    destruct (prop_name_cases m s G) as [(y & Ey)|(Ey & _)].
    + rewrite Ey. apply prop_by_name_iff; [exact Ok'|]. apply prop_by_name_iff in Ey as (i & Hi & Hyn); [|exact (gd_props _ G)].
      exists i. split; [apply Other; [congruence|exact Hi]|exact Hyn].
    + rewrite Ey. destruct (prop_name_cases m s' G') as [(y & Ey')|(Ey' & _)]; [|exact Ey'].
      apply prop_by_name_iff in Ey' as (i & Hi & Hyn); [|exact Ok']. apply Other in Hi; [|congruence].
      assert (prop_by_name p KEvent m s = Ok y) by (apply prop_by_name_iff; [exact (gd_props _ G)|eauto]). congruence.
Qed.
End Good.

Lemma bind_eq {A B} (m : M A) (f : A -> M B) s x s1 : m s = (Ok x, s1) -> bind m f s = f x s1.
Proof. intro E. unfold bind. now rewrite E. Qed.

(** ** Specification: a value fits a property *)
(** The value is stored as one of the column's type: a string for a dictionary or a text
    property, a number for a decimal property, a number in range for an integer property, a
    truth value for a boolean one.  (No date fits any property: C76.) *)
Definition accepts (isdict : Property -> bool) (pr : Property) (v : PropValue) : Prop :=
  if isdict pr then exists t, v = PVString t
  else match v with
       | PVString _ => pp_type pr = PBase TString
       | PVNumber m sc => pp_type pr = PBase TDecimal \/
           exists b bits, pp_type pr = PBase b /\ int_bits b = Some bits /\ (- 2 ^ bits <= Z.quot m (10 ^ Z.of_N sc) < 2 ^ bits)%Z
       | PVBool _ => pp_type pr = PBase TBoolean
       | PVDate _ => False
       end.
Definition not_date (v : PropValue) : Prop := match v with PVDate _ => False | _ => True end.

Section Live.
Variable snake : string -> string.
Variable isdict : Property -> bool.
Variables (enc : SVal -> N) (dcv : N -> SVal).
Hypothesis snake_ok : forall x, no_slash x = true -> no_slash (snake x) = true.
Hypothesis dict_text : forall pr, isdict pr = true -> pp_type pr = PBase TString.
Variable p : N.

(** What stays true during a call that began in [s0]. *)
Record Inv (s0 s : St) : Prop := {
  iv_good : Good p (st_md s);
  iv_begin : event_known p EVENT_SESSION_BEGIN (st_md s);
  iv_props : forall m x, prop_by_name p KEvent m (st_md s0) = Ok x -> prop_by_name p KEvent m (st_md s) = Ok x;
  iv_proj : kg (KData (NRoot RProjects) p) (st_md s) = kg (KData (NRoot RProjects) p) (st_md s0) }.
Lemma Inv_trans a b c : Inv a b -> Inv b c -> Inv a c.
Proof. intros [G1 B1 P1 R1] [G2 B2 P2 R2]. constructor; auto. congruence. Qed.
Lemma Inv_same s s' : st_md s' = st_md s -> Good p (st_md s) -> event_known p EVENT_SESSION_BEGIN (st_md s) -> Inv s s'.
Proof. intros E G B. constructor; rewrite E; auto. Qed.

(** Calls that leave the names of properties and events alone. *)
Definition aside (o : MdOp) : Prop := no_link p o /\
  (forall k, in_ns (NProj p PEventProps) k -> ~ touches o k) /\ ~ touches o (KData (NRoot RProjects) p) /\
  ~ touches o (kidx (NProj p PEvents) (IName, EVENT_SESSION_BEGIN)).
Lemma prop_name_same m (s s' : Store) : (forall k, in_ns (NProj p PEventProps) k -> wf_key k = true -> kg k s' = kg k s) ->
  prop_by_name p KEvent m s' = prop_by_name p KEvent m s.
Proof.
  intro H. unfold prop_by_name, get_index, prop_by_id.
  change (make_index_key (prop_ns p KEvent) "name" m) with (render (kidx (NProj p PEventProps) (IName, m))).
  change (kget (render (kidx (NProj p PEventProps) (IName, m))) s') with (kg (kidx (NProj p PEventProps) (IName, m)) s').
  change (kget (render (kidx (NProj p PEventProps) (IName, m))) s) with (kg (kidx (NProj p PEventProps) (IName, m)) s).
  rewrite H by reflexivity. destruct (kg (kidx (NProj p PEventProps) (IName, m)) s) as [v|]; [|reflexivity].
  destruct (read_num v) as [id|]; [|reflexivity]. rewrite prop_data_key.
  change (kget (render (KData (kind_ns p KEvent) id)) s') with (kg (KData (kind_ns p KEvent) id) s').
  change (kget (render (KData (kind_ns p KEvent) id)) s) with (kg (KData (kind_ns p KEvent) id) s). now rewrite H.
Qed.
Lemma Inv_aside o s m' : aside o -> Good p (st_md s) -> event_known p EVENT_SESSION_BEGIN (st_md s) -> m' = md_step snake o (st_md s) ->
  Inv s (mkSt m' (st_events s) (st_groups s)).
Proof.
  intros (L & A & B & C) G K ->. pose proof (md_frame snake o (st_md s) (proj1 L)) as F. constructor; cbn [st_md].
  - now apply good_step.
  - unfold event_known. rewrite (only_kg _ _ _ _ F); [exact K|reflexivity|exact C].
  - intros m x H. rewrite <- H. apply prop_name_same. intros k Hk W. apply (only_kg _ _ _ _ F); auto.
  - apply (only_kg _ _ _ _ F); auto.
Qed.
(** [m] succeeds and keeps the invariant. *)
Definition does_well {A} (m : M A) (Q : A -> Prop) : Prop :=
  forall s0 s, Inv s0 s -> exists x s', m s = (Ok x, s') /\ Inv s0 s' /\ Q x.
Lemma well_bind {A B} (m : M A) (f : A -> M B) (P : A -> Prop) Q : does_well m P -> (forall x, P x -> does_well (f x) Q) -> does_well (bind m f) Q.
Proof.
  intros Hm Hf s0 s I. destruct (Hm s0 s I) as (x & s1 & E & I1 & Hx). destruct (Hf x Hx s0 s1 I1) as (y & s2 & E2 & I2 & Hy).
  exists y, s2. unfold bind. rewrite E. auto.
Qed.
Lemma well_ret {A} (x : A) (Q : A -> Prop) : Q x -> does_well (ret x) Q.
Proof. intros H s0 s I. exists x, s. auto. Qed.
Lemma well_op {A} (o : MdOp) (f : Store -> Res A * Store) (Q : A -> Prop) : aside o -> (forall m, snd (f m) = md_step snake o m) ->
  (forall m, Good p m -> exists x, fst (f m) = Ok x /\ Q x) -> does_well (on_md f) Q.
Proof.
  intros Ha Hs Ht s0 s I. destruct (Ht (st_md s) (iv_good _ _ I)) as (x & Ex & Hx). unfold on_md.
  pose proof (Hs (st_md s)) as E. destruct (f (st_md s)) as [y m']. cbn in *. subst y. exists x. eexists. split; [reflexivity|]. split; [|exact Hx].
  eapply Inv_trans; [exact I|]. apply (Inv_aside o); auto; apply I.
Qed.
Lemma well_each {A B} (f : A -> M B) (Q : B -> Prop) l : (forall x, In x l -> does_well (f x) Q) -> does_well (each f l) (Forall Q).
Proof.
  induction l as [|x r IH]; cbn [each]; intro H; [now apply well_ret|].
  eapply well_bind; [apply H; now left|]. intros y Hy. eapply well_bind; [apply IH; intros; apply H; now right|].
  intros ys Hys. apply well_ret. now constructor.
Qed.
Ltac side := split; [now split|split; [intros k Hk T; destruct k; cbn in Hk, T; try contradiction; intuition congruence|split; unfold kidx; cbn; intuition congruence]].
Definition fits_col (n : Named) : Prop := btype_eqb (sval_type (nv_val n)) (nv_type n) = true.
Lemma well_value x : accepts isdict (fst x) (snd x) -> does_well (named_property snake isdict p x) fits_col.
Proof.
  destruct x as [pr v]. cbn [fst snd]. unfold accepts, named_property, property_to_value. intro H. destruct (isdict pr) eqn:Ed.
  - destruct H as (t & ->). eapply (well_bind _ _ (fun v => sval_type v = TInt64)).
    + eapply (well_bind _ _ (fun _ => True)); [|intros id _; now apply well_ret].
      apply (well_op (ODictEncode p TABLE_EVENTS (column_name snake pr) t)); [|reflexivity|].
      * split; [split; [|exact Logic.I]; cbn [wf_op]; now rewrite col_no_slash|].
        split; [intros k Hk T; destruct k; cbn in Hk, T; try contradiction; intuition congruence|split; cbn; intuition congruence].
      * intros m G. destruct (dict_read (elsewhere p) p TABLE_EVENTS (column_name snake pr) t m) as (n & En); [now rewrite col_no_slash|exact (gd_typed _ _ G)|eauto].
    + intros sv Hv. apply well_ret. unfold fits_col. cbn. unfold column_type. rewrite Ed, Hv. reflexivity.
  - eapply (well_bind _ _ (fun sv => exists b, pp_type pr = PBase b /\ sval_type sv = b)).
    + destruct v as [ms|t|m sc|b]; try contradiction.
      * rewrite H. apply well_ret. eauto.
      * destruct H as [->|(b & bits & -> & Eb & R)]; [apply well_ret; eauto|].
        assert (Et : to_int bits m sc = Some (Z.quot m (10 ^ Z.of_N sc))).
        { unfold to_int. destruct (Z.leb_spec (- 2 ^ bits) (Z.quot m (10 ^ Z.of_N sc))), (Z.ltb_spec (Z.quot m (10 ^ Z.of_N sc)) (2 ^ bits)); cbn; try reflexivity; lia. }
        destruct b; try discriminate; rewrite Eb, Et; apply well_ret; eexists; (split; [reflexivity|reflexivity]).
      * rewrite H. apply well_ret. eauto.
    + intros sv (b & Eb & Hb). apply well_ret. unfold fits_col. cbn. unfold column_type. rewrite Ed, Eb, Hb. now destruct b.
Qed.
Lemma Inv_prop n b s x m' : Good p (st_md s) -> event_known p EVENT_SESSION_BEGIN (st_md s) ->
  prop_get_or_create snake p KEvent n None (PBase b) false (st_md s) = (Ok x, m') ->
  Inv s (mkSt m' (st_events s) (st_groups s)) /\ prop_by_name p KEvent n m' = Ok x /\
  (prop_by_name p KEvent n (st_md s) = Ok x \/ prop_by_name p KEvent n (st_md s) = Err NotFound /\ pp_type x = PBase b) /\
  (forall m, m <> n -> prop_by_name p KEvent m m' = prop_by_name p KEvent m (st_md s)).
Proof.
  intros G K E. destruct (prop_made snake p n b (st_md s) G) as (x' & s' & E' & H1 & H2 & H3). rewrite E in E'. injection E' as <- <-.
  split; [|auto].
  pose proof (md_frame snake (OPropGetOrCreate p KEvent n None (PBase b) false) (st_md s) eq_refl) as F. cbn [md_step] in F. rewrite E in F. cbn [snd] in F.
  constructor; cbn [st_md].
  - replace m' with (md_step snake (OPropGetOrCreate p KEvent n None (PBase b) false) (st_md s)) by (cbn [md_step]; now rewrite E).
    apply good_step; [now split|exact G].
  - unfold event_known. rewrite (only_kg _ _ _ _ F); [exact K|reflexivity|]. intros [H|[]]. discriminate H.
  - intros m y Hm. destruct (string_dec m n) as [->|Ne]; [|now rewrite H3]. destruct H2 as [H2|[H2 _]]; congruence.
  - apply (only_kg _ _ _ _ F); [reflexivity|]. intros [H|[]]. discriminate H.
Qed.
(** The property of the name, if there is one, takes the value; if there is none the value
    is not a date. *)
Definition acceptable (s : Store) (x : string * PropValue) : Prop :=
  match prop_by_name p KEvent (fst x) s with Ok pr => accepts isdict pr (snd x) | Err _ => not_date (snd x) end.
Lemma resolve_well l : forall s, Good p (st_md s) -> event_known p EVENT_SESSION_BEGIN (st_md s) -> NoDup (map fst l) ->
  Forall (acceptable (st_md s)) l ->
  exists xs s', resolve_properties snake p KEvent l s = (Ok xs, s') /\ Inv s s' /\ Forall (fun x => accepts isdict (fst x) (snd x)) xs.
Proof.
  induction l as [|[n v] r IH]; cbn [map fst]; intros s G K Nd Ha.
  - exists [], s. split; [reflexivity|]. split; [now apply Inv_same|constructor].
  - inversion Nd as [|? ? Hn Nd']; subst. inversion Ha as [|? ? Hv Hr]; subst. cbn [resolve_properties each].
    destruct (data_type v) as [b|b] eqn:Eb; [|destruct v; discriminate].
    destruct (prop_made snake p n b (st_md s) G) as (x & m' & E & _). pose proof E as E0.
    destruct (Inv_prop n b s x m' G K E) as (I & H1 & H2 & H3).
    set (s1 := mkSt m' (st_events s) (st_groups s)) in *.
    destruct (IH s1 (iv_good _ _ I) (iv_begin _ _ I) Nd') as (xs & s' & Er & I' & Hx).
    { rewrite Forall_forall in *. intros [n' v'] Hin. specialize (Hr _ Hin). unfold acceptable in *. cbn [fst snd st_md s1] in *.
      rewrite H3; [exact Hr|]. intros ->. apply Hn. apply in_map_iff. now exists (n, v'). }
    exists ((x, v) :: xs), s'. split; [|split; [eapply Inv_trans; eauto|constructor; [|exact Hx]]].
    + unfold bind at 1. unfold resolve_property at 1. cbn [fst snd]. rewrite Eb. unfold bind at 1, on_md at 1. rewrite E0. fold s1. unfold ret at 1.
      fold (resolve_properties snake p KEvent r). unfold bind. now rewrite Er.
    + cbn [fst snd]. unfold acceptable in Hv. cbn [fst snd] in Hv. destruct H2 as [H2|[H2 Et]]; rewrite H2 in Hv; [exact Hv|].
      unfold accepts. destruct (isdict x) eqn:Ed; [apply dict_text in Ed|]; destruct v; cbn in Eb, Hv; try contradiction; injection Eb as <-; eauto; congruence.
Qed.
Definition one_id (r : Track) : bool := xorb (present (tr_user r)) (present (tr_anon r)).
Lemma well_who r : one_id r = true -> does_well (who p r) (fun _ => True).
Proof.
  unfold one_id, who, GROUP_USER_ID. destruct (tr_user r) as [u|], (tr_anon r) as [a|]; try discriminate; intros _.
  - eapply (well_bind _ _ (fun _ => True)).
    + apply (well_op (OGroupGet p 0 u [])); [side|reflexivity|]. intros m G. destruct (real_read (elsewhere p) p 0 u [] m) as (n & En); [now intros []|exact (gd_typed _ _ G)|eauto].
    + intros g _. eapply (well_bind _ _ (fun _ => True)); [|intros; now apply well_ret].
      apply (well_op (ODictCreateKey p TABLE_EVENTS (group_col 0) (gv_id g) u)); [side|reflexivity|]. intros m G. cbn. eauto.
  - eapply (well_bind _ _ (fun _ => True)).
    + apply (well_op (OAnon p 0 a)); [side|reflexivity|]. intros m G. destruct (anon_read (elsewhere p) p 0 a m) as (n & En); [now intros []|exact (gd_typed _ _ G)|eauto].
    + intros g _. eapply (well_bind _ _ (fun _ => True)); [|intros; now apply well_ret].
      apply (well_op (ODictCreateKey p TABLE_EVENTS (group_col 0) g a)); [side|reflexivity|]. intros m G. cbn. eauto.
Qed.
Lemma event_well n l (att : bool) s0 s : Inv s0 s -> exists e s2, Inv s0 s2 /\ forall A (rest : Event -> M A),
  (e <- on_md (event_get_or_create p n None l) ;; _ <- (if att then on_md (event_attach p (ev_id e) l) else ret tt) ;; rest e) s = rest e s2.
Proof.
  intro I. destruct (event_made p n l (st_md s) (iv_good _ _ I)) as (e & m' & E & Ke & (x & Ex)).
  pose proof (md_frame snake (OEventGetOrCreate p n None l) (st_md s) eq_refl) as F. cbn [md_step] in F. rewrite E in F. cbn [snd] in F.
  set (s1 := mkSt m' (st_events s) (st_groups s)).
  assert (I1 : Inv s0 s1).
  { eapply Inv_trans; [exact I|]. constructor; cbn [st_md s1].
    - replace m' with (md_step snake (OEventGetOrCreate p n None l) (st_md s)) by (cbn [md_step]; now rewrite E). apply good_step; [now split|apply I].
    - apply Ke, I.
    - intros m y Hm. rewrite <- Hm. apply prop_name_same. intros k Hk W. apply (only_kg _ _ _ _ F); [exact W|].
      destruct k; cbn in Hk; try contradiction; cbn; intuition congruence.
    - apply (only_kg _ _ _ _ F); [reflexivity|]. cbn. intuition congruence. }
  assert (I2 : exists s2, (if att then on_md (event_attach p (ev_id e) l) else ret tt) s1 = (Ok tt, s2) /\ Inv s0 s2).
  { destruct att; [|exists s1; now split]. destruct (attach_known p (ev_id e) x l m' Ex) as (m2 & Ea & Ka).
    pose proof (md_frame snake (OEventAttach p (ev_id e) l) m' eq_refl) as F2. cbn [md_step] in F2. rewrite Ea in F2. cbn [snd] in F2.
    unfold on_md. change (st_md s1) with m'. rewrite Ea. eexists. split; [reflexivity|]. eapply Inv_trans; [exact I1|]. constructor; cbn [st_md s1].
    - replace m2 with (md_step snake (OEventAttach p (ev_id e) l) m') by (cbn [md_step]; now rewrite Ea). apply good_step; [now split|apply I1].
    - apply Ka, I1.
    - intros m y Hm. rewrite <- Hm. apply prop_name_same. intros k Hk W. apply (only_kg _ _ _ _ F2); [exact W|].
      destruct k; cbn in Hk; try contradiction; cbn; intuition congruence.
    - apply (only_kg _ _ _ _ F2); [reflexivity|]. cbn. intuition congruence. }
  destruct I2 as (s2 & E2 & I2). exists e, s2. split; [exact I2|]. intros A rest. unfold bind at 1, on_md at 1. rewrite E. fold s1.
  unfold bind at 1. now rewrite E2.
Qed.
(** A property known when the call began, which takes strings. *)
Definition takes_text (s : Store) (x : string * string) : Prop :=
  exists pr, prop_by_name p KEvent (fst x) s = Ok pr /\ accepts isdict pr (PVString (snd x)).
Lemma known_well x s0 s : takes_text (st_md s0) x -> Inv s0 s ->
  exists y s', named_by_name p x s = (Ok y, s') /\ Inv s0 s' /\ accepts isdict (fst y) (snd y).
Proof.
  intros (pr & E & A) I. exists (pr, PVString (snd x)), s. split; [|auto]. unfold named_by_name, bind, look. now rewrite (iv_props _ _ I _ _ E).
Qed.
Lemma known_all l s0 : Forall (takes_text (st_md s0)) l -> forall s, Inv s0 s ->
  exists ys s', each (named_by_name p) l s = (Ok ys, s') /\ Inv s0 s' /\ Forall (fun y => accepts isdict (fst y) (snd y)) ys.
Proof.
  induction 1 as [|x r Hx F IH]; intros s I; [exists [], s; split; [reflexivity|split; [exact I|constructor]]|]. cbn [each].
  destruct (known_well x s0 s Hx I) as (y & s1 & E1 & I1 & A1). destruct (IH s1 I1) as (ys & s2 & E2 & I2 & A2).
  exists (y :: ys), s2. split; [unfold bind; now rewrite E1, E2|]. split; [exact I2|now constructor].
Qed.
Lemma types_all vs : Forall fits_col vs -> types_ok vs = true.
Proof. unfold types_ok. rewrite forallb_forall, Forall_forall. auto. Qed.
Lemma insert_well vs s0 s : Forall fits_col vs -> Inv s0 s -> exists s', insert_event vs s = (Ok tt, s') /\ Inv s0 s'.
Proof.
  intros F I. unfold insert_event. rewrite (types_all vs F). eexists. split; [reflexivity|]. eapply Inv_trans; [exact I|]. now apply Inv_same; [|apply I|apply I].
Qed.
Lemma int64_fits c n : fits_col (int64 c n). Proof. reflexivity. Qed.
Lemma keys_fit u : Forall fits_col ([int64 COLUMN_PROJECT_ID p; int64 (group_col GROUP_USER_ID) u] ++ group_values None)%list.
Proof. cbn. repeat constructor. Qed.
Lemma record_well : does_well (on_md (event_next_record p)) (fun _ => True).
Proof.
  apply (well_op (OEventRecord p)); [side|reflexivity|]. intros m G. destruct (record_read (elsewhere p) p m (gd_typed _ _ G)); eauto.
Qed.
Lemma send_well now u e props r s0 : Forall (fun x => accepts isdict (fst x) (snd x)) props -> Forall (takes_text (st_md s0)) (tr_utm r) ->
  forall s, Inv s0 s -> exists s', send snake isdict dcv now p u e None props r s = (Ok tt, s') /\ Inv s0 s'.
Proof.
  intros Hp Hu s I. unfold send.
  assert (Ws : does_well (on_md (session_set_time p u now)) (fun _ => True)).
  { apply (well_op (OSession p u now)); [side|reflexivity|]. intros m G. destruct (session_read (elsewhere p) p u now m (gd_typed _ _ G)); eauto. }
  destruct (Ws s0 s I) as (new & s1 & E1 & I1 & _). unfold bind at 1. rewrite E1.
  assert (Wp : does_well (each (named_property snake isdict p) props) (Forall fits_col)).
  { apply well_each. intros x Hx. apply well_value. rewrite Forall_forall in Hp. auto. }
  destruct (Wp s0 s1 I1) as (pv & s2 & E2 & I2 & F2). unfold bind at 1. rewrite E2.
  unfold bind at 1. cbn [each]. unfold ret at 1.
  assert (Wu : exists utm s3, each (fun x => y <- named_by_name p x;; named_property snake isdict p y) (tr_utm r) s2 = (Ok utm, s3) /\ Inv s0 s3 /\ Forall fits_col utm).
  { clear E2. revert s2 I2. induction Hu as [|x l Hx F IH]; intros s2 I2; [exists [], s2; split; [reflexivity|split; [exact I2|constructor]]|]. cbn [each].
    destruct (known_well x s0 s2 Hx I2) as (y & s3 & E3 & I3 & A3). destruct (well_value y A3 s0 s3 I3) as (z & s4 & E4 & I4 & F4).
    destruct (IH s4 I4) as (zs & s5 & E5 & I5 & F5). exists (z :: zs), s5. split; [erewrite bind_eq; [|erewrite bind_eq; [exact E4|exact E3]]; erewrite bind_eq; [|exact E5]; reflexivity|]. split; [exact I5|now constructor]. }
  destruct Wu as (utm & s3 & E3 & I3 & F3). unfold bind at 1. rewrite E3. cbv zeta. cbn [List.concat]. rewrite app_nil_r.
  assert (Wb : exists s4, (if (new : bool) then
          n <- on_md (event_next_record p) ;;
          e <- look (event_by_name p EVENT_SESSION_BEGIN) ;;
          insert_event (([int64 COLUMN_PROJECT_ID p; int64 (group_col GROUP_USER_ID) u] ++ group_values None) ++ utm ++
            [mkNamed COLUMN_CREATED_AT TTimestamp (STime (tr_time r / 1000));
             int64 COLUMN_EVENT_ID n; int64 COLUMN_EVENT (ev_id e); mkNamed COLUMN_IP TString (SStr (tr_ip r))] ++ pv)%list
        else ret tt) s3 = (Ok tt, s4) /\ Inv s0 s4).
  { destruct new; [|exists s3; split; [reflexivity|exact I3]].
    destruct (record_well s0 s3 I3) as (n & s4 & E4 & I4 & _). unfold bind at 1. rewrite E4.
    destruct (event_known_ok p EVENT_SESSION_BEGIN (st_md s4) (iv_good _ _ I4) (iv_begin _ _ I4)) as (b & Eb). rewrite (bind_look _ _ _ _ Eb).
    apply insert_well; [|exact I4]. apply Forall_app; split; [apply keys_fit|]. apply Forall_app; split; [exact F3|]. apply Forall_app; split; [repeat constructor|exact F2]. }
  destruct Wb as (s4 & E4 & I4). unfold bind at 1. rewrite E4.
  destruct (record_well s0 s4 I4) as (n & s5 & E5 & I5 & _). unfold bind at 1. rewrite E5.
  apply insert_well; [|exact I5]. apply Forall_app; split; [apply keys_fit|]. apply Forall_app; split; [repeat constructor|exact F2].
Qed.
Lemma track_well now r pj s : Good p (st_md s) -> project_by_token (tr_token r) (st_md s) = Ok pj -> pr_id pj = p ->
  project_by_id p (st_md s) = Ok pj -> event_known p EVENT_SESSION_BEGIN (st_md s) -> one_id r = true -> tr_groups r = None ->
  match tr_props r with Some l => NoDup (map fst l) /\ Forall (acceptable (st_md s)) l | None => True end ->
  Forall (takes_text (st_md s)) (tr_agent r) -> Forall (takes_text (st_md s)) (tr_utm r) ->
  fst (track snake isdict dcv now r s) = Ok tt.
Proof.
  intros G Ep Ei Ed K One Gr Hp Ha Hu. unfold track. rewrite (bind_look _ _ _ _ Ep). cbv zeta. rewrite Ei.
  assert (I0 : Inv s s) by now apply Inv_same.
  assert (R : exists props s1, match tr_props r with None => ret None | Some l => x <- resolve_properties snake p KEvent l ;; ret (Some x) end s = (Ok props, s1) /\
     Inv s s1 /\ Forall (fun x => accepts isdict (fst x) (snd x)) match props with Some l => l | None => [] end).
  { destruct (tr_props r) as [l|]; [|exists None, s; split; [reflexivity|split; [exact I0|constructor]]]. destruct Hp as [Nd Hp].
    destruct (resolve_well l s G K Nd Hp) as (xs & s1 & E & I & F). exists (Some xs), s1. split; [unfold bind; now rewrite E|auto]. }
  destruct R as (props & s1 & E1 & I1 & F1). unfold bind at 1. rewrite E1.
  destruct (well_who r One s s1 I1) as (w & s2 & E2 & I2 & _). unfold bind at 1. rewrite E2.
  unfold track_groups. rewrite Gr. unfold bind at 1. unfold ret at 1.
  set (ids := map _ _). set (rest := fun e : Event => extra <- each (named_by_name p) (tr_agent r);;
     _ <- send snake isdict dcv now p (fst w) (ev_id e) None ((match props with Some l => l | None => [] end) ++ extra)%list r;; on_md (project_count_event p)).
  assert (Wr : forall e, forall z, Inv s z -> exists z', rest e z = (Ok tt, z')).
  { intros e z I. unfold rest. destruct (known_all (tr_agent r) s Ha z I) as (ex & s3 & E3 & I3 & F3). unfold bind at 1. rewrite E3.
    destruct (send_well now (fst w) (ev_id e) ((match props with Some l => l | None => [] end) ++ ex)%list r s) with (s := s3) as (s4 & E4 & I4); auto.
    { apply Forall_app. auto. }
    unfold bind at 1. rewrite E4. unfold on_md, project_count_event.
    assert (project_by_id p (st_md s4) = Ok pj) as ->; [|eexists; reflexivity].
    apply project_by_id_spec. rewrite (iv_proj _ _ I4). now apply project_by_id_spec. }
  destruct (event_well (tr_event r) ids (match props with Some _ => true | None => false end) s s2 I2) as (e & s3 & I3 & Er).
  destruct (Wr e s3 I3) as (z & Ez). specialize (Er _ rest). rewrite Ez in Er.
  match goal with |- fst ?x = _ => assert (x = (Ok tt, z)) as ->; [|reflexivity] end. rewrite <- Er.
  unfold bind, rest. destruct props; reflexivity.
Qed.
End Live.

(** C127: in a project whose ids were never linked, a track call that carries the
    project's token, exactly one of the two ids, no groups, each property at most once with
    a value its property takes (a name not known yet takes anything but a date), and whose
    agent and campaign columns are text properties of the project, is accepted - whatever
    the history of the metadata, whatever was stored before, at any time of day.
    Missing for the full claim: calls with groups, identify calls, projects in which ids
    were linked (there it is false: C126). *)
Theorem C127_valid_call_accepted_partial :
  forall (snake : string -> string) isdict (dcv : N -> SVal),
  (forall x, no_slash x = true -> no_slash (snake x) = true) ->
  (forall pr, isdict pr = true -> pp_type pr = PBase TString) ->
  forall before evs grps now r pj,
    forallb wf_op before = true -> Forall name_token_differ before ->
    let m := md_run snake before [] in
    let p := pr_id pj in
    Forall (fun o => match o with OMerge q _ _ _ _ => q <> p | _ => True end) before ->
    project_by_token (tr_token r) m = Ok pj ->
    (exists e, event_by_name p EVENT_SESSION_BEGIN m = Ok e) ->
    one_id r = true -> tr_groups r = None ->
    match tr_props r with Some l => NoDup (map fst l) /\ Forall (acceptable isdict p m) l | None => True end ->
    Forall (takes_text isdict p m) (tr_agent r) -> Forall (takes_text isdict p m) (tr_utm r) ->
    fst (track snake isdict dcv now r (mkSt m evs grps)) = Ok tt.
Proof.
  intros snake isdict dcv Sn Di before evs grps now r pj Wb Db m p Nl Ep (b & Eb) One Gr Hp Ha Hu.
  assert (G : Good p m).
  { apply good_run; [|apply good_nil]. rewrite forallb_forall in Wb. pose proof (proj1 (Forall_forall _ _) Nl) as Nl'.
    apply Forall_forall. intros o Ho. split; [now apply Wb|exact (Nl' o Ho)]. }
  assert (Ed : project_by_id p m = Ok pj).
  { pose proof Ep as E0. unfold project_by_token in E0. destruct (get_index _ _) as [id|x] eqn:Ei; [|discriminate].
    destruct (project_by_id_ok _ _ _ (projects_reach snake before Wb Db) E0) as [Eq _]. unfold p. rewrite Eq. exact E0. }
  eapply track_well with (p := p) (pj := pj); cbn [st_md]; eauto. apply event_known_iff; eauto.
Qed.
Print Assumptions C127_valid_call_accepted_partial.

Lemma height_at_shop : prop_by_name 1 KEvent "Height" (st_md at_shop) = Ok (mkProperty 1 KEvent "Height" None 0 (PBase TInt16) false).
Proof. vm_compute. reflexivity. Qed.
Lemma colour_at_shop : prop_by_name 1 KEvent "Colour" (st_md at_shop) = Err NotFound.
Proof. vm_compute. reflexivity. Qed.
(** In the shop of C76: a height in range with a word for a new property; a height out of
    range is not covered. *)
Example C127_witness :
  forallb wf_op shop = true /\ Forall name_token_differ shop /\
  Forall (fun o => match o with OMerge q _ _ _ _ => q <> 1%N | _ => True end) shop /\
  (exists pj, project_by_token "token" (st_md at_shop) = Ok pj /\ pr_id pj = 1%N) /\
  (exists e, event_by_name 1 EVENT_SESSION_BEGIN (st_md at_shop) = Ok e) /\
  (let r := call_of "Buy" [("Height", PVNumber 70 0); ("Colour", PVString "red")] in
   one_id r = true /\ match tr_props r with Some l => NoDup (map fst l) /\ Forall (acceptable (fun _ => false) 1 (st_md at_shop)) l | None => True end /\
   fst (go r at_shop) = Ok tt) /\
  ~ acceptable (fun _ => false) 1 (st_md at_shop) ("Height", PVNumber 70000 0).
Proof.
  split; [reflexivity|]. split; [repeat constructor; discriminate|]. split; [repeat constructor|].
  split; [eexists; split; vm_compute; reflexivity|]. split; [eexists; vm_compute; reflexivity|]. split.
  - cbv zeta. split; [reflexivity|]. split; [|vm_compute; reflexivity]. cbn [tr_props call_of]. split.
    + constructor; [|constructor; [now intros []|constructor]]. intros [H|[]]; discriminate H.
    + constructor; [|constructor; [|constructor]].
      * unfold acceptable. cbn [fst]. rewrite height_at_shop. right. exists TInt16, 15%Z. repeat split; cbn; lia.
      * unfold acceptable. cbn [fst]. rewrite colour_at_shop. exact I.
  - unfold acceptable. cbn [fst]. rewrite height_at_shop. intros [H|(b & bits & [= <-] & [= <-] & H)]; [discriminate H|].
    revert H. vm_compute. intros [_ H]. discriminate H.
Qed.
