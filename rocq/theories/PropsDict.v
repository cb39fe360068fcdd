(** Properties C27 and C31: dictionary encoding, and the dictionary of event names. *)
From Coq Require Import List NArith ZArith String Ascii Bool Lia.
From Verif Require Import AMap Kv KvKeys KvKeysFacts KvFacts Md MdOps MdFrame MdIndex MdEntities MdWf MdDict MdSeq.
Import ListNotations.
Local Open Scope string_scope.

(** ** C27: after any history, encode a value; whatever is called later, encoding it again
    and looking it up give the same number, decoding gives the value back, and no other
    value has the number.  The calls are those of the whole metadata API, except
    [create_key] on this very dictionary ([binds]). *)
Theorem C27_encoding_stable_bijection :
  forall snake p t d before v after,
    no_slash t && no_slash d = true ->
    forallb wf_op before = true -> forallb wf_op after = true ->
    existsb (binds p t d) before = false -> existsb (binds p t d) after = false ->
    let s1 := snd (dict_get_or_create p t d v (md_run snake before [])) in
    let s2 := md_run snake after s1 in
    exists n,
      fst (dict_get_or_create p t d v (md_run snake before [])) = Ok n /\
      fst (dict_get_or_create p t d v s2) = Ok n /\
      dict_key p t d v s2 = Ok n /\ dict_value p t d n s2 = Ok v /\
      forall w, w <> v -> fst (dict_get_or_create p t d w s2) <> Ok n.
Proof.
  intros snake p t d before v after W Wb Wa Bb Ba s1 s2.
  set (s0 := md_run snake before []) in *.
  assert (D0 : DictOk p t d s0) by (apply md_run_dict; auto using DictOk_nil).
  assert (D1 : DictOk p t d s1) by (apply dict_encode_ok; auto).
  assert (V : exists n, fst (dict_get_or_create p t d v s0) = Ok n /\ kg (KDictVal p t d v) s1 = Some (VNum n)).
  { unfold s1. destruct (dict_encode_spec p t d v s0 D0) as [(n & Hn & ->)|(Hv & n & _ & _ & _ & ->)]; exists n; cbn [fst snd].
    - auto.
    - split; [reflexivity|]. apply kg_put_eq. }
  destruct V as (n & E0 & V1). exists n. split; [exact E0|].
  assert (D2 : DictOk p t d s2) by (apply md_run_dict; auto).
  assert (V2 : kg (KDictVal p t d v) s2 = Some (VNum n)) by (apply dict_grows_run; auto).
  assert (E : forall w m, kg (KDictVal p t d w) s2 = Some (VNum m) -> fst (dict_get_or_create p t d w s2) = Ok m).
  { intros w m Hw. destruct (dict_encode_spec p t d w s2 D2) as [(m' & Hm & ->)|(Hn & _)]; [|congruence]. cbn. congruence. }
  split; [now apply E|]. split.
  { unfold dict_key. change (make_value_key p (tbl_dict t d) v) with (render (KDictVal p t d v)).
    fold (kg (KDictVal p t d v) s2). now rewrite V2. }
  assert (K2 : kg (KDictKey p t d n) s2 = Some (VText v)).
  { destruct (dk_val _ _ _ _ D2 v _ V2) as (n' & [= <-] & K). exact K. }
  split; [now apply dict_value_spec|].
  intros w Nw Hw. destruct (dict_encode_spec p t d w s2 D2) as [(m & Hm & Ew)|(Hn & m & _ & _ & Hk & Ew)];
  rewrite Ew in Hw; cbn in Hw; injection Hw as ->.
  - destruct (dk_val _ _ _ _ D2 w _ Hm) as (n' & [= <-] & K). congruence.
  - congruence.
Qed.
Print Assumptions C27_encoding_stable_bijection.
Example C27_encoding_stable_bijection_witness :
  let before := [ODictEncode 1 "events" "e_str_0" "red"; ODictEncode 2 "events" "e_str_0" "blue"] in
  let s1 := snd (dict_get_or_create 1 "events" "e_str_0" "blue" (md_run (fun x => x) before [])) in
  let s2 := md_run (fun x => x) [ODictEncode 1 "events" "e_str_0" "green"; OEventCreate 1 "x" None []] s1 in
  existsb (binds 1 "events" "e_str_0") before = false /\
  dict_key 1 "events" "e_str_0" "blue" s2 = Ok 2%N /\ dict_value 1 "events" "e_str_0" 3 s2 = Ok "green".
Proof. vm_compute. repeat split. Qed.

(** [create_key] writes its pair without looking: a second value bound to a number takes
    the number's decoding away from the first, in every state. *)
Theorem C27_create_key_refuted :
  forall p t d s v w n, no_slash t && no_slash d = true -> v <> w ->
    dict_key p t d v s = Ok n ->
    let s' := dict_create_key p t d n w s in
    dict_key p t d v s' = Ok n /\ dict_key p t d w s' = Ok n /\ dict_value p t d n s' = Ok w.
Proof.
  intros p t d s v w n W N Hv s'. unfold s', dict_create_key.
  change (make_value_key p (tbl_dict t d) w) with (render (KDictVal p t d w)).
  change (make_key_key p (tbl_dict t d) n) with (render (KDictKey p t d n)).
  split; [|split].
  - unfold dict_key in *. change (make_value_key p (tbl_dict t d) v) with (render (KDictVal p t d v)) in *.
    match goal with |- context [kget ?k ?s] => fold (kg (KDictVal p t d v) s) end.
    rewrite kg_put_ne; [|exact W|exact W|congruence]. rewrite kg_put_ne; [|exact W|exact W|discriminate]. exact Hv.
  - unfold dict_key. change (make_value_key p (tbl_dict t d) w) with (render (KDictVal p t d w)).
    rewrite kget_kput_eq. reflexivity.
  - apply dict_value_spec. rewrite kg_put_ne; [|exact W|exact W|discriminate]. apply kg_put_eq.
Qed.
Print Assumptions C27_create_key_refuted.
Example C27_create_key_refuted_witness :
  dict_key 1 "events" "group_0" "ann" (md_run (fun x => x) [ODictCreateKey 1 "events" "group_0" 1 "ann"] []) = Ok 1%N.
Proof. reflexivity. Qed.

(** ** C31: query results show an event id as [dict_value] of the dictionary of the event
    column. *)
Definition shown_name (p id : N) (s : Store) : Res string := dict_value p TABLE_EVENTS COLUMN_EVENT id s.

(** Calls that keep the names of the events of project [p]: no event of [p] is deleted or
    renamed, and nobody else writes to the dictionary of the event column. *)
Definition keeps_names (p : N) (o : MdOp) : bool :=
  match o with
  | OEventDelete q _ | OEventUpdate q _ (Some _) _ => negb (N.eqb q p)
  | ODictEncode q t d _ | ODictCreateKey q t d _ _ =>
    negb (N.eqb q p && String.eqb t TABLE_EVENTS && String.eqb d COLUMN_EVENT)
  | _ => true
  end.

Section InStep.
Variable p : N.
Notation ens := (NProj p PEvents).
Notation dk n := (KDictKey p TABLE_EVENTS COLUMN_EVENT n).
Notation dv v := (KDictVal p TABLE_EVENTS COLUMN_EVENT v).
Notation dsq := (KDictSeq p TABLE_EVENTS COLUMN_EVENT).
(** The sequences of events and of the dictionary run in step. *)
Record InStep (s : Store) : Prop := {
  is_ev : EventsOk p s;
  is_dict : DictOk p TABLE_EVENTS COLUMN_EVENT s;
  is_seq : kg (KSeq ens) s = kg dsq s;
  is_name : forall id e, kg (KData ens id) s = Some (VRec (REvent e)) -> kg (dk id) s = Some (VText (ev_name e));
  is_back : forall id v, kg (dk id) s = Some (VText v) -> exists e, kg (KData ens id) s = Some (VRec (REvent e)) /\ ev_name e = v
}.
Lemma InStep_frame P s s' : only P s s' -> (forall k, in_ns ens k \/ in_dict p TABLE_EVENTS COLUMN_EVENT k -> ~ P k) ->
  InStep s -> InStep s'.
Proof.
  intros O D [H1 H2 H3 H4 H5].
  assert (ED : forall id, kg (KData ens id) s' = kg (KData ens id) s) by (intro; apply (only_kg P); [exact O|reflexivity|apply D; cbn; auto]).
  assert (EK : forall id, kg (dk id) s' = kg (dk id) s) by (intro; apply (only_kg P); [exact O|reflexivity|apply D; cbn; auto]).
  constructor.
  - eapply Indexed_frame; [exact O| |exact H1]. auto.
  - eapply DictOk_frame; [reflexivity|exact O| |exact H2]. auto.
  - rewrite (only_kg P s s' (KSeq ens)), (only_kg P s s' dsq); auto; apply D; cbn; auto.
  - intros id e. rewrite ED, EK. auto.
  - intros id v. rewrite ED, EK. auto.
Qed.

Lemma InStep_create name d props s : InStep s -> InStep (snd (event_create p name d props s)).
Proof.
  intro Hx. pose proof (event_create_ok p name d props s (is_ev _ Hx)) as E'.
  pose proof (event_create_dict p name d props s (is_dict _ Hx)) as D'.
  unfold event_create in *. destruct (check_insert s (event_keys p name d)) eqn:Hc; [|exact Hx].
  change (make_id_seq_key (events_ns p)) with (render (KSeq ens)) in *.
  destruct (next_seq (render (KSeq ens)) s) as [[id|e] s1] eqn:En; [|exact Hx]. cbv zeta in *.
  set (s3 := insert_index _ _ _) in *.
  destruct (next_seq_indexed _ _ _ _ _ (is_ev _ Hx) En) as (id0 & [= <-] & Hge & Es1 & Hno & Hlt & Hid).
  assert (O13 : only (in_ns ens) s s3).
  { unfold s3. apply only_insert; [apply event_keys_hit; intros k0 Hk; destruct k0; cbn in *; tauto|].
    apply only_put; [hit; reflexivity|]. eapply next_seq_only; [exact En|]. exists (KSeq ens). repeat split. }
  assert (D3 : DictOk p TABLE_EVENTS COLUMN_EVENT s3).
  { eapply (DictOk_frame p TABLE_EVENTS COLUMN_EVENT eq_refl); [exact O13|intros k0 Hk; destruct k0; cbn in *; tauto|exact (is_dict _ Hx)]. }
  assert (KD : forall k, in_dict p TABLE_EVENTS COLUMN_EVENT k -> wf_key k = true -> kg k s3 = kg k s).
  { intros k Hk Wk. apply (only_kg _ _ _ k O13 Wk). destruct k; cbn in *; tauto. }
  assert (Nv : kg (dv name) s3 = None).
  { rewrite KD by (cbn; auto). destruct (kg (dv name) s) as [x|] eqn:Ev; [|reflexivity]. exfalso.
    destruct (dk_val _ _ _ _ (is_dict _ Hx) _ _ Ev) as (n & -> & Hn).
    destruct (is_back _ Hx n name Hn) as (e & He & Hname).
    destruct (ix_data _ _ _ (is_ev _ Hx) _ _ He) as (r & ks & [= <-] & Hk & Hi). cbn in Hk. injection Hk as _ <-.
    rewrite event_okeys in Hc. rewrite check_insert_spec in Hc.
    specialize (Hc (IName, name)). rewrite (Hi (IName, name)) in Hc.
    - discriminate Hc. cbn. auto.
    - rewrite Hname. cbn. auto. }
  assert (Kdat : kg (KData ens id) s3 = Some (VRec (REvent (mkEvent id name d [])))).
  { unfold s3. rewrite event_okeys. rewrite kg_insert_out; [apply kg_put_eq|reflexivity|intros; discriminate]. }
  assert (Koth : forall i, i <> id -> kg (KData ens i) s3 = kg (KData ens i) s).
  { intros i Hi. unfold s3. rewrite event_okeys. rewrite kg_insert_out; [|reflexivity|intros; discriminate].
    change (make_data_value_key (events_ns p) id) with (render (KData ens id)). subst s1.
    rewrite !kg_put_ne; [reflexivity|reflexivity|reflexivity|discriminate|reflexivity|reflexivity|congruence]. }
  assert (Kseq : kg (KSeq ens) s3 = Some (VNum id)).
  { unfold s3. rewrite event_okeys. rewrite kg_insert_out; [|reflexivity|intros; discriminate].
    change (make_data_value_key (events_ns p) id) with (render (KData ens id)). subst s1.
    rewrite kg_put_ne; [apply kg_put_eq|reflexivity|reflexivity|discriminate]. }
  destruct (dict_encode_spec p TABLE_EVENTS COLUMN_EVENT name s3 D3) as [(n & Hn & _)|(_ & n & Hn1 & Hn & Hk & Ed)]; [congruence|].
  rewrite Ed in *. cbn [snd] in *.
  assert (n = id) as ->.
  { rewrite KD in Hn by (cbn; auto). rewrite <- (is_seq _ Hx) in Hn. congruence. }
  set (s4 := kput (render (dv name)) _ _) in *.
  assert (ND : forall k, in_ns ens k -> wf_key k = true -> kg k s4 = kg k s3).
  { intros k Hk' Wk. unfold s4. rewrite !kg_put_ne; auto; destruct k; cbn in *; try tauto; discriminate. }
  constructor; auto.
  - rewrite ND by (cbn; auto). rewrite Kseq. unfold s4. rewrite dict_put_ks by reflexivity. reflexivity.
  - intros i e. rewrite ND by (cbn; auto). unfold s4. rewrite dict_put_kk by reflexivity.
    destruct (N.eq_dec i id) as [->|Ne]; [rewrite Kdat; intros [= <-]; reflexivity|].
    rewrite Koth by exact Ne. rewrite KD by (cbn; auto). apply (is_name _ Hx).
  - intros i v. rewrite (ND (KData ens i)) by (cbn; auto). unfold s4. rewrite dict_put_kk by reflexivity.
    destruct (N.eq_dec i id) as [->|Ne]; [rewrite Kdat; intros [= <-]; eexists; split; reflexivity|].
    rewrite Koth by exact Ne. rewrite KD by (cbn; auto). apply (is_back _ Hx).
Qed.

(** The name of the event stored under [id]. *)
Definition name_at (id : N) (s : Store) : option string :=
  match kg (KData ens id) s with Some (VRec (REvent e)) => Some (ev_name e) | _ => None end.
Lemma InStep_same_names s s' : InStep s -> EventsOk p s' -> only (in_rec ens) s s' ->
  (forall id, name_at id s' = name_at id s) -> InStep s'.
Proof.
  intros Hx E O F.
  assert (KD : forall k, in_dict p TABLE_EVENTS COLUMN_EVENT k -> wf_key k = true -> kg k s' = kg k s).
  { intros k Hk Wk. apply (only_kg _ _ _ k O Wk). destruct k; cbn in *; tauto. }
  unfold name_at in F. constructor.
  - exact E.
  - eapply (DictOk_frame p TABLE_EVENTS COLUMN_EVENT eq_refl); [exact O|intros k0 Hk; destruct k0; cbn in *; tauto|exact (is_dict _ Hx)].
  - rewrite (KD dsq) by (cbn; auto). rewrite <- (is_seq _ Hx). apply (only_kg _ _ _ (KSeq ens) O eq_refl). cbn. auto.
  - intros id e' H. specialize (F id). rewrite H in F. rewrite KD by (cbn; auto).
    destruct (kg (KData ens id) s) as [[| |[]]|] eqn:E0; try discriminate. injection F as ->. now apply (is_name _ Hx).
  - intros id v H. rewrite KD in H by (cbn; auto). destruct (is_back _ Hx id v H) as (e & H0 & <-).
    specialize (F id). rewrite H0 in F. destruct (kg (KData ens id) s') as [[| |[]]|] eqn:E0; try discriminate.
    injection F as F. eauto.
Qed.
Lemma name_at_put id i e s : name_at i (kput (render (KData ens id)) (VRec (REvent e)) s) =
  if N.eqb i id then Some (ev_name e) else name_at i s.
Proof.
  unfold name_at. destruct (N.eqb_spec i id) as [->|Ne]; [now rewrite kg_put_eq|].
  rewrite kg_put_ne; auto. congruence.
Qed.
Lemma event_update_name_at id d s i : EventsOk p s -> name_at i (snd (event_update p id None d s)) = name_at i s.
Proof.
  intro Hx. unfold event_update. destruct (event_by_id p id s) as [prev|] eqn:Hb; [|reflexivity].
  pose proof (event_by_id_ok _ _ _ _ Hx Hb) as Hid. apply event_by_id_spec in Hb. cbv zeta. cbn [app].
  destruct (check_update _ _ _); [|reflexivity]. cbn [snd ev_id]. rewrite Hid.
  assert (U : forall s1, kg (KData ens i) (update_index s1 (match d with Some x => [event_display_key p x] | None => [] end)
     (match d with Some _ => [event_display_key p (ev_display prev)] | None => [] end) id) = kg (KData ens i) s1).
  { intro s1. destruct d as [x|]; [|reflexivity].
    assert (OK : forall y, [event_display_key p y] = okeys ens [option_map (pair IDisplayName) y]) by (intros []; reflexivity).
    rewrite !OK. apply kg_update_out; auto; discriminate. }
  unfold name_at at 1. rewrite U.
  change (make_data_value_key (events_ns p) id) with (render (KData ens id)).
  change (name_at i (kput (render (KData ens id)) (VRec (REvent (mkEvent id (ev_name prev) (match d with Some x => x | None => ev_display prev end) []))) s) = name_at i s).
  rewrite name_at_put. destruct (N.eqb_spec i id) as [->|]; [|reflexivity]. unfold name_at. now rewrite Hb.
Qed.
Lemma event_attach_name_at id props s i : EventsOk p s -> name_at i (snd (event_attach p id props s)) = name_at i s.
Proof.
  intro Hx. unfold event_attach. destruct (event_by_id p id s) as [prev|] eqn:Hb; [|reflexivity].
  pose proof (event_by_id_ok _ _ _ _ Hx Hb) as Hid. apply event_by_id_spec in Hb. cbn [snd]. rewrite Hid.
  change (make_data_value_key (events_ns p) id) with (render (KData ens id)).
  rewrite name_at_put. destruct (N.eqb_spec i id) as [->|]; [|reflexivity]. unfold name_at. now rewrite Hb.
Qed.

Lemma md_step_InStep snake o s : wf_op o = true -> keeps_names p o = true -> InStep s -> InStep (md_step snake o s).
Proof.
  intros W K Hx.
  assert (F : (forall k, in_ns ens k \/ in_dict p TABLE_EVENTS COLUMN_EVENT k -> ~ touches o k) -> InStep (md_step snake o s)).
  { intro D. eapply InStep_frame; [apply md_frame, W|exact D|exact Hx]. }
  assert (FO : forall q, q <> p -> (forall k, touches o k -> in_ns (NProj q PEvents) k \/ in_dict q TABLE_EVENTS COLUMN_EVENT k) ->
     InStep (md_step snake o s)).
  { intros q Nq T. apply F. intros k Hk Ht. apply T in Ht. destruct k; cbn in *; intuition congruence. }
  assert (FR : forall q, q <> p -> (forall k, touches o k -> in_rec (NProj q PEvents) k) -> InStep (md_step snake o s)).
  { intros q Nq T. apply (FO q Nq). intros k Hk. left. apply T in Hk. destruct k; cbn in *; tauto. }
  destruct o;
   try (apply F; intros k0 Hk Ht; try (match goal with kd : PropKind |- _ => destruct kd end);
        destruct k0; cbn in *; try tauto; unfold in_props, in_ns, in_rec, kind_ns in *; cbn in *;
        first [intuition congruence | destruct Ht as [Ht|(x & Ht)]; intuition congruence]).
  - destruct (N.eq_dec p0 p) as [->|N]; [|apply (FO p0 N); auto]. now apply InStep_create.
  - destruct (N.eq_dec p0 p) as [->|N]; [|apply (FO p0 N); auto]. cbn [md_step]. unfold event_get_or_create.
    destruct (event_by_name p name s) as [|[]]; try exact Hx. now apply InStep_create.
  - destruct (N.eq_dec p0 p) as [->|N]; [|apply (FR p0 N); auto].
    destruct name as [n|]; [cbn in K; rewrite N.eqb_refl in K; discriminate|].
    apply (InStep_same_names s); [exact Hx|apply event_update_ok, (is_ev _ Hx)|apply event_update_frame; auto|].
    intro i. apply event_update_name_at, (is_ev _ Hx).
  - destruct (N.eq_dec p0 p) as [->|N]; [|apply (FR p0 N); auto].
    apply (InStep_same_names s); [exact Hx|apply event_attach_ok, (is_ev _ Hx)|apply event_attach_frame; auto|].
    intro i. apply event_attach_name_at, (is_ev _ Hx).
  - cbn in K. apply negb_true_iff, N.eqb_neq in K. apply (FR p0 K); auto.
  - apply F. intros k0 Hk Ht. cbn in K. apply negb_true_iff in K. destruct k0; cbn in *; try tauto;
    destruct Hk as [Hk|(-> & -> & ->)]; try tauto; destruct Ht as (<- & <- & <-); rewrite N.eqb_refl in K; discriminate K.
  - apply F. intros k0 Hk Ht. cbn in K. apply negb_true_iff in K. destruct k0; cbn in *; try tauto;
    destruct Hk as [Hk|(-> & -> & ->)]; try tauto; destruct Ht as (<- & <- & <-); rewrite N.eqb_refl in K; discriminate K.
Qed.
Lemma InStep_nil : InStep [].
Proof.
  constructor; [apply Indexed_nil|apply DictOk_nil|reflexivity|discriminate|discriminate].
Qed.
Lemma md_run_InStep snake ops s : forallb wf_op ops = true -> forallb (keeps_names p) ops = true -> InStep s -> InStep (md_run snake ops s).
Proof.
  unfold md_run. revert s. induction ops as [|o r IH]; cbn [forallb fold_left]; intros s W K H; [exact H|].
  apply andb_prop in W, K. destruct W, K. apply IH; auto. now apply md_step_InStep.
Qed.
End InStep.

(** As long as the names of the events are kept, every event is shown by its name. *)
Theorem C31_shown_by_name_partial :
  forall snake p ops id e,
    forallb wf_op ops = true -> forallb (keeps_names p) ops = true ->
    let s := md_run snake ops [] in
    event_by_id p id s = Ok e -> shown_name p id s = Ok (ev_name e).
Proof.
  intros snake p ops id e W K s H. apply event_by_id_spec in H. apply dict_value_spec.
  assert (X : InStep p s) by (apply md_run_InStep; auto using InStep_nil).
  now apply (is_name p _ X).
Qed.
Print Assumptions C31_shown_by_name_partial.
Example C31_shown_by_name_partial_witness :
  let ops := [OEventCreate 1 "buy" None []; OEventGetOrCreate 1 "see" (Some "See") []; OEventDelete 2 1;
              OEventUpdate 1 2 None (Some None); OEventAttach 1 2 [7%N]] in
  let s := md_run (fun x => x) ops [] in
  forallb (keeps_names 1) ops = true /\ event_by_id 1 2 s = Ok (mkEvent 2 "see" None []) /\ shown_name 1 2 s = Ok "see".
Proof. vm_compute. repeat split. Qed.

(** A rename never reaches the dictionary: in every state, results show after it what they
    showed before. *)
Theorem C31_renamed_event_shows_old_name_refuted :
  forall p id new d s e,
    fst (event_update p id (Some new) d s) = Ok e ->
    ev_name e = new /\
    shown_name p id (snd (event_update p id (Some new) d s)) = shown_name p id s.
Proof.
  intros p id new d s e H. split.
  - unfold event_update in H. destruct (event_by_id p id s); [|discriminate]. cbv zeta in H.
    destruct (check_update _ _ _); [|discriminate]. cbn [fst] in H. now injection H as <-.
  - unfold shown_name, dict_value.
    change (make_key_key p (tbl_dict TABLE_EVENTS COLUMN_EVENT) id) with (render (KDictKey p TABLE_EVENTS COLUMN_EVENT id)).
    fold (kg (KDictKey p TABLE_EVENTS COLUMN_EVENT id) s).
    match goal with |- context [kget _ ?x] => fold (kg (KDictKey p TABLE_EVENTS COLUMN_EVENT id) x) end.
    rewrite (only_kg (in_rec (NProj p PEvents)) s); auto. apply event_update_frame; auto.
Qed.
Print Assumptions C31_renamed_event_shows_old_name_refuted.
Example C31_renamed_event_shows_old_name_refuted_witness :
  let s := md_run (fun x => x) [OEventCreate 1 "buy" None []] [] in
  fst (event_update 1 1 (Some "purchase") None s) = Ok (mkEvent 1 "purchase" None []) /\ shown_name 1 1 s = Ok "buy".
Proof. vm_compute. split; reflexivity. Qed.

(** Deleting an event and creating one of the same name leaves the dictionary one number
    behind from then on: the new event is shown under the name of the one created after
    it, or not at all. *)
Theorem C31_recreated_event_refuted :
  let s := md_run (fun x => x) [OEventCreate 1 "buy" None []; OEventDelete 1 1; OEventCreate 1 "buy" None []] [] in
  let s' := md_run (fun x => x) [OEventCreate 1 "see" None []] s in
  (event_by_name 1 "buy" s = Ok (mkEvent 2 "buy" None []) /\ shown_name 1 2 s = Err NotFound) /\
  (event_by_id 1 2 s' = Ok (mkEvent 2 "buy" None []) /\ shown_name 1 2 s' = Ok "see").
Proof. vm_compute. repeat split. Qed.
Print Assumptions C31_recreated_event_refuted.
