(** Dictionaries, sequences and the event dictionary. *)
From Coq Require Import List NArith ZArith String Ascii Bool Lia.
From Verif Require Import AMap Kv KvKeys KvKeysFacts KvFacts Md MdOps MdFrame MdIndex MdEntities.
Import ListNotations.
Local Open Scope string_scope.

Section Dict.
Variables (p : N) (t d : string).
Hypothesis W : no_slash t && no_slash d = true.
Notation kk n := (KDictKey p t d n).
Notation kv v := (KDictVal p t d v).
Notation ks := (KDictSeq p t d).

Lemma wfk n : wf_key (kk n) = true. Proof. exact W. Qed.
Lemma wfv v : wf_key (kv v) = true. Proof. exact W. Qed.
Lemma wfs : wf_key ks = true. Proof. exact W. Qed.

(** Values and numbers of one dictionary. *)
Record DictOk (s : Store) : Prop := {
  dk_val : forall v x, kg (kv v) s = Some x -> exists n, x = VNum n /\ kg (kk n) s = Some (VText v);
  dk_key : forall n x, kg (kk n) s = Some x -> exists v, x = VText v /\ kg (kv v) s = Some (VNum n);
  dk_seq : match kg ks s with
           | None => forall n, kg (kk n) s = None
           | Some (VNum m) => (1 <= m)%N /\ forall n, kg (kk n) s <> None -> (1 <= n <= m)%N
           | _ => False
           end
}.
Lemma DictOk_nil : DictOk [].
Proof. constructor; [discriminate|discriminate|intro; reflexivity]. Qed.

Lemma DictOk_frame P s s' : only P s s' -> (forall k, in_dict p t d k -> ~ P k) -> DictOk s -> DictOk s'.
Proof.
  intros O D [H1 H2 H3].
  assert (EK : forall n, kg (kk n) s' = kg (kk n) s) by (intro; apply (only_kg P); [exact O|apply wfk|apply D; cbn; auto]).
  assert (EV : forall n, kg (kv n) s' = kg (kv n) s) by (intro; apply (only_kg P); [exact O|apply wfv|apply D; cbn; auto]).
  assert (ES : kg ks s' = kg ks s) by (apply (only_kg P); [exact O|apply wfs|apply D; cbn; auto]).
  constructor.
  - intros v x. rewrite EV. intro H. destruct (H1 v x H) as (n & -> & Hn). exists n. rewrite EK. auto.
  - intros v x. rewrite EK. intro H. destruct (H2 v x H) as (n & -> & Hn). exists n. rewrite EV. auto.
  - rewrite ES. destruct (kg ks s) as [[]|]; auto.
    + destruct H3 as [Hm H3]. split; [exact Hm|]. intro k. rewrite EK. auto.
    + intro k. rewrite EK. auto.
Qed.

(** What [dict_get_or_create] does on a consistent dictionary. *)
Lemma dict_encode_spec v s : DictOk s ->
  (exists n, kg (kv v) s = Some (VNum n) /\ dict_get_or_create p t d v s = (Ok n, s)) \/
  (kg (kv v) s = None /\
   exists n, (1 <= n)%N /\ n = match kg ks s with Some (VNum m) => (m + 1)%N | _ => 1%N end /\ kg (kk n) s = None /\
     dict_get_or_create p t d v s =
       (Ok n, kput (render (kv v)) (VNum n) (kput (render (kk n)) (VText v) (kput (render ks) (VNum n) s)))).
Proof.
  intros [H1 H2 H3]. unfold dict_get_or_create.
  change (make_value_key p (tbl_dict t d) v) with (render (kv v)).
  change (make_id_seq_key (project_ns p (dict_ns (tbl_dict t d)))) with (render ks).
  fold (kg (kv v) s). destruct (kg (kv v) s) as [x|] eqn:Ev.
  - left. destruct (H1 v x Ev) as (n & -> & Hn). exists n. auto.
  - right. split; [reflexivity|]. unfold next_seq, next_from. fold (kg ks s).
    destruct (kg ks s) as [[m| |]|]; try contradiction; cbn [read_num].
    + destruct H3 as [Hm H3]. exists (m + 1)%N. split; [lia|]. split; [reflexivity|]. split; [|reflexivity].
      destruct (kg (kk (m + 1)) s) eqn:Ek; [|reflexivity]. exfalso.
      assert (1 <= m + 1 <= m)%N by (apply H3; congruence). lia.
    + exists 1%N. split; [lia|]. split; [reflexivity|]. split; [apply H3|reflexivity].
Qed.

Lemma dict_put_kk n v m s n' :
  kg (kk n') (kput (render (kv v)) (VNum n) (kput (render (kk n)) (VText v) (kput (render ks) (VNum m) s))) =
  if N.eq_dec n' n then Some (VText v) else kg (kk n') s.
Proof.
  rewrite kg_put_ne; [|apply wfk|apply wfv|discriminate].
  destruct (N.eq_dec n' n) as [->|Ne]; [apply kg_put_eq|].
  rewrite kg_put_ne; [|apply wfk|apply wfk|congruence]. apply kg_put_ne; [apply wfk|apply wfs|discriminate].
Qed.
Lemma dict_put_kv n v m s v' :
  kg (kv v') (kput (render (kv v)) (VNum n) (kput (render (kk n)) (VText v) (kput (render ks) (VNum m) s))) =
  if string_dec v' v then Some (VNum n) else kg (kv v') s.
Proof.
  destruct (string_dec v' v) as [->|Ne]; [apply kg_put_eq|].
  rewrite kg_put_ne; [|apply wfv|apply wfv|congruence].
  rewrite kg_put_ne; [|apply wfv|apply wfk|discriminate]. apply kg_put_ne; [apply wfv|apply wfs|discriminate].
Qed.
Lemma dict_put_ks n v m s :
  kg ks (kput (render (kv v)) (VNum n) (kput (render (kk n)) (VText v) (kput (render ks) (VNum m) s))) = Some (VNum m).
Proof.
  rewrite kg_put_ne; [|apply wfs|apply wfv|discriminate]. rewrite kg_put_ne; [|apply wfs|apply wfk|discriminate].
  apply kg_put_eq.
Qed.

Lemma dict_encode_ok v s : DictOk s -> DictOk (snd (dict_get_or_create p t d v s)).
Proof.
  intro Hx. destruct (dict_encode_spec v s Hx) as [(n & _ & ->)|(Hv & n & Hn & En & Hk & ->)]; [exact Hx|].
  cbn [snd]. destruct Hx as [H1 H2 H3]. constructor.
  - intros v' x. rewrite dict_put_kv. destruct (string_dec v' v) as [->|Ne].
    + intros [= <-]. exists n. rewrite dict_put_kk. destruct (N.eq_dec n n); [auto|congruence].
    + intro H. destruct (H1 v' x H) as (n' & -> & Hn'). exists n'. rewrite dict_put_kk.
      destruct (N.eq_dec n' n) as [->|]; [congruence|auto].
  - intros n' x. rewrite dict_put_kk. destruct (N.eq_dec n' n) as [->|Ne].
    + intros [= <-]. exists v. rewrite dict_put_kv. destruct (string_dec v v); [auto|congruence].
    + intro H. destruct (H2 n' x H) as (v' & -> & Hv'). exists v'. rewrite dict_put_kv.
      destruct (string_dec v' v) as [->|]; [congruence|auto].
  - rewrite dict_put_ks. split; [exact Hn|]. intros n'. rewrite dict_put_kk.
    destruct (N.eq_dec n' n) as [->|Ne]; [lia|]. intro Hp.
    destruct (kg ks s) as [[m| |]|]; try contradiction.
    + destruct H3 as [_ H3]. specialize (H3 n' Hp). lia.
    + exfalso. apply Hp, H3.
Qed.

(** Calls that bind a number to a value directly ([create_key]) on this dictionary. *)
Definition binds (o : MdOp) : bool :=
  match o with
  | ODictCreateKey q t' d' _ _ => N.eqb q p && String.eqb t' t && String.eqb d' d
  | _ => false
  end.

End Dict.

Lemma event_create_dict p name dn props s : DictOk p TABLE_EVENTS COLUMN_EVENT s ->
  DictOk p TABLE_EVENTS COLUMN_EVENT (snd (event_create p name dn props s)).
Proof.
  intro Hx. unfold event_create. destruct (check_insert _ _); [|exact Hx].
  destruct (next_seq _ s) as [[id|e] s1] eqn:En; [|exact Hx]. cbv zeta. set (s3 := insert_index _ _ _).
  assert (H3 : DictOk p TABLE_EVENTS COLUMN_EVENT s3).
  { eapply (DictOk_frame p TABLE_EVENTS COLUMN_EVENT eq_refl (in_ns (NProj p PEvents))); [|intros k0 Hk; destruct k0; cbn in *; tauto|exact Hx].
    unfold s3. apply only_insert; [apply event_keys_hit; intros k0 Hk; destruct k0; cbn in *; tauto|].
    apply only_put; [hit; reflexivity|]. eapply next_seq_only; [exact En|]. hit. reflexivity. }
  apply (dict_encode_ok p TABLE_EVENTS COLUMN_EVENT eq_refl name) in H3.
  destruct (dict_get_or_create p TABLE_EVENTS COLUMN_EVENT name s3) as [[?|?] s4]; exact H3.
Qed.

Lemma md_step_dict p t d snake o s : no_slash t && no_slash d = true -> wf_op o = true -> binds p t d o = false ->
  DictOk p t d s -> DictOk p t d (md_step snake o s).
Proof.
  intros W Wo Hb Hx.
  assert (F : (forall k, in_dict p t d k -> ~ touches o k) -> DictOk p t d (md_step snake o s)).
  { intro D. eapply DictOk_frame; [exact W|apply md_frame, Wo|exact D|exact Hx]. }
  assert (FE : forall q, (q = p -> t = TABLE_EVENTS -> d = COLUMN_EVENT -> DictOk p t d (md_step snake o s)) ->
     (forall k, touches o k -> in_ns (NProj q PEvents) k \/ in_dict q TABLE_EVENTS COLUMN_EVENT k) ->
     DictOk p t d (md_step snake o s)).
  { intros q Heq T. destruct (N.eq_dec q p) as [E1|N1]; [destruct (string_dec t TABLE_EVENTS) as [E2|N2]; [destruct (string_dec d COLUMN_EVENT) as [E3|N3]; [auto|]|]|];
    apply F; intros k Hk Ht; apply T in Ht; destruct k; cbn in *; intuition congruence. }
  destruct o; try (apply F; intros k0 Hk; try (match goal with kd : PropKind |- _ => destruct kd end);
     destruct k0; cbn in *; try tauto; unfold in_props, kind_ns; cbn; intuition congruence).
  - apply (FE p0); [|auto]. intros -> -> ->. now apply event_create_dict.
  - apply (FE p0); [|auto]. intros -> -> ->. cbn [md_step]. unfold event_get_or_create.
    destruct (event_by_name p name s) as [|[]]; try exact Hx. now apply event_create_dict.
  - destruct (N.eq_dec p0 p) as [->|N1]; [destruct (string_dec t0 t) as [->|N2]; [destruct (string_dec d0 d) as [->|N3]|]|];
    [now apply dict_encode_ok|..]; apply F; intros k Hk Ht; destruct k; cbn in *; intuition congruence.
  - apply F. intros k Hk Ht. cbn in Hb. apply not_true_iff_false in Hb. apply Hb.
    rewrite !andb_true_iff, N.eqb_eq, !String.eqb_eq. destruct k; cbn in *; intuition congruence.
  - apply F; intros k Hk Ht; destruct k; cbn in *; try tauto; destruct Ht as [[]|(x & E)]; discriminate.
  - apply F; intros k Hk Ht; destruct k; cbn in *; try tauto; destruct Ht as [[]|(x & E)]; discriminate.
  - apply F; intros k Hk Ht; destruct k; cbn in *; try tauto; destruct Ht as [[]|(x & E)]; discriminate.
  - apply F; intros k Hk Ht; destruct k; cbn in *; try tauto; destruct Ht as [[]|(x & E)]; discriminate.
Qed.

Lemma md_run_dict p t d snake ops s : no_slash t && no_slash d = true -> forallb wf_op ops = true ->
  existsb (binds p t d) ops = false -> DictOk p t d s -> DictOk p t d (md_run snake ops s).
Proof.
  intros W. unfold md_run. revert s. induction ops as [|o r IH]; cbn [fold_left forallb existsb]; intros s Wo Hb Hx; [exact Hx|].
  apply andb_prop in Wo as [W1 W2]. apply orb_false_iff in Hb as [B1 B2]. apply IH; auto using md_step_dict.
Qed.

(** A pair once in the dictionary stays. *)
Lemma dict_grows p t d snake o s v n : no_slash t && no_slash d = true -> wf_op o = true -> binds p t d o = false ->
  DictOk p t d s -> kg (KDictVal p t d v) s = Some (VNum n) -> kg (KDictVal p t d v) (md_step snake o s) = Some (VNum n).
Proof.
  intros W Wo Hb Hx Hv.
  assert (F : ~ touches o (KDictVal p t d v) -> kg (KDictVal p t d v) (md_step snake o s) = Some (VNum n)).
  { intro N. rewrite (only_kg _ s _ (KDictVal p t d v) (md_frame snake o s Wo)); auto. }
  assert (G : forall w s', DictOk p t d s' -> kg (KDictVal p t d v) s' = Some (VNum n) ->
     kg (KDictVal p t d v) (snd (dict_get_or_create p t d w s')) = Some (VNum n)).
  { intros w s' Hx' Hv'. destruct (dict_encode_spec p t d w s' Hx') as [(m & _ & ->)|(Hw & m & _ & _ & _ & ->)]; [exact Hv'|].
    cbn [snd]. rewrite dict_put_kv by exact W. destruct (string_dec v w) as [->|]; [congruence|exact Hv']. }
  assert (GE : forall q name dn props, q = p -> t = TABLE_EVENTS -> d = COLUMN_EVENT ->
     kg (KDictVal p t d v) (snd (event_create q name dn props s)) = Some (VNum n)).
  { intros q name dn props -> Et Ed. unfold event_create. destruct (check_insert _ _); [|exact Hv].
    destruct (next_seq _ s) as [[id|e] s1] eqn:En; [|exact Hv]. cbv zeta. set (s3 := insert_index _ _ _).
    assert (O : only (in_ns (NProj p PEvents)) s s3).
    { unfold s3. apply only_insert; [apply event_keys_hit; intros k0 Hk; destruct k0; cbn in *; tauto|].
      apply only_put; [hit; reflexivity|]. eapply next_seq_only; [exact En|]. hit. reflexivity. }
    assert (H3 : DictOk p t d s3) by (eapply DictOk_frame; [exact W|exact O|intros k0 Hk; destruct k0; cbn in *; tauto|exact Hx]).
    assert (V3 : kg (KDictVal p t d v) s3 = Some (VNum n)).
    { rewrite (only_kg _ s _ (KDictVal p t d v) O); auto. }
    pose proof (G name s3 H3 V3) as V4. rewrite Et, Ed in V4 at 2.
    destruct (dict_get_or_create p TABLE_EVENTS COLUMN_EVENT name s3) as [[?|?] s4]; exact V4. }
  destruct (match o with OEventCreate _ _ _ _ | OEventGetOrCreate _ _ _ _ | ODictEncode _ _ _ _ => true | _ => false end) eqn:Eo.
  2: { apply F. destruct o; try discriminate; cbn; try tauto; try congruence; unfold in_props; cbn; try tauto.
       - cbn in Hb. intros (-> & -> & ->). rewrite N.eqb_refl, !String.eqb_refl in Hb. discriminate.
       - intros [[]|(x & E)]; discriminate.
       - intros [[]|(x & E)]; discriminate.
       - intros [[]|(x & E)]; discriminate.
       - intros [[]|(x & E)]; discriminate. }
  destruct o; try discriminate.
  - destruct (N.eq_dec p0 p) as [E1|]; [destruct (string_dec t TABLE_EVENTS) as [E2|]; [destruct (string_dec d COLUMN_EVENT) as [E3|]; [now apply GE|]|]|];
    apply F; cbn; intuition congruence.
  - destruct (N.eq_dec p0 p) as [E1|]; [destruct (string_dec t TABLE_EVENTS) as [E2|]; [destruct (string_dec d COLUMN_EVENT) as [E3|]|]|];
    try (apply F; cbn; intuition congruence).
    cbn [md_step]. unfold event_get_or_create. destruct (event_by_name p0 name s) as [|[]]; try exact Hv. now apply GE.
  - destruct (N.eq_dec p0 p) as [->|N1]; [destruct (string_dec t0 t) as [->|N2]; [destruct (string_dec d0 d) as [->|N3]|]|];
    [now apply G|..]; apply F; cbn; intuition congruence.
Qed.
Lemma dict_grows_run p t d snake ops s v n : no_slash t && no_slash d = true -> forallb wf_op ops = true ->
  existsb (binds p t d) ops = false -> DictOk p t d s -> kg (KDictVal p t d v) s = Some (VNum n) ->
  kg (KDictVal p t d v) (md_run snake ops s) = Some (VNum n).
Proof.
  intros W. unfold md_run. revert s. induction ops as [|o r IH]; cbn [fold_left forallb existsb]; intros s Wo Hb Hx Hv; [exact Hv|].
  apply andb_prop in Wo as [W1 W2]. apply orb_false_iff in Hb as [B1 B2].
  apply IH; auto using md_step_dict. now apply dict_grows.
Qed.

Lemma dict_key_spec p t d v s : DictOk p t d s ->
  (dict_key p t d v s = Ok match kg (KDictVal p t d v) s with Some (VNum n) => n | _ => 0%N end /\ kg (KDictVal p t d v) s <> None) \/
  (dict_key p t d v s = Err NotFound /\ kg (KDictVal p t d v) s = None).
Proof.
  intros [H1 _ _]. unfold dict_key. change (make_value_key p (tbl_dict t d) v) with (render (KDictVal p t d v)).
  fold (kg (KDictVal p t d v) s). destruct (kg _ s) as [x|] eqn:E; [left|right; auto].
  destruct (H1 v x E) as (n & -> & _). cbn. split; [reflexivity|discriminate].
Qed.
Lemma dict_value_spec p t d n s v : dict_value p t d n s = Ok v <-> kg (KDictKey p t d n) s = Some (VText v).
Proof.
  unfold dict_value. change (make_key_key p (tbl_dict t d) n) with (render (KDictKey p t d n)).
  fold (kg (KDictKey p t d n) s). destruct (kg _ s) as [[]|]; split; congruence.
Qed.
