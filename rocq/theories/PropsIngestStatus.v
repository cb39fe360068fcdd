(** Property C136: what the status of a track or identify call tells. *)
From Coq Require Import List NArith ZArith String Ascii Bool Lia.
From Verif Require Import AMap Kv KvKeys KvKeysFacts KvFacts Md MdOps MdFrame MdTyped MdIndex MdEntities MdProps PropsNames
  Ingest IngestFacts PropsIngest IngestServer PropsServer PropsFit AuthStatus IngestStatus.
Import ListNotations.
Local Open Scope string_scope.

(** ** The same calls as in [Ingest] *)
(** What is left of an error there. *)
Definition plainly (e : IngesterError) : MdErr :=
  match e with
  | IMetadata MAlreadyExists => AlreadyExists | IMetadata MNotFound => NotFound | IStopped => Panicked | _ => BadRequest
  end.
Definition same {A} (m' : MI A) (m : M A) : Prop :=
  forall s, m s = match m' s with (inl x, s') => (Ok x, s') | (inr e, s') => (Err (plainly e), s') end.
Lemma same_return {A} (x : A) : same (ireturn x) (ret x). Proof. intro s. reflexivity. Qed.
Lemma same_fail {A} e : same (@ifail A e) (fail (plainly e)). Proof. intro s. reflexivity. Qed.
Lemma same_md {A} (m : M A) : same (md m) m.
Proof. intro s. unfold md. now destruct (m s) as [[x|[]] s']. Qed.
Lemma same_bind {A B} m' m (f' : A -> MI B) f : same m' m -> (forall x, same (f' x) (f x)) -> same (ibind m' f') (bind m f).
Proof. intros Hm Hf s. unfold ibind, bind. rewrite Hm. destruct (m' s) as [[x|e] s1]; [apply Hf|reflexivity]. Qed.
Lemma same_each {A B} (f' : A -> MI B) f l : (forall x, same (f' x) (f x)) -> same (ieach f' l) (each f l).
Proof.
  intro H. induction l as [|x r IH]; cbn [ieach each]; [apply same_return|].
  apply same_bind; [apply H|intro y]. apply same_bind; [exact IH|intro]. apply same_return.
Qed.

(** ** Errors of the metadata *)
Definition missing (x : MdErr) : Prop := x = NotFound \/ x = Panicked.
Lemma next_err first k (s : Store) x s' : next_from first k s = (Err x, s') -> x = Panicked.
Proof. unfold next_from. destruct (kget k s) as [v|]; [destruct (read_num v)|]; congruence. Qed.
Lemma dict_err p t d v s x s' : dict_get_or_create p t d v s = (Err x, s') -> x = Panicked.
Proof.
  unfold dict_get_or_create. destruct (kget _ s) as [w|]; [destruct (read_num w); congruence|].
  destruct (next_seq _ s) as [[n|e] s1] eqn:E; [congruence|]. intros [= -> _]. eapply next_err, E.
Qed.
Lemma index_err (s : Store) k x : get_index s k = Err x -> missing x.
Proof. unfold get_index, missing. destruct (kget k s) as [v|]; [destruct (read_num v)|]; intros [=]; auto. Qed.
Lemma prop_id_err p k i s x : prop_by_id p k i s = Err x -> missing x.
Proof. unfold prop_by_id, missing. destruct (kget _ s) as [[| |[]]|]; intros [=]; auto. Qed.
Lemma prop_name_err p k n s x : prop_by_name p k n s = Err x -> missing x.
Proof. unfold prop_by_name. destruct (get_index _ _) as [i|e] eqn:E; [apply prop_id_err|]. intros [= <-]. eapply index_err, E. Qed.
Lemma event_id_err p i s x : event_by_id p i s = Err x -> missing x.
Proof. unfold event_by_id, missing. destruct (kget _ s) as [[| |[]]|]; intros [=]; auto. Qed.
Lemma event_name_err p n s x : event_by_name p n s = Err x -> missing x.
Proof. unfold event_by_name. destruct (get_index _ _) as [i|e] eqn:E; [apply event_id_err|]. intros [= <-]. eapply index_err, E. Qed.
Lemma project_id_err i s x : project_by_id i s = Err x -> missing x.
Proof. unfold project_by_id, missing. destruct (kget _ s) as [[| |[]]|]; intros [=]; auto. Qed.
Lemma token_err t s x : project_by_token t s = Err x -> missing x.
Proof. unfold project_by_token. destruct (get_index _ _) as [i|e] eqn:E; [apply project_id_err|]. intros [= <-]. eapply index_err, E. Qed.
Lemma values_err v x : read_group_values v = Err x -> x = Panicked.
Proof. unfold read_group_values. destruct v as [| |[]]; congruence. Qed.
Lemma anon_err p g k s x s' : anon_get_or_create p g k s = (Err x, s') -> x = Panicked.
Proof.
  unfold anon_get_or_create. destruct (kget _ s) as [v|]; [destruct (read_num v); congruence|].
  destruct (next_seq _ s) as [[n|e] s1] eqn:E; [congruence|]. intros [= -> _]. eapply next_err, E.
Qed.
Lemma get_err p g k l s x s' : group_get_or_create p g k l s = (Err x, s') -> x = Panicked.
Proof.
  unfold group_get_or_create. destruct (kget _ s) as [v|]; [intros [= H _]; now apply values_err in H|].
  destruct (next_seq _ s) as [[n|e] s1] eqn:E; cbv zeta; [congruence|]. intros [= -> _]. eapply next_err, E.
Qed.
Lemma set_err p g k l s x s' : group_create_or_update p g k l s = (Err x, s') -> x = Panicked.
Proof.
  unfold group_create_or_update. destruct (kget _ s) as [v|].
  - destruct (read_group_values v) as [o|e] eqn:E; cbv zeta; [congruence|]. intros [= -> _]. now apply values_err in E.
  - destruct (next_seq _ s) as [[n|e] s1] eqn:E; cbv zeta; [congruence|]. intros [= -> _]. eapply next_err, E.
Qed.
Lemma merge_err p g a i l s x s' : merge_with_anonymous p g a i l s = (Err x, s') -> x = Panicked.
Proof.
  unfold merge_with_anonymous. destruct (kget _ s) as [v|]; [intros [= H _]; now apply values_err in H|].
  destruct (anon_get_or_create p g a s) as [[n|e] s1] eqn:E; cbv zeta; [congruence|]. intros [= -> _]. eapply anon_err, E.
Qed.
Lemma kind_err p n s x s' : group_type_get_or_create p n s = (Err x, s') -> x = BadRequest \/ x = Panicked.
Proof.
  unfold group_type_get_or_create. destruct (kget _ s) as [[| |[]]|]; try (intros [= <- _]; now right); try discriminate.
  destruct (next_zero_seq _ s) as [[i|e] s1] eqn:E; [destruct (N.leb _ _); [|discriminate]; intros [= <- _]; now left|].
  intros [= -> _]. right. eapply next_err, E.
Qed.
Lemma session_err p u t s x s' : session_set_time p u t s = (Err x, s') -> x = Panicked.
Proof. unfold session_set_time. destruct (kget _ s) as [[| |[]]|]; congruence. Qed.

(** ** What a call can be refused with *)
Section Status.
Variable snake : string -> string.
Variable isdict : Property -> bool.
Variables (enc : SVal -> N) (dcv : N -> SVal).
Hypothesis snake_ok : forall x, no_slash x = true -> no_slash (snake x) = true.
Notation answer := (answer snake isdict enc dcv).
Notation serve := (serve snake isdict enc dcv).
Notation serve_all := (serve_all snake isdict enc dcv).

Lemma same_value p t x : same (to_value snake isdict p t x) (property_to_value snake isdict p t x).
Proof.
  destruct x as [pr v]. unfold to_value, property_to_value. destruct (isdict pr).
  - destruct v; try apply (same_fail IInternal). apply same_bind; [apply same_md|intro; apply same_return].
  - destruct (pp_type pr) as [b|b], v; try apply (same_fail IInternal); destruct b; cbn [int_bits];
    try apply (same_fail IInternal); try apply same_return; destruct (to_int _ _ _); try apply (same_fail IStopped); apply same_return.
Qed.
Lemma same_put vs : same (put_event vs) (insert_event vs).
Proof. intro s. unfold put_event, insert_event. now destruct (types_ok vs). Qed.
Lemma same_put_group g vs : same (put_group g vs) (insert_group g vs).
Proof. intro s. unfold put_group, insert_group. now destruct (types_ok vs). Qed.
Lemma same_whose p r : same (whose p r) (who p r).
Proof. unfold whose. destruct (tr_user r) eqn:U, (tr_anon r) eqn:A; try apply same_md. unfold who. rewrite U, A. apply (same_fail IBadRequest). Qed.
Lemma same_named p x : same (named_value snake isdict p x) (named_property snake isdict p x).
Proof. apply same_bind; [apply same_value|intro; apply same_return]. Qed.
Lemma same_send now p u e gs props r : same (send_event snake isdict dcv now p u e gs props r) (send snake isdict dcv now p u e gs props r).
Proof.
  unfold send_event, send. apply same_bind; [apply same_md|intro new].
  apply same_bind; [apply same_each, same_named|intro pv].
  apply same_bind; [apply same_each; intro; apply same_each; intro; apply same_md|intro gv].
  apply same_bind; [apply same_each; intro; apply same_bind; [apply same_md|intro; apply same_named]|intro utm].
  cbv zeta. apply same_bind.
  - destruct new; [|apply same_return]. apply same_bind; [apply same_md|intro n]. apply same_bind; [apply same_md|intro]. apply same_put.
  - intro. apply same_bind; [apply same_md|intro]. apply same_put.
Qed.
Lemma same_track now r : same (track_call snake isdict dcv now r) (track snake isdict dcv now r).
Proof.
  unfold track_call, track. apply same_bind; [apply same_md|intro pj]. cbv zeta.
  apply same_bind; [destruct (tr_props r); [apply same_bind; [apply same_md|intro]|]; apply same_return|intro props].
  apply same_bind; [apply same_whose|intro w]. apply same_bind; [apply same_md|intro gs].
  apply same_bind; [apply same_md|intro e]. apply same_bind; [destruct props; [apply same_md|apply same_return]|intros _].
  apply same_bind; [apply same_each; intro; apply same_md|intro extra].
  apply same_bind; [apply same_send|intros _]. apply same_md.
Qed.
Lemma same_identify r : same (identify_call snake isdict enc dcv r) (identify snake isdict enc dcv r).
Proof.
  unfold identify_call, identify. apply same_bind; [apply same_md|intro pj]. cbv zeta.
  apply same_bind; [apply same_md|intro g]. apply same_bind; [destruct (id_props r); [apply same_md|apply same_return]|intro props].
  apply same_bind; [apply same_each; intro; apply same_bind; [apply same_value|intro; apply same_return]|intro vals].
  apply same_bind; [apply same_md|intro gv]. apply same_bind; [apply same_md|intros _]. apply same_bind; [apply same_md|intro v].
  apply same_bind; [apply same_each; intro; apply same_md|intro]. apply same_put_group.
Qed.

(** The store was reached by calls. *)
Definition Reached (s : St) : Prop := exists ops, forallb wf_op ops = true /\ st_md s = md_run snake ops [].
Definition wf (o : MdOp) : Prop := wf_op o = true.
Lemma reached_does {A} (m : M A) s : does snake wf m -> Reached s -> Reached (snd (m s)).
Proof.
  intros D (ops & W & E). destruct (D s) as (o2 & E2 & F). exists (ops ++ o2)%list. split.
  - rewrite forallb_app, W. apply forallb_forall. rewrite Forall_forall in F. exact F.
  - rewrite E2, E. unfold md_run. now rewrite fold_left_app.
Qed.
(** From reached stores the call fails only with errors of [P]. *)
Definition fails_with {A} (P : IngesterError -> Prop) (m : MI A) : Prop :=
  forall s, Reached s -> Reached (snd (m s)) /\ match fst (m s) with inr e => P e | inl _ => True end.
Lemma fw_return {A} P (x : A) : fails_with P (ireturn x). Proof. now split. Qed.
Lemma fw_fail {A} (P : IngesterError -> Prop) e : P e -> fails_with P (@ifail A e). Proof. now split. Qed.
Lemma fw_bind {A B} P (m : MI A) (f : A -> MI B) : fails_with P m -> (forall x, fails_with P (f x)) -> fails_with P (ibind m f).
Proof.
  intros Hm Hf s R. unfold ibind. destruct (Hm s R) as (R1 & H1). destruct (m s) as [[x|e] s1]; cbn [fst snd] in *; [now apply Hf|now split].
Qed.
Lemma fw_each {A B} P (f : A -> MI B) l : (forall x, fails_with P (f x)) -> fails_with P (ieach f l).
Proof.
  intro H. induction l as [|x r IH]; cbn [ieach]; [apply fw_return|].
  apply fw_bind; [apply H|intro y]. apply fw_bind; [exact IH|intro]. apply fw_return.
Qed.
Lemma fw_md {A} (P : IngesterError -> Prop) (m : M A) : does snake wf m ->
  (forall s x s', Reached s -> m s = (Err x, s') -> P (of_md x)) -> fails_with P (md m).
Proof.
  intros D H s R. pose proof (reached_does m s D R) as R'. unfold md. destruct (m s) as [[x|e] s'] eqn:E; cbn [fst snd] in *; (split; [exact R'|]); [exact Logic.I|exact (H _ _ _ R E)].
Qed.
Lemma bind_err2 {A B} (m : M A) (f : A -> M B) s x s' : bind m f s = (Err x, s') ->
  m s = (Err x, s') \/ exists y s1, m s = (Ok y, s1) /\ f y s1 = (Err x, s').
Proof. unfold bind. destruct (m s) as [[y|e] s1]; [|intros [= -> ->]; now left]. right. eauto. Qed.
Lemma on_err {A} (f : Store -> Res A * Store) s x s' : on_md f s = (Err x, s') -> exists m, f (st_md s) = (Err x, m).
Proof. unfold on_md. destruct (f (st_md s)) as [r m]. intros [= -> _]. eauto. Qed.
Lemma look_err {A} (f : Store -> Res A) s x s' : look f s = (Err x, s') -> f (st_md s) = Err x.
Proof. unfold look. now intros [= -> _]. Qed.

(** Refusals that are neither 400 nor 409. *)
Definition other (e : IngesterError) : Prop := match e with IBadRequest | ISerde | IMetadata MAlreadyExists => False | _ => True end.
Lemma other_missing x : missing x -> other (of_md x). Proof. intros [-> | ->]; exact Logic.I. Qed.
Lemma other_stop x : x = Panicked -> other (of_md x). Proof. now intros ->. Qed.

Lemma prop_made p k n b s : Reached s -> exists x s', prop_get_or_create snake p k n None (PBase b) false (st_md s) = (Ok x, s').
Proof.
  intros (ops & W & E). assert (G : PropsOk p k (st_md s)) by (rewrite E; now apply props_reach).
  assert (T : Typed (fun _ _ => True) (st_md s)).
  { rewrite E. apply md_run_typed; [exact W|auto|apply Typed_nil]. }
  destruct (name_cases p k n (st_md s) G) as [(x & Ex)|(Ex & K)]; unfold prop_get_or_create; rewrite Ex; [eauto|].
  unfold prop_create. rewrite prop_okeys. rewrite (proj2 (check_insert_spec (kind_ns p k) _ (st_md s))).
  2: { intros ik Hik. apply iks_in in Hik. cbn in Hik. destruct Hik as [[= <-]|[Hd|[]]]; [exact K|discriminate]. }
  replace (make_id_seq_key (prop_ns p k)) with (render (KSeq (kind_ns p k))) by now destruct k.
  destruct (next_seq (render (KSeq (kind_ns p k))) (st_md s)) as [rr s1] eqn:Es.
  destruct (next_seq_indexed _ _ _ _ _ G Es) as (id & -> & _ & Es1 & Hno & _).
  assert (T1 : Typed (fun _ _ => True) s1).
  { eapply typed_next; [exact Es| |exact T]. exists (KSeq (kind_ns p k)). assert (wf_key (KSeq (kind_ns p k)) = true) by now destruct k. now repeat split. }
  change (make_id_seq_key _) with (render (KOrderSeq p (short_name (PBase b)))).
  assert (Wo : wf_key (KOrderSeq p (short_name (PBase b))) = true) by now destruct b.
  destruct (seq_ok _ 0 (KOrderSeq p (short_name (PBase b))) s1 Wo (fun v F => F) T1) as (o & Eo).
  unfold next_zero_seq. destruct (next_from 0 _ s1) as [ro s2] eqn:E2. cbn [fst] in Eo. subst ro. cbv zeta. cbn [storable negb]. eauto.
Qed.
Lemma does_one p k x : does snake wf (resolve_property snake p k x).
Proof. apply does_bind; [|intro; apply does_ret]. now apply does_op with (OPropGetOrCreate p k (fst x) None (data_type (snd x)) false). Qed.
Lemma resolved p k l : forall s, Reached s -> exists ys s', resolve_properties snake p k l s = (Ok ys, s') /\ Reached s'.
Proof.
  unfold resolve_properties. induction l as [|x r IH]; intros s R; cbn [each]; [unfold ret; eauto|].
  destruct (prop_made p k (fst x) (match snd x with PVDate _ => TInt64 | PVString _ => TString | PVNumber _ _ => TDecimal | PVBool _ => TBoolean end) s R) as (pr & m & E).
  pose proof (reached_does _ s (does_one p k x) R) as R1.
  assert (Er : resolve_property snake p k x s = (Ok (pr, snd x), mkSt m (st_events s) (st_groups s))).
  { unfold resolve_property, bind, on_md, data_type. rewrite E. reflexivity. }
  rewrite Er in R1. cbn [snd] in R1. destruct (IH _ R1) as (ys & s' & E' & R').
  unfold bind at 1. rewrite Er. unfold bind. rewrite E'. unfold ret. eauto.
Qed.
Lemma fw_resolve P p k l : fails_with P (md (resolve_properties snake p k l)).
Proof. intros s R. destruct (resolved p k l s R) as (ys & s' & E & R'). unfold md. rewrite E. now split. Qed.
Lemma event_made_err p n l s x s' : Reached s -> event_get_or_create p n None l (st_md s) = (Err x, s') -> missing x.
Proof.
  intros (ops & W & E). assert (G : EventsOk p (st_md s)) by (rewrite E; now apply events_reach).
  unfold event_get_or_create. destruct (event_by_name p n (st_md s)) as [e|y] eqn:En; [discriminate|].
  destruct (event_name_err _ _ _ _ En) as [-> | ->]; [|intros [= <- _]; now right].
  unfold event_create. rewrite event_okeys, (proj2 (check_insert_spec (NProj p PEvents) _ (st_md s))).
  2: { intros ik Hik. apply iks_in in Hik. cbn in Hik. destruct Hik as [[= <-]|[Hd|[]]]; [|discriminate].
       unfold event_by_name in En. pose proof (get_index_ix _ _ (st_md s) IName n G) as X.
       change (make_index_key (events_ns p) "name" n) with (render (kidx (NProj p PEvents) (IName, n))) in En.
       destruct (get_index _ _) as [id|e]; [|apply X].
       destruct (ix_idx _ _ _ G _ _ X) as (id' & r & ks & [= <-] & Hd & Hk & _). destruct r; try discriminate.
       assert (event_by_id p id (st_md s) = Ok e) by (apply event_by_id_spec; exact Hd). congruence. }
  destruct (next_seq _ (st_md s)) as [[id|y] s1] eqn:E1; [|intros [= -> _]; right; eapply next_err, E1].
  cbv zeta. destruct (dict_get_or_create _ _ _ _ _) as [[?|y] s4] eqn:E4; [discriminate|]. intros [= -> _]. right. eapply dict_err, E4.
Qed.
Lemma wf_prep p o : prep_op p o -> wf o. Proof. now intros [W _]. Qed.
Lemma wf_send p o : send_op p o -> wf o. Proof. now intros [W _]. Qed.
Lemma does_sub {A} (m : M A) p : does snake (prep_op p) m -> does snake wf m. Proof. apply does_weaken, wf_prep. Qed.

Ltac errs := repeat match goal with
  | H : bind _ _ _ = (Err _, _) |- _ => apply bind_err2 in H as [H | (? & ? & _ & H)]
  | H : on_md _ _ = (Err _, _) |- _ => apply on_err in H as (? & H)
  | H : look _ _ = (Err _, _) |- _ => apply look_err in H
  | H : ret _ _ = (Err _, _) |- _ => discriminate H
  | H : (Ok _, _) = (Err _, _) |- _ => discriminate H
  end.
Lemma fw_who p r : tr_user r <> None \/ tr_anon r <> None -> fails_with other (whose p r).
Proof.
  intro U. unfold whose. enough (F : fails_with other (md (who p r))) by (destruct (tr_user r), (tr_anon r); try exact F; now destruct U).
  apply fw_md; [eapply does_sub, does_who|]. intros s x s' R H. apply other_stop. unfold who in H.
  destruct (tr_user r), (tr_anon r); errs; eauto using merge_err, get_err, anon_err. now destruct U.
Qed.
Lemma each_err {A B} (f : A -> M B) (Q : MdErr -> Prop) l : (forall x s e s', f x s = (Err e, s') -> Q e) -> forall s e s', each f l s = (Err e, s') -> Q e.
Proof.
  intro H. induction l as [|x r IH]; cbn [each]; intros s e s' E; [discriminate|].
  apply bind_err2 in E as [E|(y & s1 & _ & E)]; [eauto|]. apply bind_err2 in E as [E|(z & s2 & _ & E)]; [eauto|discriminate].
Qed.
Lemma fw_groups p u r : fails_with other (md (track_groups p u r)).
Proof.
  apply fw_md; [eapply does_sub, does_groups|]. intros s x s' R H. unfold track_groups in H. destruct (tr_groups r) as [l|]; [|discriminate].
  apply bind_err2 in H as [H|(y & s1 & _ & H)]; [|discriminate]. revert H. apply (each_err _ (fun x => other (of_md x))).
  intros y t e t' H. unfold track_group in H. errs.
  - destruct (kind_err _ _ _ _ _ H) as [-> | ->]; exact Logic.I.
  - apply other_stop. eapply get_err, H.
Qed.
Lemma fw_value p t x : (forall d v, no_slash d = true -> wf (ODictEncode p t d v)) -> fails_with other (to_value snake isdict p t x).
Proof.
  intro Hd. destruct x as [pr v]. unfold to_value. destruct (isdict pr).
  - destruct v; try (now apply fw_fail). apply fw_bind; [|intro; apply fw_return]. apply fw_md.
    + eapply does_op; [apply (Hd (column_name snake pr) v); now apply (col_no_slash snake)|reflexivity].
    + intros s x s' R H. errs. apply other_stop. eapply dict_err, H.
  - destruct (pp_type pr) as [b|b], v; try (now apply fw_fail); destruct b; cbn [int_bits];
    try (now apply fw_fail); try apply fw_return; destruct (to_int _ _ _); try (now apply fw_fail); apply fw_return.
Qed.
Lemma fw_named p x : fails_with other (named_value snake isdict p x).
Proof. apply fw_bind; [|intro; apply fw_return]. apply fw_value. intros d v H. unfold wf. cbn. now rewrite H. Qed.
Lemma fw_stored p g x : fails_with other (md (named_stored snake isdict dcv p g x)).
Proof. apply fw_md; [apply does_stored|]. intros s y s' R H. unfold named_stored in H. errs. eapply other_missing, prop_id_err, H. Qed.
Lemma fw_by_name p x : fails_with other (md (named_by_name p x)).
Proof. apply fw_md; [apply does_by_name|]. intros s y s' R H. unfold named_by_name in H. errs. eapply other_missing, prop_name_err, H. Qed.
Lemma fw_put vs : fails_with other (put_event vs).
Proof. intros s R. unfold put_event, insert_event. destruct (types_ok vs); now split. Qed.
Lemma fw_put_group g vs : fails_with other (put_group g vs).
Proof. intros s R. unfold put_group, insert_group. destruct (types_ok vs); now split. Qed.
Lemma fw_record p : fails_with other (md (on_md (event_next_record p))).
Proof. apply fw_md; [now apply does_op with (OEventRecord p)|]. intros s y s' R H. errs. eapply other_stop, next_err, H. Qed.
Lemma fw_send now p u e gs props r : fails_with other (send_event snake isdict dcv now p u e gs props r).
Proof.
  unfold send_event. apply fw_bind.
  { apply fw_md; [now apply does_op with (OSession p u now)|]. intros s y s' R H. errs. eapply other_stop, session_err, H. }
  intro new. apply fw_bind; [apply fw_each, fw_named|intro pv].
  apply fw_bind; [apply fw_each; intro; apply fw_each; intro; apply fw_stored|intro gv].
  apply fw_bind; [apply fw_each; intro; apply fw_bind; [apply fw_by_name|intro; apply fw_named]|intro utm].
  cbv zeta. apply fw_bind.
  - destruct new; [|apply fw_return]. apply fw_bind; [apply fw_record|intro n]. apply fw_bind; [|intro; apply fw_put].
    apply fw_md; [apply does_look|]. intros s y s' R H. errs. eapply other_missing, event_name_err, H.
  - intro. apply fw_bind; [apply fw_record|intro]. apply fw_put.
Qed.
Lemma fw_token {A} t (f : Project -> MI A) : (forall pj, fails_with other (f pj)) -> fails_with other (ibind (md (look (project_by_token t))) f).
Proof. intro H. apply fw_bind; [|exact H]. apply fw_md; [apply does_look|]. intros s y s' R E. errs. eapply other_missing, token_err, E. Qed.
Lemma fw_track now r : tr_user r <> None \/ tr_anon r <> None -> fails_with other (track_call snake isdict dcv now r).
Proof.
  intro U. apply fw_token. intro pj. cbv zeta. set (p := pr_id pj).
  apply fw_bind; [destruct (tr_props r); [apply fw_bind; [apply fw_resolve|intro]|]; apply fw_return|intro props].
  apply fw_bind; [now apply fw_who|intro w]. apply fw_bind; [apply fw_groups|intro gs].
  apply fw_bind.
  { apply fw_md; [apply does_op with (OEventGetOrCreate p (tr_event r) None (map (fun x => pp_id (fst x)) (match props with Some l => l | None => [] end))); reflexivity|]. intros s y s' R H. errs. eapply other_missing, event_made_err; eauto. }
  intro e. apply fw_bind.
  { destruct props as [l|]; [|apply fw_return]. apply fw_md; [apply does_op with (OEventAttach p (ev_id e) (map (fun x => pp_id (fst x)) l)); reflexivity|].
    intros s y s' R H. errs. unfold event_attach in H. destruct (event_by_id p (ev_id e) (st_md s)) as [?|z] eqn:E; [discriminate|].
    injection H as <- _. eapply other_missing, event_id_err, E. }
  intros _. apply fw_bind; [apply fw_each; intro; apply fw_by_name|intro extra].
  apply fw_bind; [apply fw_send|intros _].
  apply fw_md; [now apply does_op with (OProjectCount p)|]. intros s y s' R H. errs. unfold project_count_event in H.
  destruct (project_by_id p (st_md s)) as [?|z] eqn:E; [discriminate|]. injection H as <- _. eapply other_missing, project_id_err, E.
Qed.
Lemma fw_identify r : fails_with other (identify_call snake isdict enc dcv r).
Proof.
  apply fw_token. intro pj. cbv zeta. set (p := pr_id pj). apply fw_bind.
  { apply fw_md; [now apply does_op with (OGroupType p (id_group r))|]. intros s y s' R H. errs. destruct (kind_err _ _ _ _ _ H) as [-> | ->]; exact Logic.I. }
  intro g. apply fw_bind; [destruct (id_props r); [apply fw_resolve|apply fw_return]|intro props].
  apply fw_bind.
  { apply fw_each. intro. apply fw_bind; [|intro; apply fw_return]. apply fw_value. intros d v H. unfold wf. cbn. now rewrite H. }
  intro vals. apply fw_bind.
  { apply fw_md; [now apply does_op with (OGroupSet p (gr_id g) (id_id r) vals)|]. intros s y s' R H. errs. eapply other_stop, set_err, H. }
  intro gv. apply fw_bind.
  { apply fw_md; [apply does_op with (ODictCreateKey p (group_col (gr_id g)) GROUP_COLUMN_ID (gv_id gv) (id_id r)); [|reflexivity]|].
    - unfold wf. cbn [wf_op]. now rewrite group_col_no_slash.
    - intros s y s' R H. errs. }
  intros _. apply fw_bind.
  { apply fw_md; [now apply does_op with (OGroupRecord p (gr_id g))|]. intros s y s' R H. errs. eapply other_stop, next_err, H. }
  intro v. apply fw_bind; [apply fw_each; intro; apply fw_stored|intro]. apply fw_put_group.
Qed.
Lemma reached_history es : forallb wf_ev es = true -> Reached (sv_st (snd (serve_all es (up (mkSt [] [] []))))).
Proof.
  induction es as [|e r IH] using rev_ind; intro W; [now exists []|].
  rewrite forallb_app in W. cbn in W. apply andb_prop in W as [W1 W2]. rewrite andb_true_r in W2.
  rewrite serve_app. set (sv := snd (serve_all r _)) in *. specialize (IH W1).
  replace (snd (serve_all [e] sv)) with (snd (serve e sv)) by (cbn; now destruct (serve e sv)).
  destruct IH as (ops & Wo & E). destruct e as [c|o|]; cbn [IngestServer.serve].
  - destruct (if is_track c then sv_track sv else sv_identify sv); [now exists ops|].
    destruct (project_by_token (token_of c) (st_md (sv_st sv))) as [pj|x] eqn:Ep.
    + destruct (does_call snake isdict enc dcv snake_ok c pj _ Ep) as (o2 & E2 & F).
      exists (ops ++ o2)%list. destruct (perform _ _ _ _ c (sv_st sv)) as [y s']. cbn [snd] in *. split.
      * rewrite forallb_app, Wo. apply forallb_forall. rewrite Forall_forall in F. intros o Ho. exact (proj1 (F o Ho)).
      * assert (Es : st_md s' = md_run snake (ops ++ o2) []) by (rewrite E2, E; unfold md_run; now rewrite fold_left_app).
        now destruct (is_track c).
    + rewrite (no_token snake isdict enc dcv _ _ _ Ep). exists ops. split; [exact Wo|]. now destruct (is_track c).
  - exists (ops ++ [o])%list. cbn [snd sv_st st_md]. split; [rewrite forallb_app, Wo; cbn in W2 |- *; now rewrite W2|].
    rewrite E. unfold md_run. now rewrite fold_left_app.
  - now exists ops.
Qed.
Lemma status_other (ok : N) (y : unit + IngesterError) : match y with inr e => other e | inl _ => True end ->
  carried ok y = ok \/ carried ok y = 404%N \/ carried ok y = 500%N \/ carried ok y = 0%N.
Proof. destruct y as [x|[| | |[]| | | |]]; cbn; intuition. Qed.

(** ** C136 *)
Notation fresh := (up (mkSt [] [] [])).
(** A track call is answered 201 exactly when [Ingest] has it carried out, and an identify call
    204; either way the stores and the locks are those of [IngestServer]. *)
Theorem C136_success :
  forall sv,
    (forall now r, (fst (answer (QTrack now (Some r)) sv) = 201%N <-> fst (serve (ECall (CTrack now r)) sv) = Some (Ok tt)) /\
                   snd (answer (QTrack now (Some r)) sv) = snd (serve (ECall (CTrack now r)) sv)) /\
    (forall r, (fst (answer (QIdentify (Some r)) sv) = 204%N <-> fst (serve (ECall (CIdentify r)) sv) = Some (Ok tt)) /\
               snd (answer (QIdentify (Some r)) sv) = snd (serve (ECall (CIdentify r)) sv)).
Proof.
  intro sv. split.
  - intros now r. cbn [IngestStatus.answer IngestServer.serve is_track perform]. destruct (sv_track sv) eqn:L; cbn [fst snd].
    { split; [split; discriminate|reflexivity]. }
    pose proof (same_track now r (sv_st sv)) as S. rewrite S. destruct (track_call snake isdict dcv now r (sv_st sv)) as [[[]|e] s']; cbn.
    + split; [split; reflexivity|reflexivity].
    + destruct e as [| | |[]| | | |]; (split; [split; discriminate|reflexivity]).
  - intros r. cbn [IngestStatus.answer IngestServer.serve is_track perform]. destruct (sv_identify sv) eqn:L; cbn [fst snd].
    { split; [split; discriminate|reflexivity]. }
    pose proof (same_identify r (sv_st sv)) as S. rewrite S. destruct (identify_call snake isdict enc dcv r (sv_st sv)) as [[[]|e] s']; cbn.
    + split; [split; reflexivity|reflexivity].
    + destruct e as [| | |[]| | | |]; (split; [split; discriminate|reflexivity]).
Qed.

(** After every history, 400 is answered exactly for a body that is no request, and for a track
    call with a known token that names no user, unless the lock of the track calls is poisoned. *)
Definition names_nobody (r : Track) : Prop := tr_user r = None /\ tr_anon r = None.
Theorem C136_bad_request :
  forall es q, forallb wf_ev es = true -> let sv := snd (serve_all es fresh) in
    fst (answer q sv) = 400%N <->
    match q with
    | QTrack _ None | QIdentify None => True
    | QIdentify (Some _) => False
    | QTrack _ (Some r) => names_nobody r /\ sv_track sv = false /\ exists pj, project_by_token (tr_token r) (st_md (sv_st sv)) = Ok pj
    end.
Proof.
  intros es q W sv. pose proof (reached_history es W) as R. fold sv in R. destruct q as [now [r|]|[r|]]; cbn [IngestStatus.answer].
  2, 4: now split.
  - destruct (sv_track sv) eqn:L; [split; [discriminate|intros (_ & [=] & _)]|].
    assert (D : names_nobody r \/ (tr_user r <> None \/ tr_anon r <> None)).
    { unfold names_nobody. destruct (tr_user r), (tr_anon r); auto; right; (left; discriminate) || (right; discriminate). }
    destruct D as [Nob|U].
    + destruct Nob as (U & A). unfold track_call, ibind at 1, md at 1, look. destruct (project_by_token (tr_token r) (st_md (sv_st sv))) as [pj|x] eqn:Ep.
      * cbv zeta. assert (X : exists props s1, (match tr_props r with
             | None => ireturn None
             | Some l => ibind (md (resolve_properties snake (pr_id pj) KEvent l)) (fun x => ireturn (Some x))
             end) (sv_st sv) = (inl props, s1)).
        { destruct (tr_props r) as [l|]; [|unfold ireturn; eauto]. destruct (resolved (pr_id pj) KEvent l _ R) as (ys & s1 & E & _).
          unfold ibind, md. rewrite E. unfold ireturn. eauto. }
        destruct X as (props & s1 & X). unfold ibind at 1. rewrite X. unfold ibind at 1, whose. rewrite U, A. cbn [ifail fst carried ingest_status].
        split; [|reflexivity]. intros _. split; [now split|]. split; [reflexivity|]. eauto.
      * destruct (token_err _ _ _ Ep) as [-> | ->]; cbn; (split; [discriminate|intros (_ & _ & ? & [=])]).
    + destruct (fw_track now r U (sv_st sv) R) as (_ & F). destruct (track_call snake isdict dcv now r (sv_st sv)) as [y s']. cbn [fst] in *.
      pose proof (status_other CREATED y F) as Z. split; [|intros ((N1 & N2) & _); now destruct U].
      intro E. exfalso. rewrite E in Z. destruct Z as [Z|[Z|[Z|Z]]]; discriminate Z.
  - split; [|intros []]. destruct (sv_identify sv); [discriminate|]. destruct (fw_identify r (sv_st sv) R) as (_ & F).
    destruct (identify_call snake isdict enc dcv r (sv_st sv)) as [y s']. cbn [fst] in *. intro E.
    pose proof (status_other NO_CONTENT y F) as Z. rewrite E in Z. destruct Z as [Z|[Z|[Z|Z]]]; discriminate Z.
Qed.

(** After every history the answer is one of these; in particular it is never 409. *)
Theorem C136_statuses :
  forall es q, forallb wf_ev es = true -> let st := fst (answer q (snd (serve_all es fresh))) in
    st = (match q with QTrack _ _ => 201%N | QIdentify _ => 204%N end) \/ st = 400%N \/ st = 404%N \/ st = 500%N \/ st = 0%N.
Proof.
  intros es q W st. pose proof (reached_history es W) as R. set (sv := snd (serve_all es fresh)) in *.
  destruct q as [now [r|]|[r|]]; subst st; cbn [IngestStatus.answer]; auto.
  - destruct (sv_track sv) eqn:L; [now repeat right|].
    destruct (tr_user r) as [u|] eqn:U; [|destruct (tr_anon r) as [a|] eqn:A].
    3: { destruct (project_by_token (tr_token r) (st_md (sv_st sv))) as [pj|x] eqn:Ep.
         - pose proof (proj2 (C136_bad_request es (QTrack now (Some r)) W) (conj (conj U A) (conj L (ex_intro _ pj Ep)))) as B.
           fold sv in B. cbn [IngestStatus.answer] in B. rewrite L in B. auto.
         - assert (T : track_call snake isdict dcv now r (sv_st sv) = (inr (of_md x), sv_st sv)) by (unfold track_call, ibind at 1, md at 1, look; now rewrite Ep).
           rewrite T. destruct (token_err _ _ _ Ep) as [-> | ->]; [do 2 right; left|do 4 right]; reflexivity. }
    1, 2: assert (V : tr_user r <> None \/ tr_anon r <> None) by (rewrite ?U, ?A; (left; discriminate) || (right; discriminate)).
    1, 2: destruct (fw_track now r V _ R) as (_ & F).
    1, 2: destruct (track_call snake isdict dcv now r (sv_st sv)) as [y s']; cbn [fst] in *.
    1, 2: destruct (status_other CREATED y F) as [Z|[Z|[Z|Z]]]; rewrite Z; auto 6.
  - destruct (sv_identify sv); [now repeat right|]. destruct (fw_identify r (sv_st sv) R) as (_ & F).
    destruct (identify_call snake isdict enc dcv r (sv_st sv)) as [y s']. cbn [fst] in *.
    destruct (status_other NO_CONTENT y F) as [Z|[Z|[Z|Z]]]; rewrite Z; auto 6.
Qed.

(** A body that is no request, and a token of no project, change nothing; the first is answered
    400 even when the lock is poisoned, the second 404. *)
Definition token_asked (q : Request) : option string :=
  match q with QTrack _ (Some r) => Some (tr_token r) | QIdentify (Some r) => Some (id_token r) | _ => None end.
Definition lock_of (q : Request) (sv : Server) : bool := match q with QTrack _ _ => sv_track sv | QIdentify _ => sv_identify sv end.
Theorem C136_nothing_changes :
  forall q sv,
    (token_asked q = None -> answer q sv = (400%N, sv)) /\
    (forall t, token_asked q = Some t -> project_by_token t (st_md (sv_st sv)) = Err NotFound -> lock_of q sv = false -> answer q sv = (404%N, sv)) /\
    (token_asked q <> None -> lock_of q sv = true -> answer q sv = (0%N, sv)).
Proof.
  intros q sv. destruct q as [now [r|]|[r|]]; cbn [token_asked lock_of IngestStatus.answer].
  all: split; [intro H; try discriminate H; reflexivity|split; [intros t H; try discriminate H; injection H as <-; intros E L|intros H L; try (now destruct H)]].
  all: rewrite L; try reflexivity.
  - unfold track_call, ibind, md, look. rewrite E. cbn. destruct sv; cbn in *; now subst.
  - unfold identify_call, ibind, md, look. rewrite E. cbn. destruct sv; cbn in *; now subst.
Qed.

(** ** Where the status says something else *)
(** Refused does not mean that nothing has changed: a track call that names no user is answered
    400 after its properties have been created. *)
Theorem C136_refused_creates_properties_refuted :
  forall es now r pj n v, forallb wf_ev es = true -> let sv := snd (serve_all es fresh) in
    names_nobody r -> sv_track sv = false -> project_by_token (tr_token r) (st_md (sv_st sv)) = Ok pj ->
    tr_props r = Some [(n, v)] -> prop_by_name (pr_id pj) KEvent n (st_md (sv_st sv)) = Err NotFound ->
    fst (answer (QTrack now (Some r)) sv) = 400%N /\
    exists pr, prop_by_name (pr_id pj) KEvent n (st_md (sv_st (snd (answer (QTrack now (Some r)) sv)))) = Ok pr.
Proof.
  intros es now r pj n v W sv Nob L Ep Pr Hn. split; [apply C136_bad_request; [exact W|]; fold sv; eauto|].
  pose proof (reached_history es W) as R. fold sv in R. cbn [IngestStatus.answer]. rewrite L. destruct Nob as (U & A).
  unfold track_call, ibind at 1, md at 1, look. rewrite Ep, Pr. cbv zeta.
  set (b := match v with PVDate _ => TInt64 | PVString _ => TString | PVNumber _ _ => TDecimal | PVBool _ => TBoolean end).
  destruct (prop_made (pr_id pj) KEvent n b _ R) as (pr & m & E).
  assert (X : resolve_properties snake (pr_id pj) KEvent [(n, v)] (sv_st sv) = (Ok [(pr, v)], mkSt m (st_events (sv_st sv)) (st_groups (sv_st sv)))).
  { unfold resolve_properties, each, resolve_property, bind, on_md, data_type, ret. cbn [fst snd]. fold b. now rewrite E. }
  unfold ibind at 1. unfold ibind at 1, md at 1. rewrite X. unfold ireturn at 1. unfold ibind at 1, whose. rewrite U, A. cbn [ifail snd sv_st st_md].
  destruct R as (ops & Wo & Eo). assert (G : PropsOk (pr_id pj) KEvent (st_md (sv_st sv))) by (rewrite Eo; now apply props_reach).
  pose proof (prop_get_or_create_ok snake (pr_id pj) KEvent n None (PBase b) false _ G) as G'. rewrite E in G'. cbn [snd] in G'.
  destruct (prop_get_or_create_spec snake (pr_id pj) KEvent n None (PBase b) false _ _ _ G E) as (Hid & Hnm & _).
  exists pr. apply prop_by_name_iff; [exact G'|]. eauto.
Qed.
(** A mistake of the caller is not always answered 400: a date is refused for every property, but
    never with 400. *)
Theorem C136_date_refuted :
  forall es now r l name ms, forallb wf_ev es = true -> let st := fst (answer (QTrack now (Some r)) (snd (serve_all es fresh))) in
    ~ names_nobody r -> tr_props r = Some l -> In (name, PVDate ms) l -> st = 404%N \/ st = 500%N \/ st = 0%N.
Proof.
  intros es now r l name ms W st Nob Pr Hin. destruct (C136_statuses es (QTrack now (Some r)) W) as [Z|[Z|Z]]; [| |exact Z]; exfalso.
  - apply (proj1 (proj1 (C136_success _) now r)) in Z. cbn [IngestServer.serve is_track perform] in Z.
    destruct (sv_track _); [discriminate Z|]. pose proof (C75_date_never_accepted_refuted snake isdict dcv snake_ok now r (sv_st (snd (serve_all es fresh))) l name ms Pr Hin) as K.
    destruct (track snake isdict dcv now r _) as [y s']. cbn [fst] in *. congruence.
  - apply (C136_bad_request es (QTrack now (Some r)) W) in Z. now destruct Z as (Z & _).
Qed.
(** An identify call that names one kind of groups too many is answered 500, although the
    metadata calls it a bad request. *)
Theorem C136_kinds_refuted :
  forall sv r pj, project_by_token (id_token r) (st_md (sv_st sv)) = Ok pj -> sv_identify sv = false ->
    fst (group_type_get_or_create (pr_id pj) (id_group r) (st_md (sv_st sv))) = Err BadRequest ->
    fst (answer (QIdentify (Some r)) sv) = 500%N.
Proof.
  intros sv r pj Ep L E. cbn [IngestStatus.answer]. rewrite L. unfold identify_call, ibind at 1, md at 1, look. rewrite Ep. cbv zeta.
  unfold ibind at 1, md at 1, on_md at 1. destruct (group_type_get_or_create _ _ _) as [y m]. cbn [fst] in E. now subst y.
Qed.
End Status.
Print Assumptions C136_date_refuted.
Print Assumptions C136_kinds_refuted.
Print Assumptions C136_success.
Print Assumptions C136_bad_request.
Print Assumptions C136_statuses.
Print Assumptions C136_nothing_changes.
Print Assumptions C136_refused_creates_properties_refuted.

(** ** Witnesses *)
Definition ask (q : Request) (sv : Server) : N * Server := IngestStatus.answer plain (fun _ => false) (fun _ => 0%N) (fun _ => SNull TInt64) q sv.
Definition opened_shop : Server := snd (serve_all plain (fun _ => false) (fun _ => 0%N) (fun _ => SNull TInt64) (map EMd shop) (up (mkSt [] [] []))).
Definition hits (token : string) (u : option string) (props : list (string * PropValue)) (agent : list (string * string)) : Request :=
  QTrack 1700000000000 (Some (mkTrack token u None 1700000000000 "Buy" (Some props) None agent [] "1.2.3.4")).
Definition tells (group : string) : Request := QIdentify (Some (mkIdentify "token" 1700000000000 group "ann" None)).
(** Every status is met: carried out, no request, unknown token, no user (the property is there
    afterwards), a date, a system property that is missing although the token is known, a number
    that does not fit, and after it no answer at all. *)
Example C136_witness :
  forallb wf_ev (map EMd shop) = true /\
  fst (ask (hits "token" (Some "ann") [("New", PVBool true)] []) opened_shop) = 201%N /\
  fst (ask (tells "user") opened_shop) = 204%N /\
  ask (QTrack 0 None) opened_shop = (400%N, opened_shop) /\
  ask (hits "nobody" (Some "ann") [] []) opened_shop = (404%N, opened_shop) /\
  (let (st, sv) := ask (hits "token" None [("New", PVBool true)] []) opened_shop in
   st = 400%N /\ prop_by_name 1 KEvent "New" (st_md (sv_st opened_shop)) = Err NotFound /\
   exists pr, prop_by_name 1 KEvent "New" (st_md (sv_st sv)) = Ok pr) /\
  fst (ask (hits "token" (Some "ann") [("When", PVDate 5)] []) opened_shop) = 500%N /\
  fst (ask (hits "token" (Some "ann") [] [("OS", "Linux")]) opened_shop) = 404%N /\
  (let (st, sv) := ask (hits "token" (Some "ann") [("Height", PVNumber 40000 0)] []) opened_shop in
   st = 0%N /\ fst (ask (hits "token" (Some "ann") [] []) sv) = 0%N /\ fst (ask (tells "user") sv) = 204%N /\ fst (ask (QTrack 0 None) sv) = 400%N) /\
  map (fun q => fst (ask q (fold_left (fun sv g => snd (ask (tells g) sv)) ["a"; "b"; "c"; "d"] opened_shop))) [tells "a"; tells "e"] = [204; 500]%N.
Proof. vm_compute. repeat split. now eexists. Qed.
