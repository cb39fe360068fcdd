(** Properties C66 and C67: linking visitors to users, and the strings set with identify. *)
From Coq Require Import List NArith ZArith String Ascii Bool Lia.
From Verif Require Import AMap Kv KvKeys KvKeysFacts KvFacts Md MdOps MdFrame MdIndex MdEntities MdDict MdSeq PropsNames PropsGroups MdProps
  Ingest IngestFacts PropsIngest.
Import ListNotations.
Local Open Scope string_scope.

(** ** What later calls do to the entries of one group *)
(** Calls that may create the entry of the user [a]. *)
Definition names (p g : N) (a : string) (o : MdOp) : bool :=
  match o with
  | OGroupGet q h k _ | OGroupSet q h k _ | OMerge q h _ k _ => N.eqb q p && N.eqb h g && String.eqb k a
  | _ => false
  end.
Section Stable.
Variables (snake : string -> string) (p g : N).
Lemma anon_only k (s : Store) : only (fun x => x = KAnon p g k \/ x = KGroupSeq p g) s (snd (anon_get_or_create p g k s)).
Proof.
  unfold anon_get_or_create. destruct (kget _ s) as [v|]; [destruct (read_num v); apply only_refl|].
  destruct (next_seq _ s) as [[i|] s3] eqn:En; [|apply only_refl]. cbn [snd].
  apply only_put; [exists (KAnon p g k); auto|]. eapply next_seq_only; [exact En|]. exists (KGroupSeq p g). auto.
Qed.
Lemma anon_fixed k k' v (s : Store) : kg (KAnon p g k) s = Some v -> kg (KAnon p g k) (snd (anon_get_or_create p g k' s)) = Some v.
Proof.
  intro H. destruct (string_dec k k') as [<-|Ne].
  - unfold anon_get_or_create. change (kget (anon_key p g k) s) with (kg (KAnon p g k) s). rewrite H. now destruct (read_num v).
  - rewrite (only_kg _ _ _ _ (anon_only k' s)); [exact H|reflexivity|intros [[= E]|E]; congruence].
Qed.
(** The entry of the user [a] after one call. *)
Lemma real_step a o (s : Store) : wf_op o = true ->
  match kg (KReal p g a) s with
  | Some (VRec (RGroupValues gv)) => exists gv', kg (KReal p g a) (md_step snake o s) = Some (VRec (RGroupValues gv')) /\ gv_id gv' = gv_id gv
  | None => names p g a o = false -> kg (KReal p g a) (md_step snake o s) = None
  | _ => True
  end.
Proof.
  intro W.
  set (Q := match kg (KReal p g a) s with
  | Some (VRec (RGroupValues gv)) => exists gv', kg (KReal p g a) (md_step snake o s) = Some (VRec (RGroupValues gv')) /\ gv_id gv' = gv_id gv
  | None => names p g a o = false -> kg (KReal p g a) (md_step snake o s) = None
  | _ => True
  end).
  assert (Same : kg (KReal p g a) (md_step snake o s) = kg (KReal p g a) s -> Q).
  { intro E. unfold Q. rewrite E. destruct (kg (KReal p g a) s) as [[| |[]]|]; eauto. }
  assert (F : ~ touches o (KReal p g a) -> Q).
  { intro T. apply Same. apply (only_kg _ _ _ _ (md_frame snake o s W)); auto. }
  assert (Put : forall k v s1, kg (KReal p g a) s1 = kg (KReal p g a) s -> k <> a ->
            kg (KReal p g a) (kput (render (KReal p g k)) v s1) = kg (KReal p g a) s).
  { intros k v s1 E N. rewrite kg_put_ne; [exact E|reflexivity|reflexivity|congruence]. }
  assert (PG : forall q h : N, {(q, h) = (p, g)} + {(q, h) <> (p, g)}) by (intros; repeat decide equality).
  assert (Seq : forall r s1, next_seq (group_seq_key p g) s = (r, s1) -> kg (KReal p g a) s1 = kg (KReal p g a) s).
  { intros r s1 En. apply (only_kg (fun x => x = KGroupSeq p g) s s1); [|reflexivity|discriminate].
    eapply next_seq_only; [exact En|]. exists (KGroupSeq p g). auto. }
  destruct o; try (apply F; cbn; try tauto; try (intros [[]|(x & E)]; discriminate); try (destruct k; cbn; intuition congruence);
     unfold in_props; cbn; intuition congruence).
  - destruct (PG p0 g0) as [[= -> ->]|N]; [|apply F; cbn; intuition congruence]. apply Same. cbn [md_step].
    rewrite (only_kg _ _ _ _ (anon_only key s)); [reflexivity|reflexivity|intros [[= E]|E]; congruence].
  - destruct (PG p0 g0) as [[= -> ->]|N]; [|apply F; cbn; intuition congruence]. cbn [md_step] in *.
    unfold merge_with_anonymous in *. change (kget (real_key p g id) s) with (kg (KReal p g id) s) in *.
    destruct (kg (KReal p g id) s) as [v|] eqn:E; [now apply Same|].
    destruct (anon_get_or_create p g anonymous s) as [[aid|x] s1] eqn:Ea.
    + cbn [snd] in *. change (real_key p g id) with (render (KReal p g id)) in *. change (group_seq_key p g) with (render (KGroupSeq p g)) in *.
      destruct (string_dec id a) as [->|Ne].
      * unfold Q. rewrite E. cbn [names]. rewrite !N.eqb_refl, String.eqb_refl. discriminate.
      * apply Same. apply Put; [|exact Ne]. rewrite kg_put_ne; [|reflexivity|reflexivity|discriminate].
        replace s1 with (snd (anon_get_or_create p g anonymous s)) by now rewrite Ea.
        rewrite (only_kg _ _ _ _ (anon_only anonymous s)); [reflexivity|reflexivity|intros [[= E']|E']; congruence].
    + cbn [snd] in *. apply Same. replace s1 with (snd (anon_get_or_create p g anonymous s)) by now rewrite Ea.
      rewrite (only_kg _ _ _ _ (anon_only anonymous s)); [reflexivity|reflexivity|intros [[= E']|E']; congruence].
  - destruct (PG p0 g0) as [[= -> ->]|N]; [|apply F; cbn; intuition congruence]. cbn [md_step] in *.
    unfold group_get_or_create in *. change (kget (real_key p g key) s) with (kg (KReal p g key) s) in *.
    destruct (kg (KReal p g key) s) as [v|] eqn:E; [now apply Same|].
    destruct (next_seq (group_seq_key p g) s) as [[n|x] s1] eqn:En; [|now apply Same]. cbn [snd] in *.
    change (real_key p g key) with (render (KReal p g key)) in *.
    destruct (string_dec key a) as [->|Ne].
    * unfold Q. rewrite E. cbn [names]. rewrite !N.eqb_refl, String.eqb_refl. discriminate.
    * apply Same, Put; [|exact Ne]. eapply Seq; eauto.
  - destruct (PG p0 g0) as [[= -> ->]|N]; [|apply F; cbn; intuition congruence]. cbn [md_step] in *.
    unfold group_create_or_update in *. change (kget (real_key p g key) s) with (kg (KReal p g key) s) in *.
    change (real_key p g key) with (render (KReal p g key)) in *.
    destruct (kg (KReal p g key) s) as [v|] eqn:E.
    + destruct (read_group_values v) as [old|x] eqn:Er; [|now apply Same]. cbn [snd] in *.
      destruct (string_dec key a) as [->|Ne]; [|apply Same, Put; auto].
      unfold Q. rewrite E. destruct v as [| |[]]; try exact Logic.I. cbn in Er. injection Er as <-. eexists. split; [apply kg_put_eq|reflexivity].
    + destruct (next_seq (group_seq_key p g) s) as [[n|x] s1] eqn:En; [|now apply Same]. cbn [snd] in *.
      destruct (string_dec key a) as [->|Ne].
      * unfold Q. rewrite E. cbn [names]. rewrite !N.eqb_refl, String.eqb_refl. discriminate.
      * apply Same, Put; [|exact Ne]. eapply Seq; eauto.
Qed.
Lemma real_run a gv ops : forall s : Store, forallb wf_op ops = true -> kg (KReal p g a) s = Some (VRec (RGroupValues gv)) ->
  exists gv', kg (KReal p g a) (md_run snake ops s) = Some (VRec (RGroupValues gv')) /\ gv_id gv' = gv_id gv.
Proof.
  unfold md_run. revert gv. induction ops as [|o r IH]; cbn [forallb fold_left]; intros gv s W H; [eauto|].
  apply andb_prop in W as [W1 W2]. pose proof (real_step a o s W1) as R. rewrite H in R. destruct R as (gv1 & H1 & E1).
  destruct (IH _ _ W2 H1) as (gv2 & H2 & E2). exists gv2. split; [exact H2|congruence].
Qed.
Lemma real_none a ops : forall s : Store, forallb wf_op ops = true -> existsb (names p g a) ops = false -> kg (KReal p g a) s = None ->
  kg (KReal p g a) (md_run snake ops s) = None.
Proof.
  unfold md_run. induction ops as [|o r IH]; cbn [forallb existsb fold_left]; intros s W K H; [exact H|].
  apply andb_prop in W as [W1 W2]. apply orb_false_iff in K as [K1 K2]. apply IH; auto.
  pose proof (real_step a o s W1) as R. rewrite H in R. auto.
Qed.
(** The number of a visitor never changes. *)
Lemma anon_step k v o (s : Store) : wf_op o = true -> kg (KAnon p g k) s = Some v -> kg (KAnon p g k) (md_step snake o s) = Some v.
Proof.
  intros W H.
  assert (F : ~ touches o (KAnon p g k) -> kg (KAnon p g k) (md_step snake o s) = Some v).
  { intro T. rewrite (only_kg _ _ _ _ (md_frame snake o s W)); auto. }
  assert (PG : forall q h : N, {(q, h) = (p, g)} + {(q, h) <> (p, g)}) by (intros; repeat decide equality).
  assert (Seq : forall r s1, next_seq (group_seq_key p g) s = (r, s1) -> kg (KAnon p g k) s1 = kg (KAnon p g k) s).
  { intros r s1 En. apply (only_kg (fun x => x = KGroupSeq p g) s s1); [|reflexivity|discriminate].
    eapply next_seq_only; [exact En|]. exists (KGroupSeq p g). auto. }
  destruct o; try (apply F; cbn; try tauto; try (intros [[]|(x & E)]; discriminate); try (destruct k0; cbn; intuition congruence);
     unfold in_props; cbn; intuition congruence).
  - destruct (PG p0 g0) as [[= -> ->]|N]; [|apply F; cbn; intuition congruence]. now apply anon_fixed.
  - destruct (PG p0 g0) as [[= -> ->]|N]; [|apply F; cbn; intuition congruence]. cbn [md_step].
    unfold merge_with_anonymous. destruct (kget _ s); [exact H|]. pose proof (anon_fixed k anonymous v s H) as A.
    destruct (anon_get_or_create p g anonymous s) as [[aid|x] s1]; cbn [snd] in *; [|exact A].
    change (real_key p g id) with (render (KReal p g id)). rewrite kg_put_ne; [|reflexivity|reflexivity|discriminate].
    change (group_seq_key p g) with (render (KGroupSeq p g)). rewrite kg_put_ne; [exact A|reflexivity|reflexivity|discriminate].
  - destruct (PG p0 g0) as [[= -> ->]|N]; [|apply F; cbn; intuition congruence]. cbn [md_step].
    unfold group_get_or_create. destruct (kget _ s); [exact H|]. destruct (next_seq _ s) as [[n|x] s1] eqn:En; [|exact H]. cbn [snd].
    change (real_key p g key) with (render (KReal p g key)). rewrite kg_put_ne; [|reflexivity|reflexivity|discriminate].
    rewrite (Seq _ _ eq_refl). exact H.
  - destruct (PG p0 g0) as [[= -> ->]|N]; [|apply F; cbn; intuition congruence]. cbn [md_step].
    unfold group_create_or_update. destruct (kget _ s) as [w|].
    + destruct (read_group_values w); [|exact H]. cbn [snd]. change (real_key p g key) with (render (KReal p g key)).
      rewrite kg_put_ne; [exact H|reflexivity|reflexivity|discriminate].
    + destruct (next_seq _ s) as [[n|x] s1] eqn:En; [|exact H]. cbn [snd].
      change (real_key p g key) with (render (KReal p g key)). rewrite kg_put_ne; [|reflexivity|reflexivity|discriminate].
      rewrite (Seq _ _ eq_refl). exact H.
Qed.
Lemma anon_run k v ops : forall s : Store, forallb wf_op ops = true -> kg (KAnon p g k) s = Some v -> kg (KAnon p g k) (md_run snake ops s) = Some v.
Proof.
  unfold md_run. induction ops as [|o r IH]; cbn [forallb fold_left]; intros s W H; [exact H|].
  apply andb_prop in W as [W1 W2]. apply IH; [exact W2|]. now apply anon_step.
Qed.
End Stable.

(** ** C66 *)
(** The user number a track call gets for its ids; [None] when it is rejected here. *)
Definition user_of (p : N) (r : Track) (s : St) : option N :=
  match fst (who p r s) with Ok (n, _) => Some n | Err _ => None end.
Definition ids_are (r : Track) (u a : option string) : Prop := tr_user r = u /\ tr_anon r = a.

Lemma user_of_user p r s u : ids_are r (Some u) None -> user_of p r s = match ask p 0 (Real u) (st_md s) with Ok n => Some n | Err _ => None end.
Proof.
  intros [E1 E2]. unfold user_of, who. rewrite E1, E2. unfold bind, on_md, ask.
  destruct (group_get_or_create p GROUP_USER_ID u [] (st_md s)) as [[gv|] m] eqn:E; unfold GROUP_USER_ID in E; now rewrite E.
Qed.
Lemma user_of_visitor p r s a : ids_are r None (Some a) -> user_of p r s = match ask p 0 (Anon a) (st_md s) with Ok n => Some n | Err _ => None end.
Proof.
  intros [E1 E2]. unfold user_of, who. rewrite E1, E2. unfold bind, on_md, ask.
  destruct (anon_get_or_create p GROUP_USER_ID a (st_md s)) as [[n|] m] eqn:E; unfold GROUP_USER_ID in E; now rewrite E.
Qed.
Lemma user_of_both p r s u a : ids_are r (Some u) (Some a) ->
  user_of p r s = match fst (merge_with_anonymous p 0 u a [] (st_md s)) with Ok gv => Some (gv_id gv) | Err _ => None end /\
  st_md (snd (who p r s)) = snd (merge_with_anonymous p 0 u a [] (st_md s)).
Proof.
  intros [E1 E2]. unfold user_of, who. rewrite E1, E2. unfold bind, on_md, GROUP_USER_ID.
  destruct (merge_with_anonymous p 0 u a [] (st_md s)) as [[gv|] m]; now split.
Qed.

(** Linking a visitor to a user does not link them: after a call with both ids, the next
    call with the user's id alone and the next call with the visitor's id alone are never
    given to the user of the call with both (first link in a project; the number has not
    eight digits). *)
Theorem C66_link_refuted :
  forall snake before p u a link s, forallb wf_op before = true -> forallb (no_merge p 0) before = true -> u <> a ->
    st_md s = md_run snake before [] -> ids_are link (Some u) (Some a) ->
    forall X, user_of p link s = Some X -> String.length (dec X) <> 8%nat ->
    let s' := snd (who p link s) in
    (forall r, ids_are r (Some u) None -> user_of p r s' <> Some X) /\
    (forall r, ids_are r None (Some a) -> user_of p r s' <> Some X).
Proof.
  intros snake before p u a link s W K Nua Es Il X HX H8 s'.
  destruct (user_of_both p link s u a Il) as [EX Em]. fold s' in Em. rewrite EX in HX. clear EX.
  destruct (md_run_group p 0 snake before [] W K (GroupOk_nil p 0)) as [G _]. rewrite <- Es in G.
  set (m := st_md s) in *.
  assert (M : forall w, (ask p 0 w (st_md s') <> Ok X) -> match ask p 0 w (st_md s') with Ok n => Some n | Err _ => None end <> Some X).
  { intros w H. destruct (ask p 0 w (st_md s')); congruence. }
  unfold merge_with_anonymous in HX, Em. change (kget (real_key p 0 a) m) with (kg (KReal p 0 a) m) in HX, Em.
  destruct (kg (KReal p 0 a) m) as [v|] eqn:Ka.
  - destruct (read_group_values v) as [gv|] eqn:Er; [|discriminate]. cbn in HX. injection HX as HX. cbn [snd] in Em.
    assert (Nask : forall w, w <> Real a -> ask p 0 w m <> Ok X).
    { intros w Nw E. destruct v as [| |[]]; try discriminate. cbn in Er. injection Er as ->.
      destruct (ask_cases p 0 w m G) as [(v & n & Hk & Hi & E')|(Hn & n & E' & Lt)]; rewrite E in E'; injection E' as <-.
      - apply Nw. eapply (go_inj p 0 m G w (Real a)); eauto. cbn. now rewrite HX.
      - specialize (Lt (Real a) _ X Ka). cbn in Lt. rewrite HX in Lt. specialize (Lt eq_refl). lia. }
    split; intros r Hr; [rewrite (user_of_user _ _ _ _ Hr)|rewrite (user_of_visitor _ _ _ _ Hr)]; apply M; rewrite Em; apply Nask; congruence.
  - destruct (anon_get_or_create p 0 u m) as [[aid|] m1] eqn:Ea; [|discriminate]. cbn [fst snd gv_id] in *. injection HX as ->.
    assert (G1 : GroupOk p 0 m1) by (pose proof (GroupOk_ask p 0 (Anon u) m G) as X0; cbn [ask_store] in X0; now rewrite Ea in X0).
    assert (Ku : kg (KAnon p 0 u) m1 = Some (VNum X)).
    { destruct (anon_cases p 0 u m G) as [(n & Hk & E)|(_ & n & _ & E)]; rewrite Ea in E; injection E as -> E; rewrite E; [exact Hk|].
      apply kg_put_eq. }
    change (real_key p 0 a) with (render (KReal p 0 a)) in Em. change (group_seq_key p 0) with (render (KGroupSeq p 0)) in Em.
    assert (Kr : kg (KReal p 0 u) (st_md s') = kg (KReal p 0 u) m1).
    { rewrite Em. rewrite kg_put_ne; [|reflexivity|reflexivity|congruence]. rewrite kg_put_ne; [reflexivity|reflexivity|reflexivity|discriminate]. }
    assert (Kv : kg (KAnon p 0 a) (st_md s') = kg (KAnon p 0 a) m1).
    { rewrite Em. rewrite kg_put_ne; [|reflexivity|reflexivity|discriminate]. rewrite kg_put_ne; [reflexivity|reflexivity|reflexivity|discriminate]. }
    assert (Ks : kg (KGroupSeq p 0) (st_md s') = Some (VText (dec X))).
    { rewrite Em. rewrite kg_put_ne; [|reflexivity|reflexivity|discriminate]. apply kg_put_eq. }
    assert (Kn : next_seq (group_seq_key p 0) (st_md s') = (Err Panicked, st_md s')).
    { unfold next_seq, next_from. change (kget (group_seq_key p 0) (st_md s')) with (kg (KGroupSeq p 0) (st_md s')). rewrite Ks. cbn [read_num].
      apply Nat.eqb_neq in H8. now rewrite H8. }
    split; intros r Hr; [rewrite (user_of_user _ _ _ _ Hr)|rewrite (user_of_visitor _ _ _ _ Hr)]; apply M; unfold ask.
    + unfold group_get_or_create. change (kget (real_key p 0 u) (st_md s')) with (kg (KReal p 0 u) (st_md s')). rewrite Kr, Kn.
      destruct (kg (KReal p 0 u) m1) as [v|] eqn:E; [|discriminate]. destruct v as [| |[]]; cbn; try discriminate.
      intros [= EX]. assert (Real u = Anon u); [|discriminate].
      refine (go_inj p 0 m1 G1 (Real u) (Anon u) _ _ X E Ku _ _); cbn; congruence.
    + unfold anon_get_or_create. change (kget (anon_key p 0 a) (st_md s')) with (kg (KAnon p 0 a) (st_md s')). rewrite Kv, Kn.
      destruct (kg (KAnon p 0 a) m1) as [v|] eqn:E; [|discriminate].
      destruct (go_id p 0 m1 G1 (Anon a) v E) as (n & Hn & _). destruct v as [n'| |]; try discriminate. cbn.
      intros [= ->]. assert (Anon a = Anon u); [|congruence].
      eapply (go_inj p 0 m1 G1 (Anon a) (Anon u)); eauto.
Qed.
Print Assumptions C66_link_refuted.

(** What does hold: all calls carrying both ids and the same visitor id go to one user,
    whatever happens between them; and calls carrying both ids and the same user id go to
    one user, as long as the second visitor id was not itself used as a user id. *)
Theorem C66_calls_with_both_ids_partial :
  forall snake p r1 r2 s u1 a1 u2 a2 X later s2,
    ids_are r1 (Some u1) (Some a1) -> ids_are r2 (Some u2) (Some a2) -> user_of p r1 s = Some X ->
    forallb wf_op later = true -> st_md s2 = md_run snake later (st_md (snd (who p r1 s))) ->
    (a1 = a2 -> user_of p r2 s2 = Some X) /\
    (forall before, st_md s = md_run snake before [] -> forallb wf_op before = true -> u1 = u2 -> a1 <> a2 ->
       existsb (names p 0 a1) before = false -> existsb (names p 0 a2) (before ++ later)%list = false ->
       user_of p r2 s2 = Some X).
Proof.
  intros snake p r1 r2 s u1 a1 u2 a2 X later s2 I1 I2 HX Wl Es2.
  destruct (user_of_both p r1 s u1 a1 I1) as [E1 M1]. destruct (user_of_both p r2 s2 u2 a2 I2) as [E2 _].
  rewrite M1 in Es2. rewrite E1 in HX. rewrite E2. clear E1 E2 M1. set (m := st_md s) in *. set (m2 := st_md s2) in *.
  unfold merge_with_anonymous in HX, Es2. change (kget (real_key p 0 a1) m) with (kg (KReal p 0 a1) m) in HX, Es2.
  split.
  - intros <-.
    assert (K : exists gv, kg (KReal p 0 a1) m2 = Some (VRec (RGroupValues gv)) /\ gv_id gv = X).
    { rewrite Es2. destruct (kg (KReal p 0 a1) m) as [v|] eqn:E.
      - destruct v as [| |[]]; try discriminate. cbn [read_group_values fst snd] in *. injection HX as <-.
        now apply real_run.
      - destruct (anon_get_or_create p 0 u1 m) as [[aid|] m1]; [|discriminate]. cbn [fst snd gv_id] in *. injection HX as <-.
        apply (real_run snake p 0 a1 (mkGroupValues aid []) later); [exact Wl|apply (kg_put_eq (KReal p 0 a1))]. }
    destruct K as (gv & K & <-). unfold merge_with_anonymous. change (kget (real_key p 0 a1) m2) with (kg (KReal p 0 a1) m2). now rewrite K.
  - intros before Es Wb <- Na B1 B2. rewrite existsb_app in B2. apply orb_false_iff in B2 as [B2 B3].
    assert (K1 : kg (KReal p 0 a1) m = None) by (rewrite Es; now apply real_none).
    assert (K2 : kg (KReal p 0 a2) m = None) by (rewrite Es; now apply real_none).
    rewrite K1 in HX, Es2. destruct (anon_get_or_create p 0 u1 m) as [[aid|] m1] eqn:Ea; [|discriminate]. cbn [fst snd gv_id] in *. injection HX as ->.
    change (real_key p 0 a1) with (render (KReal p 0 a1)) in Es2. change (group_seq_key p 0) with (render (KGroupSeq p 0)) in Es2.
    assert (Kr : kg (KReal p 0 a2) m1 = None).
    { replace m1 with (snd (anon_get_or_create p 0 u1 m)) by now rewrite Ea.
      rewrite (only_kg _ _ _ _ (anon_only p 0 u1 m)); [exact K2|reflexivity|intros [[= E]|E]; congruence]. }
    assert (Kv : exists v, kg (KAnon p 0 u1) m1 = Some v /\ read_num v = Some X).
    { unfold anon_get_or_create in Ea. change (kget (anon_key p 0 u1) m) with (kg (KAnon p 0 u1) m) in Ea.
      destruct (kg (KAnon p 0 u1) m) as [v|] eqn:E.
      - destruct (read_num v) as [n|] eqn:En; [|discriminate]. injection Ea as -> <-. eauto.
      - destruct (next_seq _ m) as [[n|] mm]; [|discriminate]. injection Ea as -> <-. exists (VNum X). split; [apply (kg_put_eq (KAnon p 0 u1))|reflexivity]. }
    destruct Kv as (v & Kv & Ev).
    assert (K2' : kg (KReal p 0 a2) m2 = None).
    { rewrite Es2. apply real_none; [exact Wl|exact B3|]. rewrite kg_put_ne; [|reflexivity|reflexivity|congruence].
      rewrite kg_put_ne; [exact Kr|reflexivity|reflexivity|discriminate]. }
    assert (Kv' : kg (KAnon p 0 u1) m2 = Some v).
    { rewrite Es2. apply anon_run; [exact Wl|]. rewrite kg_put_ne; [|reflexivity|reflexivity|discriminate].
      rewrite kg_put_ne; [exact Kv|reflexivity|reflexivity|discriminate]. }
    unfold merge_with_anonymous. change (kget (real_key p 0 a2) m2) with (kg (KReal p 0 a2) m2). rewrite K2'.
    unfold anon_get_or_create. change (kget (anon_key p 0 u1) m2) with (kg (KAnon p 0 u1) m2). rewrite Kv', Ev. reflexivity.
Qed.
Print Assumptions C66_calls_with_both_ids_partial.

Definition with_ids (u a : option string) : Track := mkTrack "token" u a 1700000000000 "Buy" None None [] [] "1.2.3.4".
(** A visitor browses, logs in (both ids), and goes on with the user id alone: the call
    with both ids gets a third user, the visitor stays with the first one, and the user's
    own calls are refused. *)
Example C66_witness :
  let s1 := snd (go (with_ids None (Some "cookie")) at_shop) in
  let s2 := snd (go (with_ids (Some "ann") (Some "cookie")) s1) in
  user_of 1 (with_ids None (Some "cookie")) s1 = Some 1%N /\
  user_of 1 (with_ids (Some "ann") (Some "cookie")) s1 = Some 2%N /\
  user_of 1 (with_ids (Some "ann") (Some "cookie")) s2 = Some 2%N /\
  user_of 1 (with_ids (Some "ann") (Some "phone")) s2 = Some 2%N /\
  user_of 1 (with_ids None (Some "cookie")) s2 = Some 1%N /\
  fst (go (with_ids (Some "ann") (Some "cookie")) s1) = Ok tt /\
  fst (go (with_ids (Some "ann") None) s2) = Err Panicked.
Proof. vm_compute. repeat split. Qed.

(** ** C67 *)
(** The metadata calls of an identify call. *)
Definition identify_op (p : N) (o : MdOp) : Prop :=
  wf_op o = true /\
  match o with
  | OGroupType q _ | OPropGetOrCreate q (KGroup _) _ _ _ _ | OGroupSet q _ _ _ | OGroupRecord q _ => q = p
  | ODictEncode q t _ _ => q = p /\ t = group_col 0
  | ODictCreateKey q t d _ _ => q = p /\ (exists g, t = group_col g) /\ d = GROUP_COLUMN_ID
  | _ => False
  end.
(** ... and of any call. *)
Definition call_op (o : MdOp) : Prop := exists p, track_op p o \/ identify_op p o.

Section Groups.
Variable snake : string -> string.
Variable isdict : Property -> bool.
Variables (enc : SVal -> N) (dcv : N -> SVal).
Hypothesis snake_ok : forall x, no_slash x = true -> no_slash (snake x) = true.
Local Notation identify := (identify snake isdict enc dcv).
Local Notation track := (track snake isdict dcv).
Local Notation calls := (calls snake isdict enc dcv).

Lemma does_values p l : does snake (identify_op p)
  (each (fun x => v <- property_to_value snake isdict p (group_col 0) x ;; ret (pp_id (fst x), enc v)) l).
Proof.
  apply does_each. intro x. apply does_bind; [|intro; apply does_ret]. apply does_value; [exact snake_ok|]. intros d v Hd.
  split; [cbn [wf_op]; now rewrite group_col_no_slash|now split].
Qed.
Lemma does_res p g l : does snake (identify_op p) (resolve_properties snake p (KGroup g) l).
Proof. apply does_resolve. intros. now split. Qed.
Lemma does_identify r : does snake call_op (identify r).
Proof.
  unfold Ingest.identify. apply does_bind; [apply does_look|intro pj].
  apply does_weaken with (identify_op (pr_id pj)); [intros o Ho; exists (pr_id pj); now right|].
  apply does_bind; [now apply does_op with (OGroupType (pr_id pj) (id_group r))|intro g].
  apply does_bind; [destruct (id_props r); [apply does_res|apply does_ret]|intro props].
  apply does_bind; [apply does_values|intro vals].
  apply does_bind; [now apply does_op with (OGroupSet (pr_id pj) (gr_id g) (id_id r) vals)|intro gv].
  apply does_bind.
  { apply does_op with (ODictCreateKey (pr_id pj) (group_col (gr_id g)) GROUP_COLUMN_ID (gv_id gv) (id_id r)); [|reflexivity].
    split; [cbn [wf_op]; now rewrite group_col_no_slash|]. split; [reflexivity|]. split; [now eexists|reflexivity]. }
  intro. apply does_bind; [now apply does_op with (OGroupRecord (pr_id pj) (gr_id g))|intro v].
  apply does_bind; [apply does_each; intro; apply does_stored|intro]. apply does_insert_group.
Qed.
Lemma does_track now r : does snake call_op (track now r).
Proof.
  unfold Ingest.track. apply does_bind; [apply does_look|intro pj]. cbv zeta.
  assert (Pp : forall A (m : M A), does snake (prep_op (pr_id pj)) m -> does snake call_op m)
    by (intros A m; apply does_weaken; intros o Ho; exists (pr_id pj); left; now left).
  assert (Ps : forall A (m : M A), does snake (send_op (pr_id pj)) m -> does snake call_op m)
    by (intros A m; apply does_weaken; intros o Ho; exists (pr_id pj); left; right; now left).
  apply does_bind.
  { apply Pp. destruct (tr_props r); [|apply does_ret]. apply does_bind; [|intro; apply does_ret]. apply does_resolve. intros. now split. }
  intro props. apply does_bind; [apply Pp, does_who|intro w]. apply does_bind; [apply Pp, does_groups|intro gs].
  set (ids := map _ _). apply does_bind; [apply Pp; now apply does_op with (OEventGetOrCreate (pr_id pj) (tr_event r) None ids)|intro e].
  apply does_bind.
  { destruct props; [|apply does_ret]. apply Pp. now apply does_op with (OEventAttach (pr_id pj) (ev_id e) ids). }
  intro. apply does_bind; [apply does_each; intro; apply does_by_name|intro extra].
  apply does_bind; [apply Ps, does_send, snake_ok|intro].
  apply does_op with (OProjectCount (pr_id pj)); [|reflexivity]. exists (pr_id pj). left. right. now right.
Qed.
Lemma calls_reach cs : forall s, reach snake call_op s (calls cs s).
Proof.
  unfold Ingest.calls. induction cs as [|c r IH]; cbn [fold_left]; intro s; [apply reach_refl|].
  eapply reach_trans; [|apply IH]. destruct c as [now t|i]; cbn [call].
  - eapply does_reach; [apply (does_track now t)|apply surjective_pairing].
  - eapply does_reach; [apply (does_identify i)|apply surjective_pairing].
Qed.
Lemma call_op_wf o : call_op o -> wf_op o = true.
Proof. intros (p & [[[W _]|[[W _]| ->]]|[W _]]); auto. Qed.

(** What a report shows of the value [v] of the property [pr] of a group of type [g]
    (query/src/queries/group_records.rs 319, 413; event_records.rs 368-380): strings of
    dictionary properties are looked up in the dictionary of the table of the group. *)
Definition shown_text (p g : N) (pr : Property) (v : SVal) (m : Store) : Res string :=
  if isdict pr then
    match v with SInt _ z => dict_value p (group_col g) (column_name snake pr) (Z.to_N z) m | _ => Err BadRequest end
  else match v with SStr t => Ok t | _ => Err BadRequest end.

Lemma group_not_events g : group_col g <> TABLE_EVENTS.
Proof. discriminate. Qed.
Lemma foreign_key p g c n o : g <> 0%N -> c <> GROUP_COLUMN_ID -> call_op o -> ~ touches o (KDictKey p (group_col g) c n).
Proof.
  intros Hg Hc (q & [[[_ H]|[[_ H]| ->]]|[_ H]]); [destruct o; try contradiction; try destruct k; try contradiction; cbn|..].
  all: try tauto.
  all: try (unfold in_props, in_dict; cbn; intuition congruence).
  - intros [[]|(_ & E & _)]. now apply group_not_events in E.
  - intros (_ & E & _). destruct H as (_ & -> & _). now apply group_not_events in E.
  - destruct o; try contradiction; cbn; try tauto; try discriminate. intros (_ & E & _). destruct H as (_ & ->). now apply group_not_events in E.
  - destruct o; try contradiction; try destruct k; try contradiction; cbn; try tauto; try discriminate.
    + intros (_ & E & _). destruct H as (_ & ->). apply group_col_inj in E. congruence.
    + intros (_ & _ & E). destruct H as (_ & _ & ->). congruence.
    + unfold in_props. cbn. tauto.
Qed.
End Groups.

(** No call ever enters a string into the dictionary in which reports look up the strings of
    the groups of a type other than the users: such strings are never shown. *)
Theorem C67_other_groups_refuted :
  forall snake isdict enc dcv, (forall x, no_slash x = true -> no_slash (snake x) = true) ->
  forall p g pr s, g <> 0%N -> isdict pr = true -> column_name snake pr <> GROUP_COLUMN_ID ->
    (forall v t, shown_text snake isdict p g pr v (st_md s) <> Ok t) ->
    forall cs v t, shown_text snake isdict p g pr v (st_md (calls snake isdict enc dcv cs s)) <> Ok t.
Proof.
  intros snake isdict enc dcv Hs p g pr s Hg Hd Hc H cs v t. specialize (H v t). unfold shown_text in *. rewrite Hd in *.
  destruct v as [ty z| | | | |]; try discriminate. rewrite dict_value_spec in *.
  destruct (calls_reach snake isdict enc dcv Hs cs s) as (ops & E & F). rewrite E.
  rewrite (run_kept snake call_op); [exact H| |exact F|].
  - cbn [wf_key]. now rewrite group_col_no_slash, (col_no_slash snake Hs).
  - intros o Ho. split; [now apply call_op_wf|now apply foreign_key].
Qed.
Print Assumptions C67_other_groups_refuted.

(** ** What does hold: strings of properties of users *)
(** The first value stored for a property. *)
Fixpoint stored (pid : N) (l : list (N * N)) : option N :=
  match l with [] => None | (i, v) :: r => if N.eqb i pid then Some v else stored pid r end.

Lemma replace_at_length {B} i (x : B) l : List.length (replace_at i x l) = List.length l.
Proof. revert i. induction l as [|y r IH]; intros [|i]; cbn; auto. Qed.
Lemma position_some pid l i : position pid l = Some i -> exists v, nth_error l i = Some (pid, v) /\ (i < List.length l)%nat.
Proof.
  revert i. induction l as [|[j w] r IH]; cbn; intro i; [discriminate|]. destruct (N.eqb_spec j pid) as [->|Ne].
  - intros [= <-]. exists w. split; [reflexivity|]. apply Nat.lt_0_succ.
  - destruct (position pid r) as [k|]; [|discriminate]. intros [= <-]. destruct (IH k eq_refl) as (v & H & L). exists v. cbn. split; [exact H|lia].
Qed.
Lemma position_map (l l' : list (N * N)) pid : map fst l = map fst l' -> position pid l = position pid l'.
Proof.
  revert l'. induction l as [|[i v] r IH]; intros [|[j w] r']; cbn; try discriminate; [reflexivity|]. intros [= -> E].
  now rewrite (IH _ E).
Qed.
Lemma position_app_some pid l m i : position pid l = Some i -> position pid (l ++ m)%list = Some i.
Proof.
  revert i. induction l as [|[j w] r IH]; cbn; intro i; [discriminate|]. destruct (N.eqb j pid); [auto|].
  destruct (position pid r) as [k|] eqn:E; [|discriminate]. intros [= <-]. now rewrite (IH k eq_refl).
Qed.
Lemma position_app_none pid l m : position pid l = None -> position pid (l ++ m)%list = option_map (Nat.add (List.length l)) (position pid m).
Proof.
  induction l as [|[j w] r IH]; cbn.
  - intros _. now destruct (position pid m).
  - destruct (N.eqb j pid); [discriminate|]. destruct (position pid r) eqn:E; [discriminate|]. intros _. rewrite IH by reflexivity.
    now destruct (position pid m).
Qed.
Lemma replace_at_fst i (pid w : N) (l : list (N * N)) (v : N) : nth_error l i = Some (pid, w) -> map fst (replace_at i (pid, v) l) = map fst l.
Proof. revert i. induction l as [|y r IH]; intros [|i]; cbn; try discriminate; [now intros [= ->]|]. intro H. now rewrite (IH _ H). Qed.
Lemma stored_position pid l : stored pid l = match position pid l with Some i => option_map snd (nth_error l i) | None => None end.
Proof.
  induction l as [|[j w] r IH]; cbn; [reflexivity|]. destruct (N.eqb j pid); [reflexivity|]. rewrite IH. now destruct (position pid r).
Qed.
Lemma nth_replace {B} i j (x : B) l : nth_error (replace_at i x l) j =
  if Nat.eqb i j then option_map (fun _ => x) (nth_error l j) else nth_error l j.
Proof.
  revert i j. induction l as [|y r IH]; intros [|i] [|j]; cbn; try reflexivity; try (now destruct (Nat.eqb i j)). apply IH.
Qed.
(** Updating the values of a group: each new value is the one stored, the other properties keep theirs. *)
Lemma merge_stored_gen old new : NoDup (map fst new) ->
  forall vals, (forall pid i, position pid old = Some i -> position pid vals = Some i) ->
    (forall pid, position pid old = None -> In pid (map fst new) -> position pid vals = None) ->
    forall pid, stored pid (fold_left (fun vals v => match position (fst v) old with
                           | Some i => replace_at i v vals
                           | None => (vals ++ [v])%list
                           end) new vals) =
      match stored pid new with Some v => Some v | None => stored pid vals end.
Proof.
  induction new as [|[j w] r IH]; cbn [fold_left map]; intros Nd vals H1 H2 pid; [reflexivity|].
  apply NoDup_cons_iff in Nd as [Nj Nd]. cbn [fst stored].
  set (vals' := match position j old with Some i => replace_at i (j, w) vals | None => (vals ++ [(j, w)])%list end).
  assert (P : stored pid vals' = if N.eqb j pid then Some w else stored pid vals).
  { unfold vals'. destruct (position j old) as [i|] eqn:E.
    - pose proof (H1 _ _ E) as Ev. destruct (position_some _ _ _ Ev) as (v & Hv & L).
      rewrite !stored_position, (position_map (replace_at i (j, w) vals) vals) by (eapply replace_at_fst; eauto).
      destruct (N.eqb_spec j pid) as [<-|Ne]; [rewrite Ev, nth_replace, Nat.eqb_refl, Hv; reflexivity|].
      destruct (position pid vals) as [k|] eqn:Ek; [|reflexivity]. rewrite nth_replace. destruct (Nat.eqb_spec i k) as [<-|]; [|reflexivity].
      destruct (position_some _ _ _ Ek) as (v' & Hv' & _). congruence.
    - assert (Ev : position j vals = None) by (apply H2; [exact E|now left]).
      rewrite !stored_position. destruct (position pid vals) as [k|] eqn:Ek.
      + rewrite (position_app_some _ _ _ _ Ek). destruct (N.eqb_spec j pid) as [->|]; [congruence|].
        destruct (position_some _ _ _ Ek) as (v' & Hv' & L). rewrite nth_error_app1 by exact L. reflexivity.
      + rewrite position_app_none by exact Ek. cbn [position]. destruct (N.eqb_spec j pid) as [->|]; [|reflexivity].
        cbn [option_map]. rewrite Nat.add_0_r, nth_error_app2, Nat.sub_diag by lia. reflexivity. }
  rewrite IH; [rewrite P|exact Nd|..].
  - destruct (N.eqb_spec j pid) as [<-|]; [|reflexivity]. assert (E : stored j r = None).
    { clear - Nj. induction r as [|[a b] r IH]; cbn in *; [reflexivity|]. destruct (N.eqb_spec a j) as [->|]; [exfalso; auto|]. apply IH. tauto. }
    now rewrite E.
  - intros q i Hq. unfold vals'. destruct (position j old) as [k|] eqn:E.
    + destruct (position_some _ _ _ (H1 _ _ E)) as (v & Hv & L).
      rewrite (position_map (replace_at k (j, w) vals) vals) by (eapply replace_at_fst; eauto). auto.
    + apply position_app_some. auto.
  - intros q Hq Hi. unfold vals'. destruct (position j old) as [k|] eqn:E.
    + destruct (position_some _ _ _ (H1 _ _ E)) as (v & Hv & L).
      rewrite (position_map (replace_at k (j, w) vals) vals) by (eapply replace_at_fst; eauto). apply H2; [exact Hq|now right].
    + rewrite position_app_none by (apply H2; [exact Hq|now right]). cbn [position]. destruct (N.eqb_spec j q) as [->|]; [contradiction|reflexivity].
Qed.
Lemma merge_stored old new pid : NoDup (map fst new) ->
  stored pid (merge_values old new) = match stored pid new with Some v => Some v | None => stored pid old end.
Proof. intro Nd. apply merge_stored_gen; auto. Qed.
Lemma stored_in pid v l : NoDup (map fst l) -> In (pid, v) l -> stored pid l = Some v.
Proof.
  induction l as [|[a b] r IH]; cbn [map In stored]; intros Nd H; [contradiction|]. apply NoDup_cons_iff in Nd as [N1 N2].
  destruct H as [[= -> ->]|H]; [now rewrite N.eqb_refl|]. destruct (N.eqb_spec a pid) as [->|]; [|now apply IH].
  exfalso. apply N1. cbn [fst]. exact (in_map fst _ _ H).
Qed.
(** The values of a group after [identify]. *)
Lemma create_or_update_stored p g key vals s gv s' pid : NoDup (map fst vals) -> group_create_or_update p g key vals s = (Ok gv, s') ->
  forall v, In (pid, v) vals -> stored pid (gv_values gv) = Some v.
Proof.
  intros Nd E v Hv. unfold group_create_or_update in E. destruct (kget _ s) as [w|].
  - destruct (read_group_values w) as [old|]; [|discriminate]. injection E as <- _. cbn [gv_values].
    rewrite merge_stored by exact Nd. now rewrite (stored_in _ _ _ Nd Hv).
  - destruct (next_seq _ s) as [[i|] s1]; [|discriminate]. injection E as <- _. cbn [gv_values]. now apply stored_in.
Qed.

Lemma NoDup_map_via {A} (f : A -> string) (h : A -> N) l : NoDup (map f l) -> (forall x y, In x l -> In y l -> h x = h y -> f x = f y) -> NoDup (map h l).
Proof.
  induction l as [|a r IH]; cbn [map]; intros Nd H; constructor.
  - apply NoDup_cons_iff in Nd as [N1 _]. intro Hi. apply in_map_iff in Hi as (y & E & Hy). apply N1.
    rewrite (H a y); [now apply in_map|now left|now right|auto].
  - apply NoDup_cons_iff in Nd as [_ Nd]. apply IH; [exact Nd|]. intros x y Hx Hy. apply H; now right.
Qed.

Lemma Forall2_mono {A B} (P Q : A -> B -> Prop) l m : (forall a b, P a b -> Q a b) -> Forall2 P l m -> Forall2 Q l m.
Proof. intros H F. induction F; constructor; auto. Qed.
Section Persist.
Variable snake : string -> string.
(** Calls never change or remove a property. *)
Lemma prop_keep p kd id x o (s : Store) : call_op o -> PropsOk p kd s -> prop_by_id p kd id s = Ok x -> prop_by_id p kd id (md_step snake o s) = Ok x.
Proof.
  intros Ho Hx H. pose proof (call_op_wf o Ho) as W. apply prop_by_id_spec in H. apply prop_by_id_spec.
  assert (F : ~ touches o (KData (kind_ns p kd) id) -> kg (KData (kind_ns p kd) id) (md_step snake o s) = Some (VRec (RProperty x))).
  { intro T. rewrite (only_kg _ _ _ _ (md_frame snake o s W)); [exact H|now destruct kd|exact T]. }
  assert (C : forall q k n d t sys, kg (KData (kind_ns p kd) id) (md_step snake (OPropGetOrCreate q k n d t sys) s) = Some (VRec (RProperty x))).
  { intros q k n d t sys. destruct (kind_dec q p k kd) as [[-> ->]|Ne].
    2: { rewrite (only_kg _ _ _ _ (md_frame snake (OPropGetOrCreate q k n d t sys) s eq_refl)); [exact H|now destruct kd|].
         cbn [touches]. unfold in_props. intros [E|[]]. cbn in E. apply Ne. destruct kd, k; cbn in E; injection E; intros; subst; auto; discriminate. }
    cbn [md_step]. unfold prop_get_or_create. destruct (prop_by_name p kd n s) as [|[]]; try exact H.
    unfold prop_create. destruct (check_insert _ _); [|exact H].
    replace (make_id_seq_key (prop_ns p kd)) with (render (KSeq (kind_ns p kd))) by now destruct kd.
    destruct (next_seq _ s) as [[i|] s1] eqn:En; [|exact H].
    destruct (next_zero_seq _ s1) as [[od|] s2] eqn:Eo; [|exact H]. cbv zeta. destruct (negb _); [exact H|]. cbn [snd]. rewrite insert_index_snoc, prop_data_key, prop_okeys.
    set (y := mkProperty i kd n d od t sys).
    change (make_index_key (project_ns p "global") "column_name" (column_name snake y)) with (render (KGlobalCol p (column_name snake y))).
    rewrite kg_put_ne; [|now destruct kd|reflexivity|destruct kd; discriminate].
    rewrite kg_insert_out; [|now destruct kd|intros; destruct kd; discriminate].
    destruct (next_seq_indexed _ _ _ _ _ Hx En) as (i0 & [= <-] & _ & E1 & Hno & _).
    rewrite kg_put_ne; [|now destruct kd|now destruct kd|intro E; injection E as <-; congruence].
    transitivity (kg (KData (kind_ns p kd) id) s1).
    - apply (only_kg (fun k => k = KOrderSeq p (short_name t))); [|now destruct kd|destruct kd; discriminate].
      eapply next_zero_only; [exact Eo|]. exists (KOrderSeq p (short_name t)). split; [reflexivity|]. split; [now destruct t as [[]|[]]|reflexivity].
    - rewrite E1. rewrite kg_put_ne; [exact H|now destruct kd|now destruct kd|destruct kd; discriminate]. }
  destruct Ho as (q & [[[_ T]|[[_ T]| ->]]|[_ T]]); [destruct o; try contradiction|destruct o; try contradiction| |destruct o; try contradiction].
  all: try apply C.
  all: apply F; cbn [touches]; unfold in_group_types, in_group, in_dict, in_rec, in_ns, kind_ns, in_sessions; destruct kd; cbn; try tauto; try discriminate; try congruence.
  all: intros [E|E]; try tauto; discriminate E.
Qed.
Lemma prop_kept p kd id x ops : forall s : Store, Forall call_op ops -> PropsOk p kd s -> prop_by_id p kd id s = Ok x ->
  prop_by_id p kd id (md_run snake ops s) = Ok x.
Proof.
  unfold md_run. induction ops as [|o r IH]; cbn [fold_left]; intros s F Hx H; [exact H|]. inversion F as [|? ? F1 F2]; subst.
  apply IH; [exact F2| |now apply prop_keep]. apply md_step_props; [now apply call_op_wf|exact Hx].
Qed.
Lemma call_binds p c o : c <> GROUP_COLUMN_ID -> call_op o -> binds p (group_col 0) c o = false.
Proof.
  intros Hc (q & [[[_ H]|[[_ H]| ->]]|[_ H]]); try reflexivity; destruct o; try contradiction; try reflexivity; cbn [binds].
  - destruct H as (_ & -> & _). change (String.eqb TABLE_EVENTS (group_col 0)) with false. now rewrite andb_false_r.
  - destruct H as (_ & _ & ->). rewrite (proj2 (String.eqb_neq GROUP_COLUMN_ID c)); [apply andb_false_r|congruence].
Qed.
Lemma calls_bind p c ops : c <> GROUP_COLUMN_ID -> Forall call_op ops -> existsb (binds p (group_col 0) c) ops = false.
Proof.
  intros Hc F. induction F as [|o r Ho F IH]; cbn [existsb]; [reflexivity|]. now rewrite call_binds, IH.
Qed.
End Persist.

Lemma col_first c c' v (r : Row) : c <> c' -> col c ((c', v) :: r) = col c r.
Proof. intro H. cbn [col]. now rewrite (proj2 (String.eqb_neq c c')). Qed.
Lemma each_look {A B} (f : A -> M B) l : (forall x s y s', f x s = (Ok y, s') -> s' = s) -> forall s ys s', each f l s = (Ok ys, s') ->
  s' = s /\ Forall2 (fun x y => f x s = (Ok y, s)) l ys.
Proof.
  intro H. induction l as [|x r IH]; cbn [each]; intros s ys s' E.
  - apply ret_ok in E as [-> ->]. split; [reflexivity|constructor].
  - apply bind_ok in E as (y & s1 & E1 & E). apply bind_ok in E as (zs & s2 & E2 & E). apply ret_ok in E as [-> ->].
    pose proof (H _ _ _ _ E1). subst s1. apply IH in E2 as [-> E2]. split; [reflexivity|]. now constructor.
Qed.

(** A string of a property of a user, or of any property kept without a dictionary, is
    shown as it was sent, right after the call and after all later calls.  The property
    has a column of its own (C40 says when). *)
Theorem C67_user_strings_partial :
  forall snake isdict enc dcv, (forall x, no_slash x = true -> no_slash (snake x) = true) ->
  (* reading what was written *)
  (forall n, dcv (enc (SInt TInt64 (Z.of_N n))) = SInt TInt64 (Z.of_N n)) ->
  forall ops s r s' l name text pj gr m, dcv (enc (SStr text)) = SStr text ->
    forallb wf_op ops = true -> st_md s = md_run snake ops [] ->
    identify snake isdict enc dcv r s = (Ok tt, s') ->
    id_props r = Some l -> NoDup (map fst l) -> In (name, PVString text) l ->
    project_by_token (id_token r) (st_md s) = Ok pj -> group_type_get_or_create (pr_id pj) (id_group r) (st_md s) = (Ok gr, m) ->
    let p := pr_id pj in let g := gr_id gr in
    exists pr row, prop_by_name p (KGroup g) name (st_md s') = Ok pr /\ st_groups s' = (st_groups s ++ [(g, row)])%list /\
      let c := column_name snake pr in
      (existsb (binds p (group_col 0) c) ops = false ->
       ~ In c [COLUMN_PROJECT_ID; GROUP_COLUMN_ID; GROUP_COLUMN_VERSION; COLUMN_CREATED_AT] ->
       (forall id pr', prop_by_id p (KGroup g) id (st_md s') = Ok pr' -> column_name snake pr' = c -> id = pp_id pr) ->
       exists v, col c row = Some v /\
         (g = 0%N \/ isdict pr = false ->
          forall cs, shown_text snake isdict p g pr v (st_md (calls snake isdict enc dcv cs s')) = Ok text)).
Proof.
  intros snake isdict enc dcv Hs Hdn ops s r s' l name text pj gr m Hds W Es H Hl Nd Hin Hp Hg p g.
  unfold identify in H. apply bind_ok in H as (pj0 & s0 & E0 & H). apply look_ok in E0 as [E0 ->]. rewrite Hp in E0. injection E0 as <-.
  cbv zeta in H. fold p in H.
  apply bind_ok in H as (gr0 & s1 & E1 & H). apply on_md_ok in E1 as (E1 & _ & G1). fold p in Hg. rewrite Hg in E1. injection E1 as -> E1.
  fold g in H. rewrite Hl in H.
  apply bind_ok in H as (props & s2 & E2 & H).
  apply bind_ok in H as (vals & s3 & E3 & H).
  apply bind_ok in H as (gv & s4 & E4 & H). apply on_md_ok in E4 as (E4 & _ & G4).
  apply bind_ok in H as (u & s5 & E5 & H). apply on_md_ok in E5 as (E5 & _ & G5).
  apply bind_ok in H as (ver & s6 & E6 & H). apply on_md_ok in E6 as (E6 & _ & G6).
  apply bind_ok in H as (named & s7 & E7 & H).
  set (P := identify_op p).
  assert (PC : forall o, P o -> call_op o) by (intros o Ho; exists p; now right).
  assert (R1 : reach snake P s s1) by (exists [OGroupType p (id_group r)]; split; [cbn; now rewrite Hg|now repeat constructor]).
  pose proof (does_reach snake P _ _ _ _ (does_res snake p g l) E2) as R2.
  pose proof (does_reach snake P _ _ _ _ (does_values snake isdict enc Hs p props) E3) as R3.
  assert (R4 : reach snake P s3 s4) by (exists [OGroupSet p g (id_id r) vals]; split; [cbn; now rewrite E4|now repeat constructor]).
  assert (R5 : reach snake P s4 s5).
  { exists [ODictCreateKey p (group_col g) GROUP_COLUMN_ID (gv_id gv) (id_id r)]. split; [cbn [md_run fold_left md_step]; now injection E5 as _ <-|].
    constructor; [|constructor]. split; [cbn [wf_op]; now rewrite group_col_no_slash|]. split; [reflexivity|]. split; [now eexists|reflexivity]. }
  assert (R6 : reach snake P s5 s6) by (exists [OGroupRecord p g]; split; [cbn; now rewrite E6|now repeat constructor]).
  assert (Hst : forall x s y s', named_stored snake isdict dcv p g x s = (Ok y, s') ->
     exists pr, prop_by_id p (KGroup g) (fst x) (st_md s) = Ok pr /\ y = mkNamed (column_name snake pr) (column_type isdict pr) (dcv (snd x)) /\ s' = s).
  { intros x sa y sb Hx. unfold named_stored in Hx. apply bind_ok in Hx as (pr & sc & Hx & Hy). apply look_ok in Hx as [Hx ->].
    apply ret_ok in Hy as [-> ->]. eauto. }
  apply each_look in E7 as [-> E7]; [|intros x sa y sb Hx; now destruct (Hst _ _ _ _ Hx) as (? & _ & _ & ->)].
  unfold insert_group in H. match type of H with context [types_ok ?x] => set (whole := x) in H end.
  destruct (types_ok whole); [|discriminate]. injection H as <-. cbn [st_md st_groups].
  (* the properties *)
  assert (X0 : PropsOk p (KGroup g) (st_md s)) by (rewrite Es; now apply props_reach).
  assert (Xr : forall a b, reach snake P a b -> PropsOk p (KGroup g) (st_md a) -> PropsOk p (KGroup g) (st_md b)).
  { intros a b (o & E & F) Hx. rewrite E. apply props_run; [|exact Hx]. eapply forall_wf; [|exact F]. now intros x [Wx _]. }
  assert (Kr : forall a b id x, reach snake P a b -> PropsOk p (KGroup g) (st_md a) -> prop_by_id p (KGroup g) id (st_md a) = Ok x ->
     prop_by_id p (KGroup g) id (st_md b) = Ok x).
  { intros a b id x (o & E & F) Hx Hb. rewrite E. apply prop_kept; [|exact Hx|exact Hb]. eapply Forall_impl; [|exact F]. exact PC. }
  pose proof (Xr _ _ R1 X0) as X1. pose proof (Xr _ _ R2 X1) as X2.
  assert (FR : Forall2 (fun a b => prop_by_id p (KGroup g) (pp_id (fst b)) (st_md s2) = Ok (fst b) /\ pp_name (fst b) = fst a /\ snd b = snd a) l props).
  { eapply Forall2_mono; [|refine (each_reach snake P _ _ _ _ _ _ E2)].
    2: { intro a. apply does_bind; [|intro; apply does_ret]. now apply does_op with (OPropGetOrCreate p (KGroup g) (fst a) None (data_type (snd a)) false). }
    intros a b (t1 & t2 & Ra & Hb & Rb). unfold resolve_property in Hb. apply bind_ok in Hb as (x & t3 & Hb & Hx). apply ret_ok in Hx as [-> ->].
    apply on_md_ok in Hb as (Hb & _ & _). pose proof (Xr _ _ Ra X1) as Xa.
    destruct (prop_get_or_create_spec _ _ _ _ _ _ _ _ _ _ Xa Hb) as (B1 & B2 & B3). cbn [fst snd].
    split; [|auto]. eapply Kr; [exact Rb| |exact B1].
    pose proof (prop_get_or_create_ok snake p (KGroup g) (fst a) None (data_type (snd a)) false _ Xa) as Y. now rewrite Hb in Y. }
  assert (NI : NoDup (map (fun b => pp_id (fst b)) props)).
  { apply (NoDup_map_via (fun b : Property * PropValue => pp_name (fst b))).
    - replace (map (fun b : Property * PropValue => pp_name (fst b)) props) with (map fst l); [exact Nd|].
      clear - FR. induction FR as [|a b la lb (_ & E & _) F IH]; cbn [map]; [reflexivity|]. now rewrite E, IH.
    - intros x y Hx Hy E.
      assert (Q : forall z, In z props -> prop_by_id p (KGroup g) (pp_id (fst z)) (st_md s2) = Ok (fst z)).
      { clear - FR. induction FR as [|a b la lb (E & _) F IH]; [intros z []|]. intros z [<-|Hz]; auto. }
      pose proof (Q x Hx) as Qx. pose proof (Q y Hy) as Qy. rewrite E in Qx. congruence. }
  assert (HB : exists pr, In (pr, PVString text) props /\ prop_by_id p (KGroup g) (pp_id pr) (st_md s2) = Ok pr /\ pp_name pr = name).
  { clear - FR Hin. induction FR as [|a b la lb (B1 & B2 & B3) F IH]; [destruct Hin|]. destruct Hin as [->|Hin].
    - destruct b as [pr v]. cbn in *. subst v. exists pr. split; [now left|auto].
    - destruct (IH Hin) as (pr & I & J). exists pr. split; [now right|exact J]. }
  destruct HB as (pr & Hpr & Bpr & Npr).
  pose proof (each_reach snake P _ props (fun x => ltac:(apply does_bind; [apply does_value; [exact Hs|]; intros d0 v0 Hd0; split; [cbn [wf_op]; now rewrite group_col_no_slash|now split]|intro; apply does_ret])) _ _ _ E3) as FV.
  assert (HV : exists v t1 t2, In (pp_id pr, enc v) vals /\ reach snake P s2 t1 /\ reach snake P t2 s3 /\
     property_to_value snake isdict p (group_col 0) (pr, PVString text) t1 = (Ok v, t2)).
  { clear - FV Hpr. induction FV as [|a b la lb (t1 & t2 & Ra & Hb & Rb) F IH]; [destruct Hpr|]. destruct Hpr as [->|Hpr].
    - apply bind_ok in Hb as (v & t3 & Hb & Hr). apply ret_ok in Hr as [-> ->]. exists v, t1, t3. split; [now left|auto].
    - destruct (IH Hpr) as (v & u1 & u2 & I & J). exists v, u1, u2. split; [now right|exact J]. }
  destruct HV as (v & t1 & t2 & Hv & Ra & Rb & Hval).
  assert (Hdc : dcv (enc v) = v).
  { clear - Hval Hdn Hds. unfold property_to_value in Hval. destruct (isdict pr).
    - apply bind_ok in Hval as (n & t3 & _ & Hr). apply ret_ok in Hr as [-> _]. apply Hdn.
    - destruct (pp_type pr) as [[]|]; cbn in Hval; try discriminate Hval. injection Hval as <- _. exact Hds. }
  assert (MV : map fst vals = map (fun b => pp_id (fst b)) props).
  { clear - FV. induction FV as [|a b la lb (u1 & u2 & _ & Hb & _) F IH]; cbn [map]; [reflexivity|].
    apply bind_ok in Hb as (w & t3 & _ & Hr). apply ret_ok in Hr as [-> _]. now rewrite IH. }
  assert (SV : stored (pp_id pr) (gv_values gv) = Some (enc v)) by (eapply create_or_update_stored; [rewrite MV; exact NI|exact E4|exact Hv]).
  assert (R26 : reach snake P s2 s6) by eauto using reach_trans.
  assert (B6 : prop_by_id p (KGroup g) (pp_id pr) (st_md s6) = Ok pr) by (eapply Kr; eauto).
  assert (X6 : PropsOk p (KGroup g) (st_md s6)) by eauto.
  exists pr, (row_of whole). split; [apply prop_by_name_iff; eauto|]. split.
  { f_equal. rewrite G6, G5, G4. rewrite (proj2 (quiet_ok _ _ _ _ (quiet_each _ _ (fun x => quiet_bind _ _ (quiet_value snake isdict p (group_col 0) x) (fun y => quiet_ret _))) E3)).
    rewrite (proj2 (quiet_ok _ _ _ _ (quiet_resolve snake p (KGroup g) l) E2)). exact G1. }
  set (c := column_name snake pr). intros Hb Hc Hu.
  exists v. split.
  { unfold whole. rewrite <- Hdc. unfold row_of. cbn [app map nv_col nv_val int64].
    assert (Nc : forall x, In x [COLUMN_PROJECT_ID; GROUP_COLUMN_ID; GROUP_COLUMN_VERSION; COLUMN_CREATED_AT] -> c <> x) by (intros x Hx ->; auto).
    rewrite !col_first by (apply Nc; cbn [In]; tauto).
    clear - E7 SV Hst Hu B6. induction E7 as [|x y lx ly Hxy F IH]; [discriminate|]. cbn [map].
    destruct (Hst _ _ _ _ Hxy) as (pr' & Hp' & -> & _). cbn [nv_col nv_val]. destruct x as [id w]. cbn [fst snd stored] in *.
    destruct (N.eqb_spec id (pp_id pr)) as [->|Ne].
    - injection SV as ->. rewrite B6 in Hp'. injection Hp' as <-. cbn [col]. now rewrite String.eqb_refl.
    - rewrite col_first; [now apply IH|]. intro E. apply Ne. now apply (Hu id pr'). }
  intros Hor cs. unfold shown_text. unfold property_to_value in Hval.
  destruct (isdict pr) eqn:Ed.
  2: { destruct (pp_type pr) as [[]|]; cbn in Hval; try discriminate Hval. now injection Hval as <- _. }
  destruct Hor as [->|]; [|discriminate]. apply bind_ok in Hval as (n & t3 & Hval & Hr). apply ret_ok in Hr as [-> ->].
  apply on_md_ok in Hval as (Hval & _ & _). rewrite N2Z.id. fold c in Hval |- *.
  assert (Hci : c <> GROUP_COLUMN_ID) by (intros E; apply Hc; rewrite E; cbn; tauto).
  assert (Wc : no_slash (group_col 0) && no_slash c = true) by (unfold c; now rewrite group_col_no_slash, (col_no_slash snake Hs)).
  assert (D0 : DictOk p (group_col 0) c (st_md s)) by (rewrite Es; apply md_run_dict; auto using DictOk_nil).
  assert (Dr : forall a b, reach snake call_op a b -> DictOk p (group_col 0) c (st_md a) -> DictOk p (group_col 0) c (st_md b)).
  { intros a b (o & E & F) Hx. rewrite E. apply md_run_dict; auto; [eapply forall_wf; [apply call_op_wf|exact F]|now apply calls_bind]. }
  assert (PR : forall a b, reach snake P a b -> reach snake call_op a b) by (intros a b; apply reach_weaken, PC).
  assert (D1 : DictOk p (group_col 0) c (st_md t1)) by (eapply Dr; [|exact D0]; apply PR; eauto using reach_trans).
  assert (D2 : DictOk p (group_col 0) c (st_md t3)).
  { pose proof (dict_encode_ok p (group_col 0) c Wc text _ D1) as Y. now rewrite Hval in Y. }
  assert (V2 : kg (KDictVal p (group_col 0) c text) (st_md t3) = Some (VNum n)).
  { destruct (dict_encode_spec p (group_col 0) c text _ D1) as [(n' & Hk & E)|(_ & n' & _ & _ & _ & E)]; rewrite Hval in E.
    - injection E as -> ->. exact Hk.
    - pose proof (f_equal fst E) as En1. apply (f_equal snd) in E. cbn [fst snd] in E, En1. injection En1 as ->. rewrite E.
      rewrite dict_put_kv by exact Wc. destruct (string_dec text text); congruence. }
  set (s' := mkSt _ _ _). 
  assert (RF : reach snake call_op t3 (calls snake isdict enc dcv cs s')).
  { eapply reach_trans; [apply PR; eapply reach_trans; [exact Rb|]; eapply reach_trans; [exact R4|]; eapply reach_trans; [exact R5|exact R6]|].
    eapply reach_trans; [|apply (calls_reach snake isdict enc dcv Hs cs s')]. exists []. now split. }
  destruct RF as (o & E & F). rewrite E.
  pose proof (forall_wf _ _ call_op_wf F) as Wo. pose proof (calls_bind p c o Hci F) as Bo.
  pose proof (md_run_dict p (group_col 0) c snake o _ Wc Wo Bo D2) as DF.
  pose proof (dict_grows_run p (group_col 0) c snake o _ text n Wc Wo Bo D2 V2) as VF.
  destruct (dk_val _ _ _ _ DF _ _ VF) as (n' & [= <-] & K). now apply dict_value_spec.
Qed.
Print Assumptions C67_user_strings_partial.

Definition text_dict (pr : Property) : bool := match pp_type pr with PBase TString => true | _ => false end.
Definition num_enc (v : SVal) : N := match v with SInt _ z => Z.to_N z + 1 | _ => 0 end.
Definition num_dec (n : N) : SVal := if N.eqb n 0 then SStr "Ann Lee" else SInt TInt64 (Z.of_N (n - 1)).
Definition who_is (g id : string) (l : list (string * PropValue)) : Identify := mkIdentify "token" 1700000000000 g id (Some l).
Definition set_props (r : Identify) (s : St) : Res unit * St := identify plain text_dict num_enc num_dec r s.
Example C67_witness_contract n : num_dec (num_enc (SInt TInt64 (Z.of_N n))) = SInt TInt64 (Z.of_N n).
Proof. unfold num_enc, num_dec. rewrite N2Z.id. destruct (N.eqb_spec (n + 1) 0); [lia|]. now rewrite N.add_sub. Qed.
(** The hypotheses of the theorems of C67 are met by two calls: the name of a user is shown,
    the name of a company (of the same number in the other dictionary) is not. *)
Example C67_witness :
  let r1 := set_props (who_is "user" "ann" [("Town", PVString "Rome"); ("Name", PVString "Ann Lee")]) at_shop in
  let r2 := set_props (who_is "company" "acme" [("Name", PVString "Acme Ltd")]) (snd r1) in
  let s2 := snd r2 in
  let a := mkProperty 2 (KGroup 0) "Name" None 1 (PBase TString) false in
  let b := mkProperty 1 (KGroup 1) "Name" None 2 (PBase TString) false in
  fst r1 = Ok tt /\ fst r2 = Ok tt /\ forallb wf_op shop = true /\
  prop_by_name 1 (KGroup 0) "Name" (st_md s2) = Ok a /\ prop_by_name 1 (KGroup 1) "Name" (st_md s2) = Ok b /\
  map (fun x => (fst x, col (column_name plain a) (snd x), col (column_name plain b) (snd x))) (st_groups s2) =
    [(0%N, Some (SInt TInt64 1), None); (1%N, None, Some (SInt TInt64 1))] /\
  shown_text plain text_dict 1 0 a (SInt TInt64 1) (st_md s2) = Ok "Ann Lee" /\
  shown_text plain text_dict 1 1 b (SInt TInt64 1) (st_md s2) = Err NotFound.
Proof. vm_compute. repeat split. Qed.
