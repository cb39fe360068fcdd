(** Properties C33 and C34: identifiers of group values, and group types. *)
From Coq Require Import List NArith ZArith String Ascii Bool Lia.
From Verif Require Import AMap Kv KvKeys KvKeysFacts KvFacts Md MdOps MdFrame MdIndex MdEntities MdWf PropsNames.
Import ListNotations.
Local Open Scope string_scope.

(** ** C33 *)
(** Who is asked for: a user or group value, or an anonymous visitor. *)
Inductive Who := Real (k : string) | Anon (k : string).
(** The identifier a call yields: tracking a value, or an anonymous visitor. *)
Definition ask (p g : N) (w : Who) (s : Store) : Res N :=
  match w with
  | Real k => match fst (group_get_or_create p g k [] s) with Ok gv => Ok (gv_id gv) | Err e => Err e end
  | Anon k => fst (anon_get_or_create p g k s)
  end.
Definition ask_store (p g : N) (w : Who) (s : Store) : Store :=
  match w with Real k => snd (group_get_or_create p g k [] s) | Anon k => snd (anon_get_or_create p g k s) end.
Definition no_merge (p g : N) (o : MdOp) : bool :=
  match o with OMerge q h _ _ _ => negb (N.eqb q p && N.eqb h g) | _ => true end.

Section Values.
Variables p g : N.
Definition wkey (w : Who) : Key := match w with Real k => KReal p g k | Anon k => KAnon p g k end.
Definition wid (w : Who) (v : Val Rec) : option N :=
  match w, v with
  | Real _, VRec (RGroupValues gv) => Some (gv_id gv)
  | Anon _, VNum n => Some n
  | _, _ => None
  end.
Notation sq := (KGroupSeq p g).
Record GroupOk (s : Store) : Prop := {
  go_id : forall w v, kg (wkey w) s = Some v -> exists n, wid w v = Some n /\
     match kg sq s with Some (VNum m) => (n <= m)%N | _ => False end;
  go_inj : forall w w' v v' n, kg (wkey w) s = Some v -> kg (wkey w') s = Some v' -> wid w v = Some n -> wid w' v' = Some n -> w = w';
  go_seq : match kg sq s with None => True | Some (VNum _) => True | _ => False end
}.
Lemma wkey_inj w w' : wkey w = wkey w' -> w = w'.
Proof. destruct w, w'; cbn; congruence. Qed.
Lemma wf_wkey w : wf_key (wkey w) = true. Proof. now destruct w. Qed.
Lemma GroupOk_frame (P : Key -> Prop) s s' : only P s s' -> (forall k, in_group p g k -> ~ P k) -> GroupOk s -> GroupOk s'.
Proof.
  intros O D [H1 H2 H3].
  assert (Ew : forall w, kg (wkey w) s' = kg (wkey w) s) by (intro w; apply (only_kg P); [exact O|apply wf_wkey|apply D; destruct w; cbn; auto]).
  assert (Es : kg sq s' = kg sq s) by (apply (only_kg P); [exact O|reflexivity|apply D; cbn; auto]).
  constructor.
  - intros w v. rewrite Ew, Es. apply H1.
  - intros w w' v v' n. rewrite !Ew. apply H2.
  - now rewrite Es.
Qed.
(** A new entry gets the next number. *)
Lemma GroupOk_new s w v n s1 : GroupOk s -> kg (wkey w) s = None -> wid w v = Some n ->
  next_seq (render sq) s = (Ok n, s1) -> GroupOk (kput (render (wkey w)) v s1).
Proof.
  intros [H1 H2 H3] Hw Hv En. unfold next_seq, next_from in En. fold (kg sq s) in En.
  set (s2 := kput (render (wkey w)) v s1).
  assert (E1 : s1 = kput (render sq) (VNum n) s /\ forall w v m, kg (wkey w) s = Some v -> wid w v = Some m -> (m < n)%N).
  { destruct (kg sq s) as [[m| |]|] eqn:Es; try contradiction; cbn in En; injection En as <- <-; (split; [reflexivity|]).
    - intros w' v' m' Hk Hi. destruct (H1 _ _ Hk) as (n' & Hn' & Hle). rewrite Hi in Hn'. injection Hn' as <-. lia.
    - intros w' v' m' Hk Hi. destruct (H1 _ _ Hk) as (n' & Hn' & []). }
  destruct E1 as [E1 Lt].
  assert (Ks : kg sq s2 = Some (VNum n)).
  { unfold s2. rewrite kg_put_ne; [|reflexivity|apply wf_wkey|destruct w; discriminate]. rewrite E1. apply kg_put_eq. }
  assert (Kw : kg (wkey w) s2 = Some v) by apply kg_put_eq.
  assert (Ko : forall w', w' <> w -> kg (wkey w') s2 = kg (wkey w') s).
  { intros w' N. unfold s2. rewrite kg_put_ne; [|apply wf_wkey|apply wf_wkey|intro E; now apply N, wkey_inj].
    rewrite E1. apply kg_put_ne; [apply wf_wkey|reflexivity|destruct w'; discriminate]. }
  assert (Dw : forall w' : Who, {w' = w} + {w' <> w}) by (intro; repeat decide equality).
  constructor.
  - intros w' v' Hk. rewrite Ks. destruct (Dw w') as [->|Ne].
    + rewrite Kw in Hk. injection Hk as <-. exists n. split; [exact Hv|lia].
    + rewrite Ko in Hk by exact Ne. destruct (H1 _ _ Hk) as (n' & Hn' & _). exists n'. split; [exact Hn'|]. pose proof (Lt _ _ _ Hk Hn'). lia.
  - intros w1 w2 v1 v2 m Hk1 Hk2 Hi1 Hi2. destruct (Dw w1) as [->|N1], (Dw w2) as [->|N2]; auto.
    + rewrite Kw in Hk1. injection Hk1 as <-. rewrite Ko in Hk2 by exact N2. pose proof (Lt _ _ _ Hk2 Hi2). rewrite Hv in Hi1. injection Hi1 as <-. lia.
    + rewrite Kw in Hk2. injection Hk2 as <-. rewrite Ko in Hk1 by exact N1. pose proof (Lt _ _ _ Hk1 Hi1). rewrite Hv in Hi2. injection Hi2 as <-. lia.
    + rewrite Ko in Hk1 by exact N1. rewrite Ko in Hk2 by exact N2. eapply H2; eauto.
  - now rewrite Ks.
Qed.
(** Replacing the values of an entry. *)
Lemma GroupOk_same s w v v' n : GroupOk s -> kg (wkey w) s = Some v -> wid w v = Some n -> wid w v' = Some n ->
  GroupOk (kput (render (wkey w)) v' s).
Proof.
  intros [H1 H2 H3] Hw Hv Hv'.
  assert (Ks : kg sq (kput (render (wkey w)) v' s) = kg sq s) by (apply kg_put_ne; [reflexivity|apply wf_wkey|destruct w; discriminate]).
  assert (Ko : forall w', w' <> w -> kg (wkey w') (kput (render (wkey w)) v' s) = kg (wkey w') s).
  { intros w' N. apply kg_put_ne; [apply wf_wkey|apply wf_wkey|intro E; now apply N, wkey_inj]. }
  assert (Dw : forall w' : Who, {w' = w} + {w' <> w}) by (intro; repeat decide equality).
  constructor.
  - intros w' u Hk. rewrite Ks. destruct (Dw w') as [->|Ne].
    + rewrite kg_put_eq in Hk. injection Hk as <-. exists n. split; [exact Hv'|]. destruct (H1 _ _ Hw) as (n' & Hn' & Hl). rewrite Hv in Hn'. injection Hn' as <-. exact Hl.
    + rewrite Ko in Hk by exact Ne. auto.
  - intros w1 w2 v1 v2 m Hk1 Hk2 Hi1 Hi2. destruct (Dw w1) as [->|N1], (Dw w2) as [->|N2]; auto.
    + rewrite kg_put_eq in Hk1. injection Hk1 as <-. rewrite Ko in Hk2 by exact N2. apply (H2 _ _ v v2 m); auto. congruence.
    + rewrite kg_put_eq in Hk2. injection Hk2 as <-. rewrite Ko in Hk1 by exact N1. apply (H2 _ _ v1 v m); auto. congruence.
    + rewrite Ko in Hk1 by exact N1. rewrite Ko in Hk2 by exact N2. eapply H2; eauto.
  - now rewrite Ks.
Qed.

Lemma next_group s : GroupOk s -> exists n, next_seq (render sq) s = (Ok n, kput (render sq) (VNum n) s).
Proof.
  intros [_ _ H3]. unfold next_seq, next_from. fold (kg sq s).
  destruct (kg sq s) as [[m| |]|]; try contradiction; cbn; eauto.
Qed.
(** The three calls that may create an entry. *)
Lemma anon_cases k s : GroupOk s ->
  (exists n, kg (KAnon p g k) s = Some (VNum n) /\ anon_get_or_create p g k s = (Ok n, s)) \/
  (kg (KAnon p g k) s = None /\ exists n, next_seq (render sq) s = (Ok n, kput (render sq) (VNum n) s) /\
     anon_get_or_create p g k s = (Ok n, kput (render (KAnon p g k)) (VNum n) (kput (render sq) (VNum n) s))).
Proof.
  intro Hx. unfold anon_get_or_create. change (anon_key p g k) with (render (KAnon p g k)).
  change (group_seq_key p g) with (render sq).
  change (kget (render (KAnon p g k)) s) with (kg (KAnon p g k) s).
  destruct (kg (KAnon p g k) s) as [v|] eqn:E.
  - left. destruct (go_id _ Hx (Anon k) v E) as (n & Hn & _). destruct v as [m| |]; try discriminate. exists m. auto.
  - right. split; [reflexivity|]. destruct (next_group s Hx) as (n & En). exists n. rewrite En. auto.
Qed.
Lemma real_cases k vals s : GroupOk s ->
  (exists gv, kg (KReal p g k) s = Some (VRec (RGroupValues gv)) /\ group_get_or_create p g k vals s = (Ok gv, s)) \/
  (kg (KReal p g k) s = None /\ exists n, next_seq (render sq) s = (Ok n, kput (render sq) (VNum n) s) /\
     group_get_or_create p g k vals s =
       (Ok (mkGroupValues n vals), kput (render (KReal p g k)) (VRec (RGroupValues (mkGroupValues n vals))) (kput (render sq) (VNum n) s))).
Proof.
  intro Hx. unfold group_get_or_create. change (real_key p g k) with (render (KReal p g k)).
  change (group_seq_key p g) with (render sq).
  change (kget (render (KReal p g k)) s) with (kg (KReal p g k) s).
  destruct (kg (KReal p g k) s) as [v|] eqn:E.
  - left. destruct (go_id _ Hx (Real k) v E) as (n & Hn & _). destruct v as [| |[]]; try discriminate. eauto.
  - right. split; [reflexivity|]. destruct (next_group s Hx) as (n & En). exists n. rewrite En. auto.
Qed.

Lemma GroupOk_ask w s : GroupOk s -> GroupOk (ask_store p g w s).
Proof.
  intro Hx. destruct w as [k|k]; cbn [ask_store].
  - destruct (real_cases k [] s Hx) as [(gv & _ & ->)|(Hn & n & En & ->)]; [exact Hx|]. cbn [snd].
    apply (GroupOk_new s (Real k) _ n); auto.
  - destruct (anon_cases k s Hx) as [(n & _ & ->)|(Hn & n & En & ->)]; [exact Hx|]. cbn [snd].
    apply (GroupOk_new s (Anon k) _ n); auto.
Qed.

Lemma md_step_group snake o s : wf_op o = true -> no_merge p g o = true -> GroupOk s ->
  GroupOk (md_step snake o s) /\ forall w v n, kg (wkey w) s = Some v -> wid w v = Some n ->
     exists v', kg (wkey w) (md_step snake o s) = Some v' /\ wid w v' = Some n.
Proof.
  intros W K Hx.
  assert (F : (forall k, in_group p g k -> ~ touches o k) -> GroupOk (md_step snake o s) /\ forall w v n, kg (wkey w) s = Some v -> wid w v = Some n ->
     exists v', kg (wkey w) (md_step snake o s) = Some v' /\ wid w v' = Some n).
  { intro D. split; [eapply GroupOk_frame; [apply md_frame, W|exact D|exact Hx]|].
    intros w v n Hk Hi. exists v. split; [|exact Hi]. rewrite (only_kg (touches o) s); auto; [apply md_frame, W|apply wf_wkey|].
    apply D. destruct w; cbn; auto. }
  assert (FG : forall q h, (q, h) <> (p, g) -> (forall k, touches o k -> in_group q h k) -> GroupOk (md_step snake o s) /\ forall w v n, kg (wkey w) s = Some v -> wid w v = Some n ->
     exists v', kg (wkey w) (md_step snake o s) = Some v' /\ wid w v' = Some n).
  { intros q h N T. apply F. intros k Hk Ht. apply T in Ht. apply N. destruct k; cbn in *; try tauto; destruct Hk, Ht; congruence. }
  assert (PG : forall q h : N, {(q, h) = (p, g)} + {(q, h) <> (p, g)}) by (intros; repeat decide equality).
  assert (Put : forall w u n s1, kg (wkey w) s = None -> s1 = kput (render sq) (VNum n) s ->
     forall w' v m, kg (wkey w') s = Some v -> wid w' v = Some m -> exists v', kg (wkey w') (kput (render (wkey w)) u s1) = Some v' /\ wid w' v' = Some m).
  { intros w u n s1 Hn -> w' v m Hk Hi. exists v. split; [|exact Hi].
    rewrite kg_put_ne; [|apply wf_wkey|apply wf_wkey|intro E; apply wkey_inj in E; subst; congruence].
    rewrite kg_put_ne; [exact Hk|apply wf_wkey|reflexivity|destruct w'; discriminate]. }
  destruct o; try (apply F; intros k0 Hk Ht; try (match goal with kd : PropKind |- _ => destruct kd end);
        destruct k0; cbn in *; try tauto; unfold in_props, in_ns, in_rec, kind_ns in *; cbn in *;
        first [intuition congruence | destruct Ht as [Ht|(x & Ht)]; intuition congruence]).
  - destruct (PG p0 g0) as [[= -> ->]|N]; [|apply (FG _ _ N); auto]. split; [apply (GroupOk_ask (Anon key)), Hx|].
    cbn [md_step]. destruct (anon_cases key s Hx) as [(n & _ & ->)|(Hn & n & En & ->)]; [eauto|]. cbn [snd]. now apply (Put (Anon key) _ n).
  - destruct (PG p0 g0) as [[= -> ->]|N]; [|apply (FG _ _ N); auto]. cbn in K. rewrite !N.eqb_refl in K. discriminate.
  - destruct (PG p0 g0) as [[= -> ->]|N]; [|apply (FG _ _ N); auto]. cbn [md_step].
    destruct (real_cases key vals s Hx) as [(gv & _ & ->)|(Hn & n & En & ->)]; [eauto|]. cbn [snd]. split.
    + apply (GroupOk_new s (Real key) _ n); auto.
    + now apply (Put (Real key) _ n).
  - destruct (PG p0 g0) as [[= -> ->]|N]; [|apply (FG _ _ N); auto]. cbn [md_step].
    unfold group_create_or_update. change (real_key p g key) with (render (KReal p g key)).
    change (group_seq_key p g) with (render sq).
    change (kget (render (KReal p g key)) s) with (kg (KReal p g key) s).
    destruct (kg (KReal p g key) s) as [v|] eqn:E.
    + destruct (go_id _ Hx (Real key) v E) as (n & Hn & _). destruct v as [| |[]]; try discriminate. cbn [read_group_values snd].
      split.
      * apply (GroupOk_same s (Real key) _ _ n Hx E Hn). exact Hn.
      * intros w u m Hk Hi. destruct w as [k|k].
        -- destruct (string_dec k key) as [->|Ne].
           ++ eexists. split; [apply kg_put_eq|]. cbn in *. rewrite E in Hk. injection Hk as <-. exact Hi.
           ++ exists u. split; [|exact Hi]. rewrite kg_put_ne; [exact Hk|reflexivity|reflexivity|cbn; congruence].
        -- exists u. split; [|exact Hi]. rewrite kg_put_ne; [exact Hk|reflexivity|reflexivity|discriminate].
    + destruct (next_group s Hx) as (n & En). rewrite En. cbn [snd]. split.
      * apply (GroupOk_new s (Real key) _ n); auto.
      * now apply (Put (Real key) _ n).
Qed.
Lemma md_run_group snake ops s : forallb wf_op ops = true -> forallb (no_merge p g) ops = true -> GroupOk s ->
  GroupOk (md_run snake ops s) /\ forall w v n, kg (wkey w) s = Some v -> wid w v = Some n ->
     exists v', kg (wkey w) (md_run snake ops s) = Some v' /\ wid w v' = Some n.
Proof.
  unfold md_run. revert s. induction ops as [|o r IH]; cbn [forallb fold_left]; intros s W K Hx; [eauto|].
  apply andb_prop in W, K. destruct W as [W1 W2], K as [K1 K2]. destruct (md_step_group snake o s W1 K1 Hx) as [A B].
  destruct (IH _ W2 K2 A) as [C D]. split; [exact C|]. intros w v n Hk Hi. destruct (B _ _ _ Hk Hi) as (v' & Hk' & Hi'). eauto.
Qed.
Lemma ask_cases w s : GroupOk s ->
  (exists v n, kg (wkey w) s = Some v /\ wid w v = Some n /\ ask p g w s = Ok n) \/
  (kg (wkey w) s = None /\ exists n, ask p g w s = Ok n /\ (forall w' v m, kg (wkey w') s = Some v -> wid w' v = Some m -> (m < n)%N)).
Proof.
  intro Hx.
  assert (Lt : forall n, next_seq (render sq) s = (Ok n, kput (render sq) (VNum n) s) ->
    forall w' v m, kg (wkey w') s = Some v -> wid w' v = Some m -> (m < n)%N).
  { intros n En w' v m Hk Hi. destruct (go_id _ Hx _ _ Hk) as (m' & Hm' & Hl). rewrite Hi in Hm'. injection Hm' as <-.
    unfold next_seq, next_from in En. fold (kg sq s) in En. destruct (kg sq s) as [[a| |]|]; try contradiction. cbn in En. injection En as <- _. lia. }
  destruct w as [k|k]; cbn [ask].
  - destruct (real_cases k [] s Hx) as [(gv & Hk & ->)|(Hn & n & En & ->)]; cbn [fst].
    + left. exists (VRec (RGroupValues gv)), (gv_id gv). auto.
    + right. split; [exact Hn|]. exists n. split; [reflexivity|]. now apply Lt.
  - destruct (anon_cases k s Hx) as [(n & Hk & ->)|(Hn & n & En & ->)]; cbn [fst].
    + left. exists (VNum n), n. auto.
    + right. split; [exact Hn|]. exists n. split; [reflexivity|]. now apply Lt.
Qed.
End Values.
Lemma GroupOk_nil p g : GroupOk p g [].
Proof. constructor; [discriminate|discriminate|exact Logic.I]. Qed.

(** Without merging visitors into users: the identifier of a value (or of an anonymous
    visitor) never changes, and no other value or visitor of the group has it. *)
Theorem C33_identifier_kept_partial :
  forall snake p g w before after,
    forallb wf_op before = true -> forallb wf_op after = true ->
    forallb (no_merge p g) before = true -> forallb (no_merge p g) after = true ->
    let s0 := md_run snake before [] in
    let s2 := md_run snake after (ask_store p g w s0) in
    exists n, ask p g w s0 = Ok n /\ ask p g w s2 = Ok n /\ forall w', w' <> w -> ask p g w' s2 <> Ok n.
Proof.
  intros snake p g w before after Wb Wa Kb Ka s0 s2.
  assert (G0 : GroupOk p g s0) by (apply md_run_group; auto using GroupOk_nil).
  assert (G1 : GroupOk p g (ask_store p g w s0)) by now apply GroupOk_ask.
  assert (V1 : exists n v, ask p g w s0 = Ok n /\ kg (wkey p g w) (ask_store p g w s0) = Some v /\ wid w v = Some n).
  { destruct w as [k|k]; cbn [ask ask_store].
    - destruct (real_cases p g k [] s0 G0) as [(gv & Hk & ->)|(Hn & n & En & ->)]; cbn [fst snd].
      + exists (gv_id gv), (VRec (RGroupValues gv)). auto.
      + exists n. eexists. split; [reflexivity|]. split; [apply (kg_put_eq (KReal p g k))|reflexivity].
    - destruct (anon_cases p g k s0 G0) as [(n & Hk & ->)|(Hn & n & En & ->)]; cbn [fst snd].
      + exists n, (VNum n). auto.
      + exists n. eexists. split; [reflexivity|]. split; [apply (kg_put_eq (KAnon p g k))|reflexivity]. }
  destruct V1 as (n & v & E0 & Hk1 & Hi1). exists n. split; [exact E0|].
  destruct (md_run_group p g snake after _ Wa Ka G1) as [G2 B]. fold s2 in G2, B.
  destruct (B _ _ _ Hk1 Hi1) as (v2 & Hk2 & Hi2).
  assert (E2 : ask p g w s2 = Ok n).
  { destruct (ask_cases p g w s2 G2) as [(v' & n' & Hk & Hi & ->)|(Hn & _)]; congruence. }
  split; [exact E2|]. intros w' Nw E'.
  destruct (ask_cases p g w' s2 G2) as [(v' & n' & Hk & Hi & E)|(Hn & n' & E & Lt)]; rewrite E in E'; injection E' as ->.
  - apply Nw. eapply (go_inj p g s2 G2); eauto.
  - specialize (Lt _ _ _ Hk2 Hi2). lia.
Qed.
Print Assumptions C33_identifier_kept_partial.
Example C33_identifier_kept_partial_witness :
  let before := [OGroupGet 1 0 "ann" []; OAnon 1 0 "x"; OGroupGet 1 1 "acme" []; OMerge 2 0 "y" "bob" []] in
  let s0 := md_run (fun x => x) before [] in
  let s2 := md_run (fun x => x) [OGroupSet 1 0 "bob" [(1, 5)%N]; OGroupGet 1 0 "cid" []] (ask_store 1 0 (Real "bob") s0) in
  forallb (no_merge 1 0) before = true /\ ask 1 0 (Real "bob") s0 = Ok 3%N /\ ask 1 0 (Real "bob") s2 = Ok 3%N /\
  ask 1 0 (Real "cid") s2 = Ok 4%N /\ ask 1 0 (Anon "x") s2 = Ok 2%N.
Proof. vm_compute. repeat split. Qed.

(** Merging a visitor into a user overwrites the group's sequence with text: unless the
    identifier has eight digits, every value not seen before then makes the program panic. *)
Theorem C33_merge_breaks_group_refuted :
  forall p g a u vals s gv k vals',
    kg (KReal p g u) s = None -> fst (merge_with_anonymous p g a u vals s) = Ok gv ->
    String.length (dec (gv_id gv)) <> 8%nat ->
    let s' := snd (merge_with_anonymous p g a u vals s) in
    kg (KReal p g k) s' = None -> group_get_or_create p g k vals' s' = (Err Panicked, s').
Proof.
  intros p g a u vals s gv k vals' Hu Hm Hd s' Hk. unfold group_get_or_create.
  change (real_key p g k) with (render (KReal p g k)). change (kget (render (KReal p g k)) s') with (kg (KReal p g k) s').
  rewrite Hk. change (group_seq_key p g) with (render (KGroupSeq p g)). unfold next_seq, next_from.
  change (kget (render (KGroupSeq p g)) s') with (kg (KGroupSeq p g) s').
  assert (E : kg (KGroupSeq p g) s' = Some (VText (dec (gv_id gv)))).
  { unfold s', merge_with_anonymous in *. change (real_key p g u) with (render (KReal p g u)) in *.
    change (kget (render (KReal p g u)) s) with (kg (KReal p g u) s) in *. rewrite Hu in *.
    destruct (anon_get_or_create p g a s) as [[aid|e] s1]; [|discriminate]. cbn [fst snd] in *. injection Hm as <-. cbn [gv_id].
    rewrite kg_put_ne; [apply (kg_put_eq (KGroupSeq p g))|reflexivity|reflexivity|discriminate]. }
  rewrite E. cbn [read_num]. apply Nat.eqb_neq in Hd. now rewrite Hd.
Qed.
Print Assumptions C33_merge_breaks_group_refuted.
(** Two users merged with one visitor get one identifier. *)
Theorem C33_merge_shares_identifier_refuted :
  forall p g a u1 u2 vals s g1, u1 <> u2 ->
    kg (KReal p g u1) s = None -> kg (KReal p g u2) s = None ->
    fst (merge_with_anonymous p g a u1 vals s) = Ok g1 ->
    exists g2, fst (merge_with_anonymous p g a u2 vals (snd (merge_with_anonymous p g a u1 vals s))) = Ok g2 /\ gv_id g2 = gv_id g1.
Proof.
  intros p g a u1 u2 vals s g1 N H1 H2 Hm. unfold merge_with_anonymous in *.
  change (real_key p g u1) with (render (KReal p g u1)) in *. change (real_key p g u2) with (render (KReal p g u2)) in *.
  change (kget (render (KReal p g u1)) s) with (kg (KReal p g u1) s) in *. rewrite H1 in *.
  destruct (anon_get_or_create p g a s) as [[aid|e] s1] eqn:Ea; [|discriminate]. cbn [fst snd] in *. injection Hm as <-. cbn [gv_id].
  set (s2 := kput (render (KReal p g u1)) _ _).
  change (kget (render (KReal p g u2)) s2) with (kg (KReal p g u2) s2).
  assert (Oa : only (fun k => k = KAnon p g a \/ k = KGroupSeq p g) s s1).
  { replace s1 with (snd (anon_get_or_create p g a s)) by now rewrite Ea. unfold anon_get_or_create.
    destruct (kget _ s) as [v|]; [destruct (read_num v); apply only_refl|].
    destruct (next_seq _ s) as [[i|] s3] eqn:En; [|apply only_refl]. cbn [snd].
    apply only_put; [exists (KAnon p g a); auto|]. eapply next_seq_only; [exact En|]. exists (KGroupSeq p g). auto. }
  assert (K2 : kg (KReal p g u2) s2 = None).
  { unfold s2. rewrite kg_put_ne; [|reflexivity|reflexivity|congruence].
    rewrite (kg_put_ne _ (KGroupSeq p g)); [|reflexivity|reflexivity|discriminate].
    rewrite (only_kg _ _ _ _ Oa); [exact H2|reflexivity|intros [?|?]; discriminate]. }
  rewrite K2.
  assert (Ka : exists v, kg (KAnon p g a) s2 = Some v /\ read_num v = Some aid).
  { unfold s2. rewrite kg_put_ne; [|reflexivity|reflexivity|discriminate].
    rewrite (kg_put_ne _ (KGroupSeq p g)); [|reflexivity|reflexivity|discriminate].
    unfold anon_get_or_create in Ea. change (anon_key p g a) with (render (KAnon p g a)) in Ea.
    change (kget (render (KAnon p g a)) s) with (kg (KAnon p g a) s) in Ea.
    destruct (kg (KAnon p g a) s) as [v|] eqn:Ev.
    - destruct (read_num v) as [n|] eqn:Er; [|discriminate]. injection Ea as -> <-. rewrite Ev. eauto.
    - destruct (next_seq _ s) as [[i|] s3]; [|discriminate]. injection Ea as -> <-. rewrite kg_put_eq. eexists. split; reflexivity. }
  destruct Ka as (v & Kv & Rv). unfold anon_get_or_create. change (anon_key p g a) with (render (KAnon p g a)).
  change (kget (render (KAnon p g a)) s2) with (kg (KAnon p g a) s2). rewrite Kv, Rv. eexists. split; reflexivity.
Qed.
Print Assumptions C33_merge_shares_identifier_refuted.
Example C33_merge_refuted_witness :
  let s := md_run (fun x => x) [OAnon 1 0 "x"] [] in
  kg (KReal 1 0 "ann") s = None /\ fst (merge_with_anonymous 1 0 "x" "ann" [] s) = Ok (mkGroupValues 1 []) /\
  String.length (dec 1) <> 8%nat.
Proof. cbn zeta. split; [reflexivity|]. split; [reflexivity|]. discriminate. Qed.

(** ** C34 *)
Section Types.
Variable p : N.
Notation sq := (KGroupsSeq p).
Record TypesOk (s : Store) : Prop := {
  ty_rec : forall n v, kg (KGroupName p n) s = Some v -> exists g, v = VRec (RGroup g) /\ gr_name g = n /\
     match kg sq s with Some (VNum m) => (gr_id g <= m)%N | _ => False end;
  ty_inj : forall n n' g g', kg (KGroupName p n) s = Some (VRec (RGroup g)) -> kg (KGroupName p n') s = Some (VRec (RGroup g')) ->
     gr_id g = gr_id g' -> n = n';
  ty_seq : match kg sq s with None => True | Some (VNum m) => (m < GROUPS_COUNT)%N | _ => False end
}.
Lemma TypesOk_frame (P : Key -> Prop) s s' : only P s s' -> (forall k, in_group_types p k -> ~ P k) -> TypesOk s -> TypesOk s'.
Proof.
  intros O D [H1 H2 H3].
  assert (Ew : forall n, kg (KGroupName p n) s' = kg (KGroupName p n) s) by (intro w; apply (only_kg P); [exact O|reflexivity|apply D; reflexivity]).
  assert (Es : kg sq s' = kg sq s) by (apply (only_kg P); [exact O|reflexivity|apply D; reflexivity]).
  constructor.
  - intros n v. rewrite Ew, Es. apply H1.
  - intros n n' g g'. rewrite !Ew. apply H2.
  - now rewrite Es.
Qed.
Lemma type_cases n s : TypesOk s ->
  (exists g, kg (KGroupName p n) s = Some (VRec (RGroup g)) /\ group_type_get_or_create p n s = (Ok g, s)) \/
  (kg (KGroupName p n) s = None /\ exists id, (forall n' g, kg (KGroupName p n') s = Some (VRec (RGroup g)) -> (gr_id g < id)%N) /\
     id = match kg sq s with Some (VNum m) => (m + 1)%N | _ => 0%N end /\
     group_type_get_or_create p n s =
       if N.leb GROUPS_COUNT id then (Err BadRequest, s)
       else (Ok (mkGroup id n), kput (render (KGroupName p n)) (VRec (RGroup (mkGroup id n))) (kput (render sq) (VNum id) s))).
Proof.
  intros [H1 H2 H3]. unfold group_type_get_or_create. change (group_name_key p n) with (render (KGroupName p n)).
  change (kget (render (KGroupName p n)) s) with (kg (KGroupName p n) s).
  change (make_id_seq_key (project_ns p "groups")) with (render sq).
  destruct (kg (KGroupName p n) s) as [v|] eqn:E.
  - left. destruct (H1 n v E) as (g & -> & _). eauto.
  - right. split; [reflexivity|]. unfold next_zero_seq, next_from. change (kget (render sq) s) with (kg sq s).
    destruct (kg sq s) as [[m| |]|] eqn:Es; try contradiction; cbn [read_num].
    + exists (m + 1)%N. split; [|split; [reflexivity|now destruct (N.leb _ _)]]. intros n' g Hk. destruct (H1 _ _ Hk) as (g' & [= <-] & _ & Hl). lia.
    + exists 0%N. split; [|split; [reflexivity|reflexivity]]. intros n' g Hk. destruct (H1 _ _ Hk) as (g' & _ & _ & []).
Qed.
Lemma md_step_types snake o s : wf_op o = true -> TypesOk s ->
  TypesOk (md_step snake o s) /\ forall n v, kg (KGroupName p n) s = Some v -> kg (KGroupName p n) (md_step snake o s) = Some v.
Proof.
  intros W Hx.
  assert (F : (forall k, in_group_types p k -> ~ touches o k) -> TypesOk (md_step snake o s) /\
     forall n v, kg (KGroupName p n) s = Some v -> kg (KGroupName p n) (md_step snake o s) = Some v).
  { intro D. split; [eapply TypesOk_frame; [apply md_frame, W|exact D|exact Hx]|].
    intros n v Hk. rewrite (only_kg (touches o) s); auto; [apply md_frame, W|]. apply D. reflexivity. }
  destruct o; try (apply F; intros k0 Hk Ht; try (match goal with kd : PropKind |- _ => destruct kd end);
        destruct k0; cbn in *; try tauto; unfold in_props, in_ns, in_rec, kind_ns in *; cbn in *;
        first [intuition congruence | destruct Ht as [Ht|(x & Ht)]; intuition congruence]).
  destruct (N.eq_dec p0 p) as [->|Np].
  2:{ apply F. intros k0 Hk Ht. destruct k0; cbn in *; try tauto; congruence. }
  clear F. cbn [md_step]. destruct (type_cases name s Hx) as [(g & _ & ->)|(Hn & id & Lt & Hid & ->)]; [auto|].
  destruct (N.leb_spec GROUPS_COUNT id) as [Hb|Hb]; [auto|]. cbn [snd]. destruct Hx as [H1 H2 H3].
  set (s2 := kput _ _ _).
  assert (Ks : kg sq s2 = Some (VNum id)).
  { unfold s2. rewrite kg_put_ne; [apply kg_put_eq|reflexivity|reflexivity|discriminate]. }
  assert (Ko : forall n, n <> name -> kg (KGroupName p n) s2 = kg (KGroupName p n) s).
  { intros n Ne. unfold s2. rewrite kg_put_ne; [|reflexivity|reflexivity|congruence]. apply kg_put_ne; [reflexivity|reflexivity|discriminate]. }
  assert (Kn : kg (KGroupName p name) s2 = Some (VRec (RGroup (mkGroup id name)))) by apply (kg_put_eq (KGroupName p name)).
  split; [constructor|].
  - intros n v Hk. rewrite Ks. destruct (string_dec n name) as [->|Ne].
    + rewrite Kn in Hk. injection Hk as <-. eexists. split; [reflexivity|]. cbn. split; [reflexivity|lia].
    + rewrite Ko in Hk by exact Ne. destruct (H1 _ _ Hk) as (g & -> & Hg & _). exists g. split; [reflexivity|]. split; [exact Hg|].
      specialize (Lt _ _ Hk). lia.
  - intros n n' g g' Hk Hk' E. destruct (string_dec n name) as [->|Ne], (string_dec n' name) as [->|Ne']; auto.
    + rewrite Kn in Hk. injection Hk as <-. rewrite Ko in Hk' by exact Ne'. specialize (Lt _ _ Hk'). cbn in E. lia.
    + rewrite Kn in Hk'. injection Hk' as <-. rewrite Ko in Hk by exact Ne. specialize (Lt _ _ Hk). cbn in E. lia.
    + rewrite Ko in Hk by exact Ne. rewrite Ko in Hk' by exact Ne'. eapply H2; eauto.
  - rewrite Ks. exact Hb.
  - intros n v Hk. rewrite Ko; [exact Hk|]. intros ->. congruence.
Qed.
Lemma md_run_types snake ops s : forallb wf_op ops = true -> TypesOk s ->
  TypesOk (md_run snake ops s) /\ forall n v, kg (KGroupName p n) s = Some v -> kg (KGroupName p n) (md_run snake ops s) = Some v.
Proof.
  unfold md_run. revert s. induction ops as [|o r IH]; cbn [forallb fold_left]; intros s W Hx; [auto|].
  apply andb_prop in W. destruct W as [W1 W2]. destruct (md_step_types snake o s W1 Hx) as [A B].
  destruct (IH _ W2 A) as [C D]. split; [exact C|]. intros n v Hk. auto.
Qed.
Lemma TypesOk_nil : TypesOk [].
Proof. constructor; [discriminate|discriminate|exact Logic.I]. Qed.
End Types.

(** The group type called [n] exists with id [id]. *)
Definition has_type (p : N) (n : string) (id : N) (s : Store) : Prop :=
  kget (group_name_key p n) s = Some (VRec (RGroup (mkGroup id n))).

(** Never more than five group types, ids below five and different; a type keeps its id. *)
Theorem C34_at_most_five_types :
  forall snake p ops, forallb wf_op ops = true ->
    let s := md_run snake ops [] in
    (forall l, NoDup l -> (forall n, In n l -> exists id, has_type p n id s) -> List.length l <= 5)%nat /\
    (forall n id, has_type p n id s -> (id < 5)%N) /\
    (forall n n' id, has_type p n id s -> has_type p n' id s -> n = n') /\
    (forall n id more, forallb wf_op more = true -> has_type p n id s ->
       has_type p n id (md_run snake more s) /\
       group_type_get_or_create p n (md_run snake more s) = (Ok (mkGroup id n), md_run snake more s)).
Proof.
  intros snake p ops W s. destruct (md_run_types p snake ops [] W (TypesOk_nil p)) as [Hx _]. fold s in Hx.
  assert (Lt : forall n id, has_type p n id s -> (id < 5)%N).
  { intros n id H. destruct (ty_rec p s Hx n _ H) as (g & [= <-] & _ & Hl). pose proof (ty_seq p s Hx) as Hs.
    destruct (kg (KGroupsSeq p) s) as [[m| |]|]; try contradiction. cbn in Hl. unfold GROUPS_COUNT in Hs. lia. }
  assert (Inj : forall n n' id, has_type p n id s -> has_type p n' id s -> n = n').
  { intros n n' id H H'. eapply (ty_inj p s Hx n n'); [exact H|exact H'|reflexivity]. }
  split; [|split; [exact Lt|split; [exact Inj|]]].
  - intros l Nd Hl.
    assert (E : exists ids, NoDup ids /\ Forall (fun i => In i [0; 1; 2; 3; 4]%N) ids /\ List.length ids = List.length l /\
       Forall (fun i => exists n, In n l /\ has_type p n i s) ids).
    { clear Hx. induction l as [|n l IH]; [exists []; repeat split; constructor|].
      inversion Nd as [|? ? Hni Nd']; subst. destruct IH as (ids & D & B & L & Fi); [exact Nd'|intros; apply Hl; now right|].
      destruct (Hl n (or_introl eq_refl)) as (id & Hid). exists (id :: ids). repeat split.
      - constructor; [|exact D]. intro Hi. rewrite Forall_forall in Fi. destruct (Fi id Hi) as (n' & Hn' & Ht).
        apply Hni. now rewrite (Inj n n' id Hid Ht).
      - constructor; [|exact B]. apply Lt in Hid. assert (id = 0 \/ id = 1 \/ id = 2 \/ id = 3 \/ id = 4)%N by lia. cbn. intuition.
      - cbn. now rewrite L.
      - constructor; [exists n; split; [now left|exact Hid]|]. eapply Forall_impl; [|exact Fi]. intros i (n' & Hn' & Ht). exists n'. split; [now right|exact Ht]. }
    destruct E as (ids & D & B & L & _). rewrite <- L. rewrite Forall_forall in B.
    pose proof (NoDup_incl_length D B) as H. cbn in H. exact H.
  - intros n id more Wm H. destruct (md_run_types p snake more s Wm Hx) as [Hx' K].
    assert (H' : has_type p n id (md_run snake more s)) by (apply (K n), H). split; [exact H'|].
    destruct (type_cases p n _ Hx') as [(g & Hk & ->)|(Hn & _)].
    + unfold has_type in H'. change (kget (group_name_key p n) (md_run snake more s)) with (kg (KGroupName p n) (md_run snake more s)) in H'.
      rewrite Hk in H'. now injection H' as ->.
    + unfold has_type in H'. change (kget (group_name_key p n) (md_run snake more s)) with (kg (KGroupName p n) (md_run snake more s)) in H'. congruence.
Qed.
Print Assumptions C34_at_most_five_types.
(** The ids of the kinds are all the numbers up to the largest. *)
Definition TypesFull (p : N) (s : Store) : Prop :=
  TypesOk p s /\ forall i, (match kg (KGroupsSeq p) s with Some (VNum m) => (i <= m)%N | _ => False end) -> exists x, has_type p x i s.
Lemma full_nil p : TypesFull p [].
Proof. split; [apply TypesOk_nil|]. intros i []. Qed.
Lemma full_step snake p o s0 : wf_op o = true -> TypesFull p s0 -> TypesFull p (md_step snake o s0).
Proof.
  intros Wo [T F]. destruct (md_step_types p snake o s0 Wo T) as [T' K]. split; [exact T'|].
      assert (Fr : (forall k, in_group_types p k -> ~ touches o k) -> kg (KGroupsSeq p) (md_step snake o s0) = kg (KGroupsSeq p) s0).
      { intro D. apply (only_kg (touches o)); [apply md_frame, Wo|reflexivity|apply D; reflexivity]. }
      assert (Same : kg (KGroupsSeq p) (md_step snake o s0) = kg (KGroupsSeq p) s0 ->
         forall i, match kg (KGroupsSeq p) (md_step snake o s0) with Some (VNum m) => (i <= m)%N | _ => False end -> exists x, has_type p x i (md_step snake o s0)).
      { intros E i Hi. rewrite E in Hi. destruct (F i Hi) as (x & Hx). exists x. apply (K x), Hx. }
      destruct o; try (apply Same, Fr; intros k0 Hk Ht; try (match goal with kd : PropKind |- _ => destruct kd end);
        destruct k0; cbn in *; try tauto; unfold in_props, in_ns, in_rec, kind_ns in *; cbn in *;
        first [intuition congruence | destruct Ht as [Ht|(x & Ht)]; intuition congruence]).
      destruct (N.eq_dec p0 p) as [->|Np].
      2:{ apply Same, Fr. intros k0 Hk Ht. destruct k0; cbn in *; try tauto; congruence. }
      cbn [md_step] in *. destruct (type_cases p name s0 T) as [(g & _ & E)|(Hno & id & Lt & Hid & E)].
      + rewrite E in *. cbn [snd] in *. now apply Same.
      + rewrite E in *. destruct (N.leb GROUPS_COUNT id); cbn [snd] in *; [now apply Same|].
        intros i Hi. rewrite kg_put_ne in Hi; [|reflexivity|reflexivity|discriminate]. rewrite kg_put_eq in Hi.
        destruct (N.eq_dec i id) as [->|Ne]; [exists name; apply (kg_put_eq (KGroupName p name))|].
        assert (Hlt : (i < id)%N) by lia. destruct (F i) as (x & Hx).
        * destruct (kg (KGroupsSeq p) s0) as [[m| |]|]; lia.
        * exists x. apply (K x), Hx.
Qed.
(** While five names cover the kinds there are and the kind asked for, it is got. *)
Lemma room p n kinds s : TypesFull p s -> (List.length kinds <= 5)%nat -> (forall x id, has_type p x id s -> In x kinds) -> In n kinds ->
  exists g s', group_type_get_or_create p n s = (Ok g, s') /\ (forall x id, has_type p x id s' -> In x kinds).
Proof.
  intros [T F] L K Hn. destruct (type_cases p n s T) as [(g & _ & E)|(Hno & id & _ & Hid & E)]; [exists g, s; auto|].
  assert (Hu : forall i, ~ has_type p n i s).
  { intros i Hi. unfold has_type in Hi. change (kget (group_name_key p n) s) with (kg (KGroupName p n) s) in Hi. congruence. }
  assert (Lt : N.leb GROUPS_COUNT id = false).
  { apply N.leb_gt. destruct (N.lt_ge_cases id GROUPS_COUNT) as [H|H]; [exact H|exfalso]. unfold GROUPS_COUNT in H.
    assert (F' : forall i, (i < id)%N -> exists x, has_type p x i s).
    { intros i Hi. apply F. destruct (kg (KGroupsSeq p) s) as [[m| |]|]; lia. }
    destruct (F' 0%N) as (x0 & H0); [lia|]. destruct (F' 1%N) as (x1 & H1); [lia|]. destruct (F' 2%N) as (x2 & H2); [lia|].
    destruct (F' 3%N) as (x3 & H3); [lia|]. destruct (F' 4%N) as (x4 & H4); [lia|].
    assert (U : forall x i j, has_type p x i s -> has_type p x j s -> i = j) by (unfold has_type; intros; congruence).
    assert (Nd : NoDup [n; x0; x1; x2; x3; x4]).
    { repeat constructor; cbn; intro Hin; repeat (destruct Hin as [Hin|Hin]; [subst; try (now apply (Hu _) in H0); try (now apply (Hu _) in H1); try (now apply (Hu _) in H2); try (now apply (Hu _) in H3); try (now apply (Hu _) in H4);
        match goal with A : has_type p ?x ?i s, B : has_type p ?x ?j s |- _ => discriminate (U x i j A B) end|]); exact Hin. }
    assert (In6 : incl [n; x0; x1; x2; x3; x4] kinds).
    { intros y Hy. cbn in Hy. repeat (destruct Hy as [<-|Hy]; [eauto|]). contradiction. }
    pose proof (NoDup_incl_length Nd In6) as Hl. cbn in Hl. lia. }
  rewrite Lt in E. rewrite E. eexists _, _. split; [reflexivity|]. intros x i Hx. destruct (string_dec x n) as [->|Ne]; [exact Hn|].
  apply (K x i). unfold has_type in *. change (kg (KGroupName p x) (kput (render (KGroupName p n)) (VRec (RGroup (mkGroup id n))) (kput (render (KGroupsSeq p)) (VNum id) s)) = Some (VRec (RGroup (mkGroup i x)))) in Hx.
  rewrite kg_put_ne in Hx; [|reflexivity|reflexivity|congruence]. rewrite kg_put_ne in Hx; [exact Hx|reflexivity|reflexivity|discriminate].
Qed.
(** Asking for a new type succeeds while there are fewer than five, giving the next free id,
    and is refused without any effect when there are five. *)
Theorem C34_sixth_type_refused :
  forall snake p ops l n, forallb wf_op ops = true ->
    let s := md_run snake ops [] in
    NoDup l -> (forall x, In x l <-> exists id, has_type p x id s) -> ~ In n l ->
    (List.length l = 5%nat -> group_type_get_or_create p n s = (Err BadRequest, s)) /\
    ((List.length l < 5)%nat -> exists id s', group_type_get_or_create p n s = (Ok (mkGroup id n), s') /\ has_type p n id s' /\
        id = N.of_nat (List.length l)).
Proof.
  intros snake p ops l n W s Nd Hl Hn.
  (* the ids in use are exactly 0 .. m *)
  assert (Hf : TypesFull p s) by (unfold s; apply (md_run_inv (TypesFull p)); [|exact W|apply full_nil]; intros o s0 Wo; now apply full_step).
  destruct Hf as [T F].
  destruct (C34_at_most_five_types snake p ops W) as (_ & L5 & Inj & _). fold s in L5, Inj.
  (* the number of types is m + 1 *)
  assert (Cnt : N.of_nat (List.length l) = match kg (KGroupsSeq p) s with Some (VNum m) => (m + 1)%N | _ => 0%N end).
  { assert (Ids : exists ids, NoDup ids /\ List.length ids = List.length l /\ forall i, In i ids <-> exists x, In x l /\ has_type p x i s).
    { assert (Hex : forall x, In x l -> exists id, has_type p x id s) by (intros; now apply Hl).
      clear Hl Hn. induction l as [|x l IH].
      - exists []. split; [constructor|]. split; [reflexivity|]. intro i. split; [contradiction|intros (x & [] & _)].
      - inversion Nd as [|? ? Hni Nd']; subst. destruct IH as (ids & D & L & B); [exact Nd'|intros; apply Hex; now right|].
        destruct (Hex x (or_introl eq_refl)) as (id & Hid). exists (id :: ids). split; [|split].
        + constructor; [|exact D]. intro Hi. apply B in Hi as (y & Hy & Ht). apply Hni. now rewrite (Inj x y id Hid Ht).
        + cbn. now rewrite L.
        + intro i. cbn. rewrite B. split.
          * intros [<-|(y & Hy & Ht)]; eauto.
          * intros (y & [<-|Hy] & Ht); [|right; eauto]. left. unfold has_type in *. congruence. }
    destruct Ids as (ids & D & L & B). rewrite <- L.
    assert (Dom : forall i, In i ids <-> match kg (KGroupsSeq p) s with Some (VNum m) => (i <= m)%N | _ => False end).
    { intro i. rewrite B. split.
      - intros (x & _ & Ht). destruct (ty_rec p s T x _ Ht) as (g & [= <-] & _ & Hle). exact Hle.
      - intro Hi. destruct (F i Hi) as (x & Hx). exists x. split; [apply Hl; eauto|exact Hx]. }
    destruct (kg (KGroupsSeq p) s) as [[m| |]|] eqn:Es.
    2,3,4: (destruct ids as [|i ids]; [reflexivity|exfalso; now apply (Dom i); left]).
    assert (P : List.length ids = S (N.to_nat m)).
    { apply Nat.le_antisymm.
      - rewrite <- (seq_length (S (N.to_nat m)) 0), <- (map_length N.of_nat). apply NoDup_incl_length; [exact D|].
        intros i Hi. apply Dom in Hi. apply in_map_iff. exists (N.to_nat i). split; [apply N2Nat.id|]. apply in_seq. lia.
      - rewrite <- (seq_length (S (N.to_nat m)) 0), <- (map_length N.of_nat). apply NoDup_incl_length.
        + apply FinFun.Injective_map_NoDup; [intros a b E; now apply Nat2N.inj|apply seq_NoDup].
        + intros i Hi. apply in_map_iff in Hi as (k & <- & Hk). apply in_seq in Hk. apply Dom. lia. }
    lia. }
  assert (Hno : kg (KGroupName p n) s = None).
  { destruct (kg (KGroupName p n) s) as [v|] eqn:E; [|reflexivity]. exfalso. apply Hn, Hl.
    destruct (ty_rec p s T n _ E) as ([id n'] & -> & Hg & _). cbn in Hg. subst n'. exists id. exact E. }
  destruct (type_cases p n s T) as [(g & Hk & _)|(_ & id & _ & Hid & E)]; [congruence|]. rewrite <- Hid in Cnt. rewrite E. split.
  - intro L. rewrite L in Cnt. cbn in Cnt. subst id. reflexivity.
  - intro L. destruct (N.leb_spec GROUPS_COUNT id) as [Hb|Hb]; [unfold GROUPS_COUNT in Hb; lia|].
    exists id. eexists. split; [reflexivity|]. split; [apply (kg_put_eq (KGroupName p n))|]. auto.
Qed.
Print Assumptions C34_sixth_type_refused.
Example C34_witness :
  let mk l := md_run (fun x => x) (map (OGroupType 1) l) [] in
  group_type_get_or_create 1 "f" (mk ["a"; "b"; "c"; "b"; "d"; "e"]) = (Err BadRequest, mk ["a"; "b"; "c"; "b"; "d"; "e"]) /\
  fst (group_type_get_or_create 1 "c" (mk ["a"; "b"; "c"; "b"; "d"; "e"])) = Ok (mkGroup 2 "c") /\
  fst (group_type_get_or_create 1 "f" (mk ["a"; "b"; "c"])) = Ok (mkGroup 3 "f").
Proof. vm_compute. repeat split. Qed.
