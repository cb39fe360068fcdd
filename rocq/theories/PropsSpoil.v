(** Property C130: a refused identify call does not spoil the record. *)
From Coq Require Import List NArith ZArith String Ascii Bool Lia.
From Verif Require Import AMap Kv KvKeys KvKeysFacts KvFacts Md MdOps MdFrame MdTyped MdIndex MdEntities MdProps PropsNames PropsGroups
  Ingest IngestFacts PropsIngest IngestServer PropsServer PropsLive.
Import ListNotations.
Local Open Scope string_scope.

(** ** Lists of values *)
Lemma position_some pid l i : position pid l = Some i -> exists w, nth_error l i = Some (pid, w).
Proof.
  revert i. induction l as [|[a w] r IH]; cbn; intro i; [discriminate|]. destruct (N.eqb_spec a pid) as [->|Ne]; [intros [= <-]; cbn; eauto|].
  destruct (position pid r) as [j|]; [|discriminate]. cbn. intros [= <-]. cbn. now apply IH.
Qed.
Lemma position_none pid l : position pid l = None -> forall w, ~ In (pid, w) l.
Proof.
  induction l as [|[a w] r IH]; cbn; [tauto|]. destruct (N.eqb_spec a pid); [discriminate|]. destruct (position pid r); [discriminate|].
  intros _ w' [[= ? _]|H]; [auto|]. now apply (IH eq_refl w').
Qed.
Lemma replace_eq {B} i (x : B) l : (i < List.length l)%nat -> nth_error (replace_at i x l) i = Some x.
Proof. revert i. induction l as [|y r IH]; intros [|i]; cbn; intro H; try lia; auto. apply IH. lia. Qed.
Lemma replace_ne {B} i j (x : B) l : i <> j -> nth_error (replace_at i x l) j = nth_error l j.
Proof. revert i j. induction l as [|y r IH]; intros [|i] [|j] H; cbn; auto; try congruence; try (apply IH; congruence). Qed.
Lemma replace_length {B} i (x : B) l : List.length (replace_at i x l) = List.length l.
Proof. revert i. induction l as [|y r IH]; intros [|i]; cbn; auto. Qed.
(** A value of a property that is stored stays stored or is replaced by a new value of the
    same property. *)
Lemma merge_keeps (P : N -> Prop) pid old new : (exists w, P w /\ In (pid, w) old) -> (forall w, In (pid, w) new -> P w) ->
  exists w, P w /\ In (pid, w) (merge_values old new).
Proof.
  intros (w0 & H0 & Hin) Hn. apply In_nth_error in Hin as (i & Hi). unfold merge_values.
  enough (G : forall vals, (List.length old <= List.length vals)%nat -> (exists w, P w /\ nth_error vals i = Some (pid, w)) ->
     exists w, P w /\ nth_error (fold_left (fun vals v => match position (fst v) old with Some i => replace_at i v vals | None => (vals ++ [v])%list end) new vals) i = Some (pid, w)).
  { destruct (G old (le_n _)) as (w & Hw & E); [eauto|]. exists w. split; [exact Hw|]. now apply nth_error_In in E. }
  induction new as [|[a b] r IH]; cbn [fold_left fst]; intros vals L (w & Hw & E); [eauto|].
  apply IH; [intros; apply Hn; now right| |].
  - destruct (position a old); [now rewrite replace_length|rewrite app_length; cbn; lia].
  - destruct (position a old) as [j|] eqn:Ej.
    + apply position_some in Ej as (w' & Ej). destruct (Nat.eq_dec j i) as [->|Ne]; [|rewrite replace_ne; eauto].
      rewrite Hi in Ej. injection Ej as -> ->. exists b. split; [apply Hn; now left|]. apply replace_eq.
      apply nth_error_Some. congruence.
    + exists w. split; [exact Hw|]. rewrite nth_error_app1; [exact E|]. apply nth_error_Some. congruence.
Qed.
Lemma merge_takes old v : In v (merge_values old [v]).
Proof.
  unfold merge_values. cbn [fold_left]. destruct (position (fst v) old) as [i|] eqn:E; [|apply in_or_app; right; now left].
  apply position_some in E as (w & E). eapply nth_error_In, replace_eq. apply nth_error_Some. congruence.
Qed.

(** A stored property stays stored when another is created. *)
Lemma data_kept_create snake p kd n d t sys id v s : PropsOk p kd s -> kg (KData (kind_ns p kd) id) s = Some v ->
  kg (KData (kind_ns p kd) id) (snd (prop_create snake p kd n d t sys s)) = Some v.
Proof.
  intros Hx Hd. unfold prop_create. destruct (check_insert _ _); [|exact Hd]. rewrite prop_ns_kind.
  change (make_id_seq_key (ns_str (kind_ns p kd))) with (render (KSeq (kind_ns p kd))).
  destruct (next_seq _ s) as [r1 s1] eqn:E1. destruct (next_seq_indexed _ _ _ _ _ Hx E1) as (i & -> & _ & -> & Hno & _).
  destruct (next_zero_seq _ _) as [[o|] s2] eqn:E2; [|exact Hd]. cbv zeta. destruct (negb _); [exact Hd|]. cbn [snd].
  apply (next_zero_only (fun k => exists x, k = KOrderSeq p x)) in E2; [|apply hits_order; eauto].
  rewrite insert_index_snoc. change (make_index_key _ _ _) with (render (KGlobalCol p (column_name snake (mkProperty i kd n d o t sys)))).
  assert (W : wf_key (KData (kind_ns p kd) id) = true) by now destruct kd.
  rewrite kg_put_ne; [|exact W|reflexivity|discriminate]. rewrite prop_okeys, kg_insert_out; [|exact W|intros; discriminate].
  change (make_data_value_key (ns_str (kind_ns p kd)) i) with (render (KData (kind_ns p kd) i)).
  rewrite kg_put_ne; [|exact W|now destruct kd|congruence].
  rewrite (only_kg _ _ _ _ E2); [|exact W|intros (x & [=])]. rewrite kg_put_ne; [exact Hd|exact W|now destruct kd|discriminate].
Qed.
Lemma data_kept snake p kd n d t sys id v s : PropsOk p kd s -> kg (KData (kind_ns p kd) id) s = Some v ->
  kg (KData (kind_ns p kd) id) (snd (prop_get_or_create snake p kd n d t sys s)) = Some v.
Proof.
  intros Hx Hd. unfold prop_get_or_create. destruct (prop_by_name p kd n s) as [|[]]; try exact Hd. now apply data_kept_create.
Qed.

Ltac off1 X := first [discriminate X|contradiction|congruence|destruct X as [X|X]; off1 X|match type of X with _ = _ => fail 1 | _ => let y := fresh in destruct X as [y X]; off1 X end].
Ltac off := cbn; unfold in_props, kind_ns; cbn; let X := fresh in intro X; off1 X.

Section Spoil.
Variable snake : string -> string.
Variable isdict : Property -> bool.
Variables (enc : SVal -> N) (dcv : N -> SVal).
Hypothesis snake_ok : forall x, no_slash x = true -> no_slash (snake x) = true.
(** Values of group records are kept whole. *)
Hypothesis dcv_enc : forall x, dcv (enc (SInt TInt64 x)) = SInt TInt64 x.
Variables (p : N) (grp : Group) (gname key : string) (pr : Property).
Hypothesis time_prop : pp_type pr = PBase TTimestamp.
Hypothesis plain_prop : isdict pr = false.
Notation gn := (gr_id grp).
Notation pid := (pp_id pr).
Notation pkey := (KData (kind_ns p (KGroup gn)) pid).

Definition bad (gv : GroupValues) : Prop := exists w, (exists x, w = enc (SInt TInt64 x)) /\ In (pid, w) (gv_values gv).
Record Spoiled (s : Store) : Prop := {
  sp_props : PropsOk p (KGroup gn) s;
  sp_prop : kg pkey s = Some (VRec (RProperty pr));
  sp_name : kg (KGroupName p gname) s = Some (VRec (RGroup grp));
  sp_val : exists gv, kg (KReal p gn key) s = Some (VRec (RGroupValues gv)) /\ bad gv }.
(** A metadata call that neither sets the values of the record nor changes or deletes a
    property of its kind of groups. *)
Definition mild (o : MdOp) : Prop :=
  wf_op o = true /\
  match o with
  | OGroupSet q h k _ => ~ (q = p /\ h = gn /\ k = key)
  | OPropUpdate q kd _ _ _ _ | OPropDelete q kd _ => ~ (q = p /\ kd = KGroup gn)
  | _ => True
  end.
Lemma real_kept q h k (s s' : Store) : (forall x, wf_key x = true -> ~ (x = KReal q h k \/ x = KGroupSeq q h \/ exists a, x = KAnon q h a) -> kg x s' = kg x s) ->
  ~ (q = p /\ h = gn /\ k = key) -> kg (KReal p gn key) s' = kg (KReal p gn key) s.
Proof. intros H Ne. apply H; [reflexivity|]. intros [[= E1 E2 E3]|[[=]|(a & [=])]]. apply Ne. auto. Qed.
Lemma real_now q h k (s s' : Store) gv : kg (KReal p gn key) s = Some (VRec (RGroupValues gv)) ->
  (forall v, kg (KReal q h k) s = Some v -> s' = s) ->
  (forall x, wf_key x = true -> ~ (x = KReal q h k \/ x = KGroupSeq q h \/ exists a, x = KAnon q h a) -> kg x s' = kg x s) ->
  kg (KReal p gn key) s' = kg (KReal p gn key) s.
Proof.
  intros E Hs Ho.
  destruct (N.eq_dec q p) as [->|]; [|apply (real_kept q h k); [exact Ho|intuition congruence]].
  destruct (N.eq_dec h gn) as [->|]; [|apply (real_kept p h k); [exact Ho|intuition congruence]].
  destruct (string_dec k key) as [->|]; [|apply (real_kept p gn k); [exact Ho|intuition congruence]].
  now rewrite (Hs _ E).
Qed.
Lemma seq_other q h k (s s1 : Store) r v : next_seq (group_seq_key q h) s = (r, s1) ->
  forall x, wf_key x = true -> ~ (x = KReal q h k \/ x = KGroupSeq q h \/ exists a, x = KAnon q h a) -> kg x (kput (real_key q h k) v s1) = kg x s.
Proof.
  intros E x W Ne. change (real_key q h k) with (render (KReal q h k)). rewrite kg_put_ne; [|exact W|reflexivity|intros ->; now auto].
  apply (next_seq_only (fun y => y = KGroupSeq q h)) in E; [|exists (KGroupSeq q h); auto]. apply (only_kg _ _ _ _ E); [exact W|intros ->; auto].
Qed.
Lemma get_other q h k vals (s : Store) :
  (forall v, kg (KReal q h k) s = Some v -> snd (group_get_or_create q h k vals s) = s) /\
  (forall x, wf_key x = true -> ~ (x = KReal q h k \/ x = KGroupSeq q h \/ exists a, x = KAnon q h a) -> kg x (snd (group_get_or_create q h k vals s)) = kg x s).
Proof.
  unfold group_get_or_create. change (kget (real_key q h k) s) with (kg (KReal q h k) s). destruct (kg (KReal q h k) s); [split; reflexivity|].
  split; [discriminate|]. destruct (next_seq _ s) as [[i|] s1] eqn:E; [|reflexivity]. cbn [snd]. now apply (seq_other q h k s s1 (Ok i)).
Qed.
Lemma anon_other q h a (s : Store) :
  forall x, wf_key x = true -> ~ (x = KGroupSeq q h \/ x = KAnon q h a) -> kg x (snd (anon_get_or_create q h a s)) = kg x s.
Proof.
  unfold anon_get_or_create. destruct (kget _ s) as [v|]; [destruct (read_num v); reflexivity|].
  destruct (next_seq _ s) as [[i|] s1] eqn:E; [|reflexivity]. cbn [snd]. intros x W Ne.
  change (anon_key q h a) with (render (KAnon q h a)). rewrite kg_put_ne; [|exact W|reflexivity|intros ->; now auto].
  apply (next_seq_only (fun y => y = KGroupSeq q h)) in E; [|exists (KGroupSeq q h); auto]. apply (only_kg _ _ _ _ E); [exact W|intros ->; auto].
Qed.
Lemma merge_other q h a k vals (s : Store) :
  (forall v, kg (KReal q h k) s = Some v -> snd (merge_with_anonymous q h a k vals s) = s) /\
  (forall x, wf_key x = true -> ~ (x = KReal q h k \/ x = KGroupSeq q h \/ exists a, x = KAnon q h a) -> kg x (snd (merge_with_anonymous q h a k vals s)) = kg x s).
Proof.
  unfold merge_with_anonymous. change (kget (real_key q h k) s) with (kg (KReal q h k) s). destruct (kg (KReal q h k) s); [split; reflexivity|].
  split; [discriminate|]. pose proof (anon_other q h a s) as O. destruct (anon_get_or_create q h a s) as [[i|] s1]; cbn [snd] in *; intros x W Ne.
  - change (real_key q h k) with (render (KReal q h k)). rewrite kg_put_ne; [|exact W|reflexivity|intros ->; now auto].
    change (group_seq_key q h) with (render (KGroupSeq q h)). rewrite kg_put_ne; [|exact W|reflexivity|intros ->; now auto].
    apply O; [exact W|]. intros [-> | ->]; apply Ne; eauto.
  - apply O; [exact W|]. intros [-> | ->]; apply Ne; eauto.
Qed.
Lemma set_other q h k vals (s : Store) :
  forall x, wf_key x = true -> ~ (x = KReal q h k \/ x = KGroupSeq q h \/ exists a, x = KAnon q h a) -> kg x (snd (group_create_or_update q h k vals s)) = kg x s.
Proof.
  unfold group_create_or_update. change (kget (real_key q h k) s) with (kg (KReal q h k) s). destruct (kg (KReal q h k) s) as [v|].
  - destruct (read_group_values v); [|reflexivity]. cbn [snd]. intros x W Ne. change (real_key q h k) with (render (KReal q h k)).
    apply kg_put_ne; [exact W|reflexivity|intros ->; now auto].
  - destruct (next_seq _ s) as [[i|] s1] eqn:E; [|reflexivity]. cbn [snd]. now apply (seq_other q h k s s1 (Ok i)).
Qed.
Lemma type_other q n (s : Store) : forall x, wf_key x = true -> ~ (x = KGroupsSeq q \/ x = KGroupName q n) -> kg x (snd (group_type_get_or_create q n s)) = kg x s.
Proof.
  unfold group_type_get_or_create. destruct (kget (group_name_key q n) s) as [[| |[]]|]; try reflexivity.
  destruct (next_zero_seq _ s) as [[i|] s1] eqn:E; [|reflexivity]. destruct (N.leb GROUPS_COUNT i); [reflexivity|]. cbn [snd]. intros x W Ne.
  change (group_name_key q n) with (render (KGroupName q n)). rewrite kg_put_ne; [|exact W|reflexivity|intros ->; now auto].
  apply (next_zero_only (fun y => y = KGroupsSeq q)) in E; [|exists (KGroupsSeq q); auto]. apply (only_kg _ _ _ _ E); [exact W|intros ->; auto].
Qed.
Lemma spoiled_step o s : mild o -> Spoiled s -> Spoiled (md_step snake o s).
Proof.
  intros [W Hm] [Sp Sd Sn (gv & Sv & B)]. pose proof (md_frame snake o s W) as F.
  constructor.
  - now apply md_step_props.
  - destruct o; try (rewrite (only_kg _ _ _ _ F); [exact Sd|reflexivity|off]).
    1,2: destruct (kind_dec p0 p k (KGroup gn)) as [[-> ->]|Ne];
      [cbn [md_step]; first [now apply data_kept_create|now apply data_kept]|rewrite (only_kg _ _ _ _ F); [exact Sd|reflexivity|]];
      intros [X|[]]; cbn in X; apply Ne; destruct k; injection X; intros; subst; split; congruence.
    1,2: rewrite (only_kg _ _ _ _ F); [exact Sd|reflexivity|]; intro X; cbn in X; apply Hm; destruct k; injection X; intros; subst; split; congruence.
  - destruct o; try (rewrite (only_kg _ _ _ _ F); [exact Sn|reflexivity|off]).
    destruct (N.eq_dec p0 p) as [->|Np]; [|rewrite (only_kg _ _ _ _ F); [exact Sn|reflexivity|cbn; congruence]].
    cbn [md_step]. destruct (string_dec name gname) as [->|Ne].
    + unfold group_type_get_or_create. change (kget (group_name_key p gname) s) with (kg (KGroupName p gname) s). now rewrite Sn.
    + rewrite type_other; [exact Sn|reflexivity|intros [[=]|[= ?]]; auto].
  - exists gv. split; [|exact B]. rewrite <- Sv. destruct o; try (apply (only_kg _ _ _ _ F); [reflexivity|off]); cbn [md_step].
    + apply anon_other; [reflexivity|]. intros [[=]|[=]].
    + match goal with |- context [merge_with_anonymous ?a ?b ?c ?d ?e s] => destruct (merge_other a b c d e s) end. eapply real_now; eauto.
    + match goal with |- context [group_get_or_create ?a ?b ?c ?d s] => destruct (get_other a b c d s) end. eapply real_now; eauto.
    + match goal with |- context [group_create_or_update ?a ?b ?c ?d s] => apply (real_kept a b c); [apply set_other|exact Hm] end.
Qed.
Lemma spoiled_run ops s : Forall mild ops -> Spoiled s -> Spoiled (md_run snake ops s).
Proof. unfold md_run. intro F. revert s. induction F as [|o r Ho F IH]; cbn [fold_left]; intros s G; [exact G|]. apply IH. now apply spoiled_step. Qed.

(** ** What calls find while the record is spoiled *)
Definition keeps {A} (m : M A) (Q : A -> Prop) : Prop :=
  forall s, Spoiled (st_md s) -> Spoiled (st_md (snd (m s))) /\ forall x, fst (m s) = Ok x -> Q x.
Lemma keeps_weaken {A} (m : M A) (P Q : A -> Prop) : (forall x, P x -> Q x) -> keeps m P -> keeps m Q.
Proof. intros H K s Sp. destruct (K s Sp) as [K1 K2]. auto. Qed.
Lemma keeps_ret {A} (x : A) (Q : A -> Prop) : Q x -> keeps (ret x) Q.
Proof. intros H s Sp. split; [exact Sp|]. cbn. now intros y [= <-]. Qed.
Lemma keeps_fail {A} e (Q : A -> Prop) : keeps (fail e) Q.
Proof. intros s Sp. split; [exact Sp|discriminate]. Qed.
Lemma keeps_bind {A B} (m : M A) (f : A -> M B) P Q : keeps m P -> (forall x, P x -> keeps (f x) Q) -> keeps (bind m f) Q.
Proof.
  intros Hm Hf s Sp. unfold bind. destruct (Hm s Sp) as [K1 K2]. destruct (m s) as [[x|e] s1]; cbn [fst snd] in *; [|split; [exact K1|discriminate]].
  apply (Hf x); auto.
Qed.
Lemma keeps_does {A} (m : M A) : does snake mild m -> keeps m (fun _ => True).
Proof. intros D s Sp. split; [|auto]. destruct (D s) as (ops & -> & F). now apply spoiled_run. Qed.
Lemma keeps_each {A B} (f : A -> M B) (Q : A -> B -> Prop) l : (forall x, keeps (f x) (Q x)) -> keeps (each f l) (Forall2 Q l).
Proof.
  intro Hf. induction l as [|x r IH]; cbn [each]; [apply keeps_ret; constructor|].
  eapply keeps_bind; [apply Hf|]. intros y Hy. eapply keeps_bind; [exact IH|]. intros ys Hys. apply keeps_ret. now constructor.
Qed.
Lemma keeps_op {A} o (f : Store -> Res A * Store) (Q : A -> Prop) : mild o -> (forall m, snd (f m) = md_step snake o m) ->
  (forall m, Spoiled m -> forall x, fst (f m) = Ok x -> Q x) -> keeps (on_md f) Q.
Proof.
  intros Hm Hs Hq s Sp. specialize (Hs (st_md s)). specialize (Hq _ Sp). unfold on_md. destruct (f (st_md s)) as [y m]. cbn in *. subst m.
  split; [now apply spoiled_step|exact Hq].
Qed.
Lemma keeps_type q n : keeps (on_md (group_type_get_or_create q n)) (fun x => q = p -> n = gname -> gr_id x = gn).
Proof.
  apply (keeps_op (OGroupType q n)); [now split|reflexivity|]. intros m Sp x E -> ->. revert E. unfold group_type_get_or_create.
  change (kget (group_name_key p gname) m) with (kg (KGroupName p gname) m). rewrite (sp_name _ Sp). now intros [= <-].
Qed.
Lemma keeps_get q h k vals : keeps (on_md (group_get_or_create q h k vals)) (fun x => q = p -> h = gn -> k = key -> bad x).
Proof.
  apply (keeps_op (OGroupGet q h k vals)); [now split|reflexivity|]. intros m Sp x E -> -> ->. revert E. unfold group_get_or_create.
  change (kget (real_key p gn key) m) with (kg (KReal p gn key) m). destruct (sp_val _ Sp) as (gv & -> & B). now intros [= <-].
Qed.
Lemma mild_dict q t d i v : no_slash t && no_slash d = true -> mild (ODictCreateKey q t d i v).
Proof. intro W. now split. Qed.
Lemma keeps_who q r : keeps (who q r) (fun w => q = p -> gn = 0%N -> tr_user r = Some key -> tr_anon r = None -> exists u, snd w = Some u /\ bad u).
Proof.
  unfold who, GROUP_USER_ID. destruct (tr_user r) as [u|], (tr_anon r) as [a|]; [| | |apply keeps_fail].
  - eapply keeps_bind; [apply keeps_does; now apply does_op with (OMerge q 0 u a [])|]. intros x _. apply keeps_ret. discriminate.
  - eapply keeps_bind; [apply keeps_get|]. intros x Hx.
    eapply keeps_bind; [apply keeps_does; now apply does_op with (ODictCreateKey q TABLE_EVENTS (group_col 0) (gv_id x) u)|]. intros _ _.
    apply keeps_ret. cbn. intros Eq Eg [= ->] _. exists x. auto.
  - eapply keeps_bind; [apply keeps_does; now apply does_op with (OAnon q 0 a)|]. intros x _.
    eapply keeps_bind; [apply keeps_does; now apply does_op with (ODictCreateKey q TABLE_EVENTS (group_col 0) x a)|]. intros _ _.
    apply keeps_ret. discriminate.
Qed.
Lemma keeps_track_group q x : keeps (track_group q x) (fun y => q = p -> x = (gname, key) -> fst y = gn /\ bad (snd y)).
Proof.
  unfold track_group. eapply keeps_bind; [apply keeps_type|]. intros y Hy. eapply keeps_bind; [apply keeps_get|]. intros v Hv.
  eapply keeps_bind.
  { apply keeps_does. apply does_op with (ODictCreateKey q TABLE_EVENTS (group_col (gr_id y)) (gv_id v) (snd x)); [|reflexivity].
    apply mild_dict. now rewrite group_col_no_slash. }
  intros _ _. apply keeps_ret. intros -> ->. cbn. auto.
Qed.
(** One of the records the event is given is the spoiled one. *)
Definition names_bad (gs : option (list (N * GroupValues))) : Prop := exists l v, gs = Some l /\ In (gn, v) l /\ bad v.
Lemma Forall2_in_l {A B} (R : A -> B -> Prop) l l' x : Forall2 R l l' -> In x l -> exists y, In y l' /\ R x y.
Proof.
  induction 1 as [|a b l l' H F IH]; cbn; [tauto|]. intros [->|Hx]; [eauto|]. destruct (IH Hx) as (y & Hy & Ry). eauto.
Qed.
Lemma keeps_track_groups q user r : keeps (track_groups q user r) (fun gs => q = p -> forall l, tr_groups r = Some l ->
  In (gname, key) l \/ (gn = 0%N /\ exists u, user = Some u /\ bad u) -> names_bad gs).
Proof.
  unfold track_groups. destruct (tr_groups r) as [l|]; [|apply keeps_ret; discriminate].
  eapply keeps_bind; [apply keeps_each; intro; apply keeps_track_group|]. intros gs F. apply keeps_ret. intros Eq l' [= <-] H. eexists.
  destruct H as [H|(E0 & u & -> & B)].
  - destruct (Forall2_in_l _ _ _ _ F H) as ([h v] & Hy & Ry). destruct (Ry Eq eq_refl) as [Eh B]. cbn in Eh, B. subst h. exists v. split; [reflexivity|].
    split; [destruct user; [now right|exact Hy]|exact B].
  - exists u. split; [reflexivity|]. split; [left; now rewrite E0|exact B].
Qed.
Definition misfits (n : Named) : Prop := btype_eqb (sval_type (nv_val n)) (nv_type n) = false.
Definition stored_fact (q h : N) (x : N * N) (n : Named) : Prop :=
  q = p -> h = gn -> fst x = pid -> (exists z, snd x = enc (SInt TInt64 z)) -> misfits n.
Lemma keeps_stored q h x : keeps (named_stored snake isdict dcv q h x) (stored_fact q h x).
Proof.
  intros s Sp. unfold named_stored, bind, look. destruct (prop_by_id q (KGroup h) (fst x) (st_md s)) as [y|e] eqn:E; [|split; [exact Sp|discriminate]].
  split; [exact Sp|]. cbn [ret fst]. intros n [= <-] -> -> E1 (z & E2). rewrite E1 in E. apply prop_by_id_spec in E. rewrite (sp_prop _ Sp) in E. injection E as <-.
  unfold misfits, column_type. cbn. now rewrite plain_prop, time_prop, E2, dcv_enc.
Qed.
Lemma bad_misfits q h gv (ns : list Named) :
  Forall2 (stored_fact q h) (gv_values gv) ns ->
  q = p -> h = gn -> bad gv -> exists n, In n ns /\ misfits n.
Proof.
  intros F Eq Eh (w & (z & Ez) & Hin). destruct (Forall2_in_l _ _ _ _ F Hin) as (n & Hn & R). exists n. split; [exact Hn|]. apply R; auto. now exists z.
Qed.
Lemma misfits_refused vs : (exists n, In n vs /\ misfits n) -> types_ok vs = false.
Proof.
  intros (n & Hn & Hm). unfold types_ok. apply not_true_is_false. intro H. rewrite forallb_forall in H. specialize (H n Hn). unfold misfits in Hm. congruence.
Qed.
Lemma keeps_insert_event vs : keeps (insert_event vs) (fun _ => types_ok vs = true).
Proof. intros s Sp. unfold insert_event. destruct (types_ok vs); split; try exact Sp; [auto|discriminate]. Qed.
Lemma keeps_insert_group h vs : keeps (insert_group h vs) (fun _ => types_ok vs = true).
Proof. intros s Sp. unfold insert_group. destruct (types_ok vs); split; try exact Sp; [auto|discriminate]. Qed.
Lemma keeps_send now q u e gs props r : keeps (send snake isdict dcv now q u e gs props r) (fun _ => ~ (q = p /\ names_bad gs)).
Proof.
  assert (Dn : forall x, does snake mild (named_property snake isdict q x)).
  { intro x. apply does_weaken with (send_op q); [|now apply does_named]. intros o [Wo H]. split; [exact Wo|]. destruct o; auto; contradiction. }
  assert (Dr : does snake mild (on_md (event_next_record q))) by now apply does_op with (OEventRecord q).
  unfold send. eapply keeps_bind; [apply keeps_does; now apply does_op with (OSession q u now)|]. intros new _.
  eapply keeps_bind; [apply keeps_does, does_each; exact Dn|]. intros pv _.
  eapply keeps_bind; [apply keeps_each; intro x; apply (keeps_each _ (stored_fact q (fst x)) (gv_values (snd x))); intro y; apply keeps_stored|]. intros gv F.
  eapply keeps_bind; [apply keeps_does, does_each; intro; apply does_bind; [apply does_by_name|exact Dn]|]. intros utm _. cbv zeta.
  eapply keeps_bind.
  { apply keeps_does. destruct new; [|apply does_ret]. apply does_bind; [exact Dr|intro]. apply does_bind; [apply does_look|intro]. apply does_insert_event. }
  intros _ _. eapply keeps_bind; [apply keeps_does, Dr|]. intros n _. eapply keeps_weaken; [|apply keeps_insert_event]. intros ? T [Eq (l & v & -> & Hin & B)].
  destruct (Forall2_in_l _ _ _ _ F Hin) as (ns & Hns & R). cbn [fst snd] in R. destruct (bad_misfits q gn v ns R Eq eq_refl B) as (m & Hm & Mm).
  rewrite misfits_refused in T; [discriminate|]. exists m. split; [|exact Mm]. apply in_or_app; right. apply in_or_app; right. apply in_or_app; right.
  apply in_concat. eauto.
Qed.
(** The event names the spoiled record: as one of its groups, or as its user while any
    groups are given. *)
Definition about (r : Track) : Prop :=
  exists l, tr_groups r = Some l /\ (In (gname, key) l \/ gn = 0%N /\ tr_user r = Some key /\ tr_anon r = None).
Lemma keeps_track_in now r q : keeps (
  props <- match tr_props r with
           | None => ret None
           | Some l => x <- resolve_properties snake q KEvent l ;; ret (Some x)
           end ;;
  w <- who q r ;;
  gs <- track_groups q (snd w) r ;;
  let resolved := match props with Some l => l | None => [] end in
  let ids := map (fun x => pp_id (fst x)) resolved in
  e <- on_md (event_get_or_create q (tr_event r) None ids) ;;
  _ <- match props with Some _ => on_md (event_attach q (ev_id e) ids) | None => ret tt end ;;
  extra <- each (named_by_name q) (tr_agent r) ;;
  _ <- send snake isdict dcv now q (fst w) (ev_id e) gs (resolved ++ extra)%list r ;;
  on_md (project_count_event q)) (fun _ => ~ (q = p /\ about r)).
Proof.
  eapply keeps_bind.
  { apply keeps_does. destruct (tr_props r); [|apply does_ret]. apply does_bind; [apply does_resolve; now split|intro; apply does_ret]. }
  intros props _. eapply keeps_bind; [apply keeps_who|]. intros w Hw. eapply keeps_bind; [apply keeps_track_groups|]. intros gs Hg. cbv zeta.
  set (ids := map _ _).
  eapply keeps_bind; [apply keeps_does; now apply does_op with (OEventGetOrCreate q (tr_event r) None ids)|]. intros e _.
  eapply keeps_bind; [apply keeps_does; destruct props; [now apply does_op with (OEventAttach q (ev_id e) ids)|apply does_ret]|]. intros _ _.
  eapply keeps_bind; [apply keeps_does, does_each; intro; apply does_by_name|]. intros extra _.
  eapply keeps_bind; [apply keeps_send|]. intros ? Hs. eapply keeps_weaken; [|apply keeps_does; now apply does_op with (OProjectCount q)].
  intros _ _ [Eq (l & El & H)]. apply Hs. split; [exact Eq|]. apply (Hg Eq l El). destruct H as [H|(E0 & Eu & Ea)]; [now left|right]. auto.
Qed.
Lemma keeps_resolve q k x : keeps (resolve_property snake q k x) (fun y => q = p -> k = KGroup gn -> pp_id (fst y) = pid -> fst y = pr).
Proof.
  unfold resolve_property. eapply keeps_bind; [|intros y Hy; apply keeps_ret; exact Hy].
  set (o := OPropGetOrCreate q k (fst x) None (data_type (snd x)) false).
  apply (keeps_op o); [now split|reflexivity|]. intros m Sp y E -> -> Ey.
  pose proof (spoiled_step o m (conj eq_refl Logic.I) Sp) as Sp'. unfold o in Sp'. cbn [md_step] in Sp'.
  destruct (prop_get_or_create snake p (KGroup gn) (fst x) None (data_type (snd x)) false m) as [z m'] eqn:Ez. cbn [fst snd] in *. subst z.
  destruct (prop_get_or_create_spec snake p (KGroup gn) _ _ _ _ m y m' (sp_props _ Sp) Ez) as (H & _).
  apply prop_by_id_spec in H. rewrite Ey, (sp_prop _ Sp') in H. congruence.
Qed.
Lemma keeps_value q t x : no_slash t = true -> keeps (property_to_value snake isdict q t x) (fun v => fst x = pr -> exists z, v = SInt TInt64 z).
Proof.
  intro Wt.
  assert (K : keeps (property_to_value snake isdict q t x) (fun _ => True)).
  { apply keeps_does, does_value; [exact snake_ok|]. intros d v Hd. split; [cbn [wf_op]; now rewrite Wt, Hd|exact Logic.I]. }
  intros s Sp. destruct (K s Sp) as [K1 _]. split; [exact K1|]. intros v Hv Ex. revert Hv. destruct x as [y w]. cbn in Ex. subst y.
  unfold property_to_value. rewrite plain_prop, time_prop. destruct w; cbn; intros [= <-]. eauto.
Qed.
Lemma keeps_set q h k vals : (q = p -> h = gn -> forall w, In (pid, w) vals -> exists x, w = enc (SInt TInt64 x)) ->
  keeps (on_md (group_create_or_update q h k vals)) (fun gv => q = p -> h = gn -> k = key -> bad gv).
Proof.
  intro Hv.
  assert (Off : ~ (q = p /\ h = gn /\ k = key) -> keeps (on_md (group_create_or_update q h k vals)) (fun gv => q = p -> h = gn -> k = key -> bad gv)).
  { intro Ne. apply (keeps_op (OGroupSet q h k vals)); [now split|reflexivity|]. intros m Sp x _ E1 E2 E3. now destruct Ne. }
  destruct (N.eq_dec q p) as [->|Nq]; [|apply Off; tauto]. destruct (N.eq_dec h gn) as [->|Nh]; [|apply Off; tauto].
  destruct (string_dec k key) as [->|Nk]; [clear Off|apply Off; tauto].
  intros s Sp. specialize (Hv eq_refl eq_refl).
  pose proof (md_step_props snake p (KGroup gn) (OGroupSet p gn key vals) (st_md s) eq_refl (sp_props _ Sp)) as Sp'. cbn [md_step] in Sp'.
  pose proof (set_other p gn key vals (st_md s)) as O. unfold on_md. revert Sp' O. unfold group_create_or_update.
  change (kget (real_key p gn key) (st_md s)) with (kg (KReal p gn key) (st_md s)). destruct (sp_val _ Sp) as (gv & -> & w & Hw & Hin). cbn [read_group_values fst snd st_md].
  intros Sp' O. assert (B : bad (mkGroupValues (gv_id gv) (merge_values (gv_values gv) vals))).
  { unfold bad. cbn [gv_values]. apply merge_keeps; [eauto|exact Hv]. }
  split; [|intros x [= <-] _ _ _; exact B]. constructor.
  - exact Sp'.
  - rewrite O; [apply Sp|reflexivity|]. intros [[=]|[[=]|(a & [=])]].
  - rewrite O; [apply Sp|reflexivity|]. intros [[=]|[[=]|(a & [=])]].
  - eexists. split; [|exact B]. change (real_key p gn key) with (render (KReal p gn key)). apply kg_put_eq.
Qed.
Lemma keeps_identify_end q h id gv time : (q = p -> h = gn -> id = key -> bad gv) -> keeps (
  _ <- on_md (fun m => (Ok tt, dict_create_key q (group_col h) GROUP_COLUMN_ID (gv_id gv) id m)) ;;
  v <- on_md (group_next_record q h) ;;
  named <- each (named_stored snake isdict dcv q h) (gv_values gv) ;;
  insert_group h
    ([int64 COLUMN_PROJECT_ID q; int64 GROUP_COLUMN_ID (gv_id gv); int64 GROUP_COLUMN_VERSION v;
      mkNamed COLUMN_CREATED_AT TTimestamp (STime time)] ++ named)%list) (fun _ => ~ (q = p /\ h = gn /\ id = key)).
Proof.
  intro Hb. eapply keeps_bind.
  { apply keeps_does. apply does_op with (ODictCreateKey q (group_col h) GROUP_COLUMN_ID (gv_id gv) id); [|reflexivity]. apply mild_dict. now rewrite group_col_no_slash. }
  intros _ _. eapply keeps_bind; [apply keeps_does; now apply does_op with (OGroupRecord q h)|]. intros v _.
  eapply keeps_bind; [apply (keeps_each _ (stored_fact q h)); intro; apply keeps_stored|]. intros ns F.
  eapply keeps_weaken; [|apply keeps_insert_group]. intros ? T (E1 & E2 & E3). destruct (bad_misfits q h gv ns F E1 E2 (Hb E1 E2 E3)) as (n & Hn & Mn).
  rewrite misfits_refused in T; [discriminate|]. exists n. split; [|exact Mn]. apply in_or_app; now right.
Qed.
Lemma keeps_identify_in r q : keeps (
  g <- on_md (group_type_get_or_create q (id_group r)) ;;
  props <- match id_props r with
           | None => ret []
           | Some l => resolve_properties snake q (KGroup (gr_id g)) l
           end ;;
  vals <- each (fun x => v <- property_to_value snake isdict q (group_col 0) x ;; ret (pp_id (fst x), enc v)) props ;;
  gv <- on_md (group_create_or_update q (gr_id g) (id_id r) vals) ;;
  _ <- on_md (fun m => (Ok tt, dict_create_key q (group_col (gr_id g)) GROUP_COLUMN_ID (gv_id gv) (id_id r) m)) ;;
  v <- on_md (group_next_record q (gr_id g)) ;;
  named <- each (named_stored snake isdict dcv q (gr_id g)) (gv_values gv) ;;
  insert_group (gr_id g)
    ([int64 COLUMN_PROJECT_ID q; int64 GROUP_COLUMN_ID (gv_id gv); int64 GROUP_COLUMN_VERSION v;
      mkNamed COLUMN_CREATED_AT TTimestamp (STime (id_time r))] ++ named)%list) (fun _ => ~ (q = p /\ id_group r = gname /\ id_id r = key)).
Proof.
  eapply keeps_bind; [apply keeps_type|]. intros h Hh.
  eapply (keeps_bind _ _ (Forall (fun y => q = p -> gr_id h = gn -> pp_id (fst y) = pid -> fst y = pr))).
  { destruct (id_props r) as [l|]; [|apply keeps_ret; constructor].
    eapply keeps_weaken; [|apply (keeps_each _ (fun _ y => q = p -> KGroup (gr_id h) = KGroup gn -> pp_id (fst y) = pid -> fst y = pr)); intro; apply keeps_resolve].
    intros ys F. induction F; constructor; auto. intros. apply H; auto. congruence. }
  intros props Hp.
  eapply (keeps_bind _ _ (fun vals => q = p -> gr_id h = gn -> forall w, In (pid, w) vals -> exists x, w = enc (SInt TInt64 x))).
  { eapply keeps_weaken; [|apply (keeps_each _ (fun x y => fst y = pp_id (fst x) /\ (fst x = pr -> exists z, snd y = enc (SInt TInt64 z))))].
    - intros vals F Eq Eh w Hin. clear - F Hp Hin Eq Eh. induction F as [|a b l l' [H1 H2] F IH]; [destruct Hin|]. inversion Hp; subst.
      destruct Hin as [->|Hin]; [|now apply IH]. cbn in *. apply H2. auto.
    - intro x. eapply keeps_bind; [apply keeps_value, group_col_no_slash|]. intros v Hv. apply keeps_ret. cbn. split; [reflexivity|]. intro E. destruct (Hv E) as (z & ->). eauto. }
  intros vals Hvs. eapply keeps_bind; [apply keeps_set; exact Hvs|]. intros gv Hgv.
  eapply keeps_weaken; [|apply keeps_identify_end; exact Hgv]. cbn. intros ? H (E1 & E2 & E3). apply H. auto.
Qed.

(** ** Histories *)
Notation perform := (perform snake isdict enc dcv).
Notation serve := (serve snake isdict enc dcv).
Notation serve_all := (serve_all snake isdict enc dcv).
(** The call is about the spoiled record. *)
Definition hits_record (c : Call) : Prop :=
  match c with CTrack _ r => about r | CIdentify r => id_group r = gname /\ id_id r = key end.
Lemma spoiled_call c s : Spoiled (st_md s) -> Spoiled (st_md (snd (perform c s))) /\
  forall pj, project_by_token (token_of c) (st_md s) = Ok pj -> pr_id pj = p -> hits_record c -> fst (perform c s) <> Ok tt.
Proof.
  intro Sp. destruct (project_by_token (token_of c) (st_md s)) as [pj|e] eqn:E; [|rewrite (no_token _ _ _ _ _ _ _ E); split; [exact Sp|discriminate]].
  destruct c as [now r|r]; cbn [token_of IngestServer.perform hits_record] in *; unfold track, identify; rewrite (bind_look _ _ _ _ E); cbv zeta.
  - destruct (keeps_track_in now r (pr_id pj) s Sp) as [K1 K2]. split; [exact K1|]. intros pj' [= <-] Ep Ha Ho. now apply (K2 tt Ho).
  - destruct (keeps_identify_in r (pr_id pj) s Sp) as [K1 K2]. split; [exact K1|]. intros pj' [= <-] Ep Ha Ho. now apply (K2 tt Ho).
Qed.
Definition mild_ev (e : Ev) : Prop := match e with EMd o => mild o | _ => True end.
Lemma spoiled_serve e sv : mild_ev e -> Spoiled (st_md (sv_st sv)) -> Spoiled (st_md (sv_st (snd (serve e sv)))).
Proof.
  intros Hm Sp. destruct e as [c|o|]; cbn [IngestServer.serve snd sv_st st_md]; [|now apply spoiled_step|exact Sp].
  destruct (if is_track c then sv_track sv else sv_identify sv); [exact Sp|].
  destruct (spoiled_call c (sv_st sv) Sp) as [K _]. destruct (perform c (sv_st sv)) as [y s']. cbn [snd] in *. now destruct (is_track c).
Qed.
Lemma spoiled_serve_all es : Forall mild_ev es -> forall sv, Spoiled (st_md (sv_st sv)) -> Spoiled (st_md (sv_st (snd (serve_all es sv)))).
Proof.
  induction 1 as [|e r He F IH]; intros sv Sp; [exact Sp|]. cbn [IngestServer.serve_all]. pose proof (spoiled_serve e sv He Sp) as Sp1.
  destruct (serve e sv) as [a sv1]. specialize (IH sv1 Sp1). destruct (serve_all r sv1). exact IH.
Qed.
(** The call that spoils the record. *)
Lemma spoils r pj n ms s : project_by_token (id_token r) (st_md s) = Ok pj -> pr_id pj = p -> id_group r = gname -> id_id r = key ->
  id_props r = Some [(n, PVDate ms)] -> Typed (elsewhere p) (st_md s) -> PropsOk p (KGroup gn) (st_md s) ->
  kg (KGroupName p gname) (st_md s) = Some (VRec (RGroup grp)) -> prop_by_name p (KGroup gn) n (st_md s) = Ok pr ->
  fst (identify snake isdict enc dcv r s) <> Ok tt /\ Spoiled (st_md (snd (identify snake isdict enc dcv r s))).
Proof.
  intros Ep Ei Eg Ek El T Po Hn Hp. unfold identify. rewrite (bind_look _ _ _ _ Ep). cbv zeta. rewrite Ei, Eg, Ek, El.
  destruct s as [m evs grps]. cbn [st_md] in *.
  erewrite bind_eq. 2: { unfold on_md, group_type_get_or_create. cbn [st_md st_events st_groups]. change (kget (group_name_key p gname) m) with (kg (KGroupName p gname) m). rewrite Hn. reflexivity. }
  erewrite bind_eq. 2: { cbn [resolve_properties each]. erewrite bind_eq; [reflexivity|]. unfold resolve_property. cbn [fst snd]. erewrite bind_eq; [reflexivity|].
    unfold on_md, prop_get_or_create. cbn [st_md st_events st_groups]. rewrite Hp. reflexivity. }
  erewrite bind_eq. 2: { cbn [each]. erewrite bind_eq; [reflexivity|]. erewrite bind_eq; [reflexivity|]. unfold property_to_value. rewrite plain_prop, time_prop. reflexivity. }
  cbn [fst]. set (v := enc (SInt TInt64 (ms / 1000))).
  destruct (set_read (elsewhere p) p gn key [(pid, v)] m) as (gv & Es); [now intros []|exact T|].
  pose proof (md_step_props snake p (KGroup gn) (OGroupSet p gn key [(pid, v)]) m eq_refl Po) as Po'. cbn [md_step] in Po'.
  pose proof (set_other p gn key [(pid, v)] m) as O.
  assert (B : bad gv /\ kg (KReal p gn key) (snd (group_create_or_update p gn key [(pid, v)] m)) = Some (VRec (RGroupValues gv))).
  { revert Es. unfold group_create_or_update. change (real_key p gn key) with (render (KReal p gn key)). fold (kg (KReal p gn key) m).
    destruct (kg (KReal p gn key) m) as [x|].
    - destruct (read_group_values x) as [old|]; [|discriminate]. cbn [fst snd]. intros [= <-]. split; [|apply kg_put_eq].
      exists v. split; [eexists; reflexivity|]. cbn [gv_values]. apply merge_takes.
    - destruct (next_seq _ m) as [[i|] s1]; [|discriminate]. cbn [fst snd]. intros [= <-]. split; [|apply kg_put_eq].
      exists v. split; [eexists; reflexivity|]. now left. }
  destruct B as [B Hr].
  destruct (group_create_or_update p gn key [(pid, v)] m) as [y m'] eqn:Ec. cbn [fst snd] in *. subst y.
  erewrite bind_eq. 2: { unfold on_md. cbn [st_md st_events st_groups]. rewrite Ec. reflexivity. }
  assert (Sp : Spoiled m').
  { constructor; [exact Po'| | |eauto].
    - rewrite O; [|reflexivity|intros [[=]|[[=]|(a & [=])]]]. apply prop_by_name_iff in Hp as (i & Hi & _); [|exact Po].
      destruct (prop_by_id_ok _ _ _ _ _ Po Hi) as [<- _]. now apply prop_by_id_spec in Hi.
    - rewrite O; [exact Hn|reflexivity|intros [[=]|[[=]|(a & [=])]]]. }
  destruct (keeps_identify_end p gn key gv (id_time r) (fun _ _ _ => B) (mkSt m' evs grps) Sp) as [K1 K2]. split; [|exact K1].
  intro Ho. apply (K2 tt Ho). auto.
Qed.
End Spoil.

(** C130: a refused call leaves the record usable.
    The full claim is false, for every project whose ids were never linked, every record of
    a known kind of groups and every timestamp property of it: an identify call that gives
    the property a date is refused, but the date stays in the record.  From then on every
    identify call for the record is refused, and so is every track call that names it (as
    one of its groups, or as its user when any groups are given), whatever other calls and
    restarts come in between, until somebody changes the property or the record by other
    means - which no call of the ingester can do. *)
Theorem C130_refused_date_spoils_record_refuted :
  forall (snake : string -> string) isdict (enc : SVal -> N) (dcv : N -> SVal),
  (forall x, no_slash x = true -> no_slash (snake x) = true) ->
  (forall x, dcv (enc (SInt TInt64 x)) = SInt TInt64 x) ->
  forall before evs grps r pj grp n ms pr,
    forallb wf_op before = true -> Forall name_token_differ before ->
    let m := md_run snake before [] in
    let p := pr_id pj in
    Forall (fun o => match o with OMerge q _ _ _ _ => q <> p | _ => True end) before ->
    project_by_token (id_token r) m = Ok pj ->
    kget (group_name_key p (id_group r)) m = Some (VRec (RGroup grp)) ->
    prop_by_name p (KGroup (gr_id grp)) n m = Ok pr -> pp_type pr = PBase TTimestamp -> isdict pr = false ->
    id_props r = Some [(n, PVDate ms)] ->
    let s1 := snd (identify snake isdict enc dcv r (mkSt m evs grps)) in
    fst (identify snake isdict enc dcv r (mkSt m evs grps)) <> Ok tt /\
    forall es, Forall (mild_ev p grp (id_id r)) es ->
    let s2 := sv_st (snd (serve_all snake isdict enc dcv es (up s1))) in
    forall c pj', project_by_token (token_of c) (st_md s2) = Ok pj' -> pr_id pj' = p ->
      hits_record grp (id_group r) (id_id r) c ->
      fst (perform snake isdict enc dcv c s2) <> Ok tt.
Proof.
  intros snake isdict enc dcv Sn De before evs grps r pj grp n ms pr Wb Db m p Nl Ep Hg Hp Et Ed El s1.
  assert (T : Typed (elsewhere p) m).
  { apply (md_run_typed _ snake before []); [exact Wb| |apply Typed_nil]. intros q g a u v Hin.
    exact (proj1 (Forall_forall _ _) Nl _ Hin). }
  assert (Po : PropsOk p (KGroup (gr_id grp)) m) by now apply props_reach.
  destruct (spoils snake isdict enc dcv De p grp (id_group r) (id_id r) pr Et Ed r pj n ms (mkSt m evs grps)) as [H1 H2]; auto.
  split; [exact H1|]. intros es F s2 c pj' Ec Ei Hc.
  pose proof (spoiled_serve_all snake isdict enc dcv Sn De p grp (id_group r) (id_id r) pr Et Ed es F (up s1) H2) as Sp. fold s2 in Sp.
  destruct (spoiled_call snake isdict enc dcv Sn De p grp (id_group r) (id_id r) pr Et Ed c s2 Sp) as [_ K]. eapply K; eauto.
Qed.
Print Assumptions C130_refused_date_spoils_record_refuted.

(** A project with the timestamp property every project has. *)
Definition zig (v : SVal) : N :=
  match v with SInt _ x => if Z.leb 0 x then Z.to_N (2 * x) else Z.to_N (- 2 * x - 1) | _ => 0%N end%Z.
Definition zag (n : N) : SVal := SInt TInt64 (if Z.even (Z.of_N n) then Z.of_N n / 2 else - ((Z.of_N n + 1) / 2))%Z.
Lemma zag_zig x : zag (zig (SInt TInt64 x)) = SInt TInt64 x.
Proof.
  unfold zag, zig. f_equal. destruct (Z.leb_spec 0 x).
  - rewrite Z2N.id by lia. rewrite Z.even_mul. cbn [Z.even orb]. replace (2 * x)%Z with (x * 2)%Z by lia. now apply Z.div_mul.
  - rewrite Z2N.id by lia. replace (- 2 * x - 1)%Z with (1 + 2 * (- x - 1))%Z by lia. rewrite Z.even_add_mul_2. cbn [Z.even].
    replace (1 + 2 * (- x - 1) + 1)%Z with ((- x) * 2)%Z by lia. rewrite Z.div_mul; lia.
Qed.
Definition dated : list MdOp := (shop ++ [OPropGetOrCreate 1 (KGroup 0) "created_at" (Some "Created At") (PBase TTimestamp) true])%list.
Definition at_dated : St := mkSt (md_run plain dated []) [] [].
Definition idn (l : option (list (string * PropValue))) : Identify := mkIdentify "token" 0 "user" "ann" l.
Example C130_witness :
  forallb wf_op dated = true /\ Forall name_token_differ dated /\
  (let s1 := snd (identify plain (fun _ => false) zig zag (idn (Some [("created_at", PVDate 1700000000000)])) at_dated) in
   fst (identify plain (fun _ => false) zig zag (idn None) at_dated) = Ok tt /\
   fst (identify plain (fun _ => false) zig zag (idn (Some [("created_at", PVDate 1700000000000)])) at_dated) = Err BadRequest /\
   fst (identify plain (fun _ => false) zig zag (idn None) s1) = Err BadRequest /\
   fst (identify plain (fun _ => false) zig zag (idn (Some [("name", PVString "Ann")])) s1) = Err BadRequest /\
   fst (identify plain (fun _ => false) zig zag (mkIdentify "token" 0 "user" "bob" None) s1) = Ok tt /\
   (let t := mkTrack "token" (Some "ann") None 0 "Buy" None (Some [("company", "acme")]) [] [] "1.2.3.4" in
    fst (track plain (fun _ => false) zag 0 t at_dated) = Ok tt /\ fst (track plain (fun _ => false) zag 0 t s1) = Err BadRequest)).
Proof. split; [reflexivity|]. split; [repeat constructor; discriminate|]. vm_compute. repeat split. Qed.
