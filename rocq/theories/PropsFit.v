(** Properties C127 and C130: identify calls and calls with groups that are in order are
    accepted; calls without dates never spoil a record. *)
From Coq Require Import List NArith ZArith String Ascii Bool Lia.
From Verif Require Import AMap Kv KvKeys KvKeysFacts KvFacts Md MdOps MdFrame MdTyped MdIndex MdEntities MdProps PropsNames PropsGroups
  Ingest IngestFacts PropsIngest IngestServer PropsServer PropsLive PropsSpoil.
Import ListNotations.
Local Open Scope string_scope.

Ltac aside := split; [now split|split; [intros k Hk T; destruct k; cbn in Hk, T; try contradiction; intuition congruence|split; unfold kidx; cbn; intuition congruence]].

Section Fit.
Variable snake : string -> string.
Variable isdict : Property -> bool.
Variables (enc : SVal -> N) (dcv : N -> SVal).
Hypothesis snake_ok : forall x, no_slash x = true -> no_slash (snake x) = true.
Hypothesis dcv_enc : forall v, dcv (enc v) = v.
Variable p : N.

(** Metadata calls that neither link ids of the project nor change or delete its
    properties. *)
Definition tame (o : MdOp) : Prop :=
  wf_op o = true /\ name_token_differ o /\ match o with OMerge q _ _ _ _ | OPropUpdate q _ _ _ _ _ | OPropDelete q _ _ => q <> p | _ => True end.
(** ... nor give values to its records. *)
Definition quiet_op (o : MdOp) : Prop :=
  tame o /\ match o with OGroupGet q _ _ vals => q = p -> vals = [] | OGroupSet q _ _ _ => q <> p | _ => True end.
(** Every stored value of a record of the project fits its property. *)
Definition fits (pr : Property) (w : N) : Prop := btype_eqb (sval_type (dcv w)) (column_type isdict pr) = true.
Definition val_ok (s : Store) (g : N) (x : N * N) : Prop := exists pr, prop_by_id p (KGroup g) (fst x) s = Ok pr /\ fits pr (snd x).
Record Fine (s : Store) : Prop := {
  fn_typed : Typed (elsewhere p) s;
  fn_props : forall k, PropsOk p k s;
  fn_events : EventsOk p s;
  fn_projects : ProjectsOk s;
  fn_types : TypesFull p s;
  fn_vals : forall g key gv, kg (KReal p g key) s = Some (VRec (RGroupValues gv)) -> Forall (val_ok s g) (gv_values gv) }.

Lemma prop_kept o k id x s : tame o -> PropsOk p k s -> prop_by_id p k id s = Ok x -> prop_by_id p k id (md_step snake o s) = Ok x.
Proof.
  intros (W & _ & H) Po E. apply prop_by_id_spec. apply prop_by_id_spec in E. pose proof (md_frame snake o s W) as F.
  assert (Wk : wf_key (KData (kind_ns p k) id) = true) by now destruct k.
  destruct o; try (rewrite (only_kg _ _ _ _ F); [exact E|exact Wk|destruct k; off]).
  1,2: destruct (kind_dec p0 p k0 k) as [[-> ->]|Ne];
      [cbn [md_step]; first [now apply data_kept_create|now apply data_kept]|rewrite (only_kg _ _ _ _ F); [exact E|exact Wk|]];
      intros [X|[]]; cbn in X; apply Ne; destruct k, k0; injection X; intros; subst; split; congruence.
Qed.
Lemma val_kept o g x s : tame o -> (forall k, PropsOk p k s) -> val_ok s g x -> val_ok (md_step snake o s) g x.
Proof. intros T Po (pr & E & Fp). exists pr. split; [|exact Fp]. apply prop_kept; auto. Qed.
Lemma get_new q h k vals (s : Store) gv : kg (KReal q h k) (snd (group_get_or_create q h k vals s)) = Some (VRec (RGroupValues gv)) ->
  kg (KReal q h k) s = Some (VRec (RGroupValues gv)) \/ gv_values gv = vals.
Proof.
  unfold group_get_or_create. change (real_key q h k) with (render (KReal q h k)). fold (kg (KReal q h k) s). destruct (kg (KReal q h k) s) as [v|] eqn:E; cbn [snd].
  - rewrite E. auto.
  - destruct (next_seq _ s) as [[i|] s1]; cbn [snd]; [|rewrite E; discriminate]. rewrite kg_put_eq. intros [= <-]. now right.
Qed.
Lemma set_new q h k vals (s : Store) gv : kg (KReal q h k) (snd (group_create_or_update q h k vals s)) = Some (VRec (RGroupValues gv)) ->
  (exists old, kg (KReal q h k) s = Some (VRec (RGroupValues old)) /\ gv_values gv = merge_values (gv_values old) vals) \/ gv_values gv = vals.
Proof.
  unfold group_create_or_update. change (real_key q h k) with (render (KReal q h k)). fold (kg (KReal q h k) s). destruct (kg (KReal q h k) s) as [v|] eqn:E; cbn [snd].
  - destruct v as [| |[]]; cbn [read_group_values snd]; try (rewrite E; discriminate). rewrite kg_put_eq. intros [= <-]. left. eauto.
  - destruct (next_seq _ s) as [[i|] s1]; cbn [snd]; [|rewrite E; discriminate]. rewrite kg_put_eq. intros [= <-]. now right.
Qed.
Lemma in_replace {B} i (x y : B) l : In y (replace_at i x l) -> y = x \/ In y l.
Proof. revert i. induction l as [|z r IH]; intros [|i]; cbn; intros H; auto; destruct H as [<-|H]; auto. destruct (IH _ H); auto. Qed.
Lemma merge_in old new x : In x (merge_values old new) -> In x old \/ In x new.
Proof.
  unfold merge_values. enough (G : forall vals, (forall y, In y vals -> In y old \/ In y new) -> forall n', (forall y, In y n' -> In y new) ->
    In x (fold_left (fun vals v => match position (fst v) old with Some i => replace_at i v vals | None => (vals ++ [v])%list end) n' vals) -> In x old \/ In x new) by (apply G; auto).
  intros vals Hv n'. revert vals Hv. induction n' as [|a r IH]; cbn [fold_left]; intros vals Hv Hn H; [auto|]. refine (IH _ _ _ H).
  - intros y Hy. destruct (position (fst a) old); [apply in_replace in Hy as [->|Hy]|apply in_app_or in Hy as [Hy|[<-|[]]]]; auto; right; apply Hn; now left.
  - intros. apply Hn. now right.
Qed.
Lemma fine_set g key vals s : Fine s -> Forall (val_ok s g) vals -> Fine (snd (group_create_or_update p g key vals s)).
Proof.
  intros [T Po Eo Pj Ty V] Hv. set (o := OGroupSet p g key vals). assert (To : tame o) by now repeat split.
  change (snd (group_create_or_update p g key vals s)) with (md_step snake o s). constructor.
  - apply md_typed; [reflexivity|exact Logic.I|exact T].
  - intro k. now apply md_step_props.
  - now apply md_step_events.
  - now apply md_step_projects.
  - now apply full_step.
  - intros g' key' gv E. apply Forall_forall. intros x Hx. apply val_kept; [exact To|exact Po|].
    destruct (N.eq_dec g' g) as [->|Ng]; [destruct (string_dec key' key) as [->|Nk]|].
    + cbn [md_step o] in E. apply set_new in E as [(old & E & Ev)|Ev]; rewrite Ev in Hx.
      * apply merge_in in Hx as [Hx|Hx]; [exact (proj1 (Forall_forall _ _) (V _ _ _ E) x Hx)|exact (proj1 (Forall_forall _ _) Hv x Hx)].
      * exact (proj1 (Forall_forall _ _) Hv x Hx).
    + cbn [md_step o] in E. rewrite set_other in E; [|reflexivity|intros [[=]|[[=]|(a & [=])]]; auto]. exact (proj1 (Forall_forall _ _) (V _ _ _ E) x Hx).
    + cbn [md_step o] in E. rewrite set_other in E; [|reflexivity|intros [[=]|[[=]|(a & [=])]]; auto]. exact (proj1 (Forall_forall _ _) (V _ _ _ E) x Hx).
Qed.
Lemma fine_step o s : quiet_op o -> Fine s -> Fine (md_step snake o s).
Proof.
  intros [To Q] Fs. pose proof Fs as [T Po Eo Pj Ty V]. pose proof To as (W & Dn & M). constructor.
  - apply md_typed; auto. now destruct o.
  - intro k. now apply md_step_props.
  - now apply md_step_events.
  - now apply md_step_projects.
  - now apply full_step.
  - intros g key gv E. pose proof (md_frame snake o s W) as F.
    enough (H : kg (KReal p g key) s = Some (VRec (RGroupValues gv)) \/ gv_values gv = []).
    { destruct H as [H|H]; [|rewrite H; constructor]. eapply Forall_impl; [|exact (V _ _ _ H)]. intros x. now apply val_kept. }
    destruct o; try (left; rewrite <- E; symmetry; apply (only_kg _ _ _ _ F); [reflexivity|off]); cbn [md_step] in E.
    + rewrite anon_other in E; [now left|reflexivity|intros [[=]|[=]]].
    + match type of E with context [group_get_or_create ?q ?h ?k ?l s] => assert (D : {(q, h, k) = (p, g, key)} + {(q, h, k) <> (p, g, key)}) by (repeat decide equality);
        destruct D as [[= -> -> ->]|D]; [apply get_new in E as [E|E]; [now left|right; rewrite E; now apply Q]|] end.
      rewrite (proj2 (get_other _ _ _ _ s)) in E; [now left|reflexivity|]. intros [[= ? ? ?]|[[=]|(a & [=])]]. apply D. congruence.
Qed.
Lemma fine_run ops s : Forall quiet_op ops -> Fine s -> Fine (md_run snake ops s).
Proof. unfold md_run. intro F. revert s. induction F as [|o r Ho F IH]; cbn [fold_left]; intros s G; [exact G|]. apply IH. now apply fine_step. Qed.
Lemma fine_does {A} (m : M A) s : does snake quiet_op m -> Fine (st_md s) -> Fine (st_md (snd (m s))).
Proof. intros D Fs. destruct (D s) as (ops & -> & F). now apply fine_run. Qed.
Lemma quiet_tame o : quiet_op o -> tame o. Proof. now intros []. Qed.
Lemma run_props k ops : Forall tame ops -> forall s, PropsOk p k s -> PropsOk p k (md_run snake ops s).
Proof. unfold md_run. induction 1 as [|o r (W & _ & _) F IH]; cbn [fold_left]; intros s P; [exact P|]. apply IH. now apply md_step_props. Qed.
Lemma reach_prop k id x a b : reach snake tame a b -> PropsOk p k (st_md a) -> prop_by_id p k id (st_md a) = Ok x -> prop_by_id p k id (st_md b) = Ok x.
Proof.
  intros (ops & -> & F). unfold md_run. revert F. generalize (st_md a). intros s F. revert s. induction F as [|o r Ho F IH]; cbn [fold_left]; intros s P E; [exact E|].
  apply IH; [apply md_step_props; [apply Ho|exact P]|now apply prop_kept].
Qed.
Lemma reach_val a b g x : reach snake tame a b -> (forall k, PropsOk p k (st_md a)) -> val_ok (st_md a) g x -> val_ok (st_md b) g x.
Proof. intros R P (pr & E & H). exists pr. split; [|exact H]. eapply reach_prop; eauto. Qed.

(** ** Stages *)
Lemma resolved_stored k l s ys s' : PropsOk p k (st_md s) -> resolve_properties snake p k l s = (Ok ys, s') ->
  Forall2 (fun x y => snd y = snd x /\ prop_by_id p k (pp_id (fst y)) (st_md s') = Ok (fst y)) l ys.
Proof.
  intros P E. apply (each_reach snake tame) in E.
  2: { intro y. apply does_bind; [|intro; apply does_ret]. now apply does_op with (OPropGetOrCreate p k (fst y) None (data_type (snd y)) false). }
  induction E as [|x y l ys (s1 & s2 & R1 & Hr & R2) F IH]; constructor; [clear IH|exact IH].
  unfold resolve_property in Hr. apply bind_ok in Hr as (pr & s3 & E3 & Hr). apply ret_ok in Hr as [-> ->]. cbn [fst snd]. split; [reflexivity|].
  apply on_md_ok in E3 as (E3 & _ & _).
  assert (P1 : PropsOk p k (st_md s1)) by (destruct R1 as (ops & -> & Fo); now apply run_props).
  destruct (prop_get_or_create_spec snake p k _ _ _ _ _ _ _ P1 E3) as (H & _). eapply reach_prop; [exact R2| |exact H].
  pose proof (prop_get_or_create_ok snake p k (fst x) None (data_type (snd x)) false (st_md s1) P1) as P2. now rewrite E3 in P2.
Qed.
Lemma value_fits q t x s v s' : property_to_value snake isdict q t x s = (Ok v, s') -> not_date (snd x) -> btype_eqb (sval_type v) (column_type isdict (fst x)) = true.
Proof.
  destruct x as [pr w]. cbn [fst snd]. unfold property_to_value, column_type. destruct (isdict pr).
  - destruct w; try discriminate. intros H _. apply bind_ok in H as (i & s1 & _ & H). now apply ret_ok in H as [-> _].
  - destruct (pp_type pr) as [b|b]; [|destruct w; discriminate].
    destruct w; try contradiction; destruct b; try discriminate; cbn [int_bits]; try (intros H _; apply ret_ok in H as [-> _]; reflexivity);
    (destruct (to_int _ _ _); [|discriminate]; intros H _; apply ret_ok in H as [-> _]; reflexivity).
Qed.
Definition dateless (c : Call) : Prop :=
  match c with CTrack _ _ => True | CIdentify r => forall l, id_props r = Some l -> Forall (fun x => not_date (snd x)) l end.

(** ** No call without dates spoils a record, accepted or not *)
Definition holds_at {A} (m : M A) (s : St) (Q : A -> St -> Prop) : Prop :=
  Fine (st_md (snd (m s))) /\ forall x, fst (m s) = Ok x -> Q x (snd (m s)).
Lemma at_step {A B} (m : M A) (f : A -> M B) s P Q : holds_at m s P ->
  (forall x s', m s = (Ok x, s') -> Fine (st_md s') -> P x s' -> holds_at (f x) s' Q) -> holds_at (bind m f) s Q.
Proof.
  intros [H1 H2] Hf. unfold holds_at, bind. destruct (m s) as [[x|e] s1] eqn:E; cbn [fst snd] in *; [|split; [exact H1|discriminate]].
  apply (Hf x s1); auto.
Qed.
Lemma at_does {A} (m : M A) s : does snake quiet_op m -> Fine (st_md s) -> holds_at m s (fun _ _ => True).
Proof. intros D Fs. split; [now apply fine_does|auto]. Qed.
Notation perform := (perform snake isdict enc dcv).
Lemma quiet_dict q t d i v : no_slash t && no_slash d = true -> quiet_op (ODictCreateKey q t d i v).
Proof. intro W. now repeat split. Qed.
Lemma call_fine c s : Fine (st_md s) -> dateless c ->
  (forall pj, project_by_token (token_of c) (st_md s) = Ok pj -> pr_id pj = p -> both c = false) -> Fine (st_md (snd (perform c s))).
Proof.
  intros Fs Hd Hb. destruct (project_by_token (token_of c) (st_md s)) as [pj|e] eqn:E; [|now rewrite (no_token _ _ _ _ _ _ _ E)].
  specialize (Hb pj eq_refl). destruct c as [now r|r]; cbn [token_of IngestServer.perform both dateless] in *.
  - (* track *)
    unfold track. rewrite (bind_look _ _ _ _ E). cbv zeta. set (q := pr_id pj) in *. apply fine_does; [|exact Fs].
    apply does_bind; [destruct (tr_props r); [|apply does_ret]; apply does_bind; [apply does_resolve; now repeat split|intro; apply does_ret]|intro props].
    apply does_bind.
    { unfold who. destruct (tr_user r) as [u|] eqn:Eu, (tr_anon r) as [a|] eqn:Ea; try apply does_fail.
      - apply does_bind; [|intro; apply does_ret]. apply does_op with (OMerge q GROUP_USER_ID u a []); [|reflexivity]. split; [|exact I]. split; [reflexivity|]. split; [exact I|].
        intro Eq. discriminate (Hb Eq).
      - apply does_bind; [now apply does_op with (OGroupGet q GROUP_USER_ID u [])|intro g].
        apply does_bind; [|intro; apply does_ret]. now apply does_op with (ODictCreateKey q TABLE_EVENTS (group_col GROUP_USER_ID) (gv_id g) u).
      - apply does_bind; [now apply does_op with (OAnon q GROUP_USER_ID a)|intro g].
        apply does_bind; [|intro; apply does_ret]. now apply does_op with (ODictCreateKey q TABLE_EVENTS (group_col GROUP_USER_ID) g a). }
    intro w. apply does_bind.
    { unfold track_groups. destruct (tr_groups r) as [l|]; [|apply does_ret].
      apply does_bind; [|intro; apply does_ret]. apply does_each. intro x. unfold track_group.
      apply does_bind; [now apply does_op with (OGroupType q (fst x))|intro g].
      apply does_bind; [now apply does_op with (OGroupGet q (gr_id g) (snd x) [])|intro v].
      apply does_bind; [|intro; apply does_ret].
      apply does_op with (ODictCreateKey q TABLE_EVENTS (group_col (gr_id g)) (gv_id v) (snd x)); [|reflexivity].
      apply quiet_dict. now rewrite group_col_no_slash. }
    intro gs. apply does_bind; [now apply does_op with (OEventGetOrCreate q (tr_event r) None (map (fun x => pp_id (fst x)) match props with Some l => l | None => [] end))|intro e].
    apply does_bind; [destruct props as [l|]; [now apply does_op with (OEventAttach q (ev_id e) (map (fun x => pp_id (fst x)) l))|apply does_ret]|intros _].
    apply does_bind; [apply does_each; intro; apply does_by_name|intro extra].
    apply does_bind; [|intros _; now apply does_op with (OProjectCount q)].
    apply does_weaken with (send_op q); [|now apply does_send]. intros o [Wo H]. destruct o; try contradiction; repeat split; auto.
  - (* identify *)
    unfold identify. rewrite (bind_look _ _ _ _ E). cbv zeta. set (q := pr_id pj) in *.
    match goal with |- Fine (st_md (snd (?m s))) => enough (H : holds_at m s (fun _ _ => True)) by apply H end.
    assert (Dv : forall x, does snake quiet_op (v <- property_to_value snake isdict q (group_col 0) x;; ret (pp_id (fst x), enc v))).
    { intro x. apply does_bind; [|intro; apply does_ret]. apply does_value; [exact snake_ok|]. intros d v Hdd. repeat split. cbn [wf_op]. now rewrite Hdd, group_col_no_slash. }
    eapply at_step; [apply at_does; [now apply does_op with (OGroupType q (id_group r))|exact Fs]|]. intros g s1 _ F1 _.
    apply (at_step _ _ _ (fun ys s' => q = p -> Forall (fun y => not_date (snd y) /\ prop_by_id p (KGroup (gr_id g)) (pp_id (fst y)) (st_md s') = Ok (fst y)) ys)).
    { split; [apply fine_does; [|exact F1]; destruct (id_props r); [apply does_resolve; now repeat split|apply does_ret]|].
      intros ys Ey Eq. destruct (id_props r) as [l|]; [|injection Ey as <-; constructor]. specialize (Hd l eq_refl). rewrite Eq in *.
      destruct (resolve_properties snake p (KGroup (gr_id g)) l s1) as [z s2] eqn:Er. cbn [fst snd] in *. subst z.
      pose proof (resolved_stored _ _ _ _ _ (fn_props _ F1 _) Er) as F. clear - F Hd. induction F as [|x y l ys [Hx Hy] F IH]; constructor; inversion Hd; subst; auto.
      rewrite Hx. auto. }
    intros props s2 _ F2 Hp.
    apply (at_step _ _ _ (fun vals s' => q = p -> Forall (val_ok (st_md s') (gr_id g)) vals)).
    { split; [apply fine_does; [apply does_each, Dv|exact F2]|]. intros vals Ev Eq. specialize (Hp Eq).
      destruct (each _ props s2) as [z s3] eqn:Ee. cbn [fst snd] in *. subst z.
      assert (R : reach snake tame s2 s3).
      { eapply reach_weaken; [exact quiet_tame|]. eapply does_reach; [|exact Ee]. apply does_each, Dv. }
      apply each_ok in Ee. clear - Ee Hp R F2 dcv_enc. induction Ee as [|x y l ys (a & b & H) F IH]; constructor; inversion Hp as [|? ? [Hn Hs] Hp']; subst; auto.
      apply bind_ok in H as (v & c & Ev & H). apply ret_ok in H as [-> _]. exists (fst x). cbn [fst snd]. split.
      - eapply reach_prop; [exact R|apply F2|exact Hs].
      - unfold fits. rewrite dcv_enc. now apply (value_fits _ _ _ _ _ _ Ev). }
    intros vals s3 _ F3 Hv.
    apply (at_step _ _ _ (fun _ _ => True)).
    { split; [|auto]. destruct (N.eq_dec q p) as [->|Nq].
      - unfold on_md. pose proof (fine_set (gr_id g) (id_id r) vals (st_md s3) F3 (Hv eq_refl)) as H. destruct (group_create_or_update p (gr_id g) (id_id r) vals (st_md s3)). exact H.
      - apply fine_does; [|exact F3]. now apply does_op with (OGroupSet q (gr_id g) (id_id r) vals). }
    intros gv s4 _ F4 _. apply at_does; [|exact F4].
    apply does_bind; [apply does_op with (ODictCreateKey q (group_col (gr_id g)) GROUP_COLUMN_ID (gv_id gv) (id_id r)); [|reflexivity]|intros _].
    { apply quiet_dict. now rewrite group_col_no_slash. }
    apply does_bind; [now apply does_op with (OGroupRecord q (gr_id g))|intro v].
    apply does_bind; [apply does_each; intro; apply does_stored|intro]. apply does_insert_group.
Qed.
(** ** Histories *)
Notation serve := (serve snake isdict enc dcv).
Notation serve_all := (serve_all snake isdict enc dcv).
Definition quiet_ev (e : Ev) : Prop := match e with EMd o => quiet_op o | ECall c => dateless c | ERestart => True end.
Lemma fine_nil : Fine [].
Proof. constructor; [apply Typed_nil|intro; apply Indexed_nil|apply Indexed_nil|apply Indexed_nil|apply full_nil|discriminate]. Qed.
Lemma fine_serve e sv : quiet_ev e -> ~ links p e (sv_st sv) -> Fine (st_md (sv_st sv)) -> Fine (st_md (sv_st (snd (serve e sv)))).
Proof.
  intros Q L Fs. destruct e as [c|o|]; cbn [IngestServer.serve snd sv_st st_md]; [|now apply fine_step|exact Fs].
  destruct (if is_track c then sv_track sv else sv_identify sv); [exact Fs|].
  assert (K : Fine (st_md (snd (perform c (sv_st sv))))).
  { apply call_fine; [exact Fs|exact Q|]. intros pj E Ei. destruct (both c) eqn:B; [|reflexivity]. destruct L. cbn. eauto. }
  destruct (perform c (sv_st sv)) as [y s']. now destruct (is_track c).
Qed.
Lemma fine_history es : Forall quiet_ev es -> ~ linked snake isdict enc dcv es p -> Fine (st_md (sv_st (snd (serve_all es (up (mkSt [] [] [])))))).
Proof.
  induction es as [|e r IH] using rev_ind; intros Q L; [apply fine_nil|].
  apply Forall_app in Q as [Q1 Q2]. inversion Q2; subst. rewrite serve_app.
  replace (snd (serve_all [e] (snd (serve_all r (up (mkSt [] [] [])))))) with (snd (serve e (snd (serve_all r (up (mkSt [] [] [])))))) by (cbn; now destruct (serve e _)).
  apply fine_serve; [assumption| |apply IH; [exact Q1|]].
  - intro Hl. apply L. exists r, e, []. now split.
  - intros (a & x & b & -> & Hl). apply L. exists a, x, (b ++ [e])%list. split; [now rewrite <- app_assoc|exact Hl].
Qed.

(** ** Calls in order are accepted *)
Hypothesis dict_text : forall pr, isdict pr = true -> pp_type pr = PBase TString.
Lemma name_cases k n s : PropsOk p k s -> (exists x, prop_by_name p k n s = Ok x) \/
  (prop_by_name p k n s = Err NotFound /\ kg (kidx (kind_ns p k) (IName, n)) s = None).
Proof.
  intro G. unfold prop_by_name.
  replace (make_index_key (prop_ns p k) "name" n) with (render (kidx (kind_ns p k) (IName, n))) by now destruct k.
  pose proof (get_index_ix _ _ s IName n G) as X.
  destruct (get_index _ _) as [id|e]; [|destruct X as [-> X]; auto].
  destruct (ix_idx _ _ _ G _ _ X) as (id' & r & ks & [= <-] & Hd & Hk & _). destruct r; try discriminate.
  left. eexists. apply prop_by_id_spec. exact Hd.
Qed.
Lemma made k n b s : Typed (elsewhere p) s -> PropsOk p k s ->
  exists x s', prop_get_or_create snake p k n None (PBase b) false s = (Ok x, s') /\
    (prop_by_name p k n s = Ok x \/ prop_by_name p k n s = Err NotFound /\ pp_type x = PBase b) /\
    (forall m, m <> n -> prop_by_name p k m s' = prop_by_name p k m s).
Proof.
  intros T G. destruct (name_cases k n s G) as [(x & E)|(E & K)].
  - exists x, s. unfold prop_get_or_create. rewrite E. auto.
  - pose proof (prop_get_or_create_ok snake p k n None (PBase b) false s G) as Ok'.
    pose proof (prop_get_or_create_spec snake p k n None (PBase b) false s) as Spec.
    assert (Wk : forall i, wf_key (KData (kind_ns p k) i) = true) by now destruct k.
    assert (Ws : wf_key (KSeq (kind_ns p k)) = true) by now destruct k.
    assert (Tot : exists x s', prop_get_or_create snake p k n None (PBase b) false s = (Ok x, s') /\ pp_type x = PBase b /\
       forall id y, pp_name y <> n -> prop_by_id p k id s' = Ok y <-> prop_by_id p k id s = Ok y).
    { unfold prop_get_or_create. rewrite E. unfold prop_create. rewrite prop_okeys.
      rewrite (proj2 (check_insert_spec (kind_ns p k) _ s)).
      2: { intros ik Hik. apply iks_in in Hik. cbn in Hik. destruct Hik as [[= <-]|[Hd|[]]]; [exact K|discriminate]. }
      replace (make_id_seq_key (prop_ns p k)) with (render (KSeq (kind_ns p k))) by now destruct k.
      destruct (next_seq (render (KSeq (kind_ns p k))) s) as [rr s1] eqn:Es.
      destruct (next_seq_indexed _ _ _ _ _ G Es) as (id & -> & _ & Es1 & Hno & _).
      assert (T1 : Typed (elsewhere p) s1).
      { eapply typed_next; [exact Es| |exact T]. exists (KSeq (kind_ns p k)). now repeat split. }
      change (make_id_seq_key _) with (render (KOrderSeq p (short_name (PBase b)))).
      assert (Wo : wf_key (KOrderSeq p (short_name (PBase b))) = true) by now destruct b.
      destruct (seq_ok _ 0 (KOrderSeq p (short_name (PBase b))) s1 Wo (fun v F => F) T1) as (o & Eo).
      unfold next_zero_seq. destruct (next_from 0 _ s1) as [ro s2] eqn:E2. cbn [fst] in Eo. subst ro. cbv zeta. cbn [storable negb].
      eexists. eexists. split; [reflexivity|]. split; [reflexivity|]. intros i y Hy. rewrite !prop_by_id_spec.
      rewrite insert_index_snoc. change (make_index_key _ _ _) with (render (KGlobalCol p (column_name snake (mkProperty id k n None o (PBase b) false)))).
      rewrite kg_put_ne; [|apply Wk|reflexivity|discriminate]. rewrite kg_insert_out; [|apply Wk|intros; discriminate].
      rewrite prop_data_key. destruct (N.eq_dec i id) as [->|Hi].
      - rewrite kg_put_eq. split; [intros [= <-]; now destruct Hy|]. rewrite Hno. discriminate.
      - rewrite kg_put_ne; [|apply Wk|apply Wk|congruence].
        assert (E12 : kg (KData (kind_ns p k) i) s2 = kg (KData (kind_ns p k) i) s1).
        { unfold next_from in E2. destruct (kget _ s1) as [v|]; [destruct (read_num v); [|discriminate]|]; apply (f_equal snd) in E2; cbn [snd] in E2; subst s2;
          (rewrite kg_put_ne; [reflexivity|apply Wk|exact Wo|discriminate]). }
        rewrite E12, Es1. rewrite kg_put_ne; [reflexivity|apply Wk|apply Ws|discriminate]. }
    destruct Tot as (x & s' & Ec & Et & Other). rewrite Ec in Ok'. cbn [snd] in Ok'. destruct (Spec x s' G Ec) as (Hid & Hn & Hkd).
    exists x, s'. split; [exact Ec|]. split; [auto|].
    intros m Hm. destruct (name_cases k m s G) as [(y & Ey)|(Ey & _)].
    + rewrite Ey. apply prop_by_name_iff; [exact Ok'|]. apply prop_by_name_iff in Ey as (i & Hi & Hyn); [|exact G].
      exists i. split; [apply Other; [congruence|exact Hi]|exact Hyn].
    + rewrite Ey. destruct (name_cases k m s' Ok') as [(y & Ey')|(Ey' & _)]; [|exact Ey'].
      apply prop_by_name_iff in Ey' as (i & Hi & Hyn); [|exact Ok']. apply Other in Hi; [|congruence].
      assert (prop_by_name p k m s = Ok y) by (apply prop_by_name_iff; [exact G|eauto]). congruence.
Qed.
(** The property of the name, if there is one, takes the value; if there is none the value
    is not a date. *)
Definition takes (k : PropKind) (s : Store) (x : string * PropValue) : Prop :=
  match prop_by_name p k (fst x) s with Ok pr => accepts isdict pr (snd x) | Err _ => not_date (snd x) end.
Lemma accepts_not_date pr v : accepts isdict pr v -> not_date v.
Proof. unfold accepts. destruct (isdict pr); [intros (t & ->)|destruct v]; cbn; auto. Qed.
Lemma resolve_takes k l : forall s, Fine (st_md s) -> NoDup (map fst l) -> Forall (takes k (st_md s)) l ->
  exists xs s', resolve_properties snake p k l s = (Ok xs, s') /\ Forall (fun x => accepts isdict (fst x) (snd x)) xs.
Proof.
  induction l as [|[n v] r IH]; cbn [map fst]; intros s Fs Nd Ha.
  - exists [], s. split; [reflexivity|constructor].
  - inversion Nd as [|? ? Hn Nd']; subst. inversion Ha as [|? ? Hv Hr]; subst. cbn [resolve_properties each].
    destruct (data_type v) as [b|b] eqn:Eb; [|destruct v; discriminate].
    destruct (made k n b (st_md s) (fn_typed _ Fs) (fn_props _ Fs k)) as (x & m' & E & H2 & H3).
    set (s1 := mkSt m' (st_events s) (st_groups s)) in *.
    assert (F1 : Fine (st_md s1)).
    { cbn [st_md s1]. replace m' with (md_step snake (OPropGetOrCreate p k n None (PBase b) false) (st_md s)) by (cbn [md_step]; now rewrite E). apply fine_step; [now repeat split|exact Fs]. }
    destruct (IH s1 F1 Nd') as (xs & s' & Er & Hx).
    { rewrite Forall_forall in *. intros [n' v'] Hin. specialize (Hr _ Hin). unfold takes in *. cbn [fst snd st_md s1] in *.
      rewrite H3; [exact Hr|]. intros ->. apply Hn. apply in_map_iff. now exists (n, v'). }
    exists ((x, v) :: xs), s'. split; [|constructor; [|exact Hx]].
    + unfold bind at 1. unfold resolve_property at 1. cbn [fst snd]. rewrite Eb. unfold bind at 1, on_md at 1. rewrite E. fold s1. unfold ret at 1.
      fold (resolve_properties snake p k r). unfold bind. now rewrite Er.
    + cbn [fst snd]. unfold takes in Hv. cbn [fst snd] in Hv. destruct H2 as [H2|[H2 Et]]; rewrite H2 in Hv; [exact Hv|].
      unfold accepts. destruct (isdict x) eqn:Ed; [apply dict_text in Ed|]; destruct v; cbn in Eb, Hv; try contradiction; injection Eb as <-; eauto; congruence.
Qed.
Lemma value_ok t x s : no_slash t = true -> accepts isdict (fst x) (snd x) -> Fine (st_md s) -> exists v s', property_to_value snake isdict p t x s = (Ok v, s').
Proof.
  destruct x as [pr v]. cbn [fst snd]. unfold accepts, property_to_value. intros Ht H Fs. destruct (isdict pr) eqn:Ed.
  - destruct H as (w & ->). destruct (dict_read (elsewhere p) p t (column_name snake pr) w (st_md s)) as (n & En); [now rewrite Ht, col_no_slash|apply Fs|].
    unfold bind, on_md. destruct (dict_get_or_create _ _ _ _ _) as [y m']. cbn [fst] in En. subst y. unfold ret. eauto.
  - destruct v as [ms|w|m sc|b]; try contradiction.
    + rewrite H. unfold ret. eauto.
    + destruct H as [->|(b & bits & -> & Eb & R)]; [unfold ret; eauto|].
      assert (Et : to_int bits m sc = Some (Z.quot m (10 ^ Z.of_N sc))).
      { unfold to_int. destruct (Z.leb_spec (- 2 ^ bits) (Z.quot m (10 ^ Z.of_N sc))), (Z.ltb_spec (Z.quot m (10 ^ Z.of_N sc)) (2 ^ bits)); cbn; try reflexivity; lia. }
      destruct b; try discriminate; rewrite Eb, Et; unfold ret; eauto.
    + rewrite H. unfold ret. eauto.
Qed.
Lemma each_ready {A B} (f : A -> M B) l : (forall x, does snake quiet_op (f x)) -> (forall x s, In x l -> Fine (st_md s) -> exists y s', f x s = (Ok y, s')) ->
  forall s, Fine (st_md s) -> exists ys s', each f l s = (Ok ys, s').
Proof.
  intros D. induction l as [|x r IH]; cbn [each]; intros H s Fs; [unfold ret; eauto|].
  destruct (H x s (or_introl eq_refl) Fs) as (y & s1 & E). erewrite bind_eq; [|exact E].
  assert (F1 : Fine (st_md s1)) by (pose proof (fine_does (f x) s (D x) Fs) as K; now rewrite E in K).
  destruct (IH (fun z s Hz => H z s (or_intror Hz)) s1 F1) as (ys & s2 & E2). erewrite bind_eq; [|exact E2]. unfold ret. eauto.
Qed.
Lemma stored_ready g vals s : Forall (val_ok (st_md s) g) vals -> exists ns, each (named_stored snake isdict dcv p g) vals s = (Ok ns, s) /\ Forall fits_col ns.
Proof.
  induction 1 as [|x r (pr & E & Hf) F IH]; [exists []; split; [reflexivity|constructor]|]. destruct IH as (ns & En & Fn). cbn [each].
  eexists. split; [erewrite bind_eq; [|unfold named_stored; rewrite (bind_look _ _ _ _ E); reflexivity]; erewrite bind_eq; [|exact En]; reflexivity|].
  constructor; [exact Hf|exact Fn].
Qed.
Lemma does_vals q props : does snake quiet_op (each (fun x => v <- property_to_value snake isdict q (group_col 0) x;; ret (pp_id (fst x), enc v)) props).
Proof.
  apply does_each. intro x. apply does_bind; [|intro; apply does_ret]. apply does_value; [exact snake_ok|]. intros d v Hdd. repeat split. cbn [wf_op]. now rewrite Hdd, group_col_no_slash.
Qed.
Lemma vals_ok g props s2 vals s3 : Fine (st_md s2) ->
  Forall (fun y => accepts isdict (fst y) (snd y) /\ prop_by_id p (KGroup g) (pp_id (fst y)) (st_md s2) = Ok (fst y)) props ->
  each (fun x => v <- property_to_value snake isdict p (group_col 0) x;; ret (pp_id (fst x), enc v)) props s2 = (Ok vals, s3) ->
  Forall (val_ok (st_md s3) g) vals.
Proof.
  intros F2 Hp Ee.
  assert (R : reach snake tame s2 s3) by (eapply reach_weaken; [exact quiet_tame|]; eapply does_reach; [apply does_vals|exact Ee]).
  apply each_ok in Ee. clear - Ee Hp R F2 dcv_enc. induction Ee as [|x y l ys (a & b & H) F IH]; constructor; inversion Hp as [|? ? [Hn Hs] Hp']; subst; auto.
  apply bind_ok in H as (v & c & Ev & H). apply ret_ok in H as [-> _]. exists (fst x). cbn [fst snd]. split.
  - eapply reach_prop; [exact R|apply F2|exact Hs].
  - unfold fits. rewrite dcv_enc. apply (value_fits _ _ _ _ _ _ Ev). eapply accepts_not_date; eauto.
Qed.
Lemma stored_now g key vals m gv : fst (group_create_or_update p g key vals m) = Ok gv ->
  kg (KReal p g key) (snd (group_create_or_update p g key vals m)) = Some (VRec (RGroupValues gv)).
Proof.
  unfold group_create_or_update. change (real_key p g key) with (render (KReal p g key)). fold (kg (KReal p g key) m). destruct (kg (KReal p g key) m) as [v|].
  - destruct (read_group_values v); [|discriminate]. cbn [fst snd]. intros [= <-]. apply kg_put_eq.
  - destruct (next_seq _ m) as [[i|] s1]; [|discriminate]. cbn [fst snd]. intros [= <-]. apply kg_put_eq.
Qed.
Lemma identify_ready r pj grp s : Fine (st_md s) -> project_by_token (id_token r) (st_md s) = Ok pj -> pr_id pj = p ->
  fst (group_type_get_or_create p (id_group r) (st_md s)) = Ok grp ->
  match id_props r with Some l => NoDup (map fst l) /\ Forall (takes (KGroup (gr_id grp)) (st_md s)) l | None => True end ->
  fst (identify snake isdict enc dcv r s) = Ok tt.
Proof.
  intros Fs Ep Ei Eg Hp. unfold identify. rewrite (bind_look _ _ _ _ Ep). cbv zeta. rewrite Ei.
  destruct (group_type_get_or_create p (id_group r) (st_md s)) as [y m1] eqn:E1. cbn [fst] in Eg. subst y.
  erewrite bind_eq; [|unfold on_md; rewrite E1; reflexivity]. set (s1 := mkSt m1 (st_events s) (st_groups s)).
  assert (Fm : m1 = md_step snake (OGroupType p (id_group r)) (st_md s)) by (cbn [md_step]; now rewrite E1).
  assert (F1 : Fine (st_md s1)) by (cbn [st_md s1]; rewrite Fm; apply fine_step; [now repeat split|exact Fs]).
  set (k := KGroup (gr_id grp)) in *.
  assert (R : exists props s2, match id_props r with None => ret [] | Some l => resolve_properties snake p k l end s1 = (Ok props, s2) /\ Fine (st_md s2) /\
     Forall (fun y => accepts isdict (fst y) (snd y) /\ prop_by_id p k (pp_id (fst y)) (st_md s2) = Ok (fst y)) props).
  { destruct (id_props r) as [l|]; [|exists [], s1; split; [reflexivity|split; [exact F1|constructor]]]. destruct Hp as [Nd Hp].
    destruct (resolve_takes k l s1 F1 Nd) as (xs & s2 & E2 & Hx).
    { eapply Forall_impl; [|exact Hp]. intros x. unfold takes.
      assert (Same : prop_by_name p k (fst x) (st_md s1) = prop_by_name p k (fst x) (st_md s)); [|now rewrite Same].
      cbn [st_md s1]. rewrite Fm. pose proof (md_frame snake (OGroupType p (id_group r)) (st_md s) eq_refl) as F.
      assert (Q : forall i y, prop_by_id p k i (md_step snake (OGroupType p (id_group r)) (st_md s)) = Ok y <-> prop_by_id p k i (st_md s) = Ok y).
      { intros i y. rewrite !prop_by_id_spec. rewrite (only_kg _ _ _ _ F); [reflexivity|reflexivity|off]. }
      assert (P1 : PropsOk p k (md_step snake (OGroupType p (id_group r)) (st_md s))) by (rewrite <- Fm; apply F1).
      destruct (name_cases k (fst x) (st_md s) (fn_props _ Fs k)) as [(y & Ey)|(Ey & _)]; rewrite Ey.
      - apply prop_by_name_iff; [exact P1|]. apply prop_by_name_iff in Ey as (i & Hi & Hn); [|apply Fs]. exists i. split; [now apply Q|exact Hn].
      - destruct (name_cases k (fst x) _ P1) as [(y & Ey')|(Ey' & _)]; [|exact Ey']. apply prop_by_name_iff in Ey' as (i & Hi & Hn); [|exact P1].
        apply Q in Hi. assert (prop_by_name p k (fst x) (st_md s) = Ok y) by (apply prop_by_name_iff; [apply Fs|eauto]). congruence. }
    exists xs, s2. split; [exact E2|]. split.
    - assert (D : does snake quiet_op (resolve_properties snake p k l)) by (apply does_resolve; now repeat split).
      pose proof (fine_does _ s1 D F1) as K. now rewrite E2 in K.
    - pose proof (resolved_stored _ _ _ _ _ (fn_props _ F1 k) E2) as F. clear - F Hx. induction F as [|x y l ys [H1 H2] F IH]; constructor; inversion Hx; subst; auto. }
  destruct R as (props & s2 & E2 & F2 & Hs). erewrite bind_eq; [|exact E2].
  destruct (each_ready (fun x => v <- property_to_value snake isdict p (group_col 0) x;; ret (pp_id (fst x), enc v)) props) with (s := s2) as (vals & s3 & E3); [| |exact F2|].
  { intro x. pose proof (does_vals p [x]) as D. apply does_bind; [|intro; apply does_ret]. apply does_value; [exact snake_ok|]. intros d v Hdd. repeat split. cbn [wf_op]. now rewrite Hdd, group_col_no_slash. }
  { intros x z Hx Fz. destruct (value_ok (group_col 0) x z) as (v & z' & Ev); [apply group_col_no_slash|apply (proj1 (Forall_forall _ _) Hs x Hx)|exact Fz|].
    erewrite bind_eq; [|exact Ev]. unfold ret. eauto. }
  erewrite bind_eq; [|exact E3].
  assert (F3 : Fine (st_md s3)) by (pose proof (fine_does _ s2 (does_vals p props) F2) as K; now rewrite E3 in K).
  pose proof (vals_ok _ _ _ _ _ F2 Hs E3) as Hv.
  destruct (set_read (elsewhere p) p (gr_id grp) (id_id r) vals (st_md s3)) as (gv & Eg); [now intros []|apply F3|].
  pose proof (fine_set (gr_id grp) (id_id r) vals (st_md s3) F3 Hv) as F4. pose proof (stored_now _ _ _ _ _ Eg) as St4.
  destruct (group_create_or_update p (gr_id grp) (id_id r) vals (st_md s3)) as [y m4] eqn:E4. cbn [fst snd] in *. subst y.
  erewrite bind_eq; [|unfold on_md; rewrite E4; reflexivity].
  pose proof (fn_vals _ F4 _ _ _ St4) as Hg4. set (s4 := mkSt m4 (st_events s3) (st_groups s3)).
  set (o := ODictCreateKey p (group_col (gr_id grp)) GROUP_COLUMN_ID (gv_id gv) (id_id r)).
  erewrite bind_eq; [|unfold on_md; reflexivity]. cbn [st_md].
  set (m5 := dict_create_key _ _ _ _ _ _). assert (Q5 : quiet_op o) by (apply quiet_dict; now rewrite group_col_no_slash).
  assert (F5 : Fine m5) by exact (fine_step o m4 Q5 F4).
  assert (Hg5 : Forall (val_ok m5 (gr_id grp)) (gv_values gv)).
  { eapply Forall_impl; [|exact Hg4]. intros x. apply (val_kept o); [now apply quiet_tame|apply F4]. }
  destruct (group_record_read (elsewhere p) p (gr_id grp) m5 (fn_typed _ F5)) as (n & En).
  set (o6 := OGroupRecord p (gr_id grp)).
  assert (Hg6 : Forall (val_ok (md_step snake o6 m5) (gr_id grp)) (gv_values gv)).
  { eapply Forall_impl; [|exact Hg5]. intros x. apply (val_kept o6); [now repeat split|apply F5]. }
  cbn [md_step o6] in Hg6. destruct (group_next_record p (gr_id grp) m5) as [y m6] eqn:E6. cbn [fst snd] in *. subst y.
  erewrite bind_eq; [|unfold on_md; cbn [st_md]; rewrite E6; reflexivity]. cbn [st_events st_groups].
  destruct (stored_ready (gr_id grp) (gv_values gv) (mkSt m6 (st_events s3) (st_groups s3)) Hg6) as (ns & Ens & Fns).
  erewrite bind_eq; [|exact Ens]. unfold insert_group. rewrite types_all; [reflexivity|]. repeat (constructor; [reflexivity|]). exact Fns.
Qed.
(** ** Track calls with groups *)
Notation Inv := (Inv p).
Lemma type_kept o n g s : wf_op o = true -> kg (KGroupName p n) s = Some (VRec (RGroup g)) -> kg (KGroupName p n) (md_step snake o s) = Some (VRec (RGroup g)).
Proof.
  intros W E. pose proof (md_frame snake o s W) as F. destruct o; try (rewrite (only_kg _ _ _ _ F); [exact E|reflexivity|off]); cbn [md_step].
  match goal with |- context [group_type_get_or_create ?q ?m s] => assert (D : {(q, m) = (p, n)} + {(q, m) <> (p, n)}) by (repeat decide equality);
    destruct D as [[= -> ->]|D]; [unfold group_type_get_or_create; change (kget (group_name_key p n) s) with (kg (KGroupName p n) s); now rewrite E|
    rewrite type_other; [exact E|reflexivity|intros [[=]|[= ? ?]]; apply D; congruence]] end.
Qed.
Lemma reach_type a b n g : reach snake tame a b -> kg (KGroupName p n) (st_md a) = Some (VRec (RGroup g)) -> kg (KGroupName p n) (st_md b) = Some (VRec (RGroup g)).
Proof.
  intros (ops & -> & F). unfold md_run. generalize (st_md a). induction F as [|o r Ho F IH]; cbn [fold_left]; intros s E; [exact E|].
  apply IH. apply type_kept; [apply Ho|exact E].
Qed.
(** Calls that name no new kind of groups of the project. *)
Definition kindless (o : MdOp) : Prop := quiet_op o /\ match o with OGroupType q _ => q <> p | _ => True end.
Lemma kindless_quiet o : kindless o -> quiet_op o. Proof. now intros []. Qed.
Lemma kind_same o n s : kindless o -> kg (KGroupName p n) (md_step snake o s) = kg (KGroupName p n) s.
Proof.
  intros [((W & _) & _) H]. pose proof (md_frame snake o s W) as F. destruct o; try (rewrite (only_kg _ _ _ _ F); [reflexivity|reflexivity|off]).
Qed.
Lemma reach_kinds a b n : reach snake kindless a b -> kg (KGroupName p n) (st_md b) = kg (KGroupName p n) (st_md a).
Proof.
  intros (ops & -> & F). unfold md_run. generalize (st_md a). induction F as [|o r Ho F IH]; cbn [fold_left]; intros s; [reflexivity|].
  rewrite IH. now apply kind_same.
Qed.
Lemma reach_tame a b : reach snake kindless a b -> reach snake tame a b.
Proof. apply reach_weaken. intros o Ho. now apply quiet_tame, kindless_quiet. Qed.
(** [m] succeeds with calls of [C]; what was true stays true. *)
Definition ready {A} (C : MdOp -> Prop) (m : M A) (s0 s : St) (Q : A -> St -> Prop) : Prop :=
  exists x s', m s = (Ok x, s') /\ Inv s0 s' /\ Fine (st_md s') /\ reach snake C s s' /\ Q x s'.
Lemma ready_well {A} (C : MdOp -> Prop) (m : M A) (Q : A -> Prop) s0 s : (forall o, C o -> quiet_op o) ->
  does_well p m Q -> does snake C m -> Inv s0 s -> Fine (st_md s) -> ready C m s0 s (fun x _ => Q x).
Proof.
  intros HC Wm DC I0 Fs. assert (D : does snake quiet_op m) by (eapply does_weaken; eauto). destruct (Wm s0 s I0) as (x & s' & E & I1 & Hx). exists x, s'. split; [exact E|]. split; [exact I1|].
  split; [|split; [|exact Hx]].
  - pose proof (fine_does m s D Fs) as K. now rewrite E in K.
  - eapply does_reach; eauto.
Qed.
Lemma got_now q g key vals m gv : fst (group_get_or_create q g key vals m) = Ok gv ->
  kg (KReal q g key) (snd (group_get_or_create q g key vals m)) = Some (VRec (RGroupValues gv)).
Proof.
  unfold group_get_or_create. change (real_key q g key) with (render (KReal q g key)). fold (kg (KReal q g key) m). destruct (kg (KReal q g key) m) as [v|] eqn:E.
  - cbn [fst snd]. intro H. rewrite E. destruct v as [| |[]]; try discriminate H. now injection H as ->.
  - destruct (next_seq _ m) as [[i|] s1]; [|discriminate]. cbn [fst snd]. intros [= <-]. apply kg_put_eq.
Qed.
(** A record named in a call: got, then entered in the dictionary. *)
Lemma record_ready g key s0 s : Inv s0 s -> Fine (st_md s) ->
  exists gv s', Inv s0 s' /\ Fine (st_md s') /\ reach snake kindless s s' /\ Forall (val_ok (st_md s') g) (gv_values gv) /\
  forall A (rest : GroupValues -> M A),
    (v <- on_md (group_get_or_create p g key []) ;;
     _ <- on_md (fun m => (Ok tt, dict_create_key p TABLE_EVENTS (group_col g) (gv_id v) key m)) ;; rest v) s = rest gv s'.
Proof.
  intros I0 Fs.
  assert (W1 : does_well p (on_md (group_get_or_create p g key [])) (fun _ => True)).
  { apply (well_op snake p (OGroupGet p g key [])); [aside|reflexivity|]. intros m G. destruct (real_read (elsewhere p) p g key [] m) as (n & En); [now intros []|apply G|eauto]. }
  destruct (ready_well kindless _ _ s0 s kindless_quiet W1) as (gv & s1 & E1 & I1 & F1 & R1 & _); auto; [now apply does_op with (OGroupGet p g key [])|].
  assert (V1 : Forall (val_ok (st_md s1) g) (gv_values gv)).
  { apply (fn_vals _ F1 g key). apply on_md_ok in E1 as (E1 & _ & _). pose proof (got_now p g key [] (st_md s) gv) as K. rewrite E1 in K. now apply K. }
  set (o := ODictCreateKey p TABLE_EVENTS (group_col g) (gv_id gv) key).
  assert (Qo : quiet_op o) by (apply quiet_dict; now rewrite group_col_no_slash).
  assert (W2 : does_well p (on_md (fun m => (Ok tt, dict_create_key p TABLE_EVENTS (group_col g) (gv_id gv) key m))) (fun _ => True)).
  { apply (well_op snake p o); [|reflexivity|intros; cbn; eauto].
    split; [split; [apply Qo|exact I]|split; [intros k Hk T; destruct k; cbn in Hk, T; try contradiction; intuition congruence|split; unfold kidx; cbn; intuition congruence]]. }
  destruct (ready_well kindless _ _ s0 s1 kindless_quiet W2) as ([] & s2 & E2 & I2 & F2 & R2 & _); auto; [now apply does_op with o|].
  exists gv, s2. split; [exact I2|]. split; [exact F2|]. split; [eapply reach_trans; eauto|]. split.
  - eapply Forall_impl; [|exact V1]. intro x. apply reach_val; [now apply reach_tame|apply F1].
  - intros A rest. erewrite bind_eq; [|exact E1]. erewrite bind_eq; [|exact E2]. reflexivity.
Qed.
Definition group_fine (m : Store) (x : N * GroupValues) : Prop := Forall (val_ok m (fst x)) (gv_values (snd x)).
Lemma reach_groups a b gs : reach snake tame a b -> Fine (st_md a) -> Forall (group_fine (st_md a)) gs -> Forall (group_fine (st_md b)) gs.
Proof. intros R Fa. apply Forall_impl. intros x. apply Forall_impl. intro y. apply reach_val; [exact R|apply Fa]. Qed.
(** Five names cover the kinds of groups there are and those of the list. *)
Definition kinds_within (kinds : list string) (m : Store) (l : list (string * string)) : Prop :=
  (List.length kinds <= 5)%nat /\ (forall n g, kg (KGroupName p n) m = Some (VRec (RGroup g)) -> In n kinds) /\ incl (map fst l) kinds.
Lemma kinds_typed kinds m : TypesFull p m -> (forall n g, kg (KGroupName p n) m = Some (VRec (RGroup g)) -> In n kinds) <-> (forall n id, has_type p n id m -> In n kinds).
Proof.
  intros [T _]. split; intros H n x E.
  - exact (H n _ E).
  - destruct (ty_rec p m T n _ E) as (g & [= <-] & En & _). apply (H n (gr_id x)). unfold has_type. destruct x as [i nm]. cbn in En. subst nm. exact E.
Qed.
Lemma groups_ready kinds l s0 : forall s, kinds_within kinds (st_md s) l -> Inv s0 s -> Fine (st_md s) ->
  ready tame (each (track_group p) l) s0 s (fun gs s' => Forall (group_fine (st_md s')) gs).
Proof.
  induction l as [|x r IH]; intros s (Hl & Hk & Hi) I0 Fs; cbn [each].
  - exists [], s. split; [reflexivity|]. split; [exact I0|]. split; [exact Fs|]. split; [apply reach_refl|constructor].
  - pose proof (proj1 (kinds_typed kinds _ (fn_types _ Fs)) Hk) as Kin. clear Hk.
    destruct (room p (fst x) kinds (st_md s) (fn_types _ Fs) Hl Kin (Hi _ (or_introl eq_refl))) as (g & ma & Ea & Ka).
    set (o := OGroupType p (fst x)). assert (Em : ma = md_step snake o (st_md s)) by (cbn [md_step o]; now rewrite Ea).
    set (sa := mkSt ma (st_events s) (st_groups s)). assert (Qo : quiet_op o) by now repeat split.
    assert (Fa : Fine (st_md sa)) by (cbn [sa st_md]; rewrite Em; now apply fine_step).
    assert (Ra : reach snake tame s sa) by (exists [o]; split; [exact Em|constructor; [now apply quiet_tame|constructor]]).
    assert (Ia : Inv s0 sa).
    { eapply Inv_trans; [exact I0|]. apply (Inv_aside snake p o); [unfold o; aside|apply I0|apply I0|exact Em]. }
    destruct (record_ready (gr_id g) (snd x) s0 sa Ia Fa) as (gv & s1 & I1 & F1 & R1 & V1 & Rest).
    assert (Et : track_group p x s = (Ok (gr_id g, gv), s1)).
    { unfold track_group. erewrite bind_eq with (s1 := sa).
      2: { unfold on_md. rewrite Ea. reflexivity. }
      apply (Rest _ (fun v => ret (gr_id g, v))). }
    destruct (IH s1) as (gs & s2 & E2 & I2 & F2 & R2 & V2); auto.
    { split; [exact Hl|]. split; [|intros y Hy; apply Hi; now right]. intros n h. rewrite (reach_kinds _ _ n R1). revert n h. exact (proj2 (kinds_typed kinds _ (fn_types _ Fa)) Ka). }
    exists ((gr_id g, gv) :: gs), s2. split; [erewrite bind_eq; [|exact Et]; erewrite bind_eq; [|exact E2]; reflexivity|].
    split; [exact I2|]. split; [exact F2|]. split; [eapply reach_trans; [exact Ra|]; eapply reach_trans; [apply reach_tame; exact R1|exact R2]|]. constructor; [|exact V2].
    eapply Forall_impl; [|exact V1]. intro y. apply reach_val; [exact R2|apply F1].
Qed.
Lemma who_ready r s0 s : one_id r = true -> Inv s0 s -> Fine (st_md s) ->
  ready kindless (who p r) s0 s (fun w s' => forall gv, snd w = Some gv -> group_fine (st_md s') (0%N, gv)).
Proof.
  intros One I0 Fs. unfold one_id in One. destruct (tr_user r) as [u|] eqn:Eu, (tr_anon r) as [a|] eqn:Ea; try discriminate.
  - destruct (record_ready 0 u s0 s I0 Fs) as (gv & s1 & I1 & F1 & R1 & V1 & Rest). eexists. exists s1. split.
    + unfold who. rewrite Eu, Ea. unfold GROUP_USER_ID. apply (Rest _ (fun g => ret (gv_id g, Some g))).
    + split; [exact I1|]. split; [exact F1|]. split; [exact R1|]. intros gv' [= <-]. exact V1.
  - assert (D : does snake kindless (who p r)).
    { unfold who. rewrite Eu, Ea. apply does_bind; [now apply does_op with (OAnon p GROUP_USER_ID a)|intro g].
      apply does_bind; [|intro; apply does_ret]. now apply does_op with (ODictCreateKey p TABLE_EVENTS (group_col GROUP_USER_ID) g a). }
    destruct (ready_well kindless _ _ s0 s kindless_quiet (well_who snake enc dcv p r ltac:(unfold one_id; now rewrite Eu, Ea)) D I0 Fs) as (w & s1 & E1 & I1 & F1 & R1 & _).
    exists w, s1. split; [exact E1|]. split; [exact I1|]. split; [exact F1|]. split; [exact R1|].
    intros gv Hw. exfalso. revert E1. unfold who. rewrite Eu, Ea. intro E1. apply bind_ok in E1 as (g & z & _ & E1). apply bind_ok in E1 as (? & ? & _ & E1).
    apply ret_ok in E1 as [-> _]. discriminate Hw.
Qed.
Lemma groups_fit gs : Forall fits_col (group_values gs).
Proof. unfold group_values. apply Forall_app; split; apply Forall_forall; intros x Hx; apply in_map_iff in Hx as (y & <- & _); reflexivity. Qed.
Lemma named_ready gs s : Forall (group_fine (st_md s)) gs ->
  exists gv, each (fun x => each (named_stored snake isdict dcv p (fst x)) (gv_values (snd x))) gs s = (Ok gv, s) /\ Forall fits_col (List.concat gv).
Proof.
  induction 1 as [|x r Hx F IH]; [exists []; split; [reflexivity|constructor]|]. destruct IH as (gv & Eg & Fg). cbn [each].
  destruct (stored_ready (fst x) (gv_values (snd x)) s Hx) as (ns & En & Fn). exists (ns :: gv).
  split; [erewrite bind_eq; [|exact En]; erewrite bind_eq; [|exact Eg]; reflexivity|]. cbn [List.concat]. apply Forall_app. auto.
Qed.
Lemma quiet_send o : send_op p o -> quiet_op o.
Proof. intros [Wo H]. destruct o; try contradiction; repeat split; auto. Qed.
Lemma send_ready now u e gs props r s0 : Forall (fun x => accepts isdict (fst x) (snd x)) props -> Forall (takes_text isdict p (st_md s0)) (tr_utm r) ->
  forall s, Inv s0 s -> Fine (st_md s) -> Forall (group_fine (st_md s)) (match gs with Some l => l | None => [] end) ->
  exists s', send snake isdict dcv now p u e gs props r s = (Ok tt, s') /\ Inv s0 s'.
Proof.
  intros Hp Hu s I0 F0 Hg. unfold send. set (gl := match gs with Some l => l | None => [] end) in *.
  assert (Ws : does_well p (on_md (session_set_time p u now)) (fun _ => True)).
  { apply (well_op snake p (OSession p u now)); [aside|reflexivity|]. intros m G. destruct (session_read (elsewhere p) p u now m (gd_typed _ _ G)); eauto. }
  destruct (ready_well quiet_op _ _ s0 s (fun _ H => H) Ws) as (new & s1 & E1 & I1 & F1 & R1 & _); auto; [now apply does_op with (OSession p u now)|]. erewrite bind_eq; [|exact E1].
  assert (Wp : does_well p (each (named_property snake isdict p) props) (Forall fits_col)).
  { apply well_each. intros x Hx. apply (well_value snake isdict enc dcv snake_ok). rewrite Forall_forall in Hp. auto. }
  destruct (ready_well quiet_op _ _ s0 s1 (fun _ H => H) Wp) as (pv & s2 & E2 & I2 & F2 & R2 & Fp); auto.
  { apply does_weaken with (send_op p); [exact quiet_send|]. apply does_each. intro. now apply does_named. }
  erewrite bind_eq; [|exact E2].
  assert (Hg2 : Forall (group_fine (st_md s2)) gl) by (eapply reach_groups; [eapply reach_weaken; [exact quiet_tame|exact R2]|exact F1|]; eapply reach_groups; [eapply reach_weaken; [exact quiet_tame|exact R1]|exact F0|exact Hg]).
  destruct (named_ready gl s2 Hg2) as (gv & Eg & Fg). erewrite bind_eq; [|exact Eg].
  assert (Wu : exists utm s3, each (fun x => y <- named_by_name p x;; named_property snake isdict p y) (tr_utm r) s2 = (Ok utm, s3) /\ Inv s0 s3 /\ Forall fits_col utm).
  { clear E2 Hg2 Eg R2 F2. revert s2 I2. induction Hu as [|x l Hx F IH]; intros s2 I2; [exists [], s2; split; [reflexivity|split; [exact I2|constructor]]|]. cbn [each].
    destruct (known_well isdict p x s0 s2 Hx I2) as (y & s3 & E3 & I3 & A3). destruct (well_value snake isdict enc dcv snake_ok p y A3 s0 s3 I3) as (z & s4 & E4 & I4 & F4).
    destruct (IH s4 I4) as (zs & s5 & E5 & I5 & F5). exists (z :: zs), s5. split; [erewrite bind_eq; [|erewrite bind_eq; [exact E4|exact E3]]; erewrite bind_eq; [|exact E5]; reflexivity|]. split; [exact I5|now constructor]. }
  destruct Wu as (utm & s3 & E3 & I3 & F3). erewrite bind_eq; [|exact E3]. cbv zeta.
  assert (Fk : Forall fits_col ([int64 COLUMN_PROJECT_ID p; int64 (group_col GROUP_USER_ID) u] ++ group_values gs)%list) by (repeat (constructor; [reflexivity|]); apply groups_fit).
  assert (Fv : Forall fits_col (pv ++ List.concat gv)%list) by (apply Forall_app; auto).
  set (keys := ([int64 COLUMN_PROJECT_ID p; int64 (group_col GROUP_USER_ID) u] ++ group_values gs)%list) in *. set (values := (pv ++ List.concat gv)%list) in *.
  match goal with |- exists s', bind ?m _ s3 = _ /\ _ => assert (Wb : exists s4, m s3 = (Ok tt, s4) /\ Inv s0 s4) end.
  { destruct new; [|exists s3; split; [reflexivity|exact I3]].
    destruct (record_well snake enc dcv p s0 s3 I3) as (n & s4 & E4 & I4 & _). erewrite bind_eq; [|exact E4].
    destruct (event_known_ok p EVENT_SESSION_BEGIN (st_md s4) (iv_good _ _ _ I4) (iv_begin _ _ _ I4)) as (b & Eb). rewrite (bind_look _ _ _ _ Eb).
    apply insert_well; [|exact I4]. apply Forall_app; split; [exact Fk|]. apply Forall_app; split; [exact F3|]. apply Forall_app; split; [repeat constructor|exact Fv]. }
  destruct Wb as (s4 & E4 & I4). erewrite bind_eq; [|exact E4].
  destruct (record_well snake enc dcv p s0 s4 I4) as (n & s5 & E5 & I5 & _). erewrite bind_eq; [|exact E5].
  apply insert_well; [|exact I5]. apply Forall_app; split; [exact Fk|]. apply Forall_app; split; [repeat constructor|exact Fv].
Qed.
Lemma track_ready now r pj s : Fine (st_md s) -> project_by_token (tr_token r) (st_md s) = Ok pj -> pr_id pj = p ->
  event_known p EVENT_SESSION_BEGIN (st_md s) -> one_id r = true ->
  match tr_groups r with Some l => exists kinds, kinds_within kinds (st_md s) l | None => True end ->
  match tr_props r with Some l => NoDup (map fst l) /\ Forall (takes KEvent (st_md s)) l | None => True end ->
  Forall (takes_text isdict p (st_md s)) (tr_agent r) -> Forall (takes_text isdict p (st_md s)) (tr_utm r) ->
  fst (track snake isdict dcv now r s) = Ok tt.
Proof.
  intros Fs Ep Ei K One Gr Hp Ha Hu.
  assert (Ed : project_by_id p (st_md s) = Ok pj).
  { pose proof Ep as E0. unfold project_by_token in E0. destruct (get_index _ _) as [id|x] eqn:Ex; [|discriminate].
    destruct (project_by_id_ok _ _ _ (fn_projects _ Fs) E0) as [Eq _]. rewrite <- Ei, Eq. exact E0. }
  assert (G : Good p (st_md s)) by (constructor; [apply Fs|apply Fs|apply Fs]).
  unfold track. rewrite (bind_look _ _ _ _ Ep). cbv zeta. rewrite Ei.
  assert (I0 : Inv s s) by now apply Inv_same.
  assert (R : exists props s1, match tr_props r with None => ret None | Some l => x <- resolve_properties snake p KEvent l ;; ret (Some x) end s = (Ok props, s1) /\
     Inv s s1 /\ Forall (fun x => accepts isdict (fst x) (snd x)) match props with Some l => l | None => [] end).
  { destruct (tr_props r) as [l|]; [|exists None, s; split; [reflexivity|split; [exact I0|constructor]]]. destruct Hp as [Nd Hp].
    destruct (resolve_well snake isdict dict_text p l s G K Nd Hp) as (xs & s1 & E & I1 & F). exists (Some xs), s1. split; [unfold bind; now rewrite E|auto]. }
  destruct R as (props & s1 & E1 & I1 & A1). 
  assert (D1 : does snake kindless match tr_props r with None => ret None | Some l => x <- resolve_properties snake p KEvent l ;; ret (Some x) end).
  { destruct (tr_props r); [|apply does_ret]. apply does_bind; [apply does_resolve; now repeat split|intro; apply does_ret]. }
  assert (F1 : Fine (st_md s1)) by (pose proof (fine_does _ s (does_weaken _ _ _ _ kindless_quiet D1) Fs) as Kf; now rewrite E1 in Kf).
  assert (R1 : reach snake kindless s s1) by (eapply does_reach; eauto).
  erewrite bind_eq; [|exact E1].
  destruct (who_ready r s s1 One I1 F1) as (w & s2 & E2 & I2 & F2 & R2 & Vw). erewrite bind_eq; [|exact E2].
  assert (Rg : exists gs s3, track_groups p (snd w) r s2 = (Ok gs, s3) /\ Inv s s3 /\ Fine (st_md s3) /\
     Forall (group_fine (st_md s3)) (match gs with Some l => l | None => [] end)).
  { unfold track_groups. destruct (tr_groups r) as [l|]; [|exists None, s2; split; [reflexivity|split; [exact I2|split; [exact F2|constructor]]]].
    destruct Gr as (kinds & G1 & G2 & G3). destruct (groups_ready kinds l s s2) as (gs & s3 & E3 & I3 & F3 & R3 & V3); auto.
    { split; [exact G1|]. split; [|exact G3]. intros n g. rewrite (reach_kinds _ _ n R2), (reach_kinds _ _ n R1). apply G2. }
    eexists. exists s3. split; [erewrite bind_eq; [|exact E3]; reflexivity|]. split; [exact I3|]. split; [exact F3|].
    destruct (snd w) as [gv|] eqn:Ew; [|exact V3]. constructor; [|exact V3].
    eapply Forall_impl; [|exact (Vw gv eq_refl)]. intro y. apply reach_val; [exact R3|apply F2]. }
  destruct Rg as (gs & s3 & E3 & I3 & F3 & V3). erewrite bind_eq; [|exact E3].
  set (ids := map _ _). set (rest := fun e : Event => extra <- each (named_by_name p) (tr_agent r);;
     _ <- send snake isdict dcv now p (fst w) (ev_id e) gs ((match props with Some l => l | None => [] end) ++ extra)%list r;; on_md (project_count_event p)).
  assert (Wr : forall e, forall z, Inv s z -> Fine (st_md z) -> reach snake tame s3 z -> exists z', rest e z = (Ok tt, z')).
  { intros e z Iz Fz Rz. unfold rest. destruct (known_all isdict p (tr_agent r) s Ha z Iz) as (ex & s4 & E4 & I4 & A4). erewrite bind_eq; [|exact E4].
    assert (De : does snake quiet_op (each (named_by_name p) (tr_agent r))) by (apply does_each; intro; apply does_by_name).
    assert (F4 : Fine (st_md s4)) by (pose proof (fine_does _ z De Fz) as Kf; now rewrite E4 in Kf).
    assert (R4 : reach snake tame z s4) by (eapply reach_weaken; [exact quiet_tame|]; eapply does_reach; eauto).
    destruct (send_ready now (fst w) (ev_id e) gs ((match props with Some l => l | None => [] end) ++ ex)%list r s) with (s := s4) as (s5 & E5 & I5); auto.
    { apply Forall_app. auto. }
    { eapply reach_groups; [exact R4|exact Fz|]. eapply reach_groups; [exact Rz|exact F3|exact V3]. }
    erewrite bind_eq; [|exact E5]. unfold on_md, project_count_event.
    assert (project_by_id p (st_md s5) = Ok pj) as ->; [|eexists; reflexivity].
    apply project_by_id_spec. rewrite (iv_proj _ _ _ I5). now apply project_by_id_spec. }
  destruct (event_well snake enc dcv p (tr_event r) ids (match props with Some _ => true | None => false end) s s3 I3) as (e & s4 & I4 & Er).
  assert (Dv : does snake quiet_op (e <- on_md (event_get_or_create p (tr_event r) None ids) ;;
     _ <- (if match props with Some _ => true | None => false end then on_md (event_attach p (ev_id e) ids) else ret tt) ;; ret e)).
  { apply does_bind; [now apply does_op with (OEventGetOrCreate p (tr_event r) None ids)|intro e']. apply does_bind; [|intro; apply does_ret].
    destruct props; [now apply does_op with (OEventAttach p (ev_id e') ids)|apply does_ret]. }
  pose proof (Er _ (fun e => ret e)) as Er0.
  assert (F4 : Fine (st_md s4)) by (pose proof (fine_does _ s3 Dv F3) as Kf; now rewrite Er0 in Kf).
  assert (R4 : reach snake tame s3 s4) by (eapply reach_weaken; [exact quiet_tame|]; eapply does_reach; [exact Dv|exact Er0]).
  destruct (Wr e s4 I4 F4 R4) as (z & Ez). specialize (Er _ rest). rewrite Ez in Er.
  match goal with |- fst ?x = _ => assert (x = (Ok tt, z)) as ->; [|reflexivity] end. rewrite <- Er.
  unfold bind, rest. destruct props; reflexivity.
Qed.
End Fit.

(** ** The properties *)
(** C130, what holds: as long as no identify call carries a date (and nobody links ids of
    the project, changes its properties or writes its records behind the ingester's back),
    no call - accepted or refused - spoils a record: after every history, every value stored
    in a record of the project belongs to a property of its kind of groups and is of the
    type of that property's column.
    Missing for the full claim: dates (there it is false). *)
Theorem C130_no_dates_partial :
  forall (snake : string -> string) isdict (enc : SVal -> N) (dcv : N -> SVal),
  (forall x, no_slash x = true -> no_slash (snake x) = true) -> (forall v, dcv (enc v) = v) ->
  forall p es, Forall (quiet_ev p) es -> ~ linked snake isdict enc dcv es p ->
    let m := st_md (sv_st (snd (serve_all snake isdict enc dcv es (up (mkSt [] [] []))))) in
    forall g key gv id w, kget (real_key p g key) m = Some (VRec (RGroupValues gv)) -> In (id, w) (gv_values gv) ->
    exists pr, prop_by_id p (KGroup g) id m = Ok pr /\ btype_eqb (sval_type (dcv w)) (column_type isdict pr) = true.
Proof.
  intros snake isdict enc dcv Sn De p es Q L m g key gv id w E Hin.
  pose proof (fine_history snake isdict enc dcv Sn De p es Q L) as Fs. fold m in Fs.
  exact (proj1 (Forall_forall _ _) (fn_vals _ _ _ _ Fs g key gv E) (id, w) Hin).
Qed.
Print Assumptions C130_no_dates_partial.

(** C127 for identify calls: after every such history, an identify call that carries the
    project's token, names a kind of groups that is known (or that the project still has
    room for) and gives each property at most once with a value its property takes, is
    accepted. *)
Theorem C127_identify_accepted_partial :
  forall (snake : string -> string) isdict (enc : SVal -> N) (dcv : N -> SVal),
  (forall x, no_slash x = true -> no_slash (snake x) = true) -> (forall v, dcv (enc v) = v) ->
  (forall pr, isdict pr = true -> pp_type pr = PBase TString) ->
  forall p es, Forall (quiet_ev p) es -> ~ linked snake isdict enc dcv es p ->
    let s := sv_st (snd (serve_all snake isdict enc dcv es (up (mkSt [] [] [])))) in
    forall r pj grp, project_by_token (id_token r) (st_md s) = Ok pj -> pr_id pj = p ->
      fst (group_type_get_or_create p (id_group r) (st_md s)) = Ok grp ->
      match id_props r with Some l => NoDup (map fst l) /\ Forall (takes isdict p (KGroup (gr_id grp)) (st_md s)) l | None => True end ->
      fst (identify snake isdict enc dcv r s) = Ok tt.
Proof.
  intros snake isdict enc dcv Sn De Di p es Q L s r pj grp. apply identify_ready; auto. now apply fine_history.
Qed.
Print Assumptions C127_identify_accepted_partial.

(** C127 with groups: after every such history, a track call that carries the project's
    token, exactly one of the two ids, groups of kinds that are known or that the project still
    has room for (five names cover the kinds there are and those in the call), each property
    at most once with a value its property takes, and whose agent and campaign columns are text
    properties of the project, is accepted. *)
Theorem C127_groups_accepted_partial :
  forall (snake : string -> string) isdict (enc : SVal -> N) (dcv : N -> SVal),
  (forall x, no_slash x = true -> no_slash (snake x) = true) -> (forall v, dcv (enc v) = v) ->
  (forall pr, isdict pr = true -> pp_type pr = PBase TString) ->
  forall p es, Forall (quiet_ev p) es -> ~ linked snake isdict enc dcv es p ->
    let s := sv_st (snd (serve_all snake isdict enc dcv es (up (mkSt [] [] [])))) in
    forall now r pj, project_by_token (tr_token r) (st_md s) = Ok pj -> pr_id pj = p ->
      (exists e, event_by_name p EVENT_SESSION_BEGIN (st_md s) = Ok e) ->
      one_id r = true ->
      match tr_groups r with
      | Some l => exists kinds, (List.length kinds <= 5)%nat /\ (forall n g, kget (group_name_key p n) (st_md s) = Some (VRec (RGroup g)) -> In n kinds) /\ incl (map fst l) kinds
      | None => True
      end ->
      match tr_props r with Some l => NoDup (map fst l) /\ Forall (takes isdict p KEvent (st_md s)) l | None => True end ->
      Forall (takes_text isdict p (st_md s)) (tr_agent r) -> Forall (takes_text isdict p (st_md s)) (tr_utm r) ->
      fst (track snake isdict dcv now r s) = Ok tt.
Proof.
  intros snake isdict enc dcv Sn De Di p es Q L s now r pj Ep Ei Hb One Hg Hp Ha Hu.
  assert (Fs : Fine isdict dcv p (st_md s)) by (now apply (fine_history snake isdict enc dcv)).
  eapply (track_ready snake isdict enc dcv); eauto. apply event_known_iff; [constructor; apply Fs|exact Hb].
Qed.
Print Assumptions C127_groups_accepted_partial.

(** *** A case *)
(** An encoding of the stored values that can be read back. *)
Definition z_pos (z : Z) : positive := match z with Z0 => xH | Zpos q => xO q | Zneg q => xI q end.
Definition pos_z (q : positive) : Z := match q with xH => Z0 | xO r => Zpos r | xI r => Zneg r end.
Definition bit (b : bool) (q : positive) : positive := if b then xI q else xO q.
Definition ty_pos (t : BType) (q : positive) : positive :=
  match t with
  | TString => xO (xO (xO q)) | TInt8 => xO (xO (xI q)) | TInt16 => xO (xI (xO q)) | TInt32 => xO (xI (xI q))
  | TInt64 => xI (xO (xO q)) | TDecimal => xI (xO (xI q)) | TBoolean => xI (xI (xO q)) | TTimestamp => xI (xI (xI q))
  end.
Definition pos_ty (q : positive) : BType * positive :=
  match q with
  | xO (xO (xO r)) => (TString, r) | xO (xO (xI r)) => (TInt8, r) | xO (xI (xO r)) => (TInt16, r) | xO (xI (xI r)) => (TInt32, r)
  | xI (xO (xO r)) => (TInt64, r) | xI (xO (xI r)) => (TDecimal, r) | xI (xI (xO r)) => (TBoolean, r) | xI (xI (xI r)) => (TTimestamp, r)
  | _ => (TString, xH)
  end.
Fixpoint str_pos (v : string) : positive :=
  match v with
  | EmptyString => xH
  | String (Ascii a b c d e f g h) r => bit a (bit b (bit c (bit d (bit e (bit f (bit g (bit h (str_pos r))))))))
  end.
Fixpoint bits (q : positive) : list bool := match q with xH => [] | xO r => false :: bits r | xI r => true :: bits r end.
Fixpoint chars (l : list bool) : string :=
  match l with a :: b :: c :: d :: e :: f :: g :: h :: r => String (Ascii a b c d e f g h) (chars r) | _ => EmptyString end.
Definition sv_n (v : SVal) : N :=
  Npos match v with
       | SInt t z => xO (xO (xO (ty_pos t (z_pos z))))
       | SDec z => xO (xO (xI (z_pos z)))
       | SStr t => xO (xI (xO (str_pos t)))
       | SBool b => xO (xI (xI (bit b xH)))
       | STime z => xI (xO (xO (z_pos z)))
       | SNull t => xI (xO (xI (ty_pos t xH)))
       end.
Definition n_sv (n : N) : SVal :=
  match n with
  | Npos (xO (xO (xO q))) => let (t, r) := pos_ty q in SInt t (pos_z r)
  | Npos (xO (xO (xI q))) => SDec (pos_z q)
  | Npos (xO (xI (xO q))) => SStr (chars (bits q))
  | Npos (xO (xI (xI q))) => SBool (match q with xI _ => true | _ => false end)
  | Npos (xI (xO (xO q))) => STime (pos_z q)
  | Npos (xI (xO (xI q))) => SNull (fst (pos_ty q))
  | _ => SNull TString
  end.
Lemma n_sv_n v : n_sv (sv_n v) = v.
Proof.
  assert (Ez : forall z, pos_z (z_pos z) = z) by now intros [].
  destruct v as [t z|z|t|b|z|t]; cbn [sv_n n_sv]; try (now rewrite Ez); try (now destruct b); try (now destruct t); try (destruct t; cbn; now rewrite Ez).
  f_equal. induction t as [|[a b c d e f g h] r IH]; [reflexivity|]. cbn [str_pos].
  assert (Eb : forall x q, bits (bit x q) = x :: bits q) by now intros []. rewrite !Eb. cbn [chars]. now rewrite IH.
Qed.
(** The shop; "ann" is described with an age and a name, then a call that is refused, a
    crash-free restart, and a call about her and her company. *)
Definition id_call (grp key : string) (l : option (list (string * PropValue))) : Identify := mkIdentify "token" 0 grp key l.
Definition story : list Ev :=
  (map EMd shop ++
   [ECall (CIdentify (id_call "user" "ann" (Some [("age", PVNumber 44 0); ("name", PVString "Ann")])));
    ECall (CIdentify (id_call "user" "ann" (Some [("age", PVString "old")])));
    ECall (CIdentify (id_call "company" "acme" (Some [("open", PVBool true)]))); ERestart])%list.
Definition told : Server := snd (serve_all plain (fun _ => false) sv_n n_sv story (up (mkSt [] [] []))).
(** The kinds of groups a store holds, read off its keys. *)
Lemma prefix_app a b : String.prefix a (a ++ b) = true.
Proof. induction a as [|c r IH]; cbn; [now destruct b|]. now destruct (ascii_dec c c). Qed.
Lemma kinds_seen p kinds (m : Store) :
  forallb (fun e => negb (String.prefix ("projects/" ++ dec p ++ "/groups/names/") e) || existsb (fun n => String.eqb e (group_name_key p n)) kinds) (map fst m) = true ->
  forall n g, kget (group_name_key p n) m = Some (VRec (RGroup g)) -> In n kinds.
Proof.
  intros H n g E. assert (Hin : In (group_name_key p n) (map fst m)) by (apply (AMap.aget_In string_dec); eexists; exact E).
  pose proof (proj1 (forallb_forall _ _) H _ Hin) as K. cbv beta in K. apply orb_prop in K as [K|K].
  - exfalso. unfold group_name_key in K. replace ("projects/" ++ dec p ++ "/groups/names/" ++ n) with (("projects/" ++ dec p ++ "/groups/names/") ++ n) in K by (rewrite !app_assoc_s; reflexivity).
    rewrite prefix_app in K. discriminate K.
  - apply existsb_exists in K as (k & Hk & Eq). apply String.eqb_eq in Eq. change (render (KGroupName p n) = render (KGroupName p k)) in Eq.
    apply render_inj in Eq; [|reflexivity|reflexivity]. injection Eq as ->. exact Hk.
Qed.
Example C127_groups_witness :
  Forall (quiet_ev 1) story /\ ~ linked plain (fun _ => false) sv_n n_sv story 1 /\
  fst (serve_all plain (fun _ => false) sv_n n_sv story (up (mkSt [] [] []))) =
    [None; None; None; None; Some (Ok tt); Some (Err BadRequest); Some (Ok tt); None] /\
  (exists pj, project_by_token "token" (st_md (sv_st told)) = Ok pj /\ pr_id pj = 1%N) /\
  (exists e, event_by_name 1 EVENT_SESSION_BEGIN (st_md (sv_st told)) = Ok e) /\
  (exists g, kget (group_name_key 1 "company") (st_md (sv_st told)) = Some (VRec (RGroup g))) /\
  (exists gv, kget (real_key 1 0 "ann") (st_md (sv_st told)) = Some (VRec (RGroupValues gv)) /\ List.length (gv_values gv) = 2%nat) /\
  fst (track plain (fun _ => false) n_sv 5 (mkTrack "token" (Some "ann") None 7 "Buy" None (Some [("company", "acme")]) [] [] "ip") (sv_st told)) = Ok tt /\
  (* a kind of groups that is not known yet: there is room for it *)
  (forall n g, kget (group_name_key 1 n) (st_md (sv_st told)) = Some (VRec (RGroup g)) -> In n ["user"; "company"; "team"]) /\
  kget (group_name_key 1 "team") (st_md (sv_st told)) = None /\
  fst (track plain (fun _ => false) n_sv 5 (mkTrack "token" (Some "ann") None 7 "Buy" None (Some [("company", "acme"); ("team", "red")]) [] [] "ip") (sv_st told)) = Ok tt /\
  (exists grp, fst (group_type_get_or_create 1 "user" (st_md (sv_st told))) = Ok grp /\
     takes (fun _ => false) 1 (KGroup (gr_id grp)) (st_md (sv_st told)) ("age", PVNumber 45 0) /\
     ~ takes (fun _ => false) 1 (KGroup (gr_id grp)) (st_md (sv_st told)) ("age", PVString "old") /\
     takes (fun _ => false) 1 (KGroup (gr_id grp)) (st_md (sv_st told)) ("town", PVString "Rome")).
Proof.
  split.
  { repeat (constructor; [cbn; try exact I; try (intros l [= <-]; repeat constructor); repeat split; try discriminate|]). constructor. }
  split.
  { intros (a & e & b & E & L). destruct e as [c|o|]; cbn in L; [|destruct o; try contradiction|contradiction].
    - destruct L as [B _]. assert (H : In (ECall c) story) by (rewrite E; apply in_or_app; right; now left). cbn in H.
      repeat (destruct H as [H|H]; [try discriminate H; injection H as <-; discriminate B|]). contradiction.
    - match type of E with story = (a ++ ?x :: b)%list => assert (H : In x story) by (rewrite E; apply in_or_app; right; now left) end. cbn in H.
      repeat (destruct H as [H|H]; [discriminate H|]). contradiction. }
  split; [vm_compute; reflexivity|]. split; [eexists; split; vm_compute; reflexivity|]. split; [eexists; vm_compute; reflexivity|].
  split; [eexists; vm_compute; reflexivity|]. split; [eexists; split; vm_compute; reflexivity|]. split; [vm_compute; reflexivity|].
  split; [apply kinds_seen; vm_compute; reflexivity|]. split; [vm_compute; reflexivity|]. split; [vm_compute; reflexivity|].
  exists (mkGroup 0 "user"). split; [vm_compute; reflexivity|].
  assert (Ea : prop_by_name 1 (KGroup 0) "age" (st_md (sv_st told)) = Ok (mkProperty 1 (KGroup 0) "age" None 0 (PBase TDecimal) false)) by (vm_compute; reflexivity).
  assert (Et : prop_by_name 1 (KGroup 0) "town" (st_md (sv_st told)) = Err NotFound) by (vm_compute; reflexivity).
  unfold takes. cbn [fst snd gr_id]. rewrite Ea, Et. split; [now left|]. split; [intro H; discriminate H|exact I].
Qed.
