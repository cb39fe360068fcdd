(** Property C125: one bad call does not stop the others. *)
From Coq Require Import List NArith ZArith String Ascii Bool Lia.
From Verif Require Import AMap Kv KvKeys KvKeysFacts KvFacts Md MdOps MdFrame MdTyped MdIndex MdEntities MdProps PropsNames PropsGroups
  Ingest IngestFacts PropsIngest PropsPeople IngestServer.
Import ListNotations.
Local Open Scope string_scope.

(** ** When a call crashes *)
Section Calm.
Variable merged : N -> N -> Prop.
Notation Ty := (Typed merged).
(** [m] crashes only if [Q], and keeps the kinds of the stored values. *)
Definition calm {A} (Q : Prop) (m : M A) : Prop :=
  forall s, Ty (st_md s) -> (fst (m s) = Err Panicked -> Q) /\ Ty (st_md (snd (m s))).
Lemma calm_ret {A} Q (x : A) : calm Q (ret x). Proof. intros s T. now split. Qed.
Lemma calm_fail {A} (Q : Prop) e : (e = Panicked -> Q) -> calm Q (@fail A e).
Proof. intros H s T. split; [|exact T]. cbn. intros [= ->]. auto. Qed.
Lemma calm_look {A} (Q : Prop) (f : Store -> Res A) : (forall m, Ty m -> f m <> Err Panicked) -> calm Q (look f).
Proof. intros H s T. split; [|exact T]. cbn. intro E. now destruct (H _ T). Qed.
Lemma calm_on {A} (Q : Prop) (f : Store -> Res A * Store) :
  (forall m, Ty m -> fst (f m) <> Err Panicked) -> (forall m, Ty m -> Ty (snd (f m))) -> calm Q (on_md f).
Proof.
  intros H K s T. specialize (H _ T). specialize (K _ T). unfold on_md. destruct (f (st_md s)) as [y m]. cbn in *. split; [congruence|exact K].
Qed.
Lemma calm_bind {A B} Q (m : M A) (f : A -> M B) :
  calm Q m -> (forall x s s', m s = (Ok x, s') -> calm Q (f x)) -> calm Q (bind m f).
Proof.
  intros Hm Hf s T. unfold bind. destruct (Hm s T) as [H1 H2]. destruct (m s) as [[x|e] s'] eqn:E; cbn [fst snd] in *.
  - exact (Hf _ _ _ E s' H2).
  - split; [|exact H2]. intros [= ->]. auto.
Qed.
Lemma calm_bind_ {A B} Q (m : M A) (f : A -> M B) : calm Q m -> (forall x, calm Q (f x)) -> calm Q (bind m f).
Proof. intros Hm Hf. apply calm_bind; auto. Qed.
Lemma calm_each {A B} Q (f : A -> M B) l : (forall x, In x l -> calm Q (f x)) -> calm Q (each f l).
Proof.
  induction l as [|x r IH]; cbn [each]; intro H; [apply calm_ret|].
  apply calm_bind_; [apply H; now left|]. intro y. apply calm_bind_; [apply IH; intros; apply H; now right|]. intro. apply calm_ret.
Qed.
Lemma calm_insert_event Q vs : calm Q (insert_event vs).
Proof. intros s T. unfold insert_event. destruct (types_ok vs); cbn; split; auto; discriminate. Qed.
Lemma calm_insert_group Q g vs : calm Q (insert_group g vs).
Proof. intros s T. unfold insert_group. destruct (types_ok vs); cbn; split; auto; discriminate. Qed.
Lemma calm_op {A} (Q : Prop) snake o (f : Store -> Res A * Store) :
  (forall m, Ty m -> fst (f m) <> Err Panicked) -> wf_op o = true -> match o with OMerge p g _ _ _ => merged p g | _ => True end ->
  (forall m, snd (f m) = md_step snake o m) -> calm Q (on_md f).
Proof. intros H W Hm E. apply calm_on; [exact H|]. intros m T. rewrite E. now apply md_typed. Qed.
End Calm.

Lemma ok_not {A} (x : Res A) : (exists n, x = Ok n) -> x <> Err Panicked.
Proof. intros (n & ->). discriminate. Qed.

(** A number that does not fit the integer type of its property. *)
Definition too_big (isdict : Property -> bool) (x : Property * PropValue) : Prop :=
  exists m sc b bits, snd x = PVNumber m sc /\ isdict (fst x) = false /\ pp_type (fst x) = PBase b /\ int_bits b = Some bits /\
    ~ (- 2 ^ bits <= Z.quot m (10 ^ Z.of_N sc) < 2 ^ bits)%Z.

Section Crash.
Variable snake : string -> string.
Variable isdict : Property -> bool.
Variables (enc : SVal -> N) (dcv : N -> SVal).
Hypothesis snake_ok : forall x, no_slash x = true -> no_slash (snake x) = true.
Variable merged : N -> N -> Prop.
Notation Ty := (Typed merged).
Notation calm := (calm merged).

Lemma to_int_none bits m sc : to_int bits m sc = None -> ~ (- 2 ^ bits <= Z.quot m (10 ^ Z.of_N sc) < 2 ^ bits)%Z.
Proof.
  unfold to_int. destruct (Z.leb_spec (- 2 ^ bits) (Z.quot m (10 ^ Z.of_N sc))), (Z.ltb_spec (Z.quot m (10 ^ Z.of_N sc)) (2 ^ bits)); cbn; try discriminate; lia.
Qed.
Lemma calm_value p tbl x : no_slash tbl = true -> calm (too_big isdict x) (property_to_value snake isdict p tbl x).
Proof.
  intro Wt. destruct x as [pr v]. unfold property_to_value. destruct (isdict pr) eqn:Ed.
  - destruct v; try (apply calm_fail; discriminate). apply calm_bind_; [|intro; apply calm_ret].
    assert (W : no_slash tbl && no_slash (column_name snake pr) = true) by now rewrite Wt, col_no_slash.
    apply calm_op with (snake := snake) (o := ODictEncode p tbl (column_name snake pr) v); auto.
    intros m T. apply ok_not. now apply (dict_read merged).
  - destruct (pp_type pr) as [b|b] eqn:Et; [|destruct v; apply calm_fail; discriminate].
    assert (I : forall m sc bits, int_bits b = Some bits -> v = PVNumber m sc -> calm (too_big isdict (pr, v))
        (match to_int bits m sc with Some z => ret (SInt b z) | None => fail Panicked end)).
    { intros m sc bits Eb ->. destruct (to_int bits m sc) eqn:E; [apply calm_ret|]. apply calm_fail. intros _.
      exists m, sc, b, bits. repeat split; auto. now apply to_int_none. }
    destruct b, v; try (apply calm_ret); try (apply calm_fail; discriminate); cbn [int_bits]; now apply I.
Qed.
Lemma calm_resolve (Q : Prop) p k l : calm Q (resolve_properties snake p k l).
Proof.
  apply calm_each. intros x _. apply calm_bind_; [|intro; apply calm_ret].
  apply calm_op with (snake := snake) (o := OPropGetOrCreate p k (fst x) None (data_type (snd x)) false); auto.
  intros m T. destruct (data_type (snd x)) eqn:E; [now apply (prop_read merged)|destruct x as [? []]; discriminate].
Qed.
Lemma calm_who (Q : Prop) p r : ~ merged p 0%N -> ~ (present (tr_user r) && present (tr_anon r) = true) -> calm Q (who p r).
Proof.
  intros M B. unfold who, GROUP_USER_ID. destruct (tr_user r) as [u|], (tr_anon r) as [a|]; [now destruct B| | |apply calm_fail; discriminate].
  - apply calm_bind_; [apply calm_op with (snake := snake) (o := OGroupGet p 0 u []); auto; intros m T; apply ok_not; now apply (real_read merged)|].
    intro g. apply calm_bind_; [|intro; apply calm_ret].
    apply calm_op with (snake := snake) (o := ODictCreateKey p TABLE_EVENTS (group_col 0) (gv_id g) u); auto; discriminate.
  - apply calm_bind_; [apply calm_op with (snake := snake) (o := OAnon p 0 a); auto; intros m T; apply ok_not; now apply (anon_read merged)|].
    intro i. apply calm_bind_; [|intro; apply calm_ret].
    apply calm_op with (snake := snake) (o := ODictCreateKey p TABLE_EVENTS (group_col 0) i a); auto; discriminate.
Qed.
Lemma calm_groups (Q : Prop) p u r : (forall g, ~ merged p g) -> calm Q (track_groups p u r).
Proof.
  intro M. unfold track_groups. destruct (tr_groups r) as [l|]; [|apply calm_ret]. apply calm_bind_; [|intro; apply calm_ret].
  apply calm_each. intros x _. unfold track_group.
  apply calm_bind_; [apply calm_op with (snake := snake) (o := OGroupType p (fst x)); auto; intros m T; now apply (group_type_read merged)|].
  intro g. apply calm_bind_; [apply calm_op with (snake := snake) (o := OGroupGet p (gr_id g) (snd x) []); auto; intros m T; apply ok_not; now apply (real_read merged)|].
  intro v. apply calm_bind_; [|intro; apply calm_ret].
  apply calm_op with (snake := snake) (o := ODictCreateKey p TABLE_EVENTS (group_col (gr_id g)) (gv_id v) (snd x)); auto; [discriminate|].
  cbn [wf_op]. now rewrite group_col_no_slash.
Qed.
Lemma calm_named p x : calm (too_big isdict x) (named_property snake isdict p x).
Proof. apply calm_bind_; [now apply calm_value|]. intro. apply calm_ret. Qed.
Lemma calm_send now p u e gs props r : calm (exists x, In x props /\ too_big isdict x) (send snake isdict dcv now p u e gs props r).
Proof.
  set (Q := exists x, _). unfold send.
  assert (W : forall A (P : Prop) (m : M A), (P -> Q) -> calm P m -> calm Q m).
  { intros A P m H C s T. destruct (C s T). auto. }
  apply calm_bind_; [apply calm_op with (snake := snake) (o := OSession p u now); auto; intros m T; apply ok_not; now apply (session_read merged)|].
  intro new. apply calm_bind_; [apply calm_each; intros x Hx; apply (W _ (too_big isdict x)); [intro; exists x; auto|apply calm_named]|].
  intro pv. apply calm_bind_.
  { apply calm_each. intros x _. apply calm_each. intros y _. apply calm_bind_; [|intro; apply calm_ret].
    apply calm_look. intros m T. now apply (prop_id_read merged). }
  intro gv. apply calm_bind_.
  { apply calm_each. intros x _. apply calm_bind; [apply calm_bind_; [apply calm_look; intros m T; now apply (prop_name_read merged)|intro; apply calm_ret]|].
    intros y s s' E. apply (W _ (too_big isdict y)); [|apply calm_named]. intros (m & sc & b & bits & Ey & _).
    apply bind_ok in E as (pr & s1 & _ & E). apply ret_ok in E as [-> _]. discriminate. }
  intro utm. cbv zeta.
  assert (Rec : calm Q (on_md (event_next_record p))).
  { apply calm_op with (snake := snake) (o := OEventRecord p); auto. intros m T. apply ok_not. now apply (record_read merged). }
  apply calm_bind_.
  { destruct (new : bool); [|apply calm_ret]. apply calm_bind_; [exact Rec|]. intro n.
    apply calm_bind_; [apply calm_look; intros m T; now apply (event_name_read merged)|]. intro. apply calm_insert_event. }
  intros []. apply calm_bind_; [exact Rec|]. intro n. apply calm_insert_event.
Qed.
(** A number of the call that does not fit the property it is kept under: [name] is resolved
    in a state the call goes through. *)
Definition misfit (s : St) (p : N) (k : PropKind) (l : list (string * PropValue)) : Prop :=
  exists name v pr t t', In (name, v) l /\ reach snake (fun o => wf_op o = true) s t /\
    resolve_property snake p k (name, v) t = (Ok (pr, v), t') /\ too_big isdict (pr, v).
Lemma resolved_in p k l s0 s xs s' x : reach snake (fun o => wf_op o = true) s0 s ->
  resolve_properties snake p k l s = (Ok xs, s') -> In x xs -> too_big isdict x -> misfit s0 p k l.
Proof.
  intros R E Hx B. apply (each_reach snake (fun o => wf_op o = true)) in E.
  2: { intro y. apply does_bind; [|intro; apply does_ret]. now apply does_op with (OPropGetOrCreate p k (fst y) None (data_type (snd y)) false). }
  destruct (Forall2_in (fun x y => exists s1 s2, reach snake (fun o => wf_op o = true) s s1 /\ resolve_property snake p k y s1 = (Ok x, s2)) xs l x) as (y & Hy & s1 & s2 & R1 & Er); auto.
  { clear - E. induction E as [|? ? ? ? (? & ? & ? & ? & ?)]; constructor; eauto. }
  assert (Ev : snd y = snd x) by (unfold resolve_property in Er; apply bind_ok in Er as (pr & s3 & _ & Er); apply ret_ok in Er as [-> _]; reflexivity).
  destruct y as [name v], x as [pr v']. cbn in Ev. subst v'. exists name, v, pr, s1, s2. repeat split; auto. eapply reach_trans; eauto.
Qed.
Lemma at_bind {A B} (Q : Prop) (m : M A) (f : A -> M B) s : calm Q m -> Ty (st_md s) ->
  (forall x s', m s = (Ok x, s') -> Ty (st_md s') -> (fst (f x s') = Err Panicked -> Q) /\ Ty (st_md (snd (f x s')))) ->
  (fst (bind m f s) = Err Panicked -> Q) /\ Ty (st_md (snd (bind m f s))).
Proof.
  intros Hm T Hf. unfold bind. destruct (Hm s T) as [H1 H2]. destruct (m s) as [[x|e] s'] eqn:E; cbn [fst snd] in *.
  - exact (Hf _ _ eq_refl H2).
  - split; [|exact H2]. intros [= ->]. auto.
Qed.
Lemma at_calm {A} (Q : Prop) (m : M A) s : calm Q m -> Ty (st_md s) -> (fst (m s) = Err Panicked -> Q) /\ Ty (st_md (snd (m s))).
Proof. intro C. apply C. Qed.
Lemma bind_look {A B} (f : Store -> Res A) (k : A -> M B) s x : f (st_md s) = Ok x -> bind (look f) k s = k x s.
Proof. intro E. unfold bind, look. now rewrite E. Qed.
Lemma calm_track now r pj : (forall g, ~ merged (pr_id pj) g) -> ~ (present (tr_user r) && present (tr_anon r) = true) ->
  forall s, Ty (st_md s) -> project_by_token (tr_token r) (st_md s) = Ok pj ->
  (fst (track snake isdict dcv now r s) = Err Panicked -> exists l, tr_props r = Some l /\ misfit s (pr_id pj) KEvent l) /\
  Ty (st_md (snd (track snake isdict dcv now r s))).
Proof.
  intros NM B s T Ep. unfold track. rewrite (bind_look _ _ _ _ Ep). cbv zeta. revert s T Ep.
  set (p := pr_id pj) in *. intros s T _.
  set (Q := exists l, _).
  assert (W : forall A (P : Prop) (m : M A), (P -> Q) -> calm P m -> calm Q m).
  { intros A P m H C z Tz. destruct (C z Tz). auto. }
  apply at_bind; [destruct (tr_props r); [|apply calm_ret]; apply calm_bind_; [apply calm_resolve|intro; apply calm_ret]|exact T|].
  intros props s0' Epr T0.
  assert (Hp : forall x, In x (match props with Some l => l | None => [] end) -> too_big isdict x -> Q).
  { intros x Hx Bx. destruct (tr_props r) as [l|] eqn:El.
    - apply bind_ok in Epr as (xs & s1 & E1 & E2). apply ret_ok in E2 as [-> _]. exists l. split; [reflexivity|]. eapply (resolved_in _ _ _ s); eauto using reach_refl.
    - apply ret_ok in Epr as [-> _]. destruct Hx. }
  apply at_calm; [|exact T0]. apply calm_bind_; [now apply calm_who|]. intro w. apply calm_bind_; [now apply calm_groups|]. intro gs.
  set (ids := map _ _). apply calm_bind_.
  { apply calm_op with (snake := snake) (o := OEventGetOrCreate p (tr_event r) None ids); auto. intros m T2. now apply (event_read merged). }
  intro e. apply calm_bind_.
  { destruct props; [|apply calm_ret]. apply calm_op with (snake := snake) (o := OEventAttach p (ev_id e) ids); auto. intros m T2. now apply (attach_read merged). }
  intros _. apply calm_bind.
  { apply calm_each. intros x _. apply calm_bind_; [|intro; apply calm_ret]. apply calm_look. intros m T2. now apply (prop_name_read merged). }
  intros extra s1 s1' Ee. apply calm_bind_.
  - apply (W _ (exists x, In x ((match props with Some l => l | None => [] end) ++ extra)%list /\ too_big isdict x)); [|apply calm_send].
    intros (x & Hx & Bx). apply in_app_or in Hx as [Hx|Hx]; [eauto|]. exfalso.
    apply each_ok in Ee. destruct (Forall2_in (fun x y => exists s1 s2, named_by_name p y s1 = (Ok x, s2)) extra (tr_agent r) x) as (y & Hy & s2 & s3 & Er); auto.
    { clear - Ee. induction Ee; constructor; auto. }
    apply bind_ok in Er as (pr & s4 & _ & Er). apply ret_ok in Er as [-> _]. destruct Bx as (m & sc & b & bits & Ey & _). discriminate.
  - intros _. apply calm_op with (snake := snake) (o := OProjectCount p); auto. intros m T2. now apply (count_read merged).
Qed.
Lemma calm_identify r pj : (forall g, ~ merged (pr_id pj) g) ->
  forall s, Ty (st_md s) -> project_by_token (id_token r) (st_md s) = Ok pj ->
  (fst (identify snake isdict enc dcv r s) = Err Panicked -> exists l g, id_props r = Some l /\ misfit s (pr_id pj) (KGroup g) l) /\
  Ty (st_md (snd (identify snake isdict enc dcv r s))).
Proof.
  intros NM s T Ep. unfold identify. rewrite (bind_look _ _ _ _ Ep). cbv zeta. revert s T Ep.
  set (p := pr_id pj) in *. intros s T _.
  set (Q := exists l, _).
  assert (W : forall A (P : Prop) (m : M A), (P -> Q) -> calm P m -> calm Q m).
  { intros A P m H C z Tz. destruct (C z Tz). auto. }
  assert (Dg : does snake (fun o => wf_op o = true) (on_md (group_type_get_or_create p (id_group r)))) by now apply does_op with (OGroupType p (id_group r)).
  apply at_bind; [apply calm_op with (snake := snake) (o := OGroupType p (id_group r)); auto; intros m T'; now apply (group_type_read merged)|exact T|].
  intros g s1 Eg T1. apply (does_reach _ _ _ _ _ _ Dg) in Eg. clear Dg.
  apply at_bind; [destruct (id_props r); [apply calm_resolve|apply calm_ret]|exact T1|].
  intros props s0' Epr T0. apply at_calm; [|exact T0]. apply calm_bind_.
  { apply calm_each. intros x Hx. apply calm_bind_; [|intro; apply calm_ret].
    apply (W _ (too_big isdict x)); [|now apply calm_value; apply group_col_no_slash]. intro Bx.
    destruct (id_props r) as [l|] eqn:El; [|apply ret_ok in Epr as [-> _]; destruct Hx].
    exists l, (gr_id g). split; [reflexivity|]. eapply resolved_in; eauto. }
  intro vals. apply calm_bind_.
  { apply calm_op with (snake := snake) (o := OGroupSet p (gr_id g) (id_id r) vals); auto. intros m T2. apply ok_not. now apply (set_read merged). }
  intro gv. apply calm_bind_.
  { apply calm_op with (snake := snake) (o := ODictCreateKey p (group_col (gr_id g)) GROUP_COLUMN_ID (gv_id gv) (id_id r)); auto; [discriminate|].
    cbn [wf_op]. now rewrite group_col_no_slash. }
  intros _. apply calm_bind_.
  { apply calm_op with (snake := snake) (o := OGroupRecord p (gr_id g)); auto. intros m T2. apply ok_not. now apply (group_record_read merged). }
  intro v. apply calm_bind_.
  { apply calm_each. intros x _. apply calm_bind_; [|intro; apply calm_ret]. apply calm_look. intros m T2. now apply (prop_id_read merged). }
  intro named. apply calm_insert_group.
Qed.
End Crash.

(** ** Histories *)
(** A track call with a user id and an anonymous id. *)
Definition both (c : Call) : bool := match c with CTrack _ r => present (tr_user r) && present (tr_anon r) | CIdentify _ => false end.
Definition token_of (c : Call) : string := match c with CTrack _ r => tr_token r | CIdentify r => id_token r end.
Definition wf_ev (e : Ev) : bool := match e with EMd o => wf_op o | _ => true end.
(** The event links two ids of the project [q]. *)
Definition links (q : N) (e : Ev) (s : St) : Prop :=
  match e with
  | ECall c => both c = true /\ exists pj, project_by_token (token_of c) (st_md s) = Ok pj /\ pr_id pj = q
  | EMd (OMerge q' _ _ _ _) => q' = q
  | _ => False
  end.

Section History.
Variable snake : string -> string.
Variable isdict : Property -> bool.
Variables (enc : SVal -> N) (dcv : N -> SVal).
Hypothesis snake_ok : forall x, no_slash x = true -> no_slash (snake x) = true.
Notation perform := (perform snake isdict enc dcv).
Notation serve := (serve snake isdict enc dcv).
Notation serve_all := (serve_all snake isdict enc dcv).

Definition links_only (c : Call) (p : N) (o : MdOp) : Prop :=
  wf_op o = true /\
  match o with
  | OMerge q _ _ _ _ => q = p /\ both c = true
  | OEventUpdate _ _ _ _ | OEventDelete _ _ | OPropUpdate _ _ _ _ _ _ | OPropDelete _ _ _ | OProjectCreate _ _ _ _ | OProjectUpdate _ _ _ | OProjectDelete _ => False
  | _ => True
  end.
Lemma does_call c pj s : project_by_token (token_of c) (st_md s) = Ok pj ->
  exists ops, st_md (snd (perform c s)) = md_run snake ops (st_md s) /\ Forall (links_only c (pr_id pj)) ops.
Proof.
  destruct c as [now r|r]; cbn [token_of IngestServer.perform]; intro E.
  - unfold track. rewrite (bind_look _ _ _ _ E). cbv zeta. set (p := pr_id pj). set (P := links_only _ p).
    match goal with |- exists ops, st_md (snd (?m s)) = _ /\ _ => enough (D : does snake P m) by exact (D s) end.
    assert (Ev : forall n l, P (OEventGetOrCreate p n None l)) by now split.
    apply does_bind; [destruct (tr_props r); [|apply does_ret]; apply does_bind; [apply does_resolve; now split|intro; apply does_ret]|intro props].
    apply does_bind.
    { unfold who. destruct (tr_user r) as [u|] eqn:Eu, (tr_anon r) as [a|] eqn:Ea; try apply does_fail.
      - apply does_bind; [|intro; apply does_ret]. apply does_op with (OMerge p GROUP_USER_ID u a []); [|reflexivity]. split; [reflexivity|]. split; [reflexivity|].
        cbn. now rewrite Eu, Ea.
      - apply does_bind; [now apply does_op with (OGroupGet p GROUP_USER_ID u [])|intro g].
        apply does_bind; [|intro; apply does_ret]. now apply does_op with (ODictCreateKey p TABLE_EVENTS (group_col GROUP_USER_ID) (gv_id g) u).
      - apply does_bind; [now apply does_op with (OAnon p GROUP_USER_ID a)|intro g].
        apply does_bind; [|intro; apply does_ret]. now apply does_op with (ODictCreateKey p TABLE_EVENTS (group_col GROUP_USER_ID) g a). }
    intro w. apply does_bind.
    { unfold track_groups. destruct (tr_groups r) as [l|]; [|apply does_ret].
      apply does_bind; [|intro; apply does_ret]. apply does_each. intro x. unfold track_group.
      apply does_bind; [now apply does_op with (OGroupType p (fst x))|intro g].
      apply does_bind; [now apply does_op with (OGroupGet p (gr_id g) (snd x) [])|intro v].
      apply does_bind; [|intro; apply does_ret].
      apply does_op with (ODictCreateKey p TABLE_EVENTS (group_col (gr_id g)) (gv_id v) (snd x)); [|reflexivity].
      split; [cbn [wf_op]; now rewrite group_col_no_slash|exact Logic.I]. }
    intro gs. apply does_bind; [eapply does_op; [apply Ev|reflexivity]|intro e].
    apply does_bind; [destruct props as [l|]; [now apply does_op with (OEventAttach p (ev_id e) (map (fun x => pp_id (fst x)) l))|apply does_ret]|intros _].
    apply does_bind; [apply does_each; intro; apply does_by_name|intro extra].
    apply does_bind; [|intros _; now apply does_op with (OProjectCount p)].
    apply does_weaken with (send_op p); [|now apply does_send]. intros o [Wo H]. split; [exact Wo|]. destruct o; auto; contradiction.
  - unfold identify. rewrite (bind_look _ _ _ _ E). cbv zeta. set (p := pr_id pj). set (P := links_only _ p).
    match goal with |- exists ops, st_md (snd (?m s)) = _ /\ _ => enough (D : does snake P m) by exact (D s) end.
    apply does_bind; [now apply does_op with (OGroupType p (id_group r))|intro g].
    apply does_bind; [destruct (id_props r); [apply does_resolve; now split|apply does_ret]|intro props].
    apply does_bind; [apply does_each; intro; apply does_bind; [|intro; apply does_ret]|intro vals].
    { apply does_value; [exact snake_ok|]. intros d v Hd. split; [cbn [wf_op]; now rewrite Hd, group_col_no_slash|exact Logic.I]. }
    apply does_bind; [now apply does_op with (OGroupSet p (gr_id g) (id_id r) vals)|intro gv].
    apply does_bind; [apply does_op with (ODictCreateKey p (group_col (gr_id g)) GROUP_COLUMN_ID (gv_id gv) (id_id r)); [|reflexivity]|intros _].
    { split; [cbn [wf_op]; now rewrite group_col_no_slash|exact Logic.I]. }
    apply does_bind; [now apply does_op with (OGroupRecord p (gr_id g))|intro v].
    apply does_bind; [apply does_each; intro; apply does_stored|intro]. apply does_insert_group.
Qed.
Lemma no_token c e s : project_by_token (token_of c) (st_md s) = Err e -> perform c s = (Err e, s).
Proof. destruct c; cbn; intro E; unfold track, identify, bind, look; now rewrite E. Qed.

(** The events before the current one that were answered by running the call. *)
Lemma serve_typed (merged : N -> N -> Prop) e sv : wf_ev e = true -> (forall q g, links q e (sv_st sv) -> merged q g) ->
  Typed merged (st_md (sv_st sv)) -> Typed merged (st_md (sv_st (snd (serve e sv)))).
Proof.
  intros W L T. destruct e as [c|o|]; cbn [IngestServer.serve snd sv_st st_md]; [|apply md_typed; auto; destruct o; auto; now apply L|exact T].
  destruct (if is_track c then sv_track sv else sv_identify sv); [exact T|].
  assert (Tc : Typed merged (st_md (snd (perform c (sv_st sv))))).
  { destruct (project_by_token (token_of c) (st_md (sv_st sv))) as [pj|e] eqn:E; [|now rewrite (no_token _ _ _ E)].
    destruct (does_call c pj (sv_st sv) E) as (ops & -> & F). apply md_run_typed; [| |exact T].
    - apply forallb_forall. intros o Ho. rewrite Forall_forall in F. exact (proj1 (F o Ho)).
    - intros q g a u v Hin. rewrite Forall_forall in F. destruct (F _ Hin) as (_ & -> & B). apply L. split; [exact B|]. now exists pj. }
  destruct (perform c (sv_st sv)) as [y s']. cbn [snd] in *. now destruct (is_track c).
Qed.
(** Two ids of the project [q] were linked in the history [es]. *)
Definition linked (es : list Ev) (q : N) : Prop :=
  exists es1 e es2, es = (es1 ++ e :: es2)%list /\ links q e (sv_st (snd (serve_all es1 (up (mkSt [] [] []))))).
Lemma serve_app a b sv : snd (serve_all (a ++ b) sv) = snd (serve_all b (snd (serve_all a sv))).
Proof.
  revert sv. induction a as [|e r IH]; intro sv; cbn; [reflexivity|]. destruct (serve e sv) as [x sv1]. specialize (IH sv1).
  destruct (serve_all (r ++ b) sv1), (serve_all r sv1). cbn in *. exact IH.
Qed.
Lemma history_typed es : forallb wf_ev es = true ->
  Typed (fun q _ => linked es q) (st_md (sv_st (snd (serve_all es (up (mkSt [] [] [])))))).
Proof.
  induction es as [|e r IH] using rev_ind; intro W; [apply Typed_nil|].
  rewrite forallb_app in W. cbn in W. apply andb_prop in W as [W1 W2]. rewrite andb_true_r in W2.
  rewrite serve_app. set (sv := snd (serve_all r _)) in *. specialize (IH W1).
  replace (snd (serve_all [e] sv)) with (snd (serve e sv)) by (cbn; now destruct (serve e sv)).
  apply serve_typed; [exact W2| |].
  - intros q g L. exists r, e, []. now split.
  - revert IH. apply typed_more. intros q g (a & x & b & -> & L). exists a, x, (b ++ [e])%list. split; [|exact L]. now rewrite <- app_assoc.
Qed.
Lemma links_dec q e s : links q e s \/ ~ links q e s.
Proof.
  destruct e as [c|o|]; cbn; [|destruct o; auto; destruct (N.eq_dec p q); auto|auto].
  destruct (both c); [|right; now intros []]. destruct (project_by_token _ _) as [pj|]; [|right; intros (_ & pj & [=] & _)].
  destruct (N.eq_dec (pr_id pj) q); [left; eauto|right; intros (_ & x & [= <-] & E); contradiction].
Qed.
Lemma linked_dec es q : linked es q \/ ~ linked es q.
Proof.
  induction es as [|e r IH] using rev_ind; [right; intros ([] & ? & ? & [=] & _)|].
  destruct IH as [(a & x & b & -> & L)|IH]; [left; exists a, x, (b ++ [e])%list; split; [now rewrite <- app_assoc|exact L]|].
  destruct (links_dec q e (sv_st (snd (serve_all r (up (mkSt [] [] [])))))) as [L|L]; [left; exists r, e, []; now split|].
  right. intros (a & x & b & E & L'). destruct b as [|y b] using rev_ind.
  - apply app_inj_tail in E as [-> ->]. contradiction.
  - rewrite app_comm_cons, app_assoc in E. apply app_inj_tail in E as [-> _]. apply IH. now exists a, x, b.
Qed.
(** A call crashes only when two ids of its project were linked before, when it links two
    ids itself, or when one of its numbers does not fit an integer property. *)
Theorem C125_crash_only_partial :
  forall es, forallb wf_ev es = true ->
  let s := sv_st (snd (serve_all es (up (mkSt [] [] [])))) in
  forall c, fst (perform c s) = Err Panicked ->
  exists pj, project_by_token (token_of c) (st_md s) = Ok pj /\
    (linked es (pr_id pj) \/ both c = true \/
     match c with
     | CTrack _ r => exists l, tr_props r = Some l /\ misfit snake isdict s (pr_id pj) KEvent l
     | CIdentify r => exists l g, id_props r = Some l /\ misfit snake isdict s (pr_id pj) (KGroup g) l
     end).
Proof.
  intros es W s c Hc. pose proof (history_typed es W) as T. fold s in T.
  destruct (project_by_token (token_of c) (st_md s)) as [pj|e] eqn:E.
  2: { rewrite (no_token _ _ _ E) in Hc. cbn in Hc. injection Hc as ->. now destruct (project_read _ (token_of c) _ T). }
  exists pj. split; [reflexivity|].
  destruct (linked_dec es (pr_id pj)) as [L|NL]; [now left|right].
  destruct (both c) eqn:B; [now left|right].
  destruct c as [now r|r]; cbn [token_of IngestServer.perform] in *.
  - eapply (calm_track snake isdict dcv snake_ok (fun q _ => linked es q)); eauto. cbn in B. now rewrite B.
  - eapply (calm_identify snake isdict enc dcv snake_ok (fun q _ => linked es q)); eauto.
Qed.

(** A history whose calls never carry both ids, and whose numbers fit every integer type,
    never crashes: each call is answered by running it, and the server stays up. *)
Definition small (l : list (string * PropValue)) : Prop :=
  forall name m sc, In (name, PVNumber m sc) l -> (- 2 ^ 7 <= Z.quot m (10 ^ Z.of_N sc) < 2 ^ 7)%Z.
Definition easy (e : Ev) : Prop :=
  match e with
  | ECall c => both c = false /\
      match c with CTrack _ r => forall l, tr_props r = Some l -> small l | CIdentify r => forall l, id_props r = Some l -> small l end
  | EMd o => wf_op o = true /\ match o with OMerge _ _ _ _ _ => False | _ => True end
  | ERestart => True
  end.
Lemma small_fits s p k l : small l -> ~ misfit snake isdict s p k l.
Proof.
  intros H (name & v & pr & t & t' & Hin & _ & _ & m & sc & b & bits & Ev & _ & _ & Eb & F). cbn in Ev. subst v.
  apply F. specialize (H _ _ _ Hin). assert (7 <= bits)%Z by (destruct b; cbn in Eb; try discriminate; injection Eb as <-; lia).
  assert (2 ^ 7 <= 2 ^ bits)%Z by (apply Z.pow_le_mono_r; lia). lia.
Qed.
(** The same history on a program without locks. *)
Definition alone1 (e : Ev) (s : St) : option (Res unit) * St :=
  match e with
  | ECall c => let (y, s') := perform c s in (Some y, s')
  | EMd o => (None, mkSt (md_step snake o (st_md s)) (st_events s) (st_groups s))
  | ERestart => (None, s)
  end.
Fixpoint alone (es : list Ev) (s : St) : list (option (Res unit)) * St :=
  match es with
  | [] => ([], s)
  | e :: r => let (a, s1) := alone1 e s in let (l, s2) := alone r s1 in (a :: l, s2)
  end.
Lemma serve_alone e s : fst (alone1 e s) <> Some (Err Panicked) -> serve e (up s) = (fst (alone1 e s), up (snd (alone1 e s))).
Proof.
  destruct e as [c|o|]; cbn; intro H; auto. destruct (perform c s) as [y s'] eqn:E. cbn in *.
  assert (crashed y = false) as -> by (destruct y as [|[]]; cbn; congruence). now destruct (is_track c).
Qed.
(** As long as no call crashes, the locks are not seen: the answers and the stored data are
    those of the calls run one after the other. *)
Theorem C125_same_until_crash_partial :
  forall es s, ~ In (Some (Err Panicked)) (fst (alone es s)) ->
  serve_all es (up s) = (fst (alone es s), up (snd (alone es s))).
Proof.
  induction es as [|e r IH]; intros s H; [reflexivity|]. cbn [IngestServer.serve_all alone] in *.
  destruct (alone1 e s) as [a s1] eqn:E1. destruct (alone r s1) as [l s2] eqn:E2. cbn [fst snd] in *.
  pose proof (serve_alone e s) as S1. rewrite E1 in S1. cbn [fst snd] in S1. rewrite S1 by (intros ->; apply H; now left).
  specialize (IH s1). rewrite E2 in IH. cbn [fst snd] in IH. rewrite IH by (intro; apply H; now right). reflexivity.
Qed.
Lemma alone_app a b s : alone (a ++ b) s = (fst (alone a s) ++ fst (alone b (snd (alone a s))), snd (alone b (snd (alone a s))))%list.
Proof.
  revert s. induction a as [|e r IH]; intro s; cbn; [now destruct (alone b s)|].
  destruct (alone1 e s) as [x s1]. rewrite IH. now destruct (alone r s1).
Qed.
Theorem C125_easy_calls_never_crash_partial :
  forall es, Forall easy es ->
  ~ In (Some (Err Panicked)) (fst (serve_all es (up (mkSt [] [] [])))) /\
  exists s, snd (serve_all es (up (mkSt [] [] []))) = up s.
Proof.
  intros es F. enough (H : ~ In (Some (Err Panicked)) (fst (alone es (mkSt [] [] [])))).
  { rewrite (C125_same_until_crash_partial es _ H). cbn. eauto. }
  induction es as [|e r IH] using rev_ind; [cbn; tauto|]. apply Forall_app in F as [F1 F2]. specialize (IH F1). apply Forall_inv in F2.
  rewrite alone_app. cbn [fst]. intro Hin. apply in_app_or in Hin as [Hin|Hin]; [contradiction|]. cbn in Hin.
  destruct (alone1 e _) as [a s1] eqn:E1. cbn in Hin. destruct Hin as [->|[]].
  destruct e as [c|o|]; try discriminate. cbn in E1. destruct (perform c (snd (alone r (mkSt [] [] [])))) as [y s2] eqn:Ep. injection E1 as -> ->.
  assert (W : forallb wf_ev r = true).
  { apply forallb_forall. intros x Hx. rewrite Forall_forall in F1. specialize (F1 x Hx). destruct x; auto. apply F1. }
  pose proof (C125_crash_only_partial r W c) as K. cbv zeta in K. rewrite (C125_same_until_crash_partial r _ IH) in K. cbn [snd sv_st up] in K.
  rewrite Ep in K. destruct (K eq_refl) as (pj & _ & [L|[B|B]]).
  - destruct L as (e1 & e & e2 & -> & L). rewrite Forall_forall in F1. specialize (F1 e). rewrite in_app_iff in F1. specialize (F1 (or_intror (or_introl eq_refl))).
    destruct e as [d|o|]; cbn in L, F1; [destruct L, F1; congruence|destruct o; tauto|tauto].
  - destruct F2. congruence.
  - destruct F2 as [_ F2]. destruct c; [destruct B as (l & El & B)|destruct B as (l & g & El & B)]; eapply small_fits; eauto.
Qed.
(** The calls answered under the lock that [c] takes. *)
Definition same_lock (c : Call) (e : Ev) : bool := match e with ECall d => Bool.eqb (is_track d) (is_track c) | _ => false end.
(** One call that crashes stops every later call of its kind, of all projects, until the
    server is restarted: each of them crashes too, and leaves nothing behind.  The calls of
    the other kind go on as if those calls had not been made. *)
Theorem C125_one_crash_stops_the_rest_refuted :
  forall c sv es, fst (serve (ECall c) sv) = Some (Err Panicked) -> ~ In ERestart es ->
  let sv1 := snd (serve (ECall c) sv) in
  Forall2 (fun e a => same_lock c e = true -> a = Some (Err Panicked)) es (fst (serve_all es sv1)) /\
  snd (serve_all es sv1) = snd (serve_all (filter (fun e => negb (same_lock c e)) es) sv1).
Proof.
  intros c sv es Hc Hr sv1.
  assert (Hl : (if is_track c then sv_track sv1 else sv_identify sv1) = true).
  { unfold sv1. cbn in *. destruct (if is_track c then sv_track sv else sv_identify sv) eqn:E; [exact E|].
    destruct (perform c (sv_st sv)) as [y s']. cbn in *. injection Hc as ->. cbn. now destruct (is_track c). }
  revert Hl. generalize sv1. clear sv1 Hc. induction es as [|e r IH]; intros sv1 Hl; [split; [constructor|reflexivity]|].
  assert (Hr' : ~ In ERestart r) by (intro; apply Hr; now right). specialize (IH Hr').
  assert (Hk : (if is_track c then sv_track (snd (serve e sv1)) else sv_identify (snd (serve e sv1))) = true).
  { destruct e as [d|o|]; [|exact Hl|exfalso; apply Hr; now left]. cbn.
    destruct (if is_track d then _ else _) eqn:E; [exact Hl|]. destruct (perform d (sv_st sv1)) as [y s'].
    destruct (is_track c), (is_track d); cbn in *; congruence. }
  cbn [IngestServer.serve_all filter].
  destruct (same_lock c e) eqn:Ek; cbn [negb].
  - destruct e as [d|o|]; try discriminate. cbn in Ek. apply Bool.eqb_prop in Ek.
    assert (Es : serve (ECall d) sv1 = (Some (Err Panicked), sv1)) by (cbn; rewrite Ek; now rewrite Hl).
    rewrite Es in *. destruct (IH sv1 Hl) as [A B]. destruct (serve_all r sv1) as [l sv2]. cbn [fst snd] in *. split; [now constructor|exact B].
  - cbn [IngestServer.serve_all]. destruct (serve e sv1) as [a sv2]. cbn [snd] in Hk. destruct (IH sv2 Hk) as [A B].
    destruct (serve_all r sv2) as [l sv3]. cbn [fst snd] in *. split; [constructor; [congruence|exact A]|].
    destruct (serve_all (filter _ r) sv2). exact B.
Qed.
End History.

(** ** C126: a project goes on taking new users *)
(** The sequence of the user numbers of the group holds text that is not read as a number,
    and the next link will leave such a text too. *)
Definition Frozen (p g : N) (s : Store) : Prop :=
  (exists t, kg (KGroupSeq p g) s = Some (VText t) /\ String.length t <> 8%nat) /\
  (forall k v, kg (KAnon p g k) s = Some v -> exists n, v = VNum n /\ String.length (dec n) <> 8%nat).
Section Frozen.
Variables (snake : string -> string) (p g : N).
Lemma frozen_next s : Frozen p g s -> next_seq (group_seq_key p g) s = (Err Panicked, s).
Proof.
  intros [(t & E & L) _]. unfold next_seq, next_from. change (kget (group_seq_key p g) s) with (kg (KGroupSeq p g) s). rewrite E. cbn [read_num].
  destruct (Nat.eqb_spec (String.length t) 8); [contradiction|]. reflexivity.
Qed.
Lemma frozen_step o s : wf_op o = true -> Frozen p g s -> Frozen p g (md_step snake o s).
Proof.
  intros W Fz.
  assert (F : ~ touches o (KGroupSeq p g) -> (forall k, ~ touches o (KAnon p g k)) -> Frozen p g (md_step snake o s)).
  { intros T1 T2. destruct Fz as [(t & E & L) A]. split.
    - exists t. split; [|exact L]. rewrite (only_kg _ _ _ _ (md_frame snake o s W)); auto.
    - intros k v Hk. apply (A k). rewrite <- Hk. symmetry. apply (only_kg _ _ _ _ (md_frame snake o s W)); auto. }
  assert (PG : forall q h : N, {(q, h) = (p, g)} + {(q, h) <> (p, g)}) by (intros; repeat decide equality).
  assert (Put : forall k v s1, Frozen p g s1 -> Frozen p g (kput (render (KReal p g k)) v s1)).
  { intros k v s1 [(t & E & L) A]. split.
    - exists t. rewrite kg_put_ne; auto; discriminate.
    - intros k' v'. rewrite kg_put_ne; [apply A|reflexivity|reflexivity|discriminate]. }
  destruct o; try (apply F; [|intro]; cbn; try tauto; try (intros [[]|(x & E)]; discriminate); try (destruct k; cbn; intuition congruence);
     unfold in_props; cbn; intuition congruence).
  - destruct (PG p0 g0) as [[= -> ->]|N]; [|apply F; [|intro]; cbn; intuition congruence]. cbn [md_step]. unfold anon_get_or_create.
    destruct (kget _ s) as [v|]; [now destruct (read_num v)|]. now rewrite (frozen_next s Fz).
  - destruct (PG p0 g0) as [[= -> ->]|N]; [|apply F; [|intro]; cbn; intuition congruence]. cbn [md_step]. unfold merge_with_anonymous, anon_get_or_create.
    destruct (kget (real_key p g id) s); [exact Fz|]. change (kget (anon_key p g anonymous) s) with (kg (KAnon p g anonymous) s).
    destruct (kg (KAnon p g anonymous) s) as [v|] eqn:Ea; [|now rewrite (frozen_next s Fz)].
    destruct (proj2 Fz _ _ Ea) as (n & -> & L). cbn [read_num snd]. apply (Put id). split.
    + exists (dec n). split; [|exact L]. apply kg_put_eq.
    + intros k v. change (group_seq_key p g) with (render (KGroupSeq p g)). rewrite kg_put_ne; [apply (proj2 Fz)|reflexivity|reflexivity|discriminate].
  - destruct (PG p0 g0) as [[= -> ->]|N]; [|apply F; [|intro]; cbn; intuition congruence]. cbn [md_step]. unfold group_get_or_create.
    destruct (kget _ s); [exact Fz|]. now rewrite (frozen_next s Fz).
  - destruct (PG p0 g0) as [[= -> ->]|N]; [|apply F; [|intro]; cbn; intuition congruence]. cbn [md_step]. unfold group_create_or_update.
    destruct (kget _ s) as [v|]; [|now rewrite (frozen_next s Fz)]. destruct (read_group_values v); [|exact Fz]. now apply (Put key).
Qed.
Lemma frozen_run ops s : forallb wf_op ops = true -> Frozen p g s -> Frozen p g (md_run snake ops s).
Proof. intro W. apply (md_run_inv (Frozen p g)); [|exact W]. intros. now apply frozen_step. Qed.
End Frozen.
Lemma ask_anon p g k n s : kg (KAnon p g k) s = Some (VNum n) -> ask p g (Anon k) s = Ok n.
Proof. intro E. cbn. unfold anon_get_or_create. change (kget (anon_key p g k) s) with (kg (KAnon p g k) s). now rewrite E. Qed.
Lemma link_freezes merged p g a u vals s gv s' : Typed merged s -> kg (KReal p g u) s = None ->
  (forall k n, ask p g (Anon k) s = Ok n -> (String.length (dec n) < 8)%nat) ->
  merge_with_anonymous p g a u vals s = (Ok gv, s') -> Frozen p g s'.
Proof.
  intros T Hu H. unfold merge_with_anonymous. change (kget (real_key p g u) s) with (kg (KReal p g u) s). rewrite Hu.
  destruct (anon_get_or_create p g a s) as [[n|] s1] eqn:Ea; [|discriminate]. intros [= <- <-].
  assert (Hn : (String.length (dec n) < 8)%nat) by (apply (H a); cbn; now rewrite Ea).
  assert (Ha : forall k v, kg (KAnon p g k) s1 = Some v -> exists m, v = VNum m /\ String.length (dec m) <> 8%nat).
  { assert (Hs : forall k v, kg (KAnon p g k) s = Some v -> exists m, v = VNum m /\ String.length (dec m) <> 8%nat).
    { intros k v E. pose proof (T (KAnon p g k) v eq_refl E) as Ft. cbn in Ft. destruct v; try contradiction. eexists. split; [reflexivity|].
      apply ask_anon, H in E. lia. }
    revert Ea. unfold anon_get_or_create. change (kget (anon_key p g a) s) with (kg (KAnon p g a) s). destruct (kg (KAnon p g a) s) as [v|] eqn:E.
    - destruct (read_num v); [|discriminate]. intros [= -> <-]. exact Hs.
    - destruct (next_seq _ s) as [[m|] s2] eqn:En; [|discriminate]. intros [= -> <-] k v.
      change (anon_key p g a) with (render (KAnon p g a)). destruct (string_dec k a) as [->|Nk].
      + rewrite kg_put_eq. intros [= <-]. eexists. split; [reflexivity|lia].
      + rewrite kg_put_ne; [|reflexivity|reflexivity|congruence].
        rewrite (only_kg (fun x => x = KGroupSeq p g) s s2); [apply Hs| |reflexivity|discriminate].
        eapply next_seq_only; [exact En|]. exists (KGroupSeq p g). auto. }
  change (real_key p g u) with (render (KReal p g u)). change (group_seq_key p g) with (render (KGroupSeq p g)). split.
  - exists (dec n). split; [|lia]. rewrite kg_put_ne; [|reflexivity|reflexivity|discriminate]. apply kg_put_eq.
  - intros k v. rewrite !kg_put_ne; try reflexivity; try discriminate. apply Ha.
Qed.
Lemma ask_same p g k s s' : (forall x, x = KAnon p g k \/ x = KGroupSeq p g -> kg x s' = kg x s) -> ask p g (Anon k) s' = ask p g (Anon k) s.
Proof.
  intro H. cbn. unfold anon_get_or_create, next_seq, next_from.
  change (kget (anon_key p g k) s') with (kg (KAnon p g k) s'). change (kget (anon_key p g k) s) with (kg (KAnon p g k) s).
  change (kget (group_seq_key p g) s') with (kg (KGroupSeq p g) s'). change (kget (group_seq_key p g) s) with (kg (KGroupSeq p g) s).
  rewrite !H by auto. destruct (kg (KAnon p g k) s) as [v|]; [now destruct (read_num v)|].
  destruct (kg (KGroupSeq p g) s) as [v|]; [now destruct (read_num v)|reflexivity].
Qed.
(** A track call with one id that has no entry yet. *)
Definition new_one (p : N) (r : Track) (s : Store) : Prop :=
  match tr_user r, tr_anon r with
  | Some u, None => kget (real_key p 0 u) s = None
  | None, Some a => kget (anon_key p 0 a) s = None
  | _, _ => False
  end.
Lemma frozen_who p r s : Frozen p 0 (st_md s) -> new_one p r (st_md s) -> who p r s = (Err Panicked, s).
Proof.
  intros Fz. unfold new_one, who, GROUP_USER_ID. destruct (tr_user r) as [u|], (tr_anon r) as [a|]; try contradiction; intro E.
  - unfold bind, on_md, group_get_or_create. rewrite E, (frozen_next _ _ _ Fz). now destruct s.
  - unfold bind, on_md, anon_get_or_create. rewrite E, (frozen_next _ _ _ Fz). now destruct s.
Qed.

Section New.
Variable snake : string -> string.
Variable isdict : Property -> bool.
Variables (enc : SVal -> N) (dcv : N -> SVal).
Hypothesis snake_ok : forall x, no_slash x = true -> no_slash (snake x) = true.
Notation perform := (perform snake isdict enc dcv).
Notation serve := (serve snake isdict enc dcv).
Notation serve_all := (serve_all snake isdict enc dcv).

Lemma frozen_serve p g e sv : wf_ev e = true -> Frozen p g (st_md (sv_st sv)) -> Frozen p g (st_md (sv_st (snd (serve e sv)))).
Proof.
  intros W T. destruct e as [c|o|]; cbn [IngestServer.serve snd sv_st st_md]; [|now apply frozen_step|exact T].
  destruct (if is_track c then sv_track sv else sv_identify sv); [exact T|].
  assert (Tc : Frozen p g (st_md (snd (perform c (sv_st sv))))).
  { destruct (project_by_token (token_of c) (st_md (sv_st sv))) as [pj|e] eqn:E; [|now rewrite (no_token _ _ _ _ _ _ _ E)].
    destruct (does_call snake isdict enc dcv snake_ok c pj (sv_st sv) E) as (ops & -> & F). apply frozen_run; [|exact T].
    apply forallb_forall. intros o Ho. rewrite Forall_forall in F. exact (proj1 (F o Ho)). }
  destruct (perform c (sv_st sv)) as [y s']. cbn [snd] in *. now destruct (is_track c).
Qed.
Lemma frozen_all p g es : forall sv, forallb wf_ev es = true -> Frozen p g (st_md (sv_st sv)) -> Frozen p g (st_md (sv_st (snd (serve_all es sv)))).
Proof.
  induction es as [|e r IH]; cbn [forallb IngestServer.serve_all]; intros sv W T; [exact T|]. apply andb_prop in W as [W1 W2].
  pose proof (frozen_serve p g e sv W1 T) as T1. destruct (serve e sv) as [a sv1]. cbn [snd] in T1. specialize (IH sv1 W2 T1).
  destruct (serve_all r sv1). exact IH.
Qed.
Lemma track_links merged now r pj a u s s' : Typed merged (st_md s) -> project_by_token (tr_token r) (st_md s) = Ok pj ->
  tr_user r = Some u -> tr_anon r = Some a -> kget (real_key (pr_id pj) 0 a) (st_md s) = None ->
  (forall k n, ask (pr_id pj) 0 (Anon k) (st_md s) = Ok n -> (String.length (dec n) < 8)%nat) -> merged (pr_id pj) 0%N ->
  track snake isdict dcv now r s = (Ok tt, s') -> Frozen (pr_id pj) 0 (st_md s').
Proof.
  intros T Ep Eu Ea Hn Hd Hm E. unfold track in E. rewrite (bind_look _ _ _ _ Ep) in E. cbv zeta in E. set (p := pr_id pj) in *.
  apply bind_ok in E as (props & s1 & E1 & E).
  set (P := fun o => exists n t, o = OPropGetOrCreate p KEvent n None t false).
  assert (R1 : reach snake P s s1).
  { eapply does_reach; [|exact E1]. destruct (tr_props r); [|apply does_ret]. apply does_bind; [apply does_resolve; intros; red; eauto|intro; apply does_ret]. }
  destruct R1 as (ops & R1 & F1).
  assert (K : forall k, (k = KReal p 0 a \/ (exists x, k = KAnon p 0 x) \/ k = KGroupSeq p 0) -> kg k (st_md s1) = kg k (st_md s)).
  { intros k Hk. rewrite R1. apply (run_kept snake P); [now destruct Hk as [->|[[x ->]| ->]]|exact F1|].
    intros o (n & t & ->). split; [reflexivity|]. destruct Hk as [->|[[x ->]| ->]]; cbn; unfold in_props; cbn; intuition congruence. }
  assert (T1 : Typed merged (st_md s1)).
  { rewrite R1. apply md_run_typed; [| |exact T].
    - apply forallb_forall. intros o Ho. rewrite Forall_forall in F1. now destruct (F1 o Ho) as (n & t & ->).
    - intros q g x y v Ho. rewrite Forall_forall in F1. destruct (F1 _ Ho) as (n & t & [=]). }
  apply bind_ok in E as (w & s2 & E2 & E).
  assert (Z : Frozen p 0 (st_md s2)).
  { unfold who in E2. rewrite Eu, Ea in E2. apply bind_ok in E2 as (gv & s3 & E2 & E3). apply ret_ok in E3 as [_ ->].
    apply on_md_ok in E2 as [E2 _]. eapply (link_freezes merged p 0); [exact T1| | |exact E2].
    - rewrite K by auto. exact Hn.
    - intros k n Hk. apply (Hd k). rewrite <- Hk. symmetry. apply ask_same. intros x [->| ->]; apply K; eauto. }
  apply bind_ok in E as (gs & s3 & E3 & E).
  assert (D : forall A (Q : MdOp -> Prop) (m : M A) x t t', (forall o, Q o -> wf_op o = true) -> does snake Q m -> m t = (Ok x, t') -> Frozen p 0 (st_md t) -> Frozen p 0 (st_md t')).
  { intros A Q m x t t' HQ Dm Em Fz. apply (does_reach _ _ _ _ _ _ Dm) in Em as (o & -> & Fo). apply frozen_run; [|exact Fz].
    apply forallb_forall. intros y Hy. rewrite Forall_forall in Fo. auto. }
  assert (Z3 : Frozen p 0 (st_md s3)) by (eapply (D _ (prep_op p)); [|apply does_groups|exact E3|exact Z]; now intros o []).
  apply bind_ok in E as (e & s4 & E4 & E). set (ids := map _ _) in *.
  assert (Z4 : Frozen p 0 (st_md s4)).
  { eapply (D _ (fun o => wf_op o = true)); [auto| |exact E4|exact Z3]. now apply does_op with (OEventGetOrCreate p (tr_event r) None ids). }
  apply bind_ok in E as (? & s5 & E5 & E).
  assert (Z5 : Frozen p 0 (st_md s5)).
  { eapply (D _ (fun o => wf_op o = true)); [auto| |exact E5|exact Z4]. destruct props; [|apply does_ret]. now apply does_op with (OEventAttach p (ev_id e) ids). }
  apply bind_ok in E as (extra & s6 & E6 & E).
  assert (Z6 : Frozen p 0 (st_md s6)) by (eapply (D _ (fun o => wf_op o = true)); [auto| |exact E6|exact Z5]; apply does_each; intro; apply does_by_name).
  apply bind_ok in E as (? & s7 & E7 & E).
  assert (Z7 : Frozen p 0 (st_md s7)) by (eapply (D _ (send_op p)); [|now apply does_send|exact E7|exact Z6]; now intros o []).
  eapply (D _ (fun o => wf_op o = true)); [auto| |exact E|exact Z7]. now apply does_op with (OProjectCount p).
Qed.
(** One accepted call with both ids closes its project to new users and visitors: from then
    on, after any other calls and restarts, no call for a user or visitor without an entry
    is accepted, and such a call without properties crashes (and so stops the track calls
    of all projects, C125).  [fewer than eight digits]: the text left behind is read as a
    number when it has eight bytes. *)
Theorem C126_link_closes_project_refuted :
  forall es now r es2 now' r' pj pj' u a,
  forallb wf_ev es = true -> forallb wf_ev es2 = true ->
  let sv1 := snd (serve_all es (up (mkSt [] [] []))) in
  let m1 := st_md (sv_st sv1) in
  project_by_token (tr_token r) m1 = Ok pj -> tr_user r = Some u -> tr_anon r = Some a ->
  kget (real_key (pr_id pj) 0 a) m1 = None ->
  (forall k n, ask (pr_id pj) 0 (Anon k) m1 = Ok n -> (String.length (dec n) < 8)%nat) ->
  fst (serve (ECall (CTrack now r)) sv1) = Some (Ok tt) ->
  let sv2 := snd (serve_all es2 (snd (serve (ECall (CTrack now r)) sv1))) in
  let m2 := st_md (sv_st sv2) in
  project_by_token (tr_token r') m2 = Ok pj' -> pr_id pj' = pr_id pj -> new_one (pr_id pj) r' m2 ->
  fst (serve (ECall (CTrack now' r')) sv2) <> Some (Ok tt) /\
  (tr_props r' = None -> fst (serve (ECall (CTrack now' r')) sv2) = Some (Err Panicked)).
Proof.
  intros es now r es2 now' r' pj pj' u a W1 W2 sv1 m1 Ep Eu Ea Hn Hd Hs sv2 m2 Ep' Ei Hnew.
  assert (Z : Frozen (pr_id pj) 0 m2).
  { unfold m2, sv2. apply frozen_all; [exact W2|]. cbn [IngestServer.serve is_track] in *. destruct (sv_track sv1); [discriminate|].
    cbn [IngestServer.perform] in *. destruct (track snake isdict dcv now r (sv_st sv1)) as [y s'] eqn:Et. cbn [fst snd sv_st] in *. injection Hs as ->.
    eapply (track_links (fun q _ => linked snake isdict enc dcv (es ++ [ECall (CTrack now r)])%list q)); eauto.
    - eapply typed_more; [|apply (history_typed snake isdict enc dcv snake_ok es W1)]. intros q _ (e1 & x & e2 & -> & L). exists e1, x, (e2 ++ [ECall (CTrack now r)])%list.
      split; [|exact L]. now rewrite <- app_assoc.
    - exists es, (ECall (CTrack now r)), []. split; [reflexivity|]. split; [cbn; now rewrite Eu, Ea|]. exists pj. now split. }
  assert (Hnone : fst (track snake isdict dcv now' r' (sv_st sv2)) <> Ok tt /\ (tr_props r' = None -> fst (track snake isdict dcv now' r' (sv_st sv2)) = Err Panicked)).
  { unfold track. rewrite (bind_look _ _ _ _ Ep'). cbv zeta. rewrite Ei. set (p := pr_id pj) in *. split.
    - intro E. match type of E with fst ?x = _ => destruct x as [y s'] eqn:E' end. cbn in E. subst y.
      apply bind_ok in E' as (props & s1 & E1 & E). apply bind_ok in E as (w & s2 & E2 & _).
      set (P := fun o => exists n t, o = OPropGetOrCreate p KEvent n None t false).
      assert (R1 : reach snake P (sv_st sv2) s1).
      { eapply does_reach; [|exact E1]. destruct (tr_props r'); [|apply does_ret]. apply does_bind; [apply does_resolve; intros; red; eauto|intro; apply does_ret]. }
      destruct R1 as (ops & R1 & F1).
      assert (Wo : forallb wf_op ops = true) by (apply forallb_forall; intros o Ho; rewrite Forall_forall in F1; now destruct (F1 o Ho) as (n & t & ->)).
      rewrite frozen_who in E2; [discriminate| |].
      + rewrite R1. now apply frozen_run.
      + assert (K : forall k, ((exists x, k = KReal p 0 x) \/ (exists x, k = KAnon p 0 x)) -> kg k (st_md s1) = kg k m2).
        { intros k Hk. rewrite R1. apply (run_kept snake P); [now destruct Hk as [[x ->]|[x ->]]|exact F1|].
          intros o (n & t & ->). split; [reflexivity|]. destruct Hk as [[x ->]|[x ->]]; cbn; unfold in_props; cbn; intuition congruence. }
        unfold new_one in *. destruct (tr_user r') as [x|], (tr_anon r') as [y|]; try contradiction.
        * change (kg (KReal p 0 x) (st_md s1) = None). rewrite K by eauto. exact Hnew.
        * change (kg (KAnon p 0 y) (st_md s1) = None). rewrite K by eauto. exact Hnew.
    - intros ->. unfold bind at 1, ret at 1. unfold bind at 1. now rewrite (frozen_who _ _ _ Z Hnew). }
  cbn [IngestServer.serve is_track]. destruct (sv_track sv2); [split; [discriminate|reflexivity]|]. cbn [IngestServer.perform].
  destruct (track snake isdict dcv now' r' (sv_st sv2)) as [y s']. cbn [fst] in *. split; [intros [= ->]; now apply Hnone|]. intro Hp. f_equal. now apply Hnone.
Qed.
End New.

Print Assumptions C125_crash_only_partial.
Print Assumptions C125_same_until_crash_partial.
Print Assumptions C125_easy_calls_never_crash_partial.
Print Assumptions C125_one_crash_stops_the_rest_refuted.
Print Assumptions C126_link_closes_project_refuted.

(** ** Cases *)
Definition run (es : list Ev) : list (option (Res unit)) * Server :=
  serve_all plain (fun _ => false) (fun _ => 0%N) (fun _ => SNull TInt64) es (up (mkSt [] [] [])).
Definition opened : list Ev := map EMd shop.
Definition hit (u a : option string) : Ev := ECall (CTrack 1700000000000 (with_ids u a)).
Definition buy (l : list (string * PropValue)) : Ev := ECall (CTrack 1700000000000 (call_of "Buy" l)).
Definition named_ann : Ev := ECall (CIdentify (mkIdentify "token" 1700000000000 "user" "ann" None)).
(** Calls in order are accepted, and the hypotheses of the theorem on easy calls are met. *)
Example C125_easy_witness :
  let es := (opened ++ [hit None (Some "cookie"); buy [("Price", PVNumber 995 2)]; named_ann; buy [("Height", PVNumber 70 1)]])%list in
  Forall easy es /\ skipn 4 (fst (run es)) = [Some (Ok tt); Some (Ok tt); Some (Ok tt); Some (Ok tt)].
Proof.
  cbv zeta. split; [|vm_compute; reflexivity]. apply Forall_app. split.
  { unfold opened, shop. cbn [map]. repeat constructor. }
  assert (Sm : forall name m sc, (- 2 ^ 7 <= Z.quot m (10 ^ Z.of_N sc) < 2 ^ 7)%Z -> small [(name, PVNumber m sc)]).
  { intros name m sc H ? ? ? [[= <- <- <-]|[]]. exact H. }
  constructor; [split; [reflexivity|]; intros l [=]|]. constructor; [split; [reflexivity|]; intros l [= <-]; apply Sm; cbn; lia|].
  constructor; [split; [reflexivity|]; intros l [=]|]. constructor; [split; [reflexivity|]; intros l [= <-]; apply Sm; cbn; lia|]. constructor.
Qed.
(** A number that does not fit an integer property stops the track calls of everybody
    until the restart; identify calls go on. *)
Example C125_witness :
  skipn 4 (fst (run (opened ++ [buy [("Height", PVNumber 70000 0)]; buy []; hit (Some "bob") None; named_ann; ERestart; buy []])%list)) =
  [Some (Err Panicked); Some (Err Panicked); Some (Err Panicked); Some (Ok tt); None; Some (Ok tt)].
Proof. vm_compute. reflexivity. Qed.
(** One call with both ids; from then on a new user stops the server, again and again; the
    visitor known before goes on. *)
Lemma kget_entry k (v : Val Rec) m : kget k m = Some v -> In (k, v) m.
Proof.
  unfold kget. induction m as [|[k' v'] r IH]; cbn; [discriminate|]. destruct (string_dec k k') as [->|]; [intros [= ->]; now left|auto].
Qed.
Lemma asks_small p (m : Store) :
  forallb (fun kv => match read_num (snd kv) with Some n => Nat.ltb (String.length (dec n)) 8 | None => true end) m = true ->
  match fst (next_seq (group_seq_key p 0) m) with Ok n => Nat.ltb (String.length (dec n)) 8 | Err _ => true end = true ->
  forall k n, ask p 0 (Anon k) m = Ok n -> (String.length (dec n) < 8)%nat.
Proof.
  intros All Nx k n. cbn [ask]. unfold anon_get_or_create. destruct (kget (anon_key p 0 k) m) as [v|] eqn:E.
  - apply kget_entry in E. rewrite forallb_forall in All. specialize (All _ E). cbn [snd] in All.
    destruct (read_num v); cbn; [|discriminate]. intros [= ->]. now apply Nat.ltb_lt.
  - destruct (next_seq (group_seq_key p 0) m) as [[i|] m']; cbn [fst] in *; [|discriminate]. intros [= ->]. now apply Nat.ltb_lt.
Qed.
Example C126_witness :
  let es1 := (opened ++ [hit None (Some "cookie")])%list in
  let m1 := st_md (sv_st (snd (run es1))) in
  skipn 4 (fst (run (es1 ++ [hit (Some "ann") (Some "cookie"); hit None (Some "cookie"); hit (Some "bob") None; ERestart;
     hit None (Some "cookie"); hit None (Some "phone")])%list)) =
  [Some (Ok tt); Some (Ok tt); Some (Ok tt); Some (Err Panicked); None; Some (Ok tt); Some (Err Panicked)] /\
  forallb wf_ev es1 = true /\ kget (real_key 1 0 "cookie") m1 = None /\
  (forall k n, ask 1 0 (Anon k) m1 = Ok n -> (String.length (dec n) < 8)%nat).
Proof.
  cbv zeta. split; [vm_compute; reflexivity|]. split; [reflexivity|]. split; [vm_compute; reflexivity|].
  apply asks_small; vm_compute; reflexivity.
Qed.
