(** Facts about [Ingest.v]: which metadata calls a call of the ingester makes, and which
    rows it adds. *)
From Coq Require Import List NArith ZArith String Ascii Bool Lia.
From Verif Require Import AMap Kv KvKeys KvKeysFacts KvFacts Md MdOps MdFrame MdIndex MdEntities Ingest PropsKeys.
Import ListNotations.
Local Open Scope string_scope.

Lemma bind_ok {A B} (m : M A) (f : A -> M B) s y s' :
  bind m f s = (Ok y, s') -> exists x s1, m s = (Ok x, s1) /\ f x s1 = (Ok y, s').
Proof. unfold bind. destruct (m s) as [[x|e] s1]; [eauto|discriminate]. Qed.
Lemma on_md_ok {A} (f : Store -> Res A * Store) s x s' :
  on_md f s = (Ok x, s') -> f (st_md s) = (Ok x, st_md s') /\ st_events s' = st_events s /\ st_groups s' = st_groups s.
Proof. unfold on_md. destruct (f (st_md s)) as [r m]. now intros [= -> <-]. Qed.
Lemma look_ok {A} (f : Store -> Res A) s x s' : look f s = (Ok x, s') -> f (st_md s) = Ok x /\ s' = s.
Proof. unfold look. now intros [= -> ->]. Qed.
Lemma ret_ok {A} (x y : A) s s' : ret x s = (Ok y, s') -> y = x /\ s' = s.
Proof. unfold ret. now intros [= -> ->]. Qed.
Lemma fail_ok {A} e (y : A) s s' : fail e s = (Ok y, s') -> False.
Proof. discriminate. Qed.
Lemma each_ok {A B} (f : A -> M B) l : forall s ys s', each f l s = (Ok ys, s') ->
  Forall2 (fun x y => exists s1 s2, f x s1 = (Ok y, s2)) l ys.
Proof.
  induction l as [|x r IH]; cbn [each]; intros s ys s' H.
  - apply ret_ok in H as [-> _]. constructor.
  - apply bind_ok in H as (y & s1 & E1 & H). apply bind_ok in H as (zs & s2 & E2 & H). apply ret_ok in H as [-> _].
    constructor; eauto.
Qed.

(** Calls that add no rows. *)
Definition quiet {A} (m : M A) : Prop := forall s, st_events (snd (m s)) = st_events s /\ st_groups (snd (m s)) = st_groups s.
Lemma quiet_ret {A} (x : A) : quiet (ret x). Proof. now split. Qed.
Lemma quiet_fail {A} e : quiet (@fail A e). Proof. now split. Qed.
Lemma quiet_look {A} (f : Store -> Res A) : quiet (look f). Proof. now split. Qed.
Lemma quiet_on {A} (f : Store -> Res A * Store) : quiet (on_md f).
Proof. intro s. unfold on_md. destruct (f (st_md s)). now split. Qed.
Lemma quiet_bind {A B} (m : M A) (f : A -> M B) : quiet m -> (forall x, quiet (f x)) -> quiet (bind m f).
Proof.
  intros Hm Hf s. unfold bind. specialize (Hm s). destruct (m s) as [[x|e] s1]; cbn [snd] in *; [|exact Hm].
  destruct (Hf x s1) as [-> ->]. exact Hm.
Qed.
Lemma quiet_each {A B} (f : A -> M B) l : (forall x, quiet (f x)) -> quiet (each f l).
Proof.
  intro Hf. induction l as [|x r IH]; cbn [each]; [apply quiet_ret|].
  apply quiet_bind; [apply Hf|intro y]. apply quiet_bind; [exact IH|intro]. apply quiet_ret.
Qed.

Section Facts.
Variable snake : string -> string.
Variable isdict : Property -> bool.
Variables (enc : SVal -> N) (dcv : N -> SVal).

(** The metadata after the call is the metadata after a sequence of metadata calls, all of
    them allowed by [P]. *)
Definition does {A} (P : MdOp -> Prop) (m : M A) : Prop :=
  forall s, exists ops, st_md (snd (m s)) = md_run snake ops (st_md s) /\ Forall P ops.
Lemma does_ret {A} P (x : A) : does P (ret x). Proof. intro s. now exists []. Qed.
Lemma does_fail {A} P e : does P (@fail A e). Proof. intro s. now exists []. Qed.
Lemma does_look {A} P (f : Store -> Res A) : does P (look f). Proof. intro s. now exists []. Qed.
Lemma does_op {A} (P : MdOp -> Prop) o (f : Store -> Res A * Store) : P o -> (forall m, snd (f m) = md_step snake o m) -> does P (on_md f).
Proof.
  intros Ho Hf s. exists [o]. split; [|now constructor]. cbn. rewrite <- Hf. unfold on_md. now destruct (f (st_md s)).
Qed.
Lemma does_bind {A B} P (m : M A) (f : A -> M B) : does P m -> (forall x, does P (f x)) -> does P (bind m f).
Proof.
  intros Hm Hf s. unfold bind. destruct (Hm s) as (o1 & E1 & F1). destruct (m s) as [[x|e] s1]; cbn [snd] in *; [|eauto].
  destruct (Hf x s1) as (o2 & E2 & F2). exists (o1 ++ o2)%list. split; [|now apply Forall_app].
  rewrite E2, E1. unfold md_run. now rewrite fold_left_app.
Qed.
Lemma does_each {A B} P (f : A -> M B) l : (forall x, does P (f x)) -> does P (each f l).
Proof.
  intro Hf. induction l as [|x r IH]; cbn [each]; [apply does_ret|].
  apply does_bind; [apply Hf|intro y]. apply does_bind; [exact IH|intro]. apply does_ret.
Qed.
Lemma does_weaken {A} (P Q : MdOp -> Prop) (m : M A) : (forall o, P o -> Q o) -> does P m -> does Q m.
Proof. intros H Hm s. destruct (Hm s) as (ops & E & F). exists ops. split; [exact E|]. eapply Forall_impl; eauto. Qed.
Lemma does_insert_event P vs : does P (insert_event vs).
Proof. intro s. exists []. unfold insert_event. destruct (types_ok vs); now split. Qed.
Lemma does_insert_group P g vs : does P (insert_group g vs).
Proof. intro s. exists []. unfold insert_group. destruct (types_ok vs); now split. Qed.

(** The metadata of [b] comes from that of [a] by metadata calls allowed by [P]. *)
Definition reach (P : MdOp -> Prop) (a b : St) : Prop :=
  exists ops, st_md b = md_run snake ops (st_md a) /\ Forall P ops.
Lemma reach_refl P a : reach P a a. Proof. now exists []. Qed.
Lemma reach_trans P a b c : reach P a b -> reach P b c -> reach P a c.
Proof.
  intros (o1 & E1 & F1) (o2 & E2 & F2). exists (o1 ++ o2)%list. split; [|now apply Forall_app].
  rewrite E2, E1. unfold md_run. now rewrite fold_left_app.
Qed.
Lemma does_reach {A} P (m : M A) s x s' : does P m -> m s = (x, s') -> reach P s s'.
Proof. intros D E. destruct (D s) as (ops & H & F). rewrite E in H. now exists ops. Qed.
Lemma reach_weaken (P Q : MdOp -> Prop) a b : (forall o, P o -> Q o) -> reach P a b -> reach Q a b.
Proof. intros H (ops & E & F). exists ops. split; [exact E|]. eapply Forall_impl; eauto. Qed.
Lemma each_reach {A B} P (f : A -> M B) l : (forall x, does P (f x)) -> forall s ys s', each f l s = (Ok ys, s') ->
  Forall2 (fun x y => exists s1 s2, reach P s s1 /\ f x s1 = (Ok y, s2) /\ reach P s2 s') l ys.
Proof.
  intro D. induction l as [|x r IH]; cbn [each]; intros s ys s' H.
  - apply ret_ok in H as [-> _]. constructor.
  - apply bind_ok in H as (y & s1 & E1 & H). apply bind_ok in H as (zs & s2 & E2 & H). apply ret_ok in H as [-> ->].
    pose proof (does_reach P _ _ _ _ (D x) E1) as R1. pose proof (does_reach P _ _ _ _ (does_each P f r D) E2) as R2.
    constructor.
    + exists s, s1. auto using reach_refl.
    + specialize (IH _ _ _ E2). clear - IH R1. induction IH as [|a b la lb (u & v & Ra & Hf & Rb) F IHF]; constructor; [|exact IHF].
      exists u, v. split; [eapply reach_trans; eauto|auto].
Qed.

Hypothesis snake_ok : forall x, no_slash x = true -> no_slash (snake x) = true.
Lemma col_no_slash pr : no_slash (column_name snake pr) = true.
Proof. now apply C28_column_names_have_no_slash. Qed.
Lemma group_col_no_slash g : no_slash (group_col g) = true.
Proof. unfold group_col. rewrite no_slash_app, dec_no_slash. reflexivity. Qed.
Lemma group_col_inj a b : group_col a = group_col b -> a = b.
Proof. unfold group_col. intro H. apply dec_inj. now injection H. Qed.

(** The metadata calls of a track call before the session, in the destination, and all. *)
Definition prep_op (p : N) (o : MdOp) : Prop :=
  wf_op o = true /\
  match o with
  | OPropGetOrCreate q KEvent _ _ _ _ | OGroupType q _ | OEventGetOrCreate q _ _ _ | OEventAttach q _ _ => q = p
  | OGroupGet q _ _ _ => q = p
  | OAnon q g _ | OMerge q g _ _ _ => q = p /\ g = 0%N
  | ODictCreateKey q t d _ _ => q = p /\ t = TABLE_EVENTS /\ exists g, d = group_col g
  | _ => False
  end.
Definition send_op (p : N) (o : MdOp) : Prop :=
  wf_op o = true /\
  match o with
  | OSession q _ _ | OEventRecord q => q = p
  | ODictEncode q t _ _ => q = p /\ t = TABLE_EVENTS
  | _ => False
  end.
Definition track_op (p : N) (o : MdOp) : Prop :=
  prep_op p o \/ send_op p o \/ o = OProjectCount p.

Lemma does_resolve (P : MdOp -> Prop) p k l : (forall n t, P (OPropGetOrCreate p k n None t false)) ->
  does P (resolve_properties snake p k l).
Proof.
  intro H. apply does_each. intro x. apply does_bind; [|intro; apply does_ret].
  eapply does_op; [apply H|reflexivity].
Qed.
Lemma does_value (P : MdOp -> Prop) p tbl x : (forall d v, no_slash d = true -> P (ODictEncode p tbl d v)) ->
  does P (property_to_value snake isdict p tbl x).
Proof.
  intro H. destruct x as [pr v]. unfold property_to_value. destruct (isdict pr).
  - destruct v; try apply does_fail. apply does_bind; [|intro; apply does_ret].
    eapply does_op; [apply H, col_no_slash|reflexivity].
  - destruct (pp_type pr) as [b|b], v; try apply does_fail; destruct b; cbn [int_bits];
    try apply does_fail; try apply does_ret; destruct (to_int _ _ _); try apply does_fail; apply does_ret.
Qed.
Lemma does_who p r : does (prep_op p) (who p r).
Proof.
  unfold who. destruct (tr_user r) as [u|], (tr_anon r) as [a|]; try apply does_fail.
  - apply does_bind; [|intro; apply does_ret]. now apply does_op with (OMerge p GROUP_USER_ID u a []).
  - apply does_bind; [now apply does_op with (OGroupGet p GROUP_USER_ID u [])|intro g].
    apply does_bind; [|intro; apply does_ret].
    apply does_op with (ODictCreateKey p TABLE_EVENTS (group_col GROUP_USER_ID) (gv_id g) u); [|reflexivity]. repeat split. now eexists.
  - apply does_bind; [now apply does_op with (OAnon p GROUP_USER_ID a)|intro g].
    apply does_bind; [|intro; apply does_ret].
    apply does_op with (ODictCreateKey p TABLE_EVENTS (group_col GROUP_USER_ID) g a); [|reflexivity]. repeat split. now eexists.
Qed.
Lemma does_groups p u r : does (prep_op p) (track_groups p u r).
Proof.
  unfold track_groups. destruct (tr_groups r) as [l|]; [|apply does_ret].
  apply does_bind; [|intro; apply does_ret]. apply does_each. intro x. unfold track_group.
  apply does_bind; [now apply does_op with (OGroupType p (fst x))|intro g].
  apply does_bind; [now apply does_op with (OGroupGet p (gr_id g) (snd x) [])|intro v].
  apply does_bind; [|intro; apply does_ret].
  apply does_op with (ODictCreateKey p TABLE_EVENTS (group_col (gr_id g)) (gv_id v) (snd x)); [|reflexivity].
  split; [cbn [wf_op]; now rewrite group_col_no_slash|]. split; [reflexivity|]. split; [reflexivity|now eexists].
Qed.
Lemma does_named p x : does (send_op p) (named_property snake isdict p x).
Proof.
  unfold named_property. apply does_bind; [|intro; apply does_ret]. apply does_value. intros d v Hd. split; [|now split].
  cbn. now rewrite Hd.
Qed.
Lemma does_stored P p g x : does P (named_stored snake isdict dcv p g x).
Proof. unfold named_stored. apply does_bind; [apply does_look|intro; apply does_ret]. Qed.
Lemma does_by_name P p x : does P (named_by_name p x).
Proof. unfold named_by_name. apply does_bind; [apply does_look|intro; apply does_ret]. Qed.
Lemma does_record p : does (send_op p) (on_md (event_next_record p)).
Proof. now apply does_op with (OEventRecord p). Qed.
Lemma does_send now p u e gs props r : does (send_op p) (send snake isdict dcv now p u e gs props r).
Proof.
  unfold send. apply does_bind; [now apply does_op with (OSession p u now)|intro new].
  apply does_bind; [apply does_each; intro; apply does_named|intro pv].
  apply does_bind; [apply does_each; intro; apply does_each; intro; apply does_stored|intro gv].
  apply does_bind; [apply does_each; intro; apply does_bind; [apply does_by_name|intro; apply does_named]|intro utm].
  cbv zeta. apply does_bind.
  - destruct new; [|apply does_ret]. apply does_bind; [apply does_record|intro n].
    apply does_bind; [apply does_look|intro]. apply does_insert_event.
  - intro. apply does_bind; [apply does_record|intro]. apply does_insert_event.
Qed.

Lemma quiet_resolve p k l : quiet (resolve_properties snake p k l).
Proof. apply quiet_each. intro. apply quiet_bind; [apply quiet_on|intro; apply quiet_ret]. Qed.
Lemma quiet_value p t x : quiet (property_to_value snake isdict p t x).
Proof.
  destruct x as [pr v]. unfold property_to_value. destruct (isdict pr).
  - destruct v; try apply quiet_fail. apply quiet_bind; [apply quiet_on|intro; apply quiet_ret].
  - destruct (pp_type pr) as [b|b], v; try apply quiet_fail; destruct b; cbn [int_bits];
    try apply quiet_fail; try apply quiet_ret; destruct (to_int _ _ _); try apply quiet_fail; apply quiet_ret.
Qed.
Lemma quiet_who p r : quiet (who p r).
Proof.
  unfold who. destruct (tr_user r), (tr_anon r); try apply quiet_fail;
  repeat (apply quiet_bind; [apply quiet_on|intro]); apply quiet_ret.
Qed.
Lemma quiet_groups p u r : quiet (track_groups p u r).
Proof.
  unfold track_groups. destruct (tr_groups r); [|apply quiet_ret]. apply quiet_bind; [|intro; apply quiet_ret].
  apply quiet_each. intro. unfold track_group. repeat (apply quiet_bind; [apply quiet_on|intro]); apply quiet_ret.
Qed.
Lemma quiet_named p x : quiet (named_property snake isdict p x).
Proof. apply quiet_bind; [apply quiet_value|intro; apply quiet_ret]. Qed.
Lemma quiet_stored p g x : quiet (named_stored snake isdict dcv p g x).
Proof. apply quiet_bind; [apply quiet_look|intro; apply quiet_ret]. Qed.
Lemma quiet_by_name p x : quiet (named_by_name p x).
Proof. apply quiet_bind; [apply quiet_look|intro; apply quiet_ret]. Qed.

Lemma insert_event_ok vs s y s' : insert_event vs s = (Ok y, s') ->
  types_ok vs = true /\ s' = mkSt (st_md s) (st_events s ++ [row_of vs])%list (st_groups s).
Proof. unfold insert_event. destruct (types_ok vs); [|discriminate]. now intros [= _ <-]. Qed.

Definition keys_of (p u : N) (gs : option (list (N * GroupValues))) : list Named :=
  ([int64 COLUMN_PROJECT_ID p; int64 (group_col GROUP_USER_ID) u] ++ group_values gs)%list.
Definition begin_row (p u n e : N) gs (utm values : list Named) (r : Track) : list Named :=
  (keys_of p u gs ++ utm ++
    [mkNamed COLUMN_CREATED_AT TTimestamp (STime (tr_time r / 1000));
     int64 COLUMN_EVENT_ID n; int64 COLUMN_EVENT e; mkNamed COLUMN_IP TString (SStr (tr_ip r))] ++ values)%list.
Definition event_row (p u n e : N) gs (values : list Named) (r : Track) : list Named :=
  (keys_of p u gs ++ [mkNamed COLUMN_CREATED_AT TTimestamp (STime (tr_time r)); int64 COLUMN_EVENT_ID n; int64 COLUMN_EVENT e] ++ values)%list.

(** What an accepted [send] adds. *)
Lemma send_ok now p u e gs props r s y s' :
  send snake isdict dcv now p u e gs props r s = (Ok y, s') ->
  exists new m pv gv utm begin n,
    session_set_time p u now (st_md s) = (Ok new, m) /\
    Forall2 (fun x v => exists s1 s2, reach (send_op p) s s1 /\ named_property snake isdict p x s1 = (Ok v, s2) /\ reach (send_op p) s2 s') props pv /\
    Forall2 (fun x v => exists s1 s2, (y <- named_by_name p x ;; named_property snake isdict p y) s1 = (Ok v, s2)) (tr_utm r) utm /\
    st_events s' = (st_events s ++ begin ++ [row_of (event_row p u n e gs (pv ++ gv) r)])%list /\
    types_ok (event_row p u n e gs (pv ++ gv) r) = true /\ st_groups s' = st_groups s /\
    if (new : bool) then exists nb sm eb, event_by_name p EVENT_SESSION_BEGIN sm = Ok eb /\
                           (exists ops, sm = md_run snake ops (st_md s) /\ Forall (send_op p) ops) /\
                           begin = [row_of (begin_row p u nb (ev_id eb) gs utm (pv ++ gv) r)]
    else begin = [].
Proof.
  unfold send. intro H.
  apply bind_ok in H as (new & s1 & E1 & H). apply on_md_ok in E1 as (E1 & V1 & G1).
  apply bind_ok in H as (pv & s2 & E2 & H).
  assert (Q2 : st_events s2 = st_events s1 /\ st_groups s2 = st_groups s1).
  { pose proof (quiet_each _ props (quiet_named p) s1) as Q. now rewrite E2 in Q. }
  apply bind_ok in H as (gv & s3 & E3 & H).
  assert (Q3 : st_events s3 = st_events s2 /\ st_groups s3 = st_groups s2).
  { epose proof (quiet_each (fun x => each (named_stored snake isdict dcv p (fst x)) (gv_values (snd x))) _ _ s2) as Q.
    rewrite E3 in Q. exact Q. Unshelve. intro x. apply quiet_each, quiet_stored. }
  apply bind_ok in H as (utm & s4 & E4 & H).
  assert (Q4 : st_events s4 = st_events s3 /\ st_groups s4 = st_groups s3).
  { epose proof (quiet_each (fun x => y <- named_by_name p x ;; named_property snake isdict p y) (tr_utm r) _ s3) as Q.
    rewrite E4 in Q. exact Q. Unshelve. intro x. apply quiet_bind; [apply quiet_by_name|intro; apply quiet_named]. }
  cbv zeta in H.
  assert (R2 : reach (send_op p) s s1) by (exists [OSession p u now]; split; [cbn; now rewrite E1|now repeat constructor]).
  assert (R3 : reach (send_op p) s2 s3).
  { eapply does_reach; [|exact E3]. apply does_each. intro. apply does_each. intro. apply does_stored. }
  assert (R4 : reach (send_op p) s s4).
  { eapply reach_trans; [exact R2|]. eapply reach_trans; [|eapply reach_trans; [exact R3|]].
    - eapply does_reach; [|exact E2]. apply does_each. intro. apply does_named.
    - eapply does_reach; [|exact E4]. apply does_each. intro. apply does_bind; [apply does_by_name|intro; apply does_named]. }
  assert (R5 : reach (send_op p) s2 s').
  { eapply reach_trans; [exact R3|]. eapply reach_trans; [eapply does_reach; [|exact E4]|].
    - apply does_each. intro. apply does_bind; [apply does_by_name|intro; apply does_named].
    - eapply does_reach; [|exact H]. apply does_bind.
      + destruct new; [|apply does_ret]. apply does_bind; [apply does_record|intro]. apply does_bind; [apply does_look|intro].
        apply does_insert_event.
      + intro. apply does_bind; [apply does_record|intro]. apply does_insert_event. }
  assert (FP : Forall2 (fun x v => exists s1 s2, reach (send_op p) s s1 /\ named_property snake isdict p x s1 = (Ok v, s2) /\ reach (send_op p) s2 s') props pv).
  { pose proof (each_reach (send_op p) _ props (does_named p) _ _ _ E2) as F. clear - F R2 R5.
    induction F as [|a b la lb (x & y & Ra & Hf & Rb) F IHF]; constructor; [|exact IHF].
    exists x, y. split; [eapply reach_trans; eauto|]. split; [exact Hf|eapply reach_trans; eauto]. }
  apply bind_ok in H as (t & s5 & E5 & H).
  apply bind_ok in H as (n & s6 & E6 & H). apply on_md_ok in E6 as (E6 & V6 & G6).
  apply insert_event_ok in H as [T ->].
  assert (Qa : st_events s4 = st_events s /\ st_groups s4 = st_groups s).
  { destruct Q2 as [-> ->] in Q3. destruct Q3 as [-> ->] in Q4. now rewrite V1, G1 in Q4. }
  destruct Qa as [Va Ga].
  exists new, (st_md s1), pv, (List.concat gv), utm.
  destruct new.
  - apply bind_ok in E5 as (nb & s7 & E7 & E5). pose proof (does_reach _ _ _ _ _ (does_record p) E7) as R7. apply on_md_ok in E7 as (E7 & V7 & G7).
    apply bind_ok in E5 as (eb & s8 & E8 & E5). apply look_ok in E8 as [E8 ->].
    apply insert_event_ok in E5 as [Tb ->]. cbn [st_events st_groups st_md] in *.
    eexists _, n. split; [exact E1|]. split; [exact FP|]. split; [exact (each_ok _ _ _ _ _ E4)|].
    split; [rewrite V6, V7, Va, <- app_assoc; reflexivity|]. split; [exact T|]. split; [now rewrite G6, G7|].
    exists nb, (st_md s7), eb. split; [exact E8|]. split; [|reflexivity].
    destruct (reach_trans _ _ _ _ R4 R7) as (ops & Ho & Fo). now exists ops.
  - apply ret_ok in E5 as [_ ->]. exists [], n.
    split; [exact E1|]. split; [exact FP|]. split; [exact (each_ok _ _ _ _ _ E4)|]. cbn [st_events st_groups].
    split; [rewrite V6, Va; reflexivity|]. split; [exact T|]. split; [now rewrite G6|]. reflexivity.
Qed.

Lemma does_ok {A} P (m : M A) s x s' : does P m -> m s = (Ok x, s') -> exists ops, st_md s' = md_run snake ops (st_md s) /\ Forall P ops.
Proof. intros D E. destruct (D s) as (ops & H & F). rewrite E in H. eauto. Qed.
Lemma quiet_ok {A} (m : M A) s x s' : quiet m -> m s = (Ok x, s') -> st_events s' = st_events s /\ st_groups s' = st_groups s.
Proof. intros Q E. specialize (Q s). now rewrite E in Q. Qed.

(** The stages of an accepted track call. *)
Lemma track_ok now r s y s' :
  track snake isdict dcv now r s = (Ok y, s') ->
  exists pj props w gs e extra s1 s2 s3 s4 s5 s6,
    project_by_token (tr_token r) (st_md s) = Ok pj /\
    match tr_props r with
    | None => props = None
    | Some l => exists x, props = Some x /\ Forall2 (fun a b => exists t1 t2, reach (prep_op (pr_id pj)) s t1 /\ resolve_property snake (pr_id pj) KEvent a t1 = (Ok b, t2) /\ reach (prep_op (pr_id pj)) t2 s1) l x
    end /\
    (exists ops, st_md s1 = md_run snake ops (st_md s) /\ Forall (prep_op (pr_id pj)) ops) /\
    who (pr_id pj) r s1 = (Ok w, s2) /\
    (exists ops, st_md s3 = md_run snake ops (st_md s2) /\ Forall (prep_op (pr_id pj)) ops) /\
    event_get_or_create (pr_id pj) (tr_event r) None
      (map (fun x => pp_id (fst x)) (match props with Some l => l | None => [] end)) (st_md s3) = (Ok e, st_md s4) /\
    st_md s5 = match props with Some l => snd (event_attach (pr_id pj) (ev_id e) (map (fun x => pp_id (fst x)) l) (st_md s4))
                              | None => st_md s4 end /\
    st_events s5 = st_events s /\ st_groups s5 = st_groups s /\ reach (prep_op (pr_id pj)) s s5 /\
    send snake isdict dcv now (pr_id pj) (fst w) (ev_id e) gs ((match props with Some l => l | None => [] end) ++ extra)%list r s5 = (Ok tt, s6) /\
    project_count_event (pr_id pj) (st_md s6) = (Ok tt, st_md s') /\ st_events s' = st_events s6 /\ st_groups s' = st_groups s6.
Proof.
  unfold track. intro H.
  apply bind_ok in H as (pj & s0 & E0 & H). apply look_ok in E0 as [E0 ->]. cbv zeta in H.
  apply bind_ok in H as (props & s1 & E1 & H).
  apply bind_ok in H as (w & s2 & E2 & H).
  apply bind_ok in H as (gs & s3 & E3 & H).
  apply bind_ok in H as (e & s4 & E4 & H).
  apply bind_ok in H as (t & s5 & E5 & H).
  apply bind_ok in H as (extra & s5' & E6 & H).
  apply bind_ok in H as ([] & s6 & E7 & H).
  apply on_md_ok in H as (E8 & V8 & G8). destruct y.
  assert (P1 : (exists ops, st_md s1 = md_run snake ops (st_md s) /\ Forall (prep_op (pr_id pj)) ops) /\
     st_events s1 = st_events s /\ st_groups s1 = st_groups s /\
     match tr_props r with
     | None => props = None
     | Some l => exists x, props = Some x /\ Forall2 (fun a b => exists t1 t2, reach (prep_op (pr_id pj)) s t1 /\ resolve_property snake (pr_id pj) KEvent a t1 = (Ok b, t2) /\ reach (prep_op (pr_id pj)) t2 s1) l x
     end).
  { destruct (tr_props r) as [l|].
    - apply bind_ok in E1 as (x & s1' & E1 & E1'). apply ret_ok in E1' as [-> ->].
      split; [refine (does_ok _ _ _ _ _ _ E1); apply does_resolve; now intros|].
      destruct (quiet_ok _ _ _ _ (quiet_resolve _ _ _) E1) as [-> ->]. split; [reflexivity|]. split; [reflexivity|].
      exists x. split; [reflexivity|]. refine (each_reach _ _ _ _ _ _ _ E1). intro a.
      apply does_bind; [|intro; apply does_ret]. now apply does_op with (OPropGetOrCreate (pr_id pj) KEvent (fst a) None (data_type (snd a)) false).
    - apply ret_ok in E1 as [-> ->]. split; [now exists []|]. auto. }
  destruct P1 as (D1 & V1 & G1 & R1).
  destruct (quiet_ok _ _ _ _ (quiet_who _ _) E2) as [V2 G2].
  pose proof (does_ok _ _ _ _ _ (does_groups _ _ _) E3) as D3.
  destruct (quiet_ok _ _ _ _ (quiet_groups _ _ _) E3) as [V3 G3].
  apply on_md_ok in E4 as (E4 & V4 & G4).
  assert (P5 : st_md s5 = match props with Some l => snd (event_attach (pr_id pj) (ev_id e) (map (fun x => pp_id (fst x)) l) (st_md s4))
                              | None => st_md s4 end /\ st_events s5 = st_events s4 /\ st_groups s5 = st_groups s4).
  { destruct props as [l|].
    - apply on_md_ok in E5 as (E5 & V5 & G5). rewrite E5. auto.
    - apply ret_ok in E5 as [_ ->]. auto. }
  destruct P5 as (M5 & V5 & G5).
  assert (P6 : s5' = s5).
  { clear - E6. revert s5 extra s5' E6. induction (tr_agent r) as [|x l IH]; cbn [each]; intros s extra s' H.
    - now apply ret_ok in H as [_ ->].
    - apply bind_ok in H as (y & s1 & H1 & H). apply bind_ok in H as (ys & s2 & H2 & H). apply ret_ok in H as [_ ->].
      apply IH in H2. subst s2. unfold named_by_name in H1. apply bind_ok in H1 as (pr & s3 & H1 & H3).
      apply look_ok in H1 as [_ ->]. now apply ret_ok in H3 as [_ ->]. }
  subst s5'.
  assert (R5 : reach (prep_op (pr_id pj)) s s5).
  { eapply reach_trans; [destruct D1 as (o1 & D1 & F1); exists o1; eauto|].
    eapply reach_trans; [eapply does_reach; [apply does_who|exact E2]|].
    eapply reach_trans; [destruct D3 as (o3 & D3 & F3); exists o3; eauto|].
    set (ids := map _ _) in E4.
    eapply reach_trans; [exists [OEventGetOrCreate (pr_id pj) (tr_event r) None ids]; split; [cbn; now rewrite E4|now repeat constructor]|].
    destruct props as [l|]; [|exists []; now split].
    exists [OEventAttach (pr_id pj) (ev_id e) (map (fun x => pp_id (fst x)) l)]. split; [exact M5|now repeat constructor]. }
  exists pj, props, w, gs, e, extra, s1, s2, s3, s4, s5, s6.
  split; [exact E0|]. split; [exact R1|]. split; [exact D1|]. split; [exact E2|]. split; [exact D3|]. split; [exact E4|].
  split; [exact M5|]. split; [congruence|]. split; [congruence|]. split; [exact R5|]. split; [exact E7|]. split; [exact E8|]. split; [exact V8|exact G8].
Qed.
End Facts.
