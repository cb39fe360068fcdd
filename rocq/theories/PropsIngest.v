(** Properties C64 and C65 (and C75, C76): what a track call stores. *)
From Coq Require Import List NArith ZArith String Ascii Bool Lia.
From Verif Require Import AMap Kv KvKeys KvKeysFacts KvFacts Md MdOps MdFrame MdIndex MdEntities MdDict MdSeq PropsNames
  Ingest IngestFacts.
Import ListNotations.
Local Open Scope string_scope.

(** ** Frames of the stages of a track call *)
(** Keys no stage before [send] writes: projects, sessions. *)
Definition kept (k : Key) : Prop :=
  match k with KData (NRoot RProjects) _ | KSession _ _ => True | _ => False end.
Lemma prep_wf p o : prep_op p o -> wf_op o = true. Proof. now intros [W _]. Qed.
Lemma send_wf p o : send_op p o -> wf_op o = true. Proof. now intros [W _]. Qed.
Lemma prep_kept p o k : prep_op p o -> kept k -> ~ touches o k.
Proof.
  intros [_ H] K T. destruct k; try contradiction; try (destruct ns; try contradiction; match goal with x : RootNs |- _ => destruct x; try contradiction end);
  destruct o; try contradiction; cbn in *; try tauto; try (destruct k; try contradiction);
  unfold in_props, in_ns, kind_ns in T; cbn in T; intuition congruence.
Qed.
Lemma send_kept p o k : send_op p o ->
  match k with KData _ _ | KIdx _ _ _ | KSeq _ => True | _ => False end -> ~ touches o k.
Proof. intros [_ H] K T. destruct k; try contradiction; destruct o; try contradiction; cbn in *; try tauto; congruence. Qed.
Lemma forall_wf (P : MdOp -> Prop) ops : (forall o, P o -> wf_op o = true) -> Forall P ops -> forallb wf_op ops = true.
Proof. intros H F. apply forallb_forall. intros o Ho. apply H. now apply (proj1 (Forall_forall _ _) F). Qed.
Section Frames.
Variable snake : string -> string.
Lemma run_kept (P : MdOp -> Prop) ops s k : wf_key k = true -> Forall P ops ->
  (forall o, P o -> wf_op o = true /\ ~ touches o k) -> kg k (md_run snake ops s) = kg k s.
Proof.
  intros W F H. apply (only_kg (fun k' => k' <> k)); [|exact W|congruence]. apply md_run_frame.
  eapply Forall_impl; [|exact F]. intros o Ho. destruct (H o Ho) as [Wo T]. split; [exact Wo|]. intros k' T' ->. now apply T.
Qed.
Lemma run_events p ops s : forallb wf_op ops = true -> EventsOk p s -> EventsOk p (md_run snake ops s).
Proof. intros W. apply (md_run_inv (fun s => EventsOk p s)); [|exact W]. intros. now apply md_step_events. Qed.
End Frames.

Lemma event_named p n d props s e s' : EventsOk p s -> event_get_or_create p n d props s = (Ok e, s') ->
  EventsOk p s' /\ exists e', event_by_id p (ev_id e) s' = Ok e' /\ ev_id e' = ev_id e /\ ev_name e' = n.
Proof.
  intros Hx H. assert (Hx' : EventsOk p s') by (pose proof (event_get_or_create_ok p n d props s Hx) as X; now rewrite H in X).
  split; [exact Hx'|]. unfold event_get_or_create in H. destruct (event_by_name p n s) as [e0|[]] eqn:En; try discriminate.
  - injection H as -> <-. apply (event_by_name_iff _ _ _ _ Hx) in En as (id & He & Hn).
    rewrite (event_by_id_ok _ _ _ _ Hx He). eauto using event_by_id_ok.
  - unfold event_create in H. destruct (check_insert _ _); [|discriminate].
    destruct (next_seq _ s) as [[id|?] s1]; [|discriminate]. cbv zeta in H. set (s3 := insert_index _ _ _) in H.
    assert (Kdat : kg (KData (NProj p PEvents) id) s3 = Some (VRec (REvent (mkEvent id n d [])))).
    { unfold s3. rewrite event_okeys. rewrite kg_insert_out; [apply kg_put_eq|reflexivity|intros; discriminate]. }
    assert (Fr : only (in_dict p TABLE_EVENTS COLUMN_EVENT) s3 (snd (dict_get_or_create p TABLE_EVENTS COLUMN_EVENT n s3)))
      by (apply dict_frame; auto).
    pose proof (only_kg _ _ _ (KData (NProj p PEvents) id) Fr eq_refl (fun x => x)) as Fd. rewrite Kdat in Fd.
    destruct (dict_get_or_create p TABLE_EVENTS COLUMN_EVENT n s3) as [[?|?] s4]; [|discriminate].
    injection H as <- <-. cbn [ev_id]. eexists. split; [apply event_by_id_spec; exact Fd|]. now split.
Qed.

Lemma col_skip c l r : (forall n, In n l -> c <> nv_col n) -> col c (row_of (l ++ r)) = col c (row_of r).
Proof.
  induction l as [|x l IH]; cbn; intro H; [reflexivity|]. destruct (String.eqb_spec c (nv_col x)) as [E|_]; [exfalso; apply (H x); auto|].
  apply IH. intros. apply H. now right.
Qed.
Definition group_prefix (c : string) : Prop := exists x, c = "group_" ++ x.
Lemma group_values_cols gs n : In n (group_values gs) -> group_prefix (nv_col n).
Proof.
  unfold group_values. rewrite in_app_iff, !in_map_iff. intros [(x & <- & _)|(x & <- & _)]; eexists; reflexivity.
Qed.
Lemma keys_skip c p u gs r : c <> COLUMN_PROJECT_ID -> ~ group_prefix c -> col c (row_of (keys_of p u gs ++ r)) = col c (row_of r).
Proof.
  intros H1 H2. unfold keys_of. rewrite <- app_assoc. rewrite col_skip.
  - apply col_skip. intros n Hn ->. exact (H2 (group_values_cols gs n Hn)).
  - intros n [<-|[<-|[]]]; cbn; [exact H1|]. intros ->. apply H2. now eexists.
Qed.

(** ** C65 *)
(** An accepted track call adds one row for the event: of the project, with the call's user,
    the call's time and the event of the call's name; it adds one more row exactly when the
    user had no open session, a row of the event "Session Begin" of the same user; and it
    counts one event. *)
Theorem C65_tracked_once_partial :
  forall snake isdict dcv, (forall x, no_slash x = true -> no_slash (snake x) = true) ->
  forall before evs grps now r s', forallb wf_op before = true ->
    let s := mkSt (md_run snake before []) evs grps in
    track snake isdict dcv now r s = (Ok tt, s') ->
    exists pj u ev row begin q,
      project_by_token (tr_token r) (st_md s) = Ok pj /\ let p := pr_id pj in
      st_events s' = (evs ++ begin ++ [row])%list /\ st_groups s' = grps /\
      col COLUMN_PROJECT_ID row = Some (SInt TInt64 (Z.of_N p)) /\
      col (group_col GROUP_USER_ID) row = Some (SInt TInt64 (Z.of_N u)) /\
      col COLUMN_CREATED_AT row = Some (STime (tr_time r)) /\
      event_by_name p (tr_event r) (st_md s') = Ok ev /\
      col COLUMN_EVENT row = Some (SInt TInt64 (Z.of_N (ev_id ev))) /\
      ((exists se, session_by_user p u (st_md s) = Ok se) -> begin = []) /\
      (session_by_user p u (st_md s) = Err NotFound -> exists b eb, begin = [b] /\
         event_by_name p EVENT_SESSION_BEGIN (st_md s') = Ok eb /\
         col COLUMN_PROJECT_ID b = Some (SInt TInt64 (Z.of_N p)) /\
         col (group_col GROUP_USER_ID) b = Some (SInt TInt64 (Z.of_N u)) /\
         In (COLUMN_EVENT, SInt TInt64 (Z.of_N (ev_id eb))) b) /\
      project_by_id p (st_md s) = Ok q /\
      project_by_id p (st_md s') = Ok (mkProject (pr_id q) (pr_org q) (pr_name q) (pr_token q) (pr_session_secs q) (pr_events q + 1)).
Proof.
  intros snake isdict dcv Hs before evs grps now r s' Wb s H.
  apply track_ok in H.
  destruct H as (pj & props & w & gs & e & extra & s1 & s2 & s3 & s4 & s5 & s6 & Htok & _ & (o1 & R1 & F1) & Hw & (o3 & R3 & F3) &
                 He & H5 & V5 & G5 & _ & Hsend & Hcount & V' & G').
  set (p := pr_id pj) in *.
  destruct (does_ok snake _ _ _ _ _ (does_who snake p r) Hw) as (o2 & R2 & F2).
  pose proof (does_ok snake _ _ _ _ _ (does_send snake isdict dcv Hs now p (fst w) (ev_id e) gs _ r) Hsend) as (o6 & R6 & F6).
  assert (X0 : EventsOk p (st_md s)) by (apply events_reach; exact Wb).
  assert (X3 : EventsOk p (st_md s3)).
  { assert (Wp : forall o, Forall (prep_op p) o -> forallb wf_op o = true) by (intro; apply forall_wf, prep_wf).
    rewrite R3, R2, R1. apply run_events; [auto|]. apply run_events; [auto|]. apply run_events; [auto|exact X0]. }
  destruct (event_named _ _ _ _ _ _ _ X3 He) as (X4 & e' & I4 & D4 & N4).
  assert (X5 : EventsOk p (st_md s5) /\ exists ev, event_by_id p (ev_id e) (st_md s5) = Ok ev /\ ev_name ev = tr_event r).
  { rewrite H5. destruct props as [l|]; [|eauto]. split; [now apply event_attach_ok|].
    unfold event_attach. rewrite I4. cbn [snd]. rewrite D4. exists (mkEvent (ev_id e) (ev_name e') (ev_display e') []). split; [|exact N4].
    apply event_by_id_spec. unfold stored_event. cbn [ev_id ev_name ev_display]. apply kg_put_eq. }
  destruct X5 as (X5 & ev & I5 & N5).
  assert (X6 : EventsOk p (st_md s6)) by (rewrite R6; apply run_events; [eapply forall_wf; [apply (send_wf p)|exact F6]|exact X5]).
  assert (Xs : EventsOk p (st_md s')).
  { pose proof (md_step_events snake p (OProjectCount p) (st_md s6) eq_refl X6) as X. cbn in X. now rewrite Hcount in X. }
  assert (KE : forall id, kg (KData (NProj p PEvents) id) (st_md s') = kg (KData (NProj p PEvents) id) (st_md s5)).
  { intro id. transitivity (kg (KData (NProj p PEvents) id) (st_md s6)).
    - pose proof (only_kg _ _ _ (KData (NProj p PEvents) id) (md_frame snake (OProjectCount p) (st_md s6) eq_refl) eq_refl) as X.
      cbn in X. rewrite Hcount in X. apply X. discriminate.
    - rewrite R6. apply (run_kept snake (send_op p)); [reflexivity|exact F6|]. intros o Ho. split; [now apply (send_wf p)|now apply (send_kept p)]. }
  assert (K5 : forall k, wf_key k = true -> kept k -> kg k (st_md s5) = kg k (st_md s)).
  { intros k Wk K.
    assert (E5 : kg k (st_md s5) = kg k (st_md s4)).
    { rewrite H5. destruct props as [l|]; [|reflexivity]. set (ids := map _ l).
      apply (only_kg _ _ _ k (md_frame snake (OEventAttach p (ev_id e) ids) (st_md s4) eq_refl) Wk).
      apply (prep_kept p); [now split|exact K]. }
    assert (E4 : kg k (st_md s4) = kg k (st_md s3)).
    { set (ids := map _ _) in He.
      pose proof (only_kg _ _ _ k (md_frame snake (OEventGetOrCreate p (tr_event r) None ids) (st_md s3) eq_refl) Wk) as X.
      cbn [md_step] in X. rewrite He in X. apply X. apply (prep_kept p); [now split|exact K]. }
    rewrite E5, E4, R3, R2, R1.
    rewrite !(run_kept snake (prep_op p)); try assumption; try reflexivity;
    intros o Ho; (split; [now apply (prep_wf p)|now apply (prep_kept p)]). }
  apply send_ok in Hsend; [|exact Hs].
  destruct Hsend as (new & m & pv & gv & utm & begin & n & Hset & _ & _ & Vs & _ & Gs & Hb).
  set (row := row_of _) in Vs.
  assert (KP : kg (KData (NRoot RProjects) p) (st_md s6) = kg (KData (NRoot RProjects) p) (st_md s)).
  { rewrite R6, (run_kept snake (send_op p)); [|reflexivity|exact F6|].
    - now apply K5.
    - intros o Ho. split; [now apply (send_wf p)|now apply (send_kept p)]. }
  unfold project_count_event in Hcount. destruct (project_by_id p (st_md s6)) as [q|?] eqn:Hq; [|discriminate].
  injection Hcount as Hcount.
  exists pj, (fst w), ev, row, begin, q. fold p.
  split; [exact Htok|]. cbv zeta.
  split; [now rewrite V', Vs, V5|]. split; [now rewrite G', Gs, G5|].
  split; [reflexivity|]. split; [reflexivity|].
  split; [unfold row, event_row; rewrite keys_skip; [reflexivity|discriminate|intros (y & Hy); discriminate Hy]|].
  split. { apply event_by_name_iff; [exact Xs|]. exists (ev_id e). split; [|exact N5]. apply event_by_id_spec. rewrite KE. now apply event_by_id_spec. }
  split. { rewrite (event_by_id_ok _ _ _ _ X5 I5). unfold row, event_row. rewrite keys_skip; [reflexivity|discriminate|intros (y & Hy); discriminate Hy]. }
  assert (KS : session_by_user p (fst w) (st_md s5) = session_by_user p (fst w) (st_md s)).
  { unfold session_by_user. change (kget (session_key p (fst w)) ?x) with (kg (KSession p (fst w)) x). now rewrite K5. }
  assert (NewIf : session_by_user p (fst w) (st_md s5) = if new then Err NotFound else session_by_user p (fst w) (st_md s5)).
  { unfold session_by_user. unfold session_set_time in Hset. destruct (kget _ (st_md s5)) as [[| |[]]|]; try discriminate;
    injection Hset as <- _; reflexivity. }
  assert (Open : new = false -> exists se, session_by_user p (fst w) (st_md s5) = Ok se).
  { intros ->. unfold session_by_user. unfold session_set_time in Hset. destruct (kget _ (st_md s5)) as [[| |[]]|]; try discriminate. eauto. }
  rewrite KS in NewIf, Open.
  split. { intros (se & Hse). destruct new; [congruence|exact Hb]. }
  split.
  { intro Hno. destruct new; [|destruct (Open eq_refl); congruence].
    destruct Hb as (nb & sm & eb & Hev & (ops & Rm & Fm) & ->).
    exists (row_of (begin_row p (fst w) nb (ev_id eb) gs utm (pv ++ gv) r)).
    assert (Xm : EventsOk p sm) by (rewrite Rm; apply run_events; [eapply forall_wf; [apply (send_wf p)|exact Fm]|exact X5]).
    exists eb. split; [reflexivity|]. split.
    { apply event_by_name_iff in Hev as (id & Hid & Hn); [|exact Xm]. apply event_by_name_iff; [exact Xs|]. exists id. split; [|exact Hn].
      apply event_by_id_spec. rewrite KE. apply event_by_id_spec in Hid. rewrite Rm in Hid.
      rewrite (run_kept snake (send_op p)) in Hid; [exact Hid|reflexivity|exact Fm|].
      intros o Ho. split; [now apply (send_wf p)|now apply (send_kept p)]. }
    split; [reflexivity|]. split; [reflexivity|].
    unfold row_of, begin_row. apply in_map_iff. exists (int64 COLUMN_EVENT (ev_id eb)). split; [reflexivity|].
    rewrite !in_app_iff. cbn. tauto. }
  split.
  - apply project_by_id_spec. rewrite <- KP. now apply project_by_id_spec.
  - apply project_by_id_spec. rewrite <- Hcount. change (make_data_value_key "projects" p) with (render (KData (NRoot RProjects) p)).
    apply kg_put_eq.
Qed.
Print Assumptions C65_tracked_once_partial.

(** The session-begin row does not have the time of the call: the milliseconds are divided
    by 1000 although the column is in milliseconds (calls without a campaign, at any time
    after the epoch). *)
Theorem C65_session_time_refuted :
  forall snake isdict dcv, (forall x, no_slash x = true -> no_slash (snake x) = true) ->
  forall now r s s' row b, track snake isdict dcv now r s = (Ok tt, s') -> tr_utm r = [] -> (0 < tr_time r)%Z ->
    st_events s' = (st_events s ++ [b; row])%list ->
    exists t, col COLUMN_CREATED_AT b = Some (STime t) /\ t = (tr_time r / 1000)%Z /\ (t < tr_time r)%Z.
Proof.
  intros snake isdict dcv Hs now r s s' row b H Hu Ht Hev. apply track_ok in H.
  destruct H as (pj & props & w & gs & e & extra & s1 & s2 & s3 & s4 & s5 & s6 & _ & _ & _ & _ & _ & _ & _ & V5 & _ & _ & Hsend & _ & V' & _).
  apply send_ok in Hsend; [|exact Hs].
  destruct Hsend as (new & m & pv & gv & utm & begin & n & _ & _ & Futm & Vs & _ & _ & Hb).
  rewrite Hu in Futm. inversion Futm; subst utm.
  rewrite V', Vs, V5 in Hev. apply app_inv_head in Hev.
  destruct new.
  - destruct Hb as (nb & sm & eb & _ & _ & ->). apply (f_equal (fun l => nth 0 l [])) in Hev. cbn [nth List.app] in Hev. subst b. exists (tr_time r / 1000)%Z.
    split; [unfold begin_row; rewrite keys_skip; [reflexivity|discriminate|intros (y & Hy); discriminate Hy]|]. split; [reflexivity|apply Z.div_lt; lia].
  - subst begin. discriminate.
Qed.
Print Assumptions C65_session_time_refuted.

(** ** C64 *)
(** The number a report shows for a stored value: a decimal column has scale 16 everywhere
    (arrow's Decimal128(28, 16)). *)
Definition shown (v : SVal) : option (Z * N) :=
  match v with SDec z => Some (z, DECIMAL_SCALE) | SInt _ z => Some (z, 0%N) | _ => None end.
(** The stored value is the number [m * 10^-sc]. *)
Definition exact (v : SVal) (m : Z) (sc : N) : Prop :=
  exists z k, shown v = Some (z, k) /\ (z * 10 ^ Z.of_N sc = m * 10 ^ Z.of_N k)%Z.

Lemma Forall2_in {A B} (R : A -> B -> Prop) l l' x : Forall2 R l l' -> In x l -> exists y, In y l' /\ R x y.
Proof. induction 1 as [|a b l l' H F IH]; cbn; [tauto|]. intros [<-|Hx]; [eauto|]. destruct (IH Hx) as (y & ? & ?). eauto. Qed.

(** The value given to the table for a property of an accepted call. *)
Lemma track_value snake isdict dcv : (forall x, no_slash x = true -> no_slash (snake x) = true) ->
  forall now r s s' l name v, track snake isdict dcv now r s = (Ok tt, s') -> tr_props r = Some l -> In (name, v) l ->
    exists pj pr t1 t2 row rest x t3 t4,
      project_by_token (tr_token r) (st_md s) = Ok pj /\
      reach snake (track_op (pr_id pj)) s t1 /\
      resolve_property snake (pr_id pj) KEvent (name, v) t1 = (Ok (pr, v), t2) /\
      st_events s' = (rest ++ [row])%list /\
      reach snake (track_op (pr_id pj)) s t3 /\
      property_to_value snake isdict (pr_id pj) TABLE_EVENTS (pr, v) t3 = (Ok x, t4) /\
      reach snake (track_op (pr_id pj)) t4 s' /\
      In (column_name snake pr, x) row /\ sval_type x = column_type isdict pr.
Proof.
  intros Hs now r s s' l name v H Hl Hin. apply track_ok in H.
  destruct H as (pj & props & w & gs & e & extra & s1 & s2 & s3 & s4 & s5 & s6 & Htok & Hprops & _ & _ & _ & _ & _ & V5 & _ & R5 & Hsend & Hcount & V' & _).
  set (p := pr_id pj) in *.
  pose proof (does_reach _ _ _ _ _ _ (does_send snake isdict dcv Hs now p (fst w) (ev_id e) gs _ r) Hsend) as R6.
  assert (Lp : forall a b, reach snake (prep_op p) a b -> reach snake (track_op p) a b) by (intros; eapply reach_weaken; [|eassumption]; unfold track_op; auto).
  assert (Ls : forall a b, reach snake (send_op p) a b -> reach snake (track_op p) a b) by (intros; eapply reach_weaken; [|eassumption]; unfold track_op; auto).
  assert (R' : reach snake (track_op p) s6 s').
  { exists [OProjectCount p]. split; [cbn; now rewrite Hcount|]. constructor; [unfold track_op; auto|constructor]. }
  rewrite Hl in Hprops. destruct Hprops as (pl & -> & Fp).
  destruct (Forall2_in _ _ _ _ Fp Hin) as ((pr, v') & Hpr & t1 & t2 & Rt1 & Hres & Rt2).
  assert (v' = v).
  { unfold resolve_property in Hres. apply bind_ok in Hres as (x & sx & _ & Hres). apply ret_ok in Hres as [[= _ ->] _]. reflexivity. }
  subst v'.
  apply send_ok in Hsend; [|exact Hs].
  destruct Hsend as (new & m & pv & gv & utm & begin & n & _ & Fv & _ & Vs & Ty & _ & _).
  destruct (Forall2_in _ _ _ (pr, v) Fv) as (nv & Hnv & t3 & t4 & Rt3 & Hval & Rt4); [apply in_or_app; now left|].
  unfold named_property in Hval. apply bind_ok in Hval as (x & sx & Hval & Hr). apply ret_ok in Hr as [-> ->].
  exists pj, pr, t1, t2. eexists. exists (st_events s ++ begin)%list, x, t3, sx. fold p.
  split; [exact Htok|]. split; [now apply Lp|]. split; [exact Hres|]. split; [rewrite V', Vs, V5, app_assoc; reflexivity|].
  split; [eapply reach_trans; [apply Lp; exact R5|now apply Ls]|]. split; [exact Hval|].
  split; [eapply reach_trans; [apply Ls; exact Rt4|exact R']|].
  assert (Hin' : In (mkNamed (column_name snake pr) (column_type isdict pr) x) (event_row p (fst w) n (ev_id e) gs (pv ++ gv) r)).
  { unfold event_row. rewrite !in_app_iff. tauto. }
  split.
  - unfold row_of. apply in_map_iff. eexists. split; [|exact Hin']. reflexivity.
  - unfold types_ok in Ty. rewrite forallb_forall in Ty. specialize (Ty _ Hin'). cbn in Ty.
    destruct (sval_type x), (column_type isdict pr); discriminate || reflexivity.
Qed.

(** For every number in an accepted call: the value stored for it, and exactly when it is
    that number.  A property whose column holds decimals keeps it only when the number was
    written with 16 decimal places (or is zero); one whose column holds integers when it is
    a whole number. *)
Theorem C64_number_kept_iff_partial :
  forall snake isdict dcv, (forall x, no_slash x = true -> no_slash (snake x) = true) ->
  forall now r s s' l name m sc, track snake isdict dcv now r s = (Ok tt, s') ->
    tr_props r = Some l -> In (name, PVNumber m sc) l ->
    exists pj pr t1 t2 row rest v,
      project_by_token (tr_token r) (st_md s) = Ok pj /\
      resolve_property snake (pr_id pj) KEvent (name, PVNumber m sc) t1 = (Ok (pr, PVNumber m sc), t2) /\
      st_events s' = (rest ++ [row])%list /\ In (column_name snake pr, v) row /\
      ((pp_type pr = PBase TDecimal /\ (exact v m sc <-> m = 0%Z \/ sc = DECIMAL_SCALE)) \/
       (In (pp_type pr) [PBase TInt8; PBase TInt16; PBase TInt32; PBase TInt64] /\
          (exact v m sc <-> (10 ^ Z.of_N sc | m)%Z))).
Proof.
  intros snake isdict dcv Hs now r s s' l name m sc H Hl Hin.
  destruct (track_value _ _ _ Hs _ _ _ _ _ _ _ H Hl Hin) as (pj & pr & t1 & t2 & row & rest & v & t3 & t4 & Ht & _ & Hr & Hrow & _ & Hv & _ & Hi & _).
  exists pj, pr, t1, t2, row, rest, v. split; [exact Ht|]. split; [exact Hr|]. split; [exact Hrow|]. split; [exact Hi|].
  unfold property_to_value in Hv. destruct (isdict pr); [discriminate|].
  assert (P10 : (0 < 10 ^ Z.of_N sc)%Z) by (apply Z.pow_pos_nonneg; lia).
  assert (Hint : forall b bits, match to_int bits m sc with Some z => ret (SInt b z) | None => fail Panicked end t3 = (Ok v, t4) ->
            (exact v m sc <-> (10 ^ Z.of_N sc | m)%Z)).
  { intros b bits E. unfold to_int in E. destruct (_ && _)%bool; [|discriminate]. apply ret_ok in E as [-> _].
    unfold exact. cbn [shown]. split.
    - intros (z & k & [= <- <-] & E). cbn in E. exists (Z.quot m (10 ^ Z.of_N sc)). lia.
    - intros (q & ->). eexists _, _. split; [reflexivity|]. cbn. rewrite Z.quot_mul by lia. lia. }
  destruct (pp_type pr) as [b|b]; [|discriminate].
  destruct b; cbn [int_bits] in Hv; try discriminate; try (right; split; [cbn; tauto|eapply Hint; exact Hv]).
  left. split; [reflexivity|]. apply ret_ok in Hv as [-> _]. unfold exact. cbn [shown]. split.
  - intros (z & k & [= <- <-] & E). destruct (Z.eq_dec m 0) as [|Nz]; [now left|right].
    apply Z.mul_reg_l in E; [|exact Nz]. apply Z.pow_inj_r in E; lia.
  - intros [->| ->]; eexists _, _; (split; [reflexivity|]); lia.
Qed.
Print Assumptions C64_number_kept_iff_partial.

(** So the number 5 of an accepted call is not stored as 5, for every property first seen
    with a number (such a property gets a decimal column). *)
Theorem C64_whole_numbers_refuted :
  forall snake isdict dcv, (forall x, no_slash x = true -> no_slash (snake x) = true) ->
  forall now r s s' l name m, track snake isdict dcv now r s = (Ok tt, s') ->
    tr_props r = Some l -> In (name, PVNumber m 0) l -> m <> 0%Z ->
    exists pj pr t1 t2 row rest v,
      project_by_token (tr_token r) (st_md s) = Ok pj /\
      resolve_property snake (pr_id pj) KEvent (name, PVNumber m 0) t1 = (Ok (pr, PVNumber m 0), t2) /\
      st_events s' = (rest ++ [row])%list /\ In (column_name snake pr, v) row /\
      (pp_type pr = PBase TDecimal -> ~ exact v m 0).
Proof.
  intros snake isdict dcv Hs now r s s' l name m H Hl Hin Nz.
  destruct (C64_number_kept_iff_partial _ _ _ Hs _ _ _ _ _ _ _ _ H Hl Hin) as (pj & pr & t1 & t2 & row & rest & v & A & B & C & D & E).
  exists pj, pr, t1, t2, row, rest, v. split; [exact A|]. split; [exact B|]. split; [exact C|]. split; [exact D|].
  intros T X. destruct E as [[_ E]|[E _]].
  - apply E in X as [X|X]; [now apply Nz|discriminate].
  - rewrite T in E. cbn in E. intuition discriminate.
Qed.
Print Assumptions C64_whole_numbers_refuted.

(** ** C75 *)
(** A call with a date among its properties is never accepted, whatever the property: a
    property made for it gets an integer column, for which the date has no value; a property
    with a timestamp column gets an integer, which the table refuses. *)
Theorem C75_date_never_accepted_refuted :
  forall snake isdict dcv, (forall x, no_slash x = true -> no_slash (snake x) = true) ->
  forall now r s l name ms, tr_props r = Some l -> In (name, PVDate ms) l ->
    fst (track snake isdict dcv now r s) <> Ok tt.
Proof.
  intros snake isdict dcv Hs now r s l name ms Hl Hin H.
  destruct (track snake isdict dcv now r s) as [y s'] eqn:E. cbn [fst] in H. subst y.
  destruct (track_value _ _ _ Hs _ _ _ _ _ _ _ E Hl Hin) as (pj & pr & t1 & t2 & row & rest & v & t3 & t4 & _ & _ & _ & _ & _ & Hv & _ & _ & T).
  unfold property_to_value in Hv. unfold column_type in T. destruct (isdict pr); [discriminate|].
  destruct (pp_type pr) as [[]|[]]; try discriminate. apply ret_ok in Hv as [-> _]. discriminate.
Qed.
Print Assumptions C75_date_never_accepted_refuted.

(** Strings and booleans of an accepted call are stored as sent: a string property kept in
    a dictionary gets a number which the dictionary turns back into the string, also after
    any later metadata calls (no call binds numbers of this dictionary by hand). *)
Definition text_of (isdict : Property -> bool) (p : N) (c : string) (pr : Property) (m : Store) (v : SVal) : option string :=
  if isdict pr then match v with SInt TInt64 z => match dict_value p TABLE_EVENTS c (Z.to_N z) m with Ok x => Some x | Err _ => None end
                               | _ => None end
  else match v with SStr x => Some x | _ => None end.
Theorem C75_strings_and_booleans_partial :
  forall snake isdict dcv, (forall x, no_slash x = true -> no_slash (snake x) = true) ->
  forall before evs grps now r s' l name v, forallb wf_op before = true ->
    let s := mkSt (md_run snake before []) evs grps in
    track snake isdict dcv now r s = (Ok tt, s') -> tr_props r = Some l -> In (name, v) l ->
    exists pj pr t1 t2 row rest x,
      project_by_token (tr_token r) (st_md s) = Ok pj /\
      resolve_property snake (pr_id pj) KEvent (name, v) t1 = (Ok (pr, v), t2) /\
      st_events s' = (rest ++ [row])%list /\ let c := column_name snake pr in
      In (c, x) row /\
      (forall b, v = PVBool b -> x = SBool b) /\
      (forall text later, v = PVString text -> forallb wf_op later = true ->
         (forall g, c <> group_col g) -> existsb (binds (pr_id pj) TABLE_EVENTS c) (before ++ later)%list = false ->
         text_of isdict (pr_id pj) c pr (md_run snake later (st_md s')) x = Some text).
Proof.
  intros snake isdict dcv Hs before evs grps now r s' l name v Wb s H Hl Hin.
  destruct (track_value _ _ _ Hs _ _ _ _ _ _ _ H Hl Hin) as (pj & pr & t1 & t2 & row & rest & x & t3 & t4 & Ht & _ & Hr & Hrow & R3 & Hv & R4 & Hi & _).
  exists pj, pr, t1, t2, row, rest, x. split; [exact Ht|]. split; [exact Hr|]. split; [exact Hrow|]. cbv zeta. split; [exact Hi|].
  set (p := pr_id pj) in *. set (c := column_name snake pr) in *.
  split.
  - intros b ->. unfold property_to_value in Hv. destruct (isdict pr); [discriminate|].
    destruct (pp_type pr) as [[]|[]]; try discriminate. now apply ret_ok in Hv as [-> _].
  - intros text later -> Wl Hc Hb. unfold property_to_value in Hv. unfold text_of. destruct (isdict pr).
    2:{ destruct (pp_type pr) as [[]|[]]; try discriminate. now apply ret_ok in Hv as [-> _]. }
    fold c in Hv. apply bind_ok in Hv as (id & t5 & Hd & Hx). apply ret_ok in Hx as [-> ->].
    apply on_md_ok in Hd as (Hd & _ & _). rewrite N2Z.id.
    rewrite existsb_app in Hb. apply orb_false_iff in Hb as [B1 B2].
    assert (Wc : no_slash TABLE_EVENTS && no_slash c = true) by (unfold c; rewrite col_no_slash; [reflexivity|exact Hs]).
    assert (Tr : forall o, track_op p o -> wf_op o = true /\ binds p TABLE_EVENTS c o = false).
    { intros o [[W Ho]|[[W Ho]| ->]]; [| |now split]; (split; [exact W|]); destruct o; try reflexivity; try contradiction.
      cbn. destruct (N.eqb p0 p); [|reflexivity]. cbn. destruct (String.eqb t TABLE_EVENTS); [|reflexivity]. cbn.
      apply String.eqb_neq. intros ->. destruct Ho as (_ & _ & g & Hg). now apply (Hc g). }
    assert (Run : forall ops, Forall (track_op p) ops -> forallb wf_op ops = true /\ existsb (binds p TABLE_EVENTS c) ops = false).
    { intros ops F. induction F as [|o ops Ho F IH]; [now split|]. cbn. destruct IH as [-> ->]. destruct (Tr o Ho) as [-> ->]. now split. }
    destruct R3 as (o3 & E3 & F3). destruct R4 as (o4 & E4 & F4). destruct (Run _ F3) as [W3 C3]. destruct (Run _ F4) as [W4 C4].
    assert (D0 : DictOk p TABLE_EVENTS c (st_md s)) by (apply md_run_dict; auto using DictOk_nil).
    assert (D3 : DictOk p TABLE_EVENTS c (st_md t3)) by (rewrite E3; apply md_run_dict; auto).
    assert (D5 : DictOk p TABLE_EVENTS c (st_md t5)) by (pose proof (dict_encode_ok p TABLE_EVENTS c Wc text _ D3) as X; now rewrite Hd in X).
    assert (K5 : kg (KDictVal p TABLE_EVENTS c text) (st_md t5) = Some (VNum id)).
    { destruct (dict_encode_spec p TABLE_EVENTS c text _ D3) as [(n & Hn & Ed)|(_ & n & _ & _ & _ & Ed)]; rewrite Hd in Ed;
      injection Ed as <- Em; rewrite Em; [exact Hn|]. apply kg_put_eq. }
    assert (D' : DictOk p TABLE_EVENTS c (md_run snake later (st_md s'))) by (rewrite E4; apply md_run_dict; auto; apply md_run_dict; auto).
    assert (K' : kg (KDictVal p TABLE_EVENTS c text) (md_run snake later (st_md s')) = Some (VNum id)).
    { apply dict_grows_run; auto; rewrite E4; [apply md_run_dict; auto|]. apply dict_grows_run; auto. }
    destruct (dk_val _ _ _ _ D' _ _ K') as (n & [= <-] & Hn).
    apply dict_value_spec in Hn. now rewrite Hn.
Qed.
Print Assumptions C75_strings_and_booleans_partial.

(** ** C76 *)
Lemma bind_err {A B} (m : M A) (f : A -> M B) s e s' : bind m f s = (Err e, s') ->
  m s = (Err e, s') \/ exists x s1, m s = (Ok x, s1) /\ f x s1 = (Err e, s').
Proof. unfold bind. destruct (m s) as [[x|e0] s1]; [eauto|]. intros [= <- <-]. now left. Qed.
Lemma quiet_eq {A} (m : M A) s x s' : quiet m -> m s = (x, s') -> st_events s' = st_events s /\ st_groups s' = st_groups s.
Proof. intros Q E. specialize (Q s). now rewrite E in Q. Qed.
Lemma insert_event_err vs s e s' : insert_event vs s = (Err e, s') -> types_ok vs = false /\ s' = s.
Proof. unfold insert_event. destruct (types_ok vs); [discriminate|]. now intros [= _ <-]. Qed.
Lemma next_twice first k (s : Store) n s1 : next_from first k s = (Ok n, s1) -> exists m s2, next_from first k s1 = (Ok m, s2).
Proof.
  unfold next_from. intro H. destruct (kget k s) as [v|].
  - destruct (read_num v) as [m|]; [|discriminate]. injection H as <- <-. unfold kget, kput. rewrite aget_aset_eq. cbn. eauto.
  - injection H as <- <-. unfold kget, kput. rewrite aget_aset_eq. cbn. eauto.
Qed.
Lemma send_err snake isdict dcv now p u e gs props r s x s' :
  send snake isdict dcv now p u e gs props r s = (Err x, s') -> st_events s' = st_events s /\ st_groups s' = st_groups s.
Proof.
  unfold send. intro H.
  apply bind_err in H as [H|(new & s1 & E1 & H)]; [exact (quiet_eq _ _ _ _ (quiet_on _) H)|].
  destruct (quiet_eq _ _ _ _ (quiet_on _) E1) as [<- <-]. clear E1.
  apply bind_err in H as [H|(pv & s2 & E & H)]; [exact (quiet_eq _ _ _ _ (quiet_each _ _ (quiet_named _ _ _)) H)|].
  destruct (quiet_eq _ _ _ _ (quiet_each _ _ (quiet_named _ _ _)) E) as [<- <-]. clear E.
  apply bind_err in H as [H|(gv & s3 & E & H)].
  { refine (quiet_eq _ _ _ _ _ H). apply quiet_each. intro. apply quiet_each, quiet_stored. }
  assert (Q : st_events s3 = st_events s2 /\ st_groups s3 = st_groups s2).
  { refine (quiet_eq _ _ _ _ _ E). apply quiet_each. intro. apply quiet_each, quiet_stored. }
  destruct Q as [<- <-]. clear E.
  apply bind_err in H as [H|(utm & s4 & E & H)].
  { refine (quiet_eq _ _ _ _ _ H). apply quiet_each. intro. apply quiet_bind; [apply quiet_by_name|intro; apply quiet_named]. }
  assert (Q : st_events s4 = st_events s3 /\ st_groups s4 = st_groups s3).
  { refine (quiet_eq _ _ _ _ _ E). apply quiet_each. intro. apply quiet_bind; [apply quiet_by_name|intro; apply quiet_named]. }
  destruct Q as [<- <-]. clear E. cbv zeta in H.
  set (keys := (_ ++ group_values gs)%list) in H. set (values := (pv ++ List.concat gv)%list) in H.
  destruct new.
  - apply bind_err in H as [H|([] & s5 & E & H)].
    + apply bind_err in H as [H|(n & s5 & E & H)]; [exact (quiet_eq _ _ _ _ (quiet_on _) H)|].
      destruct (quiet_eq _ _ _ _ (quiet_on _) E) as [<- <-].
      apply bind_err in H as [H|(eb & s6 & E' & H)]; [exact (quiet_eq _ _ _ _ (quiet_look _) H)|].
      apply look_ok in E' as [_ ->]. apply insert_event_err in H as [_ ->]. auto.
    + exfalso. apply bind_ok in E as (n & s6 & En & E). apply bind_ok in E as (eb & s7 & El & E).
      apply look_ok in El as [_ ->]. apply insert_event_ok in E as [T ->].
      apply on_md_ok in En as (En & _ & _). unfold event_next_record, next_seq in En. apply next_twice in En as (m & sm & Em).
      unfold bind, on_md in H. cbn [st_md st_events st_groups] in H. unfold event_next_record, next_seq in H. rewrite Em in H.
      apply insert_event_err in H as [F _]. unfold types_ok in T, F.
      rewrite !forallb_app in T, F. cbn [forallb] in T, F. cbn in T, F.
      apply andb_prop in T as [T1 T2]. apply andb_prop in T2 as [_ T2]. rewrite T1, T2 in F. discriminate.
  - apply bind_err in H as [H|([] & s5 & E & H)]; [exact (quiet_eq _ _ _ _ (quiet_ret _) H)|].
    apply ret_ok in E as [_ ->].
    apply bind_err in H as [H|(n & s5 & E & H)]; [exact (quiet_eq _ _ _ _ (quiet_on _) H)|].
    destruct (quiet_eq _ _ _ _ (quiet_on _) E) as [<- <-]. apply insert_event_err in H as [_ ->]. auto.
Qed.

(** A rejected track call adds no row. *)
Theorem C76_rejected_track_adds_no_row_partial :
  forall snake isdict dcv, (forall x, no_slash x = true -> no_slash (snake x) = true) ->
  forall before evs grps now r e s', forallb wf_op before = true -> Forall name_token_differ before ->
    let s := mkSt (md_run snake before []) evs grps in
    track snake isdict dcv now r s = (Err e, s') -> st_events s' = evs /\ st_groups s' = grps.
Proof.
  intros snake isdict dcv Hs before evs grps now r x s' Wb Db s H.
  change (st_events s' = st_events s /\ st_groups s' = st_groups s).
  unfold track in H.
  apply bind_err in H as [H|(pj & s0 & E0 & H)]; [exact (quiet_eq _ _ _ _ (quiet_look _) H)|].
  apply look_ok in E0 as [E0 ->]. cbv zeta in H. set (p := pr_id pj) in *.
  assert (Hq : project_by_id p (st_md s) = Ok pj).
  { unfold project_by_token in E0. destruct (get_index _ _) as [id|]; [|discriminate].
    destruct (project_by_id_ok _ _ _ (projects_reach snake before Wb Db) E0) as [<- _]. exact E0. }
  assert (Q1 : quiet match tr_props r with None => ret None | Some l => x <- resolve_properties snake p KEvent l ;; ret (Some x) end).
  { destruct (tr_props r); [|apply quiet_ret]. apply quiet_bind; [apply quiet_resolve|intro; apply quiet_ret]. }
  assert (D1 : does snake (prep_op p) match tr_props r with None => ret None | Some l => x <- resolve_properties snake p KEvent l ;; ret (Some x) end).
  { destruct (tr_props r); [|apply does_ret]. apply does_bind; [|intro; apply does_ret]. apply does_resolve. now intros. }
  apply bind_err in H as [H|(props & s1 & E1 & H)]; [exact (quiet_eq _ _ _ _ Q1 H)|].
  destruct (quiet_eq _ _ _ _ Q1 E1) as [<- <-]. pose proof (does_reach _ _ _ _ _ _ D1 E1) as R1. clear E1 Q1 D1.
  apply bind_err in H as [H|(w & s2 & E2 & H)]; [exact (quiet_eq _ _ _ _ (quiet_who _ _) H)|].
  destruct (quiet_eq _ _ _ _ (quiet_who _ _) E2) as [<- <-].
  pose proof (reach_trans _ _ _ _ _ R1 (does_reach snake _ _ _ _ _ (does_who snake p r) E2)) as R2. clear E2.
  apply bind_err in H as [H|(gs & s3 & E3 & H)]; [exact (quiet_eq _ _ _ _ (quiet_groups _ _ _) H)|].
  destruct (quiet_eq _ _ _ _ (quiet_groups _ _ _) E3) as [<- <-].
  pose proof (reach_trans _ _ _ _ _ R2 (does_reach snake _ _ _ _ _ (does_groups snake p _ r) E3)) as R3. clear E3.
  set (ids := map _ _) in H.
  apply bind_err in H as [H|(e & s4 & E4 & H)]; [exact (quiet_eq _ _ _ _ (quiet_on _) H)|].
  destruct (quiet_eq _ _ _ _ (quiet_on _) E4) as [<- <-].
  assert (D4 : does snake (prep_op p) (on_md (event_get_or_create p (tr_event r) None ids)))
    by now apply does_op with (OEventGetOrCreate p (tr_event r) None ids).
  pose proof (reach_trans _ _ _ _ _ R3 (does_reach snake _ _ _ _ _ D4 E4)) as R4. clear E4.
  assert (Q5 : quiet match props with Some _ => on_md (event_attach p (ev_id e) ids) | None => ret tt end) by (destruct props; [apply quiet_on|apply quiet_ret]).
  assert (D5 : does snake (prep_op p) match props with Some _ => on_md (event_attach p (ev_id e) ids) | None => ret tt end)
    by (destruct props; [now apply does_op with (OEventAttach p (ev_id e) ids)|apply does_ret]).
  apply bind_err in H as [H|(t & s5 & E5 & H)]; [exact (quiet_eq _ _ _ _ Q5 H)|].
  destruct (quiet_eq _ _ _ _ Q5 E5) as [<- <-].
  pose proof (reach_trans _ _ _ _ _ R4 (does_reach snake _ _ _ _ _ D5 E5)) as R5. clear E5.
  apply bind_err in H as [H|(extra & s6 & E6 & H)]; [exact (quiet_eq _ _ _ _ (quiet_each _ _ (quiet_by_name _)) H)|].
  destruct (quiet_eq _ _ _ _ (quiet_each _ _ (quiet_by_name _)) E6) as [<- <-].
  pose proof (reach_trans _ _ _ _ _ R5 (does_reach snake _ _ _ _ _ (does_each snake _ _ _ (does_by_name snake _ p)) E6)) as R6. clear E6.
  apply bind_err in H as [H|(y & s7 & E7 & H)]; [exact (send_err _ _ _ _ _ _ _ _ _ _ _ _ _ H)|].
  exfalso.
  pose proof (does_reach snake _ _ _ _ _ (does_send snake isdict dcv Hs _ _ _ _ _ _ _) E7) as (o7 & E8 & F7).
  destruct R6 as (o6 & E6 & F6).
  unfold on_md, project_count_event in H.
  assert (K : project_by_id p (st_md s7) = Ok pj).
  { apply project_by_id_spec. rewrite E8, (run_kept snake (send_op p)); [|reflexivity|exact F7|].
    - rewrite E6, (run_kept snake (prep_op p)); [|reflexivity|exact F6|].
      + now apply project_by_id_spec.
      + intros o Ho. split; [now apply (prep_wf p)|now apply (prep_kept p)].
    - intros o Ho. split; [now apply (send_wf p)|now apply (send_kept p)]. }
  rewrite K in H. discriminate.
Qed.
Print Assumptions C76_rejected_track_adds_no_row_partial.

(** ** A project, for the witnesses *)
Definition shop : list MdOp :=
  [OProjectCreate 1 "Shop" "token" 1800; OEventCreate 1 EVENT_SESSION_BEGIN None []; OGroupType 1 "user";
   OPropCreate 1 KEvent "Height" None (PBase TInt16) false].
Definition call_of (ev : string) (props : list (string * PropValue)) : Track :=
  mkTrack "token" (Some "ann") None 1700000000000 ev (Some props) None [] [] "1.2.3.4".
Definition plain (x : string) : string := x.
Definition go (r : Track) (s : St) : Res unit * St := track plain (fun _ => false) (fun _ => SNull TInt64) 1700000000000 r s.
Definition at_shop : St := mkSt (md_run plain shop []) [] [].

(** Although the rejected call adds no row, it opens the session: the next call finds it
    open, and the session never gets a session-begin row.  It also leaves the event and the
    property behind. *)
Theorem C76_rejected_track_opens_session_refuted :
  exists r e s1 s2, forallb wf_op shop = true /\ Forall name_token_differ shop /\
    go r at_shop = (Err e, s1) /\
    session_by_user 1 1 (st_md at_shop) = Err NotFound /\
    session_by_user 1 1 (st_md s1) = Ok (mkSession 1 1700000000000) /\
    event_by_name 1 "Buy" (st_md at_shop) = Err NotFound /\ event_by_name 1 "Buy" (st_md s1) = Ok (mkEvent 2 "Buy" None []) /\
    go (call_of "Buy" []) s1 = (Ok tt, s2) /\ List.length (st_events s2) = 1%nat /\
    List.length (st_events (snd (go (call_of "Buy" []) at_shop))) = 2%nat.
Proof.
  exists (call_of "Buy" [("When", PVDate 5)]), BadRequest. eexists. eexists.
  split; [reflexivity|]. split; [repeat constructor; cbn; congruence|]. split; [vm_compute; reflexivity|]. vm_compute. repeat split.
Qed.
Print Assumptions C76_rejected_track_opens_session_refuted.

(** The hypotheses are met: an accepted call with a new number (stored 10^16 times too
    small), a whole number for an integer column, a string and a boolean. *)
Example C64_C65_C75_witness :
  let '(y, s) := go (call_of "Buy" [("Price", PVNumber 5 0); ("Height", PVNumber 70 1); ("Colour", PVString "red"); ("New", PVBool true)]) at_shop in
  y = Ok tt /\
  map (fun row => map (fun c => col c row) ["created_at"; "event"; "e_d_0"; "e_i16_0"; "e_str_0"; "e_b_0"]) (st_events s) =
  [[Some (STime 1700000000); Some (SInt TInt64 1); Some (SDec 5); Some (SInt TInt16 7); Some (SStr "red"); Some (SBool true)];
   [Some (STime 1700000000000); Some (SInt TInt64 2); Some (SDec 5); Some (SInt TInt16 7); Some (SStr "red"); Some (SBool true)]].
Proof. vm_compute. repeat split. Qed.
