(** Properties C84 and C85: the stored values of users on events, and the versions of the rows
    of the tables of groups. *)
From Coq Require Import List NArith ZArith String Ascii Bool Lia.
From Verif Require Import AMap Kv KvKeys KvKeysFacts KvFacts Md MdOps MdFrame MdIndex MdEntities MdDict MdSeq MdProps PropsNames
  Ingest IngestFacts PropsIngest PropsPeople.
Import ListNotations.
Local Open Scope string_scope.

Section GroupRows.
Variable snake : string -> string.
Variable isdict : Property -> bool.
Variables (enc : SVal -> N) (dcv : N -> SVal).
Hypothesis snake_ok : forall x, no_slash x = true -> no_slash (snake x) = true.
Local Notation identify := (identify snake isdict enc dcv).
Local Notation track := (track snake isdict dcv).
Local Notation calls := (calls snake isdict enc dcv).

(** ** C85 *)
Definition rec_num (p g : N) (m : Store) : N := match kg (KGroupRecSeq p g) m with Some (VNum n) => n | _ => 0 end.
Definition rec_ok (m : Store) : Prop := forall p g, kg (KGroupRecSeq p g) m = None \/ exists n, kg (KGroupRecSeq p g) m = Some (VNum n).

Lemma next_rec p g s : rec_ok s -> exists n s', group_next_record p g s = (Ok n, s') /\ (rec_num p g s < n)%N /\ rec_num p g s' = n /\
  kg (KGroupRecSeq p g) s' = Some (VNum n).
Proof.
  intros H. unfold group_next_record, next_seq, next_from. change (make_id_seq_key _) with (render (KGroupRecSeq p g)).
  unfold rec_num at 1. fold (kg (KGroupRecSeq p g) s). destruct (H p g) as [E|(n & E)]; rewrite E; cbn [read_num].
  - eexists _, _. split; [reflexivity|]. split; [lia|]. split; [unfold rec_num; now rewrite kg_put_eq|apply kg_put_eq].
  - eexists _, _. split; [reflexivity|]. split; [lia|]. split; [unfold rec_num; now rewrite kg_put_eq|apply kg_put_eq].
Qed.
Lemma rec_step o s : wf_op o = true -> rec_ok s -> rec_ok (md_step snake o s) /\ forall p g, (rec_num p g s <= rec_num p g (md_step snake o s))%N.
Proof.
  intros W H.
  assert (F : forall p g, ~ touches o (KGroupRecSeq p g) -> kg (KGroupRecSeq p g) (md_step snake o s) = kg (KGroupRecSeq p g) s).
  { intros p g T. apply (only_kg _ _ _ _ (md_frame snake o s W)); [reflexivity|exact T]. }
  assert (D : (exists p g, o = OGroupRecord p g) \/ forall p g, ~ touches o (KGroupRecSeq p g)).
  { destruct o; try (left; eauto; fail); right; intros p0 g0 T; cbn in T; unfold in_props, in_ns, in_rec, kind_ns in T; cbn in T;
    repeat match goal with kd : PropKind |- _ => destruct kd; cbn in T end;
    try discriminate T; try tauto; intuition (try congruence); try (destruct H0 as (? & ?); congruence). }
  destruct D as [(p & g & ->)|D].
  - cbn [md_step]. destruct (next_rec p g s H) as (n & s' & E & L & R & K). cbn [md_step] in F. rewrite E in *. cbn [snd] in *.
    assert (Fo : forall p' g', (p', g') <> (p, g) -> kg (KGroupRecSeq p' g') s' = kg (KGroupRecSeq p' g') s) by (intros p' g' Ne; apply F; cbn; congruence).
    assert (De : forall p' g', (p', g') = (p, g) \/ (p', g') <> (p, g)).
    { intros p' g'. destruct (N.eq_dec p' p), (N.eq_dec g' g); subst; [now left|right|right|right]; congruence. }
    split; intros p' g'; destruct (De p' g') as [[= -> ->]|Ne].
    + right. eauto.
    + rewrite Fo by exact Ne. apply H.
    + rewrite R. lia.
    + unfold rec_num. rewrite Fo by exact Ne. lia.
  - split; intros p g; [rewrite F by apply D; apply H|unfold rec_num; rewrite F by apply D; lia].
Qed.
Lemma rec_run ops : forall s, forallb wf_op ops = true -> rec_ok s -> rec_ok (md_run snake ops s) /\ forall p g, (rec_num p g s <= rec_num p g (md_run snake ops s))%N.
Proof.
  induction ops as [|o ops IH]; intros s W H; [split; [exact H|intros; cbn; lia]|].
  cbn in W. apply andb_prop in W as [W1 W2]. destruct (rec_step o s W1 H) as [H1 L1]. destruct (IH _ W2 H1) as [H2 L2].
  change (md_run snake (o :: ops) s) with (md_run snake ops (md_step snake o s)). split; [exact H2|]. intros p g. specialize (L1 p g). specialize (L2 p g). lia.
Qed.
Lemma rec_empty : rec_ok []. Proof. now left. Qed.

(** the row of an accepted identify call *)
Definition version_of (r : Row) : option SVal := col GROUP_COLUMN_VERSION r.
Definition project_of (r : Row) : option SVal := col COLUMN_PROJECT_ID r.

Lemma reach_rec a b : reach snake call_op a b -> rec_ok (st_md a) -> rec_ok (st_md b) /\ forall p g, (rec_num p g (st_md a) <= rec_num p g (st_md b))%N.
Proof.
  intros (ops & E & F) H. rewrite E. apply rec_run; [|exact H]. apply forallb_forall. intros o Ho. apply call_op_wf. now apply (proj1 (Forall_forall _ _) F).
Qed.

Lemma each_quiet_look {A B} (f : A -> M B) l : (forall x s y s', f x s = (y, s') -> s' = s) -> forall s y s', each f l s = (y, s') -> s' = s.
Proof.
  intro H. induction l as [|x r IH]; cbn [each]; intros s y s' E.
  - now injection E as _ <-.
  - unfold bind in E. destruct (f x s) as [[v|e] s1] eqn:E1; [|injection E as _ <-; now apply (H _ _ _ _ E1)].
    apply H in E1. subst s1. destruct (each f r s) as [[w|e] s2] eqn:E2; pose proof (IH _ _ _ E2); subst s2; now injection E as _ <-.
Qed.
Lemma stored_look p g x s y s' : named_stored snake isdict dcv p g x s = (y, s') -> s' = s.
Proof.
  unfold named_stored, bind, look. destruct (prop_by_id p (KGroup g) (fst x) (st_md s)); intros E; injection E as _ <-; reflexivity.
Qed.

(** A call adds no row, or one row whose version is the group's record number, larger than
    before. *)
Definition adds (s s' : St) : Prop :=
  st_groups s' = st_groups s \/
  exists p g v row, st_groups s' = (st_groups s ++ [(g, row)])%list /\
    project_of row = Some (SInt TInt64 (Z.of_N p)) /\ version_of row = Some (SInt TInt64 (Z.of_N v)) /\
    rec_num p g (st_md s') = v /\ (rec_num p g (st_md s) < v)%N.
Definition adding {A} (m : M A) : Prop := forall s, rec_ok (st_md s) -> adds s (snd (m s)).
Lemma adding_quiet {A} (m : M A) : quiet m -> adding m.
Proof. intros Q s _. left. apply Q. Qed.
Lemma adding_bind {A B} (m : M A) (f : A -> M B) : quiet m -> does snake call_op m -> (forall x, adding (f x)) -> adding (bind m f).
Proof.
  intros Q D F s R. unfold bind. specialize (Q s). destruct (m s) as [[x|e] s1] eqn:E; cbn [snd] in Q; [|left; apply Q].
  pose proof (does_reach snake call_op m s _ _ D E) as Re. destruct (reach_rec _ _ Re R) as [R1 L].
  destruct (F x s1 R1) as [G|(p & g & v & row & G & H1 & H2 & H3 & H4)].
  - left. rewrite G. apply Q.
  - right. exists p, g, v, row. destruct Q as [_ Q]. rewrite <- Q. split; [exact G|]. split; [exact H1|]. split; [exact H2|]. split; [exact H3|]. specialize (L p g). lia.
Qed.
Lemma adding_tail p g gv (r : Identify) :
  adding (v <- on_md (group_next_record p g) ;;
          named <- each (named_stored snake isdict dcv p g) (gv_values gv) ;;
          insert_group g ([int64 COLUMN_PROJECT_ID p; int64 GROUP_COLUMN_ID (gv_id gv); int64 GROUP_COLUMN_VERSION v;
            mkNamed COLUMN_CREATED_AT TTimestamp (STime (id_time r))] ++ named)%list).
Proof.
  intros s R. unfold bind at 1, on_md. destruct (next_rec p g (st_md s) R) as (n & m & E & L & K & _). rewrite E.
  unfold bind. match goal with |- context [each ?f ?l ?t] => destruct (each f l t) as [[named|e] s2] eqn:E2; pose proof (each_quiet_look _ _ (stored_look p g) _ _ _ E2) end; subst s2; [|now left].
  unfold insert_group. destruct (types_ok _); [|now left]. right. eexists p, g, n, _. cbn [snd st_groups st_md]. split; [reflexivity|].
  split; [reflexivity|]. split; [reflexivity|]. split; [exact K|exact L].
Qed.
Lemma identify_adds r : adding (identify r).
Proof.
  unfold Ingest.identify. apply adding_bind; [apply quiet_look|apply does_look|intro pj]. cbv zeta.
  assert (W : forall A (m : M A), does snake (identify_op (pr_id pj)) m -> does snake call_op m)
    by (intros A m; apply does_weaken; intros o Ho; exists (pr_id pj); now right).
  apply adding_bind; [apply quiet_on|apply W; now apply does_op with (OGroupType (pr_id pj) (id_group r))|intro g].
  apply adding_bind; [destruct (id_props r); [apply quiet_resolve|apply quiet_ret]|apply W; destruct (id_props r); [now apply does_res|apply does_ret]|intro props].
  apply adding_bind; [|apply W; now apply does_values|intro vals].
  { apply quiet_each. intro x. apply quiet_bind; [apply quiet_value|intro; apply quiet_ret]. }
  apply adding_bind; [apply quiet_on|apply W; now apply does_op with (OGroupSet (pr_id pj) (gr_id g) (id_id r) vals)|intro gv].
  apply adding_bind; [apply quiet_on| |intros _; apply adding_tail].
  apply W. apply does_op with (ODictCreateKey (pr_id pj) (group_col (gr_id g)) GROUP_COLUMN_ID (gv_id gv) (id_id r)); [|reflexivity].
  split; [cbn [wf_op]; now rewrite group_col_no_slash|]. split; [reflexivity|]. split; [now eexists|reflexivity].
Qed.

(** track adds no row to the tables of groups *)
Definition still {A} (m : M A) : Prop := forall s, st_groups (snd (m s)) = st_groups s.
Lemma still_quiet {A} (m : M A) : quiet m -> still m.
Proof. intros Q s. apply Q. Qed.
Lemma still_bind {A B} (m : M A) (f : A -> M B) : still m -> (forall x, still (f x)) -> still (bind m f).
Proof.
  intros H F s. unfold bind. specialize (H s). destruct (m s) as [[x|e] s1]; cbn [snd] in *; [|exact H]. rewrite F. exact H.
Qed.
Lemma still_insert vs : still (insert_event vs).
Proof. intros s. unfold insert_event. destruct (types_ok vs); reflexivity. Qed.
Lemma still_track now r : still (track now r).
Proof.
  unfold Ingest.track. apply still_bind; [apply still_quiet, quiet_look|intro pj]. cbv zeta.
  apply still_bind; [apply still_quiet; destruct (tr_props r); [apply quiet_bind; [apply quiet_resolve|intro; apply quiet_ret]|apply quiet_ret]|intro].
  apply still_bind; [apply still_quiet, quiet_who|intro]. apply still_bind; [apply still_quiet, quiet_groups|intro].
  apply still_bind; [apply still_quiet, quiet_on|intro]. apply still_bind; [apply still_quiet; destruct x; [apply quiet_on|apply quiet_ret]|intro].
  apply still_bind; [apply still_quiet, quiet_each; intro; apply quiet_by_name|intro].
  apply still_bind; [|intro; apply still_quiet, quiet_on]. unfold send.
  apply still_bind; [apply still_quiet, quiet_on|intro]. apply still_bind; [apply still_quiet, quiet_each; intro; apply quiet_named|intro].
  apply still_bind; [apply still_quiet, quiet_each; intro; apply quiet_each; intro; apply quiet_stored|intro].
  apply still_bind; [apply still_quiet, quiet_each; intro; apply quiet_bind; [apply quiet_by_name|intro; apply quiet_named]|intro]. cbv zeta.
  apply still_bind; [|intro; apply still_bind; [apply still_quiet, quiet_on|intro; apply still_insert]].
  match goal with |- context [if ?b then _ else _] => destruct b end; [|apply still_quiet, quiet_ret].
  apply still_bind; [apply still_quiet, quiet_on|intro]. apply still_bind; [apply still_quiet, quiet_look|intro; apply still_insert].
Qed.

(** [later a b]: the row [b], stored after the row [a] of the same group type of the same
    project, has the larger version. *)
Definition later (a b : N * Row) : Prop :=
  fst a = fst b -> project_of (snd a) = project_of (snd b) ->
  exists v w, version_of (snd a) = Some (SInt TInt64 v) /\ version_of (snd b) = Some (SInt TInt64 w) /\ (v < w)%Z.
Definition rows_ok (s : St) : Prop :=
  rec_ok (st_md s) /\
  (forall g row, In (g, row) (st_groups s) -> exists p v, project_of row = Some (SInt TInt64 (Z.of_N p)) /\
     version_of row = Some (SInt TInt64 (Z.of_N v)) /\ (v <= rec_num p g (st_md s))%N) /\
  ForallOrdPairs later (st_groups s).
Lemma ordpairs_snoc {A} (R : A -> A -> Prop) l x : ForallOrdPairs R l -> Forall (fun y => R y x) l -> ForallOrdPairs R (l ++ [x]).
Proof.
  induction 1 as [|a l Ha Hl IH]; intros F; cbn; [constructor; constructor|]. inversion F as [|? ? F1 F2]; subst.
  constructor; [|now apply IH]. apply Forall_app. split; [exact Ha|now constructor].
Qed.
Lemma rows_call c s : rows_ok s -> rows_ok (call snake isdict enc dcv c s).
Proof.
  intros (R & B & O). pose proof (calls_reach snake isdict enc dcv snake_ok [c] s) as Re. cbn in Re.
  set (s' := call snake isdict enc dcv c s) in *. destruct (reach_rec _ _ Re R) as [R' L].
  assert (Ad : adds s s').
  { unfold s'. destruct c as [now r|r]; cbn [call]; [left; apply still_track|now apply identify_adds]. }
  assert (B0 : forall g row, In (g, row) (st_groups s) -> exists p v, project_of row = Some (SInt TInt64 (Z.of_N p)) /\
     version_of row = Some (SInt TInt64 (Z.of_N v)) /\ (v <= rec_num p g (st_md s'))%N).
  { intros g row H. destruct (B g row H) as (p & v & H1 & H2 & H3). exists p, v. specialize (L p g). repeat split; auto. lia. }
  destruct Ad as [G|(p & g & v & row & G & H1 & H2 & H3 & H4)]; (split; [exact R'|]); rewrite G; (split; [|]); auto.
  - intros g0 row0 H. apply in_app_iff in H as [H|[[= <- <-]|[]]]; [now apply B0|]. exists p, v. repeat split; auto. lia.
  - apply ordpairs_snoc; [exact O|]. apply Forall_forall. intros [g0 row0] H E1 E2. cbn [fst snd] in *. subst g0.
    destruct (B g row0 H) as (p0 & v0 & P0 & V0 & L0). rewrite P0, H1 in E2. injection E2 as E2. apply N2Z.inj in E2. subst p0.
    exists (Z.of_N v0), (Z.of_N v). split; [exact V0|]. split; [exact H2|]. lia.
Qed.

(** Whatever the calls, of any two rows of one group type of one project the later has the
    larger version. *)
Theorem C85_versions_grow before cs evs i j g a b :
  forallb wf_op before = true ->
  let s := calls cs (mkSt (md_run snake before []) evs []) in
  nth_error (st_groups s) i = Some (g, a) -> nth_error (st_groups s) j = Some (g, b) -> (i < j)%nat ->
  project_of a = project_of b ->
  exists v w, version_of a = Some (SInt TInt64 v) /\ version_of b = Some (SInt TInt64 w) /\ (v < w)%Z.
Proof.
  intros W s Hi Hj Hij Hp.
  assert (K : rows_ok s).
  { unfold s, Ingest.calls. assert (K0 : rows_ok (mkSt (md_run snake before []) evs [])).
    { split; [apply rec_run; [exact W|apply rec_empty]|]. split; [intros ? ? []|constructor]. }
    revert K0. generalize (mkSt (md_run snake before []) evs []). clear Hi Hj. clear s. induction cs as [|c cs IH]; intros t K0; [exact K0|]. cbn [fold_left]. apply IH. now apply rows_call. }
  destruct K as (_ & _ & O). revert i j Hi Hj Hij. generalize (st_groups s), O. clear - Hp. intros l O. induction O as [|x l F O IH]; intros i j Hi Hj Hij.
  - destruct i; discriminate.
  - destruct j as [|j]; [lia|]. destruct i as [|i].
    + cbn in Hi. injection Hi as ->. cbn in Hj. apply nth_error_In in Hj. rewrite Forall_forall in F. destruct (F _ Hj eq_refl Hp) as (v & w & H). eauto.
    + cbn in Hi, Hj. apply (IH i j); auto. lia.
Qed.

(** ** C84 *)
Definition resolve_op (p : N) (o : MdOp) : Prop := exists n t, o = OPropGetOrCreate p KEvent n None t false.

(** An event of a call that names the user, and gives groups, carries every value stored for
    the user. *)
Theorem C84_user_values_partial before r s s' now u pj gv :
  forallb wf_op before = true -> st_md s = md_run snake before [] ->
  track now r s = (Ok tt, s') ->
  tr_user r = Some u -> tr_anon r = None -> tr_groups r <> None ->
  project_by_token (tr_token r) (st_md s) = Ok pj ->
  kg (KReal (pr_id pj) GROUP_USER_ID u) (st_md s) = Some (VRec (RGroupValues gv)) ->
  exists row rest, st_events s' = (rest ++ [row])%list /\
    forall pid v, In (pid, v) (gv_values gv) ->
      exists pr, prop_by_id (pr_id pj) (KGroup GROUP_USER_ID) pid (st_md s') = Ok pr /\ In (column_name snake pr, dcv v) row.
Proof.
  intros W Es H Hu Ha Hg Hp Hk. set (p := pr_id pj) in *.
  assert (X0 : PropsOk p (KGroup GROUP_USER_ID) (st_md s)) by (rewrite Es; apply props_reach; exact W).
  pose proof (does_reach snake call_op _ _ _ _ (does_track snake isdict dcv snake_ok now r) H) as Rall.
  unfold Ingest.track in H. apply bind_ok in H as (pj' & s0 & E0 & H). apply look_ok in E0 as [E0 ->]. rewrite Hp in E0. injection E0 as <-.
  cbv zeta in H. fold p in H.
  apply bind_ok in H as (props & s1 & E1 & H).
  assert (K1 : kg (KReal p GROUP_USER_ID u) (st_md s1) = Some (VRec (RGroupValues gv))).
  { assert (D : does snake (resolve_op p) (match tr_props r with None => ret None | Some l => x <- resolve_properties snake p KEvent l ;; ret (Some x) end)).
    { destruct (tr_props r); [|apply does_ret]. apply does_bind; [apply does_resolve; intros; eexists _, _; reflexivity|intro; apply does_ret]. }
    destruct (does_ok snake _ _ _ _ _ D E1) as (o1 & R1 & F1). rewrite R1, (run_kept snake (resolve_op p)); [exact Hk|reflexivity|exact F1|].
    intros o (n & t & ->). split; [reflexivity|]. cbn [touches]. unfold in_props, in_ns, kind_ns. cbn. intuition discriminate. }
  assert (Lp : forall a b, reach snake (prep_op p) a b -> reach snake (track_op p) a b) by (intros; eapply reach_weaken; [|eassumption]; unfold track_op; auto).
  assert (Ls : forall a b, reach snake (send_op p) a b -> reach snake (track_op p) a b) by (intros; eapply reach_weaken; [|eassumption]; unfold track_op; auto).
  assert (R1 : reach snake (track_op p) s s1).
  { apply Lp. eapply does_reach; [|exact E1]. destruct (tr_props r); [|apply does_ret]. apply does_bind; [|intro; apply does_ret]. apply does_resolve. intros. now split. }
  apply bind_ok in H as (w & s2 & E2 & H). pose proof (Lp _ _ (does_reach _ _ _ _ _ _ (does_who snake p r) E2)) as R2.
  unfold who in E2. rewrite Hu, Ha in E2.
  apply bind_ok in E2 as (g & s1' & Eg & E2). apply on_md_ok in Eg as (Eg & _ & _). unfold group_get_or_create in Eg.
  change (kget (real_key p GROUP_USER_ID u) (st_md s1)) with (kg (KReal p GROUP_USER_ID u) (st_md s1)) in Eg. rewrite K1 in Eg. cbn [read_group_values] in Eg.
  injection Eg as <- _. apply bind_ok in E2 as (? & s2' & _ & E2). apply ret_ok in E2 as [-> ->]. cbn [fst snd] in H.
  apply bind_ok in H as (gs & s3 & E3 & H). pose proof (Lp _ _ (does_reach _ _ _ _ _ _ (does_groups snake p (Some gv) r) E3)) as R3.
  unfold track_groups in E3. destruct (tr_groups r) as [l|]; [|congruence].
  apply bind_ok in E3 as (gl & s3' & _ & E3). apply ret_ok in E3 as [-> ->].
  apply bind_ok in H as (e & s4 & E4 & H).
  assert (R4 : reach snake (track_op p) s3' s4).
  { apply Lp. set (ids := map _ _) in E4. eapply does_reach; [|exact E4]. now apply does_op with (OEventGetOrCreate p (tr_event r) None ids). }
  apply bind_ok in H as (? & s5 & E5 & H).
  assert (R5 : reach snake (track_op p) s4 s5).
  { apply Lp. eapply does_reach; [|exact E5]. destruct props; [|apply does_ret]. set (ids := map _ _). now apply does_op with (OEventAttach p (ev_id e) ids). }
  apply bind_ok in H as (extra & s6 & E6 & H).
  assert (R6 : reach snake (track_op p) s5 s6).
  { eapply does_reach; [|exact E6]. apply does_each. intro. apply does_by_name. }
  apply bind_ok in H as ([] & s7 & E7 & H). apply on_md_ok in H as (_ & V8 & _).
  unfold send in E7. apply bind_ok in E7 as (new & t1 & F1 & E7).
  assert (R7 : reach snake (track_op p) s6 t1).
  { apply Ls. eapply does_reach; [|exact F1]. now apply does_op with (OSession p (gv_id gv) now). }
  apply bind_ok in E7 as (pv & t2 & F2 & E7).
  assert (R8 : reach snake (track_op p) t1 t2).
  { apply Ls. eapply does_reach; [|exact F2]. apply does_each. intro. now apply does_named. }
  apply bind_ok in E7 as (gvs & t3 & Egv & E7).
  apply bind_ok in E7 as (utm & t4 & _ & E7). cbv zeta in E7. apply bind_ok in E7 as (? & t5 & _ & E7).
  apply bind_ok in E7 as (n & t6 & _ & E7). apply insert_event_ok in E7 as [_ E7].
  cbn [each] in Egv. apply bind_ok in Egv as (first & t2' & Ef & Egv). apply bind_ok in Egv as (rest' & t7 & _ & Egv). apply ret_ok in Egv as [-> _].
  cbn [fst snd] in Ef. apply each_look in Ef as [-> Ef]; [|intros ? ? ? ?; apply stored_look].
  eexists _, (st_events t6). split; [rewrite V8, E7; reflexivity|]. intros pid v Hin.
  destruct (Forall2_in _ _ _ _ Ef Hin) as (nv & Hnv & Hst). unfold named_stored in Hst. apply bind_ok in Hst as (pr & t8 & Hl & Hst). apply look_ok in Hl as [Hl ->].
  apply ret_ok in Hst as [-> _]. cbn [fst snd] in *. exists pr. split.
  - assert (Rt : reach snake (track_op p) s t2) by (repeat (eapply reach_trans; [eassumption|]); apply reach_refl).
    assert (Hs : prop_by_id p (KGroup GROUP_USER_ID) pid (st_md s) = Ok pr).
    { apply prop_by_id_spec. apply prop_by_id_spec in Hl. destruct Rt as (ops & Eo & Fo). rewrite Eo, (run_kept snake (track_op p)) in Hl; [exact Hl|reflexivity|exact Fo|].
      intros o [[Wo Ho]|[[Wo Ho]| ->]]; (split; [first [exact Wo|reflexivity]|]).
      - destruct o; try contradiction; cbn [touches]; try (destruct k; try contradiction);
          unfold in_props, in_group_types, in_group, in_dict, in_rec, in_ns, kind_ns, in_sessions; cbn; try tauto; try congruence; intuition discriminate.
      - destruct o; try contradiction; cbn [touches]; unfold in_dict, in_rec, in_ns, in_sessions; cbn; try tauto; try congruence; intuition discriminate.
      - cbn. discriminate. }
    destruct Rall as (ops & Eo & Fo). rewrite Eo. now apply prop_kept.
  - unfold row_of. apply in_map_iff. exists (mkNamed (column_name snake pr) (column_type isdict pr) (dcv v)). split; [reflexivity|].
    rewrite !in_app_iff. right. right. right. cbn [List.concat]. rewrite in_app_iff. now left.
Qed.

(** Without groups in the call, or when it also names the visitor, nothing stored about the user
    is attached: the row consists of the keys, the time and the event. *)
Theorem C84_not_attached_refuted now r s s' :
  track now r s = (Ok tt, s') ->
  tr_groups r = None \/ (tr_anon r <> None /\ tr_groups r = Some []) ->
  tr_props r = None -> tr_agent r = [] ->
  exists row rest, st_events s' = (rest ++ [row])%list /\
    map fst row = [COLUMN_PROJECT_ID; group_col 0; group_col 1; group_col 2; group_col 3; group_col 4;
                   COLUMN_CREATED_AT; COLUMN_EVENT_ID; COLUMN_EVENT].
Proof.
  intros H Hc Hpr Hag. unfold Ingest.track in H. apply bind_ok in H as (pj & s0 & _ & H). cbv zeta in H. rewrite Hpr, Hag in H.
  apply bind_ok in H as (props & s1 & E1 & H). apply ret_ok in E1 as [-> ->].
  apply bind_ok in H as (w & s2 & E2 & H).
  apply bind_ok in H as (gs & s3 & E3 & H).
  assert (G : gs = None \/ gs = Some []).
  { unfold track_groups in E3. destruct Hc as [Hc|[Ha Hc]]; rewrite Hc in E3; [apply ret_ok in E3 as [-> _]; now left|].
    cbn [each] in E3. apply bind_ok in E3 as (gl & ? & El & E3). apply ret_ok in El as [-> _]. apply ret_ok in E3 as [-> _].
    assert (Sw : snd w = None).
    { unfold who in E2. destruct (tr_user r), (tr_anon r); try congruence; try (now apply fail_ok in E2).
      - apply bind_ok in E2 as (? & ? & _ & E2). apply ret_ok in E2 as [-> _]. reflexivity.
      - apply bind_ok in E2 as (? & ? & _ & E2). apply bind_ok in E2 as (? & ? & _ & E2). apply ret_ok in E2 as [-> _]. reflexivity. }
    rewrite Sw. now right. }
  apply bind_ok in H as (e & s4 & _ & H). apply bind_ok in H as (? & s5 & _ & H).
  apply bind_ok in H as (extra & s6 & E6 & H). cbn [each] in E6. apply ret_ok in E6 as [-> ->].
  apply bind_ok in H as ([] & s7 & E7 & H). apply on_md_ok in H as (_ & V8 & _). cbn [List.app] in E7.
  unfold send in E7. apply bind_ok in E7 as (new & t1 & F1 & E7).
  apply bind_ok in E7 as (pv & t2 & F2 & E7). cbn [each] in F2. apply ret_ok in F2 as [-> ->].
  apply bind_ok in E7 as (gvs & t3 & Egv & E7).
  assert (gvs = []). { destruct G as [->| ->]; cbn [each] in Egv; now apply ret_ok in Egv as [-> _]. }
  subst gvs. apply bind_ok in E7 as (utm & t4 & _ & E7). cbv zeta in E7. apply bind_ok in E7 as (? & t5 & _ & E7).
  apply bind_ok in E7 as (n & t6 & _ & E7). apply insert_event_ok in E7 as [_ E7].
  eexists _, (st_events t6). split; [rewrite V8, E7; reflexivity|]. destruct G as [->| ->]; reflexivity.
Qed.
End GroupRows.
Print Assumptions C85_versions_grow.
Print Assumptions C84_user_values_partial.
Print Assumptions C84_not_attached_refuted.

(** Two identify calls of a user, one of a company, then events of the user with and without
    groups. *)
Definition gr_s1 := snd (set_props (who_is "user" "ann" [("Town", PVString "Rome")]) at_shop).
Definition gr_s2 := snd (set_props (who_is "company" "acme" [("Name", PVString "Acme Ltd")]) gr_s1).
Definition gr_s3 := snd (set_props (who_is "user" "ann" [("Town", PVString "Paris")]) gr_s2).
Definition gr_with := mkTrack "token" (Some "ann") None 1700000000000 "Buy" None (Some []) [] [] "1.2.3.4".
Definition gr_without := mkTrack "token" (Some "ann") None 1700000000000 "Buy" None None [] [] "1.2.3.4".
Definition gr_a := track plain text_dict num_dec 1700000000000 gr_with gr_s3.
Definition gr_b := track plain text_dict num_dec 1700000000000 gr_without (snd gr_a).
Example C84_C85_witness :
  fst gr_a = Ok tt /\ fst gr_b = Ok tt /\
  map (fun x => (fst x, version_of (snd x))) (st_groups gr_s3) =
    [(0%N, Some (SInt TInt64 1)); (1%N, Some (SInt TInt64 1)); (0%N, Some (SInt TInt64 2))] /\
  match kg (KReal 1 0 "ann") (st_md gr_s3) with
  | Some (VRec (RGroupValues gv)) => map fst (gv_values gv)
  | _ => []
  end = [1%N] /\
  map (fun r => List.length r) (st_events (snd gr_b)) = [12; 11; 9]%nat /\
  match prop_by_id 1 (KGroup 0) 1 (st_md (snd gr_b)) with
  | Ok pr => map (col (column_name plain pr)) (st_events (snd gr_b))
  | Err _ => []
  end = [Some (SInt TInt64 2); Some (SInt TInt64 2); None].
Proof.
  split; [vm_compute; reflexivity|]. split; [vm_compute; reflexivity|]. split; [vm_compute; reflexivity|].
  split; [vm_compute; reflexivity|]. split; vm_compute; reflexivity.
Qed.
