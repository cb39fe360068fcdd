(** C116 with the texts of times as they are written: a report or bookmark that is opened has the
    query that was saved, at every later moment. *)
From Coq Require Import List NArith ZArith String Bool Lia.
From Verif Require Import AMap Kv KvKeys Bytes BytesFacts RecCodec RecSpec SavedQuery SavedQueryFacts RecFacts Boards BoardsSpec BoardsInv PropsStored PropsBoards
  Calendar CalendarSpec CalendarFacts TimeText TimeTextSpec PropsTimeText.
Import ListNotations.
Local Open Scope N_scope.

Lemma digits_bytes k x : is_bytes (digits k x).
Proof.
  destruct (digits_decimal k x 0) as (_ & D & _). unfold is_bytes, Digits in *. eapply Forall_impl; [|exact D]. cbn. intros. lia.
Qed.
Lemma print_length t : (List.length (print_time t) <= 38)%nat.
Proof.
  unfold print_time. destruct (civil (day_of t)) as [[y m0] d0]. cbv zeta.
  assert (Ly : (List.length (put_year y) <= 7)%nat).
  { unfold put_year. destruct (_ && _); [now rewrite (proj2 (proj2 (digits_decimal 4 (Z.to_N y) 0))); lia|]. cbn [List.length].
    rewrite (proj2 (proj2 (digits_decimal _ _ 0))). unfold year_digits. destruct (_ <? _); [lia|]. destruct (_ <? _); lia. }
  assert (Lf : forall n, (List.length (put_fraction n) <= 10)%nat).
  { intro n. unfold put_fraction. destruct (n =? 0); [cbn; lia|].
    destruct (_ =? 0); [|destruct (_ =? 0)]; cbn [List.length]; rewrite (proj2 (proj2 (digits_decimal _ _ 0))); lia. }
  specialize (Lf (Z.to_N (tod t mod SEC))).
  assert (Ld : forall x, List.length (digits 2 x) = 2%nat) by (intro x; apply (digits_decimal 2 x 0)).
  repeat rewrite app_length. rewrite !Ld. cbn [List.length]. lia.
Qed.
Lemma print_bytes t : is_bytes (print_time t).
Proof.
  unfold print_time. destruct (civil (day_of t)) as [[y m0] d0]. cbv zeta.
  assert (One : forall c, c < 256 -> is_bytes [c]) by (intros; repeat constructor; assumption).
  assert (By : is_bytes (put_year y)).
  { unfold put_year. destruct (_ && _); [apply digits_bytes|]. constructor; [destruct (_ <? _)%Z; reflexivity|apply digits_bytes]. }
  assert (Bf : forall n, is_bytes (put_fraction n)).
  { intro n. unfold put_fraction. destruct (n =? 0); [constructor|]. destruct (_ =? 0); [|destruct (_ =? 0)]; (constructor; [reflexivity|apply digits_bytes]). }
  unfold is_bytes in *. repeat (apply Forall_app; split); auto using digits_bytes; try (apply One; reflexivity); apply digits_bytes.
Qed.
Lemma text_times : times_ok print_time parse_time Holds.
Proof.
  intros t Ht. split; [|now apply C137_round_trip]. split; [|apply print_bytes].
  pose proof (print_length t). assert (K : N.of_nat (List.length (print_time t)) <= 38) by lia. eapply N.le_lt_trans; [exact K|reflexivity].
Qed.

(** ** One record: what is read is what was written. *)
Theorem C116_reports : forall r, report_ok Holds r -> fits_memory (write_report print_time r) ->
  exists r', read_report parse_time (write_report print_time r) = Some r' /\ frp_query r' = frp_query r /\ frp_type r' = frp_type r.
Proof.
  intros r Hr Hf. destruct (C116_report_fields print_time parse_time Holds text_times r Hr Hf) as (r' & H1 & H2 & H3 & _). eauto.
Qed.
Print Assumptions C116_reports.
Theorem C116_bookmarks : forall b, bookmark_ok Holds b -> fits_memory (write_bookmark print_time b) ->
  exists b', read_bookmark parse_time (write_bookmark print_time b) = Some b' /\ fbm_query b' = fbm_query b.
Proof.
  intros b Hb Hf. destruct (C116_bookmark_fields print_time parse_time Holds text_times b Hb Hf) as (b' & H1 & H2 & _). eauto.
Qed.
Print Assumptions C116_bookmarks.

(** ** Histories of calls *)
Notation hist := (board_history Holds).
Notation after ops := (board_run print_time parse_time ops []).
Notation open_report p id s := (rep_get parse_time p id s).
Notation open_bookmark p a id s := (book_get parse_time p a id s).
(** Calls that ask for another query of the report, or for its end. *)
Definition touches (p id : N) (o : BoardOp) : Prop :=
  match o with
  | BRepUpdate p' id' q _ => p' = p /\ id' = id /\ ru_query q <> None
  | BRepDelete p' id' => p' = p /\ id' = id
  | _ => False
  end.
Lemma one_op ops o : hist (ops ++ [o])%list -> forall p id r, open_report p id (after ops) = Ok r -> ~ touches p id o ->
  exists r', open_report p id (after (ops ++ [o])%list) = Ok r' /\ frp_query r' = frp_query r.
Proof.
  intros H p id r Hg Ht. destruct (C118_kinds_apart _ _ _ text_times ops o H) as (_ & K & _).
  assert (Same : open_report p id (after (ops ++ [o])%list) = open_report p id (after ops) -> exists r', open_report p id (after (ops ++ [o])%list) = Ok r' /\ frp_query r' = frp_query r).
  { intro E. rewrite E. eauto. }
  destruct o as [p1 q now|p1 id1 q now|p1 id1|p1 q now|p1 id1 q now|p1 id1|p1 a q d now|p1 a id1]; try (apply Same, K; discriminate).
  - destruct (C118_report_create_partial _ _ _ text_times ops p1 q now H) as (i & _ & Hn & [[E _]|[_ G]]); rewrite run_one; unfold nop; cbn [board_step].
    + rewrite E. cbn [snd]. eauto.
    + rewrite G. destruct (N.eqb_spec p p1) as [->|]; [|now eauto]. destruct (N.eqb_spec id i) as [->|]; [|now eauto]. congruence.
  - rewrite run_one. unfold nop. cbn [board_step].
    destruct (open_report p1 id1 (after ops)) as [d|e] eqn:Ed.
    + destruct (C118_report_update_partial _ _ _ text_times ops p1 id1 q now d H) as (_ & U). destruct (U Ed) as (d' & _ & _ & _ & _ & _ & Q & [[E _]|[_ G]]).
      * rewrite E. cbn [snd]. eauto.
      * rewrite G. destruct (N.eqb_spec p p1) as [->|]; [|now eauto]. destruct (N.eqb_spec id id1) as [->|]; [|now eauto]. cbn [andb].
        eexists. split; [reflexivity|]. cbn [touches] in Ht. destruct (ru_query q) eqn:Eq; [exfalso; apply Ht; repeat split; discriminate|].
        change (frp_query (as_read_report d')) with (frp_query d'). congruence.
    + destruct (C118_report_update_partial _ _ _ text_times ops p1 id1 q now r H) as (U & _). rewrite (U e Ed). cbn [snd]. eauto.
  - rewrite run_one. unfold nop. cbn [board_step]. apply history_app in H as (Hh & _).
    destruct (C118_report_delete _ _ _ text_times ops p1 id1 Hh) as (_ & G). rewrite G. cbn [touches] in Ht.
    destruct (N.eqb_spec p p1) as [->|]; [|now eauto]. destruct (N.eqb_spec id id1) as [->|]; [|now eauto]. now contradiction Ht.
Qed.
(** A report that is made is opened with its query, however many calls lie between, unless one of
    them asked for another query of this report or for its end. *)
Theorem C116_report_kept : forall ops p q now d ops2, hist (ops ++ BRepCreate p q now :: ops2)%list ->
  fst (rep_create print_time p q now (after ops)) = Ok d -> Forall (fun o => ~ touches p (rep_id d) o) ops2 ->
  exists r, open_report p (rep_id d) (after (ops ++ BRepCreate p q now :: ops2)%list) = Ok r /\ frp_query r = rc_query q.
Proof.
  intros ops p q now d ops2 H E F.
  assert (K : forall ops2 ops r, hist (ops ++ ops2)%list -> open_report p (rep_id d) (after ops) = Ok r -> Forall (fun o => ~ touches p (rep_id d) o) ops2 ->
    exists r', open_report p (rep_id d) (after (ops ++ ops2)%list) = Ok r' /\ frp_query r' = frp_query r).
  { clear. induction ops2 as [|o ops2 IH]; intros ops r H Hg F; [rewrite app_nil_r; eauto|]. inversion F; subst.
    replace (ops ++ o :: ops2)%list with ((ops ++ [o]) ++ ops2)%list in * by (now rewrite <- app_assoc).
    destruct (one_op ops o (proj1 (history_app _ _ _ H)) _ _ _ Hg) as (r1 & G1 & Q1); [assumption|].
    destruct (IH _ _ H G1) as (r2 & G2 & Q2); [assumption|]. exists r2. split; [exact G2|congruence]. }
  replace (ops ++ BRepCreate p q now :: ops2)%list with ((ops ++ [BRepCreate p q now]) ++ ops2)%list in * by (now rewrite <- app_assoc).
  destruct (C118_report_create_partial _ _ _ text_times ops p q now (proj1 (history_app _ _ _ H))) as (i & _ & _ & [[X _]|[X G]]); [rewrite X in E; discriminate|].
  rewrite X in E. injection E as <-.
  match type of G with forall _ _, _ = if _ then Ok ?x else _ =>
    assert (G0 : open_report p i (after (ops ++ [BRepCreate p q now])%list) = Ok x) by (rewrite run_one; unfold nop; cbn [board_step]; now rewrite G, !N.eqb_refl)
  end.
  destruct (K ops2 _ _ H G0 F) as (r & G' & Q'). exists r. split; [exact G'|]. rewrite Q'. reflexivity.
Qed.
Print Assumptions C116_report_kept.
(** A report whose query is changed is opened with the new query; a change of something else
    leaves the query. *)
Theorem C116_report_changed : forall ops p id q now d r, hist (ops ++ [BRepUpdate p id q now])%list ->
  open_report p id (after ops) = Ok d -> fst (rep_update print_time parse_time p id q now (after ops)) = Ok r ->
  exists r', open_report p id (after (ops ++ [BRepUpdate p id q now])%list) = Ok r' /\ frp_query r' = match ru_query q with Some x => x | None => frp_query d end.
Proof.
  intros ops p id q now d r H Hg Hu. destruct (C118_report_update_partial _ _ _ text_times ops p id q now d H) as (_ & U).
  destruct (U Hg) as (d' & _ & _ & _ & _ & _ & Q & [[E _]|[_ G]]); [rewrite E in Hu; discriminate|].
  rewrite run_one. unfold nop. cbn [board_step]. rewrite G, !N.eqb_refl. eexists. split; [reflexivity|]. exact Q.
Qed.
Print Assumptions C116_report_changed.
(** The same for bookmarks, which never change; the maker may draw the same text again (C119). *)
Theorem C116_bookmark_kept : forall ops p a q id now bm ops2, hist (ops ++ BBookCreate p a q id now :: ops2)%list ->
  fst (book_create print_time p a q id now (after ops)) = Ok bm -> Forall (fun o => bookmark_of o <> Some (p, a, id)) ops2 ->
  exists r, open_bookmark p a id (after (ops ++ BBookCreate p a q id now :: ops2)%list) = Ok r /\ fbm_query r = q.
Proof.
  intros ops p a q id now bm ops2 H E F.
  replace (ops ++ BBookCreate p a q id now :: ops2)%list with ((ops ++ [BBookCreate p a q id now]) ++ ops2)%list in * by (now rewrite <- app_assoc).
  destruct (C119_bookmark_create_partial _ _ _ text_times ops p a q id now (proj1 (history_app _ _ _ H))) as [[X _]|[_ G]]; [rewrite X in E; discriminate|].
  eexists. split; [eapply (C119_bookmark_kept _ _ _ text_times (ops ++ [BBookCreate p a q id now])%list p a id ops2); [exact H| |exact F]|].
  - rewrite run_one. unfold nop. cbn [board_step]. exact G.
  - reflexivity.
Qed.
Print Assumptions C116_bookmark_kept.

(** ** Witnesses *)
Example C137_witness :
  Holds 1709209800500000000
  /\ print_time 1709209800500000000 = codes "2024-02-29T12:30:00.500Z" /\ print_time 1709209800000000001 = codes "2024-02-29T12:30:00.000000001Z"
  /\ print_time (-1000) = codes "1969-12-31T23:59:59.999999Z" /\ print_time 253402300800000000000 = codes "+10000-01-01T00:00:00Z"
  /\ print_time (-62198755200000000000) = codes "-0001-01-01T00:00:00Z"
  /\ parse_time (codes "2024-02-29T14:30:00.5+02:00") = Some 1709209800500000000%Z /\ parse_time (codes "2024-02-29T00:00:00.5-12:30") = Some 1709209800500000000%Z
  /\ map (fun s => parse_time (codes s)) ["2023-02-29T12:30:00Z"; "2024-02-29T24:30:00Z"; "2024-2-29T12:30:00Z"; "2024-02-29T12:30:00"; "10000-01-01T00:00:00Z"; "2024-02-29T12:30:00.Z"; "2024-00-29T12:30:00Z"]%string
     = [None; None; None; None; None; None; None].
Proof. split; [|vm_compute; repeat split]. apply holds_year. vm_compute. split; congruence. Qed.
(** A report made, then other calls, then opened. *)
Definition C116_from : SavedQuery :=
  SQFunnel (mkFunnelQuery (QTBetween 1709209800500000000 1800000000000000000) 0 [mkFStep [mkFEvent (ECustom 4) None] SoExact]
    (mkTimeWindow 2 WuDay) FcSteps FcUnique None None None None None None None).
Definition C116_rc : RepCreate := mkRepCreate 3 None [82] None RtFunnel C116_from.
Definition C116_later : list BoardOp :=
  [BRepCreate 7 C118_rc 1700000001000000000; BRepUpdate 7 1 (mkRepUpdate 4 None (Some [83]) None None None) 1700000002000000000;
   BRepDelete 7 2; BBookCreate 7 3 (Some C116_from) "abc" 1700000009000000000].
Lemma held t : (-262143 <= year_of (day_of t) < 262143)%Z -> Holds t.
Proof. apply holds_year. Qed.
Ltac parts_ := repeat (lazymatch goal with
  | |- Holds _ => assumption
  | |- _ /\ _ => split
  | |- Forall _ [] => constructor
  | |- Forall _ (_ :: _) => constructor
  | |- True => exact Logic.I
  | |- (_ < _)%N => vm_compute; reflexivity
  | |- (_ < _)%Z => vm_compute; reflexivity
  | |- (_ <= _)%Z => vm_compute; discriminate
  | |- _ => first [progress cbn -[N.pow Z.pow N.lt Z.le Z.lt N.of_nat Z.div Holds]|red]
  end).
Example C116_kept_witness :
  hist (BRepCreate 7 C116_rc 1700000000000000000 :: C116_later)
  /\ (exists d, fst (rep_create print_time 7 C116_rc 1700000000000000000 []) = Ok d /\ rep_id d = 1)
  /\ Forall (fun o => ~ touches 7 1 o) C116_later
  /\ (exists r, open_report 7 1 (after (BRepCreate 7 C116_rc 1700000000000000000 :: C116_later)) = Ok r /\ frp_query r = C116_from /\ frp_name r = [83])
  /\ (exists r, open_bookmark 7 3 "abc" (after (BRepCreate 7 C116_rc 1700000000000000000 :: C116_later)) = Ok r /\ fbm_query r = Some C116_from).
Proof.
  assert (H1 : Holds 1709209800500000000) by (apply held; vm_compute; split; congruence).
  assert (H2 : Holds 1800000000000000000) by (apply held; vm_compute; split; congruence).
  assert (H3 : Holds 1) by (apply held; vm_compute; split; congruence).
  assert (H4 : Holds 1700000000000000000) by (apply held; vm_compute; split; congruence).
  split; [|split; [|split; [|split]]].
  - split; [|vm_compute; reflexivity]. unfold C116_later, C116_rc, C118_rc, C116_from, C116_funnel. parts_.
  - eexists. split; vm_compute; reflexivity.
  - repeat constructor; cbn; intuition; try discriminate.
  - eexists. split; [vm_compute; reflexivity|]. split; vm_compute; reflexivity.
  - eexists. split; vm_compute; reflexivity.
Qed.
