(** The invariant of the store of dashboards, reports and bookmarks and what every call keeps. *)
From Coq Require Import List NArith ZArith String Bool Lia.
From Verif Require Import AMap Order Bytes BytesFacts Value Kv KvKeys KvKeysFacts KvFacts SavedQuery SavedQueryFacts RecCodec RecSpec RecFacts Boards BoardsFacts BoardsSpec PropsStored.
Import ListNotations.
Local Open Scope N_scope.

Lemma time_whole t : time_ok t -> time_ok (whole t).
Proof.
  unfold time_ok, whole. intro H. replace ((t - t mod 1000000000) / 1000000000)%Z with (t / 1000000000)%Z; [exact H|].
  pose proof (Z.div_mod t 1000000000). replace (t - t mod 1000000000)%Z with ((t / 1000000000) * 1000000000)%Z by lia.
  now rewrite Z.div_mul.
Qed.
Lemma stamps_whole s : stamps_ok s -> stamps_ok (as_read_stamps s).
Proof.
  intros (H1 & H2 & H3 & H4 & H5). split; [exact H1|]. split; [now apply time_whole|]. split; [exact H3|]. split; [|exact H5].
  cbn. destruct (sp_updated s); cbn in *; [now apply time_whole|exact I].
Qed.

Section Facts.
Variables (print : Z -> Str) (parse : Str -> option Z) (is_time : Z -> Prop).
Hypothesis times : times_ok print parse is_time.
Definition dash_ok (p : N) (d : FDashboard) : Prop := dashboard_ok d /\ fdb_project d = p.
Definition rep_ok (p : N) (r : FReport) : Prop := report_ok is_time r /\ frp_project r = p.
Lemma dash_rt p d : dash_ok p d -> fits_memory (write_dashboard d) -> read_dashboard (write_dashboard d) = Some (as_read_dashboard d).
Proof. intros [H _]. now apply dashboard_rt. Qed.
Lemma rep_rt p r : rep_ok p r -> fits_memory (write_report print r) -> read_report parse (write_report print r) = Some (as_read_report r).
Proof. intros [H _]. now apply (report_rt print parse is_time times). Qed.
Lemma dash_read p d : dash_ok p d -> dash_ok p (as_read_dashboard d).
Proof.
  intros [(H1 & H2 & H3) H4]. split; [|exact H4]. split; [now apply stamps_whole|]. split; [exact H2|].
  cbn. apply Forall_map. eapply Forall_impl; [|exact H3]. auto.
Qed.
Lemma rep_read p r : rep_ok p r -> rep_ok p (as_read_report r).
Proof. intros [(H1 & H2 & H3) H4]. split; [|exact H4]. split; [now apply stamps_whole|]. now split. Qed.
Lemma dash_idem d : as_read_dashboard (as_read_dashboard d) = as_read_dashboard d.
Proof. unfold as_read_dashboard; cbn. now rewrite stamps_idem, list_idem, map_idem by apply panel_idem. Qed.
Lemma rep_idem r : as_read_report (as_read_report r) = as_read_report r.
Proof. unfold as_read_report; cbn. now rewrite stamps_idem, list_idem. Qed.
Lemma dash_id_read d : dash_id (as_read_dashboard d) = dash_id d. Proof. reflexivity. Qed.
Lemma rep_id_read r : rep_id (as_read_report r) = rep_id r. Proof. reflexivity. Qed.

Definition DashOk := CrudOk PDashboards read_dashboard dash_id dash_ok as_read_dashboard.
Definition RepOk := CrudOk PReports (read_report parse) rep_id rep_ok as_read_report.
Definition dash_seq := seq_at PDashboards.
Definition rep_seq := seq_at PReports.
Definition BooksOk (s : BStore) : Prop :=
  forall p a id v, gk (KBookmark p a id) s = Some v ->
    exists b r, v = VRec b /\ read_bookmark parse b = Some r /\ fbm_by r = a /\ fbm_project r = p /\ fbm_id r = codes id.
Definition BoardsOk (m : N) (s : BStore) : Prop :=
  keys_ok s /\ (forall p, DashOk p s /\ dash_seq p s <= m) /\ (forall p, RepOk p s /\ rep_seq p s <= m) /\ BooksOk s.

Lemma new_dash_ok p q now id : u64 p -> u64 (dc_by q) -> time_ok now -> Forall panel_ok (dc_panels q) -> u64 id ->
  dash_ok p (new_dashboard p q now id) /\ dash_id (new_dashboard p q now id) = id.
Proof. intros. repeat split; auto; apply H1. Qed.
Lemma new_rep_ok p q now id : u64 p -> u64 (rc_by q) -> time_ok now -> query_ok is_time (rc_query q) -> u64 id ->
  rep_ok p (new_report p q now id) /\ rep_id (new_report p q now id) = id.
Proof. intros. split; [|reflexivity]. split; [|reflexivity]. split; [|split; assumption]. cbn. repeat split; auto; apply H1. Qed.
Lemma changed_dash_ok p q now d : u64 (du_by q) -> time_ok now -> opt (Forall panel_ok) (du_panels q) -> dash_ok p d ->
  dash_ok p (changed_dashboard q now d) /\ dash_id (changed_dashboard q now d) = dash_id d.
Proof.
  intros H1 H2 H3 [((S1 & S2 & S3 & S4 & S5) & D2 & D3) D4]. split; [|reflexivity]. split; [|exact D4]. split; [|split; [exact D2|]].
  - cbn. repeat split; auto; try apply S2; try apply H2.
  - cbn. destruct (du_panels q); cbn in *; assumption.
Qed.
Lemma changed_rep_ok p q now d : u64 (ru_by q) -> time_ok now -> opt (query_ok is_time) (ru_query q) -> rep_ok p d ->
  rep_ok p (changed_report q now d) /\ rep_id (changed_report q now d) = rep_id d.
Proof.
  intros H1 H2 H3 [((S1 & S2 & S3 & S4 & S5) & D2 & D3) D4]. split; [|reflexivity]. split; [|exact D4]. split; [|split; [exact D2|]].
  - cbn. repeat split; auto; try apply S2; try apply H2.
  - cbn. destruct (ru_query q); cbn in *; assumption.
Qed.

(** The keys a call may change. *)
Definition own (o : BoardOp) (k : Key) : Prop :=
  match o with
  | BDashCreate p _ _ | BDashUpdate p _ _ _ | BDashDelete p _ =>
    match k with KData (NProj p' PDashboards) _ | KSeq (NProj p' PDashboards) => p' = p | _ => False end
  | BRepCreate p _ _ | BRepUpdate p _ _ _ | BRepDelete p _ =>
    match k with KData (NProj p' PReports) _ | KSeq (NProj p' PReports) => p' = p | _ => False end
  | BBookCreate p a _ id _ | BBookDelete p a id => k = KBookmark p a id
  end.
Definition nop (o : BoardOp) (s : BStore) := board_step print parse o s.

Lemma book_get_ok p a id s : BooksOk s ->
  (gk (KBookmark p a id) s = None /\ book_get parse p a id s = Err NotFound)
  \/ exists r, gk (KBookmark p a id) s <> None /\ book_get parse p a id s = Ok r /\ fbm_by r = a /\ fbm_project r = p /\ fbm_id r = codes id.
Proof.
  intro H. unfold book_get. change (bookmark_key p a id) with (render (KBookmark p a id)). fold (gk (KBookmark p a id) s).
  destruct (gk (KBookmark p a id) s) as [v|] eqn:E; [right|now left]. destruct (H p a id v E) as (b & r & -> & Hr & H1 & H2 & H3).
  exists r. rewrite Hr. split; [discriminate|]. auto.
Qed.
Lemma bm_dec (a b : N * N * string) : a = b \/ a <> b.
Proof.
  destruct a as [[a a'] x], b as [[b b'] y]. destruct (N.eq_dec a b), (N.eq_dec a' b'), (string_dec x y); try (left; congruence); right; congruence.
Qed.
Lemma book_create_spec p a q d now s : BooksOk s -> keys_ok s -> u64 p -> u64 a -> time_ok now -> opt (query_ok is_time) q ->
  let r := book_create print p a q d now s in
  let bm := mkFBookmark (codes d) now a p q in
  ((r = (Err Panicked, s) /\ 2 ^ 63 <= N.of_nat (List.length (write_bookmark print bm)))
   \/ (fst r = Ok bm /\ book_get parse p a d (snd r) = Ok (as_read_bookmark bm)))
  /\ BooksOk (snd r) /\ keys_ok (snd r) /\ (forall k, wf_key k = true -> k <> KBookmark p a d -> gk k (snd r) = gk k s).
Proof.
  intros Hb Hk H1 H2 H3 H4 r bm. unfold r, book_create. fold bm.
  destruct (alloc_spec (write_bookmark print bm)) as [[Ea Hf]|[Ea Hf]]; rewrite Ea; [|cbn [snd]; auto 6].
  cbn [fst snd]. change (bookmark_key p a d) with (render (KBookmark p a d)).
  assert (F : forall k, wf_key k = true -> k <> KBookmark p a d ->
    gk k (kput (render (KBookmark p a d)) (VRec (write_bookmark print bm)) s) = gk k s).
  { intros k W Hn. now rewrite gk_put_ne. }
  assert (Hrt : read_bookmark parse (write_bookmark print bm) = Some (as_read_bookmark bm)).
  { apply (bookmark_rt print parse is_time times); [|exact Hf]. repeat split; auto; apply H3. }
  split; [right; split; [reflexivity|]|split; [|split; [now apply keys_ok_put|exact F]]].
  - unfold book_get. change (bookmark_key p a d) with (render (KBookmark p a d)).
    fold (gk (KBookmark p a d) (kput (render (KBookmark p a d)) (VRec (write_bookmark print bm)) s)). rewrite gk_put_eq. now rewrite Hrt.
  - intros p' a' id' v Hv. destruct (bm_dec (p', a', id') (p, a, d)) as [E|Hn].
    + injection E as -> -> ->. rewrite gk_put_eq in Hv. injection Hv as <-. exists (write_bookmark print bm), (as_read_bookmark bm).
      repeat split; auto.
    + rewrite F in Hv by (try reflexivity; congruence). now apply Hb.
Qed.
Lemma book_delete_spec p a id s : BooksOk s -> keys_ok s ->
  let r := book_delete parse p a id s in
  fst r = book_get parse p a id s /\ book_get parse p a id (snd r) = Err NotFound
  /\ BooksOk (snd r) /\ keys_ok (snd r) /\ (forall k, wf_key k = true -> k <> KBookmark p a id -> gk k (snd r) = gk k s).
Proof.
  intros Hb Hk r. unfold r, book_delete. destruct (book_get_ok p a id s Hb) as [[E G]|(x & E & G & Hx)]; rewrite G; cbn [fst snd].
  { auto 8. }
  change (bookmark_key p a id) with (render (KBookmark p a id)).
  assert (F : forall k, wf_key k = true -> k <> KBookmark p a id -> gk k (kdel (render (KBookmark p a id)) s) = gk k s).
  { intros k W Hn. now rewrite gk_del_ne. }
  split; [reflexivity|]. split; [|split; [|split; [now apply keys_ok_del|exact F]]].
  - unfold book_get. change (bookmark_key p a id) with (render (KBookmark p a id)).
    fold (gk (KBookmark p a id) (kdel (render (KBookmark p a id)) s)). now rewrite gk_del_eq.
  - intros p' a' id' v Hv. destruct (bm_dec (p', a', id') (p, a, id)) as [Ee|Hn].
    + injection Ee as -> -> ->. rewrite gk_del_eq in Hv. discriminate.
    + rewrite F in Hv by (try reflexivity; congruence). now apply Hb.
Qed.

Definition Dget := crud_get_ok PDashboards write_dashboard read_dashboard dash_id dash_ok as_read_dashboard dash_rt dash_read dash_idem dash_id_read.
Definition Rget := crud_get_ok PReports (write_report print) (read_report parse) rep_id rep_ok as_read_report rep_rt rep_read rep_idem rep_id_read.
Definition Dcreate := create_spec PDashboards write_dashboard read_dashboard dash_id dash_ok as_read_dashboard dash_rt dash_read dash_idem dash_id_read.
Definition Dupdate := update_spec PDashboards write_dashboard read_dashboard dash_id dash_ok as_read_dashboard dash_rt dash_read dash_idem dash_id_read.
Definition Ddelete := delete_spec PDashboards write_dashboard read_dashboard dash_id dash_ok as_read_dashboard dash_rt dash_read dash_idem dash_id_read.
Definition Rcreate := create_spec PReports (write_report print) (read_report parse) rep_id rep_ok as_read_report rep_rt rep_read rep_idem rep_id_read.
Definition Rupdate := update_spec PReports (write_report print) (read_report parse) rep_id rep_ok as_read_report rep_rt rep_read rep_idem rep_id_read.
Definition Rdelete := delete_spec PReports (write_report print) (read_report parse) rep_id rep_ok as_read_report rep_rt rep_read rep_idem rep_id_read.

(** One step: the invariant, what is left alone, and that numbers only rise. *)
Lemma step_facts m s o : BoardsOk m s -> board_op_ok is_time o -> m + 1 < 2 ^ 64 ->
  let s' := nop o s in
  BoardsOk (m + 1) s' /\ (forall k, wf_key k = true -> ~ own o k -> gk k s' = gk k s)
  /\ (forall p, dash_seq p s <= dash_seq p s') /\ (forall p, rep_seq p s <= rep_seq p s')
  /\ (forall p id, dash_get p id s = Err NotFound -> id <= dash_seq p s -> dash_get p id s' = Err NotFound)
  /\ (forall p id, rep_get parse p id s = Err NotFound -> id <= rep_seq p s -> rep_get parse p id s' = Err NotFound).
Proof.
  intros (Hk & Hd & Hr & Hb) Ho Hm s'.
  (* It is enough to look at the keys of the call. *)
  assert (Gen : keys_ok s' -> (forall k, wf_key k = true -> ~ own o k -> gk k s' = gk k s) ->
     (forall p, (exists k, k = KSeq (NProj p PDashboards) /\ own o k) -> DashOk p s' /\ dash_seq p s <= dash_seq p s' <= m + 1
        /\ forall id, dash_get p id s = Err NotFound -> id <= dash_seq p s -> dash_get p id s' = Err NotFound) ->
     (forall p, (exists k, k = KSeq (NProj p PReports) /\ own o k) -> RepOk p s' /\ rep_seq p s <= rep_seq p s' <= m + 1
        /\ forall id, rep_get parse p id s = Err NotFound -> id <= rep_seq p s -> rep_get parse p id s' = Err NotFound) ->
     BooksOk s' ->
     (BoardsOk (m + 1) s' /\ (forall k, wf_key k = true -> ~ own o k -> gk k s' = gk k s)
      /\ (forall p, dash_seq p s <= dash_seq p s') /\ (forall p, rep_seq p s <= rep_seq p s')
      /\ (forall p id, dash_get p id s = Err NotFound -> id <= dash_seq p s -> dash_get p id s' = Err NotFound)
      /\ (forall p id, rep_get parse p id s = Err NotFound -> id <= rep_seq p s -> rep_get parse p id s' = Err NotFound))).
  { intros Gk Gf Gd Gr Gb.
    assert (Dd : forall p, own o (KSeq (NProj p PDashboards)) \/ ~ own o (KSeq (NProj p PDashboards))).
    { intro p. destruct o; cbn; try (right; tauto); try (right; discriminate); destruct (N.eq_dec p p0); auto. }
    assert (Dr : forall p, own o (KSeq (NProj p PReports)) \/ ~ own o (KSeq (NProj p PReports))).
    { intro p. destruct o; cbn; try (right; tauto); try (right; discriminate); destruct (N.eq_dec p p0); auto. }
    assert (Ad : forall p, DashOk p s' /\ dash_seq p s <= dash_seq p s' <= m + 1
        /\ forall id, dash_get p id s = Err NotFound -> id <= dash_seq p s -> dash_get p id s' = Err NotFound).
    { intro p. destruct (Dd p) as [H|H]; [apply Gd; eauto|]. destruct (Hd p) as [H1 H2].
      assert (Kd : forall id, gk (KData (NProj p PDashboards) id) s' = gk (KData (NProj p PDashboards) id) s).
      { intro id. apply Gf; [reflexivity|]. intro X. apply H. destruct o; cbn in *; auto; discriminate. }
      assert (Ks : gk (KSeq (NProj p PDashboards)) s' = gk (KSeq (NProj p PDashboards)) s) by (apply Gf; [reflexivity|exact H]).
      assert (Qs : dash_seq p s' = dash_seq p s) by (unfold dash_seq, seq_at; now rewrite Ks).
      rewrite Qs. split; [eapply CrudOk_frame; eauto|]. split; [lia|]. intros id Hg _. unfold dash_get.
      erewrite (crud_get_frame PDashboards read_dashboard p id s s'); [exact Hg|apply Kd]. }
    assert (Ar : forall p, RepOk p s' /\ rep_seq p s <= rep_seq p s' <= m + 1
        /\ forall id, rep_get parse p id s = Err NotFound -> id <= rep_seq p s -> rep_get parse p id s' = Err NotFound).
    { intro p. destruct (Dr p) as [H|H]; [apply Gr; eauto|]. destruct (Hr p) as [H1 H2].
      assert (Kd : forall id, gk (KData (NProj p PReports) id) s' = gk (KData (NProj p PReports) id) s).
      { intro id. apply Gf; [reflexivity|]. intro X. apply H. destruct o; cbn in *; auto; discriminate. }
      assert (Ks : gk (KSeq (NProj p PReports)) s' = gk (KSeq (NProj p PReports)) s) by (apply Gf; [reflexivity|exact H]).
      assert (Qs : rep_seq p s' = rep_seq p s) by (unfold rep_seq, seq_at; now rewrite Ks).
      rewrite Qs. split; [eapply CrudOk_frame; eauto|]. split; [lia|]. intros id Hg _. unfold rep_get.
      erewrite (crud_get_frame PReports (read_report parse) p id s s'); [exact Hg|apply Kd]. }
    split; [split; [exact Gk|split; [intro p; destruct (Ad p) as (? & ? & ?); split; [assumption|lia]|split; [intro p; destruct (Ar p) as (? & ? & ?); split; [assumption|lia]|exact Gb]]]|].
    split; [exact Gf|]. split; [intro p; apply (Ad p)|]. split; [intro p; apply (Ar p)|]. split; [intro p; apply (Ad p)|intro p; apply (Ar p)]. }
  assert (Bf : (forall p a id, gk (KBookmark p a id) s' = gk (KBookmark p a id) s) -> BooksOk s').
  { intros H p a id v Hv. rewrite H in Hv. now apply Hb. }
  destruct o as [p q now|p id q now|p id|p q now|p id q now|p id|p a q d now|p a id]; cbn [board_op_ok own] in *; unfold s', nop in *; cbn [board_step] in *.
  - destruct Ho as (O1 & O2 & O3 & O4). destruct (Hd p) as [Hp Hs].
    destruct (Dcreate p (new_dashboard p q now) s Hp Hk) as [[E _]|(E & C & K & Q & G & F)].
    { intros i ->. apply new_dash_ok; auto. unfold u64. unfold dash_seq in Hs. lia. }
    + unfold dash_create in *. rewrite E in *. cbn [snd] in *. apply Gen; auto; intros p' (k & -> & H); subst; try contradiction.
      split; [exact Hp|]. split; [lia|auto].
    + apply Gen; auto.
      * intros k W Hn. apply F; [exact W|intros ->; now apply Hn|intros ->; now apply Hn].
      * intros p' (k & -> & ->). unfold dash_create in *. fold dash_seq in Q. split; [exact C|]. unfold dash_seq in *. split; [lia|].
        intros i Hg Hi. unfold dash_get in *. rewrite G. destruct (N.eqb_spec i (seq_at PDashboards p s + 1)); [lia|]. now rewrite andb_false_r.
      * intros p' (k & -> & []).
      * apply Bf. intros. apply F; [reflexivity|discriminate|discriminate].
  - destruct Ho as (O1 & O2 & O3). destruct (Hd p) as [Hp Hs].
    destruct (Dupdate p id (changed_dashboard q now) s Hp Hk (fun r => changed_dash_ok p q now r O1 O2 O3)) as (G & C & K & Q & F).
    apply Gen; auto.
    + intros k W Hn. apply F; [exact W|intros ->; now apply Hn].
    + intros p' (k & -> & ->). unfold dash_update in *. split; [exact C|]. unfold dash_seq in *. split; [lia|].
      intros i Hg Hi. unfold dash_get in *. destruct (crud_get PDashboards read_dashboard p id s) as [r|] eqn:Er.
      * destruct G as [[G _]|[G1 G2]]; [rewrite G; exact Hg|]. rewrite G2. destruct (N.eqb_spec i id); [congruence|]. now rewrite andb_false_r.
      * rewrite G. exact Hg.
    + intros p' (k & -> & []).
    + apply Bf. intros. apply F; [reflexivity|discriminate].
  - destruct (Hd p) as [Hp Hs]. destruct (Ddelete p id s Hp Hk) as (G0 & G & C & K & Q & F). apply Gen; auto.
    + intros k W Hn. apply F; [exact W|intros ->; now apply Hn].
    + intros p' (k & -> & ->). unfold dash_delete in *. split; [exact C|]. unfold dash_seq in *. split; [lia|].
      intros i Hg Hi. unfold dash_get in *. rewrite G, Hg. now destruct (_ && _).
    + intros p' (k & -> & []).
    + apply Bf. intros. apply F; [reflexivity|discriminate].
  - destruct Ho as (O1 & O2 & O3 & O4). destruct (Hr p) as [Hp Hs].
    destruct (Rcreate p (new_report p q now) s Hp Hk) as [[E _]|(E & C & K & Q & G & F)].
    { intros i ->. apply new_rep_ok; auto. unfold u64. unfold rep_seq in Hs. lia. }
    + unfold rep_create in *. rewrite E in *. cbn [snd] in *. apply Gen; auto; intros p' (k & -> & H); subst; try contradiction.
      split; [exact Hp|]. split; [lia|auto].
    + apply Gen; auto.
      * intros k W Hn. apply F; [exact W|intros ->; now apply Hn|intros ->; now apply Hn].
      * intros p' (k & -> & []).
      * intros p' (k & -> & ->). unfold rep_create in *. split; [exact C|]. unfold rep_seq in *. split; [lia|].
        intros i Hg Hi. unfold rep_get in *. rewrite G. destruct (N.eqb_spec i (seq_at PReports p s + 1)); [lia|]. now rewrite andb_false_r.
      * apply Bf. intros. apply F; [reflexivity|discriminate|discriminate].
  - destruct Ho as (O1 & O2 & O3). destruct (Hr p) as [Hp Hs].
    destruct (Rupdate p id (changed_report q now) s Hp Hk (fun r => changed_rep_ok p q now r O1 O2 O3)) as (G & C & K & Q & F).
    apply Gen; auto.
    + intros k W Hn. apply F; [exact W|intros ->; now apply Hn].
    + intros p' (k & -> & []).
    + intros p' (k & -> & ->). unfold rep_update in *. split; [exact C|]. unfold rep_seq in *. split; [lia|].
      intros i Hg Hi. unfold rep_get in *. destruct (crud_get PReports (read_report parse) p id s) as [r|] eqn:Er.
      * destruct G as [[G _]|[G1 G2]]; [rewrite G; exact Hg|]. rewrite G2. destruct (N.eqb_spec i id); [congruence|]. now rewrite andb_false_r.
      * rewrite G. exact Hg.
    + apply Bf. intros. apply F; [reflexivity|discriminate].
  - destruct (Hr p) as [Hp Hs]. destruct (Rdelete p id s Hp Hk) as (G0 & G & C & K & Q & F). apply Gen; auto.
    + intros k W Hn. apply F; [exact W|intros ->; now apply Hn].
    + intros p' (k & -> & []).
    + intros p' (k & -> & ->). unfold rep_delete in *. split; [exact C|]. unfold rep_seq in *. split; [lia|].
      intros i Hg Hi. unfold rep_get in *. rewrite G, Hg. now destruct (_ && _).
    + apply Bf. intros. apply F; [reflexivity|discriminate].
  - destruct Ho as (O1 & O2 & O3 & O4). destruct (book_create_spec p a q d now s Hb Hk O1 O2 O3 O4) as (G & B & K & F).
    apply Gen; auto; intros p' (k & -> & H); discriminate.
  - destruct (book_delete_spec p a id s Hb Hk) as (G0 & G & B & K & F).
    apply Gen; auto; intros p' (k & -> & H); discriminate.
Qed.

Lemma BoardsOk_nil : BoardsOk 0 [].
Proof.
  split; [split; [apply kwf_nil|intros x H; now contradiction H]|].
  split; [intro p; split; [constructor; [discriminate|now left]|cbn; lia]|].
  split; [intro p; split; [constructor; [discriminate|now left]|cbn; lia]|]. discriminate.
Qed.
Lemma BoardsOk_run ops : Forall (board_op_ok is_time) ops -> forall m s, BoardsOk m s -> m + N.of_nat (List.length ops) < 2 ^ 64 ->
  BoardsOk (m + N.of_nat (List.length ops)) (board_run print parse ops s).
Proof.
  induction 1 as [|o ops Ho Hs IH]; intros m s H Hm; cbn [board_run fold_left List.length] in *; [now rewrite N.add_0_r|].
  rewrite Nat2N.inj_succ in *. rewrite <- N.add_1_l, N.add_assoc in *. apply IH; [|lia]. apply step_facts; auto. lia.
Qed.
(** Along a run: numbers rise, what is gone stays gone. *)
Lemma run_facts ops : Forall (board_op_ok is_time) ops -> forall m s, BoardsOk m s -> m + N.of_nat (List.length ops) < 2 ^ 64 ->
  let s' := board_run print parse ops s in
  (forall p, dash_seq p s <= dash_seq p s') /\ (forall p, rep_seq p s <= rep_seq p s')
  /\ (forall p id, dash_get p id s = Err NotFound -> id <= dash_seq p s -> dash_get p id s' = Err NotFound)
  /\ (forall p id, rep_get parse p id s = Err NotFound -> id <= rep_seq p s -> rep_get parse p id s' = Err NotFound).
Proof.
  induction 1 as [|o ops Ho Hs IH]; intros m s H Hm; cbn [board_run fold_left List.length] in *; [repeat split; auto; lia|].
  rewrite Nat2N.inj_succ in *. rewrite <- N.add_1_l, N.add_assoc in *.
  destruct (step_facts m s o H Ho) as (B & _ & F1 & F2 & F3 & F4); [lia|].
  destruct (IH _ _ B Hm) as (G1 & G2 & G3 & G4). unfold nop in *. cbv zeta in *. fold (board_run print parse) in *. repeat split.
  - intro p. etransitivity; [apply F1|apply G1].
  - intro p. etransitivity; [apply F2|apply G2].
  - intros p id Hg Hi. apply G3; [now apply F3|]. etransitivity; [exact Hi|apply F1].
  - intros p id Hg Hi. apply G4; [now apply F4|]. etransitivity; [exact Hi|apply F2].
Qed.
End Facts.
