(** C118: dashboards and saved reports; C119: bookmarks.

    [board_run ops []]: the store after any history of calls on an empty store.  What is read
    back of a record that was written is [as_read_dashboard], [as_read_report] and
    [as_read_bookmark] of [RecSpec.v] (C115, C116: times are cut to the second, empty tag
    lists become absent, places of panels are cut to 32 bits). *)
From Coq Require Import List NArith ZArith String Bool Lia.
From Verif Require Import AMap Order Bytes BytesFacts Value Kv KvKeys KvKeysFacts KvFacts SavedQuery SavedQueryFacts RecCodec RecSpec RecFacts Boards BoardsFacts BoardsSpec BoardsInv PropsStored.
Import ListNotations.
Local Open Scope N_scope.

Section Boards.
Variables (print : Z -> Str) (parse : Str -> option Z) (is_time : Z -> Prop).
Hypothesis times : times_ok print parse is_time.
Notation history := (board_history is_time).
Notation run := (board_run print parse).

Lemma history_app a b : history (a ++ b)%list -> history a /\ Forall (board_op_ok is_time) b /\ N.of_nat (List.length a) + N.of_nat (List.length b) < 2 ^ 64.
Proof.
  intros [H1 H2]. rewrite app_length, Nat2N.inj_add in H2. apply Forall_app in H1 as [H1 H3]. repeat split; auto. lia.
Qed.
Lemma history_inv ops : history ops -> BoardsOk parse is_time (N.of_nat (List.length ops)) (run ops []).
Proof. intros [H1 H2]. apply (BoardsOk_run print parse is_time times ops H1 0 [] (BoardsOk_nil parse is_time)). exact H2. Qed.
Lemma run_app a b : run (a ++ b)%list [] = run b (run a []).
Proof. unfold board_run. apply fold_left_app. Qed.

(** *** C118: creation.  The answer has a number no dashboard of the project has, is what the
    request says, and is what is read afterwards; nothing else changes.  The only other
    outcome is a record too big for memory, and then nothing changes at all. *)
Theorem C118_dashboard_create_partial ops p q now : history (ops ++ [BDashCreate p q now])%list ->
  let s := run ops [] in
  let r := dash_create p q now s in
  exists id,
    let d := mkFDashboard (mkStamps id now (dc_by q) None None) p (dc_tags q) (dc_name q) (dc_descr q) (dc_panels q) in
    1 <= id /\ dash_get p id s = Err NotFound
    /\ ((r = (Err Panicked, s) /\ 2 ^ 63 <= N.of_nat (List.length (write_dashboard d)))
        \/ (fst r = Ok d
            /\ forall p' id', dash_get p' id' (snd r) = if (p' =? p) && (id' =? id) then Ok (as_read_dashboard d) else dash_get p' id' s)).
Proof.
  intros H s r. apply history_app in H as (Hh & Ho & Hn). destruct (Forall_inv Ho) as (O1 & O2 & O3 & O4).
  destruct (history_inv ops Hh) as (Hk & Hd & Hr & Hb). fold s in Hk, Hd, Hr, Hb. destruct (Hd p) as [Hp Hs].
  exists (dash_seq p s + 1). cbv zeta. split; [lia|]. split.
  { destruct (Dget p (dash_seq p s + 1) s Hp) as [[_ E]|(b & x & _ & _ & _ & _ & _ & _ & X)]; [exact E|]. unfold dash_seq in X. lia. }
  destruct (Dcreate p (new_dashboard p q now) s Hp Hk) as [[E L]|(E & _ & _ & _ & G & _)].
  { intros i ->. apply new_dash_ok; auto. unfold u64. unfold dash_seq in Hs. cbn [List.length] in Hn. lia. }
  - left. split; [exact E|exact L].
  - right. split; [exact E|exact G].
Qed.
Theorem C118_report_create_partial ops p q now : history (ops ++ [BRepCreate p q now])%list ->
  let s := run ops [] in
  let r := rep_create print p q now s in
  exists id,
    let d := mkFReport (mkStamps id now (rc_by q) None None) p (rc_tags q) (rc_name q) (rc_descr q) (rc_type q) (rc_query q) in
    1 <= id /\ rep_get parse p id s = Err NotFound
    /\ ((r = (Err Panicked, s) /\ 2 ^ 63 <= N.of_nat (List.length (write_report print d)))
        \/ (fst r = Ok d
            /\ forall p' id', rep_get parse p' id' (snd r) = if (p' =? p) && (id' =? id) then Ok (as_read_report d) else rep_get parse p' id' s)).
Proof.
  intros H s r. apply history_app in H as (Hh & Ho & Hn). destruct (Forall_inv Ho) as (O1 & O2 & O3 & O4).
  destruct (history_inv ops Hh) as (Hk & Hd & Hr & Hb). fold s in Hk, Hd, Hr, Hb. destruct (Hr p) as [Hp Hs].
  exists (rep_seq p s + 1). cbv zeta. split; [lia|]. split.
  { destruct (Rget print parse is_time times p (rep_seq p s + 1) s Hp) as [[_ E]|(b & x & _ & _ & _ & _ & _ & _ & X)]; [exact E|]. unfold rep_seq in X. lia. }
  destruct (Rcreate print parse is_time times p (new_report p q now) s Hp Hk) as [[E L]|(E & _ & _ & _ & G & _)].
  { intros i ->. apply new_rep_ok; auto. unfold u64. unfold rep_seq in Hs. cbn [List.length] in Hn. lia. }
  - left. split; [exact E|exact L].
  - right. split; [exact E|exact G].
Qed.

(** *** A number is never given twice: a later creation in the project gets a bigger one,
    whatever happens in between. *)
Theorem C118_dashboard_numbers ops1 p q1 now1 d1 ops2 q2 now2 d2 :
  history (ops1 ++ BDashCreate p q1 now1 :: ops2 ++ [BDashCreate p q2 now2])%list ->
  fst (dash_create p q1 now1 (run ops1 [])) = Ok d1 ->
  fst (dash_create p q2 now2 (run (ops1 ++ BDashCreate p q1 now1 :: ops2)%list [])) = Ok d2 ->
  dash_id d1 < dash_id d2.
Proof.
  intros H E1 E2.
  assert (Hh : history (ops1 ++ BDashCreate p q1 now1 :: ops2)%list).
  { change (ops1 ++ BDashCreate p q1 now1 :: ops2 ++ [BDashCreate p q2 now2])%list with (ops1 ++ (BDashCreate p q1 now1 :: ops2) ++ [BDashCreate p q2 now2])%list in H.
    rewrite app_assoc in H. now apply history_app in H. }
  assert (Ho2 : board_op_ok is_time (BDashCreate p q2 now2)).
  { destruct H as [H _]. rewrite Forall_forall in H. apply H. apply in_or_app. right. right. apply in_or_app. right. now left. }
  assert (Hn2 : N.of_nat (List.length (ops1 ++ BDashCreate p q1 now1 :: ops2)%list) + 1 < 2 ^ 64).
  { destruct H as [_ H]. revert H. rewrite !app_length. cbn [List.length]. rewrite app_length. cbn [List.length]. lia. }
  destruct (history_inv _ Hh) as (K2 & D2 & _ & _).
  pose proof Hh as Hh'. apply history_app in Hh' as (H1 & Ho & Hn). destruct (Forall_inv Ho) as (O1 & O2 & O3 & O4). pose proof (Forall_inv_tail Ho) as Hos.
  destruct (history_inv _ H1) as (K1 & D1 & R1 & B1). rewrite run_app in *. cbn [board_run fold_left board_step] in *. fold (board_run print parse) in *.
  destruct (D1 p) as [P1 S1].
  assert (X1 : dash_id d1 = dash_seq p (snd (dash_create p q1 now1 (run ops1 [])))).
  { destruct (Dcreate p (new_dashboard p q1 now1) _ P1 K1) as [[E L]|(E & _ & _ & Q & _)].
    { intros i ->. apply new_dash_ok; auto. unfold u64. unfold dash_seq in S1. cbn [List.length] in Hn. lia. }
    - unfold dash_create in E1. rewrite E in E1. discriminate.
    - unfold dash_create, dash_seq in *. rewrite E1 in E. injection E as ->. rewrite Q. reflexivity. }
  destruct (step_facts print parse is_time times _ _ (BDashCreate p q1 now1) (conj K1 (conj D1 (conj R1 B1)))) as (B & _); [cbn; auto|cbn [List.length] in Hn; lia|].
  assert (X2 : dash_seq p (snd (dash_create p q1 now1 (run ops1 []))) <= dash_seq p (run ops2 (snd (dash_create p q1 now1 (run ops1 []))))).
  { unfold nop in B. cbn [board_step] in B. eapply (run_facts print parse is_time times ops2 Hos _ _ B). cbn [List.length] in Hn. lia. }
  destruct (D2 p) as [P2 S2]. destruct Ho2 as (U1 & U2 & U3 & U4).
  destruct (Dcreate p (new_dashboard p q2 now2) _ P2 K2) as [[E L]|(E & _)].
  { intros i ->. apply new_dash_ok; auto. unfold u64. unfold dash_seq, board_run in *. lia. }
  - unfold dash_create, board_run in *. rewrite E in E2. discriminate.
  - unfold dash_create, dash_seq, board_run in *. rewrite E2 in E. injection E as ->. unfold dash_id at 2. cbn [sp_id fdb_stamps new_dashboard]. lia.
Qed.
Theorem C118_report_numbers ops1 p q1 now1 d1 ops2 q2 now2 d2 :
  history (ops1 ++ BRepCreate p q1 now1 :: ops2 ++ [BRepCreate p q2 now2])%list ->
  fst (rep_create print p q1 now1 (run ops1 [])) = Ok d1 ->
  fst (rep_create print p q2 now2 (run (ops1 ++ BRepCreate p q1 now1 :: ops2)%list [])) = Ok d2 ->
  rep_id d1 < rep_id d2.
Proof.
  intros H E1 E2.
  assert (Hh : history (ops1 ++ BRepCreate p q1 now1 :: ops2)%list).
  { change (ops1 ++ BRepCreate p q1 now1 :: ops2 ++ [BRepCreate p q2 now2])%list with (ops1 ++ (BRepCreate p q1 now1 :: ops2) ++ [BRepCreate p q2 now2])%list in H.
    rewrite app_assoc in H. now apply history_app in H. }
  assert (Ho2 : board_op_ok is_time (BRepCreate p q2 now2)).
  { destruct H as [H _]. rewrite Forall_forall in H. apply H. apply in_or_app. right. right. apply in_or_app. right. now left. }
  assert (Hn2 : N.of_nat (List.length (ops1 ++ BRepCreate p q1 now1 :: ops2)%list) + 1 < 2 ^ 64).
  { destruct H as [_ H]. revert H. rewrite !app_length. cbn [List.length]. rewrite app_length. cbn [List.length]. lia. }
  destruct (history_inv _ Hh) as (K2 & _ & R2 & _).
  pose proof Hh as Hh'. apply history_app in Hh' as (H1 & Ho & Hn). destruct (Forall_inv Ho) as (O1 & O2 & O3 & O4). pose proof (Forall_inv_tail Ho) as Hos.
  destruct (history_inv _ H1) as (K1 & D1 & R1 & B1). rewrite run_app in *. cbn [board_run fold_left board_step] in *. fold (board_run print parse) in *.
  destruct (R1 p) as [P1 S1].
  assert (X1 : rep_id d1 = rep_seq p (snd (rep_create print p q1 now1 (run ops1 [])))).
  { destruct (Rcreate print parse is_time times p (new_report p q1 now1) _ P1 K1) as [[E L]|(E & _ & _ & Q & _)].
    { intros i ->. apply new_rep_ok; auto. unfold u64. unfold rep_seq in S1. cbn [List.length] in Hn. lia. }
    - unfold rep_create in E1. rewrite E in E1. discriminate.
    - unfold rep_create, rep_seq in *. rewrite E1 in E. injection E as ->. rewrite Q. reflexivity. }
  destruct (step_facts print parse is_time times _ _ (BRepCreate p q1 now1) (conj K1 (conj D1 (conj R1 B1)))) as (B & _); [cbn; auto|cbn [List.length] in Hn; lia|].
  assert (X2 : rep_seq p (snd (rep_create print p q1 now1 (run ops1 []))) <= rep_seq p (run ops2 (snd (rep_create print p q1 now1 (run ops1 []))))).
  { unfold nop in B. cbn [board_step] in B. eapply (run_facts print parse is_time times ops2 Hos _ _ B). cbn [List.length] in Hn. lia. }
  destruct (R2 p) as [P2 S2]. destruct Ho2 as (U1 & U2 & U3 & U4).
  destruct (Rcreate print parse is_time times p (new_report p q2 now2) _ P2 K2) as [[E L]|(E & _)].
  { intros i ->. apply new_rep_ok; auto. unfold u64. unfold rep_seq, board_run in *. lia. }
  - unfold rep_create, board_run in *. rewrite E in E2. discriminate.
  - unfold rep_create, rep_seq, board_run in *. rewrite E2 in E. injection E as ->. unfold rep_id at 2. cbn [sp_id frp_stamps new_report]. lia.
Qed.

(** *** Change: only what the request names, and the stamp of the change. *)
Theorem C118_dashboard_update_partial ops p id q now d : history (ops ++ [BDashUpdate p id q now])%list ->
  let s := run ops [] in
  let r := dash_update p id q now s in
  (forall e, dash_get p id s = Err e -> r = (Err NotFound, s))
  /\ (dash_get p id s = Ok d -> exists d',
        fdb_stamps d' = mkStamps id (sp_created (fdb_stamps d)) (sp_by (fdb_stamps d)) (Some now) (Some (du_by q)) /\ fdb_project d' = p
        /\ fdb_tags d' = match du_tags q with Some v => v | None => fdb_tags d end
        /\ fdb_name d' = match du_name q with Some v => v | None => fdb_name d end
        /\ fdb_descr d' = match du_descr q with Some v => v | None => fdb_descr d end
        /\ fdb_panels d' = match du_panels q with Some v => v | None => fdb_panels d end
        /\ ((r = (Err Panicked, s) /\ 2 ^ 63 <= N.of_nat (List.length (write_dashboard d')))
            \/ (fst r = Ok d'
                /\ forall p' id', dash_get p' id' (snd r) = if (p' =? p) && (id' =? id) then Ok (as_read_dashboard d') else dash_get p' id' s))).
Proof.
  intros H s r. apply history_app in H as (Hh & Ho & Hn). destruct (Forall_inv Ho) as (O1 & O2 & O3).
  destruct (history_inv ops Hh) as (Hk & Hd & Hr & Hb). fold s in Hk, Hd, Hr, Hb. destruct (Hd p) as [Hp Hs].
  destruct (Dupdate p id (changed_dashboard q now) s Hp Hk (fun x => changed_dash_ok p q now x O1 O2 O3)) as (G & _).
  destruct (Dget p id s Hp) as [[_ E]|(b & x & _ & E & _ & [_ Ex] & _ & Ei & _)];
    unfold dash_get, dash_update in *; rewrite E in G |- *.
  - split; [intros e _; exact G|discriminate].
  - split; [discriminate|]. intro Ed. injection Ed as ->. exists (changed_dashboard q now d).
    split; [cbn; unfold dash_id in Ei; now rewrite Ei|]. split; [exact Ex|]. split; [reflexivity|]. split; [reflexivity|]. split; [reflexivity|]. split; [reflexivity|].
    exact G.
Qed.
Theorem C118_report_update_partial ops p id q now d : history (ops ++ [BRepUpdate p id q now])%list ->
  let s := run ops [] in
  let r := rep_update print parse p id q now s in
  (forall e, rep_get parse p id s = Err e -> r = (Err NotFound, s))
  /\ (rep_get parse p id s = Ok d -> exists d',
        frp_stamps d' = mkStamps id (sp_created (frp_stamps d)) (sp_by (frp_stamps d)) (Some now) (Some (ru_by q)) /\ frp_project d' = p
        /\ frp_tags d' = match ru_tags q with Some v => v | None => frp_tags d end
        /\ frp_name d' = match ru_name q with Some v => v | None => frp_name d end
        /\ frp_descr d' = match ru_descr q with Some v => v | None => frp_descr d end
        /\ frp_query d' = match ru_query q with Some v => v | None => frp_query d end
        /\ ((r = (Err Panicked, s) /\ 2 ^ 63 <= N.of_nat (List.length (write_report print d')))
            \/ (fst r = Ok d'
                /\ forall p' id', rep_get parse p' id' (snd r) = if (p' =? p) && (id' =? id) then Ok (as_read_report d') else rep_get parse p' id' s))).
Proof.
  intros H s r. apply history_app in H as (Hh & Ho & Hn). destruct (Forall_inv Ho) as (O1 & O2 & O3).
  destruct (history_inv ops Hh) as (Hk & Hd & Hr & Hb). fold s in Hk, Hd, Hr, Hb. destruct (Hr p) as [Hp Hs].
  destruct (Rupdate print parse is_time times p id (changed_report q now) s Hp Hk (fun x => changed_rep_ok is_time p q now x O1 O2 O3)) as (G & _).
  destruct (Rget print parse is_time times p id s Hp) as [[_ E]|(b & x & _ & E & _ & [_ Ex] & _ & Ei & _)];
    unfold rep_get, rep_update in *; rewrite E in G |- *.
  - split; [intros e _; exact G|discriminate].
  - split; [discriminate|]. intro Ed. injection Ed as ->. exists (changed_report q now d).
    split; [cbn; unfold rep_id in Ei; now rewrite Ei|]. split; [exact Ex|]. split; [reflexivity|]. split; [reflexivity|]. split; [reflexivity|]. split; [reflexivity|].
    exact G.
Qed.

(** *** The type asked for in a change of a report is dropped, even when the query changes
    to one of the other type. *)
Theorem C118_report_type_refuted ops p id q now r r' : history (ops ++ [BRepUpdate p id q now])%list ->
  rep_get parse p id (run ops []) = Ok r -> fst (rep_update print parse p id q now (run ops [])) = Ok r' ->
  frp_type r' = frp_type r /\ forall t, ru_type q = Some t -> t <> frp_type r -> frp_type r' <> t.
Proof.
  intros _ Hg Hu. unfold rep_update, crud_update in Hu. unfold rep_get in Hg. rewrite Hg in Hu.
  destruct (alloc _) in Hu; [|discriminate]. cbn [fst] in Hu. injection Hu as <-. split; [reflexivity|]. intros t _ Hn E. now apply Hn.
Qed.

(** *** Deletion: gone, the answer is what was there, nothing else changes. *)
Theorem C118_dashboard_delete ops p id : history ops ->
  let s := run ops [] in
  fst (dash_delete p id s) = dash_get p id s
  /\ forall p' id', dash_get p' id' (snd (dash_delete p id s)) = if (p' =? p) && (id' =? id) then Err NotFound else dash_get p' id' s.
Proof.
  intros Hh s. destruct (history_inv ops Hh) as (Hk & Hd & _). destruct (Ddelete p id _ (proj1 (Hd p)) Hk) as (G0 & G & _). split; [exact G0|exact G].
Qed.
Theorem C118_report_delete ops p id : history ops ->
  let s := run ops [] in
  fst (rep_delete parse p id s) = rep_get parse p id s
  /\ forall p' id', rep_get parse p' id' (snd (rep_delete parse p id s)) = if (p' =? p) && (id' =? id) then Err NotFound else rep_get parse p' id' s.
Proof.
  intros Hh s. destruct (history_inv ops Hh) as (Hk & _ & Hr & _). destruct (Rdelete print parse is_time times p id _ (proj1 (Hr p)) Hk) as (G0 & G & _). split; [exact G0|exact G].
Qed.
(** It stays gone whatever follows. *)
Theorem C118_deleted_stays_gone ops1 p id ops2 d : history (ops1 ++ BDashDelete p id :: ops2)%list ->
  dash_get p id (run ops1 []) = Ok d -> dash_get p id (run (ops1 ++ BDashDelete p id :: ops2)%list []) = Err NotFound.
Proof.
  intros H Hg. apply history_app in H as (Hh & Ho & Hn). pose proof (Forall_inv Ho) as O1. pose proof (Forall_inv_tail Ho) as Hos. pose proof (history_inv ops1 Hh) as B.
  destruct (step_facts print parse is_time times _ _ (BDashDelete p id) B O1) as (B' & _); [cbn [List.length] in Hn; lia|].
  rewrite run_app. change (run (BDashDelete p id :: ops2) (run ops1 [])) with (run ops2 (nop print parse (BDashDelete p id) (run ops1 []))).
  destruct B as (Hk & Hd & _). destruct (Ddelete p id _ (proj1 (Hd p)) Hk) as (G0 & G & _ & _ & Q & _).
  eapply (run_facts print parse is_time times ops2 Hos _ _ B'); [cbn [List.length] in Hn; lia| |].
  - unfold nop. cbn [board_step]. unfold dash_get, dash_delete in *. rewrite G, !N.eqb_refl. reflexivity.
  - unfold nop. cbn [board_step]. unfold dash_seq, dash_delete in *. rewrite Q.
    destruct (Dget p id _ (proj1 (Hd p))) as [[_ E]|(b & x & _ & _ & _ & _ & _ & _ & X)]; [|apply X].
    unfold dash_get in Hg. congruence.
Qed.
Theorem C118_deleted_report_stays_gone ops1 p id ops2 d : history (ops1 ++ BRepDelete p id :: ops2)%list ->
  rep_get parse p id (run ops1 []) = Ok d -> rep_get parse p id (run (ops1 ++ BRepDelete p id :: ops2)%list []) = Err NotFound.
Proof.
  intros H Hg. apply history_app in H as (Hh & Ho & Hn). pose proof (Forall_inv Ho) as O1. pose proof (Forall_inv_tail Ho) as Hos. pose proof (history_inv ops1 Hh) as B.
  destruct (step_facts print parse is_time times _ _ (BRepDelete p id) B O1) as (B' & _); [cbn [List.length] in Hn; lia|].
  rewrite run_app. change (run (BRepDelete p id :: ops2) (run ops1 [])) with (run ops2 (nop print parse (BRepDelete p id) (run ops1 []))).
  destruct B as (Hk & _ & Hr & _). destruct (Rdelete print parse is_time times p id _ (proj1 (Hr p)) Hk) as (G0 & G & _ & _ & Q & _).
  eapply (run_facts print parse is_time times ops2 Hos _ _ B'); [cbn [List.length] in Hn; lia| |].
  - unfold nop. cbn [board_step]. unfold rep_get, rep_delete in *. rewrite G, !N.eqb_refl. reflexivity.
  - unfold nop. cbn [board_step]. unfold rep_seq, rep_delete in *. rewrite Q.
    destruct (Rget print parse is_time times p id _ (proj1 (Hr p))) as [[_ E]|(b & x & _ & _ & _ & _ & _ & _ & X)]; [|apply X].
    unfold rep_get in Hg. congruence.
Qed.

(** *** Lists: exactly what can be read one by one, each once. *)
Theorem C118_dashboard_list ops p : history ops ->
  exists l, dash_list p (run ops []) = Ok l
    /\ (forall d, In d l <-> dash_get p (dash_id d) (run ops []) = Ok d) /\ NoDup (map dash_id l)
    /\ (forall id d, dash_get p id (run ops []) = Ok d -> dash_id d = id /\ fdb_project d = p).
Proof.
  intros Hh. destruct (history_inv ops Hh) as (Hk & Hd & _).
  destruct (list_spec PDashboards read_dashboard dash_id dash_ok as_read_dashboard p _ (proj1 (Hd p)) Hk) as (l & E & F & G).
  exists l. split; [exact E|]. split; [exact F|]. split; [exact G|]. intros id d Hg.
  destruct (Dget p id _ (proj1 (Hd p))) as [[_ X]|(b & x & _ & X & _ & [_ Ex] & _ & Ei & _)];
    unfold dash_get in Hg; rewrite X in Hg; [discriminate|]. now injection Hg as ->.
Qed.
Theorem C118_report_list ops p : history ops ->
  exists l, rep_list parse p (run ops []) = Ok l
    /\ (forall d, In d l <-> rep_get parse p (rep_id d) (run ops []) = Ok d) /\ NoDup (map rep_id l)
    /\ (forall id d, rep_get parse p id (run ops []) = Ok d -> rep_id d = id /\ frp_project d = p).
Proof.
  intros Hh. destruct (history_inv ops Hh) as (Hk & _ & Hr & _).
  destruct (list_spec PReports (read_report parse) rep_id (rep_ok is_time) as_read_report p _ (proj1 (Hr p)) Hk) as (l & E & F & G).
  exists l. split; [exact E|]. split; [exact F|]. split; [exact G|]. intros id d Hg.
  destruct (Rget print parse is_time times p id _ (proj1 (Hr p))) as [[_ X]|(b & x & _ & X & _ & [_ Ex] & _ & Ei & _)];
    unfold rep_get in Hg; rewrite X in Hg; [discriminate|]. now injection Hg as ->.
Qed.

(** *** Calls about something else leave a record alone. *)
Lemma run_one ops o : run (ops ++ [o])%list [] = nop print parse o (run ops []).
Proof. now rewrite run_app. Qed.
Theorem C118_kinds_apart ops o : history (ops ++ [o])%list ->
  (forall p id, dashboards_of o <> Some p -> dash_get p id (run (ops ++ [o])%list []) = dash_get p id (run ops []))
  /\ (forall p id, reports_of o <> Some p -> rep_get parse p id (run (ops ++ [o])%list []) = rep_get parse p id (run ops []))
  /\ (forall p a id, bookmark_of o <> Some (p, a, id) -> book_get parse p a id (run (ops ++ [o])%list []) = book_get parse p a id (run ops [])).
Proof.
  intros H. rewrite run_one. apply history_app in H as (Hh & Ho & Hn). pose proof (Forall_inv Ho) as O1.
  destruct (step_facts print parse is_time times _ _ o (history_inv ops Hh) O1) as (_ & F & _); [cbn [List.length] in Hn; lia|].
  cbv zeta in F. split; [|split].
  - intros p id Hne. apply crud_get_frame. apply F; [reflexivity|]. intro X. apply Hne. destruct o; cbn in *; try contradiction; congruence.
  - intros p id Hne. apply crud_get_frame. apply F; [reflexivity|]. intro X. apply Hne. destruct o; cbn in *; try contradiction; congruence.
  - intros p a id Hne. unfold book_get. change (bookmark_key p a id) with (render (KBookmark p a id)).
    change (kget (render (KBookmark p a id)) ?s) with (gk (KBookmark p a id) s). rewrite F; [reflexivity|reflexivity|].
    intro X. apply Hne. destruct o; cbn in *; try contradiction; congruence.
Qed.

(** *** A dashboard keeps showing a report that is deleted. *)
Theorem C118_dangling_panels_refuted ops p i d panel : history (ops ++ [BRepDelete p (fpn_report panel)])%list ->
  dash_get p i (run ops []) = Ok d -> In panel (fdb_panels d) ->
  let s' := run (ops ++ [BRepDelete p (fpn_report panel)])%list [] in
  dash_get p i s' = Ok d /\ rep_get parse p (fpn_report panel) s' = Err NotFound.
Proof.
  intros H Hg Hin s'. split.
  - unfold s'. destruct (C118_kinds_apart ops _ H) as (F & _). rewrite F; [exact Hg|discriminate].
  - unfold s'. rewrite run_one. unfold nop. cbn [board_step]. apply history_app in H as (Hh & _ & _).
    destruct (C118_report_delete ops p (fpn_report panel) Hh) as [_ G]. rewrite G, !N.eqb_refl. reflexivity.
Qed.

(** *** C119: bookmarks *)
Theorem C119_bookmark_create_partial ops p a q id now : history (ops ++ [BBookCreate p a q id now])%list ->
  let s := run ops [] in
  let r := book_create print p a q id now s in
  let bm := mkFBookmark (codes id) now a p q in
  ((r = (Err Panicked, s) /\ 2 ^ 63 <= N.of_nat (List.length (write_bookmark print bm)))
   \/ (fst r = Ok bm /\ book_get parse p a id (snd r) = Ok (as_read_bookmark bm))).
Proof.
  intros H s r bm. apply history_app in H as (Hh & Ho & Hn). destruct (Forall_inv Ho) as (O1 & O2 & O3 & O4).
  destruct (history_inv ops Hh) as (Hk & Hd & Hr & Hb).
  destruct (book_create_spec print parse is_time times p a q id now _ Hb Hk O1 O2 O3 O4) as (G & _). exact G.
Qed.
(** Kept until its maker draws the same text again in the same project (deletion has no
    caller in the platform). *)
Theorem C119_bookmark_kept ops p a id ops2 r : history (ops ++ ops2)%list ->
  book_get parse p a id (run ops []) = Ok r -> Forall (fun o => bookmark_of o <> Some (p, a, id)) ops2 ->
  book_get parse p a id (run (ops ++ ops2)%list []) = Ok r.
Proof.
  revert ops. induction ops2 as [|o ops2 IH]; intros ops H Hg Hf; [now rewrite app_nil_r|]. inversion Hf; subst.
  replace (ops ++ o :: ops2)%list with ((ops ++ [o]) ++ ops2)%list in * by (now rewrite <- app_assoc). apply IH; auto.
  destruct (C118_kinds_apart ops o) as (_ & _ & F); [now apply history_app in H|]. now rewrite F.
Qed.
(** What is found belongs to the asking account and the asked project; nobody else finds it. *)
Theorem C119_bookmark_private ops p a id r : history ops -> book_get parse p a id (run ops []) = Ok r ->
  fbm_by r = a /\ fbm_project r = p /\ fbm_id r = codes id.
Proof.
  intros Hh Hg. destruct (history_inv ops Hh) as (Hk & Hd & Hr & Hb).
  destruct (book_get_ok parse p a id _ Hb) as [[_ E]|(x & _ & E & X)]; rewrite E in Hg; [discriminate|]. now injection Hg as <-.
Qed.
(** A text drawn a second time by the account in the project replaces the first bookmark. *)
Theorem C119_same_text_refuted ops p a q1 q2 id now1 ops2 now2 bm : history (ops ++ BBookCreate p a q1 id now1 :: ops2 ++ [BBookCreate p a q2 id now2])%list ->
  fst (book_create print p a q2 id now2 (run (ops ++ BBookCreate p a q1 id now1 :: ops2)%list [])) = Ok bm ->
  exists r, book_get parse p a id (run (ops ++ BBookCreate p a q1 id now1 :: ops2 ++ [BBookCreate p a q2 id now2])%list []) = Ok r /\ fbm_query r = q2.
Proof.
  intros H E. change (ops ++ BBookCreate p a q1 id now1 :: ops2 ++ [BBookCreate p a q2 id now2])%list with (ops ++ (BBookCreate p a q1 id now1 :: ops2) ++ [BBookCreate p a q2 id now2])%list in *.
  rewrite app_assoc in *. destruct (C119_bookmark_create_partial _ p a q2 id now2 H) as [[E' _]|[_ G]]; [rewrite E' in E; discriminate|].
  rewrite run_one. unfold nop. cbn [board_step]. eexists. split; [exact G|reflexivity].
Qed.
End Boards.

(** *** Witnesses, with 8 bytes standing for the text of a time as in [PropsStored.v]. *)
Definition C118_dc (name : N) : DashCreate := mkDashCreate 3 None [name] None [mkFPanel 1 0 0 6 4].
Definition C118_rc : RepCreate := mkRepCreate 3 (Some [[97]]) [82] None RtFunnel C116_funnel.
Definition C118_ru : RepUpdate := mkRepUpdate 4 None (Some [83]) None (Some RtEvents) (Some C116_funnel).
Definition C118_ops : list BoardOp :=
  [BRepCreate 7 C118_rc 1700000000000000000; BDashCreate 7 (C118_dc 65) 1700000000000000000; BDashCreate 8 (C118_dc 66) 1700000000000000001;
   BDashCreate 7 (C118_dc 67) 1700000000000000002; BDashDelete 7 2; BDashCreate 7 (C118_dc 68) 1700000000000000003;
   BDashUpdate 7 1 (mkDashUpdate 4 None None (Some (Some [90])) None) 1700000009000000000;
   BRepUpdate 7 1 C118_ru 1700000009000000000; BBookCreate 7 3 (Some C116_funnel) "abc" 1700000009000000000].
Notation C118_run := (board_run C116_print C116_parse).
Example C118_witness :
  times_ok C116_print C116_parse i64_ok /\ board_history i64_ok C118_ops
  /\ (exists d, dash_get 7 1 (C118_run C118_ops []) = Ok d /\ fdb_name d = [65] /\ fdb_descr d = Some [90] /\ sp_updated_by (fdb_stamps d) = Some 4)
  /\ dash_get 7 2 (C118_run C118_ops []) = Err NotFound
  /\ (exists d, dash_get 7 3 (C118_run C118_ops []) = Ok d /\ fdb_name d = [68])
  /\ (exists d, dash_get 8 1 (C118_run C118_ops []) = Ok d /\ fdb_name d = [66])
  /\ (exists r, rep_get C116_parse 7 1 (C118_run C118_ops []) = Ok r /\ frp_name r = [83] /\ frp_type r = RtFunnel)
  /\ (exists b, book_get C116_parse 7 3 "abc" (C118_run C118_ops []) = Ok b /\ fbm_query b = Some C116_funnel)
  /\ book_get C116_parse 7 4 "abc" (C118_run C118_ops []) = Err NotFound
  /\ (exists l, dash_list 7 (C118_run C118_ops []) = Ok l /\ map dash_id l = [1; 3]).
Proof.
  split; [exact C116_contract|]. split; [split; [unfold C118_ops, C118_dc, C118_rc, C118_ru; oks_|vm_compute; reflexivity]|].
  split; [eexists; split; [vm_compute; reflexivity|repeat split]|].
  split; [vm_compute; reflexivity|].
  split; [eexists; split; [vm_compute; reflexivity|reflexivity]|].
  split; [eexists; split; [vm_compute; reflexivity|reflexivity]|].
  split; [eexists; split; [vm_compute; reflexivity|repeat split]|].
  split; [eexists; split; [vm_compute; reflexivity|reflexivity]|].
  split; [vm_compute; reflexivity|].
  eexists; split; [vm_compute; reflexivity|reflexivity].
Qed.

Example C119_witness :
  let ops := [BBookCreate 7 3 None "abc" 1700000000000000000; BDashCreate 7 (C118_dc 65) 1700000000000000000;
              BBookCreate 7 4 (Some C116_funnel) "abc" 1700000000000000000] in
  let again := (ops ++ [BBookCreate 7 3 (Some C116_funnel) "abc" 1700000005000000000])%list in
  board_history i64_ok again
  /\ book_get C116_parse 7 3 "abc" (C118_run ops []) = Ok (mkFBookmark (codes "abc") 1700000000000000000 3 7 None)
  /\ book_get C116_parse 7 3 "abc" (C118_run again []) = Ok (mkFBookmark (codes "abc") 1700000005000000000 3 7 (Some C116_funnel)).
Proof.
  split; [split; [unfold C118_dc; cbn [app]; oks_|vm_compute; reflexivity]|]. split; vm_compute; reflexivity.
Qed.

(** *** The list is not in the order of creation: with ten dashboards in a project the tenth
    comes second, because keys end in decimal text. *)
Theorem C118_list_order_refuted : forall (print : Z -> Str) parse,
  exists ops l, board_history i64_ok ops
    /\ (forall o, In o ops -> exists q now, o = BDashCreate 7 q now)
    /\ dash_list 7 (board_run print parse ops []) = Ok l /\ map dash_id l = [1; 10; 2; 3; 4; 5; 6; 7; 8; 9].
Proof.
  intros print parse. exists (map (fun n => BDashCreate 7 (C118_dc n) 1700000000000000000) [1; 2; 3; 4; 5; 6; 7; 8; 9; 10]).
  eexists. split; [split; [unfold C118_dc; cbn [map]; oks_|vm_compute; reflexivity]|]. split.
  - intros o Ho. apply in_map_iff in Ho as (n & <- & _). eauto.
  - split; [vm_compute; reflexivity|reflexivity].
Qed.
Print Assumptions C118_dashboard_create_partial.
Print Assumptions C118_report_create_partial.
Print Assumptions C118_dashboard_numbers.
Print Assumptions C118_report_numbers.
Print Assumptions C118_dashboard_update_partial.
Print Assumptions C118_report_update_partial.
Print Assumptions C118_report_type_refuted.
Print Assumptions C118_dashboard_delete.
Print Assumptions C118_report_delete.
Print Assumptions C118_deleted_stays_gone.
Print Assumptions C118_deleted_report_stays_gone.
Print Assumptions C118_dashboard_list.
Print Assumptions C118_report_list.
Print Assumptions C118_kinds_apart.
Print Assumptions C118_dangling_panels_refuted.
Print Assumptions C118_list_order_refuted.
Print Assumptions C119_bookmark_create_partial.
Print Assumptions C119_bookmark_kept.
Print Assumptions C119_bookmark_private.
Print Assumptions C119_same_text_refuted.
