(** Concurrent use of one table: C09, C10, C86. *)
From Coq Require Import List NArith ZArith Lia Bool Permutation Sorted String.
From Verif Require Import Bytes BytesFacts Value ValueFacts Log LogFacts AMap Order
  Memtable ListFacts MemtableFacts MemtableProject Table TableSpec TableFacts TableHistory TableUse
  PropsTable Conc ConcFacts ConcDurable.
Import ListNotations.
Local Open Scope string_scope.

(** ** Small specification *)
(** An insert that has read the columns and not yet pushed its row. *)
Definition inserting (p : PC) : Prop := match p with Prepared _ _ _ | Logged _ _ _ => True | _ => False end.
(** No insert is under way when a column is added. *)
Fixpoint columns_added_calmly (lexsort : list (list cell) -> list nat) (s : CState) (l : list Act) : Prop :=
  match l with
  | [] => True
  | a :: r => match a with AddColumn _ => forall i, ~ inserting (pcs s i) | _ => True end
              /\ match act lexsort s a with Some s' => columns_added_calmly lexsort s' r | None => True end
  end.
Definition columns_after (fs : list Field) (l : list Act) : list Field :=
  fold_left (fun fs a => match a with AddColumn f => add_new fs f | _ => fs end) l fs.
(** Inserts list the key columns first and have a representable log record. *)
Fixpoint rows_ok (o : Options) (fs : list Field) (l : list Act) : Prop :=
  match l with
  | [] => True
  | Begin _ vals :: r => good_row o fs vals /\ rows_ok o fs r
  | AddColumn f :: r => rows_ok o (add_new fs f) r
  | _ :: r => rows_ok o fs r
  end.

(** ** Facts *)
Section WithSort.
Variable lexsort : list (list cell) -> list nat.
Hypothesis HS : lexsort_contract lexsort.

Lemma add_field_sim a b f : same_but_log a b ->
  same_but_log (fst (add_field a f)) (fst (add_field b f)).
Proof.
  intros H. pose proof H as (M & E & L & D1 & D2 & D3). unfold add_field. rewrite M, E.
  destruct (existsb _ _); [exact H|]. cbn [fst].
  split; [reflexivity|]. split; [reflexivity|]. split; [exact L|]. split; [reflexivity|]. split; [exact D2|exact D3].
Qed.

Lemma add_column_ci o fs d s tq mvals f s' : usable o fs ->
  CI o fs d s tq mvals -> (forall i, ~ inserting (pcs s i)) -> act lexsort s (AddColumn f) = Some s' ->
  usable o (add_new fs f) /\ exists tq', CI o (add_new fs f) true s' tq' mvals.
Proof.
  intros U C Calm E. cbn [act] in E. destruct (held s) eqn:Hh; [discriminate|]. injection E as <-.
  destruct C. destruct (add_field tq f) as [t1 res] eqn:E1.
  pose proof (add_field_sim _ _ f ci_sim) as S1. rewrite E1 in S1. cbn [fst] in S1.
  assert (PC : forall fs', forall i, pc_ok o fs' (mkCS (fst (add_field (sh s) f)) (pcs s) None (acked s)) i).
  { intros fs' i. specialize (ci_pcs i). specialize (Calm i). unfold pc_ok in *. cbn [pcs held].
    destruct (pcs s i); cbn in *; try tauto. congruence. }
  destruct (add_field_inv _ _ _ _ _ _ _ _ ci_inv E1) as [(-> & -> & Hin)|(-> & I1 & Es & Nin & El & Ep)].
  - rewrite ci_sch in Hin.
    assert (E2 : add_new fs f = fs).
    { unfold add_new. replace (existsb _ _) with true; [reflexivity|]. symmetry.
      apply existsb_exists. apply in_map_iff in Hin as (g & Eg & Hg). exists g. split; [exact Hg|]. now apply String.eqb_eq. }
    rewrite E2. split; [exact U|]. exists tq. constructor; cbn [sh pcs held acked]; auto.
    + eapply inv_weaken; eauto; discriminate.
    + unfold inflight in *. cbn [held]. now rewrite Hh in ci_acks.
    + discriminate.
  - rewrite ci_sch in Es, Nin.
    assert (E2 : add_new fs f = (fs ++ [f])%list).
    { unfold add_new. replace (existsb _ _) with false; [reflexivity|]. symmetry.
      apply not_true_is_false. intros X. apply existsb_exists in X as (g & Hg & Eg). apply Nin.
      apply String.eqb_eq in Eg. rewrite <- Eg. now apply in_map. }
    rewrite E2. split.
    { apply usable_app; [exact U|]. rewrite map_app. cbn. apply NoDup_app_comm_snoc; [apply U|exact Nin]. }
    exists t1. constructor; cbn [sh pcs held acked]; auto.
    + unfold inflight in *. cbn [held]. rewrite Hh in ci_acks. destruct ci_acks as (pvals & F2 & P & K).
      exists pvals. split; [|split; [exact P|]].
      2:{ rewrite Es. rewrite ci_sch in K. eapply Forall_impl; [|exact K]. intros v Hv. unfold int_keys, acked_row in *.
          rewrite map_app, firstn_prefix by (rewrite map_length; apply U). exact Hv. }
      unfold all_parts in *. rewrite El. eapply Forall2_impl_; [|exact F2]. intros lp pv.
      apply part_has_disk. rewrite Ep. auto.
    + discriminate.
Qed.

Lemma exec_grow o l : o_replacing o = false -> forall fs d s tq mvals s', usable o fs ->
  CI o fs d s tq mvals -> rows_ok o fs l -> columns_added_calmly lexsort s l -> exec lexsort s l = Some s' ->
  usable o (columns_after fs l) /\ exists d' tq' mvals', CI o (columns_after fs l) d' s' tq' mvals'.
Proof.
  intros Happ. induction l as [|a l IH]; intros fs d s tq mvals s' U C R Q E; cbn [exec] in E.
  - injection E as <-. split; [exact U|]. eauto.
  - cbn [columns_added_calmly] in Q. destruct Q as [Q1 Q2].
    destruct (act lexsort s a) as [s1|] eqn:Ea; [|discriminate].
    unfold columns_after. cbn [fold_left]. fold (columns_after).
    assert (G : (exists f, a = AddColumn f) \/ (good_act o fs a /\ rows_ok o fs l
                /\ match a with AddColumn f => add_new fs f | _ => fs end = fs)).
    { destruct a; cbn [rows_ok good_act] in *; try tauto. left. eauto. }
    destruct G as [(f & ->)|(G & R' & ->)].
    + destruct (add_column_ci _ _ _ _ _ _ _ _ U C Q1 Ea) as (U1 & tq1 & C1).
      exact (IH _ _ _ _ _ _ U1 C1 R Q2 E).
    + destruct (act_ci lexsort HS o fs U Happ _ _ _ _ _ _ C G Ea) as (tq1 & mv1 & C1 & _).
      exact (IH _ _ _ _ _ _ U C1 R' Q2 E).
Qed.
End WithSort.

Lemma fixed_rows o fs l : Forall (good_act o fs) l -> rows_ok o fs l.
Proof. induction 1 as [|a l H _ IH]; cbn; [exact Logic.I|]. destruct a; cbn in *; auto. contradiction. Qed.

Lemma scan_streams_ext lexsort a b : t_md a = t_md b -> t_mem a = t_mem b ->
  (forall lp, In lp (all_parts (t_md b)) ->
     aget lp_dec (fst lp, p_id (snd lp)) (d_parts (t_disk a)) = aget lp_dec (fst lp, p_id (snd lp)) (d_parts (t_disk b))) ->
  scan_streams lexsort a = scan_streams lexsort b.
Proof.
  intros M E H. unfold scan_streams. rewrite M, E. destruct (mt_chunk _ _ _ _ _); [|reflexivity].
  replace (map (fun lp => part_rows a (fst lp) (snd lp)) (all_parts (t_md b)))
     with (map (fun lp => part_rows b (fst lp) (snd lp)) (all_parts (t_md b))); [reflexivity|].
  apply map_ext_in. intros lp Hlp. unfold part_rows. now rewrite (H lp Hlp), M.
Qed.

(** Scan of a snapshot that is still current. *)
Lemma scan_current lexsort o fs d s tq mvals : lexsort_contract lexsort -> o_replacing o = false ->
  CI o fs d s tq mvals -> held s = None ->
  exists ss, scan_streams lexsort (sh s) = Ok ss /\ Permutation (List.concat ss) (map (acked_row fs) (acked s)).
Proof.
  intros HS Happ C Hh. destruct C.
  destruct (scan_acks lexsort HS _ _ _ _ _ _ ci_inv ci_acks Happ) as (ss & E & P).
  exists ss. rewrite (scan_streams_sim lexsort _ _ ci_sim). split; [exact E|].
  unfold inflight in P. rewrite Hh, app_nil_r, ci_sch in P. exact P.
Qed.

(** ** C09: acknowledged rows stay visible *)
(** Full statement (refuted below): whatever the other threads do, a scan started after
    some inserts were acknowledged returns each of their rows once.
    Proved for any number of threads and every interleaving in which no flush falls
    between a scan's copy of the metadata and its reading of the memtable: such a scan
    returns exactly the rows acknowledged when it reads the memtable, each once. *)
Theorem C09_scan_without_flush_partial :
  forall lexsort o fs l s i md,
  lexsort_contract lexsort -> usable o fs -> o_replacing o = false ->
  Forall (good_act o fs) l ->
  exec lexsort (start (table_with o fs)) l = Some s ->
  held s = None -> pcs s i = Scanning md -> md = t_md (sh s) ->
  exists ss, scan_result lexsort s i = Some (Ok ss)
    /\ Permutation (List.concat ss) (map (acked_row fs) (acked s)).
Proof.
  intros lexsort o fs l s i md HS U Happ G E Hh Hp Emd.
  destruct (exec_ci lexsort HS o fs U Happ l _ _ _ _ _ (start_ci o fs U) G E) as (tq & mv & C).
  destruct (scan_current lexsort o fs _ _ _ _ HS Happ C Hh) as (ss & Es & P).
  exists ss. split; [|exact P]. unfold scan_result. rewrite Hp, Emd.
  assert (X : mkTable (t_md (sh s)) (t_mem (sh s)) (t_logged (sh s)) (t_log (sh s)) (t_disk (sh s)) = sh s) by (destruct (sh s); reflexivity).
  rewrite X, Es. reflexivity.
Qed.
Print Assumptions C09_scan_without_flush_partial.

(** In particular a scan that starts whenever no thread holds the locks, whatever inserts
    and flushes are under way in other threads. *)
Theorem C09_scan_in_one_go :
  forall lexsort o fs l s i,
  lexsort_contract lexsort -> usable o fs -> o_replacing o = false ->
  Forall (good_act o fs) l ->
  exec lexsort (start (table_with o fs)) l = Some s -> held s = None -> pcs s i = Idle ->
  exists s' ss, act lexsort s (BeginScan i) = Some s' /\ scan_result lexsort s' i = Some (Ok ss)
    /\ Permutation (List.concat ss) (map (acked_row fs) (acked s)).
Proof.
  intros lexsort o fs l s i HS U Happ G E Hh Hp.
  destruct (act lexsort s (BeginScan i)) as [s'|] eqn:Ea; [|cbn [act] in Ea; rewrite Hh, Hp in Ea; discriminate].
  exists s'.
  assert (E' : exec lexsort (start (table_with o fs)) (l ++ [BeginScan i])%list = Some s').
  { clear - E Ea. revert E. generalize (start (table_with o fs)). induction l as [|a l IH]; intros c E; cbn [exec app] in *.
    - injection E as ->. now rewrite Ea.
    - destruct (act lexsort c a); [auto|discriminate]. }
  cbn [act] in Ea. rewrite Hh, Hp in Ea. injection Ea as <-.
  destruct (C09_scan_without_flush_partial lexsort o fs (l ++ [BeginScan i])%list
              (mkCS (sh s) (set_pc (pcs s) i (Scanning (t_md (sh s)))) None (acked s)) i (t_md (sh s)) HS U Happ) as (ss & R & P).
  - apply Forall_app. split; [exact G|]. constructor; [exact Logic.I|constructor].
  - exact E'.
  - reflexivity.
  - cbn [pcs]. apply set_pc_same.
  - reflexivity.
  - exists ss. auto.
Qed.
Print Assumptions C09_scan_in_one_go.

Ltac good_tac :=
  repeat (apply Forall_cons || apply Forall_nil); cbn [good_act];
  first [ exact Logic.I
        | split; [reflexivity|];
          let pk := fresh "pk" in let H := fresh "H" in
          intros pk H; vm_compute in H; injection H as <-; loggable_tac ].

(** Two inserters whose steps interleave, an automatic flush, and a reader. *)
Definition conc_start : CState := start (table_with o_log [fK; fV]).
Definition after_two : option CState :=
  exec stable_lexsort conc_start
    [Begin 1 (ins 5 "a"); Begin 2 (ins 3 "b"); AppendLog 2; AppendLog 1; Push 1;
     BeginFlush 4; SwapHandle 4; Push 2; Begin 1 (ins 7 "c"); BeginScan 3; AppendLog 1; Push 1].
Example C09_witness :
  Forall (good_act o_log [fK; fV])
    [Begin 1 (ins 5 "a"); Begin 2 (ins 3 "b"); AppendLog 2; AppendLog 1; Push 1;
     BeginFlush 4; SwapHandle 4; Push 2; Begin 1 (ins 7 "c"); BeginScan 3; AppendLog 1; Push 1]
  /\ match after_two with
     | Some s => held s = None /\ pcs s 3 = Scanning (t_md (sh s))
         /\ acked s = [ins 5 "a"; ins 3 "b"; ins 7 "c"]
         /\ scan_result stable_lexsort s 3 =
            Some (Ok [[[Some (AInt 5); Some (AStr [97%N])]]; [[Some (AInt 3); Some (AStr [98%N])]; [Some (AInt 7); Some (AStr [99%N])]]])%Z
     | None => False
     end.
Proof. split; [good_tac|]. vm_compute. repeat split. Qed.

(** A flush between the two steps of a scan hides every row it writes: from any reachable
    state with unflushed rows, a reader and a flushing thread can take steps after which
    the reader gets all acknowledged rows but the unflushed ones, although all of them
    were acknowledged before the scan began. *)
Theorem C09_flush_during_scan_refuted :
  forall lexsort o fs l s i j,
  lexsort_contract lexsort -> usable o fs -> o_replacing o = false ->
  Forall (good_act o fs) l ->
  exec lexsort (start (table_with o fs)) l = Some s ->
  held s = None -> pcs s i = Idle -> pcs s j = Idle -> i <> j -> mt_len (t_mem (sh s)) <> 0 ->
  exists s' ss lost,
    exec lexsort s [BeginScan i; BeginFlush j; SwapHandle j] = Some s' /\ acked s' = acked s
    /\ scan_result lexsort s' i = Some (Ok ss)
    /\ List.length lost = mt_len (t_mem (sh s))
    /\ Permutation (List.concat ss ++ lost) (map (acked_row fs) (acked s)).
Proof.
  intros lexsort o fs l s i j HS U Happ G E Hh Hi Hj Ne Hm.
  destruct (exec_ci lexsort HS o fs U Happ l _ _ _ _ _ (start_ci o fs U) G E) as (tq & mv & C).
  destruct C. assert (Em : t_mem (sh s) = t_mem tq) by apply ci_sim.
  assert (Emd : t_md (sh s) = t_md tq) by apply ci_sim.
  assert (Lm : mt_len (t_mem (sh s)) = List.length mv) by (rewrite Em; eapply inv_mem_len; exact ci_inv).
  assert (Hne : mv <> []) by (intros ->; now apply Hm).
  assert (Hic : o_index_cols o <= List.length (md_schema (t_md tq))) by (rewrite ci_sch; apply U).
  assert (F : Forall (fun x => int_dt x = true) (firstn (o_index_cols o) (dts_of (md_schema (t_md tq))))) by (rewrite ci_sch; now apply usable_int).
  destruct (inv_chunk_props lexsort HS _ _ _ _ _ ci_inv Hne Hic) as (rows & EC & PCk & Hrows & Hw).
  rewrite <- Happ in EC.
  destruct (flush_log_ok lexsort _ _ _ _ _ _ ci_inv Hic F EC Hrows Hw)
    as (t' & pt & A & B & Ef & I' & Es & EA & EA' & Fresh & Ed).
  destruct (flush_files_sim lexsort _ _ _ ci_sim Ef) as (a' & Ea & Sa).
  set (Y := mkTable (t_md tq) (cols_of (dts_of fs) []) 0 (md_log_id (t_md tq))
              (mkDisk (Some (t_md tq)) [(md_log_id (t_md tq), [])] (d_parts (t_disk tq)))).
  assert (IY : Inv o Y [] true false).
  { destruct ci_inv. constructor; cbn [Y t_md t_mem t_log t_disk d_md d_logs d_parts]; auto.
    - split; [reflexivity|]. exists []. split; [reflexivity|]. split; constructor.
    - now rewrite ci_sch. }
  destruct ci_acks as (pvals & F2 & P & K).
  assert (AY : Acks (o_index_cols o) Y (List.concat pvals) []).
  { exists pvals. split; [|split; [now rewrite app_nil_r|constructor]]. exact F2. }
  destruct (scan_acks lexsort HS _ _ _ _ _ _ IY AY Happ) as (ss & Ess & Pss).
  eexists _, ss, (map (acked_row fs) mv). split; [|split; [|split; [|split]]].
  - cbn [exec act]. rewrite Hh, Hi. cbn [held pcs sh]. rewrite set_pc_other by congruence. rewrite Hj.
    destruct (Nat.eqb_spec (mt_len (t_mem (sh s))) 0) as [Z|_]; [contradiction|].
    rewrite Ea. cbn [pcs]. rewrite set_pc_same. reflexivity.
  - cbn [acked]. now rewrite app_nil_r.
  - unfold scan_result. cbn [pcs sh t_mem t_logged t_log t_disk].
    rewrite set_pc_other, set_pc_other, set_pc_same by congruence. f_equal.
    destruct Sa as (_ & Sm & _ & _ & Sp & _). rewrite <- Ess, Emd.
    apply scan_streams_ext; cbn [Y t_md t_mem t_disk d_parts]; [reflexivity| |].
    { rewrite Sm, (i_mem _ _ _ _ _ I'), Es, ci_sch. reflexivity. }
    intros lp Hlp. rewrite Sp, Ed, aget_aset_ne; [reflexivity|]. intros Ek.
    assert (exists pv, part_has (o_index_cols o) (t_disk tq) lp pv) as (pv & pf & Hpf & _).
    { clear - F2 Hlp. induction F2 as [|x y xs ys H _ IH]; [contradiction|]. destruct Hlp as [->|H']; eauto. }
    rewrite Ek in Hpf. congruence.
  - rewrite map_length. now symmetry.
  - unfold inflight in P. rewrite Hh, app_nil_r in P. rewrite Pss. cbn [Y t_md]. rewrite ci_sch, <- map_app.
    apply Permutation_map. now symmetry.
Qed.
Print Assumptions C09_flush_during_scan_refuted.

Definition one_unflushed : option CState :=
  exec stable_lexsort conc_start [Begin 1 (ins 5 "a"); AppendLog 1; Push 1].
Example C09_flush_during_scan_witness :
  match one_unflushed with
  | Some s => held s = None /\ pcs s 2 = Idle /\ pcs s 3 = Idle /\ mt_len (t_mem (sh s)) = 1 /\ acked s = [ins 5 "a"]
      /\ match exec stable_lexsort s [BeginScan 2; BeginFlush 3; SwapHandle 3] with
         | Some s' => scan_result stable_lexsort s' 2 = Some (Ok [])
         | None => False
         end
  | None => False
  end.
Proof. vm_compute. repeat split. Qed.

(** ** C10: acknowledged rows survive a crash *)
(** Full statement (refuted below): at every point of every interleaving, a crash and
    restart keeps the acknowledged rows.  Proved when no thread appends its log record
    while another replaces the log, and no flush happens while another thread stands
    between its record and its push: the table reopens, and holds the acknowledged rows
    and at most one further row per insert in progress. *)
Theorem C10_crash_keeps_acknowledged_partial :
  forall lexsort o fs l s,
  lexsort_contract lexsort -> usable o fs -> o_replacing o = false ->
  Forall (good_act o fs) l -> undisturbed_run lexsort (start (table_with o fs)) l ->
  exec lexsort (start (table_with o fs)) l = Some s ->
  exists t ss rest, reopen (t_disk (sh s)) = Ok t /\ md_schema (t_md t) = fs
    /\ scan_streams lexsort t = Ok ss /\ in_progress s rest
    /\ Permutation (List.concat ss) (map (acked_row fs) (acked s ++ map snd rest)).
Proof.
  intros lexsort o fs l s HS U Happ G Q E.
  destruct (exec_cq lexsort HS o fs U Happ l _ _ _ _ _ _ (start_ci o fs U) (start_cq o fs U) G Q E)
    as (tq & mv & lv & pend & C & CQ).
  exact (cq_crash lexsort HS o fs Happ _ _ _ _ _ C CQ).
Qed.
Print Assumptions C10_crash_keeps_acknowledged_partial.

(** Threads taking turns without stepping on each other's log record. *)
Definition turns : list Act :=
  [Begin 1 (ins 5 "a"); Begin 2 (ins 3 "b"); AppendLog 2; AppendLog 1; Push 1; Push 2;
   Begin 1 (ins 8 "c"); BeginFlush 4; SwapHandle 4; AppendLog 1; Begin 2 (ins 1 "d"); AppendLog 2; Push 2].
Definition is_logged (p : PC) : bool := match p with Logged _ _ _ => true | _ => false end.
(** Decides [undisturbed_run] when only threads below [n] take steps. *)
Fixpoint undisturbed_below (n : nat) (s : CState) (l : list Act) : bool :=
  match l with
  | [] => true
  | a :: r =>
    match a with
    | AppendLog i => Nat.ltb i n && match held s with None => true | Some _ => false end
    | Push i | BeginFlush i =>
      Nat.ltb i n &&
      (match act stable_lexsort s a with
       | Some s' => N.eqb (md_log_id (t_md (sh s'))) (md_log_id (t_md (sh s)))
       | None => true
       end || forallb (fun j => Nat.eqb j i || negb (is_logged (pcs s j))) (seq 0 n))
    | Begin i _ | SwapHandle i | BeginScan i | EndScan i => Nat.ltb i n
    | AddColumn _ => true
    end && match act stable_lexsort s a with Some s' => undisturbed_below n s' r | None => true end
  end%bool.
Definition actor (a : Act) : option nat :=
  match a with
  | Begin i _ | AppendLog i | Push i | SwapHandle i | BeginFlush i | BeginScan i | EndScan i => Some i
  | AddColumn _ => None
  end.
Lemma Some_inj_ {A} (x y : A) : Some x = Some y -> y = x.
Proof. congruence. Qed.
Lemma act_other f s a s' j : act f s a = Some s' -> actor a <> Some j -> pcs s' j = pcs s j.
Proof.
  intros E Hj.
  destruct a as [i v|i|i|i|i|i|i|c]; cbn [act actor] in E, Hj;
    try (assert (SP : forall x, set_pc (pcs s) i x j = pcs s j) by (intros; apply set_pc_other; congruence)).
  - destruct (held s); [discriminate|]. destruct (pcs s i); try discriminate.
    destruct (check_values _ _); [destruct (key_values _ _)|]; apply Some_inj_ in E; subst s'; cbn [pcs]; auto.
  - destruct (pcs s i); try discriminate. apply Some_inj_ in E; subst s'; cbn [pcs]; auto.
  - destruct (held s); [discriminate|]. destruct (pcs s i); try discriminate.
    destruct (push_values _ 0 _) as [m1 ok1]. destruct (if ok1 then _ else _) as [m2 ok2].
    destruct ok2; [|apply Some_inj_ in E; subst s'; cbn [pcs]; auto]. destruct (_ && _)%bool; [|apply Some_inj_ in E; subst s'; cbn [pcs]; auto].
    destruct (flush_files _ _) as [t2 [u|e]]; apply Some_inj_ in E; subst s'; cbn [pcs]; auto.
  - destruct (pcs s i); try discriminate. apply Some_inj_ in E; subst s'; cbn [pcs]; auto.
  - destruct (held s); [discriminate|]. destruct (pcs s i); try discriminate.
    destruct (Nat.eqb _ _); [apply Some_inj_ in E; subst s'; cbn [pcs]; auto|].
    destruct (flush_files _ _) as [t2 [u|e]]; apply Some_inj_ in E; subst s'; cbn [pcs]; auto.
  - destruct (held s); [discriminate|]. destruct (pcs s i); try discriminate. apply Some_inj_ in E; subst s'; cbn [pcs]; auto.
  - destruct (held s); [discriminate|]. destruct (pcs s i); try discriminate. apply Some_inj_ in E; subst s'; cbn [pcs]; auto.
  - destruct (held s); [discriminate|]. apply Some_inj_ in E; subst s'; cbn [pcs]; auto.
Qed.
Lemma undisturbed_below_ok n l : forall s, (forall j, n <= j -> is_logged (pcs s j) = false) ->
  undisturbed_below n s l = true -> undisturbed_run stable_lexsort s l.
Proof.
  induction l as [|a l IH]; intros s Hn B; cbn [undisturbed_below undisturbed_run] in *; [exact Logic.I|].
  apply andb_true_iff in B as [B1 B2].
  assert (Keep : forall s', act stable_lexsort s a = Some s' -> forall j, n <= j -> is_logged (pcs s' j) = false).
  { intros s' E j Hj. rewrite (act_other _ _ _ _ j E); [auto|]. intros Ej.
    assert (j < n); [|lia].
    destruct a; cbn [actor] in Ej; try discriminate; injection Ej as ->;
      try (apply andb_true_iff in B1 as [B1 _]); now apply Nat.ltb_lt. }
  split.
  - assert (Flush : forall i s', (match act stable_lexsort s a with
       | Some s' => N.eqb (md_log_id (t_md (sh s'))) (md_log_id (t_md (sh s)))
       | None => true
       end || forallb (fun j => Nat.eqb j i || negb (is_logged (pcs s j))) (seq 0 n))%bool = true ->
       act stable_lexsort s a = Some s' -> md_log_id (t_md (sh s')) <> md_log_id (t_md (sh s)) ->
       forall j vals pk fv, j <> i -> pcs s j <> Logged vals pk fv).
    { intros i s' O E Hid j vals pk fv Hj X. rewrite E in O. apply orb_true_iff in O as [O|O].
      - apply N.eqb_eq in O. contradiction.
      - destruct (Nat.lt_ge_cases j n) as [Lt|Ge].
        + rewrite forallb_forall in O. specialize (O j ltac:(apply in_seq; lia)). rewrite X in O.
          apply orb_true_iff in O as [O|O]; [apply Nat.eqb_eq in O; contradiction|discriminate].
        + specialize (Hn j Ge). rewrite X in Hn. discriminate. }
    destruct a; cbn [undisturbed]; try exact Logic.I;
      try (apply andb_true_iff in B1 as [_ B1]; intros s'; now apply Flush).
    apply andb_true_iff in B1 as [_ B1]. destruct (held s); [discriminate|reflexivity].
  - destruct (act stable_lexsort s a) as [s'|] eqn:E; [|exact Logic.I]. apply IH; auto.
Qed.

Definition after_turns : option CState := exec stable_lexsort conc_start turns.
Example C10_witness :
  Forall (good_act o_log [fK; fV]) turns /\ undisturbed_run stable_lexsort conc_start turns
  /\ match after_turns with
     | Some s => acked s = [ins 5 "a"; ins 3 "b"; ins 1 "d"]
        /\ match reopen (t_disk (sh s)) with
           | Ok t => scan_streams stable_lexsort t
               = Ok [[[Some (AInt 3); Some (AStr [98%N])]; [Some (AInt 5); Some (AStr [97%N])]];
                     [[Some (AInt 1); Some (AStr [100%N])]; [Some (AInt 8); Some (AStr [99%N])]]]%Z
           | Err _ => False
           end
     | None => False
     end.
Proof.
  split; [good_tac|]. split; [|vm_compute; repeat split].
  apply (undisturbed_below_ok 5); [reflexivity|vm_compute; reflexivity].
Qed.

(** A flush that falls between a thread's log record and its push removes the record:
    from any such state the insert is then acknowledged, and a crash loses exactly its
    row. *)
Theorem C10_flush_between_log_and_push_refuted :
  forall lexsort o fs l s i j vals pk fv,
  lexsort_contract lexsort -> usable o fs -> o_replacing o = false ->
  Forall (good_act o fs) l -> undisturbed_run lexsort (start (table_with o fs)) l ->
  exec lexsort (start (table_with o fs)) l = Some s ->
  held s = None -> pcs s i = Logged vals pk fv -> pcs s j = Idle -> mt_len (t_mem (sh s)) <> 0 ->
  (N.of_nat (List.length (log_record hash_crc32 (Insert pk fv))) <= o_max_log o)%N ->
  exists s' t ss, exec lexsort s [BeginFlush j; SwapHandle j; Push i] = Some s'
    /\ acked s' = (acked s ++ [vals])%list
    /\ reopen (t_disk (sh s')) = Ok t /\ scan_streams lexsort t = Ok ss
    /\ Permutation (List.concat ss) (map (acked_row fs) (acked s)).
Proof.
  intros lexsort o fs l s i j vals pk fv HS U Happ G Q E Hh Hi Hj Hm Hrec.
  assert (Ne : i <> j) by congruence.
  destruct (exec_cq lexsort HS o fs U Happ l _ _ _ _ _ _ (start_ci o fs U) (start_cq o fs U) G Q E)
    as (tq & mv & lv & pend & C & CQ0).
  pose proof C as C0. destruct C0.
  assert (Em : t_mem (sh s) = t_mem tq) by apply ci_sim.
  destruct (flush_acks lexsort HS _ _ _ _ _ _ ci_inv ci_acks Happ) as (t' & Ef & I' & A' & Es').
  { intros ->. apply Hm. rewrite Em. eapply inv_mem_empty; exact ci_inv. }
  { rewrite ci_sch. apply U. }
  { rewrite ci_sch. now apply usable_int. }
  destruct (flush_files_sim lexsort _ _ _ ci_sim Ef) as (a' & Ea & Sa).
  set (s1 := mkCS a' (set_pc (pcs s) j (Flushed None)) (Some j) (acked s)).
  assert (E1 : act lexsort s (BeginFlush j) = Some s1).
  { cbn [act]. rewrite Hh, Hj. destruct (Nat.eqb_spec (mt_len (t_mem (sh s))) 0) as [Z|_]; [contradiction|].
    now rewrite Ea. }
  destruct (act_ci lexsort HS o fs U Happ _ _ _ _ (BeginFlush j) _ C Logic.I E1) as (tq1 & mv1 & C1 & AS).
  assert (Live : exists x, d_logs (t_disk (sh s)) = [(md_log_id (t_md (sh s)), x)]).
  { destruct (i_log _ _ _ _ _ (q_inv _ _ _ _ _ _ CQ0)) as [_ (ops & L & _)]. eexists. exact L. }
  destruct Live as (x & Live).
  destruct (flush_files_logs lexsort _ _ _ Ea Live) as [Lid _].
  assert (mv1 = []) as ->.
  { clear - AS Lid. remember (BeginFlush j) as a eqn:Ha. destruct AS; try discriminate; [|reflexivity].
    cbn [sh s1] in H. rewrite H in Lid. lia. }
  pose proof (inv_flushed lexsort o fs s1 tq1 x (sh s) C1 Ea Live) as IF.
  destruct (reopen_inv _ _ _ _ IF) as (t & Er & It & Emd & Ed & _).
  cbn [logged_rows t_md t_disk sh s1] in Er, Emd, Ed.
  (* the remaining two steps *)
  set (s2 := mkCS (mkTable (t_md a') (t_mem a') (t_logged a') (md_log_id (t_md a')) (t_disk a'))
               (set_pc (pcs s1) j Idle) None (acked s ++ [])).
  assert (E2 : act lexsort s1 (SwapHandle j) = Some s2).
  { cbn [act s1 pcs]. rewrite set_pc_same. reflexivity. }
  destruct (act_ci lexsort HS o fs U Happ _ _ _ _ (SwapHandle j) _ C1 Logic.I E2) as (tq2 & mv2 & C2 & _).
  assert (Hi2 : pcs s2 i = Logged vals pk fv).
  { cbn [pcs s2 s1]. now rewrite !set_pc_other by exact Ne. }
  assert (PR : prepared o fs vals pk fv).
  { specialize (ci_pcs i). unfold pc_ok in ci_pcs. now rewrite Hi in ci_pcs. }
  destruct (push_abs o fs U _ _ _ _ _ _ _ (ConcFacts.ci_inv _ _ _ _ _ _ C2) (ConcFacts.ci_sch _ _ _ _ _ _ C2)
              (ConcFacts.ci_acks _ _ _ _ _ _ C2) PR) as (EP & I2 & _ & Lm & Lpk).
  assert (Em2 : t_mem (sh s2) = t_mem tq2) by apply (ConcFacts.ci_sim _ _ _ _ _ _ C2).
  pose proof (push_eq lexsort o s2 i vals pk fv _ eq_refl Hi2 ltac:(rewrite Em2; exact EP) Lpk
                (ci_opts _ _ _ _ _ _ C2) ltac:(cbn [insert_state t_mem] in Lm; rewrite EP in Lm; exact Lm)) as E3.
  cbv zeta in E3.
  assert (Lg : t_logged a' = 0%N).
  { destruct Sa as (_ & _ & -> & _). clear - Ef. unfold flush_log in Ef.
    destruct (level0_part _ _ _) as [[p pf]|]; [|discriminate]. destruct (apply_effects _ _) as [[d' n] ok].
    destruct n; [discriminate|]. destruct ok; [|discriminate]. injection Ef as <-. reflexivity. }
  destruct (N.ltb_spec (o_max_log o) (t_logged (pushed (sh s2) pk fv))) as [Lt|_].
  { exfalso. cbn [pushed t_logged sh s2] in Lt. rewrite Lg in Lt. lia. }
  assert (At : Acks (o_index_cols o) t (acked s) []).
  { destruct A' as (pvals & F2 & P & _). destruct Sa as (M & _ & _ & _ & D2 & _).
    exists pvals. rewrite Emd, M. split; [|split; [|constructor]].
    - eapply Forall2_impl_; [|exact F2]. intros lp pv. apply part_has_disk. rewrite Ed, D2. auto.
    - unfold inflight in P. now rewrite Hh, app_nil_r in P. }
  destruct (scan_acks lexsort HS _ _ _ _ _ _ It At Happ) as (ss & Ess & Pss).
  eexists _, t, ss. split; [|split; [|split; [|split]]].
  - cbn [exec]. rewrite E1, E2, E3. reflexivity.
  - cbn [acked s2]. now rewrite app_nil_r.
  - cbn [sh pushed t_disk s2]. exact Er.
  - exact Ess.
  - rewrite Emd in Pss. destruct Sa as (M & _). rewrite M, Es', ci_sch in Pss. exact Pss.
Qed.
Print Assumptions C10_flush_between_log_and_push_refuted.

(** Thread 1 has logged its row when thread 2 flushes; thread 1 is then told that its row
    is stored, and the row is gone after a crash. *)
Definition lost_record : list Act :=
  [Begin 2 (ins 3 "b"); AppendLog 2; Push 2; Begin 1 (ins 5 "a"); AppendLog 1].
Definition at_lost_record : option CState := exec stable_lexsort conc_start lost_record.
Example C10_flush_between_log_and_push_witness :
  Forall (good_act o_log [fK; fV]) lost_record /\ undisturbed_run stable_lexsort conc_start lost_record
  /\ match at_lost_record with
     | Some s => held s = None /\ is_logged (pcs s 1) = true /\ pcs s 2 = Idle /\ mt_len (t_mem (sh s)) = 1
        /\ match exec stable_lexsort s [BeginFlush 2; SwapHandle 2; Push 1] with
           | Some s' => acked s' = [ins 3 "b"; ins 5 "a"]
               /\ match reopen (t_disk (sh s')) with
                  | Ok t => scan_streams stable_lexsort t = Ok [[[Some (AInt 3); Some (AStr [98%N])]]]%Z
                  | Err _ => False
                  end
           | None => False
           end
     | None => False
     end.
Proof.
  split; [good_tac|]. split; [|vm_compute; repeat split].
  apply (undisturbed_below_ok 5); [reflexivity|vm_compute; reflexivity].
Qed.

(** The same loss when the record is appended after the flush has removed the log file
    and before the flushing thread has replaced the handle. *)
Definition late_record : list Act :=
  [Begin 2 (ins 3 "b"); AppendLog 2; Push 2; Begin 1 (ins 5 "a"); BeginFlush 2; AppendLog 1; SwapHandle 2; Push 1].
Definition after_late_record : option CState := exec stable_lexsort conc_start late_record.
Theorem C10_record_into_removed_log_refuted :
  match after_late_record with
  | Some s => acked s = [ins 3 "b"; ins 5 "a"] /\ (forall i, pcs s i = Idle)
      /\ match reopen (t_disk (sh s)) with
         | Ok t => scan_streams stable_lexsort t = Ok [[[Some (AInt 3); Some (AStr [98%N])]]]%Z
         | Err _ => False
         end
  | None => False
  end.
Proof.
  vm_compute. split; [reflexivity|]. split; [|reflexivity].
  intros [|[|[|i]]]; reflexivity.
Qed.
Print Assumptions C10_record_into_removed_log_refuted.

(** ** C86: adding a column while rows are being inserted *)
(** Full statement (refuted below): columns can be added at any time, and scans keep
    returning every acknowledged row, with null in the columns its insert did not name.
    Proved when no insert is under way at the moments a column is added. *)
Theorem C86_columns_added_between_inserts_partial :
  forall lexsort o fs l s i md,
  lexsort_contract lexsort -> usable o fs -> o_replacing o = false ->
  rows_ok o fs l -> columns_added_calmly lexsort (start (table_with o fs)) l ->
  exec lexsort (start (table_with o fs)) l = Some s ->
  held s = None -> pcs s i = Scanning md -> md = t_md (sh s) ->
  exists ss, scan_result lexsort s i = Some (Ok ss)
    /\ md_schema md = columns_after fs l
    /\ Permutation (List.concat ss) (map (acked_row (columns_after fs l)) (acked s)).
Proof.
  intros lexsort o fs l s i md HS U Happ R Q E Hh Hp Emd.
  destruct (exec_grow lexsort HS o l Happ fs _ _ _ _ _ U (start_ci o fs U) R Q E) as (_ & d & tq & mv & C).
  destruct (scan_current lexsort o _ _ _ _ _ HS Happ C Hh) as (ss & Es & P).
  exists ss. split; [|split; [|exact P]].
  - unfold scan_result. rewrite Hp, Emd.
    assert (X : mkTable (t_md (sh s)) (t_mem (sh s)) (t_logged (sh s)) (t_log (sh s)) (t_disk (sh s)) = sh s) by (destruct (sh s); reflexivity).
    rewrite X, Es. reflexivity.
  - rewrite Emd. exact (ci_schema _ _ _ _ _ _ C).
Qed.
Print Assumptions C86_columns_added_between_inserts_partial.

Ltac row_tac :=
  split; [reflexivity|];
  let pk := fresh "pk" in let H := fresh "H" in
  intros pk H; vm_compute in H; injection H as <-; loggable_tac.
Definition calm_columns : list Act :=
  [Begin 1 (ins 5 "a"); AppendLog 1; Push 1; BeginFlush 2; SwapHandle 2; Begin 1 (ins 4 "b"); AppendLog 1; Push 1;
   AddColumn fW; Begin 1 (insw 2 9); AppendLog 1; Push 1; BeginScan 3].
Definition after_calm_columns : option CState := exec stable_lexsort conc_start calm_columns.
Example C86_witness :
  rows_ok o_log [fK; fV] calm_columns /\ columns_added_calmly stable_lexsort conc_start calm_columns
  /\ match after_calm_columns with
     | Some s => held s = None /\ pcs s 3 = Scanning (t_md (sh s))
         /\ scan_result stable_lexsort s 3 = Some (Ok
              [[[Some (AInt 5); Some (AStr [97%N]); None]];
               [[Some (AInt 2); None; Some (AInt 9)]; [Some (AInt 4); Some (AStr [98%N]); None]]])%Z
     | None => False
     end.
Proof.
  split; [|split; [|vm_compute; repeat split]].
  - cbn [rows_ok calm_columns]. repeat (split; [row_tac|]); exact Logic.I.
  - unfold calm_columns. cbn [columns_added_calmly].
    repeat (split; [try exact Logic.I|match goal with
      | |- match act ?f ?s ?a with _ => _ end =>
          let x := eval vm_compute in (act f s a) in
          let E := fresh in assert (E : act f s a = x) by (vm_compute; reflexivity); rewrite E; clear E;
          cbv beta iota end]); try exact Logic.I.
    intros [|[|[|i]]] H; exact H.
Qed.

(** An insert that read the columns before the new one appeared pushes a row that is too
    short.  From then on every scan and every flush fails, further inserts do not help,
    and neither does a restart: all unflushed rows of the table are out of reach. *)
Definition short_row : list Act :=
  [Begin 1 (ins 6 "x"); AppendLog 1; Push 1; Begin 1 (ins 5 "a"); AddColumn fW; AppendLog 1; Push 1;
   Begin 2 (insw 2 9); AppendLog 2; Push 2].
Definition after_short_row : option CState := exec stable_lexsort conc_start short_row.
Theorem C86_column_added_during_insert_refuted :
  rows_ok o_log [fK; fV] short_row
  /\ match after_short_row with
     | Some s => acked s = [ins 6 "x"; ins 5 "a"; insw 2 9] /\ (forall i, pcs s i = Idle) /\ held s = None
         /\ scan_streams stable_lexsort (sh s) = Err Panic
         /\ snd (flush stable_lexsort (sh s)) = Err Panic
         /\ match reopen (t_disk (sh s)) with
            | Ok t => scan_streams stable_lexsort t = Err Panic /\ snd (flush stable_lexsort t) = Err Panic
            | Err _ => False
            end
     | None => False
     end.
Proof.
  split.
  - cbn [rows_ok short_row]. repeat (split; [row_tac|]); exact Logic.I.
  - vm_compute. split; [reflexivity|]. split; [intros [|[|[|i]]]; reflexivity|]. repeat split.
Qed.
Print Assumptions C86_column_added_during_insert_refuted.
