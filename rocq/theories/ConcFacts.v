(** Invariants of concurrent executions: the shared table agrees, except for its log
    file, with a table that ran the pushed rows one after another. *)
From Coq Require Import List NArith ZArith Lia Bool Permutation Sorted String.
From Verif Require Import Bytes BytesFacts Value ValueFacts Log LogFacts AMap Order
  Memtable ListFacts MemtableFacts MemtableProject Table TableSpec TableFacts TableHistory TableUse Conc.
Import ListNotations.

Definition dsim (a b : Disk) : Prop :=
  d_md a = d_md b /\ d_parts a = d_parts b
  /\ forall id, aget N.eq_dec id (d_logs a) = None <-> aget N.eq_dec id (d_logs b) = None.
Definition same_but_log (a b : Table) : Prop :=
  t_md a = t_md b /\ t_mem a = t_mem b /\ t_logged a = t_logged b /\ dsim (t_disk a) (t_disk b).

Lemma apply_effect_sim a b e : dsim a b ->
  match apply_effect a e, apply_effect b e with
  | Ok x, Ok y => dsim x y
  | Err _, Err _ => True
  | _, _ => False
  end.
Proof.
  intros (M & P & L). destruct e as [l i pf|md|i|i]; cbn [apply_effect].
  - rewrite P. destruct (aget lp_dec (l, i) (d_parts b)); [exact Logic.I|].
    split; [exact M|]. split; [reflexivity|exact L].
  - split; [reflexivity|]. split; [exact P|exact L].
  - specialize (L i) as Li. destruct (aget N.eq_dec i (d_logs a)) eqn:A, (aget N.eq_dec i (d_logs b)) eqn:B;
      try exact Logic.I; try (exfalso; intuition congruence).
    split; [exact M|]. split; [exact P|]. intros id. cbn [d_logs].
    destruct (N.eq_dec id i) as [->|Ne].
    + rewrite !aget_adel_eq. tauto.
    + rewrite !aget_adel_ne by exact Ne. apply L.
  - specialize (L i) as Li. destruct (aget N.eq_dec i (d_logs a)) eqn:A, (aget N.eq_dec i (d_logs b)) eqn:B;
      try exact Logic.I; try (exfalso; intuition congruence).
    split; [exact M|]. split; [exact P|]. intros id. cbn [d_logs].
    destruct (N.eq_dec id i) as [->|Ne].
    + rewrite !aget_aset_eq. split; discriminate.
    + rewrite !aget_aset_ne by exact Ne. apply L.
Qed.
Lemma apply_effects_sim es : forall a b, dsim a b ->
  let '(a', n, ok) := apply_effects a es in
  let '(b', n', ok') := apply_effects b es in
  n = n' /\ ok = ok' /\ dsim a' b'.
Proof.
  induction es as [|e es IH]; intros a b D; cbn [apply_effects]; [auto|].
  pose proof (apply_effect_sim a b e D) as E.
  destruct (apply_effect a e) as [x|], (apply_effect b e) as [y|]; try contradiction; [|auto].
  specialize (IH x y E). destruct (apply_effects x es) as [[x' n] k], (apply_effects y es) as [[y' n'] k'].
  destruct IH as (-> & -> & D'). auto.
Qed.

Section WithSort.
Variable lexsort : list (list cell) -> list nat.

Lemma flush_log_sim a b : same_but_log a b ->
  snd (flush_log lexsort a) = snd (flush_log lexsort b)
  /\ same_but_log (fst (flush_log lexsort a)) (fst (flush_log lexsort b)).
Proof.
  intros (M & E & L & D). unfold flush_log. rewrite M, E, L.
  destruct (level0_part lexsort (t_md b) (t_mem b)) as [[p pf]|e].
  2:{ split; [reflexivity|]. split; [reflexivity|]. split; [reflexivity|]. split; [reflexivity|exact D]. }
  pose proof (apply_effects_sim (flush_effects (t_md b) p pf) _ _ D) as S1.
  destruct (apply_effects (t_disk a) _) as [[a' n] k], (apply_effects (t_disk b) _) as [[b' n'] k'].
  destruct S1 as (-> & -> & D').
  destruct n'; [|destruct k']; (split; [reflexivity|]); (split; [reflexivity|]); (split; [reflexivity|]); (split; [reflexivity|exact D']).
Qed.
Lemma scan_streams_sim a b : same_but_log a b -> scan_streams lexsort a = scan_streams lexsort b.
Proof.
  intros (M & E & L & D1 & D2 & D3). unfold scan_streams. rewrite M, E.
  destruct (mt_chunk _ _ _ _ _); [|reflexivity].
  replace (map (fun lp => part_rows a (fst lp) (snd lp)) (all_parts (t_md b)))
     with (map (fun lp => part_rows b (fst lp) (snd lp)) (all_parts (t_md b))); [reflexivity|].
  apply map_ext. intros lp. unfold part_rows. now rewrite D2, M.
Qed.
Lemma flush_files_sim a b t' : same_but_log a b -> flush_log lexsort b = (t', Ok tt) ->
  exists a', flush_files lexsort a = (a', Ok tt) /\ same_but_log a' t'.
Proof.
  intros H E. destruct (flush_log_sim a b H) as [R S1]. rewrite E in R, S1. cbn [fst snd] in *.
  unfold flush_files. destruct (flush_log lexsort a) as [a0 r]. cbn [fst snd] in *. subst r.
  eexists. split; [reflexivity|]. exact S1.
Qed.

Hypothesis HS : lexsort_contract lexsort.
Variable o : Options.
Variable fs : list Field.
Hypothesis HU : usable o fs.
Hypothesis Happ : o_replacing o = false.

(** The inserts a thread may start; columns are fixed. *)
Definition good_row (vals : list NamedValue) : Prop :=
  map fst (firstn (o_index_cols o) vals) = map f_name (firstn (o_index_cols o) fs) /\
  forall pk, key_values (o_index_cols o) vals = Some pk ->
    loggable (Insert pk (final_values fs (o_index_cols o) vals)).
Definition good_act (a : Act) : Prop :=
  match a with Begin _ vals => good_row vals | AddColumn _ => False | _ => True end.

Definition prepared (vals : list NamedValue) (pk : list KeyValue) (fv : list Value) : Prop :=
  good_row vals /\ check_values fs vals = Ok tt /\ key_values (o_index_cols o) vals = Some pk
  /\ fv = final_values fs (o_index_cols o) vals.

Definition pc_ok (s : CState) (i : nat) : Prop :=
  match pcs s i with
  | Prepared vals pk fv | Logged vals pk fv => prepared vals pk fv
  | Flushed _ => held s = Some i
  | _ => True
  end.
Definition inflight (s : CState) : list (list NamedValue) :=
  match held s with
  | Some i => match pcs s i with Flushed (Some v) => [v] | _ => [] end
  | None => []
  end.

Record CI (d : bool) (s : CState) (tq : Table) (mvals : list (list NamedValue)) : Prop := {
  ci_sim : same_but_log (sh s) tq;
  ci_inv : Inv o tq mvals true d;
  ci_sch : md_schema (t_md tq) = fs;
  ci_acks : Acks (o_index_cols o) tq (acked s ++ inflight s) mvals;
  ci_pcs : forall i, pc_ok s i;
  ci_held : forall i, held s = Some i -> exists r, pcs s i = Flushed r
}.

Lemma acks_perm ic t a b mv : Permutation a b -> Acks ic t a mv -> Acks ic t b mv.
Proof. intros P (pv & F & Q & K). exists pv. split; [exact F|]. split; [now rewrite <- P|exact K]. Qed.

Lemma start_ci : CI false (start (table_with o fs)) (table_with o fs) [].
Proof.
  destruct HU as (ND & Hic & Hl & F & _).
  destruct (table_with_inv o fs ltac:(lia) Hl ND) as (I & E & P).
  constructor; cbn.
  - split; [reflexivity|]. split; [reflexivity|]. split; [reflexivity|]. split; [reflexivity|]. split; [reflexivity|tauto].
  - eapply inv_weaken; eauto.
  - exact E.
  - exists []. rewrite P. split; [constructor|]. split; [reflexivity|constructor].
  - intros i. exact Logic.I.
  - discriminate.
Qed.

Lemma set_pc_same f i x : set_pc f i x i = x.
Proof. unfold set_pc. now rewrite Nat.eqb_refl. Qed.
Lemma set_pc_other f i j x : j <> i -> set_pc f i x j = f j.
Proof. intros H. unfold set_pc. destruct (Nat.eqb_spec j i); congruence. Qed.

Lemma hic_le : o_index_cols o <= List.length fs.
Proof. destruct HU as (_ & H & _). lia. Qed.

(** State reached by the push of a row. *)
Definition pushed (t : Table) (pk : list KeyValue) (fv : list Value) : Table :=
  mkTable (t_md t) (fst (push_values (t_mem t) 0 (map value_of_key pk ++ fv)))
    (t_logged t + N.of_nat (List.length (log_record hash_crc32 (Insert pk fv))))%N (t_log t) (t_disk t).

(** The abstract table's push. *)
Lemma push_abs d tq mvals acks vals pk fv :
  Inv o tq mvals true d -> md_schema (t_md tq) = fs -> Acks (o_index_cols o) tq acks mvals ->
  prepared vals pk fv ->
  push_values (t_mem tq) 0 (map value_of_key pk ++ fv)
    = (cols_of (dts_of fs) (map (row_of fs) (mvals ++ [vals])), true)
  /\ Inv o (insert_state tq pk fv vals) (mvals ++ [vals]) true d
  /\ Acks (o_index_cols o) (insert_state tq pk fv vals) (acks ++ [vals]) (mvals ++ [vals])
  /\ 0 < mt_len (t_mem (insert_state tq pk fv vals))
  /\ List.length pk = o_index_cols o.
Proof.
  intros I Es A ((KF & HL) & CV & KV & ->). specialize (HL pk KV).
  rewrite <- Es in KF, HL, CV |- *.
  destruct (insert_state_inv _ _ _ _ _ _ _ I KF CV KV HL) as [EP I1].
  split; [exact EP|]. split; [exact I1|]. split.
  { destruct A as (pvals & F2 & P & K). exists pvals. split; [|split].
    - unfold insert_state. cbn [t_md t_disk]. eapply Forall2_impl_; [|exact F2].
      intros lp pv. apply part_has_disk. intros pf. unfold append_log.
      destruct (aget N.eq_dec _ _); auto.
    - rewrite P, app_assoc. reflexivity.
    - unfold insert_state. cbn [t_md]. apply Forall_app. split; [exact K|]. constructor; [|constructor].
      eapply acked_int_keys; [exact (i_names _ _ _ _ _ I)| |exact KF|now apply check_values_accepted|exact KV].
      rewrite Es. now apply usable_int. }
  split; [rewrite (inv_mem_len _ _ _ _ _ I1), app_length; cbn; lia|].
  destruct (insert_row _ _ _ _ (i_names _ _ _ _ _ I) KF KV) as (_ & Lpk & _). exact Lpk.
Qed.

(** What a push does when its thread is prepared. *)
Lemma push_eq s i vals pk fv t' : held s = None -> pcs s i = Logged vals pk fv ->
  push_values (t_mem (sh s)) 0 (map value_of_key pk ++ fv) = (t', true) ->
  List.length pk = o_index_cols o -> md_opts (t_md (sh s)) = o ->
  0 < mt_len t' ->
  act lexsort s (Push i) =
    let t1 := pushed (sh s) pk fv in
    if (o_max_log o <? t_logged t1)%N
    then match flush_files lexsort t1 with
         | (t2, Ok _) => Some (mkCS t2 (set_pc (pcs s) i (Flushed (Some vals))) (Some i) (acked s))
         | (t2, Err _) => Some (mkCS t2 (set_pc (pcs s) i Idle) None (acked s))
         end
    else Some (mkCS t1 (set_pc (pcs s) i Idle) None (acked s ++ [vals])).
Proof.
  intros Hh Hp EP Lpk Eo Hm. cbn [act]. rewrite Hh, Hp, Eo.
  pose proof (push_values_split (t_mem (sh s)) (map value_of_key pk) fv) as SP.
  destruct (push_values (t_mem (sh s)) 0 (map value_of_key pk)) as [m1 ok1].
  rewrite map_length, Lpk in SP. rewrite SP, EP. unfold pushed. rewrite EP. cbn [fst t_logged].
  destruct (Nat.ltb_spec 0 (mt_len t')); [|lia]. cbn [andb]. reflexivity.
Qed.

Lemma insert_state_sim a b pk fv vals : same_but_log a b ->
  same_but_log (pushed a pk fv) (insert_state b pk fv vals).
Proof.
  intros (M & E & L & D1 & D2 & D3). unfold pushed, insert_state.
  split; [exact M|]. split; [cbn; now rewrite E|]. split; [cbn; now rewrite L|].
  cbn [t_disk]. unfold append_log. destruct (aget N.eq_dec (t_log b) (d_logs (t_disk b))) eqn:G; [|split; auto].
  split; [exact D1|]. split; [exact D2|]. intros id. rewrite D3. cbn [d_logs].
  destruct (N.eq_dec id (t_log b)) as [->|Ne].
  - rewrite aget_aset_eq. split; congruence.
  - rewrite aget_aset_ne by exact Ne. tauto.
Qed.
Lemma append_sim a b rec : same_but_log a b ->
  same_but_log (mkTable (t_md a) (t_mem a) (t_logged a) (t_log a) (append_log (t_disk a) (t_log a) rec)) b.
Proof.
  intros (M & E & L & D1 & D2 & D3). split; [exact M|]. split; [exact E|]. split; [exact L|].
  cbn [t_disk]. unfold append_log. destruct (aget N.eq_dec (t_log a) (d_logs (t_disk a))) eqn:G; [|split; auto].
  split; [exact D1|]. split; [exact D2|]. intros id. rewrite <- D3. cbn [d_logs].
  destruct (N.eq_dec id (t_log a)) as [->|Ne].
  - rewrite aget_aset_eq. split; congruence.
  - rewrite aget_aset_ne by exact Ne. tauto.
Qed.

(** What each step does to the abstract table. *)
Inductive AbsStep (s s' : CState) : Act -> Table -> list (list NamedValue) -> Table -> list (list NamedValue) -> Prop :=
| abs_same a tq mvals : t_md (sh s') = t_md (sh s) ->
    (forall i, a <> Push i) -> (forall i, a = BeginFlush i -> s' = s) -> AbsStep s s' a tq mvals tq mvals
| abs_push i vals pk fv tq mvals : pcs s i = Logged vals pk fv -> held s = None -> t_disk (sh s') = t_disk (sh s) -> t_md (sh s') = t_md (sh s) ->
    s' = mkCS (pushed (sh s) pk fv) (set_pc (pcs s) i Idle) None (acked s ++ [vals]) ->
    AbsStep s s' (Push i) tq mvals (insert_state tq pk fv vals) (mvals ++ [vals])
| abs_push_flush i vals pk fv tq mvals tq' : pcs s i = Logged vals pk fv -> held s = None ->
    flush_files lexsort (pushed (sh s) pk fv) = (sh s', Ok tt) ->
    s' = mkCS (sh s') (set_pc (pcs s) i (Flushed (Some vals))) (Some i) (acked s) ->
    AbsStep s s' (Push i) tq mvals tq' []
| abs_flush i tq mvals tq' : pcs s i = Idle -> held s = None ->
    flush_files lexsort (sh s) = (sh s', Ok tt) ->
    s' = mkCS (sh s') (set_pc (pcs s) i (Flushed None)) (Some i) (acked s) ->
    AbsStep s s' (BeginFlush i) tq mvals tq' [].

Lemma ci_opts d s tq mvals : CI d s tq mvals -> md_opts (t_md (sh s)) = o.
Proof. intros []. destruct ci_sim0 as (-> & _). exact (i_opts _ _ _ _ _ ci_inv0). Qed.
Lemma ci_schema d s tq mvals : CI d s tq mvals -> md_schema (t_md (sh s)) = fs.
Proof. intros []. destruct ci_sim0 as (-> & _). exact ci_sch0. Qed.

(** A step that leaves the shared table and the acknowledgements alone. *)
Lemma ci_set_pc d s tq mvals i x h :
  CI d s tq mvals -> held s = h -> h = None ->
  match x with Prepared vals pk fv | Logged vals pk fv => prepared vals pk fv | Flushed _ => False | _ => True end ->
  CI d (mkCS (sh s) (set_pc (pcs s) i x) h (acked s)) tq mvals.
Proof.
  intros [] Hh Hn Hx. subst h. constructor; cbn [sh pcs held acked]; auto.
  - unfold inflight in *. cbn [held pcs]. rewrite Hn in *. exact ci_acks0.
  - intros j. unfold pc_ok. cbn [pcs held]. destruct (Nat.eq_dec j i) as [->|Ne].
    + rewrite set_pc_same. destruct x; auto. contradiction.
    + rewrite set_pc_other by exact Ne. exact (ci_pcs0 j).
  - intros j E. rewrite Hn in E. discriminate.
Qed.

Lemma act_ci d s tq mvals a s' :
  CI d s tq mvals -> good_act a -> act lexsort s a = Some s' ->
  exists tq' mvals', CI d s' tq' mvals' /\ AbsStep s s' a tq mvals tq' mvals'.
Proof.
  intros C G E. pose proof (ci_opts _ _ _ _ C) as Eo. pose proof (ci_schema _ _ _ _ C) as Esc.
  destruct a as [i vals|i|i|i|i|i|i|f]; [| | | | | | |contradiction].
  - (* Begin *)
    cbn [act] in E. rewrite Eo, Esc in E.
    destruct (held s) eqn:Hh; [discriminate|]. destruct (pcs s i) eqn:Hp; try discriminate.
    exists tq, mvals.
    destruct (check_values fs vals) as [[]|e] eqn:CV;
      [|injection E as <-; split; [exact C|constructor; [reflexivity|discriminate|now intros]]].
    destruct (key_values (o_index_cols o) vals) as [pk|] eqn:KV; injection E as <-;
      [|split; [exact C|constructor; [reflexivity|discriminate|now intros]]].
    split; [|constructor; [reflexivity|discriminate|now intros]].
    apply ci_set_pc; auto. cbv beta iota. split; [exact G|]. auto.
  - (* AppendLog *)
    cbn [act] in E. destruct (pcs s i) as [|vals pk fv| | |] eqn:Hp; try discriminate. injection E as <-.
    exists tq, mvals. split; [|constructor; [reflexivity|discriminate|now intros]].
    destruct C. constructor; cbn [sh pcs held acked]; auto.
    + now apply append_sim.
    + unfold inflight in *. cbn [held pcs]. destruct (held s) as [h|] eqn:Hh; [|exact ci_acks0].
      destruct (Nat.eq_dec h i) as [->|Ne].
      * destruct (ci_held0 i eq_refl) as (r & Hr). congruence.
      * rewrite set_pc_other by exact Ne. exact ci_acks0.
    + intros j. unfold pc_ok. cbn [pcs held]. destruct (Nat.eq_dec j i) as [->|Ne].
      * rewrite set_pc_same. specialize (ci_pcs0 i). unfold pc_ok in ci_pcs0. now rewrite Hp in ci_pcs0.
      * rewrite set_pc_other by exact Ne. exact (ci_pcs0 j).
    + intros j Hj. destruct (ci_held0 j Hj) as (r & Hr). exists r.
      rewrite set_pc_other; [exact Hr|]. intros ->. congruence.
  - (* Push *)
    assert (H0 : held s = None /\ exists vals pk fv, pcs s i = Logged vals pk fv).
    { cbn [act] in E. destruct (held s); [discriminate|]. destruct (pcs s i); try discriminate. split; [reflexivity|]. eauto. }
    destruct H0 as (Hh & vals & pk & fv & Hp).
    pose proof C as C'. destruct C'.
    assert (PR : prepared vals pk fv).
    { specialize (ci_pcs0 i). unfold pc_ok in ci_pcs0. now rewrite Hp in ci_pcs0. }
    destruct (push_abs _ _ _ _ _ _ _ ci_inv0 ci_sch0 ci_acks0 PR) as (EP & I1 & A1 & Lm & Lpk).
    assert (Em : t_mem (sh s) = t_mem tq) by apply ci_sim0.
    assert (Lm' : 0 < mt_len (cols_of (dts_of fs) (map (row_of fs) (mvals ++ [vals])))).
    { cbn [insert_state t_mem] in Lm. rewrite EP in Lm. exact Lm. }
    rewrite (push_eq s i vals pk fv _ Hh Hp ltac:(rewrite Em; exact EP) Lpk Eo Lm') in E. cbv zeta in E.
    pose proof (insert_state_sim _ _ pk fv vals ci_sim0) as S1.
    assert (Einf : inflight s = []) by (unfold inflight; now rewrite Hh).
    rewrite Einf, app_nil_r in A1.
    destruct (o_max_log o <? t_logged (pushed (sh s) pk fv))%N.
    + assert (Es1 : md_schema (t_md (insert_state tq pk fv vals)) = fs) by exact ci_sch0.
      destruct (flush_acks lexsort HS _ _ _ _ _ _ I1 A1 Happ) as (t' & Ef & I' & A' & Es').
      { destruct mvals; discriminate. }
      { rewrite Es1. apply hic_le. }
      { rewrite Es1. now apply usable_int. }
      destruct (flush_files_sim _ _ _ S1 Ef) as (a' & Ea & Sa). rewrite Ea in E. injection E as <-.
      exists t', []. split.
      * constructor; cbn [sh pcs held acked]; auto.
        -- eapply inv_weaken; eauto; discriminate.
        -- rewrite Es'. exact Es1.
        -- unfold inflight. cbn [held pcs]. rewrite set_pc_same. exact A'.
        -- intros j. unfold pc_ok. cbn [pcs held]. destruct (Nat.eq_dec j i) as [->|Ne].
           ++ rewrite set_pc_same. reflexivity.
           ++ rewrite set_pc_other by exact Ne. specialize (ci_pcs0 j). unfold pc_ok in ci_pcs0.
              destruct (pcs s j); auto. rewrite Hh in ci_pcs0. discriminate.
        -- intros j Hj. injection Hj as <-. rewrite set_pc_same. eauto.
      * eapply abs_push_flush; eauto.
    + injection E as <-. exists (insert_state tq pk fv vals), (mvals ++ [vals]). split.
      * constructor; cbn [sh pcs held acked]; auto.
        -- unfold inflight. cbn [held]. rewrite app_nil_r. exact A1.
        -- intros j. unfold pc_ok. cbn [pcs held]. destruct (Nat.eq_dec j i) as [->|Ne].
           ++ rewrite set_pc_same. exact Logic.I.
           ++ rewrite set_pc_other by exact Ne. specialize (ci_pcs0 j). unfold pc_ok in ci_pcs0.
              destruct (pcs s j); auto. rewrite Hh in ci_pcs0. discriminate.
        -- discriminate.
      * eapply abs_push; eauto.
  - (* SwapHandle *)
    cbn [act] in E. destruct (pcs s i) as [| | |row|] eqn:Hp; try discriminate. injection E as <-.
    exists tq, mvals. split; [|constructor; [reflexivity|discriminate|now intros]].
    destruct C. pose proof (ci_pcs0 i) as Pi. unfold pc_ok in Pi. rewrite Hp in Pi.
    constructor; cbn [sh pcs held acked]; auto.
    + unfold inflight in *. cbn [held]. rewrite Pi, Hp in ci_acks0. rewrite app_nil_r. exact ci_acks0.
    + intros j. unfold pc_ok. cbn [pcs held]. destruct (Nat.eq_dec j i) as [->|Ne].
      * rewrite set_pc_same. exact Logic.I.
      * rewrite set_pc_other by exact Ne. specialize (ci_pcs0 j). unfold pc_ok in ci_pcs0.
        destruct (pcs s j); auto. rewrite Pi in ci_pcs0. congruence.
    + discriminate.
  - (* BeginFlush *)
    cbn [act] in E. destruct (held s) eqn:Hh; [discriminate|]. destruct (pcs s i) eqn:Hp; try discriminate.
    pose proof C as C'. destruct C'.
    assert (Em : t_mem (sh s) = t_mem tq) by apply ci_sim0.
    rewrite Em, (inv_mem_len _ _ _ _ _ ci_inv0) in E.
    destruct (Nat.eqb_spec (List.length mvals) 0) as [Z|Nz].
    { injection E as <-. exists tq, mvals. split; [exact C|constructor; [reflexivity|discriminate|now intros]]. }
    destruct (flush_acks lexsort HS _ _ _ _ _ _ ci_inv0 ci_acks0 Happ) as (t' & Ef & I' & A' & Es').
    { intros ->. now apply Nz. }
    { rewrite ci_sch0. apply hic_le. }
    { rewrite ci_sch0. now apply usable_int. }
    destruct (flush_files_sim _ _ _ ci_sim0 Ef) as (a' & Ea & Sa). rewrite Ea in E. injection E as <-.
    exists t', []. split.
    * constructor; cbn [sh pcs held acked]; auto.
      -- eapply inv_weaken; eauto; discriminate.
      -- rewrite Es'. exact ci_sch0.
      -- unfold inflight in *. cbn [held pcs]. rewrite set_pc_same. rewrite Hh in A'. exact A'.
      -- intros j. unfold pc_ok. cbn [pcs held]. destruct (Nat.eq_dec j i) as [->|Ne].
         ++ rewrite set_pc_same. reflexivity.
         ++ rewrite set_pc_other by exact Ne. specialize (ci_pcs0 j). unfold pc_ok in ci_pcs0.
            destruct (pcs s j); auto. rewrite Hh in ci_pcs0. discriminate.
      -- intros j Hj. injection Hj as <-. rewrite set_pc_same. eauto.
    * eapply abs_flush; eauto.
  - (* BeginScan *)
    cbn [act] in E. destruct (held s) eqn:Hh; [discriminate|]. destruct (pcs s i) eqn:Hp; try discriminate. injection E as <-.
    exists tq, mvals. split; [|constructor; [reflexivity|discriminate|now intros]]. apply ci_set_pc; auto. 
  - (* EndScan *)
    cbn [act] in E. destruct (held s) eqn:Hh; [discriminate|]. destruct (pcs s i) eqn:Hp; try discriminate. injection E as <-.
    exists tq, mvals. split; [|constructor; [reflexivity|discriminate|now intros]]. apply ci_set_pc; auto.
Qed.

Lemma exec_ci l : forall d s tq mvals s',
  CI d s tq mvals -> Forall good_act l -> exec lexsort s l = Some s' ->
  exists tq' mvals', CI d s' tq' mvals'.
Proof.
  induction l as [|a l IH]; intros d s tq mvals s' C G E; cbn [exec] in E.
  - injection E as <-. eauto.
  - inversion G; subst. destruct (act lexsort s a) as [s1|] eqn:Ea; [|discriminate].
    destruct (act_ci _ _ _ _ _ _ C H1 Ea) as (tq1 & mv1 & C1 & _). eauto.
Qed.
End WithSort.
