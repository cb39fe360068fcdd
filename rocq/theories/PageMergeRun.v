(** The main loop of the page merge: row groups and files of the output. *)
From Coq Require Import List NArith ZArith Bool Permutation Sorted Lia Arith.
From Verif Require Import Bytes Log Order ListFacts Memtable MergeFacts TableHistory TableUse Compact CompactFacts PageMerge PageMergeSpec PageMergeTags PageMergeIndex PageMergeBatch PageMergeData.
Import ListNotations.

Lemma app_eq_firstn {A} (a b l : list A) n : a ++ b = l -> length a = n -> a = firstn n l.
Proof. intros <- <-. now rewrite firstn_app, Nat.sub_diag, firstn_all, app_nil_r. Qed.
Lemma app_eq_skipn {A} (a b l : list A) n : a ++ b = l -> length a = n -> b = skipn n l.
Proof. intros <- <-. now rewrite skipn_app, Nat.sub_diag, skipn_all. Qed.

Lemma int_row ic r i : int_keys ic r -> i < ic -> i < length r ->
  cell_of_int (nth i (key_ints ic r) 0%Z) = nth i r None.
Proof.
  unfold int_keys, key_ints. revert r i. induction ic as [|ic IH]; intros r i H Hi Hr; [lia|].
  destruct r as [|c r]; [cbn in Hr; lia|]. cbn in *. inversion H as [|? ? (z & ->) F]; subst.
  destruct i as [|i]; [reflexivity|]. apply IH; [exact F|lia|lia].
Qed.
Lemma m_col mo m i : wf_m mo m -> i < mo_ic mo -> concat (nth i (m_cols m) []) = map (fun k => nth i k 0%Z) (m_keys m).
Proof.
  intros (L & len & N & F) Hi. cbn in *. unfold m_keys, ch_keys. cbn [ch_cols]. rewrite rows_of_col.
  - exact (eq_sym (map_nth (@concat Z) (m_cols m) [] i)).
  - destruct (m_cols m) as [|p r]; [constructor|]. cbn [map hd]. inversion F as [|? ? [_ E] F2]; subst.
    constructor; [reflexivity|]. apply Forall_forall. intros c Hc. apply in_map_iff in Hc as (pg & <- & Hp).
    rewrite Forall_forall in F2. now apply F2.
  - now rewrite map_length, L.
Qed.

Section Run.
Variable pop : list Chunk -> option (Chunk * list Chunk).
Variable pop_row : list (nat * list Z) -> option ((nat * list Z) * list (nat * list Z)).
Variable paginate : list Z -> list (list Z).
Variable full : list (list Row) -> bool.
Hypothesis HP : heap_contract chunk_le pop.
Hypothesis HR : heap_contract row_le pop_row.
Hypothesis HG : paginate_contract paginate.
Variable mo : MOpts.
Hypothesis NR : mo_replacing mo = false.
Hypothesis IC : mo_ic mo <> 0.
Notation ic := (mo_ic mo).
Notation pendc := (pend ch_stream).
Notation minec := (mine ch_stream).
Notation key := (key_ints ic).

(** The rows [RR s] that are left of each stream [s] are what the readers stand at. *)
Record inv (h : list Chunk) (srcs : list (list Chunk)) (cols : list Readers) (RR : nat -> list Row) : Prop := mkInv
  { i_good : good mo h srcs;
    i_keys : forall s, map key (RR s) = keys_of (pendc h srcs s);
    i_rows : forall s, Forall (fun r => length r = ic + length cols /\ int_keys ic r) (RR s);
    i_al : Forall (fun rs => aligned rs (pendc h srcs)) cols;
    i_cells : forall j rs s, nth_error cols j = Some rs ->
      match rs s with
      | Some r => cells r = map (fun r => nth (ic + j) r None) (RR s)
      | None => Forall (fun r => nth (ic + j) r None = None) (RR s)
      end }.

Lemma wf_m_keys m : wf_m mo m -> m_keys m <> [].
Proof. intros W. now destruct (ch_keys_len ic _ W IC). Qed.
Lemma batches_nonempty ms q L : batches mo ms q L -> ms <> [] -> L <> [] /\ q <> [].
Proof.
  intros B N. destruct (batches_wf mo _ _ _ B) as [W K].
  assert (NL : L <> []).
  { intros ->. destruct ms as [|m ms]; [congruence|]. inversion W as [|? ? Wm _]; subst. apply wf_m_keys in Wm. cbn in K.
    now apply app_eq_nil in K as [K _]. }
  split; [exact NL|]. intros ->. destruct L as [|[t k] L]; [congruence|].
  assert (H : In k (proj t ((t, k) :: L))) by (apply in_proj; now left).
  rewrite (batches_proj mo _ _ _ t B) in H. destruct H.
Qed.
Lemma batches_bounds ms q L : batches mo ms q L -> ms <> [] -> vsorted (map snd L) ->
  Forall (fun k => vle (m_min (hd (mkMChunk [] (PickFrom 0 0)) ms)) k = true
                /\ vle k (m_max (last ms (mkMChunk [] (PickFrom 0 0)))) = true) (map snd L).
Proof.
  intros B N SO. destruct (batches_wf mo _ _ _ B) as [W K]. rewrite <- K in *. clear B K q L.
  assert (SM : Forall (fun m => vsorted (m_keys m)) ms).
  { clear W N. induction ms as [|m ms IH]; constructor; cbn in SO; apply StronglySorted_app in SO; tauto. }
  apply Forall_forall. intros k Hk. split.
  - destruct ms as [|m ms]; [congruence|]. inversion W as [|? ? Wm _]; subst. inversion SM as [|? ? Sm _]; subst.
    pose proof (chunk_bounds ic _ Wm IC Sm) as CB. rewrite Forall_forall in CB. cbn in Hk. apply in_app_or in Hk as [Hk|Hk].
    + now apply CB.
    + cbn in SO. apply StronglySorted_app in SO as (_ & _ & SO). apply wf_m_keys in Wm.
      destruct (m_keys m) as [|k0 ks] eqn:E; [congruence|].
      refine (vle_trans _ _ _ (proj1 (CB k0 _)) (SO k0 k (or_introl eq_refl) Hk)). fold (m_keys m). rewrite E. now left.
  - destruct (exists_last N) as (ms' & m & ->). rewrite last_last. apply Forall_app in W as [_ W]. apply Forall_app in SM as [_ SM].
    inversion W as [|? ? Wm _]; subst. inversion SM as [|? ? Sm _]; subst.
    pose proof (chunk_bounds ic _ Wm IC Sm) as CB. rewrite Forall_forall in CB. rewrite map_app, concat_app in Hk, SO. cbn in Hk, SO.
    rewrite app_nil_r in Hk, SO. apply in_app_or in Hk as [Hk|Hk].
    + apply StronglySorted_app in SO as (_ & _ & SO). apply wf_m_keys in Wm.
      destruct (m_keys m) as [|k0 ks] eqn:E; [congruence|].
      refine (vle_trans _ _ _ (SO k k0 Hk (or_introl eq_refl)) (proj2 (CB k0 _))). fold (m_keys m). rewrite E. now left.
    + now apply CB.
Qed.

(** One row group. *)
Lemma group_step h srcs cols RR ms q L h' srcs' :
  inv h srcs cols RR -> batches mo ms q L -> good mo h' srcs' ->
  (forall s, pendc h srcs s = minec s q ++ pendc h' srcs' s) ->
  exists data cols' TL RR',
    data_cols ms cols = Ok (data, cols')
    /\ rows_of None (key_cols ic ms ++ data) = map snd TL
    /\ map fst TL = map fst L /\ map snd L = map key (map snd TL)
    /\ (forall s, RR s = proj s TL ++ RR' s)
    /\ length cols' = length cols /\ inv h' srcs' cols' RR'.
Proof.
  intros I B G PE. destruct (batches_cols mo ms q L (pendc h srcs) (pendc h' srcs') B PE cols (i_al _ _ _ _ I))
    as (CLs & cols' & ED & F1 & F2 & L1 & L2 & NC).
  set (tags := map fst L) in *. destruct (batches_wf mo _ _ _ B) as [WM K].
  assert (PL : forall s, proj s L = firstn (cnt tags s) (map key (RR s)) /\ cnt tags s <= length (RR s)
                      /\ keys_of (pendc h' srcs' s) = skipn (cnt tags s) (map key (RR s))).
  { intros s. pose proof (i_keys _ _ _ _ I s) as E. rewrite PE, keys_of_app, <- (batches_proj mo _ _ _ s B) in E.
    split; [|split].
    - apply app_eq_firstn with (1 := eq_sym E). apply proj_len.
    - apply (f_equal (@length _)) in E. rewrite map_length, app_length, proj_len in E. fold tags in E. lia.
    - apply app_eq_skipn with (1 := eq_sym E). apply proj_len. }
  destruct (tagged_exists tags (fun s => firstn (cnt tags s) (RR s))) as (TL & T1 & T2).
  { intros s. apply firstn_length_le. now apply PL. }
  assert (EL : L = map (fun p => (fst p, key (snd p))) TL).
  { apply tagged_eq.
    - rewrite map_map. exact (eq_sym T1).
    - intros s. rewrite proj_map, T2. rewrite <- firstn_map. now apply PL. }
  assert (RW : Forall (fun r => length r = ic + length cols /\ int_keys ic r) (map snd TL)).
  { apply Forall_forall. intros r Hr. apply in_map_iff in Hr as ([t r'] & E & Hp). cbn in E. subst r'.
    apply in_proj in Hp. rewrite T2 in Hp. pose proof (i_rows _ _ _ _ I t) as F. rewrite Forall_forall in F. apply F.
    rewrite <- (firstn_skipn (cnt tags t)). apply in_or_app. now left. }
  assert (CJ : forall j CL, nth_error CLs j = Some CL -> CL = map (fun p => (fst p, nth (ic + j) (snd p) None)) TL).
  { intros j CL HC. destruct (nth_error cols j) as [rs|] eqn:EC.
    2:{ apply nth_error_None in EC. assert (j < length CLs) by (apply nth_error_Some; congruence). lia. }
    destruct (NC j rs EC) as (CL' & rs' & N1 & N2 & TK). assert (CL' = CL) by congruence. subst CL'.
    assert (TC : map fst CL = tags). { rewrite Forall_forall in F1. apply F1. now apply nth_error_In in HC. }
    apply tagged_eq.
    - rewrite map_map, TC. exact (eq_sym T1).
    - intros s. rewrite (proj_map (fun r => nth (ic + j) r None)), T2, <- firstn_map.
      pose proof (i_cells _ _ _ _ I j rs s EC) as IE. specialize (TK s). destruct (rs s) as [r|].
      + destruct TK as (r' & _ & E). rewrite IE in E. apply app_eq_firstn with (1 := eq_sym E). rewrite proj_len. now rewrite TC.
      + destruct TK as [_ E]. rewrite E, proj_len, TC. destruct (PL s) as (_ & LE & _). symmetry.
        clear -IE LE. revert LE. generalize (cnt tags s) as n. induction IE as [|x l Hx F IH]; intros n LE; cbn in *.
        * assert (n = 0) by lia. now subst n.
        * destruct n as [|n]; [reflexivity|]. cbn. rewrite Hx. f_equal. apply IH. lia. }
  exists (map (map snd) CLs), cols', TL, (fun s => skipn (cnt tags s) (RR s)).
  split; [exact ED|]. split; [|split; [|split; [|split; [|split]]]].
  - rewrite <- (rows_of_cols None (ic + length cols) (map snd TL)).
    + f_equal. rewrite seq_app, map_app. f_equal.
      * unfold key_cols. apply map_ext_in. intros i Hi. apply in_seq in Hi.
        transitivity (map cell_of_int (map (fun k => nth i k 0%Z) (concat (map m_keys ms)))).
        { clear -WM Hi. induction WM as [|m ms Wm F IH]; [reflexivity|]. cbn [map concat]. rewrite !map_app, IH. f_equal.
          f_equal. apply m_col with (mo := mo); [exact Wm|lia]. }
        rewrite K, EL, !map_map. cbn. apply map_ext_in. intros p Hp. rewrite Forall_forall in RW.
        destruct (RW (snd p)) as [R1 R2]; [now apply in_map|]. apply int_row; [exact R2|lia|lia].
      * apply nth_error_ext_. intros j. rewrite !nth_error_map.
        destruct (nth_error CLs j) as [CL|] eqn:EC; cbn.
        -- assert (Hj : j < length cols) by (rewrite <- L1; apply nth_error_Some; congruence).
           rewrite (nth_error_nth' (seq ic (length cols)) 0) by (rewrite seq_length; lia). rewrite seq_nth by lia. cbn.
           rewrite (CJ j CL EC), !map_map. reflexivity.
        -- apply nth_error_None in EC.
           assert (E : nth_error (seq ic (length cols)) j = None) by (apply nth_error_None; rewrite seq_length; lia).
           change (0 + ic) with ic. now rewrite E.
    + lia.
    + eapply Forall_impl; [|exact RW]. now intros r [H _].
  - exact T1.
  - rewrite EL, !map_map. reflexivity.
  - intros s. rewrite T2. symmetry. apply firstn_skipn.
  - exact L2.
  - constructor.
    + exact G.
    + intros s. destruct (PL s) as (_ & _ & E). rewrite E. symmetry. apply skipn_map.
    + intros s. rewrite L2. apply Forall_forall. intros r Hr. pose proof (i_rows _ _ _ _ I s) as F. rewrite Forall_forall in F.
      apply F. rewrite <- (firstn_skipn (cnt tags s)). apply in_or_app. now right.
    + exact F2.
    + intros j rs' s Hj. assert (Hl : j < length cols) by (rewrite <- L2; apply nth_error_Some; congruence).
      destruct (nth_error cols j) as [rs|] eqn:EC; [|apply nth_error_None in EC; lia].
      destruct (NC j rs EC) as (CL & rs0 & N1 & N2 & TK). assert (rs0 = rs') by congruence. subst rs0.
      assert (TC : map fst CL = tags). { rewrite Forall_forall in F1. apply F1. now apply nth_error_In in N1. }
      pose proof (i_cells _ _ _ _ I j rs s EC) as IE. specialize (TK s). destruct (rs s) as [r|].
      * destruct TK as (r' & -> & E). rewrite IE in E. rewrite <- skipn_map. apply app_eq_skipn with (1 := eq_sym E).
        rewrite proj_len. now rewrite TC.
      * destruct TK as [-> _]. apply Forall_forall. intros r Hr. rewrite Forall_forall in IE. apply IE.
        rewrite <- (firstn_skipn (cnt tags s)). apply in_or_app. now right.
Qed.

Definition out_rows (o : OutFile) : list Row := concat (o_groups o).
Definition cur_files (cur : option OutFile) : list OutFile := match cur with Some f => [f] | None => [] end.
(** The key range of a file. *)
Definition in_range (o : OutFile) : Prop :=
  out_rows o <> [] /\ length (o_min o) = ic /\ length (o_max o) = ic
  /\ Forall (fun r => vle (o_min o) (key r) = true /\ vle (key r) (o_max o) = true) (out_rows o).

Lemma m_bounds_len m : wf_m mo m -> length (m_min m) = ic /\ length (m_max m) = ic.
Proof. intros W. now destruct (ch_keys_len ic _ W IC) as (_ & _ & H). Qed.

Lemma files_loop_spec dts total : forall fuel h srcs cols cur RR,
  inv h srcs cols RR -> left_over h srcs < fuel -> left_over h srcs <= total ->
  Forall in_range (cur_files cur) ->
  before (map key (concat (map out_rows (cur_files cur)))) h srcs ->
  (supported dts = false /\ files_loop pop pop_row paginate full mo dts fuel total h srcs cols cur = Err Panic) \/
  exists outs TL,
    files_loop pop pop_row paginate full mo dts fuel total h srcs cols cur = Ok outs
    /\ concat (map out_rows outs) = concat (map out_rows (cur_files cur)) ++ map snd TL
    /\ (forall s, proj s TL = RR s) /\ Forall (fun p => fst p < length srcs) TL
    /\ vsorted (map key (map snd TL))
    /\ (forall k, In k (map key (map snd TL)) -> exists s o, In o (pendc h srcs s) /\ In k (ch_keys o))
    /\ Forall in_range outs.
Proof.
  induction fuel as [|fuel IH]; intros h srcs cols cur RR I LF LT RC BC; [lia|].
  cbn [files_loop].
  destruct (next_index_spec pop pop_row paginate HP HR HG mo NR IC dts total (S total) h srcs [] (i_good _ _ _ _ I))
    as [(HS & E)|(ms & q & L & h' & srcs' & E & B & G & LS & PE & LO & SO & BF & TG & ND)]; [lia|lia|constructor|left; split; [exact HS|now rewrite E]|].
  rewrite E. cbn [app]. destruct ms as [|m0 ms0] eqn:EM.
  - destruct ND as [ND|ND]; [|congruence]. subst h. right. exists (cur_files cur), []. split; [reflexivity|]. split; [now rewrite app_nil_r|].
    split. { intros s. assert (H : map key (RR s) = []).
      { rewrite (i_keys _ _ _ _ I s). pose proof (i_good _ _ _ _ I) as (F & _). rewrite (fed_empty ch_stream srcs s F). reflexivity. }
      destruct (RR s); [reflexivity|discriminate]. }
    split; [constructor|]. split; [constructor|]. split; [intros k []|exact RC].
  - rewrite <- EM in *. clear E. assert (NM : ms <> []) by (rewrite EM; discriminate).
    destruct (batches_nonempty _ _ _ B NM) as [NL NQ].
    destruct (group_step h srcs cols RR ms q L h' srcs' I B G PE) as (data & cols' & TL & RR' & ED & EG & T1 & T2 & T3 & LC & I').
    rewrite ED.
    set (f := match cur with
              | None => mkOut [rows_of None (key_cols ic ms ++ data)] (m_min (hd (mkMChunk [] (PickFrom 0 0)) ms)) (m_max (last ms (mkMChunk [] (PickFrom 0 0))))
              | Some f => mkOut (o_groups f ++ [rows_of None (key_cols ic ms ++ data)]) (o_min f) (m_max (last ms (mkMChunk [] (PickFrom 0 0))))
              end).
    pose proof (batches_bounds ms q L B NM SO) as BB. rewrite T2 in BB. destruct (batches_wf mo _ _ _ B) as [WM K].
    assert (INP : forall k, In k (map snd L) -> exists s o, In o (pendc h srcs s) /\ In k (ch_keys o)).
    { intros k Hk. apply in_map_iff in Hk as ([t k''] & Ek & Hp). cbn in Ek. subst k''.
      apply in_proj in Hp. rewrite (batches_proj mo _ _ _ t B) in Hp. unfold keys_of in Hp.
      apply in_concat in Hp as (ks & Hks & Hk). apply in_map_iff in Hks as (o & <- & Ho).
      exists t, o. split; [|exact Hk]. rewrite PE. apply in_or_app. now left. }
    assert (EF : out_rows f = concat (map out_rows (cur_files cur)) ++ map snd TL).
    { unfold f, out_rows. destruct cur as [f0|]; cbn; rewrite EG, ?app_nil_r, ?concat_app; cbn; now rewrite ?app_nil_r. }
    assert (NT : map snd TL <> []).
    { intros H. apply (f_equal (@length _)) in H. apply (f_equal (@length _)) in T1. rewrite !map_length in *.
      destruct L; [congruence|]. cbn in *. lia. }
    assert (LM : length (m_min (hd (mkMChunk [] (PickFrom 0 0)) ms)) = ic /\ length (m_max (last ms (mkMChunk [] (PickFrom 0 0)))) = ic).
    { split; [destruct ms as [|m ms]; [congruence|]; inversion WM; subst; now apply m_bounds_len|].
      destruct (exists_last NM) as (ms' & m & ->). rewrite last_last. apply Forall_app in WM as [_ WM]. inversion WM; subst. now apply m_bounds_len. }
    assert (RF : in_range f).
    { split; [|split; [|split]].
      - rewrite EF. intros H. apply app_eq_nil in H as [_ H]. congruence.
      - unfold f. destruct cur as [f0|]; cbn; [|apply LM]. cbn in RC. inversion RC as [|? ? (_ & R1 & _) _]; subst. exact R1.
      - unfold f. destruct cur as [f0|]; cbn; apply LM.
      - rewrite EF. apply Forall_app. split.
        + apply Forall_forall. intros r Hr. destruct cur as [f0|]; [|destruct Hr]. cbn in Hr. rewrite app_nil_r in Hr.
          inversion RC as [|? ? (R0 & _ & _ & R1) _]; subst. rewrite Forall_forall in R1. destruct (R1 r Hr) as [R2 R3].
          unfold f. cbn [o_min o_max]. split; [exact R2|].
          destruct (map snd TL) as [|r1 rs1]; [congruence|]. apply Forall_inv in BB. destruct BB as [_ BB].
          refine (vle_trans _ _ _ _ BB). destruct (INP (key r1)) as (s & o & Ho & Hk); [rewrite T2; now left|].
          apply (BC _ s o _); [|exact Ho|exact Hk]. apply in_map. cbn. rewrite app_nil_r. exact Hr.
        + apply Forall_forall. intros r Hr. rewrite Forall_forall in BB. destruct (BB (key r)) as [B1 B2]; [now apply in_map|].
          split; [|unfold f; destruct cur; exact B2]. unfold f. destruct cur as [f0|]; [|exact B1]. cbn [o_min].
          inversion RC as [|? ? (R0 & _ & _ & R1) _]; subst. destruct (out_rows f0) as [|r0 rs0] eqn:E0; [congruence|].
          apply Forall_inv in R1. destruct R1 as [R1 _]. refine (vle_trans _ _ _ R1 _).
          destruct (INP (key r)) as (s & o & Ho & Hk); [rewrite T2; now apply in_map|].
          apply (BC _ s o _); [|exact Ho|exact Hk]. cbn. rewrite E0. now left. }
    assert (FU : left_over h' srcs' < fuel). { destruct q; [congruence|]. cbn in LO. lia. }
    assert (SUB : forall s o, In o (pendc h' srcs' s) -> In o (pendc h srcs s)).
    { intros s o Ho. rewrite PE. apply in_or_app. now right. }
    assert (FIN : forall outs TL2,
       (forall s, proj s TL2 = RR' s) -> Forall (fun p => fst p < length srcs') TL2 -> vsorted (map key (map snd TL2)) ->
       (forall k, In k (map key (map snd TL2)) -> exists s o, In o (pendc h' srcs' s) /\ In k (ch_keys o)) ->
       concat (map out_rows outs) = out_rows f ++ map snd TL2 -> Forall in_range outs ->
       concat (map out_rows outs) = concat (map out_rows (cur_files cur)) ++ map snd (TL ++ TL2)
       /\ (forall s, proj s (TL ++ TL2) = RR s) /\ Forall (fun p => fst p < length srcs) (TL ++ TL2)
       /\ vsorted (map key (map snd (TL ++ TL2)))
       /\ (forall k, In k (map key (map snd (TL ++ TL2))) -> exists s o, In o (pendc h srcs s) /\ In k (ch_keys o))
       /\ Forall in_range outs).
    { intros outs TL2 Q1 Q2 Q3 Q4 Q5 Q6. split; [|split; [|split; [|split; [|split]]]].
      - rewrite Q5, EF, map_app, app_assoc. reflexivity.
      - intros s. rewrite proj_app, Q1, T3. reflexivity.
      - apply Forall_app. split; [|now rewrite <- LS]. apply Forall_forall. intros p Hp.
        assert (H : In (fst p) (map fst L)) by (rewrite <- T1; now apply in_map).
        apply in_map_iff in H as (p' & Ep & Hp'). rewrite Forall_forall in TG. rewrite <- Ep. now apply TG.
      - rewrite !map_app. apply StronglySorted_app. split; [rewrite <- T2; exact SO|]. split; [exact Q3|].
        intros a b Ha Hb. destruct (Q4 b Hb) as (s & o & Ho & Hk). rewrite <- T2 in Ha. exact (BF a s o b Ha Ho Hk).
      - intros k Hk. rewrite !map_app in Hk. apply in_app_or in Hk as [Hk|Hk].
        + apply INP. now rewrite T2.
        + destruct (Q4 k Hk) as (s & o & Ho & Hk'). exists s, o. auto.
      - exact Q6. }
    assert (BF' : before (map key (out_rows f)) h' srcs').
    { rewrite EF, map_app. intros k s o k' Hk Ho Hk'. apply in_app_or in Hk as [Hk|Hk].
      - exact (BC k s o k' Hk (SUB s o Ho) Hk').
      - apply (BF k s o k'); [now rewrite T2|exact Ho|exact Hk']. }
    destruct (full (o_groups f)).
    + destruct (IH h' srcs' cols' None RR' I' FU) as [(HS & E)|(outs & TL2 & E & Q0 & Q1 & Q2 & Q3 & Q4 & Q5)];
        [lia|constructor|intros k s o k' []|left; split; [exact HS|now rewrite E]|]. rewrite E. right. exists (f :: outs), (TL ++ TL2). split; [reflexivity|].
      apply FIN; auto. cbn. cbn in Q0. now rewrite Q0.
    + destruct (IH h' srcs' cols' (Some f) RR' I' FU) as [(HS & E)|(outs & TL2 & E & Q0 & Q1 & Q2 & Q3 & Q4 & Q5)].
      * lia.
      * constructor; [exact RF|constructor].
      * cbn. rewrite app_nil_r. exact BF'.
      * left. auto.
      * right. rewrite E. exists outs, (TL ++ TL2). split; [reflexivity|]. apply FIN; auto. cbn in Q0. now rewrite app_nil_r in Q0.
Qed.
End Run.
