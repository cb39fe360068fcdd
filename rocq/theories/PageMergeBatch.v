(** What a batch of merged chunks holds, and what one call of [next_index] delivers. *)
From Coq Require Import List NArith ZArith Bool Permutation Sorted Lia Arith.
From Verif Require Import Bytes Log Order ListFacts Memtable MergeFacts Compact CompactFacts PageMerge PageMergeSpec PageMergeTags PageMergeIndex.
Import ListNotations.

Lemma firstn_seq_map {A} (k : list A) d : map (fun i => nth i k d) (seq 0 (length k)) = k.
Proof. apply nth_seq_map. Qed.

Section Batch.
Variable pop : list Chunk -> option (Chunk * list Chunk).
Variable pop_row : list (nat * list Z) -> option ((nat * list Z) * list (nat * list Z)).
Variable paginate : list Z -> list (list Z).
Hypothesis HP : heap_contract chunk_le pop.
Hypothesis HR : heap_contract row_le pop_row.
Hypothesis HG : paginate_contract paginate.
Variable mo : MOpts.
Hypothesis NR : mo_replacing mo = false.
Hypothesis IC : mo_ic mo <> 0.
Notation ic := (mo_ic mo).
Notation pendc := (pend ch_stream).
Notation minec := (mine ch_stream).

Definition m_keys (m : MChunk) : list (list Z) := ch_keys (mkChunk 0 (m_cols m)).
Definition wf_m (m : MChunk) : Prop := wf_chunk ic (mkChunk 0 (m_cols m)).
Definition tagged (q : list Chunk) : list (nat * list Z) :=
  concat (map (fun c => map (pair (ch_stream c)) (ch_keys c)) q).
Lemma proj_tagged s q : proj s (tagged q) = keys_of (minec s q).
Proof.
  induction q as [|c q IH]; [reflexivity|]. unfold tagged in *. cbn [map concat]. rewrite proj_app, IH, proj_tag.
  unfold mine. cbn [filter]. now destruct (Nat.eqb (ch_stream c) s).
Qed.

Lemma merged_rows_spec q : Forall (fun c => vsorted (ch_keys c)) q ->
  Permutation (merged_rows pop_row mo q) (tagged q)
  /\ StronglySorted (fun a b => row_le a b = true) (merged_rows pop_row mo q).
Proof.
  intros Sq. unfold merged_rows.
  set (rows := mapi (fun i c => map (pair i) (ch_keys c)) 0 q).
  set (retag := fun r : nat * list Z => (ch_stream (nth (fst r) q (mkChunk 0 [])), snd r)).
  assert (ORD : exists o, (if Nat.eqb ic 2 then drain pop_row (length (concat rows)) (concat rows)
                 else drain_heads pop_row (length (concat rows)) (firsts rows) (map (@tl _) rows)) = o
              /\ Permutation (concat rows) o /\ StronglySorted (fun a b => row_le a b = true) o).
  { destruct (Nat.eqb ic 2).
    - eexists. split; [reflexivity|]. apply drain_spec; [exact HR|lia].
    - assert (NTH : forall s, nth s rows [] = match nth_error q s with Some c => map (pair s) (ch_keys c) | None => [] end).
      { intros s. unfold rows. destruct (nth_error q s) as [c|] eqn:E.
        - apply nth_error_nth. rewrite nth_error_mapi, E. reflexivity.
        - apply nth_overflow. rewrite mapi_length. now apply nth_error_None. }
      destruct (fed_firsts fst rows) as (F & PE & LO & PM).
      { intros s x. rewrite NTH. destruct (nth_error q s); [|contradiction]. intros H. now apply in_map_iff in H as (k & <- & _). }
      eexists. split; [reflexivity|].
      destruct (drain_heads_spec pop_row HR (length (concat rows)) (firsts rows) (map (@tl _) rows)) as [P' S'].
      + exact F.
      + intros s. rewrite PE, NTH. destruct (nth_error q s) as [c|] eqn:E; [|constructor].
        apply nth_error_In in E. rewrite Forall_forall in Sq. specialize (Sq c E).
        induction Sq as [|k l Sl IH Fk]; cbn; constructor; [exact IH|].
        apply Forall_forall. intros y Hy. apply in_map_iff in Hy as (k' & <- & Hk'). rewrite Forall_forall in Fk. exact (Fk k' Hk').
      + rewrite LO. clear. induction rows as [|l rows IH]; [cbn; lia|]. unfold list_sum in *. cbn [map fold_right concat].
        rewrite app_length. lia.
      + split; [|exact S']. exact (perm_trans (Permutation_sym PM) P'). }
  destruct ORD as (o & -> & P & So). fold retag. split.
  - rewrite <- (Permutation_map retag P). unfold rows, tagged.
    assert (G : forall n l, (forall i c, nth_error l i = Some c -> nth (n + i) q (mkChunk 0 []) = c) ->
              map retag (concat (mapi (fun i c => map (pair i) (ch_keys c)) n l)) = concat (map (fun c => map (pair (ch_stream c)) (ch_keys c)) l)).
    { intros n l; revert n. induction l as [|c l IH]; intros n H; [reflexivity|]. cbn [mapi concat map]. rewrite map_app, IH.
      - f_equal. rewrite map_map. apply map_ext. intros k. unfold retag. cbn. rewrite <- (Nat.add_0_r n). now rewrite (H 0 c eq_refl).
      - intros i c' Hc'. replace (S n + i) with (n + S i) by lia. now apply H. }
    rewrite G; [reflexivity|]. intros i c H. cbn. now apply nth_error_nth.
  - clear -So. induction So as [|x l Sl IH Fx]; cbn; constructor; [exact IH|].
    apply Forall_forall. intros y Hy. apply in_map_iff in Hy as (z & <- & Hz). rewrite Forall_forall in Fx. exact (Fx z Hz).
Qed.

Lemma row_sorted_snd (L : list (nat * list Z)) : StronglySorted (fun a b => row_le a b = true) L -> vsorted (map snd L).
Proof.
  induction 1 as [|x l Sl IH Fx]; cbn; constructor; [exact IH|].
  apply Forall_forall. intros y Hy. apply in_map_iff in Hy as (z & <- & Hz). rewrite Forall_forall in Fx. exact (Fx z Hz).
Qed.
Lemma proj_sorted s (L : list (nat * list Z)) : StronglySorted (fun a b => row_le a b = true) L -> vsorted (proj s L).
Proof.
  intros H. unfold proj. apply row_sorted_snd. clear -H. induction H as [|x l Sl IH Fx]; cbn; [constructor|].
  destruct (Nat.eqb (fst x) s); [|exact IH]. constructor; [exact IH|]. rewrite Forall_forall in *. intros y Hy.
  apply filter_In in Hy as [Hy _]. auto.
Qed.

(** A batch: one chunk as it is, or several chunks merged.  [L]: its rows in order, with their
    streams. *)
Inductive batch : list MChunk -> list Chunk -> list (nat * list Z) -> Prop :=
| b_pick c : wf_chunk ic c ->
    batch [mkMChunk (ch_cols c) (PickFrom (ch_stream c) (length (ch_keys c)))] [c] (map (pair (ch_stream c)) (ch_keys c))
| b_merge ms q L orders :
    Forall2 (fun m o => m_order m = Reordered o (map ch_stream q)) ms orders ->
    concat orders = map (fun r => Some (fst r)) L ->
    Forall wf_m ms -> concat (map m_keys ms) = map snd L ->
    (forall s, proj s L = keys_of (minec s q)) ->
    batch ms q L.
Inductive batches : list MChunk -> list Chunk -> list (nat * list Z) -> Prop :=
| bs_nil : batches [] [] []
| bs_cons m1 q1 L1 m2 q2 L2 : batch m1 q1 L1 -> batches m2 q2 L2 -> batches (m1 ++ m2) (q1 ++ q2) (L1 ++ L2).

Lemma piece_wf keys : keys <> [] -> Forall (fun k => length k = ic) keys ->
  let cols := map (fun i => paginate (map (fun k => nth i k 0%Z) keys)) (seq 0 ic) in
  wf_chunk ic (mkChunk 0 cols) /\ ch_keys (mkChunk 0 cols) = keys.
Proof.
  intros N F cols.
  assert (NE : forall i, map (fun k => nth i k 0%Z) keys <> []) by (intros i; destruct keys; [congruence|discriminate]).
  split.
  - split; [cbn; unfold cols; now rewrite map_length, seq_length|].
    exists (length keys). split; [destruct keys; [congruence|discriminate]|]. cbn. apply Forall_forall. intros pg H.
    apply in_map_iff in H as (i & <- & _). destruct (HG _ (NE i)) as [H1 H2]. split; [exact H2|]. now rewrite H1, map_length.
  - unfold ch_keys. cbn [ch_cols]. unfold cols. rewrite map_map.
    rewrite (map_ext _ (fun i => map (fun k => nth i k 0%Z) keys)) by (intros i; apply (HG _ (NE i))).
    now apply rows_of_cols.
Qed.

Lemma tagged_keys q k : In k (map snd (tagged q)) -> In k (keys_of q).
Proof.
  unfold tagged, keys_of. induction q as [|c q IH]; cbn; [auto|]. rewrite map_app, map_map, map_id. intros H.
  apply in_app_or in H as [H|H]; apply in_or_app; auto.
Qed.

Lemma merge_queue_spec dts q : supported dts = true -> q <> [] ->
  Forall (fun c => wf_chunk ic c /\ vsorted (ch_keys c)) q ->
  (forall s, vsorted (keys_of (minec s q))) ->
  exists ms L, merge_queue pop_row paginate mo dts q = Ok ms /\ batch ms q L /\ L <> []
    /\ vsorted (map snd L) /\ (forall k, In k (map snd L) -> In k (keys_of q))
    /\ (forall p, In p L -> exists c, In c q /\ ch_stream c = fst p).
Proof.
  intros HS NQ W SV. destruct (merged_rows_spec q) as [P So].
  { eapply Forall_impl; [|exact W]. now intros c [_ H]. }
  set (L := merged_rows pop_row mo q) in *.
  assert (PJ : forall s, proj s L = keys_of (minec s q)).
  { intros s. apply vsorted_perm; [now apply proj_sorted|apply SV|]. rewrite <- proj_tagged. unfold proj.
    apply Permutation_map. now apply Permutation_filter. }
  assert (KL : forall k, In k (map snd L) -> In k (keys_of q)).
  { intros k Hk. apply tagged_keys. now rewrite <- (Permutation_map snd P). }
  unfold merge_queue. rewrite HS. cbn [negb]. rewrite NR. cbn [andb].
  destruct (emit_keep (mo_array mo) L [] [] eq_refl) as (E1 & E2 & E3). cbv zeta in *. cbn [app] in *.
  set (ps := emit false (mo_array mo) L [] []) in *.
  exists (map (fun '(keys, order) => mkMChunk (map (fun i => paginate (map (fun k => nth i k 0%Z) keys)) (seq 0 ic))
                                       (Reordered order (map ch_stream q))) ps), L.
  assert (KW : Forall (fun k => length k = ic) (keys_of q)).
  { apply Forall_forall. intros k Hk. unfold keys_of in Hk. apply in_concat in Hk as (ks & Hks & Hk).
    apply in_map_iff in Hks as (c & <- & Hc). rewrite Forall_forall in W. destruct (W c Hc) as [Wc _].
    destruct (ch_keys_len ic c Wc IC) as (_ & B & _). rewrite Forall_forall in B. now apply B. }
  assert (PW : Forall (fun p => fst p <> [] /\ Forall (fun k => length k = ic) (fst p)) ps).
  { apply Forall_forall. intros p Hp. rewrite Forall_forall in E3. destruct (E3 p Hp) as [_ N]. split; [exact N|].
    apply Forall_forall. intros k Hk. rewrite Forall_forall in KW. apply KW, KL. rewrite <- E1. apply in_concat.
    exists (fst p). split; [now apply in_map|exact Hk]. }
  split; [reflexivity|]. split; [|split; [|split; [now apply row_sorted_snd|split; [exact KL|]]]].
  - apply b_merge with (orders := map snd ps).
    + clear. induction ps as [|[k o] ps IH]; cbn; constructor; auto.
    + exact E2.
    + apply Forall_forall. intros m Hm. apply in_map_iff in Hm as ([k o] & <- & Hp). rewrite Forall_forall in PW.
      destruct (PW _ Hp) as [N F]. unfold wf_m. cbn [m_cols]. now apply piece_wf.
    + rewrite <- E1. f_equal. rewrite map_map. apply map_ext_in. intros [k o] Hp. rewrite Forall_forall in PW.
      destruct (PW _ Hp) as [N F]. unfold m_keys. cbn [m_cols fst]. now apply piece_wf.
    + exact PJ.
  - intros EL. destruct q as [|c q]; [congruence|]. inversion W as [|? ? [Wc _] _]; subst.
    destruct (ch_keys_len ic c Wc IC) as (N & _). apply (f_equal (@length _)) in EL. rewrite (Permutation_length P) in EL.
    unfold tagged in EL. cbn in EL. rewrite app_length, map_length in EL. destruct (ch_keys c); [congruence|cbn in EL; lia].
  - intros p Hp. rewrite P in Hp. unfold tagged in Hp. apply in_concat in Hp as (l & Hl & Hp). apply in_map_iff in Hl as (c & <- & Hc).
    apply in_map_iff in Hp as (k & <- & _). exists c. auto.
Qed.

Lemma m_num_pos m : wf_m m -> 1 <= m_num m.
Proof.
  intros W. destruct (ch_keys_len ic _ W IC) as (N & _). unfold ch_keys in N. cbn in N.
  unfold m_num. destruct (m_cols m) as [|c r]; [exfalso; now apply N|].
  destruct (concat c) as [|x y] eqn:E; [|cbn; rewrite E; cbn; lia]. exfalso. apply N. unfold rows_of. cbn. now rewrite E.
Qed.

Lemma batch_wf ms q L : batch ms q L -> Forall wf_m ms /\ concat (map m_keys ms) = map snd L.
Proof.
  destruct 1 as [c W|ms q L orders O C W K PJ]; [|auto]. split; [constructor; [exact W|constructor]|].
  cbn. rewrite app_nil_r, map_map, map_id. reflexivity.
Qed.
Lemma batches_wf ms q L : batches ms q L -> Forall wf_m ms /\ concat (map m_keys ms) = map snd L.
Proof.
  induction 1 as [|m1 q1 L1 m2 q2 L2 B BS [I1 I2]]; [cbn; auto|]. destruct (batch_wf _ _ _ B) as [B1 B2].
  split; [apply Forall_app; auto|]. now rewrite !map_app, concat_app, B2, I2.
Qed.
Lemma batch_proj ms q L s : batch ms q L -> proj s L = keys_of (minec s q).
Proof.
  destruct 1 as [c W|ms q L orders O C W K PJ]; [|apply PJ]. rewrite proj_tag. unfold mine. cbn.
  destruct (Nat.eqb (ch_stream c) s); cbn; [now rewrite app_nil_r|reflexivity].
Qed.
Lemma mine_app s a b : minec s (a ++ b) = minec s a ++ minec s b.
Proof. unfold mine. apply filter_app. Qed.
Lemma batches_proj ms q L s : batches ms q L -> proj s L = keys_of (minec s q).
Proof.
  induction 1 as [|m1 q1 L1 m2 q2 L2 B BS IH]; [reflexivity|]. rewrite proj_app, mine_app, keys_of_app, IH.
  f_equal. now apply batch_proj with (ms := m1).
Qed.

Lemma vsorted_prefix a b : vsorted (a ++ b) -> vsorted a.
Proof. intros H. now apply StronglySorted_app in H. Qed.

Lemma next_index_spec dts total : forall fuel h srcs buf,
  good mo h srcs -> left_over h srcs < fuel -> left_over h srcs <= total -> Forall wf_m buf ->
  (supported dts = false /\ next_index pop pop_row paginate mo dts fuel total h srcs buf = Err Panic) \/
  exists ms q L h' srcs',
    next_index pop pop_row paginate mo dts fuel total h srcs buf
      = Ok (match buf ++ ms with [] => None | _ => Some (buf ++ ms) end, (h', srcs'))
    /\ batches ms q L /\ good mo h' srcs' /\ length srcs' = length srcs
    /\ (forall s, pendc h srcs s = minec s q ++ pendc h' srcs' s)
    /\ left_over h' srcs' + length q = left_over h srcs
    /\ vsorted (map snd L) /\ before (map snd L) h' srcs'
    /\ Forall (fun p => fst p < length srcs) L
    /\ (h = [] \/ ms <> []).
Proof.
  induction fuel as [|fuel IH]; intros h srcs buf G LF LT WB; [lia|].
  cbn [next_index]. destruct (pop_cases chunk_le pop HP h) as [[-> ->]|(c & h1 & EP & P & M)].
  - right. exists [], [], [], [], srcs. rewrite app_nil_r. split; [|].
    + assert (E : drained 1 buf = match buf with [] => false | _ => true end).
      { unfold drained. destruct buf as [|m buf]; [reflexivity|]. rewrite andb_true_r. apply Nat.leb_le.
        inversion WB as [|? ? Wm _]; subst. apply m_num_pos in Wm. unfold list_sum. cbn. lia. }
      rewrite E. now destruct buf.
    + split; [constructor|]. split; [exact G|]. split; [reflexivity|]. split; [reflexivity|]. split; [cbn; lia|].
      split; [constructor|]. split; [intros k s o k' []|]. split; [constructor|]. now left.
  - rewrite EP. destruct (push_next (ch_stream c) h1 srcs) as [h2 srcs2] eqn:E2.
    destruct (good_step pop HP mo h srcs c h1 h2 srcs2 G EP E2) as (G2 & L2 & Hc & PE & LO & Wc & Sc & _ & _).
    destruct (gather pop mo total [c] h2 srcs2) as [q0 [h3 srcs3]] eqn:EG.
    destruct (gather_spec pop HP mo NR IC total [c] h2 srcs2 q0 h3 srcs3) as (more & EQ & G3 & L3 & PE3 & LO3 & W3 & B3); auto.
    + lia.
    + discriminate.
    + intros s o Ho. exists c. split; [now left|].
      pose proof G as (F & Wf & V).
      assert (Ho' : In o (pendc h srcs s)) by (rewrite PE; apply in_or_app; now right).
      assert (Wo : wf_chunk ic o) by (specialize (Wf s); rewrite Forall_forall in Wf; auto).
      destruct (has_key mo IC o Wo) as (k & Hk).
      refine (vle_trans _ _ _ (peek_least pop HP mo IC h srcs c h1 s o k G EP Ho' Hk) _).
      now apply (good_bounds mo IC h srcs s o k G Ho' Hk).
    + assert (PQ : forall s, pendc h srcs s = minec s q0 ++ pendc h3 srcs3 s).
      { intros s. rewrite EQ, mine_app, <- app_assoc, <- PE3. apply PE. }
      assert (BT : (supported dts = false /\ merge_queue pop_row paginate mo dts q0 = Err Panic /\ exists c1 c2 r, q0 = c1 :: c2 :: r) \/ exists ms L, (match q0 with
               | [c] => Ok [mkMChunk (ch_cols c) (PickFrom (ch_stream c) (length (concat (hd [] (ch_cols c)))))]
               | _ => merge_queue pop_row paginate mo dts q0 end) = Ok ms
             /\ batch ms q0 L /\ L <> [] /\ vsorted (map snd L) /\ (forall k, In k (map snd L) -> In k (keys_of q0))
             /\ Forall (fun p => fst p < length srcs) L).
      { assert (MQ : supported dts = true -> exists ms L, merge_queue pop_row paginate mo dts q0 = Ok ms
                /\ batch ms q0 L /\ L <> [] /\ vsorted (map snd L) /\ (forall k, In k (map snd L) -> In k (keys_of q0))
                /\ Forall (fun p => fst p < length srcs) L).
        { intros HS. destruct (merge_queue_spec dts q0 HS) as (ms & L & R1 & R2 & R3 & R4 & R5 & R6).
          - rewrite EQ. discriminate.
          - rewrite EQ. constructor; [auto|]. eapply Forall_impl; [|exact W3]. intros ? (? & ? & ?); auto.
          - intros s. destruct G as (_ & _ & V). specialize (V s). rewrite PQ, keys_of_app in V. now apply vsorted_prefix in V.
          - exists ms, L. repeat apply conj; auto. apply Forall_forall. intros p Hp. destruct (R6 p Hp) as (c' & Hc' & <-).
            rewrite EQ in Hc'. destruct Hc' as [<-|Hc']; [exact Hc|]. rewrite Forall_forall in W3. specialize (W3 c' Hc').
            rewrite <- L2. tauto. }
        destruct more as [|c2 more].
        - subst q0. assert (EL : length (concat (hd [] (ch_cols c))) = length (ch_keys c)).
          { unfold ch_keys. rewrite rows_of_len. destruct (ch_cols c); reflexivity. }
          right. cbn [app]. rewrite EL. eexists _, _. split; [reflexivity|]. split; [now apply b_pick|].
          destruct (ch_keys_len ic c Wc IC) as (N & _). split; [|split; [|split]].
          + destruct (ch_keys c); [congruence|discriminate].
          + now rewrite map_map, map_id.
          + intros k. rewrite map_map, map_id. unfold keys_of. cbn. now rewrite app_nil_r.
          + apply Forall_forall. intros p Hp. apply in_map_iff in Hp as (k & <- & _). exact Hc.
        - destruct (supported dts) eqn:HS.
          + right. rewrite EQ in *. exact (MQ eq_refl).
          + left. split; [reflexivity|]. split; [unfold merge_queue; now rewrite HS|]. rewrite EQ. cbn. eauto. }
      destruct BT as [(HS & EM & c1 & c2 & r & EC)|(ms & L & EM & BB & NL & SL & KL & TL)].
      { left. split; [exact HS|]. rewrite EC in *. now rewrite EM. }
      rewrite EM.
      destruct (batch_wf _ _ _ BB) as [WM CK].
      assert (NM : ms <> []). { intros ->. cbn in CK. destruct L; [congruence|discriminate]. }
      assert (LQ : left_over h3 srcs3 + length q0 = left_over h srcs) by (rewrite EQ; cbn; lia).
      assert (BL : before (map snd L) h3 srcs3).
      { intros k s o k' Hk. apply B3. now apply KL. }
      destruct (drained (mo_limit mo) (buf ++ ms)) eqn:ED.
      * right. exists ms, q0, L, h3, srcs3. split.
        { destruct (buf ++ ms) eqn:E; [|reflexivity]. apply app_eq_nil in E as [_ E]. congruence. }
        split. { rewrite <- (app_nil_r ms), <- (app_nil_r q0), <- (app_nil_r L). apply bs_cons; [exact BB|constructor]. }
        split; [exact G3|]. split; [lia|]. split; [exact PQ|]. split; [exact LQ|]. split; [exact SL|].
        split; [exact BL|]. split; [exact TL|]. now right.
      * destruct (IH h3 srcs3 (buf ++ ms)) as [(HS & EN)|(ms' & q' & L' & h' & srcs' & R1 & R2 & R3 & R4 & R5 & R6 & R7 & R8 & R9 & R10)].
        -- exact G3.
        -- rewrite EQ in LQ. cbn in LQ. lia.
        -- lia.
        -- apply Forall_app. auto.
        -- left. auto.
        -- right. exists (ms ++ ms'), (q0 ++ q'), (L ++ L'), h', srcs'. split; [rewrite app_assoc; exact R1|].
           split; [now apply bs_cons|]. split; [exact R3|]. split; [lia|].
           split. { intros s. rewrite PQ, R5, mine_app, app_assoc. reflexivity. }
           split. { rewrite app_length. lia. }
           assert (INL : forall k', In k' (map snd L') -> exists s o, In o (pendc h3 srcs3 s) /\ In k' (ch_keys o)).
           { intros k' Hk'. apply in_map_iff in Hk' as ([t k''] & E & Hp). cbn in E. subst k''.
             apply in_proj in Hp. rewrite (batches_proj _ _ _ t R2) in Hp. unfold keys_of in Hp.
             apply in_concat in Hp as (ks & Hks & Hk). apply in_map_iff in Hks as (o & <- & Ho).
             exists t, o. split; [|exact Hk]. rewrite R5. apply in_or_app. now left. }
           split. { rewrite map_app. apply StronglySorted_app. split; [exact SL|]. split; [exact R7|].
             intros a b Ha Hb. destruct (INL b Hb) as (s & o & Ho & Hk). exact (BL a s o b Ha Ho Hk). }
           split. { rewrite map_app. intros k s o k' Hk Ho Hk'. apply in_app_or in Hk as [Hk|Hk]; [|exact (R8 k s o k' Hk Ho Hk')].
             apply (BL k s o k' Hk); [|exact Hk']. rewrite R5. apply in_or_app. now right. }
           split. { apply Forall_app. split; [exact TL|]. replace (length srcs) with (length srcs3) by lia. exact R9. }
           right. destruct ms; [congruence|discriminate].
Qed.
End Batch.
