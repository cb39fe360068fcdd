(** The columns that are not key columns follow the key columns. *)
From Coq Require Import List NArith ZArith Bool Permutation Sorted Lia Arith.
From Verif Require Import Bytes Log Order ListFacts Memtable MergeFacts Compact CompactFacts PageMerge PageMergeSpec PageMergeTags PageMergeIndex PageMergeBatch.
Import ListNotations.

Fixpoint take_n (n : nat) (r : Reader) : result fault (list cell * Reader) :=
  match n with
  | O => Ok ([], r)
  | S n' => match take_cell r with
            | Err e => Err e
            | Ok (c, r') => match take_n n' r' with Ok (cs, r'') => Ok (c :: cs, r'') | Err e => Err e end
            end
  end.
Lemma take_n_app a b r l1 r1 l2 r2 : take_n a r = Ok (l1, r1) -> take_n b r1 = Ok (l2, r2) ->
  take_n (a + b) r = Ok (l1 ++ l2, r2).
Proof.
  revert r l1. induction a as [|a IH]; intros r l1 H1 H2; cbn in *.
  - injection H1 as <- <-. exact H2.
  - destruct (take_cell r) as [[c r']|]; [|discriminate]. destruct (take_n a r') as [[cs r'']|] eqn:E; [|discriminate].
    injection H1 as <- <-. now rewrite (IH _ _ E H2).
Qed.
Lemma take_tail gs ps l : l <> [] -> take_n (length l) (mkReader gs ps (Some l)) = Ok (l, mkReader gs ps None).
Proof.
  induction l as [|x l IH]; intros N; [congruence|]. cbn. destruct l as [|y l]; [reflexivity|].
  rewrite IH by discriminate. reflexivity.
Qed.
Lemma take_page gs p ps : p <> [] -> take_n (length p) (mkReader gs (p :: ps) None) = Ok (p, mkReader gs ps None).
Proof.
  intros N. destruct p as [|x p]; [congruence|]. cbn. destruct p as [|y p]; [reflexivity|].
  rewrite take_tail by discriminate. reflexivity.
Qed.
Lemma take_pages gs ps : Forall (fun p => p <> []) ps ->
  take_n (length (concat ps)) (mkReader gs ps None) = Ok (concat ps, mkReader gs [] None).
Proof.
  induction 1 as [|p ps N F IH]; [reflexivity|]. cbn. rewrite app_length.
  exact (take_n_app _ _ _ _ _ _ _ (take_page gs p ps N) IH).
Qed.
Lemma take_group gs g : Forall (fun p => p <> []) g ->  concat g <> [] ->
  take_n (length (concat g)) (mkReader (g :: gs) [] None) = Ok (concat g, mkReader gs [] None).
Proof.
  intros F N. rewrite <- (take_pages gs g F). destruct (length (concat g)) eqn:E.
  - apply length_zero_iff_nil in E. congruence.
  - cbn. destruct g as [|p g]; [now cbn in N|]. reflexivity.
Qed.
Lemma take_groups gs2 gs1 : Forall (fun g => Forall (fun p => p <> []) g /\ concat g <> []) gs1 ->
  take_n (length (concat (map (@concat cell) gs1))) (mkReader (gs1 ++ gs2) [] None)
  = Ok (concat (map (@concat cell) gs1), mkReader gs2 [] None).
Proof.
  induction 1 as [|g gs [F N] FS IH]; [reflexivity|]. cbn [map concat app]. rewrite app_length.
  exact (take_n_app _ _ _ _ _ _ _ (take_group (gs ++ gs2) g F N) IH).
Qed.

Lemma F2_len {A B} (R : A -> B -> Prop) l m : Forall2 R l m -> length l = length m.
Proof. induction 1; cbn; congruence. Qed.
Definition cells (r : Reader) : list cell := concat (map (@concat cell) (rd_left r)).

Lemma merge_col_spec streams tags : (forall s, In s tags -> In s streams) ->
  forall rs (out : nat -> list cell) (rs2 : Readers),
  (forall s, match rs s with
             | Some r => exists r2, take_n (cnt tags s) r = Ok (out s, r2) /\ rs2 s = Some r2
             | None => out s = repeat None (cnt tags s) /\ rs2 s = None
             end) ->
  exists CL rs', merge_col (map Some tags) streams rs = Ok (map snd CL, rs')
    /\ map fst CL = tags /\ forall s, proj s CL = out s /\ rs' s = rs2 s.
Proof.
  intros HI. induction tags as [|t tags IH]; intros rs out rs2 H.
  - exists [], rs. split; [reflexivity|]. split; [reflexivity|]. intros s. specialize (H s). cbn in *.
    destruct (rs s) as [r|]; [destruct H as (r2 & H1 & H2); injection H1 as <- <-; now rewrite H2|].
    destruct H as [H1 H2]. now rewrite H1, H2.
  - cbn [map merge_col].
    assert (EX : existsb (Nat.eqb t) streams = true).
    { apply existsb_exists. exists t. split; [apply HI; now left|apply Nat.eqb_refl]. }
    rewrite EX. pose proof (H t) as Ht.
    assert (CT : cnt (t :: tags) t = S (cnt tags t)) by (unfold cnt; cbn; now rewrite Nat.eqb_refl).
    assert (CN : forall s, s <> t -> cnt (t :: tags) s = cnt tags s).
    { intros s N. unfold cnt. cbn. destruct (Nat.eqb_spec t s); [congruence|reflexivity]. }
    rewrite CT in Ht. destruct (rs t) as [r|] eqn:ER.
    + destruct Ht as (r2 & E & E2). cbn in E. destruct (take_cell r) as [[c r']|]; [|discriminate].
      destruct (take_n (cnt tags t) r') as [[cs r'']|] eqn:E3; [|discriminate]. injection E as E <-.
      destruct (IH (fun s Hs => HI s (or_intror Hs)) (set_reader t r' rs) (fun s => if Nat.eqb s t then cs else out s) rs2) as (CL & rs' & M1 & M2 & M3).
      { intros s. unfold set_reader. destruct (Nat.eqb_spec s t) as [->|N].
        - exists r''. split; [exact E3|exact E2].
        - specialize (H s). now rewrite (CN s N) in H. }
      rewrite M1. exists ((t, c) :: CL), rs'. split; [reflexivity|]. split; [cbn; now rewrite M2|].
      intros s. destruct (M3 s) as [M4 M5]. split; [|exact M5]. unfold proj in *. cbn [filter fst].
      destruct (Nat.eqb_spec s t) as [Es|N]; destruct (Nat.eqb_spec t s) as [Es'|N']; try congruence; cbn [map snd]; rewrite M4; congruence.
    + destruct Ht as [E E2].
      destruct (IH (fun s Hs => HI s (or_intror Hs)) rs (fun s => if Nat.eqb s t then repeat None (cnt tags t) else out s) rs2) as (CL & rs' & M1 & M2 & M3).
      { intros s. destruct (Nat.eqb_spec s t) as [->|N]; [rewrite ER; auto|]. specialize (H s). now rewrite (CN s N) in H. }
      rewrite M1. exists ((t, None) :: CL), rs'. split; [reflexivity|]. split; [cbn; now rewrite M2|].
      intros s. destruct (M3 s) as [M4 M5]. split; [|exact M5]. unfold proj in *. cbn [filter fst].
      destruct (Nat.eqb_spec s t) as [Es|N]; destruct (Nat.eqb_spec t s) as [Es'|N']; try congruence; cbn [map snd]; rewrite M4; try reflexivity.
      rewrite Es, E. reflexivity.
Qed.
Lemma merge_col_app streams a b : forall rs, merge_col (a ++ b) streams rs =
  match merge_col a streams rs with
  | Err e => Err e
  | Ok (c1, rs1) => match merge_col b streams rs1 with Ok (c2, rs2) => Ok (c1 ++ c2, rs2) | Err e => Err e end
  end.
Proof.
  induction a as [|[s|] a IH]; intros rs; cbn [app merge_col].
  - destruct (merge_col b streams rs) as [[? ?]|]; reflexivity.
  - destruct (if existsb (Nat.eqb s) streams then rs s else None) as [r|].
    + destruct (take_cell r) as [[c r']|]; [|reflexivity]. rewrite IH.
      destruct (merge_col a streams (set_reader s r' rs)) as [[? rs1]|]; [|reflexivity].
      destruct (merge_col b streams rs1) as [[? ?]|]; reflexivity.
    + rewrite IH. destruct (merge_col a streams rs) as [[? rs1]|]; [|reflexivity].
      destruct (merge_col b streams rs1) as [[? ?]|]; reflexivity.
  - apply IH.
Qed.
Lemma chunks_col_merge streams ms orders : Forall2 (fun m o => m_order m = Reordered o streams) ms orders ->
  forall rs, chunks_col ms rs = merge_col (concat orders) streams rs.
Proof.
  induction 1 as [|m o ms orders E F IH]; intros rs; [reflexivity|]. cbn. rewrite merge_col_app. unfold chunk_col. rewrite E.
  destruct (merge_col o streams rs) as [[c1 rs1]|]; [|reflexivity]. now rewrite IH.
Qed.
Lemma chunks_col_app a b : forall rs, chunks_col (a ++ b) rs =
  match chunks_col a rs with
  | Err e => Err e
  | Ok (c1, rs1) => match chunks_col b rs1 with Ok (c2, rs2) => Ok (c1 ++ c2, rs2) | Err e => Err e end
  end.
Proof.
  induction a as [|m a IH]; intros rs; cbn.
  - destruct (chunks_col b rs) as [[? ?]|]; reflexivity.
  - destruct (chunk_col m rs) as [[c1 rs1]|]; [|reflexivity]. rewrite IH.
    destruct (chunks_col a rs1) as [[c2 rs2]|]; [|reflexivity].
    destruct (chunks_col b rs2) as [[c3 rs3]|]; [|reflexivity]. now rewrite app_assoc.
Qed.

Section Data.
Variable mo : MOpts.
Hypothesis IC : mo_ic mo <> 0.
Notation ic := (mo_ic mo).
Notation minec := (mine ch_stream).

(** The readers of a column stand at the row groups of the chunks that are left. *)
Definition group_of (g : list Page) (c : Chunk) : Prop :=
  Forall (fun p => p <> []) g /\ length (concat g) = length (ch_keys c) /\ concat g <> [].
Definition aligned (rs : Readers) (P : nat -> list Chunk) : Prop :=
  forall s r, rs s = Some r -> rd_buf r = [] /\ rd_tmp r = None /\ Forall2 group_of (rd_left r) (P s).
(** The column cells [CL] were taken out of [rs], leaving [rs']. *)
Definition took (rs rs' : Readers) (CL : list (nat * cell)) : Prop :=
  forall s, match rs s with
            | Some r => exists r', rs' s = Some r' /\ cells r = proj s CL ++ cells r'
            | None => rs' s = None /\ proj s CL = repeat None (length (proj s CL))
            end.

Lemma groups_len gs cs : Forall2 group_of gs cs -> length (concat (map (@concat cell) gs)) = length (keys_of cs).
Proof.
  induction 1 as [|g c gs cs (G1 & G2 & G3) F IH]; [reflexivity|]. unfold keys_of in *. cbn. rewrite !app_length. congruence.
Qed.
Lemma fst_tag {A} (s : nat) (l : list A) : map fst (map (pair s) l) = repeat s (length l).
Proof. induction l as [|x l IH]; cbn; [reflexivity|]. now rewrite IH. Qed.

Lemma batch_col ms q L rs P P' : batch mo ms q L -> aligned rs P -> (forall s, P s = minec s q ++ P' s) ->
  exists CL rs', chunks_col ms rs = Ok (map snd CL, rs') /\ map fst CL = map fst L /\ aligned rs' P' /\ took rs rs' CL.
Proof.
  intros B AL PE. destruct B as [c W|ms q L orders O C W K PJ].
  - set (t := ch_stream c).
    assert (Pt : P t = c :: P' t). { rewrite PE. unfold mine. cbn. unfold t. now rewrite Nat.eqb_refl. }
    assert (Pn : forall s, s <> t -> P s = P' s).
    { intros s N. rewrite PE. unfold mine. cbn. fold t. destruct (Nat.eqb_spec t s); [congruence|reflexivity]. }
    cbn [chunks_col chunk_col m_order]. unfold chunk_col. cbn [m_order]. fold t. destruct (rs t) as [r|] eqn:ER.
    + destruct (AL t r ER) as (A1 & A2 & A3). rewrite Pt in A3. inversion A3 as [|g c' gs cs (G1 & G2 & G3) A4 EL EC]; subst c' cs.
      unfold next_chunk. rewrite <- EL. exists (map (pair t) (concat g)), (set_reader t (mkReader gs [] (rd_tmp r)) rs).
      rewrite map_map, map_id, app_nil_r. split; [reflexivity|]. split; [now rewrite !fst_tag, G2|]. split.
      * intros s r0. unfold set_reader. destruct (Nat.eqb_spec s t) as [->|N].
        -- intros E. injection E as <-. cbn. auto.
        -- intros E. rewrite <- (Pn s N). now apply AL.
      * intros s. unfold set_reader. rewrite proj_tag. destruct (Nat.eqb_spec s t) as [Es|N]; destruct (Nat.eqb_spec t s) as [Es'|N']; try congruence.
        -- rewrite Es, ER. eexists. split; [reflexivity|]. unfold cells. rewrite <- EL. reflexivity.
        -- destruct (rs s) as [r0|]; [exists r0; auto|auto].
    + exists (map (pair t) (repeat None (length (ch_keys c)))), rs. rewrite map_map, map_id, app_nil_r. split; [reflexivity|].
      split; [now rewrite !fst_tag, repeat_length|]. split.
      * intros s r0 E. assert (N : s <> t) by congruence. rewrite <- (Pn s N). now apply AL.
      * intros s. rewrite proj_tag. destruct (Nat.eqb_spec t s) as [<-|N].
        -- rewrite ER, repeat_length. auto.
        -- destruct (rs s) as [r0|]; [exists r0; auto|auto].
  - rewrite (chunks_col_merge _ _ _ O), C.
    assert (EM : map (fun r : nat * list Z => Some (fst r)) L = map Some (map fst L)) by now rewrite map_map.
    rewrite EM.
    assert (SP : forall s r, rs s = Some r -> exists gs1 gs2, rd_left r = gs1 ++ gs2 /\ Forall2 group_of gs1 (minec s q)
                 /\ Forall2 group_of gs2 (P' s)).
    { intros s r E. destruct (AL s r E) as (_ & _ & A3). rewrite PE in A3. apply Forall2_app_inv_r in A3 as (g1 & g2 & F1 & F2 & E'). eauto. }
    assert (OUT : exists (out : nat -> list cell) (rs2 : Readers), forall s, match rs s with
             | Some r => exists gs1 gs2, rd_left r = gs1 ++ gs2 /\ Forall2 group_of gs1 (minec s q) /\ Forall2 group_of gs2 (P' s)
                         /\ out s = concat (map (@concat cell) gs1) /\ rs2 s = Some (mkReader gs2 [] None)
             | None => out s = repeat None (cnt (map fst L) s) /\ rs2 s = None end).
    { exists (fun s => match rs s with Some r => firstn (length (keys_of (minec s q))) (cells r) | None => repeat None (cnt (map fst L) s) end).
      exists (fun s => match rs s with Some r => Some (mkReader (skipn (length (minec s q)) (rd_left r)) [] None) | None => None end).
      intros s. destruct (rs s) as [r|] eqn:ER; [|auto]. destruct (SP s r ER) as (gs1 & gs2 & E & F1 & F2).
      exists gs1, gs2. split; [exact E|]. split; [exact F1|]. split; [exact F2|]. unfold cells. rewrite E.
      rewrite <- (groups_len _ _ F1), <- (F2_len _ _ _ F1). rewrite map_app, concat_app, firstn_app, firstn_all, Nat.sub_diag.
      rewrite skipn_app, skipn_all, Nat.sub_diag. cbn. now rewrite app_nil_r. }
    destruct OUT as (out & rs2 & HO).
    destruct (merge_col_spec (map ch_stream q) (map fst L)) with (rs := rs) (out := out) (rs2 := rs2) as (CL & rs' & M1 & M2 & M3).
    + intros s Hs. apply in_map_iff in Hs as ([t k] & E & Hp). cbn in E. subst t. apply in_proj in Hp. rewrite PJ in Hp.
      unfold keys_of in Hp. apply in_concat in Hp as (ks & Hks & _). apply in_map_iff in Hks as (c & _ & Hc).
      unfold mine in Hc. apply filter_In in Hc as [Hc Ec]. apply Nat.eqb_eq in Ec. apply in_map_iff. eauto.
    + intros s. specialize (HO s). destruct (rs s) as [r|] eqn:ER; [|exact HO].
      destruct HO as (gs1 & gs2 & E & F1 & F2 & Eo & E2). destruct (AL s r ER) as (A1 & A2 & _).
      exists (mkReader gs2 [] None). split; [|exact E2]. rewrite Eo, <- proj_len, PJ, <- (groups_len _ _ F1).
      destruct r as [left buf tmp]. cbn in *. subst. apply take_groups.
      clear -F1. induction F1 as [|g c gs cs (G1 & G2 & G3) F IH]; constructor; auto.
    + exists CL, rs'. split; [exact M1|]. split; [exact M2|]. split.
      * intros s r E. destruct (M3 s) as [_ M5]. rewrite M5 in E. specialize (HO s). destruct (rs s) as [r0|].
        -- destruct HO as (gs1 & gs2 & _ & _ & F2 & _ & E2). rewrite E2 in E. injection E as <-. cbn. auto.
        -- destruct HO as [_ E2]. congruence.
      * intros s. destruct (M3 s) as [M4 M5]. rewrite M5, M4. specialize (HO s). destruct (rs s) as [r0|].
        -- destruct HO as (gs1 & gs2 & EL & F1 & F2 & Eo & E2). eexists. split; [exact E2|]. unfold cells. cbn [rd_left].
           now rewrite EL, Eo, map_app, concat_app.
        -- destruct HO as [Eo E2]. split; [exact E2|]. now rewrite Eo, repeat_length.
Qed.

Lemma took_app rs rs1 rs2 a b : took rs rs1 a -> took rs1 rs2 b -> took rs rs2 (a ++ b).
Proof.
  intros A B s. specialize (A s). specialize (B s). destruct (rs s) as [r|].
  - destruct A as (r1 & E1 & C1). rewrite E1 in B. destruct B as (r2 & E2 & C2). exists r2. split; [exact E2|].
    now rewrite proj_app, <- app_assoc, <- C2.
  - destruct A as [E1 C1]. rewrite E1 in B. destruct B as [E2 C2]. split; [exact E2|].
    rewrite proj_app, app_length, repeat_app. congruence.
Qed.
Lemma took_nil rs : took rs rs [].
Proof. intros s. destruct (rs s) as [r|]; [exists r; auto|auto]. Qed.

Lemma batches_col ms q L : batches mo ms q L -> forall rs P P', aligned rs P -> (forall s, P s = minec s q ++ P' s) ->
  exists CL rs', chunks_col ms rs = Ok (map snd CL, rs') /\ map fst CL = map fst L /\ aligned rs' P' /\ took rs rs' CL.
Proof.
  induction 1 as [|m1 q1 L1 m2 q2 L2 B BS IH]; intros rs P P' AL PE.
  - exists [], rs. split; [reflexivity|]. split; [reflexivity|]. split; [|apply took_nil].
    intros s r E. rewrite <- (PE s : P s = P' s). now apply AL.
  - destruct (batch_col m1 q1 L1 rs P (fun s => minec s q2 ++ P' s) B AL) as (C1 & rs1 & E1 & F1 & A1 & T1).
    { intros s. rewrite PE. unfold mine. now rewrite filter_app, app_assoc. }
    destruct (IH rs1 _ P' A1 (fun s => eq_refl)) as (C2 & rs2 & E2 & F2 & A2 & T2).
    exists (C1 ++ C2), rs2. rewrite chunks_col_app, E1, E2, !map_app. split; [reflexivity|]. split; [congruence|].
    split; [exact A2|]. exact (took_app _ _ _ _ _ T1 T2).
Qed.

(** All columns. *)
Lemma batches_cols ms q L P P' : batches mo ms q L -> (forall s, P s = minec s q ++ P' s) ->
  forall cols, Forall (fun rs => aligned rs P) cols ->
  exists CLs cols', data_cols ms cols = Ok (map (map snd) CLs, cols')
    /\ Forall (fun CL => map fst CL = map fst L) CLs
    /\ Forall (fun rs => aligned rs P') cols'
    /\ length CLs = length cols /\ length cols' = length cols
    /\ forall j rs, nth_error cols j = Some rs ->
         exists CL rs', nth_error CLs j = Some CL /\ nth_error cols' j = Some rs' /\ took rs rs' CL.
Proof.
  intros BS PE. induction 1 as [|rs cols A F IH].
  - exists [], []. cbn. repeat split; auto. intros [|j]; discriminate.
  - destruct IH as (CLs & cols' & E & F1 & F2 & L1 & L2 & N). destruct (batches_col ms q L BS rs P P' A PE) as (CL & rs' & E1 & E2 & A' & T).
    exists (CL :: CLs), (rs' :: cols'). cbn. rewrite E1, E. split; [reflexivity|]. split; [constructor; auto|].
    split; [constructor; auto|]. split; [congruence|]. split; [congruence|].
    intros [|j] rs0 H; cbn in *; [|now apply N]. injection H as <-. eauto.
Qed.
End Data.
