(** C24: optimistic replace. *)
From Coq Require Import List NArith ZArith Bool String Lia.
From Verif Require Import Bytes Value ValueFacts Log LogFacts AMap Order Memtable MemtableFacts
  Table TableSpec Get GetFacts PropsTable PropsGet Cas.
Import ListNotations.

(** *** What the calls are about *)
(** Key columns (all but the version) and version of a row, given the number of key
    columns. *)
Definition key_part (ic : nat) (row : list Value) : list Value := firstn (ic - 1) row.
Definition version_at (ic : nat) (row : list Value) : option Z :=
  match nth_error row (ic - 1) with Some (VInt64 (Some c)) => Some c | _ => None end.
(** A call that read or replaced the key: seen from its arguments and its answer. *)
Definition about (ic : nat) (k : list Value) (o : COp) (r : CRes) : Prop :=
  match o, r with
  | CGet _, RGet (Ok (Some row)) => key_part ic row = k
  | CReplace vals, _ => key_part ic (map snd vals) = k
  | CTableOp ORestart, _ => True
  | _, _ => False
  end.
Definition is_get (o : COp) : bool := match o with CGet _ => true | _ => false end.

Section Oracles.
Variable groups : PartFile -> list (list Row).
Variable lexsort : list (list cell) -> list nat.
Notation ic_of s := (o_index_cols (md_opts (t_md (ct s)))).

(** *** The cache *)
Definition keyed (m : Cache) : Prop := NoDup (akeys m) /\ List.length m <= capacity.
(** Entry of [k] with at most [n] entries in front of it. *)
Definition within (k : list Value) (c : Z) (n : nat) (m : Cache) : Prop :=
  exists a b, m = a ++ (k, c) :: b /\ ~ In k (akeys a) /\ List.length a <= n.

Lemma within_aget k c n m : within k c n m -> aget vkey_dec k m = Some c.
Proof.
  intros (a & b & -> & H & _). induction a as [|[k' c'] a IH]; cbn.
  - destruct (vkey_dec k k); congruence.
  - cbn in H. destruct (vkey_dec k k') as [->|]; [tauto|]. apply IH. tauto.
Qed.
Lemma within_adel k c n m k' : k' <> k -> within k c n m -> within k c n (adel vkey_dec k' m).
Proof.
  intros N (a & b & -> & H & L). exists (adel vkey_dec k' a), (adel vkey_dec k' b).
  assert (E : forall x y : Cache, adel vkey_dec k' (x ++ y) = adel vkey_dec k' x ++ adel vkey_dec k' y).
  { clear. induction x as [|[q d] x IH]; intros y; cbn; [reflexivity|]. destruct (vkey_dec k' q); [apply IH|]. cbn. now rewrite IH. }
  rewrite E. cbn [adel]. destruct (vkey_dec k' k); [congruence|]. split; [reflexivity|]. split.
  - intros X. apply H. clear - X. unfold akeys in *. induction a as [|[q d] a IH]; cbn in *; [exact X|].
    destruct (vkey_dec k' q); cbn in *; intuition.
  - clear - L. assert (G : List.length (adel vkey_dec k' a) <= List.length a).
    { induction a as [|[q d] a IH]; cbn; [lia|]. assert (List.length a <= n) by (cbn in L; lia). specialize (IH H).
      destruct (vkey_dec k' q); cbn; lia. }
    lia.
Qed.
Lemma within_put_other k c n m k' c' : k' <> k -> n < capacity - 1 -> within k c n m -> within k c (S n) (cache_put k' c' m).
Proof.
  intros N Hn W. unfold cache_put. destruct (aget vkey_dec k' m).
  - destruct (within_adel k c n m k' N W) as (a & b & E & H & L). exists ((k', c') :: a), b. rewrite E.
    split; [reflexivity|]. cbn. split; [intuition congruence|lia].
  - destruct W as (a & b & -> & H & L). exists ((k', c') :: a), (firstn (capacity - 1 - S (List.length a)) b).
    rewrite firstn_app. rewrite firstn_all2 by (unfold capacity in *; lia).
    replace (capacity - 1 - List.length a) with (S (capacity - 1 - S (List.length a))) by (unfold capacity in *; lia).
    cbn [firstn app]. split; [reflexivity|]. cbn. split; [intuition congruence|lia].
Qed.
Lemma within_put k c m : within k c 0 (cache_put k c m).
Proof. unfold cache_put. destruct (aget vkey_dec k m); eexists [], _; split; try reflexivity; cbn; auto. Qed.
Lemma within_mono k c n n' m : n <= n' -> within k c n m -> within k c n' m.
Proof. intros L (a & b & E & H & La). exists a, b. split; [exact E|]. split; [exact H|lia]. Qed.

(** *** Options do not change *)
Lemma flush_log_opts t : md_opts (t_md (fst (flush_log lexsort t))) = md_opts (t_md t).
Proof.
  unfold flush_log. destruct (level0_part lexsort (t_md t) (t_mem t)) as [[p pf]|]; [|reflexivity].
  destruct (apply_effects _ _) as [[d n] ok]. destruct n; [reflexivity|]. destruct ok; reflexivity.
Qed.
Lemma insert_opts t vals : md_opts (t_md (fst (insert lexsort t vals))) = md_opts (t_md t).
Proof.
  unfold insert. destruct (check_values _ _); [|reflexivity]. destruct (key_values _ _); [|reflexivity].
  destruct (push_values (t_mem t) 0 _) as [m1 []]; [|reflexivity].
  destruct (push_values m1 _ _) as [m2 []]; [|reflexivity].
  destruct (_ && _)%bool; [|reflexivity]. apply (flush_log_opts (mkTable _ _ _ _ _)).
Qed.
(** The options recorded on disk are those in memory. *)
Definition same_opts (t : Table) : Prop := forall md, d_md (t_disk t) = Some md -> md_opts md = md_opts (t_md t).

Lemma apply_effects_md d es d' n ok :
  apply_effects d es = (d', n, ok) ->
  (exists md, In (WriteMd md) es /\ d_md d' = Some md) \/ d_md d' = d_md d.
Proof.
  revert d d' n ok; induction es as [|e es IH]; intros d d' n ok H; cbn in H; [injection H as <- <- <-; now right|].
  destruct (apply_effect d e) as [d1|] eqn:E; [|injection H as <- <- <-; now right].
  destruct (apply_effects d1 es) as [[d2 n2] ok2] eqn:E2. injection H as <- <- <-.
  destruct (IH _ _ _ _ E2) as [(md & Hin & Em)|Em]; [left; exists md; split; [now right|exact Em]|].
  destruct e as [l i pf|md|i|i]; cbn in E.
  - destruct (aget _ _ _); [discriminate|]. injection E as <-. right. exact Em.
  - injection E as <-. left. exists md. split; [now left|exact Em].
  - destruct (aget _ _ _); [|discriminate]. injection E as <-. right. exact Em.
  - destruct (aget _ _ _); [discriminate|]. injection E as <-. right. exact Em.
Qed.
Lemma flush_log_same t : same_opts t -> same_opts (fst (flush_log lexsort t)).
Proof.
  intros H md. rewrite flush_log_opts. unfold flush_log.
  destruct (level0_part lexsort (t_md t) (t_mem t)) as [[p pf]|]; [|exact (H md)].
  destruct (apply_effects _ _) as [[d n] ok] eqn:E.
  assert (G : d_md d = Some md -> md_opts md = md_opts (t_md t)).
  { destruct (apply_effects_md _ _ _ _ _ E) as [(md' & Hin & Em)|Em]; rewrite Em; [|exact (H md)].
    intros X. injection X as ->. cbn in Hin. destruct Hin as [Hin|[Hin|[Hin|[Hin|[]]]]]; try discriminate.
    injection Hin as <-. reflexivity. }
  destruct n; [exact G|]. destruct ok; exact G.
Qed.
Lemma insert_same t vals : same_opts t -> same_opts (fst (insert lexsort t vals)).
Proof.
  intros H. unfold insert. destruct (check_values _ _); [|exact H]. destruct (key_values _ _); [|exact H].
  assert (G : forall rec, d_md (append_log (t_disk t) (t_log t) rec) = d_md (t_disk t)).
  { intros rec. unfold append_log. destruct (aget _ _ _); reflexivity. }
  destruct (push_values (t_mem t) 0 _) as [m1 []]; [|intros md; cbn; rewrite G; exact (H md)].
  destruct (push_values m1 _ _) as [m2 []]; [|intros md; cbn; rewrite G; exact (H md)].
  destruct (_ && _)%bool; [apply flush_log_same|]; intros md; cbn; rewrite G; exact (H md).
Qed.
Lemma step_same t o t' r : same_opts t -> step lexsort t o = (Some t', r) ->
  same_opts t' /\ md_opts (t_md t') = md_opts (t_md t).
Proof.
  intros H. destruct o as [vals| |f| |]; cbn [step].
  - pose proof (insert_same t vals H). pose proof (insert_opts t vals). destruct (insert lexsort t vals). intros E. injection E as <- <-. auto.
  - unfold flush. destruct (Nat.eqb _ _); [intros E; injection E as <- <-; auto|].
    pose proof (flush_log_same t H). pose proof (flush_log_opts t). destruct (flush_log lexsort t). intros E. injection E as <- <-. auto.
  - unfold add_field. destruct (existsb _ _); intros E; injection E as <- <-; [auto|]. split; [|reflexivity].
    intros md Em. cbn in Em. injection Em as <-. reflexivity.
  - intros E. injection E as <- <-. split; [|reflexivity]. intros md Em. exact (H md Em).
  - destruct (reopen (t_disk t)) as [t1|] eqn:E; [|discriminate]. intros X. injection X as <- <-.
    unfold reopen in E. destruct (d_md (t_disk t)) as [md|] eqn:Em; [|discriminate].
    destruct (max_id _); [|discriminate]. destruct (aget _ _ _); [|discriminate].
    destruct (recover_log _ _); [|discriminate]. destruct (replay _ _); [|discriminate]. injection E as <-.
    split; [intros md' Em'|]; cbn in *; [congruence|]. now apply H.
Qed.
Lemma cstep_same s o s' r : same_opts (ct s) -> cstep groups lexsort s o = (Some s', r) ->
  same_opts (ct s') /\ ic_of s' = ic_of s.
Proof.
  intros H. destruct o as [key|vals|o]; cbn [cstep].
  - unfold get_cas. destruct (get groups (ct s) key) as [[row|]|]; cbn.
    + destruct (nth_error row _) as [[]|]; try (intros E; injection E as <- <-; now auto).
      destruct o; intros E; injection E as <- <-; auto.
    + intros E; injection E as <- <-; auto.
    + intros E; injection E as <- <-; auto.
  - unfold replace. destruct (nth_error vals _) as [[n []]|]; try (intros E; injection E as <- <-; now auto).
    destruct o; [|intros E; injection E as <- <-; now auto]. cbn [cache_pop].
    pose proof (insert_same (ct s) vals H) as A. pose proof (insert_opts (ct s) vals) as B.
    destruct (insert lexsort (ct s) vals) as [t' r'] eqn:Ei. cbn [fst] in *.
    destruct (aget _ _ _); [destruct (Z.eqb _ _)|]; intros E; injection E as <- <-; cbn; rewrite ?B; auto.
  - destruct (step lexsort (ct s) o) as [[t'|] x] eqn:E; [|discriminate]. intros X. injection X as <- <-.
    destruct (step_same _ _ _ _ H E) as [A B]. cbn. rewrite B. auto.
Qed.

(** *** An entry survives calls about other keys *)
Lemma cstep_within s o s' r k c n :
  cstep groups lexsort s o = (Some s', r) -> ~ about (ic_of s) k o r ->
  (is_get o = true -> n < capacity - 1) -> within k c n (cc s) ->
  within k c (if is_get o then S n else n) (cc s').
Proof.
  intros E N Hn W. destruct o as [key|vals|o]; cbn [cstep is_get] in *.
  - assert (W' : within k c (S n) (cc s)) by (eapply within_mono; [|exact W]; lia). specialize (Hn eq_refl).
    unfold get_cas in E. destruct (get groups (ct s) key) as [[row|]|]; cbn in E; try (injection E as <- <-; exact W').
    unfold about, key_part in N.
    destruct (nth_error row _) as [[]|]; try (injection E as <- <-; exact W').
    destruct o; try (injection E as <- <-; exact W'). injection E as <- <-. cbn [cc]. apply within_put_other; auto.
  - unfold replace in E. cbn [about] in N. unfold key_part in N. rewrite firstn_map in N.
    destruct (nth_error vals _) as [[nm []]|]; try (injection E as <- <-; exact W).
    destruct o; [|injection E as <- <-; exact W]. cbn [cache_pop] in E.
    destruct (insert lexsort (ct s) vals) as [t' r'].
    destruct (aget _ _ _); [destruct (Z.eqb _ _)|]; injection E as <- <-; cbn; apply within_adel; auto.
  - destruct (step lexsort (ct s) o) as [[t'|] x]; [|discriminate]. injection E as <- <-. cbn.
    destruct o; auto. exfalso. apply N. cbn. exact Logic.I.
Qed.

Lemma crun_within ops : forall s s' rs k c n,
  same_opts (ct s) -> crun groups lexsort s ops = Some (s', rs) ->
  Forall2 (fun o r => ~ about (ic_of s) k o r) ops rs ->
  n + List.length (filter is_get ops) < capacity -> within k c n (cc s) ->
  ic_of s' = ic_of s /\ aget vkey_dec k (cc s') = Some c.
Proof.
  induction ops as [|o ops IH]; intros s s' rs k c n SO R F L W; cbn [crun] in R.
  - injection R as <- <-. split; [reflexivity|]. eapply within_aget; exact W.
  - destruct (cstep groups lexsort s o) as [[s1|] r] eqn:E; [|discriminate].
    destruct (crun groups lexsort s1 ops) as [[s2 rs2]|] eqn:R2; [|discriminate]. injection R as <- <-.
    inversion F as [|? ? ? ? N F2]; subst. destruct (cstep_same _ _ _ _ SO E) as [SO1 Ei].
    cbn [filter] in L.
    assert (W1 : within k c (if is_get o then S n else n) (cc s1)).
    { eapply cstep_within; eauto. intros G. rewrite G in L. cbn [List.length] in L. unfold capacity in *. lia. }
    destruct (IH s1 s2 rs2 k c (if is_get o then S n else n) SO1 R2) as [A B]; auto.
    + rewrite Ei. exact F2.
    + destruct (is_get o); cbn [List.length] in L; lia.
    + rewrite A, Ei. auto.
Qed.

(** ** C24 *)
(** Full statement (refuted below): after [get_cas] a [replace] succeeds only with the
    version that was read, and a row changed in between is not replaced.  Proved: as long
    as fewer than ten further [get_cas] calls were made, none of the calls in between read
    or replaced the key and the table was not reopened, a [replace] with another version
    is refused without any effect on the table, and one with the version that was read
    behaves like an insert. *)
Theorem C24_replace_checks_version_partial :
  forall s key s1 row ops s2 rs vals k c,
  same_opts (ct s) ->
  get_cas groups s key = (s1, Ok (Some row)) -> k = key_part (ic_of s) row -> version_at (ic_of s) row = Some c ->
  crun groups lexsort s1 ops = Some (s2, rs) ->
  Forall2 (fun o r => ~ about (ic_of s) k o r) ops rs -> List.length (filter is_get ops) < 10 ->
  key_part (ic_of s) (map snd vals) = k ->
  forall c', version_at (ic_of s) (map snd vals) = Some c' ->
  (c' <> c -> snd (replace lexsort s2 vals) = Mismatch /\ ct (fst (replace lexsort s2 vals)) = ct s2) /\
  (c' = c -> snd (replace lexsort s2 vals) = Inserted (snd (insert lexsort (ct s2) vals))
             /\ ct (fst (replace lexsort s2 vals)) = fst (insert lexsort (ct s2) vals)).
Proof.
  intros s key s1 row ops s2 rs vals k c SO G Ek Ev R F L Kv c' Vc.
  assert (X : ct s1 = ct s /\ within k c 0 (cc s1)).
  { unfold get_cas in G. destruct (get groups (ct s) key) as [[row'|]|]; try discriminate.
    cbv zeta in G. unfold version_at in Ev. destruct (nth_error row' _) as [[]|] eqn:En; try discriminate.
    destruct o; [|discriminate]. injection G as <- <-. rewrite En in Ev. injection Ev as ->. cbn [ct cc].
    split; [reflexivity|]. subst k. apply within_put. }
  destruct X as [Ec W].
  destruct (crun_within ops s1 s2 rs k c 0) as [Ei Ea]; rewrite ?Ec; auto.
  rewrite Ec in Ei. unfold replace. cbv zeta. rewrite Ei. unfold version_at in Vc.
  rewrite nth_error_map in Vc. destruct (nth_error vals _) as [[nm v]|]; [|discriminate]. cbn in Vc.
  destruct v; try discriminate. destruct o; [|discriminate]. injection Vc as ->. cbn [cache_pop].
  unfold key_part in Kv. rewrite firstn_map in Kv. rewrite Kv, Ea.
  destruct (insert lexsort (ct s2) vals) as [t' r]. split.
  - intros N. destruct (Z.eqb_spec c c'); [congruence|]. auto.
  - intros ->. rewrite Z.eqb_refl. auto.
Qed.

(** After a refusal the same call is accepted. *)
Theorem C24_retry_accepted_refuted :
  forall s vals s1, replace lexsort s vals = (s1, Mismatch) -> NoDup (akeys (cc s)) ->
  ct s1 = ct s /\
  snd (replace lexsort s1 vals) = Inserted (snd (insert lexsort (ct s) vals))
  /\ ct (fst (replace lexsort s1 vals)) = fst (insert lexsort (ct s) vals).
Proof.
  intros s vals s1 H ND. unfold replace in H. cbv zeta in H.
  destruct (nth_error vals _) as [[nm v]|] eqn:En; [|discriminate]. destruct v; try discriminate. destruct o; [|discriminate].
  cbn [cache_pop] in H. destruct (insert lexsort (ct s) vals) as [t' r] eqn:Ei.
  destruct (aget _ _ _) as [c0|]; [|discriminate]. destruct (Z.eqb c0 z); [discriminate|]. injection H as <-. cbn [ct].
  split; [reflexivity|]. unfold replace. cbn [ct cc]. cbv zeta. rewrite En. cbn [cache_pop].
  rewrite aget_adel_eq, Ei. auto.
Qed.

(** Without a version in the cache (nothing read since the table was opened, the version
    replaced or pushed out by reads of other keys) any version is accepted. *)
Theorem C24_unread_accepted_refuted :
  forall s vals, aget vkey_dec (key_part (ic_of s) (map snd vals)) (cc s) = None ->
  (exists c, version_at (ic_of s) (map snd vals) = Some c) ->
  snd (replace lexsort s vals) = Inserted (snd (insert lexsort (ct s) vals))
  /\ ct (fst (replace lexsort s vals)) = fst (insert lexsort (ct s) vals).
Proof.
  intros s vals H [c V]. unfold replace. cbv zeta. unfold version_at in V. rewrite nth_error_map in V.
  destruct (nth_error vals _) as [[nm v]|]; [|discriminate]. cbn in V. destruct v; try discriminate. destruct o; [|discriminate].
  cbn [cache_pop]. unfold key_part in H. rewrite firstn_map in H. rewrite H.
  destruct (insert lexsort (ct s) vals); auto.
Qed.
End Oracles.
Print Assumptions C24_replace_checks_version_partial.
Print Assumptions C24_retry_accepted_refuted.
Print Assumptions C24_unread_accepted_refuted.

(** *** Concrete histories *)
Local Open Scope string_scope.
Definition fVer := mkField "t" DInt64 false.
Definition put (k t w : Z) : list NamedValue := [("k", VInt64 (Some k)); ("t", VInt64 (Some t)); ("w", VInt64 (Some w))].
Definition cas_table : CTable := mkC (table_with o_rep [fK; fVer; fW]) [].
Definition crun0 := crun one_group stable_lexsort.
Definition answers (ops : list COp) : option (list CRes) := option_map snd (crun0 cas_table ops).

Example C24_witness : exists s s1 row s2 rs,
  crun0 cas_table [CTableOp (OInsert (put 1 10 100))] = Some (s, [RTable (Ok tt)])
  /\ same_opts (ct s)
  /\ get_cas one_group s [KInt64 1%Z] = (s1, Ok (Some row))
  /\ version_at 2 row = Some 10%Z
  /\ crun0 s1 [CTableOp (OInsert (put 2 5 7)); CGet [KInt64 2%Z]; CTableOp OFlush] = Some (s2, rs)
  /\ Forall2 (fun o r => ~ about 2 (key_part 2 row) o r)
       [CTableOp (OInsert (put 2 5 7)); CGet [KInt64 2%Z]; CTableOp OFlush] rs
  /\ snd (replace stable_lexsort s2 (put 1 9 0)) = Mismatch
  /\ snd (replace stable_lexsort s2 (put 1 10 0)) = Inserted (Ok tt).
Proof.
  eexists _, _, _, _, _. split; [vm_compute; reflexivity|]. split; [intros md E; vm_compute in E; injection E as <-; reflexivity|].
  split; [vm_compute; reflexivity|]. split; [reflexivity|]. split; [vm_compute; reflexivity|].
  split; [repeat constructor; cbn; intros; auto; discriminate|]. split; vm_compute; reflexivity.
Qed.

(** A row changed between the read and the replace: the replace with the version that was
    read is accepted, and a lookup returns the older version. *)
Theorem C24_changed_in_between_refuted :
  exists s rs, crun0 cas_table [CTableOp (OInsert (put 1 10 100)); CGet [KInt64 1%Z];
       CTableOp (OInsert (put 1 11 200)); CReplace (put 1 10 300)] = Some (s, rs)
  /\ nth_error rs 3 = Some (RReplace (Inserted (Ok tt)))
  /\ get one_group (ct s) [KInt64 1%Z] = Ok (Some [VInt64 (Some 1); VInt64 (Some 10); VInt64 (Some 300)])%Z
  /\ scan_streams stable_lexsort (ct s) = Ok [[[Some (AInt 1); Some (AInt 10); Some (AInt 300)]; [Some (AInt 1); Some (AInt 11); Some (AInt 200)]]]%Z.
Proof. eexists _, _. split; [vm_compute; reflexivity|]. split; [reflexivity|]. split; vm_compute; reflexivity. Qed.
Print Assumptions C24_changed_in_between_refuted.

(** Ten reads of other rows make the store forget the version. *)
Definition many_rows : list COp := map (fun k => CTableOp (OInsert (put k 10 0))) [1;2;3;4;5;6;7;8;9;10;11]%Z.
Theorem C24_forgotten_refuted :
  answers (many_rows ++ [CGet [KInt64 1%Z]; CReplace (put 1 99 0)])%list
    = Some (map (fun _ => RTable (Ok tt)) many_rows
         ++ [RGet (Ok (Some [VInt64 (Some 1); VInt64 (Some 10); VInt64 (Some 0)]%Z)); RReplace Mismatch])%list
  /\ option_map (fun l => nth_error l 22)
       (answers (many_rows ++ map (fun k => CGet [KInt64 k]) [1;2;3;4;5;6;7;8;9;10;11]%Z ++ [CReplace (put 1 99 0)])%list)
     = Some (Some (RReplace (Inserted (Ok tt)))).
Proof. split; vm_compute; reflexivity. Qed.
Print Assumptions C24_forgotten_refuted.
