(** Facts about backup and restore. *)
From Coq Require Import List NArith ZArith Bool Lia Permutation.
From Verif Require Import Bytes BytesFacts Value Log LogFacts AMap Memtable Table MdCodec Backup ListFacts.
Import ListNotations.
Local Open Scope N_scope.

Lemma read_exact_app a b : read_exact (length a) (a ++ b) = Some (a, b).
Proof.
  unfold read_exact. rewrite app_length. destruct (Nat.ltb_spec (length a + length b) (length a)); [lia|].
  now rewrite firstn_app_exact, skipn_app_exact.
Qed.
Lemma read_exact_le8 n b : read_exact 8 (le_bytes 8 n ++ b) = Some (le_bytes 8 n, b).
Proof. exact (read_exact_app (le_bytes 8 n) b). Qed.
Lemma copy_take_app a b : copy_take (length a) (a ++ b) = (a, b).
Proof. unfold copy_take. now rewrite firstn_app_exact, skipn_app_exact. Qed.

Definition pkey (lp : nat * FullPart) : nat * N := (fst lp, fp_id (snd lp)).

Lemma restore_parts_spec lps : forall d bs rest,
  Forall2 (fun lp b => N.of_nat (length b) = fp_size (snd lp)) lps bs ->
  NoDup (map pkey lps) ->
  exists parts', restore_parts d (concat bs ++ rest) lps = (mkTd (td_md d) (td_logs d) (td_levels d) parts', rest)
    /\ Forall2 (fun lp b => aget pid_dec (pkey lp) parts' = Some b) lps bs
    /\ (forall k, ~ In k (map pkey lps) -> aget pid_dec k parts' = aget pid_dec k (td_parts d)).
Proof.
  induction lps as [|[l p] lps IH]; intros d bs rest F ND; inversion F as [|? b ? bs' Hb F']; subst.
  - exists (td_parts d). destruct d; cbn. repeat split; constructor.
  - cbn [restore_parts concat]. rewrite <- app_assoc. cbn in Hb. rewrite <- Hb, Nat2N.id, copy_take_app.
    cbn in ND. inversion ND as [|? ? Nin ND']; subst.
    destruct (IH (mkTd (td_md d) (td_logs d) (td_levels d) (aset pid_dec (l, fp_id p) b (td_parts d))) bs' rest F' ND')
      as (parts' & E & A & B).
    exists parts'. cbn [td_md td_logs td_levels td_parts] in *. split; [exact E|]. split.
    + constructor; [|exact A]. rewrite B by exact Nin. unfold pkey. cbn [fst snd]. apply aget_aset_eq.
    + intros k Hk. cbn in Hk. rewrite B by tauto. apply aget_aset_ne. intros ->. apply Hk. now left.
Qed.

(** Source database between operations: log and part files of every open table exist, part
    files have the recorded size, and the memtable is what replaying the log gives. *)
Definition table_files (db : Db) (t : OpenTable) (log : list N) (bs : list (list N)) : Prop :=
  exists d, aget name_dec (ot_name t) (db_dirs db) = Some d /\
    aget N.eq_dec (fm_log_id (ot_md t)) (td_logs d) = Some log /\
    Forall2 (fun lp b => aget pid_dec (pkey lp) (td_parts d) = Some b) (parts_of (ot_md t)) bs.
Definition table_ready (db : Db) (t : OpenTable) : Prop :=
  exists log bs ops, table_files db t log bs /\
    N.of_nat (length log) < 2 ^ 64 /\
    Forall2 (fun lp b => N.of_nat (length b) = fp_size (snd lp)) (parts_of (ot_md t)) bs /\
    NoDup (map pkey (parts_of (ot_md t))) /\
    recover_log hash_crc32 log = Ok ops /\
    replay (fold_left mt_add_column (map ff_dt (fm_schema (ot_md t))) mt_new) ops = Some (ot_mem t).
Definition quiescent (db : Db) : Prop :=
  NoDup (map ot_name (db_tables db)) /\ Forall (table_ready db) (db_tables db).
(** Every table directory belongs to an open table. *)
Definition all_open (db : Db) : Prop :=
  forall n, In n (akeys (db_dirs db)) -> In n (map ot_name (db_tables db)).

Lemma seqR_ok {A} (l : list (result fault A)) r : seqR l = Ok r <-> l = map Ok r.
Proof.
  revert r. induction l as [|[a|e] l IH]; intros r; cbn.
  - split; [intros H; inversion H; reflexivity|]. destruct r; [reflexivity|discriminate].
  - destruct (seqR l) as [s|e]; split; intros H.
    + inversion H; subst. cbn. f_equal. now apply IH.
    + destruct r as [|b r]; [discriminate|]. inversion H; subst. f_equal.
      destruct (IH r) as [_ IH2]. specialize (IH2 eq_refl). congruence.
    + discriminate.
    + destruct r as [|b r]; [discriminate|]. inversion H; subst.
      destruct (IH r) as [_ IH2]. specialize (IH2 eq_refl). discriminate.
  - split; [discriminate|]. destruct r; discriminate.
Qed.

Lemma truncate_nil db : all_open db -> truncate db = [].
Proof.
  unfold all_open, truncate. generalize (db_dirs db) as dirs. induction (db_tables db) as [|t ts IH]; intros dirs H.
  - cbn. destruct dirs as [|[n d] dirs]; [reflexivity|]. exfalso. apply (H n). now left.
  - cbn. apply IH. intros n Hn. rewrite akeys_adel in Hn. apply in_remove in Hn as [Hn Ne].
    destruct (H n Hn) as [<-|J]; [contradiction|exact J].
Qed.

Definition stream_of (log : list N) (bs : list (list N)) : list N :=
  le_bytes 8 (N.of_nat (length log)) ++ log ++ concat bs.

Lemma backup_table_ok db t log bs : table_files db t log bs -> backup_table db t = Ok (stream_of log bs).
Proof.
  intros (d & D & L & P). unfold backup_table. rewrite D, L.
  replace (seqR (map (backup_part d) (parts_of (ot_md t)))) with (@Ok fault _ bs); [reflexivity|].
  symmetry. apply seqR_ok. induction P as [|[l p] b lps bs' Hb P IH]; cbn; [reflexivity|].
  unfold backup_part at 1. cbn [fst snd]. unfold pkey in Hb. cbn [fst snd] in Hb. rewrite Hb. now rewrite IH.
Qed.

Definition restored_dir (t : OpenTable) (log : list N) (bs : list (list N)) (d : TableDir) : Prop :=
  td_md d = Some (restored_md backup_version (ot_md t)) /\ td_logs d = [(0, log)] /\
  Forall2 (fun lp b => aget pid_dec (pkey lp) (td_parts d) = Some b) (parts_of (ot_md t)) bs.

Lemma adel_absent {K V} (dec : forall a b : K, {a = b} + {a <> b}) k (m : list (K * V)) :
  ~ In k (akeys m) -> adel dec k m = m.
Proof.
  induction m as [|[k' v] m IH]; intros H; [reflexivity|]. cbn in *.
  destruct (dec k k') as [->|]; [tauto|]. f_equal. apply IH. tauto.
Qed.

Lemma restore_table_ok dirs rest t log bs :
  ~ In (ot_name t) (akeys dirs) -> N.of_nat (length log) < 2 ^ 64 ->
  Forall2 (fun lp b => N.of_nat (length b) = fp_size (snd lp)) (parts_of (ot_md t)) bs ->
  NoDup (map pkey (parts_of (ot_md t))) ->
  exists d, restore_table backup_version dirs (stream_of log bs ++ rest) (ot_name t, ot_md t)
    = ((ot_name t, d) :: dirs, Ok rest) /\ restored_dir t log bs d.
Proof.
  intros Nin Ll F ND. unfold restore_table, stream_of, dir_of.
  rewrite (proj1 (aget_None name_dec _ _) Nin). rewrite <- !app_assoc, read_exact_le8.
  rewrite of_le_le_bytes. change (256 ^ N.of_nat 8) with (2 ^ 64). rewrite N.mod_small by exact Ll.
  rewrite Nat2N.id, copy_take_app. cbn [td_levels empty_td td_md td_logs td_parts].
  destruct (restore_parts_spec (parts_of (ot_md t)) (mkTd (Some (restored_md backup_version (ot_md t)))
    (aset N.eq_dec 0 log []) true []) bs rest F ND) as (parts' & E & A & _).
  rewrite E. eexists. split; [unfold aset at 1; rewrite (adel_absent name_dec _ dirs) by exact Nin; reflexivity|].
  split; [reflexivity|]. split; [reflexivity|exact A].
Qed.

(** All tables. *)
Lemma restore_tables_ok ts : forall dirs rest files,
  Forall2 (fun t lb => N.of_nat (length (fst lb)) < 2 ^ 64 /\
     Forall2 (fun lp b => N.of_nat (length b) = fp_size (snd lp)) (parts_of (ot_md t)) (snd lb) /\
     NoDup (map pkey (parts_of (ot_md t)))) ts files ->
  NoDup (map ot_name ts) -> (forall n, In n (map ot_name ts) -> ~ In n (akeys dirs)) ->
  exists ds, restore_tables backup_version dirs (concat (map (fun lb => stream_of (fst lb) (snd lb)) files) ++ rest)
               (map (fun t => (ot_name t, ot_md t)) ts)
             = (rev (combine (map ot_name ts) ds) ++ dirs, Ok rest)
    /\ Forall2 (fun tlb d => restored_dir (fst tlb) (fst (snd tlb)) (snd (snd tlb)) d) (combine ts files) ds
    /\ length ds = length ts.
Proof.
  induction ts as [|t ts IH]; intros dirs rest files F ND H; inversion F as [|? lb ? files' (F1 & F2 & F3) F']; subst.
  - exists []. cbn. repeat split; constructor.
  - cbn [map concat restore_tables]. rewrite <- app_assoc.
    inversion ND as [|? ? Nin ND']; subst.
    destruct (restore_table_ok dirs (concat (map (fun lb => stream_of (fst lb) (snd lb)) files') ++ rest)
      t (fst lb) (snd lb)) as (d & E & R); [apply H; now left|assumption|assumption|assumption|].
    rewrite E. destruct (IH ((ot_name t, d) :: dirs) rest files' F' ND') as (ds & E2 & R2 & L2).
    { intros n Hn. cbn. intros [<-|J]; [contradiction|]. revert J. apply H. now right. }
    rewrite E2. exists (d :: ds). cbn [combine map rev]. rewrite <- app_assoc. split; [reflexivity|].
    split; [constructor; assumption|cbn; now rewrite L2].
Qed.

Lemma open_restored t log bs ops d n :
  restored_dir t log bs d -> recover_log hash_crc32 log = Ok ops ->
  replay (fold_left mt_add_column (map ff_dt (fm_schema (ot_md t))) mt_new) ops = Some (ot_mem t) ->
  open_table (n, d) = Ok (mkOt n (restored_md backup_version (ot_md t)) (ot_mem t)).
Proof.
  intros (E1 & E2 & _) R P. unfold open_table. rewrite E1, E2. change (max_id (akeys [(0, log)])) with (Some 0). cbv iota beta.
  change (aget N.eq_dec 0 [(0, log)]) with (Some log). cbv iota beta.
  rewrite R. cbn [fm_schema restored_md] in *. now rewrite P.
Qed.

(** *** Cut streams.  Reading a proper prefix leaves a proper prefix, or fails. *)
Definition proper_prefix (a b : list N) : Prop := exists c, c <> [] /\ b = a ++ c.
Lemma prefix_app_cases a x y : proper_prefix a (x ++ y) ->
  (proper_prefix a x) \/ (exists a', a = x ++ a' /\ proper_prefix a' y).
Proof.
  revert a. induction x as [|h x IH]; intros a (c & C & E); cbn in E.
  - right. exists a. split; [reflexivity|]. exists c. auto.
  - destruct a as [|h' a].
    + left. exists (h :: x). split; [discriminate|reflexivity].
    + cbn in E. inversion E; subst h'. destruct (IH a) as [(c' & C' & E')|(a' & E' & P)].
      * exists c. auto.
      * left. exists c'. split; [exact C'|]. cbn. now rewrite E'.
      * right. exists a'. split; [cbn; now rewrite E'|exact P].
Qed.
Lemma read_exact_short a x : proper_prefix a x -> read_exact (length x) a = None.
Proof.
  intros (c & C & ->). unfold read_exact. rewrite app_length.
  destruct c; [congruence|]. cbn [length]. destruct (Nat.ltb_spec (length a) (length a + S (length c))); [reflexivity|lia].
Qed.
Lemma copy_take_prefix a x y : y <> [] -> proper_prefix a (x ++ y) ->
  exists b a', copy_take (length x) a = (b, a') /\ proper_prefix a' y.
Proof.
  intros Y P. destruct (prefix_app_cases _ _ _ P) as [(c & C & ->)|(a' & -> & Q)].
  - unfold copy_take. rewrite app_length. exists a, []. split.
    + f_equal; [apply firstn_all2; lia|apply skipn_all2; lia].
    + exists y. auto.
  - exists x, a'. split; [apply copy_take_app|exact Q].
Qed.
Lemma app_ne {A} (a b : list A) : b <> [] -> a ++ b <> [].
Proof. destruct a; cbn; [auto|discriminate]. Qed.

Lemma restore_parts_cut lps : forall d bs rest a,
  rest <> [] -> Forall2 (fun lp b => N.of_nat (length b) = fp_size (snd lp)) lps bs ->
  proper_prefix a (concat bs ++ rest) ->
  exists d' a', restore_parts d a lps = (d', a') /\ proper_prefix a' rest.
Proof.
  induction lps as [|[l p] lps IH]; intros d bs rest a R F P; inversion F as [|? b ? bs' Hb F']; subst.
  - cbn. eauto.
  - cbn [concat] in P. rewrite <- app_assoc in P. cbn in Hb.
    destruct (copy_take_prefix a b (concat bs' ++ rest)) as (b' & a' & E & P'); [now apply app_ne|exact P|].
    cbn [restore_parts]. rewrite <- Hb, Nat2N.id, E. eapply IH; eauto.
Qed.
Lemma restore_tables_cut v ts : forall dirs rest files a,
  rest <> [] ->
  Forall2 (fun t lb => N.of_nat (length (fst lb)) < 2 ^ 64 /\
     Forall2 (fun lp b => N.of_nat (length b) = fp_size (snd lp)) (parts_of (ot_md t)) (snd lb)) ts files ->
  proper_prefix a (concat (map (fun lb => stream_of (fst lb) (snd lb)) files) ++ rest) ->
  exists dirs' r, restore_tables v dirs a (map (fun t => (ot_name t, ot_md t)) ts) = (dirs', r)
    /\ match r with Err _ => True | Ok a' => proper_prefix a' rest end.
Proof.
  induction ts as [|t ts IH]; intros dirs rest files a R F P; inversion F as [|? lb ? files' (F1 & F2) F']; subst.
  - cbn in *. eauto.
  - cbn [map concat] in *. rewrite <- app_assoc in P. unfold stream_of at 1 in P. rewrite <- !app_assoc in P.
    cbn [restore_tables restore_table].
    set (tl := concat (map (fun lb => stream_of (fst lb) (snd lb)) files') ++ rest) in *.
    assert (T : tl <> []) by (now apply app_ne).
    destruct (prefix_app_cases _ _ _ P) as [Q|(a1 & -> & Q)].
    + apply read_exact_short in Q. rewrite le_bytes_length in Q. rewrite Q. do 2 eexists; split; [reflexivity|exact I].
    + rewrite read_exact_le8, of_le_le_bytes. change (256 ^ N.of_nat 8) with (2 ^ 64).
      rewrite N.mod_small by exact F1. rewrite Nat2N.id.
      destruct (copy_take_prefix a1 (fst lb) (concat (snd lb) ++ tl)) as (b' & a2 & E & P2);
        [now apply app_ne|exact Q|]. rewrite E.
      match goal with |- context [if ?c then _ else _] => destruct c; [do 2 eexists; split; [reflexivity|exact I]|] end.
      match goal with |- context [restore_parts ?d a2 ?l] =>
        destruct (restore_parts_cut l d (snd lb) tl a2 T F2 P2) as (d' & a3 & E3 & P3) end.
      rewrite E3. eapply IH; eauto.
Qed.
