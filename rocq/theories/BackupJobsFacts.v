(** Facts about backup records and the scheduler. *)
From Coq Require Import List NArith ZArith String Bool Lia Permutation Sorted.
From Verif Require Import AMap Order Kv KvFacts KvKeys KvKeysFacts Settings BackupJobs BackupJobsSpec.
Import ListNotations.
Local Open Scope string_scope.

Definition seqkey : string := make_id_seq_key NS.
Lemma bkey_inj a b : bkey a = bkey b -> a = b.
Proof.
  unfold bkey, make_data_value_key, NS. intros E. cbn in E. apply dec_inj. congruence.
Qed.
Lemma bkey_seq a : bkey a <> seqkey.
Proof. unfold bkey, make_data_value_key, seqkey, make_id_seq_key, NS. discriminate. Qed.
Lemma bkey_prefix a : String.prefix (make_data_key NS) (bkey a) = true.
Proof. reflexivity. Qed.
Lemma seq_prefix : String.prefix (make_data_key NS) seqkey = false.
Proof. reflexivity. Qed.

(** ** The records are numbered 1..n. *)
Definition Inv (n : N) (db : Store) : Prop :=
  kwf db /\ kget seqkey db = (if (n =? 0)%N then None else Some (VNum n)) /\
  (forall id, (1 <= id <= n)%N -> exists b, kget (bkey id) db = Some (VRec b) /\ bk_id b = id) /\
  (forall k v, kget k db = Some v -> k = seqkey \/ exists id, (1 <= id <= n)%N /\ k = bkey id).
Lemma Inv_nil : Inv 0 [].
Proof.
  split; [apply kwf_nil|]. split; [reflexivity|]. split; [intros; lia|]. intros k v H. discriminate.
Qed.
Lemma get_ok n db id : Inv n db -> (1 <= id <= n)%N -> exists b, backup_get id db = Ok b /\ bk_id b = id.
Proof.
  intros (_ & _ & R & _) H. destruct (R id H) as (b & G & E). exists b. unfold backup_get. now rewrite G.
Qed.
Lemma get_range n db id b : Inv n db -> backup_get id db = Ok b -> (1 <= id <= n)%N /\ bk_id b = id /\ kget (bkey id) db = Some (VRec b).
Proof.
  intros (_ & _ & R & X) H. unfold backup_get in H. destruct (kget (bkey id) db) as [v|] eqn:G; [|discriminate].
  destruct (X _ _ G) as [E|(id' & L & E)]; [now apply bkey_seq in E|]. apply bkey_inj in E. subst id'.
  destruct (R id L) as (b' & G' & E'). rewrite G' in G. injection G as <-. injection H as <-. auto.
Qed.
Lemma list_In n db b : Inv n db -> In b (backups_list db) <-> backup_get (bk_id b) db = Ok b.
Proof.
  intros I. unfold backups_list. rewrite in_flat_map. split.
  - intros (v & Hv & Hb). destruct v as [m|x|b']; cbn in Hb; [contradiction|contradiction|].
    destruct Hb as [->|[]]. apply (list_prefix_In _ _ _ (proj1 I)) in Hv as (k & G & P).
    destruct I as (W & S1 & R & X). destruct (X _ _ G) as [->|(id & L & ->)].
    + rewrite seq_prefix in P. discriminate.
    + destruct (R id L) as (b' & G' & E). rewrite G' in G. injection G as ->. unfold backup_get. subst id. now rewrite G'.
  - intros G. destruct (get_range n db _ _ I G) as (_ & _ & K). exists (VRec b). split; [|now left].
    apply (list_prefix_In _ _ _ (proj1 I)). exists (bkey (bk_id b)). split; [exact K|apply bkey_prefix].
Qed.
Lemma get_update n db id s j : Inv n db ->
  backup_get j (update_status id s db) =
  match backup_get j db with
  | Ok b => Ok (if N.eqb j id then with_status s b else b)
  | Err e => Err e
  end.
Proof.
  intros I. unfold update_status. destruct (backup_get id db) as [b|e] eqn:G.
  - destruct (get_range _ _ _ _ I G) as (L & E & K). rewrite E. unfold backup_get at 1.
    destruct (N.eqb_spec j id) as [->|D].
    + rewrite kget_kput_eq. rewrite G. reflexivity.
    + rewrite kget_kput_ne by (intros X; apply bkey_inj in X; congruence).
      fold (backup_get j db). destruct (backup_get j db); reflexivity.
  - destruct (N.eqb_spec j id) as [->|D]; [now rewrite G|]. now destruct (backup_get j db).
Qed.
Lemma Inv_update n db id s : Inv n db -> Inv n (update_status id s db).
Proof.
  intros I. unfold update_status. destruct (backup_get id db) as [b|e] eqn:G; [|exact I].
  destruct (get_range _ _ _ _ I G) as (L & E & K). destruct I as (W & S1 & R & X). rewrite E.
  split; [now apply kwf_kput|]. split.
  { rewrite kget_kput_ne by (intros Y; symmetry in Y; now apply bkey_seq in Y). exact S1. }
  split.
  - intros j Hj. destruct (N.eq_dec j id) as [->|D].
    + exists (with_status s b). rewrite kget_kput_eq. auto.
    + destruct (R j Hj) as (b' & G' & E'). exists b'. rewrite kget_kput_ne; auto. intros Y. apply bkey_inj in Y. congruence.
  - intros k v H. destruct (String.eqb_spec k (bkey id)) as [->|D]; [right; eauto|].
    rewrite kget_kput_ne in H by assumption. eauto.
Qed.
Lemma create_cases n now p enc db : Inv n db ->
  (exists b, In b (backups_list db) /\ bk_status b = Idle) /\ backup_create now p enc db = (Err AlreadyExists, db) \/
  (forall b, In b (backups_list db) -> bk_status b <> Idle) /\
  exists db', backup_create now p enc db = (Ok (mkBackup (n + 1) now p Idle enc), db') /\ Inv (n + 1) db' /\
    forall j, backup_get j db' = if N.eqb j (n + 1) then Ok (mkBackup (n + 1) now p Idle enc) else backup_get j db.
Proof.
  intros I. unfold backup_create. destruct (existsb _ _) eqn:X.
  - left. apply existsb_exists in X as (b & Hb & E). split; [|reflexivity]. exists b. split; [exact Hb|]. now destruct (bk_status b).
  - right. split.
    { intros b Hb E. assert (F : existsb (fun b => is_idle (bk_status b)) (backups_list db) = true).
      { apply existsb_exists. exists b. rewrite E. auto. } congruence. }
    destruct I as (W & S1 & R & Y). fold seqkey. unfold next_seq, next_from. rewrite S1.
    assert (Q : forall db1, db1 = kput seqkey (VNum (n + 1)) db ->
      let b := mkBackup (n + 1) now p Idle enc in
      Inv (n + 1) (kput (bkey (n + 1)) (VRec b) db1) /\
      forall j, backup_get j (kput (bkey (n + 1)) (VRec b) db1) = if N.eqb j (n + 1) then Ok b else backup_get j db).
    { intros db1 -> b. split.
      - split; [apply kwf_kput, kwf_kput, W|]. split.
        { rewrite kget_kput_ne by (intros Z; symmetry in Z; now apply bkey_seq in Z). rewrite kget_kput_eq.
          destruct (N.eqb_spec (n + 1) 0); [lia|reflexivity]. }
        split.
        + intros id Hid. destruct (N.eq_dec id (n + 1)) as [->|D].
          * exists b. rewrite kget_kput_eq. auto.
          * destruct (R id) as (b' & G & E); [lia|]. exists b'.
            rewrite kget_kput_ne by (intros Z; apply bkey_inj in Z; congruence).
            rewrite kget_kput_ne by apply bkey_seq. auto.
        + intros k v H. destruct (String.eqb_spec k (bkey (n + 1))) as [->|D]; [right; exists (n + 1)%N; split; [lia|reflexivity]|].
          rewrite kget_kput_ne in H by assumption.
          destruct (String.eqb_spec k seqkey) as [->|D2]; [now left|]. rewrite kget_kput_ne in H by assumption.
          destruct (Y _ _ H) as [->|(id & L & ->)]; [now left|right; exists id; split; [lia|reflexivity]].
      - intros j. unfold backup_get at 1. destruct (N.eqb_spec j (n + 1)) as [->|D].
        + rewrite kget_kput_eq. reflexivity.
        + rewrite kget_kput_ne by (intros Z; apply bkey_inj in Z; congruence).
          rewrite kget_kput_ne by apply bkey_seq. reflexivity. }
    destruct (N.eqb_spec n 0) as [->|D].
    + specialize (Q (kput seqkey (VNum 1) db) eq_refl). cbn [N.add] in *. eexists. split; [reflexivity|]. exact Q.
    + cbn [read_num]. specialize (Q _ eq_refl). eexists. split; [reflexivity|]. exact Q.
Qed.

(** ** The last record listed *)
Lemma last_opt_app {A} (l : list A) x : last_opt (l ++ [x]) = Some x.
Proof.
  unfold last_opt. rewrite app_length. cbn. replace (List.length l + 1 - 1)%nat with (List.length l) by lia.
  rewrite nth_error_app2 by lia. now rewrite Nat.sub_diag.
Qed.
Lemma last_listed n db id b : Inv n db -> backup_get id db = Ok b ->
  (forall j, (1 <= j <= n)%N -> j <> id -> key_cmp (bkey j) (bkey id) = Lt) ->
  last_opt (backups_list db) = Some b.
Proof.
  intros I G H. destruct (get_range _ _ _ _ I G) as (L & E & K).
  unfold backups_list. rewrite list_prefix_filter.
  assert (M : In (bkey id, VRec b) (filter (fun kv => String.prefix (make_data_key NS) (fst kv)) (ordered db))).
  { apply filter_In. split; [|reflexivity]. eapply Permutation_in; [apply ordered_perm|]. now apply kget_In; [apply I|]. }
  pose proof (sorted_filter (fun kv => String.prefix (make_data_key NS) (fst kv)) _ (ordered_sorted db)) as So.
  assert (U : forall x, In x (filter (fun kv => String.prefix (make_data_key NS) (fst kv)) (ordered db)) ->
            x = (bkey id, VRec b) \/ key_cmp (fst x) (bkey id) = Lt).
  { intros [k v] Hx. apply filter_In in Hx as (Hx & P). cbn [fst] in *.
    apply (Permutation_in _ (Permutation_sym (ordered_perm db))) in Hx.
    apply (kget_In k v db (proj1 I)) in Hx. destruct I as (W & S1 & R & X).
    destruct (X _ _ Hx) as [->|(j & Lj & ->)]; [rewrite seq_prefix in P; discriminate|].
    destruct (N.eq_dec j id) as [->|D]; [left; congruence|right; auto]. }
  assert (Nd : NoDup (filter (fun kv => String.prefix (make_data_key NS) (fst kv)) (ordered db))).
  { apply NoDup_filter. eapply Permutation_NoDup; [apply ordered_perm|].
    eapply NoDup_map_inv. exact (proj1 I). }
  revert M So U Nd. generalize (filter (fun kv : string * Val Backup => String.prefix (make_data_key NS) (fst kv)) (ordered db)) as l.
  intros l M So U Nd. apply in_split in M as (l1 & l2 & ->).
  assert (l2 = []) as ->.
  { destruct l2 as [|y l2]; [reflexivity|exfalso].
    assert (C : key_cmp (bkey id) (fst y) <> Gt).
    { clear - So. induction l1 as [|x l1 IH].
      - cbn [app] in So. inversion So as [|? ? ? F]; subst. inversion F as [|? ? F1 F2]; subst. exact F1.
      - cbn [app] in So. inversion So; subst. auto. }
    destruct (U y) as [->|Lt_].
    - apply in_or_app. right. right. now left.
    - apply NoDup_remove_2 in Nd. apply Nd. apply in_or_app. right. now left.
    - apply C. rewrite (tc_anti _ key_cmp_total (fst y) (bkey id)), Lt_. reflexivity. }
  rewrite map_app, flat_map_app. cbn [map flat_map snd app]. apply last_opt_app.
Qed.

Lemma range_forall (P : N -> bool) (m : nat) : forallb P (map N.of_nat (seq 1 m)) = true ->
  forall j, (1 <= j <= N.of_nat m)%N -> P j = true.
Proof.
  intros H j Hj. rewrite forallb_forall in H. apply H. apply in_map_iff. exists (N.to_nat j).
  split; [lia|]. apply in_seq. lia.
Qed.
Definition lt_key (a b : N) : bool := match key_cmp (bkey a) (bkey b) with Lt => true | _ => false end.
Lemma lt_key_ok a b : lt_key a b = true -> key_cmp (bkey a) (bkey b) = Lt.
Proof. unfold lt_key. destruct (key_cmp _ _); congruence. Qed.
(** Up to nine records the last one listed is the newest, *)
Lemma last_small n db b : Inv n db -> (n <= 9)%N -> backup_get n db = Ok b -> last_opt (backups_list db) = Some b.
Proof.
  intros I L G. eapply last_listed; eauto. intros j Hj D. apply lt_key_ok.
  pose proof (range_forall (fun n => forallb (fun j => (n <=? j)%N || lt_key j n) (map N.of_nat (seq 1 9))) 9 eq_refl n) as H.
  cbv beta in H. specialize (H ltac:(lia)). apply (range_forall (fun j => (n <=? j)%N || lt_key j n)) with (j := j) in H; [|lia].
  apply orb_true_iff in H as [H|H]; [|exact H]. apply N.leb_le in H. lia.
Qed.
(** from ten to eighty-nine it is the ninth. *)
Lemma last_nine n db b : Inv n db -> (9 <= n < 90)%N -> backup_get 9 db = Ok b -> last_opt (backups_list db) = Some b.
Proof.
  intros I L G. eapply last_listed; eauto. intros j Hj D. apply lt_key_ok.
  pose proof (range_forall (fun j => (j =? 9)%N || lt_key j 9) 89 eq_refl j) as H. cbv beta in H.
  specialize (H ltac:(lia)). apply orb_true_iff in H as [H|H]; [|exact H]. apply N.eqb_eq in H. lia.
Qed.

(** ** Effects *)
(** No effect but a creation makes a waiting record. *)
Definition not_idle (e : Eff) : Prop := match e with EStatus _ Idle => False | _ => True end.
Definition is_create (e : Eff) : bool := match e with ECreate _ => true | _ => false end.
Definition one_idle (db : Store) : Prop :=
  forall a b, backup_get (bk_id a) db = Ok a -> backup_get (bk_id b) db = Ok b ->
    bk_status a = Idle -> bk_status b = Idle -> bk_id a = bk_id b.
Definition Good (s : St) : Prop := exists n, Inv n (bs_db s) /\ one_idle (bs_db s).

Lemma db_eff e s : bs_db (apply_eff e s) =
  match e with
  | ECreate now => snd (backup_create now (prov_from (bs_set s)) (st_enc (bs_set s)) (bs_db s))
  | EStatus id x => update_status id x (bs_db s)
  | _ => bs_db s
  end.
Proof. destruct e; cbn; try reflexivity; destruct (tmp_get id s); reflexivity. Qed.
Lemma set_eff e s : bs_set (apply_eff e s) = bs_set s.
Proof. destruct e; cbn; try reflexivity; destruct (tmp_get id s); reflexivity. Qed.
Lemma set_all es : forall s, bs_set (apply_all es s) = bs_set s.
Proof. induction es as [|e es IH]; intros s; cbn; [reflexivity|]. unfold apply_all in IH. now rewrite IH, set_eff. Qed.

Lemma Good_eff e s : not_idle e -> Good s -> Good (apply_eff e s).
Proof.
  intros NI (n & I & O). unfold Good. rewrite db_eff. destruct e; try (exists n; auto; fail).
  - destruct (create_cases n now (prov_from (bs_set s)) (st_enc (bs_set s)) _ I) as [(_ & E)|(None_ & db' & E & I' & G)]; rewrite E; cbn [snd].
    + exists n. auto.
    + exists (n + 1)%N. split; [exact I'|]. intros a b Ha Hb Sa Sb. rewrite G in Ha, Hb.
      destruct (N.eqb_spec (bk_id a) (n + 1)) as [E1|D1]; destruct (N.eqb_spec (bk_id b) (n + 1)) as [E2|D2]; try congruence.
      * exfalso. apply (None_ b); [|exact Sb]. now apply (list_In n).
      * exfalso. apply (None_ a); [|exact Sa]. now apply (list_In n).
      * now apply O.
  - exists n. split; [now apply Inv_update|]. intros a b Ha Hb Sa Sb.
    rewrite (get_update n) in Ha, Hb by exact I.
    destruct (backup_get (bk_id a) (bs_db s)) as [a'|] eqn:Ga; [|discriminate].
    destruct (backup_get (bk_id b) (bs_db s)) as [b'|] eqn:Gb; [|discriminate].
    destruct (N.eqb_spec (bk_id a) id) as [E1|D1].
    { assert (Xa : a = with_status s0 a') by congruence. rewrite Xa in Sa. cbn in Sa. subst s0. contradiction. }
    destruct (N.eqb_spec (bk_id b) id) as [E2|D2].
    { assert (Xb : b = with_status s0 b') by congruence. rewrite Xb in Sb. cbn in Sb. subst s0. contradiction. }
    assert (a' = a) by congruence. assert (b' = b) by congruence. subst. now apply O.
Qed.
Lemma Good_all es : forall s, Forall not_idle es -> Good s -> Good (apply_all es s).
Proof.
  induction es as [|e es IH]; intros s F G; [exact G|]. inversion F; subst. cbn. apply IH; [assumption|]. now apply Good_eff.
Qed.

Lemma dump_not_idle id oc : Forall not_idle (dump_effects id oc).
Proof.
  unfold dump_effects. destruct (oc_file oc); [|repeat constructor].
  apply Forall_app. split.
  - constructor; [exact I|]. apply Forall_forall. intros e He. apply in_map_iff in He as (p & <- & _). exact I.
  - destruct (oc_error oc); repeat constructor.
Qed.
Lemma ship_not_idle set b f sh : Forall not_idle (fst (ship_effects set b f sh)).
Proof. unfold ship_effects. destruct (bk_prov b), sh, f; repeat constructor. Qed.
Lemma run_not_idle s b oc : Forall not_idle (run_effects s b oc).
Proof.
  unfold run_effects. set (f := oc_file oc || _). pose proof (ship_not_idle (bs_set s) b f (oc_ship oc)) as F.
  destruct (ship_effects (bs_set s) b f (oc_ship oc)) as [es err]. cbn [fst] in F.
  apply Forall_app. split; [apply dump_not_idle|]. apply Forall_app. split; [exact F|].
  destruct (dies es); [constructor|]. destruct err; repeat constructor.
Qed.
Lemma tick_not_idle now oc s : Forall not_idle (tick_effects now oc s).
Proof.
  unfold tick_effects.
  destruct (negb (bs_alive s)); [constructor|]. destruct (negb (st_enabled (bs_set s))); [constructor|].
  destruct (find _ _); [apply run_not_idle|]. destruct (due _ _ _) as [[]|]; [|constructor|repeat constructor].
  match goal with |- context [if ?c then [] else _] => destruct c end; [constructor|].
  destruct (st_prov (bs_set s)); try (repeat constructor; fail);
    (destruct (new_backup now s); [constructor; [exact I|apply run_not_idle]|repeat constructor]).
Qed.

Lemma reset_good l : forall s, Good s -> Good (fold_left reset_one l s).
Proof.
  induction l as [|b l IH]; intros s G; [exact G|]. cbn. apply IH. unfold reset_one.
  destruct (bk_status b); try exact G. apply Good_all; [repeat constructor|exact G].
Qed.
Lemma Good_restart s : Good s -> Good (restart s).
Proof. intros G. unfold restart. destruct (reset_good (backups_list (bs_db s)) s G) as (n & I & O). exists n. auto. Qed.
Lemma Good_step o s : Good s -> Good (step o s).
Proof.
  intros G. destruct o; cbn [step].
  - apply Good_all; [apply tick_not_idle|exact G].
  - apply Good_restart, Good_all; [|exact G]. pose proof (tick_not_idle now oc s) as F.
    rewrite <- (firstn_skipn k (tick_effects now oc s)) in F. apply Forall_app in F. apply F.
  - now apply Good_restart.
  - unfold ask. destruct (st_enabled (bs_set s)); [|exact G]. now apply Good_eff.
  - destruct G as (n & I & O). exists n. auto.
Qed.
Lemma Good_fresh set : Good (fresh set).
Proof. exists 0%N. split; [apply Inv_nil|]. intros a b Ha. discriminate. Qed.
Lemma Good_run ops : forall s, Good s -> Good (run ops s).
Proof. induction ops as [|o ops IH]; intros s G; [exact G|]. cbn. apply IH. now apply Good_step. Qed.

(** ** Records are never lost, and keep their time and destination *)
Definition same_core (a b : Backup) : Prop :=
  bk_id a = bk_id b /\ bk_created a = bk_created b /\ bk_prov a = bk_prov b /\ bk_enc a = bk_enc b.
Definition Persist (s s' : St) : Prop :=
  forall id b, backup_get id (bs_db s) = Ok b -> exists b', backup_get id (bs_db s') = Ok b' /\ same_core b b'.
Lemma Persist_refl s : Persist s s.
Proof. intros id b G. exists b. split; [exact G|]. now repeat split. Qed.
Lemma Persist_trans a b c : Persist a b -> Persist b c -> Persist a c.
Proof.
  intros H1 H2 id x G. destruct (H1 _ _ G) as (y & Gy & E1). destruct (H2 _ _ Gy) as (z & Gz & E2). exists z.
  split; [exact Gz|]. unfold same_core in *. intuition congruence.
Qed.
Lemma Persist_eff e s : Good s -> Persist s (apply_eff e s).
Proof.
  intros (n & I & _) id b G. rewrite db_eff.
  assert (Q : exists b', backup_get id (bs_db s) = Ok b' /\ same_core b b') by (exists b; split; [exact G|now repeat split]).
  destruct e; try exact Q.
  - destruct (create_cases n now (prov_from (bs_set s)) (st_enc (bs_set s)) _ I) as [(_ & E)|(_ & db' & E & I' & G')]; rewrite E; cbn [snd]; [exact Q|].
    rewrite G'. destruct (N.eqb_spec id (n + 1)) as [->|D]; [|exact Q].
    destruct (get_range _ _ _ _ I G) as (L & _). lia.
  - rewrite (get_update n) by exact I. rewrite G. eexists. split; [reflexivity|]. destruct (N.eqb _ _); now repeat split.
Qed.
Lemma Persist_all es : forall s, Forall not_idle es -> Good s -> Persist s (apply_all es s).
Proof.
  induction es as [|e es IH]; intros s F G; [apply Persist_refl|]. inversion F; subst. cbn.
  eapply Persist_trans; [now apply (Persist_eff e)|]. apply IH; [assumption|]. now apply Good_eff.
Qed.
Lemma Persist_resets l : forall s, Good s -> Persist s (fold_left reset_one l s).
Proof.
  induction l as [|b l IH]; intros s G; [apply Persist_refl|]. cbn.
  assert (F : Forall not_idle [ERemove (bk_id b); EStatus (bk_id b) (Failed "server restarted")]) by (repeat constructor).
  eapply Persist_trans; [|apply IH].
  - unfold reset_one. destruct (bk_status b); try apply Persist_refl. now apply Persist_all.
  - unfold reset_one. destruct (bk_status b); try exact G. now apply Good_all.
Qed.
Lemma Persist_restart s : Good s -> Persist s (restart s).
Proof. intros G. exact (Persist_resets (backups_list (bs_db s)) s G). Qed.
Lemma firstn_not_idle k now oc s : Forall not_idle (firstn k (tick_effects now oc s)).
Proof.
  pose proof (tick_not_idle now oc s) as F. rewrite <- (firstn_skipn k (tick_effects now oc s)) in F.
  apply Forall_app in F. apply F.
Qed.
Lemma Persist_step o s : Good s -> Persist s (step o s).
Proof.
  intros G. destruct o; cbn [step].
  - apply Persist_all; [apply tick_not_idle|exact G].
  - eapply Persist_trans; [apply (Persist_all _ s (firstn_not_idle k now oc s) G)|].
    apply Persist_restart, Good_all; [apply firstn_not_idle|exact G].
  - now apply Persist_restart.
  - unfold ask. destruct (st_enabled (bs_set s)); [now apply Persist_eff|apply Persist_refl].
  - exact (Persist_refl s).
Qed.
Definition Distinct (s : St) : Prop :=
  forall a b, backup_get (bk_id a) (bs_db s) = Ok a -> backup_get (bk_id b) (bs_db s) = Ok b ->
    hour_of a = hour_of b -> bk_id a = bk_id b.
Lemma Distinct_back s s' : Persist s s' -> Distinct s' -> Distinct s.
Proof.
  intros P D a b Ga Gb H. destruct (P _ _ Ga) as (a' & Ga' & (E1 & E2 & _)). destruct (P _ _ Gb) as (b' & Gb' & (E3 & E4 & _)).
  rewrite E1, E3. apply D; [congruence|congruence|]. unfold hour_of in *. congruence.
Qed.

(** ** What a completed backup has stored *)
Definition Kp (s : St) : Prop :=
  forall b, backup_get (bk_id b) (bs_db s) = Ok b -> bk_status b = Completed -> not_s3 b -> stored s b.

Lemma Kp_status id x s : Good s -> x <> Completed -> Kp s -> Kp (apply_eff (EStatus id x) s).
Proof.
  intros (n & I & _) Hx H b G C N3. cbn in G. rewrite (get_update n) in G by exact I.
  destruct (backup_get (bk_id b) (bs_db s)) as [b'|] eqn:Gb; [|discriminate].
  destruct (N.eqb_spec (bk_id b) id) as [E|D].
  - assert (X : b = with_status x b') by congruence. rewrite X in C. cbn in C. contradiction.
  - assert (b' = b) by congruence. subst b'. exact (H b Gb C N3).
Qed.
Lemma Kp_resets l : forall s, Good s -> Kp s -> Kp (fold_left reset_one l s).
Proof.
  induction l as [|b l IH]; intros s G H; [exact H|]. cbn. apply IH.
  - unfold reset_one. destruct (bk_status b); try exact G. apply Good_all; [repeat constructor|exact G].
  - unfold reset_one. destruct (bk_status b); try exact H. cbn [apply_all fold_left]. apply Kp_status; [|discriminate|].
    + apply Good_eff; [exact I|exact G].
    + intros b0 G0 C N3. exact (H b0 G0 C N3).
Qed.
Lemma Kp_restart s : Good s -> Kp s -> Kp (restart s).
Proof. intros G H. exact (Kp_resets (backups_list (bs_db s)) s G H). Qed.

Definition touches (id0 : N) (h0 : Z) (e : Eff) : Prop :=
  match e with
  | EStatus id x => id = id0 /\ x <> Completed /\ x <> Idle
  | ETmp id _ | EDone id _ | ERemove id => id = id0
  | ERename id h | EUpload id _ _ h => id = id0 /\ h = h0
  | EDie => True
  | ECreate _ => False
  end.
Definition Running (id0 : N) (h0 : Z) (s : St) : Prop :=
  Good s /\ Kp s /\ Distinct s /\
  exists b0, backup_get id0 (bs_db s) = Ok b0 /\ bk_status b0 <> Completed /\ hour_of b0 = h0 /\ bk_id b0 = id0.
Lemma touches_not_idle id0 h0 e : touches id0 h0 e -> not_idle e.
Proof. destruct e; cbn; auto. intros (_ & _ & H). destruct s; auto. Qed.
Lemma Running_eff id0 h0 e s : touches id0 h0 e -> Running id0 h0 s -> Running id0 h0 (apply_eff e s).
Proof.
  intros T (G & K & D & b0 & G0 & S0 & H0 & I0).
  assert (NI := touches_not_idle _ _ _ T). assert (G' := Good_eff e s NI G).
  assert (Core : forall b, backup_get (bk_id b) (bs_db (apply_eff e s)) = Ok b -> bk_id b <> id0 -> backup_get (bk_id b) (bs_db s) = Ok b).
  { intros b Gb Nb. rewrite db_eff in Gb. destruct e; cbn in T; try exact Gb; [contradiction|].
    destruct T as (-> & _). destruct G as (n & I & _). rewrite (get_update n) in Gb by exact I.
    destruct (backup_get (bk_id b) (bs_db s)); [|discriminate]. apply N.eqb_neq in Nb. now rewrite Nb in Gb. }
  assert (B0 : exists b1, backup_get id0 (bs_db (apply_eff e s)) = Ok b1 /\ bk_status b1 <> Completed /\ hour_of b1 = h0 /\ bk_id b1 = id0).
  { rewrite db_eff. destruct e; cbn in T; try (exists b0; auto; fail); [contradiction|].
    destruct T as (-> & T1 & _). destruct G as (n & I & _). rewrite (get_update n) by exact I. rewrite G0, N.eqb_refl.
    eexists. split; [reflexivity|]. auto. }
  split; [exact G'|]. split; [|split; [|exact B0]].
  - intros b Gb C N3.
    assert (Nb : bk_id b <> id0). { intros E. destruct B0 as (b1 & Gb1 & S1 & _). rewrite E in Gb. congruence. }
    pose proof (Core b Gb Nb) as Gs.
    assert (Nh : hour_of b <> h0). { intros E. apply Nb. rewrite <- I0. apply D; [exact Gs|now rewrite I0|congruence]. }
    specialize (K b Gs C N3). destruct K as (bytes & M & Pv). exists bytes.
    destruct e; cbn in T; cbn [apply_eff bs_made bs_dir bs_cloud]; try (split; [exact M|exact Pv]); try contradiction.
    + subst id. rewrite aget_aset. destruct (N.eq_dec (bk_id b) id0); [congruence|]. split; [exact M|exact Pv].
    + destruct T as (-> & ->). destruct (tmp_get id0 s); [|split; [exact M|exact Pv]]. cbn [bs_made bs_dir bs_cloud].
      split; [exact M|]. destruct (bk_prov b); [|exact Pv|exact Pv]. rewrite aget_aset. destruct (Z.eq_dec (hour_of b) h0); [congruence|exact Pv].
    + destruct T as (-> & ->). destruct (tmp_get id0 s); [|split; [exact M|exact Pv]]. cbn [bs_made bs_dir bs_cloud].
      split; [exact M|]. destruct (bk_prov b) as [p|k p|k p]; [exact Pv|exact Pv|]. destruct Pv as (bu & Pv). exists bu.
      rewrite aget_aset. destruct (cloud_dec (bu, p, hour_of b) (bucket, path, h0)); [congruence|exact Pv].
  - intros a b Ga Gb E. destruct (N.eq_dec (bk_id a) id0) as [Ea|Na]; destruct (N.eq_dec (bk_id b) id0) as [Eb|Nb]; try congruence.
    + exfalso. destruct B0 as (b1 & Gb1 & _ & Hb1 & _). rewrite Ea in Ga. assert (a = b1) by congruence. subst b1.
      apply Nb. rewrite <- I0. apply D; [now apply Core|now rewrite I0|congruence].
    + exfalso. destruct B0 as (b1 & Gb1 & _ & Hb1 & _). rewrite Eb in Gb. assert (b = b1) by congruence. subst b1.
      apply Na. rewrite <- I0. apply D; [now apply Core|now rewrite I0|congruence].
    + apply D; auto.
Qed.
Lemma Running_all id0 h0 es : forall s, Forall (touches id0 h0) es -> Running id0 h0 s -> Running id0 h0 (apply_all es s).
Proof.
  induction es as [|e es IH]; intros s F R; [exact R|]. inversion F; subst. cbn. apply IH; [assumption|]. now apply Running_eff.
Qed.

Lemma dump_touches id h oc : Forall (touches id h) (dump_effects id oc).
Proof.
  unfold dump_effects. destruct (oc_file oc).
  - apply Forall_app. split.
    + constructor; [reflexivity|]. apply Forall_forall. intros e He. apply in_map_iff in He as (p & <- & _). cbn. repeat split; discriminate.
    + destruct (oc_error oc); repeat constructor; discriminate.
  - repeat constructor; discriminate.
Qed.
Lemma ship_touches set b f sh : Forall (touches (bk_id b) (hour_of b)) (fst (ship_effects set b f sh)).
Proof. unfold ship_effects. destruct (bk_prov b), sh, f; repeat constructor; discriminate. Qed.
Lemma apply_app a b s : apply_all (a ++ b) s = apply_all b (apply_all a s).
Proof. unfold apply_all. apply fold_left_app. Qed.
Lemma dump_result id oc s : complete oc ->
  let t := apply_all (dump_effects id oc) s in
  tmp_get id t = Some (oc_bytes oc) /\ made_get id t = Some (oc_bytes oc).
Proof.
  intros (F & E) t. subst t. unfold dump_effects. rewrite F, E, apply_app. cbn [apply_all fold_left apply_eff bs_tmp bs_made].
  rewrite !aget_aset. destruct (N.eq_dec id id); [auto|congruence].
Qed.
Lemma Kp_run s0 s b oc k :
  Good s -> Kp s -> Distinct s -> backup_get (bk_id b) (bs_db s) = Ok b -> bk_status b = Idle -> complete oc ->
  Kp (apply_all (firstn k (run_effects s0 b oc)) s).
Proof.
  intros G K D Gb Sb Co. unfold run_effects. set (f := oc_file oc || _).
  assert (Ef : f = true) by (unfold f; destruct Co as (-> & _); reflexivity).
  pose proof (ship_touches (bs_set s0) b f (oc_ship oc)) as Ts.
  destruct (ship_effects (bs_set s0) b f (oc_ship oc)) as [es err] eqn:Esh. cbn [fst] in Ts.
  pose proof (dump_touches (bk_id b) (hour_of b) oc) as Td.
  assert (R : Running (bk_id b) (hour_of b) s).
  { split; [exact G|]. split; [exact K|]. split; [exact D|]. exists b. rewrite Sb. repeat split; auto; discriminate. }
  set (A := (dump_effects (bk_id b) oc ++ es)%list).
  assert (Ta : Forall (touches (bk_id b) (hour_of b)) A) by (apply Forall_app; auto).
  assert (Pre : forall j, Kp (apply_all (firstn j A) s)).
  { intros j. apply Running_all with (id0 := bk_id b) (h0 := hour_of b); [|exact R].
    rewrite <- (firstn_skipn j A) in Ta. apply Forall_app in Ta. apply Ta. }
  rewrite app_assoc. fold A. rewrite firstn_app, apply_app.
  destruct (dies es) eqn:Di; [rewrite firstn_nil; apply Pre|].
  destruct (k - List.length A)%nat eqn:Ek; [apply Pre|].
  assert (Fn : firstn k A = A) by (apply firstn_all2; lia). rewrite Fn.
  assert (RA := Running_all _ _ A s Ta R). destruct RA as (GA & KA & DA & b0 & Gb0 & S0 & H0 & I0).
  destruct err as [e|].
  - replace (firstn (S n) [EStatus (bk_id b) (Failed e)]) with [EStatus (bk_id b) (Failed e)] by (destruct n; reflexivity).
    cbn [apply_all fold_left]. apply Kp_status; [exact GA|discriminate|exact KA].
  - replace (firstn (S n) [EStatus (bk_id b) Completed]) with [EStatus (bk_id b) Completed] by (destruct n; reflexivity).
    cbn [apply_all fold_left]. intros b' Gb' C N3. cbn [apply_eff bs_db] in Gb'.
    assert (GA' := GA). destruct GA' as (m & IA & _). rewrite (get_update m) in Gb' by exact IA.
    destruct (N.eqb_spec (bk_id b') (bk_id b)) as [Ei|Ni].
    + assert (Pe : Persist s (apply_all A s)).
      { apply Persist_all; [|exact G]. eapply Forall_impl; [|exact Ta]. intros e. apply touches_not_idle. }
      destruct (Pe _ _ Gb) as (b2 & Gb2 & (C1 & C2 & C3 & C4)). rewrite Ei, Gb2 in Gb'.
      assert (Xb : b' = with_status Completed b2) by congruence.
      assert (Pv : bk_prov b' = bk_prov b) by (rewrite Xb; cbn; congruence).
      assert (Hv : hour_of b' = hour_of b) by (rewrite Xb; unfold hour_of; cbn; congruence).
      unfold stored. rewrite Ei, Pv, Hv. exists (oc_bytes oc). cbn [apply_eff bs_made bs_dir bs_cloud].
      destruct (dump_result (bk_id b) oc s Co) as (T1 & M1).
      unfold A. rewrite apply_app. unfold not_s3 in N3. rewrite Pv in N3.
      revert T1 M1. generalize (apply_all (dump_effects (bk_id b) oc) s) as t. intros t T1 M1.
      unfold ship_effects in Esh. destruct (bk_prov b) as [p|bu p|bu p] eqn:Pb; [|contradiction|].
      * rewrite Ef in Esh. destruct (oc_ship oc); [|congruence|congruence].
        assert (es = [ERename (bk_id b) (hour_of b)]) as -> by congruence.
        cbn [apply_all fold_left apply_eff]. rewrite T1. cbn [bs_made bs_dir]. split; [exact M1|].
        rewrite aget_aset. destruct (Z.eq_dec _ _); [reflexivity|congruence].
      * rewrite Ef in Esh. destruct (oc_ship oc); [|congruence|].
        2:{ assert (es = [EStatus (bk_id b) Uploading; EDie]) as -> by congruence. discriminate. }
        assert (es = [EStatus (bk_id b) Uploading; EUpload (bk_id b) (st_gcp_bucket (bs_set s0)) p (hour_of b); ERemove (bk_id b)]) as -> by congruence.
        cbn [apply_all fold_left apply_eff bs_tmp]. rewrite T1. cbn [bs_made bs_cloud]. split; [exact M1|].
        exists (st_gcp_bucket (bs_set s0)). rewrite aget_aset. destruct (cloud_dec _ _); [reflexivity|congruence].
    + destruct (backup_get (bk_id b') (bs_db (apply_all A s))) as [b2|] eqn:G2; [|discriminate].
      assert (b2 = b') by congruence. subst b2. exact (KA b' G2 C N3).
Qed.
Lemma find_idle_get s b : Good s -> find (fun b => is_idle (bk_status b)) (backups_list (bs_db s)) = Some b ->
  backup_get (bk_id b) (bs_db s) = Ok b /\ bk_status b = Idle.
Proof.
  intros (n & I & _) F. apply find_some in F as (F1 & F2). apply (list_In n) in F1; [|exact I].
  split; [exact F1|]. now destruct (bk_status b).
Qed.
Lemma new_backup_get now s b : Good s -> new_backup now s = Some b ->
  backup_get (bk_id b) (bs_db (apply_eff (ECreate now) s)) = Ok b /\ bk_status b = Idle /\ bk_created b = now /\
  bk_prov b = prov_from (bs_set s) /\
  (forall j, j <> bk_id b -> backup_get j (bs_db (apply_eff (ECreate now) s)) = backup_get j (bs_db s)) /\
  backup_get (bk_id b) (bs_db s) = Err NotFound.
Proof.
  intros (n & I & _). unfold new_backup. rewrite db_eff.
  destruct (create_cases n now (prov_from (bs_set s)) (st_enc (bs_set s)) _ I) as [(_ & E)|(_ & db' & E & I' & G)]; rewrite E; cbn [fst snd]; [discriminate|].
  intros Eb. assert (b = mkBackup (n + 1) now (prov_from (bs_set s)) Idle (st_enc (bs_set s))) as -> by congruence. cbn [bk_id bk_status bk_created bk_prov].
  split; [rewrite G, N.eqb_refl; reflexivity|]. split; [reflexivity|]. split; [reflexivity|]. split; [reflexivity|].
  split. { intros j D. rewrite G. apply N.eqb_neq in D. now rewrite D. }
  unfold backup_get. destruct (kget (bkey (n + 1)) (bs_db s)) as [v|] eqn:K; [exfalso|reflexivity].
  destruct I as (_ & _ & _ & X). destruct (X _ _ K) as [Q|(id & L & Q)]; [now apply bkey_seq in Q|]. apply bkey_inj in Q. lia.
Qed.
Lemma Kp_create now s : Good s -> Kp s -> Kp (apply_eff (ECreate now) s).
Proof.
  intros (n & I & _) K b G C N3. rewrite db_eff in G.
  destruct (create_cases n now (prov_from (bs_set s)) (st_enc (bs_set s)) _ I) as [(_ & E)|(_ & db' & E & I' & Gt)]; rewrite E in G; cbn [snd] in G.
  - exact (K b G C N3).
  - rewrite Gt in G. destruct (N.eqb _ _).
    + assert (Xb : b = mkBackup (n + 1) now (prov_from (bs_set s)) Idle (st_enc (bs_set s))) by congruence. rewrite Xb in C. discriminate.
    + exact (K b G C N3).
Qed.
Lemma Kp_prefix now oc s k : Good s -> Kp s -> complete oc ->
  Distinct (apply_all (firstn k (tick_effects now oc s)) s) -> Kp (apply_all (firstn k (tick_effects now oc s)) s).
Proof.
  intros G K Co D.
  assert (Die : Kp (apply_all (firstn k [EDie]) s)).
  { destruct k; [exact K|]. cbn [firstn]. rewrite firstn_nil. intros b Gb C N3. exact (K b Gb C N3). }
  assert (Non : Kp (apply_all (firstn k []) s)) by (rewrite firstn_nil; exact K).
  pose proof (firstn_not_idle k now oc s) as NI. revert D NI.
  unfold tick_effects. destruct (negb (bs_alive s)); [intros; exact Non|]. destruct (negb (st_enabled (bs_set s))); [intros; exact Non|].
  destruct (find _ _) as [b|] eqn:F.
  - intros D NI. destruct (find_idle_get s b G F) as (Gb & Sb). apply Kp_run; auto.
    eapply Distinct_back; [|exact D]. now apply Persist_all.
  - destruct (due _ _ _) as [[]|]; [|intros; exact Non|intros; exact Die].
    match goal with |- context [if ?c then [] else _] => destruct c end; [intros; exact Non|].
    destruct (st_prov (bs_set s)); try (intros; exact Die);
      (destruct (new_backup now s) as [b|] eqn:Nb; [|intros; exact Die]; intros D NI;
       destruct k as [|k]; [exact K|]; cbn [firstn] in *; cbn [apply_all fold_left] in *; fold apply_all in *;
       destruct (new_backup_get now s b G Nb) as (Gb & Sb & _);
       inversion NI; subst;
       apply Kp_run; auto; [now apply Good_eff|now apply Kp_create|];
       eapply Distinct_back; [|exact D]; apply Persist_all; [assumption|now apply Good_eff]).
Qed.
Lemma Kp_step o s : Good s -> Kp s -> op_complete o -> Distinct (step o s) -> Kp (step o s).
Proof.
  intros G K Co D. destruct o; cbn [step op_complete] in *.
  - unfold tick in *. rewrite <- (firstn_all (tick_effects now oc s)) in *. apply Kp_prefix; auto.
  - assert (G1 := Good_all _ s (firstn_not_idle k now oc s) G).
    apply Kp_restart; [exact G1|]. apply Kp_prefix; auto. eapply Distinct_back; [|exact D]. now apply Persist_restart.
  - now apply Kp_restart.
  - unfold ask in *. destruct (st_enabled (bs_set s)); [now apply Kp_create|exact K].
  - intros b Gb C N3. exact (K b Gb C N3).
Qed.
Lemma Persist_run ops : forall s, Good s -> Persist s (run ops s).
Proof.
  induction ops as [|o ops IH]; intros s G; [apply Persist_refl|]. cbn.
  eapply Persist_trans; [now apply (Persist_step o)|]. apply IH. now apply Good_step.
Qed.
Lemma Kp_history ops : forall s, Good s -> Kp s -> Forall op_complete ops -> Distinct (run ops s) -> Kp (run ops s).
Proof.
  induction ops as [|o ops IH]; intros s G K F D; [exact K|]. inversion F; subst. cbn in *.
  assert (G1 := Good_step o s G). apply IH; auto. apply Kp_step; auto. eapply Distinct_back; [|exact D]. now apply Persist_run.
Qed.

(** ** Counting the records *)
Lemma list_count n db : Inv n db -> List.length (backups_list db) = N.to_nat n.
Proof.
  intros I. set (L := filter (fun kv => String.prefix (make_data_key NS) (fst kv)) (ordered db)).
  assert (EL : backups_list db = flat_map (fun v => match v with VRec b => [b] | _ => [] end) (map snd L)).
  { unfold backups_list. now rewrite list_prefix_filter. }
  assert (F : Forall (fun kv => exists b, kv = (bkey (bk_id b), VRec b)) L).
  { apply Forall_forall. intros [k v] Hx. apply filter_In in Hx as (Hx & P). cbn [fst] in P.
    apply (Permutation_in _ (Permutation_sym (ordered_perm db))) in Hx.
    apply (kget_In k v db (proj1 I)) in Hx. destruct I as (W & S1 & R & X).
    destruct (X _ _ Hx) as [->|(j & Lj & ->)]; [rewrite seq_prefix in P; discriminate|].
    destruct (R j Lj) as (b & G & E). exists b. congruence. }
  assert (Nd : NoDup (map fst L)).
  { assert (N1 : NoDup (map fst (ordered db))).
    { eapply Permutation_NoDup; [apply Permutation_map, ordered_perm|exact (proj1 I)]. }
    unfold L. clear - N1. induction (ordered db) as [|x l IH]; cbn in *; [constructor|]. inversion N1; subst.
    destruct (String.prefix _ _); cbn; [|auto]. constructor; [|auto]. intros H. apply H1.
    apply in_map_iff in H as (y & Ey & Hy). apply filter_In in Hy as (Hy & _). rewrite <- Ey. now apply in_map. }
  assert (EM : map fst L = map (fun b => bkey (bk_id b)) (backups_list db)).
  { rewrite EL. clear - F. induction L as [|x L IH]; [reflexivity|]. inversion F as [|? ? (b & ->) F']; subst. cbn. f_equal. now apply IH. }
  assert (N2 : NoDup (map bk_id (backups_list db))).
  { rewrite EM in Nd. rewrite <- (map_map bk_id bkey) in Nd. eapply NoDup_map_inv. exact Nd. }
  rewrite <- (map_length bk_id).
  assert (P : Permutation (map bk_id (backups_list db)) (map N.of_nat (seq 1 (N.to_nat n)))).
  { apply NoDup_Permutation; [exact N2| |].
    - apply FinFun.Injective_map_NoDup; [|apply seq_NoDup]. intros a b. apply Nnat.Nat2N.inj.
    - intros id. rewrite in_map_iff, in_map_iff. split.
      + intros (b & E & Hb). apply (list_In n) in Hb; [|exact I]. destruct (get_range _ _ _ _ I Hb) as (R & _).
        exists (N.to_nat id). split; [lia|]. apply in_seq. lia.
      + intros (m & E & Hm). apply in_seq in Hm. destruct (get_ok n db id I) as (b & G & Eb); [lia|].
        exists b. split; [exact Eb|]. apply (list_In n); [exact I|]. now rewrite Eb. }
  apply Permutation_length in P. rewrite P, map_length, seq_length. reflexivity.
Qed.
Lemma Inv_eff n e s : is_create e = false -> Inv n (bs_db s) -> Inv n (bs_db (apply_eff e s)).
Proof. intros C I. rewrite db_eff. destruct e; try exact I; [discriminate|now apply Inv_update]. Qed.
Lemma Inv_all n es : forall s, Forall (fun e => is_create e = false) es -> Inv n (bs_db s) -> Inv n (bs_db (apply_all es s)).
Proof. induction es as [|e es IH]; intros s F I; [exact I|]. inversion F; subst. cbn. apply IH; [assumption|]. now apply Inv_eff. Qed.

(** ** A run touches one record only, and finishes it *)
Definition touches_rec (id0 : N) (e : Eff) : Prop :=
  match e with
  | EStatus id _ | ETmp id _ | EDone id _ | ERemove id | ERename id _ | EUpload id _ _ _ => id = id0
  | EDie => True
  | ECreate _ => False
  end.
Lemma touches_weak id h e : touches id h e -> touches_rec id e.
Proof. destruct e; cbn; tauto. Qed.
Lemma run_touches s b oc : Forall (touches_rec (bk_id b)) (run_effects s b oc).
Proof.
  unfold run_effects. set (f := oc_file oc || _). pose proof (ship_touches (bs_set s) b f (oc_ship oc)) as F.
  destruct (ship_effects (bs_set s) b f (oc_ship oc)) as [es err]. cbn [fst] in F.
  apply Forall_app. split; [eapply Forall_impl; [apply touches_weak|apply (dump_touches _ (hour_of b))]|].
  apply Forall_app. split; [eapply Forall_impl; [apply touches_weak|exact F]|].
  destruct (dies es); [constructor|]. destruct err; repeat constructor.
Qed.
Lemma run_no_create s b oc : Forall (fun e => is_create e = false) (run_effects s b oc).
Proof. eapply Forall_impl; [|apply run_touches]. intros e. now destruct e. Qed.
Lemma other_kept id0 es : forall s, Good s -> Forall not_idle es -> Forall (touches_rec id0) es ->
  forall j, j <> id0 -> backup_get j (bs_db (apply_all es s)) = backup_get j (bs_db s).
Proof.
  induction es as [|e es IH]; intros s G NI F j D; [reflexivity|]. inversion F; inversion NI; subst. cbn.
  rewrite IH; auto; [|now apply Good_eff]. rewrite db_eff. destruct e; cbn in *; try reflexivity; [contradiction|].
  subst id. destruct G as (n & In_ & _). rewrite (get_update n) by exact In_. apply N.eqb_neq in D. rewrite D.
  now destruct (backup_get j (bs_db s)).
Qed.
Lemma alive_eff e s : e <> EDie -> bs_alive (apply_eff e s) = bs_alive s.
Proof. intros D. destruct e; cbn; try reflexivity; try (destruct (tmp_get id s); reflexivity). congruence. Qed.
Lemma alive_all es : forall s, dies es = false -> bs_alive (apply_all es s) = bs_alive s.
Proof.
  induction es as [|e es IH]; intros s D; [reflexivity|]. cbn in *. apply orb_false_iff in D as (D1 & D2).
  rewrite IH by assumption. apply alive_eff. intros ->. discriminate.
Qed.
Lemma dies_app a b : dies (a ++ b) = dies a || dies b.
Proof. apply existsb_app. Qed.
Lemma dump_no_die id oc : dies (dump_effects id oc) = false.
Proof.
  unfold dump_effects. destruct (oc_file oc); [|reflexivity]. rewrite dies_app. apply orb_false_iff. split.
  - cbn. induction (oc_progress oc); [reflexivity|exact IHl].
  - destruct (oc_error oc); reflexivity.
Qed.
Lemma ship_no_die set b f sh : sh <> ShipPanic -> dies (fst (ship_effects set b f sh)) = false.
Proof. unfold ship_effects. destruct (bk_prov b), sh, f; intros; try reflexivity; congruence. Qed.
Lemma run_finishes s0 s b oc : Good s -> backup_get (bk_id b) (bs_db s) = Ok b -> oc_ship oc <> ShipPanic ->
  let t := apply_all (run_effects s0 b oc) s in
  bs_alive t = bs_alive s /\ exists x, finished x /\ backup_get (bk_id b) (bs_db t) = Ok (with_status x b).
Proof.
  intros G Gb Hp t. subst t. pose proof (run_not_idle s0 b oc) as NI. revert NI. unfold run_effects. set (f := oc_file oc || _).
  pose proof (ship_no_die (bs_set s0) b f _ Hp) as Nd.
  destruct (ship_effects (bs_set s0) b f (oc_ship oc)) as [es err]. cbn [fst] in Nd. rewrite Nd.
  assert (Q : exists x, finished x /\ match err with None => [EStatus (bk_id b) Completed] | Some e => [EStatus (bk_id b) (Failed e)] end = [EStatus (bk_id b) x]).
  { destruct err; eexists; (split; [|reflexivity]); exact I. }
  destruct Q as (x & Fx & ->). intros NI. rewrite app_assoc in NI |- *. apply Forall_app in NI as (NI & _).
  rewrite apply_app. split.
  - cbn [apply_all fold_left apply_eff bs_alive]. apply alive_all. rewrite dies_app, dump_no_die, Nd. reflexivity.
  - exists x. split; [exact Fx|]. cbn [apply_all fold_left apply_eff bs_db].
    destruct (Persist_all _ s NI G _ _ Gb) as (b' & Gb' & (C1 & C2 & C3 & C4)).
    assert (G2 := Good_all _ s NI G). destruct G2 as (n & I2 & _). rewrite (get_update n) by exact I2. rewrite N.eqb_refl.
    fold (apply_all (dump_effects (bk_id b) oc ++ es) s). rewrite Gb'. unfold with_status. congruence.
Qed.

(** ** A record that is neither waiting nor in progress never changes again. *)
Lemma reset_touches b : Forall not_idle [ERemove (bk_id b); EStatus (bk_id b) (Failed "server restarted")] /\
  Forall (touches_rec (bk_id b)) [ERemove (bk_id b); EStatus (bk_id b) (Failed "server restarted")].
Proof. split; repeat constructor. Qed.
Lemma resets_settled l b : forall s, Good s -> (forall x, In x l -> settled (bk_status x) \/ bk_id x <> bk_id b) ->
  backup_get (bk_id b) (bs_db (fold_left reset_one l s)) = backup_get (bk_id b) (bs_db s).
Proof.
  induction l as [|x l IH]; intros s G H; [reflexivity|]. cbn. destruct (reset_touches x) as (N1 & N2). rewrite IH.
  - destruct (H x (or_introl eq_refl)) as [Sx|D].
    + unfold reset_one. destruct (bk_status x); try reflexivity. contradiction.
    + unfold reset_one. destruct (bk_status x); try reflexivity. eapply other_kept; eauto.
  - unfold reset_one. destruct (bk_status x); try exact G. now apply Good_all.
  - intros y Hy. apply H. now right.
Qed.
Lemma restart_settled s b : Good s -> backup_get (bk_id b) (bs_db s) = Ok b -> settled (bk_status b) ->
  backup_get (bk_id b) (bs_db (restart s)) = Ok b.
Proof.
  intros G Gb Sb. unfold restart. cbn [bs_db]. rewrite resets_settled; [exact Gb|exact G|].
  intros x Hx. destruct G as (n & I & _). apply (list_In n) in Hx; [|exact I].
  destruct (N.eq_dec (bk_id x) (bk_id b)) as [E|D]; [left|now right]. rewrite E in Hx. congruence.
Qed.
Lemma prefix_settled now oc k s b : Good s -> backup_get (bk_id b) (bs_db s) = Ok b -> settled (bk_status b) ->
  backup_get (bk_id b) (bs_db (apply_all (firstn k (tick_effects now oc s)) s)) = Ok b.
Proof.
  intros G Gb Sb. pose proof (firstn_not_idle k now oc s) as NI. revert NI.
  assert (Die : Forall not_idle (firstn k [EDie]) -> backup_get (bk_id b) (bs_db (apply_all (firstn k [EDie]) s)) = Ok b).
  { intros _. destruct k; [exact Gb|]. cbn [firstn]. rewrite firstn_nil. exact Gb. }
  assert (Non : Forall not_idle (firstn k []) -> backup_get (bk_id b) (bs_db (apply_all (firstn k []) s)) = Ok b).
  { intros _. rewrite firstn_nil. exact Gb. }
  assert (Sub : forall l j e, Forall (touches_rec j) l -> Forall (touches_rec j) (firstn e l)).
  { intros l j e F. rewrite <- (firstn_skipn e l) in F. apply Forall_app in F. apply F. }
  unfold tick_effects. destruct (negb (bs_alive s)); [exact Non|]. destruct (negb (st_enabled (bs_set s))); [exact Non|].
  destruct (find _ _) as [b0|] eqn:F.
  - intros NI. destruct (find_idle_get s b0 G F) as (Gb0 & Sb0). rewrite (other_kept (bk_id b0)); auto.
    + apply Sub, run_touches.
    + intros E. rewrite E in Gb. assert (b = b0) by congruence. subst b0. rewrite Sb0 in Sb. contradiction.
  - destruct (due _ _ _) as [[]|]; [|exact Non|exact Die].
    match goal with |- context [if ?c then [] else _] => destruct c end; [exact Non|].
    destruct (st_prov (bs_set s)); try exact Die;
      (destruct (new_backup now s) as [b0|] eqn:Nb; [|exact Die]; intros NI; destruct k as [|k]; [exact Gb|];
       cbn [firstn] in *; inversion NI; subst; cbn [apply_all fold_left]; fold apply_all;
       destruct (new_backup_get now s b0 G Nb) as (Gb0 & _ & _ & _ & Ot & Fr);
       assert (D : bk_id b <> bk_id b0) by (intros E; rewrite E in Gb; congruence);
       change (backup_get (bk_id b) (bs_db (apply_all (firstn k (run_effects s b0 oc)) (apply_eff (ECreate now) s))) = Ok b);
       rewrite (other_kept (bk_id b0)); [rewrite Ot; assumption|now apply Good_eff|assumption|apply Sub, run_touches|exact D]).
Qed.
Lemma step_settled o s b : Good s -> backup_get (bk_id b) (bs_db s) = Ok b -> settled (bk_status b) ->
  backup_get (bk_id b) (bs_db (step o s)) = Ok b.
Proof.
  intros G Gb Sb. destruct o; cbn [step].
  - unfold tick. rewrite <- (firstn_all (tick_effects now oc s)). now apply prefix_settled.
  - apply restart_settled; [apply Good_all; [apply firstn_not_idle|exact G]|now apply prefix_settled|exact Sb].
  - now apply restart_settled.
  - unfold ask. destruct (st_enabled (bs_set s)); [|exact Gb]. rewrite db_eff. destruct G as (n & I & _).
    destruct (create_cases n now (prov_from (bs_set s)) (st_enc (bs_set s)) _ I) as [(_ & E)|(_ & db' & E & I' & G)]; rewrite E; cbn [snd]; [exact Gb|].
    rewrite G. destruct (N.eqb_spec (bk_id b) (n + 1)) as [Q|D]; [|exact Gb]. destruct (get_range _ _ _ _ I Gb) as (L & _). lia.
  - exact Gb.
Qed.
Lemma run_settled ops b : forall s, Good s -> backup_get (bk_id b) (bs_db s) = Ok b -> settled (bk_status b) ->
  backup_get (bk_id b) (bs_db (run ops s)) = Ok b.
Proof.
  induction ops as [|o ops IH]; intros s G Gb Sb; [exact Gb|]. cbn. apply IH; [now apply Good_step| |exact Sb]. now apply step_settled.
Qed.

(** ** What a restart does to each record *)
Lemma resets_get l : forall s, Good s -> NoDup (map bk_id l) -> (forall x, In x l -> backup_get (bk_id x) (bs_db s) = Ok x) ->
  forall b, In b l -> backup_get (bk_id b) (bs_db (fold_left reset_one l s)) = Ok (after_restart b).
Proof.
  induction l as [|x l IH]; intros s G Nd H b Hb; [contradiction|]. cbn [fold_left map] in *. inversion Nd as [|? ? Nx Nd']; subst.
  destruct (reset_touches x) as (N1 & N2).
  assert (G1 : Good (reset_one s x)) by (unfold reset_one; destruct (bk_status x); try exact G; now apply Good_all).
  assert (Ot : forall j, j <> bk_id x -> backup_get j (bs_db (reset_one s x)) = backup_get j (bs_db s)).
  { intros j D. unfold reset_one. destruct (bk_status x); try reflexivity. eapply other_kept; eauto. }
  destruct Hb as [->|Hb].
  - rewrite resets_settled; [|exact G1|].
    + unfold reset_one, after_restart. pose proof (H b (or_introl eq_refl)) as Gb. destruct (bk_status b); try exact Gb.
      cbn [apply_all fold_left apply_eff bs_db]. destruct G as (n & In_ & _). rewrite (get_update n) by exact In_.
      rewrite Gb, N.eqb_refl. reflexivity.
    + intros y Hy. right. intros E. apply Nx. rewrite <- E. now apply in_map.
  - apply IH; auto. intros y Hy. rewrite Ot; [apply H; now right|]. intros E. apply Nx. rewrite <- E. now apply in_map.
Qed.
Lemma list_NoDup n db : Inv n db -> NoDup (map bk_id (backups_list db)).
Proof.
  intros I. assert (P : incl (map N.of_nat (seq 1 (N.to_nat n))) (map bk_id (backups_list db))).
  { intros id H. apply in_map_iff in H as (m & <- & Hm). apply in_seq in Hm.
    destruct (get_ok n db (N.of_nat m) I) as (b & G & Eb); [lia|]. apply in_map_iff. exists b. split; [exact Eb|].
    apply (list_In n); [exact I|]. now rewrite Eb. }
  apply (@NoDup_incl_NoDup N (map N.of_nat (seq 1 (N.to_nat n)))); [| |exact P].
  - apply FinFun.Injective_map_NoDup; [|apply seq_NoDup]. intros a b. apply Nnat.Nat2N.inj.
  - rewrite map_length, map_length, seq_length, (list_count n db I). apply le_n.
Qed.
Lemma restart_get s b : Good s -> backup_get (bk_id b) (bs_db s) = Ok b -> backup_get (bk_id b) (bs_db (restart s)) = Ok (after_restart b).
Proof.
  intros G Gb. assert (G0 := G). destruct G0 as (n & I & _). unfold restart. cbn [bs_db]. apply resets_get; [exact G| | |].
  - now apply (list_NoDup n).
  - intros x Hx. now apply (list_In n) in Hx.
  - now apply (list_In n).
Qed.

(** ** The clock *)
Definition Mono (ts : list Z) (s : St) : Prop :=
  (forall b, backup_get (bk_id b) (bs_db s) = Ok b -> In (bk_created b) ts) /\
  (forall a b, backup_get (bk_id a) (bs_db s) = Ok a -> backup_get (bk_id b) (bs_db s) = Ok b ->
     (bk_id a <= bk_id b)%N -> (bk_created a <= bk_created b)%Z).
Definition makes_at (ts : list Z) (e : Eff) : Prop := match e with ECreate t => In t ts /\ Forall (fun x => (x <= t)%Z) ts | _ => True end.
Lemma Mono_eff ts e s : Good s -> makes_at ts e -> Mono ts s -> Mono ts (apply_eff e s).
Proof.
  intros (n & I & _) M (H1 & H2). unfold Mono. rewrite db_eff. destruct e; try (split; assumption).
  - cbn in M. destruct M as (M1 & M2). rewrite Forall_forall in M2.
    destruct (create_cases n now (prov_from (bs_set s)) (st_enc (bs_set s)) _ I) as [(_ & E)|(_ & db' & E & I' & G)]; rewrite E; cbn [snd]; [split; assumption|].
    split.
    + intros b Gb. rewrite G in Gb. destruct (N.eqb_spec (bk_id b) (n + 1)) as [Q|D].
      * assert (Xb : mkBackup (n + 1) now (prov_from (bs_set s)) Idle (st_enc (bs_set s)) = b) by congruence. rewrite <- Xb. exact M1.
      * now apply H1.
    + intros a b Ga Gb L. rewrite G in Ga, Gb.
      destruct (N.eqb_spec (bk_id a) (n + 1)) as [Qa|Da]; destruct (N.eqb_spec (bk_id b) (n + 1)) as [Qb|Db].
      * assert (a = b) by congruence. subst. lia.
      * destruct (get_range _ _ _ _ I Gb) as (R & _). lia.
      * assert (Xb : mkBackup (n + 1) now (prov_from (bs_set s)) Idle (st_enc (bs_set s)) = b) by congruence. rewrite <- Xb. cbn. apply M2. now apply H1.
      * now apply H2.
  - assert (C : forall b, backup_get (bk_id b) (update_status id s0 (bs_db s)) = Ok b ->
              exists b', backup_get (bk_id b') (bs_db s) = Ok b' /\ bk_id b' = bk_id b /\ bk_created b' = bk_created b).
    { intros b Gb. rewrite (get_update n) in Gb by exact I. destruct (backup_get (bk_id b) (bs_db s)) as [b'|] eqn:G'; [|discriminate].
      destruct (get_range _ _ _ _ I G') as (_ & E & _). exists b'. rewrite E. split; [exact G'|]. split; [reflexivity|].
      assert (Xb : b = if N.eqb (bk_id b) id then with_status s0 b' else b') by congruence. rewrite Xb. now destruct (N.eqb _ _). }
    split.
    + intros b Gb. destruct (C b Gb) as (b' & G' & _ & E). rewrite <- E. now apply H1.
    + intros a b Ga Gb L. destruct (C a Ga) as (a' & Ga' & Ia & Ea). destruct (C b Gb) as (b' & Gb' & Ib & Eb).
      rewrite <- Ea, <- Eb. apply H2; auto. now rewrite Ia, Ib.
Qed.
Lemma Mono_all ts es : forall s, Good s -> Forall not_idle es -> Forall (makes_at ts) es -> Mono ts s -> Mono ts (apply_all es s).
Proof.
  induction es as [|e es IH]; intros s G NI F M; [exact M|]. inversion F; inversion NI; subst. cbn.
  apply IH; auto; [now apply Good_eff|now apply Mono_eff].
Qed.
Lemma makes_run ts s b oc : Forall (makes_at ts) (run_effects s b oc).
Proof. eapply Forall_impl; [|apply run_no_create]. intros e. destruct e; cbn; trivial; discriminate. Qed.
Lemma makes_tick ts now oc s : In now ts -> Forall (fun x => (x <= now)%Z) ts -> Forall (makes_at ts) (tick_effects now oc s).
Proof.
  intros H1 H2. unfold tick_effects.
  destruct (negb (bs_alive s)); [constructor|]. destruct (negb (st_enabled (bs_set s))); [constructor|].
  destruct (find _ _); [apply makes_run|]. destruct (due _ _ _) as [[]|]; [|constructor|repeat constructor].
  match goal with |- context [if ?c then [] else _] => destruct c end; [constructor|].
  destruct (st_prov (bs_set s)); try (repeat constructor; fail);
    (destruct (new_backup now s); [constructor; [split; assumption|apply makes_run]|repeat constructor]).
Qed.
Lemma Mono_weak ts ts' s : incl ts ts' -> Mono ts s -> Mono ts' s.
Proof. intros H (H1 & H2). split; auto. Qed.
Lemma Mono_resets ts l : forall s, Good s -> Mono ts s -> Mono ts (fold_left reset_one l s).
Proof.
  induction l as [|b l IH]; intros s G M; [exact M|]. cbn. destruct (reset_touches b) as (N1 & _). apply IH.
  - unfold reset_one. destruct (bk_status b); try exact G. now apply Good_all.
  - unfold reset_one. destruct (bk_status b); try exact M. apply Mono_all; auto. repeat constructor.
Qed.
Lemma Mono_restart ts s : Good s -> Mono ts s -> Mono ts (restart s).
Proof. intros G M. exact (Mono_resets ts (backups_list (bs_db s)) s G M). Qed.
Lemma sorted_last (l : list Z) x : StronglySorted Z.le (l ++ [x]) -> StronglySorted Z.le l /\ Forall (fun y => (y <= x)%Z) l.
Proof.
  induction l as [|y l IH]; cbn; intros H; [split; constructor|]. inversion H as [|? ? H1 H2]; subst.
  destruct (IH H1) as (H3 & H4). apply Forall_app in H2 as (H5 & H6). inversion H6; subst. split; constructor; auto.
Qed.
Lemma Mono_step ts o s : Good s -> Mono ts s -> StronglySorted Z.le (ts ++ time_of o) -> Mono (ts ++ time_of o) (step o s).
Proof.
  intros G M St_.
  assert (Tk : forall now, time_of o = [now] -> In now (ts ++ time_of o) /\ Forall (fun x => (x <= now)%Z) (ts ++ time_of o)).
  { intros now E. rewrite E in St_ |- *. split; [apply in_or_app; right; now left|]. apply sorted_last in St_ as (_ & F).
    apply Forall_app. split; [exact F|]. constructor; [lia|constructor]. }
  assert (M' : Mono (ts ++ time_of o) s) by (eapply Mono_weak; [|exact M]; intros x Hx; apply in_or_app; now left).
  destruct o; cbn [step].
  - destruct (Tk now eq_refl). apply Mono_all; auto; [apply tick_not_idle|now apply makes_tick].
  - destruct (Tk now eq_refl) as (T1 & T2).
    assert (F : Forall (makes_at (ts ++ time_of (OCrash now oc k))) (firstn k (tick_effects now oc s))).
    { pose proof (makes_tick _ now oc s T1 T2) as F. rewrite <- (firstn_skipn k (tick_effects now oc s)) in F. apply Forall_app in F. apply F. }
    pose proof (firstn_not_idle k now oc s) as NI.
    apply Mono_restart; [now apply Good_all|]. now apply Mono_all.
  - now apply Mono_restart.
  - unfold ask. destruct (st_enabled (bs_set s)); [|exact M']. destruct (Tk now eq_refl). apply Mono_eff; auto. split; auto.
  - exact M'.
Qed.
Lemma times_app a b : times (a ++ b) = (times a ++ times b)%list.
Proof. apply flat_map_app. Qed.
Lemma Mono_run set ops : StronglySorted Z.le (times ops) -> Mono (times ops) (run ops (fresh set)).
Proof.
  induction ops as [|o ops IH] using rev_ind; intros So.
  - split; intros b; intros; discriminate.
  - rewrite times_app in So |- *. unfold run. rewrite fold_left_app. cbn [fold_left].
    replace (times [o]) with (time_of o) in * by (cbn; now rewrite app_nil_r).
    apply Mono_step; [apply Good_run, Good_fresh| |exact So]. apply IH.
    clear - So. induction (times ops) as [|x l IHl]; cbn in *; [constructor|]. inversion So as [|? ? S1 S2]; subst.
    constructor; [auto|]. apply Forall_app in S2. apply S2.
Qed.
Lemma minute_mono a b : (a <= b)%Z -> (minute_of a <= minute_of b)%Z.
Proof.
  intros H. unfold minute_of. pose proof (Z.div_mod a 60 ltac:(lia)). pose proof (Z.div_mod b 60 ltac:(lia)).
  pose proof (Z.div_le_mono a b 60 ltac:(lia) H). lia.
Qed.
