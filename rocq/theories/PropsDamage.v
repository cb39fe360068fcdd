(** C139: a log whose bytes changed on the disk. *)
From Coq Require Import List NArith ZArith Lia Bool.
From Verif Require Import Bytes BytesFacts Value ValueFacts Log LogFacts CrcFacts PropsLog.
Import ListNotations.
Local Open Scope N_scope.

(** ** Specification *)
(** [r'] is [r] but for at most four neighbouring bytes, from place [at] on. *)
Definition changed_at (at_ : nat) (n : nat) (r r' : list N) : Prop :=
  exists a w w' b, r = a ++ w ++ b /\ r' = a ++ w' ++ b /\ length a = at_ /\ length w = n /\ length w' = n /\ (n <= 4)%nat /\ w <> w' /\ is_bytes w'.
(** A record is four bytes of checksum, eight of length, and what was written. *)
Definition outside_length (at_ n : nat) : Prop := (at_ + n <= 4 \/ 12 <= at_)%nat.
(** A file of records: every part that is shown has the checksum and the length in front of it. *)
Inductive checked : list N -> list LogOp -> Prop :=
| checked_end : checked [] []
| checked_record : forall crc_b len_b data rest op ops, length crc_b = 4%nat -> length len_b = 8%nat ->
    of_le crc_b = hash_crc32 data -> of_le len_b = N.of_nat (length data) -> deserialize_op data = Some op ->
    checked rest ops -> checked (crc_b ++ len_b ++ data ++ rest) (op :: ops).

Lemma is_bytes_app a b : is_bytes (a ++ b) <-> is_bytes a /\ is_bytes b.
Proof. apply Forall_app. Qed.
Lemma enc_op_bytes op : loggable op -> is_bytes (enc_op op).
Proof. intros [H _]. now apply is_bytes_op. Qed.
(** Reading one record whose checksum does not fit. *)
Lemma bad_record crc_b n data rest : length crc_b = 4%nat -> n < 2 ^ 64 -> length data = N.to_nat n -> of_le crc_b <> hash_crc32 data ->
  recover_log hash_crc32 (crc_b ++ le_bytes 8 n ++ data ++ rest) = Err CorruptedLog.
Proof.
  intros L Hn Ld Ne. unfold recover_log. cbn [recover_loop].
  destruct (crc_b ++ le_bytes 8 n ++ data ++ rest) as [|x y] eqn:E; [destruct crc_b; discriminate|]. rewrite <- E.
  rewrite (read_buf_app hash_crc32 4%nat) by exact L. rewrite (read_buf_app hash_crc32 8%nat) by apply le_bytes_length. rewrite of_le_le_bytes.
  change (256 ^ N.of_nat 8) with (2 ^ 64). rewrite N.mod_small by exact Hn. rewrite (read_buf_app hash_crc32) by exact Ld.
  apply N.eqb_neq in Ne. now rewrite Ne.
Qed.

(** ** C139 *)
(** A change of up to four neighbouring bytes of the checksum or of what was written, in any record
    of any log, keeps the table from opening. *)
Theorem C139_change_noticed_partial : forall ops op rest at_ n r',
  Forall loggable ops -> loggable op -> changed_at at_ n (log_record hash_crc32 op) r' -> outside_length at_ n ->
  recover_log hash_crc32 (log_file hash_crc32 ops ++ r' ++ rest) = Err CorruptedLog.
Proof.
  intros ops op rest at_ n r' Ho Hop (a & w & w' & b & E & E' & La & Lw & Lw' & L4 & Ne & Bw') Out.
  rewrite recover_log_app by now apply loggable_records. replace (recover_log hash_crc32 (r' ++ rest)) with (Err CorruptedLog : result LogError (list LogOp)); [reflexivity|symmetry].
  pose proof (enc_op_bytes op Hop) as Bd. pose proof (loggable_record_ok op Hop) as (_ & Hc & Hl). unfold log_record, frame in E.
  assert (P : N.of_nat (length (enc_op op)) < 2 ^ 64) by exact Hl. set (d := enc_op op) in *. set (n0 := N.of_nat (length d)) in *.
  assert (Ln : length d = N.to_nat n0) by (unfold n0; now rewrite Nat2N.id).
  destruct Out as [Out|Out].
  - (* in the checksum *)
    assert (X : exists b1, le_bytes 4 (hash_crc32 d) = a ++ w ++ b1 /\ b = b1 ++ le_bytes 8 n0 ++ d).
    { exists (firstn (4 - at_ - n) b).
      assert (F : le_bytes 4 (hash_crc32 d) = firstn 4 (a ++ w ++ b)). { rewrite <- E. rewrite firstn_app, le_bytes_length, Nat.sub_diag, firstn_O, app_nil_r. symmetry. apply firstn_all2. rewrite le_bytes_length. lia. }
      assert (G : le_bytes 8 n0 ++ d = skipn 4 (a ++ w ++ b)). { rewrite <- E. rewrite skipn_app, le_bytes_length, Nat.sub_diag, skipn_O, skipn_all2; [reflexivity|]. rewrite le_bytes_length. lia. }
      rewrite !firstn_app, !firstn_all2 in F by lia. rewrite !skipn_app, !skipn_all2 in G by lia.
      replace (4 - length a - length w)%nat with (4 - at_ - n)%nat in F, G by lia. split; [exact F|]. rewrite G. cbn [app]. symmetry. apply firstn_skipn. }
    destruct X as (b1 & X1 & ->). rewrite E'.
    replace ((a ++ w' ++ b1 ++ le_bytes 8 n0 ++ d) ++ rest) with ((a ++ w' ++ b1) ++ le_bytes 8 n0 ++ d ++ rest) by (rewrite <- !app_assoc; reflexivity).
    assert (L1 : (length a + (length w + length b1) = 4)%nat) by (rewrite <- !app_length, <- X1; apply le_bytes_length).
    apply bad_record; auto; [rewrite !app_length; lia|]. intro Bad. apply Ne.
    assert (B1 : is_bytes (a ++ w ++ b1)) by (rewrite <- X1; apply le_bytes_byte). apply is_bytes_app in B1 as (Ba & B1). apply is_bytes_app in B1 as (Bw & Bb).
    assert (Eq : a ++ w ++ b1 = a ++ w' ++ b1).
    { apply of_le_inj; [rewrite <- X1; apply le_bytes_byte|apply is_bytes_app; split; [exact Ba|]; apply is_bytes_app; auto|rewrite !app_length; lia|].
      rewrite Bad, <- X1, of_le_le_bytes. change (256 ^ N.of_nat 4) with (2 ^ 32). now apply N.mod_small. }
    apply app_inv_head in Eq. now apply app_inv_tail in Eq.
  - (* in what was written *)
    assert (X : exists a1, a = le_bytes 4 (hash_crc32 d) ++ le_bytes 8 n0 ++ a1 /\ d = a1 ++ w ++ b).
    { exists (skipn 12 a).
      assert (F : le_bytes 4 (hash_crc32 d) ++ le_bytes 8 n0 = firstn 12 a).
      { assert (Y : firstn 12 (le_bytes 4 (hash_crc32 d) ++ le_bytes 8 n0 ++ d) = firstn 12 (a ++ w ++ b)) by now rewrite E.
        rewrite app_assoc, (firstn_app 12 (le_bytes 4 _ ++ _)), app_length, !le_bytes_length in Y. cbn [Nat.add Nat.sub] in Y. rewrite firstn_O, app_nil_r, firstn_all2 in Y by (rewrite app_length, !le_bytes_length; lia).
        rewrite Y, firstn_app. replace (12 - length a)%nat with O by lia. now rewrite firstn_O, app_nil_r. }
      assert (G : d = skipn 12 a ++ w ++ b).
      { assert (Y : skipn 12 (le_bytes 4 (hash_crc32 d) ++ le_bytes 8 n0 ++ d) = skipn 12 (a ++ w ++ b)) by now rewrite E.
        rewrite app_assoc, (skipn_app 12 (le_bytes 4 _ ++ _)), app_length, !le_bytes_length in Y. cbn [Nat.add Nat.sub] in Y. rewrite skipn_O, skipn_all2 in Y by (rewrite app_length, !le_bytes_length; lia).
        cbn [app] in Y. rewrite Y, skipn_app. replace (12 - length a)%nat with O by lia. now rewrite skipn_O. }
      split; [|exact G]. rewrite app_assoc, F. symmetry. apply firstn_skipn. }
    destruct X as (a1 & -> & Ed). rewrite E'.
    replace ((((le_bytes 4 (hash_crc32 d) ++ le_bytes 8 n0 ++ a1) ++ w' ++ b) ++ rest)) with (le_bytes 4 (hash_crc32 d) ++ le_bytes 8 n0 ++ (a1 ++ w' ++ b) ++ rest) by (rewrite <- !app_assoc; reflexivity).
    apply bad_record; [apply le_bytes_length|exact P|rewrite <- Ln, Ed, !app_length; lia|].
    rewrite of_le_le_bytes. change (256 ^ N.of_nat 4) with (2 ^ 32). rewrite N.mod_small by exact Hc. intro Bad. apply Ne.
    rewrite Ed in Bd. apply is_bytes_app in Bd as (Ba & Bd). apply is_bytes_app in Bd as (Bw & Bb).
    apply (burst_seen a1 w w' b); auto; [lia|lia|]. rewrite <- Ed. exact Bad.
Qed.
(** What a table shows when it opens was in the file, each insert under its checksum; only the end
    of the file may be missing, and is then read as zeros. *)
Theorem C139_shown_was_checked : forall l ops, recover_log hash_crc32 l = Ok ops -> exists k, checked (l ++ repeat 0 k) ops.
Proof.
  intros l ops. unfold recover_log. generalize (S (length l)). intro fuel. revert l ops.
  induction fuel as [|fuel IH]; intros l ops H; [discriminate|]. cbn [recover_loop] in H.
  destruct l as [|x l0] eqn:El; [injection H as <-; exists O; constructor|]. rewrite <- El in *. clear El x l0.
  unfold read_buf in H. set (cb := firstn 4 l ++ repeat 0 (4 - length l)) in *. set (l1 := skipn 4 l) in *.
  set (lb := firstn 8 l1 ++ repeat 0 (8 - length l1)) in *. set (l2 := skipn 8 l1) in *. set (n := N.to_nat (of_le lb)) in *.
  set (data := firstn n l2 ++ repeat 0 (n - length l2)) in *. set (l3 := skipn n l2) in *.
  destruct (N.eqb_spec (of_le cb) (hash_crc32 data)) as [Ec|]; [|discriminate]. cbn [negb] in H.
  destruct (deserialize_op data) as [op|] eqn:Ed; [|discriminate]. destruct (recover_loop hash_crc32 fuel l3) as [ops'|] eqn:Er; [|discriminate]. injection H as <-.
  destruct (IH l3 ops' Er) as (k & Ck).
  assert (Take : forall m (v : list N), length (firstn m v ++ repeat 0 (m - length v)) = m) by (intros; rewrite app_length, firstn_length, repeat_length; lia).
  assert (Pad : forall m (v : list N), exists z, v ++ repeat 0 z = (firstn m v ++ repeat 0 (m - length v)) ++ skipn m v /\ (z = O \/ skipn m v = [])).
  { intros m v. destruct (le_lt_dec m (length v)) as [L|L].
    - exists O. replace (m - length v)%nat with O by lia. cbn [repeat]. rewrite !app_nil_r, firstn_skipn. auto.
    - exists (m - length v)%nat. rewrite firstn_all2, skipn_all2 by lia. rewrite app_nil_r. auto. }
  destruct (Pad 4%nat l) as (z1 & P1 & Z1). destruct (Pad 8%nat l1) as (z2 & P2 & Z2). destruct (Pad n l2) as (z3 & P3 & Z3).
  fold cb l1 in P1, Z1. fold lb l2 in P2, Z2. fold data l3 in P3, Z3.
  exists (z1 + (z2 + (z3 + k)))%nat. rewrite !repeat_app.
  replace (l ++ repeat 0 z1 ++ repeat 0 z2 ++ repeat 0 z3 ++ repeat 0 k) with (cb ++ lb ++ data ++ l3 ++ repeat 0 k).
  - constructor; auto; try apply Take. unfold data at 1. rewrite Take. unfold n. now rewrite N2Nat.id.
  - rewrite (app_assoc data), <- P3, <- (app_assoc l2), (app_assoc lb), <- P2, <- (app_assoc l1), (app_assoc cb), <- P1, <- (app_assoc l). reflexivity.
Qed.
(** The length of a record is not under its checksum.  Another length is noticed unless the bytes
    that are then read happen to have the same checksum ... *)
Theorem C139_length_changed_partial : forall ops op rest n, Forall loggable ops -> loggable op -> n < 2 ^ 64 ->
  let read := fst (read_buf (N.to_nat n) (enc_op op ++ rest)) in
  recover_log hash_crc32 (log_file hash_crc32 ops ++ (le_bytes 4 (hash_crc32 (enc_op op)) ++ le_bytes 8 n ++ enc_op op) ++ rest) = Err CorruptedLog
  \/ hash_crc32 read = hash_crc32 (enc_op op).
Proof.
  intros ops op rest n Ho Hop Hn read. destruct (N.eq_dec (hash_crc32 read) (hash_crc32 (enc_op op))) as [E|Ne]; [now right|left].
  rewrite recover_log_app by now apply loggable_records.
  replace (recover_log hash_crc32 _) with (Err CorruptedLog : result LogError (list LogOp)); [reflexivity|symmetry].
  pose proof (loggable_record_ok op Hop) as (_ & Hc & Hl). rewrite <- !app_assoc. unfold recover_log. cbn [recover_loop].
  destruct (le_bytes 4 (hash_crc32 (enc_op op)) ++ le_bytes 8 n ++ enc_op op ++ rest) as [|x y] eqn:E; [discriminate|]. rewrite <- E.
  rewrite (read_buf_app hash_crc32 4%nat) by apply le_bytes_length. rewrite (read_buf_app hash_crc32 8%nat) by apply le_bytes_length. rewrite !of_le_le_bytes.
  change (256 ^ N.of_nat 8) with (2 ^ 64). change (256 ^ N.of_nat 4) with (2 ^ 32). rewrite (N.mod_small n) by exact Hn. rewrite (N.mod_small (hash_crc32 (enc_op op))) by exact Hc.
  fold read. rewrite (surjective_pairing (read_buf _ _)). fold read.
  assert (Nq : (hash_crc32 (enc_op op) =? hash_crc32 read) = false) by (apply N.eqb_neq; congruence). now rewrite Nq.
Qed.
(** ... and then an insert is lost without a word: here one byte of the first record's length is
    changed, from 47 to 116, and the second record is read as the end of the first. *)
Definition C139_first : LogOp := Insert [KInt64 7] [VString (Some [104; 105])].
Definition C139_second : LogOp := Insert [KInt64 8] [VString (Some [99; 107; 98; 109; 99; 101; 97; 107; 97; 97; 97; 97])].
Theorem C139_lost_insert_refuted : exists ops l, Forall loggable ops /\ changed_at 4 1 (log_file hash_crc32 ops) l
  /\ recover_log hash_crc32 (log_file hash_crc32 ops) = Ok [C139_first; C139_second] /\ recover_log hash_crc32 l = Ok [C139_first].
Proof.
  exists [C139_first; C139_second], (firstn 4 (log_file hash_crc32 [C139_first; C139_second]) ++ [116] ++ skipn 5 (log_file hash_crc32 [C139_first; C139_second])).
  split; [|split; [|split; vm_compute; reflexivity]].
  - repeat constructor; cbn; try lia; repeat (constructor; cbn; unfold int_ok, bytes_ok, is_bytes; cbn; try lia; repeat split); try lia; repeat constructor; lia.
  - exists (firstn 4 (log_file hash_crc32 [C139_first; C139_second])), [47], [116], (skipn 5 (log_file hash_crc32 [C139_first; C139_second])).
    split; [vm_compute; reflexivity|]. split; [reflexivity|]. repeat split; try reflexivity; try discriminate; [lia|repeat constructor].
Qed.
(** A changed byte in the text of the first of two records. *)
Example C139_witness : exists r', changed_at 57 1 (log_record hash_crc32 C139_first) r' /\ outside_length 57 1 /\ loggable C139_first
  /\ recover_log hash_crc32 (r' ++ log_record hash_crc32 C139_second) = Err CorruptedLog.
Proof.
  exists (firstn 57 (log_record hash_crc32 C139_first) ++ [72] ++ skipn 58 (log_record hash_crc32 C139_first)).
  split; [|split; [right; lia|split; [|vm_compute; reflexivity]]].
  - exists (firstn 57 (log_record hash_crc32 C139_first)), [104], [72], (skipn 58 (log_record hash_crc32 C139_first)).
    split; [vm_compute; reflexivity|]. split; [reflexivity|]. repeat split; try reflexivity; try discriminate; [lia|repeat constructor].
  - repeat constructor; cbn; try lia; repeat (constructor; cbn; unfold int_ok, bytes_ok, is_bytes; cbn; try lia; repeat split); try lia; repeat constructor; lia.
Qed.
Print Assumptions C139_change_noticed_partial.
Print Assumptions C139_shown_was_checked.
Print Assumptions C139_length_changed_partial.
Print Assumptions C139_lost_insert_refuted.
