From Coq Require Import List NArith ZArith Lia Bool ZifyBool ZifyNat ZifyN.
From Verif Require Import Bytes BytesFacts Value ValueFacts Log.
Import ListNotations.
Local Open Scope N_scope.

(** ** [hash_crc32] is a 32-bit value *)
Lemma lt_pow2_testbit a n : a < 2 ^ n <-> (forall m, n <= m -> N.testbit a m = false).
Proof.
  split.
  - intros H m Hm. destruct (N.eq_dec a 0) as [->|Ha]; [apply N.bits_0|].
    apply N.bits_above_log2. apply N.log2_lt_pow2 in H; lia.
  - intros H. destruct (N.eq_dec a 0) as [->|Ha].
    { apply N.neq_0_lt_0, N.pow_nonzero. lia. }
    apply N.log2_lt_pow2; [lia|].
    destruct (N.lt_ge_cases (N.log2 a) n) as [L|L]; [exact L|].
    specialize (H _ L). rewrite N.bit_log2 in H by assumption. discriminate.
Qed.

Lemma lxor_bound a b n : a < 2 ^ n -> b < 2 ^ n -> N.lxor a b < 2 ^ n.
Proof.
  rewrite !lt_pow2_testbit. intros Ha Hb m Hm.
  now rewrite N.lxor_spec, Ha, Hb.
Qed.

Lemma shiftr_bound a k n : a < 2 ^ n -> N.shiftr a k < 2 ^ n.
Proof.
  rewrite !lt_pow2_testbit. intros Ha m Hm.
  rewrite N.shiftr_spec' . apply Ha. lia.
Qed.

Lemma crc_bit_bound c : c < 2 ^ 32 -> crc_bit c < 2 ^ 32.
Proof.
  intros H. unfold crc_bit. destruct (N.odd c).
  - apply lxor_bound; [now apply shiftr_bound|reflexivity].
  - now apply shiftr_bound.
Qed.

Lemma crc_byte_bound c b : c < 2 ^ 32 -> b < 256 -> crc_byte c b < 2 ^ 32.
Proof.
  intros Hc Hb. unfold crc_byte.
  assert (H : N.lxor c b < 2 ^ 32).
  { apply lxor_bound; [exact Hc|]. eapply N.lt_trans; [exact Hb|reflexivity]. }
  revert H. generalize (N.lxor c b). clear. intros x H.
  cbn [Nat.iter]. repeat apply crc_bit_bound. exact H.
Qed.

Lemma hash_crc32_bound l : is_bytes l -> hash_crc32 l < 2 ^ 32.
Proof.
  intros H. unfold hash_crc32, crc32.
  apply lxor_bound; [|reflexivity]. apply lxor_bound; [|reflexivity].
  assert (G : 0xFFFFFFFF < 2 ^ 32) by reflexivity.
  revert G. generalize 0xFFFFFFFF as c. induction H as [|b l Hb _ IH]; intros c Hc; cbn [fold_left].
  - exact Hc.
  - apply IH. now apply crc_byte_bound.
Qed.

Section WithCrc.
Variable crc : list N -> N.

Lemma read_buf_app k a b : length a = k -> read_buf k (a ++ b) = (a, b).
Proof.
  intros <-. unfold read_buf. rewrite app_length.
  replace (length a - (length a + length b))%nat with O by lia.
  rewrite firstn_app_exact, skipn_app_exact. cbn [repeat]. now rewrite app_nil_r.
Qed.

Lemma read_buf_short k l :
  (length l <= k)%nat -> read_buf k l = (l ++ repeat 0 (k - length l), []).
Proof. intros. unfold read_buf. now rewrite firstn_all2, skipn_all2 by assumption. Qed.

(** A record as the file system can hold it: 32-bit crc and 64-bit length. *)
Definition record_ok (o : LogOp) : Prop :=
  op_ok o /\ crc (enc_op o) < 2 ^ 32 /\ N.of_nat (length (enc_op o)) < 2 ^ 64.

Lemma frame_length d : length (frame crc d) = (12 + length d)%nat.
Proof. unfold frame. rewrite !app_length, !le_bytes_length. lia. Qed.

Lemma frame_nonempty d l : exists b r, frame crc d ++ l = b :: r.
Proof. unfold frame. cbn [le_bytes app]. eauto. Qed.

Lemma recover_loop_frame o fuel rest :
  record_ok o ->
  recover_loop crc (S fuel) (log_record crc o ++ rest) =
  match recover_loop crc fuel rest with Ok ops => Ok (o :: ops) | Err e => Err e end.
Proof.
  intros (Hop & Hc & Hl). unfold log_record. cbn [recover_loop].
  destruct (frame_nonempty (enc_op o) rest) as (b & r & E). rewrite E, <- E. clear E b r.
  unfold frame. rewrite <- !app_assoc.
  rewrite read_buf_app by apply le_bytes_length.
  rewrite read_buf_app by apply le_bytes_length.
  rewrite !of_le_le_bytes, !N.mod_small by assumption.
  rewrite Nat2N.id, read_buf_app by reflexivity.
  rewrite N.eqb_refl. cbn [negb].
  pose proof (deserialize_enc_op o [] Hop) as D. rewrite app_nil_r in D. rewrite D. reflexivity.
Qed.

Lemma recover_loop_log ops fuel rest :
  Forall record_ok ops ->
  recover_loop crc (length ops + fuel) (log_file crc ops ++ rest) =
  match recover_loop crc fuel rest with Ok r => Ok (ops ++ r) | Err e => Err e end.
Proof.
  intros F; induction F as [|o ops Ho F IH]; cbn [length Nat.add log_file map concat].
  - cbn [app]. now destruct (recover_loop crc fuel rest).
  - rewrite <- app_assoc, recover_loop_frame by assumption.
    fold (log_file crc ops). rewrite IH.
    destruct (recover_loop crc fuel rest); reflexivity.
Qed.

Lemma log_file_length ops : (length ops <= length (log_file crc ops))%nat.
Proof.
  induction ops as [|o ops IH]; [cbn; lia|]. unfold log_file in *; cbn [map concat length].
  rewrite app_length. assert (H := frame_length (enc_op o)). fold (log_record crc o) in H. lia.
Qed.

(** Fuel is never the limit. *)
Lemma read_buf_rest_length k l : (length (snd (read_buf k l)) = length l - k)%nat.
Proof. unfold read_buf. cbn [snd]. apply skipn_length. Qed.

Lemma recover_loop_fuel fuel l :
  (length l < fuel)%nat -> recover_loop crc fuel l <> Err OutOfFuel.
Proof.
  revert l; induction fuel as [|fuel IH]; intros l Hf; [lia|].
  cbn [recover_loop]. destruct l as [|b l']; [discriminate|].
  set (l := b :: l') in *.
  pose proof (read_buf_rest_length 4 l) as H1.
  destruct (read_buf 4 l) as [c1 l1]; cbn [snd] in H1.
  pose proof (read_buf_rest_length 8 l1) as H2.
  destruct (read_buf 8 l1) as [c2 l2]; cbn [snd] in H2.
  pose proof (read_buf_rest_length (N.to_nat (of_le c2)) l2) as H3.
  destruct (read_buf (N.to_nat (of_le c2)) l2) as [c3 l3]; cbn [snd] in H3.
  destruct (negb _); [discriminate|]. destruct (deserialize_op c3); [|discriminate].
  assert (length l = S (length l')) by reflexivity.
  specialize (IH l3). destruct (recover_loop crc fuel l3); [discriminate|].
  intros E; injection E as ->. apply IH; [lia|reflexivity].
Qed.

Lemma recover_loop_more fuel fuel' l r :
  (fuel <= fuel')%nat -> recover_loop crc fuel l = Ok r -> recover_loop crc fuel' l = Ok r.
Proof.
  revert fuel' l r; induction fuel as [|fuel IH]; intros fuel' l r Hle H; [discriminate|].
  destruct fuel' as [|fuel']; [lia|]. cbn [recover_loop] in *.
  destruct l as [|b l']; [exact H|]. set (l := b :: l') in *.
  destruct (read_buf 4 l) as [c1 l1]. destruct (read_buf 8 l1) as [c2 l2].
  destruct (read_buf (N.to_nat (of_le c2)) l2) as [c3 l3].
  destruct (negb _); [discriminate|]. destruct (deserialize_op c3); [|discriminate].
  destruct (recover_loop crc fuel l3) eqn:E; [|discriminate].
  erewrite IH; [exact H| |exact E]. lia.
Qed.

Lemma recover_loop_more_err fuel fuel' l e :
  (fuel <= fuel')%nat -> e <> OutOfFuel ->
  recover_loop crc fuel l = Err e -> recover_loop crc fuel' l = Err e.
Proof.
  revert fuel' l; induction fuel as [|fuel IH]; intros fuel' l Hle He H.
  { cbn in H; injection H as <-; congruence. }
  destruct fuel' as [|fuel']; [lia|]. cbn [recover_loop] in *.
  destruct l as [|b l']; [exact H|]. set (l := b :: l') in *.
  destruct (read_buf 4 l) as [c1 l1]. destruct (read_buf 8 l1) as [c2 l2].
  destruct (read_buf (N.to_nat (of_le c2)) l2) as [c3 l3].
  destruct (negb _); [exact H|]. destruct (deserialize_op c3); [|exact H].
  destruct (recover_loop crc fuel l3) eqn:E; [discriminate|].
  injection H as ->. erewrite IH; [reflexivity| | |exact E]; auto. lia.
Qed.

(** Recovery of any file that starts with complete records continues after them. *)
Lemma recover_log_app ops rest :
  Forall record_ok ops ->
  recover_log crc (log_file crc ops ++ rest) =
  match recover_log crc rest with Ok r => Ok (ops ++ r) | Err e => Err e end.
Proof.
  intros F. unfold recover_log.
  pose proof (log_file_length ops) as HL.
  pose proof (recover_loop_log ops (S (length rest)) rest F) as H.
  pose proof (recover_loop_fuel (S (length rest)) rest ltac:(lia)) as NF.
  destruct (recover_loop crc (S (length rest)) rest) eqn:E.
  - eapply recover_loop_more; [|exact H]. rewrite app_length. lia.
  - eapply recover_loop_more_err; [| |exact H]; [rewrite app_length; lia|congruence].
Qed.

Lemma recover_log_complete ops :
  Forall record_ok ops -> recover_log crc (log_file crc ops) = Ok ops.
Proof.
  intros F. rewrite <- (app_nil_r (log_file crc ops)), recover_log_app by exact F.
  cbn. now rewrite app_nil_r.
Qed.

(** ** Torn tails *)
Lemma deserialize_nil : deserialize_op [] = None.
Proof. reflexivity. Qed.

(** What recovery makes of a strict, non-empty prefix of one record: it looks at one
    zero-padded record. *)
Lemma skipn_firstn_all {A} n k (l : list A) : (k <= n)%nat -> skipn n (firstn k l) = [].
Proof. intros. apply skipn_all2. rewrite firstn_length. lia. Qed.

(** The payloads recovery can see after a cut: a zero-padded prefix of the payload, or
    zeros when the cut is inside the length field. *)
Definition torn_image (e d : list N) : Prop :=
  (exists j, (j <= length e)%nat /\ d = firstn j e ++ repeat 0 (length e - j))
  \/ (exists n, (n <= length e)%nat /\ d = repeat 0 n).

Lemma recover_torn o k :
  record_ok o -> (0 < k < length (log_record crc o))%nat ->
  let torn := firstn k (log_record crc o) in
  (exists e, recover_log crc torn = Err e)
  \/ recover_log crc torn = Ok [o]
  \/ exists d, torn_image (enc_op o) d /\ d <> enc_op o /\ crc d = crc (enc_op o).
Proof.
  intros (Hop & Hc & Hl) Hk torn.
  assert (Hlen : length torn = k) by (unfold torn; rewrite firstn_length; lia).
  unfold log_record in Hk. rewrite frame_length in Hk.
  set (d := enc_op o) in *.
  unfold recover_log. cbn [recover_loop].
  destruct torn as [|b t'] eqn:Et; [cbn in Hlen; lia|]. rewrite <- Et in *. clear b t' Et.
  (* splitting the frame *)
  set (H := le_bytes 4 (crc d)). set (L := le_bytes 8 (N.of_nat (length d))).
  assert (HH : length H = 4%nat) by apply le_bytes_length.
  assert (HL : length L = 8%nat) by apply le_bytes_length.
  assert (Efr : frame crc d = H ++ L ++ d) by reflexivity.
  destruct (Nat.le_gt_cases k 4) as [K4|K4].
  - (* cut inside (or right after) the crc: length reads as 0 *)
    left. rewrite (read_buf_short 4 torn) by lia.
    rewrite (read_buf_short 8 []) by (cbn; lia).
    cbn [length app]. rewrite of_le_zeros. rewrite (read_buf_short (N.to_nat 0) []) by (cbn; lia).
    cbn [length app N.to_nat Nat.sub repeat].
    destruct (negb _); [eauto|]. rewrite deserialize_nil. eauto.
  - assert (Et : torn = H ++ firstn (k - 4) (L ++ d)).
    { unfold torn, log_record. fold d. rewrite Efr, firstn_app, HH.
      rewrite firstn_all2 by lia. reflexivity. }
    rewrite Et, read_buf_app by exact HH.
    assert (EH : of_le H = crc d).
    { unfold H. rewrite of_le_le_bytes. now apply N.mod_small. }
    rewrite EH.
    destruct (Nat.le_gt_cases k 12) as [K12|K12].
    + (* cut inside the length: payload reads as zeros *)
      set (l1 := firstn (k - 4) (L ++ d)).
      assert (length l1 <= 8)%nat by (unfold l1; rewrite firstn_length; lia).
      rewrite (read_buf_short 8 l1) by assumption.
      set (n := N.to_nat (of_le (l1 ++ repeat 0 (8 - length l1)))).
      rewrite (read_buf_short n []) by (cbn; lia).
      cbn [length app]. rewrite Nat.sub_0_r.
      destruct (N.eqb_spec (crc d) (crc (repeat 0 n))) as [E|E]; cbn [negb]; [|eauto].
      destruct (list_eq_dec N.eq_dec (repeat 0 n) d) as [E'|E'].
      * right; left. rewrite E'.
        pose proof (deserialize_enc_op o [] Hop) as D. rewrite app_nil_r in D. fold d in D. rewrite D.
        destruct (length _); reflexivity.
      * right; right. exists (repeat 0 n). split; [|split; [exact E'|now symmetry]].
        right. exists n. split; [|reflexivity].
        assert (EL : of_le L = N.of_nat (length d)).
        { unfold L. rewrite of_le_le_bytes. now apply N.mod_small. }
        assert (l1 = firstn (k - 4) L) as ->.
        { unfold l1. rewrite firstn_app. replace (k - 4 - length L)%nat with O by lia.
          cbn [firstn]. apply app_nil_r. }
        unfold n. rewrite of_le_app, of_le_zeros.
        rewrite <- (firstn_skipn (k - 4) L), of_le_app in EL. lia.
    + (* cut inside the payload *)
      assert (E1 : firstn (k - 4) (L ++ d) = L ++ firstn (k - 12) d).
      { rewrite firstn_app, HL, firstn_all2 by lia. f_equal. f_equal. lia. }
      rewrite E1, read_buf_app by exact HL.
      assert (EL : of_le L = N.of_nat (length d)).
      { unfold L. rewrite of_le_le_bytes. now apply N.mod_small. }
      rewrite EL, Nat2N.id.
      rewrite read_buf_short by (rewrite firstn_length; lia).
      set (d' := firstn (k - 12) d ++ repeat 0 (length d - length (firstn (k - 12) d))).
      destruct (N.eqb_spec (crc d) (crc d')) as [E|E]; cbn [negb]; [|eauto].
      destruct (list_eq_dec N.eq_dec d' d) as [E'|E'].
      * right; left. rewrite E'.
        pose proof (deserialize_enc_op o [] Hop) as D. rewrite app_nil_r in D. fold d in D. rewrite D.
        destruct (length _); reflexivity.
      * right; right. exists d'. split; [|split; [exact E'|now symmetry]].
        left. exists (k - 12)%nat. split; [lia|]. unfold d'.
        rewrite firstn_length. f_equal. f_equal. lia.
Qed.

(** A cut inside the first four bytes always prevents opening. *)
Lemma recover_torn_header o k :
  (0 < k <= 4)%nat -> exists e, recover_log crc (firstn k (log_record crc o)) = Err e.
Proof.
  intros Hk. set (torn := firstn k _).
  assert (Hlen : length torn = k).
  { unfold torn. rewrite firstn_length. unfold log_record. rewrite frame_length. lia. }
  unfold recover_log. cbn [recover_loop].
  destruct torn as [|b t'] eqn:Et; [cbn in Hlen; lia|]. rewrite <- Et in *. clear b t' Et.
  rewrite (read_buf_short 4 torn) by lia.
  rewrite (read_buf_short 8 []) by (cbn; lia).
  cbn [length app]. rewrite of_le_zeros. rewrite (read_buf_short (N.to_nat 0) []) by (cbn; lia).
  cbn [length app N.to_nat Nat.sub repeat].
  destruct (negb _); [eauto|]. rewrite deserialize_nil. eauto.
Qed.
End WithCrc.

(** With the real checksum every representable operation is a representable record. *)
Definition loggable (o : LogOp) : Prop :=
  op_ok o /\ N.of_nat (length (enc_op o)) < 2 ^ 64.
Lemma loggable_record_ok o : loggable o -> record_ok hash_crc32 o.
Proof.
  intros [H L]. split; [exact H|]. split; [|exact L].
  apply hash_crc32_bound. now apply is_bytes_op.
Qed.
Lemma loggable_records ops : Forall loggable ops -> Forall (record_ok hash_crc32) ops.
Proof. apply Forall_impl. exact loggable_record_ok. Qed.

Lemma torn_tail_shows_only_written ops op k shown :
    Forall loggable ops -> loggable op -> (k < length (log_record hash_crc32 op))%nat ->
    (forall d, torn_image (enc_op op) d -> hash_crc32 d = hash_crc32 (enc_op op) -> d = enc_op op) ->
    recover_log hash_crc32 (log_file hash_crc32 ops ++ firstn k (log_record hash_crc32 op)) = Ok shown ->
    shown = ops \/ shown = ops ++ [op].
Proof.
  intros H Ho Hk Hcol. rewrite recover_log_app by (apply loggable_records; exact H).
  destruct k as [|k].
  - cbn [firstn]. cbn. rewrite app_nil_r. intros E; injection E as <-. now left.
  - destruct (recover_torn hash_crc32 op (S k) (loggable_record_ok _ Ho) ltac:(lia))
      as [[e ->]|[-> | (d & Ht & Hd & Hc)]].
    + discriminate.
    + intros E; injection E as <-. now right.
    + exfalso. apply Hd. apply Hcol; assumption.
Qed.

(** Decision procedure for the checksum hypothesis on one payload. *)
Definition image_fine (e d : list N) : bool :=
  if list_eq_dec N.eq_dec d e then true else negb (hash_crc32 d =? hash_crc32 e).
Definition images_fine (e : list N) : bool :=
  forallb (fun j => image_fine e (firstn j e ++ repeat 0 (length e - j)) && image_fine e (repeat 0 j))
          (seq 0 (S (length e))).
Lemma torn_images_check e :
  images_fine e = true ->
  forall d, torn_image e d -> hash_crc32 d = hash_crc32 e -> d = e.
Proof.
  intros H d Hd Hc. unfold images_fine in H. rewrite forallb_forall in H.
  assert (G : image_fine e d = true).
  { destruct Hd as [(j & Hj & ->)|(n & Hn & ->)].
    - specialize (H j ltac:(apply in_seq; lia)). apply andb_prop in H. apply H.
    - specialize (H n ltac:(apply in_seq; lia)). apply andb_prop in H. apply H. }
  unfold image_fine in G. destruct (list_eq_dec N.eq_dec d e) as [E|E]; [exact E|].
  rewrite Hc, N.eqb_refl in G. discriminate.
Qed.
