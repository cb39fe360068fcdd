(** The checksum of the log notices every change of up to four neighbouring bytes. *)
From Coq Require Import List NArith Lia Bool.
From Verif Require Import Bytes BytesFacts LogFacts.
Import ListNotations.
Local Open Scope N_scope.

(** *** One bit: linear, and one-to-one on 32 bits *)
Lemma odd_lxor a b : N.odd (N.lxor a b) = xorb (N.odd a) (N.odd b).
Proof. rewrite <- !N.bit0_odd. apply N.lxor_spec. Qed.
Lemma crc_bit_lxor a b : crc_bit (N.lxor a b) = N.lxor (crc_bit a) (crc_bit b).
Proof.
  unfold crc_bit. rewrite odd_lxor, N.shiftr_lxor. generalize (N.shiftr a 1) (N.shiftr b 1). intros x y. generalize 0xEDB88320. intro g.
  destruct (N.odd a), (N.odd b); cbn [xorb]; apply N.bits_inj; intro i; rewrite !N.lxor_spec;
    destruct (N.testbit x i), (N.testbit y i), (N.testbit g i); reflexivity.
Qed.
Lemma crc_bit_zero c : c < 2 ^ 32 -> crc_bit c = 0 -> c = 0.
Proof.
  intros H E. unfold crc_bit in E. destruct (N.odd c) eqn:O.
  - exfalso. apply N.lxor_eq in E. assert (B : N.testbit (N.shiftr c 1) 31 = true) by (rewrite E; reflexivity).
    rewrite N.shiftr_spec' in B. change (31 + 1) with 32 in B. rewrite (proj1 (lt_pow2_testbit c 32) H 32) in B; [discriminate|lia].
  - assert (c = 2 * (c / 2)).
    { rewrite (N.div_mod c 2) at 1 by lia. replace (c mod 2) with 0; [lia|]. rewrite <- N.bit0_mod, N.bit0_odd, O. reflexivity. }
    rewrite N.shiftr_div_pow2 in E. change (2 ^ 1) with 2 in E. lia.
Qed.
Lemma crc_bit_inj a b : a < 2 ^ 32 -> b < 2 ^ 32 -> crc_bit a = crc_bit b -> a = b.
Proof.
  intros Ha Hb E. apply N.lxor_eq, crc_bit_zero; [now apply lxor_bound|]. rewrite crc_bit_lxor, E. apply N.lxor_nilpotent.
Qed.
Lemma crc_bit_even x : crc_bit (2 * x) = x.
Proof.
  unfold crc_bit. rewrite N.odd_mul. change (N.odd 2) with false. cbn [andb]. rewrite N.shiftr_div_pow2. change (2 ^ 1) with 2. rewrite N.mul_comm. apply N.div_mul. lia.
Qed.
(** *** Eight bits *)
Lemma iter_lxor n : forall a b, Nat.iter n crc_bit (N.lxor a b) = N.lxor (Nat.iter n crc_bit a) (Nat.iter n crc_bit b).
Proof. induction n as [|n IH]; intros a b; [reflexivity|]. cbn [Nat.iter nat_rect]. change (nat_rect _ ?x _ n) with (Nat.iter n crc_bit x). now rewrite IH, crc_bit_lxor. Qed.
Lemma iter_bound n : forall a, a < 2 ^ 32 -> Nat.iter n crc_bit a < 2 ^ 32.
Proof. induction n as [|n IH]; intros a H; [exact H|]. apply crc_bit_bound. now apply IH. Qed.
Lemma iter_inj n : forall a b, a < 2 ^ 32 -> b < 2 ^ 32 -> Nat.iter n crc_bit a = Nat.iter n crc_bit b -> a = b.
Proof.
  induction n as [|n IH]; intros a b Ha Hb E; [exact E|]. apply IH; auto. apply crc_bit_inj; auto using iter_bound.
Qed.
Lemma iter_256 x : Nat.iter 8 crc_bit (256 * x) = x.
Proof.
  replace (256 * x) with (2 * (2 * (2 * (2 * (2 * (2 * (2 * (2 * x)))))))) by lia. cbn [Nat.iter nat_rect]. now rewrite !crc_bit_even.
Qed.
(** *** Byte strings *)
Lemma fold_bound l : is_bytes l -> forall c, c < 2 ^ 32 -> fold_left crc_byte l c < 2 ^ 32.
Proof. induction 1 as [|b l Hb _ IH]; intros c Hc; [exact Hc|]. apply IH. now apply crc_byte_bound. Qed.
Lemma fold_inj l : is_bytes l -> forall a b, a < 2 ^ 32 -> b < 2 ^ 32 -> fold_left crc_byte l a = fold_left crc_byte l b -> a = b.
Proof.
  induction 1 as [|x l Hx _ IH]; intros a b Ha Hb E; [exact E|]. cbn [fold_left] in E. apply IH in E; auto using crc_byte_bound.
  unfold crc_byte in E. assert (X : x < 2 ^ 32) by (eapply N.lt_trans; [exact Hx|reflexivity]). apply iter_inj in E; auto using lxor_bound.
  assert (N.lxor (N.lxor a x) x = N.lxor (N.lxor b x) x) by congruence. now rewrite !N.lxor_assoc, N.lxor_nilpotent, !N.lxor_0_r in H.
Qed.
Lemma add_lxor b r : b < 256 -> b + 256 * r = N.lxor b (256 * r).
Proof.
  intros H. apply N.add_nocarry_lxor. apply N.bits_inj. intro i. rewrite N.land_spec, N.bits_0. replace (256 * r) with (N.shiftl r 8) by (rewrite N.shiftl_mul_pow2; change (2 ^ 8) with 256; lia).
  destruct (N.lt_ge_cases i 8) as [L|L]; [rewrite (N.shiftl_spec_low r 8 i L); apply andb_false_r|].
  change 256 with (2 ^ 8) in H. now rewrite (proj1 (lt_pow2_testbit b 8) H i L).
Qed.
(** Up to four bytes enter as one number. *)
Lemma fold_number w : is_bytes w -> (length w <= 4)%nat -> forall c, fold_left crc_byte w c = fold_left crc_byte (repeat 0 (length w)) (N.lxor c (of_le w)).
Proof.
  induction 1 as [|b w Hb Hw IH]; intros L c; cbn [fold_left length repeat of_le]; [now rewrite N.lxor_0_r|]. cbn [length] in L.
  rewrite IH by lia. f_equal. unfold crc_byte. rewrite N.lxor_0_r, add_lxor by exact Hb. rewrite <- N.lxor_assoc, (iter_lxor 8 (N.lxor c b)), iter_256. reflexivity.
Qed.
Lemma of_le_bound w : is_bytes w -> of_le w < 256 ^ N.of_nat (length w).
Proof.
  induction 1 as [|b w Hb _ IH]; [reflexivity|]. cbn [of_le length]. rewrite Nat2N.inj_succ, N.pow_succ_r'. lia.
Qed.
Lemma of_le_inj w : is_bytes w -> forall w', is_bytes w' -> length w = length w' -> of_le w = of_le w' -> w = w'.
Proof.
  induction 1 as [|b w Hb _ IH]; intros [|b' w'] H' L E; try discriminate; [reflexivity|]. inversion H'; subst. cbn [of_le length] in *.
  assert (b = b') by lia. subst b'. f_equal. apply IH; auto; lia.
Qed.
Theorem burst_seen a w w' b : is_bytes a -> is_bytes w -> is_bytes w' -> is_bytes b -> length w = length w' -> (length w <= 4)%nat ->
  hash_crc32 (a ++ w ++ b) = hash_crc32 (a ++ w' ++ b) -> w = w'.
Proof.
  intros Ha Hw Hw' Hb L L4 E. unfold hash_crc32, crc32 in E.
  assert (C : forall x y k, N.lxor x k = N.lxor y k -> x = y).
  { intros x y k H. assert (H1 : N.lxor (N.lxor x k) k = N.lxor (N.lxor y k) k) by congruence. now rewrite !N.lxor_assoc, N.lxor_nilpotent, !N.lxor_0_r in H1. }
  apply C, C in E. rewrite !fold_left_app in E. set (c := fold_left crc_byte a 0xFFFFFFFF) in *.
  assert (Bc : c < 2 ^ 32) by (apply fold_bound; [exact Ha|reflexivity]).
  apply fold_inj in E; auto using fold_bound. rewrite (fold_number w), (fold_number w') in E by (auto; lia). rewrite <- L in E.
  assert (B : forall v, is_bytes v -> (length v <= 4)%nat -> of_le v < 2 ^ 32).
  { intros v Hv Lv. eapply N.lt_le_trans; [apply of_le_bound, Hv|]. change (2 ^ 32) with (256 ^ 4). apply N.pow_le_mono_r; lia. }
  apply fold_inj in E; [|apply Forall_forall; intros z Hz; apply repeat_spec in Hz; subst; reflexivity|apply lxor_bound; auto|apply lxor_bound; auto; apply B; auto; lia].
  rewrite !(N.lxor_comm c) in E. apply C in E. now apply of_le_inj.
Qed.
