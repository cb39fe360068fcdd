(** Facts about [Bytes]: every primitive decoder inverts its encoder. *)
From Coq Require Import List NArith ZArith Lia Bool ZifyBool ZifyNat ZifyN.
From Verif Require Import Bytes.
Import ListNotations.
Local Open Scope N_scope.
Ltac Zify.zify_post_hook ::= Z.div_mod_to_equations.

Lemma le_bytes_length k n : length (le_bytes k n) = k.
Proof. revert n; induction k; intros; cbn; auto. Qed.

Lemma of_le_le_bytes k n : of_le (le_bytes k n) = n mod 256 ^ N.of_nat k.
Proof.
  revert n; induction k as [|k IH]; intros n.
  - cbn. now rewrite N.mod_1_r.
  - cbn [le_bytes of_le]. rewrite IH, Nat2N.inj_succ, N.pow_succ_r'.
    rewrite N.mod_mul_r; lia.
Qed.

Lemma le_bytes_byte k n : Forall (fun b => b < 256) (le_bytes k n).
Proof.
  revert n; induction k; intros n; cbn [le_bytes]; constructor; auto.
  apply N.mod_lt; lia.
Qed.

Lemma of_le_app a b : of_le (a ++ b) = of_le a + 256 ^ N.of_nat (length a) * of_le b.
Proof.
  induction a as [|x a IH].
  - cbn [app of_le length N.of_nat]. rewrite N.pow_0_r. lia.
  - cbn [app of_le length]. rewrite IH, Nat2N.inj_succ, N.pow_succ_r'. ring.
Qed.

Lemma of_le_zeros k : of_le (repeat 0 k) = 0.
Proof. induction k; cbn [repeat of_le]; lia. Qed.

Lemma of_unsigned_to_unsigned w z :
  0 < w -> (- 2 ^ (Z.of_N w - 1) <= z < 2 ^ (Z.of_N w - 1))%Z ->
  of_unsigned w (to_unsigned w z) = z.
Proof.
  intros Hw Hz. unfold of_unsigned, to_unsigned.
  assert (E : (2 ^ Z.of_N w = 2 * 2 ^ (Z.of_N w - 1))%Z).
  { rewrite <- Z.pow_succ_r by lia. f_equal. lia. }
  assert (P : (0 < 2 ^ (Z.of_N w - 1))%Z) by (apply Z.pow_pos_nonneg; lia).
  assert (Q : Z.of_N (2 ^ (w - 1)) = (2 ^ (Z.of_N w - 1))%Z).
  { rewrite N2Z.inj_pow. f_equal. lia. }
  set (P2 := (2 ^ (Z.of_N w - 1))%Z) in *. set (W := (2 ^ Z.of_N w)%Z) in *.
  set (h := 2 ^ (w - 1)) in *.
  assert (0 <= z mod W < W)%Z by (apply Z.mod_pos_bound; lia).
  destruct (Z_lt_le_dec z 0).
  - assert (z mod W = z + W)%Z.
    { symmetry. apply Z.mod_unique with (q := (-1)%Z); lia. }
    destruct (N.ltb_spec (Z.to_N (z mod W)) h); lia.
  - assert (z mod W = z)%Z by (apply Z.mod_small; lia).
    destruct (N.ltb_spec (Z.to_N (z mod W)) h); lia.
Qed.

Lemma to_unsigned_bound w z : to_unsigned w z < 2 ^ w.
Proof.
  unfold to_unsigned.
  assert (0 <= z mod 2 ^ Z.of_N w < 2 ^ Z.of_N w)%Z.
  { apply Z.mod_pos_bound. apply Z.pow_pos_nonneg; lia. }
  assert (Z.of_N (2 ^ w) = 2 ^ Z.of_N w)%Z by (rewrite N2Z.inj_pow; reflexivity).
  lia.
Qed.

(** [rt ok e d]: on every value satisfying [ok], [d] reads back what [e] wrote and
    leaves the rest of the input untouched. *)
Definition rt {A} (ok : A -> Prop) (e : A -> list N) (d : parser A) : Prop :=
  forall x rest, ok x -> d (e x ++ rest) = Some (x, rest).

Lemma firstn_app_exact {A} (a b : list A) : firstn (length a) (a ++ b) = a.
Proof. rewrite firstn_app, Nat.sub_diag, firstn_all. cbn. apply app_nil_r. Qed.
Lemma skipn_app_exact {A} (a b : list A) : skipn (length a) (a ++ b) = b.
Proof. rewrite skipn_app, Nat.sub_diag, skipn_all. reflexivity. Qed.

Lemma dec_uint_app k a b :
  length a = k -> dec_uint k (a ++ b) = Some (of_le a, b).
Proof.
  intros <-. unfold dec_uint. rewrite app_length.
  destruct (Nat.ltb_spec (length a + length b) (length a)); [lia|].
  now rewrite firstn_app_exact, skipn_app_exact.
Qed.

Lemma rt_uint k : rt (fun n => n < 256 ^ N.of_nat k) (enc_uint k) (dec_uint k).
Proof.
  intros n rest Hn. unfold enc_uint. rewrite dec_uint_app by apply le_bytes_length.
  rewrite of_le_le_bytes, N.mod_small by assumption. reflexivity.
Qed.

Lemma pow256 k : 256 ^ N.of_nat k = 2 ^ (8 * N.of_nat k).
Proof. change 256 with (2 ^ 8). rewrite <- N.pow_mul_r. reflexivity. Qed.

Definition int_ok (k : nat) (z : Z) : Prop :=
  (- 2 ^ (8 * Z.of_nat k - 1) <= z < 2 ^ (8 * Z.of_nat k - 1))%Z.

Lemma rt_int k : (0 < k)%nat -> rt (int_ok k) (enc_int k) (dec_int k).
Proof.
  intros Hk z rest Hz. unfold enc_int, dec_int, pbind.
  change (le_bytes k) with (enc_uint k).
  rewrite rt_uint by (rewrite pow256; apply to_unsigned_bound).
  unfold pret. rewrite of_unsigned_to_unsigned; [reflexivity|lia|].
  unfold int_ok in Hz. replace (Z.of_N (8 * N.of_nat k)) with (8 * Z.of_nat k)%Z by lia.
  exact Hz.
Qed.

Lemma rt_bool : rt (fun _ => True) enc_bool dec_bool.
Proof. intros [|] rest _; reflexivity. Qed.

Definition opt_ok {A} (ok : A -> Prop) (o : option A) : Prop :=
  match o with None => True | Some x => ok x end.

Lemma rt_option {A} ok (e : A -> list N) d : rt ok e d -> rt (opt_ok ok) (enc_option e) (dec_option d).
Proof.
  intros H [x|] rest Hx; cbn; [|reflexivity].
  rewrite H by exact Hx. reflexivity.
Qed.

Lemma dec_n_app {A} ok (e : A -> list N) d xs rest :
  rt ok e d -> Forall ok xs ->
  dec_n d (length xs) (concat (map e xs) ++ rest) = Some (xs, rest).
Proof.
  intros H F; induction F as [|x xs Hx _ IH]; cbn [length dec_n map concat].
  - reflexivity.
  - unfold pbind at 1. rewrite <- app_assoc, H by assumption.
    unfold pbind. rewrite IH. reflexivity.
Qed.

Lemma concat_map_length_ge {A} (e : A -> list N) xs :
  (forall x, (1 <= length (e x))%nat) -> (length xs <= length (concat (map e xs)))%nat.
Proof.
  intros H; induction xs as [|x xs IH]; cbn; [lia|].
  rewrite app_length. specialize (H x). lia.
Qed.

Definition vec_ok {A} (ok : A -> Prop) (xs : list A) : Prop :=
  N.of_nat (length xs) < 2 ^ 64 /\ Forall ok xs.

Lemma rt_vec {A} ok (e : A -> list N) d :
  (forall x, (1 <= length (e x))%nat) -> rt ok e d -> rt (vec_ok ok) (enc_vec e) (dec_vec d).
Proof.
  intros Hlen H xs rest [Hl F]. unfold enc_vec, dec_vec, pbind.
  rewrite <- app_assoc, rt_uint by exact Hl.
  rewrite app_length.
  pose proof (concat_map_length_ge e xs Hlen).
  destruct (N.ltb_spec (N.of_nat (length (concat (map e xs)) + length rest)) (N.of_nat (length xs))); [lia|].
  rewrite Nat2N.id. eapply dec_n_app; eauto.
Qed.

Definition is_bytes (l : list N) := Forall (fun b => b < 256) l.

Definition bytes_ok (s : list N) : Prop := N.of_nat (length s) < 2 ^ 64 /\ is_bytes s.

Lemma rt_bytes : rt bytes_ok enc_bytes dec_bytes.
Proof.
  intros s rest [Hs _]. unfold enc_bytes, dec_bytes, pbind.
  rewrite <- app_assoc, rt_uint by exact Hs. rewrite app_length.
  destruct (N.ltb_spec (N.of_nat (length s + length rest)) (N.of_nat (length s))); [lia|].
  rewrite Nat2N.id, firstn_app_exact, skipn_app_exact. reflexivity.
Qed.

Lemma enc_option_len {A} (e : A -> list N) o : (1 <= length (enc_option e o))%nat.
Proof. destruct o; cbn; lia. Qed.

(** Bytes of an encoding are bytes. *)
Lemma is_bytes_app a b : is_bytes (a ++ b) <-> is_bytes a /\ is_bytes b.
Proof. apply Forall_app. Qed.
Lemma is_bytes_uint k n : is_bytes (enc_uint k n).
Proof. apply le_bytes_byte. Qed.
Lemma is_bytes_int k n : is_bytes (enc_int k n).
Proof. apply le_bytes_byte. Qed.
Lemma is_bytes_bool b : is_bytes (enc_bool b).
Proof. destruct b; repeat constructor. Qed.
Lemma is_bytes_option {A} (ok : A -> Prop) e (o : option A) :
  (forall x, ok x -> is_bytes (e x)) -> opt_ok ok o -> is_bytes (enc_option e o).
Proof. intros H Ho. destruct o; cbn; repeat constructor. now apply H. Qed.
Lemma is_bytes_concat {A} (ok : A -> Prop) e (l : list A) :
  (forall x, ok x -> is_bytes (e x)) -> Forall ok l -> is_bytes (concat (map e l)).
Proof.
  intros H F; induction F; cbn [map concat]; [constructor|].
  apply is_bytes_app; auto.
Qed.
Lemma is_bytes_vec {A} (ok : A -> Prop) e (l : list A) :
  (forall x, ok x -> is_bytes (e x)) -> vec_ok ok l -> is_bytes (enc_vec e l).
Proof.
  intros H [_ F]. apply is_bytes_app; split; [apply is_bytes_uint|].
  eapply is_bytes_concat; eauto.
Qed.
Lemma is_bytes_bytes s : bytes_ok s -> is_bytes (enc_bytes s).
Proof. intros [_ H]. apply is_bytes_app; split; [apply is_bytes_uint|exact H]. Qed.
