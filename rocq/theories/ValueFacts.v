From Coq Require Import List NArith ZArith Lia Bool ZifyBool ZifyNat ZifyN.
From Verif Require Import Bytes BytesFacts Value.
Import ListNotations.
Local Open Scope N_scope.

(** Values the Rust types can hold: integers in range, lengths below 2^64. *)
Definition kv_ok (k : KeyValue) : Prop :=
  match k with
  | KInt8 z => int_ok 1 z | KInt16 z => int_ok 2 z | KInt32 z => int_ok 4 z
  | KInt64 z | KTimestamp z => int_ok 8 z
  | KString s => bytes_ok s
  end.

Definition olist_ok {A} (ok : A -> Prop) := opt_ok (vec_ok (opt_ok ok)).

Definition value_ok (v : Value) : Prop :=
  match v with
  | VNull => True
  | VInt8 o => opt_ok (int_ok 1) o | VInt16 o => opt_ok (int_ok 2) o
  | VInt32 o => opt_ok (int_ok 4) o
  | VInt64 o | VTimestamp o => opt_ok (int_ok 8) o
  | VBoolean o => True
  | VDecimal o => opt_ok (int_ok 16) o
  | VString o => opt_ok bytes_ok o
  | VListInt8 o => olist_ok (int_ok 1) o | VListInt16 o => olist_ok (int_ok 2) o
  | VListInt32 o => olist_ok (int_ok 4) o
  | VListInt64 o | VListTimestamp o => olist_ok (int_ok 8) o
  | VListBoolean o => olist_ok (fun _ => True) o
  | VListDecimal o => olist_ok (int_ok 16) o
  | VListString o => olist_ok bytes_ok o
  end.

Definition op_ok (o : LogOp) : Prop :=
  vec_ok kv_ok (op_keys o) /\ vec_ok value_ok (op_vals o).

Lemma tag_rt t rest : t < 2 ^ 32 -> dec_uint 4 (enc_uint 4 t ++ rest) = Some (t, rest).
Proof. intros; now apply rt_uint. Qed.

Lemma rt_key : rt kv_ok enc_key dec_key.
Proof.
  intros k rest Hk. unfold dec_key, pbind at 1.
  destruct k; cbn [enc_key]; rewrite <- app_assoc, tag_rt by (cbn; lia);
    unfold pmap, pbind.
  - rewrite rt_int by (auto; lia); reflexivity.
  - rewrite rt_int by (auto; lia); reflexivity.
  - rewrite rt_int by (auto; lia); reflexivity.
  - rewrite rt_int by (auto; lia); reflexivity.
  - rewrite rt_bytes by auto; reflexivity.
  - rewrite rt_int by (auto; lia); reflexivity.
Qed.

Lemma rt_olist {A} ok (e : A -> list N) d : rt ok e d -> rt (olist_ok ok) (enc_olist e) (dec_olist d).
Proof.
  intros H. apply rt_option, rt_vec; [apply enc_option_len|]. now apply rt_option.
Qed.

Lemma rt_value : rt value_ok enc_value dec_value.
Proof.
  intros v rest Hv. unfold dec_value, pbind at 1.
  destruct v; cbn [enc_value]; [rewrite tag_rt by (cbn; lia); reflexivity|..];
    rewrite <- app_assoc, tag_rt by (cbn; lia); unfold pmap, pbind; cbn [value_ok] in Hv.
  all: try (rewrite (rt_option (int_ok 1)) by first [exact Hv | apply rt_int; lia]; reflexivity).
  all: try (rewrite (rt_option (int_ok 2)) by first [exact Hv | apply rt_int; lia]; reflexivity).
  all: try (rewrite (rt_option (int_ok 4)) by first [exact Hv | apply rt_int; lia]; reflexivity).
  all: try (rewrite (rt_option (int_ok 8)) by first [exact Hv | apply rt_int; lia]; reflexivity).
  all: try (rewrite (rt_option (int_ok 16)) by first [exact Hv | apply rt_int; lia]; reflexivity).
  all: try (rewrite (rt_olist (int_ok 1)) by first [exact Hv | apply rt_int; lia]; reflexivity).
  all: try (rewrite (rt_olist (int_ok 2)) by first [exact Hv | apply rt_int; lia]; reflexivity).
  all: try (rewrite (rt_olist (int_ok 4)) by first [exact Hv | apply rt_int; lia]; reflexivity).
  all: try (rewrite (rt_olist (int_ok 8)) by first [exact Hv | apply rt_int; lia]; reflexivity).
  all: try (rewrite (rt_olist (int_ok 16)) by first [exact Hv | apply rt_int; lia]; reflexivity).
  - rewrite (rt_option (fun _ => True)); [reflexivity|apply rt_bool|destruct o; exact I].
  - rewrite (rt_option bytes_ok); [reflexivity|apply rt_bytes|exact Hv].
  - rewrite (rt_olist (fun _ => True)); [reflexivity|apply rt_bool|exact Hv].
  - rewrite (rt_olist bytes_ok); [reflexivity|apply rt_bytes|exact Hv].
Qed.

Lemma enc_key_len k : (1 <= length (enc_key k))%nat.
Proof. destruct k; cbn [enc_key]; rewrite app_length; unfold enc_uint; rewrite le_bytes_length; lia. Qed.
Lemma enc_value_len v : (1 <= length (enc_value v))%nat.
Proof.
  destruct v; cbn [enc_value]; rewrite ?app_length; unfold enc_uint; rewrite le_bytes_length; lia.
Qed.

Lemma rt_op : rt op_ok enc_op dec_op.
Proof.
  intros [ks vs] rest [Hk Hv]. cbn [op_keys op_vals] in *. unfold enc_op, dec_op, pbind; cbn [op_keys op_vals].
  rewrite <- !app_assoc, tag_rt by (cbn; lia).
  rewrite (rt_vec kv_ok); [|apply enc_key_len|apply rt_key|exact Hk].
  rewrite (rt_vec value_ok); [|apply enc_value_len|apply rt_value|exact Hv].
  reflexivity.
Qed.

Lemma deserialize_enc_op o rest : op_ok o -> deserialize_op (enc_op o ++ rest) = Some o.
Proof. intros H. unfold deserialize_op. now rewrite rt_op. Qed.

Lemma key_value_roundtrip k : key_of_value (value_of_key k) = Some k.
Proof. destruct k; reflexivity. Qed.

Lemma is_bytes_key k : kv_ok k -> is_bytes (enc_key k).
Proof.
  destruct k; cbn [enc_key]; intros H; apply is_bytes_app; split;
    auto using is_bytes_uint, is_bytes_int, is_bytes_bytes.
Qed.

Lemma is_bytes_olist {A} (ok : A -> Prop) e o :
  (forall x, ok x -> is_bytes (e x)) -> olist_ok ok o -> is_bytes (enc_olist e o).
Proof.
  intros H. apply is_bytes_option. intros x. apply is_bytes_vec. intros y. now apply is_bytes_option.
Qed.

Lemma is_bytes_value v : value_ok v -> is_bytes (enc_value v).
Proof.
  destruct v; cbn [enc_value value_ok]; intros H; [apply is_bytes_uint|..];
    apply is_bytes_app; (split; [apply is_bytes_uint|]);
    first [ eapply is_bytes_olist; [|exact H] | eapply is_bytes_option; [|exact H] | idtac ];
    auto using is_bytes_int, is_bytes_bytes, is_bytes_bool.
  apply (is_bytes_option (fun _ => True)); auto using is_bytes_bool. destruct o; exact I.
Qed.

Lemma is_bytes_op o : op_ok o -> is_bytes (enc_op o).
Proof.
  intros [Hk Hv]. unfold enc_op. apply is_bytes_app; split; [apply is_bytes_uint|].
  apply is_bytes_app; split; eapply is_bytes_vec; eauto using is_bytes_key, is_bytes_value.
Qed.
