(** Finite maps as association lists over a type with decidable equality: used for
    directories of files and for the key-value store. *)
From Coq Require Import List.
Import ListNotations.

Section AMap.
Context {K V : Type}.
Variable dec : forall a b : K, {a = b} + {a <> b}.

Fixpoint aget (k : K) (m : list (K * V)) : option V :=
  match m with
  | [] => None
  | (k', v) :: r => if dec k k' then Some v else aget k r
  end.
Fixpoint adel (k : K) (m : list (K * V)) : list (K * V) :=
  match m with
  | [] => []
  | (k', v) :: r => if dec k k' then adel k r else (k', v) :: adel k r
  end.
Definition aset (k : K) (v : V) (m : list (K * V)) : list (K * V) := (k, v) :: adel k m.
Definition akeys (m : list (K * V)) : list K := map fst m.

Lemma aget_adel_eq k m : aget k (adel k m) = None.
Proof.
  induction m as [|[k' v] r IH]; cbn; [reflexivity|].
  destruct (dec k k'); [exact IH|]. cbn. destruct (dec k k'); [contradiction|exact IH].
Qed.
Lemma aget_adel_ne k k' m : k <> k' -> aget k (adel k' m) = aget k m.
Proof.
  intros N. induction m as [|[k2 v] r IH]; cbn; [reflexivity|].
  destruct (dec k' k2) as [E|E].
  - subst k2. rewrite IH. destruct (dec k k'); [contradiction|reflexivity].
  - cbn. rewrite IH. reflexivity.
Qed.
Lemma aget_aset_eq k v m : aget k (aset k v m) = Some v.
Proof. cbn. destruct (dec k k); [reflexivity|contradiction]. Qed.
Lemma aget_aset_ne k k' v m : k <> k' -> aget k (aset k' v m) = aget k m.
Proof. intros N. cbn. destruct (dec k k'); [contradiction|]. now apply aget_adel_ne. Qed.
Lemma aget_aset k k' v m : aget k (aset k' v m) = if dec k k' then Some v else aget k m.
Proof. cbn. destruct (dec k k') as [|N]; [reflexivity|]. now apply aget_adel_ne. Qed.
Lemma aget_adel k k' m : aget k (adel k' m) = if dec k k' then None else aget k m.
Proof. destruct (dec k k') as [->|N]; [apply aget_adel_eq|now apply aget_adel_ne]. Qed.
Lemma aget_In k m : In k (akeys m) <-> exists v, aget k m = Some v.
Proof.
  induction m as [|[k' v] r IH]; cbn.
  - split; [contradiction|intros [v H]; discriminate].
  - destruct (dec k k') as [->|N].
    + split; [eauto|auto].
    + rewrite <- IH. split; [intros [E|H]; [congruence|auto]|auto].
Qed.
Lemma aget_None k m : ~ In k (akeys m) <-> aget k m = None.
Proof.
  rewrite aget_In. destruct (aget k m); split; intros H; try discriminate; try reflexivity.
  - exfalso. apply H. eauto.
  - intros [v E]. discriminate.
Qed.
Lemma akeys_adel k m : akeys (adel k m) = List.remove dec k (akeys m).
Proof.
  induction m as [|[k' v] r IH]; cbn; [reflexivity|].
  destruct (dec k k'); cbn; [exact IH|f_equal; exact IH].
Qed.
End AMap.
