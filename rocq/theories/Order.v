(** Total orders given by comparison functions, and their lexicographic extension
    (the derived [Ord] of Rust vectors, enums and tuples). *)
From Coq Require Import List NArith ZArith Lia Bool Sorted Permutation.
Import ListNotations.

Record TotalCmp {A} (cmp : A -> A -> comparison) : Prop := {
  tc_refl : forall x, cmp x x = Eq;
  tc_eq : forall x y, cmp x y = Eq -> x = y;
  tc_anti : forall x y, cmp y x = CompOpp (cmp x y);
  tc_trans : forall x y z, cmp x y = Lt -> cmp y z = Lt -> cmp x z = Lt
}.

Fixpoint lex_cmp {A} (cmp : A -> A -> comparison) (a b : list A) : comparison :=
  match a, b with
  | [], [] => Eq
  | [], _ :: _ => Lt
  | _ :: _, [] => Gt
  | x :: a', y :: b' => match cmp x y with Eq => lex_cmp cmp a' b' | c => c end
  end.

Lemma lex_total {A} (cmp : A -> A -> comparison) : TotalCmp cmp -> TotalCmp (lex_cmp cmp).
Proof.
  intros [R E An T]. split.
  - induction x; cbn; [reflexivity|]. now rewrite R.
  - induction x as [|x a IH]; destruct y as [|y b]; cbn; try discriminate; auto.
    destruct (cmp x y) eqn:C; try discriminate. intros H. apply E in C as ->. f_equal. auto.
  - induction x as [|x a IH]; destruct y as [|y b]; cbn; auto.
    rewrite (An x y). destruct (cmp x y); cbn; auto.
  - induction x as [|x a IH]; destruct y as [|y b]; destruct z as [|z c]; cbn; try discriminate; auto.
    destruct (cmp x y) eqn:C1; try discriminate.
    + apply E in C1 as ->. destruct (cmp y z) eqn:C2; try discriminate; auto. eauto.
    + intros _. destruct (cmp y z) eqn:C2; try discriminate.
      * apply E in C2 as ->. now rewrite C1.
      * intros _. now rewrite (T _ _ _ C1 C2).
Qed.

Lemma Zcmp_total : TotalCmp Z.compare.
Proof.
  split.
  - apply Z.compare_refl.
  - apply Z.compare_eq.
  - intros. apply Z.compare_antisym.
  - intros x y z. rewrite !Z.compare_lt_iff. lia.
Qed.
Lemma Ncmp_total : TotalCmp N.compare.
Proof.
  split.
  - apply N.compare_refl.
  - apply N.compare_eq.
  - intros. apply N.compare_antisym.
  - intros x y z. rewrite !N.compare_lt_iff. lia.
Qed.

(** Orders pulled back along an injective code. *)
Lemma code_total {A B} (cmp : B -> B -> comparison) (f : A -> B) :
  TotalCmp cmp -> (forall x y, f x = f y -> x = y) -> TotalCmp (fun x y => cmp (f x) (f y)).
Proof. intros [R E An T] I; split; intros; eauto. Qed.

Definition cle {A} (cmp : A -> A -> comparison) (a b : A) : Prop := cmp a b <> Gt.
Definition clt {A} (cmp : A -> A -> comparison) (a b : A) : Prop := cmp a b = Lt.

Section Facts.
Context {A} (cmp : A -> A -> comparison) (T : TotalCmp cmp).

Lemma cle_refl a : cle cmp a a.
Proof. unfold cle. rewrite (tc_refl _ T). discriminate. Qed.
Lemma cle_total a b : cle cmp a b \/ cle cmp b a.
Proof. unfold cle. rewrite (tc_anti _ T a b). destruct (cmp a b); cbn; [left|left|right]; discriminate. Qed.
Lemma clt_trans a b c : clt cmp a b -> clt cmp b c -> clt cmp a c.
Proof. apply (tc_trans _ T). Qed.
Lemma clt_irrefl a : ~ clt cmp a a.
Proof. unfold clt. rewrite (tc_refl _ T). discriminate. Qed.
Lemma cle_lt_eq a b : cle cmp a b -> clt cmp a b \/ a = b.
Proof.
  unfold cle, clt. destruct (cmp a b) eqn:C; auto; [|congruence].
  right. now apply (tc_eq _ T).
Qed.
Lemma clt_le a b : clt cmp a b -> cle cmp a b.
Proof. unfold clt, cle. congruence. Qed.
Lemma cle_trans a b c : cle cmp a b -> cle cmp b c -> cle cmp a c.
Proof.
  intros H1 H2. apply cle_lt_eq in H1 as [H1| ->]; [|exact H2].
  apply cle_lt_eq in H2 as [H2| <-]; [|now apply clt_le].
  apply clt_le. eapply clt_trans; eauto.
Qed.
Lemma cle_antisym a b : cle cmp a b -> cle cmp b a -> a = b.
Proof.
  intros H1 H2. apply cle_lt_eq in H1 as [H1|]; [|assumption].
  unfold clt, cle in *. rewrite (tc_anti _ T a b), H1 in H2. cbn in H2. congruence.
Qed.
Lemma not_cle a b : cmp a b = Gt -> clt cmp b a.
Proof. intros H. unfold clt. rewrite (tc_anti _ T a b), H. reflexivity. Qed.
Lemma clt_not_le a b : clt cmp a b -> ~ cle cmp b a.
Proof. unfold clt, cle. intros H. rewrite (tc_anti _ T a b), H. cbn. congruence. Qed.
Lemma cle_lt_trans a b c : cle cmp a b -> clt cmp b c -> clt cmp a c.
Proof.
  intros H1 H2. apply cle_lt_eq in H1 as [H1| ->]; [|exact H2]. eapply clt_trans; eauto.
Qed.
Lemma clt_le_trans a b c : clt cmp a b -> cle cmp b c -> clt cmp a c.
Proof.
  intros H1 H2. apply cle_lt_eq in H2 as [H2| <-]; [|exact H1]. eapply clt_trans; eauto.
Qed.
End Facts.

(** Stable insertion sort by a key; a concrete instance of the sorting contract. *)
Section Sort.
Context {A K} (cmp : K -> K -> comparison) (key : A -> K).
Fixpoint insert_by (x : A) (l : list A) : list A :=
  match l with
  | [] => [x]
  | y :: r => match cmp (key x) (key y) with Gt => y :: insert_by x r | _ => x :: l end
  end.
Definition sort_by (l : list A) : list A := fold_right insert_by [] l.

Definition sorted_by (l : list A) : Prop :=
  StronglySorted (fun a b => cle cmp (key a) (key b)) l.

Lemma insert_by_perm x l : Permutation (x :: l) (insert_by x l).
Proof.
  induction l as [|y l IH]; cbn; [reflexivity|].
  destruct (cmp (key x) (key y)); [reflexivity|reflexivity|].
  rewrite perm_swap. now constructor.
Qed.
Lemma sort_by_perm l : Permutation l (sort_by l).
Proof.
  induction l as [|x l IH]; cbn; [reflexivity|].
  rewrite <- insert_by_perm. now constructor.
Qed.
Context (T : TotalCmp cmp).
Lemma insert_by_sorted x l : sorted_by l -> sorted_by (insert_by x l).
Proof.
  intros H; induction H as [|y l Hs IH Hy]; cbn.
  - repeat constructor.
  - destruct (cmp (key x) (key y)) eqn:C.
    + constructor; [now constructor|]. constructor; [unfold cle; congruence|].
      eapply Forall_impl; [|exact Hy]. intros z Hz. eapply (cle_trans cmp T); [|exact Hz].
      unfold cle; congruence.
    + constructor; [now constructor|]. constructor; [unfold cle; congruence|].
      eapply Forall_impl; [|exact Hy]. intros z Hz. eapply (cle_trans cmp T); [|exact Hz].
      unfold cle; congruence.
    + constructor; [exact IH|].
      rewrite <- insert_by_perm. constructor; [|exact Hy].
      apply (clt_le cmp). now apply (not_cle cmp T).
Qed.
Lemma sort_by_sorted l : sorted_by (sort_by l).
Proof.
  induction l; cbn; [constructor|]. now apply insert_by_sorted.
Qed.
End Sort.
