(** List lemmas shared by the storage proofs. *)
From Coq Require Import List Arith Lia Bool Permutation Sorted.
From Verif Require Import Memtable.
Import ListNotations.

Lemma mapM_Some_map {A B} (f : A -> option B) (g : A -> B) l :
  (forall x, In x l -> f x = Some (g x)) -> mapM f l = Some (map g l).
Proof.
  induction l as [|x l IH]; intros H; cbn; [reflexivity|].
  rewrite H by (left; reflexivity). rewrite IH; auto. intros; apply H; now right.
Qed.

Lemma mapM_length {A B} (f : A -> option B) l ys : mapM f l = Some ys -> length ys = length l.
Proof.
  revert ys; induction l as [|x l IH]; cbn; intros ys H.
  - now injection H as <-.
  - destruct (f x); [|discriminate]. destruct (mapM f l); [|discriminate].
    injection H as <-. cbn. f_equal. auto.
Qed.

Lemma mapM_nth {A B} (f : A -> option B) l ys i x :
  mapM f l = Some ys -> nth_error l i = Some x ->
  exists y, nth_error ys i = Some y /\ f x = Some y.
Proof.
  revert ys i; induction l as [|a l IH]; cbn; intros ys i H Hi.
  - destruct i; discriminate.
  - destruct (f a) eqn:Fa; [|discriminate]. destruct (mapM f l) eqn:Fl; [|discriminate].
    injection H as <-. destruct i; cbn in *.
    + injection Hi as ->. eauto.
    + eauto.
Qed.

Lemma mapM_app {A B} (f : A -> option B) a b :
  mapM f (a ++ b) = match mapM f a, mapM f b with Some x, Some y => Some (x ++ y) | _, _ => None end.
Proof.
  induction a as [|x a IH]; cbn; [now destruct (mapM f b)|].
  rewrite IH. destruct (f x); [|reflexivity]. destruct (mapM f a); [|reflexivity].
  now destruct (mapM f b).
Qed.

Lemma mapM_map {A B C} (f : B -> option C) (g : A -> B) l :
  mapM f (map g l) = mapM (fun x => f (g x)) l.
Proof. induction l as [|x l IH]; cbn; [reflexivity|]. now rewrite IH. Qed.

Lemma mapM_ext {A B} (f g : A -> option B) l :
  (forall x, In x l -> f x = g x) -> mapM f l = mapM g l.
Proof.
  induction l as [|x l IH]; intros H; cbn; [reflexivity|].
  rewrite H by (left; reflexivity). rewrite IH; auto. intros; apply H; now right.
Qed.

Lemma mapM_Forall {A B} (f : A -> option B) l :
  (forall x, In x l -> exists y, f x = Some y) -> exists ys, mapM f l = Some ys.
Proof.
  induction l as [|x l IH]; intros H; cbn; [eauto|].
  destruct (H x (or_introl eq_refl)) as [y ->].
  destruct IH as [ys ->]; eauto. intros; apply H; now right.
Qed.

Lemma map_nth_seq {A} (l : list A) d : map (fun i => nth i l d) (seq 0 (length l)) = l.
Proof.
  induction l as [|x l IH]; cbn; [reflexivity|].
  f_equal. rewrite <- seq_shift, map_map. exact IH.
Qed.

Lemma Permutation_map_nth {A} (l : list A) d p :
  Permutation p (seq 0 (length l)) -> Permutation (map (fun i => nth i l d) p) l.
Proof.
  intros H. transitivity (map (fun i => nth i l d) (seq 0 (length l))).
  - now apply Permutation_map.
  - now rewrite map_nth_seq.
Qed.

Lemma nth_firstn {A} i n (l : list A) d : i < n -> nth i (firstn n l) d = nth i l d.
Proof.
  revert n l; induction i; intros n l H; destruct n; try lia; destruct l; cbn; auto.
  apply IHi. lia.
Qed.

Lemma StronglySorted_map {A B} (f : A -> B) (R : B -> B -> Prop) l :
  StronglySorted (fun a b => R (f a) (f b)) l -> StronglySorted R (map f l).
Proof.
  intros H; induction H; cbn; constructor; auto.
  rewrite Forall_map. auto.
Qed.

Lemma StronglySorted_weaken_in {A} (P : A -> Prop) (R S : A -> A -> Prop) l :
  Forall P l -> (forall a b, P a -> P b -> R a b -> S a b) -> StronglySorted R l -> StronglySorted S l.
Proof.
  intros HP HRS H; induction H as [|a l Hs IH Ha]; constructor.
  - apply IH. now inversion HP.
  - inversion HP; subst. rewrite Forall_forall in *. intros b Hb. apply HRS; auto.
Qed.

(** Sub-list by positions. *)
Lemma select_from_map {A B} (f : A -> B) i l cols :
  select_from i (map f l) cols = map f (select_from i l cols).
Proof.
  revert i; induction l as [|x l IH]; intros i; cbn; [reflexivity|].
  destruct (existsb _ _); cbn; now rewrite IH.
Qed.

Lemma select_from_length {A B} i (l : list A) (l' : list B) cols :
  length l = length l' -> length (select_from i l cols) = length (select_from i l' cols).
Proof.
  revert i l'; induction l as [|x l IH]; destruct l' as [|y l']; cbn; try discriminate; auto.
  intros E. injection E as E. destruct (existsb _ _); cbn; auto.
Qed.

Lemma select_from_In {A} i (l : list A) cols x : In x (select_from i l cols) -> In x l.
Proof.
  revert i; induction l as [|y l IH]; intros i; cbn; [tauto|].
  destruct (existsb _ _); cbn; intuition eauto.
Qed.

Lemma Permutation_length_eq {A} (a b : list A) : Permutation a b -> length a = length b.
Proof. apply Permutation_length. Qed.

Lemma nth_error_Some_nth {A} (l : list A) i d : i < length l -> nth_error l i = Some (nth i l d).
Proof.
  revert i; induction l as [|x l IH]; intros i H; cbn in *; [lia|].
  destruct i; cbn; [reflexivity|]. apply IH. lia.
Qed.

Lemma Permutation_filter {A} (p : A -> bool) (a b : list A) :
  Permutation a b -> Permutation (filter p a) (filter p b).
Proof.
  induction 1; cbn; auto.
  - destruct (p x); auto.
  - destruct (p x), (p y); auto. apply perm_swap.
  - etransitivity; eauto.
Qed.
