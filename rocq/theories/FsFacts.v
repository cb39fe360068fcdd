(** Facts about the open-file counters. *)
From Coq Require Import List NArith Bool Lia.
From Verif Require Import AMap Fs.
Import ListNotations.
Local Open Scope N_scope.

Section Facts.
Variable path : Type.
Variable pdec : forall a b : path, {a = b} + {a <> b}.
Notation run := (fs_run path pdec).
Notation step := (fs_step path pdec).
Notation count := (count_of path pdec).

(** Specification: how often a history opened and released a file. *)
Definition opens (h : list (FsCall path)) (p : path) : nat :=
  length (filter (fun c => match c with FOpen q => if pdec p q then true else false | _ => false end) h).
Definition closes (h : list (FsCall path)) (p : path) : nat :=
  length (filter (fun c => match c with FClose q => if pdec p q then true else false | _ => false end) h).

Lemma opens_app a b p : opens (a ++ b) p = (opens a p + opens b p)%nat.
Proof. unfold opens. now rewrite filter_app, app_length. Qed.
Lemma closes_app a b p : closes (a ++ b) p = (closes a p + closes b p)%nat.
Proof. unfold closes. now rewrite filter_app, app_length. Qed.

Lemma run_app a : forall s b, run s (a ++ b) = match run s a with Some s' => run s' b | None => None end.
Proof. induction a as [|c a IH]; intros s b; [reflexivity|]. cbn. destruct (step s c); [apply IH|reflexivity]. Qed.

Lemma count_set s f p q n : count (mkFs (aset pdec q n (fs_count s)) f) p = if pdec p q then n else count s p.
Proof. unfold count_of. cbn [fs_count]. rewrite aget_aset. now destruct (pdec p q). Qed.

Lemma run_count h : forall s s' p, run s h = Some s' ->
  N.of_nat (opens h p) + count s p = N.of_nat (closes h p) + count s' p.
Proof.
  induction h as [|c h IH]; intros s s' p R.
  - inversion R; reflexivity.
  - cbn [fs_run] in R. destruct (step s c) as [s1|] eqn:E; [|discriminate].
    specialize (IH _ _ p R).
    assert (O : opens (c :: h) p = (opens [c] p + opens h p)%nat) by apply (opens_app [c]).
    assert (C : closes (c :: h) p = (closes [c] p + closes h p)%nat) by apply (closes_app [c]).
    rewrite O, C, !Nat2N.inj_add.
    assert (K : N.of_nat (opens [c] p) + count s p = N.of_nat (closes [c] p) + count s1 p); [|lia].
    clear IH R O C. destruct c as [q|q|q|q]; cbn [fs_step] in E.
    + inversion E; subst s1. rewrite count_set. unfold opens, closes. cbn [filter]. destruct (pdec p q) as [->|]; cbn [length]; lia.
    + destruct (N.eqb_spec (count s q) 0); [discriminate|]. inversion E; subst s1.
      rewrite count_set. unfold opens, closes. cbn [filter]. destruct (pdec p q) as [->|]; cbn [length]; lia.
    + destruct (is_opened path pdec s q); inversion E; subst s1; reflexivity.
    + inversion E; subst s1. reflexivity.
Qed.
Lemma is_opened_count s p : is_opened path pdec s p = negb (count s p =? 0).
Proof. unfold is_opened, count_of. now destruct (aget pdec p (fs_count s)). Qed.

Lemma step_keeps_file s c s' p :
  step s c = Some s' -> In p (fs_files s) -> (c = FTryRemove p -> count s p <> 0) -> In p (fs_files s').
Proof.
  intros E I H. destruct c as [q|q|q|q]; cbn [fs_step] in E.
  - inversion E; exact I.
  - destruct (count s q =? 0); inversion E; exact I.
  - rewrite is_opened_count in E. destruct (N.eqb_spec (count s q) 0) as [Z|Z]; cbn in E; inversion E; subst s'; [|exact I].
    cbn. apply in_in_remove; [|exact I]. intros ->. now apply H.
  - inversion E; subst s'. right. exact I.
Qed.

(** The file stays as long as it is held at every removal request. *)
Lemma held_file_stays h2 : forall s s' p,
  run s h2 = Some s' -> In p (fs_files s) ->
  (forall a b, h2 = a ++ FTryRemove p :: b -> (closes a p < opens a p + N.to_nat (count s p))%nat) ->
  In p (fs_files s').
Proof.
  induction h2 as [|c h IH]; intros s s' p R I H.
  - inversion R; subst; exact I.
  - cbn in R. destruct (step s c) as [s1|] eqn:E; [|discriminate].
    apply (IH s1); [exact R| |].
    + eapply step_keeps_file; [exact E|exact I|]. intros ->. specialize (H [] h eq_refl). cbn in H. lia.
    + intros a b ->. specialize (H (c :: a) b eq_refl).
      assert (R1 : run s [c] = Some s1) by (cbn; now rewrite E).
      pose proof (run_count _ _ _ p R1) as K.
      change (c :: a) with ([c] ++ a) in H. rewrite opens_app, closes_app in H. lia.
Qed.
End Facts.
