(** Property C26: sequence numbers under concurrency. *)
From Coq Require Import List NArith Bool Arith Lia.
From Verif Require Import SeqRace.
Import ListNotations.

(** ** Two requests *)
(** The order of the steps of two transactions that both complete: each reads, puts and commits. *)
Definition steps_of (i : nat) : list Step := [Read i; Put i; Commit i].
Inductive interleaving {A} : list A -> list A -> list A -> Prop :=
| il_nil : interleaving [] [] []
| il_left x a b c : interleaving a b c -> interleaving (x :: a) b (x :: c)
| il_right x a b c : interleaving a b c -> interleaving a (x :: b) (x :: c).
Fixpoint before (x y : Step) (l : list Step) : Prop :=
  match l with
  | [] => False
  | z :: r => (z = x /\ In y r) \/ before x y r
  end.

Ltac pick := solve [reflexivity | split; pick | left; pick | right; pick].
Ltac inv H := inversion H; subst; clear H.
Lemma il_right_all {A} (b c : list A) : interleaving [] b c -> c = b.
Proof. revert c. induction b as [|x b IH]; intros c H; inv H; [reflexivity|]. f_equal. auto. Qed.
Lemma il_left_all {A} (a c : list A) : interleaving a [] c -> c = a.
Proof. revert c. induction a as [|x a IH]; intros c H; inv H; [reflexivity|]. f_equal. auto. Qed.

(** Both requests get the same number exactly when each reads before the other commits: the
    full statement is false, for every overlap. *)
Theorem C26_two_requests_refuted :
  forall v l i j n m, i <> j -> interleaving (steps_of i) (steps_of j) l ->
    rc_tx (race_run l (race_start v)) i = Done n -> rc_tx (race_run l (race_start v)) j = Done m ->
    (n = m <-> before (Read i) (Commit j) l /\ before (Read j) (Commit i) l).
Proof.
  intros v l i j n m Nij H.
  assert (Nji : (j =? i) = false) by (now apply Nat.eqb_neq, not_eq_sym).
  assert (Nij' : (i =? j) = false) by now apply Nat.eqb_neq.
  assert (NS : next_of (Some (next_of v)) <> next_of v) by (destruct v; cbn; lia).
  unfold steps_of in H.
  repeat match goal with
  | H : interleaving [] _ _ |- _ => apply il_right_all in H; subst
  | H : interleaving _ [] _ |- _ => apply il_left_all in H; subst
  | H : interleaving (_ :: _) (_ :: _) _ |- _ => inv H
  end;
  repeat (progress (cbn [race_run fold_left race_step race_start rc_tx rc_val rc_lock set_tx]; unfold set_tx; rewrite ?Nat.eqb_refl, ?Nji, ?Nij'));
  unfold race_run; cbn [fold_left];
  repeat (progress (cbn [race_step race_start rc_tx rc_val rc_lock]; unfold set_tx; rewrite ?Nat.eqb_refl, ?Nji, ?Nij'));
  intros H1 H2; try discriminate; injection H1 as <-; injection H2 as <-; cbn [before In];
  (split; [intro E; try (exfalso; cbn in E; lia); split; pick|intros [A B]; try reflexivity; exfalso; intuition congruence]).
Qed.
Print Assumptions C26_two_requests_refuted.
(** Not only is it possible: whatever the sequence holds, two overlapping requests both succeed
    with the same number. *)
Theorem C26_same_number_refuted :
  forall v i j, i <> j -> exists l, interleaving (steps_of i) (steps_of j) l /\
    rc_tx (race_run l (race_start v)) i = Done (next_of v) /\ rc_tx (race_run l (race_start v)) j = Done (next_of v).
Proof.
  intros v i j Nij. assert (Nji : (j =? i) = false) by (now apply Nat.eqb_neq, not_eq_sym).
  assert (Nij' : (i =? j) = false) by now apply Nat.eqb_neq.
  exists [Read i; Read j; Put i; Commit i; Put j; Commit j]. split; [repeat constructor|].
  unfold race_run; cbn [fold_left];
  repeat (progress (cbn [race_step race_start rc_tx rc_val rc_lock]; unfold set_tx; rewrite ?Nat.eqb_refl, ?Nji, ?Nij')). auto.
Qed.
Print Assumptions C26_same_number_refuted.
(** Even two requests one of which starts after the other is finished may get one number, when
    others run meanwhile. *)
Theorem C26_later_request_refuted :
  forall v, exists l, let r := race_run l (race_start v) in
    before (Commit 2) (Read 4) l /\ exists n, rc_tx r 2 = Done n /\ rc_tx r 4 = Done n.
Proof.
  intro v. exists [Read 0; Read 1; Put 1; Commit 1; Read 2; Put 2; Commit 2; Put 0; Commit 0; Read 4; Put 4; Commit 4].
  split; [cbn; tauto|]. destruct v as [n|]; cbn; eexists; split; reflexivity.
Qed.
Print Assumptions C26_later_request_refuted.

(** ** What holds *)
Definition open_tx (r : Race) (i : nat) : Prop := match rc_tx r i with Got _ | Pending _ => True | _ => False end.
(** In every execution in which no request commits while another one is between its read and
    its commit. *)
Fixpoint undisturbed (l : list Step) (r : Race) : Prop :=
  match l with
  | [] => True
  | a :: rest => (match a with Commit i => forall j, j <> i -> ~ open_tx r j | _ => True end) /\ undisturbed rest (race_step r a)
  end.
Definition le_opt (n : N) (v : option N) : Prop := match v with Some m => (n <= m)%N | None => False end.
Record RaceOk (r : Race) : Prop := {
  ro_got : forall i v, rc_tx r i = Got v -> v = rc_val r;
  ro_pend : forall i n, rc_tx r i = Pending n -> n = next_of (rc_val r) /\ rc_lock r = Some i;
  ro_done : forall i n, rc_tx r i = Done n -> le_opt n (rc_val r);
  ro_inj : forall i j n, rc_tx r i = Done n -> rc_tx r j = Done n -> i = j
}.
Lemma race_ok_run l : forall r, RaceOk r -> undisturbed l r -> RaceOk (race_run l r).
Proof.
  induction l as [|a l IH]; intros r Hr U; [exact Hr|]. destruct U as [Ua U]. apply IH; [|exact U]. clear IH U.
  destruct Hr as [G P D J]. destruct a as [i|i|i|i]; cbn [race_step].
  - destruct (rc_tx r i) eqn:E; try (constructor; assumption). constructor; cbn; unfold set_tx.
    + intros k v. destruct (Nat.eqb_spec k i) as [->|]; [intros [= <-]; reflexivity|apply G].
    + intros k n. destruct (Nat.eqb_spec k i) as [->|]; [discriminate|apply P].
    + intros k n. destruct (Nat.eqb_spec k i) as [->|]; [discriminate|apply D].
    + intros k k' n. destruct (Nat.eqb_spec k i), (Nat.eqb_spec k' i); try discriminate. apply J.
  - destruct (rc_tx r i) eqn:E; try (constructor; assumption). destruct (rc_lock r) eqn:L; [constructor; rewrite ?L; assumption|].
    constructor; cbn; unfold set_tx.
    + intros k w. destruct (Nat.eqb_spec k i) as [->|]; [discriminate|apply G].
    + intros k n. destruct (Nat.eqb_spec k i) as [->|]; [intros [= <-]; now rewrite (G _ _ E)|]. intro H. destruct (P _ _ H). congruence.
    + intros k n. destruct (Nat.eqb_spec k i) as [->|]; [discriminate|apply D].
    + intros k k' n. destruct (Nat.eqb_spec k i), (Nat.eqb_spec k' i); try discriminate. apply J.
  - destruct (rc_tx r i) eqn:E; try (constructor; assumption). destruct (P _ _ E) as [-> L].
    assert (Nw : forall k m, rc_tx r k = Done m -> (m < next_of (rc_val r))%N).
    { intros k m H. specialize (D _ _ H). destruct (rc_val r); cbn in *; [lia|contradiction]. }
    constructor; cbn; unfold set_tx.
    + intros k w. destruct (Nat.eqb_spec k i) as [->|Ne]; [discriminate|]. intro H. exfalso. apply (Ua k Ne). unfold open_tx. now rewrite H.
    + intros k m. destruct (Nat.eqb_spec k i) as [->|Ne]; [discriminate|]. intro H. exfalso. apply (Ua k Ne). unfold open_tx. now rewrite H.
    + intros k m. destruct (Nat.eqb_spec k i) as [->|]; [intros [= <-]; lia|]. intro H. specialize (Nw _ _ H). lia.
    + intros k k' m. destruct (Nat.eqb_spec k i) as [->|], (Nat.eqb_spec k' i) as [->|]; auto.
      * intros [= <-] H. specialize (Nw _ _ H). lia.
      * intros H [= <-]. specialize (Nw _ _ H). lia.
      * apply J.
  - destruct (rc_tx r i) eqn:E; try (constructor; assumption). constructor; cbn; unfold set_tx.
    + intros k w. destruct (Nat.eqb_spec k i) as [->|]; [discriminate|apply G].
    + intros k n. destruct (Nat.eqb_spec k i) as [->|]; [discriminate|apply P].
    + intros k n. destruct (Nat.eqb_spec k i) as [->|]; [discriminate|apply D].
    + intros k k' n. destruct (Nat.eqb_spec k i), (Nat.eqb_spec k' i); try discriminate. apply J.
Qed.
Theorem C26_undisturbed_partial :
  forall v l, undisturbed l (race_start v) -> forall i j n,
    rc_tx (race_run l (race_start v)) i = Done n -> rc_tx (race_run l (race_start v)) j = Done n -> i = j.
Proof.
  intros v l U. apply ro_inj, race_ok_run; [|exact U]. constructor; cbn; discriminate.
Qed.
Print Assumptions C26_undisturbed_partial.
(** One request after the other: any number of them all succeed, with consecutive numbers. *)
Theorem C26_serial_partial :
  forall v order, NoDup order ->
    let r := race_run (flat_map steps_of order) (race_start v) in
    forall k i, nth_error order k = Some i -> rc_tx r i = Done (next_of v + N.of_nat k)%N.
Proof.
  intros v order Nd r.
  assert (H : forall order r0, NoDup order -> rc_lock r0 = None -> (forall i, In i order -> rc_tx r0 i = Idle) ->
    forall r, r = race_run (flat_map steps_of order) r0 ->
    (forall k i, nth_error order k = Some i -> rc_tx r i = Done (next_of (rc_val r0) + N.of_nat k)%N) /\
    (forall i, ~ In i order -> rc_tx r i = rc_tx r0 i)).
  { clear. induction order as [|x order IH]; intros r0 Nd L I0 r ->; [split; [intros [|k]; discriminate|auto]|].
    inversion Nd as [|? ? Hx Nd']; subst. cbn [flat_map]. unfold race_run. rewrite fold_left_app.
    set (r1 := fold_left race_step (steps_of x) r0).
    assert (E1 : rc_val r1 = Some (next_of (rc_val r0)) /\ rc_lock r1 = None /\ rc_tx r1 x = Done (next_of (rc_val r0)) /\ forall i, i <> x -> rc_tx r1 i = rc_tx r0 i).
    { unfold r1, steps_of. cbn [fold_left race_step]. rewrite (I0 x) by now left.
      repeat (progress (cbn [race_step rc_tx rc_val rc_lock]; unfold set_tx; rewrite ?Nat.eqb_refl, ?L)).
      repeat split. intros i Ni. apply Nat.eqb_neq in Ni. now rewrite Ni. }
    destruct E1 as (Ev & El & Ex & Eo).
    destruct (IH r1 Nd' El) with (r := race_run (flat_map steps_of order) r1) as [A B]; [|reflexivity|].
    - intros i Hi. rewrite Eo; [apply I0; now right|]. intros ->. contradiction.
    - unfold race_run in A, B. split.
      + intros [|k] i Hk; cbn in Hk.
        * injection Hk as <-. rewrite B by exact Hx. rewrite Ex. f_equal. lia.
        * rewrite (A _ _ Hk), Ev. f_equal. cbn [next_of]. lia.
      + intros i Hi. rewrite B by (intro; apply Hi; now right). apply Eo. intros ->. apply Hi. now left. }
  intros k i Hk. now apply (H order (race_start v) Nd eq_refl (fun _ _ => eq_refl) r eq_refl).
Qed.
Print Assumptions C26_serial_partial.
Example C26_witness :
  undisturbed [Read 0; Put 0; Commit 0; Read 1; GiveUp 1; Read 2; Put 2; Commit 2] (race_start (Some 4%N)) /\
  rc_tx (race_run [Read 0; Put 0; Commit 0; Read 1; GiveUp 1; Read 2; Put 2; Commit 2] (race_start (Some 4%N))) 2 = Done 6%N /\
  interleaving (steps_of 0) (steps_of 1) [Read 0; Read 1; Put 1; Commit 1; Put 0; Commit 0].
Proof.
  split; [|split; [reflexivity|repeat constructor]].
  cbn -[race_step]. repeat split; intros j Hj; unfold open_tx; cbn; unfold set_tx;
  repeat match goal with |- context [Nat.eqb j ?x] => destruct (Nat.eqb_spec j x) as [->|] end; try congruence; auto.
Qed.
